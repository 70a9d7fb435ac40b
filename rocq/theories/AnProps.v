(** Property C133: content negotiation. *)
From Coq Require Import Lia String Permutation.
From Verif Require Import Py Num UriModel UriRel HttpModel HttpParamModel HttpParamProofs AnModel AnSpec AnProofs.
Open Scope Z_scope.

(** ** Accept: the media type with the best quality, the first of equals *)
Theorem select_type_exact : forall items mtypes, Forall (fun i => range_ok (arange i)) items -> Forall (fun m => NoDup (map fst (mt_params m))) mtypes ->
  exists f, (forall m, In m mtypes -> quality items m (f m)) /\ chosen f mtypes (select_type (accept_list items) mtypes).
Proof.
  intros items mtypes Hi Hm. exists (fun m => first_q (fun i => match_media_type (arange i) m) aq (accept_list items)). split; [|apply fold_chosen].
  intros m Hin. rewrite Forall_forall in Hi, Hm. specialize (Hm m Hin). unfold accept_list. pose proof (first_sort cmp_item good_item (fun i => match_media_type (arange i) m) aq items) as H.
  destruct (first_q _ _ _) as [q|].
  - destruct H as (i & I1 & I2 & -> & I4). apply quality_some; [exact I1|apply match_exact; assumption| |].
    + intros j Hj Hr. apply (range_specific (arange i) (arange j) m); [exact (Hi i I1)|exact (Hi j Hj)|apply match_exact; assumption|exact Hr|]. apply (match_exact _ _ Hm) in Hr. specialize (I4 j Hj Hr). unfold le_, cmp_item in I4. destruct (cmp_range (arange i) (arange j)); [discriminate|discriminate|exact I4].
    + intros j Hj E. assert (Hr : match_media_type (arange j) m = true) by (rewrite E; exact I2). apply item_q; [exact (I4 j Hj Hr)|]. rewrite E. apply good_refl. exact good_range.
  - apply quality_none. intros j Hj Hr. apply (match_exact _ _ Hm) in Hr. rewrite (H j Hj) in Hr. discriminate.
Qed.
(** the order of the items in the header does not count *)
Theorem select_type_order : forall items items' mtypes, Permutation items items' -> select_type (accept_list items) mtypes = select_type (accept_list items') mtypes.
Proof.
  intros items items' mtypes Hp. unfold select_type. f_equal. apply fold_ext. intros b m. f_equal. apply first_order; [exact good_item| |exact Hp].
  intros i j E. unfold cmp_item in E. destruct (cmp_range (arange i) (arange j)); cbn [lexi] in E; try discriminate. apply Z.compare_eq in E. lia.
Qed.

(** ** Tokens *)
Lemma match_token_exact : forall t i, match_token t i = true <-> same_name (token i) t \/ token i = star.
Proof. intros t i. unfold match_token, same_name. rewrite orb_true_iff, !str_eqb_eq, lower_star. reflexivity. Qed.
Lemma token_quality_exact : forall items t, Forall (fun i => below_tilde (token i)) items -> token_quality items t (first_q (match_token t) tq (token_list items)).
Proof.
  intros items t Hb. rewrite Forall_forall in Hb. unfold token_list. pose proof (first_sort cmp_tok good_tok (match_token t) tq items) as H.
  assert (Hq : forall i j, le_ cmp_tok i j -> token j = token i -> tq j <= tq i) by (intros i j L E; unfold le_, cmp_tok in L; rewrite E, cmp_refl in L; cbn [lexi] in L; change (- tq i <= - tq j) in L; lia).
  destruct (first_q _ _ _) as [q|].
  - destruct H as (i & I1 & I2 & -> & I4). destruct (str_eqb (u_lower (token i)) (u_lower t)) eqn:E.
    + apply str_eqb_eq in E. apply token_named; [exact I1|exact E|]. intros j Hj Ej. apply Hq; [|exact Ej]. apply I4; [exact Hj|]. apply match_token_exact. left. unfold same_name. rewrite Ej. exact E.
    + apply str_eqb_neq in E. apply match_token_exact in I2. destruct I2 as [I2|I2]; [unfold same_name in I2; congruence|]. apply token_star; [|exact I1|exact I2|].
      * intros j Hj Es. assert (L : le_ cmp_tok i j) by (apply I4; [exact Hj|apply match_token_exact; left; exact Es]). unfold le_, cmp_tok in L. rewrite I2 in L. rewrite star_last in L; [cbn [lexi] in L; congruence| |exact (Hb j Hj)].
        intros Ej. apply E. rewrite I2. unfold same_name in Es. rewrite Ej in Es. exact Es.
      * intros j Hj Ej. apply Hq; [|congruence]. apply I4; [exact Hj|]. apply match_token_exact. right. exact Ej.
  - apply token_none. intros j Hj. specialize (H j Hj). split; intros Hs; [assert (X : match_token t j = true) by (apply match_token_exact; left; exact Hs)|assert (X : match_token t j = true) by (apply match_token_exact; right; exact Hs)]; congruence.
Qed.
Theorem select_token_exact : forall items tokens, Forall (fun i => below_tilde (token i)) items ->
  exists f, (forall t, token_quality items t (f t)) /\ chosen f tokens (select_token (token_list items) tokens).
Proof. intros items tokens Hb. exists (fun t => first_q (match_token t) tq (token_list items)). split; [intros t; apply token_quality_exact; exact Hb|apply fold_chosen]. Qed.
Lemma token_order : forall items items' t, Permutation items items' -> first_q (match_token t) tq (token_list items) = first_q (match_token t) tq (token_list items').
Proof.
  intros items items' t Hp. apply first_order; [exact good_tok| |exact Hp]. intros i j E. unfold cmp_tok in E. destruct (cmp_str _ _); cbn [lexi] in E; try discriminate. apply Z.compare_eq in E. lia.
Qed.
Theorem select_token_order : forall items items' tokens, Permutation items items' ->
  select_token (token_list items) tokens = select_token (token_list items') tokens /\ select_charset (token_list items) tokens = select_charset (token_list items') tokens /\
  select_encoding (token_list items) tokens = select_encoding (token_list items') tokens.
Proof.
  intros items items' tokens Hp. unfold select_token, select_charset, select_encoding. split; [|split]; f_equal; apply fold_ext; intros b t; rewrite (token_order items items' t Hp); reflexivity.
Qed.
(** ISO-8859-1 is acceptable if it is not mentioned and there is no wild card *)
Theorem select_charset_exact : forall items tokens, Forall (fun i => below_tilde (token i)) items ->
  exists f g, (forall t, token_quality items t (f t)) /\ (forall t, g t = match f t with Some q => Some q | None => if str_eqb (u_lower t) (lit "iso-8859-1") then Some 1000 else None end) /\
    chosen g tokens (select_charset (token_list items) tokens).
Proof.
  intros items tokens Hb. set (f := fun t => first_q (match_token t) tq (token_list items)). exists f, (fun t => match f t with Some q => Some q | None => if str_eqb (u_lower t) (lit "iso-8859-1") then Some 1000 else None end).
  split; [intros t; apply token_quality_exact; exact Hb|]. split; [reflexivity|].
  assert (E : select_charset (token_list items) tokens = fst (fold_left (fun best t => better best t (match f t with Some q => Some q | None => if str_eqb (u_lower t) (lit "iso-8859-1") then Some 1000 else None end)) tokens (None, 0))).
  { unfold select_charset. f_equal. apply fold_ext. intros b t. fold (f t). destruct (f t); [reflexivity|]. destruct (str_eqb _ _); reflexivity. }
  rewrite E. apply (fold_chosen (fun t => match f t with Some q => Some q | None => if str_eqb (u_lower t) (lit "iso-8859-1") then Some 1000 else None end)).
Qed.
(** "identity" is acceptable unless it is refused, by name or by the wild card, but is not preferred *)
Theorem select_encoding_exact : forall items tokens, Forall (fun i => below_tilde (token i)) items ->
  exists f, (forall t, token_quality items t (f t)) /\
    match select_encoding (token_list items) tokens with
    | Some t => chosen f tokens (Some t) \/ chosen f tokens None /\ In t tokens /\ u_lower t = lit "identity" /\ f t = None
    | None => chosen f tokens None /\ forall t, In t tokens -> u_lower t = lit "identity" -> f t <> None
    end.
Proof.
  intros items tokens Hb. set (f := fun t => first_q (match_token t) tq (token_list items)). exists f. split; [intros t; apply token_quality_exact; exact Hb|]. unfold select_encoding.
  set (step := fun (best : option str * Z) t => match first_q (match_token t) tq (token_list items) with Some q => better best t (Some q) | None => if str_eqb (u_lower t) (lit "identity") then if snd best =? 0 then (Some t, snd best) else best else best end).
  change (match fst (fold_left step tokens (None, 0)) with Some t => chosen f tokens (Some t) \/ chosen f tokens None /\ In t tokens /\ u_lower t = lit "identity" /\ f t = None | None => chosen f tokens None /\ forall t, In t tokens -> u_lower t = lit "identity" -> f t <> None end).
  assert (G : forall ts b q0, 0 < q0 -> fold_left step ts (b, q0) = fold_left (fun best m => better best m (f m)) ts (b, q0)).
  { induction ts as [|t ts IH]; intros b q0 H; cbn [fold_left]; [reflexivity|]. assert (E : step (b, q0) t = better (b, q0) t (f t)).
    { unfold step. fold (f t). destruct (f t); [reflexivity|]. cbn [snd better]. replace (q0 =? 0) with false by (symmetry; apply Z.eqb_neq; lia). destruct (str_eqb _ _); reflexivity. }
    rewrite E. unfold better. cbn [snd]. destruct (f t) as [q|]; [|apply IH; exact H]. destruct (q0 <? q) eqn:L; [apply Z.ltb_lt in L; apply IH; lia|apply IH; exact H]. }
  assert (K : forall ts b, let r := fold_left step ts (b, 0) in
    (exists l1 m l2 q, ts = l1 ++ m :: l2 /\ f m = Some q /\ fst r = Some m /\ 0 < q /\ (forall m' q', In m' l1 -> f m' = Some q' -> q' < q) /\ forall m' q', In m' l2 -> f m' = Some q' -> q' <= q) \/
    (forall m q, In m ts -> f m = Some q -> q <= 0) /\ (fst r = b /\ (forall t, In t ts -> u_lower t = lit "identity" -> f t <> None) \/ exists t, fst r = Some t /\ In t ts /\ u_lower t = lit "identity" /\ f t = None)).
  { induction ts as [|t ts IH]; intros b; cbn [fold_left]; [right; split; [intros m q []|left; split; [reflexivity|intros t []]]|].
    assert (Es : step (b, 0) t = match f t with Some q => better (b, 0) t (Some q) | None => if str_eqb (u_lower t) (lit "identity") then (Some t, 0) else (b, 0) end).
    { unfold step. fold (f t). destruct (f t); [reflexivity|]. cbn [snd]. rewrite Z.eqb_refl. reflexivity. }
    rewrite Es. destruct (f t) as [q|] eqn:E.
    - unfold better. cbn [snd]. destruct (0 <? q) eqn:L.
      + apply Z.ltb_lt in L. rewrite G by exact L. left. destruct (fold_better f ts (Some t) q) as [(H1 & H2)|(l1 & m & l2 & q' & -> & H2 & H3 & H4 & H5 & H6)].
        * exists [], t, ts, q. rewrite H1. repeat split; try assumption. intros m' q' [].
        * exists (t :: l1), m, l2, q'. rewrite H3. split; [reflexivity|]. split; [exact H2|]. split; [reflexivity|]. split; [lia|]. split; [|exact H6]. intros x qx [<-|Hx] Hq; [rewrite E in Hq; injection Hq as <-; exact H4|exact (H5 x qx Hx Hq)].
      + apply Z.ltb_ge in L. destruct (IH b) as [(l1 & m & l2 & q' & -> & H2 & H3 & H4 & H5 & H6)|(H1 & H2)].
        * left. exists (t :: l1), m, l2, q'. split; [reflexivity|]. split; [exact H2|]. split; [exact H3|]. split; [exact H4|]. split; [|exact H6]. intros x qx [<-|Hx] Hq; [rewrite E in Hq; injection Hq as <-; lia|exact (H5 x qx Hx Hq)].
        * right. split; [intros x qx [<-|Hx] Hq; [rewrite E in Hq; injection Hq as <-; exact L|exact (H1 x qx Hx Hq)]|]. destruct H2 as [(H2 & H3)|(x & H2 & H3 & H4)]; [left; split; [exact H2|]; intros x [<-|Hx] Hi; [congruence|exact (H3 x Hx Hi)]|right; exists x; split; [exact H2|split; [right; exact H3|exact H4]]].
    - destruct (str_eqb (u_lower t) (lit "identity")) eqn:Ei.
      + apply str_eqb_eq in Ei. destruct (IH (Some t)) as [(l1 & m & l2 & q' & -> & H2 & H3 & H4 & H5 & H6)|(H1 & H2)].
        * left. exists (t :: l1), m, l2, q'. split; [reflexivity|]. split; [exact H2|]. split; [exact H3|]. split; [exact H4|]. split; [|exact H6]. intros x qx [<-|Hx] Hq; [congruence|exact (H5 x qx Hx Hq)].
        * right. split; [intros x qx [<-|Hx] Hq; [congruence|exact (H1 x qx Hx Hq)]|]. right. destruct H2 as [(H2 & H3)|(x & H2 & H3 & H4)]; [exists t; split; [exact H2|split; [left; reflexivity|split; assumption]]|exists x; split; [exact H2|split; [right; exact H3|exact H4]]].
      + apply str_eqb_neq in Ei. destruct (IH b) as [(l1 & m & l2 & q' & -> & H2 & H3 & H4 & H5 & H6)|(H1 & H2)].
        * left. exists (t :: l1), m, l2, q'. split; [reflexivity|]. split; [exact H2|]. split; [exact H3|]. split; [exact H4|]. split; [|exact H6]. intros x qx [<-|Hx] Hq; [congruence|exact (H5 x qx Hx Hq)].
        * right. split; [intros x qx [<-|Hx] Hq; [congruence|exact (H1 x qx Hx Hq)]|]. destruct H2 as [(H2 & H3)|(x & H2 & H3 & H4)]; [left; split; [exact H2|]; intros x [<-|Hx] Hi; [congruence|exact (H3 x Hx Hi)]|right; exists x; split; [exact H2|split; [right; exact H3|exact H4]]]. }
  destruct (K tokens None) as [(l1 & m & l2 & q & H1 & H2 & H3 & H4 & H5 & H6)|(H1 & [(H2 & H3)|(t & H2 & H3 & H4 & H5)])].
  - rewrite H3. left. exists l1, l2, q. repeat split; assumption.
  - rewrite H2. split; [exact H1|exact H3].
  - rewrite H2. right. split; [exact H1|]. repeat split; assumption.
Qed.

(** ** Languages *)
Lemma same_tags_exact : forall range tag, same_tags tag range = true <-> exists more, tag = range ++ more.
Proof.
  induction range as [|r range IH]; intros tag; [destruct tag; cbn; (split; [intros _; eexists; reflexivity|reflexivity])|]. destruct tag as [|t tag]; cbn [same_tags]; [split; [discriminate|intros (m & H); discriminate]|].
  rewrite andb_true_iff, str_eqb_eq, IH. split; [intros (-> & (m & ->)); exists m; reflexivity|intros (m & [= -> ->]); split; [reflexivity|exists m; reflexivity]].
Qed.
Lemma partial_match_exact : forall l r, partial_match l r = true <-> in_language r l.
Proof.
  intros l r. unfold partial_match, in_language, lt_sortkey. destruct (Nat.ltb _ _) eqn:E; [|apply same_tags_exact]. apply Nat.ltb_lt in E. split; [discriminate|]. intros (m & H). rewrite H, app_length in E. lia.
Qed.
Lemma split_free : forall c s, Forall (fun p => ~ In c p) (split_on c s).
Proof.
  intros c. induction s as [|x s IH]; cbn [split_on]; [constructor; [intros []|constructor]|]. destruct (x =? c) eqn:E; [constructor; [intros []|exact IH]|]. apply Z.eqb_neq in E. destruct (split_on c s) as [|w l]; [constructor; [intros [H|[]]; congruence|constructor]|].
  inversion IH as [|? ? H1 H2]; subst. constructor; [intros [H|H]; [congruence|exact (H1 H)]|exact H2].
Qed.
Lemma lang_range_exact : forall i r, has_range i r <-> r = lang_range i.
Proof.
  intros i r. unfold has_range, lang_range. destruct (str_eqb (token i) star) eqn:E; [apply str_eqb_eq in E; split; [intros [(_ & H)|(H & _)]; [exact H|congruence]|intros ->; left; split; [exact E|reflexivity]]|]. apply str_eqb_neq in E. split.
  - intros [(H & _)|(_ & H1 & H2 & H3)]; [congruence|]. rewrite H1. symmetry. apply split_join; assumption.
  - intros ->. right. split; [exact E|]. split; [symmetry; apply join_split|]. split; [apply split_nonempty|apply split_free].
Qed.
Theorem select_language_exact : forall items langs, exists f, (forall l, language_quality items l (f l)) /\ chosen f langs (select_language (language_list items) langs).
Proof.
  intros items langs. exists (fun l => first_q (fun i => partial_match l (lang_range i)) tq (language_list items)). split; [|apply fold_chosen]. intros l. unfold language_list.
  pose proof (first_sort cmp_lang good_lang (fun i => partial_match l (lang_range i)) tq items) as H. destruct (first_q _ _ _) as [q|].
  - destruct H as (i & I1 & I2 & -> & I4). apply (language_some items l i (lang_range i)); [exact I1|apply lang_range_exact; reflexivity|apply partial_match_exact; exact I2|].
    intros j r' Hj Hr Hl. apply lang_range_exact in Hr. subst r'. apply partial_match_exact in Hl. specialize (I4 j Hj Hl). unfold le_, cmp_lang in I4.
    destruct (- Z.of_nat (List.length (lang_range i)) ?= - Z.of_nat (List.length (lang_range j))) eqn:E; [apply Z.compare_eq in E; lia|rewrite Z.compare_lt_iff in E; lia|cbn [lexi] in I4; congruence].
  - apply language_none. intros j r' Hj Hr Hl. apply lang_range_exact in Hr. subst r'. apply partial_match_exact in Hl. rewrite (H j Hj) in Hl. discriminate.
Qed.

(** ** What goes wrong *)
(** if no language is acceptable, select_token gives the string None *)
Theorem language_none_refuted : select_language (language_list [AT (lit "en") 1000]) [mklt (lit "fr") []] = None /\ select_language_token (language_list [AT (lit "en") 1000]) [lit "fr"] = Ok (lit "None").
Proof. split; vm_compute; reflexivity. Qed.
(** a name may start with "~", and then comes after the wild card *)
Theorem tilde_refuted : select_token (token_list [AT (lit "~x") 0; AT star 1000]) [lit "~x"] = Some (lit "~x") /\ ~ exists f, (forall t, token_quality [AT (lit "~x") 0; AT star 1000] t (f t)) /\ chosen f [lit "~x"] (Some (lit "~x")).
Proof.
  split; [vm_compute; reflexivity|]. intros (f & H1 & (l1 & l2 & q & Hs & Hf & Hq & _)). specialize (H1 (lit "~x")). rewrite Hf in H1. inversion H1 as [i Hi Hn Hm Hx|i Hn Hi Hm Hk Hx|]; subst.
  - destruct Hi as [<-|[<-|[]]]; [cbn in Hq; lia|discriminate].
  - apply (Hn (AT (lit "~x") 0)); [left; reflexivity|reflexivity].
Qed.
(** ranges that are not in lower case are ordered by case first *)
Theorem case_refuted : exists items m, items = [AI (mkmt (lit "Text") star []) 1000 []; AI (mkmt (lit "text") (lit "plain") []) 0 []] /\ m = mkmt (lit "text") (lit "plain") [] /\
  select_type (accept_list items) [m] = Some m /\ ~ quality items m (Some 1000).
Proof.
  do 2 eexists. split; [reflexivity|]. split; [reflexivity|]. split; [vm_compute; reflexivity|]. intros H. remember (Some 1000) as o eqn:Eo. destruct H as [i Hi Hr Hs Hq|]; [|discriminate]. destruct Hi as [Hi|[Hi|[]]]; subst i; [|discriminate].
  specialize (Hs (AI (mkmt (lit "text") (lit "plain") []) 0 []) (or_intror (or_introl eq_refl))). assert (Hr2 : in_range (arange (AI (mkmt (lit "text") (lit "plain") []) 0 [])) (mkmt (lit "text") (lit "plain") [])) by (right; split; [reflexivity|right; split; [reflexivity|intros k n v []]]).
  specialize (Hs Hr2). vm_compute in Hs. lia.
Qed.

(** ** Examples: RFC 2616, 14.1 *)
Definition ex_accept := [AI (mkmt (lit "text") star []) 300 []; AI (mkmt (lit "text") (lit "html") []) 700 []; AI (mkmt (lit "text") (lit "html") [(lit "level", (lit "level", lit "1"))]) 1000 [];
  AI (mkmt (lit "text") (lit "html") [(lit "level", (lit "level", lit "2"))]) 400 []; AI (mkmt star star []) 500 []].
Example ex_accept_ok : Forall (fun i => range_ok (arange i)) ex_accept.
Proof. repeat constructor; cbn; try lia; intros []. Qed.
Example ex_qualities : map (fun m => first_q (fun i => match_media_type (arange i) m) aq (accept_list ex_accept))
  [mkmt (lit "text") (lit "html") [(lit "level", (lit "level", lit "1"))]; mkmt (lit "text") (lit "html") []; mkmt (lit "text") (lit "plain") []; mkmt (lit "image") (lit "jpeg") [];
   mkmt (lit "text") (lit "html") [(lit "level", (lit "level", lit "2"))]; mkmt (lit "text") (lit "html") [(lit "level", (lit "level", lit "3"))]] = [Some 1000; Some 700; Some 300; Some 500; Some 400; Some 700].
Proof. vm_compute. reflexivity. Qed.
Example ex_select : select_type (accept_list ex_accept) [mkmt (lit "image") (lit "jpeg") []; mkmt (lit "text") (lit "html") []; mkmt (lit "text") (lit "html") [(lit "level", (lit "level", lit "3"))]] = Some (mkmt (lit "text") (lit "html") []).
Proof. vm_compute. reflexivity. Qed.
Example ex_encoding : select_encoding (token_list [AT (lit "gzip") 0]) [lit "gzip"; lit "Identity"] = Some (lit "Identity") /\ select_encoding (token_list [AT star 0]) [lit "gzip"; lit "identity"] = None /\
  select_encoding (token_list [AT (lit "gzip") 1]) [lit "identity"; lit "GZip"] = Some (lit "GZip").
Proof. repeat split; vm_compute; reflexivity. Qed.
Example ex_charset : select_charset (token_list [AT (lit "utf-8") 500]) [lit "UTF-8"; lit "ISO-8859-1"] = Some (lit "ISO-8859-1") /\ select_charset (token_list [AT (lit "utf-8") 500; AT star 100]) [lit "iso-8859-1"; lit "UTF-8"] = Some (lit "UTF-8").
Proof. split; vm_compute; reflexivity. Qed.
Example ex_language : select_language (language_list [AT (lit "en") 500; AT (lit "en-US") 0; AT star 100]) [mklt (lit "fr") []; mklt (lit "en") [lit "us"]; mklt (lit "en") [lit "gb"]] = Some (mklt (lit "en") [lit "gb"]).
Proof. vm_compute. reflexivity. Qed.
Print Assumptions select_type_exact.
Print Assumptions select_type_order.
Print Assumptions select_token_exact.
Print Assumptions select_token_order.
Print Assumptions select_charset_exact.
Print Assumptions select_encoding_exact.
Print Assumptions select_language_exact.
Print Assumptions language_none_refuted.
Print Assumptions tilde_refuted.
Print Assumptions case_refuted.
