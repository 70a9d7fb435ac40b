(** XML text: escaping and writing. *)
From Coq Require Import Permutation.
From Verif Require Import Py Num CmSpec CdModel CdProofs XtSpec XtModel XtParse XtMarkup XtElement XtCanon.

(** ** Escaping *)
Definition esc_item (ok : Z -> Prop) (c : Z) (t : str) : Prop := (t = [c] /\ ok c) \/ (ref_text c t /\ c <> 9 /\ c <> 10).
Lemma number_app : forall b ds d, number b (ds ++ [d]) = number b ds * b + d.
Proof. intros. unfold number. rewrite fold_left_app. reflexivity. Qed.
Lemma hexd_digit' : forall v, 0 <= v < 16 -> hex_digit v (hexd v).
Proof. intros v H. unfold hex_digit, hexd. destruct (v <? 10) eqn:E; lia. Qed.
Lemma hexn_ok : forall n v, 0 <= v < 16 ^ Z.of_nat n -> exists ds, Forall2 hex_digit ds (hexn n v) /\ number 16 ds = v /\ length ds = n.
Proof.
  induction n as [|n IH]; intros v H.
  - exists []. change (16 ^ Z.of_nat 0) with 1 in H. split; [constructor|]. split; [cbn; lia|reflexivity].
  - rewrite Nat2Z.inj_succ, Z.pow_succ_r in H by lia. destruct (IH (v / 16)) as (ds & H1 & H2 & H3); [split; [apply Z.div_pos; lia|apply Z.div_lt_upper_bound; lia]|].
    exists (ds ++ [v mod 16]). cbn [hexn]. split; [apply Forall2_app; [exact H1|]; constructor; [apply hexd_digit', Z.mod_pos_bound; lia|constructor]|].
    split; [rewrite number_app, H2; pose proof (Z.div_mod v 16); lia|rewrite app_length; cbn; lia].
Qed.
Lemma hexn_ref : forall n c, (0 < n)%nat -> 0 <= c < 16 ^ Z.of_nat n -> xml_char c -> ref_text c (lit "&#x" ++ hexn n c ++ lit ";").
Proof.
  intros n c Hn H Hc. destruct (hexn_ok n c H) as (ds & H1 & H2 & H3). subst c. apply rt_hex; [|exact H1|exact Hc]. intros ->. cbn in H3. lia.
Qed.
Lemma ref_cr : ref_text 13 (lit "&#xD;").
Proof. apply (rt_hex [13] (lit "D")); [discriminate| |right; right; left; reflexivity]. constructor; [right; split; [lia|left; reflexivity]|constructor]. Qed.
Lemma ref_22 : ref_text 34 (lit "&#x22;").
Proof. apply (rt_hex [2; 2] (lit "22")); [discriminate| |unfold xml_char; cbn; lia]. repeat constructor; unfold hex_digit; lia. Qed.
Lemma ref_27 : ref_text 39 (lit "&#x27;").
Proof. apply (rt_hex [2; 7] (lit "27")); [discriminate| |unfold xml_char; cbn; lia]. repeat constructor; unfold hex_digit; lia. Qed.
Ltac byref := right; split; [first [assumption | apply ref_cr | constructor]|lia].
Definition plain (c : Z) : Prop := c <> 60 /\ c <> 38 /\ c <> 62 /\ c <> 13.
Lemma esc_ok : forall c, esc_item plain c (esc c).
Proof.
  intro c. unfold esc. destruct (Z.eqb_spec c 38) as [->|N1]; [byref|]. destruct (Z.eqb_spec c 60) as [->|N2]; [byref|].
  destruct (Z.eqb_spec c 62) as [->|N3]; [byref|]. destruct (Z.eqb_spec c 13) as [->|N4]; [byref|].
  left. unfold plain. auto.
Qed.
Lemma esc7_ref : forall c, 127 < c -> xml_char c -> forall q, ref_text c (esc7 q c).
Proof.
  intros c H Hc q. assert (B : c < 1114112) by (unfold xml_char in Hc; lia). unfold esc7. replace (127 <? c) with true by lia.
  destruct (255 <? c) eqn:E1; [|apply hexn_ref; [lia|change (16 ^ Z.of_nat 2) with 256; lia|assumption]].
  destruct (65535 <? c) eqn:E2; [|apply hexn_ref; [lia|change (16 ^ Z.of_nat 4) with 65536; lia|assumption]].
  destruct (16777215 <? c) eqn:E3; apply hexn_ref; try lia; try assumption.
Qed.
Definition quoted_by (q : Z) (c : Z) : Prop := plain c /\ c <> q.
Lemma esc7_none : forall c, xml_char c -> esc_item plain c (esc7 None c).
Proof.
  intros c Hc. destruct (127 <? c) eqn:E; [right; split; [apply esc7_ref; [lia|assumption]|lia]|]. unfold esc7. rewrite E.
  destruct (Z.eqb_spec c 60) as [->|N1]; [byref|]. destruct (Z.eqb_spec c 38) as [->|N2]; [byref|].
  destruct (Z.eqb_spec c 62) as [->|N3]; [byref|]. destruct (Z.eqb_spec c 13) as [->|N4]; [byref|].
  left. unfold plain. auto.
Qed.
Lemma esc7_some : forall q r c, xml_char c -> quote q -> ref_text q r -> esc_item (quoted_by q) c (esc7 (Some (q, r)) c).
Proof.
  intros q r c Hc Hq Hr. destruct (127 <? c) eqn:E; [right; split; [apply esc7_ref; [lia|assumption]|lia]|]. unfold esc7. rewrite E.
  destruct (Z.eqb_spec c 60) as [->|N1]; [byref|]. destruct (Z.eqb_spec c 38) as [->|N2]; [byref|].
  destruct (Z.eqb_spec c 62) as [->|N3]; [byref|]. destruct (Z.eqb_spec c 13) as [->|N4]; [byref|].
  destruct (Z.eqb_spec c q) as [->|N5]; [unfold quote in Hq; byref|]. left. unfold quoted_by, plain. tauto.
Qed.
Lemma Forall2_map_r : forall (P : Z -> str -> Prop) g s, (forall c, In c s -> P c (g c)) -> Forall2 P s (map g s).
Proof. intros P g s H. induction s as [|c s IH]; constructor; [apply H; left; reflexivity|]. apply IH. intros x Hx. apply H. right. exact Hx. Qed.
Definition chars_ok (seven : bool) (s : str) : Prop := seven = true -> Forall xml_char s.
Lemma escape_plain : forall seven src, chars_ok seven src -> exists ts, escape_function seven src false = concat ts /\ Forall2 (esc_item plain) src ts.
Proof.
  intros [|] src H; cbn [escape_function escape_char_data escape_char_data7].
  - exists (map (esc7 None) src). split; [reflexivity|]. apply Forall2_map_r. intros c Hc. apply esc7_none. specialize (H eq_refl). rewrite Forall_forall in H. apply H, Hc.
  - exists (map esc src). split; [reflexivity|]. apply Forall2_map_r. intros c _. apply esc_ok.
Qed.
Lemma count_zero : forall q s, count q s = 0%nat -> forall c, In c s -> c <> q.
Proof.
  intros q s H c Hc ->. unfold count in H. apply length_zero_iff_nil in H. assert (In q (filter (Z.eqb q) s)) as K by (apply filter_In; split; [assumption|apply Z.eqb_refl]).
  rewrite H in K. destruct K.
Qed.
Lemma esc_quoted : forall q r c, quote q -> ref_text q r -> esc_item (quoted_by q) c (replace_piece q r (esc c)).
Proof.
  intros q r c Hq Hr. unfold replace_piece. destruct (str_eqb (esc c) [q]) eqn:E.
  - apply str_eqb_eq in E. destruct (esc_ok c) as [[Ec _]|K]; [rewrite E in Ec; injection Ec as ->; unfold quote in Hq; byref|].
    rewrite E in K. destruct K as [K _]. destruct (ref_complete _ _ K) as (t & Et & _). injection Et as -> _. unfold quote in Hq. lia.
  - destruct (esc_ok c) as [[Ec P]|K]; [|right; exact K]. left. split; [exact Ec|]. split; [exact P|]. intros ->. rewrite Ec, str_eqb_refl in E. discriminate.
Qed.
Lemma esc_unquoted : forall q c, c <> q -> esc_item (quoted_by q) c (esc c).
Proof. intros q c N. destruct (esc_ok c) as [[Ec P]|K]; [left; unfold quoted_by; auto|right; exact K]. Qed.
Lemma escape_quoted : forall seven src, chars_ok seven src ->
  exists q ts, quote q /\ escape_function seven src true = q :: concat ts ++ [q] /\ Forall2 (esc_item (quoted_by q)) src ts.
Proof.
  intros [|] src H; cbn [escape_function].
  - unfold escape_char_data7. set (q := if existsb (Z.eqb 39) src then (34, lit "&#x22;") else if existsb (Z.eqb 34) src then (39, lit "&#x27;") else (34, lit "&#x22;")).
    assert (K : quote (fst q) /\ ref_text (fst q) (snd q)) by (unfold q, quote; repeat destr; cbn [fst snd]; split; auto using ref_22, ref_27).
    exists (fst q), (map (esc7 (Some q)) src). split; [apply K|]. split; [reflexivity|]. apply Forall2_map_r. intros c Hc.
    destruct q as [q r]. apply esc7_some; [|apply K|apply K]. specialize (H eq_refl). rewrite Forall_forall in H. apply H, Hc.
  - unfold escape_char_data. destruct (count 39 src <? count 34 src)%nat eqn:E1.
    + exists 39. destruct (0 <? count 39 src)%nat eqn:E2.
      * eexists. split; [right; reflexivity|]. split; [reflexivity|]. rewrite map_map. apply Forall2_map_r. intros c _. apply esc_quoted; [right; reflexivity|constructor].
      * eexists. split; [right; reflexivity|]. split; [reflexivity|]. apply Forall2_map_r. intros c Hc. apply esc_unquoted. apply (count_zero 39 src); [apply Nat.ltb_ge in E2; lia|exact Hc].
    + exists 34. destruct (0 <? count 34 src)%nat eqn:E2.
      * eexists. split; [left; reflexivity|]. split; [reflexivity|]. rewrite map_map. apply Forall2_map_r. intros c _. apply esc_quoted; [left; reflexivity|constructor].
      * eexists. split; [left; reflexivity|]. split; [reflexivity|]. apply Forall2_map_r. intros c Hc. apply esc_unquoted. apply (count_zero 34 src); [apply Nat.ltb_ge in E2; lia|exact Hc].
Qed.
(** an attribute value comes back with tabs and line feeds as spaces *)
Definition att_read (c : Z) : Z := if (c =? 9) || (c =? 10) then 32 else c.
Lemma att_concat : forall q src ts, Forall2 (esc_item (quoted_by q)) src ts -> att_text q (map att_read src) (concat ts).
Proof.
  intros q src ts H. induction H as [|c t src ts Hc H IH]; [constructor|]. cbn [map concat]. destruct Hc as [[-> [P N]]|[R N]].
  - cbn [app]. unfold plain in P. destruct (is_s c) eqn:E.
    + assert (att_read c = 32) as ->. { apply is_s_iff in E. unfold xml_s in E. unfold att_read. destruct ((c =? 9) || (c =? 10)) eqn:Q; lia. }
      apply at_space; [apply is_s_iff; exact E|exact IH].
    + assert (att_read c = c) as ->. { unfold att_read. destruct ((c =? 9) || (c =? 10)) eqn:Q; [|reflexivity]. exfalso. assert (c = 9 \/ c = 10) as [->| ->] by lia; discriminate. }
      apply at_char; try tauto. intro K. apply is_s_iff in K. congruence.
  - assert (att_read c = c) as ->. { unfold att_read. destruct ((c =? 9) || (c =? 10)) eqn:Q; lia. } apply at_ref; assumption.
Qed.
Lemma att_exact : forall v, Forall (fun c => c <> 9 /\ c <> 10) v -> map att_read v = v.
Proof.
  induction v as [|c v IH]; intro H; [reflexivity|]. inversion H; subst. cbn [map]. rewrite IH by assumption. f_equal. unfold att_read.
  destruct ((c =? 9) || (c =? 10)) eqn:Q; lia.
Qed.
Lemma escape_value : forall seven src rest, chars_ok seven src -> parse_att_value (escape_function seven src true ++ rest) = Ok (map att_read src, rest).
Proof.
  intros seven src rest H. destruct (escape_quoted seven src H) as (q & ts & Hq & -> & Hf). cbn [app]. unfold parse_att_value.
  replace ((q =? 34) || (q =? 39)) with true by (unfold quote in Hq; lia). rewrite <- app_assoc. cbn [app].
  apply (att_complete q _ _ Hq (att_concat _ _ _ Hf)). rewrite app_length. lia.
Qed.

(** ** Content *)
Lemma handle_app : forall m ch a b, handle_data m ch (a ++ b) = let! ch := handle_data m ch a in handle_data m ch b.
Proof.
  intros m ch [|x a] b; [reflexivity|]. destruct b as [|y b].
  - rewrite app_nil_r. destruct (handle_data m ch (x :: a)); reflexivity.
  - change ((x :: a) ++ y :: b) with (x :: a ++ y :: b). cbn [handle_data]. destruct m; cbn [rbind].
    + rewrite append_twice. reflexivity.
    + change (x :: a ++ y :: b) with ((x :: a) ++ y :: b). rewrite forallb_app. destruct (forallb is_s (x :: a)); cbn [rbind andb]; reflexivity.
Qed.
Section content.
  Variable mixed : str -> bool.
  Variables cm pi : str -> Prop.
  Notation cont := (content_text mixed cm pi).
  Definition clean (its : list item) : Prop := match its with Data d :: _ => Forall (fun c => c <> 62) d | _ => True end.
  Lemma no62 : forall d, Forall (fun c => c <> 62) d -> ~ contains (lit "]]>") d.
  Proof.
    intros d H (a & b & ->). rewrite Forall_forall in H. apply (H 62); [|reflexivity]. apply in_or_app. right. apply in_or_app. left. right. right. left. reflexivity.
  Qed.
  Lemma cont_char : forall c its u, cont its u -> clean its -> c <> 60 -> c <> 38 -> c <> 62 ->
    exists its', cont its' (c :: u) /\ clean its' /\ forall m ch, feed m ch its' = let! ch := handle_data m ch [c] in feed m ch its.
  Proof.
    intros c its u H Hc N1 N2 N3. destruct H as [d Hd|d i x its u Hd Hi H]; cbn [clean] in Hc.
    - exists [Data (c :: d)]. split; [|split].
      + constructor. split; [constructor; [auto|apply Hd]|]. apply no62. constructor; assumption.
      + constructor; assumption.
      + intros m ch. cbn [feed]. change (c :: d) with ([c] ++ d). rewrite handle_app. destruct (handle_data m ch [c]); reflexivity.
    - exists (Data (c :: d) :: i :: its). split; [|split].
      + change (c :: d ++ x ++ u) with ((c :: d) ++ x ++ u). constructor; [|assumption|assumption]. split; [constructor; [auto|apply Hd]|]. apply no62. constructor; assumption.
      + constructor; assumption.
      + intros m ch. change (feed m ch (Data (c :: d) :: i :: its)) with (let! ch := handle_data m ch (c :: d) in feed m ch (i :: its)).
        change (c :: d) with ([c] ++ d). rewrite handle_app. destruct (handle_data m ch [c]); reflexivity.
  Qed.
  Lemma cont_mark : forall i x its u, markup_text mixed cm pi i x -> cont its u -> exists its', cont its' (x ++ u) /\ clean its' /\ forall m ch, feed m ch its' = feed m ch (i :: its).
  Proof.
    intros i x its u Hi H. exists (Data [] :: i :: its). split; [|split].
    - apply (ct_more mixed cm pi [] i x its u cd_nil Hi H).
    - constructor.
    - intros. reflexivity.
  Qed.
  Lemma cont_escaped : forall src ts its u, Forall2 (esc_item plain) src ts -> cont its u -> clean its ->
    exists its', cont its' (concat ts ++ u) /\ clean its' /\ forall m ch, feed m ch its' = let! ch := handle_data m ch src in feed m ch its.
  Proof.
    intros src ts its u H Hc Hk. induction H as [|c t src ts Ht H (its1 & I1 & I2 & I3)].
    - exists its. split; [exact Hc|]. split; [exact Hk|]. intros. reflexivity.
    - cbn [concat]. rewrite <- app_assoc. destruct Ht as [[-> P]|[R _]].
      + unfold plain in P. destruct (cont_char c its1 (concat ts ++ u) I1 I2) as (its2 & J1 & J2 & J3); try tauto. exists its2. split; [exact J1|]. split; [exact J2|].
        intros m ch. rewrite J3. change (c :: src) with ([c] ++ src). rewrite handle_app. destruct (handle_data m ch [c]); cbn [rbind]; [|reflexivity]. apply I3.
      + destruct (cont_mark (Data [c]) t its1 (concat ts ++ u)) as (its2 & J1 & J2 & J3); [constructor; exact R|exact I1|]. exists its2. split; [exact J1|]. split; [exact J2|].
        intros m ch. rewrite J3. change (c :: src) with ([c] ++ src). rewrite handle_app. cbn [feed]. destruct (handle_data m ch [c]); cbn [rbind]; [|reflexivity]. apply I3.
  Qed.
  Lemma cont_nil : cont [Data []] [].
  Proof. constructor. apply cd_nil. Qed.
  Lemma cont_spaces : forall s its u, spaces s -> cont its u -> clean its ->
    exists its', cont its' (s ++ u) /\ clean its' /\ forall m ch, feed m ch its' = feed m ch (Data s :: its).
  Proof.
    intros s its u Hs Hc Hk. induction Hs as [|c s Hx Hs (its1 & I1 & I2 & I3)].
    - exists its. split; [exact Hc|]. split; [exact Hk|]. intros. reflexivity.
    - unfold xml_s in Hx. destruct (cont_char c its1 (s ++ u) I1 I2) as (its2 & J1 & J2 & J3); try lia. exists its2. split; [exact J1|]. split; [exact J2|].
      intros m ch. rewrite J3. cbn [feed]. change (c :: s) with ([c] ++ s). rewrite handle_app. destruct (handle_data m ch [c]); cbn [rbind]; [|reflexivity]. apply I3.
  Qed.

  (** *** What an element with escaped text says *)
  Lemma simple_element : forall n its u ch, xml_name n -> cont its u -> (forall m ch0, feed m ch0 its = let! ch := handle_data m ch0 ch in Ok ch) -> mixed n = true ->
    proper its -> element_text mixed cm pi (Elem n [] (match ch with [] => [] | _ => [Text ch] end)) (lit "<" ++ n ++ lit ">" ++ u ++ lit "</" ++ n ++ lit ">").
  Proof.
    intros n its u ch Hn Hc Hf Hm Hp. apply (et_full mixed cm pi n [] [] [] its _ u []); try assumption; try constructor.
    apply (feed_iff _ _ _ Hp). rewrite Hf, Hm. destruct ch; reflexivity.
  Qed.

  (** *** CDATA sections *)
  Lemma push_ne : forall c l, l <> [] -> exists w r, l = w :: r /\ push c l = (c :: w) :: r.
  Proof. intros c [|w r] H; [congruence|]. eauto. Qed.
  Fixpoint glue (l : list str) : str := match l with [] => [] | [w] => w | w :: r => w ++ lit "]]>" ++ glue r end.
  Lemma glue_push : forall c l, l <> [] -> glue (push c l) = c :: glue l.
  Proof. intros c [|w [|v r]] H; [congruence|reflexivity|reflexivity]. Qed.
  Lemma split_end_eq : forall a r, split_end (a :: r) = match parse_literal (lit "]]>") (a :: r) with Some r2 => [] :: split_end r2 | None => push a (split_end r) end.
  Proof.
    intros a r. change (lit "]]>") with [93; 93; 62]. cbn [split_end parse_literal]. destruct r as [|b [|c r]].
    - destruct (93 =? a); reflexivity.
    - destruct (93 =? a); [destruct (93 =? b)|]; reflexivity.
    - rewrite (Z.eqb_sym a), (Z.eqb_sym b), (Z.eqb_sym c). destruct (93 =? a); [destruct (93 =? b); [destruct (62 =? c)|]|]; reflexivity.
  Qed.
  Lemma split_end_ok : forall k s, (length s <= k)%nat -> split_end s <> [] /\ glue (split_end s) = s /\
    (match split_end s with w :: r => s = w \/ exists u, s = w ++ lit "]]>" ++ u | [] => True end) /\ Forall (fun d => ~ contains (lit "]]>") d) (split_end s).
  Proof.
    assert (N0 : ~ contains (lit "]]>") []) by (intro K; apply contains_nil in K; discriminate).
    induction k as [|k IH]; intros s Hk.
    - destruct s; [|cbn in Hk; lia]. split; [discriminate|]. split; [reflexivity|]. split; [left; reflexivity|]. constructor; [exact N0|constructor].
    - destruct s as [|a s]; [split; [discriminate|]; split; [reflexivity|]; split; [left; reflexivity|]; constructor; [exact N0|constructor]|]. cbn [length] in Hk.
      rewrite split_end_eq. destruct (parse_literal (lit "]]>") (a :: s)) as [r2|] eqn:E.
      + apply parse_literal_some in E. assert (L : (length r2 <= k)%nat) by (apply (f_equal (@length Z)) in E; rewrite app_length in E; cbn in E; lia).
        destruct (IH r2 L) as (I1 & I2 & I3 & I4). split; [discriminate|]. split; [|split].
        * destruct (split_end r2) as [|w r] eqn:Es; [congruence|]. cbn [glue] in *. rewrite I2. rewrite E. reflexivity.
        * right. exists r2. exact E.
        * constructor; [exact N0|exact I4].
      + destruct (IH s ltac:(lia)) as (I1 & I2 & I3 & I4). destruct (push_ne a _ I1) as (w & r & Es & Ep). split; [rewrite Ep; discriminate|]. split; [rewrite glue_push by assumption; rewrite I2; reflexivity|].
        rewrite Ep. rewrite Es in I3, I4. split.
        * destruct I3 as [->|(u & ->)]; [left; reflexivity|right; exists u; reflexivity].
        * inversion I4 as [|? ? N1 N2]; subst. constructor; [|exact N2]. intro K. apply contains_cons in K as [(q & K)|K]; [|contradiction|discriminate].
          apply literal_none in E. apply E. destruct I3 as [->|(u & ->)]; [exists q; exact K|]. exists (q ++ lit "]]>" ++ u). change (a :: w ++ lit "]]>" ++ u) with ((a :: w) ++ lit "]]>" ++ u). rewrite K, <- !app_assoc. reflexivity.
  Qed.
  Lemma cont_cdsect : forall src its u, cont its u -> clean its ->
    exists its', cont its' (escape_cdsect src ++ u) /\ clean its' /\ forall m ch, feed m ch its' = let! ch := handle_data m ch src in feed m ch its.
  Proof.
    intros src its u Hc Hk. destruct (split_end_ok _ src (le_n _)) as (N & Eg & _ & Hf). unfold escape_cdsect. destruct (split_end src) as [|d r]; [congruence|]. clear N.
    rewrite <- Eg. clear Eg src. revert d Hf. induction r as [|d' r IH]; intros d Hf; inversion Hf as [|? ? N1 N2]; subst; cbn [map concat glue].
    - cbn [app]. rewrite <- !app_assoc. destruct (cont_mark (Data d) (lit "<![CDATA[" ++ d ++ lit "]]>") its u) as (its1 & J1 & J2 & J3); [constructor; assumption|assumption|].
      rewrite <- !app_assoc in J1. exists its1. split; [exact J1|]. split; [exact J2|]. intros m ch. rewrite J3. reflexivity.
    - destruct (IH d' N2) as (its1 & I1 & I2 & I3). rewrite <- !app_assoc in *.
      destruct (cont_mark (Data [62]) (lit "&gt;") its1 _ (mk_ref _ _ _ _ _ rt_gt) I1) as (its2 & J1 & J2 & J3).
      destruct (cont_char 93 its2 _ J1 J2) as (its3 & K1 & K2 & K3); try lia.
      destruct (cont_char 93 its3 _ K1 K2) as (its4 & L1 & L2 & L3); try lia.
      destruct (cont_mark (Data d) (lit "<![CDATA[" ++ d ++ lit "]]>") its4 _ (mk_cdata _ _ _ _ N1) L1) as (its5 & M1 & M2 & M3).
      exists its5. rewrite <- !app_assoc in M1. split; [exact M1|]. split; [exact M2|]. intros m ch. rewrite M3. cbn [feed].
      cbn [glue] in I3. change (lit "]]>") with ([93] ++ [93] ++ [62]) in I3 |- *. set (g := match r with [] => d' | _ :: _ => _ end) in *. rewrite <- !app_assoc.
      rewrite handle_app. destruct (handle_data m ch d) as [ch1|]; cbn [rbind]; [|reflexivity]. rewrite L3.
      rewrite handle_app. destruct (handle_data m ch1 [93]) as [ch2|]; cbn [rbind]; [|reflexivity]. rewrite K3.
      rewrite handle_app. destruct (handle_data m ch2 [93]) as [ch3|]; cbn [rbind]; [|reflexivity]. rewrite J3. cbn [feed].
      rewrite handle_app. destruct (handle_data m ch3 [62]) as [ch4|]; cbn [rbind]; [|reflexivity]. apply I3.
  Qed.
End content.
