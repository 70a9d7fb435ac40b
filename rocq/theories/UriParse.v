(** C13: the URI constructor. *)
From Verif Require Import Py Num Codec UriModel UriSpec UriProofs.

(** ** schemes *)
Lemma scheme_ok_chars x : scheme_ok x -> Forall (fun c => is_scheme_char c = true) x.
Proof.
  intros [->|(c & r & -> & H & F)]; constructor; auto.
  unfold is_scheme_char, is_alphanum. unfold is_alpha in H. rewrite H. reflexivity.
Qed.
Lemma colon_not_scheme : is_scheme_char 58 = false /\ is_alpha 58 = false.
Proof. split; reflexivity. Qed.
Lemma scheme_ok_snoc pre c : scheme_ok (pre ++ [c]) <->
  scheme_ok pre /\ ((0 <? length pre)%nat && is_scheme_char c || is_alpha c = true).
Proof.
  split.
  - intros [E|(x & r & E & H & F)]; [destruct pre; discriminate|].
    destruct pre as [|y pre]; cbn in *.
    + inversion E; subst. split; [left; reflexivity|]. exact H.
    + inversion E; subst. apply Forall_app in F as [F1 F2]. inversion F2; subst. split.
      * right. eauto.
      * rewrite H2. reflexivity.
  - intros [[->|(x & r & -> & H & F)] G]; cbn in *.
    + right. exists c, []. auto.
    + right. exists x, (r ++ [c]). psplit; auto. apply Forall_app. split; auto. constructor; auto.
      apply orb_true_iff in G as [G|G]; auto. unfold is_scheme_char, is_alphanum. unfold is_alpha in G.
      rewrite G. reflexivity.
Qed.
Lemma firstn_len {A} (a b : list A) : firstn (length a) (a ++ b) = a.
Proof. rewrite firstn_app, Nat.sub_diag, firstn_all. cbn. apply app_nil_r. Qed.
Lemma skipn_len {A} (a b : list A) : skipn (length a) (a ++ b) = b.
Proof. rewrite skipn_app, Nat.sub_diag, skipn_all. reflexivity. Qed.

Lemma scheme_loop_spec : forall rest pre x, scheme_ok pre ->
  scheme_loop (pre ++ rest) rest (length pre) = Some x <->
  exists m r, x = pre ++ m /\ rest = m ++ 58 :: r /\ scheme_ok x.
Proof.
  induction rest as [|c rest IH]; intros pre x H; cbn [scheme_loop].
  - split; [discriminate|]. intros (m & r & _ & E & _). destruct m; discriminate.
  - destruct ((0 <? length pre)%nat && is_scheme_char c || is_alpha c) eqn:E.
    + assert (K : scheme_ok (pre ++ [c])) by (apply scheme_ok_snoc; auto).
      specialize (IH (pre ++ [c]) x K). rewrite <- app_assoc in IH. cbn [app] in IH.
      rewrite app_length in IH. cbn [length] in IH.
      replace (length pre + 1)%nat with (S (length pre)) in IH by lia. rewrite IH. split.
      * intros (m & r & -> & -> & H3). exists (c :: m), r. rewrite <- app_assoc in *. cbn in *. auto.
      * intros (m & r & -> & H2 & H3). destruct m as [|y m]; cbn in H2; inversion H2; subst.
        { destruct colon_not_scheme as [N1 N2]. rewrite N1, N2, andb_false_r in E. discriminate. }
        exists m, r. rewrite <- app_assoc. cbn. auto.
    + split.
      * destruct (c =? 58) eqn:E2; b2p; [|discriminate]. intros X. inversion X; subst.
        rewrite firstn_len. exists [], rest. rewrite app_nil_r. auto.
      * intros (m & r & -> & H2 & H3). destruct m as [|y m]; cbn in H2; inversion H2; subst.
        { change (58 =? 58) with true. cbv iota. rewrite firstn_len, app_nil_r. reflexivity. }
        exfalso. assert (K : scheme_ok (pre ++ [y])).
        { clear -H3. destruct H3 as [E|(x & s & E & A & F)]; [destruct pre; discriminate|].
          destruct pre as [|p pre]; cbn in *; inversion E; subst; right.
          - exists x, []. auto.
          - exists x, (pre ++ [y]). psplit; auto. apply Forall_app in F as [F1 F2]. inversion F2; subst.
            apply Forall_app; auto. }
        apply scheme_ok_snoc in K as [_ K]. congruence.
Qed.
Lemma parse_scheme_some s x : parse_scheme s = Some x <-> scheme_ok x /\ exists r, s = x ++ 58 :: r.
Proof.
  unfold parse_scheme. pose proof (scheme_loop_spec s [] x (or_introl eq_refl)) as H. cbn in H. rewrite H.
  split.
  - intros (m & r & -> & -> & K). eauto.
  - intros (K & r & ->). exists x, r. auto.
Qed.
Lemma parse_scheme_none s : parse_scheme s = None <-> no_scheme s.
Proof.
  split.
  - intros H a b E K. assert (parse_scheme s = Some a) by (apply parse_scheme_some; eauto). congruence.
  - intros H. destruct (parse_scheme s) as [x|] eqn:E; auto. apply parse_scheme_some in E as (K & r & E).
    exfalso. eapply H; eauto.
Qed.

(** ** the component loops as functions of the text *)
Fixpoint qsplit (s : str) : str * option str :=
  match s with
  | [] => ([], None)
  | c :: r => if c =? 63 then ([], Some r) else let (a, q) := qsplit r in (c :: a, q)
  end.
Fixpoint asplit (s : str) : str * str :=
  match s with
  | [] => ([], [])
  | c :: r => if (c =? 47) || (c =? 63) then ([], s) else let (a, b) := asplit r in (c :: a, b)
  end.
Lemma qsplit_spec : forall s a q, qsplit s = (a, q) <->
  ~ In 63 a /\ s = a ++ match q with Some q => 63 :: q | None => [] end.
Proof.
  induction s as [|c s IH]; intros a q; cbn [qsplit].
  - split.
    + intros H; inversion H; subst. cbn. auto.
    + intros (H & E). destruct a; [|discriminate]. destruct q; [discriminate|]. reflexivity.
  - destruct (c =? 63) eqn:E; b2p.
    + subst. split.
      * intros H; inversion H; subst. cbn. auto.
      * intros (H & E). destruct a as [|x a].
        { destruct q; cbn in E; inversion E; subst. reflexivity. }
        cbn in *. inversion E; subst. tauto.
    + destruct (qsplit s) as [a' q'] eqn:Q. split.
      * intros H; inversion H; subst. destruct (proj1 (IH a' q) eq_refl) as (H1 & ->). cbn. split; auto.
        intros [?|?]; congruence.
      * intros (H & E2). destruct a as [|x a].
        { destruct q; cbn in E2; inversion E2; subst; congruence. }
        cbn in E2. inversion E2; subst. cbn in H.
        assert (X : (a', q') = (a, q)) by (apply IH; tauto). inversion X; subst. reflexivity.
Qed.
Definition stop (s : str) : Prop := s = [] \/ exists r, s = 47 :: r \/ s = 63 :: r.
Lemma asplit_spec : forall s a b, asplit s = (a, b) <->
  ~ In 47 a /\ ~ In 63 a /\ stop b /\ s = a ++ b.
Proof.
  induction s as [|c s IH]; intros a b; cbn [asplit].
  - split.
    + intros H; inversion H; subst. cbn. psplit; auto. left; auto.
    + intros (_ & _ & _ & E). destruct a; [|discriminate]. cbn in E. subst. reflexivity.
  - destruct ((c =? 47) || (c =? 63)) eqn:E.
    + apply orb_true_iff in E. split.
      * intros H; inversion H; subst. cbn. psplit; auto. right. exists s. destruct E; b2p; subst; auto.
      * intros (H1 & H2 & _ & E2). destruct a as [|x a]; cbn in *; subst; auto.
        inversion E2; subst. exfalso. destruct E; b2p; subst; tauto.
    + b2p. destruct (asplit s) as [a' b'] eqn:Q. split.
      * intros H3; inversion H3; subst. destruct (proj1 (IH a' b) eq_refl) as (H1 & H2 & H4 & ->).
        cbn. psplit; auto; intros [?|?]; congruence.
      * intros (H1 & H2 & H3 & E2). destruct a as [|x a]; cbn in *.
        { exfalso. subst b. destruct H3 as [?|(r & [E3|E3])]; [discriminate|inversion E3|inversion E3]; congruence. }
        inversion E2; subst. assert (X : (a', b') = (a, b)) by (apply IH; tauto). inversion X; subst. reflexivity.
Qed.

Definition hq (h : hier) (q : option str) : hier :=
  match q with Some x => set_query h x | None => h end.
Lemma slice_mid {A} (a b c : list A) : slice (length a) (length a + length b) (a ++ b ++ c) = b.
Proof.
  unfold slice. rewrite skipn_len. replace (length a + length b - length a)%nat with (length b) by lia.
  apply firstn_len.
Qed.
Lemma loop_query rel : forall rest pre cur h,
  hier_loop rel (pre ++ cur ++ rest) rest (length pre + length cur) (length pre) HQuery h =
  set_query h (cur ++ rest).
Proof.
  induction rest as [|c rest IH]; intros pre cur h; cbn [hier_loop].
  - rewrite slice_mid, app_nil_r. reflexivity.
  - specialize (IH pre (cur ++ [c]) h). rewrite app_length in IH. cbn [length] in IH.
    rewrite <- !app_assoc in IH. cbn [app] in IH.
    replace (length pre + (length cur + 1))%nat with (S (length pre + length cur)) in IH by lia. exact IH.
Qed.
Lemma loop_query0 rel rest pre h n : n = length pre ->
  hier_loop rel (pre ++ rest) rest n n HQuery h = set_query h rest.
Proof.
  intros ->. pose proof (loop_query rel rest pre [] h) as H. cbn in H. rewrite Nat.add_0_r in H. exact H.
Qed.
Lemma loop_path rel : forall rest pre cur h,
  hier_loop rel (pre ++ cur ++ rest) rest (length pre + length cur) (length pre) HPath h =
  hq (set_abs h (cur ++ fst (qsplit rest))) (snd (qsplit rest)).
Proof.
  induction rest as [|c rest IH]; intros pre cur h; cbn [hier_loop qsplit].
  - rewrite slice_mid. cbn. rewrite app_nil_r. reflexivity.
  - destruct (c =? 63) eqn:E; b2p.
    + subst. rewrite slice_mid. cbn [fst snd hq]. rewrite app_nil_r.
      replace (pre ++ cur ++ 63 :: rest) with ((pre ++ cur ++ [63]) ++ rest) by (rewrite <- !app_assoc; reflexivity).
      apply loop_query0. rewrite !app_length. cbn. lia.
    + specialize (IH pre (cur ++ [c]) h). rewrite app_length in IH. cbn [length] in IH.
      rewrite <- !app_assoc in IH. cbn [app] in IH.
      replace (length pre + (length cur + 1))%nat with (S (length pre + length cur)) in IH by lia.
      rewrite IH. destruct (qsplit rest) as [a q]. cbn. reflexivity.
Qed.
Lemma loop_rel rel : forall rest pre cur h,
  hier_loop rel (pre ++ cur ++ rest) rest (length pre + length cur) (length pre) HRel h =
  hq (set_rel h (cur ++ fst (qsplit rest))) (snd (qsplit rest)).
Proof.
  induction rest as [|c rest IH]; intros pre cur h; cbn [hier_loop qsplit].
  - rewrite slice_mid. cbn. rewrite app_nil_r. reflexivity.
  - destruct (c =? 63) eqn:E; b2p.
    + subst. rewrite slice_mid. cbn [fst snd hq]. rewrite app_nil_r.
      replace (pre ++ cur ++ 63 :: rest) with ((pre ++ cur ++ [63]) ++ rest) by (rewrite <- !app_assoc; reflexivity).
      apply loop_query0. rewrite !app_length. cbn. lia.
    + specialize (IH pre (cur ++ [c]) h). rewrite app_length in IH. cbn [length] in IH.
      rewrite <- !app_assoc in IH. cbn [app] in IH.
      replace (length pre + (length cur + 1))%nat with (S (length pre + length cur)) in IH by lia.
      rewrite IH. destruct (qsplit rest) as [a q]. cbn. reflexivity.
Qed.
(** what follows an authority: nothing, a path, or a query *)
Definition after_auth (h : hier) (b : str) : hier :=
  match b with
  | [] => h
  | c :: r => if c =? 47 then hq (set_abs h (47 :: fst (qsplit r))) (snd (qsplit r)) else set_query h r
  end.
Lemma loop_auth rel : forall rest pre cur h,
  hier_loop rel (pre ++ cur ++ rest) rest (length pre + length cur) (length pre) HAuth h =
  after_auth (set_auth h (cur ++ fst (asplit rest))) (snd (asplit rest)).
Proof.
  induction rest as [|c rest IH]; intros pre cur h; cbn [hier_loop asplit].
  - rewrite slice_mid. cbn. rewrite app_nil_r. reflexivity.
  - destruct (c =? 47) eqn:E; b2p.
    + subst. rewrite slice_mid. cbn [fst snd after_auth orb]. change (47 =? 47) with true. cbv iota. rewrite app_nil_r.
      pose proof (loop_path rel rest (pre ++ cur) [47] (set_auth h cur)) as H. rewrite app_length in H.
      cbn [length app] in H. rewrite <- !app_assoc in H. cbn [app] in H.
      replace (length pre + length cur + 1)%nat with (S (length pre + length cur)) in H by lia. exact H.
    + destruct (c =? 63) eqn:E2; b2p.
      * subst. rewrite slice_mid. cbn [fst snd orb after_auth]. change (63 =? 47) with false. cbv iota. rewrite app_nil_r.
        replace (pre ++ cur ++ 63 :: rest) with ((pre ++ cur ++ [63]) ++ rest) by (rewrite <- !app_assoc; reflexivity).
        apply loop_query0. rewrite !app_length. cbn. lia.
      * cbn [orb].
        specialize (IH pre (cur ++ [c]) h). rewrite app_length in IH. cbn [length] in IH.
        rewrite <- !app_assoc in IH. cbn [app] in IH.
        replace (length pre + (length cur + 1))%nat with (S (length pre + length cur)) in IH by lia.
        rewrite IH. destruct (asplit rest) as [a q]. cbn. reflexivity.
Qed.
Definition slash_spec (s : str) : hier :=
  (* the text after a leading slash *)
  match s with
  | 47 :: r => after_auth (set_auth h0 (fst (asplit r))) (snd (asplit r))
  | _ => hq (set_abs h0 (47 :: fst (qsplit s))) (snd (qsplit s))
  end.
Lemma loop_slash rel s : hier_loop rel (47 :: s) s 1 0 HSlash h0 = slash_spec s.
Proof.
  destruct s as [|c s]; [reflexivity|]. cbn [hier_loop slash_spec].
  destruct (c =? 47) eqn:E; b2p.
  - subst. pose proof (loop_auth rel s [47; 47] [] h0) as H. cbn [app length Nat.add] in H. exact H.
  - assert (X : slash_spec (c :: s) = hq (set_abs h0 (47 :: fst (qsplit (c :: s)))) (snd (qsplit (c :: s)))).
    { unfold slash_spec. destruct c as [|p|p]; try reflexivity.
      do 6 (destruct p as [p|p|]; try reflexivity). congruence. }
    unfold slash_spec in X. rewrite X. clear X. cbn [qsplit].
    destruct (c =? 63) eqn:E2; b2p.
    + subst. cbn [fst snd hq]. pose proof (loop_query0 rel s [47; 63] (set_abs h0 (lit "/")) 2 eq_refl) as H. exact H.
    + pose proof (loop_path rel s [] [47; c] h0) as H. cbn [app length Nat.add Nat.sub] in *. rewrite H.
      destruct (qsplit s) as [a q]. reflexivity.
Qed.
Definition ssp_spec (s : str) : hier :=
  match s with
  | [] => h0
  | c :: r => if c =? 47 then slash_spec r else set_opaque h0 s
  end.
Definition rel_spec (s : str) : hier :=
  match s with
  | c :: r => if c =? 47 then slash_spec r else hq (set_rel h0 (fst (qsplit s))) (snd (qsplit s))
  | [] => set_rel h0 []
  end.
Lemma parse_ssp_eq s : parse_ssp s = ssp_spec s.
Proof.
  unfold parse_ssp. destruct s as [|c s]; [reflexivity|]. cbn [hier_loop ssp_spec].
  destruct (c =? 47) eqn:E; [|reflexivity]. b2p. subst. apply loop_slash.
Qed.
Lemma parse_relative_eq s : parse_relative s = rel_spec s.
Proof.
  unfold parse_relative. destruct s as [|c s]; [reflexivity|]. cbn [hier_loop rel_spec].
  destruct (c =? 47) eqn:E; b2p; [subst; apply loop_slash|]. cbn [qsplit].
  destruct (c =? 63) eqn:E2; b2p.
  - subst. cbn [fst snd hq]. apply (loop_query0 true s [63]). reflexivity.
  - pose proof (loop_rel true s [] [c] h0) as H. cbn [app length Nat.add] in H. rewrite H.
    destruct (qsplit s) as [a q]. reflexivity.
Qed.

(** ** URI text *)
Lemma uric_app al a b : uric_text al a -> uric_text al b -> uric_text al (a ++ b).
Proof. unfold uric_text. induction 1; cbn; intros; auto; [apply esc_char|apply esc_pct]; auto. Qed.
Lemma uric_app_inv al a b : al 37 = false -> uric_text al a -> uric_text al (a ++ b) -> uric_text al b.
Proof.
  intros H37. unfold uric_text. induction 1 as [|c s Hc _ IH|x y s Hx Hy _ IH]; cbn; intros U; auto.
  - inversion U; subst; auto. congruence.
  - inversion U; subst; auto. congruence.
Qed.
(** cutting URI text at a character that is not part of an escape *)
Lemma uric_cut al c : al 37 = false -> is_hex c = false -> c <> 37 -> forall a b,
  uric_text al (a ++ c :: b) -> uric_text al a /\ al c = true /\ uric_text al b.
Proof.
  intros H37 Hx Hc a b U. remember (a ++ c :: b) as s eqn:E. revert a E.
  unfold uric_text in *. induction U as [|d s Hd U IH|x y s Hx1 Hy1 U IH]; intros a E.
  - destruct a; discriminate.
  - destruct a as [|z a]; cbn in E; inversion E; subst.
    + psplit; auto. constructor.
    + destruct (IH a eq_refl) as (I1 & I2 & I3). psplit; auto. constructor; auto.
  - apply is_hex_hexc in Hx1, Hy1.
    destruct a as [|z [|z2 [|z3 a]]]; cbn in E; inversion E; subst; try congruence.
    destruct (IH a eq_refl) as (I1 & I2 & I3). psplit; auto. apply esc_pct; auto; apply is_hex_hexc; auto.
Qed.
Lemma allowed37 : is_allowed 37 = false. Proof. reflexivity. Qed.
Lemma uric_no_hash s : uric_text is_allowed s -> ~ In 35 s.
Proof.
  unfold uric_text. induction 1 as [|c s Hc _ IH|a b s Ha Hb _ IH]; cbn; auto.
  - intros [->|?]; [discriminate|auto].
  - unfold hexc in *. intros [?|[?|[?|?]]]; try lia. auto.
Qed.
Lemma between_range a b c : between a b c = true -> a <= c <= b.
Proof. unfold between. intros H. b2p. lia. Qed.
Lemma alphanum_ascii c : is_alphanum c = true -> 0 <= c <= 127.
Proof.
  unfold is_alphanum, is_upalpha, is_lowalpha, is_digit. rewrite !orb_true_iff.
  intros [[H|H]|H]; apply between_range in H; lia.
Qed.
Lemma zin_ascii c l : forallb (fun x => between 0 127 x) l = true -> zin c l = true -> 0 <= c <= 127.
Proof.
  intros F H. apply zin_In in H. rewrite forallb_forall in F. apply between_range, F. exact H.
Qed.
Lemma allowed_ascii c : is_allowed c = true -> 0 <= c <= 127.
Proof.
  unfold is_allowed, is_reserved, is_unreserved, is_mark. rewrite !orb_true_iff.
  intros [H|[H|H]]; [eapply zin_ascii; [|exact H]; reflexivity|apply alphanum_ascii; auto|
    eapply zin_ascii; [|exact H]; reflexivity].
Qed.
Lemma uric_ascii s : uric_text is_allowed s -> Forall (fun c => 0 <= c <= 127) s.
Proof.
  unfold uric_text. induction 1 as [|c s Hc _ IH|a b s Ha Hb _ IH]; constructor; auto.
  - apply allowed_ascii; auto.
  - lia.
  - unfold hexc in *. do 2 (constructor; [lia|]). auto.
Qed.
(** [parse_uric] on text followed by a character that stops it *)
Lemma uric_loop_app al s b : al 37 = false -> uric_text al s ->
  uric_loop al (s ++ b) 0 MNone = (length s + uric_loop al b 0 MNone)%nat.
Proof.
  intros H37. unfold uric_text. induction 1 as [|c s Hc _ IH|x y s Hx Hy _ IH]; [reflexivity| |].
  - cbn [app uric_loop length]. rewrite Hc, uric_loop_shift, IH. lia.
  - cbn [app uric_loop length]. rewrite H37. change (37 =? 37) with true.
    apply is_hex_hexc in Hx, Hy. rewrite Hx, Hy, uric_loop_shift, IH. lia.
Qed.

(** the text accepted by the constructor *)
Definition frag_text (f : option str) : str := match f with Some f => 35 :: f | None => [] end.
Lemma accept_iff text : forall oct frag,
  (uric_text is_allowed oct /\ opt_all (uric_text is_allowed) frag /\ text = oct ++ frag_text frag) ->
  parse_uric text 0 is_allowed = length oct /\ firstn (length oct) text = oct /\
  match frag with
  | Some f => nth_error text (length oct) = Some 35 /\
              parse_uric text (S (length oct)) is_allowed = length f /\
              slice (S (length oct)) (S (length oct) + length f) text = f /\
              length text = (S (length oct) + length f)%nat
  | None => nth_error text (length oct) = None /\ length text = length oct
  end.
Proof.
  intros oct frag (H1 & H2 & ->). unfold parse_uric. rewrite skipn_O.
  rewrite uric_loop_app by auto. destruct frag as [f|]; cbn [frag_text].
  - cbn [uric_loop]. change (is_allowed 35) with false. change (35 =? 37) with false. cbv iota.
    assert (S1 : skipn (S (length oct)) (oct ++ 35 :: f) = f).
    { replace (oct ++ 35 :: f) with ((oct ++ [35]) ++ f) by (rewrite <- app_assoc; reflexivity).
      replace (S (length oct)) with (length (oct ++ [35])) by (rewrite app_length; cbn; lia).
      apply skipn_len. }
    psplit; try lia.
    + apply firstn_len.
    + rewrite nth_error_app2, Nat.sub_diag by lia. reflexivity.
    + rewrite S1. apply uric_all; auto.
    + unfold slice. rewrite S1. replace (_ + _ - _)%nat with (length f) by lia. apply firstn_all.
    + rewrite app_length. cbn. lia.
  - cbn [uric_loop]. rewrite app_nil_r. psplit; try lia.
    + apply firstn_all.
    + apply nth_error_None. lia.
Qed.
Definition build (k : ucls) (oct : str) (frag : option str) : res uri :=
    let sch := parse_scheme oct in
    let sp := match sch with Some x => Some (skipn (length x + 1) oct) | None => None end in
    let h := match sp with Some x => parse_ssp x | None => parse_relative oct end in
    let! nn := match k, sp with
               | KURN, Some _ => let! (a, b) := parse_nid (opaque_part h) in Ok (Some a, Some b)
               | _, _ => Ok (None, None)
               end in
    let server := match k with KFile | KHTTP | KHTTPS => split_server (authority h) | _ => (None, None, None) end in
    let '(ui, ho, po) := server in
    Ok (mku k oct frag sch sp h ui ho po (fst nn) (snd nn)).
Lemma make_uri_build k oct frag : uric_text is_allowed oct -> opt_all (uric_text is_allowed) frag ->
  make_uri k (oct ++ frag_text frag) = build k oct frag.
Proof.
  intros H1 H2. destruct (accept_iff (oct ++ frag_text frag) oct frag) as (A1 & A2 & A3); auto.
  unfold make_uri. rewrite A1. destruct frag as [f|].
  - destruct A3 as (B1 & B2 & B3 & B4). rewrite B1, B2, B3, A2, B4, Nat.ltb_irrefl. reflexivity.
  - destruct A3 as (B1 & B2). rewrite B1, A2, B2, Nat.ltb_irrefl. reflexivity.
Qed.
Lemma firstn_skipn_cons {A} (l : list A) n x : nth_error l n = Some x -> l = firstn n l ++ x :: skipn (S n) l.
Proof.
  revert n; induction l as [|a l IH]; destruct n; cbn; intros H; try discriminate.
  - inversion H; subst. reflexivity.
  - f_equal. apply IH. exact H.
Qed.
Lemma make_uri_inv k text u : make_uri k text = Ok u ->
  exists oct frag, uric_text is_allowed oct /\ opt_all (uric_text is_allowed) frag /\
    text = oct ++ frag_text frag /\ build k oct frag = Ok u.
Proof.
  intros H. pose proof H as H'. unfold make_uri in H.
  destruct (c12 is_allowed text 0 allowed37) as (L & U & _). set (n := parse_uric text 0 is_allowed) in *.
  cbn [skipn] in *.
  destruct (nth_error text n) as [z|] eqn:E.
  - destruct (Z.eq_dec z 35) as [->|NZ].
    + destruct (c12 is_allowed text (S n) allowed37) as (L2 & U2 & _).
      set (m := parse_uric text (S n) is_allowed) in *.
      assert (Sl : slice (S n) (S n + m) text = firstn m (skipn (S n) text)).
      { unfold slice. replace (S n + m - S n)%nat with m by lia. reflexivity. }
      destruct (S n + m <? length text)%nat eqn:Lt; [discriminate|]. b2p.
      rewrite skipn_length in L2. assert (n < length text)%nat by (apply nth_error_Some; congruence).
      assert (Em : firstn m (skipn (S n) text) = skipn (S n) text) by (apply firstn_all2; rewrite skipn_length; lia).
      rewrite Em in U2.
      exists (firstn n text), (Some (skipn (S n) text)).
      assert (T : text = firstn n text ++ frag_text (Some (skipn (S n) text))) by (apply firstn_skipn_cons; auto).
      psplit; auto. { intros x X. inversion X; subst. exact U2. }
      rewrite <- make_uri_build; auto. { rewrite <- T. exact H'. }
      intros x X. inversion X; subst. exact U2.
    + exfalso. assert (n < length text)%nat by (apply nth_error_Some; congruence).
      assert (X : (n <? length text)%nat = true) by (apply Nat.ltb_lt; auto).
      destruct z as [|p|p]; try (rewrite X in H; discriminate).
      do 6 (destruct p as [p|p|]; try (rewrite X in H; discriminate)). congruence.
  - apply nth_error_None in E. exists (firstn n text), None.
    assert (T : firstn n text = text) by (apply firstn_all2; lia). rewrite T in *. cbn [frag_text].
    rewrite app_nil_r. psplit; auto. { intros x X; discriminate. }
    rewrite <- make_uri_build; auto. { cbn. rewrite app_nil_r. exact H'. } intros x X; discriminate.
Qed.
