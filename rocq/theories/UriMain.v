(** C13 and the reading/recomposition lemmas used by C16, C17, C20. *)
From Verif Require Import Py Num Codec UriModel UriSpec UriProofs UriParse.

#[local] Arguments lit : simpl never.
Definition U := uric_text is_allowed.
Lemma U_nil : U []. Proof. constructor. Qed.
Lemma U_char c s : is_allowed c = true -> U s -> U (c :: s). Proof. intros. apply esc_char; auto. Qed.
Lemma U_uncons c s : is_hex c = false -> c <> 37 -> U (c :: s) -> U s.
Proof. intros H1 H2 H. apply (uric_cut is_allowed c allowed37 H1 H2 [] s) in H. tauto. Qed.
Lemma U_qsplit s : U s -> U (fst (qsplit s)) /\ opt_all U (snd (qsplit s)).
Proof.
  intros H. destruct (qsplit s) as [a q] eqn:E. apply qsplit_spec in E as (_ & ->). cbn.
  destruct q as [q|].
  - apply uric_cut in H as (H1 & _ & H2); auto; try discriminate. split; auto. intros x X; inversion X; subst; auto.
  - rewrite app_nil_r in H. split; auto. intros x X; discriminate.
Qed.
Lemma U_asplit s : U s -> U (fst (asplit s)) /\ U (snd (asplit s)).
Proof.
  intros H. destruct (asplit s) as [a b] eqn:E. apply asplit_spec in E as (_ & _ & [->|(r & [-> | ->])] & ->); cbn.
  - rewrite app_nil_r in H. split; auto. apply U_nil.
  - apply uric_cut in H as (H1 & _ & H2); auto; try discriminate. split; auto. apply U_char; auto.
  - apply uric_cut in H as (H1 & _ & H2); auto; try discriminate. split; auto. apply U_char; auto.
Qed.

Definition hcompose (h : hier) : str :=
  opt_text [] (opaque_part h) [] ++ opt_text ([47; 47]) (authority h) [] ++ opt_text [] (abs_path h) [] ++
  opt_text [] (rel_path h) [] ++ opt_text ([63]) (query h) [].

Record slash_ok (h : hier) (s : str) : Prop := {
  so_opaque : opaque_part h = None;
  so_rel : rel_path h = None;
  so_text : hcompose h = 47 :: s;
  so_auth : opt_all (fun x => ~ In 47 x /\ ~ In 63 x) (authority h);
  so_abs : opt_all (fun x => starts 47 x /\ ~ In 63 x /\
             (authority h = None -> forall r, x <> 47 :: 47 :: r)) (abs_path h);
  so_one : authority h = None -> abs_path h <> None;
  so_uric : U s -> forall x, In (Some x) [authority h; abs_path h; query h] -> U x }.

Lemma not47_slash (s : str) : (exists r, s = 47 :: r) \/
  ((forall r, s <> 47 :: r) /\ slash_spec s = hq (set_abs h0 (47 :: fst (qsplit s))) (snd (qsplit s))).
Proof.
  destruct s as [|c s]; [right; split; [discriminate|reflexivity]|].
  destruct (Z.eq_dec c 47) as [->|N]; [left; eauto|right]. split; [congruence|].
  unfold slash_spec. destruct c as [|p|p]; try reflexivity.
  do 6 (destruct p as [p|p|]; try reflexivity). congruence.
Qed.
Ltac inv_some := let X := fresh in intros ? X; inversion X; subst; clear X.
Ltac in_some := let Y := fresh in cbn [In]; intros ? [Y|[Y|[Y|[]]]]; inversion Y; subst; clear Y.

Lemma slash_spec_ok s : slash_ok (slash_spec s) s.
Proof.
  destruct (not47_slash s) as [(r & ->)|(N & ->)].
  - cbn [slash_spec]. destruct (asplit r) as [a b] eqn:E. cbn [fst snd].
    pose proof E as E'. apply asplit_spec in E as (H1 & H2 & H3 & ->).
    assert (UA : U (a ++ b) -> U a /\ U b).
    { intros X. pose proof (U_asplit _ X) as Y. rewrite E' in Y. exact Y. }
    destruct b as [|c b]; cbn [after_auth].
    + split; cbn; auto; try discriminate.
      * rewrite !app_nil_r. reflexivity.
      * inv_some; auto.
      * intros X. apply U_uncons in X; auto; try discriminate. apply UA in X. in_some. tauto.
    + destruct H3 as [?|(r & [X|X])]; [discriminate| |]; inversion X; subst; clear X.
      * change (47 =? 47) with true. cbv iota. destruct (qsplit r) as [p q] eqn:E. cbn [fst snd].
        pose proof E as E2. apply qsplit_spec in E as (H4 & ->).
        assert (K : ~ In 63 (47 :: p)) by (intros [?|?]; [lia|auto]).
        assert (UR : U (47 :: a ++ 47 :: p ++ match q with Some q => 63 :: q | None => [] end) ->
                U a /\ U (47 :: p) /\ opt_all U q).
        { intros X. apply U_uncons in X; auto; try discriminate. apply UA in X as (X1 & X2).
          apply U_uncons in X2; auto; try discriminate. apply U_qsplit in X2. rewrite E2 in X2. cbn in X2.
          psplit; try tauto. apply U_char; auto; tauto. }
        destruct q as [q|]; rewrite ?app_nil_r in UR; cbn [hq]; split; cbn; auto; try discriminate; rewrite ?app_nil_r; auto.
        -- inv_some; auto.
        -- inv_some. psplit; auto. exists p; auto. discriminate.
        -- intros X; apply UR in X as (X1 & X2 & X3). specialize (X3 q eq_refl). in_some; auto.
        -- inv_some; auto.
        -- inv_some. psplit; auto. exists p; auto. discriminate.
        -- intros X; apply UR in X as (X1 & X2 & X3). in_some; auto.
      * change (63 =? 47) with false. cbv iota. split; cbn; auto; try discriminate.
        -- rewrite app_nil_r, ?app_nil_r. reflexivity.
        -- inv_some; auto.
        -- intros X; apply U_uncons in X; auto; try discriminate. apply UA in X as (X1 & X2).
           apply U_uncons in X2; auto; try discriminate. in_some; auto.
  - destruct (qsplit s) as [p q] eqn:E. cbn [fst snd].
    pose proof E as E2. apply qsplit_spec in E as (H4 & ->).
    assert (K : ~ In 63 (47 :: p)) by (intros [?|?]; [lia|auto]).
    assert (N2 : forall r, 47 :: p <> 47 :: 47 :: r).
    { intros r X. inversion X; subst. eapply N. reflexivity. }
    assert (UR : U (p ++ match q with Some q => 63 :: q | None => [] end) -> U (47 :: p) /\ opt_all U q).
    { intros X. apply U_qsplit in X. rewrite E2 in X. cbn in X. split; [apply U_char; auto; tauto|tauto]. }
    destruct q as [q|]; rewrite ?app_nil_r in UR; cbn [hq]; split; cbn; auto; try discriminate; rewrite ?app_nil_r; auto.
    + inv_some. psplit; auto. exists p; auto.
    + intros X; apply UR in X as (X1 & X3). specialize (X3 q eq_refl). in_some; auto.
    + inv_some. psplit; auto. exists p; auto.
    + intros X; apply UR in X as (X1 & X3). in_some; auto.
Qed.
Lemma slash_complete h s : opaque_part h = None -> rel_path h = None ->
  opt_all (fun x => ~ In 47 x /\ ~ In 63 x) (authority h) ->
  opt_all (fun x => starts 47 x /\ ~ In 63 x /\ (authority h = None -> forall r, x <> 47 :: 47 :: r)) (abs_path h) ->
  (authority h = None -> abs_path h <> None) ->
  hcompose h = 47 :: s -> slash_spec s = h.
Proof.
  destruct h as [op au ab re qu]. cbn. intros -> -> HA HP H1. unfold hcompose. cbn.
  destruct au as [a|].
  - destruct (HA a eq_refl) as (A1 & A2). cbn. intros E. inversion E as [E2]. subst s. clear E.
    cbn [slash_spec]. rewrite app_nil_r.
    destruct ab as [p|].
    + destruct (HP p eq_refl) as ((r & ->) & P2 & _). cbn in P2.
      assert (X : asplit (a ++ opt_text [] (Some (47 :: r)) [] ++ opt_text ([63]) qu []) =
        (a, 47 :: r ++ opt_text ([63]) qu [])).
      { apply asplit_spec. psplit; auto. right. exists (r ++ opt_text ([63]) qu []). left; reflexivity.
        cbn. rewrite app_nil_r. reflexivity. }
      cbn [opt_text app] in X |- *. rewrite X. cbn [fst snd after_auth]. change (47 =? 47) with true. cbv iota.
      assert (Y : qsplit (r ++ opt_text ([63]) qu []) = (r, qu)).
      { apply qsplit_spec. split; [tauto|]. destruct qu; cbn; rewrite ?app_nil_r; reflexivity. }
      cbn [opt_text] in Y. rewrite Y. destruct qu; reflexivity.
    + destruct qu as [q|]; cbn.
      * assert (X : asplit (a ++ 63 :: q ++ []) = (a, 63 :: q)).
        { apply asplit_spec. psplit; auto. right; exists q; auto. rewrite app_nil_r. reflexivity. }
        rewrite X. reflexivity.
      * assert (X : asplit (a ++ []) = (a, [])). { apply asplit_spec. psplit; auto. left; auto. }
        rewrite X. reflexivity.
  - destruct ab as [p|]; [|exfalso; apply H1; auto].
    destruct (HP p eq_refl) as ((r & ->) & P2 & P3). cbn. intros E. inversion E as [E2]. subst s. clear E.
    rewrite app_nil_r. specialize (P3 eq_refl). cbn in P2.
    assert (Y : qsplit (r ++ opt_text ([63]) qu []) = (r, qu)).
    { apply qsplit_spec. split; [tauto|]. destruct qu; cbn; rewrite ?app_nil_r; reflexivity. }
    destruct (not47_slash (r ++ opt_text ([63]) qu [])) as [(r' & E)|(_ & E)].
    + exfalso. destruct r as [|c r]; [destruct qu; discriminate|]. cbn in E. inversion E; subst.
      eapply P3. reflexivity.
    + cbn [opt_text] in *. rewrite E, Y. destruct qu; reflexivity.
Qed.

Lemma build_fields k oct frag u : build k oct frag = Ok u ->
  cls u = k /\ octets u = oct /\ fragment u = frag /\ scheme u = parse_scheme oct /\
  ssp u = match parse_scheme oct with Some x => Some (skipn (length x + 1) oct) | None => None end /\
  hr u = match parse_scheme oct with
         | Some x => ssp_spec (skipn (length x + 1) oct) | None => rel_spec oct end /\
  (userinfo u, host u, port u) =
    match k with KFile | KHTTP | KHTTPS => split_server (authority (hr u)) | _ => (None, None, None) end /\
  match k, parse_scheme oct with
  | KURN, Some _ => exists a b, parse_nid (opaque_part (hr u)) = Ok (a, b) /\ nid u = Some a /\ nss u = Some b
  | _, _ => nid u = None /\ nss u = None
  end.
Proof.
  unfold build. rewrite parse_relative_eq.
  destruct (parse_scheme oct) as [x|] eqn:E; rewrite ?parse_ssp_eq.
  - set (h := ssp_spec _). destruct k; cbn [rbind];
      try (destruct (split_server (authority h)) as [[ui ho] po] eqn:S; intros X; inversion X; subst; cbn;
           psplit; auto; fail).
    + destruct (parse_nid (opaque_part h)) as [[a b]|] eqn:P; cbn; [|discriminate].
      intros X; inversion X; subst; cbn. psplit; auto. exists a, b. auto.
  - set (h := rel_spec _). destruct k; cbn [rbind];
      try (destruct (split_server (authority h)) as [[ui ho] po] eqn:S; intros X; inversion X; subst; cbn;
           psplit; auto; fail);
      intros X; inversion X; subst; cbn; psplit; auto.
Qed.
Lemma build_ok k oct frag : k <> KURN -> exists u, build k oct frag = Ok u.
Proof.
  intros H. unfold build.
  destruct k; try congruence; cbn [rbind];
    destruct (parse_scheme oct); cbn; try destruct (split_server _) as [[? ?] ?]; eauto.
Qed.

Lemma recompose_h u : recompose (parts_of u) =
  opt_text [] (scheme u) ([58]) ++ hcompose (hr u) ++ opt_text ([35]) (fragment u) [].
Proof. unfold recompose, parts_of, hcompose. cbn. rewrite <- !app_assoc. reflexivity. Qed.
Lemma frag_text_eq f : frag_text f = opt_text ([35]) f [].
Proof. destruct f; cbn; rewrite ?app_nil_r; reflexivity. Qed.
Lemma skipn_scheme {A} (x : list A) c r : skipn (length x + 1) (x ++ c :: r) = r.
Proof.
  replace (x ++ c :: r) with ((x ++ [c]) ++ r) by (rewrite <- app_assoc; reflexivity).
  replace (length x + 1)%nat with (length (x ++ [c])) by (rewrite app_length; reflexivity).
  apply skipn_len.
Qed.
Lemma no_scheme_app a b : ~ In 58 b \/ (exists c r, b = c :: r /\ is_scheme_char c = false /\ c <> 58) ->
  no_scheme a -> no_scheme (a ++ b).
Proof.
  intros Hb Ha x y E Hx.
  (* either the colon is in a, or x contains all of a *)
  assert (D : (exists l, a = x ++ 58 :: l) \/ exists l, x = a ++ l /\ b = l ++ 58 :: y).
  { clear -E. revert x E. induction a as [|z a IH]; intros x E; cbn in E.
    - right. exists x. auto.
    - destruct x as [|w x]; cbn in E; inversion E; subst.
      + left. exists a. reflexivity.
      + destruct (IH x H1) as [(l & ->)|(l & -> & ->)]; [left|right]; exists l; auto. }
  destruct D as [(l & ->)|(l & -> & ->)].
  - eapply Ha; eauto.
  - destruct Hb as [Hb|(c & r & E2 & C1 & C2)].
    + apply Hb. apply in_or_app. right. left. reflexivity.
    + destruct l as [|d l]; cbn in E2; inversion E2; subst; [congruence|].
      apply scheme_ok_chars in Hx. apply Forall_app in Hx as [_ Hx]. inversion Hx; subst. congruence.
Qed.
Lemma no_scheme_prefix a b : no_scheme (a ++ b) -> no_scheme a.
Proof. intros H x y -> Hx. apply (H x (y ++ b)); auto. rewrite <- app_assoc. reflexivity. Qed.
Lemma rel_spec_cases s : (exists r, s = 47 :: r /\ rel_spec s = slash_spec r) \/
  (~ starts 47 s /\ rel_spec s = hq (set_rel h0 (fst (qsplit s))) (snd (qsplit s))).
Proof.
  destruct s as [|c s].
  - right. split; [intros (r & ?); discriminate|reflexivity].
  - cbn [rel_spec]. destruct (c =? 47) eqn:E; b2p.
    + subst. left. eauto.
    + right. split; [intros (r & X); inversion X; congruence|reflexivity].
Qed.
Lemma scheme_ok_U x s : scheme_ok x -> U (x ++ 58 :: s) -> U s.
Proof. intros _ H. apply uric_cut in H; auto; try discriminate. tauto. Qed.
Lemma scheme_char_allowed c : is_scheme_char c = true -> is_allowed c = true.
Proof.
  unfold is_scheme_char, is_allowed, is_unreserved. rewrite !orb_true_iff. intros [H|H]; auto.
  apply zin_In in H. cbn in H. destruct H as [<-|[<-|[<-|[]]]]; cbn; auto.
Qed.
Lemma scheme_U x : scheme_ok x -> U x.
Proof.
  intros H. apply scheme_ok_chars in H. induction H; [apply U_nil|apply U_char; auto].
  apply scheme_char_allowed; auto.
Qed.

Lemma c13_sound k text u : make_uri k text = Ok u ->
  parts_ok (parts_of u) /\ recompose (parts_of u) = text /\ to_str u = text /\ cls u = k.
Proof.
  intros H. apply make_uri_inv in H as (oct & frag & UO & UF & -> & B).
  apply build_fields in B as (B1 & B2 & B3 & B4 & B5 & B6 & B7 & B8).
  assert (TS : to_str u = oct ++ frag_text frag).
  { unfold to_str. rewrite B2, B3. destruct frag; cbn; rewrite ?app_nil_r; reflexivity. }
  assert (RC : recompose (parts_of u) = oct ++ frag_text frag /\ parts_ok (parts_of u)); [|tauto].
  rewrite recompose_h, B3, <- frag_text_eq.
  destruct (parse_scheme oct) as [x|] eqn:E.
  - pose proof E as E'. apply parse_scheme_some in E' as (SX & r & ->). rewrite skipn_scheme in *.
    rewrite B4, B6. apply scheme_ok_U in UO; auto.
    destruct r as [|c r]; cbn [ssp_spec] in *.
    + split. { cbn. rewrite <- !app_assoc. reflexivity. }
      split; cbn; rewrite ?B6, ?B4, ?B3; cbn; try (inv_some; auto; fail); try congruence.
      intros y [X|[X|[X|[X|[X|[X|[]]]]]]]; try discriminate. subst. apply UF; auto.
    + destruct (c =? 47) eqn:Ec; b2p.
      * subst c. destruct (slash_spec_ok r) as [S1 S2 S3 S4 S5 S6 S7]. rewrite S3.
        split. { cbn. rewrite <- !app_assoc. reflexivity. }
        assert (UR : U r) by (apply U_uncons in UO; auto; discriminate). specialize (S7 UR).
        unfold parts_of. rewrite B6, B4, B3. split; cbn; rewrite ?S1, ?S2; try (inv_some; auto; fail); auto; try congruence.
        -- intros y [X|[X|[X|[X|[X|[X|[]]]]]]]; try discriminate; try (apply S7; cbn; auto; fail).
           subst. apply UF; auto.
        -- intros _ Y1 Y2. exfalso. exact (S6 Y1 Y2).
      * split. { cbn. rewrite <- !app_assoc; cbn; rewrite ?app_nil_r. reflexivity. }
        unfold parts_of. rewrite B6, B4, B3. split; cbn; try (inv_some; auto; fail); auto; try congruence.
        -- intros y [X|[X|[X|[X|[X|[X|[]]]]]]]; try discriminate.
           ++ inversion X; subst. exact UO.
           ++ subst. apply UF; auto.
        -- inv_some. psplit; auto; try discriminate. intros (z & Z); inversion Z; congruence.
  - apply parse_scheme_none in E. rewrite B4, B6.
    assert (NS : no_scheme (oct ++ frag_text frag)).
    { apply no_scheme_app; auto. destruct frag as [f|]; cbn; [right; exists 35, f|left; auto].
      psplit; auto; try reflexivity; lia. }
    destruct (rel_spec_cases oct) as [(r & -> & ->)|(N & ->)].
    + destruct (slash_spec_ok r) as [S1 S2 S3 S4 S5 S6 S7]. rewrite S3. cbn [opt_text app].
      assert (UR : U r) by (apply U_uncons in UO; auto; discriminate). specialize (S7 UR).
      split; [reflexivity|].
      assert (PE : recompose (parts_of u) = 47 :: r ++ frag_text frag).
      { rewrite recompose_h, B4, B6, B3. change (rel_spec (47 :: r)) with (slash_spec r). rewrite S3, frag_text_eq. reflexivity. }
      unfold parts_of in *. rewrite B6, B4, B3 in *. change (rel_spec (47 :: r)) with (slash_spec r) in *.
      split; cbn; rewrite ?S1, ?S2; try (inv_some; auto; fail); auto; try congruence.
      * intros y [X|[X|[X|[X|[X|[X|[]]]]]]]; try discriminate; try (apply S7; cbn; auto; fail).
        subst. apply UF; auto.
      * intros _ Y1 Y2. exfalso. exact (S6 Y1 Y2).
      * intros _. cbn in PE. rewrite S1, S2 in PE. cbn in PE. unfold recompose. cbn. rewrite PE. exact NS.
      * intros _ Y1 Y2. exfalso. exact (S6 Y1 Y2).
    + destruct (qsplit oct) as [p q] eqn:E2. pose proof (U_qsplit _ UO) as (UP & UQ). rewrite E2 in UP, UQ.
      cbn in UP, UQ. assert (PE : recompose (parts_of u) = oct ++ frag_text frag).
      { rewrite recompose_h, B4, B6, B3. destruct (rel_spec_cases oct) as [(r & -> & _)|(_ & ->)].
        { exfalso; apply N; exists r; auto. }
        rewrite E2. apply qsplit_spec in E2 as (_ & ->). rewrite frag_text_eq.
        destruct q; cbn; rewrite ?app_nil_r, <- ?app_assoc; reflexivity. }
      rewrite recompose_h, B4, B6, B3 in PE. destruct (rel_spec_cases oct) as [(r & -> & _)|(_ & X)].
      { exfalso; apply N; exists r; auto. }
      rewrite E2 in X. cbn [fst snd] in X.
      rewrite X in PE. rewrite frag_text_eq at 1. cbn [fst snd] in *. split; [exact PE|].
      apply qsplit_spec in E2 as (Hq & Eo).
      assert (N2 : ~ starts 47 p).
      { intros (z & ->). apply N. rewrite Eo. cbn. eexists. reflexivity. }
      unfold parts_of. rewrite B6, B4, B3, X.
      assert (NS' : no_scheme (recompose (mkparts None (opaque_part (hq (set_rel h0 p) q)) (authority (hq (set_rel h0 p) q))
         (abs_path (hq (set_rel h0 p) q)) (rel_path (hq (set_rel h0 p) q)) (query (hq (set_rel h0 p) q)) frag))).
      { replace (recompose _) with (oct ++ frag_text frag); auto. rewrite <- PE.
        destruct q; unfold recompose, hcompose; cbn; change (lit "?") with [63]; cbn; rewrite ?app_nil_r, <- ?app_assoc; reflexivity. }
      split; auto; destruct q as [q|]; cbn; try congruence; try (inv_some; psplit; auto; fail).
      * intros y [Y|[Y|[Y|[Y|[Y|[Y|[]]]]]]]; try discriminate; inversion Y; subst; auto;
          first [apply UQ; reflexivity | apply UF; assumption].
      * intros y [Y|[Y|[Y|[Y|[Y|[Y|[]]]]]]]; try discriminate; inversion Y; subst; auto;
          apply UF; assumption.
Qed.

(** the text without the fragment *)
Definition body (p : parts) : str :=
  opt_text [] (p_scheme p) [58] ++
  hcompose (mkh (p_opaque p) (p_auth p) (p_abs p) (p_rel p) (p_query p)).
Lemma recompose_body p : recompose p = body p ++ frag_text (p_frag p).
Proof. unfold recompose, body, hcompose. rewrite frag_text_eq, <- !app_assoc. cbn. reflexivity. Qed.
Lemma U_opt pre o post : U pre -> U post -> opt_all U o -> U (opt_text pre o post).
Proof.
  intros H1 H2 H. destruct o as [x|]; cbn; [|apply U_nil]. apply uric_app; auto. apply uric_app; auto.
  apply H; auto.
Qed.
Lemma body_U p : parts_ok p -> U (body p).
Proof.
  intros [P1 P2 P3 P4 P5 P6 P7 P8 P9]. unfold body, hcompose. cbn.
  assert (US : U [47; 47]) by (repeat apply U_char; auto using U_nil).
  assert (UQ : U [63]) by (repeat apply U_char; auto using U_nil).
  assert (UC : U [58]) by (repeat apply U_char; auto using U_nil).
  repeat apply uric_app; apply U_opt; auto using U_nil; intros x X;
    try (apply P1; rewrite <- X; cbn; tauto).
  apply scheme_U. apply P2. exact X.
Qed.
Lemma hier_read p : parts_ok p ->
  parse_scheme (body p) = p_scheme p /\
  match p_scheme p with
  | Some x => body p = x ++ 58 :: skipn (length x + 1) (body p) /\
              ssp_spec (skipn (length x + 1) (body p)) = mkh (p_opaque p) (p_auth p) (p_abs p) (p_rel p) (p_query p)
  | None => rel_spec (body p) = mkh (p_opaque p) (p_auth p) (p_abs p) (p_rel p) (p_query p)
  end.
Proof.
  intros P. destruct P as [P1 P2 P3 P4 P5 P6 P7 P8 P9].
  set (h := mkh (p_opaque p) (p_auth p) (p_abs p) (p_rel p) (p_query p)).
  destruct (p_scheme p) as [x|] eqn:ES.
  - assert (B : body p = x ++ 58 :: hcompose h).
    { unfold body. rewrite ES. cbn [opt_text app]. rewrite <- app_assoc. reflexivity. }
    rewrite B, skipn_scheme. split; [apply parse_scheme_some; split; eauto|]. split; [reflexivity|].
    assert (RN : p_rel p = None).
    { destruct (p_rel p) as [y|] eqn:E; auto. destruct (P6 y eq_refl) as (X & _). discriminate. }
    destruct (p_opaque p) as [o|] eqn:EO.
    + destruct (P3 o eq_refl) as (_ & O1 & O2 & O3 & O4 & O5). subst h.
      rewrite O3, O4, O5, RN. unfold hcompose. cbn. rewrite !app_nil_r.
      destruct o as [|c o]; [congruence|]. cbn. destruct (c =? 47) eqn:E; b2p; [|reflexivity].
      subst. exfalso. apply O2. eexists; reflexivity.
    + destruct (p_auth p) as [a|] eqn:EA; [|destruct (p_abs p) as [ab|] eqn:EP].
      * assert (X : exists s, hcompose h = 47 :: s) by (unfold hcompose; cbn; eexists; reflexivity).
        destruct X as (s & X). rewrite X. cbn [ssp_spec]. change (47 =? 47) with true. cbv iota.
        apply slash_complete; cbn; auto; try congruence.
      * destruct (P5 ab eq_refl) as ((r & ->) & _).
        assert (X : exists s, hcompose h = 47 :: s) by (unfold hcompose; cbn; eexists; reflexivity).
        destruct X as (s & X). rewrite X. cbn [ssp_spec]. change (47 =? 47) with true. cbv iota.
        apply slash_complete; cbn; auto; try congruence.
      * destruct (p_query p) as [q|] eqn:EQ.
        { exfalso. apply P9; auto. discriminate. }
        subst h. rewrite RN. reflexivity.
  - assert (B : body p = hcompose h) by (unfold body; rewrite ES; reflexivity).
    split.
    { apply parse_scheme_none. specialize (P8 eq_refl). rewrite recompose_body in P8.
      eapply no_scheme_prefix; eauto. }
    assert (ON : p_opaque p = None).
    { destruct (p_opaque p) as [y|] eqn:E; auto. destruct (P3 y eq_refl) as (X & _). congruence. }
    rewrite B. destruct (p_rel p) as [r|] eqn:ER.
    + destruct (P6 r eq_refl) as (_ & R1 & R2 & R3 & R4).
      assert (HC : hcompose h = r ++ match p_query p with Some q => 63 :: q | None => [] end).
      { subst h. unfold hcompose. rewrite ON, R1, R2. cbn. rewrite app_nil_r.
        destruct (p_query p); cbn; rewrite ?app_nil_r; reflexivity. }
      destruct (rel_spec_cases (hcompose h)) as [(z & Z & _)|(_ & ->)].
      { exfalso. rewrite HC in Z. destruct r as [|c r]; [destruct (p_query p); discriminate|].
        cbn in Z. inversion Z; subst. apply R3. eexists; reflexivity. }
      assert (Y : qsplit (hcompose h) = (r, p_query p)) by (apply qsplit_spec; auto).
      rewrite Y. subst h. rewrite ON, R1, R2. destruct (p_query p); reflexivity.
    + assert (X : exists s, hcompose h = 47 :: s).
      { subst h. unfold hcompose. rewrite ON. destruct (p_auth p) as [a|]; [cbn; eexists; reflexivity|].
        destruct (p_abs p) as [ab|] eqn:EP; [|exfalso; apply P7; auto].
        destruct (P5 ab eq_refl) as ((r & ->) & _). cbn. eexists; reflexivity. }
      destruct X as (s & X). rewrite X. cbn [rel_spec]. change (47 =? 47) with true. cbv iota.
      apply slash_complete; cbn; auto; try congruence.
      intros E1 E2. apply P7; auto.
Qed.
Lemma make_body k p : parts_ok p -> make_uri k (recompose p) = build k (body p) (p_frag p).
Proof.
  intros H. rewrite recompose_body. apply make_uri_build; [apply body_U; auto|].
  intros x X. destruct H. apply po_uric. rewrite X. cbn. tauto.
Qed.
Lemma build_parts k p u : parts_ok p -> build k (body p) (p_frag p) = Ok u -> parts_of u = p.
Proof.
  intros H B. apply build_fields in B as (B1 & B2 & B3 & B4 & B5 & B6 & _).
  destruct (hier_read p H) as (R1 & R2). unfold parts_of. rewrite B6, B4, B3, R1 in *.
  destruct (p_scheme p) as [x|] eqn:E.
  - destruct R2 as (_ & ->). cbn. rewrite <- E. destruct p; reflexivity.
  - rewrite R2. cbn. rewrite <- E. destruct p; reflexivity.
Qed.
Lemma c13_complete k p : parts_ok p -> k <> KURN ->
  exists u, make_uri k (recompose p) = Ok u /\ parts_of u = p.
Proof.
  intros H K. destruct (build_ok k (body p) (p_frag p) K) as (u & B). exists u.
  split; [rewrite make_body; auto|]. eapply build_parts; eauto.
Qed.
Lemma c13_accept text : (exists u, make_uri KURI text = Ok u) <->
  exists a f, uric_text is_allowed a /\ opt_all (uric_text is_allowed) f /\
    text = a ++ match f with Some f => lit "#" ++ f | None => [] end.
Proof.
  split.
  - intros (u & H). apply make_uri_inv in H as (a & f & H1 & H2 & H3 & _). exists a, f. psplit; auto.
  - intros (a & f & H1 & H2 & ->). destruct (build_ok KURI a f) as (u & B); [discriminate|]. exists u.
    rewrite <- B, <- make_uri_build; auto.
Qed.
(** every other text is rejected with URIException *)
Lemma c13_reject k text e : k <> KURN -> make_uri k text = Err e -> e = URIException.
Proof.
  intros K. unfold make_uri.
  destruct (match nth_error text (parse_uric text 0 is_allowed) with
     | Some 35 => _ | _ => _ end) as [f n].
  destruct (n <? length text)%nat; [congruence|].
  set (oct := firstn _ _). destruct (build_ok k oct f K) as (u & B). unfold build in B.
  intros E. change (build k oct f = Err e) in E. unfold build in E. rewrite B in E. discriminate.
Qed.
