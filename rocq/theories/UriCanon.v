(** C17: canonical forms. *)
From Verif Require Import Py Num Codec UriModel UriSpec UriProofs UriParse UriMain UriServer UriPath UriRel.
#[local] Arguments lit : simpl never.
#[local] Arguments decimal : simpl never.
#[local] Arguments dec_nat : simpl never.

(** ** lower case *)
Lemma lower1_cases c : (65 <= c <= 90 /\ lower1 c = c + 32) \/ (~ 65 <= c <= 90 /\ lower1 c = c).
Proof. unfold lower1. destruct (_ && _) eqn:E; b2p; [left|right]; split; auto; lia. Qed.
Lemma lower1_idem c : lower1 (lower1 c) = lower1 c.
Proof. destruct (lower1_cases c) as [(H & ->)|(H & E)]; [|congruence]. destruct (lower1_cases (c + 32)) as [(?&?)|(_ & ->)]; lia. Qed.
Lemma lower_idem s : lower (lower s) = lower s.
Proof. unfold lower. rewrite map_map. apply map_ext. intros. apply lower1_idem. Qed.
Lemma in_lower c s : ~ 97 <= c <= 122 -> In c (lower s) -> In c s.
Proof.
  intros H1 H. apply in_map_iff in H as (x & E & Hx). destruct (lower1_cases x) as [(?&E2)|(?&E2)]; rewrite E2 in E; [lia|].
  congruence.
Qed.
Lemma between_iff a b c : between a b c = true <-> a <= c <= b.
Proof. unfold between. rewrite andb_true_iff, !Z.leb_le. tauto. Qed.
Lemma is_alpha_iff c : is_alpha c = true <-> 65 <= c <= 90 \/ 97 <= c <= 122.
Proof. unfold is_alpha, is_upalpha, is_lowalpha. rewrite orb_true_iff, !between_iff. tauto. Qed.
Lemma is_alphanum_iff c : is_alphanum c = true <-> 65 <= c <= 90 \/ 97 <= c <= 122 \/ 48 <= c <= 57.
Proof. unfold is_alphanum, is_upalpha, is_lowalpha, is_digit. rewrite !orb_true_iff, !between_iff. tauto. Qed.
Lemma allowed_lower c : is_allowed c = true -> is_allowed (lower1 c) = true.
Proof.
  intros H. destruct (lower1_cases c) as [(L & ->)|(_ & ->)]; auto.
  unfold is_allowed, is_unreserved. assert (X : is_alphanum (c + 32) = true) by (apply is_alphanum_iff; lia).
  rewrite X. cbn. apply orb_true_r.
Qed.
Lemma hexc_lower c : hexc c -> hexc (lower1 c).
Proof. unfold hexc. destruct (lower1_cases c) as [(L & ->)|(_ & ->)]; auto. lia. Qed.
Lemma U_lower s : U s -> U (lower s).
Proof.
  unfold U, uric_text. induction 1; unfold lower in *; cbn [map].
  - constructor.
  - constructor; auto. apply allowed_lower; auto.
  - change (lower1 37) with 37. apply esc_pct; auto using hexc_lower.
Qed.
Lemma scheme_char_lower c : is_scheme_char c = true -> is_scheme_char (lower1 c) = true.
Proof.
  intros H. destruct (lower1_cases c) as [(L & ->)|(_ & ->)]; auto. unfold is_scheme_char.
  assert (X : is_alphanum (c + 32) = true) by (apply is_alphanum_iff; lia). rewrite X. reflexivity.
Qed.
Lemma scheme_lower s : scheme_ok s -> scheme_ok (lower s).
Proof.
  intros [->|(c & r & -> & H1 & H2)]; [left; reflexivity|right]. exists (lower1 c), (lower r). psplit; auto.
  - apply is_alpha_iff. apply is_alpha_iff in H1. destruct (lower1_cases c) as [(L & ->)|(_ & ->)]; lia.
  - unfold lower. apply Forall_map. eapply Forall_impl; [|exact H2]. intros. apply scheme_char_lower; auto.
Qed.

(** ** a URI built from components that include a scheme *)
Lemma scheme_text p s : p_scheme p = Some s -> exists r, recompose p = s ++ 58 :: r.
Proof.
  intros E. unfold recompose. rewrite E. cbn [opt_text app]. change (lit ":") with [58]. rewrite <- !app_assoc. cbn [app].
  eexists. reflexivity.
Qed.
Lemma from_parts_scheme p s k : parts_ok p -> p_scheme p = Some s -> scheme_class (lower s) = k -> k <> KURN ->
  exists u, from_octets (recompose p) = Ok u /\ parts_of u = p /\ cls u = k /\ make_uri k (recompose p) = Ok u.
Proof.
  intros H E K NK. destruct (c13_complete k p H NK) as (u & H1 & H2). exists u. split.
  - rewrite from_octets_ascii by (apply recompose_ascii; auto).
    assert (P : parse_scheme (recompose p) = Some s).
    { apply parse_scheme_some. split; [destruct H; auto|]. apply scheme_text; auto. }
    rewrite P, K. exact H1.
  - psplit; auto. apply c13_sound in H1. tauto.
Qed.
Lemma from_octets_cls t u : from_octets t = Ok u ->
  cls u = match scheme u with Some s => scheme_class (lower s) | None => KURI end /\
  make_uri (cls u) (to_str u) = Ok u.
Proof.
  intros H. apply from_octets_inv in H as (H1 & H2 & H3). pose proof H3 as H4.
  rewrite <- H2 in H4. rewrite from_octets_ascii in H4 by (apply recompose_ascii; auto).
  rewrite H2 in H4. pose proof H4 as H5. apply c13_sound in H5 as (_ & _ & _ & K).
  assert (S : parse_scheme (to_str u) = scheme u).
  { destruct (scheme u) as [s|] eqn:E.
    - apply parse_scheme_some. split; [destruct H1; apply po_scheme; exact E|]. rewrite <- H2. apply scheme_text; exact E.
    - apply parse_scheme_none. rewrite <- H2. destruct H1. apply po_noscheme; exact E. }
  rewrite <- S. split; auto. rewrite K. exact H4.
Qed.
Lemma server_fields k t u : make_uri k t = Ok u -> (k = KFile \/ k = KHTTP \/ k = KHTTPS) ->
  (userinfo u, host u, port u) = split_server (authority (hr u)).
Proof.
  intros H K. apply make_uri_inv in H as (oct & fr & _ & _ & _ & B). apply build_fields in B as (_&_&_&_&_&_&B&_).
  destruct K as [->|[->| ->]]; exact B.
Qed.
Lemma make_ssp k t u s : make_uri k t = Ok u -> scheme u = Some s ->
  exists x, ssp u = Some x /\ octets u = s ++ 58 :: x.
Proof.
  intros H E. apply make_uri_inv in H as (oct & fr & _ & _ & _ & B). apply build_fields in B as (_&B2&_&B4&B5&_).
  rewrite E in B4. rewrite <- B4 in B5. symmetry in B4. apply parse_scheme_some in B4 as (_ & r & B4).
  exists r. rewrite B2, B5, B4. split; auto. f_equal. apply skipn_scheme.
Qed.

(** ** generic URI *)
Definition canon_frag (f : option str) : option str := match f with Some [] => None | _ => f end.
Definition cgen (p : parts) : parts := mkparts (option_map lower (p_scheme p)) (p_opaque p) (p_auth p) (p_abs p) (p_rel p)
  (p_query p) (canon_frag (p_frag p)).
Lemma canon_frag_some f x : canon_frag f = Some x -> f = Some x.
Proof. destruct f as [[|]|]; cbn; congruence. Qed.
Lemma cgen_ok p : parts_ok p -> parts_ok (cgen p).
Proof.
  intros [P1 P2 P3 P4 P5 P6 P7 P8 P9]. unfold cgen.
  assert (SN : forall o : option str, option_map lower o = None <-> o = None) by (intros []; cbn; split; congruence).
  constructor; cbn [p_scheme p_opaque p_auth p_abs p_rel p_query p_frag]; rewrite ?SN in *; auto.
  - intros x X. apply P1. cbn [In] in *. destruct (canon_frag (p_frag p)) eqn:E; [apply canon_frag_some in E|]; intuition congruence.
  - intros x X. destruct (p_scheme p); inversion X; subst. apply scheme_lower. auto.
  - intros x X. destruct (P3 x X) as (A & B). rewrite SN. auto.
  - intros x X. destruct (P6 x X) as (A & B). rewrite SN. auto.
  - intros N. specialize (P8 N). intros a b E. apply (P8 a (b ++ (if truthy (p_frag p) then [] else opt_text (lit "#") (p_frag p) []))).
    unfold recompose in *. cbn [p_scheme p_opaque p_auth p_abs p_rel p_query p_frag] in E. rewrite N in *. cbn [option_map opt_text app] in *.
    match goal with |- _ = a ++ 58 :: b ++ ?Y => replace (a ++ 58 :: b ++ Y) with ((a ++ 58 :: b) ++ Y) by (rewrite <- app_assoc; reflexivity) end.
    rewrite <- E, <- !app_assoc.
    destruct (p_frag p) as [[|]|]; cbn; rewrite ?app_nil_r; reflexivity.
Qed.
Lemma canon_generic_text t u : make_uri (cls u) t = Ok u -> canon_text_generic u = recompose (cgen (parts_of u)).
Proof.
  intros H. pose proof H as H'. apply c13_sound in H as (H1 & H2 & H3 & _). unfold canon_text_generic, recompose, cgen, parts_of.
  cbn [p_scheme p_opaque p_auth p_abs p_rel p_query p_frag].
  assert (F : (if truthy (fragment u) then opt_part (lit "#") (fragment u) else []) = opt_text (lit "#") (canon_frag (fragment u)) []).
  { destruct (fragment u) as [[|]|]; cbn; rewrite ?app_nil_r; auto. }
  match goal with |- ?a ++ _ = _ => transitivity (a ++ opt_text (lit "#") (canon_frag (fragment u)) []); [f_equal; exact F|] end.
  assert (O : octets u = opt_text [] (scheme u) (lit ":") ++ opt_text [] (opaque_part (hr u)) [] ++
    opt_text (lit "//") (authority (hr u)) [] ++ opt_text [] (abs_path (hr u)) [] ++ opt_text [] (rel_path (hr u)) [] ++
    opt_text (lit "?") (query (hr u)) []).
  { rewrite <- H3 in H2. unfold recompose, parts_of, to_str in H2. cbn [p_scheme p_opaque p_auth p_abs p_rel p_query p_frag] in H2.
    destruct (fragment u) as [f|]; cbn [opt_text] in H2; rewrite ?app_nil_r in H2 |- *.
    - change (octets u ++ 35 :: f) with (octets u ++ lit "#" ++ f) in H2. rewrite !app_assoc, app_nil_r in H2. apply app_inv_tail in H2.
      apply app_inv_tail in H2. rewrite <- H2. rewrite <- !app_assoc. reflexivity.
    - rewrite <- H2, !app_assoc. apply app_nil_r. }
  destruct (scheme u) as [s|] eqn:E.
  - destruct (make_ssp _ _ _ _ H' E) as (x & X1 & X2). rewrite X1. cbn [option_map opt_text app] in *. rewrite X2 in O.
    change (lit ":") with [58] in *. rewrite <- app_assoc in O. cbn [app] in O. apply app_inv_head in O. inversion O as [O'].
    rewrite <- !app_assoc. cbn [app]. rewrite <- !app_assoc. reflexivity.
  - cbn [option_map opt_text app] in *. rewrite O. rewrite <- !app_assoc. reflexivity.
Qed.
Lemma cgen_idem p : cgen (cgen p) = cgen p.
Proof. unfold cgen. cbn. destruct (p_scheme p) as [s|]; cbn; rewrite ?lower_idem; destruct (p_frag p) as [[|]|]; reflexivity. Qed.
Lemma c17_generic t u : from_octets t = Ok u -> cls u = KURI ->
  exists c, canonicalize u = Ok c /\ parts_of c = cgen (parts_of u) /\ cls c = KURI /\ canonicalize c = Ok c /\
    uri_eq u c = Ok true.
Proof.
  intros H K. destruct (from_octets_cls _ _ H) as (K1 & K2). destruct (from_octets_inv _ _ H) as (I1 & _ & _).
  pose proof (canon_generic_text _ _ K2) as T.
  assert (G : exists c, from_octets (recompose (cgen (parts_of u))) = Ok c /\ parts_of c = cgen (parts_of u) /\ cls c = KURI /\
    make_uri KURI (recompose (cgen (parts_of u))) = Ok c).
  { destruct (scheme u) as [s|] eqn:E.
    - apply (from_parts_scheme _ (lower s)); [apply cgen_ok; auto|cbn; rewrite E; reflexivity| |discriminate].
      rewrite lower_idem. congruence.
    - destruct (from_parts (cgen (parts_of u))) as (c & C1 & C2); [apply cgen_ok; auto|cbn; rewrite E; reflexivity|].
      exists c. psplit; auto.
      + apply from_octets_cls in C1 as (C1 & _). rewrite C1. apply (f_equal p_scheme) in C2. cbn in C2. rewrite E in C2. rewrite C2. reflexivity.
      + destruct (c13_complete KURI (cgen (parts_of u)) (cgen_ok _ I1)) as (c' & C3 & C4); [discriminate|].
        rewrite from_octets_ascii in C1 by (apply recompose_ascii, cgen_ok; auto).
        assert (X : parse_scheme (recompose (cgen (parts_of u))) = None).
        { apply parse_scheme_none. destruct (cgen_ok _ I1). apply po_noscheme. cbn. rewrite E. reflexivity. }
        rewrite X in C1. exact C1. }
  destruct G as (c & C1 & C2 & C3 & C4). exists c.
  assert (CU : canonicalize u = Ok c) by (unfold canonicalize; rewrite K, T; exact C1).
  assert (CC : canonicalize c = Ok c).
  { unfold canonicalize. rewrite C3. rewrite <- C3 in C4. rewrite (canon_generic_text _ _ C4), C2, cgen_idem. exact C1. }
  psplit; auto. unfold uri_eq, canon_str. rewrite CU, CC. cbn. rewrite str_eqb_refl. reflexivity.
Qed.
Lemma c17_generic_eq t1 u t2 v : from_octets t1 = Ok u -> from_octets t2 = Ok v -> cls u = KURI -> cls v = KURI ->
  exists b, uri_eq u v = Ok b /\ (b = true <-> cgen (parts_of u) = cgen (parts_of v)).
Proof.
  intros H1 H2 K1 K2. destruct (c17_generic _ _ H1 K1) as (c & C1 & C2 & C3 & _). destruct (c17_generic _ _ H2 K2) as (d & D1 & D2 & D3 & _).
  exists (str_eqb (to_str c) (to_str d)). split.
  - unfold uri_eq, canon_str. rewrite C1, D1. reflexivity.
  - rewrite <- C2, <- D2, str_eqb_eq.
    assert (G : forall x w, canonicalize x = Ok w -> cls x = KURI -> from_octets (to_str w) = Ok w /\ recompose (parts_of w) = to_str w).
    { intros x w W X. unfold canonicalize in W. rewrite X in W. apply from_octets_inv in W. tauto. }
    destruct (G _ _ C1 K1) as (A1 & A2). destruct (G _ _ D1 K2) as (B1 & B2). split.
    + intros E. rewrite E in A1. congruence.
    + intros E. rewrite E in A2. congruence.
Qed.

(** ** data *)
Lemma tests_std : tests_ok is_unreserved is_allowed.
Proof.
  intros c H. assert (A : is_allowed c = true) by (unfold is_allowed; rewrite H; apply orb_true_r).
  pose proof (allowed_ascii _ A). psplit; auto; try lia. intros ->. discriminate.
Qed.
Lemma allowed_not37 c : is_allowed c = true -> c <> 37. Proof. intros H ->; discriminate. Qed.
Lemma U_reads s : U s -> exists ts, reads s ts.
Proof.
  unfold U, uric_text. induction 1 as [|c s Hc _ (ts & IH)|a b s Ha Hb _ (ts & IH)].
  - exists []. constructor.
  - exists (Plain c :: ts). constructor; auto using allowed_not37. pose proof (allowed_ascii _ Hc). lia.
  - eexists. apply rd_esc; eauto.
Qed.
Lemma reads_in c s ts : ~ hexc c -> c <> 37 -> reads s ts -> (In c s <-> In (Plain c) ts).
Proof.
  intros H1 H2. induction 1 as [|d s ts Hd Hn R IH|a b s ts Ha Hb R IH]; cbn [In]; [tauto| |].
  - rewrite <- IH. split; intros [X|X]; auto; left; congruence.
  - rewrite <- IH. split; [intros [X|[X|[X|X]]]; auto; subst; tauto|intros [X|X]; auto; discriminate].
Qed.
Lemma canon_plain c ts : is_unreserved c = false -> is_allowed c = true ->
  In (Plain c) (map (canonical_tok is_unreserved is_allowed) ts) -> In (Plain c) ts.
Proof.
  intros H1 H2 H. apply in_map_iff in H as (t & E & Ht). destruct t as [d|v]; cbn in E.
  - destruct (is_allowed d); inversion E; subst; auto.
  - destruct (is_unreserved v) eqn:V; inversion E; subst; congruence.
Qed.
Lemma canon_data_spec s : U s -> exists s', canon_data s = Ok s' /\ canon_data s' = Ok s' /\ U s' /\
  (In 63 s' -> In 63 s) /\ (forall r, s = 47 :: r -> exists r', s' = 47 :: r') /\
  (forall r, s' = 47 :: 47 :: r -> exists r', s = 47 :: 47 :: r').
Proof.
  intros H. destruct (U_reads _ H) as (ts & R). destruct (c11_main _ _ _ _ tests_std R) as (s' & C1 & C2 & C3 & _ & _ & C4).
  exists s'. psplit; auto.
  - clear -C4. unfold U, uric_text. induction C4; [constructor|constructor; tauto|apply esc_pct; auto]; unfold uphexc, hexc in *; lia.
  - intros X. apply (reads_in 63 _ _) in C2; try discriminate; try (unfold hexc; lia). apply C2 in X. apply canon_plain in X; try reflexivity.
    eapply reads_in; eauto; try discriminate; unfold hexc; lia.
  - intros r ->. inversion R; subst. cbn in C2. inversion C2; subst. eauto.
  - intros r ->. inversion C2 as [|c s1 ts1 _ _ C2' E1 E2|]; subst. inversion C2' as [|c s2 ts2 _ _ C2'' E3 E4|]; subst.
    destruct ts as [|t1 [|t2 ts]]; cbn in E2; try discriminate.
    assert (G : forall t, Plain 47 = canonical_tok is_unreserved is_allowed t -> t = Plain 47).
    { intros [d|v] E; cbn in E; [destruct (is_allowed d) eqn:?; inversion E; subst; auto|].
      destruct (is_unreserved v) eqn:V; inversion E; subst; discriminate. }
    inversion E2. rewrite (G t1), (G t2) in R by auto. inversion R as [|? ? ? ? ? R'|]; subst.
    inversion R'; subst. eauto.
Qed.
Lemma canon_data_same a b : U a -> U b -> (same_data a b <-> canon_data a = canon_data b).
Proof.
  intros Ha Hb. unfold canon_data. split.
  - intros (ta & tb & R1 & R2 & E). eapply c11_same; eauto using tests_std.
  - intros E. destruct (U_reads _ Ha) as (ta & R1). destruct (U_reads _ Hb) as (tb & R2). exists ta, tb. psplit; auto.
    eapply c11_same; eauto using tests_std.
Qed.

(** ** server-based URL *)
Definition srv (k : ucls) : Prop := k = KFile \/ k = KHTTP \/ k = KHTTPS.
Definition canon_port (k : ucls) (po : option str) : option str :=
  match po with
  | Some (c :: r) =>
    if match std_port k with Some d => decimal (c :: r) =? d | None => false end then None else Some (dec_nat (decimal (c :: r)))
  | _ => None
  end.
Definition cdata (k : ucls) (s : str) : str :=
  match k with KHTTP | KHTTPS => match canon_data s with Ok t => t | _ => s end | _ => s end.
Definition cauth (k : ucls) (u : uri) : str :=
  opt_text [] (userinfo u) (lit "@") ++ (match host u with Some h => lower h | None => [] end) ++ opt_text (lit ":") (canon_port k (port u)) [].
Definition csrv (u : uri) : parts :=
  mkparts (option_map lower (scheme u)) None (option_map (fun _ => cauth (cls u) u) (authority (hr u)))
    (option_map (cdata (cls u)) (abs_path (hr u))) None (option_map (cdata (cls u)) (query (hr u))) (fragment u).
Lemma std_default k : std_port k = default_port k. Proof. destruct k; reflexivity. Qed.
Lemma canon_prefix_text u : srv (cls u) -> canon_prefix u =
  opt_text [] (option_map lower (scheme u)) (lit ":") ++ opt_text (lit "//") (option_map (fun _ => cauth (cls u) u) (authority (hr u))) [].
Proof.
  intros K. unfold canon_prefix. f_equal; [destruct (scheme u); reflexivity|].
  destruct (authority (hr u)); [|reflexivity]. cbn [option_map opt_text]. rewrite app_nil_r. unfold cauth.
  change (match userinfo u with Some x => x ++ lit "@" | None => [] end) with (opt_text [] (userinfo u) (lit "@")).
  do 3 f_equal. unfold canon_port. change (std_port (cls u)) with (default_port (cls u)).
  destruct (port u) as [[|c r]|]; try reflexivity. destruct (match default_port (cls u) with Some d => _ | None => _ end); [reflexivity|].
  cbn [opt_text]. rewrite app_nil_r. reflexivity.
Qed.
Lemma dec_digits d : Forall (fun c => 48 <= c <= 57) d -> 0 <= decimal d.
Proof. apply decimal_nonneg. Qed.
Lemma canon_port_digits k po : opt_all (Forall (fun c => 48 <= c <= 57)) po -> opt_all (Forall (fun c => 48 <= c <= 57)) (canon_port k po).
Proof.
  intros H x X. unfold canon_port in X. destruct po as [[|c r]|]; try discriminate.
  destruct (match std_port k with Some d => _ | None => _ end); inversion X; subst.
  apply dec_nat_spec. apply (decimal_nonneg (c :: r)). apply H; auto.
Qed.
Lemma canon_port_eq k p q : opt_all (Forall (fun c => 48 <= c <= 57)) p -> opt_all (Forall (fun c => 48 <= c <= 57)) q ->
  (canon_port k p = canon_port k q <-> effective_port k p = effective_port k q).
Proof.
  intros Hp Hq.
  assert (G : forall p, opt_all (Forall (fun c => 48 <= c <= 57)) p ->
    canon_port k p = if match effective_port k p, std_port k with Some a, Some b => a =? b | None, None => true | _, _ => false end then None
                     else option_map dec_nat (effective_port k p)).
  { intros [[|c r]|] _; unfold canon_port, effective_port; destruct (std_port k); cbn; rewrite ?Z.eqb_refl; try reflexivity; destr; reflexivity. }
  assert (P : forall p n, opt_all (Forall (fun c => 48 <= c <= 57)) p -> effective_port k p = Some n -> 0 <= n).
  { intros [[|c r]|] n H E; unfold effective_port in E.
    - unfold std_port in E. destruct k; inversion E; lia.
    - inversion E. apply (decimal_nonneg (c :: r)). apply H; auto.
    - unfold std_port in E. destruct k; inversion E; lia. }
  rewrite (G p Hp), (G q Hq). split; [|intros ->; reflexivity].
  destruct (effective_port k p) as [a|] eqn:Ea, (effective_port k q) as [b|] eqn:Eb, (std_port k) as [d|] eqn:Ed; cbn; try congruence.
  - destruct (a =? d) eqn:A, (b =? d) eqn:B; b2p; try congruence. intros E. injection E as E'. f_equal.
    rewrite <- (proj1 (proj2 (dec_nat_spec a (P p a Hp Ea)))), E'. apply dec_nat_spec. eauto.
  - intros E. injection E as E'. f_equal.
    rewrite <- (proj1 (proj2 (dec_nat_spec a (P p a Hp Ea)))), E'. apply dec_nat_spec. eauto.
  - exfalso. unfold effective_port in Eb. destruct q as [[|]|]; congruence.
  - exfalso. unfold effective_port in Ea. destruct p as [[|]|]; congruence.
Qed.

Record good (u : uri) : Prop := {
  g_from : exists t, from_octets t = Ok u;
  g_srv : srv (cls u);
  g_opaque : opaque_part (hr u) = None;
  g_host : opt_all (fun h => ~ has 58 h) (host u) }.
Lemma U_cut c a b : is_hex c = false -> c <> 37 -> U (a ++ c :: b) -> U a /\ U b.
Proof. intros H1 H2 H. destruct (uric_cut is_allowed c allowed37 H1 H2 _ _ H) as (? & _ & ?). auto. Qed.
Lemma digit_U d : Forall (fun c => 48 <= c <= 57) d -> U d.
Proof.
  induction 1; [apply U_nil|]. apply U_char; auto. unfold is_allowed, is_unreserved.
  assert (X : is_alphanum x = true) by (apply is_alphanum_iff; lia). rewrite X. cbn. apply orb_true_r.
Qed.
Lemma server_U a ui ho po : server_parts a ui ho po -> U a -> opt_all U ui /\ U ho.
Proof.
  intros [T _ _ _ _] H. rewrite T in H. change (lit "@") with [64] in H. change (lit ":") with [58] in H.
  assert (X : opt_all U ui /\ U (ho ++ opt_text [58] po [])).
  { destruct ui as [x|]; cbn [opt_text app] in H.
    - rewrite <- app_assoc in H. cbn [app] in H. apply U_cut in H; [|reflexivity|discriminate]. split; [|tauto]. intros ? E. inversion E; subst. tauto.
    - split; auto. intros ? E; discriminate. }
  split; [tauto|]. destruct X as (_ & X). destruct po as [p|]; cbn [opt_text app] in X; [|rewrite app_nil_r in X; auto].
  apply U_cut in X; [tauto|reflexivity|discriminate].
Qed.
Lemma good_fields u : good u -> parts_ok (parts_of u) /\ (exists s, scheme u = Some s /\ scheme_class (lower s) = cls u) /\
  rel_path (hr u) = None /\
  match authority (hr u) with
  | None => userinfo u = None /\ host u = None /\ port u = None
  | Some a => exists ho, host u = Some ho /\ server_parts a (userinfo u) ho (port u) /\ ~ In 58 ho
  end.
Proof.
  intros [(t & F) K O H58]. destruct (from_octets_inv _ _ F) as (I1 & _ & _). destruct (from_octets_cls _ _ F) as (C1 & C2).
  assert (S : exists s, scheme u = Some s /\ scheme_class (lower s) = cls u).
  { destruct (scheme u) as [s|]; [exists s; auto|]. rewrite C1 in K. destruct K as [K|[K|K]]; discriminate. }
  psplit; auto.
  - destruct (rel_path (hr u)) as [rp|] eqn:E; auto. destruct I1. destruct (po_rel _ E) as (X & _). cbn in X. destruct S as (s & S & _). congruence.
  - pose proof (server_fields _ _ _ C2 K) as SF. destruct (authority (hr u)) as [a|].
    + destruct (split_sound a) as (ui & ho & po & E & SP). rewrite E in SF. inversion SF; subst. exists ho. psplit; auto.
    + cbn in SF. inversion SF; auto.
Qed.
Lemma cdata_U k s : U s -> U (cdata k s).
Proof. intros H. destruct (canon_data_spec s H) as (s' & E & _ & H' & _). unfold cdata. rewrite E. destruct k; auto. Qed.
Lemma cdata_idem k s : U s -> cdata k (cdata k s) = cdata k s.
Proof. intros H. destruct (canon_data_spec s H) as (s' & E & E' & _). unfold cdata. rewrite E. destruct k; auto; rewrite E'; auto. Qed.
Lemma cauth_parts u a ho : authority (hr u) = Some a -> host u = Some ho -> server_parts a (userinfo u) ho (port u) -> ~ In 58 ho ->
  server_parts (cauth (cls u) u) (userinfo u) (lower ho) (canon_port (cls u) (port u)).
Proof.
  intros A H [T1 T2 T3 T4 T5] N. unfold cauth. rewrite H. constructor; auto.
  - intros E. rewrite E in *. specialize (T3 eq_refl). cbn [opt_text app] in *. intros X. apply in_app_or in X as [X|X].
    + apply in_lower in X; [|lia]. apply T3. rewrite T1. apply in_or_app; auto.
    + destruct (canon_port (cls u) (port u)) as [p|] eqn:E2; cbn [opt_text app] in X; [|destruct X].
      rewrite app_nil_r in X. destruct X as [X|X]; [discriminate|].
      pose proof (canon_port_digits (cls u) (port u) T4 _ E2) as D. rewrite Forall_forall in D. apply D in X. lia.
  - apply canon_port_digits; auto.
  - intros _ h p E. exfalso. apply N. apply in_lower; [lia|]. rewrite E. apply in_or_app. right; left; auto.
Qed.
Lemma in_opt_text c pre o post : In c (opt_text pre o post) -> In c pre \/ In c post \/ exists x, o = Some x /\ In c x.
Proof.
  destruct o as [x|]; cbn; [|tauto]. intros H. apply in_app_or in H as [H|H]; auto. apply in_app_or in H as [H|H]; eauto 6.
Qed.
Lemma csrv_ok u : good u -> parts_ok (csrv u).
Proof.
  intros G. destruct (good_fields u G) as (I & (s & S & _) & R & A). destruct G as [_ K O _].
  destruct I as [P1 P2 P3 P4 P5 P6 P7 P8 P9]. unfold parts_of in *. cbn [p_scheme p_opaque p_auth p_abs p_rel p_query p_frag] in *.
  assert (UA : forall a, authority (hr u) = Some a -> U (cauth (cls u) u) /\ ~ In 47 (cauth (cls u) u) /\ ~ In 63 (cauth (cls u) u)).
  { intros a E. rewrite E in A. destruct A as (ho & H & SP & _).
    assert (X : U a) by (apply P1; cbn; rewrite E; tauto). destruct (server_U _ _ _ _ SP X) as (U1 & U2).
    pose proof (canon_port_digits (cls u) (port u) (sp_port _ _ _ _ SP)) as D.
    destruct (P4 _ E) as (N1 & N2). unfold cauth. rewrite H. split.
    - apply uric_app; [apply U_opt; auto using U_nil; apply U_char; auto using U_nil|]. apply uric_app; [apply U_lower; auto|].
      apply U_opt; auto using U_nil; [apply U_char; auto using U_nil|]. intros x X2. apply digit_U. auto.
    - assert (GEN : forall c, c <> 64 -> c <> 58 -> ~ 48 <= c <= 57 -> ~ 97 <= c <= 122 -> In c (opt_text [] (userinfo u) (lit "@") ++ lower ho ++ opt_text (lit ":") (canon_port (cls u) (port u)) []) -> In c a).
      { intros c C1 C2 C3 C4 X3. rewrite (sp_text _ _ _ _ SP). apply in_or_app. apply in_app_or in X3 as [X3|X3]; [left; exact X3|right]. apply in_or_app.
        apply in_app_or in X3 as [X3|X3]; [left; apply in_lower in X3; auto|exfalso].
        apply in_opt_text in X3 as [X3|[[]|(x & E2 & X3)]]; [change (lit ":") with [58] in X3; destruct X3 as [X3|[]]; congruence|].
        specialize (D _ E2). rewrite Forall_forall in D. apply D in X3. auto. }
      split; intros X3; [apply N1|apply N2]; apply GEN; auto; try discriminate; lia. }
  assert (UD : forall x, abs_path (hr u) = Some x \/ query (hr u) = Some x -> U x).
  { intros x [E|E]; apply P1; cbn; rewrite E; tauto. }
  unfold csrv. rewrite S. constructor; cbn [p_scheme p_opaque p_auth p_abs p_rel p_query p_frag option_map]; try discriminate.
  - intros x X. cbn [In] in X. destruct X as [X|[X|[X|[X|[X|[X|[]]]]]]]; try discriminate.
    + destruct (authority (hr u)) eqn:E; inversion X; subst. eapply UA; eauto.
    + destruct (abs_path (hr u)) eqn:E; inversion X; subst. apply cdata_U; auto.
    + destruct (query (hr u)) eqn:E; inversion X; subst. apply cdata_U; auto.
    + apply P1. cbn. rewrite X. tauto.
  - intros x X. inversion X; subst. apply scheme_lower. apply P2; auto.
  - intros x X. destruct (authority (hr u)) eqn:E; inversion X; subst. eapply UA; eauto.
  - intros x X. destruct (abs_path (hr u)) as [p|] eqn:E; inversion X; subst. destruct (P5 _ eq_refl) as (Q1 & Q2 & Q3).
    assert (N : option_map (fun _ : str => cauth (cls u) u) (authority (hr u)) = None -> authority (hr u) = None) by (destruct (authority (hr u)); cbn; congruence).
    destruct (canon_data_spec p) as (p' & D1 & _ & _ & D2 & D3 & D4); [apply UD; auto|].
    destruct Q1 as (r & Q1).
    assert (C : cdata (cls u) p = p \/ cdata (cls u) p = p') by (unfold cdata; rewrite D1; destruct (cls u); auto).
    destruct C as [-> | ->].
    + psplit; auto. exists r; auto.
    + psplit; [destruct (D3 _ Q1) as (r' & ->); exists r'; auto|intros X2; apply Q2; apply D2; exact X2|].
      intros Hn r2 E2. destruct (D4 _ E2) as (r3 & E3). apply (Q3 (N Hn) r3 E3).
  - intros Q A0 B0. exfalso. apply P9.
    + destruct (query (hr u)); [discriminate|exfalso; apply Q; reflexivity].
    + destruct (authority (hr u)); [discriminate|reflexivity].
    + destruct (abs_path (hr u)); [discriminate|reflexivity].
    + exact R.
Qed.
Lemma opt_part_nil x : opt_part [] x = opt_text [] x []. Proof. destruct x; cbn; rewrite ?app_nil_r; auto. Qed.
Lemma canonicalize_text u : good u -> canonicalize u = from_octets (recompose (csrv u)).
Proof.
  intros G. destruct (good_fields u G) as (I & (s & S & _) & R & A). destruct G as [_ K O _].
  assert (T : recompose (csrv u) = canon_prefix u ++ opt_part [] (option_map (cdata (cls u)) (abs_path (hr u))) ++
    opt_part (lit "?") (option_map (cdata (cls u)) (query (hr u))) ++ opt_part (lit "#") (fragment u)).
  { rewrite canon_prefix_text by auto. unfold recompose, csrv. cbn [p_scheme p_opaque p_auth p_abs p_rel p_query p_frag].
    rewrite <- !app_assoc, !opt_part_text. cbn [opt_text app]. reflexivity. }
  rewrite T. unfold canonicalize. clear T.
  assert (UD : forall x, abs_path (hr u) = Some x \/ query (hr u) = Some x -> U x).
  { intros x [E|E]; destruct I; apply po_uric; cbn; rewrite E; tauto. }
  destruct K as [K|[K|K]]; rewrite K.
  - unfold canon_text_server. rewrite R. cbn [cdata]. destruct (abs_path (hr u)), (query (hr u)); reflexivity.
  - unfold canon_text_http. rewrite R. destruct (abs_path (hr u)) as [p|] eqn:EP.
    + assert (ST : starts 47 p) by (destruct I; apply (po_abs _ EP)). destruct ST as (r & ->).
      destruct (canon_data_spec (47 :: r)) as (p' & D1 & _); [auto|]. rewrite D1. cbn [rbind].
      destruct (query (hr u)) as [q|] eqn:EQ.
      * destruct (canon_data_spec q) as (q' & D2 & _); [auto|]. rewrite D2. cbn [rbind option_map]. unfold cdata. rewrite D1, D2. reflexivity.
      * cbn [rbind option_map]. unfold cdata. rewrite D1. reflexivity.
    + cbn [rbind]. destruct (query (hr u)) as [q|] eqn:EQ.
      * destruct (canon_data_spec q) as (q' & D2 & _); [auto|]. rewrite D2. cbn [rbind option_map]. unfold cdata. rewrite D2. reflexivity.
      * reflexivity.
  - unfold canon_text_http. rewrite R. destruct (abs_path (hr u)) as [p|] eqn:EP.
    + assert (ST : starts 47 p) by (destruct I; apply (po_abs _ EP)). destruct ST as (r & ->).
      destruct (canon_data_spec (47 :: r)) as (p' & D1 & _); [auto|]. rewrite D1. cbn [rbind].
      destruct (query (hr u)) as [q|] eqn:EQ.
      * destruct (canon_data_spec q) as (q' & D2 & _); [auto|]. rewrite D2. cbn [rbind option_map]. unfold cdata. rewrite D1, D2. reflexivity.
      * cbn [rbind option_map]. unfold cdata. rewrite D1. reflexivity.
    + cbn [rbind]. destruct (query (hr u)) as [q|] eqn:EQ.
      * destruct (canon_data_spec q) as (q' & D2 & _); [auto|]. rewrite D2. cbn [rbind option_map]. unfold cdata. rewrite D2. reflexivity.
      * reflexivity.
Qed.
Lemma canon_port_idem k po : opt_all (Forall (fun c => 48 <= c <= 57)) po -> canon_port k (canon_port k po) = canon_port k po.
Proof.
  intros H. pose proof (canon_port_digits k po H) as D.
  unfold canon_port in *. destruct po as [[|c r]|]; try reflexivity.
  destruct (match std_port k with Some d => _ | None => _ end) eqn:E; [reflexivity|].
  assert (N : 0 <= decimal (c :: r)) by (apply (decimal_nonneg (c :: r)); apply H; auto).
  destruct (dec_nat_spec _ N) as (H1 & H2 & H3 & _). destruct (dec_nat (decimal (c :: r))) as [|x y] eqn:EX; [congruence|].
  rewrite <- EX in *. rewrite H2, E. reflexivity.
Qed.
Lemma c17_server u : good u -> exists c, canonicalize u = Ok c /\ parts_of c = csrv u /\ cls c = cls u /\
  userinfo c = userinfo u /\ host c = option_map lower (host u) /\
  port c = canon_port (cls u) (port u) /\ good c /\ canonicalize c = Ok c /\ uri_eq u c = Ok true.
Proof.
  intros G. destruct (good_fields u G) as (I & (s & S & SC) & R & A). pose proof (g_srv _ G) as K.
  assert (NK : cls u <> KURN) by (destruct K as [K|[K|K]]; rewrite K; discriminate).
  destruct (from_parts_scheme (csrv u) (lower s) (cls u)) as (c & C1 & C2 & C3 & C4); auto using csrv_ok.
  { cbn. rewrite S. reflexivity. }
  { rewrite lower_idem. exact SC. }
  assert (CU : canonicalize u = Ok c) by (rewrite canonicalize_text; auto).
  pose proof (server_fields _ _ _ C4 K) as SF.
  assert (EA : authority (hr c) = option_map (fun _ => cauth (cls u) u) (authority (hr u))) by (apply (f_equal p_auth) in C2; exact C2).
  assert (F : userinfo c = userinfo u /\ host c = option_map lower (host u) /\ port c = canon_port (cls u) (port u)).
  { rewrite EA in SF. destruct (authority (hr u)) as [a|] eqn:AA; cbn [option_map] in SF.
    - destruct A as (ho & H & SP & N). pose proof (cauth_parts u a ho AA H SP N) as CP. apply split_server_iff in CP.
      rewrite CP in SF. inversion SF. rewrite H. auto.
    - destruct A as (W1 & W2 & W3). rewrite W1, W2, W3. injection SF as V1 V2 V3. rewrite V1, V2, V3. auto. }
  destruct F as (F1 & F2 & F3).
  assert (GC : good c).
  { constructor; [eauto|congruence| |].
    - apply (f_equal p_opaque) in C2. exact C2.
    - intros h H. rewrite F2 in H. destruct (host u) as [h0|] eqn:EH; inversion H; subst. intros X. apply in_lower in X; [|lia].
      eapply (g_host _ G); eauto. }
  assert (CS : csrv c = csrv u).
  { assert (E1 : scheme c = option_map lower (scheme u)) by (apply (f_equal p_scheme) in C2; exact C2).
    assert (E2 : abs_path (hr c) = option_map (cdata (cls u)) (abs_path (hr u))) by (apply (f_equal p_abs) in C2; exact C2).
    assert (E3 : query (hr c) = option_map (cdata (cls u)) (query (hr u))) by (apply (f_equal p_query) in C2; exact C2).
    assert (E4 : fragment c = fragment u) by (apply (f_equal p_frag) in C2; exact C2).
    unfold csrv. rewrite E1, E2, E3, E4, EA, C3. f_equal.
    - rewrite S. cbn. rewrite lower_idem. reflexivity.
    - destruct (authority (hr u)) as [a|]; [|reflexivity]. cbn [option_map]. f_equal. unfold cauth. rewrite F1, F2, F3.
      destruct A as (ho & H & SP & N). rewrite H. cbn [option_map]. rewrite lower_idem, canon_port_idem; auto. apply (sp_port _ _ _ _ SP).
    - destruct (abs_path (hr u)) eqn:E; [|reflexivity]. cbn [option_map]. rewrite cdata_idem; auto. destruct I. apply po_uric. cbn. rewrite E. tauto.
    - destruct (query (hr u)) eqn:E; [|reflexivity]. cbn [option_map]. rewrite cdata_idem; auto. destruct I. apply po_uric. cbn. rewrite E. tauto. }
  assert (CC : canonicalize c = Ok c) by (rewrite canonicalize_text, CS by auto; exact C1).
  exists c. psplit; auto. unfold uri_eq, canon_str. rewrite CU, CC. cbn. rewrite str_eqb_refl. reflexivity.
Qed.
Lemma opt_map_eq (f : str -> str) (R : str -> str -> Prop) a b :
  (forall x y, a = Some x -> b = Some y -> (f x = f y <-> R x y)) -> (option_map f a = option_map f b <-> opt_rel R a b).
Proof.
  intros H. destruct a as [x|], b as [y|]; cbn; try (split; [discriminate|tauto]); [|tauto].
  rewrite <- H by auto. split; congruence.
Qed.
Lemma c17_url_eq u v : good u -> good v -> cls u = cls v ->
  exists b, uri_eq u v = Ok b /\ (b = true <-> same_url (cls u) u v).
Proof.
  intros GU GV K. destruct (c17_server _ GU) as (c & C1 & C2 & C3 & C4 & C5 & C6 & GC & _).
  destruct (c17_server _ GV) as (d & D1 & D2 & D3 & D4 & D5 & D6 & GD & _).
  exists (str_eqb (to_str c) (to_str d)). split; [unfold uri_eq, canon_str; rewrite C1, D1; reflexivity|].
  rewrite str_eqb_eq.
  assert (X : to_str c = to_str d <-> csrv u = csrv v).
  { rewrite <- C2, <- D2. destruct (g_from _ GC) as (t1 & T1). destruct (g_from _ GD) as (t2 & T2).
    apply from_octets_inv in T1 as (_ & A2 & A1). apply from_octets_inv in T2 as (_ & B2 & B1). split.
    - intros E. rewrite E in A1. congruence.
    - intros E. rewrite E in A2. congruence. }
  rewrite X. clear X.
  destruct (good_fields u GU) as (IU & (s & S & SC) & RU & AU). destruct (good_fields v GV) as (IV & (s' & S' & SC') & RV & AV).
  assert (SS : lower s = lower s').
  { rewrite <- K in SC'. assert (KK := g_srv _ GU). revert SC SC'. unfold scheme_class.
    destruct KK as [KK|[KK|KK]]; rewrite KK;
    repeat match goal with |- context [str_eqb ?a ?b] => destruct (str_eqb a b) eqn:?; [match goal with H : str_eqb _ _ = true |- _ => apply str_eqb_eq in H end|] end;
    congruence. }
  assert (UDu : forall x, abs_path (hr u) = Some x \/ query (hr u) = Some x -> U x).
  { intros x [E|E]; destruct IU; apply po_uric; cbn; rewrite E; tauto. }
  assert (UDv : forall x, abs_path (hr v) = Some x \/ query (hr v) = Some x -> U x).
  { intros x [E|E]; destruct IV; apply po_uric; cbn; rewrite E; tauto. }
  assert (CD : forall x y, U x -> U y -> (cdata (cls u) x = cdata (cls u) y <-> data_rel (cls u) x y)).
  { intros x y Hx Hy. unfold cdata, data_rel. destruct (canon_data_spec x Hx) as (x' & X1 & _). destruct (canon_data_spec y Hy) as (y' & Y1 & _).
    pose proof (canon_data_same x y Hx Hy) as SD. rewrite X1, Y1 in *.
    destruct (cls u); try tauto; rewrite SD; split; congruence. }
  assert (PE : csrv u = csrv v <->
     option_map (fun _ => cauth (cls u) u) (authority (hr u)) = option_map (fun _ => cauth (cls v) v) (authority (hr v)) /\
     option_map (cdata (cls u)) (abs_path (hr u)) = option_map (cdata (cls u)) (abs_path (hr v)) /\
     option_map (cdata (cls u)) (query (hr u)) = option_map (cdata (cls u)) (query (hr v)) /\ fragment u = fragment v).
  { unfold csrv. rewrite S, S', K. cbn [option_map]. rewrite SS. split.
    - intros E. inversion E. auto.
    - intros (-> & -> & -> & ->). reflexivity. }
  rewrite PE. clear PE.
  rewrite (opt_map_eq (cdata (cls u)) (data_rel (cls u)) (abs_path (hr u))) by (intros; apply CD; auto).
  rewrite (opt_map_eq (cdata (cls u)) (data_rel (cls u)) (query (hr u))) by (intros; apply CD; auto).
  assert (AE : option_map (fun _ => cauth (cls u) u) (authority (hr u)) = option_map (fun _ => cauth (cls v) v) (authority (hr v)) <->
    (authority (hr u) = None <-> authority (hr v) = None) /\ userinfo u = userinfo v /\ opt_rel same_text (host u) (host v) /\
    (authority (hr u) <> None -> effective_port (cls u) (port u) = effective_port (cls u) (port v))).
  { destruct (authority (hr u)) as [a|] eqn:A1, (authority (hr v)) as [b|] eqn:B1; cbn [option_map].
    - destruct AU as (hu & HU & SU & NU). destruct AV as (hv & HV & SV & NV).
      pose proof (cauth_parts _ _ _ A1 HU SU NU) as PU. pose proof (cauth_parts _ _ _ B1 HV SV NV) as PV.
      rewrite HU, HV. cbn [opt_rel]. unfold same_text. split.
      + intros E. inversion E as [E']. rewrite E' in PU. destruct (server_unique _ _ _ _ _ _ _ PU PV) as (Q1 & Q2 & Q3). psplit; auto.
        * split; discriminate.
        * intros _. rewrite K in Q3 |- *. apply (canon_port_eq (cls v)) in Q3; auto; [apply (sp_port _ _ _ _ SU)|apply (sp_port _ _ _ _ SV)].
      + intros (_ & Q1 & Q2 & Q3). f_equal. unfold cauth. rewrite HU, HV, Q1, Q2. do 3 f_equal.
        rewrite <- K. apply canon_port_eq; [apply (sp_port _ _ _ _ SU)|apply (sp_port _ _ _ _ SV)|]. apply Q3. discriminate.
    - split; [discriminate|]. intros (Q & _). destruct Q as (_ & Q). specialize (Q eq_refl). discriminate.
    - split; [discriminate|]. intros (Q & _). destruct Q as (Q & _). specialize (Q eq_refl). discriminate.
    - destruct AU as (-> & -> & ->), AV as (-> & -> & ->). cbn. tauto. }
  rewrite AE. split.
  - intros ((Q1 & Q2 & Q3 & Q4) & Q5 & Q6 & Q7). constructor; auto.
  - intros [Q1 Q2 Q3 Q4 Q5 Q6 Q7]. auto 10.
Qed.
