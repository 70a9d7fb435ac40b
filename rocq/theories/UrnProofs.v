(** C19, C20: URN. *)
From Verif Require Import Py Num Codec UriModel UriSpec UriProofs UriParse UriMain UriServer UriPath UriRel UriCanon.
#[local] Arguments lit : simpl never.

Lemma zin_In c l : zin c l = true <-> In c l.
Proof. unfold zin. rewrite existsb_exists. split; [intros (x & H & E); b2p; congruence|intros H; exists c; rewrite Z.eqb_refl; auto]. Qed.
Lemma is_trans_iff c : is_trans c = true <-> urn_char c.
Proof.
  unfold is_trans, urn_char, letter_or_digit. rewrite !orb_true_iff, is_alphanum_iff. unfold urn_other, urn_reserved. rewrite !zin_In. tauto.
Qed.
Lemma trans_ascii c : is_trans c = true -> 0 < c < 128.
Proof.
  rewrite is_trans_iff. unfold urn_char, letter_or_digit. intros [H|[H|H]]; [lia| |]; compute in H; intuition lia.
Qed.
Lemma letnumhyp_iff c : is_letnumhyp c = true <-> letter_or_digit c \/ c = 45.
Proof. unfold is_letnumhyp, letter_or_digit. rewrite orb_true_iff, is_alphanum_iff, Z.eqb_eq. tauto. Qed.

(** ** C19 *)
Lemma pct_from v t : is_byte v -> v <> 0 ->
  from_urn_loop (pct v ++ t) = (let! r := from_urn_loop t in Ok (v :: r)).
Proof.
  intros H N. destruct (div16 v H) as (H1 & H2 & H3). unfold pct, hex2. cbn [app from_urn_loop]. change (37 =? 37) with true. cbv iota.
  rewrite int16_hex by (apply hexd_up in H1, H2; unfold hexc, uphexc in *; lia). cbn [rbind].
  rewrite !hexd_value by auto. rewrite H3. unfold is_byte in H.
  assert (B : between 0 255 v = true) by (apply between_iff; lia). rewrite B. cbn [rbind].
  destruct (v =? 0) eqn:E; b2p; [congruence|]. reflexivity.
Qed.
Lemma pcts_from l t : Forall is_byte l -> Forall (fun v => v <> 0) l ->
  from_urn_loop (flat_map pct l ++ t) = (let! r := from_urn_loop t in Ok (l ++ r)).
Proof.
  induction 1 as [|v l H _ IH]; intros N; cbn [flat_map app]; [destruct (from_urn_loop t); reflexivity|].
  inversion N; subst. rewrite <- app_assoc, pct_from, IH by auto. destruct (from_urn_loop t); reflexivity.
Qed.
Lemma utf8_nonzero c : is_scalar c -> c <> 0 -> Forall (fun v => v <> 0) (utf8_char c).
Proof. unfold is_scalar, maxunicode, utf8_char. intros H Hc. repeat destr; b2p; try lia; repeat constructor; zdiv. Qed.
Lemma pcts_esc (ok : Z -> Prop) l t : Forall is_byte l -> escaped ok uphexc t -> escaped ok uphexc (flat_map pct l ++ t).
Proof.
  induction 1 as [|v l H _ IH]; intros E; auto. cbn [flat_map]. rewrite <- app_assoc. unfold pct, hex2. cbn [app].
  destruct (div16 v H) as (H1 & H2 & _). apply esc_pct; auto using hexd_up.
Qed.
Lemma c19 s rt : Forall (fun c => is_scalar c /\ c <> 0) s ->
  exists t, translate_to_urnchar s rt = Ok t /\ translate_from_urnchar t = Ok s /\
    escaped (fun c => urn_char c /\ ~ In c (lit "%/?#") /\ rt c = false) uphexc t.
Proof.
  intros H.
  assert (G : exists t, translate_to_urnchar s rt = Ok t /\ from_urn_loop t = Ok (utf8 s) /\
    escaped (fun c => urn_char c /\ ~ In c (lit "%/?#") /\ rt c = false) uphexc t).
  { induction H as [|c s (Hs & Hc) _ (t & I1 & I2 & I3)]; [exists []; psplit; [reflexivity|reflexivity|constructor]|].
    cbn [translate_to_urnchar]. rewrite I1. destruct (rt c || urn_reserved c || negb (is_trans c)) eqn:E.
    - destruct (c =? 0) eqn:E0; b2p; [congruence|]. unfold utf8_encode. cbn [forallb]. rewrite (proj2 (scalarb_ok c) Hs). cbn [andb rbind].
      unfold utf8 at 1. cbn [flat_map]. rewrite app_nil_r. eexists. split; [reflexivity|]. split.
      + rewrite pcts_from, I2 by auto using utf8_char_bytes, utf8_nonzero. reflexivity.
      + apply pcts_esc; auto using utf8_char_bytes.
    - rewrite !orb_false_iff, negb_false_iff in E. destruct E as ((E1 & E2) & E3). cbn [rbind]. eexists. split; [reflexivity|].
      pose proof (trans_ascii _ E3) as A. assert (N : ~ In c (lit "%/?#")) by (unfold urn_reserved in E2; rewrite <- zin_In; congruence). split.
      + cbn [app from_urn_loop]. destruct (c =? 37) eqn:E4; b2p; [subst; exfalso; apply N; left; reflexivity|]. rewrite E3.
        assert (B : between 0 255 c = true) by (apply between_iff; lia). rewrite B. cbn [rbind].
        destruct (c =? 0) eqn:E0; b2p; [lia|]. rewrite I2. cbn [rbind]. unfold utf8. cbn [flat_map]. unfold utf8_char at 2.
        destruct (c <? 128) eqn:E5; b2p; [reflexivity|lia].
      + cbn [app]. constructor; auto. psplit; auto. apply is_trans_iff; auto. }
  destruct G as (t & G1 & G2 & G3). exists t. psplit; auto. unfold translate_from_urnchar. rewrite G2. cbn [rbind].
  apply utf8_round_trip. eapply Forall_impl; [|exact H]. intros a (A & _). exact A.
Qed.

(** ** C20 *)
Lemma urn2 s : forall rest pos cpos i,
  (Forall urn_char rest /\ urn_loop s rest pos cpos N2 i = Ok (i, skipn cpos s)) \/
  (~ Forall urn_char rest /\ urn_loop s rest pos cpos N2 i = Err URIException).
Proof.
  induction rest as [|c rest IH]; intros pos cpos i; [left; split; [constructor|reflexivity]|]. cbn [urn_loop].
  destruct (is_trans c) eqn:T.
  - destruct (IH (S pos) cpos i) as [(A & B)|(A & B)].
    + left. split; auto. constructor; auto. apply is_trans_iff; auto.
    + right. split; auto. intros X. inversion X; auto.
  - right. split; auto. intros X. inversion X; subst. apply is_trans_iff in H1. congruence.
Qed.
Definition lnh (x : Z) : Prop := letter_or_digit x \/ x = 45.
Lemma urn1 : forall rest pre i, (length pre <= 32)%nat ->
  (exists a x, rest = a ++ 58 :: x /\ Forall lnh a /\ (length (pre ++ a) <= 32)%nat /\ Forall urn_char x /\
     urn_loop (pre ++ rest) rest (length pre) 0 N1 i = Ok (pre ++ a, x)) \/
  ((forall a x, rest = a ++ 58 :: x -> Forall lnh a -> (length (pre ++ a) <= 32)%nat -> ~ Forall urn_char x) /\
     urn_loop (pre ++ rest) rest (length pre) 0 N1 i = Err URIException).
Proof.
  induction rest as [|c rest IH]; intros pre i L; cbn [urn_loop].
  - right. split; auto. intros [|? ?] ? E; discriminate.
  - destruct (is_letnumhyp c) eqn:E.
    + pose proof (proj1 (letnumhyp_iff c) E) as E'.
      assert (N58 : c <> 58) by (intros ->; discriminate).
      destruct (31 <? length pre)%nat eqn:LT; b2p.
      * right. split; auto. intros [|y a] x X F LL; cbn in X; inversion X; subst; [congruence|].
        rewrite app_length in LL. cbn in LL. lia.
      * specialize (IH (pre ++ [c]) i). rewrite <- app_assoc, app_length in IH. cbn [app length] in IH.
        replace (length pre + 1)%nat with (S (length pre)) in IH by lia.
        destruct IH as [(a & x & -> & F & LL & FX & R)|(NF & R)]; [lia| |].
        -- left. exists (c :: a), x. rewrite <- app_assoc in *. cbn [app] in *. psplit; auto.
        -- right. split; auto. intros [|y a] x X F LL; cbn in X; inversion X; subst; [congruence|].
           apply (NF a x); auto; [inversion F; auto|]. rewrite <- app_assoc. exact LL.
    + destruct (c =? 58) eqn:C; b2p.
      * subst c. rewrite firstn_len.
        destruct (urn2 (pre ++ 58 :: rest) rest (S (length pre)) (S (length pre)) pre) as [(A & B)|(A & B)].
        -- left. exists [], rest. rewrite app_nil_r. psplit; auto. rewrite B. f_equal. f_equal.
           replace (S (length pre)) with (length pre + 1)%nat by lia. apply skipn_scheme.
        -- right. split; auto. intros [|y a] x X F LL; cbn in X; inversion X; subst; auto.
           inversion F; subst. unfold lnh, letter_or_digit in *. lia.
      * right. split; auto. intros [|y a] x X F LL; cbn in X; inversion X; subst; [congruence|].
        inversion F; subst. apply letnumhyp_iff in H1. congruence.
Qed.
Lemma parse_nid_spec o :
  (exists n x, parse_nid (Some o) = Ok (n, x) /\ o = n ++ 58 :: x /\ nid_ok n /\ Forall urn_char x) \/
  (parse_nid (Some o) = Err URIException /\ forall n x, o = n ++ 58 :: x -> nid_ok n -> ~ Forall urn_char x).
Proof.
  cbn [parse_nid]. destruct o as [|c o]; cbn [urn_loop].
  - right. split; auto. intros [|? ?] ? E; discriminate.
  - destruct (is_alphanum c) eqn:A.
    + pose proof (proj1 (is_alphanum_iff c) A) as A'. destruct (urn1 o [c] [] ltac:(cbn; lia)) as [(a & x & -> & F & LL & FX & R)|(NF & R)];
        cbn [length app] in R; rewrite R; cbn [rbind].
      * destruct (str_eqb (lower (c :: a)) (lit "urn")) eqn:E.
        -- right. split; auto. intros n y E1 ((c' & r & -> & N1 & N2) & N3 & N4) _.
           cbn [app] in E1. inversion E1 as [[E2 E3]]. subst c'.
           assert (AR : a = r).
           { revert E3 F N2. clear. revert r. induction a as [|z a IH]; intros [|w r] E F N; cbn in E; auto; inversion E; subst.
             - inversion N; subst. unfold letter_or_digit in *. lia.
             - inversion F; subst. unfold lnh, letter_or_digit in *. lia.
             - f_equal. inversion F; inversion N; subst. auto. }
           subst r. apply str_eqb_eq in E. congruence.
        -- left. exists (c :: a), x. psplit; auto. apply str_eqb_neq in E. unfold nid_ok. psplit; auto. exists c, a. psplit; auto.
      * right. split; auto. intros n y E1 ((c' & r & -> & N1 & N2) & N3 & N4). cbn in E1. inversion E1; subst. apply (NF r y); auto.
    + right. split; auto. intros n y E1 ((c' & r & -> & N1 & N2) & _). cbn in E1. inversion E1; subst.
      exfalso. assert (X : is_alphanum c' = true) by (apply is_alphanum_iff; exact N1). congruence.
Qed.
Lemma parse_nid_iff o n x : parse_nid (Some o) = Ok (n, x) <-> o = n ++ 58 :: x /\ nid_ok n /\ Forall urn_char x.
Proof.
  destruct (parse_nid_spec o) as [(n' & x' & E & -> & N & F)|(E & H)]; rewrite E; split.
  - intros X. inversion X; subst. auto.
  - intros (E1 & N1 & F1).
    assert (AR : n' = n).
    { destruct N as ((c & r & -> & A1 & A2) & _), N1 as ((c' & r' & -> & B1 & B2) & _).
      cbn [app] in E1. inversion E1 as [[E2 E3]]. subst c'. f_equal. revert E3 A2 B2. clear. revert r'.
      induction r as [|z a IH]; intros [|w r'] E A B; cbn in E; auto; inversion E; subst.
      - inversion B; subst. unfold letter_or_digit in *. lia.
      - inversion A; subst. unfold lnh, letter_or_digit in *. lia.
      - f_equal. inversion A; inversion B; subst. eauto. }
    subst n'. apply app_inv_head in E1. inversion E1; subst. reflexivity.
  - discriminate.
  - intros (E1 & N1 & F1). exfalso. eapply H; eauto.
Qed.
Lemma build_urn p s : parts_ok p -> p_scheme p = Some s ->
  build KURN (body p) (p_frag p) =
  (let! (a, b) := parse_nid (p_opaque p) in
   Ok (mku KURN (body p) (p_frag p) (Some s) (Some (skipn (length s + 1) (body p)))
        (mkh (p_opaque p) (p_auth p) (p_abs p) (p_rel p) (p_query p)) None None None (Some a) (Some b))).
Proof.
  intros P E. destruct (hier_read p P) as (R1 & R2). rewrite E in *. destruct R2 as (_ & R2).
  unfold build. rewrite R1, parse_ssp_eq, R2. cbn [opaque_part]. destruct (parse_nid (p_opaque p)) as [[a b]|]; reflexivity.
Qed.
(** a URN: text of components with a scheme *)
Lemma c20 p s : parts_ok p -> p_scheme p = Some s ->
  match p_opaque p with
  | None => make_uri KURN (recompose p) = Err TypeError
  | Some o =>
    (forall n x, (exists u, make_uri KURN (recompose p) = Ok u /\ parts_of u = p /\ nid u = Some n /\ nss u = Some x) <->
       o = n ++ lit ":" ++ x /\ nid_ok n /\ Forall urn_char x) /\
    (forall e, make_uri KURN (recompose p) = Err e -> e = URIException)
  end.
Proof.
  intros P E. rewrite make_body by auto. rewrite (build_urn p s P E). destruct (p_opaque p) as [o|] eqn:O; [|reflexivity]. split.
  - intros n x. change (lit ":" ++ x) with (58 :: x). rewrite <- parse_nid_iff. split.
    + intros (u & H & _ & H1 & H2). destruct (parse_nid (Some o)) as [[a b]|]; cbn in H; inversion H; subst. cbn in *. congruence.
    + intros H. rewrite H. cbn [rbind]. eexists. split; [reflexivity|]. cbn. psplit; auto. unfold parts_of. cbn.
      rewrite <- O, <- E. destruct p; reflexivity.
  - intros e. destruct (parse_nid_spec o) as [(n & x & H & _)|(H & _)]; rewrite H; cbn; congruence.
Qed.

Lemma nid_lower n : nid_ok n -> nid_ok (lower n).
Proof.
  intros ((c & r & -> & H1 & H2) & H3 & H4).
  assert (L : forall c, letter_or_digit c -> letter_or_digit (lower1 c)).
  { intros d. unfold letter_or_digit. destruct (lower1_cases d) as [(?&E)|(?&E)]; rewrite E; lia. }
  split; [exists (lower1 c), (lower r)|split].
  - psplit; auto. unfold lower. apply Forall_map. eapply Forall_impl; [|exact H2]. intros d [D|D]; cbn; [left; auto|right; subst; reflexivity].
  - unfold lower. rewrite map_length. exact H3.
  - rewrite lower_idem. exact H4.
Qed.
Lemma tests_urn : tests_ok (fun _ => false) is_allowed. Proof. intros c H. discriminate. Qed.
Lemma hex_trans c : uphexc c -> urn_char c. Proof. unfold uphexc, urn_char, letter_or_digit. lia. Qed.
Lemma reads_tokens s ts : U s -> reads s ts -> map (canonical_tok (fun _ => false) is_allowed) ts = ts.
Proof.
  intros H R. induction R as [|c s ts Hc N R IH|a b s ts Ha Hb R IH]; cbn [map]; auto.
  - inversion H; subst; [|congruence]. cbn [canonical_tok]. rewrite H2. f_equal. auto.
  - inversion H as [|c s' Hc|]; subst; [rewrite allowed37 in Hc; discriminate|]. cbn [canonical_tok]. f_equal. auto.
Qed.
Lemma canon_nss s : U s -> Forall urn_char s -> exists s' ts, canonicalize_data s (fun _ => false) is_allowed = Ok s' /\
  canonicalize_data s' (fun _ => false) is_allowed = Ok s' /\ U s' /\ Forall urn_char s' /\ reads s ts /\ reads s' ts.
Proof.
  intros H F. destruct (U_reads _ H) as (ts & R). destruct (c11_main _ _ _ _ tests_urn R) as (s' & C1 & C2 & C3 & _ & _ & C4).
  rewrite (reads_tokens _ _ H R) in C2. exists s', ts. psplit; auto.
  - clear -C4. unfold U, uric_text. induction C4; [constructor|constructor; tauto|apply esc_pct; auto]; unfold uphexc, hexc in *; lia.
  - assert (P : forall c, In (Plain c) ts -> urn_char c).
    { intros c Hc. revert Hc F. clear -R. induction R as [|d s ts Hd N R IH|a b s ts Ha Hb R IH]; cbn [In]; [tauto| |].
      - intros [E|E] F; inversion F; subst; [inversion E; subst; auto|auto].
      - intros [E|E] F; [discriminate|]. inversion F as [|? ? _ F']; inversion F' as [|? ? _ F'']; inversion F''; subst. auto. }
    revert P. clear -C2 C4. revert C4. induction C2 as [|d s ts Hd N R IH|a b s ts Ha Hb R IH]; intros C4 P; constructor.
    + apply P. left; auto.
    + apply IH; [inversion C4; subst; auto; congruence|]. intros c Hc. apply P. right; auto.
    + right; right. left. reflexivity.
    + inversion C4 as [|c s' (_ & Hc)|a' b' s' A B]; subst; [congruence|]. constructor; [apply hex_trans; auto|]. constructor; [apply hex_trans; auto|].
      apply IH; auto. intros c Hc. apply P. right; auto.
Qed.
Definition curn (s i n : str) : parts := mkparts (Some (lower s)) (Some (lower i ++ 58 :: n)) None None None None None.
Lemma nid_U i : nid_ok i -> U i.
Proof.
  intros ((c & r & -> & H1 & H2) & _ & _).
  assert (L : forall c, letter_or_digit c \/ c = 45 -> is_allowed c = true).
  { intros d [D| ->]; [|reflexivity]. unfold is_allowed, is_unreserved. rewrite (proj2 (is_alphanum_iff d) D). cbn. apply orb_true_r. }
  apply U_char; [auto|]. induction H2; [apply U_nil|apply U_char; auto].
Qed.
Lemma curn_ok s i n : scheme_ok s -> nid_ok i -> U n -> parts_ok (curn s i n).
Proof.
  intros H1 H2 H3. pose proof (nid_lower _ H2) as H2'. unfold curn.
  constructor; cbn [p_scheme p_opaque p_auth p_abs p_rel p_query p_frag]; try discriminate; try congruence.
  - intros x X. cbn [In] in X. destruct X as [X|[X|[X|[X|[X|[X|[]]]]]]]; try discriminate. inversion X; subst.
    apply uric_app; [apply nid_U; auto|]. apply U_char; auto.
  - intros x X. inversion X; subst. apply scheme_lower; auto.
  - intros x X. inversion X; subst. destruct H2' as ((c & r & -> & A & B) & _). psplit; auto; try discriminate.
    intros (r' & E). inversion E; subst. unfold letter_or_digit in A. lia.
Qed.
Lemma c20_canon t u : from_octets t = Ok u -> cls u = KURN ->
  exists s i n c n' ts, scheme u = Some s /\ nid u = Some i /\ nss u = Some n /\ canonicalize u = Ok c /\
    to_str c = lower s ++ lit ":" ++ lower i ++ lit ":" ++ n' /\ U n /\ reads n ts /\ reads n' ts /\
    nid c = Some (lower i) /\ nss c = Some n' /\ fragment c = None /\
    canonicalize_data n (fun _ => false) is_allowed = Ok n' /\
    canonicalize c = Ok c /\ uri_eq u c = Ok true.
Proof.
  intros F K. destruct (from_octets_cls _ _ F) as (C1 & C2). destruct (from_octets_inv _ _ F) as (I1 & I2 & _).
  destruct (scheme u) as [s|] eqn:ES; [|rewrite K in C1; discriminate]. rewrite K in *.
  pose proof (c20 (parts_of u) s I1 ES) as H. rewrite I2 in H.
  destruct (p_opaque (parts_of u)) as [o|] eqn:EO; [|congruence].
  pose proof C2 as C2'. rewrite <- I2, make_body, (build_urn _ s) in C2' by auto. rewrite EO in C2'.
  destruct (parse_nid (Some o)) as [[i n]|] eqn:PN; cbn [rbind] in C2'; [|discriminate].
  assert (EI : nid u = Some i) by (inversion C2'; reflexivity). assert (EN : nss u = Some n) by (inversion C2'; reflexivity).
  apply parse_nid_iff in PN as (-> & NI & FN).
  assert (UN : U n).
  { assert (X : U (i ++ 58 :: n)) by (destruct I1; apply po_uric; rewrite EO; cbn; tauto). apply U_cut in X; [tauto|reflexivity|discriminate]. }
  assert (SO : scheme_ok s) by (destruct I1; apply po_scheme; exact ES).
  destruct (canon_nss n UN FN) as (n' & ts & D1 & D2 & D3 & D4 & D5 & D6).
  assert (GEN : exists c, from_octets (lower s ++ 58 :: lower i ++ 58 :: n') = Ok c /\ scheme c = Some (lower s) /\ nid c = Some (lower i) /\ nss c = Some n' /\
      cls c = KURN /\ fragment c = None /\ to_str c = lower s ++ 58 :: lower i ++ 58 :: n').
  { pose proof (curn_ok s i n' SO NI D3) as P.
    assert (T : recompose (curn s i n') = lower s ++ 58 :: lower i ++ 58 :: n').
    { unfold recompose, curn. cbn [p_scheme p_opaque p_auth p_abs p_rel p_query p_frag opt_text app]. change (lit ":") with [58].
      rewrite <- !app_assoc. cbn [app]. rewrite !app_nil_r. reflexivity. }
    assert (PP : parse_nid (Some (lower i ++ 58 :: n')) = Ok (lower i, n')) by (apply parse_nid_iff; auto using nid_lower).
    pose proof (make_body KURN _ P) as MB. rewrite (build_urn _ (lower s) P eq_refl) in MB. cbn [p_opaque curn] in MB. 
    unfold curn in MB at 2. cbn [p_opaque] in MB. rewrite PP in MB. cbn [rbind] in MB.
    eexists. rewrite <- T. rewrite from_octets_ascii by (apply recompose_ascii; auto).
    assert (PS : parse_scheme (recompose (curn s i n')) = Some (lower s)).
    { apply parse_scheme_some. split; [apply scheme_lower; auto|]. rewrite T. eauto. }
    rewrite PS, lower_idem, <- C1. split; [exact MB|]. split; [reflexivity|]. split; [reflexivity|]. split; [reflexivity|].
    split; [reflexivity|]. split; [reflexivity|]. apply c13_sound in MB as (_ & _ & MB & _). exact MB. }
  destruct GEN as (c & G1 & G2 & G3 & G4 & G5 & G6 & G7).
  assert (CU : canonicalize u = Ok c).
  { unfold canonicalize. rewrite K. unfold canon_text_urn. rewrite ES, EI, EN, D1. cbn [rbind]. exact G1. }
  assert (CC : canonicalize c = Ok c).
  { unfold canonicalize. rewrite G5. unfold canon_text_urn. rewrite G2, G3, G4, D2. cbn [rbind]. rewrite !lower_idem. exact G1. }
  exists s, i, n, c, n', ts. psplit; auto. unfold uri_eq, canon_str. rewrite CU, CC. cbn. rewrite str_eqb_refl. reflexivity.
Qed.
Lemma nid_app i1 n1 i2 n2 : nid_ok i1 -> nid_ok i2 -> i1 ++ 58 :: n1 = i2 ++ 58 :: n2 -> i1 = i2 /\ n1 = n2.
Proof.
  intros ((c & r & -> & A1 & A2) & _) ((c' & r' & -> & B1 & B2) & _) E. cbn [app] in E. inversion E as [[E2 E3]]. subst c'.
  assert (X : r = r' /\ n1 = n2); [|destruct X as (-> & ->); auto].
  revert E3 A2 B2. clear. revert r'. induction r as [|z a IH]; intros [|w r'] E A B; cbn in E; inversion E; subst; auto.
  - inversion B; subst. unfold letter_or_digit in *. lia.
  - inversion A; subst. unfold lnh, letter_or_digit in *. lia.
  - inversion A; inversion B; subst. destruct (IH r') as (-> & ->); auto.
Qed.
Lemma class_urn x : scheme_class x = KURN -> x = lit "urn".
Proof.
  unfold scheme_class. destruct (str_eqb x (lit "file")); [discriminate|]. destruct (str_eqb x (lit "http")); [discriminate|].
  destruct (str_eqb x (lit "https")); [discriminate|]. destruct (str_eqb x (lit "urn")) eqn:E; [|discriminate]. intros _. apply str_eqb_eq; auto.
Qed.
(** equality of URN: case of scheme, NID and escapes is ignored; nothing else but the fragment is *)
Lemma c20_eq t1 u t2 v i1 n1 i2 n2 : from_octets t1 = Ok u -> from_octets t2 = Ok v -> cls u = KURN -> cls v = KURN ->
  nid u = Some i1 -> nss u = Some n1 -> nid v = Some i2 -> nss v = Some n2 ->
  exists b, uri_eq u v = Ok b /\ (b = true <-> lower i1 = lower i2 /\ exists ts, reads n1 ts /\ reads n2 ts).
Proof.
  intros F1 F2 K1 K2 E1 E2 E3 E4.
  destruct (c20_canon _ _ F1 K1) as (s & i & n & c & n' & ts & A1 & A2 & A3 & A4 & A5 & AU & A6 & A7 & A8 & A9 & A10 & A11 & A12 & _).
  destruct (c20_canon _ _ F2 K2) as (s' & i' & m & d & m' & ts' & B1 & B2 & B3 & B4 & B5 & BU & B6 & B7 & B8 & B9 & B10 & B11 & B12 & _).
  exists (str_eqb (to_str c) (to_str d)). split; [unfold uri_eq, canon_str; rewrite A4, B4; reflexivity|]. rewrite str_eqb_eq.
  rewrite A2 in E1. rewrite A3 in E2. rewrite B2 in E3. rewrite B3 in E4. inversion E1; inversion E2; inversion E3; inversion E4; subst.
  assert (SS : lower s = lit "urn" /\ lower s' = lit "urn").
  { destruct (from_octets_cls _ _ F1) as (X & _). destruct (from_octets_cls _ _ F2) as (Y & _). rewrite K1, A1 in X. rewrite K2, B1 in Y.
    symmetry in X, Y. split; apply class_urn; auto. }
  destruct SS as (S1 & S2). rewrite A5, B5, S1, S2. split.
  - intros E. apply app_inv_head in E. cbn [app] in E. change (lit ":" ++ ?x) with (58 :: x) in E. 
    assert (X : from_octets (to_str c) = from_octets (to_str d)) by (rewrite A5, B5, S1, S2; f_equal; f_equal; exact E).
    assert (Y : forall w z, canonicalize z = Ok w -> cls z = KURN -> from_octets (to_str w) = Ok w).
    { intros w z W Z. unfold canonicalize in W. rewrite Z in W. destruct (canon_text_urn z); [|discriminate]. cbn [rbind] in W.
      apply from_octets_inv in W. tauto. }
    rewrite (Y _ _ A4 K1), (Y _ _ B4 K2) in X. inversion X; subst d. split; [congruence|].
    assert (n' = m') by congruence. subst m'. exists ts. split; auto.
    assert (ts = ts'); [|congruence]. clear -A7 B7. revert ts' B7. induction A7; intros ts' R; inversion R; subst; try congruence; f_equal; auto.
  - intros (L & tt & R1 & R2). rewrite L. do 4 f_equal.
    assert (D : forall a x y, reads a x -> reads a y -> x = y).
    { intros a x y R. revert y. induction R; intros y Q; inversion Q; subst; try congruence; f_equal; auto. }
    pose proof (proj2 (c11_same _ _ _ _ _ _ tests_urn R1 R2) eq_refl) as X. congruence.
Qed.
