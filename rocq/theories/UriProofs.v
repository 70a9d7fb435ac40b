(** C10, C11, C12, C18: URI data functions. *)
From Verif Require Import Py Num Codec UriModel UriSpec.
#[local] Arguments Z.mul : simpl never.
#[local] Arguments Z.add : simpl never.
#[local] Arguments Z.sub : simpl never.

Lemma is_hex_hexc c : is_hex c = true <-> hexc c.
Proof.
  unfold is_hex, is_hexd, hexc. rewrite !orb_true_iff, !andb_true_iff, !Z.leb_le. tauto.
Qed.
Lemma uphex_hexc c : uphexc c -> hexc c. Proof. unfold uphexc, hexc. tauto. Qed.
Lemma hexvalue_eq c : hexvalue c = hexv c.
Proof. unfold hexvalue, hexv. repeat destr; lia. Qed.
Lemma hexc_range c : hexc c -> 0 <= hexvalue c < 16.
Proof. intros H. rewrite hexvalue_eq. apply hexv_range. apply is_hex_hexc in H. exact H. Qed.
Lemma hexc_ascii c : hexc c -> 0 <= c < 128. Proof. unfold hexc. lia. Qed.
Lemma hexd_up v : 0 <= v < 16 -> uphexc (hexd v).
Proof.
  intros H. destruct (hexd_ok v H) as (H1 & H2 & H3).
  apply is_hex_hexc in H1. unfold hexc, uphexc in *. tauto.
Qed.
Lemma hexd_value v : 0 <= v < 16 -> hexvalue (hexd v) = v.
Proof. intros H. rewrite hexvalue_eq. apply hexd_ok. exact H. Qed.
Lemma div16 v : is_byte v -> 0 <= v / 16 < 16 /\ 0 <= v mod 16 < 16 /\ 16 * (v / 16) + v mod 16 = v.
Proof. unfold is_byte. intros H. zdiv. Qed.

Lemma ascii_app a b : ascii (a ++ b) = ascii a && ascii b.
Proof. unfold ascii. apply forallb_app. Qed.
Lemma ascii_Forall s : ascii s = true <-> Forall (fun c => c <= 127) s.
Proof.
  unfold ascii. rewrite forallb_forall, Forall_forall.
  split; intros H x Hx; specialize (H x Hx); [b2p|apply Z.leb_le]; auto.
Qed.

Lemma unesc_pct v s : is_byte v -> unesc_loop (pct v ++ s) UNone = v :: unesc_loop s UNone.
Proof.
  intros H. destruct (div16 v H) as (H1 & H2 & H3). cbn.
  destruct (hexd_ok _ H1) as (A1 & A2 & _). destruct (hexd_ok _ H2) as (B1 & B2 & _).
  unfold is_hex. rewrite A1, B1, A2, B2. f_equal. lia.
Qed.
Lemma pct_ascii v : is_byte v -> ascii (pct v) = true.
Proof.
  intros H. destruct (div16 v H) as (H1 & H2 & H3).
  apply ascii_Forall. repeat constructor; try lia; apply hexd_up in H1, H2; unfold uphexc in *; lia.
Qed.

Definition esc_ok (r a : Z -> bool) : Prop :=
  (r 37 = true \/ a 37 = false) /\ forall c, 128 <= c <= 255 -> r c = true \/ a c = false.

Lemma c10_round_trip b r a : Forall is_byte b -> esc_ok r a ->
  unescape_data (escape_data b r a) = Ok b /\
  escaped (fun c => r c = false /\ a c = true) uphexc (escape_data b r a).
Proof.
  intros Hb (H37 & Hhi).
  assert (G : ascii (escape_data b r a) = true /\ unesc_loop (escape_data b r a) UNone = b /\
    escaped (fun c => r c = false /\ a c = true) uphexc (escape_data b r a)).
  { induction Hb as [|c b Hc Hb (I1 & I2 & I3)]; [cbn; repeat split; constructor|].
    unfold escape_data. cbn [flat_map]. fold (escape_data b r a).
    destruct (r c || negb (a c)) eqn:E.
    - rewrite ascii_app, pct_ascii, unesc_pct by auto. psplit; auto; [congruence|].
      destruct (div16 c Hc) as (H1 & H2 & _). cbn. apply esc_pct; auto using hexd_up.
    - apply orb_false_iff in E as [E1 E2]. apply negb_false_iff in E2.
      assert (c < 128). { unfold is_byte in Hc. destruct (Z.lt_ge_cases c 128); auto.
        destruct (Hhi c); [lia|congruence|congruence]. }
      assert (c <> 37) by (intros ->; destruct H37; congruence).
      psplit.
      + cbn. apply andb_true_iff. split; auto. apply Z.leb_le. lia.
      + cbn. destruct (c =? 37) eqn:E3; b2p; [congruence|]. congruence.
      + cbn. apply esc_char; auto. }
  destruct G as (G1 & G2 & G3). split; auto. unfold unescape_data. rewrite G1, G2. reflexivity.
Qed.

(** ** C11 *)
Definition show (t : tok) : str := match t with Plain c => [c] | Esc v => pct v end.
Definition tok_ok (t : tok) : Prop :=
  match t with Plain c => 0 <= c < 128 /\ c <> 37 | Esc v => is_byte v end.

Lemma reads_show ts : Forall tok_ok ts -> reads (flat_map show ts) ts.
Proof.
  induction 1 as [|t ts Ht _ IH]; [constructor|]. destruct t as [c|v]; cbn in *.
  - apply rd_plain; tauto.
  - destruct (div16 v Ht) as (H1 & H2 & H3).
    pose proof (rd_esc (hexd (v/16)) (hexd (v mod 16)) _ ts (uphex_hexc _ (hexd_up _ H1))
      (uphex_hexc _ (hexd_up _ H2)) IH) as R.
    rewrite !hexd_value, H3 in R by auto. exact R.
Qed.
Lemma reads_ok s ts : reads s ts -> Forall tok_ok ts /\ ascii s = true /\ Forall (fun c => 0 <= c) s.
Proof.
  induction 1 as [|c s ts Hc H37 _ (I1 & I2 & I3)|a b s ts Ha Hb _ (I1 & I2 & I3)].
  - repeat split; constructor.
  - psplit; [constructor; cbn; auto|cbn|constructor; auto; lia].
    apply andb_true_iff; split; auto. apply Z.leb_le. lia.
  - pose proof (hexc_range _ Ha). pose proof (hexc_range _ Hb). pose proof (hexc_ascii _ Ha). pose proof (hexc_ascii _ Hb).
    psplit; [constructor; auto; unfold tok_ok, is_byte; lia|cbn|do 3 (constructor; [lia|]); auto].
    rewrite !andb_true_iff, !Z.leb_le. psplit; auto; lia.
Qed.
Lemma int16_hex a b : hexc a -> hexc b -> int16 [a; b] = Ok (16 * hexvalue a + hexvalue b).
Proof.
  intros Ha Hb. pose proof Ha as Ha'. pose proof Hb as Hb'. apply is_hex_hexc in Ha', Hb'.
  assert (Sa : is_space a = false) by (unfold is_space, between, hexc in *; rewrite orb_false_iff, !andb_false_iff, !Z.leb_gt; lia).
  assert (Sb : is_space b = false) by (unfold is_space, between, hexc in *; rewrite orb_false_iff, !andb_false_iff, !Z.leb_gt; lia).
  unfold int16, strip. cbn [lstrip]. rewrite Sa. cbn [rev app lstrip]. rewrite Sb. cbn [rev app].
  assert (E : hex_digits_value [a; b] = Ok (16 * hexvalue a + hexvalue b)).
  { unfold hex_digits_value. cbn [forallb fold_left]. unfold is_hex in *. rewrite Ha', Hb'. cbn [andb].
    rewrite !hexvalue_eq. f_equal. lia. }
  destruct a as [|p|p]; try exact E. unfold hexc in Ha.
  do 6 (destruct p as [p|p|]; try exact E; try lia).
Qed.

Lemma canon_loop_reads un al s ts : reads s ts ->
  canon_loop un al s = Ok (flat_map show (map (canonical_tok un al) ts)).
Proof.
  induction 1 as [|c s ts Hc H37 _ IH|a b s ts Ha Hb _ IH]; [reflexivity| |].
  - cbn [canon_loop]. destruct (c =? 37) eqn:E; b2p; [congruence|]. rewrite IH. cbn [rbind map flat_map].
    f_equal. f_equal. cbn. destruct (al c); reflexivity.
  - cbn [canon_loop]. change (37 =? 37) with true. cbv iota. rewrite int16_hex by auto. cbn [rbind].
    pose proof (hexc_range _ Ha). pose proof (hexc_range _ Hb).
    rewrite character_ok by (unfold is_char, maxunicode; lia). cbn [rbind].
    rewrite IH. cbn [rbind map flat_map]. f_equal. f_equal.
    cbn. destruct (un (16 * hexvalue a + hexvalue b)); reflexivity.
Qed.
Lemma canonicalize_reads un al s ts : reads s ts ->
  canonicalize_data s un al = Ok (flat_map show (map (canonical_tok un al) ts)).
Proof.
  intros H. unfold canonicalize_data. destruct (reads_ok _ _ H) as (_ & A & _). rewrite A.
  apply canon_loop_reads. exact H.
Qed.
Lemma canon_tok_ok un al ts : tests_ok un al -> Forall tok_ok ts -> Forall tok_ok (map (canonical_tok un al) ts).
Proof.
  intros T H. induction H as [|t ts Ht _ IH]; [constructor|]. cbn. constructor; auto.
  destruct t as [c|v]; cbn in *.
  - destruct (al c); cbn; auto. unfold is_byte. lia.
  - destruct (un v) eqn:E; cbn; auto. destruct (T v E). tauto.
Qed.
Lemma canon_tok_idem un al t : tests_ok un al ->
  canonical_tok un al (canonical_tok un al t) = canonical_tok un al t.
Proof.
  intros T. destruct t as [c|v]; cbn.
  - destruct (al c) eqn:E; cbn.
    + rewrite E. reflexivity.
    + destruct (un c) eqn:E2; auto. destruct (T c E2) as (_ & _ & ?). congruence.
  - destruct (un v) eqn:E; cbn.
    + destruct (T v E) as (_ & _ & ->). reflexivity.
    + rewrite E. reflexivity.
Qed.
Lemma unesc_reads s ts : reads s ts -> unesc_loop s UNone = map octet_of ts.
Proof.
  induction 1 as [|c s ts Hc H37 _ IH|a b s ts Ha Hb _ IH]; [reflexivity| |].
  - cbn. destruct (c =? 37) eqn:E; b2p; [congruence|]. rewrite IH. reflexivity.
  - cbn. apply is_hex_hexc in Ha, Hb. rewrite Ha, Hb, IH. rewrite !hexvalue_eq. f_equal. lia.
Qed.
Lemma unescape_reads s ts : reads s ts -> unescape_data s = Ok (map octet_of ts).
Proof.
  intros H. unfold unescape_data. destruct (reads_ok _ _ H) as (_ & A & _). rewrite A.
  rewrite (unesc_reads _ _ H). reflexivity.
Qed.
Lemma octet_canon un al ts : map octet_of (map (canonical_tok un al) ts) = map octet_of ts.
Proof.
  rewrite map_map. apply map_ext. intros [c|v]; cbn; [destruct (al c)|destruct (un v)]; reflexivity.
Qed.
Lemma show_inj : forall ts us, Forall tok_ok ts -> Forall tok_ok us ->
  flat_map show ts = flat_map show us -> ts = us.
Proof.
  induction ts as [|t ts IH]; intros us Ht Hu E.
  - destruct us as [|[c|v] us]; cbn in E; try discriminate. reflexivity.
  - inversion Ht; subst. destruct us as [|u us].
    { destruct t; cbn in E; discriminate. }
    inversion Hu; subst.
    destruct t as [c|v], u as [d|w]; cbn in *; inversion E; subst.
    + f_equal. auto.
    + tauto.
    + tauto.
    + f_equal; auto. f_equal.
      destruct (div16 v H1) as (A1 & A2 & A3). destruct (div16 w H3) as (B1 & B2 & B3).
      apply (f_equal hexvalue) in H0, H5. rewrite !hexd_value in H0, H5 by auto. lia.
Qed.

Lemma c11_main un al s ts : tests_ok un al -> reads s ts ->
  exists s', canonicalize_data s un al = Ok s' /\
    reads s' (map (canonical_tok un al) ts) /\
    canonicalize_data s' un al = Ok s' /\
    unescape_data s = Ok (map octet_of ts) /\ unescape_data s' = Ok (map octet_of ts) /\
    escaped (fun c => al c = true /\ c <> 37) uphexc s'.
Proof.
  intros T R. destruct (reads_ok _ _ R) as (K & _ & _).
  assert (K' : Forall tok_ok (map (canonical_tok un al) ts)) by (apply canon_tok_ok; auto).
  pose proof (reads_show _ K') as R'.
  eexists. split; [apply canonicalize_reads; exact R|]. split; [exact R'|]. psplit.
  - rewrite (canonicalize_reads _ _ _ _ R'). rewrite map_map. do 2 f_equal. apply map_ext.
    intros t. apply canon_tok_idem. exact T.
  - apply unescape_reads. exact R.
  - rewrite (unescape_reads _ _ R'). rewrite octet_canon. reflexivity.
  - clear - T K. induction K as [|t ts Ht _ IH]; [constructor|]. cbn [map flat_map].
    assert (P : forall v, is_byte v -> escaped (fun c => al c = true /\ c <> 37) uphexc
      (pct v ++ flat_map show (map (canonical_tok un al) ts))).
    { intros v Hv. destruct (div16 v Hv) as (A1 & A2 & A3). cbn. apply esc_pct; auto using hexd_up. }
    destruct t as [c|v]; cbn [canonical_tok].
    + destruct (al c) eqn:E; cbn [show]; [|apply P; cbn in Ht; unfold is_byte; lia].
      cbn in *. apply esc_char; tauto.
    + destruct (un v) eqn:E; cbn [show]; [|apply P; exact Ht].
      destruct (T v E) as (H1 & H2 & H3). cbn. apply esc_char; auto.
Qed.
Lemma c11_same un al s1 ts1 s2 ts2 : tests_ok un al -> reads s1 ts1 -> reads s2 ts2 ->
  (canonicalize_data s1 un al = canonicalize_data s2 un al <->
   map (canonical_tok un al) ts1 = map (canonical_tok un al) ts2).
Proof.
  intros T R1 R2. rewrite (canonicalize_reads _ _ _ _ R1), (canonicalize_reads _ _ _ _ R2).
  destruct (reads_ok _ _ R1) as (K1 & _ & _). destruct (reads_ok _ _ R2) as (K2 & _ & _).
  split; [|congruence]. intros E. inversion E as [E']. apply show_inj; auto using canon_tok_ok.
Qed.

(** ** C12 *)
Lemma uric_loop_shift al : forall s n m, uric_loop al s n m = (n + uric_loop al s 0 m)%nat.
Proof.
  induction s as [|c s IH]; intros n m; cbn; [lia|].
  destruct m; repeat destr; try lia; try (apply IH);
    [rewrite (IH (n+1)%nat), (IH 1%nat) | rewrite (IH (n+3)%nat), (IH 3%nat)]; lia.
Qed.
Lemma uric_inv al c s : uric_text al (c :: s) ->
  (al c = true /\ uric_text al s) \/
  (c = 37 /\ exists a b s', s = a :: b :: s' /\ hexc a /\ hexc b /\ uric_text al s').
Proof. intros U. inversion U; subst; [left; auto|right]. split; auto. eauto 8. Qed.
Lemma uric_spec al : al 37 = false -> forall k s, (length s <= k)%nat ->
  let n := uric_loop al s 0 MNone in
  (n <= length s)%nat /\ uric_text al (firstn n s) /\
  forall m, (n < m <= length s)%nat -> ~ uric_text al (firstn m s).
Proof.
  intros H37. unfold uric_text. induction k as [|k IH]; intros s Hs.
  - destruct s; cbn in Hs; [|lia]. cbn. psplit; [lia|constructor|lia].
  - destruct s as [|c s]; [cbn; psplit; [lia|constructor|lia]|]. cbn in Hs.
    cbn [uric_loop]. destruct (al c) eqn:E.
    + rewrite uric_loop_shift. destruct (IH s) as (I1 & I2 & I3); [lia|].
      set (n := uric_loop al s 0 MNone) in *. cbn [Nat.add firstn length].
      psplit; [lia|constructor; auto|].
      intros [|m] Hm; [lia|]. cbn [firstn]. intros U. inversion U; subst.
      * apply (I3 m); [lia|]. assumption.
      * congruence.
    + destruct (c =? 37) eqn:E37; b2p.
      2:{ psplit; [lia|constructor|]. intros [|m] Hm; [lia|]. cbn. intros U. inversion U; subst; congruence. }
      subst c.
      destruct s as [|x s]; [cbn; psplit; [lia|constructor|]; intros [|m] Hm U; [lia|]; cbn in U; rewrite firstn_nil in U; inversion U; subst; congruence|].
      cbn [uric_loop]. destruct (is_hex x) eqn:Ex.
      2:{ psplit; [lia|constructor|]. intros [|m] Hm; [lia|]. cbn. intros U.
          destruct (uric_inv _ _ _ U) as [[? _]|(_ & a & b & s' & Es & Ha & _)]; [congruence|].
          destruct m as [|m]; [discriminate|]. cbn in Es. inversion Es; subst.
          apply is_hex_hexc in Ha. congruence. }
      destruct s as [|y s].
      { cbn. psplit; [lia|constructor|]. intros [|m] Hm U; [lia|]. cbn in U. inversion U; subst; [congruence|].
        destruct m as [|[|m]]; discriminate. }
      cbn [uric_loop]. destruct (is_hex y) eqn:Ey.
      2:{ psplit; [lia|constructor|]. intros [|m] Hm; [lia|]. cbn. intros U.
          destruct (uric_inv _ _ _ U) as [[? _]|(_ & a & b & s' & Es & _ & Hb & _)]; [congruence|].
          destruct m as [|[|m]]; try discriminate. cbn in Es. inversion Es; subst.
          apply is_hex_hexc in Hb. congruence. }
      rewrite uric_loop_shift. destruct (IH s) as (I1 & I2 & I3); [cbn in Hs; lia|].
      set (n := uric_loop al s 0 MNone) in *. cbn [Nat.add firstn length].
      psplit; [lia|constructor; auto; apply is_hex_hexc; auto|].
      intros [|[|[|m]]] Hm U; try lia; cbn [firstn] in U; inversion U; subst; try congruence.
      apply (I3 m); [lia|]. assumption.
Qed.
Lemma c12 al s pos : al 37 = false ->
  let n := parse_uric s pos al in
  (n <= length (skipn pos s))%nat /\ uric_text al (firstn n (skipn pos s)) /\
  forall m, (n < m <= length (skipn pos s))%nat -> ~ uric_text al (firstn m (skipn pos s)).
Proof. intros H. unfold parse_uric. apply (uric_spec al H (length (skipn pos s))). lia. Qed.
(** a text is consumed completely iff it is URI text *)
Lemma uric_all al s : al 37 = false -> (uric_loop al s 0 MNone = length s <-> uric_text al s).
Proof.
  intros H. destruct (uric_spec al H (length s) s) as (H1 & H2 & H3); [lia|]. cbn in *. split.
  - intros E. rewrite E, firstn_all in H2. exact H2.
  - intros U. destruct (Nat.eq_dec (uric_loop al s 0 MNone) (length s)) as [|N]; auto.
    exfalso. apply (H3 (length s)); [lia|]. rewrite firstn_all. exact U.
Qed.

(** ** C18 *)
Lemma utf8_big c : is_scalar c -> 127 < c -> Forall (fun b => 128 <= b <= 255) (utf8_char c).
Proof.
  unfold is_scalar, maxunicode, utf8_char. intros H Hc.
  repeat destr; b2p; try lia; repeat constructor; zdiv.
Qed.
Lemma pct_sp_big v : 128 <= v <= 255 -> pct_sp v = pct v.
Proof. intros H. unfold pct_sp. destruct (v <? 16) eqn:E; b2p; [lia|reflexivity]. Qed.
Lemma encode_shape c : is_scalar c -> exists h,
  (if 127 <? c then let! b := utf8_encode [c] in Ok (flat_map pct_sp b) else Ok [c]) = Ok h /\
  ascii h = true /\ (c = 37 \/ forall t, unesc_loop (h ++ t) UNone = utf8_char c ++ unesc_loop t UNone).
Proof.
  intros H. destruct (127 <? c) eqn:E; b2p.
  - unfold utf8_encode. cbn [forallb]. rewrite (proj2 (scalarb_ok c) H). cbn [andb rbind].
    unfold utf8. cbn [flat_map]. rewrite app_nil_r. eexists. split; [reflexivity|].
    pose proof (utf8_big c H E) as B. clear -B.
    induction B as [|v l Hv _ (I1 & I2)]; [split; [reflexivity|right; reflexivity]|].
    cbn [flat_map]. rewrite pct_sp_big by auto. assert (is_byte v) by (unfold is_byte; lia). split.
    + rewrite ascii_app, pct_ascii, I1; auto.
    + destruct I2 as [->|I2]; auto. right. intros t. rewrite <- app_assoc, unesc_pct, I2 by auto. reflexivity.
  - exists [c]. psplit; auto.
    + cbn. apply andb_true_iff; split; auto. apply Z.leb_le. lia.
    + destruct (Z.eq_dec c 37) as [->|N]; auto. right. intros t. cbn.
      destruct (c =? 37) eqn:E2; b2p; [congruence|]. unfold utf8_char.
      destruct (c <? 128) eqn:E3; b2p; [reflexivity|lia].
Qed.
Lemma c18 s : Forall is_scalar s -> exists t, encode_unicode_uri s = Ok t /\ ascii t = true /\
  (~ In 37 s -> unescape_data t = Ok (utf8 s)).
Proof.
  induction 1 as [|c s Hc _ (t & I1 & I2 & I3)]; [exists []; cbn; auto|].
  destruct (encode_shape c Hc) as (h & E1 & E2 & E3).
  exists (h ++ t). psplit.
  - cbn [encode_unicode_uri]. rewrite E1. cbn [rbind]. rewrite I1. reflexivity.
  - rewrite ascii_app, E2, I2. reflexivity.
  - intros N. unfold unescape_data. rewrite ascii_app, E2, I2. cbn [andb].
    destruct E3 as [->|E3]; [exfalso; apply N; left; reflexivity|].
    rewrite E3. unfold unescape_data in I3. rewrite I2 in I3.
    assert (N' : ~ In 37 s) by (intros X; apply N; right; exact X). specialize (I3 N').
    inversion I3 as [I4]. rewrite I4. reflexivity.
Qed.
Lemma c18_ascii_id s : Forall (fun c => 0 <= c <= 127) s -> encode_unicode_uri s = Ok s.
Proof.
  induction 1 as [|c s Hc _ IH]; [reflexivity|]. cbn. rewrite IH.
  destruct (127 <? c) eqn:E; b2p; [lia|]. reflexivity.
Qed.
