(** C16 for paths with dot segments: relative followed by resolve gives the target with its path
    normalised. *)
From Verif Require Import Py Num Codec UriModel UriSpec UriProofs UriParse UriMain UriServer UriPath UriRel UriCanon UrnProofs.
#[local] Arguments lit : simpl never.
#[local] Arguments dot : simpl never.
#[local] Arguments dotdot : simpl never.

Lemma nf_app m rs : rs <> [] -> nf (m ++ rs) = pre_of (walk rs (walk m (O, []))) ++ (if is_dots (last rs []) then [[]] else []).
Proof.
  intros N. unfold nf. rewrite walk_app. destruct rs as [|x rs _] using rev_ind; [congruence|].
  rewrite app_assoc, !last_snoc. reflexivity.
Qed.
Lemma nf_base sb rs : sb <> [] -> is_dots (last sb []) = false -> rs <> [] ->
  nf (removelast sb ++ rs) = nf (removelast (nf sb) ++ rs).
Proof.
  intros N D R. destruct sb as [|x sb _] using rev_ind; [congruence|]. rewrite last_snoc in D.
  rewrite nf_snoc_plain by (apply not_dots_plain; auto). rewrite !removelast_last, !nf_app by auto.
  rewrite walk_pre by (apply walk_ok, st0_ok). reflexivity.
Qed.
Lemma walk_names l : forall st x, In x (snd (walk l st)) -> In x (snd st) \/ In x l.
Proof.
  induction l as [|y l IH]; intros st x H; [left; exact H|]. rewrite walk_cons in H. apply IH in H as [H|H]; [|right; right; auto].
  unfold step in H. destruct (str_eqb y dot); [left; auto|]. destruct (str_eqb y dotdot).
  - destruct st as [u [|z n]]; cbn in *; [tauto|left; auto].
  - cbn in H. destruct H as [<-|H]; [right; left; auto|left; auto].
Qed.
Lemma nf_names l x : In x (nf l) -> x = dotdot \/ x = [] \/ In x l.
Proof.
  unfold nf, pre_of. intros H. apply in_app_or in H as [H|H].
  - apply in_app_or in H as [H|H]; [apply repeat_spec in H; auto|]. apply in_rev in H. apply walk_names in H as [[]|H]; auto.
  - destruct (is_dots _); cbn in H; intuition.
Qed.
Lemma nf_ne l : l <> [] -> nf l <> [].
Proof.
  intros N. destruct (nf_cases l) as [(-> & ->)|[(m & x & -> & D & ->)|(m & x & -> & D & ->)]]; auto; intros X; destruct (pre_of _); discriminate.
Qed.
Lemma nf_plain_no l : ~ In dotdot (nf l) -> Forall plain (nf l).
Proof.
  intros H. destruct (nf_normal l) as (k & r & E & F & _). rewrite E in *. destruct k; [exact F|]. exfalso. apply H. left; auto.
Qed.
Definition segments (l : list str) : Prop := l <> [] /\ Forall (fun s => ~ has 47 s) l.
Lemma split_path_seg l : segments l -> split_path (Some (path_of l)) true = Ok l.
Proof.
  intros (N & F). rewrite path_join by auto. cbn [split_path]. change (47 =? 47) with true. cbv iota.
  cbn [split_on]. change (47 =? 47) with true. cbv iota. cbn [tl]. rewrite split_join; auto.
Qed.
Lemma nf_segments l : segments l -> segments (nf l).
Proof.
  intros (N & F). split; [apply nf_ne; auto|]. rewrite Forall_forall in *. intros x Hx. apply nf_names in Hx as [-> |[-> |Hx]]; auto.
  - compute. intuition discriminate.
Qed.
(** the relative path between two normalised paths *)
Lemma rel_shape su sb : segments su -> Forall plain su -> Forall plain sb -> sb <> [] -> Forall U su ->
  no_empty_inside su -> ~ has 58 (path_of su) -> ~ has 63 (path_of su) -> ~ (exists x r, sb = su ++ x :: r) -> su <> sb ->
  let rs := relativize_segments su sb in let pr := join_on 47 rs in
  rs <> [] /\ nf (removelast sb ++ rs) = su /\ U pr /\ (exists c r, pr = c :: r /\ c <> 47) /\ ~ In 58 pr /\ ~ In 63 pr /\
  Forall (fun s => ~ In 47 s) rs.
Proof.
  intros (NU & FU') LU LB NB US NI N58 C63 NX D rs pr.
  assert (segs : forall c s, In s su -> In c s -> In c (path_of su)).
  { intros c s H1 H2. rewrite path_join by auto. right. eapply join_in; eauto. }
  destruct (relativize_ok su sb LU LB NU NB NX D) as (R1 & R2 & R3). fold rs in R1, R2, R3. split; auto. split; auto.
  assert (G : forall s, In s rs -> s = dotdot \/ s = dot \/ s = [] \/ In s su).
  { intros s Hs. destruct R3 as [(n & t & E & _ & H)|[E|(m & x & t & E1 & E2 & _)]].
    - rewrite E in Hs. apply in_app_or in Hs as [Hs|Hs]; auto. apply repeat_spec in Hs. auto.
    - rewrite E in Hs. cbn in Hs. intuition.
    - rewrite E2 in Hs. right; right; right. rewrite E1. apply in_or_app. auto. }
  assert (GC : forall c, c <> 46 -> c <> 47 -> In c pr -> In c (path_of su)).
  { intros c H1 H2 H. apply in_join in H as [?|(s & Hs & Hc)]; [congruence|].
    destruct (G s Hs) as [-> |[-> |[-> |Hi]]]; [| | |eauto]; compute in Hc; exfalso; intuition congruence. }
  psplit.
  - apply U_join. apply Forall_forall. intros s Hs. destruct (G s Hs) as [-> |[-> |[-> |Hi]]].
    + repeat apply U_char; auto using U_nil.
    + repeat apply U_char; auto using U_nil.
    + apply U_nil.
    + rewrite Forall_forall in US. auto.
  - unfold pr. destruct R3 as [(n & t & E & Hn & H)|[E|(m & x & t & E1 & E2 & E3)]].
    + rewrite E. destruct (plain_repeat_join n t Hn) as (r & ->). exists 46, r. split; auto. discriminate.
    + rewrite E. exists 46, [47]. split; [reflexivity|discriminate].
    + rewrite E2. assert (X : x <> []).
      { intros ->. apply (NI m [] t E1 (E3 eq_refl)). reflexivity. }
      destruct x as [|c x]; [congruence|]. exists c. destruct t as [|y t].
      * exists x. split; [reflexivity|]. intros ->. rewrite Forall_forall in FU'.
        apply (FU' (47 :: x)); [rewrite E1; apply in_or_app; right; left; auto|]. left; auto.
      * exists (x ++ 47 :: join_on 47 (y :: t)). split; [reflexivity|]. intros ->. rewrite Forall_forall in FU'.
        apply (FU' (47 :: x)); [rewrite E1; apply in_or_app; right; left; auto|]. left; auto.
  - intros H. apply GC in H; try discriminate. auto.
  - intros H. apply GC in H; try discriminate. auto.
  - apply Forall_forall. intros s Hs. destruct (G s Hs) as [-> |[-> |[-> |Hi]]]; try (compute; intuition discriminate).
    rewrite Forall_forall in FU'. apply FU'; auto.
Qed.

Lemma c16_dots tu tb u b su sb lu lb : from_octets tu = Ok u -> from_octets tb = Ok b ->
  scheme u = scheme b -> authority (hr u) = authority (hr b) ->
  abs_path (hr u) = Some (path_of su) -> abs_path (hr b) = Some (path_of sb) ->
  segments su -> segments sb -> normalize_segments su = Ok lu -> normalize_segments sb = Ok lb ->
  ~ In dotdot lu -> ~ In dotdot lb -> is_dots (last sb []) = false ->
  no_empty_inside lu -> ~ has 58 (path_of lu) -> ~ (exists x r, lb = lu ++ x :: r) -> lu <> lb ->
  exists r v, relative u b = Ok r /\ scheme r = None /\ authority (hr r) = None /\ resolve r b None = Ok v /\
    parts_of v = mkparts (scheme u) None (authority (hr u)) (Some (path_of lu)) None (query (hr u)) (fragment u).
Proof.
  intros FU FB ES EA PU PB SU SB NU NB DU DB LB NI N58 NX NE. rewrite normalize_nf in NU, NB. inversion NU; inversion NB; subst lu lb.
  destruct (from_octets_inv _ _ FU) as (KU & RU & TU). destruct (from_octets_cls _ _ FU) as (CU & MU).
  assert (OPU : opaque_part (hr u) = None).
  { destruct (opaque_part (hr u)) eqn:E; auto. destruct KU. destruct (po_opaque _ E) as (_ & _ & _ & _ & X & _).
    cbn in X. congruence. }
  assert (UQ : opt_all U (query (hr u))).
  { intros x X. destruct KU. apply po_uric. cbn. rewrite X. tauto. }
  assert (UF : opt_all U (fragment u)).
  { intros x X. destruct KU. apply po_uric. cbn. rewrite X. tauto. }
  pose proof (nf_plain_no _ DU) as LU'. pose proof (nf_plain_no _ DB) as LB'.
  pose proof SU as (NSU & FSU). pose proof SB as (NSB & FSB). pose proof (nf_segments _ SU) as SNU. pose proof (nf_segments _ SB) as SNB.
  assert (UPU : U (path_of su)) by (destruct KU; apply po_uric; cbn; rewrite PU; tauto).
  assert (US0 : Forall U su).
  { rewrite path_join in UPU by auto. apply join_U. eapply U_uncons; [| |exact UPU]; [reflexivity|discriminate]. }
  assert (US : Forall U (nf su)).
  { rewrite Forall_forall in *. intros x Hx. apply nf_names in Hx as [-> |[-> |Hx]]; auto using U_nil. repeat apply U_char; auto using U_nil. }
  assert (C63 : ~ In 63 (path_of (nf su))).
  { assert (X : ~ In 63 (path_of su)) by (destruct KU; destruct (po_abs _ PU) as (_ & X & _); exact X).
    rewrite path_join in * by (apply SNU || auto). intros [Y|Y]; [discriminate|]. apply X. right. apply in_join in Y as [Y|(s & Hs & Hc)]; [discriminate|].
    apply nf_names in Hs as [-> |[-> |Hs]]; [compute in Hc; intuition discriminate|destruct Hc|]. eapply join_in; eauto. }
  destruct (rel_shape (nf su) (nf sb) SNU LU' LB' ltac:(apply SNB) US NI N58 C63 NX NE) as (R1 & R2 & UP & (c & r' & EP & C47) & P58 & P63 & P47).
  set (rs := relativize_segments (nf su) (nf sb)) in *. set (pr := join_on 47 rs) in *.
  assert (MR : make_rel_path_abs (path_of su) (path_of sb) = Ok pr).
  { unfold make_rel_path_abs. rewrite !split_path_seg by auto. cbn [rbind]. rewrite normalize_nf. cbn [rbind]. rewrite normalize_nf. reflexivity. }
  assert (REL : relative u b = from_octets (pr ++ opt_part (lit "?") (query (hr u)) ++ opt_part (lit "#") (fragment u))).
  { unfold relative. rewrite OPU, PU, PB, EA, ES.
    assert (A : ostr_eqb (authority (hr b)) (authority (hr b)) = true).
    { destruct (authority (hr b)); cbn; auto. apply str_eqb_refl. }
    rewrite A, MR.
    destruct (scheme b); rewrite ?str_eqb_refl; destruct (authority (hr b)); reflexivity. }
  rewrite REL. destruct (rel_ref pr (query (hr u)) (fragment u)) as (r & H1 & H2); auto.
  { intros (? & E). rewrite EP in E. congruence. }
  rewrite H1.
  assert (E1 : scheme r = None) by (apply (f_equal p_scheme) in H2; exact H2).
  assert (E2 : authority (hr r) = None) by (apply (f_equal p_auth) in H2; exact H2).
  assert (E3 : abs_path (hr r) = None) by (apply (f_equal p_abs) in H2; exact H2).
  assert (E4 : rel_path (hr r) = Some pr) by (apply (f_equal p_rel) in H2; exact H2).
  assert (E5 : query (hr r) = query (hr u)) by (apply (f_equal p_query) in H2; exact H2).
  assert (E6 : fragment r = fragment u) by (apply (f_equal p_frag) in H2; exact H2).
  set (p := mkparts (scheme u) None (authority (hr u)) (Some (path_of (nf su))) None (query (hr u)) (fragment u)).
  assert (RES : resolve r b None = from_octets (recompose p)).
  { unfold resolve. rewrite E1, E2, E3, E4, E5, E6, PB. rewrite EP. cbn [truthy orb negb andb].
    rewrite split_path_seg by auto. cbn [rbind].
    assert (SP : split_path (Some (c :: r')) false = Ok rs).
    { cbn [split_path]. rewrite <- EP. unfold pr. rewrite split_join; auto. }
    match goal with |- context [split_path ?x false] => replace (split_path x false) with (Ok rs) by (symmetry; exact SP) end.
    cbn [rbind]. rewrite normalize_nf. cbn [rbind].
    rewrite nf_base by auto. rewrite R2, <- path_join by (apply SNU). f_equal.
    unfold recompose, p. cbn [p_scheme p_opaque p_auth p_abs p_rel p_query p_frag]. rewrite <- EA, <- ES, !opt_part_text. cbn [opt_text app].
    destruct (scheme u); reflexivity. }
  assert (OK : parts_ok p).
  { destruct KU as [P1 P2 P3 P4 P5 P6 P7 P8 P9]. unfold parts_of in *. cbn [p_scheme p_opaque p_auth p_abs p_rel p_query p_frag] in *.
    assert (ST : path_of (nf su) = 47 :: join_on 47 (nf su)) by (apply path_join, SNU).
    unfold p. constructor; cbn [p_scheme p_opaque p_auth p_abs p_rel p_query p_frag]; try discriminate; auto.
    - intros x X. cbn [In] in X. destruct X as [X|[X|[X|[X|[X|[X|[]]]]]]]; try discriminate.
      + apply P1. cbn. rewrite X. tauto.
      + inversion X; subst. rewrite ST. apply U_char; [reflexivity|]. apply U_join; auto.
      + apply UQ; auto.
      + apply UF; auto.
    - intros x X. inversion X; subst x. psplit; auto.
      + rewrite ST. eexists; reflexivity.
      + intros _ r0 E0. rewrite ST in E0. inversion E0 as [E7]. destruct (nf su) as [|x l] eqn:EN; [discriminate|].
        destruct l as [|y l].
        * cbn in E7. subst x. destruct SNU as (_ & SNU). inversion SNU as [|? ? W]; subst. apply W. left; auto.
        * destruct x as [|z x].
          -- apply (NI [] [] (y :: l)); auto. discriminate.
          -- cbn in E7. inversion E7; subst z. destruct SNU as (_ & SNU). inversion SNU as [|? ? W]; subst. apply W. left; auto.
    - intros N. unfold recompose. cbn [p_scheme p_opaque p_auth p_abs p_rel p_query p_frag]. rewrite N. cbn [opt_text app].
      destruct (authority (hr u)) as [a|]; cbn [opt_text app].
      + change (lit "//" ++ a) with (47 :: 47 :: a). intros [|x y] z Z; cbn [app] in Z; inversion Z; subst.
        intros [W|(x0 & y0 & W & W2 & _)]; inversion W; subst. discriminate.
      + rewrite ST. intros [|x y] z Z; cbn [app] in Z; inversion Z; subst.
        intros [W|(x0 & y0 & W & W2 & _)]; inversion W; subst. discriminate. }
  assert (V : exists v, from_octets (recompose p) = Ok v /\ parts_of v = p).
  { destruct (scheme u) as [s|] eqn:EU.
    - destruct (from_parts_scheme p s (cls u)) as (v & V1 & V2 & _); eauto.
      intros K. rewrite K in MU. pose proof (c20 (parts_of u) s ltac:(assumption) EU) as X. cbn [p_opaque parts_of] in X. rewrite OPU in X.
      rewrite RU in X. congruence.
    - apply from_parts; auto. }
  destruct V as (v & V1 & V2). exists r, v. psplit; auto. congruence.
Qed.

(** ** C10: unescaping arbitrary text *)
Lemma is_hex_nhexc c : is_hex c = false <-> ~ hexc c.
Proof. rewrite <- is_hex_hexc. destruct (is_hex c); split; congruence. Qed.
Lemma unesc_sound : forall n s, (length s <= n)%nat -> unescapes s (unesc_loop s UNone).
Proof.
  induction n as [|n IH]; intros s L.
  - destruct s; [constructor|cbn in L; lia].
  - destruct s as [|c s]; [constructor|]. cbn [unesc_loop]. destruct (Z.eqb_spec c 37) as [->|N].
    + destruct s as [|a s]; [constructor|]. cbn [unesc_loop]. destruct (is_hex a) eqn:Ea.
      * destruct s as [|b s]; [constructor; apply is_hex_hexc; auto|]. cbn [unesc_loop].
        apply is_hex_hexc in Ea.
        destruct (is_hex b) eqn:Eb.
        -- apply is_hex_hexc in Eb. rewrite <- !hexvalue_eq, Z.mul_comm.
           apply ue_esc; auto. apply IH. cbn in L; lia.
        -- apply is_hex_nhexc in Eb. apply ue_lit2; auto. apply IH. cbn in L; lia.
      * apply is_hex_nhexc in Ea. apply ue_lit1; auto. apply IH. cbn in L; lia.
    + constructor; auto. apply IH. cbn in L; lia.
Qed.
Lemma unesc_complete s t : unescapes s t -> unesc_loop s UNone = t.
Proof.
  assert (N37 : is_hex 37 = false) by reflexivity.
  induction 1; cbn [unesc_loop]; auto.
  - destruct (Z.eqb_spec c 37); [contradiction|congruence].
  - apply is_hex_hexc in H, H0. cbn. rewrite H, H0, <- !hexvalue_eq, Z.mul_comm, IHunescapes. reflexivity.
  - apply is_hex_nhexc in H. cbn. rewrite H. congruence.
  - apply is_hex_hexc in H. apply is_hex_nhexc in H0. cbn. rewrite H, H0. congruence.
  - apply is_hex_hexc in H. cbn. rewrite H. reflexivity.
Qed.
Lemma ascii_Forall s : ascii s = true <-> Forall (fun c => c <= 127) s.
Proof.
  unfold ascii. rewrite forallb_forall, Forall_forall. split; intros H x Hx; specialize (H x Hx);
    [apply Z.leb_le in H|apply Z.leb_le]; auto.
Qed.
Lemma c10_unescape s t : unescape_data s = Ok t <-> Forall (fun c => c <= 127) s /\ unescapes s t.
Proof.
  unfold unescape_data. rewrite <- ascii_Forall. destruct (ascii s); split.
  - intros E. injection E as <-. split; auto. eapply unesc_sound; eauto.
  - intros [_ H]. rewrite (unesc_complete _ _ H). reflexivity.
  - discriminate.
  - intros [H _]; discriminate.
Qed.
