(** C16: relative and resolve. *)
From Verif Require Import Py Num Codec UriModel UriSpec UriProofs UriParse UriMain UriPath.
#[local] Arguments lit : simpl never.
#[local] Arguments dot : simpl never.
#[local] Arguments dotdot : simpl never.

(** ** split and join *)
Lemma split_nonempty c s : split_on c s <> [].
Proof. destruct s; cbn; [discriminate|]. destruct (_ =? _); [discriminate|]. destruct (split_on c s); discriminate. Qed.
Lemma split_no c s : ~ In c s -> split_on c s = [s].
Proof.
  induction s as [|x s IH]; cbn; auto. intros H. destruct (x =? c) eqn:E; b2p.
  - subst. exfalso. auto.
  - rewrite IH; auto.
Qed.
Lemma split_app c a s : ~ In c a -> split_on c (a ++ c :: s) = a :: split_on c s.
Proof.
  induction a as [|x a IH]; cbn [app split_on]; intros H.
  - rewrite Z.eqb_refl. reflexivity.
  - destruct (x =? c) eqn:E; b2p; [subst; exfalso; apply H; left; auto|].
    rewrite IH; auto. intros X; apply H; right; auto.
Qed.
Lemma split_join c : forall l, l <> [] -> Forall (fun s => ~ In c s) l -> split_on c (join_on c l) = l.
Proof.
  induction l as [|a l IH]; intros N F; [congruence|]. inversion F; subst. destruct l as [|b l].
  - cbn. apply split_no; auto.
  - change (join_on c (a :: b :: l)) with (a ++ c :: join_on c (b :: l)).
    rewrite split_app by auto. rewrite IH; auto. discriminate.
Qed.
Lemma join_split c : forall s, join_on c (split_on c s) = s.
Proof.
  induction s as [|x s IH]; [reflexivity|]. cbn [split_on]. pose proof (split_nonempty c s) as N.
  destruct (x =? c) eqn:E; b2p.
  - subst. destruct (split_on c s) as [|w l]; [congruence|]. cbn [join_on app] in *. rewrite IH. reflexivity.
  - destruct (split_on c s) as [|w l]; [congruence|]. destruct l; cbn [join_on app] in *; congruence.
Qed.
Lemma split_in c s x : In x (split_on c s) -> ~ In c x.
Proof.
  revert x. induction s as [|y s IH]; intros x; cbn [split_on]; [intros [<-|[]] []|].
  destruct (y =? c) eqn:E; b2p.
  - intros [<-|H]; [intros []|auto].
  - pose proof (split_nonempty c s). destruct (split_on c s) as [|w l]; [congruence|].
    intros [<-|H2]; [|apply IH; right; auto]. intros [?|?]; [congruence|]. apply (IH w); auto. left; auto.
Qed.
Lemma path_join l : l <> [] -> path_of l = 47 :: join_on 47 l.
Proof.
  induction l as [|a l IH]; [congruence|]. intros _. unfold path_of in *. cbn [map concat].
  change (lit "/") with [47] in *. destruct l as [|b l]; [cbn; rewrite app_nil_r; reflexivity|].
  rewrite IH by discriminate. reflexivity.
Qed.
Lemma split_path_of l : ordinary l -> split_path (Some (path_of l)) true = Ok l.
Proof.
  intros (N & F). rewrite path_join by auto. cbn [split_path]. change (47 =? 47) with true. cbv iota.
  cbn [split_on]. change (47 =? 47) with true. cbv iota. cbn [tl]. rewrite split_join; auto.
  eapply Forall_impl; [|exact F]. intros s (H & _). exact H.
Qed.
Lemma ordinary_plain l : ordinary l -> Forall plain l.
Proof. intros (_ & F). eapply Forall_impl; [|exact F]. intros s (_ & H1 & H2). split; auto. Qed.
Lemma nf_plain l : Forall plain l -> nf l = l.
Proof. intros H. apply nf_fixed. exists O, l. cbn. psplit; auto; congruence. Qed.

(** ** relativize *)
Lemma rel_loop_ne path : forall rest pos r rs,
  rel_loop path rest pos (r :: rs) = repeat dotdot (length rest) ++ r :: rs.
Proof.
  induction rest as [|b rest IH]; intros pos r rs; [reflexivity|]. cbn [rel_loop]. rewrite IH.
  cbn [length repeat]. rewrite <- repeat_snoc, <- app_assoc. reflexivity.
Qed.
Lemma rel_loop_common : forall c pre p b,
  rel_loop (pre ++ c ++ p) (c ++ b) (length pre) [] = rel_loop (pre ++ c ++ p) b (length pre + length c) [].
Proof.
  induction c as [|x c IH]; intros pre p b; [cbn; rewrite Nat.add_0_r; reflexivity|].
  cbn [rel_loop app]. rewrite nth_error_app2, Nat.sub_diag by lia. cbn [nth_error]. rewrite str_eqb_refl.
  specialize (IH (pre ++ [x]) p b). rewrite <- !app_assoc, app_length in IH. cbn [app length] in IH.
  replace (length pre + 1)%nat with (S (length pre)) in IH by lia. rewrite IH. f_equal. cbn. lia.
Qed.
Lemma rel_diff c x p y b : x <> y ->
  rel_loop (c ++ x :: p) (c ++ y :: b) 0 [] = repeat dotdot (length b) ++ x :: p.
Proof.
  intros N. pose proof (rel_loop_common c [] (x :: p) (y :: b)) as H. cbn [app length Nat.add] in H. rewrite H.
  cbn [rel_loop]. rewrite nth_error_app2, Nat.sub_diag by lia. cbn [nth_error].
  assert (E : str_eqb y x = false) by (apply str_eqb_neq; congruence). rewrite E.
  rewrite skipn_len. apply rel_loop_ne.
Qed.
Lemma rel_prefix c p : rel_loop (c ++ p) c 0 [] = [].
Proof.
  pose proof (rel_loop_common c [] p []) as H. cbn [app length Nat.add] in H. rewrite app_nil_r in H.
  rewrite H. reflexivity.
Qed.
Lemma strl_eqb_single (l : list str) : strl_eqb l [[]] = true <-> l = [[]].
Proof.
  unfold strl_eqb. destruct l as [|a [|b l]]; cbn; split; try discriminate; auto.
  - rewrite andb_true_r. intros H. apply str_eqb_eq in H. subst. reflexivity.
  - intros H. inversion H; subst. reflexivity.
Qed.
(** two lists share a prefix and then differ, or one extends the other *)
Lemma prefix_cases (a b : list str) : (exists c x p y q, a = c ++ x :: p /\ b = c ++ y :: q /\ x <> y) \/
  (exists x r, a = b ++ x :: r) \/ a = b \/ (exists x r, b = a ++ x :: r).
Proof.
  revert b. induction a as [|x a IH]; intros [|y b].
  - auto.
  - right; right; right. exists y, b. reflexivity.
  - right; left. exists x, a. reflexivity.
  - destruct (list_eq_dec Z.eq_dec x y) as [->|N].
    + destruct (IH b) as [(c & u & p & v & q & -> & -> & H)|[(u & r & ->)|[->|(u & r & ->)]]].
      * left. exists (y :: c), u, p, v, q. auto.
      * right; left. exists u, r. auto.
      * auto.
      * right; right; right. exists u, r. auto.
    + left. exists [], x, a, y, b. auto.
Qed.
Lemma step_pops k l u : forall n, walk (repeat dotdot (length l) ++ k) (u, l ++ n) = walk k (u, n).
Proof.
  induction l as [|x l IH]; intros n; [reflexivity|]. cbn [length repeat app]. rewrite walk_cons.
  change (step dotdot (u, x :: l ++ n)) with (u, l ++ n). apply IH.
Qed.
Lemma nf_snoc_plain m x : plain x -> nf (m ++ [x]) = pre_of (walk m (O, [])) ++ [x].
Proof.
  intros H. unfold nf. rewrite last_snoc, walk_last by auto. unfold is_dots. destruct (plain_eqb x H) as [-> ->].
  cbn [orb]. rewrite app_nil_r, pre_cons. destruct (walk m (O, [])); reflexivity.
Qed.
Lemma nf_pops a d s : Forall plain a -> Forall plain d -> Forall plain s -> s <> [] ->
  nf (a ++ d ++ repeat dotdot (length d) ++ s) = a ++ s.
Proof.
  intros Ha Hd Hs Ns. destruct s as [|x s] using rev_ind; [congruence|]. clear IHs.
  apply Forall_app in Hs as [Hs Hx]. inversion Hx; subst.
  rewrite !app_assoc, nf_snoc_plain, <- !app_assoc by auto.
  rewrite walk_app, walk_plain by auto. rewrite app_nil_r.
  rewrite walk_app, walk_plain by auto.
  rewrite <- (rev_length d), step_pops, walk_plain by auto.
  unfold pre_of. cbn [fst snd repeat app]. rewrite rev_app_distr, !rev_involutive, <- app_assoc. reflexivity.
Qed.
(** what resolving the relative path against the base path gives *)
Lemma relativize_ok su sb : Forall plain su -> Forall plain sb -> su <> [] -> sb <> [] ->
  ~ (exists x r, sb = su ++ x :: r) -> su <> sb ->
  relativize_segments su sb <> [] /\ nf (removelast sb ++ relativize_segments su sb) = su /\
  ((exists n s, relativize_segments su sb = repeat dotdot n ++ s /\ n <> O /\ (forall x, In x s -> In x su)) \/
   relativize_segments su sb = [dot; []] \/
   (exists m x s, su = m ++ x :: s /\ relativize_segments su sb = x :: s /\ (x = [] -> s <> []))).
Proof.
  intros Pu Pb Nu Nb NP NE. unfold relativize_segments.
  destruct (prefix_cases su sb) as [(c & x & p & y & q & -> & -> & D)|[(x & r & ->)|[->|H]]]; try tauto.
  - rewrite rel_diff by auto.
    apply Forall_app in Pu as [Pc Pp]. apply Forall_app in Pb as [_ Pq].
    assert (NR : repeat dotdot (length q) ++ x :: p <> []) by (destruct (length q); discriminate).
    destruct (repeat dotdot (length q) ++ x :: p) as [|z zs] eqn:EZ; [congruence|]. rewrite <- EZ in *. clear EZ z zs.
    rewrite removelast_app by discriminate.
    assert (LR : length (removelast (y :: q)) = length q).
    { destruct q as [|w q] using rev_ind; [reflexivity|]. rewrite (app_comm_cons q [w] y), removelast_last.
      rewrite app_length. cbn. lia. }
    assert (PR : Forall plain (removelast (y :: q))).
    { destruct q as [|w q] using rev_ind; [constructor|]. rewrite (app_comm_cons q [w] y), removelast_last.
      rewrite app_comm_cons in Pq. apply Forall_app in Pq. tauto. }
    destruct (strl_eqb (repeat dotdot (length q) ++ x :: p) [[]]) eqn:ES.
    + apply strl_eqb_single in ES. destruct q as [|w q]; [|cbn in ES; destruct (repeat dotdot (length q)); discriminate].
      cbn [length repeat app] in ES. inversion ES; subst. cbn [length repeat app removelast].
      psplit; [discriminate| |auto]. rewrite app_nil_r.
      pose proof (nf_snoc_plain (c ++ [dot]) [] plain_nil) as H. rewrite <- app_assoc in H. cbn [app] in H.
      etransitivity; [exact H|]. rewrite walk_app, walk_plain by auto.
      rewrite walk_cons. cbn [walk]. unfold step. change (str_eqb dot dot) with true. cbv iota.
      unfold pre_of. cbn [fst snd repeat app]. rewrite app_nil_r, rev_involutive. reflexivity.
    + split; [exact NR|]. split.
      * rewrite <- app_assoc. rewrite <- LR. apply nf_pops; auto. discriminate.
      * destruct q as [|w q].
        -- right; right. exists c, x, p. cbn [length repeat app]. psplit; auto.
           intros -> ->. cbn in ES. discriminate.
        -- left. exists (length (w :: q)), (x :: p). psplit; auto; [discriminate|]. intros z Z. apply in_or_app; auto.
  - rewrite rel_prefix. destruct (length sb <? length (sb ++ x :: r))%nat eqn:L.
    2:{ b2p. rewrite app_length in L. cbn in L. lia. }
    destruct sb as [|l SB _] using rev_ind; [congruence|].
    rewrite app_length. cbn [length].
    assert (T : tail_from (Z.of_nat (length SB + 1) - 1) ((SB ++ [l]) ++ x :: r) = l :: x :: r).
    { unfold tail_from. destruct (_ <? 0) eqn:Q; b2p; [lia|].
      replace (Z.to_nat (Z.of_nat (length SB + 1) - 1)) with (length SB) by lia.
      rewrite <- app_assoc. apply skipn_len. }
    rewrite T, removelast_last. psplit; [discriminate| |].
    + rewrite <- app_assoc in *. cbn [app] in *. apply nf_plain. exact Pu.
    + right; right. exists SB, l, (x :: r). rewrite <- app_assoc. psplit; auto. discriminate.
Qed.

(** ** URI text *)
Lemma U_join l : Forall U l -> U (join_on 47 l).
Proof.
  induction l as [|a l IH]; intros H; [constructor|]. inversion H; subst. destruct l as [|b l]; [auto|].
  change (join_on 47 (a :: b :: l)) with (a ++ 47 :: join_on 47 (b :: l)). apply uric_app; auto.
  apply U_char; auto.
Qed.
Lemma join_U l : U (join_on 47 l) -> Forall U l.
Proof.
  induction l as [|a l IH]; intros H; [constructor|]. destruct l as [|b l]; [constructor; auto|].
  change (join_on 47 (a :: b :: l)) with (a ++ 47 :: join_on 47 (b :: l)) in H.
  destruct (uric_cut is_allowed 47 allowed37 eq_refl ltac:(discriminate) _ _ H) as (H1 & _ & H2).
  constructor; auto.
Qed.
Lemma in_join l c : In c (join_on 47 l) -> c = 47 \/ exists s, In s l /\ In c s.
Proof.
  induction l as [|a l IH]; [intros []|]. destruct l as [|b l]; [intros H; right; exists a; cbn; auto|].
  change (join_on 47 (a :: b :: l)) with (a ++ 47 :: join_on 47 (b :: l)). intros H.
  apply in_app_or in H as [H|[<-|H]]; auto; [right; exists a; cbn; auto|].
  destruct (IH H) as [?|(s & H1 & H2)]; auto. right. exists s. cbn in *. tauto.
Qed.
Lemma join_in l c s : In s l -> In c s -> In c (join_on 47 l).
Proof.
  induction l as [|a l IH]; [intros []|]. intros H1 H2. destruct l as [|b l]; [destruct H1 as [<-|[]]; auto|].
  change (join_on 47 (a :: b :: l)) with (a ++ 47 :: join_on 47 (b :: l)). apply in_or_app.
  destruct H1 as [<-|H1]; auto. right; right; auto.
Qed.
Lemma from_octets_ascii t : Forall (fun c => 0 <= c <= 127) t ->
  from_octets t = make_uri (match parse_scheme t with Some s => scheme_class (lower s) | None => KURI end) t.
Proof. intros H. unfold from_octets. rewrite c18_ascii_id by auto. reflexivity. Qed.
Lemma recompose_ascii p : parts_ok p -> Forall (fun c => 0 <= c <= 127) (recompose p).
Proof.
  intros H. rewrite recompose_body. apply Forall_app; split; [apply uric_ascii, body_U; auto|].
  destruct (p_frag p) as [f|] eqn:E; cbn; [|constructor]. constructor; [lia|]. apply uric_ascii.
  destruct H. apply po_uric. rewrite E. cbn. tauto.
Qed.
Lemma from_octets_inv t u : from_octets t = Ok u ->
  parts_ok (parts_of u) /\ recompose (parts_of u) = to_str u /\ from_octets (to_str u) = Ok u.
Proof.
  unfold from_octets. destruct (encode_unicode_uri t) as [o|] eqn:E; cbn [rbind]; [|discriminate]. intros H.
  pose proof H as H'. apply c13_sound in H as (H1 & H2 & H3 & _). psplit; auto; try congruence.
  rewrite H3, c18_ascii_id; auto. rewrite <- H2. apply recompose_ascii; auto.
Qed.
Lemma from_parts p : parts_ok p -> p_scheme p = None ->
  exists u, from_octets (recompose p) = Ok u /\ parts_of u = p.
Proof.
  intros H N. destruct (c13_complete KURI p H ltac:(discriminate)) as (u & H1 & H2). exists u. split; auto.
  rewrite from_octets_ascii by (apply recompose_ascii; auto).
  assert (E : parse_scheme (recompose p) = None) by (apply parse_scheme_none; destruct H; auto).
  rewrite E. exact H1.
Qed.

Lemma no58_no_scheme s : ~ In 58 s -> no_scheme s.
Proof. intros H a b -> _. apply H, in_or_app. right; left; auto. Qed.
Lemma opt_part_text pre o : opt_part pre o = opt_text pre o [].
Proof. destruct o; cbn; rewrite ?app_nil_r; auto. Qed.
(** the relative reference: a relative path, a query, a fragment *)
Lemma rel_ref pr q f : U pr -> ~ starts 47 pr -> ~ In 58 pr -> ~ In 63 pr -> opt_all U q -> opt_all U f ->
  let p := mkparts None None None None (Some pr) q f in
  exists r, from_octets (pr ++ opt_part (lit "?") q ++ opt_part (lit "#") f) = Ok r /\ parts_of r = p.
Proof.
  intros H1 H2 H3 H4 H5 H6 p.
  assert (E : recompose p = pr ++ opt_part (lit "?") q ++ opt_part (lit "#") f).
  { unfold recompose, p. cbn. rewrite !app_nil_r, !opt_part_text. reflexivity. }
  rewrite <- E. apply from_parts; [|reflexivity].
  constructor; cbn; try discriminate; try tauto.
  - intros x [X|[X|[X|[X|[X|[X|[]]]]]]]; try discriminate; [inversion X; subst; auto|apply H5; auto|apply H6; auto].
  - intros x X. inversion X; subst. auto 7.
  - intros _. rewrite !app_nil_r. apply no_scheme_app; [|apply no58_no_scheme; auto].
    destruct q; cbn; [right; do 2 eexists; psplit; [reflexivity|reflexivity|discriminate]|].
    destruct f; cbn; [right; do 2 eexists; psplit; [reflexivity|reflexivity|discriminate]|]. left; tauto.
Qed.

Lemma rel_self s : relativize_segments s s = [].
Proof.
  unfold relativize_segments. pose proof (rel_prefix s []) as H. rewrite app_nil_r in H. rewrite H.
  rewrite Nat.ltb_irrefl. reflexivity.
Qed.
Lemma normalize_plain l : Forall plain l -> normalize_segments l = Ok l.
Proof. intros H. rewrite normalize_nf, nf_plain; auto. Qed.
Lemma plain_repeat_join n s : n <> O -> exists r, join_on 47 (repeat dotdot n ++ s) = 46 :: r.
Proof.
  destruct n as [|n]; [congruence|]. intros _. cbn [repeat app]. destruct (repeat dotdot n ++ s) as [|b l].
  - exists [46]. reflexivity.
  - exists (46 :: 47 :: join_on 47 (b :: l)). reflexivity.
Qed.

Lemma c16 tu tb u b su sb : from_octets tu = Ok u -> from_octets tb = Ok b ->
  scheme u = scheme b -> authority (hr u) = authority (hr b) ->
  abs_path (hr u) = Some (path_of su) -> abs_path (hr b) = Some (path_of sb) ->
  ordinary su -> ordinary sb -> no_empty_inside su -> ~ has 58 (path_of su) ->
  ~ (exists x r, sb = su ++ x :: r) ->
  (su = sb -> query (hr u) = None /\ query (hr b) = None) ->
  exists r, relative u b = Ok r /\ scheme r = None /\ authority (hr r) = None /\ resolve r b None = Ok u.
Proof.
  intros FU FB ES EA PU PB OU OB NI N58 NX EQ.
  destruct (from_octets_inv _ _ FU) as (KU & RU & TU). destruct (from_octets_inv _ _ FB) as (KB & RB & TB).
  assert (OPU : opaque_part (hr u) = None).
  { destruct (opaque_part (hr u)) eqn:E; auto. destruct KU. destruct (po_opaque _ E) as (_ & _ & _ & _ & X & _).
    cbn in X. congruence. }
  assert (OPB : opaque_part (hr b) = None).
  { destruct (opaque_part (hr b)) eqn:E; auto. destruct KB. destruct (po_opaque _ E) as (_ & _ & _ & _ & X & _).
    cbn in X. congruence. }
  assert (RPU : rel_path (hr u) = None).
  { destruct (rel_path (hr u)) eqn:E; auto. destruct KU. destruct (po_rel _ E) as (_ & _ & X & _).
    cbn in X. congruence. }
  assert (RPB : rel_path (hr b) = None).
  { destruct (rel_path (hr b)) eqn:E; auto. destruct KB. destruct (po_rel _ E) as (_ & _ & X & _).
    cbn in X. congruence. }
  assert (UQ : opt_all U (query (hr u))).
  { intros x X. destruct KU. apply po_uric. cbn. rewrite X. tauto. }
  assert (UF : opt_all U (fragment u)).
  { intros x X. destruct KU. apply po_uric. cbn. rewrite X. tauto. }
  pose proof (ordinary_plain _ OU) as LU. pose proof (ordinary_plain _ OB) as LB.
  pose proof OU as (NU & FU'). pose proof OB as (NB & FB').
  assert (US : Forall U su).
  { assert (X : U (path_of su)) by (destruct KU; apply po_uric; cbn; rewrite PU; tauto).
    rewrite path_join in X by auto. apply join_U. eapply U_uncons; [| |exact X]; [reflexivity|discriminate]. }
  assert (C63 : ~ In 63 (path_of su)).
  { destruct KU. destruct (po_abs _ PU) as (_ & X & _). exact X. }
  assert (segs : forall c s, In s su -> In c s -> In c (path_of su)).
  { intros c s H1 H2. rewrite path_join by auto. right. eapply join_in; eauto. }
  set (rs := relativize_segments su sb). set (pr := join_on 47 rs).
  assert (RS : rs = [] \/ (rs <> [] /\ nf (removelast sb ++ rs) = su)).
  { destruct (list_eq_dec (list_eq_dec Z.eq_dec) su sb) as [->|D]; [left; apply rel_self|right].
    destruct (relativize_ok su sb LU LB NU NB NX D) as (R1 & R2 & _). auto. }
  (* the characters of the relative path, and its first one *)
  assert (RC : (pr = [] /\ su = sb) \/ (su <> sb /\ rs <> [] /\ U pr /\ (exists c r, pr = c :: r /\ c <> 47) /\ ~ In 58 pr /\ ~ In 63 pr /\
     Forall (fun s => ~ In 47 s) rs)).
  { destruct (list_eq_dec (list_eq_dec Z.eq_dec) su sb) as [E|D].
    { left. unfold pr, rs. rewrite E, rel_self. auto. }
    right. split; auto.
    destruct (relativize_ok su sb LU LB NU NB NX D) as (R1 & R2 & R3). fold rs in R1, R2, R3. split; auto.
    assert (G : forall s, In s rs -> s = dotdot \/ s = dot \/ s = [] \/ In s su).
    { intros s Hs. destruct R3 as [(n & t & E & _ & H)|[E|(m & x & t & E1 & E2 & _)]].
      - rewrite E in Hs. apply in_app_or in Hs as [Hs|Hs]; auto. apply repeat_spec in Hs. auto.
      - rewrite E in Hs. cbn in Hs. intuition.
      - rewrite E2 in Hs. right; right; right. rewrite E1. apply in_or_app. auto. }
    assert (GC : forall c, c <> 46 -> c <> 47 -> In c pr -> In c (path_of su)).
    { intros c H1 H2 H. apply in_join in H as [?|(s & Hs & Hc)]; [congruence|].
      destruct (G s Hs) as [-> |[-> |[-> |Hi]]]; [| | |eauto]; compute in Hc; exfalso; intuition congruence. }
    psplit.
    - apply U_join. apply Forall_forall. intros s Hs. destruct (G s Hs) as [-> |[-> |[-> |Hi]]].
      + repeat apply U_char; auto using U_nil.
      + repeat apply U_char; auto using U_nil.
      + apply U_nil.
      + rewrite Forall_forall in US. auto.
    - unfold pr. destruct R3 as [(n & t & E & Hn & H)|[E|(m & x & t & E1 & E2 & E3)]].
      + rewrite E. destruct (plain_repeat_join n t Hn) as (r & ->). exists 46, r. split; auto. discriminate.
      + rewrite E. exists 46, [47]. split; [reflexivity|discriminate].
      + rewrite E2. assert (X : x <> []).
        { intros ->. apply (NI m [] t E1 (E3 eq_refl)). reflexivity. }
        destruct x as [|c x]; [congruence|]. exists c. destruct t as [|y t].
        * exists x. split; [reflexivity|]. intros ->. rewrite Forall_forall in FU'.
          destruct (FU' (47 :: x)) as (F & _); [rewrite E1; apply in_or_app; right; left; auto|]. apply F. left; auto.
        * exists (x ++ 47 :: join_on 47 (y :: t)). split; [reflexivity|]. intros ->. rewrite Forall_forall in FU'.
          destruct (FU' (47 :: x)) as (F & _); [rewrite E1; apply in_or_app; right; left; auto|]. apply F. left; auto.
    - intros H. apply GC in H; try discriminate. auto.
    - intros H. apply GC in H; try discriminate. auto.
    - apply Forall_forall. intros s Hs. destruct (G s Hs) as [-> |[-> |[-> |Hi]]]; try (compute; intuition discriminate).
      rewrite Forall_forall in FU'. apply FU'; auto. }
  assert (MR : make_rel_path_abs (path_of su) (path_of sb) = Ok pr).
  { unfold make_rel_path_abs. rewrite !split_path_of by auto. cbn [rbind]. rewrite normalize_plain by auto. cbn [rbind].
    rewrite normalize_plain by auto. reflexivity. }
  assert (REL : relative u b = from_octets (pr ++ opt_part (lit "?") (query (hr u)) ++ opt_part (lit "#") (fragment u))).
  { unfold relative. rewrite OPU, PU, PB, EA, ES.
    assert (A : ostr_eqb (authority (hr b)) (authority (hr b)) = true).
    { destruct (authority (hr b)); cbn; auto. apply str_eqb_refl. }
    rewrite A, MR.
    destruct (scheme b); rewrite ?str_eqb_refl; destruct (authority (hr b)); reflexivity. }
  assert (TEXT : to_str u = (match scheme b with Some s => s ++ lit ":" | None => [] end) ++
      opt_part (lit "//") (authority (hr b)) ++ path_of su ++
      opt_part (lit "?") (query (hr u)) ++ opt_part (lit "#") (fragment u)).
  { rewrite <- RU. unfold recompose, parts_of. cbn [p_scheme p_opaque p_auth p_abs p_rel p_query p_frag].
    rewrite OPU, PU, RPU, <- EA, <- ES, !opt_part_text. cbn [opt_text app].
    rewrite app_nil_r. destruct (scheme u); reflexivity. }
  destruct RC as [(P0 & SE)|(D & R1 & UP & (c & r' & EP & C47) & P58 & P63 & P47)].
  - destruct (EQ SE) as (Q1 & Q2). rewrite REL, P0, Q1.
    destruct (rel_ref [] None (fragment u)) as (r & H1 & H2); auto using U_nil; try tauto; try discriminate.
    { intros (? & ?); discriminate. }
    cbn [app opt_part] in H1 |- *. exists r. rewrite H1.
    assert (E1 : scheme r = None) by (apply (f_equal p_scheme) in H2; exact H2).
    assert (E2 : authority (hr r) = None) by (apply (f_equal p_auth) in H2; exact H2).
    assert (E3 : abs_path (hr r) = None) by (apply (f_equal p_abs) in H2; exact H2).
    assert (E4 : rel_path (hr r) = Some []) by (apply (f_equal p_rel) in H2; exact H2).
    assert (E5 : query (hr r) = None) by (apply (f_equal p_query) in H2; exact H2).
    assert (E6 : fragment r = fragment u) by (apply (f_equal p_frag) in H2; exact H2).
    psplit; auto. unfold resolve. rewrite E1, E2, E3, E4, E5, E6. cbn [truthy orb negb andb].
    rewrite <- TU. f_equal. rewrite TEXT, Q1. cbn [opt_part app]. rewrite !app_assoc. f_equal.
    assert (TO : to_str b = octets b ++ opt_part (lit "#") (fragment b)).
    { unfold to_str. destruct (fragment b); cbn; rewrite ?app_nil_r; reflexivity. }
    assert (TB2 : to_str b = ((match scheme b with Some s => s ++ lit ":" | None => [] end) ++
      opt_part (lit "//") (authority (hr b)) ++ path_of sb) ++ opt_part (lit "#") (fragment b)).
    { rewrite <- RB. unfold recompose, parts_of. cbn [p_scheme p_opaque p_auth p_abs p_rel p_query p_frag].
      rewrite OPB, PB, RPB, Q2, !opt_part_text. cbn [opt_text app].
      rewrite app_nil_r, <- !app_assoc. destruct (scheme b); reflexivity. }
    rewrite TO in TB2. apply app_inv_tail in TB2. rewrite TB2, SE, <- !app_assoc. reflexivity.
  - rewrite REL. destruct (rel_ref pr (query (hr u)) (fragment u)) as (r & H1 & H2); auto.
    { intros (? & E). rewrite EP in E. congruence. }
    exists r. rewrite H1.
    assert (E1 : scheme r = None) by (apply (f_equal p_scheme) in H2; exact H2).
    assert (E2 : authority (hr r) = None) by (apply (f_equal p_auth) in H2; exact H2).
    assert (E3 : abs_path (hr r) = None) by (apply (f_equal p_abs) in H2; exact H2).
    assert (E4 : rel_path (hr r) = Some pr) by (apply (f_equal p_rel) in H2; exact H2).
    assert (E5 : query (hr r) = query (hr u)) by (apply (f_equal p_query) in H2; exact H2).
    assert (E6 : fragment r = fragment u) by (apply (f_equal p_frag) in H2; exact H2).
    psplit; auto. unfold resolve. rewrite E1, E2, E3, E4, E5, E6, PB. rewrite EP. cbn [truthy orb negb andb].
    rewrite split_path_of by auto. cbn [rbind].
    assert (SP : split_path (Some (c :: r')) false = Ok rs).
    { cbn [split_path]. rewrite <- EP. unfold pr. rewrite split_join; auto. }
    match goal with |- context [split_path ?x false] => replace (split_path x false) with (Ok rs) by (symmetry; exact SP) end.
    cbn [rbind]. rewrite normalize_nf. cbn [rbind].
    destruct RS as [RS|(_ & RS)]; [congruence|]. rewrite RS, <- path_join by auto.
    cbn [opt_part]. rewrite <- TU, TEXT. reflexivity.
Qed.
