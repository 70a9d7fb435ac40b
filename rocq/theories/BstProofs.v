(** Proofs for C36. *)
From Verif Require Import Py BstModel BstSpec.
From Coq Require Import Permutation Arith.

(** ** Equality of lists by their elements *)
Lemma nth_firstn : forall n (l : str) i, nth i (firstn n l) 0 = if (i <? n)%nat then nth i l 0 else 0.
Proof.
  induction n; intros l i; cbn.
  - destruct i; reflexivity.
  - destruct l as [|x l]; cbn.
    + destruct i; [reflexivity|]. change (0 = if (S i <? S n)%nat then 0 else 0). destruct (S i <? S n)%nat; reflexivity.
    + destruct i; [reflexivity|]. rewrite IHn. reflexivity.
Qed.
Lemma nth_skipn : forall n (l : str) i, nth i (skipn n l) 0 = nth (n + i) l 0.
Proof.
  induction n; intros l i; [reflexivity|]. destruct l; cbn; [destruct i; reflexivity|]. apply IHn.
Qed.
Lemma nth_app : forall (a b : str) i, nth i (a ++ b) 0 = if (i <? length a)%nat then nth i a 0 else nth (i - length a) b 0.
Proof.
  intros a b i. destruct (i <? length a)%nat eqn:E; b2p; [apply app_nth1 | apply app_nth2]; lia.
Qed.
Lemma nth_rep : forall n i, nth i (repeat 0 n) 0 = 0.
Proof. intros n i. apply nth_repeat. Qed.
Lemma list_ext : forall (a b : str), length a = length b -> (forall i, (i < length a)%nat -> nth i a 0 = nth i b 0) -> a = b.
Proof. intros a b. apply nth_ext. Qed.
#[global] Hint Rewrite nth_firstn nth_skipn nth_app nth_rep : nths.
#[global] Hint Rewrite firstn_length skipn_length app_length repeat_length : lens.

Ltac lens := repeat (progress autorewrite with lens in * ).
Ltac nths :=
  repeat (progress (autorewrite with nths));
  repeat (progress (autorewrite with lens));
  repeat match goal with
  | |- context [Nat.ltb ?a ?b] => destruct (Nat.ltb a b) eqn:?; b2p; try lia
  end;
  repeat match goal with
  | |- context [nth ?i ?l 0] => rewrite (nth_overflow l 0 (n := i)) by (autorewrite with lens; lia)
  end;
  try (f_equal; lia).
Ltac lsolve := apply list_ext; [autorewrite with lens; lia | intros ? ?; autorewrite with lens in *; nths].

Section Bst.
  Variable digest : str -> str.
  Variable bs : nat.
  Hypothesis Hbs : (0 < bs)%nat.
  Notation chunk := (chunk bs).

  Lemma divmod : forall q, (q = (q / bs) * bs + q mod bs /\ q mod bs < bs)%nat.
  Proof.
    intros q. pose proof (Nat.div_mod q bs ltac:(lia)). pose proof (Nat.mod_upper_bound q bs ltac:(lia)).
    rewrite (Nat.mul_comm (q / bs)). lia.
  Qed.

  Lemma padded_eq : forall d, padded bs d = d ++ repeat 0 (bs - length d).
  Proof. intros d. unfold padded. f_equal. lsolve. Qed.

  (** what is stored, with the stream's list of blocks *)
  Definition held (blocks : list (option nat)) (rows : list row) (cf : str) : Prop :=
    (forall i, (i * bs < length cf)%nat -> exists id, nth_error blocks i = Some (Some id)
                 /\ nth_error rows id = Some (mkRow (Z.of_nat i) (chunk i cf)))
    /\ (forall i id, nth_error blocks i = Some (Some id) -> (i * bs < length cf)%nat)
    /\ (forall id, (id < length rows)%nat -> exists i, nth_error blocks i = Some (Some id)).

  Definition btop (c : str) (k : nat) : nat := if (length c / bs =? k)%nat then (length c mod bs)%nat else bs.

  Lemma btop_of_eq : forall c k, btop_of bs (length c) (Z.of_nat k) = btop c k.
  Proof.
    intros c k. unfold btop_of, btop.
    destruct (Z.of_nat (length c / bs) =? Z.of_nat k) eqn:E, (length c / bs =? k)%nat eqn:E2; b2p; auto; lia.
  Qed.

  Lemma le_div : forall k n, (k <= n / bs <-> k * bs <= n)%nat.
  Proof.
    intros k n. pose proof (divmod n). split; intros H1.
    - nia.
    - destruct (Nat.le_gt_cases k (n / bs)); [assumption|]. nia.
  Qed.
  Lemma div_q : forall k b, (b < bs)%nat -> ((k * bs + b) / bs = k /\ (k * bs + b) mod bs = b)%nat.
  Proof.
    intros k b Hb. split.
    - rewrite Nat.div_add_l by lia. rewrite Nat.div_small by lia. lia.
    - rewrite Nat.add_comm, Nat.mod_add by lia. apply Nat.mod_small. lia.
  Qed.

  Lemma btop_chunk : forall c k, (k * bs <= length c)%nat -> btop c k = length (chunk k c).
  Proof.
    intros c k Hk. unfold btop, BstSpec.chunk. autorewrite with lens.
    pose proof (divmod (length c)) as [E1 E2]. destruct (length c / bs =? k)%nat eqn:E; b2p.
    - subst k. lia.
    - assert (k + 1 <= length c / bs)%nat. { apply le_div in Hk. lia. }
      assert ((k + 1) * bs <= length c)%nat by (apply le_div; assumption). lia.
  Qed.

  Definition md5_ok (m : option (str * Z)) (cf : str) : Prop :=
    match m with
    | None => True
    | Some (acc, n) => acc = cf /\ exists k, n = Z.of_nat k /\ (length cf <= k * bs /\ k * bs < length cf + bs)%nat
    end.

  Definition pgood (p : pers) (cf : str) : Prop :=
    p_size p = length cf /\ (p_md5 p = None \/ p_md5 p = Some (digest cf)).

  Record inv (s : bst) (p : pers) (c : str) (q : nat) (cf : str) : Prop := mkI {
    i_size : b_size s = length c;
    i_pos : b_pos s = Z.of_nat q;
    i_num : b_num s = Z.of_nat (q / bs);
    i_bpos : b_bpos s = (q mod bs)%nat;
    i_top : b_top s = btop c (q / bs);
    i_le : ((q / bs) * bs <= length c)%nat;
    i_held : held (b_blocks s) (p_rows p) cf;
    i_pers : pgood p cf;
    i_md5 : md5_ok (b_md5 s) cf;
    i_data : match b_data s with
             | None => b_dirty s = false
             | Some d => (q / bs < length (b_blocks s))%nat
                         /\ d = if b_w s then padded bs (chunk (q / bs) c) else chunk (q / bs) c
             end;
    i_clean : b_dirty s = false -> c = cf;
    i_dirty : b_dirty s = true -> b_w s = true /\ (length cf <= length c)%nat
              /\ firstn ((q / bs) * bs) c = firstn ((q / bs) * bs) cf
              /\ skipn ((q / bs + 1) * bs) c = skipn ((q / bs + 1) * bs) cf }.

  Lemma py_index_ok : forall A (l : list A) k, (k < length l)%nat -> py_index l (Z.of_nat k) = Ok k.
  Proof.
    intros A l k H. unfold py_index.
    assert (E1 : (0 <=? Z.of_nat k) = true) by (apply Z.leb_le; lia).
    assert (E2 : (Z.of_nat k <? Z.of_nat (length l)) = true) by (apply Z.ltb_lt; lia).
    rewrite E1, E2. cbn. rewrite Nat2Z.id. reflexivity.
  Qed.

  Lemma chunk_other : forall k j c cf, (length cf <= length c)%nat ->
    firstn (k * bs) c = firstn (k * bs) cf -> skipn ((k + 1) * bs) c = skipn ((k + 1) * bs) cf ->
    j <> k -> chunk j c = chunk j cf.
  Proof.
    intros k j c cf Hl H1 H2 Hj. unfold BstSpec.chunk.
    destruct (Nat.lt_ge_cases j k) as [H|H].
    - assert (j * bs + bs <= k * bs)%nat by nia.
      assert (E : forall x : str, firstn bs (skipn (j * bs) x) = firstn bs (skipn (j * bs) (firstn (k * bs) x))).
      { intros x. lsolve. }
      rewrite (E c), (E cf), H1. reflexivity.
    - assert ((k + 1) * bs <= j * bs)%nat by nia.
      assert (E : forall x : str, firstn bs (skipn (j * bs) x) = firstn bs (skipn (j * bs - (k + 1) * bs) (skipn ((k + 1) * bs) x))).
      { intros x. lsolve. }
      rewrite (E c), (E cf), H2. reflexivity.
  Qed.

  Lemma chunk_pos : forall j c, (j * bs < length c)%nat <-> chunk j c <> nil.
  Proof.
    intros j c. unfold BstSpec.chunk. split; intros H.
    - intros E. apply (f_equal (@length Z)) in E. autorewrite with lens in E. cbn in E. lia.
    - destruct (Nat.lt_ge_cases (j * bs) (length c)); [assumption|]. exfalso. apply H.
      apply length_zero_iff_nil. autorewrite with lens. lia.
  Qed.

  Lemma held_blocks : forall blocks rows cf, held blocks rows cf -> forall i, (i * bs < length cf)%nat -> (i < length blocks)%nat.
  Proof.
    intros blocks rows cf (H1 & _) i Hi. destruct (H1 i Hi) as (id & H & _).
    apply nth_error_Some. congruence.
  Qed.

  Lemma flush_ok : forall s p c q cf, inv s p c q cf ->
    exists s' p', flush digest s p = Ok (s', p') /\ inv s' p' c q c
      /\ b_dirty s' = false /\ b_data s' = b_data s /\ b_r s' = b_r s /\ b_w s' = b_w s
      /\ b_size s' = b_size s /\ b_num s' = b_num s.
  Proof.
    intros s p c q cf I. pose proof I as I0. destruct I. unfold flush.
    destruct (b_dirty s) eqn:Ed.
    2:{ exists s, p. pose proof (i_clean0 eq_refl). subst cf. split; [reflexivity|]. split; [exact I0|]. repeat split; auto. }
    destruct (b_data s) as [buf|] eqn:Eb; [|discriminate].
    destruct i_data0 as [Hk Hbuf]. destruct (i_dirty0 eq_refl) as (Hw & Hlen & Hf & Hs).
    rewrite Hw in Hbuf. set (k := (q / bs)%nat) in *.
    assert (Hdata : firstn (b_top s) buf = chunk k c).
    { subst buf. rewrite i_top0, padded_eq, btop_chunk by assumption.
      rewrite firstn_app, Nat.sub_diag, firstn_all, firstn_O, app_nil_r. reflexivity. }
    rewrite Hdata. destruct (chunk k c) as [|x t] eqn:Ec.
    - (* nothing in the block *)
      assert (Hcc : c = cf).
      { assert (length c <= k * bs)%nat.
        { destruct (Nat.lt_ge_cases (k * bs) (length c)) as [H|H]; [|assumption].
          apply chunk_pos in H. congruence. }
        rewrite <- (firstn_all2 c (n := (k * bs)%nat)), Hf by assumption. apply firstn_all2. lia. }
      cbn [rbind]. eexists _, _. split; [reflexivity|]. cbn. rewrite <- Hcc in *.
      split; [|repeat split; auto].
      constructor; cbn; auto.
      + split; [cbn; assumption|]. cbn. destruct (b_md5 s) as [[acc n]|]; [|left; reflexivity].
        right. destruct i_md6 as [-> _]. reflexivity.
      + fold k. rewrite Hw, Ec. auto.
    - rewrite <- Ec in *. rewrite i_num0, py_index_ok by assumption. cbn [rbind]. fold k.
      destruct (nth_error (b_blocks s) k) as [b|] eqn:Enb.
      2:{ apply nth_error_None in Enb. lia. }
      unfold get. rewrite Enb. cbn [rbind].
      destruct i_held0 as (H1 & H2 & H3).
      assert (Hkc : (k * bs < length c)%nat) by (apply chunk_pos; congruence).
      set (md5 := match b_md5 s with Some (acc, n) => if Z.of_nat k =? n then Some (acc ++ chunk k c, n + 1) else None | None => None end).
      assert (Hmd : md5_ok md5 c /\ (match md5 with Some (acc, _) => Some (digest acc) | None => None end = None
                     \/ match md5 with Some (acc, _) => Some (digest acc) | None => None end = Some (digest c))).
      { unfold md5. destruct (b_md5 s) as [[acc n]|]; [|cbn; auto].
        destruct i_md6 as [-> (m & -> & Hm1 & Hm2)].
        destruct (Z.of_nat k =? Z.of_nat m) eqn:Ek; [|cbn; auto]. b2p. assert (k = m) by lia. subst m.
        assert (Hcat : cf ++ chunk k c = c).
        { assert (Hcf : length cf = (k * bs)%nat).
          { apply (f_equal (@length Z)) in Hf. rewrite !firstn_length in Hf. nia. }
          assert (Hc2 : (length c <= (k + 1) * bs)%nat).
          { apply (f_equal (@length Z)) in Hs. rewrite !skipn_length in Hs. lia. }
          rewrite (firstn_all2 cf) in Hf by lia. rewrite <- Hf.
          unfold BstSpec.chunk. lsolve. }
        rewrite Hcat. split; [|right; reflexivity]. cbn. split; [reflexivity|].
        exists (k + 1)%nat. split; [lia|].
        assert (length c <= (k + 1) * bs)%nat.
        { apply (f_equal (@length Z)) in Hcat. rewrite app_length in Hcat. unfold BstSpec.chunk in Hcat.
          autorewrite with lens in Hcat. nia. }
        nia. }
      destruct Hmd as [Hmd1 Hmd2].
      assert (Hnew : forall blocks rows id, length blocks = length (b_blocks s) ->
                nth_error blocks k = Some (Some id) ->
                nth_error rows id = Some (mkRow (Z.of_nat k) (chunk k c)) ->
                (forall i, i <> k -> nth_error blocks i = nth_error (b_blocks s) i) ->
                (forall i, i <> id -> (i < length (p_rows p))%nat -> nth_error rows i = nth_error (p_rows p) i) ->
                (forall i, (i < length rows)%nat -> i = id \/ (i < length (p_rows p))%nat) ->
                (nth_error (b_blocks s) k = Some (Some id) \/ (nth_error (b_blocks s) k = Some None /\ id = length (p_rows p))) ->
                held blocks rows c).
      { intros blocks rows id Hbl Hb Hr Hb' Hr' Hlr Hid. split; [|split].
        - intros i Hi. destruct (Nat.eq_dec i k) as [->|Hik]; [exists id; auto|].
          assert (Hci : chunk i c = chunk i cf) by (apply chunk_other with (k := k); assumption).
          assert (Hicf : (i * bs < length cf)%nat) by (apply chunk_pos; rewrite <- Hci; apply chunk_pos; assumption).
          destruct (H1 i Hicf) as (id' & Ha & Hc). exists id'. rewrite Hb' by assumption. split; [assumption|].
          rewrite Hci.
          assert (id' < length (p_rows p))%nat by (apply nth_error_Some; congruence).
          rewrite Hr'; [assumption| |assumption]. intros ->. destruct Hid as [Hid|[_ Hid]]; [|lia].
          destruct (H1 k (H2 _ _ Hid)) as (id2 & Hd1 & Hd2). rewrite Hid in Hd1. inversion Hd1; subst id2.
          rewrite Hc in Hd2. inversion Hd2. lia.
        - intros i id' Hi. destruct (Nat.eq_dec i k) as [->|Hik]; [assumption|].
          rewrite Hb' in Hi by assumption. pose proof (H2 _ _ Hi). lia.
        - intros id' Hid'. destruct (Nat.eq_dec id' id) as [->|Hne]; [exists k; assumption|].
          destruct (Hlr _ Hid') as [|Hold]; [contradiction|].
          destruct (H3 _ Hold) as (i & Hi). destruct (Nat.eq_dec i k) as [->|Hik].
          + destruct Hid as [Hid|[Hid _]]; congruence.
          + exists i. rewrite Hb' by assumption. assumption. }
      destruct b as [id|].
      + eexists _, _. split; [reflexivity|]. cbn. split; [|repeat split; auto].
        constructor; cbn; fold k; auto.
        * apply Hnew with (id := id); auto.
          -- destruct (H1 k (H2 _ _ Enb)) as (id2 & Hd1 & Hd2). rewrite Enb in Hd1. inversion Hd1; subst id2.
             apply nth_error_set_nth_eq. apply nth_error_Some. congruence.
          -- intros i Hi _. apply nth_error_set_nth_ne. auto.
          -- rewrite set_nth_length. auto.
        * split; [assumption|]. cbn. assumption.
        * rewrite Hw. auto.
      + eexists _, _. split; [reflexivity|]. cbn. split; [|repeat split; auto].
        constructor; cbn; fold k; auto.
        * apply Hnew with (id := length (p_rows p)); auto.
          -- apply set_nth_length.
          -- apply nth_error_set_nth_eq. assumption.
          -- rewrite nth_error_app2, Nat.sub_diag by lia. reflexivity.
          -- intros i Hi. apply nth_error_set_nth_ne. auto.
          -- intros i Hi Hl. apply nth_error_app1. assumption.
          -- intros i Hi. rewrite app_length in Hi. cbn in Hi. lia.
        * split; [assumption|]. cbn. assumption.
        * rewrite Hw, set_nth_length. auto.
  Qed.

  Lemma z_div : forall q, Z.of_nat q / Z.of_nat bs = Z.of_nat (q / bs).
  Proof. intros q. rewrite Nat2Z.inj_div. reflexivity. Qed.
  Lemma z_mod : forall q, Z.to_nat (Z.of_nat q mod Z.of_nat bs) = (q mod bs)%nat.
  Proof. intros q. rewrite <- Nat2Z.inj_mod, Nat2Z.id. reflexivity. Qed.

  Lemma seek_ok : forall s p c q cf t, inv s p c q cf -> ((t / bs) * bs <= length c)%nat ->
    exists s' p' cf', seek_to digest bs s p (Z.of_nat t) = Ok (s', p') /\ inv s' p' c t cf'
      /\ b_r s' = b_r s /\ b_w s' = b_w s.
  Proof.
    intros s p c q cf t I Ht. unfold seek_to. rewrite z_div, z_mod.
    destruct (Z.of_nat (t / bs) =? b_num s) eqn:E; b2p.
    - cbn [rbind]. destruct I. assert (Et : (t / bs = q / bs)%nat) by lia.
      eexists _, _, cf. split; [reflexivity|]. split; [|cbn; auto].
      constructor; cbn; try rewrite Et; auto.
      rewrite i_size0, i_num0. apply btop_of_eq.
    - destruct (flush_ok _ _ _ _ _ I) as (s1 & p1 & -> & I1 & F1 & F2 & F3 & F4 & F5 & F6). cbn [rbind].
      destruct I1. eexists _, _, c. split; [reflexivity|]. split; [|cbn; auto].
      constructor; cbn; auto.
      + rewrite i_size0. apply btop_of_eq.
      + intros; congruence.
  Qed.

  Lemma load_ok : forall s p c q cf, inv s p c q cf -> (q mod bs < b_top s)%nat ->
    exists s1 d, load bs s p (b_w s) = Ok (s1, d) /\ inv s1 p c q cf
      /\ d = (if b_w s then padded bs (chunk (q / bs) c) else chunk (q / bs) c)
      /\ b_r s1 = b_r s /\ b_w s1 = b_w s /\ b_data s1 = Some d /\ b_pos s1 = b_pos s /\ b_bpos s1 = b_bpos s
      /\ b_blocks s1 = b_blocks s /\ b_top s1 = b_top s /\ b_size s1 = b_size s /\ b_num s1 = b_num s
      /\ b_md5 s1 = b_md5 s.
  Proof.
    intros s p c q cf I Hq. pose proof I as I0. destruct I. unfold load.
    destruct (b_data s) as [d|] eqn:Ed.
    - destruct i_data0 as [Hk ->]. eexists _, _. split; [reflexivity|]. split; [exact I0|]. repeat split; auto.
    - pose proof (i_clean0 i_data0). subst cf.
      assert (Hk : ((q / bs) * bs < length c)%nat).
      { apply chunk_pos. rewrite i_top0, btop_chunk in Hq by assumption. destruct (chunk (q / bs) c); [cbn in Hq; lia|discriminate]. }
      pose proof (held_blocks _ _ _ i_held0 _ Hk) as Hb.
      rewrite i_num0, py_index_ok by assumption. cbn [rbind].
      destruct i_held0 as (H1 & H2 & H3). destruct (H1 _ Hk) as (id & Ha & Hr).
      unfold get. rewrite Ha. cbn [rbind retrieve_block]. rewrite Hr. cbn [rbind r_data].
      eexists _, _. split; [reflexivity|]. split; [|cbn; repeat split; auto].
      constructor; cbn; auto. split; auto.
  Qed.

  Lemma read_ok : forall s p c q cf n, inv s p c q cf -> b_r s = true ->
    let k := Nat.min n (Nat.min (room bs q) (length c - q)) in
    exists s' p' cf', readinto digest bs s p n = Ok (s', p', firstn k (skipn q c)) /\ inv s' p' c (q + k) cf'
      /\ b_r s' = b_r s /\ b_w s' = b_w s.
  Proof.
    intros s p c q cf n I Hr k. unfold readinto. rewrite Hr. cbn [negb].
    pose proof I as I0. destruct I. pose proof (divmod q) as [Eq Hm].
    pose proof (btop_chunk c (q / bs) i_le0) as Htop. unfold BstSpec.chunk in Htop. autorewrite with lens in Htop.
    set (kq := (q / bs * bs)%nat) in *. set (m := (q mod bs)%nat) in *.
    unfold room in k. fold m in k. rewrite i_bpos0.
    assert (Hav : (b_top s - m = Nat.min (bs - m) (length c - q))%nat) by lia.
    destruct (b_top s - m =? 0)%nat eqn:E; b2p.
    - assert (k = 0%nat) by (subst k; lia). rewrite H, Nat.add_0_r. cbn [firstn].
      exists s, p, cf. split; [reflexivity|]. split; [exact I0|]. auto.
    - destruct (load_ok _ _ _ _ _ I0) as (s1 & d & -> & I1 & Hd & L1 & L2 & L3 & L4 & L5 & _). { fold m. lia. }
      cbn [rbind]. rewrite L5 || idtac.
      assert (Hk : Nat.min (b_top s - m) n = k) by (subst k; lia). rewrite Hk.
      assert (Hout : slice m (m + k) d = firstn k (skipn q c)).
      { unfold slice. replace (m + k - m)%nat with k by lia. subst d.
        assert (E1 : firstn k (skipn m (chunk (q / bs) c)) = firstn k (skipn q c)).
        { unfold BstSpec.chunk. fold kq. subst k. lsolve. }
        destruct (b_w s); [|exact E1]. rewrite <- E1, padded_eq.
        assert (m + k <= length (chunk (q / bs) c))%nat.
        { unfold BstSpec.chunk. fold kq. autorewrite with lens. subst k. lia. }
        rewrite skipn_app, firstn_app.
        replace (k - length (skipn m (chunk (q / bs) c)))%nat with O by (rewrite skipn_length; lia).
        rewrite firstn_O, app_nil_r. reflexivity. }
      rewrite Hout. unfold seek, target. rewrite (i_pos _ _ _ _ _ I1), <- Nat2Z.inj_add.
      destruct (seek_ok _ _ _ _ _ (q + k)%nat I1) as (s2 & p2 & cf2 & -> & I2 & R1 & R2).
      { apply le_div. apply Nat.div_le_mono; [lia|]. subst k. lia. }
      cbn [rbind]. exists s2, p2, cf2. split; [reflexivity|]. split; [exact I2|]. split; congruence.
  Qed.

  Lemma held_app : forall blocks rows cf, held blocks rows cf -> held (blocks ++ [None]) rows cf.
  Proof.
    intros blocks rows cf (H1 & H2 & H3).
    assert (K : forall i id, nth_error (blocks ++ [None]) i = Some (Some id) <-> nth_error blocks i = Some (Some id)).
    { intros i id. destruct (Nat.lt_ge_cases i (length blocks)) as [H|H].
      - rewrite nth_error_app1 by assumption. tauto.
      - rewrite nth_error_app2 by assumption. split; intros Hx.
        + destruct (i - length blocks)%nat as [|[|]]; cbn in Hx; discriminate.
        + assert (i < length blocks)%nat by (apply nth_error_Some; congruence). lia. }
    split; [|split].
    - intros i Hi. destruct (H1 i Hi) as (id & Ha & Hb). exists id. rewrite K. auto.
    - intros i id Hi. apply K in Hi. eauto.
    - intros id Hid. destruct (H3 id Hid) as (i & Hi). exists i. rewrite K. exact Hi.
  Qed.

  Lemma chunk_length : forall k c, (length (chunk k c) <= bs)%nat.
  Proof. intros k c. unfold BstSpec.chunk. autorewrite with lens. lia. Qed.

  Lemma new_block_ok : forall s p c q cf, inv s p c q cf -> b_w s = true -> b_data s = None -> b_top s = O ->
    exists s1 p1, new_block digest bs s p = Ok (s1, p1)
      /\ inv s1 p1 (c ++ repeat 0 (q mod bs)) q c /\ length c = (q / bs * bs)%nat
      /\ b_data s1 = Some (repeat 0 bs) /\ b_r s1 = b_r s /\ b_w s1 = b_w s.
  Proof.
    intros s p c q cf I Hw Hd Ht. pose proof I as I0. destruct I.
    rewrite Hd in i_data0. pose proof (i_clean0 i_data0). subst cf.
    pose proof (divmod q) as [Eq Hm].
    assert (Hlen : length c = (q / bs * bs)%nat).
    { rewrite i_top0, btop_chunk in Ht by assumption. unfold BstSpec.chunk in Ht. autorewrite with lens in Ht. lia. }
    set (k := (q / bs)%nat) in *. set (m := (q mod bs)%nat) in *.
    assert (Hbl : (k <= length (b_blocks s))%nat).
    { destruct k as [|k']; [lia|]. assert (k' < length (b_blocks s))%nat; [|lia].
      eapply held_blocks; [exact i_held0|]. lia. }
    unfold new_block.
    replace (Z.to_nat (b_num s - Z.of_nat (length (b_blocks s)))) with O by lia. cbn [fill_blocks].
    unfold flush. cbn [b_dirty b_data b_top b_blocks b_num b_md5 b_r b_w b_size b_pos b_bpos p_rows p_size p_md5].
    rewrite Ht. cbn [firstn rbind b_dirty b_data b_top b_blocks b_num b_md5 b_r b_w b_size b_pos b_bpos p_rows p_size p_md5].
    assert (Hq : q = length (c ++ repeat 0 m)) by (rewrite app_length, repeat_length; lia).
    assert (Hc2 : chunk k (c ++ repeat 0 m) = repeat 0 m).
    { unfold BstSpec.chunk. rewrite <- Hlen, skipn_app, Nat.sub_diag, skipn_all, skipn_O. cbn [app].
      apply firstn_all2. rewrite repeat_length. lia. }
    eexists _, _. split; [reflexivity|]. split; [|cbn; repeat split; auto].
    constructor; cbn; fold k; fold m; auto.
    - rewrite i_pos0, Nat2Z.id. exact Hq.
    - rewrite i_pos0, Nat2Z.id, i_num0, Hq at 1. apply btop_of_eq.
    - lia.
    - apply held_app. assumption.
    - split; [cbn; exact i_size0|]. cbn. destruct (b_md5 s) as [[acc n]|]; [|auto]. destruct i_md6 as [-> _]. auto.
    - split; [rewrite app_length; cbn; lia|]. rewrite Hw, Hc2, padded_eq, <- repeat_app, repeat_length. f_equal. lia.
    - rewrite i_bpos0. intros Hx. b2p. rewrite Hx. cbn. apply app_nil_r.
    - intros _. split; [assumption|]. rewrite app_length, repeat_length. split; [lia|]. split.
      + rewrite firstn_app. replace (k * bs - length c)%nat with O by lia. rewrite firstn_O, app_nil_r. reflexivity.
      + rewrite !skipn_all2; [reflexivity|lia|rewrite app_length, repeat_length; lia].
  Qed.

  Lemma overwrite_length : forall c q v, length (overwrite c q v) = Nat.max (length c) (q + length v).
  Proof using. clear. intros c q v. unfold overwrite. autorewrite with lens. lia. Qed.

  Lemma overwrite_pad : forall c q m v, (length c + m)%nat = q -> overwrite (c ++ repeat 0 m) q v = overwrite c q v.
  Proof.
    intros c q m v H. unfold overwrite. autorewrite with lens. f_equal.
    - lsolve.
    - f_equal. rewrite !skipn_all2; autorewrite with lens; auto; lia.
  Qed.

  Lemma nth_overwrite : forall c q v i, nth i (overwrite c q v) 0
    = if (i <? q)%nat then nth i c 0 else if (i <? q + length v)%nat then nth (i - q) v 0 else nth i c 0.
  Proof using. clear.
    intros c q v i. unfold overwrite.
    assert (El : length (firstn q (c ++ repeat 0 (q - length c))) = q) by (autorewrite with lens; lia).
    rewrite nth_app, El, nth_firstn. destruct (i <? q)%nat eqn:E1; b2p.
    - rewrite nth_app, nth_rep. destruct (i <? length c)%nat eqn:E2; b2p; [reflexivity|].
      rewrite nth_overflow by lia. reflexivity.
    - rewrite nth_app, nth_skipn. destruct (i - q <? length v)%nat eqn:E2, (i <? q + length v)%nat eqn:E3; b2p; try lia; f_equal; lia.
  Qed.

  Lemma padded_chunk_length : forall k c, length (padded bs (chunk k c)) = bs.
  Proof. intros k c. rewrite padded_eq, app_length, repeat_length. pose proof (chunk_length k c). lia. Qed.

  Lemma nth_padded_chunk : forall k c i, (i < bs)%nat -> nth i (padded bs (chunk k c)) 0 = nth (k * bs + i) c 0.
  Proof.
    intros k c i Hi. rewrite padded_eq, nth_app, nth_rep. unfold BstSpec.chunk.
    rewrite nth_firstn, nth_skipn. autorewrite with lens.
    destruct (i <? Nat.min bs (length c - k * bs))%nat eqn:E1, (i <? bs)%nat eqn:E2; b2p; try lia; try reflexivity.
    rewrite nth_overflow by lia. reflexivity.
  Qed.

  Lemma write_block : forall s p c q cf v, inv s p c q cf -> b_w s = true ->
    b_data s <> None -> (length v <= room bs q)%nat -> (v <> nil \/ (q <= length c)%nat) ->
    forall d size top, b_data s = Some d ->
    size = length (overwrite c q v) -> top = btop (overwrite c q v) (q / bs) ->
    inv (mkB (b_r s) (b_w s) size (b_pos s)
             (Some (slice_assign (q mod bs) (q mod bs + length v) v d)) true (b_num s) (b_bpos s)
             top (b_md5 s) (b_blocks s)) p (overwrite c q v) q cf.
  Proof.
    intros s p c q cf v I Hw _ Hv Hne d size top Hd -> ->. destruct I.
    rewrite Hd in i_data0. destruct i_data0 as [Hk Hdd]. rewrite Hw in Hdd.
    pose proof (divmod q) as [Eq Hm]. unfold room in Hv.
    set (k := (q / bs)%nat) in *. set (m := (q mod bs)%nat) in *.
    assert (Hl1 : (length cf <= length c)%nat /\ firstn (k * bs) c = firstn (k * bs) cf
                  /\ skipn ((k + 1) * bs) c = skipn ((k + 1) * bs) cf).
    { destruct (b_dirty s); [destruct (i_dirty0 eq_refl) as (_ & ?); auto|]. rewrite (i_clean0 eq_refl). auto. }
    destruct Hl1 as (Hl & Hf & Hs).
    constructor; cbn; fold k; fold m; auto.
    - rewrite overwrite_length. lia.
    - split; [assumption|]. rewrite Hw. subst d.
      assert (Hls : length (slice_assign m (m + length v) v (padded bs (chunk k c))) = bs).
      { unfold slice_assign. autorewrite with lens. rewrite padded_chunk_length. lia. }
      apply list_ext; [rewrite Hls, padded_chunk_length; reflexivity|].
      intros i Hi. rewrite Hls in Hi. rewrite nth_padded_chunk, nth_overwrite by assumption.
      unfold slice_assign. rewrite nth_app, nth_firstn, firstn_length, padded_chunk_length, nth_app, nth_skipn.
      rewrite Nat.min_l by lia. rewrite Nat.max_r by lia.
      destruct (i <? m)%nat eqn:E1; b2p.
      + rewrite nth_padded_chunk by lia.
        destruct (k * bs + i <? q)%nat eqn:E2; b2p; [reflexivity|lia].
      + destruct (k * bs + i <? q)%nat eqn:E2; b2p; [lia|].
        destruct (i - m <? length v)%nat eqn:E3, (k * bs + i <? q + length v)%nat eqn:E4; b2p; try lia.
        * f_equal. lia.
        * rewrite nth_padded_chunk by lia. f_equal. lia.
    - discriminate.
    - intros _. split; [assumption|]. rewrite overwrite_length. split; [lia|]. split.
      + rewrite <- Hf. apply list_ext; [rewrite !firstn_length, overwrite_length; lia|].
        intros i Hi. rewrite firstn_length in Hi. rewrite !nth_firstn, nth_overwrite.
        destruct (i <? k * bs)%nat eqn:E1, (i <? q)%nat eqn:E2; b2p; try lia; reflexivity.
      + rewrite <- Hs. apply list_ext; [rewrite !skipn_length, overwrite_length; lia|].
        intros i Hi. rewrite !nth_skipn, nth_overwrite.
        destruct ((k + 1) * bs + i <? q)%nat eqn:E1, ((k + 1) * bs + i <? q + length v)%nat eqn:E2; b2p; try lia; reflexivity.
  Qed.

  Lemma write_ok : forall s p c q cf b, inv s p c q cf -> b_w s = true ->
    let v := firstn (room bs q) b in
    (v <> nil \/ (q <= length c)%nat) ->
    exists s' p' cf', write digest bs s p b = Ok (s', p', length v) /\ inv s' p' (overwrite c q v) (q + length v) cf'
      /\ b_r s' = b_r s /\ b_w s' = b_w s.
  Proof.
    intros s p c q cf b I Hw v Hv. unfold write. rewrite Hw. cbn [negb].
    pose proof (divmod q) as [Eq Hm].
    assert (Hst : exists s1 p1 d c1 cf1,
      match b_data s with
      | Some d => Ok (s, p, d)
      | None =>
          if (b_top s =? 0)%nat
          then let! (s1, p1) := new_block digest bs s p in Ok (s1, p1, repeat 0 bs)
          else let! (s1, d) := load bs s p true in Ok (s1, p, d)
      end = Ok (s1, p1, d) /\ inv s1 p1 c1 q cf1 /\ b_data s1 = Some d /\ b_r s1 = b_r s /\ b_w s1 = b_w s
      /\ overwrite c1 q v = overwrite c q v /\ (v <> nil \/ (q <= length c1)%nat)).
    { destruct (b_data s) as [d|] eqn:Ed.
      - exists s, p, d, c, cf. repeat (split; [reflexivity || assumption|]). assumption.
      - destruct (b_top s =? 0)%nat eqn:Et; b2p.
        + destruct (new_block_ok _ _ _ _ _ I Hw Ed Et) as (s1 & p1 & -> & I1 & Hl & D1 & R1 & W1). cbn [rbind].
          exists s1, p1, (repeat 0 bs), (c ++ repeat 0 (q mod bs)), c.
          split; [reflexivity|]. split; [exact I1|]. repeat (split; [assumption|]). split.
          * apply overwrite_pad. lia.
          * right. rewrite app_length, repeat_length. lia.
        + (* the block is stored *)
          pose proof I as I0. destruct I. rewrite Ed in i_data0. pose proof (i_clean0 i_data0). subst cf.
          assert (Hk : ((q / bs) * bs < length c)%nat).
          { apply chunk_pos. rewrite i_top0, btop_chunk in Et by assumption. destruct (chunk (q / bs) c); [cbn in Et; lia|discriminate]. }
          pose proof (held_blocks _ _ _ i_held0 _ Hk) as Hb.
          unfold load. rewrite Ed, i_num0, py_index_ok by assumption. cbn [rbind].
          destruct (proj1 i_held0 _ Hk) as (id & Ha & Hr).
          unfold get. rewrite Ha. cbn [rbind retrieve_block]. rewrite Hr. cbn [rbind r_data].
          exists (with_data s (padded bs (chunk (q / bs) c))), p, (padded bs (chunk (q / bs) c)), c, c.
          split; [reflexivity|]. split; [|cbn; auto 10].
          constructor; cbn; auto. rewrite Hw. auto. }
    destruct Hst as (s1 & p1 & d & c1 & cf1 & -> & I1 & D1 & R1 & W1 & Ho & Hv1). cbn [rbind].
    pose proof (i_bpos _ _ _ _ _ I) as Hbp. pose proof (i_bpos _ _ _ _ _ I1) as Hbp1.
    pose proof (i_pos _ _ _ _ _ I1) as Hp1. pose proof (i_size _ _ _ _ _ I1) as Hsz. pose proof (i_num _ _ _ _ _ I1) as Hnum.
    pose proof (i_top _ _ _ _ _ I1) as Htop.
    assert (Hlv : Nat.min (bs - b_bpos s) (length b) = length v).
    { subst v. rewrite firstn_length, Hbp. reflexivity. }
    rewrite Hlv.
    assert (Hfv : firstn (length v) b = v).
    { subst v. rewrite firstn_length. destruct (Nat.le_ge_cases (length b) (room bs q)) as [H|H].
      - rewrite Nat.min_r, !firstn_all2 by lia. reflexivity.
      - rewrite Nat.min_l by lia. reflexivity. }
    rewrite Hfv, Hbp1.
    assert (Hvr : (length v <= room bs q)%nat) by (subst v; rewrite firstn_length; lia).
    assert (E1 : (if b_pos s1 + Z.of_nat (length v) >? Z.of_nat (b_size s1) then Z.to_nat (b_pos s1 + Z.of_nat (length v)) else b_size s1)
                 = length (overwrite c1 q v)).
    { rewrite overwrite_length, Hp1, Hsz. destruct (Z.of_nat q + Z.of_nat (length v) >? Z.of_nat (length c1)) eqn:E; b2p.
      - lia.
      - assert (v = nil -> length v = 0)%nat by (intros ->; reflexivity). lia. }
    assert (E2 : (if b_pos s1 + Z.of_nat (length v) >? Z.of_nat (b_size s1)
                  then btop_of bs (length (overwrite c1 q v)) (b_num s1) else b_top s1)
                 = btop (overwrite c1 q v) (q / bs)).
    { destruct (b_pos s1 + Z.of_nat (length v) >? Z.of_nat (b_size s1)) eqn:E.
      - rewrite Hnum. apply btop_of_eq.
      - rewrite Htop. unfold btop. rewrite <- E1, Hsz. reflexivity. }
    rewrite E1, E2.
    pose proof (write_block s1 p1 c1 q cf1 v I1 ltac:(congruence) ltac:(congruence) Hvr Hv1 d _ _ D1 eq_refl eq_refl) as I2.
    rewrite Hbp1 in I2.
    destruct (seek_ok _ _ _ _ _ (q + length v)%nat I2) as (s3 & p3 & cf3 & Hs3 & I3 & R3 & W3).
    { apply le_div. apply Nat.div_le_mono; [lia|]. rewrite overwrite_length. lia. }
    unfold seek, target. cbn [b_pos]. rewrite Hp1, <- Nat2Z.inj_add. rewrite Hp1 in Hs3. rewrite Hs3. cbn [rbind].
    exists s3, p3, cf3. split; [reflexivity|]. rewrite <- Ho. split; [exact I3|]. cbn in R3, W3. split; congruence.
  Qed.
End Bst.
