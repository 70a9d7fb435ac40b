(** Opening a stored stream, and what flush leaves in the tables (C36). *)
From Verif Require Import Py BstModel BstSpec BstProofs.
From Coq Require Import Permutation Arith Sorted.

Lemma insert_row_perm : forall x l, Permutation (insert_row x l) (x :: l).
Proof.
  intros x l. induction l as [|y t IH]; cbn; [reflexivity|].
  destruct (r_num (snd x) <=? r_num (snd y)); [reflexivity|].
  rewrite IH. apply perm_swap.
Qed.
Lemma sort_rows_perm : forall l, Permutation (sort_rows l) l.
Proof.
  induction l as [|x t IH]; cbn; [reflexivity|]. unfold sort_rows in *. cbn. rewrite insert_row_perm, IH. reflexivity.
Qed.

Definition rle (x y : nat * row) : Prop := r_num (snd x) <= r_num (snd y).
Lemma insert_row_sorted : forall x l, StronglySorted rle l -> StronglySorted rle (insert_row x l).
Proof.
  intros x l. induction l as [|y t IH]; intros S; cbn.
  - constructor; constructor.
  - destruct (r_num (snd x) <=? r_num (snd y)) eqn:E; b2p.
    + constructor; [assumption|]. inversion S; subst. constructor; [exact E|].
      rewrite Forall_forall in *. intros z Hz. specialize (H2 z Hz). unfold rle in *. lia.
    + inversion S; subst. constructor; [auto|].
      rewrite Forall_forall in *. intros z Hz. rewrite insert_row_perm in Hz. destruct Hz as [<-|Hz]; [unfold rle; lia|auto].
Qed.
Lemma sort_rows_sorted : forall l, StronglySorted rle (sort_rows l).
Proof. induction l; cbn; [constructor|]. apply insert_row_sorted. assumption. Qed.

Lemma sorted_unique : forall l1 l2 : list Z, StronglySorted Z.le l1 -> StronglySorted Z.le l2 -> Permutation l1 l2 -> l1 = l2.
Proof.
  induction l1 as [|x l1 IH]; intros l2 S1 S2 P.
  - symmetry. apply Permutation_nil. assumption.
  - destruct l2 as [|y l2]; [apply Permutation_sym, Permutation_nil in P; discriminate|].
    inversion S1 as [|? ? S1' F1]; subst. inversion S2 as [|? ? S2' F2]; subst.
    rewrite Forall_forall in *.
    assert (x = y).
    { assert (Hx : In x (y :: l2)) by (rewrite <- P; left; reflexivity).
      assert (Hy : In y (x :: l1)) by (rewrite P; left; reflexivity).
      destruct Hx as [|Hx]; [congruence|]. destruct Hy as [|Hy]; [congruence|].
      specialize (F1 y Hy). specialize (F2 x Hx). lia. }
    subst y. f_equal. apply IH; auto. eapply Permutation_cons_inv. exact P.
Qed.

Lemma seq_sorted : forall n a, StronglySorted Z.le (map Z.of_nat (seq a n)).
Proof.
  induction n; intros a; cbn; constructor; auto.
  rewrite Forall_forall. intros z Hz. apply in_map_iff in Hz as (i & <- & Hi). apply in_seq in Hi. lia.
Qed.
Lemma sorted_map : forall l, StronglySorted rle l -> StronglySorted Z.le (map (fun x => r_num (snd x)) l).
Proof.
  induction 1; cbn; constructor; auto. rewrite Forall_forall in *. intros z Hz.
  apply in_map_iff in Hz as (y & <- & Hy). apply H0. assumption.
Qed.

Lemma in_combine_seq : forall (l : list row) a id x, In (id, x) (combine (seq a (length l)) l) <->
  (a <= id)%nat /\ nth_error l (id - a) = Some x.
Proof.
  induction l as [|y l IH]; intros a id x; cbn.
  - split; [intros []|]. intros [_ H]. destruct (id - a)%nat; discriminate.
  - rewrite IH. split.
    + intros [E|[H1 H2]].
      * inversion E; subst. split; [lia|]. rewrite Nat.sub_diag. reflexivity.
      * split; [lia|]. destruct (id - a)%nat eqn:Ed; [lia|]. replace n with (id - S a)%nat by lia. exact H2.
    + intros [H1 H2]. destruct (id - a)%nat eqn:Ed.
      * left. inversion H2. f_equal. lia.
      * right. split; [lia|]. replace (id - S a)%nat with n by lia. exact H2.
Qed.
Lemma combine_nums : forall (l : list row) a, map (fun x => r_num (snd x)) (combine (seq a (length l)) l) = map r_num l.
Proof. induction l; intros a'; cbn; [reflexivity|]. f_equal. apply IHl. Qed.

Section Open.
  Variable digest : str -> str.
  Variable bs : nat.
  Hypothesis Hbs : (0 < bs)%nat.
  Notation chunk := (chunk bs).

  Lemma stored_held : forall p c, stored digest bs p c -> held bs (retrieve_blocklist (p_rows p)) (p_rows p) c.
  Proof.
    intros p c ((n & P & Hn) & _). set (rows := p_rows p) in *.
    unfold retrieve_blocklist. set (L := sort_rows (combine (seq 0 (length rows)) rows)).
    assert (PL : Permutation L (combine (seq 0 (length rows)) rows)) by apply sort_rows_perm.
    assert (HL : map (fun x => r_num (snd x)) L = map Z.of_nat (seq 0 n)).
    { apply sorted_unique; [apply sorted_map, sort_rows_sorted | apply seq_sorted |].
      transitivity (map r_num rows).
      - rewrite <- (combine_nums rows 0). apply Permutation_map. exact PL.
      - transitivity (map r_num (map (fun k => mkRow (Z.of_nat k) (chunk k c)) (seq 0 n))).
        + apply Permutation_map. exact P.
        + rewrite map_map. cbn. reflexivity. }
    assert (Hlen : length L = n).
    { apply (f_equal (@length Z)) in HL. rewrite !map_length, seq_length in HL. exact HL. }
    assert (Hrow : forall id x, nth_error rows id = Some x -> exists k, (k < n)%nat /\ x = mkRow (Z.of_nat k) (chunk k c)).
    { intros id x Hx. apply nth_error_In in Hx. rewrite P in Hx. apply in_map_iff in Hx as (k & <- & Hk).
      apply in_seq in Hk. exists k. split; [lia|reflexivity]. }
    assert (Hnth : forall i id x, nth_error L i = Some (id, x) ->
              nth_error rows id = Some (mkRow (Z.of_nat i) (chunk i c)) /\ (i < n)%nat).
    { intros i id x Hi.
      assert (i < n)%nat by (rewrite <- Hlen; apply nth_error_Some; congruence).
      assert (Hin : In (id, x) L) by (eapply nth_error_In; exact Hi).
      rewrite PL in Hin. apply in_combine_seq in Hin as [_ Hin]. rewrite Nat.sub_0_r in Hin.
      destruct (Hrow _ _ Hin) as (k & Hk & Hx).
      assert (Hnum : nth_error (map (fun x => r_num (snd x)) L) i = Some (r_num x)).
      { rewrite nth_error_map, Hi. reflexivity. }
      rewrite HL, nth_error_map in Hnum.
      rewrite (nth_error_nth' (seq 0 n) 0%nat) in Hnum by (rewrite seq_length; assumption).
      rewrite seq_nth in Hnum by assumption. cbn in Hnum. inversion Hnum as [Hn2]. subst x. cbn in Hn2.
      assert (i = k) by lia. subst k. auto. }
    split; [|split].
    - intros i Hi. apply Hn in Hi. rewrite <- Hlen in Hi.
      destruct (nth_error L i) as [[id x]|] eqn:E; [|apply nth_error_None in E; lia].
      exists id. rewrite nth_error_map, E. split; [reflexivity|]. apply (Hnth _ _ _ E).
    - intros i id Hi. rewrite nth_error_map in Hi. destruct (nth_error L i) as [[id' x]|] eqn:E; [|discriminate].
      apply Hn. apply (Hnth _ _ _ E).
    - intros id Hid. destruct (nth_error rows id) as [x|] eqn:E; [|apply nth_error_None in E; lia].
      assert (Hin : In (id, x) L).
      { rewrite PL. apply in_combine_seq. rewrite Nat.sub_0_r. split; [lia|exact E]. }
      apply In_nth_error in Hin as (i & Hi). exists i. rewrite nth_error_map, Hi. reflexivity.
  Qed.

  Lemma held_stored : forall blocks p c, held bs blocks (p_rows p) c -> pgood digest p c -> stored digest bs p c.
  Proof.
    intros blocks p c (H1 & H2 & H3) (H4 & H5). split; [|split; assumption].
    exists ((length c + bs - 1) / bs)%nat.
    assert (Hn : forall k, (k < (length c + bs - 1) / bs <-> k * bs < length c)%nat).
    { intros k. assert (k < (length c + bs - 1) / bs <-> k + 1 <= (length c + bs - 1) / bs)%nat by lia.
      rewrite H, le_div by assumption. lia. }
    split; [|exact Hn].
    assert (Hrow : forall id x, nth_error (p_rows p) id = Some x ->
       exists i, nth_error blocks i = Some (Some id) /\ x = mkRow (Z.of_nat i) (chunk i c) /\ (i * bs < length c)%nat).
    { intros id x Hx. assert (Hid : (id < length (p_rows p))%nat) by (apply nth_error_Some; congruence).
      destruct (H3 _ Hid) as (i & Hi). exists i. pose proof (H2 _ _ Hi) as Hlt. split; [assumption|].
      destruct (H1 i Hlt) as (id' & Ha & Hb). rewrite Hi in Ha. inversion Ha; subst id'. split; [congruence|assumption]. }
    apply NoDup_Permutation.
    - apply NoDup_nth_error. intros i j Hi Hij.
      destruct (nth_error (p_rows p) i) as [x|] eqn:Ei; [|apply nth_error_None in Ei; lia].
      destruct (Hrow _ _ Ei) as (a & Ha & Hxa & _). symmetry in Hij. destruct (Hrow _ _ Hij) as (b & Hb & Hxb & _).
      rewrite Hxa in Hxb. inversion Hxb. assert (a = b) by lia. subst b. congruence.
    - apply FinFun.Injective_map_NoDup; [|apply seq_NoDup]. intros x y E. inversion E. lia.
    - intros x. rewrite in_map_iff. split.
      + intros Hx. apply In_nth_error in Hx as (id & Hid). destruct (Hrow _ _ Hid) as (i & _ & -> & Hi).
        exists i. split; [reflexivity|]. apply in_seq. apply Hn in Hi. lia.
      + intros (i & <- & Hi). apply in_seq in Hi. destruct (H1 i) as (id & _ & Hid); [apply Hn; lia|].
        eapply nth_error_In. exact Hid.
  Qed.

  (** a stream opened for reading or updating *)
  Lemma open_inv : forall p c m, stored digest bs p c -> m_a m = false -> m_w m = false ->
    exists s, open_stream digest bs p m = Ok (s, p) /\ inv digest bs s p c 0 c
      /\ b_r s = m_r m || m_plus m /\ b_w s = m_plus m.
  Proof.
    intros p c m S Ha Hw. unfold open_stream. rewrite Ha, Hw. unfold seek, seek_to, target.
    cbn -[Nat.div Nat.modulo Z.div Z.modulo].
    rewrite Z.div_0_l, Z.mod_0_l by lia. cbn -[Nat.div Nat.modulo].
    eexists. split; [reflexivity|]. split; [|cbn; auto].
    pose proof (stored_held _ _ S) as Hh. destruct S as (_ & S1 & S2).
    assert (E0 : (0 / bs = 0)%nat) by (apply Nat.div_0_l; lia).
    constructor; cbn -[Nat.div Nat.modulo]; try rewrite E0; auto.
    - symmetry. apply Nat.mod_0_l. lia.
    - rewrite S1. apply (btop_of_eq bs Hbs c 0).
    - lia.
    - split; assumption.
    - discriminate.
  Qed.

  (** an empty stream opened for writing *)
  Lemma open_w_inv : forall p m, stored digest bs p nil -> m_a m = false -> m_w m = true ->
    exists s p', open_stream digest bs p m = Ok (s, p') /\ inv digest bs s p' nil 0 nil
      /\ b_r s = m_r m || m_plus m /\ b_w s = true.
  Proof.
    intros p m S Ha Hw. unfold open_stream. rewrite Ha, Hw. unfold seek, seek_to, target.
    cbn -[Nat.div Nat.modulo Z.div Z.modulo].
    rewrite Z.div_0_l, Z.mod_0_l by lia. cbn -[Nat.div Nat.modulo].
    eexists _, _. split; [reflexivity|]. split; [|cbn; auto].
    destruct S as (_ & S1 & S2). cbn in S1.
    assert (E0 : (0 / bs = 0)%nat) by (apply Nat.div_0_l; lia).
    constructor; cbn -[Nat.div Nat.modulo]; try rewrite E0; auto.
    - symmetry. apply Nat.mod_0_l. lia.
    - rewrite S1. apply (btop_of_eq bs Hbs nil 0).
    - split; [|split].
      + cbn. intros i Hi. lia.
      + intros i id Hi. destruct i; discriminate.
      + cbn. intros id Hid. lia.
    - split; cbn; auto.
    - split; [reflexivity|]. exists 0%nat. cbn. split; [reflexivity|lia].
  Qed.

  Lemma step_inv : forall s p c q cf r w o f' a, inv digest bs s p c q cf -> b_r s = r -> b_w s = w ->
    f_step bs r w (mkF c q) o = Some (f', a) ->
    exists s' p' cf', s_step digest bs s p o = (s', p', a) /\ inv digest bs s' p' (f_data f') (f_pos f') cf'
      /\ b_r s' = r /\ b_w s' = w.
  Proof.
    intros s p c q cf r w o f' a I Hr Hw. destruct o as [n|b|off wh| |]; cbn [f_step f_data f_pos s_step].
    - destruct r.
      + intros H. inversion H; subst; clear H. cbn [f_data f_pos].
        destruct (read_ok digest bs Hbs _ _ _ _ _ n I Hr) as (s' & p' & cf' & -> & I' & R & W).
        exists s', p', cf'. split; [reflexivity|]. split; [exact I'|]. split; congruence.
      + intros H. inversion H; subst; clear H. exists s, p, cf. unfold readinto. rewrite Hr. cbn. auto.
    - destruct w.
      + cbv zeta. set (v := firstn (room bs q) b) in *.
        destruct ((length v =? 0)%nat && (length c <? q)%nat) eqn:E; [discriminate|].
        intros H. inversion H; subst; clear H. cbn [f_data f_pos].
        destruct (write_ok digest bs Hbs _ _ _ _ _ b I Hw) as (s' & p' & cf' & E1 & I' & R & W).
        { fold v. apply andb_false_iff in E. destruct E; b2p; [left; destruct v; cbn in *; [lia|discriminate]|auto]. }
        fold v in E1, I'. rewrite E1. exists s', p', cf'. split; [reflexivity|]. split; [exact I'|]. split; congruence.
      + intros H. inversion H; subst; clear H. exists s, p, cf. unfold write. rewrite Hw. cbn. auto.
    - set (t := match wh with SeekSet => off | SeekCur => Z.of_nat q + off | SeekEnd => Z.of_nat (length c) + off end).
      cbv zeta. destruct ((0 <=? t) && (Z.to_nat t / bs <=? length c / bs)%nat) eqn:E; [|discriminate].
      intros H. inversion H; subst; clear H. cbn [f_data f_pos]. b2p.
      unfold seek. replace (target s off wh) with (Z.of_nat (Z.to_nat t)).
      2:{ rewrite Z2Nat.id by assumption. unfold t, target. rewrite (i_pos _ _ _ _ _ _ _ I), (i_size _ _ _ _ _ _ _ I). reflexivity. }
      destruct (seek_ok digest bs Hbs _ _ _ _ _ (Z.to_nat t) I) as (s' & p' & cf' & -> & I' & R & W).
      { apply le_div; assumption. }
      exists s', p', cf'. auto.
    - intros H. inversion H; subst; clear H. cbn [f_data f_pos]. exists s, p, cf.
      rewrite (i_pos _ _ _ _ _ _ _ I). auto.
    - intros H. inversion H; subst; clear H. cbn [f_data f_pos].
      destruct (flush_ok digest bs Hbs _ _ _ _ _ I) as (s' & p' & -> & I' & _ & _ & R & W & _).
      exists s', p', c. auto.
  Qed.

  Lemma run_inv : forall ops s p c q cf r w f' l, inv digest bs s p c q cf -> b_r s = r -> b_w s = w ->
    f_run bs r w (mkF c q) ops = Some (f', l) ->
    exists s' p' cf', s_run digest bs s p ops = (s', p', l) /\ inv digest bs s' p' (f_data f') (f_pos f') cf'
      /\ b_r s' = r /\ b_w s' = w.
  Proof.
    induction ops as [|o ops IH]; intros s p c q cf r w f' l I Hr Hw; cbn.
    - intros H. inversion H; subst. cbn. exists s, p, cf. auto.
    - destruct (f_step bs r w (mkF c q) o) as [[[c1 q1] a]|] eqn:E; [|discriminate].
      destruct (f_run bs r w (mkF c1 q1) ops) as [[f2 l2]|] eqn:E2; [|discriminate].
      intros H. inversion H; subst f' l; clear H.
      destruct (step_inv _ _ _ _ _ _ _ _ _ _ I Hr Hw E) as (s1 & p1 & cf1 & -> & I1 & R1 & W1). cbn [f_data f_pos] in I1.
      destruct (IH _ _ _ _ _ _ _ _ _ I1 R1 W1 E2) as (s2 & p2 & cf2 & -> & I2 & R2 & W2).
      exists s2, p2, cf2. auto.
  Qed.
End Open.
