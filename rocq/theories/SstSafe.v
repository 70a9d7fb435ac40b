(** StreamStore: a referenced block is in the store *)
From Verif Require Import Py SstModel SstSpec SstProofs.

Definition failed (tr : list event) (id : nat) : Prop := exists c, In (ELockError c (Some id)) tr.
Definition pend (s : sys) (id : nat) (h : str) : Prop :=
  exists c st, s_pc s c = SLock st id h \/ s_pc s c = SStore st id h.

(** reference id to h is not, or not necessarily, backed by a stored block *)
Definition exposed (tr : list event) (s : sys) (id : nat) (h : str) : Prop :=
  pend s id h \/ failed tr id.

Definition sfact (tr : list event) (s : sys) (p : pc) : Prop :=
  match p with
  | U4 _ _ _ new => s_store s new = true
  | U6 _ _ h _ | D4 _ _ h _ _ =>
      forall id r, s_refs s id = Some r -> r_hash r = h -> exposed tr s id h
  | _ => True
  end.

Record sinv (tr : list event) (s : sys) : Prop := mkS {
  s_linv : linv s;
  s_ref : forall id r, s_refs s id = Some r -> s_store s (r_hash r) = true \/ exposed tr s id (r_hash r);
  s_fact : forall c, sfact tr s (s_pc s c) }.

Lemma failed_app tr ev id : failed tr id -> failed (tr ++ ev) id.
Proof. intros [c H]. exists c. apply in_or_app. auto. Qed.

(** [exposed] survives a step, except storing the block under its lock *)
Lemma exposed_step tr s s' c p' ev id h :
  trans s c (s_pc s c) (s_refs s') (s_next s') (s_store s') (s_lock s') p' ev ->
  s_pc s' = pset (s_pc s) c p' ->
  exposed tr s id h ->
  exposed (tr ++ ev) s' id h \/
  (exists st, s_pc s c = SStore st id h /\ p' = SUnlock st id h /\ s_store s' h = true).
Proof.
  intros T E [[c0 [st0 P]]|F]; [|left; right; apply failed_app; exact F].
  destruct (Nat.eq_dec c0 c) as [->|n].
  - destruct P as [P|P]; rewrite P in T; inversion T; subst.
    + left; left. exists c, st0. right. rewrite E, pset_same. reflexivity.
    + left; right. exists c. apply in_or_app. right. left. reflexivity.
    + right. exists st0. repeat split; try assumption. apply bset_same.
  - left; left. exists c0, st0. rewrite E, pset_other by assumption. exact P.
Qed.

Lemma trans_sinv tr s s' c p' ev : sinv tr s ->
  trans s c (s_pc s c) (s_refs s') (s_next s') (s_store s') (s_lock s') p' ev ->
  s_pc s' = pset (s_pc s) c p' -> sinv (tr ++ ev) s'.
Proof.
  intros [L R F] T E.
  assert (L' : linv s') by (eapply trans_linv; eassumption).
  (* a block disappears only at U6 and D4, its lock held *)
  assert (ST : forall h, s_store s h = true -> s_store s' h = true \/
     ((exists st id new, s_pc s c = U6 st id h new) \/ (exists st id todo all, s_pc s c = D4 st id h todo all))).
  { intros h H. inversion T; auto;
      match goal with |- bset _ ?k _ _ = _ \/ _ => destruct (str_dec h k) as [->|]; [rewrite bset_same|rewrite bset_other by assumption; auto] end; eauto 10. }
  (* and then no reference stays uncovered *)
  assert (GONE : forall h id r, s_store s h = true -> s_store s' h <> true -> s_refs s' id = Some r ->
     r_hash r = h -> exposed (tr ++ ev) s' id h).
  { intros h id r S NS Q H. destruct (ST h S) as [X|[X|X]]; [congruence| |].
    - destruct X as [st [i [new X]]]. pose proof (F c) as Fc. rewrite X in Fc, T. cbn in Fc.
      assert (RE : s_refs s' = s_refs s) by (inversion T; reflexivity). rewrite RE in Q.
      destruct (exposed_step _ _ _ _ _ _ _ _ ltac:(rewrite X; exact T) E (Fc _ _ Q H)) as [Y|[st' [Y _]]]; [exact Y|congruence].
    - destruct X as [st [i [todo [all X]]]]. pose proof (F c) as Fc. rewrite X in Fc, T. cbn in Fc.
      assert (RE : s_refs s' = s_refs s) by (inversion T; reflexivity). rewrite RE in Q.
      destruct (exposed_step _ _ _ _ _ _ _ _ ltac:(rewrite X; exact T) E (Fc _ _ Q H)) as [Y|[st' [Y _]]]; [exact Y|congruence]. }
  (* every new reference is pending, or made by update_block with its block stored and locked *)
  assert (NEW : forall id r, s_refs s' id = Some r -> s_refs s id = Some r \/
     exposed (tr ++ ev) s' id (r_hash r) \/
     (s_lock s (r_hash r) = Some c /\ s_store s' (r_hash r) = true /\
      exists st i old, s_pc s c = U4 st i old (r_hash r))).
  { intros id r Q. inversion T; try (left; congruence).
    - match goal with HH : rset _ _ _ = s_refs s' |- _ => rewrite <- HH in Q end. destruct (Nat.eq_dec id (s_next s)) as [->|n]; [|rewrite rset_other in Q by assumption; auto].
      rewrite rset_same in Q. injection Q as <-. right; left; left. exists c, st. left. rewrite E, pset_same. subst p'. reflexivity.
    - match goal with HH : rset _ _ _ = s_refs s' |- _ => rewrite <- HH in Q end.
      destruct (Nat.eq_dec id id0) as [->|n]; [|rewrite rset_other in Q by assumption; auto].
      rewrite rset_same in Q. injection Q as <-. right; right. cbn.
      pose proof (l_lock _ L c new). pose proof (F c) as Fc.
      match goal with HH : U4 _ _ _ _ = s_pc s c |- _ => rewrite <- HH in *; cbn in * end.
      split; [auto|]. split; [congruence|eauto].
    - match goal with HH : rset _ _ _ = s_refs s' |- _ => rewrite <- HH in Q end.
      destruct (Nat.eq_dec id id0) as [->|n]; [rewrite rset_same in Q; discriminate|rewrite rset_other in Q by assumption; auto].
    - left. match goal with HH : drop_stream _ _ = s_refs s' |- _ => rewrite <- HH in Q end.
      unfold drop_stream in Q. destruct (s_refs s id); [destruct (Nat.eqb _ _)|]; congruence. }
  assert (R' : forall id r, s_refs s' id = Some r -> s_store s' (r_hash r) = true \/ exposed (tr ++ ev) s' id (r_hash r)).
  { intros id r Q. destruct (NEW id r Q) as [Q0|[X|[_ [X _]]]]; auto.
    destruct (R id r Q0) as [S|X].
    - destruct (bool_dec (s_store s' (r_hash r)) true) as [Y|Y]; [auto|right]. eapply GONE; eauto.
    - destruct (exposed_step _ _ _ _ _ _ _ _ T E X) as [Y|[st [_ [_ Y]]]]; auto. }
  constructor; [exact L'|exact R'|].
  (* facts about positions *)
  assert (KEEP : forall c' h, c' <> c -> s_lock s h = Some c' ->
     (forall id r, s_refs s id = Some r -> r_hash r = h -> exposed tr s id h) ->
     (forall id r, s_refs s' id = Some r -> r_hash r = h -> exposed (tr ++ ev) s' id h)).
  { intros c' h N LK X id r Q H. destruct (NEW id r Q) as [Q0|[Y|[Y _]]].
    - destruct (exposed_step _ _ _ _ _ _ _ _ T E (X id r Q0 H)) as [Y|[st [Y _]]]; [exact Y|].
      pose proof (l_lock _ L c h) as LC. rewrite Y in LC. cbn in LC. rewrite LC in LK by reflexivity. congruence.
    - rewrite H in Y. exact Y.
    - congruence. }
  intros c'. rewrite E. destruct (Nat.eq_dec c' c) as [->|n].
  - rewrite pset_same. pose proof (l_next _ L) as NX.
    inversion T; cbn; try exact I.
    + destruct o; cbn; try exact I. destruct (str_eqb _ _); exact I.
    + match goal with HH : bset _ _ _ = s_store s' |- _ => rewrite <- HH end. apply bset_same.
    + intros i r Q Hh. exfalso.
      assert (used (s_refs s) (s_next s) old = true); [|congruence].
      apply used_spec; [exact NX|]. exists i, r. split; [congruence|assumption].
    + intros i r Q Hh. exfalso.
      assert (used (s_refs s) (s_next s) h = true); [|congruence].
      apply used_spec; [exact NX|]. exists i, r. split; [congruence|assumption].
  - rewrite pset_other by assumption. pose proof (F c') as Fc. pose proof (l_lock _ L c') as LC.
    destruct (s_pc s c') eqn:Ec; cbn in *; try exact I.
    + destruct (ST _ Fc) as [X|[X|X]]; [exact X| |].
      * destruct X as [st' [i' [new' X]]]. pose proof (l_lock _ L c new) as LD. rewrite X in LD. cbn in LD.
        rewrite LC in LD by auto. specialize (LD (or_introl eq_refl)). congruence.
      * destruct X as [st' [i' [todo [all X]]]]. pose proof (l_lock _ L c new) as LD. rewrite X in LD. cbn in LD.
        rewrite LC in LD by auto. specialize (LD eq_refl). congruence.
    + eapply KEEP; [exact n| |exact Fc]. apply LC. auto.
    + eapply KEEP; [exact n| |exact Fc]. apply LC. auto.
Qed.

Lemma run_sinv ok tr s : run ok tr s -> sinv tr s.
Proof.
  induction 1 as [|tr s l s' ev _ IH ST _].
  - constructor; cbn; try discriminate; [|intros; exact I].
    constructor; cbn; try contradiction; try discriminate. intros; exact I.
  - destruct (step_trans _ _ _ _ ST) as [c [p' [T [E _]]]]. eapply trans_sinv; eassumption.
Qed.
