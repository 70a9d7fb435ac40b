(** C34: LockStore gives mutual exclusion *)
From Verif Require Import Py LockModel LockSpec LockProofs.

(** Two clients that hold the same lock, both having asked for it less than lock_timeout - 1 s
    ago, are the same client: for SQL-backed lock stores, in every execution where every
    deletion in unlock is done before the lock read or refreshed there is lock_timeout old. *)
Theorem c34_exclusive_unexpired : forall U T tr s c c' h t t',
  0 < U ->
  run U T true (expired T) tr s ->
  holds tr c h t -> holds tr c' h t' ->
  s_now s <= t + T - U -> s_now s <= t' + T - U ->
  c = c'.
Proof.
  intros U T tr s c c' h t t' HU R H H' L L'. apply run_inv in R; [|exact HU].
  destruct (i_held _ _ _ _ R _ _ _ H) as [v [A B]].
  destruct (i_held _ _ _ _ R _ _ _ H') as [v' [A' B']].
  unfold fresh_ok in *. assert (X : s_now s <= v + T) by lia. assert (X' : s_now s <= v' + T) by lia.
  specialize (B X). specialize (B' X'). congruence.
Qed.
Print Assumptions c34_exclusive_unexpired.

(** The same, with lock_timeout at least 2 s, in every execution where no unlock is suspended
    for a second between looking at the time and deleting its lock.  Missing: that condition
    (see c34_slow_unlock_refuted) and in-memory lock stores (see c34_memds_refuted). *)
Theorem c34_exclusive_partial : forall U T tr s c c' h t t',
  0 < U -> 2 * U <= T ->
  run U T true (suspended U) tr s ->
  holds tr c h t -> holds tr c' h t' ->
  s_now s <= t + T - U -> s_now s <= t' + T - U ->
  c = c'.
Proof.
  intros U T tr s c c' h t t' HU HT R. apply run_prompt in R; [|assumption..].
  apply c34_exclusive_unexpired; [exact HU|apply R].
Qed.
Print Assumptions c34_exclusive_partial.

(** Under the same condition, unlock never deletes a lock that belongs to another client. *)
Theorem c34_owner_releases_partial : forall U T tr s c h o,
  0 < U -> 2 * U <= T -> run U T true (suspended U) tr s -> In (EReleased c h o) tr -> o = c.
Proof.
  intros U T tr s c h o HU HT R I. apply run_prompt in R; [|assumption..]. destruct R as [R _].
  apply run_inv in R; [|exact HU]. exact (i_rel _ _ _ _ R _ _ _ I).
Qed.
Print Assumptions c34_owner_releases_partial.

(** LockError is raised only once the timeout given to that call of lock is over: for every
    kind of lock store and every execution. *)
Theorem c34_error_after_timeout : forall U T occ tr s a c h t b,
  run U T occ never tr s -> tr = a ++ ELockError c h t :: b ->
  exists t0 timeout, in_lock_call a c h t0 timeout /\ t0 + timeout <= t.
Proof. intros U T occ tr s a c h t b R E. apply run_einv in R. exact (e_err _ _ R _ _ _ _ _ E). Qed.
Print Assumptions c34_error_after_timeout.

(** A lock that nobody has, or that is older than lock_timeout (by whoever was lost with it),
    is given to a client running alone, whatever the others are in the middle of. *)
Definition free_or_stale (T : Z) (s : sys) (h : str) : Prop :=
  match s_tab s h with None => True | Some e => e_created e + T < s_now s end.

Theorem c34_available : forall U T occ s c h timeout,
  s_pc s c = Idle -> free_or_stale T s h -> 0 < timeout ->
  exists ls s',
    Forall (fun l => l = Run c) ls /\
    exec U T occ s (CallLock c h timeout :: ls)
      = Some (s', [ELock c h (s_now s) timeout; ELocked c h (s_now s)]).
Proof.
  intros U T occ [now tab pcs] c h timeout I F L. unfold free_or_stale in F. cbn in I, F.
  assert (A : again c now h (now + timeout) = (LStamp h now (now + timeout), nil)).
  { unfold again. replace (now <? now + timeout) with true by (symmetry; apply Z.ltb_lt; lia). reflexivity. }
  destruct (tab h) as [e|] eqn:E.
  - exists (repeat (Run c) 6). eexists. split; [repeat constructor|].
    repeat first [progress cbn [exec repeat step s_pc s_now s_tab run1] | rewrite I | rewrite A
      | rewrite pset_same | rewrite E | rewrite Z.eqb_refl | rewrite andb_false_r
      | replace (e_created e + T <? now) with true by (symmetry; apply Z.ltb_lt; lia)].
    reflexivity.
  - exists (repeat (Run c) 3). eexists. split; [repeat constructor|].
    repeat first [progress cbn [exec repeat step s_pc s_now s_tab run1] | rewrite I | rewrite A
      | rewrite pset_same | rewrite E]. reflexivity.
Qed.
Print Assumptions c34_available.

(** A client that holds a lock it asked for less than lock_timeout - 1 s ago and calls unlock,
    running alone, releases its own entry and leaves the lock free. *)
Theorem c34_release : forall U T tr s c h t,
  0 < U -> run U T true (expired T) tr s -> s_pc s c = Idle ->
  holds tr c h t -> s_now s <= t + T - U ->
  exists ls s',
    Forall (fun l => l = Run c) ls /\
    exec U T true s (CallUnlock c h :: ls)
      = Some (s', [EUnlock c h (s_now s); EReleased c h c; EUnlocked c h (s_now s)]) /\
    s_tab s' h = None.
Proof.
  intros U T tr [now tab pcs] c h t HU R I H L. apply run_inv in R; [|exact HU]. cbn in *.
  destruct (i_held _ _ _ _ R _ _ _ H) as [v [A B]]. cbn in *.
  unfold fresh_ok in B. assert (Tb : tab h = Some (mkEnt c v)) by (apply B; lia).
  destruct (v + T <? now + U) eqn:Ef.
  - exists (repeat (Run c) 5). eexists. split; [repeat constructor|].
    repeat first [progress cbn [exec repeat step s_pc s_now s_tab run1 e_owner e_created andb negb]
      | rewrite I | rewrite pset_same | rewrite Tb | rewrite Nat.eqb_refl | rewrite Ef
      | rewrite Z.eqb_refl | rewrite tset_same].
    split; [reflexivity|]. cbn. apply tset_same.
  - exists (repeat (Run c) 3). eexists. split; [repeat constructor|].
    repeat first [progress cbn [exec repeat step s_pc s_now s_tab run1 e_owner e_created andb negb]
      | rewrite I | rewrite pset_same | rewrite Tb | rewrite Nat.eqb_refl | rewrite Ef].
    split; [reflexivity|]. cbn. apply tset_same.
Qed.
Print Assumptions c34_release.

(** ** Executions as lists of labels *)
Lemma exec_run U T occ bad : forall ls tr s s' ev, run U T occ bad tr s ->
  exec U T occ s ls = Some (s', ev) ->
  (forall n, match exec U T occ s (firstn n ls), nth_error ls n with
     | Some (s1, _), Some l => bad s1 l = false | _, _ => True end) ->
  run U T occ bad (tr ++ ev) s'.
Proof.
  induction ls as [|l ls IH]; intros tr s s' ev R E P; cbn in E.
  - injection E as <- <-. rewrite app_nil_r. exact R.
  - destruct (step U T occ s l) as [[s1 e1]|] eqn:St; [|discriminate].
    destruct (exec U T occ s1 ls) as [[s2 e2]|] eqn:X; [|discriminate]. injection E as <- <-.
    rewrite app_assoc. eapply IH; [|exact X|].
    + eapply run_step; [exact R|exact St|]. exact (P 0%nat).
    + intros n. specialize (P (S n)). cbn in P. rewrite St in P.
      destruct (exec U T occ s1 (firstn n ls)) as [[s3 e3]|]; exact P.
Qed.

Definition k : str := lit "h".
Notation R c := (Run c).

(** An unlock suspended for long enough between looking at the time and deleting its lock
    deletes the lock of the client that took over, and a third client gets in. *)
Definition slow_ls : list label :=
  [CallLock 0 k 60; R 0; R 0; R 0; CallUnlock 0 k; R 0; R 0; Tick 20;
   CallLock 1 k 60; R 1; R 1; R 1; R 1; R 1; R 1;
   R 0; CallLock 2 k 60; R 2; R 2; R 2].
Theorem c34_slow_unlock_refuted : exists tr s c c' h t,
  run 1 10 true never tr s /\ c <> c' /\ holds tr c h t /\ holds tr c' h t /\ s_now s = t /\
  In (EReleased 0 h c) tr /\ c <> 0%nat.
Proof.
  destruct (exec 1 10 true (init 0) slow_ls) as [[s tr]|] eqn:E; [|vm_compute in E; discriminate].
  exists tr, s, 1%nat, 2%nat, k, 20. split.
  - apply (exec_run 1 10 true never slow_ls nil (init 0) s tr); [apply run_nil|exact E|].
    intros n. match goal with |- match ?x with _ => _ end => destruct x as [[s1 e1]|]; [|exact I] end. destruct (nth_error _ _); [reflexivity|exact I].
  - split; [discriminate|]. vm_compute in E. injection E as <- <-.
    repeat split; try reflexivity; cbn; tauto || discriminate.
Qed.
Print Assumptions c34_slow_unlock_refuted.

(** With an in-memory entity set (no concurrency check on updates) two clients take over the
    same stale lock. *)
Definition mem_ls : list label :=
  [CallLock 0 k 60; R 0; R 0; R 0; Tick 20;
   CallLock 1 k 60; CallLock 2 k 60; R 1; R 1; R 1; R 1; R 1; R 2; R 2; R 2; R 2; R 2; R 1; R 2].
Theorem c34_memds_refuted : exists tr s c c' h t,
  run 1 10 false (suspended 1) tr s /\ c <> c' /\ holds tr c h t /\ holds tr c' h t /\ s_now s = t.
Proof.
  destruct (exec 1 10 false (init 0) mem_ls) as [[s tr]|] eqn:E; [|vm_compute in E; discriminate].
  exists tr, s, 1%nat, 2%nat, k, 20. split.
  - apply (exec_run 1 10 false (suspended 1) mem_ls nil (init 0) s tr); [apply run_nil|exact E|].
    intros n. do 20 (destruct n as [|n]; [vm_compute; reflexivity|]).
    match goal with |- match ?x with _ => _ end => destruct x as [[s1 e1]|]; [|exact I] end.
    replace (nth_error mem_ls _) with (@None label); [exact I|]. destruct n; reflexivity.
  - split; [discriminate|]. vm_compute in E. injection E as <- <-.
    repeat split; reflexivity.
Qed.
Print Assumptions c34_memds_refuted.

(** A concrete execution: client 1 waits, then takes over client 0's stale lock at 20; client 0's
    late unlock leaves it alone; client 1 holds the lock. *)
Definition ex_ls : list label :=
  [CallLock 0 k 60; R 0; R 0; R 0; CallLock 1 k 60; R 1; R 1; R 1; R 1; Tick 20; R 1;
   R 1; R 1; R 1; R 1; R 1; R 1; CallUnlock 0 k; R 0].
Example c34_ex : exists tr s,
  run 1 10 true (suspended 1) tr s /\ holds tr 1 k 0 /\ ~ holds tr 0 k 0 /\ s_tab s k = Some (mkEnt 1 20) /\
  s_now s = 20 /\ s_pc s 1%nat = Idle.
Proof.
  destruct (exec 1 10 true (init 0) ex_ls) as [[s tr]|] eqn:E; [|vm_compute in E; discriminate].
  exists tr, s. split.
  - apply (exec_run 1 10 true (suspended 1) ex_ls nil (init 0) s tr); [apply run_nil|exact E|].
    intros n. do 20 (destruct n as [|n]; [vm_compute; reflexivity|]).
    match goal with |- match ?x with _ => _ end => destruct x as [[s1 e1]|]; [|exact I] end.
    replace (nth_error ex_ls _) with (@None label); [exact I|]. destruct n; reflexivity.
  - vm_compute in E. injection E as <- <-. repeat split; try reflexivity. discriminate.
Qed.
