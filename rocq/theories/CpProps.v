(* C102-C107: the connection pool of the HTTP client *)
From Coq Require Import List Bool Arith Lia.
From Verif Require Import CpModel CpInv CpFair CpRest.
Import ListNotations.

(* every step is allowed *)
Definition any (l : label) (s : pool) : Prop := True.

Section Props.
Variable max : nat.

Lemma run_fair (ok : label -> pool -> Prop) s : (forall l t, ok l t -> not_replaced l t) -> run max ok start s -> fair s.
Proof using Type.
  intros H R. induction R as [|l s s' R IH O K]; [apply fair_start|].
  eapply fair_step; eauto. eapply inv_run; eauto.
Qed.
Lemma run_any (ok : label -> pool -> Prop) s0 s : run max ok s0 s -> run max any s0 s.
Proof using Type. induction 1; [apply run_start|]. eapply run_step; eauto. exact Logic.I. Qed.

(* --- C102 --- *)
(* a connection is processed by one thread at a time, and by none while it is
   idle *)
Theorem one_thread s T U c : run max any start s -> In (T, c) (held s) -> In (U, c) (held s) -> T = U.
Proof using Type.
  intros R H K. pose proof (inv_run _ _ _ R) as J. destruct (i_held _ _ J _ _ H), (i_held _ _ J _ _ K). congruence.
Qed.
Theorem idle_not_used s T c : run max any start s -> In c (idle s) -> ~ In (T, c) (held s) /\ load s c = [].
Proof using Type.
  intros R H. pose proof (inv_run _ _ _ R) as J. destruct (i_idle _ _ J _ H) as (O & L). split.
  - intros K. destruct (i_held _ _ J _ _ K). congruence.
  - destruct (load s c) as [|[U r] l] eqn:E; auto. destruct (i_load _ _ J c U r) as (O' & _); [rewrite E; now left|]. congruence.
Qed.
(* a request is given to a connection of its target, and finished by the
   thread that queued it, on the connection where it was queued *)
Theorem own_target s T g r c : run max any start s -> In (EQueued T g r c) (log s) -> tgt s c = g.
Proof using Type. intros R H. now apply (i_log _ _ (inv_run _ _ _ R) _ _ _ _ H). Qed.
Theorem own_requests s T r c new old : run max any start s -> log s = new ++ EFinished T c r :: old ->
  exists g, In (EQueued T g r c) old.
Proof using Type.
  intros R H. pose proof (i_good _ _ (inv_run _ _ _ R)) as G. rewrite H in G. clear H. induction new as [|e new IH]; cbn [app good] in G.
  - apply G.
  - destruct e; now apply IH.
Qed.

(* --- C103 --- *)
Theorem counted_bound s : run max any start s -> length (act s) + length (idle s) <= max.
Proof using Type. intros R. apply (i_len _ _ (inv_run _ _ _ R)). Qed.
(* all connections that threads have to process are counted *)
Theorem bound_partial s : run max not_replaced start s -> length (ath s) + length (idle s) <= max.
Proof using Type.
  intros R. pose proof (inv_run _ _ _ R) as J. pose proof (run_fair not_replaced s ltac:(auto) R) as F.
  pose proof (i_len _ _ J). enough (length (ath s) <= length (act s)) by lia.
  rewrite <- (map_length (fun x => ((fst x, tgt s (snd x)), snd x)) (ath s)). apply NoDup_incl_length.
  - pose proof (i_aths _ _ J) as N. clear - N. induction N as [|[T c] l N1 N2 IH]; cbn [map]; constructor; auto.
    intros K. apply in_map_iff in K as ([U d] & E & K). cbn [fst snd] in E. injection E as -> _ ->. auto.
  - intros x K. apply in_map_iff in K as ([T c] & <- & K). cbn [fst snd]. now apply F.
Qed.

(* --- C104 --- *)
(* a thread waits only while all connections are active, or while a thread
   that waited has been woken for each free place *)
Theorem waits_for_room_partial s : run max no_upgrade start s -> waiting s <> [] ->
  max <= active_count s + length (woken s).
Proof using Type.
  intros R. enough (fair s /\ waits max s) as [_ W] by apply W.
  induction R as [|l s s' R IH O K]; [split; [apply fair_start|apply waits_start]|].
  destruct IH as (F & W). pose proof (inv_run _ _ _ R) as J. split.
  - eapply fair_step; eauto. destruct l; auto. elim O.
  - eapply waits_step; eauto.
Qed.

(* a thread leaves the wait with a connection or with RequestManagerBusy *)
Theorem wait_ends l s s' T g r : run max any start s -> step max l s s' -> In (T, (g, r)) (waiting s ++ woken s) ->
  In (T, (g, r)) (waiting s' ++ woken s') \/ log s' = EBusy T r :: log s \/ exists c, log s' = EQueued T g r c :: log s.
Proof using Type.
  intros R K H. pose proof (inv_run _ _ _ R) as J.
  assert (N : forall n t, waiting t = waiting s -> woken t = woken s -> In (T, (g, r)) (waiting (notify n t) ++ woken (notify n t))).
  { intros n t E1 E2. eapply Permutation.Permutation_in; [apply (perm_notify n t)|]. now rewrite E1, E2. }
  destruct K; try (left; exact H).
  - left. destruct (inv_take _ _ _ _ _ _ H2 J) as (_ & (E1 & E2 & _) & _). cbn [waiting woken enqueue set_load]. now rewrite E1, E2.
  - left. cbn [waiting woken set_wait]. rewrite !in_app_iff in *. tauto.
  - left. cbn [waiting woken set_wait]. rewrite H0 in H. rewrite !in_app_iff in *. cbn [In] in *. tauto.
  - destruct (inv_take _ _ _ _ _ _ H1 J) as (_ & (E1 & E2 & _ & _ & _ & _ & E3 & _) & _).
    rewrite H0 in H. cbn [waiting woken enqueue set_load set_wait log]. rewrite E1, E3. rewrite !in_app_iff in *. cbn [In] in H.
    destruct H as [H|[H|[H|H]]]; try tauto. injection H as -> -> ->. right. right. exists c. reflexivity.
  - left. cbn [waiting woken set_wait]. rewrite H0 in H. rewrite !in_app_iff in *. cbn [In] in *. tauto.
  - cbn [waiting woken set_wait set_log set_load log]. rewrite H0 in H. rewrite !in_app_iff in *. cbn [In] in H.
    destruct H as [H|[H|[H|H]]]; try tauto. injection H as -> -> ->. right. left. reflexivity.
  - left. unfold deactivate. destruct (look (T0, tgt s c) (act s)).
    + exact (N 1 (set_tables (upd (owner s) c None) (unkey (T0, tgt s c) (act s)) (unpair (T0, c) (ath s)) (c :: without c (idle s)) s) eq_refl eq_refl).
    + exact H.
  - left. unfold active_cleanup.
    assert (X : waiting (fst (cleanup sel s)) = waiting s /\ woken (fst (cleanup sel s)) = woken s).
    { clear. revert s. induction sel as [|[T c] sel IH]; intros s; cbn [cleanup]; auto.
      destruct (owner s c) as [U|]; [|now cbn]. destruct (look (U, tgt s c) (act s)); [|now cbn].
      exact (IH (set_tables (owner s) (unkey (U, tgt s c) (act s)) (unpair (T, c) (ath s)) (idle s) s)). }
    destruct X as (X1 & X2). destruct (cleanup sel s) as [s' []]; cbn [fst] in *.
    + cbn [waiting woken set_log set_load]. now rewrite X1, X2.
    + exact (N (length sel) s' X1 X2).
  - left. assert (X : waiting (fold_right delete_idle s sel) = waiting s /\ woken (fold_right delete_idle s sel) = woken s) by (clear; induction sel; cbn; auto).
    destruct X as (X1 & X2). now rewrite X1, X2.
Qed.

(* --- C105 --- *)
(* when a thread has no active connection left (thread_task returns False),
   its requests have been finished as often as they were queued *)
Theorem all_finished_partial s T r : run max no_cleanup start s -> (forall c, ~ In (T, c) (ath s)) ->
  queued T r (log s) = finished T r (log s).
Proof using Type.
  intros R N.
  assert (X : kept s /\ counted s).
  { clear N. induction R as [|l s s' R IH O K]; [split; [apply kept_start|intros ? ?; reflexivity]|].
    destruct IH as (F & W). pose proof (inv_run _ _ _ R) as J. split.
    - eapply kept_step; eauto.
    - eapply counted_step; eauto. }
  destruct X as (K & C). rewrite (C T r), total_zero; [lia|]. intros c _ H. elim (N c). now apply (k_load _ K T c r).
Qed.
(* it is never finished more often than queued *)
Theorem finished_at_most s T r : run max any start s -> finished T r (log s) <= queued T r (log s).
Proof using Type.
  intros R.
  assert (C : counted s).
  { induction R as [|l s s' R IH O K]; [intros ? ?; reflexivity|].
    eapply counted_step; eauto. eapply inv_run; eauto. }
  rewrite (C T r). lia.
Qed.

(* --- C106 --- *)
(* once close() has found the pool empty, and no thread is in the wait of
   queue_request, there are no connections and no request is accepted *)
Theorem closed_partial s s' : run max any start s -> closing s = true -> act s = [] -> idle s = [] ->
  waiting s = [] -> woken s = [] -> run max any s s' ->
  act s' = [] /\ idle s' = [] /\ forall T g r c, In (EQueued T g r c) (log s') -> In (EQueued T g r c) (log s).
Proof using Type.
  intros _ H1 H2 H3 H4 H5 R.
  assert (X : ended s' /\ forall T g r c, In (EQueued T g r c) (log s') -> In (EQueued T g r c) (log s)).
  { induction R as [|l t t' R IH O K]; [repeat split; auto|]. destruct IH as (E & Q).
    destruct (ended_step _ _ _ _ K E) as (E' & Q'). split; auto. }
  destruct X as ((_ & X1 & X2 & _) & X3). auto.
Qed.

(* --- C107 --- *)
(* a connection that was killed gets no further request *)
Theorem dead_not_used_partial s l s' T g r c : run max not_replaced start s -> not_replaced l s -> step max l s s' ->
  log s' = EQueued T g r c :: log s -> dead s c = false.
Proof using Type.
  intros R O K E. pose proof (inv_run _ _ _ R) as J. pose proof (run_fair not_replaced s ltac:(auto) R) as F.
  pose proof (fair_step _ _ _ _ K J O F) as F'.
  destruct (dead s c) eqn:D; auto. exfalso.
  assert (Q : forall T' g' r' c' t, take max T' g' s c' t -> EQueued T' g' r' c' :: log t = EQueued T g r c :: log s -> False).
  { intros T' g' r' c' t Ht Q. injection Q as -> -> -> -> _.
    destruct (inv_take _ _ _ _ _ _ Ht J) as (_ & (E1 & E2 & E3 & E4 & E5 & _) & L & _).
    pose proof (fair_take _ _ _ _ _ _ Ht J F) as Ft. apply look_some in L.
    apply (proj1 (proj2 (f_gone _ Ft c (or_introl (eq_trans (f_equal (fun f => f c) E5) D)))) T).
    eapply f_act; eauto. }
  destruct K; cbn [log set_log set_load enqueue set_wait set_held upgrade set_tables set_dead set_closing] in E;
    try (now eapply Q; eauto); try discriminate E;
    try (apply (f_equal (@length event)) in E; cbn [length] in E; lia).
  - unfold deactivate in E. destruct (look (T0, tgt s c0) (act s)); apply (f_equal (@length event)) in E; cbn in E; lia.
  - unfold active_cleanup in E. destruct (fair_cleanup max sel s J F H0 H1) as (t & Et & _ & (_ & _ & _ & _ & _ & _ & El & _) & _).
    rewrite Et in E. cbn [log set_dead notify set_wait] in E. rewrite El in E. apply (f_equal (@length event)) in E. cbn [length] in E. lia.
  - assert (X : log (fold_right delete_idle s sel) = log s) by (clear; induction sel; cbn; auto).
    rewrite X in E. apply (f_equal (@length event)) in E. cbn [length] in E. lia.
Qed.
(* active_cleanup does not fail *)
Theorem cleanup_works_partial s K : run max not_replaced start s -> ~ In (EKeyError K) (log s).
Proof using Type.
  intros R. induction R as [|l s s' R IH O Ks]; [intros []|].
  pose proof (inv_run _ _ _ R) as J. pose proof (run_fair not_replaced s ltac:(auto) R) as F.
  destruct Ks; cbn [log set_log set_load enqueue set_wait set_held upgrade set_tables set_dead set_closing]; auto;
    try (intros [X|X]; [discriminate|auto]).
  - destruct (inv_take _ _ _ _ _ _ H1 J) as (_ & (_ & _ & _ & _ & _ & _ & El & _) & _).
    rewrite El in X. auto.
  - destruct (inv_take _ _ _ _ _ _ H0 J) as (_ & (_ & _ & _ & _ & _ & _ & El & _) & _).
    rewrite El in X. auto.
  - unfold deactivate. destruct (look (T, tgt s c) (act s)); exact IH.
  - unfold active_cleanup. destruct (fair_cleanup max sel s J F H0 H1) as (t & Et & _ & (_ & _ & _ & _ & _ & _ & El & _) & _).
    rewrite Et. cbn [log set_dead notify set_wait]. now rewrite El.
  - assert (X : log (fold_right delete_idle s sel) = log s) by (clear; induction sel; cbn; auto).
    now rewrite X.
Qed.
End Props.

(* --- a connection that was killed is put back by its thread --- *)
(* one connection at most; thread 1 is slow, thread 2 runs active_cleanup *)
Definition a1 := enqueue 1 0 10 0 (activate 0 1 (new_connection 0 start)).
Definition a2 := set_held [(1, 0)] a1.
Definition a3 := active_cleanup 2 [(1, 0)] a2.
Definition a4 := set_dead (upd (dead a3) 0 true) [] a3.
Definition a5 := set_load (upd (load a4) 0 []) (EFinished 1 0 10) a4.
(* the answer was a redirection to the same host *)
Definition a6 := enqueue 1 0 11 1 (activate 1 1 (new_connection 0 a5)).
Definition a7 := set_held [] (deactivate 0 1 a6).
Definition a8 := enqueue 3 0 12 0 (activate 0 3 a7).
Definition a9 := active_cleanup 2 [(1, 1)] a8.

Ltac fr := split; cbn; intuition discriminate.
Lemma ra1 : run 1 any start a1.
Proof.
  eapply run_step; [apply run_start|exact Logic.I|]. apply (st_queue 1 1 0 10 0); [fr|reflexivity|].
  apply (tk_new 1 1 0 start); cbn; auto.
Qed.
Lemma ra3 : run 1 any start a3.
Proof.
  assert (R : run 1 any start a2).
  { eapply run_step; [apply ra1|exact Logic.I|]. apply (st_task 1 1 a1); [fr|cbn; auto]. }
  eapply run_step; [exact R|exact Logic.I|]. apply (st_clean 1 2 [(1, 0)] a2); [fr|repeat constructor; auto|].
  intros x [<-|[]]. cbn. auto.
Qed.
Lemma ra7 : run 1 any start a7.
Proof.
  assert (R : run 1 any start a4).
  { eapply run_step; [apply ra3|exact Logic.I|]. exact (st_kill 1 2 0 true [] [] a3 eq_refl). }
  assert (R5 : run 1 any start a5).
  { eapply run_step; [exact R|exact Logic.I|]. apply (st_finish 1 1 0 1 10 [] [] a4); [fr|cbn; auto|reflexivity]. }
  assert (R6 : run 1 any start a6).
  { eapply run_step; [exact R5|exact Logic.I|]. apply (st_queue 1 1 0 11 1); [fr|reflexivity|].
    apply (tk_new 1 1 0 a5); cbn; auto. }
  eapply run_step; [exact R6|exact Logic.I|]. apply (st_idle 1 1 0 a6); [fr|cbn; auto|reflexivity].
Qed.
Lemma ra8_step : step 1 (LQueue 3 0 12) a7 a8.
Proof. apply (st_queue 1 3 0 12 0 a7); [fr|reflexivity|]. apply (tk_idle 1 3 0 a7 0); cbn; auto. Qed.
Lemma ra8 : run 1 any start a8.
Proof. eapply run_step; [apply ra7|exact Logic.I|apply ra8_step]. Qed.
(* C103: two connections are in use although max_connections is 1 *)
Theorem bound_refuted : exists s, run 1 any start s /\ length (ath s) = 2 /\
  (forall T c, In (T, c) (ath s) -> load s c <> []).
Proof.
  exists a8. split; [apply ra8|]. split; [reflexivity|]. intros T c. cbn.
  intros [E|[E|[]]]; injection E as <- <-; discriminate.
Qed.
(* C107: thread 3 is given the connection that was killed *)
Theorem dead_used_refuted : exists s s', run 1 any start s /\ step 1 (LQueue 3 0 12) s s' /\
  log s' = EQueued 3 0 12 0 :: log s /\ dead s 0 = true.
Proof. exists a7, a8. split; [apply ra7|]. split; [apply ra8_step|]. split; reflexivity. Qed.
(* C107: and active_cleanup fails on the other one *)
Theorem cleanup_fails_refuted : exists s, run 1 any start s /\ In (EKeyError 2) (log s).
Proof.
  exists a9. split; [|cbn; auto]. eapply run_step; [apply ra8|exact Logic.I|].
  apply (st_clean 1 2 [(1, 1)] a8); [fr|repeat constructor; auto|]. intros x [<-|[]]. cbn. auto.
Qed.
(* C105: after active_cleanup the thread's request is never finished: the
   connection is in none of the tables and in no thread's hands *)
Definition b2 := active_cleanup 2 [(1, 0)] a1.
Theorem forgotten_refuted : exists s, run 1 any start s /\ ath s = [] /\ idle s = [] /\ held s = [] /\
  queued 1 10 (log s) = 1 /\ finished 1 10 (log s) = 0.
Proof.
  exists b2. split; [|repeat split]. eapply run_step; [apply ra1|exact Logic.I|].
  apply (st_clean 1 2 [(1, 0)] a1); [fr|repeat constructor; auto|]. intros x [<-|[]]. cbn. auto.
Qed.
(* C104: an upgraded connection leaves the pool without waking a waiter *)
Definition c3 := set_wait [(2, (5, 20))] [] a2.
Definition c4 := set_load (upd (load c3) 0 []) (EFinished 1 0 10) (set_held [] (upgrade 0 1 c3)).
Theorem waits_for_room_refuted : exists s, run 1 any start s /\ waiting s <> [] /\ woken s = [] /\
  active_count s = 0 /\ idle s = [].
Proof.
  exists c4. split; [|repeat split; discriminate].
  assert (R : run 1 any start a2).
  { eapply run_step; [apply ra1|exact Logic.I|]. apply (st_task 1 1 a1); [fr|cbn; auto]. }
  assert (R3 : run 1 any start c3).
  { eapply run_step; [exact R|exact Logic.I|]. apply (st_wait 1 2 5 20 a2); [fr|reflexivity|].
    split; [reflexivity|]. split; [reflexivity|]. cbn. auto. }
  eapply run_step; [exact R3|exact Logic.I|]. apply (st_upgrade 1 1 0 1 10 c3); [fr|cbn; auto|reflexivity].
Qed.
(* C106: a thread that waits while the client is closed gets a new connection
   after close() has returned *)
Definition d2 := set_wait [(2, (5, 20))] [] a1.
Definition d4 := active_cleanup 3 [(1, 0)] (set_closing d2).
Definition d5 := enqueue 2 5 20 1 (set_wait [] [] (activate 1 2 (new_connection 5 d4))).
Theorem closed_refuted : exists s s', run 1 any start s /\ closing s = true /\ act s = [] /\ idle s = [] /\
  step 1 (LResume 2) s s' /\ log s' = EQueued 2 5 20 1 :: log s /\ active_count s' = 1.
Proof.
  exists d4, d5. split.
  - assert (R : run 1 any start d2).
    { eapply run_step; [apply ra1|exact Logic.I|]. apply (st_wait 1 2 5 20 a1); [fr|reflexivity|].
      split; [reflexivity|]. split; [reflexivity|]. cbn. auto. }
    assert (R3 : run 1 any start (set_closing d2)).
    { eapply run_step; [exact R|exact Logic.I|]. apply (st_close 1 3 d2). fr. }
    eapply run_step; [exact R3|exact Logic.I|]. apply (st_clean 1 3 [(1, 0)] (set_closing d2)); [fr|repeat constructor; auto|].
    intros x [<-|[]]. cbn. auto.
  - repeat split. apply (st_resume 1 2 5 20 1 [] [] d4 (activate 1 2 (new_connection 5 d4))); [reflexivity|].
    apply (tk_new 1 2 5 d4); cbn; auto.
Qed.

(* --- cases that meet the hypotheses --- *)
(* thread 1 finishes its request, thread 2 waits, is woken and gets the place *)
Definition e3 := set_load (upd (load c3) 0 []) (EFinished 1 0 10) c3.
Definition e4 := set_held [] (deactivate 0 1 e3).
Definition e5 := enqueue 2 5 20 1 (set_wait [] [] (activate 1 2 (new_connection 5 (delete_idle 0 e4)))).
Example ex_run : run 1 (fun l s => no_upgrade l s /\ no_cleanup l s) start e5 /\
  (forall c, ~ In (1, c) (ath e5)) /\ finished 1 10 (log e5) = 1 /\ ath e5 = [(2, 1)] /\ act e5 = [((2, 5), 1)].
Proof.
  split; [|split; [intros c [E|[]]; discriminate E|repeat split]].
  assert (R1 : run 1 (fun l s => no_upgrade l s /\ no_cleanup l s) start a1).
  { eapply (run_step _ _ _ (LQueue 1 0 10)); [apply run_start|split; exact Logic.I|]. apply (st_queue 1 1 0 10 0); [fr|reflexivity|].
    apply (tk_new 1 1 0 start); cbn; auto. }
  assert (R2 : run 1 (fun l s => no_upgrade l s /\ no_cleanup l s) start a2).
  { eapply (run_step _ _ _ (LTask 1)); [exact R1|split; exact Logic.I|]. apply (st_task 1 1 a1); [fr|cbn; auto]. }
  assert (R3 : run 1 (fun l s => no_upgrade l s /\ no_cleanup l s) start c3).
  { eapply (run_step _ _ _ (LWait 2 5 20)); [exact R2|split; exact Logic.I|]. apply (st_wait 1 2 5 20 a2); [fr|reflexivity|].
    split; [reflexivity|]. split; [reflexivity|]. cbn. auto. }
  assert (R4 : run 1 (fun l s => no_upgrade l s /\ no_cleanup l s) start e3).
  { eapply (run_step _ _ _ (LFinish 1 0 10)); [exact R3|split; exact Logic.I|]. apply (st_finish 1 1 0 1 10 [] [] c3); [fr|cbn; auto|reflexivity]. }
  assert (R5 : run 1 (fun l s => no_upgrade l s /\ no_cleanup l s) start e4).
  { eapply run_step; [exact R4| |apply (st_idle 1 1 0 e3); [fr|cbn; auto|reflexivity]].
    split; [|exact Logic.I]. intros c'. cbn. congruence. }
  eapply (run_step _ _ _ (LResume 2)); [exact R5|split; exact Logic.I|].
  apply (st_resume 1 2 5 20 1 [] [] e4 (activate 1 2 (new_connection 5 (delete_idle 0 e4)))); [reflexivity|].
  apply (tk_drop 1 2 5 e4 0 1); [reflexivity|intros c [<-|[]]; discriminate|cbn; auto|cbn; auto|].
  apply (tk_new 1 2 5 (delete_idle 0 e4)); cbn; auto.
Qed.
(* the client is closed while a connection is idle *)
Definition h4 := active_cleanup 3 [(1, 0)] (set_closing a1).
Example ex_closed : run 1 any start h4 /\ closing h4 = true /\ act h4 = [] /\ idle h4 = [] /\ waiting h4 = [] /\ woken h4 = [].
Proof.
  split; [|repeat split].
  assert (R3 : run 1 any start (set_closing a1)).
  { eapply run_step; [exact ra1|exact Logic.I|]. apply (st_close 1 3 a1). fr. }
  eapply run_step; [exact R3|exact Logic.I|]. apply (st_clean 1 3 [(1, 0)] (set_closing a1)); [fr|repeat constructor; auto|].
  intros x [<-|[]]. cbn. auto.
Qed.

Print Assumptions one_thread.
Print Assumptions own_requests.
Print Assumptions bound_partial.
Print Assumptions waits_for_room_partial.
Print Assumptions wait_ends.
Print Assumptions all_finished_partial.
Print Assumptions closed_partial.
Print Assumptions dead_not_used_partial.
Print Assumptions cleanup_works_partial.
Print Assumptions bound_refuted.
Print Assumptions closed_refuted.
