(** C35: StreamStore never loses a referenced block, and leaves none behind *)
From Verif Require Import Py SstModel SstSpec SstProofs SstSafe SstOrphan.

(** In every execution by any clients, on whatever streams, at every moment: a block that is
    referenced but not in the block store is one whose store_block has not yet returned (it is
    waiting for the lock or about to store the block), or has raised LockError. *)
Theorem c35_no_loss_anytime : forall tr s id r,
  run any tr s -> s_refs s id = Some r -> s_store s (r_hash r) = false ->
  (exists c st, s_pc s c = SLock st id (r_hash r) \/ s_pc s c = SStore st id (r_hash r)) \/
  (exists c, In (ELockError c (Some id)) tr).
Proof.
  intros tr s id r R Q N. apply run_sinv in R. destruct (s_ref _ _ R id r Q) as [X|X]; [congruence|exact X].
Qed.
Print Assumptions c35_no_loss_anytime.

(** So once no call is in progress, and if no store_block raised LockError, every referenced
    block is in the block store. *)
Theorem c35_no_loss : forall tr s id r,
  run any tr s -> quiescent s -> (forall c i, ~ In (ELockError c (Some i)) tr) ->
  s_refs s id = Some r -> s_store s (r_hash r) = true.
Proof.
  intros tr s id r R Q N H. destruct (s_store s (r_hash r)) eqn:S; [reflexivity|exfalso].
  destruct (c35_no_loss_anytime _ _ _ _ R H S) as [[c [st X]]|[c X]].
  - rewrite (Q c) in X. destruct X; discriminate.
  - eapply N; exact X.
Qed.
Print Assumptions c35_no_loss.

(** If moreover each stream is used by one client at a time, the block store then holds exactly
    the referenced blocks. *)
Theorem c35_exact : forall tr s h,
  run one_user tr s -> quiescent s -> (forall c i, ~ In (ELockError c (Some i)) tr) ->
  (s_store s h = true <-> refers s h).
Proof.
  intros tr s h R Q N. split.
  - intros S. apply run_oinv in R. destruct (o_orph _ R h S) as [X|[c X]]; [exact X|].
    rewrite (Q c) in X. contradiction.
  - intros [id [r [H <-]]]. apply (c35_no_loss tr s id r); try assumption.
    clear - R. induction R; econstructor; try eassumption. exact I.
Qed.
Print Assumptions c35_exact.

(** ... and holds no other even if calls have raised LockError. *)
Theorem c35_no_orphans : forall tr s h,
  run one_user tr s -> quiescent s -> s_store s h = true -> refers s h.
Proof.
  intros tr s h R Q S. apply run_oinv in R. destruct (o_orph _ R h S) as [X|[c X]]; [exact X|].
  rewrite (Q c) in X. contradiction.
Qed.
Print Assumptions c35_no_orphans.

(** ** All locks are released *)
Lemma trans_free s s' c p' ev : (forall c, differ (s_pc s c)) ->
  (forall h c, s_lock s h = Some c -> holds_lock (s_pc s c) h) ->
  trans s c (s_pc s c) (s_refs s') (s_next s') (s_store s') (s_lock s') p' ev ->
  s_pc s' = pset (s_pc s) c p' -> (forall h c, s_lock s' h = Some c -> holds_lock (s_pc s' c) h).
Proof.
  intros D A T E h c' H. rewrite E.
  assert (K : (c' = c -> s_lock s' h = Some c -> holds_lock p' h) /\ (c' <> c -> s_lock s' h = Some c' -> s_lock s h = Some c')).
  { specialize (A h c). clear H E. inversion T;
      match goal with HH : _ = s_pc s c |- _ => rewrite <- HH in A end;
      cbn [holds_lock] in *; unfold lset in *;
      split; intros; repeat match goal with HH : context [str_dec ?a ?b] |- _ => destruct (str_dec a b) end;
      subst; try congruence; auto; try contradiction; try (destruct (A ltac:(assumption)); auto; contradiction). }
  destruct K as [K1 K2]. destruct (Nat.eq_dec c' c) as [->|n].
  - rewrite pset_same. auto.
  - rewrite pset_other by assumption. auto.
Qed.

Lemma run_free ok tr s : run ok tr s -> forall h c, s_lock s h = Some c -> holds_lock (s_pc s c) h.
Proof.
  induction 1 as [|tr s l s' ev R IH ST _]; [discriminate|].
  destruct (step_trans _ _ _ _ ST) as [c [p' [T [E _]]]]. apply run_sinv in R.
  eapply trans_free; try eassumption. apply (l_diff _ (s_linv _ _ R)).
Qed.

Theorem c35_locks_released : forall tr s h, run any tr s -> quiescent s -> s_lock s h = None.
Proof.
  intros tr s h R Q. destruct (s_lock s h) as [c|] eqn:E; [|reflexivity].
  apply (run_free _ _ _ R) in E. rewrite (Q c) in E. contradiction.
Qed.
Print Assumptions c35_locks_released.

(** ** What the calls do, run alone *)
Lemma exec_app : forall a b s, exec s (a ++ b) =
  match exec s a with
  | Some (s1, e1) => match exec s1 b with Some (s2, e2) => Some (s2, e1 ++ e2) | None => None end
  | None => None
  end.
Proof.
  induction a as [|l a IH]; intros b s; cbn.
  - destruct (exec s b) as [[s2 e2]|]; reflexivity.
  - destruct (step s l) as [[s1 e1]|]; [|reflexivity]. rewrite IH.
    destruct (exec s1 a) as [[s2 e2]|]; [|reflexivity].
    destruct (exec s2 b) as [[s3 e3]|]; [rewrite app_assoc; reflexivity|reflexivity].
Qed.

Lemma exec_step1 s l ls s1 e1 s2 e2 ev : step s l = Some (s1, e1) -> exec s1 ls = Some (s2, e2) ->
  ev = e1 ++ e2 -> exec s (l :: ls) = Some (s2, ev).
Proof. intros A B ->. cbn. rewrite A, B. reflexivity. Qed.

Ltac simp := repeat first
  [ progress cbn [acquire release setstore setpc next_block s_refs s_next s_store s_lock s_pc r_stream r_num]
  | progress (unfold acquire, release, setstore, setpc)
  | rewrite pset_same | rewrite lset_same | rewrite rset_same | rewrite bset_same
  | match goal with H : forall h, s_lock _ h = None |- _ => rewrite H end
  | rewrite lset_other by congruence ].
Ltac go R U := match goal with
  | |- exec _ (_ :: _) = _ =>
      eapply exec_step1;
        [unfold step, run1; simp; try rewrite R; simp; try rewrite U; simp; reflexivity
        |go R U|reflexivity]
  | |- exec _ nil = _ => reflexivity
  end.

Theorem c35_store_alone : forall s c st num k,
  (forall h, s_lock s h = None) -> s_pc s c = Idle ->
  exists s', exec s (Call c (OStore st num k) :: repeat (Run c) 4) = Some (s', [EDone c]) /\
    s_pc s' c = Idle /\ (forall h, s_lock s' h = None) /\
    s_refs s' (s_next s) = Some (mkRef st num k) /\ s_store s' k = true /\
    (forall i, i <> s_next s -> s_refs s' i = s_refs s i) /\
    (forall h, h <> k -> s_store s' h = s_store s h).
Proof.
  intros s c st num k L I. cbn [repeat]. eexists. split;
    [eapply exec_step1; [unfold step; rewrite I; reflexivity|cbn [start]; go I I|reflexivity]|]. cbn.
  rewrite pset_same, rset_same, bset_same. repeat split.
  - intros h. unfold lset. destruct (str_dec h k); auto.
  - intros i N. apply rset_other, N.
  - intros h N. apply bset_other, N.
Qed.
Print Assumptions c35_store_alone.

Theorem c35_update_alone : forall s c st id n old new,
  (forall h, s_lock s h = None) -> s_pc s c = Idle -> old <> new ->
  s_refs s id = Some (mkRef st n old) ->
  exists ls s', Forall (fun l => l = Run c) ls /\
    exec s (Call c (OUpdate st id old new) :: ls) = Some (s', [EDone c]) /\
    s_pc s' c = Idle /\ (forall h, s_lock s' h = None) /\
    s_refs s' id = Some (mkRef st n new) /\ s_store s' new = true /\
    (forall i, i <> id -> s_refs s' i = s_refs s i) /\
    (forall h, h <> new -> h <> old -> s_store s' h = s_store s h).
Proof.
  intros s c st id n old new L I N R.
  assert (Q : start (OUpdate st id old new) = U1 st id old new).
  { cbn. destruct (str_eqb new old) eqn:E; [|reflexivity]. apply str_eqb_eq in E. congruence. }
  destruct (used (rset (s_refs s) id (Some (mkRef st n new))) (s_next s) old) eqn:U.
  - exists (repeat (Run c) 7). eexists. split; [repeat constructor|]. split.
    + cbn [repeat]. eapply exec_step1; [unfold step; rewrite I, Q; reflexivity|go R U|reflexivity].
    + cbn. rewrite pset_same, rset_same, bset_same. repeat split.
      * intros h. unfold lset. destruct (str_dec h old); [reflexivity|]. destruct (str_dec h new); [reflexivity|apply L].
      * intros i Ni. apply rset_other, Ni.
      * intros h N1 N2. apply bset_other, N1.
  - exists (repeat (Run c) 8). eexists. split; [repeat constructor|]. split.
    + cbn [repeat]. eapply exec_step1; [unfold step; rewrite I, Q; reflexivity|go R U|reflexivity].
    + cbn. rewrite pset_same, rset_same. rewrite bset_other by congruence. rewrite bset_same. repeat split.
      * intros h. unfold lset. destruct (str_dec h old); [reflexivity|]. destruct (str_dec h new); [reflexivity|apply L].
      * intros i Ni. apply rset_other, Ni.
      * intros h N1 N2. rewrite !bset_other by assumption. reflexivity.
Qed.
Print Assumptions c35_update_alone.

Lemma delete_loop : forall todo s c st all,
  (forall h, s_lock s h = None) -> s_pc s c = D1 st todo all -> NoDup (map fst todo) ->
  (forall i h, In (i, h) todo -> s_refs s i <> None) ->
  exists ls s', Forall (fun l => l = Run c) ls /\ exec s ls = Some (s', [EDone c]) /\
    (forall c', s_pc s' c' = if Nat.eqb c' c then Idle else s_pc s c') /\ (forall h, s_lock s' h = None) /\
    (forall i, In i (map fst todo) -> s_refs s' i = None) /\
    (forall i, ~ In i (map fst todo) -> s_refs s' i = if all then drop_stream (s_refs s) st i else s_refs s i).
Proof.
  induction todo as [|[id h] todo IH]; intros s c st all L P ND RF.
  - destruct all.
    + exists [Run c; Run c]. eexists. split; [repeat constructor|]. split; [go P P|].
      cbn. unfold pset. repeat split; auto; [|intros i []]. intros c'. destruct (Nat.eqb c' c); reflexivity.
    + exists [Run c]. eexists. split; [repeat constructor|]. split; [go P P|].
      cbn. unfold pset. repeat split; auto. intros i [].
  - cbn in ND. apply NoDup_cons_iff in ND. destruct ND as [N1 N2].
    destruct (s_refs s id) as [r|] eqn:R; [|exfalso; apply (RF id h); [left; reflexivity|exact R]].
    assert (G : exists n s1, exec s (repeat (Run c) n) = Some (s1, nil) /\ s_pc s1 c = D1 st todo all /\
      (forall c', c' <> c -> s_pc s1 c' = s_pc s c') /\
      (forall h, s_lock s1 h = None) /\ s_refs s1 = rset (s_refs s) id None).
    { destruct (used (rset (s_refs s) id None) (s_next s) h) eqn:U.
      - exists 4%nat. eexists. cbn [repeat].
        split; [eapply exec_step1; [unfold step, run1; rewrite P; simp; reflexivity|go R U|reflexivity]|].
        cbn. rewrite pset_same. split; [reflexivity|]. split; [intros; rewrite !pset_other by assumption; reflexivity|]. split; [|reflexivity].
        intros k. unfold lset. destruct (str_dec k h); auto.
      - exists 5%nat. eexists. cbn [repeat].
        split; [eapply exec_step1; [unfold step, run1; rewrite P; simp; reflexivity|go R U|reflexivity]|].
        cbn. rewrite pset_same. split; [reflexivity|]. split; [intros; rewrite !pset_other by assumption; reflexivity|]. split; [|reflexivity].
        intros k. unfold lset. destruct (str_dec k h); auto. }
    destruct G as [n [s1 [E1 [P1 [O1 [L1 R1]]]]]].
    destruct (IH s1 c st all L1 P1 N2) as [ls [s2 [F [E2 [P2 [L2 [A B]]]]]]].
    { intros i k Q. rewrite R1. rewrite rset_other; [apply (RF i k); right; exact Q|].
      intros ->. apply N1. apply in_map_iff. exists (id, k). auto. }
    exists (repeat (Run c) n ++ ls), s2. split; [apply Forall_app; split; [apply Forall_forall; intros x X; apply repeat_spec in X; exact X|exact F]|].
    split; [rewrite exec_app, E1, E2; reflexivity|].
    split. { intros c'. rewrite P2. destruct (Nat.eqb c' c) eqn:Y; [reflexivity|]. apply Nat.eqb_neq in Y. auto. }
    split; [exact L2|]. cbn [map fst]. split.
    + intros i [<-|I]; [|auto]. cbn. destruct (in_dec Nat.eq_dec id (map fst todo)) as [I|I]; [auto|].
      rewrite (B id I). destruct all; [unfold drop_stream|]; rewrite R1, rset_same; reflexivity.
    + intros i I. cbn in I. assert (I1 : i <> id) by (intros ->; tauto). rewrite B by tauto.
      destruct all; [unfold drop_stream|]; rewrite R1, rset_other by assumption; reflexivity.
Qed.

(** delete_blocks(stream, from_num) removes the references of that stream from that number on,
    all of them if it is 0, and no others; delete_stream removes all of them. *)
Lemma delete_gen tr s c st from all : run any tr s -> quiescent s -> (all = true -> from = 0) ->
  exists ls s', Forall (fun l => l = Run c) ls /\
    exec (setpc s c (D0 st from all)) ls = Some (s', [EDone c]) /\
    quiescent s' /\
    forall i, s_refs s' i =
      match s_refs s i with
      | Some r => if Nat.eqb (r_stream r) st && ((from =? 0) || (from <=? r_num r)) then None else Some r
      | None => None
      end.
Proof.
  intros R Q AF. pose proof (fun h => c35_locks_released _ _ h R Q) as L.
  pose proof (l_next _ (s_linv _ _ (run_sinv _ _ _ R))) as NX.
  set (bl := blocklist (s_refs s) (s_next s) st from).
  set (s1 := setpc (setpc s c (D0 st from all)) c (D1 st bl all)).
  destruct (delete_loop bl s1 c st all) as [ls [s2 [F [E [P [L2 [A B]]]]]]].
  { exact L. } { cbn. apply pset_same. } { apply blocklist_nodup. }
  { intros i h H. apply blocklist_in in H. destruct H as [_ [n [H _]]]. cbn. congruence. }
  exists (Run c :: ls), s2. split; [constructor; [reflexivity|exact F]|].
  split. { eapply exec_step1; [unfold step, run1; simp; reflexivity|exact E|reflexivity]. }
  split. { intros c'. rewrite P. destruct (Nat.eqb c' c) eqn:Y; [reflexivity|]. apply Nat.eqb_neq in Y.
    cbn. rewrite !pset_other by assumption. apply Q. }
  intros i. destruct (in_dec Nat.eq_dec i (map fst bl)) as [I|I].
  - rewrite (A i I). apply in_map_iff in I. destruct I as [[j h] [<- I]]. apply blocklist_in in I.
    destruct I as [_ [n [H G]]]. cbn [fst]. rewrite H. cbn. rewrite Nat.eqb_refl. cbn.
    replace ((from =? 0) || (from <=? n)) with true; [reflexivity|]. symmetry. apply orb_true_iff.
    destruct G as [->|G]; [left; reflexivity|right; apply Z.leb_le; exact G].
  - rewrite (B i I). cbn.
    assert (NB : forall r, s_refs s i = Some r -> Nat.eqb (r_stream r) st && ((from =? 0) || (from <=? r_num r)) = false).
    { intros [a b k] H. cbn. destruct (Nat.eqb a st) eqn:Ea; [|reflexivity]. cbn. apply Nat.eqb_eq in Ea. subst a.
      destruct (_ || _) eqn:Eb; [|reflexivity]. exfalso. apply I. apply in_map_iff. exists (i, k). split; [reflexivity|].
      apply blocklist_in. split; [eauto|]. exists b. split; [exact H|]. apply orb_true_iff in Eb. destruct Eb; b2p; auto. }
    destruct (s_refs s i) as [r|] eqn:H.
    + rewrite (NB r eq_refl). destruct all; [|reflexivity]. unfold drop_stream. cbn. rewrite H.
      specialize (NB r eq_refl). rewrite (AF eq_refl) in NB. cbn in NB. rewrite andb_true_r in NB. rewrite NB. reflexivity.
    + destruct all; [|reflexivity]. unfold drop_stream. cbn. rewrite H. reflexivity.
Qed.

Theorem c35_delete_alone : forall tr s c st from,
  run any tr s -> quiescent s ->
  exists ls s', Forall (fun l => l = Run c) ls /\
    exec s (Call c (ODelete st from) :: ls) = Some (s', [EDone c]) /\ quiescent s' /\
    forall i, s_refs s' i =
      match s_refs s i with
      | Some r => if Nat.eqb (r_stream r) st && ((from =? 0) || (from <=? r_num r)) then None else Some r
      | None => None
      end.
Proof.
  intros tr s c st from R Q. destruct (delete_gen tr s c st from false R Q) as [ls [s' [F [E H]]]]; [discriminate|].
  exists ls, s'. split; [exact F|]. split; [|exact H].
  eapply exec_step1; [unfold step; rewrite (Q c); reflexivity|exact E|reflexivity].
Qed.
Print Assumptions c35_delete_alone.

Theorem c35_delete_stream_alone : forall tr s c st,
  run any tr s -> quiescent s ->
  exists ls s', Forall (fun l => l = Run c) ls /\
    exec s (Call c (ODeleteStream st) :: ls) = Some (s', [EDone c]) /\ quiescent s' /\
    forall i, s_refs s' i =
      match s_refs s i with Some r => if Nat.eqb (r_stream r) st then None else Some r | None => None end.
Proof.
  intros tr s c st R Q. destruct (delete_gen tr s c st 0 true R Q) as [ls [s' [F [E [Q' H]]]]]; [reflexivity|].
  exists ls, s'. split; [exact F|]. split.
  - eapply exec_step1; [unfold step; rewrite (Q c); reflexivity|exact E|reflexivity].
  - split; [exact Q'|]. intros i. rewrite H. destruct (s_refs s i); [|reflexivity]. cbn. rewrite andb_true_r. reflexivity.
Qed.
Print Assumptions c35_delete_stream_alone.

(** ** Where it fails *)
Lemma exec_run ok : forall ls tr s s' ev, run ok tr s -> exec s ls = Some (s', ev) ->
  (forall n s1 e1 l, exec s (firstn n ls) = Some (s1, e1) -> nth_error ls n = Some l -> ok s1 l) ->
  run ok (tr ++ ev) s'.
Proof.
  induction ls as [|l ls IH]; intros tr s s' ev Rn E P; cbn in E.
  - injection E as <- <-. rewrite app_nil_r. exact Rn.
  - destruct (step s l) as [[s1 e1]|] eqn:St; [|discriminate].
    destruct (exec s1 ls) as [[s2 e2]|] eqn:X; [|discriminate]. injection E as <- <-.
    rewrite app_assoc. eapply IH; [|exact X|].
    + eapply run_step; [exact Rn|exact St|]. exact (P 0%nat s nil l eq_refl eq_refl).
    + intros n s3 e3 l3 A B. apply (P (S n) s3 (e1 ++ e3) l3); [|exact B]. cbn. rewrite St, A. reflexivity.
Qed.
Ltac one_user_tac := clear; intros n s1 e1 l A B;
  repeat (destruct n as [|n]; [cbn in B; injection B as <-; first [exact I |
      vm_compute in A; injection A as <- <-;
      split; [intros c' N; destruct c' as [|[|c']]; cbn; try congruence; discriminate
             |cbn; first [exact I | eexists; reflexivity]]]|cbn in B]);
  destruct n; discriminate B.
Definition kA : str := lit "a". Definition kB : str := lit "b".
Notation R c := (Run c).

(** Two clients on one stream: client 1 deletes the stream between client 0's reading a block
    entity and its update_block; client 0 gets KeyError, and the block it stored stays in the
    block store for ever, without any reference. *)
Definition orphan_ls : list label :=
  [Call 0 (OStore 7 0 kA); R 0; R 0; R 0; R 0;
   Call 1 (ODeleteStream 7); R 1; R 1; R 1; R 1; R 1; R 1; R 1; R 1;
   Call 0 (OUpdate 7 0 kA kB); R 0; R 0; R 0; R 0; R 0; R 0].
Theorem c35_shared_refuted : exists tr s h,
  run any tr s /\ quiescent s /\ s_store s h = true /\ ~ refers s h /\
  (forall c i, ~ In (ELockError c i) tr).
Proof.
  destruct (exec init orphan_ls) as [[s tr]|] eqn:E; [|vm_compute in E; discriminate].
  exists tr, s, kB. split; [apply (exec_run any orphan_ls nil init s tr (run_nil any) E); intros ? ? ? ? _ _; exact I|].
  assert (NX := E). vm_compute in E. injection E as <- <-. split.
  - intros c. cbn. destruct c as [|[|c]]; reflexivity.
  - split; [reflexivity|]. split.
    + intros [i [r [H _]]]. cbn in H. destruct i as [|i]; discriminate.
    + intros c i [H|[H|[H|[]]]]; discriminate.
Qed.
Print Assumptions c35_shared_refuted.

(** A LockError in store_block leaves a reference to a block that is not in the block store. *)
Definition dangling_ls : list label := [Call 0 (OStore 7 0 kA); R 0; Err 0].
Theorem c35_lock_error_refuted : exists tr s id r,
  run one_user tr s /\ quiescent s /\ s_refs s id = Some r /\ s_store s (r_hash r) = false.
Proof.
  destruct (exec init dangling_ls) as [[s tr]|] eqn:E; [|vm_compute in E; discriminate].
  exists tr, s, 0%nat, (mkRef 7 0 kA). split.
  - apply (exec_run one_user dangling_ls nil init s tr (run_nil one_user) E). one_user_tac.
  - vm_compute in E. injection E as <- <-. repeat split; try reflexivity.
    intros c. destruct c as [|c]; reflexivity.
Qed.
Print Assumptions c35_lock_error_refuted.

(** Two update_block calls, from a to b and from b to a, on different streams, wait for each
    other until one of them times out. *)
Definition dead_ls : list label :=
  [Call 0 (OStore 7 0 kA); R 0; R 0; R 0; R 0;
   Call 1 (OStore 8 0 kB); R 1; R 1; R 1; R 1;
   Call 0 (OUpdate 7 0 kA kB); Call 1 (OUpdate 8 1 kB kA); R 0; R 1].
Theorem c35_deadlock_refuted : exists tr s,
  run one_user tr s /\ s_pc s 0%nat <> Idle /\ s_pc s 1%nat <> Idle /\
  (forall c, step s (Run c) = None).
Proof.
  destruct (exec init dead_ls) as [[s tr]|] eqn:E; [|vm_compute in E; discriminate].
  exists tr, s. split; [apply (exec_run one_user dead_ls nil init s tr (run_nil one_user) E); one_user_tac|].
  vm_compute in E. injection E as <- <-. repeat split; try discriminate.
  intros c. destruct c as [|[|c]]; reflexivity.
Qed.
Print Assumptions c35_deadlock_refuted.

(** A concrete execution with two clients storing the same block on different streams at the
    same time and one deleting its stream: the block survives. *)
Definition ex_ls : list label :=
  [Call 0 (OStore 7 0 kA); R 0; R 0; R 0; R 0; Call 1 (OStore 8 0 kA); Call 0 (ODeleteStream 7);
   R 0; R 0; R 0; R 1; R 0; R 0; R 1; R 1; R 1; R 0; R 0].
Example c35_ex : exists tr s, run one_user tr s /\ quiescent s /\ s_store s kA = true /\
  s_refs s 0%nat = None /\ s_refs s 1%nat = Some (mkRef 8 0 kA) /\ tr = [EDone 0; EDone 1; EDone 0]%nat.
Proof.
  destruct (exec init ex_ls) as [[s tr]|] eqn:E; [|vm_compute in E; discriminate].
  exists tr, s. split.
  - apply (exec_run one_user ex_ls nil init s tr (run_nil one_user) E). one_user_tac.
  - vm_compute in E. injection E as <- <-. repeat split; try reflexivity.
    intros c. destruct c as [|[|c]]; reflexivity.
Qed.
