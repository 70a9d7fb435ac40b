(** Property C33: FileBlockStore under every history, schedule and crash point. *)
From Verif Require Import Py FbsModel FbsSpec FbsProofs FbsHist.

(** at every point of every history, whatever clients were stopped where: a retrieve started
    now and not disturbed raises BlockMissing or returns a complete block with that hash *)
Theorem c33_any_point : forall hash mx tr s c k, run hash mx tr s -> s_cl s c = Idle ->
  (exists s1, step hash mx s (LCall c (ORetrieve k)) =
     Some (s1, [ECall c (ORetrieve k); ERet c VBlockMissing])) \/
  (exists s1 s2 d, step hash mx s (LCall c (ORetrieve k)) = Some (s1, [ECall c (ORetrieve k)]) /\
     step hash mx s1 (LRun c 0) = Some (s2, [ERet c (VData d)]) /\ hash d = k).
Proof.
  intros hash mx tr s c k R T. destruct (inv_run _ _ _ _ R) as (O & _). cbn [step]. rewrite T. unfold call.
  destruct (exists_ (s_fs s) (block_path k)) eqn:X; [right|left; eexists; reflexivity].
  unfold exists_ in X. pose proof (not_dir3 hash _ k O).
  destruct (s_fs s (block_path k)) as [[|w]|] eqn:F; try congruence.
  eexists _, _, w. split; [reflexivity|]. cbn [s_fs s_cl]. unfold cupd. rewrite Nat.eqb_refl. cbn [run1].
  unfold sys_read. rewrite F. split; [reflexivity|]. eapply block_content; eauto.
Qed.

(** and with any interleaving: what retrieve returns is a complete block with that hash, or
    BlockMissing, or an OSError if the block was removed during the call *)
Theorem c33_retrieve_partial : forall hash mx tr s c k m v b, run hash mx tr s ->
  completed tr c (ORetrieve k) m v b ->
  v = VBlockMissing \/ (exists d, v = VData d /\ hash d = k) \/ (v = VOSError /\ In (ERemoved k) m).
Proof. intros hash mx tr s c k m v b R C. exact (completed_good _ _ _ _ _ _ _ _ _ R C). Qed.

(** a store that completed gave the hash of the data, and from then on, until the block is
    removed, retrieve (started by any idle client) finds a block with that hash; the very same
    data if the hash has no collision for it *)
Theorem c33_durable : forall hash mx tr s c d m k b, run hash mx tr s ->
  completed tr c (OStore d) m (VKey k) b ->
  k = hash d /\
  (~ In (ERemoved k) b -> forall c', s_cl s c' = Idle ->
   exists s1 s2 d', step hash mx s (LCall c' (ORetrieve k)) = Some (s1, [ECall c' (ORetrieve k)]) /\
     step hash mx s1 (LRun c' 0) = Some (s2, [ERet c' (VData d')]) /\ hash d' = k /\
     ((forall d'', hash d'' = hash d -> d'' = d) -> d' = d)).
Proof.
  intros hash mx tr s c d m k b R C. pose proof (completed_good _ _ _ _ _ _ _ _ _ R C) as G. cbn in G.
  destruct G as [(E & G)|[G|(G & _)]]; try discriminate. injection E as ->. split; auto.
  intros NR c' T. destruct G as [G|G]; [tauto|].
  destruct (c33_any_point _ _ _ _ c' (hash d) R T) as [(s1 & S)|(s1 & s2 & d' & S1 & S2 & H)].
  - cbn [step] in S. rewrite T in S. unfold call in S. rewrite G in S. discriminate.
  - exists s1, s2, d'. psplit; auto.
Qed.

(** store refuses only data that is too big *)
Theorem c33_store_outcome : forall hash mx tr s c d m v b, run hash mx tr s ->
  completed tr c (OStore d) m v b ->
  v = VKey (hash d) \/ v = VOSError \/ (v = VBlockSize /\ mx < Z.of_nat (length d)).
Proof.
  intros hash mx tr s c d m v b R C. pose proof (completed_good _ _ _ _ _ _ _ _ _ R C) as G. cbn in G. tauto.
Qed.

(** whatever other clients left behind, a store of small enough data, run to its end without
    a failing system call, succeeds *)
Definition only_runs (c : nat) (ls : list label) : Prop := forall l, In l ls -> exists n, l = LRun c n.
Lemma store_tail hash mx s c d : inv hash s -> s_cl s c = SMove d ->
  exists s', exec hash mx s [LRun c 0] = Some (s', [ERet c (VKey (hash d))]).
Proof.
  intros (O & C) T. specialize (C c). rewrite T in C. destruct C as (C1 & C2).
  cbn [exec step]. rewrite T. cbn [run1]. unfold sys_rename. rewrite C1.
  change (removelast (block_path (hash d))) with (block_dir (hash d)).
  apply is_dir_true in C2. rewrite C2. pose proof (not_dir3 hash _ (hash d) O) as N. apply is_dir_false in N.
  rewrite N. cbn. eauto.
Qed.
Lemma exec_cons hash mx s l ls s1 e1 s2 e2 : step hash mx s l = Some (s1, e1) -> exec hash mx s1 ls = Some (s2, e2) ->
  exec hash mx s (l :: ls) = Some (s2, e1 ++ e2).
Proof. intros A B. cbn [exec]. rewrite A, B. reflexivity. Qed.
Lemma exec_app hash mx b s4 ev2 : forall ls s a ev1, exec hash mx s ls = Some (a, ev1) ->
  exec hash mx a b = Some (s4, ev2) -> exec hash mx s (ls ++ b) = Some (s4, ev1 ++ ev2).
Proof.
  induction ls as [|l ls IH]; intros t a ev1 A B; cbn [exec app] in *.
  - injection A as <- <-. exact B.
  - destruct (step hash mx t l) as [[sa ea]|]; [|discriminate].
    destruct (exec hash mx sa ls) as [[sb eb]|] eqn:X; [|discriminate]. injection A as <- <-.
    rewrite (IH _ _ _ X B). rewrite app_assoc. reflexivity.
Qed.
Lemma silent hash mx s c n f' st : run1 hash (s_fs s) c n (s_cl s c) = Some (f', st, None, nil) ->
  step hash mx s (LRun c n) = Some (mkSys f' (cupd (s_cl s) c st), nil).
Proof. intros E. cbn [step]. rewrite E. reflexivity. Qed.
Lemma store_parent hash mx s c d : inv hash s -> s_cl s c = SParent d ->
  exists ls s', only_runs c ls /\ exec hash mx s ls = Some (s', [ERet c (VKey (hash d))]).
Proof.
  intros I T.
  assert (forall s, inv hash s -> s_cl s c = SMk2 d ->
    exists ls s', only_runs c ls /\ exec hash mx s ls = Some (s', [ERet c (VKey (hash d))])) as K2.
  { clear s I T. intros s I T.
    assert (exists f, step hash mx s (LRun c 0) = Some (mkSys f (cupd (s_cl s) c (SMove d)), nil)) as (f & S).
    { cbn [step]. rewrite T. cbn [run1]. destruct (sys_mkdir _ _); eauto. }
    pose proof (inv_step _ _ _ _ _ _ I S) as I'.
    destruct (store_tail hash mx _ c d I') as (s' & E); [cbn; unfold cupd; rewrite Nat.eqb_refl; reflexivity|].
    exists [LRun c 0; LRun c 0], s'. split; [intros l [<-|[<-|[]]]; eauto|].
    apply (exec_cons _ _ _ _ _ _ _ _ _ S E). }
  assert (step hash mx s (LRun c 0) = Some (mkSys (s_fs s) (cupd (s_cl s) c (if exists_ (s_fs s) (block_dir (hash d)) then SMove d else SMk1 d)), nil)) as S.
  { cbn [step]. rewrite T. reflexivity. }
  pose proof (inv_step _ _ _ _ _ _ I S) as I'.
  destruct (exists_ (s_fs s) (block_dir (hash d))).
  - destruct (store_tail hash mx _ c d I') as (s' & E); [cbn; unfold cupd; rewrite Nat.eqb_refl; reflexivity|].
    exists [LRun c 0; LRun c 0], s'. split; [intros l [<-|[<-|[]]]; eauto|].
    apply (exec_cons _ _ _ _ _ _ _ _ _ S E).
  - set (s1 := mkSys (s_fs s) (cupd (s_cl s) c (SMk1 d))) in *.
    assert (s_cl s1 c = SMk1 d) as T1 by (cbn; unfold cupd; rewrite Nat.eqb_refl; reflexivity).
    assert (exists f, step hash mx s1 (LRun c 0) = Some (mkSys f (cupd (s_cl s1) c (SMk2 d)), nil)) as (f & S1).
    { cbn [step]. rewrite T1. cbn [run1]. destruct (sys_mkdir _ _); eauto. }
    pose proof (inv_step _ _ _ _ _ _ I' S1) as I1.
    destruct (K2 _ I1) as (ls & s' & L & E); [cbn; unfold cupd; rewrite Nat.eqb_refl; reflexivity|].
    exists (LRun c 0 :: LRun c 0 :: ls), s'. split; [intros l [<-|[<-|H]]; eauto|].
    apply (exec_cons _ _ _ _ _ _ _ _ _ S). apply (exec_cons _ _ _ _ _ _ _ _ _ S1 E).
Qed.
Theorem c33_store_completes : forall hash mx tr s c d, run hash mx tr s -> s_cl s c = Idle ->
  Z.of_nat (length d) <= mx ->
  exists ls s', only_runs c ls /\
    exec hash mx s (LCall c (OStore d) :: ls) = Some (s', [ECall c (OStore d); ERet c (VKey (hash d))]).
Proof.
  intros hash mx tr s c d R T L. pose proof (inv_run _ _ _ _ R) as I.
  destruct (exists_ (s_fs s) (block_path (hash d))) eqn:X.
  { exists nil. eexists. split; [intros l []|]. cbn [exec step]. rewrite T. unfold call. rewrite X. cbn. reflexivity. }
  assert (mx <? Z.of_nat (length d) = false) as Lb by (apply Z.ltb_ge; lia).
  assert (step hash mx s (LCall c (OStore d)) = Some (mkSys (s_fs s) (cupd (s_cl s) c (SOpen d)), [ECall c (OStore d)])) as S.
  { cbn [step]. rewrite T. unfold call. rewrite X, Lb. reflexivity. }
  pose proof (inv_step _ _ _ _ _ _ I S) as I1.
  set (s1 := mkSys (s_fs s) (cupd (s_cl s) c (SOpen d))) in *.
  assert (s_cl s1 c = SOpen d) as T1 by (cbn; unfold cupd; rewrite Nat.eqb_refl; reflexivity).
  assert (exists f, step hash mx s1 (LRun c 0) = Some (mkSys f (cupd (s_cl s1) c (SWrite d d)), nil)) as (f & S1).
  { cbn [step]. rewrite T1. cbn [run1 s1 s_fs]. unfold sys_create. change (removelast (tmp_path c (hash d))) with tmp_dir.
    assert (is_dir (s_fs s) tmp_dir = true) as -> by (apply is_dir_true; apply I).
    assert (is_dir (s_fs s) (tmp_path c (hash d)) = false) as -> by (apply is_dir_false, (tmp_nodir hash); apply I). cbn. eauto. }
  pose proof (inv_step _ _ _ _ _ _ I1 S1) as I2.
  set (s2 := mkSys f (cupd (s_cl s1) c (SWrite d d))) in *.
  assert (s_cl s2 c = SWrite d d) as T2 by (cbn; unfold cupd; rewrite Nat.eqb_refl; reflexivity).
  assert (exists ls0 s3, only_runs c ls0 /\ exec hash mx s2 ls0 = Some (s3, nil) /\ s_cl s3 c = SParent d /\ inv hash s3)
    as (ls0 & s3 & W1 & W2 & W3 & W4).
  { pose proof (proj2 I2 c) as C2. rewrite T2 in C2. destruct C2 as (w & C2 & C3).
    destruct d as [|x d].
    - eexists [LRun c 0], _. split; [intros l [<-|[]]; eauto|].
      assert (step hash mx s2 (LRun c 0) = Some (mkSys f (cupd (s_cl s2) c (SParent nil)), nil)) as S2.
      { cbn [step]. rewrite T2. reflexivity. }
      split; [apply (exec_cons _ _ _ _ _ _ _ _ _ S2); reflexivity|].
      split; [cbn; unfold cupd; rewrite Nat.eqb_refl; reflexivity|eapply inv_step; eauto].
    - exists [LRun c (length (x :: d)); LRun c 0].
      assert (exists g, step hash mx s2 (LRun c (length (x :: d))) = Some (mkSys g (cupd (s_cl s2) c (SWrite (x :: d) nil)), nil)) as (g & S2).
      { cbn [step]. rewrite T2. cbn [run1]. unfold sys_append. rewrite C2. rewrite skipn_all. eauto. }
      pose proof (inv_step _ _ _ _ _ _ I2 S2) as I3.
      set (s3 := mkSys g (cupd (s_cl s2) c (SWrite (x :: d) nil))) in *.
      assert (s_cl s3 c = SWrite (x :: d) nil) as T3 by (cbn; unfold cupd; rewrite Nat.eqb_refl; reflexivity).
      assert (step hash mx s3 (LRun c 0) = Some (mkSys g (cupd (s_cl s3) c (SParent (x :: d))), nil)) as S3.
      { cbn [step]. rewrite T3. reflexivity. }
      eexists. split; [intros l [<-|[<-|[]]]; eauto|].
      split; [apply (exec_cons _ _ _ _ _ _ _ _ _ S2); apply (exec_cons _ _ _ _ _ _ _ _ _ S3); reflexivity|].
      split; [cbn; unfold cupd; rewrite Nat.eqb_refl; reflexivity|eapply inv_step; eauto]. }
  destruct (store_parent hash mx s3 c d W4 W3) as (ls1 & s' & L1 & E1).
  exists (LRun c 0 :: ls0 ++ ls1), s'. split.
  - intros l [<-|H]; [eauto|]. apply in_app_or in H as [H|H]; auto.
  - apply (exec_cons _ _ _ _ _ _ _ _ _ S). apply (exec_cons _ _ _ _ _ _ _ _ _ S1).
    exact (exec_app _ _ _ _ _ _ _ _ _ W2 E1).
Qed.

(** a concrete hash for the examples: good enough to have the shape of a key *)
Definition h0 (d : str) : str := lit "abcd" ++ d.

(** two clients, one crashes while writing, another stores the same block; removal; a race *)
Example c33_case : exists s tr,
  exec h0 9 init
    [LCall 1 (OStore (lit "hello")); LRun 1 0; LRun 1 3; LCall 2 (OStore (lit "hello")); LRun 2 0;
     LCrash 1; LCall 3 (ORetrieve (lit "abcdhello")); LRun 2 2; LRun 2 2; LRun 2 9; LRun 2 0; LRun 2 0;
     LRun 2 0; LRun 2 0; LRun 2 0; LCall 3 (ORetrieve (lit "abcdhello")); LRun 3 0;
     LCall 3 (ODelete (lit "abcdhello")); LRun 3 0; LCall 3 (ORetrieve (lit "abcdhello"));
     LCall 2 (OStore (lit "0123456789"))] = Some (s, tr) /\
  tr = [ECall 1 (OStore (lit "hello")); ECall 2 (OStore (lit "hello"));
        ECall 3 (ORetrieve (lit "abcdhello")); ERet 3 VBlockMissing;
        ERet 2 (VKey (lit "abcdhello"));
        ECall 3 (ORetrieve (lit "abcdhello")); ERet 3 (VData (lit "hello"));
        ECall 3 (ODelete (lit "abcdhello")); ERemoved (lit "abcdhello"); ERet 3 VNone;
        ECall 3 (ORetrieve (lit "abcdhello")); ERet 3 VBlockMissing;
        ECall 2 (OStore (lit "0123456789")); ERet 2 VBlockSize].
Proof. eexists _, _. split; vm_compute; reflexivity. Qed.

Lemma exec_run hash mx ls : forall s tr s' ev, run hash mx tr s -> exec hash mx s ls = Some (s', ev) -> run hash mx (tr ++ ev) s'.
Proof.
  induction ls as [|l ls IH]; intros s tr s' ev R E; cbn [exec] in E.
  - injection E as <- <-. rewrite app_nil_r. exact R.
  - destruct (step hash mx s l) as [[s1 e1]|] eqn:S; [|discriminate].
    destruct (exec hash mx s1 ls) as [[s2 e2]|] eqn:X; [|discriminate]. injection E as <- <-.
    rewrite app_assoc. eapply IH; [|exact X]. econstructor; eauto.
Qed.

(** a delete between the existence test and the opening of the file makes retrieve raise
    OSError, neither BlockMissing nor data *)
Theorem c33_retrieve_refuted : exists s tr m b,
  run h0 9 tr s /\ completed tr 3 (ORetrieve (lit "abcdhello")) m VOSError b.
Proof.
  destruct (exec h0 9 init
    [LCall 2 (OStore (lit "hello")); LRun 2 0; LRun 2 9; LRun 2 0; LRun 2 0; LRun 2 0; LRun 2 0; LRun 2 0;
     LCall 3 (ORetrieve (lit "abcdhello")); LCall 2 (ODelete (lit "abcdhello")); LRun 2 0; LRun 3 0])
    as [[s tr]|] eqn:E; [|vm_compute in E; discriminate].
  exists s, tr, (firstn 3 (skipn 3 tr)), nil. split; [apply (exec_run _ _ _ _ nil _ _ (run_nil _ _) E)|].
  vm_compute in E. injection E as _ <-.
  match goal with |- completed ?tr _ _ _ _ _ => exists (firstn 2 tr) end. split; [vm_compute; reflexivity|].
  intros e I. cbn in I. repeat (destruct I as [<-|I]; [try discriminate; exact I || (cbn; auto; discriminate)|]). destruct I.
Qed.

Print Assumptions c33_any_point.
Print Assumptions c33_retrieve_partial.
Print Assumptions c33_durable.
Print Assumptions c33_store_outcome.
Print Assumptions c33_store_completes.
Print Assumptions c33_retrieve_refuted.
