(** C88-C92: the pool of database connections. *)
From Verif Require Import SpModel SpInv SpClean SpSys SpStep SpLive SpWake SpSpec SpFill SpEnd.

Definition all (e : event) : Prop := True.
(** no reconnection fails *)
Definition no_retry_error (e : event) : Prop := forall t, e <> RetryRaises t.
(** the most connections that the container may have *)
Definition max_open (ts0 : bool) (maxc : nat) : nat := if ts0 then 1 else maxc.

Lemma not_emptied : forall l, ~ emptied l -> swept l = false.
Proof.
  intros l H. apply not_true_is_false. intro E. apply H. apply existsb_exists in E as (e & H1 & H2). destruct e; try discriminate. eexists. exact H1.
Qed.

Section props.
  Variables ts0 recycle : bool.
  Variable maxc : nat.
  Notation run := (run ts0 recycle maxc).

  (** C88: a connection is used by one thread at a time *)
  Theorem c88_exclusive : forall E l s, run E l s -> forall t u i, In (t, i) (outstanding l) -> In (u, i) (outstanding l) -> t = u.
  Proof.
    intros E l s R t u i H H'. destruct (run_inv _ _ _ _ _ _ R) as (Y & _). rewrite <- (run_handles _ _ _ _ _ _ R) in *.
    apply (y_handle _ _ _ _ _ _ _ _ _ _ _ Y) in H as [_ H], H' as [_ H']. congruence.
  Qed.
  Theorem c88_connection : forall E l s, run E l s -> forall t u i j d, In (t, i) (outstanding l) -> In (u, j) (outstanding l) ->
    connection s i = Some d -> connection s j = Some d -> t = u /\ i = j.
  Proof.
    intros E l s R t u i j d H H' Hi Hj. destruct (run_inv _ _ _ _ _ _ R) as (Y & _). assert (i = j) as <- by (eapply (y_inj _ _ _ _ _ _ _ _ _ _ _ Y); eassumption).
    split; [eapply c88_exclusive; eassumption|reflexivity].
  Qed.
  (** and a thread that acquires twice gets the same connection again *)
  Theorem c88_nested : forall E l s, run E l s -> ~ emptied l -> forall t i j, alive s t = true -> ~ (pcs s t = Closing \/ exists b n, pcs s t = CWait b n) ->
    In (t, i) (outstanding l) -> In (t, j) (outstanding l) -> i = j.
  Proof.
    intros E l s R Ne t i j A C H H'. destruct (run_inv _ _ _ _ _ _ R) as (Y & _). rewrite (not_emptied l Ne) in Y. rewrite <- (run_handles _ _ _ _ _ _ R) in *.
    assert (L : forall k, In (t, k) (handles s) -> In (t, k) (locked (P s))).
    { intros k K. destruct (y_held _ _ _ _ _ _ _ _ _ _ _ Y t k K) as [F|[F|[F|F]]]; [exact F|congruence|contradiction|discriminate]. }
    apply L in H, H'. pose proof (k_lkeys _ _ _ (y_ok _ _ _ _ _ _ _ _ _ _ _ Y)) as N. apply (lookup_some _ _ _ N) in H, H'. congruence.
  Qed.

  (** C89: the number of open connections *)
  Theorem c89_bound : forall E l s, run E l s -> ~ emptied l -> length (opened s) <= max_open ts0 maxc + length (pend s).
  Proof.
    intros E l s R Ne. destruct (run_inv _ _ _ _ _ _ R) as (Y & _). rewrite (not_emptied l Ne) in Y. apply opened_count, Y.
  Qed.
  Theorem c89_settled : forall E l s, run E l s -> closing s = false -> (forall t, ~ cleaning s t) -> length (opened s) <= max_open ts0 maxc.
  Proof.
    intros E l s R C N. assert (Ne : swept l = false) by (apply not_true_is_false; intro F; rewrite (run_swept _ _ _ _ _ _ R F) in C; discriminate).
    destruct (run_inv _ _ _ _ _ _ R) as (Y & Cl & _). rewrite Ne in Y. apply opened_count in Y. assert (Ep : pend s = []).
    { destruct (pend s) as [|[t d] r] eqn:Ed; [reflexivity|]. exfalso. assert (F : leaves (pcs s t)) by (apply (run_owned _ _ _ _ _ _ R t d); rewrite Ed; left; reflexivity).
      destruct F as [F|F]; [destruct (N t F)|rewrite (Cl t F) in C; discriminate]. }
    rewrite Ep in Y. cbn [length] in Y. unfold max_open. unfold cpool_max in Y. lia.
  Qed.

  (** C90: what was acquired is open *)
  Theorem c90_open : forall l s, run no_retry_error l s -> ~ emptied l -> forall t i, In (t, i) (outstanding l) -> alive s t = true -> pcs s t = Out ->
    exists d, connection s i = Some d /\ In d (opened s).
  Proof.
    intros l s R Ne t i H A O. destruct (run_inv _ _ _ _ _ _ R) as (Y & _). rewrite (not_emptied l Ne) in Y. rewrite <- (run_handles _ _ _ _ _ _ R) in *.
    destruct (run_filled _ _ _ _ _ _ R t i H) as [D _]. unfold connection. unfold dbc in D. destruct (i_dbc (items (P s) i)) as [d|] eqn:Ed; [|congruence]. exists d. split; [reflexivity|].
    assert (V : live s) by (eapply run_live; [|exact R]; intros u F; apply (F u); reflexivity). apply (V i d); [|exact Ed|].
    - apply tabs_split. left. destruct (y_held _ _ _ _ _ _ _ _ _ _ _ Y t i H) as [F|[F|[F|F]]]; [eapply in_vals, F|congruence| |discriminate].
      rewrite O in F. destruct F as [F|(? & ? & F)]; discriminate.
    - intros u Eu. pose proof (y_reopen _ _ _ _ _ _ _ _ _ _ _ Y u i Eu) as F. assert (u = t) as -> by (eapply one_thread; [exact Y|right; exact F|right; exact H]). congruence.
  Qed.

  (** C92: close() *)
  Theorem c92_close : forall E l s t s', run E l s -> ~ emptied l -> step ts0 recycle maxc s (Swept t) s' -> forall d, In d (opened s') -> exists u, In (u, d) (pend s').
  Proof.
    intros E l s t s' R Ne H. destruct (run_inv _ _ _ _ _ _ R) as (Y & _). rewrite (not_emptied l Ne) in Y. eapply step_pending; [exact H|exact Y|reflexivity].
  Qed.
  Theorem c92_after : forall E l s t s', run E l s -> ~ emptied l -> step ts0 recycle maxc s (Swept t) s' ->
    outstanding l = [] -> (forall u, ~ acquiring s' u /\ ~ reconnecting s' u) ->
    forall l' s'', steps ts0 recycle maxc s' l' s'' ->
      (forall u i, ~ In (Acquired u i) l') /\ (forall d, In d (opened s'') -> In d (opened s')) /\ ((forall u, pcs s'' u = Out) -> opened s'' = []).
  Proof.
    intros E l s t s' R Ne H Ho Hq l' s'' St. destruct (run_inv _ _ _ _ _ _ R) as (Y & C & _). rewrite (not_emptied l Ne) in Y.
    assert (Q : pending s') by (eapply step_pending; [exact H|exact Y|reflexivity]).
    assert (O : over s').
    { constructor; [eapply swept_closing; [exact H|exact C|reflexivity]|rewrite (step_handles _ _ _ _ _ _ H), (run_handles _ _ _ _ _ _ R), Ho; reflexivity|]. intro u. destruct (Hq u) as [N1 N2]. unfold resting, leaves, in_close.
      destruct (pcs s' u) as [|b|b|i|i|i| |b n|] eqn:Eu; try (solve [auto|left; reflexivity|right; left; reflexivity|right; right; left; reflexivity|right; right; right; eauto]);
        exfalso; [apply N1; left|apply N1; right; left|apply N1; right; right; left|apply N1; right; right; right|apply N2]; eexists; exact Eu. }
    assert (W : owned s') by (eapply step_owned; [exact H|eapply run_owned; exact R]).
    clear -St Q O W. induction St as [s'|s' l x e y St IH H].
    - split; [intros u i []|]. split; [auto|]. intro Z. destruct (opened s') as [|d o] eqn:Ed; [reflexivity|]. exfalso. destruct (Q d) as (u & F); [rewrite Ed; left; reflexivity|].
      apply W in F. rewrite Z in F. destruct F as [F|[F|(? & ? & F)]]; discriminate.
    - specialize (IH Q O W). destruct IH as (I1 & I2 & _). 
      assert (X : over x /\ pending x /\ owned x).
      { clear -St Q O W. induction St as [|s' l x e y St IH H]; [auto|]. destruct (IH Q O W) as (A & B & C). destruct (step_over _ _ _ _ _ _ H A) as (D & _ & _ & F). split; [exact D|]. split; [auto|eapply step_owned; eassumption]. }
      destruct X as (A & B & C). destruct (step_over _ _ _ _ _ _ H A) as (D & N & F & G). pose proof (step_owned _ _ _ _ _ _ H C) as C'. specialize (G B). split; [|split].
      + intros u i [K|K]; [destruct (N u i K)|apply (I1 u i K)].
      + intros d K. apply I2, F, K.
      + intro Z. destruct (opened y) as [|d o] eqn:Ed; [reflexivity|]. exfalso. destruct (G d) as (u & K); [rewrite Ed; left; reflexivity|].
        apply C' in K. rewrite Z in K. destruct K as [K|[K|(? & ? & K)]]; discriminate.
  Qed.
  Lemma steps_dead : forall s l s', steps ts0 recycle maxc s l s' -> dead_end ts0 maxc s -> dead_end ts0 maxc s' /\ (forall t i, ~ In (Acquired t i) l) /\ forall u, asleep u s -> asleep u s'.
  Proof.
    intros s l s' H D. induction H as [|s l x e y H IH K]; [auto|]. destruct (IH D) as (A & B & C). destruct (step_dead _ _ _ _ _ _ K A) as (A' & B' & C'). split; [exact A'|]. split; [|auto].
    intros t i [F|F]; [destruct (B' t i F)|apply (B t i F)].
  Qed.
End props.

(** C91: nobody waits while there is a connection to be had, if threads may share the module (threadsafety is 1 or more): a
    thread that waits has been notified, or another one has and did not yet run, or every connection is in use *)
Theorem c91_wake : forall recycle maxc E l s, run false recycle maxc E l s -> closing s = false -> forall t b, pcs s t = WaitConn b ->
  In t (waits s ++ woken s) /\ (woken s = [] -> unlocked (P s) = [] /\ idle (P s) = [] /\ size (P s) = maxc).
Proof.
  intros recycle maxc E l s R C t b H. destruct (run_awake _ _ _ _ _ R) as [A Q]. specialize (Q t b H). split; [exact Q|]. intro Ew. rewrite Ew, app_nil_r in Q.
  assert (W : waits s <> []) by (intro F; rewrite F in Q; destruct Q). specialize (A C W). rewrite Ew in A. cbn [length] in A.
  destruct (run_inv _ _ _ _ _ _ R) as (Y & _). pose proof (k_max _ _ _ (y_ok _ _ _ _ _ _ _ _ _ _ _ Y)) as K. unfold avail, free in A. rewrite app_length in A. unfold vals in A. rewrite map_length in A. unfold cpool_max in *.
  split; [destruct (unlocked (P s)); [reflexivity|cbn in A; lia]|]. split; [destruct (idle (P s)); [reflexivity|cbn in A; lia]|lia].
Qed.
(** acquire_connection gives up only if close() was called, or every connection is in use *)
Theorem c91_gives_up : forall recycle maxc E l s t s', run false recycle maxc E l s -> step false recycle maxc s (NoneAcquired t) s' ->
  closing s = true \/ (unlocked (P s) = [] /\ idle (P s) = [] /\ maxc <= size (P s)).
Proof.
  intros recycle maxc E l s t s' R H. destruct (run_inv _ _ _ _ _ _ R) as (Y & _ & N & _).
  assert (Sr : forall u k b e q v, (exists w, snd (search false recycle maxc u k b e (set_waits q v s)) = NoneAcquired w) -> unlocked (P s) = [] /\ idle (P s) = [] /\ maxc <= size (P s)).
  { intros u k b e q v (w & F). unfold search in F. cbn [set_waits P] in F. destruct (take false recycle maxc u k (P s)) as [[[i fl] p]|] eqn:T.
    - exfalso. unfold got in F. destruct fl; [discriminate|]. destruct (i_dbc _); discriminate.
    - unfold take in T. destruct (lookup u (unlocked (P s))); [discriminate|]. destruct (idle (P s)) eqn:Ei; [|discriminate]. destruct (Nat.ltb_spec (size (P s)) (cpool_max false maxc)) as [|L]; [discriminate|].
      destruct (pick k (unlocked (P s))) as [[]|] eqn:Pk; [discriminate|]. apply pick_none in Pk. auto. }
  remember (NoneAcquired t) as ev eqn:Ev. destruct H; try discriminate.
  - unfold acquire in Ev. destruct (closing s); [auto|]. right. unfold enter in Ev. cbn [mod_acquire] in Ev. destruct (lookup t0 (locked (P s))).
    + exfalso. unfold got in Ev. destruct (i_dbc _); discriminate.
    + apply (Sr t0 k tmo expired (waits s) (woken s)). exists t. destruct s; exact Ev.
  - exfalso. apply (N eq_refl _ _ H).
  - exfalso. apply (N eq_refl _ _ H).
  - right. subst x. eapply Sr. exists t. exact Ev.
  - right. subst x. eapply Sr. exists t. exact Ev.
  - exfalso. unfold release in Ev. destruct (locked_for _ _ _); [destruct (mod_release _ _ _); [destruct (unlock _ _ _)|]; discriminate|]. destruct (existsb _ _); discriminate.
  - exfalso. subst x. unfold close_turn in Ev. destruct (sweep _ _ _). destruct (_ && _); [|destruct (force _)]; discriminate.
  - exfalso. subst x. unfold close_turn in Ev. destruct (sweep _ _ _). destruct (_ && _); [|destruct (force _)]; discriminate.
  - exfalso. subst x. unfold close_turn in Ev. destruct (sweep _ _ _). destruct (_ && _); [|destruct (force _)]; discriminate.
Qed.

(** Runs *)
Lemma run_such : forall ts0 recycle maxc E E' l s, run ts0 recycle maxc E l s -> Forall E' l -> run ts0 recycle maxc E' l s.
Proof. induction 1 as [|l s e s' R IH H He]; intro F; [constructor|]. inversion F; subst. econstructor; eauto. Qed.
Ltac side := first [reflexivity|left; reflexivity|discriminate|intros ? []].
Tactic Notation "then_" hyp(R) uconstr(c) :=
  lazymatch type of R with
  | run ?a ?b ?m all ?l ?s =>
    let Q := fresh in let Q' := fresh in
    eassert (Q : step a b m s _ _); [unshelve (eapply c); side|]; pose proof (run_step a b m all l s _ _ R Q Logic.I) as Q'; clear Q R; rename Q' into R
  end.
Ltac here R := eexists; eexists; split; [exact R|].

(** two threads, with a connection each; the first acquires its own again *)
Example c88_ex : exists l s, run false false 2 all l s /\ outstanding l = [(1, 0); (2, 1); (1, 0)] /\ connection s 0 = Some 0 /\ connection s 1 = Some 1 /\ opened s = [1; 0] /\
  alive s 1 = true /\ pcs s 1 = Out /\ ~ emptied l /\ closing s = false /\ (forall t, ~ cleaning s t) /\ run false false 2 no_retry_error l s.
Proof.
  pose proof (run_init false false 2 all) as R.
  then_ R (s_acquire false false 2 _ 1 0 false false). then_ R (s_open false false 2 _ 1 0).
  then_ R (s_acquire false false 2 _ 2 0 false false). then_ R (s_open false false 2 _ 2 1).
  then_ R (s_acquire false false 2 _ 1 0 false false).
  here R. split; [reflexivity|]. split; [reflexivity|]. split; [reflexivity|]. split; [reflexivity|]. split; [reflexivity|]. split; [reflexivity|]. split; [intros (t & H); vm_compute in H; intuition discriminate|].
  split; [reflexivity|]. split; [intros t H; unfold cleaning in H; revert H; destruct t as [|[|[|t]]]; discriminate|].
  eapply run_such; [exact R|]. repeat (constructor; [intros t; vm_compute; discriminate|]). constructor.
Qed.
(** C89: while pool_cleaner runs there may be more connections than max_connections: it gives their places away before it
    closes them *)
Theorem c89_max_refuted : ~ forall ts0 recycle maxc l s, run ts0 recycle maxc all l s -> closing s = false -> length (opened s) <= max_open ts0 maxc.
Proof.
  intro H. assert (X : exists l s, run false false 1 all l s /\ closing s = false /\ length (opened s) = 2).
  { pose proof (run_init false false 1 all) as R.
    then_ R (s_acquire false false 1 _ 1 0 false false). then_ R (s_open false false 1 _ 1 0).
    then_ R (s_release false false 1 _ 1 1 0).
    then_ R (s_clean false false 1 _ 2 (fun _ => true)).
    then_ R (s_acquire false false 1 _ 1 0 false false). then_ R (s_open false false 1 _ 1 1).
    here R. split; reflexivity. }
  destruct X as (l & s & R & C & L). specialize (H false false 1 l s R C). rewrite L in H. cbn in H. lia.
Qed.
(** C90: not if a reconnection failed: the item keeps the connection that was closed, and later calls of acquire_connection
    return it *)
Theorem c90_open_refuted : exists l s, run false false 1 all l s /\ ~ emptied l /\ outstanding l = [(2, 0)] /\ alive s 2 = true /\ pcs s 2 = Out /\ connection s 0 = Some 0 /\ opened s = [].
Proof.
  pose proof (run_init false false 1 all) as R.
  then_ R (s_acquire false false 1 _ 2 0 false false). then_ R (s_open false false 1 _ 2 0).
  then_ R (s_retry false false 1 _ 2 0 0). then_ R (s_reopen_raises false false 1 _ 2 0).
  then_ R (s_release false false 1 _ 2 2 0).
  then_ R (s_acquire false false 1 _ 2 0 false false).
  here R. split; [intros (t & H); vm_compute in H; intuition discriminate|]. repeat split; reflexivity.
Qed.
(** C90: a thread that terminates without releasing its connection takes its place along: the connection is closed, but
    nobody will ever acquire one again *)
Theorem c90_leak_refuted : exists l s, run false false 1 all l s /\ closing s = false /\ opened s = [] /\ (forall t, alive s t = true -> forall i, ~ In (t, i) (outstanding l)) /\ (forall t, pcs s t = Out) /\
  forall l' s', steps false false 1 s l' s' -> forall t i, ~ In (Acquired t i) l'.
Proof.
  pose proof (run_init false false 1 all) as R.
  then_ R (s_acquire false false 1 _ 1 0 false false). then_ R (s_open false false 1 _ 1 0).
  then_ R (s_dies false false 1 _ 1). then_ R (s_clean false false 1 _ 2 (fun _ => false)).
  then_ R (s_finish false false 1 _ 2 0). then_ R (s_finished false false 1 _ 2).
  here R. split; [reflexivity|]. split; [reflexivity|]. split; [intros [|[|t]] A i H; vm_compute in A, H; intuition congruence|]. split; [intros [|[|[|t]]]; reflexivity|].
  intros l' s' St. eapply (steps_dead _ _ _ _ _ _ St). constructor; [repeat split; cbn; lia|]. intros [|[|[|t]]] i; split; discriminate.
Qed.
(** C90: so does a call of acquire_connection that raised an exception because the database could not be reached, as long as its
    thread lives: nobody has a connection, none is open, yet another thread gets none *)
Theorem c90_failed_open_refuted : exists l s, run false false 1 all l s /\ closing s = false /\ opened s = [] /\ outstanding l = [] /\ (forall t, pcs s t = Out) /\
  exists s', step false false 1 s (NoneAcquired 2) s'.
Proof.
  pose proof (run_init false false 1 all) as R.
  then_ R (s_acquire false false 1 _ 1 0 false false). then_ R (s_open_raises false false 1 _ 1 0).
  here R. split; [reflexivity|]. split; [reflexivity|]. split; [reflexivity|]. split; [intros [|[|[|t]]]; reflexivity|]. eexists.
  match goal with |- step _ _ _ ?s _ _ => exact (s_acquire false false 1 s 2 0 true true eq_refl eq_refl) end.
Qed.
(** C91: not if the module must not be shared (threadsafety is 0): a thread that was notified and gives up does not pass the
    notification on.  Thread 3 waits without a time-out, nobody was notified, and the only connection is free *)
Theorem c91_wake_refuted : exists l s, run true false 1 all l s /\ closing s = false /\ outstanding l = [] /\ pcs s 3 = WaitMod false /\ waits s = [3] /\ woken s = [] /\ unlocked (P s) = [(1, 0)] /\ modl s = None /\
  (forall t, t <> 3 -> pcs s t = Out).
Proof.
  pose proof (run_init true false 1 all) as R.
  then_ R (s_acquire true false 1 _ 1 0 false false). then_ R (s_open true false 1 _ 1 0).
  then_ R (s_acquire true false 1 _ 2 0 true false). then_ R (s_acquire true false 1 _ 3 0 false false).
  then_ R (s_release true false 1 _ 1 1 0).
  then_ R (s_notified_mod true false 1 _ 2 [] [] 0 true true false).
  here R. split; [reflexivity|]. split; [reflexivity|]. split; [reflexivity|]. split; [reflexivity|]. split; [reflexivity|]. split; [reflexivity|]. split; [reflexivity|].
  intros [|[|[|[|t]]]] N; try reflexivity. congruence.
Qed.
(** a thread waits for a connection that another one holds *)
Example c91_ex : exists l s, run false false 1 all l s /\ closing s = false /\ pcs s 2 = WaitConn false /\ waits s = [2] /\ woken s = [] /\ size (P s) = 1 /\ outstanding l = [(1, 0)].
Proof.
  pose proof (run_init false false 1 all) as R.
  then_ R (s_acquire false false 1 _ 1 0 false false). then_ R (s_open false false 1 _ 1 0).
  then_ R (s_acquire false false 1 _ 2 0 false false). here R. repeat split; reflexivity.
Qed.
(** one gives up *)
Example c91_ex2 : exists l s s', run false false 1 all l s /\ step false false 1 s (NoneAcquired 2) s' /\ closing s = false.
Proof.
  pose proof (run_init false false 1 all) as R.
  then_ R (s_acquire false false 1 _ 1 0 false false). then_ R (s_open false false 1 _ 1 0).
  then_ R (s_acquire false false 1 _ 2 0 true false). eexists. eexists. eexists. split; [exact R|]. split; [|reflexivity].
  match goal with |- step _ _ _ ?s _ _ => exact (s_timeout_conn false false 1 s 2 [] [] 0 true eq_refl eq_refl) end.
Qed.
(** C92: close() with a connection that was released *)
Example c92_ex : exists l s s', run false false 1 all l s /\ ~ emptied l /\ step false false 1 s (Swept 2) s' /\ outstanding l = [] /\ (forall u, ~ acquiring s' u /\ ~ reconnecting s' u) /\ opened s' = [0].
Proof.
  pose proof (run_init false false 1 all) as R.
  then_ R (s_acquire false false 1 _ 1 0 false false). then_ R (s_open false false 1 _ 1 0).
  then_ R (s_release false false 1 _ 1 1 0).
  then_ R (s_closing false false 1 _ 2). eexists. eexists. eexists. split; [exact R|]. split; [intros (t & H); vm_compute in H; intuition discriminate|].
  split; [match goal with |- step _ _ _ ?s _ _ => exact (s_close false false 1 s 2 true eq_refl) end|]. split; [reflexivity|]. split; [|reflexivity].
  intro u. unfold acquiring, reconnecting. destruct u as [|[|[|u]]]; (split; [intros [(b & H)|[(b & H)|[(i & H)|(i & H)]]]|intros (i & H)]; discriminate).
Qed.
(** C92: "the connections are left open" is not so: after the time-out they are closed under threads that use them *)
Theorem c92_left_open_refuted : exists l s, run false false 1 all l s /\ outstanding l = [(1, 0)] /\ alive s 1 = true /\ connection s 0 = Some 0 /\ opened s = [].
Proof.
  pose proof (run_init false false 1 all) as R.
  then_ R (s_acquire false false 1 _ 1 0 false false). then_ R (s_open false false 1 _ 1 0).
  then_ R (s_closing false false 1 _ 2). then_ R (s_close false false 1 _ 2 true). then_ R (s_close_timeout false false 1 _ 2 [] [] 1).
  then_ R (s_finish false false 1 _ 2 0).
  here R. repeat split; reflexivity.
Qed.
(** C92: and such a thread may reconnect after close() has returned; nobody closes that connection *)
Theorem c92_reopened_refuted : exists l s, run false false 1 all l s /\ emptied l /\ outstanding l = [] /\ (forall t, pcs s t = Out) /\ opened s = [1] /\ locked (P s) = [] /\ unlocked (P s) = [] /\ idle (P s) = [].
Proof.
  pose proof (run_init false false 1 all) as R.
  then_ R (s_acquire false false 1 _ 1 0 false false). then_ R (s_open false false 1 _ 1 0).
  then_ R (s_closing false false 1 _ 2). then_ R (s_close false false 1 _ 2 true). then_ R (s_close_timeout false false 1 _ 2 [] [] 1).
  then_ R (s_finish false false 1 _ 2 0). then_ R (s_finished false false 1 _ 2).
  then_ R (s_retry false false 1 _ 1 0 0). then_ R (s_reopen false false 1 _ 1 0).
  then_ R (s_release false false 1 _ 1 1 0).
  here R. split; [exists 2; vm_compute; tauto|]. split; [reflexivity|]. split; [intros [|[|[|t]]]; reflexivity|]. repeat split; reflexivity.
Qed.
(** C92: a thread that waits for a connection when close() is called, without a time-out, waits for ever *)
Theorem c92_waiting_refuted : exists l s, run false false 1 all l s /\ emptied l /\ pcs s 2 = WaitConn false /\
  forall l' s', steps false false 1 s l' s' -> pcs s' 2 = WaitConn false.
Proof.
  pose proof (run_init false false 1 all) as R.
  then_ R (s_acquire false false 1 _ 1 0 false false). then_ R (s_open false false 1 _ 1 0). then_ R (s_acquire false false 1 _ 2 0 false false).
  then_ R (s_closing false false 1 _ 3). then_ R (s_close false false 1 _ 3 true). then_ R (s_close_timeout false false 1 _ 3 [2] [] 1).
  here R. split; [exists 3; vm_compute; tauto|]. split; [reflexivity|].
  intros l' s' St. eapply (steps_dead _ _ _ _ _ _ St).
  - constructor; [repeat split; cbn; lia|]. intros [|[|[|[|t]]]] i; split; discriminate.
  - repeat split; [left; reflexivity|intros []].
Qed.

Print Assumptions c88_exclusive.
Print Assumptions c88_connection.
Print Assumptions c88_nested.
Print Assumptions c89_bound.
Print Assumptions c89_settled.
Print Assumptions c89_max_refuted.
Print Assumptions c90_open.
Print Assumptions c90_open_refuted.
Print Assumptions c90_leak_refuted.
Print Assumptions c90_failed_open_refuted.
Print Assumptions c91_wake.
Print Assumptions c91_gives_up.
Print Assumptions c91_wake_refuted.
Print Assumptions c92_close.
Print Assumptions c92_after.
Print Assumptions c92_left_open_refuted.
Print Assumptions c92_reopened_refuted.
Print Assumptions c92_waiting_refuted.
