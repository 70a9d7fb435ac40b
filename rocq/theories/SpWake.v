(** Nobody waits in vain, if the module may be shared. *)
From Verif Require Import SpModel SpInv SpClean SpSys SpStep SpLive.

Section wake.
  Variable recycle : bool.
  Variable maxc : nat.
  Variable w : bool.
  Notation sys := (sys false maxc w).
  Notation avail := (avail false maxc).
  Definition awake (s : st) : Prop := closing s = false -> waits s <> [] -> avail (P s) <= length (woken s).
  Definition queued (s : st) : Prop := forall t b, pcs s t = WaitConn b -> In t (waits s ++ woken s).
  (** what a step of the thread t does to the queue of the others *)
  Definition moved (s : st) (t : nat) (s' : st) : Prop :=
    (forall u, u <> t -> pcs s' u = pcs s u /\ (In u (waits s ++ woken s) -> In u (waits s' ++ woken s'))) /\ (forall b, pcs s' t = WaitConn b -> In t (waits s' ++ woken s')).
  Lemma moved_queued : forall s t s', moved s t s' -> queued s -> queued s'.
  Proof.
    intros s t s' [M1 M2] Q u b H. destruct (Nat.eq_dec u t) as [->|N]; [eapply M2, H|]. destruct (M1 u N) as [E F]. rewrite E in H. apply F. eapply Q, H.
  Qed.
  Lemma moved_set : forall s s' t c, waits s' = waits s -> woken s' = woken s -> pcs s' = upd (pcs s) t c -> (forall b, c <> WaitConn b) -> moved s t s'.
  Proof.
    intros s s' t c E1 E2 E3 N. split; rewrite E1, E2, E3; [intros u Nu; rewrite upd_other by exact Nu; auto|]. intros b. rewrite upd_same. intro E. destruct (N b E).
  Qed.
  Lemma moved_stay : forall s s' t, waits s' = waits s -> woken s' = woken s -> pcs s' = pcs s -> (forall b, pcs s t <> WaitConn b) -> moved s t s'.
  Proof. intros s s' t E1 E2 E3 N. split; rewrite E1, E2, E3; [auto|]. intros b E. destruct (N b E). Qed.
  Lemma moved_wait : forall s t c, moved s t (wait t c s).
  Proof.
    intros s t c. unfold wait. split; cbn [set_pc set_waits waits woken pcs].
    - intros u Nu. rewrite upd_other by exact Nu. split; [reflexivity|]. rewrite !in_app_iff. cbn [In]. tauto.
    - intros b _. rewrite !in_app_iff. cbn [In]. tauto.
  Qed.
  Lemma moved_pre : forall s1 s t s', (forall u, u <> t -> In u (waits s ++ woken s) -> In u (waits s1 ++ woken s1)) -> pcs s1 = pcs s -> moved s1 t s' -> moved s t s'.
  Proof.
    intros s1 s t s' H E [M1 M2]. split; [|exact M2]. intros u N. destruct (M1 u N) as [F G]. rewrite E in F. auto.
  Qed.
  Lemma got_moved : forall s t i fl p, moved s t (fst (got t i fl (set_P p s))).
  Proof.
    intros. unfold got. destruct fl; [eapply moved_set; try reflexivity; discriminate|]. destruct (i_dbc _); eapply moved_set; try reflexivity; discriminate.
  Qed.
  Lemma got_rest : forall s t i fl p, let r := fst (got t i fl (set_P p s)) in P r = p /\ waits r = waits s /\ woken r = woken s /\ closing r = closing s.
  Proof. intros. unfold r, got. destruct fl; [auto|]. destruct (i_dbc _); auto. Qed.
  Lemma search_moved : forall t k b e s, moved s t (fst (search false recycle maxc t k b e s)).
  Proof.
    intros. unfold search. destruct (take false recycle maxc t k (P s)) as [[[i fl] p]|]; [apply got_moved|]. destruct (b && e); [|apply moved_wait].
    cbn [fst mod_release]. eapply moved_set; try reflexivity. discriminate.
  Qed.
  Lemma search_awake : forall t k b e s, sys s -> ~ In t (keys (locked (P s))) -> (closing s = false -> waits s <> [] -> avail (P s) <= S (length (woken s))) ->
    awake (fst (search false recycle maxc t k b e s)).
  Proof.
    intros t k b e s Y Nt H. unfold search. destruct (take false recycle maxc t k (P s)) as [[[i fl] p]|] eqn:T.
    - destruct (take_spec false recycle maxc t k (P s) i fl p T (y_ok _ _ _ _ _ _ _ _ _ _ _ Y) Nt) as [_ E]. destruct (got_rest s t i fl p) as (E1 & E2 & E3 & E4).
      unfold awake. rewrite E1, E2, E3, E4. intros C W. specialize (H C W). lia.
    - apply take_none in T. destruct (b && e); intros C W; cbn [fst mod_release set_pc P wait set_waits]; lia.
  Qed.
  Lemma enter_moved : forall t k b e s, moved s t (fst (enter false recycle maxc t k b e s)).
  Proof. intros. unfold enter. cbn [mod_acquire]. destruct (lookup t (locked (P s))); [apply got_moved|apply search_moved]. Qed.
  Lemma enter_awake : forall t k b e s, sys s -> awake s -> awake (fst (enter false recycle maxc t k b e s)).
  Proof.
    intros t k b e s Y A. unfold enter. cbn [mod_acquire]. destruct (lookup t (locked (P s))) as [i|] eqn:L.
    - destruct (got_rest s t i false (on_item i inc (P s))) as (E1 & E2 & E3 & E4). unfold awake. rewrite E1, E2, E3, E4. exact A.
    - apply lookup_none in L. apply search_awake; [exact Y|exact L|]. intros C W. specialize (A C W). lia.
  Qed.
  Lemma release_awake : forall t a i s, sys s -> In (a, i) (handles s) -> awake s -> awake (fst (release false t a i s)).
  Proof.
    intros t a i s Y Hh A. unfold release. destruct (locked_for t i (P s)) as [b|] eqn:L.
    - apply locked_for_in in L. cbn [mod_release]. pose proof (y_ok _ _ _ _ _ _ _ _ _ _ _ Y) as K. destruct (Nat.eq_dec (i_locked (items (P s) i)) 1) as [E1|N1].
      + destruct (unlock_one false maxc b i (P s) K L E1) as (p' & -> & _ & _ & Ea & _). cbn [fst]. unfold notify. cbn [set_P set_handles waits].
        destruct (waits s) as [|w0 r] eqn:W; [intros C F; cbn [set_P set_handles waits] in F; congruence|]. intros C F. cbn [set_waits set_P set_handles P woken closing waits] in *.
        rewrite app_length. cbn [length]. assert (avail (P s) <= length (woken s)) by (apply A; congruence). lia.
      + destruct (unlock_more false maxc b i (P s) K L N1) as (-> & _). exact A.
    - assert (Hi : existsb (Nat.eqb i) (idle (P s)) = false).
      { apply not_true_is_false. intro E. apply existsb_exists in E as (j & Hj & E). apply Nat.eqb_eq in E. subst j.
        assert (F : In i (free (P s))) by (apply in_or_app; auto). apply (y_free _ _ _ _ _ _ _ _ _ _ _ Y) in F as [F _]. apply hc_in in Hh. lia. }
      cbn [set_handles P]. rewrite Hi. exact A.
  Qed.
  Lemma release_moved : forall t a i s, (forall b, pcs s t <> WaitConn b) -> moved s t (fst (release false t a i s)).
  Proof.
    intros t a i s N. unfold release. destruct (locked_for t i (P s)) as [b|].
    - cbn [mod_release]. destruct (unlock b i (P s)) as [p n]. cbn [fst]. destruct n; [|apply moved_stay; auto]. unfold notify. cbn [set_P set_handles waits].
      destruct (waits s) as [|w0 r] eqn:W; [apply moved_stay; auto|]. split; cbn [set_waits set_P set_handles pcs waits woken]; [|intros b' E; destruct (N b' E)].
      intros u Nu. split; [reflexivity|]. rewrite W. rewrite !in_app_iff. cbn [In]. tauto.
    - cbn [set_handles P]. destruct (existsb _ _); [|apply moved_stay; auto]. cbn [fst]. destruct (i_dbc _); apply moved_stay; auto.
  Qed.
  Lemma close_turn_moved : forall t b n s, moved s t (fst (close_turn t b n s)).
  Proof.
    intros. unfold close_turn. destruct (sweep t (alive s) (P s)) as [p c]. destruct (_ && _).
    - eapply moved_pre; [| |apply moved_wait]; [|reflexivity]. intros u _ H. exact H.
    - destruct (force p) as [p' c']. eapply moved_set; try reflexivity. discriminate.
  Qed.
  Lemma in_mid : forall (A : Type) (x t : A) l r, x <> t -> In x (l ++ t :: r) -> In x (l ++ r).
  Proof. intros A x t l r N. rewrite !in_app_iff. cbn [In]. intuition congruence. Qed.
  Lemma step_moved : forall s e s', step false recycle maxc s e s' -> exists t, moved s t s'.
  Proof.
    intros s e s' H. destruct H; try (exists t; eapply moved_set; [reflexivity|reflexivity|reflexivity|discriminate]); try (exists t; apply moved_stay; [reflexivity|reflexivity|reflexivity|congruence]).
    - exists t. unfold acquire. destruct (closing s); [apply moved_stay; [reflexivity|reflexivity|reflexivity|congruence]|apply enter_moved].
    - exists t. subst x. eapply moved_pre with (s1 := set_waits (waits s) (l ++ r) s); [|reflexivity|].
      + intros u N. cbn [set_waits waits woken]. rewrite H0, !in_app_iff. cbn [In]. intuition congruence.
      + unfold resume_mod. destruct (tmo && e); [eapply moved_set; try reflexivity; discriminate|apply enter_moved].
    - exists t. subst x. eapply moved_pre with (s1 := set_waits (l ++ r) (woken s) s); [|reflexivity|].
      + intros u N. cbn [set_waits waits woken]. rewrite H0, !in_app_iff. cbn [In]. intuition congruence.
      + unfold resume_mod. destruct (true && e); [eapply moved_set; try reflexivity; discriminate|apply enter_moved].
    - exists t. subst x. eapply moved_pre with (s1 := set_waits (waits s) (l ++ r) s); [|reflexivity|apply search_moved].
      intros u N. cbn [set_waits waits woken]. rewrite H0, !in_app_iff. cbn [In]. intuition congruence.
    - exists t. subst x. eapply moved_pre with (s1 := set_waits (l ++ r) (woken s) s); [|reflexivity|apply search_moved].
      intros u N. cbn [set_waits waits woken]. rewrite H0, !in_app_iff. cbn [In]. intuition congruence.
    - exists t. destruct (i_dbc (items (P s) i)); (eapply moved_set; [reflexivity|reflexivity|reflexivity|discriminate]).
    - exists t. apply release_moved. congruence.
    - exists t. subst x. apply close_turn_moved.
    - exists t. subst x. eapply moved_pre with (s1 := set_waits (waits s) (l ++ r) s); [|reflexivity|apply close_turn_moved].
      intros u N. cbn [set_waits waits woken]. rewrite H0, !in_app_iff. cbn [In]. intuition congruence.
    - exists t. subst x. eapply moved_pre with (s1 := set_waits (l ++ r) (woken s) s); [|reflexivity|apply close_turn_moved].
      intros u N. cbn [set_waits waits woken]. rewrite H0, !in_app_iff. cbn [In]. intuition congruence.
  Qed.
  Lemma close_turn_closing : forall t b n s, closing (fst (close_turn t b n s)) = closing s.
  Proof. intros. unfold close_turn. destruct (sweep _ _ _) as [p c]. destruct (_ && _); [reflexivity|]. destruct (force p). reflexivity. Qed.
  Lemma closing_awake : forall s, closing s = true -> awake s.
  Proof. intros s H C. congruence. Qed.
  Lemma step_awake : forall s e s', step false recycle maxc s e s' -> inv false maxc w s -> awake s -> awake s'.
  Proof.
    intros s e s' H (Y & C & N & _) A.
    assert (Sw : forall q v, sys (set_waits q v s)) by (intros q v; eapply sys_same; [..|exact Y]; reflexivity).
    destruct H; try exact A.
    - unfold acquire. destruct (closing s) eqn:Ec; [exact A|apply enter_awake; assumption].
    - exfalso. apply (N eq_refl t tmo H).
    - exfalso. apply (N eq_refl t true H).
    - subst x. apply search_awake; [apply Sw|eapply (y_wait _ _ _ _ _ _ _ _ _ _ _ Y), H|]. cbn [set_waits closing waits woken P]. intros Ec W. specialize (A Ec W). rewrite H0, app_length in A. rewrite app_length. cbn [length] in A. lia.
    - subst x. apply search_awake; [apply Sw|eapply (y_wait _ _ _ _ _ _ _ _ _ _ _ Y), H|]. cbn [set_waits closing waits woken P]. intros Ec W.
      assert (waits s <> []) by (rewrite H0; destruct l; discriminate). specialize (A Ec H1). lia.
    - destruct (i_dbc (items (P s) i)); exact A.
    - apply release_awake; assumption.
    - pose proof (clean_spec false recycle maxc (alive s) old (P s) (y_ok _ _ _ _ _ _ _ _ _ _ _ Y)) as [_ [G _]]. unfold awake in *. cbn [set_pc set_pend set_P P closing waits woken]. rewrite G. exact A.
    - apply closing_awake. reflexivity.
    - apply closing_awake. subst x. rewrite close_turn_closing. apply (C t). left. exact H.
    - apply closing_awake. subst x. rewrite close_turn_closing. apply (C t). right. eauto.
    - apply closing_awake. subst x. rewrite close_turn_closing. apply (C t). right. eauto.
  Qed.
End wake.
Section wake_run.
  Variable recycle : bool.
  Variable maxc : nat.
  Lemma run_awake : forall E l s, run false recycle maxc E l s -> awake maxc s /\ queued s.
  Proof.
    induction 1 as [|l s e s' R [IA IQ] H]; [split; [intros _ F; destruct F; reflexivity|intros t b F; discriminate]|]. split.
    - eapply step_awake; [eassumption|eapply run_inv; eassumption|exact IA].
    - destruct (step_moved recycle maxc s e s' H) as (t & M). eapply moved_queued; eassumption.
  Qed.
End wake_run.
