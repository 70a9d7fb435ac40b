(** Which connections are open. *)
From Verif Require Import SpModel SpInv SpClean SpSys SpStep.

Definition dbc (s : st) (i : nat) : option nat := i_dbc (items (P s) i).
Definition no_reopen (c : pc) : Prop := forall i, c <> Reopen i.
(** steps of a thread t that neither open nor close a connection *)
Record calm (s : st) (t : nat) (s' : st) : Prop := mk_calm {
  c_opened : opened s' = opened s;
  c_fresh : fresh s' = fresh s;
  c_dbc : forall i d, dbc s' i = Some d -> dbc s i = Some d;
  c_tabs : forall i d, dbc s' i = Some d -> In i (tabs (P s')) -> In i (tabs (P s));
  c_other : forall u, u <> t -> pcs s' u = pcs s u;
  c_self : no_reopen (pcs s' t) }.
Section live.
  Variables ts0 recycle : bool.
  Variable maxc : nat.
  Variable w : bool.
  Notation sys := (sys ts0 maxc w).
  Notation closed_first := (closed_first).
  Lemma calm_same : forall s t s' c, P s' = P s -> opened s' = opened s -> fresh s' = fresh s -> pcs s' = upd (pcs s) t c -> no_reopen c -> calm s t s'.
  Proof.
    intros s t s' c E1 E2 E3 E4 N. constructor; auto; unfold dbc.
    - rewrite E1. auto.
    - rewrite E1. auto.
    - intros u Nu. rewrite E4. apply upd_other, Nu.
    - rewrite E4, upd_same. exact N.
  Qed.
  Lemma calm_stay : forall s t s', P s' = P s -> opened s' = opened s -> fresh s' = fresh s -> pcs s' = pcs s -> no_reopen (pcs s t) -> calm s t s'.
  Proof.
    intros s t s' E1 E2 E3 E4 N. constructor; auto; unfold dbc.
    - rewrite E1. auto.
    - rewrite E1. auto.
    - intros u Nu. rewrite E4. reflexivity.
    - rewrite E4. exact N.
  Qed.
  Lemma calm_pre : forall s1 s t s', P s1 = P s -> opened s1 = opened s -> fresh s1 = fresh s -> pcs s1 = pcs s -> calm s1 t s' -> calm s t s'.
  Proof.
    intros s1 s t s' E1 E2 E3 E4 [C1 C2 C3 C4 C5 C6]. unfold dbc in *. rewrite E1, E2, E3, ?E4 in *. constructor; unfold dbc; auto.
  Qed.
  Lemma got_calm : forall s t i fl p, (forall j d, i_dbc (items p j) = Some d -> dbc s j = Some d) -> (forall j d, i_dbc (items p j) = Some d -> In j (tabs p) -> In j (tabs (P s))) ->
    calm s t (fst (got t i fl (set_P p s))).
  Proof.
    intros s t i fl p H1 H2. unfold got. assert (X : forall c h, no_reopen c -> calm s t (set_pc t c (set_handles h (set_P p s)))).
    { intros c h N. constructor; try reflexivity; try assumption; cbn [set_pc pcs]; [intros u Nu; apply upd_other, Nu|rewrite upd_same; exact N]. }
    destruct fl; [apply (X _ (handles s)); intros j F; discriminate|]. destruct (i_dbc (items (P (set_P p s)) i)); [apply X; intros j F; discriminate|apply (X _ (handles s)); intros j F; discriminate].
  Qed.
  Lemma search_calm : forall t k b e s, sys s -> ~ In t (keys (locked (P s))) -> calm s t (fst (search ts0 recycle maxc t k b e s)).
  Proof.
    intros t k b e s Y Nt. unfold search. destruct (take ts0 recycle maxc t k (P s)) as [[[i fl] p]|] eqn:T.
    - destruct (take_spec ts0 recycle maxc t k (P s) i fl p T (y_ok _ _ _ _ _ _ _ _ _ _ _ Y) Nt) as [K _].
      assert (Dd : forall j d, i_dbc (items p j) = Some d -> i_dbc (items (P s) j) = Some d).
      { intros j d H. destruct (Nat.eq_dec j i) as [->|N]; [|rewrite (tk_other _ _ _ _ _ _ K) in H by exact N; exact H].
        destruct (tk_where _ _ _ _ _ _ K) as [F|(_ & _ & E)]; [rewrite (tk_dbc _ _ _ _ _ _ K F) in H; exact H|congruence]. }
      apply got_calm; [exact Dd|]. intros j d H Hj. apply tabs_split in Hj. rewrite (tk_free _ _ _ _ _ _ K), (tk_locked _ _ _ _ _ _ K) in Hj. cbn [vals map snd In] in Hj. apply tabs_split.
      destruct (Nat.eq_dec j i) as [->|N]; [|destruct Hj as [[E|Hj]|[Hj _]]; [congruence|left; exact Hj|right; exact Hj]]. right. destruct (tk_where _ _ _ _ _ _ K) as [F|(_ & _ & E)]; [exact F|congruence].
    - destruct (b && e); cbn [fst].
      + destruct (mod_release ts0 t s) as [s'|] eqn:M; [apply mod_release_same in M as (m & ->)|]; (eapply calm_same; [reflexivity|reflexivity|reflexivity|reflexivity|intros j F; discriminate]).
      + eapply calm_same; [reflexivity|reflexivity|reflexivity|reflexivity|intros j F; discriminate].
  Qed.
  Lemma enter_calm : forall t k b e s, sys s -> calm s t (fst (enter ts0 recycle maxc t k b e s)).
  Proof.
    intros t k b e s Y. unfold enter. destruct (mod_acquire ts0 t s) as [s'|] eqn:E.
    - apply mod_acquire_same in E as (m & ->). assert (Y' : sys (set_mod m s)) by (eapply sys_same; [..|exact Y]; reflexivity).
      destruct (lookup t (locked (P (set_mod m s)))) as [i|] eqn:L.
      + eapply calm_pre with (s1 := set_mod m s); try reflexivity. apply got_calm; [|auto]. intros j d. unfold dbc. cbn [on_item items set_mod P]. destruct (Nat.eq_dec j i) as [->|N]; [rewrite upd_same|rewrite upd_other by exact N]; auto.
      + apply lookup_none in L. eapply calm_pre with (s1 := set_mod m s); try reflexivity. apply search_calm; assumption.
    - eapply calm_same; [reflexivity|reflexivity|reflexivity|reflexivity|intros j F; discriminate].
  Qed.
  Lemma release_calm : forall t a i s, sys s -> In (a, i) (handles s) -> no_reopen (pcs s t) -> calm s t (fst (release ts0 t a i s)).
  Proof.
    intros t a i s Y Hh N. unfold release. destruct (locked_for t i (P s)) as [b|] eqn:L.
    - apply locked_for_in in L. destruct (mod_release ts0 t s) as [s'|] eqn:M; [|apply calm_stay; auto]. apply mod_release_same in M as (m & ->).
      change (P (set_mod m s)) with (P s). change (handles (set_mod m s)) with (handles s). destruct (unlock b i (P s)) as [p n] eqn:U. cbn [fst].
      set (s' := set_P p (set_handles (remove_one (a, i) (handles s)) (set_mod m s))).
      assert (E : forall j, i_dbc (items p j) = i_dbc (items (P s) j)).
      { intro j. unfold unlock in U. destruct (i_locked _ =? 0); injection U as <- <-; cbn [items on_item]; (destruct (Nat.eq_dec j i) as [->|Nj]; [rewrite upd_same|rewrite upd_other by exact Nj]; reflexivity). }
      assert (Tb : forall x, In x (tabs p) -> In x (tabs (P s))).
      { pose proof (y_ok _ _ _ _ _ _ _ _ _ _ _ Y) as K. destruct (Nat.eq_dec (i_locked (items (P s) i)) 1) as [E1|N1].
        - destruct (unlock_one ts0 maxc b i (P s) K L E1) as (p' & U' & K' & En & _ & El & Ef & Eo & Ei). rewrite U in U'. injection U' as -> ->. intros x. rewrite !tabs_split, Ef. cbn [In].
          intros [H|[<-|H]]; [left|left; eapply in_vals, L|auto]. apply vals_in in H as (c & H). apply El in H as [H _]. eapply in_vals, H.
        - destruct (unlock_more ts0 maxc b i (P s) K L N1) as (U' & _). rewrite U in U'. injection U' as -> ->. auto. }
      assert (X : calm s t s').
      { constructor; try reflexivity; unfold dbc; cbn [s' set_P P]; [intros j d; rewrite E; auto|intros; auto|exact N]. }
      destruct n; [|exact X]. unfold notify. destruct (waits s'); [exact X|]. destruct X. constructor; auto.
    - assert (Hi : existsb (Nat.eqb i) (idle (P s)) = false).
      { apply not_true_is_false. intro E. apply existsb_exists in E as (j & Hj & E). apply Nat.eqb_eq in E. subst j.
        assert (F : In i (free (P s))) by (apply in_or_app; auto). apply (y_free _ _ _ _ _ _ _ _ _ _ _ Y) in F as [F _]. apply hc_in in Hh. lia. }
      cbn [set_handles P]. rewrite Hi. cbn [fst]. apply calm_stay; auto.
  Qed.
  Lemma shrink_calm : forall s t c p pe k, shrink ts0 maxc (P s) c p -> no_reopen k -> calm s t (set_pc t k (set_pend pe (set_P p s))).
  Proof.
    intros s t c p pe k Sh N. constructor; try reflexivity; unfold dbc; cbn [set_pc set_pend set_P P pcs].
    - intros i d. rewrite (sh_dbc _ _ _ _ _ Sh). auto.
    - intros i d _. apply (sh_tabs _ _ _ _ _ Sh).
    - intros u Nu. apply upd_other, Nu.
    - rewrite upd_same. exact N.
  Qed.
  Lemma close_turn_calm : forall t b n s, sys s -> calm s t (fst (close_turn t b n s)).
  Proof.
    intros t b n s Y. unfold close_turn. pose proof (sweep_spec ts0 maxc t (alive s) (P s) (y_ok _ _ _ _ _ _ _ _ _ _ _ Y)) as Sh. cbv zeta in Sh.
    destruct (sweep t (alive s) (P s)) as [p c]. cbn [fst snd] in Sh. destruct (_ && _).
    - eapply calm_pre with (s1 := set_waits (waits s ++ [t]) (woken s) s); try reflexivity. apply (shrink_calm (set_waits (waits s ++ [t]) (woken s) s) t c p); [exact Sh|intros i F; discriminate].
    - pose proof (force_spec ts0 maxc p (sh_ok _ _ _ _ _ Sh)) as Sf. cbv zeta in Sf. destruct (force p) as [p' c']. cbn [fst snd] in *.
      eapply (shrink_calm s t (c ++ c') p'); [eapply shrink_trans; eassumption|intros i F; discriminate].
  Qed.

  (** the steps are calm, but for: *)
  Inductive loud : st -> event -> st -> Prop :=
  | l_close0 : forall s t i, pcs s t = Close0 i ->
      loud s Quiet (set_pc t (Open0 i) (set_P (on_item i (set_dbc None) (P s)) (match i_dbc (items (P s) i) with Some d => shut d s | None => s end)))
  | l_open : forall s t i, pcs s t = Open0 i ->
      loud s (Acquired t i) (set_pc t Out (set_handles ((t, i) :: handles s) (set_P (on_item i (set_dbc (Some (fresh s))) (P s)) (set_open (fresh s :: opened s) (S (fresh s)) s))))
  | l_retry : forall s t i d, alive s t = true -> pcs s t = Out -> In (t, i) (handles s) -> i_dbc (items (P s) i) = Some d ->
      loud s Quiet (set_pc t (Reopen i) (shut d s))
  | l_reopen : forall s t i, pcs s t = Reopen i ->
      loud s Quiet (set_pc t Out (set_P (on_item i (set_dbc (Some (fresh s))) (P s)) (set_open (fresh s :: opened s) (S (fresh s)) s)))
  | l_reopen_raises : forall s t i, pcs s t = Reopen i -> loud s (RetryRaises t) (set_pc t Out s)
  | l_finish : forall s t d, pcs s t = Finish -> In (t, d) (pend s) -> loud s Quiet (shut d (set_pend (remove_one (t, d) (pend s)) s)).
  Lemma step_calm : forall s e s', step ts0 recycle maxc s e s' -> sys s -> loud s e s' \/ exists t, no_reopen (pcs s t) /\ calm s t s'.
  Proof.
    intros s e s' H Y.
    assert (N : forall t c, pcs s t = c -> no_reopen c -> no_reopen (pcs s t)) by (intros; subst; assumption).
    Ltac nr := let F := fresh in intros ? F; discriminate.
    destruct H; try (left; econstructor; eassumption).
    - right. exists t. split; [eapply N; [eassumption|nr]|]. unfold acquire. destruct (closing s); [apply calm_stay; auto; eapply N; [eassumption|nr]|apply enter_calm, Y].
    - right. exists t. split; [eapply N; [eassumption|nr]|]. subst x. eapply calm_pre with (s1 := set_waits (waits s) (l ++ r) s); try reflexivity. unfold resume_mod.
      destruct (tmo && e); cbn [fst]; [eapply calm_same; try reflexivity; nr|apply enter_calm; eapply sys_same; [..|exact Y]; reflexivity].
    - right. exists t. split; [eapply N; [eassumption|nr]|]. subst x. eapply calm_pre with (s1 := set_waits (l ++ r) (woken s) s); try reflexivity. unfold resume_mod.
      destruct (true && e); cbn [fst]; [eapply calm_same; try reflexivity; nr|apply enter_calm; eapply sys_same; [..|exact Y]; reflexivity].
    - right. exists t. split; [eapply N; [eassumption|nr]|]. subst x. eapply calm_pre with (s1 := set_waits (waits s) (l ++ r) s); try reflexivity.
      apply search_calm; [eapply sys_same; [..|exact Y]; reflexivity|eapply (y_wait _ _ _ _ _ _ _ _ _ _ _ Y), H].
    - right. exists t. split; [eapply N; [eassumption|nr]|]. subst x. eapply calm_pre with (s1 := set_waits (l ++ r) (woken s) s); try reflexivity.
      apply search_calm; [eapply sys_same; [..|exact Y]; reflexivity|eapply (y_wait _ _ _ _ _ _ _ _ _ _ _ Y), H].
    - right. exists t. split; [eapply N; [eassumption|nr]|]. eapply calm_same; try reflexivity. nr.
    - right. exists t. split; [eapply N; [eassumption|nr]|]. apply release_calm; [exact Y|assumption|eapply N; [eassumption|nr]].
    - right. exists t. split; [eapply N; [eassumption|nr]|]. apply calm_stay; try reflexivity. eapply N; [eassumption|nr].
    - right. exists t. split; [eapply N; [eassumption|nr]|]. pose proof (clean_spec ts0 recycle maxc (alive s) old (P s) (y_ok _ _ _ _ _ _ _ _ _ _ _ Y)) as [Sh G]. eapply shrink_calm; [exact Sh|nr].
    - right. exists t. split; [eapply N; [eassumption|nr]|]. eapply calm_same; try reflexivity. nr.
    - right. exists t. split; [eapply N; [eassumption|nr]|]. eapply calm_same; try reflexivity. nr.
    - right. exists t. split; [eapply N; [eassumption|nr]|]. subst x. apply close_turn_calm, Y.
    - right. exists t. split; [eapply N; [eassumption|nr]|]. subst x. eapply calm_pre with (s1 := set_waits (waits s) (l ++ r) s); try reflexivity. apply close_turn_calm. eapply sys_same; [..|exact Y]; reflexivity.
    - right. exists t. split; [eapply N; [eassumption|nr]|]. subst x. eapply calm_pre with (s1 := set_waits (l ++ r) (woken s) s); try reflexivity. apply close_turn_calm. eapply sys_same; [..|exact Y]; reflexivity.
  Qed.
  (** an item belongs to one thread only *)
  Lemma one_thread : forall s t u i, sys s -> (busy (pcs s t) i = 1 \/ In (t, i) (handles s)) -> (busy (pcs s u) i = 1 \/ In (u, i) (handles s)) -> t = u.
  Proof.
    intros s t u i Y H H'. assert (E : forall x, (busy (pcs s x) i = 1 \/ In (x, i) (handles s)) -> i_thread (items (P s) i) = Some x).
    { intros x [F|F]; [apply (y_busy _ _ _ _ _ _ _ _ _ _ _ Y) in F|apply (y_handle _ _ _ _ _ _ _ _ _ _ _ Y) in F]; apply F. }
    apply E in H, H'. congruence.
  Qed.
  Lemma step_closed_first : forall s e s', step ts0 recycle maxc s e s' -> sys s -> closed_first s -> closed_first s'.
  Proof.
    intros s e s' H Y CF. assert (Rh : forall u j, pcs s u = Reopen j -> In (u, j) (handles s)) by (apply (y_reopen _ _ _ _ _ _ _ _ _ _ _ Y)).
    destruct (step_calm s e s' H Y) as [L|(t & N & [C1 C2 C3 C4 C5 C6])].
    - clear H. destruct L as [s t i H|s t i H|s t i d Ha H Hh Hd|s t i H|s t i H|s t d H Hp]; intros u j e.
      + intros E E'. cbn [set_pc pcs] in E. destruct (Nat.eq_dec u t) as [->|N]; [rewrite upd_same in E; discriminate|]. rewrite upd_other in E by exact N.
        assert (E2 : pcs s u = Reopen j) by (revert E; cbn [set_P pcs]; destruct (i_dbc (items (P s) i)); auto). clear E.
        cbn [set_pc set_P P on_item items opened] in *. destruct (Nat.eq_dec j i) as [->|Nj]; [rewrite upd_same in E'; discriminate|]. rewrite upd_other in E' by exact Nj.
        pose proof (CF u j e E2 E') as F. destruct (i_dbc (items (P s) i)); [|exact F]. cbn [shut set_open opened]. intro G. apply filter_In in G as [G _]. contradiction.
      + cbn [set_pc set_handles set_P set_open pcs P on_item items opened]. intros E E'. destruct (Nat.eq_dec u t) as [->|N]; [rewrite upd_same in E; discriminate|]. rewrite upd_other in E by exact N.
        assert (Nj : j <> i). { intros ->. apply N. eapply one_thread; [exact Y|right; apply Rh, E|left; rewrite H; apply busy_open]. }
        rewrite upd_other in E' by exact Nj. intros [F|F]; [|exact (CF u j e E E' F)]. apply (y_dbc _ _ _ _ _ _ _ _ _ _ _ Y) in E'. lia.
      + cbn [set_pc shut set_open pcs P opened]. intros E E' F. apply filter_In in F as [F G]. destruct (Nat.eq_dec u t) as [->|N].
        * rewrite upd_same in E. injection E as <-. assert (e = d) as -> by congruence. rewrite Nat.eqb_refl in G. discriminate.
        * rewrite upd_other in E by exact N. exact (CF u j e E E' F).
      + cbn [set_pc set_P set_open pcs P on_item items opened]. intros E E'. destruct (Nat.eq_dec u t) as [->|N]; [rewrite upd_same in E; discriminate|]. rewrite upd_other in E by exact N.
        assert (Nj : j <> i). { intros ->. apply N. eapply one_thread; [exact Y|right; apply Rh, E|right; apply Rh, H]. }
        rewrite upd_other in E' by exact Nj. intros [F|F]; [|exact (CF u j e E E' F)]. apply (y_dbc _ _ _ _ _ _ _ _ _ _ _ Y) in E'. lia.
      + cbn [set_pc pcs P opened]. intros E E'. destruct (Nat.eq_dec u t) as [->|N]; [rewrite upd_same in E; discriminate|]. rewrite upd_other in E by exact N. exact (CF u j e E E').
      + cbn [shut set_pend set_open pcs P opened]. intros E E' F. apply filter_In in F as [F _]. exact (CF u j e E E' F).
    - intros u j d E E'. rewrite C1. apply C3 in E'. destruct (Nat.eq_dec u t) as [->|Nu]; [destruct (C6 _ E)|]. rewrite C5 in E by exact Nu. exact (CF u j d E E').
  Qed.
  (** the connections of the pool are open, but for those that are being reopened *)
  Definition live (s : st) : Prop := forall i d, In i (tabs (P s)) -> dbc s i = Some d -> (forall t, pcs s t <> Reopen i) -> In d (opened s).
  Lemma step_live : forall s e s', step ts0 recycle maxc s e s' -> (forall t, e <> RetryRaises t) -> sys s -> live s -> live s'.
  Proof.
    intros s e s' H Ne Y V. assert (Rh : forall u j, pcs s u = Reopen j -> In (u, j) (handles s)) by (apply (y_reopen _ _ _ _ _ _ _ _ _ _ _ Y)).
    assert (Inj : forall i j d, dbc s i = Some d -> dbc s j = Some d -> i = j) by (apply (y_inj _ _ _ _ _ _ _ _ _ _ _ Y)).
    destruct (step_calm s e s' H Y) as [L|(t & N & [C1 C2 C3 C4 C5 C6])].
    - clear H. destruct L as [s t i H|s t i H|s t i d Ha H Hh Hd|s t i H|s t i H|s t d H Hp]; intros j e; unfold dbc in *.
      + intros Ht E' Hr. cbn [set_pc set_P P on_item items opened] in *. destruct (Nat.eq_dec j i) as [->|Nj]; [rewrite upd_same in E'; discriminate|]. rewrite upd_other in E' by exact Nj.
        assert (F : In e (opened s)).
        { apply (V j e Ht E'). intros u E. apply (Hr u). cbn [set_pc pcs]. rewrite upd_other; [destruct (i_dbc (items (P s) i)); exact E|]. intros ->. congruence. }
        destruct (i_dbc (items (P s) i)) as [d|] eqn:Ed; [|exact F]. cbn [shut set_open opened]. apply filter_In. split; [exact F|]. destruct (Nat.eqb_spec e d) as [->|]; [|reflexivity]. destruct (Nj (Inj j i d E' Ed)).
      + cbn [set_pc set_handles set_P set_open pcs P on_item items opened]. intros Ht E' Hr. destruct (Nat.eq_dec j i) as [->|Nj]; [rewrite upd_same in E'; injection E' as <-; left; reflexivity|].
        rewrite upd_other in E' by exact Nj. right. apply (V j e Ht E'). intros u E. apply (Hr u). rewrite upd_other; [exact E|]. intros ->. congruence.
      + cbn [set_pc shut set_open pcs P opened]. intros Ht E' Hr. apply filter_In. assert (Nj : j <> i) by (intros ->; apply (Hr t), upd_same). split.
        * apply (V j e Ht E'). intros u E. apply (Hr u). rewrite upd_other; [exact E|]. intros ->. congruence.
        * destruct (Nat.eqb_spec e d) as [->|]; [|reflexivity]. destruct (Nj (Inj j i d E' Hd)).
      + cbn [set_pc set_P set_open pcs P on_item items opened]. intros Ht E' Hr. destruct (Nat.eq_dec j i) as [->|Nj]; [rewrite upd_same in E'; injection E' as <-; left; reflexivity|].
        rewrite upd_other in E' by exact Nj. right. apply (V j e Ht E'). intros u E. apply (Hr u). rewrite upd_other; [exact E|]. intros ->. congruence.
      + destruct (Ne t eq_refl).
      + cbn [shut set_pend set_open pcs P opened]. intros Ht E' Hr. apply filter_In. split; [exact (V j e Ht E' Hr)|]. destruct (Nat.eqb_spec e d) as [->|]; [|reflexivity].
        destruct (y_pend _ _ _ _ _ _ _ _ _ _ _ Y t d Hp) as [_ F]. destruct (F j Ht E').
    - intros j d Ht E' Hr. rewrite C1. apply (V j d); [eapply C4; eassumption|apply C3, E'|]. intros u E. apply (Hr u). rewrite C5; [exact E|]. intros ->. destruct (N _ E).
  Qed.

End live.

Section inv.
  Variables ts0 recycle : bool.
  Variable maxc : nat.
  Definition inv (w : bool) (s : st) : Prop := sys ts0 maxc w s /\ cls s /\ no_mod ts0 s /\ closed_first s.
  Lemma init_inv : inv false init.
  Proof.
    repeat split; try (intros; discriminate); try (cbn; intros; contradiction); try (cbn; intros; lia); try (cbn; constructor).
    intros t [E|(b & n & E)]; discriminate.
  Qed.
  Lemma step_inv : forall s e s', step ts0 recycle maxc s e s' -> forall w, inv w s -> inv (w || is_swept e) s'.
  Proof.
    intros s e s' H w (Y & C & N & F). destruct (step_cls ts0 recycle maxc s e s' H C N) as [C' N']. split; [apply (step_sys ts0 recycle maxc s e s'); assumption|]. split; [exact C'|]. split; [exact N'|].
    eapply step_closed_first; eassumption.
  Qed.
  (** has a call of close() emptied the pool? *)
  Definition swept (l : list event) : bool := existsb is_swept l.
  Lemma run_inv : forall E l s, run ts0 recycle maxc E l s -> inv (swept l) s.
  Proof.
    induction 1; [apply init_inv|]. cbn [swept existsb]. fold (swept l). rewrite orb_comm. eapply step_inv; eassumption.
  Qed.
  Lemma run_live : forall E l s, (forall t, ~ E (RetryRaises t)) -> run ts0 recycle maxc E l s -> live s.
  Proof.
    intros E l s N H. induction H; [intros i d []|]. eapply step_live; [eassumption| |apply (run_inv _ _ _ H)|assumption]. intros t ->. exact (N t H1).
  Qed.
  Lemma close_turn_event : forall t b n s, is_swept (snd (close_turn t b n s)) = true -> closing (fst (close_turn t b n s)) = closing s.
  Proof. intros. unfold close_turn. destruct (sweep _ _ _) as [p c]. destruct (_ && _); [reflexivity|]. destruct (force p). reflexivity. Qed.
  Lemma swept_closing : forall s e s', step ts0 recycle maxc s e s' -> cls s -> is_swept e = true -> closing s' = true.
  Proof.
    intros s e s' H C. destruct H; try discriminate.
    - unfold acquire. destruct (closing s); [discriminate|rewrite enter_quiet; discriminate].
    - subst x. unfold resume_mod. destruct (tmo && e); [discriminate|rewrite enter_quiet; discriminate].
    - subst x. unfold resume_mod. destruct (true && e); [discriminate|rewrite enter_quiet; discriminate].
    - subst x. rewrite search_quiet. discriminate.
    - subst x. rewrite search_quiet. discriminate.
    - rewrite release_quiet. discriminate.
    - subst x. intro F. rewrite close_turn_event by exact F. apply (C t). left. exact H.
    - subst x. intro F. rewrite close_turn_event by exact F. apply (C t). right. eauto.
    - subst x. intro F. rewrite close_turn_event by exact F. apply (C t). right. eauto.
  Qed.
  Lemma run_swept : forall E l s, run ts0 recycle maxc E l s -> swept l = true -> closing s = true.
  Proof.
    induction 1 as [|l s e s' R IH H He]; [discriminate|]. cbn [swept existsb]. fold (swept l). destruct (run_inv _ _ _ R) as (_ & C & _ & _).
    destruct (is_swept e) eqn:Ee; [intros _; eapply swept_closing; eassumption|]. intro F. destruct (step_pc ts0 recycle maxc s e s' H C) as [_ M]. auto.
  Qed.
End inv.
