(** What was acquired has a connection; what is left to close; the end of the pool. *)
From Verif Require Import SpModel SpInv SpClean SpSys SpStep SpLive SpSpec.

Lemma remove_one_eq : forall x l, remove_one x l = remove1 x l.
Proof. intros x l. induction l as [|y l IH]; [reflexivity|]. cbn [remove1]. rewrite <- IH. reflexivity. Qed.
Definition after (e : event) (h : list (nat * nat)) : list (nat * nat) :=
  match e with Acquired t i => (t, i) :: h | Released _ a i => remove1 (a, i) h | _ => h end.

Section fill.
  Variables ts0 recycle : bool.
  Variable maxc : nat.
  Lemma got_handles : forall t i fl s p, handles (fst (got t i fl (set_P p s))) = after (snd (got t i fl (set_P p s))) (handles s).
  Proof. intros. unfold got. destruct fl; [reflexivity|]. destruct (i_dbc _); reflexivity. Qed.
  Lemma search_handles : forall t k b e s, handles (fst (search ts0 recycle maxc t k b e s)) = after (snd (search ts0 recycle maxc t k b e s)) (handles s).
  Proof.
    intros. unfold search. destruct (take _ _ _ _ _ _) as [[[i fl] p]|]; [apply got_handles|]. destruct (b && e); [|reflexivity]. cbn [fst snd after].
    destruct (mod_release ts0 t s) as [s'|] eqn:M; [apply mod_release_same in M as (m & ->)|]; reflexivity.
  Qed.
  Lemma enter_handles : forall t k b e s, handles (fst (enter ts0 recycle maxc t k b e s)) = after (snd (enter ts0 recycle maxc t k b e s)) (handles s).
  Proof.
    intros. unfold enter. destruct (mod_acquire ts0 t s) as [s'|] eqn:M; [|reflexivity]. apply mod_acquire_same in M as (m & ->).
    destruct (lookup _ _); [apply (got_handles t n false (set_mod m s))|apply (search_handles t k b e (set_mod m s))].
  Qed.
  Lemma release_handles : forall t a i s, handles (fst (release ts0 t a i s)) = after (snd (release ts0 t a i s)) (handles s).
  Proof.
    intros. unfold release. destruct (locked_for t i (P s)) as [b|].
    - destruct (mod_release ts0 t s) as [s'|] eqn:M; [|reflexivity]. apply mod_release_same in M as (m & ->). destruct (unlock b i _) as [p n]. cbn [fst snd after].
      rewrite <- remove_one_eq. destruct n; [|reflexivity]. unfold notify. destruct (waits _); reflexivity.
    - cbn [set_handles P]. destruct (existsb _ _); cbn [fst snd after]; [|apply remove_one_eq]. rewrite <- remove_one_eq. destruct (i_dbc _); reflexivity.
  Qed.
  Lemma close_turn_handles : forall t b n s, handles (fst (close_turn t b n s)) = after (snd (close_turn t b n s)) (handles s).
  Proof. intros. unfold close_turn. destruct (sweep _ _ _) as [p c]. destruct (_ && _); [reflexivity|]. destruct (force p). reflexivity. Qed.
  Lemma step_handles : forall s e s', step ts0 recycle maxc s e s' -> handles s' = after e (handles s).
  Proof.
    intros s e s' H. destruct H; try reflexivity.
    - unfold acquire. destruct (closing s); [reflexivity|apply enter_handles].
    - subst x. unfold resume_mod. destruct (tmo && e); [reflexivity|apply (enter_handles t k tmo e' (set_waits _ _ s))].
    - subst x. unfold resume_mod. destruct (true && e); [reflexivity|apply (enter_handles t k true e' (set_waits _ _ s))].
    - subst x. apply (search_handles t k tmo e (set_waits _ _ s)).
    - subst x. apply (search_handles t k true e (set_waits _ _ s)).
    - destruct (i_dbc (items (P s) i)); reflexivity.
    - apply release_handles.
    - subst x. apply close_turn_handles.
    - subst x. apply (close_turn_handles t tmo (Some n) (set_waits _ _ s)).
    - subst x. apply (close_turn_handles t true (Some n) (set_waits _ _ s)).
  Qed.
  Lemma run_handles : forall E l s, run ts0 recycle maxc E l s -> handles s = outstanding l.
  Proof.
    induction 1 as [|l s e s' R IH H He]; [reflexivity|]. rewrite (step_handles _ _ _ H), IH. destruct e; reflexivity.
  Qed.

  (** an item that was acquired has a connection, which nobody is about to close *)
  Definition filled (s : st) : Prop := forall a i, In (a, i) (handles s) -> dbc s i <> None /\ forall u, pcs s u <> Close0 i.
  Lemma filled_less : forall s s', (forall a i, In (a, i) (handles s') -> In (a, i) (handles s)) -> (forall i, dbc s i <> None -> (exists a, In (a, i) (handles s)) -> dbc s' i <> None) ->
    (forall u i, pcs s' u = Close0 i -> pcs s u = Close0 i) -> filled s -> filled s'.
  Proof.
    intros s s' H1 H2 H3 F a i H. destruct (F a i (H1 a i H)) as [A B]. split; [apply H2; eauto|]. intros u E. apply (B u), H3, E.
  Qed.
  Lemma got_filled : forall w s t i fl p, sys ts0 maxc w s -> filled s -> (forall j a, In (a, j) (handles s) -> i_dbc (items p j) = dbc s j) -> (fl = true -> hc i (handles s) = 0) ->
    (forall u, u <> t -> pcs s u <> Close0 i) -> (forall j, pcs s t <> Close0 j) -> filled (fst (got t i fl (set_P p s))).
  Proof.
    intros w s t i fl p Y F H1 H2 H3 H4. unfold got. destruct fl.
    - intros a j H. cbn [fst set_pc set_P handles] in H. destruct (F a j H) as [A B]. split; [unfold dbc; cbn; rewrite (H1 j a H); exact A|]. cbn [fst set_pc set_P pcs]. intros u E.
      destruct (Nat.eq_dec u t) as [->|N]; [|rewrite upd_other in E by exact N; apply (B u E)]. rewrite upd_same in E. injection E as ->. apply hc_in in H. specialize (H2 eq_refl). lia.
    - cbn [set_P P]. destruct (i_dbc (items p i)) eqn:Ed.
      + intros a j H. cbn [fst set_pc set_handles set_P handles] in H.
        assert (G : dbc s j <> None /\ (forall u, pcs s u <> Close0 j) /\ i_dbc (items p j) = dbc s j \/ j = i).
        { destruct H as [H|H]; [right; congruence|left]. destruct (F a j H). split; [assumption|]. split; [assumption|eapply H1, H]. }
        unfold dbc. cbn [fst set_pc set_handles set_P P pcs]. destruct G as [(G1 & G2 & G3)| ->].
        * split; [rewrite G3; exact G1|]. intros u E. destruct (Nat.eq_dec u t) as [->|N]; [rewrite upd_same in E; discriminate|rewrite upd_other in E by exact N; apply (G2 u E)].
        * split; [congruence|]. intros u E. destruct (Nat.eq_dec u t) as [->|N]; [rewrite upd_same in E; discriminate|rewrite upd_other in E by exact N; apply (H3 u N E)].
      + intros a j H. cbn [fst set_pc set_P handles] in H. destruct (F a j H) as [A B]. split; [unfold dbc; cbn; rewrite (H1 j a H); exact A|]. cbn [fst set_pc set_P pcs]. intros u E.
        destruct (Nat.eq_dec u t) as [->|N]; [rewrite upd_same in E; discriminate|rewrite upd_other in E by exact N; apply (B u E)].
  Qed.
  Lemma close0_busy : forall s u i, pcs s u = Close0 i -> busy (pcs s u) i = 1.
  Proof. intros s u i E. rewrite E. apply busy_close. Qed.
  Lemma search_filled : forall w t k b e s, sys ts0 maxc w s -> filled s -> ~ In t (keys (locked (P s))) -> (forall j, pcs s t <> Close0 j) -> filled (fst (search ts0 recycle maxc t k b e s)).
  Proof.
    intros w t k b e s Y F Nt N. unfold search. destruct (take ts0 recycle maxc t k (P s)) as [[[i fl] p]|] eqn:T.
    - destruct (take_spec ts0 recycle maxc t k (P s) i fl p T (y_ok _ _ _ _ _ _ _ _ _ _ _ Y) Nt) as [K _].
      assert (Hf : hc i (handles s) = 0 /\ forall u, busy (pcs s u) i = 0).
      { destruct (tk_where _ _ _ _ _ _ K) as [G|(E & _)]; [apply (y_free _ _ _ _ _ _ _ _ _ _ _ Y), G|]. split.
        - apply hc_0. intros a G. apply (y_handle _ _ _ _ _ _ _ _ _ _ _ Y) in G as [G _]. lia.
        - intro u. destruct (busy_01 (pcs s u) i) as [|G]; [assumption|]. apply (y_busy _ _ _ _ _ _ _ _ _ _ _ Y) in G as [G _]. lia. }
      destruct Hf as [Hh Hb]. eapply got_filled; [exact Y|exact F| |auto| |exact N].
      + intros j a Hj. rewrite (tk_other _ _ _ _ _ _ K); [reflexivity|]. intros ->. apply hc_in in Hj. lia.
      + intros u _ E. apply close0_busy in E. rewrite Hb in E. discriminate.
    - destruct (b && e); cbn [fst].
      + eapply filled_less; [| | |exact F]; destruct (mod_release ts0 t s) as [s'|] eqn:M; try (apply mod_release_same in M as (m & ->)); auto;
          intros u i; cbn [set_pc set_mod pcs]; (destruct (Nat.eq_dec u t) as [->|Nu]; [rewrite upd_same; discriminate|rewrite upd_other by exact Nu; auto]).
      + eapply filled_less; [| | |exact F]; auto. intros u i. cbn [wait set_pc set_waits pcs]. destruct (Nat.eq_dec u t) as [->|Nu]; [rewrite upd_same; discriminate|rewrite upd_other by exact Nu; auto].
  Qed.
  Lemma enter_filled : forall w t k b e s, sys ts0 maxc w s -> filled s -> (forall j, busy (pcs s t) j = 0) -> filled (fst (enter ts0 recycle maxc t k b e s)).
  Proof.
    intros w t k b e s Y F N0. assert (N : forall j, pcs s t <> Close0 j) by (intros j E; apply close0_busy in E; rewrite N0 in E; discriminate).
    unfold enter. destruct (mod_acquire ts0 t s) as [s'|] eqn:E.
    - apply mod_acquire_same in E as (m & ->). assert (Y' : sys ts0 maxc w (set_mod m s)) by (eapply sys_same; [..|exact Y]; reflexivity).
      destruct (lookup t (locked (P (set_mod m s)))) as [i|] eqn:L; [|apply lookup_none in L; eapply search_filled; eassumption].
      apply lookup_in in L. destruct (k_locked _ _ _ (y_ok _ _ _ _ _ _ _ _ _ _ _ Y) t i L) as [Hi _]. eapply got_filled; [exact Y'|exact F| |discriminate| |exact N].
      + intros j a _. unfold dbc. cbn [on_item items set_mod P]. destruct (Nat.eq_dec j i) as [->|Nj]; [rewrite upd_same|rewrite upd_other by exact Nj]; reflexivity.
      + intros u Nu Eu. apply close0_busy in Eu. apply (y_busy _ _ _ _ _ _ _ _ _ _ _ Y) in Eu as [_ Eu]. congruence.
    - cbn [fst]. eapply filled_less; [| | |exact F]; auto. intros u i. cbn [wait set_pc set_waits pcs]. destruct (Nat.eq_dec u t) as [->|Nu]; [rewrite upd_same; discriminate|rewrite upd_other by exact Nu; auto].
  Qed.
  Lemma unlock_dbc : forall b i p j, i_dbc (items (fst (unlock b i p)) j) = i_dbc (items p j).
  Proof.
    intros. unfold unlock. destruct (i_locked _ =? 0); cbn [fst items on_item]; (destruct (Nat.eq_dec j i) as [->|Nj]; [rewrite upd_same|rewrite upd_other by exact Nj]; reflexivity).
  Qed.
  Lemma filled_pc : forall s s' t c, P s' = P s -> handles s' = handles s -> pcs s' = upd (pcs s) t c -> (forall i, c <> Close0 i) -> filled s -> filled s'.
  Proof.
    intros s s' t c E1 E2 E3 N. apply filled_less; unfold dbc; rewrite ?E1, ?E2, ?E3; auto. intros u i. destruct (Nat.eq_dec u t) as [->|Nu]; [rewrite upd_same; intro E; destruct (N i E)|rewrite upd_other by exact Nu; auto].
  Qed.
  Lemma filled_same : forall s s', P s' = P s -> handles s' = handles s -> pcs s' = pcs s -> filled s -> filled s'.
  Proof. intros s s' E1 E2 E3. apply filled_less; unfold dbc; rewrite ?E1, ?E2, ?E3; auto. Qed.
  Lemma release_filled : forall t a i s, filled s -> filled (fst (release ts0 t a i s)).
  Proof.
    intros t a i s. pose proof (fun y => remove_sub y (a, i) (handles s)) as R. unfold release. destruct (locked_for t i (P s)) as [b|].
    - destruct (mod_release ts0 t s) as [s'|] eqn:M; [|auto]. apply mod_release_same in M as (m & ->). pose proof (unlock_dbc b i (P (set_mod m s))) as Ud. destruct (unlock b i _) as [p n]. cbn [fst] in *.
      apply filled_less.
      + intros c j. unfold notify. destruct n; [destruct (waits _)|]; apply R.
      + intros j Hj _. unfold dbc, notify in *. destruct n; [destruct (waits _)|]; cbn [set_waits set_P P]; rewrite Ud; exact Hj.
      + intros u j. unfold notify. destruct n; [destruct (waits _)|]; auto.
    - cbn [set_handles P]. destruct (existsb _ _); cbn [fst]; [|apply filled_less; auto; intros c j; apply R].
      apply filled_less; destruct (i_dbc _); auto; intros c j; apply R.
  Qed.
  Lemma close_turn_filled : forall w t b n s, sys ts0 maxc w s -> filled s -> filled (fst (close_turn t b n s)).
  Proof.
    intros w t b n s Y F. unfold close_turn. destruct (sweep t (alive s) (P s)) as [p c] eqn:E. assert (Ep : items p = items (P s)) by (unfold sweep in E; injection E as <- _; reflexivity).
    destruct (_ && _).
    - cbn [fst]. eapply filled_less; [| | |exact F]; auto.
      + intros j Hj _. unfold dbc in *. cbn [wait set_pc set_waits set_pend set_P P]. rewrite Ep. exact Hj.
      + intros u i. cbn [wait set_pc set_waits set_pend set_P pcs]. destruct (Nat.eq_dec u t) as [->|Nu]; [rewrite upd_same; discriminate|rewrite upd_other by exact Nu; auto].
    - cbn [force fst]. eapply filled_less; [| | |exact F]; auto.
      + intros j Hj _. unfold dbc in *. cbn [set_pc set_pend set_P P items]. rewrite Ep. exact Hj.
      + intros u i. cbn [set_pc set_pend set_P pcs]. destruct (Nat.eq_dec u t) as [->|Nu]; [rewrite upd_same; discriminate|rewrite upd_other by exact Nu; auto].
  Qed.
  Lemma step_filled : forall s e s', step ts0 recycle maxc s e s' -> forall w, sys ts0 maxc w s -> filled s -> filled s'.
  Proof.
    intros s e s' H w Y F.
    assert (Sw : forall q v, sys ts0 maxc w (set_waits q v s)) by (intros q v; eapply sys_same; [..|exact Y]; reflexivity).
    destruct H.
    - unfold acquire. destruct (closing s); [exact F|]. eapply enter_filled; [exact Y|exact F|]. intro j. rewrite H0. reflexivity.
    - subst x. unfold resume_mod. destruct (tmo && e); cbn [fst]; [eapply (filled_pc s); [reflexivity|reflexivity|reflexivity|discriminate|exact F]|].
      eapply enter_filled; [apply Sw|exact F|]. intro j. cbn [set_waits pcs]. rewrite H. reflexivity.
    - subst x. unfold resume_mod. destruct (true && e); cbn [fst]; [eapply (filled_pc s); [reflexivity|reflexivity|reflexivity|discriminate|exact F]|].
      eapply enter_filled; [apply Sw|exact F|]. intro j. cbn [set_waits pcs]. rewrite H. reflexivity.
    - subst x. eapply search_filled; [apply Sw|exact F|eapply (y_wait _ _ _ _ _ _ _ _ _ _ _ Y), H|]. intros j. cbn [set_waits pcs]. congruence.
    - subst x. eapply search_filled; [apply Sw|exact F|eapply (y_wait _ _ _ _ _ _ _ _ _ _ _ Y), H|]. intros j. cbn [set_waits pcs]. congruence.
    - intros a j Hj. assert (Hj' : In (a, j) (handles s)) by (destruct (i_dbc (items (P s) i)); exact Hj). destruct (F a j Hj') as [A B].
      assert (Nj : j <> i) by (intros ->; destruct (B t H)). unfold dbc. cbn [set_pc set_P P on_item items pcs]. rewrite upd_other by exact Nj. split; [destruct (i_dbc (items (P s) i)); exact A|]. intros u E.
      destruct (Nat.eq_dec u t) as [->|N]; [rewrite upd_same in E; discriminate|rewrite upd_other in E by exact N]. apply (B u). destruct (i_dbc (items (P s) i)); exact E.
    - assert (Ot : busy (pcs s t) i = 1) by (rewrite H; apply busy_open).
      intros a j Hj. unfold dbc. cbn [set_pc set_handles set_P set_open P on_item items pcs handles] in *. destruct Hj as [Hj|Hj].
      + injection Hj as <- <-. rewrite upd_same. split; [discriminate|]. intros u E. destruct (Nat.eq_dec u t) as [->|N]; [rewrite upd_same in E; discriminate|rewrite upd_other in E by exact N].
        apply N. eapply (one_thread ts0 maxc w s); [exact Y|left; apply close0_busy, E|left; exact Ot].
      + destruct (F a j Hj) as [A B]. split; [destruct (Nat.eq_dec j i) as [->|Nj]; [rewrite upd_same; discriminate|rewrite upd_other by exact Nj; exact A]|].
        intros u E. destruct (Nat.eq_dec u t) as [->|N]; [rewrite upd_same in E; discriminate|rewrite upd_other in E by exact N]. apply (B u E).
    - eapply (filled_pc s); [reflexivity|reflexivity|reflexivity|discriminate|exact F].
    - apply release_filled, F.
    - eapply (filled_pc s); [reflexivity|reflexivity|reflexivity|discriminate|exact F].
    - intros a j Hj. unfold dbc. cbn [set_pc set_P set_open P on_item items pcs handles] in *. destruct (F a j Hj) as [A B].
      split; [destruct (Nat.eq_dec j i) as [->|Nj]; [rewrite upd_same; discriminate|rewrite upd_other by exact Nj; exact A]|].
      intros u E. destruct (Nat.eq_dec u t) as [->|N]; [rewrite upd_same in E; discriminate|rewrite upd_other in E by exact N]. apply (B u E).
    - eapply (filled_pc s); [reflexivity|reflexivity|reflexivity|discriminate|exact F].
    - eapply (filled_same s); [reflexivity|reflexivity|reflexivity|exact F].
    - pose proof (clean_spec ts0 recycle maxc (alive s) old (P s) (y_ok _ _ _ _ _ _ _ _ _ _ _ Y)) as [Sh _]. eapply filled_less; [| | |exact F]; auto.
      + intros j Hj _. unfold dbc in *. cbn [set_pc set_pend set_P P]. rewrite (sh_dbc _ _ _ _ _ Sh). exact Hj.
      + intros u j. cbn [set_pc set_pend set_P pcs]. destruct (Nat.eq_dec u t) as [->|N]; [rewrite upd_same; discriminate|rewrite upd_other by exact N; auto].
    - eapply (filled_same s); [reflexivity|reflexivity|reflexivity|exact F].
    - eapply (filled_pc s); [reflexivity|reflexivity|reflexivity|discriminate|exact F].
    - eapply (filled_pc s); [reflexivity|reflexivity|reflexivity|discriminate|exact F].
    - subst x. eapply close_turn_filled; [exact Y|exact F].
    - subst x. eapply close_turn_filled; [apply Sw|exact F].
    - subst x. eapply close_turn_filled; [apply Sw|exact F].
  Qed.
  Lemma run_filled : forall E l s, run ts0 recycle maxc E l s -> filled s.
  Proof. induction 1 as [|l s e s' R IH H He]; [intros a i []|]. eapply step_filled; [exact H|apply (run_inv _ _ _ _ _ _ R)|exact IH]. Qed.
End fill.
