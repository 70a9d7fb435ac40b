(** What is left to close; pools that can give no connection; the end of the pool. *)
From Verif Require Import SpModel SpInv SpClean SpSys SpStep SpLive SpSpec SpFill.

Section owner.
  Variables ts0 recycle : bool.
  Variable maxc : nat.
  Definition leaves (c : pc) : Prop := c = Finish \/ in_close c.
  Definition owned (s : st) : Prop := forall t d, In (t, d) (pend s) -> leaves (pcs s t).
  (** steps that add nothing to what is to be closed *)
  Lemma owned_less : forall s s' t, pend s' = pend s -> (forall u, u <> t -> pcs s' u = pcs s u) -> (leaves (pcs s t) -> leaves (pcs s' t)) -> owned s -> owned s'.
  Proof.
    intros s s' t E1 E2 E3 O u d H. rewrite E1 in H. apply O in H. destruct (Nat.eq_dec u t) as [->|N]; [auto|rewrite E2 by exact N; exact H].
  Qed.
  Definition plain (s : st) (t : nat) (s' : st) : Prop := pend s' = pend s /\ forall u, u <> t -> pcs s' u = pcs s u.
  Lemma plain_set : forall s s' t c, pend s' = pend s -> pcs s' = upd (pcs s) t c -> plain s t s'.
  Proof. intros s s' t c E1 E2. split; [exact E1|]. intros u N. rewrite E2. apply upd_other, N. Qed.
  Lemma got_plain : forall t i fl s p, plain s t (fst (got t i fl (set_P p s))).
  Proof. intros. unfold got. destruct fl; [eapply plain_set; reflexivity|]. destruct (i_dbc _); eapply plain_set; reflexivity. Qed.
  Lemma search_plain : forall t k b e s, plain s t (fst (search ts0 recycle maxc t k b e s)).
  Proof.
    intros. unfold search. destruct (take _ _ _ _ _ _) as [[[i fl] p]|]; [apply got_plain|]. destruct (b && e); [|eapply plain_set; reflexivity]. cbn [fst].
    destruct (mod_release ts0 t s) as [s'|] eqn:M; [apply mod_release_same in M as (m & ->)|]; eapply plain_set; reflexivity.
  Qed.
  Lemma enter_plain : forall t k b e s, plain s t (fst (enter ts0 recycle maxc t k b e s)).
  Proof.
    intros. unfold enter. destruct (mod_acquire ts0 t s) as [s'|] eqn:M; [|eapply plain_set; reflexivity]. apply mod_acquire_same in M as (m & ->).
    destruct (lookup _ _); [apply (got_plain t n false (set_mod m s))|apply (search_plain t k b e (set_mod m s))].
  Qed.
  Lemma release_same : forall t a i s, pend (fst (release ts0 t a i s)) = pend s /\ pcs (fst (release ts0 t a i s)) = pcs s.
  Proof.
    intros. unfold release. destruct (locked_for t i (P s)) as [b|].
    - destruct (mod_release ts0 t s) as [s'|] eqn:M; [|auto]. apply mod_release_same in M as (m & ->). destruct (unlock b i _) as [p n]. cbn [fst]. destruct n; [|auto]. unfold notify. destruct (waits _); auto.
    - cbn [set_handles P]. destruct (existsb _ _); cbn [fst]; [|auto]. destruct (i_dbc _); auto.
  Qed.
  Lemma owned_plain : forall s s' t c, pcs s t = c -> ~ leaves c -> plain s t s' -> owned s -> owned s'.
  Proof. intros s s' t c E N [P1 P2]. apply (owned_less s s' t P1 P2). rewrite E. contradiction. Qed.
  Lemma owned_more : forall s s' t c, (forall x, In x (pend s') -> In x (pend s) \/ fst x = t) -> pcs s' = upd (pcs s) t c -> leaves c -> owned s -> owned s'.
  Proof.
    intros s s' t c H E L O u d K. rewrite E. destruct (Nat.eq_dec u t) as [->|N]; [rewrite upd_same; exact L|]. rewrite upd_other by exact N. destruct (H _ K) as [K'|K']; [eapply O, K'|cbn in K'; congruence].
  Qed.
  Lemma in_pairs : forall (x : nat * nat) t c l, In x (l ++ map (pair t) c) -> In x l \/ fst x = t.
  Proof. intros x t c l H. apply in_app_iff in H as [H|H]; [auto|]. apply in_map_iff in H as (d & <- & _). auto. Qed.
  Lemma close_turn_owned : forall t b n s, owned s -> owned (fst (close_turn t b n s)).
  Proof.
    intros t b n s O. unfold close_turn. destruct (sweep t (alive s) (P s)) as [p c]. destruct (_ && _).
    - cbn [fst]. eapply (owned_more s _ t); [|reflexivity|right; right; eauto|exact O]. intros x H. apply (in_pairs _ _ _ _ H).
    - destruct (force p) as [p' c']. cbn [fst]. eapply (owned_more s _ t); [|reflexivity|left; reflexivity|exact O]. intros x H. apply in_pairs in H as [H|H]; [apply in_pairs in H|]; auto.
  Qed.
  Ltac nl := intros [?|[?|(? & ? & ?)]]; discriminate.
  Lemma step_owned : forall s e s', step ts0 recycle maxc s e s' -> owned s -> owned s'.
  Proof.
    intros s e s' H O. destruct H.
    - unfold acquire. destruct (closing s); [exact O|]. eapply owned_plain; [eassumption|nl|apply enter_plain|exact O].
    - subst x. unfold resume_mod. eapply (owned_plain s _ t); [eassumption|nl| |exact O]. destruct (tmo && e); [eapply plain_set; reflexivity|apply (enter_plain t k tmo e' (set_waits _ _ s))].
    - subst x. unfold resume_mod. eapply (owned_plain s _ t); [eassumption|nl| |exact O]. destruct (true && e); [eapply plain_set; reflexivity|apply (enter_plain t k true e' (set_waits _ _ s))].
    - subst x. eapply (owned_plain s _ t); [eassumption|nl|apply (search_plain t k tmo e (set_waits _ _ s))|exact O].
    - subst x. eapply (owned_plain s _ t); [eassumption|nl|apply (search_plain t k true e (set_waits _ _ s))|exact O].
    - eapply (owned_plain s _ t); [eassumption|nl| |exact O]. destruct (i_dbc (items (P s) i)); eapply plain_set; reflexivity.
    - eapply (owned_plain s _ t); [eassumption|nl|eapply plain_set; reflexivity|exact O].
    - eapply (owned_plain s _ t); [eassumption|nl|eapply plain_set; reflexivity|exact O].
    - destruct (release_same t a i s) as [E1 E2]. intros u d K. rewrite E1 in K. rewrite E2. eapply O, K.
    - eapply (owned_plain s _ t); [eassumption|nl|eapply plain_set; reflexivity|exact O].
    - eapply (owned_plain s _ t); [eassumption|nl|eapply plain_set; reflexivity|exact O].
    - eapply (owned_plain s _ t); [eassumption|nl|eapply plain_set; reflexivity|exact O].
    - exact O.
    - eapply (owned_more s _ t); [|reflexivity|left; reflexivity|exact O]. intros x K. apply (in_pairs _ _ _ _ K).
    - intros u e K. apply (O u e). eapply remove_sub, K.
    - intros u d K. cbn [set_pc pcs]. destruct (Nat.eq_dec u t) as [->|N]; [destruct (H0 d K)|]. rewrite upd_other by exact N. apply (O u d K).
    - eapply (owned_plain s _ t); [eassumption|nl|eapply plain_set; reflexivity|exact O].
    - subst x. apply close_turn_owned, O.
    - subst x. apply close_turn_owned, O.
    - subst x. apply close_turn_owned, O.
  Qed.
  Lemma run_owned : forall E l s, run ts0 recycle maxc E l s -> owned s.
  Proof. induction 1 as [|l s e s' R IH H He]; [intros t d []|]. eapply step_owned; eassumption. Qed.
End owner.

Lemma opened_count : forall ts0 maxc s, sys ts0 maxc false s -> length (opened s) <= cpool_max ts0 maxc + length (pend s).
Proof.
  intros ts0 maxc s Y. assert (H : incl (opened s) (dbcs (P s) (tabs (P s)) ++ map snd (pend s))).
  { intros d Hd. apply in_or_app. destruct (y_from _ _ _ _ _ _ _ _ _ _ _ Y d Hd) as [(i & H1 & H2)|[(t & H)|H]]; [|right|discriminate].
    - left. apply in_flat_map. exists i. split; [exact H1|]. rewrite H2. left. reflexivity.
    - change d with (snd (t, d)). apply in_map, H. }
  apply NoDup_incl_length in H; [|apply Y]. rewrite app_length, map_length in H. assert (L : forall l, length (dbcs (P s) l) <= length l).
  { induction l as [|i l IH]; [cbn; lia|]. cbn [dbcs flat_map]. rewrite app_length. fold (dbcs (P s) l). destruct (i_dbc _); cbn [length]; lia. }
  specialize (L (tabs (P s))). pose proof (k_size _ _ _ (y_ok _ _ _ _ _ _ _ _ _ _ _ Y)). pose proof (k_max _ _ _ (y_ok _ _ _ _ _ _ _ _ _ _ _ Y)). lia.
Qed.

(** a pool without items that takes no new ones *)
Section dead_end.
  Variables ts0 recycle : bool.
  Variable maxc : nat.
  Definition none_left (p : pool) : Prop := locked p = [] /\ unlocked p = [] /\ idle p = [] /\ cpool_max ts0 maxc <= size p.
  Record dead_end (s : st) : Prop := { de_pool : none_left (P s); de_busy : forall t i, pcs s t <> Close0 i /\ pcs s t <> Open0 i }.
  Definition no_acquired (e : event) : Prop := forall t i, e <> Acquired t i.
  (** t stays asleep *)
  Definition asleep (t : nat) (s : st) : Prop := pcs s t = WaitConn false /\ In t (waits s) /\ ~ In t (woken s).
  Lemma take_dead : forall t k p, none_left p -> take ts0 recycle maxc t k p = None.
  Proof.
    intros t k p (H1 & H2 & H3 & H4). unfold take. rewrite H2, H3. cbn [lookup pick]. destruct (Nat.ltb_spec (size p) (cpool_max ts0 maxc)); [lia|reflexivity].
  Qed.
  Definition kept (t : nat) (s s' : st) : Prop := forall u, u <> t -> asleep u s -> asleep u s'.
  Lemma dead_pc : forall s s' t c, dead_end s -> P s' = P s -> pcs s' = upd (pcs s) t c -> (forall i, c <> Close0 i /\ c <> Open0 i) -> dead_end s'.
  Proof.
    intros s s' t c [D1 D2] E1 E2 N. constructor; [rewrite E1; exact D1|]. intros u i. rewrite E2. destruct (Nat.eq_dec u t) as [->|Nu]; [rewrite upd_same; apply N|rewrite upd_other by exact Nu; apply D2].
  Qed.
  Lemma search_dead : forall t k b e s, dead_end s -> let x := search ts0 recycle maxc t k b e s in dead_end (fst x) /\ no_acquired (snd x) /\ kept t s (fst x).
  Proof.
    intros t k b e s D x. unfold x, search. rewrite (take_dead t k _ (de_pool s D)). destruct (b && e); cbn [fst snd].
    - assert (K : forall m, dead_end (set_pc t Out (set_mod m s)) /\ no_acquired (NoneAcquired t) /\ kept t s (set_pc t Out (set_mod m s))).
      { intro m. split; [eapply dead_pc; [exact D|reflexivity|reflexivity|split; discriminate]|]. split; [intros u i; discriminate|]. intros u N (A & B & C). unfold asleep. cbn [set_pc set_mod pcs waits woken]. rewrite upd_other by exact N. auto. }
      destruct (mod_release ts0 t s) as [s'|] eqn:M; [apply mod_release_same in M as (m & ->); apply K|]. specialize (K (modl s)). destruct s; exact K.
    - split; [eapply dead_pc; [exact D|reflexivity|reflexivity|split; discriminate]|]. split; [intros u i; discriminate|]. intros u N (A & B & C). unfold asleep. cbn [wait set_pc set_waits pcs waits woken]. rewrite upd_other by exact N.
      split; [exact A|]. split; [apply in_or_app; auto|exact C].
  Qed.
  Lemma enter_dead : forall t k b e s, dead_end s -> let x := enter ts0 recycle maxc t k b e s in dead_end (fst x) /\ no_acquired (snd x) /\ kept t s (fst x).
  Proof.
    intros t k b e s D x. unfold x, enter. destruct (mod_acquire ts0 t s) as [s'|] eqn:M.
    - apply mod_acquire_same in M as (m & ->). assert (D' : dead_end (set_mod m s)) by (destruct D; constructor; assumption). destruct (de_pool s D) as (L & _). cbn [set_mod P]. rewrite L. cbn [lookup].
      apply (search_dead t k b e (set_mod m s) D').
    - cbn [fst snd]. split; [eapply dead_pc; [exact D|reflexivity|reflexivity|split; discriminate]|]. split; [intros u i; discriminate|]. intros u N (A & B & C). unfold asleep. cbn [wait set_pc set_waits pcs waits woken]. rewrite upd_other by exact N.
      split; [exact A|]. split; [apply in_or_app; auto|exact C].
  Qed.
  Lemma kept_set : forall s s' t c, pcs s' = upd (pcs s) t c -> waits s' = waits s -> woken s' = woken s -> kept t s s'.
  Proof. intros s s' t c E1 E2 E3 u N (A & B & C). unfold asleep. rewrite E1, E2, E3, upd_other by exact N. auto. Qed.
  Lemma kept_pre : forall s1 s s' t, kept t s1 s' -> pcs s1 = pcs s -> (forall u, u <> t -> In u (waits s) -> In u (waits s1)) -> (forall u, In u (woken s1) -> In u (woken s)) -> kept t s s'.
  Proof. intros s1 s s' t K E1 E2 E3 u N (A & B & C). apply (K u N). unfold asleep. rewrite E1. split; [exact A|]. split; [apply E2; assumption|]. intro F. apply C, E3, F. Qed.
  Lemma none_clean : forall al old p, none_left p -> none_left (fst (clean recycle al old p)).
  Proof. intros al old p (H1 & H2 & H3 & H4). unfold clean, clean_locked. rewrite H1. cbn [filter fst unlocked]. rewrite H2. cbn [fold_left fst idle]. rewrite H3. cbn. split; [reflexivity|auto]. Qed.
  Lemma close_turn_dead : forall t b n s, dead_end s -> let x := close_turn t b n s in dead_end (fst x) /\ no_acquired (snd x) /\ kept t s (fst x).
  Proof.
    intros t b n s D x. pose proof (de_pool s D) as (H1 & H2 & H3 & H4). unfold x, close_turn, sweep. cbn [locked]. rewrite H1. cbn [filter length Nat.ltb Nat.leb andb force locked fst snd].
    split; [|split; [intros u i; discriminate|eapply kept_set; reflexivity]]. destruct D as [_ D2]. constructor; [cbn; repeat split; assumption|].
    intros u i. cbn [set_pc set_pend set_P pcs]. destruct (Nat.eq_dec u t) as [->|Nu]; [rewrite upd_same; split; discriminate|rewrite upd_other by exact Nu; apply D2].
  Qed.
  Lemma in_rest : forall (u t : nat) l r, In u (l ++ r) -> In u (l ++ t :: r).
  Proof. intros u t l r. rewrite !in_app_iff. cbn [In]. tauto. Qed.
  Lemma in_other : forall (u t : nat) l r, u <> t -> In u (l ++ t :: r) -> In u (l ++ r).
  Proof. intros u t l r N. rewrite !in_app_iff. cbn [In]. intuition congruence. Qed.
  Lemma kept_self : forall t s s', kept t s s' -> ~ asleep t s -> forall u, asleep u s -> asleep u s'.
  Proof. intros t s s' K N u A. apply K; [|exact A]. intros ->. contradiction. Qed.
  Lemma step_dead : forall s e s', step ts0 recycle maxc s e s' -> dead_end s -> dead_end s' /\ no_acquired e /\ forall u, asleep u s -> asleep u s'.
  Proof.
    intros s e s' H D.
    assert (Dw : forall q v, dead_end (set_waits q v s)) by (intros; destruct D; constructor; assumption).
    assert (Na : forall t c, pcs s t = c -> c <> WaitConn false -> ~ asleep t s) by (intros t c E N (F & _); congruence).
    assert (Fin : forall t s' e, kept t s s' -> ~ asleep t s -> dead_end s' /\ no_acquired e -> dead_end s' /\ no_acquired e /\ forall u, asleep u s -> asleep u s').
    { intros t s1 e1 K N [A B]. split; [exact A|]. split; [exact B|]. intros u F. eapply kept_self; eassumption. }
    assert (Dn : forall t c s', P s' = P s -> pcs s' = upd (pcs s) t c -> waits s' = waits s -> woken s' = woken s -> (forall i, c <> Close0 i /\ c <> Open0 i) -> dead_end s' /\ kept t s s').
    { intros t c s1 E1 E2 E3 E4 N. split; [eapply dead_pc; eassumption|eapply kept_set; eassumption]. }
    destruct H.
    - eapply (Fin t); [| |]; unfold acquire; destruct (closing s); cbn [fst snd]; try (eapply Na; [eassumption|discriminate]).
      + intros u _ A. exact A.
      + apply (enter_dead t k tmo expired s D).
      + split; [exact D|intros u i; discriminate].
      + destruct (enter_dead t k tmo expired s D) as (A & B & _). auto.
    - subst x. assert (X : dead_end (fst (resume_mod ts0 recycle maxc t k tmo e e' (set_waits (waits s) (l ++ r) s))) /\ no_acquired (snd (resume_mod ts0 recycle maxc t k tmo e e' (set_waits (waits s) (l ++ r) s))) /\
        kept t (set_waits (waits s) (l ++ r) s) (fst (resume_mod ts0 recycle maxc t k tmo e e' (set_waits (waits s) (l ++ r) s)))).
      { unfold resume_mod. destruct (tmo && e); [|apply enter_dead, Dw]. cbn [fst snd]. split; [eapply dead_pc; [apply (Dw (waits s) (l ++ r))|reflexivity|reflexivity|split; discriminate]|]. split; [intros u i; discriminate|eapply kept_set; reflexivity]. }
      destruct X as (A & B & C). apply (Fin t); [|eapply Na; [eassumption|discriminate]|auto]. eapply kept_pre; [exact C|reflexivity|auto|]. cbn [set_waits woken]. intros u F. rewrite H0. apply in_rest, F.
    - subst x. assert (X : dead_end (fst (resume_mod ts0 recycle maxc t k true e e' (set_waits (l ++ r) (woken s) s))) /\ no_acquired (snd (resume_mod ts0 recycle maxc t k true e e' (set_waits (l ++ r) (woken s) s))) /\
        kept t (set_waits (l ++ r) (woken s) s) (fst (resume_mod ts0 recycle maxc t k true e e' (set_waits (l ++ r) (woken s) s)))).
      { unfold resume_mod. destruct (true && e); [|apply enter_dead, Dw]. cbn [fst snd]. split; [eapply dead_pc; [apply (Dw (l ++ r) (woken s))|reflexivity|reflexivity|split; discriminate]|]. split; [intros u i; discriminate|eapply kept_set; reflexivity]. }
      destruct X as (A & B & C). apply (Fin t); [|eapply Na; [eassumption|discriminate]|auto]. eapply kept_pre; [exact C|reflexivity| |auto]. cbn [set_waits waits]. intros u N F. rewrite H0 in F. eapply in_other; eassumption.
    - subst x. destruct (search_dead t k tmo e (set_waits (waits s) (l ++ r) s) (Dw _ _)) as (A & B & C). apply (Fin t); [| |auto].
      + eapply kept_pre; [exact C|reflexivity|auto|]. cbn [set_waits woken]. intros u F. rewrite H0. apply in_rest, F.
      + intros (_ & _ & F). apply F. rewrite H0. apply in_or_app. right. left. reflexivity.
    - subst x. destruct (search_dead t k true e (set_waits (l ++ r) (woken s) s) (Dw _ _)) as (A & B & C). apply (Fin t); [| |auto].
      + eapply kept_pre; [exact C|reflexivity| |auto]. cbn [set_waits waits]. intros u N F. rewrite H0 in F. eapply in_other; eassumption.
      + intros (F & _). congruence.
    - destruct (de_busy s D t i) as [F _]. contradiction.
    - destruct (de_busy s D t i) as [_ F]. contradiction.
    - destruct (de_busy s D t i) as [_ F]. contradiction.
    - assert (Er : release ts0 t a i s = (set_handles (remove_one (a, i) (handles s)) s, Released t a i)).
      { destruct (de_pool s D) as (H3 & H4 & H5 & H6). unfold release, locked_for. rewrite H3. cbn [lookup find set_handles P]. rewrite H5. reflexivity. }
      rewrite Er. cbn [fst snd]. split; [destruct D; constructor; assumption|]. split; [intros u j; discriminate|auto].
    - destruct (Dn t (Reopen i) (set_pc t (Reopen i) (shut d s))) as [A B]; try reflexivity; [split; discriminate|]. apply (Fin t); [exact B|eapply Na; [eassumption|discriminate]|]. split; [exact A|intros u j; discriminate].
    - set (s' := set_pc t Out _). apply (Fin t); [eapply kept_set; reflexivity|eapply Na; [eassumption|discriminate]|]. split; [|intros u j; discriminate].
      destruct D as [D1 D2]. constructor; [exact D1|]. intros u j. cbn [s' set_pc set_P set_open pcs]. destruct (Nat.eq_dec u t) as [->|Nu]; [rewrite upd_same; split; discriminate|rewrite upd_other by exact Nu; apply D2].
    - destruct (Dn t Out (set_pc t Out s)) as [A B]; try reflexivity; [split; discriminate|]. apply (Fin t); [exact B|eapply Na; [eassumption|discriminate]|]. split; [exact A|intros u j; discriminate].
    - split; [destruct D; constructor; assumption|]. split; [intros u j; discriminate|auto].
    - set (s' := set_pc t Finish _). apply (Fin t); [eapply kept_set; reflexivity|eapply Na; [eassumption|discriminate]|]. split; [|intros u j; discriminate].
      destruct D as [D1 D2]. constructor; [apply none_clean, D1|]. intros u j. cbn [s' set_pc set_P set_pend pcs]. destruct (Nat.eq_dec u t) as [->|Nu]; [rewrite upd_same; split; discriminate|rewrite upd_other by exact Nu; apply D2].
    - split; [destruct D; constructor; assumption|]. split; [intros u j; discriminate|auto].
    - destruct (Dn t Out (set_pc t Out s)) as [A B]; try reflexivity; [split; discriminate|]. apply (Fin t); [exact B|eapply Na; [eassumption|discriminate]|]. split; [exact A|intros u j; discriminate].
    - destruct (Dn t Closing (set_pc t Closing (set_closing s))) as [A B]; try reflexivity; [split; discriminate|]. apply (Fin t); [exact B|eapply Na; [eassumption|discriminate]|]. split; [exact A|intros u j; discriminate].
    - subst x. destruct (close_turn_dead t tmo None s D) as (A & B & C). apply (Fin t); [exact C|eapply Na; [eassumption|discriminate]|auto].
    - subst x. destruct (close_turn_dead t tmo (Some n) (set_waits (waits s) (l ++ r) s) (Dw _ _)) as (A & B & C). apply (Fin t); [|eapply Na; [eassumption|discriminate]|auto].
      eapply kept_pre; [exact C|reflexivity|auto|]. cbn [set_waits woken]. intros u F. rewrite H0. apply in_rest, F.
    - subst x. destruct (close_turn_dead t true (Some n) (set_waits (l ++ r) (woken s) s) (Dw _ _)) as (A & B & C). apply (Fin t); [|eapply Na; [eassumption|discriminate]|auto].
      eapply kept_pre; [exact C|reflexivity| |auto]. cbn [set_waits waits]. intros u N F. rewrite H0 in F. eapply in_other; eassumption.
  Qed.
End dead_end.

(** close() was called, nobody has or waits for a connection *)
Section over.
  Variables ts0 recycle : bool.
  Variable maxc : nat.
  Definition resting (c : pc) : Prop := c = Out \/ leaves c.
  Record over (s : st) : Prop := { ov_closing : closing s = true; ov_handles : handles s = []; ov_pcs : forall t, resting (pcs s t) }.
  Definition pending (s : st) : Prop := forall d, In d (opened s) -> exists t, In (t, d) (pend s).
  Lemma over_set : forall s s' t c, over s -> closing s' = true -> handles s' = handles s -> pcs s' = upd (pcs s) t c -> resting c -> over s'.
  Proof.
    intros s s' t c [O1 O2 O3] E1 E2 E3 R. constructor; [exact E1|congruence|]. intro u. rewrite E3. destruct (Nat.eq_dec u t) as [->|N]; [rewrite upd_same; exact R|rewrite upd_other by exact N; apply O3].
  Qed.
  Lemma close_turn_over : forall t b n s, over s -> let x := close_turn t b n s in over (fst x) /\ no_acquired (snd x) /\ opened (fst x) = opened s /\ incl (pend s) (pend (fst x)).
  Proof.
    intros t b n s O x. unfold x, close_turn. destruct (sweep t (alive s) (P s)) as [p c]. destruct (_ && _).
    - cbn [fst snd]. split; [eapply over_set; [exact O|apply O|reflexivity|reflexivity|right; right; right; eauto]|]. split; [intros u i; discriminate|]. split; [reflexivity|]. intros y H. apply in_or_app. auto.
    - destruct (force p) as [p' c']. cbn [fst snd]. split; [eapply over_set; [exact O|apply O|reflexivity|reflexivity|right; left; reflexivity]|]. split; [intros u i; discriminate|]. split; [reflexivity|]. intros y H. apply in_or_app. left. apply in_or_app. auto.
  Qed.
  Lemma step_over : forall s e s', step ts0 recycle maxc s e s' -> over s -> over s' /\ no_acquired e /\ incl (opened s') (opened s) /\ (pending s -> pending s').
  Proof.
    intros s e s' H O. assert (R : forall t c, pcs s t = c -> resting c) by (intros t c <-; apply O).
    assert (Ow : forall q v, over (set_waits q v s)) by (intros; destruct O; constructor; assumption).
    assert (Fin : forall s' e, over s' -> no_acquired e -> opened s' = opened s -> incl (pend s) (pend s') -> over s' /\ no_acquired e /\ incl (opened s') (opened s) /\ (pending s -> pending s')).
    { intros s1 e1 A B C D. split; [exact A|]. split; [exact B|]. rewrite C. split; [intros d F; exact F|]. intros Q d F. rewrite C in F. apply Q in F as (t & F). eauto. }
    Ltac nr2 X := let F := fresh in pose proof X as F; destruct F as [F|[F|[F|(? & ? & F)]]]; discriminate.
    destruct H; try (exfalso; match goal with E : pcs s ?v = _ |- _ => nr2 (R v _ E) end).
    - unfold acquire. rewrite (ov_closing s O). cbn [fst snd]. apply Fin; [exact O|intros u i; discriminate|reflexivity|intros y F; exact F].
    - rewrite (ov_handles s O) in H1. destruct H1.
    - rewrite (ov_handles s O) in H1. destruct H1.
    - apply Fin; [destruct O; constructor; assumption|intros u i; discriminate|reflexivity|intros y F; exact F].
    - apply Fin; [eapply over_set; [exact O|apply O|reflexivity|reflexivity|right; left; reflexivity]|intros u i; discriminate|reflexivity|]. intros y F. apply in_or_app. auto.
    - split; [destruct O; constructor; assumption|]. split; [intros u i; discriminate|]. split; [intros x F; apply filter_In in F; apply F|].
      intros Q x F. cbn [shut set_open set_pend opened pend] in *. apply filter_In in F as [F N]. apply Q in F as (u & F). exists u. apply remove_keep; [exact F|]. intro E. injection E as -> ->. rewrite Nat.eqb_refl in N. discriminate.
    - apply Fin; [eapply over_set; [exact O|apply O|reflexivity|reflexivity|left; reflexivity]|intros u i; discriminate|reflexivity|intros y F; exact F].
    - apply Fin; [eapply over_set; [exact O|reflexivity|reflexivity|reflexivity|right; right; left; reflexivity]|intros u i; discriminate|reflexivity|intros y F; exact F].
    - subst x. destruct (close_turn_over t tmo None s O) as (A & B & C & D). apply Fin; assumption.
    - subst x. destruct (close_turn_over t tmo (Some n) (set_waits (waits s) (l ++ r) s) (Ow _ _)) as (A & B & C & D). apply Fin; assumption.
    - subst x. destruct (close_turn_over t true (Some n) (set_waits (l ++ r) (woken s) s) (Ow _ _)) as (A & B & C & D). apply Fin; assumption.
  Qed.
  (** the end of close(): everything that is open is to be closed *)
  Lemma close_turn_pending : forall t b n s, sys ts0 maxc false s -> is_swept (snd (close_turn t b n s)) = true -> pending (fst (close_turn t b n s)).
  Proof.
    intros t b n s Y. unfold close_turn. pose proof (sweep_spec ts0 maxc t (alive s) (P s) (y_ok _ _ _ _ _ _ _ _ _ _ _ Y)) as Sh. cbv zeta in Sh.
    assert (E : unlocked (fst (sweep t (alive s) (P s))) = [] /\ idle (fst (sweep t (alive s) (P s))) = []) by (split; reflexivity).
    destruct (sweep t (alive s) (P s)) as [p c]. cbn [fst snd] in Sh, E. destruct (_ && _); [discriminate|].
    pose proof (force_spec ts0 maxc p (sh_ok _ _ _ _ _ Sh)) as Sf. cbv zeta in Sf. assert (T : tabs (fst (force p)) = []) by (destruct E as [E1 E2]; unfold force, tabs; cbn [fst locked unlocked idle]; rewrite E1, E2; reflexivity).
    destruct (force p) as [p' c']. cbn [fst snd] in *. intros _ d Hd. pose proof (shrink_trans _ _ _ _ _ _ _ Sh Sf) as Sx. cbn [set_pc set_pend set_P opened pend] in *.
    destruct (y_from _ _ _ _ _ _ _ _ _ _ _ Y d Hd) as [(i & H1 & H2)|[(u & H)|H]]; [|exists u; apply in_or_app; left; apply in_or_app; auto|discriminate].
    exists t. assert (F : In d (c ++ c')) by (eapply (sh_c2 _ _ _ _ _ Sx); [exact H1|rewrite T; auto|exact H2]). rewrite <- app_assoc, <- map_app. apply in_or_app. right. apply in_map, F.
  Qed.
  Lemma step_pending : forall s e s', step ts0 recycle maxc s e s' -> sys ts0 maxc false s -> is_swept e = true -> pending s'.
  Proof.
    intros s e s' H Y.
    assert (Sw : forall q v, sys ts0 maxc false (set_waits q v s)) by (intros q v; eapply sys_same; [..|exact Y]; reflexivity).
    destruct H; try discriminate.
    - unfold acquire. destruct (closing s); [discriminate|rewrite enter_quiet; discriminate].
    - subst x. unfold resume_mod. destruct (tmo && e); [discriminate|rewrite enter_quiet; discriminate].
    - subst x. unfold resume_mod. destruct (true && e); [discriminate|rewrite enter_quiet; discriminate].
    - subst x. rewrite search_quiet. discriminate.
    - subst x. rewrite search_quiet. discriminate.
    - rewrite release_quiet. discriminate.
    - subst x. apply close_turn_pending, Y.
    - subst x. apply close_turn_pending, Sw.
    - subst x. apply close_turn_pending, Sw.
  Qed.
End over.
