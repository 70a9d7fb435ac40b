(** Every step keeps the invariants. *)
From Verif Require Import SpModel SpInv SpClean SpSys.

Lemma remove_sub : forall x y l, In x (remove_one y l) -> In x l.
Proof.
  intros x [a i] l. induction l as [|[b j] l IH]; cbn; [tauto|]. destruct ((a =? b) && (i =? j)); cbn; tauto.
Qed.
Lemma remove_keep : forall x y l, In x l -> x <> y -> In x (remove_one y l).
Proof.
  intros x [a i] l. induction l as [|[b j] l IH]; cbn; [tauto|]. intros [H|H] N.
  - destruct (Nat.eqb_spec a b) as [->|Na], (Nat.eqb_spec i j) as [->|Nj]; cbn; try (left; exact H); congruence.
  - destruct ((a =? b) && (i =? j)); [exact H|right; auto].
Qed.
Lemma remove_hc : forall a i l, In (a, i) l -> hc i l = S (hc i (remove_one (a, i) l)).
Proof.
  intros a i l. induction l as [|[b j] l IH]; cbn [In]; [tauto|]. intro H. cbn [remove_one fst snd].
  destruct (Nat.eqb_spec a b) as [<-|Na]; [destruct (Nat.eqb_spec i j) as [<-|Nj]|]; cbn [andb].
  - unfold hc. cbn. rewrite Nat.eqb_refl. reflexivity.
  - destruct H as [H|H]; [congruence|]. specialize (IH H). unfold hc in *. cbn [filter snd]. destruct (j =? i); cbn [length]; unfold remove_one in *; cbn [fst snd] in *; lia.
  - destruct H as [H|H]; [congruence|]. specialize (IH H). unfold hc in *. cbn [filter snd]. destruct (j =? i); cbn [length]; unfold remove_one in *; cbn [fst snd] in *; lia.
Qed.
Lemma remove_hc_le : forall j x l, hc j (remove_one x l) <= hc j l.
Proof.
  intros j [a i] l. induction l as [|[b k] l IH]; [cbn; lia|]. cbn [remove_one fst snd]. destruct ((a =? b) && (i =? k)).
  - unfold hc. cbn [filter snd]. destruct (k =? j); cbn [length]; lia.
  - unfold hc, remove_one in *. cbn [filter fst snd] in *. destruct (k =? j); cbn [length]; lia.
Qed.
Lemma locked_for_in : forall t i p b, locked_for t i p = Some b -> In (b, i) (locked p).
Proof.
  intros t i p b H. unfold locked_for in H.
  assert (F : match find (fun x => snd x =? i) (locked p) with Some (b, _) => Some b | None => None end = Some b -> In (b, i) (locked p)).
  { destruct (find _ (locked p)) as [[c j]|] eqn:E; [|discriminate]. intro E'. injection E' as ->. apply find_some in E as [E E']. cbn in E'. apply Nat.eqb_eq in E'. subst. exact E. }
  destruct (lookup t (locked p)) as [j|] eqn:L; [|auto]. destruct (Nat.eqb_spec j i) as [->|N]; [|auto]. injection H as <-. apply lookup_in, L.
Qed.
Lemma locked_for_none : forall t i p b, locked_for t i p = None -> ~ In (b, i) (locked p).
Proof.
  intros t i p b H K. unfold locked_for in H. assert (F : find (fun x => snd x =? i) (locked p) <> None).
  { intro E. apply (find_none _ _ E) in K. cbn in K. rewrite Nat.eqb_refl in K. discriminate. }
  destruct (find (fun x => snd x =? i) (locked p)) as [[c j]|]; [|congruence]. destruct (lookup t (locked p)) as [k|]; [destruct (k =? i)|]; discriminate.
Qed.

Section step.
  Variables ts0 recycle : bool.
  Variable maxc : nat.
  Notation ok := (ok ts0 maxc).
  Notation Sys := (Sys ts0 maxc).
  Notation sys := (sys ts0 maxc).
  Lemma forget_sys : forall p o fr cl al pf h pe x a i, Sys p o fr cl al pf h pe x -> pf a <> Reopen i -> Sys p o fr cl al pf (remove_one (a, i) h) pe x.
  Proof.
    intros p o fr cl al pf h pe x a i Y H. pose proof (fun y => remove_sub y (a, i) h) as R.
    destruct Y as [K Y1 Y2 Y3 Y4 Y5 Y6 Y7 Y8 Y9 Y10 Y11 Y12 Y13 Y14 Y15 Y16]. constructor; auto.
    - intros j Hj. destruct (Y3 j Hj) as [E1 E2]. split; [|exact E2]. pose proof (remove_hc_le j (a, i) h). lia.
    - intros t j Hj. specialize (Y4 t j Hj). pose proof (remove_hc_le j (a, i) h). lia.
    - intros t j Hj. apply remove_keep; [apply Y6, Hj|]. intro E. injection E as -> ->. contradiction.
  Qed.
  Lemma unlock_sys : forall p o fr cl al pf h pe a i, Sys p o fr cl al pf h pe no_extra -> In (a, i) h -> In (a, i) (locked p) -> pf a <> Reopen i ->
    Sys (fst (unlock a i p)) o fr cl al pf (remove_one (a, i) h) pe no_extra.
  Proof.
    intros p o fr cl al pf h pe a i Y Hh Hl Hr. pose proof (y_ok _ _ _ _ _ _ _ _ _ _ _ Y) as K. pose proof (y_count _ _ _ _ _ _ _ _ _ _ _ Y a i Hl) as Hc.
    pose proof (remove_hc a i h Hh) as Ec. destruct (k_locked _ _ _ K a i Hl) as [Ht _].
    assert (Bz : forall u, busy (pf u) i = 1 -> u = a) by (intros u Hu; apply (y_busy _ _ _ _ _ _ _ _ _ _ _ Y) in Hu as [_ Hu]; congruence).
    assert (Hit : i < next p) by (apply (k_next _ _ _ K), tabs_split; left; eapply in_vals, Hl).
    apply (forget_sys _ _ _ _ _ _ _ _ _ a i) in Y; [|exact Hr]. set (h' := remove_one (a, i) h) in *. unfold no_extra in Hc.
    destruct (Nat.eq_dec (i_locked (items p i)) 1) as [E|N].
    - destruct (unlock_one ts0 maxc a i p K Hl E) as (p' & -> & K' & En & _ & El & Ef & Eo & Ei). cbn [fst].
      assert (Hz : hc i h' = 0) by lia. assert (Bn : forall u, busy (pf u) i = 0).
      { intro u. destruct (busy_01 (pf u) i) as [|B]; [assumption|]. pose proof (Bz u B). subst u. lia. }
      assert (Nh : forall b j, In (b, j) h' -> j <> i) by (intros b j Hj ->; apply hc_in in Hj; lia).
      assert (Nb : forall u j, busy (pf u) j = 1 -> j <> i) by (intros u j Hj ->; rewrite Bn in Hj; discriminate).
      assert (Et : forall x, i_thread (items p' x) = i_thread (items p x)) by (intro x; destruct (Nat.eq_dec x i) as [->|Nx]; [rewrite Ei|rewrite Eo by exact Nx]; reflexivity).
      assert (Ed : forall x, i_dbc (items p' x) = i_dbc (items p x)) by (intro x; destruct (Nat.eq_dec x i) as [->|Nx]; [rewrite Ei|rewrite Eo by exact Nx]; reflexivity).
      assert (Kp : forall b j, In (b, j) (locked p) -> j <> i -> In (b, j) (locked p')).
      { intros b j Hj Nj. apply El. split; [exact Hj|]. cbn [fst]. intros ->. pose proof (lookup_some _ _ _ (k_lkeys _ _ _ K) Hj). pose proof (lookup_some _ _ _ (k_lkeys _ _ _ K) Hl). congruence. }
      assert (Tb : forall x, In x (tabs p') <-> In x (tabs p)).
      { intro x. rewrite !tabs_split, Ef. cbn [In]. split.
        - intros [H|[<-|H]]; [left|left; eapply in_vals, Hl|auto]. apply vals_in in H as (b & H). apply El in H as [H _]. eapply in_vals, H.
        - intros [H|H]; [|auto]. apply vals_in in H as (b & H). destruct (Nat.eq_dec x i) as [->|Nx]; [auto|]. left. eapply in_vals, Kp; eassumption. }
      destruct Y as [_ Y1 Y2 Y3 Y4 Y5 Y6 Y7 Y8 Y9 Y10 Y11 Y12 Y13 Y14 Y15 Y16]. constructor; auto.
      + intros b j Hj. rewrite Et, En. apply Y1, Hj.
      + intros b j Hj. rewrite Et, En. apply Y2, Hj.
      + intros j. rewrite Ef. intros [<-|Hj]; [auto|apply Y3, Hj].
      + intros u j Hj. apply El in Hj as [Hj Nj]. cbn [fst] in Nj. rewrite Eo; [apply Y4, Hj|]. intros ->. destruct (k_locked _ _ _ K u i Hj). congruence.
      + intros u b Hu F. apply keys_in in F as (j & F). apply El in F as [F _]. eapply Y5; [exact Hu|eapply in_keys, F].
      + intros b j Hj. destruct (Y8 b j Hj) as [F|F]; [left; apply Kp; [exact F|eapply Nh, Hj]|auto].
      + intros b j Hj. destruct (Y9 b j Hj) as [F|F]; [left; apply Kp; [exact F|eapply Nb, Hj]|auto].
      + intros j d. rewrite Ed. apply Y10.
      + intros j k d. rewrite !Ed. apply Y11.
      + intros u j Hj. rewrite Ed. eapply Y14, Hj.
      + intros u d Hd. destruct (Y15 u d Hd) as [H1 H2]. split; [exact H1|]. intros j Hj. rewrite Ed. apply H2, Tb, Hj.
      + intros d Hd. destruct (Y16 d Hd) as [(j & Hj & F)|F]; [left; exists j; rewrite Ed, Tb; auto|auto].
    - destruct (unlock_more ts0 maxc a i p K Hl N) as (-> & K' & L1). cbn [fst]. set (q := on_item i dec p) in *.
      assert (Ei : items q i = dec (items p i)) by apply upd_same. assert (Eo : forall x, x <> i -> items q x = items p x) by (intros; apply upd_other; assumption).
      assert (Et : forall x, i_thread (items q x) = i_thread (items p x)) by (intro x; destruct (Nat.eq_dec x i) as [->|Nx]; [rewrite Ei|rewrite Eo by exact Nx]; reflexivity).
      assert (Ed : forall x, i_dbc (items q x) = i_dbc (items p x)) by (intro x; destruct (Nat.eq_dec x i) as [->|Nx]; [rewrite Ei|rewrite Eo by exact Nx]; reflexivity).
      destruct Y as [_ Y1 Y2 Y3 Y4 Y5 Y6 Y7 Y8 Y9 Y10 Y11 Y12 Y13 Y14 Y15 Y16]. constructor; auto.
      + intros b j Hj. rewrite Et. apply Y1, Hj.
      + intros b j Hj. rewrite Et. apply Y2, Hj.
      + intros u j Hj. destruct (Nat.eq_dec j i) as [->|Nj]; [|rewrite Eo by exact Nj; apply Y4, Hj]. assert (u = a) as -> by (destruct (k_locked _ _ _ K u i Hj); congruence).
        rewrite Ei. cbn [dec i_locked]. unfold no_extra. lia.
      + intros j d. rewrite Ed. apply Y10.
      + intros j k d. rewrite !Ed. apply Y11.
      + intros u j Hj. rewrite Ed. eapply Y14, Hj.
      + intros u d Hd. destruct (Y15 u d Hd) as [H1 H2]. split; [exact H1|]. intros j Hj. rewrite Ed. apply H2, Hj.
      + intros d Hd. destruct (Y16 d Hd) as [(j & Hj & F)|F]; [left; exists j; rewrite Ed; auto|auto].
  Qed.
  Lemma notify_same : forall s, P (notify s) = P s /\ opened (notify s) = opened s /\ fresh (notify s) = fresh s /\ alive (notify s) = alive s /\
    pcs (notify s) = pcs s /\ handles (notify s) = handles s /\ pend (notify s) = pend s.
  Proof. intro s. unfold notify. destruct (waits s); repeat split; reflexivity. Qed.
  Lemma release_sys : forall w t a i s, sys w s -> In (a, i) (handles s) -> pcs s a <> Reopen i -> sys w (fst (release ts0 t a i s)).
  Proof.
    intros w t a i s Y Hh Hr. unfold release. destruct (locked_for t i (P s)) as [b|] eqn:L.
    - apply locked_for_in in L. destruct (mod_release ts0 t s) as [s'|] eqn:M; [|exact Y]. apply mod_release_same in M as (m & ->).
      assert (b = a) as ->.
      { destruct (k_locked _ _ _ (y_ok _ _ _ _ _ _ _ _ _ _ _ Y) b i L) as [E _]. destruct (y_handle _ _ _ _ _ _ _ _ _ _ _ Y a i Hh) as [_ E']. congruence. }
      pose proof (unlock_sys _ _ _ _ _ _ _ _ a i Y Hh L Hr) as Y'. change (P (set_mod m s)) with (P s). change (handles (set_mod m s)) with (handles s). destruct (unlock a i (P s)) as [p n]. cbn [fst] in *.
      set (s' := set_P p (set_handles (remove_one (a, i) (handles s)) (set_mod m s))). assert (Y2 : sys w s') by exact Y'. destruct n; [|exact Y2].
      destruct (notify_same s') as (E1 & E2 & E3 & E5 & E6 & E7 & E8). eapply sys_same; [exact E1|exact E2|exact E3|exact E5|exact E6|exact E7|exact E8|exact Y2].
    - assert (Hi : existsb (Nat.eqb i) (idle (P s)) = false).
      { apply not_true_is_false. intro E. apply existsb_exists in E as (j & Hj & E). apply Nat.eqb_eq in E. subst j.
        assert (F : In i (free (P s))) by (apply in_or_app; auto). apply (y_free _ _ _ _ _ _ _ _ _ _ _ Y) in F as [F _]. apply hc_in in Hh. lia. }
      cbn [set_handles P]. rewrite Hi. cbn [fst]. apply (forget_sys _ _ _ _ _ _ _ _ _ a i Y Hr).
  Qed.
  Lemma shrink_sys : forall p c p' o fr cl al pf h pe t, Sys p o fr cl al pf h pe no_extra -> shrink ts0 maxc p c p' -> (forall a i, In (a, i) (locked p) -> In (a, i) (locked p') \/ al a = false \/ in_close (pf a) \/ cl = true) ->
    Sys p' o fr cl al pf h (pe ++ map (pair t) c) no_extra.
  Proof.
    intros p c p' o fr cl al pf h pe t Y S G. destruct Y as [K Y1 Y2 Y3 Y4 Y5 Y6 Y7 Y8 Y9 Y10 Y11 Y12 Y13 Y14 Y15 Y16].
    pose proof (sh_tabs _ _ _ _ _ S) as St. pose proof (sh_dbc _ _ _ _ _ S) as Ed.
    constructor; auto.
    - apply S.
    - intros a j Hj. rewrite (sh_next _ _ _ _ _ S), (sh_item _ _ _ _ _ S); [apply Y1, Hj|]. intro F. apply Y3 in F as [F _]. apply hc_in in Hj. lia.
    - intros a j Hj. rewrite (sh_next _ _ _ _ _ S), (sh_item _ _ _ _ _ S); [apply Y2, Hj|]. intro F. apply Y3 in F as [_ F]. specialize (F a). lia.
    - intros j Hj. apply Y3, (sh_free _ _ _ _ _ S), Hj.
    - intros u j Hj. rewrite (sh_lock _ _ _ _ _ S). apply Y4, (sh_locked _ _ _ _ _ S), Hj.
    - intros u b Hb F. apply keys_in in F as (j & F). eapply Y5; [exact Hb|]. eapply in_keys, (sh_locked _ _ _ _ _ S), F.
    - intros a j Hj. destruct (Y8 a j Hj) as [F|F]; [|auto]. apply G, F.
    - intros u j Hj. destruct (Y9 u j Hj) as [F|F]; [|auto]. destruct (G u j F) as [|[A|[A|A]]]; [auto| |exfalso|auto].
      + assert (E : pf u <> Out) by (intro E; rewrite E in Hj; discriminate). apply Y7 in E. congruence.
      + destruct A as [A|(? & ? & A)]; rewrite A in Hj; discriminate.
    - intros j d. rewrite Ed. apply Y10.
    - intros j k d. rewrite !Ed. apply Y11.
    - intros u j Hj. rewrite Ed. eapply Y14, Hj.
    - intros u d Hd. apply in_app_iff in Hd as [Hd|Hd].
      + destruct (Y15 u d Hd) as [H1 H2]. split; [exact H1|]. intros j Hj. rewrite Ed. apply H2, St, Hj.
      + apply in_map_iff in Hd as (d' & E & Hd). injection E as <- <-. apply (sh_c1 _ _ _ _ _ S) in Hd as (i & H1 & H2 & H3). split; [eapply Y10, H3|].
        intros j Hj. rewrite Ed. intro E. rewrite (Y11 j i _ E H3) in Hj. contradiction.
    - intros d Hd. destruct (Y16 d Hd) as [(j & Hj & F)|[(u & F)|F]]; [|right; left; exists u; apply in_or_app; auto|auto].
      destruct (in_dec Nat.eq_dec j (tabs p')) as [Hj'|Hj']; [left; exists j; rewrite Ed; auto|]. right. left. exists t. apply in_or_app. right. apply in_map. eapply (sh_c2 _ _ _ _ _ S); eassumption.
  Qed.
  Definition cls (s : st) : Prop := forall t, in_close (pcs s t) -> closing s = true.
  Definition no_mod (s : st) : Prop := ts0 = false -> forall t b, pcs s t <> WaitMod b.
  Definition pc_ok (s : st) (t : nat) (s' : st) : Prop :=
    (forall u, u <> t -> pcs s' u = pcs s u) /\ (pcs s' t = pcs s t \/ ((in_close (pcs s' t) -> closing s' = true) /\ (ts0 = false -> forall b, pcs s' t <> WaitMod b))).
  Lemma not_in_close : forall c, c <> Closing -> (forall b n, c <> CWait b n) -> ~ in_close c.
  Proof. intros c H H' [E|(b & n & E)]; [contradiction|destruct (H' b n E)]. Qed.
  Lemma pc_upd : forall s s' t c, pcs s' = upd (pcs s) t c -> (in_close c -> closing s' = true) -> (ts0 = false -> forall b, c <> WaitMod b) -> pc_ok s t s'.
  Proof.
    intros s s' t c E H1 H2. split; [intros u N; rewrite E; apply upd_other, N|]. right. rewrite E, upd_same. auto.
  Qed.
  Lemma pc_same : forall s s' t, pcs s' = pcs s -> pc_ok s t s'.
  Proof. intros s s' t E. split; [intros; rewrite E; reflexivity|left; rewrite E; reflexivity]. Qed.
  Ltac nc := intros [?|(? & ? & ?)]; discriminate.
  Lemma got_pc : forall t i fl s, pc_ok s t (fst (got t i fl s)) /\ closing (fst (got t i fl s)) = closing s /\ alive (fst (got t i fl s)) = alive s.
  Proof.
    intros. unfold got. destruct fl; [split; [|auto]; eapply pc_upd; [reflexivity|nc|discriminate]|].
    destruct (i_dbc (items (P s) i)); (split; [|auto]); eapply pc_upd; try reflexivity; try nc; discriminate.
  Qed.
  Lemma pc_ok_P : forall s p t s', pc_ok (set_P p s) t s' -> pc_ok s t s'.
  Proof. intros s p t s' H. exact H. Qed.
  Lemma search_pc : forall t k b e s, let r := fst (search ts0 recycle maxc t k b e s) in pc_ok s t r /\ closing r = closing s /\ alive r = alive s.
  Proof.
    intros. unfold r, search. destruct (take ts0 recycle maxc t k (P s)) as [[[i fl] p]|].
    - apply (got_pc t i fl (set_P p s)).
    - destruct (b && e); cbn [fst].
      + destruct (mod_release ts0 t s) as [s'|] eqn:M; [apply mod_release_same in M as (m & ->)|]; (split; [eapply pc_upd; [reflexivity|nc|discriminate]|split; reflexivity]).
      + split; [eapply pc_upd; [reflexivity|nc|discriminate]|split; reflexivity].
  Qed.
  Lemma enter_pc : forall t k b e s, let r := fst (enter ts0 recycle maxc t k b e s) in pc_ok s t r /\ closing r = closing s /\ alive r = alive s.
  Proof.
    intros. unfold r, enter. destruct (mod_acquire ts0 t s) as [s'|] eqn:M.
    - apply mod_acquire_same in M as (m & ->). destruct (lookup t (locked (P (set_mod m s)))) as [i|]; [apply (got_pc t i false (set_P _ (set_mod m s)))|apply (search_pc t k b e (set_mod m s))].
    - split; [|split; reflexivity]. eapply pc_upd; [reflexivity|nc|]. intros E. unfold mod_acquire in M. rewrite E in M. discriminate.
  Qed.
  Lemma close_turn_pc : forall t b n s, let r := fst (close_turn t b n s) in (closing s = true -> pc_ok s t r) /\ closing r = closing s /\ alive r = alive s.
  Proof.
    intros. unfold r, close_turn. destruct (sweep t (alive s) (P s)) as [p c]. destruct (_ && _).
    - split; [|split; reflexivity]. intro H. eapply pc_upd; [reflexivity|auto|discriminate].
    - destruct (force p) as [p' c']. split; [|split; reflexivity]. intro H. eapply pc_upd; [reflexivity|nc|discriminate].
  Qed.
  Lemma release_pc : forall t a i s, let r := fst (release ts0 t a i s) in pcs r = pcs s /\ closing r = closing s /\ alive r = alive s.
  Proof.
    intros. unfold r, release. destruct (locked_for t i (P s)) as [b|].
    - destruct (mod_release ts0 t s) as [s'|] eqn:M; [|auto]. apply mod_release_same in M as (m & ->). destruct (unlock b i _) as [p n]. cbn [fst]. destruct n; [|auto].
      unfold notify. destruct (waits _); auto.
    - cbn [set_handles P]. destruct (existsb _ _); [|auto]. cbn [fst]. destruct (i_dbc _); auto.
  Qed.
  Lemma step_pc : forall s e s', step ts0 recycle maxc s e s' -> cls s -> (exists t, pc_ok s t s') /\ (closing s = true -> closing s' = true).
  Proof.
    intros s e s' H C. destruct H.
    - split; [exists t|]; unfold acquire; destruct (closing s) eqn:E; cbn [fst]; try congruence; [apply pc_same; reflexivity|apply enter_pc].
    - subst x. unfold resume_mod. destruct (tmo && e); cbn [fst].
      + split; [exists t; eapply pc_upd; [reflexivity|nc|discriminate]|auto].
      + destruct (enter_pc t k tmo e' (set_waits (waits s) (l ++ r) s)) as (H1 & H2 & _). split; [exists t; exact H1|rewrite H2; auto].
    - subst x. unfold resume_mod. destruct (true && e); cbn [fst].
      + split; [exists t; eapply pc_upd; [reflexivity|nc|discriminate]|auto].
      + destruct (enter_pc t k true e' (set_waits (l ++ r) (woken s) s)) as (H1 & H2 & _). split; [exists t; exact H1|rewrite H2; auto].
    - subst x. destruct (search_pc t k tmo e (set_waits (waits s) (l ++ r) s)) as (H1 & H2 & _). split; [exists t; exact H1|rewrite H2; auto].
    - subst x. destruct (search_pc t k true e (set_waits (l ++ r) (woken s) s)) as (H1 & H2 & _). split; [exists t; exact H1|rewrite H2; auto].
    - destruct (i_dbc (items (P s) i)); (split; [exists t; eapply pc_upd; [reflexivity|nc|discriminate]|auto]).
    - split; [exists t; eapply pc_upd; [reflexivity|nc|discriminate]|auto].
    - split; [exists t; eapply pc_upd; [reflexivity|nc|discriminate]|auto].
    - destruct (release_pc t a i s) as (H3 & H4 & _). split; [exists t; apply pc_same, H3|rewrite H4; auto].
    - split; [exists t; eapply pc_upd; [reflexivity|nc|discriminate]|auto].
    - split; [exists t; eapply pc_upd; [reflexivity|nc|discriminate]|auto].
    - split; [exists t; eapply pc_upd; [reflexivity|nc|discriminate]|auto].
    - split; [exists t; apply pc_same; reflexivity|auto].
    - split; [exists t; eapply pc_upd; [reflexivity|nc|discriminate]|auto].
    - split; [exists t; apply pc_same; reflexivity|auto].
    - split; [exists t; eapply pc_upd; [reflexivity|nc|discriminate]|auto].
    - split; [exists t; eapply pc_upd; [reflexivity|reflexivity|discriminate]|auto].
    - subst x. assert (Hc : closing s = true) by (apply (C t); left; exact H). destruct (close_turn_pc t tmo None s) as (H1 & H2 & _). split; [exists t; apply H1, Hc|rewrite H2; auto].
    - subst x. assert (Hc : closing s = true) by (apply (C t); right; eauto). destruct (close_turn_pc t tmo (Some n) (set_waits (waits s) (l ++ r) s)) as (H1 & H2 & _). split; [exists t; apply H1, Hc|rewrite H2; auto].
    - subst x. assert (Hc : closing s = true) by (apply (C t); right; eauto). destruct (close_turn_pc t true (Some n) (set_waits (l ++ r) (woken s) s)) as (H1 & H2 & _). split; [exists t; apply H1, Hc|rewrite H2; auto].
  Qed.
  Lemma step_cls : forall s e s', step ts0 recycle maxc s e s' -> cls s -> no_mod s -> cls s' /\ no_mod s'.
  Proof.
    intros s e s' H C N. destruct (step_pc s e s' H C) as [(t & H1 & H2) Hm]. split.
    - intros u Hu. destruct (Nat.eq_dec u t) as [->|Nu]; [|rewrite H1 in Hu by exact Nu; apply Hm, (C u), Hu]. destruct H2 as [E|[E _]]; [rewrite E in Hu; apply Hm, (C t), Hu|auto].
    - intros E u b. destruct (Nat.eq_dec u t) as [->|Nu]; [|rewrite H1 by exact Nu; apply N, E]. destruct H2 as [E'|[_ E']]; [rewrite E'; apply N, E|apply E', E].
  Qed.
  Definition is_swept (e : event) : bool := match e with Swept _ => true | _ => false end.
  Lemma close_turn_sys : forall w t b n s, sys w s -> in_close (pcs s t) -> alive s t = true -> sys (w || is_swept (snd (close_turn t b n s))) (fst (close_turn t b n s)).
  Proof.
    intros w t b n s Y C A. unfold close_turn. pose proof (sweep_spec ts0 maxc t (alive s) (P s) (y_ok _ _ _ _ _ _ _ _ _ _ _ Y)) as Sh. cbv zeta in Sh.
    assert (Gn : forall a i, In (a, i) (locked (P s)) -> In (a, i) (locked (fst (sweep t (alive s) (P s)))) \/ alive s a = false \/ in_close (pcs s a) \/ w = true).
    { intros a i H. unfold sweep. cbn [fst locked]. rewrite filter_In. cbn [snd]. destruct (k_locked _ _ _ (y_ok _ _ _ _ _ _ _ _ _ _ _ Y) a i H) as [-> _].
      destruct (Nat.eqb_spec a t) as [->|N]; [auto|]. destruct (alive s a); [|auto]. cbn. auto. }
    destruct (sweep t (alive s) (P s)) as [p c]. cbn [fst snd] in Sh, Gn. set (s1 := set_pend (pend s ++ map (pair t) c) (set_P p s)).
    assert (Y1 : sys w s1) by (unfold sys, SpSys.sys; cbn; eapply shrink_sys; [exact Y|exact Sh|exact Gn]).
    destruct (_ && _).
    - cbn [fst snd is_swept]. rewrite orb_false_r. apply wait_sys; [exact Y1|intros _; right; eauto|exact A|intros; discriminate|reflexivity|discriminate].
    - pose proof (force_spec ts0 maxc p (sh_ok _ _ _ _ _ Sh)) as Sf. cbv zeta in Sf. destruct (force p) as [p' c']. cbn [fst snd is_swept] in *. rewrite orb_true_r. unfold sys, SpSys.sys. cbn [set_pc set_pend set_P P opened fresh closing alive pcs handles pend].
      assert (Y2 : sys true s1) by (clear -Y1; destruct Y1; constructor; auto).
      eapply pc_sys; [eapply shrink_sys; [exact Y2|exact Sf|auto]|]. intro u. destruct (Nat.eq_dec u t) as [->|Nu]; [right; rewrite upd_same|left; apply upd_other, Nu].
      split; [repeat split; intros; discriminate|]. split; [intros _; exact A|auto].
  Qed.
  Lemma set_sys : forall w s t c, sys w s -> harmless c -> alive s t = true -> (in_close (pcs s t) -> in_close c) -> sys w (set_pc t c s).
  Proof.
    intros w s t c Y H A C. eapply pc_sys; [exact Y|]. intro u. cbn [set_pc pcs]. destruct (Nat.eq_dec u t) as [->|Nu]; [right; rewrite upd_same; auto|left; apply upd_other, Nu].
  Qed.
  (** a thread that was at work on an item hands it to its caller *)
  Lemma give_sys : forall p o fr cl al pf h pe t i, Sys p o fr cl al pf h pe no_extra -> pf t = Open0 i -> Sys p o fr cl al (upd pf t Out) ((t, i) :: h) pe no_extra.
  Proof.
    intros p o fr cl al pf h pe t i Y Ht. assert (B : busy (pf t) i = 1) by (rewrite Ht; apply busy_open).
    assert (B0 : forall j, j <> i -> busy (pf t) j = 0) by (intros j N; rewrite Ht; cbn; destruct (Nat.eqb_spec i j); congruence).
    destruct Y as [K Y1 Y2 Y3 Y4 Y5 Y6 Y7 Y8 Y9 Y10 Y11 Y12 Y13 Y14 Y15 Y16]. destruct (Y2 t i B) as [Hn Hi].
    assert (Hc : forall j, hc j ((t, i) :: h) = one i j + hc j h).
    { intro j. unfold hc, one. cbn [filter snd]. rewrite (Nat.eqb_sym j i). destruct (i =? j); reflexivity. }
    constructor; auto.
    - intros a j [E|Hj]; [injection E as <- <-; auto|apply Y1, Hj].
    - intros u j Hj. destruct (Nat.eq_dec u t) as [->|N]; [rewrite upd_same in Hj; discriminate|rewrite upd_other in Hj by exact N; apply Y2, Hj].
    - intros j Hj. destruct (Y3 j Hj) as [F1 F2]. rewrite Hc. split; [|intro u; destruct (Nat.eq_dec u t) as [->|N]; [rewrite upd_same; reflexivity|rewrite upd_other by exact N; apply F2]].
      unfold one. destruct (Nat.eqb_spec j i) as [->|N]; [|exact F1]. specialize (F2 t). congruence.
    - intros u j Hj. rewrite Hc. specialize (Y4 u j Hj). unfold no_extra in *. unfold one. destruct (Nat.eqb_spec j i) as [->|N].
      + assert (u = t) as -> by (destruct (k_locked _ _ _ K u i Hj); congruence). rewrite upd_same. cbn [busy]. lia.
      + destruct (Nat.eq_dec u t) as [->|Nu]; [rewrite upd_same; cbn [busy]; lia|rewrite upd_other by exact Nu; lia].
    - intros u b E. destruct (Nat.eq_dec u t) as [->|N]; [rewrite upd_same in E; discriminate|rewrite upd_other in E by exact N; eapply Y5, E].
    - intros u j E. destruct (Nat.eq_dec u t) as [->|N]; [rewrite upd_same in E; discriminate|rewrite upd_other in E by exact N; right; apply Y6, E].
    - intros u E. destruct (Nat.eq_dec u t) as [->|N]; [rewrite upd_same in E; congruence|rewrite upd_other in E by exact N; apply Y7, E].
    - intros a j [E|Hj]; [injection E as <- <-; destruct (Y9 t i B); auto|]. destruct (Y8 a j Hj) as [F|[F|[F|F]]]; auto. right. right. left. rewrite upd_other; [exact F|]. intros ->. rewrite Ht in F. destruct F as [F|(? & ? & F)]; discriminate.
    - intros u j Hj. destruct (Nat.eq_dec u t) as [->|N]; [rewrite upd_same in Hj; discriminate|rewrite upd_other in Hj by exact N; apply Y9, Hj].
    - intros u j E. destruct (Nat.eq_dec u t) as [->|N]; [rewrite upd_same in E; discriminate|rewrite upd_other in E by exact N; eapply Y14, E].
  Qed.
  (** the connection of an item that its thread is about to replace is closed *)
  Lemma closed_sys : forall p o fr cl al pf h pe t i, Sys p o fr cl al pf h pe no_extra -> pf t = Close0 i -> i_dbc (items p i) = None -> Sys p o fr cl al (upd pf t (Open0 i)) h pe no_extra.
  Proof.
    intros p o fr cl al pf h pe t i Y Ht Hd. assert (B : forall j, busy (Open0 i) j = busy (pf t) j) by (intro; rewrite Ht; reflexivity).
    assert (B' : forall u j, busy (upd pf t (Open0 i) u) j = busy (pf u) j) by (intros u j; destruct (Nat.eq_dec u t) as [->|N]; [rewrite upd_same; apply B|rewrite upd_other by exact N; reflexivity]).
    destruct Y as [K Y1 Y2 Y3 Y4 Y5 Y6 Y7 Y8 Y9 Y10 Y11 Y12 Y13 Y14 Y15 Y16]. constructor; auto.
    - intros u j. rewrite B'. apply Y2.
    - intros j Hj. destruct (Y3 j Hj) as [F1 F2]. split; [exact F1|]. intro u. rewrite B'. apply F2.
    - intros u j Hj. rewrite B'. apply Y4, Hj.
    - intros u b E. destruct (Nat.eq_dec u t) as [->|N]; [rewrite upd_same in E; discriminate|rewrite upd_other in E by exact N; eapply Y5, E].
    - intros u j E. destruct (Nat.eq_dec u t) as [->|N]; [rewrite upd_same in E; discriminate|rewrite upd_other in E by exact N; apply Y6, E].
    - intros u E. destruct (Nat.eq_dec u t) as [->|N]; [apply Y7; congruence|rewrite upd_other in E by exact N; apply Y7, E].
    - intros a j Hj. destruct (Y8 a j Hj) as [F|[F|[F|F]]]; auto. right. right. left. rewrite upd_other; [exact F|]. intros ->. rewrite Ht in F. destruct F as [F|(? & ? & F)]; discriminate.
    - intros u j. rewrite B'. apply Y9.
    - intros u j E. destruct (Nat.eq_dec u t) as [->|N]; [rewrite upd_same in E; injection E as <-; exact Hd|rewrite upd_other in E by exact N; eapply Y14, E].
  Qed.
  Lemma reopening_sys : forall p o fr cl al pf h pe t i, Sys p o fr cl al pf h pe no_extra -> al t = true -> pf t = Out -> In (t, i) h -> Sys p o fr cl al (upd pf t (Reopen i)) h pe no_extra.
  Proof.
    intros p o fr cl al pf h pe t i Y Ha Ht Hh.
    assert (B' : forall u j, busy (upd pf t (Reopen i) u) j = busy (pf u) j) by (intros u j; destruct (Nat.eq_dec u t) as [->|N]; [rewrite upd_same, Ht; reflexivity|rewrite upd_other by exact N; reflexivity]).
    destruct Y as [K Y1 Y2 Y3 Y4 Y5 Y6 Y7 Y8 Y9 Y10 Y11 Y12 Y13 Y14 Y15 Y16]. constructor; auto.
    - intros u j. rewrite B'. apply Y2.
    - intros j Hj. destruct (Y3 j Hj) as [F1 F2]. split; [exact F1|]. intro u. rewrite B'. apply F2.
    - intros u j Hj. rewrite B'. apply Y4, Hj.
    - intros u b E. destruct (Nat.eq_dec u t) as [->|N]; [rewrite upd_same in E; discriminate|rewrite upd_other in E by exact N; eapply Y5, E].
    - intros u j E. destruct (Nat.eq_dec u t) as [->|N]; [rewrite upd_same in E; injection E as <-; exact Hh|rewrite upd_other in E by exact N; apply Y6, E].
    - intros u E. destruct (Nat.eq_dec u t) as [->|N]; [exact Ha|rewrite upd_other in E by exact N; apply Y7, E].
    - intros a j Hj. destruct (Y8 a j Hj) as [F|[F|[F|F]]]; auto. right. right. left. rewrite upd_other; [exact F|]. intros ->. rewrite Ht in F. destruct F as [F|(? & ? & F)]; discriminate.
    - intros u j. rewrite B'. apply Y9.
    - intros u j E. destruct (Nat.eq_dec u t) as [->|N]; [rewrite upd_same in E; discriminate|rewrite upd_other in E by exact N; eapply Y14, E].
  Qed.
  Lemma dies_sys : forall p o fr cl al pf h pe t, Sys p o fr cl al pf h pe no_extra -> pf t = Out -> Sys p o fr cl (upd al t false) pf h pe no_extra.
  Proof.
    intros p o fr cl al pf h pe t Y Ht. destruct Y as [K Y1 Y2 Y3 Y4 Y5 Y6 Y7 Y8 Y9 Y10 Y11 Y12 Y13 Y14 Y15 Y16]. constructor; auto.
    - intros u Hu. rewrite upd_other; [apply Y7, Hu|]. intros ->. contradiction.
    - intros a j Hj. destruct (Y8 a j Hj) as [F|[F|F]]; auto. right. left. destruct (Nat.eq_dec a t) as [->|N]; [apply upd_same|rewrite upd_other by exact N; exact F].
  Qed.
  Lemma finish_sys : forall p o fr cl al pf h pe t d, Sys p o fr cl al pf h pe no_extra -> Sys p (filter (fun e => negb (e =? d)) o) fr cl al pf h (remove_one (t, d) pe) no_extra.
  Proof.
    intros p o fr cl al pf h pe t d Y. apply (shut_sys _ _ _ _ _ _ _ _ _ _ _ d) in Y. destruct Y as [K Y1 Y2 Y3 Y4 Y5 Y6 Y7 Y8 Y9 Y10 Y11 Y12 Y13 Y14 Y15 Y16]. constructor; auto.
    - intros u e H. apply (Y15 u e), (remove_sub _ (t, d)), H.
    - intros e H. destruct (Y16 e H) as [F|[(u & F)|F]]; [auto| |auto]. right. left. exists u. apply remove_keep; [exact F|]. intro E. injection E as -> ->.
      apply filter_In in H as [_ H]. rewrite Nat.eqb_refl in H. discriminate.
  Qed.
  (** a thread that reconnects has closed the connection *)
  Definition closed_first (s : st) : Prop := forall t i d, pcs s t = Reopen i -> i_dbc (items (P s) i) = Some d -> ~ In d (opened s).
  Lemma got_quiet : forall t i fl s, is_swept (snd (got t i fl s)) = false.
  Proof. intros. unfold got. destruct fl; [reflexivity|]. destruct (i_dbc _); reflexivity. Qed.
  Lemma search_quiet : forall t k b e s, is_swept (snd (search ts0 recycle maxc t k b e s)) = false.
  Proof. intros. unfold search. destruct (take _ _ _ _ _ _) as [[[i fl] p]|]; [apply got_quiet|]. destruct (b && e); reflexivity. Qed.
  Lemma enter_quiet : forall t k b e s, is_swept (snd (enter ts0 recycle maxc t k b e s)) = false.
  Proof. intros. unfold enter. destruct (mod_acquire _ _ _); [|reflexivity]. destruct (lookup _ _); [apply got_quiet|apply search_quiet]. Qed.
  Lemma release_quiet : forall t a i s, is_swept (snd (release ts0 t a i s)) = false.
  Proof.
    intros. unfold release. destruct (locked_for _ _ _); [destruct (mod_release _ _ _); [|reflexivity]; destruct (unlock _ _ _); reflexivity|]. destruct (existsb _ _); reflexivity.
  Qed.
  Lemma step_sys : forall s e s', step ts0 recycle maxc s e s' -> closed_first s -> forall w, sys w s -> sys (w || is_swept e) s'.
  Proof.
    intros s e s' H CF w Y.
    assert (Al : forall t, pcs s t <> Out -> alive s t = true) by (apply (y_alive _ _ _ _ _ _ _ _ _ _ _ Y)).
    assert (Nc : forall t c, pcs s t = c -> ~ in_close c -> ~ in_close (pcs s t)) by (intros; subst; assumption).
    Ltac ni := intros [?|(? & ? & ?)]; discriminate.
    destruct H.
    - assert (Hq : is_swept (snd (acquire ts0 recycle maxc t k tmo expired s)) = false) by (unfold acquire; destruct (closing s); [reflexivity|apply enter_quiet]). rewrite Hq, orb_false_r.
      unfold acquire. destruct (closing s); [exact Y|apply enter_sys; [exact Y|eapply Nc; [eassumption|ni]|assumption]].
    - subst x. assert (A : alive s t = true) by (apply Al; congruence). assert (I : ~ in_close (pcs s t)) by (eapply Nc; [eassumption|ni]).
      assert (Hq : is_swept (snd (resume_mod ts0 recycle maxc t k tmo e e' (set_waits (waits s) (l ++ r) s))) = false) by (unfold resume_mod; destruct (tmo && e); [reflexivity|apply enter_quiet]). rewrite Hq, orb_false_r.
      unfold resume_mod. destruct (tmo && e); cbn [fst]; [apply set_sys; [eapply sys_same; [..|exact Y]; reflexivity|apply out_harmless|exact A|contradiction]|].
      apply enter_sys; [eapply sys_same; [..|exact Y]; reflexivity|exact I|exact A].
    - subst x. assert (A : alive s t = true) by (apply Al; congruence). assert (I : ~ in_close (pcs s t)) by (eapply Nc; [eassumption|ni]).
      assert (Hq : is_swept (snd (resume_mod ts0 recycle maxc t k true e e' (set_waits (l ++ r) (woken s) s))) = false) by (unfold resume_mod; destruct (true && e); [reflexivity|apply enter_quiet]). rewrite Hq, orb_false_r.
      unfold resume_mod. destruct (true && e); cbn [fst]; [apply set_sys; [eapply sys_same; [..|exact Y]; reflexivity|apply out_harmless|exact A|contradiction]|].
      apply enter_sys; [eapply sys_same; [..|exact Y]; reflexivity|exact I|exact A].
    - subst x. rewrite search_quiet, orb_false_r. apply search_sys; [eapply sys_same; [..|exact Y]; reflexivity|cbn; eapply Nc; [eassumption|ni]|apply Al; congruence|eapply (y_wait _ _ _ _ _ _ _ _ _ _ _ Y), H].
    - subst x. rewrite search_quiet, orb_false_r. apply search_sys; [eapply sys_same; [..|exact Y]; reflexivity|cbn; eapply Nc; [eassumption|ni]|apply Al; congruence|eapply (y_wait _ _ _ _ _ _ _ _ _ _ _ Y), H].
    - cbn [is_swept]. rewrite orb_false_r. unfold sys, SpSys.sys. cbn [set_pc set_P P opened fresh alive pcs handles pend].
      assert (X : forall o, (forall d, i_dbc (items (P s) i) = Some d -> ~ In d o) -> Sys (P s) o (fresh s) w (alive s) (pcs s) (handles s) (pend s) no_extra ->
         Sys (on_item i (set_dbc None) (P s)) o (fresh s) w (alive s) (upd (pcs s) t (Open0 i)) (handles s) (pend s) no_extra).
      { intros o Ho Y'. apply closed_sys; [|exact H|cbn [on_item items]; rewrite upd_same; reflexivity]. apply items_sys; [exact Y'|discriminate|exact Ho|reflexivity]. }
      destruct (i_dbc (items (P s) i)) as [d|] eqn:E; cbn [shut set_open opened fresh alive pcs handles pend].
      + apply X; [|apply shut_sys, Y]. intros d' E'. injection E' as <-. intro F. apply filter_In in F as [_ F]. rewrite Nat.eqb_refl in F. discriminate.
      + apply X; [discriminate|exact Y].
    - cbn [is_swept]. rewrite orb_false_r. unfold sys, SpSys.sys. cbn [set_pc set_P set_handles set_open P opened fresh alive pcs handles pend].
      assert (B : busy (pcs s t) i = 1) by (rewrite H; apply busy_open). pose proof (y_none _ _ _ _ _ _ _ _ _ _ _ Y t i H) as Hd. destruct (y_busy _ _ _ _ _ _ _ _ _ _ _ Y t i B) as [_ Hi].
      apply open_new; [apply give_sys; assumption|congruence| |].
      + intros u E. destruct (Nat.eq_dec u t) as [->|N]; [rewrite upd_same in E; discriminate|]. rewrite upd_other in E by exact N.
        assert (B' : busy (pcs s u) i = 1) by (rewrite E; apply busy_open). destruct (y_busy _ _ _ _ _ _ _ _ _ _ _ Y u i B') as [_ Hu]. congruence.
      + destruct (y_busy_held _ _ _ _ _ _ _ _ _ _ _ Y t i B) as [F|F]; [left; apply tabs_split; left; eapply in_vals, F|auto].
    - cbn [is_swept]. rewrite orb_false_r. apply set_sys; [exact Y|apply out_harmless|apply Al; congruence|intro F; exfalso; revert F; eapply Nc; [eassumption|ni]].
    - rewrite release_quiet, orb_false_r. apply release_sys; assumption.
    - cbn [is_swept]. rewrite orb_false_r. unfold sys, SpSys.sys. cbn [set_pc shut set_open P opened fresh alive pcs handles pend]. apply reopening_sys; try assumption. apply shut_sys, Y.
    - cbn [is_swept]. rewrite orb_false_r. unfold sys, SpSys.sys. cbn [set_pc set_P set_open P opened fresh alive pcs handles pend]. pose proof (y_reopen _ _ _ _ _ _ _ _ _ _ _ Y t i H) as Hh. destruct (y_handle _ _ _ _ _ _ _ _ _ _ _ Y t i Hh) as [_ Hi].
      apply open_new; [apply out_sys; [exact Y|intro F; exfalso; revert F; eapply Nc; [eassumption|ni]]|intros d E; exact (CF t i d H E)| |].
      + intros u E. destruct (Nat.eq_dec u t) as [->|N]; [rewrite upd_same in E; discriminate|]. rewrite upd_other in E by exact N.
        assert (B' : busy (pcs s u) i = 1) by (rewrite E; apply busy_open). destruct (y_busy _ _ _ _ _ _ _ _ _ _ _ Y u i B') as [_ Hu]. congruence.
      + destruct (y_held _ _ _ _ _ _ _ _ _ _ _ Y t i Hh) as [F|[F|[F|F]]]; [left; apply tabs_split; left; eapply in_vals, F| |exfalso; revert F; eapply Nc; [eassumption|ni]|auto].
        assert (alive s t = true) by (apply Al; congruence). congruence.
    - cbn [is_swept]. rewrite orb_false_r. apply set_sys; [exact Y|apply out_harmless|apply Al; congruence|intro F; exfalso; revert F; eapply Nc; [eassumption|ni]].
    - cbn [is_swept]. rewrite orb_false_r. apply dies_sys; assumption.
    - pose proof (clean_spec ts0 recycle maxc (alive s) old (P s) (y_ok _ _ _ _ _ _ _ _ _ _ _ Y)) as [Sh G]. cbn [is_swept]. rewrite orb_false_r. apply set_sys; [|repeat split; intros; discriminate|exact H|intro F; exfalso; revert F; eapply Nc; [eassumption|ni]].
      unfold sys, SpSys.sys. cbn. eapply shrink_sys; [exact Y|exact Sh|]. destruct G as [_ G]. intros a i F. destruct (G a i F); auto.
    - cbn [is_swept]. rewrite orb_false_r. apply finish_sys, Y.
    - cbn [is_swept]. rewrite orb_false_r. apply set_sys; [exact Y|apply out_harmless|apply Al; congruence|intro F; exfalso; revert F; eapply Nc; [eassumption|ni]].
    - cbn [is_swept]. rewrite orb_false_r. apply set_sys; [exact Y|repeat split; intros; discriminate|exact H|intros _; left; reflexivity].
    - subst x. apply close_turn_sys; [exact Y|left; exact H|apply Al; congruence].
    - subst x. apply close_turn_sys; [eapply sys_same; [..|exact Y]; reflexivity|right; eauto|apply Al; congruence].
    - subst x. apply close_turn_sys; [eapply sys_same; [..|exact Y]; reflexivity|right; eauto|apply Al; congruence].
  Qed.
End step.
