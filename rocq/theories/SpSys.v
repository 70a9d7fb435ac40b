(** The invariant of the system. *)
From Verif Require Import SpModel SpInv SpClean.

Definition hc (i : nat) (h : list (nat * nat)) : nat := length (filter (fun x => snd x =? i) h).
Definition busy (c : pc) (i : nat) : nat := match c with Close0 j | Open0 j => if j =? i then 1 else 0 | _ => 0 end.
Definition harmless (c : pc) : Prop := (forall i, busy c i = 0) /\ (forall b, c <> WaitConn b) /\ (forall i, c <> Reopen i).
(** the threads in close() *)
Definition in_close (c : pc) : Prop := c = Closing \/ exists b n, c = CWait b n.
Definition no_extra (i : nat) : nat := 0.
Definition one (i : nat) : nat -> nat := fun j => if j =? i then 1 else 0.

Section sys.
  Variables ts0 recycle : bool.
  Variable maxc : nat.
  Notation ok := (ok ts0 maxc).
  (** [extra i]: locks of the item i that are on their way to a thread; [cl]: a call of close() has emptied the pool *)
  Record Sys (p : pool) (o : list nat) (fr : nat) (cl : bool) (al : nat -> bool) (pf : nat -> pc) (h : list (nat * nat)) (pe : list (nat * nat)) (extra : nat -> nat) : Prop := mk_sys {
    y_ok : ok p;
    y_handle : forall a i, In (a, i) h -> i < next p /\ i_thread (items p i) = Some a;
    y_busy : forall t i, busy (pf t) i = 1 -> i < next p /\ i_thread (items p i) = Some t;
    y_free : forall i, In i (free p) -> hc i h = 0 /\ forall t, busy (pf t) i = 0;
    y_count : forall t i, In (t, i) (locked p) -> hc i h + busy (pf t) i + extra i <= i_locked (items p i);
    y_wait : forall t b, pf t = WaitConn b -> ~ In t (keys (locked p));
    y_reopen : forall t i, pf t = Reopen i -> In (t, i) h;
    y_alive : forall t, pf t <> Out -> al t = true;
    y_held : forall a i, In (a, i) h -> In (a, i) (locked p) \/ al a = false \/ in_close (pf a) \/ cl = true;
    y_busy_held : forall t i, busy (pf t) i = 1 -> In (t, i) (locked p) \/ cl = true;
    y_dbc : forall i d, i_dbc (items p i) = Some d -> d < fr;
    y_inj : forall i j d, i_dbc (items p i) = Some d -> i_dbc (items p j) = Some d -> i = j;
    y_nodup : NoDup o;
    y_opened : forall d, In d o -> d < fr;
    y_none : forall t i, pf t = Open0 i -> i_dbc (items p i) = None;
    y_pend : forall t d, In (t, d) pe -> d < fr /\ forall i, In i (tabs p) -> i_dbc (items p i) <> Some d;
    y_from : forall d, In d o -> (exists i, In i (tabs p) /\ i_dbc (items p i) = Some d) \/ (exists t, In (t, d) pe) \/ cl = true }.
  Definition sys (w : bool) (s : st) : Prop := Sys (P s) (opened s) (fresh s) w (alive s) (pcs s) (handles s) (pend s) no_extra.

  Lemma busy_01 : forall c i, busy c i = 0 \/ busy c i = 1.
  Proof. intros c i. destruct c as [| | |j|j| | | |]; cbn; auto; destruct (Nat.eqb_spec j i); auto. Qed.
  Lemma busy_open : forall i, busy (Open0 i) i = 1.
  Proof. intro. cbn. rewrite Nat.eqb_refl. reflexivity. Qed.
  Lemma busy_close : forall i, busy (Close0 i) i = 1.
  Proof. intro. cbn. rewrite Nat.eqb_refl. reflexivity. Qed.
  Lemma hc_in : forall a i h, In (a, i) h -> 1 <= hc i h.
  Proof.
    intros a i h H. unfold hc. assert (In (a, i) (filter (fun x => snd x =? i) h)) by (apply filter_In; split; [exact H|apply Nat.eqb_refl]).
    destruct (filter _ h); [contradiction|cbn; lia].
  Qed.
  Lemma hc_0 : forall i h, hc i h = 0 <-> forall a, ~ In (a, i) h.
  Proof.
    intros. split; [intros H a K; apply hc_in in K; lia|]. intro H. unfold hc. destruct (filter (fun x => snd x =? i) h) as [|[a j] l] eqn:E; [reflexivity|]. exfalso.
    assert (K : In (a, j) (filter (fun x => snd x =? i) h)) by (rewrite E; left; reflexivity). apply filter_In in K as [K E']. cbn in E'. apply Nat.eqb_eq in E'. subst. apply (H a K).
  Qed.
  (** threads that change what they do *)
  Lemma pc_sys : forall p o fr cl al pf pf' h pe x, Sys p o fr cl al pf h pe x -> (forall u, pf' u = pf u \/ (harmless (pf' u) /\ (pf' u <> Out -> al u = true) /\ (in_close (pf u) -> in_close (pf' u) \/ cl = true))) ->
    Sys p o fr cl al pf' h pe x.
  Proof.
    intros p o fr cl al pf pf' h pe x Y H. assert (B : forall u i, busy (pf' u) i <= busy (pf u) i) by (intros u i; destruct (H u) as [->|[[B _] _]]; [lia|rewrite B; lia]).
    assert (B1 : forall u i, busy (pf' u) i = 1 -> busy (pf u) i = 1) by (intros u i E; pose proof (B u i); destruct (busy_01 (pf u) i); lia).
    destruct Y. constructor; auto.
    - intros i Hi. destruct (y_free0 i Hi) as [F1 F2]. split; [exact F1|]. intro t. pose proof (B t i). pose proof (F2 t). lia.
    - intros t i Hi. pose proof (y_count0 t i Hi). pose proof (B t i). lia.
    - intros t b E. destruct (H t) as [E'|[(_ & F & _) _]]; [rewrite E' in E; eapply y_wait0, E|destruct (F b E)].
    - intros t i E. destruct (H t) as [E'|[(_ & _ & F) _]]; [rewrite E' in E; eapply y_reopen0, E|destruct (F i E)].
    - intros t E. destruct (H t) as [E'|(_ & F & _)]; [rewrite E' in E; apply y_alive0, E|auto].
    - intros a i Hi. destruct (y_held0 a i Hi) as [F|[F|[F|F]]]; auto. destruct (H a) as [->|(_ & _ & G)]; [auto|]. destruct (G F); auto.
    - intros t i E. destruct (H t) as [E'|[(F & _) _]]; [rewrite E' in E; eapply y_none0, E|]. specialize (F i). rewrite E, busy_open in F. discriminate.
  Qed.
  Lemma out_harmless : harmless Out.
  Proof. repeat split; intros; discriminate. Qed.
  (** a thread takes an item *)
  Lemma took_sys : forall p p' o fr cl al pf h pe t i, Sys p o fr cl al pf h pe no_extra -> took ts0 maxc t i p p' -> ~ In t (keys (locked p)) -> pf t = Out -> al t = true ->
    Sys p' o fr cl al pf h pe (one i).
  Proof.
    intros p p' o fr cl al pf h pe t i Y T Nt Ht Ha.
    assert (Ni : forall j, In j (vals (locked p)) -> j <> i).
    { intros j Hj ->. destruct (tk_where _ _ _ _ _ _ T) as [F|(E & _)]; [eapply (locked_not_free ts0 maxc p i); [apply Y|exact Hj|exact F]|].
      assert (K : In i (tabs p)) by (apply tabs_split; auto). apply (k_next _ _ _ (y_ok _ _ _ _ _ _ _ _ _ Y)) in K. lia. }
    assert (Hf : hc i h = 0 /\ forall u, busy (pf u) i = 0).
    { destruct (tk_where _ _ _ _ _ _ T) as [F|(E & _)]; [apply Y, F|]. split.
      - apply hc_0. intros a F. apply (y_handle _ _ _ _ _ _ _ _ _ Y) in F as [F _]. lia.
      - intro u. destruct (busy_01 (pf u) i) as [|F]; [assumption|]. apply (y_busy _ _ _ _ _ _ _ _ _ Y) in F as [F _]. lia. }
    destruct Hf as [Hh Hb].
    assert (Nh : forall a j, In (a, j) h -> j <> i) by (intros a j Hj ->; apply hc_in in Hj; lia).
    assert (Nb : forall u j, busy (pf u) j = 1 -> j <> i) by (intros u j Hj ->; rewrite Hb in Hj; discriminate).
    assert (Tb : forall x, In x (tabs p') <-> In x (tabs p) \/ x = i).
    { intro x. rewrite !tabs_split, (tk_free _ _ _ _ _ _ T), (tk_locked _ _ _ _ _ _ T). cbn [vals map snd]. destruct (Nat.eq_dec x i) as [->|N].
      - split; [auto|]. intros _. left. left. reflexivity.
      - assert (N' : i <> x) by congruence. unfold vals. cbn [In]. tauto. }
    assert (Dd : forall j d, i_dbc (items p' j) = Some d -> i_dbc (items p j) = Some d).
    { intros j d H. destruct (Nat.eq_dec j i) as [->|N]; [|rewrite (tk_other _ _ _ _ _ _ T) in H by exact N; exact H].
      destruct (tk_where _ _ _ _ _ _ T) as [F|(_ & _ & E)]; [rewrite (tk_dbc _ _ _ _ _ _ T F) in H; exact H|congruence]. }
    pose proof (tk_next _ _ _ _ _ _ T) as Nx. destruct Y. constructor; auto.
    - apply T.
    - intros a j H. destruct (y_handle0 a j H). rewrite (tk_other _ _ _ _ _ _ T) by (eapply Nh, H). split; [lia|assumption].
    - intros u j H. destruct (y_busy0 u j H). rewrite (tk_other _ _ _ _ _ _ T) by (eapply Nb, H). split; [lia|assumption].
    - intros j H. apply (tk_free _ _ _ _ _ _ T) in H as [H _]. auto.
    - intros u j. rewrite (tk_locked _ _ _ _ _ _ T). intros [E|H].
      + injection E as <- <-. rewrite Hh, Hb. unfold one. rewrite Nat.eqb_refl. apply (tk_one _ _ _ _ _ _ T).
      + pose proof (y_count0 u j H). assert (N : j <> i) by (apply Ni; eapply in_vals, H). rewrite (tk_other _ _ _ _ _ _ T) by exact N. unfold one. destruct (Nat.eqb_spec j i); [contradiction|]. unfold no_extra in *. lia.
    - intros u b H. rewrite (tk_locked _ _ _ _ _ _ T). cbn [keys map fst]. intros [E|F]; [subst u; congruence|]. apply (y_wait0 u b H F).
    - intros a j H. rewrite (tk_locked _ _ _ _ _ _ T). destruct (y_held0 a j H) as [|]; [left; right; assumption|auto].
    - intros u j H. rewrite (tk_locked _ _ _ _ _ _ T). destruct (y_busy_held0 u j H) as [|]; [left; right; assumption|auto].
    - intros j d H. apply Dd in H. eauto.
    - intros j k d H H'. apply Dd in H, H'. eauto.
    - intros u j H. assert (N : j <> i) by (eapply Nb; rewrite H; apply busy_open). rewrite (tk_other _ _ _ _ _ _ T) by exact N. eauto.
    - intros u d H. destruct (y_pend0 u d H) as [H1 H2]. split; [exact H1|]. intros j Hj F. apply Tb in Hj as [Hj| ->]; [apply (H2 j Hj), Dd, F|].
      destruct (tk_where _ _ _ _ _ _ T) as [Hi|(E & En & Ed)]; [apply (H2 i); [apply tabs_split; auto|apply Dd, F]|congruence].
    - intros d H. destruct (y_from0 d H) as [(j & Hj & Hd)|H']; [|auto]. left. exists j. split; [apply Tb; auto|].
      destruct (Nat.eq_dec j i) as [->|N]; [|rewrite (tk_other _ _ _ _ _ _ T) by exact N; exact Hd].
      destruct (tk_where _ _ _ _ _ _ T) as [F|(E & _ & _)]; [rewrite (tk_dbc _ _ _ _ _ _ T F); exact Hd|]. apply (k_next _ _ _ y_ok0) in Hj. lia.
  Qed.

  (** a thread takes an item again *)
  Lemma relock_sys : forall p o fr cl al pf h pe t i, Sys p o fr cl al pf h pe no_extra -> In (t, i) (locked p) -> Sys (on_item i inc p) o fr cl al pf h pe (one i).
  Proof.
    intros p o fr cl al pf h pe t i Y H. set (q := on_item i inc p).
    assert (Ei : items q i = inc (items p i)) by apply upd_same. assert (Eo : forall x, x <> i -> items q x = items p x) by (intros; apply upd_other; assumption).
    assert (Et : forall x, i_thread (items q x) = i_thread (items p x)) by (intro x; destruct (Nat.eq_dec x i) as [->|N]; [rewrite Ei|rewrite Eo by exact N]; reflexivity).
    assert (Ed : forall x, i_dbc (items q x) = i_dbc (items p x)) by (intro x; destruct (Nat.eq_dec x i) as [->|N]; [rewrite Ei|rewrite Eo by exact N]; reflexivity).
    assert (El : forall x, i_locked (items q x) = i_locked (items p x) + one i x).
    { intro x. unfold one. destruct (Nat.eqb_spec x i) as [->|N]; [rewrite Ei; cbn; lia|rewrite Eo by exact N; lia]. }
    destruct Y as [K Y1 Y2 Y3 Y4 Y5 Y6 Y7 Y8 Y9 Y10 Y11 Y12 Y13 Y14 Y15 Y16].
    assert (Hf : ~ In i (free p)) by (eapply locked_not_free; [exact K|eapply in_vals, H]).
    constructor; auto.
    - destruct K as [K1 K2 K3 K4 K5 K6 K7 K8 K9 K10]. constructor; auto.
      + intros u j Hj. rewrite Et, El. destruct (K8 u j Hj). split; [assumption|lia].
      + intros u j Hj. rewrite Et. apply K9, Hj.
      + intros j Hj. rewrite Eo; [apply K10, Hj|]. intros ->. contradiction.
    - intros a j Hj. rewrite Et. apply Y1, Hj.
    - intros a j Hj. rewrite Et. apply Y2, Hj.
    - intros u j Hj. specialize (Y4 u j Hj). rewrite El. unfold no_extra in Y4. lia.
    - intros j d. rewrite Ed. apply Y10.
    - intros j k d. rewrite !Ed. apply Y11.
    - intros u j Hj. rewrite Ed. eapply Y14, Hj.
    - intros u d Hd. destruct (Y15 u d Hd) as [H1 H2]. split; [exact H1|]. intros j Hj. rewrite Ed. apply H2, Hj.
    - intros d Hd. destruct (Y16 d Hd) as [(j & Hj & E)|E]; [left; exists j; rewrite Ed; auto|auto].
  Qed.
  (** and it is handed to the caller, or its connection is to be opened, or to be closed *)
  Lemma hand_sys : forall p o fr cl al pf h pe t i, Sys p o fr cl al pf h pe (one i) -> In (t, i) (locked p) -> pf t = Out -> Sys p o fr cl al pf ((t, i) :: h) pe no_extra.
  Proof.
    intros p o fr cl al pf h pe t i Y H Ho. destruct Y as [K Y1 Y2 Y3 Y4 Y5 Y6 Y7 Y8 Y9 Y10 Y11 Y12 Y13 Y14 Y15 Y16].
    assert (Hf : ~ In i (free p)) by (eapply locked_not_free; [exact K|eapply in_vals, H]).
    assert (Hn : i < next p) by (apply (k_next _ _ _ K), tabs_split; left; eapply in_vals, H).
    assert (Hc : forall j, hc j ((t, i) :: h) = one i j + hc j h).
    { intro j. unfold hc, one. cbn [filter snd]. rewrite (Nat.eqb_sym j i). destruct (i =? j); reflexivity. }
    constructor; auto.
    - intros a j [E|Hj]; [injection E as <- <-; split; [exact Hn|apply (k_locked _ _ _ K), H]|apply Y1, Hj].
    - intros j Hj. rewrite Hc. unfold one. destruct (Nat.eqb_spec j i) as [->|N]; [contradiction|]. apply Y3, Hj.
    - intros u j Hj. rewrite Hc. specialize (Y4 u j Hj). unfold no_extra. lia.
    - intros u j Hj. right. apply Y6, Hj.
    - intros a j [E|Hj]; [injection E as <- <-; auto|apply Y8, Hj].
  Qed.
  Lemma busy_sys : forall p o fr cl al pf h pe t i c, Sys p o fr cl al pf h pe (one i) -> In (t, i) (locked p) -> pf t = Out -> al t = true ->
    (c = Close0 i \/ (c = Open0 i /\ i_dbc (items p i) = None)) -> Sys p o fr cl al (upd pf t c) h pe no_extra.
  Proof.
    intros p o fr cl al pf h pe t i c Y H Ho Ha Hc. destruct Y as [K Y1 Y2 Y3 Y4 Y5 Y6 Y7 Y8 Y9 Y10 Y11 Y12 Y13 Y14 Y15 Y16].
    assert (Hf : ~ In i (free p)) by (eapply locked_not_free; [exact K|eapply in_vals, H]).
    assert (Hn : i < next p) by (apply (k_next _ _ _ K), tabs_split; left; eapply in_vals, H).
    assert (Bc : forall j, busy c j = one i j) by (intro j; unfold one; rewrite (Nat.eqb_sym j i); destruct Hc as [->|[-> _]]; reflexivity).
    assert (Bs : busy (upd pf t c t) i = 1) by (rewrite upd_same, Bc; unfold one; rewrite Nat.eqb_refl; reflexivity).
    assert (Bj : forall j, busy c j = 1 -> j = i) by (intros j; rewrite Bc; unfold one; destruct (Nat.eqb_spec j i); [auto|discriminate]).
    constructor; auto.
    - intros u j Hj. destruct (Nat.eq_dec u t) as [->|N]; [|rewrite upd_other in Hj by exact N; apply Y2, Hj]. rewrite upd_same in Hj. apply Bj in Hj. subst j. split; [exact Hn|apply (k_locked _ _ _ K), H].
    - intros j Hj. destruct (Y3 j Hj) as [F1 F2]. split; [exact F1|]. intro u. destruct (Nat.eq_dec u t) as [->|N]; [|rewrite upd_other by exact N; apply F2].
      rewrite upd_same, Bc. unfold one. destruct (Nat.eqb_spec j i) as [->|]; [contradiction|reflexivity].
    - intros u j Hj. specialize (Y4 u j Hj). unfold no_extra. destruct (Nat.eq_dec u t) as [->|N]; [|rewrite upd_other by exact N; lia].
      rewrite upd_same, Bc. unfold one in *. destruct (j =? i); lia.
    - intros u b Hb. destruct (Nat.eq_dec u t) as [->|N]; [|rewrite upd_other in Hb by exact N; eapply Y5, Hb]. rewrite upd_same in Hb. destruct Hc as [->|[-> _]]; discriminate.
    - intros u j Hb. destruct (Nat.eq_dec u t) as [->|N]; [|rewrite upd_other in Hb by exact N; eapply Y6, Hb]. rewrite upd_same in Hb. destruct Hc as [->|[-> _]]; discriminate.
    - intros u Hu. destruct (Nat.eq_dec u t) as [->|N]; [exact Ha|rewrite upd_other in Hu by exact N; auto].
    - intros a j Hj. destruct (Y8 a j Hj) as [F|[F|[F|F]]]; auto. right. right. left. rewrite upd_other; [exact F|]. intros ->. rewrite Ho in F. destruct F as [F|(? & ? & F)]; discriminate.
    - intros u j Hj. destruct (Nat.eq_dec u t) as [->|N]; [|rewrite upd_other in Hj by exact N; apply Y9, Hj]. rewrite upd_same in Hj. apply Bj in Hj. subst j. auto.
    - intros u j Hj. destruct (Nat.eq_dec u t) as [->|N]; [|rewrite upd_other in Hj by exact N; eapply Y14, Hj]. rewrite upd_same in Hj. destruct Hc as [->|[-> Hd]]; [discriminate|]. injection Hj as <-. exact Hd.
  Qed.
  (** the dictionary of threads, changed twice *)
  Lemma pc_ext : forall p o fr cl al pf pf' h pe x, Sys p o fr cl al pf h pe x -> (forall u, pf' u = pf u) -> Sys p o fr cl al pf' h pe x.
  Proof. intros. eapply pc_sys; [eassumption|]. intro u. left. auto. Qed.
  Definition leaving (s : st) (t : nat) : Prop := pcs s t = Out \/ exists b, pcs s t = WaitConn b \/ pcs s t = WaitMod b.
  Lemma out_sys : forall p o fr cl al pf h pe x t, Sys p o fr cl al pf h pe x -> (in_close (pf t) -> cl = true) -> Sys p o fr cl al (upd pf t Out) h pe x.
  Proof.
    intros. eapply pc_sys; [eassumption|]. intro u. destruct (Nat.eq_dec u t) as [->|N]; [|left; apply upd_other, N]. right. rewrite upd_same. split; [apply out_harmless|]. split; [congruence|auto].
  Qed.
  Lemma got_sys : forall w t i fl s p, Sys p (opened s) (fresh s) w (alive s) (upd (pcs s) t Out) (handles s) (pend s) (one i) -> In (t, i) (locked p) -> alive s t = true ->
    sys w (fst (got t i fl (set_P p s))).
  Proof.
    intros w t i fl s p Y H Ha. unfold got. set (c := if fl then Close0 i else Open0 i).
    assert (Hb : (c = Close0 i \/ (c = Open0 i /\ i_dbc (items p i) = None)) -> Sys p (opened s) (fresh s) w (alive s) (upd (pcs s) t c) (handles s) (pend s) no_extra).
    { intro Hc. eapply pc_ext; [eapply busy_sys; [exact Y|exact H|apply upd_same|exact Ha|exact Hc]|]. intro u. destruct (Nat.eq_dec u t) as [->|N]; [rewrite !upd_same; reflexivity|rewrite !upd_other by exact N; reflexivity]. }
    destruct fl; [apply Hb; left; reflexivity|]. change (items (P (set_P p s))) with (items p). destruct (i_dbc (items p i)) eqn:E; [|apply Hb; right; split; reflexivity].
    unfold sys. cbn [fst set_pc set_handles set_P P opened fresh closing alive pcs handles pend]. eapply hand_sys; [exact Y|exact H|apply upd_same].
  Qed.
  (** sys does not speak of waiting and of the module lock *)
  Lemma sys_same : forall w s s', P s' = P s -> opened s' = opened s -> fresh s' = fresh s -> alive s' = alive s -> pcs s' = pcs s -> handles s' = handles s -> pend s' = pend s -> sys w s -> sys w s'.
  Proof. intros w s s' E1 E2 E3 E5 E6 E7 E8. unfold sys. rewrite E1, E2, E3, E5, E6, E7, E8. auto. Qed.
  Lemma mod_acquire_same : forall t s s', mod_acquire ts0 t s = Some s' -> exists m, s' = set_mod m s.
  Proof.
    intros t s s' H. unfold mod_acquire in H. destruct ts0; [|injection H as <-; exists (modl s); destruct s; reflexivity].
    destruct (modl s) as [[o n]|]; [destruct (o =? t); [|discriminate]|]; injection H as <-; eauto.
  Qed.
  Lemma mod_release_same : forall t s s', mod_release ts0 t s = Some s' -> exists m, s' = set_mod m s.
  Proof.
    intros t s s' H. unfold mod_release in H. destruct ts0; [|injection H as <-; exists (modl s); destruct s; reflexivity].
    destruct (modl s) as [[o [|[|n]]]|]; try discriminate; destruct (o =? t); try discriminate; injection H as <-; eauto.
  Qed.
  Lemma wait_sys : forall w t c s, sys w s -> (in_close (pcs s t) -> in_close c) -> alive s t = true -> (forall b, c = WaitConn b -> ~ In t (keys (locked (P s)))) -> (forall i, busy c i = 0) -> (forall i, c <> Reopen i) -> sys w (wait t c s).
  Proof.
    intros w t c s Y Hcl Ha Hw Hb Hr. unfold sys, wait. cbn [set_pc set_waits P opened fresh closing alive pcs handles pend].
    destruct Y as [K Y1 Y2 Y3 Y4 Y5 Y6 Y7 Y8 Y9 Y10 Y11 Y12 Y13 Y14 Y15 Y16].
    constructor; auto.
    - intros u j Hj. destruct (Nat.eq_dec u t) as [->|N]; [rewrite upd_same, Hb in Hj; discriminate|rewrite upd_other in Hj by exact N; apply Y2, Hj].
    - intros j Hj. destruct (Y3 j Hj) as [F1 F2]. split; [exact F1|]. intro u. destruct (Nat.eq_dec u t) as [->|N]; [rewrite upd_same; apply Hb|rewrite upd_other by exact N; apply F2].
    - intros u j Hj. specialize (Y4 u j Hj). destruct (Nat.eq_dec u t) as [->|N]; [rewrite upd_same, Hb; lia|rewrite upd_other by exact N; lia].
    - intros u b E. destruct (Nat.eq_dec u t) as [->|N]; [rewrite upd_same in E; eapply Hw, E|rewrite upd_other in E by exact N; eapply Y5, E].
    - intros u j E. destruct (Nat.eq_dec u t) as [->|N]; [rewrite upd_same in E; destruct (Hr j E)|rewrite upd_other in E by exact N; eapply Y6, E].
    - intros u Hu. destruct (Nat.eq_dec u t) as [->|N]; [exact Ha|rewrite upd_other in Hu by exact N; auto].
    - intros a j Hj. destruct (Y8 a j Hj) as [F|[F|[F|F]]]; auto. right. right. left. destruct (Nat.eq_dec a t) as [->|N]; [rewrite upd_same; auto|rewrite upd_other by exact N; exact F].
    - intros u j Hj. destruct (Nat.eq_dec u t) as [->|N]; [rewrite upd_same, Hb in Hj; discriminate|rewrite upd_other in Hj by exact N; apply Y9, Hj].
    - intros u j Hj. destruct (Nat.eq_dec u t) as [->|N]; [rewrite upd_same in Hj; specialize (Hb j); rewrite Hj, busy_open in Hb; discriminate|rewrite upd_other in Hj by exact N; eapply Y14, Hj].
  Qed.
  Lemma search_sys : forall w t k b e s, sys w s -> ~ in_close (pcs s t) -> alive s t = true -> ~ In t (keys (locked (P s))) -> sys w (fst (search ts0 recycle maxc t k b e s)).
  Proof.
    intros w t k b e s Y Hcl Ha Nt. unfold search. destruct (take ts0 recycle maxc t k (P s)) as [[[i fl] p]|] eqn:T.
    - destruct (take_spec ts0 recycle maxc t k (P s) i fl p T (y_ok _ _ _ _ _ _ _ _ _ Y) Nt) as [T' _]. apply got_sys; [|rewrite (tk_locked _ _ _ _ _ _ T'); left; reflexivity|exact Ha].
      eapply took_sys; [apply out_sys; [exact Y|contradiction]|exact T'|exact Nt|apply upd_same|exact Ha].
    - destruct (b && e); cbn [fst].
      + assert (Y' : sys w (set_pc t Out s)) by (apply out_sys; [exact Y|contradiction]). destruct (mod_release ts0 t s) as [s'|] eqn:E; [|exact Y'].
        apply mod_release_same in E as (m & ->). eapply sys_same; [..|exact Y']; reflexivity.
      + apply wait_sys; try assumption; [contradiction|intros; exact Nt|intros; reflexivity|intros; discriminate].
  Qed.
  Lemma enter_sys : forall w t k b e s, sys w s -> ~ in_close (pcs s t) -> alive s t = true -> sys w (fst (enter ts0 recycle maxc t k b e s)).
  Proof.
    intros w t k b e s Y Hcl Ha. unfold enter. destruct (mod_acquire ts0 t s) as [s'|] eqn:E.
    - apply mod_acquire_same in E as (m & ->). assert (Y' : sys w (set_mod m s)) by (eapply sys_same; [..|exact Y]; reflexivity).
      destruct (lookup t (locked (P (set_mod m s)))) as [i|] eqn:L.
      + apply lookup_in in L. apply got_sys; [|exact L|exact Ha]. apply out_sys; [|contradiction]. eapply relock_sys; [exact Y'|exact L].
      + apply lookup_none in L. apply search_sys; assumption.
    - apply wait_sys; try assumption; [contradiction|intros; discriminate|intros; reflexivity|intros; discriminate].
  Qed.
  (** connections are closed and opened *)
  Lemma shut_sys : forall p o fr cl al pf h pe x d, Sys p o fr cl al pf h pe x -> Sys p (filter (fun e => negb (e =? d)) o) fr cl al pf h pe x.
  Proof.
    intros p o fr cl al pf h pe x d Y. destruct Y as [K Y1 Y2 Y3 Y4 Y5 Y6 Y7 Y8 Y9 Y10 Y11 Y12 Y13 Y14 Y15 Y16].
    assert (F : forall e, In e (filter (fun e => negb (e =? d)) o) -> In e o) by (intros e He; apply filter_In in He; apply He).
    constructor; auto. apply NoDup_filter, Y12.
  Qed.
  (** its own thread sets the connection of an item *)
  Lemma items_sys : forall p o fr cl al pf h pe x i od, Sys p o fr cl al pf h pe x ->
    (forall d, od = Some d -> d < fr /\ (forall j, i_dbc (items p j) <> Some d) /\ (forall u, ~ In (u, d) pe)) ->
    (forall d, i_dbc (items p i) = Some d -> ~ In d o) ->
    (forall u, pf u = Open0 i -> od = None) ->
    Sys (on_item i (set_dbc od) p) o fr cl al pf h pe x.
  Proof.
    intros p o fr cl al pf h pe x i od Y Hd Ho Hn. set (q := on_item i (set_dbc od) p).
    assert (Ei : items q i = set_dbc od (items p i)) by apply upd_same. assert (Eo : forall x, x <> i -> items q x = items p x) by (intros; apply upd_other; assumption).
    assert (Et : forall x, i_thread (items q x) = i_thread (items p x)) by (intro y; destruct (Nat.eq_dec y i) as [->|N]; [rewrite Ei|rewrite Eo by exact N]; reflexivity).
    assert (El : forall x, i_locked (items q x) = i_locked (items p x)) by (intro y; destruct (Nat.eq_dec y i) as [->|N]; [rewrite Ei|rewrite Eo by exact N]; reflexivity).
    destruct Y as [K Y1 Y2 Y3 Y4 Y5 Y6 Y7 Y8 Y9 Y10 Y11 Y12 Y13 Y14 Y15 Y16]. constructor; auto.
    - destruct K as [K1 K2 K3 K4 K5 K6 K7 K8 K9 K10]. constructor; auto.
      + intros u j Hj. rewrite Et, El. apply K8, Hj.
      + intros u j Hj. rewrite Et. apply K9, Hj.
      + intros j Hj. rewrite El. apply K10, Hj.
    - intros a j Hj. rewrite Et. apply Y1, Hj.
    - intros a j Hj. rewrite Et. apply Y2, Hj.
    - intros u j Hj. rewrite El. apply Y4, Hj.
    - intros j d. destruct (Nat.eq_dec j i) as [->|N]; [rewrite Ei; cbn; intro E; apply Hd, E|rewrite Eo by exact N; apply Y10].
    - intros j k d. destruct (Nat.eq_dec j i) as [->|N], (Nat.eq_dec k i) as [->|N']; rewrite ?Ei, ?Eo by assumption; cbn [set_dbc i_dbc]; [auto| | |apply Y11].
      + intros E E'. destruct (Hd d E) as (_ & F & _). destruct (F k E').
      + intros E E'. destruct (Hd d E') as (_ & F & _). destruct (F j E).
    - intros u j Hj. destruct (Nat.eq_dec j i) as [->|N]; [rewrite Ei; cbn; eapply Hn, Hj|rewrite Eo by exact N; eapply Y14, Hj].
    - intros u d Hu. destruct (Y15 u d Hu) as [H1 H2]. split; [exact H1|]. intros j Hj. destruct (Nat.eq_dec j i) as [->|N]; [|rewrite Eo by exact N; apply H2, Hj]. rewrite Ei. cbn. intro E.
      destruct (Hd d E) as (_ & _ & F). apply (F u Hu).
    - intros d Hdo. destruct (Y16 d Hdo) as [(j & Hj & E)|E]; [|auto]. left. exists j. split; [exact Hj|]. destruct (Nat.eq_dec j i) as [->|N]; [destruct (Ho d E Hdo)|rewrite Eo by exact N; exact E].
  Qed.
  Lemma open_sys : forall p o fr cl al pf h pe x, Sys p o fr cl al pf h pe x -> Sys p o (S fr) cl al pf h pe x.
  Proof.
    intros p o fr cl al pf h pe x Y. destruct Y as [K Y1 Y2 Y3 Y4 Y5 Y6 Y7 Y8 Y9 Y10 Y11 Y12 Y13 Y14 Y15 Y16]. constructor; auto.
    - intros i d H. specialize (Y10 i d H). lia.
    - intros d H. specialize (Y13 d H). lia.
    - intros t d H. destruct (Y15 t d H) as [H1 H2]. split; [lia|exact H2].
  Qed.
  Lemma opened_sys : forall p o fr cl al pf h pe x d, Sys p o fr cl al pf h pe x -> ~ In d o -> d < fr ->
    ((exists i, In i (tabs p) /\ i_dbc (items p i) = Some d) \/ cl = true) -> Sys p (d :: o) fr cl al pf h pe x.
  Proof.
    intros p o fr cl al pf h pe x d Y Hd Hf Hc. destruct Y as [K Y1 Y2 Y3 Y4 Y5 Y6 Y7 Y8 Y9 Y10 Y11 Y12 Y13 Y14 Y15 Y16]. constructor; auto.
    - constructor; assumption.
    - intros e [<-|H]; auto.
    - intros e [<-|H]; [destruct Hc; auto|auto].
  Qed.
  Lemma open_new : forall p o fr cl al pf h pe x i, Sys p o fr cl al pf h pe x -> (forall d, i_dbc (items p i) = Some d -> ~ In d o) -> (forall u, pf u <> Open0 i) ->
    (In i (tabs p) \/ cl = true) -> Sys (on_item i (set_dbc (Some fr)) p) (fr :: o) (S fr) cl al pf h pe x.
  Proof.
    intros p o fr cl al pf h pe x i Y Ho Hn Hc.
    assert (Nf : ~ In fr o) by (intro H; apply (y_opened _ _ _ _ _ _ _ _ _ Y) in H; lia).
    apply opened_sys; [|exact Nf|lia|].
    - apply items_sys; [apply open_sys, Y| |exact Ho|intros u Hu; destruct (Hn u Hu)].
      intros d E. injection E as <-. split; [lia|]. split; [intros j H; apply (y_dbc _ _ _ _ _ _ _ _ _ Y) in H; lia|]. intros u H. apply (y_pend _ _ _ _ _ _ _ _ _ Y) in H as [H _]. lia.
    - destruct Hc as [Hc|Hc]; [left|auto]. exists i. split; [exact Hc|]. cbn [items on_item]. rewrite upd_same. reflexivity.
  Qed.
End sys.
