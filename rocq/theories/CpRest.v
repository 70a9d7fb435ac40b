(* Waiting threads, requests that are not finished, closing *)
From Coq Require Import List Bool Arith Lia Permutation.
From Verif Require Import CpModel CpInv CpFair.
Import ListNotations.

Section Rest.
Variable max : nat.
Notation inv := (inv max).
Notation waits := (waits max).

Lemma waits_start : waits start.
Proof using Type. constructor; cbn; try tauto. constructor. Qed.
(* threads leave, the table loses entries *)
Lemma waits_same t s : waits s -> waiting t = waiting s -> woken t = woken s ->
  (forall k, look k (act s) = None -> look k (act t) = None) -> length (act s) <= length (act t) -> waits t.
Proof using Type.
  intros [] E1 E2 E3 E4. constructor; rewrite ?E1, ?E2; auto; [eauto|]. intros N. specialize (w_room N). lia.
Qed.
Lemma perm_notify n (s : pool) : Permutation (waiting s ++ woken s) (waiting (notify n s) ++ woken (notify n s)).
Proof using Type.
  clear max. cbn [notify set_wait waiting woken].
  rewrite <- (firstn_skipn n (waiting s)) at 1. rewrite <- app_assoc.
  eapply perm_trans; [apply Permutation_app_comm|]. rewrite <- app_assoc. apply Permutation_app_head, Permutation_refl.
Qed.
Lemma waits_notify n s t : waits s -> waiting t = waiting s -> woken t = woken s ->
  (forall k, look k (act s) = None -> look k (act t) = None) -> length (act s) <= length (act t) + n -> waits (notify n t).
Proof using Type.
  intros [] E1 E2 E3 E4. constructor.
  - eapply Permutation_NoDup; [|exact w_threads]. apply Permutation_map.
    rewrite <- E1, <- E2. apply (perm_notify n t).
  - intros T g r H. apply E3. apply (w_none T g r). rewrite <- E1, <- E2.
    eapply Permutation_in; [apply Permutation_sym, (perm_notify n t)|exact H].
  - cbn [notify set_wait waiting woken act]. rewrite E1, E2. intros N.
    assert (X : n <= length (waiting s)).
    { destruct (Nat.le_gt_cases n (length (waiting s))); auto. elim N. apply skipn_all2. lia. }
    assert (Y : waiting s <> []) by (intros Y; apply N; rewrite Y; apply skipn_nil).
    specialize (w_room Y). rewrite app_length, firstn_length_le by exact X. lia.
Qed.

Lemma waits_take T g s c s' : take max T g s c s' -> inv s -> waits s -> ~ In T (map fst (waiting s ++ woken s)) -> waits s'.
Proof using Type.
  intros H J W N. destruct (inv_take _ _ _ _ _ _ H J) as (_ & (E1 & E2 & _) & _).
  destruct (take_act _ _ _ _ _ _ H) as [[_ E]|(_ & E & E')].
  - apply (waits_same s' s); auto; rewrite E; auto.
  - destruct W. constructor; rewrite ?E1, ?E2; auto.
    + intros U g' r K. rewrite E'; [eauto|]. intros X. injection X as -> ->. apply N.
      change T with (fst (T, (g, r))). now apply in_map.
    + intros X. specialize (w_room X). lia.
Qed.

Lemma not_in_mid {A B} (a : A) (x : B) l1 l2 : NoDup (map fst (l1 ++ (a, x) :: l2)) -> ~ In a (map fst (l1 ++ l2)).
Proof using Type. rewrite !map_app. cbn [map fst]. apply NoDup_remove_2. Qed.
Lemma perm_woken (s : pool) l1 l2 x : woken s = l1 ++ x :: l2 ->
  Permutation (waiting s ++ woken s) ((waiting s ++ l1) ++ x :: l2).
Proof using Type. intros ->. rewrite app_assoc. apply Permutation_refl. Qed.

Lemma waits_step l s s' : step max l s s' -> inv s -> fair s -> no_upgrade l s -> waits s -> waits s'.
Proof using Type.
  intros H J F R W. destruct H; cbn [no_upgrade not_replaced] in R; try contradiction.
  - eapply waits_same; [eapply waits_take; eauto| | | |]; auto.
    destruct H as [H1' H2']. rewrite map_app, in_app_iff. tauto.
  - apply (waits_same _ s); auto.
  - destruct W, H as [N1 N2], H1 as (B1 & B2 & B3). constructor; cbn [waiting woken act set_wait].
    + rewrite <- app_assoc. cbn [app]. rewrite map_app in *. cbn [map fst].
      apply NoDup_Add with (a := T) (l := map fst (waiting s) ++ map fst (woken s)).
      * apply Add_app.
      * split; auto. rewrite in_app_iff. tauto.
    + intros U g' r' K. rewrite <- app_assoc in K. apply in_app_iff in K as [K|[K|K]].
      * apply (w_none U g' r'). apply in_app_iff. auto.
      * injection K as <- <- <-. exact B1.
      * apply (w_none U g' r'). apply in_app_iff. auto.
    + intros _. lia.
  - assert (P : Permutation (waiting s ++ woken s) ((l1 ++ l2) ++ woken s ++ [(T, x)])).
    { rewrite H, <- !app_assoc. apply Permutation_app_head. cbn [app].
      eapply perm_trans; [apply Permutation_cons_append|]. now rewrite <- app_assoc. }
    destruct W. constructor; cbn [waiting woken act set_wait].
    + eapply Permutation_NoDup; [apply Permutation_map, P|auto].
    + intros U g r K. apply (w_none U g r). eapply Permutation_in; [apply Permutation_sym, P|exact K].
    + intros _. rewrite app_length. cbn [length]. enough (max <= length (act s) + length (woken s)) by lia.
      apply w_room. rewrite H. destruct l1; discriminate.
  - pose proof (waits_take T g s c s' H0 J) as X.
    destruct (inv_take _ _ _ _ _ _ H0 J) as (_ & (E1 & E2 & _) & _).
    assert (L : look (T, g) (act s) = None).
    { apply (w_none _ _ W T g r). rewrite H. apply in_app_iff. right. apply in_app_iff. right. now left. }
    destruct (take_act _ _ _ _ _ _ H0) as [[E _]|(_ & E & E')]; [congruence|].
    pose proof (w_threads _ _ W) as N. rewrite H, app_assoc in N.
    destruct W. constructor; cbn [waiting woken act set_wait enqueue set_load].
    + rewrite E1. rewrite app_assoc. rewrite map_app in N |- *. cbn [map fst] in N. eapply NoDup_remove_1. exact N.
    + rewrite E1. intros U g' r' K.
      assert (K' : In (U, (g', r')) (waiting s ++ woken s)).
      { rewrite H. apply in_app_iff in K as [K|K]; apply in_app_iff; auto. right. apply in_app_iff in K as [K|K]; apply in_app_iff; auto. right. now right. }
      rewrite E'; [eauto|]. intros Y. injection Y as -> ->. apply (not_in_mid _ _ _ _ N).
      change T with (fst (T, (g, r'))). apply in_map. rewrite <- app_assoc. exact K.
    + rewrite E1. intros Y. specialize (w_room Y). rewrite H, app_length in w_room. cbn [length] in w_room.
      rewrite app_length. lia.
  - assert (P : Permutation (waiting s ++ woken s) ((waiting s ++ [(T, (g, r))]) ++ l1 ++ l2)).
    { rewrite H, <- app_assoc. apply Permutation_app_head. cbn [app]. apply Permutation_sym, Permutation_middle. }
    destruct W. constructor; cbn [waiting woken act set_wait].
    + eapply Permutation_NoDup; [apply Permutation_map, P|auto].
    + intros U g' r' K. apply (w_none U g' r'). eapply Permutation_in; [apply Permutation_sym, P|exact K].
    + destruct H0 as (_ & _ & B). intros _. lia.
  - pose proof (w_threads _ _ W) as N. rewrite H, app_assoc, map_app in N. cbn [map fst] in N.
    destruct W. constructor; cbn [waiting woken act set_wait set_log set_load].
    + rewrite app_assoc, map_app. eapply NoDup_remove_1. exact N.
    + intros U g' r' K. apply (w_none U g' r'). rewrite H. apply in_app_iff in K as [K|K]; apply in_app_iff; auto. right.
      apply in_app_iff in K as [K|K]; apply in_app_iff; auto. right. now right.
    + destruct H0 as (_ & _ & B). intros _. lia.
  - apply (waits_same _ s); auto.
  - apply (waits_same _ s); auto.
  - unfold deactivate. destruct (look (T, tgt s c) (act s)) as [c'|] eqn:K.
    + eapply (waits_same _ (notify 1 (set_tables (upd (owner s) c None) (unkey (T, tgt s c) (act s)) (unpair (T, c) (ath s)) (c :: without c (idle s)) s)));
        [|reflexivity|reflexivity|auto|auto].
      apply (waits_notify 1 s); auto; cbn [act set_tables].
      * intros k E. eapply look_less; [|exact E]. intros x X. now apply in_unkey in X.
      * pose proof (unkey_len _ _ _ (i_keys _ _ J) K). lia.
    + apply (waits_same _ s); auto.
  - apply (waits_same _ s); auto.
  - unfold active_cleanup. destruct (fair_cleanup max sel s J F H0 H1) as (s' & E & F' & (E1 & E2 & _) & Ei & En & El & Ea & Eb).
    rewrite E. eapply (waits_same _ (notify (length sel) s')); [|reflexivity|reflexivity|auto|auto].
    apply (waits_notify (length sel) s); auto.
    + intros k Q. eapply look_less; [|exact Q]. exact Eb.
    + lia.
  - apply (waits_same _ s); auto.
  - assert (X : forall t, waiting (fold_right delete_idle t sel) = waiting t /\ woken (fold_right delete_idle t sel) = woken t /\ act (fold_right delete_idle t sel) = act t).
    { clear. intros t. induction sel as [|d sel IH]; cbn [fold_right]; auto. }
    destruct (X s) as (X1 & X2 & X3). apply (waits_same _ s); auto; rewrite X3; auto.
  - apply (waits_same _ s); auto.
Qed.

(* --- requests --- *)
Definition no_cleanup (l : label) (s : pool) : Prop := match l with LClean _ _ => False | _ => True end.
(* without active_cleanup a thread's connections stay in its table *)
Record kept (s : pool) : Prop := Kept {
  k_fair : fair s;
  k_held : forall T c, In (T, c) (held s) -> In (T, c) (ath s);
  k_load : forall T c r, In (T, r) (load s c) -> In (T, c) (ath s)
}.
Lemma kept_start : kept start.
Proof using Type. constructor; [apply fair_start|cbn; tauto..]. Qed.
Lemma kept_not_replaced l s : inv s -> kept s ->
  match l with LIdle T c | LUpgrade T c _ => In (T, c) (held s) | _ => True end -> not_replaced l s.
Proof using Type.
  intros J K H. destruct l; cbn [not_replaced]; auto; intros c' E;
    pose proof (f_ath _ (k_fair _ K) _ _ (k_held _ K _ _ H)) as X; apply (look_in _ _ _ (i_keys _ _ J)) in X; congruence.
Qed.
Lemma take_ath T g s c s' : take max T g s c s' -> inv s -> kept s -> In (T, c) (ath s') /\ forall x, In x (ath s) -> In x (ath s').
Proof using Type.
  induction 1 as [s c H|s c H1 H2 H3|s H1 H2 H3|s d c s' H1 H2 H3 H4 H5 IH]; intros J K.
  - split; auto. eapply f_act; [apply K|]. apply look_some. exact H.
  - cbn [ath activate set_tables]. split; [now left|]. intros x X. destruct (keq (T, c) x) eqn:E.
    + apply keq_true in E as <-. now left.
    + right. apply in_unpair. split; auto. intros ->. now rewrite keq_refl in E.
  - cbn [ath activate set_tables new_connection]. split; [now left|]. intros x X. destruct (keq (T, nextid s) x) eqn:E.
    + apply keq_true in E as <-. now left.
    + right. apply in_unpair. split; auto. intros ->. now rewrite keq_refl in E.
  - apply IH; auto using inv_delete. destruct K. constructor; auto using fair_delete.
Qed.
Lemma kept_step l s s' : step max l s s' -> inv s -> no_cleanup l s -> kept s -> kept s'.
Proof using Type.
  intros H J R K.
  assert (F' : fair s').
  { eapply fair_step; eauto; [|apply K]. apply kept_not_replaced; auto. destruct H; auto. }
  destruct H; cbn [no_cleanup] in R; try contradiction; destruct (K) as [KF KH KL].
  - destruct (take_ath _ _ _ _ _ H1 J K) as (A & B).
    destruct (inv_take _ _ _ _ _ _ H1 J) as (_ & (E1 & E2 & E3 & E4 & E5 & E6 & _) & _).
    constructor; auto; cbn [held load ath enqueue set_load].
    + rewrite E3. auto.
    + rewrite E6. intros U c' q Q. destruct (upd_dec (load s) c (load s c ++ [(T, r)]) c') as [[-> E]|[_ E]]; rewrite E in Q.
      * apply in_app_iff in Q as [Q|[Q|[]]]; [eauto|]. injection Q as <- <-. exact A.
      * eauto.
  - constructor; auto.
  - constructor; auto.
  - constructor; auto.
  - destruct (take_ath _ _ _ _ _ H0 J K) as (A & B).
    destruct (inv_take _ _ _ _ _ _ H0 J) as (_ & (E1 & E2 & E3 & E4 & E5 & E6 & _) & _).
    constructor; auto; cbn [held load ath enqueue set_load set_wait].
    + rewrite E3. auto.
    + rewrite E6. intros U c' q Q. destruct (upd_dec (load s) c (load s c ++ [(T, r)]) c') as [[-> E]|[_ E]]; rewrite E in Q.
      * apply in_app_iff in Q as [Q|[Q|[]]]; [eauto|]. injection Q as <- <-. exact A.
      * eauto.
  - constructor; auto.
  - constructor; auto.
  - constructor; auto. cbn [held ath set_held]. intros U c Q. apply in_app_iff in Q as [Q|Q]; auto. now apply filter_In in Q.
  - constructor; auto. cbn [load ath set_load]. intros V c' q Q.
    destruct (upd_dec (load s) c (l1 ++ l2) c') as [[-> E]|[_ E]]; rewrite E in Q; [|eauto].
    apply (KL V c q). rewrite H1. apply in_app_iff in Q as [Q|Q]; apply in_app_iff; auto. right. now right.
  - assert (X : forall U c', In (U, c') (ath s) -> (U, c') <> (T, c) ->
               In (U, c') (ath (set_held (unpair (T, c) (held s)) (deactivate c T s)))).
    { intros U c' Q N. unfold deactivate. destruct (look (T, tgt s c) (act s)); cbn [ath set_held notify set_wait set_tables]; now apply in_unpair. }
    constructor; auto.
    + intros U c' Q. cbn [held set_held] in Q. apply in_unpair in Q as [Q Q']. apply X; auto.
    + intros U c' q Q. assert (Q' : In (U, q) (load s c')).
      { unfold deactivate in Q. destruct (look (T, tgt s c) (act s)); exact Q. }
      apply X; [eauto|]. intros E. injection E as -> ->. rewrite H1 in Q'. elim Q'.
  - constructor; auto. cbn [held ath set_held]. intros U c' Q. apply in_unpair in Q as [Q _]. auto.
  - constructor; auto; cbn [held load ath set_held set_load upgrade set_tables].
    + intros V c' Q. apply in_unpair in Q as [Q Q']. apply in_unpair. auto.
    + intros V c' q Q. destruct (upd_dec (load s) c [] c') as [[-> E]|[N E]]; rewrite E in Q; [elim Q|].
      apply in_unpair. split; [eauto|]. congruence.
  - constructor; auto.
  - assert (X : held (fold_right delete_idle s sel) = held s /\ load (fold_right delete_idle s sel) = load s /\ ath (fold_right delete_idle s sel) = ath s).
    { clear. induction sel as [|d sel IH]; cbn [fold_right]; auto. }
    destruct X as (X1 & X2 & X3). constructor; auto; rewrite ?X1, ?X2, ?X3; auto.
  - constructor; auto.
Qed.

(* how often a thread's request was put on a connection, and finished *)
Fixpoint queued (T r : nat) (l : list event) : nat :=
  match l with
  | [] => 0
  | EQueued T' _ r' _ :: l' => (if keq (T, r) (T', r') then 1 else 0) + queued T r l'
  | _ :: l' => queued T r l'
  end.
Fixpoint finished (T r : nat) (l : list event) : nat :=
  match l with
  | [] => 0
  | EFinished T' _ r' :: l' => (if keq (T, r) (T', r') then 1 else 0) + finished T r l'
  | _ :: l' => finished T r l'
  end.
Fixpoint times (p : nat * nat) (l : list (nat * nat)) : nat :=
  match l with [] => 0 | q :: l' => (if keq p q then 1 else 0) + times p l' end.
Fixpoint total (p : nat * nat) (f : nat -> list (nat * nat)) (n : nat) : nat :=
  match n with 0 => 0 | S n' => times p (f n') + total p f n' end.
Lemma times_app p a b : times p (a ++ b) = times p a + times p b.
Proof using Type. induction a as [|q a IH]; cbn [app times]; lia. Qed.
Lemma total_out p f c l n : n <= c -> total p (upd f c l) n = total p f n.
Proof using Type. induction n as [|n IH]; intros H; cbn [total]; auto. rewrite upd_ne, IH by lia. reflexivity. Qed.
Lemma total_upd p f c l n : c < n -> total p (upd f c l) n + times p (f c) = total p f n + times p l.
Proof using Type.
  induction n as [|n IH]; intros H; [lia|]. cbn [total]. destruct (Nat.eq_dec c n) as [->|N].
  - rewrite upd_eq, total_out by lia. lia.
  - rewrite upd_ne by lia. specialize (IH ltac:(lia)). lia.
Qed.
Lemma total_zero p f n : (forall c, c < n -> ~ In p (f c)) -> total p f n = 0.
Proof using Type.
  intros H. induction n as [|n IH]; cbn [total]; auto. rewrite IH by auto.
  assert (X : forall l, ~ In p l -> times p l = 0).
  { clear. induction l as [|q l IH]; cbn [times]; auto. intros H. destruct (keq p q) eqn:E.
    - apply keq_true in E as <-. elim H. now left.
    - rewrite IH; auto. intros Q. apply H. now right. }
  rewrite X; auto.
Qed.
Lemma total_more p f n m : n <= m -> (forall c, n <= c -> f c = []) -> total p f m = total p f n.
Proof using Type. intros H E. induction H; auto. cbn [total]. rewrite E by lia. exact IHle. Qed.

Definition counted (s : pool) : Prop :=
  forall T r, queued T r (log s) = finished T r (log s) + total (T, r) (load s) (nextid s).
Lemma load_new s : inv s -> forall c, nextid s <= c -> load s c = [].
Proof using Type.
  intros J c H. destruct (load s c) as [|[T r] l] eqn:E; auto.
  destruct (i_load _ _ J c T r) as (_ & L & _); [rewrite E; now left|lia].
Qed.
Lemma counted_enqueue T g r c s : counted s -> c < nextid s -> counted (enqueue T g r c s).
Proof using Type.
  intros C L U q. specialize (C U q). cbn [log load nextid enqueue set_load queued finished].
  pose proof (total_upd (U, q) (load s) c (load s c ++ [(T, r)]) _ L) as X. rewrite times_app in X. cbn [times] in X.
  destruct (keq (U, q) (T, r)); lia.
Qed.
Lemma counted_take T g s c s' : take max T g s c s' -> inv s -> counted s -> counted s'.
Proof using Type.
  intros H J C U q. destruct (inv_take _ _ _ _ _ _ H J) as (_ & (E1 & E2 & E3 & E4 & E5 & E6 & E7 & E8 & E9) & _).
  rewrite E7, E6, (total_more _ _ _ _ E9); auto using load_new.
Qed.
Lemma counted_finish T c U r l l1 l2 s : inv s -> counted s -> In (T, c) (held s) -> load s c = l1 ++ (U, r) :: l2 -> l = l1 ++ l2 ->
  counted (set_load (upd (load s) c l) (EFinished T c r) s).
Proof using Type.
  intros J C Hh E -> V q. specialize (C V q). cbn [log load nextid set_load queued finished].
  destruct (i_held _ _ J T c Hh) as (O & L).
  destruct (i_load _ _ J c U r) as (O' & _); [rewrite E; apply in_app_iff; right; now left|].
  assert (U = T) by congruence. subst U.
  pose proof (total_upd (V, q) (load s) c (l1 ++ l2) _ L) as X. rewrite E, !times_app in X. cbn [times] in X.
  destruct (keq (V, q) (T, r)); lia.
Qed.
Lemma counted_same t s : counted s -> log t = log s -> load t = load s -> nextid t = nextid s -> counted t.
Proof using Type. intros C E1 E2 E3 U q. rewrite E1, E2, E3. auto. Qed.
Lemma cleanup_same sel : forall s, log (fst (cleanup sel s)) = log s /\ load (fst (cleanup sel s)) = load s /\
  nextid (fst (cleanup sel s)) = nextid s.
Proof using Type.
  induction sel as [|[T c] sel IH]; intros s; cbn [cleanup]; auto.
  destruct (owner s c) as [U|]; [|now cbn]. destruct (look (U, tgt s c) (act s)); [|now cbn].
  exact (IH (set_tables (owner s) (unkey (U, tgt s c) (act s)) (unpair (T, c) (ath s)) (idle s) s)).
Qed.
Lemma counted_step l s s' : step max l s s' -> inv s -> counted s -> counted s'.
Proof using Type.
  intros H J C. destruct H.
  - apply counted_enqueue; [|now apply (inv_take _ _ _ _ _ _ H1 J)]. now apply (counted_take _ _ _ _ _ H1).
  - exact C.
  - exact C.
  - exact C.
  - apply counted_enqueue; [|now apply (inv_take _ _ _ _ _ _ H0 J)].
    exact (counted_take _ _ _ _ _ H0 J C).
  - exact C.
  - exact C.
  - exact C.
  - eapply counted_finish; eauto.
  - unfold deactivate. destruct (look (T, tgt s c) (act s)); exact C.
  - exact C.
  - exact (counted_finish T c U r [] [] [] s J C H0 H1 eq_refl).
  - unfold active_cleanup. pose proof (cleanup_same sel s) as (X1 & X2 & X3). destruct (cleanup sel s) as [s' []]; cbn [fst] in *.
    + intros U q. cbn [log load nextid set_log set_load queued finished]. rewrite X1, X2, X3. apply C.
    + exact (counted_same s' s C X1 X2 X3).
  - exact C.
  - assert (X : log (fold_right delete_idle s sel) = log s /\ load (fold_right delete_idle s sel) = load s /\ nextid (fold_right delete_idle s sel) = nextid s).
    { clear. induction sel as [|d sel IH]; cbn [fold_right]; auto. }
    destruct X as (X1 & X2 & X3). now apply (counted_same _ s).
  - exact C.
Qed.

(* --- closing --- *)
Definition ended (s : pool) : Prop :=
  closing s = true /\ act s = [] /\ idle s = [] /\ waiting s = [] /\ woken s = [].
Lemma cleanup_ended sel : forall s, act s = [] ->
  let t := fst (cleanup sel s) in
  act t = [] /\ idle t = idle s /\ waiting t = waiting s /\ woken t = woken s /\ closing t = closing s.
Proof using Type.
  induction sel as [|[T c] sel IH]; intros s E; cbn [cleanup]; auto.
  rewrite E. cbn [look]. destruct (owner s c); cbn; auto.
Qed.
Lemma ended_step l s s' : step max l s s' -> ended s ->
  ended s' /\ forall T g r c, In (EQueued T g r c) (log s') -> In (EQueued T g r c) (log s).
Proof using Type.
  intros H (E1 & E2 & E3 & E4 & E5). unfold ended. destruct H; try congruence.
  - rewrite E4 in H. now destruct l1.
  - rewrite E5 in H. now destruct l1.
  - rewrite E5 in H. now destruct l1.
  - rewrite E5 in H. now destruct l1.
  - cbn. auto 10.
  - split; [cbn; auto|]. cbn. intros V g q c' [Q|Q]; [discriminate|auto].
  - unfold deactivate. rewrite E2. cbn. auto 10.
  - cbn. auto 10.
  - cbn. rewrite E2. split; [auto 10|]. intros V g q c' [Q|Q]; [discriminate|auto].
  - unfold active_cleanup. destruct (cleanup_ended sel s E2) as (X1 & X2 & X3 & X4 & X5). pose proof (cleanup_same sel s) as (X6 & _).
    destruct (cleanup sel s) as [s' []]; cbn [fst] in *.
    + split; [cbn; repeat split; congruence|]. cbn. rewrite X6. intros V g q c' [Q|Q]; [discriminate|auto].
    + split; [|cbn; now rewrite X6]. cbn. rewrite X3, E4, X4, E5. rewrite skipn_nil, firstn_nil. repeat split; congruence.
  - cbn. auto 10.
  - assert (X : fold_right delete_idle s sel = s \/ sel <> []) by (destruct sel; [left; reflexivity|right; discriminate]).
    destruct X as [X|X]; [rewrite X; repeat split; auto|]. destruct sel as [|d sel]; [congruence|]. specialize (H0 d (or_introl eq_refl)). rewrite E3 in H0. elim H0.
  - cbn. auto 10.
Qed.
End Rest.
