(* Invariants of the connection pool *)
From Coq Require Import List Bool Arith Lia.
From Verif Require Import CpModel.
Import ListNotations.

(* --- tables --- *)
Lemma keq_true a b : keq a b = true <-> a = b.
Proof.
  destruct a as [a1 a2], b as [b1 b2]. unfold keq. cbn [fst snd]. rewrite andb_true_iff, !Nat.eqb_eq.
  split; [intros [-> ->]; auto|intros H; injection H as -> ->; auto].
Qed.
Lemma keq_false a b : keq a b = false <-> a <> b.
Proof. rewrite <- keq_true. destruct (keq a b); split; intros; congruence. Qed.
Lemma keq_refl a : keq a a = true.
Proof. now apply keq_true. Qed.
Lemma upd_eq {A} (f : nat -> A) n a : upd f n a n = a.
Proof. unfold upd. now rewrite Nat.eqb_refl. Qed.
Lemma upd_ne {A} (f : nat -> A) n a m : m <> n -> upd f n a m = f m.
Proof. unfold upd. intros H. apply Nat.eqb_neq in H. now rewrite H. Qed.
Lemma upd_dec {A} (f : nat -> A) n a m : (m = n /\ upd f n a m = a) \/ (m <> n /\ upd f n a m = f m).
Proof. destruct (Nat.eq_dec m n) as [->|H]; [left|right]; split; auto using upd_eq, upd_ne. Qed.

Lemma look_some k l c : look k l = Some c -> In (k, c) l.
Proof.
  induction l as [|[k' c'] l IH]; cbn [look]; [discriminate|].
  destruct (keq k k') eqn:E; [|right; auto]. apply keq_true in E as ->. intros H. injection H as ->. now left.
Qed.
Lemma look_none k l : look k l = None <-> forall c, ~ In (k, c) l.
Proof.
  induction l as [|[k' c'] l IH]; cbn [look]; [split; auto|].
  destruct (keq k k') eqn:E.
  - apply keq_true in E as ->. split; [discriminate|]. intros H. elim (H c'). now left.
  - apply keq_false in E. rewrite IH. split; intros H c K; [destruct K as [K|K]; [congruence|elim (H c K)]|].
    elim (H c). now right.
Qed.
Lemma look_in k l c : NoDup (map fst l) -> In (k, c) l -> look k l = Some c.
Proof.
  induction l as [|[k' c'] l IH]; cbn [look map fst]; [intros _ []|].
  intros N H. inversion N as [|? ? N1 N2]. subst. destruct H as [H|H].
  - injection H as -> ->. now rewrite keq_refl.
  - destruct (keq k k') eqn:E; [|auto]. apply keq_true in E as ->. elim N1.
    change k' with (fst (k', c)). now apply in_map.
Qed.
Lemma in_unkey k l x : In x (unkey k l) <-> In x l /\ fst x <> k.
Proof.
  unfold unkey. rewrite filter_In, negb_true_iff, keq_false.
  split; intros [H K]; split; auto.
Qed.
Lemma in_unpair p l x : In x (unpair p l) <-> In x l /\ x <> p.
Proof. unfold unpair. rewrite filter_In, negb_true_iff, keq_false. split; intros [H K]; split; auto. Qed.
Lemma in_without c l x : In x (without c l) <-> In x l /\ x <> c.
Proof. unfold without. rewrite filter_In, negb_true_iff, Nat.eqb_neq. tauto. Qed.
Lemma nodup_filter_map {A B} (f : A -> B) (p : A -> bool) l : NoDup (map f l) -> NoDup (map f (filter p l)).
Proof.
  induction l as [|a l IH]; cbn [map filter]; auto. intros N. inversion N as [|? ? N1 N2]. subst.
  destruct (p a); cbn [map]; auto. constructor; auto. intros K. apply N1.
  apply in_map_iff in K as (b & E & K). apply filter_In in K as [K _]. apply in_map_iff. eauto.
Qed.
Lemma nodup_filter {A} (p : A -> bool) l : NoDup l -> NoDup (filter p l).
Proof. intros N. rewrite <- (map_id (filter p l)). apply nodup_filter_map. now rewrite map_id. Qed.
Lemma filter_len {A} (p : A -> bool) l : length (filter p l) <= length l.
Proof. induction l as [|a l IH]; cbn [filter length]; auto. destruct (p a); cbn [length]; lia. Qed.
Lemma filter_all {A} (p : A -> bool) l : (forall x, In x l -> p x = true) -> filter p l = l.
Proof.
  induction l as [|a l IH]; cbn [filter]; auto. intros H. rewrite (H a) by now left.
  f_equal. apply IH. intros x K. apply H. now right.
Qed.
Lemma unkey_none k l : look k l = None -> unkey k l = l.
Proof.
  intros H. rewrite look_none in H. unfold unkey. apply filter_all. intros [k' c] K. cbn [fst].
  rewrite negb_true_iff, keq_false. intros <-. elim (H c K).
Qed.
Lemma unkey_len k l c : NoDup (map fst l) -> look k l = Some c -> S (length (unkey k l)) = length l.
Proof.
  unfold unkey. induction l as [|[k' c'] l IH]; cbn [look map fst filter]; [discriminate|].
  intros N. inversion N as [|? ? N1 N2]. subst. destruct (keq k k') eqn:E; cbn [negb length].
  - intros _. apply keq_true in E as ->. f_equal. rewrite filter_all; [reflexivity|].
    intros [k2 c2] K. cbn [fst]. rewrite negb_true_iff, keq_false. intros <-. apply N1.
    change k' with (fst (k', c2)). now apply in_map.
  - intros H. f_equal. auto.
Qed.
Lemma without_none c l : ~ In c l -> without c l = l.
Proof. intros H. apply filter_all. intros x K. rewrite negb_true_iff, Nat.eqb_neq. intros ->. auto. Qed.
Lemma without_len c l : NoDup l -> In c l -> S (length (without c l)) = length l.
Proof.
  unfold without. induction l as [|a l IH]; cbn [filter]; [intros _ []|]. intros N K. inversion N as [|? ? N1 N2]. subst.
  destruct (a =? c) eqn:E; cbn [negb length].
  - apply Nat.eqb_eq in E as ->. f_equal. change (length (without c l) = length l). now rewrite without_none.
  - apply Nat.eqb_neq in E. destruct K as [->|K]; [congruence|]. f_equal. auto.
Qed.
Lemma unpair_none p l : ~ In p l -> unpair p l = l.
Proof. intros H. apply filter_all. intros x K. rewrite negb_true_iff, keq_false. intros <-. auto. Qed.

(* --- the log --- *)
Fixpoint good (l : list event) : Prop :=
  match l with
  | [] => True
  | EFinished T c r :: l' => (exists g, In (EQueued T g r c) l') /\ good l'
  | _ :: l' => good l'
  end.

(* --- what always holds --- *)
Record inv (max : nat) (s : pool) : Prop := Inv {
  i_keys : NoDup (map fst (act s));
  i_act : forall T g c, In ((T, g), c) (act s) -> owner s c = Some T /\ tgt s c = g /\ c < nextid s;
  i_ath : forall T c, In (T, c) (ath s) -> owner s c = Some T /\ c < nextid s;
  i_aths : NoDup (ath s);
  i_held : forall T c, In (T, c) (held s) -> owner s c = Some T /\ c < nextid s;
  i_idle : forall c, In c (idle s) -> owner s c = None /\ c < nextid s;
  i_idles : NoDup (idle s);
  i_load : forall c T r, In (T, r) (load s c) -> owner s c = Some T /\ c < nextid s /\ exists g, In (EQueued T g r c) (log s);
  i_log : forall T g r c, In (EQueued T g r c) (log s) -> tgt s c = g /\ c < nextid s;
  i_good : good (log s);
  i_len : length (act s) + length (idle s) <= max;
  i_new : forall c, nextid s <= c -> owner s c = None
}.

Section Inv.
Variable max : nat.
Notation inv := (inv max).

Lemma inv_start : inv start.
Proof using Type. constructor; cbn; intros; try contradiction; auto using NoDup_nil. lia. Qed.

(* changes of what the invariant does not speak of *)
Lemma inv_wait w k s : inv s -> inv (set_wait w k s).
Proof using Type. intros []. now constructor. Qed.
Lemma inv_dead d m s : inv s -> inv (set_dead d m s).
Proof using Type. intros []. now constructor. Qed.
Lemma inv_closing s : inv s -> inv (set_closing s).
Proof using Type. intros []. now constructor. Qed.
Lemma inv_notify n s : inv s -> inv (notify n s).
Proof using Type. apply inv_wait. Qed.
Lemma inv_hold h s : inv s -> (forall T c, In (T, c) h -> In (T, c) (held s) \/ In (T, c) (ath s)) -> inv (set_held h s).
Proof using Type.
  intros [] H. constructor; auto. intros T c K. cbn [held owner nextid set_held]. destruct (H T c K); auto.
Qed.
Lemma inv_quiet e s : inv s -> match e with EBusy _ _ | EKeyError _ => True | _ => False end -> inv (set_log e s).
Proof using Type.
  intros [] H. constructor; auto; cbn [load log set_log set_load owner nextid tgt].
  - intros c T r K. destruct (i_load0 c T r K) as (A & B & g & C). repeat split; auto. exists g. now right.
  - intros T g r c [E|K]; [rewrite E in H; elim H|eauto].
  - destruct e; try elim H; exact i_good0.
Qed.

(* fewer entries *)
Lemma inv_less a t i s : inv s -> NoDup (map fst a) -> incl a (act s) -> NoDup t -> incl t (ath s) -> NoDup i -> incl i (idle s) ->
  length a + length i <= max -> inv (set_tables (owner s) a t i s).
Proof using Type.
  intros [] Na Ha Nt Ht Ni Hi L. constructor; auto; cbn [act ath idle owner tgt nextid set_tables]; auto.
Qed.
Lemma incl_filter {A} (p : A -> bool) l : incl (filter p l) l.
Proof using Type. intros x H. now apply filter_In in H. Qed.

Lemma inv_delete d s : inv s -> inv (delete_idle d s).
Proof using Type.
  intros I. apply inv_less; auto; try apply I; try apply incl_refl.
  - apply nodup_filter, I.
  - apply incl_filter.
  - pose proof (i_len _ _ I). pose proof (filter_len (fun x => negb (x =? d)) (idle s)). unfold without. lia.
Qed.

Lemma inv_activate c T s : inv s -> owner s c = None -> c < nextid s -> look (T, tgt s c) (act s) = None ->
  length (act s) + length (without c (idle s)) < max -> inv (activate c T s).
Proof using Type.
  intros I O L K N. destruct I. unfold activate. rewrite (unkey_none _ _ K).
  assert (Ln : forall U r, ~ In (U, r) (load s c)).
  { intros U r H. destruct (i_load0 c U r H) as (A & _). congruence. }
  assert (P : unpair (T, c) (ath s) = ath s).
  { apply unpair_none. intros H. destruct (i_ath0 T c H). congruence. }
  rewrite P.
  constructor; cbn [act ath idle held load log owner tgt nextid set_tables map fst]; auto.
  - constructor; auto. intros H. apply in_map_iff in H as ([k c'] & E & H). cbn [fst] in E. subst k.
    rewrite look_none in K. elim (K c' H).
  - intros U g c' [E|H].
    + injection E as <- <- <-. rewrite upd_eq. auto.
    + destruct (i_act0 U g c' H) as (A & B & C). rewrite upd_ne by congruence. auto.
  - intros U c' [E|H].
    + injection E as <- <-. rewrite upd_eq. auto.
    + destruct (i_ath0 U c' H) as (A & B). rewrite upd_ne by congruence. auto.
  - constructor; auto. intros H. destruct (i_ath0 T c H). congruence.
  - intros U c' H. destruct (i_held0 U c' H) as (A & B). rewrite upd_ne by congruence. auto.
  - intros c' H. apply in_without in H as [H H']. rewrite upd_ne by congruence. auto.
  - apply nodup_filter; auto.
  - intros c' U r H. destruct (i_load0 c' U r H) as (A & B & C). rewrite upd_ne by congruence. auto.
  - intros c' H. rewrite upd_ne by lia. auto.
Qed.
Lemma inv_new g s : inv s -> inv (new_connection g s).
Proof using Type.
  intros []. constructor; cbn [act ath idle held load log owner tgt nextid new_connection]; auto.
  - intros T g' c H. destruct (i_act0 T g' c H) as (A & B & C). rewrite upd_ne by lia. repeat split; auto.
  - intros T c H. destruct (i_ath0 T c H). split; auto.
  - intros T c H. destruct (i_held0 T c H). split; auto.
  - intros c H. destruct (i_idle0 c H). split; auto.
  - intros c T r H. destruct (i_load0 c T r H) as (A & B & C). repeat split; auto.
  - intros T g' r c H. destruct (i_log0 T g' r c H). rewrite upd_ne by lia. split; auto.
  - intros c H. apply i_new0. lia.
Qed.

(* what a search leaves alone *)
Definition same (s s' : pool) : Prop :=
  waiting s' = waiting s /\ woken s' = woken s /\ held s' = held s /\ doomed s' = doomed s /\ dead s' = dead s /\
  load s' = load s /\ log s' = log s /\ closing s' = closing s /\ nextid s <= nextid s'.
Lemma same_refl s : same s s.
Proof using Type. repeat split; auto. Qed.

Lemma inv_take T g s c s' : take max T g s c s' -> inv s ->
  inv s' /\ same s s' /\ look (T, g) (act s') = Some c /\ owner s' c = Some T /\ tgt s' c = g /\ c < nextid s'.
Proof using Type.
  induction 1 as [s c H|s c H1 H2 H3|s H1 H2 H3|s d c s' H1 H2 H3 H4 H5 IH]; intros J.
  - destruct (i_act _ _ J T g c (look_some _ _ _ H)) as (A & B & C). split; [exact J|]. split; [apply same_refl|]. auto.
  - destruct (i_idle _ _ J c H2) as (A & B). subst g.
    split; [|split; [repeat split; auto|]].
    + apply inv_activate; auto. pose proof (without_len c (idle s) (i_idles _ _ J) H2). pose proof (i_len _ _ J). lia.
    + cbn [act activate set_tables look]. rewrite keq_refl. cbn [owner tgt nextid activate set_tables]. rewrite upd_eq. auto.
  - assert (N : owner s (nextid s) = None) by (apply (i_new _ _ J); lia).
    split; [|split; [repeat split; cbn; auto|]].
    + apply inv_activate; [now apply inv_new|exact N|cbn; lia|cbn [new_connection act tgt]; now rewrite upd_eq|].
      cbn [new_connection act idle].
      rewrite without_none; [lia|]. intros K. destruct (i_idle _ _ J _ K). lia.
    + cbn [act activate set_tables look new_connection owner tgt nextid]. rewrite !upd_eq, keq_refl. auto.
  - destruct (IH (inv_delete d s J)) as (A & B & C). split; [exact A|]. split; [exact B|exact C].
Qed.

Lemma inv_enqueue T g r c s : inv s -> owner s c = Some T -> tgt s c = g -> c < nextid s -> inv (enqueue T g r c s).
Proof using Type.
  intros [] O G L. constructor; cbn [act ath idle held load log owner tgt nextid enqueue set_load]; auto.
  - intros c' U q H. destruct (upd_dec (load s) c (load s c ++ [(T, r)]) c') as [[-> E]|[_ E]]; rewrite E in H.
    + apply in_app_iff in H as [H|[H|[]]].
      * destruct (i_load0 c U q H) as (A & B & g' & C). repeat split; auto. exists g'. now right.
      * injection H as <- <-. repeat split; auto. exists g. now left.
    + destruct (i_load0 c' U q H) as (A & B & g' & C). repeat split; auto. exists g'. now right.
  - intros U g' q c' [H|H]; [injection H as <- <- <- <-; auto|eauto].
Qed.
Lemma inv_finish T c l r U l1 l2 s : inv s -> In (T, c) (held s) -> load s c = l1 ++ (U, r) :: l2 -> incl l (l1 ++ l2) ->
  inv (set_load (upd (load s) c l) (EFinished T c r) s).
Proof using Type.
  intros J Hh E Hl.
  assert (Q : exists g, In (EQueued T g r c) (log s)).
  { destruct (i_load _ _ J c U r) as (A & B & g & C); [rewrite E; apply in_app_iff; right; now left|].
    destruct (i_held _ _ J T c Hh). exists g. congruence. }
  destruct J. constructor; cbn [act ath idle held load log owner tgt nextid set_load]; auto.
  - intros c' U' q H. destruct (upd_dec (load s) c l c') as [[-> F]|[_ F]]; rewrite F in H.
    + destruct (i_load0 c U' q) as (A & B & g & C).
      { rewrite E. apply Hl in H. apply in_app_iff in H as [H|H]; apply in_app_iff; [left|right; right]; auto. }
      repeat split; auto. exists g. now right.
    + destruct (i_load0 c' U' q H) as (A & B & g & C). repeat split; auto. exists g. now right.
  - intros U' g q c' [H|H]; [discriminate|eauto].
  - cbn [good]. split; auto.
Qed.

Lemma inv_release a i c T h s : inv s -> owner s c = Some T -> load s c = [] ->
  NoDup (map fst a) -> incl a (unkey (T, tgt s c) (act s)) -> (i = idle s \/ i = c :: without c (idle s)) ->
  length a + length i <= max -> incl h (unpair (T, c) (held s)) ->
  inv (set_held h (set_tables (upd (owner s) c None) a (unpair (T, c) (ath s)) i s)).
Proof using Type.
  intros J O L Na Ha Hi Len Hh. destruct J.
  constructor; cbn [act ath idle held load log owner tgt nextid set_tables set_held]; auto.
  - intros U g c' H. apply Ha in H. apply in_unkey in H as [H H']. cbn [fst] in H'.
    destruct (i_act0 U g c' H) as (A & B & C). rewrite upd_ne; auto. intros ->. apply H'. congruence.
  - intros U c' H. apply in_unpair in H as [H H']. destruct (i_ath0 U c' H) as (A & B).
    rewrite upd_ne; auto. intros ->. apply H'. congruence.
  - apply nodup_filter; auto.
  - intros U c' H. apply Hh in H. apply in_unpair in H as [H H']. destruct (i_held0 U c' H) as (A & B).
    rewrite upd_ne; auto. intros ->. apply H'. congruence.
  - intros c' H. destruct (upd_dec (owner s) c None c') as [[-> F]|[Q F]]; rewrite F.
    + split; auto. destruct (Nat.lt_ge_cases c (nextid s)) as [X|X]; auto. specialize (i_new0 c X). congruence.
    + destruct Hi as [->| ->]; [auto|]. destruct H as [->|H]; [congruence|]. apply in_without in H as [H _]. auto.
  - destruct Hi as [->| ->]; auto. constructor; [|apply nodup_filter; auto]. intros H. apply in_without in H as [_ H]. auto.
  - intros c' U r H. destruct (upd_dec (owner s) c None c') as [[-> F]|[Q F]].
    + rewrite L in H. elim H.
    + rewrite F. auto.
  - intros c' H. destruct (upd_dec (owner s) c None c') as [[-> F]|[Q F]]; rewrite F; auto.
Qed.

Lemma inv_cleanup sel : forall s, inv s -> inv (fst (cleanup sel s)).
Proof using Type.
  induction sel as [|[T c] sel IH]; intros s J; cbn [cleanup]; [exact J|].
  assert (X : forall a, NoDup (map fst a) -> incl a (act s) -> length a <= length (act s) ->
             inv (set_tables (owner s) a (unpair (T, c) (ath s)) (idle s) s)).
  { intros a N Ha L. apply inv_less; auto; try apply J.
    - apply nodup_filter, J.
    - apply incl_filter.
    - apply incl_refl.
    - pose proof (i_len _ _ J). lia. }
  destruct (owner s c) as [U|]; [|cbn [fst]; apply X; try apply J; auto using incl_refl].
  destruct (look (U, tgt s c) (act s)); [|cbn [fst]; apply X; try apply J; auto using incl_refl].
  apply IH, X.
  - apply nodup_filter_map, J.
  - apply incl_filter.
  - apply filter_len.
Qed.

Lemma inv_step l s s' : step max l s s' -> inv s -> inv s'.
Proof using Type.
  intros H J. destruct H.
  - destruct (inv_take _ _ _ _ _ H1 J) as (A & B & C & D & E & F). now apply inv_enqueue.
  - now apply inv_quiet.
  - now apply inv_wait.
  - now apply inv_wait.
  - destruct (inv_take _ _ _ _ _ H0 J) as (A & B & C & D & E & F). apply inv_enqueue; auto using inv_wait.
  - now apply inv_wait.
  - apply inv_quiet; auto using inv_wait.
  - apply inv_hold; auto. intros U c K. apply in_app_iff in K as [K|K]; auto. apply filter_In in K as [K _]. auto.
  - eapply inv_finish; eauto using incl_refl.
  - destruct (i_held _ _ J T c H0) as (O & L).
    unfold deactivate. destruct (look (T, tgt s c) (act s)) as [c'|] eqn:K.
    + apply (inv_wait (skipn 1 (waiting s)) (woken s ++ firstn 1 (waiting s)) (set_held (unpair (T, c) (held s))
        (set_tables (upd (owner s) c None) (unkey (T, tgt s c) (act s)) (unpair (T, c) (ath s)) (c :: without c (idle s)) s))).
      apply inv_release; auto using incl_refl.
      * apply nodup_filter_map, J.
      * pose proof (unkey_len _ _ _ (i_keys _ _ J) K). pose proof (i_len _ _ J).
        pose proof (filter_len (fun x => negb (x =? c)) (idle s)). unfold without. cbn [length]. lia.
    + apply inv_release; auto using incl_refl; try apply J. rewrite (unkey_none _ _ K). apply incl_refl.
  - apply inv_hold; auto. intros U c' K. apply in_unpair in K as [K _]. auto.
  - destruct (i_held _ _ J T c H0) as (O & L).
    assert (X : inv (set_load (upd (load s) c []) (EFinished T c r) s)).
    { apply (inv_finish T c [] r U [] [] s); auto using incl_refl. }
    refine (inv_release (unkey (T, tgt s c) (act s)) (idle s) c T (unpair (T, c) (held s)) _ X _ _ _ _ _ _ _);
      cbn [owner load act idle held tgt set_load]; auto using incl_refl.
    + apply upd_eq.
    + apply nodup_filter_map, J.
    + pose proof (i_len _ _ J). pose proof (filter_len (fun x => negb (keq (T, tgt s c) (fst x))) (act s)).
      unfold unkey. lia.
  - unfold active_cleanup. pose proof (inv_cleanup sel s J) as X. destruct (cleanup sel s) as [s' []]; cbn [fst] in X.
    + now apply inv_quiet.
    + now apply inv_dead, inv_notify.
  - now apply inv_dead.
  - clear - J. induction sel as [|d sel IH]; cbn [fold_right]; auto using inv_delete.
  - now apply inv_closing.
Qed.
Lemma inv_run ok s : run max ok start s -> inv s.
Proof using Type. intros H. remember start as s0 eqn:E. induction H; subst; [apply inv_start|]. eapply inv_step; eauto. Qed.
End Inv.
