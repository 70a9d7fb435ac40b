(** What the primitive steps of the in-memory store do to its links and its keys. *)
From Verif Require Import Py MemdsModel.
From Coq Require Import Permutation.

Lemma zmem_in : forall x l, zmem x l = true <-> In x l.
Proof. intros x l. unfold zmem. rewrite existsb_exists. split; [intros (y & H & E); apply Z.eqb_eq in E; now subst|intros H; exists x; split; [assumption|apply Z.eqb_refl]]. Qed.
Lemma zmem_nin : forall x l, zmem x l = false <-> ~ In x l.
Proof. intros x l. rewrite <- zmem_in. destruct (zmem x l); split; congruence. Qed.
Lemma zremove_in : forall x y l, In y (zremove x l) <-> In y l /\ y <> x.
Proof. intros x y l. unfold zremove. rewrite filter_In, negb_true_iff, Z.eqb_neq. intuition congruence. Qed.
Lemma zremove_nodup : forall x l, NoDup l -> NoDup (zremove x l).
Proof. intros. now apply NoDup_filter. Qed.
Lemma zremove_notin : forall x l, ~ In x l -> zremove x l = l.
Proof.
  intros x l. unfold zremove. induction l as [|y l IH]; intros H; [reflexivity|]. cbn [filter].
  destruct (x =? y) eqn:E; [apply Z.eqb_eq in E; subst; exfalso; apply H; now left|]. cbn [negb]. rewrite IH; [reflexivity|]. intros K. apply H. now right.
Qed.
Lemma zremove_head : forall x l, ~ In x l -> zremove x (x :: l) = l.
Proof. intros x l H. unfold zremove at 1. cbn [filter]. rewrite Z.eqb_refl. cbn [negb]. now apply zremove_notin. Qed.
Lemma upd_eq : forall {V} (f : nat -> V) n v, upd f n v n = v.
Proof. intros. unfold upd. now rewrite Nat.eqb_refl. Qed.
Lemma upd_neq : forall {V} (f : nat -> V) n v m, m <> n -> upd f n v m = f m.
Proof. intros. unfold upd. destruct (Nat.eqb_spec m n); congruence. Qed.
Lemma updz_eq : forall {V} (f : Z -> V) n v, updz f n v n = v.
Proof. intros. unfold updz. now rewrite Z.eqb_refl. Qed.
Lemma updz_neq : forall {V} (f : Z -> V) n v m, m <> n -> updz f n v m = f m.
Proof. intros. unfold updz. destruct (Z.eqb_spec m n); congruence. Qed.

Definition els (o : option (list Z)) : list Z := match o with Some l => l | None => [] end.
(** the links, in the index and in the reverse index *)
Definition L (s : st) (a : nat) (f t : Z) : Prop := In t (els (index s a f)).
Definition RL (s : st) (a : nat) (f t : Z) : Prop := In f (els (rindex s a t)).
Record sym (s : st) : Prop := {
  sym_iff : forall a f t, L s a f t <-> RL s a f t;
  sym_nd : forall a f, NoDup (els (index s a f));
  sym_rnd : forall a t, NoDup (els (rindex s a t)) }.

Lemma els_zadd : forall x y o, In y (els (zadd x o)) <-> In y (els o) \/ y = x.
Proof.
  intros x y [l|]; cbn [zadd els]; [|cbn [In]; intuition].
  destruct (zmem x l) eqn:E; [apply zmem_in in E; split; [now left|intros [H|H]; [assumption|now subst]]|].
  rewrite in_app_iff. cbn [In]. intuition.
Qed.
Lemma nodup_snoc : forall {A} (x : A) l, NoDup l -> ~ In x l -> NoDup (l ++ [x]).
Proof. intros A x l H N. apply NoDup_rev in H. rewrite <- (rev_involutive (l ++ [x])), rev_app_distr. apply NoDup_rev. cbn [rev app]. constructor; [now rewrite <- in_rev|assumption]. Qed.
Lemma nodup_zadd : forall x o, NoDup (els o) -> NoDup (els (zadd x o)).
Proof.
  intros x [l|] H; cbn [zadd els] in *; [|constructor; [intros []|constructor]].
  destruct (zmem x l) eqn:E; [assumption|]. apply zmem_nin in E. now apply nodup_snoc.
Qed.
Lemma els_map : forall g o, els (option_map (zremove g) o) = zremove g (els o).
Proof. now intros g [l|]. Qed.

Lemma index_set_index : forall s a f a', index (set_index s a f) a' = if Nat.eqb a' a then f else index s a'.
Proof. reflexivity. Qed.
Lemma rindex_set_rindex : forall s a f a', rindex (set_rindex s a f) a' = if Nat.eqb a' a then f else rindex s a'.
Proof. reflexivity. Qed.

Lemma add_link_L : forall s a f t a' f' t', L (add_link s a f t) a' f' t' <-> L s a' f' t' \/ (a' = a /\ f' = f /\ t' = t).
Proof.
  intros. unfold L, add_link, set_index, set_rindex, upd, updz. cbn [index rindex].
  destruct (Nat.eqb_spec a' a) as [->|N]; [|intuition].
  destruct (Z.eqb_spec f' f) as [->|N]; [|intuition]. rewrite els_zadd. intuition.
Qed.
Lemma add_link_RL : forall s a f t a' f' t', RL (add_link s a f t) a' f' t' <-> RL s a' f' t' \/ (a' = a /\ f' = f /\ t' = t).
Proof.
  intros. unfold RL, add_link, set_index, set_rindex, upd, updz. cbn [index rindex].
  destruct (Nat.eqb_spec a' a) as [->|N]; [|intuition].
  destruct (Z.eqb_spec t' t) as [->|N]; [|intuition]. rewrite els_zadd. intuition.
Qed.
Lemma add_link_sym : forall s a f t, sym s -> sym (add_link s a f t).
Proof.
  intros s a f t [H1 H2 H3]. split.
  - intros. rewrite add_link_L, add_link_RL, H1. reflexivity.
  - intros a' f'. unfold add_link, set_index, set_rindex, upd, updz. cbn [index rindex].
    destruct (Nat.eqb a' a) eqn:Ea; [|apply H2]. apply Nat.eqb_eq in Ea. subst. destruct (Z.eqb_spec f' f) as [->|N]; [apply nodup_zadd|]; apply H2.
  - intros a' t'. unfold add_link, set_index, set_rindex, upd, updz. cbn [index rindex].
    destruct (Nat.eqb a' a) eqn:Ea; [|apply H3]. apply Nat.eqb_eq in Ea. subst. destruct (Z.eqb_spec t' t) as [->|N]; [apply nodup_zadd|]; apply H3.
Qed.

Lemma remove_link_L : forall s a f t a' f' t', L (remove_link s a f t) a' f' t' <-> L s a' f' t' /\ ~ (a' = a /\ f' = f /\ t' = t).
Proof.
  intros. unfold L, remove_link, set_index, set_rindex, upd, updz. cbn [index rindex].
  destruct (Nat.eqb_spec a' a) as [->|N]; [|intuition].
  destruct (Z.eqb_spec f' f) as [->|N]; [|intuition]. rewrite els_map, zremove_in. intuition.
Qed.
Lemma remove_link_RL : forall s a f t a' f' t', RL (remove_link s a f t) a' f' t' <-> RL s a' f' t' /\ ~ (a' = a /\ f' = f /\ t' = t).
Proof.
  intros. unfold RL, remove_link, set_index, set_rindex, upd, updz. cbn [index rindex].
  destruct (Nat.eqb_spec a' a) as [->|N]; [|intuition].
  destruct (Z.eqb_spec t' t) as [->|N]; [|intuition]. rewrite els_map, zremove_in. intuition.
Qed.
Lemma remove_link_sym : forall s a f t, sym s -> sym (remove_link s a f t).
Proof.
  intros s a f t [H1 H2 H3]. split.
  - intros. rewrite remove_link_L, remove_link_RL, H1. reflexivity.
  - intros a' f'. unfold remove_link, set_index, set_rindex, upd, updz. cbn [index rindex].
    destruct (Nat.eqb a' a) eqn:Ea; [|apply H2]. apply Nat.eqb_eq in Ea. subst. destruct (Z.eqb_spec f' f) as [->|N]; [rewrite els_map; apply zremove_nodup|]; apply H2.
  - intros a' t'. unfold remove_link, set_index, set_rindex, upd, updz. cbn [index rindex].
    destruct (Nat.eqb a' a) eqn:Ea; [|apply H3]. apply Nat.eqb_eq in Ea. subst. destruct (Z.eqb_spec t' t) as [->|N]; [rewrite els_map; apply zremove_nodup|]; apply H3.
Qed.

(** ** The hooks *)
Lemma unhook_spec : forall x l m, NoDup l -> (forall y, In y l -> In x (els (m y))) ->
  exists m', unhook l x m = (m', true) /\
    (forall z w, In w (els (m' z)) <-> In w (els (m z)) /\ ~ (w = x /\ In z l)) /\
    ((forall z, NoDup (els (m z))) -> forall z, NoDup (els (m' z))).
Proof.
  intros x. induction l as [|y l IH]; intros m ND H.
  - exists m. cbn [unhook]. split; [reflexivity|]. split; [intros; cbn [In]; tauto|auto].
  - inversion ND as [|? ? NI ND']; subst. cbn [unhook]. pose proof (H y (or_introl eq_refl)) as Hy.
    destruct (m y) as [xs|] eqn:E; [|destruct Hy]. cbn [els] in Hy. rewrite (proj2 (zmem_in x xs) Hy).
    set (xs' := zremove x xs). set (m1 := updz m y _).
    assert (E1 : els (m1 y) = xs') by (unfold m1; rewrite updz_eq; now destruct xs').
    assert (E2 : forall z, z <> y -> m1 z = m z) by (intros z N; unfold m1; now apply updz_neq).
    destruct (IH m1 ND') as (m' & U & M & N).
    + intros z Hz. rewrite E2; [apply H; now right|]. intros ->. contradiction.
    + exists m'. split; [exact U|]. split.
      * intros z w. rewrite M. cbn [In]. destruct (Z.eq_dec z y) as [->|Nz].
        -- rewrite E1. unfold xs'. rewrite zremove_in, E. cbn [els]. intuition congruence.
        -- rewrite E2 by assumption. intuition congruence.
      * intros K. apply N. intros z. destruct (Z.eq_dec z y) as [->|Nz]; [rewrite E1; unfold xs'; apply zremove_nodup; specialize (K y); now rewrite E in K|].
        rewrite E2 by assumption. apply K.
Qed.
Section Ord.
  Variable ord : list Z -> list Z.
  Hypothesis Hord : forall l, Permutation (ord l) l.
  Lemma ord_in : forall l x, In x (ord l) <-> In x l.
  Proof. intros l x. split; apply Permutation_in; [apply Hord|symmetry; apply Hord]. Qed.
  Lemma ord_nodup : forall l, NoDup l -> NoDup (ord l).
  Proof. intros l. apply Permutation_NoDup. symmetry. apply Hord. Qed.

  Lemma delete_hook_spec : forall a k s, sym s -> let s' := delete_hook ord a k s in
    sym s' /\ data s' = data s /\ del s' = del s /\
    (forall a' f t, L s' a' f t <-> L s a' f t /\ ~ (a' = a /\ f = k)).
  Proof.
    intros a k s [H1 H2 H3]. unfold delete_hook. destruct (index s a k) as [l|] eqn:E.
    - destruct (unhook_spec k (ord l) (rindex s a)) as (m & U & M & N).
      + apply ord_nodup. specialize (H2 a k). now rewrite E in H2.
      + intros y Hy. apply (H1 a k y). unfold L. rewrite E. now apply ord_in.
      + cbn zeta. rewrite U. cbn [data del set_index set_rindex].
        assert (LL : forall a' f t, L (set_index (set_rindex s a m) a (updz (index (set_rindex s a m) a) k None)) a' f t <-> L s a' f t /\ ~ (a' = a /\ f = k)).
        { intros. unfold L. cbn [index set_index set_rindex]. unfold upd, updz. destruct (Nat.eqb_spec a' a) as [->|Na]; [|intuition].
          destruct (Z.eqb_spec f k) as [->|Nf]; [cbn [els In]; intuition|intuition]. }
        split; [|split; [reflexivity|split; [reflexivity|exact LL]]].
        split.
        * intros a' f t. rewrite LL. unfold RL. cbn [rindex set_index set_rindex]. unfold upd. destruct (Nat.eqb_spec a' a) as [->|Na].
          -- rewrite M. change (In f (els (rindex s a t))) with (RL s a f t). rewrite <- H1. rewrite ord_in.
             assert (K : L s a k t <-> In t l) by (unfold L; now rewrite E). rewrite <- K. split; intros [A B]; (split; [assumption|]); intros C; apply B; [tauto|]. destruct C as [_ ->]. tauto.
          -- change (In f (els (rindex s a' t))) with (RL s a' f t). rewrite <- H1. intuition.
        * intros a' f. cbn [index set_index set_rindex]. unfold upd, updz. destruct (Nat.eqb a' a) eqn:Ea; [|apply H2]. destruct (f =? k); [constructor|apply H2].
        * intros a' t. cbn [rindex set_index set_rindex]. unfold upd. destruct (Nat.eqb a' a); [apply N; intros; apply H3|apply H3].
    - cbn zeta. split; [now split|]. split; [reflexivity|split; [reflexivity|]]. intros a' f t. split; [|tauto]. intros H. split; [assumption|]. intros [-> ->]. unfold L in H. now rewrite E in H.
  Qed.
  Lemma rdelete_hook_spec : forall a k s, sym s -> let s' := rdelete_hook ord a k s in
    sym s' /\ data s' = data s /\ del s' = del s /\
    (forall a' f t, L s' a' f t <-> L s a' f t /\ ~ (a' = a /\ t = k)).
  Proof.
    intros a k s [H1 H2 H3]. unfold rdelete_hook. destruct (rindex s a k) as [l|] eqn:E.
    - destruct (unhook_spec k (ord l) (index s a)) as (m & U & M & N).
      + apply ord_nodup. specialize (H3 a k). now rewrite E in H3.
      + intros y Hy. apply (H1 a y k). unfold RL. rewrite E. now apply ord_in.
      + cbn zeta. rewrite U. cbn [data del set_index set_rindex].
        assert (LL : forall a' f t, L (set_rindex (set_index s a m) a (updz (rindex (set_index s a m) a) k None)) a' f t <-> L s a' f t /\ ~ (a' = a /\ t = k)).
        { intros. unfold L. cbn [index set_index set_rindex]. unfold upd. destruct (Nat.eqb_spec a' a) as [->|Na]; [|intuition].
          rewrite M. rewrite ord_in. assert (K : L s a f k <-> In f l) by (rewrite H1; unfold RL; now rewrite E). rewrite <- K.
          change (In t (els (index s a f))) with (L s a f t). split; intros [A B]; (split; [assumption|]); intros C; apply B; [destruct C as [_ ->]; tauto|]. tauto. }
        split; [|split; [reflexivity|split; [reflexivity|exact LL]]].
        split.
        * intros a' f t. rewrite LL. unfold RL. cbn [rindex set_index set_rindex]. unfold upd, updz. destruct (Nat.eqb_spec a' a) as [->|Na].
          -- destruct (Z.eqb_spec t k) as [->|Nt]; [cbn [els In]; intuition|].
             change (In f (els (rindex s a t))) with (RL s a f t). rewrite <- H1. intuition.
          -- change (In f (els (rindex s a' t))) with (RL s a' f t). rewrite <- H1. intuition.
        * intros a' f. cbn [index set_index set_rindex]. unfold upd. destruct (Nat.eqb a' a); [apply N; intros; apply H2|apply H2].
        * intros a' t. cbn [rindex set_index set_rindex]. unfold upd, updz. destruct (Nat.eqb a' a) eqn:Ea; [|apply H3]. destruct (t =? k); [constructor|apply H3].
    - cbn zeta. split; [now split|]. split; [reflexivity|split; [reflexivity|]]. intros a' f t. split; [|tauto]. intros H. split; [assumption|]. intros [-> ->]. apply H1 in H. unfold RL in H. now rewrite E in H.
  Qed.

  Lemma links_from_in : forall s a f t, In t (links_from ord s a f) <-> L s a f t.
  Proof. intros. unfold links_from, items, L. destruct (index s a f); cbn [els]; [apply ord_in|reflexivity]. Qed.
  Lemma links_to_in : forall s a f t, In f (links_to ord s a t) <-> RL s a f t.
  Proof. intros. unfold links_to, items, RL. destruct (rindex s a t); cbn [els]; [apply ord_in|reflexivity]. Qed.
  Lemma links_from_nodup : forall s a f, sym s -> NoDup (links_from ord s a f).
  Proof. intros s a f H. unfold links_from, items. pose proof (sym_nd s H a f) as K. destruct (index s a f); [now apply ord_nodup|constructor]. Qed.
  Lemma links_to_nodup : forall s a f, sym s -> NoDup (links_to ord s a f).
  Proof. intros s a f H. unfold links_to, items. pose proof (sym_rnd s H a f) as K. destruct (rindex s a f); [now apply ord_nodup|constructor]. Qed.

  Variable sc : schema.
  (** the folds of the hooks *)
  Lemma hooks_from : forall k l s, sym s ->
    let s' := fold_left (fun s (e : end_) => if snd e then s else delete_hook ord (fst e) k s) l s in
    sym s' /\ data s' = data s /\ del s' = del s /\
    (forall a f t, L s' a f t <-> L s a f t /\ ~ (In (a, false) l /\ f = k)).
  Proof.
    intros k. induction l as [|[a b] l IH]; intros s H; cbn zeta; cbn [fold_left].
    - split; [assumption|]. split; [reflexivity|]. split; [reflexivity|]. intros; cbn [In]; tauto.
    - destruct b; cbn [snd fst].
      + destruct (IH s H) as (A & B & C & D). split; [assumption|]. split; [assumption|]. split; [assumption|]. intros a' f t. rewrite D. cbn [In]. split.
        * intros [X Y]. split; [assumption|]. intros [[I|I] J]; [discriminate I|tauto].
        * intros [X Y]. split; [assumption|]. tauto.
      + destruct (delete_hook_spec a k s H) as (A1 & B1 & C1 & D1). destruct (IH _ A1) as (A & B & C & D).
        split; [assumption|]. split; [congruence|]. split; [congruence|]. intros a' f t. rewrite D, D1. cbn [In]. split.
        * intros [[X Y] W]. split; [assumption|]. intros [[I|I] J]; [injection I as ->; tauto|tauto].
        * intros [X Y]. split; [split; [assumption|]|]; intros [I J]; apply Y; [subst; split; [now left|reflexivity]|split; [now right|assumption]].
  Qed.
  Lemma hooks_to : forall k l s, sym s ->
    let s' := fold_left (fun s (e : end_) => if snd e then rdelete_hook ord (fst e) k s else s) l s in
    sym s' /\ data s' = data s /\ del s' = del s /\
    (forall a f t, L s' a f t <-> L s a f t /\ ~ (In (a, true) l /\ t = k)).
  Proof.
    intros k. induction l as [|[a b] l IH]; intros s H; cbn zeta; cbn [fold_left].
    - split; [assumption|]. split; [reflexivity|]. split; [reflexivity|]. intros; cbn [In]; tauto.
    - destruct b; cbn [snd fst].
      + destruct (rdelete_hook_spec a k s H) as (A1 & B1 & C1 & D1). destruct (IH _ A1) as (A & B & C & D).
        split; [assumption|]. split; [congruence|]. split; [congruence|]. intros a' f t. rewrite D, D1. cbn [In]. split.
        * intros [[X Y] W]. split; [assumption|]. intros [[I|I] J]; [injection I as ->; tauto|tauto].
        * intros [X Y]. split; [split; [assumption|]|]; intros [I J]; apply Y; [subst; split; [now left|reflexivity]|split; [now right|assumption]].
      + destruct (IH s H) as (A & B & C & D). split; [assumption|]. split; [assumption|]. split; [assumption|]. intros a' f t. rewrite D. cbn [In]. split.
        * intros [X Y]. split; [assumption|]. intros [[I|I] J]; [discriminate I|tauto].
        * intros [X Y]. split; [assumption|]. tauto.
  Qed.
  Definition touches (E : nat) (k : Z) (a : nat) (f t : Z) : Prop :=
    (In (a, false) (ends_of sc E) /\ f = k) \/ (In (a, true) (ends_of sc E) /\ t = k).
  Lemma delete_entity_spec : forall E k s, sym s ->
    exists s1 r, delete_entity ord sc E k s = (s1, r) /\ sym s1 /\ del s1 = del s /\
      (forall a f t, L s1 a f t <-> L s a f t /\ ~ touches E k a f t) /\
      data s1 = (if zmem k (data s E) then upd (data s) E (zremove k (data s E)) else data s) /\
      r = (if zmem k (data s E) then Ok tt else Err KeyError).
  Proof.
    intros E k s H. unfold delete_entity. destruct (hooks_from k (ends_of sc E) s H) as (A & B & C & D).
    set (s1 := fold_left _ (ends_of sc E) s) in *. destruct (hooks_to k (ends_of sc E) s1 A) as (A' & B' & C' & D').
    set (s2 := fold_left _ (ends_of sc E) s1) in *. cbn zeta. rewrite B', B.
    assert (LL : forall a f t, L s2 a f t <-> L s a f t /\ ~ touches E k a f t) by (intros; rewrite D', D; unfold touches; tauto).
    destruct (zmem k (data s E)).
    - eexists _, _. split; [reflexivity|]. cbn [data del set_data]. split; [destruct A'; split; assumption|]. split; [congruence|]. split; [|split; reflexivity]. exact LL.
    - eexists _, _. split; [reflexivity|]. split; [assumption|]. split; [congruence|]. split; [exact LL|]. split; [congruence|reflexivity].
  Qed.
End Ord.
