(** The cascade of a deletion: what it removes, and that it ends. *)
From Verif Require Import Py MemdsModel MemdsPrim MemdsSpec MemdsDel.
From Coq Require Import Permutation.

Lemma filter_le : forall (p q : Z -> bool) l, (length (filter q (filter p l)) <= length (filter q l))%nat.
Proof.
  intros p q. induction l as [|x l IH]; [apply Nat.le_refl|]. cbn [filter]. destruct (p x); cbn [filter]; destruct (q x); cbn [length]; lia.
Qed.
Lemma filter_le_imp : forall (p q : Z -> bool) l, (forall x, In x l -> q x = true -> p x = true) -> (length (filter q l) <= length (filter p l))%nat.
Proof.
  intros p q. induction l as [|x l IH]; intros H; [apply Nat.le_refl|]. cbn [filter].
  assert (IH' : (length (filter q l) <= length (filter p l))%nat) by (apply IH; intros; apply H; [now right|assumption]).
  destruct (q x) eqn:Q; [rewrite (H x (or_introl eq_refl) Q); cbn [length]; lia|]. destruct (p x); cbn [length]; lia.
Qed.
Lemma filter_lt_imp : forall (p q : Z -> bool) l k, In k l -> p k = true -> q k = false ->
  (forall x, In x l -> q x = true -> p x = true) -> (length (filter q l) < length (filter p l))%nat.
Proof.
  intros p q. induction l as [|x l IH]; intros k I P Q H; [destruct I|]. cbn [filter]. destruct I as [->|I].
  - rewrite P, Q. cbn [length]. assert ((length (filter q l) <= length (filter p l))%nat); [|lia]. apply filter_le_imp. intros; apply H; [now right|assumption].
  - assert (IH' : (length (filter q l) < length (filter p l))%nat) by (eapply IH; eauto; intros; apply H; [now right|assumption]).
    destruct (q x) eqn:Qx; [rewrite (H x (or_introl eq_refl) Qx); cbn [length]; lia|]. destruct (p x); cbn [length]; lia.
Qed.
Lemma sum_le : forall (f g : nat -> nat) l, (forall x, In x l -> (f x <= g x)%nat) -> (list_sum (map f l) <= list_sum (map g l))%nat.
Proof. intros f g. induction l as [|x l IH]; intros H; [apply Nat.le_refl|]. cbn [map list_sum fold_right]. pose proof (H x (or_introl eq_refl)). assert ((list_sum (map f l) <= list_sum (map g l))%nat) by (apply IH; intros; apply H; now right). unfold list_sum in *. lia. Qed.
Lemma sum_lt : forall (f g : nat -> nat) l e, In e l -> (f e < g e)%nat -> (forall x, In x l -> (f x <= g x)%nat) -> (list_sum (map f l) < list_sum (map g l))%nat.
Proof.
  intros f g. induction l as [|x l IH]; intros e I K H; [destruct I|]. pose proof (H x (or_introl eq_refl)) as Hx.
  assert (M : (list_sum (map f l) <= list_sum (map g l))%nat) by (apply sum_le; intros; apply H; now right).
  destruct I as [->|I]; [unfold list_sum in *; cbn [map fold_right]; lia|].
  assert (IH' : (list_sum (map f l) < list_sum (map g l))%nat) by (eapply IH; eauto; intros; apply H; now right). unfold list_sum in *. cbn [map fold_right]. lia.
Qed.

Section Ord.
  Variable ord : list Z -> list Z.
  Hypothesis Hord : forall l, Permutation (ord l) l.
  Variable sc : schema.
  Hypothesis W : wf_schema sc.
  Notation shr := (shr sc).

  (** ** It ends *)
  Lemma size_shr : forall s s', sym s -> shr s s' -> (size sc s' <= size sc s)%nat.
  Proof.
    intros s s' Hs H. destruct (H Hs) as [_ D X _ _]. unfold size. apply sum_le. intros E _. destruct (X E) as [p ->]. rewrite D. apply filter_le.
  Qed.
  Lemma size_mark : forall E k s, (E < nsets sc)%nat -> In k (data s E) -> ~ In k (del s E) -> (size sc (mark E k s) < size sc s)%nat.
  Proof.
    intros E k s HE Hk Hd. unfold size. apply (sum_lt _ _ _ E).
    - apply in_seq. lia.
    - cbn [mark data del set_del]. rewrite upd_eq. apply (filter_lt_imp _ _ _ k); [assumption| | |].
      + apply negb_true_iff. now apply zmem_nin.
      + apply negb_false_iff. apply zmem_in. now left.
      + intros x _ H. apply negb_true_iff in H. apply negb_true_iff. apply zmem_nin in H. apply zmem_nin. intros K. apply H. now right.
    - intros x _. cbn [mark data del set_del]. unfold upd. destruct (Nat.eqb_spec x E) as [->|N]; [|apply Nat.le_refl].
      apply filter_le_imp. intros y _ H. apply negb_true_iff in H. apply negb_true_iff. apply zmem_nin in H. apply zmem_nin. intros K. apply H. now right.
  Qed.
  Lemma each_link_nt : forall dl nav forward a target k n, (forall E x s s' r, dl E x s = (s', r) -> shr s s') ->
    (forall E x s s' r, sym s -> (size sc s < n)%nat -> (E < nsets sc)%nat -> dl E x s = (s', r) -> r <> Err Timeout) -> (target < nsets sc)%nat ->
    forall keys s s' r, sym s -> (size sc s < n)%nat -> each_link dl nav forward a target k keys s = (s', r) -> r <> Err Timeout.
  Proof.
    intros dl nav forward a target k n Hdl Hnt Ht. induction keys as [|x keys IH]; intros s s' r Hs Hn H; cbn [each_link] in H.
    - injection H as <- <-. discriminate.
    - destruct (negb nav && _); [injection H as <- <-; discriminate|]. cbn zeta in H.
      set (s1 := if forward then _ else _) in H. assert (R1 : shr s s1) by (unfold s1; destruct forward; apply shr_remove).
      pose proof (size_shr _ _ Hs R1) as Z1. pose proof (shr_sym _ _ _ (R1 Hs)) as Hs1.
      destruct (dl target x s1) as [s2 r2] eqn:D. pose proof (Hdl _ _ _ _ _ D) as R2.
      assert (N2 : r2 <> Err Timeout) by (eapply Hnt; [exact Hs1| |exact Ht|exact D]; lia).
      pose proof (size_shr _ _ Hs1 R2) as Z2. pose proof (shr_sym _ _ _ (R2 Hs1)) as Hs2.
      destruct r2 as [u|err]; [|injection H as <- <-; exact N2]. eapply IH; [exact Hs2| |exact H]. lia.
  Qed.
  Lemma each_end_nt : forall dl E k n, (forall E x s s' r, dl E x s = (s', r) -> shr s s') ->
    (forall E x s s' r, sym s -> (size sc s < n)%nat -> (E < nsets sc)%nat -> dl E x s = (s', r) -> r <> Err Timeout) ->
    forall l s s' r, sym s -> (size sc s < n)%nat -> each_end ord sc dl E k l s = (s', r) -> r <> Err Timeout.
  Proof.
    intros dl E k n Hdl Hnt. induction l as [|[a b] l IH]; intros s s' r Hs Hn H; cbn [each_end] in H.
    - injection H as <- <-. discriminate.
    - destruct (assocs sc a) as [A|] eqn:HA; [|eapply IH; eauto]. destruct (negb _); [eapply IH; eauto|]. cbn zeta in H.
      destruct (each_link _ _ _ _ _ _ _ s) as [s1 r1] eqn:D.
      pose proof (each_link_shr _ _ _ _ _ _ _ Hdl _ _ _ _ D) as R1.
      assert (N1 : r1 <> Err Timeout). { eapply each_link_nt; [exact Hdl|exact Hnt| |exact Hs|exact Hn|exact D]. destruct (W a A HA) as (_ & _ & W3 & W4). destruct (Nat.eqb _ _); assumption. }
      pose proof (size_shr _ _ Hs R1) as Z1. pose proof (shr_sym _ _ _ (R1 Hs)) as Hs1.
      destruct r1 as [u|err]; [|injection H as <- <-; exact N1]. eapply IH; [exact Hs1| |exact H]. lia.
  Qed.
  Lemma delitem_nt : forall fuel E k s s' r, sym s -> (size sc s < fuel)%nat -> (E < nsets sc)%nat -> delitem ord sc fuel E k s = (s', r) -> r <> Err Timeout.
  Proof.
    induction fuel as [|fuel IH]; intros E k s s' r Hs Hn HE H; [lia|].
    destruct (delitem_inv ord sc _ _ _ _ _ _ H) as [(A & -> & ->)|[(A & B & -> & ->)|(A & B & s1 & r1 & s2 & D1 & D2 & ->)]]; [discriminate|discriminate|].
    assert (N1 : r1 <> Err Timeout).
    { eapply (each_end_nt _ E k fuel); [apply (delitem_shr ord Hord)| |apply (mark_sym E k s Hs)| |exact D1].
      - intros; eapply IH; eauto.
      - pose proof (size_mark E k s HE B A). lia. }
    destruct r1 as [u|err]; [|destruct D2 as [_ ->]; exact N1].
    pose proof (each_end_shr ord sc _ E k (delitem_shr ord Hord sc fuel) _ _ _ _ D1 (mark_sym E k s Hs)) as R1.
    destruct (delete_entity_spec ord Hord sc E k s1 (shr_sym _ _ _ R1)) as (s3 & r3 & Q & _ & _ & _ & _ & F). rewrite Q in D2. injection D2 as <- <-. rewrite F. destruct (zmem _ _); discriminate.
  Qed.

  (** ** Links seen from an end *)
  Definition Lk (s : st) (n : end_) (k x : Z) : Prop := if snd n then L s (fst n) x k else L s (fst n) k x.
  Lemma lookup_in : forall s n k x, sym s -> (In x (lookup ord s n k) <-> Lk s n k x).
  Proof. intros s n k x H. unfold lookup, Lk. destruct (snd n); [rewrite (links_to_in ord Hord); symmetry; apply H|apply (links_from_in ord Hord)]. Qed.
  Lemma rlookup_in : forall s n k x, sym s -> (In k (rlookup ord s n x) <-> Lk s n k x).
  Proof. intros s n k x H. unfold rlookup, Lk. destruct (snd n); [apply (links_from_in ord Hord)|rewrite (links_to_in ord Hord); symmetry; apply H]. Qed.
  Lemma lk_mono : forall s s', (forall a f t, L s' a f t -> L s a f t) -> forall n k x, Lk s' n k x -> Lk s n k x.
  Proof. intros s s' H n k x. unfold Lk. destruct (snd n); apply H. Qed.
  Lemma depends_mono : forall s s' E k, sym s -> sym s' -> (forall a f t, L s' a f t -> L s a f t) ->
    forall E' k', depends ord sc s' E k E' k' -> depends ord sc s E k E' k'.
  Proof.
    intros s s' E k Hs Hs' H E' k' D. induction D as [|n A y x D IH HA M K]; [constructor|]. eapply dep_link; eauto.
    unfold linked in *. apply (lookup_in s n y x Hs). apply (lookup_in s' n y x Hs') in K. eapply lk_mono; eauto.
  Qed.
  Lemma depends_trans : forall s E k E' k' E'' k'', depends ord sc s E k E' k' -> depends ord sc s E' k' E'' k'' -> depends ord sc s E k E'' k''.
  Proof. intros s E k E' k' E'' k'' D1 D2. induction D2 as [|n A y x D2 IH HA M K]; [assumption|]. eapply dep_link; eauto. Qed.

  Section NoLoop.
    Hypothesis NL : no_bad_loop sc.
    Lemma forward_ok : forall a A b, assocs sc a = Some A -> mult_of A b = One -> Nat.eqb (a_from A) (set_of A b) = negb b.
    Proof.
      intros a A b HA M. destruct b; cbn [set_of negb mult_of] in *; [|apply Nat.eqb_refl]. apply Nat.eqb_neq. intros E. exact (NL a A HA E M).
    Qed.
    (** ** Only entities that depend on the deleted one are removed *)
    Definition removed (s s' : st) (E : nat) (k : Z) : Prop := In k (data s E) /\ ~ In k (data s' E).
    Lemma removed_split : forall s s1 s' E k, removed s s' E k -> removed s s1 E k \/ removed s1 s' E k.
    Proof. intros s s1 s' E k [A B]. unfold removed. destruct (in_dec Z.eq_dec k (data s1 E)); tauto. Qed.
    Lemma each_link_dep : forall dl nav forward a target k, (forall E x s s' r, dl E x s = (s', r) -> shr s s') ->
      (forall E x s s' r, sym s -> dl E x s = (s', r) -> forall E' y, removed s s' E' y -> depends ord sc s E x E' y) ->
      forall keys s s' r, sym s -> each_link dl nav forward a target k keys s = (s', r) ->
      forall E' y, removed s s' E' y -> exists x, In x keys /\ depends ord sc s target x E' y.
    Proof.
      intros dl nav forward a target k Hdl Hd. induction keys as [|x keys IH]; intros s s' r Hs H E' y R; cbn [each_link] in H.
      - injection H as <- <-. destruct R; contradiction.
      - destruct (negb nav && _); [injection H as <- <-; destruct R; contradiction|]. cbn zeta in H.
        set (s1 := if forward then _ else _) in H. assert (R1 : shr s s1) by (unfold s1; destruct forward; apply shr_remove).
        assert (DE : data s1 = data s) by (unfold s1; destruct forward; reflexivity).
        specialize (R1 Hs). pose proof (shr_sym _ _ _ R1) as Hs1. destruct (dl target x s1) as [s2 r2] eqn:D. pose proof (Hdl _ _ _ _ _ D Hs1) as R2.
        assert (K1 : removed s s2 E' y -> exists x0, In x0 (x :: keys) /\ depends ord sc s target x0 E' y).
        { intros K. exists x. split; [now left|]. apply (depends_mono s s1); auto; [apply R1|]. eapply Hd; [exact Hs1|exact D|]. unfold removed in *. now rewrite DE. }
        destruct r2 as [u|err]; [|injection H as <- <-; auto].
        destruct (removed_split s s2 s' E' y R) as [K|K]; [auto|].
        destruct (IH s2 s' r (shr_sym _ _ _ R2) H E' y K) as (x0 & I0 & D0). exists x0. split; [now right|].
        apply (depends_mono s s2); auto; [apply R2|]. intros a0 f t Q. apply R1. now apply R2.
    Qed.
    Lemma each_end_dep : forall dl E k, (forall E x s s' r, dl E x s = (s', r) -> shr s s') ->
      (forall E x s s' r, sym s -> dl E x s = (s', r) -> forall E' y, removed s s' E' y -> depends ord sc s E x E' y) ->
      forall l s s' r, (forall e, In e l -> In e (ends_of sc E)) -> sym s -> each_end ord sc dl E k l s = (s', r) ->
      forall E' y, removed s s' E' y -> depends ord sc s E k E' y.
    Proof.
      intros dl E k Hdl Hd. induction l as [|[a b] l IH]; intros s s' r Hl Hs H E' y R; cbn [each_end] in H.
      - injection H as <- <-. destruct R; contradiction.
      - assert (Hl' : forall e, In e l -> In e (ends_of sc E)) by (intros; apply Hl; now right).
        destruct (assocs sc a) as [A|] eqn:HA; [|eapply IH; eauto]. destruct (is_one (mult_of A b)) eqn:M1; cbn [negb] in H; [|eapply IH; eauto]. cbn zeta in H.
        assert (M : mult_of A b = One) by (destruct (mult_of A b); [discriminate|reflexivity|discriminate]).
        destruct (ends_of_inv sc a b E (Hl _ (or_introl eq_refl))) as (A' & HA' & HE). rewrite HA in HA'. injection HA' as <-.
        pose proof (forward_ok a A b HA M) as FW. rewrite HE in FW. rewrite FW in H.
        destruct (each_link _ _ _ _ _ _ _ s) as [s1 r1] eqn:D. pose proof (each_link_shr _ _ _ _ _ _ _ Hdl _ _ _ _ D Hs) as R1.
        assert (K1 : removed s s1 E' y -> depends ord sc s E k E' y).
        { intros K. destruct (each_link_dep _ _ _ _ _ _ Hdl Hd _ _ _ _ Hs D E' y K) as (x & Ix & Dx). eapply depends_trans; [|exact Dx].
          replace (if negb b then a_to A else a_from A) with (set_of A (negb (snd (a, b)))) by (destruct b; reflexivity).
          apply (dep_link ord sc s E k (a, b) A k x); [cbn [snd]; rewrite HE; constructor|exact HA|exact M|]. unfold linked, lookup. cbn [fst snd]. destruct b; exact Ix. }
        destruct r1 as [u|err]; [|injection H as <- <-; auto]. destruct (removed_split s s1 s' E' y R) as [K|K]; [auto|].
        apply (depends_mono s s1); auto; [apply R1|apply R1|]. eapply IH; [exact Hl'|apply R1|exact H|exact K].
    Qed.
    Lemma delitem_dep : forall fuel E k s s' r, sym s -> delitem ord sc fuel E k s = (s', r) ->
      forall E' y, removed s s' E' y -> depends ord sc s E k E' y.
    Proof.
      induction fuel as [|fuel IH]; intros E k s s' r Hs H E' y R; [cbn [delitem] in H; injection H as <- <-; destruct R; contradiction|].
      destruct (delitem_inv ord sc _ _ _ _ _ _ H) as [(A & -> & ->)|[(A & B & -> & ->)|(A & B & s1 & r1 & s2 & D1 & D2 & ->)]]; [destruct R; contradiction|destruct R; contradiction|].
      pose proof (mark_sym E k s Hs) as Hm.
      pose proof (each_end_shr ord sc _ E k (delitem_shr ord Hord sc fuel) _ _ _ _ D1 Hm) as R1.
      assert (R' : removed (mark E k s) s2 E' y) by exact R.
      assert (K1 : removed (mark E k s) s1 E' y -> depends ord sc s E k E' y).
      { intros K. apply (depends_mono s (mark E k s)); auto. eapply each_end_dep; [apply (delitem_shr ord Hord)|exact IH| |exact Hm|exact D1|exact K]. auto. }
      destruct (removed_split _ s1 _ _ _ R') as [K|K]; [auto|]. destruct r1 as [u|err]; [|destruct D2 as [-> _]; destruct K; contradiction].
      destruct (delete_entity_spec ord Hord sc E k s1 (shr_sym _ _ _ R1)) as (s3 & r3 & Q & _ & _ & _ & DD & F). rewrite Q in D2. injection D2 as <- <-.
      destruct K as [K1' K2]. rewrite DD in K2. destruct (zmem k (data s1 E)); [|contradiction]. unfold upd in K2. destruct (Nat.eqb_spec E' E) as [->|NE]; [|contradiction].
      rewrite zremove_in in K2. destruct (Z.eq_dec y k) as [->|Ny]; [constructor|tauto].
    Qed.

    (** ** A deletion that succeeds leaves no dependent entity *)
    Definition ex (s : st) (E : nat) (x : Z) : Prop := ~ In x (data s E) \/ In x (del s E).
    Definition lostok (A : assoc) (s' : st) (f t : Z) : Prop :=
      (a_mfrom A = One -> ex s' (a_to A) t) /\ (a_mto A = One -> ex s' (a_from A) f) /\ (ex s' (a_from A) f \/ ex s' (a_to A) t).
    Definition casc (s s' : st) : Prop := forall a A f t, assocs sc a = Some A -> L s a f t -> ~ L s' a f t -> lostok A s' f t.
    Lemma ex_mono : forall s s' E x, shr_ sc s s' -> ex s E x -> ex s' E x.
    Proof. intros s s' E x H [N|N]; [left|right]; [intros K; apply N; eapply fsub_in; [apply H|exact K]|now rewrite (shr_del _ _ _ H)]. Qed.
    Lemma lostok_mono : forall A s s' f t, shr_ sc s s' -> lostok A s f t -> lostok A s' f t.
    Proof. intros A s s' f t H (X & Y & V). unfold lostok. assert (M := fun E x => ex_mono s s' E x H). intuition. Qed.
    Lemma L_dec : forall s a f t, L s a f t \/ ~ L s a f t.
    Proof. intros. unfold L. destruct (in_dec Z.eq_dec t (els (index s a f))); tauto. Qed.
    Lemma casc_trans : forall s s1 s', shr_ sc s1 s' -> casc s s1 -> casc s1 s' -> casc s s'.
    Proof.
      intros s s1 s' H C1 C2 a A f t HA K N. destruct (L_dec s1 a f t) as [Y|Y]; [now apply (C2 a)|]. apply (lostok_mono A s1); [assumption|]. now apply (C1 a).
    Qed.
    Lemma casc_refl : forall s, casc s s.
    Proof. intros s a A f t HA K N. contradiction. Qed.
    Lemma touches_dec : forall E k a A f t, assocs sc a = Some A -> touches sc E k a f t \/ ~ touches sc E k a f t.
    Proof.
      intros E k a A f t HA. rewrite (touches_iff sc E k a A f t W HA).
      destruct (Nat.eq_dec (a_from A) E), (Nat.eq_dec (a_to A) E), (Z.eq_dec f k), (Z.eq_dec t k); tauto.
    Qed.
    Definition dlspec (dl : nat -> Z -> st -> st * res unit) : Prop :=
      forall E x s s', sym s -> dl E x s = (s', Ok tt) -> casc s s' /\ ex s' E x.
    Lemma each_link_casc : forall dl nav b a A E k, (forall E x s s' r, dl E x s = (s', r) -> shr s s') -> dlspec dl ->
      assocs sc a = Some A -> set_of A b = E ->
      forall keys s s', sym s -> In k (del s E) -> each_link dl nav (negb b) a (set_of A (negb b)) k keys s = (s', Ok tt) ->
      casc s s' /\ forall x, In x keys -> ~ Lk s' (a, b) k x.
    Proof.
      intros dl nav b a A E k Hdl Hd HA HE. induction keys as [|x keys IH]; intros s s' Hs Hk H; cbn [each_link] in H.
      - injection H as <-. split; [apply casc_refl|]. intros x [].
      - destruct (negb nav && _); [discriminate|]. cbn zeta in H.
        set (s1 := if negb b then _ else _) in H. assert (R1 : shr s s1) by (unfold s1; destruct b; apply shr_remove). specialize (R1 Hs).
        destruct (dl (set_of A (negb b)) x s1) as [s2 r2] eqn:D. destruct r2 as [[]|err]; [|discriminate].
        pose proof (Hdl _ _ _ _ _ D (shr_sym _ _ _ R1)) as R2. destruct (Hd _ _ _ _ (shr_sym _ _ _ R1) D) as [C2 X2].
        assert (Hk2 : In k (del s2 E)) by (rewrite (shr_del _ _ _ R2), (shr_del _ _ _ R1); assumption).
        destruct (IH s2 s' (shr_sym _ _ _ R2) Hk2 H) as [C3 X3]. pose proof (each_link_shr _ _ _ _ _ _ _ Hdl _ _ _ _ H (shr_sym _ _ _ R2)) as R3.
        assert (NX : ~ Lk s1 (a, b) k x) by (unfold s1, Lk; cbn [fst snd]; destruct b; cbn [negb]; rewrite remove_link_L; tauto).
        split.
        + apply (casc_trans s s2); auto. intros a' A' f t HA' K N. destruct (L_dec s1 a' f t) as [Y|Y]; [now apply (C2 a')|].
          assert (Q : a' = a /\ (if b then f = x /\ t = k else f = k /\ t = x)).
          { unfold s1 in Y. destruct b; cbn [negb] in Y; rewrite remove_link_L in Y;
            [destruct (Nat.eq_dec a' a), (Z.eq_dec f x), (Z.eq_dec t k)|destruct (Nat.eq_dec a' a), (Z.eq_dec f k), (Z.eq_dec t x)]; subst; tauto. }
          destruct Q as [-> Q]. rewrite HA in HA'. injection HA' as <-.
          assert (Ek : ex s2 E k) by now right. unfold lostok. destruct b; cbn [set_of negb] in *; destruct Q as [-> ->]; rewrite HE; tauto.
        + intros y [->|Iy]; [|now apply X3]. intros K. apply NX. apply (lk_mono s1 s'); [|assumption]. intros a0 f t Q. apply R2. now apply R3.
    Qed.
    Lemma each_end_casc : forall dl E k, (forall E x s s' r, dl E x s = (s', r) -> shr s s') -> dlspec dl ->
      forall l s s', (forall e, In e l -> In e (ends_of sc E)) -> sym s -> In k (del s E) -> each_end ord sc dl E k l s = (s', Ok tt) ->
      casc s s' /\ forall n A x, In n l -> assocs sc (fst n) = Some A -> mult_of A (snd n) = One -> ~ Lk s' n k x.
    Proof.
      intros dl E k Hdl Hd. induction l as [|[a b] l IH]; intros s s' Hl Hs Hk H; cbn [each_end] in H.
      - injection H as <-. split; [apply casc_refl|]. intros n A x [].
      - assert (Hl' : forall e, In e l -> In e (ends_of sc E)) by (intros; apply Hl; now right).
        destruct (ends_of_inv sc a b E (Hl _ (or_introl eq_refl))) as (A & HA & HE). rewrite HA in H.
        destruct (is_one (mult_of A b)) eqn:M1; cbn [negb] in H.
        + assert (M : mult_of A b = One) by (destruct (mult_of A b); [discriminate|reflexivity|discriminate]).
          pose proof (forward_ok a A b HA M) as FW. rewrite HE in FW. cbn zeta in H. rewrite FW in H.
          replace (if negb b then a_to A else a_from A) with (set_of A (negb b)) in H by (destruct b; reflexivity).
          destruct (each_link _ _ _ _ _ _ _ s) as [s1 r1] eqn:D. destruct r1 as [[]|err]; [|discriminate].
          destruct (each_link_casc _ _ _ _ _ E _ Hdl Hd HA HE _ _ _ Hs Hk D) as [C1 X1]. pose proof (each_link_shr _ _ _ _ _ _ _ Hdl _ _ _ _ D Hs) as R1.
          assert (Hk1 : In k (del s1 E)) by (rewrite (shr_del _ _ _ R1); assumption).
          destruct (IH s1 s' Hl' (shr_sym _ _ _ R1) Hk1 H) as [C2 X2]. pose proof (each_end_shr ord sc _ E k Hdl _ _ _ _ H (shr_sym _ _ _ R1)) as R2.
          split; [now apply (casc_trans s s1)|]. intros n A' x [<-|I] HA' M' K; [|eapply X2; eauto].
          cbn [fst snd] in *. assert (K1 : Lk s1 (a, b) k x) by (apply (lk_mono s1 s'); [apply R2|assumption]). apply (X1 x); [|assumption].
          assert (K0 : Lk s (a, b) k x) by (apply (lk_mono s s1); [apply R1|assumption]). apply (lookup_in s (a, b) k x Hs) in K0. unfold lookup in K0. cbn [fst snd] in K0. destruct b; exact K0.
        + destruct (IH s s' Hl' Hs Hk H) as [C X]. split; [assumption|]. intros n A' x [<-|I] HA' M'; [|eapply X; eauto]. cbn [fst snd] in *. rewrite HA in HA'. injection HA' as <-. rewrite M' in M1. discriminate.
    Qed.
    Lemma delitem_casc : forall fuel, dlspec (delitem ord sc fuel).
    Proof.
      induction fuel as [|fuel IH]; intros E k s s' Hs H; [discriminate|].
      destruct (delitem_inv ord sc _ _ _ _ _ _ H) as [(A & -> & _)|[(A & B & -> & Q)|(A & B & s1 & r1 & s2 & D1 & D2 & ->)]]; [split; [apply casc_refl|now right]|discriminate|].
      destruct r1 as [[]|err]; [|destruct D2; discriminate]. pose proof (mark_sym E k s Hs) as Hm.
      assert (Hk : In k (del (mark E k s) E)) by (cbn [mark set_del del]; rewrite upd_eq; now left).
      destruct (each_end_casc _ E k (delitem_shr ord Hord sc fuel) IH _ _ _ (fun _ h => h) Hm Hk D1) as [C1 X1].
      pose proof (each_end_shr ord sc _ E k (delitem_shr ord Hord sc fuel) _ _ _ _ D1 Hm) as R1.
      destruct (delete_entity_spec ord Hord sc E k s1 (shr_sym _ _ _ R1)) as (s3 & r3 & Q & S3 & D3 & L3 & DD & F). rewrite Q in D2. injection D2 as <- F'. rewrite F' in F.
      destruct (zmem k (data s1 E)); [|discriminate].
      pose proof (shr_delete ord Hord sc _ _ _ _ _ Q (shr_sym _ _ _ R1)) as R3.
      assert (NK : ~ In k (data s3 E)) by (rewrite DD, upd_eq, zremove_in; tauto).
      assert (C3 : casc s1 s3).
      { intros a A' f t HA K N. rewrite L3 in N. assert (T : touches sc E k a f t) by (destruct (touches_dec E k a A' f t HA); tauto).
        apply (touches_iff sc E k a A' f t W HA) in T. assert (Ek : ex s3 E k) by now left. destruct T as [[HE ->]|[HE ->]].
        - assert (NM : a_mfrom A' <> One). { intros M. apply (X1 (a, false) A' t); [rewrite <- HE; apply (ends_of_in sc a A' false W HA)|exact HA|exact M|exact K]. }
          unfold lostok. rewrite HE. tauto.
        - assert (NM : a_mto A' <> One). { intros M. apply (X1 (a, true) A' f); [rewrite <- HE; apply (ends_of_in sc a A' true W HA)|exact HA|exact M|exact K]. }
          unfold lostok. rewrite HE. tauto. }
      assert (EX : forall E' x, ex s3 E' x -> ex (unmark E k s3) E' x).
      { intros E' x [N|N]; [now left|]. unfold ex, unmark, set_del, upd. cbn [data del]. destruct (Nat.eqb_spec E' E) as [->|NE]; [|now right].
        destruct (Z.eq_dec x k) as [->|Nx]; [now left|right]. rewrite zremove_in. tauto. }
      split; [|apply EX; now left].
      intros a A' f t HA K N. assert (LO : lostok A' s3 f t). { apply (casc_trans (mark E k s) s1 s3 R3 C1 C3 a A' f t HA); assumption. }
      destruct LO as (X & Y & V). unfold lostok. intuition.
    Qed.
  End NoLoop.
End Ord.
