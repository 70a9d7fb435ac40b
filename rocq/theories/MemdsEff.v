(** What each operation does when it succeeds. *)
From Verif Require Import Py MemdsModel MemdsPrim MemdsSpec MemdsDel MemdsCasc MemdsIns MemdsInv.
From Coq Require Import Permutation.

Section Ord.
  Variable ord : list Z -> list Z.
  Hypothesis Hord : forall l, Permutation (ord l) l.
  Variable sc : schema.

  (** ** The keys after an insertion *)
  Definition inskeys (e : ent) : Prop := forall E ign s s', insert ord sc E ign e s = (s', Ok tt) ->
    ~ In (ent_key e) (data s E) /\ forall E' y, In y (data s' E') <-> In y (data s E') \/ creates sc E e E' y.
  Lemma put_data : forall A n k x s s' r, put ord A n k x s = (s', r) -> data s' = data s.
  Proof.
    intros A n k x s s' r H. unfold put in H. destruct (is_many _); [|eapply replace_data; exact H].
    destruct (nav_set_cases ord _ _ _ _ _ _ _ H) as [[-> _]|(-> & _)]; [reflexivity|apply link_data].
  Qed.
  Lemma set_data_eq : forall A n k x s s' r, nav_set ord A n k x s = (s', r) -> data s' = data s.
  Proof. intros A n k x s s' r H. destruct (nav_set_cases ord _ _ _ _ _ _ _ H) as [[-> _]|(-> & _)]; [reflexivity|apply link_data]. Qed.
  Lemma each_binding_keys : forall A n k b, (forall e, In (BNew e) b -> inskeys e) ->
    forall s s', each_binding ord (insert ord sc) A n k b s = (s', Ok tt) ->
    forall E' y, In y (data s' E') <-> In y (data s E') \/ exists e, In (BNew e) b /\ creates sc (set_of A (negb (snd n))) e E' y.
  Proof.
    intros A n k b. induction b as [|x b IH]; intros Hi s s' H E' y; cbn [each_binding] in H.
    - injection H as <-. split; [now left|]. intros [K|(e & [] & _)]. exact K.
    - cbn zeta in H. match type of H with (let (_, _) := ?M in _) = _ => destruct M as [s1 r1] eqn:D end. destruct r1 as [[]|err]; [|discriminate].
      rewrite (IH (fun e I => Hi e (or_intror I)) s1 s' H E' y).
      assert (S1 : In y (data s1 E') <-> In y (data s E') \/ exists e, x = BNew e /\ creates sc (set_of A (negb (snd n))) e E' y).
      { destruct x as [x|x|e].
        - destruct (zmem x _); [|discriminate]. rewrite (put_data _ _ _ _ _ _ _ D). split; [now left|]. intros [K|(e & Q & _)]; [exact K|discriminate].
        - rewrite (put_data _ _ _ _ _ _ _ D). split; [now left|]. intros [K|(e & Q & _)]; [exact K|discriminate].
        - destruct (insert ord sc _ _ e s) as [s2 r2] eqn:D2. destruct r2 as [[]|err]; [|discriminate]. rewrite (set_data_eq _ _ _ _ _ _ _ D).
          destruct (Hi e (or_introl eq_refl) _ _ _ _ D2) as [_ K]. rewrite K. split; [intros [P|P]; [now left|right; now exists e]|]. intros [P|(e' & Q & P)]; [now left|]. injection Q as <-. now right. }
      rewrite S1. cbn [In]. split.
      + intros [[P|(e & -> & P)]|(e & I & P)]; [now left|right; exists e; auto|right; exists e; auto].
      + intros [P|(e & [->|I] & P)]; [left; now left|left; right; now exists e|right; exists e; auto].
  Qed.
  Lemma each_nav_keys : forall E k bs, (forall n b e, In (n, b) bs -> In (BNew e) b -> inskeys e) ->
    forall s s', each_nav ord sc (insert ord sc) E k bs s = (s', Ok tt) ->
    forall E' y, In y (data s' E') <-> In y (data s E') \/ creates_bound sc bs E' y.
  Proof.
    intros E k. induction bs as [|[n b] bs IH]; intros Hi s s' H E' y; cbn [each_nav] in H.
    - injection H as <-. split; [now left|]. intros [K|(n & b & e & A & [] & _)]. exact K.
    - destruct (nav_of sc E n) as [A|] eqn:HN; [|discriminate]. destruct (nav_of_some _ _ _ _ HN) as (HA & _).
      destruct (each_binding _ _ _ _ _ b s) as [s1 r1] eqn:D. destruct r1 as [[]|err]; [|discriminate].
      rewrite (IH (fun n' b' e I => Hi n' b' e (or_intror I)) s1 s' H E' y), (each_binding_keys A n k b (fun e I => Hi n b e (or_introl eq_refl) I) s s1 D E' y).
      unfold creates_bound. cbn [In]. split.
      + intros [[P|(e & I & P)]|(n' & b' & e & A' & I & R)]; [now left|right; exists n, b, e, A; auto|right; exists n', b', e, A'; tauto].
      + intros [P|(n' & b' & e & A' & [I|I] & J & HA' & P)]; [tauto| |right; exists n', b', e, A'; auto]. injection I as <- <-. assert (A' = A) by congruence. subst. left. right. exists e. auto.
  Qed.
  Lemma insert_keys : forall e, inskeys e.
  Proof.
    apply ent_rec. intros k bs IH E ign s s' H. cbn [insert] in H. destruct (negb _); [discriminate|].
    destruct (zmem k (data s E)) eqn:Z1; [discriminate|]. apply zmem_nin in Z1. fold (add E k s) in H. split; [exact Z1|].
    intros E' y. rewrite (each_nav_keys E k bs IH _ _ H E' y).
    assert (S1 : In y (data (add E k s) E') <-> In y (data s E') \/ (E' = E /\ y = k)).
    { cbn [add set_data data]. unfold upd. destruct (Nat.eqb_spec E' E) as [->|N]; [rewrite in_app_iff; cbn [In]; intuition|intuition]. }
    rewrite S1. split.
    - intros [[P|[-> ->]]|(n & b & e & A & I & J & HA & P)]; [now left|right; constructor|right; eapply cr_new; eauto].
    - intros [P|P]; [tauto|]. inversion P; subst; cbn [ent_key]; [tauto|]. right. exists n, b, e', A. auto.
  Qed.

  (** ** Links among others than the entity in hand *)
  Section Others.
    Variable D : nat -> Z -> Prop.
    Definition keep (s s' : st) : Prop := forall a A f t, assocs sc a = Some A -> D (a_from A) f -> D (a_to A) t -> (L s' a f t <-> L s a f t).
    Lemma keep_refl : forall s, keep s s.
    Proof. intros s a A f t _ _ _. reflexivity. Qed.
    Lemma keep_trans : forall a b c, keep a b -> keep b c -> keep a c.
    Proof. intros a b c H1 H2 x A f t HA Hf Ht. rewrite (H2 x A f t HA Hf Ht). eapply H1; eauto. Qed.
    Lemma same_not : forall n A k x a f t A', assocs sc (fst n) = Some A -> assocs sc a = Some A' -> ~ D (set_of A (snd n)) k -> D (a_from A') f -> D (a_to A') t -> ~ same n k x a f t.
    Proof. intros n A k x a f t A' HA HA' N Hf Ht [-> S]. assert (A' = A) by congruence. subst. destruct (snd n); destruct S as [-> ->]; cbn [set_of] in N; contradiction. Qed.
    Lemma keep_set : forall A n k x s s' r, assocs sc (fst n) = Some A -> ~ D (set_of A (snd n)) k -> nav_set ord A n k x s = (s', r) -> keep s s'.
    Proof.
      intros A n k x s s' r HA N H. destruct (nav_set_cases ord _ _ _ _ _ _ _ H) as [[-> _]|(-> & _)]; [apply keep_refl|].
      intros a A' f t HA' Hf Ht. rewrite link_L. pose proof (same_not n A k x a f t A' HA HA' N Hf Ht). tauto.
    Qed.
    Lemma keep_replace : forall A n k x s s' r, assocs sc (fst n) = Some A -> sym s -> ~ D (set_of A (snd n)) k -> nav_replace ord A n k x s = (s', r) -> keep s s'.
    Proof.
      intros A n k x s s' r HA Hs N H. destruct (nav_replace_cases ord Hord _ _ _ _ _ _ _ Hs H) as [[-> _]|[(_ & _ & K)|(_ & _ & _ & _ & _ & LL)]]; [apply keep_refl|eapply keep_set; eauto|].
      intros a A' f t HA' Hf Ht. rewrite LL. assert (NS := fun y => same_not n A k y a f t A' HA HA' N Hf Ht). split; [intros [P|P]; [destruct (NS _ P)|tauto]|].
      intros P. right. split; [assumption|]. intros (y & S). exact (NS _ S).
    Qed.
    Lemma keep_put : forall A n k x s s' r, assocs sc (fst n) = Some A -> sym s -> ~ D (set_of A (snd n)) k -> put ord A n k x s = (s', r) -> keep s s'.
    Proof. intros A n k x s s' r HA Hs N H. unfold put in H. destruct (is_many _); [eapply keep_set|eapply keep_replace]; eauto. Qed.
    Definition inskeep (e : ent) : Prop := forall E ign s s' r, basic s -> (forall E' y, D E' y -> In y (data s E')) -> insert ord sc E ign e s = (s', r) -> keep s s'.
    Lemma each_binding_keep : forall E A n k b, nav_of sc E n = Some A -> (forall e, In (BNew e) b -> inskeep e) -> ~ D E k ->
      forall s s' r, basic s -> (forall E' y, D E' y -> In y (data s E')) -> each_binding ord (insert ord sc) A n k b s = (s', r) ->
      keep s s' /\ basic s' /\ forall E' y, D E' y -> In y (data s' E').
    Proof.
      intros E A n k b HN. destruct (nav_of_some _ _ _ _ HN) as (HA & HE & _). induction b as [|x b IH]; intros Hi N s s' r Hs HD H; cbn [each_binding] in H.
      - injection H as <- <-. split; [apply keep_refl|auto].
      - cbn zeta in H. match type of H with (let (_, _) := ?M in _) = _ => destruct M as [s1 r1] eqn:DD end. rewrite <- HE in N.
        assert (K1 : keep s s1 /\ Rb s s1).
        { destruct x as [x|x|e].
          - destruct (zmem x _); [|injection DD as <- <-; split; [apply keep_refl|apply Rb_refl]]. split; [eapply keep_put; eauto; apply Hs|eapply Rb_put; eauto].
          - split; [eapply keep_put; eauto; apply Hs|eapply Rb_put; eauto].
          - destruct (insert ord sc _ _ e s) as [s2 r2] eqn:D2. pose proof (Rb_insert ord Hord sc _ _ _ _ _ _ D2) as R2. pose proof (Hi e (or_introl eq_refl) _ _ _ _ _ Hs HD D2) as K2.
            destruct r2 as [u|err]; [|injection DD as <- <-; auto]. split; [eapply keep_trans; [exact K2|]; eapply keep_set; eauto|eapply Rb_trans; [exact R2|eapply Rb_set; eauto]]. }
        destruct K1 as [K1 R1]. destruct (proj2 R1 Hs) as [B1 _]. assert (HD1 : forall E' y, D E' y -> In y (data s1 E')) by (intros E' y Q; apply R1, HD, Q).
        destruct r1 as [u|err]; [|injection H as <- <-; auto]. rewrite HE in N. destruct (IH (fun e I => Hi e (or_intror I)) N s1 s' r B1 HD1 H) as (K2 & B2 & HD2). split; [eapply keep_trans; eauto|auto].
    Qed.
    Lemma each_nav_keep : forall E k bs, (forall n b e, In (n, b) bs -> In (BNew e) b -> inskeep e) -> ~ D E k ->
      forall s s' r, basic s -> (forall E' y, D E' y -> In y (data s E')) -> each_nav ord sc (insert ord sc) E k bs s = (s', r) -> keep s s'.
    Proof.
      intros E k. induction bs as [|[n b] bs IH]; intros Hi N s s' r Hs HD H; cbn [each_nav] in H.
      - injection H as <- <-. apply keep_refl.
      - destruct (nav_of sc E n) as [A|] eqn:HN; [|injection H as <- <-; apply keep_refl]. destruct (each_binding _ _ _ _ _ b s) as [s1 r1] eqn:DD.
        destruct (each_binding_keep E A n k b HN (fun e I => Hi n b e (or_introl eq_refl) I) N _ _ _ Hs HD DD) as (K1 & B1 & HD1).
        destruct r1 as [u|err]; [|injection H as <- <-; assumption]. eapply keep_trans; [exact K1|]. eapply IH; eauto. intros n' b' e I. apply (Hi n' b' e). now right.
    Qed.
    Lemma insert_keep : forall e, inskeep e.
    Proof.
      apply ent_rec. intros k bs IH E ign s s' r Hs HD H. cbn [insert] in H. destruct (negb _); [injection H as <- <-; apply keep_refl|].
      destruct (zmem k (data s E)) eqn:Z1; [injection H as <- <-; apply keep_refl|]. apply zmem_nin in Z1. fold (add E k s) in H. pose proof (Rb_add E k s Z1) as R.
      assert (K : keep (add E k s) s'). { eapply each_nav_keep; [exact IH| |apply (proj2 R Hs)| |exact H]; [intros Q; apply Z1, HD, Q|intros E' y Q; apply R, HD, Q]. }
      exact K.
    Qed.
  End Others.

  (** ** The bindings of a successful insertion or update are links *)
  Lemma put_bound : forall A n k x s s', assocs sc (fst n) = Some A -> sym s -> put ord A n k x s = (s', Ok tt) -> Lk s' n k x.
  Proof. intros A n k x s s' HA Hs H. exact (proj2 (Q_put ord Hord sc _ _ _ _ _ _ HA Hs H)). Qed.
  (** a link of [k] at [n] to another entity stays, except for the next binding at the same single end *)
  Lemma put_stays : forall A n k x s s' r, assocs sc (fst n) = Some A -> sym s -> put ord A n k x s = (s', r) ->
    forall m A' y, (set_of A' (negb (snd m)) = set_of A (snd n) -> y <> k) -> assocs sc (fst m) = Some A' -> (m <> n \/ mult_of A (negb (snd n)) = Many) -> Lk s m k y -> Lk s' m k y.
  Proof.
    intros A n k x s s' r HA Hs H m A' y Ny HA' HM K. unfold put in H.
    assert (SET : forall s0' r0, nav_set ord A n k x s = (s0', r0) -> Lk s0' m k y).
    { intros s0' r0 H0. destruct (nav_set_cases ord _ _ _ _ _ _ _ H0) as [[-> _]|(-> & _)]; [assumption|]. apply Lk_link. now left. }
    destruct (is_many _) eqn:IM; [eapply SET; exact H|].
    destruct (nav_replace_cases ord Hord _ _ _ _ _ _ _ Hs H) as [[-> _]|[(_ & _ & Q)|(_ & _ & _ & _ & _ & LL)]]; [assumption|eapply SET; exact Q|].
    rewrite Lk_L in *. apply LL. right. split; [assumption|]. intros (z & [F S]). destruct HM as [HM|HM]; [|rewrite HM in IM; discriminate].
    destruct (end_cases m n F) as [->| ->]; [congruence|]. assert (A' = A) by (cbn [other fst] in HA'; congruence). subst A'. cbn [other fst snd] in *. rewrite Bool.negb_involutive in Ny. specialize (Ny eq_refl). destruct (snd n); cbn [negb] in S; destruct S; congruence.
  Qed.
  Lemma keep_Lk : forall s s' n A k x, assocs sc (fst n) = Some A -> keep (fun E y => In y (data s E)) s s' ->
    In k (data s (set_of A (snd n))) -> In x (data s (set_of A (negb (snd n)))) -> Lk s n k x -> Lk s' n k x.
  Proof. intros s s' n A k x HA K Hk Hx Q. rewrite Lk_L in *. apply (K _ A); auto; destruct (snd n); cbn [set_of negb] in *; assumption. Qed.
  Definition exns (s : st) (n : end_) (x : Z) : Prop := forall A, assocs sc (fst n) = Some A -> In x (data s (set_of A (negb (snd n)))).
  (** the step for one binding *)
  Lemma one_binding : forall E A n k x s s1, nav_of sc E n = Some A -> basic s -> In k (data s E) ->
    (match x with
     | BKey x => if zmem x (data s (set_of A (negb (snd n)))) then put ord A n k x s else (s, Err KeyError)
     | BObj x => put ord A n k x s
     | BNew e' => let (s, r) := insert ord sc (set_of A (negb (snd n))) (Some (fst n, negb (snd n))) e' s in
       match r with Ok _ => nav_set ord A n k (ent_key e') s | Err e => (s, Err e) end
     end) = (s1, Ok tt) ->
    basic s1 /\ In k (data s1 E) /\ Lk s1 n k (key_of x) /\
    (forall m A' y, (set_of A' (negb (snd m)) = E -> y <> k) -> assocs sc (fst m) = Some A' -> set_of A' (snd m) = E -> In y (data s (set_of A' (negb (snd m)))) ->
       (m <> n \/ mult_of A (negb (snd n)) = Many) -> Lk s m k y -> Lk s1 m k y) /\
    (forall E', incl (data s E') (data s1 E')).
  Proof.
    intros E A n k x s s1 HN Hs Hk H. destruct (nav_of_some _ _ _ _ HN) as (HA & HE & _).
    assert (PUT : forall z s0, put ord A n k z s = (s0, Ok tt) -> basic s0 /\ In k (data s0 E) /\ Lk s0 n k z /\
      (forall m A' y, (set_of A' (negb (snd m)) = E -> y <> k) -> assocs sc (fst m) = Some A' -> set_of A' (snd m) = E -> In y (data s (set_of A' (negb (snd m)))) ->
       (m <> n \/ mult_of A (negb (snd n)) = Many) -> Lk s m k y -> Lk s0 m k y) /\ (forall E', incl (data s E') (data s0 E'))).
    { intros z s0 HP. pose proof (Rb_put ord Hord _ _ _ _ _ _ _ HP) as R. split; [apply (proj2 R Hs)|]. split; [now apply R|]. split; [eapply put_bound; eauto; apply Hs|]. split; [|apply R].
      intros m A' y Ny HA' _ _ HM K. eapply (put_stays A n k z s); eauto; [apply Hs|]. now rewrite HE. }
    destruct x as [x|x|e]; cbn [key_of].
    - destruct (zmem x _); [|discriminate]. now apply PUT.
    - now apply PUT.
    - destruct (insert ord sc _ _ e s) as [s2 r2] eqn:D2. destruct r2 as [[]|err]; [|discriminate]. pose proof (Rb_insert ord Hord sc _ _ _ _ _ _ D2) as R2. destruct (proj2 R2 Hs) as [B2 _].
      pose proof (Rb_set ord _ _ _ _ _ _ _ H) as R1. split; [apply (proj2 R1 B2)|]. split; [now apply R1, R2|]. split; [exact (proj2 (Q_set ord Hord sc _ _ _ _ _ _ (proj1 B2) H))|].
      split; [|intros E' z I; now apply R1, R2].
      intros m A' y Ny HA' HE' Iy HM K. assert (K2 : Lk s2 m k y). { eapply keep_Lk; [exact HA'|eapply (insert_keep _ e); [exact Hs| |exact D2]; auto|rewrite HE'; exact Hk|exact Iy|exact K]. }
      destruct (nav_set_cases ord _ _ _ _ _ _ _ H) as [[-> _]|(-> & _)]; [assumption|]. apply Lk_link. now left.
  Qed.
  Lemma each_binding_bound : forall E A n k b, nav_of sc E n = Some A -> forall s s', basic s -> In k (data s E) ->
    each_binding ord (insert ord sc) A n k b s = (s', Ok tt) -> (forall y, In (BObj y) b -> In y (data s (set_of A (negb (snd n))))) ->
    basic s' /\ In k (data s' E) /\ (forall E', incl (data s E') (data s' E')) /\
    (forall m A' y, (set_of A' (negb (snd m)) = E -> y <> k) -> assocs sc (fst m) = Some A' -> set_of A' (snd m) = E -> In y (data s (set_of A' (negb (snd m)))) -> m <> n -> Lk s m k y -> Lk s' m k y) /\
    (forall y, (set_of A (negb (snd n)) = E -> y <> k) -> In y (data s (set_of A (negb (snd n)))) -> mult_of A (negb (snd n)) = Many -> Lk s n k y -> Lk s' n k y) /\
    ((length b <= 1)%nat \/ mult_of A (negb (snd n)) = Many -> forall x, In x b -> (set_of A (negb (snd n)) = E -> key_of x <> k) -> Lk s' n k (key_of x) /\ In (key_of x) (data s' (set_of A (negb (snd n))))).
  Proof.
    intros E A n k b HN. destruct (nav_of_some _ _ _ _ HN) as (HA & HE & _). induction b as [|x b IH]; intros s s' Hs Hk H HO.
    - cbn [each_binding] in H. injection H as <-. split; [assumption|]. split; [assumption|]. split; [intros; apply incl_refl|]. split; [auto|]. split; [auto|]. intros _ x [].
    - cbn [each_binding] in H. cbn zeta in H. match type of H with (let (_, _) := ?M in _) = _ => destruct M as [s1 r1] eqn:D end. destruct r1 as [[]|err]; [|discriminate].
      destruct (one_binding E A n k x s s1 HN Hs Hk D) as (B1 & Hk1 & X1 & ST1 & I1).
      assert (XD : In (key_of x) (data s1 (set_of A (negb (snd n))))).
      { destruct x as [x|x|e]; cbn [key_of].
        - destruct (zmem x _) eqn:Z1; [|discriminate]. apply zmem_in in Z1. now apply I1.
        - apply I1, HO. now left.
        - destruct (insert ord sc _ _ e s) as [s2 r2] eqn:D2. destruct r2 as [[]|err]; [|discriminate]. rewrite (set_data_eq _ _ _ _ _ _ _ D). apply (proj2 (insert_keys e _ _ _ _ D2)). right. constructor. }
      assert (HO1 : forall y, In (BObj y) b -> In y (data s1 (set_of A (negb (snd n))))) by (intros y I; apply I1, HO; now right).
      destruct (IH s1 s' B1 Hk1 H HO1) as (B2 & Hk2 & I2 & ST2 & SM2 & X2).
      split; [assumption|]. split; [assumption|]. split; [intros E'; eapply incl_tran; eauto|]. split; [|split].
      + intros m A' y Ny HA' HE' Iy Nm K. apply (ST2 m A' y Ny HA' HE' (I1 _ _ Iy) Nm). exact (ST1 m A' y Ny HA' HE' Iy (or_introl Nm) K).
      + intros y Ny Iy MM K. apply (SM2 y Ny (I1 _ _ Iy) MM). exact (ST1 n A y Ny HA HE Iy (or_intror MM) K).
      + intros HL z [->|Iz] Nz.
        * split; [|apply I2, XD]. destruct HL as [HL|MM]; [|apply SM2; auto]. cbn [length] in HL. assert (b = []) by (destruct b; [reflexivity|cbn [length] in HL; lia]). subst b. cbn [each_binding] in H. injection H as <-. exact X1.
        * apply X2; auto. destruct HL as [HL|MM]; [left; cbn [length] in HL; lia|now right].
  Qed.
  Lemma each_nav_bound : forall E k bs s s', basic s -> In k (data s E) -> each_nav ord sc (insert ord sc) E k bs s = (s', Ok tt) ->
    (forall n b y A, In (n, b) bs -> In (BObj y) b -> assocs sc (fst n) = Some A -> In y (data s (set_of A (negb (snd n))))) ->
    tidy sc bs -> 
    (forall m A' y, (set_of A' (negb (snd m)) = E -> y <> k) -> assocs sc (fst m) = Some A' -> set_of A' (snd m) = E -> In y (data s (set_of A' (negb (snd m)))) -> ~ In m (map fst bs) -> Lk s m k y -> Lk s' m k y) /\
    forall n b x A, In (n, b) bs -> In x b -> assocs sc (fst n) = Some A -> (set_of A (negb (snd n)) = E -> key_of x <> k) -> Lk s' n k (key_of x).
  Proof.
    intros E k. induction bs as [|[n b] bs IH]; intros s s' Hs Hk H HO [ND T]; cbn [each_nav] in H.
    - injection H as <-. split; [auto|]. intros n b x A [].
    - destruct (nav_of sc E n) as [A|] eqn:HN; [|discriminate]. destruct (nav_of_some _ _ _ _ HN) as (HA & HE & _). destruct (each_binding _ _ _ _ _ b s) as [s1 r1] eqn:D. destruct r1 as [[]|err]; [|discriminate].
      destruct (each_binding_bound E A n k b HN s s1 Hs Hk D) as (B1 & Hk1 & I1 & ST1 & SM1 & X1). { intros y I. eapply HO; [now left|exact I|exact HA]. }
      cbn [map fst] in ND. inversion ND as [|? ? NI ND'].
      destruct (IH s1 s' B1 Hk1 H) as [ST2 X2].
      { intros n' b' y A' I J HA'. apply I1. eapply HO; [right; exact I|exact J|exact HA']. }
      { split; [assumption|]. intros n' b' A' I. apply (T n' b' A'). now right. }
      split.
      + intros m A' y Ny HA' HE' Iy Nm K. cbn [map fst In] in Nm. apply (ST2 m A' y Ny HA' HE' (I1 _ _ Iy)); [tauto|]. apply (ST1 m A' y Ny HA' HE' Iy); [|assumption]. intros ->. tauto.
      + intros n' b' z A0 [I|I] J HA0 Nx; [|eapply X2; eauto]. injection I as <- <-. assert (A0 = A) by congruence. subst A0.
        assert (HL : (length b <= 1)%nat \/ mult_of A (negb (snd n)) = Many). { destruct (mult_of A (negb (snd n))) eqn:MM; [left|left|now right]; apply (T n b A); auto; try (now left); congruence. }
        destruct (X1 HL z J Nx) as [K Ik]. apply (ST2 n A); auto.
  Qed.
  Lemma binds_top : forall bs s, binds_existing sc s bs -> forall n b y A, In (n, b) bs -> In (BObj y) b -> assocs sc (fst n) = Some A -> In y (data s (set_of A (negb (snd n)))).
  Proof. intros bs s H n b y A I J HA. apply H. eapply binds_obj; eauto. Qed.
End Ord.
