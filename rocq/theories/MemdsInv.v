(** The invariants of the in-memory store. *)
From Verif Require Import Py MemdsModel MemdsPrim MemdsSpec MemdsDel MemdsCasc MemdsIns.
From Coq Require Import Permutation.

Section Ord.
  Variable ord : list Z -> list Z.
  Hypothesis Hord : forall l, Permutation (ord l) l.
  Variable sc : schema.

  Lemma same_dec : forall n k x a f t, same n k x a f t \/ ~ same n k x a f t.
  Proof. intros. unfold same. destruct (Nat.eq_dec a (fst n)); [|tauto]. destruct (snd n), (Z.eq_dec f x), (Z.eq_dec t k), (Z.eq_dec f k), (Z.eq_dec t x); tauto. Qed.
  Lemma nav_any_some : forall n A, nav_any sc n = Some A -> assocs sc (fst n) = Some A /\ has_nav A (snd n) = true.
  Proof. intros n A H. unfold nav_any in H. destruct (assocs sc (fst n)) as [A'|]; [|discriminate]. destruct (has_nav A' (snd n)) eqn:E; [|discriminate]. injection H as <-. auto. Qed.
  Lemma nav_any_of : forall n A, nav_any sc n = Some A -> nav_of sc (set_of A (snd n)) n = Some A.
  Proof. intros n A H. apply nav_any_some in H. destruct H as [H1 H2]. unfold nav_of. now rewrite H1, Nat.eqb_refl, H2. Qed.
  Lemma empty_sym : sym empty.
  Proof. split; intros; [reflexivity|constructor|constructor]. Qed.

  (** ** Symmetry, keys *)
  Definition basic (s : st) : Prop := sym s /\ (forall E, NoDup (data s E)).
  Definition Rb (s s' : st) : Prop := (forall E, incl (data s E) (data s' E)) /\ (basic s -> basic s' /\ forall E, del s' E = del s E).
  Lemma Rb_refl : forall s, Rb s s.
  Proof. intros s. split; [intros E; apply incl_refl|auto]. Qed.
  Lemma Rb_trans : forall a b c, Rb a b -> Rb b c -> Rb a c.
  Proof.
    intros a b c [A1 A2] [B1 B2]. split; [intros E; eapply incl_tran; eauto|]. intros H. destruct (A2 H) as [K D]. destruct (B2 K) as [K' D']. split; [assumption|]. intros E. now rewrite D', D.
  Qed.
  Lemma Rb_same : forall s s', (basic s -> sym s' /\ data s' = data s /\ del s' = del s) -> (forall E, data s' E = data s E) -> Rb s s'.
  Proof.
    intros s s' H K. split; [intros E; rewrite K; apply incl_refl|]. intros B. destruct (H B) as (A & D & F). split; [split; [assumption|]|now rewrite F]. rewrite D. apply B.
  Qed.
  Lemma Rb_set : forall A n k x s s' r, nav_set ord A n k x s = (s', r) -> Rb s s'.
  Proof.
    intros A n k x s s' r H. destruct (nav_set_cases ord _ _ _ _ _ _ _ H) as [[-> _]|(-> & _)]; [apply Rb_refl|].
    apply Rb_same; [|intros; now rewrite link_data]. intros [B _]. split; [now apply link_sym|]. split; [apply link_data|apply link_del].
  Qed.
  Lemma replace_data : forall A n k x s s' r, nav_replace ord A n k x s = (s', r) -> data s' = data s.
  Proof.
    intros A n k x s s' r H. unfold nav_replace in H. cbn zeta in H. destruct (is_single _ _); [congruence|]. destruct (is_one _).
    - destruct (lookup ord s n k); [|congruence]. destruct (nav_set_cases ord _ _ _ _ _ _ _ H) as [[-> _]|(-> & _)]; [reflexivity|apply link_data].
    - injection H as <- <-. set (s1 := if zmem _ _ then _ else _). assert (E : data s1 = data s) by (unfold s1; destruct (zmem _ _); [reflexivity|apply link_data]).
      rewrite <- E. generalize (lookup ord s n k). clearbody s1. clear E. intros l. revert s1. induction l as [|y l IH]; intros s1; cbn [fold_left]; [reflexivity|]. rewrite IH. destruct (y =? x); [reflexivity|apply unlink_data].
  Qed.
  Lemma Rb_replace : forall A n k x s s' r, nav_replace ord A n k x s = (s', r) -> Rb s s'.
  Proof.
    intros A n k x s s' r H. split; [intros E; rewrite (replace_data _ _ _ _ _ _ _ H); apply incl_refl|].
    intros [B N]. destruct (nav_replace_cases ord Hord _ _ _ _ _ _ _ B H) as [[-> _]|[(_ & _ & K)|(_ & _ & S & D & F & _)]]; [split; [now split|reflexivity]|exact (proj2 (Rb_set _ _ _ _ _ _ _ K) (conj B N))|].
    split; [split; [assumption|now rewrite D]|now rewrite F].
  Qed.
  Lemma Rb_put : forall A n k x s s' r, put ord A n k x s = (s', r) -> Rb s s'.
  Proof. intros A n k x s s' r H. unfold put in H. destruct (is_many _); [eapply Rb_set|eapply Rb_replace]; exact H. Qed.
  Lemma Rb_add : forall E k s, ~ In k (data s E) -> Rb s (add E k s).
  Proof.
    intros E k s N. split; [intros E'; cbn [add set_data data]; unfold upd; destruct (Nat.eqb_spec E' E) as [->|NE]; [apply incl_appl, incl_refl|apply incl_refl]|].
    intros [B D]. split; [|reflexivity]. split; [destruct B; split; assumption|]. intros E'. cbn [add set_data data]. unfold upd. destruct (Nat.eqb E' E); [apply nodup_snoc; auto|apply D].
  Qed.
  Lemma Rb_insert : forall e E ign s s' r, insert ord sc E ign e s = (s', r) -> Rb s s'.
  Proof.
    intros e E ign s s' r H. eapply (insert_gen ord sc Rb (fun _ _ => True)); [exact Rb_refl|exact Rb_trans|intros ? ? ? K; apply K|exact Rb_add| | | |exact H]; auto.
    - intros. eapply Rb_set. eassumption.
    - intros. eapply Rb_put. eassumption.
  Qed.
  Lemma Rb_update : forall E k bs s s' r, update ord sc E k bs s = (s', r) -> Rb s s'.
  Proof.
    intros E k bs s s' r H. eapply (update_gen ord sc Rb (fun _ _ => True)); [exact Rb_refl|exact Rb_trans|intros ? ? ? K; apply K|exact Rb_add| | | |exact H]; auto.
    - intros. eapply Rb_set. eassumption.
    - intros. eapply Rb_put. eassumption.
  Qed.
  Lemma step_basic : forall o s s' r, basic s -> step ord sc o s = (s', r) -> basic s' /\ forall E, del s' E = del s E.
  Proof.
    intros o s s' r B H. destruct o as [E e|E k bs|E k|n k e|n k x|n k x|n k x]; cbn [step] in H.
    - exact (proj2 (Rb_insert _ _ _ _ _ _ H) B).
    - exact (proj2 (Rb_update _ _ _ _ _ _ H) B).
    - destruct (delitem_shr ord Hord sc _ _ _ _ _ _ H (proj1 B)) as [A D F _ _]. split; [split; [assumption|]|assumption].
      intros E'. eapply fsub_nodup; [apply F|apply B].
    - destruct (nav_any sc n) as [A|]; [|injection H as <- <-; auto]. destruct (insert _ _ _ _ _ _) as [s1 r1] eqn:D. pose proof (Rb_insert _ _ _ _ _ _ D) as R1.
      destruct r1 as [u|err]; [|injection H as <- <-; now apply R1]. exact (proj2 (Rb_trans _ _ _ R1 (Rb_set _ _ _ _ _ _ _ H)) B).
    - destruct (nav_any sc n) as [A|]; [|injection H as <- <-; auto]. exact (proj2 (Rb_set _ _ _ _ _ _ _ H) B).
    - destruct (nav_any sc n) as [A|]; [|injection H as <- <-; auto]. unfold nav_del in H. destruct (_ || _); [injection H as <- <-; auto|]. destruct (negb _); injection H as <- <-; [auto|].
      split; [split; [apply unlink_sym, B|rewrite unlink_data; apply B]|now rewrite unlink_del].
    - destruct (nav_any sc n) as [A|]; [|injection H as <- <-; auto]. exact (proj2 (Rb_replace _ _ _ _ _ _ _ H) B).
  Qed.
  Definition inv (s : st) : Prop := basic s /\ forall E, del s E = [].
  Lemma step_inv : forall o s, inv s -> inv (fst (step ord sc o s)).
  Proof. intros o s [B D]. destruct (step ord sc o s) as [s' r] eqn:H. destruct (step_basic _ _ _ _ B H) as [B' D']. split; [assumption|]. intros E. cbn [fst]. now rewrite D', D. Qed.
  Lemma empty_inv : inv empty.
  Proof. split; [split; [apply empty_sym|intros; constructor]|reflexivity]. Qed.
  Lemma run_inv : forall ops s, inv s -> inv (run ord sc ops s).
  Proof. induction ops as [|o ops IH]; intros s H; [assumption|]. unfold run. cbn [fold_left]. apply IH. now apply step_inv. Qed.
  Lemma run_cons : forall o ops s, run ord sc (o :: ops) s = run ord sc ops (fst (step ord sc o s)).
  Proof. reflexivity. Qed.
  (** an invariant that holds along a history *)
  Lemma along_inv : forall (P : st -> op -> Prop) (I : st -> Prop),
    (forall s o, inv s -> I s -> P s o -> I (fst (step ord sc o s))) ->
    forall ops s, inv s -> I s -> along ord sc P ops s -> I (run ord sc ops s).
  Proof.
    intros P I H. induction ops as [|o ops IH]; intros s V K C; [assumption|]. destruct C as [A B]. rewrite run_cons. apply IH; [now apply step_inv|now apply H|assumption].
  Qed.

  (** ** Integrity *)
  Notation Live := (Live sc).
  Definition Rl (G : nat -> Z -> Prop) (s s' : st) : Prop := Rb s s' /\ ((forall E x, G E x -> In x (data s E)) -> basic s -> Live s -> Live s').
  Lemma live_link : forall A n k x s s', assocs sc (fst n) = Some A -> In k (data s (set_of A (snd n))) -> In x (data s (set_of A (negb (snd n)))) ->
    data s' = data s -> (forall a f t, L s' a f t -> L s a f t \/ same n k x a f t) -> Live s -> Live s'.
  Proof.
    intros A n k x s s' HA Hk Hx D K V a f t Q. rewrite D. destruct (K a f t Q) as [P|[-> P]]; [now apply V|]. exists A. split; [assumption|].
    destruct (snd n); destruct P as [-> ->]; cbn [set_of negb] in *; auto.
  Qed.
  Lemma live_same : forall s s', data s' = data s -> (forall a f t, L s' a f t -> L s a f t) -> Live s -> Live s'.
  Proof. intros s s' D K V a f t Q. rewrite D. now apply V, K. Qed.
  Lemma live_set : forall A n k x s s' r, assocs sc (fst n) = Some A -> In k (data s (set_of A (snd n))) -> nav_set ord A n k x s = (s', r) -> Live s -> Live s'.
  Proof.
    intros A n k x s s' r HA Hk H V. destruct (nav_set_cases ord _ _ _ _ _ _ _ H) as [[-> _]|(-> & _ & Hx & _)]; [assumption|].
    apply (live_link A n k x s); auto; [apply link_data|]. intros a f t Q. now apply link_L.
  Qed.
  Lemma live_replace : forall A n k x s s' r, assocs sc (fst n) = Some A -> In k (data s (set_of A (snd n))) -> In x (data s (set_of A (negb (snd n)))) ->
    sym s -> nav_replace ord A n k x s = (s', r) -> Live s -> Live s'.
  Proof.
    intros A n k x s s' r HA Hk Hx Hs H V. destruct (nav_replace_cases ord Hord _ _ _ _ _ _ _ Hs H) as [[-> _]|[(_ & _ & K)|(_ & _ & _ & D & _ & LL)]]; [assumption|eapply live_set; eauto|].
    apply (live_link A n k x s); auto. intros a f t Q. apply LL in Q. tauto.
  Qed.
  Lemma Rl_trans : forall G a b c, Rl G a b -> Rl G b c -> Rl G a c.
  Proof.
    intros G a b c [A1 A2] [B1 B2]. split; [eapply Rb_trans; eauto|]. intros HG HB V. apply B2; [|now apply A1|now apply A2].
    intros E x K. apply A1. now apply HG.
  Qed.
  Lemma Rl_refl : forall G s, Rl G s s.
  Proof. intros G s. split; [apply Rb_refl|auto]. Qed.
  Lemma Rl_add : forall G E k s, ~ In k (data s E) -> Rl G s (add E k s).
  Proof.
    intros G E k s N. pose proof (Rb_add E k s N) as R. split; [assumption|]. intros _ _ V a f t Q. destruct (V a f t Q) as (A & HA & Hf & Ht). exists A. split; [assumption|]. split; now apply R.
  Qed.
  Lemma Rl_set : forall G E A n k x s s' r, nav_of sc E n = Some A -> In k (data s E) -> nav_set ord A n k x s = (s', r) -> Rl G s s'.
  Proof. intros G E A n k x s s' r HA Hk H. apply nav_of_some in HA. destruct HA as (HA & <- & _). split; [eapply Rb_set; exact H|]. intros _ _ V. eapply live_set; eauto. Qed.
  Lemma Rl_put : forall G E A n k x s s' r, nav_of sc E n = Some A -> In k (data s E) ->
    In x (data s (set_of A (negb (snd n)))) \/ G (set_of A (negb (snd n))) x -> put ord A n k x s = (s', r) -> Rl G s s'.
  Proof.
    intros G E A n k x s s' r HA Hk Hx H. split; [eapply Rb_put; exact H|]. intros HG [Hs _] V. assert (Hx' : In x (data s (set_of A (negb (snd n))))) by (destruct Hx; auto).
    apply nav_of_some in HA. destruct HA as (HA & <- & _). unfold put in H. destruct (is_many _); [eapply live_set; eauto|eapply live_replace; eauto].
  Qed.
  Lemma step_live : wf_schema sc -> forall s o, inv s -> Live s -> fresh_objects sc s o -> Live (fst (step ord sc o s)).
  Proof.
    intros W s o [B _] V F. destruct (step ord sc o s) as [s' r] eqn:H. cbn [fst]. set (G := fun E x => In x (data s E)).
    destruct o as [E [k bs]|E k bs|E k|n k [k' bs]|n k x|n k x|n k x]; cbn [step fresh_objects] in *.
    - assert (R : Rl G s s'). { eapply (insert_gen ord sc (Rl G) G); [apply Rl_refl|apply Rl_trans|intros ? ? ? K; apply K|apply Rl_add|apply Rl_set|apply Rl_put| |exact H]. exact F. }
      apply R; auto.
    - assert (R : Rl G s s'). { eapply (update_gen ord sc (Rl G) G); [apply Rl_refl|apply Rl_trans|intros ? ? ? K; apply K|apply Rl_add|apply Rl_set|apply Rl_put| |exact H]. exact F. }
      apply R; auto.
    - apply (delitem_shr ord Hord sc _ _ _ _ _ _ H (proj1 B)); assumption.
    - destruct (nav_any sc n) as [A|] eqn:HA; [|injection H as <- <-; auto]. destruct (insert _ _ _ _ _ _) as [s1 r1] eqn:D. destruct F as [F1 F2].
      assert (R : Rl G s s1). { eapply (insert_gen ord sc (Rl G) G); [apply Rl_refl|apply Rl_trans|intros ? ? ? K; apply K|apply Rl_add|apply Rl_set|apply Rl_put| |exact D]. exact F2. }
      assert (V1 : Live s1) by (apply R; auto). destruct r1 as [u|err]; [|injection H as <- <-; assumption].
      apply nav_any_some in HA. destruct HA as [HA _]. eapply live_set; [exact HA| |exact H|exact V1]. apply R. now apply F1.
    - destruct (nav_any sc n) as [A|] eqn:HA; [|injection H as <- <-; auto]. apply nav_any_some in HA. destruct HA as [HA _]. eapply live_set; [exact HA|now apply F|exact H|exact V].
    - destruct (nav_any sc n) as [A|] eqn:HA; [|injection H as <- <-; auto]. unfold nav_del in H. destruct (_ || _); [injection H as <- <-; auto|]. destruct (negb _); injection H as <- <-; [auto|].
      apply (live_same s); [apply unlink_data| |assumption]. intros a f t Q. apply unlink_L in Q. tauto.
    - destruct (nav_any sc n) as [A|] eqn:HA; [|injection H as <- <-; auto]. apply nav_any_some in HA. destruct HA as [HA _]. destruct (F A HA). eapply live_replace; eauto. apply B.
  Qed.
  Lemma empty_live : Live empty.
  Proof. intros a f t []. Qed.
  Lemma live_integrity : forall s, sym s -> Live s -> integrity ord sc s.
  Proof.
    intros s Hs V n k x Q. apply (lookup_in ord Hord s n k x Hs) in Q. rewrite Lk_L in Q. destruct (V _ _ _ Q) as (A & HA & Hf & Ht). exists A. split; [assumption|].
    unfold exists_in. destruct (snd n); cbn [set_of negb]; auto.
  Qed.

  (** ** Multiplicity *)
  Definition Mult (s : st) : Prop := forall n A k x x', assocs sc (fst n) = Some A -> mult_of A (negb (snd n)) <> Many -> Lk s n k x -> Lk s n k x' -> x = x'.
  Lemma mult_nonempty : forall s n k x, sym s -> lookup ord s n k = [] -> ~ Lk s n k x.
  Proof. intros s n k x Hs E Q. apply (lookup_in ord Hord s n k x Hs) in Q. rewrite E in Q. destruct Q. Qed.
  Lemma rmult_nonempty : forall s n k x, sym s -> rlookup ord s n x = [] -> ~ Lk s n k x.
  Proof. intros s n k x Hs E Q. apply (rlookup_in ord Hord s n k x Hs) in Q. rewrite E in Q. destruct Q. Qed.
  Lemma Lk_other : forall s n k x, Lk s (other n) k x <-> Lk s n x k.
  Proof. intros s [a b] k x. unfold Lk, other. cbn [fst snd]. destruct b; reflexivity. Qed.
  Lemma end_cases : forall (m n : end_), fst m = fst n -> m = n \/ m = other n.
  Proof. intros [a b] [a' b'] H. cbn [fst] in H. subst. unfold other. cbn [fst snd]. destruct b, b'; auto. Qed.
  Lemma mult_link : forall A n k x s s', assocs sc (fst n) = Some A -> Mult s ->
    (forall m k' x', Lk s' m k' x' -> Lk s m k' x' \/ (fst m = fst n /\ if Bool.eqb (snd m) (snd n) then k' = k /\ x' = x else k' = x /\ x' = k)) ->
    (mult_of A (negb (snd n)) <> Many -> forall y, Lk s' n k y -> y = x) ->
    (mult_of A (snd n) <> Many -> forall y, Lk s' n y x -> y = k) -> Mult s'.
  Proof.
    intros A n k x s s' HA M K H1 H2 m A' k' x1 x2 HA' NM Q1 Q2.
    destruct (K m k' x1 Q1) as [P1|[F1 P1]], (K m k' x2 Q2) as [P2|[F2 P2]]; [eapply M; eauto| | |].
    - assert (A' = A) by (rewrite F2 in HA'; congruence). subst A'. destruct (end_cases m n F2) as [->| ->].
      + rewrite Bool.eqb_reflx in P2. destruct P2 as [-> ->]. now apply H1.
      + cbn [other fst snd] in *. rewrite Bool.negb_involutive in NM. destruct (snd n); cbn [negb Bool.eqb] in P2; destruct P2 as [-> ->]; apply H2; auto; now apply Lk_other.
    - assert (A' = A) by (rewrite F1 in HA'; congruence). subst A'. symmetry. destruct (end_cases m n F1) as [->| ->].
      + rewrite Bool.eqb_reflx in P1. destruct P1 as [-> ->]. now apply H1.
      + cbn [other fst snd] in *. rewrite Bool.negb_involutive in NM. destruct (snd n); cbn [negb Bool.eqb] in P1; destruct P1 as [-> ->]; apply H2; auto; now apply Lk_other.
    - destruct (Bool.eqb _ _); intuition congruence.
  Qed.
  Lemma mult_set : forall A n k x s s' r, assocs sc (fst n) = Some A -> sym s -> nav_set ord A n k x s = (s', r) -> Mult s -> Mult s'.
  Proof.
    intros A n k x s s' r HA Hs H M. destruct (nav_set_cases ord _ _ _ _ _ _ _ H) as [[-> _]|(-> & _ & Hx & _ & M1 & M2)]; [assumption|].
    apply (mult_link A n k x s); auto.
    - intros m k' x' Q. now apply Lk_link.
    - intros NM y Q. apply Lk_link in Q. rewrite Bool.eqb_reflx in Q. destruct Q as [Q|Q]; [|tauto]. exfalso. exact (mult_nonempty s n k y Hs (M1 NM) Q).
    - intros NM y Q. apply Lk_link in Q. rewrite Bool.eqb_reflx in Q. destruct Q as [Q|Q]; [|tauto]. exfalso. exact (rmult_nonempty s n y x Hs (M2 NM) Q).
  Qed.
  Lemma mult_replace : forall A n k x s s' r, assocs sc (fst n) = Some A -> sym s -> (mult_of A (snd n) = ZeroToOne -> forall y, Lk s n y x -> y = k) ->
    nav_replace ord A n k x s = (s', r) -> Mult s -> Mult s'.
  Proof.
    intros A n k x s s' r HA Hs F H M. destruct (nav_replace_cases ord Hord _ _ _ _ _ _ _ Hs H) as [[-> _]|[(_ & _ & K)|(N1 & _ & _ & D & _ & LL)]]; [assumption|eapply mult_set; eauto|].
    apply (mult_link A n k x s); auto.
    - intros m k' x' Q. rewrite Lk_L in Q. apply LL in Q. rewrite Lk_L. unfold same in Q. destruct (snd m), (snd n); cbn [Bool.eqb]; tauto.
    - intros NM y Q. rewrite Lk_L in Q. apply LL in Q. destruct Q as [[_ Q]|[_ Q]]; [destruct (snd n); tauto|]. exfalso. apply Q. exists y. unfold same. destruct (snd n); auto.
    - intros NM y Q. rewrite Lk_L in Q. apply LL in Q. destruct Q as [[_ Q]|[Q _]]; [destruct (snd n); tauto|]. apply F; [destruct (mult_of A (snd n)); congruence|]. rewrite Lk_L. exact Q.
  Qed.
  Definition Rm (s s' : st) : Prop := Rb s s' /\ (basic s -> Mult s -> Mult s').
  Lemma Rm_trans : forall a b c, Rm a b -> Rm b c -> Rm a c.
  Proof. intros a b c [A1 A2] [B1 B2]. split; [eapply Rb_trans; eauto|]. intros HB V. apply B2; [now apply A1|now apply A2]. Qed.
  Lemma Rm_refl : forall s, Rm s s.
  Proof. intros s. split; [apply Rb_refl|auto]. Qed.
  Lemma Rm_add : forall E k s, ~ In k (data s E) -> Rm s (add E k s).
  Proof. intros E k s N. split; [now apply Rb_add|]. intros _ M. exact M. Qed.
  Lemma Rm_set : forall E A n k x s s' r, nav_of sc E n = Some A -> In k (data s E) -> nav_set ord A n k x s = (s', r) -> Rm s s'.
  Proof. intros E A n k x s s' r HA Hk H. apply nav_of_some in HA. destruct HA as (HA & _). split; [eapply Rb_set; exact H|]. intros [Hs _] V. eapply mult_set; eauto. Qed.
  Lemma Rm_put : no_optional_pair sc -> forall E A n k x s s' r, nav_of sc E n = Some A -> In k (data s E) ->
    In x (data s (set_of A (negb (snd n)))) \/ True -> put ord A n k x s = (s', r) -> Rm s s'.
  Proof.
    intros NP E A n k x s s' r HA Hk _ H. split; [eapply Rb_put; exact H|]. intros [Hs _] V.
    apply nav_of_some in HA. destruct HA as (HA & _). unfold put in H. destruct (is_many _) eqn:IM; [eapply mult_set; eauto|]. eapply mult_replace; eauto.
    intros Z. exfalso. rewrite (NP n A HA Z) in IM. discriminate.
  Qed.
  Lemma Mult_sub : forall s s', (forall a f t, L s' a f t -> L s a f t) -> Mult s -> Mult s'.
  Proof. intros s s' K M n A k x x' HA NM Q1 Q2. eapply M; eauto; eapply lk_mono; eauto. Qed.
  Lemma step_mult : no_optional_pair sc -> forall s o, inv s -> Mult s -> replaces_free ord sc s o -> Mult (fst (step ord sc o s)).
  Proof.
    intros NP s o [B _] V F. destruct (step ord sc o s) as [s' r] eqn:H. cbn [fst].
    assert (RI : forall e E ign s0 s0' r0, insert ord sc E ign e s0 = (s0', r0) -> Rm s0 s0').
    { intros e E ign s0 s0' r0 D. eapply (insert_gen ord sc Rm (fun _ _ => True)); [apply Rm_refl|apply Rm_trans|intros ? ? ? K; apply K|apply Rm_add|apply Rm_set|apply (Rm_put NP)| |exact D]. auto. }
    destruct o as [E e|E k bs|E k|n k e|n k x|n k x|n k x]; cbn [step replaces_free] in *.
    - apply (RI _ _ _ _ _ _ H); auto.
    - assert (R : Rm s s'). { eapply (update_gen ord sc Rm (fun _ _ => True)); [apply Rm_refl|apply Rm_trans|intros ? ? ? K; apply K|apply Rm_add|apply Rm_set|apply (Rm_put NP)| |exact H]. auto. }
      apply R; auto.
    - apply (Mult_sub s); [|assumption]. apply (delitem_shr ord Hord sc _ _ _ _ _ _ H (proj1 B)).
    - destruct (nav_any sc n) as [A|] eqn:HA; [|injection H as <- <-; auto]. destruct (insert _ _ _ _ _ _) as [s1 r1] eqn:D.
      pose proof (RI _ _ _ _ _ _ D) as R. assert (V1 : Mult s1) by (apply R; auto). destruct r1 as [u|err]; [|injection H as <- <-; assumption].
      apply nav_any_some in HA. destruct HA as [HA _]. eapply mult_set; [exact HA| |exact H|exact V1]. apply R. assumption.
    - destruct (nav_any sc n) as [A|] eqn:HA; [|injection H as <- <-; auto]. apply nav_any_some in HA. destruct HA as [HA _]. eapply mult_set; [exact HA|apply B|exact H|exact V].
    - destruct (nav_any sc n) as [A|] eqn:HA; [|injection H as <- <-; auto]. unfold nav_del in H. destruct (_ || _); [injection H as <- <-; auto|]. destruct (negb _); injection H as <- <-; [auto|].
      apply (Mult_sub s); [|assumption]. intros a f t Q. apply unlink_L in Q. tauto.
    - destruct (nav_any sc n) as [A|] eqn:HA; [|injection H as <- <-; auto]. apply nav_any_some in HA. destruct HA as [HA _]. eapply mult_replace; [exact HA|apply B| |exact H|exact V].
      intros Z y Q. apply (F A HA Z). unfold linked. apply (lookup_in ord Hord); [apply B|]. now apply Lk_other.
  Qed.
  Lemma mult_multiplicity : forall s, sym s -> Mult s -> multiplicity ord sc s.
  Proof.
    intros s Hs M n A k HA NM. assert (ND := lookup_nodup ord Hord s n k Hs). destruct (lookup ord s n k) as [|x [|y l]] eqn:E; cbn [length]; try lia. exfalso.
    assert (x = y) by (eapply (M n A k); eauto; apply (lookup_in ord Hord s n k _ Hs); rewrite E; cbn [In]; auto). subst y. inversion ND as [|? ? NI _]; subst. apply NI. now left.
  Qed.

  (** ** Requirements *)
  Definition has (s : st) (n : end_) (k : Z) : Prop := exists x, Lk s n k x.
  Definition mono (s s' : st) : Prop := forall n A k, assocs sc (fst n) = Some A -> mult_of A (negb (snd n)) = One -> has s n k -> has s' n k.
  Definition newsat (s s' : st) : Prop := forall n A k, assocs sc (fst n) = Some A -> mult_of A (negb (snd n)) = One ->
    In k (data s' (set_of A (snd n))) -> ~ In k (data s (set_of A (snd n))) -> has s' n k.
  Definition Q (s s' : st) : Prop := mono s s' /\ newsat s s'.
  Lemma Q_refl : forall s, Q s s.
  Proof. intros s. split; [intros n A k; auto|]. intros n A k _ _ I N. contradiction. Qed.
  Lemma Q_trans : forall a b c, Q a b -> Q b c -> Q a c.
  Proof.
    intros a b c [A1 A2] [B1 B2]. split; [intros n A k HA M H; eapply B1; eauto|]. intros n A k HA M I N.
    destruct (in_dec Z.eq_dec k (data b (set_of A (snd n)))) as [Y|Y]; [eapply B1; eauto; eapply A2; eauto|eapply B2; eauto].
  Qed.
  Lemma Q_same : forall s s', mono s s' -> data s' = data s -> Q s s'.
  Proof. intros s s' M D. split; [assumption|]. intros n A k _ _ I N. rewrite D in I. contradiction. Qed.
  Lemma Q_set : forall A n k x s s', sym s -> nav_set ord A n k x s = (s', Ok tt) -> Q s s' /\ Lk s' n k x.
  Proof.
    intros A n k x s s' Hs H. destruct (nav_set_cases ord _ _ _ _ _ _ _ H) as [[-> K]|(-> & _)].
    - split; [apply Q_refl|]. apply (lookup_in ord Hord s n k x Hs). auto.
    - split; [|apply Lk_link; right; rewrite Bool.eqb_reflx; auto]. apply Q_same; [|apply link_data]. intros m A' k' _ _ [y K]. exists y. apply Lk_link. now left.
  Qed.
  Lemma Q_replace : forall A n k x s s', assocs sc (fst n) = Some A -> sym s -> nav_replace ord A n k x s = (s', Ok tt) -> Q s s' /\ Lk s' n k x.
  Proof.
    intros A n k x s s' HA Hs H. destruct (nav_replace_cases ord Hord _ _ _ _ _ _ _ Hs H) as [[-> K]|[(_ & _ & K)|(N1 & _ & _ & D & _ & LL)]].
    - split; [apply Q_refl|]. apply (lookup_in ord Hord s n k x Hs). rewrite K by reflexivity. now left.
    - eapply Q_set; eauto.
    - assert (X : Lk s' n k x) by (rewrite Lk_L; apply LL; left; unfold same; destruct (snd n); auto). split; [|assumption].
      apply Q_same; [|assumption]. intros m A' k' HA' M [y K].
      destruct (Nat.eq_dec (fst m) (fst n)) as [F|F]; [|exists y; rewrite Lk_L in *; apply LL; right; split; [assumption|]; intros (z & [Fz _]); congruence].
      assert (A' = A) by (rewrite F in HA'; congruence). subst A'. destruct (end_cases m n F) as [->| ->].
      + destruct (Z.eq_dec k' k) as [->|Nk]; [now exists x|]. exists y. rewrite Lk_L in *. apply LL. right. split; [assumption|]. intros (z & [_ Sz]). destruct (snd n); intuition congruence.
      + exfalso. cbn [other fst snd] in M. rewrite Bool.negb_involutive in M. contradiction.
  Qed.
  Lemma Q_put : forall A n k x s s', assocs sc (fst n) = Some A -> sym s -> put ord A n k x s = (s', Ok tt) -> Q s s' /\ Lk s' n k x.
  Proof. intros A n k x s s' HA Hs H. unfold put in H. destruct (is_many _); [eapply Q_set|eapply Q_replace]; eauto. Qed.
  Lemma Q_has : forall s s' n A k, assocs sc (fst n) = Some A -> mult_of A (negb (snd n)) = One -> Q s s' -> has s n k -> has s' n k.
  Proof. intros s s' n A k HA M [K _] H. eapply K; eauto. Qed.
  (** what a successful insertion leaves to be done *)
  Definition inssat (e : ent) : Prop := forall E ign s s', basic s -> insert ord sc E ign e s = (s', Ok tt) ->
    mono s s' /\ forall n A k, assocs sc (fst n) = Some A -> mult_of A (negb (snd n)) = One ->
      In k (data s' (set_of A (snd n))) -> ~ In k (data s (set_of A (snd n))) -> has s' n k \/ (ign = Some n /\ k = ent_key e).
  Lemma nav_insert_sat : forall e A n k s s1 s', inssat e -> assocs sc (fst n) = Some A -> basic s ->
    insert ord sc (set_of A (negb (snd n))) (Some (fst n, negb (snd n))) e s = (s1, Ok tt) -> nav_set ord A n k (ent_key e) s1 = (s', Ok tt) -> Q s s' /\ Lk s' n k (ent_key e).
  Proof.
    intros e A n k s s1 s' He HA Hs H1 H2. destruct (He _ _ _ _ Hs H1) as [M N]. pose proof (proj2 (Rb_insert _ _ _ _ _ _ H1) Hs) as [B1 _].
    destruct (Q_set _ _ _ _ _ _ (proj1 B1) H2) as [Q2 X2]. split; [|assumption]. split.
    - intros m A' k' HA' MM K. eapply (Q_has s1 s'); eauto.
    - intros m A' k' HA' MM I NI.
      assert (D : data s' = data s1) by (destruct (nav_set_cases ord _ _ _ _ _ _ _ H2) as [[-> _]|(-> & _)]; [reflexivity|apply link_data]).
      rewrite D in I. destruct (N m A' k' HA' MM I NI) as [K|[K ->]]; [eapply (Q_has s1 s'); eauto|]. assert (m = other n) by (unfold other; congruence). subst m. exists k. now apply Lk_other.
  Qed.
  Lemma each_binding_sat : forall E A n k b, nav_of sc E n = Some A -> (forall e, In (BNew e) b -> inssat e) ->
    forall s s', basic s -> each_binding ord (insert ord sc) A n k b s = (s', Ok tt) -> basic s' /\ Q s s' /\ (mult_of A (negb (snd n)) = One -> b <> [] -> has s' n k).
  Proof.
    intros E A n k b HN. destruct (nav_of_some _ _ _ _ HN) as (HA & _ & _). induction b as [|x b IH]; intros Hi s s' Hs H; cbn [each_binding] in H.
    - injection H as <-. split; [assumption|]. split; [apply Q_refl|]. congruence.
    - cbn zeta in H. match type of H with (let (_, _) := ?M in _) = _ => destruct M as [s1 r1] eqn:D end. destruct r1 as [[]|err]; [|discriminate].
      assert (R1 : basic s1 /\ Q s s1 /\ has s1 n k).
      { destruct x as [x|x|e].
        - destruct (zmem x _); [|discriminate]. split; [apply (proj2 (Rb_put _ _ _ _ _ _ _ D) Hs)|]. destruct (Q_put _ _ _ _ _ _ HA (proj1 Hs) D). split; [assumption|now exists x].
        - split; [apply (proj2 (Rb_put _ _ _ _ _ _ _ D) Hs)|]. destruct (Q_put _ _ _ _ _ _ HA (proj1 Hs) D). split; [assumption|now exists x].
        - destruct (insert ord sc _ _ e s) as [s2 r2] eqn:D2. destruct r2 as [[]|err]; [|discriminate].
          split. { apply (proj2 (Rb_set _ _ _ _ _ _ _ D)). apply (proj2 (Rb_insert _ _ _ _ _ _ D2) Hs). }
          destruct (nav_insert_sat e A n k s s2 s1 (Hi e (or_introl eq_refl)) HA Hs D2 D). split; [assumption|]. eexists; eassumption. }
      destruct R1 as (B1 & Q1 & H1). destruct (IH (fun e I => Hi e (or_intror I)) s1 s' B1 H) as (B2 & Q2 & H2). split; [assumption|]. split; [eapply Q_trans; eauto|].
      intros M _. eapply (Q_has s1 s'); eauto.
  Qed.
  Lemma each_nav_sat : forall E k bs, (forall n b e, In (n, b) bs -> In (BNew e) b -> inssat e) ->
    forall s s', basic s -> each_nav ord sc (insert ord sc) E k bs s = (s', Ok tt) ->
    Q s s' /\ forall n b A, In (n, b) bs -> b <> [] -> assocs sc (fst n) = Some A -> mult_of A (negb (snd n)) = One -> has s' n k.
  Proof.
    intros E k. induction bs as [|[n b] bs IH]; intros Hi s s' Hs H; cbn [each_nav] in H.
    - injection H as <-. split; [apply Q_refl|]. intros n b A [].
    - destruct (nav_of sc E n) as [A|] eqn:HN; [|discriminate]. destruct (each_binding _ _ _ _ _ b s) as [s1 r1] eqn:D. destruct r1 as [[]|err]; [|discriminate].
      destruct (each_binding_sat E A n k b HN (fun e I => Hi n b e (or_introl eq_refl) I) _ _ Hs D) as (B1 & Q1 & H1).
      destruct (IH (fun n' b' e I => Hi n' b' e (or_intror I)) s1 s' B1 H) as (Q2 & H2). split; [eapply Q_trans; eauto|].
      intros n' b' A' [I|I] Nb HA' M; [|eapply H2; eauto]. injection I as <- <-. destruct (nav_of_some _ _ _ _ HN) as (HA & _). assert (A' = A) by congruence. subst A'. eapply (Q_has s1 s'); eauto.
  Qed.
  Lemma end_eqb_eq : forall m n, end_eqb m n = true -> m = n.
  Proof. intros [a b] [a' b'] H. unfold end_eqb in H. cbn [fst snd] in H. apply andb_true_iff in H. destruct H as [H1 H2]. apply Nat.eqb_eq in H1. apply Bool.eqb_prop in H2. congruence. Qed.
  Lemma insert_sat : wf_schema sc -> forall e, inssat e.
  Proof.
    intros W. apply ent_rec. intros k bs IH E ign s s' Hs H. cbn [insert] in H. destruct (check_constraints sc E ign bs) eqn:CC; cbn [negb] in H; [|discriminate].
    destruct (zmem k (data s E)) eqn:Z1; [discriminate|]. apply zmem_nin in Z1. fold (add E k s) in H.
    destruct (each_nav_sat E k bs IH _ _ (proj1 (proj2 (Rb_add E k s Z1) Hs)) H) as [[M N] X].
    split; [exact M|]. intros n A k' HA MM I NI.
    destruct (in_dec Z.eq_dec k' (data (add E k s) (set_of A (snd n)))) as [Y|Y]; [|left; now apply (N n A k')].
    cbn [add set_data data] in Y. unfold upd in Y. destruct (Nat.eqb_spec (set_of A (snd n)) E) as [HE|HE]; [|contradiction]. rewrite HE in NI. apply in_app_or in Y. destruct Y as [Y|[<-|[]]]; [contradiction|].
    unfold check_constraints in CC. rewrite forallb_forall in CC. specialize (CC n). rewrite HA, MM in CC. cbn [is_one] in CC.
    assert (IE : In n (ends_of sc E)) by (rewrite <- HE; destruct n as [a b]; apply (ends_of_in sc a A b W HA)). specialize (CC IE). apply orb_true_iff in CC. destruct CC as [CC|CC].
    - right. destruct ign as [i|]; [|discriminate]. apply end_eqb_eq in CC. subst. auto.
    - left. apply andb_true_iff in CC. destruct CC as [_ CC]. unfold bound in CC. apply existsb_exists in CC. destruct CC as ([n' b] & I' & CC). cbn [fst snd] in CC. apply andb_true_iff in CC. destruct CC as [C1 C2].
      apply end_eqb_eq in C1. subst n'. apply (X n b A); auto. intros ->. discriminate.
  Qed.
  Definition Req (s : st) : Prop := forall n A k, assocs sc (fst n) = Some A -> mult_of A (negb (snd n)) = One -> In k (data s (set_of A (snd n))) -> has s n k.
  Lemma Q_req : forall s s', Q s s' -> Req s -> Req s'.
  Proof. intros s s' [M N] R n A k HA MM I. destruct (in_dec Z.eq_dec k (data s (set_of A (snd n)))) as [Y|Y]; [eapply M; eauto|eapply N; eauto]. Qed.
  Lemma step_req : wf_schema sc -> no_bad_loop sc -> forall s o, inv s -> Req s -> succeeds ord sc s o -> Req (fst (step ord sc o s)).
  Proof.
    intros W NL s o [B DE] V F. unfold succeeds in F. destruct (step ord sc o s) as [s' r] eqn:H. cbn [fst snd] in *. subst r.
    destruct o as [E e|E k bs|E k|n k e|n k x|n k x|n k x]; cbn [step] in *.
    - apply (Q_req s); [|assumption]. destruct (insert_sat W e _ _ _ _ B H) as [M N]. split; [assumption|]. intros n A k HA MM I NI. destruct (N n A k HA MM I NI) as [K|[K _]]; [assumption|discriminate].
    - apply (Q_req s); [|assumption]. unfold update in H. destruct (zmem k (data s E)); [|discriminate].
      apply (each_nav_sat E k bs (fun _ _ e _ _ => insert_sat W e) _ _ B H).
    - intros n A k' HA MM I. pose proof (delitem_shr ord Hord sc _ _ _ _ _ _ H (proj1 B)) as R.
      destruct (V n A k' HA MM) as [x K]. { eapply fsub_in; [apply (shr_data _ _ _ R)|exact I]. }
      exists x. destruct (delitem_casc ord Hord sc W NL _ _ _ _ _ (proj1 B) H) as [C _]. rewrite Lk_L in *.
      destruct (L_dec s' (fst n) (if snd n then x else k') (if snd n then k' else x)) as [Y|Y]; [assumption|]. exfalso.
      destruct (C _ _ _ _ HA K Y) as (C1 & C2 & _).
      assert (EX : ex s' (set_of A (snd n)) k') by (destruct (snd n); cbn [set_of negb mult_of] in *; auto).
      destruct EX as [EX|EX]; [contradiction|]. rewrite (shr_del _ _ _ R), DE in EX. destruct EX.
    - destruct (nav_any sc n) as [A|] eqn:HA; [|discriminate]. apply nav_any_some in HA. destruct HA as [HA _]. destruct (insert _ _ _ _ _ _) as [s1 r1] eqn:D. destruct r1 as [[]|err]; [|discriminate].
      apply (Q_req s); [|assumption]. apply (nav_insert_sat e A n k s s1 s' (insert_sat W e) HA B D H).
    - destruct (nav_any sc n) as [A|] eqn:HA; [|discriminate]. apply (Q_req s); [|assumption]. eapply Q_set; [apply B|exact H].
    - destruct (nav_any sc n) as [A|] eqn:HA; [|discriminate]. apply nav_any_some in HA. destruct HA as [HA _]. unfold nav_del in H. destruct (is_one _ || is_one _) eqn:O1; [discriminate|]. destruct (negb (zmem _ _)); [discriminate|]. injection H as <-.
      apply (Q_req s); [|assumption]. apply Q_same; [|apply unlink_data]. apply orb_false_iff in O1. destruct O1 as [O1 O2].
      intros m A' k' HA' MM [y K]. exists y. apply Lk_unlink. split; [assumption|]. intros [F _]. assert (A' = A) by (rewrite F in HA'; congruence). subst A'.
      destruct (end_cases m n F) as [->| ->]; [rewrite MM in O2; discriminate|]. cbn [other fst snd] in MM. rewrite Bool.negb_involutive in MM. rewrite MM in O1. discriminate.
    - destruct (nav_any sc n) as [A|] eqn:HA; [|discriminate]. apply nav_any_some in HA. destruct HA as [HA _]. apply (Q_req s); [|assumption]. eapply Q_replace; [exact HA|apply B|exact H].
  Qed.
  Lemma req_requirements : forall s, sym s -> Req s -> requirements ord sc s.
  Proof. intros s Hs R n A k HA M I. destruct (R n A k HA M I) as [x K]. exists x. unfold linked. now apply (lookup_in ord Hord). Qed.
  Lemma empty_req : Req empty.
  Proof. intros n A k _ _ []. Qed.
  Lemma empty_mult : Mult empty.
  Proof. intros n A k x x' _ _ K. unfold Lk, L in K. destruct (snd n); destruct K. Qed.
End Ord.
