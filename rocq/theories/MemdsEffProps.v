(** Property C58: what each operation of the in-memory data service does. *)
From Verif Require Import Py MemdsModel MemdsPrim MemdsSpec MemdsDel MemdsCasc MemdsIns MemdsInv MemdsEff MemdsProps.
From Coq Require Import Permutation.

Section Ord.
  Variable ord : list Z -> list Z.
  Hypothesis Hord : forall l, Permutation (ord l) l.
  Variable sc : schema.
  Notation hist ops := (run ord sc ops empty).

  Lemma reach_sym : forall ops, sym (hist ops).
  Proof. intros ops. apply (run_inv ord Hord sc ops empty empty_inv). Qed.
  Lemma reach_basic : forall ops, basic (hist ops).
  Proof. intros ops. apply (run_inv ord Hord sc ops empty empty_inv). Qed.
  Lemma linked_Lk : forall s n k x, sym s -> (linked ord s n k x <-> Lk s n k x).
  Proof. intros. now apply lookup_in. Qed.
  Lemma linked_rl : forall s n k x, sym s -> (linked ord s (other n) x k <-> Lk s n k x).
  Proof. intros s n k x H. rewrite linked_Lk by assumption. apply Lk_other. Qed.
  Lemma nil_iff : forall {A} (l : list A), l = [] <-> forall x, ~ In x l.
  Proof. intros A l. split; [intros -> x []|]. intros H. destruct l as [|x l]; [reflexivity|]. exfalso. apply (H x). now left. Qed.

  (** exactly when a link can be made, and what it does *)
  Theorem c58_link : forall ops n A k x, nav_any sc n = Some A -> let s := hist ops in let (s', r) := step ord sc (OLink n k x) s in
    (r = Ok tt <-> linked ord s n k x \/ (exists_in s (set_of A (negb (snd n))) x /\
       (mult_of A (negb (snd n)) = Many \/ forall y, ~ linked ord s n k y) /\ (mult_of A (snd n) = Many \/ forall y, ~ linked ord s (other n) x y))) /\
    (r <> Ok tt -> s' = s) /\
    (r = Ok tt -> (forall E, data s' E = data s E) /\ forall k' x', linked ord s' n k' x' <-> linked ord s n k' x' \/ (k' = k /\ x' = x)) /\
    (forall m k' x', fst m <> fst n -> (linked ord s' m k' x' <-> linked ord s m k' x')).
  Proof.
    intros ops n A k x HA s. destruct (step ord sc (OLink n k x) s) as [s' r] eqn:H. cbn [step] in H. rewrite HA in H. pose proof (reach_sym ops) as Hs. fold s in Hs.
    split; [|split; [|split]].
    - unfold nav_set in H. cbn zeta in H. destruct (zmem x (lookup ord s n k)) eqn:E1.
      { injection H as <- <-. apply zmem_in in E1. split; [now left|reflexivity]. } apply zmem_nin in E1.
      destruct (zmem x (data s _)) eqn:E2; cbn [negb] in H; [|injection H as <- <-; apply zmem_nin in E2; split; [discriminate|]; intros [Q|(Q & _)]; contradiction]. apply zmem_in in E2.
      assert (R1 : (negb (is_many (mult_of A (negb (snd n)))) && match lookup ord s n k with [] => false | _ => true end) = false <-> (mult_of A (negb (snd n)) = Many \/ forall y, ~ linked ord s n k y)).
      { unfold linked. rewrite <- nil_iff. destruct (mult_of A (negb (snd n))); cbn [is_many negb andb]; destruct (lookup ord s n k); intuition congruence. }
      assert (R2 : (negb (is_many (mult_of A (snd n))) && match rlookup ord s n x with [] => false | _ => true end) = false <-> (mult_of A (snd n) = Many \/ forall y, ~ linked ord s (other n) x y)).
      { assert (NE : rlookup ord s n x = [] <-> forall y, ~ linked ord s (other n) x y). { rewrite nil_iff. split; intros Q y K; apply (Q y); [apply linked_rl in K; [|assumption]; now apply (rlookup_in ord Hord)|apply linked_rl; [assumption|]; now apply (rlookup_in ord Hord) in K]. }
        rewrite <- NE. destruct (mult_of A (snd n)); cbn [is_many negb andb]; destruct (rlookup ord s n x); intuition congruence. }
      destruct (negb (is_many (mult_of A (negb (snd n)))) && _); [injection H as <- <-; split; [discriminate|]; intros [Q|(_ & Q & _)]; [contradiction|apply R1 in Q; discriminate]|].
      destruct (negb (is_many (mult_of A (snd n))) && _); injection H as <- <-; [split; [discriminate|]; intros [Q|(_ & _ & Q)]; [contradiction|apply R2 in Q; discriminate]|].
      split; [|reflexivity]. intros _. right. split; [exact E2|]. split; [now apply R1|now apply R2].
    - intros N. destruct (nav_set_cases ord _ _ _ _ _ _ _ H) as [[-> _]|(_ & -> & _)]; [reflexivity|congruence].
    - intros ->. destruct (nav_set_cases ord _ _ _ _ _ _ _ H) as [[-> K]|(-> & _)].
      + split; [reflexivity|]. intros k' x'. split; [now left|]. intros [Q|[-> ->]]; [exact Q|]. now apply K.
      + split; [intros; now rewrite link_data|]. intros k' x'. rewrite !linked_Lk by (try apply link_sym; assumption). rewrite Lk_link, Bool.eqb_reflx. tauto.
    - intros m k' x' N. destruct (nav_set_cases ord _ _ _ _ _ _ _ H) as [[-> K]|(-> & _)]; [reflexivity|]. rewrite !linked_Lk by (try apply link_sym; assumption). rewrite Lk_link. tauto.
  Qed.
  (** exactly when a link can be removed *)
  Theorem c58_unlink : forall ops n A k x, nav_any sc n = Some A -> let s := hist ops in let (s', r) := step ord sc (OUnlink n k x) s in
    (r = Ok tt <-> linked ord s n k x /\ mult_of A (snd n) <> One /\ mult_of A (negb (snd n)) <> One) /\
    (r <> Ok tt -> s' = s) /\
    (r = Ok tt -> (forall E, data s' E = data s E) /\ forall k' x', linked ord s' n k' x' <-> linked ord s n k' x' /\ ~ (k' = k /\ x' = x)) /\
    (forall m k' x', fst m <> fst n -> (linked ord s' m k' x' <-> linked ord s m k' x')).
  Proof.
    intros ops n A k x HA s. destruct (step ord sc (OUnlink n k x) s) as [s' r] eqn:H. cbn [step] in H. rewrite HA in H. pose proof (reach_sym ops) as Hs. fold s in Hs.
    unfold nav_del in H. destruct (is_one (mult_of A (snd n)) || is_one (mult_of A (negb (snd n)))) eqn:O.
    - injection H as <- <-. split; [split; [discriminate|]|split; [reflexivity|split; [discriminate|reflexivity]]].
      intros (_ & N1 & N2). apply orb_true_iff in O. destruct O as [O|O]; [destruct (mult_of A (snd n))|destruct (mult_of A (negb (snd n)))]; try discriminate; congruence.
    - apply orb_false_iff in O. destruct O as [O1 O2].
      destruct (zmem x (lookup ord s n k)) eqn:E1; cbn [negb] in H; injection H as <- <-.
      + apply zmem_in in E1. split; [split; [|reflexivity]|].
        { intros _. split; [exact E1|]. split; intros Q; [rewrite Q in O1|rewrite Q in O2]; discriminate. }
        split; [congruence|]. split; [|intros m k' x' N; rewrite !linked_Lk by (try apply unlink_sym; assumption); rewrite Lk_unlink; tauto].
        intros _. split; [intros; now rewrite unlink_data|]. intros k' x'. rewrite !linked_Lk by (try apply unlink_sym; assumption). rewrite Lk_unlink, Bool.eqb_reflx. tauto.
      + apply zmem_nin in E1. split; [split; [discriminate|]; intros (Q & _); contradiction|]. split; [reflexivity|]. split; [discriminate|reflexivity].
  Qed.
  (** a replace that succeeds leaves exactly the new link of that entity, and the links of the others alone *)
  Theorem c58_replace : forall ops n A k x, nav_any sc n = Some A -> let s := hist ops in let (s', r) := step ord sc (OReplace n k x) s in
    (mult_of A (snd n) <> One -> r = Ok tt) /\ (r <> Ok tt -> s' = s) /\ (forall E, data s' E = data s E) /\
    (r = Ok tt -> (forall y, linked ord s' n k y <-> y = x) /\ forall k' y, k' <> k -> (linked ord s' n k' y <-> linked ord s n k' y)) /\
    (forall m k' x', fst m <> fst n -> (linked ord s' m k' x' <-> linked ord s m k' x')).
  Proof.
    intros ops n A k x HA s. destruct (step ord sc (OReplace n k x) s) as [s' r] eqn:H. cbn [step] in H. rewrite HA in H. pose proof (reach_sym ops) as Hs. fold s in Hs.
    pose proof (proj1 (proj1 (proj2 (Rb_replace ord Hord _ _ _ _ _ _ _ H) (reach_basic ops)))) as Hs'.
    split.
    { intros N. unfold nav_replace in H. cbn zeta in H. destruct (is_single _ _); [congruence|]. destruct (mult_of A (snd n)); try congruence; cbn [is_one] in H; congruence. }
    assert (DD := replace_data ord _ _ _ _ _ _ _ H).
    destruct (nav_replace_cases ord Hord _ _ _ _ _ _ _ Hs H) as [[-> K]|[(M & NL & K)|(_ & -> & _ & _ & _ & LL)]].
    - split; [reflexivity|]. split; [reflexivity|]. split; [|reflexivity]. intros E. split; [|reflexivity]. intros y. unfold linked. rewrite (K E). cbn [In]. intuition.
    - destruct (nav_set_cases ord _ _ _ _ _ _ _ K) as [[-> Q]|(-> & -> & _)].
      + split; [reflexivity|]. split; [reflexivity|]. split; [|reflexivity]. intros ->. specialize (Q eq_refl). rewrite NL in Q. destruct Q.
      + split; [congruence|]. split; [intros; now rewrite DD|]. split; [|intros m k' x' N; rewrite !linked_Lk by assumption; rewrite Lk_link; tauto].
        intros _. assert (NK : forall y, ~ Lk s n k y) by (intros y; now apply (mult_nonempty ord Hord)). split.
        * intros y. rewrite linked_Lk, Lk_link, Bool.eqb_reflx by assumption. specialize (NK y). tauto.
        * intros k' y N. rewrite !linked_Lk, Lk_link, Bool.eqb_reflx by assumption. tauto.
    - split; [congruence|]. split; [intros; now rewrite DD|]. split.
      + intros _. split.
        * intros y. rewrite linked_Lk, Lk_L, LL by assumption. unfold same. split; [intros [[_ P]|[_ P]]; [destruct (snd n); tauto|]; exfalso; apply P; exists y; destruct (snd n); auto|]. intros ->. left. destruct (snd n); auto.
        * intros k' y N. rewrite !linked_Lk, !Lk_L, LL by assumption. unfold same. split; [intros [[_ P]|[P _]]; [destruct (snd n); tauto|exact P]|]. intros P. right. split; [exact P|]. intros (z & _ & S). destruct (snd n); tauto.
      + intros m k' y N. rewrite !linked_Lk, !Lk_L, LL by assumption. unfold same. split; [tauto|]. intros P. right. split; [exact P|]. intros (z & F & _). contradiction.
  Qed.
  (** a successful insertion: the entities it makes, its links, and nothing else *)
  Theorem c58_insert : forall ops E k bs s', let s := hist ops in step ord sc (OInsert E (Ent k bs)) s = (s', Ok tt) ->
    ~ exists_in s E k /\ exists_in s' E k /\
    (forall E' y, exists_in s' E' y <-> exists_in s E' y \/ creates sc E (Ent k bs) E' y) /\
    (forall n A y x, assocs sc (fst n) = Some A -> exists_in s (set_of A (snd n)) y -> exists_in s (set_of A (negb (snd n))) x ->
       (linked ord s' n y x <-> linked ord s n y x)) /\
    (binds_existing sc s bs -> tidy sc bs -> forall n b x A, In (n, b) bs -> In x b -> assocs sc (fst n) = Some A ->
       (set_of A (negb (snd n)) = E -> key_of x <> k) -> linked ord s' n k (key_of x)).
  Proof.
    intros ops E k bs s' s H. cbn [step] in H. pose proof (reach_basic ops) as B. fold s in B.
    destruct (insert_keys ord sc _ _ _ _ _ H) as [N K]. cbn [ent_key] in N. destruct (proj2 (Rb_insert ord Hord sc _ _ _ _ _ _ H) B) as [B' _].
    split; [exact N|]. split; [apply K; right; apply (cr_self sc E (Ent k bs))|]. split; [exact K|]. split.
    - intros n A y x HA Hy Hx. rewrite !linked_Lk, !Lk_L by (apply B || apply B').
      apply (insert_keep ord Hord sc (fun E y => In y (data s E)) _ _ _ _ _ _ B (fun _ _ h => h) H _ A _ _ HA); destruct (snd n); cbn [set_of negb] in *; assumption.
    - intros BE T n b x A I J HA Nx. rewrite linked_Lk by apply B'. cbn [insert] in H. destruct (negb _); [discriminate|]. destruct (zmem k (data s E)) eqn:Z1; [discriminate|]. apply zmem_nin in Z1. fold (add E k s) in H.
      pose proof (Rb_add E k s Z1) as R. eapply (each_nav_bound ord Hord sc E k bs); [apply (proj2 R B)| |exact H| |exact T|exact I|exact J|exact HA|exact Nx].
      + cbn [add set_data data]. rewrite upd_eq. apply in_or_app. right. now left.
      + intros n' b' y A' I' J' HA'. apply R. eapply binds_top; eauto.
  Qed.
  (** an update that succeeds makes the links it was asked for and touches no link of two other entities *)
  Theorem c58_update : forall ops E k bs s', let s := hist ops in step ord sc (OUpdate E k bs) s = (s', Ok tt) ->
    exists_in s E k /\
    (forall E' y, exists_in s' E' y <-> exists_in s E' y \/ creates_bound sc bs E' y) /\
    (forall n A y x, assocs sc (fst n) = Some A -> exists_in s (set_of A (snd n)) y -> exists_in s (set_of A (negb (snd n))) x ->
       ~ (set_of A (snd n) = E /\ y = k) -> ~ (set_of A (negb (snd n)) = E /\ x = k) -> (linked ord s' n y x <-> linked ord s n y x)) /\
    (binds_existing sc s bs -> tidy sc bs -> forall n b x A, In (n, b) bs -> In x b -> assocs sc (fst n) = Some A ->
       (set_of A (negb (snd n)) = E -> key_of x <> k) -> linked ord s' n k (key_of x)).
  Proof.
    intros ops E k bs s' s H. cbn [step] in H. pose proof (reach_basic ops) as B. fold s in B. destruct (proj2 (Rb_update ord Hord sc _ _ _ _ _ _ H) B) as [B' _].
    unfold update in H. destruct (zmem k (data s E)) eqn:Z1; [|discriminate]. apply zmem_in in Z1. split; [exact Z1|]. split; [|split].
    - exact (each_nav_keys ord sc E k bs (fun _ _ e _ _ => insert_keys ord sc e) s s' H).
    - intros n A y x HA Hy Hx N1 N2. rewrite !linked_Lk, !Lk_L by (apply B || apply B').
      set (D := fun E' y' => In y' (data s E') /\ ~ (E' = E /\ y' = k)).
      assert (ND : ~ D E k) by (unfold D; tauto).
      assert (DS : forall E' y', D E' y' -> In y' (data s E')) by (intros E' y' Q; apply Q).
      pose proof (each_nav_keep ord Hord sc D E k bs (fun _ _ e _ _ => insert_keep ord Hord sc D e) ND s s' (Ok tt) B DS H) as K.
      apply (K _ A _ _ HA); unfold D; destruct (snd n); cbn [set_of negb] in *; auto.
    - intros BE T n b x A I J HA Nx. rewrite linked_Lk by apply B'. eapply (each_nav_bound ord Hord sc E k bs); [exact B|exact Z1|exact H| |exact T|exact I|exact J|exact HA|exact Nx].
      intros n' b' y A' I' J' HA'. eapply binds_top; eauto.
  Qed.
  (** an insertion in a navigation collection also makes the link *)
  Theorem c58_nav_insert : forall ops n A k e s', let s := hist ops in nav_any sc n = Some A -> step ord sc (ONavInsert n k e) s = (s', Ok tt) ->
    ~ exists_in s (set_of A (negb (snd n))) (ent_key e) /\
    (forall E' y, exists_in s' E' y <-> exists_in s E' y \/ creates sc (set_of A (negb (snd n))) e E' y) /\
    linked ord s' n k (ent_key e) /\
    (forall m A' y x, assocs sc (fst m) = Some A' -> exists_in s (set_of A' (snd m)) y -> exists_in s (set_of A' (negb (snd m))) x ->
       (linked ord s' m y x <-> linked ord s m y x)).
  Proof.
    intros ops n A k e s' s HA H. cbn [step] in H. rewrite HA in H. destruct (insert ord sc _ _ e s) as [s1 r1] eqn:D. destruct r1 as [[]|err]; [|discriminate].
    pose proof (reach_basic ops) as B. fold s in B. destruct (proj2 (Rb_insert ord Hord sc _ _ _ _ _ _ D) B) as [B1 _]. destruct (proj2 (Rb_set ord _ _ _ _ _ _ _ H) B1) as [B' _].
    destruct (insert_keys ord sc _ _ _ _ _ D) as [N K]. pose proof (set_data_eq ord _ _ _ _ _ _ _ H) as DE. destruct (nav_any_some sc n A HA) as [HA' _].
    split; [exact N|]. split; [unfold exists_in; now rewrite DE|]. split; [rewrite linked_Lk by apply B'; exact (proj2 (Q_set ord Hord sc _ _ _ _ _ _ (proj1 B1) H))|].
    intros m A' y x HM Hy Hx. rewrite !linked_Lk, !Lk_L by (apply B || apply B').
    pose proof (insert_keep ord Hord sc (fun E y => In y (data s E)) _ _ _ _ _ _ B (fun _ _ h => h) D) as K1.
    assert (K2 : keep sc (fun E y => In y (data s E)) s1 s').
    { destruct (nav_set_cases ord _ _ _ _ _ _ _ H) as [[-> _]|(-> & _)]; [apply keep_refl|]. intros a A0 f t HA0 Hf Ht. rewrite link_L. split; [|now left]. intros [P|[-> P]]; [exact P|]. exfalso.
      assert (A0 = A) by congruence. subst A0. apply N. destruct (snd n); destruct P as [-> ->]; cbn [set_of negb]; assumption. }
    apply (keep_trans sc _ _ _ _ K1 K2 _ A' _ _ HM); destruct (snd m); cbn [set_of negb] in *; assumption.
  Qed.
  (** the checks before an insertion: a key that is taken, or a required link that is not bound, change nothing *)
  Theorem c58_insert_refused : forall ops E k bs, let s := hist ops in
    exists_in s E k \/ (exists n A, In n (ends sc) /\ assocs sc (fst n) = Some A /\ set_of A (snd n) = E /\ mult_of A (negb (snd n)) = One /\ (forall b, In (n, b) bs -> b = [])) ->
    exists err, step ord sc (OInsert E (Ent k bs)) s = (s, Err err).
  Proof.
    intros ops E k bs s H. cbn [step insert]. destruct (check_constraints sc E None bs) eqn:C; cbn [negb]; [|eexists; reflexivity].
    destruct H as [H|(n & A & I & HA & HE & M & NB)].
    - unfold exists_in in H. apply zmem_in in H. rewrite H. eexists; reflexivity.
    - exfalso. unfold check_constraints in C. rewrite forallb_forall in C. specialize (C n). rewrite HA, M in C. cbn [is_one orb] in C.
      assert (IE : In n (ends_of sc E)) by (unfold ends_of; apply filter_In; split; [exact I|]; rewrite HA, HE; apply Nat.eqb_refl). specialize (C IE).
      apply andb_true_iff in C. destruct C as [_ C]. unfold bound in C. apply existsb_exists in C. destruct C as ([n' b] & I' & C). cbn [fst snd] in C. apply andb_true_iff in C. destruct C as [C1 C2].
      apply end_eqb_eq in C1. subst n'. rewrite (NB b I') in C2. discriminate.
  Qed.
End Ord.
(** the examples of MemdsProps meet the hypotheses: hist_ok, and *)
Example c58_example : let s := run idord shop history empty in
  snd (step idord shop (OUnlink (0%nat, false) 10 1) s) = Ok tt /\ snd (step idord shop (OReplace (0%nat, true) 1 10) s) = Ok tt /\
  snd (step idord shop (OUpdate 1 1 [((0%nat, true), [BKey 10])]) s) = Ok tt /\ tidy shop [((0%nat, true), [BKey 10])] /\
  snd (step idord shop (OUnlink (1%nat, false) 1 103) s) = Err NavigationError.
Proof.
  cbn zeta. repeat (split; [vm_compute; reflexivity|]). split; [|vm_compute; reflexivity]. split; [cbn; constructor; [intros []|constructor]|].
  intros n b A [H|[]] _ _. injection H as <- <-. cbn. lia.
Qed.
Print Assumptions c58_link.
Print Assumptions c58_unlink.
Print Assumptions c58_replace.
Print Assumptions c58_insert.
Print Assumptions c58_update.
Print Assumptions c58_nav_insert.
Print Assumptions c58_insert_refused.
