(** Properties C53-C57: the in-memory data service. *)
From Verif Require Import Py MemdsModel MemdsPrim MemdsSpec MemdsDel MemdsCasc MemdsIns MemdsInv.
From Coq Require Import Permutation.

Section Ord.
  Variable ord : list Z -> list Z.
  Hypothesis Hord : forall l, Permutation (ord l) l.
  Variable sc : schema.
  Notation hist ops := (run ord sc ops empty).

  (** C53: after any history, whatever failed in it, a navigation property and its opposite agree, and no entity or
      link is there twice. *)
  Theorem c53_symmetric : forall ops n k x, linked ord (hist ops) n k x <-> linked ord (hist ops) (other n) x k.
  Proof.
    intros ops n k x. destruct (run_inv ord Hord sc ops empty empty_inv) as [[H _] _]. unfold linked.
    rewrite (lookup_in ord Hord _ _ _ _ H), (lookup_in ord Hord _ _ _ _ H). symmetry. apply Lk_other.
  Qed.
  Theorem c53_unique : forall ops, (forall n k, NoDup (lookup ord (hist ops) n k)) /\ (forall E, NoDup (data (hist ops) E)).
  Proof.
    intros ops. destruct (run_inv ord Hord sc ops empty empty_inv) as [[H N] _]. split; [|exact N]. intros n k. now apply lookup_nodup.
  Qed.
  (** no entity stays marked as being deleted *)
  Theorem c53_no_marks : forall ops E, del (hist ops) E = [].
  Proof. intros ops E. apply (run_inv ord Hord sc ops empty empty_inv). Qed.

  (** C54: links join entities that exist, provided no object of a deleted entity is used; so a navigation
      collection can always be read. *)
  Theorem c54_integrity : wf_schema sc -> forall ops, along ord sc (fresh_objects sc) ops empty -> integrity ord sc (hist ops).
  Proof.
    intros W ops H. apply live_integrity; [assumption|apply (run_inv ord Hord sc ops empty empty_inv)|].
    apply (along_inv ord Hord sc (fresh_objects sc)); [intros; now apply step_live|apply empty_inv|apply empty_live|assumption].
  Qed.
  Lemma read_all_ok : forall d l, (forall x, In x l -> In x d) -> read_all d l = Ok l.
  Proof.
    intros d. induction l as [|x l IH]; intros H; [reflexivity|]. cbn [read_all]. rewrite (proj2 (zmem_in x d)) by (apply H; now left).
    rewrite IH by (intros; apply H; now right). reflexivity.
  Qed.
  Theorem c54_readable : wf_schema sc -> forall ops n A k, along ord sc (fresh_objects sc) ops empty -> assocs sc (fst n) = Some A ->
    exists l, nav_keys ord A n k (hist ops) = Ok l /\ forall x, In x l <-> linked ord (hist ops) n k x.
  Proof.
    intros W ops n A k H HA. unfold nav_keys. exists (lookup ord (hist ops) n k). split; [|reflexivity]. apply read_all_ok. intros x I.
    destruct (c54_integrity W ops H n k x I) as (A' & HA' & _ & K). assert (A' = A) by congruence. subst. exact K.
  Qed.

  (** C55: multiplicities. *)
  Theorem c55_multiplicity_partial : no_optional_pair sc -> forall ops, along ord sc (replaces_free ord sc) ops empty -> multiplicity ord sc (hist ops).
  Proof.
    intros NP ops H. apply mult_multiplicity; [assumption|apply (run_inv ord Hord sc ops empty empty_inv)|].
    apply (along_inv ord Hord sc (replaces_free ord sc)); [intros; now apply step_mult|apply empty_inv|apply empty_mult|assumption].
  Qed.

  (** C56: required links. *)
  Theorem c56_requirements_partial : wf_schema sc -> no_bad_loop sc -> forall ops, along ord sc (succeeds ord sc) ops empty -> requirements ord sc (hist ops).
  Proof.
    intros W NL ops H. apply req_requirements; [assumption|apply (run_inv ord Hord sc ops empty empty_inv)|].
    apply (along_inv ord Hord sc (succeeds ord sc)); [intros; now apply step_req|apply empty_inv|apply empty_req|assumption].
  Qed.
  (** one operation that succeeds keeps the requirements, whatever was done before *)
  Theorem c56_step_partial : wf_schema sc -> no_bad_loop sc -> forall ops o, requirements ord sc (hist ops) -> succeeds ord sc (hist ops) o ->
    requirements ord sc (fst (step ord sc o (hist ops))).
  Proof.
    intros W NL ops o R F. pose proof (run_inv ord Hord sc ops empty empty_inv) as I. pose proof I as [[Hs _] _].
    apply req_requirements; [assumption|apply (step_inv ord Hord sc o _ I)|]. apply (step_req ord Hord sc W NL); [assumption| |assumption].
    intros n A k HA M K. destruct (R n A k HA M K) as [x Q]. exists x. now apply (lookup_in ord Hord).
  Qed.

  (** C57: deletion. *)
  Theorem c57_ends : wf_schema sc -> forall ops E k, (E < nsets sc)%nat -> snd (step ord sc (ODelete E k) (hist ops)) <> Err Timeout.
  Proof.
    intros W ops E k HE. destruct (step ord sc (ODelete E k) (hist ops)) as [s' r] eqn:H. cbn [snd step] in *.
    eapply (delitem_nt ord Hord sc W); [apply (run_inv ord Hord sc ops empty empty_inv)| |exact HE|exact H]. apply Nat.lt_succ_diag_r.
  Qed.
  (** whatever the outcome, only entities that depend on the deleted one are removed, and nothing is added *)
  Theorem c57_only_dependent : no_bad_loop sc -> forall ops E k, let s := hist ops in let s' := fst (step ord sc (ODelete E k) s) in
    (forall E' y, exists_in s E' y -> ~ exists_in s' E' y -> depends ord sc s E k E' y) /\
    (forall E' y, exists_in s' E' y -> exists_in s E' y) /\ (forall n y x, linked ord s' n y x -> linked ord s n y x).
  Proof.
    intros NL ops E k s s'. destruct (step ord sc (ODelete E k) s) as [s1 r] eqn:H. cbn [fst] in s'. subst s'. cbn [step] in H.
    destruct (run_inv ord Hord sc ops empty empty_inv) as [[Hs _] _]. fold s in Hs.
    pose proof (delitem_shr ord Hord sc _ _ _ _ _ _ H Hs) as R. split; [|split].
    - intros E' y I N. eapply (delitem_dep ord Hord sc NL); [exact Hs|exact H|]. split; assumption.
    - intros E' y I. eapply fsub_in; [apply (shr_data _ _ _ R)|exact I].
    - intros n y x Q. unfold linked in *. apply (lookup_in ord Hord _ _ _ _ Hs). apply (lookup_in ord Hord _ _ _ _ (shr_sym _ _ _ R)) in Q. eapply lk_mono; [apply (shr_L _ _ _ R)|exact Q].
  Qed.
  (** a deletion that succeeds removes exactly the entities that depend on the deleted one, and their links *)
  Theorem c57_exact_partial : wf_schema sc -> no_bad_loop sc -> forall ops E k s', along ord sc (fresh_objects sc) ops empty ->
    let s := hist ops in step ord sc (ODelete E k) s = (s', Ok tt) ->
    (forall E' y, exists_in s' E' y <-> exists_in s E' y /\ ~ depends ord sc s E k E' y) /\
    (forall n A y x, assocs sc (fst n) = Some A -> (linked ord s' n y x <->
       linked ord s n y x /\ exists_in s' (set_of A (snd n)) y /\ exists_in s' (set_of A (negb (snd n))) x)).
  Proof.
    intros W NL ops E k s' F s H. destruct (c57_only_dependent NL ops E k) as (O1 & O2 & O3). fold s in O1, O2, O3. rewrite H in O1, O2, O3. cbn [fst] in O1, O2, O3.
    destruct (run_inv ord Hord sc ops empty empty_inv) as [[Hs _] Hd]. fold s in Hs, Hd.
    assert (V : Live sc s) by (apply (along_inv ord Hord sc (fresh_objects sc)); [intros; now apply step_live|apply empty_inv|apply empty_live|assumption]).
    assert (V' : Live sc s'). { pose proof (step_live ord Hord sc W s (ODelete E k)) as K. rewrite H in K. cbn [fst] in K. apply K; [apply (run_inv ord Hord sc ops empty empty_inv)|exact V|exact I]. }
    cbn [step] in H. pose proof (delitem_shr ord Hord sc _ _ _ _ _ _ H Hs) as R.
    destruct (delitem_casc ord Hord sc W NL _ _ _ _ _ Hs H) as [C X].
    assert (EX : forall E' y, ex s' E' y -> ~ exists_in s' E' y). { intros E' y [K|K]; [exact K|]. rewrite (shr_del _ _ _ R), Hd in K. destruct K. }
    pose proof (live_integrity ord Hord sc s' (shr_sym _ _ _ R) V') as IG.
    assert (GONE : forall E' y, depends ord sc s E k E' y -> ~ exists_in s' E' y).
    { intros E' y D. induction D as [|n A y x D IH HA M Q]; [now apply EX|]. unfold linked in Q. apply (lookup_in ord Hord _ _ _ _ Hs) in Q. rewrite Lk_L in Q.
      destruct (L_dec s' (fst n) (if snd n then x else y) (if snd n then y else x)) as [Y|Y].
      - exfalso. apply IH. assert (Y' : linked ord s' n y x) by (unfold linked; apply (lookup_in ord Hord _ _ _ _ (shr_sym _ _ _ R)); now rewrite Lk_L).
        destruct (IG n y x Y') as (A' & HA' & K & _). assert (A' = A) by congruence. now subst.
      - apply EX. destruct (C _ _ _ _ HA Q Y) as (C1 & C2 & _). destruct (snd n); cbn [set_of negb mult_of] in *; auto. }
    split.
    - intros E' y. split; [intros K; split; [now apply O2|]; intros D; exact (GONE _ _ D K)|]. intros [K N]. destruct (in_dec Z.eq_dec y (data s' E')) as [Y|Y]; [exact Y|]. exfalso. apply N. now apply O1.
    - intros n A y x HA. split.
      + intros Q. split; [now apply O3|]. destruct (IG n y x Q) as (A' & HA' & K1 & K2). assert (A' = A) by congruence. subst. auto.
      + intros (Q & K1 & K2). unfold linked in *. apply (lookup_in ord Hord _ _ _ _ Hs) in Q. apply (lookup_in ord Hord _ _ _ _ (shr_sym _ _ _ R)). rewrite Lk_L in *.
        destruct (L_dec s' (fst n) (if snd n then x else y) (if snd n then y else x)) as [Y|Y]; [exact Y|]. exfalso.
        destruct (C _ _ _ _ HA Q Y) as (_ & _ & C3). destruct (snd n); cbn [set_of negb] in *; destruct C3 as [C3|C3]; apply EX in C3; contradiction.
  Qed.
  (** an entity that nothing depends on can always be deleted *)
  Theorem c57_leaf : wf_schema sc -> no_bad_loop sc -> forall ops E k, let s := hist ops in exists_in s E k ->
    (forall n A x, assocs sc (fst n) = Some A -> set_of A (snd n) = E -> mult_of A (snd n) = One -> ~ linked ord s n k x) ->
    snd (step ord sc (ODelete E k) s) = Ok tt.
  Proof.
    intros W NL ops E k s Hk HN. destruct (run_inv ord Hord sc ops empty empty_inv) as [[Hs _] Hd]. fold s in Hs, Hd.
    cbn [step]. unfold exists_in in Hk. remember (size sc s) as N eqn:EN. clear EN. cbn [delitem]. rewrite Hd. cbn [zmem existsb]. rewrite (proj2 (zmem_in k (data s E)) Hk). cbn [negb].
    match goal with |- context [each_end ord sc ?d E k ?l ?m] => assert (EE : forall l', (forall e, In e l' -> In e (ends_of sc E)) -> each_end ord sc d E k l' m = (m, Ok tt)) end.
    { induction l' as [|[a b] l' IH]; intros Hl; [reflexivity|]. cbn [each_end]. destruct (ends_of_inv sc a b E (Hl _ (or_introl eq_refl))) as (A & HA & HE). rewrite HA.
      assert (IH' := IH (fun e i => Hl e (or_intror i))). destruct (is_one (mult_of A b)) eqn:M1; cbn [negb]; [|exact IH'].
      assert (M : mult_of A b = One) by (destruct (mult_of A b); [discriminate|reflexivity|discriminate]). pose proof (forward_ok sc NL a A b HA M) as FW. rewrite HE in FW. rewrite FW.
      pose proof (HN (a, b) A) as HN'. unfold linked, lookup in HN'. cbn [fst snd] in HN'.
      match goal with |- context [each_link _ _ _ _ _ _ ?keys _] => assert (KE : keys = []) end.
      { destruct b; cbn [negb]; [change (links_to ord _ a k) with (links_to ord s a k)|change (links_from ord _ a k) with (links_from ord s a k)];
          [destruct (links_to ord s a k) as [|x l] eqn:LE|destruct (links_from ord s a k) as [|x l] eqn:LE]; try reflexivity; exfalso; apply (HN' x HA HE M); now left. }
      rewrite KE. cbn [each_link]. exact IH'. }
    rewrite EE by auto. match goal with |- context [delete_entity ord sc E k ?m] => destruct (delete_entity_spec ord Hord sc E k m) as (s3 & r3 & Q3 & _ & _ & _ & _ & F3) end; [destruct Hs; split; assumption|].
    rewrite Q3. cbn [snd]. rewrite F3. cbn [data set_del]. now rewrite (proj2 (zmem_in k (data s E)) Hk).
  Qed.
End Ord.

(** ** Examples: customers 0, orders 1, items 2.  Association 0: a customer (optional) and its orders; 1: an order
    (required) and its items *)
Definition idord (l : list Z) : list Z := l.
Lemma idord_perm : forall l, Permutation (idord l) l.
Proof. intros. apply Permutation_refl. Qed.
Definition shop : schema := mkschema 3 (fun a => match a with O => Some (mkassoc 0 1 ZeroToOne Many true) | 1%nat => Some (mkassoc 1 2 One Many true) | _ => None end)
  [(0%nat, false); (0%nat, true); (1%nat, false); (1%nat, true)].
Example shop_wf : wf_schema shop /\ no_bad_loop shop /\ no_optional_pair shop.
Proof.
  split; [|split].
  - intros a A H. destruct a as [|[|a]]; cbn in H; [..|discriminate]; injection H as <-; cbn; repeat split; auto; lia.
  - intros a A H. destruct a as [|[|a]]; cbn in H; [..|discriminate]; injection H as <-; cbn; discriminate.
  - intros [a b] A H. destruct a as [|[|a]]; cbn in H; [..|discriminate]; injection H as <-; destruct b; cbn; congruence.
Qed.
(** a customer; an order bound to it; an order with two new items; a link; a deletion of the order and its items *)
Definition history : list op :=
  [OInsert 0 (Ent 10 []); OInsert 1 (Ent 1 [((0%nat, true), [BKey 10])]);
   OInsert 1 (Ent 2 [((1%nat, false), [BNew (Ent 101 []); BNew (Ent 102 [])])]);
   ONavInsert (1%nat, false) 1 (Ent 103 []); OLink (0%nat, false) 10 2].
Example history_ok : along idord shop (succeeds idord shop) history empty /\ along idord shop (replaces_free idord shop) history empty /\ along idord shop (fresh_objects shop) history empty.
Proof.
  split; [vm_compute; repeat split|]. split; [cbn; repeat split|].
  cbn [along history fresh_objects].
  split; [intros E x H; inversion H; subst; cbn [In] in *; intuition discriminate|].
  split; [intros E x H; inversion H as [bs n b y A I J|bs n b k' bs' E' y I J]; subst; cbn [In] in I; destruct I as [I|[]]; injection I as <- <-; cbn [In] in J; intuition discriminate|].
  split. { intros E x H. inversion H as [bs n b y A I J|bs n b k' bs' E' y I J K]; subst; cbn [In] in I; destruct I as [I|[]]; injection I as <- <-; cbn [In] in J; [intuition discriminate|].
    destruct J as [J|[J|[]]]; injection J as <- <-; inversion K; subst; cbn [In] in *; tauto. }
  split. { split; [intros A HA; injection HA as <-; vm_compute; auto|]. intros E x H. inversion H; subst; cbn [In] in *; tauto. }
  split; [intros A HA; injection HA as <-; vm_compute; auto|exact I].
Qed.
Example history_links : nav_keys idord (mkassoc 0 1 ZeroToOne Many true) (0%nat, false) 10 (run idord shop history empty) = Ok [1; 2] /\
  nav_keys idord (mkassoc 1 2 One Many true) (1%nat, false) 2 (run idord shop history empty) = Ok [101; 102].
Proof. split; reflexivity. Qed.
Example history_delete : let (s, r) := step idord shop (ODelete 1 2) (run idord shop history empty) in
  r = Ok tt /\ data s 0%nat = [10] /\ data s 1%nat = [1] /\ data s 2%nat = [103] /\ lookup idord s (0%nat, false) 10 = [1].
Proof. vm_compute. repeat split. Qed.

(** ** What does not hold *)
(** a navigation collection opened before its entity was deleted still takes links: the link is to nothing, and
    the opposite collection cannot be read any more *)
Theorem c54_stale_refuted : exists ops, let s := run idord shop ops empty in
  ~ integrity idord shop s /\ nav_keys idord (mkassoc 0 1 ZeroToOne Many true) (0%nat, true) 1 s = Err KeyError.
Proof.
  exists [OInsert 0 (Ent 10 []); OInsert 1 (Ent 1 []); ODelete 0 10; OLink (0%nat, false) 10 1]. cbn zeta. split; [|reflexivity].
  intros H. destruct (H (0%nat, true) 1 10 ltac:(vm_compute; auto)) as (A & HA & _ & K). injection HA as <-. vm_compute in K. tauto.
Qed.
(** replace does not look whether its entity exists *)
Theorem c54_replace_refuted : exists ops, ~ integrity idord shop (run idord shop ops empty).
Proof.
  exists [OInsert 0 (Ent 10 []); OInsert 1 (Ent 1 []); ODelete 0 10; OReplace (0%nat, true) 1 10].
  intros H. destruct (H (0%nat, true) 1 10 ltac:(vm_compute; auto)) as (A & HA & _ & K). injection HA as <-. vm_compute in K. tauto.
Qed.
(** replace does not look whether its entity is linked to another one *)
Theorem c55_replace_refuted : exists ops, along idord shop (succeeds idord shop) ops empty /\ along idord shop (fresh_objects shop) ops empty /\
  ~ multiplicity idord shop (run idord shop ops empty).
Proof.
  exists [OInsert 0 (Ent 10 []); OInsert 0 (Ent 11 []); OInsert 1 (Ent 1 [((0%nat, true), [BKey 10])]); OReplace (0%nat, false) 11 1].
  split; [vm_compute; repeat split|]. split.
  - cbn [along fresh_objects].
    split; [intros E x H; inversion H; subst; cbn [In] in *; tauto|]. split; [intros E x H; inversion H; subst; cbn [In] in *; tauto|].
    split; [intros E x H; inversion H as [bs n b y A I J|bs n b k' bs' E' y I J]; subst; cbn [In] in I; destruct I as [I|[]]; injection I as <- <-; cbn [In] in J; intuition discriminate|].
    split; [intros A HA; injection HA as <-; vm_compute; auto|exact I].
  - intros H. specialize (H (0%nat, true) _ 1 eq_refl ltac:(discriminate)). vm_compute in H. lia.
Qed.
(** nor does an insertion with a binding, between two optional ends *)
Definition pairs : schema := mkschema 2 (fun a => match a with O => Some (mkassoc 0 1 ZeroToOne ZeroToOne true) | _ => None end) [(0%nat, false); (0%nat, true)].
Theorem c55_insert_refuted : exists ops, along idord pairs (succeeds idord pairs) ops empty /\ along idord pairs (replaces_free idord pairs) ops empty /\
  ~ multiplicity idord pairs (run idord pairs ops empty).
Proof.
  exists [OInsert 0 (Ent 1 []); OInsert 1 (Ent 5 [((0%nat, true), [BKey 1])]); OInsert 1 (Ent 6 [((0%nat, true), [BKey 1])])].
  split; [vm_compute; repeat split|]. split; [cbn; repeat split|].
  intros H. specialize (H (0%nat, false) _ 1 eq_refl ltac:(discriminate)). vm_compute in H. lia.
Qed.
(** an insertion that fails half way leaves the entity without its required link *)
Theorem c56_failed_insert_refuted : exists ops, wf_schema shop /\ no_bad_loop shop /\ ~ requirements idord shop (run idord shop ops empty).
Proof.
  exists [OInsert 2 (Ent 100 [((1%nat, true), [BKey 99])])]. split; [apply shop_wf|]. split; [apply shop_wf|].
  intros H. destruct (H (1%nat, true) _ 100 eq_refl eq_refl ltac:(vm_compute; auto)) as [x K]. vm_compute in K. exact K.
Qed.
(** an association of a set with itself, whose first navigation property leads to the required entity: deleting
    a child deletes its parent, and leaves the other child without one *)
Definition tree : schema := mkschema 1 (fun a => match a with O => Some (mkassoc 0 0 Many One true) | _ => None end) [(0%nat, false); (0%nat, true)].
Theorem c56_loop_refuted : exists ops, wf_schema tree /\ along idord tree (succeeds idord tree) ops empty /\ ~ requirements idord tree (run idord tree ops empty) /\
  data (run idord tree ops empty) 0%nat = [2].
Proof.
  exists [OInsert 0 (Ent 1 [((0%nat, false), [BKey 1])]); OInsert 0 (Ent 2 [((0%nat, false), [BKey 1])]); OInsert 0 (Ent 3 [((0%nat, false), [BKey 1])]); ODelete 0 3].
  split. { intros a A H. destruct a as [|a]; cbn in H; [|discriminate]; injection H as <-; cbn; repeat split; auto; lia. }
  split; [vm_compute; repeat split|]. split; [|reflexivity].
  intros H. destruct (H (0%nat, false) _ 2 eq_refl eq_refl ltac:(vm_compute; auto)) as [x K]. vm_compute in K. exact K.
Qed.
(** a cascade can fail because it has itself deleted an entity it is about to delete; what it removed stays removed *)
Definition groups : schema := mkschema 2 (fun a => match a with O => Some (mkassoc 0 1 One Many true) | 1%nat => Some (mkassoc 1 1 One Many true) | _ => None end)
  [(0%nat, false); (0%nat, true); (1%nat, false); (1%nat, true)].
Theorem c57_fails_refuted : exists ops E k, wf_schema groups /\ no_bad_loop groups /\ along idord groups (succeeds idord groups) ops empty /\
  exists_in (run idord groups ops empty) E k /\
  let (s, r) := step idord groups (ODelete E k) (run idord groups ops empty) in r = Err KeyError /\ data s 0%nat = [7] /\ data s 1%nat = [].
Proof.
  exists [OInsert 0 (Ent 7 []); OInsert 1 (Ent 1 [((0%nat, true), [BKey 7]); ((1%nat, true), [BKey 1])]); OInsert 1 (Ent 2 [((0%nat, true), [BKey 7]); ((1%nat, true), [BKey 1])])], 0%nat, 7.
  split. { intros a A H. destruct a as [|[|a]]; cbn in H; [..|discriminate]; injection H as <-; cbn; repeat split; auto; lia. }
  split. { intros a A H. destruct a as [|[|a]]; cbn in H; [..|discriminate]; injection H as <-; cbn; discriminate. }
  split; [vm_compute; repeat split|]. vm_compute. repeat split. now left.
Qed.

Print Assumptions c53_symmetric.
Print Assumptions c53_unique.
Print Assumptions c53_no_marks.
Print Assumptions c54_integrity.
Print Assumptions c54_readable.
Print Assumptions c55_multiplicity_partial.
Print Assumptions c56_requirements_partial.
Print Assumptions c56_step_partial.
Print Assumptions c57_ends.
Print Assumptions c57_only_dependent.
Print Assumptions c57_exact_partial.
Print Assumptions c57_leaf.
