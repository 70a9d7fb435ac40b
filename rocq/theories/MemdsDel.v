(** Deletion from the in-memory store. *)
From Verif Require Import Py MemdsModel MemdsPrim MemdsSpec.
From Coq Require Import Permutation.

Definition fsub (l' l : list Z) : Prop := exists p, l' = filter p l.
Lemma filter_all : forall (l : list Z), filter (fun _ => true) l = l.
Proof. induction l; cbn [filter]; congruence. Qed.
Lemma filter_filter : forall (p q : Z -> bool) l, filter q (filter p l) = filter (fun x => p x && q x) l.
Proof. intros p q. induction l as [|x l IH]; [reflexivity|]. cbn [filter]. destruct (p x) eqn:E; cbn [filter andb]; [destruct (q x); now rewrite IH|assumption]. Qed.
Lemma fsub_refl : forall l, fsub l l.
Proof. intros l. exists (fun _ => true). symmetry. apply filter_all. Qed.
Lemma fsub_trans : forall a b c, fsub a b -> fsub b c -> fsub a c.
Proof. intros a b c [p ->] [q ->]. exists (fun x => q x && p x). apply filter_filter. Qed.
Lemma fsub_in : forall a b x, fsub a b -> In x a -> In x b.
Proof. intros a b x [p ->] H. apply filter_In in H. tauto. Qed.
Lemma fsub_nodup : forall a b, fsub a b -> NoDup b -> NoDup a.
Proof. intros a b [p ->] H. now apply NoDup_filter. Qed.

Section Ord.
  Variable ord : list Z -> list Z.
  Hypothesis Hord : forall l, Permutation (ord l) l.
  Variable sc : schema.

  Definition Live (s : st) : Prop := forall a f t, L s a f t ->
    exists A, assocs sc a = Some A /\ In f (data s (a_from A)) /\ In t (data s (a_to A)).
  (** what any part of a deletion does *)
  Record shr_ (s s' : st) : Prop := {
    shr_sym : sym s';
    shr_del : forall E, del s' E = del s E;
    shr_data : forall E, fsub (data s' E) (data s E);
    shr_L : forall a f t, L s' a f t -> L s a f t;
    shr_live : wf_schema sc -> Live s -> Live s' }.
  Definition shr (s s' : st) : Prop := sym s -> shr_ s s'.
  Lemma shr_refl : forall s, shr s s.
  Proof. intros s H. split; auto using fsub_refl. Qed.
  Lemma shr_trans : forall a b c, shr a b -> shr b c -> shr a c.
  Proof.
    intros a b c H1 H2 H. specialize (H1 H). destruct H1 as [s1 d1 x1 l1 v1]. destruct (H2 s1) as [s2 d2 x2 l2 v2].
    split; auto; [intros; now rewrite d2|]. intros E. eapply fsub_trans; eauto.
  Qed.
  Lemma shr_remove : forall s a f t, shr s (remove_link s a f t).
  Proof.
    intros s a f t H. split; [now apply remove_link_sym|reflexivity|intros; apply fsub_refl| |].
    - intros a' f' t' K. apply remove_link_L in K. tauto.
    - intros _ V a' f' t' K. apply remove_link_L in K. apply V. tauto.
  Qed.
  Lemma ends_of_in : forall a A b, wf_schema sc -> assocs sc a = Some A -> In (a, b) (ends_of sc (set_of A b)).
  Proof.
    intros a A b W H. unfold ends_of. apply filter_In. destruct (W a A H) as (W1 & W2 & _). split; [destruct b; assumption|].
    cbn [fst snd]. rewrite H. apply Nat.eqb_refl.
  Qed.
  Lemma ends_of_inv : forall a b E, In (a, b) (ends_of sc E) -> exists A, assocs sc a = Some A /\ set_of A b = E.
  Proof.
    intros a b E H. unfold ends_of in H. apply filter_In in H. cbn [fst snd] in H. destruct H as [_ H].
    destruct (assocs sc a) as [A|]; [|discriminate]. apply Nat.eqb_eq in H. now exists A.
  Qed.
  Lemma touches_iff : forall E k a A f t, wf_schema sc -> assocs sc a = Some A ->
    (touches sc E k a f t <-> (a_from A = E /\ f = k) \/ (a_to A = E /\ t = k)).
  Proof.
    intros E k a A f t W H. unfold touches. split.
    - intros [[I ->]|[I ->]]; apply ends_of_inv in I; destruct I as (A' & HA & HE); rewrite H in HA; injection HA as <-; cbn [set_of] in HE; auto.
    - intros [[<- ->]|[<- ->]]; [left|right]; (split; [|reflexivity]); [apply (ends_of_in a A false W H)|apply (ends_of_in a A true W H)].
  Qed.
  Lemma shr_delete : forall E k s s' r, delete_entity ord sc E k s = (s', r) -> shr s s'.
  Proof.
    intros E k s s' r Hd H. destruct (delete_entity_spec ord Hord sc E k s H) as (s1 & r1 & Q & A & B & C & D & F).
    rewrite Q in Hd. injection Hd as <- <-.
    split; [assumption|intros; now rewrite B| | |].
    - intros E'. rewrite D. destruct (zmem k (data s E)); [|apply fsub_refl]. unfold upd. destruct (Nat.eqb_spec E' E) as [->|N]; [|apply fsub_refl]. unfold zremove. eexists; reflexivity.
    - intros a f t K. apply C in K. tauto.
    - intros W V a f t K. apply C in K. destruct K as [K NT]. destruct (V a f t K) as (A' & HA & Hf & Ht). exists A'. split; [assumption|].
      rewrite (touches_iff E k a A' f t W HA) in NT. rewrite D. destruct (zmem k (data s E)); [|tauto].
      unfold upd. destruct (Nat.eqb_spec (a_from A') E) as [EF|NF], (Nat.eqb_spec (a_to A') E) as [ET|NTo]; rewrite ?zremove_in, <- ?EF, <- ?ET; intuition congruence.
  Qed.

  Lemma each_link_shr : forall dl nav forward a target k, (forall E x s s' r, dl E x s = (s', r) -> shr s s') ->
    forall keys s s' r, each_link dl nav forward a target k keys s = (s', r) -> shr s s'.
  Proof.
    intros dl nav forward a target k Hdl. induction keys as [|x keys IH]; intros s s' r H; cbn [each_link] in H.
    - injection H as <- <-. apply shr_refl.
    - destruct (negb nav && _); [injection H as <- <-; apply shr_refl|]. cbn zeta in H.
      set (s1 := if forward then _ else _) in H. assert (R1 : shr s s1) by (unfold s1; destruct forward; apply shr_remove).
      destruct (dl target x s1) as [s2 r2] eqn:D. pose proof (Hdl _ _ _ _ _ D) as R2.
      destruct r2 as [u|err]; [|injection H as <- <-; eapply shr_trans; eassumption].
      eapply shr_trans; [exact R1|]. eapply shr_trans; [exact R2|]. eapply IH. exact H.
  Qed.
  Lemma each_end_shr : forall dl E k, (forall E x s s' r, dl E x s = (s', r) -> shr s s') ->
    forall l s s' r, each_end ord sc dl E k l s = (s', r) -> shr s s'.
  Proof.
    intros dl E k Hdl. induction l as [|[a b] l IH]; intros s s' r H; cbn [each_end] in H.
    - injection H as <- <-. apply shr_refl.
    - destruct (assocs sc a) as [A|]; [|eapply IH; exact H]. destruct (negb _); [eapply IH; exact H|]. cbn zeta in H.
      destruct (each_link _ _ _ _ _ _ _ s) as [s1 r1] eqn:D. pose proof (each_link_shr _ _ _ _ _ _ Hdl _ _ _ _ D) as R1.
      destruct r1 as [u|err]; [|injection H as <- <-; assumption]. eapply shr_trans; [exact R1|]. eapply IH. exact H.
  Qed.
  Definition mark (E : nat) (k : Z) (s : st) : st := set_del s (upd (del s) E (k :: del s E)).
  Definition unmark (E : nat) (k : Z) (s : st) : st := set_del s (upd (del s) E (zremove k (del s E))).
  (** a deletion, between mark and unmark *)
  Lemma delitem_inv : forall fuel E k s s' r, delitem ord sc (S fuel) E k s = (s', r) ->
    (In k (del s E) /\ s' = s /\ r = Ok tt) \/
    (~ In k (del s E) /\ ~ In k (data s E) /\ s' = s /\ r = Err KeyError) \/
    (~ In k (del s E) /\ In k (data s E) /\ exists s1 r1 s2,
       each_end ord sc (delitem ord sc fuel) E k (ends_of sc E) (mark E k s) = (s1, r1) /\
       (match r1 with Ok _ => delete_entity ord sc E k s1 = (s2, r) | Err e => s2 = s1 /\ r = Err e end) /\
       s' = unmark E k s2).
  Proof.
    intros fuel E k s s' r H. cbn [delitem] in H. destruct (zmem k (del s E)) eqn:E1; [injection H as <- <-; apply zmem_in in E1; tauto|].
    apply zmem_nin in E1. destruct (zmem k (data s E)) eqn:E2; cbn [negb] in H; [|injection H as <- <-; apply zmem_nin in E2; tauto].
    apply zmem_in in E2. right. right. split; [assumption|]. split; [assumption|]. cbn zeta in H. fold (mark E k s) in H.
    destruct (each_end _ _ _ _ _ _ (mark E k s)) as [s1 r1] eqn:D. exists s1, r1.
    destruct r1 as [u|e]; [destruct (delete_entity ord sc E k s1) as [s2 r2] eqn:D2; exists s2; injection H as <- <-; auto|].
    exists s1. injection H as <- <-. auto.
  Qed.
  Lemma mark_sym : forall E k s, sym s -> sym (mark E k s).
  Proof. intros E k s [A B C]. split; assumption. Qed.
  Lemma unmark_sym : forall E k s, sym s -> sym (unmark E k s).
  Proof. intros E k s [A B C]. split; assumption. Qed.
  Lemma mark_shr : forall E k s s2, ~ In k (del s E) -> shr (mark E k s) s2 -> shr s (unmark E k s2).
  Proof.
    intros E k s s2 N H Hs. destruct (H (mark_sym _ _ _ Hs)) as [a b c d e]. split.
    - now apply unmark_sym.
    - intros E'. unfold unmark, set_del. cbn [del]. rewrite b. unfold mark, set_del, upd. cbn [del]. rewrite Nat.eqb_refl. destruct (Nat.eqb_spec E' E) as [->|NE]; [now apply zremove_head|]. rewrite b. cbn [mark set_del del]. now rewrite upd_neq.
    - exact c.
    - exact d.
    - exact e.
  Qed.
  Lemma delitem_shr : forall fuel E k s s' r, delitem ord sc fuel E k s = (s', r) -> shr s s'.
  Proof.
    induction fuel as [|fuel IH]; intros E k s s' r H; [cbn [delitem] in H; injection H as <- <-; apply shr_refl|].
    destruct (delitem_inv _ _ _ _ _ _ H) as [(A & -> & ->)|[(A & B & -> & ->)|(A & B & s1 & r1 & s2 & D1 & D2 & ->)]]; [apply shr_refl|apply shr_refl|].
    pose proof (each_end_shr _ E k IH _ _ _ _ D1) as R1. apply mark_shr; [assumption|].
    destruct r1 as [u|err]; [|destruct D2 as [-> _]; assumption]. eapply shr_trans; [exact R1|eapply shr_delete; exact D2].
  Qed.
End Ord.
