(** Insertions, updates and changes of links in the in-memory store. *)
From Verif Require Import Py MemdsModel MemdsPrim MemdsSpec MemdsDel MemdsCasc.
From Coq Require Import Permutation.

(** induction over entities with bindings *)
Lemma ent_rec : forall P : ent -> Prop,
  (forall k bs, (forall n b e, In (n, b) bs -> In (BNew e) b -> P e) -> P (Ent k bs)) -> forall e, P e.
Proof.
  intros P H. fix IH 1. intros [k bs]. apply H. clear H.
  induction bs as [|[n0 b0] bs IHbs]; intros n b e I J; [destruct I|]. destruct I as [I|I]; [|exact (IHbs n b e I J)].
  injection I as <- <-. clear IHbs bs.
  induction b0 as [|[x|x|e'] b0 IHb]; cbn [In] in J; [destruct J| | |]; (destruct J as [J|J]; [|exact (IHb J)]); [discriminate J|discriminate J|].
  injection J as <-. exact (IH e').
Qed.

Section Ord.
  Variable ord : list Z -> list Z.
  Hypothesis Hord : forall l, Permutation (ord l) l.
  Variable sc : schema.
  Notation Lk := (Lk).

  (** ** The effect of links and unlinks *)
  Definition same (n : end_) (k x : Z) (a : nat) (f t : Z) : Prop := a = fst n /\ (if snd n then f = x /\ t = k else f = k /\ t = x).
  Lemma link_L : forall s n k x a f t, L (link s n k x) a f t <-> L s a f t \/ same n k x a f t.
  Proof. intros s n k x a f t. unfold link, same. destruct (snd n); rewrite add_link_L; tauto. Qed.
  Lemma unlink_L : forall s n k x a f t, L (unlink s n k x) a f t <-> L s a f t /\ ~ same n k x a f t.
  Proof. intros s n k x a f t. unfold unlink, same. destruct (snd n); rewrite remove_link_L; tauto. Qed.
  Lemma link_sym : forall s n k x, sym s -> sym (link s n k x).
  Proof. intros s n k x H. unfold link. destruct (snd n); now apply add_link_sym. Qed.
  Lemma unlink_sym : forall s n k x, sym s -> sym (unlink s n k x).
  Proof. intros s n k x H. unfold unlink. destruct (snd n); now apply remove_link_sym. Qed.
  Lemma link_data : forall s n k x, data (link s n k x) = data s.
  Proof. intros. unfold link. now destruct (snd n). Qed.
  Lemma unlink_data : forall s n k x, data (unlink s n k x) = data s.
  Proof. intros. unfold unlink. now destruct (snd n). Qed.
  Lemma link_del : forall s n k x, del (link s n k x) = del s.
  Proof. intros. unfold link. now destruct (snd n). Qed.
  Lemma unlink_del : forall s n k x, del (unlink s n k x) = del s.
  Proof. intros. unfold unlink. now destruct (snd n). Qed.
  Lemma Lk_L : forall s n k x, Lk s n k x <-> L s (fst n) (if snd n then x else k) (if snd n then k else x).
  Proof. intros s n k x. unfold MemdsCasc.Lk. destruct (snd n); reflexivity. Qed.
  Lemma Lk_link : forall s n k x m k' x', Lk (link s n k x) m k' x' <-> Lk s m k' x' \/
    (fst m = fst n /\ if Bool.eqb (snd m) (snd n) then k' = k /\ x' = x else k' = x /\ x' = k).
  Proof.
    intros. rewrite !Lk_L, link_L. unfold same. destruct (snd m), (snd n); cbn [Bool.eqb]; tauto.
  Qed.
  Lemma Lk_unlink : forall s n k x m k' x', Lk (unlink s n k x) m k' x' <-> Lk s m k' x' /\
    ~ (fst m = fst n /\ if Bool.eqb (snd m) (snd n) then k' = k /\ x' = x else k' = x /\ x' = k).
  Proof.
    intros. rewrite !Lk_L, unlink_L. unfold same. destruct (snd m), (snd n); cbn [Bool.eqb]; tauto.
  Qed.
  Lemma lookup_nodup : forall s n k, sym s -> NoDup (lookup ord s n k).
  Proof. intros s n k H. unfold lookup. destruct (snd n); [now apply links_to_nodup|now apply links_from_nodup]. Qed.

  Lemma nav_set_cases : forall A n k x s s' r, nav_set ord A n k x s = (s', r) ->
    (s' = s /\ (r = Ok tt -> In x (lookup ord s n k))) \/
    (s' = link s n k x /\ r = Ok tt /\ In x (data s (set_of A (negb (snd n)))) /\ ~ In x (lookup ord s n k) /\
     (mult_of A (negb (snd n)) <> Many -> lookup ord s n k = []) /\ (mult_of A (snd n) <> Many -> rlookup ord s n x = [])).
  Proof.
    intros A n k x s s' r H. unfold nav_set in H. cbn zeta in H.
    destruct (zmem x (lookup ord s n k)) eqn:E1; [injection H as <- <-; left; split; [reflexivity|]; intros _; now apply zmem_in|]. apply zmem_nin in E1.
    destruct (zmem x (data s _)) eqn:E2; cbn [negb] in H; [|injection H as <- <-; left; split; [reflexivity|discriminate]]. apply zmem_in in E2.
    destruct (negb (is_many (mult_of A (negb (snd n)))) && _) eqn:E3; [injection H as <- <-; left; split; [reflexivity|discriminate]|].
    destruct (negb (is_many (mult_of A (snd n))) && _) eqn:E4; [injection H as <- <-; left; split; [reflexivity|discriminate]|].
    injection H as <- <-. right. split; [reflexivity|]. split; [reflexivity|]. split; [assumption|]. split; [assumption|]. split.
    - intros M. destruct (mult_of A (negb (snd n))); [|..|congruence]; cbn [is_many negb andb] in E3; destruct (lookup ord s n k); congruence.
    - intros M. destruct (mult_of A (snd n)); [|..|congruence]; cbn [is_many negb andb] in E4; destruct (rlookup ord s n x); congruence.
  Qed.
  Lemma unlinks_spec : forall n k x l s, sym s -> let s' := fold_left (fun s y => if y =? x then s else unlink s n k y) l s in
    sym s' /\ data s' = data s /\ del s' = del s /\
    (forall a f t, L s' a f t <-> L s a f t /\ ~ exists y, In y l /\ y <> x /\ same n k y a f t).
  Proof.
    intros n k x. induction l as [|y l IH]; intros s H; cbn zeta; cbn [fold_left].
    - split; [assumption|]. split; [reflexivity|]. split; [reflexivity|]. intros. split; [|tauto]. intros K. split; [assumption|]. intros (y & [] & _).
    - destruct (Z.eqb_spec y x) as [->|N].
      + destruct (IH s H) as (A & B & C & D). split; [assumption|]. split; [assumption|]. split; [assumption|]. intros a f t. rewrite D. split; intros [P Q]; (split; [assumption|]); intros (y & I & Ny & Sy); apply Q; exists y; [destruct I as [->|I]; [congruence|auto]|split; [now right|auto]].
      + destruct (IH _ (unlink_sym s n k y H)) as (A & B & C & D). split; [assumption|]. split; [now rewrite B, unlink_data|]. split; [now rewrite C, unlink_del|].
        intros a f t. rewrite D, unlink_L. split.
        * intros [[P Q] R]. split; [assumption|]. intros (z & [->|I] & Nz & Sz); [tauto|]. apply R. exists z. auto.
        * intros [P R]. split; [split; [assumption|]|].
          -- intros Q. apply R. exists y. split; [now left|auto].
          -- intros (z & I & Nz & Sz). apply R. exists z. split; [now right|auto].
  Qed.
  (** a replace: nothing, or nav_set on an entity without links, or the new link and no other *)
  Lemma nav_replace_cases : forall A n k x s s' r, sym s -> nav_replace ord A n k x s = (s', r) ->
    (s' = s /\ (r = Ok tt -> lookup ord s n k = [x])) \/
    (mult_of A (snd n) = One /\ lookup ord s n k = [] /\ nav_set ord A n k x s = (s', r)) \/
    (mult_of A (snd n) <> One /\ r = Ok tt /\ sym s' /\ data s' = data s /\ del s' = del s /\
     forall a f t, L s' a f t <-> same n k x a f t \/ (L s a f t /\ ~ exists y, same n k y a f t)).
  Proof.
    intros A n k x s s' r Hs H. unfold nav_replace in H. cbn zeta in H.
    destruct (is_single (lookup ord s n k) x) eqn:E1.
    { injection H as <- <-. left. split; [reflexivity|]. intros _. destruct (lookup ord s n k) as [|y [|z l]]; try discriminate. apply Z.eqb_eq in E1. now subst. }
    destruct (is_one (mult_of A (snd n))) eqn:E2.
    - destruct (lookup ord s n k) eqn:E3; [|injection H as <- <-; left; split; [reflexivity|discriminate]].
      right. left. split; [destruct (mult_of A (snd n)); [discriminate|reflexivity|discriminate]|]. auto.
    - right. right. set (s1 := if zmem x (lookup ord s n k) then s else link s n k x) in H.
      assert (S1 : sym s1 /\ data s1 = data s /\ del s1 = del s /\ forall a f t, L s1 a f t <-> L s a f t \/ same n k x a f t).
      { unfold s1. destruct (zmem x (lookup ord s n k)) eqn:E3.
        - split; [assumption|]. split; [reflexivity|]. split; [reflexivity|]. intros a f t. split; [now left|]. intros [P|P]; [assumption|].
          apply zmem_in in E3. apply (lookup_in ord Hord) in E3; [|assumption]. rewrite Lk_L in E3. destruct P as [-> P]. destruct (snd n); destruct P as [-> ->]; exact E3.
        - split; [now apply link_sym|]. split; [apply link_data|]. split; [apply link_del|]. intros. apply link_L. }
      destruct S1 as (S1 & S2 & S3 & S4). destruct (unlinks_spec n k x (lookup ord s n k) s1 S1) as (A1 & B1 & C1 & D1).
      injection H as <- <-. split; [intros Q; rewrite Q in E2; discriminate|]. split; [reflexivity|]. split; [assumption|]. split; [congruence|]. split; [congruence|].
      intros a f t. rewrite D1, S4. split.
      + intros [[P|P] Q]; [|now left]. destruct (L_dec s1 a f t) as [Y|Y]; [|exfalso; apply Y, S4; now left].
        assert (DE : same n k x a f t \/ ~ same n k x a f t). { unfold same. destruct (Nat.eq_dec a (fst n)); [|tauto]. destruct (snd n), (Z.eq_dec f x), (Z.eq_dec t k), (Z.eq_dec f k), (Z.eq_dec t x); tauto. }
        destruct DE as [DE|DE]; [now left|]. right. split; [assumption|]. intros (y & Sy). apply Q. exists y.
        assert (Iy : In y (lookup ord s n k)). { apply (lookup_in ord Hord); [assumption|]. rewrite Lk_L. destruct Sy as [<- Sy]. destruct (snd n); destruct Sy as [<- <-]; exact P. }
        split; [assumption|]. split; [|assumption]. intros ->. contradiction.
      + intros [P|[P Q]].
        * split; [now right|]. intros (y & I & Ny & Sy). destruct P as [_ P], Sy as [_ Sy]. destruct (snd n); intuition congruence.
        * split; [now left|]. intros (y & I & Ny & Sy). apply Q. now exists y.
  Qed.

  (** ** Anything that an insertion does *)
  Definition add (E : nat) (k : Z) (s : st) : st := set_data s (upd (data s) E (data s E ++ [k])).
  Lemma nav_of_some : forall E n A, nav_of sc E n = Some A -> assocs sc (fst n) = Some A /\ set_of A (snd n) = E /\ has_nav A (snd n) = true.
  Proof.
    intros E n A H. unfold nav_of in H. destruct (assocs sc (fst n)) as [A'|]; [|discriminate]. destruct (Nat.eqb_spec (set_of A' (snd n)) E) as [<-|N]; [|discriminate].
    destruct (has_nav A' (snd n)) eqn:E1; [|discriminate]. injection H as <-. auto.
  Qed.
  Section Gen.
    Variable R : st -> st -> Prop.
    Variable G : nat -> Z -> Prop.
    Hypothesis R_refl : forall s, R s s.
    Hypothesis R_trans : forall a b c, R a b -> R b c -> R a c.
    Hypothesis R_incl : forall s s' E, R s s' -> incl (data s E) (data s' E).
    Hypothesis R_add : forall E k s, ~ In k (data s E) -> R s (add E k s).
    Hypothesis R_set : forall E A n k x s s' r, nav_of sc E n = Some A -> In k (data s E) -> nav_set ord A n k x s = (s', r) -> R s s'.
    Hypothesis R_put : forall E A n k x s s' r, nav_of sc E n = Some A -> In k (data s E) ->
      In x (data s (set_of A (negb (snd n)))) \/ G (set_of A (negb (snd n))) x -> put ord A n k x s = (s', r) -> R s s'.
    Definition insspec (e : ent) : Prop := forall E ign s s' r, (forall E' x, binds sc (let (_, bs) := e in bs) E' x -> G E' x) ->
      insert ord sc E ign e s = (s', r) -> R s s'.
    Lemma each_binding_gen : forall E A n k b, nav_of sc E n = Some A -> (forall e, In (BNew e) b -> insspec e) ->
      (forall x, In (BObj x) b -> G (set_of A (negb (snd n))) x) ->
      (forall k' bs' E' x, In (BNew (Ent k' bs')) b -> binds sc bs' E' x -> G E' x) ->
      forall s s' r, In k (data s E) -> each_binding ord (insert ord sc) A n k b s = (s', r) -> R s s'.
    Proof.
      intros E A n k b HA. induction b as [|x b IH]; intros Hi Ho Hn s s' r Hk H; cbn [each_binding] in H.
      - injection H as <- <-. apply R_refl.
      - cbn zeta in H. match type of H with (let (_, _) := ?M in _) = _ => destruct M as [s1 r1] eqn:D end.
        assert (R1 : R s s1).
        { destruct x as [x|x|[k' bs']].
          - destruct (zmem x _) eqn:Z1; [|injection D as <- <-; apply R_refl]. apply zmem_in in Z1. eapply R_put; eauto.
          - eapply R_put; [exact HA|exact Hk| |exact D]. right. apply Ho. now left.
          - destruct (insert ord sc _ _ (Ent k' bs') s) as [s2 r2] eqn:D2.
            assert (R2 : R s s2). { eapply (Hi (Ent k' bs')); [now left| |exact D2]. intros E' y B. eapply Hn; [now left|exact B]. }
            destruct r2 as [u|err]; [|injection D as <- <-; assumption]. eapply R_trans; [exact R2|]. eapply R_set; [exact HA| |exact D]. now apply (R_incl s s2 E R2). }
        destruct r1 as [u|err]; [|injection H as <- <-; assumption]. eapply R_trans; [exact R1|]. eapply IH; [..|exact H].
        + intros e I. apply Hi. now right.
        + intros y I. apply Ho. now right.
        + intros k' bs' E' y I. eapply Hn. right. exact I.
        + now apply (R_incl s s1 E R1).
    Qed.
    Lemma each_nav_gen : forall E k bs, (forall n b e, In (n, b) bs -> In (BNew e) b -> insspec e) ->
      (forall E' x, binds sc bs E' x -> G E' x) -> forall s s' r, In k (data s E) -> each_nav ord sc (insert ord sc) E k bs s = (s', r) -> R s s'.
    Proof.
      intros E k. induction bs as [|[n b] bs IH]; intros Hi Hb s s' r Hk H; cbn [each_nav] in H.
      - injection H as <- <-. apply R_refl.
      - destruct (nav_of sc E n) as [A|] eqn:HA; [|injection H as <- <-; apply R_refl].
        destruct (each_binding _ _ _ _ _ b s) as [s1 r1] eqn:D.
        assert (R1 : R s s1).
        { eapply each_binding_gen; [exact HA| | | |exact Hk|exact D].
          - intros e I. apply (Hi n b); [now left|assumption].
          - intros x I. apply Hb. eapply binds_obj; [now left|exact I|apply (nav_of_some _ _ _ HA)].
          - intros k' bs' E' x I B. apply Hb. eapply binds_new; [now left|exact I|exact B]. }
        destruct r1 as [u|err]; [|injection H as <- <-; assumption]. eapply R_trans; [exact R1|]. eapply IH; [..|exact H].
        + intros n' b' e I. apply (Hi n' b' e). now right.
        + intros E' x B. apply Hb. inversion B; subst; [eapply binds_obj; [right|..]; eauto|eapply binds_new; [right|..]; eauto].
        + now apply (R_incl s s1 E R1).
    Qed.
    Lemma insert_gen : forall e, insspec e.
    Proof.
      apply ent_rec. intros k bs IH E ign s s' r Hb H. cbn [insert] in H. destruct (negb _); [injection H as <- <-; apply R_refl|].
      destruct (zmem k (data s E)) eqn:Z1; [injection H as <- <-; apply R_refl|]. apply zmem_nin in Z1. fold (add E k s) in H.
      eapply R_trans; [apply R_add; exact Z1|]. eapply each_nav_gen; [exact IH|exact Hb| |exact H].
      cbn [add set_data data]. rewrite upd_eq. apply in_or_app. right. now left.
    Qed.
    Lemma update_gen : forall E k bs s s' r, (forall E' x, binds sc bs E' x -> G E' x) -> update ord sc E k bs s = (s', r) -> R s s'.
    Proof.
      intros E k bs s s' r Hb H. unfold update in H. destruct (zmem k (data s E)) eqn:Z1; [|injection H as <- <-; apply R_refl]. apply zmem_in in Z1.
      eapply each_nav_gen; [|exact Hb|exact Z1|exact H]. intros n b e _ _. apply insert_gen.
    Qed.
  End Gen.
End Ord.
