(** Forms are what QfSpec.v says. *)
From Coq Require Import Permutation Sorted.
From Verif Require Import Py QfModel QfSpec QfProofs.

Section spart_ind.
  Variable P : spart -> Prop.
  Hypothesis Hi : forall a, P (Item a).
  Hypothesis Hs : forall a v k sel shuf ch, Forall P ch -> P (Sect a v k sel shuf ch).
  Fixpoint spart_ind2 (p : spart) : P p :=
    match p with
    | Item a => Hi a
    | Sect a v k sel shuf ch => Hs a v k sel shuf ch ((fix go l : Forall P l := match l with [] => Forall_nil P | c :: l => Forall_cons c (spart_ind2 c) (go l) end) ch)
    end.
End spart_ind.

Definition clear_ (l : list comp) : Prop := Forall (fun c => c <> Free) l.
Definition opens (b : list spart) : list comp := map Open b.
Definition plain_item (p : spart) : Prop := is_section p = false.

(** ** Step 5 *)
Lemma put_perm : forall x b i, (i < length b)%nat -> Permutation (concat b ++ [x]) (concat (put i x b)).
Proof.
  induction b as [|y b IH]; intros [|i] L; cbn [length] in L; try lia; cbn [put concat].
  - rewrite <- !app_assoc. apply Permutation_app_head. rewrite Permutation_app_comm. reflexivity.
  - rewrite <- app_assoc. apply Permutation_app_head. apply IH. lia.
Qed.
Lemma put_len : forall x b i, length (put i x b) = length b.
Proof. induction b as [|y b IH]; intros [|i]; cbn [put length]; try reflexivity. rewrite IH. reflexivity. Qed.
Lemma put_ne : forall x b i, Forall (fun y => y <> []) b -> Forall (fun y => y <> []) (put i x b).
Proof.
  induction b as [|y b IH]; intros [|i] F; cbn [put]; auto; inversion F; subst; constructor; auto. destruct y; discriminate.
Qed.
Lemma deal_ok : forall l b r, deal l b (Ok r) -> length r = length b /\ Permutation (concat b ++ l) (concat r) /\ (Forall (fun y => y <> []) b -> Forall (fun y => y <> []) r).
Proof.
  induction l as [|x l IH]; intros b r H; cbn [deal] in H; [rk H; rewrite app_nil_r; auto|].
  apply bnd_ok in H as (i & C & H). apply IH in H as (A & B & D). rewrite put_len in A. split; [exact A|]. split; [|intros F; apply D, put_ne, F].
  rewrite <- B. unfold choice in C. destruct (seq 0 (length b)) eqn:E; [discriminate|]. rewrite <- E in C. destruct C as (j & J & X). injection X as <-.
  apply in_seq in J. change (x :: l) with ([x] ++ l). rewrite app_assoc. apply Permutation_app_tail. apply put_perm. lia.
Qed.
Lemma first_ok : forall n l b r, first_buckets n l = Ok (b, r) -> length b = n /\ l = concat b ++ r /\ Forall (fun y => y <> []) b.
Proof.
  induction n as [|n IH]; intros l b r H; cbn [first_buckets] in H; [injection H as <- <-; repeat split; constructor|].
  destruct l as [|x l]; [discriminate|]. destruct (first_buckets n l) as [[b' r']|] eqn:E; [|discriminate]. cbn [rbind] in H. injection H as <- <-.
  apply IH in E as (A & B & C). cbn [length concat app]. split; [congruence|]. split; [congruence|]. constructor; [discriminate|exact C].
Qed.
Lemma expand_ok : forall b n, expand_bucket b = Ok n -> n = opens b /\ Forall plain_item b.
Proof.
  induction b as [|p b IH]; intros n H; cbn [expand_bucket] in H; [injection H as <-; split; [reflexivity|constructor]|].
  destruct (is_section p) eqn:E; [discriminate|]. destruct (expand_bucket b) as [r|]; [|discriminate]. cbn [rbind] in H. injection H as <-.
  destruct (IH r eq_refl) as [-> F]. split; [reflexivity|]. constructor; assumption.
Qed.
(** the places are filled *)
Inductive fill0 : list comp -> list (list spart) -> list comp -> Prop :=
| f_nil : fill0 [] [] []
| f_slot : forall b l bs out, fill0 l bs out -> fill0 (Free :: l) (b :: bs) (opens b ++ out)
| f_other : forall c l bs out, c <> Free -> fill0 l bs out -> fill0 (c :: l) bs (c :: out).
Lemma splice_clear : forall x l n, clear_ x -> splice (x ++ l) n = x ++ splice l n.
Proof.
  induction x as [|c x IH]; intros l n C; [reflexivity|]. inversion C as [|? ? H1 H2]; subst. cbn [app splice]. destruct c; try (rewrite IH by exact H2; reflexivity). congruence.
Qed.
Lemma opens_clear : forall b, clear_ (opens b).
Proof. intros b. apply Forall_forall. intros c C. apply in_map_iff in C as (p & <- & _). discriminate. Qed.
Lemma splice_fill : forall l bs x out, clear_ x -> length bs = length (filter is_free l) -> splice_all bs (x ++ l) = Ok out ->
  exists o, out = x ++ o /\ fill0 l bs o /\ Forall plain_item (concat bs).
Proof.
  induction l as [|c l IH]; intros bs x out C L H.
  - destruct bs; [|discriminate]. cbn in H. injection H as <-. exists []. split; [reflexivity|]. split; constructor.
  - assert (G : c <> Free -> exists o, out = x ++ o /\ fill0 (c :: l) bs o /\ Forall plain_item (concat bs)).
    { intros N. assert (E : length bs = length (filter is_free l)) by (rewrite L; destruct c; reflexivity || congruence).
      replace (x ++ c :: l) with ((x ++ [c]) ++ l) in H by (rewrite <- app_assoc; reflexivity).
      apply IH in H as (o & -> & F & Q); [|apply Forall_app; split; [exact C|constructor; [exact N|constructor]]|exact E].
      exists (c :: o). rewrite <- app_assoc. split; [reflexivity|]. split; [constructor; assumption|exact Q]. }
    destruct c; try (apply G; discriminate). clear G. cbn [filter is_free length] in L. destruct bs as [|b bs]; [discriminate|].
    cbn [splice_all] in H. destruct (expand_bucket b) as [n|] eqn:E; [|discriminate]. apply expand_ok in E as [-> Fb]. cbn [rbind] in H.
    rewrite splice_clear in H by exact C. cbn [splice] in H. rewrite app_assoc in H. cbn [length] in L. injection L as L.
    apply IH in H as (o & -> & F & Q); [|apply Forall_app; split; [exact C|apply opens_clear]|exact L].
    exists (opens b ++ o). rewrite <- app_assoc. split; [reflexivity|]. split; [constructor; exact F|]. cbn [concat]. apply Forall_app. auto.
Qed.
Lemma fill_clear : forall l, clear_ l -> fill0 l [] l.
Proof. induction 1; constructor; assumption. Qed.
Lemma arrange_ok : forall l sh out, arrange l sh (Ok out) -> (In Free l -> sh <> []) ->
  exists bs, Permutation sh (concat bs) /\ fill0 l bs out /\ Forall plain_item (concat bs) /\ Forall (fun y => y <> []) bs.
Proof.
  intros l sh out H N. unfold arrange in H. destruct sh as [|p sh].
  - rk H. exists []. split; [reflexivity|]. split; [|split; constructor]. apply fill_clear, Forall_forall. intros c C ->. exact (N C eq_refl).
  - apply bnd_ok in H as (sh' & (s' & P & E) & H). injection E as <-. apply bnd_ok in H as ([b rest] & F & H). unfold lift in F. symmetry in F.
    apply first_ok in F as (L & -> & NE). apply bnd_ok in H as (b' & D & H). apply deal_ok in D as (L' & P' & NE'). unfold lift in H. symmetry in H.
    apply (splice_fill l b' []) in H as (o & -> & F & Q); [|constructor|congruence]. exists b'. rewrite P, P'. auto.
Qed.
Lemma blocks_opens : forall e b, Forall plain_item b -> blocks e b (opens b).
Proof. induction 1 as [|p b H F IH]; cbn [opens map]; constructor; [rewrite H; reflexivity|exact IH]. Qed.
Lemma fill0_fill : forall e l bs out, fill0 l bs out -> Forall plain_item (concat bs) -> Forall (fun y => y <> []) bs -> fill e l bs out.
Proof.
  induction 1 as [|b l bs out H IH|c l bs out N H IH]; intros Q NE.
  - constructor.
  - cbn [concat] in Q. apply Forall_app in Q as [Q1 Q2]. inversion NE; subst. constructor; auto. apply blocks_opens. exact Q1.
  - constructor; auto.
Qed.
Lemma fill0_clear : forall l bs out, fill0 l bs out -> clear_ out.
Proof. induction 1; [constructor|apply Forall_app; split; [apply opens_clear|assumption]|constructor; assumption]. Qed.
Lemma fill0_ne : forall l bs out, fill0 l bs out -> l <> [] -> Forall (fun y => y <> []) bs -> out <> [].
Proof. intros l bs out [|b l' bs' out' H|c l' bs' out' N H] NE F; [congruence| |discriminate]. inversion F; subst. destruct b; [congruence|discriminate]. Qed.

(** ** Step 4 *)
Lemma adopt_ok : forall l gs, adopt l = Ok gs -> l = opens gs /\ Forall (fun g => fixed (at_ g) = false) gs.
Proof.
  induction l as [|c l IH]; intros gs H; cbn [adopt] in H; [injection H as <-; split; [reflexivity|constructor]|].
  destruct c as [|g| | | |]; try discriminate. destruct (fixed (at_ g)) eqn:F; [discriminate|]. destruct (adopt l) as [r|]; [|discriminate].
  cbn [rbind] in H. injection H as <-. destruct (IH r eq_refl) as [-> G]. split; [reflexivity|]. constructor; assumption.
Qed.
Definition good (p : spart) (expand : bool) (m : nd (list comp)) : Prop := forall out, m (Ok out) -> form p expand out /\ out <> [] /\ clear_ out.
Definition good_kid (k : kid) : Prop := is_section (k_part k) = true -> good (k_part k) false (k_bare k) /\ good (k_part k) true (k_full k).
Lemma splits_section : forall p, splits p = true -> is_section p = true. Proof. intros [a|a v k sel s ch] H; [discriminate|reflexivity]. Qed.
Lemma lay_out_ok : forall shuf e ks l sh, Forall good_kid ks -> lay_out shuf e ks (Ok (l, sh)) ->
  line shuf e (map k_part ks) l sh /\ (In Free l -> sh <> []) /\ (ks <> [] -> l <> []).
Proof.
  intros shuf e ks. induction ks as [|k ks IH]; intros l sh G H; cbn [lay_out map] in H |- *.
  - rk H. split; [constructor|]. split; [intros []|congruence].
  - inversion G as [|? ? G1 G2]; subst. apply bnd_ok in H as ([l1 s1] & H1 & H). apply bnd_ok in H as ([l2 s2] & H2 & H). rk H.
    destruct (IH l2 s2 G2 H2) as (I1 & I2 & _). set (p := k_part k) in *.
    destruct (shuf && negb (fixed (at_ p))) eqn:C.
    + apply andb_prop in C as [-> C]. apply negb_true_iff in C. destruct (splits p) eqn:Sp.
      * apply bnd_ok in H1 as (x & X & H1). destruct (adopt x) as [gs|] eqn:A; [|discriminate]. rk H1. apply adopt_ok in A as [-> F].
        destruct (G1 (splits_section _ Sp)) as [Gb _]. destruct (Gb _ X) as (Fm & Ne & _). cbn [app]. split; [constructor; assumption|].
        split; [|discriminate]. intros _. destruct gs; [exfalso; apply Ne; reflexivity|discriminate].
      * rk H1. cbn [app]. split; [constructor; assumption|]. split; discriminate.
    + destruct (is_section p && e) eqn:Se.
      * apply andb_prop in Se as [Se ->]. apply bnd_ok in H1 as (x & X & H1). rk H1. destruct (G1 Se) as [_ Gf]. destruct (Gf _ X) as (Fm & Ne & Cl).
        cbn [app]. split; [|split; [|discriminate]].
        -- replace (Open p :: (x ++ [Close p]) ++ l2) with ((Open p :: x ++ Close p :: []) ++ l2) by (cbn [app]; rewrite <- !app_assoc; reflexivity).
           apply line_stay; [exact C| |exact I1]. apply blocks_section; [exact Se|exact Fm|constructor].
        -- intros [Z|Z]; [discriminate|]. apply in_app_or in Z as [Z|Z]; [|auto]. apply in_app_or in Z as [Z|[Z|[]]]; [|discriminate].
           unfold clear_ in Cl. rewrite Forall_forall in Cl. exfalso. exact (Cl _ Z eq_refl).
      * rk H1. split; [|split; [|discriminate]].
        -- apply line_stay; [exact C| |exact I1]. apply blocks_leaf; [exact Se|constructor].
        -- cbn [app]. intros [Z|Z]; [discriminate|auto].
Qed.
Definition kid_of (c : spart) : kid := Kid c (select c false) (select c true).
Lemma get_nths : forall ch idx, get (map kid_of ch) idx = map kid_of (nths ch idx).
Proof.
  intros ch idx. unfold get, nths. induction idx as [|i idx IH]; cbn [flat_map map]; [reflexivity|]. rewrite IH, map_app. f_equal.
  rewrite nth_error_map. destruct (nth_error ch i); reflexivity.
Qed.
Lemma kid_parts : forall ch, map k_part (map kid_of ch) = ch.
Proof. intros. rewrite map_map. cbn [kid_of k_part]. apply map_id. Qed.
Lemma nths_in : forall A (l : list A) idx x, In x (nths l idx) -> In x l.
Proof.
  intros A l idx x H. unfold nths in H. apply in_flat_map in H as (i & _ & H). destruct (nth_error l i) as [y|] eqn:E; [|destruct H].
  destruct H as [<-|[]]. eapply nth_error_In; eauto.
Qed.
Lemma fold_and : forall (P : spart -> Prop) l, fold_right (fun c q => P c /\ q) True l -> Forall P l.
Proof. induction l as [|c l IH]; intros H; constructor; [apply H|apply IH, H]. Qed.
Lemma nths_ne : forall A (l : list A) idx, idx <> [] -> Forall (fun i => (i < length l)%nat) idx -> nths l idx <> [].
Proof.
  intros A l [|i idx] N F; [congruence|]. inversion F as [|? ? H1 H2]; subst. cbn [nths flat_map]. destruct (nth_error l i) eqn:E; [discriminate|]. apply nth_error_None in E. lia.
Qed.
Lemma form_good : forall p, full p -> is_section p = true -> forall e, good p e (select p e).
Proof.
  induction p as [a|a v k sel shuf ch IH] using spart_ind2; intros Fu Se e; [discriminate|]. cbn [full] in Fu. destruct Fu as [Tg Fu]. apply fold_and in Fu.
  intros out H. cbn [select] in H. change (choose sel shuf (map kid_of ch) e (Ok out)) in H. unfold choose in H. rewrite kid_parts in H.
  apply bnd_ok in H as (idx & P & H). apply pick_ok in P. apply bnd_ok in H as ([l sh] & L & A). rewrite get_nths in L.
  assert (G : Forall good_kid (map kid_of (nths ch idx))).
  { apply Forall_forall. intros kd K. apply in_map_iff in K as (c & <- & C). apply nths_in in C. rewrite Forall_forall in IH, Fu. intros S. cbn [kid_of k_part k_bare k_full] in *.
    split; apply IH; auto. }
  destruct (lay_out_ok _ _ _ _ _ G L) as (L1 & L2 & L3). rewrite kid_parts in L1. destruct (arrange_ok _ _ _ A L2) as (bs & B1 & B2 & B3 & B4).
  split; [|split].
  - eapply form_of; eauto. apply fill0_fill; assumption.
  - assert (NE : nths ch idx <> []). { destruct P as (_ & P1 & P2 & _). apply nths_ne; [|exact P2]. destruct idx; [cbn in P1; lia|discriminate]. }
    eapply fill0_ne; [exact B2| |exact B4]. apply L3. intros X. apply NE. destruct (nths ch idx); [reflexivity|discriminate].
  - eapply fill0_clear; eauto.
Qed.
