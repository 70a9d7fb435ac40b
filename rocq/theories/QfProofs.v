(** Lemmas about QfModel.v *)
From Coq Require Import Permutation Sorted.
From Verif Require Import Py QfModel QfSpec.

Lemma bnd_ok : forall A B (m : nd A) (f : A -> nd B) b, bnd m f (Ok b) -> exists a, m (Ok a) /\ f a (Ok b).
Proof. intros A B m f b [H|(e & _ & H)]; [exact H|discriminate]. Qed.
Lemma bnd_in : forall A B (m : nd A) (f : A -> nd B) a r, m (Ok a) -> f a r -> bnd m f r.
Proof. intros. left. eauto. Qed.
Ltac bk H := apply bnd_ok in H as (? & ? & H).
Ltac rk H := unfold ret in H; injection H as H; subst.

(** ** pick *)
Lemma remove1_perm : forall i l, In i l -> Permutation l (i :: remove1 i l).
Proof.
  intros i l. induction l as [|x l IH]; intros H; [destruct H|]. cbn [remove1]. destruct (Nat.eqb_spec x i) as [->|N]; [reflexivity|].
  destruct H as [H|H]; [contradiction|]. rewrite (IH H) at 1. apply perm_swap.
Qed.
Lemma insert_perm : forall x l, Permutation (x :: l) (insert x l).
Proof.
  induction l as [|y l IH]; cbn [insert]; [reflexivity|]. destruct (Nat.leb x y); [reflexivity|]. rewrite perm_swap, IH. reflexivity.
Qed.
Lemma sort_perm : forall l, Permutation l (sort l).
Proof. induction l as [|x l IH]; cbn [sort]; [reflexivity|]. rewrite <- insert_perm, <- IH. reflexivity. Qed.
Lemma insert_sorted : forall x l, Sorted le l -> Sorted le (insert x l).
Proof.
  induction l as [|y l IH]; intros H; cbn [insert]; [repeat constructor|]. destruct (Nat.leb_spec x y); [constructor; [exact H|constructor; assumption]|].
  inversion H as [|? ? H1 H2]; subst. constructor; [auto|]. destruct l as [|z l]; cbn [insert]; [constructor; lia|].
  inversion H2; subst. destruct (Nat.leb x z); constructor; lia.
Qed.
Lemma sort_sorted : forall l, Sorted le (sort l).
Proof. induction l; cbn [sort]; [constructor|]. apply insert_sorted. assumption. Qed.
Lemma sorted_unique : forall l l', Sorted le l -> Sorted le l' -> Permutation l l' -> l = l'.
Proof.
  intros l l' H H'. apply Sorted_StronglySorted in H; [|exact Nat.le_trans]. apply Sorted_StronglySorted in H'; [|exact Nat.le_trans].
  revert l' H'. induction H as [|x l H IH F]; intros l' H' P; [apply Permutation_nil in P; congruence|].
  destruct H' as [|y l' H' F']; [symmetry in P; apply Permutation_nil in P; discriminate|].
  assert (x = y).
  { assert (A : In x (y :: l')) by (eapply Permutation_in; [exact P|left; reflexivity]).
    assert (B : In y (x :: l)) by (eapply Permutation_in; [symmetry; exact P|left; reflexivity]).
    destruct A as [A|A]; [congruence|]. destruct B as [B|B]; [congruence|]. rewrite Forall_forall in F, F'. apply F in B. apply F' in A. lia. }
  subst y. f_equal. apply IH; [exact H'|]. eapply Permutation_cons_inv. exact P.
Qed.
(** the indexes of the required children *)
Fixpoint reqs (i : nat) (l : list spart) : list nat :=
  match l with [] => [] | c :: l => if required (at_ c) then i :: reqs (S i) l else reqs (S i) l end.
Lemma reqs_ge : forall l i j, In j (reqs i l) -> (i <= j < i + length l)%nat.
Proof.
  induction l as [|c l IH]; intros i j H; cbn in H |- *; [contradiction|]. destruct (required (at_ c)).
  - destruct H as [<-|H]; [lia|]. apply IH in H. lia.
  - apply IH in H. lia.
Qed.
Lemma reqs_nodup : forall l i, NoDup (reqs i l).
Proof.
  induction l as [|c l IH]; intros i; cbn [reqs]; [constructor|]. destruct (required (at_ c)); [|apply IH].
  constructor; [|apply IH]. intros H. apply reqs_ge in H. lia.
Qed.
Lemma reqs_in : forall l i j c, nth_error l j = Some c -> required (at_ c) = true -> In (i + j)%nat (reqs i l).
Proof.
  induction l as [|c0 l IH]; intros i [|j] c H R; cbn in H; try discriminate; cbn [reqs].
  - injection H as <-. rewrite R, Nat.add_0_r. left. reflexivity.
  - replace (i + S j)%nat with (S i + j)%nat by lia. destruct (required (at_ c0)); [right|]; eapply IH; eauto.
Qed.
Lemma in_reqs : forall l i j, In j (reqs i l) -> exists c, nth_error l (j - i) = Some c /\ required (at_ c) = true.
Proof.
  induction l as [|c l IH]; intros i j H; cbn [reqs] in H; [contradiction|].
  assert (G : In j (reqs (S i) l) -> exists c0, nth_error (c :: l) (j - i) = Some c0 /\ required (at_ c0) = true).
  { intros G. pose proof (reqs_ge _ _ _ G). apply IH in G as (c0 & N & R). exists c0. split; [|exact R].
    replace (j - i)%nat with (S (j - S i)) by lia. exact N. }
  destruct (required (at_ c)) eqn:R; [|auto]. destruct H as [<-|H]; [|auto]. rewrite Nat.sub_diag. exists c. split; [reflexivity|exact R].
Qed.
Lemma required_loop_eq : forall repl l i s b, (repl = false -> Permutation (s ++ b) (s ++ b)) ->
  required_loop i l repl s b = (s ++ reqs i l, if repl then b else fold_left (fun b i => remove1 i b) (reqs i l) b).
Proof.
  intros repl. induction l as [|c l IH]; intros i s b H; cbn [required_loop reqs]; [rewrite app_nil_r; destruct repl; reflexivity|].
  destruct (required (at_ c)); [|apply IH; auto]. rewrite IH by auto. rewrite <- app_assoc. cbn [app fold_left]. destruct repl; reflexivity.
Qed.
Lemma fold_remove : forall r b, NoDup r -> incl r b -> Permutation b (r ++ fold_left (fun b i => remove1 i b) r b).
Proof.
  induction r as [|x r IH]; intros b N I; cbn [fold_left app]; [reflexivity|]. inversion N as [|? ? N1 N2]; subst.
  assert (X : In x b) by (apply I; left; reflexivity). pose proof (remove1_perm x b X) as P. rewrite P at 1. constructor.
  apply IH; [exact N2|]. intros y Y. assert (Y' : In y b) by (apply I; right; exact Y). apply (Permutation_in y P) in Y' as [Y'|Y']; [subst; contradiction|exact Y'].
Qed.
Lemma top_up_ok : forall repl n s b r, top_up n repl s b (Ok r) ->
  exists t, r = s ++ t /\ length t = n /\ incl t b /\ (repl = false -> NoDup b -> NoDup t).
Proof.
  intros repl. induction n as [|n IH]; intros s b r H; cbn [top_up] in H.
  - rk H. exists []. rewrite app_nil_r. repeat split; try constructor. intros x [].
  - destruct b as [|y b]; [discriminate|]. apply bnd_ok in H as (i & C & H). destruct C as (i' & I & E). injection E as <-.
    apply IH in H as (t & -> & L & Inc & N). exists (i :: t). rewrite <- app_assoc. split; [reflexivity|]. split; [cbn [length]; lia|].
    pose proof (remove1_perm i _ I) as P. split.
    + intros x [<-|X]; [exact I|]. apply Inc in X. destruct repl; [exact X|]. eapply Permutation_in; [symmetry; exact P|]. right. exact X.
    + intros R D. subst repl. apply (Permutation_NoDup P) in D. inversion D as [|? ? D1 D2]; subst. constructor; [|auto]. intros X. apply D1. apply Inc. exact X.
Qed.
Lemma top_up_in : forall repl t s b, incl t b -> (repl = false -> NoDup t) -> top_up (length t) repl s b (Ok (s ++ t)).
Proof.
  intros repl. induction t as [|i t IH]; intros s b Inc N; cbn [length top_up]; [rewrite app_nil_r; reflexivity|].
  assert (I : In i b) by (apply Inc; left; reflexivity). destruct b as [|y b]; [destruct I|].
  eapply bnd_in; [exists i; split; [exact I|reflexivity]|].
  replace (s ++ i :: t) with ((s ++ [i]) ++ t) by (rewrite <- app_assoc; reflexivity). apply IH.
  - intros x X. assert (X' : In x (y :: b)) by (apply Inc; right; exact X). destruct repl; [exact X'|]. pose proof (remove1_perm i _ I) as P.
    apply (Permutation_in x P) in X' as [<-|X']; [|exact X']. specialize (N eq_refl). inversion N. contradiction.
  - intros R. specialize (N R). inversion N. assumption.
Qed.
Lemma top_up_err : forall repl n s b e, top_up n repl s b (Err e) -> e = SelectionError /\ (if repl then b = [] /\ (0 < n)%nat else (length b < n)%nat).
Proof.
  intros repl. induction n as [|n IH]; intros s b e H; cbn [top_up] in H; [discriminate|].
  destruct b as [|y b]; [injection H as <-; split; [reflexivity|]; destruct repl; [split; [reflexivity|lia]|cbn; lia]|].
  destruct H as [(i & (i' & I & E) & H)|(e' & (i' & _ & E) & _)]; [|discriminate]. injection E as <-. apply IH in H as [-> H]. split; [reflexivity|].
  destruct repl; [destruct H; discriminate|]. pose proof (Permutation_length (remove1_perm i _ I)) as L. cbn [length] in *. lia.
Qed.
Lemma pick_eq : forall sel l, pick sel l = (if target sel l <? Z.of_nat (length (reqs 0 l)) then fail SelectionError else
  bnd (top_up (Z.to_nat (target sel l - Z.of_nat (length (reqs 0 l)))) (replaces sel) (reqs 0 l)
     (if replaces sel then seq 0 (length l) else fold_left (fun b i => remove1 i b) (reqs 0 l) (seq 0 (length l)))) (fun s => ret (sort s))).
Proof. intros. unfold pick. fold (target sel l). fold (replaces sel). rewrite required_loop_eq by auto. reflexivity. Qed.
Lemma reqs_incl : forall l, incl (reqs 0 l) (seq 0 (length l)).
Proof. intros l j H. apply reqs_ge in H. apply in_seq. lia. Qed.
Lemma pick_ok : forall sel l idx, pick sel l (Ok idx) <-> chosen sel l idx.
Proof.
  intros sel l idx. rewrite pick_eq. pose proof (fold_remove (reqs 0 l) (seq 0 (length l)) (reqs_nodup l 0) (reqs_incl l)) as FR.
  pose proof (seq_NoDup (length l) 0) as SD. split.
  - destruct (Z.ltb_spec (target sel l) (Z.of_nat (length (reqs 0 l)))); [discriminate|]. intros H0. apply bnd_ok in H0 as (s & T & R). rk R.
    apply top_up_ok in T as (t & -> & L & Inc & N). pose proof (sort_perm (reqs 0 l ++ t)) as P. unfold chosen. split; [apply sort_sorted|].
    split; [rewrite <- (Permutation_length P), app_length; lia|]. split; [|split].
    + eapply Permutation_Forall; [exact P|]. apply Forall_app. split; apply Forall_forall; intros j J.
      * apply reqs_ge in J. lia.
      * apply Inc in J. assert (J' : In j (seq 0 (length l))); [|apply in_seq in J'; lia]. destruct (replaces sel); [exact J|].
        eapply Permutation_in; [symmetry; exact FR|]. apply in_or_app. right. exact J.
    + intros i c Hi Rq. eapply Permutation_in; [exact P|]. apply in_or_app. left. apply (reqs_in l 0 i c Hi Rq).
    + intros R. rewrite R in *. eapply Permutation_NoDup; [exact P|]. pose proof (Permutation_NoDup FR SD) as D.
      clear -D Inc N. revert D Inc N. set (b := fold_left _ _ _). clearbody b. intros D Inc N.
      assert (Db : NoDup b) by (clear -D; induction (reqs 0 l) as [|x r IH]; cbn in D; [exact D|inversion D; auto]).
      specialize (N eq_refl Db). clear Db. induction (reqs 0 l) as [|x r IH]; cbn [app] in *; [exact N|]. inversion D as [|? ? D1 D2]; subst. constructor; [|auto].
      rewrite in_app_iff in *. intros [X|X]; [tauto|]. apply D1. right. apply Inc. exact X.
  - intros (Sr & L & F & Rq & N).
    assert (I : incl (reqs 0 l) idx). { intros j J. apply in_reqs in J as (c & J & R). rewrite Nat.sub_0_r in J. eapply Rq; eauto. }
    assert (X : exists t, Permutation idx (reqs 0 l ++ t)).
    { exists (fold_left (fun b i => remove1 i b) (reqs 0 l) idx). apply fold_remove; [apply reqs_nodup|exact I]. }
    destruct X as (t & P). pose proof (Permutation_length P) as PL. rewrite app_length in PL.
    destruct (Z.ltb_spec (target sel l) (Z.of_nat (length (reqs 0 l)))); [lia|].
    replace (Z.to_nat (target sel l - Z.of_nat (length (reqs 0 l)))) with (length t) by lia.
    assert (It : incl t (seq 0 (length l))).
    { intros j J. assert (J' : In j idx) by (eapply Permutation_in; [symmetry; exact P|]; apply in_or_app; right; exact J).
      rewrite Forall_forall in F. apply F in J'. apply in_seq. lia. }
    eapply bnd_in.
    + apply top_up_in.
      * destruct (replaces sel) eqn:R; [exact It|]. specialize (N eq_refl). apply (Permutation_NoDup P) in N. intros j J. specialize (It j J).
        apply (Permutation_in j FR) in It. apply in_app_or in It as [Y|Y]; [|exact Y]. exfalso. clear -N J Y.
        induction (reqs 0 l) as [|x r IH]; [destruct Y|]. cbn [app] in N. inversion N; subst. destruct Y as [->|Y]; [|auto]. match goal with X : ~ In _ _ |- _ => apply X end. apply in_or_app. right. exact J.
      * intros R. specialize (N R). apply (Permutation_NoDup P) in N. clear -N. induction (reqs 0 l) as [|x r IH]; cbn in N; [exact N|inversion N; auto].
    + unfold ret. f_equal. apply sorted_unique; [exact Sr|apply sort_sorted|]. rewrite <- sort_perm. exact P.
Qed.
(** an error exactly if there is nothing to choose *)
Lemma pick_err : forall sel l e, pick sel l (Err e) -> e = SelectionError /\ forall idx, ~ chosen sel l idx.
Proof.
  intros sel l e. rewrite pick_eq. pose proof (fold_remove (reqs 0 l) (seq 0 (length l)) (reqs_nodup l 0) (reqs_incl l)) as FR.
  destruct (Z.ltb_spec (target sel l) (Z.of_nat (length (reqs 0 l)))) as [H|H].
  - intros E. injection E as <-. split; [reflexivity|]. intros idx (_ & L & _ & Rq & _).
    assert (I : incl (reqs 0 l) idx). { intros j J. apply in_reqs in J as (c & J & R). rewrite Nat.sub_0_r in J. eapply Rq; eauto. }
    pose proof (NoDup_incl_length (reqs_nodup l 0) I). lia.
  - intros [(s & _ & E)|(e' & T & E)]; [discriminate|]. injection E as <-. apply top_up_err in T as [-> T]. split; [reflexivity|].
    intros idx (_ & L & F & Rq & N). destruct (replaces sel).
    + destruct T as [T1 T2]. destruct l as [|c l]; [|discriminate]. cbn [length reqs] in *. destruct idx as [|i idx]; [cbn in L; lia|].
      inversion F; subst. lia.
    + apply Permutation_length in FR. rewrite app_length, seq_length in FR.
      assert (I : incl idx (seq 0 (length l))) by (intros j J; rewrite Forall_forall in F; apply F in J; apply in_seq; lia).
      pose proof (NoDup_incl_length (N eq_refl) I) as X. rewrite seq_length in X. lia.
Qed.
