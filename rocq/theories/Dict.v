(** Python dictionaries as lists of keys and values in the order of insertion. *)
From Verif Require Import Py.

Section Dict.
  Context {K V : Type} (eqb : K -> K -> bool).
  (** d.get(k) *)
  Fixpoint dget (k : K) (d : list (K * V)) : option V :=
    match d with [] => None | (k', v) :: r => if eqb k k' then Some v else dget k r end.
  (** d[k] = v *)
  Fixpoint dset (k : K) (v : V) (d : list (K * V)) : list (K * V) :=
    match d with [] => [(k, v)] | (k', v') :: r => if eqb k k' then (k', v) :: r else (k', v') :: dset k v r end.
  (** del d[k] (no effect if k is not there; the models only use it for keys that are) *)
  Fixpoint ddel (k : K) (d : list (K * V)) : list (K * V) :=
    match d with [] => [] | (k', v') :: r => if eqb k k' then r else (k', v') :: ddel k r end.

  Hypothesis eqb_eq : forall a b, eqb a b = true <-> a = b.
  Lemma eqb_refl : forall a, eqb a a = true.
  Proof. intros. apply eqb_eq. reflexivity. Qed.
  Lemma eqb_neq : forall a b, eqb a b = false <-> a <> b.
  Proof. intros a b. rewrite <- eqb_eq. destruct (eqb a b); split; congruence. Qed.
  Lemma dget_dset_eq : forall k v d, dget k (dset k v d) = Some v.
  Proof.
    intros k v d. induction d as [|[k' v'] d IH]; cbn; [rewrite eqb_refl; reflexivity|]. destruct (eqb k k') eqn:E; cbn; rewrite E; [reflexivity|exact IH].
  Qed.
  Lemma dget_dset_ne : forall k k' v d, k' <> k -> dget k' (dset k v d) = dget k' d.
  Proof.
    intros k k' v d N. induction d as [|[k1 v1] d IH]; cbn; [apply eqb_neq in N; rewrite N; reflexivity|]. destruct (eqb k k1) eqn:E; cbn.
    - apply eqb_eq in E. subst k1. apply eqb_neq in N. rewrite N. reflexivity.
    - destruct (eqb k' k1); [reflexivity|exact IH].
  Qed.
  Lemma dget_in : forall k v d, dget k d = Some v -> In (k, v) d.
  Proof.
    intros k v d. induction d as [|[k1 v1] d IH]; cbn; [discriminate|]. destruct (eqb k k1) eqn:E; [apply eqb_eq in E; subst; intros X; inversion X; left; reflexivity|intros H; right; auto].
  Qed.
  Lemma in_dget : forall k v d, NoDup (map fst d) -> In (k, v) d -> dget k d = Some v.
  Proof.
    intros k v d. induction d as [|[k1 v1] d IH]; cbn; intros N H; [contradiction|]. inversion N as [|? ? N1 N2]; subst. destruct H as [H|H].
    - inversion H; subst. rewrite eqb_refl. reflexivity.
    - destruct (eqb k k1) eqn:E; [|auto]. apply eqb_eq in E. subst. exfalso. apply N1. apply in_map_iff. exists (k1, v). auto.
  Qed.
  Lemma dget_none : forall k d, dget k d = None <-> ~ In k (map fst d).
  Proof.
    intros k d. induction d as [|[k1 v1] d IH]; cbn; [tauto|]. destruct (eqb k k1) eqn:E.
    - apply eqb_eq in E. subst. split; [discriminate|]. intros H. exfalso. apply H. left. reflexivity.
    - apply eqb_neq in E. rewrite IH. split; intros H; [intros [X|X]; [congruence|auto]|intros X; apply H; right; exact X].
  Qed.
  Lemma dset_keys : forall k v d x, In x (map fst (dset k v d)) <-> x = k \/ In x (map fst d).
  Proof.
    intros k v d x. induction d as [|[k1 v1] d IH]; cbn; [intuition congruence|]. destruct (eqb k k1) eqn:E; cbn.
    - apply eqb_eq in E. subst. intuition congruence.
    - rewrite IH. intuition congruence.
  Qed.
  Lemma dset_nodup : forall k v d, NoDup (map fst d) -> NoDup (map fst (dset k v d)).
  Proof.
    intros k v d. induction d as [|[k1 v1] d IH]; cbn; intros N; [constructor; [auto|constructor]|]. inversion N as [|? ? N1 N2]; subst. destruct (eqb k k1) eqn:E; cbn; [constructor; assumption|].
    constructor; [|auto]. intros X. apply dset_keys in X. destruct X as [X|X]; [|auto]. apply eqb_neq in E. congruence.
  Qed.
  Lemma ddel_in : forall k d x, In x (ddel k d) -> In x d.
  Proof. intros k d x. induction d as [|[k1 v1] d IH]; cbn; [auto|]. destruct (eqb k k1); cbn; [auto|]. intros [H|H]; auto. Qed.
  Lemma ddel_nodup : forall k d, NoDup (map fst d) -> NoDup (map fst (ddel k d)).
  Proof.
    intros k d. induction d as [|[k1 v1] d IH]; cbn; intros N; [constructor|]. inversion N as [|? ? N1 N2]; subst. destruct (eqb k k1); [exact N2|]. cbn. constructor; [|auto].
    intros X. apply N1. apply in_map_iff in X as ([a b] & <- & X). apply in_map_iff. exists (a, b). split; [reflexivity|]. eapply ddel_in, X.
  Qed.
  Lemma dget_ddel_ne : forall k k' d, k' <> k -> dget k' (ddel k d) = dget k' d.
  Proof.
    intros k k' d N. induction d as [|[k1 v1] d IH]; cbn; [reflexivity|]. destruct (eqb k k1) eqn:E; cbn.
    - apply eqb_eq in E. subst. apply eqb_neq in N. rewrite N. reflexivity.
    - destruct (eqb k' k1); [reflexivity|exact IH].
  Qed.
  Lemma dget_ddel_eq : forall k d, NoDup (map fst d) -> dget k (ddel k d) = None.
  Proof.
    intros k d. induction d as [|[k1 v1] d IH]; cbn; intros N; [reflexivity|]. inversion N as [|? ? N1 N2]; subst. destruct (eqb k k1) eqn:E.
    - apply eqb_eq in E. subst. apply dget_none. exact N1.
    - cbn. rewrite E. auto.
  Qed.
End Dict.
