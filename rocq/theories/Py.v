(** Shared vocabulary for the models: Python values, exceptions as values,
    strings as lists of code points, list slices.
    Nothing here is specific to a module of /repo. *)
From Coq Require Export String Ascii.
From Coq Require Export List ZArith Lia Bool.
Export ListNotations.
Global Open Scope Z_scope.

(** Exceptions that the modelled code can raise, as values.  [Timeout] is not a
    Python exception: it is the value of a loop that ran out of fuel; [Unmodelled] is
    not one either: the code goes on, but what it does is not in the model. *)
Inductive exn : Set :=
| ValueError | TypeError | IndexError | KeyError | AttributeError
| NotImplementedError | RuntimeError | UnicodeError | AssertionError
| ZeroDivisionError | OverflowError
| ParserError | URIException | URIRelativeError
| DateTimeError | BadSyntax | IOError | BlockSize | BlockMissing | LockError
| ProtocolError | EvaluationError | NameError | CookieError | ConstraintError | NavigationError | NonExistentEntity | XMLError | Timeout
| InvalidOperation | HTTPException | Unmodelled.

Inductive res (A : Type) : Type :=
| Ok (a : A)
| Err (e : exn).
Arguments Ok {A} a.
Arguments Err {A} e.

Definition rbind {A B} (m : res A) (k : A -> res B) : res B :=
  match m with Ok a => k a | Err e => Err e end.

Notation "'let!' x := m 'in' k" := (rbind m (fun x => k))
  (at level 200, x pattern, m at level 100, k at level 200,
   format "'[v' 'let!'  x  :=  m  'in' '/' k ']'").

Definition rmap {A B} (f : A -> B) (m : res A) : res B :=
  match m with Ok a => Ok (f a) | Err e => Err e end.

Lemma rbind_ok : forall A B (m : res A) (k : A -> res B) b,
  rbind m k = Ok b <-> exists a, m = Ok a /\ k a = Ok b.
Proof.
  intros A B m k b. destruct m as [a|e]; cbn; split.
  - intros H; exists a; auto.
  - intros (a' & H1 & H2); inversion H1; subst; auto.
  - discriminate.
  - intros (a' & H1 & _); discriminate.
Qed.

(** Strings: lists of code points (text) or of byte values (bytes). *)
Definition str := list Z.

Fixpoint lit (s : string) : list Z :=
  match s with
  | EmptyString => nil
  | String a r => Z.of_nat (nat_of_ascii a) :: lit r
  end.

Definition ch (s : string) : Z := hd 0 (lit s).

Fixpoint str_eqb (a b : list Z) : bool :=
  match a, b with
  | nil, nil => true
  | x :: a', y :: b' => Z.eqb x y && str_eqb a' b'
  | _, _ => false
  end.

Lemma str_eqb_eq : forall a b, str_eqb a b = true <-> a = b.
Proof.
  induction a as [|x a IH]; destruct b as [|y b]; cbn; split; intros H;
    try reflexivity; try discriminate.
  - apply andb_true_iff in H as [H1 H2]. apply Z.eqb_eq in H1. apply IH in H2. congruence.
  - inversion H; subst. rewrite Z.eqb_refl. cbn. apply IH. reflexivity.
Qed.

Lemma str_eqb_refl : forall a, str_eqb a a = true.
Proof. intros; apply str_eqb_eq; reflexivity. Qed.

Lemma str_eqb_neq : forall a b, str_eqb a b = false <-> a <> b.
Proof.
  intros a b. rewrite <- str_eqb_eq. destruct (str_eqb a b); split; congruence.
Qed.

(** [c in s] for a one-character [c]. *)
Definition zin (c : Z) (s : list Z) : bool := existsb (Z.eqb c) s.

Lemma zin_In : forall c s, zin c s = true <-> In c s.
Proof.
  intros c s. unfold zin. rewrite existsb_exists. split.
  - intros (x & H1 & H2). apply Z.eqb_eq in H2. subst. exact H1.
  - intros H. exists c. split; [exact H | apply Z.eqb_refl].
Qed.

Lemma zin_not_In : forall c s, zin c s = false <-> ~ In c s.
Proof.
  intros c s. rewrite <- zin_In. destruct (zin c s); split; congruence.
Qed.

(** Python [l[i:j]] and [l[i:j] = v] for 0 <= i, j. *)
Definition slice {A} (i j : nat) (l : list A) : list A := firstn (j - i) (skipn i l).
Definition slice_assign {A} (i j : nat) (v l : list A) : list A :=
  firstn i l ++ v ++ skipn (Nat.max i j) l.

(** [l[i]] for 0 <= i, raising IndexError. *)
Definition get {A} (l : list A) (i : nat) : res A :=
  match nth_error l i with Some a => Ok a | None => Err IndexError end.

(** [l[i] = v] for 0 <= i < len(l) (no effect outside; the models only use it in range). *)
Fixpoint set_nth {A} (l : list A) (i : nat) (v : A) : list A :=
  match l, i with
  | nil, _ => nil
  | _ :: r, O => v :: r
  | x :: r, S i' => x :: set_nth r i' v
  end.

(** the largest code point, sys.maxunicode on Python 3 *)
Definition maxunicode : Z := 1114111.

(** py2.py, Python 3 branch: character(arg) = chr(arg) for an integer. *)
Definition character (z : Z) : res Z :=
  if (0 <=? z) && (z <=? maxunicode) then Ok z else Err ValueError.

(** a value that is a code point *)
Definition is_char (c : Z) : Prop := 0 <= c <= maxunicode.
Definition is_byte (c : Z) : Prop := 0 <= c <= 255.

Lemma character_ok : forall z, is_char z -> character z = Ok z.
Proof.
  intros z [H1 H2]. unfold character.
  apply Z.leb_le in H1. apply Z.leb_le in H2. rewrite H1, H2. reflexivity.
Qed.

(** Boolean-to-Prop helpers. *)
Ltac b2p :=
  repeat match goal with
  | H : _ && _ = true |- _ => apply andb_true_iff in H; destruct H
  | H : _ || _ = false |- _ => apply orb_false_iff in H; destruct H
  | H : negb _ = true |- _ => apply negb_true_iff in H
  | H : negb _ = false |- _ => apply negb_false_iff in H
  | H : Z.eqb _ _ = true |- _ => apply Z.eqb_eq in H
  | H : Z.eqb _ _ = false |- _ => apply Z.eqb_neq in H
  | H : Z.leb _ _ = true |- _ => apply Z.leb_le in H
  | H : Z.leb _ _ = false |- _ => apply Z.leb_gt in H
  | H : Z.ltb _ _ = true |- _ => apply Z.ltb_lt in H
  | H : Z.ltb _ _ = false |- _ => apply Z.ltb_ge in H
  | H : Z.gtb _ _ = true |- _ => rewrite Z.gtb_ltb in H; apply Z.ltb_lt in H
  | H : Z.gtb _ _ = false |- _ => rewrite Z.gtb_ltb in H; apply Z.ltb_ge in H
  | H : Z.geb _ _ = true |- _ => rewrite Z.geb_leb in H; apply Z.leb_le in H
  | H : Z.geb _ _ = false |- _ => rewrite Z.geb_leb in H; apply Z.leb_gt in H
  | H : Nat.eqb _ _ = true |- _ => apply Nat.eqb_eq in H
  | H : Nat.eqb _ _ = false |- _ => apply Nat.eqb_neq in H
  | H : Nat.leb _ _ = true |- _ => apply Nat.leb_le in H
  | H : Nat.leb _ _ = false |- _ => apply Nat.leb_gt in H
  | H : Nat.ltb _ _ = true |- _ => apply Nat.ltb_lt in H
  | H : Nat.ltb _ _ = false |- _ => apply Nat.ltb_ge in H
  end.

Ltac destr :=
  match goal with
  | |- context [if ?b then _ else _] => let E := fresh "E" in destruct b eqn:E
  | H : context [if ?b then _ else _] |- _ => let E := fresh "E" in destruct b eqn:E
  end.

(** split syntactic conjunctions only *)
Ltac psplit := repeat match goal with |- _ /\ _ => split end.

Lemma nth_error_set_nth_eq {A} (l : list A) i v :
  (i < length l)%nat -> nth_error (set_nth l i v) i = Some v.
Proof. revert i; induction l; destruct i; cbn; intros; auto; try lia. apply IHl. lia. Qed.
Lemma nth_error_set_nth_ne {A} (l : list A) i j v :
  i <> j -> nth_error (set_nth l i v) j = nth_error l j.
Proof. revert i j; induction l; destruct i, j; cbn; intros; auto; try congruence. Qed.
Lemma set_nth_length {A} (l : list A) i v : length (set_nth l i v) = length l.
Proof. revert i; induction l; destruct i; cbn; auto. Qed.
Lemma set_nth_oob {A} (l : list A) i v : (length l <= i)%nat -> set_nth l i v = l.
Proof. revert i; induction l; destruct i; cbn; intros; auto; try lia. f_equal. apply IHl. lia. Qed.

