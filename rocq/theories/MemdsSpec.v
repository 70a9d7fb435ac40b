(** Specification vocabulary for the in-memory data service. *)
From Verif Require Import Py MemdsModel.

(** Every association set of the schema joins two of its entity sets and has two ends. *)
Definition wf_schema (sc : schema) : Prop :=
  forall a A, assocs sc a = Some A ->
    In (a, false) (ends sc) /\ In (a, true) (ends sc) /\ (a_from A < nsets sc)%nat /\ (a_to A < nsets sc)%nat.

(** [k], an entity at the end [n], is linked with [x] at the other end: what the navigation collection of [k] shows *)
Definition linked (ord : list Z -> list Z) (s : st) (n : end_) (k x : Z) : Prop := In x (lookup ord s n k).
Definition other (n : end_) : end_ := (fst n, negb (snd n)).
Definition exists_in (s : st) (E : nat) (k : Z) : Prop := In k (data s E).

(** Every link joins two entities that exist. *)
Definition integrity (ord : list Z -> list Z) (sc : schema) (s : st) : Prop :=
  forall n k x, linked ord s n k x ->
    exists A, assocs sc (fst n) = Some A /\ exists_in s (set_of A (snd n)) k /\ exists_in s (set_of A (negb (snd n))) x.

(** The entity objects of entity set [E] that the caller binds, at any depth. *)
Inductive binds (sc : schema) : list (end_ * list binding) -> nat -> Z -> Prop :=
| binds_obj : forall bs n b x A, In (n, b) bs -> In (BObj x) b -> assocs sc (fst n) = Some A -> binds sc bs (set_of A (negb (snd n))) x
| binds_new : forall bs n b k' bs' E x, In (n, b) bs -> In (BNew (Ent k' bs')) b -> binds sc bs' E x -> binds sc bs E x.
Definition binds_existing (sc : schema) (s : st) (bs : list (end_ * list binding)) : Prop :=
  forall E x, binds sc bs E x -> exists_in s E x.
(** The entity objects the caller hands in stand for entities that still exist. *)
Definition fresh_objects (sc : schema) (s : st) (o : op) : Prop :=
  match o with
  | OInsert _ (Ent _ bs) | OUpdate _ _ bs => binds_existing sc s bs
  | ODelete _ _ | OUnlink _ _ _ => True
  | ONavInsert n k (Ent _ bs) => (forall A, assocs sc (fst n) = Some A -> exists_in s (set_of A (snd n)) k) /\ binds_existing sc s bs
  | OLink n k _ => forall A, assocs sc (fst n) = Some A -> exists_in s (set_of A (snd n)) k
  | OReplace n k x => forall A, assocs sc (fst n) = Some A -> exists_in s (set_of A (snd n)) k /\ exists_in s (set_of A (negb (snd n))) x
  end.
(** A condition on each operation of a history, in the state it is applied to. *)
Fixpoint along (ord : list Z -> list Z) (sc : schema) (P : st -> op -> Prop) (ops : list op) (s : st) : Prop :=
  match ops with
  | [] => True
  | o :: ops => P s o /\ along ord sc P ops (fst (step ord sc o s))
  end.
Definition succeeds (ord : list Z -> list Z) (sc : schema) (s : st) (o : op) : Prop := snd (step ord sc o s) = Ok tt.

(** At most one link where the multiplicity of the other end is not "many". *)
Definition multiplicity (ord : list Z -> list Z) (sc : schema) (s : st) : Prop :=
  forall n A k, assocs sc (fst n) = Some A -> mult_of A (negb (snd n)) <> Many -> (length (lookup ord s n k) <= 1)%nat.
(** No navigation property of an association between two single ends, seen from an optional one. *)
Definition no_optional_pair (sc : schema) : Prop :=
  forall n A, assocs sc (fst n) = Some A -> mult_of A (snd n) = ZeroToOne -> mult_of A (negb (snd n)) = Many.
(** A replace of the links of an entity whose own end is optional is only to an entity not linked to another. *)
Definition replaces_free (ord : list Z -> list Z) (sc : schema) (s : st) (o : op) : Prop :=
  match o with
  | OReplace n k x => forall A, assocs sc (fst n) = Some A -> mult_of A (snd n) = ZeroToOne -> forall y, linked ord s (other n) x y -> y = k
  | _ => True
  end.

(** Every entity has the links its schema requires. *)
Definition requirements (ord : list Z -> list Z) (sc : schema) (s : st) : Prop :=
  forall n A k, assocs sc (fst n) = Some A -> mult_of A (negb (snd n)) = One -> exists_in s (set_of A (snd n)) k ->
    exists x, linked ord s n k x.
(** No association of an entity set with itself where one entity is required at the end that is not the first *)
Definition no_bad_loop (sc : schema) : Prop :=
  forall a A, assocs sc a = Some A -> a_from A = a_to A -> a_mto A <> One.

(** The entities that cannot do without the entity [k] of [E]: those linked to an entity that must be there, and
    so on *)
Inductive depends (ord : list Z -> list Z) (sc : schema) (s : st) (E : nat) (k : Z) : nat -> Z -> Prop :=
| dep_self : depends ord sc s E k E k
| dep_link : forall n A y x, depends ord sc s E k (set_of A (snd n)) y -> assocs sc (fst n) = Some A -> mult_of A (snd n) = One ->
    linked ord s n y x -> depends ord sc s E k (set_of A (negb (snd n))) x.
(** an operation names an entity set of the schema *)
Definition on_schema (sc : schema) (o : op) : Prop :=
  match o with OInsert E _ | OUpdate E _ _ | ODelete E _ => (E < nsets sc)%nat | _ => True end.

(** The entities that an insertion of [e] in [E] makes *)
Inductive creates (sc : schema) : nat -> ent -> nat -> Z -> Prop :=
| cr_self : forall E e, creates sc E e E (ent_key e)
| cr_new : forall E k bs n b e' A E' y, In (n, b) bs -> In (BNew e') b -> assocs sc (fst n) = Some A ->
    creates sc (set_of A (negb (snd n))) e' E' y -> creates sc E (Ent k bs) E' y.
(** those that the bindings of an entity make *)
Definition creates_bound (sc : schema) (bs : list (end_ * list binding)) (E' : nat) (y : Z) : Prop :=
  exists n b e' A, In (n, b) bs /\ In (BNew e') b /\ assocs sc (fst n) = Some A /\ creates sc (set_of A (negb (snd n))) e' E' y.
Definition key_of (b : binding) : Z := match b with BKey x | BObj x => x | BNew e => ent_key e end.
(** bindings as an entity holds them: one list for each navigation property, at most one binding if it is single *)
Definition tidy (sc : schema) (bs : list (end_ * list binding)) : Prop :=
  NoDup (map fst bs) /\ forall n b A, In (n, b) bs -> assocs sc (fst n) = Some A -> mult_of A (negb (snd n)) <> Many -> (length b <= 1)%nat.
