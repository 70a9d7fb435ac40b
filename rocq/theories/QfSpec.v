(** What C117-C119 say a form is: QTI 2.1, "Selection and ordering" (IMS QTI Information Model 5.3-5.4). *)
From Coq Require Import Permutation Sorted.
From Verif Require Import Py QfModel.

(** ** Selection: places in the list of children, in order *)
Definition target (sel : option (Z * bool)) (l : list spart) : Z := match sel with Some (n, _) => n | None => Z.of_nat (length l) end.
Definition replaces (sel : option (Z * bool)) : bool := match sel with Some (_, b) => b | None => false end.
Definition chosen (sel : option (Z * bool)) (l : list spart) (idx : list nat) : Prop :=
  Sorted le idx /\ Z.of_nat (length idx) = target sel l /\ Forall (fun i => (i < length l)%nat) idx /\
  (forall i c, nth_error l i = Some c -> required (at_ c) = true -> In i idx) /\
  (replaces sel = false -> NoDup idx).
Definition nths {A} (l : list A) (idx : list nat) : list A :=
  flat_map (fun i => match nth_error l i with Some x => [x] | None => [] end) idx.

(** ** Ordering *)
(** [form p expand out]: [out] is a form of the section [p]; subsections are followed by their own forms if [expand].
    [line]: the chosen children in order, those that are shuffled replaced by [Free], and what goes to those places;
    [fill]: each place is filled with at least one element *)
Inductive form : spart -> bool -> list comp -> Prop :=
| form_of : forall a v k sel shuf ch expand idx l free bs out,
    chosen sel ch idx -> line shuf expand (nths ch idx) l free ->
    Permutation free (concat bs) -> fill expand l bs out -> form (Sect a v k sel shuf ch) expand out
with line : bool -> bool -> list spart -> list comp -> list spart -> Prop :=
| line_nil : forall shuf expand, line shuf expand [] [] []
| line_stay : forall shuf expand p ps x l free, shuf && negb (fixed (at_ p)) = false -> blocks expand [p] x ->
    line shuf expand ps l free -> line shuf expand (p :: ps) (x ++ l) free
| line_free : forall expand p ps l free, fixed (at_ p) = false -> splits p = false ->
    line true expand ps l free -> line true expand (p :: ps) (Free :: l) (p :: free)
| line_split : forall expand p ps gs l free, fixed (at_ p) = false -> splits p = true ->
    form p false (map Open gs) -> Forall (fun g => fixed (at_ g) = false) gs ->
    line true expand ps l free -> line true expand (p :: ps) (Free :: l) (gs ++ free)
with blocks : bool -> list spart -> list comp -> Prop :=
| blocks_nil : forall expand, blocks expand [] []
| blocks_leaf : forall expand p ps x, is_section p && expand = false -> blocks expand ps x -> blocks expand (p :: ps) (Open p :: x)
| blocks_section : forall p ps o x, is_section p = true -> form p true o -> blocks true ps x ->
    blocks true (p :: ps) (Open p :: o ++ Close p :: x)
with fill : bool -> list comp -> list (list spart) -> list comp -> Prop :=
| fill_nil : forall expand, fill expand [] [] []
| fill_slot : forall expand b x l bs out, b <> [] -> blocks expand b x -> fill expand l bs out -> fill expand (Free :: l) (b :: bs) (x ++ out)
| fill_other : forall expand c l bs out, c <> Free -> fill expand l bs out -> fill expand (c :: l) bs (c :: out).

(** every section selects something *)
Fixpoint full (p : spart) : Prop :=
  match p with
  | Item _ => True
  | Sect _ _ _ sel _ ch => 0 < target sel ch /\ fold_right (fun c q => full c /\ q) True ch
  end.
(** a subsection is only shuffled by splitting it, into items *)
Definition items_only (p : spart) : Prop := match p with Item _ => True | Sect _ _ _ _ _ ch => Forall (fun g => is_section g = false) ch end.
Fixpoint simple (p : spart) : Prop :=
  match p with
  | Item _ => True
  | Sect _ _ _ _ shuf ch =>
      (shuf = true -> Forall (fun c => is_section c = true -> fixed (at_ c) = true \/ splits c = true /\ items_only c) ch) /\
      fold_right (fun c q => simple c /\ q) True ch
  end.

(** ** Forms of a test: its parts and their sections, in order *)
Inductive sections_of : list spart -> list comp -> Prop :=
| sections_nil : sections_of [] []
| sections_cons : forall s l o r, form s true o -> sections_of l r -> sections_of (s :: l) (Open s :: o ++ Close s :: r).
Inductive parts_of : list tpart -> list comp -> Prop :=
| parts_nil : parts_of [] []
| parts_cons : forall t l o r, sections_of (t_sections t) o -> parts_of l r -> parts_of (t :: l) (OpenPart t :: o ++ ClosePart t :: r).

(** ** The components of a form are nested as they should be *)
Inductive nested : list comp -> Prop :=
| nested_nil : nested []
| nested_item : forall a l, nested l -> nested (Open (Item a) :: l)
| nested_section : forall p x l, is_section p = true -> nested x -> nested l -> nested (Open p :: x ++ Close p :: l)
| nested_part : forall t x l, nested x -> nested l -> nested (OpenPart t :: x ++ ClosePart t :: l)
| nested_free : forall l, nested l -> nested (Free :: l).
