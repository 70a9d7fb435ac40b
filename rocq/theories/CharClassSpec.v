(** Specification of CharClass histories as operations on sets of code points, independent of
    range lists and bisection.  Used by CharClassProps.v. *)
From Verif Require Import Py CharClassModel.

(** a set of characters *)
Definition cset := Z -> Prop.

(** What the documentation says each call does to the sets of the instances (numbered in
    order of construction). *)
Definition upd (ss : list cset) (i : nat) (f : cset -> cset) : list cset :=
  match nth_error ss i with Some s => set_nth ss i (f s) | None => ss end.
Definition set_of (ss : list cset) (i : nat) : cset := nth i ss (fun _ => False).

Definition spec_call (ss : list cset) (k : call) : list cset :=
  match k with
  | New => ss ++ [fun _ => False]
  | AddChar i c => upd ss i (fun s x => s x \/ x = c)
  | AddRange i a z => upd ss i (fun s x => s x \/ Z.min a z <= x <= Z.max a z)
  | AddClass i j => upd ss i (fun s x => s x \/ set_of ss j x)
  | SubtractChar i c => upd ss i (fun s x => s x /\ x <> c)
  | SubtractRange i a z => upd ss i (fun s x => s x /\ ~ (Z.min a z <= x <= Z.max a z))
  | SubtractClass i j => upd ss i (fun s x => s x /\ ~ set_of ss j x)
  | Negate i => upd ss i (fun s x => is_char x /\ ~ s x)
  | Test _ _ => ss
  end.
Fixpoint spec_run (ss : list cset) (h : list call) : list cset :=
  match h with [] => ss | k :: h' => spec_run (spec_call ss k) h' end.

(** A call refers to existing instances and passes characters. *)
Definition call_valid (n : nat) (k : call) : Prop :=
  match k with
  | New => True
  | AddChar i c | SubtractChar i c | Test i c => (i < n)%nat /\ is_char c
  | AddRange i a z | SubtractRange i a z => (i < n)%nat /\ is_char a /\ is_char z
  | AddClass i j | SubtractClass i j => (i < n)%nat /\ (j < n)%nat
  | Negate i => (i < n)%nat
  end.

(** Which histories are covered.  [tt] marks the instances that were on either side of an
    add_class (or copy construction) into an *empty* class: these may share range cells and
    must not be edited with subtract_* afterwards ([negate] gives a class its own cells again,
    add_* never writes to a cell).  A class must not be subtracted from itself.  Everything else
    is allowed. *)
Definition untainted (tt : list bool) (i : nat) : Prop := nth_error tt i = Some false.
Definition taint2 (tt : list bool) (i j : nat) : list bool := set_nth (set_nth tt i true) j true.
Fixpoint covered (ss : list cset) (tt : list bool) (h : list call) : Prop :=
  match h with
  | [] => True
  | k :: h' =>
    call_valid (length ss) k /\
    let ss' := spec_call ss k in
    match k with
    | New => covered ss' (tt ++ [false]) h'
    | AddClass i j =>
        ((exists x, set_of ss i x) /\ covered ss' tt h') \/ covered ss' (taint2 tt i j) h'
    | SubtractChar i _ | SubtractRange i _ _ => untainted tt i /\ covered ss' tt h'
    | SubtractClass i j => untainted tt i /\ i <> j /\ covered ss' tt h'
    | Negate i => covered ss' (set_nth tt i false) h'
    | AddChar _ _ | AddRange _ _ _ | Test _ _ => covered ss' tt h'
    end
  end.

(** Edits of one copy, instance [n]: additions are always safe; subtractions only once the copy
    has been negated (which gives it range cells of its own) and no class added since. *)
Fixpoint copy_edits (n : nat) (own : bool) (h : list call) : Prop :=
  match h with
  | [] => True
  | k :: h' =>
    match k with
    | AddChar i c => i = n /\ is_char c /\ copy_edits n own h'
    | AddRange i a z => i = n /\ is_char a /\ is_char z /\ copy_edits n own h'
    | AddClass i j => i = n /\ (j < n)%nat /\ copy_edits n false h'
    | SubtractChar i c => i = n /\ is_char c /\ own = true /\ copy_edits n own h'
    | SubtractRange i a z => i = n /\ is_char a /\ is_char z /\ own = true /\ copy_edits n own h'
    | SubtractClass i j => i = n /\ (j < n)%nat /\ own = true /\ copy_edits n own h'
    | Negate i => i = n /\ copy_edits n true h'
    | Test i c => i = n /\ is_char c /\ copy_edits n own h'
    | New => False
    end
  end.

(** Answers observed after a history, for the concrete counterexamples. *)
Definition test_after (h : list call) (i : nat) (c : Z) : res bool :=
  let! w := run w0 h in let! (b, _) := w_test i w c in Ok b.
Definition test_slow_after (h : list call) (i : nat) (c : Z) : res bool :=
  let! w := run w0 h in w_test_slow i w c.
Definition str_after (h : list call) (i : nat) : res str := let! w := run w0 h in w_str i w.
