(** QTI test forms: pyslet/qtiv2/tests.py 168-221, 274-375, 432-490 and 560-730 (TestForm).
    Elements are trees.  Identifiers are unique in a test (register_part, tests.py 91-99), so a component of a form is
    the element itself instead of its identifier, and get_part, which looks identifiers up, is left out; a closing
    identifier is [Close].  Attributes that the code tests for truth are booleans (None is false).
    random.choice and random.shuffle may give anything they can give: functions that use them are the sets of their
    possible results. *)
From Coq Require Import Permutation.
From Verif Require Import Py.

(** core.py 44-53: two exceptions of QTI's own, under names of exceptions that this code does not raise *)
Definition SelectionError : exn := RuntimeError.
Definition ProcessingError : exn := EvaluationError.

(** processing.py 674-676: the target of a branch rule *)
Inductive goto := ExitSection | ExitTestPart | ExitTest | To (id : nat).
(** 362-375: what sections and references to items have in common.  The preconditions and branch rules are names of
    expressions, and targets; the identifier of the test part, and whether that is in linear mode *)
Record attrs := Attrs { ident : nat; required : bool; fixed : bool; pre : list nat; rules : list (nat * goto);
                        in_part : nat; linear : bool }.
(** 299-302, 328-330, 468-476: visible, keepTogether; select and withReplacement of the Selection; shuffle of the
    Ordering (false if there is none); the children *)
Inductive spart :=
| Item (a : attrs)
| Sect (a : attrs) (visible keep : bool) (selection : option (Z * bool)) (shuffles : bool) (children : list spart).
Definition at_ (p : spart) : attrs := match p with Item a => a | Sect a _ _ _ _ _ => a end.
Definition is_section (p : spart) : bool := match p with Item _ => false | Sect _ _ _ _ _ _ => true end.
(** 663-664, 668: an invisible section that need not be kept together *)
Definition splits (p : spart) : bool := match p with Sect _ false false _ _ _ => true | _ => false end.
(** 210-221 *)
Record tpart := TPart { t_ident : nat; t_linear : bool; t_individual : bool; t_pre : list nat; t_rules : list (nat * goto);
                        t_sections : list spart }.
(** an entry of a form: the test, an element, the end of an element, or None (665-667) *)
Inductive comp := Root | Open (p : spart) | Close (p : spart) | OpenPart (t : tpart) | ClosePart (t : tpart) | Free.

(** ** Sets of results *)
Definition nd (A : Type) := res A -> Prop.
Definition ret {A} (a : A) : nd A := fun r => r = Ok a.
Definition fail {A} (e : exn) : nd A := fun r => r = Err e.
Definition bnd {A B} (m : nd A) (f : A -> nd B) : nd B :=
  fun r => (exists a, m (Ok a) /\ f a r) \/ (exists e, m (Err e) /\ r = Err e).
(** the standard library: random.choice, random.shuffle *)
Definition choice {A} (l : list A) : nd A := match l with [] => fail IndexError | _ => fun r => exists a, In a l /\ r = Ok a end.
Definition shuffle {A} (l : list A) : nd (list A) := fun r => exists l', Permutation l l' /\ r = Ok l'.

(** ** TestForm.select *)
(** list.remove *)
Fixpoint remove1 (i : nat) (l : list nat) : list nat :=
  match l with [] => [] | x :: l => if Nat.eqb x i then l else x :: remove1 i l end.
(** 629-634: step 1 *)
Fixpoint required_loop (i : nat) (l : list spart) (repl : bool) (selection bag : list nat) : list nat * list nat :=
  match l with
  | [] => (selection, bag)
  | c :: l =>
      if required (at_ c) then required_loop (S i) l repl (selection ++ [i]) (if repl then bag else remove1 i bag)
      else required_loop (S i) l repl selection bag
  end.
(** 640-651: step 2; n times *)
Fixpoint top_up (n : nat) (repl : bool) (selection bag : list nat) : nd (list nat) :=
  match n with
  | O => ret selection
  | S n =>
      match bag with
      | [] => fail SelectionError
      | _ => bnd (choice bag) (fun i => top_up n repl (selection ++ [i]) (if repl then bag else remove1 i bag))
      end
  end.
(** list.sort *)
Fixpoint insert (x : nat) (l : list nat) : list nat :=
  match l with [] => [x] | y :: r => if Nat.leb x y then x :: l else y :: insert x r end.
Fixpoint sort (l : list nat) : list nat := match l with [] => [] | x :: l => insert x (sort l) end.
(** 616-655: steps 1 to 3 *)
Definition pick (sel : option (Z * bool)) (l : list spart) : nd (list nat) :=
  let target := match sel with Some (n, _) => n | None => Z.of_nat (length l) end in
  let repl := match sel with Some (_, b) => b | None => false end in
  let '(selection, bag) := required_loop 0 l repl [] (seq 0 (length l)) in
  if target <? Z.of_nat (length selection) then fail SelectionError
  else bnd (top_up (Z.to_nat (target - Z.of_nat (length selection))) repl selection bag) (fun s => ret (sort s)).

(** a child, and what self.select gives for it, without its children expanded and with *)
Record kid := Kid { k_part : spart; k_bare : nd (list comp); k_full : nd (list comp) }.
(** 674-682: the grandchildren *)
Fixpoint adopt (l : list comp) : res (list spart) :=
  match l with
  | [] => Ok []
  | Open g :: l => if fixed (at_ g) then Err SelectionError else let! r := adopt l in Ok (g :: r)
  | _ :: _ => Err KeyError
  end.
(** 656-693: step 4 *)
Fixpoint lay_out (shuf expand : bool) (ks : list kid) : nd (list comp * list spart) :=
  match ks with
  | [] => ret ([], [])
  | k :: ks =>
      let p := k_part k in
      bnd (if shuf && negb (fixed (at_ p)) then
             if splits p then bnd (k_bare k) (fun l => match adopt l with Ok gs => ret ([Free], gs) | Err e => fail e end)
             else ret ([Free], [p])
           else if is_section p && expand then bnd (k_full k) (fun l => ret (Open p :: l ++ [Close p], []))
           else ret ([Open p], []))
        (fun '(l, sh) => bnd (lay_out shuf expand ks) (fun '(l', sh') => ret (l ++ l', sh ++ sh')))
  end.
Definition is_free (c : comp) : bool := match c with Free => true | _ => false end.
(** 708-713: one for each slot *)
Fixpoint first_buckets (slots : nat) (l : list spart) : res (list (list spart) * list spart) :=
  match slots, l with
  | O, l => Ok ([], l)
  | S _, [] => Err IndexError
  | S n, x :: l => let! (b, r) := first_buckets n l in Ok ([x] :: b, r)
  end.
Fixpoint put (i : nat) (x : spart) (b : list (list spart)) : list (list spart) :=
  match b, i with [], _ => [] | y :: b, O => (y ++ [x]) :: b | y :: b, S i => y :: put i x b end.
(** 714-717: the others *)
Fixpoint deal (l : list spart) (buckets : list (list spart)) : nd (list (list spart)) :=
  match l with
  | [] => ret buckets
  | x :: l => bnd (choice (seq 0 (length buckets))) (fun i => deal l (put i x buckets))
  end.
(** 720-727: self.select is called with an identifier, a string, which has no children *)
Fixpoint expand_bucket (b : list spart) : res (list comp) :=
  match b with
  | [] => Ok []
  | p :: b => if is_section p then Err AttributeError else let! r := expand_bucket b in Ok (Open p :: r)
  end.
(** 728-729: list.index, and assignment to a slice *)
Fixpoint splice (selection new : list comp) : list comp :=
  match selection with [] => [] | Free :: l => new ++ l | c :: l => c :: splice l new end.
Fixpoint splice_all (bs : list (list spart)) (selection : list comp) : res (list comp) :=
  match bs with
  | [] => Ok selection
  | b :: bs => let! n := expand_bucket b in splice_all bs (splice selection n)
  end.
Definition lift {A} (r : res A) : nd A := fun x => x = r.
(** 694-730: step 5 *)
Definition arrange (selection : list comp) (sh : list spart) : nd (list comp) :=
  match sh with
  | [] => ret selection
  | _ =>
      bnd (shuffle sh) (fun sh =>
        bnd (lift (first_buckets (length (filter is_free selection)) sh)) (fun '(b, rest) =>
          bnd (deal rest b) (fun b => lift (splice_all b selection))))
  end.
Definition get (ks : list kid) (idx : list nat) : list kid :=
  flat_map (fun i => match nth_error ks i with Some k => [k] | None => [] end) idx.
(** 609-730 select *)
Definition choose (sel : option (Z * bool)) (shuf : bool) (ks : list kid) (expand : bool) : nd (list comp) :=
  bnd (pick sel (map k_part ks)) (fun idx => bnd (lay_out shuf expand (get ks idx)) (fun '(l, sh) => arrange l sh)).
Fixpoint select (p : spart) (expand : bool) : nd (list comp) :=
  match p with
  | Item _ => fun _ => False
  | Sect _ _ _ sel shuf ch => choose sel shuf (map (fun c => Kid c (select c false) (select c true)) ch) expand
  end.

(** 584-601 __init__ *)
Fixpoint sections (l : list spart) : nd (list comp) :=
  match l with
  | [] => ret []
  | s :: l => bnd (select s true) (fun c => bnd (sections l) (fun r => ret (Open s :: c ++ Close s :: r)))
  end.
Fixpoint parts (l : list tpart) : nd (list comp) :=
  match l with
  | [] => ret []
  | t :: l => bnd (sections (t_sections t)) (fun c => bnd (parts l) (fun r => ret (OpenPart t :: c ++ ClosePart t :: r)))
  end.
Definition test_form (l : list tpart) : nd (list comp) := bnd (parts l) (fun r => ret (Root :: r)).
