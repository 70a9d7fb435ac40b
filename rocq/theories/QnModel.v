(** QTI test sessions: pyslet/qtiv2/variables.py 2158-2520 (TestSessionState) and tests.py 241-270, 388-430, processing.py 618-631 (a condition that is NULL is not true).
    The form is a list of components (QfModel.v).  What an expression gives may change from one event to the next and
    while an event is handled: [ev i e] is the value of the expression e when the component at i is looked at.
    Template defaults, clones and the sessions of items are taken to succeed and are otherwise left out, as is what is
    made for the browser.  Times are whole microseconds, also where the code has floats. *)
From Coq Require Import Permutation.
From Verif Require Import Py QfModel.

Section Session.
  (** what get_part gives for an identifier: nothing, a test part, or an element of the test part with some identifier *)
  Variable registered : nat -> option (option nat).
  Variable ev : nat -> nat -> res bool.

  (** tests.py 241-247, 394-397: all preconditions *)
  Fixpoint all_pre (i : nat) (l : list nat) : res bool :=
    match l with [] => Ok true | e :: l => let! b := ev i e in if b : bool then all_pre i l else Ok false end.
  (** tests.py 388-397 of sections and items; None is not true *)
  Definition check_pre_conditions (i : nat) (a : attrs) : res bool := if negb (linear a) then Ok false else all_pre i (pre a).
  (** tests.py 249-271 of a test part *)
  Fixpoint part_target (i : nat) (l : list (nat * goto)) : res (option goto) :=
    match l with
    | [] => Ok None
    | (e, g) :: l =>
        let! b := ev i e in
        if negb b then part_target i l
        else match g with
             | ExitTest => Ok (Some g)
             | To id => match registered id with Some None => Ok (Some g) | _ => Err ProcessingError end
             | _ => Err ProcessingError
             end
    end.
  (** tests.py 399-430 of sections and items *)
  Fixpoint rule_target (i : nat) (tp : nat) (l : list (nat * goto)) : res (option goto) :=
    match l with
    | [] => Ok None
    | (e, g) :: l =>
        let! b := ev i e in
        if negb b then rule_target i tp l
        else match g with
             | To id => match registered id with
                        | Some (Some q) => if Nat.eqb q tp then Ok (Some g) else Err ProcessingError
                        | _ => Err ProcessingError
                        end
             | _ => Ok (Some g)
             end
    end.
  Definition get_branch_target (i : nat) (a : attrs) : res (option goto) :=
    if negb (linear a) then Ok None else rule_target i (in_part a) (rules a).

  (** variables.py 2276-2293: from the position q on; closing identifiers are no targets *)
  Fixpoint scan (g : goto) (q : nat) (rest : list comp) : res nat :=
    match rest with
    | [] => Ok q
    | c :: rest =>
        match c with
        | Open p => if match g with To id => Nat.eqb (ident (at_ p)) id | _ => false end then Ok q else scan g (S q) rest
        | OpenPart t => if match g with To id => Nat.eqb (t_ident t) id | _ => false end then Ok q else scan g (S q) rest
        | Close _ => match g with ExitSection => Ok (S q) | _ => scan g (S q) rest end
        | ClosePart _ => match g with ExitSection | ExitTestPart => Ok (S q) | _ => scan g (S q) rest end
        | Root => Err IndexError
        | Free => Err TypeError
        end
    end.
  (** 2266-2293 _branch_target *)
  Definition branch_target (form : list comp) (q : nat) : res nat :=
    let! g := match nth_error form q with
              | Some (Open p | Close p) => get_branch_target q (at_ p)
              | Some (OpenPart t | ClosePart t) => part_target q (t_rules t)
              | Some Root => Err IndexError
              | Some Free => Err TypeError
              | None => Err IndexError
              end in
    match g with
    | None => Ok (S q)
    | Some ExitTest => Ok (length form)
    | Some g => scan g (S q) (skipn (S q) form)
    end.
  (** 2303-2361: the loop of _next_question; n is fuel *)
  Fixpoint seek (n : nat) (form : list comp) (iq : nat) : res (option nat) :=
    match n with
    | O => Err Timeout
    | S n =>
        match nth_error form iq with
        | None => Ok None
        | Some c =>
            match c with
            | Close _ | ClosePart _ => let! iq := branch_target form iq in seek n form iq
            | OpenPart t => let! b := all_pre iq (t_pre t) in (if b : bool then seek n form (S iq) else seek n form (S iq))
            | Open p =>
                let! b := check_pre_conditions iq (at_ p) in
                if negb b then seek n form (S iq)
                else if is_section p then seek n form (S iq)
                else Ok (Some iq)
            | Root => Err IndexError
            | Free => Err TypeError
            end
        end
    end.
  (** 2295-2361 _next_question; None when the test is finished, 0 before it begins *)
  Definition next_question (form : list comp) (cq : option nat) : res (option nat) :=
    match cq with
    | None => Ok None
    | Some O => seek (S (length form)) form 1
    | Some q => let! iq := branch_target form q in seek (S (length form)) form iq
    end.
End Session.

(** ** Durations *)
(** 2495-2516: the openings that enclose a position, from the inside; [before] is what comes before it, reversed, at
    the positions i - 1, i - 2 and so on.  The loop ends before the position 0. *)
Fixpoint enclosing (i ignore : nat) (before : list comp) : list nat :=
  match i, before with
  | S i, c :: before =>
      if Nat.eqb i 0 then []
      else match c with
           | Close _ | ClosePart _ => enclosing i (S ignore) before
           | OpenPart _ => match ignore with S g => enclosing i g before | O => i :: enclosing i O before end
           | Open p => if is_section p then match ignore with S g => enclosing i g before | O => i :: enclosing i O before end
                       else enclosing i ignore before
           | _ => enclosing i ignore before
           end
  | _, _ => []
  end.
(** values by position; NULL is None *)
Definition add_to (k : nat) (dt : Z) (d : nat -> option Z) : nat -> option Z :=
  fun x => if Nat.eqb x k then Some (match d k with Some v => v + dt | None => dt end) else d x.
(** 2489-2519 add_duration; the durations of the test and of the item are not NULL then *)
Definition add_duration (form : list comp) (cq : option nat) (dt : Z) (d : nat -> option Z) : nat -> option Z :=
  match cq with
  | None | Some O => d
  | Some i => add_to 0 dt (fold_left (fun d k => add_to k dt d) (enclosing i 0 (rev (firstn i form))) (add_to i dt d))
  end.

(** ** Keys *)
(** core.py's two exceptions, under names of exceptions that this code does not raise *)
Definition SessionKeyExpired : exn := Timeout.
Definition SessionKeyMismatch : exn := KeyError.
Section Keys.
  (** the digest of the salt and a time *)
  Variable digest : Z -> str.
  Record session := Session { key : str; used : list str; t : Z }.
  (** 2191-2222: before the first event_update *)
  Definition blank : session := Session [] [] 0.
  (** 2227-2249 event_update, when the clock says [now] *)
  Definition event_update (k : str) (now : Z) (s : session) : res (Z * session) :=
    if negb (str_eqb (key s) k) then (if existsb (str_eqb k) (used s) then Err SessionKeyExpired else Err SessionKeyMismatch)
    else match key s with
         | [] => Ok (0, Session (digest now) (used s) now)
         | _ =>
             let dt := now - t s in
             if dt =? 0 then Ok (1, Session (digest (now + 1)) (key s :: used s) (now + 1))
             else Ok (dt, Session (digest now) (key s :: used s) now)
         end.
End Keys.
