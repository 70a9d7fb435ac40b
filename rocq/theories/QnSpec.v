(** What C119-C122 say of test sessions: QTI 2.1, "Navigation and submission", "Branching and preconditions", and the
    documentation of TestSessionState (key, keyMap). *)
From Coq Require Import Sorted.
From Verif Require Import Py QfModel QfSpec QnModel.

(** ** Navigation *)
Definition item_at (form : list comp) (q : nat) (a : attrs) : Prop := nth_error form q = Some (Open (Item a)).
Definition all_hold (ev : nat -> nat -> res bool) (q : nat) (l : list nat) : Prop := forall e, In e l -> ev q e = Ok true.
(** a question that may be put: in linear mode, with preconditions that hold *)
Definition may_be_put (ev : nat -> nat -> res bool) (form : list comp) (q : nat) : Prop :=
  exists a, item_at form q a /\ linear a = true /\ all_hold ev q (pre a).
(** the questions of a session: the current one, those that follow it one by one, and the last *)
Inductive session_of (registered : nat -> option (option nat)) (form : list comp) : option nat -> list nat -> option nat -> Prop :=
| session_stay : forall q, session_of registered form q [] q
| session_put : forall q ev q' l r, next_question registered ev form q = Ok (Some q') -> session_of registered form (Some q') l r ->
    session_of registered form q (q' :: l) r
| session_end : forall q ev l r, next_question registered ev form q = Ok None -> session_of registered form None l r ->
    session_of registered form q l r.

(** elements, and their ends *)
Definition plain (c : comp) : Prop := match c with Root | Free => False | _ => True end.
Definition no_rules (c : comp) : Prop := match c with Open p | Close p => rules (at_ p) = [] | OpenPart t | ClosePart t => t_rules t = [] | _ => True end.

(** ** Branching *)
(** the first rule that is true *)
Definition first_rule (ev : nat -> nat -> res bool) (q : nat) (l : list (nat * goto)) (g : goto) : Prop :=
  exists l1 e l2, l = l1 ++ (e, g) :: l2 /\ ev q e = Ok true /\ forall e' g', In (e', g') l1 -> ev q e' = Ok false.
Definition no_rule (ev : nat -> nat -> res bool) (q : nat) (l : list (nat * goto)) : Prop := forall e g, In (e, g) l -> ev q e = Ok false.
(** the first place after q where there is something, or the end *)
Definition first_after (form : list comp) (q : nat) (P : comp -> Prop) (n : nat) : Prop :=
  (q < n)%nat /\ (forall m c, (q < m < n)%nat -> nth_error form m = Some c -> ~ P c) /\
  ((exists c, nth_error form n = Some c /\ P c) \/ n = length form).
Definition starts (id : nat) (c : comp) : Prop :=
  match c with Open p => ident (at_ p) = id | OpenPart t => t_ident t = id | _ => False end.
Definition ends_part (c : comp) : Prop := match c with ClosePart _ => True | _ => False end.
Definition closes (c : comp) : bool := match c with Close _ | ClosePart _ => true | _ => false end.
(** the section around what comes after q ends before n: q is followed by x, then the end of the section *)
Definition leaves_section (form : list comp) (q n : nat) : Prop :=
  exists u c x p v, form = u ++ c :: x ++ Close p :: v /\ length u = q /\ nested x /\ n = S (q + S (length x)).

(** from a place that is no question that may be put, to the next place to look at: what ends has its own branch rules *)
Definition goes registered (ev : nat -> nat -> res bool) (form : list comp) (p p' : nat) : Prop :=
  exists c, nth_error form p = Some c /\ ~ may_be_put ev form p /\
    if closes c then branch_target registered ev form p = Ok p' else p' = S p.
Inductive goes_on registered ev form : nat -> nat -> Prop :=
| goes_nil : forall p, goes_on registered ev form p p
| goes_cons : forall p p' n, goes registered ev form p p' -> goes_on registered ev form p' n -> goes_on registered ev form p n.

(** ** Durations *)
(** the section or test part that starts at k is open at i *)
Definition encloses (form : list comp) (k i : nat) : Prop :=
  exists u o x c v, form = u ++ o :: x ++ c :: v /\ length u = k /\ nested x /\ (k < i <= k + length x)%nat /\
    ((exists p, is_section p = true /\ o = Open p /\ c = Close p) \/ (exists t, o = OpenPart t /\ c = ClosePart t)).
(** whose time runs while the question is i: of the test (0), the question, and what encloses it *)
Definition runs (form : list comp) (k i : nat) : Prop := k = O \/ k = i \/ encloses form k i.
Definition plus (v : option Z) (dt : Z) : option Z := Some (match v with Some v => v + dt | None => dt end).

(** ** Keys *)
(** events, each with a key and the time; those with the wrong key change nothing *)
Definition event (digest : Z -> str) (s : session) (e : str * Z) : session :=
  match event_update digest (fst e) (snd e) s with Ok (_, s') => s' | Err _ => s end.
Definition created (digest : Z -> str) (t0 : Z) : session := event digest blank ([], t0).
Definition after (digest : Z -> str) (t0 : Z) (h : list (str * Z)) : session := fold_left (event digest) h (created digest t0).
