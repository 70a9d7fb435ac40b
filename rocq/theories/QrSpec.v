(** What C128-C130 say of QTI item sessions: IMS QTI 2.1, "Response Processing", "Template Processing", "The item session". *)
From Verif Require Import Py QeModel QeSpec QrModel.

(** ** Rules *)
Definition is_true (e : option expression) (s : state) : Prop := test e s = Ok true.
Definition is_false (e : option expression) (s : state) : Prop := test e s = Ok false.
(** rules are followed one after the other: a condition stands for the rules of its first part that is true, or else of
    the last part; exit ends all *)
Inductive follows (it : item) : list rule -> state -> state -> Prop :=
| followed s : follows it [] s s
| exited l s : follows it (Exit :: l) s s
| has_set w x e l s s1 s' : set_rule it w x e s = Ok s1 -> follows it l s1 s' -> follows it (Set_ w x e :: l) s s'
| first_true a1 e rs a2 els l s s' : Forall (fun a => is_false (fst a) s) a1 -> is_true e s -> follows it (rs ++ l) s s' -> follows it (Cond (a1 ++ (e, rs) :: a2) els :: l) s s'
| none_true arms els l s s' : Forall (fun a => is_false (fst a) s) arms -> follows it (els ++ l) s s' -> follows it (Cond arms els :: l) s s'.
(** rules that set only things of which P holds *)
Inductive made_of (P : what -> str -> option expression -> Prop) : rule -> Prop :=
| mo_exit : made_of P Exit
| mo_set w x e : P w x e -> made_of P (Set_ w x e)
| mo_cond arms els : Forall (fun a => Forall (made_of P) (snd a)) arms -> Forall (made_of P) els -> made_of P (Cond arms els).
(** the rules of response processing and of template processing *)
Definition response_rule := made_of (fun w _ _ => w = Outcome).
Definition template_rule := made_of (fun w _ _ => w <> Outcome).
(** ** Items and sessions *)
Definition outcome_names (it : item) : list str := completionStatus :: map dname (outcomes it).
Definition meta_names (it : item) : list str :=
  map (fun d => dot_correct (dname d)) (responses it) ++ map (fun d => dot_default (dname d)) (responses it) ++ map (fun d => dot_default (dname d)) (outcomes it).
Definition all_names (it : item) : list str :=
  map dname (templates it) ++ map dname (responses it) ++ map dname (outcomes it) ++ meta_names it ++ [numAttempts; duration; completionStatus].
(** declarations are of the kind of their list, and no name stands for two variables *)
Definition item_ok (it : item) : Prop :=
  Forall (fun d => dkind d = KTemplate) (templates it) /\ Forall (fun d => dkind d = KResponse) (responses it) /\ Forall (fun d => dkind d = KOutcome) (outcomes it) /\
  NoDup (all_names it).
(** a session of the item: it has all of its variables *)
Definition session_of (it : item) (s : state) : Prop := NoDup (map fst s) /\ forall x, In x (all_names it) <-> get s x <> None.
(** the same variables with values of the same cardinality and base type *)
Definition same_types (s s' : state) : Prop :=
  map fst s = map fst s' /\ forall x v v', get s x = Some v -> get s' x = Some v' -> vcard v = vcard v' /\ vbase v = vbase v'.
Definition holds_int (s : state) (x : str) (z : Z) : Prop := get s x = Some (V (Some Single) (Some Integer) (Some (PS (DInt z)))).
Definition holds_id (s : state) (x : str) (i : str) : Prop := get s x = Some (V (Some Single) (Some Identifier) (Some (PS (DStr i)))).
Fixpoint attempts (l : list event) : Z := match l with [] => 0 | BeginAttempt :: l => 1 + attempts l | Submit _ :: l => attempts l end.
Definition wf_state (s : state) : Prop := forall x v, get s x = Some v -> well_formed v.
(** records have no base type *)
Definition records_ok (s : state) : Prop := forall x v, get s x = Some v -> vcard v = Some Record_ -> vbase v = None.
(** rules whose expressions give well-formed values *)
Definition sound_rule := made_of (fun _ _ e => match e with None => True | Some e => forall s v, wf_state s -> e s = Ok v -> well_formed v end).
(** ** Expressions *)
Fixpoint constants (e : tree) : Prop :=
  match e with TValue v => well_formed v | TN _ l => fold_right (fun e p => constants e /\ p) True l | TU _ e => constants e | _ => True end.
(** rules whose expressions are trees *)
Definition tree_rule (lower : str -> str) (it : item) := made_of (fun _ _ e => match e with None => True | Some e => exists t, constants t /\ e = fun s => tree_value lower it s t end).
