(** QTI item sessions and rules: pyslet/qtiv2/processing.py 11-640 (response and template rules),
    pyslet/qtiv2/variables.py 409-433 (new_value, copy_value), 1123-1153 (defined values), 1810-1900 (SessionState),
    1904-2010 and 2096-2156 (ItemSessionState), core.py 361-375 (declarations), expressions.py 129-217 (variable, default, correct).
    Simplified: rules take any function of the values of the variables as expression, those that expression trees give (tree_value)
    among them; a session's dictionary is the list of its entries; the values that a form submits (_save_parameters) are
    given as values of the response's type, HTML is left out; the state that an exception leaves behind is not modelled;
    real numbers are opaque and 0.0 is number 0 of them; names of variables are the strings of the code, with the
    suffixes .DEFAULT and .CORRECT. *)
From Verif Require Import Py QeModel.
From Coq Require Import String.
Open Scope Z_scope.

(** ** Values *)
(** variables.py 409-424 *)
Definition new_value (c : card) (b : option base) : res value :=
  match c with Single => fresh b | Record_ => Ok (V (Some Record_) None None) | _ => Ok (V (Some c) b None) end.
(** set_value with the value attribute of another value: 440-830 single values, 885-915, 932-962 (a dictionary is
    taken for the sequence of its keys), 985-1015 *)
Definition assign (v : value) (p : option payload) : res value :=
  match p with
  | None => Ok (V (vcard v) (vbase v) None)
  | Some p =>
      match vcard v, p with
      | Some Single, PS d => let! d := renew (vbase v) d in Ok (V (Some Single) (vbase v) (Some (PS d)))
      | Some Ordered, PL l => ordered_of (vbase v) l
      | Some Multiple, PM m => multiple_of (vbase v) (map fst m)
      | Some Record_, PR n => Ok (V (Some Record_) (vbase v) (Some (PR n)))
      | _, _ => Err Unmodelled
      end
  end.
(** 426-432; the cardinality of a value that is not one of the four gives ValueError *)
Definition copy_value (v : value) : res value :=
  match vcard v with None => Err ValueError | Some c => let! n := new_value c (vbase v) in assign n (vval v) end.

(** ** Sessions *)
Definition state := list (str * value).
Fixpoint get (s : state) (x : str) : option value :=
  match s with [] => None | (k, v) :: s => if str_eqb k x then Some v else get s x end.
(** self.map[x] = v *)
Fixpoint set (s : state) (x : str) (v : value) : state :=
  match s with [] => [(x, v)] | (k, w) :: s => if str_eqb k x then (k, v) :: s else (k, w) :: set s x v end.
Definition dot_default (x : str) : str := x ++ lit ".DEFAULT".
Definition dot_correct (x : str) : str := x ++ lit ".CORRECT".
Definition numAttempts := lit "numAttempts".
Definition duration := lit "duration".
Definition completionStatus := lit "completionStatus".
(** 1857-1892 __setitem__ *)
Definition set_item (s : state) (x : str) (w : value) : res state :=
  match get s x with
  | None => Err KeyError
  | Some v =>
      if match vcard w with None => false | Some c => match vcard v with Some c' => if card_dec c c' then false else true | None => true end end then Err ValueError
      else if match vbase w with None => false | Some b => match vbase v with Some b' => if base_dec b b' then false else true | None => true end end then Err ValueError
      else let! v' := assign v (vval w) in Ok (set s x v')
  end.

(** ** Items *)
Inductive kind := KResponse | KOutcome | KTemplate.
(** a declaration with its default and its correct value, if it has them *)
Record decl := D { dname : str; dkind : kind; dcard : card; dbase : option base; ddefault : option value; dcorrect : option value }.
(** 1123-1153, 1352-1356 *)
Definition defined (d : decl) (v : option value) : res value := match v with Some v => Ok v | None => new_value (dcard d) (dbase d) end.
Definition expression := state -> res value.
(** processing.py: the four rules that set something, conditions with their if and else-if parts, exit *)
Inductive what := Outcome | Template | CorrectResponse | DefaultValue.
Inductive rule :=
| Cond (arms : list (option expression * list rule)) (els : list rule)
| Set_ (w : what) (x : str) (e : option expression)
| Exit.
Record item := Item { templates : list decl; responses : list decl; outcomes : list decl; adaptive : bool; template_rules : list rule; response_rules : list rule }.
Definition all_decls (it : item) : list decl := templates it ++ responses it ++ outcomes it.
(** core.py 372-375, variables.py 2107-2111: KeyError if there is no such variable, None if it is not declared *)
Definition get_declaration (it : item) (s : state) (x : str) : res (option decl) :=
  match get s x with None => Err KeyError | Some _ => Ok (find (fun d => str_eqb (dname d) x) (all_decls it)) end.
(** 2113-2132, 1844-1847 *)
Definition is_response (it : item) (s : state) (x : str) : res bool :=
  let! d := get_declaration it s x in
  Ok (match d with None => str_eqb x numAttempts || str_eqb x duration | Some d => match dkind d with KResponse => true | _ => false end end).
Definition is_outcome (it : item) (s : state) (x : str) : res bool :=
  let! d := get_declaration it s x in
  Ok (match d with None => str_eqb x completionStatus | Some d => match dkind d with KOutcome => true | _ => false end end).
Definition is_template (it : item) (s : state) (x : str) : res bool :=
  let! d := get_declaration it s x in
  Ok (match d with None => false | Some d => match dkind d with KTemplate => true | _ => false end end).

(** ** Expressions with variables *)
(** expressions.py 146-150 variable, 176-183 default, 203-217 correct; operators as in QeModel *)
Inductive tree := TValue (v : value) | TVariable (x : str) | TDefault (x : str) | TCorrect (x : str) | TNull | TN (o : nop) (l : list tree) | TU (o : uop) (e : tree).
Definition declared_or {A} (r : res A) : res A := match r with Err KeyError => Err ProcessingError | _ => r end.
Definition lookup (s : state) (x : str) : res value := match get s x with Some v => Ok v | None => Err KeyError end.
Fixpoint tree_value (lower : str -> str) (it : item) (s : state) (e : tree) : res value :=
  match e with
  | TValue v => Ok v
  | TVariable x => declared_or (lookup s x)
  | TDefault x => declared_or (let! _ := get_declaration it s x in lookup s (dot_default x))
  | TCorrect x => declared_or (let! d := get_declaration it s x in
                               match d with
                               | Some d => match dkind d with KResponse => lookup s (dot_correct x) | _ => Err ProcessingError end
                               | None => Err ProcessingError
                               end)
  | TNull => Ok (V None None None)
  | TN o l =>
      let! vs := (fix children (l : list tree) : res (list value) :=
                    match l with [] => Ok [] | e :: l => let! v := tree_value lower it s e in let! vs := children l in Ok (v :: vs) end) l in
      apply_n lower o vs
  | TU o e => let! v := tree_value lower it s e in apply_u o v
  end.

(** ** Rules *)
(** the end of a rule: StopProcessing carries the state *)
Inductive flow := Done (s : state) | Stopped (s : state) | Raised (e : exn).
(** 145-165: the condition of responseIf, responseElseIf, templateIf, templateElseIf *)
Definition test (e : option expression) (s : state) : res bool :=
  match e with
  | None => Err ProcessingError
  | Some e =>
      let! v := e s in
      let! _ := check_base_types [vbase v; Some Boolean] in
      let! _ := check_cardinalities [vcard v; Some Single] in
      match vval v with
      | None => Ok false
      | Some (PS (DBool b)) => Ok b
      | Some _ => Err Unmodelled
      end
  end.
(** 228-238, 486-496, 526-545, 571-594 *)
Definition set_rule (it : item) (w : what) (x : str) (e : option expression) (s : state) : res state :=
  match e with
  | None => Err ProcessingError
  | Some e =>
      let! v := e s in
      match w with
      | Outcome => let! b := is_outcome it s x in if b then set_item s x v else Err ProcessingError
      | Template => let! b := is_template it s x in if b then set_item s x v else Err ProcessingError
      | CorrectResponse =>
          let! d := get_declaration it s x in
          match d with
          | Some d => match dkind d with KResponse => set_item s (dot_correct x) v | _ => Err ProcessingError end
          | None => Err ProcessingError
          end
      | DefaultValue =>
          let! d := get_declaration it s x in
          match d with
          | Some d => match dkind d with KResponse | KOutcome => set_item s (dot_default x) v | KTemplate => Err ProcessingError end
          | None => Err ProcessingError
          end
      end
  end.
Definition sequence (f : rule -> state -> flow) : list rule -> state -> flow :=
  fix seq l s := match l with [] => Done s | r :: l => match f r s with Done s => seq l s | o => o end end.
(** 96-103 and 163-175 (and their like for templates) *)
Fixpoint run (it : item) (r : rule) (s : state) : flow :=
  match r with
  | Cond arms els =>
      (fix go (l : list (option expression * list rule)) : flow :=
         match l with
         | [] => sequence (run it) els s
         | (e, rs) :: l => match test e s with
                           | Err x => Raised x
                           | Ok true => sequence (run it) rs s
                           | Ok false => go l
                           end
         end) arms
  | Set_ w x e => match set_rule it w x e s with Ok s => Done s | Err x => Raised x end
  | Exit => Stopped s
  end.
Definition run_all (it : item) := sequence (run it).
(** 42-55, 286-298: exitResponse and exitTemplate end it *)
Definition process (it : item) (l : list rule) (s : state) : res state :=
  match run_all it l s with Done s | Stopped s => Ok s | Raised e => Err e end.

(** ** Item sessions *)
(** 1920-1943 *)
Fixpoint each {A} (f : A -> state -> res state) (l : list A) (s : state) : res state :=
  match l with [] => Ok s | a :: l => let! s := f a s in each f l s end.
Definition create (it : item) : res state :=
  let! s := each (fun d s => let! v := defined d (ddefault d) in Ok (set s (dname d) v)) (templates it) [] in
  let s := set s numAttempts (V (Some Single) (Some Integer) None) in
  let s := set s duration (V (Some Single) (Some Duration) None) in
  let s := set s completionStatus (V (Some Single) (Some Identifier) None) in
  let! s := each (fun d s =>
      let! v := defined d (dcorrect d) in
      let s := set s (dot_correct (dname d)) v in
      let! v := defined d (ddefault d) in
      let s := set s (dot_default (dname d)) v in
      let! v := new_value (dcard d) (dbase d) in Ok (set s (dname d) v)) (responses it) s in
  each (fun d s =>
      let! v := defined d (ddefault d) in
      let s := set s (dot_default (dname d)) v in
      let! v := new_value (dcard d) (dbase d) in Ok (set s (dname d) v)) (outcomes it) s.
(** 2134-2143 *)
Definition default_of (s : state) (x : str) : res value :=
  match get s (dot_default x) with None => Err KeyError | Some v => copy_value v end.
Definition outcome_default (s : state) (x : str) : res value :=
  let! v := default_of s x in
  match vval v, vcard v, vbase v with
  | None, Some Single, Some Integer => Ok (V (Some Single) (Some Integer) (Some (PS (DInt 0))))
  | None, Some Single, Some Float => Ok (V (Some Single) (Some Float) (Some (PS (DReal 0))))
  | _, _, _ => Ok v
  end.
Definition set_outcome_defaults (it : item) (s : state) : res state :=
  each (fun d s => let! v := outcome_default s (dname d) in Ok (set s (dname d) v)) (outcomes it) s.
(** 1945-1958 *)
Definition select_clone (it : item) (s : state) : res state := process it (template_rules it) s.
(** 1960-1978 *)
Definition begin_session (it : item) (s : state) : res state :=
  let s := set s completionStatus (V (Some Single) (Some Identifier) (Some (PS (DStr (lit "not_attempted"))))) in
  let! s := set_outcome_defaults it s in
  let s := set s numAttempts (V (Some Single) (Some Integer) (Some (PS (DInt 0)))) in
  Ok (set s duration (V (Some Single) (Some Duration) (Some (PS (DReal 0))))).
(** 1980-1994 *)
Definition begin_attempt (it : item) (s : state) : res state :=
  match get s numAttempts with
  | Some (V (Some Single) (Some Integer) (Some (PS (DInt n)))) =>
      let! v := IntegerValue (Some (n + 1)) in
      let s := set s numAttempts v in
      if n + 1 =? 1 then
        let! s := each (fun d s => let! v := default_of s (dname d) in Ok (set s (dname d) v)) (responses it) s in
        Ok (set s completionStatus (V (Some Single) (Some Identifier) (Some (PS (DStr (lit "unknown"))))))
      else Ok s
  | _ => Err TypeError
  end.
(** 2096-2105 *)
Definition end_attempt (it : item) (s : state) : res state :=
  let! s := if adaptive it then Ok s else set_outcome_defaults it s in
  process it (response_rules it) s.
(** 2001-2012: saved has the values to submit *)
Definition submit (it : item) (saved : state) (s : state) : res state :=
  let! s := each (fun d s =>
      match get saved (dname d) with
      | None => Ok s
      | Some w => match get s (dname d) with None => Err KeyError | Some v => let! v := assign v (vval w) in Ok (set s (dname d) v) end
      end) (responses it) s in
  end_attempt it s.
Inductive event := BeginAttempt | Submit (saved : state).
Definition on_event (it : item) (e : event) (s : state) : res state :=
  match e with BeginAttempt => begin_attempt it s | Submit saved => submit it saved s end.
Definition history (it : item) (l : list event) (s : state) : res state := each (on_event it) l s.
