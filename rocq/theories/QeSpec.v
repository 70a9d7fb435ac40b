(** What C123-C127 say of QTI expressions: IMS QTI 2.1, "Expressions" (section 15), and the documentation of Value. *)
From Verif Require Import Py QeModel.

(** ** Values that are what they claim to be *)
Definition typed (b : base) (d : dat) : Prop :=
  match b, d with
  | Boolean, DBool _ | Integer, DInt _ | (Identifier | String_), DStr _ | (Pair | DirectedPair), DPair _ _ | Point, DPoint _ _
  | (Float | Duration), DReal _ | File, DFile _ | Uri, DUri _ => True
  | _, _ => False
  end.
Definition well_formed (v : value) : Prop :=
  match vval v with
  | None => True
  | Some (PS d) => vcard v = Some Single /\ exists b, vbase v = Some b /\ typed b d
  | Some (PL l) => vcard v = Some Ordered /\ l <> [] /\ exists b, vbase v = Some b /\ Forall (typed b) l
  | Some (PM m) => vcard v = Some Multiple /\ m <> [] /\ NoDup (map fst m) /\ Forall (fun e => (0 < snd e)%nat) m /\
                   exists b, vbase v = Some b /\ Forall (typed b) (map fst m)
  | Some (PR _) => vcard v = Some Record_ /\ vbase v = None
  end.
(** the values it contains: none if it is NULL *)
Definition members (v : value) : list dat :=
  match vval v with Some (PS d) => [d] | Some (PL l) => l | Some (PM m) => dict_values m | _ => [] end.
Definition times (d : dat) (l : list dat) : nat := count_occ dat_dec l d.
Definition is_null (v : value) : Prop := vval v = None.
Fixpoint leaves (e : expr) : Prop :=
  match e with Leaf v => well_formed v | Null => True | EN _ l => fold_right (fun e p => leaves e /\ p) True l | EU _ e => leaves e end.

(** ** Truth values *)
(** a sub-expression with the truth value o, or NULL *)
Definition operand (v : value) (o : option bool) : Prop :=
  (vcard v = Some Single \/ vcard v = None /\ o = None) /\ (vbase v = Some Boolean \/ vbase v = None /\ o = None) /\
  vval v = match o with Some b => Some (PS (DBool b)) | None => None end.
(** truth values in the place of NULLs *)
Definition fills (os : list (option bool)) (bs : list bool) : Prop := Forall2 (fun o b => match o with Some x => b = x | None => True end) os bs.
(** the truth value that f has whatever the NULLs stand for, or NULL if there is none *)
Definition decides (f : list bool -> bool) (os : list (option bool)) (r : option bool) : Prop :=
  match r with
  | Some b => forall bs, fills os bs -> f bs = b
  | None => (exists bs, fills os bs /\ f bs = true) /\ exists bs, fills os bs /\ f bs = false
  end.
Definition count_true (bs : list bool) : Z := Z.of_nat (length (filter id bs)).
Definition between (mn mx : Z) (bs : list bool) : bool := (mn <=? count_true bs) && (count_true bs <=? mx).

(** ** Numbers *)
Definition number (v : value) (o : option Z) : Prop :=
  (vcard v = Some Single \/ vcard v = None /\ o = None) /\ (vbase v = Some Integer \/ vbase v = None /\ o = None) /\
  vval v = match o with Some z => Some (PS (DInt z)) | None => None end.
Fixpoint all_of (os : list (option Z)) : option (list Z) :=
  match os with [] => Some [] | Some z :: os => match all_of os with Some l => Some (z :: l) | None => None end | None :: _ => None end.
(** the result of a computation with whole numbers: NULL, a number, or ValueError if it is out of the range *)
Definition integer_result (o : option Z) (r : res value) : Prop :=
  match o with
  | None => r = Ok (V (Some Single) (Some Integer) None)
  | Some z => if (-2147483648 <=? z) && (z <=? 2147483647) then r = Ok (V (Some Single) (Some Integer) (Some (PS (DInt z)))) else r = Err ValueError
  end.

(** ** Mappings *)
(** the last entry for d, or the default value *)
Definition maps_to (m : mapping) (d : dat) (x : Z) : Prop :=
  (exists l1 l2, entries m = l1 ++ (d, x) :: l2 /\ ~ In d (map fst l2)) \/ ~ In d (map fst (entries m)) /\ x = default_value m.
Definition bounded (m : mapping) (x : Z) : Z :=
  let y := match upper_bound m with Some hi => Z.min hi x | None => x end in
  match lower_bound m with Some lo => Z.max lo y | None => y end.
Definition sum (l : list Z) : Z := fold_right Z.add 0 l.
