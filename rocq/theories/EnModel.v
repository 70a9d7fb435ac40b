(** Enumerations of XML Schema types: pyslet/xml/xsdatatypes.py 593-780.
    Simplified: white space is that of ASCII; the attributes that are set on the class are left out, as are upper, lower and
    title case. A dictionary is an association list in the order of its keys. *)
From Verif Require Import Py UriModel AnModel.
From Coq Require Import String.
Open Scope Z_scope.

Record enum := EN { en_decode : list (str * Z); en_encode : list (Z * str); en_default : option Z }.
(** d.get(k), d[k] = v *)
Fixpoint dget {K V} (eqb : K -> K -> bool) (k : K) (d : list (K * V)) : option V :=
  match d with [] => None | (k', v) :: r => if eqb k' k then Some v else dget eqb k r end.
Fixpoint dset {K V} (eqb : K -> K -> bool) (k : K) (v : V) (d : list (K * V)) : list (K * V) :=
  match d with [] => [(k, v)] | (k', w) :: r => if eqb k' k then (k', v) :: r else (k', w) :: dset eqb k v r end.
(** 602-604 *)
Definition make_encode (decode : list (str * Z)) : list (Z * str) := fold_left (fun e x => dset Z.eqb (snd x) (fst x) e) decode [].
(** 605-610 *)
Fixpoint alias_loop (aliases : list (option str * str)) (decode : list (str * Z)) (default : option Z) : res (list (str * Z) * option Z) :=
  match aliases with
  | [] => Ok (decode, default)
  | (k, c) :: r =>
      match dget str_eqb c decode with
      | None => Err KeyError
      | Some v => match k with None => alias_loop r decode (Some v) | Some k => alias_loop r (dset str_eqb k v decode) default end
      end
  end.
(** 597-617 *)
Definition init_enum (decode : list (str * Z)) (aliases : list (option str * str)) : res enum :=
  let! (d, def) := alias_loop aliases decode None in Ok (EN d (make_encode decode) def).
(** 622-632 *)
Definition from_str (E : enum) (s : str) : res Z := match dget str_eqb (strip s) (en_decode E) with Some v => Ok v | None => Err ValueError end.
(** src.split() *)
Definition flush (w : str) : list str := match w with [] => [] | _ => [w] end.
Fixpoint split_ws (s w : str) : list str :=
  match s with [] => flush w | c :: r => if is_space c then flush w ++ split_ws r [] else split_ws r (w ++ [c]) end.
(** 676-693 *)
Fixpoint decode_all (decoder : str -> res Z) (l : list str) : res (list Z) :=
  match l with [] => Ok [] | s :: r => let! v := decoder s in let! vs := decode_all decoder r in Ok (v :: vs) end.
Definition list_from_str (decoder : str -> res Z) (src : str) : res (list Z) := decode_all decoder (split_ws src []).
(** 695-721: the test is after the loop; sv is not bound if the loop is empty *)
Fixpoint dict_loop (decoder : str -> res Z) (l : list str) (last : option (Z * str)) : res (option (Z * str)) :=
  match l with [] => Ok last | s :: r => let! v := decoder s in dict_loop decoder r (Some (v, s)) end.
Definition dict_from_str (decoder : str -> res Z) (src : str) : res (list (Z * str)) :=
  let! x := dict_loop decoder (split_ws src []) None in
  match x with None => Err NameError | Some (v, s) => Ok [(v, s)] end.
(** 725-730 *)
Definition to_str (E : enum) (value : option Z) : option str :=
  let get v := match v with Some v => dget Z.eqb v (en_encode E) | None => None end in
  match get value with Some s => Some s | None => get (en_default E) end.
(** 734-743 *)
Fixpoint join_sp (l : list str) : str := match l with [] => [] | [a] => a | a :: r => a ++ 32 :: join_sp r end.
Fixpoint str_all (E : enum) (vs : list (option Z)) : res (list str) :=
  match vs with [] => Ok [] | v :: r => match to_str E v with None => Err TypeError | Some s => let! l := str_all E r in Ok (s :: l) end end.
Definition list_to_str (E : enum) (vs : list (option Z)) : res str := let! l := str_all E vs in Ok (join_sp l).
(** 747-780 *)
Definition dict_to_str (E : enum) (keys : list Z) (sort_keys : bool) : res str :=
  list_to_str E (map Some (if sort_keys then sort Z.compare keys else keys)).
