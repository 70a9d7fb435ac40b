(** Cache-Control values, made and written: pyslet/http/messages.py 2588-2680. (Reading one is in CrModel.)
    Simplified: names and keys are character strings; a value is None, a tuple of values or any other value, each value but None
    being given by what str() makes of it. The dictionary is an association list, what was assigned last being first. *)
From Verif Require Import Py Num UriModel HttpModel HttpParamModel AnModel CrModel.
From Coq Require Import String.
Open Scope Z_scope.

Inductive cvalue := CNone | CText (s : str) | CTuple (l : list str).
Record cache_control := CC { cc_directives : list str; cc_values : list (str * cvalue) }.
(** 2618-2628 *)
Fixpoint cc_loop (args : list (str * cvalue)) (ds : list str) (vs : list (str * cvalue)) : res cache_control :=
  match args with
  | [] => Ok (CC ds vs)
  | (d, v) :: r => let! d := bstr d in cc_loop r (ds ++ [b_lower d]) ((b_lower d, v) :: vs)
  end.
(** 2612-2618 *)
Definition new_cache_control (args : list (str * cvalue)) : res cache_control :=
  match args with [] => Err TypeError | _ => cc_loop args [] [] end.
(** self._values[d] *)
Fixpoint cc_look (vs : list (str * cvalue)) (d : str) : res cvalue :=
  match vs with [] => Err KeyError | (e, v) :: r => if str_eqb e d then Ok v else cc_look r d end.
(** 2639-2654 *)
Fixpoint ascii_all (l : list str) : res (list str) :=
  match l with [] => Ok [] | s :: l => let! s := ascii s in let! l := ascii_all l in Ok (s :: l) end.
Definition directive_bytes (d : str) (v : cvalue) : res str :=
  match v with
  | CNone => Ok d
  | CTuple l => let! l := ascii_all l in Ok (d ++ lit "=" ++ quote_string (comma_space l) true)
  | CText s => let! s := ascii s in Ok (d ++ lit "=" ++ quote_string s false)
  end.
Fixpoint directives_bytes (ds : list str) (vs : list (str * cvalue)) : res (list str) :=
  match ds with
  | [] => Ok []
  | d :: r => let! v := cc_look vs d in let! s := directive_bytes d v in let! l := directives_bytes r vs in Ok (s :: l)
  end.
Definition cc_bytes (c : cache_control) : res str :=
  let! l := directives_bytes (cc_directives c) (cc_values c) in Ok (comma_space l).
(** 2656-2657 *)
Definition cc_len (c : cache_control) : Z := Z.of_nat (List.length (cc_directives c)).
(** 2659-2663: by name *)
Definition cc_key (c : cache_control) (key : str) : res cvalue := let! k := bstr key in cc_look (cc_values c) (b_lower k).
(** 2664-2670: by position; a directive with no value is given as (d, CNone) *)
Definition cc_index (c : cache_control) (i : Z) : res (str * cvalue) :=
  let i := if i <? 0 then i + cc_len c else i in
  if i <? 0 then Err IndexError else
  match nth_error (cc_directives c) (Z.to_nat i) with
  | None => Err IndexError
  | Some d => let! v := cc_look (cc_values c) d in Ok (d, v)
  end.
(** 2672-2678 *)
Fixpoint iter_loop (ds : list str) (vs : list (str * cvalue)) : res (list (str * cvalue)) :=
  match ds with [] => Ok [] | d :: r => let! v := cc_look vs d in let! l := iter_loop r vs in Ok ((d, v) :: l) end.
Definition cc_iter (c : cache_control) : res (list (str * cvalue)) := iter_loop (cc_directives c) (cc_values c).
(** 2680-2681 *)
Definition cc_contains (c : cache_control) (key : str) : res bool :=
  let! k := bstr key in Ok (match cc_look (cc_values c) (b_lower k) with Ok _ => true | Err _ => false end).
