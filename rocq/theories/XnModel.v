(** XML namespaces: pyslet/xml/namespace.py 68-256 (NSNode), 308-329 (names), 360-389 (set_attribute), 440-464
    (write_xml_attributes), 466-537 (generate_xml), 639-793 (XMLNSParser); xml/parser.py 2138-2183 (parse_element), structures.py 1669-1673.
    Simplified: elements of class NSElement; character data, escaping (XtModel) and pretty printing are left out, an
    element is written to and read from a tag with its qualified name, attributes and children; attributes are in the
    order that sorted() gives, declarations in the order of the dictionary; dictionaries are lists of their entries in
    insertion order; default_ns is an attribute of the document, the last node of a scope. *)
From Verif Require Import Py Num UriModel.
From Coq Require Import String.
Open Scope Z_scope.

(** ** Dictionaries *)
Section Dict.
  Context {K A : Type} (eqb : K -> K -> bool).
  Fixpoint dget (m : list (K * A)) (k : K) : option A := match m with [] => None | (j, a) :: m => if eqb j k then Some a else dget m k end.
  Fixpoint dset (m : list (K * A)) (k : K) (a : A) : list (K * A) := match m with [] => [(k, a)] | (j, b) :: m => if eqb j k then (j, a) :: m else (j, b) :: dset m k a end.
End Dict.
Notation sget := (dget str_eqb).
Notation sset := (dset str_eqb).
(** namespace.py 30-37 *)
Definition XML_NAMESPACE := lit "http://www.w3.org/XML/1998/namespace".
Definition XMLNS_NAMESPACE := lit "http://www.w3.org/2000/xmlns/".
Definition NO_NAMESPACE := lit "~".
Definition colon : Z := 58.

(** ** Nodes: 85-88; a scope is a node with its ancestors, the document last *)
Record node := N { p2n : list (str * str); n2p : list (str * str) }.
Definition scope := list node.
Definition empty_node := N [] [].
Definition declares (n : node) (p : str) : bool := match sget (p2n n) p with Some _ => true | None => false end.
(** 99-131 *)
Fixpoint search_prefix (inner : scope) (sc : scope) (ns : str) : option str :=
  match sc with
  | [] => None
  | ei :: sc =>
      match sget (n2p ei) ns with
      | Some p => if existsb (fun ej => declares ej p) inner then search_prefix (inner ++ [ei]) sc ns else Some p
      | None => search_prefix (inner ++ [ei]) sc ns
      end
  end.
Definition get_prefix (sc : scope) (ns : str) : option str :=
  if str_eqb ns XML_NAMESPACE then Some (lit "xml") else if str_eqb ns NO_NAMESPACE then Some [] else search_prefix [] sc ns.
(** 133-159 *)
Fixpoint search_ns (sc : scope) (dflt : option str) (p : str) (last : option str) : option str :=
  match sc with
  | [] => last
  | ei :: sc =>
      let o := sget (p2n ei) p in
      if truthy o then o else
        let o := match p with [] => match sc with [] => dflt | _ => None end | _ => o end in
        if truthy o then o else search_ns sc dflt p o
  end.
Definition get_ns (sc : scope) (dflt : option str) (p : str) : option str :=
  if str_eqb p (lit "xml") then Some XML_NAMESPACE else search_ns sc dflt p None.
(** 161-178; there are fewer declarations than steps (new_prefix_total) *)
Definition nth_prefix (k : nat) : str := lit "ns" ++ dec_nat (Z.of_nat k).
Fixpoint count_up (fuel : nat) (sc : scope) (dflt : option str) (k : nat) : res str :=
  match get_ns sc dflt (nth_prefix k) with
  | None => Ok (nth_prefix k)
  | Some _ => match fuel with O => Err Unmodelled | S f => count_up f sc dflt (S k) end
  end.
Definition new_prefix (sc : scope) (dflt : option str) : res str := count_up (List.length (flat_map p2n sc)) sc dflt 1.
(** 180-204 with a given prefix *)
Definition make_prefix (n : node) (ns p : str) : res node :=
  if declares n p then Err ValueError else Ok (N (sset (p2n n) p ns) (sset (n2p n) ns p)).
(** 206-220 *)
Definition prefix_map (sc : scope) : list (str * str) :=
  fold_left (fun m ei => fold_left (fun m e => match sget m (fst e) with Some _ => m | None => m ++ [(fst e, snd e)] end) (p2n ei) m) sc [].

(** ** Elements: an expanded name (308-329), attributes by expanded name, children *)
Definition xname := (option str * str)%type.
Definition xname_eqb (a b : xname) : bool :=
  match fst a, fst b with Some u, Some v => str_eqb u v && str_eqb (snd a) (snd b) | None, None => str_eqb (snd a) (snd b) | _, _ => false end.
Inductive elem := E (name : xname) (attrs : list (xname * str)) (nd : node) (cs : list elem).
(** what is written: a start tag's name and attributes, and the tags within *)
Inductive tag := T (qname : str) (attrs : list (str * str)) (cs : list tag).

(** ** Writing *)
Definition qualified (p name : str) : str := match p with [] => name | _ => p ++ [colon] ++ name end.
(** 479-491 *)
Definition element_prefix (sc : scope) (nd : node) (name : xname) : res (str * node) :=
  match fst name with
  | Some (c :: u) =>
      match get_prefix (nd :: sc) (c :: u) with
      | Some p => Ok (p, nd)
      | None => let! nd := make_prefix nd (c :: u) [] in Ok ([], nd)
      end
  | _ => Ok ([], nd)
  end.
(** 440-462 *)
Fixpoint write_attrs (dflt : option str) (sc : scope) (nd : node) (attrs : list (xname * str)) : res (list (str * str) * node) :=
  match attrs with
  | [] => Ok ([], nd)
  | ((ns, a), v) :: attrs =>
      let! pn := match ns with
                 | None => Ok ([], nd)
                 | Some u =>
                     match get_prefix (nd :: sc) u with
                     | Some p => Ok (p, nd)
                     | None => let! p := new_prefix (nd :: sc) dflt in let! nd := make_prefix nd u p in Ok (p, nd)
                     end
                 end in
      let '(p, nd) := pn in
      let! rest := write_attrs dflt sc nd attrs in
      let '(l, nd) := rest in Ok ((qualified p a, v) :: l, nd)
  end.
(** 236-254 *)
Definition ns_attr (e : str * str) : str * str := (match fst e with [] => lit "xmlns" | p => lit "xmlns:" ++ p end, snd e).
(** 466-537; the element is left with the prefixes it made *)
Fixpoint write (dflt : option str) (root : bool) (sc : scope) (e : elem) : res (tag * elem) :=
  match e with
  | E name attrs nd cs =>
      let! pn := element_prefix sc nd name in
      let '(p, nd) := pn in
      let! an := write_attrs dflt sc nd attrs in
      let '(al, nd) := an in
      let decls := map ns_attr (if root then prefix_map (nd :: sc) else p2n nd) in
      let! rs := (fix children (l : list elem) : res (list tag * list elem) :=
                    match l with
                    | [] => Ok ([], [])
                    | e :: l => let! te := write dflt false (nd :: sc) e in let! r := children l in Ok (fst te :: fst r, snd te :: snd r)
                    end) cs in
      Ok (T (qualified p (snd name)) (decls ++ al) (fst rs), E name attrs nd (snd rs))
  end.

(** ** Reading *)
(** 639-684 *)
Definition expand_qname (qname : str) (ns_defs : list (str * str)) (dflt : option str) (context : scope) (use_default : bool) : res xname :=
  match split_on colon qname with
  | [_] =>
      if str_eqb qname (lit "xmlns") then Ok (Some XMLNS_NAMESPACE, [])
      else if use_default then Ok (match sget ns_defs [] with Some u => Some u | None => get_ns context dflt [] end, qname)
      else Ok (Some NO_NAMESPACE, qname)
  | [p; local] =>
      if str_eqb p (lit "xml") then Ok (Some XML_NAMESPACE, local)
      else if str_eqb p (lit "xmlns") then Ok (Some XMLNS_NAMESPACE, local)
      else Ok (match sget ns_defs p with Some u => Some u | None => get_ns context dflt p end, local)
  | _ => Err XMLError
  end.
(** 693-725: the declarations among the attributes, and the others *)
Definition is_ns_attr (a : str) : bool := str_eqb (firstn 5 a) (lit "xmlns").
Definition ns_decls (attrs : list (str * str)) : list (str * str) :=
  fold_left (fun m e =>
    if is_ns_attr (fst e) then
      match skipn 5 (fst e) with
      | [] => sset m [] (snd e)
      | c :: p => if c =? colon then sset m p (snd e) else m
      end
    else m) attrs [].
Fixpoint expand_attrs (attrs : list (str * str)) (ns_defs : list (str * str)) (dflt : option str) (context : scope) (done : list (xname * str)) : res (list (xname * str)) :=
  match attrs with
  | [] => Ok done
  | (a, v) :: attrs => let! x := expand_qname a ns_defs dflt context false in expand_attrs attrs ns_defs dflt context (dset xname_eqb done x v)
  end.
(** 374-380 *)
Definition node_of (decls : list (str * str)) : node := N decls (fold_left (fun m e => sset m (snd e) (fst e)) decls []).
(** 727-793, parser.py 2138-2183 *)
Fixpoint read (dflt : option str) (context : scope) (t : tag) : res elem :=
  match t with
  | T qname attrs cs =>
      let ns := ns_decls attrs in
      let! al := expand_attrs (filter (fun e => negb (is_ns_attr (fst e))) attrs) ns dflt context [] in
      let! x := expand_qname qname ns dflt context true in
      let x := match fst x with None => (dflt, snd x) | Some _ => x end in
      let nd := node_of ns in
      let! l := (fix children (l : list tag) : res (list elem) :=
                   match l with [] => Ok [] | t :: l => let! e := read dflt (nd :: context) t in let! r := children l in Ok (e :: r) end) cs in
      Ok (E x al nd l)
  end.
