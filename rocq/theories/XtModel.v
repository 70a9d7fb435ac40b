(** Model of XML text: pyslet/xml/structures.py 150-179 (collapse_space), 245-365 (escaping), 1766-1850 (canonical
    children), 2239-2259 (add_data), 2439-2466 (==), 2688-2848 (serialization), 3506-3537 (characters of an entity);
    pyslet/xml/parser.py 1054-1124, 1445-1504, 1554-1747, 1849-1860, 2076-2247, 2494-2692, 3527-3676 (parsing).
    The parser is the text that it has not read, after the end-of-line handling; None is the end of it.  No DTD, no
    validation, no SGML options; XMLError is XMLWellFormedError or XMLValidityError.  Elements are generic: attributes in
    _attrs, children in _children; [mixed n]: whether the class of the elements named n may have data.  Positions and
    messages are left out. *)
From Verif Require Import Py Num CmSpec CdModel XtSpec.

(** 45, 36-44 *)
Definition is_char_b (c : Z) : bool := in_ranges c [(9, 10); (13, 13); (32, 55295); (57344, 65533); (65536, 1114111)].

(** ** References *)
Fixpoint take_while (p : Z -> bool) (t : str) : str * str :=
  match t with
  | c :: r => if p c then let (a, b) := take_while p r in (c :: a, b) else ([], t)
  | [] => ([], [])
  end.
(** 3527-3558 [parse_char_ref], after the & *)
Definition parse_char_ref (t : str) : res (Z * str) :=
  let! t := parse_required_literal (lit "#") t in
  let! (data, t) := match parse_literal (lit "x") t with
                    | Some t => let (ds, t) := take_while is_hexd t in
                                match ds with
                                | [] => Err XMLError
                                | _ => let! c := character (number 16 (map hexv ds)) in Ok (c, t)
                                end
                    | None => let (ds, t) := take_while is_dec t in
                              match ds with
                              | [] => Err XMLError
                              | _ => let! c := character (number 10 (map (fun c => c - 48) ds)) in Ok (c, t)
                              end
                    end in
  let! t := parse_required_literal (lit ";") t in
  if is_char_b data then Ok (data, t) else Err XMLError.
(** 613-618 *)
Definition predefined (n : str) : option Z :=
  if str_eqb n (lit "lt") then Some 60 else if str_eqb n (lit "gt") then Some 62
  else if str_eqb n (lit "apos") then Some 39 else if str_eqb n (lit "quot") then Some 34
  else if str_eqb n (lit "amp") then Some 38 else None.
(** 3560-3669 [parse_reference], [parse_entity_ref], after the &; without a DTD the document is standalone *)
Definition parse_reference (t : str) : res (Z * str) :=
  if match t with c :: _ => c =? 35 | [] => false end then parse_char_ref t
  else
    let! (n, t) := parse_required_name t in
    let! t := parse_required_literal (lit ";") t in
    match predefined n with Some c => Ok (c, t) | None => Err XMLError end.

(** ** Tags *)
(** 1445-1504 [parse_att_value], after the quote q *)
Fixpoint att_loop (f : nat) (q : Z) (t : str) : res (str * str) :=
  match f with
  | O => Err Timeout
  | S f =>
    match t with
    | [] => Err XMLError
    | c :: r =>
      if c =? q then Ok ([], r)
      else if c =? 38 then let! (x, t) := parse_reference r in let! (v, t) := att_loop f q t in Ok (x :: v, t)
      else if is_s c then let! (v, t) := att_loop f q r in Ok (32 :: v, t)
      else if c =? 60 then Err XMLError
      else let! (v, t) := att_loop f q r in Ok (c :: v, t)
    end
  end.
(** 1105-1124 [parse_quote] *)
Definition parse_att_value (t : str) : res (str * str) :=
  match t with
  | c :: r => if (c =? 34) || (c =? 39) then att_loop (S (length r)) c r else Err XMLError
  | [] => Err XMLError
  end.
(** 1258-1300 [parse_s], outside of a DTD: the white space, and what is left *)
Definition take_s (t : str) : str * str := take_while is_s t.
(** 2541-2569 [parse_attribute], 1849-1860 [parse_eq] *)
Definition parse_attribute (t : str) : res (str * str * str) :=
  let! (n, t) := parse_required_name t in
  let (_, t) := take_s t in
  let! t := parse_required_literal (lit "=") t in
  let (_, t) := take_s t in
  let! (v, t) := parse_att_value t in
  Ok (n, v, t).
(** 2494-2539 [parse_stag]: the loop; [attrs] is a dictionary in the order of insertion *)
Fixpoint stag_loop (f : nat) (attrs : list (str * str)) (t : str) : res (list (str * str) * bool * str) :=
  match f with
  | O => Err Timeout
  | S f =>
    let (s, t) := take_s t in
    let the_char := match t with c :: _ => c | [] => -1 end in
    if the_char =? 62 then Ok (attrs, false, tl t)
    else if the_char =? 47 then let! t := parse_required_literal (lit "/>") t in Ok (attrs, true, t)
    else
      match s with
      | [] => Err XMLError
      | _ => let! (n, v, t) := parse_attribute t in
             if existsb (fun a => str_eqb (fst a) n) attrs then Err XMLError
             else stag_loop f (attrs ++ [(n, v)]) t
      end
  end.
Definition parse_stag (t : str) : res (str * list (str * str) * bool * str) :=
  let! t := parse_required_literal (lit "<") t in
  let! (n, t) := parse_required_name t in
  let! (attrs, empty, t) := stag_loop (S (length t)) [] t in
  Ok (n, attrs, empty, t).
(** 2571-2593 [parse_etag] *)
Definition parse_etag (t : str) : res (str * str) :=
  let! t := parse_required_literal (lit "</") t in
  let! (n, t) := parse_required_name t in
  let (_, t) := take_s t in
  let! t := parse_required_literal (lit ">") t in
  Ok (n, t).

(** ** Character data and markup *)
(** 1554-1595 [parse_char_data]: the data up to <, & or ]]>.  (It is handed on in pieces of 8192 characters, which
    [add_data] joins.) *)
Fixpoint char_data_loop (t : str) : str * str :=
  match t with
  | [] => ([], [])
  | c :: r =>
    if (c =? 60) || (c =? 38) then ([], t)
    else match parse_literal (lit "]]>") t with
         | Some _ => ([], t)
         | None => let (d, u) := char_data_loop r in (c :: d, u)
         end
  end.
(** 1722-1741 [parse_cdata] *)
Fixpoint cdata_loop (t : str) : str * str :=
  match t with
  | [] => ([], [])
  | c :: r => match parse_literal (lit "]]>") t with
              | Some _ => ([], t)
              | None => let (d, u) := cdata_loop r in (c :: d, u)
              end
  end.
(** 1696-1714 [parse_cdsect] *)
Definition parse_cdsect (t : str) : res (str * str) :=
  let (d, t) := cdata_loop t in
  let! t := parse_required_literal (lit "]]>") t in
  Ok (d, t).
(** 1597-1646 [parse_comment], after <!--; the text of the comment is not used *)
Fixpoint comment_loop (nhyphens : nat) (t : str) : res str :=
  match t with
  | [] => Ok []
  | c :: r =>
    if c =? 45 then if (2 <? S nhyphens)%nat then Err XMLError else comment_loop (S nhyphens) r
    else if c =? 62 then if (nhyphens =? 2)%nat then Ok r else comment_loop 0 r
    else if is_s c then comment_loop (if (nhyphens <? 2)%nat then 0%nat else nhyphens) r
    else if (2 <=? nhyphens)%nat then Err XMLError
    else comment_loop 0 r
  end.
(** 1648-1682 [parse_pi], 1684-1694 [parse_pi_target], after <? *)
Fixpoint pi_loop (t : str) : res str :=
  match t with
  | [] => Ok []
  | c :: r => if c =? 63 then
                match r with
                | [] => Err TypeError
                | d :: r => if d =? 62 then Ok r else pi_loop r
                end
              else pi_loop r
  end.
Definition parse_pi (t : str) : res str :=
  match t with
  | c :: r =>
    if is_name_start_char c then
      let (n, t) := name_rest r in
      if str_eqb (map lower_ascii (c :: n)) (lit "xml") then Err XMLError
      else match take_s t with
           | ([], t) => parse_required_literal (lit "?>") t
           | (_, t) => pi_loop t
           end
    else Err AttributeError
  | [] => Err AttributeError
  end.

(** ** Elements *)
(** structures.py 2239-2259 [add_data] *)
Fixpoint append_data (ch : list node) (d : str) : list node :=
  match ch with
  | [] => [Text d]
  | [Text s] => [Text (s ++ d)]
  | x :: r => x :: append_data r d
  end.
(** 2694-2731 [handle_data] *)
Definition handle_data (mixed : bool) (ch : list node) (d : str) : res (list node) :=
  match d with
  | [] => Ok ch
  | _ => if mixed then Ok (append_data ch d) else if forallb is_s d then Ok ch else Err XMLError
  end.
Section parser.
  Variable mixed : str -> bool.
  (** 2076-2247 [parse_element] *)
  Fixpoint parse_element (f : nat) (t : str) : res (node * str) :=
    match f with
    | O => Err Timeout
    | S f =>
      let! (n, attrs, empty, t) := parse_stag t in
      if empty : bool then Ok (Elem n attrs [], t)
      else
        let! (ch, t) := parse_content f (mixed n) [] t in
        let! (e, t) := parse_etag t in
        if str_eqb e n then Ok (Elem n attrs ch, t) else Err XMLError
    end
  (** 2595-2692 [parse_content] *)
  with parse_content (f : nat) (m : bool) (ch : list node) (t : str) : res (list node * str) :=
    match f with
    | O => Err Timeout
    | S f =>
      match t with
      | [] => Ok (ch, [])
      | c :: r =>
        if c =? 60 then
          let the_char := match r with d :: _ => d | [] => -1 end in
          if the_char =? 33 then
            let r := tl r in
            let the_char := match r with d :: _ => d | [] => -1 end in
            if the_char =? 45 then
              let! t := parse_required_literal (lit "--") r in
              let! t := comment_loop 0 t in
              parse_content f m ch t
            else if the_char =? 91 then
              let! t := parse_required_literal (lit "[CDATA[") r in
              let! (d, t) := parse_cdsect t in
              let! ch := handle_data m ch d in
              parse_content f m ch t
            else Err XMLError
          else if the_char =? 63 then let! t := parse_pi (tl r) in parse_content f m ch t
          else if the_char =? 47 then Ok (ch, t)
          else let! (e, t) := parse_element f t in parse_content f m (ch ++ [e]) t
        else if c =? 38 then
          let! (c, t) := parse_reference r in
          let! ch := handle_data m ch [c] in
          parse_content f m ch t
        else
          let (d, t) := char_data_loop t in
          let! ch := handle_data m ch d in
          parse_content f m ch t
      end
    end.
End parser.

(** ** The characters of an entity: structures.py 3506-3537 [next_char] *)
(** all that next_char gives one after the other, over what the reads of char_source returned; an empty read is the end *)
Fixpoint next_chars (chunk : str) (ignore_lf : bool) : str * bool :=
  match chunk with
  | [] => ([], ignore_lf)
  | c :: r =>
    if c =? 13 then let (u, b) := next_chars r true in (10 :: u, b)
    else if c =? 10 then
      if ignore_lf then next_chars r false
      else let (u, b) := next_chars r false in (10 :: u, b)
    else let (u, b) := next_chars r false in (c :: u, b)
  end.
Fixpoint entity_chars (reads : list str) (ignore_lf : bool) : str :=
  match reads with
  | [] => []
  | [] :: _ => []
  | chunk :: r => let (u, b) := next_chars chunk ignore_lf in u ++ entity_chars r b
  end.

(** ** Escaping: structures.py 245-365 *)
(** "%0nX" % v, for v < 16^n *)
Fixpoint hexn (n : nat) (v : Z) : str := match n with O => [] | S n => hexn n (v / 16) ++ [hexd (v mod 16)] end.
(** 269-308 [escape_char_data]: the loop *)
Definition esc (c : Z) : str :=
  if c =? 38 then lit "&amp;" else if c =? 60 then lit "&lt;" else if c =? 62 then lit "&gt;"
  else if c =? 13 then lit "&#xD;" else [c].
Definition count (c : Z) (s : str) : nat := length (filter (Z.eqb c) s).
(** the pieces of data equal to a quote are replaced *)
Definition replace_piece (q : Z) (r : str) (d : str) : str := if str_eqb d [q] then r else d.
Definition escape_char_data (src : str) (quote : bool) : str :=
  let data := map esc src in
  let quot := count 34 src in
  let apos := count 39 src in
  if quote then
    if (apos <? quot)%nat then
      [39] ++ concat (if (0 <? apos)%nat then map (replace_piece 39 (lit "&apos;")) data else data) ++ [39]
    else
      [34] ++ concat (if (0 <? quot)%nat then map (replace_piece 34 (lit "&quot;")) data else data) ++ [34]
  else concat data.
(** 311-365 [escape_char_data7] *)
Definition esc7 (q : option (Z * str)) (c : Z) : str :=
  if 127 <? c then
    if 255 <? c then
      if 65535 <? c then
        if 16777215 <? c then lit "&#x" ++ hexn 8 c ++ lit ";"
        else lit "&#x" ++ hexn 6 c ++ lit ";"
      else lit "&#x" ++ hexn 4 c ++ lit ";"
    else lit "&#x" ++ hexn 2 c ++ lit ";"
  else if c =? 60 then lit "&lt;" else if c =? 38 then lit "&amp;" else if c =? 62 then lit "&gt;"
  else if c =? 13 then lit "&#xD;"
  else match q with
       | Some (q, qstr) => if c =? q then qstr else [c]
       | None => [c]
       end.
Definition escape_char_data7 (src : str) (quote : bool) : str :=
  if quote then
    let q := if existsb (Z.eqb 39) src then (34, lit "&#x22;")
             else if existsb (Z.eqb 34) src then (39, lit "&#x27;") else (34, lit "&#x22;") in
    [fst q] ++ concat (map (esc7 (Some q)) src) ++ [fst q]
  else concat (map (esc7 None) src).
Definition escape_function (seven : bool) : str -> bool -> str := if seven then escape_char_data7 else escape_char_data.
(** 245-267 [escape_cdsect]; src.split(']]>') *)
Definition push (c : Z) (l : list str) : list str := match l with w :: r => (c :: w) :: r | [] => [[c]] end.
Fixpoint split_end (t : str) : list str :=
  match t with
  | [] => [[]]
  | a :: r =>
    match r with
    | b :: (c :: r2) => if (a =? 93) && (b =? 93) && (c =? 62) then [] :: split_end r2 else push a (split_end r)
    | _ => push a (split_end r)
    end
  end.
Definition escape_cdsect (src : str) : str :=
  match split_end src with
  | d :: r => lit "<![CDATA[" ++ d ++ concat (map (fun d => lit "]]>]]&gt;<![CDATA[" ++ d) r) ++ lit "]]>"
  | [] => []
  end.

(** ** White space *)
(** structures.py 150-179 [collapse_space] *)
Fixpoint collapse_loop (smode : bool) (data : str) : str :=
  match data with
  | [] => []
  | c :: r => if is_s c then (if smode then [] else [32]) ++ collapse_loop true r else c :: collapse_loop false r
  end.
Definition collapse_space (data : str) (smode : bool) : str :=
  match collapse_loop smode data with [] => [32] | r => r end.
(** structures.py 1766-1850 [get_canonical_children].  The children are characters or elements; nothing is done with an element. *)
Inductive piece (A : Type) := PText (s : str) | PElem (a : A).
Arguments PText {A}.
Arguments PElem {A}.
Section canonical.
  Context {A : Type}.
  (** 1817-1850, [data] and [smode] as in the code; data is None when it is [] there *)
  Fixpoint canonical_loop (data : option str) (smode : bool) (l : list (piece A)) : list (piece A) :=
    match l with
    | PText s :: r => canonical_loop (Some (match data with Some d => d ++ s | None => s end)) smode r
    | PElem e :: r =>
      match data with
      | Some d => let child := collapse_space d smode in
                  if negb smode || negb (str_eqb child [32]) then [PText child] else []
      | None => []
      end ++ PElem e :: canonical_loop None false r
    | [] =>
      match data with
      | Some d => let child := collapse_space d smode in
                  if str_eqb child [32] then if smode then [PText []; PText child] else []
                  else if last child 0 =? 32 then [PText (removelast child)] else [PText child]
      | None => []
      end
    end.
  Definition canonical_children (preserve : bool) (l : list (piece A)) : list (piece A) :=
    if preserve then l
    else match l with
         | [] => []
         | [PText s] => [PText (collapse_space s true)]
         | [PElem e] => [PElem e]
         | PText s :: r => canonical_loop (Some s) true r
         | PElem e :: r => PElem e :: canonical_loop None false r
         end.
End canonical.
(** structures.py 2657-2659 [get_space] *)
Definition get_attr (n : str) (a : list (str * str)) : option str :=
  match find (fun x => str_eqb (fst x) n) a with Some (_, v) => Some v | None => None end.
Definition get_space (a : list (str * str)) : option str := get_attr (lit "xml:space") a.
(** 1784-1801: the loop over an element and its ancestors; [inherited]: what it finds for the parent *)
Definition preserves (inherited : bool) (a : list (str * str)) : bool :=
  match get_space a with Some s => str_eqb s (lit "preserve") | None => inherited end.

(** ** Writing *)
(** list.sort() of names, with their values *)
Fixpoint str_leb (a b : str) : bool :=
  match a, b with
  | [], _ => true
  | _ :: _, [] => false
  | x :: a, y :: b => if x <? y then true else if y <? x then false else str_leb a b
  end.
Fixpoint insert_name (x : str * str) (l : list (str * str)) : list (str * str) :=
  match l with
  | [] => [x]
  | y :: r => if str_leb (fst x) (fst y) then x :: l else y :: insert_name x r
  end.
Definition sort_attrs (a : list (str * str)) : list (str * str) := fold_right insert_name [] a.
(** structures.py 2732-2763 [write_xml_attributes], 2810-2814 *)
Definition attributes_text (seven : bool) (a : list (str * str)) : str :=
  flat_map (fun x => [32] ++ fst x ++ [61] ++ escape_function seven (snd x) true) (sort_attrs a).
Section writer.
  Variable mixed : str -> bool.
  Variable seven : bool.
  (** structures.py 2766-2847 [generate_xml]: the text of an element; [inherited]: the space policy of its parent, [pp]: whether its
      parent can be pretty-printed (2688-2729, [can_pretty_print]) *)
  Definition can_pretty_print (n : str) (a : list (str * str)) (pp : bool) : bool :=
    if mixed n then false
    else if match get_space a with Some s => str_eqb s (lit "preserve") | None => false end then false
    else pp.
  Fixpoint generate_xml (e : node) (inherited pp : bool) (indent tab : str) {struct e} : str :=
    match e with
    | Text s => escape_function seven s false
    | Elem n a ch =>
      let ws := match tab with [] => [] | _ => 10 :: indent end in
      let pretty := can_pretty_print n a pp in
      let indent := if pretty then match tab with [] => indent | _ => indent ++ tab end else [] in
      let tab := if pretty then tab else [] in
      let p := preserves inherited a in
      let children := canonical_children p
        (map (fun c => match c with Text s => PText s | Elem _ _ _ => PElem (fun indent tab => generate_xml c p pretty indent tab) end) ch) in
      match children with
      | [] => ws ++ lit "<" ++ n ++ attributes_text seven a ++ lit "/>"
      | first :: _ =>
        let pre := match first with PText (c :: _) => is_s c | _ => false end in
        let indent := if pre then [] else indent in
        let tab := if pre then [] else tab in
        let text := existsb (fun c => match c with PText _ => true | PElem _ => false end) children in
        ws ++ lit "<" ++ n ++ attributes_text seven a ++ lit ">"
        ++ flat_map (fun c => match c with PText s => escape_function seven s false | PElem g => g indent tab end) children
        ++ (match tab with [] => [] | _ => if text then [] else ws end) ++ lit "</" ++ n ++ lit ">"
      end
    end.
End writer.

(** ** Equality: 2439-2466 [__eq__]; p, q: the space policies that the two inherit *)
Fixpoint equal_children {A} (eqn : A -> node -> bool) (l : list (piece A)) (m : list (piece node)) : bool :=
  match l, m with
  | [], [] => true
  | PText s :: l, PText s' :: m => str_eqb s s' && equal_children eqn l m
  | PElem f :: l, PElem e :: m => eqn f e && equal_children eqn l m
  | _, _ => false
  end.
Definition pieces (ch : list node) : list (piece node) :=
  map (fun c => match c with Text s => PText s | Elem _ _ _ => PElem c end) ch.
Definition names_eqb (a b : list str) : bool := if list_eq_dec (list_eq_dec Z.eq_dec) a b then true else false.
Fixpoint equal (e e' : node) (p q : bool) {struct e} : bool :=
  match e, e' with
  | Elem n a ch, Elem n' a' ch' =>
    str_eqb n n' && names_eqb (map fst (sort_attrs a)) (map fst (sort_attrs a'))
    && forallb (fun x => match get_attr (fst x) a, get_attr (fst x) a' with
                         | Some v, Some v' => str_eqb v v'
                         | _, _ => false
                         end) (sort_attrs a)
    && equal_children (fun f x => f x)
         (canonical_children (preserves p a)
            (map (fun c => match c with Text s => PText s | Elem _ _ _ => PElem (fun x => equal c x (preserves p a) (preserves q a')) end) ch))
         (canonical_children (preserves q a') (pieces ch'))
  | _, _ => false
  end.
