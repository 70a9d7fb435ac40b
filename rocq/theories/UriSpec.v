(** Specification vocabulary for C10-C20. *)
From Verif Require Import Py Num Codec UriModel.

Definition hexc (c : Z) : Prop := 48 <= c <= 57 \/ 65 <= c <= 70 \/ 97 <= c <= 102.
Definition uphexc (c : Z) : Prop := 48 <= c <= 57 \/ 65 <= c <= 70.
(** the value of a hexadecimal digit *)
Definition hexvalue (c : Z) : Z :=
  if c <=? 57 then c - 48 else if c <=? 70 then c - 65 + 10 else c - 97 + 10.

(** text made of characters satisfying [ok] and of triplets %HH whose digits satisfy [h] *)
Inductive escaped (ok h : Z -> Prop) : str -> Prop :=
| esc_nil : escaped ok h []
| esc_char c s : ok c -> escaped ok h s -> escaped ok h (c :: s)
| esc_pct a b s : h a -> h b -> escaped ok h s -> escaped ok h (37 :: a :: b :: s).
(** URI text: allowed characters and complete escapes *)
Definition uric_text (allowed : Z -> bool) : str -> Prop := escaped (fun c => allowed c = true) hexc.

(** URI data as a sequence of tokens: a plain character, or an escape standing for an octet *)
Inductive tok := Plain (c : Z) | Esc (octet : Z).
Definition octet_of (t : tok) : Z := match t with Plain c => c | Esc v => v end.
Inductive reads : str -> list tok -> Prop :=
| rd_nil : reads [] []
| rd_plain c s ts : 0 <= c < 128 -> c <> 37 -> reads s ts -> reads (c :: s) (Plain c :: ts)
| rd_esc a b s ts : hexc a -> hexc b -> reads s ts ->
    reads (37 :: a :: b :: s) (Esc (16 * hexvalue a + hexvalue b) :: ts).
(** what unescaping makes of arbitrary text: "%HH" becomes an octet, a "%" that does not introduce
    two hexadecimal digits is literal together with the characters examined, and an incomplete
    escape at the very end disappears *)
Inductive unescapes : str -> str -> Prop :=
| ue_nil : unescapes [] []
| ue_plain c s t : c <> 37 -> unescapes s t -> unescapes (c :: s) (c :: t)
| ue_esc a b s t : hexc a -> hexc b -> unescapes s t ->
    unescapes (37 :: a :: b :: s) (16 * hexvalue a + hexvalue b :: t)
| ue_lit1 c s t : ~ hexc c -> unescapes s t -> unescapes (37 :: c :: s) (37 :: c :: t)
| ue_lit2 a c s t : hexc a -> ~ hexc c -> unescapes s t -> unescapes (37 :: a :: c :: s) (37 :: a :: c :: t)
| ue_end1 : unescapes [37] []
| ue_end2 a : hexc a -> unescapes [37; a] [].
(** the canonical token: escapes of unreserved characters are removed, characters that may not
    appear are escaped *)
Definition canonical_tok (unreserved allowed : Z -> bool) (t : tok) : tok :=
  match t with
  | Esc v => if unreserved v then Plain v else Esc v
  | Plain c => if allowed c then Plain c else Esc c
  end.
(** the tests under which unescaping and re-escaping make sense *)
Definition tests_ok (unreserved allowed : Z -> bool) : Prop :=
  forall c, unreserved c = true -> 0 <= c < 128 /\ c <> 37 /\ allowed c = true.

(** RFC 2396 components *)
Record parts := mkparts { p_scheme : option str; p_opaque : option str; p_auth : option str;
  p_abs : option str; p_rel : option str; p_query : option str; p_frag : option str }.
Definition opt_text (pre : str) (o : option str) (post : str) : str :=
  match o with Some x => pre ++ x ++ post | None => [] end.
(** RFC 2396 section 5.2 step 7 *)
Definition recompose (p : parts) : str :=
  opt_text [] (p_scheme p) (lit ":") ++ opt_text [] (p_opaque p) [] ++
  opt_text (lit "//") (p_auth p) [] ++ opt_text [] (p_abs p) [] ++ opt_text [] (p_rel p) [] ++
  opt_text (lit "?") (p_query p) [] ++ opt_text (lit "#") (p_frag p) [].
Definition opt_all (P : str -> Prop) (o : option str) : Prop := forall x, o = Some x -> P x.
Definition has (c : Z) (s : str) : Prop := In c s.
Definition starts (c : Z) (s : str) : Prop := exists r, s = c :: r.
(** a scheme as the library understands it: a letter followed by letters, digits, "+", "-", ".";
    or nothing at all *)
Definition scheme_ok (s : str) : Prop :=
  s = [] \/ exists c r, s = c :: r /\ is_alpha c = true /\ Forall (fun x => is_scheme_char x = true) r.
Definition no_scheme (s : str) : Prop := forall a b, s = a ++ 58 :: b -> ~ scheme_ok a.
Record parts_ok (p : parts) : Prop := {
  po_uric : forall x, In (Some x) [p_opaque p; p_auth p; p_abs p; p_rel p; p_query p; p_frag p] ->
            uric_text is_allowed x;
  po_scheme : opt_all scheme_ok (p_scheme p);
  po_opaque : opt_all (fun x => p_scheme p <> None /\ x <> [] /\ ~ starts 47 x /\
                 p_auth p = None /\ p_abs p = None /\ p_query p = None) (p_opaque p);
  po_auth : opt_all (fun x => ~ has 47 x /\ ~ has 63 x) (p_auth p);
  po_abs : opt_all (fun x => starts 47 x /\ ~ has 63 x /\
             (p_auth p = None -> forall r, x <> 47 :: 47 :: r)) (p_abs p);
  po_rel : opt_all (fun x => p_scheme p = None /\ p_auth p = None /\ p_abs p = None /\
             ~ starts 47 x /\ ~ has 63 x) (p_rel p);
  (* a URI without a scheme has an authority or a path *)
  po_norel : p_scheme p = None -> p_auth p = None -> p_abs p = None -> p_rel p <> None;
  po_noscheme : p_scheme p = None -> no_scheme (recompose p) ;
  (* a query needs an authority or a path before it *)
  po_query : p_query p <> None -> p_auth p = None -> p_abs p = None -> p_rel p <> None }.
(** the components of a URI object *)
Definition parts_of (u : uri) : parts :=
  mkparts (scheme u) (opaque_part (hr u)) (authority (hr u)) (abs_path (hr u)) (rel_path (hr u))
    (query (hr u)) (fragment u).

(** C15: a list of segments read as a walk: how many levels up, then which names (last first) *)
Definition is_dots (s : str) : bool := str_eqb s dot || str_eqb s dotdot.
Fixpoint walk (l : list str) (st : nat * list str) : nat * list str :=
  match l with
  | [] => st
  | x :: r =>
    let (ups, names) := st in
    walk r (if str_eqb x dot then (ups, names)
            else if str_eqb x dotdot then
              match names with _ :: n => (ups, n) | [] => (S ups, []) end
            else (ups, x :: names))
  end.
(** the place a path denotes: the walk, and whether it names a directory (last segment empty, "."
    or "..") or a file in it *)
Definition denotes (l : list str) : nat * list str * option str :=
  let x := last l [] in
  if is_dots x || str_eqb x [] then (walk (if is_dots x then l else removelast l) (O, []), None)
  else (walk (removelast l) (O, []), Some x).

(** C14: the reading of an authority: userinfo is what precedes the first "@", port the digits
    after the last ":" of the rest *)
Record server_parts (a : str) (ui : option str) (ho : str) (po : option str) : Prop := {
  sp_text : a = opt_text [] ui (lit "@") ++ ho ++ opt_text (lit ":") po [];
  sp_ui : opt_all (fun x => ~ has 64 x) ui;
  sp_noui : ui = None -> ~ has 64 a;
  sp_port : opt_all (Forall (fun c => 48 <= c <= 57)) po;
  sp_noport : po = None -> forall h p, ho = h ++ 58 :: p -> ~ Forall (fun c => 48 <= c <= 57) p }.

(** C16: "/seg1/seg2/..." *)
Definition path_of (l : list str) : str := concat (map (fun s => lit "/" ++ s) l).
(** ordinary segments: no slash in them, neither "." nor ".." *)
Definition ordinary (l : list str) : Prop :=
  l <> [] /\ Forall (fun s => ~ has 47 s /\ s <> lit "." /\ s <> lit "..") l.
(** only the last segment may be empty *)
Definition no_empty_inside (l : list str) : Prop := forall a s b, l = a ++ s :: b -> b <> [] -> s <> [].

(** C17: the components of the canonical form.  The scheme and the host are in lower case, the port
    has no leading zeros and is left out if it is empty or the default port of the scheme. *)
Definition std_port (k : ucls) : option Z := match k with KHTTP => Some 80 | KHTTPS => Some 443 | _ => None end.
(** the port a URL connects to *)
Definition effective_port (k : ucls) (po : option str) : option Z :=
  match po with Some [] | None => std_port k | Some d => Some (decimal d) end.
(** two pieces of URI data mean the same: reading them gives the same canonical tokens *)
Definition same_data (a b : str) : Prop :=
  exists ta tb, reads a ta /\ reads b tb /\
    map (canonical_tok is_unreserved is_allowed) ta = map (canonical_tok is_unreserved is_allowed) tb.
Definition opt_rel (R : str -> str -> Prop) (a b : option str) : Prop :=
  match a, b with Some x, Some y => R x y | None, None => True | _, _ => False end.
Definition same_text (a b : str) : Prop := lower a = lower b.
(** http and https URL compare paths and queries as data, other server-based URL as text *)
Definition data_rel (k : ucls) : str -> str -> Prop := match k with KHTTP | KHTTPS => same_data | _ => eq end.
Record same_url (k : ucls) (u v : uri) : Prop := {
  su_auth : authority (hr u) = None <-> authority (hr v) = None;
  su_user : userinfo u = userinfo v;
  su_host : opt_rel same_text (host u) (host v);
  su_port : authority (hr u) <> None -> effective_port k (port u) = effective_port k (port v);
  su_path : opt_rel (data_rel k) (abs_path (hr u)) (abs_path (hr v));
  su_query : opt_rel (data_rel k) (query (hr u)) (query (hr v));
  su_frag : fragment u = fragment v }.

(** C20: a namespace identifier: 1 to 32 letters, digits and hyphens, not starting with a hyphen,
    not "urn" in any case *)
Definition letter_or_digit (c : Z) : Prop := 65 <= c <= 90 \/ 97 <= c <= 122 \/ 48 <= c <= 57.
Definition nid_ok (n : str) : Prop :=
  (exists c r, n = c :: r /\ letter_or_digit c /\ Forall (fun x => letter_or_digit x \/ x = 45) r) /\
  (length n <= 32)%nat /\ lower n <> lit "urn".
(** RFC 2141 <trans> characters, and "%/?#" *)
Definition urn_char (c : Z) : Prop := letter_or_digit c \/ In c (lit "()+,-.:=@;$_!*'") \/ In c (lit "%/?#").
