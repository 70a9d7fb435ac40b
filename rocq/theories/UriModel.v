(** Model of pyslet/rfc2396.py (data functions, path functions, URI, ServerBasedURL, FileURL's
    constructor), pyslet/http/params.py 224-286 (HTTPURL, HTTPSURL) and pyslet/urn.py.

    Text is a list of code points.  Character classes are boolean functions: that CharClass.test
    decides membership of the characters a class was built from is C01.  CharClass.test(None) is
    False.  Not modelled: binary arguments (decoded as ASCII before use), the deprecated names, the
    virtual file system parts (from_virtual_path, get_pathname, ...), __hash__ beyond its argument. *)
From Verif Require Import Py Num Codec.

(** str.lower on ASCII text *)
Definition lower1 (c : Z) : Z := if (65 <=? c) && (c <=? 90) then c + 32 else c.
Definition lower (s : str) : str := map lower1 s.
Definition between (a b c : Z) : bool := (a <=? c) && (c <=? b).
Definition ascii (s : str) : bool := forallb (fun c => c <=? 127) s.

(** rfc2396.py 40-53 [upalpha lowalpha alpha digit alphanum] *)
Definition is_upalpha c := between 65 90 c.
Definition is_lowalpha c := between 97 122 c.
Definition is_alpha c := is_upalpha c || is_lowalpha c.
Definition is_digit c := between 48 57 c.
Definition is_alphanum c := is_upalpha c || is_lowalpha c || is_digit c.
(** rfc2396.py 55-62 [reserved_1738 reserved_2396 reserved] *)
Definition is_reserved_1738 c := zin c (lit ";/?:@&=").
Definition is_reserved_2396 c := zin c (lit ";/?:@&=+$,").
Definition is_reserved c := zin c (lit ";/?:@&=+$,[]").
(** rfc2396.py 64-71 [safe_1738 extra_1738 unreserved_1738] *)
Definition is_unreserved_1738 c := is_alphanum c || zin c (lit "$-_.+") || zin c (lit "!*'(),").
(** rfc2396.py 73-77 [mark unreserved] *)
Definition is_mark c := zin c (lit "-_.!~*'()").
Definition is_unreserved c := is_alphanum c || is_mark c.
(** rfc2396.py 79-86 [allowed_1738 allowed_2396 allowed] *)
Definition is_allowed_1738 c := is_reserved_1738 c || is_unreserved_1738 c.
Definition is_allowed_2396 c := is_reserved_2396 c || is_unreserved c.
Definition is_allowed c := is_reserved c || is_unreserved c.
(** rfc2396.py 88-89 [hex_char] *)
Definition is_hex c := is_hexd c.
(** rfc2396.py 107-112 [scheme_char authority_reserved], 443 [path_segment_reserved] *)
Definition is_scheme_char c := is_alphanum c || zin c (lit "+-.").
Definition is_authority_reserved c := zin c (lit ";:@?/").
Definition is_path_segment_reserved c := zin c (lit "/;=?").

(** rfc2396.py 152-173 [parse_uric]: the loop, from [source[pos:]].  [mode]: None, '%' or the
    first hex digit (whose value is not used) *)
Inductive pmode := MNone | MPct | MHex.
Fixpoint uric_loop (allowed_test : Z -> bool) (rest : str) (uric : nat) (mode : pmode) : nat :=
  match rest with
  | [] => uric
  | c :: r =>
    match mode with
    | MNone =>
      if allowed_test c then uric_loop allowed_test r (uric + 1) MNone
      else if c =? 37 then uric_loop allowed_test r uric MPct
      else uric
    | MPct => if is_hex c then uric_loop allowed_test r uric MHex else uric
    | MHex => if is_hex c then uric_loop allowed_test r (uric + 3) MNone else uric
    end
  end.
Definition parse_uric (source : str) (pos : nat) (allowed_test : Z -> bool) : nat :=
  uric_loop allowed_test (skipn pos source) 0 MNone.

(** rfc2396.py 176-188 [_parse_scheme] *)
Fixpoint scheme_loop (octets rest : str) (pos : nat) : option str :=
  match rest with
  | [] => None
  | c :: r =>
    if ((0 <? pos)%nat && is_scheme_char c) || is_alpha c then scheme_loop octets r (S pos)
    else if c =? 58 then Some (firstn pos octets) else None
  end.
Definition parse_scheme (octets : str) : option str := scheme_loop octets octets 0.

(** Python library: int(s, 16) for ASCII [s] of at most two characters (so neither "0x" nor "_"
    can be part of a number): white space is stripped, a sign is allowed *)
Definition is_space (c : Z) : bool := between 9 13 c || between 28 32 c.
Fixpoint lstrip (s : str) : str :=
  match s with c :: r => if is_space c then lstrip r else s | [] => [] end.
Definition strip (s : str) : str := rev (lstrip (rev (lstrip s))).
Definition hex_digits_value (s : str) : res Z :=
  match s with
  | [] => Err ValueError
  | _ => if forallb is_hexd s then Ok (fold_left (fun a c => a * 16 + hexv c) s 0) else Err ValueError
  end.
Definition int16 (s : str) : res Z :=
  match strip s with
  | 43 :: d => hex_digits_value d
  | 45 :: d => let! v := hex_digits_value d in Ok (- v)
  | d => hex_digits_value d
  end.
(** "%%%02X" % v *)
Definition pct (v : Z) : str := 37 :: hex2 v.

(** rfc2396.py 228-249 [canonicalize_data] *)
Fixpoint canon_loop (unreserved_test allowed_test : Z -> bool) (s : str) : res str :=
  match s with
  | [] => Ok []
  | c :: r =>
    if c =? 37 then
      let esc (escape : str) : res str :=
        let! i := int16 escape in
        let! v := character i in
        Ok (if unreserved_test v then [v] else pct v) in
      match r with
      | a :: b :: r' => let! h := esc [a; b] in
                        let! t := canon_loop unreserved_test allowed_test r' in Ok (h ++ t)
      | _ => esc r
      end
    else
      let! t := canon_loop unreserved_test allowed_test r in
      Ok ((if allowed_test c then [c] else pct c) ++ t)
  end.
Definition canonicalize_data (source : str) (unreserved_test allowed_test : Z -> bool) : res str :=
  if ascii source then canon_loop unreserved_test allowed_test source else Err UnicodeError.

(** rfc2396.py 332-344 [escape_data] on a binary string *)
Definition escape_data (source : str) (reserved_test allowed_test : Z -> bool) : str :=
  flat_map (fun c => if reserved_test c || negb (allowed_test c) then pct c else [c]) source.
(** rfc2396.py 332-344 [escape_data] on a character string *)
Definition escape_text (source : str) (reserved_test allowed_test : Z -> bool) : res str :=
  if ascii source then Ok (escape_data source reserved_test allowed_test) else Err UnicodeError.

(** rfc2396.py 362-388 [unescape_data]; [mode] None, '%' or the first hex digit *)
Inductive umode := UNone | UPct | UHex (c : Z).
Fixpoint unesc_loop (s : str) (mode : umode) : str :=
  match s with
  | [] => []
  | c :: r =>
    match mode with
    | UNone => if c =? 37 then unesc_loop r UPct else c :: unesc_loop r UNone
    | UPct => if is_hex c then unesc_loop r (UHex c) else 37 :: c :: unesc_loop r UNone
    | UHex m => if is_hex c then (hexv m * 16 + hexv c) :: unesc_loop r UNone
                else 37 :: m :: c :: unesc_loop r UNone
    end
  end.
Definition unescape_data (source : str) : res str :=
  if ascii source then Ok (unesc_loop source UNone) else Err UnicodeError.

(** Python library: str.find / str.rfind of one character, -1 if absent *)
Fixpoint find_ch (c : Z) (s : str) : Z :=
  match s with
  | [] => -1
  | x :: r => if x =? c then 0 else let k := find_ch c r in if k <? 0 then -1 else k + 1
  end.
Fixpoint rfind_ch (c : Z) (s : str) : Z :=
  match s with
  | [] => -1
  | x :: r => let k := rfind_ch c r in
              if 0 <=? k then k + 1 else if x =? c then 0 else -1
  end.
(** [s[i:j]] for 0 <= i, j in Z *)
Definition zslice (i j : Z) (s : str) : str := slice (Z.to_nat i) (Z.to_nat j) s.
Definition zlen (s : str) : Z := Z.of_nat (length s).

(** rfc2396.py 411-440 [split_server] *)
Definition split_server (authority : option str) : option str * option str * option str :=
  match authority with
  | None => (None, None, None)
  | Some a =>
    let ulen := find_ch 64 a in
    let userinfo := if ulen <? 0 then None else Some (zslice 0 ulen a) in
    let hstart := if ulen <? 0 then 0 else ulen + 1 in
    let plen := rfind_ch 58 a in
    let plen := if plen <? ulen then -1 else plen in
    let port := zslice (plen + 1) (zlen a) a in
    let plen := if (-1 <? plen) && negb (forallb is_digit port) then -1 else plen in
    let port := if -1 <? plen then Some port else None in
    let hstop := if -1 <? plen then plen else zlen a in
    (userinfo, Some (zslice hstart hstop a), port)
  end.

(** Python library: s.split(c), c.join(l) *)
Fixpoint split_on (c : Z) (s : str) : list str :=
  match s with
  | [] => [[]]
  | x :: r =>
    if x =? c then [] :: split_on c r
    else match split_on c r with w :: l => (x :: w) :: l | [] => [[x]] end
  end.
Fixpoint join_on (c : Z) (l : list str) : str :=
  match l with [] => [] | [w] => w | w :: l' => w ++ c :: join_on c l' end.

(** Python truth value of None or a string *)
Definition truthy (o : option str) : bool := match o with Some (_ :: _) => true | _ => false end.

(** rfc2396.py 465-477 [split_path] *)
Definition split_path (path : option str) (abs_path : bool) : res (list str) :=
  match path with
  | Some (c :: r) =>
    if abs_path then
      if c =? 47 then Ok (tl (split_on 47 (c :: r))) else Err ValueError
    else Ok (split_on 47 (c :: r))
  | _ => if abs_path then Ok [] else Ok [[]]
  end.

Definition dot : str := lit ".".
Definition dotdot : str := lit "..".
(** [del l[i]] *)
Definition del {A} (i : nat) (l : list A) : list A := firstn i l ++ skipn (S i) l.

(** rfc2396.py 498-528 [normalize_segments]: the loop.  The list is mutated in place; the result is
    its final value. *)
Fixpoint norm_loop (fuel : nat) (l : list str) (i : nat) : res (list str) :=
  match fuel with
  | O => Err Timeout
  | S f =>
    if (i <? length l)%nat then
      let! x := get l i in
      if str_eqb x dot then
        if (length l <=? i + 1)%nat then norm_loop f (set_nth l i []) i
        else norm_loop f (del i l) i
      else
        let! c := if str_eqb x dotdot && (0 <? i)%nat
                  then let! y := get l (i - 1) in Ok (negb (str_eqb y dotdot)) else Ok false in
        if c : bool then
          if (length l <=? i + 1)%nat then norm_loop f (del (i - 1) (set_nth l i [])) i
          else norm_loop f (del (i - 1) (del i l)) (i - 1)
        else norm_loop f l (i + 1)
    else Ok l
  end.
Definition normalize_segments (l : list str) : res (list str) :=
  let! l := norm_loop (2 * length l + 1) l 0 in
  Ok (if str_eqb (last l []) dotdot then l ++ [[]] else l).

(** rfc2396.py 531-548 [_relativize_segments] *)
Definition strl_eqb (a b : list str) : bool :=
  Nat.eqb (length a) (length b) && forallb (fun p => str_eqb (fst p) (snd p)) (combine a b).
Fixpoint rel_loop (path rest : list str) (pos : nat) (result : list str) : list str :=
  match rest with
  | [] => result
  | b :: rest' =>
    let result' :=
      match result with
      | _ :: _ => dotdot :: result
      | [] => match nth_error path pos with
              | None => skipn pos path
              | Some p => if str_eqb b p then [] else skipn pos path
              end
      end in
    rel_loop path rest' (S pos) result'
  end.
(** [path_segments[k:]] for an integer [k] >= -1 *)
Definition tail_from {A} (k : Z) (l : list A) : list A :=
  if k <? 0 then skipn (length l - 1) l else skipn (Z.to_nat k) l.
Definition relativize_segments (path base : list str) : list str :=
  let result := rel_loop path base 0 [] in
  match result with
  | [] => if (length base <? length path)%nat
          then tail_from (Z.of_nat (length base) - 1) path else []
  | _ => if strl_eqb result [[]] then dot :: result else result
  end.
(** rfc2396.py 551-558 [_make_rel_path_abs] *)
Definition make_rel_path_abs (abs_path base_path : str) : res str :=
  let! p := split_path (Some abs_path) true in
  let! p := normalize_segments p in
  let! b := split_path (Some base_path) true in
  let! b := normalize_segments b in
  Ok (join_on 47 (relativize_segments p b)).
Fixpoint count_dd (l : list str) : nat :=
  match l with x :: r => if str_eqb x dotdot then S (count_dd r) else O | [] => O end.
(** rfc2396.py 561-592 [_make_rel_path_rel] *)
Definition make_rel_path_rel (rel_path base_rel_path : str) : res str :=
  let! p := split_path (Some rel_path) false in
  let! p := normalize_segments p in
  let! b := split_path (Some base_rel_path) false in
  let! b := normalize_segments b in
  let i := count_dd p in
  let j := count_dd b in
  if (i <? j)%nat then Err URIRelativeError
  else if (0 <? i)%nat then
    let! p := normalize_segments (repeat (lit "x") i ++ p) in
    let! b := normalize_segments (repeat (lit "x") i ++ b) in
    Ok (join_on 47 (relativize_segments p b))
  else Ok (join_on 47 (relativize_segments p b)).

(** rfc2396.py 611-634 [encode_unicode_uri].  "%%%2X" pads with a space; the bytes of a multi-byte
    UTF-8 sequence have two hex digits *)
Definition pct_sp (v : Z) : str := 37 :: (if v <? 16 then [32; hexd v] else hex2 v).
Fixpoint encode_unicode_uri (usrc : str) : res str :=
  match usrc with
  | [] => Ok []
  | c :: r =>
    let! h := if 127 <? c then let! b := utf8_encode [c] in Ok (flat_map pct_sp b) else Ok [c] in
    let! t := encode_unicode_uri r in Ok (h ++ t)
  end.

(** The classes registered for a scheme (rfc2396.py 1643, 1645-1662; params.py 272, 286; urn.py 220) *)
Inductive ucls := KURI | KFile | KHTTP | KHTTPS | KURN.
Definition scheme_class (scheme : str) : ucls :=
  if str_eqb scheme (lit "file") then KFile
  else if str_eqb scheme (lit "http") then KHTTP
  else if str_eqb scheme (lit "https") then KHTTPS
  else if str_eqb scheme (lit "urn") then KURN else KURI.

(** the hierarchical components *)
Record hier := mkh { opaque_part : option str; authority : option str; abs_path : option str;
  rel_path : option str; query : option str }.
Definition h0 : hier := mkh None None None None None.
Definition set_opaque h x := mkh (Some x) (authority h) (abs_path h) (rel_path h) (query h).
Definition set_auth h x := mkh (opaque_part h) (Some x) (abs_path h) (rel_path h) (query h).
Definition set_abs h x := mkh (opaque_part h) (authority h) (Some x) (rel_path h) (query h).
Definition set_rel h x := mkh (opaque_part h) (authority h) (abs_path h) (Some x) (query h).
Definition set_query h x := mkh (opaque_part h) (authority h) (abs_path h) (rel_path h) (Some x).

Inductive hmode := HColon | HSlash | HAuth | HPath | HRel | HQuery.
(** rfc2396.py 952-1018 [URI.parse_scheme_specific_part] (modes ':', '/', 'a', 'p', '?'; first mode
    HColon) and 1020-1104 [_parse_relative_uri] (modes None = HRel with pos = 0 is written HColon with
    [relative] true, '/', 'a', 'p', 'r', '?').  The two loops have the same code for the common
    modes.  [rest] is [s[pos:]], [st] the start of the current component (astart, pstart,
    rstart, qstart: only the one of the current mode is live). *)
Fixpoint hier_loop (relative : bool) (s rest : str) (pos st : nat) (mode : hmode) (h : hier) : hier :=
  match mode with
  | HColon =>
    match rest with
    | [] => if relative then set_rel h [] else h
    | c :: r =>
      if c =? 47 then hier_loop relative s r (S pos) st HSlash h
      else if relative then
        if c =? 63 then hier_loop relative s r (S pos) (S pos) HQuery (set_rel h [])
        else hier_loop relative s r (S pos) pos HRel h
      else set_opaque h s
    end
  | HSlash =>
    match rest with
    | [] => set_abs h (lit "/")
    | c :: r =>
      if c =? 47 then hier_loop relative s r (S pos) (S pos) HAuth h
      else if c =? 63 then hier_loop relative s r (S pos) (S pos) HQuery (set_abs h (lit "/"))
      else hier_loop relative s r (S pos) (pos - 1) HPath h
    end
  | HAuth =>
    match rest with
    | [] => set_auth h (slice st pos s)
    | c :: r =>
      if c =? 47 then hier_loop relative s r (S pos) pos HPath (set_auth h (slice st pos s))
      else if c =? 63 then hier_loop relative s r (S pos) (S pos) HQuery (set_auth h (slice st pos s))
      else hier_loop relative s r (S pos) st HAuth h
    end
  | HPath =>
    match rest with
    | [] => set_abs h (slice st pos s)
    | c :: r =>
      if c =? 63 then hier_loop relative s r (S pos) (S pos) HQuery (set_abs h (slice st pos s))
      else hier_loop relative s r (S pos) st HPath h
    end
  | HRel =>
    match rest with
    | [] => set_rel h (slice st pos s)
    | c :: r =>
      if c =? 63 then hier_loop relative s r (S pos) (S pos) HQuery (set_rel h (slice st pos s))
      else hier_loop relative s r (S pos) st HRel h
    end
  | HQuery =>
    match rest with
    | [] => set_query h (slice st pos s)
    | _ :: r => hier_loop relative s r (S pos) st HQuery h
    end
  end.
Definition parse_ssp (ssp : str) : hier := hier_loop false ssp ssp 0 0 HColon h0.
Definition parse_relative (octets : str) : hier := hier_loop true octets octets 0 0 HColon h0.

(** urn.py 19-35 [letnumhyp reserved other trans] *)
Definition is_letnumhyp c := is_alphanum c || (c =? 45).
Definition urn_reserved c := zin c (lit "%/?#").
Definition urn_other c := zin c (lit "()+,-.:=@;$_!*'").
Definition is_trans c := is_alphanum c || urn_other c || urn_reserved c.

(** urn.py 58-71 [translate_to_urnchar] of a character string *)
Fixpoint translate_to_urnchar (src : str) (reserved_test : Z -> bool) : res str :=
  match src with
  | [] => Ok []
  | c :: r =>
    let! h := if reserved_test c || urn_reserved c || negb (is_trans c) then
                if c =? 0 then Err ValueError
                else let! b := utf8_encode [c] in Ok (flat_map pct b)
              else Ok [c] in
    let! t := translate_to_urnchar r reserved_test in
    Ok (h ++ t)
  end.
(** urn.py 83-101 [translate_from_urnchar] *)
Fixpoint from_urn_loop (src : str) : res str :=
  match src with
  | [] => Ok []
  | c :: r =>
    let add (b : Z) (k : res str) : res str :=
      if b =? 0 then Err ValueError else let! t := k in Ok (b :: t) in
    let byte (v : Z) : res Z := if between 0 255 v then Ok v else Err ValueError in
    if c =? 37 then
      match r with
      | a :: b :: r' => let! i := int16 [a; b] in let! v := byte i in add v (from_urn_loop r')
      | _ => let! i := int16 r in let! v := byte i in add v (Ok [])
      end
    else if is_trans c then let! v := byte c in add v (from_urn_loop r)
    else Err ValueError
  end.
Definition translate_from_urnchar (src : str) : res str :=
  let! b := from_urn_loop src in utf8_decode b.
(** urn.py 104-124 [parse_urn] *)
Fixpoint parse_urn (src : str) : str :=
  match src with c :: r => if is_trans c then c :: parse_urn r else [] | [] => [] end.

(** urn.py 167-212: the loop over opaque_part *)
Inductive nmode := N0 | N1 | N2.
Fixpoint urn_loop (s rest : str) (pos cpos : nat) (mode : nmode) (nid : str) : res (str * str) :=
  match mode with
  | N0 =>
    match rest with
    | c :: r => if is_alphanum c then urn_loop s r (S pos) cpos N1 nid else Err URIException
    | [] => Err URIException
    end
  | N1 =>
    match rest with
    | c :: r =>
      if is_letnumhyp c then
        if (31 <? pos)%nat then Err URIException else urn_loop s r (S pos) cpos N1 nid
      else if c =? 58 then urn_loop s r (S pos) (S pos) N2 (firstn pos s)
      else Err URIException
    | [] => Err URIException
    end
  | N2 =>
    match rest with
    | c :: r => if is_trans c then urn_loop s r (S pos) cpos N2 nid else Err URIException
    | [] => Ok (nid, skipn cpos s)
    end
  end.
(** urn.py 167-212 [URN.parse_scheme_specific_part] after the inherited method: len(None) raises
    TypeError when there is no opaque part *)
Definition parse_nid (opaque : option str) : res (str * str) :=
  match opaque with
  | None => Err TypeError
  | Some s =>
    let! (nid, nss) := urn_loop s s 0 0 N0 [] in
    if str_eqb (lower nid) (lit "urn") then Err URIException else Ok (nid, nss)
  end.

Record uri := mku { cls : ucls; octets : str; fragment : option str; scheme : option str;
  ssp : option str; hr : hier;
  userinfo : option str; host : option str; port : option str;
  nid : option str; nss : option str }.

(** rfc2396.py 840-884 [URI.__init__], 1470-1472 [ServerBasedURL.__init__], 1535-1536, params.py
    231-232, urn.py 154-165: the constructor of each class, given the text of the URI.  A URN without
    a scheme can only be made by calling the class directly; its NID and NSS stay None. *)
Definition make_uri (k : ucls) (text : str) : res uri :=
  let uri_len := parse_uric text 0 is_allowed in
  let oct := firstn uri_len text in
  let (frag, uri_len) :=
    match nth_error text uri_len with
    | Some 35 =>
      let frag_start := S uri_len in
      let frag_len := parse_uric text frag_start is_allowed in
      (Some (slice frag_start (frag_start + frag_len) text), (frag_start + frag_len)%nat)
    | _ => (None, uri_len)
    end in
  if (uri_len <? length text)%nat then Err URIException
  else
    let sch := parse_scheme oct in
    let sp := match sch with Some x => Some (skipn (length x + 1) oct) | None => None end in
    let h := match sp with Some x => parse_ssp x | None => parse_relative oct end in
    let! nn := match k, sp with
               | KURN, Some _ => let! (a, b) := parse_nid (opaque_part h) in Ok (Some a, Some b)
               | _, _ => Ok (None, None)
               end in
    let server := match k with KFile | KHTTP | KHTTPS => split_server (authority h) | _ => (None, None, None) end in
    let '(ui, ho, po) := server in
    Ok (mku k oct frag sch sp h ui ho po (fst nn) (snd nn)).

(** rfc2396.py 695-738 [URI.from_octets] with strict=False, for a character string *)
Definition from_octets (text : str) : res uri :=
  let! oct := encode_unicode_uri text in
  let k := match parse_scheme oct with Some s => scheme_class (lower s) | None => KURI end in
  make_uri k oct.

(** rfc2396.py 893-897 [URI.__unicode__] *)
Definition to_str (u : uri) : str :=
  match fragment u with Some f => octets u ++ 35 :: f | None => octets u end.

Definition opt_part (pre : str) (o : option str) : str :=
  match o with Some x => pre ++ x | None => [] end.
Definition is_absolute (u : uri) : bool := match scheme u with Some _ => true | None => false end.

(** rfc2396.py 1106-1124 [URI.canonicalize]: the text passed to from_octets *)
Definition canon_text_generic (u : uri) : str :=
  (match scheme u with
   | Some s => lower s ++ 58 :: (match ssp u with Some x => x | None => [] end)
   | None => octets u
   end) ++ (if truthy (fragment u) then opt_part (lit "#") (fragment u) else []).
(** DEFAULT_PORT of each class: rfc2396.py 1468, params.py 229, 280 *)
Definition default_port (k : ucls) : option Z :=
  match k with KHTTP => Some 80 | KHTTPS => Some 443 | _ => None end.
(** rfc2396.py 1474-1487 [get_addr] *)
Definition get_addr (u : uri) : option str * option Z :=
  (host u, if truthy (port u) then option_map decimal (port u) else default_port (cls u)).
(** rfc2396.py 1499-1513 and params.py 243-256: scheme and authority of [canonicalize] (the scheme
    and host of a URL with an authority are not None) *)
Definition canon_prefix (u : uri) : str :=
  (match scheme u with Some s => lower s ++ lit ":" | None => [] end) ++
  (match authority (hr u) with
   | None => []
   | Some _ =>
     lit "//" ++ (match userinfo u with Some x => x ++ lit "@" | None => [] end) ++
     (match host u with Some x => lower x | None => [] end) ++
     (match port u with
      | Some (c :: r) =>
        let p := decimal (c :: r) in
        if match default_port (cls u) with Some d => p =? d | None => false end then []
        else 58 :: dec_nat p
      | _ => []
      end)
   end).
(** rfc2396.py 1489-1523 [ServerBasedURL.canonicalize] *)
Definition canon_text_server (u : uri) : str :=
  canon_prefix u ++
  (match abs_path (hr u) with Some p => p | None => match rel_path (hr u) with Some p => p | None => [] end end)
  ++ opt_part (lit "?") (query (hr u)) ++ opt_part (lit "#") (fragment u).
Definition canon_data (s : str) : res str := canonicalize_data s is_unreserved is_allowed.
(** params.py 234-269 [HTTPURL.canonicalize] *)
Definition canon_text_http (u : uri) : res str :=
  let! p := match abs_path (hr u) with
            | Some [] => Ok (lit "/")
            | Some p => canon_data p
            | None => match rel_path (hr u) with Some p => canon_data p | None => Ok [] end
            end in
  let! q := match query (hr u) with
            | Some q => let! q := canon_data q in Ok (63 :: q)
            | None => Ok []
            end in
  Ok (canon_prefix u ++ p ++ q ++ opt_part (lit "#") (fragment u)).
(** urn.py 214-217 [URN.canonicalize]; None.lower() raises AttributeError *)
Definition canon_text_urn (u : uri) : res str :=
  match scheme u, nid u, nss u with
  | Some s, Some i, Some n =>
    let! n := canonicalize_data n (fun _ => false) is_allowed in
    Ok (lower s ++ 58 :: lower i ++ 58 :: n)
  | _, _, _ => Err AttributeError
  end.
Definition canonicalize (u : uri) : res uri :=
  match cls u with
  | KURI => from_octets (canon_text_generic u)
  | KFile => from_octets (canon_text_server u)
  | KHTTP | KHTTPS => let! t := canon_text_http u in from_octets t
  | KURN => let! t := canon_text_urn u in from_octets t
  end.

(** rfc2396.py 899-932: the comparison methods compare the canonical strings; __hash__ hashes the
    canonical string *)
Definition canon_str (u : uri) : res str := let! c := canonicalize u in Ok (to_str c).
Fixpoint str_ltb (a b : str) : bool :=
  match a, b with
  | [], _ :: _ => true
  | x :: a', y :: b' => (x <? y) || ((x =? y) && str_ltb a' b')
  | _, _ => false
  end.
Definition uri_eq (u v : uri) : res bool :=
  let! a := canon_str u in let! b := canon_str v in Ok (str_eqb a b).
Definition uri_lt (u v : uri) : res bool :=
  let! a := canon_str u in let! b := canon_str v in Ok (str_ltb a b).

(** rfc2396.py 1126-1145 [get_canonical_root] *)
Definition get_canonical_root (u : uri) : res (option uri) :=
  if is_absolute u then
    let! c := canonicalize u in
    let! r := from_octets ((match scheme c with Some s => s | None => [] end) ++ 58 ::
                           opt_part (lit "//") (authority (hr c))) in
    Ok (Some r)
  else Ok None.

(** rfc2396.py 1188-1246 [resolve]; [base] an instance *)
Definition resolve (u base : uri) (current_doc_ref : option uri) : res uri :=
  let doc := match current_doc_ref with Some d => d | None => base end in
  let h := hr u in
  if negb (truthy (abs_path h) || truthy (rel_path h)) &&
     match scheme u, authority h, query h with None, None, None => true | _, _, _ => false end
  then from_octets (octets doc ++ opt_part (lit "#") (fragment u))
  else
  match scheme u with
  | Some _ => from_octets (to_str u)
  | None =>
    let! (auth, path) :=
      match authority h with
      | Some a => Ok (Some a, abs_path h)
      | None =>
        let! p := match abs_path h with
          | Some p => Ok (Some p)
          | None =>
            match abs_path (hr base) with
            | Some bp =>
              let! b := split_path (Some bp) true in
              let! r := split_path (rel_path h) false in
              let! s := normalize_segments (removelast b ++ r) in
              Ok (Some (47 :: join_on 47 s))
            | None =>
              let! b := split_path (rel_path (hr base)) false in
              let! r := split_path (rel_path h) false in
              let! s := normalize_segments (removelast b ++ r) in
              let p := join_on 47 s in
              Ok (Some (match p with [] => lit "./" | _ => p end))
            end
          end in
        Ok (authority (hr base), p)
      end in
    from_octets ((match scheme base with Some s => s ++ lit ":" | None => [] end) ++
      opt_part (lit "//") auth ++ opt_part [] path ++
      opt_part (lit "?") (query h) ++ opt_part (lit "#") (fragment u))
  end.

Definition ostr_eqb (a b : option str) : bool :=
  match a, b with Some x, Some y => str_eqb x y | None, None => true | _, _ => false end.
(** rfc2396.py 1300-1357 [relative]; [base] an instance *)
Definition relative (u base : uri) : res uri :=
  let h := hr u in let hb := hr base in
  let self := from_octets (to_str u) in
  match opaque_part h with
  | Some _ => self
  | None =>
    let go : res uri :=
      if match authority h, authority hb with None, Some _ => true | _, _ => false end
      then Err URIRelativeError
      else
        let finish (auth path : option str) : res uri :=
          from_octets (opt_part (lit "//") auth ++ opt_part [] path ++
            opt_part (lit "?") (query h) ++ opt_part (lit "#") (fragment u)) in
        if negb (ostr_eqb (authority h) (authority hb)) then
          finish (authority h) (match abs_path h with Some p => Some p | None => rel_path h end)
        else
          match abs_path h with
          | None =>
            match abs_path hb, rel_path h, rel_path hb with
            | Some _, _, _ => Err URIRelativeError
            | None, None, _ => Err URIRelativeError
            | None, Some r, None => finish None (Some r)
            | None, Some r, Some b => let! p := make_rel_path_rel r b in finish None (Some p)
            end
          | Some p =>
            match abs_path hb with
            | None => self
            | Some b => let! p := make_rel_path_abs p b in finish None (Some p)
            end
          end in
    match scheme u, scheme base with
    | None, Some _ => Err URIRelativeError
    | None, None => go
    | Some _, None => self
    | Some a, Some b => if str_eqb (lower a) (lower b) then go else self
    end
  end.
