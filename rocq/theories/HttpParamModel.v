(** Model of the word-level methods of WordParser (pyslet/http/grammar.py) and of the parameter
    classes of pyslet/http/params.py, Python 3.

    A WordParser is the list of words not yet parsed (see HttpModel.v).  Character strings here hold
    only code points below 256 (that is all the parser makes), and a parameter dictionary is a list
    of key, (name, value) in the order of insertion.  Sources are binary strings.  int() and the %
    operator are the Python library's. *)
From Verif Require Import Py Num UriModel HttpModel IsoModel IsoTimeModel.

(** bytes.lower(), bytes.upper() *)
Definition lower_c (c : Z) : Z := if (65 <=? c) && (c <=? 90) then c + 32 else c.
Definition upper_c (c : Z) : Z := if (97 <=? c) && (c <=? 122) then c - 32 else c.
Definition b_lower : str -> str := map lower_c.
Definition b_upper : str -> str := map upper_c.
(** str.lower() of code points below 256 *)
Definition lower_u (c : Z) : Z :=
  if ((65 <=? c) && (c <=? 90)) || ((192 <=? c) && (c <=? 222) && negb (c =? 215)) then c + 32 else c.
Definition u_lower : str -> str := map lower_u.
(** s.encode('ascii'), s.decode('ascii') *)
Definition ascii (s : str) : res str := if forallb (fun c => c <? 128) s then Ok s else Err UnicodeError.
(** int(s, 16) of a string of hexadecimal digits, "%X" % n for n >= 0 *)
Fixpoint hexadecimal (s : str) : Z :=
  match s with [] => 0 | c :: r => hexv c * 16 ^ Z.of_nat (length r) + hexadecimal r end.
Fixpoint hex_go (fuel : nat) (n : Z) (acc : str) : str :=
  match fuel with
  | O => acc
  | S f => let acc' := hexd (n mod 16) :: acc in
           if n <? 16 then acc' else hex_go f (n / 16) acc'
  end.
Definition hex_nat (n : Z) : str := hex_go (S (Z.to_nat n)) n [].

(** ** dictionaries of parameters *)
Definition params := list (str * (str * str)).
Fixpoint dict_set (k : str) (v : str * str) (d : params) : params :=
  match d with
  | [] => [(k, v)]
  | (k', v') :: r => if str_eqb k k' then (k, v) :: r else (k', v') :: dict_set k v r
  end.
(** order of strings *)
Fixpoint str_ltb (a b : str) : bool :=
  match a, b with
  | _, [] => false
  | [], _ :: _ => true
  | x :: a', y :: b' => (x <? y) || ((x =? y) && str_ltb a' b')
  end.
Fixpoint insert (x : str * (str * str)) (d : params) : params :=
  match d with
  | [] => [x]
  | y :: r => if str_ltb (fst y) (fst x) then y :: insert x r else x :: d
  end.
(** sorted(d), by key: the keys of a dictionary are all different *)
Definition sort_params (d : params) : params := fold_right insert [] d.
(** sorted((p[0], p[1][1]) for p in dict_items(d)), params.py 374, 437, 507 *)
Definition hp (d : params) : list (str * str) := map (fun p => (fst p, snd (snd p))) (sort_params d).

(** grammar.py 197-215 [format_parameters] *)
Fixpoint format_sorted (d : params) : res str :=
  match d with
  | [] => Ok []
  | (k, (p, v)) :: r =>
      let! p' := ascii p in
      let! rest := format_sorted r in
      Ok (lit "; " ++ p' ++ lit "=" ++ quote_string v false ++ rest)
  end.
Definition format_parameters (d : params) : res str := format_sorted (sort_params d).

(** ** WordParser *)
(** grammar.py 823-834 [parse_separator], 864-868 [parse_sp] *)
Definition parse_separator (sep : Z) (ws : list word) : bool * list word :=
  match ws with
  | WByte b :: r => if b =? sep then (true, r) else (false, ws)
  | _ => (false, ws)
  end.
Definition parse_sp (ws : list word) : list word := snd (parse_separator 32 ws).
(** grammar.py 836-847 [require_separator] *)
Definition require_separator (sep : Z) (ws : list word) : res (list word) :=
  match parse_separator sep ws with
  | (true, r) => Ok r
  | (false, _) => Err BadSyntax
  end.
(** grammar.py 690-694 [is_token], 696-706 [parse_token], 741-751 [require_token]; a word is never empty *)
Definition parse_token (ws : list word) : option str * list word :=
  match ws with
  | WStr (c :: t) :: r => if is_separator c then (None, ws) else (Some (c :: t), r)
  | _ => (None, ws)
  end.
Definition require_token (ws : list word) : res (str * list word) :=
  match parse_token ws with
  | (Some t, r) => Ok (t, r)
  | (None, _) => Err BadSyntax
  end.
(** grammar.py 753-755 [is_integer], 757-764 [parse_integer], 766-776 [require_integer]: a word that
    is a byte cannot be iterated by is_digits *)
Definition parse_integer (ws : list word) : res (option Z * list word) :=
  match ws with
  | [] => Ok (None, ws)
  | WByte _ :: _ => Err TypeError
  | WStr t :: r => if is_digits t then Ok (Some (decimal t), r) else Ok (None, ws)
  end.
Definition require_integer (ws : list word) : res (Z * list word) :=
  let! (o, r) := parse_integer ws in
  match o with Some n => Ok (n, r) | None => Err BadSyntax end.
(** grammar.py 778-780 [is_hexinteger], 782-789 [parse_hexinteger], 791-801 [require_hexinteger] *)
Definition parse_hexinteger (ws : list word) : res (option Z * list word) :=
  match ws with
  | [] => Ok (None, ws)
  | WByte _ :: _ => Err TypeError
  | WStr t :: r => if is_hexdigits t then Ok (Some (hexadecimal t), r) else Ok (None, ws)
  end.
Definition require_hexinteger (ws : list word) : res (Z * list word) :=
  let! (o, r) := parse_hexinteger ws in
  match o with Some n => Ok (n, r) | None => Err BadSyntax end.
(** grammar.py 849-851 [is_quoted_string], 853-862 [parse_quoted_string] *)
Definition parse_quoted_word (ws : list word) : option str * list word :=
  match ws with
  | WStr (c :: t) :: r => if c =? 34 then (Some (decode_quoted_string (c :: t)), r) else (None, ws)
  | _ => (None, ws)
  end.
(** unicode5.py 916-921 [require_end] *)
Definition require_end (ws : list word) : res unit :=
  match ws with [] => Ok tt | _ => Err BadSyntax end.

(** grammar.py 913-940, the body of the loop of [parse_parameters]; None where BadSyntax is raised *)
Definition one_parameter (ignore_allsp case_sensitive : bool) (qmode : option str) (ws : list word) :
  option (str * str * str * list word) :=
  match require_separator 59 (parse_sp ws) with
  | Err _ => None
  | Ok ws =>
    match require_token (parse_sp ws) with
    | Err _ => None
    | Ok (param_name, ws) =>
      let param_key := if case_sensitive then param_name else u_lower param_name in
      if match qmode with Some q => negb (str_eqb q []) && str_eqb param_key q | None => false end then None
      else
        let ws := if ignore_allsp then parse_sp ws else ws in
        match require_separator 61 ws with
        | Err _ => None
        | Ok ws =>
          let ws := if ignore_allsp then parse_sp ws else ws in
          match parse_token ws with
          | (Some v, ws) => Some (param_key, param_name, v, ws)
          | (None, _) =>
            match parse_quoted_word ws with
            | (Some v, ws) => Some (param_key, param_name, v, ws)
            | (None, _) => None
            end
          end
        end
    end
  end.
Fixpoint parameters_loop (fuel : nat) (ignore_allsp case_sensitive : bool) (qmode : option str) (d : params)
  (ws : list word) : params * list word :=
  match fuel with
  | O => (d, ws)
  | S f =>
    match one_parameter ignore_allsp case_sensitive qmode ws with
    | None => (d, ws)
    | Some (k, n, v, ws') => parameters_loop f ignore_allsp case_sensitive qmode (dict_set k (n, v) d) ws'
    end
  end.
(** grammar.py 870-944 [parse_parameters] *)
Definition parse_parameters (ignore_allsp case_sensitive : bool) (qmode : option str) (d : params)
  (ws : list word) : params * list word :=
  parameters_loop (length ws) ignore_allsp case_sensitive qmode d (parse_sp ws).

(** ** HTTPVersion, params.py 160-207, 793-811 *)
Definition http_version := (Z * Z)%type.
Definition version_to_bytes (v : http_version) : str :=
  lit "HTTP/" ++ dec_str (fst v) ++ lit "." ++ dec_str (snd v).
Definition require_http_version (ws : list word) : res (http_version * list word) :=
  let! (token, ws) := require_token (parse_sp ws) in
  if negb (str_eqb (b_upper token) (lit "HTTP")) then Err BadSyntax
  else
    let! ws := require_separator 47 (parse_sp ws) in
    let! (token, ws) := require_token (parse_sp ws) in
    match split_on 46 token with
    | [a; b] => if is_digits a && is_digits b then Ok ((decimal a, decimal b), ws) else Err BadSyntax
    | _ => Err BadSyntax
    end.
Definition version_from_str (source : str) : res http_version :=
  let! ws := words_of source true in
  let! (v, ws) := require_http_version ws in
  let! _ := require_end ws in
  Ok v.

(** ** TransferEncoding, params.py 344-413, 926-937 *)
Record tencoding := mkte { te_token : str; te_params : params }.
(** 360-376 *)
Definition new_te (token : str) (p : params) : tencoding :=
  let token := u_lower token in
  if str_eqb token (lit "chunked") then mkte token [] else mkte token p.
Definition te_to_bytes (t : tencoding) : res str :=
  let! a := ascii (te_token t) in
  let! b := format_parameters (te_params t) in
  Ok (a ++ b).
Definition require_transfer_encoding (ws : list word) : res (tencoding * list word) :=
  let! (token, ws) := require_token (parse_sp ws) in
  let token := b_lower token in
  if negb (str_eqb token (lit "chunked")) then
    let (p, ws) := parse_parameters true false None [] ws in Ok (new_te token p, ws)
  else Ok (new_te (lit "chunked") [], ws).
Definition te_from_str (source : str) : res tencoding :=
  let! ws := words_of source true in
  let! (t, ws) := require_transfer_encoding ws in
  let! _ := require_end ws in
  Ok t.
(** 388-404; the parser has ignored the spaces *)
Fixpoint te_list_loop (fuel : nat) (ws : list word) : res (list tencoding) :=
  match ws with
  | [] => Ok []
  | _ =>
    match fuel with
    | O => Ok []
    | S f =>
      match parse_separator 44 ws with
      | (true, ws') => te_list_loop f ws'
      | (false, _) =>
        let! (t, ws') := require_transfer_encoding ws in
        let! l := te_list_loop f ws' in
        Ok (t :: l)
      end
    end
  end.
Definition te_list_from_str (source : str) : res (list tencoding) :=
  let! ws := words_of source true in
  te_list_loop (length ws) (parse_sp ws).
Definition te_sortkey (t : tencoding) := (te_token t, hp (te_params t)).

(** ** Chunk, params.py 416-458, 939-947 *)
Record chunk := mkchunk { c_size : Z; c_ext : params }.
Definition chunk_to_bytes (c : chunk) : res str :=
  let! b := format_parameters (c_ext c) in
  Ok ((if c_size c <? 0 then lit "-" ++ hex_nat (- c_size c) else hex_nat (c_size c)) ++ b).
Definition require_chunk (ws : list word) : res (chunk * list word) :=
  let! (size, ws) := require_hexinteger (parse_sp ws) in
  let (p, ws) := parse_parameters true false None [] ws in
  Ok (mkchunk size p, ws).
Definition chunk_from_str (source : str) : res chunk :=
  let! ws := words_of source true in
  let! (c, ws) := require_chunk ws in
  let! _ := require_end ws in
  Ok c.
Definition chunk_sortkey (c : chunk) := (c_size c, hp (c_ext c)).

(** ** MediaType, params.py 461-539, 949-958 *)
Record mediatype := mkmt { mt_type : str; mt_subtype : str; mt_params : params }.
Definition mt_to_bytes (m : mediatype) : res str :=
  let! a := ascii (mt_type m ++ lit "/" ++ mt_subtype m) in
  let! b := format_parameters (mt_params m) in
  Ok (a ++ b).
Definition require_media_type (ws : list word) : res (mediatype * list word) :=
  let! (type, ws) := require_token (parse_sp ws) in
  let! type := ascii (b_lower type) in
  let! ws := require_separator 47 ws in
  let! (subtype, ws) := require_token ws in
  let! subtype := ascii (b_lower subtype) in
  let (p, ws) := parse_parameters false false None [] (parse_sp ws) in
  Ok (mkmt type subtype p, ws).
Definition mt_from_str (source : str) : res mediatype :=
  let! ws := words_of source false in
  let! (m, ws) := require_media_type ws in
  let! _ := require_end (parse_sp ws) in
  Ok m.
Definition mt_sortkey (m : mediatype) := (u_lower (mt_type m), u_lower (mt_subtype m), hp (mt_params m)).
(** 528-533 *)
Fixpoint dict_get (k : str) (d : params) : option (str * str) :=
  match d with [] => None | (k', v) :: r => if str_eqb k k' then Some v else dict_get k r end.
Definition mt_getitem (m : mediatype) (k : str) : res str :=
  match dict_get k (mt_params m) with Some (_, v) => Ok v | None => Err KeyError end.

(** ** ProductToken, params.py 565-650, 960-970 (its order is in HttpVersionModel.v) *)
Record product := mkpt { pt_token : str; pt_version : option str }.
Definition pt_to_bytes (p : product) : res str :=
  match pt_version p with
  | None => ascii (pt_token p)
  | Some v => ascii (pt_token p ++ lit "/" ++ v)
  end.
Definition require_product_token (ws : list word) : res (product * list word) :=
  let! (token, ws) := require_token (parse_sp ws) in
  let! token := ascii token in
  match parse_separator 47 (parse_sp ws) with
  | (true, ws) =>
    let! (version, ws) := require_token ws in
    let! version := ascii version in
    Ok (mkpt token (Some version), ws)
  | (false, ws) => Ok (mkpt token None, ws)
  end.
Definition pt_from_str (source : str) : res product :=
  let! ws := words_of source true in
  let! (p, ws) := require_product_token (parse_sp ws) in
  let! _ := require_end (parse_sp ws) in
  Ok p.
Fixpoint pt_list_loop (fuel : nat) (ws : list word) : res (list product) :=
  match ws with
  | [] => Ok []
  | _ =>
    match fuel with
    | O => Ok []
    | S f =>
      let! (p, ws) := require_product_token ws in
      let! l := pt_list_loop f (parse_sp ws) in
      Ok (p :: l)
    end
  end.
Definition pt_list_from_str (source : str) : res (list product) :=
  let! ws := words_of source true in
  pt_list_loop (length ws) (parse_sp ws).

(** ** LanguageTag, params.py 662-741, 993-1002 *)
Record langtag := mklt { lt_primary : str; lt_subtags : list str }.
Definition lt_to_bytes (t : langtag) : res str := ascii (join_on 45 (lt_primary t :: lt_subtags t)).
Fixpoint ascii_all (l : list str) : res (list str) :=
  match l with
  | [] => Ok []
  | s :: r => let! s' := ascii s in let! r' := ascii_all r in Ok (s' :: r')
  end.
Definition require_language_tag (ws : list word) : res (langtag * list word) :=
  let! (t, ws) := require_token (parse_sp ws) in
  let! tags := ascii_all (split_on 45 t) in
  match tags with
  | [] => Err IndexError
  | p :: l => Ok (mklt p l, parse_sp ws)
  end.
Definition lt_from_str (source : str) : res langtag :=
  let! ws := words_of source false in
  let! (t, ws) := require_language_tag (parse_sp ws) in
  let! _ := require_end (parse_sp ws) in
  Ok t.
(** 713-728: the comma given to parse_separator is a character string, which no word is equal to, so
    the loop is run once; parse_production catches ValueError *)
Definition lt_list_from_str (source : str) : res (list langtag) :=
  let! ws := words_of source false in
  let ws := parse_sp ws in
  let (tags, ws) := match require_language_tag ws with
                    | Ok (t, ws') => ([t], ws')
                    | Err _ => ([], ws)
                    end in
  let! _ := require_end (parse_sp (parse_sp ws)) in
  Ok tags.
Definition lt_sortkey (t : langtag) : list str := map u_lower (lt_primary t :: lt_subtags t).

(** ** EntityTag, params.py 744-779, 1004-1021 *)
Record etag := mket { et_tag : str; et_weak : bool }.
Definition et_to_bytes (e : etag) : str :=
  (if et_weak e then lit "W/" else []) ++ quote_string (et_tag e) true.
Definition require_entity_tag (ws : list word) : res (etag * list word) :=
  let (w, ws) := parse_token (parse_sp ws) in
  let ws := parse_sp ws in
  let! (weak, ws) :=
    match w with
    | Some w =>
      if negb (str_eqb (b_upper w) (lit "W")) then Err BadSyntax
      else let! ws := require_separator 47 ws in Ok (true, parse_sp ws)
    | None => Ok (false, ws)
    end in
  match parse_quoted_word ws with
  | (Some t, ws) => Ok (mket t weak, parse_sp ws)
  | (None, _) => Err BadSyntax
  end.
Definition et_from_str (source : str) : res etag :=
  let! ws := words_of source true in
  let! (e, ws) := require_entity_tag ws in
  let! _ := require_end ws in
  Ok e.

(** ** FullDate, params.py 280-341, 813-910 *)
Definition wkday : list str := [lit "Mon"; lit "Tue"; lit "Wed"; lit "Thu"; lit "Fri"; lit "Sat"; lit "Sun"].
Definition weekday : list str :=
  [lit "Monday"; lit "Tuesday"; lit "Wednesday"; lit "Thursday"; lit "Friday"; lit "Saturday"; lit "Sunday"].
Definition month : list str :=
  [lit "Jan"; lit "Feb"; lit "Mar"; lit "Apr"; lit "May"; lit "Jun"; lit "Jul"; lit "Aug"; lit "Sep"; lit "Oct"; lit "Nov"; lit "Dec"].
(** the index of s among the lower-case names, 1024-1029 *)
Fixpoint table (names : list str) (i : Z) (s : str) : option Z :=
  match names with
  | [] => None
  | n :: r => if str_eqb s (b_lower n) then Some i else table r (i + 1) s
  end.
Definition wkday_table (s : str) : option Z :=
  match table weekday 0 s with Some i => Some i | None => table wkday 0 s end.
Definition month_table (s : str) : option Z := table month 0 s.
(** l[i] of a list; a negative index counts from the end *)
Definition nth_name (l : list str) (i : Z) : res str :=
  let i := if i <? 0 then i + Z.of_nat (length l) else i in
  if i <? 0 then Err IndexError else get l (Z.to_nat i).
(** 322-341; the date of a time point is a complete calendar date *)
Definition fd_to_bytes (p : timepoint) : res str :=
  let! z := tp_shift_zone p (Some 0) None None in
  let! (_, _, _, _, dow) := get_week_day (tp_date z) in
  match d_year (tp_date z), d_month (tp_date z), d_day (tp_date z), dow with
  | Some y, Some m, Some d, Some dow =>
    let! wd := nth_name wkday (dow - 1) in
    let! mn := nth_name month (m - 1) in
    match t_minute (tp_time z), t_second (tp_time z) with
    | Some mi, Some s =>
      Ok (wd ++ lit ", " ++ dec_pad 2 d ++ lit " " ++ mn ++ lit " " ++ dec_pad 4 (d_century (tp_date z) * 100 + y)
          ++ lit " " ++ dec_pad 2 (t_hour (tp_time z)) ++ lit ":" ++ dec_pad 2 mi ++ lit ":" ++ dec_pad 2 s ++ lit " GMT")
    | _, _ => Err TypeError
    end
  | _, _, _, _ => Err TypeError
  end.
Definition require_month (ws : list word) : res (Z * list word) :=
  let! (t, ws) := require_token ws in
  match month_table (b_lower t) with Some m => Ok (m, ws) | None => Err BadSyntax end.
(** the part of require_fulldate before the time: the year (if it is there), month and day *)
Definition require_dayfirst (ws : list word) : res (option Z * option Z * Z * Z * list word) :=
  match parse_separator 44 (parse_sp ws) with
  | (true, ws) =>
    let ws := parse_sp ws in
    match ws with
    | WStr t :: _ =>
      if is_digits t then
        let! (day, ws) := require_integer ws in
        let! (m, ws) := require_month (parse_sp ws) in
        let! (y, ws) := require_integer (parse_sp ws) in
        Ok (Some (y / 100), Some (y mod 100), m, day, ws)
      else
        let! (t, ws) := require_token ws in
        match split_on 45 t with
        | [a; b; c] =>
          if is_digits a && is_digits c then
            match month_table (b_lower b) with
            | Some m => Ok (None, Some (decimal c), m, decimal a, ws)
            | None => Err BadSyntax
            end
          else Err BadSyntax
        | _ => Err BadSyntax
        end
    | _ => Err BadSyntax
    end
  | (false, ws) =>
    let! (m, ws) := require_month ws in
    let! (day, ws) := require_integer (parse_sp ws) in
    Ok (None, None, m, day, ws)
  end.
Definition require_fulldate (ws : list word) : res (timepoint * list word) :=
  let! (t, ws) := require_token (parse_sp ws) in
  match wkday_table (b_lower t) with
  | None => Err BadSyntax
  | Some dayofweek =>
    let! (century, year, month, day, ws) := require_dayfirst ws in
    let! (hour, ws) := require_integer (parse_sp ws) in
    let! ws := require_separator 58 ws in
    let! (minute, ws) := require_integer ws in
    let! ws := require_separator 58 ws in
    let! (second, ws) := require_integer ws in
    let ws := parse_sp ws in
    let! (century, year, ws) :=
      match year with
      | None => let! (y, ws) := require_integer ws in Ok (Some (y / 100), y mod 100, ws)
      | Some y =>
        let! (t, ws) := require_token ws in
        if negb (str_eqb (b_upper t) (lit "UTC")) && negb (str_eqb (b_upper t) (lit "GMT")) then Err BadSyntax
        else Ok (century, y, ws)
      end in
    let century := match century with Some c => c | None => if year <? 90 then 20 else 19 end in
    let! d := date_calendar None (Some century) (Some year) (Some (month + 1)) (Some day) in
    let! t := new_time (Some hour) (Some minute) (Some second) (Some 0) None None in
    let! tp := new_timepoint d t in
    let! (_, _, _, _, dow) := get_week_day (tp_date tp) in
    if oeq dow (Some (dayofweek + 1)) then Ok (tp, ws) else Err BadSyntax
  end.
Definition fd_from_http_str (source : str) : res timepoint :=
  let! ws := words_of source true in
  let! (p, ws) := require_fulldate ws in
  let! _ := require_end (parse_sp ws) in
  Ok p.
