(** HTTP credentials: pyslet/http/auth.py 131-323, http/client.py 1555-1580, 1605-1620, 1788-1801, 1852-1857,
    1948-1981 and http/messages.py 1193-1198.
    Canonical roots (scheme, host and port of a URL, rfc2396.py 1126-1145) are numbers; a URL is its root and its
    path (C15-C17 speak of paths and canonical roots).  Credentials and requests are mutable objects: they are
    numbers that stand for their identity. *)
From Verif Require Import Py UriModel HttpModel HttpParamModel.

(** ** base64 (the standard library: binascii.b2a_base64 and a2b_base64, not strict) *)
Definition b64_char (v : Z) : Z :=
  if v <? 26 then 65 + v else if v <? 52 then 97 + (v - 26) else if v <? 62 then 48 + (v - 52)
  else if v =? 62 then 43 else 47.
Definition b64_val (c : Z) : option Z :=
  if (65 <=? c) && (c <=? 90) then Some (c - 65)
  else if (97 <=? c) && (c <=? 122) then Some (c - 97 + 26)
  else if (48 <=? c) && (c <=? 57) then Some (c - 48 + 52)
  else if c =? 43 then Some 62 else if c =? 47 then Some 63 else None.
Fixpoint b64encode (s : str) : str :=
  match s with
  | a :: b :: c :: r =>
      b64_char (a / 4) :: b64_char (a mod 4 * 16 + b / 16) :: b64_char (b mod 16 * 4 + c / 64) :: b64_char (c mod 64) :: b64encode r
  | [a; b] => [b64_char (a / 4); b64_char (a mod 4 * 16 + b / 16); b64_char (b mod 16 * 4); 61]
  | [a] => [b64_char (a / 4); b64_char (a mod 4 * 16); 61; 61]
  | [] => []
  end.
(** the position in a group of four characters, the bits left over, the number of = in a row *)
Fixpoint b64_go (quad left pads : Z) (s : str) : res str :=
  match s with
  | [] => if quad =? 0 then Ok [] else Err ValueError
  | c :: r =>
      if c =? 61 then
        if (2 <=? quad) && (4 <=? quad + (pads + 1)) then Ok [] else b64_go quad left (pads + 1) r
      else
        match b64_val c with
        | None => b64_go quad left pads r
        | Some v =>
            if quad =? 0 then b64_go 1 v 0 r
            else if quad =? 1 then let! t := b64_go 2 (v mod 16) 0 r in Ok (left * 4 + v / 16 :: t)
            else if quad =? 2 then let! t := b64_go 3 (v mod 4) 0 r in Ok (left * 16 + v / 4 :: t)
            else let! t := b64_go 0 0 0 r in Ok (left * 64 + v :: t)
        end
  end.
Definition b64decode (s : str) : res str := b64_go 0 0 0 s.

(** ** Credentials *)
Record cred := Cred { scheme : str; space : Z; realm : option str; userid : option str; password : option str;
                      prefixes : list (list str) }.
(** a challenge: its scheme, the root of the URL it came from, its realm *)
Record challenge := Chal { c_scheme : str; c_space : Z; c_realm : str }.
Definition basic : str := lit "Basic".
(** 202-211 BasicCredentials() *)
Definition new_basic (sp : Z) (rl u p : option str) : cred := Cred basic sp rl u p [].

(** 213-219 set_basic_credentials *)
Definition set_basic_credentials (text : str) (c : cred) : res cred :=
  let! b := b64decode text in
  match split_on 58 b with
  | [u; p] => Ok (Cred (scheme c) (space c) (realm c) (Some u) (Some p) (prefixes c))
  | _ => Err ValueError
  end.
(** 316-323 to_bytes; encode('iso-8859-1') *)
Definition latin1 (s : str) : res str := if forallb (fun c => c <? 256) s then Ok s else Err UnicodeError.
Definition to_bytes (c : cred) : res str :=
  match userid c, password c with
  | Some u, Some p => let! b := latin1 (u ++ lit ":" ++ p) in Ok (scheme c ++ lit " " ++ b64encode b)
  | _, _ => Ok (scheme c ++ lit " ")
  end.
(** grammar.py 914-928 [parse_remainder] *)
Definition remainder (ws : list word) : str := concat (map (fun w => match w with WStr s => s | WByte c => [c] end) ws).
(** bytes.lower, ASCII letters *)
Definition lower_ (s : str) : str := map (fun c => if (65 <=? c) && (c <=? 90) then c + 32 else c) s.
(** 179-199 from_words, from_str *)
Definition from_str (source : str) : res cred :=
  let! ws := words_of source true in
  let! (t, ws) := require_token ws in
  if str_eqb (lower_ t) (lit "basic") then set_basic_credentials (remainder ws) (new_basic 0 None None None)
  else Err NotImplementedError.

(** 150-166 match_challenge; realm None or "" is any realm.  A challenge has an item "realm" (12-95) but no attribute
    of that name. *)
Definition match_challenge (c : cred) (ch : challenge) : res bool :=
  if negb (str_eqb (scheme c) (c_scheme ch)) then Ok false
  else if negb (space c =? c_space ch) then Ok false
  else match realm c with Some (_ :: _) => Err AttributeError | _ => Ok true end.
(** 306-314 is_prefix *)
Fixpoint is_prefix (prefix path : list str) : bool :=
  match prefix, path with
  | [], _ => true
  | _ :: _, [] => false
  | p :: prefix, x :: path => (match p with [] => true | _ => str_eqb p x end) && is_prefix prefix path
  end.
(** 249-256 test_path *)
Definition test_path (c : cred) (path : str) : res bool :=
  let! p := split_path (Some path) true in
  let! p := normalize_segments p in
  Ok (existsb (fun q => is_prefix q p) (prefixes c)).
(** 238-247 test_url, of an absolute URL *)
Definition test_url (c : cred) (url : Z * str) : res bool :=
  if space c =? fst url then test_path c (snd url) else Ok false.
(** 221-236 match: the class above has no method match *)
Definition match_ (c : cred) (ch : option challenge) (url : option (Z * str)) : res bool :=
  match ch, url with
  | Some _, _ => Err AttributeError
  | None, Some u => test_url c u
  | None, None => Err ValueError
  end.

(** 290-304: the loop of add_success_path: whether to keep the new prefix, and the prefixes that remain *)
Fixpoint absorb (new : list str) (ps : list (list str)) : bool * list (list str) :=
  match ps with
  | [] => (true, [])
  | p :: r =>
      if is_prefix p new then (false, p :: r)
      else if is_prefix new p then absorb new r
      else let '(k, r') := absorb new r in (k, p :: r')
  end.
(** new_prefix[-1] = "" *)
Fixpoint blank_last (l : list str) : list str :=
  match l with [] => [] | [_] => [[]] | x :: r => x :: blank_last r end.
(** 258-304 add_success_path *)
Definition add_success_path (path : str) (c : cred) : res cred :=
  let path := match path with [] => lit "/" | _ => path end in
  let! new := split_path (Some path) true in
  let! new := normalize_segments (blank_last new) in
  let '(keep, ps) := absorb new (prefixes c) in
  Ok (Cred (scheme c) (space c) (realm c) (userid c) (password c) (if keep then ps ++ [new] else ps)).

(** ** The credentials of a client *)
(** client.py 1564-1577: the range is that of the list at the start; what is left of the list, and whether an
    IndexError is raised *)
Fixpoint remove_loop (i n : nat) (k : nat) (l : list nat) : list nat * bool :=
  match n with
  | O => (l, false)
  | S n =>
      match nth_error l i with
      | None => (l, true)
      | Some x => remove_loop (S i) n k (if Nat.eqb x k then del i l else l)
      end
  end.
Definition remove_credentials (k : nat) (l : list nat) : list nat * bool := remove_loop 0 (length l) k l.

Definition upd {A} (f : nat -> A) (k : nat) (v : A) : nat -> A := fun x => if Nat.eqb x k then v else f x.
(** the Authorization header of a request: none, that of credentials, or the text "None" *)
Inductive header := NoHeader | Of (k : nat) | NoneText.
Record req := Req { url : Z * str; auth : header; tried : option nat }.
Record st := St { creds : list nat; objs : nat -> cred; reqs : nat -> req }.

(** 1605-1613 find_credentials *)
Fixpoint find_matching (o : nat -> cred) (l : list nat) (ch : challenge) : res (option nat) :=
  match l with
  | [] => Ok None
  | k :: l => let! b := match_challenge (o k) ch in if b : bool then Ok (Some k) else find_matching o l ch
  end.
Definition find_credentials (s : st) (ch : challenge) : res (option nat) := find_matching (objs s) (creds s) ch.
(** 1615-1620 find_credentials_by_url *)
Fixpoint find_by_url (o : nat -> cred) (l : list nat) (u : Z * str) : res (option nat) :=
  match l with
  | [] => Ok None
  | k :: l => let! b := test_url (o k) u in if b : bool then Ok (Some k) else find_by_url o l u
  end.
(** 1852-1857 send_header *)
Definition send_header (r : nat) (s : st) : res st :=
  let q := reqs s r in
  match auth q with
  | NoHeader =>
      let! k := find_by_url (objs s) (creds s) (url q) in
      match k with
      | Some k => Ok (St (creds s) (objs s) (upd (reqs s) r (Req (url q) (Of k) (tried q))))
      | None => Ok s
      end
  | _ => Ok s
  end.
(** 1788-1801 resend: to another URL, or the same; messages.py 1193-1198 gives str(None) *)
Definition resend (r : nat) (u : option (Z * str)) (s : st) : st :=
  let q := reqs s r in
  match u with
  | Some u => St (creds s) (objs s) (upd (reqs s) r (Req u (if fst (url q) =? fst u then auth q else NoneText) (tried q)))
  | None => s
  end.
(** 1975-1981: the challenges of a 401; how many times the request is queued again *)
Fixpoint try_challenges (r : nat) (cs : list (str * str)) (n : nat) (s : st) : st * res nat :=
  match cs with
  | [] => (s, Ok n)
  | (sch, rl) :: cs =>
      let q := reqs s r in
      match find_credentials s (Chal sch (fst (url q)) rl) with
      | Ok (Some k) => try_challenges r cs (S n) (St (creds s) (objs s) (upd (reqs s) r (Req (url q) (Of k) (Some k))))
      | Ok None => try_challenges r cs n (St (creds s) (objs s) (upd (reqs s) r (Req (url q) (auth q) None)))
      | Err e => (s, Err e)
      end
  end.
(** a final response: its status, challenges and location, if that is to be followed (1960-1973) *)
Record response := Resp { status : Z; challenges : list (str * str); location : option (Z * str) }.
Definition untry (r : nat) (s : st) : st :=
  St (creds s) (objs s) (upd (reqs s) r (Req (url (reqs s r)) (auth (reqs s r)) None)).
(** 1960-1981: what follows *)
Definition continue (r : nat) (a : response) (s : st) : st * res nat :=
  if (300 <=? status a) && (status a <=? 399) then
    match location a with Some u => (resend r (Some u) s, Ok 1%nat) | None => (s, Ok O) end
  else if status a =? 401 then try_challenges r (challenges a) 0 s
  else (s, Ok O).
(** 1938-1981 finished: an exception, or how many times the request is queued again *)
Definition finished (r : nat) (a : response) (s : st) : st * res nat :=
  let q := reqs s r in
  match tried q with
  | None => continue r a s
  | Some k =>
      if status a =? 401 then
        let '(l, e) := remove_credentials k (creds s) in
        let s := St l (objs s) (reqs s) in
        if e : bool then (s, Err IndexError) else continue r a (untry r s)
      else if str_eqb (scheme (objs s k)) basic then
        match add_success_path (snd (url q)) (objs s k) with
        | Ok c => continue r a (untry r (St (creds s) (upd (objs s) k c) (reqs s)))
        | Err e => (s, Err e)
        end
      else continue r a (untry r s)
  end.
