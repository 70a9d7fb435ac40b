(** Model of the cookie store: pyslet/http/cookie.py, Python 3.

    A domain string is the list of its UTF-8 bytes.  The IDNA step of split_domain (punycode, the
    Python library's) is a parameter: [puny label] is b"xn--" + punycode, or None where a UnicodeError is
    raised.  A Cookie is a value: each call of set_cookie is given a new Cookie object (the store keeps
    and changes the object it is given).  Times are integers.  access_time is not modelled (nothing in the
    store reads it).  A dictionary is a list in the order of insertion. *)
From Verif Require Import Py UriModel Dict.

(** ** Labels *)
(** cookie.py 32-66 [is_ldh_label] *)
Fixpoint ldh_loop (allow_hyphen trailing_hyphen : bool) (label : str) : bool :=
  match label with
  | [] => negb trailing_hyphen
  | b :: r => if is_alpha b || is_digit b || (allow_hyphen && (b =? 45)) then ldh_loop true (b =? 45) r else false
  end.
Definition is_ldh_label (label : str) : bool :=
  match label with
  | [] => false
  | _ => if 63 <? zlen label then false else ldh_loop false false label
  end.
(** cookie.py 109-146 [split_domain] *)
Fixpoint split_labels (puny : str -> option str) (allow_wildcard : bool) (domain : list str) : res (list str) :=
  match domain with
  | [] => Ok []
  | label :: r =>
    let! l := if is_ldh_label label then Ok (lower label)
              else if allow_wildcard && str_eqb label (lit "*") then Ok (lit "*")
              else match puny label with
                   | Some alabel => if is_ldh_label alabel then Ok (lower alabel) else Err ValueError
                   | None => Err ValueError
                   end in
    let! rest := split_labels puny allow_wildcard r in
    Ok (l :: rest)
  end.
Definition split_domain (puny : str -> option str) (domain_str : str) (allow_wildcard : bool) : res (list str) :=
  split_labels puny allow_wildcard (split_on 46 domain_str).
(** cookie.py 149-171 [domain_in_domain]; both lists are reversed *)
Fixpoint domain_in_domain (subdomain domain : list str) : bool :=
  match subdomain, domain with
  | [], _ => true
  | d :: r, d' :: r' => str_eqb d d' && domain_in_domain r r'
  | _ :: _, [] => false
  end.

(** ** URLs and cookies *)
(** an instance of HTTPSURL, of HTTPURL but not HTTPSURL, or of another class (params.py 224, 275) *)
Inductive kind := Http | Https | Other.
Definition is_http (k : kind) : bool := match k with Other => false | _ => true end.
Definition is_https (k : kind) : bool := match k with Https => true | _ => false end.
Record url := mkurl { u_kind : kind; u_host : option str; u_path : option str }.
(** cookie.py 764-816; [c_expires] is expires_time *)
Record cookie := mkcookie { c_name : str; c_value : str; c_path : option str; c_domain : option str;
  c_secure : bool; c_http_only : bool; c_created : Z; c_expires : option Z }.
Definition with_path (c : cookie) (p : option str) : cookie :=
  mkcookie (c_name c) (c_value c) p (c_domain c) (c_secure c) (c_http_only c) (c_created c) (c_expires c).
Definition with_domain (c : cookie) (d : option str) : cookie :=
  mkcookie (c_name c) (c_value c) (c_path c) d (c_secure c) (c_http_only c) (c_created c) (c_expires c).
Definition with_created (c : cookie) (t : Z) : cookie :=
  mkcookie (c_name c) (c_value c) (c_path c) (c_domain c) (c_secure c) (c_http_only c) t (c_expires c).
(** cookie.py 888-893 [is_persistent], 913-926 [expired] *)
Definition is_persistent (c : cookie) : bool := match c_expires c with Some _ => true | None => false end.
Definition expired (c : cookie) (now : Z) : bool := match c_expires c with Some t => t <? now | None => false end.
Definition key := (str * option str)%type.
Definition ostr_eqb (a b : option str) : bool :=
  match a, b with Some x, Some y => str_eqb x y | None, None => true | _, _ => false end.
Definition key_eqb (a b : key) : bool := str_eqb (fst a) (fst b) && ostr_eqb (snd a) (snd b).
Definition key_of (c : cookie) : key := (c_name c, c_path c).
Definition cookies := list (key * cookie).

(** ** The tree *)
(** cookie.py 993-1001 [CookieDNode]; the name of a node is its key in its parent.  The store itself
    (1018-1023) is the root: it has no cookies and its flags are never read *)
Inductive node := Node (public private : bool) (public_depth : Z) (nodes : list (str * node)) (cks : cookies).
Definition n_public (n : node) := let (p, _, _, _, _) := n in p.
Definition n_private (n : node) := let (_, v, _, _, _) := n in v.
Definition n_depth (n : node) := let (_, _, d, _, _) := n in d.
Definition n_nodes (n : node) := let (_, _, _, l, _) := n in l.
Definition n_cookies (n : node) := let (_, _, _, _, c) := n in c.
Definition set_public (n : node) (b : bool) : node := let (_, v, d, l, c) := n in Node b v d l c.
Definition set_private (n : node) (b : bool) : node := let (p, _, d, l, c) := n in Node p b d l c.
Definition set_depth (n : node) (z : Z) : node := let (p, v, _, l, c) := n in Node p v z l c.
Definition set_nodes (n : node) (l : list (str * node)) : node := let (p, v, d, _, c) := n in Node p v d l c.
Definition set_cookies (n : node) (c : cookies) : node := let (p, v, d, l, _) := n in Node p v d l c.
Definition new_store : node := Node true false 255 [] [].
Definition child (n : node) (d : str) : option node := dget str_eqb d (n_nodes n).
Definition set_child (n : node) (d : str) (c : node) : node := set_nodes n (dset str_eqb d c (n_nodes n)).
Definition STAR : str := lit "*".

(** cookie.py 1524-1534 [_copy_node] *)
Fixpoint copy_node (n : node) : node :=
  match n with
  | Node p v d l _ => Node p v d (map (fun x => match x with (k, c) => (k, copy_node c) end) l) []
  end.
(** cookie.py 1536-1554 [_expand_node]; the caller puts the new node into its parent *)
Definition expand_node (from_node : node) (label : str) : node :=
  let fresh := if negb (n_depth from_node =? 0) then Node true false (n_depth from_node - 1) [] []
               else Node false false 0 [] [] in
  if negb (str_eqb label STAR) then
    match child from_node STAR with Some wild_node => copy_node wild_node | None => fresh end
  else fresh.
(** the walk of set_cookie down the tree, 1075-1079, then [f] on the last node *)
Fixpoint at_node {A} (f : node -> node * A) (n : node) (domain : list str) : node * A :=
  match domain with
  | [] => f n
  | d :: r =>
    let dnode := match child n d with Some c => c | None => expand_node n d end in
    let (dnode', a) := at_node f dnode r in
    (set_child n d dnode', a)
  end.

(** cookie.py 1063-1072, the default path *)
Definition default_path (u : url) : str :=
  match u_path u with
  | Some (47 :: p) =>
    let path := split_on 47 (47 :: p) in
    if (2 <? length path)%nat then join_on 47 (removelast path) else lit "/"
  | _ => lit "/"
  end.
(** cookie.py 1080-1098 *)
Definition store_cookie (now : Z) (same_len : bool) (c : cookie) (dnode : node) : node * res unit :=
  if n_public dnode && negb same_len then (dnode, Err CookieError)
  else
    let c := if n_public dnode then with_domain c None else c in
    let old_cookie := dget key_eqb (key_of c) (n_cookies dnode) in
    let c := match old_cookie with Some o => with_created c (c_created o) | None => c end in
    let cks := match old_cookie with Some _ => ddel key_eqb (key_of c) (n_cookies dnode) | None => n_cookies dnode end in
    let cks := if expired c now then cks else dset key_eqb (key_of c) c cks in
    (set_cookies dnode cks, Ok tt).
(** cookie.py 1045-1052: the labels of the host, reversed; host is not bound when it is used in the
    except clause *)
Definition host_labels (puny : str -> option str) (u : url) : res (list str) :=
  match u_host u with
  | None => Err AttributeError
  | Some h => match split_domain puny h false with Ok l => Ok (rev l) | Err _ => Err NameError end
  end.
(** cookie.py 1025-1098 [set_cookie] *)
Definition set_cookie (puny : str -> option str) (now : Z) (s : node) (u : url) (c : cookie) : node * res unit :=
  if negb (is_http (u_kind u)) && c_http_only c then (s, Err CookieError)
  else
    match host_labels puny u with
    | Err e => (s, Err e)
    | Ok host =>
      let dom := match c_domain c with
                 | None => Ok host
                 | Some d => let! l := split_domain puny d false in
                             if domain_in_domain (rev l) host then Ok (rev l) else Err CookieError
                 end in
      match dom with
      | Err e => (s, Err e)
      | Ok domain =>
        let c := match c_path c with None => with_path c (Some (default_path u)) | Some _ => c end in
        at_node (store_cookie now (Nat.eqb (length domain) (length host)) c) s domain
      end
    end.

(** cookie.py 1132-1158, for one cookie that has not expired: a missing path is impossible in the store *)
Fixpoint startswith (s p : str) : bool :=
  match p, s with
  | [], _ => true
  | x :: p', y :: s' => (x =? y) && startswith s' p'
  | _ :: _, [] => false
  end.
Definition cookie_matches (u : url) (host_match : bool) (c : cookie) : res bool :=
  if match c_domain c with None => negb host_match | Some _ => false end then Ok false
  else
    match u_path u with
    | None => Ok false
    | Some p =>
      match c_path c with
      | None => Err TypeError
      | Some cp =>
        if (length p <? length cp)%nat then Ok false
        else
          let! b := if startswith p cp then
                      match rev cp with
                      | [] => Err IndexError
                      | last :: _ => Ok ((last =? 47) || str_eqb (slice (length cp) (length cp + 1) p) (lit "/"))
                      end
                    else Ok false in
          if negb b then Ok false
          else if c_secure c && negb (is_https (u_kind u)) then Ok false
          else if c_http_only c && negb (is_http (u_kind u)) then Ok false
          else Ok true
      end
    end.
Fixpoint match_all (now : Z) (u : url) (host_match : bool) (l : cookies) : res (list cookie) :=
  match l with
  | [] => Ok []
  | (_, c) :: r =>
    if expired c now then match_all now u host_match r
    else
      let! b := cookie_matches u host_match c in
      let! m := match_all now u host_match r in
      Ok (if b then c :: m else m)
  end.
(** cookie.py 1159-1161 and the same in expire_cookies and end_session *)
Fixpoint del_all (l : list (key * cookie)) (cks : cookies) : cookies :=
  match l with [] => cks | (_, c) :: r => del_all r (ddel key_eqb (key_of c) cks) end.
Definition remove_cookies (f : cookie -> bool) (cks : cookies) : cookies :=
  del_all (filter (fun x => f (snd x)) cks) cks.
(** cookie.py 1124-1163, the walk of search down the tree *)
Fixpoint search_at (now : Z) (u : url) (n : node) (host : list str) : node * res (list cookie) :=
  match host with
  | [] => (n, Ok [])
  | d :: r =>
    match child n d with
    | None => (n, Ok [])
    | Some dnode =>
      match match_all now u (match r with [] => true | _ => false end) (n_cookies dnode) with
      | Err e => (n, Err e)
      | Ok m =>
        let dnode := set_cookies dnode (remove_cookies (fun c => expired c now) (n_cookies dnode)) in
        let (dnode', rest) := search_at now u dnode r in
        (set_child n d dnode', let! m' := rest in Ok (m ++ m'))
      end
    end
  end.
(** list.sort(key=lambda x: (-len(x.path), x.creation_time)), which is stable *)
Definition path_len (c : cookie) : Z := match c_path c with Some p => zlen p | None => 0 end.
Definition before (a b : cookie) : bool :=
  (path_len b <? path_len a) || ((path_len a =? path_len b) && (c_created a <? c_created b)).
Fixpoint insert_cookie (c : cookie) (l : list cookie) : list cookie :=
  match l with
  | [] => [c]
  | x :: r => if before x c then x :: insert_cookie c r else c :: l
  end.
Definition sort_cookies (l : list cookie) : list cookie := fold_right insert_cookie [] l.
(** cookie.py 1100-1165 [search] *)
Definition search (puny : str -> option str) (now : Z) (s : node) (u : url) : node * res (list cookie) :=
  match host_labels puny u with
  | Err e => (s, Err e)
  | Ok host => let (s', m) := search_at now u s host in (s', let! l := m in Ok (sort_cookies l))
  end.

(** cookie.py 1167-1194 [expire_cookies], 1196-1222 [end_session]: all the nodes below the store, which
    has no cookies of its own *)
Fixpoint clean (f : cookie -> bool) (n : node) : node :=
  match n with
  | Node p v d l c => Node p v d (map (fun x => match x with (k, c) => (k, clean f c) end) l) (remove_cookies f c)
  end.
Definition expire_cookies (now : Z) (s : node) : node := clean (fun c => expired c now) s.
Definition end_session (now : Z) (s : node) : node := clean (fun c => expired c now || negb (is_persistent c)) s.

(** ** Public suffixes *)
Definition map_children (f : node -> node) (n : node) : node := set_nodes n (map (fun x => (fst x, f (snd x))) (n_nodes n)).
Definition make_public (n : node) : node := if n_private n then n else set_public n true.
Definition make_private (n : node) : node := set_public (set_private n true) false.
(** cookie.py 1224-1273 [add_public_suffix] *)
Fixpoint add_public (n : node) (domain : list str) : node :=
  match domain with
  | [] => n
  | d :: r =>
    let last := match r with [] => true | _ => false end in
    match child n d with
    | None =>
      if str_eqb d STAR then
        if last then map_children make_public (if n_depth n <? 1 then set_depth n 1 else n)
        else set_child n d (add_public (expand_node n d) r)
      else set_child n d (add_public (set_public (expand_node n d) true) r)
    | Some dnode =>
      if last then
        let n := set_child n d (make_public dnode) in
        if str_eqb d STAR then map_children make_public n else n
      else set_child n d (add_public dnode r)
    end
  end.
(** cookie.py 1275-1328 [add_private_suffix] *)
Fixpoint add_private (n : node) (domain : list str) : node :=
  match domain with
  | [] => n
  | d :: r =>
    let last := match r with [] => true | _ => false end in
    match child n d with
    | None =>
      if str_eqb d STAR then
        if last then map_children make_private (set_depth n 0)
        else set_child n d (add_private (expand_node n d) r)
      else
        let dnode := expand_node n d in
        set_child n d (if last then make_private dnode else add_private dnode r)
    | Some dnode =>
      if last then
        let n := set_child n d (make_private dnode) in
        if str_eqb d STAR then map_children make_private n else n
      else set_child n d (add_private dnode r)
    end
  end.
Definition add_public_suffix (puny : str -> option str) (s : node) (suffix : str) : node * res unit :=
  match split_domain puny suffix true with
  | Err e => (s, Err e)
  | Ok l => (add_public s (rev l), Ok tt)
  end.
Definition add_private_suffix (puny : str -> option str) (s : node) (suffix : str) : node * res unit :=
  match split_domain puny suffix true with
  | Err e => (s, Err e)
  | Ok l => (add_private s (rev l), Ok tt)
  end.
(** the first word of line.split(): white space is that of ASCII *)
Definition first_word (line : str) : option str :=
  match lstrip line with [] => None | l => Some ((fix go l := match l with [] => [] | c :: r => if is_space c then [] else c :: go r end) l) end.
(** cookie.py 1360-1405 [set_public_list], from the lines of the list on; a rule with a bad domain is ignored,
    a line of white space raises IndexError *)
Fixpoint public_lines (puny : str -> option str) (s : node) (lines : list str) : node * res unit :=
  match lines with
  | [] => (s, Ok tt)
  | line :: r =>
    if match line with [] => true | _ => startswith line (lit "//") end then public_lines puny s r
    else
      match first_word line with
      | None => (s, Err IndexError)
      | Some w =>
        let s' := match w with
                  | 33 :: w' => fst (add_private_suffix puny s w')
                  | _ => fst (add_public_suffix puny s w)
                  end in
        public_lines puny s' r
      end
  end.
Definition set_public_list (puny : str -> option str) (s : node) (lines : list str) (tld_depth : Z) : node * res unit :=
  public_lines puny (set_depth s tld_depth) lines.

(** cookie.py 1407-1432 [test_public_domain] *)
Fixpoint test_public (n : node) (domain : list str) : bool :=
  match domain with
  | [] => n_public n
  | d :: r =>
    match child n d with
    | None => negb (n_depth n <? Z.of_nat (length domain))
    | Some dnode => test_public dnode r
    end
  end.
Definition test_public_domain (puny : str -> option str) (s : node) (domain_str : str) : res bool :=
  let! l := split_domain puny domain_str false in
  Ok (test_public s (rev l)).
(** cookie.py 1434-1498 [get_registered_domain], with u_labels False; the labels are reversed.  [-dcount:...]
    with dcount > 0 starts at the label in hand *)
Fixpoint registered (n : node) (domain : list str) : option (list str) :=
  match domain with
  | [] => None
  | d :: r =>
    match child n d with
    | None => if n_depth n <? Z.of_nat (length domain)
              then Some (firstn (Z.to_nat (n_depth n + 1)) domain) else None
    | Some dnode =>
      if negb (n_public dnode) then Some [d]
      else match r with
           | [] => None
           | _ => match registered dnode r with Some m => Some (d :: m) | None => None end
           end
    end
  end.
Definition get_registered_domain (puny : str -> option str) (s : node) (domain_str : str) : res (option str) :=
  let! l := split_domain puny domain_str false in
  Ok (match registered s (rev l) with Some m => Some (join_on 46 (rev m)) | None => None end).

(** ** Histories *)
Inductive op :=
| OSet (now : Z) (u : url) (c : cookie)
| OSearch (now : Z) (u : url)
| OExpire (now : Z)
| OEndSession (now : Z)
| OPublic (suffix : str)
| OPrivate (suffix : str)
| OList (lines : list str) (tld_depth : Z).
Definition step (puny : str -> option str) (s : node) (o : op) : node :=
  match o with
  | OSet now u c => fst (set_cookie puny now s u c)
  | OSearch now u => fst (search puny now s u)
  | OExpire now => expire_cookies now s
  | OEndSession now => end_session now s
  | OPublic d => fst (add_public_suffix puny s d)
  | OPrivate d => fst (add_private_suffix puny s d)
  | OList l t => fst (set_public_list puny s l t)
  end.
Definition run (puny : str -> option str) (ops : list op) (s : node) : node := fold_left (step puny) ops s.
