(** What a cookie store should do (RFC 6265, 5.3 and 5.4), in terms of a jar: a map from a domain, a
    name and a path to a cookie.  A domain is written from the top: ["com"; "example"; "www"]. *)
From Verif Require Import Py UriModel Dict CookieModel.

Definition domain := list str.
Definition jar := domain -> key -> option cookie.
Definition empty_jar : jar := fun _ _ => None.
Definition dom_dec : forall a b : domain, {a = b} + {a <> b} := list_eq_dec (list_eq_dec Z.eq_dec).
Definition opt_dec : forall a b : option str, {a = b} + {a <> b}.
Proof. decide equality. apply (list_eq_dec Z.eq_dec). Defined.
Definition key_dec : forall a b : key, {a = b} + {a <> b}.
Proof. decide equality; [apply opt_dec|apply (list_eq_dec Z.eq_dec)]. Defined.

(** the host is in the domain *)
Definition in_domain (host d : domain) : Prop := exists more, host = d ++ more.
Definition in_domain_dec : forall host d, {in_domain host d} + {~ in_domain host d}.
Proof.
  intros host d. destruct (dom_dec (firstn (length d) host) d) as [E|N].
  - left. exists (skipn (length d) host). rewrite <- E at 1. symmetry. apply firstn_skipn.
  - right. intros [m ->]. apply N. rewrite firstn_app, Nat.sub_diag, firstn_O, app_nil_r. apply firstn_all2. auto.
Defined.

(** the labels of a domain text; those of the host of a URL *)
Definition labels (puny : str -> option str) (d : str) : option domain :=
  match split_domain puny d false with Ok l => Some (rev l) | Err _ => None end.
Definition host_of (puny : str -> option str) (u : url) : option domain :=
  match u_host u with Some h => labels puny h | None => None end.
(** the domain that a cookie received from u goes to, with the host: None if the cookie may not be set *)
Definition target (puny : str -> option str) (u : url) (c : cookie) : option (domain * domain) :=
  if c_http_only c && negb (is_http (u_kind u)) then None
  else
    match host_of puny u with
    | None => None
    | Some host =>
      match c_domain c with
      | None => Some (host, host)
      | Some d =>
        match labels puny d with
        | Some l => if in_domain_dec host l then Some (l, host) else None
        | None => None
        end
      end
    end.
(** the default path (5.1.4): up to but not including the right-most slash *)
Fixpoint upto_last_slash (p : str) : str :=
  match p with
  | [] => []
  | c :: r => if zin 47 r then c :: upto_last_slash r else if c =? 47 then [] else c :: upto_last_slash r
  end.
Definition directory (u : url) : str :=
  match u_path u with
  | Some (47 :: p) => if zin 47 p then upto_last_slash (47 :: p) else lit "/"
  | _ => lit "/"
  end.
(** the cookie as it is stored: with a path; host-only if the domain is public *)
Definition stored (public : bool) (u : url) (c : cookie) : cookie :=
  mkcookie (c_name c) (c_value c) (Some (match c_path c with Some p => p | None => directory u end))
    (if public then None else c_domain c) (c_secure c) (c_http_only c) (c_created c) (c_expires c).
(** the expiry time is over; the cookie outlives the session *)
Definition over (c : cookie) (now : Z) : bool := match c_expires c with Some t => t <? now | None => false end.
Definition lasting (c : cookie) : bool := match c_expires c with Some _ => true | None => false end.
Definition drop (f : cookie -> bool) (o : option cookie) : option cookie :=
  match o with Some c => if f c then None else Some c | None => None end.

(** the effect of an operation on the jar; [public d]: d is a public suffix *)
Definition jar_step (puny : str -> option str) (public : domain -> bool) (o : op) (j : jar) : jar :=
  match o with
  | OSet now u c =>
    match target puny u c with
    | None => j
    | Some (dom, host) =>
      if public dom && negb (if dom_dec dom host then true else false) then j
      else
        let c' := stored (public dom) u c in
        fun d k =>
          if dom_dec d dom then
            if key_dec k (key_of c') then
              if over c' now then None
              else Some (with_created c' (match j dom k with Some o => c_created o | None => c_created c' end))
            else j d k
          else j d k
    end
  | OSearch now u =>
    match host_of puny u with
    | None => j
    | Some host => fun d k => if in_domain_dec host d then drop (fun c => over c now) (j d k) else j d k
    end
  | OExpire now => fun d k => drop (fun c => over c now) (j d k)
  | OEndSession now => fun d k => drop (fun c => over c now || negb (lasting c)) (j d k)
  | OPublic _ | OPrivate _ | OList _ _ => j
  end.

(** which cookies are sent with a request for u, as the code has it (the path rule of RFC 6265 5.1.4 also
    lets the path be equal to that of the cookie) *)
Definition path_match (p cp : str) : Prop :=
  (exists r, p = cp ++ r /\ exists q, cp = q ++ [47]) \/ (exists r, p = cp ++ 47 :: r).
Definition sent (now : Z) (u : url) (host d : domain) (c : cookie) : Prop :=
  over c now = false /\ in_domain host d /\ (c_domain c = None -> d = host) /\
  (exists p cp, u_path u = Some p /\ c_path c = Some cp /\ path_match p cp) /\
  (c_secure c = true -> u_kind u = Https) /\ (c_http_only c = true -> u_kind u <> Other).

(** ** Public suffixes *)
(** a rule: true for a public suffix, false for an exception; the labels from the top, "*" for any label *)
Definition rule := (bool * domain)%type.
Definition rule_of (puny : str -> option str) (public : bool) (suffix : str) : list rule :=
  match split_domain puny suffix true with Ok l => [(public, rev l)] | Err _ => [] end.
(** the rules of the lines of a public suffix list, up to a line of white space *)
Fixpoint rules_of_list (puny : str -> option str) (lines : list str) : list rule :=
  match lines with
  | [] => []
  | line :: r =>
    if match line with [] => true | _ => startswith line (lit "//") end then rules_of_list puny r
    else match first_word line with
         | None => []
         | Some (33 :: w) => rule_of puny false w ++ rules_of_list puny r
         | Some w => rule_of puny true w ++ rules_of_list puny r
         end
  end.
Definition op_rules (puny : str -> option str) (o : op) : list rule :=
  match o with
  | OPublic d => rule_of puny true d
  | OPrivate d => rule_of puny false d
  | OList l _ => rules_of_list puny l
  | _ => []
  end.
(** wild cards only as the whole of the first label of a public suffix ("*.uk") *)
Definition rule_ok (r : rule) : Prop := if fst r then ~ In STAR (removelast (snd r)) else ~ In STAR (snd r).
Definition exception (R : list rule) (d : domain) : Prop := In (false, d) R.
(** public by the depth t of the top-level domains or by a rule *)
Definition listed (R : list rule) (t : Z) (d : domain) : Prop :=
  Z.of_nat (length d) <= t \/ In (true, d) R \/ exists q x, d = q ++ [x] /\ In (true, q ++ [STAR]) R.
(** d is above a public suffix that has a rule *)
Definition above (R : list rule) (d : domain) : Prop := exists r, r <> [] /\ In (true, d ++ r) R.

(** ** Histories *)
(** the flag that set_cookie finds for the domain *)
(** the node that set_cookie gets to *)
Fixpoint node_at (n : node) (d : domain) : node :=
  match d with [] => n | x :: r => node_at (match child n x with Some c => c | None => expand_node n x end) r end.
Definition public_of (s : node) (d : domain) : bool := n_public (node_at s d).
(** cookies with an empty path are left out: search fails with them *)
Definition good_path (c : cookie) : Prop := c_path c <> Some [].
Definition op_ok (o : op) : Prop := match o with OSet _ _ c => good_path c | _ => True end.
(** the jar after a history *)
Fixpoint jar_run (puny : str -> option str) (ops : list op) (s : node) (j : jar) : jar :=
  match ops with [] => j | o :: r => jar_run puny r (step puny s o) (jar_step puny (public_of s) o j) end.
(** the order of a result: long paths first, then the oldest first *)
Definition plen (c : cookie) : nat := match c_path c with Some p => length p | None => 0%nat end.
Definition in_order (a b : cookie) : Prop := (plen b < plen a)%nat \/ (plen a = plen b /\ c_created a <= c_created b).
(** the list of public suffixes is set once, before; its depth is not negative *)
Definition nonlist (o : op) : Prop := match o with OList _ _ => False | _ => True end.
Definition depth_op (o : op) : Prop := match o with OList _ t => 0 <= t | _ => True end.
