(** Properties C10-C20 (pyslet/rfc2396.py, pyslet/http/params.py HTTPURL, pyslet/urn.py).
    The vocabulary of the statements is in UriSpec.v. *)
From Verif Require Import Py Num Codec UriModel UriSpec UriProofs UriParse UriMain UriServer UriPath UriRel UriCanon UrnProofs UriRel2.

(** ** C10 *)
(** any reserved / allowed test that leaves "%" and the 8-bit bytes escaped *)
Theorem c10_escape_round_trip : forall b r a, Forall is_byte b ->
  (r 37 = true \/ a 37 = false) -> (forall c, 128 <= c <= 255 -> r c = true \/ a c = false) ->
  unescape_data (escape_data b r a) = Ok b /\
  escaped (fun c => r c = false /\ a c = true) uphexc (escape_data b r a).
Proof. intros b r a H1 H2 H3. apply c10_round_trip; auto. split; auto. Qed.
Print Assumptions c10_escape_round_trip.
(** the library's tests are such *)
Example c10_tests : let r := is_reserved in let a := is_allowed in
  (r 37 = true \/ a 37 = false) /\ (forall c, 128 <= c <= 255 -> r c = true \/ a c = false).
Proof.
  cbn. split; [right; reflexivity|]. intros c H. destruct (is_allowed c) eqn:E; [|auto].
  apply allowed_ascii in E. lia.
Qed.
Example c10_case : escape_data (lit "a/%" ++ [200]) is_reserved is_allowed = lit "a%2F%25%C8" /\
  unescape_data (lit "a%2F%25%C8") = Ok (lit "a/%" ++ [200]).
Proof. split; vm_compute; reflexivity. Qed.
(** unescaping arbitrary text: exactly one reading, and an error just for non-ASCII text *)
Theorem c10_unescape_text : forall s t,
  unescape_data s = Ok t <-> Forall (fun c => c <= 127) s /\ unescapes s t.
Proof. exact c10_unescape. Qed.
Print Assumptions c10_unescape_text.
Example c10_unescape_case : unescape_data (lit "%4x%zz%41") = Ok (lit "%4x%zzA").
Proof. vm_compute; reflexivity. Qed.
(** Finding: an incomplete escape at the end of the source is dropped *)
Theorem c10_unescape_truncated_refuted : unescape_data (lit "100%") = Ok (lit "100") /\ unescape_data (lit "100%4") = Ok (lit "100").
Proof. split; vm_compute; reflexivity. Qed.
Print Assumptions c10_unescape_truncated_refuted.

(** ** C11 *)
Theorem c11_canonical_data : forall un al s ts, tests_ok un al -> reads s ts ->
  exists s', canonicalize_data s un al = Ok s' /\
    reads s' (map (canonical_tok un al) ts) /\
    canonicalize_data s' un al = Ok s' /\
    unescape_data s = Ok (map octet_of ts) /\ unescape_data s' = Ok (map octet_of ts) /\
    escaped (fun c => al c = true /\ c <> 37) uphexc s'.
Proof. exact c11_main. Qed.
Print Assumptions c11_canonical_data.
Theorem c11_same_canonical_form : forall un al s1 ts1 s2 ts2, tests_ok un al -> reads s1 ts1 -> reads s2 ts2 ->
  (canonicalize_data s1 un al = canonicalize_data s2 un al <->
   map (canonical_tok un al) ts1 = map (canonical_tok un al) ts2).
Proof. exact c11_same. Qed.
Print Assumptions c11_same_canonical_form.
Example c11_tests : tests_ok is_unreserved is_allowed.
Proof. exact tests_std. Qed.
Example c11_case : reads (lit "%7e%2f<") [Esc 126; Esc 47; Plain 60] /\
  canonicalize_data (lit "%7e%2f<") is_unreserved is_allowed = Ok (lit "~%2F%3C").
Proof.
  split; [|vm_compute; reflexivity]. apply (rd_esc 55 101); [unfold hexc; lia|unfold hexc; lia|].
  apply (rd_esc 50 102); [unfold hexc; lia|unfold hexc; lia|]. constructor; [lia|lia|constructor].
Qed.
(** Finding: malformed escapes are not rejected: "%4" is read as a complete escape, "%+1" too *)
Theorem c11_malformed_refuted : canonicalize_data (lit "a%4") is_unreserved is_allowed = Ok (lit "a%04") /\
  canonicalize_data (lit "%+1") is_unreserved is_allowed = Ok (lit "%01").
Proof. split; vm_compute; reflexivity. Qed.
Print Assumptions c11_malformed_refuted.

(** ** C12 *)
Theorem c12_maximal_prefix : forall al s pos, al 37 = false ->
  let n := parse_uric s pos al in
  (n <= length (skipn pos s))%nat /\ uric_text al (firstn n (skipn pos s)) /\
  forall m, (n < m <= length (skipn pos s))%nat -> ~ uric_text al (firstn m (skipn pos s)).
Proof. exact c12. Qed.
Print Assumptions c12_maximal_prefix.
Example c12_case : is_allowed 37 = false /\ parse_uric (lit "ab%4Fc%4") 1 is_allowed = 5%nat.
Proof. split; vm_compute; reflexivity. Qed.

(** ** C13 *)
Theorem c13_recompose : forall k text u, make_uri k text = Ok u ->
  parts_ok (parts_of u) /\ recompose (parts_of u) = text /\ to_str u = text /\ cls u = k.
Proof. exact c13_sound. Qed.
Print Assumptions c13_recompose.
(** the components are the only ones that recompose to the text *)
Theorem c13_components : forall k p, parts_ok p -> k <> KURN ->
  exists u, make_uri k (recompose p) = Ok u /\ parts_of u = p.
Proof. exact c13_complete. Qed.
Print Assumptions c13_components.
Theorem c13_accepted_texts : forall text, (exists u, make_uri KURI text = Ok u) <->
  exists a f, uric_text is_allowed a /\ opt_all (uric_text is_allowed) f /\
    text = a ++ match f with Some f => lit "#" ++ f | None => [] end.
Proof. exact c13_accept. Qed.
Print Assumptions c13_accepted_texts.
Theorem c13_rejected_texts : forall k text e, k <> KURN -> make_uri k text = Err e -> e = URIException.
Proof. exact c13_reject. Qed.
Print Assumptions c13_rejected_texts.
(** parsing what str() returns gives an equal object *)
Theorem c13_str_round_trip : forall t u, from_octets t = Ok u ->
  recompose (parts_of u) = to_str u /\ from_octets (to_str u) = Ok u.
Proof. intros t u H. apply from_octets_inv in H. tauto. Qed.
Print Assumptions c13_str_round_trip.
Example c13_case : exists u, from_octets (lit "http://u@h:8/a/b?q#f") = Ok u /\
  parts_of u = mkparts (Some (lit "http")) None (Some (lit "u@h:8")) (Some (lit "/a/b")) None (Some (lit "q")) (Some (lit "f")).
Proof. eexists. split; vm_compute; reflexivity. Qed.
Example c13_reject_case : from_octets (lit "http://h/a b") = Err URIException.
Proof. vm_compute. reflexivity. Qed.
(** Finding: text that starts with ":" has the empty scheme, which is not None *)
Theorem c13_empty_scheme_refuted : exists u, from_octets (lit ":foo") = Ok u /\ scheme u = Some [] /\ opaque_part (hr u) = Some (lit "foo").
Proof. eexists. split; [vm_compute; reflexivity|]. split; reflexivity. Qed.
Print Assumptions c13_empty_scheme_refuted.

(** ** C14 *)
Theorem c14_split_server : forall a ui ho po,
  split_server (Some a) = (ui, Some ho, po) <-> server_parts a ui ho po.
Proof. exact split_server_iff. Qed.
Print Assumptions c14_split_server.
Theorem c14_split_total : forall a, exists ui ho po, split_server (Some a) = (ui, Some ho, po) /\ server_parts a ui ho po.
Proof. exact split_sound. Qed.
Print Assumptions c14_split_total.
Example c14_case : split_server (Some (lit "me:pw@www.x.org:80")) = (Some (lit "me:pw"), Some (lit "www.x.org"), Some (lit "80")).
Proof. vm_compute. reflexivity. Qed.

(** ** C15 *)
Theorem c15_normal_form : forall l, exists l', normalize_segments l = Ok l' /\
  ~ In (lit ".") l' /\
  (exists k r, l' = repeat (lit "..") k ++ r /\ ~ In (lit "..") r /\ (r = [] -> l = [])) /\
  normalize_segments l' = Ok l' /\ denotes l' = denotes l.
Proof. exact c15. Qed.
Print Assumptions c15_normal_form.
Example c15_case : normalize_segments [lit "a"; lit "."; lit "b"; lit ".."; lit ".."; lit ".."; lit "c"; lit "."] =
  Ok [lit ".."; lit "c"; lit ""].
Proof. vm_compute. reflexivity. Qed.
Example c15_denotes_case : denotes [lit "a"; lit "."; lit "b"; lit ".."; lit ".."; lit ".."; lit "c"; lit "."] = (1%nat, [lit "c"], None).
Proof. vm_compute. reflexivity. Qed.

(** ** C16 *)
(** Partial: the general claim fails (see below) unless the paths are made of ordinary segments, the
    target has no empty inner segment and no colon in its path, and the base is not below the target *)
Theorem c16_relative_resolve_partial : forall tu tb u b su sb, from_octets tu = Ok u -> from_octets tb = Ok b ->
  scheme u = scheme b -> authority (hr u) = authority (hr b) ->
  abs_path (hr u) = Some (path_of su) -> abs_path (hr b) = Some (path_of sb) ->
  ordinary su -> ordinary sb -> no_empty_inside su -> ~ has 58 (path_of su) ->
  ~ (exists x r, sb = su ++ x :: r) ->
  (su = sb -> query (hr u) = None /\ query (hr b) = None) ->
  exists r, relative u b = Ok r /\ scheme r = None /\ authority (hr r) = None /\ resolve r b None = Ok u.
Proof. exact c16. Qed.
Print Assumptions c16_relative_resolve_partial.
Definition rel_res (tu tb : str) : res (str * str) :=
  let! u := from_octets tu in let! b := from_octets tb in
  let! r := relative u b in let! v := resolve r b None in Ok (to_str r, to_str v).
Example c16_case : rel_res (lit "http://h/a/b/d?q#f") (lit "http://h/a/c/e?z") = Ok (lit "../b/d?q#f", lit "http://h/a/b/d?q#f").
Proof. vm_compute. reflexivity. Qed.
Example c16_hypotheses : exists u b, from_octets (lit "http://h/a/b/d?q#f") = Ok u /\ from_octets (lit "http://h/a/c/e?z") = Ok b /\
  scheme u = scheme b /\ authority (hr u) = authority (hr b) /\
  abs_path (hr u) = Some (path_of [lit "a"; lit "b"; lit "d"]) /\ abs_path (hr b) = Some (path_of [lit "a"; lit "c"; lit "e"]) /\
  ordinary [lit "a"; lit "b"; lit "d"] /\ ordinary [lit "a"; lit "c"; lit "e"] /\
  no_empty_inside [lit "a"; lit "b"; lit "d"] /\ ~ has 58 (path_of [lit "a"; lit "b"; lit "d"]) /\
  ~ (exists x r, [lit "a"; lit "c"; lit "e"] = [lit "a"; lit "b"; lit "d"] ++ x :: r).
Proof.
  eexists; eexists. split; [vm_compute; reflexivity|]. split; [vm_compute; reflexivity|]. psplit; try reflexivity.
  - split; [discriminate|]. repeat constructor; try discriminate; compute; intuition discriminate.
  - split; [discriminate|]. repeat constructor; try discriminate; compute; intuition discriminate.
  - intros a s b E N. destruct a as [|? [|? [|? [|? ?]]]]; cbn in E; inversion E; subst; discriminate.
  - compute; intuition discriminate.
  - intros (x & r & E). discriminate.
Qed.
(** with dot segments in the paths: the result is the target with its path normalised *)
Theorem c16_relative_resolve_dots_partial : forall tu tb u b su sb lu lb, from_octets tu = Ok u -> from_octets tb = Ok b ->
  scheme u = scheme b -> authority (hr u) = authority (hr b) ->
  abs_path (hr u) = Some (path_of su) -> abs_path (hr b) = Some (path_of sb) ->
  su <> [] -> sb <> [] -> Forall (fun s => ~ has 47 s) su -> Forall (fun s => ~ has 47 s) sb ->
  normalize_segments su = Ok lu -> normalize_segments sb = Ok lb ->
  ~ In (lit "..") lu -> ~ In (lit "..") lb -> last sb [] <> lit "." -> last sb [] <> lit ".." ->
  no_empty_inside lu -> ~ has 58 (path_of lu) -> ~ (exists x r, lb = lu ++ x :: r) -> lu <> lb ->
  exists r v, relative u b = Ok r /\ scheme r = None /\ authority (hr r) = None /\ resolve r b None = Ok v /\
    parts_of v = mkparts (scheme u) None (authority (hr u)) (Some (path_of lu)) None (query (hr u)) (fragment u).
Proof.
  intros tu tb u b su sb lu lb H1 H2 H3 H4 H5 H6 H7 H8 H9 H10 H11 H12 H13 H14 H15 H16. eapply c16_dots; eauto; try (split; auto).
  unfold is_dots. apply str_eqb_neq in H15, H16. change dot with (lit "."). change dotdot with (lit ".."). rewrite H15, H16. reflexivity.
Qed.
Print Assumptions c16_relative_resolve_dots_partial.
Example c16_dots_case : rel_res (lit "http://h/a/./x/../b/d/..") (lit "http://h/a/y/../c/e") = Ok (lit "../b/", lit "http://h/a/b/") /\
  normalize_segments [lit "a"; lit "."; lit "x"; lit ".."; lit "b"; lit "d"; lit ".."] = Ok [lit "a"; lit "b"; lit ""] /\
  normalize_segments [lit "a"; lit "y"; lit ".."; lit "c"; lit "e"] = Ok [lit "a"; lit "c"; lit "e"].
Proof. repeat split; vm_compute; reflexivity. Qed.
(** Findings, each with target U, base B and U.relative(B).resolve(B) <> U *)
Theorem c16_refuted :
  (* the base is below the target *)
  rel_res (lit "http://h/a") (lit "http://h/a/b") = Ok (lit "", lit "http://h/a/b") /\
  (* same path, the target has a query *)
  rel_res (lit "http://h/a?q") (lit "http://h/a") = Ok (lit "?q", lit "http://h/?q") /\
  (* same path, the base has a query *)
  rel_res (lit "http://h/a") (lit "http://h/a?q") = Ok (lit "", lit "http://h/a?q") /\
  (* a colon in the first segment of the relative path: it becomes the URI "x:y" *)
  rel_res (lit "http://h/x:y") (lit "http://h/a") = Ok (lit "x:y", lit "x:y") /\
  (* the last segment of the base is "..": the library takes the directory before removing it *)
  rel_res (lit "http://h/x") (lit "http://h/a/b/..") = Ok (lit "../x", lit "http://h/a/x") /\
  (* an empty segment: it becomes a network path *)
  rel_res (lit "http://h/a//b") (lit "http://h/a/c") = Ok (lit "/b", lit "http://h/b").
Proof. repeat split; vm_compute; reflexivity. Qed.
Print Assumptions c16_refuted.

(** ** C17 *)
(** a generic URI: scheme in lower case, an empty fragment removed, the rest unchanged *)
Theorem c17_generic_canonical : forall t u, from_octets t = Ok u -> cls u = KURI ->
  exists c, canonicalize u = Ok c /\
    parts_of c = mkparts (option_map lower (scheme u)) (opaque_part (hr u)) (authority (hr u)) (abs_path (hr u))
      (rel_path (hr u)) (query (hr u)) (match fragment u with Some [] => None | f => f end) /\
    canonicalize c = Ok c /\ uri_eq u c = Ok true.
Proof. intros t u H K. destruct (c17_generic t u H K) as (c & H1 & H2 & H3 & H4 & H5). exists c. split; [exact H1|]. split; [rewrite H2; unfold cgen, parts_of, canon_frag; cbn; destruct (fragment u) as [[|]|]; reflexivity|]. auto. Qed.
Print Assumptions c17_generic_canonical.
(** file, http and https URL with a hierarchical part, the host without ":" *)
Theorem c17_server_canonical_partial : forall t u, from_octets t = Ok u -> cls u = KFile \/ cls u = KHTTP \/ cls u = KHTTPS ->
  opaque_part (hr u) = None -> opt_all (fun h => ~ has 58 h) (host u) ->
  exists c, canonicalize u = Ok c /\ cls c = cls u /\ scheme c = option_map lower (scheme u) /\
    userinfo c = userinfo u /\ host c = option_map lower (host u) /\
    (forall d, port c = Some d -> decimal d = match port u with Some x => decimal x | None => 0 end /\ (hd 0 d = 48 -> d = [48])) /\
    (authority (hr u) <> None -> effective_port (cls u) (port c) = effective_port (cls u) (port u)) /\
    fragment c = fragment u /\
    canonicalize c = Ok c /\ uri_eq u c = Ok true /\ same_url (cls u) u c.
Proof.
  intros t u F K O H. assert (G : good u) by (constructor; eauto). destruct (c17_server u G) as (c & H1 & H2 & H3 & H4 & H5 & H6 & GC & H7 & H8).
  exists c. psplit; auto.
  - apply (f_equal p_scheme) in H2. exact H2.
  - intros d E. rewrite H6 in E. unfold canon_port in E. destruct (port u) as [[|x y]|] eqn:PU; try discriminate.
    destruct (match std_port (cls u) with Some _ => _ | None => _ end); [discriminate|]. assert (E' : d = dec_nat (decimal (x :: y))) by congruence. rewrite E'.
    destruct (good_fields u G) as (_ & _ & _ & A). destruct (authority (hr u)) as [a|] eqn:EA; [|destruct A as (_ & _ & A); congruence].
    destruct A as (ho & _ & SP & _).
    assert (N : 0 <= decimal (x :: y)) by (apply (decimal_nonneg (x :: y)); apply (sp_port _ _ _ _ SP _ PU)).
    destruct (dec_nat_spec _ N) as (D1 & D2 & D3 & D4). auto.
  - intros NA. rewrite H6. apply canon_port_eq.
    + destruct (good_fields u G) as (_ & _ & _ & A). destruct (authority (hr u)) as [a|]; [|congruence].
      destruct A as (ho & _ & SP & _). apply canon_port_digits. apply (sp_port _ _ _ _ SP).
    + destruct (good_fields u G) as (_ & _ & _ & A). destruct (authority (hr u)) as [a|]; [|congruence].
      destruct A as (ho & _ & SP & _). apply (sp_port _ _ _ _ SP).
    + destruct (good_fields u G) as (_ & _ & _ & A). destruct (authority (hr u)) as [a|]; [|congruence].
      destruct A as (ho & _ & SP & _). apply canon_port_idem. apply (sp_port _ _ _ _ SP).
  - apply (f_equal p_frag) in H2. exact H2.
  - destruct (c17_url_eq u c G GC) as (b & B1 & B2); auto. apply B2. congruence.
Qed.
Print Assumptions c17_server_canonical_partial.
(** equality of two such URL of the same class *)
Theorem c17_url_equality_partial : forall t1 u t2 v, from_octets t1 = Ok u -> from_octets t2 = Ok v ->
  cls u = KFile \/ cls u = KHTTP \/ cls u = KHTTPS -> cls v = cls u ->
  opaque_part (hr u) = None -> opaque_part (hr v) = None ->
  opt_all (fun h => ~ has 58 h) (host u) -> opt_all (fun h => ~ has 58 h) (host v) ->
  exists b, uri_eq u v = Ok b /\ (b = true <-> same_url (cls u) u v).
Proof.
  intros t1 u t2 v F1 F2 K K2 O1 O2 H1 H2. apply c17_url_eq; auto; constructor; eauto. unfold srv. rewrite K2. exact K.
Qed.
Print Assumptions c17_url_equality_partial.
Theorem c17_generic_equality : forall t1 u t2 v, from_octets t1 = Ok u -> from_octets t2 = Ok v -> cls u = KURI -> cls v = KURI ->
  exists b, uri_eq u v = Ok b /\
    (b = true <-> option_map lower (scheme u) = option_map lower (scheme v) /\ opaque_part (hr u) = opaque_part (hr v) /\
      authority (hr u) = authority (hr v) /\ abs_path (hr u) = abs_path (hr v) /\ rel_path (hr u) = rel_path (hr v) /\
      query (hr u) = query (hr v) /\
      (match fragment u with Some [] => None | f => f end) = (match fragment v with Some [] => None | f => f end)).
Proof.
  intros t1 u t2 v H1 H2 K1 K2. destruct (c17_generic_eq _ _ _ _ H1 H2 K1 K2) as (b & B1 & B2). exists b. split; auto.
  rewrite B2. unfold cgen, parts_of. cbn. split.
  - intros E. injection E as E1 E2 E3 E4 E5 E6 E7. psplit; auto. unfold canon_frag in E7.
    destruct (fragment u) as [[|]|], (fragment v) as [[|]|]; auto.
  - intros (-> & -> & -> & -> & -> & -> & E). f_equal. unfold canon_frag.
    destruct (fragment u) as [[|]|], (fragment v) as [[|]|]; auto.
Qed.
Print Assumptions c17_generic_equality.
Definition eq_text (a b : str) : res bool := let! u := from_octets a in let! v := from_octets b in uri_eq u v.
Example c17_case : eq_text (lit "HTTP://HOST:080/%7ep?%2f") (lit "http://host/~p?%2F") = Ok true.
Proof. vm_compute. reflexivity. Qed.
Example c17_hypotheses : exists u, from_octets (lit "HTTP://me@HOST:080/%7ep?%2f") = Ok u /\ cls u = KHTTP /\
  opaque_part (hr u) = None /\ host u = Some (lit "HOST") /\ opt_all (fun h => ~ has 58 h) (host u).
Proof.
  eexists. split; [vm_compute; reflexivity|]. psplit; try reflexivity. intros x X. inversion X; subst. compute. intuition discriminate.
Qed.
(** Findings: canonicalisation is not idempotent when the host ends with a port; the opaque part of a
    server-based URL is dropped, so that different URI are equal; a missing path is not replaced by "/" *)
Definition canon2 (t : str) : res (str * str) :=
  let! u := from_octets t in let! c := canonicalize u in let! d := canonicalize c in Ok (to_str c, to_str d).
Theorem c17_refuted :
  canon2 (lit "http://a:80:80/") = Ok (lit "http://a:80/", lit "http://a/") /\
  eq_text (lit "http:foo") (lit "http:bar") = Ok true /\
  eq_text (lit "http://h") (lit "http://h/") = Ok false /\
  eq_text (lit "x:a#") (lit "x:a") = Ok true.
Proof. repeat split; vm_compute; reflexivity. Qed.
Print Assumptions c17_refuted.

(** ** C18 *)
Theorem c18_encode_unicode_uri : forall s, Forall is_scalar s -> exists t, encode_unicode_uri s = Ok t /\ ascii t = true /\
  (~ In 37 s -> unescape_data t = Ok (utf8 s)).
Proof. exact c18. Qed.
Print Assumptions c18_encode_unicode_uri.
Theorem c18_ascii_unchanged : forall s, Forall (fun c => 0 <= c <= 127) s -> encode_unicode_uri s = Ok s.
Proof. exact c18_ascii_id. Qed.
Print Assumptions c18_ascii_unchanged.
Example c18_case : Forall is_scalar [97; 233; 8364; 128512] /\
  encode_unicode_uri [97; 233; 8364; 128512] = Ok (lit "a%C3%A9%E2%82%AC%F0%9F%98%80").
Proof. split; [repeat constructor; unfold is_scalar, maxunicode; lia|vm_compute; reflexivity]. Qed.

(** ** C19 *)
Theorem c19_urn_translation : forall s rt, Forall (fun c => is_scalar c /\ c <> 0) s ->
  exists t, translate_to_urnchar s rt = Ok t /\ translate_from_urnchar t = Ok s /\
    escaped (fun c => urn_char c /\ ~ In c (lit "%/?#") /\ rt c = false) uphexc t.
Proof. exact c19. Qed.
Print Assumptions c19_urn_translation.
Example c19_case : Forall (fun c => is_scalar c /\ c <> 0) [97; 47; 233; 46] /\
  translate_to_urnchar [97; 47; 233; 46] (fun c => c =? 46) = Ok (lit "a%2F%C3%A9%2E").
Proof. split; [repeat constructor; unfold is_scalar, maxunicode; lia|vm_compute; reflexivity]. Qed.
Theorem c19_zero_byte : forall rt, translate_to_urnchar [0] rt = Err ValueError.
Proof. intros rt. cbn. rewrite orb_true_r. reflexivity. Qed.
Print Assumptions c19_zero_byte.

(** ** C20 *)
(** [p]: the components of a URI with a scheme; with an opaque part [o] it is accepted as a URN
    exactly when [o] is NID ":" NSS, and rejected with URIException otherwise *)
Theorem c20_urn_grammar : forall p s o, parts_ok p -> p_scheme p = Some s -> p_opaque p = Some o ->
  (forall n x, (exists u, make_uri KURN (recompose p) = Ok u /\ parts_of u = p /\ nid u = Some n /\ nss u = Some x) <->
     o = n ++ lit ":" ++ x /\ nid_ok n /\ Forall urn_char x) /\
  (forall e, make_uri KURN (recompose p) = Err e -> e = URIException).
Proof. intros p s o H1 H2 H3. pose proof (c20 p s H1 H2) as H. rewrite H3 in H. exact H. Qed.
Print Assumptions c20_urn_grammar.
Theorem c20_urn_equality : forall t1 u t2 v i1 n1 i2 n2, from_octets t1 = Ok u -> from_octets t2 = Ok v -> cls u = KURN -> cls v = KURN ->
  nid u = Some i1 -> nss u = Some n1 -> nid v = Some i2 -> nss v = Some n2 ->
  exists b, uri_eq u v = Ok b /\ (b = true <-> lower i1 = lower i2 /\ exists ts, reads n1 ts /\ reads n2 ts).
Proof. exact c20_eq. Qed.
Print Assumptions c20_urn_equality.
Theorem c20_urn_canonical : forall t u, from_octets t = Ok u -> cls u = KURN ->
  exists s i n c n' ts, scheme u = Some s /\ nid u = Some i /\ nss u = Some n /\ canonicalize u = Ok c /\
    to_str c = lower s ++ lit ":" ++ lower i ++ lit ":" ++ n' /\ reads n ts /\ reads n' ts /\
    canonicalize c = Ok c /\ uri_eq u c = Ok true.
Proof.
  intros t u F K. destruct (c20_canon t u F K) as (s & i & n & c & n' & ts & A1 & A2 & A3 & A4 & A5 & _ & A6 & A7 & _ & _ & _ & _ & A8 & A9).
  exists s, i, n, c, n', ts. psplit; auto.
Qed.
Print Assumptions c20_urn_canonical.
Example c20_case : exists u, from_octets (lit "URN:Isbn:a%2fb") = Ok u /\ cls u = KURN /\ nid u = Some (lit "Isbn") /\ nss u = Some (lit "a%2fb") /\
  canon2 (lit "URN:Isbn:a%2fb") = Ok (lit "urn:isbn:a%2Fb", lit "urn:isbn:a%2Fb").
Proof. eexists. split; [vm_compute; reflexivity|]. psplit; vm_compute; reflexivity. Qed.
Example c20_reject_case : from_octets (lit "urn:urn:x") = Err URIException /\ from_octets (lit "urn:-a:x") = Err URIException.
Proof. split; vm_compute; reflexivity. Qed.
(** Findings: without an opaque part TypeError is raised instead of URIException; an empty NSS is
    accepted; the fragment is ignored by equality *)
Theorem c20_refuted : from_octets (lit "urn:") = Err TypeError /\ from_octets (lit "urn:/isbn:1") = Err TypeError /\
  (exists u, from_octets (lit "urn:isbn:") = Ok u /\ nss u = Some []) /\
  eq_text (lit "urn:isbn:1#a") (lit "urn:isbn:1#b") = Ok true.
Proof. split; [reflexivity|]. split; [reflexivity|]. split; [eexists; split; [vm_compute; reflexivity|reflexivity]|vm_compute; reflexivity]. Qed.
Print Assumptions c20_refuted.
