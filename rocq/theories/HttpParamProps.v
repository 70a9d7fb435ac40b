(** C39: HTTP parameter values round-trip through their text form. *)
From Verif Require Import Py Num UriModel HttpModel HttpSpec HttpProofs HttpLex HttpProps HttpParamModel HttpParamSpec HttpParamProofs HttpParamMain.
From Coq Require Import Sorted Permutation.
From Verif Require Import IsoModel IsoSpec IsoTimeModel IsoTimeSpec IsoTime IsoProps HttpDate HttpParamParsed.

(** HTTPVersion.from_str(to_bytes(v)) == v *)
Theorem c39_version : forall major minor, 0 <= major -> 0 <= minor ->
  version_from_str (version_to_bytes (major, minor)) = Ok (major, minor).
Proof. intros. apply version_ok; assumption. Qed.
Print Assumptions c39_version.
Example c39_version_case : version_from_str (lit "http / 01.10") = Ok (1, 10) /\ version_to_bytes (1, 10) = lit "HTTP/1.10".
Proof. split; vm_compute; reflexivity. Qed.

(** A media type of ASCII tokens, with parameters whose names are ASCII tokens and whose values are
    any byte strings but the empty one, is formatted, and parsed to one that is equal (it has the
    same sort key) and gives the same value for every key *)
Theorem c39_media : forall m, ascii_token (mt_type m) -> ascii_token (mt_subtype m) -> good_params (mt_params m) ->
  exists b m', mt_to_bytes m = Ok b /\ mt_from_str b = Ok m' /\ mt_sortkey m' = mt_sortkey m
    /\ (forall k, mt_getitem m' k = mt_getitem m k).
Proof.
  intros m T U G. destruct (mt_ok m T U G) as (b & E1 & E2). destruct G as [N G].
  exists b. eexists. split; [exact E1|]. split; [exact E2|]. split.
  - unfold mt_sortkey. cbn [mt_type mt_subtype mt_params]. rewrite hp_sort by exact N.
    destruct T as [_ T]. destruct U as [_ U]. rewrite !u_b_lower by assumption. reflexivity.
  - intros k. unfold mt_getitem. cbn [mt_params]. rewrite (sort_same _ N k). reflexivity.
Qed.
Print Assumptions c39_media.

(** TransferEncoding: the token and the parameters are those of the constructor's arguments; a list
    is the items joined by a comma *)
Theorem c39_transfer_encoding : forall token p, ascii_token token -> good_params p ->
  exists b t', te_to_bytes (new_te token p) = Ok b /\ te_from_str b = Ok t' /\ te_sortkey t' = te_sortkey (new_te token p)
    /\ same_map (te_params t') (te_params (new_te token p)).
Proof.
  intros tk p T G. pose proof (new_te_good tk p T G) as W. destruct (te_ok _ W) as (b & E1 & E2). destruct W as (_ & _ & [N _] & _).
  exists b, (sorted_te (new_te tk p)). split; [exact E1|]. split; [exact E2|]. split.
  - unfold te_sortkey, sorted_te. cbn [te_token te_params]. rewrite hp_sort by exact N. reflexivity.
  - apply sort_same. exact N.
Qed.
Print Assumptions c39_transfer_encoding.
Definition te_made (t : tencoding) : Prop := exists token p, t = new_te token p /\ ascii_token token /\ good_params p.
(** the items joined by a comma and a space *)
Fixpoint comma_join (l : list str) : str :=
  match l with [] => [] | b :: r => match r with [] => b | _ => b ++ lit ", " ++ comma_join r end end.
Lemma comma_join_eq : forall l, comma_join l = te_join l.
Proof. induction l as [|b [|c r] IH]; [reflexivity|reflexivity|]. rewrite te_join_cons, <- IH. reflexivity. Qed.
Theorem c39_transfer_encoding_list : forall l, Forall te_made l ->
  exists bs l', Forall2 (fun t b => te_to_bytes t = Ok b) l bs /\ te_list_from_str (comma_join bs) = Ok l'
    /\ map te_sortkey l' = map te_sortkey l.
Proof.
  intros l F. assert (G : Forall good_te l).
  { eapply Forall_impl; [|exact F]. intros t (tk & p & -> & T & G). apply new_te_good; assumption. }
  destruct (te_list_ok l G) as (bs & F2 & E). exists bs, (map sorted_te l). split; [exact F2|]. split; [rewrite comma_join_eq; exact E|].
  rewrite map_map. apply map_ext_in. intros t Ht. rewrite Forall_forall in G. destruct (G t Ht) as (_ & _ & [N _] & _).
  unfold te_sortkey, sorted_te. cbn [te_token te_params]. rewrite hp_sort by exact N. reflexivity.
Qed.
Print Assumptions c39_transfer_encoding_list.

(** Chunk *)
Theorem c39_chunk : forall c, 0 <= c_size c -> good_params (c_ext c) ->
  exists b c', chunk_to_bytes c = Ok b /\ chunk_from_str b = Ok c' /\ chunk_sortkey c' = chunk_sortkey c
    /\ same_map (c_ext c') (c_ext c).
Proof.
  intros c H G. destruct (chunk_ok c H G) as (b & E1 & E2). destruct G as [N G].
  exists b. eexists. split; [exact E1|]. split; [exact E2|]. split; [|apply sort_same; exact N].
  unfold chunk_sortkey. cbn [c_size c_ext]. rewrite hp_sort by exact N. reflexivity.
Qed.
Print Assumptions c39_chunk.

(** ProductToken, and a list of them joined by SP *)
Definition product_ok (p : product) : Prop :=
  ascii_token (pt_token p) /\ (forall v, pt_version p = Some v -> ascii_token v).
Lemma product_good : forall p, product_ok p -> good_pt p.
Proof. intros [t [v|]] [T H]; split; cbn in *; auto. Qed.
Theorem c39_product : forall p, product_ok p -> exists b, pt_to_bytes p = Ok b /\ pt_from_str b = Ok p.
Proof. intros p H. apply pt_ok, product_good, H. Qed.
Print Assumptions c39_product.
Theorem c39_product_list : forall l, Forall product_ok l ->
  exists bs, Forall2 (fun p b => pt_to_bytes p = Ok b) l bs /\ pt_list_from_str (join_on 32 bs) = Ok l.
Proof. intros l H. apply pt_list_ok. eapply Forall_impl; [|exact H]. exact product_good. Qed.
Print Assumptions c39_product_list.

(** LanguageTag: every part is made of ASCII token characters without a hyphen *)
Definition tag_part (s : str) : Prop := Forall (fun c => tok c /\ 0 <= c < 128 /\ c <> 45) s.
Theorem c39_language : forall t, tag_part (lt_primary t) -> Forall tag_part (lt_subtags t) -> lt_primary t <> [] ->
  exists b, lt_to_bytes t = Ok b /\ lt_from_str b = Ok t.
Proof. intros t H1 H2 H3. apply lt_ok; [constructor; assumption|left; exact H3]. Qed.
Print Assumptions c39_language.

(** EntityTag: any byte string, weak or strong *)
Theorem c39_etag : forall e, bytes (et_tag e) -> et_from_str (et_to_bytes e) = Ok e.
Proof. exact et_ok. Qed.
Print Assumptions c39_etag.

(** FullDate: a zoned time point complete to seconds is formatted as an RFC 1123 date, which is parsed to
    an equal time point, at the same second and in UTC *)
Theorem c39_date : forall n t, comparable n t -> t_second t <> None ->
  exists b k u, fd_to_bytes (tp_at n t) = Ok b /\ fd_from_http_str b = Ok (tp_at k u) /\
    tp_eq (tp_at n t) (tp_at k u) = Ok (Some true) /\ utc_minutes k u = utc_minutes n t /\ t_second u = t_second t /\ t_zdirection u = Some 0.
Proof.
  intros n t C Hs. pose proof C as (T & Zn & Hm & Hh & L & R).
  destruct (fd_format n t T Zn Hm Hs L R) as (k & h & mi & E & Lk & Ck & Eq).
  exists (rfc1123 k h mi (the (t_second t))), k, (utc h mi (the (t_second t))). split; [exact E|]. split; [apply rfc1123_parse; assumption|].
  assert (U : utc_minutes k (utc h mi (the (t_second t))) = utc_minutes n t).
  { unfold utc_minutes at 1, east. cbn [utc t_hour t_minute t_zdirection t_zoffset the]. lia. }
  assert (S : t_second (utc h mi (the (t_second t))) = t_second t) by (destruct (t_second t); [reflexivity|congruence]).
  split; [|split; [exact U|split; [exact S|reflexivity]]].
  destruct (utc_wf _ _ _ Ck) as [W En]. destruct Ck as (C1 & C2 & C3).
  assert (Cu : comparable k (utc h mi (the (t_second t)))).
  { split.
    { exists h, (Some mi), (Some (the (t_second t))), (Some 0), None, None. split; [exact En|]. split; [discriminate|]. split; exact I. }
    split; [discriminate|]. split; [discriminate|]. split; [left; cbn; lia|]. split; [exact Lk|]. unfold utc_in_range in *. rewrite U. exact R. }
  assert (P : same_precision t (utc h mi (the (t_second t)))).
  { split; cbn [utc t_minute t_second is_some]; [destruct (t_minute t)|destruct (t_second t)]; cbn [is_some]; try reflexivity; exfalso; congruence. }
  destruct (c27_compare n t k _ C Cu P) as [Q _]. rewrite Q. unfold inst_eq. rewrite U, S, !Z.eqb_refl. reflexivity.
Qed.
Print Assumptions c39_date.

(** The three formats are parsed to the instant they write; the two-digit year of RFC 850 is taken to be
    from 1990 to 2089 *)
Theorem c39_date_formats : forall n h mi s, Z.of_nat n < max_day -> clock_ok h mi s ->
  fd_from_http_str (rfc1123 n h mi s) = Ok (tp_at n (utc h mi s)) /\
  fd_from_http_str (asctime n h mi s) = Ok (tp_at n (utc h mi s)) /\
  (1990 <= year_of n <= 2089 -> fd_from_http_str (rfc850 n h mi s) = Ok (tp_at n (utc h mi s))).
Proof.
  intros n h mi s L C. split; [apply rfc1123_parse; assumption|]. split; [apply asctime_parse; assumption|].
  apply rfc850_parse; assumption.
Qed.
Print Assumptions c39_date_formats.
Lemma rfc2616_day : nth_day (Z.to_nat 728237) = (1994, 11, 6).
Proof. vm_compute. reflexivity. Qed.
Example c39_date_case :
  rfc1123 (Z.to_nat 728237) 8 49 37 = lit "Sun, 06 Nov 1994 08:49:37 GMT" /\
  rfc850 (Z.to_nat 728237) 8 49 37 = lit "Sunday, 06-Nov-94 08:49:37 GMT" /\
  asctime (Z.to_nat 728237) 8 49 37 = lit "Sun Nov  6 08:49:37 1994" /\
  Z.of_nat (Z.to_nat 728237) < max_day /\ clock_ok 8 49 37 /\ year_of (Z.to_nat 728237) = 1994.
Proof.
  split; [vm_compute; reflexivity|]. split; [vm_compute; reflexivity|]. split; [vm_compute; reflexivity|].
  split; [vm_compute; reflexivity|]. split; [unfold clock_ok; lia|vm_compute; reflexivity].
Qed.
(** the day of the week must be that of the date *)
Theorem c39_date_weekday : fd_from_http_str (lit "Mon, 06 Nov 1994 08:49:37 GMT") = Err BadSyntax.
Proof. vm_compute. reflexivity. Qed.

Lemma lit_ascii_token : forall s, s <> [] -> existsb special s = false -> forallb (fun c => (0 <=? c) && (c <? 128)) s = true -> ascii_token s.
Proof.
  intros s H1 H2 H3. split; [apply lit_token; assumption|]. apply Forall_forall. intros c Hc. rewrite forallb_forall in H3. apply H3 in Hc. b2p. lia.
Qed.
Definition sample : params := [(lit "charset", (lit "CharSet", lit "utf-8")); (lit "a", (lit "A", lit "x ""y"""))].
Lemma sample_good : good_params sample.
Proof.
  split.
  - cbn. constructor; [intros [H|H]; [discriminate H|contradiction]|]. constructor; [intros []|constructor].
  - constructor; [|constructor; [|constructor]]; (split; [apply lit_ascii_token; [discriminate|reflexivity|reflexivity]|]; split; [reflexivity|];
      split; [|discriminate]; apply Forall_forall; intros c Hc; vm_compute in Hc; repeat destruct Hc as [Hc|Hc]; subst; try lia; contradiction).
Qed.
Example c39_media_case : let m := mkmt (lit "Text") (lit "HTML") sample in
  ascii_token (mt_type m) /\ ascii_token (mt_subtype m) /\ good_params (mt_params m) /\
  mt_to_bytes m = Ok (lit "Text/HTML; A=""x \""y\""""; CharSet=utf-8") /\
  (let! m' := mt_from_str (lit "Text/HTML; A=""x \""y\""""; CharSet=utf-8") in mt_getitem m' (lit "a")) = Ok (lit "x ""y""").
Proof.
  cbv zeta. split; [apply lit_ascii_token; [discriminate|reflexivity|reflexivity]|]. split; [apply lit_ascii_token; [discriminate|reflexivity|reflexivity]|].
  split; [exact sample_good|]. split; vm_compute; reflexivity.
Qed.
Example c39_te_case : te_made (new_te (lit "GZip") sample) /\ te_made (new_te (lit "chunked") sample) /\
  te_to_bytes (new_te (lit "GZip") sample) = Ok (lit "gzip; A=""x \""y\""""; CharSet=utf-8") /\ te_to_bytes (new_te (lit "Chunked") sample) = Ok (lit "chunked").
Proof.
  split. { exists (lit "GZip"), sample. split; [reflexivity|]. split; [apply lit_ascii_token; [discriminate|reflexivity|reflexivity]|exact sample_good]. }
  split. { exists (lit "chunked"), sample. split; [reflexivity|]. split; [apply lit_ascii_token; [discriminate|reflexivity|reflexivity]|exact sample_good]. }
  split; vm_compute; reflexivity.
Qed.
Example c39_chunk_case : good_params (c_ext (mkchunk 65281 sample)) /\ chunk_to_bytes (mkchunk 65281 sample) = Ok (lit "FF01; A=""x \""y\""""; CharSet=utf-8").
Proof. split; [exact sample_good|vm_compute; reflexivity]. Qed.
Example c39_product_case : product_ok (mkpt (lit "CERN-LineMode") (Some (lit "2.15"))) /\ pt_to_bytes (mkpt (lit "CERN-LineMode") (Some (lit "2.15"))) = Ok (lit "CERN-LineMode/2.15").
Proof.
  split; [|reflexivity]. split; [apply lit_ascii_token; [discriminate|reflexivity|reflexivity]|]. intros v H. inversion H.
  apply lit_ascii_token; [discriminate|reflexivity|reflexivity].
Qed.
Example c39_language_case : let t := mklt (lit "en") [lit "US"; lit "x"] in tag_part (lt_primary t) /\ Forall tag_part (lt_subtags t) /\ lt_to_bytes t = Ok (lit "en-US-x").
Proof.
  assert (P : forall s, existsb special s = false -> forallb (fun c => (0 <=? c) && (c <? 128) && negb (c =? 45)) s = true -> tag_part s).
  { intros s H1 H2. apply special_tok in H1. apply Forall_forall. intros c Hc. rewrite forallb_forall in H2. apply H2 in Hc as H3. rewrite Forall_forall in H1. b2p. split; [apply H1; exact Hc|split; lia]. }
  cbv zeta. split; [apply P; reflexivity|]. split; [constructor; [apply P; reflexivity|constructor; [apply P; reflexivity|constructor]]|reflexivity].
Qed.
Example c39_etag_case : bytes [34; 92; 200] /\ et_to_bytes (mket [34; 92; 200] true) = lit "W/" ++ [34; 92; 34; 92; 92; 200; 34].
Proof. split; [constructor; [lia|constructor; [lia|constructor; [lia|constructor]]]|reflexivity]. Qed.

(** ** Values made by parsing *)
(** Whatever the source, the value parsed can be formatted and is parsed back to an equal one, if no
    parameter has the empty value or a name with a byte from 128 on (see c39_refuted) *)
Definition no_empty (d : params) : Prop :=
  forall k n v, In (k, (n, v)) d -> v <> [] /\ Forall (fun c => c < 128) n.
Lemma parsed_good : forall d, parsed_params d -> no_empty d -> good_params d.
Proof.
  intros d [N F] H. split; [exact N|]. apply Forall_forall. intros [k [n v]] Hi. rewrite Forall_forall in F. destruct (F _ Hi) as (T & B & K & V).
  destruct (H _ _ _ Hi) as [H1 H2]. split; [|split; [exact K|split; [exact V|exact H1]]]. split; [exact T|].
  apply Forall_forall. intros c Hc. unfold bytes in B. rewrite Forall_forall in H2, B. specialize (H2 c Hc). specialize (B c Hc). lia.
Qed.
Theorem c39_media_reparse : forall s m, bytes s -> mt_from_str s = Ok m -> no_empty (mt_params m) ->
  exists b m', mt_to_bytes m = Ok b /\ mt_from_str b = Ok m' /\ mt_sortkey m' = mt_sortkey m /\ (forall k, mt_getitem m' k = mt_getitem m k).
Proof. intros s m B E H. destruct (mt_parsed s m B E) as (T & U & P). apply c39_media; [exact T|exact U|apply parsed_good; assumption]. Qed.
Theorem c39_chunk_reparse : forall s c, bytes s -> chunk_from_str s = Ok c -> no_empty (c_ext c) ->
  exists b c', chunk_to_bytes c = Ok b /\ chunk_from_str b = Ok c' /\ chunk_sortkey c' = chunk_sortkey c /\ same_map (c_ext c') (c_ext c).
Proof. intros s c B E H. destruct (chunk_parsed s c B E) as (T & P). apply c39_chunk; [exact T|apply parsed_good; assumption]. Qed.
Theorem c39_product_reparse : forall s p, bytes s -> pt_from_str s = Ok p -> exists b, pt_to_bytes p = Ok b /\ pt_from_str b = Ok p.
Proof. intros s p B E. apply pt_ok. eapply pt_parsed; eassumption. Qed.
Theorem c39_product_list_reparse : forall s l, bytes s -> pt_list_from_str s = Ok l ->
  exists bs, Forall2 (fun p b => pt_to_bytes p = Ok b) l bs /\ pt_list_from_str (join_on 32 bs) = Ok l.
Proof. intros s l B E. apply pt_list_ok. eapply pt_list_parsed; eassumption. Qed.
Theorem c39_language_reparse : forall s t, bytes s -> lt_from_str s = Ok t -> exists b, lt_to_bytes t = Ok b /\ lt_from_str b = Ok t.
Proof. intros s t B E. destruct (lt_parsed s t B E). apply lt_ok; assumption. Qed.
Theorem c39_etag_reparse : forall s e, bytes s -> et_from_str s = Ok e -> et_from_str (et_to_bytes e) = Ok e.
Proof. intros s e B E. apply et_ok. eapply et_parsed; eassumption. Qed.
Print Assumptions c39_media_reparse.
Print Assumptions c39_chunk_reparse.
Print Assumptions c39_product_reparse.
Print Assumptions c39_product_list_reparse.
Print Assumptions c39_language_reparse.
Print Assumptions c39_etag_reparse.
Example c39_reparse_case : exists m, mt_from_str (lit "text/plain ; Charset=""a b""; q=1") = Ok m /\ no_empty (mt_params m) /\ mt_params m <> [].
Proof.
  eexists. split; [vm_compute; reflexivity|]. split; [|discriminate]. intros k n v [H|[H|[]]]; inversion H; subst; (split; [discriminate|]);
    apply Forall_forall; intros c Hc; vm_compute in Hc; repeat destruct Hc as [Hc|Hc]; subst; try lia; contradiction.
Qed.

(** ** Equality *)
(** the value of a key *)
Definition value_at (k : str) (d : params) : option str := option_map snd (dict_get k d).
Lemma sorted_eq : forall (a b : list (str * str)), StronglySorted (fun p q => str_ltb (fst p) (fst q) = true) a ->
  StronglySorted (fun p q => str_ltb (fst p) (fst q) = true) b -> (forall x, In x a <-> In x b) -> a = b.
Proof.
  induction a as [|x a IH]; intros b Sa Sb H.
  - destruct b as [|y b]; [reflexivity|]. exfalso. apply (H y). left. reflexivity.
  - destruct b as [|y b]; [exfalso; apply (H x); left; reflexivity|]. inversion Sa as [|? ? Sa' Fa]; subst. inversion Sb as [|? ? Sb' Fb]; subst.
    rewrite Forall_forall in Fa, Fb. assert (E : x = y).
    { destruct (proj1 (H x) (or_introl eq_refl)) as [<-|X]; [reflexivity|]. destruct (proj2 (H y) (or_introl eq_refl)) as [<-|Y]; [reflexivity|].
      apply Fb in X. apply Fa in Y. pose proof (ltb_trans _ _ _ X Y) as L. rewrite ltb_irr in L. discriminate. }
    subst y. f_equal. apply IH; [assumption|assumption|]. intros z. split; intros Z.
    + destruct (proj1 (H z) (or_intror Z)) as [<-|X]; [|exact X]. apply Fa in Z. rewrite ltb_irr in Z. discriminate.
    + destruct (proj2 (H z) (or_intror Z)) as [<-|X]; [|exact X]. apply Fb in Z. rewrite ltb_irr in Z. discriminate.
Qed.
Lemma hp_in : forall d k v, NoDup (map fst d) -> (In (k, v) (hp d) <-> value_at k d = Some v).
Proof.
  intros d k v N. unfold hp, value_at. rewrite in_map_iff. split.
  - intros ([k' [n v']] & E & Hi). cbn in E. inversion E; subst. assert (X : In (k, (n, v)) d) by (eapply Permutation_in; [apply Permutation_sym, sort_perm|exact Hi]).
    apply dict_get_in in X; [|exact N]. rewrite X. reflexivity.
  - destruct (dict_get k d) as [[n v']|] eqn:E; [|discriminate]. cbn. intros X. inversion X; subst. exists (k, (n, v)). split; [reflexivity|].
    apply dict_get_in in E; [|exact N]. eapply Permutation_in; [apply sort_perm|exact E].
Qed.
Lemma hp_sorted : forall d, NoDup (map fst d) -> StronglySorted (fun p q => str_ltb (fst p) (fst q) = true) (hp d).
Proof.
  intros d N. unfold hp. pose proof (sort_sorted d N) as S. induction S as [|x d' S IH F]; [constructor|]. cbn. constructor; [exact IH|].
  apply Forall_map. eapply Forall_impl; [|exact F]. intros y Hy. exact Hy.
Qed.
Lemma hp_eq : forall d e, NoDup (map fst d) -> NoDup (map fst e) -> (hp d = hp e <-> forall k, value_at k d = value_at k e).
Proof.
  intros d e N M. split; intros H.
  - intros k. destruct (value_at k d) as [v|] eqn:E.
    + symmetry. apply (hp_in e k v M). rewrite <- H. apply hp_in; assumption.
    + destruct (value_at k e) as [v|] eqn:E2; [|reflexivity]. apply (hp_in e k v M) in E2. rewrite <- H in E2. apply hp_in in E2; [congruence|exact N].
  - apply sorted_eq; [apply hp_sorted, N|apply hp_sorted, M|]. intros [k v]. rewrite (hp_in d k v N), (hp_in e k v M), H. reflexivity.
Qed.
(** Two media types are equal exactly when the type and subtype are equal but for case and every key has the
    same value, with case (or is missing in both); names keep their case but do not count, and nor does the order *)
Theorem c39_media_equal : forall m m', NoDup (map fst (mt_params m)) -> NoDup (map fst (mt_params m')) ->
  (mt_sortkey m = mt_sortkey m' <-> u_lower (mt_type m) = u_lower (mt_type m') /\ u_lower (mt_subtype m) = u_lower (mt_subtype m')
     /\ forall k, mt_getitem m k = mt_getitem m' k).
Proof.
  intros m m' N N'. unfold mt_sortkey.
  assert (X : (forall k, mt_getitem m k = mt_getitem m' k) <-> (forall k, value_at k (mt_params m) = value_at k (mt_params m'))).
  { split; intros H k; specialize (H k); unfold mt_getitem, value_at in *; destruct (dict_get k (mt_params m)) as [[a b]|], (dict_get k (mt_params m')) as [[c d]|]; cbn in *; congruence. }
  rewrite X, <- (hp_eq _ _ N N'). split; [intros E; inversion E; auto|]. intros (E1 & E2 & E3). congruence.
Qed.
Print Assumptions c39_media_equal.
Theorem c39_transfer_encoding_equal : forall t u, NoDup (map fst (te_params t)) -> NoDup (map fst (te_params u)) ->
  (te_sortkey t = te_sortkey u <-> te_token t = te_token u /\ forall k, value_at k (te_params t) = value_at k (te_params u)).
Proof. intros t u N M. unfold te_sortkey. rewrite <- (hp_eq _ _ N M). split; [intros E; inversion E; auto|]. intros [E1 E2]. congruence. Qed.
Theorem c39_chunk_equal : forall c e, NoDup (map fst (c_ext c)) -> NoDup (map fst (c_ext e)) ->
  (chunk_sortkey c = chunk_sortkey e <-> c_size c = c_size e /\ forall k, value_at k (c_ext c) = value_at k (c_ext e)).
Proof. intros t u N M. unfold chunk_sortkey. rewrite <- (hp_eq _ _ N M). split; [intros E; inversion E; auto|]. intros [E1 E2]. congruence. Qed.
Print Assumptions c39_transfer_encoding_equal.
Print Assumptions c39_chunk_equal.
(** the dictionaries of parsed values have no key twice: c39_parsed_keys *)
Theorem c39_parsed_keys : forall s, bytes s ->
  (forall m, mt_from_str s = Ok m -> NoDup (map fst (mt_params m))) /\ (forall c, chunk_from_str s = Ok c -> NoDup (map fst (c_ext c))) /\
  (forall t, te_from_str s = Ok t -> NoDup (map fst (te_params t))).
Proof.
  intros s B. split; [intros m E; apply (mt_parsed s m B E)|]. split; [intros c E; apply (chunk_parsed s c B E)|].
  intros t E. destruct (te_parsed s t B E) as (tk & p & -> & _ & _ & [N _]). unfold new_te. destr; [constructor|exact N].
Qed.
Print Assumptions c39_parsed_keys.
Example c39_equal_case : (let! m := mt_from_str (lit "text/PLAIN;b=1; A=x") in let! n := mt_from_str (lit "Text/plain; a=""x"" ;B=1") in Ok (mt_sortkey m, mt_sortkey n)) =
  (let k := (lit "text", lit "plain", [(lit "a", lit "x"); (lit "b", lit "1")]) in Ok (k, k)).
Proof. vm_compute. reflexivity. Qed.

(** ** Repeated parameters *)
Definition set_all (d e : params) : params := fold_left (fun e p => dict_set (fst p) (snd p) e) d e.
Lemma loop_fold : forall sp allsp d d0 f, Forall good_param d -> (length d < f)%nat ->
  parameters_loop f allsp false None d0 (pwords sp d) = (set_all d d0, []).
Proof.
  intros sp allsp d. induction d as [|[k [n v]] d IH]; intros d0 f G Hf.
  - destruct f as [|f]; [lia|]. reflexivity.
  - inversion G; subst. destruct f as [|f]; [lia|]. cbn [pwords parameters_loop].
    rewrite (one_parameter_ok sp allsp false None k n v); [|assumption|exact I]. cbv iota beta. rewrite IH by (auto; cbn in Hf; lia). reflexivity.
Qed.
Lemma get_set : forall d k k' v, dict_get k (dict_set k' v d) = if str_eqb k k' then Some v else dict_get k d.
Proof.
  induction d as [|[k2 v2] d IH]; intros k k' v; cbn.
  - destruct (str_eqb k k'); reflexivity.
  - destruct (str_eqb k' k2) eqn:E; cbn; [apply str_eqb_eq in E; subst k2; destruct (str_eqb k k'); reflexivity|]. rewrite IH.
    destruct (str_eqb k k2) eqn:E2; [|reflexivity]. apply str_eqb_eq in E2. subst k2. destruct (str_eqb k k') eqn:E3; [|reflexivity].
    apply str_eqb_eq in E3. subst k'. rewrite (proj2 (str_eqb_eq k k) eq_refl) in E. discriminate.
Qed.
(** the value of the last parameter of a list (of name and value) whose name is the key but for case *)
Fixpoint last_value (k : str) (l : list (str * str)) : option str :=
  match l with
  | [] => None
  | (n, v) :: r => match last_value k r with Some x => Some x | None => if str_eqb k (u_lower n) then Some v else None end
  end.
Definition text_of (l : list (str * str)) : str :=
  flat_map (fun p => lit "; " ++ fst p ++ lit "=" ++ quote_string (snd p) false) l.
Definition entry (p : str * str) : str * (str * str) := (u_lower (fst p), p).
Lemma set_all_last : forall l e k, option_map snd (dict_get k (set_all (map entry l) e)) =
  match last_value k l with Some v => Some v | None => option_map snd (dict_get k e) end.
Proof.
  induction l as [|[n v] l IH]; intros e k; [reflexivity|]. cbn [map entry fst snd set_all fold_left last_value].
  change (fold_left _ ?a ?b) with (set_all a b). rewrite IH. destruct (last_value k l); [reflexivity|]. rewrite get_set. destruct (str_eqb k (u_lower n)); reflexivity.
Qed.
(** of the parameters with the same name the last counts *)
Theorem c39_repeated : forall t u l, ascii_token t -> ascii_token u ->
  Forall (fun p => ascii_token (fst p) /\ bytes (snd p) /\ snd p <> []) l ->
  exists m, mt_from_str (t ++ lit "/" ++ u ++ text_of l) = Ok m /\ forall k, mt_getitem m k = match last_value k l with Some v => Ok v | None => Err KeyError end.
Proof.
  intros t u l [T1 A1] [T2 A2] F. assert (G : Forall good_param (map entry l)).
  { apply Forall_map. eapply Forall_impl; [|exact F]. intros [n v] (H1 & H2 & H3). unfold entry, good_param. cbn [fst snd] in *. auto. }
  destruct (lex_params ending true (map entry l) [] [] G I (lex_end true)) as (b & E & Hs & L). rewrite !app_nil_r in *.
  assert (Eb : b = text_of l).
  { clear - E F. revert b E. induction F as [|[n v] l [[Hn Ha] _] F IH]; intros b E; [inversion E; reflexivity|]. cbn [map entry fst snd format_sorted] in E.
    cbn [fst] in Ha. rewrite (ascii_ok n Ha) in E. cbn [rbind] in E. destruct (format_sorted (map entry l)) as [b'|]; [|discriminate]. cbn [rbind] in E. inversion E.
    rewrite (IH b' eq_refl). unfold text_of. cbn [flat_map fst snd]. rewrite <- !app_assoc. reflexivity. }
  subst b. exists (mkmt (b_lower t) (b_lower u) (set_all (map entry l) [])). split.
  - unfold mt_from_str. change (t ++ lit "/" ++ u ++ text_of l) with (t ++ 47 :: u ++ text_of l).
    rewrite (words_ok (t ++ 47 :: u ++ text_of l) false (WStr t :: WByte 47 :: WStr u :: pwords true (map entry l))).
    2:{ apply lex_tok; [exact T1|exact (stop_sep 47 nil eq_refl)|]. apply lex_sep; [reflexivity|reflexivity|]. apply lex_tok; assumption. }
    cbn [rbind]. unfold require_media_type. rewrite parse_sp_str, (require_token_ok t _ T1). cbn [rbind].
    rewrite (ascii_ok (b_lower t)) by (apply b_lower_A; exact A1). cbn [rbind].
    change (require_separator 47 (WByte 47 :: ?x)) with (Ok x). cbn [rbind].
    rewrite (require_token_ok u _ T2). cbn [rbind]. rewrite (ascii_ok (b_lower u)) by (apply b_lower_A; exact A2). cbn [rbind].
    assert (P : parse_sp (pwords true (map entry l)) = pwords true (map entry l)) by (destruct l as [|[n v] l']; reflexivity).
    rewrite P. unfold parse_parameters. rewrite P. destruct l as [|p l]; [reflexivity|].
    rewrite loop_fold; [reflexivity|exact G|]. cbn [map pwords]. destruct p as [n v]. cbn [entry fst snd]. rewrite app_length. cbn [length app spw].
    pose proof (pwords_length true (map entry l)). lia.
  - intros k. unfold mt_getitem. cbn [mt_params]. pose proof (set_all_last l [] k) as H. cbn [dict_get option_map] in H.
    destruct (dict_get k (set_all (map entry l) [])) as [[x y]|], (last_value k l); cbn in H; congruence.
Qed.
Print Assumptions c39_repeated.
Example c39_repeated_case : text_of [(lit "A", lit "1"); (lit "a", lit "2 3")] = lit "; A=1; a=""2 3""" /\ (let! m := mt_from_str (lit "x/y; A=1; a=""2 3""") in mt_getitem m (lit "a")) = Ok (lit "2 3").
Proof. split; vm_compute; reflexivity. Qed.

(** ** Errors: text that is not of the syntax raises ParserError or BadSyntax, or, from the classes
    that decode, UnicodeError *)
Theorem c39_errors : forall s e,
  (version_from_str s = Err e -> syntax e) /\ (te_from_str s = Err e -> syntax e) /\ (te_list_from_str s = Err e -> syntax e) /\
  (et_from_str s = Err e -> syntax e) /\ (mt_from_str s = Err e -> syntax e \/ e = UnicodeError) /\
  (pt_from_str s = Err e -> syntax e \/ e = UnicodeError) /\ (lt_from_str s = Err e -> syntax e \/ e = UnicodeError).
Proof.
  intros s e. split; [apply version_err|]. split; [apply te_err|]. split; [apply te_list_err|]. split; [apply et_err|].
  split; [apply mt_err|]. split; [apply pt_err|apply lt_err].
Qed.
Print Assumptions c39_errors.

(** ** REFUTED *)
(** a parameter with the empty value is parsed, but its formatted form is not; a parameter name with a
    byte from 128 on is parsed but not formatted; an empty product version is formatted but not parsed *)
Theorem c39_refuted :
  (exists m, mt_from_str (lit "a/b;p=""""") = Ok m /\ mt_to_bytes m = Ok (lit "a/b; p=") /\ mt_from_str (lit "a/b; p=") = Err BadSyntax)
  /\ (exists m, mt_from_str (lit "a/b;" ++ [233] ++ lit "=x") = Ok m /\ mt_to_bytes m = Err UnicodeError)
  /\ (pt_to_bytes (mkpt (lit "x") (Some [])) = Ok (lit "x/") /\ pt_from_str (lit "x/") = Err BadSyntax).
Proof.
  split; [eexists; split; [vm_compute; reflexivity|split; vm_compute; reflexivity]|].
  split; [eexists; split; vm_compute; reflexivity|]. split; vm_compute; reflexivity.
Qed.
(** Chunk.from_str and FullDate.from_http_str raise TypeError where a separator is in the place of a number *)
Theorem c39_error_refuted : chunk_from_str (lit ";") = Err TypeError /\ fd_from_http_str (lit "Sun, 06 Nov ,") = Err TypeError.
Proof. split; vm_compute; reflexivity. Qed.
(** LanguageTag.list_from_str fails for any list of more than one *)
Theorem c39_language_list_refuted : lt_list_from_str (lit "en, fr") = Err BadSyntax /\ lt_list_from_str (lit "en") = Ok [mklt (lit "en") []].
Proof. split; vm_compute; reflexivity. Qed.
(** 24:00:00 is formatted as 00:00:00 of the next day, which is not an equal time point *)
Theorem c39_date_midnight_refuted : let p := tp_at 0 (mkt 24 (Some 0) (Some 0) (Some 0) (Some 0)) in
  fd_to_bytes p = Ok (rfc1123 1 0 0 0) /\ tp_eq p (tp_at 1 (utc 0 0 0)) = Ok (Some false).
Proof. split; vm_compute; reflexivity. Qed.
