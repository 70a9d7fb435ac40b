(** Proofs for C72-C78: header fields, lines. *)
From Verif Require Import Py Num UriModel UriRel HttpModel HttpSpec HttpProofs HttpLex HttpParamModel HttpParamSpec
  HttpProps HttpParamProofs HttpParamMain MsgModel MsgSpec MsgLex.

(** ** the dictionary *)
Lemma h_find_put : forall k v hs, h_find k (h_put k v hs) = Some v.
Proof.
  intros k v hs. induction hs as [|[k' w] hs IH]; cbn [h_put h_find].
  - rewrite str_eqb_refl. reflexivity.
  - destruct (str_eqb k k') eqn:E; cbn [h_find]; rewrite E; [reflexivity|exact IH].
Qed.
Lemma h_find_put_other : forall k k' v hs, k <> k' -> h_find k' (h_put k v hs) = h_find k' hs.
Proof.
  intros k k' v hs N. induction hs as [|[k2 w] hs IH]; cbn [h_put h_find].
  - apply not_eq_sym, str_eqb_neq in N. rewrite N. reflexivity.
  - destruct (str_eqb k k2) eqn:E; cbn [h_find]; [|destruct (str_eqb k' k2); [reflexivity|exact IH]].
    apply str_eqb_eq in E. subst k2. apply not_eq_sym, str_eqb_neq in N. rewrite N. reflexivity.
Qed.
Definition keys (hs : headers) : list str := map fst hs.
Lemma h_find_none : forall k hs, ~ In k (keys hs) <-> h_find k hs = None.
Proof.
  intros k hs. induction hs as [|[k' w] hs IH]; cbn [h_find keys map fst In]; [tauto|].
  destruct (str_eqb k k') eqn:E.
  - apply str_eqb_eq in E. subst. split; [intros H; exfalso; apply H; auto|discriminate].
  - rewrite <- IH. apply str_eqb_neq in E. unfold keys. split; [tauto|]. intros H [X|X]; [congruence|tauto].
Qed.
Lemma h_find_del : forall k hs, NoDup (keys hs) -> h_find k (h_del k hs) = None.
Proof.
  intros k hs N. induction hs as [|[k' w] hs IH]; [reflexivity|]. cbn [h_del]. cbn [keys map fst] in N. inversion N; subst.
  destruct (str_eqb k k') eqn:E.
  - apply str_eqb_eq in E. subst. apply h_find_none. assumption.
  - cbn [h_find]. rewrite E. apply IH. assumption.
Qed.
Lemma h_find_del_other : forall k k' hs, k <> k' -> h_find k' (h_del k hs) = h_find k' hs.
Proof.
  intros k k' hs N. induction hs as [|[k2 w] hs IH]; [reflexivity|]. cbn [h_del].
  destruct (str_eqb k k2) eqn:E; cbn [h_find].
  - apply str_eqb_eq in E. subst. apply not_eq_sym, str_eqb_neq in N. rewrite N. reflexivity.
  - destruct (str_eqb k' k2); [reflexivity|exact IH].
Qed.
Lemma keys_put : forall k v hs, keys (h_put k v hs) = if existsb (str_eqb k) (keys hs) then keys hs else keys hs ++ [k].
Proof.
  intros k v hs. induction hs as [|[k' w] hs IH]; [reflexivity|]. cbn [h_put keys map fst existsb].
  destruct (str_eqb k k') eqn:E; cbn [orb keys map fst]; [reflexivity|].
  unfold keys in IH. rewrite IH. destruct (existsb (str_eqb k) (map fst hs)); reflexivity.
Qed.
Lemma keys_in : forall k l, existsb (str_eqb k) l = true <-> In k l.
Proof.
  intros k l. rewrite existsb_exists. split.
  - intros (x & H & E). apply str_eqb_eq in E. subst. exact H.
  - intros H. exists k. split; [exact H|apply str_eqb_refl].
Qed.
Lemma NoDup_app_one : forall (l : list str) x, NoDup l -> ~ In x l -> NoDup (l ++ [x]).
Proof.
  induction 1 as [|y l N D IH]; intros H; cbn [app].
  - constructor; [tauto|constructor].
  - constructor; [|apply IH; intros X; apply H; right; exact X]. rewrite in_app_iff. intros [X|[X|[]]]; [contradiction|].
    apply H. left. symmetry. exact X.
Qed.
Lemma nodup_put : forall k v hs, NoDup (keys hs) -> NoDup (keys (h_put k v hs)).
Proof.
  intros k v hs N. rewrite keys_put. destruct (existsb (str_eqb k) (keys hs)) eqn:E; [exact N|].
  apply NoDup_app_one; [exact N|]. intros X. apply keys_in in X. congruence.
Qed.
Lemma del_incl : forall k hs x, In x (keys (h_del k hs)) -> In x (keys hs).
Proof.
  intros k hs x. induction hs as [|[k' w] hs IH]; [tauto|]. cbn [h_del]. destruct (str_eqb k k'); cbn [keys map fst In].
  - tauto.
  - intros [X|X]; [left; exact X|right; apply IH; exact X].
Qed.
Lemma nodup_del : forall k hs, NoDup (keys hs) -> NoDup (keys (h_del k hs)).
Proof.
  intros k hs N. induction hs as [|[k' w] hs IH]; [exact N|]. cbn [h_del]. cbn [keys map fst] in N. inversion N; subst.
  destruct (str_eqb k k'); [assumption|]. cbn [keys map fst]. constructor; [|apply IH; assumption].
  intros X. apply del_incl in X. contradiction.
Qed.
Lemma nodup_set : forall hs n v a, NoDup (keys hs) -> NoDup (keys (set_header hs n v a)).
Proof.
  intros hs n v a N. unfold set_header. destruct v as [v|]; [|apply nodup_del; exact N].
  destruct (h_find (b_lower n) hs) as [[? ?]|]; [destruct a|]; apply nodup_put; exact N.
Qed.

(** ** strip *)
Lemma white_space : forall c, white c <-> is_bspace c = true.
Proof.
  intros c. unfold white, is_bspace. rewrite zin_In. cbn [In]. lia.
Qed.
Lemma not_white : forall c, ~ white c <-> is_bspace c = false.
Proof. intros c. rewrite white_space. destruct (is_bspace c); split; try congruence; tauto. Qed.
Lemma blstrip_app : forall a s, Forall white a -> blstrip (a ++ s) = blstrip s.
Proof. intros a s F. induction F as [|c a H F IH]; [reflexivity|]. cbn [app blstrip]. apply white_space in H. rewrite H. exact IH. Qed.
Lemma bstrip_trimmed : forall s v, trimmed s v -> bstrip s = v.
Proof.
  intros s v (a & b & -> & Ha & Hb & H1 & H2). unfold bstrip. rewrite blstrip_app by exact Ha.
  destruct v as [|c v].
  - cbn [app]. rewrite <- (app_nil_r b), blstrip_app by exact Hb. reflexivity.
  - cbn [app]. rewrite blstrip_id by (apply not_white; apply (H1 c v eq_refl)).
    change (c :: v ++ b) with ((c :: v) ++ b). rewrite rev_app_distr, blstrip_app by (apply Forall_rev; exact Hb).
    destruct (rev (c :: v)) as [|e r] eqn:R; [destruct v; cbn in R; [discriminate|apply app_eq_nil in R as [_ R]; discriminate]|].
    assert (Rv : c :: v = rev r ++ [e]) by (apply (f_equal (@rev Z)) in R; rewrite rev_involutive in R; exact R).
    rewrite blstrip_id by (apply not_white; apply (H2 e (rev r) Rv)). rewrite Rv. reflexivity.
Qed.
Lemma blstrip_split : forall s, exists a, s = a ++ blstrip s /\ Forall white a /\ (forall c r, blstrip s = c :: r -> ~ white c).
Proof.
  induction s as [|c s (a & E & F & H)].
  - exists []. repeat split; [constructor|discriminate].
  - cbn [blstrip]. destruct (is_bspace c) eqn:B.
    + exists (c :: a). split; [cbn [app]; f_equal; exact E|]. split; [constructor; [apply white_space; exact B|exact F]|exact H].
    + exists []. split; [reflexivity|]. split; [constructor|]. intros c' r X. inversion X; subst. apply not_white. exact B.
Qed.
Lemma trimmed_bstrip : forall s, trimmed s (bstrip s).
Proof.
  intros s. unfold bstrip. destruct (blstrip_split s) as (a & E & F & H). set (t := blstrip s) in *.
  destruct (blstrip_split (rev t)) as (b & E2 & F2 & H2). set (u := blstrip (rev t)) in *.
  assert (T : t = rev u ++ rev b) by (rewrite <- rev_app_distr, <- E2, rev_involutive; reflexivity).
  exists a, (rev b). rewrite <- T. split; [exact E|]. split; [exact F|]. split; [apply Forall_rev; exact F2|]. split.
  - intros c r X. apply (H c (r ++ rev b)). rewrite T, X. reflexivity.
  - intros c r X. apply (H2 c (rev r)). apply (f_equal (@rev Z)) in X. rewrite rev_involutive, rev_app_distr in X. exact X.
Qed.

(** ** fields *)
Definition add_field (hs : headers) (f : field) : headers := set_header hs (f_name f) (Some (field_raw f)) true.
Definition add_fields (hs : headers) (fs : list field) : headers := fold_left add_field fs hs.
Definition flines (f : field) : list str := (f_name f ++ lit ":" ++ f_first f) :: f_more f.
Definition line (l : str) : str := l ++ CRLF.
Lemma field_text_lines : forall f, field_text f = concat (map line (flines f)).
Proof.
  intros f. unfold field_text, flines. cbn [map concat]. unfold line at 1. rewrite <- !app_assoc. reflexivity.
Qed.
Lemma fields_text_lines : forall fs, concat (map field_text fs) = concat (map line (flat_map flines fs)).
Proof.
  induction fs as [|f fs IH]; [reflexivity|]. cbn [map concat flat_map]. rewrite map_app, concat_app, <- IH, field_text_lines. reflexivity.
Qed.
Lemma token_char : forall t c, token t -> In c t -> c <> 13 /\ c <> 10 /\ c <> 58.
Proof.
  intros t c [_ F] H. rewrite Forall_forall in F. apply F in H as [H1 H2].
  split; [intros ->; apply H1; left; lia|]. split; [intros ->; apply H1; left; lia|]. intros ->. apply H2. left. cbn. tauto.
Qed.
Lemma no_crlf_cons : forall c s, no_crlf s -> (c <> 13 \/ hd 0 s <> 10) -> no_crlf (c :: s).
Proof.
  intros c s H N a b E. destruct a as [|x a].
  - cbn in E. inversion E; subst. destruct N as [N|N]; [congruence|]. apply N. reflexivity.
  - cbn in E. inversion E; subst. exact (H a b eq_refl).
Qed.
Lemma no_crlf_app : forall a s, ~ In 13 a -> no_crlf s -> no_crlf (a ++ s).
Proof.
  induction a as [|c a IH]; intros s H N; [exact N|]. cbn [app]. apply no_crlf_cons; [apply IH; [intros X; apply H; right; exact X|exact N]|].
  left. intros ->. apply H. left. reflexivity.
Qed.
Lemma flines_ok : forall f, field_ok f -> Forall (fun l => l <> [] /\ no_crlf l) (flines f).
Proof.
  intros f (T & N & F). constructor.
  - split; [destruct (f_name f) eqn:E; [destruct T; congruence|discriminate]|].
    rewrite app_assoc. apply no_crlf_app; [|exact N]. rewrite in_app_iff. intros [X|[X|[]]]; [|discriminate].
    apply (token_char _ _ T) in X as [X _]. congruence.
  - eapply Forall_impl; [|exact F]. intros p (Np & c & r & -> & _). split; [discriminate|exact Np].
Qed.
Lemma bsplit1_at : forall a b, ~ In 58 a -> bsplit1 58 (a ++ 58 :: b) = Some (a, b).
Proof.
  induction a as [|c a IH]; intros b H; [reflexivity|]. cbn [app bsplit1].
  destruct (c =? 58) eqn:E; [apply Z.eqb_eq in E; subst; exfalso; apply H; left; reflexivity|]. rewrite IH; [reflexivity|].
  intros X. apply H. right. exact X.
Qed.
Lemma drop_last_app : forall a, drop_last 2 (a ++ CRLF) = a.
Proof.
  intros a. unfold drop_last. rewrite app_length. change (length CRLF) with 2%nat. replace (length a + 2 - 2)%nat with (length a) by lia.
  rewrite firstn_app, Nat.sub_diag, firstn_all. cbn [firstn]. apply app_nil_r.
Qed.
Lemma drop_last_line : forall a, drop_last 2 (line a) = a. Proof. exact drop_last_app. Qed.
Lemma parse_lws_tok : forall c s, tok c -> parse_lws (c :: s) = None.
Proof. intros c s T. destruct (tok_head c T) as [H1 H2]. apply parse_lws_none, no_lws_head; assumption. Qed.
Lemma parse_lws_ws : forall c s, ws c -> exists x, parse_lws (c :: s) = Some x.
Proof.
  intros c s W. destruct (parse_lws (c :: s)) as [x|] eqn:E; [exists x; reflexivity|]. exfalso.
  unfold parse_lws in E. destruct W; subst c; cbn [span sp_ht] in E;
  change (sp_ht 32) with true in E; change (sp_ht 9) with true in E; cbv iota in E;
  destruct (span sp_ht s); discriminate.
Qed.
Lemma line_not_crlf : forall l, l <> [] -> str_eqb (line l) CRLF = false.
Proof.
  intros l H. apply str_eqb_neq. intros E. unfold line in E. apply (f_equal (@length Z)) in E. rewrite app_length in E.
  destruct l; [congruence|]. change (length CRLF) with 2%nat in E. cbn in E. lia.
Qed.
Lemma heads_heads : forall m a b c d, set_heads (set_heads m a b) c d = set_heads m c d. Proof. reflexivity. Qed.
Lemma heads_id : forall m hs c, r_headers m = hs -> r_curr m = c -> set_heads m hs c = m.
Proof. intros [] hs c <- <-. reflexivity. Qed.

Lemma recv_more : forall ps m n v, r_curr m = Some (n, v) ->
  Forall (fun p => no_crlf p /\ exists c r, p = c :: r /\ ws c) ps ->
  recv_lines m (map line ps) = Ok (set_heads m (r_headers m) (Some (n, v ++ concat (map line ps)))).
Proof.
  induction ps as [|p ps IH]; intros m n v H F; cbn [map recv_lines].
  - cbn [concat map]. rewrite app_nil_r. f_equal. symmetry. apply heads_id; [reflexivity|exact H].
  - inversion F as [|? ? (N & c & r & -> & W) F']; subst. unfold recv_header.
    rewrite line_not_crlf by discriminate. unfold line at 1. cbn [app]. destruct (parse_lws_ws c (r ++ CRLF) W) as (x & E). rewrite E, H.
    cbn [rbind]. rewrite (IH _ n (v ++ line (c :: r))) by (reflexivity || assumption).
    cbn [r_headers set_heads]. rewrite heads_heads. cbn [concat map]. rewrite app_assoc. reflexivity.
Qed.
Lemma raw_line : forall f, line (field_raw f) = line (f_first f) ++ concat (map line (f_more f)).
Proof.
  intros f. unfold field_raw, line. rewrite <- !app_assoc. f_equal.
  induction (f_more f) as [|p ps IH]; [reflexivity|]. cbn [map concat]. rewrite <- !app_assoc in *. rewrite IH. reflexivity.
Qed.
Lemma recv_field : forall f m, field_ok f ->
  recv_lines m (map line (flines f)) =
  Ok (set_heads m (end_header (r_headers m) (r_curr m)) (Some (f_name f, line (field_raw f)))).
Proof.
  intros f m (T & N & F). unfold flines. cbn [map recv_lines]. unfold recv_header.
  rewrite line_not_crlf by (destruct T as [T _]; destruct (f_name f); [congruence|discriminate]).
  destruct (f_name f) as [|c n] eqn:E; [destruct T; congruence|].
  assert (P : parse_lws (line ((c :: n) ++ lit ":" ++ f_first f)) = None).
  { unfold line. cbn [app]. apply parse_lws_tok. destruct T as [_ T]. inversion T; assumption. }
  rewrite P.
  assert (B : bsplit1 58 (line ((c :: n) ++ lit ":" ++ f_first f)) = Some (c :: n, line (f_first f))).
  { unfold line. rewrite <- !app_assoc. apply bsplit1_at. intros X. apply (token_char _ _ T) in X. tauto. }
  rewrite B. cbn [rbind]. rewrite (recv_more _ _ (c :: n) (line (f_first f))) by (reflexivity || assumption).
  rewrite heads_heads, raw_line. reflexivity.
Qed.
Lemma end_field : forall hs f, end_header hs (Some (f_name f, line (field_raw f))) = add_field hs f.
Proof. intros hs f. unfold end_header. rewrite drop_last_line. reflexivity. Qed.
Lemma recv_lines_app : forall a b m, recv_lines m (a ++ b) = let! m := recv_lines m a in recv_lines m b.
Proof.
  induction a as [|h a IH]; intros b m; [reflexivity|]. cbn [app recv_lines]. destruct (recv_header m h) as [m'|e]; cbn [rbind]; [apply IH|reflexivity].
Qed.
Lemma recv_fields_go : forall fs m, Forall field_ok fs ->
  exists hs c, recv_lines m (map line (flat_map flines fs)) = Ok (set_heads m hs c) /\
    end_header hs c = add_fields (end_header (r_headers m) (r_curr m)) fs.
Proof.
  induction fs as [|f fs IH]; intros m F.
  - exists (r_headers m), (r_curr m). split; [|reflexivity]. cbn [flat_map map recv_lines]. rewrite heads_id by reflexivity. reflexivity.
  - inversion F; subst. cbn [flat_map]. rewrite map_app, recv_lines_app, recv_field by assumption. cbn [rbind].
    match goal with |- context [recv_lines ?x _] => destruct (IH x) as (hs & c & E1 & E2); [assumption|] end.
    exists hs, c. rewrite E1, heads_heads. split; [reflexivity|]. rewrite E2. cbn [r_headers r_curr set_heads]. rewrite end_field. reflexivity.
Qed.
Lemma recv_fields : forall fs m, Forall field_ok fs -> r_curr m = None ->
  recv_lines m (map line (flat_map flines fs) ++ [CRLF]) = Ok (set_heads m (add_fields (r_headers m) fs) None).
Proof.
  intros fs m F C. rewrite recv_lines_app. destruct (recv_fields_go fs m F) as (hs & c & -> & E). cbn [rbind recv_lines].
  unfold recv_header. change (str_eqb CRLF CRLF) with true. cbv iota. cbn [rbind r_headers r_curr set_heads]. rewrite heads_heads, E, C. reflexivity.
Qed.

(** ** looking up *)
Lemma find_add : forall hs f k, h_find k (add_field hs f) =
  if str_eqb k (b_lower (f_name f)) then
    Some (match h_find k hs with Some (n, vs) => (n, vs ++ [bstrip (field_raw f)]) | None => (f_name f, [bstrip (field_raw f)]) end)
  else h_find k hs.
Proof.
  intros hs f k. unfold add_field, set_header. destruct (str_eqb k (b_lower (f_name f))) eqn:E.
  - apply str_eqb_eq in E. subst k. destruct (h_find (b_lower (f_name f)) hs) as [[n vs]|]; apply h_find_put.
  - apply str_eqb_neq in E. destruct (h_find (b_lower (f_name f)) hs) as [[n vs]|]; apply h_find_put_other; congruence.
Qed.
Lemma values_add : forall name fs vs, values name fs vs -> forall hs,
  get_header_list (add_fields hs fs) name =
  match get_header_list hs name, vs with
  | Some l, _ => Some (l ++ vs)
  | None, [] => None
  | None, _ => Some vs
  end.
Proof.
  intros name fs vs V. unfold get_header_list. induction V as [|f fs v vs E T V IH|f fs vs N V IH]; intros hs.
  - cbn [add_fields fold_left]. destruct (h_find (b_lower name) hs) as [[n l]|]; [rewrite app_nil_r|]; reflexivity.
  - cbn [add_fields fold_left]. fold (add_fields (add_field hs f) fs). rewrite IH, find_add.
    rewrite <- !lower_eq in E. rewrite E, str_eqb_refl. rewrite (bstrip_trimmed _ _ T).
    destruct (h_find (b_lower name) hs) as [[n l]|]; [rewrite <- app_assoc|]; reflexivity.
  - cbn [add_fields fold_left]. fold (add_fields (add_field hs f) fs). rewrite IH, find_add.
    assert (X : str_eqb (b_lower name) (b_lower (f_name f)) = false) by (apply str_eqb_neq; intros Q; apply N; rewrite <- !lower_eq; symmetry; exact Q).
    rewrite X. reflexivity.
Qed.
Lemma values_get_list : forall name fs vs, values name fs vs ->
  get_header_list (add_fields [] fs) name = match vs with [] => None | _ => Some vs end.
Proof. intros name fs vs V. rewrite (values_add name fs vs V). cbn [get_header_list h_find]. destruct vs; reflexivity. Qed.
Lemma get_list_get : forall hs name, get_header hs name = option_map commas (get_header_list hs name).
Proof.
  intros hs name. unfold get_header, get_header_list. destruct (h_find (b_lower name) hs) as [[n l]|]; [|reflexivity].
  cbn [option_map]. rewrite joinb_commas. reflexivity.
Qed.
Lemma values_get : forall name fs vs, values name fs vs ->
  get_header (add_fields [] fs) name = match vs with [] => None | _ => Some (commas vs) end.
Proof. intros name fs vs V. rewrite get_list_get, (values_get_list name fs vs V). destruct vs; reflexivity. Qed.
Lemma values_fun : forall name fs v1, values name fs v1 -> forall v2, values name fs v2 -> v1 = v2.
Proof.
  intros name fs v1 H. induction H as [|f fs v vs E T V IH|f fs vs N V IH]; intros v2 H2;
    inversion H2 as [|? ? w ws' E' T' V'|? ? ws' N' V']; subst; try contradiction; try reflexivity.
  - rewrite (IH _ V'). f_equal. rewrite <- (bstrip_trimmed _ _ T), <- (bstrip_trimmed _ _ T'). reflexivity.
  - apply IH. assumption.
Qed.
Lemma values_ex : forall name fs, exists vs, values name fs vs.
Proof.
  intros name fs. induction fs as [|f fs (vs & V)]; [exists []; constructor|].
  destruct (list_eq_dec Z.eq_dec (lower (f_name f)) (lower name)) as [E|E].
  - exists (bstrip (field_raw f) :: vs). constructor; [exact E|apply trimmed_bstrip|exact V].
  - exists vs. apply vs_other; assumption.
Qed.

(** ** lines *)
Lemma is_prefix_crlf : forall s, is_prefix CRLF s = true <-> exists r, s = 13 :: 10 :: r.
Proof.
  intros [|a [|b r]]; cbn [is_prefix CRLF].
  - split; [discriminate|intros (r & E); discriminate].
  - split; [destruct (13 =? a); discriminate|intros (r & E); discriminate].
  - rewrite andb_true_r, andb_true_iff, !Z.eqb_eq. split; [intros [<- <-]; exists r; reflexivity|intros (r' & E); inversion E; auto].
Qed.
Lemma is_prefix_ncrlf : forall s, ~ (exists r, s = 13 :: 10 :: r) -> is_prefix CRLF s = false.
Proof. intros s H. apply not_true_iff_false. rewrite is_prefix_crlf. exact H. Qed.
Lemma no_crlf_head : forall c l x, no_crlf (c :: l) -> ~ exists r, (c :: l) ++ CRLF ++ x = 13 :: 10 :: r.
Proof.
  intros c l x N (r & E). destruct l as [|b l]; cbn in E; inversion E; subst.
  exact (N [] l eq_refl).
Qed.
Lemma no_crlf_tl : forall c l, no_crlf (c :: l) -> no_crlf l.
Proof. intros c l N a b E. apply (N (c :: a) b). rewrite E. reflexivity. Qed.
Lemma find_crlf : forall l x, no_crlf l -> find CRLF (l ++ CRLF ++ x) = Some (length l).
Proof.
  induction l as [|c l IH]; intros x N.
  - reflexivity.
  - assert (P : is_prefix CRLF ((c :: l) ++ CRLF ++ x) = false) by (apply is_prefix_ncrlf, no_crlf_head; exact N).
    cbn [app find] in *. rewrite P. rewrite IH by (eapply no_crlf_tl; exact N). reflexivity.
Qed.
Lemma find_crlf_some : forall s i, find CRLF s = Some i -> exists l x, s = l ++ CRLF ++ x /\ no_crlf l /\ length l = i.
Proof.
  induction s as [|c s IH]; intros i H.
  - cbn in H. discriminate.
  - cbn [find] in H. destruct (is_prefix CRLF (c :: s)) eqn:P.
    + inversion H; subst. apply is_prefix_crlf in P as (r & E). exists [], r. split; [exact E|]. split; [intros a b X; destruct a; discriminate|reflexivity].
    + destruct (find CRLF s) as [j|] eqn:F; [|discriminate]. inversion H; subst. destruct (IH j eq_refl) as (l & x & E & N & L).
      exists (c :: l), x. split; [rewrite E; reflexivity|]. split; [|cbn; lia].
      apply no_crlf_cons; [exact N|]. destruct (Z.eq_dec c 13) as [->|]; [|left; assumption]. right. intros X.
      rewrite E in P. apply not_true_iff_false in P. apply P. apply is_prefix_crlf.
      destruct l as [|b l]; [cbn in X; discriminate|]. cbn in X. subst b. eexists. reflexivity.
Qed.
Lemma split_line : forall l x, no_crlf l -> split_crlf (l ++ CRLF ++ x) = l :: split_crlf x.
Proof.
  induction l as [|c l IH]; intros x N; [reflexivity|].
  pose proof (no_crlf_head c l x N) as H. cbn [app] in *. cbn [split_crlf].
  rewrite IH by (eapply no_crlf_tl; exact N).
  destruct (Z.eq_dec c 13) as [->|D].
  - destruct (l ++ CRLF ++ x) as [|b r]; [reflexivity|]. destruct (Z.eq_dec b 10) as [->|D]; [exfalso; apply H; exists r; reflexivity|].
    destruct b as [|b|b]; try reflexivity. do 4 (destruct b as [b|b|]; try reflexivity). congruence.
  - destruct c as [|c|c]; try reflexivity. do 4 (destruct c as [c|c|]; try reflexivity). congruence.
Qed.
Lemma split_lines : forall ls, Forall no_crlf ls -> split_crlf (concat (map line ls)) = ls ++ [[]].
Proof.
  induction 1 as [|l ls N F IH]; [reflexivity|]. cbn [map concat]. unfold line at 1. rewrite <- app_assoc, split_line by exact N.
  rewrite IH. reflexivity.
Qed.
Lemma is_prefix_app : forall a b s, is_prefix (a ++ b) (a ++ s) = is_prefix b s.
Proof. induction a as [|c a IH]; intros b s; [reflexivity|]. cbn [app is_prefix]. rewrite Z.eqb_refl. apply IH. Qed.
Lemma is_prefix_split : forall a b s, is_prefix (a ++ b) s = true -> is_prefix a s = true.
Proof.
  induction a as [|c a IH]; intros b s H; [reflexivity|]. destruct s as [|d s]; [discriminate|]. cbn [app is_prefix] in *.
  apply andb_true_iff in H as [H1 H2]. rewrite H1. cbn [andb]. exact (IH b s H2).
Qed.
Lemma find2_line : forall l x, no_crlf l -> find (CRLF ++ CRLF) (l ++ CRLF ++ x) =
  if is_prefix CRLF x then Some (length l) else option_map (fun i => (length l + 2 + i)%nat) (find (CRLF ++ CRLF) x).
Proof.
  induction l as [|c l IH]; intros x N.
  - cbn [app length]. change (13 :: 10 :: x) with (CRLF ++ x). destruct (is_prefix CRLF x) eqn:P.
    + change (find (CRLF ++ CRLF) (CRLF ++ x)) with (if is_prefix (CRLF ++ CRLF) (CRLF ++ x) then Some 0%nat else match find (CRLF ++ CRLF) (10 :: x) with Some i => Some (S i) | None => None end).
      rewrite is_prefix_app, P. reflexivity.
    + change (find (CRLF ++ CRLF) (CRLF ++ x)) with (if is_prefix (CRLF ++ CRLF) (CRLF ++ x) then Some 0%nat else match find (CRLF ++ CRLF) (10 :: x) with Some i => Some (S i) | None => None end).
      rewrite is_prefix_app, P.
      change (find (CRLF ++ CRLF) (10 :: x)) with (match find (CRLF ++ CRLF) x with Some i => Some (S i) | None => None end).
      destruct (find (CRLF ++ CRLF) x); reflexivity.
  - assert (P : is_prefix (CRLF ++ CRLF) ((c :: l) ++ CRLF ++ x) = false).
    { apply not_true_iff_false. intros X. apply is_prefix_split in X. apply is_prefix_crlf in X. exact (no_crlf_head c l x N X). }
    cbn [app] in *. cbn [find]. rewrite P. change (13 :: 10 :: x) with (CRLF ++ x). rewrite IH by (eapply no_crlf_tl; exact N).
    destruct (is_prefix CRLF x); [reflexivity|]. destruct (find (CRLF ++ CRLF) x); reflexivity.
Qed.
Lemma no_crlf_prefix : forall l x, no_crlf l -> l <> [] -> is_prefix CRLF (l ++ CRLF ++ x) = false.
Proof. intros [|c l] x N H; [congruence|]. apply is_prefix_ncrlf, no_crlf_head. exact N. Qed.
(** the blank line at the end of the header fields *)
Lemma find2_lines : forall ls x, Forall (fun l => l <> [] /\ no_crlf l) ls -> ls <> [] ->
  find (CRLF ++ CRLF) (concat (map line ls) ++ CRLF ++ x) = Some (length (concat (map line ls)) - 2)%nat.
Proof.
  induction ls as [|l ls IH]; intros x F Hn; [congruence|]. inversion F as [|? ? [L N] F']; subst.
  cbn [map concat]. unfold line at 1 3. rewrite <- !app_assoc, find2_line by exact N.
  destruct ls as [|l2 ls].
  - cbn [map concat app]. change (is_prefix CRLF (CRLF ++ x)) with true. cbv iota. rewrite app_nil_r, app_length. change (length CRLF) with 2%nat. f_equal. lia.
  - assert (P : is_prefix CRLF (concat (map line (l2 :: ls)) ++ CRLF ++ x) = false).
    { inversion F' as [|? ? [L2 N2] F2]; subst. cbn [map concat]. unfold line at 1. rewrite <- !app_assoc. apply no_crlf_prefix; assumption. }
    rewrite P, IH by (assumption || discriminate). cbn [option_map]. rewrite !app_length. change (length CRLF) with 2%nat.
    assert (2 <= length (concat (map line (l2 :: ls))))%nat.
    { cbn [map concat]. unfold line at 1. rewrite !app_length. change (length CRLF) with 2%nat. lia. }
    f_equal. lia.
Qed.
