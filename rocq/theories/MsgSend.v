(** Proofs for C72-C78: the header fields that are sent. *)
From Coq Require Import Permutation.
From Verif Require Import Py Num UriModel UriRel HttpModel HttpSpec HttpProofs HttpLex HttpParamModel HttpParamSpec
  HttpProps HttpParamProofs HttpParamMain BswModel MsgModel MsgSpec MsgLex MsgHead.

(** ** the dictionary *)
Lemma get_set : forall hs n v a name,
  get_header_list (set_header hs n (Some v) a) name =
  if str_eqb (b_lower name) (b_lower n)
  then Some (match get_header_list hs n with Some l => if a then l ++ [bstrip v] else [bstrip v] | None => [bstrip v] end)
  else get_header_list hs name.
Proof.
  intros hs n v a name. unfold get_header_list, set_header.
  destruct (str_eqb (b_lower name) (b_lower n)) eqn:E.
  - apply str_eqb_eq in E. rewrite E. destruct (h_find (b_lower n) hs) as [[n' l]|]; [destruct a|]; rewrite h_find_put; reflexivity.
  - apply str_eqb_neq in E. destruct (h_find (b_lower n) hs) as [[n' l]|]; [destruct a|]; rewrite h_find_put_other by congruence; reflexivity.
Qed.
Lemma get_unset : forall hs n a name, NoDup (keys hs) ->
  get_header_list (set_header hs n None a) name = if str_eqb (b_lower name) (b_lower n) then None else get_header_list hs name.
Proof.
  intros hs n a name N. unfold get_header_list, set_header. destruct (str_eqb (b_lower name) (b_lower n)) eqn:E.
  - apply str_eqb_eq in E. rewrite E, h_find_del by exact N. reflexivity.
  - apply str_eqb_neq in E. rewrite h_find_del_other by congruence. reflexivity.
Qed.

(** what the entries are like *)
Definition value_ok (v : str) : Prop := no_crlf v /\ bstrip v = v.
Definition entry_ok (e : str * (str * list str)) : Prop :=
  fst e = b_lower (fst (snd e)) /\ token (fst (snd e)) /\ snd (snd e) <> [] /\ Forall value_ok (snd (snd e)).
Definition hs_ok (hs : headers) : Prop := NoDup (keys hs) /\ Forall entry_ok hs.
Lemma no_crlf_part : forall a v b, no_crlf (a ++ v ++ b) -> no_crlf v.
Proof. intros a v b N x y ->. apply (N (a ++ x) (y ++ b)). rewrite <- !app_assoc. reflexivity. Qed.
Lemma bstrip_idem : forall v, bstrip (bstrip v) = bstrip v.
Proof.
  intros v. destruct (trimmed_bstrip v) as (a & b & E & Ha & Hb & H1 & H2). apply bstrip_trimmed. exists [], [].
  split; [cbn [app]; rewrite app_nil_r; reflexivity|]. repeat split; try constructor; assumption.
Qed.
Lemma strip_ok : forall v, no_crlf v -> value_ok (bstrip v).
Proof.
  intros v N. split; [|apply bstrip_idem]. destruct (trimmed_bstrip v) as (a & b & E & _). rewrite E in N. apply no_crlf_part in N. exact N.
Qed.
Lemma put_ok : forall k v hs, Forall entry_ok hs -> entry_ok (k, v) -> Forall entry_ok (h_put k v hs).
Proof.
  intros k v hs F E. induction F as [|[k' w] hs H F IH]; cbn [h_put]; [constructor; [exact E|constructor]|].
  destruct (str_eqb k k') eqn:B; [|constructor; assumption]. apply str_eqb_eq in B. subst k'. constructor; assumption.
Qed.
Lemma del_ok : forall k hs, Forall entry_ok hs -> Forall entry_ok (h_del k hs).
Proof.
  intros k hs F. induction F as [|[k' w] hs H F IH]; cbn [h_del]; [constructor|]. destruct (str_eqb k k'); [exact F|constructor; assumption].
Qed.
Lemma find_entry : forall k hs n vs, Forall entry_ok hs -> h_find k hs = Some (n, vs) -> entry_ok (k, (n, vs)).
Proof.
  intros k hs n vs F. induction F as [|[k' w] hs H F IH]; cbn [h_find]; [discriminate|]. destruct (str_eqb k k') eqn:B; [|exact IH].
  apply str_eqb_eq in B. subst k'. intros X. inversion X; subst. exact H.
Qed.
Lemma set_hs_ok : forall hs n v a, hs_ok hs -> token n -> (forall x, v = Some x -> no_crlf x) -> hs_ok (set_header hs n v a).
Proof.
  intros hs n v a [N F] T V. split; [apply nodup_set; exact N|]. unfold set_header. destruct v as [v|]; [|apply del_ok; exact F].
  assert (P : Forall entry_ok (h_put (b_lower n) (n, [bstrip v]) hs)).
  { apply put_ok; [exact F|]. split; [reflexivity|]. split; [exact T|]. split; [discriminate|]. constructor; [apply strip_ok, V; reflexivity|constructor]. }
  destruct (h_find (b_lower n) hs) as [[n' l]|] eqn:E; [destruct a|]; try exact P.
  apply put_ok; [exact F|]. pose proof (find_entry _ _ _ _ F E) as (X1 & X2 & X3 & X4). cbn [fst snd] in *. split; [exact X1|]. split; [exact X2|].
  split; [cbn [snd]; destruct l; discriminate|]. cbn [snd]. apply Forall_app. split; [exact X4|]. constructor; [apply strip_ok, V; reflexivity|constructor].
Qed.
Lemma hs_ok_nil : hs_ok []. Proof. split; constructor. Qed.

(** ** the fields *)
Definition sent_fields (hs : headers) (k : str) : list field :=
  match h_find k hs with Some (n, vs) => map (fun v => mkF n (32 :: v) []) vs | None => [] end.
Definition emitted (hs : headers) : list field := concat (map (sent_fields hs) (get_headerlist hs)).
Lemma header_lines_eq : forall hs, header_lines hs = concat (map field_text (emitted hs)) ++ crlf.
Proof.
  intros hs. unfold header_lines, emitted. f_equal. induction (get_headerlist hs) as [|k l IH]; [reflexivity|].
  cbn [map concat]. rewrite map_app, concat_app, IH. f_equal. unfold sent_fields. destruct (h_find k hs) as [[n vs]|]; [|reflexivity].
  clear. induction vs as [|v vs IH]; [reflexivity|]. cbn [map concat]. rewrite IH. f_equal.
Qed.
Lemma ins_perm : forall x l, Permutation (ins_key x l) (x :: l).
Proof.
  intros x l. induction l as [|y l IH]; cbn [ins_key]; [reflexivity|]. destruct (str_ltb y x); [|reflexivity].
  rewrite IH. apply perm_swap.
Qed.
Lemma headerlist_perm : forall hs, Permutation (get_headerlist hs) (keys hs).
Proof.
  intros hs. unfold get_headerlist, keys. induction (map fst hs) as [|k l IH]; [reflexivity|]. cbn [fold_right]. rewrite ins_perm, IH. reflexivity.
Qed.
Lemma emitted_ok : forall hs, hs_ok hs -> Forall field_ok (emitted hs).
Proof.
  intros hs [N F]. unfold emitted. apply Forall_forall. intros f Hf. apply in_concat in Hf as (l & Hl & Hf). apply in_map_iff in Hl as (k & <- & _).
  unfold sent_fields in Hf. destruct (h_find k hs) as [[n vs]|] eqn:E; [|contradiction]. apply in_map_iff in Hf as (v & <- & Hv).
  destruct (find_entry _ _ _ _ F E) as (_ & T & _ & V). cbn [fst snd] in *. rewrite Forall_forall in V. destruct (V v Hv) as [V1 V2].
  split; [exact T|]. split; [|constructor]. cbn [f_first]. intros a b X. destruct a as [|c a]; [discriminate|]. inversion X. apply (V1 a b). assumption.
Qed.
Lemma values_app : forall name a va, values name a va -> forall b vb, values name b vb -> values name (a ++ b) (va ++ vb).
Proof. intros name a va H b vb Hb. induction H; cbn [app]; [exact Hb|apply vs_same; assumption|apply vs_other; assumption]. Qed.
Lemma sent_values : forall name n vs, lower n = lower name -> Forall value_ok vs -> values name (map (fun v => mkF n (32 :: v) []) vs) vs.
Proof.
  intros name n vs E F. induction F as [|v vs [V1 V2] F IH]; cbn [map]; constructor; try assumption.
  unfold field_raw. cbn [f_first f_more map concat]. rewrite app_nil_r. pose proof (trimmed_bstrip (32 :: v)) as T.
  change (bstrip (32 :: v)) with (bstrip v) in T. rewrite V2 in T. exact T.
Qed.
Lemma sent_other : forall name n vs, lower n <> lower name -> values name (map (fun v => mkF n (32 :: v) []) vs) [].
Proof. intros name n vs E. induction vs as [|v vs IH]; cbn [map]; [constructor|apply vs_other; assumption]. Qed.
Definition list_of (o : option (list str)) : list str := match o with Some l => l | None => [] end.
Lemma emitted_values : forall hs name, hs_ok hs -> values name (emitted hs) (list_of (get_header_list hs name)).
Proof.
  intros hs name [N F].
  assert (ND : NoDup (get_headerlist hs)) by (eapply Permutation_NoDup; [symmetry; apply headerlist_perm|exact N]).
  assert (X : forall l, NoDup l -> values name (concat (map (sent_fields hs) l)) (if existsb (str_eqb (b_lower name)) l then list_of (get_header_list hs name) else [])).
  { induction 1 as [|k l Nk Nl IH]; [constructor|]. cbn [map concat existsb]. destruct (str_eqb (b_lower name) k) eqn:E.
    - apply str_eqb_eq in E. subst k. cbn [orb]. rewrite <- (app_nil_r (list_of _)). apply values_app.
      + unfold sent_fields, get_header_list. destruct (h_find (b_lower name) hs) as [[n vs]|] eqn:Ef; [|constructor]. cbn [list_of].
        destruct (find_entry _ _ _ _ F Ef) as (X1 & _ & _ & X4). cbn [fst snd] in *. apply sent_values; [symmetry; exact X1|exact X4].
      + destruct (existsb (str_eqb (b_lower name)) l) eqn:Ex; [apply keys_in in Ex; contradiction|exact IH].
    - cbn [orb]. apply (values_app name _ []); [|exact IH]. unfold sent_fields. destruct (h_find k hs) as [[n vs]|] eqn:Ef; [|constructor].
      destruct (find_entry _ _ _ _ F Ef) as (X1 & _). cbn [fst snd] in *. apply sent_other. intros Q. apply str_eqb_neq in E. apply E. rewrite X1. symmetry. exact Q. }
  specialize (X _ ND). unfold emitted. destruct (existsb (str_eqb (b_lower name)) (get_headerlist hs)) eqn:Ex; [exact X|].
  assert (Z : h_find (b_lower name) hs = None).
  { apply h_find_none. intros Y. assert (In (b_lower name) (get_headerlist hs)) by (eapply Permutation_in; [symmetry; apply headerlist_perm|exact Y]).
    apply keys_in in H. congruence. }
  unfold get_header_list. rewrite Z. exact X.
Qed.
