(** C40: product tokens and their versions are ordered. *)
From Verif Require Import Py Num UriModel HttpModel HttpParamModel HttpVersionModel HttpVersionSpec HttpVersionProofs.

(** The exploded form of any version: one item for each part between dots, see HttpVersionSpec.v *)
Theorem c40_explode : forall v, Forall2 item_of (dot_parts v) (explode v).
Proof. intros v. apply explode_parts. Qed.
Print Assumptions c40_explode.
(** the examples of the documentation *)
Example c40_explode_doc :
  explode (lit "2.15") = [[VInt 2; VStr (lit "~")]; [VInt 15; VStr (lit "~")]] /\
  explode (lit "2.17b3") = [[VInt 2; VStr (lit "~")]; [VInt 17; VStr (lit "b"); VInt 3; VStr (lit "~")]] /\
  explode (lit "2.b3") = [[VInt 2; VStr (lit "~")]; [VInt (-1); VStr (lit "b"); VInt 3; VStr (lit "~")]] /\
  explode (lit "1..x.") = [[VInt 1; VStr (lit "~")]; []; [VInt (-1); VStr (lit "x")]].
Proof. repeat split. Qed.

(** No comparison of products raises *)
Theorem c40_never_raises : forall op p q, exists b, pt_cmp op p q = Ok b.
Proof. intros op p q. rewrite pt_cmp_ok. eexists. reflexivity. Qed.
Print Assumptions c40_never_raises.

(** Exactly one of p < q, p == q and q < p *)
Theorem c40_trichotomy : forall p q,
  (pt_cmp OpLt p q = Ok true /\ pt_eq p q = false /\ pt_cmp OpLt q p = Ok false) \/
  (pt_cmp OpLt p q = Ok false /\ pt_eq p q = true /\ pt_cmp OpLt q p = Ok false) \/
  (pt_cmp OpLt p q = Ok false /\ pt_eq p q = false /\ pt_cmp OpLt q p = Ok true).
Proof. intros p q. rewrite !pt_cmp_ok, pt_eq_ok, (p_sym p q). destruct (p_lex p q); cbn; auto. Qed.
Print Assumptions c40_trichotomy.
Theorem c40_transitive : forall p q r, pt_cmp OpLt p q = Ok true -> pt_cmp OpLt q r = Ok true -> pt_cmp OpLt p r = Ok true.
Proof.
  intros p q r. rewrite !pt_cmp_ok. intros H1 H2. destruct (p_lex p q) eqn:E1; try discriminate. destruct (p_lex q r) eqn:E2; try discriminate.
  rewrite (p_trans p q r E1 E2). reflexivity.
Qed.
Print Assumptions c40_transitive.
(** the other comparisons are what < and == make of them; equal products compare the same with all others *)
Theorem c40_operators : forall p q,
  pt_cmp OpGt p q = pt_cmp OpLt q p /\
  (pt_cmp OpLe p q = Ok true <-> pt_cmp OpLt p q = Ok true \/ pt_eq p q = true) /\
  (pt_cmp OpGe p q = Ok true <-> pt_cmp OpLt q p = Ok true \/ pt_eq p q = true).
Proof.
  intros p q. rewrite !pt_cmp_ok, pt_eq_ok, (p_sym p q). destruct (p_lex p q); cbn; (split; [reflexivity|]); split; split; auto; intros [H|H]; discriminate || reflexivity.
Qed.
Theorem c40_equal : forall p q, pt_eq p q = true <-> pt_token p = pt_token q /\ pt_exploded p = pt_exploded q.
Proof. intros p q. rewrite pt_eq_ok, <- p_eq. destruct (p_lex p q); split; congruence. Qed.
Theorem c40_congruent : forall op p q r, pt_eq p q = true -> pt_cmp op p r = pt_cmp op q r /\ pt_cmp op r p = pt_cmp op r q.
Proof. intros op [t v] [t' v'] [s w] H. apply c40_equal in H as [H1 H2]. unfold pt_cmp. rewrite H2. cbn [pt_token] in *. subst. split; reflexivity. Qed.
Print Assumptions c40_operators.
Print Assumptions c40_equal.
Print Assumptions c40_congruent.

(** Products are ordered by token first *)
Theorem c40_token_first : forall p q, str_ltb (pt_token p) (pt_token q) = true -> pt_cmp OpLt p q = Ok true.
Proof.
  intros p q H. rewrite pt_cmp_ok. unfold p_lex. rewrite ltb_lex in H. destruct (s_lex (pt_token p) (pt_token q)); try discriminate. reflexivity.
Qed.
Print Assumptions c40_token_first.
(** A qualifier after a number is an earlier version than the number alone or with more parts, if its first
    character is before the tilde *)
Lemma same_token : forall t v w, p_lex (mkpt t (Some v)) (mkpt t (Some w)) = x_lex (explode v) (explode w).
Proof. intros t v w. unfold p_lex. cbn [pt_token pt_exploded pt_version]. assert (E : s_lex t t = Eq) by (apply (lex_eq _ z_eq); reflexivity). rewrite E. reflexivity. Qed.
Theorem c40_qualifier : forall t v d c q more, dec_digit d -> nondigit c -> c < 126 -> more = [] \/ (exists m, more = 46 :: m) ->
  pt_cmp OpLt (mkpt t (Some ((v ++ [d]) ++ c :: q))) (mkpt t (Some ((v ++ [d]) ++ more))) = Ok true.
Proof.
  intros t v d c q more Hd Hc Lc Hm. rewrite pt_cmp_ok, same_token, explode_qualified; [reflexivity|exact Hd|exact Hc|exact Lc|].
  destruct Hm as [->|[m ->]]; [exact I|reflexivity].
Qed.
Print Assumptions c40_qualifier.
Example c40_qualifier_case : dec_digit 48 /\ nondigit 98 /\ (lit "1." ++ [48]) ++ 98 :: lit "3" = lit "1.0b3" /\
  pt_cmp OpLt (mkpt (lit "x") (Some (lit "1.0b3"))) (mkpt (lit "x") (Some (lit "1.0.1"))) = Ok true.
Proof. split; [unfold dec_digit; lia|]. split; [unfold nondigit, dec_digit; lia|]. split; vm_compute; reflexivity. Qed.
(** Dotted decimals compare as lists of numbers, whatever zeros they have *)
Theorem c40_numeric : forall t a b, Forall digits a -> Forall digits b ->
  (pt_cmp OpLt (mkpt t (Some (join_on 46 a))) (mkpt t (Some (join_on 46 b))) = Ok true <-> nums_lt (map decimal a) (map decimal b)) /\
  (pt_eq (mkpt t (Some (join_on 46 a))) (mkpt t (Some (join_on 46 b))) = true <-> map decimal a = map decimal b).
Proof.
  intros t a b Fa Fb. rewrite pt_cmp_ok, pt_eq_ok, same_token, !explode_digits, nums_lex, nums_lt_lex by assumption.
  rewrite <- (lex_eq _ z_eq). destruct (lex Z.compare (map decimal a) (map decimal b)); cbn; split; split; congruence.
Qed.
Print Assumptions c40_numeric.
Example c40_numeric_case : Forall digits [lit "1"; lit "10"] /\ join_on 46 [lit "1"; lit "10"] = lit "1.10" /\ nums_lt [1; 9; 3] [1; 10] /\
  pt_cmp OpLt (mkpt (lit "x") (Some (lit "1.9.3"))) (mkpt (lit "x") (Some (lit "1.10"))) = Ok true.
Proof.
  split; [|split; [reflexivity|split; [cbn; lia|vm_compute; reflexivity]]].
  constructor; [|constructor; [|constructor]]; (split; [discriminate|]); apply Forall_forall; intros c Hc; vm_compute in Hc; repeat destruct Hc as [Hc|Hc]; subst; try (unfold dec_digit; lia); contradiction.
Qed.
(** A part that does not start with a number is before one that does *)
Theorem c40_unnumbered : forall t p c r d s, p = [] \/ (exists p', p = p' ++ [46]) -> nondigit c -> dec_digit d ->
  pt_cmp OpLt (mkpt t (Some (p ++ c :: r))) (mkpt t (Some (p ++ d :: s))) = Ok true.
Proof.
  intros t p c r d s Hp Hc Hd. rewrite pt_cmp_ok, same_token. destruct Hp as [->|[p' ->]].
  - cbn [app]. rewrite explode_unnumbered by assumption. reflexivity.
  - rewrite <- !app_assoc. cbn [app]. rewrite (explode_prefix p' (c :: r)), (explode_prefix p' (d :: s)). unfold x_lex. rewrite (lex_app _ i_eq).
    fold (x_lex (explode (c :: r)) (explode (d :: s))). rewrite explode_unnumbered by assumption. reflexivity.
Qed.
Print Assumptions c40_unnumbered.
Example c40_unnumbered_case : pt_cmp OpLt (mkpt (lit "x") (Some (lit "a3"))) (mkpt (lit "x") (Some (lit "0a3"))) = Ok true.
Proof. vm_compute. reflexivity. Qed.
(** More parts are later; no version is before every version *)
Theorem c40_more_parts : forall t p s, p = [] \/ (exists p', p = p' ++ [46]) -> s <> [] ->
  pt_cmp OpLt (mkpt t (Some p)) (mkpt t (Some (p ++ s))) = Ok true.
Proof.
  intros t p s Hp Hs. rewrite pt_cmp_ok, same_token.
  assert (Ns : exists i r, explode s = i :: r) by (destruct s as [|c s]; [congruence|]; unfold explode; cbn [length]; rewrite explode_step by discriminate; destruct (final _); eexists _, _; reflexivity).
  destruct Ns as (i & r & Ns). destruct Hp as [->|[p' ->]].
  - cbn [app]. rewrite Ns. reflexivity.
  - rewrite <- (app_nil_r (explode (p' ++ [46]))), <- app_assoc. cbn [app]. rewrite (explode_prefix p' s). unfold x_lex. rewrite (lex_app _ i_eq), Ns. reflexivity.
Qed.
Print Assumptions c40_more_parts.
Theorem c40_no_version : forall t v, v <> [] -> pt_cmp OpLt (mkpt t None) (mkpt t (Some v)) = Ok true /\ pt_eq (mkpt t None) (mkpt t (Some [])) = true.
Proof.
  intros t v N. destruct (c40_more_parts t [] v (or_introl eq_refl) N) as []. split.
  - reflexivity.
  - unfold pt_eq. cbn. rewrite (proj2 (str_eqb_eq t t) eq_refl). reflexivity.
Qed.
Print Assumptions c40_no_version.

(** REFUTED: a qualifier from the tilde on is not before the release: it is equal to it or after it *)
Theorem c40_qualifier_refuted : pt_eq (mkpt (lit "x") (Some (lit "1.0~"))) (mkpt (lit "x") (Some (lit "1.0"))) = true /\
  pt_cmp OpLt (mkpt (lit "x") (Some (lit "1.0"))) (mkpt (lit "x") (Some (lit "1.0~rc1"))) = Ok true.
Proof. split; vm_compute; reflexivity. Qed.
(** REFUTED: different versions may be equal, so the order is total but not of texts *)
Theorem c40_equal_refuted : pt_eq (mkpt (lit "x") (Some (lit "1.0"))) (mkpt (lit "x") (Some (lit "01.00."))) = true.
Proof. vm_compute. reflexivity. Qed.
