(** Promotion, integers and strings in the evaluation of expressions. *)
From Verif Require Import Py ExprModel ExprSpec EvalModel EvalSpec EvalTyped.

(** * Promotion *)
Lemma tco_eqb_eq a b : tco_eqb a b = true <-> a = b.
Proof. split; [destruct a as [[]|], b as [[]|]; cbn; congruence|intros ->; destruct b as [[]|]; reflexivity]. Qed.
Definition rk (t : tc) : Z := match rank t with Some n => n | None => -1 end.
Definition le_t (a t : option tc) : bool :=
  match a, t with
  | None, _ => true
  | Some x, Some y => tc_eqb x y || ((0 <=? rk x) && (rk x <=? rk y))
  | Some _, None => false
  end.
Lemma promotes_le a t : promotes a t <-> le_t a t = true.
Proof.
  split.
  - intros [->|[->|(x & y & m & n & -> & -> & Rx & Ry & B)]].
    + reflexivity.
    + destruct t as [t|]; cbn; auto. assert (tc_eqb t t = true) as -> by (destruct t; reflexivity). reflexivity.
    + cbn. unfold rk. rewrite Rx, Ry. assert (0 <= m) by (destruct x; inversion Rx; lia). rewrite orb_true_iff, andb_true_iff, !Z.leb_le. lia.
  - destruct a as [x|]; [|left; auto]. destruct t as [y|]; cbn; [|discriminate]. intros H. apply orb_true_iff in H. destruct H as [H|H].
    + right. left. f_equal. destruct x, y; cbn in H; congruence.
    + apply andb_true_iff in H. rewrite !Z.leb_le in H. destruct H as (P & Q). right. right. exists x, y.
      unfold rk in *. destruct (rank x) as [m|] eqn:Rx; [|lia]. destruct (rank y) as [n|] eqn:Ry; [|lia]. exists m, n. auto.
Qed.
Lemma all_tc (P : tc -> Prop) : P Binary -> P Boolean -> P Byte -> P DateTime -> P DateTimeOffset -> P Time -> P Decimal -> P Double ->
  P Single -> P Guid -> P Int16 -> P Int32 -> P Int64 -> P String_ -> P SByte -> forall t, P t.
Proof. intros; destruct t; assumption. Qed.
Definition all_t : list (option tc) := None :: map Some [Binary; Boolean; Byte; DateTime; DateTimeOffset; Time; Decimal; Double; Single; Guid; Int16; Int32; Int64; String_; SByte].
Lemma all_t_in t : In t all_t.
Proof. destruct t as [[]|]; cbn; tauto. Qed.
Lemma all_t_forall (f : option tc -> bool) : forallb f all_t = true -> forall t, f t = true.
Proof. intros H t. rewrite forallb_forall in H. apply H, all_t_in. Qed.
Lemma promote_spec a b : match promote a b with
  | Ok t => join_type a b t
  | Err e => e = EvaluationError /\ forall t, ~ (promotes a t /\ promotes b t) end.
Proof.
  assert (forall a b : option tc, match promote a b with
    | Ok t => le_t a t && le_t b t && forallb (fun u => implb (le_t a u && le_t b u) (le_t t u)) all_t
    | Err EvaluationError => forallb (fun u => negb (le_t a u && le_t b u)) all_t
    | Err _ => false end = true) as X.
  { intros x y. revert y. apply (all_t_forall (fun y => match promote x y with Ok t => _ | Err EvaluationError => _ | Err _ => false end)).
    revert x. apply (all_t_forall (fun x => forallb (fun y => match promote x y with Ok t => _ | Err EvaluationError => _ | Err _ => false end) all_t)).
    vm_compute. reflexivity. }
  specialize (X a b). destruct (promote a b) as [t|e].
  - apply andb_true_iff in X. destruct X as (X & Y). apply andb_true_iff in X. destruct X as (X1 & X2). split; [apply promotes_le; auto|]. split; [apply promotes_le; auto|].
    intros u Pa Pb. apply promotes_le in Pa, Pb. rewrite forallb_forall in Y. specialize (Y u (all_t_in u)). rewrite Pa, Pb in Y. apply promotes_le. exact Y.
  - destruct e; try discriminate. split; auto. intros u (Pa & Pb). apply promotes_le in Pa, Pb. rewrite forallb_forall in X. specialize (X u (all_t_in u)). rewrite Pa, Pb in X. discriminate.
Qed.
Lemma promote_comm a b : promote a b = promote b a.
Proof. destruct a as [[]|], b as [[]|]; reflexivity. Qed.
Lemma join_unique a b t u : join_type a b t -> join_type a b u -> t = u.
Proof.
  intros (P1 & P2 & P3) (Q1 & Q2 & Q3). pose proof (P3 u Q1 Q2) as X. pose proof (Q3 t P1 P2) as Y. apply promotes_le in X, Y.
  destruct t as [[]|], u as [[]|]; cbn in X, Y; try discriminate; reflexivity.
Qed.
Lemma join_promote a b t : join_type a b t -> promote a b = Ok t.
Proof.
  intros J. pose proof (promote_spec a b) as P. destruct (promote a b) as [u|e]; [f_equal; eapply join_unique; eauto|].
  destruct P as (_ & P). destruct J as (J1 & J2 & _). destruct (P t); auto.
Qed.
Lemma promote_assoc a b c : (let! t := promote a b in promote t c) = (let! t := promote b c in promote a t).
Proof.
  revert c. assert (forall c, match (let! t := promote a b in promote t c), (let! t := promote b c in promote a t) with
    | Ok x, Ok y => tco_eqb x y | Err EvaluationError, Err EvaluationError => true | _, _ => false end = true) as X.
  { apply (all_t_forall (fun c => match (let! t := promote a b in promote t c), (let! t := promote b c in promote a t) with
      | Ok x, Ok y => tco_eqb x y | Err EvaluationError, Err EvaluationError => true | _, _ => false end)).
    revert b. apply (all_t_forall (fun b => forallb (fun c => match (let! t := promote a b in promote t c), (let! t := promote b c in promote a t) with
      | Ok x, Ok y => tco_eqb x y | Err EvaluationError, Err EvaluationError => true | _, _ => false end) all_t)).
    revert a. apply (all_t_forall (fun a => forallb (fun b => forallb (fun c => match (let! t := promote a b in promote t c), (let! t := promote b c in promote a t) with
      | Ok x, Ok y => tco_eqb x y | Err EvaluationError, Err EvaluationError => true | _, _ => false end) all_t) all_t)).
    vm_compute. reflexivity. }
  intros c. specialize (X c). destruct (let! t := promote a b in promote t c) as [x|e], (let! t := promote b c in promote a t) as [y|e']; try discriminate.
  - apply tco_eqb_eq in X. congruence.
  - destruct e; discriminate.
  - destruct e, e'; try discriminate. reflexivity.
Qed.

(** * Floating point *)
Lemma ilog_low p q : 0 < p -> 0 < q -> q * 2 ^ Z.max 0 (ilog p q) <= p * 2 ^ Z.max 0 (- ilog p q).
Proof.
  intros P Q. unfold ilog. set (k := Z.log2 p - Z.log2 q).
  destruct (p * 2 ^ Z.max 0 (- k) <? q * 2 ^ Z.max 0 k) eqn:B; [|b2p; lia]. clear B.
  pose proof (Z.log2_spec p P) as (P1 & _). pose proof (Z.log2_spec q Q) as (_ & Q2). pose proof (Z.log2_nonneg p). pose proof (Z.log2_nonneg q).
  destruct (Z.le_gt_cases 1 k) as [K|K].
  - rewrite (Z.max_r 0 (k - 1)), (Z.max_l 0 (- (k - 1))) by lia. rewrite Z.pow_0_r, Z.mul_1_r.
    apply Z.le_trans with (2 ^ Z.succ (Z.log2 q) * 2 ^ (k - 1)); [apply Z.mul_le_mono_nonneg_r; [apply Z.pow_nonneg; lia|lia]|].
    rewrite <- Z.pow_add_r by lia. replace (Z.succ (Z.log2 q) + (k - 1)) with (Z.log2 p) by (unfold k; lia). lia.
  - rewrite (Z.max_l 0 (k - 1)), (Z.max_r 0 (- (k - 1))) by lia. rewrite Z.pow_0_r, Z.mul_1_r.
    apply Z.le_trans with (2 ^ Z.log2 p * 2 ^ (- (k - 1))); [|apply Z.mul_le_mono_nonneg_r; [apply Z.pow_nonneg; lia|lia]].
    rewrite <- Z.pow_add_r by lia. replace (Z.log2 p + - (k - 1)) with (Z.succ (Z.log2 q)) by (unfold k; lia). lia.
Qed.
Lemma ilog_53 p q : 0 < p < 2 ^ 53 -> 0 < q -> ilog p q <= 52.
Proof.
  intros P Q. destruct (Z.le_gt_cases (ilog p q) 52) as [|H]; auto. exfalso.
  pose proof (ilog_low p q ltac:(lia) Q) as X. rewrite (Z.max_r 0 (ilog p q)), (Z.max_l 0 (- ilog p q)) in X by lia. rewrite Z.pow_0_r, Z.mul_1_r in X.
  pose proof (Z.pow_le_mono_r 2 53 (ilog p q) ltac:(lia) ltac:(lia)). nia.
Qed.
Lemma rne_1 n : rne n 1 = n.
Proof. unfold rne. rewrite Z.div_1_r, Z.mod_1_r. reflexivity. Qed.
Lemma rne_bounds n d : 0 < d -> n / d <= rne n d <= n / d + 1 /\ 2 * Z.abs (rne n d * d - n) <= d.
Proof.
  intros D. unfold rne. pose proof (Z.div_mod n d ltac:(lia)) as E. pose proof (Z.mod_pos_bound n d D) as B.
  set (q := n / d) in *. set (r := n mod d) in *.
  destruct (2 * r <? d) eqn:B1; [b2p; split; [lia|rewrite E; replace (q * d - (d * q + r)) with (- r) by ring; lia]|].
  b2p. destruct (d <? 2 * r) eqn:B2; [b2p; split; [lia|rewrite E; replace ((q + 1) * d - (d * q + r)) with (d - r) by ring; lia]|].
  b2p. destruct (Z.even q).
  - split; [lia|rewrite E; replace (q * d - (d * q + r)) with (- r) by ring; lia].
  - split; [lia|rewrite E; replace ((q + 1) * d - (d * q + r)) with (d - r) by ring; lia].
Qed.
Lemma trunc_quot x y : 0 < x < 2 ^ 53 -> 0 < y -> ftrunc (fround x y) = x / y.
Proof.
  intros X Y. unfold fround, ftrunc. set (k := ilog x y). pose proof (ilog_53 x y X Y) as K. pose proof (ilog_low x y ltac:(lia) Y) as Lo. fold k in K, Lo.
  set (s := 52 - k). assert (0 <= s) as S0 by (unfold s; lia). rewrite (Z.max_r 0 s), (Z.max_l 0 (- s)) by lia. rewrite Z.pow_0_r, !Z.mul_1_r.
  set (e := 2 ^ s). assert (0 < e) as E0 by (apply Z.pow_pos_nonneg; lia).
  assert (y * 2 ^ 52 <= x * e) as Lo'.
  { unfold e, s. destruct (Z.le_gt_cases 0 k).
    - rewrite (Z.max_r 0 k), (Z.max_l 0 (- k)) in Lo by lia. rewrite Z.pow_0_r, Z.mul_1_r in Lo.
      replace (2 ^ 52) with (2 ^ k * 2 ^ (52 - k)) by (rewrite <- Z.pow_add_r by lia; f_equal; lia). rewrite Z.mul_assoc.
      apply Z.mul_le_mono_nonneg_r; [apply Z.pow_nonneg; lia|lia].
    - rewrite (Z.max_l 0 k), (Z.max_r 0 (- k)) in Lo by lia. rewrite Z.pow_0_r, Z.mul_1_r in Lo.
      replace (52 - k) with (- k + 52) by lia. rewrite Z.pow_add_r by lia. rewrite Z.mul_assoc.
      apply Z.mul_le_mono_nonneg_r; [lia|lia]. }
  pose proof (rne_bounds (x * e) y Y) as ((B1 & B2) & B3). set (m := rne (x * e) y) in *.
  pose proof (Z.div_mod x y ltac:(lia)) as E. pose proof (Z.mod_pos_bound x y Y) as R. set (q := x / y) in *. set (r := x mod y) in *.
  assert (q * e <= m) as M1.
  { apply Z.le_trans with (x * e / y); auto. apply Z.div_le_lower_bound; [lia|]. rewrite E. nia. }
  assert (m < (q + 1) * e) as M2.
  { destruct (Z.lt_ge_cases m ((q + 1) * e)) as [|H]; auto. exfalso.
    assert (e * (y - r) <= m * y - x * e) as H1.
    { apply Z.le_trans with ((q + 1) * e * y - x * e); [rewrite E; nia|]. assert ((q + 1) * e * y <= m * y) by (apply Z.mul_le_mono_nonneg_r; lia). lia. }
    assert (2 * e <= y) as H2 by nia.
    assert (2 ^ 53 * e <= x * e) as H3 by (change (2 ^ 53) with (2 * 2 ^ 52); nia). nia. }
  symmetry. apply Z.div_unique with (m - q * e); [left; nia|nia].
Qed.
Lemma float_int_53 z : - 2 ^ 53 < z < 2 ^ 53 -> float_int z = z.
Proof.
  intros H. unfold float_int. destruct (z =? 0) eqn:E; b2p; [auto|]. rewrite trunc_quot by lia. rewrite Z.div_1_r. unfold with_sign. destruct (z <? 0) eqn:S; b2p; lia.
Qed.
Lemma int_div_53 a b : - 2 ^ 53 < a < 2 ^ 53 -> - 2 ^ 53 < b < 2 ^ 53 -> int_div a b = if b =? 0 then Err ZeroDivisionError else Ok (Z.quot a b).
Proof.
  intros Ha Hb. unfold int_div. rewrite !float_int_53 by assumption. destruct (b =? 0) eqn:B; [reflexivity|]. b2p.
  destruct (a =? 0) eqn:Q; b2p; [subst; rewrite Z.quot_0_l by auto; reflexivity|]. f_equal. rewrite trunc_quot by lia.
  unfold with_sign. rewrite <- Z.quot_div_nonneg by lia.
  destruct (Z.le_gt_cases 0 a), (Z.le_gt_cases 0 b).
  - rewrite !Z.abs_eq by lia. destruct (a * b <? 0) eqn:S; b2p; nia.
  - rewrite Z.abs_eq, Z.abs_neq by lia. rewrite Z.quot_opp_r by lia. destruct (a * b <? 0) eqn:S; b2p; nia.
  - rewrite Z.abs_neq, Z.abs_eq by lia. rewrite Z.quot_opp_l by lia. destruct (a * b <? 0) eqn:S; b2p; nia.
  - rewrite !Z.abs_neq by lia. rewrite Z.quot_opp_opp by lia. destruct (a * b <? 0) eqn:S; b2p; nia.
Qed.
Lemma int_mod_53 a b : - 2 ^ 53 < a < 2 ^ 53 -> - 2 ^ 53 < b < 2 ^ 53 -> int_mod a b = if b =? 0 then Err ValueError else Ok (Z.rem a b).
Proof. intros Ha Hb. unfold int_mod. rewrite !float_int_53 by assumption. reflexivity. Qed.

(** * Integers *)
Section Ints.
Variable L : lib.
Notation ival t z := (OVal L (Some t) (Some (PInt L z))).
Lemma int_cast t u z : is_int t -> is_int u -> in_range t z -> promotes (Some t) (Some u) ->
  simple_cast L u (Some t) (Some (PInt L z)) = Ok (Some (PInt L z)) /\ in_range u z.
Proof.
  intros It Iu R P. assert (in_range u z) as R'.
  { apply promotes_le in P. destruct t; try contradiction; destruct u; try contradiction; cbn in P; try discriminate; cbn in R |- *; lia. }
  split; auto. unfold simple_cast. destruct (tco_eqb (Some t) (Some u)); auto.
  pose proof (set_from_int L u z Iu) as Q. destruct (set_from L u _) as [p|e]; [|tauto]. destruct Q as (-> & _). reflexivity.
Qed.
Lemma op_types_int t : t = Int32 \/ t = Int64 -> in_tc t op_types = true /\ is_int t.
Proof. intros [->| ->]; split; reflexivity || exact Logic.I. Qed.
Lemma int_arith o t u v a b : is_int t -> is_int u -> join_type (Some t) (Some u) (Some v) -> v = Int32 \/ v = Int64 ->
  in_range t a -> in_range u b ->
  (o = ADiv \/ o = AMod -> b <> 0 /\ - 2 ^ 53 < a < 2 ^ 53 /\ - 2 ^ 53 < b < 2 ^ 53) ->
  (in_range v (exact_op o a b) /\ eval_arith L o (ival t a) (ival u b) = Ok (ival v (exact_op o a b))) \/
  (~ in_range v (exact_op o a b) /\ o <> AMod /\ eval_arith L o (ival t a) (ival u b) = Err ValueError).
Proof.
  intros It Iu J V Ra Rb D. unfold eval_arith. rewrite (join_promote _ _ _ J). cbn [rbind].
  destruct (op_types_int v V) as (-> & Iv). destruct J as (J1 & J2 & _).
  destruct (int_cast t v a It Iv Ra J1) as (-> & Ra'). destruct (int_cast u v b Iu Iv Rb J2) as (-> & Rb'). cbn [rbind arith].
  assert ((match o with AMul => Ok (a * b) | AAdd => Ok (a + b) | ASub => Ok (a - b) | ADiv => int_div a b | AMod => int_mod a b end) = Ok (exact_op o a b)) as ->.
  { destruct o; try reflexivity; destruct D as (B0 & Ha & Hb); auto; apply Z.eqb_neq in B0; [rewrite int_div_53 by auto|rewrite int_mod_53 by auto]; rewrite B0; reflexivity. }
  cbn [rbind set_result]. pose proof (set_from_int L v (exact_op o a b) Iv) as Q. destruct (set_from L v _) as [p|e]; cbn [rbind].
  - destruct Q as (-> & Q). left. split; auto. rewrite wrap_ok. reflexivity.
  - destruct Q as (-> & Q). right. split; auto.
    assert (o <> AMod) as O.
    { intros ->. apply Q. cbn [exact_op]. destruct D as (B0 & Ha & Hb); auto. pose proof (Z.rem_bound_abs a b B0).
      destruct V as [->| ->]; cbn in Ra', Rb' |- *; pose proof (Z.rem_sign_mul a b B0); lia. }
    split; auto. rewrite wrap_err. destruct o; try reflexivity; congruence.
Qed.
Lemma int_div_zero o t u v a : o = ADiv \/ o = AMod -> is_int t -> is_int u -> join_type (Some t) (Some u) (Some v) -> v = Int32 \/ v = Int64 ->
  in_range t a -> in_range u 0 -> eval_arith L o (ival t a) (ival u 0) = Err EvaluationError.
Proof.
  intros O It Iu J V Ra Rb. unfold eval_arith. rewrite (join_promote _ _ _ J). cbn [rbind].
  destruct (op_types_int v V) as (-> & Iv). destruct J as (J1 & J2 & _).
  destruct (int_cast t v a It Iv Ra J1) as (-> & _). destruct (int_cast u v 0 Iu Iv Rb J2) as (-> & _). cbn [rbind arith].
  destruct O as [->| ->]; unfold int_div, int_mod; change (float_int 0) with 0; reflexivity.
Qed.
Lemma int_order r t u v a b : is_int t -> is_int u -> join_type (Some t) (Some u) (Some v) -> v = Int32 \/ v = Int64 ->
  in_range t a -> in_range u b -> eval_rel L r (ival t a) (ival u b) = Ok (bool_ L (exact_rel r a b)).
Proof.
  intros It Iu J V Ra Rb. unfold eval_rel. rewrite (join_promote _ _ _ J). cbn [rbind].
  destruct (op_types_int v V) as (-> & Iv). destruct J as (J1 & J2 & _).
  destruct (int_cast t v a It Iv Ra J1) as (-> & _). destruct (int_cast u v b Iu Iv Rb J2) as (-> & _). cbn [rbind compare_].
  do 3 f_equal. destruct r; cbn [rel_of exact_rel]; apply Bool.eq_true_iff_eq;
  rewrite ?negb_true_iff, ?orb_true_iff, ?orb_false_iff, ?Z.ltb_lt, ?Z.ltb_ge, ?Z.eqb_eq, ?Z.eqb_neq, ?Z.leb_le, ?Z.ltb_lt; lia.
Qed.
Lemma int_equal t u v a b : is_int t -> is_int u -> join_type (Some t) (Some u) (Some v) -> v = Int32 \/ v = Int64 ->
  in_range t a -> in_range u b -> eval_eq L (ival t a) (ival u b) = Ok (bool_ L (a =? b)) /\ eval_ne L (ival t a) (ival u b) = Ok (bool_ L (negb (a =? b))).
Proof.
  intros It Iu J V Ra Rb. assert (eval_eq L (ival t a) (ival u b) = Ok (bool_ L (a =? b))) as E.
  { unfold eval_eq. rewrite (join_promote _ _ _ J). cbn [rbind].
    destruct (op_types_int v V) as (-> & Iv). destruct J as (J1 & J2 & _).
    destruct (int_cast t v a It Iv Ra J1) as (-> & _). destruct (int_cast u v b Iu Iv Rb J2) as (-> & _). reflexivity. }
  split; auto. unfold eval_ne. rewrite E. reflexivity.
Qed.

(** * Other comparisons *)
Lemma str_eqb_sym a b : str_eqb a b = str_eqb b a.
Proof. apply Bool.eq_true_iff_eq. rewrite !str_eqb_eq. split; congruence. Qed.
Lemma str_lt_total a b : (str_lt a b = true /\ str_eqb a b = false /\ str_lt b a = false) \/
  (str_lt a b = false /\ str_eqb a b = true /\ str_lt b a = false) \/ (str_lt a b = false /\ str_eqb a b = false /\ str_lt b a = true).
Proof.
  revert b. induction a as [|x a IH]; intros [|y b]; cbn [str_lt str_eqb]; auto.
  destruct (Z.lt_total x y) as [H|[H|H]].
  - left. rewrite (proj2 (Z.ltb_lt x y)), (proj2 (Z.ltb_ge y x)), (proj2 (Z.eqb_neq x y)), (proj2 (Z.eqb_neq y x)) by lia. auto.
  - subst. rewrite Z.ltb_irrefl, Z.eqb_refl. cbn. apply IH.
  - right. right. rewrite (proj2 (Z.ltb_lt y x)), (proj2 (Z.ltb_ge x y)), (proj2 (Z.eqb_neq x y)), (proj2 (Z.eqb_neq y x)) by lia. auto.
Qed.
Lemma equal_sym p q : order_ok L -> equal_ L p q = equal_ L q p.
Proof.
  intros K. destruct p as [[]|], q as [[]|]; cbn; auto using str_eqb_sym, Z.eqb_sym, (ok_feq L K), (ok_teq L K).
  destruct b, b0; reflexivity.
Qed.
Lemma rel_of_str r a b : rel_of (str_lt b a) (str_eqb b a) (mirror r) = rel_of (str_lt a b) (str_eqb a b) r.
Proof. rewrite (str_eqb_sym b a). destruct (str_lt_total a b) as [(-> & -> & ->)|[(-> & -> & ->)|(-> & -> & ->)]]; destruct r; reflexivity. Qed.
Lemma compare_mirror r p q : order_ok L -> compare_ L (mirror r) q p = compare_ L r p q.
Proof.
  intros K. destruct p as [[]|], q as [[]|]; cbn [compare_]; auto; f_equal; try apply rel_of_str.
  - apply Bool.eq_true_iff_eq. destruct r; cbn [mirror rel_of]; rewrite ?negb_true_iff, ?orb_true_iff, ?orb_false_iff, ?Z.ltb_lt, ?Z.ltb_ge, ?Z.eqb_eq, ?Z.eqb_neq; lia.
  - destruct r; cbn [mirror]; auto using (ok_flt L K), (ok_fle L K); symmetry; auto using (ok_flt L K), (ok_fle L K).
  - destruct r; cbn [mirror]; auto using (ok_tlt L K), (ok_tle L K); symmetry; auto using (ok_tlt L K), (ok_tle L K).
Qed.
Lemma eq_sym_ok a b v : order_ok L -> eval_eq L a b = Ok v -> eval_eq L b a = Ok v.
Proof.
  intros K. unfold eval_eq. destruct a as [lt lp|ty s k ps|ps], b as [rt rp|ty' s' k' ps'|ps']; try discriminate.
  - rewrite (promote_comm rt lt). destruct (promote lt rt) as [[t|]|e]; cbn [rbind]; try discriminate; auto.
    destruct (in_tc t op_types).
    + destruct (simple_cast L t lt lp) as [x|e]; cbn [rbind]; [|discriminate]. destruct (simple_cast L t rt rp) as [y|e]; cbn [rbind]; [|discriminate].
      rewrite (equal_sym y x K). auto.
    + rewrite (equal_sym rp lp K). auto.
  - rewrite (Z.eqb_sym s' s), (Z.eqb_sym k' k). auto.
Qed.
Lemma rel_mirror r a b v : order_ok L -> eval_rel L r a b = Ok v -> eval_rel L (mirror r) b a = Ok v.
Proof.
  intros K. unfold eval_rel. destruct a as [lt lp|ty s k ps|ps], b as [rt rp|ty' s' k' ps'|ps']; try discriminate.
  rewrite (promote_comm rt lt). destruct (promote lt rt) as [[t|]|e]; cbn [rbind]; try discriminate; auto.
  destruct (in_tc t op_types).
  - destruct (simple_cast L t lt lp) as [x|e]; cbn [rbind]; [|discriminate]. destruct (simple_cast L t rt rp) as [y|e]; cbn [rbind]; [|discriminate].
    destruct x as [x|], y as [y|]; auto. rewrite (compare_mirror r (Some x) (Some y) K). auto.
  - rewrite (compare_mirror r lp rp K). auto.
Qed.
Lemma ne_eq a b v : eval_eq L a b = Ok v -> exists c, v = bool_ L c /\ eval_ne L a b = Ok (bool_ L (negb c)).
Proof.
  intros E. assert (exists c, v = bool_ L c) as (c & ->).
  { revert E. unfold eval_eq. destruct a as [lt lp|ty s k ps|ps], b as [rt rp|ty' s' k' ps'|ps']; try discriminate; [|intros E; inversion E; eauto].
    destruct (promote lt rt) as [[t|]|e]; cbn [rbind]; try discriminate; [|intros E; inversion E; eauto].
    destruct (in_tc t op_types); [|destruct (in_tc t _); intros E; inversion E; eauto].
    destruct (simple_cast L t lt lp) as [x|e]; cbn [rbind]; [|discriminate]. destruct (simple_cast L t rt rp) as [y|e]; cbn [rbind]; [|discriminate]. intros E; inversion E; eauto. }
  exists c. split; auto. unfold eval_ne. rewrite E. reflexivity.
Qed.
Lemma rel_bool r a b v : eval_rel L r a b = Ok v -> exists c, v = bool_ L c.
Proof.
  unfold eval_rel. destruct a as [lt lp|ty s k ps|ps], b as [rt rp|ty' s' k' ps'|ps']; try discriminate.
  destruct (promote lt rt) as [[t|]|e]; cbn [rbind]; try discriminate; [|intros E; inversion E; eauto].
  destruct (in_tc t op_types).
  - destruct (simple_cast L t lt lp) as [x|e]; cbn [rbind]; [|discriminate]. destruct (simple_cast L t rt rp) as [y|e]; cbn [rbind]; [|discriminate].
    destruct x as [x|], y as [y|]; try (intros E; inversion E; eauto; fail). destruct (compare_ L r _ _); cbn [rbind]; [|discriminate]. intros E; inversion E; eauto.
  - destruct (in_tc t _); [|discriminate]. destruct (compare_ L r _ _); cbn [rbind]; [|discriminate]. intros E; inversion E; eauto.
Qed.
End Ints.

(** * Strings *)
Lemma starts_spec p s : starts p s = true <-> exists u, s = p ++ u.
Proof.
  revert s. induction p as [|c p IH]; intros s; cbn [starts]; [split; [intros _; exists s; reflexivity|reflexivity]|].
  destruct s as [|d s]; [split; [discriminate|intros (u & E); discriminate]|].
  rewrite andb_true_iff, Z.eqb_eq, IH. split; [intros (-> & u & ->); exists u; reflexivity|intros (u & E); inversion E; subst; eauto].
Qed.
Lemma ends_spec p s : ends p s = true <-> exists u, s = u ++ p.
Proof.
  unfold ends. rewrite starts_spec. split; intros (u & E).
  - exists (rev u). rewrite <- (rev_involutive s), E, rev_app_distr, rev_involutive. reflexivity.
  - exists (rev u). rewrite E, rev_app_distr. reflexivity.
Qed.
Lemma at_0 p s : at_ p s 0 <-> starts p s = true.
Proof.
  rewrite starts_spec. split.
  - intros (a & b & -> & H). destruct a; [|discriminate]. exists b. reflexivity.
  - intros (u & ->). exists [], u. auto.
Qed.
Lemma at_S p c s n : at_ p (c :: s) (S n) <-> at_ p s n.
Proof.
  split.
  - intros (a & b & E & H). destruct a as [|d a]; [discriminate|]. inversion E; subst. exists a, b. split; auto.
  - intros (a & b & -> & H). exists (c :: a), b. split; auto. cbn. congruence.
Qed.
Lemma at_nil p n : at_ p [] n -> n = 0%nat /\ p = [].
Proof. intros (a & b & E & H). symmetry in E. apply app_eq_nil in E. destruct E as (-> & E). apply app_eq_nil in E. destruct E. auto. Qed.
Lemma find_from_spec p s i : 0 <= i ->
  (find_from i p s = -1 /\ forall n, ~ at_ p s n) \/
  (exists n, find_from i p s = i + Z.of_nat n /\ at_ p s n /\ forall m, (m < n)%nat -> ~ at_ p s m).
Proof.
  revert i. induction s as [|c s IH]; intros i I; cbn [find_from].
  - destruct (starts p []) eqn:Q.
    + right. exists 0%nat. split; [lia|]. split; [apply at_0; auto|intros m Hm; lia].
    + left. split; auto. intros n H. destruct (at_nil _ _ H) as (-> & ->). discriminate.
  - destruct (starts p (c :: s)) eqn:Q.
    + right. exists 0%nat. split; [lia|]. split; [apply at_0; auto|intros m Hm; lia].
    + destruct (IH (i + 1) ltac:(lia)) as [(E & N)|(n & E & H & Lst)].
      * left. split; auto. intros [|n] H; [apply (proj1 (at_0 _ _)) in H; congruence|]. apply (proj1 (at_S _ _ _ _)) in H. exact (N n H).
      * right. exists (S n). split; [lia|]. split; [apply at_S; auto|]. intros [|m] Hm H'; [apply (proj1 (at_0 _ _)) in H'; congruence|]. apply (proj1 (at_S _ _ _ _)) in H'. apply (Lst m); [lia|exact H'].
Qed.
Lemma replace_from_spec p q fuel s : p <> [] -> (length s < fuel)%nat -> replaced p q s (replace_from fuel p q s).
Proof.
  intros P. revert s. induction fuel as [|f IH]; intros s Hf; [lia|]. cbn [replace_from].
  destruct (starts p s) eqn:Q.
  - apply starts_spec in Q. destruct Q as (u & ->). rewrite skipn_app, skipn_all, Nat.sub_diag. cbn [skipn app].
    apply (rp_next p q [] u). { intros n Hn. cbn in Hn. lia. }
    apply IH. rewrite app_length in Hf. destruct p; [congruence|]. cbn in Hf. lia.
  - destruct s as [|c r].
    + apply rp_none. intros n H. destruct (at_nil _ _ H) as (-> & ->). congruence.
    + specialize (IH r ltac:(cbn in Hf; lia)). remember (replace_from f p q r) as r' eqn:Er. clear Er. inversion IH as [s' N E1 E2|a b t N R E1 E2]; subst.
      * apply rp_none. intros [|n] H; [apply (proj1 (at_0 _ _)) in H; congruence|]. apply (proj1 (at_S _ _ _ _)) in H. exact (N n H).
      * apply (rp_next p q (c :: a) b t); auto. intros [|n] Hn H; [apply (proj1 (at_0 _ _)) in H; cbn [app] in H; congruence|]. cbn [app] in H. apply (proj1 (at_S _ _ _ _)) in H. apply (N n); [cbn in Hn; lia|exact H].
Qed.
Lemma replaced_unique p q s t u : p <> [] -> replaced p q s t -> replaced p q s u -> t = u.
Proof.
  intros P H. revert u. induction H as [s N|a b t N R IH]; intros u H.
  - inversion H; subst; auto. exfalso. apply (N (length a)). exists a, b. auto.
  - remember (a ++ p ++ b) as s eqn:E. destruct H as [s N'|a' b' t' N' R'].
    + subst. exfalso. apply (N' (length a)). exists a, b. auto.
    + assert (length a = length a') as Le.
      { destruct (Nat.lt_total (length a) (length a')) as [H|[H|H]]; auto; exfalso.
        - apply (N' (length a) H). rewrite E. exists a, b. auto.
        - apply (N (length a') H). exists a', b'. auto. }
      assert (a = a' /\ b = b') as (-> & ->).
      { assert (firstn (length a) (a' ++ p ++ b') = firstn (length a) (a ++ p ++ b)) as F by congruence.
        rewrite Le in F at 1. rewrite !firstn_app, !firstn_all, !Nat.sub_diag, !app_nil_r in F. subst a'. split; auto.
        apply app_inv_head in E. apply app_inv_head in E. auto. }
      f_equal. f_equal. auto.
Qed.
