(** Theorems about the evaluation of OData expressions (C66-C71). *)
From Verif Require Import Py ExprModel ExprSpec EvalModel EvalSpec EvalTyped EvalProofs.

Notation ival L t z := (OVal L (Some t) (Some (PInt L z))).
Notation sval L s := (OVal L (Some String_) (Some (PStr L s))).

(** a library for the examples: whole numbers for Double, Single and Decimal *)
Definition zlib : lib := {|
  fl := Z; tm := Z;
  f_int := fun _ z => Ok z; f_conv := fun _ z => Ok z; f_set := fun _ z => Ok z;
  f_bin := fun o a b => match o with
    | AMul => Ok (a * b) | AAdd => Ok (a + b) | ASub => Ok (a - b)
    | ADiv => if b =? 0 then Err ZeroDivisionError else Ok (a / b)
    | AMod => if b =? 0 then Err ValueError else Ok (Z.rem a b) end;
  f_neg := Z.opp; f_rel := fun r => exact_rel r; f_eq := Z.eqb; f_rnd := fun _ _ z => Ok z;
  t_rel := fun r => exact_rel r; t_eq := Z.eqb; t_field := fun _ t => t mod 60;
  n_lit := fun _ _ => 0; t_lit := fun _ _ => 0;
  s_lower := fun s => s; s_upper := fun s => s; s_space := fun c => c =? 32 |}.
Definition zfits (_ : tc) (_ : Z) : Prop := True.
Lemma zlib_ok : lib_ok zlib zfits.
Proof.
  constructor; unfold zfits; cbn.
  - intros. exact I.
  - intros. exact I.
  - intros t o a b _ _ _. destruct o; cbn; auto; destruct (b =? 0); cbn; auto.
  - intros. exact I.
  - intros. exact I.
  - intros. exact I.
  - intros _ t. pose proof (Z.mod_pos_bound t 60). lia.
  - intros c H. apply Z.eqb_neq. lia.
Qed.
Lemma zlib_order : order_ok zlib.
Proof. constructor; cbn; auto using Z.eqb_sym. Qed.

(** * C66 Promotion of operand types *)
(** the common type of two operands is the least type that both promote to; there is an
    EvaluationError if, and only if, there is none *)
Theorem promotion_is_join : forall a b,
  (forall t, promote a b = Ok t <-> join_type a b t) /\
  (forall e, promote a b = Err e -> e = EvaluationError /\ forall t, ~ (promotes a t /\ promotes b t)).
Proof.
  intros a b. split.
  - intros t. split; [|apply join_promote]. intros E. pose proof (promote_spec a b) as P. rewrite E in P. exact P.
  - intros e E. pose proof (promote_spec a b) as P. rewrite E in P. exact P.
Qed.
Theorem promotion_algebra : forall a b c,
  promote a a = Ok a /\ promote a None = Ok a /\ promote None a = Ok a /\
  promote a b = promote b a /\
  (let! t := promote a b in promote t c) = (let! t := promote b c in promote a t).
Proof.
  intros. split; [destruct a as [[]|]; reflexivity|]. split; [destruct a as [[]|]; reflexivity|]. split; [destruct a as [[]|]; reflexivity|].
  split; [apply promote_comm|apply promote_assoc].
Qed.
Example promotion_example : join_type (Some Byte) (Some Int64) (Some Int64) /\ promote (Some Int32) (Some Decimal) = Ok (Some Decimal) /\
  promote (Some String_) (Some Int32) = Err EvaluationError.
Proof. split; [apply promotion_is_join; reflexivity|split; reflexivity]. Qed.
(** Edm.SByte is not one of the numeric types: it cannot be combined with another one *)
Theorem sbyte_promotion_refuted : ~ (forall t, t <> SByte -> promote (Some SByte) (Some t) = promote (Some Byte) (Some t)).
Proof. intros H. specialize (H Int32 ltac:(discriminate)). discriminate H. Qed.

(** * C67 Logical operators and filters *)
Section Logic.
Variable L : lib.
Variable fits : tc -> fl L -> Prop.
Hypothesis K : lib_ok L fits.
(** on truth values: conjunction, disjunction, negation *)
Theorem logic_table : forall ctx a b x y,
  eval L ctx (obj a) = Ok (bool_ L x) -> eval L ctx (obj b) = Ok (bool_ L y) ->
  eval L ctx (obj (Bin And a b)) = Ok (bool_ L (x && y)) /\
  eval L ctx (obj (Bin Or a b)) = Ok (bool_ L (x || y)) /\
  eval L ctx (obj (Not a)) = Ok (bool_ L (negb x)).
Proof.
  intros ctx a b x y Ea Eb. cbn [obj]. rewrite !eval_bin by exact I. rewrite eval_un, Ea, Eb. cbn. auto.
Qed.
(** a null operand makes and, or false (also "true or null"), while not gives null *)
Theorem logic_null : forall ctx a b ta, ta = None \/ ta = Some Boolean ->
  eval L ctx (obj a) = Ok (OVal L ta None) ->
  (forall v tb, eval L ctx (obj b) = Ok (OVal L tb v) -> tb = None \/ tb = Some Boolean ->
    eval L ctx (obj (Bin And a b)) = Ok (bool_ L false) /\ eval L ctx (obj (Bin And b a)) = Ok (bool_ L false) /\
    eval L ctx (obj (Bin Or a b)) = Ok (bool_ L false) /\ eval L ctx (obj (Bin Or b a)) = Ok (bool_ L false)) /\
  eval L ctx (obj (Not a)) = Ok (OVal L (Some Boolean) None).
Proof.
  intros ctx a b ta Ta Ea. split.
  - intros v tb Eb Tb. cbn [obj]. rewrite !eval_bin by exact I. rewrite Ea, Eb. cbn [rbind obin bin_method].
    destruct Ta as [->| ->], Tb as [->| ->]; cbn; destruct v as [[]|]; cbn; auto.
  - cbn [obj]. rewrite eval_un, Ea. reflexivity.
Qed.
(** a filter selects an entity if, and only if, the expression evaluates to true *)
Theorem filter_true : forall a e, check_filter L (Some (obj a)) e = Ok true <-> eval L (Some e) (obj a) = Ok (bool_ L true).
Proof.
  intros a e. unfold check_filter. destruct (eval L (Some e) (obj a)) as [v|x]; cbn [rbind]; [|split; discriminate].
  split.
  - destruct v as [[[]|] [[]|]|?|?]; try discriminate. intros E. inversion E; subst. reflexivity.
  - intros E. inversion E; subst. reflexivity.
Qed.
Theorem no_filter : forall e, check_filter L None e = Ok true.
Proof. reflexivity. Qed.
(** filters of well typed expressions: both conditions; one of two known conditions *)
Theorem filter_and_or : forall A c a b e, has_type A c a (Val (Some Boolean)) -> has_type A c b (Val (Some Boolean)) ->
  context_ok L fits c e ->
  (check_filter L (Some (obj (Bin And a b))) e = Ok true <->
     check_filter L (Some (obj a)) e = Ok true /\ check_filter L (Some (obj b)) e = Ok true) /\
  (check_filter L (Some (obj (Bin Or a b))) e = Ok true ->
     check_filter L (Some (obj a)) e = Ok true \/ check_filter L (Some (obj b)) e = Ok true) /\
  (forall y, check_filter L (Some (obj a)) e = Ok true -> eval L (Some e) (obj b) = Ok (bool_ L y) ->
     check_filter L (Some (obj (Bin Or a b))) e = Ok true /\ check_filter L (Some (obj (Bin Or b a))) e = Ok true).
Proof.
  intros A c a b e Ta Tb C. rewrite !filter_true. pose proof (typed_eval L fits K A c a _ Ta e C) as Ga. pose proof (typed_eval L fits K A c b _ Tb e C) as Gb.
  assert (forall x : ast, good L fits A (Val (Some Boolean)) (eval L (Some e) (obj x)) ->
    (exists y, eval L (Some e) (obj x) = Err y) \/ (exists t, eval L (Some e) (obj x) = Ok (OVal L t None) /\ (t = None \/ t = Some Boolean)) \/
    exists y, eval L (Some e) (obj x) = Ok (bool_ L y)) as X.
  { intros x G. destruct (eval L (Some e) (obj x)) as [v|z]; [|eauto]. right.
    destruct (boolean_cases L fits _ _ G (or_intror eq_refl)) as [->|[->|(y & ->)]]; eauto. }
  split; [|split].
  - cbn [obj]. rewrite eval_bin by exact I. cbn [obin bin_method]. split.
    + destruct (X a Ga) as [(z & ->)|[(t & -> & Ht)|(y & ->)]]; cbn [rbind]; [discriminate| |].
      * destruct (X b Gb) as [(z & ->)|[(t' & -> & Ht')|(y & ->)]]; cbn [rbind]; [discriminate| |]; destruct Ht as [->| ->]; try destruct Ht' as [->| ->]; cbn; discriminate.
      * destruct (X b Gb) as [(z & ->)|[(t' & -> & Ht')|(y' & ->)]]; cbn [rbind]; [discriminate| |]; [destruct Ht' as [->| ->]; cbn; discriminate|].
        cbn. intros E. inversion E as [E']. apply andb_true_iff in E'. destruct E' as (-> & ->). auto.
    + intros (-> & ->). reflexivity.
  - cbn [obj]. rewrite eval_bin by exact I. cbn [obin bin_method].
    destruct (X a Ga) as [(z & ->)|[(t & -> & Ht)|(y & ->)]]; cbn [rbind]; [discriminate| |].
    + destruct (X b Gb) as [(z & ->)|[(t' & -> & Ht')|(y & ->)]]; cbn [rbind]; [discriminate| |]; destruct Ht as [->| ->]; try destruct Ht' as [->| ->]; cbn; discriminate.
    + destruct (X b Gb) as [(z & ->)|[(t' & -> & Ht')|(y' & ->)]]; cbn [rbind]; [discriminate| |]; [destruct Ht' as [->| ->]; cbn; discriminate|].
      cbn. intros E. inversion E as [E']. apply orb_true_iff in E'. destruct E' as [-> | ->]; auto.
  - intros y E F. rewrite !filter_true. cbn [obj]. rewrite !eval_bin by exact I. apply filter_true in E || idtac. rewrite E, F. cbn. rewrite orb_true_r. auto.
Qed.
End Logic.
(** an entity for the examples: I, an Int32, is 7; B, a Boolean, is null; S, a String, is "abc";
    N leads to another entity, M to none *)
Definition inner (L : lib) : value L := OEnt L (lit "T2") 2 1 [(lit "X", SObj L (ival L Int64 9)); (lit "F", SObj L (OVal L (Some Boolean) (Some (PBool L true))))].
Definition entity (L : lib) : value L := OEnt L (lit "T") 1 1
  [(lit "I", SObj L (ival L Int32 7)); (lit "B", SObj L (OVal L (Some Boolean) None)); (lit "S", SObj L (sval L (lit "abc")));
   (lit "N", SNav L (Some (inner L))); (lit "M", SNav L None)].
Definition inner_type : list (str * sty) := [(lit "X", SSimple Int64); (lit "F", SSimple Boolean)].
Definition entity_type : context := mkCtx true
  [(lit "I", SSimple Int32); (lit "B", SSimple Boolean); (lit "S", SSimple String_); (lit "N", SOne inner_type); (lit "M", SOne inner_type)].
Lemma entity_ok L fits : context_ok L fits entity_type (entity L).
Proof.
  eexists. split; [|cbn; do 3 eexists; reflexivity].
  repeat (constructor; cbn; try lia; auto).
Qed.
Example logic_example :
  let t := Bin Eq (Prop_ (lit "I")) (Lit (LInt32 7)) in
  eval zlib (Some (entity zlib)) (obj t) = Ok (bool_ zlib true) /\
  eval zlib (Some (entity zlib)) (obj (Bin Or t (Prop_ (lit "B")))) = Ok (bool_ zlib false) /\
  check_filter zlib (Some (obj (Bin And t (Bin Or (Not t) t)))) (entity zlib) = Ok true.
Proof. repeat split. Qed.
(** "true or null" is not true, so filtering by "p or q" is not the union of filtering by p and by q *)
Theorem filter_or_null_refuted : ~ (forall a b, check_filter zlib (Some (obj a)) (entity zlib) = Ok true ->
  check_filter zlib (Some (obj b)) (entity zlib) = Ok false -> check_filter zlib (Some (obj (Bin Or a b))) (entity zlib) = Ok true).
Proof. intros H. specialize (H (Lit (LBool true)) (Prop_ (lit "B")) eq_refl eq_refl). discriminate H. Qed.

(** * C68 Comparisons *)
Section Compare.
Variable L : lib.
(** eq does not depend on the order of its operands, and ne is its negation *)
Theorem eq_symmetric : order_ok L -> forall ctx a b v, eval L ctx (obj (Bin Eq a b)) = Ok v -> eval L ctx (obj (Bin Eq b a)) = Ok v.
Proof.
  intros K ctx a b v. cbn [obj]. rewrite !eval_bin by exact I. destruct (eval L ctx (obj a)) as [x|e]; cbn [rbind]; [|discriminate].
  destruct (eval L ctx (obj b)) as [y|e]; cbn [rbind]; [|discriminate]. apply eq_sym_ok. auto.
Qed.
Theorem ne_is_not_eq : forall ctx a b,
  (forall v, eval L ctx (obj (Bin Eq a b)) = Ok v -> exists c, v = bool_ L c /\ eval L ctx (obj (Bin Ne a b)) = Ok (bool_ L (negb c))) /\
  (forall e, eval L ctx (obj (Bin Eq a b)) = Err e -> eval L ctx (obj (Bin Ne a b)) = Err e).
Proof.
  intros ctx a b. cbn [obj]. rewrite !eval_bin by exact I. destruct (eval L ctx (obj a)) as [x|e]; cbn [rbind]; [|split; [discriminate|auto]].
  destruct (eval L ctx (obj b)) as [y|e]; cbn [rbind]; [|split; [discriminate|auto]]. cbn [obin bin_method]. split.
  - apply ne_eq.
  - intros e E. unfold eval_ne. rewrite E. reflexivity.
Qed.
(** a lt b is b gt a, a le b is b ge a *)
Theorem order_mirrored : order_ok L -> forall ctx a b v,
  (eval L ctx (obj (Bin Lt a b)) = Ok v <-> eval L ctx (obj (Bin Gt b a)) = Ok v) /\
  (eval L ctx (obj (Bin Le a b)) = Ok v <-> eval L ctx (obj (Bin Ge b a)) = Ok v).
Proof.
  intros K ctx a b v. cbn [obj]. rewrite !eval_bin by exact I.
  destruct (eval L ctx (obj a)) as [x|e]; cbn [rbind].
  2:{ destruct (eval L ctx (obj b)); cbn [rbind]; split; split; discriminate. }
  destruct (eval L ctx (obj b)) as [y|e]; cbn [rbind]; [|split; split; discriminate]. cbn [obin bin_method].
  split; split; intros E; apply (rel_mirror L _ _ _ v K) in E; exact E.
Qed.
(** integers of any two types with a common type Int32 or Int64 are compared exactly *)
Theorem integers_compared : forall ctx a b t u v x y, is_int t -> is_int u -> join_type (Some t) (Some u) (Some v) -> v = Int32 \/ v = Int64 ->
  in_range t x -> in_range u y -> eval L ctx (obj a) = Ok (ival L t x) -> eval L ctx (obj b) = Ok (ival L u y) ->
  eval L ctx (obj (Bin Lt a b)) = Ok (bool_ L (x <? y)) /\ eval L ctx (obj (Bin Gt a b)) = Ok (bool_ L (y <? x)) /\
  eval L ctx (obj (Bin Le a b)) = Ok (bool_ L (x <=? y)) /\ eval L ctx (obj (Bin Ge a b)) = Ok (bool_ L (y <=? x)) /\
  eval L ctx (obj (Bin Eq a b)) = Ok (bool_ L (x =? y)) /\ eval L ctx (obj (Bin Ne a b)) = Ok (bool_ L (negb (x =? y))).
Proof.
  intros ctx a b t u v x y It Iu J V Rx Ry Ea Eb. cbn [obj]. rewrite !eval_bin by exact I. rewrite Ea, Eb. cbn [rbind obin bin_method].
  rewrite (int_order L RLt t u v x y), (int_order L RGt t u v x y), (int_order L RLe t u v x y), (int_order L RGe t u v x y) by assumption.
  destruct (int_equal L t u v x y It Iu J V Rx Ry) as (-> & ->). auto 10.
Qed.
(** strings are compared by code points: exactly one of lt, eq, gt holds; le is lt or eq, ge is gt or eq *)
Inductive before : str -> str -> Prop :=
| bf_prefix s c r : before s (s ++ c :: r)
| bf_char s c d r u : c < d -> before (s ++ c :: r) (s ++ d :: u).
Lemma str_lt_before s u : str_lt s u = true <-> before s u.
Proof.
  split.
  - revert u. induction s as [|c s IH]; intros [|d u]; cbn [str_lt]; try discriminate.
    + intros _. apply (bf_prefix [] d u).
    + rewrite orb_true_iff, andb_true_iff, Z.ltb_lt, Z.eqb_eq. intros [H|(-> & H)].
      * apply (bf_char [] c d s u H).
      * specialize (IH u H). destruct IH as [s c r|s x y r u H'].
        -- apply (bf_prefix (d :: s) c r).
        -- apply (bf_char (d :: s) x y r u H').
  - intros [x c r|x c d r w H]; induction x as [|e x IH]; cbn [app str_lt]; auto.
    + rewrite Z.eqb_refl, IH, orb_true_r. reflexivity.
    + rewrite (proj2 (Z.ltb_lt c d) H). reflexivity.
    + rewrite Z.eqb_refl, IH, orb_true_r. reflexivity.
Qed.
Theorem strings_compared : forall ctx a b x y, eval L ctx (obj a) = Ok (sval L x) -> eval L ctx (obj b) = Ok (sval L y) ->
  exists lt eq gt,
    eval L ctx (obj (Bin Lt a b)) = Ok (bool_ L lt) /\ eval L ctx (obj (Bin Eq a b)) = Ok (bool_ L eq) /\ eval L ctx (obj (Bin Gt a b)) = Ok (bool_ L gt) /\
    eval L ctx (obj (Bin Le a b)) = Ok (bool_ L (lt || eq)) /\ eval L ctx (obj (Bin Ge a b)) = Ok (bool_ L (gt || eq)) /\
    eval L ctx (obj (Bin Ne a b)) = Ok (bool_ L (negb eq)) /\
    (lt = true <-> before x y) /\ (eq = true <-> x = y) /\ (gt = true <-> before y x) /\
    ((lt = true /\ eq = false /\ gt = false) \/ (lt = false /\ eq = true /\ gt = false) \/ (lt = false /\ eq = false /\ gt = true)).
Proof.
  intros ctx a b x y Ea Eb. exists (str_lt x y), (str_eqb x y), (str_lt y x). cbn [obj]. rewrite !eval_bin by exact I. rewrite Ea, Eb. cbn [rbind obin bin_method].
  assert (forall r, eval_rel L r (sval L x) (sval L y) = Ok (bool_ L (rel_of (str_lt x y) (str_eqb x y) r))) as -> by reflexivity.
  rewrite !(fun r => eq_refl : eval_rel L r (sval L x) (sval L y) = Ok (bool_ L (rel_of (str_lt x y) (str_eqb x y) r))).
  assert (eval_eq L (sval L x) (sval L y) = Ok (bool_ L (str_eqb x y))) as -> by reflexivity.
  assert (eval_ne L (sval L x) (sval L y) = Ok (bool_ L (negb (str_eqb x y)))) as -> by reflexivity.
  rewrite <- !str_lt_before, <- str_eqb_eq.
  destruct (str_lt_total x y) as [(-> & -> & ->)|[(-> & -> & ->)|(-> & -> & ->)]]; cbn [rel_of orb negb];
    (do 6 (split; [reflexivity|])); (do 3 (split; [tauto|])); tauto.
Qed.
(** a number compared with null: lt, gt, le, ge and eq are false; null eq null is true *)
Theorem null_compared : forall ctx a b t v, eval L ctx (obj a) = Ok (OVal L (Some t) v) -> arith_type t ->
  eval L ctx (obj b) = Ok (OVal L None None) ->
  (forall o, is_order o = true -> eval L ctx (obj (Bin o a b)) = Ok (bool_ L false) /\ eval L ctx (obj (Bin o b a)) = Ok (bool_ L false)) /\
  eval L ctx (obj (Bin Eq a b)) = Ok (bool_ L match v with None => true | Some _ => false end).
Proof.
  intros ctx a b t v Ea At Eb. assert (in_tc t op_types = true) as T by (destruct t; try contradiction; reflexivity).
  assert (tco_eqb (Some t) (Some t) = true) as T2 by (destruct t; reflexivity). split.
  - intros o O. cbn [obj]. rewrite !eval_bin by (destruct o; exact I || discriminate). rewrite Ea, Eb. cbn [rbind].
    assert (forall r, eval_rel L r (OVal L (Some t) v) (OVal L None None) = Ok (bool_ L false) /\ eval_rel L r (OVal L None None) (OVal L (Some t) v) = Ok (bool_ L false)) as X.
    { intros r. unfold eval_rel, promote. cbn [tco_eqb rbind]. rewrite T. unfold simple_cast. rewrite T2. cbn [tco_eqb rbind]. destruct v; auto. }
    destruct o; try discriminate; cbn [obin bin_method]; apply X.
  - cbn [obj]. rewrite !eval_bin by exact I. rewrite Ea, Eb. cbn [rbind obin bin_method]. unfold eval_eq, promote. cbn [tco_eqb rbind]. rewrite T. unfold simple_cast. rewrite T2. cbn [tco_eqb rbind].
    destruct v as [[]|]; reflexivity.
Qed.
(** two nulls without a type: eq is true, the orderings are false *)
Theorem null_null_compared : forall ctx a b, eval L ctx (obj a) = Ok (OVal L None None) -> eval L ctx (obj b) = Ok (OVal L None None) ->
  eval L ctx (obj (Bin Eq a b)) = Ok (bool_ L true) /\ (forall o, is_order o = true -> eval L ctx (obj (Bin o a b)) = Ok (bool_ L false)).
Proof.
  intros ctx a b Ea Eb. split.
  - cbn [obj]. rewrite eval_bin by exact I. rewrite Ea, Eb. reflexivity.
  - intros o O. cbn [obj]. rewrite eval_bin by (destruct o; exact I || discriminate). rewrite Ea, Eb. destruct o; try discriminate; reflexivity.
Qed.
(** two entities are equal if they have the same key in the same entity set; an entity is not
    compared with anything else *)
Theorem entities_compared : forall ctx a b ty s k ps v, eval L ctx (obj a) = Ok (OEnt L ty s k ps) -> eval L ctx (obj b) = Ok v ->
  (forall ty' s' k' ps', v = OEnt L ty' s' k' ps' ->
     exists c, eval L ctx (obj (Bin Eq a b)) = Ok (bool_ L c) /\ (c = true <-> s = s' /\ k = k')) /\
  ((forall ty' s' k' ps', v <> OEnt L ty' s' k' ps') -> eval L ctx (obj (Bin Eq a b)) = Err EvaluationError).
Proof.
  intros ctx a b ty s k ps v Ea Eb. cbn [obj]. rewrite eval_bin by exact I. rewrite Ea, Eb. cbn [rbind obin bin_method]. split.
  - intros ty' s' k' ps' ->. eexists. split; [reflexivity|]. rewrite andb_true_iff, !Z.eqb_eq. tauto.
  - intros N. destruct v as [vt vp|ty' s' k' ps'|ps']; auto. destruct (N ty' s' k' ps' eq_refl).
Qed.
End Compare.
Example compare_example :
  eval zlib (Some (entity zlib)) (obj (Bin Lt (Prop_ (lit "I")) (Member (Prop_ (lit "N")) (lit "X")))) = Ok (bool_ zlib true) /\
  join_type (Some Int32) (Some Int64) (Some Int64) /\
  eval zlib (Some (entity zlib)) (obj (Bin Gt (Prop_ (lit "S")) (Lit (LStr (lit "ab"))))) = Ok (bool_ zlib true) /\
  eval zlib (Some (entity zlib)) (obj (Bin Le (Prop_ (lit "I")) (Member (Prop_ (lit "M")) (lit "X")))) = Ok (bool_ zlib false).
Proof. split; [reflexivity|]. split; [apply promotion_is_join; reflexivity|]. split; reflexivity. Qed.
(** not every comparison of two values of one type is defined: those of two Booleans, of two Bytes
    and of two Int16 fail; a string that is less than null is a TypeError of Python *)
Theorem comparison_total_refuted :
  eval zlib None (obj (Bin Eq (Lit (LBool true)) (Lit (LBool true)))) = Err EvaluationError /\
  (forall t x y, t = Byte \/ t = Int16 -> eval_eq zlib (ival zlib t x) (ival zlib t y) = Err EvaluationError /\ forall r, eval_rel zlib r (ival zlib t x) (ival zlib t y) = Err EvaluationError) /\
  eval zlib None (obj (Bin Lt (Lit (LStr (lit "a"))) (Lit LNull))) = Err TypeError.
Proof. split; [reflexivity|]. split; [|reflexivity]. intros t x y [->| ->]; split; reflexivity. Qed.

(** * C69 Arithmetic on integers *)
Section Arith.
Variable L : lib.
Definition aop_ (o : opr) : option aop :=
  match o with Mul => Some AMul | Div => Some ADiv | Mod => Some AMod | Add => Some AAdd | Sub => Some ASub | _ => None end.
(** the exact result, of the common type, or ValueError if that is out of the type's range; div and
    mod truncate towards zero, for operands below 2^53 (all those of type Int32, Int16 and Byte) *)
Theorem integer_arithmetic : forall ctx o p a b t u v x y, aop_ o = Some p ->
  is_int t -> is_int u -> join_type (Some t) (Some u) (Some v) -> v = Int32 \/ v = Int64 ->
  in_range t x -> in_range u y -> eval L ctx (obj a) = Ok (ival L t x) -> eval L ctx (obj b) = Ok (ival L u y) ->
  (o = Div \/ o = Mod -> y <> 0 /\ (v = Int32 \/ (- 2 ^ 53 < x < 2 ^ 53 /\ - 2 ^ 53 < y < 2 ^ 53))) ->
  (in_range v (exact_op p x y) /\ eval L ctx (obj (Bin o a b)) = Ok (ival L v (exact_op p x y))) \/
  (~ in_range v (exact_op p x y) /\ o <> Mod /\ eval L ctx (obj (Bin o a b)) = Err ValueError).
Proof.
  intros ctx o p a b t u v x y P It Iu J V Rx Ry Ea Eb D.
  assert (eval L ctx (obj (Bin o a b)) = eval_arith L p (ival L t x) (ival L u y)) as ->.
  { cbn [obj]. rewrite !eval_bin by (destruct o; exact I || discriminate). rewrite Ea, Eb. cbn [rbind]. destruct o; inversion P; reflexivity. }
  assert (p = AMod <-> o = Mod) as M by (destruct o; inversion P; split; congruence).
  destruct (int_arith L p t u v x y It Iu J V Rx Ry) as [H|(N & O & E)]; auto.
  - intros Q. assert (o = Div \/ o = Mod) as Q' by (destruct o; inversion P; subst; destruct Q; try discriminate; auto).
    destruct (D Q') as (Y & Dv). split; auto. destruct Dv as [->|Dv]; auto.
    destruct J as (J1 & J2 & _). destruct (int_cast L t Int32 x It I Rx J1) as (_ & X1). destruct (int_cast L u Int32 y Iu I Ry J2) as (_ & X2). cbn in X1, X2.
    change (2 ^ 53) with 9007199254740992. split; lia.
  - right. split; auto. split; auto. rewrite <- M. auto.
Qed.
Theorem integer_division_by_zero : forall ctx o a b t u v x, o = Div \/ o = Mod ->
  is_int t -> is_int u -> join_type (Some t) (Some u) (Some v) -> v = Int32 \/ v = Int64 ->
  in_range t x -> eval L ctx (obj a) = Ok (ival L t x) -> eval L ctx (obj b) = Ok (ival L u 0) ->
  eval L ctx (obj (Bin o a b)) = Err EvaluationError.
Proof.
  intros ctx o a b t u v x O It Iu J V Rx Ea Eb. cbn [obj]. rewrite !eval_bin by (destruct O; subst; exact I). rewrite Ea, Eb. cbn [rbind].
  assert (in_range u 0) by (destruct u; try contradiction; cbn; lia).
  destruct O as [->| ->]; cbn [obin bin_method]; eapply int_div_zero; eauto.
Qed.
(** quotient and remainder belong together *)
Theorem div_mod_identity : forall ctx a b x y, in_range Int32 x -> in_range Int32 y -> y <> 0 -> ~ (x = - 2 ^ 31 /\ y = -1) ->
  eval L ctx (obj a) = Ok (ival L Int32 x) -> eval L ctx (obj b) = Ok (ival L Int32 y) ->
  exists q r, eval L ctx (obj (Bin Div a b)) = Ok (ival L Int32 q) /\ eval L ctx (obj (Bin Mod a b)) = Ok (ival L Int32 r) /\
    x = y * q + r /\ Z.abs r < Z.abs y /\ 0 <= r * x.
Proof.
  intros ctx a b x y Rx Ry Y NM Ea Eb. assert (join_type (Some Int32) (Some Int32) (Some Int32)) as J by (apply promotion_is_join; reflexivity).
  exists (Z.quot x y), (Z.rem x y). cbn [in_range] in Rx, Ry.
  pose proof (Z.rem_bound_abs x y Y) as B. pose proof (Z.rem_sign_mul x y Y) as Sg. pose proof (Z.quot_rem x y Y) as QR.
  assert (in_range Int32 (Z.quot x y)) as Q.
  { cbn [in_range]. assert (Z.abs (x ÷ y) <= Z.abs x) as Ab by (rewrite <- Z.quot_abs by auto; apply Z.quot_le_upper_bound; nia).
    destruct (Z.eq_dec (x ÷ y) (2 ^ 31)) as [E|E]; [|lia]. exfalso. apply NM. lia || (assert (x = - 2 ^ 31) by nia; split; auto; nia). }
  split; [|split; [|split; [lia|split; [lia|nia]]]].
  - destruct (integer_arithmetic ctx Div ADiv a b Int32 Int32 Int32 x y eq_refl I I J (or_introl eq_refl) Rx Ry Ea Eb) as [(_ & E)|(N & _)]; auto. tauto.
  - destruct (integer_arithmetic ctx Mod AMod a b Int32 Int32 Int32 x y eq_refl I I J (or_introl eq_refl) Rx Ry Ea Eb) as [(_ & E)|(_ & N & _)]; auto. congruence.
Qed.
(** minus: the negative number, of type Int32 or Int64, or ValueError *)
Theorem integer_negation : forall ctx a t u x, is_int t -> t <> SByte -> u = (if tc_eqb t Int64 then Int64 else Int32) -> in_range t x ->
  eval L ctx (obj a) = Ok (ival L t x) ->
  (in_range u (- x) /\ eval L ctx (obj (Neg a)) = Ok (ival L u (- x))) \/ (~ in_range u (- x) /\ eval L ctx (obj (Neg a)) = Err ValueError).
Proof.
  intros ctx a t u x It Nt Hu R Ea. cbn [obj]. rewrite eval_un, Ea. cbn [rbind].
  assert (is_int u /\ promotes (Some t) (Some u)) as (Iu & P).
  { subst u. destruct t; try contradiction; try congruence; (split; [exact I|]); apply promotes_le; reflexivity. }
  assert (eval_neg L (ival L t x) = let! p := set_from L u (PInt L (0 - x)) in Ok (OVal L (Some u) (Some p))) as ->.
  { destruct (int_cast L t u x It Iu R P) as (C & _). subst u. destruct t; try contradiction; try congruence; unfold eval_neg; cbn [tc_eqb] in *; rewrite ?C; reflexivity. }
  change (0 - x) with (- x). pose proof (set_from_int L u (- x) Iu) as Q. destruct (set_from L u _); cbn [rbind].
  - destruct Q as (-> & Q). left. auto.
  - destruct Q as (-> & Q). right. auto.
Qed.
(** a null operand gives null *)
Theorem null_arithmetic : forall ctx o p a b t v, aop_ o = Some p -> arith_type t ->
  eval L ctx (obj a) = Ok (OVal L (Some t) v) -> eval L ctx (obj b) = Ok (OVal L None None) ->
  eval L ctx (obj (Bin o a b)) = Ok (OVal L (Some t) None) /\ eval L ctx (obj (Bin o b a)) = Ok (OVal L (Some t) None).
Proof.
  intros ctx o p a b t v P At Ea Eb. assert (in_tc t op_types = true) as T by (destruct t; try contradiction; reflexivity).
  assert (tco_eqb (Some t) (Some t) = true) as T2 by (destruct t; reflexivity).
  cbn [obj]. rewrite !eval_bin by (destruct o; exact I || discriminate). rewrite Ea, Eb. cbn [rbind].
  assert (forall p, eval_arith L p (OVal L (Some t) v) (OVal L None None) = Ok (OVal L (Some t) None) /\ eval_arith L p (OVal L None None) (OVal L (Some t) v) = Ok (OVal L (Some t) None)) as X.
  { intros q. unfold eval_arith, promote. cbn [tco_eqb rbind]. rewrite T. unfold simple_cast. rewrite T2. cbn [tco_eqb rbind]. destruct v; rewrite !wrap_ok; auto. }
  destruct o; inversion P; cbn [obin bin_method]; apply X.
Qed.
End Arith.
Example arithmetic_example :
  eval zlib None (obj (Bin Div (Lit (LInt32 (-7))) (Lit (LInt32 2)))) = Ok (ival zlib Int32 (-3)) /\
  eval zlib None (obj (Bin Mod (Lit (LInt32 (-7))) (Lit (LInt64 2)))) = Ok (ival zlib Int64 (-1)) /\
  eval zlib None (obj (Bin Mul (Lit (LInt32 65536)) (Lit (LInt32 32768)))) = Err ValueError.
Proof. repeat split. Qed.
(** Int64: div and mod go through binary64 and are not exact *)
Theorem int64_division_refuted :
  eval zlib None (obj (Bin Div (Lit (LInt64 9007199254740993)) (Lit (LInt64 1)))) = Ok (ival zlib Int64 9007199254740992) /\
  eval zlib None (obj (Bin Mod (Lit (LInt64 9007199254740993)) (Lit (LInt64 2)))) = Ok (ival zlib Int64 0).
Proof. split; vm_compute; reflexivity. Qed.

(** * C70 Well-typed expressions *)
Section Types.
Variable L : lib.
Variable fits : tc -> fl L -> Prop.
Hypothesis K : lib_ok L fits.
(** evaluating a well-typed expression gives a value of its type, or null, or one of the exceptions
    that the type allows *)
Theorem well_typed_evaluates : forall A c a T e, has_type A c a T -> context_ok L fits c e ->
  match eval L (Some e) (obj a) with Ok v => inhabits L fits T v | Err x => A x end.
Proof. intros A c a T e H C. exact (typed_eval L fits K A c a T H e C). Qed.
(** without arithmetic, methods that are strict, and orderings of strings, nothing can go wrong *)
Theorem safe_expressions : forall c a T e, has_type (fun _ => False) c a T -> context_ok L fits c e ->
  exists v, eval L (Some e) (obj a) = Ok v /\ inhabits L fits T v.
Proof.
  intros c a T e H C. pose proof (well_typed_evaluates _ c a T e H C) as G. destruct (eval L (Some e) (obj a)) as [v|x]; [eauto|contradiction].
Qed.
Lemma bool_typed A c a e t p : has_type A c a (Val (Some Boolean)) -> context_ok L fits c e -> (forall b n, a <> Member b n) ->
  eval L (Some e) (obj a) = Ok (OVal L t p) -> t = Some Boolean.
Proof.
  intros H C NM E. pose proof (well_typed_evaluates A c a _ e H C) as G. rewrite E in G. destruct G as (t' & p' & Q & G). inversion Q; subst t' p'; clear Q.
  destruct p as [q|]; [tauto|]. destruct G as [->|[->|(x & y & _ & Y & _ & Ay)]]; auto; [|inversion Y; subst; contradiction].
  exfalso. remember (Val (Some Boolean)) as T eqn:ET. destruct H; try discriminate.
  - cbn [obj eval] in E. destruct l; inversion E; subst; cbn in H; congruence.
  - cbn [obj eval] in E. destruct C as (ps & F & C). destruct (assoc_fields L fits _ _ _ _ F H) as (v & V & W). inversion W; subst.
    destruct (c_ent c); [destruct C as (ty & s & k & ->)|subst e]; cbn [eval_prop] in E; rewrite V in E; congruence.
  - destruct (NM a n eq_refl).
  - injection ET as ->. destruct t as [[]|]; cbn in H0; try contradiction; discriminate.
  - cbn [obj] in E. rewrite eval_un in E. destruct (eval L (Some e) (obj a)) as [v|x]; cbn [rbind] in E; [|discriminate].
    destruct v as [[[]|] [[]|]|?|?]; cbn in E; try discriminate; inversion E.
  - injection ET as ET. destruct H2 as (_ & H2 & _). destruct t as [t|]; [inversion ET; subst; contradiction|discriminate].
  - cbn [obj] in E. rewrite eval_bin in E by (destruct o; exact I || discriminate).
    destruct (eval L (Some e) (obj a)) as [v|x]; cbn [rbind] in E; [|discriminate]. destruct (eval L (Some e) (obj b)) as [w|x]; cbn [rbind] in E; [|discriminate].
    destruct o; try discriminate; cbn [obin bin_method] in E; apply rel_bool in E; destruct E; discriminate.
  - cbn [obj] in E. rewrite eval_bin in E by (destruct o; exact I || discriminate).
    destruct (eval L (Some e) (obj a)) as [v|x]; cbn [rbind] in E; [|discriminate]. destruct (eval L (Some e) (obj b)) as [w|x]; cbn [rbind] in E; [|discriminate].
    destruct o; try discriminate; cbn [obin bin_method] in E; apply rel_bool in E; destruct E; discriminate.
  - cbn [obj] in E. rewrite eval_bin in E by (destruct o; exact I || discriminate).
    destruct (eval L (Some e) (obj a)) as [v|x]; cbn [rbind] in E; [|discriminate]. destruct (eval L (Some e) (obj b)) as [w|x]; cbn [rbind] in E; [|discriminate].
    destruct o; try discriminate; cbn [obin bin_method] in E.
    + destruct (ne_eq L _ _ _ E) as (d & Q & _). discriminate.
    + destruct (eval_eq L v w) as [z|x] eqn:Z; [|unfold eval_ne in E; rewrite Z in E; discriminate]. destruct (ne_eq L _ _ _ Z) as (d & _ & Q). rewrite Q in E. discriminate.
  - cbn [obj] in E. rewrite eval_bin in E by (destruct o; exact I || discriminate).
    destruct (eval L (Some e) (obj a)) as [v|x]; cbn [rbind] in E; [|discriminate]. destruct (eval L (Some e) (obj b)) as [w|x]; cbn [rbind] in E; [|discriminate].
    destruct o; try discriminate; cbn [obin bin_method] in E.
    + destruct (ne_eq L _ _ _ E) as (d & Q & _). discriminate.
    + destruct (eval_eq L v w) as [z|x] eqn:Z; [|unfold eval_ne in E; rewrite Z in E; discriminate]. destruct (ne_eq L _ _ _ Z) as (d & _ & Q). rewrite Q in E. discriminate.
  - cbn [obj] in E. rewrite eval_bin in E by (destruct o; exact I || discriminate).
    destruct (eval L (Some e) (obj a)) as [v|x]; cbn [rbind] in E; [|discriminate]. destruct (eval L (Some e) (obj b)) as [w|x]; cbn [rbind] in E; [|discriminate].
    assert (forall op, eval_logic L op v w <> Ok (OVal L None None)) as X.
    { intros op. unfold eval_logic. destruct v as [lt lp|?|?], w as [rt rp|?|?]; try discriminate. destruct (promote lt rt) as [[[]|]|]; cbn [rbind]; try discriminate.
      destruct lp as [[]|], rp as [[]|]; discriminate. }
    destruct o; try discriminate; cbn [obin bin_method] in E; eapply X; eauto.
  - cbn [obj] in E.
    change ((let! lv := eval L (Some e) (obj a) in eval_cast L (Some lv) (sval L (type_name t))) = Ok (OVal L None None)) in E.
    destruct (eval L (Some e) (obj a)) as [v|x]; cbn [rbind] in E; [|discriminate]. injection ET as ->.
    destruct v as [vt [p|]|ty s k ps|ps]; cbn [eval_cast type_arg rbind] in E.
    + rewrite (type_of_type_name L fits K) in E. destruct (promote _ vt) as [t'|]; cbn [rbind] in E; [|discriminate]. destruct (tco_eqb _ _); [|discriminate]. destruct (set_from L Boolean p); discriminate.
    + rewrite (type_of_type_name L fits K) in E. discriminate.
    + destruct (str_eqb ty _); discriminate.
    + discriminate.
  - cbn [obj] in E.
    change ((let! lv := eval L (Some e) (obj a) in eval_isof L (Some lv) (sval L (type_name t))) = Ok (OVal L None None)) in E.
    destruct (eval L (Some e) (obj a)) as [v|x]; cbn [rbind] in E; [|discriminate].
    destruct v as [vt [p|]|ty s k ps|ps]; cbn [eval_isof type_arg rbind] in E; try discriminate. rewrite (type_of_type_name L fits K) in E. discriminate.
  - destruct C as (ps & F & C). rewrite H in C. destruct C as (ty & s & k & ->). cbn in E. discriminate.
  - cbn [obj] in E. rewrite eval_call in E. destruct (eval_args L (Some e) _) as [vs|x] eqn:AA; cbn [rbind] in E; [|discriminate]. injection ET as ->.
    unfold string_methods in H. cbn [In] in H. repeat match type of H with _ \/ _ => destruct H as [H|H] end; try contradiction; try discriminate;
    injection H as <- _; revert E; calls; destruct vs as [|v [|w [|? ?]]]; try discriminate; unfold str2;
    destruct (promote_param L v String_) as [[[]|]|]; cbn [rbind]; try discriminate; destruct (promote_param L w String_) as [[[]|]|]; discriminate.
  - injection ET as ->. unfold strict_methods in H. cbn [In] in H. repeat match type of H with _ \/ _ => destruct H as [H|H] end; try contradiction; discriminate.
  - injection ET as ET. destruct ta as [[]|]; discriminate.
Qed.
(** a filter that is well typed never fails in another way, if it is not just a path a/b *)
Theorem well_typed_filter : forall A c a e, has_type A c a (Val (Some Boolean)) -> (forall b n, a <> Member b n) -> context_ok L fits c e ->
  match check_filter L (Some (obj a)) e with Ok _ => True | Err x => A x end.
Proof.
  intros A c a e H NM C. pose proof (well_typed_evaluates A c a _ e H C) as G. unfold check_filter. destruct (eval L (Some e) (obj a)) as [v|x] eqn:E; cbn [rbind]; [|exact G].
  destruct (boolean_cases L fits _ _ G (or_intror eq_refl)) as [->|[->|(y & ->)]]; cbn; auto.
  pose proof (bool_typed A c a e None None H C NM E). discriminate.
Qed.
(** cast: only to a type that the value's type promotes to, integers keep their value; isof says
    whether cast is possible *)
Theorem cast_spec : forall ctx a t x q, eval L ctx (obj a) = Ok (OVal L (Some x) (Some q)) -> holds L fits x q ->
  (promotes (Some x) (Some t) -> exists q', eval L ctx (obj (Cast a (type_name t))) = Ok (OVal L (Some t) (Some q')) /\ holds L fits t q' /\
     (is_int t -> forall z, q = PInt L z -> q' = PInt L z)) /\
  (~ promotes (Some x) (Some t) -> eval L ctx (obj (Cast a (type_name t))) = Err EvaluationError) /\
  exists c, eval L ctx (obj (IsOf a (type_name t))) = Ok (bool_ L c) /\ (c = true <-> promotes (Some x) (Some t)).
Proof.
  intros ctx a t x q Ea H.
  assert (promotes (Some x) (Some t) <-> promote (Some t) (Some x) = Ok (Some t)) as PP.
  { split.
    - intros P. apply join_promote. split; [right; left; reflexivity|]. split; auto.
    - intros E. apply promotion_is_join in E. apply E. }
  change (eval L ctx (obj (Cast a (type_name t)))) with (let! lv := eval L ctx (obj a) in eval_cast L (Some lv) (sval L (type_name t))).
  change (eval L ctx (obj (IsOf a (type_name t)))) with (let! lv := eval L ctx (obj a) in eval_isof L (Some lv) (sval L (type_name t))).
  rewrite Ea. cbn [rbind eval_cast eval_isof type_arg]. rewrite (type_of_type_name L fits K).
  assert (tco_eqb (Some t) (Some t) = true) as TT by (apply tco_eqb_eq; reflexivity).
  split; [|split].
  - intros P. pose proof P as P'. apply PP in P'. rewrite P'. cbn [rbind]. rewrite TT.
    assert (exists q', set_from L t q = Ok q' /\ holds L fits t q' /\ (is_int t -> forall z, q = PInt L z -> q' = PInt L z)) as (q' & -> & H' & Z').
    { destruct P as [P|[P|(x' & y & m & n & E1 & E2 & Rx & Ry & B)]]; [discriminate| |].
      - inversion P; subst x. destruct (set_same L fits K (fun _ => False) t q H) as (q' & E & H'). exists q'. split; auto. split; auto. intros It z ->.
        pose proof (set_from_int L t z It) as Q. rewrite E in Q. tauto.
      - inversion E1; inversion E2; subst x' y. destruct (widen_set L fits K (fun _ => False) x t m n q Rx Ry B H) as (q' & E & H' & Q). exists q'. split; auto. }
    exists q'. auto.
  - intros N. destruct (promote (Some t) (Some x)) as [t'|e] eqn:E; cbn [rbind].
    + destruct (tco_eqb (Some t) t') eqn:Q; [|reflexivity]. apply tco_eqb_eq in Q. subst t'. destruct N. apply PP. auto.
    + apply promotion_is_join in E. destruct E as (-> & _). reflexivity.
  - eexists. split; [reflexivity|]. rewrite PP. destruct (promote (Some t) (Some x)) as [t'|e].
    + rewrite tco_eqb_eq. split; congruence.
    + split; discriminate.
Qed.
(** a property that the entity does not have is a KeyError, of a complex value an EvaluationError *)
Theorem unknown_property : forall n, (forall ty s k ps, assoc n ps = None -> eval L (Some (OEnt L ty s k ps)) (obj (Prop_ n)) = Err KeyError) /\
  (forall ps, assoc n ps = None -> eval L (Some (OCplx L ps)) (obj (Prop_ n)) = Err EvaluationError).
Proof. intros n. split; intros; cbn [obj eval eval_prop]; rewrite H; reflexivity. Qed.
End Types.
(** the path a/b, with b a Boolean, is refused where a leads to no entity *)
Theorem path_filter_refuted : ~ (forall a, has_type (fun _ => False) entity_type a (Val (Some Boolean)) ->
  exists b, check_filter zlib (Some (obj a)) (entity zlib) = Ok b).
Proof.
  intros H. destruct (H (Member (Prop_ (lit "M")) (lit "F"))) as (b & E).
  - eapply ht_member; [apply (ht_nav _ entity_type (lit "M") inner_type eq_refl eq_refl)|]. apply ht_simple. reflexivity.
  - discriminate E.
Qed.
(** (I mul 2) lt N/X and startswith(S, 'a'), and the same with M for N *)
Definition typed_ast (n : str) : ast :=
  Bin And (Bin Lt (Bin Mul (Prop_ (lit "I")) (Lit (LInt32 2))) (Member (Prop_ n) (lit "X")))
          (Call (lit "startswith") [Prop_ (lit "S"); Lit (LStr (lit "a"))]).
Lemma num_ok A a b t : join_type a b (Some t) -> arith_type t -> ~ small a -> ~ small b -> num_operands A a b (Some t).
Proof. intros J T Sa Sb. split; [auto|split; [auto|intros [H|H]; tauto]]. Qed.
Example typed_example :
  has_type (fun e => e = ValueError) entity_type (typed_ast (lit "N")) (Val (Some Boolean)) /\
  has_type (fun e => e = ValueError) entity_type (typed_ast (lit "M")) (Val (Some Boolean)) /\
  eval zlib (Some (entity zlib)) (obj (typed_ast (lit "N"))) = Ok (bool_ zlib false) /\
  eval zlib (Some (entity zlib)) (obj (typed_ast (lit "M"))) = Ok (bool_ zlib false) /\
  has_type (fun _ => False) entity_type (Bin Eq (Prop_ (lit "I")) (Member (Prop_ (lit "M")) (lit "X"))) (Val (Some Boolean)).
Proof.
  assert (forall n, assoc n (c_fields entity_type) = Some (SOne inner_type) -> has_type (fun e => e = ValueError) entity_type (typed_ast n) (Val (Some Boolean))) as X.
  { intros n E. unfold typed_ast. apply ht_logic with (ta := Some Boolean) (tb := Some Boolean); auto.
    - apply ht_order with (ta := Some Int32) (tb := Some Int64) (t := Some Int64); auto.
      + apply (ht_arith _ _ Mul _ _ (Some Int32) (Some Int32) (Some Int32)); auto.
        * apply ht_simple. reflexivity.
        * apply ht_lit. reflexivity.
        * apply num_ok; [apply promotion_is_join; reflexivity|exact I|intros [Q|Q]; discriminate|intros [Q|Q]; discriminate].
        * intros [Q|Q]; discriminate.
        * discriminate.
      + eapply ht_member; [apply (ht_nav _ entity_type n inner_type eq_refl E)|]. apply ht_simple. reflexivity.
      + apply num_ok; [apply promotion_is_join; reflexivity|exact I|intros [Q|Q]; discriminate|intros [Q|Q]; discriminate].
    - apply ht_string with (n := 2%nat); auto.
      + cbn. tauto.
      + eapply hts_cons; [apply ht_simple; reflexivity|auto|]. eapply hts_cons; [apply ht_lit; reflexivity|auto|]. apply hts_nil. }
  split; [apply X; reflexivity|]. split; [apply X; reflexivity|]. split; [reflexivity|]. split; [reflexivity|].
  apply ht_eq with (ta := Some Int32) (tb := Some Int64) (t := Some Int64); auto.
  - apply ht_simple. reflexivity.
  - eapply ht_member; [apply (ht_nav _ entity_type (lit "M") inner_type eq_refl eq_refl)|]. apply ht_simple. reflexivity.
  - apply num_ok; [apply promotion_is_join; reflexivity|exact I|intros [Q|Q]; discriminate|intros [Q|Q]; discriminate].
Qed.

(** * C71 Methods on strings *)
Section Strings.
Variable L : lib.
Theorem startswith_spec : forall s p, exists b, call L (lit "startswith") [sval L s; sval L p] = Ok (bool_ L b) /\ (b = true <-> exists u, s = p ++ u).
Proof. intros s p. exists (starts p s). split; [reflexivity|apply starts_spec]. Qed.
Theorem endswith_spec : forall s p, exists b, call L (lit "endswith") [sval L s; sval L p] = Ok (bool_ L b) /\ (b = true <-> exists u, s = u ++ p).
Proof. intros s p. exists (ends p s). split; [reflexivity|apply ends_spec]. Qed.
(** substringof(p, s): the first argument is looked for in the second *)
Theorem substringof_spec : forall s p, exists b, call L (lit "substringof") [sval L p; sval L s] = Ok (bool_ L b) /\ (b = true <-> exists u w, s = u ++ p ++ w).
Proof.
  intros s p. exists (0 <=? find_ p s). split; [reflexivity|]. unfold find_. destruct (find_from_spec p s 0 (Z.le_refl _)) as [(-> & N)|(n & -> & (a & b & E & _) & _)].
  - split; [discriminate|]. intros (u & w & E). destruct (N (length u)). exists u, w. auto.
  - split; [eauto|]. intros _. apply Z.leb_le. lia.
Qed.
(** indexof: the first position, or -1 *)
Theorem indexof_spec : forall s p, Z.of_nat (length s) < 2 ^ 31 -> exists i, call L (lit "indexof") [sval L s; sval L p] = Ok (ival L Int32 i) /\
  ((i = -1 /\ forall n, ~ at_ p s n) \/ (exists n, i = Z.of_nat n /\ at_ p s n /\ forall m, (m < n)%nat -> ~ at_ p s m)).
Proof.
  intros s p B. exists (find_ p s). assert (forall n, at_ p s n -> (n <= length s)%nat) as Le.
  { intros n (a & b & -> & <-). rewrite app_length. lia. }
  pose proof (find_from_spec p s 0 (Z.le_refl _)) as F. fold (find_ p s) in F. split.
  - change (call L (lit "indexof") [sval L s; sval L p]) with (ret_int L (find_ p s)).
    assert (-1 <= find_ p s < 2 ^ 31) as R. { destruct F as [(-> & _)|(n & -> & H & _)]; [lia|]. apply Le in H. lia. }
    unfold ret_int. pose proof (set_from_int L Int32 (find_ p s) I) as Q. destruct (set_from L Int32 _); cbn [rbind].
    + destruct Q as (-> & _). reflexivity.
    + destruct Q as (_ & Q). exfalso. apply Q. cbn. lia.
  - destruct F as [F|(n & E & F)]; [left; exact F|right; exists n; split; [lia|exact F]].
Qed.
(** replace(s, p, q): the occurrences of p from the left, without overlaps *)
Theorem replace_spec : forall s p q, p <> [] -> exists t, call L (lit "replace") [sval L s; sval L p; sval L q] = Ok (sval L t) /\
  forall u, replaced p q s u <-> u = t.
Proof.
  intros s p q P. exists (replace_ p q s). split; [reflexivity|].
  assert (replaced p q s (replace_ p q s)) as R. { unfold replace_. destruct p; [congruence|]. apply replace_from_spec; [discriminate|lia]. }
  intros u. split; [intros H; eapply replaced_unique; eauto|intros ->; exact R].
Qed.
(** concat and length; substring takes apart what concat puts together *)
Theorem concat_length_substring : forall s u, Z.of_nat (length s) + Z.of_nat (length u) < 2 ^ 31 ->
  call L (lit "concat") [sval L s; sval L u] = Ok (sval L (s ++ u)) /\
  call L (lit "length") [sval L (s ++ u)] = Ok (ival L Int32 (Z.of_nat (length s) + Z.of_nat (length u))) /\
  call L (lit "substring") [sval L (s ++ u); ival L Int32 (Z.of_nat (length s))] = Ok (sval L u) /\
  forall w, call L (lit "substring") [sval L (s ++ u ++ w); ival L Int32 (Z.of_nat (length s)); ival L Int32 (Z.of_nat (length u))] = Ok (sval L u).
Proof.
  intros s u B. assert (forall (a : str) n m, slice n (n + m) a = firstn m (skipn n a)) as SL.
  { intros a n m. unfold slice. f_equal. lia. }
  split; [reflexivity|]. split.
  - change (call L (lit "length") [sval L (s ++ u)]) with (ret_int L (Z.of_nat (length (s ++ u)))). rewrite app_length, Nat2Z.inj_add.
    unfold ret_int. pose proof (set_from_int L Int32 (Z.of_nat (length s) + Z.of_nat (length u)) I) as Q. destruct (set_from L Int32 _); cbn [rbind].
    + destruct Q as (-> & _). reflexivity.
    + destruct Q as (_ & Q). exfalso. apply Q. cbn. lia.
  - assert (forall w n m, (length s + length u <= n)%nat -> n = length (s ++ u ++ w) -> m = (length s + length u)%nat ->
      pyslice (Z.of_nat (length s)) (Z.of_nat m) (s ++ u ++ w) = u) as X.
    { intros w n m Hn En ->. unfold pyslice, clamp. rewrite <- En. rewrite !(proj2 (Z.ltb_ge _ _)) by lia. rewrite !Z.min_l by lia. rewrite !Nat2Z.id, SL.
      rewrite skipn_app, skipn_all, Nat.sub_diag. cbn [skipn app]. rewrite firstn_app, firstn_all, Nat.sub_diag. cbn. apply app_nil_r. }
    split.
    + change (call L (lit "substring") [sval L (s ++ u); ival L Int32 (Z.of_nat (length s))]) with
        (ret_str L (pyslice (Z.of_nat (length s)) (Z.of_nat (length (s ++ u))) (s ++ u))). unfold ret_str. do 4 f_equal.
      pose proof (X [] (length s + length u)%nat (length (s ++ u))) as Y. rewrite app_nil_r in Y. apply Y; rewrite ?app_length; lia.
    + intros w. change (call L (lit "substring") [sval L (s ++ u ++ w); ival L Int32 (Z.of_nat (length s)); ival L Int32 (Z.of_nat (length u))]) with
        (ret_str L (pyslice (Z.of_nat (length s)) (Z.of_nat (length s) + Z.of_nat (length u)) (s ++ u ++ w))). unfold ret_str. do 4 f_equal.
      rewrite <- Nat2Z.inj_add. apply (X w (length (s ++ u ++ w))); auto. rewrite !app_length. lia.
Qed.
(** trim removes the white space at both ends and nothing else *)
Lemma lstrip_spec s : exists a, s = a ++ lstrip L s /\ (forall c, In c a -> s_space L c = true) /\ match lstrip L s with c :: _ => s_space L c = false | [] => True end.
Proof.
  induction s as [|c s (a & E & H & F)]; cbn [lstrip].
  - exists []. split; [auto|split; [contradiction|auto]].
  - destruct (s_space L c) eqn:Q.
    + exists (c :: a). split; [cbn; congruence|]. split; auto. intros d [<-|D]; auto.
    + exists []. split; [auto|split; [contradiction|auto]].
Qed.
Theorem trim_spec : forall s, exists t, call L (lit "trim") [sval L s] = Ok (sval L t) /\
  exists a b, s = a ++ t ++ b /\ (forall c, In c a \/ In c b -> s_space L c = true) /\
    (forall c u, t = c :: u -> s_space L c = false) /\ (forall c u, t = u ++ [c] -> s_space L c = false).
Proof.
  intros s. exists (strip L s). split; [reflexivity|]. unfold strip. destruct (lstrip_spec s) as (a & E & H & F). set (m := lstrip L s) in *.
  destruct (lstrip_spec (rev m)) as (b & E2 & H2 & F2). set (n := lstrip L (rev m)) in *.
  assert (m = rev n ++ rev b) as Em by (rewrite <- rev_app_distr, <- E2, rev_involutive; reflexivity).
  exists a, (rev b). split; [congruence|]. split; [intros c [D|D]; [auto|apply H2, in_rev; auto]|]. split.
  - intros c u Q. rewrite Em, Q in F. exact F.
  - intros c u Q. apply (f_equal (@rev Z)) in Q. rewrite rev_involutive, rev_app_distr in Q. rewrite Q in F2. exact F2.
Qed.
(** a null argument: null of the type of the result *)
Theorem null_argument : forall m n t args, In (m, n, t) string_methods -> length args = n ->
  Forall (fun v => v = OVal L None None \/ v = OVal L (Some String_) None \/ exists s, v = sval L s) args ->
  Exists (fun v => v = OVal L None None \/ v = OVal L (Some String_) None) args ->
  call L m args = Ok (OVal L (Some t) None).
Proof.
  intros m n t args Hm N F X.
  assert (exists nul : value L -> Prop, Exists nul args /\ Forall (fun v => promote_param L v String_ = Ok None \/
     ((exists s, promote_param L v String_ = Ok (Some (PStr L s))) /\ ~ nul v)) args) as (nul & X' & G).
  { exists (fun v => v = OVal L None None \/ v = OVal L (Some String_) None). split; auto.
    eapply Forall_impl; [|exact F]. intros v [->|[->|(s & ->)]]; cbn; [left; auto|left; auto|right; split; [eauto|intros [Q|Q]; discriminate]]. }
  clear F X. unfold string_methods in Hm. cbn [In] in Hm.
  repeat match type of Hm with _ \/ _ => destruct Hm as [Hm|Hm] end; try contradiction; injection Hm as <- E2 <-; rewrite <- E2 in N; clear E2;
    destruct args as [|a [|b [|c [|? ?]]]]; cbn in N; try discriminate;
    repeat match goal with H : Forall _ (_ :: _) |- _ => inversion H; subst; clear H end;
    calls; unfold str1, str2;
    repeat match goal with H : promote_param L ?v String_ = Ok None \/ _ |- _ => let s := fresh "s" in let Q := fresh "Q" in destruct H as [->|((s & ->) & Q)] end; cbn [rbind]; try reflexivity;
    exfalso; repeat match goal with H : Exists _ (_ :: _) |- _ => inversion H; subst; clear H | H : Exists _ [] |- _ => inversion H end; tauto.
Qed.
End Strings.
Example strings_example :
  call zlib (lit "indexof") [sval zlib (lit "banana"); sval zlib (lit "an")] = Ok (ival zlib Int32 1) /\
  call zlib (lit "replace") [sval zlib (lit "aaab"); sval zlib (lit "aa"); sval zlib (lit "xyz")] = Ok (sval zlib (lit "xyzab")) /\
  call zlib (lit "trim") [sval zlib (lit "  a b ")] = Ok (sval zlib (lit "a b")) /\
  call zlib (lit "substringof") [sval zlib (lit "nan"); sval zlib (lit "banana")] = Ok (bool_ zlib true).
Proof. repeat split. Qed.
(** a negative start of substring counts from the end of the string *)
Theorem substring_negative_refuted :
  call zlib (lit "substring") [sval zlib (lit "abc"); ival zlib Int32 (-1)] = Ok (sval zlib (lit "c")).
Proof. reflexivity. Qed.

Print Assumptions promotion_is_join.
Print Assumptions promotion_algebra.
Print Assumptions sbyte_promotion_refuted.
Print Assumptions logic_table.
Print Assumptions logic_null.
Print Assumptions filter_true.
Print Assumptions filter_and_or.
Print Assumptions filter_or_null_refuted.
Print Assumptions eq_symmetric.
Print Assumptions ne_is_not_eq.
Print Assumptions order_mirrored.
Print Assumptions integers_compared.
Print Assumptions strings_compared.
Print Assumptions null_compared.
Print Assumptions comparison_total_refuted.
Print Assumptions null_null_compared.
Print Assumptions entities_compared.
Print Assumptions integer_negation.
Print Assumptions null_arithmetic.
Print Assumptions cast_spec.
Print Assumptions unknown_property.
Print Assumptions integer_arithmetic.
Print Assumptions integer_division_by_zero.
Print Assumptions div_mod_identity.
Print Assumptions int64_division_refuted.
Print Assumptions well_typed_evaluates.
Print Assumptions safe_expressions.
Print Assumptions well_typed_filter.
Print Assumptions path_filter_refuted.
Print Assumptions startswith_spec.
Print Assumptions endswith_spec.
Print Assumptions substringof_spec.
Print Assumptions indexof_spec.
Print Assumptions replace_spec.
Print Assumptions concat_length_substring.
Print Assumptions trim_spec.
Print Assumptions null_argument.
Print Assumptions substring_negative_refuted.
