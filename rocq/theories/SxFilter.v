(** C101: filters in SQL and in memory *)
From Verif Require Import Py ExprModel EvalModel EvalSpec EvalProofs SxModel SxSpec SxPrint SxRead SxSem SxProps.
Local Open Scope Z_scope.

(** * LIKE *)
Section LikeP.
Variable fold : Z -> Z.
Notation like := (like fold).
Lemma like_pct p s : like (37 :: p) s = true <-> exists u v, s = u ++ v /\ like p v = true.
Proof using Type.
  cbn [SxSem.like]. change (37 =? 37) with true. cbv iota.
  induction s as [|c s IH].
  - rewrite orb_false_r. split.
    + intros H. exists [], []. auto.
    + intros (u & v & E & H). symmetry in E. apply app_eq_nil in E as [-> ->]. exact H.
  - rewrite orb_true_iff, IH. split.
    + intros [H|(u & v & -> & H)]; [exists [], (c :: s); auto|exists (c :: u), v; auto].
    + intros (u & v & E & H). destruct u as [|d u]; cbn [app] in E.
      * left. now rewrite E.
      * injection E as -> ->. right. eauto.
Qed.
Lemma like_all s : like [37] s = true.
Proof using Type. apply like_pct. exists s, []. rewrite app_nil_r. auto. Qed.
End LikeP.
Lemma like_plain p q : plain_text p -> forall s,
  like no_fold (p ++ q) s = true <-> exists v, s = p ++ v /\ like no_fold q v = true.
Proof.
  unfold plain_text. induction p as [|c p IH]; intros [H1 H2] s; cbn [app].
  - split; [intros H; exists s; auto|intros (v & -> & H); exact H].
  - cbn [like]. assert (E1 : (c =? 37) = false) by (apply Z.eqb_neq; intros ->; apply H1; now left).
    assert (E2 : (c =? 95) = false) by (apply Z.eqb_neq; intros ->; apply H2; now left).
    rewrite E1, E2. cbn [orb]. destruct s as [|d s].
    + split; [discriminate|intros (v & E & _); discriminate].
    + rewrite andb_true_iff, IH by (split; intros K; [apply H1|apply H2]; now right).
      unfold no_fold at 1 2. rewrite Z.eqb_eq. split.
      * intros (-> & v & -> & H). eauto.
      * intros (v & E & H). injection E as -> ->. eauto.
Qed.
Lemma like_nil s : like no_fold [] s = true <-> s = [].
Proof. destruct s; cbn; split; intros; try discriminate; reflexivity. Qed.

Lemma like_starts p s : plain_text p -> like no_fold (p ++ [37]) s = starts p s.
Proof.
  intros H. apply eq_true_iff_eq. rewrite (like_plain p [37] H s), starts_spec.
  split; intros (v & K); [exists v; tauto|exists v; split; [exact K|apply like_all]].
Qed.
Lemma like_ends p s : plain_text p -> like no_fold ([37] ++ p) s = ends p s.
Proof.
  intros H. apply eq_true_iff_eq. cbn [app]. rewrite like_pct, ends_spec. split.
  - intros (u & v & -> & K). rewrite <- (app_nil_r p) in K. apply (like_plain p [] H) in K as (w & -> & K).
    apply like_nil in K as ->. exists u. now rewrite app_nil_r.
  - intros (u & ->). exists u, p. split; [reflexivity|]. rewrite <- (app_nil_r p) at 1.
    apply (like_plain p [] H). exists []. rewrite app_nil_r. auto.
Qed.
Lemma like_in p s : plain_text p -> like no_fold ([37] ++ p ++ [37]) s = (0 <=? find_ p s).
Proof.
  intros H. apply eq_true_iff_eq. cbn [app]. rewrite like_pct, Z.leb_le.
  assert (X : (exists u v, s = u ++ v /\ like no_fold (p ++ [37]) v = true) <-> exists n, at_ p s n).
  { split.
    - intros (u & v & -> & K). apply (like_plain p [37] H) in K as (w & -> & _). exists (length u), u, w. auto.
    - intros (n & a & b & -> & _). exists a, (p ++ b). split; [reflexivity|].
      apply (like_plain p [37] H). exists b. split; [reflexivity|apply like_all]. }
  rewrite X. unfold find_. destruct (find_from_spec p s 0 ltac:(lia)) as [(E & N)|(n & E & K & _)]; rewrite E.
  - split; [intros (n & K); elim (N n K)|lia].
  - split; [lia|intros _; eauto].
Qed.

(** * Comparisons *)
Lemma rel_int r a b : rel_of (a <? b) (a =? b) r =
  match r, a ?= b with
  | RLt, Lt | RGt, Gt | RLe, Lt | RLe, Eq | RGe, Gt | RGe, Eq => true
  | _, _ => false
  end.
Proof.
  destruct (Z.compare_spec a b) as [->|H|H], r; cbn [rel_of];
    rewrite ?Z.ltb_irrefl, ?Z.eqb_refl; cbn [orb negb]; auto;
    [replace (a <? b) with true by (symmetry; apply Z.ltb_lt; lia)..
    |replace (a <? b) with false by (symmetry; apply Z.ltb_ge; lia)
    |replace (a <? b) with false by (symmetry; apply Z.ltb_ge; lia)
    |replace (a <? b) with false by (symmetry; apply Z.ltb_ge; lia)
    |replace (a <? b) with false by (symmetry; apply Z.ltb_ge; lia)];
    try (replace (a =? b) with false by (symmetry; apply Z.eqb_neq; lia)); reflexivity.
Qed.
Lemma str_cmp_lt a : forall b, str_lt a b = match str_cmp a b with Lt => true | _ => false end.
Proof.
  induction a as [|x a IH]; intros [|y b]; cbn [str_lt str_cmp]; auto.
  rewrite IH. destruct (Z.compare_spec x y) as [->|H|H].
  - rewrite Z.ltb_irrefl, Z.eqb_refl. reflexivity.
  - replace (x <? y) with true by (symmetry; apply Z.ltb_lt; lia). reflexivity.
  - replace (x <? y) with false by (symmetry; apply Z.ltb_ge; lia).
    replace (x =? y) with false by (symmetry; apply Z.eqb_neq; lia). reflexivity.
Qed.
Lemma str_cmp_eq a : forall b, str_eqb a b = match str_cmp a b with Eq => true | _ => false end.
Proof.
  induction a as [|x a IH]; intros [|y b]; cbn [str_eqb str_cmp]; auto.
  rewrite IH. destruct (Z.compare_spec x y) as [->|H|H].
  - rewrite Z.eqb_refl. reflexivity.
  - replace (x =? y) with false by (symmetry; apply Z.eqb_neq; lia). reflexivity.
  - replace (x =? y) with false by (symmetry; apply Z.eqb_neq; lia). reflexivity.
Qed.
Lemma rel_str r a b : rel_of (str_lt a b) (str_eqb a b) r =
  match r, str_cmp a b with
  | RLt, Lt | RGt, Gt | RLe, Lt | RLe, Eq | RGe, Gt | RGe, Eq => true
  | _, _ => false
  end.
Proof. rewrite str_cmp_lt, str_cmp_eq. destruct (str_cmp a b), r; reflexivity. Qed.
Lemma eq_int a b : (a =? b) = match a ?= b with Eq => true | _ => false end.
Proof. unfold Z.eqb. now destruct (a ?= b) eqn:E; [apply Z.compare_eq in E; subst; apply Z.eqb_refl|apply Z.eqb_neq; intros ->; rewrite Z.compare_refl in E..]. Qed.

Section Sem.
Variable L : lib.
Notation sqlv := (sql no_fold).
Notation V1 t p := (OVal L (Some t) (Some p)).

Definition sv_pv (p : pv L) : sv :=
  match p with PBool _ b => VB b | PInt _ z => VI z | PStr _ s => VS s | _ => VNull end.
(** the value in memory is not null, and that of SQL is the same *)
Definition same (v : EvalModel.value L) (w : sv) : Prop :=
  exists t p, v = V1 t p /\ plain_value L t p /\ w = sv_pv p.

Inductive pvt : tc -> pv L -> Prop :=
| pi t z : t = Byte \/ t = Int16 \/ t = Int32 \/ t = Int64 -> pvt t (PInt L z)
| ps s : pvt String_ (PStr L s)
| pb b : pvt Boolean (PBool L b).
Lemma plain_cases t p : plain_value L t p -> pvt t p.
Proof using Type. destruct t, p; cbn; intros H; try destruct H; constructor; auto. Qed.

Lemma cast_int t t' z q : simple_cast L t (Some t') (Some (PInt L z)) = Ok q ->
  t = Byte \/ t = Int16 \/ t = Int32 \/ t = Int64 -> q = Some (PInt L z).
Proof using Type.
  unfold simple_cast. destruct (tco_eqb (Some t') (Some t)).
  - intros E _. injection E as <-. reflexivity.
  - intros E [->|[->|[->| ->]]]; cbn [set_from int_range] in E;
      match type of E with context [if ?x then _ else _] => destruct x end;
      cbn [rbind] in E; try discriminate E; injection E as <-; reflexivity.
Qed.
Lemma set_int t z v : set_result L t (PInt L z) = Ok v -> t = Byte \/ t = Int16 \/ t = Int32 \/ t = Int64 -> v = PInt L z.
Proof using Type.
  unfold set_result. intros E [->|[->|[->| ->]]]; cbn [set_from int_range] in E;
    match type of E with context [if ?x then _ else _] => destruct x end;
    try discriminate E; injection E as <-; reflexivity.
Qed.
Lemma promote_int t t' r : promote (Some t) (Some t') = Ok r ->
  t = Byte \/ t = Int16 \/ t = Int32 \/ t = Int64 -> t' = Byte \/ t' = Int16 \/ t' = Int32 \/ t' = Int64 ->
  exists u, r = Some u /\ (u = Byte \/ u = Int16 \/ u = Int32 \/ u = Int64).
Proof using Type.
  intros E [->|[->|[->| ->]]] [->|[->|[->| ->]]]; cbn in E; injection E as <-; eexists; split; try reflexivity; auto.
Qed.

(** ** The operators *)
Definition aop_g (o : aop) : option gop :=
  match o with AMul => Some GMul | AAdd => Some GAdd | ASub => Some GSub | _ => None end.
Lemma same_arith o g a b v x y : aop_g o = Some g -> same a x -> same b y ->
  eval_arith L o a b = Ok v -> same v (sql_op no_fold g x y).
Proof using Type.
  intros G (t & p & -> & Hp & ->) (t' & p' & -> & Hp' & ->).
  apply plain_cases in Hp, Hp'. cbn [eval_arith].
  assert (W : forall A (r : res A), wrap o r = r) by (intros A r; destruct o; try discriminate G; destruct r; reflexivity).
  rewrite W. intros E. apply rbind_ok in E as (u & Eu & E).
  destruct Hp as [t z Ht|s|c].
  - destruct Hp' as [t' z' Ht'|s'|c'].
    + destruct (promote_int _ _ _ Eu Ht Ht') as (k & -> & Hk).
      destruct (in_tc k op_types); [|discriminate].
      apply rbind_ok in E as (q & Eq & E). apply rbind_ok in E as (q' & Eq' & E).
      apply cast_int in Eq as ->; [|exact Hk]. apply cast_int in Eq' as ->; [|exact Hk].
      apply rbind_ok in E as (w & Ew & E). apply rbind_ok in E as (w' & Ew' & E). injection E as <-.
      destruct o; try discriminate G; injection G as <-; cbn [arith rbind] in Ew; injection Ew as <-;
        apply set_int in Ew' as ->; try exact Hk;
        (eexists; eexists; split; [reflexivity|]; split; [destruct Hk as [->|[->|[->| ->]]]; exact Logic.I|reflexivity]).
    + destruct Ht as [->|[->|[->| ->]]]; discriminate Eu.
    + destruct Ht as [->|[->|[->| ->]]]; discriminate Eu.
  - destruct Hp' as [t' z' Ht'|s'|c']; [destruct Ht' as [->|[->|[->| ->]]]; discriminate Eu| |discriminate Eu].
    injection Eu as <-. discriminate E.
  - destruct Hp' as [t' z' Ht'|s'|c']; [destruct Ht' as [->|[->|[->| ->]]]; discriminate Eu|discriminate Eu|].
    injection Eu as <-. discriminate E.
Qed.
Definition rel_g (r : rel) : gop := match r with RLt => GLt | RGt => GGt | RLe => GLe | RGe => GGe end.
Lemma same_bool b w : w = VB b -> same (bool_ L b) w.
Proof using Type. intros ->. exists Boolean, (PBool L b). repeat split. Qed.
Lemma same_rel r a b v x y : same a x -> same b y ->
  eval_rel L r a b = Ok v -> same v (sql_op no_fold (rel_g r) x y).
Proof using Type.
  intros (t & p & -> & Hp & ->) (t' & p' & -> & Hp' & ->).
  apply plain_cases in Hp, Hp'. cbn [eval_rel]. intros E. apply rbind_ok in E as (u & Eu & E).
  destruct Hp as [t z Ht|s|c].
  - destruct Hp' as [t' z' Ht'|s'|c'];
      [|destruct Ht as [->|[->|[->| ->]]]; discriminate Eu|destruct Ht as [->|[->|[->| ->]]]; discriminate Eu].
    destruct (promote_int _ _ _ Eu Ht Ht') as (k & -> & Hk).
    destruct (in_tc k op_types).
    + apply rbind_ok in E as (q & Eq & E). apply rbind_ok in E as (q' & Eq' & E).
      apply cast_int in Eq as ->; [|exact Hk]. apply cast_int in Eq' as ->; [|exact Hk].
      cbn [compare_ rbind] in E. injection E as <-. apply same_bool. rewrite rel_int.
      destruct r; cbn [rel_g sql_op sv_pv cmp]; destruct (z ?= z'); reflexivity.
    + destruct Hk as [->|[->|[->| ->]]]; discriminate E.
  - destruct Hp' as [t' z' Ht'|s'|c']; [destruct Ht' as [->|[->|[->| ->]]]; discriminate Eu| |discriminate Eu].
    injection Eu as <-. cbn [in_tc existsb op_types tc_eqb orb] in E. cbn [compare_ rbind] in E. injection E as <-.
    apply same_bool. rewrite rel_str. destruct r; cbn [rel_g sql_op sv_pv cmp]; destruct (str_cmp s s'); reflexivity.
  - destruct Hp' as [t' z' Ht'|s'|c']; [destruct Ht' as [->|[->|[->| ->]]]; discriminate Eu|discriminate Eu|].
    injection Eu as <-. discriminate E.
Qed.
Lemma eval_eq_same a b v x y : same a x -> same b y ->
  eval_eq L a b = Ok v -> exists k, v = bool_ L k /\
    sql_op no_fold GEq x y = VB k /\ sql_op no_fold GNe x y = VB (negb k).
Proof using Type.
  intros (t & p & -> & Hp & ->) (t' & p' & -> & Hp' & ->).
  apply plain_cases in Hp, Hp'. cbn [eval_eq]. intros E. apply rbind_ok in E as (u & Eu & E).
  destruct Hp as [t z Ht|s|c].
  - destruct Hp' as [t' z' Ht'|s'|c'];
      [|destruct Ht as [->|[->|[->| ->]]]; discriminate Eu|destruct Ht as [->|[->|[->| ->]]]; discriminate Eu].
    destruct (promote_int _ _ _ Eu Ht Ht') as (k & -> & Hk).
    destruct (in_tc k op_types).
    + apply rbind_ok in E as (q & Eq & E). apply rbind_ok in E as (q' & Eq' & E).
      apply cast_int in Eq as ->; [|exact Hk]. apply cast_int in Eq' as ->; [|exact Hk].
      cbn [equal_] in E. injection E as <-. eexists. split; [reflexivity|]. rewrite eq_int.
      cbn [sql_op sv_pv cmp]. destruct (z ?= z'); split; reflexivity.
    + destruct Hk as [->|[->|[->| ->]]]; discriminate E.
  - destruct Hp' as [t' z' Ht'|s'|c']; [destruct Ht' as [->|[->|[->| ->]]]; discriminate Eu| |discriminate Eu].
    injection Eu as <-. cbn [in_tc existsb op_types tc_eqb orb] in E. cbn [equal_ rbind] in E. injection E as <-.
    eexists. split; [reflexivity|]. rewrite str_cmp_eq. cbn [sql_op sv_pv cmp]. destruct (str_cmp s s'); split; reflexivity.
  - destruct Hp' as [t' z' Ht'|s'|c']; [destruct Ht' as [->|[->|[->| ->]]]; discriminate Eu|discriminate Eu|].
    injection Eu as <-. discriminate E.
Qed.
Lemma same_eq a b v x y : same a x -> same b y -> eval_eq L a b = Ok v -> same v (sql_op no_fold GEq x y).
Proof using Type. intros A B E. destruct (eval_eq_same _ _ _ _ _ A B E) as (k & -> & H & _). now apply same_bool. Qed.
Lemma same_ne a b v x y : same a x -> same b y -> eval_ne L a b = Ok v -> same v (sql_op no_fold GNe x y).
Proof using Type.
  intros A B E. unfold eval_ne in E. apply rbind_ok in E as (w & Ew & E).
  destruct (eval_eq_same _ _ _ _ _ A B Ew) as (k & -> & _ & H). cbn in E. injection E as <-. now apply same_bool.
Qed.
Lemma same_logic op op3 g a b v x y :
  (forall p q, op3 (Some p) (Some q) = Some (op p q)) ->
  (forall x y, sql_op no_fold g x y = of3 (op3 (b3 x) (b3 y))) ->
  same a x -> same b y -> eval_logic L op a b = Ok v -> same v (sql_op no_fold g x y).
Proof using Type.
  intros H3 Hg (t & p & -> & Hp & ->) (t' & p' & -> & Hp' & ->).
  apply plain_cases in Hp, Hp'. cbn [eval_logic]. intros E. apply rbind_ok in E as (u & Eu & E).
  destruct Hp as [t z Ht|s|c].
  - destruct Hp' as [t' z' Ht'|s'|c'];
      [|destruct Ht as [->|[->|[->| ->]]]; discriminate Eu|destruct Ht as [->|[->|[->| ->]]]; discriminate Eu].
    destruct (promote_int _ _ _ Eu Ht Ht') as (k & -> & Hk).
    destruct Hk as [->|[->|[->| ->]]]; discriminate E.
  - destruct Hp' as [t' z' Ht'|s'|c']; [destruct Ht' as [->|[->|[->| ->]]]; discriminate Eu| |discriminate Eu].
    injection Eu as <-. discriminate E.
  - destruct Hp' as [t' z' Ht'|s'|c']; [destruct Ht' as [->|[->|[->| ->]]]; discriminate Eu|discriminate Eu|].
    injection Eu as <-. cbn [rbind] in E. injection E as <-. apply same_bool. rewrite Hg. cbn [sv_pv b3]. rewrite H3. reflexivity.
Qed.

(** ** The methods *)
Lemma promote_str v x q : same v x -> promote_param L v String_ = Ok q -> exists s t, q = Some (PStr L s) /\ x = VS s /\ v = OVal L t (Some (PStr L s)).
Proof using Type.
  intros (t & p & -> & Hp & ->) E. apply plain_cases in Hp. destruct Hp as [t z [->|[->|[->| ->]]]|s|c]; cbn in E; try discriminate.
  injection E as <-. exists s, (Some String_). auto.
Qed.
Lemma strict_str v x q : same v x -> strict_param L v String_ = Ok q -> exists s, q = Some (PStr L s) /\ x = VS s.
Proof using Type.
  intros (t & p & -> & Hp & ->) E. apply plain_cases in Hp. destruct Hp as [t z [->|[->|[->| ->]]]|s|c]; cbn in E; try discriminate.
  injection E as <-. exists s. auto.
Qed.
Lemma same_str2 f a b v x y : same a x -> same b y ->
  str2 L (promote_param L) Boolean a b (fun s p => ret_bool L (f s p)) = Ok v ->
  exists s p t, x = VS s /\ y = VS p /\ v = bool_ L (f s p) /\ a = OVal L t (Some (PStr L s)) /\
    (exists t', b = OVal L t' (Some (PStr L p))).
Proof using Type.
  intros A B E. unfold str2 in E. apply rbind_ok in E as (q & Eq & E). apply rbind_ok in E as (q' & Eq' & E).
  destruct (promote_str _ _ _ A Eq) as (s & t & -> & -> & ->). destruct (promote_str _ _ _ B Eq') as (p & t' & -> & -> & ->).
  injection E as <-. exists s, p, t. repeat split. eauto.
Qed.

Section Entity.
Variable ty : Py.str.
Variables es key : Z.
Variable props : list (Py.str * slot L).
Notation ent := (OEnt L ty es key props).
Variable field : list string -> sx_res (string * string).
Variable sqlite : bool.
Hypothesis Hf : forall n, field [n] = SErr XEval \/ exists t, field [n] = SOk (t, n).
Hypothesis Hn : no_nulls L props.
Notation W := (SxSpec.value (sqlv (row_of L props))).
Notation ev e := (eval L (Some ent) (conv e)).

Lemma same_main e : simple e = true -> plain_patterns L ent e ->
  forall v t, ev e = Ok v -> sql_of sqlite prep_lit field e = Some t -> same v (W t).
Proof using Hf Hn.
  induction e as [l|n|a IH|o a b IHa IHb|m args IH] using ex_rect'; intros Hs Hp v t E Et.
  - destruct l; try discriminate Hs; cbn in E, Et; injection E as <-; injection Et as <-.
    + now apply same_bool.
    + exists Int32, (PInt L z). repeat split.
    + exists Int64, (PInt L z). repeat split.
    + exists String_, (PStr L s). repeat split.
  - cbn [conv eval eval_prop] in E. cbn [sql_of col_of] in Et.
    destruct (Hf n) as [F|(tb & F)]; rewrite F in Et; [discriminate|]. injection Et as <-.
    cbn [SxSpec.value sql icol]. unfold row_of. destruct (assoc (lit n) props) as [o|] eqn:A; [|discriminate].
    destruct (Hn _ _ A) as (ty' & p & -> & Hpl). injection E as <-.
    exists ty', p. split; [reflexivity|]. split; [exact Hpl|]. apply plain_cases in Hpl. destruct Hpl; reflexivity.
  - discriminate.
  - cbn [plain_patterns] in Hp. destruct Hp as [Pa Pb]. cbn [conv eval] in E.
    assert (G : forall g, bin_of o = Some g -> (match o with SxModel.BMember => False | _ => True end) ->
       exists ta tb, sql_of sqlite prep_lit field a = Some ta /\ sql_of sqlite prep_lit field b = Some tb /\ t = TrBin g ta tb).
    { intros g Eg No. cbn [sql_of] in Et. destruct o; try (elim No); try discriminate Eg;
        cbn [bin_of] in Eg, Et; injection Eg as <-;
        destruct (sql_of sqlite prep_lit field a) as [ta|]; try discriminate Et;
        destruct (sql_of sqlite prep_lit field b) as [tb|]; try discriminate Et; injection Et as <-; eauto. }
    cbn [simple] in Hs.
    destruct o; try discriminate Hs; cbn [conv_op] in E;
      destruct (G _ eq_refl Logic.I) as (ta & tb & Ea & Eb & ->);
      apply andb_prop in Hs as [Sa Sb];
      apply rbind_ok in E as (va & Eva & E); apply rbind_ok in E as (vb & Evb & E);
      pose proof (IHa Sa Pa _ _ Eva Ea) as A; pose proof (IHb Sb Pb _ _ Evb Eb) as B;
      cbn [SxSpec.value sql iop]; cbn [bin_method] in E.
    + exact (same_arith AMul GMul _ _ _ _ _ eq_refl A B E).
    + exact (same_arith AAdd GAdd _ _ _ _ _ eq_refl A B E).
    + exact (same_arith ASub GSub _ _ _ _ _ eq_refl A B E).
    + exact (same_rel RLt _ _ _ _ _ A B E).
    + exact (same_rel RGt _ _ _ _ _ A B E).
    + exact (same_rel RLe _ _ _ _ _ A B E).
    + exact (same_rel RGe _ _ _ _ _ A B E).
    + exact (same_eq _ _ _ _ _ A B E).
    + exact (same_ne _ _ _ _ _ A B E).
    + refine (same_logic andb and3 GAnd _ _ _ _ _ _ _ A B E); [intros [] []; reflexivity|reflexivity].
    + refine (same_logic orb or3 GOr _ _ _ _ _ _ _ A B E); [intros [] []; reflexivity|reflexivity].
  - cbn [conv eval] in E. cbn [sql_of] in Et. cbn [plain_patterns] in Hp. destruct Hp as [Pm Pargs].
    destruct args as [|a [|b [|c args]]]; [destruct m; discriminate Hs| | |destruct m; discriminate Hs].
    + (* length *)
      destruct m; try discriminate Hs. inversion IH as [|? ? IHa _]; subst. destruct Pargs as [Pa _].
      cbn [map] in E, Et. cbn [call_of] in Et.
      destruct (sql_of sqlite prep_lit field a) as [ta|] eqn:Ea; [|discriminate]. injection Et as <-.
      cbn [simple] in Hs.
      apply rbind_ok in E as (vs & Evs & E). apply rbind_ok in Evs as (va & Eva & Evs).
      cbn [rbind] in Evs. injection Evs as <-.
      pose proof (IHa Hs Pa _ _ Eva eq_refl) as A.
      change (str1 L (strict_param L) Int32 va (fun s => ret_int L (Z.of_nat (length s))) = Ok v) in E.
      unfold str1 in E. apply rbind_ok in E as (q & Eq & E).
      destruct (strict_str _ _ _ A Eq) as (s & -> & Hx).
      unfold ret_int in E. apply rbind_ok in E as (r & Er & E). injection E as <-.
      change (set_result L Int32 (PInt L (Z.of_nat (length s))) = Ok r) in Er. apply set_int in Er as ->; [|auto].
      exists Int32, (PInt L (Z.of_nat (length s))). split; [reflexivity|]. split; [exact Logic.I|].
      cbn [SxSpec.value sql ifun]. rewrite Hx. destruct sqlite; reflexivity.
    + inversion IH as [|? ? IHa IH']; subst. inversion IH' as [|? ? IHb _]; subst. destruct Pargs as (Pa & Pb & _).
      assert (Sab : simple a && simple b = true) by (destruct m; try discriminate Hs; exact Hs).
      apply andb_prop in Sab as [Sa Sb]. cbn [map] in E, Et.
      apply rbind_ok in E as (vs & Evs & E). apply rbind_ok in Evs as (va & Eva & Evs).
      apply rbind_ok in Evs as (vs' & Evs' & Evs). apply rbind_ok in Evs' as (vb & Evb & Evs').
      cbn [rbind] in Evs'. injection Evs' as <-. injection Evs as <-.
      assert (Hab : exists ta tb, sql_of sqlite prep_lit field a = Some ta /\ sql_of sqlite prep_lit field b = Some tb /\
                    call_of sqlite m [Some ta; Some tb] = Some t).
      { destruct (sql_of sqlite prep_lit field a) as [ta|]; [|destruct m; discriminate].
        destruct (sql_of sqlite prep_lit field b) as [tb|]; [eauto|destruct m; discriminate]. }
      destruct Hab as (ta & tb & Ea & Eb & Ec).
      pose proof (IHa Sa Pa _ _ Eva Ea) as A. pose proof (IHb Sb Pb _ _ Evb Eb) as B.
      destruct m; try discriminate Hs; cbn [call_of] in Ec; injection Ec as <-; cbn [SxSpec.value sql iop sql_op istr pct].
      * (* endswith *)
        change (str2 L (promote_param L) Boolean va vb (fun s p => ret_bool L (ends p s)) = Ok v) in E.
        destruct (same_str2 _ _ _ _ _ _ A B E) as (s & p & t & -> & -> & -> & _ & (t' & ->)).
        apply same_bool. change (lit "%") with [37]. rewrite (like_ends p s (Pm _ _ Evb)). reflexivity.
      * (* startswith *)
        change (str2 L (promote_param L) Boolean va vb (fun s p => ret_bool L (starts p s)) = Ok v) in E.
        destruct (same_str2 _ _ _ _ _ _ A B E) as (s & p & t & -> & -> & -> & _ & (t' & ->)).
        apply same_bool. change (lit "%") with [37]. rewrite (like_starts p s (Pm _ _ Evb)). reflexivity.
      * (* substringof *)
        change (str2 L (promote_param L) Boolean va vb (fun p s => ret_bool L (0 <=? find_ p s)) = Ok v) in E.
        destruct (same_str2 _ _ _ _ _ _ A B E) as (p & s & t & -> & -> & -> & -> & _).
        apply same_bool. change (lit "%") with [37]. rewrite (like_in p s (Pm _ _ Eva)). reflexivity.
      * (* concat *)
        change (str2 L (strict_param L) String_ va vb (fun s u => ret_str L (s ++ u)) = Ok v) in E.
        unfold str2 in E. apply rbind_ok in E as (q & Eq & E). apply rbind_ok in E as (q' & Eq' & E).
        destruct (strict_str _ _ _ A Eq) as (s & -> & ->). destruct (strict_str _ _ _ B Eq') as (u & -> & ->).
        injection E as <-. exists String_, (PStr L (s ++ u)). repeat split.
Qed.
End Entity.
End Sem.
