(** Well-typed expressions evaluate to a value of their type. *)
From Verif Require Import Py ExprModel ExprSpec EvalModel EvalSpec.

Ltac calls := unfold call;
  repeat match goal with |- context [str_eqb ?x ?y] => let b := eval vm_compute in (str_eqb x y) in change (str_eqb x y) with b; cbv iota end.
Section Typed.
Variable L : lib.
Variable fits : tc -> fl L -> Prop.
Hypothesis K : lib_ok L fits.
Variable A : exn -> Prop.

(** the outcome of an evaluation *)
Definition good (T : ty) (r : res (value L)) : Prop :=
  match r with Ok v => inhabits L fits T v | Err e => A e end.

(** * Promotion *)
Lemma promotes_num a y : arith_type y -> promotes a (Some y) -> a = None \/ exists x m n, a = Some x /\ rank x = Some m /\ rank y = Some n /\ m <= n.
Proof.
  intros Y [->|[->|(x & z & m & n & -> & Q & Rx & Ry & B)]]; auto.
  - right. destruct y; try contradiction; do 3 eexists; (split; [reflexivity|]); (split; [reflexivity|]); (split; [reflexivity|]); lia.
  - inversion Q; subst. right. eauto 10.
Qed.
Lemma promotes_none a : promotes a None -> a = None.
Proof. intros [->|[->|(x & y & m & n & _ & Q & _)]]; auto. discriminate. Qed.

(** an operand, at run time *)
Definition side (t : option tc) (t' : option tc) (p : option (pv L)) : Prop :=
  (t' = None /\ p = None) \/
  exists x m, t' = Some x /\ rank x = Some m /\ (forall q, p = Some q -> holds L fits x q /\ t = Some x) /\ (small t' -> small t).
Lemma side_of t t' p y : arith_type y -> promotes t (Some y) ->
  (match p with None => null_type t' t | Some q => t' = t /\ exists x, t = Some x /\ holds L fits x q end) -> side t t' p.
Proof.
  intros Y P H. apply promotes_num in P; auto. destruct p as [q|].
  - destruct H as (-> & x & -> & H). right. destruct P as [P|(x' & m & n & Q & Rx & Ry & B)]; [discriminate|]. inversion Q; subst x'.
    exists x, m. split; auto. split; auto. split; [|auto]. intros q' E. inversion E; subst. auto.
  - destruct H as [->|[->|(x & z & -> & -> & Ax & Az)]]; [left; auto| |].
    + destruct P as [->|(x & m & n & -> & Rx & _)]; [left; auto|]. right. exists x, m. split; auto. split; auto. split; auto. discriminate.
    + right. destruct x; try contradiction; do 2 eexists; (split; [reflexivity|]); (split; [reflexivity|]); split; try discriminate;
        intros [S|S]; discriminate.
Qed.
Lemma range_ok t lo hi z : int_range t = Some (lo, hi) -> in_range t z <-> lo <= z <= hi.
Proof. destruct t; cbn; intros Q; inversion Q; subst; cbn [in_range]; lia. Qed.
Lemma set_from_int t z : is_int t -> match set_from L t (PInt L z) with Ok p => p = PInt L z /\ in_range t z | Err e => e = ValueError /\ ~ in_range t z end.
Proof.
  intros I. assert (exists lo hi, int_range t = Some (lo, hi)) as (lo & hi & R) by (destruct t; try contradiction; cbn; eauto).
  pose proof (range_ok t lo hi z R) as Q.
  assert (set_from L t (PInt L z) = if (z <? lo) || (hi <? z) then Err ValueError else Ok (PInt L z)) as ->.
  { destruct t; try contradiction; cbn in *; inversion R; subst; reflexivity. }
  destruct ((z <? lo) || (hi <? z)) eqn:B.
  - split; auto. rewrite orb_true_iff, !Z.ltb_lt in B. rewrite Q. lia.
  - split; auto. rewrite orb_false_iff, !Z.ltb_ge in B. rewrite Q. lia.
Qed.
Lemma rank_int t n : rank t = Some n -> (n <= 3 /\ is_int t) \/ (4 <= n /\ number_type t /\ ~ is_int t).
Proof. unfold number_type. destruct t; cbn; intros Q; inversion Q; subst; first [left; split; [lia|exact Logic.I]|right; split; [lia|tauto]]. Qed.
Lemma set_from_num t p : number_type t -> set_from L t p =
  match p with
  | PInt _ z => let! f := f_int L t z in Ok (PNum L f)
  | PNum _ f => let! g := f_conv L t f in Ok (PNum L g)
  | _ => Err TypeError end.
Proof. intros [->|[->| ->]]; destruct p; reflexivity. Qed.
Lemma widen_set x y m n q : rank x = Some m -> rank y = Some n -> m <= n -> holds L fits x q ->
  exists q', set_from L y q = Ok q' /\ holds L fits y q' /\ (forall z, q = PInt L z -> is_int y -> q' = PInt L z).
Proof.
  intros Rx Ry B H. destruct q as [b|z|s|l|h|f|t]; try (cbn in H; subst; discriminate).
  - destruct H as (Ix & R). destruct (rank_int y n Ry) as [(N & Iy)|(N & Ny & Iy)].
    + pose proof (set_from_int y z Iy) as Q. assert (in_range y z) as R'.
      { destruct x; cbn in Rx, Ix, R; try contradiction; try discriminate; inversion Rx; subst;
        destruct y; cbn in Ry, Iy; try contradiction; try discriminate; inversion Ry; subst; cbn; lia. }
      destruct (set_from L y _) as [p|e]; [|tauto]. destruct Q as (-> & _). eexists. split; [reflexivity|]. split; [split; auto|]. intros ? E _. inversion E; reflexivity.
    + rewrite set_from_num; auto. pose proof (lk_int L fits K y z Ny) as F.
      assert (-2 ^ 63 <= z < 2 ^ 63) as Z63 by (destruct x; cbn in R, Ix; try contradiction; lia). specialize (F Z63).
      destruct (f_int L y z) as [f|e]; [|contradiction]. eexists. split; [reflexivity|]. split; [split; auto|]. tauto.
  - cbn in H. destruct H as (H & F). assert (number_type y) as Ny.
    { destruct (rank_int y n Ry) as [(N & Iy)|(N & Ny & Iy)]; auto. exfalso. destruct H as [->|[->| ->]]; cbn in Rx; inversion Rx; subst; lia. }
    rewrite set_from_num; auto. pose proof (lk_conv L fits K x y m n f Rx Ry B H F) as G.
    destruct (f_conv L y f) as [g|e]; [|contradiction]. eexists. split; [reflexivity|]. split; [split; auto|]. discriminate.
  - cbn in H. destruct H as [->|[->| ->]]; discriminate.
Qed.
Lemma widen x y m n q : rank x = Some m -> rank y = Some n -> m <= n -> holds L fits x q ->
  exists q', simple_cast L y (Some x) (Some q) = Ok (Some q') /\ holds L fits y q' /\
    (forall z, q = PInt L z -> is_int y -> q' = PInt L z).
Proof.
  intros Rx Ry B H. unfold simple_cast. destruct (tco_eqb (Some x) (Some y)) eqn:Q.
  - exists q. split; auto. assert (x = y) by (destruct x, y; cbn in Q; congruence). subst. auto.
  - destruct (widen_set x y m n q Rx Ry B H) as (q' & -> & H' & E). exists q'. auto.
Qed.
Lemma cast_null y x : simple_cast L y (Some x) None = Ok None.
Proof. unfold simple_cast. destruct (tco_eqb _ _); reflexivity. Qed.
Lemma rank_inj x y : rank x = rank y -> rank x <> None -> x = y.
Proof. destruct x, y; cbn; congruence. Qed.
Lemma promote_rank x y m n : rank x = Some m -> rank y = Some n -> promote (Some x) (Some y) = Ok (Some (if m <=? n then y else x)).
Proof. destruct x, y; cbn; intros X Y; inversion X; inversion Y; reflexivity. Qed.

(** two operands whose types have the join [t] *)
Lemma operands ta tb t a b : inhabits L fits (Val ta) a -> inhabits L fits (Val tb) b -> num_operands A ta tb t ->
  exists ta' pa tb' pb t', a = OVal L ta' pa /\ b = OVal L tb' pb /\ promote ta' tb' = Ok t' /\
  ((t' = None /\ pa = None /\ pb = None) \/
   exists y, t' = Some y /\
    ((in_tc y op_types = false /\ small (Some y) /\ A EvaluationError) \/
     (in_tc y op_types = true /\ arith_type y /\ exists qa qb,
        simple_cast L y ta' pa = Ok qa /\ simple_cast L y tb' pb = Ok qb /\
        (forall q, qa = Some q -> holds L fits y q /\ pa <> None) /\ (forall q, qb = Some q -> holds L fits y q /\ pb <> None) /\
        (pa <> None -> qa <> None) /\ (pb <> None -> qb <> None) /\
        (pa <> None -> pb <> None -> t = Some y) /\ exists x, t = Some x /\ arith_type x))).
Proof.
  intros (ta' & pa & -> & Ha) (tb' & pb & -> & Hb) ((Pa & Pb & Least) & Ar & Sm).
  exists ta', pa, tb', pb.
  destruct t as [x|].
  2:{ apply promotes_none in Pa, Pb. subst. exists None. split; auto. split; auto.
      assert (ta' = None /\ pa = None) as (-> & ->).
      { destruct pa; [destruct Ha as (_ & x & Q & _); discriminate|]. split; auto. destruct Ha as [Q|[Q|(x & y & _ & Q & _)]]; auto; discriminate. }
      assert (tb' = None /\ pb = None) as (-> & ->).
      { destruct pb; [destruct Hb as (_ & x & Q & _); discriminate|]. split; auto. destruct Hb as [Q|[Q|(x & y & _ & Q & _)]]; auto; discriminate. }
      split; auto. }
  pose proof (side_of ta ta' pa x Ar Pa Ha) as Sa. pose proof (side_of tb tb' pb x Ar Pb Hb) as Sb. clear Ha Hb.
  assert (forall y, in_tc y op_types = false \/ (in_tc y op_types = true /\ arith_type y)) as DD by (intros []; cbn; auto).
  assert (forall y m, rank y = Some m -> in_tc y op_types = false -> small (Some y)) as SM.
  { intros [] m R H; cbn in *; try discriminate; unfold small; auto. }
  destruct Sa as [(-> & ->)|(xa & ma & -> & Ra & Qa & Sa)]; destruct Sb as [(-> & ->)|(xb & mb & -> & Rb & Qb & Sb)].
  - exists None. repeat split; auto.
  - exists (Some xb). split; auto. split; auto. split; auto. right. exists xb. split; auto.
    destruct (DD xb) as [D|(D & Dx)]; [left; split; auto; split; [eauto|]; apply Sm; right; apply Sb; eauto|]. right. split; auto. split; auto.
    exists None. destruct pb as [q|].
    + destruct (Qb q eq_refl) as (H & _). destruct (widen xb xb mb mb q Rb Rb (Z.le_refl _) H) as (q' & C & H' & _). exists (Some q').
      split; [reflexivity|]. split; auto. split; [discriminate|]. split; [intros ? E; inversion E; subst; split; auto; discriminate|].
      split; [congruence|]. split; [discriminate|]. split; [congruence|]. exists x. auto.
    + exists None. rewrite cast_null. split; auto. split; auto. split; [discriminate|]. split; [discriminate|]. split; [congruence|]. split; [congruence|]. split; [congruence|]. exists x. auto.
  - exists (Some xa). split; auto. split; auto. split; auto. right. exists xa. split; auto.
    destruct (DD xa) as [D|(D & Dx)]; [left; split; auto; split; [eauto|]; apply Sm; left; apply Sa; eauto|]. right. split; auto. split; auto.
    destruct pa as [q|].
    + destruct (Qa q eq_refl) as (H & _). destruct (widen xa xa ma ma q Ra Ra (Z.le_refl _) H) as (q' & C & H' & _). exists (Some q'), None.
      split; auto. split; [reflexivity|]. split; [intros ? E; inversion E; subst; split; auto; discriminate|]. split; [discriminate|].
      split; [discriminate|]. split; [congruence|]. split; [congruence|]. exists x. auto.
    + exists None, None. rewrite cast_null. split; auto. split; auto. split; [discriminate|]. split; [discriminate|]. split; [congruence|]. split; [congruence|]. split; [congruence|]. exists x. auto.
  - exists (Some (if ma <=? mb then xb else xa)). split; auto. split; auto. split; [apply promote_rank; auto|]. right.
    assert (exists y n, (if ma <=? mb then xb else xa) = y /\ rank y = Some n /\ ma <= n /\ mb <= n /\ (y = xa \/ y = xb)) as (y & n & -> & Ry & La & Lb & Or).
    { destruct (ma <=? mb) eqn:Q; b2p; do 2 eexists; (split; [reflexivity|]); (split; [eassumption|]); split; try lia; split; try lia; auto. }
    exists y. split; auto. destruct (DD y) as [D|(D & Dy)].
    { left. split; auto. split; [eauto|]. apply Sm. destruct Or; subst; [left; apply Sa|right; apply Sb]; eauto. }
    right. split; auto. split; auto.
    assert (forall p xx mm (Qx : forall q, p = Some q -> holds L fits xx q /\ True) , rank xx = Some mm -> mm <= n -> exists q', simple_cast L y (Some xx) p = Ok q'
      /\ (forall q, q' = Some q -> holds L fits y q /\ p <> None) /\ (p <> None -> q' <> None)) as CC.
    { intros p xx mm Qx Rx B. destruct p as [q|].
      - destruct (Qx q eq_refl) as (H & _). destruct (widen xx y mm n q Rx Ry B H) as (q' & C & H' & _). exists (Some q'). split; auto.
        split; [intros ? E; inversion E; subst; split; auto; discriminate|discriminate].
      - exists None. rewrite cast_null. split; auto. split; [discriminate|congruence]. }
    destruct (CC pa xa ma) as (qa & C1 & C2 & C3); auto. { intros q E. destruct (Qa q E). auto. }
    destruct (CC pb xb mb) as (qb & C4 & C5 & C6); auto. { intros q E. destruct (Qb q E). auto. }
    exists qa, qb. split; auto. split; auto. split; auto. split; auto. split; auto. split; auto. split; [|exists x; auto].
    intros Na Nb. destruct pa as [u|]; [|congruence]. destruct pb as [v|]; [|congruence].
    destruct (Qa u eq_refl) as (_ & ->). destruct (Qb v eq_refl) as (_ & ->).
    (* the join is unique *)
    assert (promotes (Some xa) (Some y) /\ promotes (Some xb) (Some y)) as (P1 & P2).
    { split; right; right; do 4 eexists; (split; [reflexivity|]); (split; [reflexivity|]); (split; [eassumption|]); (split; [eassumption|lia]). }
    specialize (Least (Some y) P1 P2).
    apply promotes_num in Least; [|exact Dy]. destruct Least as [Q|(x' & m' & n' & Q & Rx' & Ry' & B)]; [discriminate|]. inversion Q; subst x'.
    apply promotes_num in Pa; [|exact Ar]. destruct Pa as [Q'|(x' & m1 & n1 & Q' & R1 & R2 & B1)]; [discriminate|]. inversion Q'; subst x'.
    apply promotes_num in Pb; [|exact Ar]. destruct Pb as [Q''|(x' & m2 & n2 & Q'' & R3 & R4 & B2)]; [discriminate|]. inversion Q''; subst x'.
    f_equal. apply rank_inj; [|congruence]. assert (m' = n); [|congruence]. 
    assert (n = ma \/ n = mb) by (destruct Or; subst; [left|right]; congruence).
    assert (m1 = ma) by congruence. assert (m2 = mb) by congruence. assert (n1 = m') by congruence. assert (n2 = m') by congruence. assert (n' = n) by congruence. lia.
Qed.

(** * The operators *)
Lemma holds_arith y p : arith_type y -> holds L fits y p ->
  (exists z, p = PInt L z /\ is_int y /\ in_range y z) \/ (exists f, p = PNum L f /\ number_type y /\ fits y f).
Proof.
  intros Y H. destruct p as [b|z|s|l|h|f|t]; cbn in H; try (subst; contradiction).
  - left. exists z. tauto.
  - right. exists f. unfold number_type. tauto.
  - destruct H as [->|[->| ->]]; contradiction.
Qed.
Lemma int_number y : is_int y -> number_type y -> False.
Proof. intros H [->|[->| ->]]; exact H. Qed.
Definition aop_of (o : opr) : option aop :=
  match o with Mul => Some AMul | Div => Some ADiv | Mod => Some AMod | Add => Some AAdd | Sub => Some ASub | _ => None end.
Lemma wrap_ok o B (v : B) : wrap o (Ok v) = Ok v.
Proof. destruct o; reflexivity. Qed.
Lemma wrap_err o B e : @wrap o B (Err e) = Err (match o, e with
  | (ADiv | AMod), ZeroDivisionError => EvaluationError | AMod, ValueError => EvaluationError | _, _ => e end).
Proof. destruct o, e; reflexivity. Qed.
Lemma arith_good o a b ta tb t : inhabits L fits (Val ta) a -> inhabits L fits (Val tb) b -> num_operands A ta tb t ->
  A ValueError -> (o = ADiv \/ o = AMod -> A EvaluationError) -> (o = ADiv -> t = Some Decimal -> A InvalidOperation) ->
  good (Val (match t with None => Some Int32 | _ => t end)) (eval_arith L o a b).
Proof.
  intros Ha Hb N AV AE AI. destruct (operands _ _ _ _ _ Ha Hb N) as (ta' & pa & tb' & pb & t' & -> & -> & Pr & D).
  unfold eval_arith. rewrite Pr. cbn [rbind]. destruct D as [(-> & -> & ->)|(y & -> & D)].
  - rewrite wrap_ok. cbn. do 2 eexists. split; [reflexivity|]. cbn. destruct N as (_ & N & _).
    destruct t as [x|]; [right; right; exists Int32, x; repeat split; auto|right; left; reflexivity].
  - destruct D as [(-> & _ & AEv)|(-> & Ay & qa & qb & -> & -> & Qa & Qb & Na & Nb & T & x & -> & Ax)].
    { rewrite wrap_err. destruct o; exact AEv. }
    cbn [rbind]. destruct qa as [q1|]; [|rewrite wrap_ok; cbn; do 2 eexists; split; [reflexivity|]; right; right; eauto 10].
    destruct qb as [q2|]; [|rewrite wrap_ok; cbn; do 2 eexists; split; [reflexivity|]; right; right; eauto 10].
    destruct (Qa q1 eq_refl) as (H1 & N1). destruct (Qb q2 eq_refl) as (H2 & N2). pose proof (T N1 N2) as Q. inversion Q; subst x. clear Q.
    destruct (holds_arith y q1 Ay H1) as [(z1 & -> & I1 & R1)|(f1 & -> & M1 & F1)];
    destruct (holds_arith y q2 Ay H2) as [(z2 & -> & I2 & R2)|(f2 & -> & M2 & F2)];
    try (exfalso; eapply int_number; eassumption).
    + cbn [arith]. set (r := match o with AMul => Ok (z1 * z2) | AAdd => Ok (z1 + z2) | ASub => Ok (z1 - z2) | ADiv => int_div z1 z2 | AMod => int_mod z1 z2 end).
      assert (match r with Ok _ => True | Err e => (o = ADiv /\ e = ZeroDivisionError) \/ (o = AMod /\ e = ValueError) end) as Hr.
      { subst r. destruct o; auto; unfold int_div, int_mod; destruct (float_int z2 =? 0); auto; destruct (float_int z1 =? 0); auto. }
      destruct r as [z|e]; cbn [rbind].
      * pose proof (set_from_int y z I1) as S. cbn [set_result]. destruct (set_from L y _) as [p|e]; cbn [rbind].
        -- rewrite wrap_ok. destruct S as (-> & R). cbn. do 2 eexists. split; [reflexivity|]. cbn. split; auto. exists y. split; auto.
        -- destruct S as (-> & _). rewrite wrap_err. destruct o; cbn; auto.
      * rewrite wrap_err. destruct Hr as [(-> & ->)|(-> & ->)]; cbn; auto.
    + cbn [arith]. pose proof (lk_bin L fits K y o f1 f2 M1 F1 F2) as B. unfold yields in B.
      destruct (f_bin L o f1 f2) as [f|e]; cbn [rbind] in B |- *.
      * cbn [set_result]. destruct (f_set L y f) as [g|e]; cbn [rbind].
        -- rewrite wrap_ok. cbn. do 2 eexists. split; [reflexivity|]. cbn. split; auto. exists y. split; auto. 
        -- rewrite wrap_err. destruct B as [->|[(-> & ->)|(-> & -> & ->)]]; try destruct o; cbn; auto.
      * rewrite wrap_err. destruct B as [->|[(-> & ->)|(-> & -> & ->)]]; try destruct o; cbn; auto.
Qed.
Lemma bool_good b : good (Val (Some Boolean)) (Ok (bool_ L b)).
Proof. cbn. do 2 eexists. split; [reflexivity|]. cbn. split; auto. exists Boolean. split; auto. Qed.
Lemma compare_num r y p q : arith_type y -> holds L fits y p -> holds L fits y q -> exists b, compare_ L r (Some p) (Some q) = Ok b.
Proof.
  intros Ay H1 H2.
  destruct (holds_arith y p Ay H1) as [(z1 & -> & I1 & R1)|(f1 & -> & M1 & F1)];
  destruct (holds_arith y q Ay H2) as [(z2 & -> & I2 & R2)|(f2 & -> & M2 & F2)];
  try (exfalso; eapply int_number; eassumption); cbn; eauto.
Qed.
Lemma order_good r a b ta tb t : inhabits L fits (Val ta) a -> inhabits L fits (Val tb) b -> num_operands A ta tb t ->
  good (Val (Some Boolean)) (eval_rel L r a b).
Proof.
  intros Ha Hb N. destruct (operands _ _ _ _ _ Ha Hb N) as (ta' & pa & tb' & pb & t' & -> & -> & Pr & D).
  unfold eval_rel. rewrite Pr. cbn [rbind]. destruct D as [(-> & -> & ->)|(y & -> & D)]; [apply bool_good|].
  destruct D as [(Q & Sy & AEv)|(-> & Ay & qa & qb & -> & -> & Qa & Qb & _)].
  - rewrite Q. destruct Sy as [E|E]; inversion E; subst; exact AEv.
  - cbn [rbind]. destruct qa as [q1|]; [|apply bool_good]. destruct qb as [q2|]; [|apply bool_good].
    destruct (Qa q1 eq_refl) as (H1 & _). destruct (Qb q2 eq_refl) as (H2 & _). destruct (compare_num r y q1 q2 Ay H1 H2) as (bb & ->). apply bool_good.
Qed.
Lemma eq_good a b ta tb t : inhabits L fits (Val ta) a -> inhabits L fits (Val tb) b -> num_operands A ta tb t ->
  exists r, eval_eq L a b = r /\ match r with Ok v => exists c, v = bool_ L c | Err e => A e end.
Proof.
  intros Ha Hb N. eexists; split; [reflexivity|]. destruct (operands _ _ _ _ _ Ha Hb N) as (ta' & pa & tb' & pb & t' & -> & -> & Pr & D).
  unfold eval_eq. rewrite Pr. cbn [rbind]. destruct D as [(-> & -> & ->)|(y & -> & D)]; [eauto|].
  destruct D as [(Q & Sy & AEv)|(-> & Ay & qa & qb & -> & -> & Qa & Qb & _)].
  - rewrite Q. destruct Sy as [E|E]; inversion E; subst; exact AEv.
  - cbn [rbind]. eauto.
Qed.
(** operands of another type: both have it, or are null *)
Lemma others ta tb t a b : inhabits L fits (Val ta) a -> inhabits L fits (Val tb) b -> join_type ta tb (Some t) -> rank t = None ->
  exists ta' pa tb' pb t', a = OVal L ta' pa /\ b = OVal L tb' pb /\ promote ta' tb' = Ok t' /\ (t' = None \/ t' = Some t) /\
    (t' = None -> pa = None /\ pb = None) /\
    (forall q, pa = Some q -> holds L fits t q) /\ (forall q, pb = Some q -> holds L fits t q).
Proof.
  intros (ta' & pa & -> & Ha) (tb' & pb & -> & Hb) (Pa & Pb & _) R.
  assert (forall u u' p, promotes u (Some t) -> (match p with None => null_type u' u | Some q => u' = u /\ exists x, u = Some x /\ holds L fits x q end) ->
    (u' = None \/ u' = Some t) /\ (u' = None -> p = None) /\ (forall q, p = Some q -> holds L fits t q)) as X.
  { intros u u' p P H. assert (u = None \/ u = Some t) as U.
    { destruct P as [->|[->|(x & y & m & n & _ & Q & _ & Ry & _)]]; auto. inversion Q; subst. congruence. }
    destruct p as [q|].
    - destruct H as (-> & x & -> & H). destruct U as [U|U]; [discriminate|]. inversion U; subst. split; auto. split; [discriminate|]. intros ? E; inversion E; subst; auto.
    - assert (u' = None \/ u' = Some t) as U'.
      { destruct H as [->|[->|(x & y & -> & -> & Ax & Ay)]]; auto. destruct U as [U|U]; [discriminate|]. inversion U; subst. destruct t; try discriminate; contradiction. }
      split; auto. split; auto. discriminate. }
  destruct (X ta ta' pa Pa Ha) as (A1 & A2 & A3). destruct (X tb tb' pb Pb Hb) as (B1 & B2 & B3).
  exists ta', pa, tb', pb. assert (exists t', promote ta' tb' = Ok t' /\ (t' = None \/ t' = Some t) /\ (t' = None -> ta' = None /\ tb' = None)) as (t' & P1 & P2 & P3).
  { destruct A1 as [->| ->], B1 as [->| ->]; unfold promote; cbn.
    - exists None. split; auto.
    - exists (Some t). split; [reflexivity|split; [auto|discriminate]].
    - exists (Some t). split; [reflexivity|split; [auto|discriminate]].
    - exists (Some t). replace (tc_eqb t t) with true by (destruct t; reflexivity). split; [reflexivity|split; [auto|discriminate]]. }
  exists t'. split; auto. split; auto. split; auto. split; auto. split; [intros E; destruct (P3 E); auto|auto].
Qed.
Lemma order_other_good r a b ta tb t : inhabits L fits (Val ta) a -> inhabits L fits (Val tb) b -> join_type ta tb (Some t) ->
  In t [String_; DateTime; DateTimeOffset; Guid] -> A TypeError -> good (Val (Some Boolean)) (eval_rel L r a b).
Proof.
  intros Ha Hb J I AT. assert (rank t = None) as R by (cbn in I; decompose [or] I; subst; try reflexivity; contradiction).
  destruct (others _ _ _ _ _ Ha Hb J R) as (ta' & pa & tb' & pb & t' & -> & -> & Pr & D & _).
  unfold eval_rel. rewrite Pr. cbn [rbind]. destruct D as [->| ->]; [apply bool_good|].
  assert (in_tc t op_types = false /\ in_tc t [String_; DateTime; DateTimeOffset; Guid] = true) as (-> & ->)
    by (cbn in I; decompose [or] I; subst; try contradiction; split; reflexivity).
  assert (exists x, compare_ L r pa pb = x /\ match x with Ok _ => True | Err e => e = TypeError end) as (x & -> & X).
  { eexists; split; [reflexivity|]. destruct pa as [[]|], pb as [[]|]; cbn; auto. }
  destruct x as [c|e]; cbn [rbind]; [apply bool_good|subst; exact AT].
Qed.
Lemma eq_other_good a b ta tb t : inhabits L fits (Val ta) a -> inhabits L fits (Val tb) b -> join_type ta tb (Some t) ->
  In t [String_; DateTime; DateTimeOffset; Guid; Binary] -> exists c, eval_eq L a b = Ok (bool_ L c).
Proof.
  intros Ha Hb J I. assert (rank t = None) as R by (cbn in I; decompose [or] I; subst; try reflexivity; contradiction).
  destruct (others _ _ _ _ _ Ha Hb J R) as (ta' & pa & tb' & pb & t' & -> & -> & Pr & D & _).
  unfold eval_eq. rewrite Pr. cbn [rbind]. destruct D as [->| ->]; [eauto|].
  assert (in_tc t op_types = false /\ in_tc t [String_; DateTime; DateTimeOffset; Guid; Binary] = true) as (-> & ->)
    by (cbn in I; decompose [or] I; subst; try contradiction; split; reflexivity).
  eauto.
Qed.
Lemma boolean_cases ta v : inhabits L fits (Val ta) v -> ta = None \/ ta = Some Boolean ->
  v = OVal L None None \/ v = OVal L (Some Boolean) None \/ exists b, v = bool_ L b.
Proof.
  intros (t' & p & -> & H) T. destruct p as [q|].
  - destruct H as (-> & x & -> & H). destruct T as [T|T]; [discriminate|]. inversion T; subst. right. right.
    destruct q; cbn in H; try discriminate; [exists b; reflexivity|destruct H as (H & _); contradiction|destruct H as ([H|[H|H]] & _); discriminate|destruct H as [H|[H|H]]; discriminate].
  - destruct H as [->|[->|(x & y & -> & -> & Ax & Ay)]]; auto.
    + destruct T as [->| ->]; auto.
    + destruct T as [T|T]; [discriminate|]. inversion T; subst. contradiction.
Qed.
Lemma logic_good op a b ta tb : inhabits L fits (Val ta) a -> inhabits L fits (Val tb) b ->
  ta = None \/ ta = Some Boolean -> tb = None \/ tb = Some Boolean -> good (Val (Some Boolean)) (eval_logic L op a b).
Proof.
  intros Ha Hb Ta Tb.
  destruct (boolean_cases _ _ Ha Ta) as [->|[->|(x & ->)]]; destruct (boolean_cases _ _ Hb Tb) as [->|[->|(y & ->)]]; cbn; apply bool_good.
Qed.
Lemma not_good a ta : inhabits L fits (Val ta) a -> ta = None \/ ta = Some Boolean -> good (Val (Some Boolean)) (eval_not L a).
Proof.
  intros Ha Ta. destruct (boolean_cases _ _ Ha Ta) as [->|[->|(x & ->)]]; cbn; [| |apply bool_good];
    (do 2 eexists; split; [reflexivity|]; right; left; reflexivity).
Qed.
Lemma null_good t' t : null_type t' t -> good (Val t) (Ok (OVal L t' None)).
Proof. intros N. cbn. do 2 eexists. split; [reflexivity|exact N]. Qed.
Lemma val_good x q : holds L fits x q -> good (Val (Some x)) (Ok (OVal L (Some x) (Some q))).
Proof. intros H. cbn. do 2 eexists. split; [reflexivity|]. cbn. eauto. Qed.
Lemma neg_good a t t' : inhabits L fits (Val t) a -> neg_type t t' -> A ValueError -> good (Val t') (eval_neg L a).
Proof.
  intros (u & p & -> & H) N AV. destruct p as [q|].
  - destruct H as (-> & x & -> & H).
    assert (forall y, t' = Some y -> In y [Int32; Int64; Double; Decimal] -> forall q, holds L fits y q ->
      good (Val (Some y)) (match Some q with
        | None => Ok (tnull L y)
        | Some (PInt _ z) => let! p := set_result L y (PInt L (0 - z)) in Ok (OVal L (Some y) (Some p))
        | Some (PNum _ f) => let! p := set_result L y (PNum L (f_neg L f)) in Ok (OVal L (Some y) (Some p))
        | Some _ => Err TypeError end)) as X.
    { intros y -> I q' H'. assert (arith_type y) as Ay by (cbn in I; decompose [or] I; subst; try contradiction; exact Logic.I).
      destruct (holds_arith y q' Ay H') as [(z & -> & Iy & R)|(f & -> & M & F)].
      - cbn [set_result]. pose proof (set_from_int y (0 - z) Iy) as Q. destruct (set_from L y _) as [pp|e]; cbn [rbind].
        + destruct Q as (-> & R'). apply val_good. split; auto.
        + destruct Q as (-> & _). exact AV.
      - cbn [set_result]. pose proof (lk_neg L fits K y f M F) as Q. unfold yields in Q. destruct (f_set L y _) as [g|e]; cbn [rbind].
        + apply val_good. split; auto.
        + subst. exact AV. }
    destruct x; cbn in N; try contradiction; subst t'; unfold eval_neg.
    all: try (cbn [rbind]; match goal with |- context [in_tc ?y _] => change (in_tc y [Int32; Int64; Double; Decimal]) with true; apply (X y); auto; cbn; tauto end).
    all: match goal with |- context [simple_cast L ?y (Some ?x) _] =>
      destruct (widen x y _ _ q eq_refl eq_refl ltac:(lia) H) as (q' & -> & H' & _); cbn [rbind];
      change (in_tc y [Int32; Int64; Double; Decimal]) with true; apply (X y); auto; cbn; tauto end.
  - unfold eval_neg. destruct H as [->|[->|(x & y & -> & -> & Ax & Ay)]].
    + cbn. do 2 eexists. split; [reflexivity|]. unfold null_type.
      destruct t as [[]|]; cbn in N; try contradiction; subst; auto; right; right; do 2 eexists; repeat split.
    + destruct t as [[]|]; cbn in N; try contradiction; subst; cbn [simple_cast tco_eqb tc_eqb rbind in_tc existsb orb];
        (cbn; do 2 eexists; split; [reflexivity|]; right; left; reflexivity).
    + destruct y; cbn in N; try contradiction; subst; destruct x; try contradiction; cbn;
        (do 2 eexists; split; [reflexivity|]); right; first [left; reflexivity|right; do 2 eexists; repeat split].
Qed.

(** * Types by name *)
Lemma lstrip_keep c r : s_space L c = false -> lstrip L (c :: r) = c :: r.
Proof. intros H. cbn [lstrip]. rewrite H. reflexivity. Qed.
Lemma strip_keep s c d r u : s = c :: r -> rev s = d :: u -> 33 <= c <= 126 -> 33 <= d <= 126 -> strip L s = s.
Proof.
  intros E F C D. unfold strip. rewrite E, lstrip_keep, <- E, F, lstrip_keep, <- F by (apply (lk_space L fits K); assumption). apply rev_involutive.
Qed.
Lemma type_of_type_name t : type_of_name L (type_name t) = Some t.
Proof.
  unfold type_of_name. destruct t; (erewrite strip_keep; [|vm_compute; reflexivity|vm_compute; reflexivity|lia|lia]); vm_compute; reflexivity.
Qed.
Lemma set_same t q : holds L fits t q -> exists q', set_from L t q = Ok q' /\ holds L fits t q'.
Proof.
  intros H. destruct (rank t) as [n|] eqn:R.
  { destruct (widen_set t t n n q R R (Z.le_refl _) H) as (q' & Q & H' & _). eauto. }
  destruct q as [b|z|s|l|h|f|x]; cbn in H; try (subst t; eexists; split; [reflexivity|reflexivity]).
  - destruct t; cbn in R, H; try discriminate; try (destruct H; contradiction).
    pose proof (set_from_int SByte z Logic.I) as Q. destruct (set_from L SByte _); [|destruct Q as (_ & Q); exfalso; apply Q; cbn; lia]. destruct Q as (-> & Q). exists (PInt L z). split; auto. 
  - destruct H as ([H|[H|H]] & _); subst; discriminate.
  - destruct H as [->|[->| ->]]; cbn; eexists; split; try reflexivity; cbn; auto.
Qed.
Lemma cast_good a ta t : inhabits L fits (Val ta) a -> promotes ta (Some t) ->
  good (Val (Some t)) (eval_cast L (Some a) (OVal L (Some String_) (Some (PStr L (type_name t))))).
Proof.
  intros (u & p & -> & H) P. destruct p as [q|]; unfold eval_cast; cbn [type_arg rbind].
  - destruct H as (-> & x & -> & H). rewrite type_of_type_name.
    assert (promote (Some t) (Some x) = Ok (Some t) /\ exists q', set_from L t q = Ok q' /\ holds L fits t q') as (-> & q' & -> & H').
    { destruct P as [P|[P|(x' & y & m & n & E1 & E2 & Rx & Ry & B)]]; [discriminate| |].
      - inversion P; subst x. split; [unfold promote; replace (tco_eqb _ _) with true by (destruct t; reflexivity); reflexivity|apply set_same; auto].
      - inversion E1; inversion E2; subst x' y. split.
        + rewrite (promote_rank t x n m Ry Rx). destruct (n <=? m) eqn:Q; auto. b2p. assert (x = t) by (apply rank_inj; [replace m with n in Rx by lia; congruence|congruence]). congruence.
        + destruct (widen_set x t m n q Rx Ry B H) as (q' & Q & H' & _). eauto. }
    cbn [rbind]. replace (tco_eqb _ _) with true by (destruct t; reflexivity). cbn [rbind]. apply val_good. auto.
  - rewrite type_of_type_name. apply null_good. right. left. reflexivity.
Qed.
Lemma isof_good a ta t : inhabits L fits (Val ta) a ->
  good (Val (Some Boolean)) (eval_isof L (Some a) (OVal L (Some String_) (Some (PStr L (type_name t))))).
Proof.
  intros (u & p & -> & H). destruct p as [q|]; unfold eval_isof; cbn [type_arg rbind].
  - rewrite type_of_type_name. apply bool_good.
  - apply bool_good.
Qed.

(** * Methods *)
Lemma string_cases ta v : inhabits L fits (Val ta) v -> ta = None \/ ta = Some String_ ->
  v = OVal L None None \/ v = OVal L (Some String_) None \/ exists s, v = OVal L (Some String_) (Some (PStr L s)).
Proof.
  intros (t' & p & -> & H) T. destruct p as [q|].
  - destruct H as (-> & x & -> & H). destruct T as [T|T]; [discriminate|]. inversion T; subst. right. right.
    destruct q; cbn in H; try discriminate; [destruct H as (H & _); contradiction|eauto|destruct H as ([H|[H|H]] & _); discriminate|destruct H as [H|[H|H]]; discriminate].
  - destruct H as [->|[->|(x & y & -> & -> & Ax & Ay)]]; auto.
    + destruct T as [->| ->]; auto.
    + destruct T as [T|T]; [discriminate|]. inversion T; subst. contradiction.
Qed.
Lemma string_param ta v : inhabits L fits (Val ta) v -> ta = None \/ ta = Some String_ ->
  promote_param L v String_ = Ok None \/ exists s, promote_param L v String_ = Ok (Some (PStr L s)).
Proof. intros H T. destruct (string_cases ta v H T) as [->|[->|(s & ->)]]; cbn; eauto. Qed.
Lemma ret_int_good z : A ValueError -> good (Val (Some Int32)) (ret_int L z).
Proof.
  intros AV. unfold ret_int. pose proof (set_from_int Int32 z Logic.I) as Q. destruct (set_from L Int32 _); cbn [rbind].
  - destruct Q as (-> & R). apply val_good. split; [exact Logic.I|auto].
  - destruct Q as (-> & _). exact AV.
Qed.
Lemma ret_int_small z : -2 ^ 31 <= z < 2 ^ 31 -> good (Val (Some Int32)) (ret_int L z).
Proof.
  intros R. unfold ret_int. pose proof (set_from_int Int32 z Logic.I) as Q. destruct (set_from L Int32 _); cbn [rbind].
  - destruct Q as (-> & _). apply val_good. split; [exact Logic.I|auto].
  - destruct Q as (_ & Q). exfalso. apply Q. exact R.
Qed.
Lemma ret_str_good s : good (Val (Some String_)) (ret_str L s).
Proof. apply val_good. reflexivity. Qed.
Lemma tnull_good t : good (Val (Some t)) (Ok (tnull L t)).
Proof. apply null_good. right. left. reflexivity. Qed.
Definition strs (v : value L) : Prop := exists ta, (ta = None \/ ta = Some String_) /\ inhabits L fits (Val ta) v.
Lemma string_call m n t vs : In (m, n, t) string_methods -> length vs = n -> Forall strs vs -> (t = Int32 -> A ValueError) ->
  good (Val (Some t)) (call L m vs).
Proof.
  intros I N F AV.
  assert (Forall (fun v => promote_param L v String_ = Ok None \/ exists s, promote_param L v String_ = Ok (Some (PStr L s))) vs) as G.
  { eapply Forall_impl; [|exact F]. intros v (ta & T & H). eapply string_param; eauto. }
  clear F. unfold string_methods in I. cbn [In] in I.
  assert (forall T k (a : value L), (promote_param L a String_ = Ok None \/ exists s, promote_param L a String_ = Ok (Some (PStr L s))) ->
    (forall s, good (Val (Some T)) (k s)) -> good (Val (Some T)) (str1 L (promote_param L) T a k)) as X1.
  { intros T k a [E|(s & E)] Hk; unfold str1; rewrite E; cbn [rbind]; auto using tnull_good. }
  assert (forall T k (a b : value L), (promote_param L a String_ = Ok None \/ exists s, promote_param L a String_ = Ok (Some (PStr L s))) ->
    (promote_param L b String_ = Ok None \/ exists s, promote_param L b String_ = Ok (Some (PStr L s))) ->
    (forall s u, good (Val (Some T)) (k s u)) -> good (Val (Some T)) (str2 L (promote_param L) T a b k)) as X2.
  { intros T k a b [E|(s & E)] [E'|(s' & E')] Hk; unfold str2; rewrite E, E'; cbn [rbind]; auto using tnull_good. }
  repeat match type of I with _ \/ _ => destruct I as [I|I] end; try contradiction; injection I as <- E2 <-; rewrite <- E2 in N; clear E2;
    destruct vs as [|a [|b [|c [|? ?]]]]; cbn in N; try discriminate;
    repeat match goal with H : Forall _ (_ :: _) |- _ => inversion H; subst; clear H end;
    calls.
  all: try (apply X2; auto; intros; first [apply bool_good|apply ret_str_good|apply ret_int_good; auto]).
  all: try (apply X1; auto; intros; first [apply bool_good|apply ret_str_good|apply ret_int_good; auto]).
  repeat match goal with H : promote_param L ?v String_ = Ok None \/ _ |- _ => let s := fresh "s" in destruct H as [->|(s & ->)] end; cbn [rbind]; auto using tnull_good, ret_str_good.
Qed.
Lemma strict_arg t v : inhabits L fits (Val (Some t)) v ->
  strict_param L v t = Err EvaluationError \/ strict_param L v t = Ok None \/ exists q, strict_param L v t = Ok (Some q) /\ holds L fits t q.
Proof.
  intros (t' & p & -> & H). unfold strict_param. destruct p as [q|].
  - destruct H as (-> & x & E & H). inversion E; subst. right. right. replace (tco_eqb _ _) with true by (destruct x; reflexivity). eauto.
  - destruct (tco_eqb t' (Some t)); auto.
Qed.
Lemma strict_str v : inhabits L fits (Val (Some String_)) v ->
  strict_param L v String_ = Err EvaluationError \/ strict_param L v String_ = Ok None \/ exists s, strict_param L v String_ = Ok (Some (PStr L s)).
Proof.
  intros H. destruct (strict_arg _ _ H) as [E|[E|(q & E & Q)]]; auto. right. right. rewrite E.
  destruct q; cbn in Q; try discriminate; [destruct Q as (Q & _); contradiction|eauto|destruct Q as ([Q|[Q|Q]] & _); discriminate|destruct Q as [Q|[Q|Q]]; discriminate].
Qed.
Lemma strict_int v : inhabits L fits (Val (Some Int32)) v ->
  strict_param L v Int32 = Err EvaluationError \/ strict_param L v Int32 = Ok None \/ exists z, strict_param L v Int32 = Ok (Some (PInt L z)).
Proof.
  intros H. destruct (strict_arg _ _ H) as [E|[E|(q & E & Q)]]; auto. right. right. rewrite E.
  destruct q; cbn in Q; try discriminate; [eauto|destruct Q as ([Q|[Q|Q]] & _); discriminate|destruct Q as [Q|[Q|Q]]; discriminate].
Qed.
Lemma strict_date v : inhabits L fits (Val (Some DateTime)) v ->
  strict_param L v DateTime = Err EvaluationError \/ strict_param L v DateTime = Ok None \/ exists x, strict_param L v DateTime = Ok (Some (PTime L x)).
Proof.
  intros H. destruct (strict_arg _ _ H) as [E|[E|(q & E & Q)]]; auto. right. right. rewrite E.
  destruct q; cbn in Q; try discriminate; [destruct Q as (Q & _); contradiction|destruct Q as ([Q|[Q|Q]] & _); discriminate|eauto].
Qed.
Lemma date_good f v : inhabits L fits (Val (Some DateTime)) v -> A EvaluationError -> good (Val (Some Int32)) (date_part L f [v]).
Proof.
  intros H AE. unfold date_part. destruct (strict_date v H) as [->|[->|(x & ->)]]; cbn [rbind]; auto using tnull_good.
  apply ret_int_small. apply (lk_field L fits K).
Qed.
Lemma strict_call m ts t vs : In (m, ts, t) strict_methods -> Forall2 (fun v t => inhabits L fits (Val (Some t)) v) vs ts ->
  A EvaluationError -> (m = lit "length" -> A ValueError) -> good (Val (Some t)) (call L m vs).
Proof.
  intros I F AE AV. unfold strict_methods in I. cbn [In] in I.
  repeat match type of I with _ \/ _ => destruct I as [I|I] end; try contradiction; injection I as <- <- <-;
    repeat match goal with H : Forall2 _ _ (_ :: _) |- _ => inversion H; subst; clear H | H : Forall2 _ _ [] |- _ => inversion H; subst; clear H end;
    calls; try (apply date_good; auto; fail); unfold str1, str2.
  all: repeat match goal with
  | H : inhabits _ _ (Val (Some String_)) ?v |- _ => let s := fresh "s" in destruct (strict_str v H) as [->|[->|(s & ->)]]; clear H; cbn [rbind]
  | H : inhabits _ _ (Val (Some Int32)) ?v |- _ => let s := fresh "i" in destruct (strict_int v H) as [->|[->|(s & ->)]]; clear H; cbn [rbind]
  end; auto using tnull_good, ret_str_good, ret_int_good.
Qed.
Lemma num_cases ta v : inhabits L fits (Val ta) v -> num_arg ta ->
  v = OVal L None None \/ (exists x m p, v = OVal L (Some x) p /\ rank x = Some m /\
    (forall q, p = Some q -> holds L fits x q /\ ta = Some x) /\ (ta = Some x \/ (p = None /\ arith_type x /\ exists y, ta = Some y /\ arith_type y))).
Proof.
  intros (t' & p & -> & H) N. destruct p as [q|].
  - destruct H as (-> & x & -> & H). cbn in N. right. destruct (rank x) as [m|] eqn:R; [|congruence]. exists x, m, (Some q). split; auto. split; auto. split; auto.
    intros q' E. inversion E; subst. auto.
  - destruct H as [->|[->|(x & y & -> & -> & Ax & Ay)]]; auto.
    + destruct ta as [x|]; auto. right. cbn in N. destruct (rank x) as [m|] eqn:R; [|congruence]. exists x, m, None. split; auto. split; auto. split; auto. discriminate.
    + right. assert (exists m, rank x = Some m) as (m & R) by (destruct x; try contradiction; cbn; eauto). exists x, m, None. split; auto. split; auto. split; [discriminate|].
      right. eauto.
Qed.
Lemma round_good r a ta : inhabits L fits (Val ta) a -> num_arg ta -> A ValueError -> (round_type ta = Double -> A OverflowError) ->
  good (Val (Some (round_type ta))) (rounding L r [a]).
Proof.
  intros H N AV AO. unfold rounding.
  assert (forall t x p, number_type t -> arith_type (round_type ta) -> t = Double \/ t = Decimal -> (p <> None -> t = Double -> A OverflowError) ->
    can_cast (Some x) t = true -> (exists m n, rank x = Some m /\ rank t = Some n /\ m <= n) ->
    (forall q, p = Some q -> holds L fits x q /\ t = round_type ta) ->
    let r := (let! x := promote_param L (OVal L (Some x) p) t in
      match x with
      | Some (PNum _ f) => let! g := f_rnd L r t f in let! p := set_result L t (PNum L g) in Ok (OVal L (Some t) (Some p))
      | Some _ => Err TypeError
      | None => Ok (tnull L t)
      end) in
    good (Val (Some (round_type ta))) r /\ r <> Err EvaluationError) as X.
  { intros t x p Nt Art TT AO' CC (m & n & Rx & Rt & B) Hq. cbv zeta. unfold promote_param. rewrite CC. destruct p as [q|].
    1: specialize (AO' ltac:(discriminate)).
    - destruct (Hq q eq_refl) as (Hx & ->). destruct (widen x _ m n q Rx Rt B Hx) as (q' & -> & H' & _). cbn [rbind].
      destruct (holds_arith _ _ Art H') as [(z & -> & I & _)|(f & -> & _ & F)]; [exfalso; eapply int_number; eauto|].
      pose proof (lk_rnd L fits K r _ f TT F) as Q. unfold yields in Q. destruct (f_rnd L r _ f) as [g|e]; cbn [rbind] in Q |- *.
      + cbn [set_result]. destruct (f_set L _ g) as [h|e]; cbn [rbind].
        * split; [apply val_good; split; auto|discriminate].
        * destruct Q as [->|(E & ->)]; (split; [cbn; auto|discriminate]).
      + destruct Q as [->|(E & ->)]; (split; [cbn; auto|discriminate]).
    - rewrite cast_null. cbn [rbind]. split; [|discriminate]. apply null_good. right. right. exists t, (round_type ta). repeat split; auto.
      destruct TT; subst; exact Logic.I. }
  assert (arith_type (round_type ta)) as Art by (destruct ta as [[]|]; exact Logic.I).
  destruct (num_cases ta a H N) as [->|(x & m & p & -> & Rx & Hp & D)].
  - cbn. do 2 eexists. split; [reflexivity|]. right. right. do 2 eexists. repeat split; auto.
  - assert ((can_cast (Some x) Decimal = true /\ m <= 4 /\ (ta = Some x -> round_type ta = Decimal)) \/
      (can_cast (Some x) Decimal = false /\ (ta = Some x -> round_type ta = Double))) as [(CC & B & RT)|(CC & RT)].
    { destruct x; cbn in Rx; inversion Rx; subst; cbn; first [left; split; [reflexivity|split; [lia|intros ->; reflexivity]]|right; split; [reflexivity|intros ->; reflexivity]]. }
    + destruct (X Decimal x p) as (G & NE); auto; try discriminate.
      { unfold number_type; auto. } { exists m, 4. auto. } { intros q E. destruct (Hp q E). split; auto. symmetry; auto. }
      cbv zeta in *. match goal with |- context [match ?r with Ok _ => _ | Err _ => _ end] => set (rr := r) in * end.
      destruct rr as [v|e]; [exact G|]. destruct e; try exact G. congruence.
    + assert (promote_param L (OVal L (Some x) p) Decimal = Err EvaluationError) as -> by (unfold promote_param; rewrite CC; reflexivity). cbn [rbind].
      destruct (X Double x p) as (G & NE); auto.
      { unfold number_type; auto. }
      { intros Np _. destruct D as [D|(-> & _)]; [apply AO; auto|congruence]. }
      { destruct x; cbn in Rx; inversion Rx; reflexivity. }
      { exists m, 6. split; auto. split; auto. destruct x; cbn in Rx; inversion Rx; lia. }
      { intros q E. destruct (Hp q E). split; auto. symmetry; auto. }
Qed.

(** * Properties *)
Lemma assoc_fields ps fs n sy : fields L fits ps fs -> assoc n fs = Some sy -> exists v, assoc n ps = Some v /\ conforms L fits v sy.
Proof.
  induction 1 as [|k v s0 ps fs C F IH]; cbn [assoc]; [discriminate|].
  destruct (str_eqb n k); [intros E; inversion E; subst; eauto|auto].
Qed.
Lemma prop_good c n T ctx : context_ok L fits c ctx -> has_type A c (Prop_ n) T -> good T (eval_prop L (Some ctx) n).
Proof.
  intros (ps & F & C) H. remember (Prop_ n) as e eqn:E. destruct H; try discriminate; injection E as E; subst n0;
  match goal with Q : assoc _ (c_fields _) = Some _ |- _ => destruct (assoc_fields _ _ _ _ F Q) as (v & V & W); inversion W; subst end.
  - assert (eval_prop L (Some ctx) n = Ok (OVal L (Some t) p)) as -> by (destruct (c_ent c); [destruct C as (ty & s & k & ->)|subst ctx]; cbn [eval_prop]; rewrite V; reflexivity).
    destruct p as [q|]; [apply val_good; auto|apply null_good; right; left; reflexivity].
  - assert (eval_prop L (Some ctx) n = Ok (OCplx L ps0)) as -> by (destruct (c_ent c); [destruct C as (ty & s & k & ->)|subst ctx]; cbn [eval_prop]; rewrite V; reflexivity).
    right. exists ps0. split; [assumption|reflexivity].
  - rewrite H in C. destruct C as (ty & s & k & ->). cbn [eval_prop]. rewrite V. left. reflexivity.
  - rewrite H in C. destruct C as (ty' & s' & k' & ->). cbn [eval_prop]. rewrite V. right. exists ps0. split; [assumption|]. cbn. eauto.
Qed.
Fixpoint eval_args (ctx : option (value L)) (l : list (option expr)) : res (list (value L)) :=
  match l with
  | nil => Ok nil
  | None :: _ => Err AttributeError
  | Some a :: r => let! v := eval L ctx a in let! vs := eval_args ctx r in Ok (v :: vs)
  end.
Lemma eval_call ctx m args : eval L ctx (XCall m args) = let! vs := eval_args ctx args in call L m vs.
Proof.
  cbn [eval]. match goal with |- rbind (?f args) _ = _ => assert (forall l, f l = eval_args ctx l) as X end.
  { induction l as [|[a|] r IH]; cbn [eval_args]; [reflexivity| |reflexivity]. rewrite <- IH. reflexivity. }
  rewrite X. reflexivity.
Qed.
Lemma eval_un ctx o e : eval L ctx (XUn o [Some e]) = let! v := eval L ctx e in match o with ONeg => eval_neg L v | ONot => eval_not L v end.
Proof. reflexivity. Qed.
Lemma eval_bin ctx o a b : match o with BMember | BCast | BIsOf => False | _ => True end ->
  eval L ctx (XBin o [Some a; Some b]) = let! l := eval L ctx a in let! r := eval L ctx b in bin_method L o l r.
Proof. destruct o; intros H; try contradiction; reflexivity. Qed.

Scheme ht_ind := Induction for has_type Sort Prop
  with hts_ind := Induction for has_types Sort Prop
  with ht2_ind := Induction for has_types2 Sort Prop.
Combined Scheme typing_ind from ht_ind, hts_ind, ht2_ind.

Theorem typed_eval : forall c a T, has_type A c a T -> forall ctx, context_ok L fits c ctx -> good T (eval L (Some ctx) (obj a)).
Proof.
  apply (ht_ind A
    (fun c a T _ => forall ctx, context_ok L fits c ctx -> good T (eval L (Some ctx) (obj a)))
    (fun c l P _ => forall ctx, context_ok L fits c ctx ->
       match eval_args (Some ctx) (map (fun a => Some (obj a)) l) with
       | Ok vs => length vs = length l /\ Forall (fun v => exists ta, P ta /\ inhabits L fits (Val ta) v) vs
       | Err e => A e end)
    (fun c l ts _ => forall ctx, context_ok L fits c ctx ->
       match eval_args (Some ctx) (map (fun a => Some (obj a)) l) with
       | Ok vs => Forall2 (fun v t => inhabits L fits (Val (Some t)) v) vs ts
       | Err e => A e end)).
  - (* literals *)
    intros c l t E ctx _. destruct l; cbn in E; try discriminate; cbn [obj eval lit_value].
    + inversion E; subst. apply null_good. left. reflexivity.
    + inversion E; subst. apply val_good. reflexivity.
    + destruct ((-2147483648 <=? z) && (z <=? 2147483647)) eqn:Q; inversion E; subst. b2p. apply val_good. split; [exact Logic.I|cbn; lia].
    + destruct ((-9223372036854775808 <=? z) && (z <=? 9223372036854775807)) eqn:Q; inversion E; subst. b2p. apply val_good. split; [exact Logic.I|cbn; lia].
    + inversion E; subst. apply val_good. reflexivity.
    + inversion E; subst. apply val_good. reflexivity.
    + inversion E; subst. apply val_good. reflexivity.
    + pose proof (lk_lit L fits K) as F. destruct k; inversion E; subst; apply val_good; (split; [tauto|]); first [apply (F FDouble)|apply (F FSingle)|apply (F FDecimal)].
    + destruct k; inversion E; subst; apply val_good; cbn; tauto.
  - intros. cbn [obj eval]. eapply prop_good; eauto. constructor; auto.
  - intros. cbn [obj eval]. eapply prop_good; eauto. constructor; auto.
  - intros. cbn [obj eval]. eapply prop_good; eauto. constructor; auto.
  - (* member *)
    intros c a n c' T Ha IHa Hn _ ctx C. cbn [obj]. specialize (IHa ctx C).
    change (eval L (Some ctx) (XBin BMember [Some (obj a); Some (XProp n)])) with
      (let! lv := eval L (Some ctx) (obj a) in if truth L lv then eval_prop L (Some lv) n else Ok (null_ L)).
    destruct (eval L (Some ctx) (obj a)) as [v|e]; cbn [rbind]; [|exact IHa].
    destruct IHa as [->|C'].
    + cbn [truth]. inversion Hn; subst; [apply null_good; left; reflexivity|left; reflexivity|left; reflexivity].
    + assert (truth L v = true) as ->. { destruct C' as (ps & _ & Q). destruct (c_ent c'); [destruct Q as (? & ? & ? & ->)|subst v]; reflexivity. }
      eapply prop_good; eauto.
  - intros c a t t' Ha IHa N AV ctx C. cbn [obj]. rewrite eval_un. specialize (IHa ctx C). destruct (eval L (Some ctx) (obj a)) as [v|e]; cbn [rbind]; [|exact IHa].
    eapply neg_good; eauto.
  - intros c a t Ha IHa N ctx C. cbn [obj]. rewrite eval_un. specialize (IHa ctx C). destruct (eval L (Some ctx) (obj a)) as [v|e]; cbn [rbind]; [|exact IHa].
    eapply not_good; eauto.
  - (* arithmetic *)
    intros c o a b ta tb t O Ha IHa Hb IHb N AV AE AI ctx C. cbn [obj]. rewrite eval_bin by (destruct o; exact Logic.I || discriminate).
    specialize (IHa ctx C). specialize (IHb ctx C).
    destruct (eval L (Some ctx) (obj a)) as [v|e]; cbn [rbind]; [|exact IHa]. destruct (eval L (Some ctx) (obj b)) as [w|e]; cbn [rbind]; [|exact IHb].
    destruct o; try discriminate; cbn [obin bin_method]; (eapply arith_good; [exact IHa|exact IHb|exact N|exact AV|intros [Q|Q]; try discriminate; auto|intros Q; try discriminate; auto]).
  - intros c o a b ta tb t O Ha IHa Hb IHb N ctx C. cbn [obj]. rewrite eval_bin by (destruct o; exact Logic.I || discriminate).
    specialize (IHa ctx C). specialize (IHb ctx C).
    destruct (eval L (Some ctx) (obj a)) as [v|e]; cbn [rbind]; [|exact IHa]. destruct (eval L (Some ctx) (obj b)) as [w|e]; cbn [rbind]; [|exact IHb].
    destruct o; try discriminate; cbn [obin bin_method]; eapply order_good; eauto.
  - intros c o a b ta tb t O Ha IHa Hb IHb J I AT ctx C. cbn [obj]. rewrite eval_bin by (destruct o; exact Logic.I || discriminate).
    specialize (IHa ctx C). specialize (IHb ctx C).
    destruct (eval L (Some ctx) (obj a)) as [v|e]; cbn [rbind]; [|exact IHa]. destruct (eval L (Some ctx) (obj b)) as [w|e]; cbn [rbind]; [|exact IHb].
    destruct o; try discriminate; cbn [obin bin_method]; eapply order_other_good; eauto.
  - intros c o a b ta tb t O Ha IHa Hb IHb N ctx C. cbn [obj]. rewrite eval_bin by (destruct o; exact Logic.I || discriminate).
    specialize (IHa ctx C). specialize (IHb ctx C).
    destruct (eval L (Some ctx) (obj a)) as [v|e]; cbn [rbind]; [|exact IHa]. destruct (eval L (Some ctx) (obj b)) as [w|e]; cbn [rbind]; [|exact IHb].
    destruct (eq_good _ _ _ _ _ IHa IHb N) as (r & E & R). destruct o; try discriminate; cbn [obin bin_method]; unfold eval_ne; rewrite E.
    + destruct r as [x|e]; [|exact R]. destruct R as (d & ->). apply bool_good.
    + destruct r as [x|e]; [|exact R]. destruct R as (d & ->). apply (bool_good (negb d)).
  - intros c o a b ta tb t O Ha IHa Hb IHb J I ctx C. cbn [obj]. rewrite eval_bin by (destruct o; exact Logic.I || discriminate).
    specialize (IHa ctx C). specialize (IHb ctx C).
    destruct (eval L (Some ctx) (obj a)) as [v|e]; cbn [rbind]; [|exact IHa]. destruct (eval L (Some ctx) (obj b)) as [w|e]; cbn [rbind]; [|exact IHb].
    destruct (eq_other_good _ _ _ _ _ IHa IHb J I) as (d & E). destruct o; try discriminate; cbn [obin bin_method]; unfold eval_ne; rewrite E;
      [apply bool_good|apply (bool_good (negb d))].
  - intros c o a b ta tb O Ha IHa Hb IHb Ta Tb ctx C. cbn [obj]. rewrite eval_bin by (destruct o; exact Logic.I || discriminate).
    specialize (IHa ctx C). specialize (IHb ctx C).
    destruct (eval L (Some ctx) (obj a)) as [v|e]; cbn [rbind]; [|exact IHa]. destruct (eval L (Some ctx) (obj b)) as [w|e]; cbn [rbind]; [|exact IHb].
    destruct o; try discriminate; cbn [obin bin_method]; eapply logic_good; eauto.
  - intros c a ta t Ha IHa P ctx C. cbn [obj]. specialize (IHa ctx C).
    change (eval L (Some ctx) (XBin BCast [Some (obj a); Some (XLit (LStr (type_name t)))])) with
      (let! lv := eval L (Some ctx) (obj a) in eval_cast L (Some lv) (OVal L (Some String_) (Some (PStr L (type_name t))))).
    destruct (eval L (Some ctx) (obj a)) as [v|e]; cbn [rbind]; [|exact IHa]. eapply cast_good; eauto.
  - intros c a ta t Ha IHa ctx C. cbn [obj]. specialize (IHa ctx C).
    change (eval L (Some ctx) (XBin BIsOf [Some (obj a); Some (XLit (LStr (type_name t)))])) with
      (let! lv := eval L (Some ctx) (obj a) in eval_isof L (Some lv) (OVal L (Some String_) (Some (PStr L (type_name t))))).
    destruct (eval L (Some ctx) (obj a)) as [v|e]; cbn [rbind]; [|exact IHa]. eapply isof_good; eauto.
  - intros c n Ce ctx (ps & F & C). rewrite Ce in C. destruct C as (ty & s & k & ->). cbn [obj].
    change (good (Val (Some Boolean)) (eval_isof L (Some (OEnt L ty s k ps)) (OVal L (Some String_) (Some (PStr L n))))). cbn [eval_isof type_arg rbind]. apply bool_good.
  - intros c m n args t I N Ha IHa AV ctx C. cbn [obj]. rewrite eval_call. specialize (IHa ctx C).
    destruct (eval_args (Some ctx) _) as [vs|e]; cbn [rbind]; [|exact IHa]. destruct IHa as (Le & Fo).
    eapply string_call; eauto. congruence.
  - intros c m args ts t I Ha IHa AE AV ctx C. cbn [obj]. rewrite eval_call. specialize (IHa ctx C).
    destruct (eval_args (Some ctx) _) as [vs|e]; cbn [rbind]; [|exact IHa]. eapply strict_call; eauto.
  - intros c m a ta I Ha IHa N AV AO ctx C. cbn [obj map]. rewrite eval_call. specialize (IHa ctx C). cbn [eval_args].
    destruct (eval L (Some ctx) (obj a)) as [v|e]; cbn [rbind]; [|exact IHa].
    assert (exists r, call L m [v] = rounding L r [v]) as (r & ->).
    { unfold round_methods in I. cbn [In] in I. destruct I as [<-|[<-|[<-|[]]]]; calls; eauto. }
    apply round_good; auto.
  - intros. cbn. auto.
  - intros c a l ta P Ha IHa Pt Hl IHl ctx C. cbn [map eval_args]. specialize (IHa ctx C). specialize (IHl ctx C).
    destruct (eval L (Some ctx) (obj a)) as [v|e]; cbn [rbind]; [|exact IHa]. destruct (eval_args (Some ctx) _) as [vs|e]; cbn [rbind]; [|exact IHl].
    destruct IHl. split; [cbn; congruence|]. constructor; eauto.
  - intros. cbn. auto.
  - intros c a l t ts Ha IHa Hl IHl ctx C. cbn [map eval_args]. specialize (IHa ctx C). specialize (IHl ctx C).
    destruct (eval L (Some ctx) (obj a)) as [v|e]; cbn [rbind]; [|exact IHa]. destruct (eval_args (Some ctx) _) as [vs|e]; cbn [rbind]; [|exact IHl].
    constructor; auto.
Qed.
End Typed.
