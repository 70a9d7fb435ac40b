From Verif Require Import Py Num IsoModel IsoSpec IsoProofs IsoMain.
Ltac Zify.zify_post_hook ::= Z.to_euclidean_division_equations.
#[local] Arguments leapb : simpl never.
#[local] Arguments Z.add : simpl nomatch.

(** ** C23: ordinal form *)
Lemma ordinal_roundtrip y m d b : valid (y, m, d) ->
  date_ordinal b (Some (y / 100)) (Some (y mod 100)) (ordinal (y, m, d)) = Ok (cal (y, m, d)).
Proof.
  intros V. pose proof V as [Hy Hv]. pose proof (ordinal_pos _ _ _ Hv) as O.
  unfold date_ordinal, new_date. cbn [a_absolute_day a_decade a_week a_weekday a_ordinal_day truthy orb the a_century a_year a_base].
  destruct (Z.eqb_spec (ordinal (y, m, d)) 0); [lia|]. cbn [negb].
  destruct (set_ordinal_cal y _ b O) as (m' & d' & E & V' & O'). rewrite E. cbn [rbind].
  assert ((y, m', d') = (y, m, d)) as -> by (apply dn_inj; auto; cbn [dn]; lia).
  apply check_valid in V. rewrite V. reflexivity.
Qed.
Lemma walk_beyond (leap : bool) o : (if leap then 366 else 365) < o -> exists x, month_walk (sizes leap) 1 o = (13, x).
Proof.
  intros H. destruct leap; cbn -[Z.sub Z.ltb];
  repeat match goal with |- context [?a <? ?b] => destruct (Z.ltb_spec a b); try lia end; eauto.
Qed.
Lemma walk_below (leap : bool) o : o < 1 -> month_walk (sizes leap) 1 o = (1, o).
Proof.
  intros H. destruct leap; cbn -[Z.sub Z.ltb];
  repeat match goal with |- context [?a <? ?b] => destruct (Z.ltb_spec a b); try lia end; eauto.
Qed.
Lemma ordinal_sound y o b r : o <> 0 ->
  date_ordinal b (Some (y / 100)) (Some (y mod 100)) o = Ok r ->
  exists m d, r = cal (y, m, d) /\ valid (y, m, d) /\ ordinal (y, m, d) = o.
Proof.
  intros N. unfold date_ordinal, new_date. cbn [a_absolute_day a_decade a_week a_weekday a_ordinal_day truthy orb the a_century a_year a_base].
  destruct (Z.eqb_spec o 0); [lia|]. cbn [negb].
  destruct (Z_le_dec 1 o) as [L1|L1]; [destruct (Z_le_dec o (year_len y)) as [L2|L2]|].
  - destruct (set_ordinal_cal y o b ltac:(lia)) as (m' & d' & E & V' & O'). rewrite E. cbn [rbind].
    destruct (check_date _) as [[]|] eqn:C; cbn [rbind]; [|discriminate]. intros X; injection X as <-.
    exists m', d'. psplit; auto. apply check_valid; auto.
  - unfold set_from_ordinal_day. cbn [rbind]. rewrite date_leap_eq. cbn [rbind].
    destruct (walk_beyond (leapb y) o) as [x E]; [unfold year_len in L2; lia|]. rewrite E.
    change (mkd _ _ (Some 13) _ _) with (cal (y, 13, x)). cbn [rbind].
    rewrite check_bad_md; [discriminate|]. cbn. lia.
  - unfold set_from_ordinal_day. cbn [rbind]. rewrite date_leap_eq. cbn [rbind].
    rewrite walk_below by lia.
    change (mkd _ _ (Some 1) _ _) with (cal (y, 1, o)). cbn [rbind].
    rewrite check_bad_md; [discriminate|]. cbn. lia.
Qed.

(** ** C23: week form *)
Lemma week_to_cal c y w wd : 0 <= w -> 1 <= wd <= 7 -> let Y := c * 100 + y in
  (w <= week_count Y -> exists p, week_to_calendar c y w wd = Ok (cal p) /\ valid_md p /\
    dn p = wk1 Y + 7 * (w - 1) + wd - 1) /\
  (week_count Y < w -> week_to_calendar c y w wd = Err DateTimeError).
Proof.
  intros Hw Hd Y. unfold week_to_calendar. fold Y. split; intros H.
  2:{ destruct (Z.ltb_spec (week_count Y) w); [auto|lia]. }
  destruct (Z.ltb_spec (week_count Y) w); [lia|]. clear H0.
  pose proof (week_count_bounds Y). rewrite !leap_year_eq.
  set (o := 4 - day_of_week Y 1 4 + (w - 1) * 7 + wd).
  assert (Ho : ys Y + o = wk1 Y + 7 * (w - 1) + wd - 1) by (subst o; unfold wk1; lia).
  assert (K : forall Z O, ys Z + O = ys Y + o -> 1 <= O <= year_len Z -> exists p,
     (let (m, day) := month_walk (sizes (leapb Z)) 1 O in
      Ok (mkd (Z / 100) (Some (Z mod 100)) (Some m) None (Some day))) = Ok (cal p) /\ valid_md p /\
      dn p = wk1 Y + 7 * (w - 1) + wd - 1).
  { intros Z0 O E1 E2. destruct (walk_ok Z0 O E2) as (m & d & E & V & EO). rewrite E.
    exists (Z0, m, d). psplit; auto. cbn [dn]. lia. }
  pose proof (wk1_bound Y). pose proof (wk1_bound (Y + 1)). pose proof (wk1_succ Y). pose proof (ys_succ Y).
  pose proof (ys_succ (Y - 1)) as YP. replace (Y - 1 + 1) with Y in YP by lia.
  pose proof (year_len_pos Y). pose proof (year_len_pos (Y - 1)).
  clearbody o Y. destruct (Z.ltb_spec o 1).
  - apply (K (Y - 1) (if leapb (Y - 1) then o + 366 else o + 365)).
    + unfold year_len in *. destruct (leapb (Y - 1)); lia.
    + unfold year_len in *. destruct (leapb (Y - 1)); lia.
  - fold (year_len Y). destruct (Z.ltb_spec (year_len Y) o).
    + apply (K (Y + 1) (o - year_len Y)); [lia|]. pose proof (year_len_pos (Y + 1)). lia.
    + apply (K Y o); lia.
Qed.
(** the specification's week dates in terms of day numbers *)
Lemma weekday_mod n : weekday n = (dn (nth_day n) - 1) mod 7 + 1.
Proof. unfold weekday. destruct (nth_day_ok n) as [_ ->]. f_equal. f_equal. lia. Qed.
Lemma iso_week_iff n Y w wd : iso_week n Y w wd <->
  1 <= wd <= 7 /\ 1 <= w <= week_count Y /\ Z.of_nat n + 1 = wk1 Y + 7 * (w - 1) + wd - 1.
Proof.
  unfold iso_week. rewrite weekday_mod. destruct (nth_day_ok n) as [Vn Dn]. rewrite Dn. split.
  - intros (W & t & m & d & T & NT & Ew). split; [lia|].
    destruct (nth_day_ok t) as [Vt Dt]. rewrite NT in Vt, Dt. pose proof (ordinal_pos _ _ _ Vt) as O.
    cbn [dn] in Dt. set (o := ordinal (Y, m, d)) in *.
    pose proof (wk1_bound Y). pose proof (wk1_mod Y). pose proof (wk1_succ Y). pose proof (wk1_bound (Y + 1)).
    pose proof (wk1_mod (Y + 1)). pose proof (ys_succ Y). pose proof (week_count_bounds Y).
    assert (E : Z.of_nat n + 1 = wk1 Y + 7 * (w - 1) + wd - 1).
    { generalize dependent (wk1 Y). intros k K1 K2 _. lia. }
    split; auto. generalize dependent (wk1 Y). generalize dependent (wk1 (Y + 1)).
    generalize dependent (ys (Y + 1)). intros. lia.
  - intros (Hd & Hw & E). pose proof (wk1_mod Y). split.
    + generalize dependent (wk1 Y). intros. lia.
    + assert (T0 : 0 <= Z.of_nat n - wd + 4).
      { pose proof (wk1_mod 1). generalize dependent (wk1 Y). intros. lia. }
      exists (Z.to_nat (Z.of_nat n - wd + 4)). destruct (nth_day_ok (Z.to_nat (Z.of_nat n - wd + 4))) as [Vt Dt].
      destruct (nth_day _) as [[y' m'] d'] eqn:N in Vt, Dt |- *. exists m', d'. split; [lia|].
      assert (Dt' : dn (y', m', d') = wk1 Y + 7 * (w - 1) + 3) by (rewrite Dt; lia).
      pose proof (ordinal_pos _ _ _ Vt) as O. cbn [dn] in Dt'.
      pose proof (wk1_bound Y). pose proof (wk1_succ Y). pose proof (wk1_bound (Y + 1)).
      pose proof (ys_succ Y). pose proof (week_count_bounds Y). pose proof (wk1_mod (Y + 1)).
      assert (y' = Y) as ->.
      { destruct (Z.lt_trichotomy y' Y) as [L|[L|L]]; auto.
        - pose proof (ys_lt y' Y L). generalize dependent (wk1 Y). intros. lia.
        - pose proof (ys_mono (Y + 1) y' ltac:(lia)).
          generalize dependent (wk1 Y). generalize dependent (wk1 (Y + 1)). intros. lia. }
      split; auto. generalize dependent (wk1 Y). intros. lia.
Qed.
Lemma get_week_spec n : exists Y w wd, iso_week n Y w wd /\
  get_week_day (cal (nth_day n)) = Ok (Y / 100, Some ((Y mod 100) / 10), Some (Y mod 10), Some w, Some wd).
Proof.
  destruct (nth_day_ok n) as [V D]. destruct (get_week_cal _ V) as (Y & w & E & Hw & ED).
  exists Y, w, ((dn (nth_day n) - 1) mod 7 + 1). split; auto. apply iso_week_iff. split; [lia|]. split; auto. lia.
Qed.
Lemma iso_week_det n Y w wd Y' w' wd' : iso_week n Y w wd -> iso_week n Y' w' wd' -> Y = Y' /\ w = w' /\ wd = wd'.
Proof.
  intros (H1 & t & m & d & T & N & E) (H1' & t' & m' & d' & T' & N' & E'). subst wd wd'.
  assert (t = t') by lia. subst t'. rewrite N in N'. injection N' as <- <- <-. subst. auto.
Qed.
(** years of week dates *)
Lemma iso_week_year n Y w wd : iso_week n Y w wd -> Z.of_nat n < max_day -> 1 <= Y <= 9999.
Proof.
  intros H L. apply iso_week_iff in H as (Hd & Hw & E).
  pose proof (wk1_mono 1 Y) as M1. pose proof (wk1_mono Y 0) as M0. pose proof (wk1_mono 10000 Y) as M2.
  assert (wk1 1 = 1) by reflexivity. assert (wk1 0 = -363) by reflexivity. assert (wk1 10000 = 3652062) by reflexivity.
  unfold max_day in L. pose proof (wk1_succ Y). split.
  - destruct (Z_le_dec Y 0); [|lia]. pose proof (wk1_mono (Y + 1) 1 ltac:(lia)). lia.
  - destruct (Z_le_dec 10000 Y); [|lia]. specialize (M2 l). lia.
Qed.
Lemma out_of_false lo hi x : lo <= x <= hi -> (x <? lo) || (hi <? x) = false.
Proof. intros. apply orb_false_iff. split; apply Z.ltb_ge; lia. Qed.
Lemma out_of_true lo hi x : x < lo \/ hi < x -> (x <? lo) || (hi <? x) = true.
Proof. intros. apply orb_true_iff. rewrite !Z.ltb_lt. auto. Qed.

Lemma date_week_eq b c dec y w wd : 0 <= dec <= 9 -> 0 <= y <= 9 -> 1 <= w <= 53 -> 1 <= wd <= 7 ->
  date_week b (Some c) (Some dec) (Some y) (Some w) (Some wd) =
  let! d := week_to_calendar c (dec * 10 + y) w wd in let! _ := check_date d in Ok d.
Proof.
  intros H1 H2 H3 H4. unfold date_week, new_date.
  cbn [a_absolute_day a_decade a_week a_weekday a_ordinal_day the a_century a_year a_base].
  replace (truthy (Some wd)) with true by (cbn; destruct (Z.eqb_spec wd 0); auto; lia).
  rewrite !orb_true_r. cbn [truthy]. unfold set_from_week_day. cbn [is_some negb andb].
  rewrite !out_of_false by lia. cbn [rbind]. reflexivity.
Qed.
Lemma week_roundtrip n Y w wd b : Z.of_nat n < max_day -> iso_week n Y w wd ->
  date_week b (Some (Y / 100)) (Some ((Y mod 100) / 10)) (Some (Y mod 10)) (Some w) (Some wd) = Ok (cal (nth_day n)).
Proof.
  intros L I. pose proof (iso_week_year _ _ _ _ I L) as HY. apply iso_week_iff in I as (Hd & Hw & E).
  pose proof (week_count_bounds Y). rewrite date_week_eq by lia.
  destruct (week_to_cal (Y / 100) (Y mod 100 / 10 * 10 + Y mod 10) w wd ltac:(lia) Hd) as [K _].
  replace (Y / 100 * 100 + (Y mod 100 / 10 * 10 + Y mod 10)) with Y in K by lia.
  destruct K as (p & Ep & Vp & Dp); [lia|]. rewrite Ep. cbn [rbind].
  assert (p = nth_day n) as -> by (apply nth_day_unique; auto; lia).
  assert (V : valid (nth_day n)) by (apply c21_valid; eauto). apply check_valid in V. rewrite V. reflexivity.
Qed.
Lemma week_sound b c dec y w wd r : 1 <= w ->
  date_week b (Some c) (Some dec) (Some y) (Some w) (Some wd) = Ok r ->
  exists n, Z.of_nat n < max_day /\ r = cal (nth_day n) /\ iso_week n (c * 100 + dec * 10 + y) w wd /\
    0 <= dec <= 9 /\ 0 <= y <= 9.
Proof.
  intros W H.
  assert (R : 0 <= dec <= 9 /\ 0 <= y <= 9 /\ 1 <= w <= 53 /\ 1 <= wd <= 7).
  { unfold date_week, new_date in H. cbn [a_absolute_day a_decade a_week a_weekday a_ordinal_day the a_century a_year a_base truthy] in H.
    replace (negb (dec =? 0) || negb (w =? 0) || negb (wd =? 0)) with true in H
      by (destruct (Z.eqb_spec w 0); [lia|]; cbn; destruct (dec =? 0); reflexivity).
    unfold set_from_week_day in H. cbn [is_some negb andb] in H.
    destruct ((wd <? 1) || (7 <? wd)) eqn:E1; [discriminate|].
    destruct ((w <? 0) || (53 <? w)) eqn:E2; [discriminate|].
    destruct ((y <? 0) || (9 <? y)) eqn:E3; [discriminate|].
    destruct ((dec <? 0) || (9 <? dec)) eqn:E4; [discriminate|]. b2p. lia. }
  destruct R as (R1 & R2 & R3 & R4). rewrite date_week_eq in H by lia.
  destruct (week_to_cal c (dec * 10 + y) w wd ltac:(lia) R4) as [K1 K2].
  set (Y := c * 100 + (dec * 10 + y)) in *. replace (c * 100 + dec * 10 + y) with Y by (subst Y; lia).
  destruct (Z_le_dec w (week_count Y)).
  - destruct K1 as (p & E & V & D); auto. rewrite E in H. cbn [rbind] in H.
    destruct (check_date (cal p)) as [[]|] eqn:C; [|discriminate]. injection H as <-.
    apply check_valid in C. pose proof (dn_range p C). exists (Z.to_nat (dn p - 1)).
    assert (p = nth_day (Z.to_nat (dn p - 1))) as Ep by (apply valid_nth; auto).
    psplit; try lia; [congruence|]. apply iso_week_iff. split; auto. split; [lia|]. lia.
  - rewrite K2 in H by lia. discriminate.
Qed.

(** ** C23: Julian calendar *)
Definition jsz (y : Z) : list Z := sizes (negb (z_true (y mod 4))).
Fixpoint jdays_before (y : Z) (m : nat) : Z :=
  match m with O => 0 | S k => jdays_before y k + jmonth_len y (Z.of_nat m) end.
Definition jord (p : ymd) : Z := let '(y, m, d) := p in jdays_before y (Z.to_nat (m - 1)) + d.
Definition jvalid (p : ymd) : Prop := let '(y, m, d) := p in 1 <= m <= 12 /\ 1 <= d <= jmonth_len y m.
Definition jys (y : Z) : Z := 365 * (y - 1) + (y - 1) / 4.
Definition jdn (p : ymd) : Z := let '(y, m, d) := p in jys y + jord p.
Definition jylen (y : Z) : Z := if y mod 4 =? 0 then 366 else 365.
Lemma jys_succ y : jys (y + 1) = jys y + jylen y.
Proof. unfold jys, jylen. destruct (Z.eqb_spec (y mod 4) 0); lia. Qed.
Lemma jord_pos y m d : jvalid (y, m, d) -> 1 <= jord (y, m, d) <= jylen y.
Proof.
  intros [Hm Hd]. unfold jord, jylen.
  destruct (y mod 4 =? 0) eqn:E; months Hm; cbn in *; rewrite ?E in *; lia.
Qed.
Lemma jnext_ok p : jvalid p -> jvalid (jnext_day p) /\ jdn (jnext_day p) = jdn p + 1.
Proof.
  destruct p as [[y m] d]. intros [Hm Hd]. unfold jnext_day. destruct (d <? jmonth_len y m) eqn:E1; b2p.
  - split; [cbn; lia|]. cbn [jdn jord]. lia.
  - assert (d = jmonth_len y m) by lia. subst d. destruct (m <? 12) eqn:E2; b2p.
    + split; [split; [lia|]; unfold jmonth_len; repeat destr; lia|].
      cbn [jdn jord]. replace (Z.to_nat (m + 1 - 1)) with (S (Z.to_nat (m - 1))) by lia.
      cbn [jdays_before]. replace (Z.of_nat (S (Z.to_nat (m - 1)))) with m by lia. lia.
    + assert (m = 12) by lia. subst m. split; [cbn; lia|]. cbn [jdn]. rewrite jys_succ. unfold jord, jylen.
      redn. destruct (y mod 4 =? 0) eqn:E; cbn; rewrite ?E; lia.
Qed.
Lemma jnth_ok n : jvalid (jnth_day n) /\ jdn (jnth_day n) = Z.of_nat n + 3.
Proof.
  induction n as [|n [IH1 IH2]]; [cbn; lia|]. change (jnth_day (S n)) with (jnext_day (jnth_day n)).
  destruct (jnext_ok _ IH1). split; auto. lia.
Qed.
Lemma jwalk_ok y o : 1 <= o <= jylen y -> exists m d, month_walk (jsz y) 1 o = (m, d) /\
  jvalid (y, m, d) /\ jord (y, m, d) = o.
Proof.
  unfold jylen, jsz, z_true. intros H. rewrite negb_involutive. destruct (y mod 4 =? 0) eqn:E; cbn -[Z.sub Z.ltb];
  repeat match goal with |- context [?a <? ?b] => destruct (Z.ltb_spec a b) end; try lia;
  (eexists _, _; split; [reflexivity|]; split; [split; [lia|]|]; unfold jord; redn; cbn -[Z.sub]; rewrite ?E; lia).
Qed.
Lemma jsizes_fold y m d : 1 <= m <= 12 ->
  fold_left Z.add (firstn (Z.to_nat (m - 1)) (jsz y)) d = jord (y, m, d).
Proof.
  intros Hm. unfold jord, jsz, z_true. rewrite negb_involutive.
  destruct (y mod 4 =? 0) eqn:E; months Hm; cbn; rewrite ?E; lia.
Qed.
Lemma jdays_mono y a b : (a <= b)%nat -> jdays_before y a <= jdays_before y b.
Proof. induction 1; [lia|]. cbn [jdays_before]. unfold jmonth_len. repeat destr; lia. Qed.
Lemma jys_lt y z : y < z -> jys y + jylen y <= jys z.
Proof. intros H. rewrite <- jys_succ. unfold jys. lia. Qed.
Lemma jdn_lt p q : jvalid p -> jvalid q -> ymd_lt p q -> jdn p < jdn q.
Proof.
  destruct p as [[y m] d], q as [[y' m'] d']. intros Hp Hq H. cbn [ymd_lt] in H.
  pose proof (jord_pos _ _ _ Hp). pose proof (jord_pos _ _ _ Hq).
  destruct Hp as [Hm Hd], Hq as [Hm' Hd'].
  destruct H as [H | [<- [H | [<- H]]]]; cbn [jdn].
  - pose proof (jys_lt y y' H). lia.
  - cbn [jord]. pose proof (jdays_mono y (S (Z.to_nat (m - 1))) (Z.to_nat (m' - 1)) ltac:(lia)).
    cbn [jdays_before] in *. replace (Z.of_nat (S (Z.to_nat (m - 1)))) with m in * by lia. lia.
  - cbn [jord]. lia.
Qed.
Lemma jdn_inj p q : jvalid p -> jvalid q -> jdn p = jdn q -> p = q.
Proof. intros Hp Hq E. destruct (ymd_tri p q) as [|[H|H]]; auto; apply jdn_lt in H; auto; lia. Qed.
Lemma julian_ok n : Z.of_nat n < max_day ->
  get_julian_day (cal (nth_day n)) = Ok (jnth_day n) /\
  (let '(y, m, d) := jnth_day n in from_julian y m d = Ok (cal (nth_day n))).
Proof.
  intros L. destruct (c21_main n L) as [A1 A2]. destruct (jnth_ok n) as [JV JD]. split.
  - unfold get_julian_day. rewrite A2. cbn [rbind].
    assert (K : forall Y O, jys Y + O = Z.of_nat n + 3 -> 1 <= O <= jylen Y ->
      (let (month, day) := month_walk (sizes (negb (z_true (Y mod 4)))) 1 O in Ok (Y, month, day)) = Ok (jnth_day n)).
    { intros Y O E1 E2. destruct (jwalk_ok Y O E2) as (m & d & E & V & EO). unfold jsz in E. rewrite E. f_equal.
      apply jdn_inj; auto. cbn [jdn]. lia. }
    set (q := Z.of_nat n + 1 + 1) in *. assert (Hq : Z.of_nat n + 3 = q + 1) by (subst q; lia).
    set (b := q / 1461). set (t := q mod 1461). assert (Hb : q = 1461 * b + t /\ 0 <= t < 1461) by (subst b t; lia).
    clearbody b t. cbv zeta. destruct (Z.eqb_spec t (1461 - 1)).
    + apply K; [unfold jys; lia|]. unfold jylen. destruct (Z.eqb_spec ((4 * b + 3 + 1) mod 4) 0); lia.
    + set (e := t / 365). set (u := t mod 365). assert (t = 365 * e + u /\ 0 <= u < 365 /\ 0 <= e <= 3) by (subst e u; lia).
      clearbody e u. apply K; [unfold jys; lia|]. unfold jylen. destr; lia.
  - destruct (jnth_day n) as [[y m] d]. cbn in JV. destruct JV as [Hm Hd]. unfold from_julian. fold (jsz y).
    rewrite jsizes_fold by auto. rewrite <- A1. f_equal. cbn [jdn] in JD. unfold jys in JD. lia.
Qed.

(** ** Reduced precision offsets *)
Lemma cal_month y m : 1 <= m <= 12 -> date_calendar None (Some (y / 100)) (Some (y mod 100)) (Some m) None =
  if (1 <=? y) && (y <=? 9999) then Ok (month_date y m) else Err DateTimeError.
Proof.
  intros H. unfold date_calendar, new_date. cbn [a_absolute_day a_decade a_week a_weekday a_ordinal_day the a_century a_year a_base a_month a_day truthy orb is_some negb andb set_from_calendar_day rbind].
  unfold check_date. cbn [d_century d_year d_week d_month d_day truthy].
  repeat destr; b2p; try reflexivity; exfalso;
  repeat match goal with H : _ || _ = true |- _ => apply orb_true_iff in H; destruct H end;
  repeat match goal with H : _ && _ = false |- _ => apply andb_false_iff in H; destruct H end; b2p; lia.
Qed.
Lemma cal_year y : date_calendar None (Some (y / 100)) (Some (y mod 100)) None None =
  if (1 <=? y) && (y <=? 9999) then Ok (year_date y) else Err DateTimeError.
Proof.
  unfold date_calendar, new_date. cbn [a_absolute_day a_decade a_week a_weekday a_ordinal_day the a_century a_year a_base a_month a_day truthy orb is_some negb andb set_from_calendar_day rbind].
  unfold check_date. cbn [d_century d_year d_week d_month d_day truthy].
  repeat destr; b2p; try reflexivity; exfalso;
  repeat match goal with H : _ || _ = true |- _ => apply orb_true_iff in H; destruct H end;
  repeat match goal with H : _ && _ = false |- _ => apply andb_false_iff in H; destruct H end; b2p; lia.
Qed.
Lemma offset_month y m c yy mm : 1 <= m <= 12 ->
  offset (month_date y m) c yy mm 0 0 =
  let t := 12 * y + (m - 1) + mm + 12 * yy + 1200 * c in
  if (1 <=? t / 12) && (t / 12 <=? 9999) then Ok (Some (month_date (t / 12) (t mod 12 + 1))) else Err DateTimeError.
Proof.
  intros H. unfold offset. cbn [get_precision month_date d_day d_month d_year d_week d_century z_true Z.eqb negb andb].
  set (t := 12 * y + (m - 1) + mm + 12 * yy + 1200 * c). cbv zeta.
  set (M := m + mm).
  assert (E1 : (if (12 <? M) || (M <? 1) then (yy + (M - 1) / 12, (M - 1) mod 12 + 1) else (yy, M)) =
    (yy + (M - 1) / 12, (M - 1) mod 12 + 1)).
  { destruct (_ || _) eqn:E; auto. b2p. f_equal; lia. }
  rewrite E1. clear E1. set (YY := y mod 100 + (yy + (M - 1) / 12)).
  assert (E2 : (if (99 <? YY) || (YY <? 0) then (c + YY / 100, YY mod 100) else (c, YY)) = (c + YY / 100, YY mod 100)).
  { destruct (_ || _) eqn:E; auto. b2p. f_equal; lia. }
  rewrite E2. clear E2.
  assert (T : t / 12 = y + yy + 100 * c + (M - 1) / 12) by (subst M t; lia).
  replace ((M - 1) mod 12 + 1) with (t mod 12 + 1) by (subst M t; lia).
  rewrite T. set (q := (M - 1) / 12) in *. clearbody q. set (Y' := y + yy + 100 * c + q).
  replace (y / 100 + (c + YY / 100)) with (Y' / 100) by (subst YY Y'; lia).
  replace (YY mod 100) with (Y' mod 100) by (subst YY Y'; lia).
  rewrite cal_month by lia. destruct (_ && _); reflexivity.
Qed.
Lemma offset_year y c yy : offset (year_date y) c yy 0 0 0 =
  let t := y + yy + 100 * c in
  if (1 <=? t) && (t <=? 9999) then Ok (Some (year_date t)) else Err DateTimeError.
Proof.
  unfold offset. cbn [get_precision year_date d_day d_month d_year d_week d_century z_true Z.eqb negb andb].
  cbv zeta. set (t := y + yy + 100 * c). set (YY := y mod 100 + yy).
  assert (E2 : (if (99 <? YY) || (YY <? 0) then (c + YY / 100, YY mod 100) else (c, YY)) = (c + YY / 100, YY mod 100)).
  { destruct (_ || _) eqn:E; auto. b2p. f_equal; lia. }
  rewrite E2.
  replace (y / 100 + (c + YY / 100)) with (t / 100) by (subst YY t; lia).
  replace (YY mod 100) with (t mod 100) by (subst YY t; lia).
  rewrite cal_year. destruct (_ && _); reflexivity.
Qed.
Lemma week_loop_ok : forall fuel y w, Z.of_nat fuel >= Z.abs w + 2 -> exists Y W,
  week_loop fuel y w = Ok (Y, W) /\ 1 <= W <= week_count Y /\ wk1 Y + 7 * (W - 1) = wk1 y + 7 * (w - 1).
Proof.
  induction fuel as [|f IH]; intros y w F; [lia|]. cbn [week_loop].
  pose proof (wk1_succ (y - 1)) as P. replace (y - 1 + 1) with y in P by lia. pose proof (wk1_succ y) as S1.
  pose proof (week_count_bounds y). pose proof (week_count_bounds (y - 1)).
  destruct (Z.ltb_spec w 1).
  - destruct (Z_le_dec 1 (w + week_count (y - 1))) as [G|G].
    + destruct f as [|f']; [lia|]. cbn [week_loop].
      destruct (Z.ltb_spec (w + week_count (y - 1)) 1); [lia|].
      destruct (Z.ltb_spec (week_count (y - 1)) (w + week_count (y - 1))); [lia|].
      exists (y - 1), (w + week_count (y - 1)). psplit; auto; lia.
    + destruct (IH (y - 1) (w + week_count (y - 1))) as (Y & W & E & B & D); [lia|].
      exists Y, W. psplit; auto; lia.
  - destruct (Z.ltb_spec (week_count y) w).
    + destruct (IH (y + 1) (w - week_count y)) as (Y & W & E & B & D); [lia|]. exists Y, W. psplit; auto; lia.
    + exists y, w. psplit; auto; lia.
Qed.
Lemma date_week_noday Y w : 1 <= w <= week_count Y ->
  date_week None (Some (Y / 100)) (Some (Y mod 100 / 10)) (Some (Y mod 100 mod 10)) (Some w) None =
  if (1 <=? Y) && (Y <=? 9999) then Ok (week_date Y w) else Err DateTimeError.
Proof.
  intros H. pose proof (week_count_bounds Y). unfold date_week, new_date.
  cbn [a_absolute_day a_decade a_week a_weekday a_ordinal_day the a_century a_year a_base truthy].
  destruct (Z.eqb_spec w 0); [lia|]. cbn [negb]. rewrite orb_true_r. cbn [orb].
  unfold set_from_week_day. cbn [is_some negb andb]. rewrite !out_of_false by lia. cbn [rbind].
  replace (Y mod 100 / 10 * 10 + Y mod 100 mod 10) with (Y mod 100) by lia. fold (week_date Y w).
  unfold check_date. cbn [d_century d_year d_week d_month d_day truthy week_date is_some].
  replace (Y / 100 * 100 + Y mod 100) with Y by lia. destruct (Z.eqb_spec w 0); [lia|]. cbn [negb].
  rewrite (out_of_false 1 (week_count Y)) by lia.
  repeat destr; b2p; try reflexivity; exfalso;
  repeat match goal with H : _ || _ = true |- _ => apply orb_true_iff in H; destruct H end;
  repeat match goal with H : _ && _ = false |- _ => apply andb_false_iff in H; destruct H end; b2p; lia.
Qed.
Lemma offset_week n Y w k : Z.of_nat n < max_day -> iso_week n Y w 1 ->
  (forall n', Z.of_nat n' = Z.of_nat n + 7 * k -> Z.of_nat n' + 3 < max_day -> exists Y' w',
     iso_week n' Y' w' 1 /\ offset (week_date Y w) 0 0 0 k 0 = Ok (Some (week_date Y' w'))) /\
  (Z.of_nat n + 7 * k < 0 \/ max_day <= Z.of_nat n + 7 * k + 3 -> offset (week_date Y w) 0 0 0 k 0 = Err DateTimeError).
Proof.
  intros L I. pose proof (iso_week_year _ _ _ _ I L) as HY. apply iso_week_iff in I as (_ & Hw & E).
  unfold offset. cbn [get_precision week_date d_day d_month d_year d_week d_century z_true Z.eqb negb andb].
  replace (Y mod 100 + 100 * (Y / 100)) with Y by lia.
  destruct (week_loop_ok (S (S (Z.to_nat (Z.abs (w + k))))) Y (w + k) ltac:(lia)) as (Y' & w' & El & B & D).
  rewrite El. cbn [rbind]. rewrite date_week_noday by auto.
  assert (D' : wk1 Y' + 7 * (w' - 1) = Z.of_nat n + 1 + 7 * k) by lia.
  assert (A1 : wk1 1 = 1) by reflexivity. assert (A3 : wk1 10000 = 3652062) by reflexivity.
  pose proof (wk1_succ Y') as S1. split.
  - intros n' En Ln. exists Y', w'. split; [apply iso_week_iff; lia|].
    assert (1 <= Y' <= 9999).
    { unfold max_day in Ln. split.
      - destruct (Z_le_dec Y' 0); [|lia]. pose proof (wk1_mono (Y' + 1) 1 ltac:(lia)). lia.
      - destruct (Z_le_dec 10000 Y'); [|lia]. pose proof (wk1_mono 10000 Y' ltac:(lia)). lia. }
    destruct (_ && _) eqn:C; auto. apply andb_false_iff in C as [C|C]; b2p; lia.
  - intros R. destruct (_ && _) eqn:C; auto. b2p. exfalso. unfold max_day in R.
    pose proof (wk1_mono 1 Y' ltac:(lia)). pose proof (wk1_mono (Y' + 1) 10000 ltac:(lia)). lia.
Qed.
