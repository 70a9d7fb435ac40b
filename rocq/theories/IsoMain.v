From Verif Require Import Py Num IsoModel IsoSpec IsoProofs.
Ltac Zify.zify_post_hook ::= Z.to_euclidean_division_equations.
#[local] Arguments leapb : simpl never.
#[local] Arguments Z.add : simpl nomatch.

(** ** C21 *)
Lemma c21_main n : (Z.of_nat n < max_day) ->
  date_absolute (Z.of_nat n + 1) = Ok (cal (nth_day n)) /\
  get_absolute_day (cal (nth_day n)) = Ok (Z.of_nat n + 1).
Proof.
  intros H. destruct (nth_day_ok n) as [V D].
  destruct (absolute_eq (Z.of_nat n + 1) ltac:(lia)) as (p & Vp & Dp & E).
  assert (p = nth_day n) by (apply nth_day_unique; auto). subst p. split.
  - rewrite E. destruct (_ && _) eqn:B; auto. apply andb_false_iff in B as [B|B]; b2p; lia.
  - rewrite get_absolute_cal by auto. congruence.
Qed.
Lemma c21_valid p : valid p <-> exists n, Z.of_nat n < max_day /\ p = nth_day n.
Proof.
  split.
  - intros H. exists (Z.to_nat (dn p - 1)). pose proof (dn_range p H). split; [lia|]. apply valid_nth; auto.
  - intros (n & H & ->). destruct (nth_day_ok n) as [V D]. apply dn_valid; auto. lia.
Qed.
Lemma c21_bad n : n < 0 \/ max_day < n -> date_absolute n = Err DateTimeError.
Proof.
  intros H. unfold max_day in H. destruct (absolute_eq n ltac:(lia)) as (p & _ & _ & ->).
  destruct (_ && _) eqn:B; auto. b2p. unfold max_day in *. lia.
Qed.
Lemma calendar_cal y m d b : new_date (mkda b (Some (y / 100)) None (Some (y mod 100)) (Some m) (Some d) None None None None) =
  let! _ := check_date (cal (y, m, d)) in Ok (cal (y, m, d)).
Proof. reflexivity. Qed.
Lemma check_bad_md y m d : ~ valid_md (y, m, d) -> check_date (cal (y, m, d)) = Err DateTimeError.
Proof.
  intros V. unfold check_date. cbn [cal d_century d_year d_week d_month d_day truthy].
  replace (y / 100 * 100 + y mod 100) with y by lia. rewrite leap_year_eq.
  repeat destr; b2p; try reflexivity. exfalso. apply V.
  assert (Hm : 1 <= m <= 12) by lia. rewrite sizes_nth in * by auto. split; lia.
Qed.
Lemma check_valid p : check_date (cal p) = Ok tt <-> valid p.
Proof.
  destruct p as [[y m] d].
  assert (DV : {valid_md (y, m, d)} + {~ valid_md (y, m, d)}).
  { cbn [valid_md]. destruct (Z_le_dec 1 m), (Z_le_dec m 12), (Z_le_dec 1 d), (Z_le_dec d (month_len y m)); try (left; lia); right; lia. }
  destruct DV as [V|V].
  - rewrite check_cal by auto. split.
    + destruct (_ && _) eqn:B; [|discriminate]. intros _. b2p. apply dn_valid; auto.
    + intros H. apply dn_range in H. destruct (_ && _) eqn:B; auto. apply andb_false_iff in B as [B|B]; b2p; lia.
  - split.
    + rewrite check_bad_md by auto. discriminate.
    + intros [_ H]. contradiction.
Qed.
Lemma check_err d e : check_date d = Err e -> e = DateTimeError.
Proof. unfold check_date. repeat (destr || match goal with |- context [match ?x with _ => _ end] => destruct x end); congruence. Qed.
Lemma c21_calendar y m d b : date_calendar b (Some (y / 100)) (Some (y mod 100)) (Some m) (Some d) = Ok (cal (y, m, d)) <-> valid (y, m, d).
Proof.
  unfold date_calendar. rewrite calendar_cal, <- check_valid. destruct (check_date _) as [[]|e]; cbn; split; congruence.
Qed.
Lemma c21_calendar_bad y m d b : ~ valid (y, m, d) -> date_calendar b (Some (y / 100)) (Some (y mod 100)) (Some m) (Some d) = Err DateTimeError.
Proof.
  unfold date_calendar. rewrite calendar_cal, <- check_valid. destruct (check_date _) as [[]|e] eqn:E; cbn; [congruence|].
  apply check_err in E. congruence.
Qed.
Lemma cal_key_eq p q : valid_md p -> valid_md q -> key_eq (sortkey (cal p)) (sortkey (cal q)) = true <-> p = q.
Proof.
  destruct p as [[y m] d], q as [[y' m'] d']. intros _ _. cbn [sortkey key_eq cal d_century d_year d_month d_week d_day oeq].
  rewrite !andb_true_iff, !Z.eqb_eq. split; [intros (H1 & H2 & H3 & _ & H4 & _); f_equal; [f_equal|]; lia|].
  intros E; inversion E; subst. repeat split; auto.
Qed.
Lemma cal_key_lt p q : key_lt (sortkey (cal p)) (sortkey (cal q)) = Ok true <-> ymd_lt p q.
Proof.
  destruct p as [[y m] d], q as [[y' m'] d']. cbn [sortkey key_lt cal d_century d_year d_month d_week d_day oeq olt ymd_lt].
  repeat destr; b2p; split; intros H; try congruence; try (injection H as H); b2p; try lia;
  try (f_equal; apply Z.ltb_lt; lia).
Qed.
Lemma cal_key_lt_ok p q : exists b, key_lt (sortkey (cal p)) (sortkey (cal q)) = Ok b.
Proof.
  destruct p as [[y m] d], q as [[y' m'] d']. cbn [sortkey key_lt cal d_century d_year d_month d_week d_day oeq olt ymd_lt].
  repeat destr; eauto.
Qed.
Lemma cal_precision p : get_precision (cal p) = PComplete.
Proof. destruct p as [[y m] d]. reflexivity. Qed.
Lemma c21_order i j : date_lt (cal (nth_day i)) (cal (nth_day j)) = Some (Ok (i <? j)%nat) /\
  date_eq (cal (nth_day i)) (cal (nth_day j)) = Some (i =? j)%nat.
Proof.
  destruct (nth_day_ok i) as [Vi Di], (nth_day_ok j) as [Vj Dj].
  unfold date_lt, date_eq. rewrite !cal_precision. cbn [prec_eqb]. split; f_equal.
  - destruct (cal_key_lt_ok (nth_day i) (nth_day j)) as [b E]. rewrite E. f_equal.
    pose proof (cal_key_lt (nth_day i) (nth_day j)) as K. rewrite E, dn_lt_iff in K by auto.
    destruct (Nat.ltb_spec i j) as [L|L].
    + assert (Ok b = Ok true) as X by (apply K; lia). congruence.
    + destruct b; auto. assert (dn (nth_day i) < dn (nth_day j)) by (apply K; auto). lia.
  - pose proof (cal_key_eq (nth_day i) (nth_day j) Vi Vj) as K. destruct (Nat.eqb_spec i j) as [->|N].
    + apply K; auto.
    + destruct (key_eq _ _) eqn:E; auto. exfalso. apply N. assert (nth_day i = nth_day j) as X by (apply K; auto).
      rewrite X in Di. lia.
Qed.

(** ** C22 *)
Lemma offset_complete n a w : Z.of_nat n < max_day ->
  offset (cal (nth_day n)) 0 0 0 w a =
  rmap Some (date_absolute (Z.of_nat n + 1 + (a + 7 * w))).
Proof.
  intros H. unfold offset. rewrite cal_precision. cbn [z_true Z.eqb negb andb].
  destruct (c21_main n H) as [_ E]. rewrite E. reflexivity.
Qed.
Lemma c22_main n a w k : Z.of_nat n < max_day -> Z.of_nat k < max_day ->
  Z.of_nat k = Z.of_nat n + a + 7 * w -> offset (cal (nth_day n)) 0 0 0 w a = Ok (Some (cal (nth_day k))).
Proof.
  intros H K E. rewrite offset_complete by auto. replace (_ + 1 + _) with (Z.of_nat k + 1) by lia.
  destruct (c21_main k K) as [-> _]. reflexivity.
Qed.
Lemma c22_range n a w : Z.of_nat n < max_day ->
  Z.of_nat n + a + 7 * w < -1 \/ max_day <= Z.of_nat n + a + 7 * w ->
  offset (cal (nth_day n)) 0 0 0 w a = Err DateTimeError.
Proof. intros H K. rewrite offset_complete by auto. rewrite c21_bad by lia. reflexivity. Qed.
Lemma c22_zero n a w : Z.of_nat n < max_day -> Z.of_nat n + a + 7 * w = -1 ->
  offset (cal (nth_day n)) 0 0 0 w a = Ok (Some (cal (nth_day 0))).
Proof.
  intros H K. rewrite offset_complete by auto. replace (_ + 1 + _) with 0 by lia. reflexivity.
Qed.
Lemma c22_mixed p c y m w a : c <> 0 \/ y <> 0 \/ m <> 0 -> offset (cal p) c y m w a = Err DateTimeError.
Proof.
  intros H. unfold offset. rewrite cal_precision. unfold z_true. rewrite !negb_involutive.
  destruct (m =? 0) eqn:E1, (y =? 0) eqn:E2, (c =? 0) eqn:E3; cbn; auto. b2p. lia.
Qed.

(** ** Weeks *)
Lemma dow_eq y m d : valid_md (y, m, d) -> day_of_week y m d = (dn (y, m, d) - 1) mod 7 + 1.
Proof.
  intros [Hm Hd]. unfold day_of_week. f_equal. rewrite leap_year_eq. cbn [dn]. unfold ordinal, ys.
  destruct (leapb y) eqn:E; [pose proof (proj1 (leapb_iff y) E) as L|pose proof (proj1 (leapb_iff_f y) E) as L];
  months Hm; cbn -[Z.sub Z.div Z.mul Z.modulo]; rewrite ?E; clear Hm; lia.
Qed.
Lemma jan4 y : day_of_week y 1 4 = (ys y + 3) mod 7 + 1.
Proof.
  rewrite dow_eq; [|cbn; lia]. cbn [dn]. unfold ordinal. cbn [days_before Z.sub Z.to_nat Z.add Z.opp Z.pos_sub].
  f_equal. f_equal. lia.
Qed.
Lemma jan1 y : day_of_week y 1 1 = ys y mod 7 + 1.
Proof.
  rewrite dow_eq; [|cbn; lia]. cbn [dn]. unfold ordinal. cbn [days_before Z.sub Z.to_nat Z.add Z.opp Z.pos_sub].
  f_equal. f_equal. lia.
Qed.
Lemma week_count_eq y : week_count y = if ys y mod 7 =? 3 then 53 else if (ys y mod 7 =? 2) && leapb y then 53 else 52.
Proof.
  unfold week_count. rewrite jan1, leap_year_eq.
  destruct (Z.eqb_spec (ys y mod 7) 3), (Z.eqb_spec (ys y mod 7 + 1) 4); try lia; auto.
  destruct (Z.eqb_spec (ys y mod 7) 2), (Z.eqb_spec (ys y mod 7 + 1) 3); try lia; auto.
Qed.
Lemma week_count_bounds y : 52 <= week_count y <= 53.
Proof. rewrite week_count_eq. repeat destr; lia. Qed.
(** the day number of the Monday of week 1 is [wk1 y]; weeks tile the days *)
Definition wk1 (y : Z) : Z := ys y + 5 - day_of_week y 1 4.
Lemma wk1_succ y : wk1 (y + 1) = wk1 y + 7 * week_count y.
Proof.
  unfold wk1. rewrite !jan4, ys_succ, week_count_eq. unfold year_len.
  destruct (Z.eqb_spec (ys y mod 7) 3), (Z.eqb_spec (ys y mod 7) 2), (leapb y); cbn [andb]; lia.
Qed.
Lemma wk1_bound y : ys y - 2 <= wk1 y <= ys y + 4.
Proof. unfold wk1. rewrite jan4. lia. Qed.
Lemma wk1_mod y : wk1 y mod 7 = 1.
Proof. unfold wk1. rewrite jan4. lia. Qed.
Lemma wk1_mono y z : y <= z -> wk1 y <= wk1 z.
Proof.
  intros H. replace z with (y + Z.of_nat (Z.to_nat (z - y))) by lia.
  induction (Z.to_nat (z - y)) as [|k IH]; [replace (y + Z.of_nat 0) with y by lia; lia|].
  replace (y + Z.of_nat (S k)) with ((y + Z.of_nat k) + 1) by lia. rewrite wk1_succ.
  pose proof (week_count_bounds (y + Z.of_nat k)). lia.
Qed.
(** the week number of a day known to lie in week-year [y] *)
Lemma get_week_cal p : valid_md p -> exists Y w,
  get_week_day (cal p) = Ok (Y / 100, Some ((Y mod 100) / 10), Some (Y mod 10), Some w, Some ((dn p - 1) mod 7 + 1)) /\
  1 <= w <= week_count Y /\ dn p = wk1 Y + 7 * (w - 1) + (dn p - 1) mod 7.
Proof.
  destruct p as [[y m] d]. intros V. pose proof V as [Hm Hd]. unfold get_week_day.
  cbn [d_day cal d_month]. fold (cal (y, m, d)). rewrite get_ordinal_cal by auto. cbn [rbind].
  rewrite leap_year_eq. replace (y mod 100 + y / 100 * 100) with y by lia.
  rewrite dow_eq by auto. pose proof (ordinal_pos y m d V) as O.
  cbn [dn]. set (o := ordinal (y, m, d)) in *. fold (year_len y) in *.
  fold (year_len y). set (wd := (ys y + o - 1) mod 7) in *. assert (0 <= wd < 7) by (subst wd; lia).
  destruct (o + 4 - (wd + 1) <? 1) eqn:E1; b2p.
  - exists (y - 1), (week_count (y - 1)). split; [reflexivity|].
    pose proof (week_count_bounds (y - 1)). split; [lia|].
    pose proof (wk1_succ (y - 1)) as S1. replace (y - 1 + 1) with y in S1 by lia.
    pose proof (wk1_mod y). pose proof (wk1_bound y). subst wd. lia.
  - destruct (_ <? o + 4 - (wd + 1)) eqn:E2; b2p.
    + exists (y + 1), 1. split; [reflexivity|]. pose proof (week_count_bounds (y + 1)). split; [lia|].
      fold (year_len y) in E2. pose proof (ys_succ y). pose proof (wk1_mod (y + 1)). pose proof (wk1_bound (y + 1)).
      subst wd. lia.
    + exists y. eexists. split; [reflexivity|]. rewrite jan4. fold (year_len y) in E2.
      pose proof (ys_succ y). pose proof (wk1_mod (y + 1)). pose proof (wk1_bound (y + 1)).
      pose proof (wk1_mod y). pose proof (wk1_bound y). pose proof (wk1_succ y). unfold wk1 at 1 in H3.
      assert (K : wk1 y = ys y + 5 - ((ys y + 3) mod 7 + 1)) by (unfold wk1; rewrite jan4; reflexivity).
      replace (o - (5 - ((ys y + 3) mod 7 + 1))) with (ys y + o - wk1 y) by lia. subst wd.
      assert (Y1 : wk1 y <= ys y + o < wk1 y + 7 * week_count y) by lia.
      clear - Y1 H2 H3 H0 H1 H4 K. generalize dependent (wk1 y). intros k. lia.
Qed.
