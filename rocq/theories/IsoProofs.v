From Verif Require Import Py Num IsoModel IsoSpec.
Ltac Zify.zify_post_hook ::= Z.to_euclidean_division_equations.

#[local] Arguments leapb : simpl never.
#[local] Arguments Z.add : simpl nomatch.
Lemma leap_year_eq y : leap_year y = leapb y.
Proof. unfold leap_year, leapb. destruct (y mod 4 =? 0), (y mod 100 =? 0), (y mod 400 =? 0); reflexivity. Qed.
Lemma leapb_iff y : leapb y = true <-> y mod 4 = 0 /\ (y mod 100 <> 0 \/ y mod 400 = 0).
Proof. unfold leapb. rewrite andb_true_iff, orb_true_iff, negb_true_iff, !Z.eqb_eq, Z.eqb_neq. tauto. Qed.
Lemma leapb_iff_f y : leapb y = false <-> y mod 4 <> 0 \/ (y mod 100 = 0 /\ y mod 400 <> 0).
Proof. unfold leapb. rewrite andb_false_iff, orb_false_iff, negb_false_iff, !Z.eqb_neq, Z.eqb_eq. tauto. Qed.
Lemma date_leap_eq y : date_leap_year (y / 100) (Some (y mod 100)) = Ok (leapb y).
Proof.
  unfold date_leap_year. f_equal. symmetry. destruct (leapb y) eqn:E.
  - apply leapb_iff in E. repeat destr; b2p; try reflexivity; exfalso; lia.
  - apply leapb_iff_f in E. repeat destr; b2p; try reflexivity; exfalso; lia.
Qed.

(** year starts *)
Definition ys (y : Z) : Z := 365 * (y - 1) + (y - 1) / 4 - (y - 1) / 100 + (y - 1) / 400.
Lemma ys_succ y : ys (y + 1) = ys y + year_len y.
Proof.
  unfold ys, year_len. destruct (leapb y) eqn:E; [apply leapb_iff in E|apply leapb_iff_f in E]; lia.
Qed.
Lemma year_len_pos y : 365 <= year_len y <= 366.
Proof. unfold year_len. destruct (leapb y); lia. Qed.
Lemma ys_mono y z : y <= z -> ys y <= ys z.
Proof.
  intros H. replace z with (y + Z.of_nat (Z.to_nat (z - y))) by lia.
  induction (Z.to_nat (z - y)) as [|k IH]; [replace (y + Z.of_nat 0) with y by lia; lia|].
  replace (y + Z.of_nat (S k)) with ((y + Z.of_nat k) + 1) by lia. rewrite ys_succ.
  pose proof (year_len_pos (y + Z.of_nat k)). lia.
Qed.
Lemma ys_lt y z : y < z -> ys y + year_len y <= ys z.
Proof. intros H. rewrite <- ys_succ. apply ys_mono. lia. Qed.

Lemma month_cases m : 1 <= m <= 12 -> m = 1 \/ m = 2 \/ m = 3 \/ m = 4 \/ m = 5 \/ m = 6 \/ m = 7 \/ m = 8
  \/ m = 9 \/ m = 10 \/ m = 11 \/ m = 12.
Proof. lia. Qed.
Ltac redn := repeat match goal with |- context [Z.to_nat ?x] => let v := eval vm_compute in (Z.to_nat x) in change (Z.to_nat x) with v end.
Ltac months H := let D := fresh in pose proof (month_cases _ H) as D;
  repeat (destruct D as [-> | D]); [..|subst];
  repeat match goal with |- context [Z.to_nat ?x] => let v := eval vm_compute in (Z.to_nat x) in change (Z.to_nat x) with v end.

(** day numbers *)
Definition dn (p : ymd) : Z := let '(y, m, d) := p in ys y + ordinal p.
Lemma ordinal_pos y m d : valid_md (y, m, d) -> 1 <= ordinal (y, m, d) <= year_len y.
Proof.
  intros [Hm Hd]. unfold ordinal, year_len.
  destruct (leapb y) eqn:E; months Hm; cbn in *; rewrite ?E in *; lia.
Qed.
Lemma next_valid p : valid_md p -> valid_md (next_day p).
Proof.
  destruct p as [[y m] d]. intros [Hm Hd]. unfold next_day. repeat destr; b2p; cbn [valid_md]; split; try lia.
  - unfold month_len. repeat destr; lia.
  - cbn. lia.
Qed.
Lemma next_dn p : valid_md p -> dn (next_day p) = dn p + 1.
Proof.
  destruct p as [[y m] d]. intros [Hm Hd]. unfold next_day. destruct (d <? month_len y m) eqn:E1; b2p.
  - cbn [dn ordinal]. lia.
  - assert (d = month_len y m) by lia. subst d. destruct (m <? 12) eqn:E2; b2p.
    + cbn [dn ordinal]. replace (Z.to_nat (m + 1 - 1)) with (S (Z.to_nat (m - 1))) by lia.
      cbn [days_before]. replace (Z.of_nat (S (Z.to_nat (m - 1)))) with m by lia. lia.
    + assert (m = 12) by lia. subst m. cbn [dn]. rewrite ys_succ. unfold ordinal, year_len.
      redn. destruct (leapb y) eqn:E; cbn; rewrite ?E; lia.
Qed.
Lemma nth_day_ok n : valid_md (nth_day n) /\ dn (nth_day n) = Z.of_nat n + 1.
Proof.
  induction n as [|n [IH1 IH2]]; [cbn; lia|].
  change (nth_day (S n)) with (next_day (nth_day n)). split; [apply next_valid; auto|].
  rewrite next_dn; auto. lia.
Qed.
Lemma days_before_mono y a b : (a <= b)%nat -> days_before y a <= days_before y b.
Proof.
  induction 1; [lia|]. cbn [days_before]. unfold month_len. repeat destr; lia.
Qed.
Lemma dn_lt p q : valid_md p -> valid_md q -> ymd_lt p q -> dn p < dn q.
Proof.
  destruct p as [[y m] d], q as [[y' m'] d']. intros Hp Hq H. cbn [ymd_lt] in H.
  pose proof (ordinal_pos _ _ _ Hp). pose proof (ordinal_pos _ _ _ Hq).
  destruct Hp as [Hm Hd], Hq as [Hm' Hd'].
  destruct H as [H | [<- [H | [<- H]]]]; cbn [dn].
  - pose proof (ys_lt y y' H). lia.
  - cbn [ordinal]. pose proof (days_before_mono y (S (Z.to_nat (m - 1))) (Z.to_nat (m' - 1)) ltac:(lia)).
    cbn [days_before] in *. replace (Z.of_nat (S (Z.to_nat (m - 1)))) with m in * by lia. lia.
  - cbn [ordinal]. lia.
Qed.
Lemma ymd_tri p q : p = q \/ ymd_lt p q \/ ymd_lt q p.
Proof.
  destruct p as [[y m] d], q as [[y' m'] d']. cbn.
  destruct (Z.lt_trichotomy y y') as [|[->|]]; auto.
  destruct (Z.lt_trichotomy m m') as [|[->|]]; auto 10.
  destruct (Z.lt_trichotomy d d') as [|[->|]]; auto 10.
Qed.
Lemma dn_inj p q : valid_md p -> valid_md q -> dn p = dn q -> p = q.
Proof.
  intros Hp Hq E. destruct (ymd_tri p q) as [|[H|H]]; auto; apply dn_lt in H; auto; lia.
Qed.
Lemma dn_lt_iff p q : valid_md p -> valid_md q -> (ymd_lt p q <-> dn p < dn q).
Proof.
  intros Hp Hq. split; [apply dn_lt; auto|]. intros H.
  destruct (ymd_tri p q) as [->|[H'|H']]; auto; [lia|]. apply dn_lt in H'; auto. lia.
Qed.
Lemma nth_day_unique n p : valid_md p -> dn p = Z.of_nat n + 1 -> p = nth_day n.
Proof. intros H E. destruct (nth_day_ok n). apply dn_inj; auto. lia. Qed.
Lemma dn_range p : valid p -> 1 <= dn p <= max_day.
Proof.
  destruct p as [[y m] d]. intros [Hy Hv]. pose proof (ordinal_pos _ _ _ Hv). cbn [dn].
  pose proof (ys_mono 1 y ltac:(lia)). pose proof (ys_mono (y + 1) 10000 ltac:(lia)). rewrite ys_succ in *.
  change (ys 1) with 0 in *. change (ys 10000) with 3652059 in *. unfold max_day. lia.
Qed.
Lemma dn_valid p : valid_md p -> 1 <= dn p <= max_day -> valid p.
Proof.
  destruct p as [[y m] d]. intros Hv Hr. pose proof (ordinal_pos _ _ _ Hv). cbn [dn] in Hr.
  split; auto. unfold max_day in *.
  destruct (Z_lt_ge_dec y 1).
  - pose proof (ys_mono (y + 1) 1 ltac:(lia)). rewrite ys_succ in *. change (ys 1) with 0 in *. lia.
  - destruct (Z_lt_ge_dec 9999 y); [|lia]. pose proof (ys_mono 10000 y ltac:(lia)).
    change (ys 10000) with 3652059 in *. lia.
Qed.
Lemma valid_nth p : valid p -> p = nth_day (Z.to_nat (dn p - 1)).
Proof.
  intros H. pose proof (dn_range p H). apply nth_day_unique; [destruct p as [[y m] d]; apply H|]. lia.
Qed.

(** the walk over the months *)
Lemma sizes_nth y m : 1 <= m <= 12 -> nth (Z.to_nat (m - 1)) (sizes (leapb y)) 0 = month_len y m.
Proof. intros Hm. unfold sizes. destruct (leapb y) eqn:E; months Hm; cbn; rewrite ?E; reflexivity. Qed.
Lemma sizes_fold y m d : 1 <= m <= 12 ->
  fold_left Z.add (firstn (Z.to_nat (m - 1)) (sizes (leapb y))) d = ordinal (y, m, d).
Proof. intros Hm. unfold ordinal, sizes. destruct (leapb y) eqn:E; months Hm; cbn; rewrite ?E; lia. Qed.
Lemma walk_ok y o : 1 <= o <= year_len y -> exists m d, month_walk (sizes (leapb y)) 1 o = (m, d) /\
  valid_md (y, m, d) /\ ordinal (y, m, d) = o.
Proof.
  unfold year_len, sizes. intros H. destruct (leapb y) eqn:E; cbn -[Z.sub Z.ltb];
  repeat match goal with |- context [?a <? ?b] => destruct (Z.ltb_spec a b) end; try lia;
  (eexists _, _; split; [reflexivity|]; split; [split; [lia|]|]; unfold ordinal; redn; cbn -[Z.sub]; rewrite ?E; lia).
Qed.
Lemma walk_bad leap o : month_walk (sizes leap) 1 o = (fst (month_walk (sizes leap) 1 o), snd (month_walk (sizes leap) 1 o)).
Proof. destruct (month_walk _ _ _); reflexivity. Qed.

Lemma get_ordinal_cal y m d : 1 <= m <= 12 ->
  get_ordinal_day (cal (y, m, d)) = Ok (y / 100, Some (y mod 100), Some (ordinal (y, m, d))).
Proof. intros H. unfold get_ordinal_day. cbn [cal d_day d_century d_year d_month]. rewrite date_leap_eq. cbn [rbind]. rewrite sizes_fold; auto. Qed.
Lemma get_absolute_cal p : valid_md p -> get_absolute_day (cal p) = Ok (dn p).
Proof.
  destruct p as [[y m] d]. intros [Hm Hd]. unfold get_absolute_day. rewrite get_ordinal_cal; auto.
  cbn [cal complete is_some d_day negb d_year d_century rbind]. f_equal. cbn [dn]. unfold ys.
  replace (y / 100 * 100 + y mod 100) with y by lia. lia.
Qed.
Lemma set_ordinal_cal y o b : 1 <= o <= year_len y -> exists m d,
  set_from_ordinal_day (Some (y / 100)) (Some (y mod 100)) o b = Ok (cal (y, m, d)) /\
  valid_md (y, m, d) /\ ordinal (y, m, d) = o.
Proof.
  intros H. destruct (walk_ok y o H) as (m & d & H1 & H2 & H3). exists m, d.
  unfold set_from_ordinal_day. cbn [rbind]. rewrite date_leap_eq. cbn [rbind]. rewrite H1. auto.
Qed.
Lemma set_absolute n : exists p, set_from_absolute_day n = Ok (cal p) /\ valid_md p /\ dn p = n.
Proof.
  unfold set_from_absolute_day. cbv zeta.
  assert (K : forall Y O, ys Y + O = n -> 1 <= O <= year_len Y -> exists p,
    set_from_ordinal_day (Some (Y / 100)) (Some (Y mod 100)) O None = Ok (cal p) /\ valid_md p /\ dn p = n).
  { intros Y O H1 H2. destruct (set_ordinal_cal Y O None H2) as (m & d & E & V & EO).
    exists (Y, m, d). psplit; auto. cbn [dn]. lia. }
  set (a := (n - 1) / 146097). set (r := (n - 1) mod 146097).
  assert (Hn : n - 1 = 146097 * a + r) by (subst a r; lia). assert (Hr : 0 <= r < 146097) by (subst r; lia).
  clearbody a r.
  destruct (Z.eqb_spec r (146097 - 1)).
  - apply K.
    + unfold ys. lia.
    + enough (L : leapb (400 * a + 399 + 1) = true) by (unfold year_len; rewrite L; lia).
      apply leapb_iff. lia.
  - set (b := r / 36524). set (s := r mod 36524).
    assert (Hb : r = 36524 * b + s) by (subst b s; lia). assert (Hs : 0 <= s < 36524 /\ 0 <= b <= 3) by (subst b s; lia).
    clearbody b s. set (c := s / 1461). set (t := s mod 1461).
    assert (Hc : s = 1461 * c + t) by (subst c t; lia). assert (Ht : 0 <= t < 1461 /\ 0 <= c <= 24) by (subst c t; lia).
    clearbody c t. destruct (Z.eqb_spec t (1461 - 1)).
    + assert (c <= 23) by lia. apply K.
      * unfold ys. lia.
      * enough (L : leapb (400 * a + 100 * b + 4 * c + 3 + 1) = true) by (unfold year_len; rewrite L; lia).
        apply leapb_iff. lia.
    + set (e := t / 365). set (u := t mod 365).
      assert (He : t = 365 * e + u) by (subst e u; lia). assert (Hu : 0 <= u < 365 /\ 0 <= e <= 3) by (subst e u; lia).
      clearbody e u. apply K.
      * unfold ys. lia.
      * pose proof (year_len_pos (400 * a + 100 * b + 4 * c + e + 1)). lia.
Qed.

Lemma check_cal p : valid_md p -> check_date (cal p) = if (1 <=? dn p) && (dn p <=? max_day) then Ok tt else Err DateTimeError.
Proof.
  intros V. destruct p as [[y m] d].
  assert (R : valid (y, m, d) <-> (1 <=? dn (y, m, d)) && (dn (y, m, d) <=? max_day) = true).
  { rewrite andb_true_iff, !Z.leb_le. split; [intros H; apply dn_range in H; auto|]. intros H. apply dn_valid; auto. }
  unfold check_date. cbn [cal d_century d_year d_week d_month d_day truthy].
  destruct ((1 <=? _) && _).
  - assert (Hv : valid (y, m, d)) by (apply R; auto). destruct Hv as [Hy [Hm Hd]].
    replace (y / 100 * 100 + y mod 100) with y by lia. rewrite leap_year_eq, sizes_nth by auto.
    repeat destr; b2p; try reflexivity; exfalso;
      repeat match goal with H : _ || _ = true |- _ => apply orb_true_iff in H; destruct H end; b2p; try lia.
  - assert (Hv : ~ valid (y, m, d)) by (rewrite R; discriminate).
    destruct V as [Hm Hd]. assert (Hy : y < 1 \/ y > 9999) by (destruct (Z_lt_ge_dec y 1); [auto|];
      destruct (Z_lt_ge_dec 9999 y); [lia|]; exfalso; apply Hv; split; [lia|split; auto]).
    replace (y / 100 * 100 + y mod 100) with y by lia. rewrite leap_year_eq, sizes_nth by auto.
    repeat destr; b2p; try reflexivity; exfalso;
      repeat match goal with H : _ && _ = false |- _ => apply andb_false_iff in H; destruct H end; b2p; lia.
Qed.
Lemma absolute_eq n : n <> 0 -> exists p, valid_md p /\ dn p = n /\
  date_absolute n = if (1 <=? n) && (n <=? max_day) then Ok (cal p) else Err DateTimeError.
Proof.
  intros Hn. destruct (set_absolute n) as (p & E & V & D). exists p. psplit; auto.
  unfold date_absolute, new_date. cbn [a_absolute_day truthy the].
  destruct (Z.eqb_spec n 0); [contradiction|]. cbn [negb]. rewrite E. cbn [rbind].
  rewrite check_cal by auto. rewrite D. destruct (_ && _); reflexivity.
Qed.
