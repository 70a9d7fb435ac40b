From Verif Require Import Py Num IsoModel IsoSpec IsoProofs IsoMain IsoWeek IsoTimeModel IsoParseModel.
Ltac Zify.zify_post_hook ::= Z.to_euclidean_division_equations.
#[local] Arguments leapb : simpl never.
#[local] Arguments Z.add : simpl nomatch.

(** numerals *)
Lemma dec_nat_1 n : 0 <= n <= 9 -> dec_nat n = d1 n.
Proof.
  intros H. assert (D : n = 0 \/ n = 1 \/ n = 2 \/ n = 3 \/ n = 4 \/ n = 5 \/ n = 6 \/ n = 7 \/ n = 8 \/ n = 9) by lia.
  repeat (destruct D as [-> | D]; [reflexivity|]). subst; reflexivity.
Qed.
Lemma dec_digit_dd k : 0 <= k <= 9 -> dec_digit (48 + k). Proof. unfold dec_digit. lia. Qed.
Lemma pad2 n : 0 <= n <= 99 -> dec_pad 2 n = d2 n.
Proof.
  intros H. destruct (dec_pad_spec 2 n ltac:(lia)) as (F & D & _ & _).
  assert (L : length (dec_pad 2 n) = 2%nat) by (apply dec_pad_length; [cbn; lia|lia]).
  apply decimal_inj; auto.
  - repeat constructor; apply dec_digit_dd; lia.
  - rewrite D. unfold d2. cbn [decimal length]. change (10 ^ Z.of_nat 1) with 10. change (10 ^ Z.of_nat 0) with 1. lia.
Qed.
Lemma pad3 n : 0 <= n <= 999 -> dec_pad 3 n = d3 n.
Proof.
  intros H. destruct (dec_pad_spec 3 n ltac:(lia)) as (F & D & _ & _).
  assert (L : length (dec_pad 3 n) = 3%nat) by (apply dec_pad_length; [cbn; lia|lia]).
  apply decimal_inj; auto.
  - repeat constructor; apply dec_digit_dd; lia.
  - rewrite D. unfold d3. cbn [decimal length]. change (10 ^ Z.of_nat 2) with 100.
    change (10 ^ Z.of_nat 1) with 10. change (10 ^ Z.of_nat 0) with 1. lia.
Qed.

(** ** Formatting *)
Lemma sep_hy basic : sep basic (lit "-") = hy basic. Proof. reflexivity. Qed.
Lemma fmt_calendar y m d basic : valid (y, m, d) ->
  get_calendar_string (cal (y, m, d)) basic NoTruncation = Ok (d4 y ++ hy basic ++ d2 m ++ hy basic ++ d2 d).
Proof.
  intros (Hy & Hm & Hd). assert (d <= 31) by (unfold month_len in Hd; repeat destr; lia).
  unfold get_calendar_string. cbn [cal d_day d_month d_year d_century f2 cat rbind txt].
  rewrite !pad2 by lia. rewrite sep_hy. unfold d4. rewrite <- !app_assoc, !app_nil_r. reflexivity.
Qed.
Lemma fmt_ordinal y m d basic : valid (y, m, d) ->
  get_ordinal_string (cal (y, m, d)) basic NoTruncation = Ok (d4 y ++ hy basic ++ d3 (ordinal (y, m, d))).
Proof.
  intros (Hy & V). pose proof (ordinal_pos _ _ _ V). pose proof (year_len_pos y). destruct V as [Hm Hd].
  unfold get_ordinal_string. rewrite get_ordinal_cal by auto. cbn [rbind cat f2 f3 txt].
  rewrite !pad2, pad3 by lia. rewrite sep_hy. unfold d4. rewrite <- !app_assoc, !app_nil_r. reflexivity.
Qed.
Lemma d2_split n : 0 <= n <= 99 -> d2 n = d1 (n / 10) ++ d1 (n mod 10). Proof. reflexivity. Qed.
Lemma fmt_week n basic : Z.of_nat n < max_day -> exists Y w wd, iso_week n Y w wd /\
  get_week_string (cal (nth_day n)) basic NoTruncation = Ok (d4 Y ++ hy basic ++ lit "W" ++ d2 w ++ hy basic ++ d1 wd).
Proof.
  intros L. destruct (get_week_spec n) as (Y & w & wd & I & E). exists Y, w, wd. split; auto.
  pose proof (iso_week_year _ _ _ _ I L). apply iso_week_iff in I as (Hd & Hw & _). pose proof (week_count_bounds Y).
  unfold get_week_string. rewrite E. cbn [rbind cat f2 f1 txt].
  rewrite !pad2 by lia. rewrite !dec_nat_1 by lia. rewrite sep_hy. unfold d4.
  rewrite (d2_split (Y mod 100)) by lia. replace (Y mod 100 mod 10) with (Y mod 10) by lia.
  rewrite <- !app_assoc, !app_nil_r. reflexivity.
Qed.
Lemma fmt_month y m basic : year_ok y -> 1 <= m <= 12 ->
  get_calendar_string (month_date y m) basic NoTruncation = Ok (d4 y ++ lit "-" ++ d2 m).
Proof.
  intros Hy Hm. unfold year_ok in Hy. unfold get_calendar_string. cbn [month_date d_day d_month d_year d_century f2 cat rbind txt].
  rewrite !pad2 by lia. unfold d4. rewrite <- !app_assoc, !app_nil_r. reflexivity.
Qed.
Lemma fmt_year y basic : year_ok y -> get_calendar_string (year_date y) basic NoTruncation = Ok (d4 y).
Proof.
  intros Hy. unfold year_ok in Hy. unfold get_calendar_string. cbn [year_date d_day d_month d_year d_century d_week truthy f2 cat rbind txt].
  rewrite !pad2 by lia. unfold d4. rewrite !app_nil_r. reflexivity.
Qed.
Lemma fmt_century c basic : 0 <= c <= 99 -> get_calendar_string (century_date c) basic NoTruncation = Ok (d2 c).
Proof.
  intros Hc. unfold get_calendar_string. cbn [century_date d_day d_month d_year d_century d_week truthy f2 cat rbind txt].
  rewrite !pad2 by lia. reflexivity.
Qed.
Lemma week_ok_iff y w : week_ok y w <-> year_ok y /\ 1 <= w <= week_count y.
Proof.
  unfold week_ok. split.
  - intros (Hy & n & I). apply iso_week_iff in I. tauto.
  - intros (Hy & Hw). split; auto. exists (Z.to_nat (wk1 y + 7 * (w - 1) + 2)). apply iso_week_iff.
    unfold year_ok in Hy. pose proof (wk1_mono 1 y ltac:(lia)). change (wk1 1) with 1 in *. lia.
Qed.
Lemma fmt_weekonly y w basic : week_ok y w ->
  get_week_string (week_date y w) basic NoTruncation = Ok (d4 y ++ hy basic ++ lit "W" ++ d2 w).
Proof.
  intros H. apply week_ok_iff in H as [Hy Hw]. pose proof (week_count_bounds y). unfold year_ok in Hy.
  unfold get_week_string, get_week_day. cbn [week_date d_day d_week d_year d_century truthy].
  destruct (Z.eqb_spec w 0); [lia|]. cbn [negb rbind cat f2 f1 txt].
  rewrite !pad2 by lia. rewrite !dec_nat_1 by lia. rewrite sep_hy. unfold d4.
  rewrite (d2_split (y mod 100)) by lia. rewrite <- !app_assoc, !app_nil_r. reflexivity.
Qed.

(** ** Parsing: forward lemmas *)
Lemma is_dec_d k : 0 <= k <= 9 -> is_dec (48 + k) = true.
Proof. intros. apply is_dec_ok. apply dec_digit_dd. auto. Qed.
Lemma rdv_ok k r : 0 <= k <= 9 -> rdv (48 + k :: r) = POk k r.
Proof. intros H. unfold rdv. rewrite is_dec_d by auto. f_equal. lia. Qed.
Lemma two_ok n r : 0 <= n <= 99 -> two (d2 n ++ r) = POk n r.
Proof.
  intros H. unfold two, pbind, d2. cbn [app]. rewrite rdv_ok by lia. rewrite rdv_ok by lia. unfold pret. f_equal. lia.
Qed.
Lemma if_digit_d {A} (a b : P A) k r : 0 <= k <= 9 -> if_digit a b (48 + k :: r) = a (48 + k :: r).
Proof. intros H. unfold if_digit, at_digit. rewrite is_dec_d by auto. reflexivity. Qed.
Lemma if_digit_2 {A} (a b : P A) n r : 0 <= n <= 99 -> if_digit a b (d2 n ++ r) = a (d2 n ++ r).
Proof. intros H. apply if_digit_d. lia. Qed.
Lemma if_digit_no {A} (a b : P A) r : at_digit r = false -> if_digit a b r = b r.
Proof. intros H. unfold if_digit. rewrite H. reflexivity. Qed.
Lemma if_ch_yes {A} c (a b : P A) r : if_ch c a b (c :: r) = a (c :: r).
Proof. unfold if_ch, at_ch. rewrite Z.eqb_refl. reflexivity. Qed.
Lemma if_ch_no {A} c (a b : P A) r : at_ch c r = false -> if_ch c a b r = b r.
Proof. intros H. unfold if_ch. rewrite H. reflexivity. Qed.
(** the text after a date: not something that would continue it *)
Definition stops (r : str) : Prop := at_digit r = false /\ at_ch dash r = false /\ at_ch W r = false.
Lemma stops_nil : stops []. Proof. repeat split. Qed.
Definition den_fmt (t : str) (d : date) : Prop := forall base r, stops r ->
  exists f, parse_date_format base (t ++ r) = POk (Some (d, f)) r.
Ltac rd := first [rewrite if_digit_2 by lia | rewrite if_digit_d by lia | rewrite if_digit_no by (auto; reflexivity)
  | rewrite if_ch_yes | rewrite if_ch_no by (auto; reflexivity) | progress cbn [app]].
Lemma pbind_ok {A B} (m : P A) (k : A -> P B) s a r : m s = POk a r -> pbind m k s = k a r.
Proof. intros E. unfold pbind. rewrite E. reflexivity. Qed.
Lemma next_ok c r : next (c :: r) = POk tt r. Proof. reflexivity. Qed.
Lemma ret_ok d f s : date_ret (Ok d) f s = POk (Some (d, lit f)) s. Proof. reflexivity. Qed.
Ltac st := match goal with
  | |- context [pbind two ?k (d2 ?n ++ ?r)] => rewrite (pbind_ok two k (d2 n ++ r) n r) by (apply two_ok; lia)
  | |- context [pbind rdv ?k (48 + ?n :: ?r)] => rewrite (pbind_ok rdv k (48 + n :: r) n r) by (apply rdv_ok; lia)
  | |- context [pbind next ?k (?c :: ?r)] => rewrite (pbind_ok next k (c :: r) tt r) by reflexivity
  | _ => rd
  end.
Lemma year_prefix base y r : 0 <= y <= 9999 -> parse_date_format base (d4 y ++ r) =
  (if_digit (after4_digit base (y / 100) (y mod 100))
          (if_ch dash (after4_dash base (y / 100) (y mod 100))
            (if_ch W (after4_w base (y / 100) (y mod 100))
              (date_ret (cal_ base (Some (y / 100)) (Some (y mod 100)) None None) "YYYY")))) r.
Proof. intros H. unfold d4. rewrite <- app_assoc. unfold parse_date_format. repeat st. reflexivity. Qed.

Lemma den_day_ok basic y m d : valid (y, m, d) ->
  den_fmt (d4 y ++ hy basic ++ d2 m ++ hy basic ++ d2 d) (cal (y, m, d)).
Proof.
  intros V base r (S1 & S2 & S3). pose proof V as (Hy & Hm & Hd).
  assert (d <= 31) by (unfold month_len in Hd; repeat destr; lia).
  rewrite <- !app_assoc. rewrite year_prefix by lia. destruct basic; cbn [hy app].
  - unfold after4_digit. unfold d2 at 1. cbn [app].
    eexists. repeat st. unfold d2 at 1. cbn [app]. repeat st. unfold cal_.
    replace (m / 10 * 10 + m mod 10) with m by lia. replace (d / 10 * 10 + d mod 10) with d by lia.
    rewrite (proj2 (c21_calendar y m d base) V). reflexivity.
  - unfold after4_dash. eexists. change (lit "-") with [dash]. repeat st. unfold cal_.
    rewrite (proj2 (c21_calendar y m d base) V). reflexivity.
Qed.
Lemma calendar_base b c y m d : date_calendar b (Some c) y m d = date_calendar None (Some c) y m d.
Proof. reflexivity. Qed.
Lemma week_base b c dec y w wd : date_week b (Some c) dec y w wd =
  date_week None (Some c) dec y w wd.
Proof. unfold date_week, new_date. cbn [a_absolute_day a_decade a_week a_weekday a_ordinal_day a_century a_year a_base a_month a_day is_some negb andb].
  reflexivity. Qed.
Lemma d1_app n r : d1 n ++ r = 48 + n :: r. Proof. reflexivity. Qed.
Lemma d3_split o : 0 <= o <= 999 -> d3 o = d2 (o / 10) ++ d1 (o mod 10).
Proof. intros H. unfold d3, d2, d1. cbn [app]. replace (o / 10 / 10) with (o / 100) by lia. reflexivity. Qed.
Lemma year_ok_true y : year_ok y -> (1 <=? y) && (y <=? 9999) = true.
Proof. intros [A B]. apply andb_true_iff. rewrite !Z.leb_le. auto. Qed.

Lemma den_month_ok y m : year_ok y -> 1 <= m <= 12 -> den_fmt (d4 y ++ lit "-" ++ d2 m) (month_date y m).
Proof.
  intros Y M base r (S1 & S2 & S3). pose proof Y as Y'. unfold year_ok in Y. rewrite <- !app_assoc. rewrite year_prefix by lia.
  change (lit "-") with [dash]. cbn [app]. unfold after4_dash. eexists. repeat st. unfold cal_.
  rewrite calendar_base, cal_month, year_ok_true by auto. reflexivity.
Qed.
Lemma den_year_ok y : year_ok y -> den_fmt (d4 y) (year_date y).
Proof.
  intros Y base r (S1 & S2 & S3). pose proof Y as Y'. unfold year_ok in Y. rewrite year_prefix by lia.
  eexists. repeat st. unfold cal_. rewrite calendar_base, cal_year, year_ok_true by auto. reflexivity.
Qed.
Lemma cal_century c b : date_calendar b (Some c) None None None =
  if (0 <=? c) && (c <=? 99) then Ok (century_date c) else Err DateTimeError.
Proof.
  unfold date_calendar, new_date. cbn [a_absolute_day a_decade a_week a_weekday a_ordinal_day the a_century a_year a_base a_month a_day truthy orb is_some negb andb set_from_calendar_day rbind].
  unfold check_date. cbn [d_century d_year]. repeat destr; b2p; try reflexivity; exfalso;
  repeat match goal with H : _ || _ = true |- _ => apply orb_true_iff in H; destruct H end;
  repeat match goal with H : _ && _ = false |- _ => apply andb_false_iff in H; destruct H end; b2p; lia.
Qed.
Lemma den_century_ok c : 0 <= c <= 99 -> den_fmt (d2 c) (century_date c).
Proof.
  intros C base r (S1 & S2 & S3). unfold parse_date_format. eexists. repeat st. unfold cal_.
  rewrite cal_century. replace ((0 <=? c) && (c <=? 99)) with true by (symmetry; apply andb_true_iff; rewrite !Z.leb_le; auto).
  reflexivity.
Qed.
Lemma den_ordinal_ok basic y m d : valid (y, m, d) -> den_fmt (d4 y ++ hy basic ++ d3 (ordinal (y, m, d))) (cal (y, m, d)).
Proof.
  intros V base r (S1 & S2 & S3). pose proof V as (Hy & Hv). pose proof (ordinal_pos _ _ _ Hv). pose proof (year_len_pos y).
  pose proof (ordinal_roundtrip y m d base V) as R. set (o := ordinal (y, m, d)) in *. clearbody o.
  rewrite d3_split by lia. rewrite <- !app_assoc. rewrite year_prefix by lia. destruct basic; cbn [hy app].
  - unfold after4_digit. unfold d2 at 1. cbn [app]. rewrite d1_app.
    eexists. repeat st. unfold ord_. replace ((o / 10 / 10 * 10 + o / 10 mod 10) * 10 + o mod 10) with o by lia. rewrite R. reflexivity.
  - unfold after4_dash. eexists. change (lit "-") with [dash]. cbn [app]. rewrite d1_app. repeat st. unfold ord_.
    replace (o / 10 * 10 + o mod 10) with o by lia. rewrite R. reflexivity.
Qed.
Lemma den_week_ok basic y w : week_ok y w -> den_fmt (d4 y ++ hy basic ++ lit "W" ++ d2 w) (week_date y w).
Proof.
  intros H base r (S1 & S2 & S3). apply week_ok_iff in H as [Y' H]. pose proof Y' as Y. unfold year_ok in Y.
  pose proof (week_count_bounds y). change (lit "W") with [W]. rewrite <- !app_assoc. rewrite year_prefix by lia.
  destruct basic; cbn [hy app].
  - unfold after4_w. eexists. repeat st. unfold wk_. rewrite week_base, date_week_noday, year_ok_true by auto. reflexivity.
  - unfold after4_dash. eexists. change (lit "-") with [dash]. cbn [app]. repeat st. unfold wk_.
    rewrite week_base, date_week_noday, year_ok_true by auto. reflexivity.
Qed.
Lemma den_weekday_ok basic n y w wd : Z.of_nat n < max_day -> iso_week n y w wd ->
  den_fmt (d4 y ++ hy basic ++ lit "W" ++ d2 w ++ hy basic ++ d1 wd) (cal (nth_day n)).
Proof.
  intros L I base r (S1 & S2 & S3). pose proof (iso_week_year _ _ _ _ I L) as Y.
  pose proof (week_roundtrip _ _ _ _ base L I) as R. apply iso_week_iff in I as (Hd & Hw & _).
  replace (y mod 10) with (y mod 100 mod 10) in R by lia.
  pose proof (week_count_bounds y). change (lit "W") with [W]. rewrite <- !app_assoc. rewrite year_prefix by lia.
  destruct basic; cbn [hy app].
  - unfold after4_w. eexists. rewrite d1_app. repeat st. unfold wk_. rewrite R. reflexivity.
  - unfold after4_dash. eexists. change (lit "-") with [dash]. cbn [app]. rewrite d1_app. repeat st. unfold wk_. rewrite R. reflexivity.
Qed.
Lemma den_day_f basic y m d : valid (y, m, d) ->
  forall base r, stops r ->
  parse_date_format base ((d4 y ++ hy basic ++ d2 m ++ hy basic ++ d2 d) ++ r) = POk (Some ((cal (y, m, d)), lit (if basic then "YYYYMMDD" else "YYYY-MM-DD")%string)) r.
Proof.
  intros V base r (S1 & S2 & S3). pose proof V as (Hy & Hm & Hd).
  assert (d <= 31) by (unfold month_len in Hd; repeat destr; lia).
  rewrite <- !app_assoc. rewrite year_prefix by lia. destruct basic; cbn [hy app].
  - unfold after4_digit. unfold d2 at 1. cbn [app].
    repeat st. unfold d2 at 1. cbn [app]. repeat st. unfold cal_.
    replace (m / 10 * 10 + m mod 10) with m by lia. replace (d / 10 * 10 + d mod 10) with d by lia.
    rewrite (proj2 (c21_calendar y m d base) V). reflexivity.
  - unfold after4_dash. change (lit "-") with [dash]. repeat st. unfold cal_.
    rewrite (proj2 (c21_calendar y m d base) V). reflexivity.
Qed.
Lemma den_ordinal_f basic y m d : valid (y, m, d) -> forall base r, stops r ->
  parse_date_format base ((d4 y ++ hy basic ++ d3 (ordinal (y, m, d))) ++ r) = POk (Some ((cal (y, m, d)), lit (if basic then "YYYYDDD" else "YYYY-DDD")%string)) r.
Proof.
  intros V base r (S1 & S2 & S3). pose proof V as (Hy & Hv). pose proof (ordinal_pos _ _ _ Hv). pose proof (year_len_pos y).
  pose proof (ordinal_roundtrip y m d base V) as R. set (o := ordinal (y, m, d)) in *. clearbody o.
  rewrite d3_split by lia. rewrite <- !app_assoc. rewrite year_prefix by lia. destruct basic; cbn [hy app].
  - unfold after4_digit. unfold d2 at 1. cbn [app]. rewrite d1_app.
    repeat st. unfold ord_. replace ((o / 10 / 10 * 10 + o / 10 mod 10) * 10 + o mod 10) with o by lia. rewrite R. reflexivity.
  - unfold after4_dash. change (lit "-") with [dash]. cbn [app]. rewrite d1_app. repeat st. unfold ord_.
    replace (o / 10 * 10 + o mod 10) with o by lia. rewrite R. reflexivity.
Qed.
Lemma den_weekday_f basic n y w wd : Z.of_nat n < max_day -> iso_week n y w wd ->
  forall base r, stops r ->
  parse_date_format base ((d4 y ++ hy basic ++ lit "W" ++ d2 w ++ hy basic ++ d1 wd) ++ r) = POk (Some ((cal (nth_day n)), lit (if basic then "YYYYWwwD" else "YYYY-Www-D")%string)) r.
Proof.
  intros L I base r (S1 & S2 & S3). pose proof (iso_week_year _ _ _ _ I L) as Y.
  pose proof (week_roundtrip _ _ _ _ base L I) as R. apply iso_week_iff in I as (Hd & Hw & _).
  replace (y mod 10) with (y mod 100 mod 10) in R by lia.
  pose proof (week_count_bounds y). change (lit "W") with [W]. rewrite <- !app_assoc. rewrite year_prefix by lia.
  destruct basic; cbn [hy app].
  - unfold after4_w. rewrite d1_app. repeat st. unfold wk_. rewrite R. reflexivity.
  - unfold after4_dash. change (lit "-") with [dash]. cbn [app]. rewrite d1_app. repeat st. unfold wk_. rewrite R. reflexivity.
Qed.
Lemma denotes_fmt t d : denotes t d -> den_fmt t d.
Proof.
  intros H. destruct H; eauto using den_day_ok, den_month_ok, den_year_ok, den_century_ok, den_ordinal_ok, den_week_ok, den_weekday_ok.
Qed.
Lemma denotes_parse t d base : denotes t d -> date_from_str t base = Ok d.
Proof.
  intros H. destruct (denotes_fmt t d H base [] stops_nil) as [f E]. rewrite app_nil_r in E.
  unfold date_from_str. rewrite E. reflexivity.
Qed.

(** ** Parsing: soundness *)
Lemma pbind_inv {A B} (m : P A) (k : A -> P B) s x r : pbind m k s = POk x r -> exists a r1, m s = POk a r1 /\ k a r1 = POk x r.
Proof. unfold pbind. destruct (m s); eauto. discriminate. Qed.
Lemma rdv_inv s k r : rdv s = POk k r -> 0 <= k <= 9 /\ s = d1 k ++ r.
Proof.
  unfold rdv. destruct s as [|c s]; [discriminate|]. destruct (is_dec c) eqn:E; [|discriminate].
  intros X; injection X as <- <-. apply is_dec_ok in E. unfold dec_digit in E. split; [lia|]. cbn. f_equal. lia.
Qed.
Lemma d2_of a b : 0 <= a <= 9 -> 0 <= b <= 9 -> d2 (a * 10 + b) = [48 + a; 48 + b].
Proof. intros. unfold d2. replace ((a * 10 + b) / 10) with a by lia. replace ((a * 10 + b) mod 10) with b by lia. reflexivity. Qed.
Lemma two_inv s n r : two s = POk n r -> 0 <= n <= 99 /\ s = d2 n ++ r.
Proof.
  intros H. unfold two in H. apply pbind_inv in H as (a & r1 & H1 & H). apply pbind_inv in H as (b & r2 & H2 & H).
  injection H as <- <-. apply rdv_inv in H1 as [A ->]. apply rdv_inv in H2 as [B ->].
  split; [lia|]. rewrite d2_of by auto. reflexivity.
Qed.
Lemma if_digit_inv {A} (a b : P A) s x r : if_digit a b s = POk x r -> a s = POk x r \/ b s = POk x r.
Proof. unfold if_digit. destruct (at_digit s); auto. Qed.
Lemma if_ch_inv {A} c (a b : P A) s x r : if_ch c a b s = POk x r -> (exists s', s = c :: s' /\ a s = POk x r) \/ b s = POk x r.
Proof.
  unfold if_ch, at_ch. destruct s as [|y s]; auto. destruct (Z.eqb_spec y c); auto. subst. eauto.
Qed.
Lemma date_ret_inv q f s x r : date_ret q f s = POk x r -> exists d, q = Ok d /\ x = Some (d, lit f) /\ s = r.
Proof.
  unfold date_ret. intros H. apply pbind_inv in H as (d & r1 & H1 & H). unfold lift in H1.
  destruct q; [|discriminate]. injection H1 as <- <-. injection H as <- <-. eauto.
Qed.
Lemma next_inv c s u r : next (c :: s) = POk u r -> s = r. Proof. intros H; injection H; auto. Qed.
Ltac inv1 := match goal with
  | H : bad _ = POk _ _ |- _ => discriminate H
  | H : pret None _ = POk (Some _) _ |- _ => discriminate H
  | H : pbind _ _ _ = POk _ _ |- _ => let a := fresh "a" in let q := fresh "q" in let E := fresh "E" in
      apply pbind_inv in H as (a & q & E & H); cbv beta zeta in H
  | H : rdv _ = POk _ _ |- _ => let L := fresh "L" in let E := fresh "E" in apply rdv_inv in H as [L E]; subst
  | H : two _ = POk _ _ |- _ => let L := fresh "L" in let E := fresh "E" in apply two_inv in H as [L E]; subst
  | H : next (_ :: _) = POk _ _ |- _ => apply next_inv in H; subst
  | H : date_ret _ _ _ = POk _ _ |- _ => let d := fresh "d" in let E := fresh "E" in let F := fresh "F" in
      apply date_ret_inv in H as (d & E & F & ->); injection F as ? ?; subst
  | H : if_digit _ _ _ = POk _ _ |- _ => apply if_digit_inv in H as [H|H]
  | H : if_ch _ _ _ _ = POk _ _ |- _ => let s := fresh "s" in let E := fresh "E" in
      apply if_ch_inv in H as [(s & E & H)|H]; [try subst|]
  end.
Definition sound (t : str) (d : date) : Prop := denotes t d \/ odd t.
Lemma d4_of a b : 0 <= a <= 99 -> 0 <= b <= 99 -> exists y, 0 <= y <= 9999 /\ a = y / 100 /\ b = y mod 100 /\ d2 a ++ d2 b = d4 y.
Proof.
  intros A B. exists (a * 100 + b). assert (E1 : (a * 100 + b) / 100 = a) by lia. assert (E2 : (a * 100 + b) mod 100 = b) by lia.
  psplit; try lia. unfold d4. rewrite E1, E2. reflexivity.
Qed.
Lemma calendar_ok_valid y m d b r : date_calendar b (Some (y / 100)) (Some (y mod 100)) (Some m) (Some d) = Ok r ->
  r = cal (y, m, d) /\ valid (y, m, d).
Proof.
  intros H. unfold date_calendar in H. pose proof H as H'. rewrite calendar_cal in H.
  destruct (check_date _) as [[]|] eqn:C; cbn [rbind] in H; [|discriminate]. injection H as <-. split; auto. apply check_valid; auto.
Qed.
Lemma calendar_none y m d r : date_calendar None None y m d = Ok r -> y = None /\ m = None /\ d = None.
Proof.
  intros H. unfold date_calendar, new_date in H. cbn [a_absolute_day a_decade a_week a_weekday a_ordinal_day the a_century a_year a_base a_month a_day truthy orb is_some negb andb] in H.
  destruct y, m, d; cbn [is_some orb rbind] in H; try discriminate; auto.
Qed.
Lemma ordinal_none y o r : date_ordinal None None y o = Ok r -> y = None /\ o = 0.
Proof.
  intros H. unfold date_ordinal, new_date in H. cbn [a_absolute_day a_decade a_week a_weekday a_ordinal_day the a_century a_year a_base a_month a_day truthy orb is_some negb andb] in H.
  destruct (Z.eqb_spec o 0); cbn [negb set_from_ordinal_day rbind] in H; [|discriminate].
  destruct y; cbn [is_some orb rbind] in H; try discriminate; auto.
Qed.
Lemma week_none dec y w wd r : date_week None None dec y w wd = Ok r -> y = None /\ truthy dec = false /\ truthy w = false /\ truthy wd = false.
Proof.
  intros H. unfold date_week, new_date in H. cbn [a_absolute_day a_decade a_week a_weekday a_ordinal_day the a_century a_year a_base a_month a_day is_some negb andb] in H.
  destruct (truthy dec || truthy w || truthy wd) eqn:E.
  - cbn [truthy] in H. unfold set_from_week_day in H. repeat match type of H with (let! _ := (if ?c then _ else _) in _) = _ => destruct c; cbn [rbind] in H; try discriminate end.
  - b2p. destruct y; cbn [is_some orb rbind truthy] in H; try discriminate; auto.
Qed.
Lemma cal_sound4 basic y m d r : 0 <= y <= 9999 -> 0 <= m <= 99 -> 0 <= d <= 99 ->
  date_calendar None (Some (y / 100)) (Some (y mod 100)) (Some m) (Some d) = Ok r ->
  sound (d4 y ++ hy basic ++ d2 m ++ hy basic ++ d2 d) r.
Proof. intros _ _ _ H. apply calendar_ok_valid in H as [-> V]. left. constructor; auto. Qed.
Lemma ord_sound4 basic y o r : 0 <= y <= 9999 -> 0 <= o <= 999 ->
  date_ordinal None (Some (y / 100)) (Some (y mod 100)) o = Ok r -> sound (d4 y ++ hy basic ++ d3 o) r.
Proof.
  intros Y O H. destruct (Z.eq_dec o 0) as [->|N].
  - right. change (d3 0) with (lit "000"). constructor; auto.
  - apply ordinal_sound in H as (m & d & -> & V & <-); auto. left. constructor; auto.
Qed.
Lemma month_sound4 y m r : 0 <= y <= 9999 ->
  date_calendar None (Some (y / 100)) (Some (y mod 100)) (Some m) None = Ok r -> sound (d4 y ++ lit "-" ++ d2 m) r.
Proof.
  intros Y H. destruct (Z_le_dec 1 m) as [M1|M1]; [destruct (Z_le_dec m 12) as [M2|M2]|].
  - rewrite cal_month in H by lia. destruct (_ && _) eqn:E; [|discriminate]. injection H as <-. b2p.
    left. constructor; unfold year_ok; lia.
  - exfalso. revert H. unfold date_calendar, new_date. cbn [a_absolute_day a_decade a_week a_weekday a_ordinal_day the a_century a_year a_base a_month a_day truthy orb is_some negb andb set_from_calendar_day rbind].
    unfold check_date. cbn [d_century d_year d_week d_month d_day truthy]. rewrite (out_of_true 1 12) by lia. repeat destr; discriminate.
  - exfalso. revert H. unfold date_calendar, new_date. cbn [a_absolute_day a_decade a_week a_weekday a_ordinal_day the a_century a_year a_base a_month a_day truthy orb is_some negb andb set_from_calendar_day rbind].
    unfold check_date. cbn [d_century d_year d_week d_month d_day truthy]. rewrite (out_of_true 1 12) by lia. repeat destr; discriminate.
Qed.
Lemma year_sound4 y r : 0 <= y <= 9999 ->
  date_calendar None (Some (y / 100)) (Some (y mod 100)) None None = Ok r -> sound (d4 y) r.
Proof.
  intros Y H. rewrite cal_year in H. destruct (_ && _) eqn:E; [|discriminate]. injection H as <-. b2p.
  left. constructor; unfold year_ok; lia.
Qed.
Lemma weekday_sound4 basic y w wd r : 0 <= y <= 9999 -> 0 <= w <= 99 -> 0 <= wd <= 9 ->
  date_week None (Some (y / 100)) (Some (y mod 100 / 10)) (Some (y mod 100 mod 10)) (Some w) (Some wd) = Ok r ->
  sound (d4 y ++ hy basic ++ lit "W" ++ d2 w ++ hy basic ++ d1 wd) r.
Proof.
  intros Y Hw Hd H. destruct (Z.eq_dec w 0) as [->|N].
  - right. change (d2 0) with (lit "00"). exact (odd_week00d basic y wd Y Hd).
  - apply week_sound in H as (n & L & -> & I & _); [|lia]. left.
    replace (y / 100 * 100 + y mod 100 / 10 * 10 + y mod 100 mod 10) with y in I by lia. constructor; auto.
Qed.
Lemma weekonly_sound4 basic y w r : 0 <= y <= 9999 -> 0 <= w <= 99 ->
  date_week None (Some (y / 100)) (Some (y mod 100 / 10)) (Some (y mod 100 mod 10)) (Some w) None = Ok r ->
  sound (d4 y ++ hy basic ++ lit "W" ++ d2 w) r.
Proof.
  intros Y Hw H. destruct (Z.eq_dec w 0) as [->|N].
  - right. change (d2 0) with (lit "00"). exact (odd_week00 basic y Y).
  - destruct (Z_le_dec w (week_count y)) as [L|L].
    + rewrite date_week_noday in H by lia. destruct (_ && _) eqn:E; [|discriminate]. injection H as <-. b2p.
      left. constructor. apply week_ok_iff. unfold year_ok. lia.
    + exfalso. revert H. unfold date_week, new_date.
      cbn [a_absolute_day a_decade a_week a_weekday a_ordinal_day the a_century a_year a_base truthy].
      destruct (Z.eqb_spec w 0); [lia|]. cbn [negb]. rewrite orb_true_r. cbn [orb].
      unfold set_from_week_day. cbn [is_some negb andb]. repeat destr; try discriminate. cbn [rbind].
      replace (y mod 100 / 10 * 10 + y mod 100 mod 10) with (y mod 100) by lia.
      unfold check_date. cbn [d_century d_year d_week d_month d_day truthy is_some].
      replace (y / 100 * 100 + y mod 100) with y by lia. destruct (Z.eqb_spec w 0); [lia|]. cbn [negb].
      rewrite (out_of_true 1 (week_count y)) by lia. repeat destr; discriminate.
Qed.
Ltac leaf := unfold cal_, ord_, wk_ in *.
Lemma after4_digit_sound y s d f r : 0 <= y <= 9999 ->
  after4_digit None (y / 100) (y mod 100) s = POk (Some (d, f)) r -> exists t, s = t ++ r /\ sound (d4 y ++ t) d.
Proof.
  intros Y H. unfold after4_digit in H. repeat inv1; leaf.
  - exists (d2 (a * 10 + a0) ++ d2 (a1 * 10 + a2)). split; [rewrite !d2_of by auto; reflexivity|].
    apply (cal_sound4 true); auto; lia.
  - exists (d3 ((a * 10 + a0) * 10 + a1)). split.
    + rewrite d3_split by lia. replace (((a * 10 + a0) * 10 + a1) / 10) with (a * 10 + a0) by lia.
      rewrite d2_of by auto. replace (((a * 10 + a0) * 10 + a1) mod 10) with a1 by lia. reflexivity.
    + apply (ord_sound4 true); auto; lia.
  - apply calendar_none in E as (X1 & X2 & X3); discriminate.
  - apply ordinal_none in E as [X _]. discriminate.
Qed.
Lemma after4_dash_sound y s d f r : 0 <= y <= 9999 ->
  after4_dash None (y / 100) (y mod 100) (dash :: s) = POk (Some (d, f)) r -> exists t, dash :: s = t ++ r /\ sound (d4 y ++ t) d.
Proof.
  intros Y H. unfold after4_dash in H. repeat inv1; leaf.
  - exists (lit "-" ++ d3 (a0 * 10 + a1)). split.
    + rewrite d3_split by lia. replace ((a0 * 10 + a1) / 10) with a0 by lia. replace ((a0 * 10 + a1) mod 10) with a1 by lia.
      rewrite <- !app_assoc. reflexivity.
    + apply (ord_sound4 false); auto; lia.
  - exists (lit "-" ++ d2 a0 ++ lit "-" ++ d2 a2). split; [rewrite <- !app_assoc; reflexivity|].
    apply (cal_sound4 false); auto; lia.
  - exists (lit "-" ++ d2 a0). split; [reflexivity|]. apply month_sound4; auto; lia.
  - exists (lit "-" ++ lit "W" ++ d2 a1 ++ lit "-" ++ d1 a3). split; [rewrite <- !app_assoc; reflexivity|].
    apply (weekday_sound4 false); auto; lia.
  - exists (lit "-" ++ lit "W" ++ d2 a1). split; [reflexivity|]. apply (weekonly_sound4 false); auto; lia.
Qed.
Lemma after4_w_sound y s d f r : 0 <= y <= 9999 ->
  after4_w None (y / 100) (y mod 100) (W :: s) = POk (Some (d, f)) r -> exists t, W :: s = t ++ r /\ sound (d4 y ++ t) d.
Proof.
  intros Y H. unfold after4_w in H. repeat inv1; leaf.
  - exists (lit "W" ++ d2 a0 ++ d1 a1). split; [rewrite <- !app_assoc; reflexivity|]. apply (weekday_sound4 true); auto; lia.
  - exists (lit "W" ++ d2 a0). split; [reflexivity|]. apply (weekonly_sound4 true); auto; lia.
Qed.
Lemma after2_dash_none v s d f r : after2_dash None v (dash :: s) = POk (Some (d, f)) r -> False.
Proof.
  intros H. unfold after2_dash in H. repeat inv1; leaf;
  first [apply calendar_none in E as (X1 & X2 & X3); discriminate | apply ordinal_none in E as [X _]; discriminate | idtac].
  all: match goal with H : date_week _ _ _ _ _ _ = Ok _ |- _ => apply week_none in H as [X _]; discriminate | _ => idtac end.
  all: match goal with H : date_calendar _ _ _ _ _ = Ok _ |- _ => apply calendar_none in H as (X1 & X2 & X3); discriminate | _ => idtac end.
Qed.
Ltac nolf := match goal with
  | H : date_calendar _ _ _ _ _ = Ok _ |- _ => apply calendar_none in H as (X1 & X2 & X3); discriminate
  | H : date_week _ _ _ _ _ _ = Ok _ |- _ => apply week_none in H as (X1 & X2 & X3 & X4); try discriminate
  | H : date_ordinal _ _ _ _ = Ok _ |- _ => apply ordinal_none in H as (X1 & X2); try discriminate
  end.
Lemma after2_w_none v s d f r : after2_w None v (W :: s) = POk (Some (d, f)) r -> False.
Proof. intros H. unfold after2_w in H. repeat inv1; leaf; nolf. Qed.
Lemma dash_digit_sound s d f r : dash_digit None s = POk (Some (d, f)) r -> exists t, s = t ++ r /\ sound (dash :: t) d.
Proof.
  intros H. unfold dash_digit in H. repeat inv1; leaf; try nolf.
  - exists (lit "000"). assert (a = 0 /\ a0 = 0 /\ a1 = 0) as (-> & -> & ->) by lia. split; [reflexivity|].
    right. apply odd_trunc. left. reflexivity.
Qed.
Lemma dash_dash_none s d f r : dash_dash None (dash :: s) = POk (Some (d, f)) r -> False.
Proof. intros H. unfold dash_dash in H. repeat inv1; leaf; nolf. Qed.
Lemma truthy_0 n : truthy (Some n) = false -> n = 0.
Proof. cbn. destruct (Z.eqb_spec n 0); auto. discriminate. Qed.
Lemma dash_w_sound s d f r : dash_w None (W :: s) = POk (Some (d, f)) r -> exists t, W :: s = t ++ r /\ sound (dash :: t) d.
Proof.
  intros H. unfold dash_w in H. repeat inv1; leaf; nolf.
  all: repeat match goal with H : truthy (Some _) = false |- _ => apply truthy_0 in H; subst end.
  - exists (lit "W000"). split; [reflexivity|]. right. apply odd_trunc. cbn; auto.
  - exists (lit "W00-0"). split; [reflexivity|]. right. apply odd_trunc. cbn; auto.
  - exists (lit "W00"). split; [reflexivity|]. right. apply odd_trunc. cbn; auto.
  - exists (lit "W-0"). split; [reflexivity|]. right. apply odd_trunc. cbn; auto 10.
Qed.
Lemma format_sound s d f r : parse_date_format None s = POk (Some (d, f)) r -> exists t, s = t ++ r /\ sound t d.
Proof.
  intros H. unfold parse_date_format in H. repeat inv1.
  - destruct (d4_of a a0) as (y & Y & -> & -> & E); auto. rewrite app_assoc, E.
    apply after4_digit_sound in H as (t & -> & S); auto. exists (d4 y ++ t). rewrite <- app_assoc. auto.
  - destruct (d4_of a a0) as (y & Y & -> & -> & E); auto. rewrite app_assoc, E.
    apply after4_dash_sound in H as (t & E' & S); auto. exists (d4 y ++ t). rewrite <- app_assoc, E'. auto.
  - destruct (d4_of a a0) as (y & Y & -> & -> & E); auto. rewrite app_assoc, E.
    apply after4_w_sound in H as (t & E' & S); auto. exists (d4 y ++ t). rewrite <- app_assoc, E'. auto.
  - destruct (d4_of a a0) as (y & Y & -> & -> & E'); auto. rewrite app_assoc, E'.
    exists (d4 y). split; auto. apply year_sound4; auto.
  - exfalso. eapply after2_dash_none; eauto.
  - exfalso. eapply after2_w_none; eauto.
  - exists (d2 a). split; auto. unfold cal_ in *. rewrite cal_century in E. destruct (_ && _); [|discriminate]. injection E as <-.
    left. constructor. auto.
  - apply dash_digit_sound in H as (t & -> & S). exists (dash :: t). auto.
  - exfalso. eapply dash_dash_none; eauto.
  - apply dash_w_sound in H as (t & E & S). exists (dash :: t). rewrite E. auto.
Qed.
Lemma from_str_sound s d : date_from_str s None = Ok d -> exists t r, s = t ++ r /\ (denotes t d \/ odd t).
Proof.
  unfold date_from_str. destruct (parse_date_format None s) as [[[d' f]|] r|[]] eqn:E; intros H; try discriminate.
  injection H as <-. apply format_sound in E as (t & -> & S). exists t, r. auto.
Qed.
