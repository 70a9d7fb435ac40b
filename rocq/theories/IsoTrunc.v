From Verif Require Import Py Num IsoModel IsoSpec IsoProofs IsoMain IsoWeek IsoTimeModel IsoParseModel IsoStr.
Ltac Zify.zify_post_hook ::= Z.to_euclidean_division_equations.
#[local] Arguments leapb : simpl never.
#[local] Arguments Z.add : simpl nomatch.
#[local] Arguments month_len : simpl never.

Ltac args := cbn [a_absolute_day a_decade a_week a_weekday a_ordinal_day the a_century a_year a_base a_month a_day truthy orb is_some negb andb rbind].
(** [cal] of the year Y as an arithmetic pair *)
Lemma mkd_cal c y m d : 0 <= y <= 99 -> mkd c (Some y) (Some m) None (Some d) = cal (c * 100 + y, m, d).
Proof. intros H. unfold cal. replace ((c * 100 + y) / 100) with c by lia. replace ((c * 100 + y) mod 100) with y by lia. reflexivity. Qed.
Lemma finish_cal c y m d r : (let! _ := check_date (mkd c (Some y) (Some m) None (Some d)) in Ok (mkd c (Some y) (Some m) None (Some d))) = Ok r ->
  r = cal (c * 100 + y, m, d) /\ valid (c * 100 + y, m, d) /\ 0 <= y <= 99.
Proof.
  destruct (check_date _) as [[]|] eqn:C; cbn [rbind]; [|discriminate]. intros H; injection H as <-.
  assert (Y : 0 <= y <= 99).
  { unfold check_date in C. cbn [d_century d_year] in C. destruct (_ || _) in C; [discriminate|].
    destruct ((y <? 0) || (99 <? y)) eqn:E; [discriminate|]. b2p. lia. }
  rewrite mkd_cal in * by auto. apply check_valid in C. auto.
Qed.
Lemma add_year_ok c y c' y' : 0 <= y <= 99 -> add_year c y = Ok (c', y') -> c' * 100 + y' = c * 100 + y + 1 /\ 0 <= y' <= 99 /\ c' <= 99 \/ (c' = c /\ y' = y + 1 /\ y < 99).
Proof.
  unfold add_year, add_century. intros Y. destruct (Z.leb_spec 99 y).
  - destruct (Z.leb_spec 99 c); cbn [rbind]; [discriminate|]. intros X; injection X as <- <-. left. lia.
  - intros X; injection X as <- <-. right. lia.
Qed.

Lemma c25_calendar b yy mm dd r : valid b -> (mm = None -> yy = None) ->
  date_calendar (Some (cal b)) None yy mm (Some dd) = Ok r ->
  exists p, r = cal p /\ earliest_day (cal_matches yy mm dd) b p.
Proof.
  destruct b as [[y m] d]. intros V N. pose proof V as (Hy & Hm & Hd).
  unfold date_calendar, new_date. args. unfold set_from_calendar_day.
  cbn [cal complete d_day d_month d_year d_century is_some negb andb].
  destruct yy as [yy|].
  - destruct mm as [mm|]; [|discriminate (N eq_refl)]. cbn [is_some negb andb olt ror rand oeq rbind].
    rewrite !andb_true_r.
    destruct (Z.ltb_spec yy (y mod 100)); [|destruct (Z.eqb_spec yy (y mod 100)); cbn [rand rbind]]; cbn [rbind].
    + unfold add_century. destruct (Z.leb_spec 99 (y / 100)); cbn [rbind]; [discriminate|].
      intros F. apply finish_cal in F as (-> & Vp & R). eexists; split; [reflexivity|]. split; auto. split; [|split].
      * cbn. psplit; auto; lia.
      * cbn. lia.
      * intros [[y' m'] d'] Vq (M1 & M2 & M3) Lq. cbn in *. lia.
    + destruct (Z.ltb_spec mm m); [|destruct (Z.eqb_spec mm m); cbn [rand rbind]]; cbn [rbind].
      * unfold add_century. destruct (Z.leb_spec 99 (y / 100)); cbn [rbind]; [discriminate|].
        intros F. apply finish_cal in F as (-> & Vp & R). eexists; split; [reflexivity|]. split; auto. split; [|split].
        { cbn. psplit; auto; lia. } { cbn. lia. }
        intros [[y' m'] d'] Vq (M1 & M2 & M3) Lq. cbn in *. lia.
      * destruct (Z.ltb_spec dd d); cbn [rbind].
        { unfold add_century. destruct (Z.leb_spec 99 (y / 100)); cbn [rbind]; [discriminate|].
          intros F. apply finish_cal in F as (-> & Vp & R). eexists; split; [reflexivity|]. split; auto. split; [|split].
          { cbn. psplit; auto; lia. } { cbn. lia. }
          intros [[y' m'] d'] Vq (M1 & M2 & M3) Lq. cbn in *. lia. }
        intros F. apply finish_cal in F as (-> & Vp & R). eexists; split; [reflexivity|]. split; auto. split; [|split].
        { cbn. psplit; auto; lia. } { cbn. lia. }
        intros [[y' m'] d'] Vq (M1 & M2 & M3) Lq. cbn in *. lia.
      * intros F. apply finish_cal in F as (-> & Vp & R). eexists; split; [reflexivity|]. split; auto. split; [|split].
        { cbn. psplit; auto; lia. } { cbn. lia. }
        intros [[y' m'] d'] Vq (M1 & M2 & M3) Lq. cbn in *. lia.
    + intros F. apply finish_cal in F as (-> & Vp & R). eexists; split; [reflexivity|]. split; auto. split; [|split].
      { cbn. psplit; auto; lia. } { cbn. lia. }
      intros [[y' m'] d'] Vq (M1 & M2 & M3) Lq. cbn in *. lia.
  - destruct mm as [mm|].
    + cbn [is_some negb andb olt ror rand oeq rbind]. rewrite !andb_true_r.
      assert (K : forall lt : bool, (lt = true <-> mm < m \/ mm = m /\ dd < d) ->
        (let! d0 := (if lt then let! (c, y0) := add_year (y / 100) (y mod 100) in Ok (mkd c (Some y0) (Some mm) None (Some dd))
          else Ok (mkd (y / 100) (Some (y mod 100)) (Some mm) None (Some dd))) in let! _ := check_date d0 in Ok d0) = Ok r ->
        exists p, r = cal p /\ earliest_day (cal_matches None (Some mm) dd) (y, m, d) p).
      { intros lt L F. destruct lt.
        - destruct (add_year (y / 100) (y mod 100)) as [[c' y']|] eqn:A; cbn [rbind] in F; [|discriminate].
          apply finish_cal in F as (-> & Vp & R). apply add_year_ok in A; [|lia].
          assert (c' * 100 + y' = y + 1) as E by lia. rewrite E in *. eexists; split; [reflexivity|]. split; auto. split; [|split].
          { cbn. psplit; auto. } { cbn. lia. }
          intros [[y'' m'] d'] Vq (M1 & M2 & M3) Lq. cbn in *. destruct L as [L _]. specialize (L eq_refl). lia.
        - cbn [rbind] in F. apply finish_cal in F as (-> & Vp & R). replace (y / 100 * 100 + y mod 100) with y in * by lia.
          assert (~ (mm < m \/ mm = m /\ dd < d)) by (intros X; apply L in X; discriminate).
          eexists; split; [reflexivity|]. split; auto. split; [|split].
          { cbn. psplit; auto. } { cbn. lia. }
          intros [[y'' m'] d'] Vq (M1 & M2 & M3) Lq. cbn in *. lia. }
      destruct (Z.ltb_spec mm m); [|destruct (Z.eqb_spec mm m); cbn [rand rbind]]; cbn [rbind]; intros F.
      * apply (K true); auto. intuition lia.
      * apply (K (dd <? d)); auto. rewrite Z.ltb_lt. intuition lia.
      * apply (K false); auto. split; [discriminate|lia].
    + cbn [olt rbind]. destruct (Z.ltb_spec dd d); cbn [rbind].
      * unfold add_month. destruct (Z.leb_spec 12 m).
        { destruct (add_year (y / 100) (y mod 100)) as [[c' y']|] eqn:A; cbn [rbind]; [|discriminate].
          intros F. apply finish_cal in F as (-> & Vp & R). apply add_year_ok in A; [|lia].
          assert (c' * 100 + y' = y + 1) as E by lia. rewrite E in *. eexists; split; [reflexivity|]. split; auto. split; [|split].
          { cbn. psplit; auto. } { cbn. lia. }
          intros [[y'' m'] d'] Vq (M1 & M2 & M3) Lq. pose proof Vq as (_ & Vm & _). cbn in *. lia. }
        cbn [rbind]. intros F. apply finish_cal in F as (-> & Vp & R). replace (y / 100 * 100 + y mod 100) with y in * by lia.
        eexists; split; [reflexivity|]. split; auto. split; [|split].
        { cbn. psplit; auto. } { cbn. lia. }
        intros [[y'' m'] d'] Vq (M1 & M2 & M3) Lq. pose proof Vq as (_ & Vm & _). cbn in *. lia.
      * intros F. apply finish_cal in F as (-> & Vp & R). replace (y / 100 * 100 + y mod 100) with y in * by lia.
        eexists; split; [reflexivity|]. split; auto. split; [|split].
        { cbn. psplit; auto. } { cbn. lia. }
        intros [[y'' m'] d'] Vq (M1 & M2 & M3) Lq. pose proof Vq as (_ & Vm & _). cbn in *. lia.
Qed.
Lemma finish_ok c y m d : 0 <= y <= 99 -> valid (c * 100 + y, m, d) ->
  exists r, (let! _ := check_date (mkd c (Some y) (Some m) None (Some d)) in Ok (mkd c (Some y) (Some m) None (Some d))) = Ok r.
Proof. intros Y V. rewrite mkd_cal by auto. apply check_valid in V. rewrite V. cbn [rbind]. eauto. Qed.
Lemma month_len_28 y m : 28 <= month_len y m. Proof. unfold month_len. repeat destr; lia. Qed.
Lemma valid_28 y m d : 1 <= y <= 9999 -> 1 <= m <= 12 -> 1 <= d <= 28 -> valid (y, m, d).
Proof. intros. pose proof (month_len_28 y m). cbn. lia. Qed.
Lemma c25_calendar_total b yy mm dd q : valid b -> (mm = None -> yy = None) -> 1 <= dd <= 28 ->
  valid q -> cal_matches yy mm dd q -> ~ ymd_lt q b ->
  exists r, date_calendar (Some (cal b)) None yy mm (Some dd) = Ok r.
Proof.
  destruct b as [[y m] d], q as [[y' m'] d']. intros V N D Vq (M1 & M2 & M3) Lq.
  pose proof V as (Hy & Hm & Hd). pose proof Vq as (Hy' & Hm' & Hd').
  unfold date_calendar, new_date. args. unfold set_from_calendar_day.
  cbn [cal complete d_day d_month d_year d_century is_some negb andb].
  destruct yy as [yy|].
  - destruct mm as [mm|]; [|discriminate (N eq_refl)]. cbn [given] in *. cbn [is_some negb andb olt ror rand oeq rbind].
    rewrite !andb_true_r. subst yy m' d'. cbn in Lq.
    assert (K : forall lt : bool, (lt = true <-> y' mod 100 < y mod 100 \/ y' mod 100 = y mod 100 /\ (mm < m \/ mm = m /\ dd < d)) ->
      exists r, (let! d0 := (if lt then let! c := add_century (y / 100) in Ok (mkd c (Some (y' mod 100)) (Some mm) None (Some dd))
        else Ok (mkd (y / 100) (Some (y' mod 100)) (Some mm) None (Some dd))) in let! _ := check_date d0 in Ok d0) = Ok r).
    { intros lt L. destruct lt.
      - destruct L as [L _]. specialize (L eq_refl). unfold add_century. destruct (Z.leb_spec 99 (y / 100)); [lia|].
        cbn [rbind]. apply finish_ok; [lia|]. apply valid_28; lia.
      - assert (~ (y' mod 100 < y mod 100 \/ y' mod 100 = y mod 100 /\ (mm < m \/ mm = m /\ dd < d))) by (intros X; apply L in X; discriminate).
        cbn [rbind]. apply finish_ok; [lia|]. apply valid_28; lia. }
    destruct (Z.ltb_spec (y' mod 100) (y mod 100)); [|destruct (Z.eqb_spec (y' mod 100) (y mod 100)); cbn [rand rbind]]; cbn [rbind].
    + apply (K true). lia.
    + destruct (Z.ltb_spec mm m); [|destruct (Z.eqb_spec mm m); cbn [rand rbind]]; cbn [rbind].
      * apply (K true). lia.
      * apply (K (dd <? d)). rewrite Z.ltb_lt. lia.
      * apply (K false). split; [discriminate|lia].
    + apply (K false). split; [discriminate|lia].
  - destruct mm as [mm|].
    + cbn [given] in *. cbn [is_some negb andb olt ror rand oeq rbind]. rewrite !andb_true_r. subst m' d'. cbn in Lq.
      assert (K : forall lt : bool, (lt = true <-> mm < m \/ mm = m /\ dd < d) ->
        exists r, (let! d0 := (if lt then let! (c, y0) := add_year (y / 100) (y mod 100) in Ok (mkd c (Some y0) (Some mm) None (Some dd))
          else Ok (mkd (y / 100) (Some (y mod 100)) (Some mm) None (Some dd))) in let! _ := check_date d0 in Ok d0) = Ok r).
      { intros lt L. destruct lt.
        - destruct L as [L _]. specialize (L eq_refl). unfold add_year, add_century.
          destruct (Z.leb_spec 99 (y mod 100)); [destruct (Z.leb_spec 99 (y / 100)); [lia|]|];
          cbn [rbind]; (apply finish_ok; [lia|]; apply valid_28; lia).
        - cbn [rbind]. apply finish_ok; [lia|]. apply valid_28; lia. }
      destruct (Z.ltb_spec mm m); [|destruct (Z.eqb_spec mm m); cbn [rand rbind]]; cbn [rbind].
      * apply (K true). lia.
      * apply (K (dd <? d)). rewrite Z.ltb_lt. lia.
      * apply (K false). split; [discriminate|lia].
    + subst d'. cbn in Lq. cbn [olt rbind]. destruct (Z.ltb_spec dd d); cbn [rbind].
      * unfold add_month, add_year, add_century. destruct (Z.leb_spec 12 m).
        { destruct (Z.leb_spec 99 (y mod 100)); [destruct (Z.leb_spec 99 (y / 100)); [lia|]|];
          cbn [rbind]; (apply finish_ok; [lia|]; apply valid_28; lia). }
        cbn [rbind]. apply finish_ok; [lia|]. apply valid_28; lia.
      * apply finish_ok; [lia|]. apply valid_28; lia.
Qed.
(** ** reduced precision *)
Lemma finish_month c y m r : (let! _ := check_date (mkd c (Some y) (Some m) None None) in Ok (mkd c (Some y) (Some m) None None)) = Ok r ->
  r = month_date (c * 100 + y) m /\ year_ok (c * 100 + y) /\ 1 <= m <= 12 /\ 0 <= y <= 99.
Proof.
  destruct (check_date _) as [[]|] eqn:C; cbn [rbind]; [|discriminate]. intros H; injection H as <-.
  unfold check_date in C. cbn [d_century d_year d_month d_week d_day truthy] in C. destruct (_ || _) eqn:E0 in C; [discriminate|].
  destruct ((y <? 0) || (99 <? y)) eqn:E; [discriminate|]. destruct (_ && _) eqn:E1 in C; [discriminate|].
  destruct ((m <? 1) || (12 <? m)) eqn:E2 in C; [discriminate|]. b2p. apply andb_false_iff in E1. rewrite !Z.eqb_neq in E1.
  unfold month_date, year_ok. replace ((c * 100 + y) / 100) with c by lia. replace ((c * 100 + y) mod 100) with y by lia.
  psplit; auto; lia.
Qed.
Lemma finish_year c y r : (let! _ := check_date (mkd c (Some y) None None None) in Ok (mkd c (Some y) None None None)) = Ok r ->
  r = year_date (c * 100 + y) /\ year_ok (c * 100 + y) /\ 0 <= y <= 99.
Proof.
  destruct (check_date _) as [[]|] eqn:C; cbn [rbind]; [|discriminate]. intros H; injection H as <-.
  unfold check_date in C. cbn [d_century d_year d_month d_week d_day truthy] in C. destruct (_ || _) eqn:E0 in C; [discriminate|].
  destruct ((y <? 0) || (99 <? y)) eqn:E; [discriminate|]. destruct (_ && _) eqn:E1 in C; [discriminate|].
  b2p. apply andb_false_iff in E1. rewrite !Z.eqb_neq in E1.
  unfold year_date, year_ok. replace ((c * 100 + y) / 100) with c by lia. replace ((c * 100 + y) mod 100) with y by lia.
  psplit; auto; lia.
Qed.
(** months are counted as 12 * year + month - 1 *)
Lemma c25_month y m d yy mm r : valid (y, m, d) ->
  date_calendar (Some (cal (y, m, d))) None yy (Some mm) None = Ok r ->
  exists y', r = month_date y' mm /\ year_ok y' /\ 1 <= mm <= 12 /\
    earliest (fun t => given yy (t / 12 mod 100) /\ t mod 12 + 1 = mm) (12 * y + m - 1) (12 * y' + mm - 1).
Proof.
  intros (Hy & Hm & Hd).
  unfold date_calendar, new_date. args. unfold set_from_calendar_day.
  cbn [cal complete d_day d_month d_year d_century is_some negb andb]. unfold earliest.
  destruct yy as [yy|]; cbn [is_some negb andb olt ror rand oeq rbind given].
  - assert (K : forall lt : bool, (lt = true <-> yy < y mod 100 \/ yy = y mod 100 /\ mm < m) ->
      (let! d0 := (if lt then let! c := add_century (y / 100) in Ok (mkd c (Some yy) (Some mm) None None)
        else Ok (mkd (y / 100) (Some yy) (Some mm) None None)) in let! _ := check_date d0 in Ok d0) = Ok r ->
      exists y', r = month_date y' mm /\ year_ok y' /\ 1 <= mm <= 12 /\
       ((12 * y' + mm - 1) / 12 mod 100 = yy /\ (12 * y' + mm - 1) mod 12 + 1 = mm) /\
       12 * y + m - 1 <= 12 * y' + mm - 1 /\
       (forall k, k / 12 mod 100 = yy /\ k mod 12 + 1 = mm -> 12 * y + m - 1 <= k -> 12 * y' + mm - 1 <= k)).
    { intros lt L F. destruct lt.
      - destruct L as [L _]. specialize (L eq_refl). unfold add_century in F. destruct (Z.leb_spec 99 (y / 100)); [discriminate|].
        cbn [rbind] in F. apply finish_month in F as (-> & Yok & Mok & R). eexists; split; [reflexivity|].
        assert (X : (12 * ((y / 100 + 1) * 100 + yy) + mm - 1) / 12 = (y / 100 + 1) * 100 + yy) by lia.
        psplit; auto; lia.
      - assert (~ (yy < y mod 100 \/ yy = y mod 100 /\ mm < m)) by (intros X; apply L in X; discriminate). clear L.
        cbn [rbind] in F. apply finish_month in F as (-> & Yok & Mok & R). eexists; split; [reflexivity|].
        assert (X : (12 * (y / 100 * 100 + yy) + mm - 1) / 12 = y / 100 * 100 + yy) by lia.
        psplit; auto; lia. }
    rewrite !andb_true_r.
    destruct (Z.ltb_spec yy (y mod 100)); [|destruct (Z.eqb_spec yy (y mod 100)); cbn [rand rbind]]; cbn [rbind].
    + apply (K true). lia.
    + rewrite !andb_false_r. cbn [rand]. destruct (Z.ltb_spec mm m); cbn [rbind].
      * apply (K true). lia.
      * apply (K false). split; [discriminate|lia].
    + apply (K false). split; [discriminate|lia].
  - rewrite !andb_false_r. cbn [rand]. destruct (Z.ltb_spec mm m); cbn [rbind]; intros F.
    + destruct (add_year (y / 100) (y mod 100)) as [[c' y']|] eqn:A; cbn [rbind] in F; [|discriminate].
      apply finish_month in F as (-> & Yok & Mok & R). apply add_year_ok in A; [|lia].
      assert (c' * 100 + y' = y + 1) as E by lia. rewrite E in *. eexists; split; [reflexivity|].
      psplit; auto; try lia.
    + apply finish_month in F as (-> & Yok & Mok & R). replace (y / 100 * 100 + y mod 100) with y in * by lia.
      exists y. psplit; auto; try lia.
Qed.
Lemma c25_year y m d yy r : valid (y, m, d) ->
  date_calendar (Some (cal (y, m, d))) None (Some yy) None None = Ok r ->
  exists y', r = year_date y' /\ year_ok y' /\ earliest (fun t => t mod 100 = yy) y y'.
Proof.
  intros (Hy & Hm & Hd).
  unfold date_calendar, new_date. args. unfold set_from_calendar_day.
  cbn [cal complete d_day d_month d_year d_century is_some negb andb]. unfold earliest.
  cbn [is_some negb andb olt ror rand oeq rbind given]. rewrite !andb_false_r. cbn [rand].
  destruct (Z.ltb_spec yy (y mod 100)); cbn [rbind]; intros F.
  - unfold add_century in F. destruct (Z.leb_spec 99 (y / 100)); [discriminate|].
    cbn [rbind] in F. apply finish_year in F as (-> & Yok & R). eexists; split; [reflexivity|]. psplit; auto; lia.
  - apply finish_year in F as (-> & Yok & R). eexists; split; [reflexivity|]. psplit; auto; lia.
Qed.

(** ** ordinal *)
Lemma ord_lt p q : valid_md p -> valid_md q -> fst (fst p) = fst (fst q) -> (ymd_lt p q <-> ordinal p < ordinal q).
Proof.
  intros V1 V2 E. rewrite dn_lt_iff by auto. destruct p as [[y m] d], q as [[y' m'] d']. cbn [fst] in E. subst y'. cbn [dn]. lia.
Qed.
Lemma ord_lt2 p q : valid_md p -> valid_md q -> (ymd_lt p q <-> fst (fst p) < fst (fst q) \/ fst (fst p) = fst (fst q) /\ ordinal p < ordinal q).
Proof.
  intros V1 V2. pose proof (ord_lt p q V1 V2) as H. destruct p as [[y m] d], q as [[y' m'] d']. cbn [fst] in *.
  split.
  - intros L. destruct (Z_lt_dec y y'); auto. right. assert (y = y') by (cbn in L; lia). split; auto. apply H; auto.
  - intros [L|[E L]]; [cbn; lia|]. apply H; auto.
Qed.
Lemma c25_ordinal b yy o r : valid b -> o <> 0 ->
  date_ordinal (Some (cal b)) None yy o = Ok r ->
  exists p, r = cal p /\ earliest_day (ord_matches yy o) b p.
Proof.
  destruct b as [[y m] d]. intros V N F. pose proof V as (Hy & Vm). pose proof (ordinal_pos _ _ _ Vm) as O.
  unfold date_ordinal, new_date in F. revert F. args. destruct (Z.eqb_spec o 0); [lia|]. cbn [negb].
  unfold set_from_ordinal_day. cbn [complete cal d_day is_some negb]. fold (cal (y, m, d)).
  rewrite get_ordinal_cal by apply Vm. cbn [rbind].
  (* the constructor from the chosen year *)
  assert (K : forall y', 
     (let! d0 := (let! leap := date_leap_year (y' / 100) (Some (y' mod 100)) in
       let (m0, dd) := month_walk (sizes leap) 1 o in Ok (mkd (y' / 100) (Some (y' mod 100)) (Some m0) None (Some dd))) in
      let! _ := check_date d0 in Ok d0) = Ok r ->
     given yy (y' mod 100) -> (y < y' \/ y = y' /\ ordinal (y, m, d) <= o) ->
     (forall z, given yy (z mod 100) -> (y < z \/ y = z /\ ordinal (y, m, d) <= o) -> y' <= z) ->
     exists p, r = cal p /\ earliest_day (ord_matches yy o) (y, m, d) p).
  { intros y' F G1 G2 G3.
    assert (F' : date_ordinal None (Some (y' / 100)) (Some (y' mod 100)) o = Ok r).
    { unfold date_ordinal, new_date. args. destruct (Z.eqb_spec o 0); [lia|]. cbn [negb]. exact F. }
    apply ordinal_sound in F' as (m' & d' & -> & V' & E); auto. exists (y', m', d'). split; auto. pose proof V' as (Hy' & Vm').
    split; auto. split; [|split].
    - cbn [ord_matches]. auto.
    - rewrite ord_lt2 by auto. cbn [fst]. rewrite E. lia.
    - intros [[z mz] dz] Vz (M1 & M2) L. pose proof Vz as (Hz & Vmz). rewrite ord_lt2 in L by auto. rewrite ord_lt2 by auto.
      cbn [fst] in *. rewrite E. rewrite M2 in *. specialize (G3 z M1). lia. }
  destruct yy as [yy|]; cbn [olt oeq ror rand rbind].
  - assert (K2 : forall lt : bool, (lt = true <-> yy < y mod 100 \/ yy = y mod 100 /\ o < ordinal (y, m, d)) ->
      (let! d0 := (let! (c, y0) := (if lt then let! c := add_century (y / 100) in Ok (c, Some yy) else Ok (y / 100, Some yy)) in
        let! leap := date_leap_year c y0 in
       let (m0, dd) := month_walk (sizes leap) 1 o in Ok (mkd c y0 (Some m0) None (Some dd))) in
      let! _ := check_date d0 in Ok d0) = Ok r ->
      exists p, r = cal p /\ earliest_day (ord_matches (Some yy) o) (y, m, d) p).
    { intros lt L F.
      assert (R : 0 <= yy <= 99).
      { destruct lt; cbn [rbind] in F.
        - unfold add_century in F. destruct (99 <=? y / 100); cbn [rbind] in F; [discriminate|].
          destruct (date_leap_year _ _) in F; cbn [rbind] in F; [|discriminate]. destruct (month_walk _ _ _) in F. cbn [rbind] in F.
          apply finish_cal in F. tauto.
        - destruct (date_leap_year _ _) in F; cbn [rbind] in F; [|discriminate]. destruct (month_walk _ _ _) in F. cbn [rbind] in F.
          apply finish_cal in F. tauto. }
      set (y' := (if lt then y / 100 + 1 else y / 100) * 100 + yy).
      assert (E : y' / 100 = (if lt then y / 100 + 1 else y / 100) /\ y' mod 100 = yy) by (subst y'; destruct lt; lia).
      destruct E as [E1 E2]. apply (K y').
      - rewrite E1, E2. destruct lt; [|exact F]. unfold add_century in F. destruct (99 <=? y / 100); [discriminate|exact F].
      - cbn [given]. auto.
      - destruct lt; [destruct L as [L _]; specialize (L eq_refl)|assert (~ (yy < y mod 100 \/ yy = y mod 100 /\ o < ordinal (y, m, d))) by (intros X; apply L in X; discriminate)]; subst y'; lia.
      - cbn [given]. intros z Z1 Z2.
        destruct lt; [destruct L as [L _]; specialize (L eq_refl)|assert (~ (yy < y mod 100 \/ yy = y mod 100 /\ o < ordinal (y, m, d))) by (intros X; apply L in X; discriminate)]; subst y'; lia. }
    destruct (Z.ltb_spec yy (y mod 100)); [|destruct (Z.eqb_spec yy (y mod 100)); cbn [rand rbind]]; cbn [rbind].
    + apply (K2 true). lia.
    + destruct (Z.ltb_spec o (ordinal (y, m, d))); cbn [rbind].
      * apply (K2 true). lia.
      * apply (K2 false). split; [discriminate|lia].
    + apply (K2 false). split; [discriminate|lia].
  - cbn [given] in *. destruct (Z.ltb_spec o (ordinal (y, m, d))); cbn [rbind].
    + destruct (add_year (y / 100) (y mod 100)) as [[c' y']|] eqn:A; cbn [rbind]; [|discriminate].
      apply add_year_ok in A; [|lia]. assert (E : c' = (y + 1) / 100 /\ y' = (y + 1) mod 100) by lia. destruct E as [-> ->].
      intros F. apply (K (y + 1) F); auto; lia.
    + intros F. apply (K y F); auto; lia.
Qed.
Lemma ordinal_exists y o : year_ok y -> 1 <= o <= 365 -> exists r, date_ordinal None (Some (y / 100)) (Some (y mod 100)) o = Ok r.
Proof.
  intros Y O. pose proof (year_len_pos y). destruct (set_ordinal_cal y o None ltac:(lia)) as (m & d & _ & V & E).
  exists (cal (y, m, d)). rewrite <- E. apply ordinal_roundtrip. split; auto.
Qed.
Lemma c25_ordinal_total b yy o q : valid b -> 1 <= o <= 365 -> valid q -> ord_matches yy o q -> ~ ymd_lt q b ->
  exists r, date_ordinal (Some (cal b)) None yy o = Ok r.
Proof.
  destruct b as [[y m] d], q as [[y' m'] d']. intros V O Vq (M1 & M2) L. pose proof V as (Hy & Vm). pose proof Vq as (Hy' & Vm').
  rewrite ord_lt2 in L by auto. cbn [fst] in L. rewrite M2 in L.
  assert (K : forall z, 1 <= z <= 9999 -> exists r, (let! d0 := (let! leap := date_leap_year (z / 100) (Some (z mod 100)) in
       let (m0, dd) := month_walk (sizes leap) 1 o in Ok (mkd (z / 100) (Some (z mod 100)) (Some m0) None (Some dd))) in
      let! _ := check_date d0 in Ok d0) = Ok r).
  { intros z Hz. destruct (ordinal_exists z o Hz O) as [r E]. exists r. unfold date_ordinal, new_date in E. revert E. args.
    destruct (Z.eqb_spec o 0); [lia|]. cbn [negb]. auto. }
  unfold date_ordinal, new_date. args. destruct (Z.eqb_spec o 0); [lia|]. cbn [negb].
  unfold set_from_ordinal_day. cbn [complete cal d_day is_some negb]. fold (cal (y, m, d)).
  rewrite get_ordinal_cal by apply Vm. cbn [rbind].
  destruct yy as [yy|]; cbn [olt oeq ror rand rbind given] in *.
  - assert (K2 : forall lt : bool, (lt = true <-> yy < y mod 100 \/ yy = y mod 100 /\ o < ordinal (y, m, d)) -> exists r,
      (let! d0 := (let! (c, y0) := (if lt then let! c := add_century (y / 100) in Ok (c, Some yy) else Ok (y / 100, Some yy)) in
        let! leap := date_leap_year c y0 in
       let (m0, dd) := month_walk (sizes leap) 1 o in Ok (mkd c y0 (Some m0) None (Some dd))) in
      let! _ := check_date d0 in Ok d0) = Ok r).
    { intros lt Hl. destruct lt.
      - destruct Hl as [Hl _]. specialize (Hl eq_refl). unfold add_century. destruct (Z.leb_spec 99 (y / 100)); [lia|]. cbn [rbind].
        destruct (K ((y / 100 + 1) * 100 + yy)) as [r E]; [lia|].
        replace (((y / 100 + 1) * 100 + yy) / 100) with (y / 100 + 1) in E by lia.
        replace (((y / 100 + 1) * 100 + yy) mod 100) with yy in E by lia. eauto.
      - assert (~ (yy < y mod 100 \/ yy = y mod 100 /\ o < ordinal (y, m, d))) by (intros X; apply Hl in X; discriminate).
        cbn [rbind]. destruct (K (y / 100 * 100 + yy)) as [r E]; [lia|].
        replace ((y / 100 * 100 + yy) / 100) with (y / 100) in E by lia.
        replace ((y / 100 * 100 + yy) mod 100) with yy in E by lia. eauto. }
    destruct (Z.ltb_spec yy (y mod 100)); [|destruct (Z.eqb_spec yy (y mod 100)); cbn [rand rbind]]; cbn [rbind].
    + apply (K2 true). lia.
    + destruct (Z.ltb_spec o (ordinal (y, m, d))); cbn [rbind].
      * apply (K2 true). lia.
      * apply (K2 false). split; [discriminate|lia].
    + apply (K2 false). split; [discriminate|lia].
  - destruct (Z.ltb_spec o (ordinal (y, m, d))); cbn [rbind].
    + unfold add_year, add_century.
      destruct (Z.leb_spec 99 (y mod 100)); [destruct (Z.leb_spec 99 (y / 100)); [lia|]|]; cbn [rbind].
      * destruct (K (y + 1)) as [r E]; [lia|]. replace ((y + 1) / 100) with (y / 100 + 1) in E by lia.
        replace ((y + 1) mod 100) with 0 in E by lia. eauto.
      * destruct (K (y + 1)) as [r E]; [lia|]. replace ((y + 1) / 100) with (y / 100) in E by lia.
        replace ((y + 1) mod 100) with (y mod 100 + 1) in E by lia. eauto.
    + apply K. lia.
Qed.

(** ** weeks *)
Lemma week_pos Y w wd k : iso_week k Y w wd -> Z.of_nat k + 1 = wk1 Y + 7 * (w - 1) + wd - 1 /\ 1 <= w <= week_count Y /\ 1 <= wd <= 7.
Proof. intros I. apply iso_week_iff in I. lia. Qed.
(** order of week dates *)
Lemma week_order Y w wd k Y' w' wd' k' : iso_week k Y w wd -> iso_week k' Y' w' wd' ->
  ((k <= k')%nat <-> Y < Y' \/ Y = Y' /\ (w < w' \/ w = w' /\ wd <= wd')).
Proof.
  intros I I'. apply week_pos in I. apply week_pos in I'. pose proof (wk1_succ Y) as S1. pose proof (wk1_succ Y') as S2.
  destruct (Z.lt_trichotomy Y Y') as [L|[E|L]].
  - pose proof (wk1_mono (Y + 1) Y' ltac:(lia)). lia.
  - subst. lia.
  - pose proof (wk1_mono (Y' + 1) Y ltac:(lia)). lia.
Qed.
Lemma week_cal_inv c y w wd r : 0 <= w -> 1 <= wd <= 7 ->
  (let! d := week_to_calendar c y w wd in let! _ := check_date d in Ok d) = Ok r ->
  exists n, r = cal (nth_day n) /\ Z.of_nat n < max_day /\ w <= week_count (c * 100 + y) /\
    Z.of_nat n + 1 = wk1 (c * 100 + y) + 7 * (w - 1) + wd - 1.
Proof.
  intros W D H. destruct (week_to_cal c y w wd W D) as [K1 K2].
  destruct (Z_le_dec w (week_count (c * 100 + y))) as [L|L]; [|rewrite K2 in H by lia; discriminate].
  destruct K1 as (p & E & V & Dp); auto. rewrite E in H. cbn [rbind] in H.
  destruct (check_date (cal p)) as [[]|] eqn:C; cbn [rbind] in H; [|discriminate]. injection H as <-.
  apply check_valid in C. pose proof (dn_range p C). exists (Z.to_nat (dn p - 1)). rewrite <- valid_nth by auto.
  psplit; auto; lia.
Qed.
Lemma c25_week n dec yr w wd r : form_ok dec yr w -> (match w with Some w => 1 <= w | None => True end) -> wd <> 0 ->
  Z.of_nat n < max_day ->
  date_week (Some (cal (nth_day n))) None dec yr w (Some wd) = Ok r ->
  exists k, r = cal (nth_day k) /\ Z.of_nat k < max_day /\ earliest_nat (week_matches dec yr w wd) n k.
Proof.
  intros Fo W0 D0 L.
  unfold date_week, new_date. args. destruct (Z.eqb_spec wd 0); [lia|]. cbn [negb]. rewrite !orb_true_r.
  unfold set_from_week_day. cbn [is_some negb andb].
  destruct ((wd <? 1) || (7 <? wd)) eqn:E1; [discriminate|]. b2p. assert (Hwd : 1 <= wd <= 7) by lia.
  destruct (match w with Some x => (x <? 0) || (53 <? x) | None => false end) eqn:E2; [discriminate|].
  destruct (match yr with Some x => (x <? 0) || (9 <? x) | None => false end) eqn:E3; [discriminate|].
  destruct (match dec with Some x => (x <? 0) || (9 <? x) | None => false end) eqn:E4; [discriminate|].
  destruct (get_week_spec n) as (Y & bw & bwd & I & Eb).
  replace (complete (cal (nth_day n))) with true by (destruct (nth_day n) as [[? ?] ?]; reflexivity). cbn [negb].
  rewrite Eb. cbn [rbind]. clear Eb.
  pose proof (week_pos _ _ _ _ I) as Pn.
  (* the result is day wd of week w' in the year Y' *)
  assert (K : forall c y w', 1 <= w' ->
    (let! d := week_to_calendar c y w' wd in let! _ := check_date d in Ok d) = Ok r ->
    let Y' := c * 100 + y in
    given dec (Y' / 10 mod 10) -> given yr (Y' mod 10) -> given w w' ->
    (Y < Y' \/ Y = Y' /\ (bw < w' \/ bw = w' /\ bwd <= wd)) ->
    (forall Z w'', given dec (Z / 10 mod 10) -> given yr (Z mod 10) -> given w w'' -> 1 <= w'' <= week_count Z ->
        (Y < Z \/ Y = Z /\ (bw < w'' \/ bw = w'' /\ bwd <= wd)) -> Y' < Z \/ Y' = Z /\ w' <= w'') ->
    exists k, r = cal (nth_day k) /\ Z.of_nat k < max_day /\ earliest_nat (week_matches dec yr w wd) n k).
  { intros c y w' Hw' F Y' G1 G2 G3 G4 G5. apply week_cal_inv in F as (k & -> & Lk & Wk & Ek); [|lia|auto].
    fold Y' in Wk, Ek. exists k. split; auto. split; auto.
    assert (Ik : iso_week k Y' w' wd) by (apply iso_week_iff; lia).
    split; [|split].
    - exists Y', w'. auto.
    - apply (week_order _ _ _ _ _ _ _ _ I Ik). lia.
    - intros j (Yj & wj & Ij & J1 & J2 & J3) Lj. apply (week_order _ _ _ _ _ _ _ _ I Ij) in Lj.
      apply (week_order _ _ _ _ _ _ _ _ Ik Ij). pose proof (week_pos _ _ _ _ Ij).
      destruct (G5 Yj wj J1 J2 J3 ltac:(lia) Lj); lia. }
  destruct dec as [dec|]; [destruct yr as [yr|]; [destruct w as [w|]; [|destruct Fo]|destruct Fo]
                          |destruct yr as [yr|]; [destruct w as [w|]; [|destruct Fo]|destruct w as [w|]]];
    clear Fo; cbn [is_some olt oeq ror rand rbind given] in *; rewrite ?andb_true_r in *; b2p.
  - (* YYWwwD *)
    assert (HY : 10 * (Y mod 100 / 10) + Y mod 10 = Y mod 100) by lia.
    assert (K2 : forall lt : bool, (lt = true <-> dec * 10 + yr < Y mod 100 \/ dec * 10 + yr = Y mod 100 /\ (w < bw \/ w = bw /\ wd < bwd)) ->
      (let! d0 := (let! (c, y, w0) := (if lt then let! c := add_century (Y / 100) in Ok (c, dec * 10 + yr, Some w) else Ok (Y / 100, dec * 10 + yr, Some w)) in
        match w0 with None => Err TypeError | Some w0 => week_to_calendar c y w0 wd end) in
      let! _ := check_date d0 in Ok d0) = Ok r ->
      exists k, r = cal (nth_day k) /\ Z.of_nat k < max_day /\ earliest_nat (week_matches (Some dec) (Some yr) (Some w) wd) n k).
    { intros lt Hl F. destruct lt.
      - destruct Hl as [Hl _]. specialize (Hl eq_refl). unfold add_century in F. destruct (Z.leb_spec 99 (Y / 100)); [discriminate|]. cbn [rbind] in F.
        apply (K _ _ _ W0 F); auto; try lia.
      - assert (~ (dec * 10 + yr < Y mod 100 \/ dec * 10 + yr = Y mod 100 /\ (w < bw \/ w = bw /\ wd < bwd))) by (intros X; apply Hl in X; discriminate). clear Hl.
        cbn [rbind] in F. apply (K _ _ _ W0 F); auto; try lia. }
    replace (Y mod 10 + Y mod 100 / 10 * 10) with (Y mod 100) by lia.
    destruct (Z.ltb_spec (dec * 10 + yr) (Y mod 100)); [|destruct (Z.eqb_spec (dec * 10 + yr) (Y mod 100)); cbn [rand rbind]]; cbn [rbind].
    + apply (K2 true). lia.
    + destruct (Z.ltb_spec w bw); [|destruct (Z.eqb_spec w bw); cbn [rand rbind]]; cbn [rbind].
      * apply (K2 true). lia.
      * apply (K2 (wd <? bwd)). rewrite Z.ltb_lt. lia.
      * apply (K2 false). split; [discriminate|lia].
    + apply (K2 false). split; [discriminate|lia].
  - (* -YWwwD *)
    assert (K2 : forall lt : bool, (lt = true <-> yr < Y mod 10 \/ yr = Y mod 10 /\ (w < bw \/ w = bw /\ wd < bwd)) ->
      (let! d0 := (let! (c, y, w0) := (if lt then Ok (Y / 100, yr + (Y mod 100 / 10 + 1) * 10, Some w) else Ok (Y / 100, yr + Y mod 100 / 10 * 10, Some w)) in
        match w0 with None => Err TypeError | Some w0 => week_to_calendar c y w0 wd end) in
      let! _ := check_date d0 in Ok d0) = Ok r ->
      exists k, r = cal (nth_day k) /\ Z.of_nat k < max_day /\ earliest_nat (week_matches None (Some yr) (Some w) wd) n k).
    { intros lt Hl F. destruct lt.
      - destruct Hl as [Hl _]. specialize (Hl eq_refl). cbn [rbind] in F.
        assert (HY : Y / 100 * 100 + (yr + (Y mod 100 / 10 + 1) * 10) = 10 * (Y / 10) + 10 + yr) by lia.
        apply (K _ _ _ W0 F); auto; rewrite HY; try lia.
      - assert (~ (yr < Y mod 10 \/ yr = Y mod 10 /\ (w < bw \/ w = bw /\ wd < bwd))) by (intros X; apply Hl in X; discriminate). clear Hl.
        assert (HY : Y / 100 * 100 + (yr + Y mod 100 / 10 * 10) = 10 * (Y / 10) + yr) by lia.
        cbn [rbind] in F. apply (K _ _ _ W0 F); auto; rewrite HY; try lia. }
    destruct (Z.ltb_spec yr (Y mod 10)); [|destruct (Z.eqb_spec yr (Y mod 10)); cbn [rand rbind]]; cbn [rbind].
    + apply (K2 true). lia.
    + destruct (Z.ltb_spec w bw); [|destruct (Z.eqb_spec w bw); cbn [rand rbind]]; cbn [rbind].
      * apply (K2 true). lia.
      * apply (K2 (wd <? bwd)). rewrite Z.ltb_lt. lia.
      * apply (K2 false). split; [discriminate|lia].
    + apply (K2 false). split; [discriminate|lia].
  - (* -WwwD *)
    assert (HY : Y mod 100 / 10 * 10 + Y mod 10 = Y mod 100) by lia. rewrite HY.
    assert (K2 : forall lt : bool, (lt = true <-> (w < bw \/ w = bw /\ wd < bwd)) ->
      (let! d0 := (let! (c, y, w0) := (if lt then let! (c, y0) := add_year (Y / 100) (Y mod 100) in Ok (c, y0, Some w) else Ok (Y / 100, Y mod 100, Some w)) in
        match w0 with None => Err TypeError | Some w0 => week_to_calendar c y w0 wd end) in
      let! _ := check_date d0 in Ok d0) = Ok r ->
      exists k, r = cal (nth_day k) /\ Z.of_nat k < max_day /\ earliest_nat (week_matches None None (Some w) wd) n k).
    { intros lt Hl F. destruct lt.
      - destruct Hl as [Hl _]. specialize (Hl eq_refl).
        destruct (add_year _ _) as [[c' y']|] eqn:A in F; cbn [rbind] in F; [|discriminate]. apply add_year_ok in A; [|lia].
        assert (E : c' * 100 + y' = Y + 1) by lia. cbn [rbind] in F.
        apply (K _ _ _ W0 F); auto; rewrite E; lia.
      - assert (~ (w < bw \/ w = bw /\ wd < bwd)) by (intros X; apply Hl in X; discriminate). clear Hl.
        assert (E : Y / 100 * 100 + Y mod 100 = Y) by lia.
        cbn [rbind] in F. apply (K _ _ _ W0 F); auto; rewrite E; lia. }
    destruct (Z.ltb_spec w bw); [|destruct (Z.eqb_spec w bw); cbn [rand rbind]]; cbn [rbind].
    + apply (K2 true). lia.
    + apply (K2 (wd <? bwd)). rewrite Z.ltb_lt. lia.
    + apply (K2 false). split; [discriminate|lia].
  - (* -W-D *)
    assert (HY : Y mod 100 / 10 * 10 + Y mod 10 = Y mod 100) by lia. rewrite HY.
    destruct (Z.ltb_spec wd bwd); cbn [rbind].
    + unfold add_week. replace (Y / 100 * 100 + Y mod 100) with Y by lia. destruct (Z.leb_spec (week_count Y) bw).
      * destruct (add_year _ _) as [[c' y']|] eqn:A; cbn [rbind]; [|discriminate]. apply add_year_ok in A; [|lia].
        assert (E : c' * 100 + y' = Y + 1) by lia.
        intros F. apply (K c' y' 1 ltac:(lia) F); auto; rewrite E; [lia|]. intros Z w2 _ _ _ HZ; destruct (Z.eq_dec Y Z) as [<-|]; lia.
      * cbn [rbind]. intros F. assert (E : Y / 100 * 100 + Y mod 100 = Y) by lia.
        apply (K (Y / 100) (Y mod 100) (bw + 1) ltac:(lia) F); auto; rewrite E; lia.
    + intros F. assert (E : Y / 100 * 100 + Y mod 100 = Y) by lia.
      apply (K (Y / 100) (Y mod 100) bw ltac:(lia) F); auto; rewrite E; lia.
Qed.
Lemma week_cal_ok c y w wd n k Y bw bwd Yk wk : iso_week n Y bw bwd -> iso_week k Yk wk wd -> Z.of_nat k < max_day ->
  1 <= w <= week_count (c * 100 + y) ->
  (Y < c * 100 + y \/ Y = c * 100 + y /\ (bw < w \/ bw = w /\ bwd <= wd)) ->
  (c * 100 + y < Yk \/ c * 100 + y = Yk /\ w <= wk) ->
  exists r, (let! d := week_to_calendar c y w wd in let! _ := check_date d in Ok d) = Ok r.
Proof.
  intros I Ik Lk W G1 G2. apply week_pos in I as (P1 & P2 & P3). apply week_pos in Ik as (Q1 & Q2 & Q3).
  destruct (week_to_cal c y w wd ltac:(lia) Q3) as [K _]. set (Z := c * 100 + y) in *.
  destruct K as (p & E & V & Dp); [lia|]. rewrite E. cbn [rbind].
  assert (Vp : valid p).
  { apply dn_valid; auto. rewrite Dp. pose proof (wk1_succ Y). pose proof (wk1_succ Z). split.
    - destruct (Z.eq_dec Y Z); [subst Y; lia|]. pose proof (wk1_mono (Y + 1) Z ltac:(lia)). lia.
    - destruct (Z.eq_dec Z Yk) as [e|]; [rewrite e in *; lia|]. pose proof (wk1_mono (Z + 1) Yk ltac:(lia)). lia. }
  apply check_valid in Vp. rewrite Vp. cbn [rbind]. eauto.
Qed.
Lemma c25_week_total n dec yr w wd k : form_ok dec yr w -> (match w with Some w => 1 <= w <= 52 | None => True end) ->
  Z.of_nat n < max_day -> Z.of_nat k < max_day -> (n <= k)%nat -> week_matches dec yr w wd k ->
  exists r, date_week (Some (cal (nth_day n))) None dec yr w (Some wd) = Ok r.
Proof.
  intros Fo W0 L Lk Nk (Yk & wk & Ik & M1 & M2 & M3).
  pose proof (week_pos _ _ _ _ Ik) as (Pk1 & Pk2 & Hwd).
  destruct (get_week_spec n) as (Y & bw & bwd & I & Eb).
  pose proof (iso_week_year _ _ _ _ I L) as HY0. pose proof (iso_week_year _ _ _ _ Ik Lk) as HYk.
  apply (week_order _ _ _ _ _ _ _ _ I Ik) in Nk.
  unfold date_week, new_date. args. destruct (Z.eqb_spec wd 0); [lia|]. cbn [negb]. rewrite !orb_true_r.
  unfold set_from_week_day. cbn [is_some negb andb]. rewrite (out_of_false 1 7) by lia.
  replace (match w with Some x => (x <? 0) || (53 <? x) | None => false end) with false
    by (symmetry; destruct w; auto; apply out_of_false; cbn in *; lia).
  replace (match yr with Some x => (x <? 0) || (9 <? x) | None => false end) with false
    by (symmetry; destruct yr; auto; apply out_of_false; cbn in *; lia).
  replace (match dec with Some x => (x <? 0) || (9 <? x) | None => false end) with false
    by (symmetry; destruct dec; auto; apply out_of_false; cbn in *; lia).
  replace (complete (cal (nth_day n))) with true by (destruct (nth_day n) as [[? ?] ?]; reflexivity). cbn [negb].
  rewrite Eb. cbn [rbind]. clear Eb. pose proof (week_pos _ _ _ _ I) as Pn.
  pose proof (fun c y w' => week_cal_ok c y w' wd n k Y bw bwd Yk wk I Ik Lk) as K.
  assert (Wc : forall Z, 52 <= week_count Z) by (intros; apply week_count_bounds).
  destruct dec as [dec|]; [destruct yr as [yr|]; [destruct w as [w|]; [|destruct Fo]|destruct Fo]
                          |destruct yr as [yr|]; [destruct w as [w|]; [|destruct Fo]|destruct w as [w|]]];
    clear Fo; cbn [is_some olt oeq ror rand rbind given] in *; rewrite ?andb_true_r in *; b2p.
  - assert (HY : dec * 10 + yr = Yk mod 100) by lia.
    assert (K2 : forall lt : bool, (lt = true <-> dec * 10 + yr < Y mod 100 \/ dec * 10 + yr = Y mod 100 /\ (w < bw \/ w = bw /\ wd < bwd)) -> exists r,
      (let! d0 := (let! (c, y, w0) := (if lt then let! c := add_century (Y / 100) in Ok (c, dec * 10 + yr, Some w) else Ok (Y / 100, dec * 10 + yr, Some w)) in
        match w0 with None => Err TypeError | Some w0 => week_to_calendar c y w0 wd end) in
      let! _ := check_date d0 in Ok d0) = Ok r).
    { intros lt Hl. destruct lt.
      - destruct Hl as [Hl _]. specialize (Hl eq_refl). unfold add_century. destruct (Z.leb_spec 99 (Y / 100)); [lia|]. cbn [rbind].
        apply K; [split; [lia|]; specialize (Wc ((Y / 100 + 1) * 100 + (dec * 10 + yr))); lia| |]; lia.
      - assert (~ (dec * 10 + yr < Y mod 100 \/ dec * 10 + yr = Y mod 100 /\ (w < bw \/ w = bw /\ wd < bwd))) by (intros X; apply Hl in X; discriminate). clear Hl.
        cbn [rbind]. apply K; [split; [lia|]; specialize (Wc (Y / 100 * 100 + (dec * 10 + yr))); lia| |]; lia. }
    replace (Y mod 10 + Y mod 100 / 10 * 10) with (Y mod 100) by lia.
    destruct (Z.ltb_spec (dec * 10 + yr) (Y mod 100)); [|destruct (Z.eqb_spec (dec * 10 + yr) (Y mod 100)); cbn [rand rbind]]; cbn [rbind].
    + apply (K2 true). lia.
    + destruct (Z.ltb_spec w bw); [|destruct (Z.eqb_spec w bw); cbn [rand rbind]]; cbn [rbind].
      * apply (K2 true). lia.
      * apply (K2 (wd <? bwd)). rewrite Z.ltb_lt. lia.
      * apply (K2 false). split; [discriminate|lia].
    + apply (K2 false). split; [discriminate|lia].
  - assert (K2 : forall lt : bool, (lt = true <-> yr < Y mod 10 \/ yr = Y mod 10 /\ (w < bw \/ w = bw /\ wd < bwd)) -> exists r,
      (let! d0 := (let! (c, y, w0) := (if lt then Ok (Y / 100, yr + (Y mod 100 / 10 + 1) * 10, Some w) else Ok (Y / 100, yr + Y mod 100 / 10 * 10, Some w)) in
        match w0 with None => Err TypeError | Some w0 => week_to_calendar c y w0 wd end) in
      let! _ := check_date d0 in Ok d0) = Ok r).
    { intros lt Hl. destruct lt.
      - destruct Hl as [Hl _]. specialize (Hl eq_refl). cbn [rbind].
        assert (HY : Y / 100 * 100 + (yr + (Y mod 100 / 10 + 1) * 10) = 10 * (Y / 10) + 10 + yr) by lia.
        apply K; rewrite HY; [split; [lia|]; specialize (Wc (10 * (Y / 10) + 10 + yr)); lia| |]; lia.
      - assert (~ (yr < Y mod 10 \/ yr = Y mod 10 /\ (w < bw \/ w = bw /\ wd < bwd))) by (intros X; apply Hl in X; discriminate). clear Hl.
        assert (HY : Y / 100 * 100 + (yr + Y mod 100 / 10 * 10) = 10 * (Y / 10) + yr) by lia.
        cbn [rbind]. apply K; rewrite HY; [split; [lia|]; specialize (Wc (10 * (Y / 10) + yr)); lia| |]; lia. }
    destruct (Z.ltb_spec yr (Y mod 10)); [|destruct (Z.eqb_spec yr (Y mod 10)); cbn [rand rbind]]; cbn [rbind].
    + apply (K2 true). lia.
    + destruct (Z.ltb_spec w bw); [|destruct (Z.eqb_spec w bw); cbn [rand rbind]]; cbn [rbind].
      * apply (K2 true). lia.
      * apply (K2 (wd <? bwd)). rewrite Z.ltb_lt. lia.
      * apply (K2 false). split; [discriminate|lia].
    + apply (K2 false). split; [discriminate|lia].
  - assert (HY : Y mod 100 / 10 * 10 + Y mod 10 = Y mod 100) by lia. rewrite HY. subst wk.
    assert (K2 : forall lt : bool, (lt = true <-> (w < bw \/ w = bw /\ wd < bwd)) -> exists r,
      (let! d0 := (let! (c, y, w0) := (if lt then let! (c, y0) := add_year (Y / 100) (Y mod 100) in Ok (c, y0, Some w) else Ok (Y / 100, Y mod 100, Some w)) in
        match w0 with None => Err TypeError | Some w0 => week_to_calendar c y w0 wd end) in
      let! _ := check_date d0 in Ok d0) = Ok r).
    { intros lt Hl. destruct lt.
      - destruct Hl as [Hl _]. specialize (Hl eq_refl).
        destruct (add_year _ _) as [[c' y']|] eqn:A; cbn [rbind].
        + apply add_year_ok in A; [|lia]. assert (E : c' * 100 + y' = Y + 1) by lia.
          apply K; rewrite E; [split; [lia|]; specialize (Wc (Y + 1)); lia| |]; lia.
        + exfalso. unfold add_year, add_century in A. destruct (Z.leb_spec 99 (Y mod 100)); [destruct (Z.leb_spec 99 (Y / 100)); [lia|]|]; discriminate.
      - assert (~ (w < bw \/ w = bw /\ wd < bwd)) by (intros X; apply Hl in X; discriminate). clear Hl.
        assert (E : Y / 100 * 100 + Y mod 100 = Y) by lia.
        cbn [rbind]. apply K; rewrite E; [split; [lia|]; specialize (Wc Y); lia| |]; lia. }
    destruct (Z.ltb_spec w bw); [|destruct (Z.eqb_spec w bw); cbn [rand rbind]]; cbn [rbind].
    + apply (K2 true). lia.
    + apply (K2 (wd <? bwd)). rewrite Z.ltb_lt. lia.
    + apply (K2 false). split; [discriminate|lia].
  - assert (HY : Y mod 100 / 10 * 10 + Y mod 10 = Y mod 100) by lia. rewrite HY.
    destruct (Z.ltb_spec wd bwd); cbn [rbind].
    + unfold add_week. replace (Y / 100 * 100 + Y mod 100) with Y by lia. destruct (Z.leb_spec (week_count Y) bw).
      * destruct (add_year _ _) as [[c' y']|] eqn:A; cbn [rbind].
        { apply add_year_ok in A; [|lia]. assert (E : c' * 100 + y' = Y + 1) by lia.
          apply K; rewrite E; [specialize (Wc (Y + 1)); lia|lia|]. destruct (Z.eq_dec Y Yk) as [eYk|]; [rewrite eYk in *|]; lia. }
        exfalso. unfold add_year, add_century in A.
        destruct (Z.leb_spec 99 (Y mod 100)); [destruct (Z.leb_spec 99 (Y / 100)); [|discriminate]|discriminate].
        assert (Y = 9999) by lia. destruct (Z.eq_dec Y Yk) as [eYk|]; [rewrite eYk in *|]; lia.
      * cbn [rbind]. assert (E : Y / 100 * 100 + Y mod 100 = Y) by lia. apply K; rewrite E; lia.
    + assert (E : Y / 100 * 100 + Y mod 100 = Y) by lia. apply K; rewrite E; lia.
Qed.

(** week precision *)
Lemma finish_week c y w r : 1 <= w ->
  (let! _ := check_date (mkd c (Some y) None (Some w) None) in Ok (mkd c (Some y) None (Some w) None)) = Ok r ->
  r = week_date (c * 100 + y) w /\ year_ok (c * 100 + y) /\ w <= week_count (c * 100 + y).
Proof.
  intros W. destruct (check_date _) as [[]|] eqn:C; cbn [rbind]; [|discriminate]. intros H; injection H as <-.
  unfold check_date in C. cbn [d_century d_year d_month d_week d_day truthy is_some] in C. destruct (_ || _) eqn:E0 in C; [discriminate|].
  destruct ((y <? 0) || (99 <? y)) eqn:E; [discriminate|]. destruct (_ && _) eqn:E1 in C; [discriminate|].
  destruct (Z.eqb_spec w 0); [lia|]. cbn [negb] in C. destruct (_ || _) eqn:E2 in C; [discriminate|].
  b2p. apply andb_false_iff in E1. rewrite !Z.eqb_neq in E1.
  unfold week_date, year_ok. replace ((c * 100 + y) / 100) with c by lia. replace ((c * 100 + y) mod 100) with y by lia.
  psplit; auto; lia.
Qed.
Lemma c25_weekonly n Y bw bwd dec yr w r : (dec <> None -> yr <> None) -> 1 <= w ->
  Z.of_nat n < max_day -> iso_week n Y bw bwd ->
  date_week (Some (cal (nth_day n))) None dec yr (Some w) None = Ok r ->
  exists Y', r = week_date Y' w /\ week_ok Y' w /\
    (given dec (Y' / 10 mod 10) /\ given yr (Y' mod 10)) /\ (Y < Y' \/ Y = Y' /\ bw <= w) /\
    forall Z, given dec (Z / 10 mod 10) /\ given yr (Z mod 10) -> (Y < Z \/ Y = Z /\ bw <= w) -> Y' <= Z.
Proof.
  intros Fo W0 L I.
  unfold date_week, new_date. args. destruct (Z.eqb_spec w 0); [lia|]. cbn [negb]. rewrite orb_true_r. cbn [orb].
  unfold set_from_week_day. cbn [is_some negb andb].
  destruct ((w <? 0) || (53 <? w)) eqn:E2; [discriminate|].
  destruct (match yr with Some x => (x <? 0) || (9 <? x) | None => false end) eqn:E3; [discriminate|].
  destruct (match dec with Some x => (x <? 0) || (9 <? x) | None => false end) eqn:E4; [discriminate|].
  destruct (get_week_spec n) as (Y0 & bw0 & bwd0 & I0 & Eb).
  destruct (iso_week_det _ _ _ _ _ _ _ I I0) as (<- & <- & <-).
  replace (complete (cal (nth_day n))) with true by (destruct (nth_day n) as [[? ?] ?]; reflexivity). cbn [negb].
  rewrite Eb. cbn [rbind]. clear Eb I0.
  destruct dec as [dec|]; [destruct yr as [yr|]; [|exfalso; apply Fo; congruence]|destruct yr as [yr|]];
    clear Fo; cbn [is_some olt oeq ror rand rbind given] in *; rewrite ?andb_false_r in *; b2p.
  - assert (K2 : forall lt : bool, (lt = true <-> dec * 10 + yr < Y mod 100 \/ dec * 10 + yr = Y mod 100 /\ w < bw) ->
      (let! d0 := (let! (c, y, w0) := (if lt then let! c := add_century (Y / 100) in Ok (c, dec * 10 + yr, Some w) else Ok (Y / 100, dec * 10 + yr, Some w)) in
        Ok (mkd c (Some y) None w0 None)) in
      let! _ := check_date d0 in Ok d0) = Ok r ->
      exists Y', r = week_date Y' w /\ week_ok Y' w /\ (Y' / 10 mod 10 = dec /\ Y' mod 10 = yr) /\ (Y < Y' \/ Y = Y' /\ bw <= w) /\
       forall Z, Z / 10 mod 10 = dec /\ Z mod 10 = yr -> (Y < Z \/ Y = Z /\ bw <= w) -> Y' <= Z).
    { intros lt Hl F. destruct lt.
      - destruct Hl as [Hl _]. specialize (Hl eq_refl). unfold add_century in F. destruct (Z.leb_spec 99 (Y / 100)); [discriminate|]. cbn [rbind] in F.
        apply finish_week in F as (-> & Yok & Wok); [|lia]. eexists; split; [reflexivity|]. split; [apply week_ok_iff; auto|].
        clear Wok. psplit; lia.
      - assert (~ (dec * 10 + yr < Y mod 100 \/ dec * 10 + yr = Y mod 100 /\ w < bw)) by (intros X; apply Hl in X; discriminate). clear Hl.
        cbn [rbind] in F. apply finish_week in F as (-> & Yok & Wok); [|lia]. eexists; split; [reflexivity|]. split; [apply week_ok_iff; auto|].
        clear Wok. psplit; lia. }
    replace (Y mod 10 + Y mod 100 / 10 * 10) with (Y mod 100) by lia.
    destruct (Z.ltb_spec (dec * 10 + yr) (Y mod 100)); [|destruct (Z.eqb_spec (dec * 10 + yr) (Y mod 100)); cbn [rand rbind]]; cbn [rbind].
    + apply (K2 true). lia.
    + destruct (Z.ltb_spec w bw); cbn [rbind].
      * apply (K2 true). lia.
      * apply (K2 false). split; [discriminate|lia].
    + apply (K2 false). split; [discriminate|lia].
  - assert (K2 : forall lt : bool, (lt = true <-> yr < Y mod 10 \/ yr = Y mod 10 /\ w < bw) ->
      (let! d0 := (let! (c, y, w0) := (if lt then Ok (Y / 100, yr + (Y mod 100 / 10 + 1) * 10, Some w) else Ok (Y / 100, yr + Y mod 100 / 10 * 10, Some w)) in
        Ok (mkd c (Some y) None w0 None)) in
      let! _ := check_date d0 in Ok d0) = Ok r ->
      exists Y', r = week_date Y' w /\ week_ok Y' w /\ (True /\ Y' mod 10 = yr) /\ (Y < Y' \/ Y = Y' /\ bw <= w) /\
       forall Z, True /\ Z mod 10 = yr -> (Y < Z \/ Y = Z /\ bw <= w) -> Y' <= Z).
    { intros lt Hl F. destruct lt.
      - destruct Hl as [Hl _]. specialize (Hl eq_refl). cbn [rbind] in F.
        assert (HY : Y / 100 * 100 + (yr + (Y mod 100 / 10 + 1) * 10) = 10 * (Y / 10) + 10 + yr) by lia.
        apply finish_week in F as (-> & Yok & Wok); [|lia]. eexists; split; [reflexivity|]. split; [apply week_ok_iff; auto|].
        clear Wok. rewrite HY. psplit; auto; lia.
      - assert (~ (yr < Y mod 10 \/ yr = Y mod 10 /\ w < bw)) by (intros X; apply Hl in X; discriminate). clear Hl.
        assert (HY : Y / 100 * 100 + (yr + Y mod 100 / 10 * 10) = 10 * (Y / 10) + yr) by lia.
        apply finish_week in F as (-> & Yok & Wok); [|lia]. eexists; split; [reflexivity|]. split; [apply week_ok_iff; auto|].
        clear Wok. rewrite HY. psplit; auto; lia. }
    destruct (Z.ltb_spec yr (Y mod 10)); [|destruct (Z.eqb_spec yr (Y mod 10)); cbn [rand rbind]]; cbn [rbind].
    + apply (K2 true). lia.
    + destruct (Z.ltb_spec w bw); cbn [rbind].
      * apply (K2 true). lia.
      * apply (K2 false). split; [discriminate|lia].
    + apply (K2 false). split; [discriminate|lia].
  - assert (HY : Y mod 100 / 10 * 10 + Y mod 10 = Y mod 100) by lia. rewrite HY.
    destruct (Z.ltb_spec w bw); cbn [rbind].
    + destruct (add_year _ _) as [[c' y']|] eqn:A; cbn [rbind]; [|discriminate]. apply add_year_ok in A; [|lia].
      assert (E : c' * 100 + y' = Y + 1) by lia. intros F.
      apply finish_week in F as (-> & Yok & Wok); [|lia]. eexists; split; [reflexivity|]. split; [apply week_ok_iff; auto|].
      clear Wok. rewrite E. psplit; auto; lia.
    + intros F. apply finish_week in F as (-> & Yok & Wok); [|lia]. eexists; split; [reflexivity|]. split; [apply week_ok_iff; auto|].
      clear Wok. psplit; auto; lia.
Qed.
