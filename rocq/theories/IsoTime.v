From Verif Require Import Py Num IsoModel IsoSpec IsoProofs IsoMain IsoWeek IsoTimeModel IsoTimeSpec.
Ltac Zify.zify_post_hook ::= Z.to_euclidean_division_equations.
#[local] Arguments leapb : simpl never.
#[local] Arguments Z.add : simpl nomatch.
#[local] Arguments nth_day : simpl never.

(** what the constructor checks *)
Definition zone_wf (zd zo : option Z) : Prop :=
  match zd with
  | None => zo = None
  | Some d => exists o, zo = Some o /\ 0 <= o <= 1439 /\ ((d = 0 /\ o = 0) \/ d = 1 \/ d = -1)
  end.
Definition hms_wf (h : Z) (m s : option Z) : Prop :=
  0 <= h <= 24 /\ (m = None -> s = None) /\
  match m with Some m => 0 <= m <= 59 | None => True end /\ match s with Some s => 0 <= s <= 60 | None => True end /\
  (h = 24 -> the m = 0 /\ the s = 0).
Definition wf (t : time) : Prop := hms_wf (t_hour t) (t_minute t) (t_second t) /\ zone_wf (t_zdirection t) (t_zoffset t).

Lemma check_hms h m s zd zo : zone_wf zd zo -> (m = None -> s = None) ->
  (hms_wf h m s /\ check_time (Some h) m s zd zo = Ok (mkt h m s zd zo)) \/
  (~ hms_wf h m s /\ check_time (Some h) m s zd zo = Err DateTimeError).
Proof.
  intros Z Nm. unfold check_time.
  assert (E : match zd with
    | None => true
    | Some zd0 => if (zd0 <? -1) || (1 <? zd0) then false else if zd0 =? 0 then true
      else match zo with None => false | Some o => negb (1440 <=? o) end end = true).
  { unfold zone_wf in Z. destruct zd as [d|]; auto. destruct Z as (o & -> & O & D).
    destruct (_ || _) eqn:E; [exfalso; apply orb_true_iff in E; destruct E; b2p; lia|].
    destruct (d =? 0); auto. destruct (Z.leb_spec 1440 o); auto. lia. }
  rewrite E. clear E. cbn [negb]. unfold hms_wf.
  destruct ((h <? 0) || (24 <? h)) eqn:E1; [right; split; auto; intros (X & _); apply orb_true_iff in E1; destruct E1; b2p; lia|].
  b2p. destruct (_ && _) eqn:E2.
  { right; split; auto. intros (X & _ & X2 & X3 & X4). apply andb_true_iff in E2 as [E2 E3]. b2p. specialize (X4 ltac:(lia)).
    apply orb_true_iff in E3 as [E3|E3]; [destruct m|destruct s]; try discriminate; b2p; cbn in *; lia. }
  assert (H24 : h = 24 -> match m with Some x => x <= 0 | None => True end /\ match s with Some x => x <= 0 | None => True end).
  { intros ->. cbn in E2. apply orb_false_iff in E2 as [A B]. split; [destruct m|destruct s]; auto; b2p; lia. }
  destruct m as [m|].
  - destruct ((m <? 0) || (59 <? m)) eqn:E3.
    { right; split; auto. intros (X & _ & X2 & _). apply orb_true_iff in E3; destruct E3; b2p; lia. }
    b2p. destruct s as [s|].
    + destruct ((s <? 0) || (61 <=? s)) eqn:E4.
      { right; split; auto. intros (X & _ & X2 & X3 & _). apply orb_true_iff in E4; destruct E4; b2p; lia. }
      left. b2p. split; auto. cbn [the]. psplit; auto; try lia; try discriminate.
    + left. split; auto. cbn [the]. psplit; auto; try lia; try discriminate.
  - left. rewrite (Nm eq_refl) in *. split; auto. cbn [the]. psplit; auto; lia.
Qed.
Lemma zone_offset_wf zd zh zm zo t h m s : zone_offset zd zh zm = Ok zo -> check_time h m s zd zo = Ok t ->
  match zh with Some x => 0 <= x | None => True end -> match zm with Some x => 0 <= x | None => True end -> zone_wf zd zo.
Proof.
  unfold zone_offset, zone_wf. destruct zd as [d|]; [|intros E; injection E as <-; auto].
  intros E C Hh Hm.
  assert (Z : (if (d <? -1) || (1 <? d) then false else if d =? 0 then true
      else match zo with None => false | Some o => negb (1440 <=? o) end) = true).
  { unfold check_time in C. destruct (if (d <? -1) || (1 <? d) then false else _); auto. discriminate C. }
  destruct (_ || _) eqn:E1 in Z; [discriminate|]. b2p. destruct (Z.eqb_spec d 0).
  - injection E as <-. exists 0. psplit; auto; lia.
  - destruct zh as [x|]; [|discriminate]. assert (D : d = 1 \/ d = -1) by lia.
    destruct zm as [y|]; injection E as <-; (eexists; split; [reflexivity|]); apply negb_true_iff in Z; b2p; split; auto; lia.
Qed.
Lemma made_wf t h m s zd zh zm : made t h m s zd zh zm -> wf t /\ t_hour t = h /\ t_minute t = m /\ t_second t = s /\ t_zdirection t = zd /\
  zone_offset zd zh zm = Ok (t_zoffset t).
Proof.
  intros (E & Nm & Hh & Hm). unfold new_time in E. cbn [is_some negb andb] in E.
  destruct (zone_offset zd zh zm) as [zo|] eqn:Z; cbn [rbind] in E; [|discriminate].
  pose proof (zone_offset_wf _ _ _ _ _ _ _ _ Z E Hh Hm) as W.
  destruct (check_hms h m s zd zo W Nm) as [[A B]|[A B]]; rewrite B in E; [|discriminate]. injection E as <-. cbn.
  unfold wf. cbn. psplit; auto.
Qed.
Lemma wf_is_time t : is_time t <-> wf t.
Proof.
  split.
  - intros (h & m & s & zd & zh & zm & M). apply made_wf in M. tauto.
  - intros (H & Z). destruct t as [h m s zd zo]. cbn in *.
    exists h, m, s, zd, (match zd with Some _ => Some (the zo / 60) | None => None end), (match zd with Some _ => Some (the zo mod 60) | None => None end).
    unfold made. pose proof H as (H1 & H2 & _). psplit; auto.
    + unfold new_time. cbn [is_some negb andb].
      assert (E : zone_offset zd match zd with Some _ => Some (the zo / 60) | None => None end
        match zd with Some _ => Some (the zo mod 60) | None => None end = Ok zo).
      { unfold zone_wf in Z. unfold zone_offset. destruct zd as [d|]; [|congruence]. destruct Z as (o & -> & O & D). cbn [the].
        destruct (Z.eqb_spec d 0); [f_equal; f_equal; lia|]. f_equal; f_equal; lia. }
      rewrite E. cbn [rbind]. destruct (check_hms h m s zd zo Z H2) as [[A B]|[A B]]; auto. contradiction.
    + unfold zone_wf in Z. destruct zd; auto. destruct Z as (o & -> & O & D). cbn. lia.
    + unfold zone_wf in Z. destruct zd; auto. destruct Z as (o & -> & O & D). cbn. lia.
Qed.
(** rebuilding with the zone of a time *)
Lemma rezone h m s t : zone_wf (t_zdirection t) (t_zoffset t) -> hms_wf h m s ->
  (let! (zd, zh, zm) := get_zone3 t in new_time (Some h) m s zd zh zm) = Ok (mkt h m s (t_zdirection t) (t_zoffset t)).
Proof.
  intros Z H. unfold get_zone3. pose proof H as (_ & N & _).
  destruct (t_zdirection t) as [d|] eqn:Ed.
  - pose proof Z as Z'. destruct Z' as (o & Eo & O & D). rewrite Eo in *. destruct (Z.eqb_spec d 0).
    + subst d. assert (o = 0) by lia. subst o. cbn [rbind]. unfold new_time. cbn [is_some negb andb]. unfold zone_offset. cbn [Z.eqb rbind].
      destruct (check_hms h m s (Some 0) (Some 0) Z N) as [[_ B]|[B _]]; auto. contradiction.
    + cbn [rbind]. unfold new_time. cbn [is_some negb andb]. unfold zone_offset. destruct (Z.eqb_spec d 0); [contradiction|]. cbn [rbind].
      replace (o / 60 * 60 + o mod 60) with o by lia.
      destruct (check_hms h m s (Some d) (Some o) Z N) as [[_ B]|[B _]]; auto. contradiction.
  - cbn [rbind]. unfold new_time. cbn [is_some negb andb zone_offset rbind].
    cbn in Z. rewrite Z in *. destruct (check_hms h m s None None eq_refl N) as [[_ B]|[B _]]; auto. contradiction.
Qed.
Lemma rezone_bind {B} h m s t (k : time -> res B) : zone_wf (t_zdirection t) (t_zoffset t) -> hms_wf h m s ->
  (let! (zd, zh, zm) := get_zone3 t in let! t' := new_time (Some h) m s zd zh zm in k t') = k (mkt h m s (t_zdirection t) (t_zoffset t)).
Proof.
  intros Z H. pose proof (rezone h m s t Z H) as E. destruct (get_zone3 t) as [[[zd zh] zm]|]; cbn [rbind] in *; [|discriminate].
  rewrite E. reflexivity.
Qed.

(** ** C26 *)
Lemma c26_offset t a b c : is_time t -> t_hour t <= 23 ->
  (c <> 0 -> t_second t <> None) -> (b <> 0 -> t_minute t <> None) ->
  exists t' days, t_offset t a b c = Ok (t', days) /\ is_time t' /\ t_hour t' <= 23 /\ same_zone t' t /\ same_precision t' t /\
    secs t' + 86400 * days = secs t + 3600 * a + 60 * b + c /\ (c <> 0 -> the (t_second t') <= 59).
Proof.
  intros T H23 Hc Hb. apply wf_is_time in T as (H & Z). destruct t as [h m s zd zo]. cbn [t_hour t_minute t_second t_zdirection t_zoffset] in *.
  unfold hms_wf in H. destruct H as (Hh & Nm & Hm & Hs & _).
  assert (W : forall t', wf t' -> is_time t') by (intros; apply wf_is_time; auto).
  unfold t_offset. cbn [t_hour t_minute t_second t_zdirection t_zoffset].
  assert (E1 : exists s1 b1, (if z_true c then match s with None => Err DateTimeError | Some s => Ok (Some ((s + c) mod 60), b + (s + c) / 60) end
     else Ok (s, b)) = Ok (s1, b1) /\ the s1 + 60 * b1 = the s + c + 60 * b /\ is_some s1 = is_some s /\
     match s1 with Some x => 0 <= x <= 60 | None => True end /\ (c <> 0 -> the s1 <= 59) /\ (b1 <> 0 -> m <> None)).
  { unfold z_true. destruct (Z.eqb_spec c 0); cbn [negb].
    - exists s, b. psplit; auto. subst c. lia. intros; contradiction.
    - destruct s as [s|]; [|exfalso; apply Hc; auto]. exists (Some ((s + c) mod 60)), (b + (s + c) / 60). cbn [the is_some].
      psplit; auto; try lia. intros _ Em. specialize (Nm Em). discriminate. }
  destruct E1 as (s1 & b1 & E1 & Q1 & I1 & R1 & C1 & M1). rewrite E1. cbn [rbind]. clear E1.
  assert (E2 : exists m1 a1, (if z_true b1 then match m with None => Err DateTimeError | Some m => Ok (Some ((m + b1) mod 60), a + (m + b1) / 60) end
     else Ok (m, a)) = Ok (m1, a1) /\ the m1 + 60 * a1 = the m + b1 + 60 * a /\ is_some m1 = is_some m /\
     match m1 with Some x => 0 <= x <= 59 | None => True end).
  { unfold z_true. destruct (Z.eqb_spec b1 0); cbn [negb].
    - exists m, a. psplit; auto. lia.
    - destruct m as [m|]; [|exfalso; apply M1; auto]. exists (Some ((m + b1) mod 60)), (a + (m + b1) / 60). cbn [the is_some]. psplit; auto; lia. }
  destruct E2 as (m1 & a1 & E2 & Q2 & I2 & R2). rewrite E2. cbn [rbind]. clear E2.
  assert (E3 : exists h1 d1, (if z_true a1 then ((h + a1) mod 24, (h + a1) / 24) else (h, 0)) = (h1, d1) /\
     h1 + 24 * d1 = h + a1 /\ 0 <= h1 <= 23).
  { unfold z_true. destruct (Z.eqb_spec a1 0); cbn [negb]; [exists h, 0|exists ((h + a1) mod 24), ((h + a1) / 24)]; psplit; auto; lia. }
  destruct E3 as (h1 & dd & E3 & Q3 & R3). rewrite E3.
  set (t := mkt h m s zd zo). assert (Wf : hms_wf h1 m1 s1).
  { unfold hms_wf. psplit; auto; try lia. destruct m1; [discriminate|]. intros _. destruct m; [discriminate|]. rewrite Nm in I1 by auto. destruct s1; [discriminate|auto]. }
  rewrite (rezone_bind h1 m1 s1 t (fun t' => Ok (t', dd))) by auto.
  eexists _, _; split; [reflexivity|]. unfold same_zone, same_precision, secs. cbn [t_hour t_minute t_second t_zdirection t_zoffset t].
  psplit; auto; try lia. apply W. split; auto.
Qed.
(** the result of a shift, as arithmetic *)
Lemma shift_eq t zd zh zm : wf t -> zoned t -> (zd <> 0 -> zh <> None) ->
  (t_minute t = None -> (zd * (the zh * 60 + the zm) - east t) mod 60 = 0) ->
  let z := zd * (the zh * 60 + the zm) - east t in
  let tot := 60 * t_hour t + the (t_minute t) + z in
  let ov := if 1440 <=? tot then 1 else if tot <? 0 then -1 else 0 in
  shift_zone t (Some zd) zh zm =
  (let! t' := new_time (Some (tot / 60 - 24 * ov)) (match t_minute t with None => None | Some _ => Some (tot mod 60) end) (t_second t) (Some zd) zh zm in
   Ok (t', ov)).
Proof.
  intros (H & Z) Zn Hz Hm z tot ov. destruct t as [h m s d o]. cbn [t_hour t_minute t_second t_zdirection t_zoffset] in *.
  unfold zoned in Zn. cbn in Zn. destruct d as [d|]; [|contradiction]. destruct Z as (o' & -> & O & D).
  unfold shift_zone. cbn [t_zoffset]. destruct (Z.eqb_spec zd 0) as [e|e]; cbn [negb andb];
  [|destruct zh as [zh|]; [|exfalso; apply Hz; auto]; cbn [is_some negb]];
  unfold get_zone_offset; cbn [t_zdirection t_zoffset rbind];
  unfold east in z, Hm; cbn [t_zdirection t_zoffset the] in z, Hm; cbn [the t_hour t_minute t_second] in *; fold z;
  (replace (negb (is_some s) && negb (is_some m) && z_true (z mod 60)) with false
     by (symmetry; destruct m; [cbn [is_some negb]; rewrite andb_false_r; reflexivity|]; unfold z_true; subst z; rewrite Hm by auto; cbn; rewrite !andb_false_r; reflexivity));
  cbn [t_hour t_minute t_second]; destruct H as (Hh & _ & Hm' & _ & _).
  1,2: destruct m as [m|]; cbn [the] in *.
  all: try (assert (Em : m + z mod 60 = tot mod 60 + 60 * (if 59 <? m + z mod 60 then 1 else 0)) by (destruct (Z.ltb_spec 59 (m + z mod 60)); subst tot; lia)).
  - destruct (Z.ltb_spec 59 (m + z mod 60)).
    + replace (m + z mod 60 - 60) with (tot mod 60) by lia. replace (h + 1 + z / 60) with (tot / 60) by (subst tot; lia).
      subst ov. destruct (Z.leb_spec 1440 tot); destruct (Z.ltb_spec 23 (tot / 60)); try lia; [reflexivity|].
      destruct (Z.ltb_spec tot 0); destruct (Z.ltb_spec (tot / 60) 0); try lia; [f_equal; f_equal; f_equal; lia|f_equal; f_equal; f_equal; lia].
    + destruct (Z.ltb_spec (m + z mod 60) 0); [lia|].
      replace (m + z mod 60) with (tot mod 60) by lia. replace (h + z / 60) with (tot / 60) by (subst tot; lia).
      subst ov. destruct (Z.leb_spec 1440 tot); destruct (Z.ltb_spec 23 (tot / 60)); try lia; [reflexivity|].
      destruct (Z.ltb_spec tot 0); destruct (Z.ltb_spec (tot / 60) 0); try lia; [f_equal; f_equal; f_equal; lia|f_equal; f_equal; f_equal; lia].
  - specialize (Hm eq_refl). fold z in Hm. replace (h + z / 60) with (tot / 60) by (subst tot; lia).
      subst ov. destruct (Z.leb_spec 1440 tot); destruct (Z.ltb_spec 23 (tot / 60)); try lia; [reflexivity|].
      destruct (Z.ltb_spec tot 0); destruct (Z.ltb_spec (tot / 60) 0); try lia; [f_equal; f_equal; f_equal; lia|f_equal; f_equal; f_equal; lia].
  - destruct (Z.ltb_spec 59 (m + z mod 60)).
    + replace (m + z mod 60 - 60) with (tot mod 60) by lia. replace (h + 1 + z / 60) with (tot / 60) by (subst tot; lia).
      subst ov. destruct (Z.leb_spec 1440 tot); destruct (Z.ltb_spec 23 (tot / 60)); try lia; [reflexivity|].
      destruct (Z.ltb_spec tot 0); destruct (Z.ltb_spec (tot / 60) 0); try lia; [f_equal; f_equal; f_equal; lia|f_equal; f_equal; f_equal; lia].
    + destruct (Z.ltb_spec (m + z mod 60) 0); [lia|].
      replace (m + z mod 60) with (tot mod 60) by lia. replace (h + z / 60) with (tot / 60) by (subst tot; lia).
      subst ov. destruct (Z.leb_spec 1440 tot); destruct (Z.ltb_spec 23 (tot / 60)); try lia; [reflexivity|].
      destruct (Z.ltb_spec tot 0); destruct (Z.ltb_spec (tot / 60) 0); try lia; [f_equal; f_equal; f_equal; lia|f_equal; f_equal; f_equal; lia].
  - specialize (Hm eq_refl). fold z in Hm. replace (h + z / 60) with (tot / 60) by (subst tot; lia).
      subst ov. destruct (Z.leb_spec 1440 tot); destruct (Z.ltb_spec 23 (tot / 60)); try lia; [reflexivity|].
      destruct (Z.ltb_spec tot 0); destruct (Z.ltb_spec (tot / 60) 0); try lia; [f_equal; f_equal; f_equal; lia|f_equal; f_equal; f_equal; lia].
Qed.
Lemma zone_of zd zh zm o : zone_offset (Some zd) zh zm = Ok o -> exists x, o = Some x /\ zd * x = zd * (the zh * 60 + the zm).
Proof.
  unfold zone_offset. destruct (Z.eqb_spec zd 0).
  - intros E; injection E as <-. exists 0. split; auto. subst. lia.
  - destruct zh as [h|]; [|discriminate]. destruct zm as [m|]; intros E; injection E as <-; eexists; split; eauto; cbn; lia.
Qed.
Lemma c26_shift t zd zh zm t' ov : is_time t -> zoned t -> nonneg zh -> nonneg zm ->
  shift_zone t (Some zd) zh zm = Ok (t', ov) ->
  is_time t' /\ t_second t' = t_second t /\ same_precision t' t /\ t_zdirection t' = Some zd /\
  east t' = zd * (the zh * 60 + the zm) /\
  60 * t_hour t' + the (t_minute t') + 1440 * ov - east t' = 60 * t_hour t + the (t_minute t) - east t.
Proof.
  intros T Zn Nh Nm H. apply wf_is_time in T.
  assert (Hz : zd <> 0 -> zh <> None).
  { intros N ->. unfold shift_zone in H. destruct (t_zoffset t); [|discriminate]. destruct (Z.eqb_spec zd 0); [contradiction|]. discriminate H. }
  assert (Hm : t_minute t = None -> (zd * (the zh * 60 + the zm) - east t) mod 60 = 0).
  { intros Em. pose proof T as ((_ & N & _) & Z). specialize (N Em). unfold zoned in Zn. unfold zone_wf in Z.
    destruct (t_zdirection t) as [d|] eqn:Ed; [|contradiction]. destruct Z as (o & Eo & _).
    unfold shift_zone in H. rewrite Eo in H. destruct (_ && _) in H; [discriminate|].
    unfold get_zone_offset in H. rewrite Ed, Eo in H. cbn [rbind] in H. rewrite Em, N in H. cbn [is_some negb andb] in H.
    unfold z_true in H. unfold east. rewrite Ed, Eo. cbn [the]. destruct (Z.eqb_spec ((zd * (the zh * 60 + the zm) - d * o) mod 60) 0); auto.
    discriminate H. }
  rewrite shift_eq in H by auto. cbv zeta in H.
  set (z := zd * (the zh * 60 + the zm) - east t) in *. set (tot := 60 * t_hour t + the (t_minute t) + z) in *.
  set (ov' := if 1440 <=? tot then 1 else if tot <? 0 then -1 else 0) in *.
  destruct (new_time _ _ _ _ _ _) as [t1|] eqn:E; cbn [rbind] in H; [|discriminate]. injection H as <- <-.
  pose proof T as ((Hh & N & Hmm & _) & _).
  assert (M : made t1 (tot / 60 - 24 * ov') (match t_minute t with None => None | Some _ => Some (tot mod 60) end) (t_second t) (Some zd) zh zm).
  { unfold made. psplit; auto. destruct (t_minute t); [discriminate|auto]. }
  apply made_wf in M as (W & E1 & E2 & E3 & E4 & E5).
  apply zone_of in E5 as (x & Ex & Eq). assert (Ee : east t1 = zd * (the zh * 60 + the zm)) by (unfold east; rewrite E4, Ex; cbn; lia).
  assert (Hov : ov' = 1 /\ 1440 <= tot \/ ov' = -1 /\ tot < 0 \/ ov' = 0 /\ 0 <= tot < 1440).
  { subst ov'. destruct (Z.leb_spec 1440 tot); auto. destruct (Z.ltb_spec tot 0); lia. }
  assert (Hq : tot / 60 * 60 + the (match t_minute t with None => None | Some _ => Some (tot mod 60) end) = tot).
  { destruct (t_minute t) as [m|]; cbn [the] in *; [lia|]. specialize (Hm eq_refl). subst tot. lia. }
  apply wf_is_time in W. rewrite E1, E2 in *.
  psplit; auto.
  - unfold same_precision. rewrite E2, E3. destruct (t_minute t); auto.
  - lia.
Qed.
Lemma c26_shift_total t zd zh zm : is_time t -> zoned t -> nonneg zh -> nonneg zm ->
  zd = 0 \/ (zd = 1 \/ zd = -1) /\ zh <> None /\ the zh * 60 + the zm <= 1439 ->
  let z := zd * (the zh * 60 + the zm) - east t in
  (t_minute t = None -> z mod 60 = 0) -> -1440 <= 60 * t_hour t + the (t_minute t) + z < 2880 ->
  exists t' ov, shift_zone t (Some zd) zh zm = Ok (t', ov).
Proof.
  intros T Zn Nh Nm Hd z Hm Hr. apply wf_is_time in T. rewrite shift_eq; auto; [|intros; destruct Hd as [|(_ & X & _)]; [contradiction|auto]].
  cbv zeta. fold z. set (tot := 60 * t_hour t + the (t_minute t) + z) in *.
  set (ov' := if 1440 <=? tot then 1 else if tot <? 0 then -1 else 0) in *.
  assert (Hov : ov' = 1 /\ 1440 <= tot \/ ov' = -1 /\ tot < 0 \/ ov' = 0 /\ 0 <= tot < 1440).
  { subst ov'. destruct (Z.leb_spec 1440 tot); auto. destruct (Z.ltb_spec tot 0); lia. }
  pose proof T as ((Hh & N & Hmm & Hs & _) & _).
  assert (E : exists zo, zone_offset (Some zd) zh zm = Ok zo /\ zone_wf (Some zd) zo).
  { unfold zone_offset. destruct Hd as [-> |(D & Hh' & L)].
    - exists (Some 0). split; auto. exists 0. psplit; auto; lia.
    - destruct (Z.eqb_spec zd 0); [lia|]. destruct zh as [a|]; [|contradiction]. destruct zm as [b|]; cbn in *; (eexists; split; [reflexivity|]; eexists; split; [reflexivity|]); lia. }
  destruct E as (zo & Ez & Wz). unfold new_time. cbn [is_some negb andb]. rewrite Ez. cbn [rbind].
  assert (N' : match t_minute t with None => None | Some _ => Some (tot mod 60) end = None -> t_second t = None) by (destruct (t_minute t); [discriminate|auto]).
  destruct (check_hms (tot / 60 - 24 * ov') (match t_minute t with None => None | Some _ => Some (tot mod 60) end) (t_second t) (Some zd) zo Wz N') as [[_ B]|[B _]].
  - rewrite B. cbn [rbind]. eauto.
  - exfalso. apply B. unfold hms_wf. psplit; auto; try lia. destruct (t_minute t); auto; lia.
Qed.
(** ** C27 *)
Lemma offset_days n ov k : Z.of_nat n < max_day -> Z.of_nat k < max_day -> Z.of_nat n + ov = Z.of_nat k ->
  offset (cal (nth_day n)) 0 0 0 0 ov = Ok (Some (cal (nth_day k))).
Proof. intros. apply c22_main; auto. lia. Qed.
Lemma zone_off t : wf t -> zoned t -> get_zone_offset t = Ok (Some (east t)).
Proof.
  intros (_ & Z) Zn. unfold zoned in Zn. unfold get_zone_offset, east. unfold zone_wf in Z.
  destruct (t_zdirection t); [|contradiction]. destruct Z as (o & -> & _). reflexivity.
Qed.
Lemma east_bound t : wf t -> -1439 <= east t <= 1439.
Proof.
  intros (_ & Z). unfold east. unfold zone_wf in Z. destruct (t_zdirection t) as [d|]; cbn [the].
  - destruct Z as (o & -> & O & D). cbn [the]. lia.
  - lia.
Qed.
Lemma new_tp n t : wf t -> Z.of_nat n < max_day -> new_timepoint (cal (nth_day n)) t = Ok (tp_at n t).
Proof.
  intros W L. unfold new_timepoint. assert (V : valid (nth_day n)) by (apply c21_valid; eauto). apply check_valid in V. rewrite V. cbn [rbind].
  destruct W as (H & Z). destruct t as [h m s zd zo]. cbn [t_hour t_minute t_second t_zdirection t_zoffset] in *. pose proof H as (_ & N & _).
  destruct (check_hms h m s zd zo Z N) as [[_ B]|[B _]]; [|contradiction]. rewrite B. cbn [rbind]. rewrite cal_precision. reflexivity.
Qed.
Lemma to_utc n t : is_time t -> zoned t -> t_minute t <> None -> Z.of_nat n < max_day -> utc_in_range n t ->
  exists k h m, tp_shift_zone (tp_at n t) (Some 0) None None = Ok (tp_at k (mkt h (Some m) (t_second t) (Some 0) (Some 0))) /\
    Z.of_nat k < max_day /\ 0 <= h <= 23 /\ 0 <= m <= 59 /\ 1440 * Z.of_nat k + 60 * h + m = utc_minutes n t.
Proof.
  intros T Zn Nm L R. pose proof T as T'. apply wf_is_time in T. pose proof (east_bound t T) as Eb.
  unfold utc_in_range, utc_minutes in R. unfold tp_shift_zone, tp_at at 1 2. cbn [tp_time tp_date].
  assert (Hh : 0 <= t_hour t <= 24 /\ 0 <= the (t_minute t) <= 59 /\ (t_hour t = 24 -> the (t_minute t) = 0)).
  { destruct T as ((H1 & _ & H2 & _ & H3) & _). destruct (t_minute t); [|contradiction]. cbn. psplit; try lia. intros G. apply H3 in G. cbn in G. tauto. }
  rewrite shift_eq by (auto; contradiction). cbv zeta.
  set (tot := 60 * t_hour t + the (t_minute t) + (0 * (the None * 60 + the None) - east t)).
  set (ov := if 1440 <=? tot then 1 else if tot <? 0 then -1 else 0).
  assert (Hov : ov = 1 /\ 1440 <= tot \/ ov = -1 /\ tot < 0 \/ ov = 0 /\ 0 <= tot < 1440).
  { subst ov. destruct (Z.leb_spec 1440 tot); auto. destruct (Z.ltb_spec tot 0); lia. }
  assert (Et : tot = 60 * t_hour t + the (t_minute t) - east t) by (subst tot; lia). clearbody ov tot.
  assert (Es : match t_minute t with None => None | Some _ => Some (tot mod 60) end = Some (tot mod 60)) by (destruct (t_minute t); [auto|contradiction]).
  rewrite Es. unfold new_time. cbn [is_some negb andb]. unfold zone_offset at 1. cbn [Z.eqb rbind].
  assert (Wz : zone_wf (Some 0) (Some 0)) by (exists 0; psplit; auto; lia).
  assert (Wh : hms_wf (tot / 60 - 24 * ov) (Some (tot mod 60)) (t_second t)).
  { destruct T as ((_ & _ & _ & H4 & H5) & _). unfold hms_wf. cbn [the]. psplit; auto; try lia; try discriminate. }
  destruct (check_hms (tot / 60 - 24 * ov) (Some (tot mod 60)) (t_second t) (Some 0) (Some 0) Wz ltac:(discriminate)) as [[_ B]|[B _]]; [|contradiction].
  rewrite B. cbn [rbind]. clear B.
  exists (Z.to_nat (Z.of_nat n + ov)), (tot / 60 - 24 * ov), (tot mod 60).
  assert (Lk : 0 <= Z.of_nat n + ov < max_day) by lia.
  split; [|psplit; try lia; unfold utc_minutes; lia].
  assert (Ed : (let! d := (if z_true ov then let! o := offset (cal (nth_day n)) 0 0 0 0 ov in
      match o with Some d => Ok d | None => Err TypeError end else Ok (cal (nth_day n))) in
      new_timepoint d (mkt (tot / 60 - 24 * ov) (Some (tot mod 60)) (t_second t) (Some 0) (Some 0))) =
      new_timepoint (cal (nth_day (Z.to_nat (Z.of_nat n + ov)))) (mkt (tot / 60 - 24 * ov) (Some (tot mod 60)) (t_second t) (Some 0) (Some 0))).
  { unfold z_true. destruct (Z.eqb_spec ov 0).
    - cbn [negb rbind]. replace (Z.to_nat (Z.of_nat n + ov)) with n by lia. reflexivity.
    - cbn [negb]. rewrite (offset_days n ov (Z.to_nat (Z.of_nat n + ov))) by lia. reflexivity. }
  change (tp_date (tp_at n t)) with (cal (nth_day n)). rewrite Ed. apply new_tp; [split; auto|lia].
Qed.
Lemma key_eq_app a b x y : length a = length b -> key_eq (a ++ x) (b ++ y) = key_eq a b && key_eq x y.
Proof. revert b. induction a as [|p a IH]; intros [|q b] L; try discriminate; [reflexivity|]. injection L as L. cbn [app key_eq]. rewrite IH by auto. rewrite andb_assoc. reflexivity. Qed.
Lemma key_lt_app a b x y : length a = length b -> key_lt (a ++ x) (b ++ y) = if key_eq a b then key_lt x y else key_lt a b.
Proof.
  revert b. induction a as [|p a IH]; intros [|q b] L; try discriminate; [reflexivity|]. injection L as L. cbn [app key_eq key_lt]. rewrite IH by auto.
  destruct (oeq p q); reflexivity.
Qed.
Definition canon_key (k : nat) (h m : Z) (s : option Z) : key := sortkey (cal (nth_day k)) ++ [Some h; Some m; s; Some 0].
Lemma tp_canon n t : is_time t -> zoned t -> t_minute t <> None -> t_hour t <= 23 \/ east t <> 0 -> Z.of_nat n < max_day -> utc_in_range n t ->
  exists k h m, tp_sortkey (tp_at n t) = Ok (canon_key k h m (t_second t)) /\
    Z.of_nat k < max_day /\ 0 <= h <= 23 /\ 0 <= m <= 59 /\ 1440 * Z.of_nat k + 60 * h + m = utc_minutes n t.
Proof.
  intros T Zn Nm Hh L R. unfold tp_sortkey. cbn [tp_at tp_time]. rewrite zone_off by (auto; apply wf_is_time; auto). cbn [rbind truthy].
  destruct (Z.eqb_spec (east t) 0); cbn [negb].
  - unfold tp_key. cbn [tp_at tp_time tp_date]. unfold t_sortkey. rewrite zone_off by (auto; apply wf_is_time; auto). cbn [rbind].
    exists n, (t_hour t), (the (t_minute t)). apply wf_is_time in T as ((H1 & _ & H2 & _) & _). unfold utc_minutes, canon_key.
    destruct (t_minute t); [|contradiction]. cbn [the] in *. rewrite e. psplit; auto; lia.
  - destruct (to_utc n t T Zn Nm L R) as (k & h & m & E & P). rewrite E. cbn [rbind]. exists k, h, m. split; auto.
Qed.
Lemma canon_cmp k h m s k' h' m' s' : is_some s = is_some s' -> 0 <= h <= 23 -> 0 <= m <= 59 -> 0 <= h' <= 23 -> 0 <= m' <= 59 ->
  let i := 1440 * Z.of_nat k + 60 * h + m in let i' := 1440 * Z.of_nat k' + 60 * h' + m' in
  key_eq (canon_key k h m s) (canon_key k' h' m' s') = (i =? i') && (the s =? the s') /\
  key_lt (canon_key k h m s) (canon_key k' h' m' s') = Ok ((i <? i') || ((i =? i') && (the s <? the s'))).
Proof.
  intros Is H1 H2 H3 H4 i i'. unfold canon_key. rewrite key_eq_app, key_lt_app by reflexivity.
  pose proof (c21_order k k') as (Lt & Eq). unfold date_lt, date_eq in *. rewrite !cal_precision in *. cbn [prec_eqb] in *.
  assert (S : forall A (x y : A), Some x = Some y -> x = y) by (intros A x y G; congruence). apply S in Lt. apply S in Eq. rewrite Eq, Lt. clear Eq Lt.
  assert (Es : oeq s s' = (the s =? the s')) by (destruct s, s'; try discriminate; reflexivity).
  destruct (Nat.eqb_spec k k').
  - subst k'. cbn [andb]. cbn [key_eq key_lt oeq olt Z.eqb]. rewrite Es, andb_true_r.
    destruct (Z.eqb_spec h h'); cbn [andb].
    + subst. destruct (Z.eqb_spec m m'); cbn [andb].
      * subst. replace (i =? i') with true by (symmetry; apply Z.eqb_eq; subst i i'; lia).
        replace (i <? i') with false by (symmetry; apply Z.ltb_ge; subst i i'; lia). cbn [andb orb]. rewrite ?andb_true_r. split; auto.
        destruct s, s'; try discriminate; cbn [the olt]; [|reflexivity].
        destruct (Z.eqb_spec z z0); [|reflexivity]. subst. rewrite Z.ltb_irrefl. reflexivity.
      * replace (i =? i') with false by (symmetry; apply Z.eqb_neq; subst i i'; lia). cbn [andb]. rewrite orb_false_r. split; auto.
        f_equal. subst i i'. destruct (Z.ltb_spec m m'), (Z.ltb_spec (1440 * Z.of_nat k + 60 * h' + m) (1440 * Z.of_nat k + 60 * h' + m')); lia.
    + replace (i =? i') with false by (symmetry; apply Z.eqb_neq; subst i i'; lia). cbn [andb]. rewrite orb_false_r. split; auto.
      f_equal. subst i i'. destruct (Z.ltb_spec h h'), (Z.ltb_spec (1440 * Z.of_nat k + 60 * h + m) (1440 * Z.of_nat k + 60 * h' + m')); lia.
  - cbn [andb]. replace (i =? i') with false by (symmetry; apply Z.eqb_neq; subst i i'; lia). cbn [andb]. rewrite orb_false_r. split; auto.
    f_equal. subst i i'. destruct (Nat.ltb_spec k k'), (Z.ltb_spec (1440 * Z.of_nat k + 60 * h + m) (1440 * Z.of_nat k' + 60 * h' + m')); lia.
Qed.
Lemma c27_main n t k u : comparable n t -> comparable k u -> same_precision t u ->
  tp_eq (tp_at n t) (tp_at k u) = Ok (Some (inst_eq n t k u)) /\
  tp_lt (tp_at n t) (tp_at k u) = Ok (Some (Ok (inst_lt n t k u))).
Proof.
  intros (T1 & Z1 & M1 & H1 & L1 & R1) (T2 & Z2 & M2 & H2 & L2 & R2) [P1 P2].
  destruct (tp_canon n t T1 Z1 M1 H1 L1 R1) as (a & h & m & E & _ & B1 & B2 & B3).
  destruct (tp_canon k u T2 Z2 M2 H2 L2 R2) as (b & h' & m' & E' & _ & B1' & B2' & B3').
  destruct (canon_cmp a h m (t_second t) b h' m' (t_second u) P2 B1 B2 B1' B2') as [Ce Cl].
  assert (Pr : prec_eqb (t_precision t) (t_precision u) = true).
  { unfold t_precision. destruct (t_second t), (t_second u); try discriminate; auto. destruct (t_minute t), (t_minute u); try discriminate; auto. }
  unfold tp_eq, tp_lt, tp_cmp. rewrite E, E'. cbn [rbind tp_at tp_time]. rewrite Pr.
  rewrite !zone_off by (auto; apply wf_is_time; auto). cbn [rbind is_some xorb]. rewrite Ce, Cl. unfold inst_eq, inst_lt. rewrite B3, B3'. auto.
Qed.
(** Unix time *)
Lemma c27_unix n t : comparable n t -> t_second t <> None ->
  get_unixtime (tp_at n t) = Ok (60 * (utc_minutes n t - 1440 * unix_day) + Z.min 59 (the (t_second t))).
Proof.
  intros (T & Zn & M & H & L & R) S. unfold get_unixtime. cbn [tp_at tp_time tp_date].
  replace (complete (cal (nth_day n))) with true by (destruct (nth_day n) as [[? ?] ?]; reflexivity).
  replace (t_complete t) with true by (unfold t_complete; destruct (t_minute t), (t_second t); try contradiction; reflexivity). cbn [andb negb].
  rewrite zone_off by (auto; apply wf_is_time; auto). cbn [rbind].
  assert (K : exists k h m, (if east t =? 0 then Ok (tp_at n t) else tp_shift_zone (tp_at n t) (Some 0) None None) = Ok (tp_at k (mkt h (Some m) (t_second t) (if east t =? 0 then t_zdirection t else Some 0) (if east t =? 0 then t_zoffset t else Some 0))) /\
    1440 * Z.of_nat k + 60 * h + m = utc_minutes n t).
  { destruct (Z.eqb_spec (east t) 0).
    - exists n, (t_hour t), (the (t_minute t)). unfold utc_minutes. split; [|lia]. destruct t as [? [?|] ? ? ?]; [reflexivity|contradiction].
    - destruct (to_utc n t T Zn M L R) as (k & h & m & E & _ & _ & _ & Eq). exists k, h, m. auto. }
  destruct K as (k & h & m & E & Eq).
  change (mktp (cal (nth_day n)) t) with (tp_at n t). rewrite E. cbn [rbind tp_at tp_time tp_date].
  destruct (nth_day_ok k) as [Vk Dk]. rewrite get_absolute_cal by auto. cbn [rbind].
  change (get_absolute_day (tp_date EPOCH)) with (Ok 719163 : res Z). cbn [rbind].
  unfold get_total_seconds. cbn [t_minute t_second t_hour EPOCH tp_time rbind]. destruct (t_second t) as [s|] eqn:Es; [|contradiction].
  assert (Bs : 0 <= s <= 60) by (apply wf_is_time in T as ((_ & _ & _ & X & _) & _); rewrite Es in X; auto).
  cbn [rbind the]. f_equal. rewrite Dk, <- Eq. unfold unix_day. change (0 =? 60) with false. destruct (Z.eqb_spec s 60); cbv iota; lia.
Qed.
Lemma epoch_day : exists n, nth_day n = (1970, 1, 1) /\ Z.of_nat n = unix_day.
Proof.
  exists (Z.to_nat unix_day). assert (E : Z.of_nat (Z.to_nat unix_day) = unix_day) by (apply Z2Nat.id; discriminate). split; [|exact E].
  symmetry. apply nth_day_unique; [cbn; unfold month_len; cbn; lia|]. rewrite E. reflexivity.
Qed.
Lemma c27_from_unix x : 0 <= x + 86400 * unix_day < 86400 * max_day ->
  exists n t, from_unix_time x = Ok (tp_at n t) /\ comparable n t /\ t_second t <> None /\ the (t_second t) <= 59 /\ t_hour t <= 23 /\ t_zdirection t = Some 0 /\
    get_unixtime (tp_at n t) = Ok x.
Proof.
  intros R. unfold from_unix_time. unfold time_from_struct_time. change (new_time (Some 0) (Some 0) (Some 0) None None None) with (Ok (mkt 0 (Some 0) (Some 0) None None)). cbn [rbind].
  set (t0 := mkt 0 (Some 0) (Some 0) None None).
  assert (T0 : is_time t0) by (apply wf_is_time; unfold wf, hms_wf; cbn; psplit; auto; try lia; try discriminate).
  destruct (c26_offset t0 0 0 x T0) as (t & ov & E & T & H & [Z1 Z2] & [P1 P2] & Eq & Sx); [cbn; lia|discriminate|discriminate|].
  rewrite E. cbn [rbind]. unfold date_from_struct_time.
  change (date_calendar None (Some (1970 / 100)) (Some (1970 mod 100)) (Some 1) (Some 1)) with (Ok (mkd 19 (Some 70) (Some 1) None (Some 1))). cbn [rbind].
  apply wf_is_time in T as ((W1 & W2 & W3 & W4 & W5) & Wz).
  cbn [t0 t_minute t_second t_hour t_zdirection t_zoffset is_some secs the] in *. destruct t as [h [m|] [s|] zd zo]; try discriminate.
  cbn [t_minute t_second t_hour t_zdirection t_zoffset secs the] in *. subst zd zo.
  assert (Es : s <= 59) by (destruct (Z.eq_dec x 0) as [X0|]; [|auto]; subst x; vm_compute in E; injection E as _ _ Q _; lia).
  assert (E0 : 3600 * t_hour t0 + 60 * the (t_minute t0) + the (t_second t0) = 0) by reflexivity.
  unfold secs in Eq. cbn [t_minute t_second t_hour the] in Eq. rewrite E0 in Eq. clear E0.
  set (n := Z.to_nat (unix_day + ov)). assert (Ln : Z.of_nat n = unix_day + ov /\ Z.of_nat n < max_day) by (subst n; unfold unix_day, max_day in *; lia). clearbody n.
  destruct Ln as [En Ln].
  destruct epoch_day as (n0 & U & N0).
  assert (Ed : mkd 19 (Some 70) (Some 1) None (Some 1) = cal (nth_day n0)) by (rewrite U; reflexivity).
  rewrite Ed. rewrite (offset_days n0 ov n) by (unfold unix_day, max_day in *; lia). cbn [rbind].
  unfold with_zone. cbn [t_minute t_second t_hour]. unfold new_time. cbn [is_some negb andb]. unfold zone_offset. cbn [Z.eqb rbind].
  assert (Wz' : zone_wf (Some 0) (Some 0)) by (exists 0; psplit; auto; lia).
  assert (Wh : hms_wf h (Some m) (Some s)) by (unfold hms_wf; cbn [the]; psplit; auto; try lia; try discriminate).
  destruct (check_hms h (Some m) (Some s) (Some 0) (Some 0) Wz' ltac:(discriminate)) as [[_ B]|[B _]]; [|contradiction]. rewrite B. cbn [rbind].
  set (u := mkt h (Some m) (Some s) (Some 0) (Some 0)). assert (Wu : wf u) by (split; auto). rewrite new_tp by auto.
  assert (C : comparable n u).
  { unfold comparable. split; [apply wf_is_time; auto|]. split; [discriminate|]. split; [discriminate|]. split; [left; cbn; lia|]. split; [lia|].
    unfold utc_in_range, utc_minutes, east. cbn [u t_hour t_minute t_zdirection t_zoffset the]. unfold max_day in *. lia. }
  exists n, u. split; [reflexivity|]. split; [exact C|]. split; [discriminate|]. split; [exact Es|]. split; [exact H|]. split; [reflexivity|].
  rewrite c27_unix by (auto; discriminate). f_equal.
  unfold utc_minutes, east, unix_day in *. cbn [u t_hour t_minute t_second t_zdirection t_zoffset the]. lia.
Qed.
Lemma c27_unix_inverse n t : comparable n t -> t_second t <> None -> the (t_second t) <= 59 ->
  exists x q, get_unixtime (tp_at n t) = Ok x /\ from_unix_time x = Ok q /\ tp_eq (tp_at n t) q = Ok (Some true).
Proof.
  intros C S L. pose proof (c27_unix n t C S) as E. eexists. 
  set (x := 60 * (utc_minutes n t - 1440 * unix_day) + Z.min 59 (the (t_second t))) in *.
  pose proof C as (T & _ & _ & _ & Ln & R). unfold utc_in_range in R.
  assert (Bs : 0 <= the (t_second t) <= 59).
  { apply wf_is_time in T as ((_ & _ & _ & X & _) & _). destruct (t_second t); [cbn in *; lia|contradiction]. }
  destruct (c27_from_unix x) as (k & u & F & Cu & Su & Su' & Hu & Zu & G); [subst x; lia|].
  exists (tp_at k u). split; [exact E|]. split; auto.
  destruct (c27_main n t k u C Cu) as [Q _].
  { split; [destruct C as (_ & _ & M & _); destruct Cu as (_ & _ & M' & _); destruct (t_minute t), (t_minute u); try contradiction; auto|].
    destruct (t_second t), (t_second u); try contradiction; auto. }
  rewrite Q. f_equal. f_equal. unfold inst_eq. rewrite c27_unix in G by auto. assert (S' : forall A (p q : A), Ok p = Ok q -> p = q) by (intros A p q G'; congruence). apply S' in G. subst x.
  pose proof Cu as (Tu & _). apply wf_is_time in Tu as ((_ & _ & _ & X & _) & _).
  destruct (t_second u) as [su|] eqn:Esu; [|contradiction]. cbn [the] in *.
  set (a := utc_minutes n t) in *. set (b := utc_minutes k u) in *. set (c := the (t_second t)) in *. clearbody a b c.
  clear - G X Su' Bs. destruct (Z.eqb_spec a b); [destruct (Z.eqb_spec c su); [reflexivity|lia]|lia].
Qed.
