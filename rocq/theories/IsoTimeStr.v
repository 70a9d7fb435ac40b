(** C44: texts of times and time points. *)
From Verif Require Import Py Num IsoModel IsoSpec IsoProofs IsoMain IsoWeek IsoTimeModel IsoParseModel IsoStr IsoTimeSpec IsoTime.
Ltac Zify.zify_post_hook ::= Z.to_euclidean_division_equations.
#[local] Arguments leapb : simpl never.
#[local] Arguments Z.add : simpl nomatch.
#[local] Arguments nth_day : simpl never.

Lemma t_fmt t basic short : is_time t -> t_get_string t basic NoTruncation (zp short) = Ok (time_text basic short t).
Proof.
  intros T. apply wf_is_time in T as ((H1 & N & H2 & H3 & H4) & Z).
  assert (Ez : get_zone_string t basic (zp short) = Ok (zone_text basic short t)).
  { unfold get_zone_string, zone_text. unfold zone_wf in Z. destruct (t_zdirection t) as [zd|]; [|reflexivity].
    destruct Z as (o & -> & O & _). destruct (Z.eqb_spec zd 0); [reflexivity|].
    replace (prec_eqb (zp short) PComplete || (0 <? o mod 60)) with (negb (short && (o mod 60 =? 0))).
    2:{ destruct short; cbn [zp prec_eqb orb andb negb]; auto. destruct (Z.eqb_spec (o mod 60) 0), (Z.ltb_spec 0 (o mod 60)); auto; lia. }
    cbn [f2]. rewrite !pad2 by lia. unfold co, sep, txt, cat. cbn [rbind].
    destruct (short && (o mod 60 =? 0)), basic, (0 <? zd); cbn [negb rbind app]; rewrite ?app_nil_r, <- ?app_assoc; reflexivity. }
  unfold t_get_string, time_text. rewrite Ez. cbn [f2]. rewrite pad2 by lia.
  destruct (t_second t) as [s|].
  - destruct (t_minute t) as [m|]; [|discriminate (N eq_refl)]. cbn [f2]. rewrite !pad2 by lia. unfold co, sep, txt, cat. cbn [rbind].
    destruct basic; cbn [rbind app]; rewrite ?app_nil_r, <- ?app_assoc; reflexivity.
  - destruct (t_minute t) as [m|]; cbn [f2]; rewrite ?pad2 by lia; unfold co, sep, txt, cat; cbn [rbind]; [|reflexivity].
    destruct basic; cbn [rbind app]; rewrite ?app_nil_r, <- ?app_assoc; reflexivity.
Qed.

(** ** parsing back *)
Definition tstops (r : str) : Prop :=
  at_digit r = false /\ at_ch 46 r = false /\ at_ch 44 r = false /\ at_ch colon r = false /\ at_zone r = false.
Lemma if_point_no {A} (a b : P A) r : at_ch 46 r = false -> at_ch 44 r = false -> if_point a b r = b r.
Proof. intros E F. unfold if_point. rewrite E, F. reflexivity. Qed.
(** the text after hours, minutes and seconds *)
Definition hstops (r : str) : Prop := at_digit r = false /\ at_ch 46 r = false /\ at_ch 44 r = false /\ at_ch colon r = false.
Definition hms_text (basic : bool) (h : Z) (m s : option Z) : str :=
  d2 h ++ match m with None => [] | Some m => co basic ++ d2 m ++ match s with None => [] | Some s => co basic ++ d2 s end end.
Definition hms_format (basic : bool) (m s : option Z) : str :=
  lit "hh" ++ match m with None => [] | Some m => co basic ++ lit "mm" ++ match s with None => [] | Some s => co basic ++ lit "ss" end end.
Definition zone_format (basic short : bool) (t : time) : str :=
  match t_zdirection t, t_zoffset t with
  | Some zd, Some o => if zd =? 0 then lit "Z" else lit "+hh" ++ (if short && (o mod 60 =? 0) then [] else co basic ++ lit "mm")
  | _, _ => []
  end.
Lemma hms_parse basic h m s r : hms_wf h m s -> hstops r ->
  parse_hms (hms_text basic h m s ++ r) = POk (h, m, s, hms_format basic m s) r.
Proof.
  intros (H1 & N & H2 & H3 & H4) (S1 & S2 & S3 & S4). unfold parse_hms, hms_text, hms_format. rewrite <- !app_assoc.
  destruct m as [m|].
  - destruct s as [s|]; destruct basic; cbn [co app]; change (lit ":") with [colon]; rewrite <- ?app_assoc; cbn [app]; rewrite <- ?app_assoc; cbn [app]; repeat st;
    rewrite ?if_point_no by (auto; reflexivity); repeat st; rewrite ?if_point_no by (auto; reflexivity); repeat st; rewrite ?if_point_no by (auto; reflexivity); reflexivity.
  - rewrite (N eq_refl) in *. cbn [app]. repeat st. rewrite ?if_point_no by (auto; reflexivity). repeat st. reflexivity.
Qed.
Lemma time_text_hms basic short t : time_text basic short t = hms_text basic (t_hour t) (t_minute t) (t_second t) ++ zone_text basic short t.
Proof. unfold time_text, hms_text. rewrite <- app_assoc. reflexivity. Qed.
Lemma zone_parse basic short zd o t r : t_zdirection t = Some zd -> t_zoffset t = Some o -> zone_wf (Some zd) (Some o) -> hstops r ->
  exists zm, parse_time_zone_format (zone_text basic short t ++ r) = POk (zd, o / 60, zm, zone_format basic short t) r /\
    zone_offset (Some zd) (Some (o / 60)) zm = Ok (Some o).
Proof.
  intros Ed Eo (o' & X & O & D) (S1 & S2 & S3 & S4). injection X as <-. unfold zone_text, zone_format. rewrite Ed, Eo.
  unfold parse_time_zone_format. destruct (Z.eqb_spec zd 0).
  - subst. assert (o = 0) by lia. subst o. exists (Some 0). repeat split; auto.
  - assert (D' : zd = 1 \/ zd = -1) by lia. rewrite <- !app_assoc.
    assert (Ex : exists c, (if 0 <? zd then lit "+" else lit "-") = [c] /\ c <> 90 /\ at_ch 43 (c :: r) || at_ch 45 (c :: r) = true /\ (if at_ch 43 (c :: r) then 1 else -1) = zd).
    { destruct D' as [-> | ->]; [exists 43|exists 45]; cbn; repeat split; auto; lia. }
    destruct Ex as (c & -> & Nc & E1 & E2). cbn [app]. rewrite if_ch_no by (cbn; apply Z.eqb_neq; auto).
    cbv beta. cbn [at_ch] in *. rewrite E1, E2. st. st.
    unfold zone_offset. destruct (Z.eqb_spec zd 0) as [|_]; [contradiction|].
    destruct (short && (o mod 60 =? 0)) eqn:Sh.
    + apply andb_true_iff in Sh as [_ Sh]. b2p. exists None. cbn [app]. repeat st. repeat split; auto. f_equal. f_equal. lia.
    + exists (Some (o mod 60)). rewrite <- ?app_assoc. destruct basic; cbn [co app]; change (lit ":") with [colon]; cbn [app]; repeat st;
      (repeat split; auto; f_equal; f_equal; lia).
Qed.
Lemma zone_wf_new t h m s zh zm : wf (mkt h m s (t_zdirection t) (t_zoffset t)) -> zone_offset (t_zdirection t) zh zm = Ok (t_zoffset t) ->
  new_time (Some h) m s (t_zdirection t) zh zm = Ok (mkt h m s (t_zdirection t) (t_zoffset t)).
Proof.
  intros (H & Z) E. cbn [t_hour t_minute t_second t_zdirection t_zoffset] in *. unfold new_time. cbn [is_some negb andb]. rewrite E. cbn [rbind].
  destruct (check_hms h m s _ _ Z ltac:(destruct H as (_ & N & _); auto)) as [[_ B]|[B _]]; [exact B|contradiction].
Qed.
Definition time_format (basic short : bool) (t : time) : str := hms_format basic (t_minute t) (t_second t) ++ zone_format basic short t.
Lemma format_in basic short t : wf t -> fin (time_format basic short t) (if basic then basic_time_formats else extended_time_formats) = true.
Proof.
  intros ((_ & N & _) & Z). unfold time_format, hms_format, zone_format. unfold zone_wf in Z.
  destruct (t_minute t) as [m|]; destruct (t_zdirection t) as [zd|].
  all: try (destruct Z as (o & -> & _)); try destruct (t_second t).
  all: try destruct (zd =? 0); try destruct (short && _); destruct basic; reflexivity.
Qed.
Lemma zone_text_zone basic short t r : wf t -> zoned t -> at_zone (zone_text basic short t ++ r) = true /\ hstops (zone_text basic short t ++ r).
Proof.
  intros (_ & Z) Zn. unfold zoned in Zn. unfold zone_text. unfold zone_wf in Z. destruct (t_zdirection t) as [zd|]; [|contradiction].
  destruct Z as (o & -> & O & D). destruct (zd =? 0); [split; [reflexivity|repeat split]|]. rewrite <- !app_assoc. destruct (0 <? zd); (split; [reflexivity|repeat split]).
Qed.
Lemma wf_eta t : wf t -> wf (mkt (t_hour t) (t_minute t) (t_second t) (t_zdirection t) (t_zoffset t)). Proof. destruct t; auto. Qed.
Lemma d2_cons n r : d2 n ++ r = 48 + n / 10 :: 48 + n mod 10 :: r. Proof. reflexivity. Qed.
Lemma time_parse pre basic short t r : is_time t -> tstops r -> pre = [] \/ pre = lit "T" ->
  parse_time_format None (pre ++ time_text basic short t ++ r) = POk (t, 0, time_format basic short t) r.
Proof.
  intros T (S1 & S2 & S3 & S4 & S5) Hp. assert (Sr : hstops r) by (unfold hstops; auto). apply wf_is_time in T. pose proof T as (H & Z). pose proof (format_in basic short t T) as F.
  assert (F' : fin (time_format basic short t) basic_time_formats || fin (time_format basic short t) extended_time_formats = true)
    by (destruct basic; rewrite F; auto using orb_true_r).
  rewrite time_text_hms. rewrite <- app_assoc.
  assert (B : exists d q, hms_text basic (t_hour t) (t_minute t) (t_second t) ++ zone_text basic short t ++ r = 48 + d :: q /\ 0 <= d <= 9).
  { unfold hms_text. rewrite <- app_assoc. rewrite d2_cons. eexists _, _. split; [reflexivity|]. destruct H. lia. }
  destruct B as (d & q & B & Hd).
  assert (G : forall base, if_digit (get v <- parse_hms;
        let '(h, m, sec, tformat) := v in
        fun s =>
          if at_zone s then
            (get z <- parse_time_zone_format;
             let '(zd, zh, zm, zf) := z in
             let tformat := tformat ++ zf in
             if fin tformat basic_time_formats || fin tformat extended_time_formats then
               get t <- lift (new_time (Some h) m sec (Some zd) (Some zh) zm); pret (t, 0, tformat)
             else pfail DateTimeError) s
          else (get t <- lift (new_time (Some h) m sec None None None); pret (t, 0, tformat)) s) base
     (hms_text basic (t_hour t) (t_minute t) (t_second t) ++ zone_text basic short t ++ r) = POk (t, 0, time_format basic short t) r).
  { intros base. rewrite B. rewrite if_digit_d by auto. rewrite <- B. clear B q.
    destruct (t_zdirection t) as [zd|] eqn:Ed.
    - destruct (zone_text_zone basic short t r T ltac:(unfold zoned; congruence)) as [Z1 Z2].
      rewrite (pbind_ok _ _ _ _ _ (hms_parse basic _ _ _ _ H Z2)). cbv beta iota. rewrite Z1.
      unfold zone_wf in Z. destruct Z as (o & Eo & O). 
      destruct (zone_parse basic short zd o t r Ed Eo ltac:(exists o; auto) Sr) as (zm & Ep & Ez).
      rewrite (pbind_ok _ _ _ _ _ Ep). cbv beta iota zeta. fold (time_format basic short t). rewrite F'.
      pose proof (zone_wf_new t (t_hour t) (t_minute t) (t_second t) (Some (o / 60)) zm (wf_eta t T)) as G. rewrite Ed, Eo in G. rewrite (G Ez).
      destruct t as [th tm ts td tz]; cbn [t_hour t_minute t_second t_zdirection t_zoffset] in *; subst. reflexivity.
    - assert (Ez : zone_text basic short t = []) by (unfold zone_text; rewrite Ed; auto). rewrite Ez. cbn [app].
      rewrite (pbind_ok _ _ _ _ _ (hms_parse basic _ _ _ _ H Sr)). cbv beta iota. rewrite S5.
      pose proof (zone_wf_new t (t_hour t) (t_minute t) (t_second t) None None (wf_eta t T)) as G. rewrite Ed in G. cbn [zone_wf] in Z. rewrite Z in G. rewrite (G eq_refl).
      unfold time_format, zone_format. rewrite Ed, app_nil_r. 
      destruct t as [th tm ts td tz]; cbn [t_hour t_minute t_second t_zdirection t_zoffset] in *; subst. reflexivity. }
  destruct Hp as [-> | ->]; unfold parse_time_format.
  - cbn [app]. rewrite B. replace (at_ch 84 (48 + d :: q)) with false by (symmetry; cbn; apply Z.eqb_neq; lia). rewrite <- B.
    rewrite (pbind_ok (pret tt) _ _ tt _ eq_refl). apply G.
  - change (lit "T" ++ ?x) with (84 :: x). cbn [at_ch]. rewrite Z.eqb_refl.
    rewrite (pbind_ok next _ _ tt _ eq_refl). apply G.
Qed.
Lemma c44_time basic short t : is_time t -> t_get_string t basic NoTruncation (zp short) = Ok (time_text basic short t) /\
  time_from_str (time_text basic short t) None = Ok t.
Proof.
  intros T. split; [apply t_fmt; auto|]. unfold time_from_str, to_res. rewrite <- (app_nil_r (time_text _ _ _)).
  rewrite (pbind_ok _ _ _ _ _ (time_parse [] basic short t [] T ltac:(repeat split) ltac:(auto))). reflexivity.
Qed.

(** ** Soundness of the time parser *)
Lemma if_point_inv {A} (b : P A) s x r : if_point fraction b s = POk x r -> b s = POk x r.
Proof. unfold if_point. destruct (_ || _); [discriminate|auto]. Qed.
Ltac inv2 := first [inv1 | match goal with
  | H : if_point fraction _ _ = POk _ _ |- _ => apply if_point_inv in H
  | H : pret _ _ = POk _ _ |- _ => unfold pret in H; injection H as ? ?; subst
  | H : pfail _ _ = POk _ _ |- _ => discriminate H
  end].
Lemma parse_hms_inv q h m s f r : parse_hms q = POk (h, m, s, f) r ->
  (m = None -> s = None) /\ 0 <= h <= 99 /\ match m with Some x => 0 <= x <= 99 | None => True end /\ match s with Some x => 0 <= x <= 99 | None => True end /\
  exists basic, q = hms_text basic h m s ++ r /\ f = hms_format basic m s.
Proof.
  unfold parse_hms. intros H. repeat inv2.
  all: split; [first [discriminate | auto]|]; split; [lia|]; split; [first [lia|exact I]|]; split; [first [lia | exact I]|].
  all: first [exists true; unfold hms_text; cbn [co]; rewrite <- !app_assoc; split; [reflexivity|reflexivity]
    | exists false; unfold hms_text; cbn [co]; rewrite <- !app_assoc; split; [reflexivity|reflexivity]].
Qed.
Definition zsign (zd : Z) : str := if 0 <? zd then lit "+" else lit "-".
Lemma zone_inv q zd zh zm f r : parse_time_zone_format q = POk (zd, zh, zm, f) r ->
  (q = lit "Z" ++ r /\ zd = 0 /\ zh = 0 /\ zm = Some 0 /\ f = lit "Z") \/
  ((zd = 1 \/ zd = -1) /\ 0 <= zh <= 99 /\
   ((zm = None /\ q = zsign zd ++ d2 zh ++ r /\ f = lit "+hh") \/
    exists basic m, zm = Some m /\ 0 <= m <= 99 /\ q = zsign zd ++ d2 zh ++ co basic ++ d2 m ++ r /\ f = lit "+hh" ++ co basic ++ lit "mm")).
Proof.
  unfold parse_time_zone_format. intros H. inv2.
  - repeat inv2. left. auto.
  - right. destruct q as [|c q]; [discriminate H|].
    destruct (at_ch 43 (c :: q) || at_ch 45 (c :: q)) eqn:E; [|discriminate H]. cbv zeta in H. inv2.
    assert (Hc : c :: q = zsign (if at_ch 43 (c :: q) then 1 else -1) ++ q).
    { cbn in E |- *. destruct (Z.eqb_spec c 43); [subst; reflexivity|]. cbn in E. b2p. subst. reflexivity. }
    set (v := if at_ch 43 (c :: q) then 1 else -1) in *. assert (Dv : v = 1 \/ v = -1) by (subst v; destruct (at_ch 43 (c :: q)); auto).
    rewrite Hc. clearbody v. clear Hc E. repeat inv2.
    + split; auto. split; [lia|]. right. exists true, a1. rewrite ?app_nil_r. psplit; auto; lia.
    + split; auto. split; [lia|]. right. exists false. eexists. split; [reflexivity|]. split; [lia|]. split; reflexivity.
    + split; auto.
Qed.
Lemma hms_nobasic basic basic' h m s : m = None -> hms_text basic h m s = hms_text basic' h m s.
Proof. intros ->. reflexivity. Qed.
Lemma local_hms basic t : local_text basic t = hms_text basic (t_hour t) (t_minute t) (t_second t).
Proof. unfold local_text. rewrite time_text_hms. exact (app_nil_r _). Qed.
Lemma zsign_odd zd : zsign zd = lit "+" \/ zsign zd = lit "-". Proof. unfold zsign. destruct (0 <? zd); auto. Qed.
Lemma time_sound s t ov f r : parse_time_format None s = POk (t, ov, f) r ->
  ov = 0 /\ is_time t /\ exists basic, reads basic s r t.
Proof.
  intros H.
  assert (H' : exists pre q, (pre = [] \/ pre = lit "T") /\ s = pre ++ q /\
     (get v <- parse_hms;
        let '(h, m, sec, tformat) := v in
        fun s =>
          if at_zone s then
            (get z <- parse_time_zone_format;
             let '(zd, zh, zm, zf) := z in
             let tformat := tformat ++ zf in
             if fin tformat basic_time_formats || fin tformat extended_time_formats then
               get t <- lift (new_time (Some h) m sec (Some zd) (Some zh) zm); pret (t, 0, tformat)
             else pfail DateTimeError) s
          else (get t <- lift (new_time (Some h) m sec None None None); pret (t, 0, tformat)) s) q = POk (t, ov, f) r).
  { unfold parse_time_format in H. destruct s as [|c s]; [discriminate|]. cbn [at_ch] in H.
    destruct (Z.eqb_spec c 84).
    - subst c. exists (lit "T"), s. split; auto. split; auto. inv2. inv2. inv2; auto.
      inv2; [|discriminate H]. discriminate H.
    - exists [], (c :: s). split; auto. split; auto. inv2. unfold pret in E. injection E as _ <-. inv2; auto.
      inv2; [|discriminate H]. inv2. destruct a0 as [[? ?] ?]. discriminate H. }
  clear H. destruct H' as (pre & q & Hp & -> & H). inv2. destruct a as [[[h m] sec] hf]. apply parse_hms_inv in E as (N & Bh & Bm & Bs & basic & -> & ->).
  destruct (at_zone q0) eqn:Ez.
  - inv2. destruct a as [[[zd zh] zm] zf]. cbv zeta in H. destruct (fin _ _ || fin _ _) eqn:F; [|discriminate H]. inv2.
    unfold lift in E0. destruct (new_time _ _ _ _ _ _) as [t'|] eqn:Et; [|discriminate E0]. injection E0 as -> ->. inv2.
    apply zone_inv in E. split; auto.
    assert (M : made t h m sec (Some zd) (Some zh) zm).
    { split; [exact Et|]. split; auto. destruct E as [(_ & _ & -> & -> & _)|(_ & ? & [(-> & _)|(b & x & -> & ? & _)])]; split; auto; lia. }
    split; [unfold is_time; eauto 10|]. pose proof (made_wf _ _ _ _ _ _ _ M) as (Wt & Eh & Em & Es & Ed & Eo).
    assert (Short : forall b, fin (hms_format basic m sec ++ lit "+hh" ++ co b ++ lit "mm") basic_time_formats ||
        fin (hms_format basic m sec ++ lit "+hh" ++ co b ++ lit "mm") extended_time_formats = true -> basic = b \/ m = None).
    { intros b. destruct m as [m|]; auto. destruct basic, b; auto; destruct sec; discriminate. }
    destruct E as [(-> & -> & -> & -> & ->)|(D & Hz & [(-> & -> & ->)|(b & x & -> & Hx & -> & ->)])].
    + exists basic. exists pre, true. split; auto. left. rewrite time_text_hms. unfold zone_text. rewrite Ed, Eh, Em, Es.
      cbn in Eo. injection Eo as <-. cbn [Z.eqb]. rewrite <- app_assoc. reflexivity.
    + exists basic. exists pre, true. split; auto. left. rewrite time_text_hms. unfold zone_text. rewrite Ed, Eh, Em, Es.
      unfold zone_offset in Eo. destruct (Z.eqb_spec zd 0); [lia|]. injection Eo as <-.
      replace (zh * 60 / 60) with zh by lia. replace (zh * 60 mod 60) with 0 by lia. cbn [Z.eqb andb]. rewrite app_nil_r, <- !app_assoc. reflexivity.
    + exists b. exists pre, false. split; auto.
      assert (Eb : hms_text basic h m sec = hms_text b h m sec).
      { destruct (Short b F) as [-> | ->]; auto. }
      rewrite Eb. unfold zone_offset in Eo. destruct (Z.eqb_spec zd 0); [lia|]. injection Eo as Eo.
      destruct (Z_le_dec 60 x).
      * right. exists (zsign zd ++ d2 zh ++ co b ++ d2 x). split; [exists (zsign zd), zh, x; psplit; auto using zsign_odd; lia|].
        rewrite local_hms, Eh, Em, Es, <- !app_assoc. reflexivity.
      * left. rewrite time_text_hms. unfold zone_text. rewrite Ed, Eh, Em, Es, <- Eo. destruct (Z.eqb_spec zd 0); [lia|].
        replace ((zh * 60 + x) / 60) with zh by lia. replace ((zh * 60 + x) mod 60) with x by lia. cbn [andb]. rewrite <- !app_assoc. reflexivity.
  - inv2. unfold lift in E. destruct (new_time _ _ _ _ _ _) as [t'|] eqn:Et; [|discriminate E]. injection E as -> ->. inv2. split; auto.
    assert (M : made t h m sec None None None) by (split; auto).
    split; [unfold is_time; eauto 10|]. pose proof (made_wf _ _ _ _ _ _ _ M) as (Wt & Eh & Em & Es & Ed & Eo).
    exists basic, pre, true. split; auto. left. rewrite time_text_hms. unfold zone_text. rewrite Ed, Eh, Em, Es, app_nil_r. reflexivity.
Qed.
Lemma c44_time_sound s t : time_from_str s None = Ok t -> is_time t /\ exists basic r, reads basic s r t.
Proof.
  unfold time_from_str, to_res. destruct (pbind _ _ s) as [a r|[e|]] eqn:E; try discriminate. intros X. injection X as ->.
  inv2. destruct a as [[t' ov] f]. inv2. apply time_sound in E0 as (_ & T & b & R). split; auto. exists b. eauto.
Qed.

(** ** Time points *)
Definition day_format (f : string) (basic : bool) : bool := fin (lit f) (if basic then basic_date_formats else extended_date_formats).
Lemma nth_valid n : Z.of_nat n < max_day -> valid (nth_day n). Proof. intros. apply c21_valid. eauto. Qed.
Lemma day_parse basic n x : day_text basic n x -> Z.of_nat n < max_day -> forall base r, stops r ->
  exists f, parse_date_format base (x ++ r) = POk (Some (cal (nth_day n), lit f)) r /\ day_format f basic = true /\ day_format f (negb basic) = false.
Proof.
  intros D L base r S. pose proof (nth_valid n L) as V. destruct D as [y m d E|y m d E|y w wd I].
  - rewrite E in V |- *. rewrite (den_day_f basic y m d V base r S). eexists. split; [reflexivity|]. destruct basic; split; reflexivity.
  - rewrite E in V |- *. rewrite (den_ordinal_f basic y m d V base r S). eexists. split; [reflexivity|]. destruct basic; split; reflexivity.
  - rewrite (den_weekday_f basic n y w wd L I base r S). eexists. split; [reflexivity|]. destruct basic; split; reflexivity.
Qed.
Lemma format_other basic short t : t_minute t <> None -> fin (time_format basic short t) (if basic then extended_time_formats else basic_time_formats) = false.
Proof.
  intros N. unfold time_format, hms_format, zone_format. destruct (t_minute t) as [m|]; [|contradiction].
  destruct (t_zdirection t) as [zd|]; [destruct (t_zoffset t) as [o|]|]; destruct (t_second t); try destruct (zd =? 0); try destruct (short && _); destruct basic; reflexivity.
Qed.
Lemma c44_timepoint basic short n t x base : is_time t -> Z.of_nat n < max_day -> day_text basic n x ->
  timepoint_from_str (x ++ lit "T" ++ time_text basic short t) base = Ok (tp_at n t).
Proof.
  intros T L D. destruct (day_parse basic n x D L base (lit "T" ++ time_text basic short t) ltac:(repeat split)) as (f & E & F & _).
  unfold timepoint_from_str, to_res, parse_time_point_format. rewrite (pbind_ok _ _ _ _ _ E). cbv beta iota.
  replace (complete (cal (nth_day n))) with true by (destruct (nth_day n) as [[? ?] ?]; reflexivity). cbn [negb].
  change (lit "T" ++ time_text basic short t) with (84 :: time_text basic short t). cbv beta iota. rewrite Z.eqb_refl. cbn [negb].
  pose proof (time_parse (lit "T") basic short t [] T ltac:(repeat split) ltac:(auto)) as Pt. rewrite app_nil_r in Pt.
  change (lit "T" ++ time_text basic short t) with (84 :: time_text basic short t) in Pt. rewrite (pbind_ok _ _ _ _ _ Pt). cbv beta iota.
  change (z_true 0) with false. cbv iota. rewrite (pbind_ok (pret _) _ _ _ _ eq_refl).
  apply wf_is_time in T. pose proof (format_in basic short t T) as G. unfold day_format in F.
  replace (_ || _) with true by (destruct basic; rewrite F, G; auto using orb_true_r).
  rewrite new_tp by auto. reflexivity.
Qed.
Lemma c44_mixed basic short n t x base : is_time t -> t_minute t <> None -> Z.of_nat n < max_day -> day_text (negb basic) n x ->
  timepoint_from_str (x ++ lit "T" ++ time_text basic short t) base = Err DateTimeError.
Proof.
  intros T N L D. destruct (day_parse _ n x D L base (lit "T" ++ time_text basic short t) ltac:(repeat split)) as (f & E & F & F').
  rewrite negb_involutive in F'.
  unfold timepoint_from_str, to_res, parse_time_point_format. rewrite (pbind_ok _ _ _ _ _ E). cbv beta iota.
  replace (complete (cal (nth_day n))) with true by (destruct (nth_day n) as [[? ?] ?]; reflexivity). cbn [negb].
  change (lit "T" ++ time_text basic short t) with (84 :: time_text basic short t). cbv beta iota. rewrite Z.eqb_refl. cbn [negb].
  pose proof (time_parse (lit "T") basic short t [] T ltac:(repeat split) ltac:(auto)) as Pt. rewrite app_nil_r in Pt.
  change (lit "T" ++ time_text basic short t) with (84 :: time_text basic short t) in Pt. rewrite (pbind_ok _ _ _ _ _ Pt). cbv beta iota.
  change (z_true 0) with false. cbv iota. rewrite (pbind_ok (pret _) _ _ _ _ eq_refl).
  pose proof (format_other basic short t N) as G. unfold day_format in F'.
  replace (_ || _) with false by (destruct basic; rewrite F', G, ?andb_false_r; reflexivity). reflexivity.
Qed.
(** the text a time point formats to *)
Lemma c44_tp_fmt basic short n t : is_time t -> Z.of_nat n < max_day ->
  exists x1 x2 x3, day_text basic n x1 /\ day_text basic n x2 /\ day_text basic n x3 /\
    tp_string get_calendar_string (tp_at n t) basic NoTruncation (zp short) = Ok (x1 ++ lit "T" ++ time_text basic short t) /\
    tp_string get_ordinal_string (tp_at n t) basic NoTruncation (zp short) = Ok (x2 ++ lit "T" ++ time_text basic short t) /\
    tp_string get_week_string (tp_at n t) basic NoTruncation (zp short) = Ok (x3 ++ lit "T" ++ time_text basic short t).
Proof.
  intros T L. pose proof (nth_valid n L) as V. destruct (nth_day n) as [[y m] d] eqn:E.
  destruct (fmt_week n basic L) as (Y & w & wd & I & Fw).
  eexists _, _, _. split; [eapply dt_calendar; exact E|]. split; [eapply dt_ordinal; exact E|]. split; [eapply dt_week; exact I|].
  unfold tp_string, tp_at. cbn [tp_date tp_time]. rewrite t_fmt by auto. rewrite Fw. rewrite E.
  rewrite fmt_calendar, fmt_ordinal by auto. unfold cat, txt. cbn [rbind]. rewrite !app_nil_r. auto.
Qed.
(** soundness *)
Lemma c44_tp_sound s p : timepoint_from_str s None = Ok p ->
  exists x q basic r, s = x ++ lit "T" ++ q /\ (denotes x (tp_date p) \/ odd x) /\ is_time (tp_time p) /\ reads basic (lit "T" ++ q) r (tp_time p).
Proof.
  unfold timepoint_from_str, to_res. destruct (parse_time_point_format None s) as [a r|[e|]] eqn:E; try discriminate. intros X. injection X as ->.
  unfold parse_time_point_format in E. inv2. destruct a as [[d f]|]; [|discriminate E]. destruct (negb (complete d)); [discriminate E|].
  apply format_sound in E0 as (x & -> & S). destruct q as [|c q]; [discriminate E|]. destruct (Z.eqb_spec c 84); [|discriminate E]. subst c. cbn [negb] in E.
  inv2. destruct a as [[t ov] tf]. apply time_sound in E0 as (-> & T & basic & R). change (z_true 0) with false in E. cbv iota in E. inv2. inv2.
  destruct (_ || _) eqn:Fm in E; [|discriminate E]. unfold lift in E. destruct (new_timepoint a t) as [p'|] eqn:En; [|discriminate E]. injection E as <- <-.
  unfold new_timepoint in En. destruct (check_date _); cbn [rbind] in En; [|discriminate]. destruct (check_time _ _ _ _ _); cbn [rbind] in En; [|discriminate].
  destruct (prec_eqb _ _); [|discriminate]. injection En as <-. cbn [tp_date tp_time]. exists x, q, basic. eexists. psplit; eauto.
Qed.
