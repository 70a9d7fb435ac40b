(** C28: durations. *)
From Verif Require Import Py Num IsoModel IsoSpec IsoProofs IsoMain IsoTimeModel IsoParseModel IsoStr IsoTimeSpec IsoTimeStr.
#[local] Arguments lit : simpl never.
#[local] Arguments decimal : simpl never.

Lemma span_given ds c r : Forall dec_digit ds -> is_dec c = false -> span_digits (ds ++ c :: r) = (ds, c :: r).
Proof.
  intros F N. induction F as [|x ds X F IH]; cbn [app span_digits].
  - rewrite N. reflexivity.
  - apply is_dec_ok in X. rewrite X. rewrite IH. reflexivity.
Qed.
Definition stopc (c : Z) : bool := negb (is_dec c) && negb ((c =? 46) || (c =? 44)).
Lemma dv_given ds c r : digits ds -> stopc c = true -> duration_value (ds ++ c :: r) = POk (Some (decimal ds)) (c :: r).
Proof.
  intros [N F] S. unfold stopc in S. apply andb_true_iff in S as [S1 S2]. apply negb_true_iff in S1, S2.
  unfold duration_value. rewrite span_given by auto. destruct ds; [contradiction|]. rewrite S2. reflexivity.
Qed.
Lemma dv_none s : at_digit s = false -> duration_value s = POk None s.
Proof. destruct s as [|c s]; [reflexivity|]. unfold duration_value. cbn. intros ->. reflexivity. Qed.
Lemma take_yes x c r : take (Some x) c (c :: r) = (get w <- duration_value; pret (Some x, w)) r.
Proof. unfold take. cbn [at_ch]. rewrite Z.eqb_refl. reflexivity. Qed.
Lemma take_no v c s : at_ch c s = false -> take v c s = POk (None, v) s.
Proof. intros E. unfold take. rewrite E. destruct v; reflexivity. Qed.
Lemma takel_yes x c r : take_last (Some x) c (c :: r) = POk (Some x, None) r.
Proof. unfold take_last. cbn [at_ch]. rewrite Z.eqb_refl. reflexivity. Qed.
Lemma takel_no v c s : at_ch c s = false -> take_last v c s = POk (None, v) s.
Proof. intros E. unfold take_last. rewrite E. destruct v; reflexivity. Qed.
Ltac dst := match goal with
  | |- context [pbind duration_value ?k (?ds ++ ?c :: ?r)] =>
      rewrite (pbind_ok duration_value k (ds ++ c :: r) (Some (decimal ds)) (c :: r)) by (apply dv_given; [auto|reflexivity])
  | |- context [pbind duration_value ?k ?s] => rewrite (pbind_ok duration_value k s None s) by (apply dv_none; reflexivity)
  | |- context [pbind (pret ?a) ?k ?s] => rewrite (pbind_ok (pret a) k s a s eq_refl)
  | |- context [pbind next ?k (?c :: ?r)] => rewrite (pbind_ok next k (c :: r) tt r) by reflexivity
  | |- context [pbind (take (Some ?x) ?c) ?k (?c :: ?r)] => 
      first [rewrite (pbind_ok (take (Some x) c) k (c :: r) (Some x, None) r) by (rewrite take_yes; repeat dst; reflexivity)
            |match r with ?ds ++ ?c' :: ?r' => rewrite (pbind_ok (take (Some x) c) k (c :: r) (Some x, Some (decimal ds)) (c' :: r')) by (rewrite take_yes; repeat dst; reflexivity) end]
  | |- context [pbind (take_last (Some ?x) ?c) ?k (?c :: ?r)] => rewrite (pbind_ok (take_last (Some x) c) k (c :: r) (Some x, None) r) by (apply takel_yes)
  | |- context [pbind (take ?v ?c) ?k ?s] => rewrite (pbind_ok (take v c) k s (None, v) s) by (apply take_no; reflexivity)
  | |- context [pbind (take_last ?v ?c) ?k ?s] => rewrite (pbind_ok (take_last v c) k s (None, v) s) by (apply takel_no; reflexivity)
  end.
Lemma dur_parse t d : dur_denotes t d -> duration_from_string t = Ok d.
Proof.
  intros H. unfold duration_from_string, to_res, parse_duration. destruct H as [ds D|y mo d h mi s D N].
  - change (lit "P") with [80]. change (lit "W") with [87]. cbn [app at_ch Z.eqb Pos.eqb negb]. repeat dst. reflexivity.
  - destruct y as [y|]; [assert (Dy : digits y) by (apply D; cbn; auto 10)|].
    all: destruct mo as [mo|]; [assert (Dmo : digits mo) by (apply D; cbn; auto 10)|].
    all: destruct d as [d|]; [assert (Dd : digits d) by (apply D; cbn; auto 10)|].
    all: destruct h as [h|]; [assert (Dh : digits h) by (apply D; cbn; auto 10)|].
    all: destruct mi as [mi|]; [assert (Dmi : digits mi) by (apply D; cbn; auto 10)|].
    all: destruct s as [s|]; [assert (Ds : digits s) by (apply D; cbn; auto 10)|].
    all: clear D.
    64: exfalso; destruct N as (x & N); cbn in N; repeat (destruct N as [N|N]; [discriminate|]); contradiction.
    all: clear N; cbn [comp existsb is_some orb]; change (lit "P") with [80]; change (lit "Y") with [89]; change (lit "M") with [77]; change (lit "D") with [68];
      change (lit "T") with [84]; change (lit "H") with [72]; change (lit "S") with [83]; cbn [app]; rewrite <- ?app_assoc; cbn [app]; rewrite <- ?app_assoc; cbn [app]; rewrite ?app_nil_r.
    all: cbn [at_ch Z.eqb Pos.eqb negb].
    all: repeat (first [dst | rewrite if_ch_yes | rewrite if_ch_no by reflexivity | progress unfold time_part]; cbn [at_ch Z.eqb Pos.eqb negb is_some andb]; cbv beta iota).
    all: reflexivity.
Qed.
Lemma dec_digits v : 0 <= v -> digits (dec_nat v).
Proof. intros H. destruct (dec_nat_spec v H) as (F & _ & N & _). split; auto. Qed.
Lemma dec_val v : 0 <= v -> decimal (dec_nat v) = v. Proof. intros H. apply dec_nat_spec; auto. Qed.
Lemma dec_str_nat v : 0 <= v -> dec_str v = dec_nat v.
Proof. intros H. unfold dec_str. destruct (Z.ltb_spec v 0); [lia|auto]. Qed.
Definition kept (o : option Z) : option str := match o with Some v => Some (dec_nat v) | None => None end.
Lemma c28_roundtrip y mo d h mi s tz : y <> None -> graded [y; mo; d; h; mi; s] ->
  exists t, duration_string (DCal y mo d h mi s) tz = Ok t /\ dur_denotes t (DCal y mo d h mi s).
Proof.
  intros N G. destruct y as [y|]; [|contradiction]. clear N. cbn [graded] in G. destruct G as [Hy G].
  assert (fin : forall y' mo' d' h' mi' s', 
     [Some y; mo; d; h; mi; s] = [val y' [mo'; d'; h'; mi'; s']; val mo' [d'; h'; mi'; s']; val d' [h'; mi'; s']; val h' [mi'; s']; val mi' [s']; val s' []] ->
     (forall ds, In (Some ds) [y'; mo'; d'; h'; mi'; s'] -> digits ds) -> (exists ds, In (Some ds) [y'; mo'; d'; h'; mi'; s']) ->
     duration_string (DCal (Some y) mo d h mi s) tz = Ok (lit "P" ++ comp y' "Y" ++ comp mo' "M" ++ comp d' "D" ++
       (if existsb is_some [h'; mi'; s'] then lit "T" ++ comp h' "H" ++ comp mi' "M" ++ comp s' "S" else [])) ->
     exists t, duration_string (DCal (Some y) mo d h mi s) tz = Ok t /\ dur_denotes t (DCal (Some y) mo d h mi s)).
  { intros y' mo' d' h' mi' s' E D X S. injection E as E1 E2 E3 E4 E5 E6. rewrite S. eexists. split; [reflexivity|].
    rewrite E1, E2, E3, E4, E5, E6. apply dd_cal; auto. }
  repeat match goal with
  | G : graded _ |- _ => cbn [graded] in G
  | G : _ /\ _ |- _ => destruct G
  | G : match ?m with Some _ => _ | None => _ end |- _ => destruct m
  | G : Forall _ (_ :: _) |- _ => inversion_clear G; subst
  end.
  all: set (K := map kept (let cs := strip_none [Some y; mo; d; h; mi; s] in if tz then blank_zeros cs else cs)) ||
       match goal with fin : forall y' mo' d' h' mi' s', ?l = _ -> _ |- _ => set (K := map kept (let cs := strip_none l in if tz then blank_zeros cs else cs)) end.
  all: apply (fin (nth 0 K None) (nth 1 K None) (nth 2 K None) (nth 3 K None) (nth 4 K None) (nth 5 K None)); clear fin; subst K; cbn [strip_none].
  all: destruct tz; [|]; cbn [blank_zeros].
  all: repeat match goal with |- context [?v =? 0] => is_var v; destruct (Z.eqb_spec v 0); [subst v|] end.
  all: cbn [map kept nth Z.eqb].
  all: try match goal with
  | |- forall ds, In _ _ -> _ => intros ds I; cbn [In] in I; repeat (destruct I as [I|I]; [try discriminate I; injection I as <-; apply dec_digits; lia|]); contradiction
  | |- exists ds, In _ _ => eexists; cbn [In]; eauto 10
  | |- [Some _; _; _; _; _; _] = _ => cbn [val existsb is_some orb]; rewrite ?dec_val by lia; reflexivity
  end.
  all: unfold duration_string; cbn [strip_none blank_zeros Z.eqb]; repeat match goal with |- context [?v =? 0] => destruct (Z.eqb_spec v 0); [lia|] end; cbn [blank_zeros Z.eqb].
  all: change (lit "YMDHMS") with [89; 77; 68; 72; 77; 83]; cbn [combine map firstn skipn List.concat component fst snd comp existsb is_some orb]; rewrite ?dec_str_nat by lia.
  all: change (lit "Y") with [89]; change (lit "M") with [77]; change (lit "D") with [68]; change (lit "H") with [72]; change (lit "S") with [83]; change (lit "T") with [84].
  all: rewrite ?app_nil_r, <- ?app_assoc; cbn [app]; rewrite ?app_nil_r, <- ?app_assoc; cbn [app].
  all: try reflexivity.
  all: match goal with |- context [match dec_nat ?z ++ ?r with [] => _ | _ :: _ => _ end] =>
    let E := fresh in destruct (dec_nat z ++ r) eqn:E; [destruct (dec_nat z); discriminate E | reflexivity] end.
Qed.
Lemma c28_back y mo d h mi s tz : y <> None -> graded [y; mo; d; h; mi; s] ->
  exists t, duration_string (DCal y mo d h mi s) tz = Ok t /\ duration_from_string t = Ok (DCal y mo d h mi s).
Proof. intros N G. destruct (c28_roundtrip y mo d h mi s tz N G) as (t & E & D). exists t. split; auto using dur_parse. Qed.

(** ** Soundness *)
Lemma span_inv s a b : span_digits s = (a, b) -> s = a ++ b /\ Forall dec_digit a.
Proof.
  revert a b. induction s as [|c s IH]; cbn [span_digits]; intros a b E; [injection E as <- <-; auto|].
  destruct (is_dec c) eqn:D; [|injection E as <- <-; auto]. destruct (span_digits s) as [x y]. injection E as <- <-.
  destruct (IH x y eq_refl) as [-> F]. apply is_dec_ok in D. split; auto.
Qed.
(** what a pending value stands for *)
Definition pend (v : option Z) (w : str) : Prop := match v with None => w = [] | Some x => digits w /\ x = decimal w end.
Lemma dv_inv s v r : duration_value s = POk v r -> exists w, s = w ++ r /\ pend v w.
Proof.
  unfold duration_value. destruct (span_digits s) as [ds b] eqn:E. apply span_inv in E as [-> F].
  destruct ds as [|x ds]; [intros H; injection H as <- <-; exists []; split; reflexivity|].
  destruct b as [|c b]; [discriminate|]. destruct (_ || _); [discriminate|]. intros H. injection H as <- <-.
  exists (x :: ds). split; auto. cbn. split; auto. split; [discriminate|auto].
Qed.
(** one component: the pending text [w] and the designator *)
Definition done (o : option Z) (q : option str) : Prop := match o, q with None, None => True | Some x, Some ds => digits ds /\ x = decimal ds | _, _ => False end.
Lemma take_inv v c s o v' r w : pend v w -> take v c s = POk (o, v') r ->
  exists q w', done o q /\ pend v' w' /\ w ++ s = match q with Some ds => ds ++ [c] | None => [] end ++ w' ++ r.
Proof.
  intros Pv H. unfold take in H. destruct v as [x|].
  - unfold at_ch in H. destruct s as [|y s].
    + injection H as <- <- <-. exists None, w. cbn. auto.
    + destruct (Z.eqb_spec y c).
      * subst. inv2. inv2. inv2. apply dv_inv in E0 as (w' & -> & Pw). inv2. exists (Some w), w'. split; [exact Pv|]. split; auto. rewrite <- !app_assoc. reflexivity.
      * injection H as <- <- <-. exists None, w. cbn. auto.
  - injection H as <- <- <-. exists None, w. cbn. auto.
Qed.
Lemma takel_inv v c s o v' r w : pend v w -> take_last v c s = POk (o, v') r ->
  exists q w', done o q /\ pend v' w' /\ w ++ s = match q with Some ds => ds ++ [c] | None => [] end ++ w' ++ r.
Proof.
  intros Pv H. unfold take_last in H. destruct v as [x|].
  - unfold at_ch in H. destruct s as [|y s].
    + injection H as <- <- <-. exists None, w. cbn. auto.
    + destruct (Z.eqb_spec y c).
      * subst. inv2. inv2. inv2. exists (Some w), []. split; [exact Pv|]. split; [reflexivity|]. rewrite <- !app_assoc. reflexivity.
      * injection H as <- <- <-. exists None, w. cbn. auto.
  - injection H as <- <- <-. exists None, w. cbn. auto.
Qed.
Lemma pend_none w : pend None w -> w = []. Proof. auto. Qed.
Lemma done_some o q : done o q -> is_some o = is_some q. Proof. destruct o, q; cbn; tauto. Qed.
Lemma done_digits o ds : done o (Some ds) -> digits ds. Proof. destruct o; cbn; tauto. Qed.
Lemma finish_val y mo d h mi s y' mo' d' h' mi' s' r : done y y' -> done mo mo' -> done d d' -> done h h' -> done mi mi' -> done s s' ->
  finish y mo d h mi s r = POk (DCal (val y' [mo'; d'; h'; mi'; s']) (val mo' [d'; h'; mi'; s']) (val d' [h'; mi'; s']) (val h' [mi'; s']) (val mi' [s']) (val s' [])) r.
Proof.
  intros. repeat match goal with H : done ?a ?b |- _ => destruct a, b; cbn [done] in H; try contradiction; lazymatch type of H with True => clear H | _ => destruct H as [_ ->] end end; reflexivity.
Qed.
Lemma existsb_in (l : list (option str)) : existsb is_some l = true -> exists ds, In (Some ds) l.
Proof. intros H. apply existsb_exists in H as ([x|] & I & E); [eauto|discriminate]. Qed.
Lemma c28_sound s d : duration_from_string s = Ok d -> exists t r, s = t ++ r /\ dur_denotes t d.
Proof.
  unfold duration_from_string, to_res. destruct (parse_duration s) as [a r|[e|]] eqn:H; try discriminate. intros X. injection X as ->.
  unfold parse_duration in H. destruct s as [|c s]; [discriminate H|]. cbn [at_ch] in H. destruct (Z.eqb_spec c 80); [|discriminate H]. subst c. cbn [negb] in H.
  inv2. apply next_inv in E. subst q. inv2. rename a0 into v0. apply dv_inv in E as (w0 & -> & P0).
  destruct (is_some v0 && at_ch 87 q) eqn:Ew.
  - apply andb_true_iff in Ew as [E1 E2]. destruct v0 as [x|]; [|discriminate]. destruct q as [|c q]; [discriminate|]. cbn in E2. b2p. subst c.
    inv2. inv2. inv2. destruct P0 as [D ->]. exists (lit "P" ++ w0 ++ lit "W"). eexists. split; [rewrite <- !app_assoc; reflexivity|]. apply dd_weeks. auto.
  - clear Ew. inv2. destruct a0 as [y v]. apply (take_inv _ _ _ _ _ _ _ P0) in E as (y' & w1 & Dy & P1 & T1).
    inv2. destruct a0 as [mo v2]. apply (take_inv _ _ _ _ _ _ _ P1) in E as (mo' & w2 & Dmo & P2 & T2).
    inv2. destruct a0 as [dd v3]. apply (takel_inv _ _ _ _ _ _ _ P2) in E as (d' & w3 & Dd & P3 & T3).
    destruct v3; [discriminate H|]. cbn in P3. subst w3. cbn [app] in T3. rewrite T3 in T2. rewrite T2 in T1. rewrite T1. clear T1 T2 T3 w0 w1 w2 P0 P1 P2 q q0 q1 v v0 v2.
    inv2.
    + inv2. apply next_inv in E. subst q. unfold time_part in H. inv2. rename a0 into v0. apply dv_inv in E as (w0 & -> & P0).
      inv2. destruct a0 as [h v]. apply (take_inv _ _ _ _ _ _ _ P0) in E as (h' & w1 & Dh & P1 & T1).
      inv2. destruct a0 as [mi v2']. apply (take_inv _ _ _ _ _ _ _ P1) in E as (mi' & w2 & Dmi & P2 & T2).
      inv2. destruct a0 as [sec v3]. apply (takel_inv _ _ _ _ _ _ _ P2) in E as (s' & w3 & Ds & P3 & T3).
      destruct v3; [discriminate H|]. cbn in P3. subst w3. cbn [app] in T3. rewrite T3 in T2. rewrite T2 in T1. rewrite T1. 
      assert (Ex : existsb is_some [h'; mi'; s'] = true).
      { cbn [existsb]. rewrite <- (done_some _ _ Dh), <- (done_some _ _ Dmi), <- (done_some _ _ Ds). destruct h, mi, sec; try reflexivity. discriminate H. }
      assert (Hf : finish y mo dd h mi sec q2 = POk d r) by (destruct h, mi, sec; try exact H; discriminate H).
      rewrite (finish_val _ _ _ _ _ _ _ _ _ _ _ _ q2 Dy Dmo Dd Dh Dmi Ds) in Hf. injection Hf as <- <-.
      eexists. exists q2. split; [|apply dd_cal].
      * rewrite Ex. unfold comp. change (lit "P") with [80]. change (lit "T") with [84]. destruct y', mo', d', h', mi', s'; cbn [app]; rewrite <- ?app_assoc; cbn [app]; rewrite <- ?app_assoc; reflexivity.
      * intros ds I. cbn [In] in I. repeat (destruct I as [I|I]; [subst; eapply done_digits; eassumption|]). contradiction.
      * apply existsb_in in Ex as (ds & I). exists ds. cbn [In] in I |- *. tauto.
    + assert (Ex : existsb is_some [y'; mo'; d'] = true).
      { cbn [existsb]. rewrite <- (done_some _ _ Dy), <- (done_some _ _ Dmo), <- (done_some _ _ Dd). destruct y, mo, dd; try reflexivity. discriminate H. }
      assert (Hf : finish y mo dd None None None q2 = POk d r) by (destruct y, mo, dd; try exact H; discriminate H).
      rewrite (finish_val y mo dd None None None y' mo' d' None None None q2 Dy Dmo Dd I I I) in Hf. injection Hf as <- <-.
      exists (lit "P" ++ comp y' "Y" ++ comp mo' "M" ++ comp d' "D" ++ []), q2. split; [|apply (dd_cal y' mo' d' None None None)].
      * unfold comp. change (lit "P") with [80]. destruct y', mo', d'; cbn [app]; rewrite <- ?app_assoc; cbn [app]; rewrite ?app_nil_r, <- ?app_assoc; reflexivity.
      * intros ds I. cbn [In] in I. repeat (destruct I as [I|I]; [subst; try discriminate; eapply done_digits; eassumption|]). contradiction.
      * apply existsb_in in Ex as (ds & I). exists ds. cbn [In] in I |- *. tauto.
Qed.
