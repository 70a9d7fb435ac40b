(** What the Pipe calls return. *)
From Verif Require Import Py PipeModel PipeSpec PipeProofs PipeMain.

Definition wmatch (pd : pending) (w : waiting) : Prop :=
  pd_acc pd = nil /\
  match w with
  | WWrite d => pd_op pd = Some (OWrite d) /\ pd_take pd = nil
  | WRead (KRead n) => pd_op pd = Some (ORead n) /\ pd_take pd = nil
  | WRead (KInto n) => pd_op pd = Some (OReadInto n) /\ pd_take pd = nil
  | WRead (KAll data _) => pd_op pd = Some OReadAll /\ pd_take pd = concat data
  | WMatch m _ => pd_op pd = Some (OReadMatch m) /\ pd_take pd = nil
  | WFlush => pd_op pd = Some OFlush /\ pd_take pd = nil
  | WCond c t => pd_op pd = Some (OWaitFor c t) /\ pd_take pd = nil
  end.

Definition fin_ok (pd : pending) (f : fin) : Prop :=
  match f with Return v => honest pd v | Waits w => wmatch pd w end.

Definition after (o : op) (tk : str) (r : out) : pending :=
  mkPend (Some o) (o_acc r) (tk ++ o_take r).

Ltac fo := unfold fin_ok, after, honest, wmatch; cbn [pd_op pd_acc pd_take o_acc o_take o_fin app];
           rewrite ?app_nil_r; psplit; auto; try discriminate.

Lemma write_fin p d x : fin_ok (after (OWrite d) nil (write_body p d x)) (o_fin (write_body p d x)).
Proof.
  unfold write_body. destr; [fo|]. destruct (wlen p <=? 0) eqn:L.
  { destr; [destr|]; fo. }
  assert (forall b : str, (0 <= Z.of_nat (length b) <= Z.of_nat (length b)) /\
     b = firstn (Z.to_nat (Z.of_nat (length b))) b) as HC.
  { intros b. rewrite Nat2Z.id, firstn_all. split; auto. lia. }
  destruct d as [b|b|b|].
  - specialize (HC b). destruct b as [|c b]; fo; cbn [payload]; try apply HC.
  - specialize (HC b). destruct b as [|c b]; fo; cbn [payload]; try apply HC.
  - cbv zeta. set (n := if wlen p <? Z.of_nat (length b) then _ else _).
    assert (n <= length b)%nat by (unfold n; b2p; destr; b2p; lia).
    fo; cbn [payload]; try lia. rewrite Nat2Z.id. reflexivity.
  - fo.
Qed.

Lemma flush_fin p x : fin_ok (after OFlush nil (flush_body p x)) (o_fin (flush_body p x)).
Proof. unfold flush_body. destruct (p_buf p); [|destr; [destr|]]; fo. Qed.

Lemma readinto_loop_len p n x : wf p -> (length (rr_data (readinto_loop p n x)) <= n)%nat.
Proof.
  intros W. unfold readinto_loop. destruct (p_buf p) as [|src rest].
  { destr; [|destr; [destr|]]; cbn; lia. }
  destruct (Nat.eqb _ 0); cbn [rr_data]; unfold slice; rewrite firstn_length; destr; b2p; lia.
Qed.
Lemma readinto_start_len p n x : wf p -> (length (rr_data (readinto_start p n x)) <= n)%nat.
Proof.
  intros W. apply readinto_loop_len. eapply sim_wf; [apply sim_flag_set|auto].
Qed.
Lemma read_start_len p n x : wf p -> (length (rr_data (read_start p n x)) <= n)%nat.
Proof.
  intros W. unfold read_start. destruct (p_buf p) as [|src rest]; [apply readinto_start_len; auto|].
  destruct (p_rpos p); [|apply readinto_start_len; auto].
  destr; [|apply readinto_start_len; auto]. b2p. exact E.
Qed.

Lemma read_out_fin_into n r : (length (rr_data r) <= n)%nat ->
  fin_ok (after (OReadInto n) nil (read_out (KInto n) r)) (o_fin (read_out (KInto n) r)).
Proof. intros L. destruct r; cbn in L |- *; fo. Qed.
Lemma read_out_fin_read n r : (length (rr_data r) <= n)%nat ->
  fin_ok (after (ORead n) nil (read_out (KRead n) r)) (o_fin (read_out (KRead n) r)).
Proof. intros L. destruct r; cbn in L |- *; fo. Qed.

Lemma readall_fin save x : forall fuel r data nt tk0 taken o,
  tk0 ++ taken = concat data ->
  readall_loop fuel r data save nt taken x = Some o ->
  fin_ok (after OReadAll tk0 o) (o_fin o).
Proof.
  induction fuel as [|fuel IH]; intros r data nt tk0 taken o E H;
    destruct r as [p nt' d|p|p|p]; cbn [readall_loop] in H;
    try (destruct d as [|c d]); try discriminate;
    try (inversion H; subst; fo; fail).
  eapply IH; [|exact H]. rewrite concat_app, <- E. cbn. rewrite app_nil_r, app_assoc. reflexivity.
Qed.

Lemma slice_at_first m s st i : find_from m s st = Some i ->
  slice st (i + length m) s = nil \/ ends_at_first m (slice st (i + length m) s).
Proof.
  intros F. apply find_from_some in F as (F1 & F2 & (a & b & F3 & F4) & F5). right.
  assert (slice st (i + length m) s = a ++ m) as ->.
  { unfold slice. rewrite F3. rewrite app_assoc, firstn_app.
    replace (i + length m - st - length (a ++ m))%nat with O by (rewrite app_length; lia).
    rewrite firstn_O, app_nil_r. apply firstn_all2. rewrite app_length. lia. }
  unfold ends_at_first. rewrite app_length.
  replace (length a + length m - length m)%nat with (length a) by lia.
  psplit; try lia.
  - exists a, nil. rewrite app_nil_r. auto.
  - intros j (a' & b' & E & L). rewrite F4. apply F5. exists a', (b' ++ b).
    split; auto. rewrite F3. rewrite app_assoc, E. rewrite <- !app_assoc. reflexivity.
Qed.

Lemma readmatch_found_fin p m pos src rest : p_buf p = src :: rest ->
  find_from m src (p_rpos p) = Some pos ->
  fin_ok (after (OReadMatch m) nil (readmatch_found p m pos)) (o_fin (readmatch_found p m pos)).
Proof.
  intros B F. unfold readmatch_found. rewrite B. fo. eapply slice_at_first; eauto.
Qed.

Lemma readmatch_nomatch_fin p m :
  fin_ok (after (OReadMatch m) nil (readmatch_nomatch p m)) (o_fin (readmatch_nomatch p m)).
Proof.
  unfold readmatch_nomatch. destr; [fo|]. destruct (canwrite p) as [p' [n|]]; [|fo].
  destr; [fo|]. cbv zeta. destr; fo.
Qed.

Lemma readmatch_fin p m : wf p ->
  fin_ok (after (OReadMatch m) nil (readmatch_body p m)) (o_fin (readmatch_body p m)).
Proof.
  intros W. unfold readmatch_body. destruct (p_buf p) as [|b0 r] eqn:B;
    [apply readmatch_nomatch_fin|].
  destruct (find_from m b0 (p_rpos p)) as [pos|] eqn:F; [eapply readmatch_found_fin; eauto|].
  cbv zeta. destruct (p_buf (consolidate p)) as [|b0' r'] eqn:B'; [apply readmatch_nomatch_fin|].
  assert (p_rpos (consolidate p) = O) as R by (unfold consolidate; rewrite B; reflexivity).
  destruct (find_from m b0' 0) as [pos|] eqn:F'; [|apply readmatch_nomatch_fin].
  eapply readmatch_found_fin; eauto. rewrite R. exact F'.
Qed.

Lemma cond_fin p c t x :
  fin_ok (after (OWaitFor c t) nil (cond_body p c t x)) (o_fin (cond_body p c t x)).
Proof.
  unfold cond_body. destruct c.
  - destruct (canwrite p) as [p' [n|]]; [|fo]. destr; [destr|]; fo.
  - destr; [|destr]; fo.
  - destruct (canread p) as [[|]|]; [|destr|]; fo.
Qed.

Lemma call_fin p o x r : wf p -> o <> OClose -> call_body p o x = Some r ->
  fin_ok (after o nil r) (o_fin r).
Proof.
  intros W NC H. destruct o; cbn [call_body] in H; unfold pure in H;
    try (injection H as <-); try (fo; fail).
  - apply write_fin.
  - unfold write_eof_body; fo.
  - apply read_out_fin_read, read_start_len; auto.
  - apply read_out_fin_into, readinto_start_len; auto.
  - unfold readall_start in H. eapply readall_fin; [|exact H]. reflexivity.
  - apply readmatch_fin; auto.
  - apply flush_fin.
  - destruct (canwrite p) as [p' [n|]]; injection H as <-; fo.
  - destruct (canread p); injection H as <-; fo.
  - apply cond_fin.
Qed.

Lemma resume_fin p w x r pd : wf p -> wmatch pd w -> resume_body p w x = Some r ->
  exists o, pd_op pd = Some o /\ pd_acc pd = nil /\ fin_ok (after o (pd_take pd) r) (o_fin r).
Proof.
  intros W (A & M) H. destruct w as [d|[n|n|data sv]|m cs| |c t]; cbn [resume_body] in H;
    destruct M as (M1 & M2); eexists; (split; [exact M1|]); (split; [exact A|]); rewrite M2.
  - injection H as <-. apply write_fin.
  - injection H as <-. apply read_out_fin_into, readinto_loop_len; auto.
  - injection H as <-. apply read_out_fin_read, readinto_loop_len; auto.
  - eapply readall_fin; [|exact H]. rewrite app_nil_r. reflexivity.
  - injection H as <-. unfold readmatch_resume. destr; [fo|]. apply readmatch_fin; auto.
  - injection H as <-. apply flush_fin.
  - injection H as <-. apply cond_fin.
Qed.

(** ** traces *)
Lemma pend_app t a b : pend t (a ++ b) = fold_left (pend_step t) b (pend t a).
Proof. unfold pend. apply fold_left_app. Qed.

Definition thread_ok (tr : list event) (s : sys) : Prop :=
  forall t, match s_thr s t with
            | Idle => True
            | Waiting _ w => wmatch (pend t tr) w
            | Closing1 | Closing2 => pend t tr = mkPend (Some OClose) nil nil
            end.

(* the events of one thread's step leave the others alone *)
Definition ev_thread (e : event) : option nat :=
  match e with ECall t _ | EAccept t _ | ETake t _ | ERet t _ => Some t | EDiscard _ => None end.
Lemma pend_other t ev : (forall e, In e ev -> ev_thread e <> Some t) -> forall a,
  fold_left (pend_step t) ev a = a.
Proof.
  induction ev as [|e ev IH]; intros H a; cbn; auto.
  rewrite IH; [|intros; apply H; right; auto].
  assert (ev_thread e <> Some t) as N by (apply H; left; auto).
  destruct e; cbn in *; auto; destruct (Nat.eqb_spec t0 t); auto; subst; congruence.
Qed.

Lemma finish_thread s t r e : In e (snd (finish s t r)) -> ev_thread e = Some t.
Proof.
  unfold finish. destruct (o_fin r); cbn; intros H;
    repeat destruct H as [<- |H]; try contradiction; reflexivity.
Qed.

Lemma finish_pend s t r a :
  fold_left (pend_step t) (snd (finish s t r)) a =
  mkPend (pd_op a) (pd_acc a ++ o_acc r) (pd_take a ++ o_take r).
Proof.
  unfold finish. destruct (o_fin r); cbn; rewrite !Nat.eqb_refl; cbn; reflexivity.
Qed.

Lemma notify_thread_ok (P : waiting -> Prop) (Q : Prop) n f t :
  match f t with Idle => True | Waiting _ w => P w | Closing1 | Closing2 => Q end ->
  match notify n f t with Idle => True | Waiting _ w => P w | Closing1 | Closing2 => Q end.
Proof. destruct n; cbn; auto. destruct (f t); cbn; auto. Qed.

Lemma finish_thread_ok tr s t r pre :
  thread_ok tr s -> (forall e, In e pre -> ev_thread e = Some t) ->
  fin_ok (pend t (tr ++ pre ++ snd (finish s t r))) (o_fin r) ->
  thread_ok (tr ++ pre ++ snd (finish s t r)) (fst (finish s t r)).
Proof.
  intros TO PR F t'. rewrite finish_thr. destruct (Nat.eqb_spec t' t) as [-> |N].
  - destruct (o_fin r); auto.
  - rewrite pend_app. rewrite pend_other.
    2:{ intros e I. apply in_app_or in I as [I|I];
        [rewrite (PR _ I)|rewrite (finish_thread _ _ _ _ I)]; congruence. }
    apply (notify_thread_ok (wmatch (pend t' tr)) (pend t' tr = mkPend (Some OClose) nil nil)).
    apply TO.
Qed.

Lemma thread_step tr s l s' ev : wf (s_pipe s) -> thread_ok tr s -> step s l = Some (s', ev) ->
  thread_ok (tr ++ ev) s' /\
  forall t v e, ev = e ++ [ERet t v] -> honest (pend t (tr ++ e)) v.
Proof.
  intros W TO H. apply step_case in H.
  assert (forall t r (pre : list event) t' v e, pre ++ snd (finish s t r) = e ++ [ERet t' v] ->
    (forall ev, In ev pre -> exists o, ev = ECall t o) ->
    t' = t /\ o_fin r = Return v /\ pend t (tr ++ e) = pend t (tr ++ pre ++ snd (finish s t r))) as FR.
  { intros t r pre t' v e E PR. unfold finish in E |- *. destruct (o_fin r) as [v0|w0]; cbn in E |- *.
    - change [EAccept t (o_acc r); ETake t (o_take r); ERet t v0]
        with ([EAccept t (o_acc r); ETake t (o_take r)] ++ [ERet t v0]) in E |- *.
      rewrite app_assoc in E. apply app_inj_tail in E as [<- E]. injection E as <- <-.
      psplit; auto. rewrite !app_assoc. rewrite (pend_app t _ [ERet t v0]). cbn [fold_left pend_step].
      reflexivity.
    - exfalso. assert (In (ERet t' v) (pre ++ [EAccept t (o_acc r); ETake t (o_take r)])) as I
        by (rewrite E; apply in_or_app; right; left; reflexivity).
      apply in_app_or in I as [I|I]; [apply PR in I as (o & I); discriminate|].
      cbn in I. intuition discriminate. }
  destruct H as [t o x r T NC C|t x T|t x wk w r T K R|t x T|t x T].
  - assert (pend t (tr ++ ECall t o :: snd (finish s t r)) = after o nil r) as PE.
    { rewrite pend_app. cbn [fold_left pend_step]. rewrite Nat.eqb_refl.
      rewrite finish_pend. cbn. reflexivity. }
    pose proof (call_fin _ _ _ _ W NC C) as FO. rewrite <- PE in FO. split.
    + apply (finish_thread_ok tr s t r [ECall t o]); auto.
      intros e [<- |[]]. reflexivity.
    + intros t' v e E. apply (FR t r [ECall t o]) in E as (-> & E1 & E2).
      2:{ intros e0 [<- |[]]. eauto. }
      rewrite E2. cbn [app]. rewrite E1 in FO. exact FO.
  - split.
    + intros t'. cbn [s_thr]. unfold upd. destruct (Nat.eqb_spec t' t) as [-> |N].
      * rewrite pend_app. cbn. rewrite Nat.eqb_refl. reflexivity.
      * rewrite pend_app, pend_other by (intros e [<- |[<- |[]]]; cbn; congruence).
        apply (notify_thread_ok (wmatch (pend t' tr)) (pend t' tr = mkPend (Some OClose) nil nil) true).
        apply TO.
    + intros t' v e E. change [ECall t OClose; EDiscard (unread (s_pipe s))] with
        ([ECall t OClose] ++ [EDiscard (unread (s_pipe s))]) in E.
      apply app_inj_tail in E as [_ E]. discriminate.
  - pose proof (TO t) as Tt. rewrite T in Tt.
    destruct (resume_fin _ _ _ _ _ W Tt R) as (o & O1 & O2 & FO).
    assert (pend t (tr ++ snd (finish s t r)) = after o (pd_take (pend t tr)) r) as PE.
    { rewrite pend_app, finish_pend, O1, O2. reflexivity. }
    rewrite <- PE in FO. split.
    + apply (finish_thread_ok tr s t r nil); auto. intros e [].
    + intros t' v e E. apply (FR t r nil) in E as (-> & E1 & E2); [|intros e0 []].
      rewrite E2. cbn [app]. rewrite E1 in FO. exact FO.
  - split.
    + intros t'. rewrite app_nil_r. cbn [s_thr]. unfold upd. pose proof (TO t') as Tt'.
      destruct (Nat.eqb_spec t' t) as [-> |N]; [|exact Tt']. rewrite T in Tt'. exact Tt'.
    + intros t' v e E. destruct e; discriminate.
  - split.
    + intros t'. cbn [s_thr]. unfold upd. pose proof (TO t') as Tt'.
      destruct (Nat.eqb_spec t' t) as [-> |N]; [exact I|].
      rewrite pend_app. exact Tt'.
    + intros t' v e E. change [ERet t VNone] with ([] ++ [ERet t VNone]) in E.
      apply app_inj_tail in E as [<- E]. inversion E; subst. rewrite app_nil_r.
      pose proof (TO t') as Tt'. rewrite T in Tt'. rewrite Tt'. cbn. psplit; auto. discriminate.
Qed.

Lemma thread_run b rb wb tm tr s : run (init b rb wb tm) tr s -> thread_ok tr s.
Proof.
  induction 1 as [|tr s l s' ev R IH S]; [intros t; exact I|].
  eapply thread_step; eauto. eapply run_wf; eauto.
Qed.

Lemma run_honest b rb wb tm tr s : run (init b rb wb tm) tr s ->
  forall a t v c, tr = a ++ ERet t v :: c -> honest (pend t a) v.
Proof.
  intros R a t v c E. destruct (run_ret _ _ _ R _ _ _ _ E) as (pre & s1 & l & s2 & ev & R1 & S & ->).
  eapply thread_step; [eapply run_wf; eauto | eapply thread_run; eauto | exact S | reflexivity].
Qed.

Definition infl (t0 : nat) (tr : list event) (s : sys) : str :=
  match s_thr s t0 with Waiting _ _ => pd_take (pend t0 tr) | _ => nil end.

Lemma returned_app a b : returned (a ++ b) = returned a ++ returned b.
Proof. unfold returned. rewrite map_app, concat_app. reflexivity. Qed.
Definition fin_data (f : fin) : str := match f with Return (VData d) => d | _ => nil end.
Lemma finish_returned s t r : returned (snd (finish s t r)) = fin_data (o_fin r).
Proof.
  unfold finish, returned, fin_data. destruct (o_fin r) as [v|w]; cbn; auto.
  destruct v; cbn; rewrite ?app_nil_r; auto.
Qed.

(** non-read operations move no bytes out and return no data *)
Lemma fin_nonread pd f o : pd_op pd = Some o -> ~ is_read o -> fin_ok pd f ->
  pd_take pd = nil /\ fin_data f = nil.
Proof.
  intros P N F. destruct f as [v|w]; unfold fin_ok, fin_data in *.
  - unfold honest in F. rewrite P in F. destruct o; cbn in N; try tauto;
      destruct F as (F1 & F2); try (destruct v; intuition; fail);
      try (destruct F2 as (F2 & F3); split; auto; destruct v; auto; exfalso; eapply F3; reflexivity).
  - destruct F as (_ & F). destruct w as [d|[n|n|data sv]|m cs| |c t]; destruct F as (F1 & F2);
      rewrite P in F1; injection F1 as ->; cbn in N; tauto.
Qed.

Lemma fin_read pd f : fin_ok pd f ->
  (forall v, f = Return v -> pd_op pd = Some OReadAll -> v <> VErr ETIMEDOUT) ->
  match f with Return _ => pd_take pd = fin_data f | Waits _ => fin_data f = nil end.
Proof.
  intros F NT. destruct f as [v|w]; auto. cbn in F. unfold honest in F. specialize (NT v eq_refl).
  unfold fin_data. destruct (pd_op pd) as [o|]; [|contradiction].
  destruct o; destruct F as (F1 & F2);
    try (destruct F2 as (F2 & F3); destruct v; auto; exfalso; eapply F3; reflexivity);
    try (destruct v; intuition; fail).
  destruct v; try contradiction; auto. destruct e; try contradiction. exfalso. apply NT; auto.
Qed.

Lemma returned_run b rb wb tm t0 tr s : run (init b rb wb tm) tr s ->
  only_reader t0 tr -> ~ readall_timed_out tr ->
  taken tr = returned tr ++ infl t0 tr s.
Proof.
  intros R0. pose proof R0 as R1. induction R1 as [|tr s l s' ev R IH S]; intros OR NT; [reflexivity|].
  assert (only_reader t0 tr) as OR0.
  { intros t o I. apply OR. apply in_or_app; auto. }
  assert (~ readall_timed_out tr) as NT0.
  { intros (a & t & c & -> & P). apply NT. exists a, t, (c ++ ev). rewrite <- app_assoc. auto. }
  specialize (IH R OR0 NT0). pose proof (run_wf _ _ _ _ _ _ R) as W.
  pose proof (thread_run _ _ _ _ _ _ R) as TO.
  apply step_case in S.
  (* the common part of calls and resumptions *)
  assert (forall t r pre o tk, ev = pre ++ snd (finish s t r) -> s' = fst (finish s t r) ->
    (pre = nil \/ pre = [ECall t o]) -> pd_op (pend t (tr ++ ev)) = Some o ->
    pd_take (pend t (tr ++ ev)) = tk ++ o_take r -> fin_ok (pend t (tr ++ ev)) (o_fin r) ->
    (t = t0 -> infl t0 tr s = tk) -> (is_read o -> t = t0) ->
    taken (tr ++ ev) = returned (tr ++ ev) ++ infl t0 (tr ++ ev) s') as KEY.
  { intros t r pre o tk Ev Es Pre Po Pt F IT IR.
    assert (taken ev = o_take r) as Tev.
    { rewrite Ev. destruct (finish_ev s t r) as (_ & T & _).
      destruct Pre as [-> | ->]; cbn [app]; auto. }
    assert (returned ev = fin_data (o_fin r)) as Rev.
    { rewrite Ev. destruct Pre as [-> | ->]; cbn [app]; apply finish_returned. }
    rewrite taken_app, returned_app, Tev, Rev, IH, <- !app_assoc. f_equal.
    destruct (Nat.eq_dec t t0) as [-> |Nt].
    - rewrite (IT eq_refl). unfold infl. rewrite Es, finish_thr, Nat.eqb_refl.
      assert (forall v, o_fin r = Return v -> pd_op (pend t0 (tr ++ ev)) = Some OReadAll -> v <> VErr ETIMEDOUT) as NV.
      { intros v Fv Pv ->. apply NT.
        exists (tr ++ pre ++ [EAccept t0 (o_acc r); ETake t0 (o_take r)]), t0, nil. split.
        - rewrite Ev. unfold finish. rewrite Fv. cbn. rewrite <- !app_assoc. reflexivity.
        - rewrite <- Pv, Ev. unfold finish. rewrite Fv. cbn [snd].
          rewrite !app_assoc, (pend_app t0 _ [ERet _ _]). reflexivity. }
      pose proof (fin_read _ _ F NV) as FR. rewrite Pt in FR.
      destruct (o_fin r) as [v|w]; [rewrite app_nil_r; exact FR|]. rewrite FR. cbn [app]. congruence.
    - assert (~ is_read o) as NR by (intros X; apply Nt; auto).
      destruct (fin_nonread _ _ _ Po NR F) as (F1 & F2). rewrite Pt in F1.
      apply app_eq_nil in F1 as [_ F1]. rewrite F1, F2, app_nil_r. cbn [app].
      unfold infl. rewrite Es, finish_thr.
      destruct (Nat.eqb_spec t0 t) as [E|_]; [congruence|].
      assert (pend t0 (tr ++ ev) = pend t0 tr) as ->.
      { rewrite pend_app. apply pend_other. intros e I. rewrite Ev in I.
        apply in_app_or in I as [I|I].
        - destruct Pre as [-> | ->]; [destruct I|]. destruct I as [<- |[]]. cbn. congruence.
        - rewrite (finish_thread _ _ _ _ I). congruence. }
      destruct (notify_cases (o_notify r) (s_thr s) t0) as [-> |(bb & w & -> & ->)]; reflexivity. }
  destruct S as [t o x r T NC C|t x T|t x wk w r T K Rs|t x T|t x T].
  - assert (pend t (tr ++ ECall t o :: snd (finish s t r)) = after o nil r) as PE.
    { rewrite pend_app. cbn [fold_left pend_step]. rewrite Nat.eqb_refl.
      rewrite finish_pend. cbn. reflexivity. }
    eapply (KEY t r [ECall t o] o nil); auto; try (rewrite PE; reflexivity).
    + rewrite PE. apply (call_fin _ _ _ _ W NC C).
    + intros ->. unfold infl. rewrite T. reflexivity.
    + intros IR. eapply OR; [|exact IR]. apply in_or_app. right. left. reflexivity.
  - rewrite taken_app, returned_app, IH. cbn. rewrite !app_nil_r. f_equal.
    unfold infl. cbn [s_thr]. unfold upd. destruct (Nat.eqb_spec t0 t) as [-> |N].
    + rewrite T. reflexivity.
    + rewrite pend_app, pend_other by (intros e [<- |[<- |[]]]; cbn; congruence).
      destruct (s_thr s t0); reflexivity.
  - pose proof (TO t) as Tt. rewrite T in Tt.
    destruct (resume_fin _ _ _ _ _ W Tt Rs) as (o & O1 & O2 & FO).
    assert (pend t (tr ++ snd (finish s t r)) = after o (pd_take (pend t tr)) r) as PE.
    { rewrite pend_app, finish_pend, O1, O2. reflexivity. }
    eapply (KEY t r nil o (pd_take (pend t tr))); auto; try (rewrite PE; reflexivity).
    + rewrite PE. exact FO.
    + intros ->. unfold infl. rewrite T. reflexivity.
    + intros IR. eapply OR0; [|exact IR]. clear - O1.
      induction tr as [|e tr IH] using rev_ind; [discriminate|].
      rewrite pend_app in O1. cbn [fold_left] in O1. apply in_or_app.
      destruct e; cbn in O1; try (left; apply IH; exact O1);
        destruct (Nat.eqb_spec t0 t); cbn in O1; try (left; apply IH; exact O1).
      right. left. congruence.
  - rewrite app_nil_r, IH. f_equal. unfold infl. cbn [s_thr]. unfold upd.
    destruct (Nat.eqb_spec t0 t) as [-> |N]; [rewrite T|]; reflexivity.
  - rewrite taken_app, returned_app, IH. cbn. rewrite !app_nil_r. f_equal.
    unfold infl. cbn [s_thr]. unfold upd. rewrite pend_app. cbn [fold_left pend_step].
    destruct (Nat.eqb_spec t0 t) as [-> |N]; [rewrite T|]; reflexivity.
Qed.
