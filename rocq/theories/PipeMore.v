(** End of file, time-outs, accounting and the reader event. *)
From Verif Require Import Py PipeModel PipeSpec PipeProofs PipeMain PipeHonest PipeLive.

(** ** frames *)
Definition rframe (p q : pipe) : Prop :=
  p_eof q = p_eof p /\ p_wstate q = p_wstate p /\ p_rbl q = p_rbl p.
Lemma rframe_refl p : rframe p p.
Proof. repeat split. Qed.
Lemma rframe_trans p q r : rframe p q -> rframe q r -> rframe p r.
Proof. unfold rframe; intuition congruence. Qed.
Lemma rframe_flag_set p : rframe p (flag_set p).
Proof. unfold flag_set. destruct (p_rflag p); repeat split. Qed.
Lemma rframe_flag_clear p : rframe p (flag_clear p).
Proof. unfold flag_clear. destruct (p_rflag p); repeat split. Qed.
Lemma rframe_canwrite p : rframe p (fst (canwrite p)).
Proof. unfold canwrite. destr; [|destr]; cbn; [apply rframe_refl|apply rframe_flag_clear|apply rframe_refl]. Qed.

Lemma readinto_loop_frame p n x : rframe p (rr_pipe (readinto_loop p n x)).
Proof.
  unfold readinto_loop. destruct (p_buf p) as [|src rest].
  { destr; [|destr; [destr|]]; apply rframe_refl. }
  destruct (Nat.eqb _ 0); cbn [rr_pipe]; destr; repeat split.
Qed.
Lemma readinto_start_frame p n x : rframe p (rr_pipe (readinto_start p n x)).
Proof. eapply rframe_trans; [apply rframe_flag_set|apply readinto_loop_frame]. Qed.
Lemma read_start_frame p n x : rframe p (rr_pipe (read_start p n x)).
Proof.
  unfold read_start. destruct (p_buf p); [apply readinto_start_frame|].
  destruct (p_rpos p); [|apply readinto_start_frame].
  destr; [|apply readinto_start_frame]. cbn [rr_pipe].
  eapply rframe_trans; [|apply rframe_flag_set]. repeat split.
Qed.
Lemma readall_frame : forall fuel r data save nt taken x o,
  readall_loop fuel r data save nt taken x = Some o -> rframe (rr_pipe r) (o_pipe o).
Proof.
  induction fuel as [|fuel IH]; intros r data save nt taken x o H;
    destruct r as [p nt' d|p|p|p]; cbn [readall_loop] in H;
    try (destruct d as [|c d]); try discriminate;
    try (inversion H; subst; apply rframe_refl).
  apply IH in H. eapply rframe_trans; [apply (read_start_frame p)|exact H].
Qed.
Lemma consolidate_frame p : rframe p (consolidate p).
Proof. unfold consolidate. destruct (p_buf p); repeat split. Qed.
Lemma nomatch_frame p m : rframe p (o_pipe (readmatch_nomatch p m)).
Proof.
  unfold readmatch_nomatch. destr; [apply rframe_refl|].
  pose proof (rframe_canwrite p) as S. destruct (canwrite p) as [p' [n|]]; [|exact S]. cbn in S.
  destr; [exact S|]. cbv zeta. destr; (eapply rframe_trans; [exact S|apply rframe_flag_set]).
Qed.
Lemma found_frame p m pos : rframe p (o_pipe (readmatch_found p m pos)).
Proof.
  unfold readmatch_found. destruct (p_buf p); [apply rframe_refl|]. cbn [o_pipe].
  eapply rframe_trans; [|apply rframe_flag_set]. destr; repeat split.
Qed.
Lemma readmatch_frame p m : rframe p (o_pipe (readmatch_body p m)).
Proof.
  unfold readmatch_body. destruct (p_buf p) as [|b0 r]; [apply nomatch_frame|].
  destruct (find_from m b0 (p_rpos p)); [apply found_frame|]. cbv zeta.
  destruct (p_buf (consolidate p)) as [|b0' r'];
    [eapply rframe_trans; [apply consolidate_frame|apply nomatch_frame]|].
  destruct (find_from m b0' 0); (eapply rframe_trans; [apply consolidate_frame|]);
    [apply found_frame|apply nomatch_frame].
Qed.
Lemma cond_frame p c t x : rframe p (o_pipe (cond_body p c t x)).
Proof.
  unfold cond_body. destruct c.
  - pose proof (rframe_canwrite p) as S. destruct (canwrite p) as [p' [n|]]; [|exact S]. cbn in S.
    destr; [destr|]; exact S.
  - destr; [|destr]; apply rframe_refl.
  - destruct (canread p) as [[|]|]; [|destr|]; apply rframe_refl.
Qed.

(** a write changes neither eof nor the mode; it notifies exactly when it moves wstate on *)
Lemma write_frame p d x : p_eof (o_pipe (write_body p d x)) = p_eof p /\
  p_rbl (o_pipe (write_body p d x)) = p_rbl p /\
  p_wstate (o_pipe (write_body p d x)) =
    p_wstate p + (if o_notify (write_body p d x) then 1 else 0).
Proof.
  unfold write_body. destr; [cbn; psplit; auto; lia|]. destruct (wlen p <=? 0).
  { destr; [destr|]; cbn; psplit; auto; lia. }
  destruct d as [[|c b]|[|c b]|b|]; cbn; psplit; auto; lia.
Qed.

Lemma call_eof p o x r : call_body p o x = Some r -> o <> OWriteEof -> p_eof (o_pipe r) = p_eof p.
Proof.
  intros H NE. destruct o; cbn [call_body] in H; unfold pure in H;
    try (injection H as <-); cbn [o_pipe]; auto.
  - apply write_frame.
  - congruence.
  - rewrite read_out_pipe. apply read_start_frame.
  - rewrite read_out_pipe. apply readinto_start_frame.
  - unfold readall_start in H. apply readall_frame in H as (H & _). rewrite H.
    destruct (read_start_frame (set_rbl p true) default_buffer_size x) as (-> & _). reflexivity.
  - apply readmatch_frame.
  - rewrite flush_pipe; auto.
  - discriminate.
  - pose proof (rframe_canwrite p) as S. destruct (canwrite p) as [p' [n|]]; injection H as <-; apply S.
  - destruct (canread p); injection H as <-; auto.
  - apply cond_frame.
  - apply rframe_flag_clear.
Qed.
Lemma resume_eof p w x r : resume_body p w x = Some r -> p_eof (o_pipe r) = p_eof p.
Proof.
  intros H. destruct w as [d|[n|n|data sv]|m cs| |c t]; cbn [resume_body] in H;
    try (injection H as <-).
  - apply write_frame.
  - rewrite read_out_pipe. apply readinto_loop_frame.
  - rewrite read_out_pipe. apply readinto_loop_frame.
  - apply readall_frame in H as (H & _). rewrite H. apply readinto_loop_frame.
  - unfold readmatch_resume. destr; auto. apply readmatch_frame.
  - rewrite flush_pipe; auto.
  - apply cond_frame.
Qed.

Lemma eof_called b rb wb tm tr s : run (init b rb wb tm) tr s ->
  p_eof (s_pipe s) = true -> called tr ends_stream.
Proof.
  induction 1 as [|tr s l s' ev R IH S]; intros E; [discriminate|].
  apply step_case in S.
  destruct S as [t o x r T NCl C|t x T|t x wk w r T K Rs|t x T|t x T].
  - rewrite finish_pipe in E.
    assert (o = OWriteEof \/ o <> OWriteEof) as [-> |N] by (destruct o; auto; right; discriminate).
    + exists t, OWriteEof. split; [|right; reflexivity]. apply in_or_app. right. left. reflexivity.
    + rewrite (call_eof _ _ _ _ C N) in E. apply called_app; auto.
  - exists t, OClose. split; [|left; reflexivity]. apply in_or_app. right. left. reflexivity.
  - rewrite finish_pipe, (resume_eof _ _ _ _ Rs) in E. apply called_app; auto.
  - rewrite app_nil_r. auto.
  - apply called_app. apply IH. cbn [s_pipe] in E.
    destruct (rframe_flag_set (s_pipe s)) as (F & _). congruence.
Qed.

Lemma cfg_run b rb wb tm tr s : run (init b rb wb tm) tr s ->
  p_tmo (s_pipe s) = tm /\ p_max (s_pipe s) = b.
Proof.
  intros R0. pose proof R0 as R1. induction R1 as [|tr s l s' ev R IH S]; [split; reflexivity|].
  specialize (IH R). pose proof (run_wf _ _ _ _ _ _ R) as W.
  apply step_case in S.
  destruct S as [t o x r T NCl C|t x T|t x wk w r T K Rs|t x T|t x T]; auto.
  - rewrite finish_pipe. destruct (call_good _ _ _ _ W C) as (_ & (M & Tm) & _). split; intuition congruence.
  - rewrite finish_pipe. destruct (resume_good _ _ _ _ W Rs) as (_ & (M & Tm) & _). split; intuition congruence.
  - cbn [s_pipe]. destruct (sim_flag_set (s_pipe s)) as (_ & _ & _ & _ & _ & M & Tm).
    rewrite M, Tm. auto.
Qed.

(** ** what produced a return *)
Definition op_of (w : waiting) : op :=
  match w with
  | WWrite d => OWrite d | WRead (KInto n) => OReadInto n | WRead (KRead n) => ORead n
  | WRead (KAll _ _) => OReadAll | WMatch m _ => OReadMatch m | WFlush => OFlush
  | WCond c t => OWaitFor c t
  end.

Lemma finish_last s t r e t' v : snd (finish s t r) = e ++ [ERet t' v] ->
  t' = t /\ o_fin r = Return v /\ e = [EAccept t (o_acc r); ETake t (o_take r)].
Proof.
  unfold finish. destruct (o_fin r); cbn; intros E.
  - change [EAccept t (o_acc r); ETake t (o_take r); ERet t v0]
      with ([EAccept t (o_acc r); ETake t (o_take r)] ++ [ERet t v0]) in E.
    apply app_inj_tail in E as [E1 E2]. injection E2 as -> ->. auto.
  - change [EAccept t (o_acc r); ETake t (o_take r)]
      with ([EAccept t (o_acc r)] ++ [ETake t (o_take r)]) in E.
    apply app_inj_tail in E as [_ E]. discriminate.
Qed.

Lemma ret_cases b rb wb tm tr s : run (init b rb wb tm) tr s ->
  forall a t v c, tr = a ++ ERet t v :: c ->
  exists pre s1 s2 o,
    run (init b rb wb tm) pre s1 /\ run (init b rb wb tm) (a ++ [ERet t v]) s2 /\
    (exists ev, a = pre ++ ev) /\
    pd_op (pend t a) = Some o /\
    ((o = OClose /\ v = VNone) \/
     exists r x, o_fin r = Return v /\ s_pipe s2 = o_pipe r /\
       (call_body (s_pipe s1) o x = Some r \/
        exists wk w, o = op_of w /\ s_thr s1 t = Waiting wk w /\ wk || timed (s_pipe s1) w = true /\
          resume_body (s_pipe s1) w x = Some r)).
Proof.
  intros R a t v c E. destruct (run_ret _ _ _ R _ _ _ _ E) as (pre & s1 & l & s2 & ev & R1 & S & ->).
  assert (run (init b rb wb tm) ((pre ++ ev) ++ [ERet t v]) s2) as R2.
  { rewrite <- app_assoc. econstructor; eauto. }
  pose proof (thread_run _ _ _ _ _ _ R1) as TO.
  apply step_case in S. remember (ev ++ [ERet t v]) as es eqn:Ees.
  destruct S as [t0 o x r T NCl C|t0 x T|t0 x wk w r T K Rs|t0 x T|t0 x T].
  - destruct ev as [|e0 ev]; [destruct (snd (finish s1 t0 r)); discriminate|].
    cbn in Ees. injection Ees as <- Ees. apply finish_last in Ees as (-> & F & ->).
    exists pre, s1, (fst (finish s1 t0 r)), o. psplit; eauto.
    + rewrite pend_app. cbn. rewrite Nat.eqb_refl. reflexivity.
    + right. exists r, x. psplit; auto. apply finish_pipe.
  - change [ECall t0 OClose; EDiscard (unread (s_pipe s1))]
      with ([ECall t0 OClose] ++ [EDiscard (unread (s_pipe s1))]) in Ees.
    apply app_inj_tail in Ees as [_ Ees]. discriminate.
  - apply finish_last in Ees as (-> & F & ->). pose proof (TO t0) as Tt. rewrite T in Tt.
    exists pre, s1, (fst (finish s1 t0 r)), (op_of w). psplit; eauto.
    + rewrite pend_app. cbn. rewrite !Nat.eqb_refl. cbn. destruct Tt as (_ & Tt).
      destruct w as [d|[n|n|data sv]|m cs| |cc tt]; apply Tt.
    + right. exists r, x. psplit; auto. apply finish_pipe. right. exists wk, w. auto.
  - destruct ev; discriminate.
  - change [ERet t0 VNone] with ([] ++ [ERet t0 VNone]) in Ees.
    apply app_inj_tail in Ees as [<- Ees]. injection Ees as <- ->.
    pose proof (TO t0) as Tt. rewrite T in Tt.
    eexists pre, s1, _, OClose. psplit; [exact R1|exact R2|eauto| |left; auto].
    rewrite app_nil_r, Tt. reflexivity.
Qed.

(** ** end of file *)
Lemma readinto_loop_eof p n x q nt : wf p -> ne p -> (0 < n)%nat ->
  readinto_loop p n x = RGot q nt nil -> p_eof q = true /\ p_buf q = nil.
Proof.
  intros W N Hn. unfold readinto_loop. destruct (p_buf p) as [|src rest] eqn:B.
  - destr; [|destr; [destr|]]; intros H; inversion H; subst; auto.
  - destruct W as (W1 & _). unfold ne in N. rewrite B in *. inversion N; subst.
    assert (0 < length src)%nat by (destruct src; [congruence|cbn; lia]).
    set (k := if (length src - p_rpos p <? n)%nat then _ else _).
    assert (0 < k)%nat as K by (unfold k; destr; b2p; lia).
    assert (length (slice (p_rpos p) (p_rpos p + k) src) = k) as L.
    { unfold slice. rewrite firstn_length, skipn_length. unfold k. destr; b2p; lia. }
    clearbody k. intros HR.
    assert (slice (p_rpos p) (p_rpos p + k) src = nil) as SN.
    { destruct (Nat.eqb k 0); inversion HR; auto. }
    rewrite SN in L. cbn in L. lia.
Qed.
Lemma readinto_start_eof p n x q nt : wf p -> ne p -> (0 < n)%nat ->
  readinto_start p n x = RGot q nt nil -> p_eof q = true /\ p_buf q = nil.
Proof.
  intros W N Hn. apply readinto_loop_eof; auto.
  - eapply sim_wf; [apply sim_flag_set|auto].
  - eapply ne_sim; [apply sim_flag_set|auto].
Qed.
Lemma read_start_eof p n x q nt : wf p -> ne p -> (0 < n)%nat ->
  read_start p n x = RGot q nt nil -> p_eof q = true /\ p_buf q = nil.
Proof.
  intros W N Hn. unfold read_start. destruct (p_buf p) as [|src rest] eqn:B;
    [apply readinto_start_eof; auto|].
  destruct (p_rpos p); [|apply readinto_start_eof; auto].
  destr; [|apply readinto_start_eof; auto]. intros H. inversion H; subst.
  unfold ne in N. rewrite B in N. inversion N; congruence.
Qed.
Lemma default_pos : (0 < default_buffer_size)%nat.
Proof. unfold default_buffer_size. lia. Qed.

Lemma readinto_loop_none p n x q : readinto_loop p n x = RNone q -> p_rbl p = false.
Proof.
  unfold readinto_loop. destruct (p_buf p).
  - destr; [discriminate|]. destr; [destr; discriminate|]. auto.
  - destr; discriminate.
Qed.
Lemma readinto_start_none p n x q : readinto_start p n x = RNone q -> p_rbl p = false.
Proof.
  intros H. apply readinto_loop_none in H. destruct (rframe_flag_set p) as (_ & _ & F). congruence.
Qed.
Lemma read_start_none p n x q : read_start p n x = RNone q -> p_rbl p = false.
Proof.
  unfold read_start. destruct (p_buf p); [apply readinto_start_none|].
  destruct (p_rpos p); [|apply readinto_start_none]. destr; [discriminate|apply readinto_start_none].
Qed.

Lemma readall_eof : forall fuel p r data save nt taken x o v,
  wf p -> ne p -> p_rbl p = true ->
  (r = read_start p default_buffer_size x \/ r = readinto_loop p default_buffer_size x) ->
  readall_loop fuel r data save nt taken x = Some o -> o_fin o = Return (VData v) ->
  p_eof (o_pipe o) = true /\ p_buf (o_pipe o) = nil.
Proof.
  induction fuel as [|fuel IH]; intros p r data save nt taken x o v W N RB Er H F;
  assert (rgood p r) as G by (destruct Er as [-> | ->]; [apply read_start_good|apply readinto_loop_good]; auto);
  assert (ne (rr_pipe r)) as NE by (destruct Er as [-> | ->]; [apply read_start_ne|apply readinto_loop_ne]; auto);
  assert (rframe p (rr_pipe r)) as FR by (destruct Er as [-> | ->]; [apply read_start_frame|apply readinto_loop_frame]);
  assert (forall q nt', r = RGot q nt' nil -> p_eof q = true /\ p_buf q = nil) as Q1
    by (intros q nt' Eq; rewrite Eq in Er; destruct Er as [Er|Er]; symmetry in Er;
        [eapply (read_start_eof p default_buffer_size x)|eapply (readinto_loop_eof p default_buffer_size x)]; eauto using default_pos);
  assert (forall q, r <> RNone q) as Q2
    by (intros q Eq; rewrite Eq in Er; destruct Er as [Er|Er]; symmetry in Er;
        [apply read_start_none in Er|apply readinto_loop_none in Er]; congruence);
    destruct r as [q nt' d|q|q|q]; cbn [readall_loop] in H;
    try (exfalso; eapply Q2; reflexivity);
    try (inversion H; subst; discriminate);
    destruct d as [|c d]; try discriminate;
    try (inversion H; subst; eapply Q1; reflexivity).
  eapply (IH q); [| | | left; reflexivity | exact H | exact F]; cbn [rr_pipe] in *; auto.
  - destruct (G (Return VNone)) as (G' & _). exact G'.
  - destruct FR as (_ & _ & FR). congruence.
Qed.

(** the mode stays blocking while nobody sets it otherwise *)
Lemma call_rbl p o x r : call_body p o x = Some r -> ~ sets_nonblocking o ->
  p_rbl (o_pipe r) = p_rbl p \/ p_rbl (o_pipe r) = true.
Proof.
  intros H NS. destruct o; cbn [call_body] in H; unfold pure in H;
    try (injection H as <-); cbn [o_pipe]; auto.
  - left. apply write_frame.
  - left. rewrite read_out_pipe. apply read_start_frame.
  - left. rewrite read_out_pipe. apply readinto_start_frame.
  - right. unfold readall_start in H. apply readall_frame in H as (_ & _ & H). rewrite H.
    destruct (read_start_frame (set_rbl p true) default_buffer_size x) as (_ & _ & ->). reflexivity.
  - left. apply readmatch_frame.
  - left. rewrite flush_pipe; auto.
  - discriminate.
  - left. pose proof (rframe_canwrite p) as S. destruct (canwrite p) as [p' [n|]]; injection H as <-; apply S.
  - left. destruct (canread p); injection H as <-; auto.
  - left. apply cond_frame.
  - right. cbn. destruct b; auto. exfalso. apply NS. reflexivity.
  - left. apply rframe_flag_clear.
Qed.
Lemma call_readall_rbl p x r : call_body p OReadAll x = Some r -> p_rbl (o_pipe r) = true.
Proof.
  cbn [call_body]. unfold readall_start. intros H. apply readall_frame in H as (_ & _ & H). rewrite H.
  destruct (read_start_frame (set_rbl p true) default_buffer_size x) as (_ & _ & ->). reflexivity.
Qed.
Lemma resume_rbl p w x r : resume_body p w x = Some r -> p_rbl (o_pipe r) = p_rbl p.
Proof.
  intros H. destruct w as [d|[n|n|data sv]|m cs| |c t]; cbn [resume_body] in H;
    try (injection H as <-).
  - apply write_frame.
  - rewrite read_out_pipe. apply readinto_loop_frame.
  - rewrite read_out_pipe. apply readinto_loop_frame.
  - apply readall_frame in H as (_ & _ & H). rewrite H. apply readinto_loop_frame.
  - unfold readmatch_resume. destr; auto. apply readmatch_frame.
  - rewrite flush_pipe; auto.
  - apply cond_frame.
Qed.

Lemma all_rbl b rb wb tm tr s : run (init b rb wb tm) tr s -> ~ called tr sets_nonblocking ->
  called tr (fun o => o = OReadAll) -> p_rbl (s_pipe s) = true.
Proof.
  induction 1 as [|tr s l s' ev R IH S]; intros NS CA.
  { destruct CA as (t & o & [] & _). }
  pose proof (not_called_app _ _ _ NS) as NS0. specialize (IH NS0).
  apply step_case in S.
  assert (forall t o, In (ECall t o) tr \/ True) as _ by auto.
  destruct S as [t o x r T NCl C|t x T|t x wk w r T K Rs|t x T|t x T].
  - rewrite finish_pipe.
    assert (o = OReadAll \/ o <> OReadAll) as [-> |N] by (destruct o; auto; right; discriminate).
    { eapply call_readall_rbl; eauto. }
    assert (called tr (fun o => o = OReadAll)) as CA0.
    { destruct CA as (t' & o' & I & ->). apply in_app_or in I as [I|[I|I]].
      - exists t', OReadAll; auto.
      - injection I as _ I. congruence.
      - exfalso. revert I. unfold finish. destruct (o_fin r); cbn; intuition discriminate. }
    destruct (call_rbl _ _ _ _ C) as [->| ->]; auto.
    intros E. apply NS. exists t, o. split; auto. apply in_or_app. right. left. reflexivity.
  - cbn. apply IH. destruct CA as (t' & o' & I & ->). apply in_app_or in I as [I|[I|[I|[]]]]; try discriminate.
    exists t', OReadAll; auto.
  - rewrite finish_pipe, (resume_rbl _ _ _ _ Rs). apply IH.
    destruct CA as (t' & o' & I & ->). apply in_app_or in I as [I|I]; [exists t', OReadAll; auto|].
    exfalso. revert I. unfold finish. destruct (o_fin r); cbn; intuition discriminate.
  - rewrite app_nil_r in CA. cbn. auto.
  - cbn [s_pipe]. destruct (rframe_flag_set (s_pipe s)) as (_ & _ & ->). apply IH.
    destruct CA as (t' & o' & I & ->). apply in_app_or in I as [I|[I|[]]]; try discriminate.
    exists t', OReadAll; auto.
Qed.

Lemma drained b rb wb tm a t v s2 : run (init b rb wb tm) (a ++ [ERet t v]) s2 ->
  p_eof (s_pipe s2) = true -> p_buf (s_pipe s2) = nil ->
  called a ends_stream /\ accepted a = taken a ++ discarded a.
Proof.
  intros R E B. split.
  - apply eof_called in R; auto. destruct R as (t' & o & I & P). exists t', o. split; auto.
    apply in_app_or in I as [I|[I|[]]]; [auto|discriminate].
  - apply fifo_run in R as [(_ & F & _) _].
    rewrite accepted_app, taken_app, discarded_app in F.
    unfold accepted at 2, taken at 2, discarded at 2 in F. cbn in F. rewrite !app_nil_r in F.
    unfold unread in F. rewrite B, skipn_nil, app_nil_r in F. exact F.
Qed.

Lemma read_eof b rb wb tm tr s : run (init b rb wb tm) tr s ->
  forall a t c n, tr = a ++ ERet t (VData nil) :: c ->
  pd_op (pend t a) = Some (ORead n) \/ pd_op (pend t a) = Some (OReadInto n) -> (0 < n)%nat ->
  ~ called a empty_array_write ->
  called a ends_stream /\ accepted a = taken a ++ discarded a.
Proof.
  intros R a t c n E P Hn NC.
  destruct (ret_cases _ _ _ _ _ _ R _ _ _ _ E) as (pre & s1 & s2 & o & R1 & R2 & (ev & Ea) & Po & K).
  assert (ne (s_pipe s1)) as N.
  { eapply ne_run; eauto. rewrite Ea in NC. eapply not_called_app; eauto. }
  pose proof (run_wf _ _ _ _ _ _ R1) as W.
  assert (o = ORead n \/ o = OReadInto n) as Ho by (rewrite Po in P; destruct P; [left|right]; congruence).
  destruct K as [[-> _]|(r & x & F & S2 & K)]; [destruct Ho; discriminate|].
  assert (p_eof (s_pipe s2) = true /\ p_buf (s_pipe s2) = nil) as [E1 E2];
    [|eapply drained; eauto].
  rewrite S2. destruct K as [K|(wk & w & -> & _ & _ & K)].
  - destruct Ho as [-> | ->]; cbn [call_body] in K; injection K as <-; rewrite read_out_pipe.
    + destruct (read_start (s_pipe s1) n x) eqn:Er; cbn in F; try discriminate.
      injection F as ->. eapply read_start_eof; eauto.
    + destruct (readinto_start (s_pipe s1) n x) eqn:Er; cbn in F; try discriminate.
      injection F as ->. eapply readinto_start_eof; eauto.
  - destruct w as [d|[k|k|data sv]|m cs| |cc tt]; destruct Ho as [Ho|Ho]; try discriminate;
      injection Ho as ->; cbn [resume_body] in K; injection K as <-; rewrite read_out_pipe;
      destruct (readinto_loop (s_pipe s1) n x) eqn:Er; cbn in F; try discriminate;
      injection F as ->; eapply readinto_loop_eof; eauto.
Qed.

Lemma readall_complete b rb wb tm tr s : run (init b rb wb tm) tr s ->
  forall a t c v, tr = a ++ ERet t (VData v) :: c ->
  pd_op (pend t a) = Some OReadAll ->
  ~ called a empty_array_write -> ~ called a sets_nonblocking ->
  called a ends_stream /\ accepted a = taken a ++ discarded a.
Proof.
  intros R a t c v E P NC NS.
  destruct (ret_cases _ _ _ _ _ _ R _ _ _ _ E) as (pre & s1 & s2 & o & R1 & R2 & (ev & Ea) & Po & K).
  assert (ne (s_pipe s1)) as N.
  { eapply ne_run; eauto. rewrite Ea in NC. eapply not_called_app; eauto. }
  pose proof (run_wf _ _ _ _ _ _ R1) as W.
  assert (o = OReadAll) as -> by congruence.
  destruct K as [[K _]|(r & x & F & S2 & K)]; [discriminate|].
  assert (p_eof (s_pipe s2) = true /\ p_buf (s_pipe s2) = nil) as [E1 E2];
    [|eapply drained; eauto].
  rewrite S2. destruct K as [K|(wk & w & Ew & T & _ & K)].
  - cbn [call_body] in K. unfold readall_start in K.
    eapply (readall_eof _ (set_rbl (s_pipe s1) true)); [| | |left; reflexivity|exact K|exact F]; auto.
  - destruct w as [d|[k|k|data sv]|m cs| |cc tt]; try discriminate.
    cbn [resume_body] in K.
    eapply (readall_eof _ (s_pipe s1)); [auto|auto| |right; reflexivity|exact K|exact F].
    eapply all_rbl; eauto. { rewrite Ea in NS. eapply not_called_app; eauto. }
    pose proof (thread_run _ _ _ _ _ _ R1 t) as TO. rewrite T in TO. destruct TO as (_ & TO & _).
    apply pd_op_called in TO. exists t, OReadAll. auto.
Qed.

(** ** time-outs *)
Lemma readinto_loop_tmo p n x q : readinto_loop p n x = RTimeout q -> p_tmo p = true.
Proof.
  unfold readinto_loop. destruct (p_buf p); [|destr; discriminate].
  destr; [discriminate|]. destr; [|discriminate]. destr; [|discriminate]. b2p. auto.
Qed.
Lemma readinto_start_tmo p n x q : readinto_start p n x = RTimeout q -> p_tmo p = true.
Proof.
  intros H. apply readinto_loop_tmo in H. destruct (sim_flag_set p) as (_ & _ & _ & _ & _ & _ & F). congruence.
Qed.
Lemma read_start_tmo p n x q : read_start p n x = RTimeout q -> p_tmo p = true.
Proof.
  unfold read_start. destruct (p_buf p); [apply readinto_start_tmo|].
  destruct (p_rpos p); [|apply readinto_start_tmo]. destr; [discriminate|apply readinto_start_tmo].
Qed.
Lemma readall_tmo : forall fuel r data save nt taken x o,
  wf (rr_pipe r) ->
  (forall q, r = RTimeout q -> p_tmo (rr_pipe r) = true) ->
  readall_loop fuel r data save nt taken x = Some o -> o_fin o = Return (VErr ETIMEDOUT) ->
  p_tmo (rr_pipe r) = true.
Proof.
  induction fuel as [|fuel IH]; intros r data save nt taken x o W Q H F;
    destruct r as [p nt' d|p|p|p]; cbn [readall_loop] in H;
    try (destruct d as [|c d]); try discriminate;
    try (inversion H; subst; discriminate);
    try (eapply Q; reflexivity).
  cbn [rr_pipe] in *.
  destruct (read_start_good p default_buffer_size x W (Return VNone)) as (W' & (_ & T) & _).
  cbn [o_pipe] in *. rewrite <- T. eapply IH; [exact W'| |exact H|exact F].
  intros q E. rewrite T. eapply read_start_tmo; eauto.
Qed.

Definition may_time_out (tm : bool) (o : op) : Prop :=
  tm = true \/ (exists c, o = OWaitFor c true) \/ is_readmatch o.

Lemma body_tmo p o x r : wf p -> call_body p o x = Some r -> o_fin r = Return (VErr ETIMEDOUT) ->
  may_time_out (p_tmo p) o.
Proof.
  intros W H F. unfold may_time_out.
  destruct o; cbn [call_body] in H; unfold pure in H; try (injection H as <-);
    try (cbn in F; discriminate).
  - left. unfold write_body in F. destruct (p_closed p || p_eof p); [discriminate|].
    destruct (wlen p <=? 0).
    + destr; [destr|]; try discriminate. b2p. auto.
    + destruct d as [[|]|[|]| |]; discriminate.
  - left. destruct (read_start p n x) eqn:E; cbn in F; try discriminate. eapply read_start_tmo; eauto.
  - left. destruct (readinto_start p n x) eqn:E; cbn in F; try discriminate. eapply readinto_start_tmo; eauto.
  - left. unfold readall_start in H.
    assert (wf (set_rbl p true)) as W' by (eapply sim_wf; [apply sim_rbl|auto]).
    destruct (read_start_good _ default_buffer_size x W' (Return VNone)) as (W2 & (_ & T) & _).
    cbn [o_pipe] in *. change (p_tmo p) with (p_tmo (set_rbl p true)). rewrite <- T.
    eapply readall_tmo; [exact W2| |exact H|exact F].
    intros q E. rewrite T. eapply read_start_tmo; eauto.
  - right; right. exists m; auto.
  - left. unfold flush_body in F. destruct (p_buf p); [discriminate|]. destr; [destr|]; try discriminate. b2p. auto.
  - destruct (canwrite p) as [p' [n|]]; injection H as <-; discriminate.
  - destruct (canread p); injection H as <-; discriminate.
  - right; left. exists c. f_equal. unfold cond_body in F. destruct c.
    + destruct (canwrite p) as [p' [n|]]; [|discriminate]. destr; [destr|]; try discriminate. b2p. auto.
    + destr; [|destr]; try discriminate. b2p. auto.
    + destruct (canread p) as [[|]|]; [|destr|]; try discriminate. b2p. auto.
Qed.

Lemma resume_tmo p w x r : wf p -> resume_body p w x = Some r -> o_fin r = Return (VErr ETIMEDOUT) ->
  may_time_out (p_tmo p) (op_of w).
Proof.
  intros W H F. unfold may_time_out.
  destruct w as [d|[n|n|data sv]|m cs| |c t]; cbn [resume_body op_of] in *.
  - apply (body_tmo p (OWrite d) x r W H F).
  - injection H as <-. left. destruct (readinto_loop p n x) eqn:E; cbn in F; try discriminate. eapply readinto_loop_tmo; eauto.
  - injection H as <-. left. destruct (readinto_loop p n x) eqn:E; cbn in F; try discriminate. eapply readinto_loop_tmo; eauto.
  - left. destruct (readinto_loop_good p default_buffer_size x W (Return VNone)) as (W2 & (_ & T) & _).
    cbn [o_pipe] in *. rewrite <- T.
    eapply readall_tmo; [exact W2| |exact H|exact F].
    intros q E. rewrite T. eapply readinto_loop_tmo; eauto.
  - right; right. exists m; auto.
  - apply (body_tmo p OFlush x r W H F).
  - apply (body_tmo p (OWaitFor c t) x r W H F).
Qed.

Lemma run_timeout b rb wb tm tr s : run (init b rb wb tm) tr s ->
  forall a t c o, tr = a ++ ERet t (VErr ETIMEDOUT) :: c -> pd_op (pend t a) = Some o ->
  may_time_out tm o.
Proof.
  intros R a t c o E P.
  destruct (ret_cases _ _ _ _ _ _ R _ _ _ _ E) as (pre & s1 & s2 & o' & R1 & R2 & _ & Po & K).
  assert (o' = o) as -> by congruence.
  pose proof (run_wf _ _ _ _ _ _ R1) as W. destruct (cfg_run _ _ _ _ _ _ R1) as (T & _).
  destruct K as [[_ K]|(r & x & F & S2 & K)]; [discriminate|]. rewrite <- T.
  destruct K as [K|(wk & w & -> & _ & _ & K)].
  - eapply body_tmo; eauto.
  - eapply resume_tmo; eauto.
Qed.
