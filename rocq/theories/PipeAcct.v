(** Accounting, flow control, readmatch time-outs and the reader event of the Pipe. *)
From Verif Require Import Py PipeModel PipeSpec PipeProofs PipeMain PipeHonest PipeLive PipeMore.

(** ** exact accounting *)
Definition exact (p : pipe) : Prop := p_bsize p = Z.of_nat (length (concat (p_buf p))).

Lemma exact_sim p q : sim p q -> exact p -> exact q.
Proof. unfold exact. intros (-> & -> & _). auto. Qed.
Lemma exact_take1 p src rest k : p_buf p = src :: rest -> exact p -> exact (take1 p src rest k).
Proof.
  intros B X. unfold take1. destr.
  - unfold exact in *; cbn. rewrite B in X. cbn in X. rewrite app_length in X. lia.
  - exact X.
Qed.
Lemma readinto_loop_exact p n x : exact p -> exact (rr_pipe (readinto_loop p n x)).
Proof.
  intros N. unfold readinto_loop. destruct (p_buf p) as [|src rest] eqn:B.
  { destr; [|destr; [destr|]]; auto. }
  rewrite <- B. match goal with |- context [Nat.eqb ?k 0] => fold (take1 p src rest k);
    pose proof (exact_take1 p src rest k B N) end.
  destruct (Nat.eqb _ 0); cbn [rr_pipe]; auto.
Qed.
Lemma readinto_start_exact p n x : exact p -> exact (rr_pipe (readinto_start p n x)).
Proof. intros N. apply readinto_loop_exact. eapply exact_sim; [apply sim_flag_set|auto]. Qed.
Lemma read_start_exact p n x : exact p -> exact (rr_pipe (read_start p n x)).
Proof.
  intros N. unfold read_start. destruct (p_buf p) as [|src rest] eqn:B; [apply readinto_start_exact; auto|].
  destruct (p_rpos p); [|apply readinto_start_exact; auto].
  destr; [|apply readinto_start_exact; auto]. cbn [rr_pipe].
  eapply exact_sim; [apply sim_flag_set|]. unfold exact in *; cbn.
  rewrite B in N. cbn in N. rewrite app_length in N. lia.
Qed.
Lemma readall_exact : forall fuel r data save nt taken x o, exact (rr_pipe r) ->
  readall_loop fuel r data save nt taken x = Some o -> exact (o_pipe o).
Proof.
  induction fuel as [|fuel IH]; intros r data save nt taken x o N H;
    destruct r as [p nt' d|p|p|p]; cbn [readall_loop] in H;
    try (destruct d as [|c d]); try discriminate;
    try (inversion H; subst; exact N).
  eapply IH; [|exact H]. apply read_start_exact; auto.
Qed.
Lemma write_exact p d x : exact p -> exact (o_pipe (write_body p d x)).
Proof.
  intros N. unfold write_body. destr; auto. destruct (wlen p <=? 0) eqn:L. { destr; auto. destr; auto. }
  unfold exact in *.
  destruct d as [[|c b]|[|c b]|b|]; auto; cbn [o_pipe inc_wstate set_buf p_bsize p_buf];
    rewrite concat_snoc, app_length; try lia.
  rewrite firstn_length. b2p. destr; b2p; lia.
Qed.

Lemma call_exact p o x r : ~ is_readmatch o -> exact p -> call_body p o x = Some r -> exact (o_pipe r).
Proof.
  intros D N H. destruct o; cbn [call_body] in H; unfold pure in H;
    try (injection H as <-); cbn [o_pipe]; auto.
  - apply write_exact; auto.
  - rewrite read_out_pipe. apply read_start_exact; auto.
  - rewrite read_out_pipe. apply readinto_start_exact; auto.
  - unfold readall_start in H. eapply readall_exact; [|exact H]. apply read_start_exact; auto.
  - exfalso. apply D. exists m. auto.
  - rewrite flush_pipe; auto.
  - discriminate.
  - pose proof (canwrite_sim p) as S. destruct (canwrite p) as [p' [n|]]; injection H as <-;
      eapply exact_sim; eauto.
  - destruct (canread p); injection H as <-; auto.
  - eapply exact_sim; [apply cond_sim|auto].
  - eapply exact_sim; [apply sim_flag_clear|auto].
Qed.
Lemma resume_exact p w x r : (forall m cs, w <> WMatch m cs) -> exact p ->
  resume_body p w x = Some r -> exact (o_pipe r).
Proof.
  intros D N H. destruct w as [d|[n|n|data sv]|m cs| |c t]; cbn [resume_body] in H;
    try (injection H as <-).
  - apply write_exact; auto.
  - rewrite read_out_pipe. apply readinto_loop_exact; auto.
  - rewrite read_out_pipe. apply readinto_loop_exact; auto.
  - eapply readall_exact; [|exact H]. apply readinto_loop_exact; auto.
  - exfalso. eapply D. reflexivity.
  - rewrite flush_pipe; auto.
  - eapply exact_sim; [apply cond_sim|auto].
Qed.

Lemma exact_run b rb wb tm tr s : run (init b rb wb tm) tr s ->
  ~ called tr is_readmatch -> exact (s_pipe s).
Proof.
  induction 1 as [|tr s l s' ev R IH S]; intros NC; [reflexivity|].
  specialize (IH (not_called_app _ _ _ NC)). apply step_case in S.
  destruct S as [t o x r T NCl C|t x T|t x wk w r T K Rs|t x T|t x T].
  - rewrite finish_pipe. eapply call_exact; eauto. intros E. apply NC. exists t, o. split; auto.
    apply in_or_app. right. left. reflexivity.
  - reflexivity.
  - rewrite finish_pipe. eapply resume_exact; eauto. intros m cs ->.
    pose proof (thread_run _ _ _ _ _ _ R t) as TO. rewrite T in TO. destruct TO as (_ & TO & _).
    apply pd_op_called in TO. apply NC. exists t, (OReadMatch m). split; [apply in_or_app; auto|].
    exists m; auto.
  - exact IH.
  - eapply exact_sim; [apply sim_flag_set|exact IH].
Qed.

Lemma unread_length p : wf p ->
  Z.of_nat (length (unread p)) = Z.of_nat (length (concat (p_buf p))) - Z.of_nat (p_rpos p).
Proof.
  intros W. pose proof (wf_rpos_concat p W). unfold unread. rewrite skipn_length. lia.
Qed.

Lemma buffered_ge p : wf p -> Z.of_nat (length (unread p)) <= buffered p.
Proof. intros W. rewrite unread_length by auto. unfold buffered. destruct W as (_ & W & _). lia. Qed.
Lemma buffered_exact p : wf p -> exact p -> buffered p = Z.of_nat (length (unread p)).
Proof. intros W X. rewrite unread_length by auto. unfold buffered, exact in *. lia. Qed.
Lemma wlen_le p : wf p -> wlen p <= p_max p - Z.of_nat (length (unread p)).
Proof. intros W. pose proof (buffered_ge p W). unfold buffered, wlen in *. lia. Qed.

(** ** flow control *)
Lemma write_acc p d x : wf p -> o_acc (write_body p d x) <> nil ->
  Z.of_nat (length (unread p)) < p_max p /\
  (forall b, d = DArray b -> Z.of_nat (length (unread (o_pipe (write_body p d x)))) <= p_max p).
Proof.
  intros W HA. pose proof (wlen_le p W) as L. pose proof (write_good p d x W) as (_ & _ & U & _).
  assert (o_take (write_body p d x) = nil) as TK.
  { unfold write_body. destr; auto. destr. { destr; auto. destr; auto. }
    destruct d as [[|]|[|]| |]; auto. }
  rewrite TK in U. cbn [app] in U. rewrite <- U. rewrite app_length.
  revert HA. clear U TK. unfold write_body. destr; [cbn; congruence|].
  destruct (wlen p <=? 0) eqn:L2. { destr; [destr|]; cbn; congruence. }
  b2p. intros HA. split; [lia|]. intros b ->. cbn [o_acc]. rewrite firstn_length. destr; b2p; lia.
Qed.

Lemma call_acc p o x r : wf p -> call_body p o x = Some r -> o_acc r <> nil ->
  exists d, o = OWrite d /\ r = write_body p d x.
Proof.
  intros W H A. destruct o; cbn [call_body] in H; unfold pure in H;
    try (injection H as <-); try (cbn in A; congruence); eauto.
  - exfalso. destruct (read_start p n x); cbn in A; congruence.
  - exfalso. destruct (readinto_start p n x); cbn in A; congruence.
  - exfalso. unfold readall_start in H.
    pose proof (readall_fin _ _ _ _ nil _ nil nil _ eq_refl H) as F.
    unfold fin_ok, after, honest, wmatch in F. cbn [pd_op pd_acc] in F.
    destruct (o_fin r); apply A, F.
  - exfalso. pose proof (readmatch_fin p m W) as F.
    unfold fin_ok, after, honest, wmatch in F. cbn [pd_op pd_acc] in F.
    destruct (o_fin (readmatch_body p m)); apply A, F.
  - exfalso. pose proof (flush_fin p x) as F.
    unfold fin_ok, after, honest, wmatch in F. cbn [pd_op pd_acc] in F.
    destruct (o_fin (flush_body p x)); apply A, F.
  - exfalso. destruct (canwrite p) as [p' [n|]]; injection H as <-; cbn in A; congruence.
  - exfalso. destruct (canread p); injection H as <-; cbn in A; congruence.
  - exfalso. pose proof (cond_fin p c tmo x) as F.
    unfold fin_ok, after, honest, wmatch in F. cbn [pd_op pd_acc] in F.
    destruct (o_fin (cond_body p c tmo x)); apply A, F.
Qed.
Lemma resume_acc p w x r : wf p -> resume_body p w x = Some r -> o_acc r <> nil ->
  exists d, w = WWrite d /\ r = write_body p d x.
Proof.
  intros W H A. destruct w as [d|[n|n|data sv]|m cs| |c t]; cbn [resume_body] in H;
    try (injection H as <-); eauto; exfalso.
  - destruct (readinto_loop p n x); cbn in A; congruence.
  - destruct (readinto_loop p n x); cbn in A; congruence.
  - pose proof (readall_fin _ _ _ _ _ _ (concat data) nil _ (app_nil_r _) H) as F.
    unfold fin_ok, after, honest, wmatch in F. cbn [pd_op pd_acc] in F.
    destruct (o_fin r); apply A, F.
  - unfold readmatch_resume in A. destruct (p_wstate p =? cs); [apply A; reflexivity|].
    pose proof (readmatch_fin p m W) as F.
    unfold fin_ok, after, honest, wmatch in F. cbn [pd_op pd_acc] in F.
    destruct (o_fin (readmatch_body p m)); apply A, F.
  - pose proof (flush_fin p x) as F.
    unfold fin_ok, after, honest, wmatch in F. cbn [pd_op pd_acc] in F.
    destruct (o_fin (flush_body p x)); apply A, F.
  - pose proof (cond_fin p c t x) as F.
    unfold fin_ok, after, honest, wmatch in F. cbn [pd_op pd_acc] in F.
    destruct (o_fin (cond_body p c t x)); apply A, F.
Qed.

(** bytes are only accepted while fewer than [bsize] bytes are unread *)
Lemma accept_room b rb wb tm tr s l s' ev t a : run (init b rb wb tm) tr s ->
  step s l = Some (s', ev) -> In (EAccept t a) ev -> a <> nil ->
  Z.of_nat (length (unread (s_pipe s))) < b.
Proof.
  intros R S I A. pose proof (run_wf _ _ _ _ _ _ R) as W. destruct (cfg_run _ _ _ _ _ _ R) as (_ & M).
  assert (forall t0 r, In (EAccept t a) (snd (finish s t0 r)) -> o_acc r = a) as FI.
  { intros t0 r. unfold finish. destruct (o_fin r); cbn; intuition congruence. }
  apply step_case in S.
  destruct S as [t0 o x r T NCl C|t0 x T|t0 x wk w r T K Rs|t0 x T|t0 x T].
  - destruct I as [I|I]; [discriminate|]. apply FI in I. rewrite <- I in A.
    destruct (call_acc _ _ _ _ W C A) as (d & _ & ->). rewrite <- M. apply (write_acc _ d x); auto.
  - destruct I as [I|[I|[]]]; discriminate.
  - apply FI in I. rewrite <- I in A.
    destruct (resume_acc _ _ _ _ W Rs A) as (d & _ & ->). rewrite <- M. apply (write_acc _ d x); auto.
  - destruct I.
  - destruct I as [I|[]]; discriminate.
Qed.

(** with bytearray writes only, never more than [bsize] bytes are unread *)
Lemma array_bound b rb wb tm tr s : run (init b rb wb tm) tr s -> 0 <= b ->
  ~ called tr whole_write -> Z.of_nat (length (unread (s_pipe s))) <= b.
Proof.
  intros R0 Hb. pose proof R0 as R1. induction R1 as [|tr s l s' ev R IH S]; intros NC.
  { cbn. lia. }
  specialize (IH R (not_called_app _ _ _ NC)). pose proof (run_wf _ _ _ _ _ _ R) as W.
  destruct (cfg_run _ _ _ _ _ _ R) as (_ & M).
  apply step_case in S.
  assert (forall p q a tk, unread p ++ a = tk ++ unread q -> a = nil ->
     (length (unread q) <= length (unread p))%nat) as SH.
  { intros p q a tk E ->. rewrite app_nil_r in E. rewrite E, app_length. lia. }
  destruct S as [t o x r T NCl C|t x T|t x wk w r T K Rs|t x T|t x T].
  - rewrite finish_pipe. destruct (call_good _ _ _ _ W C) as (_ & _ & U & _).
    destruct (o_acc r) as [|c0 a0] eqn:A; [specialize (SH _ _ _ _ U eq_refl); lia|].
    destruct (call_acc _ _ _ _ W C) as (d & -> & ->); [congruence|].
    destruct (write_acc (s_pipe s) d x W) as (_ & WA); [congruence|]. rewrite <- M.
    destruct d as [b0|b0|b0|].
    + exfalso. apply NC. exists t, (OWrite (DBytes b0)). split; [apply in_or_app; right; left; auto|]. exists b0; auto.
    + exfalso. apply NC. exists t, (OWrite (DView b0)). split; [apply in_or_app; right; left; auto|]. exists b0; auto.
    + eapply WA; reflexivity.
    + exfalso. unfold write_body in A. revert A. destr; [discriminate|]. destr; [|discriminate]. destr; [destr|]; discriminate.
  - cbn. lia.
  - rewrite finish_pipe. destruct (resume_good _ _ _ _ W Rs) as (_ & _ & U & _).
    destruct (o_acc r) as [|c0 a0] eqn:A; [specialize (SH _ _ _ _ U eq_refl); lia|].
    destruct (resume_acc _ _ _ _ W Rs) as (d & -> & ->); [congruence|].
    destruct (write_acc (s_pipe s) d x W) as (_ & WA); [congruence|]. rewrite <- M.
    pose proof (thread_run _ _ _ _ _ _ R t) as TO. rewrite T in TO. destruct TO as (_ & TO & _).
    apply pd_op_called in TO.
    destruct d as [b0|b0|b0|].
    + exfalso. apply NC. exists t, (OWrite (DBytes b0)). split; [apply in_or_app; auto|]. exists b0; auto.
    + exfalso. apply NC. exists t, (OWrite (DView b0)). split; [apply in_or_app; auto|]. exists b0; auto.
    + eapply WA; reflexivity.
    + exfalso. unfold write_body in A. revert A. destr; [discriminate|]. destr; [|discriminate]. destr; [destr|]; discriminate.
  - exact IH.
  - cbn [s_pipe]. rewrite (sim_unread _ _ (sim_flag_set _)). exact IH.
Qed.

(** ** readmatch with one reader *)
Lemma call_wstate p o x r : call_body p o x = Some r ->
  p_wstate p <= p_wstate (o_pipe r) /\
  (o_notify r = false -> p_wstate (o_pipe r) = p_wstate p) /\
  (o_notify r = true -> p_wstate p < p_wstate (o_pipe r) \/ is_read o).
Proof.
  intros H. destruct o; cbn [call_body] in H; unfold pure in H;
    try (injection H as <-); cbn [o_pipe o_notify is_read];
    try (psplit; auto; try lia; try discriminate; fail).
  - destruct (write_frame p d x) as (_ & _ & ->). destruct (o_notify _); psplit; auto; lia.
  - cbn. psplit; auto; lia.
  - rewrite read_out_pipe. destruct (read_start_frame p n x) as (_ & -> & _). psplit; auto; lia.
  - rewrite read_out_pipe. destruct (readinto_start_frame p n x) as (_ & -> & _). psplit; auto; lia.
  - unfold readall_start in H. apply readall_frame in H as (_ & -> & _).
    destruct (read_start_frame (set_rbl p true) default_buffer_size x) as (_ & -> & _). cbn. psplit; auto; lia.
  - destruct (readmatch_frame p m) as (_ & -> & _). psplit; auto; lia.
  - rewrite flush_pipe. unfold flush_body. destruct (p_buf p); [|destr; [destr|]]; cbn; psplit; auto; try lia; discriminate.
  - pose proof (rframe_canwrite p) as S. destruct (canwrite p) as [p' [n|]]; injection H as <-; destruct S as (_ & S & _);
      cbn in *; psplit; auto; try lia; discriminate.
  - destruct (canread p); injection H as <-; cbn; psplit; auto; try lia; discriminate.
  - destruct (cond_frame p c tmo x) as (_ & -> & _). psplit; auto; try lia.
    unfold cond_body. destruct c.
    + destruct (canwrite p) as [? [|]]; [destr; [destr|]|]; discriminate.
    + destr; [|destr]; discriminate.
    + destruct (canread p) as [[|]|]; [|destr|]; discriminate.
  - cbn. psplit; auto; try lia; discriminate.
  - cbn. psplit; auto; try lia; discriminate.
  - cbn. psplit; auto; try lia; discriminate.
  - destruct (rframe_flag_clear p) as (_ & F & _). rewrite F. psplit; auto; try lia; discriminate.
Qed.
Lemma resume_wstate p w x r : resume_body p w x = Some r ->
  p_wstate p <= p_wstate (o_pipe r) /\
  (o_notify r = false -> p_wstate (o_pipe r) = p_wstate p) /\
  (o_notify r = true -> p_wstate p < p_wstate (o_pipe r) \/ is_read (op_of w)).
Proof.
  intros H. destruct w as [d|[n|n|data sv]|m cs| |c t]; cbn [resume_body op_of] in *.
  - apply (call_wstate p (OWrite d) x r H).
  - injection H as <-. rewrite read_out_pipe. destruct (readinto_loop_frame p n x) as (_ & -> & _). cbn [is_read]. psplit; auto; lia.
  - injection H as <-. rewrite read_out_pipe. destruct (readinto_loop_frame p n x) as (_ & -> & _). cbn [is_read]. psplit; auto; lia.
  - apply readall_frame in H as (_ & -> & _). destruct (readinto_loop_frame p default_buffer_size x) as (_ & -> & _).
    cbn [is_read]. psplit; auto; lia.
  - injection H as <-. unfold readmatch_resume. destr; [cbn; psplit; auto; lia|].
    destruct (readmatch_frame p m) as (_ & -> & _). cbn [is_read]. psplit; auto; lia.
  - apply (call_wstate p OFlush x r H).
  - apply (call_wstate p (OWaitFor c t) x r H).
Qed.

Lemma op_of_called b rb wb tm tr s t wk w : run (init b rb wb tm) tr s -> s_thr s t = Waiting wk w ->
  In (ECall t (op_of w)) tr.
Proof.
  intros R T. pose proof (thread_run _ _ _ _ _ _ R t) as TO. rewrite T in TO. apply pd_op_called.
  destruct TO as (_ & TO). destruct w as [d|[n|n|data sv]|m cs| |c tt]; apply TO.
Qed.

Definition match_ok (s : sys) : Prop :=
  forall t wk m cs, s_thr s t = Waiting wk (WMatch m cs) ->
    (wk = false -> cs = p_wstate (s_pipe s)) /\ (wk = true -> cs < p_wstate (s_pipe s)).

Lemma nomatch_cs p m m' cs : o_fin (readmatch_nomatch p m) = Waits (WMatch m' cs) ->
  cs = p_wstate (o_pipe (readmatch_nomatch p m)).
Proof.
  unfold readmatch_nomatch. destr; [discriminate|].
  destruct (canwrite p) as [p' [n|]]; [|discriminate]. destr; [discriminate|].
  cbv zeta. destr; cbn; [|discriminate]. intros F. injection F as _ <-. reflexivity.
Qed.
Lemma readmatch_cs p m m' cs : o_fin (readmatch_body p m) = Waits (WMatch m' cs) ->
  cs = p_wstate (o_pipe (readmatch_body p m)).
Proof.
  unfold readmatch_body.
  assert (forall q pos, o_fin (readmatch_found q m pos) <> Waits (WMatch m' cs)) as NF.
  { intros q pos. unfold readmatch_found. destruct (p_buf q); discriminate. }
  destruct (p_buf p) as [|b0 r]; [apply nomatch_cs|].
  destruct (find_from m b0 (p_rpos p)); [intros F; exfalso; eapply NF; eauto|]. cbv zeta.
  destruct (p_buf (consolidate p)) as [|b0' r']; [apply nomatch_cs|].
  destruct (find_from m b0' 0); [intros F; exfalso; eapply NF; eauto|apply nomatch_cs].
Qed.
Lemma fin_match_call p o x r m cs : wf p -> call_body p o x = Some r -> o_fin r = Waits (WMatch m cs) ->
  cs = p_wstate (o_pipe r).
Proof.
  intros W H F. assert (o = OClose \/ o <> OClose) as [-> |N] by (destruct o; auto; right; discriminate); [discriminate|].
  pose proof (call_fin _ _ _ _ W N H) as FF. rewrite F in FF. cbn in FF. destruct FF as (_ & E & _).
  injection E as ->. cbn in H. injection H as <-. eapply readmatch_cs; eauto.
Qed.
Lemma fin_match_resume p w x r m cs : wf p -> resume_body p w x = Some r -> o_fin r = Waits (WMatch m cs) ->
  cs = p_wstate (o_pipe r).
Proof.
  intros W H F. destruct w as [d|[n|n|data sv]|m0 cs0| |c t]; cbn [resume_body] in H.
  - eapply (fin_match_call p (OWrite d)); eauto.
  - injection H as <-. destruct (readinto_loop p n x); discriminate.
  - injection H as <-. destruct (readinto_loop p n x); discriminate.
  - exfalso. pose proof (readall_fin _ _ _ _ _ _ (concat data) nil _ (app_nil_r _) H) as FF.
    rewrite F in FF. cbn in FF. destruct FF as (_ & FF & _). discriminate.
  - injection H as <-. unfold readmatch_resume in *. destruct (p_wstate p =? cs0); [discriminate|].
    eapply readmatch_cs; eauto.
  - eapply (fin_match_call p OFlush); eauto.
  - eapply (fin_match_call p (OWaitFor c t)); eauto.
Qed.

Lemma match_run b rb wb tm tr s : run (init b rb wb tm) tr s -> single_reader tr -> match_ok s.
Proof.
  intros R0. pose proof R0 as R1. induction R1 as [|tr s l s' ev R IH S]; intros SR.
  { intros t wk m cs H. discriminate. }
  assert (single_reader tr) as SR0.
  { intros t t' o o' I I'. apply SR; apply in_or_app; auto. }
  specialize (IH R SR0). pose proof (run_wf _ _ _ _ _ _ R) as W.
  apply step_case in S.
  assert (forall t r o, (In (ECall t o) tr \/ exists e', ev = ECall t o :: e') ->
     p_wstate (s_pipe s) <= p_wstate (o_pipe r) /\
     (o_notify r = false -> p_wstate (o_pipe r) = p_wstate (s_pipe s)) /\
     (o_notify r = true -> p_wstate (s_pipe s) < p_wstate (o_pipe r) \/ is_read o) ->
     (forall m cs, o_fin r = Waits (WMatch m cs) -> cs = p_wstate (o_pipe r)) ->
     match_ok (fst (finish s t r))) as FF.
  { intros t r o IO (M1 & M2 & M3) MF t' wk m cs Ht. rewrite finish_pipe. rewrite finish_thr in Ht.
    destruct (Nat.eqb_spec t' t) as [-> |Nt].
    - destruct (o_fin r) as [v|w]; [discriminate|]. injection Ht as <- ->.
      split; [intros _|discriminate]. eapply MF; eauto.
    - destruct (o_notify r) eqn:N.
      + cbn in Ht. destruct (s_thr s t') as [|wk0 w0| |] eqn:T'; try discriminate.
        injection Ht as <- ->. split; [discriminate|intros _].
        destruct (IH _ _ _ _ T') as [I1 I2].
        destruct (M3 eq_refl) as [M|M].
        * destruct wk0; [specialize (I2 eq_refl)|specialize (I1 eq_refl)]; lia.
        * exfalso. apply Nt. eapply (SR t' t (OReadMatch m) o).
          -- apply in_or_app. left. apply (op_of_called _ _ _ _ _ _ _ _ _ R T').
          -- apply in_or_app. destruct IO as [IO|(e' & ->)]; [left; auto|right; left; auto].
          -- exact I.
          -- exact M.
      + cbn in Ht. rewrite (M2 eq_refl). eapply IH; eauto. }
  destruct S as [t o x r T NCl C|t x T|t x wk w r T K Rs|t x T|t x T].
  - apply (FF t r o); [right; eauto|eapply call_wstate; eauto|intros; eapply fin_match_call; eauto].
  - intros t' wk m cs Ht. cbn [s_thr] in Ht. unfold upd in Ht.
    destruct (Nat.eqb t' t); [discriminate|]. cbn in Ht.
    destruct (s_thr s t') as [|wk0 w0| |] eqn:T'; try discriminate. injection Ht as <- ->.
    split; [discriminate|intros _]. destruct (IH _ _ _ _ T') as [I1 I2]. cbn.
    destruct wk0; [specialize (I2 eq_refl)|specialize (I1 eq_refl)]; lia.
  - apply (FF t r (op_of w)); [left; eapply op_of_called; eauto|eapply resume_wstate; eauto|
      intros; eapply fin_match_resume; eauto].
  - intros t' wk m cs Ht. cbn [s_thr s_pipe] in *. unfold upd in Ht.
    destruct (Nat.eqb t' t); [discriminate|]. eapply IH; eauto.
  - intros t' wk m cs Ht. cbn [s_thr s_pipe] in *. unfold upd in Ht.
    destruct (Nat.eqb t' t); [discriminate|]. destruct (rframe_flag_set (s_pipe s)) as (_ & -> & _).
    eapply IH; eauto.
Qed.

Lemma readmatch_body_notmo p m : o_fin (readmatch_body p m) <> Return (VErr ETIMEDOUT).
Proof.
  assert (forall q, o_fin (readmatch_nomatch q m) <> Return (VErr ETIMEDOUT)) as NN.
  { intros q. unfold readmatch_nomatch. destr; [discriminate|].
    destruct (canwrite q) as [p' [n|]]; [|discriminate]. destr; [discriminate|]. cbv zeta.
    destr; discriminate. }
  assert (forall q pos, o_fin (readmatch_found q m pos) <> Return (VErr ETIMEDOUT)) as NF.
  { intros q pos. unfold readmatch_found. destruct (p_buf q); discriminate. }
  unfold readmatch_body. destruct (p_buf p) as [|b0 r]; [apply NN|].
  destruct (find_from m b0 (p_rpos p)); [apply NF|]. cbv zeta.
  destruct (p_buf (consolidate p)) as [|b0' r']; [apply NN|].
  destruct (find_from m b0' 0); [apply NF|apply NN].
Qed.

Lemma readmatch_single b rb wb tr s : run (init b rb wb false) tr s -> single_reader tr ->
  forall a t c o, tr = a ++ ERet t (VErr ETIMEDOUT) :: c -> pd_op (pend t a) = Some o ->
  exists cd, o = OWaitFor cd true.
Proof.
  intros R SR a t c o E P.
  destruct (run_timeout _ _ _ _ _ _ R _ _ _ _ E P) as [H|[H|(m & ->)]]; [discriminate|exact H|].
  exfalso. destruct (ret_cases _ _ _ _ _ _ R _ _ _ _ E) as (pre & s1 & s2 & o' & R1 & R2 & (ev & Ea) & Po & K).
  assert (o' = OReadMatch m) as -> by congruence.
  destruct K as [[K _]|(r & x & F & S2 & K)]; [discriminate|].
  assert (single_reader pre) as SR1.
  { intros u u' oo oo' I I'. apply SR; rewrite E, Ea; apply in_or_app; left; apply in_or_app; auto. }
  pose proof (match_run _ _ _ _ _ _ R1 SR1) as MO. destruct (cfg_run _ _ _ _ _ _ R1) as (TM & _).
  destruct K as [K|(wk & w & Ew & T & TT & K)].
  - cbn in K. injection K as <-. eapply readmatch_body_notmo; eauto.
  - destruct w as [d|[n|n|data sv]|m0 cs| |cc tt]; try discriminate. injection Ew as <-.
    cbn in K. injection K as <-. unfold readmatch_resume in F.
    destruct (p_wstate (s_pipe s1) =? cs) eqn:EQ; [|eapply readmatch_body_notmo; eauto].
    b2p. destruct (MO _ _ _ _ T) as [_ M2]. unfold timed in TT. rewrite TM, orb_false_r in TT. subst.
    specialize (M2 eq_refl). lia.
Qed.

(** ** the reader event *)
Lemma flag_set_not p : p_rflag (flag_set p) <> Some false.
Proof. unfold flag_set. destruct (p_rflag p) eqn:E; cbn; congruence. Qed.

Lemma readinto_start_flag p n x : p_rflag (rr_pipe (readinto_start p n x)) <> Some false.
Proof.
  unfold readinto_start. pose proof (flag_set_not p) as F. set (q := flag_set p) in *. clearbody q.
  unfold readinto_loop. destruct (p_buf q). { destr; [|destr; [destr|]]; exact F. }
  destruct (Nat.eqb _ 0); cbn [rr_pipe]; destr; exact F.
Qed.
Lemma read_start_flag p n x : p_rflag (rr_pipe (read_start p n x)) <> Some false.
Proof.
  unfold read_start. destruct (p_buf p); [apply readinto_start_flag|].
  destruct (p_rpos p); [|apply readinto_start_flag].
  destr; [apply flag_set_not|apply readinto_start_flag].
Qed.
Lemma readall_flag : forall fuel r data save nt taken x o, p_rflag (rr_pipe r) <> Some false ->
  readall_loop fuel r data save nt taken x = Some o -> p_rflag (o_pipe o) <> Some false.
Proof.
  induction fuel as [|fuel IH]; intros r data save nt taken x o N H;
    destruct r as [p nt' d|p|p|p]; cbn [readall_loop] in H;
    try (destruct d as [|c d]); try discriminate;
    try (inversion H; subst; exact N).
  eapply IH; [|exact H]. apply read_start_flag; auto.
Qed.

Lemma readmatch_take_flag p m : o_take (readmatch_body p m) <> nil ->
  p_rflag (o_pipe (readmatch_body p m)) <> Some false.
Proof.
  assert (forall q, o_take (readmatch_nomatch q m) = nil) as NN.
  { intros q. unfold readmatch_nomatch. destr; auto.
    destruct (canwrite q) as [p' [n|]]; auto. destr; auto. cbv zeta. destr; auto. }
  assert (forall q pos, o_take (readmatch_found q m pos) <> nil ->
     p_rflag (o_pipe (readmatch_found q m pos)) <> Some false) as NF.
  { intros q pos. unfold readmatch_found. destruct (p_buf q); [cbn; congruence|]. intros _.
    apply flag_set_not. }
  unfold readmatch_body. destruct (p_buf p) as [|b0 r]; [rewrite NN; congruence|].
  destruct (find_from m b0 (p_rpos p)); [apply NF|]. cbv zeta.
  destruct (p_buf (consolidate p)) as [|b0' r']; [rewrite NN; congruence|].
  destruct (find_from m b0' 0); [apply NF|rewrite NN; congruence].
Qed.

(** a read call that finds data sets the event *)
Lemma call_flag p o x r : call_body p o x = Some r -> o_take r <> nil -> p_rflag (o_pipe r) <> Some false.
Proof.
  intros H T. destruct o; cbn [call_body] in H; unfold pure in H;
    try (injection H as <-); try (cbn in T; congruence).
  - exfalso. revert T. unfold write_body. destr; [cbn; congruence|]. destr; [destr; [destr|]; cbn; congruence|].
    destruct d as [[|]|[|]| |]; cbn; congruence.
  - rewrite read_out_pipe. apply read_start_flag.
  - rewrite read_out_pipe. apply readinto_start_flag.
  - unfold readall_start in H. eapply readall_flag; [|exact H]. apply read_start_flag.
  - apply readmatch_take_flag; auto.
  - exfalso. revert T. unfold flush_body. destruct (p_buf p); [|destr; [destr|]]; cbn; congruence.
  - destruct (canwrite p) as [p' [n|]]; injection H as <-; cbn in T; congruence.
  - destruct (canread p); injection H as <-; cbn in T; congruence.
  - exfalso. revert T. unfold cond_body. destruct c.
    + destruct (canwrite p) as [? [|]]; [destr; [destr|]|]; cbn; congruence.
    + destr; [|destr]; cbn; congruence.
    + destruct (canread p) as [[|]|]; [|destr|]; cbn; congruence.
Qed.
