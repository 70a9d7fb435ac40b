(** Waiting, waking, end of file, accounting for the Pipe. *)
From Verif Require Import Py PipeModel PipeSpec PipeProofs PipeMain PipeHonest.

Definition ne (p : pipe) : Prop := Forall (fun c : str => c <> nil) (p_buf p).
Definition flushlike (w : waiting) : Prop :=
  match w with WFlush | WCond Empty _ => True | _ => False end.

(** ** stability of what the un-notified wait for *)
Definition msim (p q : pipe) : Prop :=
  p_eof q = p_eof p /\ p_closed q = p_closed p /\ (wlen p <= 0 -> wlen q <= 0) /\
  unread q = unread p /\ (p_buf p = nil -> p_buf q = nil) /\
  (ne p -> p_buf p <> nil -> p_buf q <> nil).

Lemma msim_sim p q : sim p q -> msim p q.
Proof.
  intros S. pose proof (sim_wlen _ _ S) as L. pose proof (sim_unread _ _ S) as U.
  destruct S as (Sb & Ss & Sr & Se & Sc & Sm & St).
  unfold msim. psplit; auto; try congruence.
Qed.
Lemma msim_trans p q r : msim p q -> msim q r -> (ne p -> ne q) -> msim p r.
Proof.
  unfold msim. intros (A1 & A2 & A3 & A4 & A5 & A6) (B1 & B2 & B3 & B4 & B5 & B6) N.
  psplit; auto; congruence.
Qed.

Lemma canwrite_zero p : snd (canwrite p) = Some 0 <->
  p_closed p = false /\ p_eof p = false /\ wlen p <= 0.
Proof.
  unfold canwrite. destruct (p_closed p); cbn [orb].
  { cbn. split; [discriminate|]. intros (H & _); discriminate. }
  destruct (p_eof p). { cbn. split; [discriminate|]. intros (_ & H & _); discriminate. }
  destr; b2p; cbn; split; auto.
  - intros H. inversion H. lia.
  - intros (_ & _ & H). lia.
Qed.

Lemma empty_false p : empty p = false <-> p_buf p <> nil.
Proof. unfold empty. destruct (p_buf p); split; congruence. Qed.

Lemma msim_must p q w : msim p q -> (flushlike w -> ne p) -> must_wait p w -> must_wait q w.
Proof.
  intros (A1 & A2 & A3 & A4 & A5 & A6) N M.
  destruct w as [d|k|m cs| |[] t]; cbn [must_wait flushlike] in *.
  - rewrite canwrite_zero in *. rewrite A1, A2. intuition.
  - rewrite A4, A1. intuition.
  - rewrite A4, A1. intuition.
  - rewrite empty_false in *. auto.
  - rewrite canwrite_zero in *. rewrite A1, A2. intuition.
  - rewrite empty_false in *. auto.
  - rewrite A4, A1. intuition.
Qed.

Lemma ne_tail p src rest : p_buf p = src :: rest -> ne p -> Forall (fun c : str => c <> nil) rest.
Proof. unfold ne. intros ->. intros H. inversion H; auto. Qed.

Lemma readinto_loop_quiet p n x : wf p ->
  let r := readinto_loop p n x in
  rr_nt r = false -> msim p (rr_pipe r) /\ rr_data r = nil.
Proof.
  intros W. cbv zeta. unfold readinto_loop. destruct (p_buf p) as [|src rest] eqn:B.
  { destr; [|destr; [destr|]]; cbn; intros _; split; auto; apply msim_sim, sim_refl. }
  destruct (Nat.eqb _ 0) eqn:K; cbn [rr_nt rr_pipe rr_data]; [|discriminate]. intros _. b2p.
  pose proof (readinto_loop_good p n x W (Return VNone)) as G.
  unfold readinto_loop in G. rewrite B in G. cbv zeta in G.
  set (k := if (length src - p_rpos p <? n)%nat then _ else _) in *.
  assert (slice (p_rpos p) (p_rpos p + k) src = nil) as SN.
  { unfold slice. rewrite K. replace (p_rpos p + 0 - p_rpos p)%nat with O by lia. reflexivity. }
  split; [|exact SN].
  rewrite K in G. cbn [Nat.eqb rr_pipe rr_data rr_nt] in G. rewrite K.
  destruct G as (W' & (M & T) & U & E & C & Bn). cbn [o_pipe o_acc o_take] in *.
  rewrite <- K, SN, app_nil_r in U. cbn [app] in U. rewrite K in U.
  destruct W as (W1 & W2 & W3). rewrite B in W1.
  destruct (Nat.leb_spec (length src) (p_rpos p + 0)) as [L|L].
  - assert (p_rpos p = O) as R0 by lia. assert (src = nil) as -> by (destruct src; auto; cbn in L; lia).
    unfold msim. cbn [p_eof p_closed p_buf set_buf]. psplit; auto; try congruence.
    + unfold wlen; cbn. lia.
    + intros N. unfold ne in N. rewrite B in N. inversion N; congruence.
  - unfold msim. cbn [p_eof p_closed p_buf set_buf]. psplit; auto; try congruence.
    unfold wlen; cbn. lia.
Qed.

Lemma readinto_start_quiet p n x : wf p ->
  let r := readinto_start p n x in
  rr_nt r = false -> msim p (rr_pipe r) /\ rr_data r = nil.
Proof.
  intros W r Q. unfold r, readinto_start in *.
  assert (wf (flag_set p)) as W' by (eapply sim_wf; [apply sim_flag_set|auto]).
  destruct (readinto_loop_quiet (flag_set p) n x W' Q) as [M D]. split; auto.
  eapply msim_trans; [apply msim_sim, sim_flag_set|exact M|].
  unfold ne. destruct (sim_flag_set p) as (-> & _). auto.
Qed.

Lemma read_start_quiet p n x : wf p ->
  let r := read_start p n x in
  rr_nt r = false -> msim p (rr_pipe r) /\ rr_data r = nil.
Proof.
  intros W. cbv zeta. unfold read_start. destruct (p_buf p) as [|src rest];
    [apply readinto_start_quiet; auto|].
  destruct (p_rpos p); [|apply readinto_start_quiet; auto].
  destr; [|apply readinto_start_quiet; auto]. cbn. discriminate.
Qed.

Lemma read_out_pipe k r : o_pipe (read_out k r) = rr_pipe r.
Proof. destruct r; reflexivity. Qed.
Lemma read_out_nt k r : o_notify (read_out k r) = rr_nt r.
Proof. destruct r; reflexivity. Qed.

Lemma readall_nt fuel : forall r data save nt taken x o,
  readall_loop fuel r data save nt taken x = Some o -> o_notify o = false -> nt = false.
Proof.
  induction fuel as [|fuel IH]; intros r data save nt taken x o H N;
    destruct r as [p nt' d|p|p|p]; cbn [readall_loop] in H;
    try (destruct d as [|c d]); try discriminate;
    try (inversion H; subst; cbn in N; b2p; auto; fail).
  apply IH in H; auto. b2p. auto.
Qed.

Lemma readall_quiet p fuel r data save taken x o : wf p ->
  (rr_nt r = false -> msim p (rr_pipe r) /\ rr_data r = nil) ->
  readall_loop fuel r data save false taken x = Some o -> o_notify o = false ->
  msim p (o_pipe o).
Proof.
  intros W Q H N. destruct r as [p' nt' d|p'|p'|p']; cbn [rr_nt rr_pipe rr_data] in Q.
  2-4: destruct fuel; cbn [readall_loop] in H; inversion H; subst; apply Q; auto.
  destruct d as [|c d].
  - destruct fuel; cbn [readall_loop] in H; inversion H; subst; apply Q; cbn in N; auto.
  - destruct fuel; cbn [readall_loop] in H; [discriminate|].
    apply readall_nt in H; auto. cbn in H. destruct (Q H). discriminate.
Qed.

Lemma consolidate_msim p : wf p -> msim p (consolidate p).
Proof.
  intros W. pose proof (consolidate_unread p W) as U.
  unfold msim. psplit; auto; unfold consolidate in *; destruct (p_buf p) eqn:B; cbn; auto;
    try congruence.
  unfold wlen; cbn. lia.
Qed.
Lemma consolidate_ne p : wf p -> ne p -> ne (consolidate p).
Proof.
  intros W N. unfold ne, consolidate in *. destruct (p_buf p) as [|b0 r] eqn:B; [rewrite B; auto|].
  cbn [set_buf p_buf]. destruct W as (W1 & _). rewrite B in W1. inversion N; subst.
  constructor; auto. cbn [concat]. intros E. apply app_eq_nil in E as [E _].
  assert (length (skipn (p_rpos p) b0) = O) as L by (rewrite E; auto).
  rewrite skipn_length in L. destruct b0; [congruence|]. cbn [length] in *. lia.
Qed.

Lemma nomatch_sim p m : sim p (o_pipe (readmatch_nomatch p m)).
Proof.
  unfold readmatch_nomatch. destr; [apply sim_refl|].
  pose proof (canwrite_sim p) as S. destruct (canwrite p) as [p' [n|]]; [|exact S]. cbn in S.
  destr; [exact S|]. cbv zeta.
  destr; (eapply sim_trans; [exact S|apply sim_flag_set]).
Qed.

Lemma readmatch_quiet p m : wf p -> o_notify (readmatch_body p m) = false ->
  msim p (o_pipe (readmatch_body p m)).
Proof.
  intros W. unfold readmatch_body. destruct (p_buf p) as [|b0 r] eqn:B.
  { intros _. apply msim_sim, nomatch_sim. }
  destruct (find_from m b0 (p_rpos p)) as [pos|].
  { unfold readmatch_found. rewrite B. cbn. discriminate. }
  cbv zeta. destruct (p_buf (consolidate p)) as [|b0' r'] eqn:B'.
  { intros _. eapply msim_trans; [apply consolidate_msim; auto|apply msim_sim, nomatch_sim|].
    apply consolidate_ne; auto. }
  destruct (find_from m b0' 0) as [pos|].
  { unfold readmatch_found. rewrite B'. cbn. discriminate. }
  intros _. eapply msim_trans; [apply consolidate_msim; auto|apply msim_sim, nomatch_sim|].
  apply consolidate_ne; auto.
Qed.

Lemma write_quiet p d x : o_notify (write_body p d x) = false -> o_pipe (write_body p d x) = p.
Proof.
  unfold write_body. destr; auto. destruct (wlen p <=? 0). { destr; auto. destr; auto. }
  destruct d as [[|c b]|[|c b]|b|]; cbn; auto; discriminate.
Qed.
Lemma flush_pipe p x : o_pipe (flush_body p x) = p.
Proof. unfold flush_body. destruct (p_buf p); [|destr; [destr|]]; auto. Qed.
Lemma cond_sim p c t x : sim p (o_pipe (cond_body p c t x)).
Proof.
  unfold cond_body. destruct c.
  - pose proof (canwrite_sim p) as S. destruct (canwrite p) as [p' [n|]]; [|exact S]. cbn in S.
    destr; [destr|]; exact S.
  - destr; [|destr]; apply sim_refl.
  - destruct (canread p) as [[|]|]; [|destr|]; apply sim_refl.
Qed.

Lemma call_quiet p o x r : wf p -> call_body p o x = Some r -> o_notify r = false -> msim p (o_pipe r).
Proof.
  intros W H N. destruct o; cbn [call_body] in H; unfold pure in H;
    try (injection H as <-); cbn [o_pipe o_notify] in *.
  - rewrite write_quiet by auto. apply msim_sim, sim_refl.
  - discriminate.
  - rewrite read_out_pipe, read_out_nt in *. apply read_start_quiet; auto.
  - rewrite read_out_pipe, read_out_nt in *. apply readinto_start_quiet; auto.
  - unfold readall_start in H.
    assert (wf (set_rbl p true)) as W' by (eapply sim_wf; [apply sim_rbl|auto]).
    pose proof (readall_quiet (set_rbl p true) _ _ _ _ _ _ _ W'
        (read_start_quiet _ default_buffer_size x W') H N) as M.
    eapply msim_trans; [apply msim_sim, (sim_rbl p true)|exact M|]. unfold ne; auto.
  - apply readmatch_quiet; auto.
  - rewrite flush_pipe. apply msim_sim, sim_refl.
  - discriminate.
  - pose proof (canwrite_sim p) as S. destruct (canwrite p) as [p' [n|]]; injection H as <-;
      apply msim_sim; exact S.
  - destruct (canread p); injection H as <-; apply msim_sim, sim_refl.
  - apply msim_sim, sim_refl.
  - apply msim_sim, sim_refl.
  - apply msim_sim, cond_sim.
  - apply msim_sim, sim_rbl.
  - apply msim_sim, sim_wbl.
  - apply msim_sim, sim_refl.
  - apply msim_sim, sim_flag.
  - apply msim_sim, sim_flag_clear.
Qed.

Lemma resume_quiet p w x r : wf p -> resume_body p w x = Some r -> o_notify r = false ->
  msim p (o_pipe r).
Proof.
  intros W H N. destruct w as [d|[n|n|data sv]|m cs| |c t]; cbn [resume_body] in H.
  - injection H as <-. rewrite write_quiet by auto. apply msim_sim, sim_refl.
  - injection H as <-. rewrite read_out_pipe, read_out_nt in *. apply readinto_loop_quiet; auto.
  - injection H as <-. rewrite read_out_pipe, read_out_nt in *. apply readinto_loop_quiet; auto.
  - eapply readall_quiet; eauto. apply readinto_loop_quiet; auto.
  - injection H as <-. unfold readmatch_resume in *. destr; [apply msim_sim, sim_refl|].
    apply readmatch_quiet; auto.
  - injection H as <-. rewrite flush_pipe. apply msim_sim, sim_refl.
  - injection H as <-. apply msim_sim, cond_sim.
Qed.

(** ** a thread that starts to wait has a reason to *)
Lemma readinto_loop_wait p n x q : readinto_loop p n x = RWait q ->
  q = p /\ p_buf q = nil /\ p_eof q = false.
Proof.
  unfold readinto_loop. destruct (p_buf p) as [|src rest] eqn:B.
  - destr; [discriminate|]. destr; [destr|]; intros H; inversion H; subst; auto.
  - destr; discriminate.
Qed.
Lemma readinto_start_wait p n x q : readinto_start p n x = RWait q ->
  p_buf q = nil /\ p_eof q = false.
Proof. intros H. apply readinto_loop_wait in H as (_ & H). exact H. Qed.
Lemma read_start_wait p n x q : read_start p n x = RWait q ->
  p_buf q = nil /\ p_eof q = false.
Proof.
  unfold read_start. destruct (p_buf p); [apply readinto_start_wait|].
  destruct (p_rpos p); [|apply readinto_start_wait]. destr; [discriminate|apply readinto_start_wait].
Qed.

Lemma read_must p k : p_buf p = nil -> p_eof p = false -> must_wait p (WRead k).
Proof. intros B E. cbn. unfold unread. rewrite B, skipn_nil. auto. Qed.

Lemma readall_must : forall fuel r data save nt taken x o w,
  (forall q, r = RWait q -> p_buf q = nil /\ p_eof q = false) ->
  readall_loop fuel r data save nt taken x = Some o -> o_fin o = Waits w ->
  must_wait (o_pipe o) w.
Proof.
  induction fuel as [|fuel IH]; intros r data save nt taken x o w Q H F;
    destruct r as [p nt' d|p|p|p]; cbn [readall_loop] in H;
    try (destruct d as [|c d]); try discriminate;
    try (inversion H; subst; cbn in F; discriminate);
    try (inversion H; subst; cbn in F; inversion F; subst; cbn [o_pipe];
         destruct (Q _ eq_refl); apply read_must; auto; fail).
  eapply IH; [|exact H|exact F]. intros q. apply read_start_wait.
Qed.

Lemma nomatch_must p m w :
  (unread p = nil \/ forall i, ~ occurs_at m (unread p) i) ->
  o_fin (readmatch_nomatch p m) = Waits w -> must_wait (o_pipe (readmatch_nomatch p m)) w.
Proof.
  intros HM. pose proof (nomatch_sim p m) as S. pose proof (sim_unread _ _ S) as U.
  destruct S as (_ & _ & _ & Se & _). revert Se U.
  unfold readmatch_nomatch. destruct (p_eof p) eqn:E; [cbn; intros; discriminate|].
  destruct (canwrite p) as [p' [n|]]; [|cbn; intros; discriminate].
  destr; [cbn; intros; discriminate|]. cbv zeta. destr; cbn [o_fin o_pipe]; [|intros; discriminate].
  intros Se U F. inversion F; subst. cbn. rewrite Se, U. auto.
Qed.

Lemma readmatch_must p m w : wf p -> o_fin (readmatch_body p m) = Waits w ->
  must_wait (o_pipe (readmatch_body p m)) w.
Proof.
  intros W. unfold readmatch_body. destruct (p_buf p) as [|b0 r] eqn:B.
  { apply nomatch_must. left. unfold unread. rewrite B. apply skipn_nil. }
  destruct (find_from m b0 (p_rpos p)) as [pos|].
  { unfold readmatch_found. rewrite B. cbn. discriminate. }
  cbv zeta.
  pose proof (consolidate_wf p W) as W'.
  assert (p_rpos (consolidate p) = O) as R by (unfold consolidate; rewrite B; reflexivity).
  assert (p_buf (consolidate p) = [concat (skipn (p_rpos p) b0 :: r)]) as B'
    by (unfold consolidate; rewrite B; reflexivity).
  rewrite B'.
  destruct (find_from m _ 0) as [pos|] eqn:F.
  { unfold readmatch_found. rewrite B'. cbn. discriminate. }
  apply nomatch_must. right. intros i.
  rewrite (unread_cons _ _ _ W' B'), R. cbn [concat]. rewrite app_nil_r.
  apply (find_from_none _ _ _ F). lia.
Qed.

Lemma write_must p d x w : o_fin (write_body p d x) = Waits w -> must_wait (o_pipe (write_body p d x)) w.
Proof.
  unfold write_body. destruct (p_closed p || p_eof p) eqn:CE; [discriminate|].
  destruct (wlen p <=? 0) eqn:L.
  - destr; [destr|]; cbn [o_fin o_pipe]; try discriminate. intros H. inversion H; subst.
    cbn [must_wait]. apply canwrite_zero. b2p. auto.
  - destruct d as [[|c b]|[|c b]|b|]; cbn; discriminate.
Qed.

Lemma flush_must p x w : o_fin (flush_body p x) = Waits w -> must_wait (o_pipe (flush_body p x)) w.
Proof.
  unfold flush_body. destruct (p_buf p) eqn:B; [discriminate|].
  destr; [destr|]; cbn [o_fin o_pipe]; try discriminate. intros H; inversion H; subst.
  cbn. unfold empty. rewrite B. reflexivity.
Qed.

Lemma cond_must p c t x w : o_fin (cond_body p c t x) = Waits w ->
  must_wait (o_pipe (cond_body p c t x)) w.
Proof.
  unfold cond_body. destruct c.
  - destruct (canwrite p) as [p' [n|]] eqn:C; [|discriminate].
    destruct (n =? 0) eqn:N; [|discriminate]. destr; cbn [o_fin o_pipe]; [discriminate|].
    intros H; inversion H; subst. b2p. subst.
    cbn. pose proof (canwrite_sim p) as S. rewrite C in S. cbn in S.
    assert (snd (canwrite p) = Some 0) as Z by (rewrite C; auto).
    pose proof (sim_wlen _ _ S) as L. destruct S as (_ & _ & _ & Se & Sc & _).
    apply canwrite_zero. apply canwrite_zero in Z. rewrite Se, Sc, L. auto.
  - destruct (empty p) eqn:E; [discriminate|]. destr; cbn [o_fin o_pipe]; [discriminate|].
    intros H; inversion H; subst. exact E.
  - destruct (canread p) as [[|]|] eqn:C; try discriminate. destr; cbn [o_fin o_pipe]; [discriminate|].
    intros H; inversion H; subst. unfold canread in C.
    destruct (p_closed p); [discriminate|]. destruct (p_buf p) eqn:B; [|discriminate].
    cbn. unfold unread. rewrite B, skipn_nil. psplit; auto. congruence.
Qed.

Lemma call_must p o x r w : wf p -> call_body p o x = Some r -> o_fin r = Waits w ->
  must_wait (o_pipe r) w.
Proof.
  intros W H F. destruct o; cbn [call_body] in H; unfold pure in H;
    try (injection H as <-); try (cbn in F; discriminate).
  - apply write_must; auto.
  - destruct (read_start p n x) eqn:E; cbn in F; try discriminate.
    apply read_start_wait in E as (? & ?). inversion F; subst. apply read_must; auto.
  - destruct (readinto_start p n x) eqn:E; cbn in F; try discriminate.
    apply readinto_start_wait in E as (? & ?). inversion F; subst. apply read_must; auto.
  - unfold readall_start in H. eapply readall_must; eauto. intros q; apply read_start_wait.
  - apply readmatch_must; auto.
  - apply flush_must; auto.
  - destruct (canwrite p) as [p' [n|]]; injection H as <-; discriminate.
  - destruct (canread p); injection H as <-; discriminate.
  - apply cond_must; auto.
Qed.

Lemma resume_must p w0 x r w : wf p -> resume_body p w0 x = Some r -> o_fin r = Waits w ->
  must_wait (o_pipe r) w.
Proof.
  intros W H F. destruct w0 as [d|[n|n|data sv]|m cs| |c t]; cbn [resume_body] in H.
  - injection H as <-. apply write_must; auto.
  - injection H as <-. destruct (readinto_loop p n x) eqn:E; cbn in F; try discriminate.
    apply readinto_loop_wait in E as (_ & ? & ?). inversion F; subst. apply read_must; auto.
  - injection H as <-. destruct (readinto_loop p n x) eqn:E; cbn in F; try discriminate.
    apply readinto_loop_wait in E as (_ & ? & ?). inversion F; subst. apply read_must; auto.
  - eapply readall_must; eauto. intros q E. apply readinto_loop_wait in E as (_ & E). exact E.
  - injection H as <-. unfold readmatch_resume in *. destr; [discriminate|].
    apply readmatch_must; auto.
  - injection H as <-. apply flush_must; auto.
  - injection H as <-. apply cond_must; auto.
Qed.

(** ** no empty chunk, unless an empty bytearray is written *)
Lemma take1_ne p src rest k : p_buf p = src :: rest -> ne p -> ne (take1 p src rest k).
Proof.
  intros B N. unfold take1. destr.
  - unfold ne; cbn. eapply ne_tail; eauto.
  - unfold ne in *; cbn. exact N.
Qed.
Lemma ne_sim p q : sim p q -> ne p -> ne q.
Proof. unfold ne. intros (-> & _). auto. Qed.
Lemma readinto_loop_ne p n x : ne p -> ne (rr_pipe (readinto_loop p n x)).
Proof.
  intros N. unfold readinto_loop. destruct (p_buf p) as [|src rest] eqn:B.
  { destr; [|destr; [destr|]]; auto. }
  rewrite <- B. match goal with |- context [Nat.eqb ?k 0] => fold (take1 p src rest k);
    pose proof (take1_ne p src rest k B N) end.
  destruct (Nat.eqb _ 0); cbn [rr_pipe]; auto.
Qed.
Lemma readinto_start_ne p n x : ne p -> ne (rr_pipe (readinto_start p n x)).
Proof. intros N. apply readinto_loop_ne. eapply ne_sim; [apply sim_flag_set|auto]. Qed.
Lemma read_start_ne p n x : ne p -> ne (rr_pipe (read_start p n x)).
Proof.
  intros N. unfold read_start. destruct (p_buf p) as [|src rest] eqn:B; [apply readinto_start_ne; auto|].
  destruct (p_rpos p); [|apply readinto_start_ne; auto].
  destr; [|apply readinto_start_ne; auto]. cbn [rr_pipe].
  eapply ne_sim; [apply sim_flag_set|]. unfold ne; cbn. eapply ne_tail; eauto.
Qed.
Lemma readall_ne : forall fuel r data save nt taken x o, ne (rr_pipe r) ->
  readall_loop fuel r data save nt taken x = Some o -> ne (o_pipe o).
Proof.
  induction fuel as [|fuel IH]; intros r data save nt taken x o N H;
    destruct r as [p nt' d|p|p|p]; cbn [readall_loop] in H;
    try (destruct d as [|c d]); try discriminate;
    try (inversion H; subst; exact N).
  eapply IH; [|exact H]. apply read_start_ne; auto.
Qed.
Lemma found_ne p m pos : ne p -> ne (o_pipe (readmatch_found p m pos)).
Proof.
  intros N. unfold readmatch_found. destruct (p_buf p) as [|src rest] eqn:B; [exact N|].
  cbv zeta. cbn [o_pipe]. eapply ne_sim; [apply sim_flag_set|].
  rewrite <- B. match goal with |- context [Nat.leb _ (p_rpos p + ?k)] => fold (take1 p src rest k);
    pose proof (take1_ne p src rest k B N) end. auto.
Qed.
Lemma readmatch_ne p m : wf p -> ne p -> ne (o_pipe (readmatch_body p m)).
Proof.
  intros W N. unfold readmatch_body. destruct (p_buf p) as [|b0 r] eqn:B.
  { eapply ne_sim; [apply nomatch_sim|auto]. }
  pose proof (consolidate_ne p W N).
  destruct (find_from m b0 (p_rpos p)) as [pos|]; [apply found_ne; auto|].
  cbv zeta. destruct (p_buf (consolidate p)) as [|b0' r'].
  { eapply ne_sim; [apply nomatch_sim|auto]. }
  destruct (find_from m b0' 0) as [pos|]; [apply found_ne; auto|].
  eapply ne_sim; [apply nomatch_sim|auto].
Qed.
Lemma write_ne p d x : d <> DArray nil -> ne p -> ne (o_pipe (write_body p d x)).
Proof.
  intros D N. unfold write_body. destr; auto. destruct (wlen p <=? 0) eqn:L. { destr; auto. destr; auto. }
  b2p. destruct d as [[|c b]|[|c b]|b|]; auto; unfold ne; cbn; apply Forall_app; split; auto;
    constructor; auto; try discriminate.
  destruct b as [|c b]; [congruence|]. intros E. apply (f_equal (@length Z)) in E.
  rewrite firstn_length in E. cbn [length] in E. destruct (wlen p <? _) eqn:L2 in E; b2p; lia.
Qed.

Lemma call_ne p o x r : wf p -> ~ empty_array_write o -> ne p -> call_body p o x = Some r -> ne (o_pipe r).
Proof.
  intros W D N H. destruct o; cbn [call_body] in H; unfold pure in H;
    try (injection H as <-); cbn [o_pipe]; auto.
  - apply write_ne; auto. intros ->. apply D. reflexivity.
  - rewrite read_out_pipe. apply read_start_ne; auto.
  - rewrite read_out_pipe. apply readinto_start_ne; auto.
  - unfold readall_start in H. eapply readall_ne; [|exact H]. apply read_start_ne; auto.
  - apply readmatch_ne; auto.
  - rewrite flush_pipe; auto.
  - discriminate.
  - pose proof (canwrite_sim p) as S. destruct (canwrite p) as [p' [n|]]; injection H as <-;
      eapply ne_sim; eauto.
  - destruct (canread p); injection H as <-; auto.
  - eapply ne_sim; [apply cond_sim|auto].
  - eapply ne_sim; [apply sim_flag_clear|auto].
Qed.
Lemma resume_ne p w x r : wf p -> w <> WWrite (DArray nil) -> ne p ->
  resume_body p w x = Some r -> ne (o_pipe r).
Proof.
  intros W D N H. destruct w as [d|[n|n|data sv]|m cs| |c t]; cbn [resume_body] in H;
    try (injection H as <-).
  - apply write_ne; auto. congruence.
  - rewrite read_out_pipe. apply readinto_loop_ne; auto.
  - rewrite read_out_pipe. apply readinto_loop_ne; auto.
  - eapply readall_ne; [|exact H]. apply readinto_loop_ne; auto.
  - unfold readmatch_resume. destr; auto. apply readmatch_ne; auto.
  - rewrite flush_pipe; auto.
  - eapply ne_sim; [apply cond_sim|auto].
Qed.

(** ** from traces *)
Lemma pd_op_called t tr o : pd_op (pend t tr) = Some o -> In (ECall t o) tr.
Proof.
  induction tr as [|e tr IH] using rev_ind; [discriminate|].
  rewrite pend_app. cbn [fold_left]. intros H. apply in_or_app.
  destruct e; cbn in H; try (left; apply IH; exact H);
    destruct (Nat.eqb_spec t0 t); cbn in H; try (left; apply IH; exact H).
  right. left. congruence.
Qed.

Lemma called_app tr ev P : called tr P -> called (tr ++ ev) P.
Proof. intros (t & o & I & H). exists t, o. split; auto. apply in_or_app; auto. Qed.
Lemma not_called_app tr ev P : ~ called (tr ++ ev) P -> ~ called tr P.
Proof. intros H C. apply H, called_app, C. Qed.

Lemma ne_step tr s l s' ev : wf (s_pipe s) -> thread_ok tr s -> step s l = Some (s', ev) ->
  ~ called (tr ++ ev) empty_array_write -> ne (s_pipe s) -> ne (s_pipe s').
Proof.
  intros W TO H NC N. apply step_case in H.
  destruct H as [t o x r T NCl C|t x T|t x wk w r T K R|t x T|t x T].
  - rewrite finish_pipe. eapply call_ne; eauto. intros E. apply NC. exists t, o. split; auto.
    apply in_or_app. right. left. reflexivity.
  - constructor.
  - rewrite finish_pipe. eapply resume_ne; eauto. intros ->. apply NC.
    pose proof (TO t) as Tt. rewrite T in Tt. destruct Tt as (_ & Tt & _).
    apply pd_op_called in Tt. exists t, (OWrite (DArray nil)). split; [|reflexivity].
    apply in_or_app. auto.
  - exact N.
  - eapply ne_sim; [apply sim_flag_set|exact N].
Qed.

Lemma ne_run b rb wb tm tr s : run (init b rb wb tm) tr s ->
  ~ called tr empty_array_write -> ne (s_pipe s).
Proof.
  induction 1 as [|tr s l s' ev R IH S]; intros NC; [constructor|].
  eapply ne_step; eauto.
  - eapply run_wf; eauto.
  - eapply thread_run; eauto.
  - apply IH. eapply not_called_app; eauto.
Qed.

(** unconditional part: readers, writers; conditional part: flush *)
Definition waits_ok (NE : Prop) (s : sys) : Prop :=
  forall t w, s_thr s t = Waiting false w -> (flushlike w -> NE) -> must_wait (s_pipe s) w.

Lemma waits_step (NE : Prop) s l s' ev : wf (s_pipe s) -> closing_ok s -> (NE -> ne (s_pipe s)) ->
  waits_ok NE s -> step s l = Some (s', ev) -> waits_ok NE s'.
Proof.
  intros W CO HN I H. apply step_case in H.
  assert (forall t r, (o_notify r = false -> msim (s_pipe s) (o_pipe r)) ->
     (forall w, o_fin r = Waits w -> must_wait (o_pipe r) w) -> waits_ok NE (fst (finish s t r))) as FF.
  { intros t r Q M t' w Ht FL. rewrite finish_pipe. rewrite finish_thr in Ht.
    destruct (Nat.eqb t' t).
    - destruct (o_fin r) eqn:F; [discriminate|]. apply M. congruence.
    - destruct (o_notify r) eqn:N.
      + cbn in Ht. destruct (s_thr s t'); cbn in Ht; discriminate.
      + cbn in Ht. eapply msim_must; eauto. }
  destruct H as [t o x r T NCl C|t x T|t x wk w r T K R|t x T|t x T].
  - apply FF; intros; [eapply call_quiet|eapply call_must]; eauto.
  - intros t' w Ht FL. cbn [s_thr] in Ht. unfold upd in Ht.
    destruct (Nat.eqb t' t); [discriminate|]. cbn in Ht. destruct (s_thr s t'); cbn in Ht; discriminate.
  - apply FF; intros; [eapply resume_quiet|eapply resume_must]; eauto.
  - destruct (CO t (or_introl T)) as [CE CB].
    intros t' w Ht FL. cbn [s_thr] in Ht. unfold upd in Ht.
    destruct (Nat.eqb t' t); [discriminate|]. specialize (I _ _ Ht FL).
    assert (False) as [].
    destruct w as [d|k|m cs| |[] tmo]; cbn in I;
      try (apply canwrite_zero in I); try (apply empty_false in I); intuition congruence.
  - intros t' w Ht FL. cbn [s_thr s_pipe] in *. unfold upd in Ht.
    destruct (Nat.eqb t' t); [discriminate|]. specialize (I _ _ Ht FL).
    eapply msim_must; [apply msim_sim, sim_flag_set|auto|exact I].
Qed.

Lemma waits_run b rb wb tm tr s : run (init b rb wb tm) tr s ->
  waits_ok (~ called tr empty_array_write) s.
Proof.
  induction 1 as [|tr s l s' ev R IH S]; [intros t w H; discriminate|].
  assert (waits_ok (~ called (tr ++ ev) empty_array_write) s) as IH'.
  { intros t w Ht FL. apply (IH t w Ht). intros F. eapply not_called_app. exact (FL F). }
  eapply waits_step; eauto.
  - eapply run_wf; eauto.
  - eapply fifo_run; eauto.
  - intros NC. eapply ne_run; eauto. eapply not_called_app; eauto.
Qed.
