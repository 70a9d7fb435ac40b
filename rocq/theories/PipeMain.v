(** Invariants of the Pipe model over all runs. *)
From Verif Require Import Py PipeModel PipeSpec PipeProofs.

(** ** the shape of steps *)
Inductive stepcase (s : sys) : label -> sys -> list event -> Prop :=
| sc_call : forall t o x r, s_thr s t = Idle -> o <> OClose ->
    call_body (s_pipe s) o x = Some r ->
    stepcase s (LCall t o x) (fst (finish s t r)) (ECall t o :: snd (finish s t r))
| sc_close : forall t x, s_thr s t = Idle ->
    stepcase s (LCall t OClose x)
      (mkSys (close_locked (s_pipe s)) (upd (notify true (s_thr s)) t Closing1))
      [ECall t OClose; EDiscard (unread (s_pipe s))]
| sc_run : forall t x wk w r, s_thr s t = Waiting wk w -> wk || timed (s_pipe s) w = true ->
    resume_body (s_pipe s) w x = Some r ->
    stepcase s (LRun t x) (fst (finish s t r)) (snd (finish s t r))
| sc_c1 : forall t x, s_thr s t = Closing1 ->
    stepcase s (LRun t x) (mkSys (set_closed (s_pipe s)) (upd (s_thr s) t Closing2)) nil
| sc_c2 : forall t x, s_thr s t = Closing2 ->
    stepcase s (LRun t x) (mkSys (flag_set (s_pipe s)) (upd (s_thr s) t Idle)) [ERet t VNone].

Lemma step_case s l s' ev : step s l = Some (s', ev) -> stepcase s l s' ev.
Proof.
  destruct l as [t o x|t x]; cbn [step]; intros H.
  - destruct (s_thr s t) eqn:T; try discriminate.
    destruct (call_body (s_pipe s) o x) as [r|] eqn:C.
    +       assert (o <> OClose) as NC by (intros ->; discriminate).
      assert (s' = fst (finish s t r) /\ ev = ECall t o :: snd (finish s t r)) as [-> ->].
      { destruct (finish s t r). destruct o; inversion H; try (split; reflexivity). exfalso; apply NC; reflexivity. }
      constructor; auto.
    + destruct o; try discriminate. inversion H; subst. constructor; auto.
  - destruct (s_thr s t) eqn:T; try discriminate.
    + destruct (woken || timed (s_pipe s) w) eqn:E; try discriminate.
      destruct (resume_body (s_pipe s) w x) as [r|] eqn:R; try discriminate.
      assert (s' = fst (finish s t r) /\ ev = snd (finish s t r)) as [-> ->].
      { destruct (finish s t r); inversion H; auto. }
      eapply sc_run; eauto.
    + inversion H; subst. constructor; auto.
    + inversion H; subst. constructor; auto.
Qed.

Lemma finish_pipe s t r : s_pipe (fst (finish s t r)) = o_pipe r.
Proof. unfold finish. destruct (o_fin r); reflexivity. Qed.

(** a return is the last event of its step *)
Lemma step_ret_last s l s' ev a t v b :
  step s l = Some (s', ev) -> ev = a ++ ERet t v :: b -> b = nil.
Proof.
  intros H E. apply step_case in H.
  assert (forall t0 r, snd (finish s t0 r) = [EAccept t0 (o_acc r); ETake t0 (o_take r)] \/
     exists v, snd (finish s t0 r) = [EAccept t0 (o_acc r); ETake t0 (o_take r); ERet t0 v]) as F.
  { intros t0 r. unfold finish. destruct (o_fin r); cbn; eauto. }
  inversion H; subst.
  all: try (destruct (F t0 r) as [F1|(v1 & F1)]; rewrite F1 in *).
  all: repeat match goal with
       | H : _ :: _ = ?a ++ _ |- _ => destruct a; cbn in H; inversion H; clear H; subst
       | H : nil = ?a ++ _ |- _ => destruct a; cbn in H; inversion H
       end; auto; try (destruct a; discriminate).
Qed.

Lemma app_split_cons {A} (l1 l2 a : list A) x b :
  l1 ++ l2 = a ++ x :: b ->
  (exists c, l1 = a ++ x :: c /\ b = c ++ l2) \/ (exists c, a = l1 ++ c /\ l2 = c ++ x :: b).
Proof.
  revert a; induction l1 as [|y l1 IH]; intros a H; cbn in H.
  - right. exists a. auto.
  - destruct a as [|z a]; cbn in H; inversion H; subst.
    + left. exists l1. auto.
    + apply IH in H2 as [(c & -> & ->)|(c & -> & ->)].
      * left. exists c. auto.
      * right. exists c. auto.
Qed.

Lemma run_ret s0 tr s : run s0 tr s -> forall a t v b, tr = a ++ ERet t v :: b ->
  exists pre s1 l s2 ev, run s0 pre s1 /\ step s1 l = Some (s2, ev ++ [ERet t v]) /\ a = pre ++ ev.
Proof.
  induction 1 as [|tr s l s' ev R IH S]; intros a t v b E.
  - destruct a; discriminate.
  - apply app_split_cons in E as [(c & E1 & E2)|(c & E1 & E2)].
    + eapply IH; eauto.
    + pose proof (step_ret_last _ _ _ _ _ _ _ _ S E2) as ->.
      exists tr, s, l, s', c. subst. auto.
Qed.

(** ** FIFO *)
Lemma accepted_app a b : accepted (a ++ b) = accepted a ++ accepted b.
Proof. unfold accepted. rewrite map_app, concat_app. reflexivity. Qed.
Lemma taken_app a b : taken (a ++ b) = taken a ++ taken b.
Proof. unfold taken. rewrite map_app, concat_app. reflexivity. Qed.
Lemma discarded_app a b : discarded (a ++ b) = discarded a ++ discarded b.
Proof. unfold discarded. rewrite map_app, concat_app. reflexivity. Qed.

Lemma finish_ev s t r :
  accepted (snd (finish s t r)) = o_acc r /\ taken (snd (finish s t r)) = o_take r /\
  discarded (snd (finish s t r)) = nil.
Proof.
  unfold finish, accepted, taken, discarded.
  destruct (o_fin r); cbn; rewrite ?app_nil_r; auto.
Qed.
Lemma call_ev t o ev : accepted (ECall t o :: ev) = accepted ev /\
  taken (ECall t o :: ev) = taken ev /\ discarded (ECall t o :: ev) = discarded ev.
Proof. unfold accepted, taken, discarded. cbn. auto. Qed.

Definition fifo (tr : list event) (p : pipe) : Prop :=
  wf p /\ accepted tr = taken tr ++ discarded tr ++ unread p /\
  (discarded tr = nil \/ (p_eof p = true /\ p_buf p = nil)).

Lemma fifo_good tr p r ev : fifo tr p -> good p r ->
  accepted ev = o_acc r -> taken ev = o_take r -> discarded ev = nil ->
  fifo (tr ++ ev) (o_pipe r).
Proof.
  intros (W & F & D) (W' & _ & U & E & C & B) Ea Et Ed.
  unfold fifo. rewrite accepted_app, taken_app, discarded_app, Ea, Et, Ed, F, app_nil_r.
  split; auto. destruct D as [D|(D1 & D2)].
  - rewrite D in *. split; auto. cbn [app]. rewrite <- !app_assoc. f_equal. exact U.
  - destruct (E D1) as (E1 & E2). specialize (B D2 D1). split; [|right; auto].
    assert (unread p = nil) as Up by (unfold unread; rewrite D2; apply skipn_nil).
    assert (unread (o_pipe r) = nil) as Up' by (unfold unread; rewrite B; apply skipn_nil).
    rewrite Up, Up', E2 in *. cbn [app] in U. symmetry in U. apply app_eq_nil in U as [U _].
    rewrite U, !app_nil_r. reflexivity.
Qed.


(** closing threads and eof *)
Definition closing_ok (s : sys) : Prop :=
  forall t, s_thr s t = Closing1 \/ s_thr s t = Closing2 ->
    p_eof (s_pipe s) = true /\ p_buf (s_pipe s) = nil.

Lemma finish_thr s t r t' : s_thr (fst (finish s t r)) t' =
  if Nat.eqb t' t then match o_fin r with Return _ => Idle | Waits w => Waiting false w end
  else notify (o_notify r) (s_thr s) t'.
Proof. unfold finish. destruct (o_fin r); cbn [fst s_thr]; reflexivity. Qed.

Lemma notify_cases n f t : notify n f t = f t \/ exists b w, f t = Waiting b w /\ notify n f t = Waiting true w.
Proof.
  destruct n; cbn; auto. destruct (f t) eqn:E; cbn; auto. right; eauto.
Qed.

Lemma fifo_step tr s l s' ev : fifo tr (s_pipe s) -> closing_ok s -> step s l = Some (s', ev) ->
  fifo (tr ++ ev) (s_pipe s') /\ closing_ok s'.
Proof.
  intros F CO H. apply step_case in H.
  assert (wf (s_pipe s)) as W by apply F.
  assert (forall t r, good (s_pipe s) r -> closing_ok (fst (finish s t r))) as CF.
  { intros t r (_ & _ & _ & E & C & B) t' Ht'. rewrite finish_pipe. rewrite finish_thr in Ht'.
    destruct (Nat.eqb t' t). { destruct (o_fin r); destruct Ht'; discriminate. }
    assert (p_eof (s_pipe s) = true /\ p_buf (s_pipe s) = nil) as [E1 E2].
    { apply (CO t'). destruct (notify_cases (o_notify r) (s_thr s) t') as [N|(b & w & N1 & N2)].
      - rewrite N in Ht'. exact Ht'.
      - rewrite N2 in Ht'. destruct Ht'; discriminate. }
    split; [apply E|apply B]; auto. }
  destruct H as [t o x r T NC C|t x T|t x wk w r T K R|t x T|t x T].
  - assert (good (s_pipe s) r) as G by (eapply call_good; eauto). split; [|auto].
    rewrite finish_pipe. destruct (finish_ev s t r) as (A1 & A2 & A3).
    destruct (call_ev t o (snd (finish s t r))) as (B1 & B2 & B3).
    eapply fifo_good; eauto; congruence.
  - split.
    + destruct F as (_ & F & D). unfold fifo. rewrite accepted_app, taken_app, discarded_app.
      cbn [s_pipe]. unfold accepted at 2, taken at 2, discarded at 2. cbn.
      rewrite !app_nil_r.
      split; [|split; [|right; auto]].
      * unfold wf; cbn. psplit; auto; lia.
      * exact F.
    + intros t' _. cbn. auto.
  - assert (good (s_pipe s) r) as G by (eapply resume_good; eauto). split; [|auto].
    rewrite finish_pipe. destruct (finish_ev s t r) as (A1 & A2 & A3).
    eapply fifo_good; eauto; congruence.
  - destruct (CO t (or_introl T)) as [CE CB]. rewrite app_nil_r. split.
    + destruct F as ((W1 & W2 & W3) & F & D). unfold fifo. psplit; auto.
      unfold wf; cbn; auto.
    + intros t' _. cbn. auto.
  - destruct (CO t (or_intror T)) as [CE CB].
    destruct (sim_flag_set (s_pipe s)) as (Sb & _ & _ & Se & _). split.
    + destruct F as (_ & F & D). unfold fifo. cbn [s_pipe].
      rewrite accepted_app, taken_app, discarded_app. cbn. rewrite !app_nil_r.
      psplit.
      * eapply sim_wf; [apply sim_flag_set|auto].
      * rewrite (sim_unread _ _ (sim_flag_set _)). exact F.
      * right. split; congruence.
    + intros t' _. cbn. split; congruence.
Qed.

Lemma fifo_init b rb wb tm : fifo nil (s_pipe (init b rb wb tm)) /\ closing_ok (init b rb wb tm).
Proof.
  split.
  - unfold fifo. psplit; auto. unfold wf; cbn. psplit; auto; try lia.
  - intros t [H|H]; discriminate.
Qed.

Lemma fifo_run b rb wb tm tr s : run (init b rb wb tm) tr s -> fifo tr (s_pipe s) /\ closing_ok s.
Proof.
  induction 1 as [|tr s l s' ev R [IH1 IH2] S]; [apply fifo_init|].
  eapply fifo_step; eauto.
Qed.

Lemma run_wf b rb wb tm tr s : run (init b rb wb tm) tr s -> wf (s_pipe s).
Proof. intros R. apply fifo_run in R as [(W & _) _]. exact W. Qed.

(** the flush inside io.RawIOBase.close returns at once *)
Lemma closing_empty b rb wb tm tr s t : run (init b rb wb tm) tr s -> s_thr s t = Closing1 ->
  forall x, o_fin (flush_body (s_pipe s) x) = Return VNone.
Proof.
  intros R T x. apply fifo_run in R as [_ CO]. destruct (CO t (or_introl T)) as [_ B].
  unfold flush_body. rewrite B. reflexivity.
Qed.

Lemma no_close_no_discard b rb wb tm tr s : run (init b rb wb tm) tr s ->
  ~ called tr is_close -> discarded tr = nil.
Proof.
  induction 1 as [|tr s l s' ev R IH S]; intros NC; [reflexivity|].
  rewrite discarded_app, IH.
  2:{ intros (t & o & I & C). apply NC. exists t, o. split; auto. apply in_or_app; auto. }
  apply step_case in S.
  destruct S as [t o x r T NCl C|t x T|t x wk w r T K Rb|t x T|t x T]; auto.
  - destruct (finish_ev s t r) as (_ & _ & A3).
    destruct (call_ev t o (snd (finish s t r))) as (_ & _ & B3). cbn [app]. congruence.
  - exfalso. apply NC. exists t, OClose. split; [|reflexivity]. apply in_or_app. right. left. reflexivity.
  - destruct (finish_ev s t r) as (_ & _ & A3). cbn [app]. congruence.
Qed.

(** every label that should be enabled is: the fuel of readall is sufficient *)
Lemma readall_total : forall fuel r data save nt taken x,
  wf (rr_pipe r) -> (length (unread (rr_pipe r)) < fuel)%nat ->
  exists o, readall_loop fuel r data save nt taken x = Some o.
Proof.
  induction fuel as [|fuel IH]; intros r data save nt taken x W L; [lia|].
  destruct r as [p nt' d|p|p|p]; cbn [readall_loop]; eauto.
  destruct d as [|c d]; eauto. cbn [rr_pipe] in *.
  pose proof (read_start_good p default_buffer_size x W (Return VNone)) as G.
  destruct G as (W' & _ & U & _). cbn [o_pipe o_acc o_take] in *. rewrite app_nil_r in U.
  destruct (read_start p default_buffer_size x) as [p2 nt2 d2|p2|p2|p2] eqn:E.
  2-4: destruct fuel; cbn; eauto.
  destruct d2 as [|c2 d2]; [destruct fuel; cbn; eauto|].
  apply IH; auto. cbn [rr_pipe rr_data] in *.
  assert (length (unread p) = length ((c2 :: d2) ++ unread p2)) as EL by congruence.
  rewrite app_length in EL. cbn in EL. lia.
Qed.

Lemma unread_len_concat p : (length (unread p) <= length (concat (p_buf p)))%nat.
Proof. unfold unread. rewrite skipn_length. lia. Qed.

Lemma call_total p o x : wf p -> o <> OClose -> exists r, call_body p o x = Some r.
Proof.
  intros W NC. destruct o; cbn [call_body]; unfold pure; eauto.
  - unfold readall_start.
    assert (wf (set_rbl p true)) as W' by (eapply sim_wf; [apply sim_rbl|auto]).
    pose proof (read_start_good _ default_buffer_size x W' (Return VNone)) as (W2 & _ & U & _).
    cbn [o_pipe o_acc o_take] in *. apply readall_total; auto.
    rewrite app_nil_r in U. unfold readall_fuel.
    pose proof (unread_len_concat (set_rbl p true)) as UL. rewrite U, app_length in UL. lia.
  - congruence.
  - destruct (canwrite p) as [? []]; eauto.
  - destruct (canread p); eauto.
Qed.

Lemma resume_total p w x : wf p -> exists r, resume_body p w x = Some r.
Proof.
  intros W. destruct w as [d|[n|n|data sv]|m cs| |c t]; cbn [resume_body]; eauto.
  pose proof (readinto_loop_good p default_buffer_size x W (Return VNone)) as (W2 & _ & U & _).
  cbn [o_pipe o_acc o_take] in *. apply readall_total; auto.
  rewrite app_nil_r in U. unfold readall_fuel.
  pose proof (unread_len_concat p) as UL. rewrite U, app_length in UL. lia.
Qed.

Lemma step_enabled b rb wb tm tr s : run (init b rb wb tm) tr s ->
  (forall t o x, s_thr s t = Idle -> exists r, step s (LCall t o x) = Some r) /\
  (forall t w x, s_thr s t = Waiting true w -> exists r, step s (LRun t x) = Some r).
Proof.
  intros R. apply run_wf in R as W. split.
  - intros t o x T. cbn [step]. rewrite T.
    assert (o = OClose \/ o <> OClose) as [-> |N] by (destruct o; auto; right; discriminate); eauto.
    destruct (call_total _ o x W N) as (r & C). rewrite C. destruct (finish s t r).
    destruct o; eauto.
  - intros t w x T. cbn [step]. rewrite T. cbn [orb].
    destruct (resume_total _ w x W) as (r & C). rewrite C. eauto.
Qed.
