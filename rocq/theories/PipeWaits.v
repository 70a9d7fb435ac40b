(** What the wait calls and flush promise when they return. *)
From Verif Require Import Py PipeModel PipeSpec PipeProofs PipeMain PipeHonest PipeLive PipeMore PipeAcct.

(** a wait that returns: what was waited for is there *)

Lemma ret_unread b rb wb tm a t v s2 : run (init b rb wb tm) (a ++ [ERet t v]) s2 ->
  accepted a = taken a ++ discarded a ++ unread (s_pipe s2).
Proof.
  intros R. apply fifo_run in R as [(_ & F & _) _].
  rewrite accepted_app, taken_app, discarded_app in F.
  unfold accepted at 2, taken at 2, discarded at 2 in F. cbn in F. rewrite !app_nil_r in F. exact F.
Qed.

Lemma none_cases b rb wb tm tr s o a : run (init b rb wb tm) tr s -> returned_none tr o a ->
  o = OFlush \/ (exists c tmo, o = OWaitFor c tmo) ->
  exists s2 t p1 x, run (init b rb wb tm) (a ++ [ERet t VNone]) s2 /\ wf p1 /\
    s_pipe s2 = o_pipe (match o with OWaitFor c tmo => cond_body p1 c tmo x | _ => flush_body p1 x end) /\
    o_fin (match o with OWaitFor c tmo => cond_body p1 c tmo x | _ => flush_body p1 x end) = Return VNone /\
    (~ called a empty_array_write -> ne p1) /\ p_max p1 = b.
Proof.
  intros R (t & c & E & P) Ho.
  destruct (ret_cases _ _ _ _ _ _ R _ _ _ _ E) as (pre & s1 & s2 & o' & R1 & R2 & (ev & Ea) & Po & K).
  assert (o' = o) as -> by congruence.
  destruct K as [[-> _]|(r & x & F & S2 & K)]; [destruct Ho as [Ho|(? & ? & Ho)]; discriminate|].
  exists s2, t, (s_pipe s1), x. split; [exact R2|]. split; [eapply run_wf; eauto|].
  assert (r = match o with OWaitFor c tmo => cond_body (s_pipe s1) c tmo x | _ => flush_body (s_pipe s1) x end) as Er.
  { destruct K as [K|(wk & w & -> & _ & _ & K)].
    - destruct Ho as [-> |(? & ? & ->)]; cbn [call_body] in K; congruence.
    - destruct w as [d|[k|k|data sv]|m cs| |cc tt]; cbn [op_of resume_body] in *;
        destruct Ho as [Ho|(? & ? & Ho)]; try discriminate; congruence. }
  rewrite <- Er. psplit; auto.
  - intros NC. eapply ne_run; eauto. rewrite Ea in NC. eapply not_called_app; eauto.
  - apply (cfg_run _ _ _ _ _ _ R1).
Qed.

Lemma flush_returns b rb wb tm tr s a o : run (init b rb wb tm) tr s -> returned_none tr o a ->
  o = OFlush \/ (exists tmo, o = OWaitFor Empty tmo) ->
  accepted a = taken a ++ discarded a.
Proof.
  intros R N Ho. assert (o = OFlush \/ (exists c tmo, o = OWaitFor c tmo)) as H by (destruct Ho as [->|(tmo & ->)]; eauto).
  destruct (none_cases _ _ _ _ _ _ _ _ R N H) as (s2 & t & p1 & x & R2 & W & S2 & F & _ & _).
  rewrite (ret_unread _ _ _ _ _ _ _ _ R2), app_assoc.
  assert (p_buf (s_pipe s2) = nil) as B.
  { rewrite S2. destruct Ho as [-> |(tmo & ->)].
    - unfold flush_body in *. destruct (p_buf p1) eqn:B; [auto|].
      destruct (p_wbl p1); [destruct (p_tmo p1 && x)|]; discriminate.
    - unfold cond_body, empty in *. destruct (p_buf p1) eqn:B; [auto|].
      destruct (tmo && x); discriminate. }
  unfold unread. rewrite B, skipn_nil, app_nil_r. reflexivity.
Qed.

Lemma write_wait_returns b rb wb tm tr s a tmo : run (init b rb wb tm) tr s ->
  returned_none tr (OWaitFor CanWrite tmo) a ->
  Z.of_nat (length (accepted a)) - Z.of_nat (length (taken a ++ discarded a)) < b.
Proof.
  intros R N. destruct (none_cases _ _ _ _ _ _ _ _ R N) as (s2 & t & p1 & x & R2 & W & S2 & F & _ & M); [eauto|].
  rewrite (ret_unread _ _ _ _ _ _ _ _ R2). rewrite !app_length.
  unfold cond_body in F, S2. pose proof (canwrite_sim p1) as CS. unfold canwrite in *.
  destruct (p_closed p1 || p_eof p1); [discriminate|].
  destruct (wlen p1 <=? 0) eqn:L; b2p.
  - cbn in F. destruct (tmo && x); discriminate.
  - destruct (wlen p1 =? 0) eqn:L0; b2p; [lia|]. cbn in S2. rewrite S2.
    pose proof (wlen_le _ W). lia.
Qed.

Lemma read_wait_returns b rb wb tm tr s a tmo : run (init b rb wb tm) tr s ->
  returned_none tr (OWaitFor CanRead tmo) a -> ~ called a empty_array_write ->
  called a ends_stream \/ accepted a <> taken a ++ discarded a.
Proof.
  intros R N NC. destruct (none_cases _ _ _ _ _ _ _ _ R N) as (s2 & t & p1 & x & R2 & W & S2 & F & NE & M); [eauto|].
  specialize (NE NC). pose proof (ret_unread _ _ _ _ _ _ _ _ R2) as U.
  unfold cond_body, canread in F, S2.
  destruct (p_closed p1); [discriminate|].
  destruct (p_buf p1) as [|src rest] eqn:B.
  - left. destruct (p_eof p1) eqn:E; [|destruct (tmo && x); discriminate].
    cbn in S2. apply eof_called in R2; [|congruence]. destruct R2 as (t' & o & I & P). exists t', o. split; auto.
    apply in_app_or in I as [I|[I|[]]]; [auto|discriminate].
  - right. intros E. cbn in S2. rewrite S2 in U. rewrite E in U.
    assert (unread p1 = nil) as U2.
    { apply (f_equal (@length Z)) in U. rewrite !app_length in U. destruct (unread p1); auto. cbn in U. lia. }
    rewrite (unread_cons _ _ _ W B) in U2. unfold ne in NE. rewrite B in NE. apply Forall_inv in NE.
    apply app_eq_nil in U2 as [U2 _]. assert (p_rpos p1 < length src)%nat.
    { unfold wf in W. rewrite B in W. destruct W as ([W|W] & _); [exact W|]. rewrite W. destruct src; [congruence|cbn; lia]. }
    apply (f_equal (@length Z)) in U2. rewrite skipn_length in U2. cbn in U2. lia.
Qed.
