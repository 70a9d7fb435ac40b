(** The properties of the HTTP client. *)
From Verif Require Import HcModel HcSpec HcReq HcStep HcAll HcEnd HcCompl HcHist.

Section props.
  Variables idempotent get_or_head auto_redirect upgrade : nat -> bool.
  Variable resends : nat -> list nat.
  Variable place : nat -> nat.
  Variable retries : nat -> nat.
  Notation run := (run idempotent get_or_head auto_redirect upgrade resends place retries).
  (** an answer asks for at most one new sending: no response has two challenges for which there are credentials *)
  Hypothesis one : forall n, length (resends n) <= 1.

  (** C94: if bytes of a request that is not idempotent were given to a socket then it is started again only after the server has begun to
      answer *)
  Theorem not_sent_twice_partial : forall s l1 k r m l2, run s -> trace s = l1 ++ Start k r m :: l2 -> idempotent r = false -> bytes_sent r l2 = true -> answer_begun r l2 = true.
  Proof.
    intros s l1 k r m l2 H T I Bs. destruct (run_good idempotent get_or_head auto_redirect upgrade resends place retries one s H) as [_ [_ P0]]. rewrite T in P0. apply hist_at in P0. destruct P0 as [P0 _]. destruct (P0 I) as [D _]. destruct (answer_begun r l2) eqn:E; [reflexivity|]. destruct D. split; assumption.
  Qed.
  (** C95: a request is started at most once for each time that it is queued (by the user, or after a redirection or challenge), and max_retries times more *)
  Theorem attempts_bounded_partial : forall s r, run s -> starts r (trace s) <= queued r (trace s) + retries r.
  Proof.
    intros s r H. destruct (run_good idempotent get_or_head auto_redirect upgrade resends place retries one s H) as [[A _] _]. destruct (A r) as (L & _ & [_ [_ B2] B3 _] & _). lia.
  Qed.
  (** C96: what is received on a connection belongs to the oldest request without a response; nothing is sent before or after a request that is
      not idempotent until the responses are complete *)
  Theorem responses_in_order_partial : forall s l1 k r n l2, run s -> (trace s = l1 ++ Status k r n :: l2 \/ exists e, trace s = l1 ++ Answered k r n e :: l2) -> exists t, awaiting k l2 = r :: t.
  Proof.
    intros s l1 k r n l2 H T. destruct (run_good idempotent get_or_head auto_redirect upgrade resends place retries one s H) as [_ [_ P0]]. assert (E : hd_error (awaiting k l2) = Some r) by (destruct T as [T|(e & T)]; rewrite T in P0; apply hist_at in P0; exact P0).
    destruct (awaiting k l2) as [|x t]; [discriminate|]. injection E as ->. exists t. reflexivity.
  Qed.
  Theorem not_pipelined_partial : forall s l1 k r m l2, run s -> trace s = l1 ++ Start k r m :: l2 -> idempotent r = false -> awaiting k l2 = [].
  Proof.
    intros s l1 k r m l2 H T I. destruct (run_good idempotent get_or_head auto_redirect upgrade resends place retries one s H) as [_ [_ P0]]. rewrite T in P0. apply hist_at in P0. apply P0, I.
  Qed.
  (** C97: what was given to a socket is a prefix of the messages of the requests, one after the other, and all of the earlier messages was given to it when
      a request is started; unless an error was reported for a request that was still being sent *)
  Theorem wire_prefix_partial : forall s k, run s -> no_early_error (trace s) -> exists m, messages k (trace s) = wire k (trace s) ++ m.
  Proof.
    intros s k H N. destruct (run_good idempotent get_or_head auto_redirect upgrade resends place retries one s H) as [[_ B] _]. destruct (B k) as [_ _ _ _ W]. specialize (W N). destruct (request (conns s k)); [eexists; exact W|].
    destruct (cmode (conns s k)); try exact W. exists []. rewrite app_nil_r. exact W.
  Qed.
  Theorem start_after_message_partial : forall s l1 k r m l2, run s -> trace s = l1 ++ Start k r m :: l2 -> no_early_error l2 -> wire k l2 = messages k l2.
  Proof.
    intros s l1 k r m l2 H T N. destruct (run_good idempotent get_or_head auto_redirect upgrade resends place retries one s H) as [_ [_ P0]]. rewrite T in P0. apply hist_at in P0. symmetry. apply P0, N.
  Qed.
  (** C98: a status other than 0 that is reported was received for that request *)
  Theorem status_received_partial : forall s l1 r n err l2, run s -> trace s = l1 ++ Finished r n err :: l2 -> n <> 0 -> exists k, In (Status k r n) l2.
  Proof.
    intros s l1 r n err l2 H T N. destruct (run_good idempotent get_or_head auto_redirect upgrade resends place retries one s H) as [_ [_ P0]]. rewrite T in P0. apply hist_at in P0. destruct P0 as [P0|P0]; [contradiction|exact P0].
  Qed.
End props.

(** Runs *)
Definition yes (n : nat) : bool := true.
Definition no (n : nat) : bool := false.
Definition never (n : nat) : list nat := [].
Definition zero (n : nat) : nat := 0.
Definition three (n : nat) : nat := 3.
Ltac v := vm_compute; reflexivity.
Ltac fresh_ := let k := fresh in let H := fresh in intros k H; vm_compute in H; intuition discriminate.

(** two requests are sent one after the other before the first response: both are answered, in order *)
Definition two_s0 := init three.
Definition two_s1 := emit (Queued 0 0) (enqueue 0 0 (on_req 0 (fun _ => new_request three 0) two_s0)).
Definition two_s2 := emit (Queued 0 1) (enqueue 0 1 (on_req 1 (fun _ => new_request three 1) two_s1)).
Definition two_s3 := start 0 0 [1] [7; 8] [] false false two_s2.
Definition two_s4 := on_conn 0 (set_socket true) two_s3.
Definition two_s5 := emit (Sent 0 0 [7; 8]) (on_conn 0 (fun c => set_sent [] (sent c + length [7; 8]) c) two_s4).
Definition two_s6 := on_conn 0 (fun c => set_mode Ready (set_request None c)) (disconnect yes yes no never 0 (sent (conns two_s5 0)) two_s5).
Definition two_s7 := start 0 1 [] [9] [] false false two_s6.
Definition two_s8 := emit (Sent 0 1 [9]) (on_conn 0 (fun c => set_sent [] (sent c + length [9]) c) two_s7).
Definition two_s9 := emit (Status 0 0 200) (on_req 0 (set_rstatus (Some 200)) two_s8).
Definition two_s10 := complete yes yes no no never zero 0 0 200 true two_s9.
Lemma two_run0 : run yes yes no no never zero three two_s0.
Proof. apply run_init. Qed.
Lemma two_run1 : run yes yes no no never zero three two_s1.
Proof. apply (run_step yes yes no no never zero three two_s0 two_s1); [exact two_run0|]. refine (s_queue yes yes no no never zero three two_s0 0 0 _). fresh_. Qed.
Lemma two_run2 : run yes yes no no never zero three two_s2.
Proof. apply (run_step yes yes no no never zero three two_s1 two_s2); [exact two_run1|]. refine (s_queue yes yes no no never zero three two_s1 0 1 _). fresh_. Qed.
Lemma two_run3 : run yes yes no no never zero three two_s3.
Proof. apply (run_step yes yes no no never zero three two_s2 two_s3); [exact two_run2|]. refine (s_start yes yes no no never zero three two_s2 0 0 [1] [7; 8] [] false false _ _ _ _ _ _); [v|v|left; reflexivity|discriminate|repeat constructor; discriminate|discriminate]. Qed.
Lemma two_run4 : run yes yes no no never zero three two_s4.
Proof. apply (run_step yes yes no no never zero three two_s3 two_s4); [exact two_run3|]. refine (s_connect yes yes no no never zero three two_s3 0 _). v. Qed.
Lemma two_run5 : run yes yes no no never zero three two_s5.
Proof. apply (run_step yes yes no no never zero three two_s4 two_s5); [exact two_run4|]. refine (s_send yes yes no no never zero three two_s4 0 0 [7; 8] [] [] _ _ _); [v|v|discriminate]. Qed.
Lemma two_run6 : run yes yes no no never zero three two_s6.
Proof. apply (run_step yes yes no no never zero three two_s5 two_s6); [exact two_run5|]. refine (s_body_end yes yes no no never zero three two_s5 0 0 _ _ _ _ _); v. Qed.
Lemma two_run7 : run yes yes no no never zero three two_s7.
Proof. apply (run_step yes yes no no never zero three two_s6 two_s7); [exact two_run6|]. refine (s_start yes yes no no never zero three two_s6 0 1 [] [9] [] false false _ _ _ _ _ _); [v|v|left; reflexivity|discriminate|repeat constructor; discriminate|discriminate]. Qed.
Lemma two_run8 : run yes yes no no never zero three two_s8.
Proof. apply (run_step yes yes no no never zero three two_s7 two_s8); [exact two_run7|]. refine (s_send yes yes no no never zero three two_s7 0 1 [9] [] [] _ _ _); [v|v|discriminate]. Qed.
Lemma two_run9 : run yes yes no no never zero three two_s9.
Proof. apply (run_step yes yes no no never zero three two_s8 two_s9); [exact two_run8|]. refine (s_status yes yes no no never zero three two_s8 0 0 200 _ _ _); v. Qed.
Lemma two_run10 : run yes yes no no never zero three two_s10.
Proof. apply (run_step yes yes no no never zero three two_s9 two_s10); [exact two_run9|]. refine (s_complete yes yes no no never zero three two_s9 0 0 200 true _ _); v. Qed.
Example two : run yes yes no no never zero three two_s10 /\ trace two_s10 = [Finished 0 200 false; Answered 0 0 200 false; Status 0 0 200; Sent 0 1 [9]; Start 0 1 [9]; Sent 0 0 [7; 8]; Start 0 0 [7; 8]; Queued 0 1; Queued 0 0] /\
  awaiting 0 (trace two_s9) = [0; 1] /\ awaiting 0 (trace two_s10) = [1] /\ wire 0 (trace two_s10) = [7; 8; 9] /\ messages 0 (trace two_s10) = [7; 8; 9] /\ no_early_error (trace two_s10).
Proof. split; [exact two_run10|]. split; [v|]. split; [v|]. split; [v|]. split; [v|]. split; [v|]. intros k r n H. vm_compute in H. intuition discriminate. Qed.

(** a request that is not idempotent is sent again after an error if nothing of it was sent, but not in the midst of its sending *)
Definition post_s0 := init three.
Definition post_s1 := emit (Queued 0 0) (enqueue 0 0 (on_req 0 (fun _ => new_request three 0) post_s0)).
Definition post_s2 := start 0 0 [] [7; 8] [[9]] false false post_s1.
Definition post_s3 := close no no no no never zero 0 true post_s2.
Definition post_s4 := start 0 0 [] [7; 8] [[9]] false false post_s3.
Definition post_s5 := on_conn 0 (set_socket true) post_s4.
Definition post_s6 := emit (Sent 0 0 [7]) (on_conn 0 (fun c => set_sent [(0, [8])] (sent c + length [7]) c) post_s5).
Definition post_s7 := close no no no no never zero 0 true post_s6.
Lemma post_run0 : run no no no no never zero three post_s0.
Proof. apply run_init. Qed.
Lemma post_run1 : run no no no no never zero three post_s1.
Proof. apply (run_step no no no no never zero three post_s0 post_s1); [exact post_run0|]. refine (s_queue no no no no never zero three post_s0 0 0 _). fresh_. Qed.
Lemma post_run2 : run no no no no never zero three post_s2.
Proof. apply (run_step no no no no never zero three post_s1 post_s2); [exact post_run1|]. refine (s_start no no no no never zero three post_s1 0 0 [] [7; 8] [[9]] false false _ _ _ _ _ _); [v|v|right; split; v|discriminate|repeat constructor; discriminate|discriminate]. Qed.
Lemma post_run3 : run no no no no never zero three post_s3.
Proof. apply (run_step no no no no never zero three post_s2 post_s3); [exact post_run2|]. refine (s_error no no no no never zero three post_s2 0). Qed.
Lemma post_run4 : run no no no no never zero three post_s4.
Proof. apply (run_step no no no no never zero three post_s3 post_s4); [exact post_run3|]. refine (s_start no no no no never zero three post_s3 0 0 [] [7; 8] [[9]] false false _ _ _ _ _ _); [v|v|right; split; v|discriminate|repeat constructor; discriminate|discriminate]. Qed.
Lemma post_run5 : run no no no no never zero three post_s5.
Proof. apply (run_step no no no no never zero three post_s4 post_s5); [exact post_run4|]. refine (s_connect no no no no never zero three post_s4 0 _). v. Qed.
Lemma post_run6 : run no no no no never zero three post_s6.
Proof. apply (run_step no no no no never zero three post_s5 post_s6); [exact post_run5|]. refine (s_send no no no no never zero three post_s5 0 0 [7] [8] [] _ _ _); [v|v|discriminate]. Qed.
Lemma post_run7 : run no no no no never zero three post_s7.
Proof. apply (run_step no no no no never zero three post_s6 post_s7); [exact post_run6|]. refine (s_error no no no no never zero three post_s6 0). Qed.
Example post : run no no no no never zero three post_s7 /\ trace post_s7 = [Closed 0; Finished 0 0 true; Sent 0 0 [7]; Start 0 0 [7; 8; 9]; Closed 0; Retried 0 0; Start 0 0 [7; 8; 9]; Queued 0 0] /\
  bytes_sent 0 (trace post_s7) = true /\ answer_begun 0 (trace post_s7) = false /\ starts 0 (trace post_s7) = 2 /\ queue (conns post_s7 0) = [].
Proof. split; [exact post_run7|]. repeat match goal with |- _ /\ _ => split end; v. Qed.

(** C94 without the condition: a response with two challenges for which there are credentials: the POST is queued twice, and sent on two connections *)
Definition twice (n : nat) : list nat := match n with 0 => [0; 1] | _ => [] end.
Definition challenges_s0 := init three.
Definition challenges_s1 := emit (Queued 0 0) (enqueue 0 0 (on_req 0 (fun _ => new_request three 0) challenges_s0)).
Definition challenges_s2 := start 0 0 [] [7] [] false false challenges_s1.
Definition challenges_s3 := on_conn 0 (set_socket true) challenges_s2.
Definition challenges_s4 := emit (Sent 0 0 [7]) (on_conn 0 (fun c => set_sent [] (sent c + length [7]) c) challenges_s3).
Definition challenges_s5 := on_conn 0 (fun c => set_mode Ready (set_request None c)) (disconnect no no no twice 0 (sent (conns challenges_s4 0)) challenges_s4).
Definition challenges_s6 := emit (Status 0 0 401) (on_req 0 (set_rstatus (Some 401)) challenges_s5).
Definition challenges_s7 := complete no no no no twice zero 0 0 401 true challenges_s6.
Definition challenges_s8 := start 0 0 [] [7] [] false false challenges_s7.
Definition challenges_s9 := emit (Sent 0 0 [7]) (on_conn 0 (fun c => set_sent [] (sent c + length [7]) c) challenges_s8).
Definition challenges_s10 := start 1 0 [] [7] [] false false challenges_s9.
Lemma challenges_run0 : run no no no no twice zero three challenges_s0.
Proof. apply run_init. Qed.
Lemma challenges_run1 : run no no no no twice zero three challenges_s1.
Proof. apply (run_step no no no no twice zero three challenges_s0 challenges_s1); [exact challenges_run0|]. refine (s_queue no no no no twice zero three challenges_s0 0 0 _). fresh_. Qed.
Lemma challenges_run2 : run no no no no twice zero three challenges_s2.
Proof. apply (run_step no no no no twice zero three challenges_s1 challenges_s2); [exact challenges_run1|]. refine (s_start no no no no twice zero three challenges_s1 0 0 [] [7] [] false false _ _ _ _ _ _); [v|v|right; split; v|discriminate|repeat constructor; discriminate|discriminate]. Qed.
Lemma challenges_run3 : run no no no no twice zero three challenges_s3.
Proof. apply (run_step no no no no twice zero three challenges_s2 challenges_s3); [exact challenges_run2|]. refine (s_connect no no no no twice zero three challenges_s2 0 _). v. Qed.
Lemma challenges_run4 : run no no no no twice zero three challenges_s4.
Proof. apply (run_step no no no no twice zero three challenges_s3 challenges_s4); [exact challenges_run3|]. refine (s_send no no no no twice zero three challenges_s3 0 0 [7] [] [] _ _ _); [v|v|discriminate]. Qed.
Lemma challenges_run5 : run no no no no twice zero three challenges_s5.
Proof. apply (run_step no no no no twice zero three challenges_s4 challenges_s5); [exact challenges_run4|]. refine (s_body_end no no no no twice zero three challenges_s4 0 0 _ _ _ _ _); v. Qed.
Lemma challenges_run6 : run no no no no twice zero three challenges_s6.
Proof. apply (run_step no no no no twice zero three challenges_s5 challenges_s6); [exact challenges_run5|]. refine (s_status no no no no twice zero three challenges_s5 0 0 401 _ _ _); v. Qed.
Lemma challenges_run7 : run no no no no twice zero three challenges_s7.
Proof. apply (run_step no no no no twice zero three challenges_s6 challenges_s7); [exact challenges_run6|]. refine (s_complete no no no no twice zero three challenges_s6 0 0 401 true _ _); v. Qed.
Lemma challenges_run8 : run no no no no twice zero three challenges_s8.
Proof. apply (run_step no no no no twice zero three challenges_s7 challenges_s8); [exact challenges_run7|]. refine (s_start no no no no twice zero three challenges_s7 0 0 [] [7] [] false false _ _ _ _ _ _); [v|v|right; split; v|discriminate|repeat constructor; discriminate|discriminate]. Qed.
Lemma challenges_run9 : run no no no no twice zero three challenges_s9.
Proof. apply (run_step no no no no twice zero three challenges_s8 challenges_s9); [exact challenges_run8|]. refine (s_send no no no no twice zero three challenges_s8 0 0 [7] [] [] _ _ _); [v|v|discriminate]. Qed.
Lemma challenges_run10 : run no no no no twice zero three challenges_s10.
Proof. apply (run_step no no no no twice zero three challenges_s9 challenges_s10); [exact challenges_run9|]. refine (s_start no no no no twice zero three challenges_s9 1 0 [] [7] [] false false _ _ _ _ _ _); [v|v|right; split; v|discriminate|repeat constructor; discriminate|discriminate]. Qed.
Theorem not_sent_twice_refuted : exists resends s l2, run no no no no resends zero three s /\ trace s = Start 1 0 [7] :: l2 /\ bytes_sent 0 l2 = true /\ answer_begun 0 l2 = false.
Proof. exists twice, challenges_s10, (trace challenges_s9). split; [exact challenges_run10|]. repeat match goal with |- _ /\ _ => split end; v. Qed.

(** C98, stronger forms are false.  A response that is cut short (the server hangs up after the status line) is reported as 200 without an error *)
Definition short_s0 := init three.
Definition short_s1 := emit (Queued 0 0) (enqueue 0 0 (on_req 0 (fun _ => new_request three 0) short_s0)).
Definition short_s2 := start 0 0 [] [7] [] false false short_s1.
Definition short_s3 := on_conn 0 (set_socket true) short_s2.
Definition short_s4 := emit (Sent 0 0 [7]) (on_conn 0 (fun c => set_sent [] (sent c + length [7]) c) short_s3).
Definition short_s5 := on_conn 0 (fun c => set_mode Ready (set_request None c)) (disconnect yes yes no never 0 (sent (conns short_s4 0)) short_s4).
Definition short_s6 := emit (Status 0 0 200) (on_req 0 (set_rstatus (Some 200)) short_s5).
Definition short_s7 := close yes yes no no never zero 0 false short_s6.
Lemma short_run0 : run yes yes no no never zero three short_s0.
Proof. apply run_init. Qed.
Lemma short_run1 : run yes yes no no never zero three short_s1.
Proof. apply (run_step yes yes no no never zero three short_s0 short_s1); [exact short_run0|]. refine (s_queue yes yes no no never zero three short_s0 0 0 _). fresh_. Qed.
Lemma short_run2 : run yes yes no no never zero three short_s2.
Proof. apply (run_step yes yes no no never zero three short_s1 short_s2); [exact short_run1|]. refine (s_start yes yes no no never zero three short_s1 0 0 [] [7] [] false false _ _ _ _ _ _); [v|v|left; reflexivity|discriminate|repeat constructor; discriminate|discriminate]. Qed.
Lemma short_run3 : run yes yes no no never zero three short_s3.
Proof. apply (run_step yes yes no no never zero three short_s2 short_s3); [exact short_run2|]. refine (s_connect yes yes no no never zero three short_s2 0 _). v. Qed.
Lemma short_run4 : run yes yes no no never zero three short_s4.
Proof. apply (run_step yes yes no no never zero three short_s3 short_s4); [exact short_run3|]. refine (s_send yes yes no no never zero three short_s3 0 0 [7] [] [] _ _ _); [v|v|discriminate]. Qed.
Lemma short_run5 : run yes yes no no never zero three short_s5.
Proof. apply (run_step yes yes no no never zero three short_s4 short_s5); [exact short_run4|]. refine (s_body_end yes yes no no never zero three short_s4 0 0 _ _ _ _ _); v. Qed.
Lemma short_run6 : run yes yes no no never zero three short_s6.
Proof. apply (run_step yes yes no no never zero three short_s5 short_s6); [exact short_run5|]. refine (s_status yes yes no no never zero three short_s5 0 0 200 _ _ _); v. Qed.
Lemma short_run7 : run yes yes no no never zero three short_s7.
Proof. apply (run_step yes yes no no never zero three short_s6 short_s7); [exact short_run6|]. refine (s_hang_up yes yes no no never zero three short_s6 0 0 _ _); v. Qed.
Theorem short_response_refuted : exists s, run yes yes no no never zero three s /\ In (Finished 0 200 false) (trace s) /\ forall k r n e, ~ In (Answered k r n e) (trace s).
Proof. exists short_s7. split; [exact short_run7|]. split; [vm_compute; auto|]. intros k r n e H. vm_compute in H. intuition discriminate. Qed.

(** and the status of an earlier attempt is reported for a request that was sent again behind another one, although the server has not answered *)
Definition rt (r : nat) : nat := match r with 0 => 3 | _ => 0 end.
Definition stale_s0 := init rt.
Definition stale_s1 := emit (Queued 0 0) (enqueue 0 0 (on_req 0 (fun _ => new_request rt 0) stale_s0)).
Definition stale_s2 := start 0 0 [] [7] [] false false stale_s1.
Definition stale_s3 := on_conn 0 (set_socket true) stale_s2.
Definition stale_s4 := emit (Sent 0 0 [7]) (on_conn 0 (fun c => set_sent [] (sent c + length [7]) c) stale_s3).
Definition stale_s5 := on_conn 0 (fun c => set_mode Ready (set_request None c)) (disconnect yes yes no never 0 (sent (conns stale_s4 0)) stale_s4).
Definition stale_s6 := emit (Status 0 0 200) (on_req 0 (set_rstatus (Some 200)) stale_s5).
Definition stale_s7 := emit (Queued 0 1) (enqueue 0 1 (on_req 1 (fun _ => new_request rt 1) stale_s6)).
Definition stale_s8 := close yes yes no no never zero 0 true stale_s7.
Definition stale_s9 := start 0 1 [0] [9] [] false false stale_s8.
Definition stale_s10 := on_conn 0 (set_socket true) stale_s9.
Definition stale_s11 := emit (Sent 0 1 [9]) (on_conn 0 (fun c => set_sent [] (sent c + length [9]) c) stale_s10).
Definition stale_s12 := on_conn 0 (fun c => set_mode Ready (set_request None c)) (disconnect yes yes no never 1 (sent (conns stale_s11 0)) stale_s11).
Definition stale_s13 := start 0 0 [] [7] [] false false stale_s12.
Definition stale_s14 := emit (Sent 0 0 [7]) (on_conn 0 (fun c => set_sent [] (sent c + length [7]) c) stale_s13).
Definition stale_s15 := on_conn 0 (fun c => set_mode Ready (set_request None c)) (disconnect yes yes no never 0 (sent (conns stale_s14 0)) stale_s14).
Definition stale_s16 := close yes yes no no never zero 0 false stale_s15.
Lemma stale_run0 : run yes yes no no never zero rt stale_s0.
Proof. apply run_init. Qed.
Lemma stale_run1 : run yes yes no no never zero rt stale_s1.
Proof. apply (run_step yes yes no no never zero rt stale_s0 stale_s1); [exact stale_run0|]. refine (s_queue yes yes no no never zero rt stale_s0 0 0 _). fresh_. Qed.
Lemma stale_run2 : run yes yes no no never zero rt stale_s2.
Proof. apply (run_step yes yes no no never zero rt stale_s1 stale_s2); [exact stale_run1|]. refine (s_start yes yes no no never zero rt stale_s1 0 0 [] [7] [] false false _ _ _ _ _ _); [v|v|left; reflexivity|discriminate|repeat constructor; discriminate|discriminate]. Qed.
Lemma stale_run3 : run yes yes no no never zero rt stale_s3.
Proof. apply (run_step yes yes no no never zero rt stale_s2 stale_s3); [exact stale_run2|]. refine (s_connect yes yes no no never zero rt stale_s2 0 _). v. Qed.
Lemma stale_run4 : run yes yes no no never zero rt stale_s4.
Proof. apply (run_step yes yes no no never zero rt stale_s3 stale_s4); [exact stale_run3|]. refine (s_send yes yes no no never zero rt stale_s3 0 0 [7] [] [] _ _ _); [v|v|discriminate]. Qed.
Lemma stale_run5 : run yes yes no no never zero rt stale_s5.
Proof. apply (run_step yes yes no no never zero rt stale_s4 stale_s5); [exact stale_run4|]. refine (s_body_end yes yes no no never zero rt stale_s4 0 0 _ _ _ _ _); v. Qed.
Lemma stale_run6 : run yes yes no no never zero rt stale_s6.
Proof. apply (run_step yes yes no no never zero rt stale_s5 stale_s6); [exact stale_run5|]. refine (s_status yes yes no no never zero rt stale_s5 0 0 200 _ _ _); v. Qed.
Lemma stale_run7 : run yes yes no no never zero rt stale_s7.
Proof. apply (run_step yes yes no no never zero rt stale_s6 stale_s7); [exact stale_run6|]. refine (s_queue yes yes no no never zero rt stale_s6 0 1 _). fresh_. Qed.
Lemma stale_run8 : run yes yes no no never zero rt stale_s8.
Proof. apply (run_step yes yes no no never zero rt stale_s7 stale_s8); [exact stale_run7|]. refine (s_error yes yes no no never zero rt stale_s7 0). Qed.
Lemma stale_run9 : run yes yes no no never zero rt stale_s9.
Proof. apply (run_step yes yes no no never zero rt stale_s8 stale_s9); [exact stale_run8|]. refine (s_start yes yes no no never zero rt stale_s8 0 1 [0] [9] [] false false _ _ _ _ _ _); [v|v|left; reflexivity|discriminate|repeat constructor; discriminate|discriminate]. Qed.
Lemma stale_run10 : run yes yes no no never zero rt stale_s10.
Proof. apply (run_step yes yes no no never zero rt stale_s9 stale_s10); [exact stale_run9|]. refine (s_connect yes yes no no never zero rt stale_s9 0 _). v. Qed.
Lemma stale_run11 : run yes yes no no never zero rt stale_s11.
Proof. apply (run_step yes yes no no never zero rt stale_s10 stale_s11); [exact stale_run10|]. refine (s_send yes yes no no never zero rt stale_s10 0 1 [9] [] [] _ _ _); [v|v|discriminate]. Qed.
Lemma stale_run12 : run yes yes no no never zero rt stale_s12.
Proof. apply (run_step yes yes no no never zero rt stale_s11 stale_s12); [exact stale_run11|]. refine (s_body_end yes yes no no never zero rt stale_s11 0 1 _ _ _ _ _); v. Qed.
Lemma stale_run13 : run yes yes no no never zero rt stale_s13.
Proof. apply (run_step yes yes no no never zero rt stale_s12 stale_s13); [exact stale_run12|]. refine (s_start yes yes no no never zero rt stale_s12 0 0 [] [7] [] false false _ _ _ _ _ _); [v|v|left; reflexivity|discriminate|repeat constructor; discriminate|discriminate]. Qed.
Lemma stale_run14 : run yes yes no no never zero rt stale_s14.
Proof. apply (run_step yes yes no no never zero rt stale_s13 stale_s14); [exact stale_run13|]. refine (s_send yes yes no no never zero rt stale_s13 0 0 [7] [] [] _ _ _); [v|v|discriminate]. Qed.
Lemma stale_run15 : run yes yes no no never zero rt stale_s15.
Proof. apply (run_step yes yes no no never zero rt stale_s14 stale_s15); [exact stale_run14|]. refine (s_body_end yes yes no no never zero rt stale_s14 0 0 _ _ _ _ _); v. Qed.
Lemma stale_run16 : run yes yes no no never zero rt stale_s16.
Proof. apply (run_step yes yes no no never zero rt stale_s15 stale_s16); [exact stale_run15|]. refine (s_hang_up yes yes no no never zero rt stale_s15 0 1 _ _); v. Qed.
Theorem stale_status_refuted : exists s l1 l2, run yes yes no no never zero rt s /\ trace s = l1 ++ Finished 0 200 false :: l2 /\ answer_begun 0 l2 = false /\ bytes_sent 0 l2 = true.
Proof. exists stale_s16, [Closed 0], (tl (tl (trace stale_s16))). split; [exact stale_run16|]. repeat match goal with |- _ /\ _ => split end; v. Qed.

(** C97 without the condition: an error is reported before all of the body was sent.  One block of the body is lost, and the message goes on with the next *)
Definition early_s0 := init three.
Definition early_s1 := emit (Queued 0 0) (enqueue 0 0 (on_req 0 (fun _ => new_request three 0) early_s0)).
Definition early_s2 := start 0 0 [] [7] [[1]; [2]] false false early_s1.
Definition early_s3 := on_conn 0 (set_socket true) early_s2.
Definition early_s4 := emit (Sent 0 0 [7]) (on_conn 0 (fun c => set_sent [] (sent c + length [7]) c) early_s3).
Definition early_s5 := emit (Status 0 0 400) (on_req 0 (set_rstatus (Some 400)) early_s4).
Definition early_s6 := complete no no no no never zero 0 0 400 true early_s5.
Definition early_s7 := on_conn 0 (fun c => set_buffer [(0, [2])] (buffered c + length [2]) c) (on_req 0 (set_rest []) early_s6).
Definition early_s8 := emit (Sent 0 0 [2]) (on_conn 0 (fun c => set_sent [] (sent c + length [2]) c) early_s7).
Lemma early_run0 : run no no no no never zero three early_s0.
Proof. apply run_init. Qed.
Lemma early_run1 : run no no no no never zero three early_s1.
Proof. apply (run_step no no no no never zero three early_s0 early_s1); [exact early_run0|]. refine (s_queue no no no no never zero three early_s0 0 0 _). fresh_. Qed.
Lemma early_run2 : run no no no no never zero three early_s2.
Proof. apply (run_step no no no no never zero three early_s1 early_s2); [exact early_run1|]. refine (s_start no no no no never zero three early_s1 0 0 [] [7] [[1]; [2]] false false _ _ _ _ _ _); [v|v|right; split; v|discriminate|repeat constructor; discriminate|discriminate]. Qed.
Lemma early_run3 : run no no no no never zero three early_s3.
Proof. apply (run_step no no no no never zero three early_s2 early_s3); [exact early_run2|]. refine (s_connect no no no no never zero three early_s2 0 _). v. Qed.
Lemma early_run4 : run no no no no never zero three early_s4.
Proof. apply (run_step no no no no never zero three early_s3 early_s4); [exact early_run3|]. refine (s_send no no no no never zero three early_s3 0 0 [7] [] [] _ _ _); [v|v|discriminate]. Qed.
Lemma early_run5 : run no no no no never zero three early_s5.
Proof. apply (run_step no no no no never zero three early_s4 early_s5); [exact early_run4|]. refine (s_status no no no no never zero three early_s4 0 0 400 _ _ _); v. Qed.
Lemma early_run6 : run no no no no never zero three early_s6.
Proof. apply (run_step no no no no never zero three early_s5 early_s6); [exact early_run5|]. refine (s_complete no no no no never zero three early_s5 0 0 400 true _ _); v. Qed.
Lemma early_run7 : run no no no no never zero three early_s7.
Proof. apply (run_step no no no no never zero three early_s6 early_s7); [exact early_run6|]. refine (s_body no no no no never zero three early_s6 0 0 [2] [] _ _ _ _); v. Qed.
Lemma early_run8 : run no no no no never zero three early_s8.
Proof. apply (run_step no no no no never zero three early_s7 early_s8); [exact early_run7|]. refine (s_send no no no no never zero three early_s7 0 0 [2] [] [] _ _ _); [v|v|discriminate]. Qed.
Theorem wire_prefix_refuted : exists s, run no no no no never zero three s /\ messages 0 (trace s) = [7; 1; 2] /\ wire 0 (trace s) = [7; 2].
Proof. exists early_s8. split; [exact early_run8|]. split; v. Qed.

(** C95: a request whose response with status 200 is complete before all of its body was sent is reported to be finished and sent again (TypeError in line 1927) *)
Definition put_s0 := init three.
Definition put_s1 := emit (Queued 0 0) (enqueue 0 0 (on_req 0 (fun _ => new_request three 0) put_s0)).
Definition put_s2 := start 0 0 [] [7] [[1]; [2]] false false put_s1.
Definition put_s3 := on_conn 0 (set_socket true) put_s2.
Definition put_s4 := emit (Sent 0 0 [7]) (on_conn 0 (fun c => set_sent [] (sent c + length [7]) c) put_s3).
Definition put_s5 := emit (Status 0 0 200) (on_req 0 (set_rstatus (Some 200)) put_s4).
Definition put_s6 := complete yes yes no no never zero 0 0 200 true put_s5.
Definition put_s7 := start 0 0 [] [7] [[1]; [2]] false false put_s6.
Lemma put_run : run yes yes no no never zero three put_s7.
Proof.
  apply (run_step yes yes no no never zero three put_s6 put_s7); [apply (run_step yes yes no no never zero three put_s5 put_s6); [apply (run_step yes yes no no never zero three put_s4 put_s5); [apply (run_step yes yes no no never zero three put_s3 put_s4); [apply (run_step yes yes no no never zero three put_s2 put_s3); [apply (run_step yes yes no no never zero three put_s1 put_s2); [apply (run_step yes yes no no never zero three put_s0 put_s1); [apply run_init|]|]|]|]|]|]|].
  - refine (s_queue yes yes no no never zero three put_s0 0 0 _). fresh_.
  - refine (s_start yes yes no no never zero three put_s1 0 0 [] [7] [[1]; [2]] false false _ _ _ _ _ _); [v|v|left; reflexivity|discriminate|repeat constructor; discriminate|discriminate].
  - refine (s_connect yes yes no no never zero three put_s2 0 _). v.
  - refine (s_send yes yes no no never zero three put_s3 0 0 [7] [] [] _ _ _); [v|v|discriminate].
  - refine (s_status yes yes no no never zero three put_s4 0 0 200 _ _ _); v.
  - refine (s_complete yes yes no no never zero three put_s5 0 0 200 true _ _); v.
  - refine (s_start yes yes no no never zero three put_s6 0 0 [] [7] [[1]; [2]] false false _ _ _ _ _ _); [v|v|left; reflexivity|discriminate|repeat constructor; discriminate|discriminate].
Qed.
Theorem answered_not_repeated_refuted : exists s, run yes yes no no never zero three s /\ trace s = [Start 0 0 [7; 1; 2]; Closed 0; Retried 0 0; Finished 0 200 false; Answered 0 0 200 true; Status 0 0 200; Sent 0 0 [7]; Start 0 0 [7; 1; 2]; Queued 0 0].
Proof. exists put_s7. split; [exact put_run|]. v. Qed.

Print Assumptions not_sent_twice_partial.
Print Assumptions attempts_bounded_partial.
Print Assumptions responses_in_order_partial.
Print Assumptions not_pipelined_partial.
Print Assumptions wire_prefix_partial.
Print Assumptions start_after_message_partial.
Print Assumptions status_received_partial.
Print Assumptions two.
Print Assumptions post.
Print Assumptions not_sent_twice_refuted.
Print Assumptions short_response_refuted.
Print Assumptions stale_status_refuted.
Print Assumptions wire_prefix_refuted.
Print Assumptions answered_not_repeated_refuted.
