(** The history of the HTTP client. *)
From Verif Require Import HcModel HcSpec HcReq HcStep HcAll HcEnd HcCompl.

Section hist.
  Variables idempotent get_or_head auto_redirect upgrade : nat -> bool.
  Variable resends : nat -> list nat.
  Variable place : nat -> nat.
  Variable retries : nat -> nat.
  Notation finished := (finished get_or_head auto_redirect resends).
  Notation disconnect := (disconnect idempotent get_or_head auto_redirect resends).
  Notation switch_protocols := (switch_protocols idempotent get_or_head auto_redirect resends place).
  Notation response_finished := (response_finished idempotent get_or_head auto_redirect upgrade resends place).
  Notation close_responses := (close_responses idempotent get_or_head auto_redirect upgrade resends place).
  Notation close := (close idempotent get_or_head auto_redirect upgrade resends place).
  Notation complete := (complete idempotent get_or_head auto_redirect upgrade resends place).
  Notation step := (step idempotent get_or_head auto_redirect upgrade resends place retries).
  Notation run := (run idempotent get_or_head auto_redirect upgrade resends place retries).
  Notation Good := (Good idempotent retries).

  (** what every event says of the history before it *)
  Definition event_ok (e : event) (l : list event) : Prop :=
    match e with
    | Start k r m => (idempotent r = false -> ~ dirty r l /\ awaiting k l = []) /\ (no_early_error l -> messages k l = wire k l)
    | Status k r _ | Answered k r _ _ => hd_error (awaiting k l) = Some r
    | Finished r n _ => n = 0 \/ seen r n l
    | _ => True
    end.
  Fixpoint hist (l : list event) : Prop := match l with [] => True | e :: l => event_ok e l /\ hist l end.
  Lemma hist_at : forall l1 e l2, hist (l1 ++ e :: l2) -> event_ok e l2.
  Proof. induction l1 as [|x l1 IH]; intros e l2 H; [apply H|]. apply IH, H. Qed.

  (** the state remembers only status lines that were seen *)
  Definition prov (s : st) : Prop := (forall r, (forall n, rstatus (reqs s r) = Some n -> seen r n (trace s)) /\ (status (reqs s r) = 0 \/ seen r (status (reqs s r)) (trace s))).
  Definition P (s : st) : Prop := prov s /\ hist (trace s).
  Lemma seen_cons : forall r n e l, seen r n l -> seen r n (e :: l).
  Proof. intros r n e l (k & H). exists k. right. exact H. Qed.
  Lemma p_conn : forall k f s, P s -> P (on_conn k f s).
  Proof. intros k f s H. exact H. Qed.
  Lemma p_enqueue : forall k r s, P s -> P (enqueue k r s).
  Proof. intros k r s H. exact H. Qed.
  Lemma p_called : forall s, P s -> P (called s).
  Proof. intros s H. exact H. Qed.
  Lemma p_emit : forall e s, P s -> event_ok e (trace s) -> P (emit e s).
  Proof.
    intros e s [A B] H. split; [|split; assumption]. intro r. destruct (A r) as [A1 A2]. split; [intros n E; apply seen_cons, A1, E|]. destruct A2 as [A2|A2]; [left; exact A2|right; apply seen_cons, A2].
  Qed.
  Lemma p_req : forall r F s, P s -> (forall n, rstatus (F (reqs s r)) = Some n -> seen r n (trace s)) -> (status (F (reqs s r)) = 0 \/ seen r (status (F (reqs s r))) (trace s)) -> P (on_req r F s).
  Proof.
    intros r F s [A B] H1 H2. split; [|exact B]. intro q. cbn [on_req reqs trace]. unfold upd. destruct (Nat.eqb_spec q r) as [->|]; [split; assumption|apply A].
  Qed.
  Lemma p_req' : forall r F s, P s -> (rstatus (F (reqs s r)) = rstatus (reqs s r) \/ rstatus (F (reqs s r)) = None) -> status (F (reqs s r)) = status (reqs s r) \/ status (F (reqs s r)) = 0 -> P (on_req r F s).
  Proof.
    intros r F s H H1 H2. destruct (proj1 H r) as [A1 A2]. apply p_req; [exact H| |].
    - intros n E. destruct H1 as [H1|H1]; rewrite H1 in E; [apply A1, E|discriminate].
    - destruct H2 as [-> | ->]; auto.
  Qed.
  Lemma p_resend : forall k r s, P s -> P (resend k r s).
  Proof. intros k r s H. unfold resend. apply p_emit; [|exact Logic.I]. apply p_enqueue. apply p_req'; auto. Qed.
  Lemma p_finished : forall r s, P s -> P (finished r s).
  Proof.
    intros r s H. assert (H1 : P (called (emit (Finished r (status (reqs s r)) (error (reqs s r))) s))) by (apply p_called, p_emit; [exact H|apply (proj1 H r)]).
    unfold HcModel.finished. cbv zeta. destruct (_ && _ && _ && _).
    - destruct (resends (calls s)); [exact H1|]. apply p_resend, H1.
    - destruct (status (reqs s r) =? 401); [|exact H1]. revert H1. generalize (called (emit (Finished r (status (reqs s r)) (error (reqs s r))) s)). induction (resends (calls s)) as [|x l IH]; intros s1 H1; [exact H1|]. cbn [fold_left]. apply IH, p_resend, H1.
  Qed.
  Lemma p_disconnect : forall r p s, P s -> P (disconnect r p s).
  Proof.
    intros r p s H. unfold HcModel.disconnect. cbv zeta. match goal with |- P (if _ then _ ?x else _) => assert (P x) by (apply p_req'; [exact H|left; destruct (_ || _); reflexivity|left; destruct (_ || _); reflexivity]) end.
    destruct (0 <? _); [apply p_finished|]; assumption.
  Qed.
  Lemma p_continue : forall k r s, P s -> P (continue_sending k r s).
  Proof. intros k r s H. unfold continue_sending. destruct (_ && _); exact H. Qed.
  Lemma p_switch : forall k r s, P s -> P (switch_protocols k r s).
  Proof.
    intros k r s H. unfold HcModel.switch_protocols. destruct (_ && _); [|exact H]. cbv zeta. apply p_emit; [|exact Logic.I]. apply p_conn. apply p_req'; [|left; reflexivity|left; reflexivity]. apply p_disconnect.
    assert (G : forall l s0, P s0 -> P (fold_left (fun s q => called (enqueue (if place (calls s) =? k then S k else place (calls s)) q s)) l s0)) by (induction l as [|x l IH]; intros s0 H0; [exact H0|]; cbn [fold_left]; apply IH; exact H0). apply G. exact H.
  Qed.
  Lemma p_response : forall r e s, P s -> P (fst (response_finished r e s)).
  Proof.
    intros r e s H. unfold HcModel.response_finished. cbv zeta. destruct (rstatus (reqs s r)) as [n|] eqn:R.
    - assert (H1 : P (on_req r (set_status n e) s)) by (apply p_req; [exact H|apply (proj1 H r)|right; apply (proj1 H r), R]). destruct (informational n); cbn [fst].
      + destruct (connection (reqs s r)) as [k|]; [|exact H1]. destruct (_ && _); [apply p_switch, H1|apply p_continue, H1].
      + destruct (connection (reqs s r)) as [k|]; [|apply p_finished, H1]. destruct (300 <=? n); [|exact H1]. apply p_req'; [exact H1|left; reflexivity|left; reflexivity].
    - cbn [fst]. apply p_finished. apply p_req'; [exact H|left; reflexivity|right; reflexivity].
  Qed.
  Lemma p_responses : forall k e l b s, P s -> P (close_responses k e b l s).
  Proof.
    intros k e. induction l as [|r l IH]; intros b s H; [exact H|]. cbn [HcModel.close_responses]. destruct (_ || _); [destruct (can_retry _)|]; apply IH; try (apply p_response, H). apply p_emit; [exact H|exact Logic.I].
  Qed.
  Lemma p_close : forall k e s, P s -> P (close k e s).
  Proof.
    intros k e s H. unfold HcModel.close. cbv zeta. apply p_emit; [|exact Logic.I]. apply p_conn, p_responses, p_conn. destruct (request (conns s k)); [|exact H]. apply p_conn, p_disconnect, H.
  Qed.
  Lemma p_next : forall k s, P s -> P (next_response k s).
  Proof. intros k s H. unfold next_response. destruct (response_queue (conns s k)); [exact H|]. apply p_req'; [exact H|right; reflexivity|left; reflexivity]. Qed.
  Lemma p_complete : forall k r n ka s, P s -> hd_error (awaiting k (trace s)) = Some r -> P (complete k r n ka s).
  Proof.
    intros k r n ka s H A. unfold HcModel.complete. cbv zeta. destruct (_ && _).
    - apply p_req'; [apply p_response, H|right; reflexivity|left; reflexivity].
    - assert (H1 := p_response r false (emit (Answered k r n (is_some (connection (reqs s r)))) s) (p_emit (Answered k r n (is_some (connection (reqs s r)))) s H A)). destruct (response_finished r false _) as [s1 b]. cbn [fst] in H1. destruct b; [apply p_close, H1|]. destruct ka; [apply p_next, H1|apply p_close, p_next, H1].
  Qed.
  Lemma expected_head : forall s k r, CInv k s -> response (conns s k) = Some r -> hd_error (awaiting k (trace s)) = Some r.
  Proof. intros s k r [C _ _ _ _] H. rewrite <- C. unfold expected. rewrite H. reflexivity. Qed.
  Lemma p_step : forall s s', Good s -> P s -> step s s' -> P s'.
  Proof.
    intros s s' [A B] H S0. destruct S0.
    - apply p_emit; [|exact Logic.I]. apply p_enqueue. apply p_req'; [exact H|right; reflexivity|right; reflexivity].
    - (* start *)
      destruct (queued_here idempotent retries s k r q H0 (A r)) as (V & W & X & Z). assert (C := B k). destruct C as [K1 K2 K3 K4 K5]. rewrite H1 in K4, K5. destruct K4 as (K4 & K6 & K7). rewrite K4 in K5.
      assert (E : P (mkS (conns s) (reqs (start k r q h body drop expect s)) (calls s) (dropped k drop (conns s k) ++ trace s))).
      { assert (D : P (mkS (conns s) (reqs s) (calls s) (dropped k drop (conns s k) ++ trace s))).
        { unfold dropped. destruct (response (conns s k)); [exact H|]. destruct drop; [|exact H]. exact (p_emit (Dropped k) s H Logic.I). }
        split; [|apply D]. intro x. cbn [reqs trace]. destruct (Nat.eq_dec x r) as [->|N]; [|rewrite start_req_other by exact N; apply (proj1 D x)]. rewrite start_req. cbv zeta. destruct (proj1 D r) as [D1 D2]. cbn [reqs trace] in D1, D2. destruct (response (conns s k)); [split; assumption|]. split; [discriminate|exact D2]. }
      assert (F : event_ok (Start k r (h ++ concat body)) (dropped k drop (conns s k) ++ trace s)).
      { split.
        - intro I. destruct (silent_facts r (dropped k drop (conns s k)) (trace s) (dropped_silent k drop (conns s k) r)) as (F1 & F2 & _). destruct X as (X1 & _). split; [unfold dirty; rewrite F1, F2; apply X1, I|].
          destruct H2 as [H2|[H2 _]]; [congruence|]. unfold dropped. rewrite H2. assert (Q : awaiting k (trace s) = []) by (rewrite <- K1; unfold expected; rewrite H2; reflexivity). destruct drop; exact Q.
        - intro E'. unfold dropped in *. destruct (response (conns s k)); [apply K5, E'|]. destruct drop; [cbn; rewrite Nat.eqb_refl; reflexivity|apply K5, E']. }
      assert (G := p_emit (Start k r (h ++ concat body)) _ E F). unfold P, prov in *. rewrite start_trace. exact G.
    - apply p_close. apply p_conn. apply p_req'; [exact H|left; reflexivity|left; reflexivity].
    - exact H.
    - apply p_emit; [exact H|exact Logic.I].
    - apply p_conn, p_disconnect, H.
    - exact H.
    - apply p_conn. apply p_req'; [exact H|left; reflexivity|left; reflexivity].
    - exact H.
    - apply p_conn, p_disconnect, H.
    - apply p_conn, p_disconnect, H.
    - (* status *)
      assert (F : event_ok (Status k r n) (trace s)) by (apply expected_head; [apply B|assumption]).
      assert (E := p_emit (Status k r n) s H F). apply (p_req r (set_rstatus (Some n)) _ E).
      + intros m Em. injection Em as <-. exists k. left. reflexivity.
      + apply (proj1 E r).
    - apply p_complete; [exact H|]. apply expected_head; [apply B|assumption].
    - apply p_close, H.
    - apply p_close, H.
    - apply p_close, H.
  Qed.
  Hypothesis one : forall n, length (resends n) <= 1.
  Theorem run_good : forall s, run s -> Good s /\ P s.
  Proof.
    intros s H. induction H as [|s s' H [IH1 IH2] S0].
    - split; [apply good_init|]. split; [intro r; cbn; split; [discriminate|left; reflexivity]|exact Logic.I].
    - split; [eapply good_step; eassumption|eapply p_step; eassumption].
  Qed.
End hist.
