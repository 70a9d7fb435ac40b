(** Every step keeps what is known of every request, part 2: the start of a request. *)
From Verif Require Import HcModel HcSpec HcReq HcStep HcAll.

Section ends.
  Variables idempotent get_or_head auto_redirect upgrade : nat -> bool.
  Variable resends : nat -> list nat.
  Variable place : nat -> nat.
  Variable retries : nat -> nat.
  Hypothesis one : forall n, length (resends n) <= 1.
  Notation disconnect := (disconnect idempotent get_or_head auto_redirect resends).
  Notation close := (close idempotent get_or_head auto_redirect upgrade resends place).
  Notation Ok_ := (Ok_ idempotent retries).
  Notation good := (good idempotent).
  Notation common := (common retries).
  Notation All := (All idempotent retries).
  Notation Good := (Good idempotent retries).
  Notation ready := (ready idempotent).

  Lemma close_request : forall k r e s, request (conns s k) = Some r -> close k e s = close k e (on_conn k (set_request None) (disconnect r (sent (conns s k)) s)).
  Proof.
    intros k r e s H. set (s2 := on_conn k (set_request None) (disconnect r (sent (conns s k)) s)). assert (R : request (conns s2 k) = None) by (unfold s2; rewrite conns_on; reflexivity).
    unfold HcModel.close. cbv zeta. rewrite H, R. reflexivity.
  Qed.
  Lemma queued_here : forall s k r q, queue (conns s k) = r :: q -> Ok_ r s -> at_ s r (Qu k) /\ common r (Qu k) s /\ good r (Qu k) s /\ cnt q r = 0.
  Proof.
    intros s k r q H (L & A & B & C). assert (E : L = Qu k) by (eapply where_queued; [exact A|rewrite H; left; reflexivity]). subst L. split; [exact A|]. split; [exact B|]. split; [exact C|].
    pose proof (at_queue _ _ _ k A) as X. rewrite H, cnt_cons in X. cbn [lview fst snd] in X. rewrite !Nat.eqb_refl in X. cbn in X. lia.
  Qed.
  Lemma good_start_raises : forall s k r q, Good s -> queue (conns s k) = r :: q -> cmode (conns s k) = Ready ->
    Good (close k true (on_conn k (fun c => set_queue q (set_request (Some r) c)) (on_req r (set_connection (Some k) (buffered (conns s k))) s))).
  Proof.
    intros s k r q [A B] Q M. set (s1 := on_conn k _ _). assert (R1 : request (conns s1 k) = Some r) by (unfold s1; rewrite conns_on; reflexivity).
    assert (C1 : conns s1 k = set_queue q (set_request (Some r) (conns s k))) by (unfold s1; rewrite conns_on; reflexivity). assert (C2 : forall j, j <> k -> conns s1 j = conns s j) by (intros j N; unfold s1; rewrite conns_other by exact N; reflexivity).
    assert (Rq : reqs s1 r = set_connection (Some k) (buffered (conns s k)) (reqs s r)) by (unfold s1; cbn [on_conn reqs]; apply reqs_on).
    destruct (queued_here s k r q Q (A r)) as (V & W & X & Z). assert (K : request (conns s k) = None) by (destruct (B k) as [_ _ _ I _]; rewrite M in I; apply I).
    assert (Sm : forall x, x <> r -> same x s s1).
    { intros x N. unfold s1. eapply same_trans; [apply same_req with (q := r); congruence|]. apply same_conn; cbn [on_req conns set_queue queue set_request]; auto.
      - rewrite Q, cnt_cons. assert (E : (r =? x) = false) by (apply Nat.eqb_neq; congruence). rewrite E. reflexivity.
      - unfold asks. cbn. rewrite K. apply Nat.eqb_neq. congruence. }
    rewrite (close_request k r true s1 R1). set (s2 := on_conn k (set_request None) (disconnect r (sent (conns s1 k)) s1)).
    assert (A2 : All s2).
    { intro x. destruct (Nat.eq_dec x r) as [->|N].
      - apply ok_disconnected'; [exact one|constructor; reflexivity| |unfold asks; rewrite R1; apply Nat.eqb_refl]. exists (SndA k). split; [|split; [|right; split; [reflexivity|apply X]]].
        + intro j. specialize (V j). rewrite view_at in *. destruct (Nat.eqb_spec j k) as [->|N].
          * rewrite C1. injection V as _ _ V. transitivity (cnt q r, r =? r, cnt (expected (conns s k)) r); [reflexivity|]. cbn [lview]. rewrite Z, V, !Nat.eqb_refl. reflexivity.
          * rewrite C2 by exact N. rewrite V. cbn. apply Nat.eqb_neq in N. rewrite N. reflexivity.
        + destruct W as [W1 W2 W3 W4]. constructor; rewrite ?Rq; auto. intro F. destruct (W4 F). discriminate.
      - eapply same_ok; [|apply A]. eapply same_trans; [apply Sm, N|]. apply same_disconnected; [exact one|constructor; reflexivity|exact N|exact R1]. }
    split; [apply all_close; assumption|]. apply cinv_close with (retries := retries); [exact one|exact A2|]. intros j N. unfold s2. apply cinv_other; [exact N|]. eapply cinv_of_frame; [|apply frame_disconnect; exact one].
    apply cinv_frame with (s := s); [apply B|exists (queue (conns s j)); rewrite C2 by exact N; symmetry; apply set_same| |exists []; split; [reflexivity|constructor]].
    intros x _. destruct (Nat.eq_dec x r) as [->|Nx]; [rewrite Rq; reflexivity|]. rewrite (m_req _ _ _ (Sm x Nx)). reflexivity.
  Qed.

  Definition dropped (k : nat) (drop : bool) (c : conn) : list event := match response c with Some _ => [] | None => if drop then [Dropped k] else [] end.
  Lemma start_conn : forall k r q h body drop expect s, let c := conns s k in conns (start k r q h body drop expect s) k =
    mkC q (Some r) (match response c with Some a => Some a | None => Some r end) (match response c with Some _ => response_queue c ++ [r] | None => response_queue c end)
        (if expect then BodyWaiting else BodySending) (buffer c ++ [(r, h)]) (buffered c + length h) (sent c) (match response c with Some _ => socket c | None => if drop then false else socket c end).
  Proof.
    intros. unfold start. cbv zeta. fold c. destruct (response c) as [a|] eqn:E; cbn [emit conns on_conn on_req]; unfold upd; rewrite !Nat.eqb_refl; [reflexivity|]. destruct drop; cbn [emit conns on_conn on_req]; unfold upd; rewrite !Nat.eqb_refl; reflexivity.
  Qed.
  Lemma start_other : forall k r q h body drop expect s j, j <> k -> conns (start k r q h body drop expect s) j = conns s j.
  Proof.
    intros k r q h body drop expect s j N. apply Nat.eqb_neq in N. unfold start. cbv zeta. destruct (response (conns s k)) as [a|]; [|destruct drop]; cbn [emit conns on_conn on_req]; unfold upd; rewrite !N; reflexivity.
  Qed.
  Lemma start_req : forall k r q h body drop expect s, reqs (start k r q h body drop expect s) r =
    let x := set_rest body (set_connection (Some k) (buffered (conns s k)) (reqs s r)) in match response (conns s k) with Some _ => x | None => set_rstatus None x end.
  Proof.
    intros. unfold start. cbv zeta. destruct (response (conns s k)) as [a|]; [|destruct drop]; cbn [emit reqs on_conn on_req]; unfold upd; rewrite !Nat.eqb_refl; reflexivity.
  Qed.
  Lemma start_req_other : forall k r q h body drop expect s x, x <> r -> reqs (start k r q h body drop expect s) x = reqs s x.
  Proof.
    intros k r q h body drop expect s x N. apply Nat.eqb_neq in N. unfold start. cbv zeta. destruct (response (conns s k)) as [a|]; [|destruct drop]; cbn [emit reqs on_conn on_req]; unfold upd; rewrite !N; reflexivity.
  Qed.
  Lemma start_trace : forall k r q h body drop expect s, trace (start k r q h body drop expect s) = Start k r (h ++ concat body) :: dropped k drop (conns s k) ++ trace s.
  Proof. intros. unfold start, dropped. cbv zeta. destruct (response (conns s k)) as [a|]; [reflexivity|]. destruct drop; reflexivity. Qed.

  Lemma dropped_silent : forall k drop c r, silent r (dropped k drop c).
  Proof. intros. unfold dropped. destruct (response c); [constructor|]. destruct drop; repeat constructor. Qed.
  Lemma good_start : forall s k r q h body drop expect, Good s -> queue (conns s k) = r :: q -> cmode (conns s k) = Ready -> ready r (conns s k) -> Good (start k r q h body drop expect s).
  Proof.
    intros s k r q h body drop expect [A B] Q M Rd. set (s' := start k r q h body drop expect s). set (c := conns s k) in *.
    assert (C1 := start_conn k r q h body drop expect s : conns s' k = _). cbv zeta in C1. fold c in C1. assert (C2 := start_other k r q h body drop expect s : forall j, j <> k -> conns s' j = conns s j).
    assert (R1 := start_req k r q h body drop expect s : reqs s' r = _). cbv zeta in R1. fold c in R1. assert (R2 := start_req_other k r q h body drop expect s : forall x, x <> r -> reqs s' x = reqs s x).
    assert (T := start_trace k r q h body drop expect s : trace s' = _). fold c in T. clearbody s'.
    destruct (queued_here s k r q Q (A r)) as (V & W & X & Z). assert (Ck := B k). destruct Ck as [K1 K2 K3 K4 K5]. fold c in K1, K2, K3, K4, K5. rewrite M in K4, K5. destruct K4 as (K4 & K6 & K7). rewrite K4 in K5.
    assert (Ex : expected (conns s' k) = expected c ++ [r]) by (rewrite C1; unfold expected; cbn [response response_queue]; destruct (response c); [reflexivity|rewrite (K2 eq_refl); reflexivity]).
    assert (Si := dropped_silent k drop c). split.
    - intro x. destruct (Nat.eq_dec x r) as [->|N].
      + destruct (silent_facts r (dropped k drop c) (trace s) (Si r)) as (F1 & F2 & F3 & F4 & F5 & F6). exists (Snd k). split; [|split].
        * intro j. specialize (V j). rewrite view_at in *. destruct (Nat.eqb_spec j k) as [->|N].
          -- rewrite Ex. injection V as _ _ V. fold c in V. rewrite C1. cbn [queue]. unfold asks. cbn [request]. rewrite cnt_app, cnt_cons, Z, V. cbn [lview]. rewrite !Nat.eqb_refl. reflexivity.
          -- rewrite C2 by exact N. rewrite V. cbn [lview]. apply Nat.eqb_neq in N. rewrite N. reflexivity.
        * destruct W as [W1 W2 W3 W4]. destruct X as (X1 & X2 & X3 & X4). constructor; rewrite ?T, ?R1.
          -- destruct (response c); exact W1.
          -- change (retried r (Start k r (h ++ concat body) :: dropped k drop c ++ trace s)) with (retried r (dropped k drop c ++ trace s)). rewrite F5. destruct (response c); exact W2.
          -- change (retried r (Start k r (h ++ concat body) :: dropped k drop c ++ trace s)) with (retried r (dropped k drop c ++ trace s)). change (queued r (Start k r (h ++ concat body) :: dropped k drop c ++ trace s)) with (queued r (dropped k drop c ++ trace s)).
             unfold starts. cbn [filter]. rewrite Nat.eqb_refl. cbn [length]. fold (starts r (dropped k drop c ++ trace s)). rewrite F3, F4, F5. exact X4.
          -- intro F. apply fresh_cons in F. apply F6 in F. destruct (W4 F). discriminate.
        * cbn [HcReq.good]. rewrite T, R1, C1. cbn [sent bytes_sent answer_begun]. rewrite Nat.eqb_refl. destruct X as (X1 & X2 & X3 & X4).
          assert (E : send_pos (match response c with Some _ => set_rest body (set_connection (Some k) (buffered c) (reqs s r)) | None => set_rstatus None (set_rest body (set_connection (Some k) (buffered c) (reqs s r))) end) = buffered c) by (destruct (response c); reflexivity).
          rewrite E. split; [destruct (response c); reflexivity|]. split; [destruct (response c); exact X2|]. split; [lia|]. intros I _. split; [|discriminate].
          destruct Rd as [Rd|[Rd _]]; [congruence|]. rewrite Rd. reflexivity.
      + eapply same_ok; [|apply A]. constructor.
        * intro j. rewrite !view_at. destruct (Nat.eqb_spec j k) as [->|Nj]; [|rewrite C2 by exact Nj; reflexivity]. rewrite Ex. rewrite C1. cbn [queue]. unfold asks. cbn [request]. fold c. rewrite K4, Q, cnt_app, !cnt_cons.
          assert (E : (r =? x) = false) by (apply Nat.eqb_neq; congruence). rewrite E. cbn. rewrite !Nat.add_0_r. reflexivity.
        * apply R2, N.
        * intros j H. destruct (Nat.eq_dec j k) as [->|Nj]; [|rewrite C2 by exact Nj; reflexivity]. rewrite C1. reflexivity.
        * exists (Start k r (h ++ concat body) :: dropped k drop c). split; [exact T|]. constructor; [cbn; apply Nat.eqb_neq; congruence|apply Si].
    - intro j. destruct (Nat.eq_dec j k) as [->|N].
      + assert (D : awaiting k (dropped k drop c ++ trace s) = awaiting k (trace s)) by (unfold dropped; destruct (response c); [reflexivity|]; destruct drop; reflexivity).
        assert (D' : no_early_error (trace s') -> messages k (dropped k drop c ++ trace s) = wire k (dropped k drop c ++ trace s)).
        { intro E. rewrite T in E. assert (E' : no_early_error (trace s)) by (intros a b d Y; apply (E a b d); right; apply in_or_app; right; exact Y). specialize (K5 E'). unfold dropped. destruct (response c); [exact K5|]. destruct drop; [|exact K5]. cbn. rewrite Nat.eqb_refl. reflexivity. }
        constructor.
        * rewrite Ex, T. cbn [awaiting]. rewrite Nat.eqb_refl, D, K1. reflexivity.
        * rewrite C1. cbn [response]. destruct (response c); discriminate.
        * rewrite C1. cbn [request buffer]. rewrite K6. repeat constructor.
        * rewrite C1. cbn [cmode request buffer sent buffered]. rewrite K6. cbn [map app concat snd]. rewrite app_nil_r, K7. destruct expect; reflexivity.
        * intro E. specialize (D' E). rewrite T. rewrite C1. cbn [request buffer messages wire]. rewrite Nat.eqb_refl, D', K6, R1. cbn [map app concat snd]. rewrite app_nil_r. destruct (response c); reflexivity.
      + apply cinv_frame with (s := s); [apply B|exists (queue (conns s j)); rewrite C2 by exact N; symmetry; apply set_same| |].
        * intros x Hx. rewrite R2; [reflexivity|]. intros ->. apply asked_here in Hx. destruct (where_asked _ _ _ _ V Hx); discriminate.
        * exists (Start k r (h ++ concat body) :: dropped k drop c). split; [exact T|]. assert (E : (k =? j) = false) by (apply Nat.eqb_neq; congruence). constructor; [cbn; rewrite E; reflexivity|]. unfold dropped. destruct (response c); [constructor|]. destruct drop; repeat constructor. cbn. rewrite E. reflexivity.
  Qed.
End ends.
