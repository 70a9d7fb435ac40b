(** Every step keeps what is known of every request, part 1: the steps other than the end of a response. *)
From Verif Require Import HcModel HcSpec HcReq HcStep.

Section all.
  Variables idempotent get_or_head auto_redirect upgrade : nat -> bool.
  Variable resends : nat -> list nat.
  Variable place : nat -> nat.
  Variable retries : nat -> nat.
  Hypothesis one : forall n, length (resends n) <= 1.
  Notation finished := (finished get_or_head auto_redirect resends).
  Notation disconnect := (disconnect idempotent get_or_head auto_redirect resends).
  Notation switch_protocols := (switch_protocols idempotent get_or_head auto_redirect resends place).
  Notation response_finished := (response_finished idempotent get_or_head auto_redirect upgrade resends place).
  Notation close := (close idempotent get_or_head auto_redirect upgrade resends place).
  Notation complete := (complete idempotent get_or_head auto_redirect upgrade resends place).
  Notation Ok_ := (Ok_ idempotent retries).
  Notation good := (good idempotent).
  Notation common := (common retries).
  Notation All := (All idempotent retries).

  (** what is known of a connection *)
  Record CInv (k : nat) (s : st) : Prop := {
    i_exp : expected (conns s k) = awaiting k (trace s);
    i_none : response (conns s k) = None -> response_queue (conns s k) = [];
    i_buf : Forall (fun b => request (conns s k) = Some (fst b)) (buffer (conns s k));
    i_mode : match cmode (conns s k) with
             | Ready => request (conns s k) = None /\ buffer (conns s k) = [] /\ sent (conns s k) = buffered (conns s k)
             | Tunnelling => request (conns s k) = None /\ buffer (conns s k) = []
             | UpgradeWaiting => buffer (conns s k) = [] /\ forall r, request (conns s k) = Some r -> sent (conns s k) = buffered (conns s k) /\ rest (reqs s r) = []
             | _ => request (conns s k) <> None -> sent (conns s k) + length (concat (map snd (buffer (conns s k)))) = buffered (conns s k)
             end;
    i_wire : no_early_error (trace s) ->
             match request (conns s k) with
             | Some r => messages k (trace s) = wire k (trace s) ++ concat (map snd (buffer (conns s k))) ++ concat (rest (reqs s r))
             | None => match cmode (conns s k) with Ready => messages k (trace s) = wire k (trace s) | _ => exists m, messages k (trace s) = wire k (trace s) ++ m end
             end }.

  Definition away (j : nat) (e : event) : bool :=
    match e with Start k _ _ | Sent k _ _ | Answered k _ _ _ | Closed k | Dropped k | Switched k => negb (k =? j) | _ => true end.
  Lemma quiet_away : forall j l, Forall (fun e => quiet e = true) l -> Forall (fun e => away j e = true) l.
  Proof. intros j l. apply Forall_impl. intros [] H; try discriminate; reflexivity. Qed.
  Lemma away_facts : forall j l t, Forall (fun e => away j e = true) l -> awaiting j (l ++ t) = awaiting j t /\ wire j (l ++ t) = wire j t /\ messages j (l ++ t) = messages j t.
  Proof.
    intros j l t H. induction H as [|e l H Hl (A & B & C)]; [cbn; auto|]. destruct e; cbn [app awaiting wire messages away] in *; auto;
      destruct (_ =? j); try discriminate; auto.
  Qed.
  Lemma early_app : forall l t, no_early_error (l ++ t) -> no_early_error t.
  Proof. intros l t H k r n I. apply (H k r n). apply in_or_app. right. exact I. Qed.
  Lemma cinv_frame : forall j s s', CInv j s -> (exists x, conns s' j = set_queue x (conns s j)) -> (forall r, request (conns s j) = Some r -> rest (reqs s' r) = rest (reqs s r)) ->
    (exists l, trace s' = l ++ trace s /\ Forall (fun e => away j e = true) l) -> CInv j s'.
  Proof.
    intros j s s' [A B C D E] (x & X) R (l & T & L). destruct (away_facts j l (trace s) L) as (F1 & F2 & F3). rewrite <- T in F1, F2, F3. constructor; rewrite X; cbn [set_queue queue request response response_queue cmode buffer buffered sent]; auto.
    - rewrite F1. exact A.
    - destruct (cmode (conns s j)); auto. destruct D as [D1 D2]. split; [exact D1|]. intros r Hr. rewrite (R r Hr). apply D2, Hr.
    - intro N. rewrite T in N. specialize (E (early_app _ _ N)). rewrite F2, F3. destruct (request (conns s j)) as [r|] eqn:Er; [rewrite (R r eq_refl); exact E|exact E].
  Qed.
  Lemma cinv_other : forall j k f s, j <> k -> CInv j s -> CInv j (on_conn k f s).
  Proof.
    intros j k f s N H. apply cinv_frame with (s := s); auto.
    - exists (queue (conns s j)). cbn. unfold upd. apply Nat.eqb_neq in N. rewrite N. symmetry. apply set_same.
    - exists []. split; [reflexivity|constructor].
  Qed.
  Lemma cinv_of_frame : forall j s s', CInv j s -> frame s s' -> CInv j s'.
  Proof. intros j s s' H [A B (l & C & D)]. apply cinv_frame with (s := s); auto. exists l. split; [exact C|apply quiet_away, D]. Qed.
  Lemma conns_on : forall k f s, conns (on_conn k f s) k = f (conns s k).
  Proof. intros. cbn. unfold upd. rewrite Nat.eqb_refl. reflexivity. Qed.
  Lemma conns_other : forall j k f s, j <> k -> conns (on_conn k f s) j = conns s j.
  Proof. intros j k f s N. cbn. unfold upd. apply Nat.eqb_neq in N. rewrite N. reflexivity. Qed.
  Lemma reqs_other : forall j k f s, j <> k -> reqs (on_req k f s) j = reqs s j.
  Proof. intros j k f s N. cbn. unfold upd. apply Nat.eqb_neq in N. rewrite N. reflexivity. Qed.
  Lemma asked_here : forall s k r, request (conns s k) = Some r -> asks (conns s k) r = true.
  Proof. intros s k r H. unfold asks. rewrite H. apply Nat.eqb_refl. Qed.
  Lemma one_place : forall s r j k, Ok_ r s -> request (conns s k) = Some r -> request (conns s j) = Some r -> j = k.
  Proof.
    intros s r j k (L & A & _) H K. apply asked_here in H, K. destruct (where_asked _ _ _ _ A H) as [-> | ->]; destruct (where_asked _ _ _ _ A K) as [E|E]; congruence.
  Qed.

  Lemma cinv_close : forall k e s, All s -> (forall j, j <> k -> CInv j s) -> forall j, CInv j (close k e s).
  Proof.
    intros k e s A H j. destruct (close_conns idempotent get_or_head auto_redirect upgrade resends place retries one k e s j A) as (x & X).
    destruct (close_trace idempotent get_or_head auto_redirect upgrade resends place retries one k e s A) as (l & T & L & R). destruct (Nat.eqb_spec j k) as [->|N].
    - constructor; rewrite X; cbn [expected response response_queue request buffer cmode sent buffered]; auto; rewrite T; cbn [awaiting wire messages]; rewrite Nat.eqb_refl; reflexivity.
    - apply cinv_frame with (s := s); [apply H, N|exists x; exact X|auto|]. exists (Closed k :: l). split; [exact T|]. constructor; [cbn; apply negb_true_iff, Nat.eqb_neq; congruence|apply quiet_away, L].
  Qed.

  Definition Good (s : st) : Prop := All s /\ forall j, CInv j s.
  Lemma good_close : forall k e s, Good s -> Good (close k e s).
  Proof. intros k e s [A B]. split; [apply all_close; assumption|]. apply cinv_close; auto. Qed.

  Lemma all_same : forall s s', All s -> (forall q, same q s s') -> All s'.
  Proof. intros s s' A M q. eapply same_ok; [apply M|apply A]. Qed.

  (** a new request *)
  Lemma good_queue : forall s k r, Good s -> (forall k', ~ In (Queued k' r) (trace s)) -> Good (emit (Queued k r) (enqueue k r (on_req r (fun _ => new_request retries r) s))).
  Proof.
    intros s k r [A B] F. split.
    - intro q. destruct (Nat.eq_dec q r) as [->|N].
      2:{ eapply same_ok; [|apply A]. eapply same_trans; [apply same_req with (q := r); congruence|]. eapply same_trans; [apply same_enqueue with (k := k) (q := r); congruence|apply same_note; cbn; apply Nat.eqb_neq; congruence]. }
      destruct (A r) as (L & V & [B1 B2 B3 B4] & _). destruct (B4 F) as (-> & S0 & S1 & S2). set (s1 := on_req r (fun _ => new_request retries r) s).
      assert (V1 : at_ s1 r Nowhere) by exact V. assert (R1 : reqs s1 r = new_request retries r) by apply reqs_on.
      exists (Qu k). split; [|split].
      + intro j. exact (at_enqueue r k s1 V1 j).
      + constructor; cbn [trace emit enqueue on_conn reqs]; rewrite ?queued_cons, ?Nat.eqb_refl, ?R1; cbn [new_request max_retries nretries].
        * lia.
        * change (retried r (trace s) <= 0 /\ retried r (trace s) <= retries r). lia.
        * change (starts r (trace s) <= 1 + queued r (trace s) + retried r (trace s)). lia.
        * intro F'. destruct (F' k). left. reflexivity.
      + cbn [HcReq.good trace emit enqueue on_conn reqs]. rewrite R1. cbn [new_request status connection]. split; [intros _ [X _]; change (bytes_sent r (trace s) = true) in X; congruence|]. split; [lia|]. split; [reflexivity|].
        rewrite queued_cons, Nat.eqb_refl. change (S (starts r (trace s)) <= 1 + queued r (trace s) + retried r (trace s)). lia.
    - intro j. assert (E : CInv j (on_req r (fun _ => new_request retries r) s)).
      { apply cinv_frame with (s := s); [apply B|exists (queue (conns s j)); symmetry; apply set_same| |exists []; split; [reflexivity|constructor]].
        intros q Hq. destruct (Nat.eq_dec q r) as [->|N]; [|rewrite reqs_other by exact N; reflexivity]. exfalso. destruct (A r) as (L & V & [_ _ _ B4] & _). destruct (B4 F) as (-> & _). apply asked_here in Hq. destruct (where_asked _ _ _ _ V Hq); discriminate. }
      apply cinv_of_frame with (1 := E). eapply frame_trans; [apply frame_enqueue|apply frame_emit; reflexivity].
  Qed.

  (** changes of a connection that concern no request *)
  Lemma same_conn' : forall q k f s, (forall c, queue (f c) = queue c /\ request (f c) = request c /\ expected (f c) = expected c /\ sent (f c) = sent c) -> same q s (on_conn k f s).
  Proof. intros q k f s H. destruct (H (conns s k)) as (H1 & H2 & H3 & H4). apply same_conn; unfold asks; rewrite ?H1, ?H2, ?H3, ?H4; auto. Qed.
  Lemma good_connect : forall s k, Good s -> Good (on_conn k (set_socket true) s).
  Proof.
    intros s k [A B]. split; [apply all_same with (1 := A); intro q; apply same_conn'; repeat split|]. intro j. destruct (Nat.eq_dec j k) as [->|N]; [|apply cinv_other; auto].
    destruct (B k) as [C1 C2 C3 C4 C5]. constructor; rewrite conns_on; auto.
  Qed.
  Lemma good_no_continue : forall s k, Good s -> cmode (conns s k) = BodyWaiting -> Good (on_conn k (set_mode BodySending) s).
  Proof.
    intros s k [A B] M. split; [apply all_same with (1 := A); intro q; apply same_conn'; repeat split|]. intro j. destruct (Nat.eq_dec j k) as [->|N]; [|apply cinv_other; auto].
    destruct (B k) as [C1 C2 C3 C4 C5]. rewrite M in *. constructor; rewrite conns_on; auto.
  Qed.
  Lemma good_body_upgrade : forall s k r, Good s -> cmode (conns s k) = BodySending -> buffer (conns s k) = [] -> request (conns s k) = Some r -> rest (reqs s r) = [] -> Good (on_conn k (set_mode UpgradeWaiting) s).
  Proof.
    intros s k r [A B] M Bf R Re. split; [apply all_same with (1 := A); intro q; apply same_conn'; repeat split|]. intro j. destruct (Nat.eq_dec j k) as [->|N]; [|apply cinv_other; auto].
    destruct (B k) as [C1 C2 C3 C4 C5]. rewrite M, R, Bf in *. constructor; rewrite conns_on; cbn [set_mode request response response_queue cmode buffer sent buffered reqs on_conn trace]; auto; rewrite ?Bf, ?R; auto.
    split; [reflexivity|]. intros r' E. injection E as <-. split; [|exact Re]. cbn in C4. rewrite Nat.add_0_r in C4. apply C4. discriminate.
  Qed.
  Lemma good_body : forall s k r d l, Good s -> cmode (conns s k) = BodySending -> buffer (conns s k) = [] -> request (conns s k) = Some r -> rest (reqs s r) = d :: l ->
    Good (on_conn k (fun c => set_buffer [(r, d)] (buffered c + length d) c) (on_req r (set_rest l) s)).
  Proof.
    intros s k r d l [A B] M Bf R Re. assert (R1 : reqs (on_req r (set_rest l) s) r = set_rest l (reqs s r)) by apply reqs_on. split.
    - intro q. eapply same_ok with (s := on_req r (set_rest l) s); [apply same_conn'; repeat split|]. destruct (Nat.eq_dec q r) as [->|N]; [|eapply same_ok; [apply same_req; congruence|apply A]].
      destruct (A r) as (L & V & W & X). exists L. split; [exact V|]. split; [apply common_req; [split; reflexivity|exact W]|].
      unfold HcReq.good in *. rewrite R1. destruct L; cbn [set_rest connection status send_pos rstatus nretries max_retries]; auto.
    - intro j. destruct (Nat.eq_dec j k) as [->|N].
      + destruct (B k) as [C1 C2 C3 C4 C5]. rewrite M, R, Bf in *. constructor; rewrite conns_on; cbn [set_buffer set_rest request response response_queue cmode buffer sent buffered on_req conns on_conn trace]; auto; rewrite ?R; auto.
        * rewrite M. intros _. cbn in C4. cbn. rewrite app_nil_r. assert (sent (conns s k) + 0 = buffered (conns s k)) by (apply C4; discriminate). lia.
        * intro E. change (messages k (trace s) = wire k (trace s) ++ concat (map snd [(r, d)]) ++ concat (rest (reqs (on_req r (set_rest l) s) r))). rewrite R1. specialize (C5 E). rewrite C5, Re. cbn. rewrite app_nil_r. reflexivity.
      + apply cinv_other; [exact N|]. apply cinv_frame with (s := s); [apply B|exists (queue (conns s j)); symmetry; apply set_same| |exists []; split; [reflexivity|constructor]].
        intros q Hq. destruct (Nat.eq_dec q r) as [->|Nq]; [|rewrite reqs_other by exact Nq; reflexivity]. exfalso. apply N. eapply one_place; [apply A|exact R|exact Hq].
  Qed.
  (** the end of the sending of a request *)
  Lemma good_disconnected : forall k r g s, Good s -> drops g -> (forall c, response (g c) = response c /\ response_queue (g c) = response_queue c /\ sent (g c) = sent c /\ buffered (g c) = buffered c /\ buffer (g c) = [])
    -> request (conns s k) = Some r ->
    (forall x, cmode (g (set_queue x (conns s k))) = Ready /\ buffer (conns s k) = [] /\ sent (conns s k) = buffered (conns s k) /\ rest (reqs s r) = [] \/ cmode (g (set_queue x (conns s k))) = cmode (conns s k) /\ buffer (conns s k) <> []) ->
    Good (on_conn k g (disconnect r (sent (conns s k)) s)).
  Proof.
    intros k r g s [A B] D G R M. split; [apply all_disconnected; assumption|]. pose proof (frame_disconnect idempotent get_or_head auto_redirect resends one r (sent (conns s k)) s) as F. intro j. destruct (Nat.eq_dec j k) as [->|N].
    2:{ apply cinv_other; [exact N|]. eapply cinv_of_frame; [apply B|exact F]. }
    destruct (B k) as [C1 C2 C3 C4 C5]. destruct F as [F1 F2 (l & F3 & F4)]. destruct (F1 k) as (x & Fx). specialize (M x). destruct (away_facts k l (trace s) (quiet_away k l F4)) as (W1 & W2 & W3). rewrite <- F3 in W1, W2, W3.
    destruct D as [D1 D2 D3 D4]. destruct (G (set_queue x (conns s k))) as (G1 & G2 & G3 & G4 & G5).
    constructor; rewrite conns_on, Fx; cbn [on_conn trace reqs]; rewrite ?G1, ?G2, ?G3, ?G4, ?G5, ?D3.
    - rewrite D4, W1. exact C1.
    - exact C2.
    - constructor.
    - destruct M as [(-> & M1 & M2 & M3)|(-> & M1)]; [auto|]. destruct (cmode (conns s k)); try (intro X; congruence); destruct C4 as [C4 C4']; try congruence; destruct C4'; congruence.
    - intro E. rewrite F3 in E. specialize (C5 (early_app _ _ E)). rewrite R in C5. rewrite W2, W3. destruct M as [(-> & M1 & M2 & M3)|(-> & M1)].
      + rewrite M1, M3 in C5. cbn in C5. rewrite app_nil_r in C5. exact C5.
      + destruct (cmode (conns s k)); [destruct C4 as (_ & C4 & _); congruence|eexists; exact C5..].
  Qed.
  Lemma good_body_end : forall s k r, Good s -> cmode (conns s k) = BodySending -> buffer (conns s k) = [] -> request (conns s k) = Some r -> rest (reqs s r) = [] ->
    Good (on_conn k (fun c => set_mode Ready (set_request None c)) (disconnect r (sent (conns s k)) s)).
  Proof.
    intros s k r G M Bf R Re.
    (* the buffer is empty: g clears it all the same *)
    assert (E : forall s', buffer (conns s' k) = [] -> eqv (on_conn k (fun c => set_mode Ready (set_request None (set_buffer [] (buffered c) c))) s') (on_conn k (fun c => set_mode Ready (set_request None c)) s')).
    { intros s' H. constructor; auto. intro j. cbn. unfold upd. destruct (j =? k); [|reflexivity]. destruct (conns s' k). cbn in *. subst. reflexivity. }
    assert (X : Good (on_conn k (fun c => set_mode Ready (set_request None (set_buffer [] (buffered c) c))) (disconnect r (sent (conns s k)) s))).
    { apply good_disconnected; auto; [constructor; reflexivity|]. intro x. left. destruct G as [_ B]. destruct (B k) as [_ _ _ C4 _]. rewrite M, Bf, R in C4. cbn in C4. rewrite Nat.add_0_r in C4. split; [reflexivity|]. split; [exact Bf|]. split; [apply C4; discriminate|exact Re]. }
    destruct X as [X1 X2]. pose proof (E (disconnect r (sent (conns s k)) s)) as E'. destruct (frame_request _ _ k (frame_disconnect idempotent get_or_head auto_redirect resends one r (sent (conns s k)) s)) as (_ & _ & _ & Fb & _). rewrite Fb in E'. specialize (E' Bf).
    split; [intro q; eapply eqv_ok; [exact E'|apply X1]|]. intro j. apply cinv_frame with (1 := X2 j); [exists (queue (conns (on_conn k (fun c => set_mode Ready (set_request None c)) (disconnect r (sent (conns s k)) s)) j)); destruct E' as [E1 _ _ _]; rewrite E1; symmetry; apply set_same|auto|].
    exists []. split; [reflexivity|constructor].
  Qed.
  Lemma good_no_upgrade : forall s k r, Good s -> cmode (conns s k) = UpgradeWaiting -> buffer (conns s k) = [] -> request (conns s k) = Some r ->
    Good (on_conn k (fun c => set_mode Ready (set_request None c)) (disconnect r (sent (conns s k)) s)).
  Proof.
    intros s k r G M Bf R.
    assert (E : forall s', buffer (conns s' k) = [] -> eqv (on_conn k (fun c => set_mode Ready (set_request None (set_buffer [] (buffered c) c))) s') (on_conn k (fun c => set_mode Ready (set_request None c)) s')).
    { intros s' H. constructor; auto. intro j. cbn. unfold upd. destruct (j =? k); [|reflexivity]. destruct (conns s' k). cbn in *. subst. reflexivity. }
    assert (X : Good (on_conn k (fun c => set_mode Ready (set_request None (set_buffer [] (buffered c) c))) (disconnect r (sent (conns s k)) s))).
    { apply good_disconnected; auto; [constructor; reflexivity|]. intro x. left. destruct G as [_ B]. destruct (B k) as [_ _ _ C4 _]. rewrite M in C4. destruct C4 as [_ C4]. destruct (C4 r R) as [C5 C6]. split; [reflexivity|]. split; [exact Bf|]. split; [exact C5|exact C6]. }
    destruct X as [X1 X2]. pose proof (E (disconnect r (sent (conns s k)) s)) as E'. destruct (frame_request _ _ k (frame_disconnect idempotent get_or_head auto_redirect resends one r (sent (conns s k)) s)) as (_ & _ & _ & Fb & _). rewrite Fb in E'. specialize (E' Bf).
    split; [intro q; eapply eqv_ok; [exact E'|apply X1]|]. intro j. apply cinv_frame with (1 := X2 j); [exists (queue (conns (on_conn k (fun c => set_mode Ready (set_request None c)) (disconnect r (sent (conns s k)) s)) j)); destruct E' as [E1 _ _ _]; rewrite E1; symmetry; apply set_same|auto|].
    exists []. split; [reflexivity|constructor].
  Qed.
  Lemma good_send_nothing : forall s k r, Good s -> buffer (conns s k) <> [] -> request (conns s k) = Some r ->
    Good (on_conn k (fun c => set_buffer [] (buffered c) (set_request None c)) (disconnect r (sent (conns s k)) s)).
  Proof.
    intros s k r G Bf R. apply good_disconnected; [exact G|constructor; reflexivity|repeat split|exact R|]. intro x. right. split; [reflexivity|exact Bf].
  Qed.

  Lemma starts_other : forall e r t, (forall k q m, e <> Start k q m) -> starts r (e :: t) = starts r t.
  Proof. intros e r t H. unfold starts. destruct e; cbn; auto. destruct (H k r0 message). reflexivity. Qed.
  Lemma fresh_cons : forall r e t, fresh r (e :: t) -> fresh r t.
  Proof. intros r e t H k X. apply (H k). right. exact X. Qed.
  (** bytes are given to the socket *)
  Lemma good_send : forall s k r d d' b, Good s -> buffer (conns s k) = (r, d ++ d') :: b -> d <> [] ->
    Good (emit (Sent k r d) (on_conn k (fun c => set_sent (match d' with [] => b | _ => (r, d') :: b end) (sent c + length d) c) s)).
  Proof.
    intros s k r d d' b [A B] Bf Hd. set (f := fun c => set_sent (match d' with [] => b | _ => (r, d') :: b end) (sent c + length d) c). assert (C := B k). destruct C as [C1 C2 C3 C4 C5]. rewrite Bf in C3. inversion C3 as [|? ? R C3b]; subst. cbn [fst snd] in R.
    assert (Hl : 0 < length d) by (destruct d; [congruence|cbn; lia]). split.
    - intro q. destruct (Nat.eq_dec q r) as [->|N].
      2:{ eapply same_ok; [|apply A]. eapply same_trans; [|apply same_note; cbn; apply Nat.eqb_neq; congruence]. apply same_conn with (k := k) (f := f); auto. unfold asks. rewrite R. intro X. apply Nat.eqb_eq in X. congruence. }
      destruct (A r) as (L & V & [B1 B2 B3 B4] & X). exists L. split; [|split].
      + intro j. specialize (V j). rewrite <- V. change (view (on_conn k f s) r j = view s r j). rewrite view_conn. destruct (Nat.eqb_spec j k) as [->|]; reflexivity.
      + constructor; cbn [trace emit on_conn reqs]; auto; rewrite ?(starts_other (Sent k r d)) by discriminate; auto. intro F. apply fresh_cons in F. destruct (B4 F) as (-> & _). exfalso. destruct (where_asked _ _ _ k V (asked_here _ _ _ R)); discriminate.
      + destruct (where_asked _ _ _ k V (asked_here _ _ _ R)) as [-> | ->]; cbn [HcReq.good] in *; cbn [trace emit reqs on_conn]; fold (on_conn k f s); change (upd (conns s) k (f (conns s k)) k) with (conns (on_conn k f s) k); cbn [bytes_sent answer_begun conns emit]; rewrite conns_on, ?Nat.eqb_refl; unfold f; cbn [set_sent sent].
        * destruct X as (X1 & X2 & X3 & X4). split; [exact X1|]. split; [exact X2|]. split; [lia|]. intros I K. destruct (X4 I K) as [X5 _]. split; [exact X5|]. intros _. lia.
        * destruct X as (X1 & X2 & X3). split; [exact X1|]. split; [lia|]. exact X3.
    - intro j. destruct (Nat.eq_dec j k) as [->|N].
      + assert (Q : concat (map snd (match d' with [] => b | _ => (r, d') :: b end)) = d' ++ concat (map snd b)) by (destruct d'; reflexivity).
        constructor; cbn [emit conns trace reqs]; rewrite conns_on; unfold f; cbn [set_sent request response response_queue cmode buffer sent buffered]; auto.
        * destruct d' as [|x d']; [exact C3b|]. constructor; [exact R|exact C3b].
        * destruct (cmode (conns s k)); rewrite Bf in C4.
          -- destruct C4; congruence.
          -- intro X. unfold bytes. rewrite Q. specialize (C4 X). cbn [map snd concat] in C4. unfold bytes in C4. rewrite !app_length in C4. rewrite !app_length. lia.
          -- intro X. unfold bytes. rewrite Q. specialize (C4 X). cbn [map snd concat] in C4. unfold bytes in C4. rewrite !app_length in C4. rewrite !app_length. lia.
          -- destruct C4; discriminate.
          -- destruct C4; discriminate.
        * intro E. specialize (C5 (early_app [_] _ E)). rewrite R, Bf in *. unfold bytes. rewrite Q. cbn [messages wire on_conn trace]. rewrite Nat.eqb_refl, C5. change (reqs (on_conn k f s)) with (reqs s). cbn [map snd concat]. rewrite <- !app_assoc. reflexivity.
      + apply cinv_frame with (s := s); [apply B|exists (queue (conns s j)); cbn [emit conns]; rewrite conns_other by exact N; symmetry; apply set_same|auto|]. exists [Sent k r d]. split; [reflexivity|]. constructor; [cbn; apply negb_true_iff, Nat.eqb_neq; congruence|constructor].
  Qed.
  (** a status line *)
  Lemma good_status : forall s k r n, Good s -> response (conns s k) = Some r -> Good (emit (Status k r n) (on_req r (set_rstatus (Some n)) s)).
  Proof.
    intros s k r n [A B] H. set (s1 := on_req r (set_rstatus (Some n)) s). assert (R1 : reqs s1 r = set_rstatus (Some n) (reqs s r)) by apply reqs_on. split.
    - intro q. destruct (Nat.eq_dec q r) as [->|N].
      2:{ eapply same_ok; [|apply A]. eapply same_trans; [apply same_req with (q := r); congruence|apply same_note; cbn; apply Nat.eqb_neq; congruence]. }
      destruct (A r) as (L & V & [B1 B2 B3 B4] & X). assert (Hr : In r (expected (conns s k))) by (unfold expected; rewrite H; left; reflexivity). exists L. split; [exact V|]. split.
      + constructor; cbn [trace emit]; cbn [reqs emit]; rewrite ?R1; cbn [set_rstatus max_retries nretries]; auto. intro F. apply fresh_cons in F. destruct (B4 F) as (-> & _). exfalso. destruct (where_expected _ _ _ _ V Hr); discriminate.
      + destruct (where_expected _ _ _ _ V Hr) as [-> | ->]; cbn [HcReq.good] in *; cbn [trace emit reqs conns bytes_sent answer_begun]; rewrite R1, Nat.eqb_refl; cbn [set_rstatus connection status send_pos nretries max_retries]; change (conns s1) with (conns s).
        * destruct X as (X1 & X2 & X3 & X4). split; [exact X1|]. split; [exact X2|]. split; [exact X3|]. intros _ K. discriminate.
        * destruct X as (X1 & X2 & X3 & X4). split; [exact X1|]. split; [exact X2|]. split; [exact X3|]. intros _ K. discriminate.
    - intro j. apply cinv_frame with (s := s); [apply B|exists (queue (conns s j)); symmetry; apply set_same| |exists [Status k r n]; split; [reflexivity|constructor; [reflexivity|constructor]]].
      intros q _. cbn [emit reqs]. destruct (Nat.eq_dec q r) as [->|N]; [rewrite R1; reflexivity|unfold s1; rewrite reqs_other by exact N; reflexivity].
  Qed.
End all.
