(** The requests of the HTTP client: where a request is, and what is known of it there. *)
From Verif Require Import HcModel HcSpec.

Definition cnt (l : list nat) (r : nat) : nat := count_occ Nat.eq_dec l r.
Definition b2n (b : bool) : nat := if b then 1 else 0.
(** nowhere; in a queue; being sent and waiting for the response, being sent after the response, waiting for the response *)
Inductive loc := Nowhere | Qu (k : nat) | Snd (k : nat) | SndA (k : nat) | Wt (k : nat).
Definition view (s : st) (r k : nat) : nat * bool * nat := (cnt (queue (conns s k)) r, is_request k r s, cnt (expected (conns s k)) r).
Definition lview (l : loc) (k : nat) : nat * bool * nat :=
  match l with
  | Nowhere => (0, false, 0)
  | Qu j => (b2n (k =? j), false, 0)
  | Snd j => (0, k =? j, b2n (k =? j))
  | SndA j => (0, k =? j, 0)
  | Wt j => (0, false, b2n (k =? j))
  end.
Definition at_ (s : st) (r : nat) (l : loc) : Prop := forall k, view s r k = lview l k.
Definition dirty (r : nat) (l : list event) : Prop := bytes_sent r l = true /\ answer_begun r l = false.
Definition fresh (r : nat) (l : list event) : Prop := forall k, ~ In (Queued k r) l.

  (** events that are not about r *)
  Definition about (r : nat) (e : event) : bool :=
    match e with Queued _ q | Start _ q _ | Sent _ q _ | Status _ q _ | Retried _ q => q =? r | _ => false end.
  Definition silent (r : nat) (l : list event) : Prop := Forall (fun e => about r e = false) l.
  Lemma silent_facts : forall r l t, silent r l -> bytes_sent r (l ++ t) = bytes_sent r t /\ answer_begun r (l ++ t) = answer_begun r t /\
    starts r (l ++ t) = starts r t /\ queued r (l ++ t) = queued r t /\ retried r (l ++ t) = retried r t /\ (fresh r (l ++ t) <-> fresh r t).
  Proof.
    intros r l t H. induction H as [|e l H Hl (A & B & C & D & E & F)]; [cbn; tauto|].
    assert (G : fresh r ((e :: l) ++ t) <-> fresh r t).
    { rewrite <- F. split; intros X k Y; [apply (X k); right; exact Y|]. destruct Y as [Y|Y]; [subst e; cbn in H; rewrite Nat.eqb_refl in H; discriminate|apply (X k Y)]. }
    unfold starts, queued, retried in *. destruct e; cbn [app filter bytes_sent answer_begun about] in *; rewrite ?H; cbn [length]; auto 10.
  Qed.

Section req.
  Variables idempotent get_or_head auto_redirect upgrade : nat -> bool.
  Variable resends : nat -> list nat.
  Variable place : nat -> nat.
  Variable retries : nat -> nat.
  Hypothesis one : forall n, length (resends n) <= 1.
  Notation finished := (finished get_or_head auto_redirect resends).
  Notation disconnect := (disconnect idempotent get_or_head auto_redirect resends).
  Notation switch_protocols := (switch_protocols idempotent get_or_head auto_redirect resends place).
  Notation response_finished := (response_finished idempotent get_or_head auto_redirect upgrade resends place).
  Notation close_responses := (close_responses idempotent get_or_head auto_redirect upgrade resends place).
  Notation close := (close idempotent get_or_head auto_redirect upgrade resends place).

  Record common (r : nat) (L : loc) (s : st) : Prop := {
    g_max : max_retries (reqs s r) <= retries r;
    g_retried : retried r (trace s) <= nretries (reqs s r) /\ retried r (trace s) <= retries r;
    g_starts : starts r (trace s) <= queued r (trace s) + retried r (trace s);
    g_fresh : fresh r (trace s) -> L = Nowhere /\ starts r (trace s) = 0 /\ bytes_sent r (trace s) = false /\ retried r (trace s) = 0 }.
  Definition calm (r : nat) (s : st) : Prop := idempotent r = false -> ~ dirty r (trace s).
  Definition good (r : nat) (L : loc) (s : st) : Prop :=
    let q := reqs s r in
    match L with
    | Nowhere => True
    | Qu _ => calm r s /\ status q < 300 /\ connection q = None /\ S (starts r (trace s)) <= queued r (trace s) + retried r (trace s)
    | Snd k => connection q = Some k /\ status q < 300 /\ send_pos q <= sent (conns s k) /\
               (idempotent r = false -> answer_begun r (trace s) = false -> rstatus q = None /\ (bytes_sent r (trace s) = true -> send_pos q < sent (conns s k)))
    | SndA k => connection q = Some k /\ send_pos q <= sent (conns s k) /\ (idempotent r = false -> answer_begun r (trace s) = true)
    | Wt _ => connection q = None /\ status q < 300 /\ S (retried r (trace s)) <= nretries q /\
              (idempotent r = false -> answer_begun r (trace s) = false -> rstatus q = None /\ (bytes_sent r (trace s) = true -> max_retries q = 0))
    end.
  Definition Ok_ (r : nat) (s : st) : Prop := exists L, at_ s r L /\ common r L s /\ good r L s.

  (** r is as it was *)
  Record same (r : nat) (s s' : st) : Prop := {
    m_view : forall k, view s' r k = view s r k;
    m_req : reqs s' r = reqs s r;
    m_sent : forall k, is_request k r s = true -> sent (conns s' k) = sent (conns s k);
    m_trace : exists l, trace s' = l ++ trace s /\ silent r l }.
  Lemma same_refl : forall r s, same r s s.
  Proof using Type. clear one resends upgrade place get_or_head auto_redirect. intros r s. constructor; auto. exists []. split; [reflexivity|constructor]. Qed.
  Lemma same_trans : forall r s s' s'', same r s s' -> same r s' s'' -> same r s s''.
  Proof using Type.
    clear one resends upgrade place get_or_head auto_redirect. intros r s s' s'' [A B C (l & D & D')] [A' B' C' (l' & E & E')]. constructor.
    - intros k. rewrite A'. apply A.
    - congruence.
    - intros k H. rewrite C', C; auto. assert (F := A k). unfold view in F. congruence.
    - exists (l' ++ l). split; [rewrite E, D, app_assoc; reflexivity|apply Forall_app; auto].
  Qed.
  Lemma request_of : forall s r L k, at_ s r L -> is_request k r s = snd (fst (lview L k)).
  Proof using Type. clear one resends upgrade place get_or_head auto_redirect. intros s r L k H. rewrite <- (H k). reflexivity. Qed.
  Lemma same_at : forall r s s' L, same r s s' -> at_ s r L -> at_ s' r L.
  Proof using Type. clear one resends upgrade place get_or_head auto_redirect. intros r s s' L [H _ _ _] A k. rewrite H. apply A. Qed.
  Lemma same_ok : forall r s s', same r s s' -> Ok_ r s -> Ok_ r s'.
  Proof using Type.
    clear one resends upgrade place get_or_head auto_redirect. intros r s s' H (L & A & B & C). exists L. split; [eapply same_at; eassumption|]. destruct H as [V R S (l & T & N)].
    destruct (silent_facts r l (trace s) N) as (F1 & F2 & F3 & F4 & F5 & F6). rewrite <- T in F1, F2, F3, F4, F5, F6.
    assert (D : dirty r (trace s') <-> dirty r (trace s)) by (unfold dirty; rewrite F1, F2; tauto).
    split.
    - destruct B as [B1 B2 B3 B4]. constructor; rewrite ?R, ?F1, ?F3, ?F4, ?F5; auto. rewrite F6. exact B4.
    - unfold good, calm in *. rewrite R, F1, F2, F3, F4, F5. destruct L; rewrite ?D; auto.
      + rewrite (S k); [exact C|]. rewrite (request_of _ _ _ _ A). cbn. apply Nat.eqb_refl.
      + rewrite (S k); [exact C|]. rewrite (request_of _ _ _ _ A). cbn. apply Nat.eqb_refl.
  Qed.

  (** states that are equal at every connection and request *)
  Record eqv (s s' : st) : Prop := { q_conns : forall k, conns s' k = conns s k; q_reqs : forall r, reqs s' r = reqs s r; q_trace : trace s' = trace s; q_calls : calls s' = calls s }.
  Lemma eqv_same : forall s s' r, eqv s s' -> same r s s'.
  Proof using Type.
    clear one resends upgrade place get_or_head auto_redirect. intros s s' r [A B C _]. constructor; auto.
    - intro k. unfold view, is_request. rewrite A. reflexivity.
    - intros k _. rewrite A. reflexivity.
    - exists []. split; [exact C|constructor].
  Qed.
  Lemma eqv_ok : forall s s' r, eqv s s' -> Ok_ r s -> Ok_ r s'.
  Proof using Type. clear one resends upgrade place get_or_head auto_redirect. intros. eapply same_ok; [apply eqv_same|]; eassumption. Qed.

  (** finished: nothing happens, or the request is queued once *)
  Lemma finished_spec : forall r s, (finished r s = called (emit (Finished r (status (reqs s r)) (error (reqs s r))) s)) \/
    (300 <= status (reqs s r) /\ exists j, finished r s = resend j r (called (emit (Finished r (status (reqs s r)) (error (reqs s r))) s))).
  Proof using one.
    intros r s. unfold finished, HcModel.finished. destruct (_ && _ && _ && _) eqn:E.
    - destruct (resends (calls s)) as [|j l]; [left; reflexivity|]. right. split; [|exists j; reflexivity].
      apply andb_true_iff in E as [E _]. apply andb_true_iff in E as [E _]. apply andb_true_iff in E as [_ E]. apply Nat.leb_le, E.
    - destruct (Nat.eqb_spec (status (reqs s r)) 401) as [E'|N]; [|left; reflexivity]. pose proof (one (calls s)) as O. destruct (resends (calls s)) as [|j [|j' l]]; cbn in O; [left; reflexivity| |lia].
      right. split; [lia|]. exists j. reflexivity.
  Qed.
  Lemma same_note : forall r e s, about r e = false -> same r s (emit e s).
  Proof using Type. clear one resends upgrade place get_or_head auto_redirect. intros r e s H. constructor; auto. exists [e]. split; [reflexivity|constructor; [exact H|constructor]]. Qed.
  Lemma same_called : forall r s, same r s (called s).
  Proof using Type. clear one resends upgrade place get_or_head auto_redirect. intros r s. constructor; auto. exists []. split; [reflexivity|constructor]. Qed.
  Lemma same_req : forall r q f s, q <> r -> same r s (on_req q f s).
  Proof using Type.
    clear one resends upgrade place get_or_head auto_redirect. intros r q f s H. constructor; auto; [|exists []; split; [reflexivity|constructor]]. cbn. unfold upd. destruct (Nat.eqb_spec r q); [congruence|reflexivity].
  Qed.
  Lemma cnt_app : forall l l' r, cnt (l ++ l') r = cnt l r + cnt l' r.
  Proof using Type. clear one resends upgrade place get_or_head auto_redirect. intros. apply count_occ_app. Qed.
  Lemma cnt_cons : forall x l r, cnt (x :: l) r = b2n (x =? r) + cnt l r.
  Proof using Type. clear one resends upgrade place get_or_head auto_redirect. intros x l r. unfold cnt. cbn. destruct (Nat.eq_dec x r), (Nat.eqb_spec x r); cbn; congruence. Qed.
  Lemma view_enqueue : forall k q s r j, view (enqueue k q s) r j = (cnt (queue (conns s j)) r + (if j =? k then b2n (q =? r) else 0), is_request j r s, cnt (expected (conns s j)) r).
  Proof using Type.
    clear one resends upgrade place get_or_head auto_redirect. intros k q s r j. unfold view, enqueue, is_request, on_conn. cbn [conns]. unfold upd. destruct (Nat.eqb_spec j k) as [->|N].
    - cbn [set_queue queue request response response_queue expected]. rewrite cnt_app, cnt_cons. cbn. unfold cnt at 2. cbn. rewrite Nat.add_0_r. reflexivity.
    - rewrite Nat.add_0_r. reflexivity.
  Qed.
  Lemma same_enqueue : forall r k q s, q <> r -> same r s (enqueue k q s).
  Proof using Type.
    clear one resends upgrade place get_or_head auto_redirect. intros r k q s H. constructor; auto; [| |exists []; split; [reflexivity|constructor]].
    - intro j. rewrite view_enqueue. apply Nat.eqb_neq in H. rewrite H. cbn. destruct (j =? k); rewrite Nat.add_0_r; reflexivity.
    - intros j _. cbn. unfold upd. destruct (Nat.eqb_spec j k) as [->|]; reflexivity.
  Qed.
  Lemma same_resend : forall r k q s, q <> r -> same r s (resend k q s).
  Proof using Type.
    clear one resends upgrade place get_or_head auto_redirect. intros r k q s H. unfold resend. eapply same_trans; [apply same_req, H|]. eapply same_trans; [apply same_enqueue, H|]. apply same_note. cbn. apply Nat.eqb_neq, H.
  Qed.
  Lemma same_finished : forall r q s, q <> r -> same r s (finished q s).
  Proof using one.
    intros r q s H. destruct (finished_spec q s) as [->|(_ & j & ->)].
    - eapply same_trans; [|apply same_called]. apply same_note. reflexivity.
    - eapply same_trans; [|apply same_resend, H]. eapply same_trans; [|apply same_called]. apply same_note. reflexivity.
  Qed.
  Lemma same_disconnect : forall r q p s, q <> r -> same r s (disconnect q p s).
  Proof using one.
    intros r q p s H. unfold disconnect, HcModel.disconnect. cbv zeta. match goal with |- same r s (if _ then HcModel.finished _ _ _ _ ?x else _) => assert (A : same r s x) by (apply same_req, H); destruct (0 <? status (reqs x q)) end; [|exact A].
    eapply same_trans; [exact A|apply same_finished, H].
  Qed.

  Lemma at_enqueue : forall r k s, at_ s r Nowhere -> at_ (enqueue k r s) r (Qu k).
  Proof using Type.
    clear one resends upgrade place get_or_head auto_redirect. intros r k s H j. rewrite view_enqueue. assert (F := H j). unfold view in F. cbn in F. injection F as F1 F2 F3. rewrite F1, F2, F3, Nat.eqb_refl. cbn. destruct (j =? k); reflexivity.
  Qed.
  Lemma queued_cons : forall k q r t, queued r (Queued k q :: t) = b2n (q =? r) + queued r t.
  Proof using Type. clear one resends upgrade place get_or_head auto_redirect. intros. unfold queued. cbn. destruct (q =? r); reflexivity. Qed.
  Lemma retried_cons : forall k q r t, retried r (Retried k q :: t) = b2n (q =? r) + retried r t.
  Proof using Type. clear one resends upgrade place get_or_head auto_redirect. intros. unfold retried. cbn. destruct (q =? r); reflexivity. Qed.
  (** a request that is nowhere is queued again *)
  Lemma ok_resend : forall r k s, at_ s r Nowhere -> common r Nowhere s -> calm r s -> connection (reqs s r) = None -> Ok_ r (resend k r s).
  Proof using Type.
    clear one resends upgrade place get_or_head auto_redirect. intros r k s H [B1 B2 B3 B4] C N. exists (Qu k). split; [|split].
    - unfold resend. assert (A : at_ (on_req r (set_status 0 false) s) r Nowhere) by exact H. apply at_enqueue with (k := k) in A. intro j. exact (A j).
    - constructor; cbn [trace emit resend enqueue on_conn on_req reqs]; unfold upd; rewrite ?Nat.eqb_refl; cbn [set_status max_retries nretries]; rewrite ?queued_cons, ?Nat.eqb_refl; auto.
      + change (starts r (trace s) <= S (queued r (trace s)) + retried r (trace s)). lia.
      + intro F. destruct (F k). left. reflexivity.
    - cbn [good]. split; [exact C|]. cbn [trace emit resend enqueue on_conn on_req reqs]. unfold upd. rewrite Nat.eqb_refl. cbn [set_status status connection]. split; [lia|]. split; [exact N|].
      rewrite queued_cons, Nat.eqb_refl. change (S (starts r (trace s)) <= S (queued r (trace s)) + retried r (trace s)). lia.
  Qed.
  Lemma ok_nowhere : forall r s, at_ s r Nowhere -> common r Nowhere s -> Ok_ r s.
  Proof using Type. clear one resends upgrade place get_or_head auto_redirect. intros r s A B. exists Nowhere. split; [exact A|]. split; [exact B|exact Logic.I]. Qed.
  Lemma common_same : forall r s s' L, same r s s' -> common r L s -> common r L s'.
  Proof using Type.
    clear one resends upgrade place get_or_head auto_redirect. intros r s s' L [V R S (l & T & N)] [B1 B2 B3 B4]. destruct (silent_facts r l (trace s) N) as (F1 & F2 & F3 & F4 & F5 & F6). rewrite <- T in F1, F2, F3, F4, F5, F6.
    constructor; rewrite ?R, ?F1, ?F3, ?F4, ?F5; auto. rewrite F6. exact B4.
  Qed.
  Lemma common_nowhere : forall r s L, common r L s -> common r Nowhere s.
  Proof using Type. clear one resends upgrade place get_or_head auto_redirect. intros r s L [B1 B2 B3 B4]. constructor; auto. intro F. split; [reflexivity|apply B4, F]. Qed.
  Lemma ok_finished : forall r s, at_ s r Nowhere -> common r Nowhere s -> (300 <= status (reqs s r) -> calm r s /\ connection (reqs s r) = None) -> Ok_ r (finished r s).
  Proof using one.
    intros r s A B C. set (s1 := called (emit (Finished r (status (reqs s r)) (error (reqs s r))) s)).
    assert (M : same r s s1) by (eapply same_trans; [|apply same_called]; apply same_note; reflexivity).
    destruct (finished_spec r s) as [E|(G & j & E)]; rewrite E.
    - apply ok_nowhere; [eapply same_at; eassumption|eapply common_same; eassumption].
    - destruct (C G) as [C1 C2]. apply ok_resend; [eapply same_at; eassumption|eapply common_same; eassumption|exact C1|exact C2].
  Qed.
  Lemma ok_retry : forall r k s, at_ s r Nowhere -> common r Nowhere s -> calm r s -> connection (reqs s r) = None -> status (reqs s r) < 300 ->
    S (retried r (trace s)) <= nretries (reqs s r) -> can_retry (reqs s r) = true -> ~ fresh r (trace s) -> Ok_ r (emit (Retried k r) (enqueue k r s)).
  Proof using Type.
    clear one resends upgrade place get_or_head auto_redirect. intros r k s H [B1 B2 B3 B4] C N Q T R Fr. unfold can_retry in R. apply Nat.leb_le in R. exists (Qu k). split; [|split].
    - intro j. apply (at_enqueue r k s H j).
    - constructor; cbn [trace emit enqueue on_conn reqs]; rewrite ?retried_cons, ?Nat.eqb_refl; cbn [b2n]; auto; [lia| |].
      + change (starts r (trace s) <= queued r (trace s) + (1 + retried r (trace s))). lia.
      + intro F. destruct Fr. intros j X. apply (F j). right. exact X.
    - cbn [good]. split; [exact C|]. cbn [trace emit enqueue on_conn reqs]. split; [exact Q|]. split; [exact N|].
      rewrite retried_cons, Nat.eqb_refl. change (S (starts r (trace s)) <= queued r (trace s) + S (retried r (trace s))). lia.
  Qed.

  (** a response that ends while nothing of its request is being sent *)
  Lemma same_over : forall r q err s, q <> r -> connection (reqs s q) = None -> same r s (fst (response_finished q err s)).
  Proof using one.
    intros r q err s H C. unfold response_finished, HcModel.response_finished. cbv zeta. rewrite C. destruct (rstatus (reqs s q)) as [n|].
    - assert (A : same r s (on_req q (set_status n err) s)) by (apply same_req, H). destruct (informational n); [exact A|]. eapply same_trans; [exact A|apply same_finished, H].
    - eapply same_trans; [apply same_req, H|apply same_finished, H].
  Qed.
  Lemma common_req : forall r L f s, (forall q, max_retries (f q) = max_retries q /\ nretries (f q) = nretries q) -> common r L s -> common r L (on_req r f s).
  Proof using Type. clear one resends upgrade place get_or_head auto_redirect. intros r L f s H [B1 B2 B3 B4]. constructor; auto; cbn [reqs on_req]; unfold upd; rewrite Nat.eqb_refl; destruct (H (reqs s r)) as [E1 E2]; rewrite ?E1, ?E2; auto. Qed.
  Lemma reqs_on : forall r f s, reqs (on_req r f s) r = f (reqs s r).
  Proof using Type. clear one resends upgrade place get_or_head auto_redirect. intros. cbn. unfold upd. rewrite Nat.eqb_refl. reflexivity. Qed.
  Lemma ok_over : forall r err s, at_ s r Nowhere -> common r Nowhere s -> connection (reqs s r) = None ->
    (idempotent r = false -> answer_begun r (trace s) = false -> rstatus (reqs s r) = None) -> Ok_ r (fst (response_finished r err s)).
  Proof using one.
    intros r err s A B C D. unfold response_finished, HcModel.response_finished. cbv zeta. rewrite C. destruct (rstatus (reqs s r)) as [n|] eqn:E.
    - assert (A' : at_ (on_req r (set_status n err) s) r Nowhere) by exact A. assert (B' : common r Nowhere (on_req r (set_status n err) s)) by (apply common_req; [split; reflexivity|exact B]).
      destruct (informational n); [apply ok_nowhere; assumption|]. cbn [fst]. apply ok_finished; [exact A'|exact B'|]. intros _. split; [|rewrite reqs_on; exact C]. intros I [_ K]. specialize (D I K). discriminate.
    - apply ok_finished; [exact A|apply common_req; [split; reflexivity|exact B]|]. rewrite reqs_on. cbn. lia.
  Qed.
  (** the responses that were expected on a connection that is closed *)
  Lemma same_responses : forall r k err l b s, ~ In r l -> NoDup l -> (forall q, In q l -> connection (reqs s q) = None) -> same r s (close_responses k err b l s).
  Proof using one.
    intros r k err. induction l as [|q l IH]; intros b s H N C; [apply same_refl|]. inversion N as [|? ? N1 N2]; subst. assert (Hq : q <> r) by (intros ->; apply H; left; reflexivity). assert (Hl : ~ In r l) by (intro X; apply H; right; exact X).
    assert (Cq : connection (reqs s q) = None) by (apply C; left; reflexivity).
    assert (K : forall s', (forall x, x <> q -> same x s s') -> forall b', same r s (close_responses k err b' l s')).
    { intros s' S' b'. eapply same_trans; [apply S'; congruence|]. apply IH; [exact Hl|exact N2|]. intros x X. assert (x <> q) by (intros ->; contradiction). rewrite (m_req _ _ _ (S' x H0)). apply C. right. exact X. }
    unfold close_responses. cbn [HcModel.close_responses].
    assert (O : forall x, x <> q -> same x s (fst (response_finished q err s))) by (intros x X; apply same_over; [congruence|exact Cq]).
    destruct (_ || _); [|apply K, O]. destruct (can_retry _); [|apply K, O]. apply K. intros x X. eapply same_trans; [apply same_enqueue with (k := k) (q := q); congruence|]. apply same_note. cbn. apply Nat.eqb_neq. congruence.
  Qed.
  Lemma ok_responses : forall r k err l b s, In r l -> NoDup l -> (forall q, In q l -> connection (reqs s q) = None) -> at_ s r Nowhere -> common r Nowhere s ->
    status (reqs s r) < 300 -> S (retried r (trace s)) <= nretries (reqs s r) -> (idempotent r = false -> answer_begun r (trace s) = false -> rstatus (reqs s r) = None /\ (bytes_sent r (trace s) = true -> max_retries (reqs s r) = 0)) ->
    ~ fresh r (trace s) -> Ok_ r (close_responses k err b l s).
  Proof using one.
    intros r k err. induction l as [|q l IH]; intros b s H N C A B S1 R1 D F; [destruct H|]. inversion N as [|? ? N1 N2]; subst.
    assert (Cq : connection (reqs s q) = None) by (apply C; left; reflexivity). unfold close_responses. cbn [HcModel.close_responses].
    destruct (Nat.eq_dec q r) as [->|Hq].
    - assert (K : forall s', Ok_ r s' -> (forall x, x <> r -> same x s s') -> forall b', Ok_ r (close_responses k err b' l s')).
      { intros s' O S' b'. eapply same_ok; [|exact O]. apply same_responses; [exact N1|exact N2|]. intros x X. assert (x <> r) by (intros ->; contradiction). rewrite (m_req _ _ _ (S' x H0)). apply C. right. exact X. }
      assert (O : forall x, x <> r -> same x s (fst (response_finished r err s))) by (intros x X; apply same_over; [congruence|exact Cq]).
      assert (V : Ok_ r (fst (response_finished r err s))) by (apply ok_over; auto; intros I K'; apply D; assumption).
      destruct (_ || _); [|apply K; assumption]. destruct (can_retry (reqs s r)) eqn:Cr; [|apply K; assumption]. apply K.
      + apply ok_retry; auto. intros I [K1 K']. destruct (D I K') as [_ M]. unfold can_retry in Cr. rewrite (M K1) in Cr. apply Nat.leb_le in Cr. lia.
      + intros x X. eapply same_trans; [apply same_enqueue with (k := k) (q := r); congruence|]. apply same_note. cbn. apply Nat.eqb_neq. congruence.
    - destruct H as [H|H]; [contradiction|].
      assert (K : forall s', (forall x, x <> q -> same x s s') -> forall b', Ok_ r (close_responses k err b' l s')).
      { intros s' S' b'. assert (M := S' r ltac:(congruence)). assert (T := m_trace _ _ _ M). destruct T as (t & T & Si). destruct (silent_facts r t (trace s) Si) as (F1 & F2 & F3 & F4 & F5 & F6). rewrite <- T in F1, F2, F3, F4, F5, F6. apply IH; auto.
        - intros x X. assert (x <> q) by (intros ->; contradiction). rewrite (m_req _ _ _ (S' x H0)). apply C. right. exact X.
        - eapply same_at; eassumption.
        - eapply common_same; eassumption.
        - rewrite (m_req _ _ _ M). exact S1.
        - rewrite (m_req _ _ _ M), F5. exact R1.
        - rewrite (m_req _ _ _ M), F1, F2. exact D.
        - rewrite F6. exact F. }
      assert (O : forall x, x <> q -> same x s (fst (response_finished q err s))) by (intros x X; apply same_over; [congruence|exact Cq]).
      destruct (_ || _); [|apply K, O]. destruct (can_retry _); [|apply K, O]. apply K. intros x X. eapply same_trans; [apply same_enqueue with (k := k) (q := q); congruence|]. apply same_note. cbn. apply Nat.eqb_neq. congruence.
  Qed.
End req.
