(** The steps keep what is known of every request. *)
From Verif Require Import HcModel HcSpec HcReq.

Section step.
  Variables idempotent get_or_head auto_redirect upgrade : nat -> bool.
  Variable resends : nat -> list nat.
  Variable place : nat -> nat.
  Variable retries : nat -> nat.
  Hypothesis one : forall n, length (resends n) <= 1.
  Notation finished := (finished get_or_head auto_redirect resends).
  Notation disconnect := (disconnect idempotent get_or_head auto_redirect resends).
  Notation switch_protocols := (switch_protocols idempotent get_or_head auto_redirect resends place).
  Notation response_finished := (response_finished idempotent get_or_head auto_redirect upgrade resends place).
  Notation close_responses := (close_responses idempotent get_or_head auto_redirect upgrade resends place).
  Notation close := (close idempotent get_or_head auto_redirect upgrade resends place).
  Notation complete := (complete idempotent get_or_head auto_redirect upgrade resends place).
  Notation step := (step idempotent get_or_head auto_redirect upgrade resends place).
  Notation Ok_ := (Ok_ idempotent retries).
  Notation good := (good idempotent).
  Notation calm := (calm idempotent).
  Notation common := (common retries).
  Definition All (s : st) : Prop := forall r, Ok_ r s.

  (** what does not change but the queues *)
  Definition quiet (e : event) : bool := match e with Finished _ _ _ | Queued _ _ | Retried _ _ => true | _ => false end.
  Record frame (s s' : st) : Prop := {
    f_conns : forall k, exists x, conns s' k = set_queue x (conns s k);
    f_rest : forall r, rest (reqs s' r) = rest (reqs s r);
    f_trace : exists l, trace s' = l ++ trace s /\ Forall (fun e => quiet e = true) l }.
  Lemma set_same : forall c, set_queue (queue c) c = c.
  Proof. intros []. reflexivity. Qed.
  Lemma frame_refl : forall s, frame s s.
  Proof. intro s. constructor; auto. - intro k. exists (queue (conns s k)). symmetry. apply set_same. - exists []. split; [reflexivity|constructor]. Qed.
  Lemma frame_trans : forall s s' s'', frame s s' -> frame s' s'' -> frame s s''.
  Proof.
    intros s s' s'' [A B (l & C & C')] [D E (l' & F & F')]. constructor.
    - intro k. destruct (A k) as (x & Hx), (D k) as (y & Hy). exists y. rewrite Hy, Hx. reflexivity.
    - intro r. rewrite E. apply B.
    - exists (l' ++ l). split; [rewrite F, C, app_assoc; reflexivity|apply Forall_app; auto].
  Qed.
  Lemma frame_emit : forall e s, quiet e = true -> frame s (emit e s).
  Proof. intros e s H. constructor; auto. - intro k. exists (queue (conns s k)). symmetry. apply set_same. - exists [e]. split; [reflexivity|constructor; [exact H|constructor]]. Qed.
  Lemma frame_called : forall s, frame s (called s).
  Proof. intro s. constructor; auto. - intro k. exists (queue (conns s k)). symmetry. apply set_same. - exists []. split; [reflexivity|constructor]. Qed.
  Lemma frame_req : forall r f s, (forall q, rest (f q) = rest q) -> frame s (on_req r f s).
  Proof.
    intros r f s H. constructor. - intro k. exists (queue (conns s k)). symmetry. apply set_same.
    - intro q. cbn. unfold upd. destruct (Nat.eqb_spec q r) as [->|]; auto.
    - exists []. split; [reflexivity|constructor].
  Qed.
  Lemma frame_enqueue : forall k r s, frame s (enqueue k r s).
  Proof.
    intros k r s. constructor; auto; [|exists []; split; [reflexivity|constructor]]. intro j. cbn. unfold upd. destruct (Nat.eqb_spec j k) as [->|]; [eexists; reflexivity|]. exists (queue (conns s j)). symmetry. apply set_same.
  Qed.
  Lemma frame_resend : forall k r s, frame s (resend k r s).
  Proof. intros k r s. unfold resend. eapply frame_trans; [apply frame_req with (r := r) (f := set_status 0 false); reflexivity|]. eapply frame_trans; [apply frame_enqueue|]. apply frame_emit. reflexivity. Qed.
  Lemma frame_finished : forall r s, frame s (finished r s).
  Proof.
    intros r s. assert (A : frame s (called (emit (Finished r (status (reqs s r)) (error (reqs s r))) s))) by (eapply frame_trans; [|apply frame_called]; apply frame_emit; reflexivity).
    destruct (finished_spec get_or_head auto_redirect resends one r s) as [->|(_ & j & ->)]; [exact A|]. eapply frame_trans; [exact A|apply frame_resend].
  Qed.
  Lemma frame_disconnect : forall r p s, frame s (disconnect r p s).
  Proof.
    intros r p s. unfold HcModel.disconnect. cbv zeta. match goal with |- frame s (if _ then _ ?x else _) => assert (A : frame s x) by (apply frame_req; intro; destruct (_ || _); reflexivity); destruct (0 <? status (reqs x r)) end; [|exact A].
    eapply frame_trans; [exact A|apply frame_finished].
  Qed.
  Lemma frame_over : forall r e s, connection (reqs s r) = None -> frame s (fst (response_finished r e s)).
  Proof.
    intros r e s C. unfold HcModel.response_finished. cbv zeta. rewrite C. destruct (rstatus (reqs s r)) as [n|].
    - assert (A : frame s (on_req r (set_status n e) s)) by (apply frame_req; reflexivity). destruct (informational n); [exact A|]. eapply frame_trans; [exact A|apply frame_finished].
    - cbn [fst]. eapply frame_trans; [apply frame_req with (r := r) (f := set_status 0 e); reflexivity|apply frame_finished].
  Qed.
  Lemma frame_responses : forall k e l b s, NoDup l -> (forall q, In q l -> connection (reqs s q) = None) -> frame s (close_responses k e b l s).
  Proof.
    intros k e. induction l as [|q l IH]; intros b s N C; [apply frame_refl|]. inversion N as [|? ? N1 N2]; subst. assert (Cq : connection (reqs s q) = None) by (apply C; left; reflexivity).
    assert (K : forall s', frame s s' -> (forall x, x <> q -> same x s s') -> forall b', frame s (close_responses k e b' l s')).
    { intros s' F S' b'. eapply frame_trans; [exact F|]. apply IH; [exact N2|]. intros x X. assert (H : x <> q) by (intros ->; contradiction). rewrite (m_req _ _ _ (S' x H)). apply C. right. exact X. }
    cbn [HcModel.close_responses]. assert (O : forall x, x <> q -> same x s (fst (response_finished q e s))) by (intros x X; apply same_over; [exact one|congruence|exact Cq]).
    assert (P := frame_over q e s Cq). destruct (_ || _); [|apply K; assumption]. destruct (can_retry _); [|apply K; assumption]. apply K.
    - eapply frame_trans; [apply frame_enqueue|]. apply frame_emit. reflexivity.
    - intros x X. eapply same_trans; [apply same_enqueue with (k := k) (q := q); congruence|]. apply same_note. cbn. apply Nat.eqb_neq. congruence.
  Qed.
  Lemma frame_request : forall s s' k, frame s s' -> request (conns s' k) = request (conns s k) /\ expected (conns s' k) = expected (conns s k) /\ cmode (conns s' k) = cmode (conns s k) /\
    buffer (conns s' k) = buffer (conns s k) /\ buffered (conns s' k) = buffered (conns s k) /\ sent (conns s' k) = sent (conns s k) /\ response (conns s' k) = response (conns s k) /\ response_queue (conns s' k) = response_queue (conns s k).
  Proof. intros s s' k [A _ _]. destruct (A k) as (x & ->). repeat split. Qed.

  (** the request of a connection is taken from it *)
  Record drops (g : conn -> conn) : Prop := { d_set : forall q c, g (set_queue q c) = set_queue q (g c); d_queue : forall c, queue (g c) = queue c;
                                              d_request : forall c, request (g c) = None; d_expected : forall c, expected (g c) = expected c }.
  Lemma resend_comm : forall j r k g s, (forall q c, g (set_queue q c) = set_queue q (g c)) -> (forall c, queue (g c) = queue c) -> eqv (resend j r (on_conn k g s)) (on_conn k g (resend j r s)).
  Proof.
    intros j r k g s G G'. constructor; auto. intro x. cbn. unfold upd. destruct (Nat.eq_dec j k) as [->|N].
    - rewrite Nat.eqb_refl. destruct (x =? k); [rewrite G, G'; reflexivity|reflexivity].
    - assert (E : (k =? j) = false) by (apply Nat.eqb_neq; congruence). assert (E' : (j =? k) = false) by (apply Nat.eqb_neq; congruence). rewrite E, E'.
      destruct (x =? k) eqn:E1, (x =? j) eqn:E2; try reflexivity. apply Nat.eqb_eq in E1, E2. congruence.
  Qed.
  Lemma finished_comm : forall r k g s, (forall q c, g (set_queue q c) = set_queue q (g c)) -> (forall c, queue (g c) = queue c) -> eqv (finished r (on_conn k g s)) (on_conn k g (finished r s)).
  Proof.
    intros r k g s G G'. unfold HcModel.finished. cbv zeta. cbn [reqs calls on_conn]. destruct (_ && _ && _ && _).
    - destruct (resends (calls s)) as [|j l]; [constructor; reflexivity|]. apply (resend_comm j r k g (called (emit (Finished r (status (reqs s r)) (error (reqs s r))) s)) G G').
    - destruct (status (reqs s r) =? 401); [|constructor; reflexivity]. pose proof (one (calls s)) as O. destruct (resends (calls s)) as [|j [|j' l]]; cbn in O; [constructor; reflexivity| |lia].
      apply (resend_comm j r k g (called (emit (Finished r (status (reqs s r)) (error (reqs s r))) s)) G G').
  Qed.

  Definition asks (c : conn) (r : nat) : bool := match request c with Some r' => r' =? r | None => false end.
  Lemma asks_is : forall k r s, is_request k r s = asks (conns s k) r.
  Proof. reflexivity. Qed.
  Lemma view_conn : forall k f s q j, view (on_conn k f s) q j = if j =? k then (cnt (queue (f (conns s k))) q, asks (f (conns s k)) q, cnt (expected (f (conns s k))) q) else view s q j.
  Proof. intros k f s q j. unfold view, is_request. cbn [conns on_conn]. unfold upd. destruct (Nat.eqb_spec j k) as [->|N]; reflexivity. Qed.
  Lemma view_at : forall s q k, view s q k = (cnt (queue (conns s k)) q, asks (conns s k) q, cnt (expected (conns s k)) q).
  Proof. reflexivity. Qed.
  Lemma same_conn : forall q k f s, cnt (queue (f (conns s k))) q = cnt (queue (conns s k)) q -> asks (f (conns s k)) q = asks (conns s k) q ->
    cnt (expected (f (conns s k))) q = cnt (expected (conns s k)) q -> (asks (conns s k) q = true -> sent (f (conns s k)) = sent (conns s k)) -> same q s (on_conn k f s).
  Proof.
    intros q k f s A B C D. constructor; auto.
    - intro j. rewrite view_conn. destruct (Nat.eqb_spec j k) as [->|]; [|reflexivity]. rewrite A, B, C. reflexivity.
    - intros j H. cbn [conns on_conn]. unfold upd. destruct (Nat.eqb_spec j k) as [->|]; [apply D; exact H|reflexivity].
    - exists []. split; [reflexivity|constructor].
  Qed.
  Lemma at_expected : forall s r L k, at_ s r L -> cnt (expected (conns s k)) r = snd (lview L k).
  Proof. intros s r L k A. rewrite <- (A k). reflexivity. Qed.
  Lemma at_queue : forall s r L k, at_ s r L -> cnt (queue (conns s k)) r = fst (fst (lview L k)).
  Proof. intros s r L k A. rewrite <- (A k). reflexivity. Qed.
  Lemma where_asked : forall s r L k, at_ s r L -> asks (conns s k) r = true -> L = Snd k \/ L = SndA k.
  Proof.
    intros s r L k A H. rewrite <- asks_is, (request_of _ _ _ _ A) in H. destruct L; cbn in H; try discriminate; apply Nat.eqb_eq in H; subst; auto.
  Qed.
  Lemma where_expected : forall s r L k, at_ s r L -> In r (expected (conns s k)) -> L = Snd k \/ L = Wt k.
  Proof.
    intros s r L k A H. apply (count_occ_In Nat.eq_dec) in H. apply at_expected with (k := k) in A. unfold cnt in A. rewrite A in H. destruct L; cbn in H; try lia; destruct (Nat.eqb_spec k k0); cbn in H; try lia; subst; auto.
  Qed.
  Lemma where_queued : forall s r L k, at_ s r L -> In r (queue (conns s k)) -> L = Qu k.
  Proof.
    intros s r L k A H. apply (count_occ_In Nat.eq_dec) in H. apply at_queue with (k := k) in A. unfold cnt in A. rewrite A in H. destruct L; cbn in H; try lia; destruct (Nat.eqb_spec k k0); cbn in H; try lia; subst; auto.
  Qed.
  Lemma nodup_expected : forall s k, All s -> NoDup (expected (conns s k)).
  Proof.
    intros s k H. apply (NoDup_count_occ Nat.eq_dec). intro r. destruct (H r) as (L & A & _). apply at_expected with (k := k) in A. unfold cnt in A. rewrite A. destruct L; cbn; try lia; destruct (k =? k0); cbn; lia.
  Qed.
  Lemma nodup_queue : forall s k, All s -> NoDup (queue (conns s k)).
  Proof.
    intros s k H. apply (NoDup_count_occ Nat.eq_dec). intro r. destruct (H r) as (L & A & _). apply at_queue with (k := k) in A. unfold cnt in A. rewrite A. destruct L; cbn; try lia; destruct (k =? k0); cbn; lia.
  Qed.
  Lemma eqb_sym' : forall a b, (a =? b) = (b =? a).
  Proof. intros. apply Nat.eqb_sym. Qed.

  Lemma ok_disconnected' : forall k r g s, drops g -> (exists L, at_ s r L /\ common r L s /\ (good r L s \/ (L = SndA k /\ calm r s))) -> asks (conns s k) r = true -> Ok_ r (on_conn k g (disconnect r (sent (conns s k)) s)).
  Proof.
    intros k r g s [G1 G2 G3 G4] (L & A & B & C) Hk. unfold HcModel.disconnect. cbv zeta.
    match goal with |- context [on_req r ?f s] => set (f0 := f) end. set (s1 := on_req r f0 s). set (s2 := on_conn k g s1).
    assert (R1 : reqs s1 r = f0 (reqs s r)) by apply reqs_on.
    assert (Rc : connection (f0 (reqs s r)) = None) by (unfold f0; destruct (_ || _); reflexivity).
    assert (Rn : nretries (f0 (reqs s r)) = S (nretries (reqs s r))) by (unfold f0; destruct (_ || _); reflexivity).
    assert (Rs : status (f0 (reqs s r)) = status (reqs s r) /\ rstatus (f0 (reqs s r)) = rstatus (reqs s r)) by (unfold f0; destruct (_ || _); split; reflexivity).
    assert (Rm : max_retries (f0 (reqs s r)) <= max_retries (reqs s r)) by (unfold f0; destruct (_ || _); cbn; lia).
    assert (R0 : idempotent r = false -> send_pos (reqs s r) < sent (conns s k) -> max_retries (f0 (reqs s r)) = 0).
    { intros I P. unfold f0. rewrite I. destruct (Nat.leb_spec (sent (conns s k)) (send_pos (reqs s r))); [lia|reflexivity]. }
    assert (B2 : forall L', (fresh r (trace s) -> L' = Nowhere) -> common r L' s2).
    { intros L' X. destruct B as [B1 [B2 B2'] B3 B4]. constructor; cbn [s2 on_conn reqs trace]; fold s1; rewrite ?R1, ?Rn.
      - lia.
      - split; [change (trace s1) with (trace s); lia|exact B2'].
      - exact B3.
      - intro F. split; [exact (X F)|apply B4, F]. }
    assert (V : forall j, view s2 r j = if j =? k then (cnt (queue (conns s k)) r, false, cnt (expected (conns s k)) r) else view s r j).
    { intro j. unfold s2. rewrite view_conn. change (conns s1) with (conns s). unfold asks. rewrite G2, G3, G4. reflexivity. }
    destruct (where_asked _ _ _ _ A Hk) as [->| ->]; cbn [HcReq.good] in C.
    - destruct C as [C|[C _]]; [|discriminate]. destruct C as (C1 & C2 & C3 & C4). assert (O2 : Ok_ r s2).
      { exists (Wt k). split; [|split].
        - intro j. rewrite V. specialize (A j). rewrite view_at in A. destruct (Nat.eqb_spec j k) as [->|N]; [|rewrite view_at, A; cbn; apply Nat.eqb_neq in N; rewrite N; reflexivity].
          cbn [lview] in *. rewrite Nat.eqb_refl in *. injection A as -> _ ->. reflexivity.
        - apply B2. intro F. destruct B as [_ _ _ B4]. destruct (B4 F). discriminate.
        - cbn [HcReq.good s2 on_conn reqs trace]. rewrite R1, Rc, Rn. destruct Rs as [-> ->]. split; [reflexivity|]. split; [exact C2|]. split; [destruct B as [_ [B2' _] _ _]; change (trace s1) with (trace s); lia|].
          intros I D. destruct (C4 I D) as [C5 C6]. split; [exact C5|]. intro K. apply R0; [exact I|apply C6, K]. }
      destruct (0 <? status (reqs s1 r)); [|exact O2]. destruct (finished_spec get_or_head auto_redirect resends one r s1) as [E|(G & _)]; [|rewrite R1 in G; destruct Rs as [Rs _]; rewrite Rs in G; lia].
      rewrite E. eapply same_ok; [|exact O2]. apply (same_trans r s2 (emit (Finished r (status (reqs s1 r)) (error (reqs s1 r))) s2)); [apply same_note; reflexivity|].
      change (same r (emit (Finished r (status (reqs s1 r)) (error (reqs s1 r))) s2) (called (emit (Finished r (status (reqs s1 r)) (error (reqs s1 r))) s2))). apply same_called.
    - assert (C3 : calm r s) by (destruct C as [(_ & _ & C)|[_ C]]; [intros I [_ D]; rewrite (C I) in D; discriminate|exact C]). clear C. assert (A2 : at_ s2 r Nowhere).
      { intro j. rewrite V. specialize (A j). rewrite view_at in A. destruct (Nat.eqb_spec j k) as [->|N]; [|rewrite view_at, A; cbn; apply Nat.eqb_neq in N; rewrite N; reflexivity].
        cbn in A. injection A as -> _ ->. reflexivity. }
      assert (B3 : common r Nowhere s2) by (apply B2; reflexivity).
      destruct (0 <? status (reqs s1 r)); [|apply ok_nowhere; assumption].
      eapply eqv_ok; [apply finished_comm; assumption|]. apply ok_finished; [exact one|exact A2|exact B3|]. intros _. split; [exact C3|]. cbn [on_conn reqs]. fold s1. rewrite R1. exact Rc.
  Qed.
  Lemma ok_disconnected : forall k r g s, drops g -> Ok_ r s -> asks (conns s k) r = true -> Ok_ r (on_conn k g (disconnect r (sent (conns s k)) s)).
  Proof. intros k r g s G (L & A & B & C) Hk. apply ok_disconnected'; [exact G| |exact Hk]. exists L. auto. Qed.
  Lemma same_disconnected : forall q k r p g s, drops g -> q <> r -> request (conns s k) = Some r -> same q s (on_conn k g (disconnect r p s)).
  Proof.
    intros q k r p g s [G1 G2 G3 G4] N H. eapply same_trans; [apply same_disconnect; [exact one|]; intro X; apply N; symmetry; exact X|]. destruct (frame_request _ _ k (frame_disconnect r p s)) as (F & _).
    assert (X : asks (conns (disconnect r p s) k) q = false) by (unfold asks; rewrite F, H; apply Nat.eqb_neq; congruence).
    apply same_conn; rewrite ?G2, ?G4, ?X; auto; [|discriminate]. unfold asks. rewrite G3. reflexivity.
  Qed.
  Lemma all_disconnected : forall k r g s, drops g -> All s -> request (conns s k) = Some r -> All (on_conn k g (disconnect r (sent (conns s k)) s)).
  Proof.
    intros k r g s G H Hr q. destruct (Nat.eq_dec q r) as [->|N].
    - apply ok_disconnected; [exact G|apply H|]. unfold asks. rewrite Hr. apply Nat.eqb_refl.
    - eapply same_ok; [apply same_disconnected; eassumption|apply H].
  Qed.
  Lemma drops_request : drops (set_request None).
  Proof. constructor; reflexivity. Qed.

  (** close *)
  Lemma all_close : forall k e s, All s -> All (close k e s).
  Proof.
    intros k e s H. unfold HcModel.close. cbv zeta.
    match goal with |- context [expected (conns ?x k)] => set (s1 := x) end.
    assert (A1 : All s1 /\ request (conns s1 k) = None).
    { unfold s1. destruct (request (conns s k)) as [r|] eqn:E; [|auto]. split; [apply all_disconnected; [exact drops_request|exact H|exact E]|]. cbn [conns on_conn]. unfold upd. rewrite Nat.eqb_refl. reflexivity. }
    destruct A1 as [A1 R1]. clearbody s1. clear H s. set (l := expected (conns s1 k)). set (s2 := on_conn k (set_responses None []) s1). assert (N : NoDup l) by (apply nodup_expected; exact A1).
    assert (W : forall q, In q l -> at_ s2 q Nowhere /\ common q Nowhere s2 /\ connection (reqs s2 q) = None /\ status (reqs s2 q) < 300 /\ S (retried q (trace s2)) <= nretries (reqs s2 q) /\
      (idempotent q = false -> answer_begun q (trace s2) = false -> rstatus (reqs s2 q) = None /\ (bytes_sent q (trace s2) = true -> max_retries (reqs s2 q) = 0)) /\ ~ fresh q (trace s2)).
    { intros q Hq. destruct (A1 q) as (L & A & B & C). destruct (where_expected _ _ _ _ A Hq) as [->| ->].
      - exfalso. assert (X := request_of _ _ _ k A). cbn in X. unfold is_request in X. rewrite R1, Nat.eqb_refl in X. discriminate.
      - cbn [HcReq.good] in C. destruct C as (C1 & C2 & C3 & C4). split; [|split].
        + intro j. unfold s2. rewrite view_conn. specialize (A j). rewrite view_at in A. destruct (Nat.eqb_spec j k) as [->|Nj].
          * cbn [lview] in *. injection A as E1 E2 _. cbn [set_responses queue expected response]. rewrite E1. unfold asks in *. cbn [set_responses request]. rewrite E2. reflexivity.
          * rewrite view_at, A. cbn. apply Nat.eqb_neq in Nj. rewrite Nj. reflexivity.
        + destruct B as [B1 B2 B3 B4]. constructor; auto. intro F. split; [reflexivity|apply B4, F].
        + split; [exact C1|]. split; [exact C2|]. split; [exact C3|]. split; [exact C4|]. intro F. destruct B as [_ _ _ B4]. destruct (B4 F). discriminate. }
    set (s3 := close_responses k e true l s2). assert (Cn : forall q, In q l -> connection (reqs s2 q) = None) by (intros q Hq; apply W, Hq).
    assert (F3 : frame s2 s3) by (apply frame_responses; assumption).
    assert (A3 : All s3).
    { intro q. destruct (in_dec Nat.eq_dec q l) as [I|I].
      - destruct (W q I) as (W1 & W2 & W3 & W4 & W5 & W6 & W7). apply ok_responses; auto.
      - eapply same_ok; [apply same_responses; auto|]. eapply same_ok; [|apply A1]. apply same_conn; auto. cbn. symmetry. apply count_occ_not_In. exact I. }
    assert (R3 : request (conns s3 k) = None) by (destruct (frame_request _ _ k F3) as (F & _); rewrite F; unfold s2; cbn [conns on_conn]; unfold upd; rewrite Nat.eqb_refl; exact R1).
    intro q. eapply same_ok; [apply same_note; reflexivity|]. eapply same_ok; [|apply A3]. apply same_conn; auto; unfold asks; rewrite ?R3; discriminate.
  Qed.
  (** what close leaves of the connections *)
  Lemma close_conns : forall k e s j, All s -> exists x, conns (close k e s) j = if j =? k then mkC x None None [] Ready [] 0 0 false else set_queue x (conns s j).
  Proof.
    intros k e s j H. unfold HcModel.close. cbv zeta.
    match goal with |- context [expected (conns ?x k)] => set (s1 := x) end.
    assert (A1 : All s1 /\ request (conns s1 k) = None /\ forall i, i <> k -> exists x, conns s1 i = set_queue x (conns s i)).
    { unfold s1. destruct (request (conns s k)) as [r|] eqn:E.
      - split; [apply all_disconnected; [exact drops_request|exact H|exact E]|]. split; [cbn [conns on_conn]; unfold upd; rewrite Nat.eqb_refl; reflexivity|].
        intros i Hi. cbn [conns on_conn]. unfold upd. apply Nat.eqb_neq in Hi. rewrite Hi. apply (frame_disconnect r (sent (conns s k)) s).
      - split; [exact H|]. split; [exact E|]. intros i _. exists (queue (conns s i)). symmetry. apply set_same. }
    destruct A1 as (A1 & R1 & Q1). clearbody s1. clear H. set (l := expected (conns s1 k)). set (s2 := on_conn k (set_responses None []) s1). assert (N : NoDup l) by (apply nodup_expected; exact A1).
    assert (Cn : forall q, In q l -> connection (reqs s2 q) = None).
    { intros q Hq. destruct (A1 q) as (L & A & B & C). destruct (where_expected _ _ _ _ A Hq) as [->| ->]; [|apply C].
      exfalso. assert (X := request_of _ _ _ k A). cbn in X. unfold is_request in X. rewrite R1, Nat.eqb_refl in X. discriminate. }
    assert (F3 := frame_responses k e l true s2 N Cn). cbn [conns emit on_conn]. unfold upd. destruct (Nat.eqb_spec j k) as [->|Nj].
    - destruct (frame_request _ _ k F3) as (F & _ & _ & _ & _ & _ & F' & F''). rewrite F, F', F''. unfold s2. cbn [conns on_conn]. unfold upd. rewrite Nat.eqb_refl. cbn [set_responses request response response_queue]. rewrite R1. eexists. reflexivity.
    - destruct F3 as [F _ _]. destruct (F j) as (x & ->). unfold s2. cbn [conns on_conn]. unfold upd. apply Nat.eqb_neq in Nj. rewrite Nj. apply Nat.eqb_neq in Nj. destruct (Q1 j Nj) as (y & ->). exists x. reflexivity.
  Qed.
  Lemma close_trace : forall k e s, All s -> exists l, trace (close k e s) = Closed k :: l ++ trace s /\ Forall (fun e => quiet e = true) l /\ forall r, rest (reqs (close k e s) r) = rest (reqs s r).
  Proof.
    intros k e s H. unfold HcModel.close. cbv zeta.
    match goal with |- context [expected (conns ?x k)] => set (s1 := x) end.
    assert (A1 : All s1 /\ request (conns s1 k) = None /\ exists l, trace s1 = l ++ trace s /\ Forall (fun e => quiet e = true) l /\ forall r, rest (reqs s1 r) = rest (reqs s r)).
    { unfold s1. destruct (request (conns s k)) as [r|] eqn:E.
      - split; [apply all_disconnected; [exact drops_request|exact H|exact E]|]. split; [cbn [conns on_conn]; unfold upd; rewrite Nat.eqb_refl; reflexivity|].
        destruct (frame_disconnect r (sent (conns s k)) s) as [_ Fr (l & Ft & Fl)]. exists l. auto.
      - split; [exact H|]. split; [exact E|]. exists []. auto. }
    destruct A1 as (A1 & R1 & l1 & T1 & Q1 & Q2). clearbody s1. clear H. set (l := expected (conns s1 k)). set (s2 := on_conn k (set_responses None []) s1). assert (N : NoDup l) by (apply nodup_expected; exact A1).
    assert (Cn : forall q, In q l -> connection (reqs s2 q) = None).
    { intros q Hq. destruct (A1 q) as (L & A & B & C). destruct (where_expected _ _ _ _ A Hq) as [->| ->]; [|apply C].
      exfalso. assert (X := request_of _ _ _ k A). cbn in X. unfold is_request in X. rewrite R1, Nat.eqb_refl in X. discriminate. }
    destruct (frame_responses k e l true s2 N Cn) as [_ Fr (l2 & Ft & Fl)]. exists (l2 ++ l1). cbn [trace emit on_conn reqs]. split; [|split].
    - rewrite Ft. change (trace s2) with (trace s1). rewrite T1, app_assoc. reflexivity.
    - apply Forall_app. auto.
    - intro r. rewrite Fr. apply Q2.
  Qed.
End step.
