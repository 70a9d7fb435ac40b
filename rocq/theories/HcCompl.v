(** Every step keeps what is known of every request, part 3: the end of a response. *)
From Verif Require Import HcModel HcSpec HcReq HcStep HcAll HcEnd.

Section compl.
  Variables idempotent get_or_head auto_redirect upgrade : nat -> bool.
  Variable resends : nat -> list nat.
  Variable place : nat -> nat.
  Variable retries : nat -> nat.
  Hypothesis one : forall n, length (resends n) <= 1.
  Notation finished := (finished get_or_head auto_redirect resends).
  Notation disconnect := (disconnect idempotent get_or_head auto_redirect resends).
  Notation switch_protocols := (switch_protocols idempotent get_or_head auto_redirect resends place).
  Notation response_finished := (response_finished idempotent get_or_head auto_redirect upgrade resends place).
  Notation close := (close idempotent get_or_head auto_redirect upgrade resends place).
  Notation complete := (complete idempotent get_or_head auto_redirect upgrade resends place).
  Notation step := (step idempotent get_or_head auto_redirect upgrade resends place retries).
  Notation Ok_ := (Ok_ idempotent retries).
  Notation good := (good idempotent).
  Notation calm := (calm idempotent).
  Notation common := (common retries).
  Notation All := (All idempotent retries).
  Notation Good := (Good idempotent retries).

  Lemma good_eqv : forall s s', eqv s s' -> Good s -> Good s'.
  Proof.
    intros s s' E [A B]. split; [intro q; eapply eqv_ok; [exact E|apply A]|]. destruct E as [E1 E2 E3 E4]. intro j. apply cinv_frame with (s := s); [apply B|exists (queue (conns s j)); rewrite E1; symmetry; apply set_same| |exists []; split; [exact E3|constructor]].
    intros r _. rewrite E2. reflexivity.
  Qed.
  Lemma head_place : forall s k r, Ok_ r s -> response (conns s k) = Some r -> exists L, at_ s r L /\ common r L s /\ good r L s /\ (L = Snd k \/ L = Wt k).
  Proof. intros s k r (L & A & B & C) H. exists L. split; [exact A|]. split; [exact B|]. split; [exact C|]. eapply where_expected; [exact A|]. unfold expected. rewrite H. left. reflexivity. Qed.

  (** the request of the response at hand changes, but not its place *)
  Definition keeps (F : req -> req) : Prop := forall q, connection (F q) = connection q /\ send_pos (F q) = send_pos q /\ nretries (F q) = nretries q /\ max_retries (F q) = max_retries q.
  Lemma all_req : forall s k r F, All s -> response (conns s k) = Some r -> keeps F -> status (F (reqs s r)) < 300 -> (rstatus (F (reqs s r)) = rstatus (reqs s r) \/ rstatus (F (reqs s r)) = None) -> All (on_req r F s).
  Proof.
    intros s k r F A H K S0 R0 q. destruct (Nat.eq_dec q r) as [->|N]; [|eapply same_ok; [apply same_req; congruence|apply A]]. destruct (head_place s k r (A r) H) as (L & V & W & X & P). destruct (K (reqs s r)) as (K1 & K2 & K3 & K4).
    exists L. split; [exact V|]. split; [apply common_req; [intro x; destruct (K x) as (_ & _ & Y1 & Y2); auto|exact W]|].
    destruct P as [-> | ->]; cbn [HcReq.good] in *; cbn [trace conns on_req]; fold (on_req r F s); change (upd (reqs s) r (F (reqs s r)) r) with (reqs (on_req r F s) r); rewrite !reqs_on, K1, ?K2, ?K3, ?K4.
    - destruct X as (X1 & X2 & X3 & X4). split; [exact X1|]. split; [exact S0|]. split; [exact X3|]. intros I E. destruct (X4 I E) as [X5 X6]. split; [destruct R0 as [-> | ->]; [exact X5|reflexivity]|exact X6].
    - destruct X as (X1 & X2 & X3 & X4). split; [exact X1|]. split; [exact S0|]. split; [exact X3|]. intros I E. destruct (X4 I E) as [X5 X6]. split; [destruct R0 as [-> | ->]; [exact X5|reflexivity]|exact X6].
  Qed.
  Lemma cinv_req : forall s j r F, CInv j s -> rest (F (reqs s r)) = rest (reqs s r) -> CInv j (on_req r F s).
  Proof.
    intros s j r F C E. apply cinv_frame with (s := s); [exact C|exists (queue (conns s j)); symmetry; apply set_same| |exists []; split; [reflexivity|constructor]].
    intros q _. destruct (Nat.eq_dec q r) as [->|N]; [rewrite reqs_on; exact E|rewrite reqs_other by exact N; reflexivity].
  Qed.

  (** the next response *)
  Lemma next_conn : forall k s, conns (next_response k s) k = set_responses (hd_error (response_queue (conns s k))) (tl (response_queue (conns s k))) (conns s k).
  Proof. intros k s. unfold next_response. destruct (response_queue (conns s k)) as [|x l]; cbn [on_req conns on_conn]; unfold upd; rewrite Nat.eqb_refl; reflexivity. Qed.
  Lemma next_other : forall k s j, j <> k -> conns (next_response k s) j = conns s j.
  Proof. intros k s j N. unfold next_response. apply Nat.eqb_neq in N. destruct (response_queue (conns s k)) as [|x l]; cbn; unfold upd; rewrite N; reflexivity. Qed.
  Lemma next_trace : forall k s, trace (next_response k s) = trace s.
  Proof. intros k s. unfold next_response. destruct (response_queue (conns s k)); reflexivity. Qed.
  Lemma next_req : forall k s r, reqs (next_response k s) r = reqs s r \/ reqs (next_response k s) r = set_rstatus None (reqs s r).
  Proof. intros k s r. unfold next_response. destruct (response_queue (conns s k)) as [|x l]; [left; reflexivity|]. cbn. unfold upd. destruct (Nat.eqb_spec r x) as [->|]; auto. Qed.
  Lemma next_req_same : forall k s r, ~ In r (response_queue (conns s k)) -> reqs (next_response k s) r = reqs s r.
  Proof. intros k s r N. unfold next_response. destruct (response_queue (conns s k)) as [|x l]; [reflexivity|]. cbn. unfold upd. destruct (Nat.eqb_spec r x) as [->|]; [destruct N; left|]; reflexivity. Qed.
  Lemma next_expected : forall k s, expected (conns (next_response k s) k) = response_queue (conns s k).
  Proof. intros k s. rewrite next_conn. unfold expected. cbn. destruct (response_queue (conns s k)); reflexivity. Qed.
  Lemma next_view : forall k s r q j, response (conns s k) = Some r -> view (next_response k s) q j = if j =? k then (cnt (queue (conns s k)) q, asks (conns s k) q, cnt (response_queue (conns s k)) q) else view s q j.
  Proof.
    intros k s r q j H. rewrite !view_at. destruct (Nat.eqb_spec j k) as [->|N]; [|rewrite next_other by exact N; reflexivity]. rewrite next_expected, next_conn. reflexivity.
  Qed.
  Lemma ok_next : forall k s r q, Ok_ q s -> response (conns s k) = Some r -> q <> r -> Ok_ q (next_response k s).
  Proof.
    intros k s r q (L & V & W & X) H N. exists L. split; [|split].
    - intro j. rewrite (next_view k s r q j H). specialize (V j). rewrite <- V. destruct (Nat.eqb_spec j k) as [->|]; [|reflexivity]. rewrite view_at. unfold expected. rewrite H, cnt_cons. assert (E : (r =? q) = false) by (apply Nat.eqb_neq; congruence). rewrite E. reflexivity.
    - destruct W as [W1 W2 W3 W4]. constructor; rewrite ?next_trace; auto; destruct (next_req k s q) as [-> | ->]; auto.
    - unfold HcReq.good, HcReq.calm in *. rewrite next_trace. assert (E : forall j, sent (conns (next_response k s) j) = sent (conns s j)) by (intro j; destruct (Nat.eq_dec j k) as [->|Nj]; [rewrite next_conn|rewrite next_other by exact Nj]; reflexivity).
      destruct L as [|j|j|j|j]; rewrite ?E; [exact Logic.I|..]; destruct (next_req k s q) as [-> | ->]; try exact X; cbn [set_rstatus connection status send_pos rstatus nretries max_retries];
        destruct X as (X1 & X2 & X3 & X4); (split; [exact X1|]; split; [exact X2|]; split; [exact X3|]; intros I K; destruct (X4 I K); auto).
  Qed.
  Lemma not_next : forall s k r L, at_ s r L -> response (conns s k) = Some r -> ~ In r (response_queue (conns s k)).
  Proof.
    intros s k r L V H X. apply (count_occ_In Nat.eq_dec) in X. pose proof (at_expected s r L k V) as E. unfold expected in E. rewrite H, cnt_cons, Nat.eqb_refl in E. unfold cnt in E. destruct L; cbn in E; try lia; destruct (k =? k0); cbn in E; lia.
  Qed.
  Lemma at_next_wt : forall s k r, at_ s r (Wt k) -> response (conns s k) = Some r -> at_ (next_response k s) r Nowhere.
  Proof.
    intros s k r V H j. rewrite (next_view k s r r j H). pose proof (not_next _ _ _ _ V H) as N. apply (count_occ_not_In Nat.eq_dec) in N. specialize (V j). rewrite view_at in *. destruct (Nat.eqb_spec j k) as [->|Nj].
    - injection V as V1 V2 _. rewrite V1, V2. unfold cnt. rewrite N. reflexivity.
    - rewrite V. cbn. apply Nat.eqb_neq in Nj. rewrite Nj. reflexivity.
  Qed.
  Lemma at_next_snd : forall s k r, at_ s r (Snd k) -> response (conns s k) = Some r -> at_ (next_response k s) r (SndA k).
  Proof.
    intros s k r V H j. rewrite (next_view k s r r j H). pose proof (not_next _ _ _ _ V H) as N. apply (count_occ_not_In Nat.eq_dec) in N. specialize (V j). rewrite view_at in *. destruct (Nat.eqb_spec j k) as [->|Nj].
    - injection V as V1 V2 _. rewrite V1, V2. unfold cnt. rewrite N. reflexivity.
    - rewrite V. cbn. apply Nat.eqb_neq in Nj. rewrite Nj. reflexivity.
  Qed.

  Definition answered (k r n : nat) (e : bool) (F : req -> req) (s : st) : st := next_response k (on_req r F (emit (Answered k r n e) s)).
  Lemma answered_facts : forall s k r n e F, All s -> response (conns s k) = Some r -> rstatus (reqs s r) = Some n -> keeps F -> rstatus (F (reqs s r)) = rstatus (reqs s r) ->
    let s' := answered k r n e F s in
    (forall q, q <> r -> Ok_ q s') /\ reqs s' r = F (reqs s r) /\
    (at_ s r (Snd k) /\ Ok_ r s' \/ at_ s' r Nowhere /\ common r Nowhere s' /\ calm r s' /\ connection (reqs s' r) = None /\ connection (reqs s r) = None).
  Proof.
    intros s k r n e F A H R K R0 s'. set (s1 := on_req r F (emit (Answered k r n e) s)). assert (H1 : response (conns s1 k) = Some r) by exact H.
    destruct (head_place s k r (A r) H) as (L & V & W & X & P). assert (V1 : at_ s1 r L) by exact V. assert (Q : reqs s' r = F (reqs s r)).
    { unfold s', answered. rewrite next_req_same; [unfold s1; rewrite reqs_on; reflexivity|]. apply (not_next _ _ _ _ V H). }
    split; [|split; [exact Q|]].
    - intros q N. apply ok_next with (r := r); [|exact H|exact N]. eapply same_ok; [|apply A]. eapply same_trans; [apply same_note with (e := Answered k r n e); reflexivity|apply same_req; congruence].
    - destruct (K (reqs s r)) as (K1 & K2 & K3 & K4). assert (Cm : forall L', (fresh r (trace s) -> L' = Nowhere) -> common r L' s').
      { intros L' Y. destruct W as [W1 W2 W3 W4]. constructor; rewrite ?Q, ?K3, ?K4; unfold s', answered; rewrite ?next_trace; auto. cbn [trace on_req emit]. intro Fr. apply fresh_cons in Fr. split; [exact (Y Fr)|apply W4, Fr]. }
      assert (Fn : ~ fresh r (trace s)) by (intro Fr; destruct W as [_ _ _ W4]; destruct (W4 Fr) as (-> & _); destruct P; discriminate).
      destruct P as [-> | ->]; cbn [HcReq.good] in X.
      + left. split; [exact V|]. exists (SndA k). split; [apply at_next_snd; assumption|]. split; [apply Cm; intro; contradiction|]. cbn [HcReq.good]. rewrite Q, K1, K2. destruct X as (X1 & X2 & X3 & X4). split; [exact X1|].
        unfold s', answered. rewrite next_trace, next_conn. split; [exact X3|]. intro I. destruct (answer_begun r (trace s)) eqn:E; [exact E|]. destruct (X4 I eq_refl) as [X5 _]. congruence.
      + right. destruct X as (X1 & X2 & X3 & X4). split; [apply at_next_wt; assumption|]. split; [apply Cm; reflexivity|]. split; [|split; [rewrite Q, K1; exact X1|exact X1]].
        unfold s', answered. intros I [_ D]. rewrite next_trace in D. destruct (X4 I D) as [X5 _]. congruence.
  Qed.
  Lemma answered_cinv : forall s k r n e F, All s -> (forall j, CInv j s) -> response (conns s k) = Some r -> (forall l, l = rest (reqs s r) -> rest (F (reqs s r)) = l \/ (e = true /\ 300 <= n /\ (l = [] -> rest (F (reqs s r)) = []))) ->
    forall j, CInv j (answered k r n e F s).
  Proof.
    intros s k r n e F A B H G j. specialize (G _ eq_refl). set (s1 := on_req r F (emit (Answered k r n e) s)).
    assert (Q : forall q, rest (reqs (answered k r n e F s) q) = rest (reqs s1 q)) by (intro q; unfold answered; fold s1; destruct (next_req k s1 q) as [-> | ->]; reflexivity).
    assert (Q1 : forall q, q <> r -> rest (reqs s1 q) = rest (reqs s q)) by (intros q N; unfold s1; rewrite reqs_other by exact N; reflexivity).
    assert (Q2 : reqs s1 r = F (reqs s r)) by (unfold s1; rewrite reqs_on; reflexivity).
    destruct (head_place s k r (A r) H) as (L & V & W & X & P).
    destruct (Nat.eq_dec j k) as [->|N].
    - destruct (B k) as [C1 C2 C3 C4 C5]. unfold answered in *. fold s1 in Q |- *. constructor; rewrite ?next_expected, ?next_trace, ?next_conn; cbn [set_responses request response response_queue cmode buffer sent buffered]; change (conns s1) with (conns s); change (trace s1) with (Answered k r n e :: trace s).
      + cbn [awaiting]. rewrite Nat.eqb_refl, <- C1. unfold expected. rewrite H. reflexivity.
      + destruct (response_queue (conns s k)); [reflexivity|discriminate].
      + exact C3.
      + destruct (cmode (conns s k)); auto. destruct C4 as [C4 C6]. split; [exact C4|]. intros q Hq. destruct (C6 q Hq) as [C7 C8]. split; [exact C7|]. rewrite Q. destruct (Nat.eq_dec q r) as [->|Nq]; [rewrite Q2; destruct G as [-> |(_ & _ & G)]; auto|rewrite Q1 by exact Nq; exact C8].
      + intro E. assert (E' : no_early_error (trace s)) by (apply (early_app [Answered k r n e]); exact E). specialize (C5 E'). cbn [messages wire]. destruct (request (conns s k)) as [q|]; [|exact C5]. rewrite Q. destruct (Nat.eq_dec q r) as [->|Nq]; [|rewrite Q1 by exact Nq; exact C5].
        rewrite Q2. destruct G as [-> |(-> & G & _)]; [exact C5|]. exfalso. specialize (E k r n (or_introl eq_refl)). lia.
    - apply cinv_frame with (s := s); [apply B|exists (queue (conns s j)); unfold answered; rewrite next_other by exact N; symmetry; apply set_same| |].
      + intros q Hq. rewrite Q. destruct (Nat.eq_dec q r) as [->|Nq]; [|apply Q1, Nq]. exfalso. apply asked_here in Hq. destruct (where_asked _ _ _ _ V Hq), P; subst; congruence.
      + exists [Answered k r n e]. split; [unfold answered; rewrite next_trace; reflexivity|]. constructor; [cbn; apply negb_true_iff, Nat.eqb_neq; congruence|constructor].
  Qed.

  (** finished and the next response *)
  Lemma finished_comm_req : forall r x f s, x <> r -> eqv (finished r (on_req x f s)) (on_req x f (finished r s)).
  Proof.
    intros r x f s N. assert (E : reqs (on_req x f s) r = reqs s r) by (apply reqs_other; congruence). set (s1 := called (emit (Finished r (status (reqs s r)) (error (reqs s r))) s)).
    assert (R : forall j, eqv (resend j r (on_req x f s1)) (on_req x f (resend j r s1))).
    { intro j. constructor; auto. intro q. cbn. unfold upd. assert (E1 : (r =? x) = false) by (apply Nat.eqb_neq; congruence). assert (E2 : (x =? r) = false) by (apply Nat.eqb_neq; congruence). rewrite ?E1, ?E2.
      destruct (q =? x) eqn:E3, (q =? r) eqn:E4; try reflexivity. apply Nat.eqb_eq in E3, E4. congruence. }
    unfold HcModel.finished. cbv zeta. rewrite E. cbn [calls on_req]. destruct (_ && _ && _ && _).
    - destruct (resends (calls s)) as [|j l]; [constructor; reflexivity|]. exact (R j).
    - destruct (status (reqs s r) =? 401); [|constructor; reflexivity]. pose proof (one (calls s)) as O. destruct (resends (calls s)) as [|j [|j' l]]; cbn in O; [constructor; reflexivity| |lia]. exact (R j).
  Qed.
  Lemma eqv_trans : forall a b c, eqv a b -> eqv b c -> eqv a c.
  Proof. intros a b c [A1 A2 A3 A4] [B1 B2 B3 B4]. constructor; intros; congruence. Qed.
  Lemma eqv_req : forall a b r f, eqv a b -> eqv (on_req r f a) (on_req r f b).
  Proof. intros a b r f [A1 A2 A3 A4]. constructor; auto. intro q. cbn. unfold upd. rewrite !A2. reflexivity. Qed.
  Lemma next_finished : forall k r s, ~ In r (response_queue (conns s k)) -> eqv (finished r (next_response k s)) (next_response k (finished r s)).
  Proof.
    intros k r s N. unfold next_response. destruct (frame_request _ _ k (frame_finished get_or_head auto_redirect resends one r s)) as (_ & _ & _ & _ & _ & _ & _ & F). rewrite F. destruct (response_queue (conns s k)) as [|x l].
    - apply finished_comm; [exact one|reflexivity|reflexivity].
    - eapply eqv_trans; [apply finished_comm_req; intros ->; apply N; left; reflexivity|]. apply eqv_req. apply finished_comm; [exact one|reflexivity|reflexivity].
  Qed.
  Lemma good_over : forall s k r n, Good s -> response (conns s k) = Some r -> rstatus (reqs s r) = Some n -> connection (reqs s r) = None ->
    Good (next_response k (finished r (on_req r (set_status n false) (emit (Answered k r n false) s)))).
  Proof.
    intros s k r n [A B] H R C. destruct (head_place s k r (A r) H) as (L & V & W & X & P). eapply good_eqv; [apply next_finished; apply (not_next _ _ _ _ V H)|]. fold (answered k r n false (set_status n false) s).
    destruct (answered_facts s k r n false (set_status n false) A H R) as (F1 & F2 & F3); [repeat split|reflexivity|]. set (s' := answered k r n false (set_status n false) s) in *. split.
    - intro q. destruct (Nat.eq_dec q r) as [->|N]; [|eapply same_ok; [apply same_finished; [exact one|congruence]|apply F1, N]].
      destruct F3 as [[F3 _]|(F3 & F4 & F5 & F6 & _)].
      + exfalso. destruct P as [-> | ->]; [cbn in X; destruct X; congruence|]. specialize (V k). specialize (F3 k). rewrite F3 in V. cbn in V. rewrite Nat.eqb_refl in V. discriminate.
      + apply ok_finished; [exact one|exact F3|exact F4|]. intros _. auto.
    - intro j. eapply cinv_of_frame; [|apply frame_finished; exact one]. apply answered_cinv; [exact A|exact B|exact H|]. intros l ->. left. reflexivity.
  Qed.

  (** the switch of protocols *)
  Definition move (k : nat) (s : st) (q : nat) : st := called (enqueue (if place (calls s) =? k then S k else place (calls s)) q s).
  Lemma same_moved : forall k q l s, ~ In q l -> same q s (fold_left (move k) l s).
  Proof.
    intros k q. induction l as [|x l IH]; intros s N; [apply same_refl|]. cbn [fold_left]. eapply same_trans; [|apply IH; intro Y; apply N; right; exact Y]. unfold move. eapply same_trans; [apply (same_enqueue q (if place (calls s) =? k then S k else place (calls s)) x s); intros ->; apply N; left; reflexivity|apply same_called].
  Qed.
  Lemma at_moved : forall k q l s, In q l -> NoDup l -> at_ s q Nowhere -> exists j, at_ (fold_left (move k) l s) q (Qu j) /\ reqs (fold_left (move k) l s) q = reqs s q /\ trace (fold_left (move k) l s) = trace s.
  Proof.
    intros k q. assert (T : forall l s, trace (fold_left (move k) l s) = trace s) by (induction l as [|x l IH]; intro s; [reflexivity|cbn [fold_left]; rewrite IH; reflexivity]).
    assert (R : forall l s, reqs (fold_left (move k) l s) = reqs s) by (induction l as [|x l IH]; intro s; [reflexivity|cbn [fold_left]; rewrite IH; reflexivity]).
    induction l as [|x l IH]; intros s Hq N V; [destruct Hq|]. inversion N as [|? ? N1 N2]; subst. destruct (Nat.eq_dec x q) as [->|Nx].
    - cbn [fold_left]. exists (if place (calls s) =? k then S k else place (calls s)). split; [|split; [rewrite R; reflexivity|rewrite T; reflexivity]]. eapply same_at; [apply same_moved, N1|]. eapply same_at; [apply same_called|]. apply at_enqueue, V.
    - destruct Hq as [Hq|Hq]; [contradiction|]. cbn [fold_left]. apply (IH (move k s x)); [exact Hq|exact N2|]. eapply same_at; [|exact V]. unfold move. eapply same_trans; [apply (same_enqueue q (if place (calls s) =? k then S k else place (calls s)) x s); exact Nx|apply same_called].
  Qed.
  Lemma frame_moved : forall k l s, frame s (fold_left (move k) l s).
  Proof.
    intros k l. induction l as [|x l IH]; intro s; [apply frame_refl|]. cbn [fold_left]. eapply frame_trans; [|apply IH]. unfold move. eapply frame_trans; [apply frame_enqueue|apply frame_called].
  Qed.
  Lemma good_switch : forall s k r, Good s -> response (conns s k) = Some r -> rstatus (reqs s r) = Some 101 -> connection (reqs s r) = Some k -> cmode (conns s k) = UpgradeWaiting ->  request (conns s k) = Some r ->
    Good (next_response k (switch_protocols k r (on_req r (set_status 101 false) (emit (Answered k r 101 true) s)))).
  Proof.
    intros s k r [A B] H R C M Rq. set (s1 := on_req r (set_status 101 false) (emit (Answered k r 101 true) s)). assert (Mq : is_request k r s1 && is_mode (cmode (conns s1 k)) UpgradeWaiting = true).
    { unfold is_request. change (conns s1) with (conns s). rewrite Rq, M, Nat.eqb_refl. reflexivity. }
    unfold HcModel.switch_protocols. rewrite Mq. cbv zeta. change (conns s1) with (conns s).
    set (sA := on_conn k (fun c => set_responses (response c) [] (set_queue [] c)) s1). fold (move k). set (sB := fold_left (move k) (queue (conns s k)) sA).
    change (fold_left (fun s0 q => called (enqueue (if place (calls s0) =? k then S k else place (calls s0)) q s0)) (queue (conns s k)) sA) with sB.
    set (p := sent (conns sB k)). set (sC := disconnect r p sB). set (sD := on_conn k (fun c => set_mode Tunnelling (set_request None c)) (on_req r (fun q => set_connection (Some k) (send_pos q) q) sC)).
    assert (FB : frame sA sB) by apply frame_moved. assert (FC : frame sB sC) by (apply frame_disconnect; exact one). assert (FAC : frame sA sC) by (eapply frame_trans; eassumption).
    assert (KA : conns sA k = set_responses (Some r) [] (set_queue [] (conns s k))) by (unfold sA; rewrite conns_on; change (conns s1 k) with (conns s k); rewrite H; reflexivity).
    destruct (f_conns _ _ FAC k) as (x & KC). rewrite KA in KC.
    assert (KD : conns sD k = mkC x None (Some r) [] Tunnelling (buffer (conns s k)) (buffered (conns s k)) (sent (conns s k)) (socket (conns s k))) by (unfold sD; rewrite conns_on; cbn [on_req conns]; rewrite KC; reflexivity).
    assert (Nx : next_response k (emit (Switched k) sD) = on_conn k (set_responses None []) (emit (Switched k) sD)) by (unfold next_response; cbn [emit conns]; rewrite KD; reflexivity). rewrite Nx. clear Nx.
    set (s' := on_conn k (set_responses None []) (emit (Switched k) sD)).
    assert (K' : conns s' k = mkC x None None [] Tunnelling (buffer (conns s k)) (buffered (conns s k)) (sent (conns s k)) (socket (conns s k))) by (unfold s'; rewrite conns_on; cbn [emit conns]; rewrite KD; reflexivity).
    assert (Ot : forall j, j <> k -> conns s' j = conns sC j) by (intros j N; unfold s'; rewrite conns_other by exact N; cbn [emit conns]; unfold sD; rewrite conns_other by exact N; reflexivity).
    destruct (A r) as (Lr & Vr & Wr & Xr). assert (Pr : Lr = Snd k).
    { destruct (where_asked _ _ _ _ Vr (asked_here _ _ _ Rq)) as [E|E]; [exact E|]. subst. assert (In r (expected (conns s k))) by (unfold expected; rewrite H; left; reflexivity). destruct (where_expected _ _ _ _ Vr H0); discriminate. }
    subst Lr. assert (NQ := nodup_queue idempotent retries s k A).
    assert (StB : forall q, ~ In q (queue (conns s k)) -> same q sA sB) by (intros q N; apply same_moved, N).
    assert (rB : reqs sB r = set_status 101 false (reqs s r)).
    { rewrite (m_req _ _ _ (StB r ltac:(intro Y; pose proof (where_queued _ _ _ _ Vr Y); discriminate))). unfold sA. cbn [on_conn reqs]. unfold s1. rewrite reqs_on. reflexivity. }
    (* the others, after the queue was moved *)
    assert (SmE : forall q, q <> r -> same q sB s').
    { intros q N. unfold s'. apply same_trans with (s' := sC); [apply same_disconnect; [exact one|congruence]|]. apply same_trans with (s' := on_req r (fun y => set_connection (Some k) (send_pos y) y) sC); [apply same_req; congruence|].
      apply same_trans with (s' := sD); [|apply same_trans with (s' := emit (Switched k) sD); [apply same_note; reflexivity|]].
      - apply same_conn; cbn [on_req conns]; rewrite KC; cbn [set_mode set_request set_responses set_queue queue expected response response_queue sent]; auto. unfold asks. cbn [set_mode set_request set_responses set_queue request]. rewrite Rq. symmetry. apply Nat.eqb_neq. congruence.
      - apply same_conn; cbn [emit conns]; rewrite KD; auto. cbn [expected set_responses response response_queue]. rewrite cnt_cons. assert (E : (r =? q) = false) by (apply Nat.eqb_neq; congruence). rewrite E. reflexivity. }
    split.
    - intro q. destruct (Nat.eq_dec q r) as [->|N].
      + apply ok_nowhere.
        * intro j. rewrite view_at. destruct (Nat.eqb_spec j k) as [->|Nj].
          -- rewrite K'. cbn [queue expected response]. unfold asks. cbn [request lview]. assert (V2 : cnt (queue (conns sC k)) r = 0).
             { assert (E : same r sA sB) by (apply StB; intro Y; pose proof (where_queued _ _ _ _ Vr Y); discriminate). assert (E1 := m_view _ _ _ E k). rewrite !view_at, KA in E1. injection E1 as E1 _ _. cbn [set_responses set_queue queue] in E1.
               assert (E2 : view sC r k = view sB r k); [|rewrite !view_at in E2; injection E2 as E2 _ _; rewrite E2, E1; reflexivity].
               unfold sC, HcModel.disconnect. cbv zeta. match goal with |- context [on_req r ?f sB] => set (f0 := f) end. assert (E3 : status (reqs (on_req r f0 sB) r) = 101) by (rewrite reqs_on; unfold f0; destruct (_ || _); cbn [set_connection set_retries status]; rewrite rB; reflexivity). rewrite E3. cbn [Nat.ltb Nat.leb].
               destruct (finished_spec get_or_head auto_redirect resends one r (on_req r f0 sB)) as [-> |(G & _)]; [reflexivity|rewrite E3 in G; lia]. }
             rewrite KC in V2. cbn [set_queue queue] in V2. rewrite V2. reflexivity.
          -- rewrite Ot by exact Nj. assert (E : view sC r j = view s r j).
             { assert (E1 : same r sA sB) by (apply StB; intro Y; pose proof (where_queued _ _ _ _ Vr Y); discriminate). transitivity (view sB r j); [|transitivity (view sA r j); [apply (m_view _ _ _ E1 j)|rewrite !view_at; unfold sA; rewrite conns_other by exact Nj; reflexivity]].
               unfold sC, HcModel.disconnect. cbv zeta. match goal with |- context [on_req r ?f sB] => set (f0 := f) end. assert (E3 : status (reqs (on_req r f0 sB) r) = 101) by (rewrite reqs_on; unfold f0; destruct (_ || _); cbn [set_connection set_retries status]; rewrite rB; reflexivity). rewrite E3. cbn [Nat.ltb Nat.leb].
               destruct (finished_spec get_or_head auto_redirect resends one r (on_req r f0 sB)) as [-> |(G & _)]; [reflexivity|rewrite E3 in G; lia]. }
             rewrite view_at in E. rewrite E. rewrite Vr. cbn. apply Nat.eqb_neq in Nj. rewrite Nj. reflexivity.
        * assert (Tr : exists l, trace s' = l ++ trace s /\ silent r l).
          { exists [Switched k; Finished r 101 false; Answered k r 101 true]. split; [|repeat constructor]. unfold s'. cbn [on_conn trace emit]. unfold sD. cbn [on_conn on_req trace].
            assert (TB : trace sB = Answered k r 101 true :: trace s) by (unfold sB; clear; assert (G : forall l a, trace (fold_left (move k) l a) = trace a) by (induction l as [|y l IH]; intro a; [reflexivity|cbn [fold_left]; rewrite IH; reflexivity]); rewrite G; reflexivity).
            unfold sC, HcModel.disconnect. cbv zeta. match goal with |- context [on_req r ?f sB] => set (f0 := f) end. assert (E3 : status (reqs (on_req r f0 sB) r) = 101 /\ error (reqs (on_req r f0 sB) r) = false) by (rewrite !reqs_on; unfold f0; destruct (_ || _); cbn [set_connection set_retries status error]; rewrite rB; split; reflexivity). destruct E3 as [E3 E4]. rewrite E3. cbn [Nat.ltb Nat.leb].
            destruct (finished_spec get_or_head auto_redirect resends one r (on_req r f0 sB)) as [-> |(G & _)]; [|rewrite E3 in G; lia]. cbn [called emit trace on_req]. fold (on_req r f0 sB). rewrite TB, E3, E4. reflexivity. }
          destruct Tr as (l & Tr & Sl). destruct (silent_facts r l (trace s) Sl) as (F1 & F2 & F3 & F4 & F5 & F6). rewrite <- Tr in F1, F2, F3, F4, F5, F6. destruct Wr as [W1 W2 W3 W4].
          assert (Q : max_retries (reqs s' r) <= max_retries (reqs s r) /\ nretries (reqs s r) <= nretries (reqs s' r)).
          { unfold s'. cbn [on_conn reqs emit]. unfold sD. cbn [on_conn reqs]. rewrite reqs_on. cbn [set_connection max_retries nretries].
            unfold sC, HcModel.disconnect. cbv zeta. match goal with |- context [on_req r ?f sB] => set (f0 := f) end. assert (E3 : status (reqs (on_req r f0 sB) r) = 101) by (rewrite !reqs_on; unfold f0; destruct (_ || _); cbn [set_connection set_retries status error]; rewrite rB; reflexivity). rewrite E3. cbn [Nat.ltb Nat.leb].
            destruct (finished_spec get_or_head auto_redirect resends one r (on_req r f0 sB)) as [-> |(G & _)]; [|rewrite E3 in G; lia]. cbn [called emit reqs]. rewrite reqs_on. unfold f0. destruct (_ || _); cbn [set_connection set_retries max_retries nretries]; rewrite rB; cbn; lia. }
          constructor; rewrite ?F1, ?F3, ?F4, ?F5; [lia|lia|exact W3|]. rewrite F6. intro Fr. split; [reflexivity|]. apply W4, Fr.
      + eapply same_ok; [apply SmE, N|]. destruct (in_dec Nat.eq_dec q (queue (conns s k))) as [I|I].
        * destruct (A q) as (L & V & W & X). pose proof (where_queued _ _ _ _ V I) as ->. assert (VA : at_ sA q Nowhere).
          { intro j. specialize (V j). rewrite view_at in *. destruct (Nat.eqb_spec j k) as [->|Nj]; [|unfold sA; rewrite conns_other by exact Nj; change (conns s1) with (conns s); rewrite V; cbn; apply Nat.eqb_neq in Nj; rewrite Nj; reflexivity].
            rewrite KA. injection V as _ V2 V3. cbn [set_responses set_queue queue expected response response_queue]. unfold asks in *. cbn [set_responses set_queue request]. rewrite V2, cnt_cons. assert (E : (r =? q) = false) by (apply Nat.eqb_neq; congruence). rewrite E. reflexivity. }
          destruct (at_moved k q (queue (conns s k)) sA I NQ VA) as (j & VB & RB & TB). fold sB in VB, RB, TB. assert (RA : reqs sA q = reqs s q) by (unfold sA; cbn [on_conn reqs]; unfold s1; rewrite reqs_other by exact N; reflexivity). rewrite RA in RB.
          assert (SI : silent q [Answered k r 101 true]) by (repeat constructor). destruct (silent_facts q [Answered k r 101 true] (trace s) SI) as (F1 & F2 & F3 & F4 & F5 & F6).
          change ([Answered k r 101 true] ++ trace s) with (trace sA) in *. rewrite <- TB in *.
          exists (Qu j). split; [exact VB|]. split.
          -- destruct W as [W1 W2 W3 W4]. constructor; rewrite ?RB, ?F1, ?F3, ?F4, ?F5; auto. rewrite F6. intro Fr. destruct (W4 Fr). discriminate.
          -- cbn [HcReq.good] in *. unfold HcReq.calm, dirty in *. rewrite RB, F1, F2, F3, F4, F5. exact X.
        * eapply same_ok; [apply StB, I|]. destruct (in_dec Nat.eq_dec q (expected (conns s k))) as [J|J].
          -- destruct (A q) as (L & V & W & X). assert (L = Wt k).
             { destruct (where_expected _ _ _ _ V J) as [E|E]; [|exact E]. subst. pose proof (request_of _ _ _ k V) as Y. unfold is_request in Y. rewrite Rq in Y. cbn in Y. rewrite Nat.eqb_refl in Y. apply Nat.eqb_eq in Y. congruence. }
             subst L. apply ok_nowhere.
             ++ intro j. specialize (V j). rewrite view_at in *. destruct (Nat.eqb_spec j k) as [->|Nj]; [|unfold sA; rewrite conns_other by exact Nj; change (conns s1) with (conns s); rewrite V; cbn; apply Nat.eqb_neq in Nj; rewrite Nj; reflexivity].
                rewrite KA. injection V as _ V2 V3. cbn [set_responses set_queue queue expected response response_queue]. unfold asks in *. cbn [set_responses set_queue request]. rewrite V2, cnt_cons. assert (E : (r =? q) = false) by (apply Nat.eqb_neq; congruence). rewrite E. reflexivity.
             ++ assert (RA : reqs sA q = reqs s q) by (unfold sA; cbn [on_conn reqs]; unfold s1; rewrite reqs_other by exact N; reflexivity).
                assert (SI : silent q [Answered k r 101 true]) by (repeat constructor). destruct (silent_facts q [Answered k r 101 true] (trace s) SI) as (F1 & F2 & F3 & F4 & F5 & F6). change ([Answered k r 101 true] ++ trace s) with (trace sA) in *.
                destruct W as [W1 W2 W3 W4]. constructor; rewrite ?RA, ?F1, ?F3, ?F4, ?F5; auto. rewrite F6. intro Fr. split; [reflexivity|apply W4, Fr].
          -- eapply same_ok; [|apply A]. apply same_trans with (s' := s1); [unfold s1; apply same_trans with (s' := emit (Answered k r 101 true) s); [apply same_note; reflexivity|apply same_req; congruence]|].
             unfold sA. apply same_conn; change (conns s1) with (conns s); cbn [set_responses set_queue queue]; auto.
             ++ symmetry. apply count_occ_not_In. exact I.
             ++ apply (count_occ_not_In Nat.eq_dec) in J. unfold cnt. rewrite J. cbn [expected set_responses set_queue response response_queue]. rewrite H. transitivity (cnt [r] q); [reflexivity|]. rewrite cnt_cons. assert (E : (r =? q) = false) by (apply Nat.eqb_neq; congruence). rewrite E. reflexivity.
    - intro j. destruct (f_trace _ _ FAC) as (l & TC & LC). assert (T' : trace s' = Switched k :: l ++ Answered k r 101 true :: trace s) by (unfold s'; cbn [on_conn emit trace]; unfold sD; cbn [on_conn on_req trace]; rewrite TC; reflexivity). destruct (Nat.eq_dec j k) as [->|N].
      + destruct (B k) as [C1 C2 C3 C4 C5]. rewrite M in C4. destruct C4 as [C4 _]. constructor; rewrite K'; cbn [expected response response_queue request buffer cmode]; rewrite ?T'; cbn [awaiting wire messages]; rewrite ?Nat.eqb_refl; auto.
        * rewrite C4. constructor.
        * intro E. destruct (away_facts k l (Answered k r 101 true :: trace s) (quiet_away k l LC)) as (_ & W2 & W3). rewrite W2, W3. cbn [wire messages]. assert (E' : no_early_error (trace s)) by (apply (early_app (Switched k :: l ++ [Answered k r 101 true])); cbn; rewrite <- app_assoc; exact E). specialize (C5 E'). rewrite Rq in C5. eexists. exact C5.
      + apply cinv_frame with (s := s); [apply B| | |].
        * rewrite Ot by exact N. destruct (f_conns _ _ FAC j) as (y & E). exists y. rewrite E. unfold sA. rewrite conns_other by exact N. reflexivity.
        * intros q _. unfold s'. cbn [on_conn emit reqs]. unfold sD. cbn [on_conn reqs]. assert (E : rest (reqs sC q) = rest (reqs s q)).
          { rewrite (f_rest _ _ FAC q). unfold sA. cbn [on_conn reqs]. unfold s1. destruct (Nat.eq_dec q r) as [->|Nq]; [rewrite reqs_on; reflexivity|rewrite reqs_other by exact Nq; reflexivity]. }
          destruct (Nat.eq_dec q r) as [->|Nq]; [rewrite reqs_on; exact E|rewrite reqs_other by exact Nq; exact E].
        * exists (Switched k :: l ++ [Answered k r 101 true]). split; [rewrite T'; cbn; rewrite <- app_assoc; reflexivity|]. assert (E : (k =? j) = false) by (apply Nat.eqb_neq; congruence). constructor; [cbn; rewrite E; reflexivity|]. apply Forall_app. split; [apply quiet_away, LC|]. constructor; [cbn; rewrite E; reflexivity|constructor].
  Qed.

  Lemma informational_101 : forall n, informational n = true -> n < 300.
  Proof. intros n H. unfold informational in H. apply andb_true_iff in H as [_ H]. apply Nat.leb_le in H. lia. Qed.
  Lemma good_continue : forall s k r, Good s -> Good (continue_sending k r s).
  Proof.
    intros s k r G. unfold continue_sending. destruct (is_request k r s && is_mode (cmode (conns s k)) BodyWaiting) eqn:E; [|exact G]. apply andb_true_iff in E as [_ E]. apply good_no_continue; [exact G|]. destruct (cmode (conns s k)); try discriminate. reflexivity.
  Qed.
  Lemma continue_comm : forall s k r x F, continue_sending k r (on_req x F s) = on_req x F (continue_sending k r s).
  Proof. intros. unfold continue_sending, is_request. cbn [on_req conns]. destruct (_ && _); reflexivity. Qed.
  Lemma eqv_twice : forall r F G s, eqv (on_req r (fun q => F (G q)) s) (on_req r F (on_req r G s)).
  Proof. intros r F G s. constructor; auto. intro q. cbn. unfold upd. rewrite Nat.eqb_refl. destruct (q =? r); reflexivity. Qed.
  Lemma keeps_status : forall n e, keeps (set_status n e).
  Proof. intros n e q. auto. Qed.
  Lemma good_complete : forall s k r n keep_alive, Good s -> response (conns s k) = Some r -> rstatus (reqs s r) = Some n -> Good (complete k r n keep_alive s).
  Proof.
    intros s k r n ka G H R. assert (G' := G). destruct G' as [A B]. destruct (head_place s k r (A r) H) as (L & V & W & X & P).
    assert (Cn : connection (reqs s r) = None \/ connection (reqs s r) = Some k /\ at_ s r (Snd k)) by (destruct P as [-> | ->]; cbn in X; [right; split; [apply X|exact V]|left; apply X]).
    unfold HcModel.complete. cbv zeta. destruct (informational n && negb (n =? 101)) eqn:E.
    - apply andb_true_iff in E as [E E1]. apply negb_true_iff in E1. unfold HcModel.response_finished. cbv zeta. rewrite R, E, E1. cbn [andb fst].
      assert (Gf : Good (on_req r (set_rstatus None) (on_req r (set_status n false) s))).
      { eapply good_eqv; [apply eqv_twice|]. split.
        - apply all_req with (k := k); [exact A|exact H|intro q; auto|apply informational_101, E|right; reflexivity].
        - intro j. apply cinv_req; [apply B|reflexivity]. }
      destruct Cn as [-> |[-> _]]; [exact Gf|]. rewrite continue_comm, <- continue_comm, <- continue_comm. apply good_continue. exact Gf.
    - set (e := is_some (connection (reqs s r))). assert (Fin : forall s', Good s' -> Good (if ka then s' else close k false s')) by (intros s' Gs; destruct ka; [exact Gs|apply good_close; assumption]).
      unfold HcModel.response_finished. cbv zeta. cbn [emit reqs]. rewrite R. destruct (informational n) eqn:I.
      + cbn [andb] in E. apply negb_false_iff in E. apply Nat.eqb_eq in E. subst n.
        assert (Ga : Good (next_response k (on_req r (set_status 101 false) (emit (Answered k r 101 e) s)))).
        { fold (answered k r 101 e (set_status 101 false) s). destruct (answered_facts s k r 101 e (set_status 101 false) A H R (keeps_status _ _) eq_refl) as (F1 & F2 & F3). split.
          - intro q. destruct (Nat.eq_dec q r) as [->|N]; [|apply F1, N]. destruct F3 as [[_ F3]|(F3 & F4 & _)]; [exact F3|apply ok_nowhere; assumption].
          - apply answered_cinv; [exact A|exact B|exact H|]. intros l ->. left. reflexivity. }
        destruct Cn as [Cn|[Cn Vs]]; rewrite Cn.
        * apply Fin. exact Ga.
        * cbn [Nat.eqb andb]. destruct (upgrade r).
          -- apply Fin. destruct (is_request k r (on_req r (set_status 101 false) (emit (Answered k r 101 e) s)) && is_mode (cmode (conns (on_req r (set_status 101 false) (emit (Answered k r 101 e) s)) k)) UpgradeWaiting) eqn:Q.
             ++ unfold e. rewrite Cn. apply andb_true_iff in Q as [Q1 Q2]. apply good_switch; auto; cbn [on_req emit conns] in *.
                ** destruct (cmode (conns s k)); try discriminate. reflexivity.
                ** unfold is_request in Q1. cbn [on_req emit conns] in Q1. destruct (request (conns s k)) as [x|]; [|discriminate]. apply Nat.eqb_eq in Q1. subst. reflexivity.
             ++ unfold HcModel.switch_protocols. rewrite Q. exact Ga.
          -- apply Fin. unfold continue_sending. destruct (_ && _) eqn:Q; [|exact Ga]. apply andb_true_iff in Q as [_ Q]. cbn [on_req emit conns] in Q.
             assert (N : eqv (on_conn k (set_mode BodySending) (next_response k (on_req r (set_status 101 false) (emit (Answered k r 101 e) s)))) (next_response k (on_conn k (set_mode BodySending) (on_req r (set_status 101 false) (emit (Answered k r 101 e) s))))).
             { unfold next_response. rewrite conns_on. cbn [on_req emit conns set_mode response_queue]. destruct (response_queue (conns s k)); constructor; auto; intro j; cbn; unfold upd; rewrite ?Nat.eqb_refl; destruct (j =? k); reflexivity. }
             eapply good_eqv; [exact N|]. apply good_no_continue; [exact Ga|]. rewrite next_conn. cbn [on_req emit conns set_responses cmode]. destruct (cmode (conns s k)); try discriminate. reflexivity.
      + destruct Cn as [Cn|[Cn Vs]]; rewrite Cn.
        * apply Fin. unfold e. rewrite Cn. apply good_over; assumption.
        * destruct (300 <=? n) eqn:Q.
          -- apply Fin. apply Nat.leb_le in Q. set (F := fun q => set_rest (tl (rest q)) (set_status n false q)).
             assert (Ga : Good (answered k r n e F s)).
             { destruct (answered_facts s k r n e F A H R) as (F1 & F2 & F3); [intro q; repeat split|reflexivity|]. split.
               - intro q. destruct (Nat.eq_dec q r) as [->|N]; [|apply F1, N]. destruct F3 as [[_ F3]|(F3 & F4 & _)]; [exact F3|apply ok_nowhere; assumption].
               - apply answered_cinv; [exact A|exact B|exact H|]. intros l ->. right. unfold e. rewrite Cn. split; [reflexivity|]. split; [exact Q|]. unfold F. cbn [set_rest set_status rest]. intros ->. reflexivity. }
             eapply good_eqv; [|exact Ga]. unfold answered, next_response. change (conns (on_req r (fun q => set_rest (tl (rest q)) q) (on_req r (set_status n false) (emit (Answered k r n e) s))) k) with (conns s k). change (conns (on_req r F (emit (Answered k r n e) s)) k) with (conns s k).
             destruct (response_queue (conns s k)) as [|x l].
             ++ apply (eqv_twice r (fun q => set_rest (tl (rest q)) q) (set_status n false) (on_conn k (set_responses None []) (emit (Answered k r n e) s))).
             ++ apply eqv_req. apply (eqv_twice r (fun q => set_rest (tl (rest q)) q) (set_status n false) (on_conn k (set_responses (Some x) l) (emit (Answered k r n e) s))).
          -- apply Nat.leb_gt in Q. cbn [fst]. assert (Aa : All (on_req r (set_status n false) (emit (Answered k r n e) s))).
             { apply all_req with (k := k); [|exact H|apply keeps_status|exact Q|left; reflexivity]. apply all_same with (1 := A). intro q. apply same_note. reflexivity. }
             split; [apply all_close; assumption|]. apply cinv_close with (retries := retries); [exact one|exact Aa|]. intros j N. apply cinv_req; [|reflexivity]. apply cinv_frame with (s := s); [apply B|exists (queue (conns s j)); symmetry; apply set_same|auto|].
             exists [Answered k r n e]. split; [reflexivity|]. constructor; [cbn; apply negb_true_iff, Nat.eqb_neq; congruence|constructor].
  Qed.

  Theorem good_step : forall s s', Good s -> step s s' -> Good s'.
  Proof.
    intros s s' G H. destruct H.
    - apply good_queue; assumption.
    - apply good_start; assumption.
    - apply good_start_raises; assumption.
    - apply good_connect; assumption.
    - eapply good_send; eassumption.
    - apply good_send_nothing; assumption.
    - apply good_no_continue; assumption.
    - apply good_body; assumption.
    - eapply good_body_upgrade; eassumption.
    - apply good_body_end; assumption.
    - apply good_no_upgrade; assumption.
    - apply good_status; assumption.
    - apply good_complete; assumption.
    - apply good_close; assumption.
    - apply good_close; assumption.
    - apply good_close; assumption.
  Qed.
  Lemma good_init : Good (init retries).
  Proof.
    split.
    - intro r. exists Nowhere. split; [intro k; reflexivity|]. split; [|exact Logic.I]. constructor; cbn; auto; lia.
    - intro k. constructor; cbn; auto.
  Qed.
End compl.
