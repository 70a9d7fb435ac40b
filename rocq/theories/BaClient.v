(** A client with its credentials as a transition system, and its invariants. *)
From Verif Require Import Py UriModel UriPath UriSpec UriRel HttpModel HttpParamModel BaModel BaSpec BaProofs.

(** ** Runs *)
(** what is seen: a request is sent to a URL with a header; a final response comes for a request that
    was trying credentials (or not), and is dealt with; credentials are added *)
Inductive event :=
| Sent (r : nat) (u : Z * str) (h : header)
| Answered (r : nat) (u : Z * str) (a : response) (t : option nat) (o : res nat)
| Added (k : nat).
Inductive step : st -> event -> st -> Prop :=
| s_send : forall s r s', send_header r s = Ok s' -> step s (Sent r (url (reqs s r)) (auth (reqs s' r))) s'
| s_answer : forall s r a s' o, finished r a s = (s', o) ->
    step s (Answered r (url (reqs s r)) a (tried (reqs s r)) o) s'
| s_add : forall s k, ~ In k (creds s) -> step s (Added k) (St (creds s ++ [k]) (objs s) (reqs s)).
Inductive run (s0 : st) : list event -> st -> Prop :=
| run_start : run s0 [] s0
| run_step : forall log s e s', run s0 log s -> step s e s' -> run s0 (log ++ [e]) s'.
(** at the start no path is known to be good and no request has been sent *)
Definition fresh (s : st) : Prop :=
  NoDup (creds s) /\ (forall k, prefixes (objs s k) = []) /\ (forall r, auth (reqs s r) = NoHeader /\ tried (reqs s r) = None).

(** ** Lemmas *)
Lemma upd_same : forall A (f : nat -> A) k v, upd f k v k = v. Proof. intros. unfold upd. rewrite Nat.eqb_refl. reflexivity. Qed.
Lemma upd_other : forall A (f : nat -> A) k v x, x <> k -> upd f k v x = f x.
Proof. intros. unfold upd. destruct (Nat.eqb_spec x k); [contradiction|reflexivity]. Qed.
Lemma find_matching_some : forall o l ch k, find_matching o l ch = Ok (Some k) -> In k l /\ space (o k) = c_space ch /\ scheme (o k) = c_scheme ch.
Proof.
  induction l as [|x l IH]; intros ch k H; cbn [find_matching] in H; [discriminate|].
  unfold match_challenge in H. destruct (str_eqb (scheme (o x)) (c_scheme ch)) eqn:E1; cbn [negb rbind] in H.
  2:{ apply IH in H as (A & B). split; [right; exact A|exact B]. }
  destruct (Z.eqb_spec (space (o x)) (c_space ch)) as [E2|E2]; cbn [negb rbind] in H.
  2:{ apply IH in H as (A & B). split; [right; exact A|exact B]. }
  apply str_eqb_eq in E1. destruct (realm (o x)) as [[|c r]|]; cbn [rbind] in H; try discriminate; injection H as <-; split; auto; left; reflexivity.
Qed.
Lemma find_by_url_some : forall o l u k, find_by_url o l u = Ok (Some k) -> In k l /\ space (o k) = fst u /\ test_path (o k) (snd u) = Ok true.
Proof.
  induction l as [|x l IH]; intros u k H; cbn [find_by_url] in H; [discriminate|]. unfold test_url in H.
  destruct (Z.eqb_spec (space (o x)) (fst u)) as [E|E].
  2:{ cbn [rbind] in H. apply IH in H as (A & B). split; [right; exact A|exact B]. }
  destruct (test_path (o x) (snd u)) as [b|e] eqn:T; cbn [rbind] in H; [|discriminate]. destruct b.
  - injection H as <-. repeat split; auto. left. reflexivity.
  - apply IH in H as (A & B). split; [right; exact A|exact B].
Qed.
Lemma find_by_url_total : forall o l u p, ordinary p -> snd u = path_of p -> exists k, find_by_url o l u = Ok k /\
  (k = None -> forall x, In x l -> space (o x) = fst u -> under (prefixes (o x)) p = false).
Proof.
  intros o l u p O E. induction l as [|x l (k & IH1 & IH2)]; cbn [find_by_url].
  - exists None. split; [reflexivity|]. intros _ x [].
  - unfold test_url. destruct (Z.eqb_spec (space (o x)) (fst u)) as [S|S].
    + rewrite E, (test_ordinary _ _ O). cbn [rbind]. destruct (under (prefixes (o x)) p) eqn:T.
      * exists (Some x). split; [reflexivity|discriminate].
      * exists k. split; [exact IH1|]. intros -> y [<-|Y] Sy; [exact T|auto].
    + cbn [rbind]. exists k. split; [exact IH1|]. intros -> y [<-|Y] Sy; [contradiction|auto].
Qed.

(** a request has the header of credentials of its own root, and those that it tries *)
Definition req_ok (o : nat -> cred) (q : req) : Prop :=
  (forall k, auth q = Of k -> space (o k) = fst (url q)) /\ (forall k, tried q = Some k -> auth q = Of k).

Lemma try_frame : forall r cs n s s' o, try_challenges r cs n s = (s', o) ->
  objs s' = objs s /\ creds s' = creds s /\ (forall x, x <> r -> reqs s' x = reqs s x) /\ url (reqs s' r) = url (reqs s r) /\
  (req_ok (objs s) (reqs s r) -> req_ok (objs s) (reqs s' r)).
Proof.
  intros r. induction cs as [|[sch rl] cs IH]; intros n s s' o H; cbn [try_challenges] in H.
  - injection H as <- <-. auto 6.
  - destruct (find_credentials s (Chal sch (fst (url (reqs s r))) rl)) as [[k|]|e] eqn:F.
    + apply IH in H as (A & B & C & D & E). cbn [objs creds reqs] in *. rewrite upd_same in D, E. cbn [url] in D.
      split; [exact A|]. split; [exact B|]. split; [intros x N; rewrite C by exact N; apply upd_other; exact N|]. split; [exact D|].
      intros Q. apply E. unfold find_credentials in F. apply find_matching_some in F as (_ & F & _). cbn [c_space] in F.
      split; cbn [auth url tried]; intros k' K; injection K as <-; auto.
    + apply IH in H as (A & B & C & D & E). cbn [objs creds reqs] in *. rewrite upd_same in D, E. cbn [url] in D.
      split; [exact A|]. split; [exact B|]. split; [intros x N; rewrite C by exact N; apply upd_other; exact N|]. split; [exact D|].
      intros Q. apply E. split; cbn [auth url tried]; [apply Q|discriminate].
    + injection H as <- <-. auto 6.
Qed.

Lemma continue_frame : forall r a s s' o, continue r a s = (s', o) -> (tried (reqs s r) = None \/ status a = 401) ->
  objs s' = objs s /\ creds s' = creds s /\ (forall x, x <> r -> reqs s' x = reqs s x) /\
  (req_ok (objs s) (reqs s r) -> req_ok (objs s) (reqs s' r)).
Proof.
  intros r a s s' o H T. unfold continue in H. destruct ((300 <=? status a) && (status a <=? 399)) eqn:E.
  - apply andb_true_iff in E as [E1 E2]. apply Z.leb_le in E1, E2. destruct T as [T|T]; [|lia].
    destruct (location a) as [u|]; injection H as <- <-; [|split; [reflexivity|split; [reflexivity|split; [reflexivity|auto]]]].
    cbn [resend objs creds reqs]. split; [reflexivity|]. split; [reflexivity|]. split; [intros x N; apply upd_other; exact N|].
    rewrite upd_same. intros [H1 H2]. split; cbn [auth url tried].
    + intros k. destruct (Z.eqb_spec (fst (url (reqs s r))) (fst u)); [|discriminate]. intros A. rewrite <- e. auto.
    + rewrite T. discriminate.
  - destruct (status a =? 401).
    + apply try_frame in H as (A & B & C & D & F). auto.
    + injection H as <- <-. split; [reflexivity|]. split; [reflexivity|]. split; [reflexivity|]. auto.
Qed.

(** ** The invariant *)
Definition good_answer (k : nat) (l : list str) (e : event) : Prop :=
  exists r u a o p, e = Answered r u a (Some k) o /\ status a <> 401 /\ snd u = path_of p /\ ordinary p /\ is_prefix (blank_last p) l = true.
Definition clean_log (log : list event) : Prop := forall r u a t o, In (Answered r u a t o) log -> clean (snd u).

Definition Inv (s0 : st) (log : list event) (s : st) : Prop :=
  (forall r, req_ok (objs s) (reqs s r)) /\
  (forall k, space (objs s k) = space (objs s0 k) /\ scheme (objs s k) = scheme (objs s0 k)) /\
  (forall r u st t o k, In (Answered r u st t o) log -> t = Some k -> space (objs s0 k) = fst u) /\
  (clean_log log -> forall k l, under (prefixes (objs s k)) l = true <->
      scheme (objs s0 k) = basic /\ exists e, In e log /\ good_answer k l e).

Lemma untry_ok : forall r s, (forall x, req_ok (objs s) (reqs s x)) -> forall x, req_ok (objs s) (reqs (untry r s) x).
Proof.
  intros r s H x. unfold untry. cbn [reqs]. destruct (Nat.eq_dec x r) as [->|N]; [rewrite upd_same|rewrite upd_other by exact N; apply H].
  split; cbn [auth url tried]; [apply H|discriminate].
Qed.
Lemma untry_tried : forall r s, tried (reqs (untry r s) r) = None.
Proof. intros. unfold untry. cbn [reqs]. rewrite upd_same. reflexivity. Qed.
Lemma req_ok_spaces : forall o o' q, (forall k, space (o' k) = space (o k)) -> req_ok o q -> req_ok o' q.
Proof. intros o o' q E [A B]. split; [|exact B]. intros k K. rewrite E. auto. Qed.
Lemma add_keeps : forall p c c', add_success_path p c = Ok c' -> space c' = space c /\ scheme c' = scheme c.
Proof.
  intros p c c' H. unfold add_success_path in H.
  match type of H with (rbind ?m _) = _ => destruct m as [x|] eqn:E1; cbn [rbind] in H; [|discriminate] end.
  match type of H with (rbind ?m _) = _ => destruct m as [y|] eqn:E2; cbn [rbind] in H; [|discriminate] end.
  destruct (absorb y (prefixes c)) as [k l]. injection H as <-. auto.
Qed.

(** what an answer does to the objects *)
Definition learns (r : nat) (a : response) (s : st) : nat -> cred :=
  match tried (reqs s r) with
  | Some k => if negb (status a =? 401) && str_eqb (scheme (objs s k)) basic then
                match add_success_path (snd (url (reqs s r))) (objs s k) with Ok c => upd (objs s) k c | Err _ => objs s end
              else objs s
  | None => objs s
  end.
Lemma learns_keeps : forall r a s k, space (learns r a s k) = space (objs s k) /\ scheme (learns r a s k) = scheme (objs s k).
Proof.
  intros r a s k. unfold learns. destruct (tried (reqs s r)) as [k'|]; [|auto]. destruct (negb (status a =? 401) && str_eqb (scheme (objs s k')) basic); [|auto].
  destruct (add_success_path (snd (url (reqs s r))) (objs s k')) eqn:A; [|auto]. apply add_keeps in A as [A B].
  destruct (Nat.eq_dec k k') as [->|N]; [rewrite upd_same; auto|rewrite upd_other by exact N; auto].
Qed.
Lemma finished_frame : forall r a s s' o, finished r a s = (s', o) -> (forall x, req_ok (objs s) (reqs s x)) ->
  objs s' = learns r a s /\ (forall x, req_ok (objs s') (reqs s' x)).
Proof.
  intros r a s s' o H Q. unfold finished in H; cbv zeta in H. unfold learns.
  assert (G : forall s1, (forall x, req_ok (objs s1) (reqs s1 x)) -> tried (reqs s1 r) = None -> continue r a s1 = (s', o) ->
     objs s' = objs s1 /\ forall x, req_ok (objs s') (reqs s' x)).
  { intros s1 Q1 T1 C. apply continue_frame in C as (A & B & C & D); [|auto]. rewrite A. split; [reflexivity|]. intros x.
    destruct (Nat.eq_dec x r) as [->|N]; [apply D, Q1|rewrite C by exact N; apply Q1]. }
  destruct (tried (reqs s r)) as [k|] eqn:T; [|apply G; auto].
  destruct (status a =? 401) eqn:S; cbn [negb andb].
  - destruct (remove_credentials k (creds s)) as [l e]. destruct e.
    + injection H as <- <-. auto.
    + apply (G _ (untry_ok r (St l (objs s) (reqs s)) Q) (untry_tried _ _) H).
  - destruct (str_eqb (scheme (objs s k)) basic).
    + destruct (add_success_path (snd (url (reqs s r))) (objs s k)) as [c|e] eqn:A; [|injection H as <- <-; auto].
      apply add_keeps in A as [A B]. apply G in H; [exact H| |apply untry_tried].
      apply (untry_ok r (St (creds s) (upd (objs s) k c) (reqs s))). intros x. cbn [objs reqs]. apply (req_ok_spaces (objs s)); [|apply Q].
      intros k'. destruct (Nat.eq_dec k' k) as [->|N]; [rewrite upd_same; auto|rewrite upd_other by exact N; auto].
    + apply (G _ (untry_ok r s Q) (untry_tried _ _) H).
Qed.
Lemma clean_snoc : forall log e, clean_log (log ++ [e]) -> clean_log log /\ forall r u st t o, e = Answered r u st t o -> clean (snd u).
Proof.
  intros log e H. split.
  - intros r u st t o E. apply (H r u st t o). apply in_or_app. left. exact E.
  - intros r u st t o ->. apply (H r u st t o). apply in_or_app. right. left. reflexivity.
Qed.
Lemma inv_run : forall s0 log s, fresh s0 -> run s0 log s -> Inv s0 log s.
Proof.
  intros s0 log s (_ & P0 & R0). induction 1 as [|log s e s' Hr (I1 & I2 & I3 & I4) St].
  - repeat split; auto.
    + intros k K. destruct (R0 r) as [A _]. congruence.
    + intros k K. destruct (R0 r) as [_ A]. congruence.
    + intros r u st t o k [].
    + rewrite P0 in H0. discriminate.
    + rewrite P0 in H0. discriminate.
    + intros (_ & e & [] & _).
  - (* the objects do not change and nothing good is answered *)
    assert (K : (forall x, req_ok (objs s') (reqs s' x)) -> objs s' = objs s -> (forall k l, ~ good_answer k l e) ->
        (forall r u st t o k, e = Answered r u st t o -> t = Some k -> space (objs s0 k) = fst u) -> Inv s0 (log ++ [e]) s').
    { intros Q E NG SP. split; [exact Q|]. split; [intros k; rewrite E; apply I2|]. split.
      - intros r u st t o k X T. apply in_app_or in X as [X|[X|[]]]; eauto.
      - intros C k l. apply clean_snoc in C as [C _]. rewrite E, (I4 C k l). split; intros (A & e' & B & D); split; auto; exists e'; split; auto.
        + apply in_or_app. auto.
        + apply in_app_or in B as [B|[<-|[]]]; [exact B|]. exfalso. exact (NG _ _ D). }
    destruct St as [s r s' H|s r a s' o H|s k H].
    + unfold send_header in H. destruct (auth (reqs s r)) eqn:A.
      * destruct (find_by_url (objs s) (creds s) (url (reqs s r))) as [[k|]|e] eqn:F; cbn [rbind] in H; try discriminate; injection H as <-.
        -- apply K; cbn [objs reqs]; auto.
           ++ intros x. destruct (Nat.eq_dec x r) as [->|N]; [rewrite upd_same|rewrite upd_other by exact N; apply I1].
              apply find_by_url_some in F as (_ & F & _). split; cbn [auth url tried].
              ** intros k' E. injection E as <-. exact F.
              ** intros k' E. destruct (I1 r) as [_ X]. rewrite (X k' E) in A. discriminate.
           ++ intros k' l (r' & u & st & o & p & E & _). discriminate.
           ++ intros. discriminate.
        -- apply K; auto.
           ++ intros k' l (r' & u & st & o & p & E & _). discriminate.
           ++ intros. discriminate.
      * injection H as <-. apply K; auto; [intros k' l (r' & u & st & o & p & E & _); discriminate|intros; discriminate].
      * injection H as <-. apply K; auto; [intros k' l (r' & u & st & o & p & E & _); discriminate|intros; discriminate].
    + destruct (finished_frame r a s s' o H I1) as [E Q].
      assert (SP : forall k, tried (reqs s r) = Some k -> space (objs s0 k) = fst (url (reqs s r))).
      { intros k T. destruct (I1 r) as [X Y]. destruct (I2 k) as [Z _]. rewrite <- Z. apply X, Y, T. }
      destruct (tried (reqs s r)) as [k|] eqn:T.
      2:{ apply K; auto.
          - rewrite E. unfold learns. rewrite T. reflexivity.
          - intros k' l (r' & u & st & o' & p & E' & _). discriminate.
          - intros r' u st t o' k E' X. injection E' as <- <- <- <- <-. discriminate. }
      split; [exact Q|]. split.
      { intros k'. rewrite E. destruct (learns_keeps r a s k') as [-> ->]. apply I2. }
      split.
      { intros r' u st t o' k' X Y. apply in_app_or in X as [X|[X|[]]]; [eauto|]. injection X as <- <- <- <- <-. apply SP. exact Y. }
      intros C k' l. apply clean_snoc in C as [C C1]. destruct (C1 _ _ _ _ _ eq_refl) as (p & Op & Ep).
      specialize (I4 C k' l). destruct (I2 k') as [_ SCH]. rewrite E. unfold learns. rewrite T.
      destruct (Z.eqb_spec (status a) 401) as [S|S]; cbn [negb andb].
      * rewrite I4. split; intros (A & e' & B & D); split; auto; exists e'; split; auto.
        -- apply in_or_app. auto.
        -- apply in_app_or in B as [B|[<-|[]]]; [exact B|]. exfalso. destruct D as (r' & u & st & o' & q & D1 & D2 & _). injection D1 as <- <- <- _ _. contradiction.
      * destruct (str_eqb (scheme (objs s k)) basic) eqn:Bs.
        2:{ rewrite I4. split; intros (A & e' & B & D); split; auto; exists e'; split; auto.
            - apply in_or_app. auto.
            - apply in_app_or in B as [B|[<-|[]]]; [exact B|]. exfalso. destruct D as (r' & u & st & o' & q & D1 & _). injection D1 as <- <- <- <- _.
              rewrite SCH, A, str_eqb_refl in Bs. discriminate. }
        rewrite Ep. destruct (learn_one p (objs s k) Op) as (c' & A1 & _ & _ & _ & A2). rewrite A1.
        destruct (Nat.eq_dec k' k) as [->|N].
        -- rewrite upd_same, A2. rewrite orb_true_iff, I4. split.
           ++ intros [(A & e' & B & D)|B].
              ** split; [exact A|]. exists e'. split; [apply in_or_app; auto|exact D].
              ** split; [apply str_eqb_eq in Bs; rewrite <- SCH; exact Bs|]. eexists. split; [apply in_or_app; right; left; reflexivity|].
                 exists r, (url (reqs s r)), a, o, p. auto.
           ++ intros (A & e' & B & D). apply in_app_or in B as [B|[<-|[]]]; [left; eauto|right].
              destruct D as (r' & u & st & o' & q & D1 & D2 & D3 & D4 & D5). injection D1 as <- <- <- <-. rewrite Ep in D3.
              apply path_inj in D3; auto. subst q. exact D5.
        -- rewrite upd_other by exact N. rewrite I4. split; intros (A & e' & B & D); split; auto; exists e'; split; auto.
           ++ apply in_or_app. auto.
           ++ apply in_app_or in B as [B|[<-|[]]]; [exact B|]. exfalso. destruct D as (r' & u & st & o' & q & D1 & _). injection D1 as <- <- <- <- _. congruence.
    + apply K; cbn [objs reqs]; auto; [intros k' l (r' & u & st & o & p & E & _); discriminate|intros; discriminate].
Qed.
