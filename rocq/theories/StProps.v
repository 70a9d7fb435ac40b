(** C93: a method that follows the pattern of SQLTransaction is one transaction, however its methods are nested and however often
    the database fails. *)
From Verif Require Import StModel.

(** no transaction is in progress *)
Definition idle (s : st) : Prop := cursor s = false /\ no_commit s = 0 /\ query_count s = 0 /\ pending s = [].
(** s' follows s inside of a transaction *)
Record inside (s0 s : st) : Prop := { n_cursor : cursor s = true; n_committed : committed s = committed s0; n_count : query_count s = length (pending s);
                                      n_log : log s = log s0 ++ pending s; n_out : outcomes s = outcomes s0;
                                      n_live : live s = true \/ pending s = [] }.
(** the fields that an attempt leaves alone *)
Lemma reconnect_spec : forall s s' r, reconnect s = (s', r) -> cursor s' = cursor s /\ no_commit s' = no_commit s /\ query_count s' = query_count s /\ committed s' = committed s /\ pending s' = [] /\ log s' = log s /\ outcomes s' = outcomes s.
Proof.
  intros s s' r H. unfold reconnect in H. cbn [set_db cursor outcomes pos] in H. destruct (is_done _); [|injection H as <- _; repeat split].
  cbn [cursor] in H. destruct (cursor s); [unfold call in H|]; injection H as <- _; repeat split.
Qed.
Lemma call_spec : forall s s' r, call s = (s', r) -> cursor s' = cursor s /\ no_commit s' = no_commit s /\ query_count s' = query_count s /\ committed s' = committed s /\ pending s' = pending s /\ log s' = log s /\ outcomes s' = outcomes s.
Proof. intros s s' r H. unfold call in H. injection H as <- _. repeat split. Qed.
(** execute: the command is added, or nothing was *)
Definition same (s s' : st) : Prop := cursor s' = cursor s /\ no_commit s' = no_commit s /\ query_count s' = query_count s /\ committed s' = committed s /\ pending s' = pending s /\ log s' = log s /\ outcomes s' = outcomes s.
Definition added (c : nat) (s s' : st) : Prop := cursor s' = cursor s /\ no_commit s' = no_commit s /\ query_count s' = S (query_count s) /\ committed s' = committed s /\ pending s' = pending s ++ [c] /\ log s' = log s ++ [c] /\ outcomes s' = outcomes s.
Lemma execute0_spec : forall c s s' r, execute0 c s = (s', r) -> (r = Done /\ added c s s') \/ (r <> Done /\ same s s').
Proof.
  intros c s s' r H. unfold execute0 in H. destruct (call s) as [s1 r1] eqn:E. pose proof (call_spec _ _ _ E) as (A1 & A2 & A3 & A4 & A5 & A6 & A7).
  destruct r1; cbn [is_done] in H; injection H as <- <-; [left; split; [reflexivity|]|right; split; [discriminate|]|right; split; [discriminate|]]; try (repeat split; assumption).
  unfold added. cbn. rewrite A1, A2, A3, A4, A5, A6, A7. repeat split.
Qed.
Lemma attempts_spec : forall c n s s' r, pending s = [] -> attempts n (execute0 c) s = (s', r) -> (r = Done /\ added c s s') \/ (r <> Done /\ same s s').
Proof.
  intros c. induction n as [|n IH]; intros s s' r Hp H.
  - cbn [attempts] in H. destruct (execute0 c s) as [s1 r1] eqn:E. pose proof (execute0_spec _ _ _ _ E) as X. destruct r1; injection H as <- <-; exact X.
  - cbn [attempts] in H. destruct (execute0 c s) as [s1 r1] eqn:E. pose proof (execute0_spec _ _ _ _ E) as X. destruct r1; try (injection H as <- <-; exact X).
    destruct X as [[X _]|[_ X]]; [discriminate|]. destruct (reconnect s1) as [s2 r2] eqn:E2. pose proof (reconnect_spec _ _ _ E2) as Y.
    assert (S2 : same s s2) by (unfold same in *; destruct X as (X1 & X2 & X3 & X4 & X5 & X6 & X7), Y as (Y1 & Y2 & Y3 & Y4 & Y5 & Y6 & Y7); repeat split; congruence).
    destruct r2; [|injection H as <- <-; right; split; [discriminate|exact S2]|injection H as <- <-; right; split; [discriminate|exact S2]].
    assert (Hp2 : pending s2 = []) by (destruct S2 as (_ & _ & _ & _ & F & _); congruence). destruct (IH s2 s' r Hp2 H) as [[Q A]|[Q A]].
    + left. split; [exact Q|]. unfold added, same in *. destruct S2 as (X1 & X2 & X3 & X4 & X5 & X6 & X7), A as (Y1 & Y2 & Y3 & Y4 & Y5 & Y6 & Y7). repeat split; congruence.
    + right. split; [exact Q|]. unfold same in *. destruct S2 as (X1 & X2 & X3 & X4 & X5 & X6 & X7), A as (Y1 & Y2 & Y3 & Y4 & Y5 & Y6 & Y7). repeat split; congruence.
Qed.
Lemma execute_spec : forall c s s' r, (query_count s = 0 -> pending s = []) -> execute c s = (s', r) -> (r = Done /\ added c s s') \/ (r <> Done /\ same s s').
Proof.
  intros c s s' r Hp H. unfold execute, retry in H. destruct (Nat.eqb_spec (query_count s) 0) as [E|N]; [eapply attempts_spec; [apply Hp, E|exact H]|apply execute0_spec, H].
Qed.
Lemma begin_outer : forall n s s' r, cursor s = false -> no_commit s = 0 -> pending s = [] -> attempts n begin0 s = (s', r) ->
  no_commit s' = 0 /\ query_count s' = query_count s /\ committed s' = committed s /\ pending s' = [] /\ log s' = log s /\ outcomes s' = outcomes s /\ cursor s' = is_done r.
Proof.
  assert (B : forall s s' r, cursor s = false -> no_commit s = 0 -> pending s = [] -> begin0 s = (s', r) ->
    no_commit s' = 0 /\ query_count s' = query_count s /\ committed s' = committed s /\ pending s' = [] /\ log s' = log s /\ outcomes s' = outcomes s /\ cursor s' = is_done r).
  { intros s s' r C N Q H. unfold begin0 in H. rewrite C in H. destruct (call s) as [s1 r1] eqn:E. pose proof (call_spec _ _ _ E) as (A1 & A2 & A3 & A4 & A5 & A6 & A7).
    destruct r1; cbn [is_done] in H; injection H as <- <-; cbn [set_tx no_commit query_count committed pending log outcomes cursor is_done]; repeat split; congruence. }
  induction n as [|n IH]; intros s s' r C N Q H.
  - cbn [attempts] in H. destruct (begin0 s) as [s1 r1] eqn:E. pose proof (B _ _ _ C N Q E) as X. destruct r1; injection H as <- <-; exact X.
  - cbn [attempts] in H. destruct (begin0 s) as [s1 r1] eqn:E. pose proof (B _ _ _ C N Q E) as X. destruct r1; try (injection H as <- <-; exact X).
    destruct (reconnect s1) as [s2 r2] eqn:E2. pose proof (reconnect_spec _ _ _ E2) as (Y1 & Y2 & Y3 & Y4 & Y5 & Y6 & Y7). destruct X as (X1 & X2 & X3 & X4 & X5 & X6 & X7). cbn [is_done] in X7.
    assert (Z : no_commit s2 = 0 /\ query_count s2 = query_count s /\ committed s2 = committed s /\ pending s2 = [] /\ log s2 = log s /\ outcomes s2 = outcomes s /\ cursor s2 = false) by (repeat split; congruence).
    destruct Z as (Z1 & Z2 & Z3 & Z4 & Z5 & Z6 & Z7). destruct r2; [|injection H as <- <-; repeat split; assumption|injection H as <- <-; repeat split; assumption].
    destruct (IH s2 s' r Z7 Z1 Z4 H) as (W1 & W2 & W3 & W4 & W5 & W6 & W7). repeat split; congruence.
Qed.
Lemma begin_inner : forall s, cursor s = true -> begin_ s = (set_tx true (S (no_commit s)) (query_count s) s, Done).
Proof. intros s C. unfold begin_, retry, attempts, begin0. rewrite C. destruct (query_count s =? 0); reflexivity. Qed.

(** a connection that is closed has nothing pending *)
Definition sound (s : st) : Prop := live s = true \/ pending s = [].
Lemma execute0_live : forall c s s' r, sound s -> execute0 c s = (s', r) -> sound s'.
Proof.
  intros c s s' r L H. unfold execute0, call in H. destruct (live s) eqn:E.
  - cbn [cursor no_commit query_count committed pending live] in H. destruct (is_done _); injection H as <- <-; left; cbn; first [reflexivity|exact E].
  - cbn [is_done] in H. injection H as <- <-. destruct L as [L|L]; [congruence|]. right. exact L.
Qed.
Lemma attempts_live : forall c n s s' r, sound s -> attempts n (execute0 c) s = (s', r) -> sound s'.
Proof.
  intros c. induction n as [|n IH]; intros s s' r L H; cbn [attempts] in H; destruct (execute0 c s) as [s1 r1] eqn:E; pose proof (execute0_live _ _ _ _ L E) as X.
  - destruct r1; injection H as <- <-; exact X.
  - destruct r1; try (injection H as <- <-; exact X). destruct (reconnect s1) as [s2 r2] eqn:E2. pose proof (reconnect_spec _ _ _ E2) as (_ & _ & _ & _ & Y & _).
    destruct r2; [eapply IH; [right; exact Y|exact H]|injection H as <- <-; right; exact Y|injection H as <- <-; right; exact Y].
Qed.
Lemma execute_live : forall c s s' r, sound s -> execute c s = (s', r) -> sound s'.
Proof. intros c s s' r L H. unfold execute, retry in H. destruct (query_count s =? 0); [eapply attempts_live|eapply execute0_live]; eauto. Qed.

(** inside of a transaction nothing is committed, and what was executed is pending *)
Lemma exec_inside : forall p s0 s, inside s0 s -> inside s0 (fst (exec p s)) /\ no_commit (fst (exec p s)) = no_commit s.
Proof.
  induction p as [|c| |p IHp q IHq|p IHp q IHq|p IH]; intros s0 s H; cbn [exec].
  - auto.
  - destruct (execute c s) as [s1 r] eqn:E. destruct H as [H1 H2 H3 H4 H5 H6]. pose proof (execute_live _ _ _ _ H6 E) as L6.
    assert (Hp : query_count s = 0 -> pending s = []) by (intro F; rewrite F in H3; destruct (pending s); [reflexivity|discriminate]).
    destruct (execute_spec _ _ _ _ Hp E) as [[_ A]|[_ A]]; unfold added, same in A; destruct A as (A1 & A2 & A3 & A4 & A5 & A6 & A7); cbn [fst]; (split; [|exact A2]); constructor; try congruence; try exact L6.
    + rewrite A3, A5, app_length, H3. cbn. lia.
    + rewrite A6, A5, H4, app_assoc. reflexivity.
  - auto.
  - destruct (IHp s0 s H) as [A B]. destruct (exec p s) as [s1 [|]]; cbn [fst] in *; [auto|]. destruct (IHq s0 s1 A) as [C D]. split; [exact C|congruence].
  - destruct (IHp s0 s H) as [A B]. destruct (exec p s) as [s1 [|]]; cbn [fst] in *; [|auto]. destruct (IHq s0 s1 A) as [C D]. split; [exact C|congruence].
  - rewrite (begin_inner s (n_cursor _ _ H)). set (s1 := set_tx true (S (no_commit s)) (query_count s) s). assert (H' : inside s0 s1) by (destruct H; constructor; auto).
    destruct (IH s0 s1 H') as [A B]. destruct (exec p s1) as [s2 b]. cbn [fst] in *. change (no_commit s1) with (S (no_commit s)) in B.
    assert (C : forall s3, inside s0 s3 -> no_commit s3 = S (no_commit s) -> inside s0 (close s3) /\ no_commit (close s3) = no_commit s).
    { intros s3 H3 N3. unfold close. rewrite N3. split; [destruct H3; constructor; assumption|reflexivity]. }
    assert (Rb : rollback s2 = s2) by (unfold rollback; rewrite B; reflexivity).
    destruct b; cbn [fst]; [rewrite Rb; apply C; assumption|]. unfold commit. rewrite B. cbn [Nat.eqb fst]. apply C; assumption.
Qed.

(** C93: nothing, or all that was executed, in that order *)
Theorem c93_atomic : forall p s, idle s -> let (s', raised) := exec (Method p) s in idle s' /\
  exists done, log s' = log s ++ done /\ committed s' = committed s ++ (if raised then [] else done).
Proof.
  intros p s (C & N & Q & Pe). cbn [exec]. unfold begin_, retry. rewrite Q. cbn [Nat.eqb]. destruct (attempts 2 begin0 s) as [s1 r] eqn:E.
  destruct (begin_outer 2 s s1 r C N Pe E) as (X1 & X2 & X3 & X4 & X5 & X6 & X7).
  (** an exception *)
  assert (Ab : forall s2, no_commit s2 = 0 -> (live s2 = true \/ pending s2 = []) -> (cursor s2 = true \/ query_count s2 = 0) -> idle (close (rollback s2)) /\ log (close (rollback s2)) = log s2 /\ committed (close (rollback s2)) = committed s2).
  { intros s2 N2 L2 C2. unfold rollback. rewrite N2. cbn [Nat.eqb andb]. assert (Z : exists s3, (if live s2 then set_db (committed s2) [] true s2 else s2) = s3 /\ no_commit s3 = 0 /\ pending s3 = [] /\ (cursor s3 = true \/ query_count s3 = 0) /\ log s3 = log s2 /\ committed s3 = committed s2).
    { eexists. split; [reflexivity|]. destruct (live s2); repeat split; auto. destruct L2; [discriminate|assumption]. }
    destruct Z as (s3 & -> & N3 & P3 & C3 & L3 & D3). unfold close. rewrite N3. destruct (cursor s3) eqn:C4; [cbn; repeat split; assumption|]. destruct C3 as [|C3]; [discriminate|]. repeat split; assumption. }
  assert (Fa : forall s2 (done : list nat), no_commit s2 = 0 -> (live s2 = true \/ pending s2 = []) -> (cursor s2 = true \/ query_count s2 = 0) -> log s2 = log s ++ done -> committed s2 = committed s ->
    idle (close (rollback s2)) /\ exists done, log (close (rollback s2)) = log s ++ done /\ committed (close (rollback s2)) = committed s ++ []).
  { intros s2 done N2 L2 C2 G2 D2. destruct (Ab s2 N2 L2 C2) as (A & B & D). split; [exact A|]. exists done. rewrite app_nil_r. split; congruence. }
  destruct r.
  2: { apply (Fa s1 []); [exact X1|right; exact X4|right; congruence|rewrite app_nil_r; exact X5|exact X3]. }
  2: { apply (Fa s1 []); [exact X1|right; exact X4|right; congruence|rewrite app_nil_r; exact X5|exact X3]. }
  assert (H : inside s1 s1) by (constructor; auto; [rewrite X2, Q, X4; reflexivity|rewrite X4, app_nil_r; reflexivity]).
  destruct (exec_inside p s1 s1 H) as [A B]. destruct (exec p s1) as [s2 b]. cbn [fst] in *. rewrite X1 in B. destruct A as [A1 A2 A3 A4 A5 A6].
  rewrite X5 in A4. rewrite X3 in A2.
  destruct b; [exact (Fa s2 (pending s2) B A6 (or_introl A1) A4 A2)|]. unfold commit. rewrite B. cbn [Nat.eqb]. destruct (call s2) as [s3 r3] eqn:E3.
  assert (L3 : live s3 = live s2) by (unfold call in E3; injection E3 as <- _; reflexivity).
  pose proof (call_spec _ _ _ E3) as (Y1 & Y2 & Y3 & Y4 & Y5 & Y6 & Y7). destruct r3; cbn [is_done].
  - unfold close. cbn [no_commit cursor set_db]. rewrite Y2, B, Y1, A1. cbn [set_tx]. split; [repeat split|]. exists (pending s2). cbn [log committed set_tx set_db]. split; congruence.
  - apply (Fa s3 (pending s2)); [congruence|rewrite L3, Y5; exact A6|left; congruence|congruence|congruence].
  - apply (Fa s3 (pending s2)); [congruence|rewrite L3, Y5; exact A6|left; congruence|congruence|congruence].
Qed.

(** no exception: every command of the method that was not caught was executed *)
Fixpoint straight (p : prog) : option (list nat) :=
  match p with
  | Skip => Some [] | Execute c => Some [c] | Fail => None | Catch _ _ => None | Method p => straight p
  | Seq p q => match straight p, straight q with Some a, Some b => Some (a ++ b) | _, _ => None end
  end.
Lemma exec_straight : forall p l s0 s, straight p = Some l -> inside s0 s -> snd (exec p s) = false -> log (fst (exec p s)) = log s ++ l.
Proof.
  induction p as [|c| |p IHp q IHq|p IHp q IHq|p IH]; intros l s0 s Hl H F; cbn [straight exec] in *; try discriminate.
  - injection Hl as <-. rewrite app_nil_r. reflexivity.
  - injection Hl as <-. destruct (execute c s) as [s1 r] eqn:E. cbn [fst snd] in *. destruct H as [H1 H2 H3 H4 H5 H6].
    assert (Hp : query_count s = 0 -> pending s = []) by (intro G; rewrite G in H3; destruct (pending s); [reflexivity|discriminate]).
    destruct (execute_spec _ _ _ _ Hp E) as [[_ A]|[A _]]; [destruct A as (_ & _ & _ & _ & _ & A & _); exact A|destruct r; [congruence|discriminate|discriminate]].
  - destruct (straight p) as [a|]; [|discriminate]. destruct (straight q) as [b|]; [|discriminate]. injection Hl as <-.
    destruct (exec_inside p s0 s H) as [A _]. specialize (IHp a s0 s eq_refl H). destruct (exec p s) as [s1 [|]]; cbn [fst snd] in *; [discriminate|].
    rewrite (IHq b s0 s1 eq_refl A F), IHp, app_assoc by reflexivity. reflexivity.
  - rewrite (begin_inner s (n_cursor _ _ H)) in *. set (s1 := set_tx true (S (no_commit s)) (query_count s) s) in *. assert (H' : inside s0 s1) by (destruct H; constructor; auto).
    destruct (exec_inside p s0 s1 H') as [A B]. specialize (IH l s0 s1 Hl H'). destruct (exec p s1) as [s2 [|]]; cbn [fst snd] in *; [discriminate|].
    change (no_commit s1) with (S (no_commit s)) in B. unfold commit. rewrite B. cbn [Nat.eqb fst]. unfold close. rewrite B. cbn [log set_tx]. apply IH. reflexivity.
Qed.
(** C93: a method without an exception commits exactly its commands, each of them once although the connection may have been replaced and a
    command sent again *)
Theorem c93_exactly_once : forall p l s, idle s -> straight p = Some l -> snd (exec (Method p) s) = false -> committed (fst (exec (Method p) s)) = committed s ++ l.
Proof.
  intros p l s Hi Hl F. pose proof (c93_atomic p s Hi) as X. destruct Hi as (C & N & Q & Pe). cbn [exec] in *. unfold begin_, retry in *. rewrite Q in *. cbn [Nat.eqb] in *.
  destruct (attempts 2 begin0 s) as [s1 r] eqn:E. destruct (begin_outer 2 s s1 r C N Pe E) as (X1 & X2 & X3 & X4 & X5 & X6 & X7). destruct r; try discriminate.
  assert (H : inside s1 s1) by (constructor; auto; [rewrite X2, Q, X4; reflexivity|rewrite X4, app_nil_r; reflexivity]).
  destruct (exec_inside p s1 s1 H) as [_ B]. pose proof (exec_straight p l s1 s1 Hl H) as G. destruct (exec p s1) as [s2 [|]]; cbn [fst snd] in *; [discriminate|]. rewrite X1 in B.
  specialize (G eq_refl). unfold commit in *. rewrite B in *. cbn [Nat.eqb] in *. destruct (call s2) as [s3 r3] eqn:E3. pose proof (call_spec _ _ _ E3) as (Y1 & Y2 & Y3 & Y4 & Y5 & Y6 & Y7).
  destruct r3; cbn [is_done fst snd] in *; try discriminate. destruct X as (_ & done & D1 & ->). f_equal. apply (app_inv_head (log s)). rewrite <- D1.
  unfold close. cbn [no_commit cursor set_db]. rewrite Y2, B. destruct (cursor s3); cbn [log set_tx set_db]; congruence.
Qed.

(** A run: the cursor is opened; the first command fails with OperationalError, the connection is replaced (open, cursor), the command is sent
    again, a nested method executes another, commit *)
Definition fresh (o : list res) : st := mkT false 0 0 [7] [] true [] (fun n => nth n o Done) 0.
Example c93_ex : let (s, r) := exec (Method (Seq (Execute 1) (Method (Execute 2)))) (fresh [Done; Operational; Done; Done; Done; Done; Done]) in
  r = false /\ committed s = [7; 1; 2] /\ idle s /\ pos s = 7.
Proof. vm_compute. repeat split. Qed.
(** the second command fails: nothing remains of the first *)
Example c93_ex2 : let (s, r) := exec (Method (Seq (Execute 1) (Execute 2))) (fresh [Done; Done; Operational]) in
  r = true /\ committed s = [7] /\ log s = [1] /\ idle s.
Proof. vm_compute. repeat split. Qed.
(** and a nested method is not a transaction of its own: if the outer method catches its exception the part that was executed is committed *)
Theorem c93_nested_refuted : exists p q s s', idle s /\ exec (Method (Catch (Method p) q)) s = (s', false) /\ snd (exec (Method p) s) = true /\
  committed s' <> committed s /\ straight q = Some [].
Proof.
  exists (Seq (Execute 1) Fail), Skip, (fresh []). eexists. split; [repeat split|]. split; [reflexivity|]. split; [reflexivity|]. split; [discriminate|reflexivity].
Qed.
Print Assumptions c93_atomic.
Print Assumptions c93_exactly_once.
Print Assumptions c93_nested_refuted.
