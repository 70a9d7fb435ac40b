(** Proofs for C72-C78: receiving a message, for every way its bytes arrive. *)
From Verif Require Import Py Num UriModel UriRel HttpModel HttpSpec HttpProofs HttpLex HttpParamModel HttpParamSpec
  HttpProps HttpParamProofs HttpParamMain MsgModel MsgSpec MsgLex MsgHead.

(** ** steps *)
Definition bytes_of (buf inn : list str) : str := concat buf ++ concat inn.
Notation wf := packets_ok.
Inductive steps : conn -> conn -> Prop :=
| st_refl : forall c, steps c c
| st_step : forall c c' c'', conn_step c = Next c' -> steps c' c'' -> steps c c''.
Lemma steps_trans : forall a b c, steps a b -> steps b c -> steps a c.
Proof. induction 1 as [|x y z E H IH]; intros K; [exact K|]. eapply st_step; [exact E|apply IH; exact K]. Qed.
Lemma steps_one : forall a b, conn_step a = Next b -> steps a b.
Proof. intros a b E. eapply st_step; [exact E|apply st_refl]. Qed.
Lemma wf_app : forall a b, wf a -> wf b -> wf (a ++ b).
Proof. intros a b. apply Forall_app_2 || (unfold packets_ok; rewrite Forall_app; tauto). Qed.
Lemma wf_rebuffer : forall s, wf (rebuffer s).
Proof. intros [|c s]; constructor; [discriminate|constructor]. Qed.
Lemma concat_rebuffer : forall s, concat (rebuffer s) = s.
Proof. intros [|c s]; [reflexivity|]. cbn [rebuffer concat]. apply app_nil_r. Qed.

Lemma app_len_inj : forall (a b c d : str), a ++ b = c ++ d -> length a = length c -> a = c /\ b = d.
Proof.
  induction a as [|x a IH]; intros b [|y c] d E L; try discriminate; [split; [reflexivity|exact E]|]. cbn in E. inversion E; subst.
  destruct (IH b c d) as [-> ->]; [assumption|cbn in L; lia|]. split; reflexivity.
Qed.
Lemma is_prefix_more : forall p s t, is_prefix p s = true -> is_prefix p (s ++ t) = true.
Proof.
  induction p as [|c p IH]; intros s t H; [reflexivity|]. destruct s as [|d s]; [discriminate|]. cbn [app is_prefix] in *.
  apply andb_true_iff in H as [H1 H2]. rewrite H1. exact (IH s t H2).
Qed.
Lemma is_prefix_less : forall p s t, is_prefix p (s ++ t) = true -> (length p <= length s)%nat -> is_prefix p s = true.
Proof.
  induction p as [|c p IH]; intros s t H L; [reflexivity|]. destruct s as [|d s]; [cbn in L; lia|]. cbn [app is_prefix length] in *.
  apply andb_true_iff in H as [H1 H2]. rewrite H1. apply (IH s t H2). lia.
Qed.
Lemma is_prefix_len : forall p s, is_prefix p s = true -> (length p <= length s)%nat.
Proof.
  induction p as [|c p IH]; intros s H; [cbn; lia|]. destruct s as [|d s]; [discriminate|]. cbn [is_prefix length] in *.
  apply andb_true_iff in H as [_ H]. apply IH in H. lia.
Qed.
Lemma find_len : forall p s i, find p s = Some i -> (i + length p <= length s)%nat.
Proof.
  intros p s. induction s as [|c s IH]; intros i H; cbn [find] in H.
  - destruct (is_prefix p []) eqn:E; [|discriminate]. inversion H; subst. apply is_prefix_len in E. cbn in *. lia.
  - destruct (is_prefix p (c :: s)) eqn:E; [inversion H; subst; apply is_prefix_len in E; cbn in *; lia|].
    destruct (find p s) as [j|]; [|discriminate]. inversion H; subst. specialize (IH j eq_refl). cbn. lia.
Qed.
Lemma find_more : forall p s t i, find p s = Some i -> find p (s ++ t) = Some i.
Proof.
  intros p s t. induction s as [|c s IH]; intros i H.
  - pose proof (find_len p [] i H) as L. cbn in L. destruct p as [|x p]; [|cbn in L; lia]. cbn in H. inversion H. destruct t; reflexivity.
  - pose proof (find_len p (c :: s) i H) as L. cbn [find app] in *.
    destruct (is_prefix p (c :: s)) eqn:E.
    + inversion H; subst. change (c :: s ++ t) with ((c :: s) ++ t). rewrite (is_prefix_more _ _ _ E). reflexivity.
    + destruct (find p s) as [j|] eqn:F; [|discriminate]. inversion H; subst.
      assert (E2 : is_prefix p (c :: s ++ t) = false).
      { apply not_true_iff_false. intros X. change (c :: s ++ t) with ((c :: s) ++ t) in X. apply is_prefix_less in X; [congruence|].
        cbn [length] in *. lia. }
      rewrite E2, (IH j eq_refl). reflexivity.
Qed.

(** ** a line *)
Lemma line_phase : forall m l rest m', recv_mode m = Some RECV_LINE -> no_crlf l -> recv m (ILine (line l)) = Ok m' ->
  forall inn buf, wf inn -> wf buf -> bytes_of buf inn = line l ++ rest ->
  exists buf' inn', wf inn' /\ wf buf' /\ bytes_of buf' inn' = rest /\
    steps (mkC m buf inn false) (mkC (finished m') buf' inn' false).
Proof.
  intros m l rest m' M N R. induction inn as [|p inn IH]; intros buf Wi Wb E.
  - unfold bytes_of in E. cbn [concat] in E. rewrite app_nil_r in E.
    exists (rebuffer rest), []. split; [exact Wi|]. split; [apply wf_rebuffer|]. split; [unfold bytes_of; cbn [concat]; rewrite app_nil_r; apply concat_rebuffer|].
    apply steps_one. unfold conn_step. cbn [c_recv c_msg c_buf]. rewrite M. change (RECV_LINE =? RECV_HEADERS) with false. change (RECV_LINE =? RECV_LINE) with true.
    cbv iota zeta. rewrite E. unfold line. rewrite <- app_assoc, find_crlf by exact N.
    unfold give. cbn [c_msg c_in].
    assert (A : l ++ CRLF ++ rest = line l ++ rest) by (unfold line; rewrite <- app_assoc; reflexivity).
    assert (L : (length l + 2)%nat = length (line l)) by (unfold line; rewrite app_length; reflexivity).
    rewrite A, L. rewrite firstn_app, Nat.sub_diag, firstn_all, skipn_app, Nat.sub_diag, skipn_all. cbn [firstn skipn app]. rewrite app_nil_r, R. reflexivity.
  - destruct (find CRLF (concat buf)) as [i|] eqn:F.
    + assert (i = length l).
      { pose proof (find_more _ _ (concat (p :: inn)) _ F) as X. unfold bytes_of in E. rewrite E in X. unfold line in X. rewrite <- app_assoc, find_crlf in X by exact N. congruence. }
      subst i. apply find_crlf_some in F as (l' & x & Ec & N' & Ll).
      assert (l' = l /\ x ++ concat (p :: inn) = rest) as [-> Er].
      { unfold bytes_of in E. rewrite Ec in E. unfold line in E. rewrite <- !app_assoc in E. apply app_len_inj in E; [|exact Ll].
        destruct E as [-> E]. split; [reflexivity|]. cbn [app CRLF] in E. inversion E. reflexivity. }
      exists (rebuffer x), (p :: inn). split; [exact Wi|]. split; [apply wf_rebuffer|]. split; [unfold bytes_of; rewrite concat_rebuffer; exact Er|].
      apply steps_one. unfold conn_step. cbn [c_recv c_msg c_buf]. rewrite M. change (RECV_LINE =? RECV_HEADERS) with false. change (RECV_LINE =? RECV_LINE) with true.
      cbv iota zeta. rewrite Ec, find_crlf by exact N.
      unfold give. cbn [c_msg c_in].
      assert (A : l ++ CRLF ++ x = line l ++ x) by (unfold line; rewrite <- app_assoc; reflexivity).
      assert (L : (length l + 2)%nat = length (line l)) by (unfold line; rewrite app_length; reflexivity).
      rewrite A, L. rewrite firstn_app, Nat.sub_diag, firstn_all, skipn_app, Nat.sub_diag, skipn_all. cbn [firstn skipn app]. rewrite app_nil_r, R. reflexivity.
    + inversion Wi; subst. destruct (IH (buf ++ [p])) as (buf' & inn' & W1 & W2 & B & S'); [assumption|apply wf_app; [exact Wb|constructor; [assumption|constructor]]| |].
      { rewrite <- E. unfold bytes_of. rewrite concat_app. cbn [concat]. rewrite app_nil_r, <- app_assoc. reflexivity. }
      exists buf', inn'. split; [exact W1|]. split; [exact W2|]. split; [exact B|].
      eapply st_step; [|eapply st_step; [|exact S']].
      * unfold conn_step. cbn [c_recv c_msg c_buf]. rewrite M. change (RECV_LINE =? RECV_HEADERS) with false. change (RECV_LINE =? RECV_LINE) with true.
        cbv iota zeta. rewrite F. reflexivity.
      * reflexivity.
Qed.

(** ** a block of lines *)
Definition block (ls : list str) : str := concat (map line ls) ++ CRLF.
Lemma headers_now : forall m ls x m' buf inn, recv_mode m = Some RECV_HEADERS -> Forall (fun l => l <> [] /\ no_crlf l) ls ->
  recv m (ILines (map line ls ++ [CRLF])) = Ok m' -> concat buf = block ls ++ x ->
  conn_step (mkC m buf inn false) = Next (mkC (finished m') (rebuffer x) inn false).
Proof.
  intros m ls x m' buf inn M F R E. unfold conn_step. cbn [c_recv c_msg c_buf]. rewrite M. change (RECV_HEADERS =? RECV_HEADERS) with true.
  cbv iota zeta. rewrite E. unfold give. cbn [c_msg c_in]. destruct ls as [|l ls].
  - unfold block. cbn [map concat app find is_prefix]. change (is_prefix CRLF (13 :: 10 :: x)) with true. cbv iota. cbn [map app] in R. rewrite R. reflexivity.
  - set (t := concat (map line (l :: ls))).
    assert (T : block (l :: ls) ++ x = t ++ CRLF ++ x) by (unfold block, t; rewrite <- app_assoc; reflexivity). rewrite T.
    assert (L2 : (2 <= length t)%nat).
    { unfold t. cbn [map concat]. unfold line at 1. rewrite !app_length. change (length CRLF) with 2%nat. lia. }
    assert (A : exists k, find CRLF (t ++ CRLF ++ x) = Some (S k)).
    { inversion F as [|? ? [Hn N] F']; subst. unfold t. cbn [map concat]. unfold line at 1. rewrite <- !app_assoc, find_crlf by exact N.
      destruct l; [congruence|]. exists (length l). reflexivity. }
    destruct A as (k & ->). unfold t. rewrite find2_lines by (assumption || discriminate). fold t.
    replace (length t - 2 + 2)%nat with (length t) by lia. replace (length t - 2 + 4)%nat with (length (t ++ CRLF)) by (rewrite app_length; change (length CRLF) with 2%nat; lia).
    rewrite firstn_app, Nat.sub_diag, firstn_all. cbn [firstn]. rewrite app_nil_r.
    rewrite app_assoc, skipn_app, Nat.sub_diag, skipn_all. cbn [skipn app].
    unfold t. rewrite split_lines by (eapply Forall_impl; [|exact F]; intros ? [_ ?]; assumption).
    rewrite map_app.
    match goal with |- context [recv m (ILines ?y)] => change y with (map line (l :: ls) ++ [CRLF]) end.
    rewrite R. reflexivity.
Qed.
Lemma headers_find : forall ls x, Forall (fun l => l <> [] /\ no_crlf l) ls -> ls <> [] ->
  find (CRLF ++ CRLF) (block ls ++ x) = Some (length (concat (map line ls)) - 2)%nat.
Proof. intros ls x F H. unfold block. rewrite <- app_assoc. apply find2_lines; assumption. Qed.
Lemma headers_first : forall l ls x, Forall (fun l => l <> [] /\ no_crlf l) (l :: ls) -> find CRLF (block (l :: ls) ++ x) = Some (length l).
Proof. intros l ls x F. inversion F as [|? ? [Hn N] F']; subst. unfold block. cbn [map concat]. unfold line at 1. rewrite <- !app_assoc. apply find_crlf. exact N. Qed.
Lemma prefix_split : forall (a b c d : str), a ++ b = c ++ d -> (length c <= length a)%nat -> exists x, a = c ++ x /\ d = x ++ b.
Proof.
  induction a as [|y a IH]; intros b c d E L.
  - destruct c; [|cbn in L; lia]. exists []. split; [reflexivity|]. symmetry. exact E.
  - destruct c as [|z c]; [exists (y :: a); split; [reflexivity|symmetry; exact E]|]. cbn in E. inversion E; subst. cbn in L.
    destruct (IH b c d H1) as (x & -> & ->); [lia|]. exists x. split; reflexivity.
Qed.
Lemma block_len : forall ls, ls <> [] -> (length (block ls) = length (concat (map line ls)) - 2 + 4)%nat.
Proof.
  intros [|l ls] H; [congruence|]. unfold block. rewrite app_length. change (length CRLF) with 2%nat.
  assert (2 <= length (concat (map line (l :: ls))))%nat.
  { cbn [map concat]. unfold line at 1. rewrite !app_length. change (length CRLF) with 2%nat. lia. }
  lia.
Qed.
Lemma headers_phase : forall m ls rest m', recv_mode m = Some RECV_HEADERS -> Forall (fun l => l <> [] /\ no_crlf l) ls ->
  recv m (ILines (map line ls ++ [CRLF])) = Ok m' ->
  forall inn buf, wf inn -> wf buf -> bytes_of buf inn = block ls ++ rest ->
  exists buf' inn', wf inn' /\ wf buf' /\ bytes_of buf' inn' = rest /\
    steps (mkC m buf inn false) (mkC (finished m') buf' inn' false).
Proof.
  intros m ls rest m' M F R. induction inn as [|p inn IH]; intros buf Wi Wb E.
  - unfold bytes_of in E. cbn [concat] in E. rewrite app_nil_r in E.
    exists (rebuffer rest), []. split; [exact Wi|]. split; [apply wf_rebuffer|]. split; [unfold bytes_of; cbn [concat]; rewrite app_nil_r; apply concat_rebuffer|].
    apply steps_one. eapply headers_now; eassumption.
  - destruct (le_lt_dec (length (block ls)) (length (concat buf))) as [L|L].
    + unfold bytes_of in E. destruct (prefix_split _ _ _ _ E L) as (x & Ec & Er).
      exists (rebuffer x), (p :: inn). split; [exact Wi|]. split; [apply wf_rebuffer|]. split; [unfold bytes_of; rewrite concat_rebuffer; symmetry; exact Er|].
      apply steps_one. eapply headers_now; eassumption.
    + inversion Wi; subst. destruct (IH (buf ++ [p])) as (buf' & inn' & W1 & W2 & B & S'); [assumption|apply wf_app; [exact Wb|constructor; [assumption|constructor]]| |].
      { rewrite <- E. unfold bytes_of. rewrite concat_app. cbn [concat]. rewrite app_nil_r, <- app_assoc. reflexivity. }
      exists buf', inn'. split; [exact W1|]. split; [exact W2|]. split; [exact B|].
      eapply (st_step _ (mkC m buf (p :: inn) true)); [|eapply st_step; [reflexivity|exact S']].
      unfold conn_step. cbn [c_recv c_msg c_buf]. rewrite M. change (RECV_HEADERS =? RECV_HEADERS) with true. cbv iota zeta.
      destruct (find CRLF (concat buf)) as [i|] eqn:F1; [|reflexivity].
      pose proof (find_len _ _ _ F1) as L1. change (length CRLF) with 2%nat in L1.
      apply (find_more _ _ (concat (p :: inn))) in F1. unfold bytes_of in E. rewrite E in F1.
      destruct ls as [|l ls].
      * unfold block in F1, L. cbn [map concat app] in F1, L. change (length CRLF) with 2%nat in L. lia.
      * rewrite headers_first in F1 by exact F. inversion F1; subst i. inversion F as [|? ? [Hn N] F']; subst.
        destruct (length l) as [|k] eqn:Ll; [destruct l; [congruence|discriminate]|].
        destruct (find (CRLF ++ CRLF) (concat buf)) as [i|] eqn:F2; [|reflexivity].
        pose proof (find_len _ _ _ F2) as L3. change (length (CRLF ++ CRLF)) with 4%nat in L3.
        apply (find_more _ _ (concat (p :: inn))) in F2. rewrite E, headers_find in F2 by (assumption || discriminate). rewrite block_len in L by discriminate.
        assert (Q : (i = length (concat (map line (l :: ls))) - 2)%nat) by congruence. rewrite <- Q in L. lia.
Qed.
