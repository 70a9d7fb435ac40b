(** Invariants of the Pipe model. *)
From Verif Require Import Py PipeModel PipeSpec.

Lemma skipn_skipn {A} : forall x y (l : list A), skipn x (skipn y l) = skipn (x + y) l.
Proof.
  intros x y; induction y as [|y IH]; intros l.
  - rewrite skipn_O, Nat.add_0_r. reflexivity.
  - destruct l; [rewrite !skipn_nil; reflexivity|]. rewrite Nat.add_succ_r. cbn. apply IH.
Qed.

Definition wf (p : pipe) : Prop :=
  match p_buf p with
  | nil => p_rpos p = O
  | b0 :: _ => (p_rpos p < length b0)%nat \/ p_rpos p = O
  end
  /\ Z.of_nat (length (concat (p_buf p))) <= p_bsize p
  /\ (p_closed p = true -> p_eof p = true).

Definition same_cfg (p q : pipe) : Prop := p_max q = p_max p /\ p_tmo q = p_tmo p.

Lemma wf_rpos p : wf p -> match p_buf p with nil => p_rpos p = O | b0 :: _ => (p_rpos p <= length b0)%nat end.
Proof. intros (H & _). destruct (p_buf p); lia. Qed.

Lemma unread_cons p b0 r : wf p -> p_buf p = b0 :: r ->
  unread p = skipn (p_rpos p) b0 ++ concat r.
Proof.
  intros W E. unfold unread. rewrite E. cbn [concat]. rewrite skipn_app.
  pose proof (wf_rpos p W) as H. rewrite E in H.
  replace (p_rpos p - length b0)%nat with O by lia. reflexivity.
Qed.

(** generic facts about one body run *)
Definition good (p : pipe) (o : out) : Prop :=
  wf (o_pipe o) /\ same_cfg p (o_pipe o) /\
  unread p ++ o_acc o = o_take o ++ unread (o_pipe o) /\
  (p_eof p = true -> p_eof (o_pipe o) = true /\ o_acc o = nil) /\
  p_closed (o_pipe o) = p_closed p /\
  (p_buf p = nil -> p_eof p = true -> p_buf (o_pipe o) = nil).

Ltac g0 := unfold good, same_cfg; cbn [o_pipe o_acc o_take o_notify o_fin];
           rewrite ?app_nil_r; psplit; auto.

Lemma good_id p n f : wf p -> good p (mkOut p n nil nil f).
Proof. intros W. g0. Qed.

(* flag and counter changes are invisible *)
Definition sim (p q : pipe) : Prop :=
  p_buf q = p_buf p /\ p_bsize q = p_bsize p /\ p_rpos q = p_rpos p /\ p_eof q = p_eof p /\
  p_closed q = p_closed p /\ p_max q = p_max p /\ p_tmo q = p_tmo p.
Lemma sim_flag_set p : sim p (flag_set p).
Proof. unfold flag_set. destruct (p_rflag p); repeat split. Qed.
Lemma sim_flag_clear p : sim p (flag_clear p).
Proof. unfold flag_clear. destruct (p_rflag p); repeat split. Qed.
Lemma sim_inc_r p : sim p (inc_rstate p).
Proof. repeat split. Qed.
Lemma sim_inc_w p : sim p (inc_wstate p).
Proof. repeat split. Qed.
Lemma sim_rbl p b : sim p (set_rbl p b).
Proof. repeat split. Qed.
Lemma sim_wbl p b : sim p (set_wbl p b).
Proof. repeat split. Qed.
Lemma sim_flag p b : sim p (set_flag p b).
Proof. repeat split. Qed.
Lemma sim_refl p : sim p p.
Proof. repeat split. Qed.
Lemma sim_trans p q r : sim p q -> sim q r -> sim p r.
Proof. unfold sim; intuition congruence. Qed.
Lemma sim_unread p q : sim p q -> unread q = unread p.
Proof. unfold sim, unread. intros (-> & _ & -> & _). reflexivity. Qed.
Lemma sim_wf p q : sim p q -> wf p -> wf q.
Proof. unfold sim, wf. intros (-> & -> & -> & -> & -> & _). auto. Qed.
Lemma sim_wlen p q : sim p q -> wlen q = wlen p.
Proof. unfold sim, wlen. intros (_ & -> & -> & _ & _ & -> & _). reflexivity. Qed.
Lemma sim_good_id p q n f : sim p q -> wf p -> good p (mkOut q n nil nil f).
Proof.
  intros S W. pose proof (sim_wf _ _ S W). pose proof (sim_unread _ _ S) as U.
  destruct S as (Sb & Ss & Sr & Se & Sc & Sm & St).
  g0; try congruence. intros; split; congruence.
Qed.
Lemma good_sim_post p q o : sim (o_pipe o) q -> good p o ->
  good p (mkOut q (o_notify o) (o_acc o) (o_take o) (o_fin o)).
Proof.
  intros S (W & (M & T) & U & E & C & B).
  pose proof (sim_wf _ _ S W). pose proof (sim_unread _ _ S) as Uq.
  destruct S as (Sb & Ss & Sr & Se & Sc & Sm & St).
  g0; try congruence. intros H1; destruct (E H1); split; congruence.
  intros; rewrite Sb; auto.
Qed.
Lemma good_sim_pre p q o : sim p q -> wf p -> good q o -> good p o.
Proof.
  intros S Wp (W & (M & T) & U & E & C & B).
  pose proof (sim_unread _ _ S) as Uq.
  destruct S as (Sb & Ss & Sr & Se & Sc & Sm & St).
  g0; try congruence. intros H1; rewrite <- Se in H1; auto.
  intros; apply B; congruence.
Qed.

Lemma concat_snoc (b : list str) x : concat (b ++ [x]) = concat b ++ x.
Proof. rewrite concat_app. cbn. rewrite app_nil_r. reflexivity. Qed.

Lemma wf_rpos_concat p : wf p -> (p_rpos p <= length (concat (p_buf p)))%nat.
Proof.
  intros W. pose proof (wf_rpos p W) as H. destruct (p_buf p) as [|b0 r]; [lia|].
  cbn [concat]. rewrite app_length. lia.
Qed.

Lemma good_append p b n f :
  wf p -> p_eof p = false -> n = Z.of_nat (length b) ->
  good p (mkOut (inc_wstate (set_buf p (p_buf p ++ [b]) (p_bsize p + n) (p_rpos p)))
                true b nil f).
Proof.
  intros W E ->. pose proof (wf_rpos_concat p W) as R. destruct W as (W1 & W2 & W3).
  g0; try congruence.
  - unfold wf; cbn. psplit.
    + destruct (p_buf p) as [|b0 r]; cbn; [right; exact W1 | exact W1].
    + rewrite concat_snoc, app_length. lia.
    + exact W3.
  - unfold unread; cbn. rewrite concat_snoc, skipn_app.
    replace (p_rpos p - length (concat (p_buf p)))%nat with O by lia. reflexivity.
Qed.

Lemma write_good p d x : wf p -> good p (write_body p d x).
Proof.
  intros W. unfold write_body.
  destruct (p_closed p || p_eof p) eqn:CE; [apply good_id; auto|].
  apply orb_false_iff in CE as [C E].
  destruct (wlen p <=? 0) eqn:L.
  { destr; [destr|]; apply good_id; auto. }
  assert (forall b, good p match b with
        | [] => mkOut p false [] [] (Return (VInt 0))
        | _ :: _ => mkOut (inc_wstate (set_buf p (p_buf p ++ [b]) (p_bsize p + Z.of_nat (length b))
                (p_rpos p))) true b [] (Return (VInt (Z.of_nat (length b))))
        end) as HB.
  { intros [|x0 b]; [apply good_id; auto|]. apply good_append; auto. }
  destruct d; auto.
  - apply good_append; auto. rewrite firstn_length. b2p. destr; b2p; lia.
  - apply good_id; auto.
Qed.

(** taking k bytes from the first chunk *)
Definition take1 (p : pipe) (src : str) (rest : list str) (k : nat) : pipe :=
  if Nat.leb (length src) (p_rpos p + k)
  then set_buf p rest (p_bsize p - Z.of_nat (length src)) 0
  else set_buf p (p_buf p) (p_bsize p) (p_rpos p + k).

Lemma take1_good p src rest k nt f :
  wf p -> p_buf p = src :: rest -> (p_rpos p + k <= length src)%nat ->
  good p (mkOut (take1 p src rest k) nt nil (slice (p_rpos p) (p_rpos p + k) src) f).
Proof.
  intros W B K. pose proof (unread_cons p _ _ W B) as U. destruct W as (W1 & W2 & W3).
  rewrite B in W1, W2. cbn [concat] in W2. rewrite app_length in W2.
  unfold take1. destruct (Nat.leb (length src) (p_rpos p + k)) eqn:L; b2p.
  - g0; try congruence.
    + unfold wf; cbn. psplit; auto; try lia. destruct rest; auto.
    + rewrite U. unfold unread, slice; cbn [p_buf p_rpos set_buf]. rewrite skipn_O.
      rewrite firstn_all2; [reflexivity|]. rewrite skipn_length. lia.
  - g0; try congruence.
    + unfold wf; cbn. rewrite B. psplit; auto; cbn [concat]; rewrite ?app_length; lia.
    + rewrite U. unfold unread, slice; cbn [p_buf p_rpos set_buf]. rewrite B. cbn [concat].
      rewrite skipn_app. replace (p_rpos p + k - length src)%nat with O by lia.
      rewrite skipn_O. rewrite app_assoc. f_equal.
      replace (p_rpos p + k - p_rpos p)%nat with k by lia.
      rewrite <- (firstn_skipn k (skipn (p_rpos p) src)) at 1. f_equal.
      rewrite skipn_skipn. f_equal. lia.
Qed.

Definition rr_pipe (r : rr) : pipe := match r with RGot p _ _ | RNone p | RTimeout p | RWait p => p end.
Definition rr_data (r : rr) : str := match r with RGot _ _ d => d | _ => nil end.
Definition rr_nt (r : rr) : bool := match r with RGot _ nt _ => nt | _ => false end.
Definition rgood (p : pipe) (r : rr) : Prop :=
  forall f, good p (mkOut (rr_pipe r) (rr_nt r) nil (rr_data r) f).

Lemma rgood_sim_pre p q r : sim p q -> wf p -> rgood q r -> rgood p r.
Proof. intros S W H f. eapply good_sim_pre; eauto. Qed.

Lemma readinto_loop_good p n x : wf p -> rgood p (readinto_loop p n x).
Proof.
  intros W f. unfold readinto_loop. destruct (p_buf p) as [|src rest] eqn:B.
  { destr; [|destr; [destr|]]; cbn; apply good_id; auto. }
  pose proof (wf_rpos p W) as R. rewrite B in R.
  set (k := if (length src - p_rpos p <? n)%nat then _ else _).
  assert (p_rpos p + k <= length src)%nat as K by (unfold k; destr; b2p; lia).
  clearbody k. rewrite <- B.
  pose proof (take1_good p src rest k true f W B K) as G1.
  pose proof (take1_good p src rest k false f W B K) as G2.
  fold (take1 p src rest k). destruct (Nat.eqb k 0); cbn [rr_pipe rr_nt rr_data].
  - exact G2.
  - apply (good_sim_post _ (inc_rstate (take1 p src rest k))) in G1; [exact G1|].
    apply sim_inc_r.
Qed.

Lemma readinto_start_good p n x : wf p -> rgood p (readinto_start p n x).
Proof.
  intros W. unfold readinto_start. eapply rgood_sim_pre; [apply sim_flag_set|auto|].
  apply readinto_loop_good. eapply sim_wf; [apply sim_flag_set|auto].
Qed.

Lemma read_start_good p n x : wf p -> rgood p (read_start p n x).
Proof.
  intros W. unfold read_start. destruct (p_buf p) as [|src rest] eqn:B;
    [apply readinto_start_good; auto|].
  destruct (p_rpos p) eqn:R; [|apply readinto_start_good; auto].
  destr; [|apply readinto_start_good; auto].
  intros f. cbn [rr_pipe rr_nt rr_data].
  pose proof (take1_good p src rest (length src) true f W B) as G.
  rewrite R in G. specialize (G ltac:(lia)).
  unfold take1 in G. rewrite R in G. rewrite Nat.leb_refl in G.
  unfold slice in G. cbn [Nat.add] in G. rewrite skipn_O, Nat.sub_0_r, firstn_all in G.
  match type of G with good _ (mkOut ?q _ _ _ _) =>
    apply (good_sim_post _ (flag_set (inc_rstate q))) in G; [exact G|] end.
  eapply sim_trans; [apply sim_inc_r | apply sim_flag_set].
Qed.

Lemma good_trans p q o nt t1 f :
  good p (mkOut q nt nil t1 f) -> good q o ->
  good p (mkOut (o_pipe o) (o_notify o) (o_acc o) (t1 ++ o_take o) (o_fin o)).
Proof.
  intros (W & (M & T) & U & E & C & B) (W' & (M' & T') & U' & E' & C' & B').
  cbn [o_pipe o_acc o_take] in *. rewrite app_nil_r in U. g0; try congruence.
  - rewrite U, <- !app_assoc. f_equal. exact U'.
  - intros H. destruct (E H) as [E1 _]. destruct (E' E1). auto.
  - intros H1 H2. destruct (E H2). auto.
Qed.

Lemma readall_loop_good p0 x save : forall fuel r data nt taken o,
  (forall f, good p0 (mkOut (rr_pipe r) nt nil (taken ++ rr_data r) f)) ->
  readall_loop fuel r data save nt taken x = Some o -> good p0 o.
Proof.
  assert (forall p nt nt' taken f f', good p0 (mkOut p nt nil (taken ++ nil) f) ->
            good p0 (mkOut p nt' nil taken f')) as GG.
  { intros p nt nt' taken f f' G. rewrite app_nil_r in G. exact G. }
  induction fuel as [|fuel IH]; intros r data nt taken o G H;
    destruct r as [p nt' d|p|p|p]; cbn [readall_loop rr_pipe rr_data] in *;
    try (inversion H; subst; clear H; exact (GG _ _ _ _ _ _ (G (Return VNone))));
    destruct d as [|c d]; try discriminate;
    try (inversion H; subst; clear H; exact (GG _ _ _ _ _ _ (G (Return VNone)))).
  apply IH in H; auto. intros f.
  assert (wf p) as W by (destruct (G f) as (W & _); exact W).
  pose proof (read_start_good p default_buffer_size x W f) as G2.
  pose proof (good_trans _ _ _ _ _ _ (G f) G2) as G3. exact G3.
Qed.

Lemma readall_start_good p x o : wf p -> readall_start p x = Some o -> good p o.
Proof.
  intros W. unfold readall_start. apply readall_loop_good. intros f.
  rewrite app_nil_l.
  assert (wf (set_rbl p true)) as W' by (eapply sim_wf; [apply sim_rbl|auto]).
  eapply good_sim_pre; [apply (sim_rbl p true)|auto|].
  exact (read_start_good _ default_buffer_size x W' f).
Qed.

Lemma consolidate_unread p : wf p -> unread (consolidate p) = unread p.
Proof.
  intros W. unfold consolidate. destruct (p_buf p) as [|b0 r] eqn:B; auto.
  rewrite (unread_cons p _ _ W B). unfold unread; cbn [set_buf p_buf p_rpos].
  rewrite skipn_O. cbn [concat]. rewrite app_nil_r. reflexivity.
Qed.
Lemma consolidate_wf p : wf p -> wf (consolidate p).
Proof.
  intros W. unfold consolidate. destruct (p_buf p) as [|b0 r] eqn:B; auto.
  destruct W as (W1 & W2 & W3). rewrite B in *. unfold wf; cbn.
  psplit; auto. cbn in W2. rewrite app_nil_r. rewrite !app_length in *.
  rewrite skipn_length. lia.
Qed.
Lemma consolidate_good p : wf p -> forall nt f, good p (mkOut (consolidate p) nt nil nil f).
Proof.
  intros W nt f. pose proof (consolidate_wf p W). pose proof (consolidate_unread p W) as U.
  g0; unfold consolidate in *; destruct (p_buf p) eqn:B; cbn; auto; try congruence;
    cbn in U; congruence.
Qed.

Lemma slice_len i j (s : str) : (j <= length s)%nat -> length (slice i j s) = (j - i)%nat.
Proof. intros. unfold slice. rewrite firstn_length, skipn_length. lia. Qed.

Lemma readmatch_found_good p m pos src rest :
  wf p -> p_buf p = src :: rest -> (p_rpos p <= pos)%nat -> (pos + length m <= length src)%nat ->
  good p (readmatch_found p m pos).
Proof.
  intros W B P L. unfold readmatch_found. rewrite B at 1. cbv zeta.
  pose proof (slice_len (p_rpos p) (pos + length m) src L) as SL. rewrite SL.
  pose proof (take1_good p src rest (pos + length m - p_rpos p) true
     (Return (VData (slice (p_rpos p) (pos + length m) src))) W B ltac:(lia)) as G.
  replace (p_rpos p + (pos + length m - p_rpos p))%nat with (pos + length m)%nat in G by lia.
  match type of G with good _ (mkOut ?q _ _ _ _) =>
    apply (good_sim_post _ (flag_set (inc_rstate q))) in G;
    [| eapply sim_trans; [apply sim_inc_r | apply sim_flag_set]] end.
  exact G.
Qed.

Lemma canwrite_sim p : sim p (fst (canwrite p)).
Proof.
  unfold canwrite. destr; [|destr]; cbn; [apply sim_refl|apply sim_flag_clear|apply sim_refl].
Qed.

Lemma readmatch_nomatch_good p m : wf p -> good p (readmatch_nomatch p m).
Proof.
  intros W. unfold readmatch_nomatch. destr; [apply good_id; auto|].
  pose proof (canwrite_sim p) as S. destruct (canwrite p) as [p' [n|]]; cbn in S.
  - destr; [apply sim_good_id; auto|]. cbv zeta.
    assert (sim p (flag_set p')) by (eapply sim_trans; [exact S|apply sim_flag_set]).
    destr; apply sim_good_id; auto.
  - apply sim_good_id; auto.
Qed.

(** bytes.find *)
Lemma prefixb_spec m s : prefixb m s = true <-> exists r, s = m ++ r.
Proof.
  revert s; induction m as [|x m IH]; intros s; cbn.
  - split; eauto.
  - destruct s as [|y s]; cbn.
    + split; [discriminate|]. intros (r & H); discriminate.
    + rewrite andb_true_iff, IH, Z.eqb_eq. split.
      * intros (-> & r & ->). exists r. reflexivity.
      * intros (r & H). inversion H; subst. split; eauto.
Qed.

Lemma find_at_some m s : forall pos i, find_at m s pos = Some i ->
  (pos <= i)%nat /\ occurs_at m s (i - pos) /\ forall j, occurs_at m s j -> (i - pos <= j)%nat.
Proof.
  induction s as [|c s IH]; intros pos i H; cbn [find_at] in H.
  - destruct (prefixb m nil) eqn:P; [|discriminate]. inversion H; subst.
    apply prefixb_spec in P as (r & P). rewrite Nat.sub_diag. psplit; try lia.
    exists nil, r. split; auto.
  - destruct (prefixb m (c :: s)) eqn:P.
    + inversion H; subst. rewrite Nat.sub_diag. apply prefixb_spec in P as (r & P).
      psplit; try lia. exists nil, r. split; auto.
    + apply IH in H as (H1 & (a & b & H2 & H3) & H4). psplit; [lia| |].
      * exists (c :: a), b. cbn. split; [congruence|lia].
      * intros j (a' & b' & E & L). destruct a' as [|c' a']; cbn in *.
        -- exfalso. assert (prefixb m (c :: s) = true) by (apply prefixb_spec; exists b'; auto).
           congruence.
        -- inversion E; subst. enough (i - S pos <= length a')%nat by lia.
           apply H4. exists a', b'. auto.
Qed.

Lemma find_at_none m s : forall pos, find_at m s pos = None -> forall j, ~ occurs_at m s j.
Proof.
  induction s as [|c s IH]; intros pos H j (a & b & E & L); cbn [find_at] in H;
    destruct (prefixb m _) eqn:P; try discriminate.
  - destruct a; [|discriminate]. cbn in E.
    assert (prefixb m nil = true) by (apply prefixb_spec; exists b; auto). congruence.
  - destruct a as [|c' a]; cbn in E.
    + assert (prefixb m (c :: s) = true) by (apply prefixb_spec; exists b; auto). congruence.
    + inversion E; subst. eapply IH; eauto. exists a, b. eauto.
Qed.

Lemma find_from_some m s st i : find_from m s st = Some i ->
  (st <= i)%nat /\ (i + length m <= length s)%nat /\
  occurs_at m (skipn st s) (i - st) /\
  forall j, occurs_at m (skipn st s) j -> (i - st <= j)%nat.
Proof.
  unfold find_from. destr; [discriminate|]. b2p. intros H.
  apply find_at_some in H as (H1 & (a & b & H2 & H3) & H4). psplit; auto.
  - assert (length (skipn st s) = length (a ++ m ++ b)) by congruence.
    rewrite skipn_length, !app_length in H. lia.
  - exists a, b; auto.
Qed.

Lemma find_from_none m s st : find_from m s st = None -> (st <= length s)%nat ->
  forall j, ~ occurs_at m (skipn st s) j.
Proof.
  unfold find_from. destr; b2p; [intros; lia|]. intros H _. eapply find_at_none; eauto.
Qed.

Lemma readmatch_body_good p m : wf p -> good p (readmatch_body p m).
Proof.
  intros W. unfold readmatch_body. destruct (p_buf p) as [|b0 r] eqn:B.
  { apply readmatch_nomatch_good; auto. }
  destruct (find_from m b0 (p_rpos p)) as [pos|] eqn:F.
  { apply find_from_some in F as (F1 & F2 & _). eapply readmatch_found_good; eauto. }
  pose proof (consolidate_good p W false (Return VNone)) as G.
  pose proof (consolidate_wf p W) as W'. cbv zeta.
  destruct (p_buf (consolidate p)) as [|b0' r'] eqn:B'.
  { pose proof (good_trans _ _ _ _ _ _ G (readmatch_nomatch_good _ m W')) as G2.
    exact G2. }
  destruct (find_from m b0' 0) as [pos|] eqn:F'.
  - apply find_from_some in F' as (F1 & F2 & _).
    assert (p_rpos (consolidate p) = O) as R by (unfold consolidate; rewrite B; reflexivity).
    pose proof (readmatch_found_good _ m pos _ _ W' B' ltac:(lia) F2) as G1.
    pose proof (good_trans _ _ _ _ _ _ G G1) as G2.
    exact G2.
  - pose proof (good_trans _ _ _ _ _ _ G (readmatch_nomatch_good _ m W')) as G2.
    exact G2.
Qed.

Lemma flush_good p x : wf p -> good p (flush_body p x).
Proof. intros W. unfold flush_body. destruct (p_buf p); [|destr; [destr|]]; apply good_id; auto. Qed.

Lemma cond_good p c t x : wf p -> good p (cond_body p c t x).
Proof.
  intros W. unfold cond_body. destruct c.
  - pose proof (canwrite_sim p) as S. destruct (canwrite p) as [p' [n|]]; cbn in S.
    + destr; [destr|]; apply sim_good_id; auto.
    + apply sim_good_id; auto.
  - destr; [|destr]; apply good_id; auto.
  - destruct (canread p) as [[|]|]; [|destr|]; apply good_id; auto.
Qed.

Lemma eof_good p : wf p -> good p (write_eof_body p).
Proof.
  intros (W1 & W2 & W3). unfold write_eof_body. g0.
  unfold wf; cbn. auto.
Qed.

Lemma read_out_good p k r : rgood p r -> good p (read_out k r).
Proof. intros G. destruct r; exact (G _). Qed.

Lemma call_good p o x r : wf p -> call_body p o x = Some r -> good p r.
Proof.
  intros W H. destruct o; cbn [call_body] in H; unfold pure in H;
    try (injection H as <-).
  - apply write_good; auto.
  - apply eof_good; auto.
  - apply read_out_good, read_start_good; auto.
  - apply read_out_good, readinto_start_good; auto.
  - eapply readall_start_good; eauto.
  - apply readmatch_body_good; auto.
  - apply flush_good; auto.
  - discriminate.
  - pose proof (canwrite_sim p) as S. destruct (canwrite p) as [p' [n|]]; injection H as <-;
      apply sim_good_id; auto.
  - destruct (canread p); injection H as <-; apply good_id; auto.
  - apply good_id; auto.
  - apply good_id; auto.
  - apply cond_good; auto.
  - apply sim_good_id; auto. apply sim_rbl.
  - apply sim_good_id; auto. apply sim_wbl.
  - apply good_id; auto.
  - apply sim_good_id; auto. apply sim_flag.
  - apply sim_good_id; auto. apply sim_flag_clear.
Qed.

Lemma resume_good p w x r : wf p -> resume_body p w x = Some r -> good p r.
Proof.
  intros W H. destruct w as [d|k|m cs| |c t]; cbn [resume_body] in H.
  - injection H as <-. apply write_good; auto.
  - destruct k; try (injection H as <-; apply read_out_good, readinto_loop_good; auto).
    revert H. apply readall_loop_good. intros f. exact (readinto_loop_good p _ x W f).
  - injection H as <-. unfold readmatch_resume. destr; [apply good_id; auto|].
    apply readmatch_body_good; auto.
  - injection H as <-. apply flush_good; auto.
  - injection H as <-. apply cond_good; auto.
Qed.
