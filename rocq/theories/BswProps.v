(** C32: BufferedStreamWrapper is transparent. *)
From Verif Require Import Py BswModel BswSpec.

Lemma src_read_split s n d s' : src_read s n = (Some d, s') ->
  s_rest s = d ++ s_rest s' /\ (length d <= n)%nat /\ (d = nil -> (0 < n)%nat -> s_rest s = nil).
Proof.
  unfold src_read. destruct (s_sched s) as [|[k|] l]; intros H; inversion H; subst; cbn [s_rest];
    rewrite firstn_skipn; psplit; auto; try (rewrite firstn_length; lia).
  - intros E N. destruct (s_rest s); auto. destruct n; [lia|]. discriminate.
  - intros E N. destruct (s_rest s); auto. destruct n; [lia|]. discriminate.
Qed.
Lemma src_read_none s n s' : src_read s n = (None, s') -> s_rest s' = s_rest s.
Proof. unfold src_read. destruct (s_sched s) as [|[k|] l]; intros H; inversion H; subst; auto. Qed.

Lemma fill_ok : forall fuel bs s buff, (bs - Z.of_nat (length buff) <= Z.of_nat fuel) ->
  exists s' buff' ov, fill fuel bs s buff = Some (s', buff', ov) /\
    buff ++ s_rest s = buff' ++ s_rest s' /\ (ov = false -> s_rest s' = nil) /\
    (Z.of_nat (length buff') <= Z.max bs (Z.of_nat (length buff))).
Proof.
  induction fuel as [|fuel IH]; intros bs s buff L; cbn [fill];
    destruct (bs - Z.of_nat (length buff) <=? 0) eqn:E; b2p;
    try (eexists _, _, _; psplit; [reflexivity|auto|discriminate|lia]); [lia|].
  destruct (src_read s (Z.to_nat (bs - Z.of_nat (length buff)))) as [[d|] s1] eqn:R.
  - apply src_read_split in R as (R1 & R2 & R3). destruct d as [|c d].
    + eexists _, _, _. psplit; [reflexivity| | |lia].
      * rewrite R1. auto.
      * intros _. specialize (R3 eq_refl ltac:(lia)). rewrite R3 in R1. cbn in R1. auto.
    + destruct (IH bs s1 (buff ++ c :: d)) as (s' & buff' & ov & F1 & F2 & F3 & F4).
      { rewrite app_length. cbn [length]. lia. }
      exists s', buff', ov. psplit; auto.
      * rewrite R1, app_assoc. exact F2.
      * rewrite app_length in F4. lia.
  - apply src_read_none in R. eexists _, _, _. psplit; [reflexivity| |discriminate|lia].
    rewrite R. auto.
Qed.

Lemma init_ok bs s : exists w, init_bsw bs s = Some w /\
  s_rest s = b_bytes w ++ s_rest (b_src w) /\ (b_overflow w = false -> s_rest (b_src w) = nil) /\
  b_bpos w = O /\ b_pos w = 0.
Proof.
  unfold init_bsw. destruct (fill_ok (Z.to_nat bs) bs s nil) as (s' & buff' & ov & F1 & F2 & F3 & _).
  { cbn. lia. }
  rewrite F1. eexists. split; [reflexivity|]. cbn. auto.
Qed.

(** remaining bytes when nobody seeks *)
Definition rem (w : bsw) : str := skipn (b_bpos w) (b_bytes w) ++ s_rest (b_src w).
Definition sync (w : bsw) : Prop :=
  0 <= b_pos w /\ (b_pos w < b_size w -> b_bpos w = Z.to_nat (b_pos w)) /\
  (b_size w <= b_pos w -> skipn (b_bpos w) (b_bytes w) = nil) /\
  (b_overflow w = false -> s_rest (b_src w) = nil).

Lemma skip_firstn_len (n k : nat) (l : str) :
  skipn (k + length (firstn n (skipn k l))) l = skipn n (skipn k l).
Proof.
  revert l; induction k as [|k IH]; intros l.
  - rewrite skipn_O. cbn [Nat.add]. revert l; induction n as [|n IHn]; intros l; [reflexivity|].
    destruct l; cbn; auto.
  - destruct l; cbn; [rewrite !skipn_nil; auto|]. apply IH.
Qed.

Definition took (o : bop) (q : bret) : str :=
  match o, q with BRead _, QData d => d | _, _ => nil end.

Lemma read_step w o : sync w -> (forall a b, o <> BSeek a b) ->
  sync (fst (bsw_op w o)) /\
  rem w = took o (snd (bsw_op w o)) ++ rem (fst (bsw_op w o)) /\
  (forall n, o = BRead n -> (0 < n)%nat -> snd (bsw_op w o) = QData nil -> rem w = nil).
Proof.
  intros (P & S1 & S2 & OV) NS. destruct o as [n|n|a b|]; cbn [bsw_op].
  - destruct (b_pos w <? b_size w) eqn:E; b2p; cbn [fst snd].
    + specialize (S1 E). unfold buff_read. psplit.
      * unfold sync, b_size in *; cbn. psplit; auto; try lia.
        intros L. rewrite skip_firstn_len.
        assert (length (firstn n (skipn (b_bpos w) (b_bytes w))) = length (skipn (b_bpos w) (b_bytes w))) as EL.
        { rewrite firstn_length, skipn_length in *. lia. }
        rewrite firstn_length in EL. apply skipn_all2. lia.
      * unfold rem; cbn. rewrite skip_firstn_len, app_assoc, firstn_skipn. reflexivity.
      * intros m Em Hm D. injection Em as <-. injection D as D. exfalso.
        apply (f_equal (@length Z)) in D. rewrite firstn_length, skipn_length in D. cbn in D.
        unfold b_size in E. lia.
    + specialize (S2 E). destruct (b_overflow w) eqn:O.
      * destruct (src_read (b_src w) n) as [[d|] s'] eqn:R; cbn [fst snd].
        -- apply src_read_split in R as (R1 & R2 & R3). psplit.
           ++ unfold sync, b_size in *; cbn. psplit; auto; try lia; try congruence.
           ++ unfold rem; cbn. rewrite S2, R1. reflexivity.
           ++ intros m Em Hm D. injection Em as <-. injection D as ->. unfold rem. rewrite S2, R3; auto.
        -- apply src_read_none in R. psplit.
           ++ unfold sync, b_size in *; cbn. psplit; auto; try lia; try congruence.
           ++ unfold rem; cbn. rewrite R. reflexivity.
           ++ discriminate.
      * cbn [fst snd]. psplit; auto.
        -- unfold sync. auto.
        -- intros m Em Hm _. unfold rem. rewrite S2, OV; auto.
  - assert (forall n', BPeek n <> BRead n') as NR by discriminate.
    destruct (b_pos w <? b_size w) eqn:E; b2p; cbn [fst snd].
    + destruct (b_pos w <? 0) eqn:E0; b2p; [lia|]. cbn [fst snd].
      rewrite <- S1 by auto. psplit; auto; try discriminate.
      unfold sync, b_size in *; cbn; auto.
    + psplit; auto; try discriminate. unfold sync; auto.
  - exfalso. eapply NS; reflexivity.
  - destruct (b_overflow w) eqn:O; cbn [fst snd]; psplit; auto; try discriminate; unfold sync; auto;
      rewrite O; auto.
Qed.

Lemma reads_ok os : forall w, sync w -> no_seek os ->
  sync (fst (bsw_ops w os)) /\ rem w = read_data (snd (bsw_ops w os)) ++ rem (fst (bsw_ops w os)).
Proof.
  induction os as [|o os IH]; intros w S N; cbn [bsw_ops]; [auto|].
  assert (forall a b, o <> BSeek a b) as No by (intros a b ->; eapply N; left; reflexivity).
  assert (no_seek os) as Ns by (intros a b I; eapply N; right; exact I).
  destruct (read_step w o S No) as (S1 & R1 & _).
  remember (bsw_op w o) as r eqn:Er. clear Er. destruct r as [w1 q]; cbn [fst snd] in *.
  destruct (IH w1 S1 Ns) as (S2 & R2). destruct (bsw_ops w1 os) as [w2 qs]; cbn [fst snd] in *.
  split; auto. rewrite R1, R2. unfold read_data; cbn [map concat].
  destruct o; destruct q; cbn [took app]; rewrite ?app_assoc; reflexivity.
Qed.

Lemma init_sync bs s w : init_bsw bs s = Some w -> sync w /\ rem w = s_rest s.
Proof.
  intros I. destruct (init_ok bs s) as (w' & I' & R & O & B & P).
  assert (w' = w) as -> by congruence. split.
  - unfold sync, b_size. rewrite B, P. psplit; auto; try lia.
    intros L. destruct (b_bytes w); auto. cbn in L. lia.
  - unfold rem. rewrite B, skipn_O. auto.
Qed.

(** the constructor always ends *)
Theorem c32_constructs : forall bs s, exists w, init_bsw bs s = Some w.
Proof. intros bs s. destruct (init_ok bs s) as (w & I & _). eauto. Qed.

(** without seeking: the bytes read so far are the source's bytes in order, whatever the
    sizes, the buffer size and the way the source cuts its data up; an empty read means
    that all has been read; peeking in between makes no difference *)
Theorem c32_transparent : forall bs s w os, init_bsw bs s = Some w -> no_seek os ->
  exists rest, s_rest s = read_data (snd (bsw_ops w os)) ++ rest /\
    forall n, (0 < n)%nat -> snd (bsw_op (fst (bsw_ops w os)) (BRead n)) = QData nil -> rest = nil.
Proof.
  intros bs s w os I N. destruct (init_sync _ _ _ I) as (S & R).
  destruct (reads_ok os w S N) as (S2 & R2). exists (rem (fst (bsw_ops w os))). split; [congruence|].
  intros n Hn E. destruct (read_step _ (BRead n) S2 ltac:(discriminate)) as (_ & _ & E2). eauto.
Qed.

(** peek shows the bytes that the next reads give and consumes nothing *)
Theorem c32_peek : forall bs s w os n, init_bsw bs s = Some w -> no_seek os ->
  exists d, snd (bsw_op (fst (bsw_ops w os)) (BPeek n)) = QData d /\
    fst (bsw_op (fst (bsw_ops w os)) (BPeek n)) = fst (bsw_ops w os) /\
    (length d <= n)%nat /\
    (d <> nil -> snd (bsw_op (fst (bsw_ops w os)) (BRead (length d))) = QData d).
Proof.
  intros bs s w os n I N. destruct (init_sync _ _ _ I) as (S & R).
  destruct (reads_ok os w S N) as ((P & S1 & S2 & OV) & _). set (v := fst (bsw_ops w os)) in *. clearbody v.
  cbn [bsw_op]. destruct (b_pos v <? b_size v) eqn:E; b2p; cbn [fst snd].
  - destruct (b_pos v <? 0) eqn:E0; b2p; [lia|]. cbn [fst snd]. rewrite <- S1 by auto.
    eexists. psplit; [reflexivity|destruct v; reflexivity| |].
    + unfold buff_read. rewrite firstn_length. lia.
    + intros _. unfold buff_read. rewrite firstn_length. f_equal.
      set (X := skipn (b_bpos v) (b_bytes v)).
      destruct (Nat.min_spec n (length X)) as [[L ->]|[L ->]]; auto.
      rewrite (firstn_all2 (n := n)) by lia. apply firstn_all.
  - exists nil. psplit; auto. cbn; lia. congruence.
Qed.

(** seekable: the wrapper is the file of the source's bytes *)
Definition fsync (content : str) (w : bsw) : Prop :=
  b_overflow w = false /\ b_bytes w = content /\ 0 <= b_pos w /\ b_bpos w = Z.to_nat (b_pos w).

Lemma file_refines content os : forall w, fsync content w -> seeks_ok content (b_pos w) os ->
  snd (bsw_ops w os) = file_ops content (b_pos w) os.
Proof.
  induction os as [|o os IH]; intros w F SK; [reflexivity|].
  cbn [bsw_ops file_ops seeks_ok] in *. destruct SK as (K1 & K2).
  assert (snd (bsw_op w o) = snd (file_op content (b_pos w) o) /\
          b_pos (fst (bsw_op w o)) = fst (file_op content (b_pos w) o) /\
          fsync content (fst (bsw_op w o))) as (Q1 & Q2 & Q3).
  { destruct F as (O & B & P & BP). destruct o as [n|n|off wh|]; cbn [bsw_op file_op] in *; rewrite ?O.
    - unfold buff_read, b_size. rewrite B, BP. destruct (b_pos w <? Z.of_nat (length content)) eqn:E; b2p; cbn [fst snd].
      + psplit; auto. unfold fsync; cbn. psplit; auto; lia.
      + assert (skipn (Z.to_nat (b_pos w)) content = nil) as -> by (apply skipn_all2; lia).
        rewrite firstn_nil. cbn. psplit; auto; try lia. unfold fsync. auto.
    - unfold buff_read, b_size. rewrite B, BP. destruct (b_pos w <? Z.of_nat (length content)) eqn:E; b2p; cbn [fst snd].
      + destruct (b_pos w <? 0) eqn:E0; b2p; [lia|]. cbn [fst snd]. psplit; auto. unfold fsync; cbn. auto.
      + assert (skipn (Z.to_nat (b_pos w)) content = nil) as -> by (apply skipn_all2; lia).
        rewrite firstn_nil. psplit; auto. unfold fsync. auto.
    - unfold b_size. rewrite B. cbn [fst snd] in K1.
      destruct (wh =? 0) eqn:W0; cbn [orb fst snd] in *.
      { destruct (off <? 0) eqn:E; b2p; [lia|]. cbn [fst snd]. psplit; auto. unfold fsync; cbn. auto. }
      destruct (wh =? 1) eqn:W1; cbn [orb fst snd] in *.
      { destruct (b_pos w + off <? 0) eqn:E; b2p; [lia|]. cbn [fst snd]. psplit; auto. unfold fsync; cbn. auto. }
      destruct (wh =? 2) eqn:W2; cbn [orb fst snd] in *.
      { destruct (Z.of_nat (length content) + off <? 0) eqn:E; b2p; [lia|]. cbn [fst snd]. psplit; auto. unfold fsync; cbn. auto. }
      psplit; auto. unfold fsync; auto.
    - cbn. psplit; auto. unfold fsync; auto. }
  destruct (bsw_op w o) as [w1 q], (file_op content (b_pos w) o) as [p1 q1]; cbn [fst snd] in *.
  subst q1 p1. specialize (IH w1 Q3 K2). destruct (bsw_ops w1 os) as [w2 qs]; cbn [fst snd] in *.
  congruence.
Qed.

(** the wrapper is seekable exactly when it has all the source's bytes; its length is then
    their number, and any history of reads, peeks, seeks and tells without a seek before
    the start behaves as a file.
    Missing for the full property: histories with a seek to a negative position (false there) *)
Theorem c32_seekable_partial : forall bs s w, init_bsw bs s = Some w -> b_overflow w = false ->
  b_length w = Some (Z.of_nat (length (s_rest s))) /\
  forall os, seeks_ok (s_rest s) 0 os -> snd (bsw_ops w os) = file_ops (s_rest s) 0 os.
Proof.
  intros bs s w I O. destruct (init_ok bs s) as (w' & I' & R & OV & B & P).
  assert (w' = w) as -> by congruence. rewrite (OV O), app_nil_r in R.
  split.
  - unfold b_length, b_size. rewrite O, R. reflexivity.
  - intros os SK. rewrite <- P. apply file_refines; [|rewrite P; exact SK].
    unfold fsync. rewrite B, P. auto using Z.le_refl.
Qed.

(** when not seekable, seek and tell say so and change nothing *)
Theorem c32_not_seekable : forall w off wh, b_overflow w = true ->
  bsw_op w (BSeek off wh) = (w, QUnsupported) /\ bsw_op w BTell = (w, QUnsupported) /\ b_length w = None.
Proof. intros w off wh O. unfold bsw_op, b_length. rewrite O. auto. Qed.

(** everything is buffered when the source never blocks and is shorter than the buffer *)
Definition never_blocks (s : source) : Prop := forall o, In o (s_sched s) -> o <> None.
Lemma fill_short : forall fuel bs s buff r, fill fuel bs s buff = Some r -> never_blocks s ->
  Z.of_nat (length buff + length (s_rest s)) < bs -> snd r = false.
Proof.
  induction fuel as [|fuel IH]; intros bs s buff r F NB L; cbn [fill] in F;
    (destruct (bs - Z.of_nat (length buff) <=? 0) eqn:E; b2p; [lia|]);
    destruct (src_read s (Z.to_nat (bs - Z.of_nat (length buff)))) as [[d|] s1] eqn:R;
    try (exfalso; unfold src_read in R; unfold never_blocks in NB;
         destruct (s_sched s) as [|[k|] l]; try discriminate; eapply (NB None); [left|]; reflexivity).
  - destruct d; inversion F; reflexivity.
  - destruct d as [|c d]; [inversion F; reflexivity|].
    pose proof (src_read_split _ _ _ _ R) as (R1 & _).
    apply IH in F; auto.
    + unfold never_blocks in *. unfold src_read in R. destruct (s_sched s) as [|[k|] l] eqn:SS; inversion R; subst; cbn [s_sched];
        intros o I; apply NB; cbn; auto.
    + rewrite R1, app_length in L. rewrite app_length. lia.
Qed.
Theorem c32_short_is_seekable : forall bs s w, init_bsw bs s = Some w -> never_blocks s ->
  Z.of_nat (length (s_rest s)) < bs -> b_overflow w = false.
Proof.
  intros bs s w I NB L. unfold init_bsw in I.
  destruct (fill (Z.to_nat bs) bs s nil) as [[[s' buff] ov]|] eqn:F; [|discriminate].
  inversion I; subst. apply fill_short in F; auto.
Qed.

(** a seek before the start fails, but tell and peek are wrong afterwards *)
Theorem c32_negative_seek_refuted : exists w,
  init_bsw 100 (mkSrc (lit "hello") nil) = Some w /\
  map snd (snd (bsw_ops w [BRead 2; BSeek (-9) 1; BTell; BRead 1; BTell; BPeek 1])) =
    [QData (lit "he"); QValueError; QPos (-7); QData (lit "l"); QPos (-6); QValueError].
Proof. eexists. split; vm_compute; reflexivity. Qed.

Example c32_case1 : exists w,
  init_bsw 4 (mkSrc (lit "hello world") [Some 0; Some 7; None; Some 1]%nat) = Some w /\
  b_overflow w = true /\
  map snd (snd (bsw_ops w [BPeek 2; BRead 3; BRead 3; BRead 3; BRead 3; BRead 9; BRead 1])) =
    [QData (lit "he"); QData (lit "hel"); QData (lit "l"); QBlocked; QData (lit "o ");
     QData (lit "world"); QData nil].
Proof. eexists. split; [vm_compute; reflexivity|]. split; vm_compute; reflexivity. Qed.
Example c32_case2 : exists w,
  init_bsw 40 (mkSrc (lit "hello") [Some 0; Some 2]%nat) = Some w /\ b_overflow w = false /\
  seeks_ok (lit "hello") 0 [BRead 2; BSeek (-3) 2; BRead 9; BSeek 7 0; BRead 1; BTell] /\
  map snd (snd (bsw_ops w [BRead 2; BSeek (-3) 2; BRead 9; BSeek 7 0; BRead 1; BTell])) =
    [QData (lit "he"); QDone; QData (lit "llo"); QDone; QData nil; QPos 7].
Proof.
  eexists. split; [vm_compute; reflexivity|]. split; [vm_compute; reflexivity|].
  split; [|vm_compute; reflexivity]. vm_compute. repeat split; discriminate.
Qed.

Print Assumptions c32_constructs.
Print Assumptions c32_transparent.
Print Assumptions c32_peek.
Print Assumptions c32_seekable_partial.
Print Assumptions c32_not_seekable.
Print Assumptions c32_short_is_seekable.
Print Assumptions c32_negative_seek_refuted.
