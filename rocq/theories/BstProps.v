(** C36: a BlockStream behaves like a file, and what was written is there after close. *)
From Verif Require Import Py BstModel BstSpec BstProofs BstOpen.
From Coq Require Import Permutation Arith.

(** The modes of the claim: "r", "r+" on any stored stream; "w", "w+" on an empty one. *)
Definition opens (m : mode) (c : str) : Prop := m_a m = false /\ (m_w m = true -> c = nil).

(** Whatever is done to a stored stream once it is opened, every answer is the file's, no
    exception but that of reading or writing without the mode for it, and closing leaves the file's
    contents stored. *)
Theorem c36_file : forall digest bs p c m ops f answers,
  (0 < bs)%nat -> stored digest bs p c -> opens m c ->
  f_run bs (m_r m || m_plus m) (m_w m || m_plus m) (mkF c 0) ops = Some (f, answers) ->
  exists s0 p0 s1 p1 s2 p2,
    open_stream digest bs p m = Ok (s0, p0)
    /\ s_run digest bs s0 p0 ops = (s1, p1, answers)
    /\ flush digest s1 p1 = Ok (s2, p2)
    /\ stored digest bs p2 (f_data f).
Proof.
  intros digest bs p c m ops f answers Hbs S (Ha & Hm) R.
  assert (O : exists s0 p0, open_stream digest bs p m = Ok (s0, p0) /\ inv digest bs s0 p0 c 0 c
              /\ b_r s0 = m_r m || m_plus m /\ b_w s0 = m_w m || m_plus m).
  { destruct (m_w m) eqn:Ew.
    - rewrite (Hm eq_refl) in *. exact (open_w_inv digest bs Hbs p m S Ha Ew).
    - destruct (open_inv digest bs Hbs p c m S Ha Ew) as (s0 & H). exists s0, p. exact H. }
  destruct O as (s0 & p0 & O & I & Rr & Rw).
  destruct (run_inv digest bs Hbs _ _ _ _ _ _ _ _ _ _ I Rr Rw R) as (s1 & p1 & cf & E & I1 & _).
  destruct (flush_ok digest bs Hbs _ _ _ _ _ I1) as (s2 & p2 & F & I2 & _).
  exists s0, p0, s1, p1, s2, p2. repeat (split; [assumption|]).
  eapply held_stored; [exact Hbs | exact (i_held _ _ _ _ _ _ _ I2) | exact (i_pers _ _ _ _ _ _ _ I2)].
Qed.

(** and so after any sequence of calls, closed or not, every flush stores what is there *)
Theorem c36_flush : forall digest bs p c m ops f answers,
  (0 < bs)%nat -> stored digest bs p c -> opens m c ->
  f_run bs (m_r m || m_plus m) (m_w m || m_plus m) (mkF c 0) (ops ++ [OFlush]) = Some (f, answers) ->
  exists s0 p0 s1 p1, open_stream digest bs p m = Ok (s0, p0)
    /\ s_run digest bs s0 p0 (ops ++ [OFlush]) = (s1, p1, answers) /\ stored digest bs p1 (f_data f).
Proof.
  intros digest bs p c m ops f answers Hbs S Hm R.
  assert (X : forall ops f0 f l, f_run bs (m_r m || m_plus m) (m_w m || m_plus m) f0 (ops ++ [OFlush]) = Some (f, l) ->
             exists l0, l = l0 ++ [ADone] /\ f_run bs (m_r m || m_plus m) (m_w m || m_plus m) f0 ops = Some (f, l0)).
  { clear. induction ops as [|o ops IH]; intros f0 f l; cbn.
    - intros H. inversion H; subst. exists nil. auto.
    - destruct (f_step _ _ _ f0 o) as [[f1 a]|]; [|discriminate].
      destruct (f_run _ _ _ f1 (ops ++ [OFlush])) as [[f2 l2]|] eqn:E; [|discriminate].
      intros H. inversion H; subst. destruct (IH _ _ _ E) as (l0 & -> & ->). exists (a :: l0). auto. }
  destruct (X _ _ _ _ R) as (l0 & -> & R0).
  destruct (c36_file _ _ _ _ _ _ _ _ Hbs S Hm R0) as (s0 & p0 & s1 & p1 & s2 & p2 & O & E & F & S2).
  exists s0, p0, s2, p2. split; [exact O|]. split; [|exact S2].
  revert E F. clear. revert s0 p0 l0. induction ops as [|o ops IH]; intros s0 p0 l0; cbn.
  - intros E F. inversion E; subst. rewrite F. reflexivity.
  - destruct (s_step digest bs s0 p0 o) as [[sa pa] a]. destruct (s_run digest bs sa pa ops) as [[sb pb] l] eqn:E2.
    intros E F. inversion E; subst. rewrite (IH _ _ _ E2 F). reflexivity.
Qed.

(** A new stream is an empty one. *)
Theorem c36_new : forall digest bs, stored digest bs (new_stream digest) nil.
Proof.
  intros digest bs. split; [|split; [reflexivity | right; reflexivity]].
  exists 0%nat. split; [reflexivity|]. cbn. intros k. lia.
Qed.

(** Reading a stored stream from the start, again and again, gives all of it. *)
Definition datas (l : list ans) : str := flat_map (fun a => match a with AData d => d | _ => nil end) l.
Lemma read_all_spec : forall bs n c times q, (0 < bs)%nat -> (0 < n)%nat -> (q <= length c)%nat -> (length c <= q + times)%nat ->
  exists f l, f_run bs true false (mkF c q) (repeat (ORead n) times) = Some (f, l) /\ datas l = skipn q c /\ f_data f = c.
Proof.
  intros bs n c times. induction times as [|t IH]; intros q Hbs Hn Hq Ht; cbn [repeat f_run].
  - exists (mkF c q), nil. split; [reflexivity|]. split; [|reflexivity]. rewrite skipn_all2 by lia. reflexivity.
  - cbn [f_step f_data f_pos]. cbv zeta. set (k := Nat.min n (Nat.min (room bs q) (length c - q))).
    assert (Hr : (0 < room bs q)%nat) by (unfold room; pose proof (Nat.mod_upper_bound q bs ltac:(lia)); lia).
    destruct (IH (q + k)%nat) as (f & l & -> & Hd & Hf); try lia.
    exists f, (AData (firstn k (skipn q c)) :: l). split; [reflexivity|]. split; [|assumption].
    cbn [datas flat_map]. fold (datas l). rewrite Hd. rewrite <- (firstn_skipn k (skipn q c)) at 2.
    f_equal. apply list_ext; [rewrite !skipn_length; lia|]. intros i _. rewrite !nth_skipn. f_equal. lia.
Qed.
Theorem c36_read_all : forall digest bs p c n times, (0 < bs)%nat -> (0 < n)%nat -> stored digest bs p c -> (length c <= times)%nat ->
  exists s0 s1 p1 answers, open_stream digest bs p (mkM true false false false) = Ok (s0, p)
    /\ s_run digest bs s0 p (repeat (ORead n) times) = (s1, p1, answers) /\ datas answers = c.
Proof.
  intros digest bs p c n times Hbs Hn S Ht.
  destruct (open_inv digest bs Hbs p c (mkM true false false false) S eq_refl eq_refl) as (s0 & O & I & Rr & Rw).
  destruct (read_all_spec bs n c times 0 Hbs Hn ltac:(lia) ltac:(lia)) as (f & l & R & Hd & _).
  destruct (run_inv digest bs Hbs _ _ _ _ _ _ _ _ _ _ I Rr Rw R) as (s1 & p1 & cf & E & _).
  exists s0, s1, p1, l. auto.
Qed.

(** Writing b, and again what is left of it until nothing is, puts all of b in its place: the
    calls are write(b), write(b[k1:]), write(b[k1 + k2:]) ... where ki is what the call before
    returned. *)
Fixpoint write_ops (bs n q : nat) (b : str) : list op :=
  match n with
  | O => nil
  | S n' => match b with
            | nil => nil
            | _ => let k := length (firstn (room bs q) b) in OWrite b :: write_ops bs n' (q + k) (skipn k b)
            end
  end.
Lemma overwrite_app : forall c q v w, overwrite (overwrite c q v) (q + length v) w = overwrite c q (v ++ w).
Proof.
  intros c q v w. apply list_ext.
  - rewrite !overwrite_length, app_length. lia.
  - intros i _. rewrite !nth_overwrite, nth_app, app_length.
    repeat match goal with |- context [Nat.ltb ?a ?b] => destruct (Nat.ltb a b) eqn:?; b2p; try lia end; f_equal; lia.
Qed.
Theorem c36_write_all : forall bs r n c q b, (0 < bs)%nat -> (length b <= n)%nat -> (b <> nil \/ (q <= length c)%nat) ->
  exists answers, f_run bs r true (mkF c q) (write_ops bs n q b) = Some (mkF (overwrite c q b) (q + length b), answers)
    /\ fold_right (fun a t => match a with ACount k => k + t | _ => t end)%nat 0%nat answers = length b.
Proof.
  intros bs r n. induction n as [|n IH]; intros c q b Hbs Hn Hb.
  - assert (b = nil) by (destruct b; [reflexivity|cbn in Hn; lia]). subst b. destruct Hb as [Hb|Hb]; [congruence|].
    exists nil. cbn. split; [|reflexivity]. do 3 f_equal; [|lia]. unfold overwrite. cbn.
    replace (q - length c)%nat with O by lia. cbn. rewrite app_nil_r, Nat.add_0_r. symmetry. apply firstn_skipn.
  - destruct b as [|x b']; [|set (b := x :: b') in *].
    { destruct Hb as [Hb|Hb]; [congruence|]. exists nil. cbn. split; [|reflexivity]. do 3 f_equal; [|lia]. unfold overwrite. cbn.
      replace (q - length c)%nat with O by lia. cbn. rewrite app_nil_r, Nat.add_0_r. symmetry. apply firstn_skipn. }
    assert (E : write_ops bs (S n) q b = OWrite b :: write_ops bs n (q + length (firstn (room bs q) b)) (skipn (length (firstn (room bs q) b)) b)) by reflexivity.
    rewrite E. clear E. cbn [f_run f_step f_data f_pos]. cbv zeta. set (v := firstn (room bs q) b).
    assert (Hr : (0 < room bs q)%nat) by (unfold room; pose proof (Nat.mod_upper_bound q bs ltac:(lia)); lia).
    assert (Hv : (0 < length v)%nat) by (subst v; rewrite firstn_length; subst b; cbn [length]; lia).
    assert (Hvb : b = v ++ skipn (length v) b).
    { subst v. rewrite firstn_length. destruct (Nat.le_ge_cases (room bs q) (length b)).
      - rewrite Nat.min_l by assumption. symmetry. apply firstn_skipn.
      - rewrite Nat.min_r, firstn_all2, skipn_all, app_nil_r by assumption. reflexivity. }
    destruct (length v =? 0)%nat eqn:E0; b2p; [lia|]. cbn [andb].
    destruct (IH (overwrite c q v) (q + length v)%nat (skipn (length v) b) Hbs) as (l & -> & Hl).
    + rewrite skipn_length. lia.
    + right. rewrite overwrite_length. lia.
    + exists (ACount (length v) :: l). rewrite overwrite_app, <- Hvb. rewrite skipn_length in *.
      assert (length v <= length b)%nat by (subst v; rewrite firstn_length; lia).
      split; [do 3 f_equal; lia|]. cbn [fold_right]. rewrite Hl. lia.
Qed.

(** *** Cases *)
Definition dg (x : str) : str := x.
Definition abc : pers := mkP [mkRow 1 (lit "c"); mkRow 0 (lit "ab")] 3 (Some (lit "abc")).
Example ex_stored : stored dg 2 abc (lit "abc").
Proof.
  split; [|split; [reflexivity | right; reflexivity]].
  exists 2%nat. split; [apply perm_swap|]. cbn. intros k. lia.
Qed.
Definition rplus : mode := mkM true false true false.
Definition wplus : mode := mkM false true true false.
Example ex_opens : opens rplus (lit "abc") /\ opens wplus nil.
Proof. split; split; cbn; auto; discriminate. Qed.
(** over three blocks, with a gap of zeros, and back *)
Definition prog : list op :=
  [ORead 9; ORead 9; OWrite (lit "xyz"); OSeek (-1) SeekEnd; OSeek 2 SeekCur; OWrite (lit "X"); OSeek 7 SeekSet;
   OWrite (lit "7"); OSeek 1 SeekSet; ORead 9; ORead 9; ORead 9; OTell; OFlush].
Example ex_run : exists f l, f_run 2 true true (mkF (lit "abc") 0) prog = Some (f, l)
  /\ f_data f = lit "abcx" ++ [0] ++ lit "X" ++ [0] ++ lit "7" /\ length l = 14%nat
  /\ nth_error l 9 = Some (AData (lit "b")) /\ nth_error l 10 = Some (AData (lit "cx")) /\ nth_error l 11 = Some (AData ([0] ++ lit "X")).
Proof. eexists _, _. split; [vm_compute; reflexivity|]. vm_compute. auto 6. Qed.
(** the same calls on the model, opened and closed *)
Definition after (p : pers) (m : mode) (ops : list op) : option (list ans * pers) :=
  match open_stream dg 2 p m with
  | Err _ => None
  | Ok (s0, p0) => let '(s1, p1, l) := s_run dg 2 s0 p0 ops in
                   match flush dg s1 p1 with Ok (_, p2) => Some (l, p2) | Err _ => None end
  end.
Example ex_model : exists f l p2, f_run 2 true true (mkF (lit "abc") 0) prog = Some (f, l)
  /\ after abc rplus prog = Some (l, p2) /\ p_size p2 = 8%nat /\ p_md5 p2 = None /\ length (p_rows p2) = 4%nat.
Proof. eexists _, _, _. split; [vm_compute; reflexivity|]. split; [vm_compute; reflexivity|]. vm_compute. auto. Qed.
(** written from the start, the checksum is kept *)
Example ex_create : exists p2 l, after (new_stream dg) wplus [OWrite (lit "abc"); OWrite (lit "c")] = Some (l, p2)
  /\ l = [ACount 2; ACount 1] /\ p_md5 p2 = Some (lit "abc").
Proof. eexists _, _. split; [vm_compute; reflexivity|]. vm_compute. auto. Qed.

(** *** What is not so *)

(** "The characters r, w and + and a are honoured": a stream opened with "a" cannot be written. *)
Theorem c36_append_refuted : forall digest bs p c b, (0 < bs)%nat -> stored digest bs p c ->
  exists s0 p0, open_stream digest bs p (mkM false false false true) = Ok (s0, p0)
    /\ write digest bs s0 p0 b = Err IOError /\ readinto digest bs s0 p0 1 = Err IOError.
Proof.
  intros digest bs p c b Hbs S. unfold open_stream. cbn [m_a m_r m_w m_plus orb].
  unfold seek, seek_to, target, flush. cbn [b_num b_dirty].
  destruct (Z.of_nat (p_size p) / Z.of_nat bs =? 0); cbn [rbind]; eexists _, _; (split; [reflexivity|]); auto.
Qed.
(** Opened with "w", a stream that is not empty loses its blocks but keeps its size: reading is an
    IndexError and so is writing. *)
Theorem c36_truncate_refuted : exists p c, stored dg 2 p c /\ exists s0 p0,
  open_stream dg 2 p wplus = Ok (s0, p0) /\ p_rows p0 = nil
  /\ write dg 2 s0 p0 (lit "x") = Err IndexError /\ readinto dg 2 s0 p0 1 = Err IndexError
  /\ flush dg s0 p0 = Ok (s0, p0) /\ p_size p0 = 3%nat /\ ~ stored dg 2 p0 c /\ ~ stored dg 2 p0 nil.
Proof.
  exists abc, (lit "abc"). split; [exact ex_stored|]. eexists _, _. split; [vm_compute; reflexivity|].
  repeat (split; [vm_compute; reflexivity|]). split.
  - intros ((n & P & Hn) & _). cbn [p_rows] in P. apply Permutation_nil in P. destruct n; [|discriminate].
    destruct (Hn 0%nat) as [_ H]. cbn in H. lia.
  - intros (_ & H & _). discriminate.
Qed.
(** Beyond the block of the end, a read is an IndexError (a file would give no bytes) and so is a
    write (a file would be extended). *)
Theorem c36_seek_beyond_refuted : exists p c, stored dg 2 p c /\ exists l p2,
  after p rplus [OSeek 6 SeekSet; ORead 1; OWrite (lit "x")] = Some (l, p2) /\ l = [ADone; AFail IndexError; AFail IndexError].
Proof.
  exists abc, (lit "abc"). split; [exact ex_stored|]. eexists _, _. split; [vm_compute; reflexivity|]. reflexivity.
Qed.
(** A position before the start is taken, and then a byte from the last block is read. *)
Theorem c36_seek_negative_refuted : exists p c, stored dg 2 p c /\ exists l p2,
  after p rplus [OSeek (-2) SeekSet; ORead 1] = Some (l, p2) /\ l = [ADone; AData (lit "c")].
Proof.
  exists abc, (lit "abc"). split; [exact ex_stored|]. eexists _, _. split; [vm_compute; reflexivity|]. reflexivity.
Qed.
(** Writing no bytes beyond the end at a block boundary makes the stream longer. *)
Theorem c36_write_nothing_refuted : exists p c, stored dg 2 p c /\ exists l p2,
  after p rplus [OWrite (lit "ab"); OWrite (lit "cd"); OSeek 5 SeekSet; OWrite nil] = Some (l, p2)
  /\ l = [ACount 2; ACount 2; ADone; ACount 0] /\ stored dg 2 p2 (lit "abcd" ++ [0]).
Proof.
  exists abc, (lit "abc"). split; [exact ex_stored|]. eexists _, _. split; [vm_compute; reflexivity|]. split; [reflexivity|].
  split; [|split; [reflexivity|left; reflexivity]]. exists 3%nat. split.
  - cbn. eapply perm_trans; [apply perm_swap|]. reflexivity.
  - cbn. intros k. lia.
Qed.

Print Assumptions c36_file.
Print Assumptions c36_flush.
Print Assumptions c36_new.
Print Assumptions c36_read_all.
Print Assumptions c36_write_all.
Print Assumptions c36_append_refuted.
Print Assumptions c36_truncate_refuted.
Print Assumptions c36_seek_beyond_refuted.
Print Assumptions c36_seek_negative_refuted.
Print Assumptions c36_write_nothing_refuted.
