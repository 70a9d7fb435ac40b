(** Properties C29, C30, C31, C45, C46, C47: the Pipe class under every schedule. *)
From Verif Require Import Py PipeModel PipeSpec PipeProofs PipeMain PipeHonest PipeLive PipeMore PipeAcct PipeWaits.

Lemma exec_run s0 ls : forall s tr s' ev, run s0 tr s -> exec s ls = Some (s', ev) -> run s0 (tr ++ ev) s'.
Proof.
  induction ls as [|l ls IH]; intros s tr s' ev R H; cbn in H.
  - inversion H; subst. rewrite app_nil_r. exact R.
  - destruct (step s l) as [[s1 e1]|] eqn:S; [|discriminate].
    destruct (exec s1 ls) as [[s2 e2]|] eqn:E; [|discriminate]. inversion H; subst.
    rewrite app_assoc. eapply IH; [|exact E]. econstructor; eauto.
Qed.
Lemma exec_run0 s0 ls s' ev : exec s0 ls = Some (s', ev) -> run s0 ev s'.
Proof. intros H. apply (exec_run s0 ls s0 nil s' ev); [constructor|exact H]. Qed.

(** ** C29: FIFO without loss *)
Theorem c29_fifo : forall b rb wb tm tr s, run (init b rb wb tm) tr s ->
  accepted tr = taken tr ++ discarded tr ++ unread (s_pipe s) /\
  (~ called tr is_close -> discarded tr = nil).
Proof.
  intros b rb wb tm tr s R. split.
  - apply fifo_run in R as [(_ & F & _) _]. exact F.
  - apply (no_close_no_discard _ _ _ _ _ _ R).
Qed.

Theorem c29_returns : forall b rb wb tm tr s, run (init b rb wb tm) tr s ->
  forall a t v c, tr = a ++ ERet t v :: c -> honest (pend t a) v.
Proof. exact run_honest. Qed.

(** one reading thread: what its calls returned, then what is unread, is what was accepted.
    Missing for the full property: it fails when readall times out, see below; with several
    reading threads only the order in which bytes leave the buffer is fixed (c29_fifo) *)
Theorem c29_returned_partial : forall b rb wb tm tr s t0, run (init b rb wb tm) tr s ->
  only_reader t0 tr -> ~ readall_timed_out tr -> ~ called tr is_close ->
  s_thr s t0 = Idle ->
  accepted tr = returned tr ++ unread (s_pipe s).
Proof.
  intros b rb wb tm tr s t0 R O NT NC T. destruct (c29_fifo _ _ _ _ _ _ R) as (F & D).
  rewrite F, (D NC), (returned_run _ _ _ _ _ _ _ R O NT). unfold infl. rewrite T, app_nil_r. reflexivity.
Qed.

Definition L := lit.
Example c29_case : exists s tr,
  exec (init 10 true true false)
    [LCall 1 (ORead 4) false; LCall 2 (OWrite (DBytes (L "hello"))) false; LRun 1 false;
     LCall 2 (OWrite (DArray (L "world!"))) false; LCall 1 (OReadMatch (L "wo")) false;
     LCall 1 (ORead 2) false] = Some (s, tr) /\
  returned tr = L "helloworl" /\ unread (s_pipe s) = L "d!" /\ accepted tr = L "helloworld!" /\
  s_thr s 1%nat = Idle.
Proof. vm_compute. eexists _, _. split; [reflexivity|]. repeat split; reflexivity. Qed.

(** a time-out in readall loses the bytes it had already taken *)
Theorem c29_returned_refuted : exists s tr,
  run (init 10 true true true) tr s /\ only_reader 1 tr /\ ~ called tr is_close /\
  s_thr s 1%nat = Idle /\ accepted tr = L "abc" /\ returned tr = nil /\ unread (s_pipe s) = nil.
Proof.
  destruct (exec (init 10 true true true)
    [LCall 2 (OWrite (DBytes (L "abc"))) false; LCall 1 OReadAll false; LRun 1 true])
    as [[s tr]|] eqn:E; [|vm_compute in E; discriminate].
  exists s, tr. split; [eapply exec_run0; exact E|].
  vm_compute in E. injection E as <- <-.
  repeat split; try reflexivity.
  - intros t o [H|[H|[H|[H|[H|[H|[H|[H|[H|[H|[]]]]]]]]]]] I; inversion H; subst; auto; destruct I.
  - intros (t & o & [H|[H|[H|[H|[H|[H|[H|[H|[H|[H|[]]]]]]]]]]] & I); inversion H; subst; inversion I.
Qed.

(** ** C30: accounting and flow control *)
(** buffered() never under-reports; exact as long as readmatch is not used *)
Theorem c30_buffered_partial : forall b rb wb tm tr s, run (init b rb wb tm) tr s ->
  Z.of_nat (length (unread (s_pipe s))) <= buffered (s_pipe s) /\
  (~ called tr is_readmatch -> buffered (s_pipe s) = Z.of_nat (length (unread (s_pipe s)))).
Proof.
  intros b rb wb tm tr s R. pose proof (run_wf _ _ _ _ _ _ R) as W. split.
  - apply buffered_ge; auto.
  - intros N. apply buffered_exact; auto. eapply exact_run; eauto.
Qed.

(** readmatch leaks: bytes it already returned stay counted once it had to
    consolidate a partly read buffer *)
Theorem c30_buffered_refuted : exists s tr,
  run (init 8 false true false) tr s /\ unread (s_pipe s) = nil /\ buffered (s_pipe s) = 4.
Proof.
  destruct (exec (init 8 false true false)
    [LCall 2 (OWrite (DBytes (L "ab.." ++ L "cd"))) false;
     LCall 1 (OReadMatch (L "..")) false; LCall 1 (OReadMatch (L "..")) false;
     LCall 1 (ORead 10) false])
    as [[s tr]|] eqn:E; [|vm_compute in E; discriminate].
  exists s, tr. split; [eapply exec_run0; exact E|].
  vm_compute in E. injection E as <- <-. split; reflexivity.
Qed.

(** as a consequence a writer can be blocked for ever on a pipe with nothing in it *)
Theorem c30_blocked_writer_refuted : exists s tr,
  run (init 4 false true false) tr s /\
  s_thr s 2%nat = Waiting false (WWrite (DBytes (L "x"))) /\
  p_buf (s_pipe s) = nil /\ p_eof (s_pipe s) = false.
Proof.
  destruct (exec (init 4 false true false)
    [LCall 2 (OWrite (DBytes (L "ab.." ++ L "cd"))) false;
     LCall 1 (OReadMatch (L "..")) false; LCall 1 (OReadMatch (L "..")) false;
     LCall 1 (ORead 10) false; LCall 2 (OWrite (DBytes (L "x"))) false])
    as [[s tr]|] eqn:E; [|vm_compute in E; discriminate].
  exists s, tr. split; [eapply exec_run0; exact E|].
  vm_compute in E. injection E as <- <-. repeat split; reflexivity.
Qed.

(** canwrite() = n > 0: the next call of write, by any thread, takes at least n bytes
    of a bytearray, and all of it if it is no longer than n *)
Theorem c30_canwrite : forall b rb wb tm tr s t x s1 ev n, run (init b rb wb tm) tr s ->
  step s (LCall t OCanWrite x) = Some (s1, ev) -> In (ERet t (VInt n)) ev -> 0 < n ->
  Z.of_nat (length (unread (s_pipe s))) + n <= b /\
  forall t' arr x', s_thr s1 t' = Idle ->
    exists s2, step s1 (LCall t' (OWrite (DArray arr)) x') =
      Some (s2, [ECall t' (OWrite (DArray arr));
                 EAccept t' (firstn (Z.to_nat n) arr); ETake t' nil;
                 ERet t' (VInt (Z.min n (Z.of_nat (length arr))))]).
Proof.
  intros b rb wb tm tr s t x s1 ev n R S I N.
  pose proof (run_wf _ _ _ _ _ _ R) as W. destruct (cfg_run _ _ _ _ _ _ R) as (_ & M).
  pose proof (wlen_le _ W) as WL.
  cbn [step] in S. destruct (s_thr s t) eqn:T; try discriminate. cbn [call_body] in S.
  unfold canwrite in S. destruct (p_closed (s_pipe s) || p_eof (s_pipe s)) eqn:CE.
  { cbn in S. injection S as <- <-. cbn in I. intuition discriminate. }
  destruct (wlen (s_pipe s) <=? 0) eqn:L0.
  { cbn in S. injection S as <- <-. cbn in I. exfalso.
    destruct I as [I|[I|[I|[I|[]]]]]; try discriminate. injection I as <-. lia. }
  cbn in S. injection S as <- <-. cbn in I.
  destruct I as [I|[I|[I|[I|[]]]]]; try discriminate. injection I as <-. split; [lia|].
  intros t' arr x' T'. cbn [step s_thr s_pipe] in *. rewrite T'. cbn [call_body s_pipe].
  unfold write_body. rewrite CE, L0. cbn [finish o_fin o_notify o_acc o_take o_pipe].
  unfold finish. cbn [o_fin o_notify o_acc o_take o_pipe app snd].
  eexists. f_equal. f_equal. f_equal. f_equal; [|f_equal; f_equal].
  - f_equal. destruct (wlen (s_pipe s) <? Z.of_nat (length arr)) eqn:E; b2p; auto.
    rewrite firstn_all, firstn_all2 by lia. reflexivity.
  - destr; b2p; do 3 f_equal; lia.
Qed.

(** bytes are accepted only while fewer than bsize are unread *)
Theorem c30_room : forall b rb wb tm tr s l s' ev t a, run (init b rb wb tm) tr s ->
  step s l = Some (s', ev) -> In (EAccept t a) ev -> a <> nil ->
  Z.of_nat (length (unread (s_pipe s))) < b.
Proof. exact accept_room. Qed.

(** with byte arrays only, the pipe never holds more than bsize unread bytes *)
Theorem c30_bound : forall b rb wb tm tr s, run (init b rb wb tm) tr s -> 0 <= b ->
  ~ called tr whole_write -> Z.of_nat (length (unread (s_pipe s))) <= b.
Proof. exact array_bound. Qed.

Example c30_case : exists s tr,
  exec (init 4 true false false)
    [LCall 1 OCanWrite false; LCall 2 (OWrite (DArray (L "abc"))) false;
     LCall 1 OCanWrite false; LCall 2 (OWrite (DArray (L "defg"))) false;
     LCall 1 OCanWrite false; LCall 2 (OWrite (DArray (L "h"))) false; LCall 1 OBuffered false]
  = Some (s, tr) /\ unread (s_pipe s) = L "abcd" /\
  map (fun e => match e with ERet _ v => v | _ => VNone end)
    (filter (fun e => match e with ERet _ _ => true | _ => false end) tr) =
    [VInt 4; VInt 3; VInt 1; VInt 1; VInt 0; VNone; VInt 4].
Proof. vm_compute. eexists _, _. split; [reflexivity|]. repeat split; reflexivity. Qed.

(** ** C31: end of file *)
(** Missing for the full property: histories in which an empty bytearray is written (it is
    false there) *)
Theorem c31_eof_partial : forall b rb wb tm tr s, run (init b rb wb tm) tr s ->
  forall a t c n, tr = a ++ ERet t (VData nil) :: c ->
  pd_op (pend t a) = Some (ORead n) \/ pd_op (pend t a) = Some (OReadInto n) -> (0 < n)%nat ->
  ~ called a empty_array_write ->
  called a ends_stream /\ accepted a = taken a ++ discarded a.
Proof. exact read_eof. Qed.

Theorem c31_readall_partial : forall b rb wb tm tr s, run (init b rb wb tm) tr s ->
  forall a t c v, tr = a ++ ERet t (VData v) :: c ->
  pd_op (pend t a) = Some OReadAll ->
  ~ called a empty_array_write -> ~ called a sets_nonblocking ->
  called a ends_stream /\ accepted a = taken a ++ discarded a.
Proof. exact readall_complete. Qed.

Example c31_case : exists s tr,
  exec (init 4 true true false)
    [LCall 1 OReadAll false; LCall 2 (OWrite (DArray (L "abc"))) false; LRun 1 false;
     LCall 2 (OWrite (DBytes (L "defgh"))) false; LCall 2 OWriteEof false; LRun 1 false;
     LCall 1 (ORead 5) false]
  = Some (s, tr) /\
  map (fun e => match e with ERet 1 v => v | _ => VNone end)
    (filter (fun e => match e with ERet 1 _ => true | _ => false end) tr) =
    [VData (L "abcdefgh"); VData nil].
Proof. vm_compute. eexists _, _. split; [reflexivity|]. repeat split; reflexivity. Qed.

(** canread() = True: the next read call, by any thread, returns data or the empty string at
    once; canread() = False: there is nothing to read and the stream has not ended *)
Theorem c31_canread : forall b rb wb tm tr s t x s1 ev c, run (init b rb wb tm) tr s ->
  step s (LCall t OCanRead x) = Some (s1, ev) -> In (ERet t (VBool c)) ev ->
  if c then
    forall t' n x', s_thr s1 t' = Idle ->
      exists s2 d, step s1 (LCall t' (ORead n) x') =
        Some (s2, [ECall t' (ORead n); EAccept t' nil; ETake t' d; ERet t' (VData d)])
  else unread (s_pipe s) = nil /\ p_eof (s_pipe s) = false /\
       forall t' n x', s_thr s1 t' = Idle -> forall s2 ev2 d,
         step s1 (LCall t' (ORead n) x') = Some (s2, ev2) -> ~ In (ERet t' (VData d)) ev2.
Proof.
  intros b rb wb tm tr s t x s1 ev c R S I.
  cbn [step] in S. destruct (s_thr s t) eqn:T; try discriminate. cbn [call_body] in S.
  unfold canread in S. destruct (p_closed (s_pipe s)) eqn:C.
  { unfold pure, finish in S. cbn in S. injection S as <- <-.
    cbn in I. intuition discriminate. }
  assert (s_pipe s1 = s_pipe s /\ c = match p_buf (s_pipe s) with _ :: _ => true | nil => p_eof (s_pipe s) end) as (Ep & Ec).
  { destruct (p_buf (s_pipe s)); unfold pure, finish in S; cbn in S; injection S as <- <-;
      cbn in I; (split; [reflexivity|]); intuition congruence. }
  clear S I. subst c.
  destruct (p_buf (s_pipe s)) as [|src rest] eqn:B.
  - destruct (p_eof (s_pipe s)) eqn:F.
    + intros t' n x' T'. cbn [step]. rewrite T'. cbn [call_body]. rewrite Ep.
      unfold read_start. rewrite B. unfold readinto_start, readinto_loop.
      replace (p_buf (flag_set (s_pipe s))) with (@nil str) by (unfold flag_set; destruct (p_rflag (s_pipe s)); auto).
      replace (p_eof (flag_set (s_pipe s))) with true by (unfold flag_set; destruct (p_rflag (s_pipe s)); auto).
      cbn [read_out]. unfold finish. cbn [o_fin o_notify o_acc o_take o_pipe app]. eauto.
    + split; [unfold unread; rewrite B; apply skipn_nil|]. split; [reflexivity|].
      intros t' n x' T' s2 ev2 d S2 I2. cbn [step] in S2. rewrite T' in S2. cbn [call_body] in S2. rewrite Ep in S2.
      unfold read_start in S2. rewrite B in S2. unfold readinto_start, readinto_loop in S2.
      replace (p_buf (flag_set (s_pipe s))) with (@nil str) in S2 by (unfold flag_set; destruct (p_rflag (s_pipe s)); auto).
      replace (p_eof (flag_set (s_pipe s))) with false in S2 by (unfold flag_set; destruct (p_rflag (s_pipe s)); auto).
      destruct (p_rbl _); [destruct (p_tmo _ && x')|]; cbn [read_out] in S2; unfold finish in S2;
        cbn [o_fin o_notify o_acc o_take o_pipe app] in S2; injection S2 as <- <-; cbn in I2; intuition discriminate.
  - intros t' n x' T'. cbn [step]. rewrite T'. cbn [call_body]. rewrite Ep.
    assert (exists q nt d, read_start (s_pipe s) n x' = RGot q nt d) as (q & nt & d & E).
    { unfold read_start. rewrite B. unfold readinto_start, readinto_loop.
      replace (p_buf (flag_set (s_pipe s))) with (src :: rest) by (unfold flag_set; destruct (p_rflag (s_pipe s)); auto).
      repeat match goal with |- context [match ?k with O => _ | S _ => _ end] => destruct k
             | |- context [if ?k then _ else _] => destruct k end; eauto. }
    rewrite E. cbn [read_out]. unfold finish. cbn [o_fin o_notify o_acc o_take o_pipe app]. eauto.
Qed.

(** writing an empty bytearray makes a later read report end of file although the
    stream has not ended *)
Theorem c31_eof_refuted : exists s tr a t c,
  run (init 4 true true false) tr s /\ tr = a ++ ERet t (VData nil) :: c /\
  pd_op (pend t a) = Some (ORead 5) /\ ~ called tr ends_stream.
Proof.
  destruct (exec (init 4 true true false)
    [LCall 2 (OWrite (DArray nil)) false; LCall 1 (ORead 5) false])
    as [[s tr]|] eqn:E; [|vm_compute in E; discriminate].
  exists s, tr. pose proof (exec_run0 _ _ _ _ E) as R. vm_compute in E. injection E as _ E.
  exists (firstn 7 tr), 1%nat, nil. split; [exact R|]. rewrite <- E. repeat split.
  intros (t & o & I & [-> | ->]); cbn in I; intuition discriminate.
Qed.

(** readall does not restore a non-blocking pipe's mode *)
Theorem c31_mode_refuted : exists s tr,
  run (init 4 false true false) tr s /\
  tr = [ECall 2 OWriteEof; EAccept 2 nil; ETake 2 nil; ERet 2 VNone;
        ECall 1 OReadBlocking; EAccept 1 nil; ETake 1 nil; ERet 1 (VBool false);
        ECall 1 OReadAll; EAccept 1 nil; ETake 1 nil; ERet 1 (VData nil);
        ECall 1 OReadBlocking; EAccept 1 nil; ETake 1 nil; ERet 1 (VBool true)]%nat.
Proof.
  destruct (exec (init 4 false true false)
    [LCall 2 OWriteEof false; LCall 1 OReadBlocking false; LCall 1 OReadAll false;
     LCall 1 OReadBlocking false])
    as [[s tr]|] eqn:E; [|vm_compute in E; discriminate].
  exists s, tr. split; [eapply exec_run0; exact E|]. vm_compute in E. injection E as _ <-. reflexivity.
Qed.

(** ** C45: no lost wake-up *)
(** a reader or writer that has not been notified really has to wait *)
Theorem c45_readers_writers : forall b rb wb tm tr s t w, run (init b rb wb tm) tr s ->
  s_thr s t = Waiting false w -> w <> WFlush -> (forall tmo, w <> WCond Empty tmo) ->
  must_wait (s_pipe s) w.
Proof.
  intros b rb wb tm tr s t w R T N1 N2. apply (waits_run _ _ _ _ _ _ R t w T).
  destruct w as [d|k|m cs| |[] tmo]; cbn; try tauto; congruence.
Qed.

(** flush and flush_wait return only when all that was accepted has been taken out *)
Theorem c45_flush_returns : forall b rb wb tm tr s a o, run (init b rb wb tm) tr s -> returned_none tr o a ->
  o = OFlush \/ (exists tmo, o = OWaitFor Empty tmo) ->
  accepted a = taken a ++ discarded a.
Proof. exact flush_returns. Qed.

(** write_wait returns only when there is room *)
Theorem c45_write_wait_returns : forall b rb wb tm tr s a tmo, run (init b rb wb tm) tr s ->
  returned_none tr (OWaitFor CanWrite tmo) a ->
  Z.of_nat (length (accepted a)) - Z.of_nat (length (taken a ++ discarded a)) < b.
Proof. exact write_wait_returns. Qed.

(** read_wait returns only when there is something to read or the stream has ended.
    Missing for the full property: histories in which an empty bytearray is written *)
Theorem c45_read_wait_returns_partial : forall b rb wb tm tr s a tmo, run (init b rb wb tm) tr s ->
  returned_none tr (OWaitFor CanRead tmo) a -> ~ called a empty_array_write ->
  called a ends_stream \/ accepted a <> taken a ++ discarded a.
Proof. exact read_wait_returns. Qed.
Example c45_waits_case : exists s tr,
  exec (init 3 true true false)
    [LCall 1 (OWaitFor CanRead false) false; LCall 2 (OWrite (DBytes (L "abc"))) false;
     LCall 2 (OWaitFor CanWrite false) false; LCall 3 OFlush false; LRun 1 false;
     LCall 1 (ORead 3) false; LRun 2 false; LRun 3 false] = Some (s, tr) /\
  (forall o, In o [OWaitFor CanRead false; OWaitFor CanWrite false; OFlush] ->
     exists a, returned_none tr o a).
Proof.
  eexists _, _. split; [vm_compute; reflexivity|].
  intros o [<-|[<-|[<-|[]]]].
  - match goal with |- exists a, returned_none ?tr _ _ => exists (firstn 15 tr), 1%nat, (skipn 16 tr) end.
    split; vm_compute; reflexivity.
  - match goal with |- exists a, returned_none ?tr _ _ => exists (firstn 22 tr), 2%nat, (skipn 23 tr) end.
    split; vm_compute; reflexivity.
  - match goal with |- exists a, returned_none ?tr _ _ => exists (firstn 25 tr), 3%nat, (skipn 26 tr) end.
    split; vm_compute; reflexivity.
Qed.

(** every notified thread, and every idle one, can go on *)
Theorem c45_enabled : forall b rb wb tm tr s, run (init b rb wb tm) tr s ->
  (forall t o x, s_thr s t = Idle -> exists r, step s (LCall t o x) = Some r) /\
  (forall t w x, s_thr s t = Waiting true w -> exists r, step s (LRun t x) = Some r).
Proof. exact step_enabled. Qed.

(** the same for flush and flush_wait, unless an empty bytearray was written *)
Theorem c45_flush_partial : forall b rb wb tm tr s t w, run (init b rb wb tm) tr s ->
  s_thr s t = Waiting false w -> ~ called tr empty_array_write ->
  must_wait (s_pipe s) w.
Proof. intros b rb wb tm tr s t w R T N. apply (waits_run _ _ _ _ _ _ R t w T). auto. Qed.

Theorem c45_flush_refuted : exists s tr,
  run (init 4 true true false) tr s /\ s_thr s 2%nat = Waiting false WFlush /\
  p_buf (s_pipe s) = nil.
Proof.
  destruct (exec (init 4 true true false)
    [LCall 2 (OWrite (DArray nil)) false; LCall 2 OFlush false; LCall 1 (OReadInto 5) false])
    as [[s tr]|] eqn:E; [|vm_compute in E; discriminate].
  exists s, tr. split; [eapply exec_run0; exact E|].
  vm_compute in E. injection E as <- _. split; reflexivity.
Qed.

Example c45_case : exists s tr,
  exec (init 4 true true false)
    [LCall 1 (ORead 3) false; LCall 2 (OWrite (DArray (L "abcd"))) false;
     LCall 2 (OWrite (DArray (L "e"))) false; LCall 3 OFlush false]
  = Some (s, tr) /\
  s_thr s 1%nat = Waiting true (WRead (KRead 3)) /\
  s_thr s 2%nat = Waiting false (WWrite (DArray (L "e"))) /\
  s_thr s 3%nat = Waiting false WFlush.
Proof. vm_compute. eexists _, _. split; [reflexivity|]. repeat split; reflexivity. Qed.

(** ** C46: time-outs happen only when asked for *)
(** Missing for the full property: readmatch with several readers (false there) *)
Theorem c46_timeout_partial : forall b rb wb tm tr s, run (init b rb wb tm) tr s ->
  forall a t c o, tr = a ++ ERet t (VErr ETIMEDOUT) :: c -> pd_op (pend t a) = Some o ->
  tm = true \/ (exists cd, o = OWaitFor cd true) \/ (exists m, o = OReadMatch m).
Proof. exact run_timeout. Qed.

Theorem c46_readmatch_partial : forall b rb wb tr s, run (init b rb wb false) tr s -> single_reader tr ->
  forall a t c o, tr = a ++ ERet t (VErr ETIMEDOUT) :: c -> pd_op (pend t a) = Some o ->
  exists cd, o = OWaitFor cd true.
Proof. exact readmatch_single. Qed.

(** without any time limit, readmatch raises ETIMEDOUT as soon as another thread reads *)
Theorem c46_readmatch_refuted : exists s tr a t c,
  run (init 10 true true false) tr s /\ tr = a ++ ERet t (VErr ETIMEDOUT) :: c /\
  pd_op (pend t a) = Some (OReadMatch (L ".")).
Proof.
  destruct (exec (init 10 true true false)
    [LCall 2 (OWrite (DBytes (L "abc"))) false; LCall 1 (OReadMatch (L ".")) false;
     LCall 3 (ORead 2) false; LRun 1 false])
    as [[s tr]|] eqn:E; [|vm_compute in E; discriminate].
  exists s, tr. pose proof (exec_run0 _ _ _ _ E) as R. vm_compute in E. injection E as _ E.
  exists (firstn 13 tr), 1%nat, nil. split; [exact R|]. rewrite <- E. repeat split.
Qed.

Example c46_case : exists s tr,
  exec (init 10 true true true)
    [LCall 1 (ORead 3) false; LRun 1 true] = Some (s, tr) /\
  In (ERet 1 (VErr ETIMEDOUT)) tr.
Proof. vm_compute. eexists _, _. split; [reflexivity|]. repeat (first [left; reflexivity | right]). Qed.
Example c46_single : exists s tr,
  exec (init 10 true true false)
    [LCall 1 (OReadMatch (L ".")) false; LCall 2 (OWrite (DBytes (L "a.b"))) false; LRun 1 false] = Some (s, tr) /\
  In (ERet 1 (VData (L "a."))) tr /\ single_reader tr.
Proof.
  vm_compute. eexists _, _. split; [reflexivity|]. split; [repeat (first [left; reflexivity | right])|].
  intros t t' o o' H H' I I'.
  repeat (destruct H as [H|H]; [try discriminate; inversion H; subst; cbn in I; try contradiction|]);
  repeat (destruct H' as [H'|H']; [try discriminate; inversion H'; subst; cbn in I'; try contradiction|]); auto; try destruct H; try destruct H'.
Qed.

(** ** C47: the event registered with set_rflag *)
(** a read call that gets its data without waiting leaves the event set.
    Missing for the full property: calls that had to wait (false there) *)
Theorem c47_event_partial : forall b rb wb tm tr s t o x s' ev sd, run (init b rb wb tm) tr s ->
  step s (LCall t o x) = Some (s', ev) -> In (ETake t sd) ev -> sd <> nil ->
  p_rflag (s_pipe s') = None \/ p_rflag (s_pipe s') = Some true.
Proof.
  intros b rb wb tm tr s t o x s' ev sd R S I N. apply step_case in S. inversion S; subst.
  - rewrite finish_pipe. destruct I as [I|I]; [discriminate|].
    assert (o_take r = sd) as E by (revert I; unfold finish; destruct (o_fin r); cbn; intuition congruence).
    rewrite <- E in N. pose proof (call_flag _ _ _ _ H6 N) as F.
    destruct (p_rflag (o_pipe r)) as [[|]|]; auto. congruence.
  - destruct I as [I|[I|[]]]; discriminate.
Qed.

(** a reader that was waiting takes data and makes room without setting the event that
    canwrite cleared: the writer is not told *)
Theorem c47_event_refuted : exists s tr,
  run (init 4 true true false) tr s /\ s_thr s 1%nat = Idle /\
  In (ETake 1 (L "ab")) tr /\ p_rflag (s_pipe s) = Some false /\ snd (canwrite (s_pipe s)) = Some 2.
Proof.
  destruct (exec (init 4 true true false)
    [LCall 2 (OSetRFlag true) false; LCall 1 (ORead 2) false; LCall 2 (OWrite (DArray (L "abcd"))) false;
     LCall 2 OCanWrite false; LRun 1 false])
    as [[s tr]|] eqn:E; [|vm_compute in E; discriminate].
  exists s, tr. split; [eapply exec_run0; exact E|].
  vm_compute in E. injection E as <- <-. repeat split; try reflexivity. cbn. repeat (first [left; reflexivity | right]).
Qed.
Example c47_case : exists s tr,
  exec (init 4 true true false)
    [LCall 2 (OSetRFlag true) false; LCall 2 (OWrite (DArray (L "abcd"))) false;
     LCall 2 OCanWrite false; LCall 1 (ORead 2) false] = Some (s, tr) /\ p_rflag (s_pipe s) = Some true.
Proof. vm_compute. eexists _, _. split; reflexivity. Qed.

Print Assumptions c29_fifo.
Print Assumptions c29_returns.
Print Assumptions c29_returned_partial.
Print Assumptions c29_returned_refuted.
Print Assumptions c30_buffered_partial.
Print Assumptions c30_buffered_refuted.
Print Assumptions c30_blocked_writer_refuted.
Print Assumptions c30_canwrite.
Print Assumptions c30_room.
Print Assumptions c30_bound.
Print Assumptions c31_eof_partial.
Print Assumptions c31_canread.
Print Assumptions c31_readall_partial.
Print Assumptions c31_eof_refuted.
Print Assumptions c31_mode_refuted.
Print Assumptions c45_readers_writers.
Print Assumptions c45_enabled.
Print Assumptions c45_flush_partial.
Print Assumptions c45_flush_refuted.
Print Assumptions c46_timeout_partial.
Print Assumptions c46_readmatch_partial.
Print Assumptions c46_readmatch_refuted.
Print Assumptions c47_event_partial.
Print Assumptions c47_event_refuted.
Print Assumptions c45_flush_returns.
Print Assumptions c45_write_wait_returns.
Print Assumptions c45_read_wait_returns_partial.
