(** Proofs for C72-C78: the data of a message. *)
From Verif Require Import Py Num UriModel UriRel HttpModel HttpSpec HttpProofs HttpLex HttpParamModel HttpParamSpec
  HttpProps HttpParamProofs HttpParamMain MsgModel MsgSpec MsgLex MsgHead MsgRecv.

Lemma write_loop_ok : forall fuel buf out ws buf' out' ws', (length buf <= fuel)%nat ->
  write_loop fuel buf out ws = (buf', out', ws') ->
  out' ++ buf' = out ++ buf /\ (length ws' <= length ws)%nat /\ (buf' <> [] -> (length ws' < length ws)%nat).
Proof.
  induction fuel as [|f IH]; intros buf out ws buf' out' ws' L H.
  - destruct buf; [|cbn in L; lia]. cbn in H. inversion H; subst. repeat split; [lia|congruence].
  - destruct buf as [|c buf]; [cbn in H; inversion H; subst; repeat split; [lia|congruence]|]. cbn [write_loop] in H.
    destruct ws as [|[k|] ws].
    + inversion H; subst. rewrite app_nil_r. repeat split; [lia|congruence].
    + apply IH in H as (H1 & H2 & H3).
      * split; [|split; [cbn; lia|intros N; apply H3 in N; cbn; lia]]. rewrite H1, <- app_assoc, firstn_skipn. reflexivity.
      * rewrite skipn_length. cbn [length] in *. lia.
    + inversion H; subst. repeat split; cbn; lia.
Qed.

Definition upd (m : rmsg) (mode : option rmode) (pos : Z) (buf out : str) (ws : list (option nat)) (fl : list bool) : rmsg :=
  mkR (r_kind m) mode (r_method m) (r_uri m) (r_status m) (r_reason m) (r_proto m) (r_headers m) (r_curr m)
      (r_chunked m) (r_len m) pos (r_bound m) (r_bmatch m) (r_keep m) buf out ws fl.
Definition interim (st : Z) : bool := (100 <=? st) && (st <=? 199) && negb (st =? 101).
Lemma finished_upd : forall m mode pos buf out ws fl, interim (r_status m) = false ->
  finished (upd m mode pos buf out ws fl) = upd m mode pos buf out ws fl.
Proof. intros m [mode|] pos buf out ws fl H; unfold finished; cbn [r_mode r_status upd]; [reflexivity|]. unfold interim in H. rewrite H. reflexivity. Qed.

Definition data_end (m : rmsg) : option rmode := if r_chunked m then Some CHUNK_END else None.
(** what recv_buffered does *)
Lemma buffered : forall m n mode pos buf out ws fl, r_len m = Some n -> 
  exists mode' buf' out' ws' fl', recv_buffered (upd m mode pos buf out ws fl) = Ok (upd m mode' pos buf' out' ws' fl') /\
    out' ++ buf' = out ++ buf /\ (r_chunked m = true -> fl' = fl) /\
    (length ws' + length fl' <= length ws + length fl)%nat /\
    ( (mode' = Some BLOCKED /\ (length ws' + length fl' < length ws + length fl)%nat)
      \/ (mode' = Some DATA /\ buf' = [] /\ pos < n)
      \/ (mode' = data_end m /\ buf' = [] /\ n <= pos)).
Proof.
  intros m n mode pos buf out ws fl L. unfold recv_buffered. cbn [r_buf r_out r_ws r_fl upd].
  destruct (write_loop (length buf) buf out ws) as [[buf' out'] ws'] eqn:W. apply write_loop_ok in W as (E & L1 & L2); [|lia].
  destruct buf' as [|c buf'].
  - cbn [r_chunked set_io upd r_len r_pos]. rewrite L. unfold data_end. destruct (r_chunked m) eqn:C.
    + destruct (Z.leb_spec n pos) as [P|P]; eexists _, [], out', ws', fl; (split; [unfold upd, set_mode, set_io; cbn; rewrite C; reflexivity|]); (split; [exact E|]); (split; [reflexivity|]); (split; [lia|]); right; [right|left]; auto.
    + destruct (Z.leb_spec n pos) as [P|P].
      * unfold flush_then. cbn [r_fl set_io upd r_buf r_out r_ws]. destruct fl as [|[|] fl].
        -- exists None, [], out', ws', []. split; [unfold upd, set_mode, set_io; cbn; rewrite C; reflexivity|]. split; [exact E|]. split; [congruence|]. split; [cbn; lia|]. right. right. auto.
        -- exists (Some BLOCKED), [], out', ws', fl. split; [unfold upd, set_mode, set_io; cbn; rewrite C; reflexivity|]. split; [exact E|]. split; [congruence|]. split; [cbn; lia|]. left. split; [reflexivity|cbn; lia].
        -- exists None, [], out', ws', fl. split; [unfold upd, set_mode, set_io; cbn; rewrite C; reflexivity|]. split; [exact E|]. split; [congruence|]. split; [cbn; lia|]. right. right. auto.
      * eexists (Some DATA), [], out', ws', fl. split; [unfold upd, set_mode, set_io; cbn; rewrite C; reflexivity|]. split; [exact E|]. split; [reflexivity|]. split; [lia|]. right. left. auto.
  - eexists (Some BLOCKED), (c :: buf'), out', ws', fl. split; [reflexivity|]. split; [exact E|]. split; [reflexivity|]. split; [lia|].
    left. split; [reflexivity|]. assert (length ws' < length ws)%nat by (apply L2; discriminate). lia.
Qed.

Definition is_blocked (mode : rmode) : nat := match mode with BLOCKED => 1 | _ => 0 end.
Lemma data_phase : forall k m n, r_len m = Some n -> r_bound m = None -> 0 < n -> interim (r_status m) = false ->
  forall mode pos buf out ws fl bufs inn d rest,
  (mode = DATA /\ buf = [] /\ pos < n \/ mode = BLOCKED) -> 0 <= pos <= n ->
  wf inn -> wf bufs -> bytes_of bufs inn = d ++ rest -> Z.of_nat (length d) = n - pos ->
  (2 * length d + 2 * length inn + length ws + length fl + is_blocked mode <= k)%nat ->
  exists bufs' inn' ws' fl', wf inn' /\ wf bufs' /\ bytes_of bufs' inn' = rest /\ (r_chunked m = true -> fl' = fl) /\
    steps (mkC (upd m (Some mode) pos buf out ws fl) bufs inn false)
          (mkC (upd m (data_end m) n [] (out ++ buf ++ d) ws' fl') bufs' inn' false).
Proof.
  induction k as [k IH] using lt_wf_ind. intros m n L B N I0 mode pos buf out ws fl bufs inn d rest M P Wi Wb E D K.
  (* once recv_buffered has been called *)
  assert (Q : forall mode0 pos' buf0 bufs' d', pos <= pos' <= n -> wf bufs' -> bytes_of bufs' inn = d' ++ rest -> Z.of_nat (length d') = n - pos' ->
     out ++ buf0 ++ d' = out ++ buf ++ d ->
     (2 * length d' + 1 <= 2 * length d + is_blocked mode)%nat ->
     (forall m1, recv_buffered (upd m mode0 pos' buf0 out ws fl) = Ok m1 ->
        conn_step (mkC (upd m (Some mode) pos buf out ws fl) bufs inn false) = Next (mkC (finished m1) bufs' inn false)) ->
     exists bufs' inn' ws' fl', wf inn' /\ wf bufs' /\ bytes_of bufs' inn' = rest /\ (r_chunked m = true -> fl' = fl) /\
       steps (mkC (upd m (Some mode) pos buf out ws fl) bufs inn false)
             (mkC (upd m (data_end m) n [] (out ++ buf ++ d) ws' fl') bufs' inn' false)).
  { intros mode0 pos' buf0 bufs' d' P' Wb' E' D' O' M' H.
    destruct (buffered m n mode0 pos' buf0 out ws fl L) as (mode' & buf1 & out1 & ws1 & fl1 & R & O1 & F1 & L1 & Cs).
    specialize (H _ R). rewrite finished_upd in H by exact I0.
    assert (Go : forall md, mode' = Some md -> (md = DATA /\ buf1 = [] /\ pos' < n \/ md = BLOCKED) ->
       (length ws1 + length fl1 + is_blocked md < length ws + length fl + 1)%nat ->
       exists bufs' inn' ws' fl', wf inn' /\ wf bufs' /\ bytes_of bufs' inn' = rest /\ (r_chunked m = true -> fl' = fl) /\
       steps (mkC (upd m (Some mode) pos buf out ws fl) bufs inn false)
             (mkC (upd m (data_end m) n [] (out ++ buf ++ d) ws' fl') bufs' inn' false)).
    { intros md -> Hm Hl.
      edestruct (IH (2 * length d' + 2 * length inn + length ws1 + length fl1 + is_blocked md)%nat ltac:(lia) m n L B N I0 md pos' buf1 out1 ws1 fl1 bufs' inn d' rest) as (b2 & i2 & w2 & f2 & X1 & X2 & X3 & X4 & X5); [assumption|lia|assumption|assumption|assumption|assumption|lia|].
      exists b2, i2, w2, f2. split; [exact X1|]. split; [exact X2|]. split; [exact X3|]. split; [intros C; rewrite (X4 C); apply F1; exact C|].
      eapply st_step; [exact H|]. replace (out ++ buf ++ d) with (out1 ++ buf1 ++ d'); [exact X5|]. rewrite app_assoc, O1, <- app_assoc. exact O'. }
    destruct Cs as [(Hm & Hl)|[(Hm & Hb & Hp)|(Hm & Hb & Hp)]].
    - apply (Go BLOCKED Hm); [right; reflexivity|cbn; lia].
    - apply (Go DATA Hm); [left; auto|cbn; lia].
    - assert (pos' = n) by lia. subst pos' buf1. assert (d' = []) by (destruct d'; [reflexivity|cbn in D'; lia]). subst d'.
      exists bufs', inn, ws1, fl1. split; [exact Wi|]. split; [exact Wb'|]. split; [exact E'|]. split; [exact F1|].
      eapply st_step; [exact H|]. rewrite Hm. rewrite app_nil_r in O1, O'. rewrite O1, O'. apply st_refl. }
  destruct M as [(-> & -> & Pn)| ->].
  - (* DATA *)
    assert (RM : recv_mode (upd m (Some DATA) pos [] out ws fl) = Some (n - pos)).
    { unfold recv_mode. cbn [r_mode upd r_len r_pos]. rewrite L. destruct (Z.eqb_spec n 0); [lia|reflexivity]. }
    assert (Mo : (n - pos =? RECV_HEADERS) = false /\ (n - pos =? RECV_LINE) = false /\ (n - pos =? RECV_ALL) = false /\ (n - pos =? 0) = false /\ (0 <? n - pos) = true).
    { unfold RECV_HEADERS, RECV_LINE, RECV_ALL. repeat split; try (apply Z.eqb_neq; lia). apply Z.ltb_lt. lia. }
    destruct Mo as (M1 & M2 & M3 & M4 & M5).
    destruct bufs as [|dd bufs].
    + (* nothing in the buffer *)
      unfold bytes_of in E. cbn [concat app] in E. destruct inn as [|p inn].
      { cbn in E. symmetry in E. apply app_eq_nil in E as [-> _]. cbn in D. lia. }
      edestruct (IH (2 * length d + 2 * length inn + length ws + length fl + is_blocked DATA)%nat ltac:(cbn in K |- *; lia) m n L B N I0 DATA pos (@nil Z) out ws fl [p] inn d rest)
        as (b2 & i2 & w2 & f2 & X1 & X2 & X3 & X4 & X5); [auto|lia|inversion Wi; assumption|constructor; [inversion Wi; assumption|constructor]| |exact D|lia|].
      { unfold bytes_of. cbn [concat]. rewrite app_nil_r. exact E. }
      exists b2, i2, w2, f2. split; [exact X1|]. split; [exact X2|]. split; [exact X3|]. split; [exact X4|].
      eapply (st_step _ (mkC (upd m (Some DATA) pos [] out ws fl) [] (p :: inn) true)); [|eapply st_step; [reflexivity|exact X5]].
      unfold conn_step. cbn [c_recv c_msg c_buf c_in]. rewrite RM, M1, M2, M3, M4, M5. reflexivity.
    + inversion Wb as [|? ? Hd Wb']; subst. unfold bytes_of in E. cbn [concat] in E. rewrite <- app_assoc in E.
      assert (Rv : forall x, x <> [] -> Z.of_nat (length x) <= n - pos ->
        recv (upd m (Some DATA) pos [] out ws fl) (IData x) = recv_buffered (upd m (Some DATA) (pos + Z.of_nat (length x)) x out ws fl)).
      { intros x Hx Lx. destruct x as [|c x]; [congruence|]. unfold recv. cbn [r_mode upd]. unfold recv_data. cbn [r_bound upd]. rewrite B. cbv iota zeta.
        cbn [r_len set_frame upd r_pos r_chunked r_bound r_bmatch]. rewrite L. destruct (Z.eqb_spec n 0); [lia|].
        destruct (Z.ltb_spec n (pos + Z.of_nat (length (c :: x)))); [lia|]. unfold upd. rewrite L. reflexivity. }
      destruct (Z.leb_spec (Z.of_nat (length dd)) (n - pos)) as [Ld|Ld].
      * destruct (prefix_split d rest dd (concat bufs ++ concat inn) (eq_sym E)) as (x & Ed & Ex); [lia|]. subst d. rewrite app_length in *.
        apply (Q (Some DATA) (pos + Z.of_nat (length dd)) dd bufs x); [lia|assumption|unfold bytes_of; exact Ex|lia|reflexivity|destruct dd; [congruence|cbn; lia]|].
        intros m1 R1. unfold conn_step. cbn [c_recv c_msg c_buf c_in]. rewrite RM, M1, M2, M3, M4, M5.
        destruct (Z.leb_spec (Z.of_nat (length dd)) (n - pos)); [|lia]. unfold give. cbn [c_msg c_in]. rewrite Rv, R1 by assumption. reflexivity.
      * destruct (prefix_split dd (concat bufs ++ concat inn) d rest E) as (x & Ed & Ex); [lia|]. subst dd. rewrite app_length in *.
        assert (Nd : d <> []) by (destruct d; [cbn in D; lia|discriminate]).
        apply (Q (Some DATA) (pos + Z.of_nat (length d)) d (x :: bufs) []); [lia|constructor; [destruct x; [cbn in Ld; lia|discriminate]|assumption]|unfold bytes_of; cbn [concat app]; rewrite <- app_assoc; symmetry; exact Ex|cbn; lia|rewrite app_nil_r; reflexivity|destruct d; [congruence|cbn; lia]|].
        intros m1 R1. unfold conn_step. cbn [c_recv c_msg c_buf c_in]. rewrite RM, M1, M2, M3, M4, M5.
        destruct (Z.leb_spec (Z.of_nat (length (d ++ x))) (n - pos)); [rewrite app_length in *; lia|]. unfold give. cbn [c_msg c_in].
        replace (Z.to_nat (n - pos)) with (length d) by lia. rewrite firstn_app, Nat.sub_diag, firstn_all, skipn_app, Nat.sub_diag, skipn_all. cbn [firstn skipn app].
        rewrite app_nil_r, Rv, R1 by (assumption || lia). reflexivity.
  - (* BLOCKED *)
    apply (Q (Some BLOCKED) pos buf bufs d); [lia|assumption|assumption|assumption|reflexivity|cbn; lia|].
    intros m1 R1. unfold conn_step. cbn [c_recv c_msg c_buf c_in]. unfold recv_mode at 1. cbn [r_mode upd].
    change (0 =? RECV_HEADERS) with false. change (0 =? RECV_LINE) with false. change (0 =? RECV_ALL) with false. change (0 =? 0) with true. cbv iota.
    unfold give. cbn [c_msg c_in]. unfold recv. cbn [r_mode upd]. unfold upd in R1 |- *. rewrite R1. reflexivity.
Qed.

(** ** reading until the connection is closed *)
Lemma buffered_all : forall m mode pos buf out ws fl, r_len m = None -> r_chunked m = false ->
  exists mode' buf' out' ws', recv_buffered (upd m mode pos buf out ws fl) = Ok (upd m (Some mode') pos buf' out' ws' fl) /\
    out' ++ buf' = out ++ buf /\ (length ws' <= length ws)%nat /\
    ( (mode' = BLOCKED /\ (length ws' < length ws)%nat) \/ (mode' = DATA /\ buf' = [])).
Proof.
  intros m mode pos buf out ws fl L C. unfold recv_buffered. cbn [r_buf r_out r_ws r_fl upd].
  destruct (write_loop (length buf) buf out ws) as [[buf' out'] ws'] eqn:W. apply write_loop_ok in W as (E & L1 & L2); [|lia].
  destruct buf' as [|c buf'].
  - cbn [r_chunked set_io upd r_len r_pos]. rewrite L, C. exists DATA, [], out', ws'. split; [unfold upd, set_mode, set_io; cbn; rewrite L, C; reflexivity|].
    split; [exact E|]. split; [exact L1|]. right. auto.
  - exists BLOCKED, (c :: buf'), out', ws'. split; [reflexivity|]. split; [exact E|]. split; [exact L1|]. left. split; [reflexivity|]. apply L2. discriminate.
Qed.
Lemma close_phase : forall k m, r_len m = None -> r_chunked m = false -> r_bound m = None ->
  forall mode pos buf out ws fl bufs inn,
  (mode = DATA /\ buf = [] \/ mode = BLOCKED) -> wf inn -> wf bufs ->
  (2 * length bufs + 4 * length inn + length ws + is_blocked mode <= k)%nat ->
  exists pos' ws', let c' := mkC (upd m (Some DATA) pos' [] (out ++ buf ++ bytes_of bufs inn) ws' fl) [] [] true in
    steps (mkC (upd m (Some mode) pos buf out ws fl) bufs inn false) c' /\ conn_step c' = Closed c'.
Proof.
  induction k as [k IH] using lt_wf_ind. intros m L C B mode pos buf out ws fl bufs inn M Wi Wb K.
  assert (Q : forall mode0 pos' buf0 bufs', wf bufs' -> out ++ buf0 ++ bytes_of bufs' inn = out ++ buf ++ bytes_of bufs inn ->
     (2 * length bufs' + 1 <= 2 * length bufs + is_blocked mode)%nat ->
     (forall m1, recv_buffered (upd m mode0 pos' buf0 out ws fl) = Ok m1 ->
        conn_step (mkC (upd m (Some mode) pos buf out ws fl) bufs inn false) = Next (mkC (finished m1) bufs' inn false)) ->
     exists pos' ws', let c' := mkC (upd m (Some DATA) pos' [] (out ++ buf ++ bytes_of bufs inn) ws' fl) [] [] true in
       steps (mkC (upd m (Some mode) pos buf out ws fl) bufs inn false) c' /\ conn_step c' = Closed c').
  { intros mode0 pos' buf0 bufs' Wb' O' M' H.
    destruct (buffered_all m mode0 pos' buf0 out ws fl L C) as (mode' & buf1 & out1 & ws1 & R & O1 & L1 & Cs).
    specialize (H _ R). change (finished (upd m (Some mode') pos' buf1 out1 ws1 fl)) with (upd m (Some mode') pos' buf1 out1 ws1 fl) in H.
    edestruct (IH (2 * length bufs' + 4 * length inn + length ws1 + is_blocked mode')%nat) as (p2 & w2 & X1 & X2);
      [|exact L|exact C|exact B| |exact Wi|exact Wb'|apply le_n|].
    - destruct Cs as [[-> ?]|[-> ?]]; cbn; lia.
    - destruct Cs as [[-> ?]|[-> ?]]; [right; reflexivity|left; split; [reflexivity|eassumption]].
    - exists p2, w2. replace (out ++ buf ++ bytes_of bufs inn) with (out1 ++ buf1 ++ bytes_of bufs' inn) by (rewrite app_assoc, O1, <- app_assoc; exact O').
      split; [|exact X2]. eapply st_step; [exact H|]. exact X1. }
  destruct M as [(-> & ->)| ->].
  - assert (RM : recv_mode (upd m (Some DATA) pos [] out ws fl) = Some RECV_ALL) by (unfold recv_mode; cbn [r_mode upd r_len r_pos]; rewrite L; reflexivity).
    destruct bufs as [|dd bufs].
    + destruct inn as [|p inn].
      * exists pos, ws. cbn [bytes_of concat app]. rewrite app_nil_r. split; [|reflexivity]. apply steps_one.
        unfold conn_step. cbn [c_recv c_msg c_buf c_in]. rewrite RM. reflexivity.
      * edestruct (IH (2 * length [p] + 4 * length inn + length ws + is_blocked DATA)%nat) with (bufs := [p]) (ws := ws) (mode := DATA) as (p2 & w2 & X1 & X2);
          [|exact L|exact C|exact B|left; split; reflexivity|inversion Wi; eassumption| |apply le_n|].
        { cbn in K |- *. lia. }
        { constructor; [inversion Wi; eassumption|constructor]. }
        exists p2, w2. replace (bytes_of [] (p :: inn)) with (bytes_of [p] inn) by (unfold bytes_of; cbn [concat app]; rewrite app_nil_r; reflexivity).
        split; [|exact X2]. eapply (st_step _ (mkC (upd m (Some DATA) pos [] out ws fl) [] (p :: inn) true)); [|eapply st_step; [reflexivity|exact X1]].
        unfold conn_step. cbn [c_recv c_msg c_buf c_in]. rewrite RM. reflexivity.
    + inversion Wb as [|? ? Hd Wb']; subst. apply (Q (Some DATA) (pos + Z.of_nat (length dd)) dd bufs); [exact Wb'| |cbn; lia|].
      * unfold bytes_of. cbn [concat app]. rewrite <- app_assoc. reflexivity.
      * intros m1 R1. unfold conn_step. cbn [c_recv c_msg c_buf c_in]. rewrite RM. unfold give. cbn [c_msg c_in]. destruct dd as [|c dd]; [congruence|].
        change (RECV_ALL =? RECV_HEADERS) with false. change (RECV_ALL =? RECV_LINE) with false. change (RECV_ALL =? RECV_ALL) with true. cbv iota.
        unfold recv. cbn [r_mode upd]. unfold recv_data. cbn [r_bound upd]. rewrite B. cbv iota zeta. cbn [r_len set_frame upd r_pos r_chunked r_bound r_bmatch]. rewrite L.
        unfold upd in R1. unfold set_io, set_frame. cbn. rewrite L, B in *. cbn in R1. rewrite R1. reflexivity.
  - apply (Q (Some BLOCKED) pos buf bufs); [exact Wb|reflexivity|cbn; lia|].
    intros m1 R1. unfold conn_step. cbn [c_recv c_msg c_buf c_in]. unfold recv_mode at 1. cbn [r_mode upd].
    change (0 =? RECV_HEADERS) with false. change (0 =? RECV_LINE) with false. change (0 =? RECV_ALL) with false. change (0 =? 0) with true. cbv iota.
    unfold give. cbn [c_msg c_in]. unfold recv. cbn [r_mode upd]. unfold upd in R1 |- *. rewrite R1. reflexivity.
Qed.
