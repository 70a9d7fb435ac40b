(** C108-C111: reading the body of a request, pyslet/http/messages.py 143-393. *)
From Verif Require Import WiModel WiSpec WiProofs WiChunk Py MsgSpec.

(** ** The operations of a wrapper, and the states they lead to *)
Section W.
Variable source : Type.
Variable sread : Z -> source -> res (str * source).
Notation wi := (wi source).
Definition perform (fuel : nat) (o : operation) (w : wi) : res (result * wi) :=
  match o with
  | Read n => let! (d, w') := read source sread fuel n w in Ok (Data d, w')
  | ReadAll => let! (d, w') := read source sread fuel (-1) w in Ok (Data d, w')
  | ReadLine limit => let! (d, w') := readline source sread fuel limit w in Ok (Data d, w')
  | Tell => Ok (Position (tell source w), w)
  | Seek offset f =>
      match seek source sread offset (wh f) w with
      | Ok w' => Ok (Done, w')
      | Err IOError => Ok (Fails, w)
      | Err e => Err e
      end
  end.
(** What can be reached from [w] by the operations considered; [n0] is how far can be gone back to *)
Inductive reached (n0 : Z) (L : option Z) (w : wi) : wi -> Prop :=
| rc_start : reached n0 L w w
| rc_step : forall w1 fuel o r w2, reached n0 L w w1 -> plain n0 L (tell source w1) o ->
    perform fuel o w1 = Ok (r, w2) -> reached n0 L w w2.

Variable R : source -> str -> option Z -> Prop.
Hypothesis stream_ok : input_stream source sread R.

Lemma readline_any : forall fuel limit line L C n0 w, Inv source R L C n0 w ->
  readline_loop source sread fuel limit line w = Err Timeout \/
  exists l w', readline_loop source sread fuel limit line w = Ok (l, w') /\ Inv source R L C n0 w'.
Proof using stream_ok.
  induction fuel as [|f IH]; intros limit line L C n0 w H; cbn [readline_loop];
    destruct ((limit <? 0) || (zlen line <? limit)); auto; try (right; exists line, w; auto; fail).
  destruct (read_ok source sread R stream_ok L C n0 w 1 H ltac:(lia)) as (d & b & w' & E1 & _ & _ & _ & _ & E6 & _).
  rewrite E1. cbn [rbind]. destruct d as [|y d]; [right; exists line, w'; auto|].
  destruct (str_eqb (y :: d) [10]); [right; eexists _, w'; auto|]. apply IH. exact E6.
Qed.
Lemma readall_any : forall fuel L C n0 w, Inv source R L C n0 w ->
  readall source sread fuel w = Err Timeout \/
  exists l w', readall source sread fuel w = Ok (l, w') /\ Inv source R L C n0 w'.
Proof using stream_ok.
  induction fuel as [|f IH]; intros L C n0 w H; cbn [readall]; auto.
  destruct (read_ok source sread R stream_ok L C n0 w DEFAULT_BUFFER_SIZE H ltac:(unfold DEFAULT_BUFFER_SIZE; lia)) as (d & b & w' & E1 & _ & _ & _ & _ & E6 & _).
  rewrite E1. cbn [rbind]. destruct d as [|y d]; [right; exists [], w'; auto|].
  destruct (IH L C n0 w' E6) as [E|(l & w'' & E & V)]; rewrite E; cbn [rbind]; auto. right. eexists _, w''. auto.
Qed.
Lemma perform_inv : forall L C n0 w fuel o r w', Inv source R L C n0 w -> plain n0 L (tell source w) o ->
  perform fuel o w = Ok (r, w') -> Inv source R L C n0 w'.
Proof using stream_ok.
  intros L C n0 w fuel o r w' H Pl E. destruct o as [n| |limit| |off f]; cbn [perform plain] in *.
  - unfold read in E. destruct (Z.eqb_spec n (-1)); [lia|].
    destruct (read_ok source sread R stream_ok L C n0 w n H Pl) as (d & b & w2 & E1 & _ & _ & _ & _ & E6 & _).
    rewrite E1 in E. injection E as <- <-. exact E6.
  - unfold read in E. cbn [Z.eqb Z.opp] in E. change (-1 =? -1) with true in E. cbn iota in E.
    destruct (readall_any fuel L C n0 w H) as [F|(l & w2 & F & V)]; rewrite F in E; [discriminate|]. injection E as <- <-. exact V.
  - unfold readline in E. destruct (readline_any fuel limit [] L C n0 w H) as [F|(l & w2 & F & V)]; rewrite F in E; [discriminate|]. injection E as <- <-. exact V.
  - injection E as <- <-. exact H.
  - destruct (seek_ok source sread R L C n0 w off f H Pl) as [(w2 & F & _ & V)|(F & _)]; rewrite F in E; injection E as <- <-; auto.
Qed.
Lemma reached_inv : forall L C n0 w w', Inv source R L C n0 w -> reached n0 L w w' -> Inv source R L C n0 w'.
Proof using stream_ok. intros L C n0 w w' H. induction 1 as [|w1 fuel o r w2 Hr IH Pl E]; [exact H|]. eapply perform_inv; eauto. Qed.
End W.

(** ** C108 *)
(** A wrapper of an input stream with the bytes [c], told that the body has [L] bytes (if known), is a file with the
    first [L] bytes of [c], of which the first seek_size can be gone back to.  No request takes the stream beyond
    [L] bytes: [input_stream] says nothing of what the stream does then.  Left out: a seek forward beyond what is
    kept. *)
Definition body (L : option Z) (c : str) : str := match L with Some l => firstn (Z.to_nat l) c | None => c end.
Theorem input_file_partial : forall source sread R, input_stream source sread R ->
  forall s c L seek_size, R s c L -> 0 <= seek_size -> (forall l, L = Some l -> 0 <= l) ->
  let n0 := Z.min seek_size (len (body L c)) in
  exists w0, open_input source sread L seek_size s = Ok w0 /\ tell source w0 = 0 /\
    forall w, reached source sread n0 L w0 w -> forall fuel o, (length c < fuel)%nat -> plain n0 L (tell source w) o ->
    exists r w', perform source sread fuel o w = Ok (r, w') /\ file_op (body L c) n0 L (tell source w) o r (tell source w').
Proof.
  intros source sread R IS s c L seek_size Rs S0 L0 n0.
  destruct (open_ok source sread R IS L seek_size s c Rs S0) as (w0 & O1 & O2 & O3). { destruct L; auto. }
  exists w0. split; [exact O1|]. split; [exact O3|]. intros w Hr fuel o F Pl. change (cut L c) with (body L c) in O2. fold n0 in O2.
  pose proof (reached_inv source sread R IS L c n0 w0 w O2 Hr) as H.
  assert (LB : (length (from (tell source w) (body L c)) < fuel)%nat).
  { unfold from. rewrite skipn_length. destruct L; cbn [body]; [rewrite firstn_length|]; lia. }
  destruct o as [n| |limit| |off f]; cbn [perform plain] in *.
  - unfold read. destruct (Z.eqb_spec n (-1)); [lia|].
    destruct (read_ok source sread R IS L c n0 w n H Pl) as (d & b & w' & E1 & E2 & E3 & E4 & E5 & E6 & E7).
    rewrite E1. cbn [rbind]. exists (Data d), w'. split; [reflexivity|]. unfold tell. rewrite E5. eapply fo_read; eauto.
  - unfold read. change (-1 =? -1) with true. cbn iota.
    destruct (readall_ok source sread R IS fuel L c n0 w H LB) as (w' & E1 & E2 & E3).
    rewrite E1. cbn [rbind]. eexists _, w'. split; [reflexivity|]. unfold tell. rewrite E2. apply fo_all.
  - destruct (readline_ok source sread R IS fuel limit [] L c n0 w H LB) as (l & w' & E1 & E2 & E3 & E4).
    unfold readline. rewrite E1. cbn [rbind app]. exists (Data l), w'. split; [reflexivity|]. unfold tell. rewrite E3.
    apply fo_line. change (len []) with 0 in E2. destruct E2 as [E2|(E2 & _)]; [|lia].
    rewrite Z.sub_0_r in E2. destruct (limit <? 0); exact E2.
  - exists (Position (tell source w)), w. split; [reflexivity|]. apply fo_tell.
  - destruct (seek_ok source sread R L c n0 w off f H Pl) as [(w' & E & Fo & _)|(E & Fo)]; rewrite E; eexists _, _; (split; [reflexivity|exact Fo]).
Qed.

(** Two streams.  A file or socket from which any number of bytes can be had at a time: *)
Lemma raw_stream : input_stream raw raw_read (fun s c _ => snd s = c).
Proof.
  intros [ks s] c a n E N _. cbn [snd] in E. subst c. unfold raw_read. destruct (Z.ltb_spec n 0); [lia|]. cbn [fst snd].
  assert (G : forall m ks', 0 <= m <= n -> (m = 0 -> n = 0) -> exists (d : str) (s' : raw) (c' : str), Ok (ztake m s, (ks', zdrop m s)) = Ok (d, s') /\ s = d ++ c' /\ len d <= n /\
     (d = [] -> n = 0 \/ s = []) /\ snd s' = c').
  { intros m ks' M Mn. exists (ztake m s), (ks', zdrop m s), (zdrop m s). repeat split; auto using ztake_drop.
    - rewrite len_ztake; lia.
    - intros Z. assert (L0 : len (ztake m s) = 0) by (rewrite Z; reflexivity). rewrite len_ztake in L0 by lia.
      destruct (Z.eq_dec m 0); [auto|right]. apply len_0. lia. }
  destruct ks as [|k ks]; apply G; lia.
Qed.
(** A connection that stays open: a request for more than has come, [snd s], waits for ever, and so does the
    caller. *)
Definition conn_read (n : Z) (s : raw) : res (str * raw) :=
  if (n <? 0) || (len (snd s) <? n) then Err Timeout else raw_read n s.
Lemma conn_stream : input_stream raw conn_read (fun s c a => snd s = c /\ exists k, a = Some k /\ k <= len c).
Proof.
  intros [ks s] c a n (E & k & -> & K) N W. cbn [snd within] in *. subst c. unfold conn_read. cbn [snd].
  destruct (Z.ltb_spec n 0); [lia|]. destruct (Z.ltb_spec (len s) n); [lia|]. cbn [orb].
  destruct (raw_stream (ks, s) s (Some k) n eq_refl N W) as (d & s' & c' & E1 & E2 & E3 & E4 & E5).
  exists d, s', c'. repeat split; auto. exists (k - len d). split; [reflexivity|]. subst s. rewrite WiProofs.len_app in K. lia.
Qed.
(** On a connection that stays open the body can be read, and read no request waits *)
Theorem input_never_waits_partial : forall ks c n seek_size, 0 <= n <= len c -> 0 <= seek_size ->
  exists w0, open_input raw conn_read (Some n) seek_size (ks, c) = Ok w0 /\
    forall w, reached raw conn_read (Z.min seek_size n) (Some n) w0 w ->
    forall fuel o, (length c < fuel)%nat -> plain (Z.min seek_size n) (Some n) (tell raw w) o ->
    exists r w', perform raw conn_read fuel o w = Ok (r, w') /\
      file_op (firstn (Z.to_nat n) c) (Z.min seek_size n) (Some n) (tell raw w) o r (tell raw w').
Proof.
  intros ks c n seek_size N S0.
  destruct (input_file_partial raw conn_read _ conn_stream (ks, c) c (Some n) seek_size) as (w0 & E1 & _ & E2); auto.
  - split; [reflexivity|]. exists n. split; [reflexivity|]. lia.
  - intros l E. injection E as <-. lia.
  - cbn [body] in E2. replace (len (firstn (Z.to_nat n) c)) with n in E2 by (unfold len in *; rewrite firstn_length; lia).
    exists w0. split; [exact E1|exact E2].
Qed.

(** ** C109: a body sent in chunks *)
(** A request with the chunked coding: however its bytes are asked for, those of the body are given, and none more *)
Theorem chunked_stream : input_stream cr cr_read
  (fun s b a => a = None /\ exists trailer, chunk_state s b trailer).
Proof.
  intros s b a n (-> & tr & H) N _. destruct (cr_read_ok s b tr n H N) as (d & s' & b' & E1 & E2 & E3 & E4 & E5).
  exists d, s', b'. repeat split; auto. exists tr. exact E5.
Qed.
Theorem chunked_input_partial : forall b trailer wire more seek_size, chunked b trailer wire -> 0 <= seek_size ->
  exists w0, open_input cr cr_read None seek_size (CR (wire ++ more) (-1) false) = Ok w0 /\
    forall w, reached cr cr_read (Z.min seek_size (len b)) None w0 w ->
    forall fuel o, (length b < fuel)%nat -> plain (Z.min seek_size (len b)) None (tell cr w) o ->
    exists r w', perform cr cr_read fuel o w = Ok (r, w') /\
      file_op b (Z.min seek_size (len b)) None (tell cr w) o r (tell cr w').
Proof.
  intros b tr wire more seek_size H S0.
  destruct (input_file_partial cr cr_read _ chunked_stream (CR (wire ++ more) (-1) false) b None seek_size) as (w0 & E1 & _ & E2); auto.
  - split; [reflexivity|]. exists tr. left. exists wire, more. auto.
  - intros l E. discriminate.
  - exists w0. split; [exact E1|exact E2].
Qed.

(** ** C110 *)
(** A file ends, and so does a loop over its lines.  A loop over the lines of a wrapper does not: readlines() never
    returns, whatever the body. *)
Theorem readlines_never_ends : forall source sread R, input_stream source sread R ->
  forall s c L seek_size, R s c L -> 0 <= seek_size -> (forall l, L = Some l -> 0 <= l) ->
  forall w0, open_input source sread L seek_size s = Ok w0 ->
  forall w, reached source sread (Z.min seek_size (len (body L c))) L w0 w ->
  forall fuel r w', readlines source sread fuel (-1) 0 w <> Ok (r, w').
Proof.
  intros source sread R IS s c L seek_size Rs S0 L0 w0 E w Hr.
  destruct (open_ok source sread R IS L seek_size s c Rs S0) as (w0' & O1 & O2 & O3). { destruct L; auto. }
  rewrite E in O1. injection O1 as <-. change (cut L c) with (body L c) in O2.
  pose proof (reached_inv source sread R IS L c _ w0 w O2 Hr) as H.
  assert (G : forall fuel total w, Inv source R L c (Z.min seek_size (len (body L c))) w ->
    readlines source sread fuel (-1) total w = Err Timeout).
  { induction fuel as [|f IH]; intros total w1 H1; [reflexivity|]. cbn [readlines]. unfold readline.
    destruct (readline_any source sread R IS f (-1) [] _ _ _ _ H1) as [F|(l & w2 & F & V)]; rewrite F; cbn [rbind]; [reflexivity|].
    destruct l as [|y l]; [apply IH; exact V|]. cbn [Z.leb andb]. rewrite IH by exact V. reflexivity. }
  intros fuel r w'. rewrite G by exact H. discriminate.
Qed.
(** The same holds of any number of lines that is not exceeded; if it is, the lines are those of the file *)
Inductive lines_until (hint : Z) : Z -> str -> list str -> str -> Prop :=
| lu_last : forall total B l B', is_line (-1) B l -> l <> [] -> B = l ++ B' -> hint < total + len l -> lines_until hint total B [l] B'
| lu_more : forall total B l B1 ls B', is_line (-1) B l -> l <> [] -> B = l ++ B1 -> total + len l <= hint ->
    lines_until hint (total + len l) B1 ls B' -> lines_until hint total B (l :: ls) B'.
Lemma is_line_app : forall limit B l, is_line limit B l -> exists b, B = l ++ b.
Proof.
  intros limit B l [a b -> _ -> _|b -> _ _ _| -> _ _].
  - exists b. rewrite <- app_assoc. reflexivity.
  - eauto.
  - exists []. rewrite app_nil_r. reflexivity.
Qed.
Lemma is_line_nil : forall B, is_line (-1) B [] -> B = [].
Proof. intros B [a b _ _ E _|b _ _ H _| -> _ _]; [destruct a; discriminate|lia|reflexivity]. Qed.
Theorem readlines_hint : forall source sread R, input_stream source sread R ->
  forall s c L seek_size, R s c L -> 0 <= seek_size -> (forall l, L = Some l -> 0 <= l) ->
  forall w0, open_input source sread L seek_size s = Ok w0 ->
  forall w, reached source sread (Z.min seek_size (len (body L c))) L w0 w ->
  forall hint, 0 <= hint < len (from (tell source w) (body L c)) ->
  forall fuel, (2 * length c + 2 < fuel)%nat ->
  exists ls w', readlines source sread fuel hint 0 w = Ok (ls, w') /\
    lines_until hint 0 (from (tell source w) (body L c)) ls (from (tell source w') (body L c)).
Proof.
  intros source sread R IS s c L seek_size Rs S0 L0 w0 E w Hr hint Hh fuel F.
  destruct (open_ok source sread R IS L seek_size s c Rs S0) as (w0' & O1 & O2 & O3). { destruct L; auto. }
  rewrite E in O1. injection O1 as <-. change (cut L c) with (body L c) in O2.
  pose proof (reached_inv source sread R IS L c _ w0 w O2 Hr) as H.
  assert (LB : forall p, (length (from p (body L c)) <= length c)%nat).
  { intros p. unfold from. rewrite skipn_length. destruct L; cbn [body]; [rewrite firstn_length|]; lia. }
  assert (G : forall fuel total w, Inv source R L c (Z.min seek_size (len (body L c))) w -> 0 <= hint -> total <= hint ->
    hint < total + len (from (tell source w) (body L c)) -> (length c + length (from (tell source w) (body L c)) + 1 < fuel)%nat ->
    exists ls w', readlines source sread fuel hint total w = Ok (ls, w') /\
    lines_until hint total (from (tell source w) (body L c)) ls (from (tell source w') (body L c))).
  2:{ destruct (G fuel 0 w H) as (ls & w' & G1 & G2); [lia|lia|lia|specialize (LB (tell source w)); lia|]. eauto. }
  clear w H Hr Hh F fuel. induction fuel as [|f IH]; intros total w H Hh Ht Hn F; [lia|]. cbn [readlines].
  set (B := from (tell source w) (body L c)) in *.
  assert (P0 : 0 <= pos source w) by (destruct (read_ok source sread R IS L c _ w 0 H ltac:(lia)) as (? & ? & ? & ? & ? & ? & ? & ? & ? & ?); assumption).
  destruct (readline_ok source sread R IS f (-1) [] L c _ w H) as (l & w2 & E1 & E2 & E3 & E4).
  { specialize (LB (pos source w)). change (cut L c) with (body L c). lia. }
  unfold readline. rewrite E1. cbn [rbind app]. change (cut L c) with (body L c) in E2. change (pos source w) with (tell source w) in *.
  fold B in E2. change (-1 <? 0) with true in E2. cbn iota in E2. destruct E2 as [E2|(E2 & _)]; [|lia].
  destruct (is_line_app _ _ _ E2) as (B1 & EB).
  assert (E3' : from (tell source w2) (body L c) = B1).
  { change (tell source w2) with (pos source w2). rewrite E3. apply from_plus; [exact P0|]. exact EB. }
  destruct l as [|y l].
  { apply is_line_nil in E2. rewrite E2 in *. 
    exfalso. unfold len in Hn. cbn [length] in Hn. lia. }
  set (ll := y :: l) in *. change (zlen ll) with (len ll). assert (Nl : ll <> []) by discriminate.
  destruct (Z.leb_spec 0 hint); [|lia]. cbn [andb]. destruct (Z.ltb_spec hint (total + len ll)).
  - exists [ll], w2. split; [reflexivity|]. rewrite E3'. apply lu_last; auto.
  - destruct (IH (total + len ll) w2 E4 Hh) as (ls & w3 & F1 & F2); [lia| | |].
    + rewrite E3'. rewrite EB, WiProofs.len_app in Hn. lia.
    + rewrite E3'. rewrite EB, app_length in F. unfold ll in F. cbn [length] in F. lia.
    + rewrite F1. cbn [rbind]. exists (ll :: ls), w3. split; [reflexivity|]. rewrite E3' in F2. eapply lu_more; eauto.
Qed.
(** readinto(n) raises an error if there is anything to read: its bytes are lost *)
Theorem readinto_fails : forall source sread R, input_stream source sread R ->
  forall s c L seek_size, R s c L -> 0 <= seek_size -> (forall l, L = Some l -> 0 <= l) ->
  forall w0, open_input source sread L seek_size s = Ok w0 ->
  forall w, reached source sread (Z.min seek_size (len (body L c))) L w0 w ->
  forall n, 0 < n -> from (tell source w) (body L c) <> [] -> readinto source sread n w = Err TypeError.
Proof.
  intros source sread R IS s c L seek_size Rs S0 L0 w0 E w Hr n N NE.
  destruct (open_ok source sread R IS L seek_size s c Rs S0) as (w0' & O1 & O2 & O3). { destruct L; auto. }
  rewrite E in O1. injection O1 as <-. change (cut L c) with (body L c) in O2.
  pose proof (reached_inv source sread R IS L c _ w0 w O2 Hr) as H.
  destruct (read_ok source sread R IS L c _ w n H ltac:(lia)) as (d & b & w' & E1 & E2 & E3 & E4 & _).
  unfold readinto. rewrite E1. cbn [rbind]. destruct d; [|reflexivity]. destruct (E4 eq_refl) as [|Z]; [lia|contradiction].
Qed.

(** ** C111 *)
(** A seek forward beyond what is kept counts the bytes that are skipped twice: with a stream that gives fewer bytes
    than asked for, the position is then not that of the bytes that are read. *)
Definition digits10 : str := lit "0123456789".
Theorem forward_seek_refuted : exists w0 w1 w2,
  open_input raw raw_read None 2 ([1; 0]%nat, digits10) = Ok w0 /\
  perform raw raw_read 20 (Seek 5 FromStart) w0 = Ok (Done, w1) /\ tell raw w1 = 5 /\
  perform raw raw_read 20 (Read 1) w1 = Ok (Data (lit "3"), w2) /\ from 5 digits10 = lit "56789".
Proof. do 3 eexists. repeat (split; [vm_compute; reflexivity|]). vm_compute; reflexivity. Qed.
(** A seek beyond the end of the body, and a read: bytes that come after the body are given (or waited for) *)
Theorem past_the_end_refuted : exists w0 w1 w2,
  open_input raw raw_read (Some 4) 2 ([], digits10) = Ok w0 /\
  perform raw raw_read 20 (Seek 6 FromStart) w0 = Ok (Done, w1) /\
  perform raw raw_read 20 (Read 1) w1 = Ok (Data (lit "456789"), w2).
Proof. do 3 eexists. repeat (split; [vm_compute; reflexivity|]). vm_compute; reflexivity. Qed.
Theorem past_the_end_waits_refuted : exists w0 w1,
  open_input raw conn_read (Some 4) 2 ([], lit "0123") = Ok w0 /\
  perform raw conn_read 20 (Seek 6 FromStart) w0 = Ok (Done, w1) /\
  perform raw conn_read 20 (Read 1) w1 = Err Timeout.
Proof. do 2 eexists. repeat (split; [vm_compute; reflexivity|]). vm_compute; reflexivity. Qed.

(** ** What has been proved holds of something *)
Definition text1 : str := lit "one" ++ [10] ++ lit "two" ++ [10] ++ lit "three".
Definition ops_on {S} (sread : Z -> S -> res (str * S)) (w : res (wi S)) (os : list operation) : res (list result) :=
  let! w := w in
  (fix go os w := match os with [] => Ok [] | o :: os => let! (r, w) := perform S sread 30 o w in let! rs := go os w in Ok (r :: rs) end) os w.
(** ten bytes of a connection, in pieces; lines, seeks back, and the end *)
Example ex_ops : ops_on conn_read (open_input raw conn_read (Some 10) 5 ([0; 1; 0; 3; 1]%nat, text1 ++ lit "GET /"))
  [ReadLine (-1); Tell; Seek (-3) FromHere; Read 2; Seek (-5) FromEnd; ReadLine 2; ReadAll; Read 3; Seek 0 FromStart; Tell]
  = Ok [Data (lit "one" ++ [10]); Position 4; Done; Data (lit "ne"); Done; Data (lit "wo"); Data ([10] ++ lit "th"); Data []; Fails; Position 10].
Proof. vm_compute. reflexivity. Qed.
Example ex_conn : exists R, input_stream raw conn_read R /\ R ([0; 1]%nat, text1) text1 (Some 10).
Proof. eexists. split; [apply conn_stream|]. split; [reflexivity|]. exists 10. split; [reflexivity|vm_compute; discriminate]. Qed.
Definition wire1 : str := lit "3;a=b" ++ crlf ++ lit "one" ++ crlf ++ lit "00a" ++ crlf ++ [10] ++ lit "two" ++ [10] ++ lit "three" ++ crlf ++ lit "0" ++ crlf ++ crlf.
Example ex_wire : chunked text1 [] wire1.
Proof.
  change text1 with (lit "one" ++ (([10] ++ lit "two" ++ [10] ++ lit "three") ++ [])).
  change wire1 with (lit "3;a=b" ++ crlf ++ lit "one" ++ crlf ++ (lit "00a" ++ crlf ++ ([10] ++ lit "two" ++ [10] ++ lit "three") ++ crlf ++ (lit "0" ++ crlf ++ concat (map field_text []) ++ crlf))).
  assert (H0 : hex_digit 48 0) by (unfold hex_digit; lia).
  apply ch_chunk; [discriminate| |apply ch_chunk; [discriminate| |apply ch_last; [|constructor]]].
  - exists (lit "3"), [([], (lit "a", lit "b"))]. split; [|split].
    + apply (hx_one 51 3). unfold hex_digit. lia.
    + assert (T : forall c, 97 <= c <= 98 -> HttpSpec.token [c]).
      { intros c Hc. split; [discriminate|]. constructor; [|constructor]. split; [unfold HttpSpec.ctl; lia|].
        unfold HttpSpec.separator. intros [X|X]; [|lia].
        assert (C2 : c = 97 \/ c = 98) by lia. vm_compute in X. destruct C2; subst c; repeat (destruct X as [X|X]; [discriminate|]); exact X. }
      constructor; [|constructor]. split; [constructor|]. split; (apply (T 97) || apply (T 98)); lia.
    + reflexivity.
  - exists (lit "00a"), []. split; [|split; [constructor|reflexivity]].
    change (lit "00a") with (([48] ++ [48]) ++ [97]). change (Z.of_nat (length ([10] ++ lit "two" ++ [10] ++ lit "three"))) with (16 * (16 * 0 + 0) + 10).
    apply hx_more; [apply hx_more; [apply hx_one|]|]; try exact H0. unfold hex_digit. lia.
  - exists (lit "0"), []. split; [|split; [constructor|reflexivity]]. apply (hx_one 48 0). exact H0.
Qed.
Example ex_chunked : ops_on cr_read (open_input cr cr_read None 5 (CR (wire1 ++ lit "GET /") (-1) false))
  [ReadLine (-1); Tell; Seek (-3) FromHere; Read 6; ReadAll; Read 3; Seek 0 FromStart]
  = Ok [Data (lit "one" ++ [10]); Position 4; Done; Data (lit "ne" ++ [10] ++ lit "two"); Data ([10] ++ lit "three"); Data []; Fails].
Proof. vm_compute. reflexivity. Qed.
Example ex_lines : match open_input raw raw_read None 4 ([], text1) with
  | Ok w => match readlines raw raw_read 40 5 0 w with Ok (ls, _) => ls = [lit "one" ++ [10]; lit "two" ++ [10]] | _ => False end
  | _ => False end.
Proof. vm_compute. reflexivity. Qed.

Print Assumptions input_file_partial.
Print Assumptions input_never_waits_partial.
Print Assumptions chunked_stream.
Print Assumptions chunked_input_partial.
Print Assumptions readlines_never_ends.
Print Assumptions readlines_hint.
Print Assumptions readinto_fails.
Print Assumptions forward_seek_refuted.
Print Assumptions past_the_end_refuted.
Print Assumptions past_the_end_waits_refuted.
