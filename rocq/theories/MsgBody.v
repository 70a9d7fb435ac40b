(** Proofs for C72-C78: the body that is sent. *)
From Verif Require Import Py Num UriModel UriRel HttpModel HttpSpec HttpProofs HttpLex HttpParamModel HttpParamSpec
  HttpProps HttpParamProofs HttpParamMain BswModel BswProps MsgModel MsgSpec MsgLex MsgHead MsgRecv MsgData MsgStart MsgWhole MsgSend MsgLength.

Lemma hex_number_of : forall s, s <> [] -> Forall (fun c => is_hex c = true) s -> hex_number s (hexadecimal s).
Proof.
  induction s as [|c s IH] using rev_ind; intros H F; [congruence|]. apply Forall_app in F as [F1 F2]. inversion F2 as [|? ? Hc _]; subst.
  assert (D : hex_digit c (hexv c)).
  { unfold is_hex, is_digit in Hc. rewrite !orb_true_iff, !andb_true_iff, !Z.leb_le in Hc. unfold hex_digit, hexv.
    destruct (Z.leb_spec c 57); [lia|]. destruct (Z.leb_spec c 70); lia. }
  destruct s as [|d s].
  - cbn [app hexadecimal length]. change (16 ^ Z.of_nat 0) with 1. replace (hexv c * 1 + 0) with (hexv c) by lia. constructor. exact D.
  - rewrite hexadecimal_app. change (16 ^ Z.of_nat (length [c])) with 16. change (hexadecimal [c]) with (hexv c * 1 + 0).
    replace (hexadecimal (d :: s) * 16 + (hexv c * 1 + 0)) with (16 * hexadecimal (d :: s) + hexv c) by lia.
    apply hx_more; [apply IH; [discriminate|exact F1]|exact D].
Qed.
Lemma size_of : forall n, 0 <= n -> chunk_to_bytes (mkchunk n []) = Ok (hex_nat n) /\ size_line (hex_nat n) n.
Proof.
  intros n H. destruct (hex_nat_spec n H) as ([[Hn _] _] & H1 & H2). split.
  - unfold chunk_to_bytes. cbn [c_ext c_size]. change (format_parameters []) with (Ok ([] : str)). cbn [rbind].
    destruct (Z.ltb_spec n 0); [lia|]. rewrite app_nil_r. reflexivity.
  - exists (hex_nat n), []. split; [|split; [constructor|cbn [map concat]; rewrite app_nil_r; reflexivity]].
    rewrite <- H2 at 2. apply hex_number_of; [exact Hn|]. unfold is_hexdigits, all_of in H1. destruct (hex_nat n); [constructor|].
    apply Forall_forall. intros c Hc. rewrite forallb_forall in H1. apply H1. exact Hc.
Qed.

Lemma src_read_cases : forall s n, (0 < n)%nat ->
  (exists l, s_sched s = None :: l /\ src_read s n = (None, mkSrc (s_rest s) l)) \/
  (exists data l, src_read s n = (Some data, mkSrc (skipn (length data) (s_rest s)) l) /\ s_rest s = data ++ skipn (length data) (s_rest s) /\
    (length data <= n)%nat /\ (length l <= length (s_sched s))%nat /\ (data = [] -> s_rest s = [])).
Proof.
  intros [rest sched] n Hn. unfold src_read. cbn [s_sched s_rest].
  assert (X : forall k l, (0 < k)%nat -> (k <= n)%nat -> (length l <= length sched)%nat ->
    exists data l', (Some (firstn k rest), mkSrc (skipn k rest) l) = (Some data, mkSrc (skipn (length data) rest) l') /\ rest = data ++ skipn (length data) rest /\
    (length data <= n)%nat /\ (length l' <= length sched)%nat /\ (data = [] -> rest = [])).
  { intros k l Hk Hk2 Hl. exists (firstn k rest), l.
    assert (Sk : skipn (length (firstn k rest)) rest = skipn k rest).
    { rewrite firstn_length. destruct (Nat.le_ge_cases k (length rest)); [rewrite Nat.min_l by assumption; reflexivity|].
      rewrite Nat.min_r by assumption. rewrite skipn_all, (skipn_all2 rest) by assumption. reflexivity. }
    rewrite Sk. split; [reflexivity|]. split; [symmetry; apply firstn_skipn|]. split; [rewrite firstn_length; lia|]. split; [exact Hl|].
    intros E. destruct rest; [reflexivity|]. destruct k; [lia|discriminate]. }
  destruct sched as [|[k|] l].
  - right. apply X; cbn; lia.
  - right. apply X; cbn [length]; lia.
  - left. exists l. split; reflexivity.
Qed.
Definition fuel_of (m : smsg) : nat := match s_body m with Some s => length (s_rest s) + length (s_sched s) + 2 | None => 1 end.
(** what [send_all] gives, whatever the fuel *)
Definition gives (bufsize : nat) (n : nat) (m : smsg) (w : str) : Prop := forall f, (n <= f)%nat -> exists m', send_all f bufsize m = Ok (w, m').
Lemma gives_blocked : forall bufsize n m m' w, send_body bufsize m = Ok (None, m') -> gives bufsize n m' w -> gives bufsize (S n) m w.
Proof.
  intros bufsize n m m' w E G f Hf. destruct f as [|f]; [lia|]. cbn [send_all]. rewrite E. cbn [rbind]. apply G. lia.
Qed.
Lemma gives_end : forall bufsize m m', send_body bufsize m = Ok (Some [], m') -> gives bufsize 1 m [].
Proof. intros bufsize m m' E f Hf. destruct f as [|f]; [lia|]. cbn [send_all]. rewrite E. cbn [rbind]. exists m'. reflexivity. Qed.
Lemma gives_data : forall bufsize n m m' d w, d <> [] -> send_body bufsize m = Ok (Some d, m') -> gives bufsize n m' w -> gives bufsize (S n) m (d ++ w).
Proof.
  intros bufsize n m m' d w Hd E G f Hf. destruct f as [|f]; [lia|]. cbn [send_all]. rewrite E. cbn [rbind]. destruct (G f) as (m2 & E2); [lia|].
  exists m2. destruct d; [congruence|]. rewrite E2. reflexivity.
Qed.
Lemma gives_le : forall bufsize n n' m w, gives bufsize n m w -> (n <= n')%nat -> gives bufsize n' m w.
Proof. intros bufsize n n' m w G H f Hf. apply G. lia. Qed.
Lemma send_chunks : forall bufsize n m s, (0 < bufsize)%nat -> (length (s_rest s) + length (s_sched s) <= n)%nat ->
  s_done m = false -> s_tbody m = true -> s_chunked m = true -> s_body m = Some s ->
  exists w, gives bufsize (n + 2) m w /\ chunked (s_rest s) [] w.
Proof.
  intros bufsize n. induction n as [|n IH]; intros m s Hb Hn D T C B.
  all: destruct (src_read_cases s bufsize Hb) as [(l & El & Er)|(data & l & Er & Es & Hd & Hl & He)].
  - rewrite El in Hn. cbn [length] in Hn. lia.
  - assert (s_rest s = []) as R by (destruct (s_rest s); [reflexivity|cbn in Hn; lia]).
    assert (data = []) as -> by (destruct data; [reflexivity|rewrite R in Es; discriminate]).
    destruct (size_of 0) as [Z1 Z2]; [lia|].
    assert (E : send_body bufsize m = Ok (Some (hex_nat 0 ++ CRLF ++ CRLF), s_set_pos m (Some (mkSrc (skipn (length (@nil Z)) (s_rest s)) l)) (s_pos m + Z.of_nat (length (@nil Z))) true)).
    { unfold send_body. rewrite D, T, B, C, Er. rewrite Z1. reflexivity. }
    exists (hex_nat 0 ++ crlf ++ concat (map field_text []) ++ crlf). split; [|rewrite R; apply ch_last; [exact Z2|constructor]].
    rewrite <- (app_nil_r (hex_nat 0 ++ _)). eapply (gives_data bufsize 1); [|exact E|]; [discriminate|].
    eapply gives_end. unfold send_body. cbn [s_set_pos s_done]. reflexivity.
  - assert (E : send_body bufsize m = Ok (None, s_set_pos m (Some (mkSrc (s_rest s) l)) (s_pos m) false)).
    { unfold send_body. rewrite D, T, B, C, Er. reflexivity. }
    rewrite El in Hn. cbn [length] in Hn.
    destruct (IH (s_set_pos m (Some (mkSrc (s_rest s) l)) (s_pos m) false) (mkSrc (s_rest s) l)) as (w & G & Ch); try assumption; try reflexivity; [cbn [s_rest s_sched]; lia|].
    exists w. split; [|exact Ch]. replace (S n + 2)%nat with (S (n + 2)) by lia. eapply gives_blocked; [exact E|exact G].
  - destruct data as [|c data].
    + assert (R : s_rest s = []) by (apply He; reflexivity).
      destruct (size_of 0) as [Z1 Z2]; [lia|].
      assert (E : send_body bufsize m = Ok (Some (hex_nat 0 ++ CRLF ++ CRLF), s_set_pos m (Some (mkSrc (skipn (length (@nil Z)) (s_rest s)) l)) (s_pos m + Z.of_nat (length (@nil Z))) true)).
      { unfold send_body. rewrite D, T, B, C, Er. rewrite Z1. reflexivity. }
      exists (hex_nat 0 ++ crlf ++ concat (map field_text []) ++ crlf). split; [|rewrite R; apply ch_last; [exact Z2|constructor]].
      rewrite <- (app_nil_r (hex_nat 0 ++ _)). apply gives_le with 2%nat; [|lia]. eapply (gives_data bufsize 1); [|exact E|]; [discriminate|].
      eapply gives_end. unfold send_body. cbn [s_set_pos s_done]. reflexivity.
    + set (d := c :: data) in *. destruct (size_of (Z.of_nat (length d))) as [Z1 Z2]; [lia|].
      set (s' := mkSrc (skipn (length d) (s_rest s)) l) in *.
      assert (E : send_body bufsize m = Ok (Some (hex_nat (Z.of_nat (length d)) ++ CRLF ++ d ++ CRLF), s_set_pos m (Some s') (s_pos m + Z.of_nat (length d)) false)).
      { unfold send_body. rewrite D, T, B, C, Er. unfold d in Z1 |- *. rewrite Z1. reflexivity. }
      destruct (IH (s_set_pos m (Some s') (s_pos m + Z.of_nat (length d)) false) s') as (w & G & Ch); try assumption; try reflexivity.
      { cbn [s' s_rest s_sched]. rewrite Es, app_length in Hn. cbn [d length] in Hn. unfold d. cbn [length]. lia. }
      exists (hex_nat (Z.of_nat (length d)) ++ crlf ++ d ++ crlf ++ w). split.
      * replace (S n + 2)%nat with (S (n + 2)) by lia. replace (hex_nat (Z.of_nat (length d)) ++ crlf ++ d ++ crlf ++ w) with ((hex_nat (Z.of_nat (length d)) ++ CRLF ++ d ++ CRLF) ++ w) by (rewrite <- !app_assoc; reflexivity).
        eapply gives_data; [|exact E|exact G]. intros X. apply app_eq_nil in X as [_ X]. discriminate.
      * rewrite Es. change (skipn (length d) (s_rest s)) with (s_rest s'). apply ch_chunk; [discriminate|exact Z2|exact Ch].
Qed.
(** a body of a known length, or one that goes on until it ends *)
Lemma send_plain : forall bufsize n m s, (0 < bufsize)%nat -> (length (s_rest s) + length (s_sched s) <= n)%nat ->
  s_done m = false -> s_tbody m = true -> s_chunked m = false -> s_body m = Some s ->
  (forall k, s_len m = Some k -> k = s_pos m + Z.of_nat (length (s_rest s))) ->
  gives bufsize (n + 1) m (s_rest s).
Proof.
  intros bufsize n. induction n as [|n IH]; intros m s Hb Hn D T C B L.
  all: set (chunklen := match s_len m with None => Z.of_nat bufsize | Some k => Z.min (k - s_pos m) (Z.of_nat bufsize) end).
  - assert (s_rest s = []) as R by (destruct (s_rest s); [reflexivity|cbn in Hn; lia]).
    assert (s_sched s = []) as Sc by (destruct (s_sched s); [reflexivity|cbn in Hn; lia]).
    rewrite R. 
    assert (E : exists m', send_body bufsize m = Ok (Some [], m')).
    { unfold send_body. rewrite D, T, B, C. fold chunklen. destruct (chunklen =? 0); [eexists; reflexivity|].
      destruct s as [r sc]. cbn [s_rest s_sched] in *. subst. unfold src_read. cbn [s_sched s_rest]. rewrite firstn_nil. eexists. reflexivity. }
    destruct E as (m' & E). eapply gives_end. exact E.
  - destruct (Z.eqb_spec chunklen 0) as [Hc|Hc].
    + assert (R : s_rest s = []).
      { unfold chunklen in Hc. destruct (s_len m) as [k|]; [|lia]. pose proof (L k eq_refl). destruct (s_rest s); [reflexivity|cbn [length] in *; lia]. }
      rewrite R. apply gives_le with 1%nat; [|lia]. eapply gives_end. unfold send_body. rewrite D, T, B, C. fold chunklen. rewrite Hc. reflexivity.
    + assert (Hp : 0 < chunklen) by (unfold chunklen in *; destruct (s_len m) as [k|]; [pose proof (L k eq_refl)|]; lia).
      assert (Hk : (0 < Z.to_nat chunklen)%nat) by lia.
      assert (E0 : send_body bufsize m = match src_read s (Z.to_nat chunklen) with
          | (None, src') => Ok (None, s_set_pos m (Some src') (s_pos m) false)
          | (Some data, src') => match data with
              | _ :: _ => Ok (Some data, s_set_pos m (Some src') (s_pos m + Z.of_nat (length data)) false)
              | [] => Ok (Some [], s_set_pos m (Some src') (s_pos m) true) end end).
      { unfold send_body. rewrite D, T, B, C. fold chunklen. destruct (Z.eqb_spec chunklen 0); [lia|]. destruct (Z.ltb_spec chunklen 0); [lia|]. reflexivity. }
      destruct (src_read_cases s (Z.to_nat chunklen) Hk) as [(l & El & Er)|(data & l & Er & Es & Hd & Hl & He)]; rewrite Er in E0.
      * rewrite El in Hn. cbn [length] in Hn. replace (S n + 1)%nat with (S (n + 1)) by lia. eapply gives_blocked; [exact E0|].
        apply (IH (s_set_pos m (Some (mkSrc (s_rest s) l)) (s_pos m) false) (mkSrc (s_rest s) l)); try assumption; try reflexivity. cbn [s_rest s_sched]. lia.
      * destruct data as [|c data].
        -- rewrite (He eq_refl). apply gives_le with 1%nat; [|lia]. eapply gives_end. exact E0.
        -- set (d := c :: data) in *. set (s' := mkSrc (skipn (length d) (s_rest s)) l) in *. rewrite Es. change (skipn (length d) (s_rest s)) with (s_rest s').
           assert (Ln : length (s_rest s) = (length d + length (s_rest s'))%nat) by (rewrite Es at 1; rewrite app_length; reflexivity).
           assert (Ld : (1 <= length d)%nat) by (unfold d; cbn [length]; lia).
           replace (S n + 1)%nat with (S (n + 1)) by lia. eapply gives_data; [discriminate|exact E0|].
           apply (IH (s_set_pos m (Some s') (s_pos m + Z.of_nat (length d)) false) s'); try assumption; try reflexivity.
           ++ change (s_sched s') with l. lia.
           ++ cbn [s_set_pos s_len s_pos]. intros k Hlen. rewrite (L k Hlen). lia.
Qed.
Lemma send_nothing : forall bufsize m, s_done m = false -> s_tbody m = false -> gives bufsize 1 m [].
Proof. intros bufsize m D T. eapply gives_end. unfold send_body. rewrite D, T. reflexivity. Qed.

(** what is needed to send a body *)
Definition sends (m : smsg) (fr : framing) : Prop :=
  s_pos m = 0 /\ s_done m = false /\
  match fr with
  | Chunked => s_chunked m = true /\ s_tbody m = true /\ has_body m = true
  | Length n => s_chunked m = false /\ s_len m = Some n /\ s_tbody m = has_body m /\ n = Z.of_nat (length (content m))
  | UntilClose => s_chunked m = false /\ s_len m = None /\ s_tbody m = true /\ has_body m = true
  | Empty => s_tbody m = false /\ content m = []
  end.
Lemma send_ok : forall bufsize m fr, (0 < bufsize)%nat -> sends m fr -> exists n w, gives bufsize n m w /\ framed fr (content m) [] w.
Proof.
  intros bufsize m fr Hb (P & D & F). destruct fr as [| |n|].
  - destruct F as (T & C). exists 1%nat, []. split; [apply send_nothing; assumption|]. rewrite C. repeat split.
  - destruct F as (C & T & B). unfold has_body in B. unfold content. destruct (s_body m) as [s|] eqn:Eb; [|discriminate].
    destruct (send_chunks bufsize (length (s_rest s) + length (s_sched s)) m s Hb (le_n _) D T C Eb) as (w & G & Ch). eauto.
  - destruct F as (C & L & T & E). unfold has_body in T. unfold content in *. destruct (s_body m) as [s|] eqn:Eb.
    + exists (length (s_rest s) + length (s_sched s) + 1)%nat, (s_rest s). split; [|repeat split; congruence].
      apply send_plain; try assumption; [lia|]. intros k Hk. rewrite P. assert (k = n) by congruence. lia.
    + exists 1%nat, []. split; [apply send_nothing; assumption|]. repeat split. congruence.
  - destruct F as (C & L & T & B). unfold has_body in B. unfold content. destruct (s_body m) as [s|] eqn:Eb; [|discriminate].
    exists (length (s_rest s) + length (s_sched s) + 1)%nat, (s_rest s). split; [|repeat split].
    apply send_plain; try assumption; [lia|]. intros k Hk. congruence.
Qed.
