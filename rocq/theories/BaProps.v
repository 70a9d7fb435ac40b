(** C112-C116: HTTP credentials, pyslet/http/auth.py and http/client.py. *)
From Verif Require Import Py UriModel UriPath UriSpec UriRel HttpModel HttpSpec HttpProofs HttpParamModel BaModel BaSpec BaProofs BaClient.

(** ** C112 *)
(** Credentials of ISO-8859-1 characters are sent as the scheme and the base64 of userid:password *)
Theorem basic_text : forall c u p, userid c = Some u -> password c = Some p -> Forall (fun x => 0 <= x < 256) (u ++ lit ":" ++ p) ->
  exists t, to_bytes c = Ok (scheme c ++ lit " " ++ t) /\ base64 (u ++ lit ":" ++ p) t.
Proof.
  intros c u p U P F. unfold to_bytes, latin1. rewrite U, P.
  assert (E : forallb (fun c => c <? 256) (u ++ lit ":" ++ p) = true).
  { apply forallb_forall. rewrite Forall_forall in F. intros x X. apply Z.ltb_lt. apply F in X. lia. }
  rewrite E. cbn [rbind]. eexists. split; [reflexivity|]. apply encode_spec. exact F.
Qed.
(** Such text is read back as the same userid and password, if there is no colon in either *)
Lemma from_to : forall c u p, scheme c = basic -> userid c = Some u -> password c = Some p -> Forall (fun x => 0 <= x < 256) (u ++ lit ":" ++ p) ->
  exists t, to_bytes c = Ok t /\ from_str t = (match split_on 58 (u ++ lit ":" ++ p) with [u; p] => Ok (new_basic 0 None (Some u) (Some p)) | _ => Err ValueError end).
Proof.
  intros c u p Sc U P F. unfold to_bytes, latin1. rewrite U, P.
  assert (E : forallb (fun c => c <? 256) (u ++ lit ":" ++ p) = true).
  { apply forallb_forall. rewrite Forall_forall in F. intros x X. apply Z.ltb_lt. apply F in X. lia. }
  rewrite E. cbn [rbind]. eexists. split; [reflexivity|]. rewrite Sc. set (s := u ++ lit ":" ++ p) in *.
  assert (N : b64encode s <> []).
  { assert (X : s <> []) by (subst s; destruct u; discriminate). destruct s as [|a [|b [|c0 r]]]; [congruence|discriminate|discriminate|discriminate]. }
  destruct (basic_words (b64encode s) (encode_chars s F) N) as (l & W & R).
  change (basic ++ lit " " ++ b64encode s) with (lit "Basic " ++ b64encode s). unfold from_str. rewrite W. cbn [rbind].
  change (require_token (WStr (lit "Basic") :: l)) with (@Ok (str * list word) (lit "Basic", l)). cbn [rbind].
  change (str_eqb (lower_ (lit "Basic")) (lit "basic")) with true. cbv iota. rewrite R. unfold set_basic_credentials.
  rewrite (decode_encode s F). reflexivity.
Qed.
Theorem basic_round_trip_partial : forall c u p, scheme c = basic -> userid c = Some u -> password c = Some p ->
  Forall (fun x => 0 <= x < 256) (u ++ lit ":" ++ p) -> ~ has 58 u -> ~ has 58 p ->
  exists t c', to_bytes c = Ok t /\ from_str t = Ok c' /\ userid c' = Some u /\ password c' = Some p /\ scheme c' = basic.
Proof.
  intros c u p Sc U P F Nu Np. destruct (from_to c u p Sc U P F) as (t & T1 & T2). exists t, (new_basic 0 None (Some u) (Some p)).
  split; [exact T1|]. rewrite T2. change (lit ":" ++ p) with (58 :: p). rewrite split_app by exact Nu. rewrite split_no by exact Np. auto.
Qed.
(** A password may have a colon in it (RFC 2617, section 2); then the text cannot be read back *)
Theorem colon_password_refuted : forall c u p, scheme c = basic -> userid c = Some u -> password c = Some p ->
  Forall (fun x => 0 <= x < 256) (u ++ lit ":" ++ p) -> ~ has 58 u -> has 58 p ->
  exists t, to_bytes c = Ok t /\ from_str t = Err ValueError.
Proof.
  intros c u p Sc U P F Nu Hp. destruct (from_to c u p Sc U P F) as (t & T1 & T2). exists t. split; [exact T1|]. rewrite T2.
  change (lit ":" ++ p) with (58 :: p). rewrite split_app by exact Nu. unfold has in Hp. apply in_split in Hp as (a & b & ->).
  destruct (in_dec Z.eq_dec 58 a) as [A|A].
  - apply in_split in A as (a1 & a2 & ->). rewrite <- app_assoc. cbn [app].
    assert (X : forall s r, exists w l, split_on 58 (s ++ 58 :: r) = w :: l /\ l <> []).
    { induction s as [|x s IH]; intros r; cbn [app split_on].
      - rewrite Z.eqb_refl. eexists _, _. split; [reflexivity|]. apply split_nonempty.
      - destruct (x =? 58); [eexists _, _; split; [reflexivity|apply split_nonempty]|]. destruct (IH r) as (w & l & -> & N). eauto. }
    destruct (X a1 (a2 ++ 58 :: b)) as (w & l & -> & N). destruct l as [|y l]; [congruence|]. reflexivity.
  - rewrite split_app by exact A. pose proof (split_nonempty 58 b). destruct (split_on 58 b); [congruence|]. reflexivity.
Qed.

(** ** C113 *)
Fixpoint learn (paths : list str) (c : cred) : res cred :=
  match paths with [] => Ok c | p :: ps => let! c := add_success_path p c in learn ps c end.
Lemma learn_ok : forall ls c, Forall ordinary ls -> exists c', learn (map path_of ls) c = Ok c' /\
  forall q, under (prefixes c') q = true <-> under (prefixes c) q = true \/ exists l, In l ls /\ is_prefix (blank_last l) q = true.
Proof.
  induction ls as [|l ls IH]; intros c F; cbn [map learn].
  - exists c. split; [reflexivity|]. intros q. split; [auto|]. intros [H|(x & [] & _)]. exact H.
  - inversion F as [|? ? O F']; subst. destruct (learn_one l c O) as (c1 & E & _ & _ & _ & U). rewrite E. cbn [rbind].
    destruct (IH c1 F') as (c' & E' & U'). exists c'. split; [exact E'|]. intros q. rewrite U', U, orb_true_iff. split.
    + intros [[H|H]|(x & X & H)]; [auto|right; exists l; split; [left; reflexivity|exact H]|right; exists x; split; [right; exact X|exact H]].
    + intros [H|(x & [<-|X] & H)]; [auto|auto|right; eauto].
Qed.
Lemma clean_list : forall ps, Forall clean ps -> exists ls, ps = map path_of ls /\ Forall ordinary ls.
Proof.
  induction 1 as [|p ps (l & O & ->) F (ls & -> & G)]; [exists []; split; constructor|]. exists (l :: ls). split; [reflexivity|]. constructor; assumption.
Qed.
(** After successes at some paths, whatever their order: every path in the folder of one of them is recognised *)
Theorem success_covers_partial : forall ps c q, Forall clean ps -> clean q ->
  exists c', learn ps c = Ok c' /\ ((exists p, In p ps /\ covers p q) -> test_path c' q = Ok true).
Proof.
  intros ps c q F (b & B & ->). apply clean_list in F as (ls & -> & G). destruct (learn_ok ls c G) as (c' & E & U). exists c'. split; [exact E|].
  intros (p & P & C). rewrite test_ordinary by exact B. f_equal. apply U. right. apply in_map_iff in P as (l & <- & L). exists l. split; [exact L|].
  rewrite Forall_forall in G. apply blank_covers; auto.
Qed.
(** ... and nothing else, if none of them has an empty segment inside *)
Theorem only_covers_partial : forall ps c q, prefixes c = [] -> Forall clean_full ps -> clean q ->
  exists c', learn ps c = Ok c' /\ (test_path c' q = Ok true -> exists p, In p ps /\ covers p q).
Proof.
  intros ps c q N F (b & B & ->).
  assert (X : exists ls, ps = map path_of ls /\ Forall ordinary ls /\ Forall no_empty_inside ls).
  { clear -F. induction F as [|p ps (l & O & NE & ->) F (ls & -> & G & G')]; [exists []; repeat split; constructor|].
    exists (l :: ls). repeat split; constructor; assumption. }
  destruct X as (ls & -> & G & G'). destruct (learn_ok ls c G) as (c' & E & U). exists c'. split; [exact E|].
  rewrite test_ordinary by exact B. intros T. injection T as T. apply U in T as [T|(l & L & T)]; [rewrite N in T; discriminate|].
  exists (path_of l). split; [apply in_map; exact L|]. rewrite Forall_forall in G, G'. apply covers_blank; auto.
Qed.
(** With an empty segment inside, paths outside the folder are recognised *)
Definition basic0 : cred := new_basic 7 None (Some (lit "joe")) (Some (lit "secret")).
Theorem empty_segment_refuted : exists c', learn [lit "/a//b"] basic0 = Ok c' /\ test_path c' (lit "/a/other/c") = Ok true /\
  ~ covers (lit "/a//b") (lit "/a/other/c").
Proof.
  eexists. split; [vm_compute; reflexivity|]. split; [vm_compute; reflexivity|].
  intros (f & n & r & E1 & N & E2). assert (L : f = lit "/a/").
  { change (lit "/a//b") with (lit "/a/" ++ [47] ++ [98]) in E1. change (lit "/") with [47] in E1.
    destruct f as [|f1 [|f2 [|f3 [|f4 f]]]]; cbn in E1; try (injection E1; intros; subst; exfalso; apply N; cbn; tauto).
    - injection E1; intros; subst. reflexivity.
    - exfalso. injection E1; intros E _ _ _ _. destruct f as [|f5 f]; [discriminate|]. cbn in E. injection E. intros E' _. destruct f; discriminate. }
  subst f. vm_compute in E2. discriminate.
Qed.
(** A success at the empty path is not recognised there again *)
Theorem empty_path_refuted : exists c', add_success_path [] basic0 = Ok c' /\ test_path c' [] = Ok false /\ test_path c' (lit "/") = Ok true.
Proof. eexists. split; [vm_compute; reflexivity|]. split; vm_compute; reflexivity. Qed.

(** ** C114 *)
(** Whatever is answered, and however requests interleave: the header of credentials is only sent to the root that
    they are for *)
Theorem credentials_stay : forall s0 log s, fresh s0 -> run s0 log s ->
  forall r u k s', step s (Sent r u (Of k)) s' -> space (objs s0 k) = fst u.
Proof.
  intros s0 log s F R r u k s' St. destruct (inv_run _ _ _ F (run_step _ _ _ _ _ R St)) as (I1 & I2 & _).
  inversion St as [t r' s2 H|  | ]; subst. destruct (I1 r) as [A _]. destruct (I2 k) as [B _]. rewrite <- B. 
  assert (U : url (reqs s' r) = url (reqs s r)).
  { unfold send_header in H. destruct (auth (reqs s r)).
    - destruct (find_by_url (objs s) (creds s) (url (reqs s r))) as [[k'|]|e]; cbn [rbind] in H; try discriminate; injection H as <-; [|reflexivity].
      cbn [reqs]. rewrite upd_same. reflexivity.
    - injection H as <-. reflexivity.
    - injection H as <-. reflexivity. }
  rewrite <- U. apply A. congruence.
Qed.
(** A request that had no header is sent with one only if the same credentials have been good, for some request to
    the same root, at a path whose folder the new path is in *)
Theorem preemptive_partial : forall s0 log s, fresh s0 -> run s0 log s ->
  (forall r u a t o, In (Answered r u a t o) log -> clean_full (snd u)) ->
  forall r u k s', step s (Sent r u (Of k)) s' -> auth (reqs s r) = NoHeader -> clean (snd u) ->
  exists r1 u1 a o, In (Answered r1 u1 a (Some k) o) log /\ fst u1 = fst u /\ status a <> 401 /\ covers (snd u1) (snd u).
Proof.
  intros s0 log s F R C r u k s' St A (b & Ob & Eb).
  destruct (inv_run _ _ _ F R) as (I1 & I2 & I3 & I4). inversion St as [t r' s2 H|  | ]; subst. unfold send_header in H. rewrite A in H.
  destruct (find_by_url (objs s) (creds s) (url (reqs s r))) as [[k'|]|e] eqn:Fd; cbn [rbind] in H; try discriminate; injection H as <-.
  2:{ congruence. }
  assert (k' = k). { match goal with E : auth _ = Of k |- _ => cbn [reqs] in E; rewrite upd_same in E; cbn [auth] in E; injection E as E; exact E end. }
  subst k'. apply find_by_url_some in Fd as (_ & S & T). rewrite Eb, (test_ordinary _ _ Ob) in T. injection T as T.
  assert (CL : clean_log log). { intros r1 u1 a t o X. destruct (C _ _ _ _ _ X) as (l & O & _ & E). exists l. auto. }
  apply (I4 CL) in T as (_ & e & Ie & r1 & u1 & a & o & p & -> & G1 & G2 & G3 & G4).
  exists r1, u1, a, o. split; [exact Ie|]. split; [rewrite <- (I3 _ _ _ _ _ k Ie eq_refl), <- S; symmetry; apply I2|]. split; [exact G1|].
  destruct (C _ _ _ _ _ Ie) as (l & O & NE & E). rewrite G2 in E. apply path_inj in E; auto. subst l. rewrite G2, Eb.
  apply covers_blank; auto.
Qed.
(** ... and if they have, it is sent with them, or others for the same root *)
Theorem preemptive_used_partial : forall s0 log s, fresh s0 -> run s0 log s ->
  (forall r u a t o, In (Answered r u a t o) log -> clean (snd u)) ->
  forall r1 u1 a k o, In (Answered r1 u1 a (Some k) o) log -> status a <> 401 -> scheme (objs s0 k) = basic -> In k (creds s) ->
  forall r u h s', step s (Sent r u h) s' -> auth (reqs s r) = NoHeader -> clean (snd u) -> fst u1 = fst u -> covers (snd u1) (snd u) ->
  exists k', h = Of k' /\ space (objs s0 k') = fst u.
Proof.
  intros s0 log s F R C r1 u1 a k o Ie G Sc K r u h s' St A (b & Ob & Eb) Eu Cv.
  destruct (inv_run _ _ _ F R) as (I1 & I2 & I3 & I4). 
  assert (Sr : forall k', h = Of k' -> space (objs s0 k') = fst u) by (intros k' ->; exact (credentials_stay _ _ _ F R _ _ _ _ St)).
  inversion St as [t r' s2 H|  | ]; subst. unfold send_header in H. rewrite A in H.
  destruct (find_by_url_total (objs s) (creds s) _ b Ob Eb) as (k' & Fd & X). rewrite Fd in H. cbn [rbind] in H.
  destruct k' as [k'|].
  - injection H as <-. cbn [reqs] in *. rewrite upd_same in *. cbn [auth] in *. exists k'. split; [reflexivity|]. apply Sr. reflexivity.
  - exfalso. specialize (X eq_refl k K). assert (Y : under (prefixes (objs s k)) b = true).
    { apply (I4 C). split; [exact Sc|]. exists (Answered r1 u1 a (Some k) o). split; [exact Ie|].
      destruct (C _ _ _ _ _ Ie) as (p & Op & Ep). exists r1, u1, a, o, p. repeat split; auto; try apply Op.
      rewrite Ep, Eb in Cv. apply blank_covers; auto. }
    rewrite X in Y; [discriminate|]. destruct (I2 k) as [-> _]. rewrite (I3 _ _ _ _ _ k Ie eq_refl). exact Eu.
Qed.
(** After a redirection to another root a header is sent all the same: its text is that of None, and credentials for
    the new root are not looked for *)
Definition redirect (u : Z * str) : response := Resp 302 [] (Some u).
Theorem none_header_refuted : forall r u s, auth (reqs s r) = NoHeader -> tried (reqs s r) = None -> fst (url (reqs s r)) <> fst u ->
  exists s1, step s (Answered r (url (reqs s r)) (redirect u) None (Ok 1%nat)) s1 /\ step s1 (Sent r u NoneText) s1.
Proof.
  intros r u s A T N. set (s1 := resend r (Some u) s). assert (E : auth (reqs s1 r) = NoneText).
  { unfold s1. cbn [resend reqs]. rewrite upd_same. cbn [auth]. destruct (Z.eqb_spec (fst (url (reqs s r))) (fst u)); [contradiction|reflexivity]. }
  assert (U : url (reqs s1 r) = u) by (unfold s1; cbn [resend reqs]; rewrite upd_same; reflexivity).
  exists s1. split.
  - rewrite <- T. apply s_answer. unfold finished; cbv zeta; rewrite T. reflexivity.
  - pose proof (s_send s1 r s1) as X. rewrite U, E in X. apply X. unfold send_header. rewrite E. reflexivity.
Qed.

(** ** C115 *)
Lemma remove_none : forall k n i l, (i + n = length l)%nat -> ~ In k (skipn i l) -> remove_loop i n k l = (l, false).
Proof.
  intros k. induction n as [|n IH]; intros i l E N; cbn [remove_loop]; [reflexivity|].
  destruct (nth_error l i) as [x|] eqn:X; [|apply nth_error_None in X; lia].
  assert (SK : skipn i l = x :: skipn (S i) l).
  { clear -X. revert l X. induction i as [|i IH]; intros [|y l] X; cbn in X; try discriminate; [injection X as ->; reflexivity|]. cbn [skipn]. rewrite (IH l X). reflexivity. }
  rewrite SK in N. destruct (Nat.eqb_spec x k) as [->|]; [exfalso; apply N; left; reflexivity|]. apply IH; [lia|].
  intros Z. apply N. right. exact Z.
Qed.
Lemma remove_after : forall k n i l, (i + n = S (length l))%nat -> ~ In k l -> remove_loop i n k l = (l, negb (Nat.eqb n 0)).
Proof.
  intros k. induction n as [|n IH]; intros i l E N; cbn [remove_loop]; [reflexivity|].
  destruct (nth_error l i) as [x|] eqn:X; [|reflexivity].
  destruct (Nat.eqb_spec x k) as [->|]; [exfalso; apply N; eapply nth_error_In; eauto|]. rewrite IH by (auto; lia).
  destruct n; [|reflexivity]. apply nth_error_Some in X || (assert (i < length l)%nat by (apply nth_error_Some; congruence)); lia.
Qed.
Lemma remove_found : forall k a b, NoDup (a ++ k :: b) -> remove_credentials k (a ++ k :: b) = (a ++ b, negb (match b with [] => true | _ => false end)).
Proof.
  intros k a b D. unfold remove_credentials. apply NoDup_remove in D as [_ D].
  assert (G : forall a2 a1 n, a = a1 ++ a2 -> (length a1 + n = length (a ++ k :: b))%nat ->
     remove_loop (length a1) n k (a ++ k :: b) = (a ++ b, negb (match b with [] => true | _ => false end))).
  { induction a2 as [|x a2 IH]; intros a1 n E L.
    - rewrite app_nil_r in E. subst a1. rewrite app_length in L. cbn [length] in L. destruct n as [|n]; [lia|]. cbn [remove_loop].
      rewrite nth_error_app2, Nat.sub_diag by lia. cbn [nth_error]. rewrite Nat.eqb_refl.
      assert (X : del (length a) (a ++ k :: b) = a ++ b).
      { unfold del. rewrite firstn_app, Nat.sub_diag, firstn_all. cbn [firstn]. rewrite app_nil_r. f_equal.
        replace (a ++ k :: b) with ((a ++ [k]) ++ b) by (rewrite <- app_assoc; reflexivity).
        rewrite skipn_app, skipn_all2; rewrite app_length; cbn [length]; [|lia]. replace (S (length a) - (length a + 1))%nat with 0%nat by lia. reflexivity. }
      rewrite X, remove_after by (auto; rewrite app_length; lia). f_equal. f_equal. destruct b; cbn [length] in L; destruct n; try reflexivity; lia.
    - subst a. rewrite app_length in L. destruct n as [|n]; [rewrite app_length in L; cbn [length] in L; lia|]. cbn [remove_loop].
      rewrite <- app_assoc. rewrite nth_error_app2, Nat.sub_diag by lia. cbn [nth_error app].
      destruct (Nat.eqb_spec x k) as [->|]; [exfalso; apply D; rewrite !in_app_iff; left; right; left; reflexivity|].
      specialize (IH (a1 ++ [x]) n). rewrite <- !app_assoc in IH. cbn [app] in IH. rewrite app_length in IH. cbn [length] in IH.
      replace (length a1 + 1)%nat with (S (length a1)) in IH by lia. rewrite <- app_assoc. cbn [app]. apply IH; [reflexivity|].
      rewrite !app_length in *. cbn [length] in *. rewrite app_length in *. cbn [length] in *. lia. }
  apply (G a [] _ eq_refl eq_refl).
Qed.
(** Credentials are removed, and the others stay as they were; but an IndexError is raised unless they were the last *)
Theorem removed_partial : forall k a b, NoDup (a ++ k :: b) -> fst (remove_credentials k (a ++ k :: b)) = a ++ b.
Proof. intros k a b D. rewrite remove_found by exact D. reflexivity. Qed.
Theorem remove_last : forall k a, NoDup (a ++ [k]) -> remove_credentials k (a ++ [k]) = (a, false).
Proof. intros k a D. rewrite remove_found by exact D. rewrite app_nil_r. reflexivity. Qed.
Theorem remove_unknown : forall k l, ~ In k l -> remove_credentials k l = (l, false).
Proof. intros k l N. apply remove_none; [reflexivity|exact N]. Qed.
Theorem remove_raises_refuted : forall k a b, NoDup (a ++ k :: b) -> b <> [] -> snd (remove_credentials k (a ++ k :: b)) = true.
Proof. intros k a b D N. rewrite remove_found by exact D. destruct b; [congruence|reflexivity]. Qed.

(** ** C116 *)
(** How many times request r is queued again after a 401 *)
Definition retry (r : nat) (e : event) : bool :=
  match e with Answered r' _ a _ (Ok (S _)) => Nat.eqb r r' && (status a =? 401) | _ => false end.
Definition retries (r : nat) (log : list event) : nat := length (filter (retry r) log).
(** If r is only answered with 401, each time with at most one challenge, it is tried again at most as many times as
    there are credentials, whatever happens to other requests *)
Lemma removed_set : forall k l, NoDup l -> NoDup (fst (remove_credentials k l)) /\ ~ In k (fst (remove_credentials k l)) /\
  forall x, In x (fst (remove_credentials k l)) -> In x l.
Proof.
  intros k l D. destruct (in_dec Nat.eq_dec k l) as [I0|N].
  - apply in_split in I0 as (a & b & ->). rewrite removed_partial by exact D. apply NoDup_remove in D as [D1 D2]. repeat split; auto.
    intros x X. apply in_app_or in X as [X|X]; apply in_or_app; [left|right; right]; exact X.
  - rewrite remove_unknown by exact N. auto.
Qed.
Lemma continue_creds : forall r a s s' o, continue r a s = (s', o) -> creds s' = creds s /\ objs s' = objs s /\ forall x, x <> r -> reqs s' x = reqs s x.
Proof.
  intros r a s s' o H. unfold continue in H. destruct ((300 <=? status a) && (status a <=? 399)).
  - destruct (location a) as [u|]; injection H as <- <-; [|auto]. cbn [resend creds objs reqs]. repeat split. intros x N. apply upd_other. exact N.
  - destruct (status a =? 401).
    + apply try_frame in H as (A & B & C & _). auto.
    + injection H as <- <-. auto.
Qed.
(** What is sent for some credentials is the same for ever: successes change only what is known of paths *)
Lemma learn_text : forall p c c', add_success_path p c = Ok c' -> to_bytes c' = to_bytes c.
Proof.
  intros p c c' H. unfold add_success_path in H. destruct (split_path _ _) as [x|]; [|discriminate]. cbn [rbind] in H.
  destruct (normalize_segments _) as [y|]; [|discriminate]. cbn [rbind] in H. destruct (absorb y (prefixes c)) as [k ps].
  injection H as <-. reflexivity.
Qed.
Theorem text_constant : forall s0 log s, run s0 log s -> forall k, to_bytes (objs s k) = to_bytes (objs s0 k).
Proof.
  intros s0 log s R k. induction R as [|log s e s' R IH St]; [reflexivity|]. rewrite <- IH. clear IH R.
  destruct St as [s r s' H|s r a s' o H|s k' H]; [| |reflexivity].
  - unfold send_header in H. destruct (auth (reqs s r)).
    + destruct (find_by_url (objs s) (creds s) (url (reqs s r))) as [[k'|]|e]; cbn [rbind] in H; try discriminate; injection H as <-; reflexivity.
    + injection H as <-. reflexivity.
    + injection H as <-. reflexivity.
  - unfold finished in H. cbv zeta in H. destruct (tried (reqs s r)) as [k'|]; [|apply continue_creds in H as (_ & -> & _); reflexivity].
    destruct (status a =? 401).
    + destruct (remove_credentials k' (creds s)) as [l [|]]; [injection H as <- _; reflexivity|]. apply continue_creds in H as (_ & -> & _). reflexivity.
    + destruct (str_eqb (scheme (objs s k')) basic); [|apply continue_creds in H as (_ & -> & _); reflexivity].
      destruct (add_success_path (snd (url (reqs s r))) (objs s k')) as [c|] eqn:L; [|injection H as <- _; reflexivity].
      apply continue_creds in H as (_ & -> & _). cbn [objs untry]. unfold upd. destruct (Nat.eqb_spec k k') as [->|]; [|reflexivity].
      eapply learn_text; eauto.
Qed.
Lemma finished_creds : forall r a s s' o, finished r a s = (s', o) -> (forall x, x <> r -> tried (reqs s' x) = tried (reqs s x)) /\
  (creds s' = creds s \/ exists k, tried (reqs s r) = Some k /\ creds s' = fst (remove_credentials k (creds s))).
Proof.
  intros r a s s' o H. unfold finished in H; cbv zeta in H.
  assert (G : forall s1, creds s1 = creds s -> (forall x, x <> r -> reqs s1 x = reqs s x) -> continue r a s1 = (s', o) ->
      (forall x, x <> r -> tried (reqs s' x) = tried (reqs s x)) /\ creds s' = creds s).
  { intros s1 E1 E2 C. apply continue_creds in C as (A & _ & B). rewrite A. split; [|exact E1]. intros x N. rewrite B, E2 by exact N. reflexivity. }
  assert (UN : forall s1 x, x <> r -> reqs (untry r s1) x = reqs s1 x) by (intros s1 x N; unfold untry; cbn [reqs]; apply upd_other; exact N).
  destruct (tried (reqs s r)) as [k|] eqn:T.
  2:{ destruct (G s eq_refl ltac:(auto) H). auto. }
  destruct (status a =? 401).
  - destruct (remove_credentials k (creds s)) as [l e] eqn:Rm. destruct e.
    + injection H as <- <-. cbn [reqs creds]. split; [auto|]. right. exists k. rewrite Rm. auto.
    + apply continue_creds in H as (A & _ & B). split.
      * intros x N. rewrite B, UN by exact N. reflexivity.
      * right. exists k. rewrite Rm. split; [reflexivity|]. exact A.
  - destruct (str_eqb (scheme (objs s k)) basic).
    + destruct (add_success_path (snd (url (reqs s r))) (objs s k)) as [c|]; [|injection H as <- <-; auto].
      destruct (G (untry r (St (creds s) (upd (objs s) k c) (reqs s))) eq_refl (UN (St (creds s) (upd (objs s) k c) (reqs s))) H). auto.
    + destruct (G (untry r s) eq_refl (UN s) H). auto.
Qed.
Definition quiet (r : nat) (e : event) : Prop :=
  match e with
  | Answered r' _ a _ _ => r' = r -> status a = 401 /\ (length (challenges a) <= 1)%nat
  | Added _ => False
  | Sent _ _ _ => True
  end.
Lemma tries_inv : forall s0 r log s, fresh s0 -> run s0 log s -> Forall (quiet r) log ->
  NoDup (creds s) /\ (forall x, In x (creds s) -> In x (creds s0)) /\
  exists D, NoDup D /\ incl D (creds s0) /\ retries r log = length D /\ (forall d, In d D -> In d (creds s) -> tried (reqs s r) = Some d).
Proof.
  intros s0 r log s (F1 & _ & F3). induction 1 as [|log s e s' Hr IH St]; intros Q.
  - split; [exact F1|]. split; [auto|]. exists []. repeat split; try constructor; [intros x []|intros d []].
  - apply Forall_app in Q as [Q Qe]. inversion Qe as [|? ? Qe' _]; subst. destruct (IH Q) as (N & Sub & D & D1 & D2 & D3 & D4). clear IH Qe.
    assert (RT : forall b, retry r e = b -> retries r (log ++ [e]) = (length D + (if b then 1 else 0))%nat).
    { intros b E. unfold retries. rewrite filter_app, app_length. cbn [filter]. rewrite E. fold (retries r log). rewrite D3. destruct b; reflexivity. }
    destruct St as [s r1 s' H|s r1 a s' o H|s k H].
    + (* sent *)
      assert (E : creds s' = creds s /\ tried (reqs s' r) = tried (reqs s r)).
      { unfold send_header in H. destruct (auth (reqs s r1)).
        - destruct (find_by_url (objs s) (creds s) (url (reqs s r1))) as [[k'|]|e]; cbn [rbind] in H; try discriminate; injection H as <-; [|auto].
          cbn [creds reqs]. split; [reflexivity|]. destruct (Nat.eq_dec r r1) as [->|N1]; [rewrite upd_same|rewrite upd_other by exact N1]; reflexivity.
        - injection H as <-. auto.
        - injection H as <-. auto. }
      destruct E as [E1 E2]. rewrite E1. split; [exact N|]. split; [exact Sub|]. exists D. rewrite (RT false eq_refl), E2. repeat split; auto; lia.
    + destruct (Nat.eq_dec r1 r) as [->|Nr].
      2:{ destruct (finished_creds _ _ _ _ _ H) as (A & B). assert (RF : retry r (Answered r1 (url (reqs s r1)) a (tried (reqs s r1)) o) = false).
          { cbn [retry]. destruct o as [[|m]|]; try reflexivity. destruct (Nat.eqb_spec r r1); [congruence|reflexivity]. }
          assert (X : NoDup (creds s') /\ forall x, In x (creds s') -> In x (creds s)).
          { destruct B as [->|(k & _ & ->)]; [auto|]. destruct (removed_set k (creds s) N) as (X1 & _ & X2). auto. }
          destruct X as [X1 X2]. split; [exact X1|]. split; [auto|]. exists D. rewrite (RT _ RF), A by auto. repeat split; auto; lia. }
      destruct (Qe' eq_refl) as [S401 Len]. unfold finished in H; cbv zeta in H.
      (* no credentials that were tried are left when the challenge is looked at *)
      assert (G : forall s1, NoDup (creds s1) -> (forall x, In x (creds s1) -> In x (creds s)) -> (forall d, In d D -> ~ In d (creds s1)) ->
        continue r a s1 = (s', o) -> NoDup (creds s') /\ (forall x, In x (creds s') -> In x (creds s0)) /\
        exists D', NoDup D' /\ incl D' (creds s0) /\ retries r (log ++ [Answered r (url (reqs s r)) a (tried (reqs s r)) o]) = length D' /\
          (forall d, In d D' -> In d (creds s') -> tried (reqs s' r) = Some d)).
      { intros s1 N1 Sub1 Out C. unfold continue in C. rewrite S401 in C. change ((300 <=? 401) && (401 <=? 399)) with false in C. cbn iota in C.
        change (401 =? 401) with true in C. cbn iota in C. destruct (challenges a) as [|[sch rl] [|]]; [| |cbn [length] in Len; lia]; cbn [try_challenges] in C.
        - injection C as <- <-. split; [exact N1|]. split; [auto|]. exists D. rewrite (RT false) by reflexivity. repeat split; auto.
          intros d Dd X. exfalso. exact (Out d Dd X).
        - destruct (find_credentials s1 (Chal sch (fst (url (reqs s1 r))) rl)) as [[k|]|e] eqn:Fk; injection C as <- <-; cbn [creds reqs].
          + split; [exact N1|]. split; [auto|]. unfold find_credentials in Fk. apply find_matching_some in Fk as (Ik & _).
            exists (k :: D). rewrite (RT true) by (cbn [retry]; rewrite Nat.eqb_refl, S401; reflexivity). repeat split.
            * constructor; [intros X; exact (Out k X Ik)|exact D1].
            * intros x [<-|X]; auto.
            * cbn [length]. lia.
            * intros d [<-|X] Y; [rewrite upd_same; reflexivity|]. exfalso. exact (Out d X Y).
          + split; [exact N1|]. split; [auto|]. exists D. rewrite (RT false) by reflexivity. repeat split; auto.
            intros d Dd X. exfalso. exact (Out d Dd X).
          + split; [exact N1|]. split; [auto|]. exists D. rewrite (RT false) by reflexivity. repeat split; auto.
            intros d Dd X. exfalso. exact (Out d Dd X). }
      destruct (tried (reqs s r)) as [k|] eqn:T.
      * rewrite S401 in H. change (401 =? 401) with true in H. cbn iota in H. destruct (removed_set k (creds s) N) as (X1 & X2 & X3).
        destruct (remove_credentials k (creds s)) as [l e]. cbn [fst] in X1, X2, X3.
        assert (Out : forall d, In d D -> ~ In d l). { intros d Dd X. specialize (D4 d Dd (X3 d X)). injection D4 as ->. contradiction. }
        destruct e.
        -- injection H as <- <-. cbn [creds reqs]. split; [exact X1|]. split; [auto|]. exists D. rewrite (RT false) by reflexivity. repeat split; auto.
           intros d Dd X. exfalso. exact (Out d Dd X).
        -- apply (G (untry r (St l (objs s) (reqs s)))); auto.
      * apply (G s); auto. intros d Dd X. specialize (D4 d Dd X). discriminate.
    + destruct Qe'.
Qed.
Theorem tries_end_partial : forall s0 r log s, fresh s0 -> run s0 log s -> Forall (quiet r) log -> (retries r log <= length (creds s0))%nat.
Proof.
  intros s0 r log s F R Q. destruct (tries_inv s0 r log s F R Q) as (_ & _ & D & D1 & D2 & -> & _). apply NoDup_incl_length; assumption.
Qed.
(** With two challenges there may be no end: one set of credentials, answered with 401 for ever *)
Definition start (u : Z * str) : st := St [O] (fun _ => basic0) (fun _ => Req u NoHeader None).
Definition two : response := Resp 401 [(basic, lit "here"); (lit "Digest", lit "here")] None.
Lemma start_fresh : forall u, fresh (start u).
Proof. intros u. split; [repeat constructor; intros []|]. split; [reflexivity|]. intros r. split; reflexivity. Qed.
Theorem tries_forever_refuted : forall n, exists log s, run (start (7, lit "/")) log s /\ retries 0 log = n /\
  Forall (fun e => exists u t o, e = Answered 0 u two t o) log.
Proof.
  intros n.
  assert (G : exists log s, run (start (7, lit "/")) log s /\ retries 0 log = n /\ Forall (fun e => exists u t o, e = Answered 0 u two t o) log /\
     creds s = [O] /\ objs s = (fun _ => basic0) /\ url (reqs s O) = (7, lit "/") /\ tried (reqs s O) = None).
  { induction n as [|n (log & s & R & E & F & C & Ob & U & T)].
    - exists [], (start (7, lit "/")). repeat split; constructor.
    - destruct (finished 0 two s) as [s' o] eqn:Fi. exists (log ++ [Answered 0 (url (reqs s O)) two (tried (reqs s O)) o]), s'.
      assert (X : o = Ok 1%nat /\ creds s' = [O] /\ objs s' = (fun _ => basic0) /\ url (reqs s' O) = (7, lit "/") /\ tried (reqs s' O) = None).
      { unfold finished in Fi; cbv zeta in Fi; rewrite T in Fi. unfold continue in Fi. cbn [two status challenges] in Fi. change ((300 <=? 401) && (401 <=? 399)) with false in Fi.
        change (401 =? 401) with true in Fi. cbn iota in Fi. cbn [try_challenges] in Fi.
        unfold find_credentials in Fi at 1. rewrite C, Ob, U in Fi. change (find_matching (fun _ => basic0) [O] (Chal basic (fst (7, lit "/")) (lit "here"))) with (@Ok (option nat) (Some O)) in Fi.
        cbn iota in Fi. unfold find_credentials in Fi. cbn [creds objs reqs] in Fi. rewrite upd_same in Fi. cbn [url auth] in Fi.
        change (find_matching (fun _ => basic0) [O] (Chal (lit "Digest") (fst (7, lit "/")) (lit "here"))) with (@Ok (option nat) None) in Fi.
        injection Fi as <- <-. cbn [creds objs reqs]. rewrite upd_same. repeat split; assumption. }
      destruct X as (-> & X). split; [eapply run_step; [exact R|apply s_answer; exact Fi]|]. split; [|split; [|exact X]].
      + unfold retries in *. rewrite filter_app, app_length, E. cbn [filter retry]. cbn. lia.
      + apply Forall_app. split; [exact F|]. constructor; [|constructor]. eauto. }
  destruct G as (log & s & R & E & F & _). eauto.
Qed.
(** Nor with redirections: there is no limit to them *)
Theorem redirects_forever_refuted : forall n, exists log s, run (start (7, lit "/")) log s /\ length log = n /\
  Forall (fun e => exists u, e = Answered 0 u (redirect (7, lit "/")) None (Ok 1%nat)) log.
Proof.
  intros n.
  assert (G : exists log s, run (start (7, lit "/")) log s /\ length log = n /\
     Forall (fun e => exists u, e = Answered 0 u (redirect (7, lit "/")) None (Ok 1%nat)) log /\ tried (reqs s O) = None).
  { induction n as [|n (log & s & R & E & F & T)].
    - exists [], (start (7, lit "/")). repeat split; constructor.
    - exists (log ++ [Answered 0 (url (reqs s O)) (redirect (7, lit "/")) (tried (reqs s O)) (Ok 1%nat)]), (resend 0 (Some (7, lit "/")) s).
      split; [eapply run_step; [exact R|]; apply s_answer; unfold finished; cbv zeta; rewrite T; reflexivity|].
      split; [rewrite app_length, E; cbn; lia|]. split; [|cbn [resend reqs]; rewrite upd_same; exact T].
      apply Forall_app. split; [exact F|]. constructor; [|constructor]. rewrite T. eauto. }
  destruct G as (log & s & R & E & F & _). eauto.
Qed.
(** A challenge never matches credentials for one realm: it has no such attribute *)
Theorem realm_raises_refuted : forall c ch x rl, scheme c = c_scheme ch -> space c = c_space ch -> realm c = Some (x :: rl) ->
  match_challenge c ch = Err AttributeError.
Proof.
  intros c ch x rl S P R. unfold match_challenge. rewrite S, P, R, str_eqb_refl, Z.eqb_refl. reflexivity.
Qed.
(** match() raises an error for every challenge *)
Theorem match_raises_refuted : forall c ch u, match_ c (Some ch) u = Err AttributeError.
Proof. reflexivity. Qed.

(** ** Examples *)
Example ex_basic : to_bytes basic0 = Ok (lit "Basic am9lOnNlY3JldA==") /\
  (let! c := from_str (lit "Basic am9lOnNlY3JldA==") in Ok (userid c, password c)) = Ok (Some (lit "joe"), Some (lit "secret")) /\
  ~ has 58 (lit "joe") /\ ~ has 58 (lit "secret") /\ Forall (fun x => 0 <= x < 256) (lit "joe" ++ lit ":" ++ lit "secret").
Proof.
  split; [vm_compute; reflexivity|]. split; [vm_compute; reflexivity|]. split; [cbn; intros H; repeat destruct H as [H|H]; discriminate || contradiction|].
  split; [cbn; intros H; repeat destruct H as [H|H]; discriminate || contradiction|]. cbn. repeat constructor; lia.
Qed.
Example ex_colon : from_str (lit "Basic am9lOjpz") = Err ValueError /\ to_bytes (new_basic 7 None (Some (lit "joe")) (Some (lit ":s"))) = Ok (lit "Basic am9lOjpz").
Proof. split; vm_compute; reflexivity. Qed.
Ltac segs l := exists l; split; [split; [discriminate|]; repeat constructor; try discriminate; cbn; intros H; repeat destruct H as [H|H]; discriminate || contradiction|].
Example ex_learn : clean (lit "/docs/a") /\ clean (lit "/docs/b/c") /\ covers (lit "/docs/a") (lit "/docs/b/c") /\
  (exists c, learn [lit "/docs/a"; lit "/docs/b/x"; lit "/other/"] basic0 = Ok c /\ prefixes c = [[lit "docs"; []]; [lit "other"; []]] /\
     test_path c (lit "/docs/b/c") = Ok true /\ test_path c (lit "/docs") = Ok false /\ test_path c (lit "/other/q") = Ok true).
Proof.
  split; [segs [lit "docs"; lit "a"]; reflexivity|]. split; [segs [lit "docs"; lit "b"; lit "c"]; reflexivity|].
  split; [exists (lit "/docs"), (lit "a"), (lit "b/c"); split; [reflexivity|split; [cbn; intros H; repeat destruct H as [H|H]; discriminate || contradiction|reflexivity]]|].
  eexists. split; [vm_compute; reflexivity|]. repeat split; vm_compute; reflexivity.
Qed.
Definition two_requests : st :=
  St [O] (fun _ => basic0) (fun r => Req (7, match r with O => lit "/docs/a" | _ => lit "/docs/b" end) NoHeader None).
Definition r401 : response := Resp 401 [(basic, lit "here")] None.
Definition r200 : response := Resp 200 [] None.
Lemma run_snoc : forall s0 log s e s' log', run s0 log s -> step s e s' -> log' = log ++ [e] -> run s0 log' s'.
Proof. intros; subst. eapply run_step; eauto. Qed.
Lemma sends : forall s r s' u h, send_header r s = Ok s' -> u = url (reqs s r) -> h = auth (reqs s' r) -> step s (Sent r u h) s'.
Proof. intros; subst. apply s_send. assumption. Qed.
Lemma answers : forall s r a s' u t o, finished r a s = (s', o) -> u = url (reqs s r) -> t = tried (reqs s r) -> step s (Answered r u a t o) s'.
Proof. intros; subst. apply s_answer. assumption. Qed.
(** The first request is refused, tried again with the credentials and successful; the second one has them at once *)
Example ex_run : fresh two_requests /\ exists log s s', run two_requests log s /\
  log = [Sent 0 (7, lit "/docs/a") NoHeader; Answered 0 (7, lit "/docs/a") r401 None (Ok 1%nat);
         Sent 0 (7, lit "/docs/a") (Of 0); Answered 0 (7, lit "/docs/a") r200 (Some O) (Ok O)] /\
  auth (reqs s 1%nat) = NoHeader /\ step s (Sent 1 (7, lit "/docs/b") (Of 0)) s' /\
  Forall (quiet 0) (firstn 2 log) /\ retries 0 log = 1%nat /\ creds s = [O].
Proof.
  split; [split; [repeat constructor; intros []|]; split; [reflexivity|]; intros r; split; reflexivity|].
  pose (g := fun x : res st => match x with Ok s => s | Err _ => two_requests end).
  pose (s1 := g (send_header 0 two_requests)). pose (s2 := fst (finished 0 r401 s1)). pose (s3 := g (send_header 0 s2)).
  pose (s4 := fst (finished 0 r200 s3)). pose (s5 := g (send_header 1 s4)).
  eexists _, s4, s5. split; [|split; [reflexivity|]].
  { match goal with |- run _ [?a; ?b; ?c; ?d] _ => change (run two_requests (((([] ++ [a]) ++ [b]) ++ [c]) ++ [d]) s4) end.
    apply run_step with s3; [apply run_step with s2; [apply run_step with s1; [apply run_step with two_requests; [apply run_start|]|]|]|].
    - apply sends; vm_compute; reflexivity.
    - apply answers; vm_compute; reflexivity.
    - apply sends; vm_compute; reflexivity.
    - apply answers; vm_compute; reflexivity. }
  split; [vm_compute; reflexivity|]. split; [apply sends; vm_compute; reflexivity|].
  split; [repeat constructor; cbn; auto|]. split; vm_compute; reflexivity.
Qed.
Print Assumptions basic_text.
Print Assumptions basic_round_trip_partial.
Print Assumptions colon_password_refuted.
Print Assumptions success_covers_partial.
Print Assumptions only_covers_partial.
Print Assumptions empty_segment_refuted.
Print Assumptions empty_path_refuted.
Print Assumptions credentials_stay.
Print Assumptions text_constant.
Print Assumptions preemptive_partial.
Print Assumptions preemptive_used_partial.
Print Assumptions none_header_refuted.
Print Assumptions removed_partial.
Print Assumptions remove_last.
Print Assumptions remove_unknown.
Print Assumptions remove_raises_refuted.
Print Assumptions tries_end_partial.
Print Assumptions tries_forever_refuted.
Print Assumptions redirects_forever_refuted.
Print Assumptions realm_raises_refuted.
Print Assumptions match_raises_refuted.
