(** Proofs for C38: comments, and the words of a source. *)
From Verif Require Import Py HttpModel HttpSpec HttpProofs.

(** ** Comments, a piece at a time *)
Definition cstop : str := lit "()\".
Lemma comment_fuel : forall u n d s m, (length s <= n)%nat -> (length s <= m)%nat -> comment_loop n u d s = comment_loop m u d s.
Proof.
  intros u. induction n as [|n IH]; intros d s m Hn Hm.
  - destruct s; [|cbn in Hn; lia]. destruct m; reflexivity.
  - destruct m as [|m]; [destruct s; [reflexivity|cbn in Hm; lia]|]. cbn [comment_loop]. destruct s as [|c t]; [reflexivity|].
    cbn [length] in *.
    destruct (c =? 41); [destruct d as [|[|d]]; try reflexivity; rewrite (IH (S d) t m) by lia; reflexivity|].
    destruct (c =? 40); [rewrite (IH (S d) t m) by lia; reflexivity|]. destruct (c =? 92).
    + destruct (parse_quoted_pair (c :: t)) as [[q r]|] eqn:E; [|reflexivity]. apply pair_len in E as [E _].
      cbn [length] in *. rewrite (IH d r m) by lia. reflexivity.
    + unfold parse_ctext. fold cstop. fold (runt cstop u (c :: t)). destruct (runt cstop u (c :: t)) as [x r] eqn:E.
      destruct x as [|y x]; [reflexivity|]. destruct (runt_len _ _ _ _ _ _ (Nat.le_refl _) E) as (_ & H & _).
      specialize (H ltac:(discriminate)). cbn [length] in *. rewrite (IH d r m) by lia. reflexivity.
Qed.
Definition com (u : bool) (d : nat) (s : str) : res (str * str) := comment_loop (length s) u d s.
Lemma com_eq : forall u d s, com u d s = match s with
  | nil => Err ParserError
  | c :: r => if c =? 41 then match d with S (S d') => prepend [41] (com u (S d') r) | _ => Ok ([41], r) end
              else if c =? 40 then prepend [40] (com u (S d) r)
              else if c =? 92 then match parse_quoted_pair s with
                                   | None => Err ParserError
                                   | Some (q, r') => prepend q (com u d r')
                                   end
              else match runt cstop u s with
                   | (nil, _) => Err ParserError
                   | (t, r') => prepend t (com u d r')
                   end
  end.
Proof.
  intros u d s. unfold com at 1. destruct s as [|c t]; [reflexivity|].
  cbn [length comment_loop]. destruct (c =? 41); [destruct d as [|[|d]]; reflexivity|].
  destruct (c =? 40); [reflexivity|]. destruct (c =? 92).
  - destruct (parse_quoted_pair (c :: t)) as [[q r]|] eqn:E; [|reflexivity]. apply pair_len in E as [E _]. cbn [length] in E.
    unfold prepend, com. rewrite (comment_fuel u (length t) d r (length r)) by lia. reflexivity.
  - unfold parse_ctext. fold cstop. fold (runt cstop u (c :: t)). destruct (runt cstop u (c :: t)) as [x r] eqn:E.
    destruct x as [|y x]; [reflexivity|]. destruct (runt_len _ _ _ _ _ _ (Nat.le_refl _) E) as (_ & H & _).
    specialize (H ltac:(discriminate)). cbn [length] in *.
    unfold prepend, com. rewrite (comment_fuel u (length t) d r (length r)) by lia. reflexivity.
Qed.
Lemma zin_cstop : forall c, zin c cstop = (c =? 40) || ((c =? 41) || ((c =? 92) || false)).
Proof. reflexivity. Qed.
Lemma com_text : forall u d c t, c <> 40 -> c <> 41 -> c <> 92 -> com u d (c :: t) = match parse_onetext u (c :: t) with
  | None => Err ParserError
  | Some (x, r) => prepend x (com u d r)
  end.
Proof.
  intros u d c t H0 H1 H2. rewrite com_eq. apply Z.eqb_neq in H0 as E0. apply Z.eqb_neq in H1 as E1. apply Z.eqb_neq in H2 as E2.
  rewrite E0, E1, E2.
  rewrite runt_eq. rewrite zin_cstop, E0, E1, E2. cbn [orb].
  destruct (parse_onetext u (c :: t)) as [[x r]|] eqn:E; [|reflexivity].
  destruct (onetext_len _ _ _ _ E) as [Hx Hl].
  destruct (runt cstop u r) as [y r'] eqn:Er.
  assert (Hxy : exists z zs, x ++ y = z :: zs). { destruct x; [congruence|]. eexists _, _. reflexivity. }
  destruct Hxy as (z & zs & Hz). rewrite Hz, <- Hz. rewrite <- prepend_app. f_equal.
  destruct y as [|y0 ys].
  - destruct (runt_len _ _ _ _ _ _ (Nat.le_refl _) Er) as (_ & _ & H). rewrite (H eq_refl). apply prepend_nil.
  - rewrite (com_eq u d r), Er. rewrite runt_eq in Er. destruct r as [|e r]; [discriminate|].
    destruct (zin e cstop) eqn:Ed; [discriminate|]. rewrite zin_cstop in Ed.
    destruct (e =? 40), (e =? 41), (e =? 92); try discriminate. reflexivity.
Qed.
Lemma com_pair : forall u d c r, is_chr c = true -> com u d (92 :: c :: r) = prepend [92; c] (com u d r).
Proof. intros u d c r H. rewrite com_eq. cbn [Z.eqb Pos.eqb parse_quoted_pair]. rewrite H. reflexivity. Qed.
Lemma com_open : forall u d r, com u d (40 :: r) = prepend [40] (com u (S d) r).
Proof. intros. rewrite com_eq. reflexivity. Qed.
Lemma com_close1 : forall u r, com u 1 (41 :: r) = Ok ([41], r).
Proof. intros. rewrite com_eq. reflexivity. Qed.
Lemma com_close : forall u d r, com u (S (S d)) (41 :: r) = prepend [41] (com u (S d) r).
Proof. intros. rewrite com_eq. reflexivity. Qed.
Lemma com_ws1 : forall u d c r, ws c -> com u d (c :: r) = prepend [c] (com u d r).
Proof.
  intros u d c r Hc. destruct (ws_split r) as (w & r0 & -> & Hf & Hr).
  assert (Hc1 : c <> 40 /\ c <> 41 /\ c <> 92) by (destruct Hc; lia).
  rewrite com_text by tauto. change (c :: w ++ r0) with ((c :: w) ++ r0).
  rewrite onetext_ws; [|discriminate|constructor; assumption|assumption].
  destruct w as [|e w].
  - reflexivity.
  - assert (Hd : ws e) by (inversion Hf; assumption). assert (Hd1 : e <> 40 /\ e <> 41 /\ e <> 92) by (destruct Hd; lia).
    cbn [app]. rewrite com_text by tauto. change (e :: w ++ r0) with ((e :: w) ++ r0).
    rewrite onetext_ws; [|discriminate|assumption|assumption]. rewrite prepend_app. reflexivity.
Qed.

Lemma com_body : forall b v, cbody b v -> forall d r, no_ws r -> com true (S d) (b ++ r) = prepend v (com true (S d) r).
Proof.
  induction 1 as [|c b v H1 H2 H3 H4 H5 Hb IH|c b v Hc Hb IH|w b v Hw Hf Hn Hb IH|c b v Hc Hb IH|b1 v1 b v Hb1 IH1 Hb IH]; intros d r Hr.
  - cbn [app]. rewrite prepend_nil. reflexivity.
  - cbn [app]. rewrite com_text, onetext_char by assumption. rewrite IH, prepend_app by assumption. reflexivity.
  - cbn [app]. rewrite com_ws1, IH, prepend_app by assumption. reflexivity.
  - cbn [app]. rewrite <- app_assoc, com_text, onetext_fold; try lia; auto.
    + rewrite IH, prepend_app by assumption. reflexivity.
    + destruct b; [exact Hr|exact Hn].
  - cbn [app]. rewrite com_pair by (apply Z.ltb_lt; lia). rewrite IH, prepend_app by assumption. reflexivity.
  - cbn [app]. rewrite <- app_assoc. cbn [app]. rewrite com_open, IH1 by (intros [?|?]; lia).
    rewrite com_close, IH by assumption. rewrite !prepend_app. f_equal. cbn. rewrite <- app_assoc. reflexivity.
Qed.
Lemma parse_comment_ok : forall raw v r, comment raw v -> parse_comment true (raw ++ r) = Ok (Some v, r).
Proof.
  intros raw v r (b & u & Hb & -> & ->). cbn [app parse_comment]. change (40 =? 40) with true. cbv iota.
  rewrite <- app_assoc. cbn [app].
  rewrite (comment_fuel true _ 1 (b ++ 41 :: r) (length (b ++ 41 :: r))) by (cbn; lia).
  fold (com true 1 (b ++ 41 :: r)). rewrite (com_body b u Hb); [|intros [?|?]; lia].
  rewrite com_close1. reflexivity.
Qed.

Inductive closes : nat -> str -> str -> Prop :=
| cl_one : forall b v, cbody b v -> closes 1 (b ++ [41]) (v ++ [41])
| cl_more : forall d b v r u, cbody b v -> closes (S d) r u -> closes (S (S d)) (b ++ 41 :: r) (v ++ 41 :: u).
Lemma closes_inv : forall d raw x, closes d raw x -> exists b v r u, cbody b v /\ raw = b ++ 41 :: r /\ x = v ++ 41 :: u
  /\ forall b' v', cbody b' v' -> closes d (b' ++ 41 :: r) (v' ++ 41 :: u).
Proof.
  intros d raw x H. destruct H as [b v Hb|d b v r u Hb Hc].
  - exists b, v, nil, nil. repeat split; auto. intros. constructor. assumption.
  - exists b, v, r, u. repeat split; auto. intros. constructor; assumption.
Qed.
Lemma cbody_ws_app : forall x r v, Forall ws x -> cbody r v -> cbody (x ++ r) (x ++ v).
Proof. intros x r v H Hr. induction H; [assumption|]. cbn. constructor 3; assumption. Qed.

Lemma com_sound : forall n d s x r, (length s <= n)%nat -> bytes s -> com true (S d) s = Ok (x, r) ->
  exists raw, s = raw ++ r /\ closes (S d) raw x.
Proof.
  induction n as [|n IH]; intros d s x r Hn B H.
  - destruct s; [discriminate|cbn in Hn; lia].
  - destruct s as [|c t]; [discriminate|].
    apply bytes_cons in B as B0. destruct B0 as [Bc Bt].
    destruct (Z.eq_dec c 41) as [->|H41].
    { destruct d as [|d].
      - rewrite com_close1 in H. inversion H; subst. exists [41]. split; [reflexivity|]. apply (cl_one nil nil). constructor.
      - rewrite com_close in H. destruct (com true (S d) t) as [[x' r']|] eqn:E; [|discriminate]. inversion H; subst.
        destruct (IH d t x' r) as (raw & -> & Hc); [cbn in *; lia|assumption|assumption|].
        exists (41 :: raw). split; [reflexivity|]. apply (cl_more d nil nil); [constructor|assumption]. }
    destruct (Z.eq_dec c 40) as [->|H40].
    { rewrite com_open in H. destruct (com true (S (S d)) t) as [[x' r']|] eqn:E; [|discriminate]. inversion H; subst.
      destruct (IH (S d) t x' r) as (raw & -> & Hc); [cbn in *; lia|assumption|assumption|].
      inversion Hc as [|d' b v r0 u0 Hb Hc0]; subst.
      destruct (closes_inv _ _ _ Hc0) as (b2 & v2 & r2 & u2 & Hb2 & -> & -> & Hall).
      exists ((40 :: b ++ 41 :: b2) ++ 41 :: r2). split; [cbn; rewrite <- !app_assoc; cbn; rewrite <- !app_assoc; reflexivity|].
      replace (40 :: v ++ 41 :: v2 ++ 41 :: u2) with ((40 :: v ++ 41 :: v2) ++ 41 :: u2) by (cbn; rewrite <- app_assoc; reflexivity).
      apply Hall. constructor; assumption. }
    destruct (Z.eq_dec c 92) as [->|H92].
    { rewrite com_eq in H. cbn [Z.eqb Pos.eqb parse_quoted_pair] in H. destruct t as [|e t]; [discriminate|].
      destruct (is_chr e) eqn:Ed; [|discriminate].
      destruct (com true (S d) t) as [[x' r']|] eqn:Eq; [|discriminate]. cbn in H. inversion H; subst.
      apply bytes_cons in Bt as [Bd Bt].
      destruct (IH d t x' r) as (raw & -> & Hc); [cbn in *; lia|assumption|assumption|].
      unfold is_chr in Ed. b2p.
      destruct (closes_inv _ _ _ Hc) as (b2 & v2 & r2 & u2 & Hb2 & -> & -> & Hall).
      exists ((92 :: e :: b2) ++ 41 :: r2). split; [reflexivity|].
      apply (Hall (92 :: e :: b2) (92 :: e :: v2)). constructor; [lia|assumption]. }
    rewrite com_text in H by assumption.
    destruct (parse_onetext true (c :: t)) as [[y r1]|] eqn:E; [|discriminate].
    destruct (onetext_len _ _ _ _ E) as [_ Hl].
    destruct (com true (S d) r1) as [[x' r']|] eqn:Eq; [|discriminate]. cbn in H. inversion H; subst.
    destruct (onetext_cases _ _ _ B E) as [(c' & E1 & -> & H1 & H2)|[(E1 & Hy & Hf & Hr1)|(w & E1 & -> & Hw & Hf & Hr1)]].
    + inversion E1; subst c' r1. destruct (IH d t x' r) as (raw & -> & Hc); [cbn in *; lia|assumption|assumption|].
      destruct (closes_inv _ _ _ Hc) as (b2 & v2 & r2 & u2 & Hb2 & -> & -> & Hall).
      exists ((c :: b2) ++ 41 :: r2). split; [reflexivity|]. apply (Hall (c :: b2) (c :: v2)). constructor; auto.
    + rewrite E1 in B. apply bytes_app in B as [_ B].
      destruct (IH d r1 x' r) as (raw & -> & Hc); [cbn in *; lia|assumption|assumption|].
      destruct (closes_inv _ _ _ Hc) as (b2 & v2 & r2 & u2 & Hb2 & -> & -> & Hall).
      exists ((y ++ b2) ++ 41 :: r2). split; [rewrite E1, <- !app_assoc; reflexivity|]. rewrite app_assoc.
      apply Hall. apply cbody_ws_app; assumption.
    + rewrite E1 in B. apply bytes_cons in B as [_ B]. apply bytes_cons in B as [_ B]. apply bytes_app in B as [_ B].
      destruct (IH d r1 x' r) as (raw & -> & Hc); [cbn in *; lia|assumption|assumption|].
      destruct (closes_inv _ _ _ Hc) as (b2 & v2 & r2 & u2 & Hb2 & -> & -> & Hall).
      exists ((13 :: 10 :: w ++ b2) ++ 41 :: r2). split; [rewrite E1; cbn; rewrite <- !app_assoc; reflexivity|].
      apply (Hall (13 :: 10 :: w ++ b2) (32 :: v2)). constructor; try assumption.
      destruct b2; [exact I|]. rewrite <- app_assoc in Hr1. exact Hr1.
Qed.

Lemma parse_quoted_sound : forall s x r, bytes s -> parse_quoted_string true s = Ok (Some x, r) ->
  (exists raw, quoted raw x /\ s = raw ++ r) \/ (exists b u, qbody b u /\ s = 34 :: b /\ x = 34 :: u /\ r = nil).
Proof.
  intros s x r B. unfold parse_quoted_string. destruct s as [|c t]; [discriminate|].
  destruct (c =? 34) eqn:E; [|discriminate]. b2p. subst c.
  rewrite (quoted_fuel true _ t (length t)) by (cbn; lia). fold (quo true t).
  destruct (quo true t) as [[y r']|] eqn:Eq; [|discriminate]. cbn. intros H. inversion H; subst.
  apply bytes_cons in B as [_ B].
  destruct (quo_sound _ _ _ _ (Nat.le_refl _) B Eq) as (b & v & Hb & [[-> ->]|(-> & -> & ->)]).
  - left. exists (34 :: b ++ [34]). split; [exists b, v; auto|]. cbn. rewrite <- app_assoc. reflexivity.
  - right. exists b, v. auto.
Qed.
Lemma parse_comment_sound : forall s x r, bytes s -> parse_comment true s = Ok (Some x, r) ->
  exists raw, comment raw x /\ s = raw ++ r.
Proof.
  intros s x r B. unfold parse_comment. destruct s as [|c t]; [discriminate|].
  destruct (c =? 40) eqn:E; [|discriminate]. b2p. subst c.
  rewrite (comment_fuel true _ 1 t (length t)) by (cbn; lia). fold (com true 1 t).
  destruct (com true 1 t) as [[y r']|] eqn:Eq; [|discriminate]. cbn. intros H. inversion H; subst.
  apply bytes_cons in B as [_ B].
  destruct (com_sound _ _ _ _ _ (Nat.le_refl _) B Eq) as (raw & -> & Hc). inversion Hc; subst.
  exists (40 :: b ++ [41]). split; [exists b, v; auto|]. reflexivity.
Qed.

(** ** White space before a word *)
Lemma parse_lws_len : forall s l r, parse_lws s = Some (l, r) -> (length r < length s)%nat.
Proof.
  intros s l r E. destruct (parse_lws_ok _ _ _ E) as (-> & _ & H & _). rewrite app_length. destruct l; [congruence|cbn; lia].
Qed.
Lemma skip_fuel : forall n s m, (length s <= n)%nat -> (length s <= m)%nat -> skip_lws n s = skip_lws m s.
Proof.
  induction n as [|n IH]; intros s m Hn Hm.
  - destruct s; [|cbn in Hn; lia]. destruct m; reflexivity.
  - destruct m as [|m]; [destruct s; [reflexivity|cbn in Hm; lia]|]. cbn [skip_lws].
    destruct (parse_lws s) as [[l r]|] eqn:E; [|reflexivity]. apply parse_lws_len in E. rewrite (IH r m) by lia. reflexivity.
Qed.
Definition skipl (s : str) : str * bool := skip_lws (length s) s.
Lemma skipl_eq : forall s, skipl s = match parse_lws s with None => (s, false) | Some (_, r) => (fst (skipl r), true) end.
Proof.
  intros s. unfold skipl. destruct s as [|c t]; [reflexivity|]. cbn [length skip_lws].
  destruct (parse_lws (c :: t)) as [[l r]|] eqn:E; [|reflexivity]. apply parse_lws_len in E. cbn [length] in E.
  rewrite (skip_fuel (length t) r (length r)) by lia. reflexivity.
Qed.
Lemma lws_lws : forall s l r, parse_lws s = Some (l, r) -> lws l.
Proof.
  intros s l r E. destruct (parse_lws_ok _ _ _ E) as (_ & _ & _ & [[H1 H2]|(w & -> & H1 & H2)]); constructor; assumption.
Qed.
Lemma skipl_sound : forall n s s1 b, (length s <= n)%nat -> skipl s = (s1, b) ->
  no_lws s1 /\ (if b then exists a, lwss a /\ s = a ++ s1 else s1 = s).
Proof.
  induction n as [|n IH]; intros s s1 b Hn; rewrite skipl_eq.
  - destruct s; [|cbn in Hn; lia]. intros H. inversion H; subst. split; [|reflexivity]. apply parse_lws_none. reflexivity.
  - destruct (parse_lws s) as [[l r]|] eqn:E.
    + intros H. inversion H; subst. pose proof (parse_lws_len _ _ _ E).
      destruct (skipl r) as [s2 b2] eqn:E2. cbn [fst].
      destruct (IH r s2 b2 ltac:(lia) E2) as [H1 H2]. split; [assumption|].
      pose proof (lws_lws _ _ _ E) as HL. destruct (parse_lws_ok _ _ _ E) as (Es & _). rewrite Es. destruct b2.
      * destruct H2 as (a & Ha & ->). exists (l ++ a). split; [apply lwss_more; assumption|apply app_assoc].
      * subst s2. exists l. split; [apply lwss_one; assumption|reflexivity].
    + intros H. inversion H; subst. split; [apply parse_lws_none; assumption|reflexivity].
Qed.
(** white space is parsed to its end, however it was divided *)
Lemma skipl_lws : forall a s, lws a -> fst (skipl (a ++ s)) = fst (skipl s).
Proof.
  intros a s Ha. destruct (ws_split s) as (w & r & -> & Hf & Hr).
  assert (E : parse_lws (a ++ w ++ r) = Some (a ++ w, r)).
  { inversion Ha as [w0 H1 H2|w0 H1 H2]; subst.
    - rewrite app_assoc. apply parse_lws_plain; [destruct a; [congruence|discriminate]|apply Forall_app; auto|assumption].
    - cbn [app]. rewrite app_assoc. apply parse_lws_fold; [destruct w0; [congruence|discriminate]|apply Forall_app; auto|assumption]. }
  rewrite skipl_eq, E. cbn [fst]. destruct w as [|c w]; [reflexivity|].
  rewrite (skipl_eq ((c :: w) ++ r)), parse_lws_plain by (discriminate || assumption). reflexivity.
Qed.
Lemma skipl_complete : forall a s, lwss a -> no_lws s -> skipl (a ++ s) = (s, true).
Proof.
  intros a s Ha Hs.
  assert (E1 : fst (skipl (a ++ s)) = s).
  { induction Ha as [a Ha|a b Ha Hb IH].
    - rewrite skipl_lws by assumption. rewrite skipl_eq. apply parse_lws_none in Hs. rewrite Hs. reflexivity.
    - rewrite <- app_assoc, skipl_lws by assumption. exact IH. }
  assert (E2 : parse_lws (a ++ s) <> None).
  { intros H. apply parse_lws_none in H. destruct Ha as [a Ha|a b Ha Hb].
    - apply (H a s eq_refl Ha).
    - rewrite <- app_assoc in H. apply (H a (b ++ s) eq_refl Ha). }
  rewrite skipl_eq in *. destruct (parse_lws (a ++ s)) as [[l r]|]; [|congruence]. cbn in E1. rewrite E1. reflexivity.
Qed.
Lemma skipl_none : forall s, no_lws s -> skipl s = (s, false).
Proof. intros s H. rewrite skipl_eq. apply parse_lws_none in H. rewrite H. reflexivity. Qed.

(** ** Words *)
Definition word1 (s1 : str) : res (word * str) :=
  match s1 with
  | nil => Err ParserError
  | c :: r =>
      if is_separator c then
        if c =? 40 then
          let! (x, s2) := parse_comment true s1 in
          match x with Some x => Ok (WStr x, s2) | None => Err TypeError end
        else if c =? 34 then
          let! (x, s2) := parse_quoted_string true s1 in
          match x with Some x => Ok (WStr x, s2) | None => Err TypeError end
        else Ok (WByte c, r)
      else
        match parse_token_bytes s1 with
        | (nil, _) => Err ParserError
        | (t, s2) => Ok (WStr t, s2)
        end
  end.
Definition opens_quote (s : str) : Prop := exists b u, qbody b u /\ s = 34 :: b.

Lemma token_sound : forall s t r, parse_token_bytes s = (t, r) -> t <> nil -> token t /\ s = t ++ r
  /\ match r with c :: _ => ~ tok c | nil => True end.
Proof.
  intros s t r H Ht. destruct (span_app _ _ _ _ H) as (-> & H1 & H2). split; [|split; [reflexivity|]].
  - split; [assumption|]. eapply Forall_impl; [|exact H1]. intros c. apply is_tok_tok.
  - destruct r; [exact I|]. apply is_tok_ntok. assumption.
Qed.
Lemma token_complete : forall t r, token t -> match r with c :: _ => ~ tok c | nil => True end ->
  parse_token_bytes (t ++ r) = (t, r).
Proof.
  intros t r [_ H1] H2. apply span_eq.
  - eapply Forall_impl; [|exact H1]. intros c. apply is_tok_tok.
  - destruct r; [exact I|]. apply is_tok_ntok. assumption.
Qed.

(** what the first word can be *)
Lemma word1_sound : forall s w r, bytes s -> no_lws s -> word1 s = Ok (w, r) ->
  (exists c, s = c :: r /\ w = WByte c /\ separator c /\ ~ ws c /\ c <> 40 /\ c <> 34)
  \/ (exists t, w = WStr t /\ s = t ++ r /\ token t /\ match r with c :: _ => ~ tok c | nil => True end)
  \/ (exists raw x, w = WStr x /\ s = raw ++ r /\ quoted raw x)
  \/ (exists raw x, w = WStr x /\ s = raw ++ r /\ comment raw x)
  \/ (exists b u, qbody b u /\ s = 34 :: b /\ w = WStr (34 :: u) /\ r = nil).
Proof.
  intros s w r B Hs. unfold word1. destruct s as [|c t]; [discriminate|].
  destruct (is_separator c) eqn:Es.
  - destruct (c =? 40) eqn:E40; b2p; [subst c|].
    { destruct (parse_comment true (40 :: t)) as [[[x|] r']|] eqn:E; cbn [rbind]; try discriminate.
      intros H. inversion H; subst. destruct (parse_comment_sound _ _ _ B E) as (raw & Hr & E1). right; right; right; left.
      exists raw, x. auto. }
    destruct (c =? 34) eqn:E34; b2p; [subst c|].
    { destruct (parse_quoted_string true (34 :: t)) as [[[x|] r']|] eqn:E; cbn [rbind]; try discriminate.
      intros H. inversion H; subst. destruct (parse_quoted_sound _ _ _ B E) as [(raw & Hr & E1)|(b & u & Hb & E1 & E2 & E3)].
      - right; right; left. exists raw, x. auto.
      - right; right; right; right. exists b, u. subst. auto. }
    intros H. inversion H; subst. left. exists c. apply is_sep_sep in Es. repeat split; auto.
    intros Hw. apply (Hs [c] r eq_refl). constructor; [discriminate|]. constructor; [assumption|constructor].
  - destruct (parse_token_bytes (c :: t)) as [x r'] eqn:E. destruct x as [|x0 x]; [discriminate|].
    intros H. inversion H; subst. destruct (token_sound _ _ _ E) as (H1 & H2 & H3); [discriminate|].
    right; left. exists (x0 :: x). auto.
Qed.
Lemma word1_sep : forall c s, separator c -> c <> 40 -> c <> 34 -> word1 (c :: s) = Ok (WByte c, s).
Proof.
  intros c s H1 H2 H3. unfold word1. apply is_sep_sep in H1. apply Z.eqb_neq in H2, H3. rewrite H1, H2, H3. reflexivity.
Qed.
Lemma word1_quoted : forall raw x s, quoted raw x -> word1 (raw ++ s) = Ok (WStr x, s).
Proof.
  intros raw x s H. pose proof (parse_quoted_ok raw x s H) as E. destruct H as (b & u & Hb & -> & ->).
  unfold word1. cbn [app]. cbn [app] in E. change (is_separator 34) with true. change (34 =? 40) with false. change (34 =? 34) with true.
  cbv iota. rewrite E. reflexivity.
Qed.
Lemma word1_comment : forall raw x s, comment raw x -> word1 (raw ++ s) = Ok (WStr x, s).
Proof.
  intros raw x s H. pose proof (parse_comment_ok raw x s H) as E. destruct H as (b & u & Hb & -> & ->).
  unfold word1. cbn [app]. cbn [app] in E. change (is_separator 40) with true. change (40 =? 40) with true.
  cbv iota. rewrite E. reflexivity.
Qed.
Lemma word1_token : forall t s, token t -> match s with c :: _ => ~ tok c | nil => True end -> word1 (t ++ s) = Ok (WStr t, s).
Proof.
  intros t s Ht Hs. pose proof (token_complete t s Ht Hs) as E. destruct Ht as [Hn Hf]. destruct t as [|c t]; [congruence|].
  unfold word1. cbn [app] in *. inversion Hf; subst.
  assert (Es : is_separator c = false).
  { destruct (is_separator c) eqn:X; [|reflexivity]. apply is_sep_sep in X. destruct H1. contradiction. }
  rewrite Es, E. reflexivity.
Qed.
Lemma word1_open : forall b u, qbody b u -> word1 (34 :: b) = Ok (WStr (34 :: u), nil).
Proof.
  intros b u Hb. unfold word1. change (is_separator 34) with true. change (34 =? 40) with false. change (34 =? 34) with true. cbv iota.
  unfold parse_quoted_string. change (34 =? 34) with true. cbv iota.
  rewrite (quoted_fuel true _ b (length b)) by (cbn; lia). fold (quo true b).
  rewrite <- (app_nil_r b). rewrite (quo_body b u Hb) by exact I. cbn. rewrite app_nil_r. reflexivity.
Qed.

Lemma word1_len : forall s w r, bytes s -> no_lws s -> word1 s = Ok (w, r) -> (length r < length s)%nat /\ bytes r.
Proof.
  intros s w r B Hs H. assert (X : exists a, a <> nil /\ s = a ++ r).
  { destruct (word1_sound _ _ _ B Hs H) as [(c & -> & _)|[(t & _ & -> & [Ht _] & _)|[(raw & x & _ & -> & b & u & _ & -> & _)|[(raw & x & _ & -> & b & u & _ & -> & _)|(b & u & _ & -> & _ & ->)]]]].
    - exists [c]. split; [discriminate|reflexivity].
    - exists t. auto.
    - eexists. split; [|reflexivity]. discriminate.
    - eexists. split; [|reflexivity]. discriminate.
    - exists (34 :: b). split; [discriminate|rewrite app_nil_r; reflexivity]. }
  destruct X as (a & Ha & ->). apply bytes_app in B as [_ B]. split; [|assumption].
  rewrite app_length. destruct a; [congruence|cbn; lia].
Qed.

Definition pre (sp ignore_sp : bool) : list word := if sp && negb ignore_sp then [WByte 32] else nil.
Lemma words_loop_eq : forall f ig s, words_loop (S f) ig s = match s with
  | nil => Ok nil
  | _ => let '(s1, sp) := skipl s in
         match s1 with
         | nil => Ok (pre sp ig)
         | _ => let! (w, s2) := word1 s1 in let! l := words_loop f ig s2 in Ok (pre sp ig ++ w :: l)
         end
  end.
Proof.
  intros f ig s. cbn [words_loop]. destruct s as [|c t]; [reflexivity|].
  fold (skipl (c :: t)). destruct (skipl (c :: t)) as [s1 sp]. destruct s1 as [|c1 r]; [reflexivity|]. reflexivity.
Qed.

Lemma skipl_bytes : forall s s1 b, bytes s -> skipl s = (s1, b) -> bytes s1 /\ (length s1 <= length s)%nat.
Proof.
  intros s s1 b B E. destruct (skipl_sound _ _ _ _ (Nat.le_refl _) E) as [_ H]. destruct b.
  - destruct H as (a & _ & ->). apply bytes_app in B as [_ B]. rewrite app_length. split; [assumption|lia].
  - subst. auto.
Qed.

Lemma words_sound : forall n ig s l, (length s <= n)%nat -> bytes s -> words_loop n ig s = Ok l ->
  source_of (negb ig) s l \/ open_source_of (negb ig) s l.
Proof.
  intros n ig. induction n as [|n IH]; intros s l Hn B.
  - destruct s; [|cbn in Hn; lia]. intros H. inversion H; subst. left. constructor. auto.
  - rewrite words_loop_eq. destruct s as [|c t]; [intros H; inversion H; subst; left; constructor; auto|].
    set (s := c :: t) in *. destruct (skipl s) as [s1 sp] eqn:Es.
    destruct (skipl_sound _ _ _ _ (Nat.le_refl _) Es) as [Hns Hsp].
    destruct (skipl_bytes _ _ _ B Es) as [B1 Hl1].
    assert (G : forall l0, (source_of (negb ig) s1 l0 \/ open_source_of (negb ig) s1 l0) ->
                 source_of (negb ig) s (pre sp ig ++ l0) \/ open_source_of (negb ig) s (pre sp ig ++ l0)).
    { intros l0 HG. destruct sp.
      - destruct Hsp as (a & Ha & ->). unfold pre. cbn [andb].
        destruct HG as [HG|HG]; [left|right]; apply lx_lws; assumption.
      - subst s1. cbn. exact HG. }
    destruct s1 as [|c1 r1] eqn:E1.
    { intros H. inversion H; subst. rewrite <- (app_nil_r (pre sp ig)). apply G. left. constructor. auto. }
    rewrite <- E1 in *. clear E1 c1 r1.
    destruct (word1 s1) as [[w s2]|] eqn:Ew; [|discriminate]. cbn [rbind].
    destruct (word1_len _ _ _ B1 Hns Ew) as [Hl2 B2].
    destruct (words_loop n ig s2) as [l2|] eqn:El; [|discriminate]. cbn. intros H. inversion H; subst. apply G.
    assert (Hl : (length s2 <= n)%nat) by lia.
    specialize (IH s2 l2 Hl B2 El).
    destruct (word1_sound _ _ _ B1 Hns Ew) as [(c0 & -> & -> & H1 & H2 & H3 & H4)|[(t0 & -> & -> & Ht & Hr)|[(raw & x & -> & -> & Hq)|[(raw & x & -> & -> & Hq)|(b & u & Hb & -> & -> & ->)]]]].
    + destruct IH as [IH|IH]; [left|right]; apply lx_sep; assumption.
    + destruct IH as [IH|IH]; [left|right]; apply lx_token; assumption.
    + destruct IH as [IH|IH]; [left|right]; apply lx_quoted; assumption.
    + destruct IH as [IH|IH]; [left|right]; apply lx_comment; assumption.
    + right. constructor. exists b, u. split; [assumption|]. split; [reflexivity|]. f_equal.
      destruct n; cbn in El; inversion El; reflexivity.
Qed.

Lemma no_lws_head : forall c s, ~ ws c -> c <> 13 -> no_lws (c :: s).
Proof.
  intros c s H1 H2 a b E Hl. inversion Hl as [w Hw Hf|w Hw Hf]; subst.
  - destruct a as [|x a]; [congruence|]. inversion E; subst. inversion Hf; subst. contradiction.
  - inversion E; subst. congruence.
Qed.
Lemma tok_head : forall c, tok c -> ~ ws c /\ c <> 13.
Proof.
  intros c [H1 H2]. split.
  - intros [->| ->]; apply H2; [left|right]; cbn; auto 30.
  - intros ->. apply H1. left. lia.
Qed.
Lemma sep_head : forall c, separator c -> c <> 13.
Proof.
  intros c H ->. destruct H as [H|H]; [|discriminate]. cbn in H. repeat (destruct H as [H|H]; [discriminate|]). exact H.
Qed.

Lemma words_step : forall f ig s w s2, no_lws s -> word1 s = Ok (w, s2) ->
  words_loop (S f) ig s = (let! l := words_loop f ig s2 in Ok (w :: l)).
Proof.
  intros f ig s w s2 Hs Hw. rewrite words_loop_eq. destruct s as [|c t]; [discriminate|].
  rewrite skipl_none by assumption. rewrite Hw. reflexivity.
Qed.

Lemma words_complete : forall (tail : str -> list word -> Prop) ig s l,
  (forall s l, tail s l -> forall n, (length s <= n)%nat -> words_loop n ig s = Ok l) ->
  lexed tail (negb ig) s l -> forall n, (length s <= n)%nat -> words_loop n ig s = Ok l.
Proof.
  intros tail ig s l HT H. induction H as [s l H|a s l Ha Hs H IH|c s l H1 H2 H3 H4 H IH|t s l Ht Hs H IH|raw u s l Hq H IH|raw u s l Hq H IH]; intros n Hn.
  - apply HT; assumption.
  - rewrite app_length in Hn.
    assert (Ha0 : (0 < length a)%nat).
    { destruct Ha as [a Ha|a b Ha Hb]; destruct Ha as [w Hw|w Hw]; rewrite ?app_length; try (destruct w; [congruence|]); cbn; lia. }
    destruct n as [|n]; [lia|].
    specialize (IH (S n) ltac:(lia)). rewrite words_loop_eq in *.
    destruct (a ++ s) as [|x y] eqn:Eas; [destruct a; [cbn in Ha0; lia|discriminate]|]. rewrite <- Eas.
    rewrite skipl_complete by assumption. destruct s as [|c t].
    + inversion IH; subst. rewrite app_nil_r. unfold pre. destruct ig; reflexivity.
    + rewrite skipl_none in IH by assumption. destruct (word1 (c :: t)) as [[w s2]|]; [|discriminate]. cbn [rbind] in *.
      destruct (words_loop n ig s2) as [l2|]; [|discriminate]. cbn in IH. inversion IH; subst. cbn.
      unfold pre. destruct ig; reflexivity.
  - destruct n as [|n]; [cbn in Hn; lia|]. cbn in Hn.
    rewrite (words_step n ig _ (WByte c) s); [|apply no_lws_head; [assumption|apply sep_head; assumption]|apply word1_sep; assumption].
    rewrite IH by lia. reflexivity.
  - destruct n as [|n]; [destruct Ht as [Ht _]; destruct t; [congruence|cbn in Hn; lia]|]. rewrite app_length in Hn.
    assert (Hl : (0 < length t)%nat) by (destruct Ht as [Ht _]; destruct t; [congruence|cbn; lia]).
    rewrite (words_step n ig _ (WStr t) s); [rewrite IH by lia; reflexivity| |apply word1_token; assumption].
    destruct Ht as [Hn0 Hf]. destruct t as [|c t]; [congruence|]. inversion Hf; subst. destruct (tok_head c); auto. apply no_lws_head; auto.
  - rewrite app_length in Hn. pose proof Hq as (b & v & Hb & Er & Eu). assert (0 < length raw)%nat by (subst raw; cbn; lia).
    destruct n as [|n]; [lia|].
    rewrite (words_step n ig _ (WStr u) s); [rewrite IH by lia; reflexivity| |apply word1_quoted; assumption].
    subst raw. apply no_lws_head; [intros [?|?]; lia|lia].
  - rewrite app_length in Hn. pose proof Hq as (b & v & Hb & Er & Eu). assert (0 < length raw)%nat by (subst raw; cbn; lia).
    destruct n as [|n]; [lia|].
    rewrite (words_step n ig _ (WStr u) s); [rewrite IH by lia; reflexivity| |apply word1_comment; assumption].
    subst raw. apply no_lws_head; [intros [?|?]; lia|lia].
Qed.

(** only a ParserError is raised *)
Lemma quo_err : forall n u s e, (length s <= n)%nat -> quo u s = Err e -> e = ParserError.
Proof.
  induction n as [|n IH]; intros u s e Hn; rewrite quo_eq.
  - destruct s; [discriminate|cbn in Hn; lia].
  - destruct s as [|c t]; [discriminate|]. cbn [length] in Hn. destruct (c =? 34); [discriminate|]. destruct (c =? 92).
    + destruct (parse_quoted_pair (c :: t)) as [[q r]|] eqn:E; [|congruence]. apply pair_len in E as [E _]. cbn [length] in E.
      destruct (quo u r) as [[? ?]|e'] eqn:Eq; [discriminate|]. cbn. intros H. inversion H; subst. apply IH in Eq; [assumption|lia].
    + destruct (runt [34; 92] u (c :: t)) as [x r] eqn:E. destruct x as [|y x]; [congruence|].
      destruct (runt_len _ _ _ _ _ _ (Nat.le_refl _) E) as (_ & H & _). specialize (H ltac:(discriminate)). cbn [length] in H.
      destruct (quo u r) as [[? ?]|e'] eqn:Eq; [discriminate|]. cbn. intros HH. inversion HH; subst. apply IH in Eq; [assumption|lia].
Qed.
Lemma com_err : forall n u d s e, (length s <= n)%nat -> com u d s = Err e -> e = ParserError.
Proof.
  induction n as [|n IH]; intros u d s e Hn; rewrite com_eq.
  - destruct s; [congruence|cbn in Hn; lia].
  - destruct s as [|c t]; [congruence|]. cbn [length] in Hn. destruct (c =? 41).
    { destruct d as [|[|d]]; try discriminate. destruct (com u (S d) t) as [[? ?]|e'] eqn:Eq; [discriminate|].
      cbn. intros H. inversion H; subst. apply IH in Eq; [assumption|lia]. }
    destruct (c =? 40).
    { destruct (com u (S d) t) as [[? ?]|e'] eqn:Eq; [discriminate|].
      cbn. intros H. inversion H; subst. apply IH in Eq; [assumption|lia]. }
    destruct (c =? 92).
    + destruct (parse_quoted_pair (c :: t)) as [[q r]|] eqn:E; [|congruence]. apply pair_len in E as [E _]. cbn [length] in E.
      destruct (com u d r) as [[? ?]|e'] eqn:Eq; [discriminate|]. cbn. intros H. inversion H; subst. apply IH in Eq; [assumption|lia].
    + destruct (runt cstop u (c :: t)) as [x r] eqn:E. destruct x as [|y x]; [congruence|].
      destruct (runt_len _ _ _ _ _ _ (Nat.le_refl _) E) as (_ & H & _). specialize (H ltac:(discriminate)). cbn [length] in H.
      destruct (com u d r) as [[? ?]|e'] eqn:Eq; [discriminate|]. cbn. intros HH. inversion HH; subst. apply IH in Eq; [assumption|lia].
Qed.
Lemma word1_err : forall s e, word1 s = Err e -> e = ParserError.
Proof.
  intros s e. unfold word1. destruct s as [|c t]; [congruence|]. destruct (is_separator c).
  - destruct (c =? 40) eqn:E40.
    { unfold parse_comment. rewrite E40. rewrite (comment_fuel true _ 1 t (length t)) by (cbn; lia). fold (com true 1 t).
      destruct (com true 1 t) as [[? ?]|e'] eqn:E; cbn; [discriminate|]. intros H. inversion H; subst. eapply com_err; [apply Nat.le_refl|exact E]. }
    destruct (c =? 34) eqn:E34; [|discriminate].
    unfold parse_quoted_string. rewrite E34. rewrite (quoted_fuel true _ t (length t)) by (cbn; lia). fold (quo true t).
    destruct (quo true t) as [[? ?]|e'] eqn:E; cbn; [discriminate|]. intros H. inversion H; subst. eapply quo_err; [apply Nat.le_refl|exact E].
  - destruct (parse_token_bytes (c :: t)) as [[|x y] r]; [congruence|discriminate].
Qed.
Lemma words_err : forall n ig s e, words_loop n ig s = Err e -> e = ParserError.
Proof.
  induction n as [|n IH]; intros ig s e; [discriminate|]. rewrite words_loop_eq. destruct s as [|c t]; [discriminate|].
  destruct (skipl (c :: t)) as [s1 sp]. destruct s1 as [|c1 r1]; [discriminate|].
  destruct (word1 (c1 :: r1)) as [[w s2]|e'] eqn:E; cbn [rbind].
  - destruct (words_loop n ig s2) as [l|e'] eqn:E2; cbn; [discriminate|]. intros H. inversion H; subst. eapply IH. exact E2.
  - intros H. inversion H; subst. eapply word1_err. exact E.
Qed.

(** ** quote_string *)
Definition special (b : Z) : bool := is_ctl b || is_separator b.
Lemma quote_loop_ok : forall s f, bytes s -> forall q g, quote_loop s f = (q, g) ->
  qbody q q /\ unescape false q = s /\ (zin 92 q = false -> q = s) /\ g = f || existsb special s.
Proof.
  induction s as [|b t IH]; intros f B q g; cbn [quote_loop].
  - intros H. inversion H; subst. cbn. rewrite orb_false_r. repeat split; auto. constructor.
  - apply bytes_cons in B as [Bb Bt].
    destruct (zin b [92; 34] || (is_ctl b && negb (zin b [32; 9]))) eqn:E1.
    + destruct (quote_loop t true) as [q' g'] eqn:E. intros H. inversion H; subst.
      destruct (IH true Bt _ _ E) as (H1 & H2 & H3 & H4).
      assert (Hb : b < 128).
      { apply orb_true_iff in E1 as [E1|E1].
        - cbn in E1. apply orb_true_iff in E1 as [E1|E1]; b2p; [lia|]. apply orb_true_iff in E1 as [E1|E1]; [b2p; lia|discriminate].
        - b2p. apply is_ctl_ctl in H0. unfold ctl in H0. lia. }
      assert (Hs : special b = true).
      { unfold special. apply orb_true_iff in E1 as [E1|E1].
        - apply orb_true_iff. right. apply zin_In in E1. cbn in E1. destruct E1 as [<-|[<-|[]]]; reflexivity.
        - b2p. rewrite H0. reflexivity. }
      split; [constructor; [lia|assumption]|]. split; [|split].
      * cbn. rewrite H2. reflexivity.
      * cbn. discriminate.
      * rewrite H4. cbn. rewrite Hs. rewrite orb_true_r. reflexivity.
    + apply orb_false_iff in E1 as [E1 E1'].
      assert (Hb : b <> 92 /\ b <> 34).
      { apply zin_not_In in E1. cbn in E1. split; intros ->; apply E1; auto. }
      assert (Q : forall q', qbody q' q' -> qbody (b :: q') (b :: q')).
      { intros q' Hq'. destruct (is_ctl b) eqn:Ec.
        - cbn [andb] in E1'. apply negb_false_iff in E1'. apply qb_ws; [|assumption]. apply sp_ht_ws. exact E1'.
        - assert (Hc : ~ ctl b) by (rewrite <- is_ctl_ctl; congruence). unfold ctl in Hc.
          destruct (Z.eq_dec b 32) as [->|H32]; [apply qb_ws; [left; reflexivity|assumption]|].
          apply qb_char; try tauto; lia. }
      assert (U : forall q', unescape false q' = t -> unescape false (b :: q') = b :: t).
      { intros q' <-. cbn. destruct (b =? 92) eqn:E92; b2p; [tauto|]. reflexivity. }
      assert (Z9 : forall q', zin 92 (b :: q') = zin 92 q').
      { intros q'. change (zin 92 (b :: q')) with ((92 =? b) || zin 92 q').
        destruct (92 =? b) eqn:X; [b2p; subst b; destruct Hb; congruence|reflexivity]. }
      destruct (is_ctl b || is_separator b) eqn:E2.
      * destruct (quote_loop t true) as [q' g'] eqn:E. intros H. inversion H; subst.
        destruct (IH true Bt _ _ E) as (H1 & H2 & H3 & H4). split; [apply Q; assumption|]. split; [apply U; assumption|].
        split; [rewrite Z9; intros Hz; f_equal; auto|]. rewrite H4. cbn. unfold special at 1. rewrite E2, orb_true_r. reflexivity.
      * destruct (quote_loop t f) as [q' g'] eqn:E. intros H. inversion H; subst.
        destruct (IH f Bt _ _ E) as (H1 & H2 & H3 & H4). split; [apply Q; assumption|]. split; [apply U; assumption|].
        split; [rewrite Z9; intros Hz; f_equal; auto|]. rewrite H4. cbn. unfold special at 2. rewrite E2. reflexivity.
Qed.

Lemma inner_eq : forall q, inner (34 :: q ++ [34]) = q.
Proof. intros q. unfold inner. cbn [tl]. apply removelast_last. Qed.
Lemma decode_ok : forall q s, unescape false q = s -> (zin 92 q = false -> q = s) -> decode_quoted_string (34 :: q ++ [34]) = s.
Proof.
  intros q s H1 H2. unfold decode_quoted_string. rewrite inner_eq. destruct (zin 92 q) eqn:E; auto.
Qed.
Lemma quote_forced : forall s, bytes s -> exists q, quote_string s true = 34 :: q ++ [34] /\ qbody q q
  /\ decode_quoted_string (quote_string s true) = s.
Proof.
  intros s B. unfold quote_string. destruct (quote_loop s true) as [q g] eqn:E.
  destruct (quote_loop_ok s true B q g E) as (H1 & H2 & H3 & ->). cbn [orb]. exists q. split; [reflexivity|]. split; [assumption|].
  apply decode_ok; assumption.
Qed.
Lemma special_tok : forall s, existsb special s = false <-> Forall tok s.
Proof.
  induction s as [|c s IH]; cbn; [split; auto|]. rewrite orb_false_iff, IH. unfold special.
  rewrite <- (negb_involutive (is_ctl c || is_separator c)). fold (is_tokchar c).
  rewrite negb_false_iff. rewrite is_tok_tok. split; [intros [? ?]; auto|intros H; inversion H; auto].
Qed.
Lemma quote_unforced : forall s, bytes s -> (Forall tok s /\ quote_string s false = s) \/
  (~ Forall tok s /\ quote_string s false = quote_string s true).
Proof.
  intros s B. unfold quote_string. destruct (quote_loop s false) as [q g] eqn:E.
  destruct (quote_loop_ok s false B q g E) as (H1 & H2 & H3 & ->). cbn [orb].
  destruct (existsb special s) eqn:Es.
  - right. split; [rewrite <- special_tok; congruence|].
    assert (X : forall s f1 f2, fst (quote_loop s f1) = fst (quote_loop s f2)).
    { clear. induction s as [|b t IH]; intros f1 f2; cbn [quote_loop]; [reflexivity|].
      destruct (zin b [92; 34] || (is_ctl b && negb (zin b [32; 9]))); [reflexivity|].
      destruct (is_ctl b || is_separator b); [reflexivity|]. specialize (IH f1 f2).
      destruct (quote_loop t f1), (quote_loop t f2). cbn in *. congruence. }
    specialize (X s false true). rewrite E in X. destruct (quote_loop s true) as [q2 g2] eqn:E2. cbn in X. subst q2.
    destruct (quote_loop_ok s true B q g2 E2) as (_ & _ & _ & ->). reflexivity.
  - left. split; [apply special_tok; assumption|].
    apply H3. clear - H2 Es E. revert q E H2. 
    assert (Y : forall s, existsb special s = false -> quote_loop s false = (s, false)).
    { induction s0 as [|b t IH]; [reflexivity|]. cbn [existsb quote_loop]. intros H. apply orb_false_iff in H as [H1 H2].
      unfold special in H1. rewrite H1. apply orb_false_iff in H1 as [H1 H1']. rewrite H1.
      assert (Hz : zin b [92; 34] = false).
      { destruct (zin b [92; 34]) eqn:X; [|reflexivity]. apply zin_In in X. cbn in X. destruct X as [<-|[<-|[]]]; discriminate. }
      rewrite Hz. cbn. rewrite IH by assumption. reflexivity. }
    intros q E _. rewrite (Y s Es) in E. inversion E; subst. clear E. induction q as [|b t IH]; [reflexivity|].
    cbn in Es. apply orb_false_iff in Es as [E1 E2]. change (zin 92 (b :: t)) with ((92 =? b) || zin 92 t).
    rewrite IH by assumption. destruct (92 =? b) eqn:X; [|reflexivity]. b2p. subst b. discriminate.
Qed.
