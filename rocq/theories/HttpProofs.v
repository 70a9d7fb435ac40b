(** Proofs for C37 and C38. *)
From Verif Require Import Py HttpModel HttpSpec.

(** ** Classes *)
Lemma sp_ht_ws : forall c, sp_ht c = true <-> ws c.
Proof.
  intros c. unfold sp_ht, ws. rewrite zin_In. cbn. intuition.
Qed.
Lemma sp_ht_nws : forall c, sp_ht c = false <-> ~ ws c.
Proof. intros c. rewrite <- sp_ht_ws. destruct (sp_ht c); split; congruence. Qed.
Lemma is_ctl_ctl : forall c, is_ctl c = true <-> ctl c.
Proof.
  intros c. unfold is_ctl, ctl. rewrite orb_true_iff, Z.ltb_lt, Z.eqb_eq. tauto.
Qed.
Lemma is_sep_sep : forall c, is_separator c = true <-> separator c.
Proof.
  intros c. unfold is_separator, separator, SEPARATORS. rewrite zin_In, in_app_iff. cbn. intuition.
Qed.
Lemma is_tok_tok : forall c, is_tokchar c = true <-> tok c.
Proof.
  intros c. unfold is_tokchar, tok. rewrite negb_true_iff, orb_false_iff.
  rewrite <- is_ctl_ctl, <- is_sep_sep. destruct (is_ctl c), (is_separator c); intuition congruence.
Qed.
Lemma is_tok_ntok : forall c, is_tokchar c = false <-> ~ tok c.
Proof. intros c. rewrite <- is_tok_tok. destruct (is_tokchar c); split; congruence. Qed.

(** ** Runs *)
Lemma span_app : forall f s a b, span f s = (a, b) -> s = a ++ b /\ Forall (fun c => f c = true) a
  /\ match b with c :: _ => f c = false | nil => True end.
Proof.
  intros f s. induction s as [|c t IH]; intros a b; cbn.
  - intros H. inversion H; subst. auto.
  - destruct (f c) eqn:E.
    + destruct (span f t) as [a' b'] eqn:E2. intros H. inversion H; subst.
      destruct (IH _ _ eq_refl) as (-> & H2 & H3). auto.
    + intros H. inversion H; subst. auto.
Qed.
Lemma span_eq : forall f a b, Forall (fun c => f c = true) a -> match b with c :: _ => f c = false | nil => True end ->
  span f (a ++ b) = (a, b).
Proof.
  intros f a b H Hb. induction H as [|c a Hc Ha IH]; cbn.
  - destruct b as [|c b]; [reflexivity|]. cbn. rewrite Hb. reflexivity.
  - rewrite Hc, IH. reflexivity.
Qed.
Lemma ws_forall : forall w, Forall ws w <-> Forall (fun c => sp_ht c = true) w.
Proof. intros w. split; intros H; eapply Forall_impl; try exact H; intros c; apply sp_ht_ws. Qed.
Lemma no_ws_span : forall s, no_ws s <-> match s with c :: _ => sp_ht c = false | nil => True end.
Proof. intros [|c s]; cbn; [tauto|]. symmetry. apply sp_ht_nws. Qed.

(** ** LWS *)
Lemma parse_lws_ok : forall s l r, parse_lws s = Some (l, r) ->
  s = l ++ r /\ no_ws r /\ l <> nil
  /\ ((l <> nil /\ Forall ws l) \/ exists w, l = 13 :: 10 :: w /\ w <> nil /\ Forall ws w).
Proof.
  intros s l r. unfold parse_lws.
  assert (G : forall s0 (pre : str) w r0, span sp_ht s0 = (w, r0) -> (match w with nil => None | _ => Some (pre ++ w, r0) end) = Some (l, r) ->
             s0 = w ++ r /\ l = pre ++ w /\ no_ws r /\ w <> nil /\ Forall ws w).
  { intros s0 pre w r0 E. destruct (span_app _ _ _ _ E) as (E1 & E2 & E3). destruct w as [|x w]; [discriminate|].
    intros H. inversion H; subst. split; [reflexivity|]. split; [reflexivity|]. split; [apply no_ws_span; assumption|].
    split; [discriminate|]. apply ws_forall. assumption. }
  assert (D : (exists t, s = 13 :: 10 :: t) \/
     (match s with 13 :: 10 :: r0 => ([13; 10], r0) | _ => (nil, s) end) = (nil, s)).
  { destruct s as [|a s]; [right; reflexivity|]. destruct s as [|b s].
    - right. destruct a; try reflexivity. repeat (destruct p; try reflexivity).
    - destruct (Z.eq_dec a 13) as [->|Ha]; [destruct (Z.eq_dec b 10) as [->|Hb]; [left; eauto|]|].
      + right. destruct b; try reflexivity. repeat (destruct p; try reflexivity). congruence.
      + right. destruct a; try reflexivity. repeat (destruct p; try reflexivity). congruence. }
  destruct D as [(t & ->)|D].
  - destruct (span sp_ht t) as [w r0] eqn:E. intros H.
    destruct (G t _ _ _ E H) as (-> & -> & H1 & H2 & H3). cbn. split; [reflexivity|]. split; [assumption|].
    split; [discriminate|]. right. exists w. auto.
  - rewrite D. destruct (span sp_ht s) as [w r0] eqn:E. intros H.
    destruct (G s _ _ _ E H) as (-> & -> & H1 & H2 & H3). cbn. split; [reflexivity|]. split; [assumption|].
    split; [assumption|]. left. auto.
Qed.

Lemma lws_head : forall s, match s with 13 :: _ => False | _ => True end ->
  (match s with 13 :: 10 :: r0 => ([13; 10], r0) | _ => (nil, s) end) = (nil, s).
Proof.
  intros [|a s] H; [reflexivity|]. destruct a; try reflexivity.
  repeat (destruct p; try reflexivity). contradiction.
Qed.

Lemma parse_lws_plain : forall w r, w <> nil -> Forall ws w -> no_ws r -> parse_lws (w ++ r) = Some (w, r).
Proof.
  intros w r Hw Hf Hr. unfold parse_lws. rewrite lws_head.
  - rewrite span_eq; [|apply ws_forall; assumption|apply no_ws_span; assumption].
    destruct w; [congruence|reflexivity].
  - destruct w as [|c w]; [congruence|]. inversion Hf; subst. destruct H1; subst; exact I.
Qed.
Lemma parse_lws_fold : forall w r, w <> nil -> Forall ws w -> no_ws r -> parse_lws (13 :: 10 :: w ++ r) = Some (13 :: 10 :: w, r).
Proof.
  intros w r Hw Hf Hr. unfold parse_lws. 
  rewrite span_eq; [|apply ws_forall; assumption|apply no_ws_span; assumption].
  destruct w; [congruence|reflexivity].
Qed.

Lemma ws_split : forall s, exists w r, s = w ++ r /\ Forall ws w /\ no_ws r.
Proof.
  intros s. destruct (span sp_ht s) as [w r] eqn:E. destruct (span_app _ _ _ _ E) as (E1 & E2 & E3).
  exists w, r. split; [assumption|]. split; [apply ws_forall; assumption|apply no_ws_span; assumption].
Qed.

Lemma parse_lws_none : forall s, parse_lws s = None <-> no_lws s.
Proof.
  intros s. split.
  - intros H a b -> Hl. inversion Hl as [w Hw Hf|w Hw Hf]; subst.
    + destruct (ws_split b) as (w2 & r & -> & Hf2 & Hr). rewrite app_assoc in H.
      rewrite parse_lws_plain in H; [discriminate| |apply Forall_app; auto|assumption].
      destruct a; [congruence|discriminate].
    + destruct (ws_split b) as (w2 & r & -> & Hf2 & Hr). cbn [app] in H. rewrite app_assoc in H.
      rewrite parse_lws_fold in H; [discriminate| |apply Forall_app; auto|assumption].
      destruct w; [congruence|discriminate].
  - intros H. destruct (parse_lws s) as [[l r]|] eqn:E; [|reflexivity].
    destruct (parse_lws_ok _ _ _ E) as (-> & _ & _ & [[H1 H2]|(w & -> & H1 & H2)]).
    + exfalso. apply (H l r eq_refl). constructor 1; assumption.
    + exfalso. apply (H _ r eq_refl). constructor 2; assumption.
Qed.

(** ** One piece of text *)
Lemma onetext_len : forall u s x r, parse_onetext u s = Some (x, r) -> x <> nil /\ (length r < length s)%nat.
Proof.
  intros u s x r. unfold parse_onetext. destruct (parse_lws s) as [[l r']|] eqn:E.
  - destruct (parse_lws_ok _ _ _ E) as (-> & _ & Hl & _). generalize (u && str_eqb (firstn 2 l) [13; 10]).
    intros bb H. inversion H; subst. split.
    + destruct bb; [discriminate|assumption].
    + rewrite app_length. destruct l; [congruence|cbn; lia].
  - destruct s as [|c t]; [discriminate|]. destruct (is_octet c && negb (is_ctl c)); [|discriminate].
    intros H. inversion H; subst. cbn. split; [discriminate|lia].
Qed.

Lemma run_text_fuel : forall stop u n s m, (length s <= n)%nat -> (length s <= m)%nat -> run_text n stop u s = run_text m stop u s.
Proof.
  intros stop u. induction n as [|n IH]; intros s m Hn Hm.
  - destruct s; [|cbn in Hn; lia]. destruct m; reflexivity.
  - destruct m as [|m]; [destruct s; [reflexivity|cbn in Hm; lia]|]. cbn. destruct s as [|c t]; [reflexivity|].
    destruct (zin c stop); [reflexivity|]. destruct (parse_onetext u (c :: t)) as [[x r]|] eqn:E; [|reflexivity].
    destruct (onetext_len _ _ _ _ E) as [_ H]. cbn in *. rewrite (IH r m) by lia. reflexivity.
Qed.
Definition runt (stop : str) (u : bool) (s : str) : str * str := run_text (length s) stop u s.
Lemma runt_eq : forall stop u s, runt stop u s = match s with
  | nil => (nil, nil)
  | c :: _ => if zin c stop then (nil, s)
              else match parse_onetext u s with
                   | None => (nil, s)
                   | Some (x, r) => let '(y, r') := runt stop u r in (x ++ y, r')
                   end
  end.
Proof.
  intros stop u s. unfold runt. destruct s as [|c t]; [reflexivity|]. cbn.
  destruct (zin c stop); [reflexivity|]. destruct (parse_onetext u (c :: t)) as [[x r]|] eqn:E; [|reflexivity].
  destruct (onetext_len _ _ _ _ E) as [_ H]. cbn in H. rewrite (run_text_fuel stop u (length t) r (length r)) by lia. reflexivity.
Qed.
Lemma runt_len : forall stop u n s x r, (length s <= n)%nat -> runt stop u s = (x, r) ->
  (length r <= length s)%nat /\ (x <> nil -> (length r < length s)%nat) /\ (x = nil -> r = s).
Proof.
  intros stop u. induction n as [|n IH]; intros s x r Hn; rewrite runt_eq.
  - destruct s; [|cbn in Hn; lia]. intros H. inversion H; subst. repeat split; auto; congruence.
  - destruct s as [|c t]; [intros H; inversion H; subst; repeat split; auto; congruence|].
    destruct (zin c stop); [intros H; inversion H; subst; repeat split; auto; congruence|].
    destruct (parse_onetext u (c :: t)) as [[y r']|] eqn:E; [|intros H; inversion H; subst; repeat split; auto; congruence].
    destruct (onetext_len _ _ _ _ E) as [Hy Hl]. destruct (runt stop u r') as [z r2] eqn:E2.
    intros H. inversion H; subst. destruct (IH r' z r) as (H1 & H2 & H3); [cbn in *; lia|assumption|].
    cbn [length] in *. split; [lia|]. split; [intros; lia|]. intros Hx. apply app_eq_nil in Hx as [-> _]. congruence.
Qed.

(** The forms of a piece of text *)
Lemma onetext_cases : forall s x r, bytes s -> parse_onetext true s = Some (x, r) ->
  (exists c, s = c :: r /\ x = [c] /\ 32 < c < 256 /\ c <> 127)
  \/ (s = x ++ r /\ x <> nil /\ Forall ws x /\ no_ws r)
  \/ (exists w, s = 13 :: 10 :: w ++ r /\ x = [32] /\ w <> nil /\ Forall ws w /\ no_ws r).
Proof.
  intros s x r B. unfold parse_onetext. destruct (parse_lws s) as [[l r']|] eqn:E.
  - destruct (parse_lws_ok _ _ _ E) as (-> & Hr & Hl & [[_ H]|(w & -> & Hw & H)]).
    + assert (Ef : str_eqb (firstn 2 l) [13; 10] = false).
      { destruct l as [|c l]; [congruence|]. inversion H; subst. destruct H2; subst; cbn; destruct l; reflexivity. }
      rewrite Ef. cbn. intros HH. inversion HH; subst. right; left. auto.
    + cbn. intros HH. inversion HH; subst. right; right. exists w. auto.
  - destruct s as [|c t]; [discriminate|]. destruct (is_octet c && negb (is_ctl c)) eqn:Ec; [|discriminate].
    intros HH. inversion HH; subst. left. exists c. b2p. unfold is_octet in *. b2p.
    assert (Hc : ~ ctl c) by (rewrite <- is_ctl_ctl; congruence). unfold ctl in Hc.
    assert (Hs : c <> 32).
    { intros ->. apply parse_lws_none in E. apply (E [32] r eq_refl). constructor; [discriminate|]. constructor; [left; reflexivity|constructor]. }
    repeat split; auto; lia.
Qed.
Lemma onetext_char : forall c t u, 32 < c < 256 -> c <> 127 -> parse_onetext u (c :: t) = Some ([c], t).
Proof.
  intros c t u H1 H2. unfold parse_onetext.
  assert (E : parse_lws (c :: t) = None).
  { apply parse_lws_none. intros a b E Hl. inversion Hl as [w Hw Hf|w Hw Hf]; subst.
    - destruct a as [|x a]; [congruence|]. inversion E; subst. inversion Hf; subst. match goal with HH : ws _ |- _ => destruct HH; lia end.
    - inversion E; subst. lia. }
  rewrite E. unfold is_octet, is_ctl.
  assert (X1 : (c <? 256) = true) by (apply Z.ltb_lt; lia). assert (X2 : (c <? 32) = false) by (apply Z.ltb_ge; lia).
  assert (X3 : (c =? 127) = false) by (apply Z.eqb_neq; lia). rewrite X1, X2, X3. reflexivity.
Qed.
Lemma onetext_ws : forall w r u, w <> nil -> Forall ws w -> no_ws r -> parse_onetext u (w ++ r) = Some (w, r).
Proof.
  intros w r u H1 H2 H3. unfold parse_onetext. rewrite parse_lws_plain by assumption.
  assert (Ef : str_eqb (firstn 2 w) [13; 10] = false).
  { destruct w as [|c l]; [congruence|]. inversion H2; subst. destruct H4; subst; cbn; destruct l; reflexivity. }
  rewrite Ef, andb_false_r. reflexivity.
Qed.
Lemma onetext_fold : forall w r, w <> nil -> Forall ws w -> no_ws r -> parse_onetext true (13 :: 10 :: w ++ r) = Some ([32], r).
Proof. intros w r H1 H2 H3. unfold parse_onetext. rewrite parse_lws_fold by assumption. reflexivity. Qed.

Lemma bytes_app : forall a b, bytes (a ++ b) <-> bytes a /\ bytes b.
Proof. intros a b. apply Forall_app. Qed.
Lemma bytes_cons : forall c b, bytes (c :: b) <-> 0 <= c < 256 /\ bytes b.
Proof. intros a b. split; [intros H; inversion H; auto|intros [? ?]; constructor; auto]. Qed.

(** ** Quoted strings, a piece at a time *)
Definition prepend (x : str) (m : res (str * str)) : res (str * str) := let! (y, r) := m in Ok (x ++ y, r).
Lemma prepend_app : forall a b m, prepend a (prepend b m) = prepend (a ++ b) m.
Proof. intros a b [[y r]|e]; cbn; [rewrite app_assoc|]; reflexivity. Qed.
Lemma prepend_nil : forall m, prepend nil m = m.
Proof. intros [[y r]|e]; reflexivity. Qed.

Lemma pair_len : forall s q r, parse_quoted_pair s = Some (q, r) -> (length r < length s)%nat /\ q <> nil.
Proof.
  intros [|c s] q r; cbn; [discriminate|]. destruct (c =? 92); [|discriminate]. destruct s as [|x s]; [discriminate|].
  destruct (is_chr x); [|discriminate]. intros H. inversion H; subst. cbn. split; [lia|discriminate].
Qed.

Lemma quoted_fuel : forall u n s m, (length s <= n)%nat -> (length s <= m)%nat -> quoted_loop n u s = quoted_loop m u s.
Proof.
  intros u. induction n as [|n IH]; intros s m Hn Hm.
  - destruct s; [|cbn in Hn; lia]. destruct m; reflexivity.
  - destruct m as [|m]; [destruct s; [reflexivity|cbn in Hm; lia]|]. cbn [quoted_loop]. destruct s as [|c t]; [reflexivity|].
    destruct (c =? 34); [reflexivity|]. destruct (c =? 92).
    + destruct (parse_quoted_pair (c :: t)) as [[q r]|] eqn:E; [|reflexivity]. apply pair_len in E as [E _].
      cbn [length] in *. rewrite (IH r m) by lia. reflexivity.
    + unfold parse_qdtext. fold (runt [34; 92] u (c :: t)). destruct (runt [34; 92] u (c :: t)) as [x r] eqn:E.
      destruct x as [|y x]; [reflexivity|]. destruct (runt_len _ _ _ _ _ _ (Nat.le_refl _) E) as (_ & H & _).
      specialize (H ltac:(discriminate)). cbn [length] in *. rewrite (IH r m) by lia. reflexivity.
Qed.
Definition quo (u : bool) (s : str) : res (str * str) := quoted_loop (length s) u s.
Lemma quo_eq : forall u s, quo u s = match s with
  | nil => Ok (nil, nil)
  | c :: r => if c =? 34 then Ok ([34], r)
              else if c =? 92 then match parse_quoted_pair s with
                                   | None => Err ParserError
                                   | Some (q, r') => prepend q (quo u r')
                                   end
              else match runt [34; 92] u s with
                   | (nil, _) => Err ParserError
                   | (t, r') => prepend t (quo u r')
                   end
  end.
Proof.
  intros u s. unfold quo at 1. destruct s as [|c t]; [reflexivity|].
  cbn [length quoted_loop]. destruct (c =? 34); [reflexivity|]. destruct (c =? 92).
  - destruct (parse_quoted_pair (c :: t)) as [[q r]|] eqn:E; [|reflexivity]. apply pair_len in E as [E _]. cbn [length] in E.
    unfold prepend, quo. rewrite (quoted_fuel u (length t) r (length r)) by lia. reflexivity.
  - unfold parse_qdtext. fold (runt [34; 92] u (c :: t)). destruct (runt [34; 92] u (c :: t)) as [x r] eqn:E.
    destruct x as [|y x]; [reflexivity|]. destruct (runt_len _ _ _ _ _ _ (Nat.le_refl _) E) as (_ & H & _).
    specialize (H ltac:(discriminate)). cbn [length] in *.
    unfold prepend, quo. rewrite (quoted_fuel u (length t) r (length r)) by lia. reflexivity.
Qed.
(** ... and then one piece of text at a time *)
Lemma quo_text : forall u c t, c <> 34 -> c <> 92 -> quo u (c :: t) = match parse_onetext u (c :: t) with
  | None => Err ParserError
  | Some (x, r) => prepend x (quo u r)
  end.
Proof.
  intros u c t H1 H2. rewrite quo_eq. apply Z.eqb_neq in H1 as E1. apply Z.eqb_neq in H2 as E2. rewrite E1, E2.
  rewrite runt_eq. assert (Ez : zin c [34; 92] = false) by (cbn; rewrite E1, E2; reflexivity). rewrite Ez.
  destruct (parse_onetext u (c :: t)) as [[x r]|] eqn:E; [|reflexivity].
  destruct (onetext_len _ _ _ _ E) as [Hx Hl].
  destruct (runt [34; 92] u r) as [y r'] eqn:Er.
  assert (Hxy : exists z zs, x ++ y = z :: zs). { destruct x; [congruence|]. eexists _, _. reflexivity. }
  destruct Hxy as (z & zs & Hz). rewrite Hz, <- Hz. rewrite <- prepend_app. f_equal.
  destruct y as [|y0 ys].
  - destruct (runt_len _ _ _ _ _ _ (Nat.le_refl _) Er) as (_ & _ & H). rewrite (H eq_refl). destruct (quo u r) as [[? ?]|]; reflexivity.
  - rewrite (quo_eq u r), Er. rewrite runt_eq in Er. destruct r as [|d r]; [discriminate|].
    destruct (zin d [34; 92]) eqn:Ed; [discriminate|]. cbn in Ed. b2p.
    apply Z.eqb_neq in H, H0. rewrite H. rewrite H0. reflexivity.
Qed.
Lemma quo_pair : forall u c r, is_chr c = true -> quo u (92 :: c :: r) = prepend [92; c] (quo u r).
Proof. intros u c r H. rewrite quo_eq. cbn [Z.eqb Pos.eqb parse_quoted_pair]. rewrite H. reflexivity. Qed.
Lemma quo_end : forall u r, quo u (34 :: r) = Ok ([34], r).
Proof. intros u r. rewrite quo_eq. reflexivity. Qed.

Lemma quo_ws1 : forall u c r, ws c -> quo u (c :: r) = prepend [c] (quo u r).
Proof.
  intros u c r Hc. destruct (ws_split r) as (w & r0 & -> & Hf & Hr).
  change (c :: w ++ r0) with ((c :: w) ++ r0).
  assert (Hc1 : c <> 34 /\ c <> 92) by (destruct Hc; lia).
  cbn [app]. rewrite quo_text by tauto. change (c :: w ++ r0) with ((c :: w) ++ r0).
  rewrite onetext_ws; [|discriminate|constructor; assumption|assumption].
  destruct w as [|d w].
  - reflexivity.
  - assert (Hd : ws d) by (inversion Hf; assumption). assert (Hd1 : d <> 34 /\ d <> 92) by (destruct Hd; lia).
    cbn [app]. rewrite quo_text by tauto. change (d :: w ++ r0) with ((d :: w) ++ r0).
    rewrite onetext_ws; [|discriminate|assumption|assumption]. rewrite prepend_app. reflexivity.
Qed.

(** the body of a quoted string is parsed *)
Lemma quo_body : forall b v, qbody b v -> forall r, no_ws r -> quo true (b ++ r) = prepend v (quo true r).
Proof.
  induction 1 as [|c b v H1 H2 H3 H4 Hb IH|c b v Hc Hb IH|w b v Hw Hf Hn Hb IH|c b v Hc Hb IH]; intros r Hr.
  - cbn [app]. rewrite prepend_nil. reflexivity.
  - cbn [app]. rewrite quo_text, onetext_char by assumption. rewrite IH, prepend_app by assumption. reflexivity.
  - cbn [app]. rewrite quo_ws1, IH, prepend_app by assumption. reflexivity.
  - cbn [app]. rewrite <- app_assoc, quo_text, onetext_fold; try lia; auto.
    + rewrite IH, prepend_app by assumption. reflexivity.
    + destruct b; [exact Hr|exact Hn].
  - cbn [app]. rewrite quo_pair by (apply Z.ltb_lt; lia). rewrite IH, prepend_app by assumption. reflexivity.
Qed.
Lemma parse_quoted_ok : forall raw v r, quoted raw v -> parse_quoted_string true (raw ++ r) = Ok (Some v, r).
Proof.
  intros raw v r (b & u & Hb & -> & ->). cbn [app parse_quoted_string]. change (34 =? 34) with true. cbv iota.
  rewrite <- app_assoc. cbn [app].
  rewrite (quoted_fuel true _ (b ++ 34 :: r) (length (b ++ 34 :: r))) by (cbn; lia).
  fold (quo true (b ++ 34 :: r)). rewrite (quo_body b u Hb); [|intros [?|?]; lia].
  rewrite quo_end. reflexivity.
Qed.

Lemma qbody_ws_app : forall x r v, Forall ws x -> qbody r v -> qbody (x ++ r) (x ++ v).
Proof. intros x r v H Hr. induction H; [assumption|]. cbn. constructor 3; assumption. Qed.

(** and what is parsed is the body of a quoted string, closed or at the end *)
Lemma quo_sound : forall n s x r, (length s <= n)%nat -> bytes s -> quo true s = Ok (x, r) ->
  exists b v, qbody b v /\ ((s = b ++ 34 :: r /\ x = v ++ [34]) \/ (s = b /\ x = v /\ r = nil)).
Proof.
  induction n as [|n IH]; intros s x r Hn B H.
  - destruct s; [|cbn in Hn; lia]. inversion H; subst. exists nil, nil. split; [constructor|right; auto].
  - destruct s as [|c t]; [inversion H; subst; exists nil, nil; split; [constructor|right; auto]|].
    apply bytes_cons in B as B0. destruct B0 as [Bc Bt].
    destruct (Z.eq_dec c 34) as [->|H34].
    { rewrite quo_end in H. inversion H; subst. exists nil, nil. split; [constructor|left; auto]. }
    destruct (Z.eq_dec c 92) as [->|H92].
    { rewrite quo_eq in H. cbn [Z.eqb Pos.eqb parse_quoted_pair] in H. destruct t as [|d t]; [discriminate|].
      destruct (is_chr d) eqn:Ed; [|discriminate].
      destruct (quo true t) as [[x' r']|] eqn:Eq; [|discriminate]. cbn in H. inversion H; subst.
      apply bytes_cons in Bt as [Bd Bt].
      destruct (IH t x' r) as (b & v & Hb & Hc); [cbn in *; lia|assumption|assumption|].
      unfold is_chr in Ed. b2p.
      exists (92 :: d :: b), (92 :: d :: v). split; [constructor; [lia|assumption]|].
      destruct Hc as [[-> ->]|(-> & -> & ->)]; [left|right]; auto. }
    rewrite quo_text in H by assumption.
    destruct (parse_onetext true (c :: t)) as [[y r1]|] eqn:E; [|discriminate].
    destruct (onetext_len _ _ _ _ E) as [_ Hl].
    destruct (quo true r1) as [[x' r']|] eqn:Eq; [|discriminate]. cbn in H. inversion H; subst.
    destruct (onetext_cases _ _ _ B E) as [(c' & E1 & -> & H1 & H2)|[(E1 & Hy & Hf & Hr1)|(w & E1 & -> & Hw & Hf & Hr1)]].
    + inversion E1; subst c' r1. destruct (IH t x' r) as (b & v & Hb & Hc); [cbn in *; lia|assumption|assumption|].
      exists (c :: b), (c :: v). split; [constructor; auto|]. destruct Hc as [[-> ->]|(-> & -> & ->)]; [left|right]; auto.
    + rewrite E1 in B. apply bytes_app in B as [_ B].
      destruct (IH r1 x' r) as (b & v & Hb & Hc); [cbn in *; lia|assumption|assumption|].
      exists (y ++ b), (y ++ v). split; [apply qbody_ws_app; assumption|]. rewrite E1.
      destruct Hc as [[-> ->]|(-> & -> & ->)]; [left|right]; rewrite <- ?app_assoc; auto.
    + rewrite E1 in B. apply bytes_cons in B as [_ B]. apply bytes_cons in B as [_ B]. apply bytes_app in B as [_ B].
      destruct (IH r1 x' r) as (b & v & Hb & Hc); [cbn in *; lia|assumption|assumption|].
      exists (13 :: 10 :: w ++ b), (32 :: v). split.
      * constructor; try assumption. destruct Hc as [[-> ->]|(-> & -> & ->)]; [|assumption]. destruct b; [exact I|exact Hr1].
      * rewrite E1. destruct Hc as [[-> ->]|(-> & -> & ->)]; [left|right]; cbn; rewrite <- ?app_assoc; auto.
Qed.
