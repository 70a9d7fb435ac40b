From Verif Require Import Py ParserModel ParserProofs ParserSpec.

(** ** the invariant of all programs *)
Record inv (s : str) (p : parser) : Prop := {
  i_src : src p = s;
  i_char : cinv p;
  i_none : last_error p = None -> raised p = [];
  i_last : forall e, last_error p = Some e -> In e (raised p) /\ forall e', In e' (raised p) -> e_pos e' <= e_pos e }.

Lemma inv_moved s p n : inv s p -> inv s (moved p n).
Proof. intros [A B C D]. constructor; auto using cinv_moved. Qed.
Lemma inv_new s : inv s (new_parser s).
Proof. constructor; try reflexivity. discriminate. Qed.

Definition keeps {A} (m : M A) : Prop := forall s p, inv s p -> inv s (snd (m p)).

Lemma keeps_bind A B (m : M A) (k : A -> M B) : keeps m -> (forall a, keeps (k a)) -> keeps (bind m k).
Proof.
  intros H K s p I. unfold bind. specialize (H s p I). destruct (m p) as [[a|e] p']; cbn in *; auto.
  apply K. exact H.
Qed.
Lemma keeps_ret A (a : A) : keeps (ret a). Proof. intros s p I. exact I. Qed.
Lemma keeps_gets A (f : parser -> A) : keeps (gets f). Proof. intros s p I. exact I. Qed.
Lemma keeps_setpos n : keeps (setpos n).
Proof. intros s p I. rewrite setpos_eq. apply inv_moved. exact I. Qed.
Lemma keeps_next : keeps next_char.
Proof. intros s p I. rewrite next_char_eq. apply inv_moved. exact I. Qed.
Lemma keeps_raise A e : keeps (fun p => (@Raise A e, p)). Proof. intros s p I. exact I. Qed.
Lemma keeps_error A pr : keeps (@parser_error A pr).
Proof.
  intros s p [I1 I2 I3 I4]. unfold parser_error. cbn [snd].
  set (e := match pr with
            | Some (c :: s0) => mke (c :: s0) (pos p)
            | _ => match last_error p with
                   | Some le => if pos p <=? e_pos le then le else mke [] (pos p)
                   | None => mke [] (pos p) end end).
  set (le := match last_error p with None => Some e | Some le => if e_pos le <? e_pos e then Some e else Some le end).
  assert (Q : inv s (mkp (src p) (pos p) (the_char p) le (e :: raised p))).
  { constructor; cbn [src pos the_char last_error raised]; auto.
    - unfold le. destruct (last_error p) as [l0|]; [destr|]; discriminate.
    - intros x Hx. unfold le in Hx. destruct (last_error p) as [l0|] eqn:El.
      + destruct (I4 l0 eq_refl) as [J1 J2]. destruct (e_pos l0 <? e_pos e) eqn:Eq; b2p; inversion Hx; subst x.
        * split; [left; reflexivity|]. intros e' [<-|He']; [lia|]. specialize (J2 e' He'). lia.
        * split; [right; exact J1|]. intros e' [<-|He']; [lia|auto].
      + inversion Hx; subst x. split; [left; reflexivity|]. intros e' [<-|He']; [lia|].
        rewrite (I3 eq_refl) in He'. destruct He'. }
  destruct (e_pos e =? pos p); [exact Q|]. rewrite setpos_eq. apply inv_moved. exact Q.
Qed.
Lemma keeps_many cs max : forall fuel n, keeps (many fuel cs max n).
Proof.
  induction fuel; intros n; cbn [many]; [apply keeps_raise|]. destr; [|apply keeps_ret].
  apply keeps_bind; [|intros [c|]; [apply keeps_bind; auto; intros; apply keeps_ret|apply keeps_ret]].
  unfold parse_one. apply keeps_bind; [apply keeps_gets|]. intros []; [|apply keeps_ret].
  apply keeps_bind; [apply keeps_gets|]. intros. apply keeps_bind; [apply keeps_next|]. intros; apply keeps_ret.
Qed.

Ltac keeps_tac :=
  repeat first
  [ apply keeps_bind; intros
  | apply keeps_ret | apply keeps_gets | apply keeps_setpos | apply keeps_next | apply keeps_error
  | apply keeps_many | apply keeps_raise
  | match goal with |- keeps (if ?b then _ else _) => destruct b end
  | match goal with |- keeps (match ?o with _ => _ end) => destruct o end ].

Lemma keeps_op lower o : keeps (do_op lower o).
Proof.
  destruct o; cbn [do_op]; unfold mmap, parse, require, parse_insensitive, parse_until, match_digit,
    parse_digit, parse_digit_value, match_hex_digit, parse_hex_digit, parse_one, peek, match_end, match_,
    match_insensitive, match_one, parse_digits, parse_hex_digits, parse_integer, require_end;
    keeps_tac; unfold parse_digits, parse; keeps_tac; unfold match_; keeps_tac.
Qed.

Lemma keeps_exec lower g : keeps (exec lower g).
Proof.
  induction g as [v| |o k IH|m IHm k IH]; cbn [exec].
  - apply keeps_ret.
  - apply keeps_raise.
  - apply keeps_bind; [apply keeps_op|auto].
  - apply keeps_bind; [|auto]. intros s p I. unfold parse_production. specialize (IHm s p I).
    destruct (exec lower m p) as [[a|e] p']; cbn [snd] in *; [exact IHm|].
    rewrite setpos_eq. apply inv_moved. exact IHm.
Qed.

Lemma reach_inv lower s p : reachable lower s p -> inv s p.
Proof.
  intros (g & r & E). pose proof (keeps_exec lower g s (new_parser s) (inv_new s)) as H.
  rewrite E in H. exact H.
Qed.

(** ** C07 *)
Lemma c07_char lower s p : reachable lower s p -> src p = s /\
  the_char p = (if (0 <=? pos p) && (pos p <? Z.of_nat (length s)) then nth_error s (Z.to_nat (pos p)) else None).
Proof. intros H. destruct (reach_inv _ _ _ H) as [A B _ _]. split; auto. rewrite B, A. reflexivity. Qed.

Lemma c07_pure lower o p : pure_op o = true -> exists v, do_op lower o p = (Ret v, p).
Proof. destruct o; try discriminate; intros _; eexists; reflexivity. Qed.

Lemma dec_shift : forall s a, fold_left (fun a c => a * 10 + (c - 48)) s a = a * 10 ^ len s + decimal s.
Proof.
  induction s as [|c s IH]; intros a; cbn [fold_left decimal]; unfold len; cbn [length].
  - cbn. lia.
  - rewrite IH. rewrite Nat2Z.inj_succ, Z.pow_succ_r by lia. unfold len. lia.
Qed.
Lemma dec_value_eq s : dec_value s = decimal s.
Proof. unfold dec_value. rewrite dec_shift. lia. Qed.

Lemma in_digits c : In c digits <-> digit c.
Proof.
  unfold digits, digit. cbn. split; [intros H; repeat destruct H as [<-|H]; try lia; destruct H|]. intros H.
  assert (c = 48 \/ c = 49 \/ c = 50 \/ c = 51 \/ c = 52 \/ c = 53 \/ c = 54 \/ c = 55 \/ c = 56 \/ c = 57) by lia.
  intuition.
Qed.
Lemma in_hex c : In c hex_digits <-> hexdigit c.
Proof.
  unfold hex_digits, hexdigit. cbn. split; [intros H; repeat destruct H as [<-|H]; try lia; destruct H|]. intros H.
  assert (c = 48 \/ c = 49 \/ c = 50 \/ c = 51 \/ c = 52 \/ c = 53 \/ c = 54 \/ c = 55 \/ c = 56 \/ c = 57 \/
    c = 65 \/ c = 66 \/ c = 67 \/ c = 68 \/ c = 69 \/ c = 70 \/
    c = 97 \/ c = 98 \/ c = 99 \/ c = 100 \/ c = 101 \/ c = 102) by lia.
  intuition.
Qed.

Lemma rest_text p t l : rest p = t ++ l -> text_at (src p) (pos p) t.
Proof.
  intros E. unfold text_at. destruct t as [|c t]; [left; reflexivity|right].
  assert (Hp := rest_nonneg p c _ E). unfold rest in E.
  destruct (pos p <? 0) eqn:Ep; b2p; [lia|].
  exists (firstn (Z.to_nat (pos p)) (src p)), l. rewrite <- E, firstn_skipn. split; [reflexivity|].
  rewrite firstn_length. assert (Z.to_nat (pos p) < length (src p))%nat; [|lia].
  destruct (le_lt_dec (length (src p)) (Z.to_nat (pos p))) as [L|L]; [|exact L].
  rewrite skipn_all2 in E by lia. discriminate.
Qed.

Lemma prefix_firstn {A} (l : list A) n : exists l', l = firstn n l ++ l'.
Proof. exists (skipn n l). symmetry. apply firstn_skipn. Qed.

Lemma bounds_false min max : bounds_ok min max -> bad_bounds min max = false.
Proof.
  intros [H1 H2]. unfold bad_bounds. apply orb_false_iff. split; [apply Z.ltb_ge; lia|].
  destruct max as [m|]; [|reflexivity]. apply Z.ltb_ge. auto.
Qed.

Lemma c07_parse lower s p o : reachable lower s p -> parse_op o = true -> op_ok o ->
  (forall x, length (lower x) = length x) ->
  exists v p', do_op lower o p = (Ret v, p') /\ last_error p' = last_error p /\
    (v = VNone /\ p' = p \/
     exists t, stands_for v t /\ text_at s (pos p) t /\ pos p' = pos p + Z.of_nat (length t)).
Proof.
  intros R Ho Hok Hlow. destruct (reach_inv _ _ _ R) as [Hs Hc _ _]. rewrite <- Hs. clear Hs R s.
  assert (P1 : forall cs, exists v p', mmap (vopt VChar) (parse_one cs) p = (Ret v, p') /\ last_error p' = last_error p /\
    (v = VNone /\ p' = p \/ exists t, stands_for v t /\ text_at (src p) (pos p) t /\ pos p' = pos p + Z.of_nat (length t))).
  { intros cs. unfold mmap, bind. rewrite parse_one_eq by exact Hc. destruct (rest p) as [|c l] eqn:Er.
    - eexists _, _. split; [reflexivity|]. auto.
    - destruct (zin c cs); eexists _, _; (split; [reflexivity|]); [|auto]. split; [reflexivity|]. right.
      exists [c]. split; [reflexivity|]. split; [|reflexivity]. apply (rest_text p [c] l). exact Er. }
  destruct o; try discriminate; cbn [do_op]; try solve [apply P1].
  - (* parse *) unfold mmap, bind, parse, match_. unfold bind, gets.
    destruct (the_char p) as [c|] eqn:Et.
    + destruct (the_char_some p c Hc Et) as (l & Er).
      assert (Hp := rest_nonneg p c l Er).
      rewrite pyslice_rest by (unfold len; lia). unfold len. rewrite Nat2Z.id.
      destruct (str_eqb (firstn (length s) (rest p)) s) eqn:Eq.
      * apply str_eqb_eq in Eq. rewrite setpos_eq. eexists _, _. split; [reflexivity|]. split; [reflexivity|].
        right. exists s. split; [reflexivity|]. split; [|reflexivity].
        destruct (prefix_firstn (rest p) (length s)) as (l' & El'). rewrite Eq in El'. eapply rest_text; eauto.
      * eexists _, _. split; [reflexivity|]. auto.
    + eexists _, _. split; [reflexivity|]. auto.
  - (* parse_insensitive *) unfold mmap, bind, parse_insensitive, match_insensitive. unfold bind, gets.
    destruct (the_char p) as [c|] eqn:Et.
    + destruct (the_char_some p c Hc Et) as (l & Er).
      assert (Hp := rest_nonneg p c l Er).
      assert (Sl : pyslice (src p) (pos p) (pos p + len s) = firstn (length s) (rest p))
        by (rewrite pyslice_rest by (unfold len; lia); unfold len; rewrite Nat2Z.id; reflexivity).
      rewrite Sl.
      destruct (str_eqb (lower (firstn (length s) (rest p))) s) eqn:Eq.
      * apply str_eqb_eq in Eq. rewrite setpos_eq. eexists _, _. split; [reflexivity|]. split; [reflexivity|].
        right. exists (firstn (length s) (rest p)). split; [cbn; symmetry; exact Sl|].
        assert (L : length (firstn (length s) (rest p)) = length s) by (rewrite <- Hlow, Eq; reflexivity).
        split; [|rewrite L; reflexivity].
        destruct (prefix_firstn (rest p) (length s)) as (l' & El'). eapply rest_text. exact El'.
      * eexists _, _. split; [reflexivity|]. auto.
    + eexists _, _. split; [reflexivity|]. auto.
  - (* parse_digit_value *) unfold mmap, bind, parse_digit_value, bind. rewrite parse_one_eq by exact Hc.
    destruct (rest p) as [|c l] eqn:Er.
    + eexists _, _. split; [reflexivity|]. auto.
    + destruct (zin c digits) eqn:Ez; eexists _, _; (split; [reflexivity|]); [|auto]. split; [reflexivity|]. right.
      exists [c]. apply zin_In, in_digits in Ez. split.
      * cbn. split; [discriminate|]. split; [repeat constructor; apply Ez|]. unfold digit in Ez. lia.
      * split; [|reflexivity]. apply (rest_text p [c] l). exact Er.
  - (* parse_digits *) cbn in Hok. unfold mmap, bind. rewrite parse_digits_eq by auto using bounds_false. cbn zeta.
    destr; eexists _, _; (split; [reflexivity|]); [auto|]. split; [reflexivity|]. right.
    eexists. split; [reflexivity|]. split; [|reflexivity].
    destruct (run_of_prefix digits max (rest p) 0) as (l' & El'). eapply rest_text. exact El'.
  - (* parse_integer *) cbn in Hok. destruct Hok. unfold mmap, bind.
    rewrite parse_integer_eq by auto using bounds_false. cbn zeta.
    destr; eexists _, _; (split; [reflexivity|]); [auto|]. split; [reflexivity|]. right.
    exists (run_of digits max_digits 0 (rest p)).
    destruct (run_of_prefix digits max_digits (rest p) 0) as (l' & El').
    destruct (run_of_spec digits max_digits (rest p) 0 _ eq_refl) as (Q & _).
    apply orb_false_iff in E as [E _]. b2p.
    split; [|split; [eapply rest_text; exact El'|reflexivity]].
    split; [intros Z0; rewrite Z0 in E; cbn in E; lia|]. split; [|apply eq_sym, dec_value_eq].
    apply Forall_forall. intros c Hx. apply in_digits. apply Q. exact Hx.
  - (* parse_hex_digits *) cbn in Hok. unfold mmap, bind. rewrite parse_hex_digits_eq by auto using bounds_false. cbn zeta.
    destr; eexists _, _; (split; [reflexivity|]); [auto|]. split; [reflexivity|]. right.
    eexists. split; [reflexivity|]. split; [|reflexivity].
    destruct (run_of_prefix hex_digits max (rest p) 0) as (l' & El'). eapply rest_text. exact El'.
Qed.

Lemma c07_production lower s p m : reachable lower s p ->
  match exec lower m p with
  | (Ret v, p') => parse_production (exec lower m) p = (Ret (Some v), p')
  | (Raise _, p') => exists p'', parse_production (exec lower m) p = (Ret None, p'') /\
      pos p'' = pos p /\ the_char p'' = the_char p /\ src p'' = src p
  end.
Proof.
  intros R. pose proof (reach_inv _ _ _ R) as I. pose proof (keeps_exec lower m s p I) as J.
  unfold parse_production. destruct (exec lower m p) as [[v|e] p'] eqn:E; [reflexivity|].
  cbn [snd] in J. rewrite setpos_eq. eexists. split; [reflexivity|]. cbn.
  destruct I as [I1 I2 _ _]. destruct J as [J1 J2 _ _]. split; [reflexivity|]. rewrite I2, J1, I1. auto.
Qed.

(** ** C08 *)
Lemma longest cs max p (ok : Z -> Prop) : (forall c, In c cs <-> ok c) -> (forall m, max = Some m -> 0 <= m) ->
  0 <= pos p <= Z.of_nat (length (src p)) ->
  longest_run ok (src p) (pos p) max (run_of cs max 0 (rest p)).
Proof.
  intros Hok Hm Hp. destruct (run_of_spec cs max (rest p) 0 _ eq_refl) as (H1 & (l' & E & H2) & H3).
  exists (firstn (Z.to_nat (pos p)) (src p)), l'.
  split.
  { rewrite <- E. unfold rest. replace (pos p <? 0) with false by (symmetry; apply Z.ltb_ge; lia).
    symmetry. apply firstn_skipn. }
  split; [rewrite firstn_length; lia|].
  split; [apply Forall_forall; intros c Hc; apply Hok; auto|].
  split; [intros m Q; specialize (H3 m Q); specialize (Hm m Q); unfold len in H3; lia|].
  destruct H2 as [(c & l & -> & Hc)|[->|(m & Q & Hle)]].
  - right; right. exists c, l. split; [reflexivity|]. rewrite <- Hok. exact Hc.
  - auto.
  - left. subst max. f_equal. specialize (H3 m eq_refl). specialize (Hm m eq_refl). unfold len in *. lia.
Qed.

Lemma c08_digits lower s p min max : reachable lower s p -> 0 <= pos p <= Z.of_nat (length s) ->
  bounds_ok min max ->
  exists t, longest_run digit s (pos p) max t /\
    ((Z.of_nat (length t) < min /\ parse_digits min max p = (Ret None, p)) \/
     (min <= Z.of_nat (length t) /\ exists p', parse_digits min max p = (Ret (Some t), p') /\
        pos p' = pos p + Z.of_nat (length t))).
Proof.
  intros R Hp B. destruct (reach_inv _ _ _ R) as [Hs Hc _ _]. subst s.
  exists (run_of digits max 0 (rest p)). split.
  - apply longest; [apply in_digits| |exact Hp]. intros m Q. destruct B as [B1 B2]. specialize (B2 m Q). lia.
  - rewrite parse_digits_eq by auto using bounds_false. cbn zeta.
    destruct (len _ <? min) eqn:E; b2p; unfold len in *; [left; auto|right]. split; [auto|].
    eexists. split; [reflexivity|reflexivity].
Qed.
Lemma c08_hex lower s p min max : reachable lower s p -> 0 <= pos p <= Z.of_nat (length s) ->
  bounds_ok min max ->
  exists t, longest_run hexdigit s (pos p) max t /\
    ((Z.of_nat (length t) < min /\ parse_hex_digits min max p = (Ret None, p)) \/
     (min <= Z.of_nat (length t) /\ exists p', parse_hex_digits min max p = (Ret (Some t), p') /\
        pos p' = pos p + Z.of_nat (length t))).
Proof.
  intros R Hp B. destruct (reach_inv _ _ _ R) as [Hs Hc _ _]. subst s.
  exists (run_of hex_digits max 0 (rest p)). split.
  - apply longest; [apply in_hex| |exact Hp]. intros m Q. destruct B as [B1 B2]. specialize (B2 m Q). lia.
  - rewrite parse_hex_digits_eq by auto using bounds_false. cbn zeta.
    destruct (len _ <? min) eqn:E; b2p; unfold len in *; [left; auto|right]. split; [auto|].
    eexists. split; [reflexivity|reflexivity].
Qed.
Lemma c08_integer lower s p min max md : reachable lower s p -> 0 <= pos p <= Z.of_nat (length s) ->
  bounds_ok min max -> bounds_ok 1 md ->
  exists t, longest_run digit s (pos p) md t /\
    if negb (str_eqb t []) && (min <=? decimal t) &&
       match max with Some m => decimal t <=? m | None => true end
    then exists p', parse_integer (Some min) max md p = (Ret (Some (decimal t)), p') /\
        pos p' = pos p + Z.of_nat (length t)
    else parse_integer (Some min) max md p = (Ret None, p).
Proof.
  intros R Hp B B1. destruct (reach_inv _ _ _ R) as [Hs Hc _ _]. subst s.
  set (t := run_of digits md 0 (rest p)). exists t. split.
  - apply longest; [apply in_digits| |exact Hp]. intros m Q. destruct B1 as [_ B2]. specialize (B2 m Q). lia.
  - rewrite (parse_integer_eq (Some min) max md p Hc (bounds_false _ _ B) (bounds_false _ _ B1)).
    cbn zeta. fold t. rewrite dec_value_eq.
    assert (Q1 : (len t <? 1) = str_eqb t []).
    { destruct t; [reflexivity|]. cbn [str_eqb]. apply Z.ltb_ge. unfold len. cbn [length]. lia. }
    rewrite Q1.
    destruct (str_eqb t []); cbn [negb andb orb]; [reflexivity|].
    rewrite Z.ltb_antisym. destruct (min <=? decimal t); cbn [negb andb orb]; [|reflexivity].
    destruct max as [m|].
    + rewrite Z.ltb_antisym. destruct (decimal t <=? m); cbn [negb]; [|reflexivity].
      eexists. split; reflexivity.
    + eexists. split; reflexivity.
Qed.

(** ** C09 *)
Lemma c09 lower s p : reachable lower s p ->
  exists e p', @parser_error unit None p = (Raise (EParser e), p') /\ pos p' = e_pos e /\
    the_char p' = char_at s (e_pos e) /\
    ((In e (raised p) /\ pos p <= e_pos e /\ forall e', In e' (raised p) -> e_pos e' <= e_pos e) \/
     (e = mke [] (pos p) /\ forall e', In e' (raised p) -> e_pos e' < pos p)).
Proof.
  intros R. destruct (reach_inv _ _ _ R) as [I1 I2 I3 I4]. unfold parser_error.
  set (e := match last_error p with
            | Some le => if pos p <=? e_pos le then le else mke [] (pos p)
            | None => mke [] (pos p) end).
  eexists e, _. split; [reflexivity|].
  assert (Q : forall pp, src pp = s -> the_char pp = char_at s (pos pp) -> pos pp = pos p ->
     pos (if e_pos e =? pos p then pp else snd (setpos (e_pos e) pp)) = e_pos e /\
     the_char (if e_pos e =? pos p then pp else snd (setpos (e_pos e) pp)) = char_at s (e_pos e)).
  { intros pp S1 S2 S3. destruct (e_pos e =? pos p) eqn:Eq; b2p.
    - rewrite S2, S3, Eq. auto.
    - rewrite setpos_eq. cbn. rewrite S1. auto. }
  split; [apply Q; cbn; auto; rewrite <- I1; exact I2|].
  split; [apply Q; cbn; auto; rewrite <- I1; exact I2|].
  unfold e. destruct (last_error p) as [le|] eqn:El.
  - destruct (I4 le eq_refl) as [J1 J2]. destruct (pos p <=? e_pos le) eqn:Eq; b2p; [left; auto|right].
    split; [reflexivity|]. intros e' He'. specialize (J2 e' He'). lia.
  - right. split; [reflexivity|]. rewrite (I3 eq_refl). intros e' [].
Qed.

Lemma c09_named c n lower s p : reachable lower s p ->
  exists p', @parser_error unit (Some (c :: n)) p = (Raise (EParser (mke (c :: n) (pos p))), p') /\
    pos p' = pos p /\ the_char p' = the_char p.
Proof.
  intros R. unfold parser_error. eexists. split; [reflexivity|]. cbn [e_pos]. rewrite Z.eqb_refl. auto.
Qed.

(** ** parse_until *)
Lemma prefixb_ok : forall m s, prefixb m s = true <-> exists a, s = m ++ a.
Proof.
  induction m as [|c m IH]; intros s; cbn; [split; eauto|]. destruct s as [|d s].
  - split; [discriminate|]. intros (a & E). discriminate.
  - rewrite andb_true_iff, Z.eqb_eq, IH. split.
    + intros [-> (a & ->)]. eauto.
    + intros (a & E). inversion E; subst. eauto.
Qed.
Lemma find_from_ok m : forall s k,
  match find_from m s k with
  | Some j => exists i, j = (k + i)%nat /\ occurs_at m s i /\ forall i', (i' < i)%nat -> ~ occurs_at m s i'
  | None => forall i', ~ occurs_at m s i'
  end.
Proof.
  induction s as [|c s IH]; intros k; cbn [find_from].
  - destruct (prefixb m []) eqn:E.
    + exists 0%nat. split; [lia|]. split; [|lia]. apply prefixb_ok in E as (a & E). exists [], a. auto.
    + intros i' (b & a & Q & L). assert (prefixb m [] = true); [|congruence].
      apply prefixb_ok. exists a. destruct b; [cbn in Q; exact Q|discriminate].
  - destruct (prefixb m (c :: s)) eqn:E.
    + exists 0%nat. split; [lia|]. split; [|lia]. apply prefixb_ok in E as (a & E). exists [], a. auto.
    + assert (N0 : ~ occurs_at m (c :: s) 0).
      { intros (b & a & Q & L). destruct b; [|discriminate]. cbn in Q.
        assert (prefixb m (c :: s) = true); [apply prefixb_ok; eauto|congruence]. }
      assert (NS : forall i', occurs_at m (c :: s) (S i') <-> occurs_at m s i').
      { intros i'. split; intros (b & a & Q & L).
        - destruct b as [|x b]; [discriminate|]. cbn in *. inversion Q; subst. exists b, a. auto.
        - exists (c :: b), a. cbn. subst. auto. }
      specialize (IH (S k)). destruct (find_from m s (S k)) as [j|].
      * destruct IH as (i & -> & O & F). exists (S i). split; [lia|]. split; [apply NS; exact O|].
        intros [|i'] Hi; [exact N0|]. rewrite NS. apply F. lia.
      * intros [|i']; [exact N0|]. rewrite NS. apply IH.
Qed.

Lemma occurs_skipn m s k i : (k <= length s)%nat -> occurs_at m (skipn k s) i <-> occurs_at m s (k + i).
Proof.
  intros Hk. split; intros (b & a & Q & L).
  - exists (firstn k s ++ b), a. rewrite <- app_assoc, <- Q, firstn_skipn. split; [reflexivity|].
    rewrite app_length, firstn_length. lia.
  - exists (skipn k b), a. split.
    + rewrite Q, skipn_app. replace (k - length b)%nat with 0%nat by lia. reflexivity.
    + rewrite skipn_length. lia.
Qed.

Lemma c42 lower s p m : reachable lower s p -> 0 <= pos p <= Z.of_nat (length s) ->
  exists t p', parse_until (Some m) p = (Ret t, p') /\ text_at s (pos p) t /\
    pos p' = pos p + Z.of_nat (length t) /\
    ((occurs_at m s (Z.to_nat (pos p')) /\
      forall k, (Z.to_nat (pos p) <= k < Z.to_nat (pos p'))%nat -> ~ occurs_at m s k) \/
     (pos p' = Z.of_nat (length s) /\ forall k, (Z.to_nat (pos p) <= k)%nat -> ~ occurs_at m s k)).
Proof.
  intros R Hp. destruct (reach_inv _ _ _ R) as [Hs Hc _ _]. subst s.
  set (n := Z.to_nat (pos p)). assert (Hn : (n <= length (src p))%nat) by lia.
  assert (Hpn : pos p = Z.of_nat n) by lia.
  assert (Hx : pyidx (src p) (pos p) = n).
  { unfold pyidx. replace (pos p <? 0) with false by (symmetry; apply Z.ltb_ge; lia). reflexivity. }
  unfold parse_until, bind, gets, find. rewrite Hx.
  replace (length (src p) <? n)%nat with false by (symmetry; apply Nat.ltb_ge; lia).
  pose proof (find_from_ok m (skipn n (src p)) n) as F.
  assert (Rst : rest p = skipn n (src p)).
  { unfold rest. replace (pos p <? 0) with false by (symmetry; apply Z.ltb_ge; lia). reflexivity. }
  destruct (find_from m (skipn n (src p)) n) as [j|].
  - destruct F as (i & -> & O & Fm). rewrite setpos_eq. unfold ret. eexists _, _. split; [reflexivity|].
    apply occurs_skipn in O; [|lia].
    assert (Hj : (n + i <= length (src p))%nat).
    { destruct O as (b & a & Q & L). rewrite <- L, Q, app_length. lia. }
    assert (Ht : pyslice (src p) (pos p) (Z.of_nat (n + i)) = firstn i (skipn n (src p))).
    { unfold pyslice, slice. rewrite Hx. unfold pyidx.
      replace (Z.of_nat (n + i) <? 0) with false by (symmetry; apply Z.ltb_ge; lia). f_equal. lia. }
    rewrite Ht. split.
    { eapply rest_text. rewrite Rst. symmetry. apply (firstn_skipn i). }
    cbn [moved pos]. split.
    { rewrite firstn_length, skipn_length. lia. }
    left. rewrite Nat2Z.id. split; [exact O|]. intros k Hk. 
    replace k with (n + (k - n))%nat by lia. rewrite <- occurs_skipn by lia. apply Fm. lia.
  - rewrite setpos_eq. unfold ret. eexists _, _. split; [reflexivity|].
    unfold pytail. rewrite Hx. split.
    { eapply rest_text. rewrite Rst, app_nil_r. reflexivity. }
    cbn [moved pos]. split.
    { rewrite skipn_length. unfold len. lia. }
    right. split; [reflexivity|]. intros k Hk. replace k with (n + (k - n))%nat by lia.
    rewrite <- occurs_skipn by lia. apply F.
Qed.
