(** The parser always ends, with an expression or a ValueError. *)
From Verif Require Import Py ExprModel ExprSpec ExprLex.

Definition shorter {A} (s : str) (x : res (option A * str)) : Prop :=
  match x with
  | Ok (Some _, r) => (length r < length s)%nat
  | Ok (None, r) => (length r <= length s)%nat
  | Err e => e = ValueError
  end.
Lemma shorter_le {A} s s' (x : res (option A * str)) : (length s <= length s')%nat -> shorter s x -> shorter s' x.
Proof. destruct x as [([a|] & r)|e]; cbn; intros; auto; lia. Qed.

Lemma parse_len p s r : parse p s = Some r -> (length r + length p = length s)%nat.
Proof.
  revert s. induction p as [|c p IH]; intros s H; cbn in H.
  - inversion H; subst. cbn. lia.
  - destruct s as [|d s]; [discriminate|]. destruct (c =? d); [|discriminate]. apply IH in H. cbn. lia.
Qed.
Lemma parse_one_len cs s c r : parse_one cs s = Some (c, r) -> length s = S (length r).
Proof. destruct s; cbn; [discriminate|]. destruct (zin z cs); [|discriminate]. intros H; inversion H; subst; auto. Qed.
Lemma span_len p s : (length (fst (span p s)) + length (snd (span p s)) = length s)%nat.
Proof.
  induction s as [|c s IH]; cbn; auto. destruct (p c); [|reflexivity]. destruct (span p s). cbn in *. lia.
Qed.
Tactic Notation "span_" constr(p) constr(s) ident(a) ident(b) :=
  let H := fresh in pose proof (span_len p s) as H; destruct (span p s) as [a b]; cbn [fst snd] in H.
Lemma ident_len E s n r : ident E s = Some (n, r) -> (length r < length s)%nat.
Proof.
  unfold ident. generalize (length s) at 1. intros f. revert s n r. induction f as [|f IH]; intros s n r; cbn [ident_loop]; [discriminate|].
  destruct s as [|c s]; [discriminate|]. destruct (idstart E c); [|discriminate]. span_ (idchar E) s l l0.
  destruct (parse (lit ".") l0) as [r2|] eqn:P.
  - destruct (ident_loop E f r2) as [(m & r3)|] eqn:I; [|intros Q; discriminate Q]. intros Q. inversion Q; subst.
    apply IH in I. apply parse_len in P. cbn in *. lia.
  - intros Q. inversion Q; subst. cbn. lia.
Qed.
Lemma squote_other c t acc : c <> 39 -> squote (c :: t) acc = squote t (c :: acc).
Proof. intros N. destruct c as [|p|p]; try reflexivity. do 6 (destruct p as [p|p|]; try reflexivity). congruence. Qed.
Lemma squote_one d t acc : d <> 39 -> squote (39 :: d :: t) acc = Ok (rev acc, d :: t).
Proof. intros N. destruct d as [|p|p]; try reflexivity. do 6 (destruct p as [p|p|]; try reflexivity). congruence. Qed.
Lemma squote_len s : forall acc, match squote s acc with Ok (_, r) => (length r < length s)%nat | Err e => e = ValueError end.
Proof.
  assert (forall n s acc, (length s <= n)%nat -> match squote s acc with Ok (_, r) => (length r < length s)%nat | Err e => e = ValueError end) as H; [|intros acc; apply (H (length s)); lia].
  induction n as [|n IH]; intros t acc L; destruct t as [|c t]; cbn [length] in L; try lia; try reflexivity.
  destruct (Z.eq_dec c 39) as [->|N].
  - destruct t as [|d t]; [cbn; lia|]. destruct (Z.eq_dec d 39) as [->|N].
    + change (squote (39 :: 39 :: t) acc) with (squote t (39 :: acc)). cbn [length] in L.
      specialize (IH t (39 :: acc) ltac:(lia)). destruct (squote t (39 :: acc)) as [(x & r)|]; auto. cbn [length]. lia.
    + rewrite squote_one by auto. cbn [length]. lia.
  - rewrite squote_other by auto. specialize (IH t (c :: acc) ltac:(lia)). destruct (squote t (c :: acc)) as [(x & r)|]; auto. cbn [length]. lia.
Qed.
Lemma insens_len E l s r : parse_insens E l s = Some r -> (length r <= length s - length l)%nat.
Proof. unfold parse_insens. destruct (str_eqb _ _); [|discriminate]. intros Q; inversion Q; subst. rewrite skipn_length. lia. Qed.
Ltac letpair a b Q := match goal with |- (let (_, _) := ?x in _) = _ -> _ => destruct x as [a b] eqn:Q end.
Lemma numeric_len E s n r : s <> [] -> parse_numeric E s = Some (n, r) -> (length r < length s)%nat.
Proof.
  intros N. unfold parse_numeric.
  letpair sg s1 Q1.
  assert ((length s1 <= length s)%nat /\ (length s1 = length s -> s1 = s)) as (L & L1).
  { destruct (parse (lit "-") s) as [r1|] eqn:P; inversion Q1; subst; auto.
    apply parse_len in P. cbn in P. lia. }
  clear Q1.
  assert (1 <= length s)%nat as L0 by (destruct s; [congruence|cbn; lia]).
  destruct (parse_insens E (lit "inf") s1) as [r1|] eqn:I.
  { intros Q. inversion Q; subst. apply insens_len in I. cbn in I. lia. }
  destruct (parse_insens E (lit "nan") s1) as [r1|] eqn:I2.
  { intros Q. inversion Q; subst. apply insens_len in I2. cbn in I2. lia. }
  span_ is_digit s1 ld s2.
  letpair rd s3 Q3.
  assert ((length s3 <= length s2)%nat /\ (rd <> None -> (length s3 < length s2)%nat)) as (L3 & L4).
  { destruct (parse (lit ".") s2) as [r1|] eqn:P.
    - apply parse_len in P. cbn in P. span_ is_digit r1 l l0. inversion Q3; subst. lia.
    - inversion Q3; subst. split; auto. congruence. }
  clear Q3.
  assert ((match ld, rd with nil, None => true | nil, Some nil => true | _, _ => false end) = false -> (length s3 < length s)%nat) as S3.
  { destruct ld as [|c ld]; [|intros _; cbn [length] in *; lia]. destruct rd as [rd|]; [|discriminate]. intros _.
    assert (length s3 < length s2)%nat by (apply L4; discriminate). cbn [length] in *. lia. }
  destruct (match ld, rd with nil, None => true | nil, Some nil => true | _, _ => false end); [discriminate|].
  specialize (S3 eq_refl).
  destruct (parse_one (lit "eE") s3) as [(e & s4)|] eqn:P.
  - apply parse_one_len in P.
    letpair es s5 Q5.
    assert (length s5 <= length s4)%nat as L5.
    { destruct (parse (lit "-") s4) as [r1|] eqn:P5; inversion Q5; subst; auto. apply parse_len in P5. cbn in P5. lia. }
    span_ is_digit s5 l l0. intros Q. inversion Q; subst. lia.
  - intros Q. inversion Q; subst. auto.
Qed.
Lemma hexn_len n s a r : hexn n s = Some (a, r) -> (length r <= length s)%nat.
Proof. unfold hexn. destruct (_ && _); [|discriminate]. intros Q. inversion Q; subst. rewrite skipn_length. lia. Qed.
Lemma int_literal_err m lo hi n e : int_literal m lo hi n = Err e -> e = ValueError.
Proof. unfold int_literal. destruct (_ || _); [congruence|]. destruct (_ || _); congruence. Qed.
Lemma guid_len s : match parse_guid s with Ok (_, r) => (length r <= length s)%nat | Err e => e = ValueError end.
Proof.
  unfold parse_guid, opt_or.
  repeat match goal with
  | |- context [hexn ?n ?x] => destruct (hexn n x) as [(? & ?)|] eqn:?; [|reflexivity]
  | |- context [parse ?p ?x] => destruct (parse p x) as [?|] eqn:?; cbn [rbind]
  end; try reflexivity;
  repeat match goal with H : hexn _ _ = Some _ |- _ => apply hexn_len in H | H : parse _ _ = Some _ |- _ => apply parse_len in H | H : parse _ _ = None |- _ => clear H end; cbn [opt_or rbind]; try reflexivity; try lia.
  all: match goal with |- context [parse ?p ?x] => destruct (parse p x) eqn:P end; [apply parse_len in P; lia|reflexivity].
Qed.
Lemma timelit_len E k s : shorter s (parse_timelit E k s).
Proof.
  unfold parse_timelit, opt_or. destruct (parse (lit "'") s) as [s1|] eqn:P; [|reflexivity].
  destruct (tparse E k s1) as [n|]; [|reflexivity]. destruct (parse (lit "'") (skipn n s1)) as [r|] eqn:P2; [|reflexivity].
  apply parse_len in P, P2. cbn in *. rewrite skipn_length in P2. lia.
Qed.

Lemma parse_lit_len E s : shorter s (parse_lit E s).
Proof.
  unfold parse_lit. destruct (ident E s) as [(nc & r)|] eqn:I.
  - apply ident_len in I. cbv zeta.
    assert (forall l, shorter s (Ok (Some l, r) : res (option lit_ * str))) as K by (intros; cbn; lia).
    assert (forall k, shorter s (parse_timelit E k r)) as T by (intros k; eapply shorter_le; [|apply timelit_len]; lia).
    repeat match goal with |- shorter _ (if ?b then _ else _) => destruct b; auto end.
    + destruct (parse (lit "'") r) as [r1|] eqn:P; [|reflexivity]. cbn [opt_or].
      span_ is_hex r1 l l0. apply parse_len in P.
      assert (forall v, shorter s (opt_or (parse (lit "'") l0) (fun r => Ok (Some v, r) : res (option lit_ * str)))) as R.
      { intros v. destruct (parse (lit "'") l0) as [r2|] eqn:P2; [|reflexivity]. apply parse_len in P2. cbn in *. lia. }
      destruct l; cbn [rbind]; auto. destruct (hex_bytes _); cbn [opt_or rbind]; auto. reflexivity.
    + destruct (parse (lit "'") r) as [r1|] eqn:P; [|reflexivity]. cbn [opt_or]. apply parse_len in P. cbn in P.
      pose proof (guid_len r1) as Gu. destruct (parse_guid r1) as [(h & r2)|]; cbn [rbind]; cbn; auto. lia.
    + cbn. lia.
  - destruct s as [|c s]; [cbn; auto|].
    assert (shorter (c :: s) (if zin c (lit "-.0123456789") then
        match parse_numeric E (c :: s) with
        | None => Ok (None, c :: s)
        | Some (n, r) =>
          match parse_one (lit "Dd") r with
          | Some (_, r) => if num_ok E FDouble n then Ok (Some (LNum FDouble n), r) else Err ValueError
          | None =>
          match parse_one (lit "Ff") r with
          | Some (_, r) => if num_ok E FSingle n then Ok (Some (LNum FSingle n), r) else Err ValueError
          | None =>
          match parse_one (lit "Mm") r with
          | Some (_, r) => if num_ok E FDecimal n then Ok (Some (LNum FDecimal n), r) else Err ValueError
          | None =>
          match parse_one (lit "Ll") r with
          | Some (_, r) => let! v := int64_literal n in Ok (Some (LInt64 v), r)
          | None => let! v := int32_literal n in Ok (Some (LInt32 v), r)
          end end end end
        end else Ok (None, c :: s))) as Q.
    { destruct (zin c (lit "-.0123456789")); [|cbn; lia].
      destruct (parse_numeric E (c :: s)) as [(n & r)|] eqn:P; [|cbn; lia].
      apply numeric_len in P; [|discriminate].
      repeat match goal with |- context [parse_one ?a ?b] => destruct (parse_one a b) as [(? & ?)|] eqn:? end;
      repeat match goal with H : parse_one _ _ = Some _ |- _ => apply parse_one_len in H end.
      1-3: destruct (num_ok _ _ _); cbn; auto; cbn in *; lia.
      - unfold int64_literal. destruct (int_literal _ _ _ _) eqn:Il; cbn; [cbn in *; lia|]. apply int_literal_err in Il; auto.
      - unfold int32_literal. destruct (int_literal _ _ _ _) eqn:Il; cbn; [cbn in *; lia|]. apply int_literal_err in Il; auto. }
    assert (shorter (c :: s) (let! (v, r) := squote s [] in Ok (Some (LStr v), r) : res (option lit_ * str))) as R.
    { pose proof (squote_len s []) as H. destruct (squote s []) as [(v & r)|]; cbn in *; auto. }
    destruct c as [|p|p]; auto. do 6 (try (destruct p; auto)).
Qed.

Section Total.
Variable E : env.
Variable rec : str -> res (option expr * str).
Variable N : nat.
Hypothesis REC : forall s, (length s < N)%nat -> shorter s (rec s).

Lemma castlike_len o s : (length s <= N)%nat -> shorter s (castlike rec o s).
Proof.
  intros L. unfold castlike. pose proof (wsp_len s) as W.
  destruct (parse (lit "(") (wsp s)) as [s1|] eqn:P; [|cbn; lia]. apply parse_len in P. cbn in P.
  pose proof (REC s1 ltac:(lia)) as R. destruct (rec s1) as [(p & s2)|]; cbn [rbind]; [|exact R].
  destruct p as [p|]; cbn [opt_or]; [|reflexivity]. cbn in R. pose proof (wsp_len s2) as W2.
  destruct (parse (lit ")") (wsp s2)) as [s3|] eqn:P3.
  - apply parse_len in P3. cbn in P3. destruct (is_str_lit p); cbn; auto. lia.
  - destruct (parse (lit ",") (wsp s2)) as [s3|] eqn:P4; cbn [opt_or]; [|reflexivity]. apply parse_len in P4. cbn in P4.
    pose proof (wsp_len s3) as W3. pose proof (REC (wsp s3) ltac:(lia)) as R3.
    destruct (rec (wsp s3)) as [(p2 & s4)|]; cbn [rbind]; [|exact R3].
    destruct p2 as [p2|]; cbn [opt_or]; [|reflexivity]. cbn in R3. pose proof (wsp_len s4).
    destruct (parse (lit ")") (wsp s4)) as [s5|] eqn:P5; cbn [opt_or]; [|reflexivity]. apply parse_len in P5. cbn in P5.
    destruct (is_str_lit p2); cbn; auto. lia.
Qed.
Lemma call_args_len : forall k s acc, (length s < k)%nat -> (length s < N)%nat ->
  match call_args rec k s acc with Ok (_, r) => (length r < length s)%nat | Err e => e = ValueError end.
Proof.
  induction k as [|k IH]; intros s acc K L; [lia|]. cbn [call_args]. pose proof (wsp_len s) as W.
  pose proof (REC (wsp s) ltac:(lia)) as R. destruct (rec (wsp s)) as [(p & s1)|]; cbn [rbind]; [|exact R].
  destruct p as [p|]; cbn [opt_or]; [|reflexivity]. cbn in R. pose proof (wsp_len s1).
  destruct (parse (lit ",") (wsp s1)) as [s2|] eqn:P.
  - apply parse_len in P. cbn in P. specialize (IH s2 (acc ++ [Some p]) ltac:(lia) ltac:(lia)).
    destruct (call_args rec k s2 (acc ++ [Some p])) as [(x & r)|]; auto. lia.
  - destruct (parse (lit ")") (wsp s1)) as [s2|] eqn:P2; cbn [opt_or]; auto. apply parse_len in P2. cbn in P2. lia.
Qed.
Lemma operand_len f params s : (length s <= N)%nat -> (length s <= f)%nat -> shorter s (operand_at E rec f params s).
Proof.
  intros L F. unfold operand_at. cbv zeta. pose proof (wsp_len s) as W. generalize dependent (wsp s). intros t W.
  assert (shorter t (match params, parse (lit ":") t with
    | Some ps, Some r =>
      match ident E r with
      | Some (n, r) => opt_or (assoc n ps) (fun v => Ok (Some v, r))
      | None => Err ValueError
      end
    | _, _ => parse_lit E t
    end)) as V.
  { pose proof (parse_lit_len E t) as PL. destruct params as [ps|]; auto. destruct (parse (lit ":") t) as [r|] eqn:P; auto.
    apply parse_len in P. destruct (ident E r) as [(n & r')|] eqn:I; [|reflexivity]. apply ident_len in I.
    destruct (assoc n ps); cbn in *; auto. lia. }
  match type of V with shorter _ ?x => destruct x as [(v & u)|] end; cbn [rbind]; [|exact V].
  destruct v as [v|]; cbn in V; [cbn; lia|].
  destruct (ident E u) as [(name & r)|] eqn:I.
  - apply ident_len in I. pose proof (wsp_len r) as Wr.
    destruct (str_eqb name (lit "not")). { destruct (has_wsp r); cbn; auto. lia. }
    assert (forall o, shorter s (let! (e, r0) := castlike rec o (wsp r) in opt_or e (fun e => Ok (Some e, r0)))) as C.
    { intros o. pose proof (castlike_len o (wsp r) ltac:(lia)) as C. destruct (castlike rec o (wsp r)) as [([e|] & r0)|]; cbn in *; auto. lia. }
    destruct (str_eqb name (lit "isof")); [apply C|]. destruct (str_eqb name (lit "cast")); [apply C|].
    destruct (parse (lit "(") (wsp r)) as [r1|] eqn:P; [|cbn; lia]. apply parse_len in P. cbn in P.
    destruct (is_method name); [|reflexivity].
    pose proof (call_args_len f r1 [] ltac:(lia) ltac:(lia)) as A. destruct (call_args rec f r1 []) as [(x & r2)|]; cbn in *; auto. lia.
  - destruct (parse (lit "(") u) as [u1|] eqn:P.
    + apply parse_len in P. cbn in P. pose proof (REC u1 ltac:(lia)) as R. destruct (rec u1) as [([e|] & u2)|]; cbn [rbind opt_or]; auto.
      cbn in R. destruct (parse (lit ")") u2) as [u3|] eqn:P3; cbn [opt_or]; [|reflexivity]. apply parse_len in P3. cbn in *. lia.
      reflexivity.
    + destruct (parse (lit "-") u) as [u1|] eqn:P1; [apply parse_len in P1; cbn in *; lia|]. cbn. lia.
Qed.
End Total.

Lemma operator_len E s o r : operator_at E s = Some (o, r) -> (length r < length s)%nat.
Proof.
  unfold operator_at. destruct (parse (lit "/") s) as [r1|] eqn:P.
  - intros Q. inversion Q; subst. apply parse_len in P. cbn in P. lia.
  - destruct (ident E s) as [(n & r1)|] eqn:I; [|discriminate]. apply ident_len in I.
    destruct (op_from_str n); [|discriminate]. intros Q. inversion Q; subst. auto.
Qed.
Theorem ce_total E : forall f params st s, (length s < f)%nat -> shorter s (ce E f params st s).
Proof.
  induction f as [|f IH]; intros params st s L; [lia|]. cbn [ce].
  pose proof (operand_len E (ce E f None []) f (fun s H => IH None [] s H) f params s ltac:(lia) ltac:(lia)) as O.
  destruct (operand_at E (ce E f None []) f params s) as [([e|] & r)|]; cbn [rbind]; [| |exact O].
  - cbn in O. destruct (is_unary e).
    + eapply shorter_le; [|apply IH]; lia.
    + cbv zeta. pose proof (wsp_len r). destruct (operator_at E (wsp r)) as [(o & r1)|] eqn:P.
      * apply operator_len in P. eapply shorter_le; [|apply IH]; lia.
      * cbn. lia.
  - destruct st; [exact O|reflexivity].
Qed.
Theorem from_str_total E params s : match from_str E params s with Ok _ => True | Err e => e = ValueError end.
Proof.
  unfold from_str. pose proof (ce_total E (S (length s)) params [] s ltac:(lia)) as H.
  destruct (ce E (S (length s)) params [] s) as [([e|] & r)|]; cbn in *; auto. destruct r; auto.
Qed.
Theorem orderby_total E s : match orderby_from_str E s with Ok _ => True | Err e => e = ValueError end.
Proof.
  unfold orderby_from_str. assert (forall f s acc, (length s < f)%nat -> match orderby_loop E f s acc with Ok _ => True | Err e => e = ValueError end) as H; [|apply H; lia].
  induction f as [|f IH]; intros t acc L; [lia|]. cbn [orderby_loop]. pose proof (wsp_len t).
  pose proof (ce_total E (S (length t)) None [] (wsp t) ltac:(lia)) as C.
  destruct (ce E (S (length t)) None [] (wsp t)) as [([e|] & r)|]; cbn [rbind opt_or]; auto. cbn in C.
  pose proof (wsp_len r).
  assert (exists d r1, match parse_insens E (lit "asc") (wsp r) with
      | Some r => (true, r)
      | None => match parse_insens E (lit "desc") (wsp r) with Some r => (false, r) | None => (true, wsp r) end
      end = (d, r1) /\ (length r1 <= length (wsp r))%nat) as (d & r1 & -> & L1).
  { destruct (parse_insens E (lit "asc") (wsp r)) eqn:P1; [apply insens_len in P1; do 2 eexists; split; [reflexivity|lia]|].
    destruct (parse_insens E (lit "desc") (wsp r)) eqn:P2; [apply insens_len in P2|]; do 2 eexists; (split; [reflexivity|]); lia. }
  pose proof (wsp_len r1).
  destruct (parse (lit ",") (wsp r1)) as [r2|] eqn:P.
  - apply parse_len in P. cbn in P. apply IH. lia.
  - destruct (wsp r1); auto.
Qed.
