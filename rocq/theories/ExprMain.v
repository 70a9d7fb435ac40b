(** Whole texts: from_str, orderby_from_str, and what they do to the formatter's output. *)
From Verif Require Import Py ExprModel ExprSpec ExprLex ExprParse ExprFmt ExprTotal.

(** objects determine expressions *)
Fixpoint asize (a : ast) : nat :=
  match a with
  | Lit _ | Prop_ _ | Cast1 _ | IsOf1 _ => 1
  | Neg a | Not a | Member a _ | Cast a _ | IsOf a _ => S (asize a)
  | Bin _ a b => S (asize a + asize b)
  | Call _ l => S (list_sum (map asize l))
  end%nat.
Lemma obj_inj_aux : forall n a b, (asize a <= n)%nat -> obj a = obj b -> a = b.
Proof.
  induction n as [|n IH]; intros a b L Q; [destruct a; cbn in L; lia|].
  destruct a; destruct b; cbn in Q; try discriminate; cbn in L; inversion Q; subst; auto;
    try (f_equal; apply IH; [lia|assumption]).
  - f_equal; try (apply IH; [lia|assumption]). destruct o, o0; cbn in H0; congruence.
  - destruct o; discriminate.
  - destruct o; discriminate.
  - destruct o; discriminate.
  - destruct o; discriminate.
  - destruct o; discriminate.
  - destruct o; discriminate.
  - f_equal. clear Q. apply le_S_n in L. revert args0 H1. induction args as [|a l IHl]; intros [|b m]; cbn; intros Q; try discriminate; auto.
    inversion Q. change (list_sum (map asize (a :: l))) with (asize a + list_sum (map asize l))%nat in L.
    f_equal; [apply IH; [lia|assumption]|apply IHl; [lia|assumption]].
Qed.
Lemma obj_inj a b : obj a = obj b -> a = b.
Proof. apply (obj_inj_aux (asize a)). lia. Qed.

Section Main.
Variable E : env.
Hypothesis OK : env_ok E.

Lemma ws_nil' : ws [].
Proof. intros c []. Qed.
Lemma wsp_ws w : ws w -> wsp w = [].
Proof. intros W. rewrite <- (app_nil_r w). rewrite wsp_app by auto. reflexivity. Qed.
Lemma ws_follows n w : ws w -> follows E n w.
Proof.
  intros W. split; [rewrite <- (app_nil_r w); apply ws_dl0; auto; exact I|]. rewrite wsp_ws by auto. split; exact I.
Qed.

Theorem from_str_ok params a w1 s w2 : ws w1 -> ws w2 -> G E false 1 a s ->
  from_str E params (w1 ++ s ++ w2) = Ok (obj a).
Proof.
  intros W1 W2 H. unfold from_str. rewrite ce_ws by auto.
  destruct (proj1 (parse_complete E OK) 1%nat a s H ltac:(lia) (S (length (w1 ++ s ++ w2))) params [] w2) as (f & _ & ->).
  - exact I.
  - apply ws_follows; auto.
  - rewrite !app_length. lia.
  - unfold cont. rewrite wsp_ws by auto. reflexivity.
Qed.

Lemma lower_letter c x : 97 <= x <= 122 -> ascii_lower c = x -> is_letter c.
Proof.
  unfold ascii_lower, is_letter. intros B. destruct ((65 <=? c) && (c <=? 90)) eqn:Q.
  - apply andb_true_iff in Q. rewrite !Z.leb_le in Q. lia.
  - lia.
Qed.
Lemma keyword d k : map ascii_lower k = (if d : bool then lit "asc" else lit "desc") ->
  ident_text E k /\ op_from_str k = None /\ (forall r, parse_insens E (if d then lit "asc" else lit "desc") (k ++ r) = Some r)
  /\ (d = false -> forall r, parse_insens E (lit "asc") (k ++ r) = None).
Proof.
  intros H.
  assert (Forall is_letter k) as L.
  { apply Forall_forall. intros c C. apply (in_map ascii_lower) in C. rewrite H in C.
    apply (lower_letter c (ascii_lower c)); auto. destruct d; cbn in C; intuition lia. }
  assert (forall c, In c k -> 0 <= c < 128) as A by (intros c C; eapply Forall_forall in L; [|exact C]; unfold is_letter in L; lia).
  assert (length k = length (if d then lit "asc" else lit "desc")) as Ln by (rewrite <- H, map_length; reflexivity).
  assert (forall r, lower E (firstn (length k) (k ++ r)) = if d then lit "asc" else lit "desc") as F.
  { intros r. rewrite firstn_app, firstn_all, Nat.sub_diag. cbn [firstn]. rewrite app_nil_r. rewrite (ok_lower E OK); auto. }
  split; [|split; [|split]].
  - apply (ident_word E OK); [apply Forall_forall; auto|]. intros ->. destruct d; discriminate.
  - destruct (op_from_str k) as [o|] eqn:Q; auto. exfalso.
    assert (In k (map fst op_table)) as I.
    { unfold op_from_str in Q. clear - Q. induction op_table as [|(x, v) l IH]; cbn in *; [discriminate|].
      destruct (str_eqb k x) eqn:S; [left; apply str_eqb_eq in S; auto|right; auto]. }
    apply (in_map (map ascii_lower)) in I. rewrite H in I. revert I. destruct d; vm_compute; intuition discriminate.
  - intros r. specialize (F r). pose proof (skipn_app (length k) k r) as Sk. rewrite skipn_all, Nat.sub_diag in Sk. cbn [app skipn] in Sk.
    rewrite Ln in F, Sk. unfold parse_insens. destruct d; rewrite F, Sk, str_eqb_refl; reflexivity.
  - intros -> r. unfold parse_insens. destruct k as [|c k]; [discriminate|]. cbn [app].
    change (length (lit "asc")) with 3%nat. cbn [firstn].
    match goal with |- context [lower E (c :: ?z)] => destruct (ok_lower_head E OK c z) as (t & ->) end; [apply A; left; auto|].
    cbn in H. inversion H as [H1]. cbn. rewrite H1. reflexivity.
Qed.

Theorem orderby_ok l s : orderby_text E l s -> orderby_from_str E s = Ok (map (fun p => (obj (fst p), snd p)) l).
Proof.
  intros H. unfold orderby_from_str.
  assert (forall f acc, (length s < f)%nat -> orderby_loop E f s acc = Ok (acc ++ map (fun p => (obj (fst p), snd p)) l)) as K;
    [|rewrite K by lia; reflexivity].
  assert (forall f acc a d w1 x t w2 r, ws w1 -> ws w2 -> G E false 1 a x -> direction_text d t ->
    wsp r = r -> (r = [] \/ exists r', r = 44 :: r') ->
    orderby_loop E (S f) (w1 ++ x ++ t ++ w2 ++ r) acc =
      match parse (lit ",") r with
      | Some s => orderby_loop E f s (acc ++ [(obj a, d)])
      | None => match r with nil => Ok (acc ++ [(obj a, d)]) | _ => Err ValueError end
      end) as ST.
  { intros f acc a d w1 x t w2 r W1 W2 Gx T Wr Er. cbn [orderby_loop].
    assert (hd_ok x) as Hx by (eapply G_ne; eauto).
    rewrite wsp_app by auto. rewrite wsp_hd_ok by auto.
    assert (dl r) as Dr by (destruct Er as [->|(r' & ->)]; cbn; auto 12).
    assert (operator_at E r = None /\ parse (lit "(") r = None) as (Or & Pr).
    { destruct Er as [->|(r' & ->)]; [auto|]. unfold operator_at. change (lit "/") with [47]. change (lit "(") with [40].
      rewrite !parse_hd by lia. rewrite (ident_none E); auto. apply (not_start E OK). left. cbn. auto 12. }
    assert (exists u, wsp (t ++ w2 ++ r) = u /\ operator_at E u = None /\ parse (lit "(") u = None /\ dl (t ++ w2 ++ r)
      /\ wsp u = u
      /\ (let (dir, s) :=
           match parse_insens E (lit "asc") u with
           | Some r => (true, r)
           | None => match parse_insens E (lit "desc") u with Some r => (false, r) | None => (true, u) end
           end in (dir, wsp s)) = (d, r)) as (u & U & Ou & Pu & Du & Wu & Dir).
    { inversion T as [|d0 w k Ww Hk]; subst.
      - exists r. cbn [app]. rewrite wsp_app by auto. repeat split; auto; [apply ws_dl0; auto|].
        assert (forall l, In l [lit "asc"; lit "desc"] -> parse_insens E l r = None) as N.
        { intros l0 I0. unfold parse_insens. destruct Er as [->|(r' & ->)].
          - rewrite firstn_nil. rewrite (ok_lower E OK) by (intros c []). destruct I0 as [<-|[<-|[]]]; reflexivity.
          - destruct l0 as [|y l0]; [cbn in I0; intuition discriminate|]. cbn [length firstn].
            match goal with |- context [lower E (44 :: ?z)] => destruct (ok_lower_head E OK 44 z ltac:(lia)) as (t & ->) end.
            destruct I0 as [I0|[I0|[]]]; inversion I0; reflexivity. }
        rewrite !N by (cbn; auto). rewrite Wr. reflexivity.
      - destruct (keyword d k Hk) as (Ik & Kop & Ks & Kn). exists (k ++ w2 ++ r).
        rewrite <- app_assoc, wsp_app by apply Ww. rewrite (wsp_id E OK) by auto.
        assert (dl (w2 ++ r)) as D2 by (apply ws_dl0; auto).
        destruct (ident_hd E k Ik) as (c & k' & Ek & Sc).
        assert (forall x, In x (lit " '()/,-.:") -> c <> x) as Nc.
        { intros y Y ->. apply (idstart_not E OK) in Sc as (Sc & _). apply Sc. left. auto. }
        repeat split; auto.
        + unfold operator_at. rewrite (ident_ok E OK) by auto. rewrite Kop. rewrite Ek. cbn [app].
          change (lit "/") with [47]. rewrite parse_hd; auto. apply Nc. cbn. auto 12.
        + rewrite Ek. cbn [app]. change (lit "(") with [40]. rewrite parse_hd; auto. apply Nc. cbn. auto 12.
        + apply (ws_dl w); auto.
        + destruct d.
          * rewrite Ks. rewrite wsp_app by auto. rewrite Wr. reflexivity.
          * rewrite Kn by auto. rewrite Ks. rewrite wsp_app by auto. rewrite Wr. reflexivity. }
    destruct (proj1 (parse_complete E OK) 1%nat a x Gx ltac:(lia) (S (length (w1 ++ x ++ t ++ w2 ++ r))) None [] (t ++ w2 ++ r)) as (f' & _ & ->).
    - exact I.
    - split; [auto|]. rewrite U, Pu, Ou. split; exact I.
    - rewrite !app_length. lia.
    - unfold cont. rewrite U, Ou. cbn [unwind rbind opt_or]. rewrite Wu.
      match type of Dir with (let (_, _) := ?x in _) = _ => destruct x as [dir z] end. inversion Dir; subst. reflexivity. }
  induction H as [a d w1 x t w2 W1 W2 Gx T|a d w1 x t w2 l s W1 W2 Gx T Ho IH]; intros f acc L.
  - destruct f as [|f]; [lia|]. specialize (ST f acc a d w1 x t w2 [] W1 W2 Gx T eq_refl (or_introl eq_refl)).
    rewrite !app_nil_r in ST. rewrite ST. reflexivity.
  - destruct f as [|f]; [lia|]. change (lit "," ++ s) with (44 :: s) in *. rewrite !app_length in L. cbn [length] in L.
    rewrite (ST f acc a d w1 x t w2 (44 :: s) W1 W2 Gx T); [|apply wsp_hd; lia|eauto].
    change (parse (lit ",") (44 :: s)) with (Some s). cbv iota. rewrite IH by lia. rewrite <- app_assoc. reflexivity.
Qed.

Theorem roundtrip a : printable E a ->
  exists s, fmt E (obj a) = Ok s /\ forall params, from_str E params s = Ok (obj a).
Proof.
  intros P. destruct (fmt_sound E OK a P) as (s & F & K). exists s. split; auto. intros params.
  pose proof (from_str_ok params a [] s [] ws_nil' ws_nil') as Q. rewrite app_nil_r in Q. apply Q. apply K.
  destruct a; cbn; unfold primary_level, unary_level; try lia. destruct o; cbn; lia.
Qed.
Theorem orderby_roundtrip l : l <> [] -> Forall (fun p => printable E (fst p)) l ->
  exists s, orderby_to_str E (map (fun p => (obj (fst p), snd p)) l) = Ok s
    /\ orderby_from_str E s = Ok (map (fun p => (obj (fst p), snd p)) l).
Proof.
  intros N P.
  assert (exists ts, orderby_texts E (map (fun p => (obj (fst p), snd p)) l) = Ok ts /\ forall w, ws w -> orderby_text E l (w ++ join (lit ", ") ts)) as (ts & Q & T).
  { induction P as [|(a, d) l Pa P IH]; [congruence|]. clear N.
    destruct (fmt_sound E OK a Pa) as (s & F & K).
    assert (G E false 1 a s) as Gs.
    { apply K. destruct a; cbn; unfold primary_level, unary_level; try lia. destruct o; cbn; lia. }
    cbn [map orderby_texts fst snd]. rewrite F. cbn [rbind].
    assert (direction_text d (lit " " ++ if d then lit "asc" else lit "desc")) as D.
    { apply dt_word; [apply ws_sp|]. destruct d; reflexivity. }
    destruct l as [|p l].
    - cbn [map orderby_texts rbind]. eexists. split; [reflexivity|]. intros w W. cbn [join].
      pose proof (ob_one E a d w s _ [] W ws_nil' Gs D) as O. rewrite app_nil_r in O. rewrite app_assoc in O. rewrite app_assoc. exact O.
    - destruct (IH ltac:(discriminate)) as (ts & Q & T). rewrite Q. cbn [rbind]. eexists. split; [reflexivity|].
      intros w W. destruct ts as [|t ts].
      { exfalso. clear - Q. destruct p as [x y]. cbn in Q. destruct (fmt E (obj x)); cbn in Q; [|discriminate].
        destruct (orderby_texts E _); cbn in Q; discriminate. }
      specialize (T (lit " ") (proj1 ws_sp)).
      pose proof (ob_more E a d w s _ [] (p :: l) _ W ws_nil' Gs D T) as O. cbn [app] in O.
      assert (w ++ join (lit ", ") ((s ++ lit " " ++ (if d then lit "asc" else lit "desc")) :: t :: ts)
        = w ++ s ++ (lit " " ++ (if d then lit "asc" else lit "desc")) ++ lit "," ++ lit " " ++ join (lit ", ") (t :: ts)) as ->; [|exact O].
      cbn [join]. rewrite <- !app_assoc. reflexivity. }
  exists (join (lit ", ") ts). split.
  - unfold orderby_to_str. rewrite Q. reflexivity.
  - apply orderby_ok. apply (T []). apply ws_nil'.
Qed.
End Main.
