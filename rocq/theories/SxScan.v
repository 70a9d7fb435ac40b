(* The driver finds the values of the intended tree where the formatter put
   the placeholders, and the SQL scanner its tokens *)
From Coq Require Import List Bool Arith String Ascii DecimalString DecimalNat Lia.
From Verif Require Import SxModel SxSpec SxPrint.
Import ListNotations.
Local Open Scope string_scope.

(* --- decimal numbers --- *)
Fixpoint all_c (f : ascii -> bool) (s : string) : bool :=
  match s with "" => true | String c s' => f c && all_c f s' end.
Lemma digits_dec n : all_c is_digit (dec n) = true.
Proof.
  unfold dec. generalize (Nat.to_uint n) as u. intros u.
  induction u; cbn [NilEmpty.string_of_uint all_c]; auto.
Qed.
Lemma digit_word c : is_digit c = true -> is_word c = true.
Proof. intros H. unfold is_word. now rewrite H. Qed.
Lemma all_weaken (f g : ascii -> bool) s : (forall c, f c = true -> g c = true) -> all_c f s = true -> all_c g s = true.
Proof.
  intros H. induction s as [|c s IH]; cbn [all_c]; auto.
  intros K. apply andb_prop in K as [K1 K2]. rewrite (H _ K1). cbn [andb]. auto.
Qed.
Lemma dec_inj n m : dec n = dec m -> n = m.
Proof.
  unfold dec. intros H. apply (f_equal NilEmpty.uint_of_string) in H. rewrite !NilEmpty.usu in H.
  injection H as H. apply (f_equal Nat.of_uint) in H. rewrite !Unsigned.of_to in H. exact H.
Qed.
Lemma snoc_app a c s : snoc a c ++ s = a ++ String c s.
Proof. unfold snoc. now rewrite sapp_assoc. Qed.

Section Scan.
Context {P : Type}.
Variable st : style.
Notation render := (render (P := P) st).
Notation pars := (pars (P := P) st).

Definition refk (k : nat) : ref :=
  match st with
  | SQmark | SFormat => RNext
  | SNumeric => RNum (dec (S k))
  | SNamed | SPyformat => RName ("p" ++ dec k)
  end.
Fixpoint num (k : nat) (l : list (item P)) : list sitem :=
  match l with
  | [] => []
  | Ch c :: l' => IC c :: num k l'
  | Va _ :: l' => IR (refk k) :: num (S k) l'
  end.

Definition head_ok (l : list (item P)) : bool :=
  match l with Ch c :: _ => negb (is_word c) | _ => true end.
(* quotes are matched, placeholders are not inside them and are not followed
   by a letter or digit, ? and : are inside them *)
Fixpoint gq (q : option ascii) (l : list (item P)) : bool :=
  match l with
  | [] => match q with None => true | Some _ => false end
  | Ch c :: l' =>
      match q with
      | None => if is_quote c then gq (Some c) l'
                else negb (Ascii.eqb c "?") && negb (Ascii.eqb c ":") && gq None l'
      | Some d => if Ascii.eqb c d then gq None l' else gq (Some d) l'
      end
  | Va _ :: l' => match q with None => head_ok l' && gq None l' | Some _ => false end
  end.
Definition zof (q : option ascii) : zst :=
  if is_fmt st then ZN else match q with None => ZN | Some c => ZQ c end.

Lemma scan_num s : forall acc rest, all_c is_digit s = true ->
  scan st (ZNum acc) (s ++ rest) = scan st (ZNum (acc ++ s)) rest.
Proof using Type.
  induction s as [|c s IH]; intros acc rest H; cbn [String.append].
  - now rewrite sapp_nil.
  - cbn [all_c] in H. apply andb_prop in H as [H1 H2]. cbn [scan]. rewrite H1, IH by exact H2.
    now rewrite snoc_app.
Qed.
Lemma scan_name s : forall acc rest, all_c is_word s = true ->
  scan st (ZName acc) (s ++ rest) = scan st (ZName (acc ++ s)) rest.
Proof using Type.
  induction s as [|c s IH]; intros acc rest H; cbn [String.append].
  - now rewrite sapp_nil.
  - cbn [all_c] in H. apply andb_prop in H as [H1 H2]. cbn [scan]. rewrite H1, IH by exact H2.
    now rewrite snoc_app.
Qed.
Lemma scan_pname s : forall acc rest, all_c is_word s = true ->
  scan st (ZPctName acc) (s ++ rest) = scan st (ZPctName (acc ++ s)) rest.
Proof using Type.
  induction s as [|c s IH]; intros acc rest H; cbn [String.append].
  - now rewrite sapp_nil.
  - cbn [all_c] in H. apply andb_prop in H as [H1 H2]. cbn [scan].
    assert (E : Ascii.eqb c ")" = false).
    { destruct (Ascii.eqb c ")") eqn:E; auto. apply Ascii.eqb_eq in E. subst c. discriminate H1. }
    rewrite E, IH by exact H2. now rewrite snoc_app.
Qed.
Definition shead (s : string) : bool := match s with "" => true | String c _ => negb (is_word c) end.
Lemma scan_num_end acc s : shead s = true -> scan st (ZNum acc) s = consO (IR (RNum acc)) (scan st ZN s).
Proof using Type.
  destruct s as [|c s]; cbn [shead]; intros H; [reflexivity|]. cbn [scan].
  destruct (is_digit c) eqn:E; [|reflexivity]. rewrite (digit_word c E) in H. discriminate.
Qed.
Lemma scan_name_end acc s : shead s = true -> scan st (ZName acc) s = consO (IR (RName acc)) (scan st ZN s).
Proof using Type.
  destruct s as [|c s]; cbn [shead]; intros H; [reflexivity|]. cbn [scan].
  destruct (is_word c) eqn:E; [discriminate|reflexivity].
Qed.
Lemma word_dec n : all_c is_word (dec n) = true.
Proof using Type. exact (all_weaken _ _ _ digit_word (digits_dec n)). Qed.

Lemma scan_holder k s : shead s = true ->
  scan st ZN (holder st k ++ s) = consO (IR (refk k)) (scan st ZN s).
Proof using Type.
  intros H. unfold holder, refk. destruct st eqn:E; try reflexivity.
  - cbn [String.append scan Ascii.eqb]. cbn [Bool.eqb]. rewrite <- E.
    change (scan st (ZNum "") (dec (S k) ++ s) = consO (IR (RNum (dec (S k)))) (scan st ZN s)).
    rewrite scan_num by apply digits_dec. cbn [String.append]. now apply scan_num_end.
  - rewrite <- E. rewrite E at 1. cbn [String.append scan Ascii.eqb Bool.eqb]. rewrite <- E.
    change (scan st (ZName "") (("p" ++ dec k) ++ s) = consO (IR (RName ("p" ++ dec k))) (scan st ZN s)).
    rewrite scan_name by (cbn [String.append all_c]; rewrite word_dec; reflexivity).
    cbn [String.append]. now apply scan_name_end.
  - rewrite <- E. rewrite E at 1. cbn [String.append scan Ascii.eqb Bool.eqb]. rewrite <- E.
    change (scan st (ZPctName "") (("p" ++ dec k ++ ")s") ++ s) = consO (IR (RName ("p" ++ dec k))) (scan st ZN s)).
    replace (("p" ++ dec k ++ ")s") ++ s) with (("p" ++ dec k) ++ String ")" (String "s" s)).
    2:{ cbn [String.append]. rewrite sapp_assoc. reflexivity. }
    rewrite scan_pname by (cbn [String.append all_c]; rewrite word_dec; reflexivity).
    reflexivity.
Qed.

Lemma render_head k l : head_ok l = true -> shead (render k l) = true.
Proof using Type.
  destruct l as [|[c|p] l]; cbn [head_ok SxPrint.render]; intros H; [reflexivity| |].
  - destruct (is_fmt st && Ascii.eqb c "%"); exact H.
  - unfold holder. destruct st; reflexivity.
Qed.

Lemma scan_render l : forall k q, gq q l = true -> scan st (zof q) (render k l) = Some (num k l).
Proof using Type.
  induction l as [|[c|p] l IH]; intros k q H; cbn [gq] in H; cbn [SxPrint.render num].
  - destruct q; [discriminate|]. unfold zof. destruct (is_fmt st); reflexivity.
  - unfold zof in *. destruct (is_fmt st) eqn:E; cbn [andb].
    + assert (R : scan st ZN (render k l) = Some (num k l)).
      { destruct q as [d|].
        - destruct (Ascii.eqb c d); eapply (IH k _ H).
        - destruct (is_quote c); [eapply (IH k _ H)|]. apply andb_prop in H as [_ H]. apply (IH k _ H). }
      destruct (Ascii.eqb c "%") eqn:Ec.
      * apply Ascii.eqb_eq in Ec. subst c. unfold is_fmt in E.
        destruct st eqn:Es; try discriminate; cbn [scan Ascii.eqb Bool.eqb]; rewrite <- Es in *; rewrite R; reflexivity.
      * unfold is_fmt in E. destruct st eqn:Es; try discriminate; cbn [scan]; rewrite Ec, <- Es in *; rewrite R; reflexivity.
    + destruct q as [d|].
      * cbn [scan]. destruct (Ascii.eqb c d).
        -- rewrite (IH k None H). reflexivity.
        -- rewrite (IH k (Some d) H). reflexivity.
      * destruct (is_quote c) eqn:Eq.
        -- pose proof (IH k (Some c) H) as R. unfold is_fmt in E.
           assert (c <> "?"%char /\ c <> ":"%char) as [N1 N2].
           { split; intros ->; discriminate Eq. }
           apply Ascii.eqb_neq in N1, N2.
           destruct st eqn:Es; try discriminate; cbn [scan]; rewrite ?N1, ?N2, Eq, <- Es in *; rewrite R; reflexivity.
        -- apply andb_prop in H as [H H3]. apply andb_prop in H as [H1 H2].
           apply negb_true_iff in H1, H2. pose proof (IH k None H3) as R. unfold is_fmt in E.
           destruct st eqn:Es; try discriminate; cbn [scan]; rewrite ?H1, ?H2, Eq, <- Es in *; rewrite R; reflexivity.
  - destruct q; [discriminate|]. apply andb_prop in H as [H1 H2].
    assert (Z : zof None = ZN) by (unfold zof; destruct (is_fmt st); reflexivity).
    rewrite Z, scan_holder by (now apply render_head).
    pose proof (IH (S k) None H2) as R. rewrite Z in R. rewrite R. reflexivity.
Qed.

(* --- the values --- *)
Definition seqs : bool := match st with SQmark | SFormat => true | _ => false end.
Definition named_right (all : list (string * P)) : Prop :=
  forall i n p, nth_error all i = Some (n, p) -> n = pname st i.
Lemma pars_right l : forall k i n p, nth_error (pars k l) i = Some (n, p) -> n = pname st (k + i).
Proof using Type.
  induction l as [|[c|q] l IH]; intros k i n p H; cbn [SxPrint.pars] in H.
  - destruct i; discriminate.
  - eapply IH; eassumption.
  - destruct i as [|i]; cbn [nth_error] in H.
    + injection H as <- <-. now rewrite Nat.add_0_r.
    + rewrite (IH _ _ _ _ H). now rewrite <- plus_n_Sm.
Qed.
Lemma lookup_right (all : list (string * P)) : forall off k p, (forall i n p, nth_error all i = Some (n, p) -> n = "p" ++ dec (off + i)) ->
  (exists n, nth_error all k = Some (n, p)) -> lookup ("p" ++ dec (off + k)) all = Some p.
Proof using Type.
  induction all as [|[m q] all IH]; intros off k p H [n Hn].
  - destruct k; discriminate.
  - cbn [lookup]. pose proof (H 0 m q eq_refl) as Hm. rewrite Nat.add_0_r in Hm. destruct k as [|k].
    + cbn [nth_error] in Hn. injection Hn as -> ->. rewrite Nat.add_0_r, Hm, String.eqb_refl. reflexivity.
    + destruct (String.eqb ("p" ++ dec (off + S k)) m) eqn:E.
      * apply String.eqb_eq in E. rewrite Hm in E. cbn [String.append] in E. injection E as E.
        apply dec_inj in E. lia.
      * rewrite <- plus_n_Sm. rewrite <- plus_Sn_m. apply IH.
        -- intros i n' p' Hi. rewrite (H (S i) n' p' Hi). now rewrite <- plus_n_Sm.
        -- exists n. exact Hn.
Qed.
Lemma numbered_right (all : list (string * P)) k p n : nth_error all k = Some (n, p) ->
  numbered (dec (S k)) all = Some p.
Proof using Type.
  intros H. unfold numbered, dec. rewrite NilEmpty.usu, Unsigned.of_to, H. reflexivity.
Qed.

Lemma resolve_num l : forall k all nxt post, named_right all ->
  (forall i, nth_error (pars k l) i <> None -> nth_error all (k + i) = nth_error (pars k l) i) ->
  (seqs = true -> nxt = app (pars k l) post) ->
  resolve all nxt (num k l) = Some (l, if seqs then post else nxt).
Proof using Type.
  induction l as [|[c|p] l IH]; intros k all nxt post Hn Ha Hs; cbn [num resolve SxPrint.pars] in *.
  - destruct seqs; [rewrite Hs by reflexivity; reflexivity|reflexivity].
  - rewrite (IH k all nxt post Hn Ha Hs). reflexivity.
  - pose proof (Ha 0) as A0. cbn [nth_error] in A0. rewrite Nat.add_0_r in A0.
    specialize (A0 ltac:(discriminate)).
    assert (IH' : forall nxt', (seqs = true -> nxt' = app (pars (S k) l) post) ->
              resolve all nxt' (num (S k) l) = Some (l, if seqs then post else nxt')).
    { intros nxt' H'. apply IH; [exact Hn| |exact H'].
      intros i Hi. specialize (Ha (S i)). cbn [nth_error] in Ha. rewrite <- plus_n_Sm in Ha.
      rewrite plus_Sn_m. apply Ha. exact Hi. }
    unfold refk in *. unfold seqs in *. destruct st eqn:Es.
    + rewrite (Hs eq_refl). cbn [app]. rewrite (IH' _ (fun _ => eq_refl)). reflexivity.
    + rewrite (Hs eq_refl). cbn [app]. rewrite (IH' _ (fun _ => eq_refl)). reflexivity.
    + rewrite (numbered_right _ _ _ _ A0). cbn [option_map]. rewrite (IH' nxt) by discriminate. reflexivity.
    + assert (L : lookup ("p" ++ dec k) all = Some p).
      { apply (lookup_right all 0 k p); [|exists (pname SNamed k); exact A0]. unfold named_right in Hn. rewrite Es in Hn. exact Hn. }
      rewrite L. cbn [option_map]. rewrite (IH' nxt) by discriminate. reflexivity.
    + assert (L : lookup ("p" ++ dec k) all = Some p).
      { apply (lookup_right all 0 k p); [|exists (pname SPyformat k); exact A0]. unfold named_right in Hn. rewrite Es in Hn. exact Hn. }
      rewrite L. cbn [option_map]. rewrite (IH' nxt) by discriminate. reflexivity.
Qed.

Theorem bound_render l : gq None l = true -> bound st (render 0 l) (pars 0 l) = Some l.
Proof using Type.
  intros H. unfold bound.
  assert (Z : zof None = ZN) by (unfold zof; destruct (is_fmt st); reflexivity).
  rewrite <- Z, (scan_render l 0 None H).
  rewrite (resolve_num l 0 (pars 0 l) (pars 0 l) []).
  - unfold seqs. destruct st; try reflexivity; destruct (pars 0 l); reflexivity.
  - intros i n p Hi. apply (pars_right _ _ _ _ _ Hi).
  - intros i _. reflexivity.
  - intros _. now rewrite app_nil_r.
Qed.
End Scan.

(* --- the printed trees --- *)
Section Trees.
Context {P : Type}.
Notation T := standard.
Notation tree := (tree P).

Fixpoint wf (t : tree) : Prop :=
  match t with
  | TrVal _ => True
  | TrCol t c => has """" t = false /\ has """" c = false
  | TrStr s => has "'" s = false
  | TrBin _ a b | TrPos a b => wf a /\ wf b
  | TrFun f a => (all_c is_word f = true /\ f <> "" /\ special f = false) /\ wf a
  | TrPart f a => (all_c is_word f = true /\ f <> "") /\ wf a
  | TrStrf f a => has "'" f = false /\ wf a
  end.

(* what may follow an expression *)
Definition delim (l : list (item P)) : bool :=
  match l with [] => true | Ch c :: _ => Ascii.eqb c " " || Ascii.eqb c ")" | Va _ :: _ => false end.

Definition good (l : list (item P)) : Prop := forall rest, delim rest = true -> gq None rest = true -> gq None (app l rest) = true.

Fixpoint quiet (s : string) : bool :=
  match s with
  | "" => true
  | String c s' => negb (is_quote c) && negb (Ascii.eqb c "?") && negb (Ascii.eqb c ":") && quiet s'
  end.
Lemma gq_quiet s : forall l, quiet s = true -> gq None (app (str (P := P) s) l) = gq None l.
Proof using Type.
  induction s as [|c s IH]; intros l H; cbn [str app quiet] in *; [reflexivity|].
  apply andb_prop in H as [H H4]. apply andb_prop in H as [H H3]. apply andb_prop in H as [H1 H2].
  cbn [gq]. apply negb_true_iff in H1. rewrite H1, H2, H3. cbn [andb]. now apply IH.
Qed.
Lemma gq_in q s : forall l, has q s = false -> gq (Some q) (app (str (P := P) s) l) = gq (Some q) l.
Proof using Type.
  induction s as [|c s IH]; intros l H; cbn [str app has] in *; [reflexivity|].
  apply orb_false_elim in H as [H1 H2]. cbn [gq]. rewrite Ascii.eqb_sym, H1. now apply IH.
Qed.
Lemma gq_quoted q s l : is_quote q = true -> has q s = false ->
  gq None (app (str (P := P) (String q "" ++ s ++ String q "")) l) = gq None l.
Proof using Type.
  intros Hq Hs. rewrite !str_app, <- !app_assoc. cbn [str app gq]. rewrite Hq.
  rewrite gq_in by exact Hs. cbn [gq]. rewrite Ascii.eqb_refl. reflexivity.
Qed.
Lemma word_quiet s : all_c is_word s = true -> quiet s = true.
Proof using Type.
  induction s as [|c s IH]; cbn [all_c quiet]; auto. intros H. apply andb_prop in H as [H1 H2].
  rewrite (IH H2), andb_true_r.
  destruct (is_quote c) eqn:E1.
  { unfold is_quote in E1. apply orb_prop in E1 as [E|E]; apply Ascii.eqb_eq in E; subst c; discriminate. }
  destruct (Ascii.eqb c "?") eqn:E2. { apply Ascii.eqb_eq in E2; subst c; discriminate. }
  destruct (Ascii.eqb c ":") eqn:E3. { apply Ascii.eqb_eq in E3; subst c; discriminate. }
  reflexivity.
Qed.
Lemma quiet_app a b : quiet (a ++ b) = quiet a && quiet b.
Proof using Type. induction a as [|c a IH]; cbn [String.append quiet]; [reflexivity|]. rewrite IH. now rewrite !andb_assoc. Qed.
Lemma delim_head l : delim l = true -> head_ok l = true.
Proof using Type.
  destruct l as [|[c|p] l]; cbn [delim head_ok]; intros H; auto.
  apply orb_prop in H as [H|H]; apply Ascii.eqb_eq in H; subst c; reflexivity.
Qed.

Lemma good_bin o x y : good x -> good y -> good (body (P := P) o x y).
Proof using Type.
  intros Hx Hy rest D G. unfold body. rewrite <- !app_assoc. apply Hx.
  - destruct o; reflexivity.
  - rewrite gq_quiet by (destruct o; reflexivity). now apply Hy.
Qed.
Lemma good_paren x : good x -> good (paren (P := P) x).
Proof using Type.
  intros Hx rest D G. unfold paren. rewrite <- !app_assoc.
  rewrite gq_quiet by reflexivity. apply Hx; [reflexivity|]. rewrite gq_quiet by reflexivity. exact G.
Qed.
Lemma good_pit t : wf t -> forall c, good (pit t c).
Proof using Type.
  induction t as [p|t c|s|o a IHa b IHb|f a IH|a IHa b IHb|f a IH|f a IH]; intros W ctx; cbn [pit wf] in *.
  - intros rest D G. cbn [app gq]. now rewrite (delim_head _ D), G.
  - destruct W as [W1 W2]. intros rest D G.
    replace ("""" ++ t ++ """.""" ++ c ++ """") with
      ((String """" "" ++ t ++ String """" "") ++ "." ++ (String """" "" ++ c ++ String """" "")).
    2:{ cbn [String.append]. rewrite !sapp_assoc. reflexivity. }
    rewrite !str_app with (a := String """" "" ++ t ++ String """" ""). rewrite <- app_assoc.
    rewrite gq_quoted by (auto; reflexivity).
    rewrite str_app with (a := "."). rewrite <- app_assoc. rewrite gq_quiet by reflexivity.
    rewrite gq_quoted by (auto; reflexivity). exact G.
  - intros rest D G. change ("'" ++ s ++ "'") with (String "'" "" ++ s ++ String "'" "").
    rewrite gq_quoted by (auto; reflexivity). exact G.
  - destruct W as [W1 W2].
    pose proof (good_bin o _ _ (IHa W1 (T o)) (IHb W2 (T o))) as B.
    unfold brk. destruct (Nat.ltb (T o) ctx); [now apply good_paren|exact B].
  - destruct W as [(W1 & W2 & W3) W]. intros rest D G. unfold fun1. rewrite <- !app_assoc.
    rewrite gq_quiet by (rewrite quiet_app, (word_quiet _ W1); reflexivity).
    apply IH; [exact W|reflexivity|]. rewrite gq_quiet by reflexivity. exact G.
  - destruct W as [W1 W2]. intros rest D G. rewrite <- !app_assoc. rewrite gq_quiet by reflexivity.
    apply IHa; [exact W1|reflexivity|]. rewrite gq_quiet by reflexivity.
    apply IHb; [exact W2|reflexivity|]. rewrite gq_quiet by reflexivity. exact G.
  - destruct W as [(W1 & W2) W]. intros rest D G. unfold fun1. rewrite <- !app_assoc.
    rewrite gq_quiet by (rewrite !quiet_app, (word_quiet _ W1); reflexivity).
    apply IH; [exact W|reflexivity|]. rewrite gq_quiet by reflexivity. exact G.
  - destruct W as [W1 W]. intros rest D G. unfold fun1. rewrite <- !app_assoc.
    replace ("CAST(strftime('" ++ f ++ "',") with ("CAST(strftime(" ++ (String "'" "" ++ f ++ String "'" "") ++ ",").
    2:{ cbn [String.append]. rewrite !sapp_assoc. reflexivity. }
    rewrite str_app. rewrite <- app_assoc. rewrite gq_quiet by reflexivity.
    rewrite str_app with (b := ","). rewrite <- app_assoc. rewrite gq_quoted by (auto; reflexivity).
    rewrite gq_quiet by reflexivity.
    apply IH; [exact W|reflexivity|]. rewrite gq_quiet by reflexivity. exact G.
Qed.

(* --- tokens --- *)
Definition tbrk (b : bool) (x : list (tok P)) : list (tok P) := if b then TSym "(" :: app x [TSym ")"] else x.
Fixpoint ptoks (t : tree) (c : nat) : list (tok P) :=
  match t with
  | TrVal p => [TVal p]
  | TrCol t c => [TId t; TSym "."; TId c]
  | TrStr s => [TStr s]
  | TrBin o a b => tbrk (Nat.ltb (T o) c) (app (ptoks a (T o)) (gtok o :: ptoks b (T o)))
  | TrFun f a => TWord f :: TSym "(" :: app (ptoks a 0) [TSym ")"]
  | TrPos a b => TWord "POSITION" :: TSym "(" :: app (ptoks a 0) (TWord "IN" :: app (ptoks b 0) [TSym ")"])
  | TrPart f a => TWord "EXTRACT" :: TSym "(" :: TWord f :: TWord "FROM" :: app (ptoks a 0) [TSym ")"]
  | TrStrf f a => TWord "CAST" :: TSym "(" :: TWord "strftime" :: TSym "(" :: TStr f :: TSym "," ::
                  app (ptoks a 0) [TSym ")"; TWord "AS"; TWord "INTEGER"; TSym ")"]
  end.

Definition appO (l : list (tok P)) (o : option (list (tok P))) : option (list (tok P)) := option_map (app l) o.
Lemma appO_cons t l o : consO t (appO l o) = appO (t :: l) o.
Proof using Type. destruct o; reflexivity. Qed.
Lemma appO_app a b o : appO a (appO b o) = appO (app a b) o.
Proof using Type. destruct o; cbn; [now rewrite app_assoc|reflexivity]. Qed.
Lemma appO_nil o : appO [] o = o.
Proof using Type. destruct o; reflexivity. Qed.
Lemma consO_appO t o : consO t o = appO [t] o.
Proof using Type. destruct o; reflexivity. Qed.

Definition lexes (l : list (item P)) (ts : list (tok P)) : Prop :=
  forall rest, delim rest = true -> lex LN (app l rest) = appO ts (lex LN rest).

Lemma lex_word_in s : forall acc l, all_c is_word s = true ->
  lex (LW acc) (app (str (P := P) s) l) = lex (LW (acc ++ s)) l.
Proof using Type.
  induction s as [|c s IH]; intros acc l H; cbn [str app].
  - now rewrite sapp_nil.
  - cbn [all_c] in H. apply andb_prop in H as [H1 H2]. cbn [lex]. rewrite H1, IH by exact H2. now rewrite snoc_app.
Qed.
Lemma word_plain c : is_word c = true ->
  Ascii.eqb c " " = false /\ Ascii.eqb c """" = false /\ Ascii.eqb c "'" = false.
Proof using Type.
  intros H. repeat split; apply Ascii.eqb_neq; intros ->; discriminate H.
Qed.
Lemma lex_word f c l : all_c is_word f = true -> f <> "" -> is_word c = false ->
  lex LN (app (str (P := P) f) (Ch c :: l)) = consO (TWord f) (lex LN (Ch c :: l)).
Proof using Type.
  intros H N W. destruct f as [|d f]; [now elim N|]. cbn [str app].
  cbn [all_c] in H. apply andb_prop in H as [H1 H2].
  assert (E : lex LN (Ch d :: app (str f) (Ch c :: l)) = lex (LW (String d "")) (app (str f) (Ch c :: l))).
  { cbn [lex]. destruct (word_plain d H1) as (E1 & E2 & E3). rewrite E1, E2, E3, H1. reflexivity. }
  rewrite E, lex_word_in by exact H2. cbn [String.append]. 
  change (lex LN (Ch c :: l)) with (
      if Ascii.eqb c " " then lex LN l
        else if Ascii.eqb c """" then lex (LI "") l
        else if Ascii.eqb c "'" then lex (LS "") l
        else if is_word c then lex (LW (String c "")) l
        else if sym1 c then consO (TSym (String c "")) (lex LN l)
        else if sym2 c then lex (LO c) l
        else None).
  cbn [lex]. rewrite W. reflexivity.
Qed.
Lemma lex_id_in s : forall acc l, has """" s = false ->
  lex (LI acc) (app (str (P := P) s) l) = lex (LI (acc ++ s)) l.
Proof using Type.
  induction s as [|c s IH]; intros acc l H; cbn [str app].
  - now rewrite sapp_nil.
  - cbn [has] in H. apply orb_false_elim in H as [H1 H2]. cbn [lex]. rewrite Ascii.eqb_sym, H1, IH by exact H2.
    now rewrite snoc_app.
Qed.
Lemma lex_str_in s : forall acc l, has "'" s = false ->
  lex (LS acc) (app (str (P := P) s) l) = lex (LS (acc ++ s)) l.
Proof using Type.
  induction s as [|c s IH]; intros acc l H; cbn [str app].
  - now rewrite sapp_nil.
  - cbn [has] in H. apply orb_false_elim in H as [H1 H2]. cbn [lex]. rewrite Ascii.eqb_sym, H1, IH by exact H2.
    now rewrite snoc_app.
Qed.
Definition nohead (q : ascii) (l : list (item P)) : bool :=
  match l with Ch c :: _ => negb (Ascii.eqb c q) | _ => true end.
Lemma lex_id s l : has """" s = false -> nohead """" l = true ->
  lex LN (app (str (P := P) (String """" "" ++ s ++ String """" "")) l) = consO (TId s) (lex LN l).
Proof using Type.
  intros H N. rewrite !str_app, <- !app_assoc. cbn [str app]. cbn [lex].
  change (Ascii.eqb """" " ") with false. change (Ascii.eqb """" """") with true. cbv iota.
  rewrite lex_id_in by exact H. cbn [String.append lex]. change (Ascii.eqb """" """") with true. cbv iota.
  destruct l as [|[c|p] l]; [reflexivity| |reflexivity].
  cbn [nohead] in N. apply negb_true_iff in N. cbn [lex]. rewrite N. reflexivity.
Qed.
Lemma lex_quoted s l : has "'" s = false -> nohead "'" l = true ->
  lex LN (app (str (P := P) (String "'" "" ++ s ++ String "'" "")) l) = consO (TStr s) (lex LN l).
Proof using Type.
  intros H N. rewrite !str_app, <- !app_assoc. cbn [str app]. cbn [lex].
  change (Ascii.eqb "'" " ") with false. change (Ascii.eqb "'" """") with false. change (Ascii.eqb "'" "'") with true. cbv iota.
  rewrite lex_str_in by exact H. cbn [String.append lex]. change (Ascii.eqb "'" "'") with true. cbv iota.
  destruct l as [|[c|p] l]; [reflexivity| |reflexivity].
  cbn [nohead] in N. apply negb_true_iff in N. cbn [lex]. rewrite N. reflexivity.
Qed.
Lemma delim_nohead l q : delim l = true -> Ascii.eqb " " q = false -> Ascii.eqb ")" q = false -> nohead q l = true.
Proof using Type.
  destruct l as [|[c|p] l]; cbn [delim nohead]; intros H E1 E2; auto.
  apply orb_prop in H as [H|H]; apply Ascii.eqb_eq in H; subst c; [rewrite E1|rewrite E2]; reflexivity.
Qed.
Lemma lex_space l : lex LN (Ch " " :: l : list (item P)) = lex LN l.
Proof using Type. reflexivity. Qed.
Lemma lex_rpar l : lex LN (app (str (P := P) ")") l) = consO (TSym ")") (lex LN l).
Proof using Type. reflexivity. Qed.
Lemma lex_lpar l : lex LN (app (str (P := P) "(") l) = consO (TSym "(") (lex LN l).
Proof using Type. reflexivity. Qed.
Lemma lex_cast l : lex LN (app (str (P := P) "CAST(strftime(") l) =
  consO (TWord "CAST") (consO (TSym "(") (consO (TWord "strftime") (consO (TSym "(") (lex LN l)))).
Proof using Type. reflexivity. Qed.
Lemma lex_comma l : lex LN (app (str (P := P) ",") l) = consO (TSym ",") (lex LN l).
Proof using Type. reflexivity. Qed.
Lemma lex_end l : lex LN (app (str (P := P) ") AS INTEGER)") l) =
  consO (TSym ")") (consO (TWord "AS") (consO (TWord "INTEGER") (consO (TSym ")") (lex LN l)))).
Proof using Type. reflexivity. Qed.
(* an operator between its spaces *)
Lemma lex_op o l : lex LN (app (str (P := P) (" " ++ gtext o ++ " ")) l) = consO (gtok o) (lex LN l).
Proof using Type. destruct o; reflexivity. Qed.

Lemma lexes_bin o x y tx ty : lexes x tx -> lexes y ty -> lexes (body (P := P) o x y) (app tx (gtok o :: ty)).
Proof using Type.
  intros Hx Hy rest D. unfold body. rewrite <- !app_assoc. rewrite Hx by (destruct o; reflexivity).
  rewrite lex_op, Hy by exact D. rewrite appO_cons, appO_app. reflexivity.
Qed.
Lemma lexes_paren x tx : lexes x tx -> lexes (paren (P := P) x) (TSym "(" :: app tx [TSym ")"]).
Proof using Type.
  intros Hx rest D. unfold paren. rewrite <- !app_assoc. rewrite lex_lpar, Hx by reflexivity.
  rewrite lex_rpar, consO_appO with (t := TSym ")"), appO_app, appO_cons. reflexivity.
Qed.

Lemma lexes_pit t : wf t -> forall c, lexes (pit t c) (ptoks t c).
Proof using Type.
  induction t as [p|t c|s|o a IHa b IHb|f a IH|a IHa b IHb|f a IH|f a IH]; intros W ctx; cbn [pit ptoks wf] in *.
  - intros rest D. cbn [app lex]. now rewrite consO_appO.
  - destruct W as [W1 W2]. intros rest D.
    replace ("""" ++ t ++ """.""" ++ c ++ """") with
      ((String """" "" ++ t ++ String """" "") ++ "." ++ (String """" "" ++ c ++ String """" "")).
    2:{ cbn [String.append]. rewrite !sapp_assoc. reflexivity. }
    rewrite !str_app with (a := String """" "" ++ t ++ String """" ""). rewrite <- app_assoc.
    rewrite lex_id by (auto; reflexivity).
    rewrite str_app with (a := "."). rewrite <- app_assoc.
    change (lex LN (app (str ".") (app (str (String """" "" ++ c ++ String """" "")) rest)))
      with (consO (TSym ".") (lex LN (app (str (P := P) (String """" "" ++ c ++ String """" "")) rest))).
    rewrite lex_id by (auto; now apply delim_nohead). destruct (lex LN rest); reflexivity.
  - intros rest D. change ("'" ++ s ++ "'") with (String "'" "" ++ s ++ String "'" "").
    rewrite lex_quoted by (auto; now apply delim_nohead). now rewrite consO_appO.
  - destruct W as [W1 W2].
    pose proof (lexes_bin o _ _ _ _ (IHa W1 (T o)) (IHb W2 (T o))) as B.
    unfold brk, tbrk. destruct (Nat.ltb (T o) ctx); [now apply lexes_paren|exact B].
  - destruct W as [(W1 & W2 & W3) W]. intros rest D. unfold fun1. rewrite str_app, <- !app_assoc. cbn [app].
    change (app (str "(") (app (pit a 0) (app (str ")") rest))) with (Ch "(" :: app (pit a 0) (app (str ")") rest)).
    rewrite lex_word by (auto; reflexivity).
    change (lex LN (Ch "(" :: app (pit a 0) (app (str ")") rest)))
      with (consO (TSym "(") (lex LN (app (pit a 0) (app (str ")") rest)))).
    rewrite IH by (auto; reflexivity). rewrite lex_rpar, consO_appO with (t := TSym ")"), appO_app, !appO_cons. reflexivity.
  - destruct W as [W1 W2]. intros rest D. rewrite <- !app_assoc.
    change (lex LN (app (str "POSITION(") (app (pit a 0) (app (str " IN ") (app (pit b 0) (app (str ")") rest))))))
      with (consO (TWord "POSITION") (consO (TSym "(") (lex LN (app (pit a 0) (app (str " IN ") (app (pit b 0) (app (str ")") rest))))))).
    rewrite IHa by (auto; reflexivity).
    change (lex LN (app (str " IN ") (app (pit b 0) (app (str ")") rest))))
      with (consO (TWord "IN") (lex LN (app (pit b 0) (app (str ")") rest)))).
    rewrite IHb by (auto; reflexivity). rewrite lex_rpar.
    destruct (lex LN rest) as [r|]; cbn [consO appO option_map]; [|reflexivity].
    cbn [app]. rewrite <- !app_assoc. cbn [app]. rewrite <- !app_assoc. reflexivity.
  - destruct W as [(W1 & W2) W]. intros rest D. unfold fun1. rewrite !str_app, <- !app_assoc.
    change (lex LN (app (str "EXTRACT(") (app (str f) (app (str " FROM ") (app (pit a 0) (app (str ")") rest))))))
      with (consO (TWord "EXTRACT") (consO (TSym "(") (lex LN (app (str f) (Ch " " :: app (str "FROM ") (app (pit a 0) (app (str ")") rest))))))).
    rewrite lex_word by (auto; reflexivity).
    change (lex LN (Ch " " :: app (str "FROM ") (app (pit a 0) (app (str ")") rest))))
      with (consO (TWord "FROM") (lex LN (app (pit a 0) (app (str ")") rest)))).
    rewrite IH by (auto; reflexivity). rewrite lex_rpar, consO_appO with (t := TSym ")"), appO_app, !appO_cons. reflexivity.
  - destruct W as [W1 W]. intros rest D. unfold fun1. rewrite <- !app_assoc.
    replace ("CAST(strftime('" ++ f ++ "',") with ("CAST(strftime(" ++ (String "'" "" ++ f ++ String "'" "") ++ ",").
    2:{ cbn [String.append]. rewrite !sapp_assoc. reflexivity. }
    rewrite str_app with (a := "CAST(strftime("). rewrite <- app_assoc.
    rewrite lex_cast. rewrite str_app with (b := ","), <- app_assoc.
    rewrite lex_quoted by (auto; reflexivity). rewrite lex_comma.
    rewrite IH by (auto; reflexivity). rewrite lex_end.
    destruct (lex LN rest) as [r|]; cbn [consO appO option_map]; [|reflexivity].
    cbn [app]. rewrite <- app_assoc. reflexivity.
Qed.
End Trees.
