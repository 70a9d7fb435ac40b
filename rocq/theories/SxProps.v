(* C99, C100: SQL expressions *)
From Coq Require Import List Bool Arith ZArith String Ascii Lia.
From Verif Require Import SxModel SxSpec SxPrint SxScan SxRead.
Import ListNotations.
Local Open Scope string_scope.

(* the two dialects *)
Definition known (D : dialect) : Prop := D = standard \/ D = sqlite_levels.
(* SQLite's driver uses question marks (sqlite3.paramstyle): its functions'
   formats are not escaped *)
Definition driver_ok (st : style) (sqlite : bool) : Prop := sqlite = true -> st <> SFormat /\ st <> SPyformat.

Lemma known_finer D : known D -> forall o o', standard o < standard o' -> D o < D o'.
Proof. intros [-> | ->] o o' H; [exact H|]. destruct o, o'; cbn in *; lia. Qed.
Lemma driver_fmt st sq : driver_ok st sq -> sq = true -> is_fmt st = false.
Proof. intros H E. destruct (H E) as [H1 H2]. destruct st; try reflexivity; congruence. Qed.

Section Props.
Context {V P : Type}.
Variable st : style.
Variable sqlite : bool.
Variable prep : V -> option P.
Variable field : list string -> sx_res (string * string).
Hypothesis Hnames : names_ok st field.
Hypothesis Hdrv : driver_ok st sqlite.
Notation text_of := (filter_text st sqlite prep field).
Notation intended := (sql_of sqlite prep field).

Lemma call_wf m (args : list (option (tree P))) t :
  Forall (fun o => match o with Some a => wf a | None => True end) args ->
  call_of sqlite m args = Some t -> wf t.
Proof using Type.
  clear st prep field Hnames Hdrv.
  intros H. destruct args as [|[a|] [|[b|] args]]; destruct m; cbn [call_of]; try discriminate;
    intros E; injection E as <-;
    repeat match goal with K : Forall _ (_ :: _) |- _ => inversion K; clear K; subst end;
    unfold part; destruct sqlite; cbn [wf]; auto;
    repeat (split; auto); discriminate.
Qed.
Lemma col_wf p t : col_of field p = Some t -> wf (P := P) t.
Proof using Hnames.
  clear Hdrv sqlite prep.
  unfold col_of. destruct p as [p|]; [|discriminate]. destruct (field p) as [[a b]|] eqn:E; [|discriminate].
  intros K. injection K as <-. destruct (Hnames _ _ _ E) as (H1 & H2 & _). cbn. auto.
Qed.
Lemma sql_wf e : forall t, intended e = Some t -> wf t.
Proof using Hnames.
  clear Hdrv.
  induction e as [v|n|a IH|o a b IHa IHb|m args IH] using ex_rect'; intros t; cbn [sql_of].
  - destruct (prep v); [|discriminate]. intros E. injection E as <-. exact Logic.I.
  - apply col_wf.
  - discriminate.
  - destruct o; cbn [bin_of]; try discriminate; try apply col_wf;
      destruct (sql_of sqlite prep field a) as [x|]; try discriminate;
      destruct (sql_of sqlite prep field b) as [y|]; try discriminate;
      intros E; injection E as <-; cbn [wf]; auto.
  - apply call_wf. induction IH as [|a args Ha _ IHl]; cbn [map]; constructor; [|exact IHl].
    destruct (sql_of sqlite prep field a) as [x|] eqn:E; auto.
Qed.

Lemma filter_printed e t : intended e = Some t ->
  text_of e = SOk (render st 0 (paren (pit t (prec OAnd))), pars st 0 (paren (pit t (prec OAnd)))).
Proof using Hnames Hdrv.
  intros E. pose proof (sql_expression_prints st sqlite prep field Hnames (driver_fmt _ _ Hdrv) e) as A.
  rewrite E in A. unfold filter_text. rewrite A. cbn [List.length app].
  unfold paren. rewrite !render_app, !pars_app, !nv_str, !pars_str. cbn [plus app]. rewrite app_nil_r.
  rewrite !render_str by (apply plain_lit; reflexivity). reflexivity.
Qed.
Lemma filter_means D e t : known D -> intended e = Some t -> unmixed D t ->
  exists text ps, text_of e = SOk (text, ps) /\ means D st text ps (rg None t).
Proof using Hnames Hdrv.
  intros K E U. rewrite (filter_printed e t E). eexists. eexists. split; [reflexivity|].
  pose proof (sql_wf e t E) as W.
  exists (paren (pit t (prec OAnd))), (TSym "(" :: app (ptoks t (prec OAnd)) [TSym ")"]).
  split; [|split].
  - apply bound_render. rewrite <- (app_nil_r (paren _)). apply good_paren; [|reflexivity|reflexivity].
    apply good_pit, W.
  - rewrite <- (app_nil_r (paren _)). rewrite (lexes_paren _ _ (lexes_pit t W (prec OAnd)) []) by reflexivity.
    cbn. rewrite app_nil_r. reflexivity.
  - assert (R : reads D 0 (TSym "(" :: app (ptoks t (prec OAnd)) [TSym ")"]) (rg None t)).
    { constructor. apply (proj1 (reads_printed D (known_finer D K) t W U)).
      unfold lev. destruct t; auto. right. lia. }
    intros t'. split; [|intros ->; exact R]. intros R'. exact (reads_unique D _ _ _ R' R).
Qed.

(* C99: where no right operand has an operator of the level of its parent,
   the filter's text can be read in one way only, as the intended tree with
   the literals' values in their places *)
Theorem filter_read_as_meant_partial D e t : known D ->
  intended e = Some t -> unmixed D t -> leftish t ->
  exists text ps, text_of e = SOk (text, ps) /\ means D st text ps t.
Proof using Hnames Hdrv.
  intros K E U L. destruct (filter_means D e t K E U) as (text & ps & H1 & H2).
  rewrite (proj1 (rg_leftish t L)) in H2. eauto.
Qed.

(* C99: in any case it has exactly one reading, which has the same operands
   in the same order, the operators of a level applied from the left *)
Theorem filter_one_reading D e t : known D ->
  intended e = Some t -> unmixed D t ->
  exists text ps t', text_of e = SOk (text, ps) /\ means D st text ps t' /\
    rotated (fun o o' => standard o = standard o') t' t.
Proof using Hnames Hdrv.
  intros K E U. destruct (filter_means D e t K E U) as (text & ps & H1 & H2).
  exists text, ps, (rg None t). split; [exact H1|split; [exact H2|]].
  refine (proj1 (rg_rotated _ t _)). unfold okS.
  assert (S : forall o b, follows (P := P) (fun o o' => standard o = standard o') o b).
  { intros o b. induction b as [| | |o' x IH y _| | | |]; cbn [follows]; try exact Logic.I. intros Q. split; [symmetry; exact Q|exact IH]. }
  clear -S. induction t; cbn [every]; auto.
Qed.

(* C99: where the right operands are regular, that reading has the value of
   the intended tree, however SQL's operators and functions are interpreted,
   if AND, OR, +, * and || are associative *)
Theorem filter_same_value_partial D e t : known D ->
  intended e = Some t -> unmixed D t -> regular t ->
  exists text ps t', text_of e = SOk (text, ps) /\ means D st text ps t' /\
    forall I : interp (P := P), associative I -> value I t' = value I t.
Proof using Hnames Hdrv.
  intros K E U R. destruct (filter_means D e t K E U) as (text & ps & H1 & H2).
  exists text, ps, (rg None t). split; [exact H1|split; [exact H2|]].
  intros I A. pose proof (proj1 (rg_rotated (P := P) (fun x y => harmless x y = true) t R)) as Q.
  clear - A Q. induction Q; cbn [value]; try congruence.
  exact (A o o' _ _ _ H).
Qed.

(* C99: no text is made of anything else *)
Theorem filter_unsupported e : intended e = None -> exists x, text_of e = SErr x.
Proof using Hnames Hdrv.
  intros E. pose proof (sql_expression_prints st sqlite prep field Hnames (driver_fmt _ _ Hdrv) e) as A.
  rewrite E in A. destruct (A OAnd []) as [x Hx]. exists x. unfold filter_text. now rewrite Hx.
Qed.

Theorem standard_unmixed (t : tree P) : unmixed standard t.
Proof using Type.
  clear. unfold unmixed. induction t; cbn [every]; auto. split; auto. unfold same_in.
  split; [destruct (top t1)|destruct (top t2)]; auto.
Qed.
End Props.

(* --- C100 --- *)
Section Shape.
(* an expression without its literals' values *)
Fixpoint shape {V} (e : ex V) : ex unit :=
  match e with
  | ELit _ => ELit tt
  | EProp n => EProp n
  | EUn a => EUn (shape a)
  | EBin o a b => EBin o (shape a) (shape b)
  | ECall m args => ECall m (map shape args)
  end.
Fixpoint tshape {P} (t : tree P) : tree unit :=
  match t with
  | TrVal _ => TrVal tt
  | TrCol t c => TrCol t c
  | TrStr s => TrStr s
  | TrBin o a b => TrBin o (tshape a) (tshape b)
  | TrFun f a => TrFun f (tshape a)
  | TrPos a b => TrPos (tshape a) (tshape b)
  | TrPart f a => TrPart f (tshape a)
  | TrStrf f a => TrStrf f (tshape a)
  end.
Definition ishape {P} (l : list (item P)) : list (item unit) :=
  map (fun i => match i with Ch c => Ch c | Va _ => Va tt end) l.

Context {V P : Type}.
Variable st : style.
Variable sqlite : bool.
Variable prep : V -> option P.
Variable field : list string -> sx_res (string * string).

Lemma shape_path (e : ex V) : path_of (shape e) = path_of e.
Proof using Type.
  induction e as [v|n|a IH|o a IHa b IHb|m args]; cbn [shape path_of]; auto.
  destruct o; auto. rewrite IHa, IHb. reflexivity.
Qed.
Lemma shape_sql e : forall t, sql_of sqlite prep field e = Some t ->
  sql_of sqlite (fun _ : unit => Some tt) field (shape e) = Some (tshape t).
Proof using Type.
  induction e as [v|n|a IH|o a b IHa IHb|m args IH] using ex_rect'; intros t; cbn [sql_of shape].
  - destruct (prep v); [|discriminate]. intros E. injection E as <-. reflexivity.
  - unfold col_of. destruct (field [n]) as [[x y]|]; [|discriminate]. intros E. injection E as <-. reflexivity.
  - discriminate.
  - assert (Q : forall g, match sql_of sqlite prep field a, sql_of sqlite prep field b with
                | Some x, Some y => Some (TrBin g x y) | _, _ => None end = Some t ->
              match sql_of sqlite (fun _ : unit => Some tt) field (shape a), sql_of sqlite (fun _ : unit => Some tt) field (shape b) with
                | Some x, Some y => Some (TrBin g x y) | _, _ => None end = Some (tshape t)).
    { intros g. destruct (sql_of sqlite prep field a) as [x|]; [|discriminate].
      destruct (sql_of sqlite prep field b) as [y|]; [|discriminate].
      intros E. injection E as <-. rewrite (IHa _ eq_refl), (IHb _ eq_refl). reflexivity. }
    destruct o; cbn [bin_of]; try discriminate; try (apply Q).
    change (EBin BMember (shape a) (shape b)) with (shape (EBin BMember a b)). rewrite shape_path. unfold col_of.
    destruct (path_of (EBin BMember a b)) as [p|]; [|discriminate].
    destruct (field p) as [[x y]|]; [|discriminate]. intros E. injection E as <-. reflexivity.
  - assert (A : Forall2 (fun o o' => forall t, o = Some t -> o' = Some (tshape t))
                  (map (sql_of sqlite prep field) args)
                  (map (sql_of sqlite (fun _ : unit => Some tt) field) (map shape args))).
    { induction IH as [|a args Ha _ IHl]; cbn [map]; constructor; auto. }
    clear IH. destruct A as [|o1 o1' l l' H1 A]; [destruct m; discriminate|].
    destruct A as [|o2 o2' l l' H2 A];
      (destruct o1 as [x|]; [rewrite (H1 _ eq_refl)|destruct m; discriminate]).
    + unfold part; destruct m; cbn [call_of]; try discriminate; intros E; injection E as <-;
        destruct sqlite; reflexivity.
    + destruct m; cbn [call_of]; try discriminate;
        try (intros E; injection E as <-; unfold part; destruct sqlite; reflexivity);
        destruct o2 as [y|]; try discriminate; rewrite (H2 _ eq_refl);
        intros E; injection E as <-; reflexivity.
Qed.
Lemma ishape_str s : ishape (str (P := P) s) = str s.
Proof using Type. induction s as [|c s IH]; [reflexivity|]. cbn [str ishape map]. f_equal. exact IH. Qed.
Lemma ishape_app (a b : list (item P)) : ishape (app a b) = app (ishape a) (ishape b).
Proof using Type. apply map_app. Qed.
Lemma ishape_pit (t : tree P) : forall c, ishape (pit t c) = pit (tshape t) c.
Proof using Type.
  induction t as [p|t c|s|o a IHa b IHb|f a IH|a IHa b IHb|f a IH|f a IH]; intros ctx; cbn [pit tshape];
    unfold fun1, body; rewrite ?ishape_app, ?ishape_str, ?IH, ?IHa, ?IHb; try reflexivity.
  unfold brk, paren. destruct (Nat.ltb (standard o) ctx);
    unfold body; rewrite ?ishape_app, ?ishape_str, ?IHa, ?IHb; reflexivity.
Qed.
Lemma render_shape (l : list (item P)) : forall k, render st k (ishape l) = render st k l.
Proof using Type.
  induction l as [|[c|p] l IH]; intros k; cbn [ishape map render]; [reflexivity| |].
  - change (map _ l) with (ishape l). rewrite IH. reflexivity.
  - change (map _ l) with (ishape l). rewrite IH. reflexivity.
Qed.
Lemma pars_shape (l : list (item P)) : forall k, map fst (pars st k (ishape l)) = map fst (pars st k l).
Proof using Type.
  induction l as [|[c|p] l IH]; intros k; cbn [ishape map pars]; [reflexivity| |];
  change (map (fun i => match i with Ch c => Ch c | Va _ => Va tt end) l) with (ishape l).
  - apply IH.
  - cbn [map fst]. now rewrite IH.
Qed.
End Shape.

Section Params.
Context {V P : Type}.
Variable field : list string -> sx_res (string * string).

(* C100: the text of the statement, and the names of the parameters, depend
   on the expression's shape and not on the values of its literals: there is
   nothing a value could inject *)
Theorem text_without_values st sqlite (prep : V -> option P) e text ps :
  names_ok st field -> driver_ok st sqlite ->
  filter_text st sqlite prep field e = SOk (text, ps) ->
  exists ps', filter_text st sqlite (fun _ : unit => Some tt) field (shape e) = SOk (text, ps') /\
    map fst ps' = map fst ps.
Proof using Type.
  intros N Dr H.
  destruct (sql_of sqlite prep field e) as [t|] eqn:E.
  - rewrite (filter_printed st sqlite prep field N Dr e t E) in H. injection H as <- <-.
    rewrite (filter_printed st sqlite (fun _ : unit => Some tt) field N Dr _ _ (shape_sql sqlite prep field e t E)).
    assert (X : paren (pit (tshape t) (prec OAnd)) = ishape (paren (pit t (prec OAnd)))).
    { unfold paren. rewrite !ishape_app, !ishape_str, ishape_pit. reflexivity. }
    rewrite X, render_shape. eexists. split; [reflexivity|]. exact (pars_shape st (paren (pit t (prec OAnd))) 0).
  - destruct (filter_unsupported st sqlite prep field N Dr e E) as [x Hx]. congruence.
Qed.

(* C100: with the values put in by a driver of the style, the statement is
   the same whatever the style *)
Theorem styles_agree st st' sqlite (prep : V -> option P) e text ps :
  names_ok st field -> names_ok st' field -> driver_ok st sqlite -> driver_ok st' sqlite ->
  filter_text st sqlite prep field e = SOk (text, ps) ->
  exists text' ps' its, filter_text st' sqlite prep field e = SOk (text', ps') /\
    bound st text ps = Some its /\ bound st' text' ps' = Some its.
Proof using Type.
  intros N N' Dr Dr' H.
  destruct (sql_of sqlite prep field e) as [t|] eqn:E.
  - pose proof (sql_wf st sqlite prep field N e t E) as W.
    rewrite (filter_printed st sqlite prep field N Dr e t E) in H. injection H as <- <-.
    rewrite (filter_printed st' sqlite prep field N' Dr' e t E).
    assert (G : gq None (paren (pit t (prec OAnd))) = true).
    { rewrite <- (app_nil_r (paren _)). apply good_paren; [|reflexivity|reflexivity]. apply good_pit, W. }
    eexists. eexists. exists (paren (pit t (prec OAnd))). split; [reflexivity|].
    split; [exact (bound_render st _ G)|exact (bound_render st' _ G)].
  - destruct (filter_unsupported st sqlite prep field N Dr e E) as [x Hx]. congruence.
Qed.

(* the values of the literals used, in the order of the text *)
Fixpoint vals (l : list (item P)) : list P :=
  match l with [] => [] | Ch _ :: l' => vals l' | Va p :: l' => p :: vals l' end.
(* C100: the parameters are the values of the statement in the order they
   appear in it *)
Theorem params_in_order st sqlite (prep : V -> option P) e text ps :
  names_ok st field -> driver_ok st sqlite ->
  filter_text st sqlite prep field e = SOk (text, ps) ->
  exists its, bound st text ps = Some its /\ map snd ps = vals its.
Proof using Type.
  intros N Dr H.
  destruct (sql_of sqlite prep field e) as [t|] eqn:E.
  - pose proof (sql_wf st sqlite prep field N e t E) as W.
    rewrite (filter_printed st sqlite prep field N Dr e t E) in H. injection H as <- <-.
    exists (paren (pit t (prec OAnd))). split.
    + refine (bound_render st (paren (pit t (prec OAnd))) _). rewrite <- (app_nil_r (paren _)). apply good_paren; [|reflexivity|reflexivity]. apply good_pit, W.
    + change (map snd (pars st 0 (paren (pit t (prec OAnd)))) = vals (paren (pit t (prec OAnd)))).
      generalize (paren (pit t (prec OAnd))) as l. intros l. generalize 0 as k.
      induction l as [|[c|p] l IH]; intros k; cbn [pars map vals snd]; auto. now rewrite IH.
  - destruct (filter_unsupported st sqlite prep field N Dr e E) as [x Hx]. congruence.
Qed.
End Params.

(* --- examples --- *)
Definition fld2 (p : list string) : sx_res (string * string) :=
  match p with ["size"] => SOk ("Files", "size") | ["path"] => SOk ("Files", "path") | _ => SErr XEval end.
Lemma fld2_ok st : names_ok st fld2.
Proof.
  intros p t c H. unfold fld2 in H.
  repeat match type of H with context [match ?x with _ => _ end] => destruct x; try discriminate end;
    injection H as <- <-; repeat split; reflexivity.
Qed.
Definition some_z (z : Z) : option Z := Some z.
(* substringof(1, path) and size mul (2 add 3) gt 4 *)
Definition ex_filter : ex Z :=
  EBin BAnd (ECall MSubstringof [ELit 1%Z; EProp "path"])
    (EBin BGt (EBin BMul (EProp "size") (EBin BAdd (ELit 2%Z) (ELit 3%Z))) (ELit 4%Z)).
Example ex_text : filter_text SPyformat false some_z fld2 ex_filter =
  SOk ("(""Files"".""path"" LIKE '%%' || %(p0)s || '%%' AND ""Files"".""size"" * (%(p1)s + %(p2)s) > %(p3)s)",
       [("p0", 1%Z); ("p1", 2%Z); ("p2", 3%Z); ("p3", 4%Z)]).
Proof. vm_compute. reflexivity. Qed.
Example ex_meant : exists t, sql_of false some_z fld2 ex_filter = Some t /\ unmixed standard t /\
  unmixed sqlite_levels t /\ regular t.
Proof.
  eexists. split; [reflexivity|]. split; [apply standard_unmixed|].
  split; cbn; repeat split; intros; try discriminate; auto.
Qed.
(* startswith(path, 1) and size sub 2 sub 3 lt 4 *)
Definition ex_left : ex Z :=
  EBin BAnd (ECall MStartswith [EProp "path"; ELit 1%Z])
    (EBin BLt (EBin BSub (EBin BSub (EProp "size") (ELit 2%Z)) (ELit 3%Z)) (ELit 4%Z)).
Example ex_left_ok : exists t, sql_of true some_z fld2 ex_left = Some t /\ unmixed sqlite_levels t /\ leftish t.
Proof.
  eexists. split; [reflexivity|].
  split; cbn; repeat split; intros; try discriminate; auto.
Qed.

(* --- what fails --- *)
(* an interpretation in the integers, + - and * as usual *)
Definition zint : interp (P := Z) :=
  {| iW := Z; ival := fun z => z; icol := fun _ _ => 0%Z; istr := fun _ => 0%Z;
     iop := fun o => match o with GAdd => Z.add | GSub => Z.sub | GMul => Z.mul | GDiv => Z.div | _ => Z.add end;
     ifun := fun _ z => z; ipos := Z.add; ipart := fun _ z => z; istrf := fun _ z => z |}.
Lemma zint_assoc : associative zint.
Proof. intros o o' a b c H. destruct o, o'; try discriminate H; cbn; lia. Qed.

(* C99: 5 sub (3 sub 1) becomes 5 - 3 - 1, which is 1 and not 3 *)
Theorem brackets_refuted :
  exists (e : ex Z) t text ps t',
    sql_of false some_z fld2 e = Some t /\
    filter_text SQmark false some_z fld2 e = SOk (text, ps) /\
    means standard SQmark text ps t' /\
    associative zint /\ value zint t <> value zint t'.
Proof.
  set (e := EBin BSub (ELit 5%Z) (EBin BSub (ELit 3%Z) (ELit 1%Z))).
  destruct (filter_means SQmark false some_z fld2 (fld2_ok _) ltac:(intros X; discriminate X) standard e
             (TrBin GSub (TrVal 5%Z) (TrBin GSub (TrVal 3%Z) (TrVal 1%Z))) (or_introl eq_refl) eq_refl
             (standard_unmixed _)) as (text & ps & H1 & H2).
  exists e. eexists. exists text, ps. eexists. split; [reflexivity|]. split; [exact H1|]. split; [exact H2|].
  split; [apply zint_assoc|]. cbn. lia.
Qed.
(* the same with 8 div (4 mul 2) *)
Theorem brackets_mul_refuted :
  exists (e : ex Z) t text ps t',
    sql_of false some_z fld2 e = Some t /\
    filter_text SQmark false some_z fld2 e = SOk (text, ps) /\
    means standard SQmark text ps t' /\
    associative zint /\ value zint t <> value zint t'.
Proof.
  set (e := EBin BDiv (ELit 8%Z) (EBin BMul (ELit 4%Z) (ELit 2%Z))).
  destruct (filter_means SQmark false some_z fld2 (fld2_ok _) ltac:(intros X; discriminate X) standard e
             (TrBin GDiv (TrVal 8%Z) (TrBin GMul (TrVal 4%Z) (TrVal 2%Z))) (or_introl eq_refl) eq_refl
             (standard_unmixed _)) as (text & ps & H1 & H2).
  exists e. eexists. exists text, ps. eexists. split; [reflexivity|]. split; [exact H1|]. split; [exact H2|].
  split; [apply zint_assoc|]. cbn. intros X. vm_compute in X. discriminate X.
Qed.
(* C99: (1 eq 2) lt 3 becomes 1 = 2 < 3, which SQLite reads as 1 = (2 < 3) *)
Theorem mixed_refuted :
  exists (e : ex Z) t text ps t',
    sql_of true some_z fld2 e = Some t /\ leftish t /\
    filter_text SQmark true some_z fld2 e = SOk (text, ps) /\
    means sqlite_levels SQmark text ps t' /\ t <> t'.
Proof.
  set (e := EBin BLt (EBin BEq (ELit 1%Z) (ELit 2%Z)) (ELit 3%Z)).
  exists e. eexists. eexists. eexists. exists (TrBin GEq (TrVal 1%Z) (TrBin GLt (TrVal 2%Z) (TrVal 3%Z))).
  split; [reflexivity|]. split; [cbn; repeat split|]. split; [vm_compute; reflexivity|]. split; [|discriminate].
  eexists. eexists. split; [vm_compute; reflexivity|]. split; [vm_compute; reflexivity|].
  assert (R : reads (P := Z) sqlite_levels 0 (TSym "(" :: app (app [TVal 1%Z] (gtok GEq :: (app [TVal 2%Z] (gtok GLt :: [TVal 3%Z])))) [TSym ")"])
     (TrBin GEq (TrVal 1%Z) (TrBin GLt (TrVal 2%Z) (TrVal 3%Z)))).
  { constructor. constructor; [cbn; lia|constructor|]. constructor; [cbn; lia|constructor|constructor]. }
  cbn [app gtok] in R. intros t'. split; [|intros ->; exact R]. intros R'. exact (reads_unique _ _ _ _ R' R).
Qed.
(* C99: substring is documented to become SUBSTRING( .. FROM .. FOR .. ), and
   always fails *)
Theorem substring_refuted {V P} st sqlite (prep : V -> option P) field args :
  names_ok st field -> driver_ok st sqlite ->
  exists x, filter_text st sqlite prep field (ECall MSubstring args) = SErr x.
Proof. intros N Dr. now apply filter_unsupported. Qed.
Theorem substring_type_error_refuted :
  filter_text SQmark false some_z fld2 (ECall MSubstring [EProp "path"; ELit 1%Z]) = SErr XType.
Proof. reflexivity. Qed.
(* C100: a format of SQLite's functions is not escaped, so the driver of a
   format style would take it for a placeholder *)
Theorem strftime_unescaped_refuted :
  exists text ps, filter_text SFormat true some_z fld2 (ECall MYear [EProp "size"]) = SOk (text, ps) /\
    bound SFormat text ps = None.
Proof. eexists. eexists. split; [vm_compute; reflexivity|vm_compute; reflexivity]. Qed.

Print Assumptions filter_read_as_meant_partial.
Print Assumptions filter_one_reading.
Print Assumptions filter_same_value_partial.
Print Assumptions filter_unsupported.
Print Assumptions text_without_values.
Print Assumptions styles_agree.
Print Assumptions params_in_order.
Print Assumptions brackets_refuted.
