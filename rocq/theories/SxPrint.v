(* The formatter's text is the intended tree, printed, with placeholders *)
From Coq Require Import List Bool Arith String Ascii DecimalString Lia.
From Verif Require Import SxModel SxSpec.
Import ListNotations.
Local Open Scope string_scope.

Section Print.
Context {V P : Type}.
Notation T := standard.
Notation tree := (tree P).

Fixpoint str (s : string) : list (item P) :=
  match s with "" => [] | String c s' => Ch c :: str s' end.
Lemma str_app a b : str (a ++ b) = app (str a) (str b).
Proof using Type. induction a as [|c a IH]; cbn; [reflexivity|rewrite IH; reflexivity]. Qed.

Definition gtext (o : gop) : string :=
  match o with
  | GOr => "OR" | GAnd => "AND" | GEq => "=" | GNe => "<>" | GLt => "<" | GGt => ">" | GLe => "<=" | GGe => ">="
  | GLike => "LIKE" | GAdd => "+" | GSub => "-" | GMul => "*" | GDiv => "/" | GCat => "||"
  end.

Definition body (o : gop) (x y : list (item P)) : list (item P) :=
  app x (app (str (" " ++ gtext o ++ " ")) y).
Definition paren (x : list (item P)) : list (item P) := app (str "(") (app x (str ")")).
Definition brk (b : bool) (x : list (item P)) : list (item P) := if b then paren x else x.
Definition fun1 (pre post : string) (x : list (item P)) : list (item P) := app (str pre) (app x (str post)).

Fixpoint pit (t : tree) (c : nat) : list (item P) :=
  match t with
  | TrVal p => [Va p]
  | TrCol t c => str ("""" ++ t ++ """.""" ++ c ++ """")
  | TrStr s => str ("'" ++ s ++ "'")
  | TrBin o a b => brk (Nat.ltb (T o) c) (body o (pit a (T o)) (pit b (T o)))
  | TrFun f a => fun1 (f ++ "(") ")" (pit a 0)
  | TrPos a b => app (str "POSITION(") (app (pit a 0) (app (str " IN ") (app (pit b 0) (str ")"))))
  | TrPart f a => fun1 ("EXTRACT(" ++ f ++ " FROM ") ")" (pit a 0)
  | TrStrf f a => fun1 ("CAST(strftime('" ++ f ++ "',") ") AS INTEGER)" (pit a 0)
  end.

(* --- rendering --- *)
Section Style.
Variable st : style.
Definition is_fmt : bool := match st with SFormat | SPyformat => true | _ => false end.

Definition holder (k : nat) : string :=
  match st with
  | SQmark => "?" | SFormat => "%s" | SNumeric => ":" ++ dec (S k) | SNamed => ":" ++ "p" ++ dec k
  | SPyformat => "%(" ++ ("p" ++ dec k) ++ ")s"
  end.
Definition pname (k : nat) : string :=
  match st with SNamed | SPyformat => "p" ++ dec k | _ => "" end.
Fixpoint render (k : nat) (l : list (item P)) : string :=
  match l with
  | [] => ""
  | Ch c :: l' => if is_fmt && Ascii.eqb c "%" then String c (String c (render k l')) else String c (render k l')
  | Va _ :: l' => holder k ++ render (S k) l'
  end.
Fixpoint pars (k : nat) (l : list (item P)) : list (string * P) :=
  match l with
  | [] => []
  | Ch _ :: l' => pars k l'
  | Va p :: l' => (pname k, p) :: pars (S k) l'
  end.
Fixpoint nv (l : list (item P)) : nat :=
  match l with [] => 0 | Ch _ :: l' => nv l' | Va _ :: l' => S (nv l') end.

Lemma sapp_assoc (a b c : string) : (a ++ b) ++ c = a ++ (b ++ c).
Proof using Type. induction a as [|x a IH]; cbn; [reflexivity|rewrite IH; reflexivity]. Qed.
Lemma sapp_nil (a : string) : a ++ "" = a.
Proof using Type. induction a as [|x a IH]; cbn; [reflexivity|rewrite IH; reflexivity]. Qed.

Lemma render_app a b : forall k, render k (app a b) = render k a ++ render (k + nv a) b.
Proof using Type.
  induction a as [|[c|p] a IH]; intros k; cbn [render app nv].
  - now rewrite Nat.add_0_r.
  - rewrite IH. destruct (is_fmt && Ascii.eqb c "%"); reflexivity.
  - rewrite IH, sapp_assoc. now rewrite <- plus_n_Sm.
Qed.
Lemma pars_app a b : forall k, pars k (app a b) = app (pars k a) (pars (k + nv a) b).
Proof using Type.
  induction a as [|[c|p] a IH]; intros k; cbn [pars app nv].
  - now rewrite Nat.add_0_r.
  - apply IH.
  - rewrite IH. now rewrite <- plus_n_Sm.
Qed.
Lemma pars_len l : forall k, List.length (pars k l) = nv l.
Proof using Type. induction l as [|[c|p] l IH]; intros k; cbn [pars nv List.length]; rewrite ?IH; reflexivity. Qed.
Lemma nv_app a b : nv (app a b) = nv a + nv b.
Proof using Type. induction a as [|[c|p] a IH]; cbn [nv app plus]; rewrite ?IH; reflexivity. Qed.
Lemma nv_str s : nv (str s) = 0.
Proof using Type. induction s as [|c s IH]; cbn [nv str]; auto. Qed.
Lemma pars_str s k : pars k (str s) = [].
Proof using Type. induction s as [|c s IH]; cbn [pars str]; auto. Qed.

(* text that is rendered as it is *)
Definition plain (s : string) : Prop := is_fmt = true -> has "%" s = false.
Lemma render_str s k : plain s -> render k (str s) = s.
Proof using Type.
  unfold plain. induction s as [|c s IH]; intros H; cbn [render str]; [reflexivity|].
  destruct is_fmt; cbn [andb].
  - specialize (H eq_refl). cbn [has] in H. apply orb_false_elim in H as [H1 H2].
    rewrite Ascii.eqb_sym, H1. rewrite IH; [reflexivity|intros _; exact H2].
  - rewrite IH; [reflexivity|discriminate].
Qed.
Lemma has_app c a b : has c (a ++ b) = has c a || has c b.
Proof using Type. induction a as [|x a IH]; cbn; [reflexivity|]. rewrite IH. now rewrite orb_assoc. Qed.
Lemma plain_app a b : plain a -> plain b -> plain (a ++ b).
Proof using Type. unfold plain. intros H1 H2 H. rewrite has_app, H1, H2; auto. Qed.
Lemma plain_lit s : has "%" s = false -> plain s.
Proof using Type. intros H _. exact H. Qed.

Lemma render_percent k : render k (str "'%'") = escape_literal st "'%'".
Proof using Type. unfold escape_literal. cbn [render str]. unfold is_fmt. destruct st; reflexivity. Qed.
Lemma render_Va k p l : render k (Va p :: l) = holder k ++ render (S k) l.
Proof using Type. reflexivity. Qed.

Variable sqlite : bool.
Variable prep : V -> option P.
Variable field : list string -> sx_res (string * string).
Notation sqle := (sql_expression st sqlite prep field).
Hypothesis Hnames : names_ok st field.
Hypothesis Hsq : sqlite = true -> is_fmt = false.

(* f is the conversion of something whose intended tree is t *)
Definition prints (f : sop -> M string) (t : tree) : Prop :=
  forall c ps, f c ps =
    SOk (render (List.length ps) (pit t (prec c)), app ps (pars (List.length ps) (pit t (prec c)))).
(* f fails *)
Definition never (f : sop -> M (P := P) string) : Prop := forall c ps, exists x, f c ps = SErr x.
Definition agrees (f : sop -> M string) (o : option tree) : Prop :=
  match o with Some t => prints f t | None => never f end.

Definition gsop (o : gop) : sop :=
  match o with
  | GOr => OOr | GAnd => OAnd | GEq => OEq | GNe => ONe | GLt => OLt | GGt => OGt | GLe => OLe | GGe => OGe
  | GLike => OLike | GAdd => OAdd | GSub => OSub | GMul | GCat => OMul | GDiv => ODiv
  end.
Lemma prec_gsop o : prec (gsop o) = T o.
Proof using Type. destruct o; reflexivity. Qed.
Lemma optext_gsop o : o <> GCat -> optext (gsop o) = gtext o.
Proof using Type. destruct o; intros H; try reflexivity. now elim H. Qed.

Lemma gtext_plain o : plain (" " ++ gtext o ++ " ").
Proof using Type. apply plain_lit. destruct o; reflexivity. Qed.

(* the common part of generic_binary, sql_concat and sql_like *)
Lemma print_bin o l r a b c (q : string -> string -> string) :
  (forall x y, q x y = x ++ (" " ++ gtext o ++ " ") ++ y) ->
  prints l a -> prints r b ->
  forall ps,
  bind (l (gsop o)) (fun x => bind (r (gsop o)) (fun y => ret (sql_bracket (q x y) c (gsop o)))) ps =
  SOk (render (List.length ps) (pit (TrBin o a b) (prec c)),
       app ps (pars (List.length ps) (pit (TrBin o a b) (prec c)))).
Proof using Type.
  clear sqlite prep field Hnames Hsq.
  intros Hq Hl Hr ps. unfold bind. rewrite Hl, Hr. unfold ret.
  rewrite app_length, pars_len, prec_gsop. unfold sql_bracket. rewrite prec_gsop, Hq.
  cbn [pit]. set (x := pit a (T o)). set (y := pit b (T o)). set (k := List.length ps).
  assert (B : render k (body o x y) = render k x ++ (" " ++ gtext o ++ " ") ++ render (k + nv x) y).
  { unfold body. rewrite !render_app, nv_str, Nat.add_0_r, (render_str _ _ (gtext_plain o)). reflexivity. }
  assert (C : pars k (body o x y) = app (pars k x) (pars (k + nv x) y)).
  { unfold body. rewrite !pars_app, nv_str, Nat.add_0_r, pars_str. reflexivity. }
  rewrite <- app_assoc. destruct (Nat.ltb (T o) (prec c)); unfold brk.
  - unfold paren. rewrite !render_app, !pars_app, !pars_str, !nv_str, !Nat.add_0_r.
    cbn [app]. rewrite app_nil_r, C.
    rewrite !render_str by (apply plain_lit; reflexivity). rewrite B. reflexivity.
  - rewrite B, C. reflexivity.
Qed.

Lemma print_fun1 pre post f a (k : string -> tree) : plain pre -> plain post ->
  prints f a ->
  forall ps, bind (f OComma) (fun x => ret (pre ++ x ++ post)) ps =
  SOk (render (List.length ps) (fun1 pre post (pit a 0)), app ps (pars (List.length ps) (fun1 pre post (pit a 0)))).
Proof using Type.
  clear sqlite prep field Hnames Hsq.
  intros P1 P2 H ps. unfold bind. rewrite H. unfold ret, fun1.
  cbn [prec]. rewrite !render_app, !pars_app, !nv_str, !pars_str, !Nat.add_0_r.
  cbn [app]. rewrite app_nil_r. rewrite !render_str by assumption. reflexivity.
Qed.

Lemma never_bind1 {A} (m : M (P := P) A) (k : A -> M string) ps :
  (forall qs, exists x, m qs = SErr x) -> exists x, bind m k ps = SErr x.
Proof using Type. intros H. destruct (H ps) as [x Hx]. exists x. unfold bind. now rewrite Hx. Qed.
Lemma never_bind2 {A} (m : M (P := P) A) (k : A -> M (P := P) string) ps :
  (forall a qs, exists x, k a qs = SErr x) -> exists x, bind m k ps = SErr x.
Proof using Type.
  intros H. unfold bind. destruct (m ps) as [[a qs]|x]; [apply H|now exists x].
Qed.

Lemma agree_bin o l r oa ob (q : string -> string -> string) :
  (forall x y, q x y = x ++ (" " ++ gtext o ++ " ") ++ y) ->
  agrees l oa -> agrees r ob ->
  agrees (fun c => bind (l (gsop o)) (fun x => bind (r (gsop o)) (fun y => ret (sql_bracket (q x y) c (gsop o)))))
    (match oa, ob with Some a, Some b => Some (TrBin o a b) | _, _ => None end).
Proof using Type.
  clear sqlite prep field Hnames Hsq.
  intros Hq Hl Hr. destruct oa as [a|]; [destruct ob as [b|]|].
  - intros c ps. now apply print_bin.
  - intros c ps. apply never_bind2. intros x qs. apply never_bind1. apply Hr.
  - intros c ps. apply never_bind1. apply Hl.
Qed.

Lemma agree_percent : agrees (percent st) (Some (TrStr "%")).
Proof using Type.
  clear sqlite prep field Hnames Hsq.
  intros c ps. unfold percent, ret. cbn [pit]. change ("'" ++ "%" ++ "'") with "'%'".
  rewrite render_percent, pars_str, app_nil_r. reflexivity.
Qed.

Lemma cat_text x y : (fun a b => a ++ " || " ++ b) x y = x ++ (" " ++ gtext GCat ++ " ") ++ y.
Proof using Type. reflexivity. Qed.
Lemma agree_concat l r oa ob : agrees l oa -> agrees r ob ->
  agrees (sql_concat l r) (match oa, ob with Some a, Some b => Some (TrBin GCat a b) | _, _ => None end).
Proof using Type.
  clear sqlite prep field Hnames Hsq.
  intros Hl Hr. exact (agree_bin GCat l r oa ob _ cat_text Hl Hr).
Qed.
Lemma agree_like l r oa ob : agrees l oa -> agrees r ob ->
  agrees (sql_like l r) (match oa, ob with Some a, Some b => Some (TrBin GLike a b) | _, _ => None end).
Proof using Type.
  clear sqlite prep field Hnames Hsq.
  intros Hl Hr. apply (agree_bin GLike l r oa ob (fun x y => x ++ " LIKE " ++ y)); auto.
Qed.
Lemma agree_generic o l r oa ob : o <> GCat -> agrees l oa -> agrees r ob ->
  agrees (fun c => generic_binary l r c (gsop o))
    (match oa, ob with Some a, Some b => Some (TrBin o a b) | _, _ => None end).
Proof using Type.
  clear sqlite prep field Hnames Hsq.
  intros H Hl Hr. apply (agree_bin o l r oa ob (fun x y => x ++ " " ++ optext (gsop o) ++ " " ++ y)); auto.
  intros x y. rewrite (optext_gsop o H). now rewrite !sapp_assoc.
Qed.

(* --- operands --- *)
Definition arg (l : list (option tree)) (i : nat) : option tree :=
  match nth_error l i with Some o => o | None => None end.
Lemma agree_operand fs args i : Forall2 agrees fs args -> agrees (operand fs i) (arg args i).
Proof using Type.
  clear sqlite prep field Hnames Hsq.
  intros H. unfold operand, arg. revert i. induction H as [|f a fs args Hf H IH]; intros i.
  - destruct i; cbn [nth_error]; intros c ps; exists XIndex; reflexivity.
  - destruct i as [|i]; cbn [nth_error]; [exact Hf|apply IH].
Qed.
Lemma agree_wrap1 pre post fs args (k : tree -> tree) : plain pre -> plain post -> Forall2 agrees fs args ->
  (forall a c, pit (k a) c = fun1 pre post (pit a 0)) ->
  agrees (fun _ => wrap1 pre post fs) (match args with Some a :: _ => Some (k a) | _ => None end).
Proof using Type.
  clear sqlite prep field Hnames Hsq.
  intros P1 P2 H Hk. pose proof (agree_operand fs args 0 H) as A. unfold arg in A.
  destruct args as [|[a|] args]; cbn [nth_error] in A.
  - intros c ps. apply never_bind1. apply A.
  - intros c ps. rewrite Hk. unfold wrap1. apply (print_fun1 pre post (operand fs 0) a (fun _ => a)); assumption.
  - intros c ps. apply never_bind1. apply A.
Qed.

Lemma sq_plain s : plain s \/ sqlite = true -> plain s.
Proof using Hsq. intros [H|H]; [exact H|]. intros F. rewrite (Hsq H) in F. discriminate. Qed.

Lemma two_arg (args : list (option tree)) (k : tree -> tree -> tree) :
  (match args with Some a :: Some b :: _ => Some (k a b) | _ => None end) =
  (match arg args 0, arg args 1 with Some a, Some b => Some (k a b) | _, _ => None end).
Proof using Type. destruct args as [|[a|] [|[b|] args]]; reflexivity. Qed.

Lemma agree_call m fs args : Forall2 agrees fs args ->
  agrees (call_method st sqlite m fs) (call_of sqlite m args).
Proof using Hsq.
  clear prep field Hnames.
  intros H.
  pose proof (agree_operand fs args 0 H) as A0. pose proof (agree_operand fs args 1 H) as A1.
  assert (Hb : sqlite = true \/ sqlite = false) by (generalize sqlite; intros []; auto).
  destruct m; cbn [call_of]; unfold call_method; fold (@pct P); unfold pct; rewrite ?two_arg;
    try (intros c ps; exists XNotImpl; reflexivity).
  - (* endswith *)
    pose proof (agree_like _ _ _ _ A0 (agree_concat _ _ _ _ agree_percent A1)) as L.
    destruct (arg args 0), (arg args 1); exact L.
  - (* indexof *)
    destruct (arg args 0) as [a|] eqn:E0; [destruct (arg args 1) as [b|] eqn:E1|].
    + intros c ps. unfold bind. rewrite A0, A1. unfold ret. cbn [prec pit].
      rewrite !render_app, !pars_app, !nv_str, !pars_str, !Nat.add_0_r.
      cbn [app]. rewrite app_nil_r, app_length, pars_len, <- app_assoc.
      rewrite !render_str by (apply plain_lit; reflexivity). reflexivity.
    + intros c ps. apply never_bind2. intros x qs. apply never_bind1. apply A1.
    + intros c ps. apply never_bind1. apply A0.
  - (* startswith *)
    pose proof (agree_like _ _ _ _ A0 (agree_concat _ _ _ _ A1 agree_percent)) as L.
    destruct (arg args 0), (arg args 1); exact L.
  - (* tolower *)
    destruct Hb as [E|E]; rewrite E.
    + refine (agree_wrap1 "lower(" ")" fs args (TrFun "lower") _ _ H _);
        [apply sq_plain; right; exact E..|intros a c; reflexivity].
    + refine (agree_wrap1 "LOWER(" ")" fs args (TrFun "LOWER") _ _ H _);
        [apply plain_lit; reflexivity..|intros a c; reflexivity].
  - (* toupper *)
    destruct Hb as [E|E]; rewrite E.
    + refine (agree_wrap1 "upper(" ")" fs args (TrFun "upper") _ _ H _);
        [apply sq_plain; right; exact E..|intros a c; reflexivity].
    + refine (agree_wrap1 "UPPER(" ")" fs args (TrFun "UPPER") _ _ H _);
        [apply plain_lit; reflexivity..|intros a c; reflexivity].
  - (* trim *)
    refine (agree_wrap1 "TRIM(" ")" fs args (TrFun "TRIM") _ _ H _);
      [apply plain_lit; reflexivity..|intros a c; reflexivity].
  - (* substring *)
    intros c ps. apply never_bind2. intros x qs. apply never_bind2. intros y rs. exists XType. reflexivity.
  - (* substringof *)
    pose proof (agree_like _ _ _ _ A1 (agree_concat _ _ _ _ agree_percent
      (agree_concat _ _ _ _ A0 agree_percent))) as L.
    destruct (arg args 0), (arg args 1); exact L.
  - (* concat *)
    pose proof (agree_concat _ _ _ _ A0 A1) as L. exact L.
  - (* length *)
    destruct Hb as [E|E]; rewrite E.
    + refine (agree_wrap1 "length(" ")" fs args (TrFun "length") _ _ H _);
        [apply sq_plain; right; exact E..|intros a c; reflexivity].
    + refine (agree_wrap1 "CHAR_LENGTH(" ")" fs args (TrFun "CHAR_LENGTH") _ _ H _);
        [apply plain_lit; reflexivity..|intros a c; reflexivity].
  - (* year *)
    destruct Hb as [E|E]; rewrite E.
    + refine (agree_wrap1 "CAST(strftime('%Y'," ") AS INTEGER)" fs args (TrStrf "%Y") _ _ H _);
        [apply sq_plain; right; exact E..|intros a c; reflexivity].
    + refine (agree_wrap1 "EXTRACT(YEAR FROM " ")" fs args (TrPart "YEAR") _ _ H _);
        [apply plain_lit; reflexivity..|intros a c; reflexivity].
  - (* month *)
    destruct Hb as [E|E]; rewrite E.
    + refine (agree_wrap1 "CAST(strftime('%m'," ") AS INTEGER)" fs args (TrStrf "%m") _ _ H _);
        [apply sq_plain; right; exact E..|intros a c; reflexivity].
    + refine (agree_wrap1 "EXTRACT(MONTH FROM " ")" fs args (TrPart "MONTH") _ _ H _);
        [apply plain_lit; reflexivity..|intros a c; reflexivity].
  - (* day *)
    destruct Hb as [E|E]; rewrite E.
    + refine (agree_wrap1 "CAST(strftime('%d'," ") AS INTEGER)" fs args (TrStrf "%d") _ _ H _);
        [apply sq_plain; right; exact E..|intros a c; reflexivity].
    + refine (agree_wrap1 "EXTRACT(DAY FROM " ")" fs args (TrPart "DAY") _ _ H _);
        [apply plain_lit; reflexivity..|intros a c; reflexivity].
  - (* hour *)
    destruct Hb as [E|E]; rewrite E.
    + refine (agree_wrap1 "CAST(strftime('%H'," ") AS INTEGER)" fs args (TrStrf "%H") _ _ H _);
        [apply sq_plain; right; exact E..|intros a c; reflexivity].
    + refine (agree_wrap1 "EXTRACT(HOUR FROM " ")" fs args (TrPart "HOUR") _ _ H _);
        [apply plain_lit; reflexivity..|intros a c; reflexivity].
  - (* minute *)
    destruct Hb as [E|E]; rewrite E.
    + refine (agree_wrap1 "CAST(strftime('%M'," ") AS INTEGER)" fs args (TrStrf "%M") _ _ H _);
        [apply sq_plain; right; exact E..|intros a c; reflexivity].
    + refine (agree_wrap1 "EXTRACT(MINUTE FROM " ")" fs args (TrPart "MINUTE") _ _ H _);
        [apply plain_lit; reflexivity..|intros a c; reflexivity].
  - (* second *)
    destruct Hb as [E|E]; rewrite E.
    + refine (agree_wrap1 "CAST(strftime('%S'," ") AS INTEGER)" fs args (TrStrf "%S") _ _ H _);
        [apply sq_plain; right; exact E..|intros a c; reflexivity].
    + refine (agree_wrap1 "EXTRACT(SECOND FROM " ")" fs args (TrPart "SECOND") _ _ H _);
        [apply plain_lit; reflexivity..|intros a c; reflexivity].
Qed.

(* --- columns --- *)
Lemma strip_id s : has """" s = false -> strip_quote s = s.
Proof using Type.
  clear sqlite prep field Hnames Hsq.
  induction s as [|c s IH]; cbn [has strip_quote]; [reflexivity|]. intros H.
  apply orb_false_elim in H as [H1 H2]. rewrite Ascii.eqb_sym, H1, IH; auto.
Qed.
Lemma agree_column path : agrees (fun _ => column field path) (col_of field (Some path)).
Proof using Hnames.
  clear sqlite prep Hsq.
  unfold col_of. destruct (field path) as [[t c]|x] eqn:E.
  - destruct (Hnames _ _ _ E) as (Q1 & Q2 & F). intros ctx ps. unfold column. rewrite E. unfold ret.
    cbn [pit]. rewrite pars_str, app_nil_r. unfold quote_identifier. rewrite (strip_id _ Q1), (strip_id _ Q2).
    rewrite render_str.
    + rewrite !sapp_assoc. reflexivity.
    + assert (K : is_fmt = true -> has "%" t = false /\ has "%" c = false).
      { intros K. apply F. unfold is_fmt in K. destruct st; try discriminate; auto. }
      intros K'. destruct (K K') as [K1 K2]. rewrite !has_app, K1, K2. reflexivity.
  - intros ctx ps. unfold column. rewrite E. exists x. reflexivity.
Qed.
Lemma member_path_of (e : ex V) :
  match member_path e with SOk p => path_of e = Some p | SErr _ => path_of e = None end.
Proof using Type.
  clear sqlite prep field Hnames Hsq.
  induction e as [v|n|a IH|o a IHa b IHb|m args]; cbn [member_path path_of]; try reflexivity.
  destruct o; try reflexivity.
  destruct (member_path a) as [l|x]; rewrite IHa; [|reflexivity].
  destruct (member_path b) as [r|x]; rewrite IHb; reflexivity.
Qed.

Lemma ex_rect' (Q : ex V -> Prop) :
  (forall v, Q (ELit v)) -> (forall n, Q (EProp n)) -> (forall a, Q a -> Q (EUn a)) ->
  (forall o a b, Q a -> Q b -> Q (EBin o a b)) -> (forall m args, Forall Q args -> Q (ECall m args)) ->
  forall e, Q e.
Proof using Type.
  clear. intros H1 H2 H3 H4 H5. fix F 1. intros [v|n|a|o a b|m args].
  - apply H1.
  - apply H2.
  - apply H3, F.
  - apply H4; apply F.
  - apply H5. induction args as [|a args IH]; constructor; [apply F|apply IH].
Qed.

Lemma add_param_holder (p : P) (ps : list (string * P)) :
  add_param st p ps = (holder (List.length ps), app ps [(pname (List.length ps), p)]).
Proof using Type.
  clear sqlite prep field Hnames Hsq. unfold add_param, holder, pname. destruct st; try reflexivity.
  rewrite app_length. cbn [List.length]. rewrite Nat.add_1_r. reflexivity.
Qed.

(* The formatter prints the intended tree, and fails if there is none *)
Theorem sql_expression_prints e : agrees (sqle e) (sql_of sqlite prep field e).
Proof using Hnames Hsq.
  induction e as [v|n|a IH|o a b IHa IHb|m args IH] using ex_rect'.
  - cbn [sql_of]. destruct (prep v) as [p|] eqn:E; cbn [option_map].
    + intros c ps. cbn [sql_expression]. rewrite E. rewrite add_param_holder. cbn [pit render pars].
      rewrite sapp_nil. reflexivity.
    + intros c ps. exists XNotImpl. cbn [sql_expression]. rewrite E. reflexivity.
  - exact (agree_column [n]).
  - intros c ps. exists XNotImpl. reflexivity.
  - destruct o.
    { cbn [sql_of]. pose proof (member_path_of (EBin BMember a b)) as Hm.
      destruct (member_path (EBin BMember a b)) as [p|x] eqn:E; rewrite Hm.
      - intros; pose proof (agree_column p) as A.
        assert (X : sqle (EBin BMember a b) = fun _ => column field p).
        { cbn [sql_expression]. unfold binary_method. rewrite E. reflexivity. }
        rewrite X. exact A.
      - intros c ps. exists x. cbn [sql_expression]. unfold binary_method. rewrite E. reflexivity. }
    all: cbn [sql_of bin_of];
      try (intros c ps; exists XNotImpl; reflexivity).
    + exact (agree_generic GMul _ _ _ _ ltac:(discriminate) IHa IHb).
    + exact (agree_generic GDiv _ _ _ _ ltac:(discriminate) IHa IHb).
    + exact (agree_generic GAdd _ _ _ _ ltac:(discriminate) IHa IHb).
    + exact (agree_generic GSub _ _ _ _ ltac:(discriminate) IHa IHb).
    + exact (agree_generic GLt _ _ _ _ ltac:(discriminate) IHa IHb).
    + exact (agree_generic GGt _ _ _ _ ltac:(discriminate) IHa IHb).
    + exact (agree_generic GLe _ _ _ _ ltac:(discriminate) IHa IHb).
    + exact (agree_generic GGe _ _ _ _ ltac:(discriminate) IHa IHb).
    + exact (agree_generic GEq _ _ _ _ ltac:(discriminate) IHa IHb).
    + exact (agree_generic GNe _ _ _ _ ltac:(discriminate) IHa IHb).
    + exact (agree_generic GAnd _ _ _ _ ltac:(discriminate) IHa IHb).
    + exact (agree_generic GOr _ _ _ _ ltac:(discriminate) IHa IHb).
  - cbn [sql_of]. apply (agree_call m (map sqle args)).
    induction IH as [|a args Ha _ IHl]; cbn [map]; constructor; [exact Ha|exact IHl].
Qed.
End Style.
End Print.
