(** C101: a filter selects in SQL the entities that it selects in memory *)
From Verif Require Import Py ExprModel EvalModel EvalSpec EvalProofs SxModel SxSpec SxPrint SxRead SxSem SxProps SxFilter.
Local Open Scope Z_scope.

Lemma and3_assoc a b c : and3 a (and3 b c) = and3 (and3 a b) c.
Proof. destruct a as [[]|], b as [[]|], c as [[]|]; reflexivity. Qed.
Lemma or3_assoc a b c : or3 a (or3 b c) = or3 (or3 a b) c.
Proof. destruct a as [[]|], b as [[]|], c as [[]|]; reflexivity. Qed.
Lemma b3_of3 o : b3 (of3 o) = o.
Proof. destruct o; reflexivity. Qed.
Lemma sql_associative fold row : associative (sql fold row).
Proof.
  intros o o' a b c H. cbn [sql iop iW] in *.
  destruct o, o'; try discriminate H; cbn [sql_op].
  - now rewrite !b3_of3, or3_assoc.
  - now rewrite !b3_of3, and3_assoc.
  - destruct a, b, c; cbn [num]; auto. f_equal. lia.
  - destruct a, b, c; cbn [num]; auto. f_equal. lia.
  - destruct a, b, c; cbn [num]; auto. f_equal. lia.
  - destruct a, b, c; auto. f_equal. apply app_assoc.
Qed.

(** each property is a column of the same name in some table *)
Definition columns (field : list string -> sx_res (string * string)) : Prop :=
  forall n, field [n] = SErr XEval \/ exists t, field [n] = SOk (t, n).

(** C101: for an entity without null values, and no % or _ in what is searched for, the WHERE clause
    made of a filter is TRUE of the entity's row if check_filter returns True, and FALSE if it
    returns False *)
Theorem sql_filter_partial L ty es key props field st sqlite D e t b :
  columns field -> names_ok st field -> driver_ok st sqlite -> known D ->
  no_nulls L props -> simple e = true -> plain_patterns L (OEnt L ty es key props) e ->
  sql_of sqlite prep_lit field e = Some t -> unmixed D t -> regular t ->
  check_filter L (Some (conv e)) (OEnt L ty es key props) = Ok b ->
  exists text ps t', filter_text st sqlite prep_lit field e = SOk (text, ps) /\
    means D st text ps t' /\ SxSpec.value (sql no_fold (row_of L props)) t' = VB b.
Proof.
  intros Hf N Dr K Hn Hs Hp Et U R C.
  destruct (filter_same_value_partial st sqlite prep_lit field N Dr D e t K Et U R) as (text & ps & t' & H1 & H2 & H3).
  exists text, ps, t'. split; [exact H1|split; [exact H2|]].
  rewrite (H3 _ (sql_associative no_fold (row_of L props))).
  unfold check_filter in C. apply rbind_ok in C as (v & Ev & C).
  destruct (same_main L ty es key props field sqlite Hf Hn e Hs Hp v t Ev Et) as (ty' & p & -> & Pl & Hv).
  rewrite Hv. apply plain_cases in Pl. destruct Pl as [ty' z [->|[->|[->| ->]]]|s|c]; try discriminate C.
  injection C as <-. reflexivity.
Qed.

(** ** A case *)
Definition tcol (p : list string) : sx_res (string * string) :=
  match p with
  | ["size"%string] => SOk ("Files"%string, "size"%string)
  | ["path"%string] => SOk ("Files"%string, "path"%string)
  | _ => SErr XEval
  end.
Lemma tcol_columns : columns tcol.
Proof.
  intros n. unfold tcol.
  destruct (string_dec n "size") as [->|N1]; [right; exists "Files"%string; reflexivity|].
  destruct (string_dec n "path") as [->|N2]; [right; exists "Files"%string; reflexivity|]. left.
  repeat match goal with
         | |- context [match ?x with _ => _ end] => is_var x; destruct x; try reflexivity
         end; congruence.
Qed.
Lemma tcol_names st : names_ok st tcol.
Proof.
  intros p t c H. unfold tcol in H.
  repeat match type of H with context [match ?x with _ => _ end] => destruct x; try discriminate end;
    injection H as <- <-; repeat split; reflexivity.
Qed.
Definition file (L : lib) (size : option (pv L)) (path : string) : list (Py.str * slot L) :=
  [(lit "size", SObj L (OVal L (Some Int32) size)); (lit "path", SObj L (OVal L (Some String_) (Some (PStr L (lit path)))))].
Definition file_ent (L : lib) (size : option (pv L)) (path : string) : EvalModel.value L :=
  OEnt L (lit "File") 0 1 (file L size path).
(* startswith(path,'docs') and size add 1 gt 10 *)
Definition docs : ex lit_ :=
  EBin SxModel.BAnd (ECall MStartswith [EProp "path"; ELit (LStr (lit "docs"))])
    (EBin SxModel.BGt (EBin SxModel.BAdd (EProp "size") (ELit (LInt32 1))) (ELit (LInt32 10))).
Example docs_case L :
  no_nulls L (file L (Some (PInt L 10)) "docs/a") /\ simple docs = true /\
  plain_patterns L (file_ent L (Some (PInt L 10)) "docs/a") docs /\
  (exists t, sql_of true prep_lit tcol docs = Some t /\ unmixed sqlite_levels t /\ regular t) /\
  check_filter L (Some (conv docs)) (file_ent L (Some (PInt L 10)) "docs/a") = Ok true.
Proof.
  split; [|split; [reflexivity|split; [|split]]].
  - intros n o. cbn [file assoc]. destruct (str_eqb n (lit "size")).
    + intros E. injection E as <-. exists Int32, (PInt L 10). split; [reflexivity|exact Logic.I].
    + destruct (str_eqb n (lit "path")); [|discriminate]. intros E. injection E as <-.
      exists String_. eexists. split; [reflexivity|exact Logic.I].
  - cbn [plain_patterns docs]. repeat split; intros; try exact Logic.I.
    all: cbn in H; injection H as <- <-; intros [K|[K|[K|[K|[]]]]]; discriminate K.
  - eexists. split; [reflexivity|]. cbn. repeat split; intros; discriminate.
  - reflexivity.
Qed.

(** ** What fails *)
Ltac refute e tr :=
  match goal with
  | |- exists _ _ _, filter_text ?st ?sq _ ?f _ = _ /\ means ?D _ _ _ _ /\ _ =>
    destruct (filter_read_as_meant_partial st sq prep_lit f (tcol_names st) ltac:(intros X; try discriminate X; split; discriminate) D e tr
                ltac:(first [left; reflexivity|right; reflexivity]) eq_refl
                ltac:(cbn; repeat split; intros; discriminate) ltac:(cbn; repeat split; intros; discriminate))
      as (text & ps & H1 & H2);
    exists text, ps, tr; split; [exact H1|split; [exact H2|]]
  end.
Notation sqlval fold L props := (SxSpec.value (sql fold (row_of L props))).

(** C101: size eq null is true in memory of an entity without a size, and NULL in SQL *)
Definition no_size : ex lit_ := EBin SxModel.BEq (EProp "size") (ELit LNull).
Theorem null_eq_refuted L :
  check_filter L (Some (conv no_size)) (file_ent L None "a") = Ok true /\
  exists text ps t, filter_text SQmark true prep_lit tcol no_size = SOk (text, ps) /\
    means sqlite_levels SQmark text ps t /\ sqlval no_fold L (file L None "a") t <> VB true.
Proof.
  split; [reflexivity|]. refute no_size (TrBin GEq (TrCol "Files" "size") (TrVal VNull)).
  cbn. discriminate.
Qed.
(** C101: so is size ne 1 *)
Definition not_one : ex lit_ := EBin SxModel.BNe (EProp "size") (ELit (LInt32 1)).
Theorem null_ne_refuted L :
  check_filter L (Some (conv not_one)) (file_ent L None "a") = Ok true /\
  exists text ps t, filter_text SQmark true prep_lit tcol not_one = SOk (text, ps) /\
    means sqlite_levels SQmark text ps t /\ sqlval no_fold L (file L None "a") t <> VB true.
Proof.
  split; [reflexivity|]. refute not_one (TrBin GNe (TrCol "Files" "size") (TrVal (VI 1))).
  cbn. discriminate.
Qed.
(** C101: startswith(path,'a_') finds 'abc' in SQL *)
Definition wild : ex lit_ := ECall MStartswith [EProp "path"; ELit (LStr (lit "a_"))].
Theorem wildcard_refuted L :
  check_filter L (Some (conv wild)) (file_ent L None "abc") = Ok false /\
  exists text ps t, filter_text SQmark false prep_lit tcol wild = SOk (text, ps) /\
    means standard SQmark text ps t /\ sqlval no_fold L (file L None "abc") t = VB true.
Proof.
  split; [reflexivity|]. refute wild (TrBin GLike (TrCol "Files" "path") (TrBin GCat (TrVal (VS (lit "a_"))) (TrStr "%"))).
  reflexivity.
Qed.
(** C101: startswith(path,'a') finds 'Abc' in SQLite *)
Definition case_ : ex lit_ := ECall MStartswith [EProp "path"; ELit (LStr (lit "a"))].
Theorem case_refuted L :
  check_filter L (Some (conv case_)) (file_ent L None "Abc") = Ok false /\
  exists text ps t, filter_text SQmark true prep_lit tcol case_ = SOk (text, ps) /\
    means sqlite_levels SQmark text ps t /\ sqlval ascii_fold L (file L None "Abc") t = VB true.
Proof.
  split; [reflexivity|]. refute case_ (TrBin GLike (TrCol "Files" "path") (TrBin GCat (TrVal (VS (lit "a"))) (TrStr "%"))).
  reflexivity.
Qed.
(** C101: indexof(path,'b') eq 1 is true of 'ab' in memory; in SQL the operands of POSITION are
    exchanged (and it counts from 1) *)
Definition pos : ex lit_ :=
  EBin SxModel.BEq (ECall MIndexof [EProp "path"; ELit (LStr (lit "b"))]) (ELit (LInt32 1)).
Theorem indexof_refuted L :
  check_filter L (Some (conv pos)) (file_ent L None "ab") = Ok true /\
  exists text ps t, filter_text SQmark false prep_lit tcol pos = SOk (text, ps) /\
    means standard SQmark text ps t /\ sqlval no_fold L (file L None "ab") t = VB false.
Proof.
  split; [reflexivity|].
  refute pos (TrBin GEq (TrPos (TrCol "Files" "path") (TrVal (VS (lit "b")))) (TrVal (VI 1))).
  reflexivity.
Qed.

Print Assumptions sql_filter_partial.
Print Assumptions null_eq_refuted.
Print Assumptions indexof_refuted.
