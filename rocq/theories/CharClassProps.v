(** Properties C01-C05 (pyslet/unicode5.py, CharClass).  Definitions used by the statements:
    [run w0 h] executes the calls of [h] in the model (CharClassModel.v); [spec_run [] h] is the
    list of sets that the same calls denote, [covered] describes the histories in scope
    (CharClassSpec.v); [re_one] is the meaning of a one-character Python regular expression
    (ReSpec.v). *)
From Verif Require Import Py ReSpec CharClassModel CharClassSpec CharClassMain.

(** ** C01 *)
Theorem c01_charclass_set_semantics : forall h, covered [] [] h ->
  exists w, run w0 h = Ok w /\ length (objs w) = length (spec_run [] h) /\
    forall i c, (i < length (spec_run [] h))%nat -> is_char c ->
      exists b w', w_test i w c = Ok (b, w') /\ (b = true <-> set_of (spec_run [] h) i c).
Proof. exact c01. Qed.
Print Assumptions c01_charclass_set_semantics.

(** a covered history with every kind of call *)
Definition sample : list call :=
  [New; AddRange 0 (ch "a") (ch "z"); AddChar 0 (ch "0"); SubtractRange 0 (ch "y") (ch "m");
   SubtractChar 0 (ch "c"); Test 0 (ch "b"); New; AddChar 1 maxunicode; AddClass 1 0;
   SubtractClass 0 1; Negate 1; Test 1 (ch "c")].
Example sample_covered : covered [] [] sample.
Proof.
  unfold sample. cbn [covered spec_call upd set_of call_valid nth_error set_nth app length nth].
  repeat match goal with
  | |- _ /\ _ => split
  | |- (_ < _)%nat => lia
  | |- is_char _ => unfold is_char, maxunicode; cbn; lia
  | |- untainted _ _ => reflexivity
  | |- _ <> _ => discriminate
  | |- True => exact I
  end.
  left. split; [exists maxunicode; right; reflexivity|].
  repeat match goal with
  | |- _ /\ _ => split
  | |- (_ < _)%nat => lia
  | |- is_char _ => unfold is_char, maxunicode; cbn; lia
  | |- untainted _ _ => reflexivity
  | |- _ <> _ => discriminate
  | |- True => exact I
  end.
Qed.
(** and what it computes *)
Example sample_runs : test_after sample 1 (ch "c") = Ok true /\ test_after sample 1 (ch "d") = Ok false.
Proof. split; vm_compute; reflexivity. Qed.

(** ** C02 *)
Theorem c02_charclass_eq_extensional : forall h, covered [] [] h ->
  forall w, run w0 h = Ok w -> forall i j,
  (i < length (spec_run [] h))%nat -> (j < length (spec_run [] h))%nat ->
  exists b, w_eq i j w = Ok b /\
    (b = true <-> forall c, is_char c -> (set_of (spec_run [] h) i c <-> set_of (spec_run [] h) j c)).
Proof. exact c02. Qed.
Print Assumptions c02_charclass_eq_extensional.

(** ** C03 *)
Theorem c03_charclass_cache_coherent : forall h, covered [] [] h ->
  forall w, run w0 h = Ok w -> forall i c, (i < length (objs w))%nat -> is_char c ->
  exists b w', w_test i w c = Ok (b, w') /\ w_test_slow i w c = Ok b.
Proof. exact c03. Qed.
Print Assumptions c03_charclass_cache_coherent.

(** ** C04: the copy of instance [j] is instance [length (objs w)], the next one created.
    Missing from the full property: subtractions from the copy while it still shares range
    cells with the original; the next theorem shows that they do break it. *)
Theorem c04_copy_independent_partial : forall h j edits w,
  covered [] [] h -> run w0 h = Ok w -> (j < length (objs w))%nat ->
  copy_edits (length (objs w)) false edits ->
  exists w', run w (New :: AddClass (length (objs w)) j :: edits) = Ok w' /\
    forall i c, (i < length (objs w))%nat -> is_char c -> exists b w1 w2,
      w_test i w c = Ok (b, w1) /\ w_test i w' c = Ok (b, w2).
Proof. exact c04. Qed.
Print Assumptions c04_copy_independent_partial.
Example c04_satisfiable :
  covered [] [] [New; AddRange 0 (ch "a") (ch "z")] /\
  copy_edits 1 false [AddRange 1 (ch "0") (ch "9"); Negate 1; SubtractChar 1 (ch "m"); AddClass 1 0].
Proof.
  cbn. unfold is_char, maxunicode. cbn. repeat split; try lia.
Qed.

(** Finding: [c1 = CharClass(c0); c1.subtract_char('m')] removes 'm' from [c0]. *)
Theorem c04_copy_independent_refuted :
  let copied := [New; AddRange 0 (ch "a") (ch "z"); New; AddClass 1 0] in
  test_after copied 0 (ch "p") = Ok true /\
  test_after (copied ++ [SubtractRange 1 (ch "m") (ch "z")]) 0 (ch "p") = Ok false.
Proof. split; vm_compute; reflexivity. Qed.
Print Assumptions c04_copy_independent_refuted.

(** Finding (same cause): when the original was tested before, its cache still says True and
    [test] and [test_slow] disagree, so C03 needs the covered histories too. *)
Theorem c03_shared_cells_refuted :
  let h := [New; AddRange 0 (ch "a") (ch "z"); New; AddClass 1 0; Test 0 (ch "p");
            SubtractRange 1 (ch "m") (ch "z")] in
  test_after h 0 (ch "p") = Ok true /\ test_slow_after h 0 (ch "p") = Ok false.
Proof. split; vm_compute; reflexivity. Qed.
Print Assumptions c03_shared_cells_refuted.

(** Finding: [c.subtract_class(c)] does not empty the class, because it iterates over the list
    of ranges it is removing from. *)
Theorem c41_self_subtract_refuted :
  test_after [New; AddRange 0 (ch "a") (ch "c"); AddRange 0 (ch "x") (ch "z"); SubtractClass 0 0]
    0 (ch "y") = Ok true.
Proof. vm_compute; reflexivity. Qed.
Print Assumptions c41_self_subtract_refuted.

(** ** C05.  Missing from the full property: the class of all characters and the class of all
    characters but the backslash; the two theorems after it show the property fails there. *)
Theorem c05_charclass_regex_partial : forall h, covered [] [] h ->
  forall w, run w0 h = Ok w -> forall i, (i < length (spec_run [] h))%nat ->
  (exists c, is_char c /\ ~ set_of (spec_run [] h) i c) ->
  ~ (forall c, is_char c -> (set_of (spec_run [] h) i c <-> c <> ch "\")) ->
  exists s f, w_str i w = Ok s /\ re_one s = Some f /\
    forall c, is_char c -> (f c = true <-> set_of (spec_run [] h) i c).
Proof. exact c05. Qed.
Print Assumptions c05_charclass_regex_partial.
Example c05_sample_string :
  str_after sample 0 = Ok (lit "[^\x00-" ++ [maxunicode] ++ lit "]") /\
  str_after sample 1 = Ok (lit "[" ++ [0] ++ lit "-/1-`cm-y{-" ++ [maxunicode - 1] ++ lit "]").
Proof. split; vm_compute; reflexivity. Qed.

(** Finding: the class of all characters has the string form of a regular expression that
    matches nothing. *)
Theorem c05_full_class_refuted : exists s f,
  str_after [New; Negate 0] 0 = Ok s /\ re_one s = Some f /\
  test_after [New; Negate 0] 0 (ch "a") = Ok true /\ f (ch "a") = false.
Proof.
  do 2 eexists. split; [vm_compute; reflexivity|]. split; [reflexivity|].
  split; vm_compute; reflexivity.
Qed.
Print Assumptions c05_full_class_refuted.

(** Finding: the class of all characters but the backslash has a malformed string form. *)
Theorem c05_not_backslash_refuted : exists s,
  str_after [New; AddChar 0 (ch "\"); Negate 0] 0 = Ok s /\ re_one s = None.
Proof. eexists. split; vm_compute; reflexivity. Qed.
Print Assumptions c05_not_backslash_refuted.
