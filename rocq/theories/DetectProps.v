(** Property C06 (detect_encoding, pyslet/unicode5.py 70-101).  [written e wb t d] says that [d]
    is the text [t] in encoding [e], with a byte order mark when [wb]; see DetectSpec.v. *)
From Verif Require Import Py Codec DetectModel DetectSpec DetectProofs.

(** the answer is never a wrong encoding: it is the right one or None *)
Theorem c06_never_misclassified : forall e with_bom t d,
  written e with_bom t d -> text_ok with_bom t ->
  detect_encoding d = None \/ detect_encoding d = Some e.
Proof. exact never_wrong. Qed.
Print Assumptions c06_never_misclassified.

(** UTF-8 and UTF-32 data, and UTF-16 data that starts with ASCII, is always recognised.  Missing
    from the full property: UTF-16 text that does not start with (two) ASCII characters, for
    which the answer can be None, see the next theorem. *)
Theorem c06_recognised_partial : forall e with_bom t d,
  written e with_bom t d -> text_ok with_bom t -> certain e with_bom t ->
  detect_encoding d = Some e.
Proof. exact certain_right. Qed.
Print Assumptions c06_recognised_partial.

Example c06_satisfiable : text_ok true (lit "<?") /\ text_ok false (lit "<?") /\
  written Utf16LE true (lit "<?") [255; 254; 60; 0; 63; 0] /\ certain Utf16LE true (lit "<?") /\
  certain Utf16BE false (lit "<?").
Proof.
  split; [|split; [|split; [|split]]].
  - split; [|auto]. repeat constructor; unfold is_scalar; cbn; try discriminate; lia.
  - split; [|right; exists 60, [63]; split; [reflexivity|unfold ascii; lia]].
    repeat constructor; unfold is_scalar; cbn; try discriminate; lia.
  - exact (w_16le_bom (lit "<?")).
  - exists 60, [63]; split; [reflexivity|unfold ascii; lia].
  - exists 60, 63, []; split; [reflexivity|unfold ascii; lia].
Qed.

(** Finding: UTF-16 with a byte order mark and a non-ASCII first character (here U+4E2D) is not
    recognised: the result is None, although the documented default is utf_8. *)
Theorem c06_bom_refuted : text_ok true [20013] /\
  written Utf16BE true [20013] [254; 255; 78; 45] /\ detect_encoding [254; 255; 78; 45] = None.
Proof.
  split; [|split].
  - split; [|auto]. repeat constructor; unfold is_scalar; cbn; try discriminate; lia.
  - exact (w_16be_bom [20013]).
  - reflexivity.
Qed.
Print Assumptions c06_bom_refuted.
