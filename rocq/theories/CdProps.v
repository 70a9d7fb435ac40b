(** C81: declarations of element types. *)
From Verif Require Import Py CmSpec CmModel CmProofs CmMain CmProps CdModel CdProofs.

(** The parser accepts the declarations of production [45], and the content that it stores is the one that was written:
    the declaration is read to its > and no further. *)
Theorem c81_element : forall t n c rest, parse_element_decl t = Ok (n, c, rest) <->
  exists u, t = u ++ rest /\ element_text n c u /\ numbered 0 (content_leaves c).
Proof. exact element_iff. Qed.
(** A text is the text of no more than one content. *)
Theorem c81_unambiguous : forall n c n' c' u u' rest rest', element_text n c u -> element_text n' c' u' ->
  numbered 0 (content_leaves c) -> numbered 0 (content_leaves c') -> u ++ rest = u' ++ rest' -> n = n' /\ c = c' /\ rest = rest'.
Proof.
  intros n c n' c' u u' rest rest' H H' K K' E.
  assert (A : parse_element_decl (u ++ rest) = Ok (n, c, rest)) by (apply c81_element; exists u; auto).
  assert (B : parse_element_decl (u ++ rest) = Ok (n', c', rest')) by (apply c81_element; exists u'; auto).
  rewrite A in B. injection B as -> -> ->. auto.
Qed.
(** What has been parsed satisfies the hypotheses of C79 and C80: a document's children are checked against the declaration *)
Theorem c81_checked : forall t n c rest w, parse_element_decl t = Ok (n, c, rest) -> names w ->
  (check_element (build_model c) false w = Ok None <-> valid_children c w).
Proof.
  intros t n c rest w H Hw. apply c81_element in H as (u & -> & (s1 & s2 & v & s3 & _ & _ & _ & _ & _ & _ & _ & Hv) & Hk).
  apply c79_valid; [eapply parsed_ok; eassumption|assumption].
Qed.
Theorem c81_deterministic : forall t n p rest, parse_element_decl t = Ok (n, CChildren p, rest) ->
  (is_deterministic (build_model (CChildren p)) = false <-> ambiguous p).
Proof.
  intros t n p rest H. apply c81_element in H as (u & -> & (s1 & s2 & v & s3 & _ & _ & _ & _ & _ & _ & _ & Hv) & Hk).
  apply c80_children. eapply parsed_ok; eassumption.
Qed.
(** The productions allow names with U+10000 to U+EFFFF: they are refused. *)
Theorem c81_astral_refuted : forall c r, 65536 <= c <= 983039 -> parse_element_decl (32 :: c :: r) = Err XMLError.
Proof.
  intros c r H. unfold parse_element_decl, parse_required_s. cbn [is_s]. change (is_s 32) with true. cbv iota. cbn [parse_s].
  change (is_s 32) with true. cbv iota.
  assert (is_s c = false) as -> by (unfold is_s; lia). replace (c =? 37) with false by lia. cbn [andb rbind parse_required_name].
  destruct (is_name_start_char c) eqn:E; [|reflexivity]. apply start_iff in E. unfold name_start in E. lia.
Qed.

Example c81_case : parse_element_decl (lit " p (a, ( b|c* )+ ,d?) >rest") = Ok (lit "p",
  CChildren (PSeq Once [PName 0 (lit "a") Once; PChoice Plus [PName 1 (lit "b") Once; PName 2 (lit "c") Star]; PName 3 (lit "d") Opt]), lit "rest") /\
  parse_element_decl (lit " p (#PCDATA | a |b)*>") = Ok (lit "p", CMixed [(0%nat, lit "a"); (1%nat, lit "b")], []) /\
  parse_element_decl (lit " p (a, b|c)>") = Err XMLError /\ parse_element_decl (lit " p (#PCDATA|a)>") = Err XMLError /\
  parse_element_decl (lit " p (a) *>") = Err XMLError.
Proof. repeat split; vm_compute; reflexivity. Qed.
Print Assumptions c81_element. Print Assumptions c81_unambiguous. Print Assumptions c81_checked.
Print Assumptions c81_deterministic. Print Assumptions c81_astral_refuted.
