(** C63-C65: OData common expressions: reading, formatting, literals, $orderby. *)
From Verif Require Import Py ExprModel ExprSpec ExprLex ExprParse ExprFmt ExprTotal ExprMain.

(** ** C63: reading an expression *)
(** A text of the grammar is read as the expression that the grammar gives it: precedence,
    associativity, brackets, method calls, whatever the white space.  Missing for the full grammar
    ([G E true]): the three forms that ExprSpec.v names, which are misread, see below. *)
Theorem c63_parse_partial : forall E params a w1 s w2, env_ok E -> ws w1 -> ws w2 -> G E false 1 a s ->
  from_str E params (w1 ++ s ++ w2) = Ok (obj a).
Proof. intros. apply from_str_ok; auto. Qed.
(** so a text stands for one expression only *)
Theorem c63_unambiguous : forall E a b s, env_ok E -> G E false 1 a s -> G E false 1 b s -> a = b.
Proof.
  intros E a b s OK A B. apply obj_inj.
  pose proof (from_str_ok E OK None a [] s [] ws_nil ws_nil A) as PA.
  pose proof (from_str_ok E OK None b [] s [] ws_nil ws_nil B) as PB. congruence.
Qed.
(** whatever the text and the tables, reading ends with an expression or a ValueError *)
Theorem c63_total : forall E params s,
  (exists e, from_str E params s = Ok e) \/ from_str E params s = Err ValueError.
Proof. intros E params s. pose proof (from_str_total E params s) as H. destruct (from_str E params s); [eauto|subst; auto]. Qed.
Theorem c63_orderby : forall E l s, env_ok E -> orderby_text E l s ->
  orderby_from_str E s = Ok (map (fun p => (obj (fst p), snd p)) l).
Proof. intros. apply orderby_ok; auto. Qed.
Theorem c63_orderby_total : forall E s,
  (exists l, orderby_from_str E s = Ok l) \/ orderby_from_str E s = Err ValueError.
Proof. intros E s. pose proof (orderby_total E s) as H. destruct (orderby_from_str E s); [eauto|subst; auto]. Qed.

(** ** C64: formatting and reading back *)
(** Missing: expressions that are not [printable], see below. *)
Theorem c64_roundtrip_partial : forall E a, env_ok E -> printable E a ->
  exists s, fmt E (obj a) = Ok s /\ forall params, from_str E params s = Ok (obj a).
Proof. intros. apply roundtrip; auto. Qed.
(** so different expressions have different texts *)
Theorem c64_injective : forall E a b, env_ok E -> printable E a -> printable E b ->
  fmt E (obj a) = fmt E (obj b) -> a = b.
Proof.
  intros E a b OK A B Q. apply obj_inj. destruct (roundtrip E OK a A) as (s & F & P). destruct (roundtrip E OK b B) as (t & F' & P').
  rewrite F, F' in Q. inversion Q; subst. specialize (P None). specialize (P' None). congruence.
Qed.
Theorem c64_orderby_partial : forall E l, env_ok E -> l <> [] -> Forall (fun p => printable E (fst p)) l ->
  exists s, orderby_to_str E (map (fun p => (obj (fst p), snd p)) l) = Ok s
    /\ orderby_from_str E s = Ok (map (fun p => (obj (fst p), snd p)) l).
Proof. intros. apply orderby_roundtrip; auto. Qed.

(** ** C65: literals *)
(** A literal in any of its accepted spellings has its value; its own text is one of them.
    Missing: floating point, decimal, date and time literals, and the empty binary value. *)
Theorem c65_literal_partial : forall E params l s, env_ok E -> literal_text E l s -> from_str E params s = Ok (XLit l).
Proof.
  intros E params l s OK H. pose proof (from_str_ok E OK params (Lit l) [] s [] ws_nil ws_nil (g_lit E false 1 l s H)) as Q.
  rewrite app_nil_r in Q. exact Q.
Qed.
Theorem c65_roundtrip_partial : forall E params l, env_ok E -> literal_ok l ->
  exists s, fmt E (XLit l) = Ok s /\ literal_text E l s /\ from_str E params s = Ok (XLit l).
Proof.
  intros E params l OK H. destruct (fmt_lit_ok E OK l H) as (s & F & T). exists s. split; [exact F|]. split; [exact T|].
  apply c65_literal_partial; auto.
Qed.
(** any text whatever is safe inside a string literal: the quotes are never closed early, so what
    follows the literal is read as it stands *)
Theorem c65_string_safe : forall E params p v q w, env_ok E -> property_name E p -> property_name E q ->
  exists s t, fmt E (XLit (LStr v)) = Ok s /\ fmt E (XLit (LStr w)) = Ok t /\
    from_str E params (p ++ lit " eq " ++ s ++ lit " and " ++ q ++ lit " ne " ++ t)
      = Ok (XBin BAnd [Some (XBin BEq [Some (XProp p); Some (XLit (LStr v))]);
                       Some (XBin BNe [Some (XProp q); Some (XLit (LStr w))])]).
Proof.
  intros E params p v q w OK P Q.
  destruct (roundtrip E OK (Bin And (Bin Eq (Prop_ p) (Lit (LStr v))) (Bin Ne (Prop_ q) (Lit (LStr w))))) as (u & F & R).
  { cbn. auto 12. }
  eexists _, _. split; [reflexivity|]. split; [reflexivity|]. cbn in F. inversion F as [H]. specialize (R params). rewrite <- H in R.
  cbn [obj obin] in R. rewrite <- R. f_equal. rewrite <- !app_assoc. cbn. rewrite <- ?app_assoc. reflexivity.
Qed.

(** ** An instance of the tables: the ASCII part *)
Definition letter (c : Z) : bool := ((65 <=? c) && (c <=? 90)) || ((97 <=? c) && (c <=? 122)).
Definition ascii_env : env :=
  {| idstart := letter; idchar := fun c => letter c || ((48 <=? c) && (c <=? 57)) || (c =? 95);
     lower := map ascii_lower; tparse := fun _ _ => None; num_ok := fun _ _ => true;
     fmt_num := fun _ _ => []; fmt_time := fun _ t => t |}.
Lemma letter_ok c : letter c = true <-> is_letter c.
Proof. unfold letter, is_letter. rewrite orb_true_iff, !andb_true_iff, !Z.leb_le. tauto. Qed.
Theorem ascii_env_ok : env_ok ascii_env.
Proof.
  constructor; cbn [idstart idchar lower ascii_env].
  - intros c H. rewrite H. reflexivity.
  - intros c H. apply letter_ok. exact H.
  - intros c H R. rewrite !orb_true_iff, letter_ok, andb_true_iff, !Z.leb_le, Z.eqb_eq in H. unfold is_letter in H.
    destruct R as [R|R]; [|lia]. cbn in R. intuition lia.
  - intros c H. apply letter_ok in H. unfold is_letter in H. lia.
  - reflexivity.
  - intros c s _. eexists. reflexivity.
  - intros c s _ H. apply in_map. exact H.
Qed.

(** ** Instances of the hypotheses *)
Ltac ident_t := apply (ident_word ascii_env ascii_env_ok); [cbn; unfold is_letter; intros; intuition lia|discriminate].
Ltac prop_t := split; [ident_t|vm_compute; intuition discriminate].
Definition pa := Prop_ (lit "a").
Definition pb := Prop_ (lit "b").
Definition pc := Prop_ (lit "c").
Example ex_prop n : In n [lit "a"; lit "b"; lit "c"] -> property_name ascii_env n.
Proof. intros [<-|[<-|[<-|[]]]]; prop_t. Qed.
(** a sub b sub c mul -7 groups as (a sub b) sub (c mul -7) *)
Example ex_parse : exists s, s = lit "a sub b sub c mul -7" /\
  G ascii_env false 1 (Bin Sub (Bin Sub pa pb) (Bin Mul pc (Lit (LInt32 (-7))))) s /\
  from_str ascii_env None s = Ok (XBin BSub [Some (XBin BSub [Some (XProp (lit "a")); Some (XProp (lit "b"))]);
    Some (XBin BMul [Some (XProp (lit "c")); Some (XLit (LInt32 (-7)))])]).
Proof.
  exists (lit "a sub b sub c mul -7"). split; [reflexivity|]. split; [|vm_compute; reflexivity].
  pose proof ws_sp as W.
  apply (g_bin ascii_env false 1 Sub _ _ (lit "a sub b") (lit " ") (lit " ") (lit "c mul -7")); auto; [cbn; lia| |].
  - apply (g_bin ascii_env false _ Sub _ _ (lit "a") (lit " ") (lit " ") (lit "b")); auto; apply g_prop; apply ex_prop; cbn; auto.
  - apply (g_bin ascii_env false _ Mul _ _ (lit "c") (lit " ") (lit " ") (lit "-7")); auto; [apply g_prop; apply ex_prop; cbn; auto|].
    apply g_lit. apply lt_int32; [|lia]. apply (sg_neg 10 (lit "7") 7); [apply (dec_one 7); lia|cbn; lia].
Qed.
Example ex_printable : printable ascii_env
  (Bin And (Bin Eq (Member pa (lit "b")) (Lit (LStr (lit "it's")))) (Not (Call (lit "startswith") [pb; Neg (Bin Add pc (Lit (LInt64 1)))]))).
Proof.
  cbn [printable pa pb pc is_negation minus_ok literal_ok]. repeat split; auto; try (apply ex_prop; cbn; auto); try lia; try discriminate.
  cbn. auto 12.
Qed.
Example ex_printable_text : fmt ascii_env (obj
  (Bin And (Bin Eq (Member pa (lit "b")) (Lit (LStr (lit "it's")))) (Not (Call (lit "startswith") [pb; Neg (Bin Add pc (Lit (LInt64 1)))]))))
  = Ok (lit "a/b eq 'it''s' and not startswith(b,-(c add 1L))").
Proof. vm_compute. reflexivity. Qed.
Example ex_orderby : exists s, s = lit "a, b DESC ,c asc" /\ orderby_text ascii_env [(pa, true); (pb, false); (pc, true)] s.
Proof.
  eexists. split; [reflexivity|]. pose proof ws_sp as W. pose proof ws_nil as W0. destruct W as (W & Wn).
  change (lit "a, b DESC ,c asc") with ([] ++ lit "a" ++ [] ++ [] ++ lit "," ++ (lit " " ++ lit "b" ++ (lit " " ++ lit "DESC") ++ lit " " ++ lit "," ++ ([] ++ lit "c" ++ (lit " " ++ lit "asc") ++ []))).
  apply ob_more; auto; [apply g_prop, ex_prop; cbn; auto|constructor|].
  apply ob_more; auto; [apply g_prop, ex_prop; cbn; auto|apply dt_word; [split; auto|reflexivity]|].
  apply ob_one; auto; [apply g_prop, ex_prop; cbn; auto|apply dt_word; [split; auto|reflexivity]].
Qed.
Example ex_literals : literal_ok (LStr (lit "a'b")) /\ literal_ok (LInt32 (-2147483648)) /\ literal_ok (LBin [0; 255])
  /\ literal_ok (LGuid (lit "00112233445566778899aabbccddeeff")).
Proof.
  split; [exact I|]. split; [cbn; lia|]. split; [split; [discriminate|cbn; intros; intuition lia]|].
  split; [reflexivity|]. 
  assert (forallb (fun x => ((48 <=? x) && (x <=? 57)) || ((97 <=? x) && (x <=? 102))) (lit "00112233445566778899aabbccddeeff") = true) as H by reflexivity.
  rewrite forallb_forall in H. intros x X. specialize (H x X). rewrite orb_true_iff, !andb_true_iff, !Z.leb_le in H. tauto.
Qed.

(** ** What is missing from C63 *)
(** a negation of a negation gives an object with a None operand, which cannot be formatted *)
Theorem c63_double_negation_refuted : exists E a s e, env_ok E /\ G E true 1 a s /\ from_str E None s = Ok e /\ e <> obj a
  /\ fmt E e = Err AttributeError.
Proof.
  exists ascii_env, (Not (Not pa)), (lit "not not a"), (XUn ONot [Some (XUn ONot [None]); Some (XProp (lit "a"))]).
  split; [exact ascii_env_ok|]. split.
  - apply (g_not ascii_env true 1 _ (lit " ") (lit "not a")); [cbv; lia|apply ws_sp|].
    apply (g_not ascii_env true _ _ (lit " ") (lit "a")); [cbv; lia|apply ws_sp|]. apply g_prop, ex_prop. cbn. auto.
  - split; [vm_compute; reflexivity|]. split; [discriminate|vm_compute; reflexivity].
Qed.
(** brackets around a negation are not accepted *)
Theorem c63_bracketed_negation_refuted : exists E a b s t, env_ok E /\ G E true 1 a s /\ from_str E None s = Err ValueError
  /\ G E true 1 b t /\ from_str E None t = Err ValueError /\ is_negation a /\ is_negation b.
Proof.
  exists ascii_env, (Not pa), (Neg pa), (lit "(not a)"), (lit "(-a)"). split; [exact ascii_env_ok|].
  split; [|split; [vm_compute; reflexivity|split; [|split; [vm_compute; reflexivity|split; exact I]]]].
  - apply (g_paren ascii_env true 1 _ [] (lit "not a") []); [apply ws_nil|apply ws_nil| |discriminate].
    apply (g_not ascii_env true _ _ (lit " ") (lit "a")); [cbv; lia|apply ws_sp|]. apply g_prop, ex_prop. cbn. auto.
  - apply (g_paren ascii_env true 1 _ [] (lit "-a") []); [apply ws_nil|apply ws_nil| |discriminate].
    apply (g_neg ascii_env true _ _ [] (lit "a")); [cbv; lia|apply ws_nil| | |discriminate].
    + apply g_prop, ex_prop. cbn. auto.
    + intros (c & r & Q & C). inversion Q; subst. lia.
Qed.
(** a minus sign before a name that starts with inf or nan is taken for a number *)
Theorem c63_minus_inf_refuted : exists E a s, env_ok E /\ G E true 1 a s /\ from_str E None s = Err ValueError.
Proof.
  exists ascii_env, (Neg (Prop_ (lit "info"))), (lit "-info"). split; [exact ascii_env_ok|]. split; [|vm_compute; reflexivity].
  apply (g_neg ascii_env true _ _ [] (lit "info")); [cbv; lia|apply ws_nil| | |discriminate].
  - apply g_prop. prop_t.
  - intros (c & r & Q & C). inversion Q; subst. lia.
Qed.
(** parameters are not seen inside brackets, or in the arguments of a method *)
Theorem c63_params_refuted : exists E ps, env_ok E
  /\ from_str E (Some ps) (lit ":p eq 1") = Ok (XBin BEq [Some (XLit (LInt32 5)); Some (XLit (LInt32 1))])
  /\ from_str E (Some ps) (lit "(:p) eq 1") = Err ValueError
  /\ from_str E (Some ps) (lit "length(:p) eq 1") = Err ValueError.
Proof. exists ascii_env, [(lit "p", LInt32 5)]. split; [exact ascii_env_ok|]. vm_compute. auto. Qed.
(** texts that are no expressions are accepted *)
Theorem c63_too_much_refuted : exists E, env_ok E
  /\ from_str E None (lit "a not b") = Ok (XBin BNot [Some (XProp (lit "a")); Some (XProp (lit "b"))])
  /\ from_str E None (lit "a boolAnd b") = Ok (XBin BAnd [Some (XProp (lit "a")); Some (XProp (lit "b"))]).
Proof. exists ascii_env. split; [exact ascii_env_ok|]. vm_compute. auto. Qed.

(** ** What is missing from C64 *)
(** the right operand of an operator of the same precedence loses its brackets: the text means
    something else *)
Theorem c64_brackets_refuted : exists E a b s, env_ok E /\ a <> b /\ fmt E (obj a) = Ok s /\ from_str E None s = Ok (obj b)
  /\ G E true 1 b s /\ a = Bin Sub pa (Bin Sub pb pc) /\ b = Bin Sub (Bin Sub pa pb) pc.
Proof.
  exists ascii_env, (Bin Sub pa (Bin Sub pb pc)), (Bin Sub (Bin Sub pa pb) pc), (lit "a sub b sub c").
  split; [exact ascii_env_ok|]. split; [discriminate|]. split; [vm_compute; reflexivity|]. split; [vm_compute; reflexivity|].
  split; [|auto].
  apply (g_bin ascii_env true 1 Sub _ _ (lit "a sub b") (lit " ") (lit " ") (lit "c")); [cbn; lia|apply ws_sp|apply ws_sp| |].
  - apply (g_bin ascii_env true _ Sub _ _ (lit "a") (lit " ") (lit " ") (lit "b")); [cbn; lia|apply ws_sp|apply ws_sp| |]; apply g_prop, ex_prop; cbn; auto.
  - apply g_prop, ex_prop. cbn. auto.
Qed.
(** a property whose name is a keyword in any letter case cannot be read back; nor can a member of
    a negation, the double negation, the negation of a number *)
Theorem c64_names_refuted : exists E, env_ok E
  /\ fmt E (XProp (lit "Time")) = Ok (lit "Time") /\ from_str E None (lit "Time") = Err ValueError
  /\ fmt E (XProp (lit "True")) = Ok (lit "True") /\ from_str E None (lit "True") = Ok (XLit (LBool true))
  /\ fmt E (XProp (lit "X")) = Ok (lit "X") /\ from_str E None (lit "X") = Err ValueError.
Proof. exists ascii_env. split; [exact ascii_env_ok|]. vm_compute. auto 12. Qed.
Theorem c64_negative_refuted : exists E, env_ok E
  /\ fmt E (obj (Neg (Lit (LInt32 5)))) = Ok (lit "-5") /\ from_str E None (lit "-5") = Ok (obj (Lit (LInt32 (-5))))
  /\ fmt E (obj (Not (Not pa))) = Ok (lit "not not a")
  /\ fmt E (obj (Member (Neg pa) (lit "b"))) = Ok (lit "(-a)/b") /\ from_str E None (lit "(-a)/b") = Err ValueError.
Proof. exists ascii_env. split; [exact ascii_env_ok|]. vm_compute. auto 12. Qed.
(** a type test of the entity in context, and the empty binary value, have no text at all *)
Theorem c64_no_text_refuted : exists E, env_ok E
  /\ from_str E None (lit "isof('T')") = Ok (obj (IsOf1 (lit "T"))) /\ fmt E (obj (IsOf1 (lit "T"))) = Err IndexError
  /\ from_str E None (lit "X''") = Ok (XLit LBinText) /\ fmt E (XLit LBinText) = Err TypeError.
Proof. exists ascii_env. split; [exact ascii_env_ok|]. vm_compute. auto 12. Qed.

Print Assumptions c63_parse_partial.
Print Assumptions c63_unambiguous.
Print Assumptions c63_total.
Print Assumptions c63_orderby.
Print Assumptions c63_orderby_total.
Print Assumptions c64_roundtrip_partial.
Print Assumptions c64_injective.
Print Assumptions c64_orderby_partial.
Print Assumptions c65_literal_partial.
Print Assumptions c65_roundtrip_partial.
Print Assumptions c65_string_safe.
Print Assumptions c63_double_negation_refuted.
Print Assumptions c63_bracketed_negation_refuted.
Print Assumptions c63_minus_inf_refuted.
Print Assumptions c63_params_refuted.
Print Assumptions c63_too_much_refuted.
Print Assumptions c64_brackets_refuted.
Print Assumptions c64_names_refuted.
Print Assumptions c64_negative_refuted.
Print Assumptions c64_no_text_refuted.
