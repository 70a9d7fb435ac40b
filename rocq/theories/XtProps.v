(** C82-C87: XML text. *)
From Coq Require Import Permutation.
From Verif Require Import Py Num CmSpec CdModel CdProofs XtSpec XtModel XtParse XtMarkup XtElement XtCanon XtWrite XtTree XtEq.

Definition any : str -> bool := fun _ => true.
(** ** C82: what is escaped comes back *)
Definition text (s : str) : list node := match s with [] => [] | _ => [Text s] end.
Definition no_markup : str -> Prop := fun _ => False.
Lemma text_element : forall mixed n t src its, xml_name n -> mixed n = true -> content_text mixed no_markup no_markup its t ->
  (forall m ch, feed m ch its = let! ch := handle_data m ch src in Ok ch) ->
  element_text mixed no_markup no_markup (Elem n [] (text src)) (lit "<" ++ n ++ lit ">" ++ t ++ lit "</" ++ n ++ lit ">").
Proof. intros. apply (simple_element mixed no_markup no_markup n its t src); try assumption. eapply any_proper. eassumption. Qed.
Lemma parse_text : forall mixed e t, element_text mixed no_markup no_markup e t -> parse_element mixed (S (length t)) t = Ok (e, []).
Proof.
  intros mixed e t H. apply element_iff. exists t. split; [rewrite app_nil_r; reflexivity|]. eapply grammar_mono; [| |exact H]; intros ? [].
Qed.
Theorem c82_data : forall mixed n seven src, xml_name n -> mixed n = true -> (seven = true -> Forall xml_char src) ->
  let t := lit "<" ++ n ++ lit ">" ++ escape_function seven src false ++ lit "</" ++ n ++ lit ">" in
  parse_element mixed (S (length t)) t = Ok (Elem n [] (text src), []).
Proof.
  intros mixed n seven src Hn Hm Hx t. apply parse_text. destruct (escape_plain seven src Hx) as (ts & Es & Hf).
  destruct (cont_escaped mixed no_markup no_markup src ts [Data []] [] Hf (cont_nil _ _ _)) as (its & I1 & _ & I3); [constructor|].
  rewrite app_nil_r in I1. unfold t. rewrite Es. eapply text_element; try eassumption.
Qed.
Theorem c82_cdata_section : forall mixed n src, xml_name n -> mixed n = true ->
  let t := lit "<" ++ n ++ lit ">" ++ escape_cdsect src ++ lit "</" ++ n ++ lit ">" in
  parse_element mixed (S (length t)) t = Ok (Elem n [] (text src), []).
Proof.
  intros mixed n src Hn Hm t. apply parse_text. destruct (cont_cdsect mixed no_markup no_markup src [Data []] [] (cont_nil _ _ _)) as (its & I1 & _ & I3); [constructor|].
  rewrite app_nil_r in I1. eapply text_element; try eassumption.
Qed.
Theorem c82_attribute_partial : forall seven src rest, (seven = true -> Forall xml_char src) -> Forall (fun c => c <> 9 /\ c <> 10) src ->
  parse_att_value (escape_function seven src true ++ rest) = Ok (src, rest).
Proof. intros seven src rest Hx H. rewrite escape_value by exact Hx. rewrite att_exact by assumption. reflexivity. Qed.
(** Tabs and line feeds are written as they are: they come back as spaces. *)
Theorem c82_attribute_space : forall seven src rest, (seven = true -> Forall xml_char src) ->
  parse_att_value (escape_function seven src true ++ rest) = Ok (map (fun c => if (c =? 9) || (c =? 10) then 32 else c) src, rest).
Proof. intros. apply escape_value. assumption. Qed.
Theorem c82_attribute_refuted : ~ forall src rest, parse_att_value (escape_char_data src true ++ rest) = Ok (src, rest).
Proof. intro H. specialize (H [10] []). discriminate. Qed.
Lemma hexn_ascii : forall n v, Forall (fun c => 0 <= c <= 127) (hexn n v).
Proof.
  induction n as [|n IH]; intro v; cbn [hexn]; [constructor|]. apply Forall_app. split; [apply IH|]. constructor; [|constructor].
  pose proof (Z.mod_pos_bound v 16). unfold hexd. destruct (_ <? _); lia.
Qed.
Theorem c82_ascii : forall src quote, Forall (fun c => 0 <= c) src -> Forall (fun c => 0 <= c <= 127) (escape_char_data7 src quote).
Proof.
  intros src quote H.
  assert (A : forall s, forallb (fun c => (0 <=? c) && (c <=? 127)) s = true -> Forall (fun c => 0 <= c <= 127) s).
  { intros s Hs. apply Forall_forall. intros c Hc. rewrite forallb_forall in Hs. specialize (Hs c Hc). lia. }
  assert (K : forall q c, 0 <= c -> (match q with Some (_, r) => Forall (fun c => 0 <= c <= 127) r | None => True end) -> Forall (fun c => 0 <= c <= 127) (esc7 q c)).
  { intros q c Hc Hq. unfold esc7. destruct (127 <? c) eqn:E.
    - repeat match goal with |- context [if ?x then _ else _] => destruct x end; (apply Forall_app; split; [apply A; reflexivity|]; apply Forall_app; split; [apply hexn_ascii|apply A; reflexivity]).
    - repeat match goal with |- context [if ?x then _ else _] => destruct x end; try (apply A; reflexivity).
      destruct q as [[q r]|]; [|constructor; [lia|constructor]]. destruct (c =? q); [exact Hq|constructor; [lia|constructor]]. }
  assert (M : forall q, (match q with Some (_, r) => Forall (fun c => 0 <= c <= 127) r | None => True end) -> Forall (fun c => 0 <= c <= 127) (concat (map (esc7 q) src))).
  { intros q Hq. induction H as [|c s Hc H IH]; [constructor|]. cbn [map concat]. apply Forall_app. split; [apply K; assumption|exact IH]. }
  unfold escape_char_data7. destruct quote; [|apply M; exact Logic.I].
  repeat match goal with |- context [if ?x then _ else _] => destruct x end; cbn [fst]; (constructor; [lia|]; apply Forall_app; split; [apply M; apply A; reflexivity|constructor; [lia|constructor]]).
Qed.
Example c82_ex1 : escape_char_data (lit "a<b & ""c"" ]]>") true = lit "'a&lt;b &amp; ""c"" ]]&gt;'".
Proof. vm_compute. reflexivity. Qed.
Example c82_ex2 : escape_char_data7 [233; 8364; 128512; 13; 39] true = lit """&#xE9;&#x20AC;&#x01F600;&#xD;'""".
Proof. vm_compute. reflexivity. Qed.
Example c82_ex3 : escape_cdsect (lit "a]]>b") = lit "<![CDATA[a]]>]]&gt;<![CDATA[b]]>".
Proof. vm_compute. reflexivity. Qed.
Print Assumptions c82_data.
Print Assumptions c82_cdata_section.
Print Assumptions c82_attribute_partial.
Print Assumptions c82_ascii.

(** ** C83: well-formed elements are read *)
Definition short_pi (t : str) : Prop := exists n, pi_target n /\
  (t = lit "<?" ++ n ++ lit "?>" \/
   exists s d, t = lit "<?" ++ n ++ s ++ d ++ lit "?>" /\ spaces s /\ s <> [] /\ ~ contains (lit "?>") d /\ last d 0 <> 63).
Lemma short_data : forall k d, (length d <= k)%nat -> ~ contains (lit "?>") d -> last d 0 <> 63 -> pi_data d.
Proof.
  induction k as [|k IH]; intros d Hk Hc Hl; [destruct d; [constructor|cbn in Hk; lia]|]. destruct d as [|c d]; [constructor|]. cbn [length] in Hk.
  assert (Hc' : ~ contains (lit "?>") d) by (intro K; apply Hc, contains_cons; [discriminate|]; right; exact K).
  destruct (Z.eq_dec c 63) as [->|N].
  - destruct d as [|x d]; [cbn in Hl; congruence|]. cbn [length] in Hk. apply pd_quest.
    + intros ->. apply Hc. exists [], d. reflexivity.
    + apply IH; [lia|intro K; apply Hc', contains_cons; [discriminate|]; right; exact K|]. destruct d as [|y d]; [cbn; lia|]. exact Hl.
  - apply pd_char; [exact N|]. apply IH; [lia|exact Hc'|]. destruct d as [|y d]; [cbn; lia|]. exact Hl.
Qed.
Lemma strict_lax : forall mixed e t, element_text mixed xml_comment short_pi e t -> element_text mixed lax_comment lax_pi e t.
Proof.
  intros mixed e t H. eapply grammar_mono; [| |exact H].
  - intros u (b & -> & Hb). exists b, []. split; [reflexivity|]. split; [exact Hb|constructor].
  - intros u (n & Hn & [->|(s & d & -> & Hs & Ns & Hc & Hl)]); exists n; (split; [exact Hn|]); [left; reflexivity|].
    right. exists s, d. repeat split; try assumption. eapply short_data; [apply le_n|assumption|assumption].
Qed.
Theorem c83_complete_partial : forall mixed e t rest, element_text mixed xml_comment short_pi e t ->
  parse_element mixed (S (length (t ++ rest))) (t ++ rest) = Ok (e, rest).
Proof. intros mixed e t rest H. apply element_iff. exists t. split; [reflexivity|]. apply strict_lax, H. Qed.
(** one tree for a text *)
Theorem c83_unambiguous : forall mixed e e' t, element_text mixed xml_comment short_pi e t -> element_text mixed xml_comment short_pi e' t -> e = e'.
Proof.
  intros mixed e e' t H H'. apply (c83_complete_partial mixed e t []) in H. apply (c83_complete_partial mixed e' t []) in H'. congruence.
Qed.
(** A processing instruction whose data ends with a question mark is read past its end. *)
Definition pi_question : str := lit "<a><?p ??></a>".
Theorem c83_pi_refuted : element_text any xml_comment xml_pi (Elem (lit "a") [] []) pi_question /\
  (forall f, parse_element any (S (S (S (S (S f))))) pi_question = Err XMLError).
Proof.
  split.
  - apply (et_full any xml_comment xml_pi (lit "a") [] [] [] [Data []; Data []; Data []] [] (lit "<?p ??>") []).
    + apply valid_name; reflexivity.
    + constructor.
    + constructor.
    + constructor.
    + apply (ct_more any xml_comment xml_pi [] (Data []) (lit "<?p ??>") [Data []] []); [apply cd_nil| |constructor; apply cd_nil].
      apply mk_pi. exists (lit "p"). split; [split; [apply valid_name; reflexivity|discriminate]|]. right. exists (lit " "), (lit "?"). split; [reflexivity|].
      split; [constructor; [left; reflexivity|constructor]|]. split; [discriminate|]. intros (a & b & K). destruct a as [|x [|y a]]; cbn in K; try discriminate.
    + repeat constructor.
    + constructor.
  - intros f. reflexivity.
Qed.
Definition sample : str := lit "<a x = ""1&lt;2"" y='&#233;'><!-- c --><b/>t<![CDATA[<&]]>&amp;<?p q?></a >".
Example c83_ex : parse_element any 100 sample =
  Ok (Elem (lit "a") [(lit "x", lit "1<2"); (lit "y", [233])] [Elem (lit "b") [] []; Text (lit "t<&&")], []).
Proof. vm_compute. reflexivity. Qed.
Print Assumptions c83_complete_partial.
Print Assumptions c83_unambiguous.
Print Assumptions c83_pi_refuted.

(** ** C84: what is read is well formed *)
Theorem c84_exact : forall mixed t e rest, parse_element mixed (S (length t)) t = Ok (e, rest) <->
  exists u, t = u ++ rest /\ element_text mixed lax_comment lax_pi e u.
Proof. intros. apply element_iff. Qed.
(** the steps do not matter *)
Theorem c84_sound_partial : forall mixed f t e rest, parse_element mixed f t = Ok (e, rest) ->
  exists u, t = u ++ rest /\ element_text mixed lax_comment lax_pi e u.
Proof. intros mixed f t e rest H. apply (proj1 (sound mixed f)), H. Qed.
(** ]]> in character data: never an answer *)
Theorem c84_endless : forall mixed f n r, xml_name n -> parse_element mixed f (lit "<" ++ n ++ lit ">]]>" ++ r) = Err Timeout.
Proof.
  intros mixed f n r Hn. destruct f as [|f]; [reflexivity|]. cbn [parse_element]. unfold parse_stag. rewrite req_app. cbn [rbind].
  rewrite required_name_app; [|assumption|reflexivity]. cbn [rbind]. change (lit ">]]>" ++ r) with ([] ++ [] ++ tag_end false ++ lit "]]>" ++ r).
  rewrite (stag_complete [] [] as_nil _ [] [] false (lit "]]>" ++ r)); [|constructor|constructor|cbn; lia]. cbn [rbind app].
  match goal with |- rbind ?x _ = _ => change x with (parse_content mixed f (mixed n) [] (lit "]]>" ++ r)) end. rewrite stuck. reflexivity.
Qed.
Theorem c84_comment_refuted : parse_element any 20 (lit "<a><!--x-- ></a>") = Ok (Elem (lit "a") [] [], []) /\ ~ xml_comment (lit "<!--x-- >").
Proof.
  split; [reflexivity|]. intros (b & H & _). assert (L : length b = 2%nat) by (apply (f_equal (@length Z)) in H; rewrite !app_length in H; cbn in H; lia).
  destruct b as [|x [|y [|z b]]]; cbn in L; try lia. cbn in H. discriminate.
Qed.
Theorem c84_characters_refuted : parse_element any 20 (lit "<a>" ++ [1] ++ lit "</a>") = Ok (Elem (lit "a") [] [Text [1]], []) /\ ~ xml_char 1.
Proof. split; [reflexivity|]. unfold xml_char. lia. Qed.
(** errors that are not the documented ones *)
Theorem c84_exceptions_refuted : parse_element any 20 (lit "<a><??></a>") = Err AttributeError /\
  parse_element any 30 (lit "<a>&#x110000;</a>") = Err ValueError /\ parse_element any 20 (lit "<a><?p ?") = Err TypeError.
Proof. repeat split; reflexivity. Qed.
Example c84_ex1 : parse_element any 20 (lit "<a x='1' x='2'/>") = Err XMLError. Proof. reflexivity. Qed.
Example c84_ex2 : parse_element any 20 (lit "<a><b></a></b>") = Err XMLError. Proof. reflexivity. Qed.
Example c84_ex3 : parse_element any 20 (lit "<a>&nbsp;</a>") = Err XMLError. Proof. reflexivity. Qed.
Print Assumptions c84_exact.
Print Assumptions c84_sound_partial.
Print Assumptions c84_endless.

(** ** C85: written and read *)
Definition element (e : node) : Prop := exists n a ch, e = Elem n a ch.
Lemma is_elem_iff : forall e, is_elem e <-> element e.
Proof. intros [s|n a ch]; split; [intros []|intros (? & ? & ? & ?); discriminate|intros _; unfold element; eauto|intros _; exact Logic.I]. Qed.
Lemma writable_dict : forall mixed p e, every (writable mixed) p e -> every dict p e.
Proof. intros mixed p e H. eapply every_impl; [|exact H]. intros ? ? ? ? (_ & H' & _). exact H'. Qed.
Theorem c85_round_trip : forall mixed seven e pp indent tab, every (writable mixed) false e -> element e -> spaces indent -> spaces tab ->
  exists w u e', generate_xml mixed seven e false pp indent tab = w ++ u /\ spaces w /\
    parse_element mixed (S (length u)) u = Ok (e', []) /\ equal e' e false false = true.
Proof.
  intros mixed seven e pp indent tab He Hel Hi Ht. destruct (written mixed no_markup no_markup seven e false pp indent tab) as (u & Eu & Hu); try assumption; [apply is_elem_iff, Hel|].
  exists (ws_of indent tab), u, (deep false e). split; [exact Eu|]. split.
  { destruct tab; cbn [ws_of]; [apply Forall_nil|apply Forall_cons; [unfold xml_s; lia|exact Hi]]. }
  split; [apply parse_text, Hu|]. pose proof (writable_dict _ _ _ He) as Hd. destruct Hel as (n & a & ch & ->).
  apply equal_deep; [apply deep_every, Hd|exact Hd|cbn [deep]; eauto|eauto|]. eapply deep_deep. exact He.
Qed.
(** What is written is an element of the grammar of XML, whatever the parser. *)
Theorem c85_well_formed : forall mixed seven e pp indent tab, every (writable mixed) false e -> element e -> spaces indent -> spaces tab ->
  exists w u e', generate_xml mixed seven e false pp indent tab = w ++ u /\ spaces w /\ element_text mixed xml_comment xml_pi e' u.
Proof.
  intros mixed seven e pp indent tab He Hel Hi Ht. destruct (written mixed xml_comment xml_pi seven e false pp indent tab) as (u & Eu & Hu); try assumption; [apply is_elem_iff, Hel|].
  exists (ws_of indent tab), u, (deep false e). split; [exact Eu|]. split; [|exact Hu].
  destruct tab; cbn [ws_of]; [apply Forall_nil|apply Forall_cons; [unfold xml_s; lia|exact Hi]].
Qed.
(** Reading it in any pieces changes no end of line. *)
Theorem c85_lines : forall mixed seven e pp indent tab reads, every (writable mixed) false e -> element e ->
  ~ In 13 indent -> ~ In 13 tab -> Forall (fun r => r <> []) reads -> concat reads = generate_xml mixed seven e false pp indent tab ->
  entity_chars reads false = generate_xml mixed seven e false pp indent tab.
Proof.
  intros mixed seven e pp indent tab reads He Hel Hi Ht Hr E.
  assert (N : forall s : str, ~ In 13 s -> ncr s) by (intros s Hs; apply Forall_forall; intros c Hc ->; contradiction).
  rewrite entity_concat by assumption. rewrite E. pose proof (written_ncr mixed seven e false pp indent tab He (proj2 (is_elem_iff e) Hel) (N _ Hi) (N _ Ht)) as K.
  eapply eol_det; [apply (proj1 (next_eol _))|apply eol_id; exact K].
Qed.
(** Elements that are equal are written the same. *)
Lemma deep_generate : forall mixed seven e p e', every dict p e -> every dict p e' -> is_elem e -> is_elem e' -> deep p e = deep p e' ->
  forall pp indent tab, generate_xml mixed seven e p pp indent tab = generate_xml mixed seven e' p pp indent tab.
Proof.
  intros mixed seven. induction e as [s|n a ch IH] using node_rect'; intros p e' D D' He He' E pp indent tab; [destruct He|].
  destruct e' as [s|n' a' ch']; [destruct He'|]. inversion D as [|? ? ? ? N C]; subst. inversion D' as [|? ? ? ? N' C']; subst. unfold dict in N, N'.
  rewrite !deep_elem in E. injection E as <- Ea Ec. rewrite <- preserves_force in C, C' by assumption.
  assert (G : forall k, get_attr k a = get_attr k a').
  { intro k. rewrite (get_attr_perm k a _ (sort_perm a) N), Ea. symmetry. apply get_attr_perm; [apply sort_perm|exact N']. }
  assert (Ep : preserves p a' = preserves p a) by (unfold preserves, get_space; rewrite G; reflexivity).
  rewrite !generate_elem. cbv zeta. rewrite Ep in *. set (P := preserves p a) in *.
  assert (can_pretty_print mixed n a' pp = can_pretty_print mixed n a pp) as -> by (unfold can_pretty_print, get_space; rewrite G; reflexivity).
  set (pretty := can_pretty_print mixed n a pp).
  assert (attributes_text seven a' = attributes_text seven a) as -> by (unfold attributes_text; rewrite Ea; reflexivity).
  assert (Ie : forall e, In (PElem e) (canonical_children P (pieces ch)) -> In e ch /\ is_elem e).
  { intros e Hx. apply canonical_in in Hx. apply pieces_in in Hx as (Hx & ? & ? & ? & ->). split; [exact Hx|exact Logic.I]. }
  assert (Ie' : forall e, In (PElem e) (canonical_children P (pieces ch')) -> In e ch' /\ is_elem e).
  { intros e Hx. apply canonical_in in Hx. apply pieces_in in Hx as (Hx & ? & ? & ? & ->). split; [exact Hx|exact Logic.I]. }
  assert (K : Forall2 (prel eq (fun e e' => forall i t, generate_xml mixed seven e P pretty i t = generate_xml mixed seven e' P pretty i t)) (canonical_children P (pieces ch)) (canonical_children P (pieces ch'))).
  { revert Ec Ie Ie'. generalize (canonical_children P (pieces ch')) as l'. generalize (canonical_children P (pieces ch)) as l.
    induction l as [|x l IHl]; intros [|y l'] Ec Ie Ie'; try discriminate; [constructor|]. cbn [pmap map unp] in Ec. injection Ec as E1 E2.
    constructor; [|apply IHl; [exact E2| |]; intros z Hz; [apply Ie|apply Ie']; right; exact Hz].
    destruct x as [s|x], y as [s'|y].
    - injection E1 as ->. constructor. reflexivity.
    - destruct (Ie' y (or_introl eq_refl)) as [_ Hy]. destruct y; [destruct Hy|discriminate].
    - destruct (Ie x (or_introl eq_refl)) as [_ Hx]. destruct x; [destruct Hx|discriminate].
    - destruct (Ie x (or_introl eq_refl)) as [Hx Ex]. destruct (Ie' y (or_introl eq_refl)) as [Hy Ey]. rewrite Forall_forall in IH, C, C'. constructor. intros i t. apply IH; auto. }
  clear IH C C' D D' He He' Ie Ie' Ec. revert K. generalize (canonical_children P (pieces ch')) as l'. generalize (canonical_children P (pieces ch)) as l. intros l l' K.
  assert (Fm : forall i t, flat_map (fun c => match c with PText s => escape_function seven s false | PElem e => generate_xml mixed seven e P pretty i t end) l
    = flat_map (fun c => match c with PText s => escape_function seven s false | PElem e => generate_xml mixed seven e P pretty i t end) l').
  { intros i t. induction K as [|x y l l' Hx K IHK]; [reflexivity|]. cbn [flat_map]. rewrite IHK. f_equal. destruct Hx as [s s' ->|x y Hxy]; [reflexivity|apply Hxy]. }
  assert (Ex : existsb (fun c : piece node => match c with PText _ => true | PElem _ => false end) l = existsb (fun c => match c with PText _ => true | PElem _ => false end) l').
  { clear Fm. induction K as [|x y l l' Hx K IHK]; [reflexivity|]. cbn [existsb]. rewrite IHK. destruct Hx; reflexivity. }
  assert (Pr : match l with PText (c :: _) :: _ => is_s c | _ => false end = match l' with PText (c :: _) :: _ => is_s c | _ => false end).
  { destruct K as [|x y l l' Hx K]; [reflexivity|]. destruct Hx as [s s' ->|]; reflexivity. }
  rewrite Pr, Fm, Ex. destruct K; reflexivity.
Qed.
Theorem c85_same_text : forall mixed seven e e' p pp indent tab, every dict p e -> every dict p e' -> element e -> element e' ->
  equal e e' p p = true -> generate_xml mixed seven e p pp indent tab = generate_xml mixed seven e' p pp indent tab.
Proof.
  intros mixed seven e e' p pp indent tab D D' H H' E. apply equal_deep in E; [|assumption|assumption|exact H|exact H']. apply deep_generate; try assumption; apply is_elem_iff; assumption.
Qed.
(** What does not come back *)
Definition back (mixed : str -> bool) (e : node) : option bool :=
  let t := generate_xml mixed false e false true [] [] in
  match parse_element mixed (S (length t)) t with Ok (e', _) => Some (equal e' e false false) | Err _ => None end.
Theorem c85_attribute_refuted : back any (Elem (lit "a") [(lit "x", [10])] []) = Some false.
Proof. vm_compute. reflexivity. Qed.
Theorem c85_adjacent_refuted : back any (Elem (lit "a") [] [Text (lit " "); Text (lit " ")]) = Some false.
Proof. vm_compute. reflexivity. Qed.
Theorem c85_empty_refuted : back any (Elem (lit "a") [(lit "xml:space", lit "preserve")] [Text []]) = Some false.
Proof. vm_compute. reflexivity. Qed.
Definition lists : str -> bool := fun n => str_eqb n (lit "p").
Definition tree : node := Elem (lit "doc") [(lit "b", lit "<'>"); (lit "a", [233])]
  [Elem (lit "p") [] [Text (lit "  one "); Elem (lit "p") [] []; Text (lit "  & two ")]; Elem (lit "doc") [] [Elem (lit "p") [(lit "xml:space", lit "preserve")] [Text (lit " x ")]]].
Lemma named : forall c r, name_start c -> Forall name_char r -> xml_name (c :: r).
Proof. intros c r Hc Hr. exists c, r. auto. Qed.
Example c85_ex1 : every (writable lists) false tree.
Proof.
  assert (V : forall n, is_valid_name n = true -> xml_name n) by exact valid_name.
  assert (NA : forall ch, (forall l s s' r, ch = l ++ Text s :: Text s' :: r -> False) -> ~ adjacent_texts ch) by (intros ch H (l & s & s' & r & E); apply (H l s s' r E)).
  assert (XC : forall s, forallb is_char_b s = true -> Forall xml_char s) by (intros s H; apply Forall_forall; intros c Hc; rewrite forallb_forall in H; apply char_b_iff, H, Hc).
  assert (XV : forall s, forallb (fun c => is_char_b c && negb (c =? 9) && negb (c =? 10)) s = true -> Forall (fun c => xml_char c /\ c <> 9 /\ c <> 10) s).
  { intros s H. apply Forall_forall. intros c Hc. rewrite forallb_forall in H. specialize (H c Hc). apply andb_true_iff in H as [H H3]. apply andb_true_iff in H as [H1 H2]. split; [apply char_b_iff, H1|lia]. }
  Ltac one V NA XC XV := (split; [apply V; reflexivity|]; split; [repeat (constructor; [cbn; intuition discriminate|]); constructor|]; split; [repeat (constructor; [split; [apply V; reflexivity|apply XV; reflexivity]|]); constructor|];
    split; [repeat (constructor; [first [exact Logic.I|apply XC; reflexivity]|]); constructor|];
    split; [apply NA; intros l s s' r E; repeat (destruct l as [|? l]; cbn in E; try discriminate E; try injection E as ? E); try (destruct l; discriminate)|]; split; [cbn; intuition discriminate|cbn; intros; intuition discriminate]).
  unfold tree. constructor; [one V NA XC XV|]. constructor; [|constructor; [|constructor]].
  - constructor; [one V NA XC XV|]. constructor; [constructor|]. constructor; [|constructor; [constructor|constructor]]. constructor; [one V NA XC XV|constructor].
  - constructor; [one V NA XC XV|]. constructor; [|constructor]. constructor; [one V NA XC XV|]. constructor; [constructor|constructor].
Qed.
Example c85_ex2 : generate_xml lists true tree false true [] [9] =
  [10] ++ lit "<doc a=""&#xE9;"" b=""&lt;'&gt;"">" ++ [10; 9] ++ lit "<p>one <p/> &amp; two</p>" ++ [10; 9] ++ lit "<doc>" ++ [10; 9; 9]
  ++ lit "<p xml:space=""preserve""> x </p>" ++ [10; 9] ++ lit "</doc>" ++ [10] ++ lit "</doc>".
Proof. vm_compute. reflexivity. Qed.
Print Assumptions c85_round_trip.
Print Assumptions c85_well_formed.
Print Assumptions c85_lines.
Print Assumptions c85_same_text.

(** ** C86: the ends of lines *)
Theorem c86_eol : forall reads, Forall (fun r => r <> []) reads -> eol (concat reads) (entity_chars reads false).
Proof. intros reads H. rewrite entity_concat by assumption. apply next_eol. Qed.
Theorem c86_pieces : forall reads reads', Forall (fun r => r <> []) reads -> Forall (fun r => r <> []) reads' -> concat reads = concat reads' ->
  entity_chars reads false = entity_chars reads' false.
Proof. intros reads reads' H H' E. rewrite !entity_concat by assumption. rewrite E. reflexivity. Qed.
Theorem c86_function : forall s u v, eol s u -> eol s v -> u = v.
Proof. intros s u v H H'. eapply eol_det; eassumption. Qed.
Theorem c86_no_cr : forall s u, eol s u -> ~ In 13 u.
Proof. intros s u H. induction H; cbn [In]; try tauto; intros [K|K]; congruence || contradiction. Qed.
Example c86_ex : entity_chars [[97; 13]; [10; 98; 13]; [13; 10]; [13]] false = [97; 10; 98; 10; 10; 10].
Proof. reflexivity. Qed.
Print Assumptions c86_eol.
Print Assumptions c86_pieces.

(** ** C87: equality *)
Theorem c87_reflexive : forall e p, element e -> every dict p e -> equal e e p p = true.
Proof. intros e p H D. apply equal_deep; auto. Qed.
Theorem c87_symmetric : forall e e' p q, element e -> element e' -> every dict p e -> every dict q e' -> equal e e' p q = equal e' e q p.
Proof. intros e e' p q H H' D D'. apply eq_true_iff_eq. rewrite !equal_deep by assumption. split; auto. Qed.
Theorem c87_transitive : forall e1 e2 e3 p q r, element e1 -> element e2 -> element e3 -> every dict p e1 -> every dict q e2 -> every dict r e3 ->
  equal e1 e2 p q = true -> equal e2 e3 q r = true -> equal e1 e3 p r = true.
Proof. intros e1 e2 e3 p q r H1 H2 H3 D1 D2 D3 E1 E2. apply equal_deep in E1; auto. apply equal_deep in E2; auto. apply equal_deep; auto. congruence. Qed.
Theorem c87_alike : forall e e' p, element e -> every dict p e -> every dict p e' -> alike p e e' -> equal e e' p p = true.
Proof.
  intros e e' p H D D' A. apply equal_deep; auto; [destruct H as (n & a & ch & ->); inversion A; subst; eauto|]. apply alike_deep; auto. apply is_elem_iff, H.
Qed.
Lemma attrs_self : forall a, NoDup (map fst a) -> (names_eqb (map fst (sort_attrs a)) (map fst (sort_attrs a))
    && forallb (fun x => match get_attr (fst x) a, get_attr (fst x) a with Some v, Some v' => str_eqb v v' | _, _ => false end) (sort_attrs a)) = true.
Proof. intros a N. apply attrs_equal; auto. Qed.
(** exactly when elements with one text are equal *)
Theorem c87_text : forall n a p s s', NoDup (map fst a) -> equal (Elem n a [Text s]) (Elem n a [Text s']) p p = true <->
  if in_force p a then s = s' else exists r r' t t', s = r ++ t /\ s' = r' ++ t' /\ spaces r /\ spaces r' /\ respaced t t'.
Proof.
  intros n a p s s' N. assert (D : forall s, every dict p (Elem n a [Text s])) by (intro; constructor; [exact N|constructor; [constructor|constructor]]).
  rewrite equal_deep; eauto. rewrite !deep_elem. rewrite preserves_force by assumption. cbn [pieces map]. destruct (in_force p a); cbn [canonical_children pmap map unp].
  - split; [intro H; injection H as ->; reflexivity|intros ->; reflexivity].
  - rewrite <- collapse_space_iff. split; [intro H; injection H as ->; reflexivity|intros ->; reflexivity].
Qed.
(** elements that are equal have the same name, attributes and number of child elements, in order *)
Theorem c87_equal : forall n a ch n' a' ch' p q, every dict p (Elem n a ch) -> every dict q (Elem n' a' ch') -> equal (Elem n a ch) (Elem n' a' ch') p q = true ->
  n = n' /\ Permutation a a' /\ (in_force p a = true -> in_force q a' = true -> forall s, In (Text s) ch <-> In (Text s) ch').
Proof.
  intros n a ch n' a' ch' p q D D' E. apply equal_deep in E; [|assumption|assumption|eauto|eauto]. rewrite !deep_elem in E. injection E as -> Ea Ec.
  inversion D as [|? ? ? ? N C]; subst. inversion D' as [|? ? ? ? N' C']; subst. split; [reflexivity|]. split.
  { eapply Permutation_trans; [apply sort_perm|]. rewrite Ea. apply Permutation_sym, sort_perm. }
  rewrite !preserves_force in Ec by assumption. intros F F'. rewrite F, F' in Ec. cbn [canonical_children] in Ec.
  assert (K : forall P c s, In (Text s) c <-> In (Text s) (unp (pmap (deep P) (pieces c)))).
  { intros P c s. unfold unp, pmap, pieces. rewrite !map_map. rewrite in_map_iff. split.
    - intro H. exists (Text s). split; [reflexivity|exact H].
    - intros ([s'|x y z] & H & Hi); [injection H as ->; exact Hi|discriminate]. }
  intro s. rewrite (K true ch s), (K true ch' s), Ec. tauto.
Qed.
Example c87_ex1 : equal (Elem (lit "a") [(lit "x", []); (lit "y", [])] [Text (lit " p  q"); Elem (lit "b") [] []; Text (lit "r ")])
                        (Elem (lit "a") [(lit "y", []); (lit "x", [])] [Text (lit "p q"); Elem (lit "b") [] []; Text (lit "r")]) false false = true.
Proof. reflexivity. Qed.
Example c87_ex2 : equal (Elem (lit "a") [] [Text (lit "pq")]) (Elem (lit "a") [] [Text (lit "p q")]) false false = false.
Proof. reflexivity. Qed.
(** A space at the end of the only text counts, a space at the end of the last of several children does not. *)
Example c87_ex3 : equal (Elem (lit "a") [] [Text (lit "p ")]) (Elem (lit "a") [] [Text (lit "p")]) false false = false.
Proof. reflexivity. Qed.
Print Assumptions c87_reflexive.
Print Assumptions c87_transitive.
Print Assumptions c87_alike.
Print Assumptions c87_text.
Print Assumptions c87_equal.
