(** XML text: character data, sections, comments, processing instructions. *)
From Verif Require Import Py Num CmSpec CdModel CdProofs XtSpec XtModel XtParse.

(** ** What contains what *)
Lemma contains_cons : forall w c t, w <> [] -> contains w (c :: t) <-> (exists r, c :: t = w ++ r) \/ contains w t.
Proof.
  intros w c t N. split.
  - intros (a & b & H). destruct a as [|x a]; [left; exists b; exact H|]. right. injection H as -> H. exists a, b. exact H.
  - intros [(r & H)|(a & b & ->)]; [exists [], r; exact H|]. exists (c :: a), b. reflexivity.
Qed.
Lemma contains_nil : forall w, contains w [] -> w = [].
Proof. intros w (a & b & H). destruct a; [|discriminate]. destruct w; [reflexivity|discriminate]. Qed.
Lemma contains_app_l : forall w a b, contains w b -> contains w (a ++ b).
Proof. intros w a b (x & y & ->). exists (a ++ x), y. aeq. Qed.
Lemma contains_app_r : forall w a b, contains w a -> contains w (a ++ b).
Proof. intros w a b (x & y & ->). exists x, (y ++ b). aeq. Qed.

(** ** Character data *)
Definition markup_head (t : str) : Prop := match t with [] => True | c :: _ => c = 60 \/ c = 38 end.
Lemma char_data_complete : forall d rest, char_data d -> markup_head rest -> char_data_loop (d ++ rest) = (d, rest).
Proof.
  induction d as [|c d IH]; intros rest [Hf Hc] Hr.
  - destruct rest as [|c r]; [reflexivity|]. cbn [app char_data_loop]. cbn [markup_head] in Hr. replace ((c =? 60) || (c =? 38)) with true by lia. reflexivity.
  - inversion Hf as [|? ? [F1 F2] Fr]; subst. cbn [app char_data_loop]. replace ((c =? 60) || (c =? 38)) with false by lia.
    assert (parse_literal (lit "]]>") (c :: d ++ rest) = None) as ->.
    { apply literal_none. intros (r & K). apply Hc. change (lit "]]>") with [93; 93; 62] in *. cbn [app] in K. injection K as -> K.
      destruct d as [|x d]; [destruct rest as [|x rest]; [discriminate|]; cbn in K, Hr; injection K as -> K; lia|].
      cbn [app] in K. injection K as -> K.
      destruct d as [|y d]; [destruct rest as [|y rest]; [discriminate|]; cbn in K, Hr; injection K as -> K; lia|].
      cbn [app] in K. injection K as -> K. exists [], d. reflexivity. }
    rewrite IH; [reflexivity| |assumption]. split; [assumption|]. intro K. apply Hc. apply contains_cons; [discriminate|]. right. exact K.
Qed.
Lemma char_data_sound : forall t d u, char_data_loop t = (d, u) -> t = d ++ u /\ char_data d /\
  (markup_head u \/ exists r, u = lit "]]>" ++ r).
Proof.
  induction t as [|c t IH]; intros d u H; cbn [char_data_loop] in H.
  - injection H as <- <-. repeat split; [constructor|intro K; apply contains_nil in K; discriminate|left; exact eq_refl || constructor].
  - assert (C0 : char_data []) by (split; [constructor|intro K; apply contains_nil in K; discriminate]).
    destruct ((c =? 60) || (c =? 38)) eqn:E1.
    { injection H as <- <-. split; [reflexivity|]. split; [assumption|]. left. cbn. lia. }
    destruct (parse_literal (lit "]]>") (c :: t)) as [r|] eqn:E2.
    { injection H as <- <-. split; [reflexivity|]. split; [assumption|]. right. apply parse_literal_some in E2. eauto. }
    destruct (char_data_loop t) as [d' u'] eqn:E3. injection H as <- <-. destruct (IH _ _ eq_refl) as (-> & [Hf Hc] & Hu).
    split; [reflexivity|]. split; [|exact Hu]. split; [constructor; [lia|assumption]|].
    intro K. apply contains_cons in K as [(r & K)|K]; [|contradiction|discriminate].
    apply literal_none in E2. apply E2. exists (r ++ u'). rewrite app_assoc, <- K. reflexivity.
Qed.
Lemma cdata_complete : forall d rest, ~ contains (lit "]]>") d -> cdata_loop (d ++ lit "]]>" ++ rest) = (d, lit "]]>" ++ rest).
Proof.
  induction d as [|c d IH]; intros rest Hc.
  - change (lit "]]>") with [93; 93; 62]. cbn [app cdata_loop]. rewrite (lit_app [93; 93; 62] rest) || change (lit "]]>") with [93; 93; 62].
    change (parse_literal [93; 93; 62] (93 :: 93 :: 62 :: rest)) with (Some rest). reflexivity.
  - cbn [app cdata_loop].
    assert (parse_literal (lit "]]>") (c :: d ++ lit "]]>" ++ rest) = None) as ->.
    { apply literal_none. intros (r & K). apply Hc. change (lit "]]>") with [93; 93; 62] in *. cbn [app] in K. injection K as -> K.
      destruct d as [|x d]; [cbn in K; discriminate|]. cbn [app] in K. injection K as -> K.
      destruct d as [|y d]; [cbn in K; discriminate|]. cbn [app] in K. injection K as -> K. exists [], d. reflexivity. }
    rewrite IH; [reflexivity|]. intro K. apply Hc. apply contains_cons; [discriminate|]. right. exact K.
Qed.
Lemma cdata_sound : forall t d u, cdata_loop t = (d, u) -> t = d ++ u /\ ~ contains (lit "]]>") d.
Proof.
  induction t as [|c t IH]; intros d u H; cbn [cdata_loop] in H.
  - injection H as <- <-. split; [reflexivity|]. intro K. apply contains_nil in K. discriminate.
  - destruct (parse_literal (lit "]]>") (c :: t)) as [r|] eqn:E2.
    { injection H as <- <-. split; [reflexivity|]. intro K. apply contains_nil in K. discriminate. }
    destruct (cdata_loop t) as [d' u'] eqn:E3. injection H as <- <-. destruct (IH _ _ eq_refl) as (-> & Hc).
    split; [reflexivity|]. intro K. apply contains_cons in K as [(r & K)|K]; [|contradiction|discriminate].
    apply literal_none in E2. apply E2. exists (r ++ u'). rewrite app_assoc, <- K. reflexivity.
Qed.
Lemma cdsect_complete : forall d rest, ~ contains (lit "]]>") d -> parse_cdsect (d ++ lit "]]>" ++ rest) = Ok (d, rest).
Proof. intros d rest H. unfold parse_cdsect. rewrite cdata_complete by assumption. rewrite req_app. reflexivity. Qed.
Lemma cdsect_sound : forall t d rest, parse_cdsect t = Ok (d, rest) -> t = d ++ lit "]]>" ++ rest /\ ~ contains (lit "]]>") d.
Proof.
  intros t d rest H. unfold parse_cdsect in H. destruct (cdata_loop t) as [d' u] eqn:E. apply cdata_sound in E as [-> Hc].
  step H. apply required_literal_ok in E as ->. injection H as <- <-. split; [reflexivity|assumption].
Qed.

(** ** Comments *)
Lemma body_tail : forall c b, comment_body (c :: b) -> comment_body b.
Proof. intros c b H K. apply H. cbn [app]. apply contains_cons; [discriminate|]. right. exact K. Qed.
Lemma body_nil : comment_body [].
Proof.
  intro K. cbn [app] in K. change (lit "-") with [45] in K. apply contains_cons in K as [(r & K)|K]; [discriminate| |discriminate].
  apply contains_nil in K. discriminate.
Qed.
Lemma body_cons : forall c b, c <> 45 -> comment_body b -> comment_body (c :: b).
Proof.
  intros c b N H K. cbn [app] in K. apply contains_cons in K as [(r & K)|K]; [|contradiction|discriminate].
  change (lit "--") with [45; 45] in K. cbn [app] in K. injection K as -> K. congruence.
Qed.
Lemma body_hyphen : forall c b, c <> 45 -> comment_body b -> comment_body (45 :: c :: b).
Proof.
  intros c b N H K. cbn [app] in K. apply contains_cons in K as [(r & K)|K]; [|apply (body_cons c b N H), K|discriminate].
  change (lit "--") with [45; 45] in K. cbn [app] in K. injection K as -> K. congruence.
Qed.
Lemma body_two : forall b, ~ comment_body (45 :: 45 :: b).
Proof. intros b H. apply H. exists [], (b ++ lit "-"). reflexivity. Qed.
Lemma body_last : ~ comment_body [45].
Proof. intro H. apply H. exists [], []. reflexivity. Qed.
Lemma comment2_complete : forall s r, spaces s -> comment_loop 2 (s ++ 62 :: r) = Ok r.
Proof.
  induction s as [|c s IH]; intros r H; cbn [app comment_loop]; [reflexivity|]. inversion H as [|? ? H1 H2]; subst.
  assert (E : is_s c = true) by (apply is_s_iff; exact H1). unfold xml_s in H1. replace (c =? 45) with false by lia. replace (c =? 62) with false by lia.
  rewrite E. apply IH. exact H2.
Qed.
Lemma comment_complete_01 : forall b s r, spaces s ->
  (comment_body b -> comment_loop 0 (b ++ 45 :: 45 :: s ++ 62 :: r) = Ok r) /\
  (comment_body (45 :: b) -> comment_loop 1 (b ++ 45 :: 45 :: s ++ 62 :: r) = Ok r).
Proof.
  induction b as [|c b IH]; intros s r Hs.
  - split; intro H; [cbn [app]; cbn; apply comment2_complete, Hs|]. destruct (body_last H).
  - destruct (IH s r Hs) as [I0 I1]. destruct (Z.eq_dec c 45) as [->|N].
    + split; intro H; [cbn; apply I1, H|]. destruct (body_two _ H).
    + split; intro H; cbn [app comment_loop]; replace (c =? 45) with false by lia.
      * apply body_tail in H. destruct (c =? 62); [apply I0, H|]. destruct (is_s c); apply I0, H.
      * do 2 apply body_tail in H. destruct (c =? 62); [apply I0, H|]. destruct (is_s c); apply I0, H.
Qed.
Lemma comment_complete : forall b s r, spaces s -> comment_body b -> comment_loop 0 (b ++ lit "--" ++ s ++ lit ">" ++ r) = Ok r.
Proof. intros b s r Hs Hb. apply comment_complete_01; assumption. Qed.
Lemma comment2_sound : forall t r, comment_loop 2 t = Ok r -> r = [] \/ exists s, t = s ++ 62 :: r /\ spaces s.
Proof.
  induction t as [|c t IH]; intros r H; cbn [comment_loop] in H; [injection H as <-; left; reflexivity|].
  destruct (c =? 45); [discriminate|]. destruct (c =? 62) eqn:E2.
  { cbn in H. injection H as <-. right. exists []. apply Z.eqb_eq in E2 as ->. split; [reflexivity|constructor]. }
  destruct (is_s c) eqn:E3; [|discriminate]. cbn in H. apply IH in H as [->|(s & -> & Hs)]; [left; reflexivity|].
  right. exists (c :: s). split; [reflexivity|]. constructor; [apply is_s_iff; exact E3|exact Hs].
Qed.
Lemma comment_sound_01 : forall t r,
  (comment_loop 0 t = Ok r -> r = [] \/ exists b s, t = b ++ 45 :: 45 :: s ++ 62 :: r /\ comment_body b /\ spaces s) /\
  (comment_loop 1 t = Ok r -> r = [] \/ exists b s, 45 :: t = b ++ 45 :: 45 :: s ++ 62 :: r /\ comment_body b /\ spaces s).
Proof.
  induction t as [|c t IH]; intro r.
  - split; intro H; cbn in H; injection H as <-; left; reflexivity.
  - destruct (IH r) as [I0 I1]. split; intro H; cbn [comment_loop] in H; destruct (Z.eqb_spec c 45) as [->|N].
    + cbn in H. apply I1, H.
    + assert (K : comment_loop 0 t = Ok r) by (destruct (c =? 62); [exact H|]; destruct (is_s c); exact H).
      apply I0 in K as [->|(b & s & -> & Hb & Hs)]; [left; reflexivity|]. right. exists (c :: b), s. split; [reflexivity|].
      split; [apply body_cons|]; assumption.
    + cbn in H. apply comment2_sound in H as [->|(s & -> & Hs)]; [left; reflexivity|]. right. exists [], s. split; [reflexivity|].
      split; [apply body_nil|assumption].
    + assert (K : comment_loop 0 t = Ok r) by (destruct (c =? 62); [exact H|]; destruct (is_s c); exact H).
      apply I0 in K as [->|(b & s & -> & Hb & Hs)]; [left; reflexivity|]. right. exists (45 :: c :: b), s. split; [reflexivity|].
      split; [apply body_hyphen|]; assumption.
Qed.
Lemma comment_sound : forall t r, comment_loop 0 t = Ok r -> r <> [] -> exists b s, t = b ++ lit "--" ++ s ++ lit ">" ++ r /\ comment_body b /\ spaces s.
Proof. intros t r H N. apply comment_sound_01 in H as [H|H]; [contradiction|exact H]. Qed.

(** ** Processing instructions *)
Lemma pi_loop_complete : forall d r, pi_data d -> pi_loop (d ++ lit "?>" ++ r) = Ok r.
Proof.
  intros d r H. induction H as [|c d N H IH|c d N H IH]; cbn [app pi_loop]; [reflexivity| |].
  - replace (c =? 63) with false by lia. exact IH.
  - change (63 =? 63) with true. cbv iota. replace (c =? 62) with false by lia. exact IH.
Qed.
Lemma pi_loop_sound : forall k t r, (length t <= k)%nat -> pi_loop t = Ok r -> r = [] \/ exists d, t = d ++ lit "?>" ++ r /\ pi_data d.
Proof.
  induction k as [|k IH]; intros [|c t] r Hk H; cbn [length] in Hk; try lia; cbn [pi_loop] in H; try (injection H as <-; left; reflexivity).
  destruct (Z.eqb_spec c 63) as [->|N].
  - destruct t as [|d t]; [discriminate|]. destruct (Z.eqb_spec d 62) as [->|N].
    + injection H as <-. right. exists []. split; [reflexivity|constructor].
    + apply IH in H as [->|(e & -> & He)]; [left; reflexivity| |cbn in Hk; lia]. right. exists (63 :: d :: e). split; [reflexivity|]. constructor; assumption.
  - apply IH in H as [->|(e & -> & He)]; [left; reflexivity| |lia]. right. exists (c :: e). split; [reflexivity|]. constructor; assumption.
Qed.
Lemma pi_complete : forall n u rest, pi_target n ->
  (u = lit "?>" ++ rest \/ exists s d, u = s ++ d ++ lit "?>" ++ rest /\ spaces s /\ s <> [] /\ pi_data d) -> parse_pi (n ++ u) = Ok rest.
Proof.
  intros n u rest [Hn Hx] H. destruct Hn as (c & n' & -> & Hc & Hr). cbn [app]. unfold parse_pi.
  assert (E : is_name_start_char c = true) by (apply start_iff; exact Hc). rewrite E.
  assert (U : unnamed u).
  { destruct H as [->|(s & d & -> & Hs & Ns & _)]; [reflexivity|]. destruct s as [|x s]; [congruence|]. inversion Hs; subst. cbn. apply s_not_name, is_s_iff. assumption. }
  rewrite name_rest_app by assumption.
  destruct (str_eqb (map lower_ascii (c :: n')) (lit "xml")) eqn:Ex; [apply str_eqb_eq in Ex; contradiction|].
  destruct H as [->|(s & d & -> & Hs & Ns & Hd)].
  - change (lit "?>") with [63; 62]. reflexivity.
  - destruct (take_s (s ++ d ++ lit "?>" ++ rest)) as [s1 t1] eqn:Et.
    assert (exists s2 d', s1 = s ++ s2 /\ t1 = d' ++ lit "?>" ++ rest /\ pi_data d') as (s2 & d' & -> & -> & Hd').
    { clear -Hs Hd Et. apply take_s_ok in Et as (Et & Hs1 & Ht1).
      revert s1 t1 Et Hs1 Ht1. induction Hs as [|c s Hc Hs IH]; intros s1 t1 Et Hs1 Ht1; cbn [app] in Et.
      - exists s1. revert s1 t1 Et Hs1 Ht1. induction Hd as [|c d N Hd IH|c d N Hd IH]; intros s1 t1 Et Hs1 Ht1.
        + cbn [app] in Et. destruct s1 as [|x s1]; [exists []; repeat split; [exact (eq_sym Et)|constructor]|].
          inversion Hs1 as [|? ? Q]; subst. change (lit "?>") with [63; 62] in Et. cbn [app] in Et. injection Et as <- Et. unfold xml_s in Q. lia.
        + destruct s1 as [|x s1]; [exists (c :: d); repeat split; [exact (eq_sym Et)|constructor; assumption]|].
          cbn [app] in Et. injection Et as -> Et. inversion Hs1; subst. apply IH in Et as (d' & E1 & E2 & E3); [|assumption|assumption].
          exists d'. repeat split; assumption.
        + destruct s1 as [|x s1]; [exists (63 :: c :: d); repeat split; [exact (eq_sym Et)|constructor; assumption]|].
          cbn [app] in Et. injection Et as <- Et. inversion Hs1 as [|? ? Q]; subst. unfold xml_s in Q. lia.
      - destruct s1 as [|x s1].
        { cbn [app] in Et. subst t1. cbn in Ht1. apply is_s_iff in Hc. congruence. }
        cbn [app] in Et. injection Et as -> Et. inversion Hs1; subst. apply IH in Et as (s2 & d' & -> & E2 & E3); [|assumption|assumption].
        exists s2, d'. repeat split; assumption. }
    destruct (s ++ s2) as [|x y] eqn:Es; [destruct s; [congruence|discriminate]|]. apply pi_loop_complete, Hd'.
Qed.
Lemma pi_sound : forall t r, parse_pi t = Ok r -> r <> [] -> exists n u, t = n ++ u /\ pi_target n /\
  (u = lit "?>" ++ r \/ exists s d, u = s ++ d ++ lit "?>" ++ r /\ spaces s /\ s <> [] /\ pi_data d).
Proof.
  intros t r H N. unfold parse_pi in H. destruct t as [|c t]; [discriminate|]. destruct (is_name_start_char c) eqn:Ec; [|discriminate].
  destruct (name_rest t) as [n u] eqn:En. apply name_rest_ok in En as (-> & Hn).
  destruct (str_eqb _ _) eqn:Ex; [discriminate|]. exists (c :: n), u. split; [reflexivity|]. split.
  { split; [|intro K; rewrite K, str_eqb_refl in Ex; discriminate]. exists c, n. split; [reflexivity|]. split; [apply start_iff, Ec|exact Hn]. }
  destruct (take_s u) as [s t] eqn:Es. apply take_s_ok in Es as (-> & Hs & _). destruct s as [|x s].
  - apply required_literal_ok in H as ->. left. reflexivity.
  - apply (pi_loop_sound (length t)) in H as [->|(d & -> & Hd)]; [contradiction| |lia]. right. exists (x :: s), d. repeat split; [assumption|discriminate|assumption].
Qed.
