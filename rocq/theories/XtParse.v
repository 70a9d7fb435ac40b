(** XML text: the parser accepts the texts of the grammar. *)
From Verif Require Import Py Num CmSpec CdModel CdProofs XtSpec XtModel.

Ltac aeq := do 4 (cbn [app]; rewrite <- ?app_assoc); reflexivity.
(** ** Runs of characters *)
Definition ends (p : Z -> bool) (t : str) : Prop := match t with [] => True | c :: _ => p c = false end.
Lemma take_app : forall p a t, forallb p a = true -> ends p t -> take_while p (a ++ t) = (a, t).
Proof.
  intros p. induction a as [|c a IH]; intros t Ha Ht.
  - destruct t as [|c t]; cbn [app take_while]; [reflexivity|]. cbn [ends] in Ht. rewrite Ht. reflexivity.
  - cbn [forallb] in Ha. apply andb_true_iff in Ha as [H1 H2]. cbn [app take_while]. rewrite H1, IH by assumption. reflexivity.
Qed.
Lemma take_ok : forall p t a r, take_while p t = (a, r) -> t = a ++ r /\ forallb p a = true /\ ends p r.
Proof.
  intros p. induction t as [|c t IH]; intros a r H; cbn [take_while] in H.
  - injection H as <- <-. repeat split.
  - destruct (p c) eqn:E.
    + destruct (take_while p t) as [a' r'] eqn:K. injection H as <- <-. destruct (IH _ _ eq_refl) as (-> & H1 & H2).
      repeat split; auto. cbn [forallb]. rewrite E. exact H1.
    + injection H as <- <-. repeat split. exact E.
Qed.
Lemma spaces_forallb : forall s, spaces s <-> forallb is_s s = true.
Proof.
  unfold spaces. intro s. rewrite Forall_forall, forallb_forall. split; intros H x Hx; apply is_s_iff, H, Hx.
Qed.
Lemma take_s_app : forall s t, spaces s -> ends is_s t -> take_s (s ++ t) = (s, t).
Proof. intros. apply take_app; [apply spaces_forallb|]; assumption. Qed.
Lemma take_s_ok : forall t s r, take_s t = (s, r) -> t = s ++ r /\ spaces s /\ ends is_s r.
Proof. intros t s r H. apply take_ok in H as (H1 & H2 & H3). repeat split; auto. apply spaces_forallb, H2. Qed.
Lemma name_ends_s : forall n t, xml_name n -> ends is_s (n ++ t).
Proof. intros n t (c & r & -> & Hc & _). apply start_iff, start_not in Hc. cbn. tauto. Qed.
Lemma spaces_unnamed : forall s t, spaces s -> unnamed t -> unnamed (s ++ t).
Proof. intros [|c s] t H Ht; [exact Ht|]. inversion H; subst. cbn. apply s_not_name, is_s_iff. assumption. Qed.
Lemma valid_name : forall n, is_valid_name n = true -> xml_name n.
Proof.
  intros [|c r] H; [discriminate|]. cbn [is_valid_name] in H. apply andb_true_iff in H as [H1 H2]. exists c, r. split; [reflexivity|].
  split; [apply start_iff, H1|]. apply Forall_forall. intros x Hx. apply char_iff. rewrite forallb_forall in H2. apply H2, Hx.
Qed.

(** ** References *)
Lemma char_b_iff : forall c, is_char_b c = true <-> xml_char c.
Proof.
  intro c. unfold is_char_b, in_ranges, xml_char. cbn [existsb fst snd].
  rewrite !orb_true_iff, !andb_true_iff, !Z.leb_le, false_iff. lia.
Qed.
Lemma hex_digit_ok : forall d c, hex_digit d c -> is_hexd c = true /\ hexv c = d.
Proof. intros d c H. unfold hex_digit, is_hexd, hexv in *. split; [|repeat destr; b2p]; lia. Qed.
Lemma hexd_digit : forall c, is_hexd c = true -> hex_digit (hexv c) c.
Proof. intros c H. unfold hex_digit, is_hexd, hexv in *. repeat destr; b2p; lia. Qed.
Lemma xml_char_character : forall c, xml_char c -> character c = Ok c.
Proof. intros c H. apply character_ok. unfold xml_char, Py.is_char, maxunicode in *. lia. Qed.
Lemma character_id : forall z c, character z = Ok c -> c = z.
Proof. intros z c H. unfold character in H. destruct (_ && _); congruence. Qed.
Lemma req_app : forall w r, parse_required_literal w (w ++ r) = Ok r.
Proof. intros. apply required_literal_ok. reflexivity. Qed.
Lemma literal_iff : forall w t r, parse_literal w t = Some r <-> t = w ++ r.
Proof.
  split; [apply parse_literal_some|]. intros ->. induction w as [|c w IH]; cbn [parse_literal app]; [reflexivity|]. rewrite Z.eqb_refl. exact IH.
Qed.
Lemma lit_app : forall w r, parse_literal w (w ++ r) = Some r.
Proof. intros. apply literal_iff. reflexivity. Qed.
Lemma req1 : forall c r, parse_required_literal [c] (c :: r) = Ok r.
Proof. intros. apply (req_app [c]). Qed.
Lemma lit1 : forall c r, parse_literal [c] (c :: r) = Some r.
Proof. intros. apply (lit_app [c]). Qed.
Definition ref_parsed (c : Z) (t : str) : Prop := exists r, t = 38 :: r /\ forall rest, parse_reference (r ++ rest) = Ok (c, rest).
Lemma named_ref : forall n c, is_valid_name n = true -> predefined n = Some c -> ref_parsed c (lit "&" ++ n ++ lit ";").
Proof.
  intros n c Hn Hc. exists (n ++ lit ";"). split; [reflexivity|]. intro rest. apply valid_name in Hn. unfold parse_reference.
  assert (match (n ++ lit ";") ++ rest with c :: _ => c =? 35 | [] => false end = false) as ->.
  { destruct Hn as (x & r & -> & Hx & _). cbn [app]. unfold name_start in Hx. lia. }
  rewrite <- app_assoc. rewrite required_name_app; [|assumption|reflexivity]. cbn [rbind].
  rewrite (proj2 (required_literal_ok (lit ";") _ rest) eq_refl). cbn [rbind]. rewrite Hc. reflexivity.
Qed.
Lemma ref_complete : forall c t, ref_text c t -> ref_parsed c t.
Proof.
  intros c t H. destruct H as [| | | | |ds N Fd Hc|ds cs N Fd Hc].
  1-5: (apply (named_ref (lit "lt")) || apply (named_ref (lit "gt")) || apply (named_ref (lit "amp")) || apply (named_ref (lit "apos")) || apply (named_ref (lit "quot"))); reflexivity.
  - exists (lit "#" ++ map (fun d => 48 + d) ds ++ lit ";"). split; [reflexivity|]. intro rest. unfold parse_reference.
    change (lit "#") with [35]. cbn [app]. change (35 =? 35) with true. cbv iota. unfold parse_char_ref.
    rewrite <- app_assoc. change (lit "#") with [35].
    rewrite req1. cbn [rbind].
    assert (Fb : forallb is_dec (map (fun d => 48 + d) ds) = true).
    { apply forallb_forall. intros x Hx. apply in_map_iff in Hx as (d & <- & Hd). rewrite Forall_forall in Fd. specialize (Fd d Hd). unfold is_dec. lia. }
    assert (parse_literal (lit "x") (map (fun d => 48 + d) ds ++ lit ";" ++ rest) = None) as ->.
    { destruct ds as [|d ds]; [congruence|]. inversion Fd; subst. cbn [map app]. change (lit "x") with [120]. cbn [parse_literal].
      replace (120 =? 48 + d) with false by lia. reflexivity. }
    rewrite take_app; [|exact Fb|reflexivity]. 
    replace (map (fun c => c - 48) (map (fun d => 48 + d) ds)) with ds.
    2: { rewrite map_map. rewrite <- (map_id ds) at 1. apply map_ext. intro; lia. }
    rewrite xml_char_character by assumption. destruct (map (fun d => 48 + d) ds) eqn:E; [destruct ds; [congruence|discriminate]|]. cbn [rbind].
    rewrite (proj2 (required_literal_ok (lit ";") _ rest) eq_refl). cbn [rbind]. rewrite (proj2 (char_b_iff _) Hc). reflexivity.
  - exists (lit "#x" ++ cs ++ lit ";"). split; [reflexivity|]. intro rest. unfold parse_reference.
    change (lit "#x") with [35; 120]. cbn [app]. change (35 =? 35) with true. cbv iota. unfold parse_char_ref.
    rewrite <- app_assoc. change (lit "#") with [35]. change (lit "x") with [120].
    rewrite req1. cbn [rbind]. rewrite lit1.
    assert (Fb : forallb is_hexd cs = true /\ map hexv cs = ds).
    { clear -Fd. induction Fd as [|d c ds cs H Fd (IH1 & IH2)]; [split; reflexivity|]. destruct (hex_digit_ok _ _ H) as [H1 H2]. cbn [forallb map]. rewrite H1, H2, IH1, IH2. split; reflexivity. }
    destruct Fb as [Fb Em]. cbv iota. rewrite take_app; [|exact Fb|reflexivity]. rewrite Em, xml_char_character by assumption.
    destruct cs as [|c cs]; [inversion Fd; congruence|]. cbn [rbind]. rewrite (proj2 (required_literal_ok (lit ";") _ rest) eq_refl). cbn [rbind].
    rewrite (proj2 (char_b_iff _) Hc). reflexivity.
Qed.
Lemma ref_sound : forall t c rest, parse_reference t = Ok (c, rest) -> exists u, t = u ++ rest /\ ref_text c (38 :: u).
Proof.
  intros t c rest H. unfold parse_reference in H. destruct (match t with c :: _ => c =? 35 | [] => false end) eqn:E0.
  - unfold parse_char_ref in H. step H. apply required_literal_ok in E as ->. step H. destruct x0 as [data t].
    step H. apply required_literal_ok in E1 as ->. destruct (is_char_b data) eqn:Ec; [|discriminate]. injection H as <- <-. apply char_b_iff in Ec.
    destruct (parse_literal (lit "x") x) as [r|] eqn:Ex.
    + apply parse_literal_some in Ex as ->. destruct (take_while is_hexd r) as [cs r'] eqn:Et. apply take_ok in Et as (-> & Ft & _).
      destruct cs as [|d cs]; [discriminate|]. step E. injection E as <- ->. apply character_id in E1 as ->.
      exists (lit "#x" ++ (d :: cs) ++ lit ";"). split; [rewrite <- !app_assoc; reflexivity|].
      apply (rt_hex (map hexv (d :: cs)) (d :: cs)); [discriminate| |exact Ec].
      clear -Ft. induction (d :: cs) as [|x l IH]; [constructor|]. cbn [forallb] in Ft. apply andb_true_iff in Ft as [F1 F2].
      constructor; [apply hexd_digit, F1|apply IH, F2].
    + destruct (take_while is_dec x) as [cs r'] eqn:Et. apply take_ok in Et as (-> & Ft & _).
      destruct cs as [|d cs]; [discriminate|]. step E. injection E as <- ->. apply character_id in E1 as ->.
      exists (lit "#" ++ (d :: cs) ++ lit ";"). split; [rewrite <- !app_assoc; reflexivity|].
      replace (38 :: lit "#" ++ (d :: cs) ++ lit ";") with (lit "&#" ++ map (fun d => 48 + d) (map (fun c => c - 48) (d :: cs)) ++ lit ";").
      2: { rewrite map_map. change (38 :: lit "#" ++ (d :: cs) ++ lit ";") with (lit "&#" ++ (d :: cs) ++ lit ";"). do 2 f_equal. rewrite <- (map_id (d :: cs)) at 2. apply map_ext. intro; lia. }
      apply rt_dec; [discriminate| |exact Ec]. clear -Ft. apply Forall_forall. intros x Hx. apply in_map_iff in Hx as (y & <- & Hy).
      rewrite forallb_forall in Ft. specialize (Ft y Hy). unfold is_dec in Ft. lia.
  - step H. destruct x as [n t']. step H. apply required_name_ok in E as [-> _]. apply required_literal_ok in E1 as ->.
    exists (n ++ lit ";"). split; [|].
    { destruct (predefined n); [|discriminate]. injection H as <- <-. rewrite <- app_assoc. reflexivity. }
    unfold predefined in H.
    repeat (match type of H with context [if str_eqb n ?l then _ else _] => let Q := fresh "Q" in destruct (str_eqb n l) eqn:Q; [apply str_eqb_eq in Q as ->; injection H as <- <-; constructor|] end).
    discriminate.
Qed.

(** ** Attributes *)
Definition quote (q : Z) : Prop := q = 34 \/ q = 39.
Lemma att_complete : forall q v t, quote q -> att_text q v t -> forall f rest, (length t < f)%nat -> att_loop f q (t ++ q :: rest) = Ok (v, rest).
Proof.
  intros q v t Hq H. induction H as [|c v t Hs H IH|c v t Ns Nq N60 N38 H IH|c r v t Hr H IH]; intros f rest Hf;
    (destruct f as [|f]; [cbn in Hf; lia|]); cbn [att_loop app].
  - rewrite Z.eqb_refl. reflexivity.
  - assert (E : is_s c = true) by (apply is_s_iff; exact Hs). unfold xml_s, quote in *. replace (c =? q) with false by lia. replace (c =? 38) with false by lia.
    rewrite E, IH by (cbn in Hf; lia). reflexivity.
  - replace (c =? q) with false by lia. replace (c =? 38) with false by lia.
    destruct (is_s c) eqn:E; [apply is_s_iff in E; contradiction|]. replace (c =? 60) with false by lia. rewrite IH by (cbn in Hf; lia). reflexivity.
  - destruct (ref_complete _ _ Hr) as (r' & -> & Hp). cbn [app]. unfold quote in Hq. replace (38 =? q) with false by lia. change (38 =? 38) with true.
    cbv iota. rewrite <- app_assoc, Hp. cbn [rbind]. rewrite IH by (rewrite app_length in Hf; cbn in Hf; lia). reflexivity.
Qed.
Lemma att_sound : forall f q t v rest, quote q -> att_loop f q t = Ok (v, rest) -> exists u, t = u ++ q :: rest /\ att_text q v u.
Proof.
  induction f as [|f IH]; intros q t v rest Hq H; cbn [att_loop] in H; [discriminate|]. destruct t as [|c r]; [discriminate|].
  destruct (c =? q) eqn:E1; [injection H as <- <-; apply Z.eqb_eq in E1 as ->; exists []; split; [reflexivity|constructor]|].
  destruct (c =? 38) eqn:E2.
  { apply Z.eqb_eq in E2 as ->. step H. destruct x as [x t]. step H. destruct x0 as [v' t']. injection H as <- <-.
    apply ref_sound in E as (u & -> & Hu). apply IH in E0 as (w & -> & Hw); [|assumption].
    exists ((38 :: u) ++ w). split; [cbn; rewrite <- app_assoc; reflexivity|]. constructor; assumption. }
  destruct (is_s c) eqn:E3.
  { step H. destruct x as [v' t']. injection H as <- <-. apply IH in E as (w & -> & Hw); [|assumption].
    exists (c :: w). split; [reflexivity|]. constructor; [apply is_s_iff, E3|assumption]. }
  destruct (c =? 60) eqn:E4; [discriminate|]. step H. destruct x as [v' t']. injection H as <- <-. apply IH in E as (w & -> & Hw); [|assumption].
  exists (c :: w). split; [reflexivity|]. b2p. constructor; auto. intro K. apply is_s_iff in K. congruence.
Qed.
Lemma quote_ends : forall q t, quote q -> ends is_s (q :: t).
Proof. intros q t [->| ->]; reflexivity. Qed.
Lemma attribute_complete : forall n s1 s2 q v t rest, xml_name n -> spaces s1 -> spaces s2 -> quote q -> att_text q v t ->
  parse_attribute (n ++ s1 ++ lit "=" ++ s2 ++ q :: t ++ q :: rest) = Ok (n, v, rest).
Proof.
  intros n s1 s2 q v t rest Hn H1 H2 Hq Ht. unfold parse_attribute.
  rewrite required_name_app; [|assumption|apply spaces_unnamed; [assumption|reflexivity]]. cbn [rbind].
  rewrite take_s_app; [|assumption|reflexivity].
  rewrite (proj2 (required_literal_ok (lit "=") _ (s2 ++ q :: t ++ q :: rest)) eq_refl). cbn [rbind].
  rewrite take_s_app; [|assumption|apply quote_ends; assumption]. unfold parse_att_value.
  replace ((q =? 34) || (q =? 39)) with true by (unfold quote in Hq; lia). rewrite (att_complete q v t Hq Ht); [reflexivity|].
  rewrite app_length. lia.
Qed.
Lemma attribute_sound : forall t n v rest, parse_attribute t = Ok (n, v, rest) -> exists s1 s2 q u,
  t = n ++ s1 ++ lit "=" ++ s2 ++ [q] ++ u ++ [q] ++ rest /\ xml_name n /\ spaces s1 /\ spaces s2 /\ quote q /\ att_text q v u.
Proof.
  intros t n v rest H. unfold parse_attribute in H. step H. destruct x as [n' t1]. apply required_name_ok in E as [-> Hn].
  destruct (take_s t1) as [s1 t2] eqn:E1. apply take_s_ok in E1 as (-> & H1 & _). step H. apply required_literal_ok in E as ->.
  destruct (take_s x) as [s2 t3] eqn:E2. apply take_s_ok in E2 as (-> & H2 & _). step H. destruct x as [v' t4]. injection H as <- <- <-.
  unfold parse_att_value in E. destruct t3 as [|q r]; [discriminate|]. destruct ((q =? 34) || (q =? 39)) eqn:Q; [|discriminate].
  assert (Hq : quote q) by (unfold quote; lia). apply att_sound in E as (u & -> & Hu); [|assumption].
  exists s1, s2, q, u. repeat split; assumption.
Qed.
Lemma attrs_len : forall l a, attrs_text l a -> (length l <= length a)%nat.
Proof. induction 1; cbn [length]; [lia|]. rewrite !app_length. cbn [length]. lia. Qed.
Lemma in_names : forall n (l : list (str * str)), existsb (fun a => str_eqb (fst a) n) l = true <-> In n (map fst l).
Proof.
  intros n l. rewrite existsb_exists, in_map_iff. split.
  - intros (x & H1 & H2). apply str_eqb_eq in H2. eauto.
  - intros (x & <- & H). exists x. split; [assumption|apply str_eqb_refl].
Qed.
Lemma NoDup_app_single : forall (l : list str) x, NoDup l -> ~ In x l -> NoDup (l ++ [x]).
Proof.
  induction l as [|y l IH]; intros x H N; cbn [app]; [constructor; [tauto|constructor]|]. inversion H; subst. constructor.
  - intro K. apply in_app_or in K as [K|[K|[]]]; [contradiction|subst; apply N; left; reflexivity].
  - apply IH; [assumption|]. intro K. apply N. right. exact K.
Qed.
Definition tag_end (e : bool) : str := if e then lit "/>" else lit ">".
Lemma stag_complete : forall l a, attrs_text l a -> forall f acc s e rest, NoDup (map fst (acc ++ l)) -> spaces s -> (length l < f)%nat ->
  stag_loop f acc (a ++ s ++ tag_end e ++ rest) = Ok (acc ++ l, e, rest).
Proof.
  induction 1 as [|s n s1 s2 q v t l u Hs Ns Hn H1 H2 Hq Ht Hu IH]; intros f acc s' e rest Hd Hs' Hf; (destruct f as [|f]; [cbn in Hf; lia|]); cbn [stag_loop].
  - cbn [app]. rewrite app_nil_r. rewrite take_s_app; [|assumption|destruct e; reflexivity]. destruct e; cbn [tag_end].
    + change (lit "/>") with [47; 62]. cbn [app]. change (47 =? 62) with false. change (47 =? 47) with true. cbv iota.
      change (parse_required_literal [47; 62] (47 :: 62 :: rest)) with (Ok rest). reflexivity.
    + change (lit ">") with [62]. reflexivity.
  - rewrite <- !app_assoc. rewrite take_s_app; [|assumption|apply name_ends_s; assumption].
    assert (exists c r, n = c :: r /\ (c =? 62) = false /\ (c =? 47) = false) as (c & r & En & E1 & E2).
    { destruct Hn as (c & r & -> & Hc & _). exists c, r. unfold name_start in Hc. repeat split; lia. }
    assert (match n ++ s1 ++ lit "=" ++ s2 ++ [q] ++ t ++ [q] ++ u ++ s' ++ tag_end e ++ rest with c :: _ => c | [] => -1 end = c) as -> by (rewrite En; reflexivity).
    rewrite E1, E2. destruct s as [|x s]; [congruence|]. cbn [app]. cbn [app] in *. rewrite (attribute_complete n s1 s2 q v t) by assumption. cbn [rbind].
    destruct (existsb (fun a => str_eqb (fst a) n) acc) eqn:Ex.
    { exfalso. apply in_names in Ex. rewrite map_app in Hd. cbn [map fst] in Hd. apply NoDup_remove_2 in Hd. apply Hd. apply in_or_app. auto. }
    rewrite IH; [|rewrite <- app_assoc; exact Hd|assumption|cbn in Hf; lia]. rewrite <- app_assoc. reflexivity.
Qed.
Lemma stag_sound : forall f acc t attrs e rest, stag_loop f acc t = Ok (attrs, e, rest) -> NoDup (map fst acc) ->
  exists l a s, attrs = acc ++ l /\ t = a ++ s ++ tag_end e ++ rest /\ attrs_text l a /\ spaces s /\ NoDup (map fst attrs).
Proof.
  induction f as [|f IH]; intros acc t attrs e rest H Hd; cbn [stag_loop] in H; [discriminate|].
  destruct (take_s t) as [s r] eqn:Es. apply take_s_ok in Es as (-> & Hs & _).
  destruct (match r with c :: _ => c | [] => -1 end =? 62) eqn:E1.
  { destruct r as [|c r]; [discriminate|]. apply Z.eqb_eq in E1 as ->. injection H as <- <- <-. exists [], [], s. rewrite app_nil_r.
    repeat split; auto. constructor. }
  destruct (match r with c :: _ => c | [] => -1 end =? 47) eqn:E2.
  { step H. apply required_literal_ok in E as ->. injection H as <- <- <-. exists [], [], s. rewrite app_nil_r. repeat split; auto. constructor. }
  destruct s as [|x s]; [discriminate|]. step H. destruct x0 as [[n v] t']. apply attribute_sound in E as (s1 & s2 & q & u & -> & Hn & H1 & H2 & Hq & Hu).
  destruct (existsb (fun a => str_eqb (fst a) n) acc) eqn:Ex; [discriminate|]. apply IH in H as (l & a & s' & -> & -> & Hl & Hs' & Hd').
  - exists ((n, v) :: l), ((x :: s) ++ n ++ s1 ++ lit "=" ++ s2 ++ [q] ++ u ++ [q] ++ a), s'. rewrite <- app_assoc in *. cbn [app] in *.
    split; [reflexivity|]. split; [aeq|]. split; [|auto].
    apply (as_cons (x :: s) n s1 s2 q v u l a); try assumption. discriminate.
  - rewrite map_app. cbn [map fst]. apply NoDup_app_single; [assumption|]. intro K. apply in_names in K. congruence.
Qed.
