(** Element declarations: what is parsed is what the productions say. *)
From Verif Require Import Py CmSpec CdModel.

Lemma is_s_iff : forall c, is_s c = true <-> xml_s c.
Proof. intro c. unfold is_s, xml_s. rewrite !orb_true_iff, !Z.eqb_eq. tauto. Qed.
Lemma false_iff : false = true <-> False. Proof. split; [discriminate|tauto]. Qed.
Lemma in_ranges_iff : forall c l, in_ranges c l = true <-> exists r, In r l /\ fst r <= c <= snd r.
Proof.
  intros. unfold in_ranges. rewrite existsb_exists. split; intros (r & H & K); exists r; split; auto;
    rewrite andb_true_iff, !Z.leb_le in *; tauto.
Qed.
Lemma start_iff : forall c, is_name_start_char c = true <-> name_start c.
Proof.
  intro c. unfold is_name_start_char. unfold in_ranges, start_ranges, name_start. cbn [existsb fst snd].
  rewrite !orb_true_iff, !andb_true_iff, !Z.leb_le, false_iff. split; intro H; lia.
Qed.
Lemma char_iff : forall c, is_name_char c = true <-> name_char c.
Proof.
  intro c. unfold is_name_char, in_ranges, name_char. rewrite existsb_app, orb_true_iff.
  change (existsb (fun r => (fst r <=? c) && (c <=? snd r)) start_ranges) with (is_name_start_char c). rewrite start_iff.
  cbn [existsb fst snd]. rewrite !orb_true_iff, !andb_true_iff, !Z.leb_le, false_iff. split; (intros [H|H]; [left; exact H | right; lia]).
Qed.
Lemma start_char : forall c, is_name_start_char c = true -> is_name_char c = true.
Proof. intros c H. apply char_iff. left. apply start_iff, H. Qed.
Lemma start_not : forall c, is_name_start_char c = true -> is_s c = false /\ c <> 37 /\ c <> 40 /\ c <> 41 /\ c <> 44 /\ c <> 124.
Proof.
  intros c H. apply start_iff in H. split; [|unfold name_start in H; lia].
  destruct (is_s c) eqn:K; [|reflexivity]. apply is_s_iff in K. unfold name_start, xml_s in *. lia.
Qed.
Lemma s_not_name : forall c, is_s c = true -> is_name_char c = false /\ c <> 63 /\ c <> 42 /\ c <> 43.
Proof.
  intros c H. apply is_s_iff in H. split; [|unfold xml_s in H; lia].
  destruct (is_name_char c) eqn:K; [|reflexivity]. apply char_iff in K. unfold name_char, name_start, xml_s in *. lia.
Qed.

Arguments is_s : simpl never.
Arguments is_name_char : simpl never.
Arguments is_name_start_char : simpl never.
(** ** Literals, names, white space *)
Lemma parse_literal_app : forall m t, parse_literal m (m ++ t) = Some t.
Proof. induction m as [|x m IH]; intro t; cbn [parse_literal app]; [reflexivity|]. rewrite Z.eqb_refl. apply IH. Qed.
Lemma parse_literal_some : forall m t r, parse_literal m t = Some r -> t = m ++ r.
Proof.
  induction m as [|x m IH]; intros t r H; cbn [parse_literal] in H; [now injection H as ->|].
  destruct t as [|c t]; [discriminate|]. destruct (x =? c) eqn:E; [|discriminate].
  apply Z.eqb_eq in E as ->. cbn. f_equal. apply IH, H.
Qed.
Lemma required_literal_ok : forall m t r, parse_required_literal m t = Ok r <-> t = m ++ r.
Proof.
  intros. unfold parse_required_literal. split; intro H.
  - destruct (parse_literal m t) eqn:E; [|discriminate]. injection H as ->. apply parse_literal_some, E.
  - subst. rewrite parse_literal_app. reflexivity.
Qed.
(** what ends white space *)
Definition solid (t : str) : Prop := match t with [] => True | c :: _ => is_s c = false /\ c <> 37 end.
Lemma parse_s_skip : forall s t, spaces s -> solid t -> parse_s (s ++ t) = Ok t.
Proof.
  induction s as [|c s IH]; intros t Hs Ht.
  - cbn [app]. destruct t as [|c t]; cbn [parse_s]; [reflexivity|]. destruct Ht as [H1 H2]. rewrite H1.
    replace (c =? 37) with false by lia. reflexivity.
  - inversion Hs; subst. cbn [app parse_s]. replace (is_s c) with true by (symmetry; apply is_s_iff; assumption). apply IH; assumption.
Qed.
Lemma parse_s_ok : forall t r, parse_s t = Ok r -> exists s, t = s ++ r /\ spaces s /\ match r with c :: _ => is_s c = false | [] => True end.
Proof.
  induction t as [|c t IH]; intros r H; cbn [parse_s] in H.
  - injection H as <-. exists []. repeat split. constructor.
  - destruct (is_s c) eqn:E.
    + destruct (IH _ H) as (s & -> & Hs & Hr). exists (c :: s). repeat split; auto. constructor; [apply is_s_iff; assumption|assumption].
    + destruct ((c =? 37) && _); [discriminate|]. injection H as <-. exists []. repeat split; auto. constructor.
Qed.
Lemma required_s_ok : forall t r, parse_required_s t = Ok r -> exists s, t = s ++ r /\ s <> [] /\ spaces s.
Proof.
  intros t r H. unfold parse_required_s in H. destruct t as [|c t]; [discriminate|]. destruct (is_s c) eqn:E.
  - destruct (parse_s_ok _ _ H) as (s & Es & Hs & Hr). exists s. repeat split; auto. intros ->. cbn in Es. subst r. congruence.
  - destruct (parse_s (c :: t)); discriminate.
Qed.
Lemma required_s_skip : forall s t, spaces s -> s <> [] -> solid t -> parse_required_s (s ++ t) = Ok t.
Proof.
  intros s t Hs N Ht. destruct s as [|c s]; [congruence|]. unfold parse_required_s. cbn [app].
  inversion Hs; subst. replace (is_s c) with true by (symmetry; apply is_s_iff; assumption).
  change (c :: s ++ t) with ((c :: s) ++ t). apply parse_s_skip; assumption.
Qed.
(** what ends a name *)
Definition unnamed (t : str) : Prop := match t with [] => True | c :: _ => is_name_char c = false end.
Lemma name_rest_app : forall n t, Forall name_char n -> unnamed t -> name_rest (n ++ t) = (n, t).
Proof.
  induction n as [|c n IH]; intros t Hn Ht.
  - destruct t as [|c t]; cbn [app name_rest]; [reflexivity|]. cbn in Ht. rewrite Ht. reflexivity.
  - inversion Hn; subst. cbn [app name_rest]. replace (is_name_char c) with true by (symmetry; apply char_iff; assumption).
    rewrite IH by assumption. reflexivity.
Qed.
Lemma name_rest_ok : forall t n r, name_rest t = (n, r) -> t = n ++ r /\ Forall name_char n.
Proof.
  induction t as [|c t IH]; intros n r H; cbn [name_rest] in H.
  - injection H as <- <-. split; [reflexivity|constructor].
  - destruct (is_name_char c) eqn:E.
    + destruct (name_rest t) as [n' r'] eqn:K. injection H as <- <-. destruct (IH _ _ eq_refl) as [-> Hn].
      split; [reflexivity|]. constructor; [apply char_iff; assumption|assumption].
    + injection H as <- <-. split; [reflexivity|constructor].
Qed.
Lemma required_name_app : forall n t, xml_name n -> unnamed t -> parse_required_name (n ++ t) = Ok (n, t).
Proof.
  intros n t (c & r & -> & Hc & Hr) Ht. cbn [app parse_required_name].
  replace (is_name_start_char c) with true by (symmetry; apply start_iff; assumption).
  rewrite name_rest_app by assumption. reflexivity.
Qed.
Lemma required_name_ok : forall t n r, parse_required_name t = Ok (n, r) -> t = n ++ r /\ xml_name n.
Proof.
  intros [|c t] n r H; cbn [parse_required_name] in H; [discriminate|]. destruct (is_name_start_char c) eqn:E; [|discriminate].
  destruct (name_rest t) as [n' r'] eqn:K. injection H as <- <-. destruct (name_rest_ok _ _ _ K) as [-> Hn].
  split; [reflexivity|]. exists c, n'. repeat split; auto. apply start_iff, E.
Qed.
Lemma xml_name_solid : forall n t, xml_name n -> solid (n ++ t).
Proof. intros n t (c & r & -> & Hc & _). apply start_iff, start_not in Hc. cbn. tauto. Qed.

(** what ends a particle *)
Definition stop (t : str) : Prop := match t with [] => True | c :: _ => is_name_char c = false /\ c <> 63 /\ c <> 42 /\ c <> 43 end.
Lemma stop_unnamed : forall t, stop t -> unnamed t. Proof. intros [|c t]; cbn; tauto. Qed.
Lemma stop_spaces : forall s t, spaces s -> stop t -> stop (s ++ t).
Proof. intros [|c s] t Hs Ht; [assumption|]. inversion Hs; subst. cbn. apply s_not_name, is_s_iff. assumption. Qed.
Lemma parse_occ_app : forall o t, stop t -> parse_occ (occ_text o ++ t) = (o, t).
Proof.
  intros o t H. destruct o; cbn; try reflexivity. destruct t as [|c t]; cbn [parse_occ]; [reflexivity|].
  cbn in H. destruct H as (_ & H1 & H2 & H3). replace (c =? 63) with false by lia. replace (c =? 42) with false by lia.
  replace (c =? 43) with false by lia. reflexivity.
Qed.
Lemma parse_occ_ok : forall t o r, parse_occ t = (o, r) -> t = occ_text o ++ r.
Proof.
  intros [|c t] o r H; cbn [parse_occ] in H; [now injection H as <- <-|].
  destruct (c =? 63) eqn:E1; [injection H as <- <-; apply Z.eqb_eq in E1 as ->; reflexivity|].
  destruct (c =? 42) eqn:E2; [injection H as <- <-; apply Z.eqb_eq in E2 as ->; reflexivity|].
  destruct (c =? 43) eqn:E3; [injection H as <- <-; apply Z.eqb_eq in E3 as ->; reflexivity|].
  injection H as <- <-. reflexivity.
Qed.
Lemma occ_stop : forall o t, stop t -> unnamed (occ_text o ++ t).
Proof. intros [] t H; cbn; try reflexivity. apply stop_unnamed, H. Qed.

(** ** Completeness *)
Lemma numbered_app : forall k a b, numbered k (a ++ b) <-> numbered k a /\ numbered (k + length a) b.
Proof.
  unfold numbered. intros k a b. rewrite map_app, app_length, seq_app. split.
  - intro H. assert (L : length (map fst a) = length (seq k (length a))) by (rewrite map_length, seq_length; reflexivity).
    split; [apply (f_equal (firstn (length (map fst a)))) in H; rewrite L in H at 2; rewrite !firstn_app, !firstn_all, !Nat.sub_diag, !app_nil_r in H; exact H|].
    apply (f_equal (skipn (length (map fst a)))) in H. rewrite L in H at 2. rewrite !skipn_app, !skipn_all, !Nat.sub_diag in H. exact H.
  - intros [-> ->]. reflexivity.
Qed.
Scheme cp_ind2 := Minimality for cp_text Sort Prop with group_ind2 := Minimality for group_text Sort Prop.
Combined Scheme cp_group_ind from cp_ind2, group_ind2.

Lemma cp_text_head : forall p t, cp_text p t -> exists c r, t = c :: r /\ is_s c = false /\ c <> 37.
Proof.
  intros p t H. destruct H as [i n o (c & r & -> & Hc & _)|o p q l s u _ _|o l s u _ _].
  - exists c, (r ++ occ_text o). split; [reflexivity|]. apply start_iff, start_not in Hc. tauto.
  - exists 40. eexists. split; [reflexivity|]. split; [reflexivity|lia].
  - exists 40. eexists. split; [reflexivity|]. split; [reflexivity|lia].
Qed.
Lemma cp_text_solid : forall p t r, cp_text p t -> solid (t ++ r).
Proof. intros p t r H. destruct (cp_text_head _ _ H) as (c & r' & -> & H1 & H2). cbn. tauto. Qed.
Lemma group_text_solid : forall sep l u r, group_text sep l u -> solid (u ++ r).
Proof. intros sep l u r H. destruct H; rewrite <- app_assoc; eapply cp_text_solid; eassumption. Qed.
Lemma cp_text_len : forall p t, cp_text p t -> (1 <= length t)%nat.
Proof. intros p t H. destruct (cp_text_head _ _ H) as (c & r' & -> & _). cbn. lia. Qed.
Lemma stop_sep : forall c t, c = 41 \/ c = 44 \/ c = 124 -> stop (c :: t) /\ solid (c :: t).
Proof. intros c t [->|[->| ->]]; cbn; repeat split; (reflexivity || lia). Qed.
Definition group_parsed (c : Z) (l : list particle) (u : str) : Prop :=
  forall k f rest, numbered k (flat_map leaves l) -> (2 * length u + 2 <= f)%nat ->
    exists p l' k1 t1 t2, l = p :: l' /\ parse_cp f k (u ++ 41 :: rest) = Ok (p, k1, t1) /\ parse_s t1 = Ok t2 /\
      parse_list f c k1 t2 = Ok (l', (k + length (flat_map leaves l))%nat, rest) /\
      match l' with [] => exists r, t2 = 41 :: r | _ => exists r, t2 = c :: r end.
Lemma parse_cp_group : forall f k t, parse_cp (S f) k (40 :: t) =
  let! (p, k, t) := parse_group f k t in let (o, t) := parse_occ t in Ok (set_occ p o, k, t).
Proof. reflexivity. Qed.
Lemma parse_list_more : forall f c k r, parse_list (S f) c k (c :: r) =
  let! t := parse_s r in let! (p, k, t) := parse_cp f k t in let! t := parse_s t in
  let! (l, k, t) := parse_list f c k t in Ok (p :: l, k, t).
Proof. intros. cbn [parse_list]. rewrite Z.eqb_refl. reflexivity. Qed.
Lemma parse_list_end : forall f c k r, c <> 41 -> parse_list (S f) c k (41 :: r) = Ok ([], k, r).
Proof. intros. cbn [parse_list]. replace (41 =? c) with false by lia. reflexivity. Qed.

Lemma complete :
  (forall p t, cp_text p t -> forall k f rest, numbered k (leaves p) -> stop rest -> (2 * length t <= f)%nat ->
     parse_cp f k (t ++ rest) = Ok (p, (k + length (leaves p))%nat, rest)) /\
  (forall sep l u, group_text sep l u -> forall c, sep = [c] -> c = 44 \/ c = 124 -> group_parsed c l u).
Proof.
  apply cp_group_ind.
  - (* name *)
    intros i n o Hn k f rest Hk Hr Hf. destruct f as [|f].
    { destruct Hn as (c & r & -> & _). cbn in Hf. lia. }
    cbn [parse_cp]. rewrite <- app_assoc.
    assert (parse_literal (lit "(") (n ++ occ_text o ++ rest) = None) as ->.
    { destruct Hn as (c & r & -> & Hc & _). cbn [app]. apply start_iff, start_not in Hc.
      change (lit "(") with [40]. cbn [parse_literal]. replace (40 =? c) with false by lia. reflexivity. }
    rewrite required_name_app by (try assumption; apply occ_stop; assumption). cbn [rbind].
    rewrite parse_occ_app by assumption. cbn [set_occ leaves length].
    unfold numbered in Hk. cbn in Hk. injection Hk as ->. rewrite Nat.add_1_r. reflexivity.
  - (* choice *)
    intros o p q l s u Hs _ IH k f rest Hk Hr Hf. specialize (IH 124 eq_refl (or_intror eq_refl)).
    change (lit "(") with [40] in *. change (lit ")") with [41] in *. rewrite !app_length in Hf. cbn [length] in Hf.
    destruct f as [|[|f]]; [lia|lia|]. rewrite <- !app_assoc. cbn [app]. rewrite parse_cp_group. cbn [parse_group].
    destruct (IH k f (occ_text o ++ rest)) as (p' & l' & k1 & t1 & t2 & El & H1 & H2 & H3 & H4); [exact Hk|lia|].
    injection El as <- <-. 
    assert (solid (u ++ 41 :: occ_text o ++ rest)) as So.
    { revert H1. clear. intro H1. destruct u as [|c u]; [cbn; split; [reflexivity|lia]|]. cbn [app] in *. cbn.
      destruct f as [|f]; [discriminate|]. cbn [parse_cp] in H1. change (lit "(") with [40] in H1. cbn [parse_literal] in H1.
      destruct (40 =? c) eqn:E; [apply Z.eqb_eq in E as <-; split; [reflexivity|lia]|]. cbn [parse_required_name] in H1.
      destruct (is_name_start_char c) eqn:E'; [apply start_not in E'; tauto|discriminate]. }
    rewrite parse_s_skip by assumption. cbn [rbind]. rewrite H1. cbn [rbind]. rewrite H2. cbn [rbind].
    destruct H4 as [r ->]. cbn [Z.eqb orb Pos.eqb]. rewrite H3. cbn [rbind]. rewrite parse_occ_app by assumption. reflexivity.
  - (* sequence *)
    intros o l s u Hs Hg IH k f rest Hk Hr Hf. specialize (IH 44 eq_refl (or_introl eq_refl)).
    change (lit "(") with [40] in *. change (lit ")") with [41] in *. rewrite !app_length in Hf. cbn [length] in Hf.
    destruct f as [|[|f]]; [lia|lia|]. rewrite <- !app_assoc. cbn [app]. rewrite parse_cp_group. cbn [parse_group].
    destruct (IH k f (occ_text o ++ rest)) as (p' & l' & k1 & t1 & t2 & El & H1 & H2 & H3 & H4); [exact Hk|lia|].
    pose proof (group_text_solid _ _ _ (41 :: occ_text o ++ rest) Hg) as So.
    rewrite parse_s_skip by assumption. cbn [rbind]. rewrite H1. cbn [rbind]. rewrite H2. cbn [rbind].
    assert (exists r c, t2 = c :: r /\ (c =? 44) || (c =? 41) = true) as (r & c & -> & ->).
    { destruct l'; destruct H4 as [r ->]; do 2 eexists; split; reflexivity. }
    rewrite H3. cbn [rbind]. rewrite parse_occ_app by assumption. subst l. reflexivity.
  - (* the last *)
    intros sep p t s Hp IH Hs c -> Hc k f rest Hk Hf. cbn [flat_map] in *. rewrite app_nil_r in *.
    pose proof (cp_text_len _ _ Hp). rewrite app_length in Hf. destruct f as [|f]; [lia|].
    destruct (stop_sep 41 rest) as [St So]; [auto|].
    exists p, [], (k + length (leaves p))%nat, (s ++ 41 :: rest), (41 :: rest). split; [reflexivity|]. split.
    { rewrite <- app_assoc. apply IH; [assumption| |lia]. apply stop_spaces; assumption. }
    split; [apply parse_s_skip; assumption|]. split; [apply parse_list_end; lia|]. eexists; reflexivity.
  - intros sep p t s s' l u Hp IHp Hs Hs' Hg IHg c -> Hc k f rest Hk Hf. cbn [flat_map] in *.
    apply numbered_app in Hk as [Hk1 Hk2]. pose proof (cp_text_len _ _ Hp). rewrite !app_length in Hf. cbn [length] in Hf.
    destruct f as [|f]; [lia|]. destruct (stop_sep c (s' ++ u ++ 41 :: rest)) as [St So]; [tauto|].
    destruct (IHg c eq_refl Hc (k + length (leaves p))%nat f rest) as (p' & l' & k1 & t1 & t2 & -> & H1 & H2 & H3 & H4); [exact Hk2|lia|].
    exists p, (p' :: l'), (k + length (leaves p))%nat, (s ++ c :: s' ++ u ++ 41 :: rest), (c :: s' ++ u ++ 41 :: rest).
    split; [reflexivity|]. split.
    { rewrite <- !app_assoc. cbn [app]. apply IHp; [assumption| |lia]. apply stop_spaces; assumption. }
    split; [apply parse_s_skip; assumption|]. split; [|eexists; reflexivity].
    rewrite parse_list_more. rewrite parse_s_skip; [|assumption|eapply group_text_solid; eassumption]. cbn [rbind].
    rewrite H1. cbn [rbind]. rewrite H2. cbn [rbind]. rewrite H3. cbn [rbind]. rewrite app_length, Nat.add_assoc. reflexivity.
Qed.

(** ** Soundness *)
Ltac step H :=
  match type of H with
  | rbind ?m _ = Ok _ => let E := fresh "E" in let x := fresh "x" in destruct m as [x|] eqn:E; cbn [rbind] in H; [|discriminate H]
  end.
Definition cp_sound (f : nat) : Prop := forall k t p k' rest, parse_cp f k t = Ok (p, k', rest) ->
  exists u, t = u ++ rest /\ cp_text p u /\ numbered k (leaves p) /\ k' = (k + length (leaves p))%nat.
Definition list_sound (f : nat) : Prop := forall c k t l k' rest, parse_list f c k t = Ok (l, k', rest) ->
  numbered k (flat_map leaves l) /\ k' = (k + length (flat_map leaves l))%nat /\
  exists u, t = u ++ rest /\ (l <> [] -> exists r, u = c :: r) /\
    forall p v s, cp_text p v -> spaces s -> exists w, v ++ s ++ u = w ++ lit ")" /\ group_text [c] (p :: l) w.
Definition group_sound (f : nat) : Prop := forall k t p k' rest, parse_group f k t = Ok (p, k', rest) ->
  numbered k (leaves p) /\ k' = (k + length (leaves p))%nat /\
  exists u s, t = s ++ u ++ lit ")" ++ rest /\ spaces s /\
    ((exists a b l, p = PChoice Once (a :: b :: l) /\ group_text (lit "|") (a :: b :: l) u) \/
     (exists l, p = PSeq Once l /\ group_text (lit ",") l u)).
Lemma sound_all : forall f, cp_sound f /\ group_sound f /\ list_sound f.
Proof.
  induction f as [|f (IHc & IHg & IHl)]; [repeat split; repeat intro; discriminate|]. split; [|split].
  - intros k t p k' rest H. cbn [parse_cp] in H. step H. destruct x as [[p0 k0] t0].
    destruct (parse_occ t0) as [o t1] eqn:Eo. injection H as <- <- <-. apply parse_occ_ok in Eo as ->.
    destruct (parse_literal (lit "(") t) as [t2|] eqn:El.
    + apply parse_literal_some in El as ->. apply IHg in E as (H1 & -> & u & s & -> & Hs & Hp).
      exists (lit "(" ++ s ++ u ++ lit ")" ++ occ_text o). split; [rewrite <- !app_assoc; reflexivity|].
      destruct Hp as [(a & b & l & -> & Hg)|(l & -> & Hg)]; cbn [set_occ]; (split; [constructor; assumption|]); split; assumption || reflexivity.
    + step E. destruct x as [n t2]. injection E as <- <- ->. apply required_name_ok in E0 as [-> Hn].
      exists (n ++ occ_text o). split; [rewrite <- app_assoc; reflexivity|]. cbn [set_occ]. split; [constructor; assumption|].
      split; [reflexivity|]. cbn. lia.
  - intros k t p k' rest H. cbn [parse_group] in H. step H. step H. destruct x0 as [[p0 k0] t0]. step H.
    apply parse_s_ok in E as (s & -> & Hs & _). apply IHc in E0 as (u & -> & Hu & Hn & ->).
    apply parse_s_ok in E1 as (s' & -> & Hs' & _). destruct x0 as [|c r]; [discriminate|].
    destruct ((c =? 44) || (c =? 41)) eqn:Ec.
    + step H. destruct x as [[l k1] t1]. injection H as <- <- <-. apply IHl in E as (H1 & -> & v & Ev & _ & Hv).
      destruct (Hv p0 u s' Hu Hs') as (w & Ew & Hw). split; [apply numbered_app; split; assumption|].
      split; [cbn [leaves flat_map]; rewrite app_length; lia|]. exists w, s. split.
      { f_equal. rewrite Ev, (app_assoc w), <- Ew, <- !app_assoc. reflexivity. }
      split; [assumption|]. right. eexists; split; [reflexivity|exact Hw].
    + destruct (c =? 124) eqn:Ec'; [|discriminate]. apply Z.eqb_eq in Ec' as ->.
      step H. destruct x as [[l k1] t1]. injection H as <- <- <-. pose proof E as E'. apply IHl in E as (H1 & -> & v & Ev & _ & Hv).
      destruct (Hv p0 u s' Hu Hs') as (w & Ew & Hw). split; [apply numbered_app; split; assumption|].
      split; [cbn [leaves flat_map]; rewrite app_length; lia|]. exists w, s. split.
      { f_equal. rewrite Ev, (app_assoc w), <- Ew, <- !app_assoc. reflexivity. }
      split; [assumption|]. left. destruct l as [|b l].
      { exfalso. destruct f as [|f]; [discriminate E'|]. cbn [parse_list] in E'. rewrite Z.eqb_refl in E'.
        repeat (match type of E' with rbind _ _ = _ => step E' | context [let (_, _) := ?x in _] => destruct x end). discriminate. }
      do 3 eexists; split; [reflexivity|exact Hw].
  - intros c k t l k' rest H. cbn [parse_list] in H. destruct t as [|d r]; [discriminate|]. destruct (d =? c) eqn:Ed.
    + apply Z.eqb_eq in Ed as ->. step H. step H. destruct x0 as [[p k0] t0]. step H. step H. destruct x1 as [[l' k1] t1].
      injection H as <- <- <-. apply parse_s_ok in E as (s & -> & Hs & _). apply IHc in E0 as (u & -> & Hu & Hn & ->).
      apply parse_s_ok in E1 as (s' & -> & Hs' & _). apply IHl in E2 as (H1 & -> & v & -> & _ & Hv).
      split; [apply numbered_app; split; assumption|]. split; [cbn [flat_map]; rewrite app_length; lia|].
      exists (c :: s ++ u ++ s' ++ v). split; [cbn [app]; rewrite <- !app_assoc; reflexivity|]. split; [intros _; eexists; reflexivity|].
      intros p' v' s'' Hp' Hs''. destruct (Hv p u s' Hu Hs') as (w & Ew & Hw).
      exists (v' ++ s'' ++ [c] ++ s ++ w). split; [|constructor; assumption]. rewrite Ew. rewrite <- !app_assoc. reflexivity.
    + destruct (d =? 41) eqn:Ed'; [|discriminate]. injection H as <- <- <-. apply Z.eqb_eq in Ed' as ->.
      split; [reflexivity|]. split; [cbn; lia|]. exists (lit ")"). split; [reflexivity|]. split; [congruence|].
      intros p v s Hp Hs. exists (v ++ s). split; [rewrite <- app_assoc; reflexivity|]. constructor; assumption.
Qed.

(** ** Mixed content *)
Lemma mixed_complete : forall l u, mixed_text l u -> forall k f rest, numbered k l -> (length l < f)%nat ->
  parse_names f k (u ++ 41 :: rest) = Ok (l, (k + length l)%nat, 41 :: rest).
Proof.
  induction 1 as [s Hs|i n s s' l u Hs Hs' Hn Hu IH]; intros k f rest Hk Hf; (destruct f as [|f]; [cbn in Hf; lia|]).
  - cbn [parse_names]. rewrite parse_s_skip; [|assumption|cbn; split; [reflexivity|lia]]. cbn [rbind Z.eqb Pos.eqb length].
    rewrite Nat.add_0_r. reflexivity.
  - unfold numbered in Hk. cbn [map fst length seq] in Hk. injection Hk as -> Hk.
    change (lit "|") with [124]. rewrite <- !app_assoc. cbn [parse_names app].
    rewrite parse_s_skip; [|assumption|cbn; split; [reflexivity|lia]]. cbn [rbind Z.eqb Pos.eqb].
    rewrite parse_s_skip; [|assumption|apply xml_name_solid; assumption]. cbn [rbind].
    rewrite required_name_app; [|assumption|].
    2: { destruct Hu as [s0 Hs0|i0 n0 s0 s0' l0 u0 Hs0 _ _ _].
         - destruct s0 as [|c s0]; [reflexivity|]. inversion Hs0; subst. cbn. apply s_not_name, is_s_iff. assumption.
         - destruct s0 as [|c s0]; [reflexivity|]. inversion Hs0; subst. cbn. apply s_not_name, is_s_iff. assumption. }
    cbn [rbind]. rewrite (IH (S k) f rest); [|exact Hk|cbn in Hf; lia]. cbn [rbind length]. rewrite Nat.add_succ_comm. reflexivity.
Qed.
Lemma mixed_sound : forall f k t l k' rest, parse_names f k t = Ok (l, k', rest) ->
  numbered k l /\ exists u r, t = u ++ 41 :: r /\ rest = 41 :: r /\ mixed_text l u.
Proof.
  induction f as [|f IH]; intros k t l k' rest H; cbn [parse_names] in H; [discriminate|].
  step H. apply parse_s_ok in E as (s & -> & Hs & _). destruct x as [|c r]; [discriminate|]. destruct (c =? 41) eqn:E1.
  - injection H as <- <- <-. apply Z.eqb_eq in E1 as ->. split; [reflexivity|]. exists s, r. repeat split. constructor; assumption.
  - destruct (c =? 124) eqn:E2; [|discriminate]. apply Z.eqb_eq in E2 as ->. step H. step H. destruct x0 as [n t0]. step H.
    destruct x0 as [[l' k1] t1]. injection H as <- <- <-. apply parse_s_ok in E as (s' & -> & Hs' & _).
    apply required_name_ok in E0 as [-> Hn]. match goal with K : parse_names _ _ _ = Ok _ |- _ => apply IH in K as (H1 & u & r & -> & -> & Hu) end.
    split; [unfold numbered in *; cbn; f_equal; exact H1|].
    exists (s ++ lit "|" ++ s' ++ n ++ u), r. split; [rewrite <- !app_assoc; reflexivity|]. split; [reflexivity|]. constructor; assumption.
Qed.
Lemma mixed_len : forall l u, mixed_text l u -> (length l <= length u)%nat.
Proof. induction 1 as [|i n s s' l u _ _ _ _ IH]; [cbn; lia|]. rewrite !app_length. cbn in *. lia. Qed.

(** ** The content of a declaration *)
Lemma literal_none : forall m t, parse_literal m t = None <-> ~ exists r, t = m ++ r.
Proof.
  intros m t. split; intro H.
  - intros [r ->]. rewrite parse_literal_app in H. discriminate.
  - destruct (parse_literal m t) as [r|] eqn:E; [|reflexivity]. apply parse_literal_some in E. elim H. exists r. exact E.
Qed.
Lemma group_head : forall sep l u, group_text sep l u -> exists c r, u = c :: r /\ (c = 40 \/ name_start c).
Proof.
  intros sep l u H. assert (forall p t v, cp_text p t -> exists c r, t ++ v = c :: r /\ (c = 40 \/ name_start c)) as K.
  { intros p t v Hp. destruct Hp as [i n o (c & r & -> & Hc & _)|o p q l' s u' _ _|o l' s u' _ _]; do 2 eexists; (split; [reflexivity|auto]). }
  destruct H; eapply K; eassumption.
Qed.
Lemma content_complete : forall c t, content_text c t -> forall rest, numbered 0 (content_leaves c) -> stop rest ->
  parse_content_spec (t ++ rest) = Ok (c, rest).
Proof.
  intros c t H rest Hn Hr. destruct H as [| |s l u Hs Hu|s u Hs Hu|p t Hp Hg].
  - unfold parse_content_spec. rewrite parse_literal_app. reflexivity.
  - reflexivity.
  - unfold parse_content_spec. change (lit "(") with [40]. change (lit ")*") with [41; 42]. rewrite <- !app_assoc. cbn [app].
    match goal with |- context [40 :: ?x] => change (parse_literal (lit "EMPTY") (40 :: x)) with (@None str);
      change (parse_literal (lit "ANY") (40 :: x)) with (@None str); change (parse_literal [40] (40 :: x)) with (Some x) end.
    cbv beta iota. rewrite parse_s_skip; [|assumption|cbn; split; [reflexivity|lia]]. cbn [rbind].
    rewrite parse_literal_app. unfold parse_mixed. rewrite (mixed_complete l u Hu 0 _ (42 :: rest) Hn).
    2: { apply mixed_len in Hu. rewrite app_length. lia. }
    cbn [rbind]. destruct l; reflexivity.
  - unfold parse_content_spec. change (lit "(") with [40]. change (lit ")") with [41]. rewrite <- !app_assoc. cbn [app].
    match goal with |- context [40 :: ?x] => change (parse_literal (lit "EMPTY") (40 :: x)) with (@None str);
      change (parse_literal (lit "ANY") (40 :: x)) with (@None str); change (parse_literal [40] (40 :: x)) with (Some x) end.
    cbv beta iota. rewrite parse_s_skip; [|assumption|cbn; split; [reflexivity|lia]]. cbn [rbind].
    rewrite parse_literal_app. unfold parse_mixed. rewrite (mixed_complete [] u (mt_nil u Hu) 0 _ rest Hn).
    2: { cbn. lia. }
    cbn [rbind]. change (parse_required_literal (lit ")") (41 :: rest)) with (Ok rest). cbn [rbind].
    destruct rest as [|c rest]; [reflexivity|]. cbn in Hr. change (lit "*") with [42]. cbn [parse_literal].
    replace (42 =? c) with false by lia. reflexivity.
  - assert (exists s v, t = 40 :: s ++ v /\ spaces s /\ cp_text p (40 :: v) /\ exists c r, v = c :: r /\ (c = 40 \/ name_start c))
      as (s & v & -> & Hs & Hv & c & r & -> & Hc).
    { destruct Hp as [i n o Hn'|o p q l s u Hs Hu|o l s u Hs Hu]; [elim (Hg i n o eq_refl)| |].
      - exists s, (u ++ lit ")" ++ occ_text o). split; [reflexivity|]. split; [assumption|].
        split; [apply (ct_choice o p q l [] u); [constructor|assumption]|]. destruct (group_head _ _ _ Hu) as (c & r & -> & Hc).
        do 2 eexists; split; [reflexivity|exact Hc].
      - exists s, (u ++ lit ")" ++ occ_text o). split; [reflexivity|]. split; [assumption|].
        split; [apply (ct_seq o l [] u); [constructor|assumption]|]. destruct (group_head _ _ _ Hu) as (c & r & -> & Hc).
        do 2 eexists; split; [reflexivity|exact Hc]. }
    pose proof (proj1 complete _ _ Hv 0%nat (S (2 * length ((c :: r) ++ rest) + 2)) rest Hn Hr) as H.
    specialize (H ltac:(cbn [length app]; rewrite !app_length; lia)).
    unfold parse_content_spec. change (lit "(") with [40]. cbn [app].
    match goal with |- context [40 :: ?x] => change (parse_literal (lit "EMPTY") (40 :: x)) with (@None str);
      change (parse_literal (lit "ANY") (40 :: x)) with (@None str); change (parse_literal [40] (40 :: x)) with (Some x) end.
    cbv beta iota. rewrite <- app_assoc. cbn [app]. rewrite parse_s_skip; [|assumption|].
    2: { destruct Hc as [->|Hc]; [cbn; split; [reflexivity|lia]|]. apply start_iff, start_not in Hc. cbn. tauto. }
    cbn [rbind]. assert (35 <> c) as N by (destruct Hc as [->|Hc]; [|unfold name_start in Hc]; lia).
    match goal with |- context [parse_literal (lit "#PCDATA") (c :: ?x)] => assert (parse_literal (lit "#PCDATA") (c :: x) = None) as -> end.
    { change (lit "#PCDATA") with (35 :: lit "PCDATA"). cbn [parse_literal]. replace (35 =? c) with false by lia. reflexivity. }
    cbn [app] in H. rewrite parse_cp_group in H. step H. destruct x as [[p0 k0] t0]. cbn [rbind]. 
    destruct (parse_occ t0) as [o t1]. injection H as <- _ <-. reflexivity.
Qed.
Lemma content_sound : forall t c rest, parse_content_spec t = Ok (c, rest) ->
  exists u, t = u ++ rest /\ content_text c u /\ numbered 0 (content_leaves c).
Proof.
  intros t c rest H. unfold parse_content_spec in H. destruct (parse_literal (lit "EMPTY") t) as [r|] eqn:E1.
  { injection H as <- <-. apply parse_literal_some in E1. exists (lit "EMPTY"). repeat split; [assumption|constructor]. }
  destruct (parse_literal (lit "ANY") t) as [r|] eqn:E2.
  { injection H as <- <-. apply parse_literal_some in E2. exists (lit "ANY"). repeat split; [assumption|constructor]. }
  destruct (parse_literal (lit "(") t) as [r|] eqn:E3; [|discriminate]. apply parse_literal_some in E3 as ->. step H.
  apply parse_s_ok in E as (s & -> & Hs & _). destruct (parse_literal (lit "#PCDATA") x) as [r|] eqn:E4.
  - apply parse_literal_some in E4 as ->. step H. destruct x as [l t]. injection H as <- <-. unfold parse_mixed in E. step E.
    destruct x as [[l' k'] t']. apply mixed_sound in E0 as (Hn & u & r' & -> & -> & Hu). destruct l' as [|x l'].
    + step E. apply required_literal_ok in E0. injection E0 as ->. destruct (parse_literal (lit "*") x) as [y|] eqn:E5.
      * injection E as <- <-. apply parse_literal_some in E5 as ->. exists (lit "(" ++ s ++ lit "#PCDATA" ++ u ++ lit ")*").
        split; [rewrite <- !app_assoc; reflexivity|]. split; [constructor; assumption|reflexivity].
      * injection E as <- <-. exists (lit "(" ++ s ++ lit "#PCDATA" ++ u ++ lit ")").
        split; [rewrite <- !app_assoc; reflexivity|]. split; [constructor; [assumption|inversion Hu; assumption]|reflexivity].
    + step E. injection E as <- <-. apply required_literal_ok in E0. change (lit ")*") with [41; 42] in E0. injection E0 as ->.
      exists (lit "(" ++ s ++ lit "#PCDATA" ++ u ++ lit ")*").
      split; [rewrite <- !app_assoc; reflexivity|]. split; [constructor; assumption|exact Hn].
  - step H. destruct x0 as [[p k'] t]. destruct (parse_occ t) as [o t'] eqn:Eo. injection H as <- <-.
    apply parse_occ_ok in Eo as ->. apply (proj1 (proj2 (sound_all _))) in E as (Hn & _ & u & s' & -> & Hs' & Hp).
    exists (lit "(" ++ (s ++ s') ++ u ++ lit ")" ++ occ_text o). split; [rewrite <- !app_assoc; reflexivity|].
    assert (spaces (s ++ s')) as Hss by (apply Forall_app; split; assumption).
    destruct Hp as [(a & b & l & -> & Hg)|(l & -> & Hg)]; cbn [set_occ content_leaves]; (split; [|exact Hn]);
      (constructor; [|discriminate]); constructor; assumption.
Qed.
Lemma element_iff : forall t n c rest, parse_element_decl t = Ok (n, c, rest) <->
  exists u, t = u ++ rest /\ element_text n c u /\ numbered 0 (content_leaves c).
Proof.
  intros t n c rest. split.
  - intro H. unfold parse_element_decl in H. step H. step H. destruct x0 as [n0 t0]. step H. step H. destruct x1 as [c0 t1]. step H. step H.
    injection H as <- <- <-. apply required_s_ok in E as (s1 & -> & N1 & H1). apply required_name_ok in E0 as (-> & Hn).
    apply required_s_ok in E1 as (s2 & -> & N2 & H2). apply content_sound in E2 as (u & -> & Hu & Hk).
    apply parse_s_ok in E3 as (s3 & -> & H3 & _). apply required_literal_ok in E4 as ->.
    exists (s1 ++ n0 ++ s2 ++ u ++ s3 ++ lit ">"). split; [rewrite <- !app_assoc; reflexivity|]. split; [|assumption].
    exists s1, s2, u, s3. repeat (split; [assumption || reflexivity|]). assumption.
  - intros (u0 & -> & (s1 & s2 & u & s3 & -> & N1 & N2 & H1 & H2 & H3 & Hn & Hu) & Hk). rewrite <- !app_assoc.
    unfold parse_element_decl. rewrite required_s_skip; [|assumption|assumption|apply xml_name_solid; assumption]. cbn [rbind].
    rewrite required_name_app; [|assumption|]. 2: { destruct s2 as [|d s2]; [congruence|]. inversion H2; subst. cbn. apply s_not_name, is_s_iff. assumption. }
    cbn [rbind]. rewrite required_s_skip; [|assumption|assumption|].
    2: { destruct Hu as [| |s l u Hs Hu|s u Hs Hu|p u Hp Hg]; try (cbn; split; [reflexivity|lia]). eapply cp_text_solid; eassumption. }
    cbn [rbind]. rewrite (content_complete c u); [|assumption|assumption|apply stop_spaces; [assumption|cbn; repeat split; (reflexivity || lia)]].
    cbn [rbind]. rewrite parse_s_skip; [|assumption|cbn; split; [reflexivity|lia]]. cbn [rbind].
    rewrite (proj2 (required_literal_ok (lit ">") _ rest) eq_refl). reflexivity.
Qed.

(** ** Parsed models are models *)
Lemma numbered_nodup : forall k l, numbered k l -> NoDup (map fst l).
Proof. intros k l ->. apply seq_NoDup. Qed.
Lemma text_names :
  (forall p t, cp_text p t -> Forall (fun x => snd x <> []) (leaves p) /\ full p) /\
  (forall sep l u, group_text sep l u -> Forall (fun x => snd x <> []) (flat_map leaves l) /\ l <> [] /\ (fix go l := match l with [] => True | p :: r => full p /\ go r end) l).
Proof.
  apply cp_group_ind.
  - intros i n o (c & r & -> & _). split; [constructor; [discriminate|constructor]|exact Logic.I].
  - intros o p q l s u _ _ (H1 & H2 & H3). split; [exact H1|split; assumption].
  - intros o l s u _ _ (H1 & H2 & H3). split; [exact H1|split; assumption].
  - intros sep p t s _ (H1 & H2) _. cbn [flat_map]. rewrite app_nil_r. split; [assumption|]. split; [discriminate|]. split; [assumption|exact Logic.I].
  - intros sep p t s s' l u _ (H1 & H2) _ _ _ (H3 & H4 & H5). cbn [flat_map]. split; [apply Forall_app; split; assumption|].
    split; [discriminate|]. split; assumption.
Qed.
Lemma mixed_leaves : forall l, leaves (mixed l) = l.
Proof. unfold mixed. cbn [leaves]. induction l as [|[i n] l IH]; [reflexivity|]. cbn [map flat_map leaves app fst snd]. rewrite IH. reflexivity. Qed.
Lemma parsed_ok : forall c t, content_text c t -> numbered 0 (content_leaves c) -> content_ok c.
Proof.
  intros c t H Hn. destruct H as [| |s l u Hs Hu|s u Hs Hu|p t Hp Hg]; cbn [content_ok content_leaves] in *; auto.
  - split; rewrite mixed_leaves; [eapply numbered_nodup; eassumption|]. clear -Hu. induction Hu as [|i n s s' l u _ _ (c & r & -> & _) _ IH]; constructor; [discriminate|assumption].
  - split; constructor.
  - destruct (proj1 text_names _ _ Hp) as [H1 H2]. split; [|assumption]. split; [eapply numbered_nodup; eassumption|assumption].
Qed.
