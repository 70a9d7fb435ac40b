(** Lemmas: the string form of a class is a regular expression for it. *)
From Verif Require Import Py ReSpec CharClassModel CharClassProofs.

Lemma set_escape_cases c :
  (set_escape c = [92; c] /\ (c = 45 \/ c = 92 \/ c = 93)) \/
  (exists e, set_escape c = [92; e] /\ set_controls c = Some e) \/
  (set_escape c = [c] /\ c <> 45 /\ c <> 92 /\ c <> 93).
Proof.
  unfold set_escape. destruct (zin c (lit "-\]")) eqn:E.
  - left. split; [reflexivity|]. apply zin_In in E. cbn in E. intuition lia.
  - apply zin_not_In in E. cbn in E.
    destruct (set_controls c) as [e|] eqn:Ec.
    + right. left. eauto.
    + right. right. split; [reflexivity|]. psplit; intro; subst; apply E; tauto.
Qed.

Lemma set_controls_range c e : set_controls c = Some e ->
  (c = 7 /\ e = 97) \/ (c = 8 /\ e = 98) \/ (c = 9 /\ e = 116) \/ (c = 10 /\ e = 110) \/
  (c = 11 /\ e = 118) \/ (c = 12 /\ e = 102) \/ (c = 13 /\ e = 114).
Proof.
  unfold set_controls. repeat (destr; [b2p; intros H; injection H as <-; cbn; tauto|]). discriminate.
Qed.

Lemma re_member_escape c r : re_member (set_escape c ++ r) = Some (c, r).
Proof.
  destruct (set_escape_cases c) as [[-> H]|[(e & -> & H)|(-> & H1 & H2 & H3)]].
  - destruct H as [->|[->| ->]]; reflexivity.
  - apply set_controls_range in H.
    destruct H as [[-> ->]|[[-> ->]|[[-> ->]|[[-> ->]|[[-> ->]|[[-> ->]|[-> ->]]]]]]]; reflexivity.
  - cbn [app re_member]. unfold backslash. destruct (c =? 92) eqn:E; b2p; [lia|]. reflexivity.
Qed.

Lemma set_escape_head c r : exists h t, set_escape c ++ r = h :: t /\
  h <> 45 /\ h <> 93 /\ (c <> 94 -> h <> 94) /\ (length r <= length t)%nat.
Proof.
  destruct (set_escape_cases c) as [[-> H]|[(e & -> & H)|(-> & H1 & H2 & H3)]]; cbn [app].
  - exists 92, (c :: r). psplit; try lia. reflexivity. cbn; lia.
  - exists 92, (e :: r). psplit; try lia. reflexivity. cbn; lia.
  - exists c, r. psplit; auto.
Qed.

Definition items_text (its : list (Z * Z)) : str := flat_map (fun it => range_text (fst it) (snd it)) its.

Lemma re_members_step_lit fuel first c r :
  (exists h t, r = h :: t /\ h <> 45) ->
  re_members (S fuel) first (set_escape c ++ r) =
  match re_members fuel false r with
  | Some (items, rest) => Some ((c, c) :: items, rest) | None => None end.
Proof.
  intros (h & t & Hr & Hh). destruct (set_escape_head c r) as (h0 & t0 & E & H1 & H2 & _).
  pose proof (re_member_escape c r) as Hm. rewrite E in *. cbn [re_members].
  unfold rbracket. destruct (h0 =? 93) eqn:E0; b2p; [lia|]. cbn [andb].
  rewrite Hm. rewrite Hr. unfold dash. destruct (h =? 45) eqn:E1; b2p; [lia|]. reflexivity.
Qed.

Lemma re_members_step_range fuel first lo hi r : lo <= hi ->
  re_members (S fuel) first (set_escape lo ++ [45] ++ set_escape hi ++ r) =
  match re_members fuel false r with
  | Some (items, rest) => Some ((lo, hi) :: items, rest) | None => None end.
Proof.
  intros Hle.
  destruct (set_escape_head lo ([45] ++ set_escape hi ++ r)) as (h0 & t0 & E & H1 & H2 & _).
  pose proof (re_member_escape lo ([45] ++ set_escape hi ++ r)) as Hm. rewrite E in *.
  cbn [re_members]. unfold rbracket, dash. destruct (h0 =? 93) eqn:E0; b2p; [lia|]. cbn [andb].
  rewrite Hm. cbn [app]. rewrite Z.eqb_refl.
  destruct (set_escape_head hi r) as (h2 & t2 & E2 & H3 & H4 & _).
  pose proof (re_member_escape hi r) as Hm2. rewrite E2 in *.
  destruct (h2 =? 93) eqn:E3; b2p; [lia|]. rewrite Hm2.
  destruct (hi <? lo) eqn:E4; b2p; [lia|]. reflexivity.
Qed.

Lemma re_members_text tail ti :
  (exists h t, tail = h :: t /\ h <> 45) ->
  (forall fuel, (length tail < fuel)%nat -> re_members fuel false tail = Some (ti, [])) ->
  forall its first fuel, Forall (fun it => fst it <= snd it) its ->
  (its <> [] \/ first = false) ->
  (length (items_text its ++ tail) < fuel)%nat ->
  exists items, re_members fuel first (items_text its ++ tail) = Some (items, []) /\
    forall c, in_items items c = in_items its c || in_items ti c.
Proof.
  intros Ht Hti. induction its as [|[lo hi] its IH]; intros first fuel Hf Hne Hfuel.
  - destruct Hne as [Hne| ->]; [congruence|]. exists ti. split; [|reflexivity].
    apply Hti. exact Hfuel.
  - inversion Hf as [|? ? Hle Hf']; subst. cbn [fst snd] in Hle.
    assert (Hhd : exists h t, items_text its ++ tail = h :: t /\ h <> 45).
    { destruct its as [|[l2 h2] its']; [exact Ht|].
      inversion Hf'; subst. cbn [fst snd] in *.
      cbn [items_text flat_map fst snd]. unfold range_text.
      destruct (h2 <? l2) eqn:E; b2p; [lia|].
      destruct (l2 =? h2); [|destruct (l2 + 1 =? h2)]; rewrite <- ?app_assoc;
        match goal with |- context [set_escape l2 ++ ?r] =>
          destruct (set_escape_head l2 r) as (h & t & -> & Hh & _); eauto end. }
    cbn [items_text flat_map fst snd] in *. fold (items_text its) in *. unfold range_text in *.
    destruct (hi <? lo) eqn:E; b2p; [lia|].
    destruct (lo =? hi) eqn:E1; b2p; [|destruct (lo + 1 =? hi) eqn:E2; b2p].
    + subst hi. rewrite <- app_assoc in *. destruct fuel as [|fuel]; [lia|].
      rewrite re_members_step_lit by exact Hhd.
      destruct (IH false fuel Hf' (or_intror eq_refl)) as (items & -> & Hi).
      { destruct (set_escape_head lo (items_text its ++ tail)) as (h & t & Eh & _ & _ & _ & Hl).
        rewrite Eh in Hfuel. cbn in Hfuel. lia. }
      exists ((lo, lo) :: items). split; [reflexivity|]. intros c. unfold in_items in *. cbn.
      rewrite Hi. apply orb_assoc.
    + rewrite <- !app_assoc in *. destruct fuel as [|fuel]; [lia|].
      rewrite re_members_step_lit.
      2:{ destruct (set_escape_head hi (items_text its ++ tail)) as (h & t & -> & Hh & _). eauto. }
      destruct (set_escape_head lo (set_escape hi ++ items_text its ++ tail)) as (h & t & Eh & _ & _ & _ & Hl).
      rewrite Eh in Hfuel. cbn in Hfuel.
      destruct (set_escape_head hi (items_text its ++ tail)) as (h2 & t2 & Eh2 & _ & _ & _ & Hl2).
      rewrite Eh2 in Hl. cbn in Hl.
      destruct fuel as [|fuel]; [lia|].
      rewrite re_members_step_lit by exact Hhd.
      destruct (IH false fuel Hf' (or_intror eq_refl)) as (items & -> & Hi); [lia|].
      exists ((lo, lo) :: (hi, hi) :: items). split; [reflexivity|]. intros c. unfold in_items in *. cbn.
      rewrite Hi. rewrite !orb_assoc. f_equal. f_equal.
      apply eq_true_iff_eq. rewrite orb_true_iff, !andb_true_iff, !Z.leb_le. lia.
    + rewrite <- !app_assoc in *. destruct fuel as [|fuel]; [lia|].
      rewrite re_members_step_range by lia.
      destruct (IH false fuel Hf' (or_intror eq_refl)) as (items & -> & Hi).
      { rewrite !app_length in *. cbn in *. lia. }
      exists ((lo, hi) :: items). split; [reflexivity|]. intros c. unfold in_items in *. cbn.
      rewrite Hi. apply orb_assoc.
Qed.

(** ** set_body *)
Definition adj (r : rng) : Z * Z := (if rlo r =? 94 then 95 else rlo r, rhi r).
Definition keep (l : ranges) : list (Z * Z) := filter (fun it => fst it <=? snd it) (map adj l).
Definition has_caret (l : ranges) : bool := existsb (fun r => rlo r =? 94) l.

Lemma set_body_eq l : set_body l = items_text (keep l) ++ (if has_caret l then [94] else []).
Proof.
  unfold set_body, has_caret. f_equal. unfold items_text, keep.
  induction l as [|r l IH]; [reflexivity|]. cbn [flat_map map filter]. rewrite IH.
  destruct (fst (adj r) <=? snd (adj r)) eqn:E; cbn [adj fst snd] in E; b2p.
  - cbn [flat_map adj fst snd]. reflexivity.
  - unfold range_text at 1. destruct (rhi r <? _) eqn:E2; b2p; [reflexivity|lia].
Qed.

Lemma keep_ok l : Forall (fun it => fst it <= snd it) (keep l).
Proof.
  apply Forall_forall. intros it H. apply filter_In in H as [_ H]. b2p. exact H.
Qed.

Lemma in_keep' l c : wf l ->
  in_items (keep l) c = true \/ (has_caret l = true /\ c = 94) <-> mem l c.
Proof.
  induction l as [|r l IH]; intros Hw.
  - cbn. rewrite mem_nil. intuition discriminate.
  - destruct Hw as (Wr & _ & Hw). specialize (IH Hw). rewrite mem_cons, <- IH.
    unfold keep, has_caret. cbn [map filter existsb].
    fold (keep l). fold (has_caret l).
    cbn [adj fst snd]. unfold wf_r, inr_ in *.
    assert (Hin : forall a b its, in_items ((a, b) :: its) c = true <-> a <= c <= b \/ in_items its c = true).
    { intros a b its. cbn [in_items existsb fst snd]. fold (in_items its c).
      rewrite orb_true_iff, andb_true_iff, !Z.leb_le. tauto. }
    unfold adj. destruct (rlo r =? 94) eqn:E; b2p; cbn [orb].
    + destruct (95 <=? rhi r) eqn:E2; b2p.
      * rewrite Hin. split.
        -- intros [[H|H]|[_ H]]; [left; lia|right; left; exact H|left; lia].
        -- intros [H|[H|[_ H]]].
           ++ destruct (Z.eq_dec c 94); [right; auto|left; left; lia].
           ++ left; right; exact H.
           ++ right; auto.
      * split.
        -- intros [H|[_ H]]; [right; left; exact H|left; lia].
        -- intros [H|[H|[_ H]]]; [right; split; auto; lia|left; exact H|right; auto].
    + destruct (rlo r <=? rhi r) eqn:E2; b2p; [|lia]. rewrite Hin. tauto.
Qed.

Lemma in_keep l c : wf l ->
  in_items (keep l) c || (if has_caret l then c =? 94 else false) = true <-> mem l c.
Proof.
  intros Hw. rewrite <- in_keep' by exact Hw. rewrite orb_true_iff.
  destruct (has_caret l); rewrite ?Z.eqb_eq; intuition discriminate.
Qed.

Lemma keep_nonempty l : wf l -> l <> [] -> (forall r, l = [r] -> rlo r <> rhi r) -> keep l <> [].
Proof.
  intros Hw Hne H1. destruct l as [|r [|r2 l]]; [congruence| |].
  - specialize (H1 r eq_refl). destruct Hw as (Wr & _). unfold wf_r in Wr. unfold keep. cbn.
    destruct (rlo r =? 94) eqn:E; b2p; (destr; b2p; [discriminate|lia]).
  - destruct Hw as (Wr & G & Wr2 & _). inversion G as [|? ? G2 _]; subst.
    unfold wf_r, gap in *. unfold keep. cbn.
    destruct (rlo r =? 94) eqn:E; b2p.
    + destruct (rlo r2 =? 94) eqn:E2; b2p; [lia|].
      destruct (95 <=? rhi r); [discriminate|]. destr; b2p; [discriminate|lia].
    + destr; b2p; [discriminate|lia].
Qed.

Lemma keep_head l it its : keep l = it :: its -> fst it <> 94.
Proof.
  intros H. assert (Hin : In it (keep l)) by (rewrite H; cbn; auto).
  apply filter_In in Hin as [Hin _]. apply in_map_iff in Hin as (r & <- & _). unfold adj. cbn.
  destr; b2p; lia.
Qed.

Lemma items_text_head it its r : fst it <= snd it -> fst it <> 94 ->
  exists h t, items_text (it :: its) ++ r = h :: t /\ h <> 94.
Proof.
  intros Hle Hn. cbn [items_text flat_map]. unfold range_text.
  destruct (snd it <? fst it) eqn:E; b2p; [lia|].
  destruct (fst it =? snd it); [|destruct (fst it + 1 =? snd it)]; rewrite <- ?app_assoc;
    match goal with |- context [set_escape (fst it) ++ ?x] =>
      destruct (set_escape_head (fst it) x) as (h & t & -> & _ & _ & Hh & _); eauto end.
Qed.

Lemma tail_caret (b : bool) : let tail := (if b then [94] else []) ++ [93] in
  (exists h t, tail = h :: t /\ h <> 45) /\
  (forall fuel, (length tail < fuel)%nat ->
     re_members fuel false tail = Some (if b then [(94, 94)] else [], [])).
Proof.
  destruct b; cbn; split.
  - exists 94, [93]. split; [reflexivity|lia].
  - intros [|[|[|fuel]]] H; try lia. reflexivity.
  - exists 93, []. split; [reflexivity|lia].
  - intros [|[|fuel]] H; try lia. reflexivity.
Qed.

Lemma body_members l : wf l -> keep l <> [] ->
  exists items, re_members (S (length (set_body l ++ [93]))) true (set_body l ++ [93]) = Some (items, []) /\
    forall c, in_items items c = true <-> mem l c.
Proof.
  intros Hw Hk. rewrite set_body_eq, <- app_assoc.
  destruct (tail_caret (has_caret l)) as [H1 H2].
  destruct (re_members_text _ _ H1 H2 (keep l) true
              (S (length (items_text (keep l) ++ (if has_caret l then [94] else []) ++ [93])))
              (keep_ok l) (or_introl Hk)) as (items & E & Hi); [lia|].
  exists items. split; [exact E|]. intros c. rewrite Hi, <- in_keep by exact Hw.
  destruct (has_caret l); cbn [in_items existsb fst snd]; [|tauto].
  rewrite !orb_true_iff, andb_true_iff, !Z.leb_le, Z.eqb_eq. intuition lia.
Qed.

Lemma re_one_set l : wf l -> keep l <> [] ->
  exists f, re_one (lit "[" ++ set_body l ++ lit "]") = Some f /\ forall c, f c = true <-> mem l c.
Proof.
  intros Hw Hk. destruct (body_members l Hw Hk) as (items & E & Hi).
  change (lit "[" ++ set_body l ++ lit "]") with (91 :: (set_body l ++ [93])).
  cbn [re_one]. unfold lbracket. rewrite Z.eqb_refl.
  assert (Hh : exists h t, set_body l ++ [93] = h :: t /\ h <> 94).
  { rewrite set_body_eq, <- app_assoc. destruct (keep l) as [|it its] eqn:Ek; [congruence|].
    apply items_text_head.
    - pose proof (keep_ok l) as Hf. rewrite Ek in Hf. inversion Hf; auto.
    - eapply keep_head; eauto. }
  destruct Hh as (h & t & Eh & Hh). rewrite Eh in E |- *.
  unfold caret. destruct (h =? 94) eqn:E0; b2p; [lia|].
  rewrite E. eexists. split; [reflexivity|]. intros c. cbn beta. rewrite xorb_false_l. apply Hi.
Qed.

Lemma re_one_neg_set l : wf l -> keep l <> [] ->
  exists f, re_one (lit "[^" ++ set_body l ++ lit "]") = Some f /\ forall c, f c = true <-> ~ mem l c.
Proof.
  intros Hw Hk. destruct (body_members l Hw Hk) as (items & E & Hi).
  change (lit "[^" ++ set_body l ++ lit "]") with (91 :: 94 :: (set_body l ++ [93])).
  cbn [re_one]. unfold lbracket, caret. rewrite !Z.eqb_refl. rewrite E.
  eexists. split; [reflexivity|]. intros c. cbn beta. rewrite xorb_true_l, negb_true_iff.
  rewrite <- Hi. destruct (in_items items c); split; congruence.
Qed.

(** ** single characters *)
Lemma re_escape_cases c :
  (re_escape c = [92; c] /\ In c (lit ".^$*+?{}\[]|()")) \/
  (exists e, re_escape c = [92; e] /\ re_controls c = Some e) \/
  (re_escape c = [c] /\ re_controls c = None /\ ~ In c (lit ".^$*+?{}\[]|()")).
Proof.
  unfold re_escape. destruct (zin c (lit ".^$*+?{}\[]|()")) eqn:E.
  - left. split; [reflexivity|]. apply zin_In. exact E.
  - right. apply zin_not_In in E. destruct (re_controls c) as [e|] eqn:Ec; [left; eauto|right; auto].
Qed.

Lemma re_controls_range c e : re_controls c = Some e ->
  (c = 7 /\ e = 97) \/ (c = 9 /\ e = 116) \/ (c = 10 /\ e = 110) \/
  (c = 11 /\ e = 118) \/ (c = 12 /\ e = 102) \/ (c = 13 /\ e = 114).
Proof.
  unfold re_controls. destr; [discriminate|]. b2p. intros H. apply set_controls_range in H. intuition lia.
Qed.

Lemma re_one_escape c :
  exists f, re_one (re_escape c) = Some f /\ forall x, f x = true <-> x = c.
Proof.
  destruct (re_escape_cases c) as [[-> H]|[(e & -> & H)|(-> & HN & H)]].
  - cbn in H. repeat (destruct H as [<-|H]; [eexists; split; [reflexivity|intros x; cbn beta; apply Z.eqb_eq]|]).
    destruct H.
  - apply re_controls_range in H.
    destruct H as [[-> ->]|[[-> ->]|[[-> ->]|[[-> ->]|[[-> ->]|[-> ->]]]]]];
      (eexists; split; [reflexivity|intros x; cbn beta; apply Z.eqb_eq]).
  - cbn [re_one]. unfold lbracket, backslash.
    destruct (c =? 91) eqn:E1; b2p; [exfalso; apply H; subst; cbn; tauto|].
    destruct (c =? 92) eqn:E2; b2p; [exfalso; apply H; subst; cbn; tauto|].
    unfold re_special. apply zin_not_In in H. rewrite H.
    eexists. split; [reflexivity|]. intros x. apply Z.eqb_eq.
Qed.

(** what [to_str] makes of the text of a negated one-character class *)
Definition neg_char_text (c : Z) : str :=
  if c =? 93 then lit "[^\]]"
  else match re_controls c with
       | Some e => lit "[^" ++ [92; e] ++ lit "]"
       | None => lit "[^" ++ [c] ++ lit "]"
       end.

Lemma xor_single a x : xorb true (in_items [(a, a)] x) = true <-> x <> a.
Proof.
  rewrite xorb_true_l, negb_true_iff. cbn [in_items existsb fst snd].
  rewrite orb_false_r, andb_false_iff, !Z.leb_gt. lia.
Qed.

Lemma re_one_neg_char c : c <> 92 ->
  exists f, re_one (neg_char_text c) = Some f /\ forall x, f x = true <-> x <> c.
Proof.
  intros Hc. unfold neg_char_text. destruct (c =? 93) eqn:E; b2p.
  - subst. eexists. split; [reflexivity|]. intros x. apply (xor_single 93 x).
  - destruct (re_controls c) as [e|] eqn:Ec.
    + apply re_controls_range in Ec.
      destruct Ec as [[-> ->]|[[-> ->]|[[-> ->]|[[-> ->]|[[-> ->]|[-> ->]]]]]];
        (eexists; split; [reflexivity|]; intros x; apply xor_single).
    + change (lit "[^" ++ [c] ++ lit "]") with [91; 94; c; 93]. cbn [re_one].
      unfold lbracket, caret. rewrite !Z.eqb_refl. cbn [length re_members].
      unfold rbracket. destruct (c =? 93) eqn:E2; b2p; [lia|]. cbn [andb re_member].
      unfold backslash. destruct (c =? 92) eqn:E3; b2p; [lia|].
      unfold dash. cbn [Z.eqb Pos.eqb andb negb]. eexists. split; [reflexivity|]. intros x.
      apply (xor_single c x).
Qed.

(** ** negation at value level *)
Lemma sub_all_spec : forall l n from, wf l -> wf from -> tagok n from ->
  exists n' l', sub_all n l from = Ok (n', l') /\ wf l' /\
    (forall c, mem l' c <-> mem from c /\ ~ mem l c).
Proof.
  induction l as [|r l IH]; intros n from Hw Hf Ht; cbn [sub_all].
  - exists n, from. psplit; auto. intros c. rewrite mem_nil. tauto.
  - destruct Hw as (Wr & _ & Hw). unfold wf_r in Wr.
    destruct (subtract_range_spec n from (rlo r) (rhi r) Hf Ht) as (n1 & l1 & -> & (W1 & M1 & T1 & _)).
    { unfold is_char. lia. } { unfold is_char. lia. }
    cbn [rbind]. destruct (IH n1 l1 Hw W1 T1) as (n' & l' & E & W & M).
    exists n', l'. psplit; auto. intros c. rewrite M, M1, mem_cons. unfold inr_.
    assert (Z.min (rlo r) (rhi r) <= c <= Z.max (rlo r) (rhi r) <-> rlo r <= c <= rhi r) by lia. tauto.
Qed.

Lemma negated_spec l : wf l -> exists l', negated l = Ok l' /\ wf l' /\
  (forall c, mem l' c <-> is_char c /\ ~ mem l c).
Proof.
  intros Hw. unfold negated.
  destruct (sub_all_spec l 1 [mkr 0 0 maxunicode] Hw) as (n' & l' & -> & W & M).
  - cbn. unfold wf_r, maxunicode. cbn. psplit; auto; lia.
  - split; cbn; repeat constructor; auto.
  - cbn [rbind]. exists l'. psplit; auto. intros c. rewrite M, mem_cons, mem_nil.
    unfold inr_, is_char. cbn. tauto.
Qed.

Lemma last_mem l d : wf l -> l <> [] -> mem l (rhi (last l d)).
Proof.
  intros Hw Hne. exists (last l d).
  assert (Hin : In (last l d) l).
  { destruct l as [|r l] using rev_ind; [congruence|]. rewrite last_last, in_app_iff. cbn. auto. }
  split; [exact Hin|]. apply (wf_In _ _ Hw) in Hin. unfold wf_r, inr_ in *. lia.
Qed.

Lemma mem_last_max l d : wf l -> mem l maxunicode -> rhi (last l d) = maxunicode.
Proof.
  intros Hw (r & Hr & Hi).
  assert (Hne : l <> []) by (intros ->; destruct Hr).
  destruct l as [|y l] using rev_ind; [congruence|]. rewrite last_last.
  apply wf_app in Hw as (W1 & (Wy & _) & G). unfold wf_r, inr_ in *.
  apply in_app_iff in Hr as [Hr|[<-|[]]].
  - specialize (G r y Hr (or_introl eq_refl)). unfold gap in G. lia.
  - lia.
Qed.

Lemma to_str_plain fuel l : wf l -> l <> [] -> ~ mem l maxunicode ->
  to_str (S fuel) l = match l with
    | [r] => if rlo r =? rhi r then Ok (re_escape (rlo r)) else Ok (lit "[" ++ set_body l ++ lit "]")
    | _ => Ok (lit "[" ++ set_body l ++ lit "]") end.
Proof.
  intros Hw Hne Hm. cbn [to_str]. rewrite match_ne by exact Hne.
  destruct (rhi (last l (mkr 0 0 0)) =? maxunicode) eqn:E; b2p; [|reflexivity].
  exfalso. apply Hm. rewrite <- E. apply last_mem; auto.
Qed.

Lemma removelast_snoc {A} (l : list A) x : removelast (l ++ [x]) = l.
Proof. rewrite removelast_app by discriminate. cbn. apply app_nil_r. Qed.

(** The full statement for value-level classes. *)
Lemma to_str_re l : wf l ->
  (exists c, is_char c /\ ~ mem l c) ->               (* not the class of all characters *)
  ~ (forall c, is_char c -> (mem l c <-> c <> 92)) -> (* not "everything but backslash" *)
  exists s f, to_str 3 l = Ok s /\ re_one s = Some f /\
    forall c, is_char c -> (f c = true <-> mem l c).
Proof.
  intros Hw Hnf Hnb.
  destruct l as [|r0 l0] eqn:El.
  { exists empty_range. eexists. split; [reflexivity|]. split; [reflexivity|].
    intros c [H1 H2]. rewrite mem_nil.
    change (xorb true (in_items [(0, maxunicode)] c) = true <-> False).
    rewrite xorb_true_l, negb_true_iff. cbn [in_items existsb fst snd].
    rewrite orb_false_r, andb_false_iff, !Z.leb_gt. lia. }
  rewrite <- El in *. assert (Hne : l <> []) by (rewrite El; discriminate). clear El r0 l0.
  destruct (in_dec Z.eq_dec (rhi (last l (mkr 0 0 0))) [maxunicode]) as [Hlast|Hlast].
  - cbn in Hlast. destruct Hlast as [Hlast|[]].
    assert (Hmax : mem l maxunicode) by (rewrite Hlast; apply last_mem; auto).
    destruct (negated_spec l Hw) as (neg & En & Wn & Mn).
    assert (Hnn : neg <> []).
    { destruct Hnf as (c & Hc & Hm). apply (mem_nonempty neg c). apply Mn. auto. }
    assert (Hnm : ~ mem neg maxunicode) by (rewrite Mn; tauto).
    assert (Hstr : to_str 3 l = (let! result := to_str 2 neg in
        match result with
        | [] => Err IndexError
        | c :: r =>
          if c =? 91 then Ok (lit "[^" ++ removelast r ++ lit "]")
          else if c =? 92 then
            if str_eqb result (lit "\]") then Ok (lit "[^\]]")
            else if is_re_control_value result then Ok (lit "[^" ++ result ++ lit "]")
            else let! d := get result 1 in Ok (lit "[^" ++ [d] ++ lit "]")
          else Ok (lit "[^" ++ result ++ lit "]")
        end)).
    { remember 2%nat as two. cbn [to_str]. rewrite match_ne by exact Hne.
      rewrite <- Hlast, Z.eqb_refl, En. cbn [rbind]. reflexivity. }
    rewrite Hstr. rewrite (to_str_plain 1 neg Wn Hnn Hnm).
    assert (Hset : keep neg <> [] -> exists s f,
       (let! result := Ok (lit "[" ++ set_body neg ++ lit "]") in
        match result with
        | [] => Err IndexError
        | c :: r =>
          if c =? 91 then Ok (lit "[^" ++ removelast r ++ lit "]")
          else if c =? 92 then
            if str_eqb result (lit "\]") then Ok (lit "[^\]]")
            else if is_re_control_value result then Ok (lit "[^" ++ result ++ lit "]")
            else let! d := get result 1 in Ok (lit "[^" ++ [d] ++ lit "]")
          else Ok (lit "[^" ++ result ++ lit "]")
        end) = Ok s /\ re_one s = Some f /\ forall c, is_char c -> (f c = true <-> mem l c)).
    { intros Hk. change (lit "[" ++ set_body neg ++ lit "]") with (91 :: (set_body neg ++ [93])).
      cbn [rbind]. rewrite Z.eqb_refl, removelast_snoc.
      destruct (re_one_neg_set neg Wn Hk) as (f & Ef & Hf).
      exists (lit "[^" ++ set_body neg ++ lit "]"), f. split; [reflexivity|]. split; [exact Ef|].
      intros c Hc. rewrite Hf, Mn. destruct (test_slow_mem l c Hw) as (b & _ & Hb).
      destruct b; intuition congruence. }
    destruct neg as [|r [|r2 neg']]; [congruence| |].
    + destruct (rlo r =? rhi r) eqn:E1; b2p.
      * (* a single missing character *)
        clear Hset. set (c := rlo r).
        assert (Hmc : forall x, mem [r] x <-> x = c).
        { intros x. rewrite mem_cons, mem_nil. unfold inr_, c. lia. }
        assert (Hc92 : c <> 92).
        { intros Hc. apply Hnb. intros x Hx. specialize (Mn x). rewrite Hmc in Mn.
          destruct (test_slow_mem l x Hw) as (b & _ & Hb). clearbody c; subst.
          assert (Dm : mem l x \/ ~ mem l x) by (destruct b; [left; apply Hb; reflexivity|right; intros Hq; apply Hb in Hq; discriminate]).
          clear - Mn Dm Hx. tauto. }
        assert (Htxt : (let! result := Ok (re_escape c) in
        match result with
        | [] => Err IndexError
        | c :: r =>
          if c =? 91 then Ok (lit "[^" ++ removelast r ++ lit "]")
          else if c =? 92 then
            if str_eqb result (lit "\]") then Ok (lit "[^\]]")
            else if is_re_control_value result then Ok (lit "[^" ++ result ++ lit "]")
            else let! d := get result 1 in Ok (lit "[^" ++ [d] ++ lit "]")
          else Ok (lit "[^" ++ result ++ lit "]")
        end) = Ok (neg_char_text c)).
        { clear - Hc92. clearbody c. cbn [rbind]. unfold neg_char_text.
          destruct (re_escape_cases c) as [[-> H]|[(e & -> & H)|(-> & HN & H)]].
          - cbn in H. repeat (destruct H as [<-|H]; [first [reflexivity | congruence]|]). destruct H.
          - rewrite H. apply re_controls_range in H.
            destruct H as [[-> ->]|[[-> ->]|[[-> ->]|[[-> ->]|[[-> ->]|[-> ->]]]]]]; reflexivity.
          - assert (c <> 91 /\ c <> 93) as [H1 H3] by (split; intros ->; apply H; cbn; tauto).
            destruct (c =? 91) eqn:Q1; b2p; [lia|]. destruct (c =? 92) eqn:Q2; b2p; [lia|].
            destruct (c =? 93) eqn:Q3; b2p; [lia|].
            rewrite HN. reflexivity. }
        fold c. rewrite Htxt. destruct (re_one_neg_char c Hc92) as (f & Ef & Hf).
        exists (neg_char_text c), f. split; [reflexivity|]. split; [exact Ef|].
        intros x Hx. rewrite Hf. specialize (Mn x). rewrite Hmc in Mn.
        destruct (test_slow_mem l x Hw) as (b & _ & Hb). clearbody c; subst.
          assert (Dm : mem l x \/ ~ mem l x) by (destruct b; [left; apply Hb; reflexivity|right; intros Hq; apply Hb in Hq; discriminate]).
          clear - Mn Dm Hx. tauto.
      * apply Hset. apply keep_nonempty; auto. intros x Hx. inversion Hx; subst. exact E1.
    + apply Hset. apply keep_nonempty; auto. intros x Hx. discriminate.
  - assert (Hnm : ~ mem l maxunicode).
    { intros Hm. apply Hlast. cbn. left. symmetry. apply mem_last_max; auto. }
    rewrite (to_str_plain 2 l Hw Hne Hnm).
    destruct l as [|r [|r2 l']]; [congruence| |].
    + destruct (rlo r =? rhi r) eqn:E1; b2p.
      * destruct (re_one_escape (rlo r)) as (f & Ef & Hf). exists (re_escape (rlo r)), f.
        split; [reflexivity|]. split; [exact Ef|]. intros c Hc. rewrite Hf, mem_cons, mem_nil.
        unfold inr_. lia.
      * destruct (re_one_set [r] Hw) as (f & Ef & Hf).
        { apply keep_nonempty; auto. intros x Hx. inversion Hx; subst. exact E1. }
        eexists _, f. split; [reflexivity|]. split; [exact Ef|]. intros c _. apply Hf.
    + destruct (re_one_set (r :: r2 :: l') Hw) as (f & Ef & Hf).
      { apply keep_nonempty; auto. intros x Hx. discriminate. }
      eexists _, f. split; [reflexivity|]. split; [exact Ef|]. intros c _. apply Hf.
Qed.
