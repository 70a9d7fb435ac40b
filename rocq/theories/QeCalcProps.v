(** Properties C124-C127 (continued): contains and match, numbers, evaluation, mappings and lookup tables of QTI. *)
From Coq Require Import Lia Permutation.
From Verif Require Import Py QeModel QeSpec QeProofs QeProps.

(** ** C124: contains and match *)
Lemma begins_spec : forall a l, begins a l = true <-> exists q, l = a ++ q.
Proof.
  induction a as [|x a IH]; intros l; cbn [begins app].
  - split; [eauto|]. intros _. destruct l; reflexivity.
  - destruct l as [|y l]; [split; [discriminate|intros (q & H); discriminate]|]. rewrite andb_true_iff, dat_eqb_eq, IH. split.
    + intros (-> & q & ->). eauto.
    + intros (q & [= -> ->]). eauto.
Qed.
Lemma search_spec : forall a l, search a l = true <-> exists p q, l = p ++ a ++ q.
Proof.
  intros a. induction l as [|y l IH]; cbn [search]; rewrite orb_true_iff, begins_spec.
  - split; [intros [(q & H)|H]; [exists [], q; exact H|discriminate]|]. intros (p & q & H). left. exists q. destruct p; [exact H|discriminate].
  - rewrite IH. split.
    + intros [(q & H)|(p & q & ->)]; [exists [], q; exact H|exists (y :: p), q; reflexivity].
    + intros (p & q & H). destruct p as [|z p]; [left; exists q; exact H|]. right. injection H as -> ->. eauto.
Qed.
Lemma dict_within : forall m m', dict_ok m -> NoDup (map fst m') ->
  forallb (fun '(k, n) => Nat.leb n (match dict_get m' k with Some n' => n' | None => O end)) m = true <-> forall d, (times d (dict_values m) <= times d (dict_values m'))%nat.
Proof.
  intros m m' (Hn & Hp) Hn'. rewrite forallb_forall. split.
  - intros H d. rewrite !values_count by assumption. unfold dcount. destruct (dict_get m d) as [n|] eqn:E; [|lia]. apply dict_get_in in E. apply H in E. apply Nat.leb_le in E. exact E.
  - intros H (k, n) Hin. apply Nat.leb_le. specialize (H k). rewrite !values_count in H by assumption. unfold dcount in H. rewrite (in_dict_get _ _ _ Hn Hin) in H. exact H.
Qed.
Theorem contains_exact : forall v w b, well_formed v -> well_formed w -> ~ is_null v -> ~ is_null w -> vbase v = Some b -> vbase w = Some b -> b <> Duration ->
  (vcard v = Some Ordered -> vcard w = Some Ordered ->
     exists x, op_contains v w = Ok (BooleanValue (Some x)) /\ (x = true <-> exists p q, members w = p ++ members v ++ q)) /\
  (vcard v = Some Multiple -> vcard w = Some Multiple ->
     exists x, op_contains v w = Ok (BooleanValue (Some x)) /\ (x = true <-> forall d, (times d (members v) <= times d (members w))%nat)).
Proof.
  intros [cv bv pv] [cw bw pw] b Hv Hw Hnv Hnw. unfold is_null, well_formed, members, op_contains in *. cbn [vcard vbase vval] in *. intros -> -> Hb.
  assert (E : check_base_types [Some b; Some b] = Ok (Some b)) by (unfold check_base_types; cbn [check_base_types_from]; destruct (base_dec b b); congruence).
  rewrite E. cbn [rbind]. split; intros -> ->; cbn [check_cardinalities check_cardinalities_from].
  - unfold check_cardinalities. cbn [check_cardinalities_from]. destruct (card_dec Ordered Ordered) as [_|]; [|congruence]. cbn [rbind].
    destruct pv as [[d|l|m|n]|]; try (destruct Hv; discriminate); try (destruct Hw; discriminate); try congruence.
    destruct pw as [[d|l'|m|n]|]; try (destruct Hv; discriminate); try (destruct Hw; discriminate); try congruence.
    exists (search l l'). split; [destruct b; try reflexivity; congruence|]. apply search_spec.
  - unfold check_cardinalities. cbn [check_cardinalities_from]. destruct (card_dec Multiple Multiple) as [_|]; [|congruence]. cbn [rbind].
    destruct pv as [[d|l|m|n]|]; try (destruct Hv; discriminate); try (destruct Hw; discriminate); try congruence.
    destruct pw as [[d|l'|m'|n]|]; try (destruct Hv; discriminate); try (destruct Hw; discriminate); try congruence.
    eexists. split; [destruct b; try reflexivity; congruence|]. apply dict_within; [split; tauto|tauto].
Qed.
(** of values of different type or cardinality it is refused; of NULL it is NULL *)
Lemma bases_differ : forall b b', b <> b' -> check_base_types [Some b; Some b'] = Err ProcessingError.
Proof. intros b b' H. unfold check_base_types. cbn [check_base_types_from]. destruct (base_dec b' b); congruence. Qed.
Lemma bases_agree : forall b, check_base_types [Some b; Some b] = Ok (Some b).
Proof. intros b. unfold check_base_types. cbn [check_base_types_from]. destruct (base_dec b b); congruence. Qed.
Lemma cards_differ : forall b b', b <> b' -> check_cardinalities [Some b; Some b'] = Err ProcessingError.
Proof. intros b b' H. unfold check_cardinalities. cbn [check_cardinalities_from]. destruct (card_dec b' b); congruence. Qed.
Lemma cards_agree : forall b, check_cardinalities [Some b; Some b] = Ok (Some b).
Proof. intros b. unfold check_cardinalities. cbn [check_cardinalities_from]. destruct (card_dec b b); congruence. Qed.
Theorem match_refuses : forall v w b b' c c', vbase v = Some b -> vbase w = Some b' -> vcard v = Some c -> vcard w = Some c' ->
  b <> b' \/ c <> c' \/ b = Duration -> op_match v w = Err ProcessingError /\ op_contains v w = Err ProcessingError.
Proof.
  intros [cv bv pv] [cw bw pw] b b' c c'. cbn [vcard vbase]. intros -> -> -> -> H. unfold op_match, value_eq, op_contains. cbn [vcard vbase vval].
  destruct (base_dec b b') as [<-|Hb].
  - rewrite bases_agree. destruct (card_dec c c') as [<-|Hc].
    + rewrite cards_agree. destruct H as [H|[H|H]]; try congruence. subst b. split; reflexivity.
    + rewrite (cards_differ _ _ Hc). split; reflexivity.
  - rewrite (bases_differ _ _ Hb). destruct (card_dec c c') as [<-|Hc]; [rewrite cards_agree|rewrite (cards_differ _ _ Hc)]; split; reflexivity.
Qed.
Theorem match_null : forall v w b c, vbase v = Some b -> vbase w = Some b -> vcard v = Some c -> vcard w = Some c -> b <> Duration ->
  is_null v \/ is_null w -> op_match v w = Ok (BooleanValue None) /\ op_contains v w = Ok (BooleanValue None).
Proof.
  intros [cv bv pv] [cw bw pw] b c. cbn [vcard vbase]. intros -> -> -> -> Hb H. unfold op_match, value_eq, op_contains, is_null in *. cbn [vcard vbase vval] in *.
  rewrite bases_agree, cards_agree. cbn [rbind]. destruct b; try congruence; destruct H as [->| ->]; try destruct pw; try destruct pv; split; reflexivity.
Qed.
Lemma list_eqb_eq : forall a b, list_eqb a b = true <-> a = b.
Proof.
  induction a as [|x a IH]; intros [|y b]; cbn [list_eqb]; try (split; [reflexivity|reflexivity]); try (split; discriminate).
  rewrite andb_true_iff, dat_eqb_eq, IH. split; [intros (-> & ->); reflexivity|intros [= -> ->]; split; reflexivity].
Qed.
Lemma in_keys_get : forall m k, In k (map fst m) <-> dict_get m k <> None.
Proof.
  intros m k. rewrite dict_get_none. destruct (in_dec dat_dec k (map fst m)); tauto.
Qed.
Lemma dict_eq_spec : forall m m', dict_ok m -> dict_ok m' -> dict_eq m m' = true <-> forall d, times d (dict_values m) = times d (dict_values m').
Proof.
  intros m m' (Hn & Hp) (Hn' & Hp'). unfold dict_eq. rewrite andb_true_iff, Nat.eqb_eq, forallb_forall. split.
  - intros (Hl & H) d. rewrite !values_count by assumption. unfold dcount.
    assert (H1 : forall k n, dict_get m k = Some n -> dict_get m' k = Some n).
    { intros k n E. apply dict_get_in in E. apply H in E. destruct (dict_get m' k) as [n'|]; [|discriminate]. apply Nat.eqb_eq in E. congruence. }
    destruct (dict_get m d) as [n|] eqn:E; [rewrite (H1 _ _ E); reflexivity|]. destruct (dict_get m' d) as [n'|] eqn:E'; [|reflexivity]. exfalso.
    assert (Hin : incl (map fst m') (map fst m)).
    { apply NoDup_length_incl; [exact Hn|rewrite !map_length; lia|]. intros k Hk. apply in_keys_get in Hk. apply in_keys_get. destruct (dict_get m k) as [n|] eqn:Ek; [|congruence]. rewrite (H1 _ _ Ek). discriminate. }
    assert (Hd : In d (map fst m)) by (apply Hin; apply in_keys_get; congruence). apply in_keys_get in Hd. congruence.
  - intros H.
    assert (H1 : forall k, dcount m k = dcount m' k) by (intros k; specialize (H k); rewrite !values_count in H by assumption; exact H).
    assert (H2 : forall m k, Forall (fun e => (0 < snd e)%nat) m -> In k (map fst m) <-> (0 < dcount m k)%nat).
    { intros a k Ha. rewrite in_keys_get. unfold dcount. destruct (dict_get a k) as [n|] eqn:E; [|split; [congruence|lia]].
      apply dict_get_in in E. rewrite Forall_forall in Ha. apply Ha in E. split; [intros _; exact E|discriminate]. }
    split.
    + rewrite <- (map_length fst m), <- (map_length fst m'). apply Nat.le_antisymm; apply NoDup_incl_length; try assumption; intros k Hk; apply H2 in Hk; try assumption; apply H2; try assumption; [rewrite <- H1|rewrite H1]; exact Hk.
    + intros (k, n) Hin. pose proof (in_dict_get _ _ _ Hn Hin) as E. specialize (H1 k). unfold dcount in H1. rewrite E in H1.
      rewrite Forall_forall in Hp. apply Hp in Hin. cbn [snd] in Hin. destruct (dict_get m' k) as [n'|]; [apply Nat.eqb_eq; exact H1|lia].
Qed.
Theorem match_exact : forall v w b c, well_formed v -> well_formed w -> ~ is_null v -> ~ is_null w -> vbase v = Some b -> vbase w = Some b -> b <> Duration ->
  vcard v = Some c -> vcard w = Some c -> exists x, op_match v w = Ok (BooleanValue (Some x)) /\
    (x = true <-> if card_dec c Multiple then forall d, times d (members v) = times d (members w) else members v = members w).
Proof.
  intros [cv bv pv] [cw bw pw] b c Hv Hw Hnv Hnw. unfold is_null, well_formed, members, op_match, value_eq in *. cbn [vcard vbase vval] in *. intros -> -> Hb -> ->.
  rewrite cards_agree, bases_agree. cbn [rbind].
  assert (E : forall r : res (option bool), match Some b with Some Duration => Err ProcessingError | _ => r end = r) by (intros r; destruct b; try reflexivity; congruence).
  rewrite E. destruct pv as [p|]; [|congruence]. destruct pw as [q|]; [|congruence].
  destruct p as [d|l|m|n]; destruct Hv as (Hcv & Hv); try congruence; injection Hcv as ->; destruct q as [d'|l'|m'|n']; destruct Hw as (Hcw & Hw); try congruence; cbn [payload_eq rbind].
  - eexists. split; [reflexivity|]. destruct (card_dec Single Multiple); [congruence|]. rewrite dat_eqb_eq. split; [intros ->; reflexivity|congruence].
  - eexists. split; [reflexivity|]. destruct (card_dec Ordered Multiple); [congruence|]. apply list_eqb_eq.
  - eexists. split; [reflexivity|]. destruct (card_dec Multiple Multiple) as [_|]; [|congruence]. apply dict_eq_spec; split; tauto.
Qed.
(** a value matches itself, and matching is symmetric *)
Theorem match_symmetric : forall v w b c, well_formed v -> well_formed w -> vbase v = Some b -> vbase w = Some b -> vcard v = Some c -> vcard w = Some c ->
  op_match v w = op_match w v.
Proof.
  intros v w b c Hv Hw Hbv Hbw Hcv Hcw. destruct (base_dec b Duration) as [->|Hb].
  - destruct (match_refuses v w Duration Duration c c) as (-> & _); try assumption; [tauto|]. destruct (match_refuses w v Duration Duration c c) as (-> & _); try assumption; [tauto|reflexivity].
  - assert (Hd : forall v, is_null v \/ ~ is_null v) by (intros u; unfold is_null; destruct (vval u); [right; discriminate|left; reflexivity]).
    destruct (Hd v) as [Hn|Hn]; [destruct (match_null v w b c) as (-> & _); try tauto; destruct (match_null w v b c) as (-> & _); tauto|].
    destruct (Hd w) as [Hn'|Hn']; [destruct (match_null v w b c) as (-> & _); try tauto; destruct (match_null w v b c) as (-> & _); tauto|].
    destruct (match_exact v w b c) as (x & -> & Hx); try assumption. destruct (match_exact w v b c) as (y & -> & Hy); try assumption.
    assert (E : x = true <-> y = true).
    { rewrite Hx, Hy. destruct (card_dec c Multiple); split; intros H; auto. }
    destruct x, y; try reflexivity; destruct E as (E1 & E2); [rewrite E1|rewrite E2]; reflexivity.
Qed.

(** ** C125: numbers *)
Definition numeric (vs : list value) : Prop := exists v, In v vs /\ vbase v = Some Integer.
Lemma numbers_cards : forall vs os, Forall2 number vs os -> Forall (fun x => goes_with x Single) (map vcard vs).
Proof. intros vs os H. induction H as [|v o vs os (Hv & _) Hs IH]; constructor; [|exact IH]. destruct Hv as [Hv|(Hv & _)]; [right|left]; exact Hv. Qed.
Lemma numbers_bases : forall vs os, Forall2 number vs os -> Forall (fun x => goes_with x Integer) (map vbase vs).
Proof. intros vs os H. induction H as [|v o vs os (_ & Hv & _) Hs IH]; constructor; [|exact IH]. destruct Hv as [Hv|(Hv & _)]; [right|left]; exact Hv. Qed.
Lemma numbers_num : forall vs os, Forall2 number vs os -> numeric vs -> check_numerical_types (map vbase vs) = Ok (Some Integer).
Proof.
  intros vs os H (v & Hv & Hb). destruct (num_all (map vbase vs) None) as (r & E & Hr); [constructor; [left; reflexivity|exact (numbers_bases vs os H)]|].
  unfold check_numerical_types. rewrite E. destruct Hr as [->| ->]; [|reflexivity]. destruct (num_ok _ _ _ E) as (_ & H2). destruct (H2 eq_refl) as (_ & Hf).
  rewrite Forall_forall in Hf. specialize (Hf (vbase v) (in_map vbase _ _ Hv)). cbn in Hf. congruence.
Qed.
Lemma untyped_num : forall vs, Forall (fun v => vbase v = None) vs -> check_numerical_types (map vbase vs) = Ok None.
Proof. intros vs H. unfold check_numerical_types. induction H as [|v vs Hv Hf IH]; cbn [map check_numerical_from]; [reflexivity|]. rewrite Hv. exact IH. Qed.
Lemma accumulate_spec : forall f vs os, Forall2 number vs os -> forall s, accumulate f s vs = Ok (match all_of os with Some l => Some (fold_left f l s) | None => None end).
Proof.
  intros f vs os H. induction H as [|v o vs os (_ & _ & Hv) Hs IH]; intros s; cbn [accumulate all_of]; [reflexivity|]. rewrite Hv.
  destruct o as [z|]; [rewrite IH; destruct (all_of os); reflexivity|reflexivity].
Qed.
Lemma integer_result_of : forall o, integer_result o (IntegerValue o).
Proof. intros [z|]; unfold integer_result, IntegerValue, in_range; [|reflexivity]. destruct ((-2147483648 <=? z) && (z <=? 2147483647)); reflexivity. Qed.
Lemma fold_exact : forall f z vs os, Forall2 number vs os -> numeric vs -> integer_result (option_map (fun l => fold_left f l z) (all_of os)) (op_fold f z vs).
Proof.
  intros f z vs os H Hn. unfold op_fold. destruct vs as [|v vs]; [destruct Hn as (v & [] & _)|].
  destruct (card_all Single (Some Single :: map vcard (v :: vs)) None) as (r & E & _); [constructor; [left; reflexivity|]; constructor; [right; reflexivity|exact (numbers_cards _ _ H)]|].
  unfold check_cardinalities. rewrite E. cbn [rbind]. rewrite (numbers_num _ _ H Hn). cbn [rbind]. rewrite (accumulate_spec f _ _ H). cbn [rbind]. destruct (all_of os); apply integer_result_of.
Qed.
Definition product (l : list Z) : Z := fold_right Z.mul 1 l.
Theorem sum_exact : forall lower vs os, Forall2 number vs os -> numeric vs -> integer_result (option_map sum (all_of os)) (apply_n lower NSum vs).
Proof.
  intros lower vs os H Hn. pose proof (fold_exact Z.add 0 vs os H Hn) as E. cbn [apply_n]. destruct (all_of os) as [l|]; [|exact E]. cbn [option_map] in *.
  assert (Hs : forall l s, fold_left Z.add l s = s + sum l) by (clear; induction l as [|x l IH]; intros s; cbn [fold_left sum fold_right]; [lia|rewrite IH; unfold sum; lia]).
  rewrite Hs in E. exact E.
Qed.
Theorem product_exact : forall lower vs os, Forall2 number vs os -> numeric vs -> integer_result (option_map product (all_of os)) (apply_n lower NProduct vs).
Proof.
  intros lower vs os H Hn. pose proof (fold_exact Z.mul 1 vs os H Hn) as E. cbn [apply_n]. destruct (all_of os) as [l|]; [|exact E]. cbn [option_map] in *.
  assert (Hs : forall l s, fold_left Z.mul l s = s * product l) by (clear; induction l as [|x l IH]; intros s; cbn [fold_left product fold_right]; [lia|rewrite IH; unfold product; lia]).
  rewrite Hs, Z.mul_1_l in E. exact E.
Qed.
(** of NULLs without a type the result is such a NULL *)
Theorem fold_untyped : forall f z vs, vs <> [] -> Forall (fun v => v = null) vs -> op_fold f z vs = Ok (V (Some Single) None None).
Proof.
  intros f z vs Hn H. unfold op_fold. destruct vs as [|v vs]; [congruence|].
  destruct (card_all Single (Some Single :: map vcard (v :: vs)) None) as (r & E & _).
  { constructor; [left; reflexivity|]. constructor; [right; reflexivity|]. clear Hn. induction H as [|u us -> H IH]; constructor; [left; reflexivity|exact IH]. }
  unfold check_cardinalities. rewrite E. cbn [rbind]. rewrite (untyped_num (v :: vs)) by (apply Forall_forall; intros u Hu; rewrite Forall_forall in H; rewrite (H u Hu); reflexivity). reflexivity.
Qed.
Ltac two_numbers H H' :=
  destruct H as (Hc & Hb & Hv); destruct H' as (Hc' & Hb' & Hv'); cbn [vcard vbase vval] in *.
Theorem subtract_exact : forall lower v w o o', number v o -> number w o' -> vbase v = Some Integer \/ vbase w = Some Integer ->
  integer_result (match o, o' with Some x, Some y => Some (x - y) | _, _ => None end) (apply_n lower NSubtract [v; w]).
Proof.
  intros lower [c b p] [c' b' p'] o o' H H' Ht. two_numbers H H'. subst p p'. cbn [apply_n two]. unfold op_subtract. cbn [vcard vbase vval].
  assert (E : check_numerical_types [b; b'] = Ok (Some Integer)) by (destruct Hb as [->|(-> & _)]; destruct Hb' as [->|(-> & _)]; try reflexivity; destruct Ht; discriminate).
  assert (E' : check_cardinalities [c; c'; Some Single] = Ok (Some Single)) by (destruct Hc as [->|(-> & _)]; destruct Hc' as [->|(-> & _)]; reflexivity).
  rewrite E, E'. cbn [rbind]. destruct o, o'; apply integer_result_of.
Qed.
Theorem divide_exact : forall lower v w o o', number v o -> number w o' ->
  match o, o' with
  | Some x, Some y =>
      if y =? 0 then integer_result None (apply_n lower NDivide [v; w]) /\ integer_result None (apply_n lower NModulus [v; w])
      else exists q r, x = q * y + r /\ (0 <= r < y \/ y < r <= 0) /\ integer_result (Some q) (apply_n lower NDivide [v; w]) /\ integer_result (Some r) (apply_n lower NModulus [v; w])
  | _, _ => integer_result None (apply_n lower NDivide [v; w]) /\ integer_result None (apply_n lower NModulus [v; w])
  end.
Proof.
  intros lower [c b p] [c' b' p'] o o' H H'. two_numbers H H'. subst p p'. cbn [apply_n two]. unfold op_integer. cbn [vcard vbase vval].
  assert (E : check_base_types [b; b'; Some Integer] = Ok (Some Integer)).
  { destruct Hb as [->|(-> & _)]; destruct Hb' as [->|(-> & _)]; reflexivity. }
  assert (E' : check_cardinalities [c; c'; Some Single] = Ok (Some Single)).
  { destruct Hc as [->|(-> & _)]; destruct Hc' as [->|(-> & _)]; reflexivity. }
  rewrite E, E'. cbn [rbind]. destruct o as [x|], o' as [y|]; try (split; apply integer_result_of). destruct (Z.eqb_spec y 0) as [->|Hy]; [split; apply integer_result_of|].
  exists (x / y), (x mod y). split; [pose proof (Z.div_mod x y Hy); lia|]. split; [|split; apply integer_result_of].
  destruct (Z.lt_trichotomy y 0) as [Hl|[Hl|Hl]]; [right; pose proof (Z.mod_neg_bound x y Hl); lia|congruence|left; apply Z.mod_pos_bound; exact Hl].
Qed.
Theorem compare_exact : forall f v w o o', number v o -> number w o' ->
  op_compare f v w = Ok (BooleanValue (match o, o' with Some x, Some y => Some (f x y) | _, _ => None end)).
Proof.
  intros f [c b p] [c' b' p'] o o' H H'. two_numbers H H'. subst p p'. unfold op_compare. cbn [vcard vbase vval].
  assert (E : exists r, check_numerical_types [b; b'] = Ok r) by (destruct Hb as [->|(-> & _)]; destruct Hb' as [->|(-> & _)]; eexists; reflexivity).
  assert (E' : check_cardinalities [c; c'; Some Single] = Ok (Some Single)) by (destruct Hc as [->|(-> & _)]; destruct Hc' as [->|(-> & _)]; reflexivity).
  destruct E as (r & ->). rewrite E'. cbn [rbind]. destruct o, o'; reflexivity.
Qed.
(** the operators: less, greater, not more and not less *)
Theorem comparisons_exact : forall lower v w x y, number v (Some x) -> number w (Some y) -> exists lt gt lte gte,
  apply_n lower NLT [v; w] = Ok (BooleanValue (Some lt)) /\ (lt = true <-> x < y) /\ apply_n lower NGT [v; w] = Ok (BooleanValue (Some gt)) /\ (gt = true <-> x > y) /\
  apply_n lower NLTE [v; w] = Ok (BooleanValue (Some lte)) /\ (lte = true <-> x <= y) /\ apply_n lower NGTE [v; w] = Ok (BooleanValue (Some gte)) /\ (gte = true <-> x >= y).
Proof.
  intros lower v w x y H H'. exists (x <? y), (x >? y), (x <=? y), (x >=? y). cbn [apply_n two]. rewrite !(compare_exact _ _ _ _ _ H H').
  rewrite Z.ltb_lt, Z.leb_le, Z.gtb_lt, Z.geb_le. repeat (split; [first [reflexivity|lia]|]). lia.
Qed.
(** what is not a single number is refused *)
Lemma not_number : forall vs v b f z, In v vs -> vbase v = Some b -> b <> Integer -> b <> Float -> op_fold f z vs = Err ProcessingError.
Proof.
  intros vs v b f z Hv Hb Hi Hf. unfold op_fold. destruct vs as [|u vs]; [destruct Hv|]. destruct (check_cardinalities _) as [r|e] eqn:E.
  2:{ unfold check_cardinalities in E. apply card_err in E. subst e. reflexivity. }
  cbn [rbind]. assert (H : check_numerical_types (map vbase (u :: vs)) = Err ProcessingError); [|rewrite H; reflexivity]. clear E.
  unfold check_numerical_types. generalize (@None base). revert Hv. generalize (u :: vs). intros l Hv. clear r. induction l as [|w l IH]; intros r; [destruct Hv|]. cbn [map check_numerical_from].
  destruct Hv as [->|Hv].
  - rewrite Hb. destruct (base_dec b Float); [congruence|]. destruct (base_dec b Integer); [congruence|reflexivity].
  - destruct (vbase w) as [bw|]; [|apply IH; exact Hv]. destruct (base_dec bw Float); [destruct r; apply IH; exact Hv|]. destruct (base_dec bw Integer); [destruct r; apply IH; exact Hv|reflexivity].
Qed.
Theorem not_number_refused : forall lower vs v b, In v vs -> vbase v = Some b -> b <> Integer -> b <> Float ->
  apply_n lower NSum vs = Err ProcessingError /\ apply_n lower NProduct vs = Err ProcessingError.
Proof. intros lower vs v b Hv Hb Hi Hf. cbn [apply_n]. split; eapply not_number; eassumption. Qed.

(** ** C126: evaluation *)
Definition expected (e : exn) : Prop := e = ProcessingError \/ e = ValueError \/ e = TypeError \/ e = Unmodelled.
Definition fine (r : res value) : Prop := match r with Ok v => well_formed v | Err e => expected e end.
Lemma fine_err : forall e, expected e -> fine (Err e). Proof. intros e H. exact H. Qed.
Lemma pe : expected ProcessingError. Proof. left. reflexivity. Qed.
Lemma ve : expected ValueError. Proof. right. left. reflexivity. Qed.
Lemma te : expected TypeError. Proof. right. right. left. reflexivity. Qed.
Lemma um : expected Unmodelled. Proof. right. right. right. reflexivity. Qed.
Lemma boolean_fine : forall o, well_formed (BooleanValue o).
Proof. intros [b|]; unfold well_formed; cbn [vval BooleanValue vcard vbase]; [split; [reflexivity|exists Boolean; split; [reflexivity|exact Logic.I]]|exact Logic.I]. Qed.
Lemma integer_fine : forall o, fine (IntegerValue o).
Proof.
  intros [z|]; unfold IntegerValue; [|exact Logic.I]. destruct (in_range z); [|apply ve]. cbn. split; [reflexivity|]. exists Integer. split; [reflexivity|exact Logic.I].
Qed.
Lemma null_fine : forall c b, fine (Ok (V c b None)). Proof. intros. exact Logic.I. Qed.
Lemma container_fine : forall c b, fine (container_new c b).
Proof. intros [[]|] b; cbn [container_new]; try exact Logic.I. apply ve. Qed.
Lemma bind_fine : forall A (m : res A) f, (forall e, m = Err e -> expected e) -> (forall a, m = Ok a -> fine (f a)) -> fine (rbind m f).
Proof. intros A [a|e] f H1 H2; cbn [rbind]; [apply H2; reflexivity|apply H1; reflexivity]. Qed.
Lemma cards_expected : forall l e, check_cardinalities l = Err e -> expected e.
Proof. intros l e H. apply card_err in H. subst e. apply pe. Qed.
Lemma bases_expected : forall l e, check_base_types l = Err e -> expected e.
Proof. intros l e H. apply base_err in H. subst e. apply pe. Qed.
Lemma nums_expected : forall l e, check_numerical_types l = Err e -> expected e.
Proof. intros l e H. apply num_err in H. subst e. apply pe. Qed.
Lemma booleans_expected : forall l e, check_booleans l = Err e -> expected e.
Proof. intros l e H. unfold check_booleans in H. apply bind_err in H. destruct H as [H|(a & _ & H)]; [apply cards_expected in H|apply bases_expected in H]; exact H. Qed.
Lemma renew_expected : forall b d e, renew b d = Err e -> expected e.
Proof. intros [[]|] d e H; cbn [renew] in H; try discriminate; try (injection H as <-; first [apply ve|apply te]). destruct d; try discriminate. destruct (in_range z); [discriminate|injection H as <-; apply ve]. Qed.
Lemma renew_all_expected : forall b l e, renew_all b l = Err e -> expected e.
Proof.
  induction l as [|d l IH]; intros e H; cbn [renew_all] in H; [discriminate|]. apply bind_err in H. destruct H as [H|(d' & _ & H)]; [exact (renew_expected _ _ _ H)|].
  apply bind_err in H. destruct H as [H|(l' & _ & H)]; [exact (IH _ H)|discriminate].
Qed.
Lemma multiple_fine : forall b l, (forall x, In x l -> exists y, b = Some y /\ typed y x) -> fine (multiple_of b l).
Proof.
  intros b l Ht. destruct (multiple_of b l) as [r|e] eqn:E; [exact (proj1 (multiple_spec _ _ _ E Ht))|]. unfold multiple_of in E. apply bind_err in E.
  destruct E as [E|(a & _ & E)]; [exact (renew_all_expected _ _ _ E)|discriminate].
Qed.
Lemma ordered_fine : forall b l, (forall x, In x l -> exists y, b = Some y /\ typed y x) -> fine (ordered_of b l).
Proof.
  intros b l Ht. destruct (ordered_of b l) as [r|e] eqn:E; [exact (proj1 (ordered_spec _ _ _ E Ht))|]. unfold ordered_of in E. apply bind_err in E.
  destruct E as [E|(a & _ & E)]; [exact (renew_all_expected _ _ _ E)|discriminate].
Qed.
Lemma collect_expected : forall ord l b e, collect ord b l = Err e -> expected e.
Proof.
  induction l as [|v l IH]; intros b e H; cbn [collect] in H; [discriminate|]. destruct (vbase v) as [bv|]; [|exact (IH _ _ H)].
  apply bind_err in H. destruct H as [H|(b1 & _ & H)].
  - destruct b as [b'|]; [|discriminate]. destruct (base_dec b' bv); [discriminate|injection H as <-; apply pe].
  - destruct (vval v) as [p|]; [|exact (IH _ _ H)]. apply bind_err in H. destruct H as [H|(x & _ & H)].
    + destruct (vcard v) as [[]|], p; destruct ord; try discriminate; injection H as <-; apply pe.
    + apply bind_err in H. destruct H as [H|((b2 & r) & _ & H)]; [exact (IH _ _ H)|discriminate].
Qed.
Lemma delete_fine : forall v w, well_formed v -> well_formed w -> fine (op_delete v w).
Proof.
  intros v w Hv Hw. unfold op_delete. destruct (vbase w) as [bw|] eqn:Ew; [|apply container_fine]. destruct (vbase v) as [bv|] eqn:Ev; [|apply container_fine].
  destruct (base_dec bv bw) as [->|]; [|apply pe]. destruct (base_dec bw Duration); [apply pe|].
  pose proof (members_typed w) as Ht. unfold members in Ht.
  assert (G : fine match vval v, vval w with
                     | Some (PS d), Some (PL l) => ordered_of (Some bw) (filter (fun x => negb (dat_eqb d x)) l)
                     | Some (PS d), Some (PM m) => multiple_of (Some bw) (filter (fun x => negb (dat_eqb d x)) (dict_values m))
                     | _, _ => container_new (vcard w) (Some bw)
                     end).
  { destruct (vval v) as [[d|l|m|nn]|]; try apply container_fine. destruct (vval w) as [[d'|l|m|nn]|]; try apply container_fine; [apply ordered_fine|apply multiple_fine];
      intros x Hx; apply filter_In in Hx; destruct Hx as (Hx & _); destruct (Ht x Hw Hx) as (y & Hy & Hty); exists y; split; congruence. }
  destruct (vcard v) as [[]|]; try apply pe; destruct (vcard w) as [[]|]; first [exact G|apply pe].
Qed.
Lemma op_fold_fine : forall f z l, fine (op_fold f z l).
Proof.
  intros f z l. unfold op_fold. destruct l as [|v l]; [apply pe|]. apply bind_fine; [apply cards_expected|]. intros c _. apply bind_fine; [apply nums_expected|]. intros b _.
  destruct b as [[]|]; try apply um; [|exact Logic.I]. apply bind_fine; [|intros; apply integer_fine]. generalize (v :: l). clear. intros l. revert z.
  induction l as [|v l IH]; intros z e H; cbn [accumulate] in H; [discriminate|]. destruct (vval v) as [[[]|l'|m|n]|]; try discriminate; try (injection H as <-; apply um). exact (IH _ _ H).
Qed.
Lemma op_integer_fine : forall f v w, fine (op_integer f v w).
Proof.
  intros f v w. unfold op_integer. apply bind_fine; [apply bases_expected|]. intros b _. apply bind_fine; [apply cards_expected|]. intros c _.
  destruct (vval v) as [[[]|l'|m|n]|]; destruct (vval w) as [[[]|l''|m'|n']|]; try apply um; try exact Logic.I. destruct (z0 =? 0); apply integer_fine.
Qed.
Lemma op_compare_fine : forall f v w, fine (op_compare f v w).
Proof.
  intros f v w. unfold op_compare. apply bind_fine; [apply nums_expected|]. intros b _. apply bind_fine; [apply cards_expected|]. intros c _.
  destruct (vval v) as [[[]|l'|m|n]|]; destruct (vval w) as [[[]|l''|m'|n']|]; first [apply boolean_fine|apply um].
Qed.
Lemma apply_n_fine : forall lower o l, Forall well_formed l -> fine (apply_n lower o l).
Proof.
  intros lower o l H. assert (G : forall f, (forall v w, well_formed v -> well_formed w -> fine (f v w)) -> fine (two f l)).
  { intros f Hf. destruct H as [|v l Hv H]; [apply pe|]. destruct H as [|w l Hw H]; [apply pe|]. destruct H as [|u l Hu H]; [|apply pe]. apply Hf; assumption. }
  destruct o; cbn [apply_n].
  - unfold op_multiple. apply bind_fine; [apply collect_expected|]. intros (b, r) E. apply multiple_fine. exact (collect_typed _ _ _ _ _ E H).
  - unfold op_ordered. apply bind_fine; [apply collect_expected|]. intros (b, r) E. apply ordered_fine. exact (collect_typed _ _ _ _ _ E H).
  - apply G. intros v w _ _. unfold op_member. destruct (vbase v) as [bv|]; [|apply boolean_fine]. destruct (vbase w) as [bw|]; [|apply boolean_fine].
    destruct (base_dec bv bw); [|apply pe]. destruct (base_dec bv Duration); [apply pe|]. destruct (vval v) as [p|]; [|apply boolean_fine]. destruct (vval w) as [q|]; [|apply boolean_fine].
    destruct (vcard v) as [[]|]; try apply pe. destruct p; try apply pe. destruct (vcard w) as [[]|]; try apply pe; destruct q; try apply pe; apply boolean_fine.
  - apply G. exact delete_fine.
  - apply G. intros v w _ _. unfold op_contains. apply bind_fine; [apply bases_expected|]. intros b _. apply bind_fine; [apply cards_expected|]. intros c _.
    assert (G' : fine match c, b with
      | None, _ | _, None => Ok (BooleanValue None)
      | Some c, Some _ => match vval v, vval w with
          | Some p, Some q => match c, p, q with
              | Ordered, PL a, PL l => Ok (BooleanValue (Some (search a l)))
              | Multiple, PM m, PM m' => Ok (BooleanValue (Some (forallb (fun '(k, n) => Nat.leb n (match dict_get m' k with Some n' => n' | None => O end)) m)))
              | _, _, _ => Err ProcessingError
              end
          | _, _ => Ok (BooleanValue None)
          end
      end).
    { destruct c as [c|], b as [b|]; try apply boolean_fine. destruct (vval v) as [p|]; [|apply boolean_fine]. destruct (vval w) as [q|]; [|apply boolean_fine].
      destruct c; try apply pe; destruct p; try apply pe; destruct q; try apply pe; apply boolean_fine. }
    destruct b as [[]|]; first [exact G'|apply pe].
  - apply G. intros v w _ _. unfold op_string. apply bind_fine; [apply bases_expected|]. intros b _. apply bind_fine; [apply cards_expected|]. intros c _.
    destruct (vval v) as [[[]|l'|m|n]|]; destruct (vval w) as [[[]|l''|m'|n']|]; first [apply boolean_fine|apply um].
  - unfold op_and. apply bind_fine; [apply booleans_expected|]. intros; apply boolean_fine.
  - unfold op_or. apply bind_fine; [apply booleans_expected|]. intros; apply boolean_fine.
  - unfold op_anyn. apply bind_fine; [apply booleans_expected|]. intros b _. destruct mn as [mn|]; [|apply te]. destruct (mn <=? truths l).
    + destruct mx as [mx|]; [|apply te]. destruct (mx <? truths l); [apply boolean_fine|]. destruct (mx <? truths l + nulls l); apply boolean_fine.
    + destruct (mn <=? truths l + nulls l); apply boolean_fine.
  - apply G. intros v w Hv Hw. unfold op_match. apply bind_fine; [|intros; apply boolean_fine]. intros e E. unfold value_eq in E. apply bind_err in E. destruct E as [E|(c & _ & E)]; [exact (cards_expected _ _ E)|].
    apply bind_err in E. destruct E as [E|(b & _ & E)]; [exact (bases_expected _ _ E)|].
    assert (G' : match vval v, vval w with Some p, Some q => let! b := payload_eq p q in Ok (Some b) | _, _ => Ok None end = Err e -> expected e).
    { destruct (vval v) as [[]|]; destruct (vval w) as [[]|]; cbn [payload_eq rbind]; intros X; try discriminate. injection X as <-. apply um. }
    destruct b as [[]|]; first [exact (G' E)|injection E as <-; apply pe].
  - apply G. intros v w _ _. unfold op_string. apply bind_fine; [apply bases_expected|]. intros b _. apply bind_fine; [apply cards_expected|]. intros c _.
    destruct (vval v) as [[[]|l'|m|n]|]; destruct (vval w) as [[[]|l''|m'|n']|]; first [apply boolean_fine|apply um].
  - exact (op_fold_fine Z.add 0 l).
  - exact (op_fold_fine Z.mul 1 l).
  - apply G. intros v w _ _. unfold op_subtract. apply bind_fine; [apply nums_expected|]. intros b _. apply bind_fine; [apply cards_expected|]. intros c _.
    destruct b as [[]|]; try apply um; [|exact Logic.I].
    destruct (vval v) as [[[]|l'|m|n]|]; destruct (vval w) as [[[]|l''|m'|n']|]; first [apply integer_fine|apply um].
  - apply G. intros v w _ _. apply op_integer_fine.
  - apply G. intros v w _ _. apply op_integer_fine.
  - apply G. intros v w _ _. apply op_compare_fine.
  - apply G. intros v w _ _. apply op_compare_fine.
  - apply G. intros v w _ _. apply op_compare_fine.
  - apply G. intros v w _ _. apply op_compare_fine.
Qed.
Lemma apply_u_fine : forall o v, well_formed v -> fine (apply_u o v).
Proof.
  intros o v Hv. destruct o; cbn [apply_u].
  - unfold op_size. destruct (vcard v) as [[]|]; try apply pe; destruct (vval v) as [[]|]; apply integer_fine.
  - apply boolean_fine.
  - unfold op_index. destruct (vcard v) as [[]|]; try apply pe. assert (Hf : forall e, fresh (vbase v) = Err e -> expected e) by (intros e E; unfold fresh in E; destruct (vbase v) as [[]|]; try discriminate; injection E as <-; apply te).
    apply bind_fine; [exact Hf|]. intros r Er. assert (Hr : fine (Ok r)) by (unfold fresh in Er; destruct (vbase v) as [[]|]; try discriminate; injection Er as <-; exact Logic.I).
    pose proof (members_typed v) as Ht. unfold members in Ht. destruct (vval v) as [[d|l|m|x]|]; try exact Hr.
    destruct (n <? 1); [apply pe|]. destruct (nth_error l (Z.to_nat (n - 1))) as [d|] eqn:E; [|exact Hr]. apply bind_fine; [apply renew_expected|]. intros d' Ed.
    assert (Hd : renew_all (vbase v) [d] = Ok [d']) by (cbn [renew_all]; rewrite Ed; reflexivity). apply renew_all_ok in Hd. destruct Hd as (Hd & _). injection Hd as ->.
    apply nth_error_In in E. destruct (Ht d Hv E) as (b & Hb & Htd). cbn. split; [reflexivity|]. exists b. split; assumption.
  - unfold op_not. apply bind_fine; [apply bases_expected|]. intros b _. apply bind_fine; [apply cards_expected|]. intros c _. destruct (vval v) as [[[]|l'|m|n]|]; first [apply boolean_fine|apply um].
Qed.
Theorem evaluate_type_safe : forall lower e, leaves e -> match evaluate lower e with Ok v => well_formed v | Err x => expected x end.
Proof.
  intros lower. fix IH 1. intros e He. change (fine (evaluate lower e)). destruct e as [v| |o l|o e]; cbn [evaluate leaves] in *.
  - exact He.
  - exact Logic.I.
  - assert (G : match (fix children (l : list expr) : res (list value) := match l with [] => Ok [] | e :: l => let! v := evaluate lower e in let! vs := children l in Ok (v :: vs) end) l with
                Ok vs => Forall well_formed vs | Err x => expected x end).
    { revert He. induction l as [|e l IHl]; intros He; [constructor|]. cbn [fold_right] in He. destruct He as (He & Hl). specialize (IHl Hl). pose proof (IH e He) as H1.
      destruct (evaluate lower e) as [v|x]; cbn [rbind]; [|exact H1]. destruct ((fix children (l : list expr) := _) l) as [vs|x]; cbn [rbind]; [constructor; assumption|exact IHl]. }
    apply bind_fine; [intros x E; rewrite E in G; exact G|]. intros vs E. rewrite E in G. apply apply_n_fine. exact G.
  - apply bind_fine; [intros x E; pose proof (IH e He) as G; rewrite E in G; exact G|]. intros v E. pose proof (IH e He) as G. rewrite E in G. apply apply_u_fine. exact G.
Qed.

(** ** C127: mappings and lookup tables *)
Lemma assoc_rev : forall m d, match assoc (map_of (entries m)) d with Some x => x | None => default_value m end = match assoc (rev (entries m)) d with Some x => x | None => default_value m end.
Proof. reflexivity. Qed.
Lemma assoc_last : forall A (l : list (dat * A)) d, match assoc (rev l) d with
  | Some x => exists l1 l2, l = l1 ++ (d, x) :: l2 /\ ~ In d (map fst l2) | None => ~ In d (map fst l) end.
Proof.
  intros A l. assert (H : forall (r : list (dat * A)) d, match assoc r d with Some x => exists l1 l2, rev r = l1 ++ (d, x) :: l2 /\ ~ In d (map fst l2) | None => ~ In d (map fst (rev r)) end).
  { induction r as [|(k, a) r IH]; intros d; cbn [assoc rev]; [intros []|]. destruct (dat_eqb k d) eqn:E.
    - apply dat_eqb_eq in E. subst k. exists (rev r), []. split; [reflexivity|intros []].
    - assert (Hk : k <> d) by (intros ->; rewrite dat_eqb_refl in E; discriminate). specialize (IH d). destruct (assoc r d) as [x|].
      + destruct IH as (l1 & l2 & -> & Hn). exists l1, (l2 ++ [(k, a)]). split; [rewrite <- app_assoc; reflexivity|]. rewrite map_app, in_app_iff. cbn. intros [H|[H|[]]]; [contradiction|congruence].
      + rewrite map_app, in_app_iff. cbn. intros [H|[H|[]]]; [contradiction|congruence]. }
  intros d. specialize (H (rev l) d). rewrite rev_involutive in H. exact H.
Qed.
Definition image (m : mapping) (d : dat) : Z := match assoc (map_of (entries m)) d with Some x => x | None => default_value m end.
Lemma last_unique : forall A (l1 l2 l1' l2' : list (dat * A)) d x y, l1 ++ (d, x) :: l2 = l1' ++ (d, y) :: l2' -> ~ In d (map fst l2) -> ~ In d (map fst l2') -> x = y.
Proof.
  induction l1 as [|e l1 IH]; intros l2 l1' l2' d x y H Hn Hn'; destruct l1' as [|e' l1']; cbn [app] in H.
  - congruence.
  - injection H as _ H. exfalso. apply Hn. rewrite H, map_app, in_app_iff. right. left. reflexivity.
  - injection H as _ H. exfalso. apply Hn'. rewrite <- H, map_app, in_app_iff. right. left. reflexivity.
  - injection H as _ H. exact (IH _ _ _ _ _ _ H Hn Hn').
Qed.
Lemma maps_to_image : forall m d x, maps_to m d x -> x = image m d.
Proof.
  intros m d x H. unfold image, map_of. pose proof (assoc_last Z (entries m) d) as Hl. destruct (assoc (rev (entries m)) d) as [y|].
  - destruct Hl as (l1 & l2 & E & Hn). destruct H as [(l1' & l2' & E' & Hn')|(Hn' & _)].
    + rewrite E in E'. exact (eq_sym (last_unique _ _ _ _ _ _ _ _ E' Hn Hn')).
    + exfalso. apply Hn'. rewrite E, map_app, in_app_iff. right. left. reflexivity.
  - destruct H as [(l1' & l2' & E' & _)|(_ & ->)]; [|reflexivity]. exfalso. apply Hl. rewrite E', map_app, in_app_iff. right. left. reflexivity.
Qed.
Theorem maps_to_total : forall m d, exists x, maps_to m d x /\ forall y, maps_to m d y -> y = x.
Proof.
  intros m d. exists (image m d). split; [|intros y Hy; exact (maps_to_image m d y Hy)]. unfold image, map_of. pose proof (assoc_last Z (entries m) d) as Hl.
  destruct (assoc (rev (entries m)) d) as [y|]; [left|right; split; [exact Hl|reflexivity]]. exact Hl.
Qed.
Fixpoint distinct (been l : list dat) : list dat :=
  match l with [] => [] | d :: l => if existsb (dat_eqb d) been then distinct been l else d :: distinct (d :: been) l end.
Lemma distinct_in : forall l been d, In d (distinct been l) <-> In d l /\ ~ In d been.
Proof.
  induction l as [|x l IH]; intros been d; cbn [distinct In]; [tauto|]. destruct (existsb (dat_eqb x) been) eqn:E.
  - apply existsb_in in E. rewrite IH. split; [tauto|]. intros ([->|H] & Hn); [contradiction|tauto].
  - assert (Hx : ~ In x been) by (rewrite <- existsb_in; congruence). cbn [In]. rewrite IH. cbn [In]. destruct (dat_dec x d) as [->|Hne]; tauto.
Qed.
Lemma distinct_nodup : forall l been, NoDup (distinct been l).
Proof.
  induction l as [|x l IH]; intros been; cbn [distinct]; [constructor|]. destruct (existsb (dat_eqb x) been); [apply IH|]. constructor; [|apply IH].
  rewrite distinct_in. cbn [In]. tauto.
Qed.
Lemma map_sum_eq : forall m l been, map_sum m been l = sum (map (image m) (distinct been l)).
Proof.
  intros m. induction l as [|x l IH]; intros been; cbn [map_sum distinct]; [reflexivity|]. destruct (existsb (dat_eqb x) been); [apply IH|]. cbn [map sum fold_right]. rewrite IH. reflexivity.
Qed.
Lemma sum_perm : forall l l', Permutation l l' -> sum l = sum l'.
Proof. intros l l' H. unfold sum. induction H; cbn [fold_right]; lia. Qed.
(** each value of a container once, whatever the order *)
Theorem map_value_exact : forall m v ds xs, well_formed v -> ~ is_null v -> vcard v <> Some Record_ -> NoDup ds -> (forall d, In d ds <-> In d (members v)) -> Forall2 (maps_to m) ds xs ->
  (match lower_bound m, upper_bound m with Some lo, Some hi => lo <= hi | _, _ => True end) ->
  map_value m v = Ok (Some (bounded m (sum xs))).
Proof.
  intros m v ds xs Hw Hn Hr Hnd Hds Hxs Hb.
  assert (Ex : xs = map (image m) ds) by (clear - Hxs; induction Hxs as [|d x ds xs H _ IH]; cbn [map]; [reflexivity|rewrite IH, (maps_to_image _ _ _ H); reflexivity]). subst xs.
  assert (G : forall l, (forall d, In d l <-> In d (members v)) -> map_sum m [] l = sum (map (image m) ds)).
  { intros l Hl. rewrite map_sum_eq. apply sum_perm. apply Permutation_map. apply NoDup_Permutation; [apply distinct_nodup|exact Hnd|]. intros d. rewrite distinct_in, Hl, Hds. cbn [In]. tauto. }
  assert (L : exists l, (forall d, In d l <-> In d (members v)) /\ match vval v with
                    | None => Ok (true, [])
                    | Some (PS d) => Ok (false, [d])
                    | Some (PL l) => Ok (false, l)
                    | Some (PM d) => Ok (false, map fst d)
                    | Some (PR _) => Err ValueError
                    end = Ok (false, l) /\ exists b, vbase v = Some b).
  { unfold well_formed, is_null, members in *. destruct (vval v) as [[d|l|d|n]|]; [..|congruence].
    - eexists. split; [intros; reflexivity|]. split; [reflexivity|]. destruct Hw as (_ & b & Hb' & _). eauto.
    - eexists. split; [intros; reflexivity|]. split; [reflexivity|]. destruct Hw as (_ & _ & b & Hb' & _). eauto.
    - exists (map fst d). destruct Hw as (_ & _ & _ & Hp & b & Hb' & _). split; [intros x; apply in_keys; exact Hp|]. split; [reflexivity|eauto].
    - destruct Hw as (Hc & _). congruence. }
  destruct L as (l & Hl & E & b & Eb). unfold map_value. rewrite E, Eb. cbn [rbind]. rewrite (G l Hl). set (s := sum _). clearbody s. unfold bounded.
  destruct (lower_bound m) as [lo|], (upper_bound m) as [hi|]; try destruct (Z.ltb_spec s lo); try destruct (Z.ltb_spec hi s); do 2 f_equal; lia.
Qed.
(** NULL should be mapped to NULL *)
Theorem null_mapped_refuted : exists m v, well_formed v /\ is_null v /\ map_value m v = Ok (Some 0).
Proof. exists (Mapping (Some 1) None 5 []), null. split; [exact Logic.I|]. split; reflexivity. Qed.
(** a match table: the last entry with the number, or the default *)
Theorem match_table_exact : forall table def z,
  match_lookup table def (vi z) = Ok (match find (fun e => fst e =? z) (rev table) with Some (_, t) => t | None => def end).
Proof.
  intros table def z. unfold match_lookup, vi. cbn [vval vcard vbase]. induction (rev table) as [|(x, t) l IH]; cbn [zassoc find fst]; [reflexivity|]. destruct (x =? z); [reflexivity|exact IH].
Qed.
Theorem match_table_distinct_partial : forall table def z t, NoDup (map fst table) -> In (z, t) table -> match_lookup table def (vi z) = Ok t.
Proof.
  intros table def z t Hn Hin. unfold match_lookup, vi. cbn [vval vcard vbase]. f_equal.
  assert (H : forall l : list (Z * option nat), NoDup (map fst l) -> In (z, t) l -> zassoc l z = Some t).
  { clear. induction l as [|(x, u) l IH]; intros Hn Hin; [destruct Hin|]. destruct Hin as [H|H]; cbn [zassoc].
    - injection H as -> ->. rewrite Z.eqb_refl. reflexivity.
    - inversion Hn as [|? ? Hx Hn']; subst. destruct (Z.eqb_spec x z) as [->|]; [|apply IH; assumption]. exfalso. apply Hx. apply in_map_iff. exists (z, t). split; [reflexivity|exact H]. }
  rewrite H; [reflexivity|rewrite map_rev; apply NoDup_rev; exact Hn|apply in_rev in Hin; exact Hin].
Qed.
(** it should be the first *)
Theorem first_match_refuted : exists table t, match_lookup ((1, Some 7%nat) :: table) None (vi 1) = Ok t /\ t <> Some 7%nat.
Proof. exists [(1, Some 8%nat)], (Some 8%nat). split; [reflexivity|discriminate]. Qed.
(** an interpolation table: the first entry that is small enough *)
Theorem interpolation_exact : forall l1 x lte t l2 def z, Forall (fun '(y, b, _) => z < y \/ y = z /\ b = false) l1 -> x < z \/ x = z /\ lte = true ->
  interpolation_lookup (l1 ++ (x, lte, t) :: l2) def (vi z) = Ok t.
Proof.
  intros l1 x lte t l2 def z H Hx. unfold interpolation_lookup, vi. cbn [vval vcard vbase]. f_equal. induction H as [|((y, b), u) l1 Hy H IH]; cbn [app interpolate].
  - destruct Hx as [Hx|(-> & ->)]; [rewrite (proj2 (Z.ltb_lt x z) Hx); reflexivity|]. rewrite Z.ltb_irrefl, Z.eqb_refl. reflexivity.
  - rewrite IH. destruct Hy as [Hy|(-> & ->)]; [|rewrite Z.ltb_irrefl; reflexivity]. destruct (Z.ltb_spec y z); [lia|]. destruct (Z.eqb_spec y z); [lia|]. rewrite andb_false_r. reflexivity.
Qed.
Theorem interpolation_default : forall l def z, Forall (fun '(y, b, _) => z < y \/ y = z /\ b = false) l -> interpolation_lookup l def (vi z) = Ok def.
Proof.
  intros l def z H. unfold interpolation_lookup, vi. cbn [vval vcard vbase]. f_equal. induction H as [|((y, b), u) l1 Hy H IH]; cbn [interpolate]; [reflexivity|]. rewrite IH.
  destruct Hy as [Hy|(-> & ->)]; [|rewrite Z.ltb_irrefl; reflexivity]. destruct (Z.ltb_spec y z); [lia|]. destruct (Z.eqb_spec y z); [lia|]. rewrite andb_false_r. reflexivity.
Qed.

(** ** C124: strings *)
Lemma starts_spec : forall a l, starts a l = true <-> exists q, l = a ++ q.
Proof.
  intros a l. unfold starts. rewrite str_eqb_eq. split.
  - intros E. exists (skipn (length a) l). rewrite E at 1. symmetry. apply firstn_skipn.
  - intros (q & ->). rewrite firstn_app, Nat.sub_diag, firstn_all. cbn [firstn]. rewrite app_nil_r. reflexivity.
Qed.
Lemma infix_spec : forall a l, infix a l = true <-> exists p q, l = p ++ a ++ q.
Proof.
  intros a. induction l as [|y l IH]; cbn [infix]; rewrite orb_true_iff, starts_spec.
  - split; [intros [(q & H)|H]; [exists [], q; exact H|discriminate]|]. intros (p & q & H). left. exists q. destruct p; [exact H|discriminate].
  - rewrite IH. split.
    + intros [(q & H)|(p & q & ->)]; [exists [], q; exact H|exists (y :: p), q; reflexivity].
    + intros (p & q & H). destruct p as [|z p]; [left; exists q; exact H|]. right. injection H as -> ->. eauto.
Qed.
Definition text (v : value) (s : str) : Prop := v = V (Some Single) (Some String_) (Some (PS (DStr s))).
Theorem strings_exact : forall lower v w a b cs, text v a -> text w b ->
  let a' := if cs : bool then a else lower a in let b' := if cs then b else lower b in
  (exists x, apply_n lower (NSubString cs) [v; w] = Ok (BooleanValue (Some x)) /\ (x = true <-> exists p q, b' = p ++ a' ++ q)) /\
  (exists x, apply_n lower (NStringMatch cs false) [v; w] = Ok (BooleanValue (Some x)) /\ (x = true <-> a' = b')) /\
  exists x, apply_n lower (NStringMatch cs true) [v; w] = Ok (BooleanValue (Some x)) /\ (x = true <-> exists p q, b' = p ++ a' ++ q).
Proof.
  intros lower v w a b cs -> ->. cbn [apply_n two]. unfold op_string. cbn [vcard vbase vval rbind check_base_types check_base_types_from check_cardinalities check_cardinalities_from].
  destruct cs; (split; [|split]); (eexists; split; [reflexivity|]); try apply infix_spec; apply str_eqb_eq.
Qed.

(** in an expression each operator of C124 is applied to the values of its sub-expressions, and exactly two of them where it says so *)
Theorem operators_in_trees : forall lower v w l,
  evaluate lower (EN NMultiple (map Leaf l)) = op_multiple l /\ evaluate lower (EN NOrdered (map Leaf l)) = op_ordered l /\
  evaluate lower (EN NMember [Leaf v; Leaf w]) = op_member v w /\ evaluate lower (EN NDelete [Leaf v; Leaf w]) = op_delete v w /\
  evaluate lower (EN NContains [Leaf v; Leaf w]) = op_contains v w /\ evaluate lower (EN NMatch [Leaf v; Leaf w]) = op_match v w /\
  evaluate lower (EU USize (Leaf v)) = op_size v /\ (forall n, evaluate lower (EU (UIndex n) (Leaf v)) = op_index n v) /\ evaluate lower (EU UNot (Leaf v)) = op_not v /\
  (forall r, evaluate lower (EU UIsNull (Leaf v)) = Ok (BooleanValue (Some r)) -> (r = true <-> is_null v)) /\
  forall o, In o [NMember; NDelete; NContains; NMatch; NSubtract; NDivide; NModulus; NLT; NGT; NLTE; NGTE] -> length l <> 2%nat -> evaluate lower (EN o (map Leaf l)) = Err ProcessingError.
Proof.
  intros lower v w l. assert (E : (fix children (l : list expr) : res (list value) := match l with [] => Ok [] | e :: l => let! v := evaluate lower e in let! vs := children l in Ok (v :: vs) end) (map Leaf l) = Ok l).
  { induction l as [|x l IH]; cbn [map]; [reflexivity|]. cbn [evaluate rbind]. rewrite IH. reflexivity. }
  cbn [evaluate]. rewrite E. cbn [rbind apply_n apply_u two]. repeat (split; [first [reflexivity|intros; reflexivity]|]). split.
  - intros r H. unfold op_is_null, nonnull, is_null in *. destruct (vval v); injection H as <-; split; congruence.
  - intros o Ho Hl. assert (T : forall f : value -> value -> res value, two f l = Err ProcessingError) by (intros f; destruct l as [|a [|b [|c l]]]; try reflexivity; cbn in Hl; congruence).
    cbn [In] in Ho. repeat (destruct Ho as [<-|Ho]; [cbn [apply_n]; apply T|]). destruct Ho.
Qed.

Example ex_contains : op_contains (ordered_ints [2; 3]) (ordered_ints [1; 2; 3]) = Ok (BooleanValue (Some true)) /\
  op_contains (ordered_ints [1; 3]) (ordered_ints [1; 2; 3]) = Ok (BooleanValue (Some false)) /\ well_formed (ordered_ints [1; 2; 3]) /\
  op_multiple [vi 2; vi 1; vi 2] = Ok (V (Some Multiple) (Some Integer) (Some (PM [(DInt 2, 2%nat); (DInt 1, 1%nat)]))).
Proof.
  split; [reflexivity|]. split; [reflexivity|]. split; [|reflexivity]. split; [reflexivity|]. split; [discriminate|]. exists Integer. split; [reflexivity|]. repeat constructor.
Qed.
Example ex_numbers : op_fold Z.add 0 [vi 2; vi 5] = Ok (vi 7) /\ op_fold Z.add 0 [vi 2; null] = Ok (V (Some Single) (Some Integer) None) /\
  op_integer Z.div (vi (-7)) (vi 2) = Ok (vi (-4)) /\ op_fold Z.mul 1 [vi 65536; vi 65536] = Err ValueError /\ Forall2 number [vi 2; null] [Some 2; None] /\ numeric [vi 2; null].
Proof.
  repeat (split; [reflexivity|]). split.
  - constructor; [|constructor; [|constructor]]; (split; [|split; [|reflexivity]]); auto; left; reflexivity.
  - exists (vi 2). split; [left; reflexivity|reflexivity].
Qed.
Example ex_eval : evaluate id (EN NAnd [EU UIsNull Null; EN NLT [Leaf (vi 1); EN NSum [Leaf (vi 1); Leaf (vi 1)]]]) = Ok (vb true).
Proof. reflexivity. Qed.
Example ex_map : let m := Mapping None (Some 4) 0 [(DStr (lit "A"), 1); (DStr (lit "B"), 2); (DStr (lit "A"), 3)] in
  map_value m (V (Some Ordered) (Some String_) (Some (PL [DStr (lit "A"); DStr (lit "B"); DStr (lit "A")]))) = Ok (Some 4) /\ maps_to m (DStr (lit "A")) 3.
Proof.
  split; [reflexivity|]. left. exists [(DStr (lit "A"), 1); (DStr (lit "B"), 2)], []. split; [reflexivity|intros []].
Qed.

Print Assumptions contains_exact.
Print Assumptions match_exact.
Print Assumptions match_refuses.
Print Assumptions match_null.
Print Assumptions match_symmetric.
Print Assumptions strings_exact.
Print Assumptions sum_exact.
Print Assumptions product_exact.
Print Assumptions fold_untyped.
Print Assumptions subtract_exact.
Print Assumptions divide_exact.
Print Assumptions compare_exact.
Print Assumptions comparisons_exact.
Print Assumptions not_number_refused.
Print Assumptions evaluate_type_safe.
Print Assumptions maps_to_total.
Print Assumptions map_value_exact.
Print Assumptions null_mapped_refuted.
Print Assumptions match_table_exact.
Print Assumptions match_table_distinct_partial.
Print Assumptions first_match_refuted.
Print Assumptions interpolation_exact.
Print Assumptions interpolation_default.
Print Assumptions operators_in_trees.
