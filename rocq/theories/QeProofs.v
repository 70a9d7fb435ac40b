(** Proofs about QTI expressions. *)
From Coq Require Import Lia.
From Verif Require Import Py QeModel QeSpec.

Lemma bind_ok : forall A B (m : res A) (f : A -> res B) b, rbind m f = Ok b -> exists a, m = Ok a /\ f a = Ok b.
Proof. intros A B [a|e] f b H; cbn [rbind] in H; [eauto|discriminate]. Qed.
Lemma bind_err : forall A B (m : res A) (f : A -> res B) e, rbind m f = Err e -> m = Err e \/ exists a, m = Ok a /\ f a = Err e.
Proof. intros A B [a|e'] f e H; cbn [rbind] in H; [right; eauto|left; congruence]. Qed.

(** ** Checks *)
Definition goes_with {A} (x : option A) (b : A) : Prop := x = None \/ x = Some b.
Lemma base_from : forall l r r', check_base_types_from r l = Ok r' ->
  (forall b, r = Some b -> r' = Some b) /\ (forall b, In (Some b) l -> r' = Some b) /\ (r' = None -> Forall (fun x => x = None) l).
Proof.
  induction l as [|[b|] l IH]; intros r r' H; cbn [check_base_types_from] in H.
  - injection H as <-. split; [tauto|]. split; [intros b []|constructor].
  - destruct r as [b'|].
    + destruct (base_dec b b') as [->|]; [|discriminate]. apply IH in H. destruct H as (H1 & H2 & H3).
      split; [exact H1|]. split; [|intros E; rewrite (H1 b' eq_refl) in E; discriminate].
      intros x [[= <-]|Hx]; [apply H1; reflexivity|apply H2; exact Hx].
    + apply IH in H. destruct H as (H1 & H2 & H3). split; [discriminate|]. split; [|intros E; rewrite (H1 b eq_refl) in E; discriminate].
      intros x [[= <-]|Hx]; [apply H1; reflexivity|apply H2; exact Hx].
  - apply IH in H. destruct H as (H1 & H2 & H3). split; [exact H1|]. split; [intros x [|Hx]; [discriminate|apply H2; exact Hx]|].
    intros E. constructor; [reflexivity|apply H3; exact E].
Qed.
Lemma base_all : forall b l r, Forall (fun x => goes_with x b) (r :: l) -> exists r', check_base_types_from r l = Ok r' /\ goes_with r' b.
Proof.
  intros b. induction l as [|x l IH]; intros r H; cbn [check_base_types_from]; inversion H as [|? ? Hr H']; subst; [eauto|].
  inversion H' as [|? ? Hx H'']; subst. destruct Hx as [->| ->]; [apply IH; constructor; assumption|].
  destruct Hr as [->| ->]; [|destruct (base_dec b b) as [_|Hb]; [|congruence]]; apply IH; constructor; [right; reflexivity|assumption|right; reflexivity|assumption].
Qed.
Lemma base_err : forall l r e, check_base_types_from r l = Err e -> e = ProcessingError.
Proof.
  induction l as [|[b|] l IH]; intros r e H; cbn [check_base_types_from] in H; [discriminate| |eauto].
  destruct r as [b'|]; [destruct (base_dec b b'); [eauto|congruence]|eauto].
Qed.
Lemma card_from : forall l r r', check_cardinalities_from r l = Ok r' ->
  (forall b, r = Some b -> r' = Some b) /\ (forall b, In (Some b) l -> r' = Some b) /\ (r' = None -> Forall (fun x => x = None) l).
Proof.
  induction l as [|[b|] l IH]; intros r r' H; cbn [check_cardinalities_from] in H.
  - injection H as <-. split; [tauto|]. split; [intros b []|constructor].
  - destruct r as [b'|].
    + destruct (card_dec b b') as [->|]; [|discriminate]. apply IH in H. destruct H as (H1 & H2 & H3).
      split; [exact H1|]. split; [|intros E; rewrite (H1 b' eq_refl) in E; discriminate].
      intros x [[= <-]|Hx]; [apply H1; reflexivity|apply H2; exact Hx].
    + apply IH in H. destruct H as (H1 & H2 & H3). split; [discriminate|]. split; [|intros E; rewrite (H1 b eq_refl) in E; discriminate].
      intros x [[= <-]|Hx]; [apply H1; reflexivity|apply H2; exact Hx].
  - apply IH in H. destruct H as (H1 & H2 & H3). split; [exact H1|]. split; [intros x [|Hx]; [discriminate|apply H2; exact Hx]|].
    intros E. constructor; [reflexivity|apply H3; exact E].
Qed.
Lemma card_all : forall b l r, Forall (fun x => goes_with x b) (r :: l) -> exists r', check_cardinalities_from r l = Ok r' /\ goes_with r' b.
Proof.
  intros b. induction l as [|x l IH]; intros r H; cbn [check_cardinalities_from]; inversion H as [|? ? Hr H']; subst; [eauto|].
  inversion H' as [|? ? Hx H'']; subst. destruct Hx as [->| ->]; [apply IH; constructor; assumption|].
  destruct Hr as [->| ->]; [|destruct (card_dec b b) as [_|Hb]; [|congruence]]; apply IH; constructor; [right; reflexivity|assumption|right; reflexivity|assumption].
Qed.
Lemma card_err : forall l r e, check_cardinalities_from r l = Err e -> e = ProcessingError.
Proof.
  induction l as [|[b|] l IH]; intros r e H; cbn [check_cardinalities_from] in H; [discriminate| |eauto].
  destruct r as [b'|]; [destruct (card_dec b b'); [eauto|congruence]|eauto].
Qed.
Lemma num_err : forall l r e, check_numerical_from r l = Err e -> e = ProcessingError.
Proof.
  induction l as [|[b|] l IH]; intros r e H; cbn [check_numerical_from] in H; [discriminate| |eauto].
  destruct (base_dec b Float); [destruct r; eauto|]. destruct (base_dec b Integer); [destruct r; eauto|congruence].
Qed.
Lemma num_ok : forall l r r', check_numerical_from r l = Ok r' ->
  (r' = Some Integer -> (r = None \/ r = Some Integer) /\ Forall (fun x => goes_with x Integer) l) /\
  (r' = None -> r = None /\ Forall (fun x => x = None) l).
Proof.
  induction l as [|[b|] l IH]; intros r r' H; cbn [check_numerical_from] in H.
  - injection H as <-. split; intros E; (split; [tauto|constructor]).
  - destruct (base_dec b Float) as [->|Hf].
    + destruct r as [b'|]; apply IH in H; destruct H as (H1 & H2); (split; intros E; [apply H1 in E|apply H2 in E]); destruct E as (E & _);
        try destruct E as [E|E]; try discriminate; destruct (base_dec Float b') as [<-|]; discriminate.
    + destruct (base_dec b Integer) as [->|]; [|discriminate].
      destruct r as [b'|]; apply IH in H; destruct H as (H1 & H2); (split; intros E; [apply H1 in E|apply H2 in E]); destruct E as (E & El);
        try destruct E as [E|E]; try discriminate.
      * destruct (base_dec Integer b') as [<-|]; [|discriminate]. split; [right; reflexivity|]. constructor; [right; reflexivity|exact El].
      * split; [left; reflexivity|]. constructor; [right; reflexivity|exact El].
  - apply IH in H. destruct H as (H1 & H2). split; intros E.
    + apply H1 in E. destruct E as (E & El). split; [exact E|]. constructor; [left; reflexivity|exact El].
    + apply H2 in E. destruct E as (E & El). split; [exact E|]. constructor; [reflexivity|exact El].
Qed.
Lemma num_all : forall l r, Forall (fun x => goes_with x Integer) (r :: l) -> exists r', check_numerical_from r l = Ok r' /\ goes_with r' Integer.
Proof.
  induction l as [|x l IH]; intros r H; cbn [check_numerical_from]; inversion H as [|? ? Hr H']; subst; [eauto|].
  inversion H' as [|? ? Hx H'']; subst. destruct Hx as [->| ->]; [apply IH; constructor; assumption|].
  destruct (base_dec Integer Float) as [E|_]; [discriminate|]. destruct (base_dec Integer Integer) as [_|E]; [|congruence].
  destruct Hr as [->| ->]; [|destruct (base_dec Integer Integer) as [_|Hb]; [|congruence]]; apply IH; constructor; [right; reflexivity|assumption|right; reflexivity|assumption].
Qed.

(** ** Truth values *)
Lemma booleans_ok : forall vs os, Forall2 operand vs os -> exists r, check_booleans vs = Ok r.
Proof.
  intros vs os H. unfold check_booleans, check_cardinalities, check_base_types.
  destruct (card_all Single (Some Single :: map vcard vs) None) as (r & -> & _).
  { constructor; [left; reflexivity|]. constructor; [right; reflexivity|]. induction H as [|v o vs os Hv Hs IH]; constructor; [|exact IH].
    destruct Hv as ([Hv|[Hv _]] & _); [right|left]; exact Hv. }
  cbn [rbind]. destruct (base_all Boolean (Some Boolean :: map vbase vs) None) as (r' & -> & _); [|eauto].
  constructor; [left; reflexivity|]. constructor; [right; reflexivity|]. induction H as [|v o vs os Hv Hs IH]; constructor; [|exact IH].
  destruct Hv as (_ & [Hv|[Hv _]] & _); [right|left]; exact Hv.
Qed.
Definition n_true (os : list (option bool)) : nat := length (filter (fun o => match o with Some true => true | _ => false end) os).
Definition n_null (os : list (option bool)) : nat := length (filter (fun o => match o with None => true | _ => false end) os).
Definition n_false (os : list (option bool)) : nat := length (filter (fun o => match o with Some false => true | _ => false end) os).
Definition n_t (bs : list bool) : nat := length (filter id bs).
Lemma n_all : forall os, (n_true os + n_null os + n_false os = length os)%nat.
Proof. induction os as [|[[|]|] os IH]; cbn in *; unfold n_true, n_null, n_false in *; lia. Qed.
Lemma fills_range : forall os bs, fills os bs -> (n_true os <= n_t bs <= n_true os + n_null os)%nat /\ length bs = length os.
Proof.
  intros os bs H. induction H as [|o b os bs Ho Hs IH]; [cbn; lia|]. unfold n_t, n_true, n_null in *.
  destruct o as [x|]; [subst b; destruct x|destruct b]; cbn [filter id length] in *; lia.
Qed.
Lemma fills_any : forall os k, (n_true os <= k <= n_true os + n_null os)%nat -> exists bs, fills os bs /\ n_t bs = k.
Proof.
  induction os as [|o os IH]; intros k Hk.
  - exists []. split; [constructor|]. cbn in *. lia.
  - unfold n_t, n_true, n_null in *. destruct o as [[|]|]; cbn [filter length] in Hk.
    + destruct (IH (k - 1)%nat) as (bs & Hb & E); [lia|]. exists (true :: bs). split; [constructor; [reflexivity|exact Hb]|]. cbn [filter id length]. lia.
    + destruct (IH k) as (bs & Hb & E); [lia|]. exists (false :: bs). split; [constructor; [reflexivity|exact Hb]|]. exact E.
    + destruct (Nat.eq_dec k (length (filter (fun o => match o with Some true => true | _ => false end) os))) as [Ek|Hne].
      * destruct (IH k) as (bs & Hb & E); [lia|]. exists (false :: bs). split; [constructor; [exact Logic.I|exact Hb]|]. exact E.
      * destruct (IH (k - 1)%nat) as (bs & Hb & E); [lia|]. exists (true :: bs). split; [constructor; [exact Logic.I|exact Hb]|]. cbn [filter id length]. lia.
Qed.
Lemma n_t_le : forall bs, (length (filter id bs) <= length bs)%nat.
Proof. induction bs as [|b bs IH]; [reflexivity|]. destruct b; cbn [filter id length]; lia. Qed.
Lemma all_true : forall bs, forallb id bs = Nat.eqb (n_t bs) (length bs).
Proof.
  induction bs as [|b bs IH]; [reflexivity|]. unfold n_t in *. destruct b; cbn [forallb id filter length andb]; [exact IH|].
  symmetry. apply Nat.eqb_neq. pose proof (n_t_le bs). lia.
Qed.
Lemma some_true : forall bs, existsb id bs = Nat.ltb 0 (n_t bs).
Proof. induction bs as [|b bs IH]; [reflexivity|]. unfold n_t in *. destruct b; cbn [existsb id filter length orb]; [reflexivity|exact IH]. Qed.
Lemma and_eq : forall vs os r, Forall2 operand vs os -> r <> Some false ->
  and_loop r vs = if Nat.ltb 0 (n_false os) then Some false else if Nat.ltb 0 (n_null os) then None else r.
Proof.
  intros vs os r H. revert r. induction H as [|v o vs os (_ & _ & Hv) Hs IH]; intros r Hr; [reflexivity|]. cbn [and_loop]. rewrite Hv.
  destruct o as [[|]|].
  - apply IH. exact Hr.
  - reflexivity.
  - rewrite IH by discriminate. unfold n_false, n_null. cbn [filter length]. destruct (Nat.ltb 0 (length (filter _ os))); [reflexivity|].
    destruct (Nat.ltb 0 (length (filter _ os))); reflexivity.
Qed.
Lemma or_eq : forall vs os r, Forall2 operand vs os -> r <> Some true ->
  or_loop r vs = if Nat.ltb 0 (n_true os) then Some true else if Nat.ltb 0 (n_null os) then None else r.
Proof.
  intros vs os r H. revert r. induction H as [|v o vs os (_ & _ & Hv) Hs IH]; intros r Hr; [reflexivity|]. cbn [or_loop]. rewrite Hv.
  destruct o as [[|]|].
  - reflexivity.
  - apply IH. exact Hr.
  - rewrite IH by discriminate. unfold n_true, n_null. cbn [filter length]. destruct (Nat.ltb 0 (length (filter _ os))); [reflexivity|].
    destruct (Nat.ltb 0 (length (filter _ os))); reflexivity.
Qed.
Lemma truths_eq : forall vs os, Forall2 operand vs os -> truths vs = Z.of_nat (n_true os) /\ nulls vs = Z.of_nat (n_null os).
Proof.
  intros vs os H. unfold truths, nulls, n_true, n_null. induction H as [|v o vs os (_ & _ & Hv) Hs (IH1 & IH2)]; [split; reflexivity|].
  cbn [filter]. unfold nonnull at 1. rewrite Hv. destruct o as [[|]|]; cbn [length negb]; lia.
Qed.

(** ** Dictionaries *)
Definition dcount (m : list (dat * nat)) (d : dat) : nat := match dict_get m d with Some n => n | None => O end.
Lemma dat_eqb_eq : forall a b, dat_eqb a b = true <-> a = b.
Proof. intros a b. unfold dat_eqb. destruct (dat_dec a b); split; congruence. Qed.
Lemma dat_eqb_refl : forall a, dat_eqb a a = true.
Proof. intros a. apply dat_eqb_eq. reflexivity. Qed.
Lemma dict_get_in : forall m d n, dict_get m d = Some n -> In (d, n) m.
Proof.
  induction m as [|[k x] m IH]; intros d n H; cbn [dict_get] in H; [discriminate|]. destruct (dat_eqb k d) eqn:E.
  - apply dat_eqb_eq in E. injection H as <-. left. congruence.
  - right. apply IH. exact H.
Qed.
Lemma dict_get_none : forall m d, dict_get m d = None <-> ~ In d (map fst m).
Proof.
  induction m as [|[k x] m IH]; intros d; cbn [dict_get map fst In]; [tauto|]. destruct (dat_eqb k d) eqn:E.
  - apply dat_eqb_eq in E. split; [discriminate|]. intros H. exfalso. apply H. left. exact E.
  - rewrite IH. assert (k <> d) by (intros ->; rewrite dat_eqb_refl in E; discriminate). tauto.
Qed.
Lemma in_dict_get : forall m d n, NoDup (map fst m) -> In (d, n) m -> dict_get m d = Some n.
Proof.
  induction m as [|[k x] m IH]; intros d n Hn Hin; [destruct Hin|]. inversion Hn as [|? ? Hk Hn']; subst. cbn [dict_get].
  destruct Hin as [[= -> ->]|Hin]; [rewrite dat_eqb_refl; reflexivity|]. destruct (dat_eqb k d) eqn:E; [|apply IH; assumption].
  apply dat_eqb_eq in E. subst k. exfalso. apply Hk. apply in_map_iff. exists (d, n). split; [reflexivity|exact Hin].
Qed.
Definition dict_ok (m : list (dat * nat)) : Prop := NoDup (map fst m) /\ Forall (fun e => (0 < snd e)%nat) m.
Lemma dict_add_count : forall m d x, dcount (dict_add m d) x = (dcount m x + (if dat_dec d x then 1 else 0))%nat.
Proof.
  unfold dcount. induction m as [|[k n] m IH]; intros d x; cbn [dict_add dict_get].
  - unfold dat_eqb. destruct (dat_dec d x); reflexivity.
  - destruct (dat_eqb k d) eqn:E.
    + apply dat_eqb_eq in E. subst k. cbn [dict_get]. destruct (dat_eqb d x) eqn:Ex.
      * apply dat_eqb_eq in Ex. destruct (dat_dec d x); [lia|congruence].
      * destruct (dat_dec d x) as [->|]; [rewrite dat_eqb_refl in Ex; discriminate|lia].
    + cbn [dict_get]. destruct (dat_eqb k x) eqn:Ex; [|apply IH].
      apply dat_eqb_eq in Ex. subst x. destruct (dat_dec d k) as [->|]; [rewrite dat_eqb_refl in E; discriminate|lia].
Qed.
Lemma dict_add_keys : forall m d, map fst (dict_add m d) = if in_dec dat_dec d (map fst m) then map fst m else map fst m ++ [d].
Proof.
  induction m as [|[k n] m IH]; intros d; cbn [dict_add map fst]; [reflexivity|]. destruct (dat_eqb k d) eqn:E.
  - apply dat_eqb_eq in E. subst k. destruct (in_dec dat_dec d (d :: map fst m)) as [_|H]; [reflexivity|]. exfalso. apply H. left. reflexivity.
  - cbn [map fst]. rewrite IH. assert (Hk : k <> d) by (intros ->; rewrite dat_eqb_refl in E; discriminate).
    destruct (in_dec dat_dec d (map fst m)) as [H|H]; destruct (in_dec dat_dec d (k :: map fst m)) as [H'|H'].
    + reflexivity.
    + exfalso. apply H'. right. exact H.
    + exfalso. destruct H' as [H'|H']; [congruence|contradiction].
    + reflexivity.
Qed.
Lemma nodup_snoc : forall (l : list dat) x, NoDup l -> ~ In x l -> NoDup (l ++ [x]).
Proof.
  induction l as [|y l IH]; intros x Hn Hx; cbn [app]; [constructor; [intros []|constructor]|]. inversion Hn as [|? ? Hy Hn']; subst. constructor.
  - intros H. apply in_app_or in H. destruct H as [H|[H|[]]]; [contradiction|]. apply Hx. left. symmetry. exact H.
  - apply IH; [exact Hn'|]. intros H. apply Hx. right. exact H.
Qed.
Lemma dict_add_ok : forall m d, dict_ok m -> dict_ok (dict_add m d).
Proof.
  intros m d (Hn & Hp). split.
  - rewrite dict_add_keys. destruct (in_dec dat_dec d (map fst m)); [exact Hn|]. apply nodup_snoc; assumption.
  - clear Hn. induction Hp as [|[k n] m Hk Hp IH]; cbn [dict_add]; [constructor; [cbn; lia|constructor]|].
    destruct (dat_eqb k d); constructor; [cbn; lia|exact Hp|exact Hk|exact IH].
Qed.
Lemma fold_add : forall l m, dict_ok m -> dict_ok (fold_left dict_add l m) /\ forall x, dcount (fold_left dict_add l m) x = (dcount m x + times x l)%nat.
Proof.
  induction l as [|d l IH]; intros m Hm; cbn [fold_left]; [split; [exact Hm|intros x; unfold times; cbn; lia]|].
  destruct (IH (dict_add m d) (dict_add_ok m d Hm)) as (H1 & H2). split; [exact H1|]. intros x. rewrite H2, dict_add_count. unfold times. cbn [count_occ].
  destruct (dat_dec d x); lia.
Qed.
Lemma times_app : forall d a b, times d (a ++ b) = (times d a + times d b)%nat.
Proof. intros. apply count_occ_app. Qed.
Lemma times_repeat : forall d k n, times d (repeat k n) = if dat_dec k d then n else O.
Proof.
  intros d k n. unfold times. induction n as [|n IH]; cbn [repeat count_occ]; [destruct (dat_dec k d); reflexivity|].
  destruct (dat_dec k d); [rewrite IH; reflexivity|exact IH].
Qed.
Lemma values_count : forall m d, NoDup (map fst m) -> times d (dict_values m) = dcount m d.
Proof.
  induction m as [|[k n] m IH]; intros d Hn; [reflexivity|]. inversion Hn as [|? ? Hk Hn']; subst. unfold dict_values in *. cbn [flat_map].
  rewrite times_app, times_repeat, IH by exact Hn'. unfold dcount. cbn [dict_get]. unfold dat_eqb. destruct (dat_dec k d) as [->|]; [|reflexivity].
  cbn [fst] in Hk. apply dict_get_none in Hk. rewrite Hk. lia.
Qed.
Lemma values_nil : forall m, Forall (fun e => (0 < snd e)%nat) m -> dict_values m = [] -> m = [].
Proof. intros m H E. destruct H as [|[k n] m Hk H]; [reflexivity|]. unfold dict_values in E. cbn [flat_map] in E. destruct n as [|n]; [cbn in Hk; lia|discriminate]. Qed.
Lemma in_values : forall m d, In d (dict_values m) -> In d (map fst m).
Proof.
  intros m d H. unfold dict_values in H. apply in_flat_map in H. destruct H as ([k n] & Hin & H). apply repeat_spec in H. subst d.
  apply in_map_iff. exists (k, n). split; [reflexivity|exact Hin].
Qed.
Lemma renew_all_ok : forall b l r, renew_all b l = Ok r -> r = l /\ (l <> [] -> exists x, b = Some x /\ x <> File).
Proof.
  induction l as [|d l IH]; intros r H; cbn [renew_all] in H; [injection H as <-; split; [reflexivity|congruence]|].
  apply bind_ok in H. destruct H as (d' & Hd & H). apply bind_ok in H. destruct H as (r' & Hr & H). injection H as <-. apply IH in Hr. destruct Hr as (-> & _).
  assert (d' = d /\ exists x, b = Some x /\ x <> File).
  { unfold renew in Hd. destruct b as [[]|]; try discriminate; try (injection Hd as <-; split; [reflexivity|eexists; split; [reflexivity|discriminate]]).
    destruct d; try (injection Hd as <-; split; [reflexivity|eexists; split; [reflexivity|discriminate]]).
    destruct (in_range z); [|discriminate]. injection Hd as <-. split; [reflexivity|eexists; split; [reflexivity|discriminate]]. }
  destruct H as (-> & H). split; [reflexivity|]. intros _. exact H.
Qed.
Lemma multiple_spec : forall b l r, multiple_of b l = Ok r -> (forall x, In x l -> exists y, b = Some y /\ typed y x) ->
  well_formed r /\ vcard r = Some Multiple /\ vbase r = b /\ forall d, times d (members r) = times d l.
Proof.
  intros b l r H Ht. unfold multiple_of in H. apply bind_ok in H. destruct H as (l' & Hl & H). injection H as <-. apply renew_all_ok in Hl. destruct Hl as (-> & Hb).
  destruct (fold_add l []) as ((H1 & H2) & H3); [split; constructor|]. cbn [vcard vbase].
  assert (Hkey : forall k, In k (map fst (fold_left dict_add l [])) -> In k l).
  { intros k Hk. apply (count_occ_In dat_dec). fold (times k l). specialize (H3 k). unfold dcount at 2 in H3. cbn [dict_get] in H3. rewrite Nat.add_0_l in H3. rewrite <- H3.
    apply in_map_iff in Hk. destruct Hk as ([k' n] & <- & Hin). unfold dcount. cbn [fst]. rewrite (in_dict_get _ _ _ H1 Hin). rewrite Forall_forall in H2. apply H2 in Hin. exact Hin. }
  unfold well_formed, members. cbn [vval vcard vbase]. destruct (fold_left dict_add l []) as [|e m] eqn:E.
  - split; [exact Logic.I|]. split; [reflexivity|]. split; [reflexivity|]. intros d. specialize (H3 d). unfold dcount in H3. cbn [dict_get] in H3. unfold times at 1. cbn [count_occ]. lia.
  - split; [|split; [reflexivity|split; [reflexivity|]]].
    + split; [reflexivity|]. split; [discriminate|]. split; [exact H1|]. split; [exact H2|].
      destruct l as [|x l]; [discriminate|]. destruct (Hb ltac:(discriminate)) as (y & -> & _). exists y. split; [reflexivity|].
      apply Forall_forall. intros k Hk. apply Hkey in Hk. apply Ht in Hk. destruct Hk as (y' & [= <-] & Hk). exact Hk.
    + intros d. rewrite values_count by exact H1. rewrite H3. reflexivity.
Qed.
Lemma ordered_spec : forall b l r, ordered_of b l = Ok r -> (forall x, In x l -> exists y, b = Some y /\ typed y x) ->
  well_formed r /\ vcard r = Some Ordered /\ vbase r = b /\ members r = l.
Proof.
  intros b l r H Ht. unfold ordered_of in H. apply bind_ok in H. destruct H as (l' & Hl & H). injection H as <-. apply renew_all_ok in Hl. destruct Hl as (-> & Hb).
  unfold well_formed, members. cbn [vval vcard vbase]. destruct l as [|x l]; [repeat split; reflexivity|].
  split; [|repeat split]. split; [reflexivity|]. split; [discriminate|]. destruct (Hb ltac:(discriminate)) as (y & -> & _). exists y. split; [reflexivity|].
  apply Forall_forall. intros k Hk. apply Ht in Hk. destruct Hk as (y' & [= <-] & Hk). exact Hk.
Qed.
Lemma members_typed : forall v x, well_formed v -> In x (members v) -> exists b, vbase v = Some b /\ typed b x.
Proof.
  intros [c b p] x H Hx. unfold well_formed, members in *. cbn [vval vcard vbase] in *. destruct p as [[d|l|m|n]|].
  - destruct Hx as [<-|[]]. destruct H as (_ & b' & -> & Ht). eauto.
  - destruct H as (_ & _ & b' & -> & Ht). exists b'. split; [reflexivity|]. rewrite Forall_forall in Ht. apply Ht. exact Hx.
  - destruct H as (_ & _ & _ & _ & b' & -> & Ht). exists b'. split; [reflexivity|]. rewrite Forall_forall in Ht. apply Ht. apply in_values. exact Hx.
  - destruct Hx.
  - destruct Hx.
Qed.
