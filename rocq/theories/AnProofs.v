(** Proofs for C133: sorting, and the best choice. *)
From Coq Require Import Lia String Permutation Sorted.
From Verif Require Import Py Num UriModel UriRel HttpModel HttpParamModel HttpParamProofs AnModel AnSpec.
Open Scope Z_scope.

(** ** Orders *)
Definition good {A} (cmp : A -> A -> comparison) : Prop := (forall x y, cmp y x = CompOpp (cmp x y)) /\ forall x y z, cmp x y <> Gt -> cmp y z <> Gt -> cmp x z <> Gt.
Lemma good_refl : forall {A} (cmp : A -> A -> comparison) x, good cmp -> cmp x x = Eq.
Proof. intros A cmp x (H & _). specialize (H x x). destruct (cmp x x); [reflexivity|discriminate|discriminate]. Qed.
(** equal on the way from x to z: equal at each step *)
Lemma good_eq : forall {A} (cmp : A -> A -> comparison) x y z, good cmp -> cmp x y <> Gt -> cmp y z <> Gt -> cmp x z = Eq -> cmp x y = Eq /\ cmp y z = Eq.
Proof.
  intros A cmp x y z (Ho & Ht) H1 H2 H3. assert (H4 : cmp z x <> Gt) by (rewrite Ho, H3; discriminate).
  pose proof (Ht _ _ _ H2 H4) as H5. pose proof (Ht _ _ _ H4 H1) as H6. rewrite Ho in H5. rewrite Ho in H6. destruct (cmp x y), (cmp y z); cbn in *; try congruence; split; reflexivity.
Qed.
Lemma good_Z : good Z.compare.
Proof. split; [intros x y; apply Z.compare_antisym|]. intros x y z H1 H2. change (x <= y) in H1. change (y <= z) in H2. change (x <= z). lia. Qed.
Lemma good_by : forall {A B} (f : A -> B) cmp, good cmp -> good (fun x y => cmp (f x) (f y)).
Proof. intros A B f cmp (Ho & Ht). split; [intros x y; apply Ho|intros x y z; apply Ht]. Qed.
Lemma good_lexi : forall {A} (c d : A -> A -> comparison), good c -> good d -> good (fun x y => lexi (c x y) (d x y)).
Proof.
  intros A c d Gc Gd. pose proof Gc as (Co & Ct). pose proof Gd as (Do & Dt). split.
  - intros x y. rewrite (Co x y), (Do x y). destruct (c x y); reflexivity.
  - intros x y z H1 H2. assert (H3 : c x y <> Gt) by (destruct (c x y); [discriminate|discriminate|exact H1]). assert (H4 : c y z <> Gt) by (destruct (c y z); [discriminate|discriminate|exact H2]).
    pose proof (Ct _ _ _ H3 H4) as H5. destruct (c x z) eqn:E; [|discriminate|congruence]. destruct (good_eq c x y z Gc H3 H4 E) as (E1 & E2). rewrite E1 in H1. rewrite E2 in H2. cbn [lexi] in *. exact (Dt _ _ _ H1 H2).
Qed.
Lemma good_list : forall {A} (cmp : A -> A -> comparison), good cmp -> good (cmp_list cmp).
Proof.
  intros A cmp G. pose proof G as (Ho & Ht). assert (O : forall x y, cmp_list cmp y x = CompOpp (cmp_list cmp x y)).
  { induction x as [|a x IH]; intros [|b y]; cbn [cmp_list]; try reflexivity. rewrite (Ho a b), (IH y). destruct (cmp a b); reflexivity. }
  split; [exact O|]. induction x as [|a x IH]; intros [|b y] [|c z] H1 H2; cbn [cmp_list] in *; try discriminate; try congruence.
  assert (H3 : cmp a b <> Gt) by (destruct (cmp a b); [discriminate|discriminate|exact H1]). assert (H4 : cmp b c <> Gt) by (destruct (cmp b c); [discriminate|discriminate|exact H2]).
  pose proof (Ht _ _ _ H3 H4) as H5. destruct (cmp a c) eqn:E; [|discriminate|congruence]. destruct (good_eq cmp a b c G H3 H4 E) as (E1 & E2). rewrite E1 in H1. rewrite E2 in H2. cbn [lexi] in *. exact (IH _ _ H1 H2).
Qed.
Lemma good_str : good cmp_str.
Proof. apply good_list. exact good_Z. Qed.
Lemma good_pair : good cmp_pair.
Proof. exact (good_lexi (fun a b : str * str => cmp_str (fst a) (fst b)) (fun a b => cmp_str (snd a) (snd b)) (good_by _ _ good_str) (good_by _ _ good_str)). Qed.
Lemma good_range : good cmp_range.
Proof.
  exact (good_lexi (fun r s => cmp_str (wild (mt_type r)) (wild (mt_type s))) _ (good_by (fun r => wild (mt_type r)) _ good_str)
    (good_lexi (fun r s => cmp_str (wild (mt_subtype r)) (wild (mt_subtype s))) _ (good_by (fun r => wild (mt_subtype r)) _ good_str)
      (good_lexi (fun r s => - Z.of_nat (List.length (hp (mt_params r))) ?= - Z.of_nat (List.length (hp (mt_params s)))) (fun r s => cmp_list cmp_pair (hp (mt_params r)) (hp (mt_params s)))
        (good_by (fun r => - Z.of_nat (List.length (hp (mt_params r)))) _ good_Z) (good_by (fun r => hp (mt_params r)) _ (good_list _ good_pair))))).
Qed.
Lemma good_item : good cmp_item.
Proof. exact (good_lexi (fun a b => cmp_range (arange a) (arange b)) (fun a b => - aq a ?= - aq b) (good_by arange _ good_range) (good_by (fun a => - aq a) _ good_Z)). Qed.
Lemma good_tok : good cmp_tok.
Proof. exact (good_lexi (fun a b => cmp_str (wild (token a)) (wild (token b))) (fun a b => - tq a ?= - tq b) (good_by (fun a => wild (token a)) _ good_str) (good_by (fun a => - tq a) _ good_Z)). Qed.
Lemma good_lang : good cmp_lang.
Proof.
  exact (good_lexi (fun a b => - Z.of_nat (List.length (lang_range a)) ?= - Z.of_nat (List.length (lang_range b))) (fun a b => cmp_list cmp_str (lang_range a) (lang_range b))
    (good_by (fun a => - Z.of_nat (List.length (lang_range a))) _ good_Z) (good_by lang_range _ (good_list _ good_str))).
Qed.
Lemma cmp_list_eq : forall {A} (cmp : A -> A -> comparison), (forall x y, cmp x y = Eq -> x = y) -> forall a b, cmp_list cmp a b = Eq -> a = b.
Proof.
  intros A cmp H. induction a as [|x a IH]; intros [|y b] E; cbn [cmp_list] in E; try discriminate; [reflexivity|]. destruct (cmp x y) eqn:E2; cbn [lexi] in E; try discriminate. f_equal; [apply H; exact E2|apply IH; exact E].
Qed.
Lemma cmp_str_eq : forall a b, cmp_str a b = Eq -> a = b.
Proof. apply cmp_list_eq. intros x y H. apply Z.compare_eq. exact H. Qed.

(** ** Sorting *)
Section Sorting.
  Context {A : Type} (cmp : A -> A -> comparison) (G : good cmp).
  Definition le_ (x y : A) : Prop := cmp x y <> Gt.
  Lemma put_perm : forall x l, Permutation (x :: l) (put cmp x l).
  Proof using. intros x. induction l as [|y l IH]; cbn [put]; [reflexivity|]. destruct (cmp x y); try reflexivity; (eapply perm_trans; [apply perm_swap|apply perm_skip; exact IH]). Qed.
  Lemma put_sorted : forall x l, StronglySorted le_ l -> StronglySorted le_ (put cmp x l).
  Proof using G.
    pose proof G as (Ho & Ht). intros x. induction l as [|y l IH]; intros H; cbn [put]; [repeat constructor|]. inversion H as [|? ? H1 H2]; subst.
    assert (D : forall (E : cmp x y <> Lt), StronglySorted le_ (y :: put cmp x l)).
    { intros E. constructor; [apply IH; exact H1|]. eapply Permutation_Forall; [apply put_perm|]. constructor; [|exact H2]. unfold le_. rewrite Ho. destruct (cmp x y); cbn; congruence. }
    destruct (cmp x y) eqn:E; [apply D; discriminate| |apply D; discriminate]. constructor; [exact H|]. constructor; [unfold le_; rewrite E; discriminate|]. eapply Forall_impl; [|exact H2]. intros z Hz. unfold le_ in *. apply (Ht x y z); [rewrite E; discriminate|exact Hz].
  Qed.
  Lemma sort_spec : forall l, StronglySorted le_ (sort cmp l) /\ Permutation l (sort cmp l).
  Proof using G.
    intros l. unfold sort. assert (H : forall l acc, StronglySorted le_ acc -> StronglySorted le_ (fold_left (fun acc x => put cmp x acc) l acc) /\ Permutation (acc ++ l) (fold_left (fun acc x => put cmp x acc) l acc)).
    { induction l0 as [|x l0 IH]; intros acc Ha; cbn [fold_left]; [split; [exact Ha|rewrite app_nil_r; reflexivity]|]. destruct (IH (put cmp x acc) (put_sorted x acc Ha)) as (H1 & H2). split; [exact H1|].
      eapply perm_trans; [|exact H2]. eapply perm_trans; [symmetry; apply Permutation_middle|]. apply (Permutation_app_tail l0 (put_perm x acc)). }
    destruct (H l [] ltac:(constructor)) as (H1 & H2). split; [exact H1|exact H2].
  Qed.
  (** the first that matches is the least *)
  Lemma first_least : forall (hit : A -> bool) (qv : A -> Z) l, StronglySorted le_ l ->
    match first_q hit qv l with
    | Some q => exists i, In i l /\ hit i = true /\ q = qv i /\ forall j, In j l -> hit j = true -> le_ i j
    | None => forall j, In j l -> hit j = false
    end.
  Proof using G.
    intros hit qv. induction l as [|x l IH]; intros H; cbn [first_q]; [intros j []|]. inversion H as [|? ? H1 H2]; subst. destruct (hit x) eqn:E.
    - exists x. split; [left; reflexivity|]. split; [exact E|]. split; [reflexivity|]. intros j [<-|Hj] _; [unfold le_; rewrite (good_refl cmp x G); discriminate|]. rewrite Forall_forall in H2. exact (H2 j Hj).
    - specialize (IH H1). destruct (first_q hit qv l) as [q|].
      + destruct IH as (i & I1 & I2 & I3 & I4). exists i. split; [right; exact I1|]. split; [exact I2|]. split; [exact I3|]. intros j [<-|Hj] Hh; [congruence|exact (I4 j Hj Hh)].
      + intros j [<-|Hj]; [exact E|exact (IH j Hj)].
  Qed.
  Lemma first_sort : forall (hit : A -> bool) (qv : A -> Z) items,
    match first_q hit qv (sort cmp items) with
    | Some q => exists i, In i items /\ hit i = true /\ q = qv i /\ forall j, In j items -> hit j = true -> le_ i j
    | None => forall j, In j items -> hit j = false
    end.
  Proof using G.
    intros hit qv items. destruct (sort_spec items) as (H1 & H2). pose proof (first_least hit qv _ H1) as H. destruct (first_q hit qv (sort cmp items)) as [q|].
    - destruct H as (i & I1 & I2 & I3 & I4). exists i. split; [exact (Permutation_in _ (Permutation_sym H2) I1)|]. split; [exact I2|]. split; [exact I3|]. intros j Hj. apply I4. exact (Permutation_in _ H2 Hj).
    - intros j Hj. apply H. exact (Permutation_in _ H2 Hj).
  Qed.
  (** the order in which items are given does not count, if equal ones have the same value *)
  Lemma first_order : forall (hit : A -> bool) (qv : A -> Z) items items', (forall i j, cmp i j = Eq -> qv i = qv j) -> Permutation items items' ->
    first_q hit qv (sort cmp items) = first_q hit qv (sort cmp items').
  Proof using G.
    intros hit qv items items' He Hp. pose proof (first_sort hit qv items) as H1. pose proof (first_sort hit qv items') as H2.
    destruct (first_q hit qv (sort cmp items)) as [q|], (first_q hit qv (sort cmp items')) as [q'|].
    - destruct H1 as (i & I1 & I2 & -> & I4). destruct H2 as (j & J1 & J2 & -> & J4). f_equal. apply He.
      assert (L1 : le_ i j) by (apply I4; [exact (Permutation_in _ (Permutation_sym Hp) J1)|exact J2]). assert (L2 : le_ j i) by (apply J4; [exact (Permutation_in _ Hp I1)|exact I2]).
      unfold le_ in *. destruct G as (Ho & _). rewrite Ho in L2. destruct (cmp i j); cbn in *; congruence.
    - destruct H1 as (i & I1 & I2 & _). rewrite (H2 i (Permutation_in _ Hp I1)) in I2. discriminate.
    - destruct H2 as (i & I1 & I2 & _). rewrite (H1 i (Permutation_in _ (Permutation_sym Hp) I1)) in I2. discriminate.
    - reflexivity.
  Qed.
End Sorting.

(** ** The best choice *)
Lemma fold_better : forall {M} (f : M -> option Z) ms b q0, let r := fold_left (fun best m => better best m (f m)) ms (b, q0) in
  r = (b, q0) /\ (forall m q, In m ms -> f m = Some q -> q <= q0) \/
  exists l1 m l2 q, ms = l1 ++ m :: l2 /\ f m = Some q /\ r = (Some m, q) /\ q0 < q /\ (forall m' q', In m' l1 -> f m' = Some q' -> q' < q) /\ forall m' q', In m' l2 -> f m' = Some q' -> q' <= q.
Proof.
  intros M f. induction ms as [|m ms IH]; intros b q0; cbn [fold_left]; [left; split; [reflexivity|intros m q []]|]. unfold better at 2 4. cbn [snd].
  destruct (f m) as [q|] eqn:E.
  - destruct (q0 <? q) eqn:L.
    + apply Z.ltb_lt in L. right. destruct (IH (Some m) q) as [(H1 & H2)|(l1 & m' & l2 & q' & -> & H2 & H3 & H4 & H5 & H6)].
      * exists [], m, ms, q. repeat split; try assumption. intros m' q' [].
      * exists (m :: l1), m', l2, q'. split; [reflexivity|]. split; [exact H2|]. split; [exact H3|]. split; [lia|]. split; [|exact H6]. intros x qx [<-|Hx] Hq; [rewrite E in Hq; injection Hq as <-; exact H4|exact (H5 x qx Hx Hq)].
    + apply Z.ltb_ge in L. destruct (IH b q0) as [(H1 & H2)|(l1 & m' & l2 & q' & -> & H2 & H3 & H4 & H5 & H6)].
      * left. split; [exact H1|]. intros x qx [<-|Hx] Hq; [rewrite E in Hq; injection Hq as <-; exact L|exact (H2 x qx Hx Hq)].
      * right. exists (m :: l1), m', l2, q'. split; [reflexivity|]. split; [exact H2|]. split; [exact H3|]. split; [exact H4|]. split; [|exact H6]. intros x qx [<-|Hx] Hq; [rewrite E in Hq; injection Hq as <-; lia|exact (H5 x qx Hx Hq)].
  - destruct (IH b q0) as [(H1 & H2)|(l1 & m' & l2 & q' & -> & H2 & H3 & H4 & H5 & H6)].
    + left. split; [exact H1|]. intros x qx [<-|Hx] Hq; [congruence|exact (H2 x qx Hx Hq)].
    + right. exists (m :: l1), m', l2, q'. split; [reflexivity|]. split; [exact H2|]. split; [exact H3|]. split; [exact H4|]. split; [|exact H6]. intros x qx [<-|Hx] Hq; [congruence|exact (H5 x qx Hx Hq)].
Qed.
Lemma fold_chosen : forall {M} (f : M -> option Z) ms, chosen f ms (fst (fold_left (fun best m => better best m (f m)) ms (None, 0))).
Proof.
  intros M f ms. destruct (fold_better f ms None 0) as [(H1 & H2)|(l1 & m & l2 & q & H1 & H2 & H3 & H4 & H5 & H6)].
  - rewrite H1. exact H2.
  - rewrite H3. exists l1, l2, q. repeat split; assumption.
Qed.
Lemma fold_ext : forall {A B} (f g : A -> B -> A) l a, (forall a b, f a b = g a b) -> fold_left f l a = fold_left g l a.
Proof. intros A B f g l. induction l as [|b l IH]; intros a H; cbn [fold_left]; [reflexivity|]. rewrite H. apply IH. exact H. Qed.

(** ** Matching *)
Lemma lower_star : forall s, u_lower s = star <-> s = star.
Proof.
  intros s. split; [|intros ->; reflexivity]. destruct s as [|c [|d s]]; intros H; try discriminate. injection H as H. unfold lower_u in H. destruct (_ || _) eqn:E; [|subst; reflexivity].
  apply orb_true_iff in E. destruct E as [E|E]; [apply andb_true_iff in E; destruct E as (E1 & E2); apply Z.leb_le in E1; lia|]. apply andb_true_iff in E. destruct E as (E & _). apply andb_true_iff in E. destruct E as (E & _). apply Z.leb_le in E. lia.
Qed.
Lemma hp_in : forall d k v, In (k, v) (hp d) <-> exists n, In (k, (n, v)) d.
Proof.
  intros d k v. unfold hp. rewrite in_map_iff. split.
  - intros ([k' [n v']] & [= <- <-] & H). exists n. exact (Permutation_in _ (Permutation_sym (sort_perm d)) H).
  - intros (n & H). exists (k, (n, v)). split; [reflexivity|exact (Permutation_in _ (sort_perm d) H)].
Qed.
Lemma hp_length : forall d, List.length (hp d) = List.length d.
Proof. intros d. unfold hp. rewrite map_length. symmetry. apply Permutation_length, sort_perm. Qed.
Lemma match_exact : forall r m, NoDup (map fst (mt_params m)) -> (match_media_type r m = true <-> in_range r m).
Proof.
  intros r m Hm. unfold match_media_type, in_range, same_name. destruct (str_eqb (mt_type r) star) eqn:E1; [apply str_eqb_eq in E1; tauto|]. apply str_eqb_neq in E1.
  destruct (str_eqb (u_lower (mt_type r)) (u_lower (mt_type m))) eqn:E2; cbn [negb]; [apply str_eqb_eq in E2|apply str_eqb_neq in E2; split; [discriminate|tauto]].
  destruct (str_eqb (mt_subtype r) star) eqn:E3; [apply str_eqb_eq in E3; tauto|]. apply str_eqb_neq in E3.
  destruct (str_eqb (u_lower (mt_subtype r)) (u_lower (mt_subtype m))) eqn:E4; cbn [negb]; [apply str_eqb_eq in E4|apply str_eqb_neq in E4; split; [discriminate|tauto]].
  rewrite forallb_forall. split.
  - intros H. right. split; [exact E2|]. right. split; [exact E4|]. intros k n v Hk. specialize (H (k, v) (proj2 (hp_in _ k v) (ex_intro _ n Hk))). cbn [fst snd] in H. destruct (dict_get k (mt_params m)) as [[n' v']|] eqn:E; [|discriminate].
    apply str_eqb_eq in H. subst v'. exists n'. apply dict_get_in; assumption.
  - intros [H|(_ & [H|(_ & H)])]; [congruence|congruence|]. intros [k v] Hk. apply hp_in in Hk. destruct Hk as (n & Hk). destruct (H k n v Hk) as (n' & Hn). cbn [fst snd]. apply dict_get_in in Hn; [|exact Hm]. rewrite Hn. apply str_eqb_refl.
Qed.
(** the wild card comes last *)
Lemma wild_star : wild star = lit "~".
Proof. reflexivity. Qed.
Lemma wild_not : forall s, s <> star -> wild s = s.
Proof. intros s H. unfold wild. apply str_eqb_neq in H. rewrite H. reflexivity. Qed.
Lemma star_last : forall s, s <> star -> below_tilde s -> cmp_str (wild star) (wild s) = Gt.
Proof.
  intros s H Hb. rewrite (wild_not s H), wild_star. destruct s as [|c s]; [reflexivity|]. cbn [below_tilde] in Hb. unfold cmp_str. change (lit "~") with [126]. cbn [cmp_list].
  replace (126 ?= c) with Gt by (symmetry; apply Z.compare_gt_iff; exact Hb). reflexivity.
Qed.
Lemma cmp_refl : forall s, cmp_str s s = Eq.
Proof. intros s. apply good_refl. exact good_str. Qed.
Lemma range_specific : forall r s m, range_ok r -> range_ok s -> in_range r m -> in_range s m -> cmp_range r s <> Gt -> (specificity s <= specificity r)%nat.
Proof.
  intros r s m (R1 & R2 & R3 & R4 & R5) (S1 & S2 & S3 & S4 & S5) Hr Hs H. unfold cmp_range in H. unfold specificity. destruct (str_eqb (mt_type s) star) eqn:E1; [lia|]. apply str_eqb_neq in E1.
  destruct (str_eqb (mt_type r) star) eqn:E2; [apply str_eqb_eq in E2; rewrite E2, star_last in H by assumption; cbn [lexi] in H; congruence|]. apply str_eqb_neq in E2.
  destruct Hr as [Hr|(Hr1 & Hr)]; [congruence|]. destruct Hs as [Hs|(Hs1 & Hs)]; [congruence|]. unfold same_name in *. assert (Et : mt_type r = mt_type s) by congruence. rewrite Et, cmp_refl in H. cbn [lexi] in H.
  destruct (str_eqb (mt_subtype s) star) eqn:E3; [destruct (str_eqb (mt_subtype r) star); lia|]. apply str_eqb_neq in E3.
  destruct (str_eqb (mt_subtype r) star) eqn:E4; [apply str_eqb_eq in E4; rewrite E4, star_last in H by assumption; cbn [lexi] in H; congruence|]. apply str_eqb_neq in E4.
  destruct Hr as [Hr|(Hr2 & _)]; [congruence|]. destruct Hs as [Hs|(Hs2 & _)]; [congruence|]. assert (Es : mt_subtype r = mt_subtype s) by congruence. rewrite Es, cmp_refl in H. cbn [lexi] in H. rewrite !hp_length in H.
  destruct (- Z.of_nat (List.length (mt_params r)) ?= - Z.of_nat (List.length (mt_params s))) eqn:E5; [apply Z.compare_eq in E5; lia|rewrite Z.compare_lt_iff in E5; lia|cbn [lexi] in H; congruence].
Qed.
Lemma item_q : forall i j, cmp_item i j <> Gt -> cmp_range (arange i) (arange j) = Eq -> aq j <= aq i.
Proof. intros i j H E. unfold cmp_item in H. rewrite E in H. cbn [lexi] in H. change (- aq i <= - aq j) in H. lia. Qed.
