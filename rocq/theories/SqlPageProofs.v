(** Proofs about the paging of SQL collections. *)
From Coq Require Import Sorting Permutation.
From Verif Require Import Py SqlPageModel SqlPageSpec.

(** ** Orders *)
Lemma lexcmp_refl : forall a, lexcmp a a = Eq.
Proof. induction a as [|x a IH]; cbn; [reflexivity|]. now rewrite Z.compare_refl. Qed.
Lemma lexcmp_eq : forall a b, lexcmp a b = Eq -> a = b.
Proof. induction a as [|x a IH]; destruct b as [|y b]; cbn; try discriminate; [reflexivity|]. destruct (x ?= y) eqn:E; try discriminate. apply Z.compare_eq in E. intros H. apply IH in H. congruence. Qed.
Lemma lexcmp_opp : forall a b, lexcmp b a = CompOpp (lexcmp a b).
Proof. induction a as [|x a IH]; destruct b as [|y b]; cbn; try reflexivity. rewrite (Z.compare_antisym x y). destruct (x ?= y); cbn; auto. Qed.
Lemma lexcmp_trans : forall a b c, lexcmp a b = Lt -> lexcmp b c = Lt -> lexcmp a c = Lt.
Proof.
  induction a as [|x a IH]; destruct b as [|y b]; destruct c as [|z c]; cbn; try discriminate; auto.
  destruct (x ?= y) eqn:E1; try discriminate; destruct (y ?= z) eqn:E2; try discriminate; intros H1 H2;
    rewrite ?Z.compare_eq_iff, ?Z.compare_lt_iff in *; subst; try (rewrite Z.compare_refl; eauto; fail);
    (match goal with |- match ?u ?= ?v with _ => _ end = _ => destruct (u ?= v) eqn:E3; [apply Z.compare_eq in E3; lia|reflexivity|apply Z.compare_gt_iff in E3; lia] end).
Qed.
Lemma code_inj : forall a b, code a = code b -> a = b.
Proof. intros [| |] [| |]; cbn; congruence. Qed.
Lemma vcmp_refl : forall a, vcmp a a = Eq. Proof. intros. apply lexcmp_refl. Qed.
Lemma vcmp_eq : forall a b, vcmp a b = Eq -> a = b. Proof. intros. now apply code_inj, lexcmp_eq. Qed.
Lemma vcmp_opp : forall a b, vcmp b a = CompOpp (vcmp a b). Proof. intros. apply lexcmp_opp. Qed.
Lemma vcmp_trans : forall a b c, vcmp a b = Lt -> vcmp b c = Lt -> vcmp a c = Lt. Proof. intros a b c. apply lexcmp_trans. Qed.
Lemma lexcmp_lt : forall s t, lexcmp s t = Lt <-> exists p, (exists x t', s = p /\ t = p ++ x :: t') \/ (exists x y s' t', s = p ++ x :: s' /\ t = p ++ y :: t' /\ x < y).
Proof.
  induction s as [|x s IH]; intros t; destruct t as [|y t]; cbn [lexcmp].
  - split; [discriminate|]. intros (p & [(z & t' & _ & E)|(a & b & s' & t' & _ & E & _)]); destruct p; discriminate.
  - split; [|auto]. intros _. exists []. left. exists y, t. auto.
  - split; [discriminate|]. intros (p & [(z & t' & _ & E)|(a & b & s' & t' & _ & E & _)]); destruct p; discriminate.
  - destruct (x ?= y) eqn:E.
    + apply Z.compare_eq in E. subst y. rewrite IH. split.
      * intros (p & [(z & t' & -> & ->)|(a & b & s' & t' & -> & -> & L)]); exists (x :: p); [left; exists z, t'; auto|right; exists a, b, s', t'; auto].
      * intros ([|q p] & [(z & t' & E1 & E2)|(a & b & s' & t' & E1 & E2 & L)]); cbn in E1, E2; try discriminate.
        -- assert (a = b) by congruence. lia.
        -- exists p. left. exists z, t'. split; congruence.
        -- exists p. right. exists a, b, s', t'. split; [congruence|]. split; [congruence|exact L].
    + apply Z.compare_lt_iff in E. split; [intros _|reflexivity]. exists []. right. exists x, y, s, t. auto.
    + apply Z.compare_gt_iff in E. split; [discriminate|]. intros ([|q p] & [(z & t' & E1 & E2)|(a & b & s' & t' & E1 & E2 & L)]); cbn in E1, E2; try discriminate; try (assert (x = y) by congruence; lia).
      assert (x = a) by congruence. assert (y = b) by congruence. lia.
Qed.
Lemma vcmp_below : forall a b, vcmp a b = Lt <-> below a b.
Proof.
  intros [|m|s] [|n|t]; unfold vcmp, below; cbn; try (split; (discriminate || tauto || reflexivity); fail).
  - destruct (m ?= n) eqn:E; cbn; [apply Z.compare_eq in E|apply Z.compare_lt_iff in E|apply Z.compare_gt_iff in E]; split; (discriminate || lia || auto).
  - apply lexcmp_lt.
Qed.
Lemma ord_refl : forall nm a, ord_cmp nm a a = Eq.
Proof. induction nm as [|d nm IH]; destruct a as [|x a]; cbn; try reflexivity. rewrite vcmp_refl. destruct (d <? 0); apply IH. Qed.
Lemma ord_eq : forall nm a b, length a = length nm -> length b = length nm -> ord_cmp nm a b = Eq -> a = b.
Proof.
  induction nm as [|d nm IH]; destruct a as [|x a]; destruct b as [|y b]; cbn [length ord_cmp]; try discriminate; [reflexivity|]. intros [= A] [= B] H.
  destruct (if d <? 0 then vcmp y x else vcmp x y) eqn:E; try discriminate. assert (x = y) by (destruct (d <? 0); apply vcmp_eq in E; congruence). f_equal; auto.
Qed.
Lemma ord_opp : forall nm a b, ord_cmp nm b a = CompOpp (ord_cmp nm a b).
Proof.
  induction nm as [|d nm IH]; destruct a as [|x a]; destruct b as [|y b]; cbn; try reflexivity. rewrite (vcmp_opp x y). destruct (d <? 0); destruct (vcmp x y) eqn:E; cbn; auto.
Qed.
Lemma ord_trans : forall nm a b c, length a = length nm -> length b = length nm -> length c = length nm -> ord_cmp nm a b = Lt -> ord_cmp nm b c = Lt -> ord_cmp nm a c = Lt.
Proof.
  induction nm as [|d nm IH]; destruct a as [|x a]; destruct b as [|y b]; destruct c as [|z c]; cbn [length ord_cmp]; try discriminate. intros [= A] [= B] [= C].
  assert (T : forall u v w, (if d <? 0 then vcmp v u else vcmp u v) = Lt -> (if d <? 0 then vcmp w v else vcmp v w) = Lt -> (if d <? 0 then vcmp w u else vcmp u w) = Lt).
  { intros u v w. destruct (d <? 0); intros P Q; eapply vcmp_trans; eauto. }
  assert (Q : forall u v, (if d <? 0 then vcmp v u else vcmp u v) = Eq -> u = v) by (intros u v; destruct (d <? 0); intros P; apply vcmp_eq in P; congruence).
  destruct (if d <? 0 then vcmp y x else vcmp x y) eqn:E1; try discriminate; destruct (if d <? 0 then vcmp z y else vcmp y z) eqn:E2; try discriminate; intros H1 H2.
  - apply Q in E1, E2. subst. rewrite vcmp_refl. destruct (d <? 0); exact (IH a b c A B C H1 H2).
  - apply Q in E1. subst. now rewrite E2.
  - apply Q in E2. subst. now rewrite E1.
  - now rewrite (T x y z).
Qed.
Lemma ord_before : forall nm a b, ord_cmp nm a b = Lt <-> comes_before nm a b.
Proof.
  induction nm as [|d nm IH]; destruct a as [|x a]; destruct b as [|y b]; cbn [ord_cmp comes_before]; try (split; (discriminate || tauto)).
  rewrite <- IH. assert (B : (if d <? 0 then below y x else below x y) <-> (if d <? 0 then vcmp y x else vcmp x y) = Lt) by (destruct (d <? 0); symmetry; apply vcmp_below). rewrite B.
  destruct (if d <? 0 then vcmp y x else vcmp x y) eqn:E; split; intros H; try discriminate; auto.
  - right. split; [|exact H]. destruct (d <? 0); apply vcmp_eq in E; congruence.
  - destruct H as [H|[-> H]]; [discriminate|exact H].
  - destruct H as [H|[-> H]]; [discriminate|]. rewrite vcmp_refl in E. destruct (d <? 0); discriminate.
Qed.

(** ** The condition of a skiptoken *)
Lemma not_null_some : forall a b x, a <> VNull -> b <> VNull -> not_null a b x = Some x.
Proof. intros [| |] [| |] x A B; congruence || reflexivity. Qed.
Lemma nth_skipn0 : forall (l : list val) i x r, skipn i l = x :: r -> nth i l VNull = x /\ skipn (S i) l = r.
Proof. induction l as [|y l IH]; intros [|i] x r H; cbn in *; try discriminate; [injection H as -> ->; auto|]. apply (IH i x r H). Qed.
Lemma skip_clause_eval : forall nm vs i cols, nm <> [] -> Forall (fun d => d = 1 \/ d = -1) nm -> length vs = length nm -> length (skipn i cols) = length nm -> ~ In VNull vs -> ~ In VNull (skipn i cols) ->
  exists w, skip_clause i nm vs = Ok w /\ eval cols w = Some (match ord_cmp nm vs (skipn i cols) with Lt => true | _ => false end).
Proof.
  induction nm as [|d nm IH]; intros vs i cols N D Lv Lc Nv Nc; [contradiction|]. destruct vs as [|v vs]; [discriminate|]. destruct (skipn i cols) as [|x cs] eqn:E; [discriminate|].
  destruct (nth_skipn0 _ _ _ _ E) as [Nx Ex]. inversion D as [|? ? Hd D']; subst. cbn [skip_clause ord_cmp]. set (x := nth i cols VNull) in *.
  assert (X : x <> VNull) by (intros Q; apply Nc; left; exact Q). assert (V : v <> VNull) by (intros Q; apply Nv; left; exact Q).
  assert (C : eval cols (if 0 <? d then Greater i v else Less i v) = Some (match (if d <? 0 then vcmp x v else vcmp v x) with Lt => true | _ => false end)).
  { destruct Hd as [-> | ->]; cbn [eval Z.ltb Z.compare]; fold x; rewrite not_null_some by assumption; [rewrite (vcmp_opp v x); now destruct (vcmp v x)|reflexivity]. }
  assert (Q : eval cols (Equal i v) = Some (match (if d <? 0 then vcmp x v else vcmp v x) with Eq => true | _ => false end)).
  { cbn [eval]. fold x. rewrite not_null_some by assumption. destruct Hd as [-> | ->]; cbn [Z.ltb Z.compare]; [rewrite (vcmp_opp v x); now destruct (vcmp v x)|reflexivity]. }
  destruct nm as [|d2 nm].
  - eexists. split; [reflexivity|]. rewrite C. cbn [ord_cmp]. now destruct (if d <? 0 then vcmp x v else vcmp v x).
  - assert (X1 : length vs = length (d2 :: nm)) by (cbn [length] in *; congruence). assert (X2 : length (skipn (S i) cols) = length (d2 :: nm)) by (cbn [length] in *; congruence).
    assert (X3 : ~ In VNull vs) by (intros I; apply Nv; now right). assert (X4 : ~ In VNull (skipn (S i) cols)) by (intros I; apply Nc; now right).
    destruct (IH vs (S i) cols ltac:(discriminate) D' X1 X2 X3 X4) as (w & Ew & Vw). rewrite Ew. cbn [rbind]. eexists. split; [reflexivity|].
    cbn [eval]. cbn [eval] in C, Q. rewrite Q. rewrite Vw. replace (eval cols (if 0 <? d then Greater i v else Less i v)) with (Some (match (if d <? 0 then vcmp x v else vcmp v x) with Lt => true | _ => false end)).
    destruct (if d <? 0 then vcmp x v else vcmp v x); [|reflexivity|reflexivity]. now destruct (ord_cmp (d2 :: nm) vs (skipn (S i) cols)).
Qed.

Section Config.
  Variable k : config.
  Hypothesis Hk : good_config k.
  Notation nm := (names k).
  Lemma names_ok : nm <> [] /\ Forall (fun d => d = 1 \/ d = -1) nm /\ length nm = (length (orderby k) + nkeys k)%nat.
  Proof.
    destruct Hk as [K D]. unfold names. split; [destruct (nkeys k); [lia|]; destruct (orderby k); discriminate|]. split; [|now rewrite app_length, repeat_length].
    apply Forall_app. split; [exact D|]. apply Forall_forall. intros x I. apply repeat_spec in I. now left.
  Qed.
  (** values of the order columns, as in a row or a skiptoken *)
  Definition goodv (vs : list val) : Prop := length vs = length nm /\ ~ In VNull vs.
  Lemma good_row_v : forall r, good_row k r -> goodv (r_ord r).
  Proof. intros r (A & B & C & D). unfold goodv, r_ord. destruct names_ok as (_ & _ & E). rewrite app_length, A, B. split; [congruence|]. intros I. apply in_app_iff in I. tauto. Qed.
  Definition lt (a b : list val) : Prop := ord_cmp nm a b = Lt.
  Definition ltb (a b : list val) : bool := match ord_cmp nm a b with Lt => true | _ => false end.
  Definition rlt (a b : row) : Prop := lt (r_ord a) (r_ord b).
  Lemma lt_trans : forall a b c, goodv a -> goodv b -> goodv c -> lt a b -> lt b c -> lt a c.
  Proof. intros a b c [A _] [B _] [C _]. apply ord_trans; auto. Qed.
  Lemma lt_irrefl : forall a, ~ lt a a.
  Proof. intros a H. unfold lt in H. rewrite ord_refl in H. discriminate. Qed.
  Lemma lt_total : forall a b, goodv a -> goodv b -> lt a b \/ a = b \/ lt b a.
  Proof. intros a b [A _] [B _]. unfold lt. destruct (ord_cmp nm a b) eqn:E; [right; left; now apply ord_eq in E|now left|]. right. right. rewrite ord_opp, E. reflexivity. Qed.
  Lemma ltb_lt : forall a b, ltb a b = true <-> lt a b.
  Proof. intros a b. unfold ltb, lt. destruct (ord_cmp nm a b); split; (discriminate || reflexivity). Qed.
  Lemma where_spec : forall vs, goodv vs -> exists w, skip_clause 0 nm vs = Ok w /\ forall r, good_row k r -> holds w r = ltb vs (r_ord r).
  Proof.
    intros vs [Lv Nv]. destruct names_ok as (N & D & _).
    assert (X : forall r, good_row k r -> exists w, skip_clause 0 nm vs = Ok w /\ holds w r = ltb vs (r_ord r)).
    { intros r G. destruct (good_row_v r G) as [Lr Nr]. destruct (skip_clause_eval nm vs 0 (r_ord r) N D Lv Lr Nv Nr) as (w & E & V). exists w. split; [exact E|]. unfold holds. rewrite V. cbn [skipn]. unfold ltb. now destruct (ord_cmp nm vs (r_ord r)). }
    destruct (skip_clause 0 nm vs) as [w|e] eqn:E.
    - exists w. split; [reflexivity|]. intros r G. destruct (X r G) as (w' & [= <-] & H). exact H.
    - exfalso. clear X. revert E. assert (Q : exists w, skip_clause 0 nm vs = Ok w); [|destruct Q as [w ->]; discriminate]. clear Nv D. revert N vs Lv. generalize O as i. induction nm as [|d m IH]; intros i N vs Lv; [contradiction|].
      destruct vs as [|v vs]; [discriminate|]. cbn [skip_clause]. destruct m as [|d2 m]; [eauto|]. destruct (IH (S i) ltac:(discriminate) vs ltac:(cbn in *; congruence)) as [w ->]. cbn. eauto.
  Qed.

  (** ** Sorting *)
  Definition goodt (t : list row) : Prop := Forall (good_row k) t /\ NoDup (map r_ord t).
  Lemma goodt_of : forall t, good_table k t -> goodt t.
  Proof.
    intros t [F N]. split; [exact F|]. induction t as [|r t IH]; [constructor|]. inversion F as [|? ? G F']; subst. cbn [map] in *. inversion N as [|? ? NI N']; subst. constructor; [|now apply IH].
    intros I. apply NI. apply in_map_iff in I. destruct I as (r' & E & I). rewrite Forall_forall in F'. destruct (F' r' I) as (A' & B' & _). destruct G as (A & B & _).
    assert (E2 : r_key r' = r_key r). { unfold r_ord in E. apply (f_equal (skipn (length (orderby k)))) in E. rewrite <- A' in E at 1. rewrite <- A in E. rewrite !skipn_app, !skipn_all, !Nat.sub_diag in E. exact E. }
    rewrite <- E2. now apply in_map.
  Qed.
  Lemma insert_row_perm : forall r l, Permutation (r :: l) (insert_row nm r l).
  Proof. induction l as [|y l IH]; cbn; [reflexivity|]. destruct (ord_cmp _ _ _); try reflexivity. rewrite <- IH. apply perm_swap. Qed.
  Lemma order_perm : forall l, Permutation l (order_rows nm l).
  Proof. induction l as [|x l IH]; cbn; [reflexivity|]. rewrite <- insert_row_perm. now constructor. Qed.
  Lemma order_sorted : forall l, goodt l -> StronglySorted rlt (order_rows nm l).
  Proof.
    induction l as [|x l IH]; intros [F N]; [constructor|]. inversion F as [|? ? G F']; subst. cbn [map] in N. inversion N as [|? ? NI N']; subst. cbn [order_rows fold_right]. fold (order_rows nm l).
    specialize (IH (conj F' N')). assert (Sub : forall y, In y (order_rows nm l) -> good_row k y /\ r_ord y <> r_ord x).
    { intros y I. apply (Permutation_in _ (Permutation_sym (order_perm l))) in I. rewrite Forall_forall in F'. split; [now apply F'|]. intros E. apply NI. rewrite <- E. now apply in_map. }
    revert IH Sub. generalize (order_rows nm l) as m. induction m as [|y m IHm]; intros S Sub; cbn [insert_row]; [repeat constructor|]. inversion S as [|? ? S' Fm]; subst.
    destruct (Sub y (or_introl eq_refl)) as [Gy Ny]. pose proof (good_row_v x G) as Vx. pose proof (good_row_v y Gy) as Vy.
    destruct (ord_cmp nm (r_ord x) (r_ord y)) eqn:E.
    - apply ord_eq in E; [congruence|apply Vx|apply Vy].
    - constructor; [exact S|]. constructor; [exact E|]. rewrite Forall_forall in Fm |- *. intros z I. eapply lt_trans; [exact Vx|exact Vy|apply good_row_v, Sub; now right|exact E|now apply Fm].
    - constructor; [apply IHm; [exact S'|intros z I; apply Sub; now right]|]. rewrite Forall_forall in Fm |- *. intros z I. apply (Permutation_in _ (Permutation_sym (insert_row_perm x m))) in I.
      destruct I as [<-|I]; [unfold rlt, lt; rewrite ord_opp, E; reflexivity|now apply Fm].
  Qed.
  Lemma sorted_unique : forall l l', StronglySorted rlt l -> StronglySorted rlt l' -> Permutation l l' -> Forall (good_row k) l -> l = l'.
  Proof.
    induction l as [|x l IH]; intros l' S S' P G; [now apply Permutation_nil in P|]. destruct l' as [|y l']; [symmetry in P; now apply Permutation_nil in P|].
    inversion S as [|? ? S1 F1]; inversion S' as [|? ? S2 F2]; inversion G as [|? ? Gx Gl]; subst. rewrite Forall_forall in F1, F2. assert (E : x = y).
    { assert (I : In x (y :: l')) by (eapply Permutation_in; [exact P|now left]). destruct I as [I|I]; [congruence|]. assert (J : In y (x :: l)) by (eapply Permutation_in; [symmetry; exact P|now left]). destruct J as [J|J]; [congruence|].
      exfalso. apply (lt_irrefl (r_ord x)). rewrite Forall_forall in Gl. apply (lt_trans (r_ord x) (r_ord y) (r_ord x)); [now apply good_row_v|apply good_row_v, Gl, J|now apply good_row_v|apply F1, J|apply F2, I]. }
    subst y. f_equal. apply IH; auto. now apply Permutation_cons_inv in P.
  Qed.
  Lemma filter_sorted : forall (f : row -> bool) l, StronglySorted rlt l -> StronglySorted rlt (filter f l).
  Proof. induction l as [|x l IH]; intros S; [constructor|]. inversion S as [|? ? S' F]; subst. cbn. destruct (f x); [|auto]. constructor; [auto|]. rewrite Forall_forall in *. intros y I. apply filter_In in I. now apply F. Qed.
  Lemma filter_perm : forall (f : row -> bool) l l', Permutation l l' -> Permutation (filter f l) (filter f l').
  Proof. intros f l l' P. induction P; cbn; auto; [destruct (f x); auto|destruct (f x), (f y); auto; apply perm_swap|etransitivity; eauto]. Qed.
  Lemma filter_goodt : forall (f : row -> bool) l, goodt l -> goodt (filter f l).
  Proof.
    intros f l [F N]. split; [rewrite Forall_forall in *; intros r I; apply filter_In in I; now apply F|]. clear F. induction l as [|x l IH]; [constructor|]. cbn [map] in N. inversion N as [|? ? NI N']; subst. cbn. destruct (f x); [|auto]. cbn. constructor; [|auto].
    intros I. apply NI. apply in_map_iff in I. destruct I as (y & E & I). apply filter_In in I. rewrite <- E. apply in_map. tauto.
  Qed.
  Lemma perm_good : forall l l', Permutation l l' -> Forall (good_row k) l -> Forall (good_row k) l'.
  Proof. intros l l' P F. rewrite Forall_forall in *. intros r I. apply F. eapply Permutation_in; [symmetry; exact P|exact I]. Qed.
  Lemma order_filter : forall (f : row -> bool) l, goodt l -> order_rows nm (filter f l) = filter f (order_rows nm l).
  Proof.
    intros f l G. apply sorted_unique; [apply order_sorted, filter_goodt, G|apply filter_sorted, order_sorted, G| |].
    - etransitivity; [symmetry; apply order_perm|]. apply filter_perm, order_perm.
    - eapply perm_good; [apply order_perm|]. apply (filter_goodt f l G).
  Qed.
  Lemma filter_ext_in' : forall (f g : row -> bool) l, (forall r, In r l -> f r = g r) -> filter f l = filter g l.
  Proof. intros f g l H. apply filter_ext_in. exact H. Qed.

  (** ** The rows that a page is taken from *)
  Definition after (o : option (list val)) (r : row) : bool := match o with None => true | Some vs => ltb vs (r_ord r) end.
  Definition rest (c : coll) (t : list row) : list row := skipn (start c) (filter (after (tok c)) (order_rows nm t)).
  Definition ok_coll (c : coll) : Prop :=
    (forall vs, tok c = Some vs -> goodv vs) /\ (forall s, skip c = Some s -> 0 <= s) /\ (forall t, top c = Some t -> 0 < t) /\ (forall m, topmax c = Some m -> 0 < m).
  Lemma truthy_start : forall c, ok_coll c -> truthy (skip c) = negb (Nat.eqb (start c) 0).
  Proof. intros c (_ & S & _). unfold truthy, start. destruct (skip c) as [s|]; [|reflexivity]. specialize (S s eq_refl). destruct (Z.eqb_spec s 0), (Nat.eqb_spec (Z.to_nat s) 0); reflexivity || lia. Qed.
  Lemma query_spec : forall c t, ok_coll c -> goodt t -> can_skip k c ->
    exists s l, query k c t = Ok (s, l) /\ (forall x, s = Some x -> 0 <= x) /\
      (skipn (Z.to_nat (match s with Some x => x | None => 0 end)) l = rest c t \/ skipn (Z.to_nat (match s with Some x => x | None => 0 end)) l = at_most (page_size c) (rest c t)).
  Proof.
    intros c t OK G CS. unfold query.
    assert (W : match tok c with None => Ok t | Some vs => let! w := skip_clause 0 nm vs in Ok (filter (holds w) t) end = Ok (filter (after (tok c)) t)).
    { destruct (tok c) as [vs|] eqn:E; [|cbn; f_equal; induction t as [|x t IH]; [reflexivity|]; cbn; f_equal; apply IH; destruct G as [F N]; inversion F; inversion N; split; assumption].
      destruct OK as (V & _). destruct (where_spec vs (V vs E)) as (w & -> & H). cbn [rbind]. f_equal. apply filter_ext_in. intros r I. cbn. apply H. destruct G as [F _]. rewrite Forall_forall in F. now apply F. }
    rewrite W. cbn [rbind]. clear W. rewrite order_filter by assumption. unfold rest, limit_clause. pose proof (truthy_start c OK) as TS. set (L := filter (after (tok c)) (order_rows nm t)).
    destruct (sqlite k) eqn:SQ.
    2:{ eexists _, _. split; [reflexivity|]. split; [intros x E; now apply (proj1 (proj2 OK))|]. left. reflexivity. }
    destruct OK as (_ & HS & HT & HM). rewrite TS.
    assert (LM : truthy (match topmax c with Some m => match top c with Some t => Some (Z.min t m) | None => Some m end | None => top c end) = match page_size c with None => false | Some _ => true end /\
       forall n, page_size c = Some n -> (match (match topmax c with Some m => match top c with Some t => Some (Z.min t m) | None => Some m end | None => top c end) with Some n => Z.to_nat n | None => O end) = n).
    { unfold page_size, truthy. destruct (top c) as [t0|], (topmax c) as [m|]; try specialize (HT _ eq_refl); try specialize (HM _ eq_refl); split; try reflexivity; try discriminate;
        try (match goal with |- negb (?x =? 0) = true => destruct (Z.eqb_spec x 0); reflexivity || lia end); intros n [= <-]; lia. }
    destruct LM as [-> LN].
    assert (E : match skip c with Some s => Z.to_nat s | None => O end = start c) by (unfold start; destruct (skip c); reflexivity). rewrite E.
    assert (SK : (if negb (Nat.eqb (start c) 0) then skipn (start c) L else L) = skipn (start c) L) by (destruct (start c); reflexivity). rewrite SK.
    assert (Z0 : forall x, (if negb (Nat.eqb (start c) 0) then Some 0 else skip c) = Some x -> x = 0).
    { intros x. destruct (Nat.eqb_spec (start c) 0) as [Q|Q]; cbn [negb]; [|congruence]. intros X. unfold start in Q. rewrite X in Q. specialize (HS x X). lia. }
    destruct (page_size c) as [n|] eqn:P.
    - rewrite andb_false_r. eexists _, _. split; [reflexivity|]. split; [intros x X; apply Z0 in X; lia|]. right. rewrite (LN n eq_refl). cbn [at_most].
      destruct (if negb (Nat.eqb (start c) 0) then Some 0 else skip c) as [x|] eqn:X; [rewrite (Z0 x eq_refl)|]; reflexivity.
    - destruct (CS SQ) as [Q|Q]; [|contradiction]. rewrite Q. cbn [Nat.eqb negb andb skipn]. eexists _, _. split; [reflexivity|]. split; [exact HS|]. left. unfold start in Q. rewrite Q. reflexivity.
  Qed.
  (** the end of a page *)
  Definition done (b : bool) (c : coll) : coll := if b then mkcoll (Some 0) (Some 0) (tok c) (topmax c) (next c) else c.
  Definition by_top (b : bool) (c : coll) : coll :=
    if b then mkcoll (top c) (Some (match skip c with Some s => s | None => 0 end + match top c with Some t => t | None => 0 end)) (tok c) (topmax c) (next c) else c.
  Definition lim (t m : option Z) : option nat :=
    match t, m with None, None => None | Some t, None => Some (Z.to_nat t) | None, Some m => Some (Z.to_nat m) | Some t, Some m => Some (Nat.min (Z.to_nat t) (Z.to_nat m)) end.
  Definition max_first (t m : option Z) : bool := match m with Some m => match t with Some t => m <=? t | None => true end | None => false end.
  Lemma fetch_take : forall l b c t m, (forall x, t = Some x -> 0 < x) -> (forall x, m = Some x -> 0 < x) -> forall s, truthy s = false ->
    fetch b c s t m l = match lim t m with
                        | None => (l, Ok (done b c))
                        | Some n => if (length l <? n)%nat then (l, Ok (done b c))
                                    else (firstn n l, if max_first t m then make_token b (last (firstn n l) (mkrow [] [] 0)) c else Ok (by_top b c))
                        end.
  Proof.
    induction l as [|r l IH]; intros b c t m Ht Hm s Hs.
    - cbn [fetch]. unfold lim. destruct t as [t|], m as [m|]; try specialize (Ht _ eq_refl); try specialize (Hm _ eq_refl); try reflexivity;
        (match goal with |- context [(length [] <? ?n)%nat] => assert (E : (length (@nil row) <? n)%nat = true) by (apply Nat.ltb_lt; cbn; lia); rewrite E; reflexivity end).
    - cbn [fetch]. rewrite Hs.
      assert (IH' : forall t m, (forall x, t = Some x -> 0 < x) -> (forall x, m = Some x -> 0 < x) -> fetch b c s t m l =
         match lim t m with None => (l, Ok (done b c)) | Some n => if (length l <? n)%nat then (l, Ok (done b c)) else (firstn n l, if max_first t m then make_token b (last (firstn n l) (mkrow [] [] 0)) c else Ok (by_top b c)) end) by (intros; now apply IH).
      clear IH. 
      assert (Go : forall t' m' n', (forall x, t' = Some x -> 0 < x) -> (forall x, m' = Some x -> 0 < x) -> lim t m = Some (S n') -> lim t' m' = Some n' -> (0 < n')%nat -> max_first t' m' = max_first t m ->
         (let (p, c0) := fetch b c s t' m' l in (r :: p, c0)) =
          match lim t m with None => (r :: l, Ok (done b c)) | Some n => if (length (r :: l) <? n)%nat then (r :: l, Ok (done b c)) else (firstn n (r :: l), if max_first t m then make_token b (last (firstn n (r :: l)) (mkrow [] [] 0)) c else Ok (by_top b c)) end).
      { intros t' m' n' A B E E' P M. rewrite (IH' t' m' A B), E, E', M. change (length (r :: l) <? S n')%nat with (length l <? n')%nat. destruct (length l <? n')%nat eqn:Q; [reflexivity|]. cbn [firstn]. f_equal. destruct (max_first t m); [|reflexivity].
        f_equal. apply Nat.ltb_ge in Q. destruct n'; [lia|]. destruct l; [cbn in Q; lia|]. reflexivity. }
      destruct m as [m|].
      + specialize (Hm m eq_refl). destruct (m - 1 <? 1) eqn:M1.
        * apply Z.ltb_lt in M1. assert (m = 1) by lia. subst m. assert (L : lim t (Some 1) = Some 1%nat). { unfold lim. destruct t as [t|]; [|reflexivity]. specialize (Ht t eq_refl). f_equal. change (Z.to_nat 1) with 1%nat. lia. }
          rewrite L. change (length (r :: l) <? 1)%nat with false. cbn [firstn last]. assert (X : max_first t (Some 1) = true) by (destruct t as [t|]; [specialize (Ht t eq_refl); apply Z.leb_le; lia|reflexivity]). now rewrite X.
        * apply Z.ltb_ge in M1. destruct t as [t|]; cbn [option_map].
          -- specialize (Ht t eq_refl). destruct (t - 1 <? 1) eqn:T1.
             ++ apply Z.ltb_lt in T1. assert (t = 1) by lia. subst t. assert (L : lim (Some 1) (Some m) = Some 1%nat) by (unfold lim; f_equal; change (Z.to_nat 1) with 1%nat; lia). rewrite L. change (length (r :: l) <? 1)%nat with false. cbn [firstn last].
                assert (X : max_first (Some 1) (Some m) = false) by (apply Z.leb_gt; lia). rewrite X. reflexivity.
             ++ apply Z.ltb_ge in T1. apply (Go (Some (t - 1)) (Some (m - 1)) (Nat.min (Z.to_nat (t - 1)) (Z.to_nat (m - 1)))); try (intros x [= <-]; lia); try reflexivity; try lia; unfold lim, max_first; [f_equal; lia|]. destruct (Z.leb_spec (m - 1) (t - 1)), (Z.leb_spec m t); reflexivity || lia.
          -- apply (Go None (Some (m - 1)) (Z.to_nat (m - 1))); try discriminate; try (intros x [= <-]; lia); try reflexivity; try lia. unfold lim. f_equal. lia.
      + destruct t as [t|]; cbn [option_map].
        * specialize (Ht t eq_refl). destruct (t - 1 <? 1) eqn:T1.
          -- apply Z.ltb_lt in T1. assert (t = 1) by lia. subst t. reflexivity.
          -- apply Z.ltb_ge in T1. apply (Go (Some (t - 1)) None (Z.to_nat (t - 1))); try discriminate; try (intros x [= <-]; lia); try reflexivity; try lia. unfold lim. f_equal. lia.
        * rewrite IH' by discriminate. reflexivity.
  Qed.
  Lemma fetch_skip : forall l b c t m s, (forall x, s = Some x -> 0 <= x) -> fetch b c s t m l = fetch b c (Some 0) t m (skipn (Z.to_nat (match s with Some x => x | None => 0 end)) l).
  Proof.
    assert (N : forall l b c t m, fetch b c None t m l = fetch b c (Some 0) t m l).
    { induction l as [|r l IH]; intros b c t m; [reflexivity|]. cbn [fetch truthy Z.eqb negb]. destruct m as [m|]; [destruct (m - 1 <? 1); [reflexivity|]|]; (destruct t as [t|]; cbn [option_map]; [destruct (t - 1 <? 1); [reflexivity|]|]); now rewrite IH. }
    intros l b c t m [x|] H; [|rewrite N; reflexivity]. specialize (H x eq_refl). revert x H. induction l as [|r l IH]; intros x H; [rewrite skipn_nil; reflexivity|].
    destruct (Z.eq_dec x 0) as [->|Nx]; [reflexivity|]. cbn [fetch truthy]. destruct (Z.eqb_spec x 0); [contradiction|]. cbn [negb option_map]. rewrite IH by lia. replace (Z.to_nat x) with (S (Z.to_nat (x - 1))) by lia. reflexivity.
  Qed.
  Lemma iterpage_spec : forall c t b, ok_coll c -> goodt t -> can_skip k c ->
    iterpage k t b c = match page_size c with
                       | None => (rest c t, Ok (done b c))
                       | Some n => if (length (rest c t) <? n)%nat then (rest c t, Ok (done b c))
                                   else (firstn n (rest c t), if max_first (top c) (topmax c) then make_token b (last (firstn n (rest c t)) (mkrow [] [] 0)) c else Ok (by_top b c))
                       end.
  Proof.
    intros c t b OK G CS. unfold iterpage. destruct (query_spec c t OK G CS) as (s & l & -> & Hs & HR). destruct OK as (_ & _ & HT & HM).
    assert (T0 : forall X Y : list row * res coll, match top c with Some 0 => X | _ => Y end = Y). { intros X Y. destruct (top c) as [t0|]; [|reflexivity]. specialize (HT t0 eq_refl). destruct t0; lia || reflexivity. }
    rewrite T0, fetch_skip by assumption. rewrite fetch_take by (assumption || reflexivity). change (lim (top c) (topmax c)) with (page_size c).
    destruct HR as [-> | ->]; [reflexivity|]. destruct (page_size c) as [n|]; [|reflexivity]. cbn [at_most]. rewrite firstn_length, firstn_firstn, Nat.min_id.
    destruct (Nat.ltb_spec (length (rest c t)) n), (Nat.ltb_spec (Nat.min n (length (rest c t))) n); try lia; [|reflexivity]. now rewrite firstn_all2 by lia.
  Qed.
End Config.
