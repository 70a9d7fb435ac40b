(** Proofs about paging. *)
From Coq Require Import Sorting Permutation.
From Verif Require Import Py PagingModel PagingSpec.

(** ** Tokens *)
Definition hexchar (c : Z) : Prop := exists d, 0 <= d < 16 /\ c = hex_digit d.
Lemma hexchar_val : forall d, 0 <= d < 16 -> hex_val (hex_digit d) = Some d /\ is_space (hex_digit d) = false /\ hex_digit d <> 120 /\ hex_digit d <> 88 /\ hex_digit d <> 45 /\ hex_digit d <> 43.
Proof.
  intros d H. assert (C : d = 0 \/ d = 1 \/ d = 2 \/ d = 3 \/ d = 4 \/ d = 5 \/ d = 6 \/ d = 7 \/ d = 8 \/ d = 9 \/ d = 10 \/ d = 11 \/ d = 12 \/ d = 13 \/ d = 14 \/ d = 15) by lia.
  repeat (destruct C as [->|C]; [vm_compute; split; [reflexivity|split; [reflexivity|split; [discriminate|split; [discriminate|split; discriminate]]]]|]).
  subst. vm_compute. split; [reflexivity|split; [reflexivity|split; [discriminate|split; [discriminate|split; discriminate]]]].
Qed.
Lemma hex_loop_spec : forall fuel n acc, 0 <= n < Z.of_nat fuel -> exists ds, hex_loop fuel n acc = ds ++ acc /\ ds <> [] /\ Forall hexchar ds /\
  forall a acc', int_digits (ds ++ acc') a = int_digits acc' (a * 16 ^ Z.of_nat (length ds) + n).
Proof.
  induction fuel as [|fuel IH]; intros n acc H; [lia|]. cbn [hex_loop].
  assert (M : 0 <= n mod 16 < 16) by (apply Z.mod_pos_bound; lia). destruct (hexchar_val _ M) as (V & _).
  destruct (n <? 16) eqn:L.
  - apply Z.ltb_lt in L. exists [hex_digit (n mod 16)]. split; [reflexivity|]. split; [discriminate|]. split; [constructor; [eexists; eauto|constructor]|].
    intros a acc'. cbn [app int_digits length]. rewrite V. f_equal. rewrite Z.mod_small by lia. change (16 ^ Z.of_nat 1) with 16. lia.
  - apply Z.ltb_ge in L. assert (Q : 0 <= n / 16 < Z.of_nat fuel). { split; [apply Z.div_pos; lia|]. apply Z.div_lt_upper_bound; lia. }
    destruct (IH (n / 16) (hex_digit (n mod 16) :: acc) Q) as (ds & E & N & F & P).
    exists (ds ++ [hex_digit (n mod 16)]). split; [rewrite E, <- app_assoc; reflexivity|]. split; [destruct ds; discriminate|]. split; [apply Forall_app; split; [exact F|constructor; [eexists; eauto|constructor]]|].
    intros a acc'. rewrite <- app_assoc. cbn [app]. rewrite P. cbn [int_digits]. rewrite V. f_equal. rewrite app_length. cbn [length].
    replace (Z.of_nat (length ds + 1)) with (Z.of_nat (length ds) + 1) by lia. rewrite Z.pow_add_r by lia. change (16 ^ 1) with 16. pose proof (Z.div_mod n 16). lia.
Qed.
Lemma lstrip_id : forall s, (forall c, In c s -> is_space c = false) -> lstrip s = s.
Proof. intros [|c r] H; [reflexivity|]. cbn. rewrite H by now left. reflexivity. Qed.
Lemma strip_id : forall s, (forall c, In c s -> is_space c = false) -> rev (lstrip (rev (lstrip s))) = s.
Proof. intros s H. rewrite (lstrip_id s H), lstrip_id, rev_involutive; [reflexivity|]. intros c I. apply H. now apply in_rev. Qed.
Lemma hex_unsigned : forall n, 0 <= n -> let s := hex_loop (S (Z.to_nat n)) n [] in int_unsigned s = Some n /\ Forall hexchar s /\ s <> [].
Proof.
  intros n H s. destruct (hex_loop_spec (S (Z.to_nat n)) n [] ltac:(lia)) as (ds & E & N & F & P). fold s in E. rewrite app_nil_r in E. split; [|split; [rewrite E; exact F|rewrite E; exact N]].
  rewrite E. specialize (P 0 []). rewrite app_nil_r in P. cbn [int_digits] in P. rewrite Z.mul_0_l, Z.add_0_l in P.
  assert (R : int_unsigned ds = match ds with [] => None | c :: r => match hex_val c with Some d => int_digits r d | None => None end end).
  { unfold int_unsigned. destruct ds as [|c [|x r]]; try reflexivity.
    - destruct (Z.eq_dec c 48) as [->|C]; [reflexivity|]. destruct c; try reflexivity. repeat (destruct p; try reflexivity).
    - inversion F as [|? ? _ F']; subst. inversion F' as [|? ? (d & Hd & ->) _]; subst. destruct (hexchar_val d Hd) as (_ & _ & A & B & _).
      apply Z.eqb_neq in A, B. destruct (Z.eq_dec c 48) as [->|C]; [rewrite A, B; reflexivity|]. destruct c; try reflexivity. repeat (destruct p; try reflexivity). now rewrite A, B. }
  rewrite R. destruct ds as [|c r]; [contradiction|]. cbn [int_digits] in P. inversion F as [|? ? (d & Hd & ->) _]; subst. destruct (hexchar_val d Hd) as (V & _). rewrite V in P |- *. rewrite Z.mul_0_r, Z.add_0_l in P. exact P.
Qed.
Lemma int16_hex : forall n, int16 (hex n) = Some n.
Proof.
  intros n. unfold hex. destruct (n <? 0) eqn:L.
  - apply Z.ltb_lt in L. destruct (hex_unsigned (- n) ltac:(lia)) as (U & F & _). unfold int16. rewrite strip_id.
    + rewrite U. cbn. f_equal. lia.
    + intros c [<-|I]; [reflexivity|]. rewrite Forall_forall in F. destruct (F c I) as (d & Hd & ->). apply (hexchar_val d Hd).
  - apply Z.ltb_ge in L. destruct (hex_unsigned n L) as (U & F & N). unfold int16. rewrite strip_id.
    + destruct (hex_loop _ _ _) as [|c r] eqn:E; [contradiction|]. inversion F as [|? ? (d & Hd & ->) _]; subst. destruct (hexchar_val d Hd) as (_ & _ & _ & _ & A & B).
      remember (hex_digit d) as c. destruct c; try exact U; repeat (destruct p; try exact U; try contradiction).
    + intros c I. rewrite Forall_forall in F. destruct (F c I) as (d & Hd & ->). apply (hexchar_val d Hd).
Qed.

(** ** One page *)
Section Pages.
  Context {V : Type}.
  Lemma loop_all_spec : forall (l : list V) emin i, loop_all emin i l = skipn (Z.to_nat (emin - i)) l.
  Proof.
    induction l as [|e l IH]; intros emin i; cbn [loop_all]; [now rewrite skipn_nil|]. destruct (emin <=? i) eqn:L.
    - apply Z.leb_le in L. rewrite IH. replace (Z.to_nat (emin - i)) with O by lia. replace (Z.to_nat (emin - (i + 1))) with O by lia. reflexivity.
    - apply Z.leb_gt in L. rewrite IH. replace (Z.to_nat (emin - i)) with (S (Z.to_nat (emin - (i + 1)))) by lia. reflexivity.
  Qed.
  Lemma loop_max_in : forall (l : list V) emin emax i, emin <= i -> let n := Z.to_nat (emax - i) in
    loop_max emin emax i l = (firstn n l, if (n <? length l)%nat then Some (Z.max i emax) else None).
  Proof.
    induction l as [|e l IH]; intros emin emax i H n; cbn [loop_max]; [subst n; rewrite firstn_nil; now destruct (Z.to_nat (emax - i))|].
    destruct (i <? emin) eqn:L1; [apply Z.ltb_lt in L1; lia|]. destruct (i <? emax) eqn:L2.
    - apply Z.ltb_lt in L2. rewrite IH by lia. assert (E : n = S (Z.to_nat (emax - (i + 1)))) by lia. rewrite E. cbn [firstn length]. f_equal.
      replace (Z.max (i + 1) emax) with (Z.max i emax) by lia. reflexivity.
    - apply Z.ltb_ge in L2. assert (E : n = O) by lia. rewrite E. cbn. f_equal. f_equal. lia.
  Qed.
  Lemma loop_max_spec : forall (l : list V) emin emax i, i <= emin <= emax -> let n := Z.to_nat (emax - emin) in let s := skipn (Z.to_nat (emin - i)) l in
    loop_max emin emax i l = (firstn n s, if (n <? length s)%nat then Some emax else None).
  Proof.
    induction l as [|e l IH]; intros emin emax i H n s.
    - subst s. cbn [loop_max]. rewrite skipn_nil, firstn_nil. now destruct n.
    - destruct (Z.eq_dec i emin) as [->|N].
      + rewrite loop_max_in by lia. subst s. replace (Z.to_nat (emin - emin)) with O by lia. cbn [skipn]. fold n. destruct (n <? length (e :: l))%nat; [|reflexivity]. do 2 f_equal. lia.
      + cbn [loop_max]. destruct (i <? emin) eqn:L; [|apply Z.ltb_ge in L; lia]. rewrite IH by lia. subst s n. replace (Z.to_nat (emin - i)) with (S (Z.to_nat (emin - (i + 1)))) by lia. reflexivity.
  Qed.

  (** positions: a collection whose page starts at [p] *)
  Definition ok_sizes (c : coll) : Prop := (forall t, top c = Some t -> 0 < t) /\ (forall m, topmax c = Some m -> 0 < m).
  Lemma iterpage_spec : forall (l : list V) b c p, ok_sizes c -> emin_of c = Z.of_nat p ->
    let n := page_size c in
    let rest := skipn p l in
    let more := match n with Some n => (n <? length rest)%nat | None => false end in
    exists c', iterpage l b c = (at_most n rest, c') /\ topmax c' = topmax c /\
      next c' = match topmax c with
                | Some m => match top c with Some t => if m <? t then Some (hex (Z.of_nat p + m)) else None | None => Some (hex (Z.of_nat p + m)) end
                | None => None
                end /\
      (b = true -> if more then top c' = top c /\ emin_of c' = Z.of_nat p + Z.of_nat (match n with Some n => n | None => O end)
                   else top c' = Some 0) /\
      (b = false -> top c' = top c).
  Proof.
    intros l b c p [Ht Hm] HE n rest more. unfold iterpage. rewrite HE.
    assert (T0 : forall X Y : list V * coll, match top c with Some 0 => X | _ => Y end = Y).
    { intros X Y. destruct (top c) as [t|]; [|reflexivity]. specialize (Ht t eq_refl). destruct t; lia || reflexivity. }
    rewrite T0. clear T0.
    assert (X : exists nx, emax_of c = (match n with Some n => Some (Z.of_nat p + Z.of_nat n) | None => None end, nx) /\
      nx = match topmax c with
                | Some m => match top c with Some t => if m <? t then Some (hex (Z.of_nat p + m)) else None | None => Some (hex (Z.of_nat p + m)) end
                | None => None
                end /\ (forall h, nx = Some h -> exists n0, n = Some n0 /\ h = hex (Z.of_nat p + Z.of_nat n0))).
    { unfold emax_of. rewrite HE. subst n. unfold page_size. destruct (topmax c) as [m|] eqn:M; [|eexists; split; [|split; [reflexivity|discriminate]]].
      - specialize (Hm m eq_refl). destruct (m =? 0) eqn:Z0; [apply Z.eqb_eq in Z0; lia|]. destruct (top c) as [t|] eqn:T.
        + specialize (Ht t eq_refl). destruct (m <? t) eqn:L.
          * apply Z.ltb_lt in L. replace (Z.of_nat (Nat.min (Z.to_nat t) (Z.to_nat m))) with m by lia. eexists. split; [reflexivity|]. split; [reflexivity|]. intros h [= <-]. eexists. split; [reflexivity|]. do 2 f_equal. lia.
          * apply Z.ltb_ge in L. replace (Z.of_nat (Nat.min (Z.to_nat t) (Z.to_nat m))) with t by lia. eexists. split; [reflexivity|]. split; [reflexivity|]. discriminate.
        + rewrite Z2Nat.id by lia. eexists. split; [reflexivity|]. split; [reflexivity|]. intros h [= <-]. eexists. split; [reflexivity|]. rewrite Z2Nat.id by lia. reflexivity.
      - destruct (top c) as [t|] eqn:T; [specialize (Ht t eq_refl); rewrite Z2Nat.id by lia|]; reflexivity. }
    destruct X as (nx & -> & NX & HX). rewrite <- NX. destruct n as [n0|] eqn:En.
    - rewrite loop_max_spec by lia. rewrite Z.sub_0_r, Nat2Z.id. replace (Z.to_nat (Z.of_nat p + Z.of_nat n0 - Z.of_nat p)) with n0 by lia. fold rest. cbn [at_most].
      subst more. cbv beta iota. destruct (n0 <? length rest)%nat eqn:L.
      + eexists. split; [reflexivity|]. destruct b; [|split; [reflexivity|]; split; [reflexivity|]; split; [discriminate|reflexivity]].
        destruct nx as [h|]; (split; [reflexivity|]; split; [reflexivity|]; split; [|discriminate]; intros _; split; [reflexivity|]); unfold emin_of; cbn.
        * destruct (HX h eq_refl) as (n1 & E1 & ->). injection E1 as <-. rewrite int16_hex. lia.
        * lia.
      + eexists. split; [reflexivity|]. destruct b; split; try reflexivity; split; try reflexivity; split; (reflexivity || discriminate).
    - rewrite loop_all_spec, Z.sub_0_r, Nat2Z.id. fold rest. cbn [at_most]. subst more. eexists. split; [reflexivity|]. destruct b; split; try reflexivity; split; try reflexivity; split; (reflexivity || discriminate).
  Qed.
  Lemma skipn_skipn : forall a b (l : list V), skipn a (skipn b l) = skipn (b + a) l.
  Proof. intros a b. induction b as [|b IH]; intros l; [reflexivity|]. destruct l; [now rewrite !skipn_nil|]. cbn. apply IH. Qed.
  Lemma pages_done : forall n l (c : coll), top c = Some 0 -> exists ps, pages (V := V) l n c = (ps, c) /\ concat ps = [] /\ Forall (fun p => p = []) ps.
  Proof.
    induction n as [|n IH]; intros l c H; cbn [pages]; [exists []; auto|]. unfold iterpage. rewrite H. destruct (IH (fun i => l (S i)) c H) as (ps & -> & E & F). exists ([] :: ps). auto.
  Qed.
  Lemma page_size_pos : forall c n, ok_sizes c -> page_size c = Some n -> (0 < n)%nat.
  Proof. intros c n [Ht Hm] H. unfold page_size in H. destruct (top c) as [t|], (topmax c) as [m|]; injection H as <- || discriminate; try specialize (Ht _ eq_refl); try specialize (Hm _ eq_refl); lia. Qed.
  Lemma pages_spec : forall n (l : list V) c p, ok_sizes c -> emin_of c = Z.of_nat p -> (length (skipn p l) < n)%nat ->
    exists ps c', pages (fun _ => l) n c = (ps, c') /\ concat ps = skipn p l /\ top c' = Some 0 /\ Forall (fun q => at_most (page_size c) q = q) ps.
  Proof.
    induction n as [|n IH]; intros l c p O E L; [lia|]. cbn [pages]. destruct (iterpage_spec l true c p O E) as (c1 & -> & TM & _ & NX & _). specialize (NX eq_refl).
    destruct (page_size c) as [m|] eqn:S.
    - pose proof (page_size_pos c m O S) as Pm. cbn [at_most] in *. destruct (m <? length (skipn p l))%nat eqn:M.
      + apply Nat.ltb_lt in M. destruct NX as [T1 E1]. assert (O1 : ok_sizes c1) by (unfold ok_sizes; rewrite T1, TM; exact O).
        assert (S1 : page_size c1 = Some m) by (rewrite <- S; unfold page_size; now rewrite T1, TM).
        destruct (IH l c1 (p + m)%nat O1 ltac:(lia)) as (ps & c' & -> & C & T & F). { rewrite <- skipn_skipn, skipn_length. lia. }
        eexists _, _. split; [reflexivity|]. split; [|split; [exact T|]].
        * cbn [concat]. rewrite C, <- skipn_skipn. apply firstn_skipn.
        * constructor; [now rewrite firstn_firstn, Nat.min_id|]. rewrite S1 in F. exact F.
      + apply Nat.ltb_ge in M. destruct (pages_done n (fun _ => l) c1 NX) as (ps & -> & C & F). eexists _, _. split; [reflexivity|]. cbn [concat]. rewrite C, app_nil_r. split; [now apply firstn_all2|]. split; [exact NX|].
        constructor; [now rewrite firstn_firstn, Nat.min_id|]. eapply Forall_impl; [|exact F]. intros q ->. cbn. apply firstn_nil.
    - destruct (pages_done n (fun _ => l) c1 NX) as (ps & -> & C & F). eexists _, _. split; [reflexivity|]. cbn [concat at_most]. rewrite C, app_nil_r. split; [reflexivity|]. split; [exact NX|]. constructor; [reflexivity|]. apply Forall_forall. reflexivity.
  Qed.
  (** the same when the collection gives equal lists each time *)
  Lemma pages_ext : forall n (l l' : nat -> list V) c, (forall i, l i = l' i) -> pages l n c = pages l' n c.
  Proof. induction n as [|n IH]; intros l l' c H; [reflexivity|]. cbn [pages]. rewrite H. destruct (iterpage _ _ _) as [p c1]. now rewrite (IH (fun i => l (S i)) (fun i => l' (S i)) c1). Qed.
  Lemma follow_spec : forall n (l : list V) c p m, top c = None -> topmax c = Some m -> 0 < m -> emin_of c = Z.of_nat p ->
    exists q, follow l n c = q /\ concat q = firstn (n * Z.to_nat m) (skipn p l) /\ Forall (fun x => (length x <= Z.to_nat m)%nat) q.
  Proof.
    induction n as [|n IH]; intros l c p m T M Hm E; cbn [follow]; [exists []; auto|].
    assert (O : ok_sizes c) by (split; intros x Q; congruence || (assert (x = m) by congruence; lia)).
    destruct (iterpage_spec l false c p O E) as (c1 & -> & TM & NX & _ & _). assert (S : page_size c = Some (Z.to_nat m)) by (unfold page_size; now rewrite T, M). rewrite S, M, T in *. rewrite NX. cbn [at_most].
    destruct (IH l (set_page c1 None None (Some (hex (Z.of_nat p + m)))) (p + Z.to_nat m)%nat m eq_refl TM Hm) as (q & -> & C & F).
    { unfold emin_of. cbn [set_page skip token]. rewrite int16_hex. lia. }
    eexists. split; [reflexivity|]. cbn [concat]. rewrite C. split.
    - rewrite <- skipn_skipn. cbn [Nat.mul]. rewrite <- (firstn_skipn (Z.to_nat m) (skipn p l)) at 3. rewrite firstn_app.
      destruct (Nat.le_gt_cases (Z.to_nat m) (length (skipn p l))).
      + rewrite firstn_length_le by lia. rewrite (firstn_all2 (firstn (Z.to_nat m) (skipn p l))) by (rewrite firstn_length; lia). do 2 f_equal. lia.
      + rewrite (skipn_all2 (n := Z.to_nat m) (skipn p l)) by lia. rewrite !firstn_nil, !app_nil_r. rewrite (firstn_all2 (skipn p l)) by lia. now rewrite firstn_all2 by lia.
    - constructor; [|exact F]. rewrite firstn_length. lia.
  Qed.
End Pages.

(** ** Order *)
Section Order.
  Lemma put_in_perm : forall b x l, Permutation (x :: l) (put_in b x l).
  Proof. induction l as [|y l IH]; cbn; [reflexivity|]. destruct (b x y); [reflexivity|]. rewrite <- IH. apply perm_swap. Qed.
  Lemma stable_sort_perm : forall b l, Permutation l (stable_sort b l).
  Proof. induction l as [|x l IH]; cbn; [reflexivity|]. rewrite <- put_in_perm. now constructor. Qed.
  (** a stable sort of a list in the order R *)
  Lemma stable_sort_sorted : forall (lt : entity -> entity -> Prop) (b : entity -> entity -> bool) (R : entity -> entity -> Prop) l,
    (forall x y, In x l -> In y l -> b x y = false -> lt y x) ->
    (forall x y z, In x l -> In y l -> In z l -> b x y = true -> b y z = true -> b x z = true) ->
    (forall x y, In x l -> In y l -> lt x y -> b x y = true) ->
    StronglySorted R l -> StronglySorted (fun x y => lt x y \/ (b x y = true /\ R x y)) (stable_sort b l).
  Proof.
    intros lt b R l N T4 LB. induction l as [|x l IH]; intros S; [constructor|].
    inversion S as [|? ? S' F]; subst. cbn [stable_sort fold_right]. fold (stable_sort b l).
    assert (IH' : StronglySorted (fun x y => lt x y \/ b x y = true /\ R x y) (stable_sort b l)).
    { apply IH; auto; intros; [apply N|eapply T4|apply LB]; eauto; now right. }
    assert (Sub : forall y, In y (stable_sort b l) -> In y l) by (intros y I; eapply Permutation_in; [symmetry; apply stable_sort_perm|exact I]).
    rewrite Forall_forall in F. clear IH S S'. revert IH' Sub. generalize (stable_sort b l) as m. induction m as [|y m IHm]; intros IH' Sub; cbn [put_in]; [repeat constructor|].
    inversion IH' as [|? ? Sm Fm]; subst. destruct (b x y) eqn:B.
    - constructor; [exact IH'|]. constructor; [right; split; [exact B|apply F, Sub; now left]|]. rewrite Forall_forall in Fm |- *. intros z I.
      right. assert (Bz : b x z = true). { apply (T4 x y z); [now left|right; apply Sub; now left|right; apply Sub; now right|exact B|]. destruct (Fm z I) as [Q|[Q _]]; [|exact Q]. apply LB; [right; apply Sub; now left|right; apply Sub; now right|exact Q]. }
      split; [exact Bz|]. apply F, Sub. now right.
    - constructor; [apply IHm; [exact Sm|intros z I; apply Sub; now right]|]. rewrite Forall_forall in Fm |- *. intros z I. apply (Permutation_in _ (Permutation_sym (put_in_perm b x m))) in I.
      destruct I as [<-|I]; [left; apply N; [now left|right; apply Sub; now left|exact B]|]. apply Fm, I.
  Qed.

  Lemma sorted_impl : forall (R Q : entity -> entity -> Prop) l, (forall x y, In x l -> In y l -> R x y -> Q x y) -> StronglySorted R l -> StronglySorted Q l.
  Proof.
    intros R Q l. induction l as [|x l IH]; intros H S; [constructor|]. inversion S as [|? ? S' F]; subst. constructor; [apply IH; [intros; apply H; [now right|now right|assumption]|exact S']|].
    rewrite Forall_forall in F |- *. intros y I. apply H; [now left|now right|]. now apply F.
  Qed.
  Lemma key_sorted : forall l, NoDup (map e_key l) -> StronglySorted (fun a b => e_key a < e_key b) (stable_sort (fun a b => e_key a <=? e_key b) l).
  Proof.
    intros l ND. set (b := fun a b => e_key a <=? e_key b).
    assert (S : StronglySorted (fun x y => e_key x < e_key y \/ (b x y = true /\ True)) (stable_sort b l)).
    { apply (stable_sort_sorted (fun x y => e_key x < e_key y) b (fun _ _ => True)); unfold b; intros *; rewrite ?Z.leb_le, ?Z.leb_gt; try lia.
      clear. induction l; constructor; [assumption|]. now apply Forall_forall. }
    pose proof (stable_sort_perm b l) as P. assert (ND' : NoDup (map e_key (stable_sort b l))) by (eapply Permutation_NoDup; [apply Permutation_map, P|exact ND]).
    clear P ND. revert S ND'. generalize (stable_sort b l) as m. induction m as [|x m IH]; intros S ND; [constructor|]. inversion S as [|? ? S' F]; subst. cbn [map] in ND. inversion ND as [|? ? NI ND']; subst. constructor; [now apply IH|].
    rewrite Forall_forall in F |- *. intros y I. destruct (F y I) as [Q|[Q _]]; [exact Q|]. unfold b in Q. apply Z.leb_le in Q. assert (e_key y <> e_key x) by (intros E; apply NI; rewrite <- E; now apply in_map). lia.
  Qed.
  Definition nn (n : nat) (l : list entity) : Prop := forall e, In e l -> length (e_vals e) = n /\ Forall (fun v => v <> None) (e_vals e).
  Lemma nn_perm : forall n l l', Permutation l l' -> nn n l -> nn n l'.
  Proof. intros n l l' P H e I. apply H. eapply Permutation_in; [symmetry; exact P|exact I]. Qed.
  Lemma nn_val : forall n l e i, nn n l -> In e l -> (i < n)%nat -> exists v, val i e = Some v /\ skipn i (e_vals e) = Some v :: skipn (S i) (e_vals e).
  Proof.
    intros n l e i H I L. destruct (H e I) as [Hl F]. unfold val. revert i L. rewrite <- Hl. clear Hl I. induction (e_vals e) as [|[v|] r IH]; intros i L; cbn [length] in L; [lia| |].
    - destruct i as [|i]; [exists v; auto|]. inversion F; subst. destruct (IH H3 i ltac:(lia)) as (w & A & B). exists w. split; [exact A|exact B].
    - inversion F; subst. contradiction.
  Qed.
  Lemma sort_by_spec : forall n l i (rev : bool) R, nn n l -> (i < n)%nat -> StronglySorted R l ->
    exists l', sort_by (val i) rev l = Ok l' /\ Permutation l l' /\
      StronglySorted (fun x y => (exists a b, val i x = Some a /\ val i y = Some b /\ if rev then b < a else a < b) \/ (val i x = val i y /\ R x y)) l'.
  Proof.
    intros n l i rev R H L S. assert (V : forall e, In e l -> exists v, val i e = Some v) by (intros e I; destruct (nn_val n l e i H I L) as (v & Q & _); eauto).
    unfold sort_by. destruct l as [|x [|y l]]; [exists []; repeat constructor|exists [x]; repeat constructor|].
    set (m := x :: y :: l) in *. destruct (existsb _ m) eqn:E.
    { apply existsb_exists in E. destruct E as (e & I & E). destruct (V e I) as [v Q]. rewrite Q in E. discriminate. }
    eexists. split; [reflexivity|]. split; [apply stable_sort_perm|].
    set (b := fun a b : entity => match val i a, val i b with Some x, Some y => if rev then y <=? x else x <=? y | _, _ => true end).
    set (lt := fun x y => exists a b, val i x = Some a /\ val i y = Some b /\ if rev then b < a else a < b).
    assert (S' : StronglySorted (fun x y => lt x y \/ (b x y = true /\ R x y)) (stable_sort b m)).
    { apply stable_sort_sorted; unfold b, lt.
      - intros u v Iu Iv. destruct (V u Iu) as [a ->], (V v Iv) as [c ->]. intros Q. exists c, a. split; [reflexivity|]. split; [reflexivity|]. destruct rev; apply Z.leb_gt in Q; exact Q.
      - intros u v w Iu Iv Iw. destruct (V u Iu) as [a ->], (V v Iv) as [c ->], (V w Iw) as [d ->]. destruct rev; rewrite !Z.leb_le; lia.
      - intros u v Iu Iv (a & c & -> & -> & Q). destruct rev; apply Z.leb_le; lia.
      - exact S. }
    eapply sorted_impl; [|exact S']. intros u v Iu Iv [Q|[Q r]]; [left; exact Q|]. apply (Permutation_in _ (Permutation_sym (stable_sort_perm b m))) in Iu, Iv.
    unfold b in Q. destruct (V u Iu) as [a Ea], (V v Iv) as [c Ec]. rewrite Ea, Ec in Q |- *. destruct (Z.eq_dec a c) as [->|N]; [right; auto|]. left. exists a, c. split; [reflexivity|]. split; [reflexivity|]. destruct rev; apply Z.leb_le in Q; lia.
  Qed.
  Lemma sort_rules_spec : forall dirs i n l R, nn n l -> (i + length dirs = n)%nat -> StronglySorted R l ->
    exists l', sort_rules (combine (seq i (length dirs)) dirs) l = Ok l' /\ Permutation l l' /\
      StronglySorted (fun x y => before_by dirs (skipn i (e_vals x)) (skipn i (e_vals y)) (R x y)) l'.
  Proof.
    induction dirs as [|d dirs IH]; intros i n l R H E SR; cbn [length seq combine sort_rules before_by]; [exists l; auto|]. cbn [length] in E.
    destruct (IH (S i) n l R H ltac:(lia) SR) as (l1 & -> & P1 & S1). cbn [rbind]. pose proof (nn_perm _ _ _ P1 H) as H1.
    destruct (sort_by_spec n l1 i (d <? 0) _ H1 ltac:(lia) S1) as (l2 & E2 & P2 & S2). exists l2. split; [exact E2|]. split; [now transitivity l1|].
    eapply sorted_impl; [|exact S2]. intros x y Ix Iy Q. pose proof (nn_perm _ _ _ P2 H1) as H2.
    destruct (nn_val n l2 x i H2 Ix ltac:(lia)) as (a & Ea & ->). destruct (nn_val n l2 y i H2 Iy ltac:(lia)) as (b & Eb & ->).
    destruct Q as [(a' & b' & A & B & Q)|[Q r]]; [left|right].
    - assert (a' = a) by congruence. assert (b' = b) by congruence. subst. exact Q.
    - split; [congruence|exact r].
  Qed.
  Lemma sorted_unique : forall (R : entity -> entity -> Prop) l l', (forall x y, R x y -> R y x -> False) -> StronglySorted R l -> StronglySorted R l' -> Permutation l l' -> l = l'.
  Proof.
    intros R l. induction l as [|x l IH]; intros l' A S S' P; [now apply Permutation_nil in P|]. destruct l' as [|y l']; [symmetry in P; now apply Permutation_nil in P|].
    inversion S as [|? ? S1 F1]; inversion S' as [|? ? S2 F2]; subst. rewrite Forall_forall in F1, F2. assert (E : x = y).
    { assert (I : In x (y :: l')) by (eapply Permutation_in; [exact P|now left]). destruct I as [I|I]; [congruence|]. assert (J : In y (x :: l)) by (eapply Permutation_in; [symmetry; exact P|now left]). destruct J as [J|J]; [congruence|]. destruct (A x y); auto. }
    subst y. f_equal. apply IH; auto. now apply Permutation_cons_inv in P.
  Qed.
  Lemma before_by_asym : forall dirs x y (p q : Prop), (p -> q -> False) -> before_by dirs x y p -> before_by dirs y x q -> False.
  Proof.
    induction dirs as [|d dirs IH]; intros x y p q H; cbn [before_by]; [tauto|]. destruct x as [|[a|] x], y as [|[b|] y]; try tauto.
    intros [A|[-> A]] [B|[B1 B]]; try (destruct (d <? 0); lia). exact (IH x y p q H A B).
  Qed.
End Order.
