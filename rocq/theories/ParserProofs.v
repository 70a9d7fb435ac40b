From Verif Require Import Py ParserModel.

Definition moved (p : parser) (n : Z) : parser :=
  mkp (src p) n (char_at (src p) n) (last_error p) (raised p).
Definition cinv (p : parser) : Prop := the_char p = char_at (src p) (pos p).

Lemma moved_self p : cinv p -> moved p (pos p) = p.
Proof. unfold cinv, moved. destruct p; cbn. congruence. Qed.
Lemma cinv_moved p n : cinv (moved p n).
Proof. reflexivity. Qed.
Lemma moved_moved p n k : moved (moved p n) k = moved p k.
Proof. reflexivity. Qed.
Lemma setpos_eq n p : setpos n p = (Ret tt, moved p n).
Proof. unfold setpos, next_char, moved. cbn. replace (n - 1 + 1) with n by lia. reflexivity. Qed.
Lemma next_char_eq p : next_char p = (Ret tt, moved p (pos p + 1)).
Proof. reflexivity. Qed.

Lemma char_at_Some s i c : char_at s i = Some c <-> 0 <= i /\ nth_error s (Z.to_nat i) = Some c.
Proof.
  unfold char_at. split.
  - intros H. destruct ((0 <=? i) && (i <? Z.of_nat (length s))) eqn:E; [|discriminate].
    b2p. auto.
  - intros [H1 H2]. assert (Z.to_nat i < length s)%nat by (apply nth_error_Some; congruence).
    replace ((0 <=? i) && (i <? Z.of_nat (length s))) with true; auto.
    symmetry. rewrite andb_true_iff, Z.leb_le, Z.ltb_lt. lia.
Qed.
Lemma char_at_None s i : char_at s i = None <-> i < 0 \/ Z.of_nat (length s) <= i.
Proof.
  unfold char_at. split.
  - intros H. destruct ((0 <=? i) && (i <? Z.of_nat (length s))) eqn:E.
    + b2p. apply nth_error_None in H. lia.
    + apply andb_false_iff in E. destruct E; b2p; lia.
  - intros H. replace ((0 <=? i) && (i <? Z.of_nat (length s))) with false; auto.
    symmetry. apply andb_false_iff. rewrite Z.leb_gt, Z.ltb_ge. lia.
Qed.

(** the text still to parse *)
Definition rest (p : parser) : str := if pos p <? 0 then [] else skipn (Z.to_nat (pos p)) (src p).

Lemma skipn_skipn' {A} (l : list A) a b : skipn a (skipn b l) = skipn (b + a) l.
Proof. revert l; induction b; intros l; cbn; [reflexivity|]. destruct l; [apply skipn_nil|apply IHb]. Qed.

Lemma rest_moved p k : 0 <= pos p -> 0 <= k -> rest (moved p (pos p + k)) = skipn (Z.to_nat k) (rest p).
Proof.
  intros H K. unfold rest, moved. cbn.
  replace (pos p + k <? 0) with false by (symmetry; apply Z.ltb_ge; lia).
  replace (pos p <? 0) with false by (symmetry; apply Z.ltb_ge; lia).
  rewrite skipn_skipn'. f_equal. lia.
Qed.

Lemma nth_skipn {A} (l : list A) n k : nth_error (skipn n l) k = nth_error l (n + k).
Proof. revert n; induction l; intros [|n]; cbn; auto. destruct k; reflexivity. Qed.

Lemma the_char_rest p : cinv p -> the_char p = hd_error (rest p).
Proof.
  intros H. rewrite H. unfold rest. destruct (pos p <? 0) eqn:E; b2p.
  - cbn. apply char_at_None. lia.
  - destruct (skipn (Z.to_nat (pos p)) (src p)) as [|c l] eqn:Es; cbn.
    + apply char_at_None. right. assert (length (skipn (Z.to_nat (pos p)) (src p)) = 0%nat) by (rewrite Es; reflexivity).
      rewrite skipn_length in H0. lia.
    + apply char_at_Some. split; [lia|]. replace (Z.to_nat (pos p)) with (Z.to_nat (pos p) + 0)%nat by lia.
      rewrite <- nth_skipn, Es. reflexivity.
Qed.

Lemma pyslice_rest p n : 0 <= pos p -> 0 <= n -> pyslice (src p) (pos p) (pos p + n) = firstn (Z.to_nat n) (rest p).
Proof.
  intros H N. unfold pyslice, pyidx, slice, rest.
  replace (pos p <? 0) with false by (symmetry; apply Z.ltb_ge; lia).
  replace (pos p + n <? 0) with false by (symmetry; apply Z.ltb_ge; lia).
  f_equal. lia.
Qed.

Lemma rest_nonneg p c l : rest p = c :: l -> 0 <= pos p.
Proof. unfold rest. destruct (pos p <? 0) eqn:E; b2p; [discriminate|auto]. Qed.
Lemma the_char_some p c : cinv p -> the_char p = Some c -> exists l, rest p = c :: l.
Proof.
  intros H Q. rewrite the_char_rest in Q by auto. destruct (rest p); inversion Q. eauto.
Qed.

(** parse_one *)
Lemma parse_one_eq cs p : cinv p ->
  parse_one cs p =
  match rest p with
  | c :: _ => if zin c cs then (Ret (Some c), moved p (pos p + 1)) else (Ret None, p)
  | [] => (Ret None, p)
  end.
Proof.
  intros H. unfold parse_one, match_one, bind, gets, ret. rewrite the_char_rest by auto.
  destruct (rest p) as [|c l] eqn:E; cbn; [reflexivity|].
  destruct (zin c cs); [|reflexivity]. rewrite (the_char_rest p H), E. reflexivity.
Qed.

(** the maximal run *)
Fixpoint run_of (cs : str) (max : option Z) (n : Z) (l : str) : str :=
  match l with
  | [] => []
  | c :: l' =>
    if (match max with None => true | Some m => n <? m end) && zin c cs
    then c :: run_of cs max (n + 1) l' else []
  end.

Lemma many_eq : forall fuel cs max n p, cinv p -> (length (rest p) < fuel)%nat ->
  many fuel cs max n p =
  (Ret (run_of cs max n (rest p)), moved p (pos p + len (run_of cs max n (rest p)))).
Proof.
  induction fuel as [|fuel IH]; intros cs max n p H L; [lia|].
  cbn [many]. destruct (match max with None => true | Some m => n <? m end) eqn:Em.
  - unfold bind. rewrite parse_one_eq by exact H.
    destruct (rest p) as [|c l] eqn:Er.
    + cbn [run_of]. unfold ret, len. cbn. rewrite Z.add_0_r, moved_self by exact H. reflexivity.
    + cbn [run_of]. rewrite Em. cbn [andb]. destruct (zin c cs) eqn:Ez.
      * assert (Hp : 0 <= pos p) by (eapply rest_nonneg; eauto).
        assert (Er' : rest (moved p (pos p + 1)) = l).
        { rewrite rest_moved by lia. rewrite Er. reflexivity. }
        rewrite IH; [|apply cinv_moved|rewrite Er'; cbn in L; lia].
        rewrite Er'. unfold ret. cbn [pos moved]. f_equal. rewrite moved_moved. f_equal.
        unfold len. cbn [length]. lia.
      * unfold ret, len. cbn. rewrite Z.add_0_r, moved_self by exact H. reflexivity.
  - destruct (rest p) as [|c l] eqn:Er; cbn [run_of]; rewrite ?Em; cbn [andb];
      unfold ret, len; cbn; rewrite Z.add_0_r, moved_self by exact H; reflexivity.
Qed.

Lemma rest_length p : (length (rest p) <= length (src p))%nat.
Proof. unfold rest. destruct (pos p <? 0); cbn; [lia|]. rewrite skipn_length. lia. Qed.

Lemma run_of_prefix cs max : forall l n, exists l', l = run_of cs max n l ++ l'.
Proof.
  induction l as [|c l IH]; intros n; cbn; [exists []; reflexivity|]. destr.
  - destruct (IH (n + 1)) as (l' & E'). exists l'. cbn. congruence.
  - eexists; reflexivity.
Qed.
Lemma run_of_firstn cs max l n : run_of cs max n l = firstn (length (run_of cs max n l)) l.
Proof.
  destruct (run_of_prefix cs max l n) as (l' & E). rewrite E at 3.
  rewrite firstn_app, Nat.sub_diag, firstn_all, firstn_O, app_nil_r. reflexivity.
Qed.

Lemma parse_digits_eq min max p : cinv p -> bad_bounds min max = false ->
  parse_digits min max p =
  let r := run_of digits max 0 (rest p) in
  if len r <? min then (Ret None, p) else (Ret (Some r), moved p (pos p + len r)).
Proof.
  intros H B. unfold parse_digits. rewrite B. unfold bind, gets.
  rewrite many_eq by (auto; pose proof (rest_length p); lia).
  cbn zeta. destruct (len _ <? min).
  - rewrite setpos_eq. unfold ret. rewrite moved_moved, moved_self by exact H. reflexivity.
  - reflexivity.
Qed.

Lemma parse_integer_eq min max md p : cinv p ->
  bad_bounds (match min with None => 0 | Some m => m end) max = false -> bad_bounds 1 md = false ->
  parse_integer min max md p =
  let r := run_of digits md 0 (rest p) in
  if (len r <? 1) || ((dec_value r <? match min with None => 0 | Some m => m end) ||
        match max with Some m => m <? dec_value r | None => false end)
  then (Ret None, p) else (Ret (Some (dec_value r)), moved p (pos p + len r)).
Proof.
  intros H B B1. unfold parse_integer. rewrite B. unfold bind, gets.
  rewrite parse_digits_eq by auto. cbn zeta.
  destruct (len _ <? 1); cbn [orb]; [reflexivity|].
  destr; [|reflexivity]. rewrite setpos_eq. unfold ret. rewrite moved_moved, moved_self by exact H. reflexivity.
Qed.

Lemma pyslice_empty {A} (l : list A) i : pyslice l i i = [].
Proof. unfold pyslice, slice. rewrite Nat.sub_diag. reflexivity. Qed.

Lemma parse_hex_digits_eq min max p : cinv p -> bad_bounds min max = false ->
  parse_hex_digits min max p =
  let r := run_of hex_digits max 0 (rest p) in
  if len r <? min then (Ret None, p) else (Ret (Some r), moved p (pos p + len r)).
Proof.
  intros H B. unfold parse_hex_digits. rewrite B. unfold bind, gets.
  rewrite many_eq by (auto; pose proof (rest_length p); lia).
  cbn zeta. destruct (len _ <? min).
  - rewrite setpos_eq. unfold ret. rewrite moved_moved, moved_self by exact H. reflexivity.
  - unfold ret. cbn [src moved]. do 3 f_equal.
    destruct (rest p) as [|c l] eqn:Er.
    + cbn. unfold len. cbn. rewrite Z.add_0_r. apply pyslice_empty.
    + rewrite <- Er. rewrite pyslice_rest; [|eapply rest_nonneg; eauto|unfold len; lia].
      unfold len. rewrite Nat2Z.id. symmetry. apply run_of_firstn.
Qed.

(** run_of is the longest capped run *)
Lemma run_of_spec cs max l n r : run_of cs max n l = r ->
  (forall c, In c r -> In c cs) /\ (exists l', l = r ++ l' /\
    ((exists c l'', l' = c :: l'' /\ ~ In c cs) \/ l' = [] \/ (exists m, max = Some m /\ m <= n + len r))) /\
  (forall m, max = Some m -> n + len r <= Z.max n m).
Proof.
  revert n r. induction l as [|c l IH]; intros n r E; cbn in E.
  - subst. split; [intros ? []|]. split; [exists []; cbn; auto|]. intros m _. unfold len. cbn. lia.
  - destruct ((match max with None => true | Some m => n <? m end) && zin c cs) eqn:Ec.
    + apply andb_true_iff in Ec as [E1 E2]. apply zin_In in E2. subst r.
      destruct (IH (n + 1) _ eq_refl) as (H1 & (l' & Hl & H2) & H3).
      split; [intros x [<-|Hx]; auto|]. split.
      * exists l'. split; [cbn; congruence|]. destruct H2 as [H2|[H2|(m & Hm & Hle)]]; auto.
        right; right. exists m. split; auto. unfold len in *. cbn [length]. lia.
      * intros m Hm. specialize (H3 m Hm). subst max. b2p. unfold len in *. cbn [length]. lia.
    + subst r. split; [intros ? []|]. split.
      * exists (c :: l). split; [reflexivity|]. apply andb_false_iff in Ec as [E1|E2].
        -- destruct max as [m|]; [|discriminate]. b2p. right; right. exists m. unfold len. cbn. split; [auto|lia].
        -- left. exists c, l. split; auto. apply zin_not_In. exact E2.
      * intros m _. unfold len. cbn. lia.
Qed.
