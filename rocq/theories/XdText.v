(** Property C137, continued: the text of decimals. *)
From Coq Require Import Lia String.
From Verif Require Import Py Num UriModel UriRel HttpModel HttpParamMain HttpParamAccept XdModel XdSpec XdProps.
Open Scope Z_scope.

(** ** Rounding *)
Fixpoint lev (l : str) : Z := match l with [] => 0 | d :: r => (d - 48) + 10 * lev r end.
Lemma lev_rev : forall l, decimal (rev l) = lev l.
Proof. induction l as [|d r IH]; [reflexivity|]. cbn [rev lev]. rewrite decimal_app, IH. cbn [List.length decimal]. change (Z.of_nat 1) with 1. change (Z.of_nat 0) with 0. rewrite Z.pow_1_r, Z.pow_0_r. lia. Qed.
Lemma lev_rev2 : forall l, lev (rev l) = decimal l.
Proof. intros l. rewrite <- lev_rev, rev_involutive. reflexivity. Qed.
Definition p10 (n : nat) : Z := 10 ^ Z.of_nat n.
Lemma p10_S : forall n, p10 (S n) = 10 * p10 n.
Proof. intros n. unfold p10. rewrite Nat2Z.inj_succ, Z.pow_succ_r by lia. reflexivity. Qed.
Lemma p10_pos : forall n, 0 < p10 n.
Proof. intros n. unfold p10. apply Z.pow_pos_nonneg; lia. Qed.
Definition over (o : bool) (n : nat) : Z := if o then p10 n else 0.
Lemma round_carry : forall l l' o, Forall dec_digit l -> (List.length l <= 15)%nat -> round_loop l = (l', o) -> List.length l' = List.length l /\ Forall dec_digit l' /\ lev l' + over o (List.length l) = lev l + 1.
Proof.
  induction l as [|d r IH]; intros l' o F L H; cbn [round_loop] in H; [inversion H; subst; split; [reflexivity|]; split; [constructor|reflexivity]|]. inversion F as [|? ? Fd Fr]; subst. cbn [List.length] in L.
  destruct (15 <? List.length r)%nat eqn:E1; [apply Nat.ltb_lt in E1; lia|]. destruct (List.length r =? 15)%nat eqn:E2; [apply Nat.eqb_eq in E2; lia|]. destruct (Z.eqb_spec d 57) as [->|Nd].
  - destruct (round_loop r) as [r' o'] eqn:E. inversion H; subst. destruct (IH r' o Fr) as (A & B & C); [lia|reflexivity|]. cbn [List.length lev]. rewrite A. split; [reflexivity|]. split; [constructor; [unfold dec_digit; lia|exact B]|]. unfold over in *. rewrite p10_S. destruct o; lia.
  - inversion H; subst. cbn [List.length lev over]. split; [reflexivity|]. split; [constructor; [unfold dec_digit in *; lia|exact Fr]|lia].
Qed.
Lemma round_main : forall n l l' o, Forall dec_digit l -> List.length l = (16 + n)%nat -> round_loop l = (l', o) ->
  List.length l' = List.length l /\ Forall dec_digit l' /\ exists q, lev l' + over o (List.length l) = q * p10 (S n) /\ q * p10 (S n) - 5 * p10 n <= lev l < q * p10 (S n) + 5 * p10 n.
Proof.
  induction n as [|n IH]; intros l l' o F L H; destruct l as [|d r]; cbn [List.length] in L; try lia; inversion F as [|? ? Fd Fr]; subst; cbn [round_loop] in H.
  - destruct (15 <? List.length r)%nat eqn:E1; [apply Nat.ltb_lt in E1; lia|]. destruct (List.length r =? 15)%nat eqn:E2; [|apply Nat.eqb_neq in E2; lia]. change (p10 1) with 10. change (p10 0) with 1. unfold dec_digit in Fd. destruct (Z.ltb_spec d 53) as [L53|L53].
    + inversion H; subst. cbn [List.length lev over]. split; [reflexivity|]. split; [constructor; [unfold dec_digit; lia|exact Fr]|]. exists (lev r). lia.
    + destruct (round_loop r) as [r' o'] eqn:E. inversion H; subst. destruct (round_carry r r' o Fr) as (A & B & C); [lia|exact E|]. cbn [List.length lev]. rewrite A. split; [reflexivity|]. split; [constructor; [unfold dec_digit; lia|exact B]|]. exists (lev r + 1). unfold over in *. rewrite p10_S. destruct o; lia.
  - destruct (15 <? List.length r)%nat eqn:E1; [|apply Nat.ltb_ge in E1; lia]. destruct (round_loop r) as [r' o'] eqn:E. inversion H; subst. destruct (IH r r' o Fr) as (A & B & q & C & D); [lia|exact E|]. cbn [List.length lev]. rewrite A. split; [reflexivity|]. split; [constructor; [unfold dec_digit; lia|exact B]|].
    exists q. unfold dec_digit in Fd. rewrite (p10_S (S n)), (p10_S n) in *. unfold over in *. rewrite p10_S. destruct o; lia.
Qed.
Lemma decimal_lead : forall c t, Forall dec_digit (c :: t) -> c <> 48 -> p10 (List.length t) <= decimal (c :: t).
Proof. intros c t F N. inversion F as [|? ? Fc Ft]; subst. cbn [decimal]. pose proof (decimal_nonneg t Ft). fold (p10 (List.length t)). pose proof (p10_pos (List.length t)). unfold dec_digit in Fc. nia. Qed.
Lemma whole_of : forall t, t <> [] -> Forall dec_digit t -> p10 (List.length t - 1) <= decimal t -> whole_part t.
Proof.
  intros [|c t] N F H; [congruence|]. split; [exact N|]. split; [exact F|]. cbn [hd]. intros ->. inversion F; subst. cbn [decimal List.length] in H. replace (S (List.length t) - 1)%nat with (List.length t) in H by lia. pose proof (decimal_bound t H3). unfold p10 in H. lia.
Qed.
(** the digits are those of the number rounded *)
Theorem digits_rounded : forall i, 0 <= i -> exists t o, round_digits (dec_str i) = (t, o) /\ whole_part t /\ rounded i (decimal t).
Proof.
  intros i Hi. rewrite dec_str_nat by exact Hi. destruct (dec_nat_spec i Hi) as (F & D & N & Z0). unfold round_digits. destruct (15 <? List.length (dec_nat i))%nat eqn:E.
  - apply Nat.ltb_lt in E. remember (dec_nat i) as ds eqn:Eds. destruct (round_loop (rev ds)) as [l' o] eqn:R. destruct (round_main (List.length ds - 16) (rev ds) l' o) as (A & B & q & C & H); [apply Forall_rev; exact F|rewrite rev_length; lia|exact R|]. rewrite lev_rev2 in H. rewrite D in H. rewrite rev_length in A, C. set (n := (List.length ds - 16)%nat) in *.
    assert (Hlow : p10 (List.length ds - 1) <= i). { destruct ds as [|c ds]; [congruence|]. rewrite <- D. cbn [List.length]. replace (S (List.length ds) - 1)%nat with (List.length ds) by lia. apply decimal_lead; [exact F|]. intros ->. specialize (Z0 eq_refl). rewrite Z0 in E. cbn in E. lia. }
    assert (Hhigh : i < p10 (List.length ds)) by (rewrite <- D; apply decimal_bound; exact F).
    assert (Hr : rounded i (q * p10 (S n))).
    { right. exists (Z.of_nat (S n)). split; [lia|]. unfold p10 in Hlow, Hhigh. rewrite p10_S in H. split; [split; [replace (14 + Z.of_nat (S n)) with (Z.of_nat (List.length ds - 1)) by lia; exact Hlow|replace (15 + Z.of_nat (S n)) with (Z.of_nat (List.length ds)) by lia; exact Hhigh]|].
      split; [exists q; reflexivity|]. fold (p10 (S n)). rewrite p10_S. lia. }
    exists (if o then 49 :: rev l' else rev l'), o. split; [destruct o; reflexivity|]. destruct o.
    + assert (V : decimal (49 :: rev l') = q * p10 (S n)). { cbn [decimal]. rewrite rev_length, lev_rev, A. cbn [over] in C. unfold p10 in C at 1. lia. }
      split; [|rewrite V; exact Hr]. split; [discriminate|]. split; [constructor; [unfold dec_digit; lia|apply Forall_rev; exact B]|]. intros X. discriminate.
    + assert (V : decimal (rev l') = q * p10 (S n)). { rewrite lev_rev. cbn [over] in C. lia. }
      split; [|rewrite V; exact Hr]. apply whole_of; [intros X; apply (f_equal (@List.length Z)) in X; rewrite rev_length, A in X; cbn in X; lia|apply Forall_rev; exact B|]. rewrite rev_length, A, V. replace (List.length ds - 1)%nat with (S (14 + n)) in * by lia.
      rewrite p10_S in *. assert (P : p10 (14 + n) = 100000000000000 * p10 n). { unfold p10. rewrite Nat2Z.inj_add, Z.pow_add_r by lia. reflexivity. }
      rewrite P in *. pose proof (p10_pos n) as Pn. clear - H Hlow Pn. rewrite p10_S. destruct (Z_le_gt_dec 100000000000000 q) as [Q|Q].
      * assert (Y : 100000000000000 * (10 * p10 n) <= q * (10 * p10 n)) by (apply Z.mul_le_mono_nonneg_r; lia). lia.
      * assert (Y : q * (10 * p10 n) <= 99999999999999 * (10 * p10 n)) by (apply Z.mul_le_mono_nonneg_r; lia). lia.
  - apply Nat.ltb_ge in E. exists (dec_nat i), false. split; [reflexivity|]. split; [split; [exact N|split; [exact F|exact Z0]]|]. left. split; [|exact D]. pose proof (decimal_bound (dec_nat i) F) as X. rewrite D in X. eapply Z.lt_le_trans; [exact X|]. apply Z.pow_le_mono_r; lia.
Qed.

(** ** the point *)
Lemma point_put : forall t d, whole_part t -> exists a b,
  (let ds := if (List.length t <=? d)%nat then repeat 48 (d + 1 - List.length t) ++ t else t in
   let n := (List.length ds - d)%nat in firstn n ds ++ 46 :: skipn n ds) = a ++ 46 :: b /\ whole_part a /\ Forall dec_digit b /\ List.length b = d /\ decimal (a ++ b) = decimal t.
Proof.
  intros t d (N & F & W). cbv zeta. destruct (List.length t <=? d)%nat eqn:E.
  - apply Nat.leb_le in E. remember (d + 1 - List.length t)%nat as k eqn:K. destruct k as [|k]; [lia|]. assert (L : (List.length (repeat 48%Z (S k) ++ t) - d)%nat = 1%nat) by (rewrite app_length, repeat_length; lia). rewrite L. cbn [repeat app firstn skipn]. exists [48], (repeat 48 k ++ t). split; [reflexivity|].
    split; [split; [discriminate|]; split; [repeat constructor; unfold dec_digit; lia|reflexivity]|]. split; [apply Forall_app; split; [apply Forall_forall; intros x Hx; apply repeat_spec in Hx; subst; unfold dec_digit; lia|exact F]|]. split; [rewrite app_length, repeat_length; lia|]. change ([48] ++ repeat 48 k ++ t) with (repeat 48 (S k) ++ t). apply decimal_repeat0.
  - apply Nat.leb_gt in E. remember (List.length t - d)%nat as n eqn:Dn. exists (firstn n t), (skipn n t). split; [reflexivity|]. assert (F2 := F). rewrite <- (firstn_skipn n t) in F2. apply Forall_app in F2 as [Fa Fb]. rewrite firstn_skipn, skipn_length. split; [|split; [exact Fb|split; [lia|reflexivity]]]. split; [|split; [exact Fa|]].
    + intros X. apply (f_equal (@List.length Z)) in X. rewrite firstn_length in X. cbn in X. lia.
    + destruct t as [|c t]; [congruence|]. assert (En : exists m, n = S m) by (exists (List.length t - d)%nat; subst n; cbn [List.length] in *; lia). destruct En as [m ->]. cbn [firstn hd]. intros ->. specialize (W eq_refl). injection W as ->. rewrite firstn_nil. reflexivity.
Qed.

(** ** zeros at the end *)
Lemma zeros_end : forall b : str, exists c k, b = c ++ repeat 48 k /\ (c = [] \/ exists e d, c = e ++ [d] /\ d <> 48).
Proof.
  induction b as [|x b IH] using rev_ind; [exists [], 0%nat; split; [reflexivity|left; reflexivity]|]. destruct (Z.eq_dec x 48) as [->|N].
  - destruct IH as (c & k & -> & H). exists c, (S k). split; [|exact H]. rewrite <- app_assoc. f_equal. rewrite <- repeat_cons. reflexivity.
  - exists (b ++ [x]), 0%nat. cbn [repeat]. rewrite app_nil_r. split; [reflexivity|]. right. exists b, x. auto.
Qed.
Lemma drop_repeat : forall k l, drop_zeros (repeat 48 k ++ l) = drop_zeros l.
Proof. induction k as [|k IH]; intros l; [reflexivity|exact (IH l)]. Qed.
Lemma rev_repeat : forall k, rev (repeat 48 k) = repeat 48 k.
Proof. induction k as [|k IH]; [reflexivity|]. cbn [repeat rev]. rewrite IH. rewrite <- repeat_cons. reflexivity. Qed.
Lemma firstn_exact : forall (a b : str) n, n = List.length a -> firstn n (a ++ b) = a.
Proof. intros a b n ->. rewrite firstn_app, Nat.sub_diag, firstn_all. cbn [firstn]. apply app_nil_r. Qed.
Lemma strip_point : forall p b, Forall dec_digit b -> b <> [] -> exists c k, strip_zeros (p ++ 46 :: b) = p ++ 46 :: c /\ b = c ++ repeat 48 k /\ fraction_part c.
Proof.
  intros p b F N. destruct (zeros_end b) as (c & k & E & H). unfold strip_zeros. assert (R : rev (p ++ 46 :: b) = repeat 48 k ++ rev c ++ 46 :: rev p). { rewrite rev_app_distr. cbn [rev]. rewrite E, rev_app_distr, rev_repeat, <- !app_assoc. reflexivity. }
  rewrite R, drop_repeat. assert (Fc : Forall dec_digit c) by (rewrite E in F; apply Forall_app in F; tauto). destruct H as [->|(e & d & -> & Nd)].
  - cbn [rev app drop_zeros]. change (46 =? 48) with false. cbv iota. change (46 =? 46) with true. cbv iota. cbn [app] in E. destruct k as [|k]; [cbn in E; congruence|]. exists [48], k. split; [|split; [exact E|split; [discriminate|split; [repeat constructor; unfold dec_digit; lia|left; reflexivity]]]].
    rewrite E. cbn [repeat]. replace (p ++ 46 :: 48 :: repeat 48 k) with ((p ++ [46; 48]) ++ repeat 48 k) by (rewrite <- app_assoc; reflexivity). rewrite firstn_exact by (rewrite app_length, rev_length; cbn; lia). reflexivity.
  - rewrite rev_app_distr. cbn [rev app drop_zeros]. destruct (Z.eqb_spec d 48) as [X|_]; [congruence|]. assert (Dd : dec_digit d) by (apply Forall_app in Fc as [_ Fd]; inversion Fd; assumption). destruct (Z.eqb_spec d 46) as [->|_]; [unfold dec_digit in Dd; lia|].
    exists (e ++ [d]), k. split; [|split; [exact E|split; [destruct e; discriminate|split; [exact Fc|right; exists e, d; auto]]]]. rewrite E. replace (p ++ 46 :: (e ++ [d]) ++ repeat 48 k) with ((p ++ 46 :: e ++ [d]) ++ repeat 48 k) by (rewrite <- app_assoc; reflexivity).
    apply firstn_exact. rewrite !app_length, rev_length. cbn [List.length]. rewrite !app_length, rev_length. cbn [List.length]. lia.
Qed.
Lemma strip_bare : forall p, strip_zeros (p ++ [46]) = p ++ [46].
Proof.
  intros p. unfold strip_zeros. rewrite rev_app_distr. cbn [rev app drop_zeros]. change (46 =? 48) with false. cbv iota. change (46 =? 46) with true. cbv iota. rewrite rev_length. apply firstn_all2. rewrite app_length. cbn. lia.
Qed.
Definition minus (neg : bool) : str := if neg then [45] else [].
Definition sgn (neg : bool) : Z := if neg then -1 else 1.
Lemma minus_sign : forall neg, sign_of (minus neg) (sgn neg).
Proof. intros []; [right; right|left]; auto. Qed.
(** the text is a sign, digits, a point and digits *)
Lemma text_is : forall neg i d strip, 0 <= i -> exists a b r, decimal_text neg i d strip = minus neg ++ a ++ 46 :: b /\ rounded i r /\ whole_part a /\ Forall dec_digit b /\ (List.length b <= d)%nat /\
  decimal (a ++ b) * p10 (d - List.length b) = r /\ (strip = false \/ d = 0%nat -> List.length b = d) /\ (strip = true -> d <> 0%nat -> fraction_part b).
Proof.
  intros neg i d strip Hi. destruct (digits_rounded i Hi) as (t & o & E & W & R). unfold decimal_text. rewrite E. cbn [fst]. destruct (point_put t d W) as (a & b & P & Wa & Fb & Lb & V). cbv zeta in P. cbv zeta. rewrite P.
  replace (if neg then 45 :: a ++ 46 :: b else a ++ 46 :: b) with ((minus neg ++ a) ++ 46 :: b) by (destruct neg; reflexivity). destruct strip.
  - destruct b as [|x b].
    + cbn [List.length] in Lb. subst d. rewrite strip_bare, <- app_assoc. exists a, [], (decimal t). split; [reflexivity|]. split; [exact R|]. split; [exact Wa|]. split; [constructor|]. split; [reflexivity|]. split; [rewrite V; cbn [List.length Nat.sub]; change (p10 0) with 1; lia|]. split; [reflexivity|congruence].
    + destruct (strip_point (minus neg ++ a) (x :: b) Fb) as (c & k & -> & Eb & Fc); [discriminate|]. exists a, c, (decimal t). rewrite <- app_assoc. split; [reflexivity|]. split; [exact R|]. split; [exact Wa|]. assert (L : (List.length c + k = d)%nat) by (rewrite <- Lb, Eb, app_length, repeat_length; reflexivity).
      split; [apply Fc|]. split; [lia|]. split; [|split; [|intros _ _; exact Fc]].
      * rewrite <- V, Eb, app_assoc, (decimal_app (a ++ c)), repeat_length. replace (decimal (repeat 48 k)) with 0; [replace (d - List.length c)%nat with k by lia; fold (p10 k); lia|]. rewrite <- (app_nil_r (repeat 48 k)), decimal_repeat0. reflexivity.
      * intros [X|X]; [discriminate|]. rewrite X in Lb. cbn in Lb. lia.
  - exists a, b, (decimal t). rewrite <- app_assoc. split; [reflexivity|]. split; [exact R|]. split; [exact Wa|]. split; [exact Fb|]. split; [lia|]. split; [rewrite V, Lb, Nat.sub_diag; change (p10 0) with 1; lia|]. split; [intros _; exact Lb|discriminate].
Qed.
(** ** What is written *)
Definition scaled (num den : Z) (d : nat) : Z := (2 * Z.abs num * p10 d + den) / (2 * den).
Lemma scaled_near : forall num den d, 0 < den -> 0 <= scaled num den d /\ 2 * scaled num den d * den - den <= 2 * Z.abs num * p10 d < 2 * scaled num den d * den + den.
Proof.
  intros num den d H. unfold scaled. pose proof (p10_pos d). split; [apply Z.div_pos; nia|]. pose proof (Z.div_mod (2 * Z.abs num * p10 d + den) (2 * den)). pose proof (Z.mod_pos_bound (2 * Z.abs num * p10 d + den) (2 * den)). nia.
Qed.
Lemma to_str_is : forall num den digits strip, num <> 0 -> decimal_to_str num den digits strip = decimal_text (num <? 0) (scaled num den (Z.to_nat digits)) (Z.to_nat digits) strip.
Proof.
  intros num den digits strip N. unfold decimal_to_str, scaled. assert (A : (if num <? 0 then - num else num) = Z.abs num) by (destruct (Z.ltb_spec num 0); lia). rewrite A. destruct (Z.eqb_spec (Z.abs num) 0) as [X|_]; [lia|]. assert (D : (if digits <? 0 then 0%nat else Z.to_nat digits) = Z.to_nat digits) by (destruct (Z.ltb_spec digits 0); lia). rewrite D. reflexivity.
Qed.
(** what is written can be read: it is the value to so many places, and to 15 digits *)
Theorem decimal_read : forall num den digits strip, 0 < den -> exists i r n k,
  decimal_from_str (decimal_to_str num den digits strip) = Ok (n, k) /\ (k <= Z.to_nat digits \/ k = 1)%nat /\
  2 * i * den - den <= 2 * Z.abs num * 10 ^ Z.max 0 digits < 2 * i * den + den /\ rounded i r /\ n * 10 ^ Z.max 0 digits = Z.sgn num * r * 10 ^ Z.of_nat k.
Proof.
  intros num den digits strip H. replace (Z.max 0 digits) with (Z.of_nat (Z.to_nat digits)) by lia. set (d := Z.to_nat digits). fold (p10 d). destruct (Z.eq_dec num 0) as [->|N].
  - assert (X : exists k, decimal_from_str (decimal_to_str 0 den digits strip) = Ok (0, k) /\ (k <= d \/ k = 1)%nat).
    { unfold decimal_to_str. change (0 <? 0) with false. cbv iota. change (0 =? 0) with true. cbv iota. assert (D : (if digits <? 0 then 0%nat else Z.to_nat digits) = d) by (unfold d; destruct (Z.ltb_spec digits 0); lia). rewrite D. destruct (d =? 0)%nat eqn:E0; [exists 0%nat; split; [reflexivity|lia]|]. destruct strip; [exists 1%nat; split; [reflexivity|lia]|].
      exists d. split; [|lia]. apply decimal_exact. exists [], 1, [48], (repeat 48 d). split; [left; auto|]. split; [right; reflexivity|]. split; [discriminate|]. split; [change ([48] ++ repeat 48 d) with (repeat 48 (S d)); apply Forall_forall; intros x Hx; apply repeat_spec in Hx; subst; unfold dec_digit; lia|]. split; [|rewrite repeat_length; reflexivity].
      change ([48] ++ repeat 48 d) with (repeat 48 (S d)). rewrite <- (app_nil_r (repeat 48 (S d))), decimal_repeat0. reflexivity. }
    destruct X as (k & X & K). exists 0, 0, 0, k. split; [exact X|]. split; [exact K|]. split; [cbn [Z.abs]; lia|]. split; [left; split; [reflexivity|reflexivity]|reflexivity].
  - rewrite to_str_is by exact N. fold d. destruct (scaled_near num den d H) as [S0 S1]. destruct (text_is (num <? 0) (scaled num den d) d strip S0) as (a & b & r & -> & R & Wa & Fb & Lb & V & _). exists (scaled num den d), r, (sgn (num <? 0) * decimal (a ++ b)), (List.length b). split.
    + apply decimal_exact. exists (minus (num <? 0)), (sgn (num <? 0)), a, b. split; [apply minus_sign|]. split; [right; reflexivity|]. destruct Wa as (Na & Fa & _). split; [destruct a; [congruence|discriminate]|]. split; [apply Forall_app; auto|]. auto.
    + split; [left; exact Lb|]. split; [exact S1|]. split; [exact R|]. rewrite <- V. assert (P : p10 d = p10 (d - List.length b) * 10 ^ Z.of_nat (List.length b)) by (unfold p10; rewrite <- Z.pow_add_r by lia; f_equal; lia). rewrite P.
      assert (SG : sgn (num <? 0) = Z.sgn num) by (unfold sgn; destruct (Z.ltb_spec num 0); lia). rewrite SG. ring.
Qed.
(** if it is written to one place or more and zeros are stripped, it is canonical but for the sign of zero *)
Theorem decimal_canonical : forall num den digits, 0 < den -> 0 < digits -> exists sg a b, decimal_to_str num den digits true = sg ++ a ++ 46 :: b /\ whole_part a /\ fraction_part b /\ (sg = [45] /\ num < 0 \/ sg = [] /\ 0 <= num).
Proof.
  intros num den digits H D. destruct (Z.eq_dec num 0) as [->|N].
  - exists [], [48], [48]. split; [|split; [|split; [|right; split; [reflexivity|lia]]]].
    + unfold decimal_to_str. change (0 <? 0) with false. cbv iota. change (0 =? 0) with true. cbv iota. destruct (Z.ltb_spec digits 0) as [L|L]; [lia|]. destruct (Z.to_nat digits) eqn:E; [lia|reflexivity].
    + split; [discriminate|]. split; [repeat constructor; unfold dec_digit; lia|reflexivity].
    + split; [discriminate|]. split; [repeat constructor; unfold dec_digit; lia|left; reflexivity].
  - rewrite to_str_is by exact N. destruct (scaled_near num den (Z.to_nat digits) H) as [S0 _]. destruct (text_is (num <? 0) _ (Z.to_nat digits) true S0) as (a & b & r & -> & _ & Wa & _ & _ & _ & _ & Fb). exists (minus (num <? 0)), a, b. split; [reflexivity|]. split; [exact Wa|]. split; [apply Fb; [reflexivity|lia]|]. unfold minus. destruct (Z.ltb_spec num 0); [left|right]; split; auto; lia.
Qed.
(** if zeros are not stripped it has exactly so many places *)
Theorem decimal_places : forall num den digits, 0 < den -> 0 < digits -> exists p b, decimal_to_str num den digits false = p ++ 46 :: b /\ Forall dec_digit b /\ List.length b = Z.to_nat digits.
Proof.
  intros num den digits H D. destruct (Z.eq_dec num 0) as [->|N].
  - exists [48], (repeat 48 (Z.to_nat digits)). unfold decimal_to_str. change (0 <? 0) with false. cbv iota. change (0 =? 0) with true. cbv iota. destruct (Z.ltb_spec digits 0) as [L|L]; [lia|]. destruct (Nat.eqb_spec (Z.to_nat digits) 0) as [E|E]; [lia|]. split; [reflexivity|]. split; [apply Forall_forall; intros x Hx; apply repeat_spec in Hx; subst; unfold dec_digit; lia|apply repeat_length].
  - rewrite to_str_is by exact N. destruct (scaled_near num den (Z.to_nat digits) H) as [S0 _]. destruct (text_is (num <? 0) _ (Z.to_nat digits) false S0) as (a & b & r & -> & _ & _ & Fb & _ & _ & L & _). exists (minus (num <? 0) ++ a), b. split; [rewrite <- app_assoc; reflexivity|]. split; [exact Fb|apply L; left; reflexivity].
Qed.

(** ** What is not so *)
(** zero can be written with a sign, which is not canonical *)
Theorem minus_zero_refuted : decimal_to_str (-1) 1000 2 true = lit "-0.0".
Proof. vm_compute. reflexivity. Qed.
(** with no digits after the point the point is left, but not if the value is zero *)
Theorem point_refuted : decimal_to_str 5 1 0 true = lit "5." /\ decimal_to_str 0 1 0 true = lit "0".
Proof. split; vm_compute; reflexivity. Qed.

(** ** Examples *)
Example ex_text : decimal_to_str (-5) 4 3 true = lit "-1.25" /\ decimal_to_str 1 20 1 true = lit "0.1" /\ decimal_to_str 1 2 4 false = lit "0.5000" /\ decimal_from_str (lit "+.50") = Ok (50, 2%nat) /\ decimal_from_str (lit "-12.") = Ok (-12, 0%nat) /\ decimal_from_str (lit ".") = Err ValueError.
Proof. repeat split; vm_compute; reflexivity. Qed.
Example ex_round : round_digits (lit "1234567890123454999") = (lit "1234567890123450000", false) /\ round_digits (lit "12345678901234950") = (lit "12345678901235000", false) /\ round_digits (lit "9999999999999995") = (lit "10000000000000000", true) /\ round_digits (lit "123") = (lit "123", false).
Proof. repeat split; vm_compute; reflexivity. Qed.
Example ex_integer : integer_from_str (lit "-007") = Ok (-7) /\ integer_from_str (lit "+") = Err ValueError /\ integer_from_str (lit "1 ") = Err ValueError /\ integer_to_str (-42) = lit "-42".
Proof. repeat split; vm_compute; reflexivity. Qed.
Print Assumptions boolean_round.
Print Assumptions boolean_exact.
Print Assumptions integer_exact.
Print Assumptions integer_errors.
Print Assumptions integer_round.
Print Assumptions decimal_exact.
Print Assumptions decimal_errors.
Print Assumptions digits_rounded.
Print Assumptions decimal_read.
Print Assumptions decimal_canonical.
Print Assumptions decimal_places.
Print Assumptions minus_zero_refuted.
Print Assumptions point_refuted.
