(** Decimal and hexadecimal numerals: Python's "%i", "%0ni", "%02X", int(s), int(s, 16)
    (standard library, not part of /repo). *)
From Verif Require Import Py.

Definition dec_digit (c : Z) : Prop := 48 <= c <= 57.
Definition is_dec (c : Z) : bool := (48 <=? c) && (c <=? 57).
Lemma is_dec_ok c : is_dec c = true <-> dec_digit c.
Proof. unfold is_dec, dec_digit. rewrite andb_true_iff, !Z.leb_le. tauto. Qed.

(** the number written by a string of decimal digits *)
Fixpoint decimal (s : str) : Z :=
  match s with [] => 0 | c :: s' => (c - 48) * 10 ^ Z.of_nat (length s') + decimal s' end.

(** "%i" % n for n >= 0 *)
Fixpoint dec_go (fuel : nat) (n : Z) (acc : str) : str :=
  match fuel with
  | O => acc
  | S f => let acc' := (48 + n mod 10) :: acc in
           if n <? 10 then acc' else dec_go f (n / 10) acc'
  end.
Definition dec_nat (n : Z) : str := dec_go (S (Z.to_nat n)) n [].
(** "%i" % n *)
Definition dec_str (n : Z) : str := if n <? 0 then 45 :: dec_nat (- n) else dec_nat n.
(** "%0wi" % n for n >= 0 *)
Definition pad (w : nat) (s : str) : str := repeat 48 (w - length s) ++ s.
Definition dec_pad (w : nat) (n : Z) : str := pad w (dec_nat n).

Lemma decimal_app a b : decimal (a ++ b) = decimal a * 10 ^ Z.of_nat (length b) + decimal b.
Proof.
  induction a as [|c a IH]; [cbn [app decimal]; lia|].
  cbn [app decimal]. rewrite IH, app_length, Nat2Z.inj_add, Z.pow_add_r by lia. ring.
Qed.
Lemma decimal_nonneg s : Forall dec_digit s -> 0 <= decimal s.
Proof.
  induction 1; cbn [decimal]; [lia|]. unfold dec_digit in H.
  pose proof (Z.pow_nonneg 10 (Z.of_nat (length l))). nia.
Qed.
Lemma decimal_bound s : Forall dec_digit s -> decimal s < 10 ^ Z.of_nat (length s).
Proof.
  induction 1; cbn [decimal length]; [cbn; lia|]. unfold dec_digit in H.
  rewrite Nat2Z.inj_succ, Z.pow_succ_r by lia.
  pose proof (Z.pow_pos_nonneg 10 (Z.of_nat (length l))). nia.
Qed.

Lemma dec_go_spec : forall fuel n acc, 0 <= n -> Z.of_nat fuel > n ->
  exists d, dec_go fuel n acc = d ++ acc /\ Forall dec_digit d /\ decimal d = n /\ d <> [] /\
    (hd 0 d = 48 -> d = [48]).
Proof.
  induction fuel as [|f IH]; intros n acc Hn Hf; [lia|]. cbn [dec_go].
  assert (Hm : dec_digit (48 + n mod 10)) by (unfold dec_digit; pose proof (Z.mod_pos_bound n 10); lia).
  destruct (n <? 10) eqn:E; b2p.
  - exists [48 + n mod 10]. rewrite Z.mod_small in * by lia. psplit; try discriminate; auto.
    + cbn [decimal length]. change (10 ^ Z.of_nat 0) with 1. lia.
    + cbn [hd]. intros H. rewrite H. reflexivity.
  - assert (Hd : 1 <= n / 10 < n) by (split; [apply Z.div_le_lower_bound; lia | apply Z.div_lt; lia]).
    destruct (IH (n / 10) ((48 + n mod 10) :: acc)) as (d & H1 & H2 & H3 & H4 & H5); try lia.
    exists (d ++ [48 + n mod 10]). psplit.
    + rewrite H1, <- app_assoc. reflexivity.
    + apply Forall_app. split; auto.
    + rewrite decimal_app, H3. cbn [length decimal]. change (10 ^ Z.of_nat 1) with 10.
      change (10 ^ Z.of_nat 0) with 1.
      pose proof (Z.div_mod n 10). lia.
    + destruct d; discriminate.
    + destruct d as [|c d]; [congruence|]. cbn in *. intros ->.
      specialize (H5 eq_refl). inversion H5; subst. cbn in H3. lia.
Qed.

Lemma dec_nat_spec n : 0 <= n -> Forall dec_digit (dec_nat n) /\ decimal (dec_nat n) = n /\
  dec_nat n <> [] /\ (hd 0 (dec_nat n) = 48 -> dec_nat n = [48]).
Proof.
  intros H. destruct (dec_go_spec (S (Z.to_nat n)) n []) as (d & H1 & H2 & H3 & H4 & H5); try lia.
  unfold dec_nat. rewrite H1, app_nil_r. auto.
Qed.

Lemma decimal_repeat0 k s : decimal (repeat 48 k ++ s) = decimal s.
Proof. induction k; cbn [repeat app decimal]; [reflexivity|]. rewrite IHk. lia. Qed.
Lemma dec_pad_spec w n : 0 <= n -> Forall dec_digit (dec_pad w n) /\ decimal (dec_pad w n) = n /\
  (w <= length (dec_pad w n))%nat /\ dec_pad w n <> [].
Proof.
  intros H. destruct (dec_nat_spec n H) as (H1 & H2 & H3 & _). unfold dec_pad, pad.
  psplit.
  - apply Forall_app. split; auto. apply Forall_forall. intros x Hx. apply repeat_spec in Hx.
    subst. unfold dec_digit. lia.
  - rewrite decimal_repeat0. exact H2.
  - rewrite app_length, repeat_length. lia.
  - destruct (dec_nat n); [congruence|]. destruct (repeat 48 (w - length (z :: s))); discriminate.
Qed.
(** two digit strings of the same length with the same value are the same *)
Lemma decimal_inj : forall a b, Forall dec_digit a -> Forall dec_digit b -> length a = length b ->
  decimal a = decimal b -> a = b.
Proof.
  induction a as [|x a IH]; destruct b as [|y b]; cbn [length decimal]; intros Ha Hb L E; try discriminate; auto.
  inversion Ha; inversion Hb; subst. injection L as L.
  pose proof (decimal_nonneg a H2). pose proof (decimal_nonneg b H6).
  pose proof (decimal_bound a H2). pose proof (decimal_bound b H6). unfold dec_digit in *.
  rewrite <- L in *. assert (x = y) by nia. subst. f_equal. apply IH; auto. lia.
Qed.
Lemma dec_nat_length w n : 0 <= n < 10 ^ Z.of_nat w -> (0 < w)%nat -> (length (dec_nat n) <= w)%nat.
Proof.
  intros H Hw. destruct (dec_nat_spec n) as (H1 & H2 & H3 & H4); [lia|].
  destruct (dec_nat n) as [|c d] eqn:E; [congruence|]. cbn [hd] in H4.
  destruct (Z.eq_dec c 48) as [->|Hc].
  - specialize (H4 eq_refl). rewrite H4. cbn. lia.
  - cbn [decimal] in H2. inversion H1; subst. pose proof (decimal_nonneg d H7). unfold dec_digit in H6.
    destruct (Nat.le_gt_cases (length (c :: d)) w); auto.
    cbn [length] in H2. exfalso.
    assert (10 ^ Z.of_nat w <= 10 ^ Z.of_nat (length d)) by (apply Z.pow_le_mono_r; lia).
    pose proof (Z.pow_pos_nonneg 10 (Z.of_nat (length d))). nia.
Qed.
Lemma dec_pad_length w n : 0 <= n < 10 ^ Z.of_nat w -> (0 < w)%nat -> length (dec_pad w n) = w.
Proof.
  intros H Hw. unfold dec_pad, pad. rewrite app_length, repeat_length.
  pose proof (dec_nat_length w n H Hw). lia.
Qed.

(** "%X" digits *)
Definition hexd (v : Z) : Z := if v <? 10 then 48 + v else 55 + v.
(** "%02X" % v for 0 <= v <= 255 *)
Definition hex2 (v : Z) : str := [hexd (v / 16); hexd (v mod 16)].
Definition is_hexd (c : Z) : bool :=
  ((48 <=? c) && (c <=? 57)) || ((97 <=? c) && (c <=? 102)) || ((65 <=? c) && (c <=? 70)).
Definition hexv (c : Z) : Z := if c <=? 57 then c - 48 else if c <=? 70 then c - 55 else c - 87.
Lemma hexd_ok v : 0 <= v < 16 -> is_hexd (hexd v) = true /\ hexv (hexd v) = v /\ ~ (97 <= hexd v <= 102).
Proof.
  intros H. assert (D : v = 0 \/ v = 1 \/ v = 2 \/ v = 3 \/ v = 4 \/ v = 5 \/ v = 6 \/ v = 7 \/ v = 8
    \/ v = 9 \/ v = 10 \/ v = 11 \/ v = 12 \/ v = 13 \/ v = 14 \/ v = 15) by lia.
  repeat (destruct D as [-> | D]; [cbn; psplit; auto; lia|]). subst; cbn; psplit; auto; lia.
Qed.
Lemma hexv_range c : is_hexd c = true -> 0 <= hexv c < 16.
Proof.
  unfold is_hexd, hexv. intros H. rewrite !orb_true_iff, !andb_true_iff, !Z.leb_le in H.
  repeat destr; b2p; lia.
Qed.
