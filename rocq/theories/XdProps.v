(** Property C137: integers, decimals and booleans of XML Schema. *)
From Coq Require Import Lia String.
From Verif Require Import Py Num UriModel UriRel HttpModel HttpParamMain HttpParamAccept XdModel XdSpec.
Open Scope Z_scope.

(** ** Booleans *)
Theorem boolean_round : forall b, boolean_from_str (boolean_to_str b) = Ok b.
Proof. intros []; vm_compute; reflexivity. Qed.
Theorem boolean_exact : forall s, match boolean_from_str s with Ok b => In s (if b then [lit "true"; lit "1"] else [lit "false"; lit "0"]) | Err e => e = ValueError /\ ~ In s [lit "true"; lit "1"; lit "false"; lit "0"] end.
Proof.
  intros s. unfold boolean_from_str. destruct (str_eqb s (lit "true")) eqn:E1; [apply str_eqb_eq in E1; subst; left; reflexivity|]. destruct (str_eqb s (lit "false")) eqn:E2; [apply str_eqb_eq in E2; subst; left; reflexivity|].
  destruct (str_eqb s (lit "1")) eqn:E3; [apply str_eqb_eq in E3; subst; right; left; reflexivity|]. destruct (str_eqb s (lit "0")) eqn:E4; [apply str_eqb_eq in E4; subst; right; left; reflexivity|]. split; [reflexivity|].
  intros X. assert (Y : forall a, str_eqb s a = false -> a <> s) by (intros a H ->; rewrite str_eqb_refl in H; discriminate). apply Y in E1, E2, E3, E4. cbn [In] in X. tauto.
Qed.

(** ** Integers *)
Lemma signed_cases : forall A s (f : Z -> str -> A), exists sg g r, sign_of sg g /\ s = sg ++ r /\ signed s f = f g r.
Proof.
  intros A [|c r] f; [exists [], 1, []; repeat split; left; auto|]. unfold signed. destruct (Z.eqb_spec c 45) as [->|N]; [exists [45], (-1), r; repeat split; right; right; auto|]. destruct (Z.eqb_spec c 43) as [->|N2]; [exists [43], 1, r; repeat split; right; left; auto|]. exists [], 1, (c :: r). repeat split. left. auto.
Qed.
Lemma signed_is : forall A sg g r (f : Z -> str -> A), sign_of sg g -> (forall c, hd_error r = Some c -> is_sign c = false) -> signed (sg ++ r) f = f g r.
Proof.
  intros A sg g r f [[-> ->]|[[-> ->]|[-> ->]]] H; cbn [app]; [|reflexivity|reflexivity]. destruct r as [|c r]; [reflexivity|]. specialize (H c eq_refl). unfold is_sign in H. apply orb_false_iff in H as [H1 H2]. unfold signed. rewrite H1, H2. reflexivity.
Qed.
Lemma digit_no_sign : forall c, dec_digit c -> is_sign c = false.
Proof. intros c H. unfold dec_digit in H. unfold is_sign. destruct (Z.eqb_spec c 43); [lia|]. destruct (Z.eqb_spec c 45); [lia|reflexivity]. Qed.
Lemma digit_in : forall c, dec_digit c -> (c <? 48) || (57 <? c) = false.
Proof. intros c H. unfold dec_digit in H. destruct (Z.ltb_spec c 48); [lia|]. destruct (Z.ltb_spec 57 c); [lia|reflexivity]. Qed.
Lemma int_scan_digits : forall a s, Forall dec_digit a -> int_scan a s = true.
Proof. induction a as [|c a IH]; intros s F; [reflexivity|]. inversion F; subst. cbn [int_scan]. rewrite digit_no_sign, digit_in by assumption. apply IH. assumption. Qed.
Lemma hd_digit : forall a c, Forall dec_digit a -> hd_error a = Some c -> is_sign c = false.
Proof. intros [|d a] c F H; [discriminate|]. inversion F; subst. inversion H; subst. apply digit_no_sign. assumption. Qed.
(** exactly the integers of XML Schema are read *)
Theorem integer_exact : forall s n, integer_from_str s = Ok n <-> integer_word s n.
Proof.
  intros s n. unfold integer_from_str. split.
  - destruct (int_scan s false); [|discriminate]. unfold py_int. destruct (signed_cases _ s (fun g r => if is_digits r then Ok (g * decimal r) else Err ValueError)) as (sg & g & r & G & -> & ->). destruct (is_digits r) eqn:D; [|discriminate]. intros E. apply is_digits_inv in D as [N F]. exists sg, g, r. repeat split; try assumption. congruence.
  - intros (sg & g & a & G & -> & N & F & ->). assert (X : int_scan (sg ++ a) false = true).
    { destruct G as [[-> ->]|[[-> ->]|[-> ->]]]; [|change (int_scan a true = true)|change (int_scan a true = true)]; apply int_scan_digits; exact F. }
    rewrite X. unfold py_int. rewrite (signed_is _ sg g a _ G (fun c => hd_digit a c F)). rewrite (is_digits_ok a N F). reflexivity.
Qed.
Theorem integer_errors : forall s e, integer_from_str s = Err e -> e = ValueError.
Proof.
  intros s e. unfold integer_from_str. destruct (int_scan s false); [|congruence]. unfold py_int. destruct (signed_cases _ s (fun g r => if is_digits r then Ok (g * decimal r) else Err ValueError)) as (sg & g & r & _ & _ & ->). destruct (is_digits r); congruence.
Qed.
(** what is written is canonical, and read back *)
Theorem integer_round : forall n, integer_from_str (integer_to_str n) = Ok n /\
  exists a, whole_part a /\ (0 <= n /\ integer_to_str n = a \/ n < 0 /\ integer_to_str n = 45 :: a).
Proof.
  intros n. unfold integer_to_str, dec_str. destruct (Z.ltb_spec n 0) as [L|L].
  - destruct (dec_nat_spec (- n)) as (F & D & N & H); [lia|]. split; [|exists (dec_nat (- n)); split; [repeat split; assumption|right; auto]]. apply integer_exact. exists [45], (-1), (dec_nat (- n)). split; [right; right; auto|]. split; [reflexivity|]. split; [exact N|]. split; [exact F|]. rewrite D. lia.
  - destruct (dec_nat_spec n) as (F & D & N & H); [lia|]. split; [|exists (dec_nat n); split; [repeat split; assumption|left; auto]]. apply integer_exact. exists [], 1, (dec_nat n). split; [left; auto|]. split; [reflexivity|]. split; [exact N|]. split; [exact F|]. rewrite D. lia.
Qed.

(** ** Decimals read *)
Lemma digit_no_point : forall a, Forall dec_digit a -> ~ In 46 a.
Proof. intros a F X. rewrite Forall_forall in F. apply F in X. unfold dec_digit in X. lia. Qed.
Lemma split_in : forall c a b, ~ In c a -> split_on c (a ++ c :: b) = a :: split_on c b.
Proof.
  induction a as [|x a IH]; intros b N; cbn [app split_on]; [rewrite Z.eqb_refl; reflexivity|]. destruct (Z.eqb_spec x c) as [->|E]; [exfalso; apply N; left; reflexivity|]. rewrite IH; [reflexivity|]. intros X. apply N. right. exact X.
Qed.
Lemma split_out : forall c a, ~ In c a -> split_on c a = [a].
Proof. induction a as [|x a IH]; intros N; [reflexivity|]. cbn [split_on]. destruct (Z.eqb_spec x c) as [->|E]; [exfalso; apply N; left; reflexivity|]. rewrite IH; [reflexivity|]. intros X. apply N. right. exact X. Qed.
Lemma split_one : forall c s a, split_on c s = [a] -> s = a /\ ~ In c a.
Proof.
  induction s as [|x s IH]; intros a H; cbn [split_on] in H; [inversion H; subst; split; [reflexivity|intros []]|]. destruct (Z.eqb_spec x c) as [->|E]; [destruct s as [|y s]; cbn [split_on] in H; [discriminate|]; destruct (y =? c); [discriminate|]; destruct (split_on c s); discriminate|].
  destruct (split_on c s) as [|w l] eqn:S1; [inversion H; subst; destruct s as [|y s]; cbn [split_on] in S1; [discriminate|]; destruct (y =? c); [discriminate|]; destruct (split_on c s); discriminate|]. inversion H; subst. destruct (IH w eq_refl) as [-> N]. split; [reflexivity|]. intros [X|X]; [congruence|contradiction].
Qed.
Lemma split_two : forall c s a b, split_on c s = [a; b] -> s = a ++ c :: b.
Proof.
  induction s as [|x s IH]; intros a b H; cbn [split_on] in H; [discriminate|]. destruct (Z.eqb_spec x c) as [->|E].
  - inversion H; subst. apply split_one in H2 as [-> _]. reflexivity.
  - destruct (split_on c s) as [|w l] eqn:S1; [discriminate|]. inversion H; subst. cbn [app]. f_equal. apply IH. reflexivity.
Qed.
Lemma dec_scan_digits : forall a t s p d, Forall dec_digit a -> dec_scan (a ++ t) s p d = match a with [] => dec_scan t s p d | _ => dec_scan t true p true end.
Proof.
  induction a as [|c a IH]; intros t s p d F; [reflexivity|]. inversion F; subst. cbn [app dec_scan]. rewrite digit_no_sign, digit_in by assumption. destruct (Z.eqb_spec c 46) as [->|_]; [unfold dec_digit in *; lia|]. rewrite IH by assumption. destruct a; reflexivity.
Qed.
Lemma dec_scan_word : forall a b s, Forall dec_digit a -> Forall dec_digit b -> a ++ b <> [] -> dec_scan (a ++ 46 :: b) s false false = Some true.
Proof.
  intros a b s Fa Fb N. rewrite dec_scan_digits by exact Fa. destruct a as [|c a]; cbn [dec_scan].
  - change (is_sign 46) with false. change (46 =? 46) with true. cbv iota. rewrite <- (app_nil_r b), dec_scan_digits by exact Fb. destruct b; [exfalso; apply N; reflexivity|reflexivity].
  - change (is_sign 46) with false. change (46 =? 46) with true. cbv iota. rewrite <- (app_nil_r b), dec_scan_digits by exact Fb. destruct b; reflexivity.
Qed.
Lemma dec_scan_whole : forall a s, Forall dec_digit a -> a <> [] -> dec_scan a s false false = Some true.
Proof. intros a s F N. rewrite <- (app_nil_r a), dec_scan_digits by exact F. destruct a; [congruence|reflexivity]. Qed.
Definition read_float (g : Z) (r : str) : res (Z * nat) :=
  match split_on 46 r with
  | [a] => if is_digits a then Ok (g * decimal a, 0%nat) else Err ValueError
  | [a; b] => if is_digits (a ++ b) then Ok (g * decimal (a ++ b), List.length b) else Err ValueError
  | _ => Err ValueError
  end.
(** exactly the decimals of XML Schema are read *)
Theorem decimal_exact : forall s n k, decimal_from_str s = Ok (n, k) <-> decimal_word s n k.
Proof.
  intros s n k. unfold decimal_from_str. split.
  - destruct (dec_scan s false false false) as [[]|]; try discriminate. unfold py_float. fold read_float. destruct (signed_cases _ s read_float) as (sg & g & r & G & -> & ->). unfold read_float. destruct (split_on 46 r) as [|a [|b [|c l]]] eqn:E; try discriminate.
    + apply split_one in E as [-> N]. destruct (is_digits a) eqn:D; [|discriminate]. apply is_digits_inv in D as [Na F]. intros X. inversion X; subst. exists sg, g, a, []. rewrite app_nil_r. split; [exact G|]. split; [left; auto|]. auto.
    + apply split_two in E. subst r. destruct (is_digits (a ++ b)) eqn:D; [|discriminate]. apply is_digits_inv in D as [Na F]. intros X. inversion X; subst. exists sg, g, a, b. split; [exact G|]. split; [right; reflexivity|]. auto.
  - intros (sg & g & a & b & G & E & N & F & -> & ->). assert (Fa := proj1 (proj1 (Forall_app _ _ _) F)). assert (Fb := proj2 (proj1 (Forall_app _ _ _) F)). destruct E as [[-> ->]| ->].
    + rewrite app_nil_r in *. assert (X : dec_scan (sg ++ a) false false false = Some true).
      { destruct G as [[-> ->]|[[-> ->]|[-> ->]]]; [|change (dec_scan a true false false = Some true)|change (dec_scan a true false false = Some true)]; apply dec_scan_whole; assumption. }
      rewrite X. unfold py_float. fold read_float. rewrite (signed_is _ sg g a _ G (fun c => hd_digit a c Fa)). unfold read_float. rewrite (split_out 46 a (digit_no_point a Fa)), (is_digits_ok a N Fa). reflexivity.
    + assert (X : dec_scan (sg ++ a ++ 46 :: b) false false false = Some true).
      { destruct G as [[-> ->]|[[-> ->]|[-> ->]]]; [|change (dec_scan (a ++ 46 :: b) true false false = Some true)|change (dec_scan (a ++ 46 :: b) true false false = Some true)]; apply dec_scan_word; assumption. }
      rewrite X. unfold py_float. fold read_float. rewrite (signed_is _ sg g (a ++ 46 :: b) _ G).
      * unfold read_float. rewrite (split_in 46 a b (digit_no_point a Fa)), (split_out 46 b (digit_no_point b Fb)), (is_digits_ok _ N F). reflexivity.
      * intros c H. destruct a as [|x a]; [inversion H; reflexivity|]. apply (hd_digit (x :: a) c Fa). exact H.
Qed.
Theorem decimal_errors : forall s e, decimal_from_str s = Err e -> e = ValueError.
Proof.
  intros s e. unfold decimal_from_str. destruct (dec_scan s false false false) as [[]|]; try congruence. unfold py_float. fold read_float. destruct (signed_cases _ s read_float) as (sg & g & r & _ & _ & ->). unfold read_float. destruct (split_on 46 r) as [|a [|b [|c l]]]; try congruence; destruct (is_digits _); congruence.
Qed.
