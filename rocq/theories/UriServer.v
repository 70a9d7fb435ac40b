(** C14: split_server. *)
From Verif Require Import Py Num Codec UriModel UriSpec UriProofs UriParse UriMain.
#[local] Arguments lit : simpl never.

Lemma find_spec c : forall s, (find_ch c s = -1 /\ ~ In c s) \/
  exists a b, s = a ++ c :: b /\ ~ In c a /\ find_ch c s = Z.of_nat (length a).
Proof.
  induction s as [|x s IH]; cbn [find_ch]; [left; cbn; auto|].
  destruct (x =? c) eqn:E; b2p.
  - subst. right. exists [], s. cbn. auto.
  - destruct IH as [(E1 & N)|(a & b & -> & N & E1)]; rewrite E1.
    + left. split; [reflexivity|]. intros [?|?]; auto.
    + right. exists (x :: a), b. cbn [length app]. psplit; auto.
      * intros [?|?]; auto.
      * destruct (Z.of_nat (length a) <? 0) eqn:E2; b2p; lia.
Qed.
Lemma rfind_spec c : forall s, (rfind_ch c s = -1 /\ ~ In c s) \/
  exists a b, s = a ++ c :: b /\ ~ In c b /\ rfind_ch c s = Z.of_nat (length a).
Proof.
  induction s as [|x s IH]; cbn [rfind_ch]; [left; cbn; auto|].
  destruct IH as [(E1 & N)|(a & b & -> & N & E1)]; rewrite E1.
  - change (0 <=? -1) with false. cbv iota. destruct (x =? c) eqn:E; b2p.
    + subst. right. exists [], s. cbn. auto.
    + left. split; auto. intros [?|?]; auto.
  - right. exists (x :: a), b. cbn [length app]. psplit; auto.
    destruct (0 <=? Z.of_nat (length a)) eqn:E2; b2p; lia.
Qed.
Lemma zslice_head (a b : str) : zslice 0 (Z.of_nat (length a)) (a ++ b) = a.
Proof. unfold zslice, slice. rewrite Nat2Z.id. cbn [Z.to_nat skipn]. rewrite Nat.sub_0_r. apply firstn_len. Qed.
Lemma zslice_mid (a b c : str) i j : i = Z.of_nat (length a) -> j = Z.of_nat (length a + length b) ->
  zslice i j (a ++ b ++ c) = b.
Proof. intros -> ->. unfold zslice. rewrite !Nat2Z.id. apply slice_mid. Qed.
Lemma zslice_tail (a b : str) : zslice (Z.of_nat (length a)) (zlen (a ++ b)) (a ++ b) = b.
Proof.
  unfold zslice, zlen, slice. rewrite !Nat2Z.id, skipn_len, app_length.
  replace (_ + _ - _)%nat with (length b) by lia. apply firstn_all.
Qed.
Lemma digit_forall s : forallb is_digit s = true <-> Forall (fun c => 48 <= c <= 57) s.
Proof.
  rewrite forallb_forall, Forall_forall. split; intros H x Hx; specialize (H x Hx).
  - apply between_range; auto.
  - unfold is_digit, between. apply andb_true_iff. rewrite !Z.leb_le. exact H.
Qed.
Lemma digits_no58 s : Forall (fun c => 48 <= c <= 57) s -> ~ In 58 s.
Proof. intros H X. rewrite Forall_forall in H. specialize (H _ X). lia. Qed.
Lemma last_colon a b c d : a ++ 58 :: b = c ++ 58 :: d -> ~ In 58 b -> ~ In 58 d -> a = c /\ b = d.
Proof.
  revert c. induction a as [|x a IH]; intros [|y c] E Hb Hd; cbn in E; inversion E; subst; auto.
  - exfalso. apply Hb. apply in_or_app. right; left; auto.
  - exfalso. apply Hd. apply in_or_app. right; left; auto.
  - destruct (IH c H1 Hb Hd) as (-> & ->). auto.
Qed.
Lemma first_at a b c d : a ++ 64 :: b = c ++ 64 :: d -> ~ In 64 a -> ~ In 64 c -> a = c /\ b = d.
Proof.
  revert c. induction a as [|x a IH]; intros [|y c] E Ha Hc; cbn in E; inversion E; subst; auto.
  - exfalso. apply Hc. left; auto.
  - exfalso. apply Ha. left; auto.
  - destruct (IH c H1) as (-> & ->); auto; intros X; [apply Ha|apply Hc]; right; auto.
Qed.

Lemma split_sound a : exists ui ho po, split_server (Some a) = (ui, Some ho, po) /\ server_parts a ui ho po.
Proof.
  unfold split_server.
  (* the part after the userinfo *)
  assert (HU : exists ui pre rest, a = pre ++ rest /\
    (if find_ch 64 a <? 0 then None else Some (zslice 0 (find_ch 64 a) a)) = ui /\
    (if find_ch 64 a <? 0 then 0 else find_ch 64 a + 1) = Z.of_nat (length pre) /\
    pre = opt_text [] ui [64] /\ opt_all (fun x => ~ has 64 x) ui /\ (ui = None -> ~ has 64 a) /\
    find_ch 64 a = Z.of_nat (length pre) - 1).
  { destruct (find_spec 64 a) as [(E & N)|(x & y & -> & N & E)]; rewrite E.
    - exists None, [], a. cbn. psplit; auto. inv_some.
    - exists (Some x), (x ++ [64]), y. destruct (Z.of_nat (length x) <? 0) eqn:E2; b2p; [lia|].
      rewrite zslice_head, app_length, <- app_assoc. cbn [length app opt_text]. psplit; auto; try lia; try discriminate.
      inv_some. exact N. }
  destruct HU as (ui & pre & rest & EA & E1 & E2 & E3 & E4 & E5 & E6). rewrite E1, E2.
  (* the last colon *)
  assert (HP : (exists h p, rest = h ++ 58 :: p /\ ~ In 58 p /\
      (if rfind_ch 58 a <? find_ch 64 a then -1 else rfind_ch 58 a) = Z.of_nat (length pre + length h)) \/
    (~ In 58 rest /\ (if rfind_ch 58 a <? find_ch 64 a then -1 else rfind_ch 58 a) = -1)).
  { rewrite E6. destruct (rfind_spec 58 a) as [(E & N)|(x & y & EX & N & E)]; rewrite E.
    - right. split. { rewrite EA in N. intros X. apply N, in_or_app; auto. }
      match goal with |- (if ?b then _ else _) = _ => destruct b; reflexivity end.
    - destruct (Z.of_nat (length x) <? Z.of_nat (length pre) - 1) eqn:Q; b2p.
      + right. split; auto. rewrite EA in EX.
        (* pre is longer than x: the colon is in pre, so rest has none *)
        assert (exists z, pre = x ++ 58 :: z /\ y = z ++ rest) as (z & -> & ->).
        { clear -EX Q. assert (length x < length pre)%nat by lia. clear Q. revert x EX H.
          induction pre as [|w pre IH]; intros x EX H; cbn in *; [lia|].
          destruct x as [|v x]; cbn in *; inversion EX; subst.
          - exists pre. auto.
          - destruct (IH x H2) as (z & -> & ->); [lia|]. exists z. auto. }
        intros X. apply N, in_or_app. auto.
      + left. rewrite EA in EX. assert (L : (length pre <= length x)%nat).
        { destruct ui as [u|].
          - (* pre ends in "@", which is not ":" *)
            cbn [opt_text app] in E3. destruct (Nat.le_gt_cases (length pre) (length x)); auto. exfalso.
            assert (LP : length pre = (length u + 1)%nat) by (rewrite E3, app_length; reflexivity).
            assert (LX : length x = length u) by lia.
            rewrite E3, <- app_assoc in EX. cbn in EX. clear -EX LX. revert u EX LX.
            induction x as [|v x IH]; intros [|w u] EX LX; cbn in *; try lia; inversion EX. eauto.
          - rewrite E3. cbn. lia. }
        assert (exists h, x = pre ++ h /\ rest = h ++ 58 :: y) as (h & -> & ->).
        { clear -EX L. revert x EX L. induction pre as [|w pre IH]; intros x EX L; cbn in *.
          - exists x. auto.
          - destruct x as [|v x]; cbn in *; [lia|]. inversion EX; subst.
            destruct (IH x H1) as (h & -> & ->); [lia|]. exists h. auto. }
        exists h, y. psplit; auto. rewrite app_length. reflexivity. }
  destruct HP as [(h & p & -> & NP & ->)|(NR & ->)].
  - assert (SP : zslice (Z.of_nat (length pre + length h) + 1) (zlen a) a = p).
    { rewrite EA. replace (pre ++ h ++ 58 :: p) with ((pre ++ h ++ [58]) ++ p ++ [])
        by (rewrite app_nil_r, <- !app_assoc; reflexivity).
      apply zslice_mid; unfold zlen; rewrite ?EA, !app_length; cbn; lia. }
    rewrite SP. destruct (-1 <? Z.of_nat (length pre + length h)) eqn:Q; b2p; [|lia]. cbn [andb].
    destruct (forallb is_digit p) eqn:D; cbn [negb].
    + destruct (-1 <? Z.of_nat (length pre + length h)) eqn:Q2; b2p; [|lia].
      assert (SH : zslice (Z.of_nat (length pre)) (Z.of_nat (length pre + length h)) a = h).
      { rewrite EA. apply zslice_mid; auto. }
      rewrite SH. exists ui, h, (Some p). split; auto. apply digit_forall in D. split; auto.
      * rewrite EA, E3. cbn. rewrite app_nil_r. reflexivity.
      * inv_some. exact D.
      * discriminate.
    + change (-1 <? -1) with false. cbv iota.
      assert (SH : zslice (Z.of_nat (length pre)) (zlen a) a = h ++ 58 :: p).
      { rewrite EA. apply zslice_tail. }
      rewrite SH. exists ui, (h ++ 58 :: p), None. split; auto. split; auto.
      * rewrite EA, E3. cbn. rewrite ?app_nil_r. reflexivity.
      * inv_some.
      * intros _ h' p' E D'. apply last_colon in E as (-> & ->); auto using digits_no58.
        apply digit_forall in D'. congruence.
  - change (-1 <? -1) with false. cbn [andb]. change (-1 <? -1) with false. cbv iota.
    assert (SH : zslice (Z.of_nat (length pre)) (zlen a) a = rest).
    { rewrite EA. apply zslice_tail. }
    rewrite SH. exists ui, rest, None. split; auto. split; auto.
    * rewrite EA, E3. cbn. rewrite ?app_nil_r. reflexivity.
    * inv_some.
    * intros _ h' p' ->. exfalso. apply NR, in_or_app. right; left; auto.
Qed.
Lemma server_unique a u1 h1 p1 u2 h2 p2 : server_parts a u1 h1 p1 -> server_parts a u2 h2 p2 ->
  u1 = u2 /\ h1 = h2 /\ p1 = p2.
Proof.
  intros [T1 U1 N1 P1 Q1] [T2 U2 N2 P2 Q2].
  change (lit "@") with [64] in *. change (lit ":") with [58] in *.
  assert (X : u1 = u2 /\ h1 ++ opt_text [58] p1 [] = h2 ++ opt_text [58] p2 []).
  { destruct u1 as [u1|], u2 as [u2|]; cbn [opt_text app] in T1, T2.
    - rewrite T1, <- !app_assoc in T2. cbn in T2. apply first_at in T2 as (-> & E); auto.
    - exfalso. apply (N2 eq_refl). rewrite T1. unfold has. rewrite !in_app_iff. cbn. auto.
    - exfalso. apply (N1 eq_refl). rewrite T2. unfold has. rewrite !in_app_iff. cbn. auto.
    - split; congruence. }
  destruct X as (-> & X). split; auto.
  destruct p1 as [p1|], p2 as [p2|]; cbn in X; rewrite ?app_nil_r in X.
  - apply last_colon in X as (-> & ->); auto; apply digits_no58; auto.
  - exfalso. eapply (Q2 eq_refl); [symmetry; exact X|]. auto.
  - exfalso. eapply (Q1 eq_refl); [exact X|]. auto.
  - auto.
Qed.
Lemma split_server_iff a ui ho po :
  split_server (Some a) = (ui, Some ho, po) <-> server_parts a ui ho po.
Proof.
  destruct (split_sound a) as (u & h & p & E & S). rewrite E. split.
  - intros X. inversion X; subst. exact S.
  - intros S2. destruct (server_unique _ _ _ _ _ _ _ S S2) as (-> & -> & ->). reflexivity.
Qed.
