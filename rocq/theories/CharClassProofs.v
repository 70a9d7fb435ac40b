(** Lemmas about CharClassModel: range-list level. *)
From Verif Require Import Py CharClassModel.
Local Open Scope nat_scope.
Local Open Scope Z_scope.

(** ** Well-formed range lists and membership *)
Definition wf_r (r : rng) : Prop := 0 <= rlo r <= rhi r /\ rhi r <= maxunicode.
Definition gap (x y : rng) : Prop := rhi x + 1 < rlo y.
Fixpoint wf (l : ranges) : Prop :=
  match l with
  | [] => True
  | r :: t => wf_r r /\ Forall (gap r) t /\ wf t
  end.
Definition inr_ (r : rng) (c : Z) : Prop := rlo r <= c <= rhi r.
Definition mem (l : ranges) (c : Z) : Prop := exists r, In r l /\ inr_ r c.

Lemma mem_nil c : mem [] c <-> False.
Proof. split; [intros (r & [] & _) | tauto]. Qed.
Lemma mem_cons r l c : mem (r :: l) c <-> inr_ r c \/ mem l c.
Proof.
  split.
  - intros (x & [->|H] & Hx); [left; auto | right; exists x; auto].
  - intros [H | (x & H & Hx)]; [exists r; cbn; auto | exists x; cbn; auto].
Qed.
Lemma mem_app l1 l2 c : mem (l1 ++ l2) c <-> mem l1 c \/ mem l2 c.
Proof.
  induction l1 as [|r l1 IH]; cbn [app].
  - rewrite mem_nil. tauto.
  - rewrite !mem_cons, IH. tauto.
Qed.

Lemma wf_app l1 l2 :
  wf (l1 ++ l2) <-> wf l1 /\ wf l2 /\ (forall x y, In x l1 -> In y l2 -> gap x y).
Proof.
  induction l1 as [|r l1 IH]; cbn [app wf].
  - split; [intros H; psplit; auto; intros x y [] | tauto].
  - rewrite IH, Forall_app, !Forall_forall. split.
    + intros (Hr & (Hg1 & Hg2) & Hw1 & Hw2 & Hg). psplit; auto.
      intros x y [<-|Hx] Hy; auto.
    + intros ((Hr & Hg1 & Hw1) & Hw2 & Hg). psplit; auto.
      * intros x Hx. apply Hg; cbn; auto.
      * intros x y Hx Hy. apply Hg; cbn; auto.
Qed.

Lemma wf_In l r : wf l -> In r l -> wf_r r.
Proof.
  induction l as [|x l IH]; cbn; [tauto|]. intros (H1 & H2 & H3) [<-|H]; auto.
Qed.
Lemma wf_Forall l : wf l -> Forall wf_r l.
Proof. intros H. apply Forall_forall. intros r. apply wf_In. exact H. Qed.

Lemma mem_char l c : wf l -> mem l c -> is_char c.
Proof.
  intros H (r & Hr & Hc). apply (wf_In _ _ H) in Hr. unfold wf_r, inr_, is_char in *. lia.
Qed.

Definition below (a : Z) (l : ranges) : Prop := Forall (fun r => rhi r < a) l.
Definition above (z : Z) (l : ranges) : Prop := Forall (fun r => z < rlo r) l.

Lemma below_not_mem a l c : below a l -> a <= c -> ~ mem l c.
Proof.
  intros H Hc (r & Hr & Hi). unfold below in H. rewrite Forall_forall in H.
  apply H in Hr. unfold inr_ in Hi. lia.
Qed.
Lemma above_not_mem z l c : above z l -> c <= z -> ~ mem l c.
Proof.
  intros H Hc (r & Hr & Hi). unfold above in H. rewrite Forall_forall in H.
  apply H in Hr. unfold inr_ in Hi. lia.
Qed.

Lemma wf_nth_gap l i j x y :
  wf l -> (i < j)%nat -> nth_error l i = Some x -> nth_error l j = Some y -> gap x y.
Proof.
  revert i j. induction l as [|r l IH]; intros i j Hw Hij Hx Hy.
  - destruct i; discriminate.
  - destruct Hw as (Hr & Hg & Hw). destruct j as [|j]; [lia|]. cbn in Hy.
    destruct i as [|i]; cbn in Hx.
    + inversion Hx; subst. rewrite Forall_forall in Hg. apply Hg.
      eapply nth_error_In; eauto.
    + apply (IH i j); auto; lia.
Qed.

(** ** Bisection *)
Lemma bisect_spec l c : wf l -> forall fuel rmin rmax,
  (rmin <= rmax)%nat -> (rmax < length l)%nat -> (rmax - rmin < fuel)%nat ->
  exists b i, bisect fuel l c rmin rmax = Ok (b, i) /\
    (rmin <= i <= S rmax)%nat /\
    (forall j r, (rmin <= j < i)%nat -> nth_error l j = Some r -> rhi r < c) /\
    (if b then (i <= rmax)%nat /\ exists r, nth_error l i = Some r /\ inr_ r c
     else forall j r, (i <= j <= rmax)%nat -> nth_error l j = Some r -> c < rlo r).
Proof.
  intros Hw. induction fuel as [|fuel IH]; intros rmin rmax H1 H2 H3; [lia|].
  cbn [bisect]. destruct (rmin =? rmax)%nat eqn:E; b2p.
  - subst rmax. unfold get.
    destruct (nth_error l rmin) as [r|] eqn:Er.
    2:{ apply nth_error_None in Er. lia. }
    cbn [rbind]. destruct (rhi r <? c) eqn:E1; b2p.
    + exists false, (S rmin). split; [reflexivity|]. split; [lia|]. split.
      * intros j r' Hj Hn. assert (j = rmin) by lia. subst. congruence.
      * intros j r' Hj. lia.
    + destruct (c <? rlo r) eqn:E2; b2p.
      * exists false, rmin. split; [reflexivity|]. split; [lia|]. split.
        -- intros; lia.
        -- intros j r' Hj Hn. assert (j = rmin) by lia. subst. congruence.
      * exists true, rmin. split; [reflexivity|]. split; [lia|]. split.
        -- intros; lia.
        -- split; [lia|]. exists r. split; auto. unfold inr_. lia.
  - set (rtry := ((rmin + rmax) / 2)%nat).
    assert (Hd : (rmin <= rtry < rmax)%nat).
    { unfold rtry. split.
      - apply Nat.div_le_lower_bound; lia.
      - apply Nat.div_lt_upper_bound; lia. }
    unfold get. destruct (nth_error l rtry) as [r|] eqn:Er.
    2:{ apply nth_error_None in Er. lia. }
    cbn [rbind]. destruct (c <=? rhi r) eqn:E1; b2p.
    + destruct (IH rmin rtry ltac:(lia) ltac:(lia) ltac:(lia))
        as (b & i & Hb & Hi & Hlt & Hm).
      exists b, i. split; [exact Hb|]. split; [lia|]. split; [exact Hlt|].
      destruct b.
      * destruct Hm as [Hm1 Hm2]. split; [lia|exact Hm2].
      * intros j r' Hj Hn. destruct (le_gt_dec j rtry) as [Hle|Hgt].
        -- apply (Hm j r'); [lia|exact Hn].
        -- pose proof (wf_nth_gap l rtry j r r' Hw ltac:(lia) Er Hn) as G.
           unfold gap in G. lia.
    + destruct (IH (S rtry) rmax ltac:(lia) ltac:(lia) ltac:(lia))
        as (b & i & Hb & Hi & Hlt & Hm).
      exists b, i. split; [exact Hb|]. split; [lia|]. split.
      * intros j r' Hj Hn. destruct (le_gt_dec j rtry) as [Hle|Hgt].
        -- destruct (Nat.eq_dec j rtry) as [->|Hne].
           ++ congruence.
           ++ pose proof (wf_nth_gap l j rtry r' r Hw ltac:(lia) Hn Er) as G.
              assert (wf_r r) as Wr by (eapply wf_In; eauto; eapply nth_error_In; eauto).
              unfold gap, wf_r in *. lia.
        -- apply (Hlt j r'); [lia|exact Hn].
      * destruct b; [destruct Hm; split; [lia|auto] | intros j r' Hj; apply Hm; lia].
Qed.

Lemma search_spec l c : wf l -> l <> [] ->
  exists b p s, search l c = Ok (b, length p) /\ l = p ++ s /\ below c p /\
    (if b then exists r t, s = r :: t /\ inr_ r c else above c s).
Proof.
  intros Hw Hne. unfold search.
  assert (length l <> 0)%nat by (destruct l; [congruence|cbn; lia]).
  destruct (bisect_spec l c Hw (S (length l)) 0 (length l - 1)
              ltac:(lia) ltac:(lia) ltac:(lia)) as (b & i & Hb & Hi & Hlt & Hm).
  exists b, (firstn i l), (skipn i l).
  assert (Hlen : length (firstn i l) = i) by (rewrite firstn_length; lia).
  split; [rewrite Hlen; exact Hb|]. split; [symmetry; apply firstn_skipn|]. split.
  - unfold below. apply Forall_forall. intros x Hx.
    apply In_nth_error in Hx as (j & Hj).
    assert (j < i)%nat by (rewrite <- Hlen; apply nth_error_Some; congruence).
    apply (Hlt j x); [lia|]. rewrite <- Hj.
    rewrite <- (firstn_skipn i l) at 1. apply nth_error_app1. lia.
  - assert (Hsk : forall k, nth_error (skipn i l) k = nth_error l (i + k)).
    { intros k. rewrite <- (firstn_skipn i l) at 2. rewrite nth_error_app2; [|lia].
      f_equal. lia. }
    destruct b.
    + destruct Hm as (Hm1 & r & Hr & Hc).
      pose proof (Hsk 0%nat) as H0. rewrite Nat.add_0_r, Hr in H0.
      destruct (skipn i l) as [|r' t]; [discriminate|]. cbn in H0. inversion H0; subst.
      exists r, t. auto.
    + unfold above. apply Forall_forall. intros x Hx.
      apply In_nth_error in Hx as (k & Hk).
      assert (i + k < length l)%nat.
      { apply nth_error_Some. rewrite <- Hsk. congruence. }
      apply (Hm (i + k)%nat x); [lia|]. rewrite <- Hsk. exact Hk.
Qed.

Definition two_case (ma mz : bool) (a z : Z) (p m s : ranges) (iz : nat) : Prop :=
  if ma then
    if mz then
      (exists r, m = [r] /\ inr_ r a /\ inr_ r z /\ iz = length p) \/
      (exists r1 m' r2, m = r1 :: m' ++ [r2] /\ inr_ r1 a /\ inr_ r2 z /\
                        iz = S (length p + length m'))
    else exists r1 m', m = r1 :: m' /\ inr_ r1 a /\ below z m /\
                       iz = (length p + length m)%nat
  else if mz then
    exists m' r2, m = m' ++ [r2] /\ inr_ r2 z /\ above a m /\ iz = (length p + length m')%nat
  else above a m /\ below z m /\ iz = (length p + length m)%nat.

Lemma search2 l a z : wf l -> l <> [] -> a <= z ->
  exists ma mz p m s iz,
    search l a = Ok (ma, length p) /\ search l z = Ok (mz, iz) /\
    l = p ++ m ++ s /\ below a p /\ above z s /\ two_case ma mz a z p m s iz.
Proof.
  intros Hw Hne Haz.
  destruct (search_spec l a Hw Hne) as (ma & p1 & s1 & Ha & Hl1 & Hp1 & Hs1).
  destruct (search_spec l z Hw Hne) as (mz & p2 & s2 & Hz & Hl2 & Hp2 & Hs2).
  assert (Hm : exists m, p2 = p1 ++ m /\ s1 = m ++ s2).
  { destruct (le_gt_dec (length p1) (length p2)) as [Hle|Hgt].
    - rewrite Hl1 in Hl2. apply app_eq_app in Hl2 as (m & [[E1 E2]|[E1 E2]]).
      + assert (m = []) by (subst p1; rewrite app_length in Hle; destruct m; auto; cbn in Hle; lia).
        subst m. exists []. rewrite app_nil_r in *. cbn in *. subst. rewrite ?app_nil_r. auto.
      + exists m. auto.
    - exfalso. rewrite Hl1 in Hl2. apply app_eq_app in Hl2 as (m & [[E1 E2]|[E1 E2]]).
      2:{ subst p2. rewrite app_length in Hgt. lia. }
      destruct m as [|x m]; [rewrite app_nil_r in E1; subst; lia|].
      assert (wf_r x) as Wx.
      { eapply wf_In; [exact Hw|]. rewrite Hl1, E1. rewrite !in_app_iff. cbn. auto. }
      subst p1. apply Forall_app in Hp1 as [_ Hp1].
      inversion Hp1 as [|? ? Hx1 Hx2]; subst. unfold wf_r in *.
      destruct mz.
      + destruct Hs2 as (r & t & Hr & Hi). cbn in Hr.
        inversion Hr; subst. unfold inr_ in Hi. lia.
      + apply Forall_app in Hs2 as [Hs2 _]. inversion Hs2; subst. lia. }
  destruct Hm as (m & -> & ->).
  apply Forall_app in Hp2 as [Hp2a Hp2b].
  assert (Hbm : Forall wf_r m).
  { apply Forall_forall. intros x Hx. eapply wf_In; [exact Hw|]. rewrite Hl1, !in_app_iff. auto. }
  destruct ma.
  - destruct Hs1 as (r & t & Hr & Hi).
    destruct m as [|r1 m'].
    + cbn in Hr. subst s2. destruct mz.
      * destruct Hs2 as (r' & t' & E & Hz'). inversion E; subst r' t'.
        exists true, true, p1, [r], t, (length (p1 ++ [])).
        psplit; auto.
        -- unfold above. apply Forall_forall. intros x Hx.
           rewrite Hl1 in Hw. cbn in Hw. apply wf_app in Hw as (_ & Hw & _).
           cbn in Hw. destruct Hw as (_ & Hg & _). rewrite Forall_forall in Hg.
           specialize (Hg x Hx). unfold gap, inr_ in *. lia.
        -- left. exists r. rewrite app_nil_r. auto.
      * exfalso. inversion Hs2; subst. unfold inr_ in Hi. lia.
    + cbn in Hr. inversion Hr; subst r1 t.
      destruct mz.
      * destruct Hs2 as (r2 & t2 & -> & Hz2).
        exists true, true, p1, (r :: m' ++ [r2]), t2, (length (p1 ++ r :: m')).
        psplit; auto.
        -- rewrite Hl1. cbn. rewrite <- app_assoc. reflexivity.
        -- apply Forall_forall. intros x Hx.
           rewrite Hl2 in Hw. apply wf_app in Hw as (_ & Hw & _).
           cbn in Hw. destruct Hw as (_ & Hg & _). rewrite Forall_forall in Hg.
           specialize (Hg x Hx). unfold gap, inr_ in *. lia.
        -- right. exists r, m', r2. psplit; auto; try apply Hz2.
           rewrite app_length. cbn. lia.
      * exists true, false, p1, (r :: m'), s2, (length (p1 ++ r :: m')).
        psplit; auto.
        exists r, m'. psplit; auto; try apply Hi. rewrite app_length. reflexivity.
  - apply Forall_app in Hs1 as [Hs1a Hs1b]. destruct mz.
    + destruct Hs2 as (r2 & t2 & -> & Hz2).
      exists false, true, p1, (m ++ [r2]), t2, (length (p1 ++ m)).
      psplit; auto.
      * rewrite Hl1. rewrite <- app_assoc. reflexivity.
      * apply Forall_forall. intros x Hx.
        rewrite Hl2 in Hw. apply wf_app in Hw as (_ & Hw & _).
        cbn in Hw. destruct Hw as (_ & Hg & _). rewrite Forall_forall in Hg.
        specialize (Hg x Hx). unfold gap, inr_ in *. lia.
      * unfold two_case. exists m, r2. psplit; auto; try apply Hz2.
        -- apply Forall_app. split; [exact Hs1a|]. inversion Hs1b; subst. auto.
        -- rewrite app_length. reflexivity.
    + exists false, false, p1, m, s2, (length (p1 ++ m)).
      psplit; auto. unfold two_case. psplit; auto. apply app_length.
Qed.

(** ** Slices *)
Lemma slice_assign_mid {A} (p m s v : list A) i j :
  i = length p -> j = (length p + length m)%nat ->
  slice_assign i j v (p ++ m ++ s) = p ++ v ++ s.
Proof.
  intros -> ->. unfold slice_assign.
  rewrite firstn_app, Nat.sub_diag, firstn_all, firstn_O, app_nil_r. f_equal. f_equal.
  rewrite Nat.max_r by lia. rewrite app_assoc, skipn_app.
  replace (length p + length m)%nat with (length (p ++ m)) by (rewrite app_length; reflexivity).
  rewrite skipn_all, Nat.sub_diag. reflexivity.
Qed.

Lemma get_mid {A} (p s : list A) x i : i = length p -> get (p ++ x :: s) i = Ok x.
Proof.
  intros ->. unfold get. rewrite nth_error_app2 by lia. rewrite Nat.sub_diag. reflexivity.
Qed.

Lemma set_nth_mid {A} (p s : list A) x v i :
  i = length p -> set_nth (p ++ x :: s) i v = p ++ v :: s.
Proof.
  intros ->. induction p as [|y p IH]; cbn; [reflexivity | rewrite IH; reflexivity].
Qed.

(** ** Cell identities *)
Definition tagok (n : nat) (l : ranges) : Prop :=
  NoDup (map rid l) /\ Forall (fun r => (rid r < n)%nat) l.

Lemma NoDup_app_r {A} (m s : list A) : NoDup (m ++ s) -> NoDup s.
Proof. induction m; cbn; auto. intros H. inversion H; auto. Qed.

Lemma NoDup_mid {A} (p m s : list A) : NoDup (p ++ m ++ s) -> NoDup (p ++ s).
Proof.
  intros H. revert H. induction p as [|x p IH]; cbn.
  - apply NoDup_app_r.
  - intros H. inversion H as [|? ? Hn Hd]; subst. constructor; auto.
    rewrite !in_app_iff in *. tauto.
Qed.

Lemma tagok_drop n p m s : tagok n (p ++ m ++ s) -> tagok n (p ++ s).
Proof.
  intros [H1 H2]. split.
  - rewrite !map_app in *. eapply NoDup_mid; eauto.
  - rewrite !Forall_app in *. tauto.
Qed.

Lemma tagok_ins n p s r : tagok n (p ++ s) -> rid r = n -> tagok (S n) (p ++ r :: s).
Proof.
  intros [H1 H2] Hr. split.
  - rewrite map_app in *. cbn [map]. rewrite Hr. apply NoDup_Add with (a := n) (l := map rid p ++ map rid s).
    + apply Add_app.
    + split; [exact H1|]. intros Hin. rewrite <- map_app in Hin.
      apply in_map_iff in Hin as (x & Hx & Hi). rewrite Forall_forall in H2.
      apply H2 in Hi. lia.
  - rewrite Forall_app in *. destruct H2 as [H2 H3]. split.
    + eapply Forall_impl; [|exact H2]. cbn. lia.
    + constructor; [lia|]. eapply Forall_impl; [|exact H3]. cbn. lia.
Qed.

Lemma tagok_repl n p m s r : tagok n (p ++ m ++ s) -> rid r = n -> tagok (S n) (p ++ [r] ++ s).
Proof. intros H Hr. apply tagok_ins; auto. eapply tagok_drop; eauto. Qed.

Lemma tagok_same n l l' : map rid l = map rid l' -> tagok n l -> tagok n l'.
Proof.
  intros E [H1 H2]. split; [congruence|].
  apply Forall_forall. intros x Hx. apply (in_map rid) in Hx. rewrite <- E in Hx.
  apply in_map_iff in Hx as (y & Hy & Hi). rewrite Forall_forall in H2.
  rewrite <- Hy. apply H2; auto.
Qed.

Lemma tagok_mono n n' l : (n <= n')%nat -> tagok n l -> tagok n' l.
Proof. intros H [H1 H2]. split; auto. eapply Forall_impl; [|exact H2]. cbn. lia. Qed.

(** ** Merge *)
Definition cells_kept (n : nat) (l : ranges) (n' : nat) (l' : ranges) : Prop :=
  (n <= n')%nat /\ (forall r, In r l' -> In r l \/ (n <= rid r < n')%nat).


Definition left_part (p : ranges) (r : rng) (p1 dl : ranges) (lo : Z) : Prop :=
  p = p1 ++ dl /\
  ((dl = [] /\ lo = rlo r /\ forall x, In x p1 -> gap x r) \/
   (exists x, dl = [x] /\ lo = rlo x /\ rlo r - 1 = rhi x)).
Definition right_part (r : rng) (s dr s1 : ranges) (hi : Z) : Prop :=
  s = dr ++ s1 /\
  ((dr = [] /\ hi = rhi r /\ forall x, In x s1 -> gap r x) \/
   (exists x, dr = [x] /\ hi = rhi x /\ rlo x = rhi r + 1)).

Lemma left_part_spec p r s : wf p -> below (rlo r) p -> exists p1 dl lo,
  left_part p r p1 dl lo /\
  (if (0 <? length p)%nat then
     let! q := get (p ++ r :: s) (length p - 1) in
     if rlo r - 1 <=? rhi q then Ok (length p - 1)%nat else Ok (length p)
   else Ok (length p)) = Ok (length p1).
Proof.
  intros Hw Hb. destruct p as [|y p0] using rev_ind.
  - exists [], [], (rlo r). split; [|reflexivity]. split; [reflexivity|]. left. cbn. tauto.
  - clear IHp0. replace (0 <? length (p0 ++ [y]))%nat with true
      by (symmetry; apply Nat.ltb_lt; rewrite app_length; cbn; lia).
    replace (length (p0 ++ [y]) - 1)%nat with (length p0) by (rewrite app_length; cbn; lia).
    rewrite <- app_assoc. cbn [app].
    rewrite get_mid by reflexivity. cbn [rbind].
    apply Forall_app in Hb as [Hb1 Hb2]. inversion Hb2 as [|? ? Hy _]; subst.
    apply wf_app in Hw as (Hw1 & (Hy1 & _) & G).
    destruct (rlo r - 1 <=? rhi y) eqn:E; b2p.
    + exists p0, [y], (rlo y). split; [|reflexivity]. split; [reflexivity|].
      right. exists y. psplit; auto. lia.
    + exists (p0 ++ [y]), [], (rlo r). split; [|reflexivity]. split; [rewrite app_nil_r; reflexivity|].
      left. psplit; auto. intros x Hx. apply in_app_iff in Hx as [Hx|[<-|[]]].
      * specialize (G x y Hx (or_introl eq_refl)). unfold gap, wf_r in *. lia.
      * unfold gap. lia.
Qed.

Lemma right_part_spec p r s : wf s -> above (rhi r) s -> exists dr s1 hi,
  right_part r s dr s1 hi /\
  (if (length p <? length (p ++ r :: s) - 1)%nat then
     let! q := get (p ++ r :: s) (S (length p)) in
     if rlo q <=? rhi r + 1 then Ok (S (length p)) else Ok (length p)
   else Ok (length p)) = Ok (length p + length dr)%nat.
Proof.
  intros Hw Hb. destruct s as [|y s0].
  - exists [], [], (rhi r). split; [split; [reflexivity|left; cbn; tauto]|].
    rewrite app_length. cbn [length]. rewrite Nat.add_0_r, Nat.add_sub, Nat.ltb_irrefl. reflexivity.
  - replace (length p <? length (p ++ r :: y :: s0) - 1)%nat with true
      by (symmetry; apply Nat.ltb_lt; rewrite app_length; cbn; lia).
    replace (p ++ r :: y :: s0) with ((p ++ [r]) ++ y :: s0) by (rewrite <- app_assoc; reflexivity).
    rewrite get_mid by (rewrite app_length; cbn; lia). cbn [rbind].
    inversion Hb as [|? ? Hy _]; subst. destruct Hw as (Hy1 & Hg & Hw).
    destruct (rlo y <=? rhi r + 1) eqn:E; b2p.
    + exists [y], s0, (rhi y). split; [|f_equal; cbn; lia]. split; [reflexivity|].
      right. exists y. psplit; auto. lia.
    + exists [], (y :: s0), (rhi r). split; [|f_equal; cbn; lia]. split; [reflexivity|].
      left. psplit; auto. intros x [<-|Hx]; [unfold gap; lia|].
      rewrite Forall_forall in Hg. specialize (Hg x Hx). unfold gap, wf_r in *. lia.
Qed.

Lemma wf_cons_join p r s :
  wf p -> wf s -> wf_r r -> (forall x, In x p -> gap x r) -> (forall x, In x s -> gap r x) ->
  wf (p ++ r :: s).
Proof.
  intros Hp Hs Hr G1 G2. apply wf_app. cbn [wf]. psplit; auto.
  - apply Forall_forall. auto.
  - intros x y Hx [<-|Hy]; auto. specialize (G1 x Hx). specialize (G2 y Hy).
    unfold gap, wf_r in *. lia.
Qed.

Lemma merge_spec n p r s :
  wf (p ++ s) -> wf_r r -> below (rlo r) p -> above (rhi r) s -> tagok n (p ++ r :: s) ->
  exists n' l', merge n (p ++ r :: s) (length p) = Ok (n', l') /\ wf l' /\
    (forall c, mem l' c <-> mem (p ++ r :: s) c) /\ tagok n' l' /\
    cells_kept n (p ++ r :: s) n' l'.
Proof.
  intros Hw Hr Hp Hs Ht. unfold merge.
  rewrite get_mid by reflexivity. cbn [rbind].
  apply wf_app in Hw as (Hwp & Hws & G).
  destruct (left_part_spec p r s Hwp Hp) as (p1 & dl & lo & (Ep & HL) & ->).
  destruct (right_part_spec p r s Hws Hs) as (dr & s1 & hi & (Es & HR) & ->).
  cbn [rbind].
  assert (El : length p = (length p1 + length dl)%nat) by (rewrite Ep; apply app_length).
  destruct (length p1 =? length p + length dr)%nat eqn:E; b2p.
  - assert (dl = [] /\ dr = []) as [-> ->].
    { destruct dl, dr; cbn in *; auto; lia. }
    rewrite app_nil_r in Ep. cbn in Es. subst p1 s1.
    exists n, (p ++ r :: s). split; [reflexivity|].
    destruct HL as [(_ & _ & HL)|(x & HL & _)]; [|discriminate].
    destruct HR as [(_ & _ & HR)|(x & HR & _)]; [|discriminate].
    split; [apply wf_cons_join; auto|]. split; [tauto|]. split; [exact Ht|].
    split; [lia|auto].
  - assert (Hga : exists ra, get (p ++ r :: s) (length p1) = Ok ra /\ rlo ra = lo).
    { destruct HL as [(-> & Hlo & _)|(x & -> & Hlo & _)].
      - rewrite app_nil_r in Ep. subst p1. exists r. split; [apply get_mid; reflexivity|auto].
      - exists x. split; [|auto]. rewrite Ep, <- app_assoc. apply get_mid. reflexivity. }
    assert (Hgz : exists rz, get (p ++ r :: s) (length p + length dr) = Ok rz /\ rhi rz = hi).
    { destruct HR as [(-> & Hhi & _)|(x & -> & Hhi & _)].
      - exists r. split; [apply get_mid; cbn; lia|auto].
      - exists x. split; [|auto]. rewrite Es.
        replace (p ++ r :: [x] ++ s1) with ((p ++ [r]) ++ x :: s1)
          by (rewrite <- app_assoc; reflexivity).
        apply get_mid. rewrite app_length. cbn. lia. }
    destruct Hga as (ra & -> & Era). destruct Hgz as (rz & -> & Erz). cbn [rbind].
    rewrite Era, Erz.
    assert (Esp : p ++ r :: s = p1 ++ (dl ++ r :: dr) ++ s1).
    { rewrite Ep, Es, <- !app_assoc. reflexivity. }
    rewrite Esp. rewrite slice_assign_mid; [|reflexivity|rewrite !app_length; cbn; lia].
    eexists _, _. split; [reflexivity|].
    assert (Hrel : lo <= rlo r /\ rhi r <= hi /\ 0 <= lo /\ hi <= maxunicode).
    { assert (lo <= rlo r /\ 0 <= lo).
      { destruct HL as [(_ & -> & _)|(x & -> & -> & Hx)]; unfold wf_r in *; [lia|].
        assert (wf_r x) by (eapply wf_In; [exact Hwp|rewrite Ep; rewrite in_app_iff; cbn; auto]).
        unfold wf_r in *. lia. }
      assert (rhi r <= hi /\ hi <= maxunicode).
      { destruct HR as [(_ & -> & _)|(x & -> & -> & Hx)]; unfold wf_r in *; [lia|].
        assert (wf_r x) by (eapply wf_In; [exact Hws|rewrite Es; rewrite in_app_iff; cbn; auto]).
        unfold wf_r in *. lia. }
      lia. }
    assert (Wp1 : wf p1) by (rewrite Ep in Hwp; apply wf_app in Hwp; tauto).
    assert (Ws1 : wf s1) by (rewrite Es in Hws; apply wf_app in Hws; tauto).
    split; [|split; [|split]].
    + cbn [app]. apply wf_cons_join; auto.
      * unfold wf_r in *. cbn. lia.
      * intros x Hx. unfold gap. cbn.
        destruct HL as [(_ & -> & HL)|(y & -> & -> & Hy)].
        -- specialize (HL x Hx). exact HL.
        -- rewrite Ep in Hwp. apply wf_app in Hwp as (_ & _ & G1).
           apply (G1 x y Hx). cbn; auto.
      * intros x Hx. unfold gap. cbn.
        destruct HR as [(_ & -> & HR)|(y & -> & -> & Hy)].
        -- specialize (HR x Hx). exact HR.
        -- rewrite Es in Hws. apply wf_app in Hws as (_ & _ & G1).
           apply (G1 y x); cbn; auto.
    + intros c. rewrite !mem_app. cbn [app]. rewrite !mem_cons, mem_nil.
      unfold inr_ at 1. cbn [rlo rhi].
      assert (lo <= c <= hi <-> mem dl c \/ inr_ r c \/ mem dr c); [|tauto].
      unfold wf_r in Hr.
      destruct HL as [(-> & -> & _)|(x & -> & -> & Hx)];
      destruct HR as [(-> & -> & _)|(y & -> & -> & Hy)];
        rewrite ?mem_cons, ?mem_nil; unfold inr_ in *.
      * tauto.
      * assert (wf_r y) by (eapply wf_In; [exact Hws|rewrite Es; rewrite in_app_iff; cbn; auto]).
        unfold wf_r in *. lia.
      * assert (wf_r x) by (eapply wf_In; [exact Hwp|rewrite Ep; rewrite in_app_iff; cbn; auto]).
        unfold wf_r in *. lia.
      * assert (wf_r y) by (eapply wf_In; [exact Hws|rewrite Es; rewrite in_app_iff; cbn; auto]).
        assert (wf_r x) by (eapply wf_In; [exact Hwp|rewrite Ep; rewrite in_app_iff; cbn; auto]).
        unfold wf_r in *. lia.
    + eapply tagok_repl; [rewrite <- Esp; exact Ht|reflexivity].
    + split; [lia|]. intros x Hx. rewrite !in_app_iff in *. cbn [In] in Hx.
      destruct Hx as [Hx|[[<-|[]]|Hx]]; [tauto|right; cbn; lia|tauto].
Qed.

(** ** add_range and add_char *)
Definition adds (n : nat) (l : ranges) (a z : Z) (n' : nat) (l' : ranges) : Prop :=
  wf l' /\ (forall c, mem l' c <-> mem l c \/ a <= c <= z) /\ tagok n' l' /\
  cells_kept n l n' l' /\ l' <> [].

Lemma mem_nonempty l c : mem l c -> l <> [].
Proof. intros H ->. apply mem_nil in H. exact H. Qed.

Lemma sub_wf p m s : wf (p ++ m ++ s) -> wf (p ++ s).
Proof.
  intros H. apply wf_app in H as (H1 & H2 & H3). apply wf_app in H2 as (H4 & H5 & H6).
  apply wf_app. psplit; auto. intros x y Hx Hy. apply H3; auto. rewrite in_app_iff. auto.
Qed.

Lemma between_mem a z m c : above a m -> below z m -> mem m c -> a <= c <= z.
Proof.
  unfold above, below. rewrite !Forall_forall. intros H1 H2 (r & Hr & Hi).
  specialize (H1 r Hr). specialize (H2 r Hr). unfold inr_ in Hi. lia.
Qed.

Lemma replace_adds n p m s lo hi a z :
  a <= z ->
  wf (p ++ m ++ s) -> tagok n (p ++ m ++ s) ->
  wf_r (mkr n lo hi) -> below lo p -> above hi s ->
  (forall c, lo <= c <= hi <-> mem m c \/ a <= c <= z) ->
  exists n' l', merge (S n) (p ++ [mkr n lo hi] ++ s) (length p) = Ok (n', l') /\
    adds n (p ++ m ++ s) a z n' l'.
Proof.
  intros Haz Hw Ht Hr Hp Hs Hm.
  destruct (merge_spec (S n) p (mkr n lo hi) s) as (n' & l' & E & W & M & T & K).
  - eapply sub_wf; eauto.
  - exact Hr.
  - exact Hp.
  - exact Hs.
  - apply (tagok_repl n p m s); auto.
  - exists n', l'. cbn [app]. split; [exact E|]. 
    assert (Hmem : forall c, mem l' c <-> mem (p ++ m ++ s) c \/ a <= c <= z).
    { intros c. rewrite M. rewrite !mem_app, mem_cons. unfold inr_. cbn [rlo rhi].
      rewrite Hm. tauto. }
    split; [exact W|]. split; [exact Hmem|]. split; [exact T|]. split.
    + destruct K as [K1 K2]. split; [lia|]. intros x Hx. destruct (K2 x Hx) as [Hx1|Hx1]; [|lia].
      rewrite !in_app_iff in *. cbn in Hx1. destruct Hx1 as [?|[<-|?]]; [tauto| cbn; right; lia|tauto].
    + apply (mem_nonempty l' a). apply Hmem. right. lia.
Qed.

Lemma below_weaken a b p : below a p -> a <= b -> below b p.
Proof. intros H Hab. eapply Forall_impl; [|exact H]. cbn. lia. Qed.
Lemma above_weaken a b p : above a p -> b <= a -> above b p.
Proof. intros H Hab. eapply Forall_impl; [|exact H]. cbn. lia. Qed.
Lemma gap_below x p : (forall y, In y p -> gap y x) -> below (rlo x) p.
Proof. intros H. apply Forall_forall. intros y Hy. specialize (H y Hy). unfold gap in H. lia. Qed.
Lemma gap_above x s : (forall y, In y s -> gap x y) -> above (rhi x) s.
Proof. intros H. apply Forall_forall. intros y Hy. specialize (H y Hy). unfold gap in H. lia. Qed.

Lemma add_range_spec n l a0 z0 :
  wf l -> tagok n l -> is_char a0 -> is_char z0 ->
  exists n' l' clr, add_range n l a0 z0 = Ok ((n', l'), clr) /\
    adds n l (Z.min a0 z0) (Z.max a0 z0) n' l' /\ (clr = false -> l' = l).
Proof.
  intros Hw Ht Ha Hz. unfold add_range.
  set (az := if z0 <? a0 then (z0, a0) else (a0, z0)).
  assert (Eaz : az = (Z.min a0 z0, Z.max a0 z0)).
  { unfold az. destruct (z0 <? a0) eqn:E; b2p; f_equal; lia. }
  rewrite Eaz. clear az Eaz.
  set (a := Z.min a0 z0). set (z := Z.max a0 z0).
  assert (Haz : a <= z) by lia. assert (Ha' : 0 <= a) by (unfold is_char in *; lia).
  assert (Hz' : z <= maxunicode) by (unfold is_char in *; lia). clearbody a z.
  destruct l as [|r0 l0] eqn:El.
  - exists (S n), [mkr n a z], true. split; [reflexivity|]. split; [|discriminate].
    split; [cbn; unfold wf_r; cbn; psplit; auto; lia|].
    split; [intros c; rewrite mem_cons, !mem_nil; unfold inr_; cbn; tauto|].
    split; [apply (tagok_ins n [] []); auto|].
    split; [|discriminate]. split; [lia|]. intros x [<-|[]]. right. cbn. lia.
  - rewrite <- El in *. assert (Hne : l <> []) by (rewrite El; discriminate). clear El r0 l0.
    destruct (search2 l a z Hw Hne Haz) as (ma & mz & p & m & s & iz & Sa & Sz & El & Hp & Hs & HC).
    replace (match l with [] => Ok (S n, [mkr n a z], true) | _ :: _ => _ end) with
      (let! (match_a, index_a) := search l a in
       let! (match_z, index_z) := search l z in
       if match_a then
         if match_z then
           if (index_a =? index_z)%nat then Ok ((n, l), false)
           else
             let! ra := get l index_a in
             let! rz := get l index_z in
             let! s := merge (S n)
               (slice_assign index_a (S index_z) [mkr n (rlo ra) (rhi rz)] l) index_a in
             Ok (s, true)
         else
           let! ra := get l index_a in
           let! s := merge (S n) (slice_assign index_a index_z [mkr n (rlo ra) z] l) index_a in
           Ok (s, true)
       else if match_z then
         let! rz := get l index_z in
         let! s := merge (S n) (slice_assign index_a (S index_z) [mkr n a (rhi rz)] l) index_a in
         Ok (s, true)
       else
         let! s := merge (S n) (slice_assign index_a index_z [mkr n a z] l) index_a in
         Ok (s, true)) by (destruct l; [congruence|reflexivity]).
    rewrite Sa, Sz. cbn [rbind]. unfold two_case in HC.
    assert (Hgo : forall lo hi, wf_r (mkr n lo hi) -> below lo p -> above hi s ->
        (forall c, lo <= c <= hi <-> mem m c \/ a <= c <= z) ->
        exists n' l' clr,
          (let! s0 := merge (S n) (p ++ [mkr n lo hi] ++ s) (length p) in Ok (s0, true)) =
             Ok ((n', l'), clr) /\ adds n l a z n' l' /\ (clr = false -> l' = l)).
    { intros lo hi H1 H2 H3 H4. subst l.
      destruct (replace_adds n p m s lo hi a z Haz Hw Ht H1 H2 H3 H4) as (n' & l' & E & A).
      exists n', l', true. rewrite E. cbn. split; [reflexivity|]. split; [exact A|discriminate]. }
    pose proof Hw as Hw'. rewrite El in Hw'. apply wf_app in Hw' as (Wp & Wms & Gp).
    apply wf_app in Wms as (Wm & Ws & Gs).
    destruct ma, mz.
    + destruct HC as [(r & -> & I1 & I2 & ->)|(r1 & m' & r2 & -> & I1 & I2 & ->)].
      * rewrite Nat.eqb_refl. exists n, l, false. split; [reflexivity|]. split; [|auto].
        split; [exact Hw|]. split.
        -- intros c. split; [auto|]. intros [H|H]; [exact H|]. exists r. split.
           ++ rewrite El, !in_app_iff. cbn. auto.
           ++ unfold inr_ in *. lia.
        -- split; [exact Ht|]. split; [|exact Hne]. split; [lia|auto].
      * destruct (length p =? S (length p + length m'))%nat eqn:E; b2p; [lia|].
        assert (Q1 : get l (length p) = Ok r1) by (rewrite El; cbn [app]; apply get_mid; reflexivity).
        assert (Q2 : get l (S (length p + length m')) = Ok r2).
        { rewrite El. replace (p ++ (r1 :: m' ++ [r2]) ++ s) with ((p ++ r1 :: m') ++ r2 :: s)
            by (rewrite <- !app_assoc; cbn; rewrite <- app_assoc; reflexivity).
          apply get_mid. rewrite app_length. cbn. lia. }
        assert (Q3 : forall v, slice_assign (length p) (S (S (length p + length m'))) v l = p ++ v ++ s).
        { intros v. rewrite El. apply slice_assign_mid; [reflexivity|cbn; rewrite app_length; cbn; lia]. }
        rewrite Q1, Q2. cbn [rbind]. rewrite Q3.
        pose proof (wf_In _ r1 Wm ltac:(cbn; auto)) as W1.
        pose proof (wf_In _ r2 Wm ltac:(cbn; rewrite in_app_iff; cbn; auto)) as W2.
        apply Hgo.
        -- unfold wf_r, inr_ in *. cbn. lia.
        -- apply gap_below. intros y Hy. apply Gp; auto. cbn; auto.
        -- apply gap_above. intros y Hy. apply Gs; auto. cbn; rewrite in_app_iff; cbn; auto.
        -- intros c. split.
           ++ intros Hc. destruct (Z_lt_le_dec c a) as [H1|H1].
              { left. exists r1. cbn. split; auto. unfold inr_ in *. lia. }
              destruct (Z_lt_le_dec z c) as [H2|H2]; [|right; lia].
              left. exists r2. cbn. rewrite in_app_iff. cbn. split; auto. unfold inr_ in *. lia.
           ++ intros [(r & Hr & Hi)|H]; [|unfold inr_ in *; lia].
              cbn in Wm. destruct Wm as (_ & G1 & Wm). rewrite Forall_forall in G1.
              apply wf_app in Wm as (_ & _ & G2).
              cbn in Hr. rewrite in_app_iff in Hr. cbn in Hr.
              destruct Hr as [<-|[Hr|[<-|[]]]].
              ** unfold inr_ in *. specialize (G1 r2 ltac:(rewrite in_app_iff; cbn; auto)).
                 unfold gap, wf_r in *. lia.
              ** pose proof (G1 r ltac:(rewrite in_app_iff; auto)).
                 pose proof (G2 r r2 Hr ltac:(cbn; auto)).
                 unfold inr_, gap, wf_r in *. lia.
              ** specialize (G1 r2 ltac:(rewrite in_app_iff; cbn; auto)).
                 unfold inr_, gap, wf_r in *. lia.
    + destruct HC as (r1 & m' & -> & I1 & B & ->).
      assert (Q1 : get l (length p) = Ok r1) by (rewrite El; cbn [app]; apply get_mid; reflexivity).
      assert (Q3 : forall v, slice_assign (length p) (length p + length (r1 :: m')) v l = p ++ v ++ s).
      { intros v. rewrite El. apply slice_assign_mid; reflexivity. }
      rewrite Q1. cbn [rbind]. rewrite Q3.
      pose proof (wf_In _ r1 Wm ltac:(cbn; auto)) as W1.
      apply Hgo.
      * unfold wf_r, inr_ in *. cbn. inversion B; subst. lia.
      * apply gap_below. intros y Hy. apply Gp; auto. cbn; auto.
      * exact Hs.
      * intros c. inversion B as [|? ? B1 B2]; subst. split.
        -- intros Hc. destruct (Z_lt_le_dec c a) as [H1|H1]; [|right; lia].
           left. exists r1. cbn. split; auto. unfold inr_ in *. lia.
        -- intros [(r & Hr & Hi)|H]; [|unfold inr_ in *; lia].
           cbn in Wm. destruct Wm as (_ & G1 & Wm). rewrite Forall_forall in G1.
           destruct Hr as [<-|Hr]; [unfold inr_ in *; lia|].
           specialize (G1 r Hr). rewrite Forall_forall in B2. specialize (B2 r Hr).
           unfold inr_, gap, wf_r in *. lia.
    + destruct HC as (m' & r2 & -> & I2 & A & ->).
      assert (Q1 : get l (length p + length m') = Ok r2).
      { rewrite El. replace (p ++ (m' ++ [r2]) ++ s) with ((p ++ m') ++ r2 :: s)
          by (rewrite <- !app_assoc; reflexivity).
        apply get_mid. rewrite app_length; lia. }
      assert (Q3 : forall v, slice_assign (length p) (S (length p + length m')) v l = p ++ v ++ s).
      { intros v. rewrite El. apply slice_assign_mid; [reflexivity|rewrite app_length; cbn; lia]. }
      rewrite Q1. cbn [rbind]. rewrite Q3.
      pose proof (wf_In _ r2 Wm ltac:(rewrite in_app_iff; cbn; auto)) as W2.
      apply Forall_app in A as [A1 A2]. inversion A2 as [|? ? Ar _]; subst.
      apply Hgo.
      * unfold wf_r, inr_ in *. cbn. lia.
      * exact Hp.
      * apply gap_above. intros y Hy. apply Gs; auto. rewrite in_app_iff; cbn; auto.
      * intros c. split.
        -- intros Hc. destruct (Z_lt_le_dec z c) as [H1|H1]; [|right; lia].
           left. exists r2. rewrite in_app_iff. cbn. split; auto. unfold inr_ in *. lia.
        -- intros [(r & Hr & Hi)|H']; [|unfold inr_ in *; lia].
           apply wf_app in Wm as (_ & _ & G2). rewrite in_app_iff in Hr.
           destruct Hr as [Hr|[<-|[]]]; [|unfold inr_ in *; lia].
           specialize (G2 r r2 Hr ltac:(cbn; auto)). rewrite Forall_forall in A1.
           specialize (A1 r Hr). unfold inr_, gap, wf_r in *. lia.
    + destruct HC as (A & B & ->).
      assert (Q3 : forall v, slice_assign (length p) (length p + length m) v l = p ++ v ++ s).
      { intros v. rewrite El. apply slice_assign_mid; reflexivity. }
      rewrite Q3.
      apply Hgo; auto.
      * unfold wf_r. cbn. lia.
      * intros c. split; [auto|]. intros [H|H]; [|exact H]. eapply between_mem; eauto.
Qed.

Lemma match_ne {A} (l : ranges) (x y : A) : l <> [] -> match l with [] => x | _ :: _ => y end = y.
Proof. destruct l; congruence. Qed.

Lemma search_true l c p r t : wf l -> l <> [] -> search l c = Ok (true, length p) ->
  l = p ++ r :: t -> inr_ r c -> below c p /\ above c t.
Proof.
  intros Hw Hne _ -> Hi. apply wf_app in Hw as (_ & (_ & G & _) & G2). split.
  - apply Forall_forall. intros x Hx. specialize (G2 x r Hx (or_introl eq_refl)).
    unfold gap, inr_ in *. lia.
  - eapply Forall_impl; [|exact G]. cbn. unfold gap, inr_ in *. lia.
Qed.

Lemma add_char_spec n l c :
  wf l -> tagok n l -> is_char c ->
  exists n' l', add_char n l c = Ok (n', l') /\ adds n l c c n' l'.
Proof.
  intros Hw Ht Hc. destruct l as [|r0 l0] eqn:El.
  - exists (S n), [mkr n c c]. split; [reflexivity|].
    split; [cbn; unfold wf_r, is_char in *; cbn; psplit; auto; lia|].
    split; [intros d; rewrite mem_cons, !mem_nil; unfold inr_; cbn; tauto|].
    split; [apply (tagok_ins n [] []); auto|].
    split; [|discriminate]. split; [lia|]. intros x [<-|[]]. right. cbn. lia.
  - rewrite <- El in *. assert (Hne : l <> []) by (rewrite El; discriminate).
    unfold add_char. rewrite (match_ne l _ _ Hne). clear El.
    destruct (search_spec l c Hw Hne) as (b & p & s & Sc & El & Hp & HC).
    rewrite Sc. cbn [rbind]. destruct b.
    + exists n, l. split; [reflexivity|]. destruct HC as (r & t & -> & Hi).
      split; [exact Hw|]. split.
      * intros d. split; [auto|]. intros [H|H]; [exact H|]. assert (d = c) by lia. subst d.
        exists r. split; [rewrite El, in_app_iff; cbn; auto|exact Hi].
      * split; [exact Ht|]. split; [|exact Hne]. split; [lia|auto].
    + subst l.
      replace (slice_assign (length p) (length p) [mkr n c c] (p ++ s))
        with (p ++ [mkr n c c] ++ s)
        by (symmetry; change (p ++ s) with (p ++ [] ++ s); apply slice_assign_mid; cbn; lia).
      apply (replace_adds n p [] s c c c c); auto; try lia.
      * unfold wf_r, is_char in *. cbn. lia.
      * intros d. rewrite mem_nil. tauto.
Qed.

(** ** subtract_range and subtract_char *)
Definition tags_kept (n : nat) (l : ranges) (n' : nat) (l' : ranges) : Prop :=
  (n <= n')%nat /\ (forall r, In r l' -> In (rid r) (map rid l) \/ (n <= rid r < n')%nat).
Definition subs (n : nat) (l : ranges) (a z : Z) (n' : nat) (l' : ranges) : Prop :=
  wf l' /\ (forall c, mem l' c <-> mem l c /\ ~ (a <= c <= z)) /\ tagok n' l' /\
  tags_kept n l n' l'.

Definition inside (x y : rng) : Prop := rlo y <= rlo x /\ rhi x <= rhi y.

Lemma replace_wf p m s m2 :
  wf (p ++ m ++ s) -> wf m2 ->
  (forall x, In x m2 -> exists y, In y m /\ inside x y) -> wf (p ++ m2 ++ s).
Proof.
  intros Hw Hw2 Hi.
  apply wf_app in Hw as (Wp & Wms & Gp). apply wf_app in Wms as (Wm & Ws & Gm).
  apply wf_app. psplit; auto.
  - apply wf_app. psplit; auto. intros x y Hx Hy. destruct (Hi x Hx) as (x' & Hx' & I1 & I2).
    specialize (Gm x' y Hx' Hy). unfold gap in *. lia.
  - intros x y Hx Hy. apply in_app_iff in Hy as [Hy|Hy].
    + destruct (Hi y Hy) as (y' & Hy' & I1 & I2).
      specialize (Gp x y' Hx ltac:(rewrite in_app_iff; auto)). unfold gap in *. lia.
    + apply Gp; auto. rewrite in_app_iff. auto.
Qed.

Lemma replace_mem p m s m2 a z c :
  below a p -> above z s -> a <= z ->
  (mem m2 c <-> mem m c /\ ~ (a <= c <= z)) ->
  (mem (p ++ m2 ++ s) c <-> mem (p ++ m ++ s) c /\ ~ (a <= c <= z)).
Proof.
  intros Hp Hs Haz H. rewrite !mem_app, H.
  pose proof (below_not_mem a p c Hp). pose proof (above_not_mem z s c Hs).
  assert (Q1 : mem p c -> ~ (a <= c <= z)) by (intros Q1 Q2; apply H0; auto; lia).
  assert (Q2 : mem s c -> ~ (a <= c <= z)) by (intros Q2 Q3; apply H1; auto; lia).
  tauto.
Qed.

Definition subseq_tags (m2 m : ranges) : Prop :=
  exists f, map rid m2 = filter f (map rid m).

Lemma tagok_sub n p m s m2 :
  tagok n (p ++ m ++ s) -> NoDup (map rid m2) -> incl (map rid m2) (map rid m) ->
  tagok n (p ++ m2 ++ s).
Proof.
  intros [H1 H2] Hn Hi. split.
  - rewrite !map_app in *. revert H1. generalize (map rid p) as tp, (map rid s) as ts.
    intros tp ts. induction tp as [|t tp IH]; cbn.
    + intros H. revert Hn Hi. generalize (map rid m2) as t2. induction t2 as [|x t2 IH]; cbn; intros Hn Hi.
      * eapply NoDup_app_r; eauto.
      * inversion Hn; subst. constructor.
        -- rewrite in_app_iff. intros [Q|Q]; [auto|].
           assert (In x (map rid m)) as Hx by (apply Hi; cbn; auto).
           clear - H Hx Q. induction (map rid m) as [|y tm IHm]; [destruct Hx|].
           cbn in H. inversion H; subst. destruct Hx as [->|Hx]; auto.
           apply H2. rewrite in_app_iff. auto.
        -- apply IH; auto. intros y Hy. apply Hi. cbn. auto.
    + intros H. inversion H as [|? ? Hx Hd]; subst. constructor; auto.
      intros Hc. apply Hx. rewrite !in_app_iff in *. destruct Hc as [Hc|[Hc|Hc]]; auto.
  - rewrite !Forall_app in *. destruct H2 as (F1 & F2 & F3). psplit; auto.
    apply Forall_forall. intros x Hx.
    assert (In (rid x) (map rid m)) as Q by (apply Hi; apply in_map; exact Hx).
    apply in_map_iff in Q as (y & <- & Hy). rewrite Forall_forall in F2. auto.
Qed.

Lemma replace_subs n p m s m2 a z :
  wf (p ++ m ++ s) -> tagok n (p ++ m ++ s) -> below a p -> above z s -> a <= z ->
  wf m2 -> (forall x, In x m2 -> exists y, In y m /\ inside x y) ->
  (forall c, mem m2 c <-> mem m c /\ ~ (a <= c <= z)) ->
  NoDup (map rid m2) -> incl (map rid m2) (map rid m) ->
  subs n (p ++ m ++ s) a z n (p ++ m2 ++ s).
Proof.
  intros Hw Ht Hp Hs Haz Hw2 Hi Hm Hn Hincl. split; [|split; [|split]].
  - eapply replace_wf; eauto.
  - intros c. apply replace_mem; auto.
  - eapply tagok_sub; eauto.
  - split; [lia|]. intros x Hx. left. rewrite !map_app, !in_app_iff in *.
    destruct Hx as [Hx|[Hx|Hx]]; [left|right; left|right; right].
    + apply in_map; auto.
    + apply Hincl. apply in_map; auto.
    + apply in_map; auto.
Qed.

Definition keepl (r : rng) (a : Z) : ranges := if rlo r <? a then [mkr (rid r) (rlo r) (a - 1)] else [].
Definition keepr (r : rng) (z : Z) : ranges := if z <? rhi r then [mkr (rid r) (z + 1) (rhi r)] else [].

Lemma set_hi_mid p r s i v : i = length p -> is_char v ->
  set_hi (p ++ r :: s) i v = Ok (p ++ mkr (rid r) (rlo r) v :: s).
Proof.
  intros Hi Hv. unfold set_hi. rewrite get_mid by exact Hi. cbn [rbind].
  rewrite character_ok by exact Hv. cbn [rbind]. rewrite set_nth_mid by exact Hi. reflexivity.
Qed.
Lemma set_lo_mid p r s i v : i = length p -> is_char v ->
  set_lo (p ++ r :: s) i v = Ok (p ++ mkr (rid r) v (rhi r) :: s).
Proof.
  intros Hi Hv. unfold set_lo. rewrite get_mid by exact Hi. cbn [rbind].
  rewrite character_ok by exact Hv. cbn [rbind]. rewrite set_nth_mid by exact Hi. reflexivity.
Qed.

Lemma keepl_spec r a : wf_r r -> inr_ r a ->
  (keepl r a = [] /\ (rlo r =? rhi r) || (a =? rlo r) = true /\ rlo r = a) \/
  (keepl r a = [mkr (rid r) (rlo r) (a - 1)] /\ (rlo r =? rhi r) || (a =? rlo r) = false /\
   rlo r < a /\ is_char (a - 1)).
Proof.
  intros W I. unfold keepl, wf_r, inr_, is_char in *. destruct (rlo r <? a) eqn:E; b2p.
  - right. split; [reflexivity|]. split; [|lia]. apply orb_false_iff. split; apply Z.eqb_neq; lia.
  - left. split; [reflexivity|]. split; [|lia]. apply orb_true_iff. right. apply Z.eqb_eq. lia.
Qed.
Lemma keepr_spec r z : wf_r r -> inr_ r z ->
  (keepr r z = [] /\ (rlo r =? rhi r) || (z =? rhi r) = true /\ rhi r = z) \/
  (keepr r z = [mkr (rid r) (z + 1) (rhi r)] /\ (rlo r =? rhi r) || (z =? rhi r) = false /\
   z < rhi r /\ is_char (z + 1)).
Proof.
  intros W I. unfold keepr, wf_r, inr_, is_char in *. destruct (z <? rhi r) eqn:E; b2p.
  - right. split; [reflexivity|]. split; [|lia]. apply orb_false_iff. split; apply Z.eqb_neq; lia.
  - left. split; [reflexivity|]. split; [|lia]. apply orb_true_iff. right. apply Z.eqb_eq. lia.
Qed.

(** the four shapes of the middle part after a subtraction *)
Lemma subs_one n p r s a z :
  wf (p ++ [r] ++ s) -> tagok n (p ++ [r] ++ s) -> below a p -> above z s -> a <= z ->
  inr_ r a -> inr_ r z ->
  (rlo r < a -> z < rhi r -> False) ->
  subs n (p ++ [r] ++ s) a z n (p ++ (keepl r a ++ keepr r z) ++ s).
Proof.
  intros Hw Ht Hp Hs Haz Ia Iz Hnb.
  assert (W : wf_r r) by (eapply wf_In; [exact Hw|rewrite !in_app_iff; cbn; auto]).
  apply replace_subs; auto;
  destruct (keepl_spec r a W Ia) as [(-> & _ & E1)|(-> & _ & E1 & C1)];
  destruct (keepr_spec r z W Iz) as [(-> & _ & E2)|(-> & _ & E2 & C2)]; cbn [app];
    try (exfalso; apply Hnb; auto; fail);
    unfold wf_r, inr_, is_char in *; cbn.
  all: try (exact I).
  all: try (unfold wf_r; cbn; psplit; auto; lia).
  all: try (intros x [<-|[]] || intros x []; exists r; unfold inside; cbn; psplit; auto; lia).
  all: try (intros x []).
  all: try (intros c; rewrite ?mem_cons, ?mem_nil; unfold inr_; cbn; lia).
  all: try (constructor; auto; constructor).
  all: try (intros t Hh; cbn in *; tauto).
Qed.

Lemma subs_both n p r s a z :
  wf (p ++ [r] ++ s) -> tagok n (p ++ [r] ++ s) -> below a p -> above z s -> a <= z ->
  inr_ r a -> inr_ r z -> rlo r < a -> z < rhi r ->
  subs n (p ++ [r] ++ s) a z (S n)
    (p ++ [mkr (rid r) (rlo r) (a - 1); mkr n (z + 1) (rhi r)] ++ s).
Proof.
  intros Hw Ht Hp Hs Haz Ia Iz H1 H2.
  assert (W : wf_r r) by (eapply wf_In; [exact Hw|rewrite !in_app_iff; cbn; auto]).
  split; [|split; [|split]].
  - eapply replace_wf; [exact Hw| |].
    + cbn. unfold wf_r, gap in *. cbn. psplit; auto; try lia. constructor; [cbn; lia|constructor].
    + intros x Hx. exists r. unfold inside. unfold inr_ in *.
      destruct Hx as [<-|[<-|[]]]; cbn; split; auto; lia.
  - intros c. apply replace_mem; auto. rewrite !mem_cons, mem_nil. unfold inr_ in *. cbn. lia.
  - change (p ++ [mkr (rid r) (rlo r) (a - 1); mkr n (z + 1) (rhi r)] ++ s)
      with (p ++ ([mkr (rid r) (rlo r) (a - 1)] ++ [mkr n (z + 1) (rhi r)] ++ s)).
    rewrite app_assoc. apply tagok_ins; [|reflexivity].
    eapply tagok_same; [|exact Ht]. rewrite !map_app. cbn. rewrite <- app_assoc. reflexivity.
  - split; [lia|]. intros x Hx. rewrite !map_app, !in_app_iff in *. cbn in *.
    destruct Hx as [Hx|[[<-|[<-|[]]]|Hx]].
    + left. left. apply in_map; auto.
    + left. cbn. auto.
    + right. cbn. lia.
    + left. right. right. apply in_map; auto.
Qed.

Lemma subs_two n p r1 m' r2 s a z :
  wf (p ++ (r1 :: m' ++ [r2]) ++ s) -> tagok n (p ++ (r1 :: m' ++ [r2]) ++ s) ->
  below a p -> above z s -> a <= z -> inr_ r1 a -> inr_ r2 z ->
  subs n (p ++ (r1 :: m' ++ [r2]) ++ s) a z n (p ++ (keepl r1 a ++ keepr r2 z) ++ s).
Proof.
  intros Hw Ht Hp Hs Haz Ia Iz.
  pose proof Hw as Hw'. apply wf_app in Hw' as (_ & Hw' & _).
  apply wf_app in Hw' as (Wm & _ & _). destruct Wm as (W1 & G1 & Wm).
  apply wf_app in Wm as (Wm' & (W2 & _) & G2). rewrite Forall_forall in G1.
  assert (Hmid : forall c, mem m' c -> a <= c <= z).
  { intros c (r & Hr & Hc). specialize (G1 r ltac:(rewrite in_app_iff; auto)).
    specialize (G2 r r2 Hr (or_introl eq_refl)). unfold gap, inr_ in *. lia. }
  assert (G12 : gap r1 r2) by (apply G1; rewrite in_app_iff; cbn; auto).
  assert (Hne : rid r1 <> rid r2).
  { destruct Ht as [Hn _]. rewrite !map_app in Hn. apply NoDup_app_r in Hn. cbn in Hn.
    inversion Hn as [|? ? Hx _]. intros E. apply Hx. rewrite map_app, !in_app_iff. cbn. auto. }
  apply replace_subs; auto.
  - destruct (keepl_spec r1 a W1 Ia) as [(-> & _ & E1)|(-> & _ & E1 & C1)];
    destruct (keepr_spec r2 z W2 Iz) as [(-> & _ & E2)|(-> & _ & E2 & C2)]; cbn;
      unfold wf_r, inr_, gap, is_char in *; cbn; psplit; auto; try lia.
    constructor; [cbn; lia|constructor].
  - unfold keepl, keepr. intros x Hx. apply in_app_iff in Hx as [Hx|Hx]; destr; cbn in Hx;
      try tauto; b2p; destruct Hx as [<-|[]]; unfold inside, inr_ in *.
    + exists r1. cbn. split; [auto|lia].
    + exists r2. cbn. rewrite in_app_iff. cbn. split; [auto|lia].
  - intros c. rewrite mem_cons, !mem_app, mem_cons, mem_nil.
    assert (mem (keepl r1 a) c <-> inr_ r1 c /\ c < a) as ->.
    { unfold keepl, inr_ in *; destr; rewrite ?mem_cons, mem_nil; unfold inr_; cbn; b2p; lia. }
    assert (mem (keepr r2 z) c <-> inr_ r2 c /\ z < c) as ->.
    { unfold keepr, inr_ in *; destr; rewrite ?mem_cons, mem_nil; unfold inr_; cbn; b2p; lia. }
    specialize (Hmid c). unfold inr_, gap, wf_r in *. split.
    + intros [H|H]; split; try lia; auto.
    + intros [[H|[H|[H|[]]]] H']; [left|tauto|right]; lia.
  - unfold keepl, keepr; do 2 destr; cbn; repeat (apply NoDup_cons; [cbn; intuition congruence|]); apply NoDup_nil.
  - unfold keepl, keepr. intros t Hx. cbn. rewrite map_app, in_app_iff. cbn.
    do 2 destr; cbn in Hx; tauto.
Qed.

Lemma subs_left n p r1 m' s a z :
  wf (p ++ (r1 :: m') ++ s) -> tagok n (p ++ (r1 :: m') ++ s) ->
  below a p -> above z s -> a <= z -> inr_ r1 a -> below z (r1 :: m') ->
  subs n (p ++ (r1 :: m') ++ s) a z n (p ++ keepl r1 a ++ s).
Proof.
  intros Hw Ht Hp Hs Haz Ia Hb.
  pose proof Hw as Hw'. apply wf_app in Hw' as (_ & Hw' & _).
  apply wf_app in Hw' as (Wm & _ & _). destruct Wm as (W1 & G1 & Wm).
  rewrite Forall_forall in G1. inversion Hb as [|? ? B1 B2]; subst.
  assert (Hmid : forall c, mem m' c -> a <= c <= z).
  { intros c (r & Hr & Hc). specialize (G1 r Hr). rewrite Forall_forall in B2.
    specialize (B2 r Hr). unfold gap, inr_ in *. lia. }
  apply replace_subs; auto.
  - destruct (keepl_spec r1 a W1 Ia) as [(-> & _ & E1)|(-> & _ & E1 & C1)]; cbn;
      unfold wf_r, inr_, gap, is_char in *; cbn; psplit; auto; try lia.
  - unfold keepl. intros x Hx. destr; cbn in Hx; try tauto; b2p; destruct Hx as [<-|[]];
      unfold inside, inr_ in *. exists r1. cbn. split; [auto|lia].
  - intros c. rewrite mem_cons.
    assert (mem (keepl r1 a) c <-> inr_ r1 c /\ c < a) as ->.
    { unfold keepl, inr_ in *; destr; rewrite ?mem_cons, mem_nil; unfold inr_; cbn; b2p; lia. }
    specialize (Hmid c). unfold inr_, gap, wf_r in *. split.
    + intros H; split; try lia; auto.
    + intros [[H|H] H']; [lia|tauto].
  - unfold keepl; destr; cbn; repeat (apply NoDup_cons; [cbn; intuition congruence|]); apply NoDup_nil.
  - unfold keepl. intros t Hx. cbn. destr; cbn in Hx; tauto.
Qed.

Lemma subs_right n p m' r2 s a z :
  wf (p ++ (m' ++ [r2]) ++ s) -> tagok n (p ++ (m' ++ [r2]) ++ s) ->
  below a p -> above z s -> a <= z -> inr_ r2 z -> above a (m' ++ [r2]) ->
  subs n (p ++ (m' ++ [r2]) ++ s) a z n (p ++ keepr r2 z ++ s).
Proof.
  intros Hw Ht Hp Hs Haz Iz Hb.
  pose proof Hw as Hw'. apply wf_app in Hw' as (_ & Hw' & _).
  apply wf_app in Hw' as (Wm & _ & _). apply wf_app in Wm as (Wm' & (W2 & _) & G2).
  apply Forall_app in Hb as [B1 B2]. inversion B2 as [|? ? B3 _]; subst.
  assert (Hmid : forall c, mem m' c -> a <= c <= z).
  { intros c (r & Hr & Hc). specialize (G2 r r2 Hr (or_introl eq_refl)).
    rewrite Forall_forall in B1. specialize (B1 r Hr). unfold gap, inr_ in *. lia. }
  apply replace_subs; auto.
  - destruct (keepr_spec r2 z W2 Iz) as [(-> & _ & E1)|(-> & _ & E1 & C1)]; cbn;
      unfold wf_r, inr_, gap, is_char in *; cbn; psplit; auto; try lia.
  - unfold keepr. intros x Hx. destr; cbn in Hx; try tauto; b2p; destruct Hx as [<-|[]];
      unfold inside, inr_ in *. exists r2. rewrite in_app_iff. cbn. split; [auto|lia].
  - intros c. rewrite mem_app, mem_cons, mem_nil.
    assert (mem (keepr r2 z) c <-> inr_ r2 c /\ z < c) as ->.
    { unfold keepr, inr_ in *; destr; rewrite ?mem_cons, mem_nil; unfold inr_; cbn; b2p; lia. }
    specialize (Hmid c). unfold inr_, gap, wf_r in *. split.
    + intros H; split; try lia; auto.
    + intros [[H|[H|[]]] H']; [tauto|lia].
  - unfold keepr; destr; cbn; repeat (apply NoDup_cons; [cbn; intuition congruence|]); apply NoDup_nil.
  - unfold keepr. intros t Hx. rewrite map_app, in_app_iff. cbn. destr; cbn in Hx; tauto.
Qed.

Lemma subs_mid n p m s a z :
  wf (p ++ m ++ s) -> tagok n (p ++ m ++ s) ->
  below a p -> above z s -> a <= z -> above a m -> below z m ->
  subs n (p ++ m ++ s) a z n (p ++ [] ++ s).
Proof.
  intros Hw Ht Hp Hs Haz Ha Hb. apply replace_subs; auto.
  - exact I.
  - intros x [].
  - intros c. rewrite mem_nil. split; [tauto|]. intros [H H']. apply H'. eapply between_mem; eauto.
  - constructor.
  - intros x [].
Qed.

Lemma subs_ext n l a z n' l' l2 : l' = l2 -> subs n l a z n' l' -> subs n l a z n' l2.
Proof. intros ->; auto. Qed.

Lemma subtract_range_spec n l a0 z0 :
  wf l -> tagok n l -> is_char a0 -> is_char z0 ->
  exists n' l', subtract_range n l a0 z0 = Ok (n', l') /\
    subs n l (Z.min a0 z0) (Z.max a0 z0) n' l'.
Proof.
  intros Hw Ht Hca Hcz. unfold subtract_range.
  set (az := if z0 <? a0 then (z0, a0) else (a0, z0)).
  assert (Eaz : az = (Z.min a0 z0, Z.max a0 z0)).
  { unfold az. destruct (z0 <? a0) eqn:E; b2p; f_equal; lia. }
  rewrite Eaz. clear az Eaz.
  set (a := Z.min a0 z0). set (z := Z.max a0 z0).
  assert (Haz : a <= z) by lia. clearbody a z.
  assert (Hl : l = [] \/ l <> []) by (destruct l; [left; reflexivity|right; discriminate]).
  destruct Hl as [->|Hne].
  { exists n, []. split; [reflexivity|]. split; [exact I|]. split; [|split; [exact Ht|]].
    - intros c. rewrite mem_nil. tauto.
    - split; [lia|intros x []]. }
  rewrite (match_ne l _ _ Hne).
  destruct (search2 l a z Hw Hne Haz) as (ma & mz & p & m & s & iz & Sa & Sz & El & Hp & Hs & HC).
  rewrite Sa, Sz. cbn [rbind]. unfold two_case in HC. clear Sa Sz Hne.
  destruct ma, mz.
  - destruct HC as [(r & -> & Ia & Iz & ->)|(r1 & m' & r2 & -> & Ia & Iz & ->)].
    + rewrite Nat.eqb_refl.
      assert (W : wf_r r) by (eapply wf_In; [exact Hw|rewrite El, !in_app_iff; cbn; auto]).
      rewrite El. cbn [app]. rewrite get_mid by reflexivity. cbn [rbind].
      rewrite El in Hw, Ht.
      destruct ((rlo r =? rhi r) || ((rlo r =? a) && (rhi r =? z))) eqn:E1.
      * eexists _, _. split; [reflexivity|].
        change (p ++ r :: s) with (p ++ [r] ++ s).
        eapply subs_ext; [|apply (subs_one n p r s a z); auto].
        -- rewrite slice_assign_mid by (cbn; lia). unfold keepl, keepr.
           assert (rlo r = a /\ rhi r = z) as [-> ->].
           { unfold inr_ in *. apply orb_true_iff in E1 as [E1|E1]; b2p; lia. }
           rewrite !Z.ltb_irrefl. reflexivity.
        -- intros. unfold inr_ in *. apply orb_true_iff in E1 as [E1|E1]; b2p; lia.
      * assert (HE : rlo r <> rhi r /\ ~ (rlo r = a /\ rhi r = z)).
        { apply orb_false_iff in E1 as [E1 E1']. apply Z.eqb_neq in E1. split; [exact E1|].
          intros [Q1 Q2]. rewrite Q1, Q2, !Z.eqb_refl in E1'. discriminate. }
        clear E1. destruct (rlo r =? a) eqn:E2; b2p.
        -- rewrite set_lo_mid; [|reflexivity|].
           2:{ unfold is_char, wf_r, inr_ in *. lia. }
           cbn [rbind]. eexists _, _. split; [reflexivity|].
           change (p ++ r :: s) with (p ++ [r] ++ s).
           eapply subs_ext; [|apply (subs_one n p r s a z); auto; lia].
           unfold keepl, keepr, inr_ in *. rewrite E2, Z.ltb_irrefl.
           destruct (z <? rhi r) eqn:E3; b2p; [reflexivity|]. exfalso.
           lia.
        -- destruct (rhi r =? z) eqn:E3; b2p.
           ++ rewrite set_hi_mid; [|reflexivity|].
              2:{ unfold is_char, wf_r, inr_ in *. lia. }
              cbn [rbind]. eexists _, _. split; [reflexivity|].
              change (p ++ r :: s) with (p ++ [r] ++ s).
              eapply subs_ext; [|apply (subs_one n p r s a z); auto; lia].
              unfold keepl, keepr, inr_ in *.
              destruct (rlo r <? a) eqn:E4; b2p; [|lia].
              destruct (z <? rhi r) eqn:E5; b2p; [lia|]. reflexivity.
           ++ rewrite set_hi_mid; [|reflexivity|].
              2:{ unfold is_char, wf_r, inr_ in *. lia. }
              cbn [rbind]. rewrite character_ok.
              2:{ unfold is_char, wf_r, inr_ in *. lia. }
              cbn [rbind]. eexists _, _. split; [reflexivity|].
              change (p ++ r :: s) with (p ++ [r] ++ s).
              eapply subs_ext; [|apply (subs_both n p r s a z); auto; unfold inr_ in *; lia].
              replace (p ++ mkr (rid r) (rlo r) (a - 1) :: s) with
                ((p ++ [mkr (rid r) (rlo r) (a - 1)]) ++ [] ++ s) by (rewrite <- app_assoc; reflexivity).
              rewrite slice_assign_mid.
              ** rewrite <- app_assoc. reflexivity.
              ** rewrite app_length. cbn. lia.
              ** rewrite app_length. cbn. lia.
    + destruct (length p =? S (length p + length m'))%nat eqn:E; b2p; [lia|]. clear E.
      pose proof Hw as Hw'. rewrite El in Hw'. apply wf_app in Hw' as (_ & Hw' & _).
      apply wf_app in Hw' as (Wm & _ & _).
      assert (W1 : wf_r r1) by (eapply wf_In; [exact Wm|cbn; auto]).
      assert (W2 : wf_r r2) by (eapply wf_In; [exact Wm|cbn; rewrite in_app_iff; cbn; auto]).
      rewrite El in Hw, Ht. rewrite El. 
      pose proof (subs_two n p r1 m' r2 s a z Hw Ht Hp Hs Haz Ia Iz) as Hsub.
      cbn [app]. rewrite get_mid by reflexivity. cbn [rbind].
      assert (Hfin : forall x1,
        exists n' l',
         (let! r3 := get (p ++ x1 :: (m' ++ [r2]) ++ s) (S (length p + length m')) in
          let! (l2, snip_z) :=
            (if (rlo r3 =? rhi r3) || (z =? rhi r3)
             then Ok (p ++ x1 :: (m' ++ [r2]) ++ s, S (S (length p + length m')))
             else let! l2 := set_lo (p ++ x1 :: (m' ++ [r2]) ++ s) (S (length p + length m')) (z + 1) in
                  Ok (l2, S (length p + length m'))) in
          Ok (l2, snip_z)) = Ok (l', n') /\
          ((keepr r2 z = [] /\ n' = S (S (length p + length m')) /\
            l' = p ++ x1 :: (m' ++ [r2]) ++ s) \/
           (exists x2, keepr r2 z = [x2] /\ n' = S (length p + length m') /\
            l' = p ++ x1 :: (m' ++ [x2]) ++ s))).
      { intros x1.
        replace (p ++ x1 :: (m' ++ [r2]) ++ s) with ((p ++ x1 :: m') ++ r2 :: s)
          by (rewrite <- !app_assoc; reflexivity).
        rewrite get_mid by (rewrite app_length; cbn; lia). cbn [rbind].
        destruct (keepr_spec r2 z W2 Iz) as [(K & -> & E2)|(K & -> & E2 & C2)].
        - cbn [rbind]. eexists _, _. split; [reflexivity|]. left. auto.
        - rewrite set_lo_mid; [|rewrite app_length; cbn; lia|exact C2]. cbn [rbind].
          eexists _, _. split; [reflexivity|]. right. eexists. split; [exact K|].
          split; [reflexivity|]. rewrite <- !app_assoc; reflexivity. }
      destruct (keepl_spec r1 a W1 Ia) as [(K1 & -> & E1)|(K1 & -> & E1 & C1)].
      * cbn [rbind]. destruct (Hfin r1) as (sz & l2 & Hb & HK).
        apply rbind_ok in Hb as (r3 & Hg & Hb). rewrite Hg. cbn [rbind].
        apply rbind_ok in Hb as ((l2', sz') & Hb & Heq). inversion Heq; subst l2' sz'.
        rewrite Hb. cbn [rbind].
        destruct HK as [(K2 & -> & ->)|(x2 & K2 & -> & ->)].
        -- replace (length p <=? S (S (length p + length m')))%nat with true
             by (symmetry; apply Nat.leb_le; lia).
           eexists _, _. split; [reflexivity|]. eapply subs_ext; [|exact Hsub].
           rewrite K1, K2. symmetry.
           replace (p ++ r1 :: (m' ++ [r2]) ++ s) with (p ++ (r1 :: m' ++ [r2]) ++ s) by reflexivity.
           apply slice_assign_mid; [reflexivity|cbn; rewrite app_length; cbn; lia].
        -- replace (length p <=? S (length p + length m'))%nat with true
             by (symmetry; apply Nat.leb_le; lia).
           eexists _, _. split; [reflexivity|]. eapply subs_ext; [|exact Hsub].
           rewrite K1, K2. symmetry.
           replace (p ++ r1 :: (m' ++ [x2]) ++ s) with (p ++ (r1 :: m') ++ ([x2] ++ s))
             by (cbn; rewrite <- app_assoc; reflexivity).
           rewrite slice_assign_mid; [reflexivity|reflexivity|cbn; lia].
      * rewrite set_hi_mid; [|reflexivity|exact C1]. cbn [rbind].
        set (x1 := mkr (rid r1) (rlo r1) (a - 1)) in *.
        destruct (Hfin x1) as (sz & l2 & Hb & HK).
        apply rbind_ok in Hb as (r3 & Hg & Hb). rewrite Hg. cbn [rbind].
        apply rbind_ok in Hb as ((l2', sz') & Hb & Heq). inversion Heq; subst l2' sz'.
        rewrite Hb. cbn [rbind].
        destruct HK as [(K2 & -> & ->)|(x2 & K2 & -> & ->)].
        -- replace (S (length p) <=? S (S (length p + length m')))%nat with true
             by (symmetry; apply Nat.leb_le; lia).
           eexists _, _. split; [reflexivity|]. eapply subs_ext; [|exact Hsub].
           rewrite K1, K2. symmetry.
           replace (p ++ x1 :: (m' ++ [r2]) ++ s) with ((p ++ [x1]) ++ (m' ++ [r2]) ++ s)
             by (rewrite <- app_assoc; reflexivity).
           rewrite slice_assign_mid; [|rewrite app_length; cbn; lia|rewrite !app_length; cbn; lia].
           rewrite <- app_assoc. reflexivity.
        -- replace (S (length p) <=? S (length p + length m'))%nat with true
             by (symmetry; apply Nat.leb_le; lia).
           eexists _, _. split; [reflexivity|]. eapply subs_ext; [|exact Hsub].
           rewrite K1, K2. symmetry.
           replace (p ++ x1 :: (m' ++ [x2]) ++ s) with ((p ++ [x1]) ++ m' ++ ([x2] ++ s))
             by (rewrite <- !app_assoc; reflexivity).
           rewrite slice_assign_mid; [|rewrite app_length; cbn; lia|rewrite !app_length; cbn; lia].
           rewrite <- !app_assoc. reflexivity.
  - destruct HC as (r1 & m' & -> & Ia & B & ->).
    assert (W1 : wf_r r1) by (eapply wf_In; [exact Hw|rewrite El, !in_app_iff; cbn; auto]).
    rewrite El in *. pose proof (subs_left n p r1 m' s a z Hw Ht Hp Hs Haz Ia B) as Hsub.
    cbn [app]. rewrite get_mid by reflexivity. cbn [rbind].
    destruct (keepl_spec r1 a W1 Ia) as [(K1 & -> & E1)|(K1 & -> & E1 & C1)].
    + cbn [rbind]. eexists _, _. split; [reflexivity|]. eapply subs_ext; [|exact Hsub].
      rewrite K1. symmetry. change (p ++ r1 :: m' ++ s) with (p ++ (r1 :: m') ++ s).
      apply slice_assign_mid; reflexivity.
    + rewrite set_hi_mid; [|reflexivity|exact C1]. cbn [rbind].
      eexists _, _. split; [reflexivity|]. eapply subs_ext; [|exact Hsub].
      rewrite K1. symmetry.
      replace (p ++ mkr (rid r1) (rlo r1) (a - 1) :: m' ++ s) with
        ((p ++ [mkr (rid r1) (rlo r1) (a - 1)]) ++ m' ++ s) by (rewrite <- app_assoc; reflexivity).
      rewrite slice_assign_mid; [|rewrite app_length; cbn; lia|rewrite !app_length; cbn; lia].
      rewrite <- !app_assoc. reflexivity.
  - destruct HC as (m' & r2 & -> & Iz & A & ->).
    assert (W2 : wf_r r2) by (eapply wf_In; [exact Hw|rewrite El, !in_app_iff; cbn; auto]).
    rewrite El in *. pose proof (subs_right n p m' r2 s a z Hw Ht Hp Hs Haz Iz A) as Hsub.
    assert (Ex : p ++ (m' ++ [r2]) ++ s = (p ++ m') ++ r2 :: s) by (rewrite <- !app_assoc; reflexivity).
    rewrite Ex. rewrite get_mid by (rewrite app_length; lia). cbn [rbind].
    destruct (keepr_spec r2 z W2 Iz) as [(K1 & -> & E1)|(K1 & -> & E1 & C1)].
    + cbn [rbind]. eexists _, _. split; [reflexivity|]. rewrite <- Ex.
      eapply subs_ext; [|exact Hsub].
      rewrite K1. symmetry. apply slice_assign_mid; [reflexivity|rewrite app_length; cbn; lia].
    + rewrite set_lo_mid; [|rewrite app_length; lia|exact C1]. cbn [rbind].
      eexists _, _. split; [reflexivity|]. rewrite <- Ex. eapply subs_ext; [|exact Hsub].
      rewrite K1. symmetry.
      replace ((p ++ m') ++ mkr (rid r2) (z + 1) (rhi r2) :: s) with
        (p ++ m' ++ ([mkr (rid r2) (z + 1) (rhi r2)] ++ s)) by (rewrite <- !app_assoc; reflexivity).
      rewrite slice_assign_mid; [reflexivity|reflexivity|lia].
  - destruct HC as (A & B & ->).
    rewrite El in *. eexists _, _. split; [reflexivity|].
    eapply subs_ext; [|apply (subs_mid n p m s a z); auto].
    symmetry. apply slice_assign_mid; reflexivity.
Qed.

Lemma subtract_char_spec n l c :
  wf l -> tagok n l -> is_char c ->
  exists n' l', subtract_char n l c = Ok (n', l') /\ subs n l c c n' l'.
Proof.
  intros Hw Ht Hc.
  assert (Hl : l = [] \/ l <> []) by (destruct l; [left; reflexivity|right; discriminate]).
  destruct Hl as [->|Hne].
  { exists n, []. split; [reflexivity|]. split; [exact I|]. split; [|split; [exact Ht|]].
    - intros d. rewrite mem_nil. tauto.
    - split; [lia|intros x []]. }
  unfold subtract_char. rewrite (match_ne l _ _ Hne).
  destruct (search_spec l c Hw Hne) as (b & p & s & Sc & El & Hp & HC).
  rewrite Sc. cbn [rbind]. destruct b.
  - destruct HC as (r & t & -> & Ic).
    assert (W : wf_r r) by (eapply wf_In; [exact Hw|rewrite El, !in_app_iff; cbn; auto]).
    assert (Hab : above c t).
    { rewrite El in Hw. apply wf_app in Hw as (_ & (_ & G & _) & _).
      eapply Forall_impl; [|exact G]. cbn. unfold gap, inr_ in *. lia. }
    rewrite El in Hw, Ht. rewrite El. rewrite get_mid by reflexivity. cbn [rbind].
    change (p ++ r :: t) with (p ++ [r] ++ t) in *.
    destruct (rlo r =? rhi r) eqn:E1; b2p.
    + eexists _, _. split; [reflexivity|].
      eapply subs_ext; [|apply (subs_one n p r t c c); auto; unfold inr_ in *; lia].
      rewrite slice_assign_mid by (cbn; lia). unfold keepl, keepr, inr_ in *.
      destruct (rlo r <? c) eqn:E2; b2p; [lia|]. destruct (c <? rhi r) eqn:E3; b2p; [lia|]. reflexivity.
    + destruct (rlo r =? c) eqn:E2; b2p.
      * change (p ++ [r] ++ t) with (p ++ r :: t).
        rewrite set_lo_mid; [|reflexivity|unfold is_char, wf_r, inr_ in *; lia]. cbn [rbind].
        eexists _, _. split; [reflexivity|].
        eapply subs_ext; [|apply (subs_one n p r t c c); auto; unfold inr_ in *; lia].
        unfold keepl, keepr, inr_ in *. rewrite E2, Z.ltb_irrefl.
        destruct (c <? rhi r) eqn:E3; b2p; [reflexivity|lia].
      * destruct (rhi r =? c) eqn:E3; b2p.
        -- change (p ++ [r] ++ t) with (p ++ r :: t).
           rewrite set_hi_mid; [|reflexivity|unfold is_char, wf_r, inr_ in *; lia]. cbn [rbind].
           eexists _, _. split; [reflexivity|].
           eapply subs_ext; [|apply (subs_one n p r t c c); auto; unfold inr_ in *; lia].
           unfold keepl, keepr, inr_ in *.
           destruct (rlo r <? c) eqn:E4; b2p; [|lia].
           destruct (c <? rhi r) eqn:E5; b2p; [lia|]. rewrite E3. reflexivity.
        -- change (p ++ [r] ++ t) with (p ++ r :: t).
           rewrite set_hi_mid; [|reflexivity|unfold is_char, wf_r, inr_ in *; lia]. cbn [rbind].
           rewrite character_ok by (unfold is_char, wf_r, inr_ in *; lia). cbn [rbind].
           eexists _, _. split; [reflexivity|].
           eapply subs_ext; [|apply (subs_both n p r t c c); auto; unfold inr_ in *; lia].
           replace (p ++ mkr (rid r) (rlo r) (c - 1) :: t) with
             ((p ++ [mkr (rid r) (rlo r) (c - 1)]) ++ [] ++ t) by (rewrite <- app_assoc; reflexivity).
           rewrite slice_assign_mid.
           ++ rewrite <- app_assoc. reflexivity.
           ++ rewrite app_length. cbn. lia.
           ++ rewrite app_length. cbn. lia.
  - exists n, l. split; [reflexivity|]. split; [exact Hw|]. split; [|split; [exact Ht|]].
    + intros d. split; [|tauto]. intros H. split; [exact H|]. intros Hd.
      assert (d = c) by lia. subst d. rewrite El, mem_app in H. destruct H as [H|H].
      * revert H. eapply below_not_mem; eauto. lia.
      * revert H. eapply above_not_mem; eauto. lia.
    + split; [lia|]. intros x Hx. left. apply in_map. exact Hx.
Qed.

(** ** search and test_slow decide membership *)
Lemma search_mem l c : wf l -> l <> [] ->
  exists b i, search l c = Ok (b, i) /\ (b = true <-> mem l c).
Proof.
  intros Hw Hne. destruct (search_spec l c Hw Hne) as (b & p & s & Sc & El & Hp & HC).
  exists b, (length p). split; [exact Sc|]. destruct b.
  - destruct HC as (r & t & -> & Hi). split; [|auto]. intros _. exists r.
    split; [rewrite El, in_app_iff; cbn; auto|exact Hi].
  - split; [discriminate|]. intros H. exfalso. rewrite El, mem_app in H. destruct H as [H|H].
    + revert H. eapply below_not_mem; eauto. lia.
    + revert H. eapply above_not_mem; eauto. lia.
Qed.

Lemma test_slow_mem l c : wf l -> exists b, test_slow l c = Ok b /\ (b = true <-> mem l c).
Proof.
  intros Hw. unfold test_slow. destruct l as [|r l].
  - exists false. split; [reflexivity|]. rewrite mem_nil. split; [discriminate|tauto].
  - destruct (search_mem (r :: l) c Hw) as (b & i & E & H); [discriminate|].
    rewrite E. cbn. exists b. auto.
Qed.

(** ** __eq__ is extensional *)
Lemma wf_mem_eq : forall l1 l2, wf l1 -> wf l2 -> (forall c, mem l1 c <-> mem l2 c) ->
  ranges_eqb l1 l2 = true.
Proof.
  induction l1 as [|r1 l1 IH]; intros [|r2 l2] W1 W2 H; cbn [ranges_eqb].
  - reflexivity.
  - exfalso. apply (mem_nil (rlo r2)). apply H. rewrite mem_cons. left.
    destruct W2 as (W2 & _). unfold inr_, wf_r in *. lia.
  - exfalso. apply (mem_nil (rlo r1)). apply H. rewrite mem_cons. left.
    destruct W1 as (W1 & _). unfold inr_, wf_r in *. lia.
  - destruct W1 as (R1 & G1 & W1). destruct W2 as (R2 & G2 & W2).
    assert (A1 : forall c, mem l1 c -> rhi r1 + 1 < c).
    { intros c (r & Hr & Hc). rewrite Forall_forall in G1. specialize (G1 r Hr).
      unfold gap, inr_ in *. lia. }
    assert (A2 : forall c, mem l2 c -> rhi r2 + 1 < c).
    { intros c (r & Hr & Hc). rewrite Forall_forall in G2. specialize (G2 r Hr).
      unfold gap, inr_ in *. lia. }
    assert (H' : forall c, inr_ r1 c \/ mem l1 c <-> inr_ r2 c \/ mem l2 c).
    { intros c. rewrite <- !mem_cons. apply H. }
    unfold wf_r, inr_ in *.
    assert (Elo : rlo r1 = rlo r2).
    { pose proof (proj1 (H' (rlo r1)) ltac:(left; lia)) as [Q1|Q1];
      pose proof (proj2 (H' (rlo r2)) ltac:(left; lia)) as [Q2|Q2];
      try apply A1 in Q2; try apply A2 in Q1; lia. }
    assert (Ehi : rhi r1 = rhi r2).
    { destruct (Z.lt_trichotomy (rhi r1) (rhi r2)) as [L|[L|L]]; [|exact L|].
      - pose proof (proj2 (H' (rhi r1 + 1)) ltac:(left; lia)) as [Q|Q]; [lia|].
        apply A1 in Q. lia.
      - pose proof (proj1 (H' (rhi r2 + 1)) ltac:(left; lia)) as [Q|Q]; [lia|].
        apply A2 in Q. lia. }
    rewrite Elo, Ehi, !Z.eqb_refl. cbn. apply IH; auto.
    intros c. split; intros Hc.
    + pose proof (A1 c Hc). destruct (proj1 (H' c) (or_intror Hc)) as [Q|Q]; [lia|exact Q].
    + pose proof (A2 c Hc). destruct (proj2 (H' c) (or_intror Hc)) as [Q|Q]; [lia|exact Q].
Qed.

Lemma ranges_eqb_mem : forall l1 l2, ranges_eqb l1 l2 = true -> forall c, mem l1 c <-> mem l2 c.
Proof.
  induction l1 as [|r1 l1 IH]; intros [|r2 l2] H c; cbn in H; try discriminate.
  - tauto.
  - b2p. rewrite !mem_cons. rewrite (IH l2 ltac:(assumption) c). unfold inr_.
    rewrite H, H1. tauto.
Qed.

(** ** The block cache *)
Definition block_ok (l : ranges) (b : Z) (blk : list bool) : Prop :=
  length blk = 256%nat /\
  forall k, (k < 256)%nat -> (nth_error blk k = Some true <-> mem l (b * 256 + Z.of_nat k)).
Definition cache_ok (l : ranges) (bc : cache) : Prop :=
  length bc = 256%nat /\
  forall b blk, nth_error bc b = Some (Some blk) -> block_ok l (Z.of_nat b) blk.

Lemma clear_cache_ok l : cache_ok l clear_cache.
Proof.
  split; [apply repeat_length|]. intros b blk H. exfalso.
  apply nth_error_In in H. apply repeat_spec in H. discriminate.
Qed.

(** loop invariant of [fill]: [p] are the ranges already left behind *)
Lemma fill_spec : forall steps l p s (mt : bool) cc,
  wf l -> l = p ++ s -> below (cc + 1) p ->
  (if mt then exists r t, s = r :: t /\ inr_ r cc else above cc s) ->
  forall k, (k < steps)%nat ->
  exists v, nth_error (fill steps l mt (length p) (rm_of l (length p)) cc) k = Some v /\
    (v = true <-> mem l (cc + 1 + Z.of_nat k)).
Proof.
  induction steps as [|steps IH]; intros l p s mt cc Hw El Hp Hm k Hk; [lia|].
  assert (Hrm : rm_of l (length p) = match s with r :: _ => Some (rlo r, rhi r) | [] => None end).
  { unfold rm_of. rewrite El, nth_error_app2, Nat.sub_diag by lia. destruct s; reflexivity. }
  pose proof Hp as Hp'.
  assert (Hone : forall v rest, (v = true <-> mem l (cc + 1)) ->
     (forall k', (k' < steps)%nat -> exists v', nth_error rest k' = Some v' /\
         (v' = true <-> mem l (cc + 1 + 1 + Z.of_nat k'))) ->
     exists v0, nth_error (v :: rest) k = Some v0 /\ (v0 = true <-> mem l (cc + 1 + Z.of_nat k))).
  { intros v rest Hv Hrest. destruct k as [|k]; cbn [nth_error].
    - exists v. split; [reflexivity|]. rewrite Hv. replace (cc + 1 + Z.of_nat 0) with (cc + 1) by lia. tauto.
    - destruct (Hrest k ltac:(lia)) as (v' & Hn & Hv'). exists v'. split; [exact Hn|].
      rewrite Hv'. replace (cc + 1 + 1 + Z.of_nat k) with (cc + 1 + Z.of_nat (S k)) by lia. tauto. }
  cbn [fill]. rewrite Hrm. destruct mt.
  - destruct Hm as (r & t & -> & Hi). cbn [andb].
    destruct (rhi r <? cc + 1) eqn:E; b2p; cbn [negb].
    + (* left range r *)
      assert (Ehi : rhi r = cc) by (unfold inr_ in Hi; lia).
      assert (Hl2 : l = (p ++ [r]) ++ t) by (rewrite El, <- app_assoc; reflexivity).
      assert (Gt : Forall (gap r) t).
      { rewrite El in Hw. apply wf_app in Hw as (_ & (_ & G & _) & _). exact G. }
      assert (Hab : above (cc + 1) t).
      { eapply Forall_impl; [|exact Gt]. cbn. unfold gap. lia. }
      assert (Hpr : below (cc + 1 + 1) (p ++ [r])).
      { apply Forall_app. split; [eapply below_weaken; eauto; lia|].
        constructor; [lia|constructor]. }
      assert (Hn : ~ mem l (cc + 1)).
      { rewrite Hl2, mem_app. intros [Q|Q].
        - apply mem_app in Q as [Q|Q].
          + revert Q. eapply below_not_mem; eauto. lia.
          + rewrite mem_cons, mem_nil in Q. unfold inr_ in Q. lia.
        - revert Q. eapply above_not_mem; eauto. lia. }
      assert (Hlen : S (length p) = length (p ++ [r])) by (rewrite app_length; cbn; lia).
      rewrite Hlen.
      assert (Hrm2 : rm_of l (length (p ++ [r])) =
               match t with r' :: _ => Some (rlo r', rhi r') | [] => None end).
      { unfold rm_of. rewrite Hl2, nth_error_app2, Nat.sub_diag by lia. destruct t; reflexivity. }
      rewrite Hrm2.
      destruct t as [|r' t'].
      * apply Hone; [split; [discriminate|tauto]|].
        intros k' Hk'. rewrite <- Hrm2. eapply IH; eauto.
      * destruct (rlo r' <=? cc + 1) eqn:E2; b2p.
        { inversion Hab; subst. lia. }
        apply Hone; [split; [discriminate|tauto]|].
        intros k' Hk'. rewrite <- Hrm2. eapply IH; eauto.
    + assert (Hi' : inr_ r (cc + 1)) by (unfold inr_ in *; lia).
      apply Hone.
      * split; [|reflexivity]. intros _. exists r. split; [rewrite El, in_app_iff; cbn; auto|exact Hi'].
      * intros k' Hk'. rewrite <- Hrm. eapply IH; eauto. eapply below_weaken; eauto. lia.
  - cbn [andb]. destruct s as [|r t].
    + apply Hone.
      * split; [discriminate|]. intros Q. exfalso. revert Q. rewrite El, app_nil_r.
        eapply below_not_mem; eauto. lia.
      * intros k' Hk'. rewrite <- Hrm. eapply IH; eauto; [|constructor]. eapply below_weaken; eauto. lia.
    + inversion Hm as [|? ? Hr Ht]; subst x l0.
      destruct (rlo r <=? cc + 1) eqn:E2; b2p.
      * assert (Wr : wf_r r) by (eapply wf_In; [exact Hw|rewrite El, in_app_iff; cbn; auto]).
        assert (Hi' : inr_ r (cc + 1)) by (unfold inr_, wf_r in *; lia).
        apply Hone.
        -- split; [|reflexivity]. intros _. exists r. split; [rewrite El, in_app_iff; cbn; auto|exact Hi'].
        -- intros k' Hk'. rewrite <- Hrm. eapply IH; eauto. eapply below_weaken; eauto. lia.
      * assert (Ha : above (cc + 1) (r :: t)).
        { constructor; [lia|].
          rewrite El in Hw. apply wf_app in Hw as (_ & (Wr & G & _) & _).
          eapply Forall_impl; [|exact G]. cbn. unfold gap, wf_r in *. lia. }
        apply Hone.
        -- split; [discriminate|]. intros Q. exfalso. revert Q. rewrite El, mem_app. intros [Q|Q].
           ++ revert Q. eapply below_not_mem; eauto. lia.
           ++ revert Q. eapply above_not_mem; eauto. lia.
        -- intros k' Hk'. rewrite <- Hrm. eapply IH; eauto. eapply below_weaken; eauto. lia.
Qed.

Lemma fill_length : forall steps l mt i rm cc, length (fill steps l mt i rm cc) = steps.
Proof.
  induction steps as [|steps IH]; intros; [reflexivity|]. cbn [fill].
  repeat match goal with
  | |- context [if ?b then _ else _] => destruct b
  | |- context [match ?x with Some _ => _ | None => _ end] => destruct x as [[? ?]|]
  end; cbn [length]; rewrite IH; reflexivity.
Qed.

Lemma block_gen n l b (mt : bool) p s : wf l -> l <> [] ->
  search l b = Ok (mt, length p) -> l = p ++ s -> below b p ->
  (if mt then exists r t, s = r :: t /\ inr_ r b else above b s) ->
  let blk := mt :: fill n l mt (length p) (rm_of l (length p)) b in
  length blk = S n /\
  forall k, (k < S n)%nat -> (nth_error blk k = Some true <-> mem l (b + Z.of_nat k)).
Proof.
  intros Hw Hne Sc El Hp HC blk. unfold blk. split.
  - cbn [length]. rewrite fill_length. reflexivity.
  - intros k Hk. destruct k as [|k].
    + cbn [nth_error]. replace (b + Z.of_nat 0) with b by lia.
      destruct (search_mem l b Hw Hne) as (b' & i & E & H).
      rewrite Sc in E. inversion E; subst. rewrite <- H. split; congruence.
    + cbn [nth_error].
      destruct (fill_spec n l p s mt b Hw El) with (k := k) as (v & Hn & Hv).
      * eapply below_weaken; eauto. lia.
      * exact HC.
      * lia.
      * rewrite Hn. replace (b + Z.of_nat (S k)) with (b + 1 + Z.of_nat k) by lia.
        rewrite <- Hv. split; congruence.
Qed.

Lemma make_block_spec l b : wf l -> l <> [] -> 0 <= b < 256 ->
  exists blk, make_block l b = Ok blk /\ block_ok l b blk.
Proof.
  intros Hw Hne Hb. unfold make_block, block_ok.
  rewrite character_ok by (unfold is_char, maxunicode; lia). cbn [rbind].
  destruct (search_spec l (b * 256) Hw Hne) as (mt & p & s & Sc & El & Hp & HC).
  rewrite Sc. cbn [rbind]. change 256%nat with (S 255). generalize 255%nat. intros n.
  eexists. split; [reflexivity|].
  apply (block_gen n l (b * 256) mt p s Hw Hne Sc El Hp HC).
Qed.

Lemma test_spec l bc c : wf l -> is_char c -> cache_ok l bc ->
  exists b bc', test l bc c = Ok (b, bc') /\ (b = true <-> mem l c) /\ cache_ok l bc'.
Proof.
  intros Hw Hc [Hlen Hbc]. unfold test.
  assert (Hl : l = [] \/ l <> []) by (destruct l; [left; reflexivity|right; discriminate]).
  destruct Hl as [->|Hne].
  { exists false, bc. split; [reflexivity|]. split; [rewrite mem_nil; split; [discriminate|tauto]|].
    split; auto. }
  rewrite (match_ne l _ _ Hne).
  set (b := Z.shiftr c 8). set (pos := Z.land c 255).
  assert (Hsplit : c = b * 256 + pos /\ 0 <= pos < 256 /\ 0 <= b).
  { unfold b, pos. unfold is_char in Hc.
    rewrite Z.shiftr_div_pow2 by lia. change 255 with (Z.ones 8). rewrite Z.land_ones by lia.
    change (2 ^ 8) with 256. pose proof (Z.div_mod c 256 ltac:(lia)).
    pose proof (Z.mod_pos_bound c 256 ltac:(lia)). pose proof (Z.div_pos c 256 ltac:(lia) ltac:(lia)).
    lia. }
  destruct Hsplit as (Hsp & Hpos & Hb0).
  assert (Hsp2 : b * 256 + Z.of_nat (Z.to_nat pos) = c) by lia.
  destruct (nth_error bc (Z.to_nat b)) as [[blk|]|] eqn:En.
  - destruct (Hbc _ _ En) as [Hl Hk]. unfold get.
    destruct (nth_error blk (Z.to_nat pos)) as [v|] eqn:Ev.
    2:{ apply nth_error_None in Ev. lia. }
    cbn [rbind]. exists v, bc. split; [reflexivity|]. split; [|split; auto].
    specialize (Hk (Z.to_nat pos) ltac:(lia)). rewrite Z2Nat.id in Hk by lia. rewrite Hsp2 in Hk.
    rewrite <- Hk, Ev. split; congruence.
  - assert (Hb : 0 <= b < 256).
    { split; [exact Hb0|]. assert (Z.to_nat b < length bc)%nat by (apply nth_error_Some; congruence). lia. }
    destruct (make_block_spec l b Hw Hne Hb) as (blk & -> & Hok). cbn [rbind].
    pose proof Hok as [Hl Hk]. unfold get.
    destruct (nth_error blk (Z.to_nat pos)) as [v|] eqn:Ev.
    2:{ apply nth_error_None in Ev. lia. }
    cbn [rbind]. eexists v, _. split; [reflexivity|]. split; [|split].
    + specialize (Hk (Z.to_nat pos) ltac:(lia)). rewrite Hsp2 in Hk.
      rewrite <- Hk, Ev. split; congruence.
    + rewrite set_nth_length. exact Hlen.
    + assert (Z.to_nat b < length bc)%nat by (apply nth_error_Some; congruence).
      intros b' blk' Hn'. destruct (Nat.eq_dec (Z.to_nat b) b') as [<-|Hd].
      * rewrite nth_error_set_nth_eq in Hn' by assumption.
        assert (blk = blk') as <- by congruence. rewrite Z2Nat.id by lia. exact Hok.
      * apply Hbc. rewrite nth_error_set_nth_ne in Hn' by exact Hd. exact Hn'.
  - destruct (search_mem l c Hw Hne) as (v & i & -> & Hv). cbn [rbind].
    exists v, bc. split; [reflexivity|]. split; [exact Hv|split; auto].
Qed.
