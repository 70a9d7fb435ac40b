(** Refinement of histories over instances sharing cells to sets of characters. *)
From Verif Require Import Py CharClassModel CharClassProofs CharClassSpec.

Lemma store_In : forall l h r, NoDup (map rid l) -> In r l -> store h l (rid r) = (rlo r, rhi r).
Proof.
  induction l as [|x l IH]; intros h r Hn Hin; [destruct Hin|destruct Hin as [->|Hr]; cbn].
  - rewrite Nat.eqb_refl. reflexivity.
  - cbn in Hn. inversion Hn as [|? ? Hx Hd]; subst.
    destruct (rid r =? rid x)%nat eqn:E; b2p.
    + exfalso. apply Hx. rewrite <- E. apply in_map. exact Hr.
    + apply IH; auto.
Qed.
Lemma store_notin : forall l h t, ~ In t (map rid l) -> store h l t = h t.
Proof.
  induction l as [|x l IH]; intros h t Hn; cbn; [reflexivity|].
  destruct (t =? rid x)%nat eqn:E; b2p.
  - exfalso. apply Hn. cbn. auto.
  - apply IH. intros Q. apply Hn. cbn. auto.
Qed.

Lemma oranges_put l (h : nat -> Z * Z) n' os :
  NoDup (map rid l) -> map (cell (mkw (store h l) n' os)) (map rid l) = l.
Proof.
  intros Hn. rewrite map_map.
  rewrite (map_ext_in _ (fun r => r)); [apply map_id|].
  intros r Hr. unfold cell. cbn. rewrite store_In by auto. cbn. destruct r; reflexivity.
Qed.

Definition okobj (w : world) (o : obj) (S : cset) : Prop :=
  wf (oranges w o) /\ tagok (wnext w) (oranges w o) /\
  (forall c, mem (oranges w o) c <-> S c) /\ cache_ok (oranges w o) (ocache o).

Record good (w : world) (ss : list cset) (tt : list bool) : Prop := {
  g_len : length (objs w) = length ss;
  g_tt : length ss = length tt;
  g_obj : forall i o S, nth_error (objs w) i = Some o -> nth_error ss i = Some S -> okobj w o S;
  g_dis : forall i j oi oj, i <> j -> nth_error tt i = Some false ->
    nth_error (objs w) i = Some oi -> nth_error (objs w) j = Some oj ->
    forall t, In t (otags oi) -> ~ In t (otags oj) }.

Lemma good_get w ss tt i : good w ss tt -> (i < length ss)%nat ->
  exists o S, getobj w i = Ok o /\ nth_error (objs w) i = Some o /\ nth_error ss i = Some S /\
    okobj w o S.
Proof.
  intros G Hi. destruct (nth_error (objs w) i) as [o|] eqn:Eo.
  2:{ apply nth_error_None in Eo. rewrite (g_len _ _ _ G) in Eo. lia. }
  destruct (nth_error ss i) as [S|] eqn:ES.
  2:{ apply nth_error_None in ES. lia. }
  exists o, S. unfold getobj, get. rewrite Eo. psplit; auto. eapply g_obj; eauto.
Qed.

Lemma oranges_tags w o : map rid (oranges w o) = otags o.
Proof. unfold oranges. rewrite map_map. cbn. apply map_id. Qed.

Lemma oranges_ext w w' o : (forall t, In t (otags o) -> heap w' t = heap w t) ->
  oranges w' o = oranges w o.
Proof. intros H. unfold oranges. apply map_ext_in. intros t Ht. unfold cell. rewrite H; auto. Qed.

Lemma okobj_ext w w' o (S S' : cset) : (wnext w <= wnext w')%nat ->
  (forall t, In t (otags o) -> heap w' t = heap w t) -> (forall c, S c <-> S' c) ->
  okobj w o S -> okobj w' o S'.
Proof.
  intros Hn Hh HS (H1 & H2 & H3 & H4). unfold okobj. rewrite (oranges_ext w w' o Hh).
  psplit; auto. - eapply tagok_mono; eauto. - intros c. rewrite H3. apply HS.
Qed.

(** The general update lemma: instance [i] gets the range list [l']. *)
Lemma good_put w ss tt i o n' l' clr (S' : cset) :
  good w ss tt -> nth_error (objs w) i = Some o ->
  wf l' -> tagok n' l' -> (wnext w <= n')%nat ->
  (forall c, mem l' c <-> S' c) ->
  (clr = false -> l' = oranges w o) ->
  (forall r, In r l' -> In (rid r) (otags o) \/ (wnext w <= rid r)%nat) ->
  (forall j oj, j <> i -> nth_error (objs w) j = Some oj ->
     forall t, In t (otags oj) -> store (heap w) l' t = heap w t) ->
  good (put w i (n', l') clr) (set_nth ss i S') tt.
Proof.
  intros G Ho Hw Ht Hn Hm Hc Htags Hst.
  assert (Hi : (i < length (objs w))%nat) by (apply nth_error_Some; congruence).
  assert (Enth : nth i (objs w) (mko [] clear_cache) = o) by (apply nth_error_nth; exact Ho).
  unfold put. rewrite Enth. cbn [fst snd].
  set (o' := mko (map rid l') (if clr then clear_cache else ocache o)).
  set (w' := mkw (store (heap w) l') n' (set_nth (objs w) i o')).
  assert (Eo' : oranges w' o' = l').
  { unfold oranges, w', o'. cbn [otags]. apply oranges_put. apply Ht. }
  constructor.
  - cbn. rewrite !set_nth_length. apply G.
  - rewrite set_nth_length. apply G.
  - intros j oj S Hj HS. cbn in Hj. destruct (Nat.eq_dec j i) as [->|Hne].
    + rewrite nth_error_set_nth_eq in Hj by exact Hi. inversion Hj; subst oj.
      rewrite nth_error_set_nth_eq in HS by (rewrite <- (g_len _ _ _ G); exact Hi).
      inversion HS; subst S. unfold okobj. rewrite Eo'. psplit; auto. cbn [ocache o'].
      destruct clr; [apply clear_cache_ok|]. rewrite (Hc eq_refl).
      destruct (nth_error ss i) as [S0|] eqn:ES.
      * apply (g_obj _ _ _ G i o S0 Ho ES).
      * apply nth_error_None in ES. rewrite <- (g_len _ _ _ G) in ES. lia.
    + rewrite nth_error_set_nth_ne in Hj by auto. rewrite nth_error_set_nth_ne in HS by auto.
      apply (okobj_ext w w' oj S S); auto.
      * intros t Ht'. cbn. eapply Hst; eauto.
      * tauto.
      * eapply g_obj; eauto.
  - intros j k oj ok Hjk Hf Hj Hk t Hin Hin'. cbn in Hj, Hk.
    assert (Hlt : forall m om u, nth_error (objs w) m = Some om -> In u (otags om) -> (u < wnext w)%nat).
    { intros m om u Hm' Hu.
      destruct (nth_error ss m) as [S0|] eqn:ES.
      2:{ apply nth_error_None in ES. rewrite <- (g_len _ _ _ G) in ES.
          assert (m < length (objs w))%nat by (apply nth_error_Some; congruence). lia. }
      destruct (g_obj _ _ _ G m om S0 Hm' ES) as (_ & [_ T] & _).
      rewrite <- (oranges_tags w) in Hu. apply in_map_iff in Hu as (r & <- & Hr).
      rewrite Forall_forall in T. auto. }
    destruct (Nat.eq_dec j i) as [->|Hne1]; destruct (Nat.eq_dec k i) as [->|Hne2]; try congruence.
    + rewrite nth_error_set_nth_eq in Hj by exact Hi. inversion Hj; subst oj. clear Hj.
      rewrite nth_error_set_nth_ne in Hk by auto. cbn in Hin.
      apply in_map_iff in Hin as (r & <- & Hr). destruct (Htags r Hr) as [Q|Q].
      * revert Hin'. eapply (g_dis _ _ _ G i k o ok); eauto.
      * pose proof (Hlt k ok _ Hk Hin'). lia.
    + rewrite nth_error_set_nth_ne in Hj by auto.
      rewrite nth_error_set_nth_eq in Hk by exact Hi. inversion Hk; subst ok. cbn in Hin'.
      apply in_map_iff in Hin' as (r & <- & Hr). destruct (Htags r Hr) as [Q|Q].
      * revert Q. eapply (g_dis _ _ _ G j i oj o); eauto.
      * pose proof (Hlt j oj _ Hj Hin). lia.
    + rewrite nth_error_set_nth_ne in Hj by auto. rewrite nth_error_set_nth_ne in Hk by auto.
      revert Hin'. eapply (g_dis _ _ _ G j k oj ok); eauto.
Qed.

(** frame: what an update of [i] leaves alone *)
Definition frame (w w' : world) (i : nat) : Prop :=
  forall j, j <> i -> nth_error (objs w') j = nth_error (objs w) j /\
    forall oj, nth_error (objs w) j = Some oj -> oranges w' oj = oranges w oj.

Lemma frame_put w i n' l' clr :
  (forall j oj, j <> i -> nth_error (objs w) j = Some oj ->
     forall t, In t (otags oj) -> store (heap w) l' t = heap w t) ->
  frame w (put w i (n', l') clr) i.
Proof.
  intros H j Hj. unfold put. cbn. split.
  - apply nth_error_set_nth_ne. auto.
  - intros oj Hoj. apply oranges_ext. intros t Ht. cbn. eapply H; eauto.
Qed.

Lemma tag_lt w ss tt m om u : good w ss tt -> nth_error (objs w) m = Some om ->
  In u (otags om) -> (u < wnext w)%nat.
Proof.
  intros G Hm' Hu.
  destruct (nth_error ss m) as [S0|] eqn:ES.
  2:{ apply nth_error_None in ES. rewrite <- (g_len _ _ _ G) in ES.
      assert (m < length (objs w))%nat by (apply nth_error_Some; congruence). lia. }
  destruct (g_obj _ _ _ G m om S0 Hm' ES) as (_ & [_ T] & _).
  rewrite <- (oranges_tags w) in Hu. apply in_map_iff in Hu as (r & <- & Hr).
  rewrite Forall_forall in T. auto.
Qed.

(** additions never write to an existing cell *)
Lemma kept_store w ss tt i o n' l' : good w ss tt -> nth_error (objs w) i = Some o ->
  tagok n' l' -> cells_kept (wnext w) (oranges w o) n' l' ->
  forall j oj, j <> i -> nth_error (objs w) j = Some oj ->
     forall t, In t (otags oj) -> store (heap w) l' t = heap w t.
Proof.
  intros G Ho Ht [Hn Hk] j oj Hj Hoj t Hin.
  pose proof (tag_lt w ss tt j oj t G Hoj Hin) as Hlt.
  destruct (in_dec Nat.eq_dec t (map rid l')) as [Hi|Hi].
  - apply in_map_iff in Hi as (r & <- & Hr). rewrite store_In; [|apply Ht|exact Hr].
    destruct (Hk r Hr) as [Q|Q]; [|lia].
    unfold oranges in Q. apply in_map_iff in Q as (u & <- & Hu). cbn.
    destruct (heap w u); reflexivity.
  - apply store_notin. exact Hi.
Qed.

Lemma kept_tags w o n' l' : cells_kept (wnext w) (oranges w o) n' l' ->
  forall r, In r l' -> In (rid r) (otags o) \/ (wnext w <= rid r)%nat.
Proof.
  intros [_ Hk] r Hr. destruct (Hk r Hr) as [Q|Q]; [left|right; lia].
  rewrite <- (oranges_tags w). apply in_map. exact Q.
Qed.

Lemma upd_set ss i S f : nth_error ss i = Some S -> upd ss i f = set_nth ss i (f S).
Proof. intros H. unfold upd. rewrite H. reflexivity. Qed.

Lemma w_add_range_good i w ss tt a z S : good w ss tt -> nth_error ss i = Some S ->
  is_char a -> is_char z ->
  exists w', w_add_range i w a z = Ok w' /\
    good w' (set_nth ss i (fun x => S x \/ Z.min a z <= x <= Z.max a z)) tt /\ frame w w' i.
Proof.
  intros G HS Ha Hz.
  destruct (good_get w ss tt i G) as (o & S' & Hg & Ho & HS' & (W & T & M & C)).
  { apply nth_error_Some. congruence. }
  rewrite HS in HS'. inversion HS'; subst S'. clear HS'.
  unfold w_add_range. rewrite Hg. cbn [rbind].
  destruct (add_range_spec (wnext w) (oranges w o) a z W T Ha Hz)
    as (n' & l' & clr & -> & (W' & M' & T' & K' & _) & Hclr).
  cbn [rbind]. eexists. split; [reflexivity|]. 
  pose proof (kept_store w ss tt i o n' l' G Ho T' K') as Hst. split.
  - eapply good_put; eauto.
    + apply K'.
    + intros c. rewrite M', M. tauto.
    + eapply kept_tags; eauto.
  - apply frame_put. exact Hst.
Qed.

Lemma w_add_char_good i w ss tt c S : good w ss tt -> nth_error ss i = Some S -> is_char c ->
  exists w', w_add_char i w c = Ok w' /\ good w' (set_nth ss i (fun x => S x \/ x = c)) tt.
Proof.
  intros G HS Hc.
  destruct (good_get w ss tt i G) as (o & S' & Hg & Ho & HS' & (W & T & M & C)).
  { apply nth_error_Some. congruence. }
  rewrite HS in HS'. inversion HS'; subst S'. clear HS'.
  unfold w_add_char. rewrite Hg. cbn [rbind].
  destruct (add_char_spec (wnext w) (oranges w o) c W T Hc)
    as (n' & l' & -> & (W' & M' & T' & K' & _)).
  cbn [rbind]. eexists. split; [reflexivity|].
  eapply good_put; eauto.
  - apply K'.
  - intros x. rewrite M', M. assert (c <= x <= c <-> x = c) by lia. tauto.
  - discriminate.
  - eapply kept_tags; eauto.
  - eapply kept_store; eauto.
Qed.

Lemma sub_store w ss tt i o n' l' : good w ss tt -> nth_error (objs w) i = Some o ->
  untainted tt i -> tags_kept (wnext w) (oranges w o) n' l' ->
  forall j oj, j <> i -> nth_error (objs w) j = Some oj ->
     forall t, In t (otags oj) -> store (heap w) l' t = heap w t.
Proof.
  intros G Ho Hu [Hn Hk] j oj Hj Hoj t Hin. apply store_notin. intros Hi.
  apply in_map_iff in Hi as (r & <- & Hr). destruct (Hk r Hr) as [Q|Q].
  - rewrite oranges_tags in Q.
    apply (g_dis _ _ _ G i j o oj (not_eq_sym Hj) Hu Ho Hoj (rid r) Q Hin).
  - pose proof (tag_lt w ss tt j oj _ G Hoj Hin). lia.
Qed.

Lemma tk_tags w o n' l' : tags_kept (wnext w) (oranges w o) n' l' ->
  forall r, In r l' -> In (rid r) (otags o) \/ (wnext w <= rid r)%nat.
Proof.
  intros [_ Hk] r Hr. destruct (Hk r Hr) as [Q|Q]; [left|right; lia].
  rewrite oranges_tags in Q. exact Q.
Qed.

Lemma w_subtract_range_good i w ss tt a z S : good w ss tt -> nth_error ss i = Some S ->
  untainted tt i -> is_char a -> is_char z ->
  exists w', w_subtract_range i w a z = Ok w' /\
    good w' (set_nth ss i (fun x => S x /\ ~ (Z.min a z <= x <= Z.max a z))) tt /\ frame w w' i.
Proof.
  intros G HS Hu Ha Hz.
  destruct (good_get w ss tt i G) as (o & S' & Hg & Ho & HS' & (W & T & M & C)).
  { apply nth_error_Some. congruence. }
  rewrite HS in HS'. inversion HS'; subst S'. clear HS'.
  unfold w_subtract_range. rewrite Hg. cbn [rbind].
  destruct (subtract_range_spec (wnext w) (oranges w o) a z W T Ha Hz)
    as (n' & l' & -> & (W' & M' & T' & K')).
  cbn [rbind]. eexists. split; [reflexivity|].
  pose proof (sub_store w ss tt i o n' l' G Ho Hu K') as Hst. split.
  - eapply good_put; eauto.
    + apply K'.
    + intros c. rewrite M', M. tauto.
    + discriminate.
    + eapply tk_tags; eauto.
  - apply frame_put. exact Hst.
Qed.

Lemma w_subtract_char_good i w ss tt c S : good w ss tt -> nth_error ss i = Some S ->
  untainted tt i -> is_char c ->
  exists w', w_subtract_char i w c = Ok w' /\ good w' (set_nth ss i (fun x => S x /\ x <> c)) tt.
Proof.
  intros G HS Hu Hc.
  destruct (good_get w ss tt i G) as (o & S' & Hg & Ho & HS' & (W & T & M & C)).
  { apply nth_error_Some. congruence. }
  rewrite HS in HS'. inversion HS'; subst S'. clear HS'.
  unfold w_subtract_char. rewrite Hg. cbn [rbind].
  destruct (subtract_char_spec (wnext w) (oranges w o) c W T Hc)
    as (n' & l' & -> & (W' & M' & T' & K')).
  cbn [rbind]. eexists. split; [reflexivity|].
  eapply good_put; eauto.
  - apply K'.
  - intros x. rewrite M', M. assert (c <= x <= c <-> x = c) by lia. tauto.
  - discriminate.
  - eapply tk_tags; eauto.
  - eapply sub_store; eauto.
Qed.

Lemma good_ss_ext w (ss ss' : list cset) tt :
  length ss = length ss' ->
  (forall i S S', nth_error ss i = Some S -> nth_error ss' i = Some S' -> forall c, S c <-> S' c) ->
  good w ss tt -> good w ss' tt.
Proof.
  intros Hl H G. constructor.
  - rewrite <- Hl. apply G.
  - rewrite <- Hl. apply (g_tt _ _ _ G).
  - intros i o S' Ho HS'. destruct (nth_error ss i) as [S|] eqn:ES.
    + apply (okobj_ext w w o S S'); auto. * eapply H; eauto. * eapply g_obj; eauto.
    + apply nth_error_None in ES. assert (i < length ss')%nat by (apply nth_error_Some; congruence). lia.
  - apply G.
Qed.

Lemma set_nth_twice {A} (l : list A) i x y : set_nth (set_nth l i x) i y = set_nth l i y.
Proof. revert i; induction l; destruct i; cbn; auto. f_equal. auto. Qed.

Lemma good_set_ext w ss i (S S' : cset) tt : (forall c, S c <-> S' c) ->
  good w (set_nth ss i S) tt -> good w (set_nth ss i S') tt.
Proof.
  intros H. apply good_ss_ext.
  - rewrite !set_nth_length. reflexivity.
  - intros j T T' H1 H2. destruct (Nat.eq_dec i j) as [<-|Hne].
    + destruct (le_gt_dec (length ss) i) as [L|L].
      * rewrite set_nth_oob in H1, H2 by exact L. rewrite H1 in H2. inversion H2. tauto.
      * rewrite nth_error_set_nth_eq in H1, H2 by exact L. inversion H1. inversion H2. subst. exact H.
    + rewrite nth_error_set_nth_ne in H1, H2 by exact Hne. rewrite H1 in H2. inversion H2. tauto.
Qed.

Definition in_content (l : ranges) (k : nat) (x : Z) : Prop := mem (skipn k l) x.

Lemma skipn_nth {A} (l : list A) k x : nth_error l k = Some x -> skipn k l = x :: skipn (S k) l.
Proof.
  revert k. induction l as [|y l IH]; intros [|k] H; try discriminate.
  - cbn in H. inversion H. reflexivity.
  - cbn in H. cbn [skipn]. rewrite (IH k H). reflexivity.
Qed.

(** iteration over another instance whose ranges the body leaves alone *)
Lemma for_ranges_good (comb : cset -> Z -> Z -> cset) body tt i j :
  i <> j ->
  (forall w ss S a z, good w ss tt -> nth_error ss i = Some S -> is_char a -> is_char z ->
     exists w', body w a z = Ok w' /\ good w' (set_nth ss i (comb S a z)) tt /\ frame w w' i) ->
  forall fuel k w ss S oj,
    good w ss tt -> nth_error ss i = Some S -> nth_error (objs w) j = Some oj ->
    (length (otags oj) - k < fuel)%nat ->
    exists w', for_ranges fuel body w j k = Ok w' /\
      good w' (set_nth ss i (fold_left (fun S r => comb S (rlo r) (rhi r))
                               (skipn k (oranges w oj)) S)) tt /\ frame w w' i.
Proof.
  intros Hij Hbody. induction fuel as [|fuel IH]; intros k w ss S oj G HS Hj Hf; [lia|].
  cbn [for_ranges]. unfold getobj, get. rewrite Hj. cbn [rbind].
  destruct (nth_error (otags oj) k) as [t|] eqn:Ek.
  - assert (Er : nth_error (oranges w oj) k = Some (cell w t)).
    { unfold oranges. apply map_nth_error. exact Ek. }
    assert (Hk : (k < length (otags oj))%nat) by (apply nth_error_Some; congruence).
    destruct (nth_error ss j) as [Sj|] eqn:ESj.
    2:{ apply nth_error_None in ESj. rewrite <- (g_len _ _ _ G) in ESj.
        assert (j < length (objs w))%nat by (apply nth_error_Some; congruence). lia. }
    pose proof (g_obj _ _ _ G j oj Sj Hj ESj) as (Wj & _).
    assert (Wc : wf_r (cell w t)) by (eapply wf_In; [exact Wj|eapply nth_error_In; eauto]).
    unfold wf_r in Wc. cbn in Wc.
    destruct (Hbody w ss S (fst (heap w t)) (snd (heap w t)) G HS)
      as (w1 & E1 & G1 & F1); [unfold is_char; lia|unfold is_char; lia|].
    rewrite E1. cbn [rbind].
    destruct (F1 j (not_eq_sym Hij)) as [Fj Fr].
    destruct (IH (Datatypes.S k) w1 _ (comb S (fst (heap w t)) (snd (heap w t))) oj G1) as (w2 & E2 & G2 & F2).
    + apply nth_error_set_nth_eq. apply nth_error_Some. congruence.
    + congruence.
    + lia.
    + exists w2. split; [exact E2|]. split.
      * rewrite set_nth_twice in G2. rewrite (skipn_nth _ _ _ Er). cbn [fold_left].
        rewrite (Fr oj Hj) in G2. exact G2.
      * intros m Hm. destruct (F1 m Hm) as [A1 B1]. destruct (F2 m Hm) as [A2 B2]. split; [congruence|].
        intros om Hom. rewrite B2 by congruence. apply B1. exact Hom.
  - exists w. split; [reflexivity|]. apply nth_error_None in Ek. split.
    + rewrite skipn_all2 by (unfold oranges; rewrite map_length; exact Ek). cbn [fold_left].
      replace (set_nth ss i S) with ss; [exact G|].
      clear - HS. revert i HS. induction ss as [|x ss IH]; destruct i; cbn; intros H; try discriminate; auto.
      * congruence. * f_equal. auto.
    + intros m Hm. split; auto.
Qed.

Lemma fold_add l : forall (S : cset) x, wf l ->
  fold_left (fun (S : cset) r y => S y \/ Z.min (rlo r) (rhi r) <= y <= Z.max (rlo r) (rhi r)) l S x
  <-> S x \/ mem l x.
Proof.
  induction l as [|r l IH]; intros S x Hw; cbn [fold_left].
  - rewrite mem_nil. tauto.
  - destruct Hw as (Wr & _ & Hw). rewrite IH by exact Hw. rewrite mem_cons. unfold inr_, wf_r in *.
    assert (Z.min (rlo r) (rhi r) <= x <= Z.max (rlo r) (rhi r) <-> rlo r <= x <= rhi r) by lia. tauto.
Qed.
Lemma fold_sub l : forall (S : cset) x, wf l ->
  fold_left (fun (S : cset) r y => S y /\ ~ (Z.min (rlo r) (rhi r) <= y <= Z.max (rlo r) (rhi r))) l S x
  <-> S x /\ ~ mem l x.
Proof.
  induction l as [|r l IH]; intros S x Hw; cbn [fold_left].
  - rewrite mem_nil. tauto.
  - destruct Hw as (Wr & _ & Hw). rewrite IH by exact Hw. rewrite mem_cons. unfold inr_, wf_r in *.
    assert (Z.min (rlo r) (rhi r) <= x <= Z.max (rlo r) (rhi r) <-> rlo r <= x <= rhi r) by lia. tauto.
Qed.

Lemma good_clear w ss tt i o : good w ss tt -> nth_error (objs w) i = Some o ->
  good (setobj w i (mko (otags o) clear_cache)) ss tt.
Proof.
  intros G Ho. assert (Hi : (i < length (objs w))%nat) by (apply nth_error_Some; congruence).
  constructor.
  - cbn. rewrite set_nth_length. apply G.
  - apply G.
  - intros j oj S Hj HS. cbn in Hj. destruct (Nat.eq_dec i j) as [<-|Hne].
    + rewrite nth_error_set_nth_eq in Hj by exact Hi. inversion Hj; subst oj.
      destruct (g_obj _ _ _ G i o S Ho HS) as (A & B & C & D).
      unfold okobj, oranges in *. cbn [otags ocache wnext setobj].
      psplit; auto. apply clear_cache_ok.
    + rewrite nth_error_set_nth_ne in Hj by exact Hne. apply (g_obj _ _ _ G j oj S Hj HS).
  - intros j k oj ok Hjk Hf Hj Hk t Hin. cbn in Hj, Hk.
    assert (Hx : forall m om, nth_error (set_nth (objs w) i (mko (otags o) clear_cache)) m = Some om ->
               exists om', nth_error (objs w) m = Some om' /\ otags om' = otags om).
    { intros m om Hm. destruct (Nat.eq_dec i m) as [<-|Hne].
      - rewrite nth_error_set_nth_eq in Hm by exact Hi. inversion Hm; subst. eauto.
      - rewrite nth_error_set_nth_ne in Hm by exact Hne. eauto. }
    destruct (Hx j oj Hj) as (oj' & Hj' & Ej). destruct (Hx k ok Hk) as (ok' & Hk' & Ek).
    rewrite <- Ek. rewrite <- Ej in Hin. eapply (g_dis _ _ _ G j k); eauto.
Qed.

Lemma good_share w ss tt i j oi oj Sj : good w ss tt ->
  nth_error (objs w) i = Some oi -> nth_error (objs w) j = Some oj -> nth_error ss j = Some Sj ->
  i <> j ->
  good (setobj w i (mko (otags oj) clear_cache)) (set_nth ss i Sj) (taint2 tt i j).
Proof.
  intros G Hi Hj HSj Hij.
  assert (Li : (i < length (objs w))%nat) by (apply nth_error_Some; congruence).
  assert (Lj : (j < length (objs w))%nat) by (apply nth_error_Some; congruence).
  assert (Lt : length (objs w) = length tt) by (rewrite (g_len _ _ _ G); apply G).
  constructor.
  - cbn. rewrite !set_nth_length. apply G.
  - unfold taint2. rewrite !set_nth_length. apply G.
  - intros k ok S Hk HS. cbn in Hk. destruct (Nat.eq_dec i k) as [<-|Hne].
    + rewrite nth_error_set_nth_eq in Hk by exact Li. inversion Hk; subst ok.
      rewrite nth_error_set_nth_eq in HS by (rewrite <- (g_len _ _ _ G); exact Li). inversion HS; subst S.
      destruct (g_obj _ _ _ G j oj Sj Hj HSj) as (A & B & C & D).
      unfold okobj, oranges in *. cbn [otags ocache wnext setobj].
      psplit; auto. apply clear_cache_ok.
    + rewrite nth_error_set_nth_ne in Hk by exact Hne. rewrite nth_error_set_nth_ne in HS by exact Hne.
      apply (g_obj _ _ _ G k ok S Hk HS).
  - intros a b oa ob Hab Hf Ha Hb t Hin. cbn in Ha, Hb. unfold taint2 in Hf.
    assert (Haj : a <> j).
    { intros ->. rewrite nth_error_set_nth_eq in Hf; [discriminate|]. rewrite set_nth_length. lia. }
    rewrite nth_error_set_nth_ne in Hf by auto.
    assert (Hai : a <> i).
    { intros ->. rewrite nth_error_set_nth_eq in Hf; [discriminate|]. lia. }
    rewrite nth_error_set_nth_ne in Hf by auto.
    rewrite nth_error_set_nth_ne in Ha by auto.
    destruct (Nat.eq_dec i b) as [<-|Hne].
    + rewrite nth_error_set_nth_eq in Hb by exact Li. inversion Hb; subst ob. cbn.
      eapply (g_dis _ _ _ G a j oa oj); eauto.
    + rewrite nth_error_set_nth_ne in Hb by auto. eapply (g_dis _ _ _ G a b oa ob); eauto.
Qed.

Lemma good_taint w ss tt tt' : length tt = length tt' ->
  (forall i, nth_error tt' i = Some false -> nth_error tt i = Some false) ->
  good w ss tt -> good w ss tt'.
Proof.
  intros Hl H G. constructor; try apply G.
  - rewrite <- Hl. apply G.
  - intros i j oi oj Hij Hf. apply (g_dis _ _ _ G); auto.
Qed.

Lemma taint2_le tt i j k : nth_error (taint2 tt i j) k = Some false -> nth_error tt k = Some false.
Proof.
  unfold taint2. intros H. assert (Hs : forall (l : list bool) m, nth_error (set_nth l m true) k = Some false ->
    nth_error l k = Some false).
  { intros l m Hq. destruct (Nat.eq_dec m k) as [->|Hne].
    - destruct (le_gt_dec (length l) k) as [L|L].
      + rewrite set_nth_oob in Hq; auto.
      + rewrite nth_error_set_nth_eq in Hq by exact L. discriminate.
    - rewrite nth_error_set_nth_ne in Hq; auto. }
  apply Hs in H. apply Hs in H. exact H.
Qed.

Lemma good_taint2 w ss tt i j : good w ss tt -> good w ss (taint2 tt i j).
Proof.
  apply good_taint.
  - unfold taint2. rewrite !set_nth_length. reflexivity.
  - apply taint2_le.
Qed.

Lemma nth_set_of ss j Sj : nth_error ss j = Some Sj -> set_of ss j = Sj.
Proof. intros H. unfold set_of. apply nth_error_nth. exact H. Qed.

Lemma iter_fuel_eq w j oj : nth_error (objs w) j = Some oj -> iter_fuel w j = S (length (otags oj)).
Proof. unfold iter_fuel. intros ->. reflexivity. Qed.

(** iteration over the instance itself with add_range: nothing changes *)
Lemma ranges_eqb_length : forall l1 l2, ranges_eqb l1 l2 = true -> length l1 = length l2.
Proof. induction l1; intros [|] H; cbn in *; try discriminate; auto. b2p. f_equal. auto. Qed.

Lemma for_ranges_self_add i tt : forall fuel k w ss S o,
  good w ss tt -> nth_error ss i = Some S -> nth_error (objs w) i = Some o ->
  (length (otags o) - k < fuel)%nat ->
  exists w', for_ranges fuel (w_add_range i) w i k = Ok w' /\ good w' ss tt.
Proof.
  induction fuel as [|fuel IH]; intros k w ss S o G HS Ho Hf; [lia|].
  cbn [for_ranges]. unfold getobj, get. rewrite Ho. cbn [rbind].
  destruct (nth_error (otags o) k) as [t|] eqn:Ek.
  2:{ exists w. split; [reflexivity|exact G]. }
  assert (Er : nth_error (oranges w o) k = Some (cell w t)).
  { unfold oranges. apply map_nth_error. exact Ek. }
  assert (Hk : (k < length (otags o))%nat) by (apply nth_error_Some; congruence).
  pose proof (g_obj _ _ _ G i o S Ho HS) as (W & T & M & C).
  assert (Wc : wf_r (cell w t)) by (eapply wf_In; [exact W|eapply nth_error_In; eauto]).
  unfold wf_r in Wc. cbn in Wc.
  destruct (w_add_range_good i w ss tt (fst (heap w t)) (snd (heap w t)) S G HS)
    as (w1 & E1 & G1 & F1); [unfold is_char; lia|unfold is_char; lia|].
  rewrite E1. cbn [rbind].
  assert (Hsame : forall c, S c \/ Z.min (fst (heap w t)) (snd (heap w t)) <= c <= Z.max (fst (heap w t)) (snd (heap w t)) <-> S c).
  { intros c. split; [|auto]. intros [Q|Q]; [exact Q|]. apply M. exists (cell w t).
    split; [eapply nth_error_In; eauto|]. unfold inr_. cbn. lia. }
  assert (G1' : good w1 ss tt).
  { eapply good_ss_ext; [|  |exact G1].
    - rewrite set_nth_length. reflexivity.
    - intros j Sj Sj' H1 H2 c. destruct (Nat.eq_dec i j) as [<-|Hne].
      + rewrite nth_error_set_nth_eq in H1 by (apply nth_error_Some; congruence).
        inversion H1; subst. rewrite HS in H2. inversion H2; subst. apply Hsame.
      + rewrite nth_error_set_nth_ne in H1 by exact Hne. rewrite H1 in H2. inversion H2. tauto. }
  destruct (good_get w1 ss tt i G1') as (o1 & S1 & _ & Ho1 & HS1 & (W1 & T1 & M1 & C1)).
  { apply nth_error_Some. congruence. }
  rewrite HS in HS1. inversion HS1; subst S1.
  apply (IH (Datatypes.S k) w1 ss S o1 G1' HS Ho1).
  assert (length (oranges w o) = length (oranges w1 o1)).
  { apply ranges_eqb_length. apply wf_mem_eq; auto. intros c. rewrite M, M1. tauto. }
  unfold oranges in *. rewrite !map_length in *. lia.
Qed.

Lemma w_add_class_good i j w ss tt : good w ss tt -> (i < length ss)%nat -> (j < length ss)%nat ->
  exists w', w_add_class i j w = Ok w' /\
    ((exists x, set_of ss i x) -> good w' (spec_call ss (AddClass i j)) tt) /\
    good w' (spec_call ss (AddClass i j)) (taint2 tt i j).
Proof.
  intros G Hi Hj.
  destruct (good_get w ss tt i G Hi) as (oi & Si & Hgi & Hoi & HSi & OKi).
  destruct (good_get w ss tt j G Hj) as (oj & Sj & Hgj & Hoj & HSj & OKj).
  unfold w_add_class. rewrite Hgi. cbn [rbind]. cbn [spec_call].
  rewrite (upd_set ss i Si) by exact HSi. rewrite (nth_set_of ss j Sj HSj).
  destruct (otags oi) as [|t0 ts] eqn:Et.
  - rewrite Hgj. cbn [rbind].
    unfold getobj at 1, get. cbn [objs setobj].
    rewrite nth_error_set_nth_eq by (rewrite (g_len _ _ _ G); exact Hi). cbn [rbind otags].
    assert (Eset : setobj (setobj w i (mko (otags oj) (ocache oi))) i (mko (otags oj) clear_cache)
            = setobj w i (mko (otags oj) clear_cache)).
    { unfold setobj. cbn. rewrite set_nth_twice. reflexivity. }
    rewrite Eset. eexists. split; [reflexivity|].
    assert (HnSi : forall x, ~ Si x).
    { intros x Hx. destruct OKi as (_ & _ & M & _). apply M in Hx. unfold oranges in Hx.
      rewrite Et in Hx. apply mem_nil in Hx. exact Hx. }
    split.
    + intros (x & Hx). rewrite (nth_set_of ss i Si HSi) in Hx. exfalso. eapply HnSi; eauto.
    + destruct (Nat.eq_dec i j) as [<-|Hne].
      * rewrite Hoi in Hoj. inversion Hoj; subst oj. rewrite HSi in HSj. inversion HSj; subst Sj.
        apply good_taint2. eapply good_ss_ext; [| |apply (good_clear w ss tt i oi G Hoi)].
        -- rewrite set_nth_length. reflexivity.
        -- intros k S S' H1 H2 c. destruct (Nat.eq_dec i k) as [<-|Hne].
           ++ rewrite nth_error_set_nth_eq in H2 by exact Hi. inversion H2; subst.
              rewrite HSi in H1. inversion H1; subst. tauto.
           ++ rewrite nth_error_set_nth_ne in H2 by exact Hne. rewrite H1 in H2. inversion H2. tauto.
      * eapply good_set_ext; [|apply (good_share w ss tt i j oi oj Sj G Hoi Hoj HSj Hne)].
        intros c. specialize (HnSi c). tauto.
  - assert (Hloop : exists w1, for_ranges (iter_fuel w j) (w_add_range i) w j 0 = Ok w1 /\
              good w1 (set_nth ss i (fun x => Si x \/ Sj x)) tt).
    { rewrite (iter_fuel_eq w j oj Hoj). destruct (Nat.eq_dec i j) as [<-|Hne].
      - rewrite HSi in HSj. inversion HSj; subst Sj.
        destruct (for_ranges_self_add i tt (S (length (otags oj))) 0 w ss Si oj G HSi Hoj ltac:(lia))
          as (w1 & E1 & G1).
        exists w1. split; [exact E1|]. eapply good_ss_ext; [| |exact G1].
        + rewrite set_nth_length. reflexivity.
        + intros k S S' H1 H2 c. destruct (Nat.eq_dec i k) as [<-|Hne].
          * rewrite nth_error_set_nth_eq in H2 by exact Hi. inversion H2; subst.
            rewrite HSi in H1. inversion H1; subst. tauto.
          * rewrite nth_error_set_nth_ne in H2 by exact Hne. rewrite H1 in H2. inversion H2. tauto.
      - destruct (for_ranges_good (fun S a z x => S x \/ Z.min a z <= x <= Z.max a z)
                    (w_add_range i) tt i j Hne) with (fuel := S (length (otags oj))) (k := 0%nat)
                    (w := w) (ss := ss) (S := Si) (oj := oj) as (w1 & E1 & G1 & _); auto; try lia.
        + intros w2 ss2 S a z G2 HS2 Ha Hz. apply w_add_range_good; auto.
        + exists w1. split; [exact E1|]. eapply good_set_ext; [|exact G1].
          intros c. cbn [skipn]. destruct OKj as (Wj & _ & Mj & _).
          rewrite (fold_add (oranges w oj) Si c Wj). rewrite Mj. tauto. }
    destruct Hloop as (w1 & -> & G1). cbn [rbind].
    destruct (good_get w1 _ tt i G1) as (o1 & S1 & Hg1 & Ho1 & _).
    { rewrite set_nth_length. exact Hi. }
    rewrite Hg1. cbn [rbind]. eexists. split; [reflexivity|].
    pose proof (good_clear w1 _ tt i o1 G1 Ho1) as G2. split.
    + intros _. exact G2.
    + apply good_taint2. exact G2.
Qed.

Lemma w_subtract_class_good i j w ss tt : good w ss tt -> (i < length ss)%nat -> (j < length ss)%nat ->
  untainted tt i -> i <> j ->
  exists w', w_subtract_class i j w = Ok w' /\ good w' (spec_call ss (SubtractClass i j)) tt.
Proof.
  intros G Hi Hj Hu Hne.
  destruct (good_get w ss tt i G Hi) as (oi & Si & Hgi & Hoi & HSi & OKi).
  destruct (good_get w ss tt j G Hj) as (oj & Sj & Hgj & Hoj & HSj & OKj).
  unfold w_subtract_class. rewrite (iter_fuel_eq w j oj Hoj). cbn [spec_call].
  rewrite (upd_set ss i Si) by exact HSi. rewrite (nth_set_of ss j Sj HSj).
  destruct (for_ranges_good (fun S a z x => S x /\ ~ (Z.min a z <= x <= Z.max a z))
              (w_subtract_range i) tt i j Hne) with (fuel := S (length (otags oj))) (k := 0%nat)
              (w := w) (ss := ss) (S := Si) (oj := oj) as (w1 & E1 & G1 & _); auto; try lia.
  - intros w2 ss2 S a z G2 HS2 Ha Hz. apply w_subtract_range_good; auto.
  - rewrite E1. cbn [rbind].
    destruct (good_get w1 _ tt i G1) as (o1 & S1 & Hg1 & Ho1 & _).
    { rewrite set_nth_length. exact Hi. }
    rewrite Hg1. cbn [rbind]. eexists. split; [reflexivity|].
    pose proof (good_clear w1 _ tt i o1 G1 Ho1) as G2.
    eapply good_set_ext; [|exact G2]. intros c. cbn [skipn]. destruct OKj as (Wj & _ & Mj & _).
    rewrite (fold_sub (oranges w oj) Si c Wj). rewrite Mj. tauto.
Qed.

Lemma w_new_good w ss tt : good w ss tt -> good (w_new w) (ss ++ [fun _ => False]) (tt ++ [false]).
Proof.
  intros G. constructor.
  - cbn. rewrite !app_length. cbn. rewrite (g_len _ _ _ G). reflexivity.
  - rewrite !app_length. cbn. rewrite (g_tt _ _ _ G). reflexivity.
  - intros i o S Ho HS. cbn [objs w_new] in Ho.
    destruct (lt_eq_lt_dec i (length (objs w))) as [[L| ->]|L].
    + rewrite nth_error_app1 in Ho by exact L.
      rewrite nth_error_app1 in HS by (rewrite <- (g_len _ _ _ G); exact L).
      apply (g_obj _ _ _ G i o S Ho HS).
    + rewrite nth_error_app2, Nat.sub_diag in Ho by lia. cbn in Ho. inversion Ho; subst.
      rewrite (g_len _ _ _ G), nth_error_app2, Nat.sub_diag in HS by lia. cbn in HS. inversion HS; subst.
      unfold okobj, oranges. cbn [otags ocache map wnext w_new wf]. psplit; auto.
      * split; constructor.
      * intros c. rewrite mem_nil. tauto.
      * apply clear_cache_ok.
    + assert (nth_error (objs w ++ [mko [] clear_cache]) i = None); [|congruence].
      apply nth_error_None. rewrite app_length. cbn. lia.
  - intros i j oi oj Hij Hf Hi Hj t Hin Hin'. cbn [objs w_new] in Hi, Hj.
    assert (Hx : forall m om, nth_error (objs w ++ [mko [] clear_cache]) m = Some om ->
              In t (otags om) -> nth_error (objs w) m = Some om /\ (m < length (objs w))%nat).
    { intros m om Hm Ht. destruct (lt_eq_lt_dec m (length (objs w))) as [[L| ->]|L].
      - rewrite nth_error_app1 in Hm by exact L. auto.
      - rewrite nth_error_app2, Nat.sub_diag in Hm by lia. cbn in Hm. inversion Hm; subst. destruct Ht.
      - assert (nth_error (objs w ++ [mko [] clear_cache]) m = None); [|congruence].
        apply nth_error_None. rewrite app_length. cbn. lia. }
    destruct (Hx i oi Hi Hin) as [Hi' Li]. destruct (Hx j oj Hj Hin') as [Hj' Lj].
    rewrite nth_error_app1 in Hf by (rewrite <- (g_tt _ _ _ G), <- (g_len _ _ _ G); exact Li).
    eapply (g_dis _ _ _ G i j oi oj); eauto.
Qed.

Lemma nth_error_firstn_lt {A} (l : list A) k i : (i < k)%nat -> nth_error (firstn k l) i = nth_error l i.
Proof. revert k i; induction l; destruct k, i; cbn; intros; auto; try lia. apply IHl. lia. Qed.

Lemma set_nth_app_l {A} (l1 l2 : list A) i v : (i < length l1)%nat -> set_nth (l1 ++ l2) i v = set_nth l1 i v ++ l2.
Proof. revert i; induction l1; destruct i; cbn; intros; auto; try lia. f_equal. apply IHl1. lia. Qed.
Lemma set_nth_app_r {A} (l1 l2 : list A) i v : i = length l1 -> set_nth (l1 ++ l2) i v = l1 ++ set_nth l2 0 v.
Proof. intros ->. induction l1; cbn; auto. f_equal. auto. Qed.

Lemma w_negate_good i w ss tt : good w ss tt -> (i < length ss)%nat ->
  exists w', w_negate i w = Ok w' /\ good w' (spec_call ss (Negate i)) (set_nth tt i false).
Proof.
  intros G Hi. unfold w_negate. set (k := length (objs w)).
  assert (Ek : k = length ss) by apply (g_len _ _ _ G).
  pose proof (w_new_good w ss tt G) as G0.
  set (ss1 := ss ++ [fun _ : Z => False]) in *. set (tt1 := tt ++ [false]) in *.
  assert (Hk1 : nth_error ss1 k = Some (fun _ => False)).
  { unfold ss1. rewrite nth_error_app2 by lia. rewrite Ek, Nat.sub_diag. reflexivity. }
  assert (Hl1 : length ss1 = S k) by (unfold ss1; rewrite app_length; cbn; lia).
  assert (Hu : untainted tt1 k).
  { unfold untainted, tt1. rewrite nth_error_app2 by (rewrite <- (g_tt _ _ _ G); lia).
    rewrite <- (g_tt _ _ _ G), Ek, Nat.sub_diag. reflexivity. }
  destruct (w_add_range_good k (w_new w) ss1 tt1 0 maxunicode _ G0 Hk1) as (w1 & -> & G1 & _);
    [unfold is_char, maxunicode; lia|unfold is_char, maxunicode; lia|].
  cbn [rbind].
  set (Sfull := fun x => False \/ Z.min 0 maxunicode <= x <= Z.max 0 maxunicode) in *.
  destruct (w_subtract_class_good k i w1 (set_nth ss1 k Sfull) tt1 G1) as (w2 & -> & G2); auto.
  { rewrite set_nth_length, Hl1. lia. }
  { rewrite set_nth_length, Hl1. lia. }
  { lia. }
  cbn [rbind]. destruct (nth_error ss i) as [Si|] eqn:HSi.
  2:{ apply nth_error_None in HSi. lia. }
  assert (HSi1 : nth_error ss1 i = Some Si) by (unfold ss1; rewrite nth_error_app1 by lia; exact HSi).
  cbn [spec_call] in G2.
  rewrite (upd_set _ k Sfull) in G2 by (apply nth_error_set_nth_eq; lia).
  rewrite (nth_set_of _ i Si) in G2 by (rewrite nth_error_set_nth_ne by lia; exact HSi1).
  rewrite set_nth_twice in G2.
  set (Sneg := fun x => Sfull x /\ ~ Si x) in *.
  destruct (good_get w2 _ tt1 k G2) as (otmp & Stmp & Hgt & Hot & HSt & OKt).
  { rewrite set_nth_length. lia. }
  rewrite nth_error_set_nth_eq in HSt by lia. inversion HSt; subst Stmp. clear HSt.
  destruct (good_get w2 _ tt1 i G2) as (o & So & Hgo & Hoo & HSo & OKo).
  { rewrite set_nth_length. lia. }
  rewrite Hgt, Hgo. cbn [rbind]. eexists. split; [reflexivity|].
  cbn [spec_call]. rewrite (upd_set ss i Si) by exact HSi.
  assert (Ess : set_nth ss1 k Sneg = ss ++ [Sneg]).
  { unfold ss1. rewrite set_nth_app_r by exact Ek. reflexivity. }
  rewrite Ess in *.
  assert (Lw2 : length (objs w2) = S k) by (rewrite (g_len _ _ _ G2), app_length; cbn; lia).
  assert (Ltt : length tt = k) by (rewrite <- (g_tt _ _ _ G); lia).
  constructor.
  - cbn. rewrite firstn_length, set_nth_length, set_nth_length, Lw2. lia.
  - rewrite !set_nth_length. apply G.
  - intros m om S Hm HS. cbn [objs setobj] in Hm.
    assert (Lm : (m < k)%nat).
    { assert (m < length ss)%nat; [|lia]. rewrite <- (set_nth_length ss i (fun x => is_char x /\ ~ Si x)).
      apply nth_error_Some. congruence. }
    rewrite nth_error_firstn_lt in Hm by exact Lm.
    destruct (Nat.eq_dec i m) as [<-|Hne].
    + rewrite nth_error_set_nth_eq in Hm by lia. inversion Hm; subst om.
      rewrite nth_error_set_nth_eq in HS by lia. inversion HS; subst S.
      destruct OKt as (A & B & C & D). unfold okobj, oranges in *.
      cbn [otags ocache wnext]. psplit; auto; [|apply clear_cache_ok].
      intros c. etransitivity; [apply C|]. unfold Sneg, Sfull, is_char.
      replace (Z.min 0 maxunicode) with 0 by reflexivity.
      replace (Z.max 0 maxunicode) with maxunicode by reflexivity. tauto.
    + rewrite nth_error_set_nth_ne in Hm by exact Hne. rewrite nth_error_set_nth_ne in HS by exact Hne.
      apply (g_obj _ _ _ G2 m om S Hm). rewrite nth_error_app1 by lia. exact HS.
  - intros a b oa ob Hab Hf Ha Hb t Hin. cbn [objs setobj] in Ha, Hb.
    assert (La : (a < k)%nat).
    { assert (a < length (set_nth tt i false))%nat by (apply nth_error_Some; congruence).
      rewrite set_nth_length in *. lia. }
    assert (Lb : (b < k)%nat).
    { destruct (le_gt_dec k b) as [L|L]; [|exact L]. exfalso.
      assert (nth_error (firstn k (set_nth (objs w2) i (mko (otags otmp) clear_cache))) b = None); [|congruence].
      apply nth_error_None. rewrite firstn_length. lia. }
    rewrite nth_error_firstn_lt in Ha by exact La. rewrite nth_error_firstn_lt in Hb by exact Lb.
    destruct (Nat.eq_dec i a) as [<-|Hna]; [|destruct (Nat.eq_dec i b) as [<-|Hnb]].
    + rewrite nth_error_set_nth_eq in Ha by lia. inversion Ha; subst oa. cbn in Hin.
      rewrite nth_error_set_nth_ne in Hb by exact Hab.
      apply (g_dis _ _ _ G2 k b otmp ob); auto. lia.
    + rewrite nth_error_set_nth_ne in Ha by exact Hna.
      rewrite nth_error_set_nth_eq in Hb by lia. inversion Hb; subst ob. cbn. intros Hin'.
      apply (g_dis _ _ _ G2 k a otmp oa) with (t := t); auto. lia.
    + rewrite nth_error_set_nth_ne in Ha by exact Hna. rewrite nth_error_set_nth_ne in Hb by exact Hnb.
      apply (g_dis _ _ _ G2 a b oa ob); auto. unfold tt1. rewrite nth_error_app1 by lia.
      rewrite nth_error_set_nth_ne in Hf by exact Hna. exact Hf.
Qed.

Lemma w_test_good i w ss tt c : good w ss tt -> (i < length ss)%nat -> is_char c ->
  exists b w', w_test i w c = Ok (b, w') /\ (b = true <-> set_of ss i c) /\ good w' ss tt.
Proof.
  intros G Hi Hc.
  destruct (good_get w ss tt i G Hi) as (o & S & Hg & Ho & HS & (W & T & M & C)).
  unfold w_test. rewrite Hg. cbn [rbind].
  destruct (test_spec (oranges w o) (ocache o) c W Hc C) as (b & bc & -> & Hb & C').
  cbn [rbind]. exists b. eexists. split; [reflexivity|]. split.
  - rewrite Hb, M, (nth_set_of ss i S HS). tauto.
  - constructor.
    + cbn. rewrite set_nth_length. apply G.
    + apply G.
    + intros j oj Sj Hj HSj. cbn in Hj. destruct (Nat.eq_dec i j) as [<-|Hne].
      * rewrite nth_error_set_nth_eq in Hj by (rewrite (g_len _ _ _ G); exact Hi).
        inversion Hj; subst. rewrite HS in HSj. inversion HSj; subst.
        unfold okobj, oranges in *. cbn. auto.
      * rewrite nth_error_set_nth_ne in Hj by exact Hne. apply (g_obj _ _ _ G j oj Sj Hj HSj).
    + intros a d oa od Had Hf Ha Hd t Hin. cbn in Ha, Hd.
      assert (Hx : forall m om, nth_error (set_nth (objs w) i (mko (otags o) bc)) m = Some om ->
               exists om', nth_error (objs w) m = Some om' /\ otags om' = otags om).
      { intros m om Hm. destruct (Nat.eq_dec i m) as [<-|Hne].
        - rewrite nth_error_set_nth_eq in Hm by (rewrite (g_len _ _ _ G); exact Hi). inversion Hm; subst. eauto.
        - rewrite nth_error_set_nth_ne in Hm by exact Hne. eauto. }
      destruct (Hx a oa Ha) as (oa' & Ha' & Ea). destruct (Hx d od Hd) as (od' & Hd' & Ed).
      rewrite <- Ed. rewrite <- Ea in Hin. eapply (g_dis _ _ _ G a d); eauto.
Qed.

Lemma good_w0 : good w0 [] [].
Proof. constructor; auto; intros; destruct i; discriminate. Qed.

Lemma spec_call_length ss k : k <> New -> length (spec_call ss k) = length ss.
Proof.
  destruct k; intros; cbn; try congruence; unfold upd;
    try (destruct (nth_error ss i); rewrite ?set_nth_length; reflexivity).
Qed.

Lemma run_good : forall h w ss tt, good w ss tt -> covered ss tt h ->
  exists w' tt', run w h = Ok w' /\ good w' (spec_run ss h) tt'.
Proof.
  induction h as [|k h IH]; intros w ss tt G Hcov; [exists w, tt; auto|].
  cbn [covered] in Hcov. destruct Hcov as [Hv Hcov]. cbn [run spec_run].
  assert (Hnth : forall i, (i < length ss)%nat -> exists S, nth_error ss i = Some S).
  { intros i Hi. destruct (nth_error ss i) as [S|] eqn:E; [eauto|]. apply nth_error_None in E. lia. }
  destruct k; cbn [call_valid] in Hv; cbn [do_call].
  - cbn [rbind]. eapply IH; [|exact Hcov]. apply w_new_good. exact G.
  - destruct Hv as [Hi Hc]. destruct (Hnth i Hi) as (S & HS).
    destruct (w_add_char_good i w ss tt c S G HS Hc) as (w' & -> & G'). cbn [rbind].
    eapply IH; [|exact Hcov]. cbn [spec_call]. rewrite (upd_set ss i S) by exact HS. exact G'.
  - destruct Hv as (Hi & Ha & Hz). destruct (Hnth i Hi) as (S & HS).
    destruct (w_add_range_good i w ss tt a z S G HS Ha Hz) as (w' & -> & G' & _). cbn [rbind].
    eapply IH; [|exact Hcov]. cbn [spec_call]. rewrite (upd_set ss i S) by exact HS. exact G'.
  - destruct Hv as [Hi Hj].
    destruct (w_add_class_good i j w ss tt G Hi Hj) as (w' & -> & G1 & G2). cbn [rbind].
    destruct Hcov as [[Hex Hcov]|Hcov]; [exact (IH _ _ _ (G1 Hex) Hcov)|exact (IH _ _ _ G2 Hcov)].
  - destruct Hv as [Hi Hc]. destruct Hcov as [Hu Hcov]. destruct (Hnth i Hi) as (S & HS).
    destruct (w_subtract_char_good i w ss tt c S G HS Hu Hc) as (w' & -> & G'). cbn [rbind].
    eapply IH; [|exact Hcov]. cbn [spec_call]. rewrite (upd_set ss i S) by exact HS. exact G'.
  - destruct Hv as (Hi & Ha & Hz). destruct Hcov as [Hu Hcov]. destruct (Hnth i Hi) as (S & HS).
    destruct (w_subtract_range_good i w ss tt a z S G HS Hu Ha Hz) as (w' & -> & G' & _). cbn [rbind].
    eapply IH; [|exact Hcov]. cbn [spec_call]. rewrite (upd_set ss i S) by exact HS. exact G'.
  - destruct Hv as [Hi Hj]. destruct Hcov as (Hu & Hne & Hcov).
    destruct (w_subtract_class_good i j w ss tt G Hi Hj Hu Hne) as (w' & -> & G1). cbn [rbind].
    eapply IH; eauto.
  - destruct (w_negate_good i w ss tt G Hv) as (w' & -> & G1). cbn [rbind]. eapply IH; eauto.
  - destruct Hv as [Hi Hc]. destruct (w_test_good i w ss tt c G Hi Hc) as (b & w' & -> & _ & G').
    cbn [rbind]. eapply IH; eauto.
Qed.
