(** The invariants of the pool of connections. *)
From Verif Require Import SpModel.

Definition keys (d : list (nat * nat)) : list nat := map fst d.
Definition vals (d : list (nat * nat)) : list nat := map snd d.
Definition tabs (p : pool) : list nat := vals (locked p) ++ vals (unlocked p) ++ idle p.
Definition free (p : pool) : list nat := vals (unlocked p) ++ idle p.

Lemma upd_same : forall A (f : nat -> A) k v, upd f k v k = v.
Proof. intros. unfold upd. rewrite Nat.eqb_refl. reflexivity. Qed.
Lemma upd_other : forall A (f : nat -> A) k v x, x <> k -> upd f k v x = f x.
Proof. intros. unfold upd. apply Nat.eqb_neq in H. rewrite H. reflexivity. Qed.
Lemma lookup_in : forall t d i, lookup t d = Some i -> In (t, i) d.
Proof.
  induction d as [|[k v] d IH]; intros i H; [discriminate|]. cbn in H. destruct (Nat.eqb_spec k t) as [->|N]; [injection H as ->; left; reflexivity|right; auto].
Qed.
Lemma lookup_none : forall t d, lookup t d = None <-> ~ In t (keys d).
Proof.
  induction d as [|[k v] d IH]; cbn; [tauto|]. destruct (Nat.eqb_spec k t) as [->|N]; [split; [discriminate|tauto]|]. rewrite IH. tauto.
Qed.
Lemma lookup_some : forall t d i, NoDup (keys d) -> In (t, i) d -> lookup t d = Some i.
Proof.
  induction d as [|[k v] d IH]; intros i N H; [destruct H|]. inversion N; subst. cbn. destruct H as [H|H].
  - injection H as -> ->. rewrite Nat.eqb_refl. reflexivity.
  - destruct (Nat.eqb_spec k t) as [->|Nk]; [|auto]. exfalso. apply H2. change t with (fst (t, i)). apply in_map, H.
Qed.
Lemma in_keys : forall t i d, In (t, i) d -> In t (keys d).
Proof. intros t i d H. change t with (fst (t, i)). apply in_map, H. Qed.
Lemma in_vals : forall t i d, In (t, i) d -> In i (vals d).
Proof. intros t i d H. change i with (snd (t, i)). apply in_map, H. Qed.
Lemma vals_in : forall i d, In i (vals d) -> exists t, In (t, i) d.
Proof. intros i d H. apply in_map_iff in H as ([t j] & E & H). cbn in E. subst. eauto. Qed.
Lemma keys_in : forall i d, In i (keys d) -> exists t, In (i, t) d.
Proof. intros i d H. apply in_map_iff in H as ([t j] & E & H). cbn in E. subst. eauto. Qed.
Lemma del_id : forall t d, ~ In t (keys d) -> del t d = d.
Proof.
  induction d as [|[k v] d IH]; intro H; [reflexivity|]. unfold del in *. cbn in *. destruct (Nat.eqb_spec k t) as [->|N]; [tauto|]. cbn. rewrite IH by tauto. reflexivity.
Qed.
Lemma del_perm : forall t i d, NoDup (keys d) -> In (t, i) d -> Permutation d ((t, i) :: del t d).
Proof.
  induction d as [|[k v] d IH]; intros N H; [destruct H|]. inversion N; subst. destruct H as [H|H].
  - injection H as -> ->. unfold del. cbn. rewrite Nat.eqb_refl. cbn. fold (del t d). rewrite del_id by assumption. reflexivity.
  - assert (k <> t) by (intros ->; apply H2; eapply in_keys, H). unfold del. cbn. destruct (Nat.eqb_spec k t) as [|_]; [contradiction|]. cbn. fold (del t d).
    etransitivity; [apply perm_skip, IH; assumption|apply perm_swap].
Qed.
Lemma in_del : forall x t d, In x (del t d) <-> In x d /\ fst x <> t.
Proof. intros. unfold del. rewrite filter_In. destruct (Nat.eqb_spec (fst x) t); cbn; intuition discriminate. Qed.
Lemma keys_del : forall k t d, In k (keys (del t d)) <-> In k (keys d) /\ k <> t.
Proof.
  intros. unfold keys. rewrite !in_map_iff. split.
  - intros (x & E & H). apply in_del in H as [H H']. subst. eauto.
  - intros [(x & E & H) N]. exists x. split; [assumption|]. apply in_del. subst. auto.
Qed.
Lemma nodup_filter_map : forall A B (f : A -> B) g l, NoDup (map f l) -> NoDup (map f (filter g l)).
Proof.
  induction l as [|x l IH]; intro H; [constructor|]. inversion H; subst. cbn. destruct (g x); [|auto]. cbn. constructor; [|auto].
  intro K. apply H2. apply in_map_iff in K as (y & E & K). apply filter_In in K as [K _]. rewrite <- E. apply in_map, K.
Qed.
Lemma nodup_keys_del : forall t d, NoDup (keys d) -> NoDup (keys (del t d)).
Proof. intros. apply nodup_filter_map. assumption. Qed.
Lemma pick_in : forall A k (l : list A) x, pick k l = Some x -> In x l.
Proof. intros A k [|a l] x H; [discriminate|]. unfold pick in H. eapply nth_error_In, H. Qed.
Lemma pick_none : forall A k (l : list A), pick k l = None -> l = [].
Proof.
  intros A k [|a l] H; [reflexivity|]. exfalso. unfold pick in H. apply nth_error_None in H.
  pose proof (Nat.mod_upper_bound k (length (a :: l))). cbn [length] in *. lia.
Qed.
Lemma last_perm : forall (l : list nat), l <> [] -> Permutation l (last l 0 :: removelast l).
Proof. intros l H. rewrite (app_removelast_last 0 H) at 1. apply Permutation_sym, Permutation_cons_append. Qed.

Section inv.
  Variables ts0 recycle : bool.
  Variable maxc : nat.
  Notation cmax := (cpool_max ts0 maxc).
  Record ok (p : pool) : Prop := mk_ok {
    k_lkeys : NoDup (keys (locked p));
    k_ukeys : NoDup (keys (unlocked p));
    k_disj : forall t, In t (keys (locked p)) -> ~ In t (keys (unlocked p));
    k_nodup : NoDup (tabs p);
    k_next : forall i, In i (tabs p) -> i < next p;
    k_size : length (tabs p) <= size p;
    k_max : size p <= cmax;
    k_locked : forall t i, In (t, i) (locked p) -> i_thread (items p i) = Some t /\ 1 <= i_locked (items p i);
    k_unlocked : forall t i, In (t, i) (unlocked p) -> i_thread (items p i) = Some t;
    k_free : forall i, In i (free p) -> i_locked (items p i) = 0 }.
  Lemma tabs_split : forall p i, In i (tabs p) <-> In i (vals (locked p)) \/ In i (free p).
  Proof. intros. unfold tabs, free. rewrite !in_app_iff. tauto. Qed.
  Lemma locked_not_free : forall p i, ok p -> In i (vals (locked p)) -> ~ In i (free p).
  Proof.
    intros p i K H. pose proof (k_nodup p K) as N. unfold tabs in N. intro F. fold (free p) in N. clear K.
    induction (vals (locked p)) as [|x l IH]; [destruct H|]. inversion N; subst. destruct H as [->|H]; [apply H2, in_or_app; auto|auto].
  Qed.

  (** What take does *)
  Record took (t i : nat) (p p' : pool) : Prop := {
    tk_locked : locked p' = (t, i) :: locked p;
    tk_free : forall x, In x (free p') <-> In x (free p) /\ x <> i;
    tk_where : In i (free p) \/ (i = next p /\ next p' = S (next p) /\ i_dbc (items p' i) = None);
    tk_next : next p <= next p' <= S (next p);
    tk_lt : i < next p';
    tk_other : forall x, x <> i -> items p' x = items p x;
    tk_thread : i_thread (items p' i) = Some t;
    tk_one : 1 <= i_locked (items p' i);
    tk_dbc : In i (free p) -> i_dbc (items p' i) = i_dbc (items p i);
    tk_unlocked : forall x, In x (unlocked p') -> In x (unlocked p);
    tk_ok : ok p' }.
  Definition avail (p : pool) : nat := length (free p) + (cmax - size p).
  Lemma nodup_free : forall p, ok p -> NoDup (free p).
  Proof. intros p K. pose proof (k_nodup p K) as N. unfold tabs in N. fold (free p) in N. revert N. generalize (vals (locked p)). induction l; cbn; intro N; [exact N|]. inversion N; auto. Qed.
  (** locking an item that was taken from the free ones *)
  Lemma lock_free : forall t i p u l, ok p -> ~ In t (keys (locked p)) -> Permutation (free p) (i :: vals u ++ l) -> (forall x, In x u -> In x (unlocked p)) ->
    NoDup (keys u) -> ~ In t (keys u) ->
    let p' := lock_item t i (mkP (items p) (next p) (locked p) u l (size p)) in took t i p p' /\ avail p = S (avail p').
  Proof.
    intros t i p u l K Nt Pm Hu Nu Nt' p'. assert (Hi : In i (free p)) by (eapply Permutation_in; [apply Permutation_sym, Pm|left; reflexivity]).
    assert (Nf : NoDup (i :: vals u ++ l)) by (eapply Permutation_NoDup; [exact Pm|apply nodup_free, K]). inversion Nf as [|? ? Ni Nr]; subst.
    assert (Hit : i < next p) by (apply (k_next p K), tabs_split; right; exact Hi).
    assert (El : locked p' = (t, i) :: locked p) by (unfold p', lock_item, put; cbn [locked on_item]; rewrite del_id by assumption; reflexivity).
    assert (Eo : forall x, x <> i -> items p' x = items p x) by (intros x Hx; unfold p'; cbn [items lock_item on_item]; apply upd_other, Hx).
    assert (Es : items p' i = mkI (Some t) (S (i_locked (items p i))) (i_dbc (items p i))) by (unfold p'; cbn [items lock_item on_item]; apply upd_same).
    assert (Nl : forall x, In x (vals (locked p)) -> x <> i) by (intros x Hx ->; apply (locked_not_free p i K Hx Hi)).
    assert (Nd : NoDup (i :: vals (locked p) ++ vals u ++ l)).
    { eapply Permutation_NoDup; [|exact (k_nodup p K)]. unfold tabs. fold (free p). rewrite Pm. apply Permutation_sym, Permutation_middle. }
    assert (Pt : Permutation (tabs p) (tabs p')).
    { unfold tabs at 2. rewrite El. cbn [vals map snd app]. unfold tabs. fold (free p). rewrite Pm. apply Permutation_sym, Permutation_middle. }
    split.
    - constructor.
      + exact El.
      + intro x. change (free p') with (vals u ++ l). split.
        * intro H. split; [eapply Permutation_in; [apply Permutation_sym, Pm|right; exact H]|intros ->; contradiction].
        * intros [H N]. eapply Permutation_in in H; [|exact Pm]. destruct H as [->|H]; [contradiction|exact H].
      + left. exact Hi.
      + cbn [p' next lock_item on_item]. lia.
      + cbn [p' next lock_item on_item]. exact Hit.
      + exact Eo.
      + rewrite Es. reflexivity.
      + rewrite Es. cbn. lia.
      + intros _. rewrite Es. reflexivity.
      + exact Hu.
      + constructor.
        * rewrite El. constructor; [exact Nt|apply (k_lkeys p K)].
        * exact Nu.
        * intros x. rewrite El. cbn [keys map fst]. change (unlocked p') with u. intros [<-|Hx]; [exact Nt'|].
          intro Hx'. apply keys_in in Hx' as (j & Hj). apply (k_disj p K x Hx). eapply in_keys, Hu, Hj.
        * eapply Permutation_NoDup; [exact Pt|apply (k_nodup p K)].
        * intros x Hx. change (next p') with (next p). apply (k_next p K). eapply Permutation_in; [apply Permutation_sym, Pt|exact Hx].
        * change (size p') with (size p). rewrite <- (Permutation_length Pt). apply (k_size p K).
        * apply (k_max p K).
        * intros x j. rewrite El. intros [H|H]; [injection H as <- <-; rewrite Es; cbn; split; [reflexivity|lia]|].
          rewrite Eo by (apply Nl; eapply in_vals, H). apply (k_locked p K), H.
        * intros x j Hj. change (unlocked p') with u in Hj. rewrite Eo; [apply (k_unlocked p K), Hu, Hj|]. intros ->. apply Ni, in_or_app. left. eapply in_vals, Hj.
        * intros x Hx. change (free p') with (vals u ++ l) in Hx. rewrite Eo by (intros ->; contradiction). apply (k_free p K). eapply Permutation_in; [apply Permutation_sym, Pm|right; exact Hx].
    - unfold avail. change (free p') with (vals u ++ l). change (size p') with (size p). rewrite (Permutation_length Pm). cbn [length]. lia.
  Qed.
  Lemma take_spec : forall t k p i fl p', take ts0 recycle maxc t k p = Some (i, fl, p') -> ok p -> ~ In t (keys (locked p)) ->
    took t i p p' /\ avail p = S (avail p').
  Proof.
    intros t k p i fl p' H K Nt. unfold take in H. destruct (lookup t (unlocked p)) as [j|] eqn:L.
    - injection H as <- <- <-. apply lookup_in in L. apply lock_free; try assumption.
      + unfold free. rewrite (Permutation_map snd (del_perm t j _ (k_ukeys p K) L)). reflexivity.
      + intros x Hx. apply in_del in Hx. apply Hx.
      + apply nodup_keys_del, (k_ukeys p K).
      + rewrite keys_del. tauto.
    - apply lookup_none in L. destruct (idle p) as [|j l] eqn:Ei.
      + destruct (Nat.ltb_spec (size p) cmax) as [Hs|Hs].
        * injection H as <- <- <-. set (p0 := mkP (upd (items p) (next p) (mkI None 0 None)) (S (next p)) (locked p) (unlocked p) [] (S (size p))).
          set (p' := lock_item t (next p) p0).
          assert (El : locked p' = (t, next p) :: locked p) by (unfold p', lock_item, put; cbn [locked on_item p0]; rewrite del_id by assumption; reflexivity).
          assert (Eo : forall x, x <> next p -> items p' x = items p x) by (intros x Hx; unfold p'; cbn [items lock_item on_item p0]; rewrite !upd_other by exact Hx; reflexivity).
          assert (Es : items p' (next p) = mkI (Some t) 1 None) by (unfold p'; cbn [items lock_item on_item p0]; rewrite !upd_same; reflexivity).
          assert (Fp : free p' = free p) by (unfold free; rewrite Ei; reflexivity).
          assert (Nn : ~ In (next p) (tabs p)) by (intro H; apply (k_next p K) in H; lia).
          assert (Et : tabs p' = next p :: tabs p) by (unfold tabs; rewrite El; fold (free p') (free p); rewrite Fp; reflexivity).
          split.
          -- constructor.
             ++ exact El.
             ++ intro x. rewrite Fp. split; [|tauto]. intro Hx. split; [exact Hx|]. intros ->. apply Nn, tabs_split. auto.
             ++ right. split; [reflexivity|]. split; [reflexivity|]. rewrite Es. reflexivity.
             ++ cbn [p' p0 next lock_item on_item]. lia.
             ++ cbn [p' p0 next lock_item on_item]. lia.
             ++ exact Eo.
             ++ rewrite Es. reflexivity.
             ++ rewrite Es. cbn. lia.
             ++ intro F. exfalso. apply Nn, tabs_split. auto.
             ++ intros x Hx. exact Hx.
             ++ constructor.
                ** rewrite El. constructor; [exact Nt|apply (k_lkeys p K)].
                ** apply (k_ukeys p K).
                ** intros x. rewrite El. cbn [keys map fst]. change (unlocked p') with (unlocked p). intros [<-|Hx]; [exact L|apply (k_disj p K), Hx].
                ** rewrite Et. constructor; [exact Nn|apply (k_nodup p K)].
                ** rewrite Et. change (next p') with (S (next p)). intros x [<-|Hx]; [lia|]. apply (k_next p K) in Hx. lia.
                ** rewrite Et. change (size p') with (S (size p)). cbn [length]. pose proof (k_size p K). lia.
                ** change (size p') with (S (size p)). lia.
                ** intros x j. rewrite El. intros [H|H]; [injection H as <- <-; rewrite Es; cbn; split; [reflexivity|lia]|].
                   rewrite Eo; [apply (k_locked p K), H|]. intros ->. apply Nn, tabs_split. left. eapply in_vals, H.
                ** intros x j H. change (unlocked p') with (unlocked p) in H. rewrite Eo; [apply (k_unlocked p K), H|]. intros ->. apply Nn, tabs_split. right. apply in_or_app. left. eapply in_vals, H.
                ** intros x Hx. rewrite Fp in Hx. rewrite Eo; [apply (k_free p K), Hx|]. intros ->. apply Nn, tabs_split. auto.
          -- unfold avail. rewrite Fp. change (size p') with (S (size p)). lia.
        * destruct (pick k (unlocked p)) as [[o j]|] eqn:Pk; [|discriminate]. injection H as <- <- <-. apply pick_in in Pk. rewrite <- Ei. apply lock_free; try assumption.
          -- unfold free. rewrite (Permutation_map snd (del_perm o j _ (k_ukeys p K) Pk)). reflexivity.
          -- intros x Hx. apply in_del in Hx. apply Hx.
          -- apply nodup_keys_del, (k_ukeys p K).
          -- rewrite keys_del. tauto.
      + cbv zeta in H. rewrite <- Ei in H. injection H as <- <- <-. apply lock_free; try assumption; [|tauto|apply (k_ukeys p K)].
        unfold free. rewrite (last_perm (idle p)) at 1 by (rewrite Ei; discriminate). apply Permutation_sym, Permutation_middle.
  Qed.
  Lemma take_none : forall t k p, take ts0 recycle maxc t k p = None -> avail p = 0.
  Proof.
    intros t k p H. unfold take in H. destruct (lookup t (unlocked p)); [discriminate|]. destruct (idle p) eqn:E; [|discriminate].
    destruct (Nat.ltb_spec (size p) cmax); [discriminate|]. destruct (pick k (unlocked p)) as [[]|] eqn:Pk; [discriminate|]. apply pick_none in Pk.
    unfold avail, free. rewrite Pk, E. cbn. lia.
  Qed.

  (** What unlock does *)
  Lemma unlock_one : forall b i p, ok p -> In (b, i) (locked p) -> i_locked (items p i) = 1 ->
    exists p', unlock b i p = (p', true) /\ ok p' /\ next p' = next p /\ avail p' = S (avail p) /\
      (forall x, In x (locked p') <-> In x (locked p) /\ fst x <> b) /\ free p' = i :: free p /\
      (forall x, x <> i -> items p' x = items p x) /\ items p' i = dec (items p i).
  Proof.
    intros b i p K H H1. unfold unlock. set (q := on_item i dec p). assert (Ei : items q i = dec (items p i)) by apply upd_same.
    rewrite Ei. destruct (k_locked p K b i H) as [Ht _]. assert (E0 : i_locked (dec (items p i)) = 0) by (cbn [dec i_locked]; lia). rewrite E0.
    assert (E1 : i_thread (dec (items p i)) = Some b) by exact Ht. rewrite E1. cbn [Nat.eqb]. unfold put. assert (Nb : ~ In b (keys (unlocked p))) by (apply (k_disj p K); eapply in_keys, H).
    change (unlocked q) with (unlocked p). rewrite (del_id b (unlocked p)) by exact Nb. set (p' := mkP _ _ _ _ _ _).
    assert (Eo : forall x, x <> i -> items p' x = items p x) by (intros; apply upd_other; assumption).
    assert (Lp : Permutation (locked p) ((b, i) :: del b (locked p))) by (apply del_perm; [apply (k_lkeys p K)|exact H]).
    assert (Tp : Permutation (tabs p) (tabs p')).
    { unfold tabs. cbn [p' locked unlocked idle vals map snd]. change (map snd) with vals. rewrite (Permutation_map snd Lp). cbn [map snd app]. apply Permutation_middle. }
    assert (Hf : ~ In i (free p)) by (apply locked_not_free; [exact K|eapply in_vals, H]).
    exists p'. split; [reflexivity|]. split; [|split; [reflexivity|]].
    - constructor.
      + apply nodup_keys_del, (k_lkeys p K).
      + constructor; [exact Nb|apply (k_ukeys p K)].
      + intros t Ht'. cbn [p' locked] in Ht'. apply keys_del in Ht' as [Ht' Nt]. cbn [p' unlocked keys map fst]. intros [E|E]; [congruence|]. apply (k_disj p K t Ht' E).
      + eapply Permutation_NoDup; [exact Tp|apply (k_nodup p K)].
      + intros x Hx. apply (k_next p K). eapply Permutation_in; [apply Permutation_sym, Tp|exact Hx].
      + rewrite <- (Permutation_length Tp). apply (k_size p K).
      + apply (k_max p K).
      + intros t j Hj. cbn [p' locked] in Hj. apply in_del in Hj as [Hj Nj]. rewrite Eo; [apply (k_locked p K), Hj|]. intros ->. cbn [fst] in Nj.
        destruct (k_locked p K t i Hj) as [Hx _]. congruence.
      + intros t j [E|Hj]; [injection E as <- <-; change (items p') with (items q); rewrite Ei; exact Ht|]. rewrite Eo; [apply (k_unlocked p K), Hj|]. intros ->. apply Hf, in_or_app. left. eapply in_vals, Hj.
      + intros x [<-|Hx]; [change (items p') with (items q); cbn [snd]; rewrite Ei; cbn; lia|]. rewrite Eo; [apply (k_free p K), Hx|]. intros ->. contradiction.
    - split; [reflexivity|]. split; [intro x; apply in_del|]. split; [reflexivity|]. split; assumption.
  Qed.
  Lemma unlock_more : forall b i p, ok p -> In (b, i) (locked p) -> i_locked (items p i) <> 1 ->
    unlock b i p = (on_item i dec p, false) /\ ok (on_item i dec p) /\ 1 <= i_locked (items (on_item i dec p) i).
  Proof.
    intros b i p K H H1. destruct (k_locked p K b i H) as [Ht Hl]. unfold unlock. set (q := on_item i dec p). assert (Ei : items q i = dec (items p i)) by apply upd_same.
    assert (Eo : forall x, x <> i -> items q x = items p x) by (intros; apply upd_other; assumption).
    rewrite Ei. cbn [dec i_locked]. destruct (Nat.eqb_spec (pred (i_locked (items p i))) 0); [lia|]. split; [reflexivity|]. split; [|lia].
    assert (Hf : ~ In i (free p)) by (apply locked_not_free; [exact K|eapply in_vals, H]).
    destruct K as [K1 K2 K3 K4 K5 K6 K7 K8 K9 K10]. constructor; try assumption.
    - intros t j Hj. destruct (Nat.eq_dec j i) as [->|N]; [|rewrite Eo by exact N; apply K8, Hj]. rewrite Ei. cbn [dec i_thread i_locked]. split; [apply K8, Hj|lia].
    - intros t j Hj. rewrite Eo; [apply K9, Hj|]. intros ->. apply Hf, in_or_app. left. eapply in_vals, Hj.
    - intros x Hx. rewrite Eo; [apply K10, Hx|]. intros ->. contradiction.
  Qed.

  (** Items leave the pool *)
  Record shrink (p : pool) (c : list nat) (p' : pool) : Prop := mk_shrink {
    sh_ok : ok p';
    sh_next : next p' = next p;
    sh_locked : forall x, In x (locked p') -> In x (locked p);
    sh_free : forall x, In x (free p') -> In x (free p);
    sh_lock : forall x, i_locked (items p' x) = i_locked (items p x);
    sh_dbc : forall x, i_dbc (items p' x) = i_dbc (items p x);
    sh_item : forall x, ~ In x (free p) -> items p' x = items p x;
    sh_c1 : forall d, In d c -> exists i, In i (tabs p) /\ ~ In i (tabs p') /\ i_dbc (items p i) = Some d;
    sh_c2 : forall i d, In i (tabs p) -> ~ In i (tabs p') -> i_dbc (items p i) = Some d -> In d c }.
  Definition gentle (al : nat -> bool) (p p' : pool) : Prop :=
    avail p' = avail p /\ forall t i, In (t, i) (locked p) -> In (t, i) (locked p') \/ al t = false.
  Lemma sh_tabs : forall p c p', shrink p c p' -> forall x, In x (tabs p') -> In x (tabs p).
  Proof.
    intros p c p' K x H. apply tabs_split in H as [H|H]; apply tabs_split.
    - left. apply vals_in in H as (t & H). eapply in_vals, (sh_locked _ _ _ K), H.
    - right. eapply (sh_free _ _ _ K), H.
  Qed.
  Lemma shrink_refl : forall p, ok p -> shrink p [] p.
  Proof. intros p K. constructor; auto; [intros d []|]. intros i d H H'. contradiction. Qed.
  Lemma shrink_trans : forall p c p' c' p'', shrink p c p' -> shrink p' c' p'' -> shrink p (c ++ c') p''.
  Proof.
    intros p c p' c' p'' K K'. constructor.
    - apply (sh_ok _ _ _ K').
    - rewrite (sh_next _ _ _ K'). apply (sh_next _ _ _ K).
    - intros x H. apply (sh_locked _ _ _ K), (sh_locked _ _ _ K'), H.
    - intros x H. apply (sh_free _ _ _ K), (sh_free _ _ _ K'), H.
    - intro x. rewrite (sh_lock _ _ _ K'). apply (sh_lock _ _ _ K).
    - intro x. rewrite (sh_dbc _ _ _ K'). apply (sh_dbc _ _ _ K).
    - intros x H. rewrite (sh_item _ _ _ K'); [apply (sh_item _ _ _ K), H|]. intro F. apply H, (sh_free _ _ _ K), F.
    - intros d H. apply in_app_iff in H as [H|H].
      + apply (sh_c1 _ _ _ K) in H as (i & H1 & H2 & H3). exists i. repeat split; try assumption. intro F. apply H2. eapply sh_tabs; eassumption.
      + apply (sh_c1 _ _ _ K') in H as (i & H1 & H2 & H3). exists i. rewrite (sh_dbc _ _ _ K) in H3. repeat split; try assumption. eapply sh_tabs; eassumption.
    - intros i d H H' Hd. apply in_or_app. destruct (in_dec Nat.eq_dec i (tabs p')) as [Hi|Hi].
      + right. apply (sh_c2 _ _ _ K' i); try assumption. rewrite (sh_dbc _ _ _ K). exact Hd.
      + left. apply (sh_c2 _ _ _ K i); assumption.
  Qed.
  Lemma gentle_trans : forall al p p' p'', gentle al p p' -> gentle al p' p'' -> gentle al p p''.
  Proof. intros al p p' p'' [A B] [A' B']. split; [congruence|]. intros t i H. destruct (B t i H) as [H'|H']; [apply B', H'|auto]. Qed.
  Lemma nodup_app : forall (l m : list nat), NoDup (l ++ m) <-> NoDup l /\ NoDup m /\ forall x, In x l -> ~ In x m.
  Proof.
    induction l as [|a l IH]; intro m; cbn [app].
    - split; [intro H; repeat split; [constructor|exact H|intros x []]|tauto].
    - split.
      + intro H. inversion H; subst. apply IH in H3 as (H3 & H4 & H5). rewrite in_app_iff in H2. split; [constructor; tauto|]. split; [exact H4|]. intros x [<-|Hx]; [tauto|auto].
      + intros (H1 & H2 & H3). inversion H1; subst. constructor; [rewrite in_app_iff; intros [?|?]; [contradiction|apply (H3 a); [left; reflexivity|assumption]]|].
        apply IH. repeat split; try assumption. intros x Hx. apply H3. right. exact Hx.
  Qed.
  Lemma in_dbcs : forall p l d, In d (dbcs p l) <-> exists i, In i l /\ i_dbc (items p i) = Some d.
  Proof.
    intros. unfold dbcs. rewrite in_flat_map. split; intros (i & Hi & H); exists i; (split; [exact Hi|]).
    - destruct (i_dbc (items p i)); [destruct H as [->|[]]; reflexivity|destruct H].
    - rewrite H. left. reflexivity.
  Qed.
  (** parts of the tables *)
  Lemma shrink_sub : forall p f g h n, ok p ->
    let p' := mkP (items p) (next p) (filter f (locked p)) (filter g (unlocked p)) (filter h (idle p)) n in
    length (tabs p') <= n <= size p ->
    shrink p (dbcs p (map snd (filter (fun x => negb (f x)) (locked p)) ++ map snd (filter (fun x => negb (g x)) (unlocked p)) ++ filter (fun x => negb (h x)) (idle p))) p'.
  Proof.
    intros p f g h n K p' Hn.
    assert (Fl : forall x, In x (filter f (locked p)) -> In x (locked p)) by (intros x Hx; apply filter_In in Hx; apply Hx).
    assert (Fu : forall x, In x (filter g (unlocked p)) -> In x (unlocked p)) by (intros x Hx; apply filter_In in Hx; apply Hx).
    assert (Fi : forall x, In x (filter h (idle p)) -> In x (idle p)) by (intros x Hx; apply filter_In in Hx; apply Hx).
    assert (Ff : forall x, In x (free p') -> In x (free p)).
    { intros x Hx. apply in_app_iff in Hx as [Hx|Hx]; apply in_or_app; [left|right; apply Fi, Hx]. apply vals_in in Hx as (t & Hx). eapply in_vals, Fu, Hx. }
    assert (Nd : NoDup (tabs p')).
    { pose proof (k_nodup p K) as N. unfold tabs in *. apply nodup_app in N as (N1 & N2 & N3). apply nodup_app in N2 as (N2 & N4 & N5).
      apply nodup_app. split; [apply nodup_filter_map, N1|]. split.
      - apply nodup_app. split; [apply nodup_filter_map, N2|]. split; [apply NoDup_filter, N4|]. intros x Hx Hx'. apply (N5 x); [|apply Fi, Hx'].
        apply vals_in in Hx as (t & Hx). eapply in_vals, Fu, Hx.
      - intros x Hx Hx'. apply (N3 x); [|apply Ff, Hx']. apply vals_in in Hx as (t & Hx). eapply in_vals, Fl, Hx. }
    assert (St : forall x, In x (tabs p') -> In x (tabs p)).
    { intros x Hx. apply tabs_split in Hx as [Hx|Hx]; apply tabs_split; [left|right; apply Ff, Hx]. apply vals_in in Hx as (t & Hx). eapply in_vals, Fl, Hx. }
    assert (Ng : forall A (f : A -> bool) x l, In x l -> ~ In x (filter f l) -> In x (filter (fun x => negb (f x)) l)).
    { intros A f' x l H H'. rewrite filter_In in *. split; [exact H|]. destruct (f' x); [tauto|reflexivity]. }
    constructor; auto.
    - constructor.
      + apply nodup_filter_map, (k_lkeys p K).
      + apply nodup_filter_map, (k_ukeys p K).
      + intros t Ht Ht'. apply keys_in in Ht as (i & Ht). apply keys_in in Ht' as (j & Ht'). apply (k_disj p K t); [eapply in_keys, Fl, Ht|eapply in_keys, Fu, Ht'].
      + exact Nd.
      + intros x Hx. apply (k_next p K), St, Hx.
      + cbn [p' size]. lia.
      + cbn [p' size]. pose proof (k_max p K). lia.
      + intros t i H. apply (k_locked p K), Fl, H.
      + intros t i H. apply (k_unlocked p K), Fu, H.
      + intros x H. apply (k_free p K), Ff, H.
    - intros d Hd. apply in_dbcs in Hd as (i & Hi & Hd). exists i. split; [|split; [|exact Hd]].
      + apply in_app_iff in Hi as [Hi|Hi]; [|apply in_app_iff in Hi as [Hi|Hi]].
        * apply tabs_split. left. apply in_map_iff in Hi as (x & <- & Hx). apply filter_In in Hx as [Hx _]. apply in_map, Hx.
        * apply tabs_split. right. apply in_or_app. left. apply in_map_iff in Hi as (x & <- & Hx). apply filter_In in Hx as [Hx _]. apply in_map, Hx.
        * apply tabs_split. right. apply in_or_app. right. apply filter_In in Hi as [Hi _]. exact Hi.
      + pose proof (k_nodup p K) as N. unfold tabs in N. apply nodup_app in N as (N1 & N2 & N3). apply nodup_app in N2 as (N2 & N4 & N5).
        assert (Vu : forall l f' x, NoDup (vals l) -> In x (filter (fun x => negb (f' x)) l) -> ~ In (snd x) (vals (filter f' l))).
        { intros l f' x Nl Hx Hx'. apply vals_in in Hx' as (t & Hx'). destruct x as [t' i']. cbn [snd] in Hx'. rewrite filter_In in *. destruct Hx as [Hx1 Hx2], Hx' as [Hx3 Hx4].
          assert ((t', i') = (t, i')) as E; [|rewrite E in Hx2; rewrite Hx4 in Hx2; discriminate]. clear - Nl Hx1 Hx3. induction l as [|y l IH]; [destruct Hx1|]. inversion Nl; subst.
          destruct Hx1 as [E|Hx1], Hx3 as [E'|Hx3]; [congruence| | |auto]; exfalso; apply H1; subst; cbn [snd]; eapply in_vals; eassumption. }
        intro F. apply tabs_split in F. cbn [p' locked] in F. apply in_app_iff in Hi as [Hi|Hi]; [|apply in_app_iff in Hi as [Hi|Hi]].
        * apply in_map_iff in Hi as (x & <- & Hx). destruct F as [F|F]; [revert F; apply Vu; assumption|]. apply filter_In in Hx as [Hx _]. apply Ff in F. apply (N3 (snd x)); [apply in_map, Hx|exact F].
        * apply in_map_iff in Hi as (x & <- & Hx). destruct F as [F|F].
          -- apply filter_In in Hx as [Hx _]. apply (N3 (snd x)); [apply vals_in in F as (t & F); eapply in_vals, Fl, F|]. apply in_or_app. left. apply in_map, Hx.
          -- apply in_app_iff in F as [F|F]; [revert F; apply Vu; assumption|]. apply filter_In in Hx as [Hx _]. apply (N5 (snd x)); [apply in_map, Hx|apply Fi, F].
        * apply filter_In in Hi as [Hi Hh]. destruct F as [F|F]; [apply (N3 i); [apply vals_in in F as (t & F); eapply in_vals, Fl, F|apply in_or_app; auto]|].
          apply in_app_iff in F as [F|F]; [apply (N5 i); [apply vals_in in F as (t & F); eapply in_vals, Fu, F|exact Hi]|]. apply filter_In in F as [_ F]. rewrite F in Hh. discriminate.
    - intros i d Hi Ni Hd. apply in_dbcs. exists i. split; [|exact Hd]. rewrite tabs_split in Ni. cbn [p' locked] in Ni. rewrite !in_app_iff. apply tabs_split in Hi as [Hi|Hi].
      + left. apply vals_in in Hi as (t & Hi). apply in_map_iff. exists (t, i). split; [reflexivity|]. apply Ng; [exact Hi|]. intro F. apply Ni. left. eapply in_vals, F.
      + right. apply in_app_iff in Hi as [Hi|Hi].
        * left. apply vals_in in Hi as (t & Hi). apply in_map_iff. exists (t, i). split; [reflexivity|]. apply Ng; [exact Hi|]. intro F. apply Ni. right. apply in_or_app. left. eapply in_vals, F.
        * right. apply Ng; [exact Hi|]. intro F. apply Ni. right. apply in_or_app. auto.
  Qed.
End inv.
