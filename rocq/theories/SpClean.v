(** What pool_cleaner and close() take out of the pool. *)
From Verif Require Import SpModel SpInv.

Lemma filter_true : forall A (l : list A), filter (fun _ => true) l = l.
Proof. induction l as [|a l IH]; cbn; [reflexivity|]. first [rewrite IH; reflexivity|exact IH]. Qed.
Lemma filter_false : forall A (l : list A), filter (fun _ => negb true) l = [].
Proof. induction l as [|a l IH]; cbn; [reflexivity|]. first [rewrite IH; reflexivity|exact IH]. Qed.
Lemma filter_len : forall A f (l : list A), length (filter f l) <= length l.
Proof. induction l as [|a l IH]; cbn; [lia|]. destruct (f a); cbn; lia. Qed.
Lemma filter_neg : forall A (f : A -> bool) l, filter (fun x => negb (negb (f x))) l = filter f l.
Proof. intros. apply filter_ext. intro. apply negb_involutive. Qed.

Section clean.
  Variables ts0 recycle : bool.
  Variable maxc : nat.
  Notation ok := (ok ts0 maxc).
  Notation shrink := (shrink ts0 maxc).
  Notation gentle := (gentle ts0 maxc).
  Notation avail := (avail ts0 maxc).
  Lemma c_perm : forall p c c' p', (forall d, In d c <-> In d c') -> shrink p c p' -> shrink p c' p'.
  Proof.
    intros p c c' p' E K. constructor; try apply K.
    - intros d H. apply E in H. apply (sh_c1 _ _ _ _ _ K), H.
    - intros i d H H' Hd. apply E. eapply (sh_c2 _ _ _ _ _ K); eassumption.
  Qed.
  Lemma clean_locked_spec : forall al p, ok p -> let a := clean_locked al p in shrink p (snd a) (fst a) /\ gentle al p (fst a).
  Proof.
    intros al p K. cbv zeta. set (dead := fun x : nat * nat => match i_thread (items p (snd x)) with Some t => negb (al t) | None => false end).
    assert (E : fst (clean_locked al p)
      = mkP (items p) (next p) (filter (fun x => negb (dead x)) (locked p)) (filter (fun _ => true) (unlocked p)) (filter (fun _ => true) (idle p)) (size p)) by (rewrite !filter_true; reflexivity).
    assert (E2 : snd (clean_locked al p) = dbcs p (map snd (filter dead (locked p)))) by reflexivity. rewrite E2.
    split.
    - rewrite E. eapply c_perm; [|apply shrink_sub; [exact K|]].
      + intro d. rewrite (filter_neg _ dead), !filter_false. cbn [map app]. rewrite app_nil_r. reflexivity.
      + split; [|reflexivity]. pose proof (k_size _ _ _ K) as H. unfold tabs in *. cbn [locked unlocked idle]. rewrite !filter_true. rewrite !app_length in *.
        unfold vals in *. rewrite !map_length in *. pose proof (filter_len _ (fun x => negb (dead x)) (locked p)). lia.
    - rewrite E. split; [unfold avail, free; cbn [unlocked idle size]; rewrite !filter_true; reflexivity|]. intros t i H. cbn [locked]. destruct (al t) eqn:A; [left|right; reflexivity]. apply filter_In. split; [exact H|]. unfold dead. cbn [snd].
      destruct (k_locked _ _ _ K t i H) as [-> _]. rewrite A. reflexivity.
  Qed.
  Lemma tabs_pos : forall p i, ok p -> In i (tabs p) -> 1 <= size p.
  Proof. intros p i K H. pose proof (k_size _ _ _ K). destruct (tabs p); [destruct H|cbn in *; lia]. Qed.
  Lemma filter_absent : forall i (l : list nat), ~ In i l -> filter (fun j => negb (j =? i)) l = l.
  Proof. induction l as [|a l IH]; cbn; intro H; [reflexivity|]. destruct (Nat.eqb_spec a i); [tauto|]. cbn. rewrite IH by tauto. reflexivity. Qed.
  Lemma filter_one : forall i (l : list nat), NoDup l -> In i l -> Permutation l (i :: filter (fun j => negb (j =? i)) l).
  Proof.
    induction l as [|a l IH]; intros N H; [destruct H|]. inversion N; subst. destruct H as [->|H].
    - cbn. rewrite Nat.eqb_refl. cbn. rewrite filter_absent by assumption. reflexivity.
    - cbn. destruct (Nat.eqb_spec a i) as [->|Ne]; [contradiction|]. cbn. etransitivity; [apply perm_skip, IH; assumption|apply perm_swap].
  Qed.
  Lemma filter_only : forall i (l : list nat) x, In x (filter (fun j => negb (negb (j =? i))) l) <-> x = i /\ In i l.
  Proof.
    intros. rewrite filter_In, negb_involutive. destruct (Nat.eqb_spec x i) as [->|N]; split; [tauto|tauto|intros [_ H]; discriminate|intros [-> _]; contradiction].
  Qed.
  Lemma clean_idle1_spec : forall al old i p c, ok p -> In i (idle p) ->
    exists c', snd (clean_idle1 old i (p, c)) = c ++ c' /\ let p' := fst (clean_idle1 old i (p, c)) in
      shrink p c' p' /\ gentle al p p' /\ forall x, x <> i -> In x (idle p) -> In x (idle p').
  Proof.
    intros al old i p c K H. unfold clean_idle1. destruct (old i).
    - exists (dbcs p [i]). split; [reflexivity|]. cbn [fst]. cbv zeta.
      assert (Ni : NoDup (idle p)) by (pose proof (nodup_free _ _ p K) as N; unfold free in N; apply nodup_app in N; apply N).
      pose proof (filter_one i (idle p) Ni H) as Pi. assert (Ht : In i (tabs p)) by (apply tabs_split; right; apply in_or_app; auto). pose proof (tabs_pos p i K Ht) as Hs.
      set (h := fun j => negb (j =? i)) in *.
      split; [|split].
      + assert (mkP (items p) (next p) (locked p) (unlocked p) (filter h (idle p)) (pred (size p))
          = mkP (items p) (next p) (filter (fun _ => true) (locked p)) (filter (fun _ => true) (unlocked p)) (filter h (idle p)) (pred (size p))) as -> by (rewrite !filter_true; reflexivity).
        eapply c_perm; [|apply shrink_sub; [exact K|]].
        * intro d. rewrite !in_dbcs. rewrite !filter_false. cbn [map app]. split; intros (j & Hj & Hd); exists j; (split; [|exact Hd]).
          -- apply filter_only in Hj as [-> _]. left. reflexivity.
          -- destruct Hj as [<-|[]]. apply filter_only. auto.
        * split; [|lia]. pose proof (k_size _ _ _ K) as Hk. unfold tabs in *. cbn [locked unlocked idle]. rewrite !filter_true. rewrite !app_length in *. apply Permutation_length in Pi. cbn [length] in Pi. lia.
      + split; [|auto]. unfold avail, free. cbn [unlocked idle size]. rewrite !app_length. apply Permutation_length in Pi. cbn [length] in Pi. pose proof (k_max _ _ _ K). lia.
      + intros x Nx Hx. cbn [idle]. apply filter_In. split; [exact Hx|]. unfold h. destruct (Nat.eqb_spec x i); [contradiction|reflexivity].
    - exists []. rewrite app_nil_r. split; [reflexivity|]. split; [apply shrink_refl, K|]. split; [split; auto|auto].
  Qed.
  Lemma clean_idle_spec : forall al old l p c, ok p -> NoDup l -> (forall i, In i l -> In i (idle p)) ->
    exists c', snd (fold_left (fun a i => clean_idle1 old i a) l (p, c)) = c ++ c' /\
      let p' := fst (fold_left (fun a i => clean_idle1 old i a) l (p, c)) in shrink p c' p' /\ gentle al p p'.
  Proof.
    induction l as [|i l IH]; intros p c K N H.
    - exists []. rewrite app_nil_r. split; [reflexivity|]. split; [apply shrink_refl, K|split; auto].
    - inversion N as [|? ? Nh Nt]; subst. cbn [fold_left]. destruct (clean_idle1_spec al old i p c K (H i (or_introl eq_refl))) as (c1 & E1 & S1 & G1 & H1).
      destruct (clean_idle1 old i (p, c)) as [p1 x] eqn:E. cbn [fst snd] in *. subst x.
      destruct (IH p1 (c ++ c1) (sh_ok _ _ _ _ _ S1) Nt) as (c2 & E2 & S2 & G2).
      { intros j Hj. apply H1; [intros ->; contradiction|apply H; right; exact Hj]. }
      exists (c1 ++ c2). rewrite app_assoc. split; [exact E2|]. cbv zeta in *. split; [eapply shrink_trans; eassumption|eapply gentle_trans; eassumption].
  Qed.
  Lemma in_both : forall t t' i d, NoDup (vals d) -> In (t, i) d -> In (t', i) d -> t = t'.
  Proof.
    induction d as [|[a b] d IH]; intros N H H'; [destruct H|]. inversion N; subst. destruct H as [H|H], H' as [H'|H']; [congruence| | |auto]; exfalso.
    - injection H as -> ->. apply H2. eapply in_vals, H'.
    - injection H' as -> ->. apply H2. eapply in_vals, H.
  Qed.
  Lemma clean_unlocked1_spec : forall al old x p c, ok p -> In x (unlocked p) ->
    exists c', snd (clean_unlocked1 recycle al old x (p, c)) = c ++ c' /\ let p' := fst (clean_unlocked1 recycle al old x (p, c)) in
      shrink p c' p' /\ gentle al p p' /\ forall y, fst y <> fst x -> In y (unlocked p) -> In y (unlocked p').
  Proof.
    intros al old [t i] p c K H. unfold clean_unlocked1. cbn [fst snd]. pose proof (k_unlocked _ _ _ K t i H) as Ht. rewrite Ht.
    assert (Hf : In i (free p)) by (apply in_or_app; left; eapply in_vals, H).
    pose proof (del_perm t i _ (k_ukeys _ _ _ K) H) as Pu. assert (Hi : In i (tabs p)) by (apply tabs_split; auto). pose proof (tabs_pos p i K Hi) as Hs.
    assert (Oth : forall y, fst y <> t -> In y (unlocked p) -> In y (del t (unlocked p))) by (intros y Hy Hy'; apply in_del; auto).
    destruct (al t) eqn:A; cbn [negb].
    - destruct (old i && negb recycle).
      + exists (dbcs p [i]). split; [reflexivity|]. cbn [fst]. cbv zeta. split; [|split].
        * unfold del. set (g := fun x : nat * nat => negb (fst x =? t)).
          assert (mkP (items p) (next p) (locked p) (filter g (unlocked p)) (idle p) (pred (size p))
            = mkP (items p) (next p) (filter (fun _ => true) (locked p)) (filter g (unlocked p)) (filter (fun _ => true) (idle p)) (pred (size p))) as -> by (rewrite !filter_true; reflexivity).
          eapply c_perm; [|apply shrink_sub; [exact K|]].
          -- intro d. rewrite !in_dbcs. rewrite !filter_false. cbn [map app]. rewrite app_nil_r. split; intros (j & Hj & Hd); exists j; (split; [|exact Hd]).
             ++ apply in_map_iff in Hj as ([t' j'] & <- & Hj). unfold g in Hj. rewrite filter_In, negb_involutive in Hj. cbn [fst snd] in *. destruct Hj as [Hj E]. apply Nat.eqb_eq in E. subst t'.
                left. pose proof (lookup_some _ _ _ (k_ukeys _ _ _ K) H). pose proof (lookup_some _ _ _ (k_ukeys _ _ _ K) Hj). congruence.
             ++ destruct Hj as [<-|[]]. apply in_map_iff. exists (t, i). split; [reflexivity|]. unfold g. rewrite filter_In, negb_involutive. split; [exact H|]. apply Nat.eqb_refl.
          -- split; [|lia]. pose proof (k_size _ _ _ K) as Hk. unfold tabs in *. cbn [locked unlocked idle]. rewrite !filter_true. rewrite !app_length in *. unfold vals in *. rewrite !map_length in *.
             apply Permutation_length in Pu. unfold del in Pu. fold g in Pu. cbn [length] in Pu. lia.
        * split; [|auto]. unfold avail, free. cbn [unlocked idle size]. rewrite !app_length. unfold vals. rewrite !map_length. apply Permutation_length in Pu. cbn [length] in Pu. pose proof (k_max _ _ _ K). lia.
        * exact Oth.
      + exists []. rewrite app_nil_r. split; [reflexivity|]. split; [apply shrink_refl, K|]. split; [split; auto|auto].
    - exists []. rewrite app_nil_r. split; [reflexivity|]. cbn [fst]. cbv zeta. set (q := on_item i (set_thread None) p).
      assert (Ei : items q i = set_thread None (items p i)) by apply upd_same. assert (Eo : forall x, x <> i -> items q x = items p x) by (intros; apply upd_other; assumption).
      set (p' := mkP _ _ _ _ _ _).
      assert (Pf : Permutation (free p) (free p')).
      { unfold free. cbn [p' unlocked idle]. rewrite (Permutation_map snd Pu). cbn [map snd app]. change (map snd (del t (unlocked p))) with (vals (del t (unlocked p))).
        change (idle q) with (idle p). rewrite app_assoc. apply Permutation_cons_append. }
      assert (Pt : Permutation (tabs p) (tabs p')) by (unfold tabs; apply Permutation_app_head; exact Pf).
      assert (Nl : forall t' j, In (t', j) (locked p) -> j <> i) by (intros t' j Hj ->; eapply (locked_not_free _ _ p i K); [eapply in_vals, Hj|exact Hf]).
      split; [|split].
      + constructor.
        * constructor.
          -- apply (k_lkeys _ _ _ K).
          -- apply nodup_keys_del, (k_ukeys _ _ _ K).
          -- intros x Hx Hx'. apply keys_del in Hx' as [Hx' _]. apply (k_disj _ _ _ K x Hx Hx').
          -- eapply Permutation_NoDup; [exact Pt|apply (k_nodup _ _ _ K)].
          -- intros x Hx. apply (k_next _ _ _ K). eapply Permutation_in; [apply Permutation_sym, Pt|exact Hx].
          -- rewrite <- (Permutation_length Pt). apply (k_size _ _ _ K).
          -- apply (k_max _ _ _ K).
          -- intros t' j Hj. change (items p') with (items q). rewrite Eo by (eapply Nl, Hj). apply (k_locked _ _ _ K), Hj.
          -- intros t' j Hj. cbn [p' unlocked] in Hj. apply in_del in Hj as [Hj Nj]. change (items p') with (items q). rewrite Eo; [apply (k_unlocked _ _ _ K), Hj|]. intros ->. apply Nj. cbn [fst].
             assert (Nv : NoDup (vals (unlocked p))) by (pose proof (nodup_free _ _ p K) as N; apply nodup_app in N; apply N). eapply in_both; eassumption.
          -- intros x Hx. change (items p') with (items q). assert (E : i_locked (items q x) = i_locked (items p x)) by (destruct (Nat.eq_dec x i) as [->|N]; [rewrite Ei; reflexivity|rewrite Eo by exact N; reflexivity]).
             rewrite E. apply (k_free _ _ _ K). eapply Permutation_in; [apply Permutation_sym, Pf|exact Hx].
        * reflexivity.
        * auto.
        * intros x Hx. eapply Permutation_in; [apply Permutation_sym, Pf|exact Hx].
        * intro x. change (items p') with (items q). destruct (Nat.eq_dec x i) as [->|N]; [rewrite Ei; reflexivity|rewrite Eo by exact N; reflexivity].
        * intro x. change (items p') with (items q). destruct (Nat.eq_dec x i) as [->|N]; [rewrite Ei; reflexivity|rewrite Eo by exact N; reflexivity].
        * intros x Hx. apply Eo. intros ->. contradiction.
        * intros d [].
        * intros j d Hj Nj. exfalso. apply Nj. eapply Permutation_in; [exact Pt|exact Hj].
      + split; [|auto]. unfold avail. rewrite (Permutation_length Pf). reflexivity.
      + exact Oth.
  Qed.
  Lemma clean_unlocked_spec : forall al old l p c, ok p -> NoDup (keys l) -> (forall i, In i l -> In i (unlocked p)) ->
    exists c', snd (fold_left (fun a x => clean_unlocked1 recycle al old x a) l (p, c)) = c ++ c' /\
      let p' := fst (fold_left (fun a x => clean_unlocked1 recycle al old x a) l (p, c)) in shrink p c' p' /\ gentle al p p'.
  Proof.
    induction l as [|x l IH]; intros p c K N H.
    - exists []. rewrite app_nil_r. split; [reflexivity|]. split; [apply shrink_refl, K|split; auto].
    - inversion N as [|? ? Nh Nt]; subst. cbn [fold_left]. destruct (clean_unlocked1_spec al old x p c K (H x (or_introl eq_refl))) as (c1 & E1 & S1 & G1 & H1).
      destruct (clean_unlocked1 recycle al old x (p, c)) as [p1 y] eqn:E. cbn [fst snd] in *. subst y.
      destruct (IH p1 (c ++ c1) (sh_ok _ _ _ _ _ S1) Nt) as (c2 & E2 & S2 & G2).
      { intros j Hj. apply H1; [intro F; apply Nh; rewrite <- F; apply in_map, Hj|apply H; right; exact Hj]. }
      exists (c1 ++ c2). rewrite app_assoc. split; [exact E2|]. cbv zeta in *. split; [eapply shrink_trans; eassumption|eapply gentle_trans; eassumption].
  Qed.
  Lemma clean_spec : forall al old p, ok p -> let a := clean recycle al old p in shrink p (snd a) (fst a) /\ gentle al p (fst a).
  Proof.
    intros al old p K. cbv zeta. unfold clean. destruct (clean_locked_spec al p K) as [S1 G1]. destruct (clean_locked al p) as [p1 c1]. cbn [fst snd] in *.
    pose proof (sh_ok _ _ _ _ _ S1) as K1. destruct (clean_unlocked_spec al old (unlocked p1) p1 c1 K1 (k_ukeys _ _ _ K1) (fun i H => H)) as (c2 & E2 & S2 & G2).
    destruct (fold_left _ (unlocked p1) (p1, c1)) as [p2 x]. cbn [fst snd] in *. subst x. cbv zeta in *. pose proof (sh_ok _ _ _ _ _ S2) as K2.
    assert (Ni : NoDup (idle p2)) by (pose proof (nodup_free _ _ p2 K2) as N; unfold free in N; apply nodup_app in N; apply N).
    destruct (clean_idle_spec al old (idle p2) p2 (c1 ++ c2) K2 Ni (fun i H => H)) as (c3 & E3 & S3 & G3). rewrite E3. cbv zeta in *. split.
    - rewrite <- app_assoc. eapply shrink_trans; [exact S1|]. eapply shrink_trans; eassumption.
    - eapply gentle_trans; [exact G1|]. eapply gentle_trans; eassumption.
  Qed.
  Lemma sweep_spec : forall t al p, ok p -> let a := sweep t al p in shrink p (snd a) (fst a).
  Proof.
    intros t al p K. cbv zeta. set (gone := fun x : nat * nat => match i_thread (items p (snd x)) with Some o => (o =? t) || negb (al o) | None => false end).
    assert (Ff : forall A (l : list A), filter (fun _ => false) l = []) by (induction l; auto).
    assert (E2 : snd (sweep t al p) = dbcs p (idle p ++ map snd (unlocked p) ++ map snd (filter gone (locked p)))) by reflexivity. rewrite E2.
    assert (fst (sweep t al p)
      = mkP (items p) (next p) (filter (fun x => negb (gone x)) (locked p)) (filter (fun _ => false) (unlocked p)) (filter (fun _ => false) (idle p)) (size p)) as -> by (rewrite !Ff; reflexivity).
    eapply c_perm; [|apply shrink_sub; [exact K|]].
    - intro d. rewrite !in_dbcs. rewrite (filter_neg _ gone). cbn [negb]. rewrite !filter_true. setoid_rewrite in_app_iff. setoid_rewrite in_app_iff. firstorder.
    - split; [|reflexivity]. pose proof (k_size _ _ _ K) as H. unfold tabs in *. cbn [locked unlocked idle]. rewrite !Ff. rewrite !app_length in *. cbn [vals map length]. unfold vals in *. rewrite !map_length in *.
      pose proof (filter_len _ (fun x => negb (gone x)) (locked p)). lia.
  Qed.
  Lemma force_spec : forall p, ok p -> let a := force p in shrink p (snd a) (fst a).
  Proof.
    intros p K. cbv zeta. unfold force. cbn [fst snd]. assert (Ff : forall A (l : list A), filter (fun _ => false) l = []) by (induction l; auto).
    assert (mkP (items p) (next p) [] (unlocked p) (idle p) (size p)
      = mkP (items p) (next p) (filter (fun _ => false) (locked p)) (filter (fun _ => true) (unlocked p)) (filter (fun _ => true) (idle p)) (size p)) as -> by (rewrite Ff, !filter_true; reflexivity).
    eapply c_perm; [|apply shrink_sub; [exact K|]].
    - intro d. rewrite !filter_false. cbn [negb map app]. rewrite filter_true, app_nil_r. reflexivity.
    - split; [|reflexivity]. pose proof (k_size _ _ _ K) as H. unfold tabs in *. cbn [locked unlocked idle]. rewrite Ff, !filter_true. rewrite !app_length in *. cbn. lia.
  Qed.
End clean.
