(** StreamStore: with one user for each stream, no unreferenced block is left in the store *)
From Verif Require Import Py SstModel SstSpec SstProofs.

Definition refd (refs : nat -> option ref) (st id : nat) (h : str) : Prop :=
  exists n, refs id = Some (mkRef st n h).
Definition listed (refs : nat -> option ref) (st : nat) (todo : list (nat * str)) (all : bool) : Prop :=
  NoDup (map fst todo) /\
  (forall i h, In (i, h) todo -> refd refs st i h) /\
  (all = true -> forall i r, refs i = Some r -> r_stream r = st -> In i (map fst todo)).

(** what is known of the table of blocks at each position *)
Definition rfact (refs : nat -> option ref) (p : pc) : Prop :=
  match p with
  | SLock st id k | SStore st id k | SUnlock st id k => refd refs st id k
  | U1 st id old _ | U2 st id old _ | U3 st id old _ | U4 st id old _ => refd refs st id old
  | U7 _ _ _ _ ok => ok = true
  | D0 _ from all => all = true -> from = 0
  | D1 st todo all => listed refs st todo all
  | D2 st id h todo all => listed refs st ((id, h) :: todo) all
  | D3 st _ _ todo all | D4 st _ _ todo all => listed refs st todo all
  | D5 st _ _ todo all ok => listed refs st todo all /\ ok = true
  | D6 st => forall i r, refs i = Some r -> r_stream r <> st
  | _ => True
  end.

Definition resp (p : pc) (h : str) : Prop :=
  match p with
  | U4 _ _ _ new => h = new
  | U5 _ _ old _ | U6 _ _ old _ => h = old
  | D3 _ _ k _ _ | D4 _ _ k _ _ => h = k
  | _ => False
  end.

Record oinv (s : sys) : Prop := mkO {
  o_linv : linv s;
  o_excl : forall c c' st, c <> c' -> working_on (s_pc s c) = Some st -> working_on (s_pc s c') <> Some st;
  o_fact : forall c, rfact (s_refs s) (s_pc s c);
  o_orph : forall h, s_store s h = true -> refers s h \/ exists c, resp (s_pc s c) h }.

(** changes to one stream only *)
Definition same_other (st : nat) (refs refs' : nat -> option ref) : Prop :=
  forall i r, r_stream r <> st -> (refs i = Some r <-> refs' i = Some r).

Lemma refd_other st refs refs' st' i h : same_other st refs refs' -> st' <> st ->
  refd refs st' i h -> refd refs' st' i h.
Proof. intros S N [n H]. exists n. apply S; assumption. Qed.

Lemma listed_other st refs refs' st' todo all : same_other st refs refs' -> st' <> st ->
  listed refs st' todo all -> listed refs' st' todo all.
Proof.
  intros S N [A [B C]]. split; [exact A|]. split.
  - intros i h H. eapply refd_other; eauto.
  - intros E i r H Q. apply (C E i r); [|exact Q]. apply S; [congruence|exact H].
Qed.

Lemma rfact_other st refs refs' p : same_other st refs refs' -> working_on p <> Some st ->
  rfact refs p -> rfact refs' p.
Proof.
  intros S N. destruct p; cbn in *; auto;
    try (intros H; eapply refd_other; [exact S|congruence|exact H]);
    try (intros H; eapply listed_other; [exact S|congruence|exact H]).
  - intros [H E]. split; [|exact E]. eapply listed_other; [exact S|congruence|exact H].
  - intros H i r Q E. apply (H i r); [|exact E]. apply S; [congruence|exact Q].
Qed.

Lemma blocklist_in refs next st from i h :
  In (i, h) (blocklist refs next st from) <->
  (i < next)%nat /\ exists n, refs i = Some (mkRef st n h) /\ (from = 0 \/ from <= n).
Proof.
  unfold blocklist. rewrite in_flat_map. split.
  - intros [j [J H]]. apply in_seq in J. destruct (refs j) as [[a b k]|] eqn:E; [|contradiction]. cbn in H.
    destruct (_ && _) eqn:B; [|contradiction]. destruct H as [[= <- <-]|[]].
    apply andb_true_iff in B. destruct B as [B1 B2]. apply Nat.eqb_eq in B1. subst a.
    split; [lia|]. exists b. split; [exact E|].
    destruct (from =? 0) eqn:F; b2p; [auto|right]. cbn in B2. b2p. lia.
  - intros [L [n [E F]]]. exists i. split; [apply in_seq; lia|]. rewrite E. cbn. rewrite Nat.eqb_refl. cbn.
    replace (negb (from =? 0) && (n <? from)) with false; [left; reflexivity|].
    symmetry. apply andb_false_iff. destruct F as [->|F]; [left; reflexivity|right; apply Z.ltb_ge; lia].
Qed.

Lemma blocklist_nodup refs next st from : NoDup (map fst (blocklist refs next st from)).
Proof.
  unfold blocklist. generalize 0%nat as a. induction next as [|k IH]; intros a; cbn; [constructor|].
  rewrite map_app.
  assert (G : forall x, In x (map fst (flat_map (fun i => match refs i with
    | Some r => if Nat.eqb (r_stream r) st && negb (negb (from =? 0) && (r_num r <? from)) then [(i, r_hash r)] else nil
    | None => nil end) (seq (S a) k))) -> (a < x)%nat).
  { intros x H. apply in_map_iff in H. destruct H as [[y z] [<- H]]. apply in_flat_map in H.
    destruct H as [j [J H]]. apply in_seq in J. destruct (refs j); [|contradiction].
    destruct (_ && _); [|contradiction]. destruct H as [[= <- <-]|[]]. cbn. lia. }
  destruct (refs a) as [r|]; [destruct (_ && _)|]; cbn; try apply IH.
  constructor; [|apply IH]. intros H. specialize (G _ H). lia.
Qed.

Lemma listed_blocklist refs next st from all : (all = true -> from = 0) ->
  (forall id r, refs id = Some r -> (id < next)%nat) ->
  listed refs st (blocklist refs next st from) all.
Proof.
  intros F B. split; [apply blocklist_nodup|]. split.
  - intros i h H. apply blocklist_in in H. destruct H as [_ [n [H _]]]. exists n. exact H.
  - intros E i [a b k] H S. cbn in S. subst a. specialize (F E). subst from.
    apply in_map_iff. exists (i, k). split; [reflexivity|]. apply blocklist_in. split; [eauto|]. exists b. auto.
Qed.

Lemma rset_same_other refs st i v :
  (forall r, refs i = Some r -> r_stream r = st) -> (forall r, v = Some r -> r_stream r = st) ->
  same_other st refs (rset refs i v).
Proof.
  intros A B j r N. destruct (Nat.eq_dec j i) as [->|n].
  - rewrite rset_same. split; intros H; [apply A in H|apply B in H]; congruence.
  - rewrite rset_other by assumption. reflexivity.
Qed.

Lemma trans_oinv s s' l c p' ev : oinv s ->
  trans s c (s_pc s c) (s_refs s') (s_next s') (s_store s') (s_lock s') p' ev ->
  s_pc s' = pset (s_pc s) c p' ->
  (forall o, l = Call c o -> p' = start o) ->
  (forall c' o, l = Call c' o -> c' = c /\ s_pc s c = Idle) ->
  ((forall c' o, l <> Call c' o) -> s_pc s c <> Idle) ->
  one_user s l -> oinv s'.
Proof.
  intros [L X F O] T E C1 C2 C3 OU.
  assert (L' : linv s') by (eapply trans_linv; eassumption).
  pose proof (l_next _ L) as NX. pose proof (F c) as Fc.
  (* a step of a call stays on its stream *)
  assert (W : (exists o, l = Call c o /\ s_pc s c = Idle /\ p' = start o) \/
     (s_pc s c <> Idle /\ (working_on p' = None \/ working_on p' = working_on (s_pc s c)))).
  { destruct l as [c0 o|c0|c0].
    - left. destruct (C2 c0 o eq_refl) as [-> I]. exists o. rewrite (C1 o eq_refl). auto.
    - right. assert (N : s_pc s c <> Idle) by (apply C3; intros ? ?; discriminate). split; [exact N|].
      inversion T; cbn; auto. exfalso; apply N. congruence.
    - right. assert (N : s_pc s c <> Idle) by (apply C3; intros ? ?; discriminate). split; [exact N|].
      inversion T; cbn; auto. exfalso; apply N. congruence. }
  (* references change on that stream only *)
  assert (SO : forall st, working_on (s_pc s c) = Some st -> same_other st (s_refs s) (s_refs s')).
  { intros st Hs. inversion T;
      try (intros i r0 _; reflexivity).
    - match goal with HH : _ = s_pc s c |- _ => rewrite <- HH in Hs; cbn in Hs; injection Hs as -> end.
      apply rset_same_other; [|intros r [= <-]; reflexivity].
      intros r Q. apply NX in Q. lia.
    - match goal with HH : _ = s_pc s c |- _ => rewrite <- HH in Hs, Fc; cbn in Hs, Fc; injection Hs as -> end.
      destruct Fc as [n Fc].
      match goal with HH : s_refs s id = Some ?r |- _ => rewrite Fc in HH; injection HH as <- end.
      apply rset_same_other; [|intros r0 [= <-]; reflexivity]. intros r0 Q. rewrite Fc in Q. injection Q as <-. reflexivity.
    - match goal with HH : _ = s_pc s c |- _ => rewrite <- HH in Hs, Fc; cbn in Hs, Fc; injection Hs as -> end.
      destruct Fc as [_ [Fc _]]. destruct (Fc id h (or_introl eq_refl)) as [n Fn].
      apply rset_same_other; [|discriminate]. intros r0 Q. rewrite Fn in Q. injection Q as <-. reflexivity.
    - match goal with HH : _ = s_pc s c |- _ => rewrite <- HH in Hs, Fc; cbn in Hs, Fc; injection Hs as -> end.
      intros i r N. unfold drop_stream. destruct (s_refs s i) as [r1|] eqn:Q; [|tauto].
      destruct (Nat.eqb (r_stream r1) st) eqn:Y; [|tauto]. apply Nat.eqb_eq in Y. split; intros Z; [congruence|discriminate]. }
  assert (RI : working_on (s_pc s c) = None -> s_refs s' = s_refs s).
  { intros H. inversion T;
      try congruence; match goal with HH : _ = s_pc s c |- _ => rewrite <- HH in H; discriminate end. }
  assert (X' : forall c1 c2 st, c1 <> c2 -> working_on (s_pc s' c1) = Some st -> working_on (s_pc s' c2) <> Some st).
  { assert (Y : forall c2 st, c2 <> c -> working_on p' = Some st -> working_on (s_pc s c2) <> Some st).
    { intros c2 st N H. destruct W as [[o [-> [I ->]]]|[_ [W|W]]]; [|congruence|].
      - cbn in OU. destruct OU as [OU _].
        assert (Some st = Some (stream_of o)) as ->; [|apply OU; exact N].
        rewrite <- H. destruct o; cbn in *; try reflexivity. destruct (str_eqb _ _); [discriminate|reflexivity].
      - rewrite W in H. apply (X c c2); auto. }
    intros c1 c2 st N. rewrite E.
    destruct (Nat.eq_dec c1 c) as [->|n1]; [rewrite pset_same, pset_other by congruence; apply Y; congruence|].
    rewrite pset_other by assumption.
    destruct (Nat.eq_dec c2 c) as [->|n2]; [rewrite pset_same; intros H H2; apply (Y c1 st n1 H2 H)|].
    rewrite pset_other by assumption. apply X. exact N. }
  assert (F' : forall c0, rfact (s_refs s') (s_pc s' c0)).
  { intros c0. rewrite E. destruct (Nat.eq_dec c0 c) as [->|n].
    - rewrite pset_same. clear X X' SO RI L' O.
      inversion T; try (match goal with HH : _ = s_pc s c |- _ => rewrite <- HH in Fc end); cbn in Fc |- *;
        try exact I; try exact Fc; try (apply Fc); try reflexivity;
        try (match goal with HH : s_refs s = s_refs s' |- _ => rewrite <- HH end; try exact Fc).
      + destruct W as [[o' [-> [_ W]]]|[W _]]; [|congruence].
        replace (start o) with (start o') by congruence.
        destruct o'; cbn; try exact I; try discriminate; auto.
        destruct OU as [_ OU]. destruct (str_eqb new old); [exact I|exact OU].
      + exists num. apply rset_same.
      + destruct Fc as [n Fc]. congruence.
      + apply listed_blocklist; assumption.
      + destruct Fc as [_ [_ Fc]]. intros i r Q S. apply (Fc eq_refl i r Q S).
      + destruct Fc as [ND [FA FB]]. cbn in ND. apply NoDup_cons_iff in ND. destruct ND as [N1 N2].
        split; [exact N2|]. split.
        * intros i k Q. destruct (FA i k (or_intror Q)) as [n Fn]. exists n. rewrite rset_other; [exact Fn|].
          intros ->. apply N1. apply in_map_iff. exists (id, k). auto.
        * intros A i r0 Q S. destruct (Nat.eq_dec i id) as [->|ni]; [rewrite rset_same in Q; discriminate|].
          rewrite rset_other in Q by assumption. destruct (FB A i r0 Q S) as [Z|Z]; [cbn in Z; congruence|exact Z].
      + destruct Fc as [_ [FA _]]. destruct (FA id h (or_introl eq_refl)) as [n Fn]. congruence.
      + split; [exact Fc|reflexivity].
      + split; [exact Fc|reflexivity].
    - rewrite pset_other by assumption. destruct (working_on (s_pc s c)) as [st|] eqn:Hw.
      + eapply rfact_other; [apply SO; reflexivity| |apply F]. apply (X c c0); [congruence|exact Hw].
      + rewrite RI by reflexivity. apply F. }
  constructor; [exact L'|exact X'|exact F'|].
  intros h S.
  assert (RO : forall c0, c0 <> c -> resp (s_pc s c0) h -> exists c1, resp (s_pc s' c1) h).
  { intros c0 N R. exists c0. rewrite E, pset_other by assumption. exact R. }
  assert (RC : resp p' h -> refers s' h \/ exists c1, resp (s_pc s' c1) h).
  { intros R. right. exists c. rewrite E, pset_same. exact R. }
  assert (US : used (s_refs s) (s_next s) h = true -> refers s h).
  { intros U. apply used_spec in U; [exact U|exact NX]. }
  assert (GEN : s_store s h = true -> (refers s h -> refers s' h \/ resp p' h) ->
    (resp (s_pc s c) h -> refers s' h \/ resp p' h) -> refers s' h \/ exists c1, resp (s_pc s' c1) h).
  { intros S0 A B. destruct (O h S0) as [R|[c0 R]].
    - destruct (A R); auto.
    - destruct (Nat.eq_dec c0 c) as [->|n]; [destruct (B R); auto|right; eapply RO; eauto]. }
  assert (SAME : s_refs s' = s_refs s -> refers s h -> refers s' h).
  { intros EQ [i [r [Q H]]]. exists i, r. rewrite EQ. auto. }
  inversion T; match goal with HH : _ = s_pc s c |- _ => rewrite <- HH in Fc, GEN; cbn in Fc end;
    match goal with HH : _ = s_store s' |- _ => rewrite <- HH in S end;
    match goal with HH : _ = p' |- _ => rewrite <- HH in GEN, RC end; cbn in GEN, RC;
    try (apply GEN; [exact S|intros R; left; apply SAME; [congruence|exact R]|tauto]; fail).
  - (* SIns *) apply GEN; [exact S| |tauto]. intros [i [r [Q H']]]. left. exists i, r. split; [|exact H'].
    match goal with HH : rset _ _ _ = s_refs s' |- _ => rewrite <- HH end.
    rewrite rset_other; [exact Q|]. apply NX in Q. lia.
  - (* SStore *) destruct (str_dec h k) as [->|n].
    + left. destruct Fc as [n Fn]. exists id, (mkRef st n k). split; [congruence|reflexivity].
    + rewrite bset_other in S by assumption. apply GEN; [exact S|intros R; left; apply SAME; [congruence|exact R]|tauto].
  - (* U3 *) destruct (str_dec h new) as [->|n]; [auto|].
    rewrite bset_other in S by assumption. apply GEN; [exact S|intros R; left; apply SAME; [congruence|exact R]|tauto].
  - (* U4 *) assert (NW : refers s' new).
    { exists id. eexists. match goal with HH : rset _ _ _ = s_refs s' |- _ => rewrite <- HH end.
      rewrite rset_same. split; reflexivity. }
    apply GEN; [exact S| |intros ->; auto].
    intros [i [r0 [Q H']]]. destruct (Nat.eq_dec i id) as [->|n].
    + right. destruct Fc as [n Fn]. rewrite Fn in Q. injection Q as <-. cbn in H'. congruence.
    + left. exists i, r0. match goal with HH : rset _ _ _ = s_refs s' |- _ => rewrite <- HH end.
      rewrite rset_other by assumption. auto.
  - (* U4 error *) destruct Fc as [n Fn]. congruence.
  - (* U5, used *) apply GEN; [exact S|intros R; left; apply SAME; [congruence|exact R]|].
    intros ->. left. apply SAME; [congruence|auto].
  - (* U6 *) destruct (str_dec h old) as [->|n]; [rewrite bset_same in S; discriminate|].
    rewrite bset_other in S by assumption. apply GEN; [exact S|intros R; left; apply SAME; [congruence|exact R]|congruence].
  - (* D2 *) apply GEN; [exact S| |tauto]. intros [i [r0 [Q H']]].
    destruct (Nat.eq_dec i id) as [->|n].
    + right. destruct Fc as [_ [FA _]]. destruct (FA id h0 (or_introl eq_refl)) as [n Fn].
      rewrite Fn in Q. injection Q as <-. cbn in H'. congruence.
    + left. exists i, r0. match goal with HH : rset _ _ _ = s_refs s' |- _ => rewrite <- HH end.
      rewrite rset_other by assumption. auto.
  - (* D3, used *) apply GEN; [exact S|intros R; left; apply SAME; [congruence|exact R]|].
    intros ->. left. apply SAME; [congruence|auto].
  - (* D4 *) destruct (str_dec h h0) as [->|n]; [rewrite bset_same in S; discriminate|].
    rewrite bset_other in S by assumption. apply GEN; [exact S|intros R; left; apply SAME; [congruence|exact R]|congruence].
  - (* D6 *) apply GEN; [exact S| |tauto]. intros [i [r0 [Q H']]]. left. exists i, r0.
    match goal with HH : drop_stream _ _ = s_refs s' |- _ => rewrite <- HH end.
    unfold drop_stream. rewrite Q. specialize (Fc i r0 Q). apply Nat.eqb_neq in Fc. rewrite Fc. auto.
Qed.

Lemma run_oinv tr s : run one_user tr s -> oinv s.
Proof.
  induction 1 as [|tr s l s' ev _ IH ST OU].
  - constructor; cbn; try discriminate; [|intros; exact I].
    constructor; cbn; try contradiction; try discriminate. intros; exact I.
  - destruct (step_trans _ _ _ _ ST) as [c [p' [T [E [A [B C]]]]]]. eapply trans_oinv; eassumption.
Qed.
