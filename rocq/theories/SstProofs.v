(** Invariants of StreamStore *)
From Verif Require Import Py SstModel SstSpec.

Lemma rset_same f i v : rset f i v i = v.
Proof. unfold rset. rewrite Nat.eqb_refl. reflexivity. Qed.
Lemma rset_other f i v j : j <> i -> rset f i v j = f j.
Proof. intros H. unfold rset. apply Nat.eqb_neq in H. rewrite H. reflexivity. Qed.
Lemma bset_same f h v : bset f h v h = v.
Proof. unfold bset. destruct (str_dec h h); congruence. Qed.
Lemma bset_other f h v h' : h' <> h -> bset f h v h' = f h'.
Proof. unfold bset. destruct (str_dec h' h); congruence. Qed.
Lemma lset_same f h v : lset f h v h = v.
Proof. unfold lset. destruct (str_dec h h); congruence. Qed.
Lemma lset_other f h v h' : h' <> h -> lset f h v h' = f h'.
Proof. unfold lset. destruct (str_dec h' h); congruence. Qed.
Lemma pset_same f c v : pset f c v c = v.
Proof. unfold pset. rewrite Nat.eqb_refl. reflexivity. Qed.
Lemma pset_other f c v c' : c' <> c -> pset f c v c' = f c'.
Proof. intros H. unfold pset. apply Nat.eqb_neq in H. rewrite H. reflexivity. Qed.

Lemma used_spec refs next h : (forall id r, refs id = Some r -> (id < next)%nat) ->
  used refs next h = true <-> exists id r, refs id = Some r /\ r_hash r = h.
Proof.
  intros B. unfold used. rewrite existsb_exists. split.
  - intros [id [_ H]]. destruct (refs id) as [r|] eqn:E; [|discriminate].
    exists id, r. split; [exact E|]. apply str_eqb_eq. exact H.
  - intros [id [r [E H]]]. exists id. split.
    + apply in_seq. specialize (B _ _ E). lia.
    + rewrite E. apply str_eqb_eq. exact H.
Qed.

(** what a step does, as a relation *)
Inductive trans (s : sys) (c : nat) (refs := s_refs s) (next := s_next s) (st0 := s_store s) (lk := s_lock s)
  : pc -> (nat -> option ref) -> nat -> (str -> bool) -> (str -> option nat) -> pc -> list event -> Prop :=
| t_call o : trans s c Idle refs next st0 lk (start o) (match start o with Idle => [EDone c] | _ => nil end)
| t_sins st num k : trans s c (SIns st num k) (rset refs next (Some (mkRef st num k))) (S next) st0 lk (SLock st next k) nil
| t_slock st id k : lk k = None -> trans s c (SLock st id k) refs next st0 (lset lk k (Some c)) (SStore st id k) nil
| t_sstore st id k : trans s c (SStore st id k) refs next (bset st0 k true) lk (SUnlock st id k) nil
| t_sunlock st id k : trans s c (SUnlock st id k) refs next st0 (lset lk k None) Idle [EDone c]
| t_u1 st id old new : lk old = None -> trans s c (U1 st id old new) refs next st0 (lset lk old (Some c)) (U2 st id old new) nil
| t_u2 st id old new : lk new = None -> trans s c (U2 st id old new) refs next st0 (lset lk new (Some c)) (U3 st id old new) nil
| t_u3 st id old new : trans s c (U3 st id old new) refs next (bset st0 new true) lk (U4 st id old new) nil
| t_u4 st id old new r : refs id = Some r ->
    trans s c (U4 st id old new) (rset refs id (Some (mkRef (r_stream r) (r_num r) new))) next st0 lk (U5 st id old new) nil
| t_u4e st id old new : refs id = None ->
    trans s c (U4 st id old new) refs next st0 lk (U7 st id old new false) nil
| t_u5y st id old new : used refs next old = true ->
    trans s c (U5 st id old new) refs next st0 lk (U7 st id old new true) nil
| t_u5n st id old new : used refs next old = false ->
    trans s c (U5 st id old new) refs next st0 lk (U6 st id old new) nil
| t_u6 st id old new : trans s c (U6 st id old new) refs next (bset st0 old false) lk (U7 st id old new true) nil
| t_u7 st id old new ok : trans s c (U7 st id old new ok) refs next st0 (lset lk new None) (U8 st id old ok) nil
| t_u8 st id old ok : trans s c (U8 st id old ok) refs next st0 (lset lk old None) Idle [if ok then EDone c else EKeyError c]
| t_d0 st from all : trans s c (D0 st from all) refs next st0 lk (D1 st (blocklist refs next st from) all) nil
| t_d1 st id h todo all : lk h = None ->
    trans s c (D1 st ((id, h) :: todo) all) refs next st0 (lset lk h (Some c)) (D2 st id h todo all) nil
| t_d1a st : trans s c (D1 st nil true) refs next st0 lk (D6 st) nil
| t_d1e st : trans s c (D1 st nil false) refs next st0 lk Idle [EDone c]
| t_d2 st id h todo all r : refs id = Some r ->
    trans s c (D2 st id h todo all) (rset refs id None) next st0 lk (D3 st id h todo all) nil
| t_d2e st id h todo all : refs id = None ->
    trans s c (D2 st id h todo all) refs next st0 lk (D5 st id h todo all false) nil
| t_d3y st id h todo all : used refs next h = true ->
    trans s c (D3 st id h todo all) refs next st0 lk (D5 st id h todo all true) nil
| t_d3n st id h todo all : used refs next h = false ->
    trans s c (D3 st id h todo all) refs next st0 lk (D4 st id h todo all) nil
| t_d4 st id h todo all : trans s c (D4 st id h todo all) refs next (bset st0 h false) lk (D5 st id h todo all true) nil
| t_d5 st id h todo all : trans s c (D5 st id h todo all true) refs next st0 (lset lk h None) (D1 st todo all) nil
| t_d5e st id h todo all : trans s c (D5 st id h todo all false) refs next st0 (lset lk h None) Idle [EKeyError c]
| t_d6 st : trans s c (D6 st) (drop_stream refs st) next st0 lk Idle [EDone c]
| t_e1 st id k : trans s c (SLock st id k) refs next st0 lk Idle [ELockError c (Some id)]
| t_e2 st id old new : trans s c (U1 st id old new) refs next st0 lk Idle [ELockError c None]
| t_e3 st id old new : trans s c (U2 st id old new) refs next st0 (lset lk old None) Idle [ELockError c None]
| t_e4 st x todo all : trans s c (D1 st (x :: todo) all) refs next st0 lk Idle [ELockError c None].

Lemma step_trans s l s' ev : step s l = Some (s', ev) ->
  exists c p', trans s c (s_pc s c) (s_refs s') (s_next s') (s_store s') (s_lock s') p' ev /\
    s_pc s' = pset (s_pc s) c p' /\
    (forall o, l = Call c o -> p' = start o) /\
    (forall c' o, l = Call c' o -> c' = c /\ s_pc s c = Idle) /\
    ((forall c' o, l <> Call c' o) -> s_pc s c <> Idle).
Proof.
  intros H. destruct l as [c o|c|c]; cbn in H.
  - exists c, (start o). destruct (s_pc s c) eqn:E; try discriminate. injection H as <- <-. cbn.
    split; [constructor|]. split; [reflexivity|]. split; [intros ? [= <-]; reflexivity|].
    split; [intros ? ? [= <- <-]; auto|]. intros Q. exfalso. eapply Q. reflexivity.
  - exists c. unfold run1, next_block, acquire, release, setstore, setpc in H.
    destruct (s_pc s c) eqn:E; try discriminate;
      repeat match type of H with
        | context [match ?x with Some _ => _ | None => _ end] => destruct x eqn:?
        | context [match ?x with nil => _ | cons _ _ => _ end] => destruct x as [|[? ?] ?] eqn:?; subst
        | context [if ?x then _ else _] => destruct x eqn:?; subst
        end; try discriminate; injection H as <- <-; cbn;
      (eexists; split; [first [solve [constructor] | solve [constructor; assumption] | solve [econstructor; eassumption]]
       |split; [reflexivity|split; [intros; discriminate|split; [intros; discriminate|intros _; congruence]]]]).
  - exists c. unfold fail1, release, setpc in H.
    destruct (s_pc s c) eqn:E; try discriminate;
      repeat match type of H with
        | context [match ?x with nil => _ | cons _ _ => _ end] => destruct x as [|[? ?] ?] eqn:?; subst
        end; try discriminate; injection H as <- <-; cbn;
      (eexists; split; [constructor
       |split; [reflexivity|split; [intros; discriminate|split; [intros; discriminate|intros _; congruence]]]]).
Qed.

(** ** locks *)
Definition holds_lock (p : pc) (h : str) : Prop :=
  match p with
  | SStore _ _ k | SUnlock _ _ k => h = k
  | U2 _ _ old _ | U8 _ _ old _ => h = old
  | U3 _ _ old new | U4 _ _ old new | U5 _ _ old new | U6 _ _ old new | U7 _ _ old new _ =>
      h = old \/ h = new
  | D2 _ _ k _ _ | D3 _ _ k _ _ | D4 _ _ k _ _ | D5 _ _ k _ _ _ => h = k
  | _ => False
  end.
Definition differ (p : pc) : Prop :=
  match p with
  | U1 _ _ old new | U2 _ _ old new | U3 _ _ old new | U4 _ _ old new | U5 _ _ old new
  | U6 _ _ old new | U7 _ _ old new _ => old <> new
  | _ => True
  end.

Record linv (s : sys) : Prop := mkL {
  l_lock : forall c h, holds_lock (s_pc s c) h -> s_lock s h = Some c;
  l_diff : forall c, differ (s_pc s c);
  l_next : forall id r, s_refs s id = Some r -> (id < s_next s)%nat }.

Lemma trans_linv s s' c p' ev : linv s ->
  trans s c (s_pc s c) (s_refs s') (s_next s') (s_store s') (s_lock s') p' ev ->
  s_pc s' = pset (s_pc s) c p' -> linv s'.
Proof.
  intros [A B C] T E. constructor.
  - (* locks *)
    assert (K : (forall h, holds_lock p' h -> s_lock s' h = Some c) /\
                forall c' h, c' <> c -> s_lock s h = Some c' -> s_lock s' h = Some c').
    { specialize (A c). pose proof (B c) as D.
      inversion T; subst; match goal with H : _ = s_pc s c |- _ => rewrite <- H in A, D; clear T H end;
        cbn [holds_lock differ] in *; split; intros;
        try (match goal with o : op |- _ => destruct o; cbn in *; try destruct (str_eqb _ _); contradiction end);
        try contradiction; try (subst; apply lset_same);
        try solve [apply A; auto]; try solve [auto];
        try (match goal with |- lset _ ?k _ ?h = _ =>
               destruct (str_dec h k) as [->|]; [rewrite ?lset_same; try reflexivity|rewrite lset_other by assumption] end);
        try solve [apply A; intuition congruence]; try solve [intuition congruence];
        try (match goal with H : s_lock s ?h = Some _ |- _ =>
          solve [rewrite (A h) in H by auto; congruence] end).
    }
    destruct K as [K1 K2]. intros c' h. rewrite E. destruct (Nat.eq_dec c' c) as [->|n].
    + rewrite pset_same. apply K1.
    + rewrite pset_other by assumption. intros H. apply K2; auto.
  - intros c'. rewrite E. destruct (Nat.eq_dec c' c) as [->|n]; [|rewrite pset_other by assumption; apply B].
    rewrite pset_same. specialize (B c).
    inversion T; subst; match goal with H : _ = s_pc s c |- _ => rewrite <- H in B; clear T H end;
      cbn [differ] in *; try exact I; try exact B.
    destruct o; cbn; try exact I. destruct (str_eqb new old) eqn:Q; cbn; [exact I|].
    intros ->. assert (str_eqb new new = true) by (apply str_eqb_eq; reflexivity). congruence.
  - inversion T; intros i r0 H'; try (eapply C; eassumption).
    + destruct (Nat.eq_dec i (s_next s)) as [->|n]; [lia|]. rewrite rset_other in H' by assumption.
      specialize (C _ _ H'). lia.
    + destruct (Nat.eq_dec i id) as [->|n]; [eapply C; eassumption|]. rewrite rset_other in H' by assumption.
      eapply C; eassumption.
    + destruct (Nat.eq_dec i id) as [->|n]; [eapply C; eassumption|]. rewrite rset_other in H' by assumption.
      eapply C; eassumption.
    + unfold drop_stream in H'. destruct (s_refs s i) eqn:Q; [|discriminate]. eapply C; eassumption.
Qed.
