(** Proofs for C79-C80: what the automaton accepts. *)
From Verif Require Import Py Num UriModel HttpModel CmSpec CmModel CmProofs.

Notation mk := (fun (i : nat) (n : str) => [(i, n)]).
(** a target: the particles that may come next, and whether the end may *)
Definition target := (((nat * str) -> Prop) * Prop)%type.
Definition sem (m : pmap) : target := (has m, ends m).
Definition teq (a b : target) : Prop := (forall x, fst a x <-> fst b x) /\ (snd a <-> snd b).
Definition more (b : bool) (F : list (nat * str)) (T : target) : target := ((fun x => fst T x \/ (b = true /\ In x F)), snd T).
Definition after (l : list particle) (T : target) : target :=
  ((fun x => In x (seqfirsts l) \/ (forallb nul l = true /\ fst T x)), forallb nul l = true /\ snd T).
Lemma teq_refl : forall T, teq T T.
Proof. intros T. split; [intros x|]; tauto. Qed.
Lemma teq_sym : forall a b, teq a b -> teq b a.
Proof. intros a b [H1 H2]. split; [intros x; symmetry; apply H1|symmetry; exact H2]. Qed.
Lemma teq_trans : forall a b c, teq a b -> teq b c -> teq a c.
Proof. intros a b c [H1 H2] [H3 H4]. split; [intros x; rewrite H1; apply H3|rewrite H2; exact H4]. Qed.
Lemma more_teq : forall b F T T', teq T T' -> teq (more b F T) (more b F T').
Proof. intros b F T T' [H1 H2]. split; [intros x; cbn [more fst]; rewrite H1; tauto|exact H2]. Qed.
Lemma after_teq : forall l T T', teq T T' -> teq (after l T) (after l T').
Proof. intros l T T' [H1 H2]. split; [intros x; cbn [after fst]; rewrite H1; tauto|cbn [after snd]; rewrite H2; tauto]. Qed.

(** the runs of the automaton *)
Fixpoint K (h : heap) (m : pmap) (w : list (nat * str)) : Prop :=
  match w with [] => ends m | x :: v => has m x /\ K h (hp_get h (fst x)) v end.
Definition KT (h : heap) (T : target) (w : list (nat * str)) : Prop :=
  match w with [] => snd T | x :: v => fst T x /\ K h (hp_get h (fst x)) v end.
Definition KF (h : heap) (F : list (nat * str)) (w : list (nat * str)) : Prop :=
  match w with [] => False | x :: v => In x F /\ K h (hp_get h (fst x)) v end.
Lemma K_sem : forall h m w, K h m w = KT h (sem m) w.
Proof. intros h m [|x w]; reflexivity. Qed.
Lemma KT_teq : forall h T T' w, teq T T' -> KT h T w <-> KT h T' w.
Proof. intros h T T' [|x w] [H1 H2]; cbn [KT]; [exact H2|rewrite H1; tauto]. Qed.
Lemma KT_more : forall h b F T w, KT h (more b F T) w <-> KT h T w \/ (b = true /\ KF h F w).
Proof. intros h b F T [|x w]; cbn [KT KF more fst snd]; tauto. Qed.
Lemma KT_after : forall h l T w, KT h (after l T) w <-> KF h (seqfirsts l) w \/ (forallb nul l = true /\ KT h T w).
Proof. intros h l T [|x w]; cbn [KT KF after fst snd]; tauto. Qed.
Lemma KF_app : forall h a b w, KF h (a ++ b) w <-> KF h a w \/ KF h b w.
Proof. intros h a b [|x w]; cbn [KF]; [tauto|rewrite in_app_iff; tauto]. Qed.

(** the maps of the particles in p lead to what comes after them in p, or to T *)
Fixpoint built (h : heap) (p : particle) (T : target) : Prop :=
  match p with
  | PName i n o => teq (sem (hp_get h i)) (more (rep o) [(i, n)] T)
  | PChoice o l => (fix go l := match l with [] => True | c :: r => built h c (more (rep o) (firsts p) T) /\ go r end) l
  | PSeq o l => (fix go l := match l with [] => True | c :: r => built h c (after r (more (rep o) (firsts p) T)) /\ go r end) l
  end.
Fixpoint built_any (h : heap) (l : list particle) (T : target) : Prop :=
  match l with [] => True | c :: r => built h c T /\ built_any h r T end.
Fixpoint built_all (h : heap) (l : list particle) (T : target) : Prop :=
  match l with [] => True | c :: r => built h c (after r T) /\ built_all h r T end.
Lemma built_choice : forall h o l T, built h (PChoice o l) T = built_any h l (more (rep o) (firsts (PChoice o l)) T).
Proof.
  intros. cbn [built]. generalize (more (rep o) (firsts (PChoice o l)) T) as Y. intros Y. induction l as [|c l IH]; [reflexivity|]. cbn [built_any]. rewrite <- IH. reflexivity.
Qed.
Lemma built_seq : forall h o l T, built h (PSeq o l) T = built_all h l (more (rep o) (firsts (PSeq o l)) T).
Proof.
  intros. cbn [built]. generalize (more (rep o) (firsts (PSeq o l)) T) as Y. intros Y. induction l as [|c l IH]; [reflexivity|]. cbn [built_all]. rewrite <- IH. reflexivity.
Qed.

Section times.
  Context (h : heap) (F : list (nat * str)) (L : list (nat * str) -> Prop) (o : occ) (T : target).
  Hypothesis H : forall w, KF h F w <-> exists u v, w = u ++ v /\ u <> [] /\ L u /\ KT h (more (rep o) F T) v.
  Lemma one_or_more : rep o = true -> forall w, KF h F w <-> exists u v, w = u ++ v /\ u <> [] /\ repeated L u /\ KT h T v.
  Proof.
    intros Ro. split.
    - remember (length w) as n eqn:En. assert (Le : (length w <= n)%nat) by lia. clear En. revert w Le. induction n as [|n IH]; intros w Le Kw.
      + destruct w; [destruct Kw|cbn in Le; lia].
      + apply H in Kw as (u & v & -> & Nu & Lu & Kv). apply KT_more in Kv as [Kv|[_ Kv]].
        * exists u, v. split; [reflexivity|]. split; [exact Nu|]. split; [|exact Kv]. rewrite <- (app_nil_r u). constructor; [exact Lu|constructor].
        * apply IH in Kv as (u2 & v2 & -> & _ & Ru & Kv2).
          -- exists (u ++ u2), v2. split; [apply app_assoc|]. split; [destruct u; [congruence|discriminate]|]. split; [constructor; assumption|exact Kv2].
          -- rewrite app_length in Le. destruct u; [congruence|cbn [length] in Le; lia].
    - intros (u & v & -> & Nu & Ru & Kv). induction Ru as [|a b La Rb IH]; [congruence|]. destruct a as [|x a].
      + apply IH. exact Nu.
      + apply H. exists (x :: a), (b ++ v). split; [symmetry; apply app_assoc|]. split; [discriminate|]. split; [exact La|].
        apply KT_more. destruct b as [|y b]; [left; exact Kv|]. right. split; [exact Ro|]. apply IH. discriminate.
  Qed.
  Lemma times_ok : forall w, KF h F w <-> exists u v, w = u ++ v /\ u <> [] /\ times o L u /\ KT h T v.
  Proof.
    intros w. assert (N : rep o = false -> forall v, KT h (more (rep o) F T) v <-> KT h T v).
    { intros Ro v. rewrite KT_more, Ro. intuition discriminate. }
    pose proof one_or_more as OM. revert H N OM. destruct o; cbn [times rep]; intros H N OM.
    - rewrite H. split; intros (u & v & H1 & H2 & H3 & H4); exists u, v; (split; [exact H1|]); (split; [exact H2|]); (split; [exact H3|]); apply N; auto.
    - rewrite H. split; intros (u & v & H1 & H2 & H3 & H4); exists u, v; (split; [exact H1|]); (split; [exact H2|]); (split; [tauto|]); apply N; auto.
    - apply OM. reflexivity.
    - rewrite OM by reflexivity. split.
      + intros (u & v & H1 & H2 & H3 & H4). exists u, v. split; [exact H1|]. split; [exact H2|]. split; [|exact H4].
        apply rep_nonempty in H3 as (a & b & -> & _ & La & Rb); [|exact H2]. exists a, b. auto.
      + intros (u & v & H1 & H2 & (a & b & -> & La & Rb) & H4). exists (a ++ b), v. split; [exact H1|]. split; [exact H2|]. split; [constructor; assumption|exact H4].
  Qed.
End times.

Theorem accepts : forall h p T, built h p T -> forall w,
  KF h (firsts p) w <-> exists u v, w = u ++ v /\ u <> [] /\ matched p u /\ KT h T v.
Proof.
  intros h. induction p as [i n o|o l IH|o l IH] using particle_ind2; intros T B.
  - unfold matched. cbn [words]. apply times_ok. cbn [built] in B. intros w. cbn [firsts]. split.
    + destruct w as [|x w]; cbn [KF]; [tauto|]. intros [[<-|[]] Kw]. cbn [fst] in Kw. rewrite K_sem in Kw. apply (KT_teq _ _ _ _ B) in Kw.
      exists [(i, n)], w. split; [reflexivity|]. split; [discriminate|]. split; [reflexivity|exact Kw].
    + intros (u & v & -> & _ & -> & Kv). cbn [app KF]. split; [left; reflexivity|]. cbn [fst]. rewrite K_sem. apply (KT_teq _ _ _ _ B). exact Kv.
  - unfold matched. rewrite words_choice. apply times_ok. rewrite built_choice in B. cbn [firsts] in *. revert B. generalize (more (rep o) (flat_map firsts l) T) as T'. clear T.
    induction IH as [|c l Hc _ IH]; intros T' B w.
    + cbn [flat_map]. split; [destruct w; cbn [KF In]; tauto|intros (u & v & _ & _ & [] & _)].
    + cbn [flat_map anyw]. destruct B as [B1 B2]. rewrite KF_app, (Hc _ B1), (IH _ B2). split.
      * intros [(u & v & H1 & H2 & H3 & H4)|(u & v & H1 & H2 & H3 & H4)]; exists u, v; auto.
      * intros (u & v & H1 & H2 & [H3|H3] & H4); [left|right]; exists u, v; auto.
  - unfold matched. rewrite words_seq. apply times_ok. rewrite built_seq in B. rewrite firsts_seq in *. revert B. generalize (more (rep o) (seqfirsts l) T) as T'. clear T.
    induction IH as [|c l Hc _ IH]; intros T' B w.
    + cbn [seqfirsts seqw]. split; [destruct w; cbn [KF In]; tauto|intros (u & v & _ & N & -> & _); congruence].
    + cbn [seqfirsts seqw]. destruct B as [B1 B2]. rewrite KF_app, (Hc _ B1). specialize (IH _ B2). split.
      * intros [(u & v & -> & H2 & H3 & H4)|H4].
        -- apply KT_after in H4 as [H4|[H4 H5]].
           ++ apply IH in H4 as (u2 & v2 & -> & H5 & H6 & H7). exists (u ++ u2), v2. split; [apply app_assoc|]. split; [destruct u; [congruence|discriminate]|]. split; [exists u, u2; auto|exact H7].
           ++ exists u, v. split; [reflexivity|]. split; [exact H2|]. split; [|exact H5]. exists u, []. split; [symmetry; apply app_nil_r|]. split; [exact H3|]. apply nuls_ok. exact H4.
        -- destruct (nul c) eqn:Nc; [|destruct w; [destruct H4|destruct H4 as [[] _]]].
           apply IH in H4 as (u2 & v2 & -> & H5 & H6 & H7). exists u2, v2. split; [reflexivity|]. split; [exact H5|]. split; [|exact H7].
           exists [], u2. split; [reflexivity|]. split; [apply nul_ok; exact Nc|exact H6].
      * intros (u & v & -> & Nu & (a & b & -> & Ha & Hb) & Kv). destruct a as [|x a].
        -- right. apply nul_ok in Ha. rewrite Ha. apply IH. exists b, v. auto.
        -- left. exists (x :: a), (b ++ v). split; [symmetry; apply app_assoc|]. split; [discriminate|]. split; [exact Ha|]. apply KT_after. destruct b as [|y b].
           ++ right. split; [apply nuls_ok; exact Hb|exact Kv].
           ++ left. apply IH. exists (y :: b), v. split; [reflexivity|]. split; [discriminate|]. auto.
Qed.

(** ** build_particle_maps builds *)
Lemma built_teq : forall h p T T', teq T T' -> built h p T -> built h p T'.
Proof.
  intros h. induction p as [i n o|o l IH|o l IH] using particle_ind2; intros T T' E B.
  - cbn [built] in *. eapply teq_trans; [exact B|]. apply more_teq. exact E.
  - rewrite built_choice in *. apply (more_teq (rep o) (firsts (PChoice o l))) in E. revert E B.
    generalize (more (rep o) (firsts (PChoice o l)) T) as A1, (more (rep o) (firsts (PChoice o l)) T') as A2. clear T T'. intros A1 A2 E.
    induction IH as [|c l Hc _ IH]; cbn [built_any]; [tauto|]. intros [B1 B2]. split; [eapply Hc; eassumption|apply IH; assumption].
  - rewrite built_seq in *. apply (more_teq (rep o) (firsts (PSeq o l))) in E. revert E B.
    generalize (more (rep o) (firsts (PSeq o l)) T) as A1, (more (rep o) (firsts (PSeq o l)) T') as A2. clear T T'. intros A1 A2 E.
    induction IH as [|c l Hc _ IH]; cbn [built_all]; [tauto|]. intros [B1 B2]. split; [eapply Hc; [|exact B1]; apply after_teq; exact E|apply IH; assumption].
Qed.
Lemma built_heap : forall h h' p T, (forall x, In x (leaves p) -> hp_get h (fst x) = hp_get h' (fst x)) -> built h p T -> built h' p T.
Proof.
  intros h h'. induction p as [i n o|o l IH|o l IH] using particle_ind2; intros T E B.
  - cbn [built] in *. specialize (E (i, n) (or_introl eq_refl)). cbn [fst] in E. rewrite <- E. exact B.
  - rewrite built_choice in *. cbn [leaves] in E. revert B. generalize (more (rep o) (firsts (PChoice o l)) T) as A1. intros A1.
    induction IH as [|c l Hc _ IH]; cbn [built_any]; [tauto|]. intros [B1 B2]. cbn [flat_map] in E. split.
    + apply Hc; [|exact B1]. intros x Hx. apply E. apply in_or_app. left. exact Hx.
    + apply IH; [|exact B2]. intros x Hx. apply E. apply in_or_app. right. exact Hx.
  - rewrite built_seq in *. cbn [leaves] in E. revert B. generalize (more (rep o) (firsts (PSeq o l)) T) as A1. intros A1.
    induction IH as [|c l Hc _ IH]; cbn [built_all]; [tauto|]. intros [B1 B2]. cbn [flat_map] in E. split.
    + apply Hc; [|exact B1]. intros x Hx. apply E. apply in_or_app. left. exact Hx.
    + apply IH; [|exact B2]. intros x Hx. apply E. apply in_or_app. right. exact Hx.
Qed.
Lemma get_put : forall h i m j, hp_get (hp_put h i m) j = if (j =? i)%nat then m else hp_get h j.
Proof.
  intros h i m j. induction h as [|[k m'] h IH]; cbn [hp_put hp_get]; [reflexivity|]. destruct (Nat.eqb_spec i k) as [->|N]; cbn [hp_get].
  - destruct (Nat.eqb_spec j k); reflexivity.
  - destruct (Nat.eqb_spec j k) as [->|N2]; [|exact IH]. destruct (Nat.eqb_spec k i); [congruence|reflexivity].
Qed.
Fixpoint build_any (l : list particle) (X : pmap) (h : heap) : heap := match l with [] => h | c :: r => build_any r X (build c X h) end.
Fixpoint build_all (l : list particle) (X : pmap) (h : heap) : heap :=
  match l with [] => h | c :: r => build_all r X (build c (child_exits r X []) h) end.
Definition new_exits (p : particle) (o : occ) (X : pmap) : pmap := add_particles X (if rep o then fst (seek p []) else []).
Lemma build_choice : forall o l X h, build (PChoice o l) X h = build_any l (new_exits (PChoice o l) o X) h.
Proof. intros. unfold new_exits. cbn [build]. generalize (add_particles X (if rep o then fst (seek (PChoice o l) []) else [])). intros Y. revert h. induction l as [|c l IH]; intros h; [reflexivity|apply IH]. Qed.
Lemma build_seq : forall o l X h, build (PSeq o l) X h = build_all l (new_exits (PSeq o l) o X) h.
Proof. intros. unfold new_exits. cbn [build]. generalize (add_particles X (if rep o then fst (seek (PSeq o l) []) else [])). intros Y. revert h. induction l as [|c l IH]; intros h; [reflexivity|apply IH]. Qed.
Definition names_ok (p : particle) : Prop := Forall (fun x : nat * str => snd x <> []) (leaves p).
Lemma names_firsts : forall p, names_ok p -> Forall (fun x => snd x <> []) (firsts p).
Proof. intros p H. apply Forall_forall. intros x Hx. unfold names_ok in H. rewrite Forall_forall in H. apply H. apply firsts_leaves. exact Hx. Qed.
Lemma new_exits_ok : forall p o X, names_ok p -> wf X -> wf (new_exits p o X) /\ teq (sem (new_exits p o X)) (more (rep o) (firsts p) (sem X)).
Proof.
  intros p o X N W. unfold new_exits. rewrite seek_eq. cbn [fst].
  destruct (adds_ok (firsts p) [] wf_nil (names_firsts _ N)) as (A1 & A2 & A3).
  assert (W' : wf (if rep o then adds [] (firsts p) else [])) by (destruct (rep o); [exact A1|apply wf_nil]).
  destruct (add_particles_ok X _ W W') as (B1 & B2 & B3). split; [exact B1|]. unfold sem, more. split; cbn [fst snd].
  - intros x. rewrite B2. destruct (rep o).
    + rewrite A2. unfold has at 1. cbn [pm_find]. split; [intros [[(l & E & _)|H]|H]; [discriminate|auto|auto]|intros [H|[_ H]]; auto].
    + unfold has at 1. cbn [pm_find]. split; [intros [(l & E & _)|H]; [discriminate|auto]|intros [H|[E _]]; [auto|discriminate]].
  - rewrite B3. destruct (rep o); [rewrite A3|]; unfold ends at 1; cbn [pm_find]; split; [intros [E|H]; [discriminate|exact H]|auto|intros [E|H]; [discriminate|exact H]|auto].
Qed.
Lemma child_exits_eq : forall l X m, child_exits l X m = if forallb nul l then add_particles X (adds m (seqfirsts l)) else adds m (seqfirsts l).
Proof.
  induction l as [|c l IH]; intros X m; cbn [child_exits forallb seqfirsts]; [reflexivity|]. rewrite seek_eq, adds_app.
  destruct (nul c); cbn [negb andb]; [apply IH|reflexivity].
Qed.
Lemma child_exits_ok : forall l X, Forall (fun x => snd x <> []) (flat_map leaves l) -> wf X ->
  wf (child_exits l X []) /\ teq (sem (child_exits l X [])) (after l (sem X)).
Proof.
  intros l X N W. rewrite child_exits_eq.
  assert (NF : Forall (fun x : nat * str => snd x <> []) (seqfirsts l)).
  { apply Forall_forall. intros x Hx. rewrite Forall_forall in N. apply N. apply seqfirsts_leaves. exact Hx. }
  destruct (adds_ok (seqfirsts l) [] wf_nil NF) as (A1 & A2 & A3).
  assert (A2' : forall y, has (adds [] (seqfirsts l)) y <-> In y (seqfirsts l)).
  { intros y. rewrite A2. unfold has. cbn [pm_find]. split; [intros [(x & E & _)|H]; [discriminate|exact H]|auto]. }
  assert (A3' : ~ ends (adds [] (seqfirsts l))). { rewrite A3. discriminate. }
  destruct (forallb nul l) eqn:E.
  - destruct (add_particles_ok X _ W A1) as (B1 & B2 & B3). split; [exact B1|]. unfold sem, after. split; cbn [fst snd]; rewrite ?E.
    + intros x. rewrite B2, A2'. tauto.
    + rewrite B3. tauto.
  - split; [exact A1|]. unfold sem, after. split; cbn [fst snd]; rewrite ?E.
    + intros x. rewrite A2'. intuition discriminate.
    + intuition discriminate.
Qed.
Lemma nodup_app_inv : forall (a b : list nat), NoDup (a ++ b) -> NoDup a /\ NoDup b /\ (forall x, In x a -> ~ In x b).
Proof.
  induction a as [|y a IH]; intros b N; [split; [constructor|]; split; [exact N|intros x []]|]. cbn [app] in N. inversion N; subst. apply IH in H2 as (H3 & H4 & H5).
  split; [constructor; [intros X; apply H1; apply in_or_app; auto|exact H3]|]. split; [exact H4|]. intros x [<-|X] Y; [apply H1; apply in_or_app; auto|exact (H5 x X Y)].
Qed.
Lemma names_list : forall o l, names_ok (PChoice o l) -> Forall names_ok l.
Proof.
  intros o l N. unfold names_ok in N. cbn [leaves] in N. apply Forall_forall. intros c Hc. unfold names_ok. apply Forall_forall. intros x Hx. rewrite Forall_forall in N. apply N. apply in_flat_map. eauto.
Qed.
Theorem build_ok : forall p X h, wf X -> names_ok p -> NoDup (map fst (leaves p)) ->
  built (build p X h) p (sem X) /\ (forall i, ~ In i (map fst (leaves p)) -> hp_get (build p X h) i = hp_get h i) /\
  (forall i, In i (map fst (leaves p)) -> wf (hp_get (build p X h) i)).
Proof.
  induction p as [i n o|o l IH|o l IH] using particle_ind2; intros X h W N D.
  - cbn [build built leaves map fst In]. assert (Nn : n <> []) by (inversion N; subst; assumption).
    assert (W' : wf (if rep o then [(n, Some [i])] else [])).
    { destruct (rep o); [|apply wf_nil]. apply (put_list_wf n [i] [] wf_nil Nn); [discriminate|]. constructor; [intros []|constructor]. }
    destruct (add_particles_ok X _ W W') as (B1 & B2 & B3). split; [|split].
    + rewrite get_put, Nat.eqb_refl. unfold sem, more. split; cbn [fst snd].
      * intros x. rewrite B2. destruct (rep o); unfold has at 1; cbn [pm_find In].
        -- destruct x as [j k]. cbn [fst snd]. destruct (str_eqb k n) eqn:E.
           ++ apply str_eqb_eq in E. subst k. split; [intros [(l & X1 & X2)|H]; [inversion X1; subst; destruct X2 as [->|[]]; auto|auto]|intros [H|[_ [H|[]]]]; [auto|inversion H; subst; left; exists [j]; cbn; auto]].
           ++ apply str_eqb_neq in E. split; [intros [(l & X1 & X2)|H]; [discriminate|auto]|intros [H|[_ [H|[]]]]; [auto|inversion H; subst; congruence]].
        -- split; [intros [(l & X1 & X2)|H]; [discriminate|auto]|intros [H|[E _]]; [auto|discriminate]].
      * rewrite B3. destruct (rep o); unfold ends at 1; cbn [pm_find].
        -- destruct (str_eqb [] n) eqn:E; [apply str_eqb_eq in E; congruence|]. split; [intros [H|H]; [discriminate|exact H]|auto].
        -- split; [intros [H|H]; [discriminate|exact H]|auto].
    + intros j Hj. rewrite get_put. destruct (Nat.eqb_spec j i); [exfalso; auto|reflexivity].
    + intros j [<-|[]]. rewrite get_put, Nat.eqb_refl. exact B1.
  - rewrite build_choice, built_choice. destruct (new_exits_ok (PChoice o l) o X N W) as [W' E']. apply names_list in N. cbn [leaves] in *.
    assert (G : forall h, built_any (build_any l (new_exits (PChoice o l) o X) h) l (more (rep o) (firsts (PChoice o l)) (sem X)) /\
      (forall i, ~ In i (map fst (flat_map leaves l)) -> hp_get (build_any l (new_exits (PChoice o l) o X) h) i = hp_get h i) /\
      (forall i, In i (map fst (flat_map leaves l)) -> wf (hp_get (build_any l (new_exits (PChoice o l) o X) h) i))); [|apply G].
    revert W' E'. generalize (new_exits (PChoice o l) o X) as Y, (more (rep o) (firsts (PChoice o l)) (sem X)) as T. intros Y T W' E'. clear h W X. revert N D.
    induction IH as [|c l Hc _ IH]; intros N D h; cbn [flat_map map built_any build_any] in *; [split; [exact I|]; split; [reflexivity|intros i []]|].
    inversion N; subst. rewrite map_app in *. apply nodup_app_inv in D as (D1 & D2 & D3).
    destruct (Hc Y h W' H1 D1) as (C1 & C2 & C4). destruct (IH H2 D2 (build c Y h)) as (C3 & C5 & C6). split; [split|split].
    + apply (built_teq _ _ _ _ E'). eapply built_heap; [|exact C1]. intros x Hx. symmetry. apply C5. apply D3. apply in_map. exact Hx.
    + exact C3.
    + intros i Hi. rewrite C5, C2; [reflexivity| |]; intros X; apply Hi; apply in_or_app; auto.
    + intros i Hi. destruct (in_dec Nat.eq_dec i (map fst (flat_map leaves l))) as [Y1|Y1]; [apply C6; exact Y1|]. rewrite C5 by exact Y1. apply C4. apply in_app_or in Hi. tauto.
  - rewrite build_seq, built_seq. destruct (new_exits_ok (PSeq o l) o X N W) as [W' E']. change (names_ok (PChoice o l)) in N. apply names_list in N. cbn [leaves] in *.
    assert (G : forall h, built_all (build_all l (new_exits (PSeq o l) o X) h) l (more (rep o) (firsts (PSeq o l)) (sem X)) /\
      (forall i, ~ In i (map fst (flat_map leaves l)) -> hp_get (build_all l (new_exits (PSeq o l) o X) h) i = hp_get h i) /\
      (forall i, In i (map fst (flat_map leaves l)) -> wf (hp_get (build_all l (new_exits (PSeq o l) o X) h) i))); [|apply G].
    revert W' E'. generalize (new_exits (PSeq o l) o X) as Y, (more (rep o) (firsts (PSeq o l)) (sem X)) as T. intros Y T W' E'. clear h W X. revert N D.
    induction IH as [|c l Hc _ IH]; intros N D h; cbn [flat_map map built_all build_all] in *; [split; [exact I|]; split; [reflexivity|intros i []]|].
    inversion N; subst. rewrite map_app in *. apply nodup_app_inv in D as (D1 & D2 & D3).
    assert (NL : Forall (fun x : nat * str => snd x <> []) (flat_map leaves l)).
    { apply Forall_forall. intros x Hx. apply in_flat_map in Hx as (q & Hq & Hx). rewrite Forall_forall in H2. specialize (H2 q Hq). unfold names_ok in H2. rewrite Forall_forall in H2. apply H2. exact Hx. }
    destruct (child_exits_ok l Y NL W') as [W2 E2].
    destruct (Hc _ h W2 H1 D1) as (C1 & C2 & C4). destruct (IH H2 D2 (build c (child_exits l Y []) h)) as (C3 & C5 & C6). split; [split|split].
    + eapply built_teq; [|eapply built_heap; [|exact C1]].
      * eapply teq_trans; [exact E2|]. apply after_teq. exact E'.
      * intros x Hx. symmetry. apply C5. apply D3. apply in_map. exact Hx.
    + exact C3.
    + intros i Hi. rewrite C5, C2; [reflexivity| |]; intros X; apply Hi; apply in_or_app; auto.
    + intros i Hi. destruct (in_dec Nat.eq_dec i (map fst (flat_map leaves l))) as [Y1|Y1]; [apply C6; exact Y1|]. rewrite C5 by exact Y1. apply C4. apply in_app_or in Hi. tauto.
Qed.
