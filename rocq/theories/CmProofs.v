(** Proofs for C79-C80: the automaton that build_particle_maps makes. *)
From Verif Require Import Py Num UriModel HttpModel CmSpec CmModel.

(** ** Particles *)
Section ind.
  Variable P : particle -> Prop.
  Hypothesis HN : forall i n o, P (PName i n o).
  Hypothesis HC : forall o l, Forall P l -> P (PChoice o l).
  Hypothesis HS : forall o l, Forall P l -> P (PSeq o l).
  Fixpoint particle_ind2 (p : particle) : P p :=
    match p with
    | PName i n o => HN i n o
    | PChoice o l => HC o l ((fix go l : Forall P l := match l with [] => Forall_nil _ | p :: r => Forall_cons _ (particle_ind2 p) (go r) end) l)
    | PSeq o l => HS o l ((fix go l : Forall P l := match l with [] => Forall_nil _ | p :: r => Forall_cons _ (particle_ind2 p) (go r) end) l)
    end.
End ind.

(** ** Languages *)
Section lang.
  Context {A : Type} (leaf : nat -> str -> list A).
  Fixpoint anyw (l : list particle) (w : list A) : Prop :=
    match l with [] => False | p :: r => words leaf p w \/ anyw r w end.
  Fixpoint seqw (l : list particle) (w : list A) : Prop :=
    match l with [] => w = [] | p :: r => exists u v, w = u ++ v /\ words leaf p u /\ seqw r v end.
  Lemma words_choice : forall o l, words leaf (PChoice o l) = times o (anyw l).
  Proof. reflexivity. Qed.
  Lemma words_seq : forall o l, words leaf (PSeq o l) = times o (seqw l).
  Proof. reflexivity. Qed.
  Lemma repeated_iff : forall (L L' : list A -> Prop), (forall w, L w <-> L' w) -> forall w, repeated L w -> repeated L' w.
  Proof. intros L L' H w R. induction R as [|u v Lu R IH]; constructor; [apply H; exact Lu|exact IH]. Qed.
  Lemma times_iff : forall o (L L' : list A -> Prop), (forall w, L w <-> L' w) -> forall w, times o L w <-> times o L' w.
  Proof.
    intros o L L' H w. assert (H' : forall w, L' w <-> L w) by (intros; symmetry; apply H). destruct o; cbn [times].
    - apply H.
    - rewrite H. tauto.
    - split; apply repeated_iff; assumption.
    - split; intros (u & v & E & Lu & R); exists u, v; (split; [exact E|]); (split; [apply H; exact Lu|]); eapply repeated_iff; try exact R; assumption.
  Qed.
  Lemma anyw_in : forall l w, anyw l w <-> exists p, In p l /\ words leaf p w.
  Proof.
    induction l as [|p l IH]; intros w; cbn [anyw In]; [split; [tauto|intros (p & [] & _)]|].
    rewrite IH. split; [intros [H|(q & H1 & H2)]; eauto|intros (q & [->|H1] & H2); eauto].
  Qed.
  Lemma rep_nonempty : forall (L : list A -> Prop) u, repeated L u -> u <> [] ->
    exists u1 u2, u = u1 ++ u2 /\ u1 <> [] /\ L u1 /\ repeated L u2.
  Proof.
    intros L u R. induction R as [|a b La R IH]; intros N; [congruence|]. destruct a as [|x a].
    - apply IH. exact N.
    - exists (x :: a), b. split; [reflexivity|]. split; [discriminate|]. split; assumption.
  Qed.
  Lemma times_nil : forall o (L : list A -> Prop), times o L [] <-> (req o = false \/ L []).
  Proof.
    intros o L. destruct o; cbn [times req].
    - intuition discriminate.
    - tauto.
    - split; [tauto|]. intros _. constructor.
    - split.
      + intros (u & v & E & Lu & _). symmetry in E. apply app_eq_nil in E as [-> ->]. tauto.
      + intros [H|H]; [discriminate|]. exists [], []. split; [reflexivity|]. split; [exact H|constructor].
  Qed.
  Lemma times_one : forall o (L : list A -> Prop) w, L w -> times o L w.
  Proof.
    intros o L w H. destruct o; cbn [times]; [exact H|right; exact H| |].
    - rewrite <- (app_nil_r w). constructor; [exact H|constructor].
    - exists w, []. rewrite app_nil_r. split; [reflexivity|]. split; [exact H|constructor].
  Qed.
End lang.

(** marked words and names *)
Lemma repeated_map : forall {A B} (f : A -> B) (L : list A -> Prop) (L' : list B -> Prop),
  (forall w, L' w <-> exists u, L u /\ map f u = w) -> forall w, repeated L' w <-> exists u, repeated L u /\ map f u = w.
Proof.
  intros A B f L L' H w. split.
  - intros R. induction R as [|a b La R (u & Ru & Eu)]; [exists []; split; [constructor|reflexivity]|].
    apply H in La as (ua & Lu & Ea). exists (ua ++ u). split; [constructor; assumption|]. rewrite map_app. congruence.
  - intros (u & R & <-). induction R as [|a b La R IH]; [constructor|]. rewrite map_app. constructor; [|exact IH]. apply H. eauto.
Qed.
Lemma times_map : forall {A B} (f : A -> B) o (L : list A -> Prop) (L' : list B -> Prop),
  (forall w, L' w <-> exists u, L u /\ map f u = w) -> forall w, times o L' w <-> exists u, times o L u /\ map f u = w.
Proof.
  intros A B f o L L' H w. destruct o; cbn [times].
  - apply H.
  - rewrite H. split.
    + intros [->|(u & Lu & E)]; [exists []; split; [left|]; reflexivity|exists u; split; [right; exact Lu|exact E]].
    + intros (u & [->|Lu] & <-); [left; reflexivity|right; eauto].
  - apply repeated_map. exact H.
  - split.
    + intros (a & b & -> & La & R). apply H in La as (ua & Lu & <-). apply (repeated_map f _ _ H) in R as (ub & Rb & <-).
      exists (ua ++ ub). split; [eauto|apply map_app].
    + intros (u & (a & b & -> & La & R) & <-). exists (map f a), (map f b). split; [apply map_app|]. split; [apply H; eauto|].
      apply (repeated_map f _ _ H). eauto.
Qed.
Lemma allowed_matched : forall p w, allowed p w <-> exists u, matched p u /\ map snd u = w.
Proof.
  unfold allowed, matched. induction p as [i n o|o l IH|o l IH] using particle_ind2; intros w.
  - apply (times_map snd). intros v. split; [intros ->; exists [(i, n)]; split; reflexivity|intros (u & -> & <-); reflexivity].
  - rewrite !words_choice. apply (times_map snd). intros v. clear w. induction IH as [|p l Hp _ IH]; cbn [anyw].
    + split; [tauto|intros (u & [] & _)].
    + rewrite Hp, IH. split.
      * intros [(u & H1 & H2)|(u & H1 & H2)]; exists u; tauto.
      * intros (u & [H1|H1] & H2); [left|right]; exists u; tauto.
  - rewrite !words_seq. apply (times_map snd). clear w. induction IH as [|p l Hp _ IH]; intros v; cbn [seqw].
    + split; [intros ->; exists []; split; reflexivity|intros (u & -> & <-); reflexivity].
    + split.
      * intros (a & b & -> & Ha & Hb). apply Hp in Ha as (ua & Ua & <-). apply IH in Hb as (ub & Ub & <-).
        exists (ua ++ ub). split; [eauto|apply map_app].
      * intros (u & (a & b & -> & Ha & Hb) & <-). exists (map snd a), (map snd b). split; [apply map_app|].
        split; [apply Hp|apply IH]; eauto.
Qed.

(** ** First particles, and whether a particle can be left out *)
Fixpoint nul (p : particle) : bool :=
  match p with
  | PName _ _ o => negb (req o)
  | PChoice o l => negb (req o) || existsb nul l
  | PSeq o l => negb (req o) || forallb nul l
  end.
Fixpoint firsts (p : particle) : list (nat * str) :=
  match p with
  | PName i n _ => [(i, n)]
  | PChoice _ l => flat_map firsts l
  | PSeq _ l => (fix go l := match l with [] => [] | c :: r => firsts c ++ if nul c then go r else [] end) l
  end.
Fixpoint seqfirsts (l : list particle) : list (nat * str) :=
  match l with [] => [] | c :: r => firsts c ++ if nul c then seqfirsts r else [] end.
Lemma firsts_seq : forall o l, firsts (PSeq o l) = seqfirsts l.
Proof. reflexivity. Qed.

Lemma nul_ok : forall p, nul p = true <-> matched p [].
Proof.
  unfold matched. induction p as [i n o|o l IH|o l IH] using particle_ind2.
  - cbn [nul words]. rewrite times_nil, negb_true_iff. split; [tauto|intros [H|H]; [exact H|discriminate]].
  - rewrite words_choice, times_nil. cbn [nul]. rewrite orb_true_iff, negb_true_iff.
    assert (X : existsb nul l = true <-> anyw (fun i n => [(i, n)]) l []).
    { induction IH as [|p l Hp _ IH]; cbn [existsb anyw]; [split; [discriminate|tauto]|]. rewrite orb_true_iff, Hp, IH. tauto. }
    rewrite X. tauto.
  - rewrite words_seq, times_nil. cbn [nul]. rewrite orb_true_iff, negb_true_iff.
    assert (X : forallb nul l = true <-> seqw (fun i n => [(i, n)]) l []).
    { induction IH as [|p l Hp _ IH]; cbn [forallb seqw]; [tauto|]. rewrite andb_true_iff, Hp, IH. split.
      - intros [H1 H2]. exists [], []. auto.
      - intros (u & v & E & H1 & H2). symmetry in E. apply app_eq_nil in E as [-> ->]. auto. }
    rewrite X. tauto.
Qed.
Lemma nuls_ok : forall l, forallb nul l = true <-> seqw (fun i n => [(i, n)]) l [].
Proof.
  induction l as [|p l IH]; cbn [forallb seqw]; [tauto|]. rewrite andb_true_iff, nul_ok, IH. split.
  - intros [H1 H2]. exists [], []. auto.
  - intros (u & v & E & H1 & H2). symmetry in E. apply app_eq_nil in E as [-> ->]. auto.
Qed.
Lemma firsts_leaves : forall p x, In x (firsts p) -> In x (leaves p).
Proof.
  induction p as [i n o|o l IH|o l IH] using particle_ind2; intros x H; [exact H| |].
  - cbn [firsts leaves] in *. apply in_flat_map in H as (c & Hc & Hx). apply in_flat_map. exists c. split; [exact Hc|].
    rewrite Forall_forall in IH. apply IH; assumption.
  - rewrite firsts_seq in H. cbn [leaves]. induction IH as [|c l Hc _ IH]; [exact H|]. cbn [seqfirsts flat_map] in *.
    apply in_or_app. apply in_app_or in H as [H|H]; [left; apply Hc; exact H|right]. destruct (nul c); [apply IH; exact H|destruct H].
Qed.
Lemma seqfirsts_leaves : forall l x, In x (seqfirsts l) -> In x (flat_map leaves l).
Proof. intros l x H. apply (firsts_leaves (PSeq Once l)). exact H. Qed.

(** ** Particle maps *)
Definition has (m : pmap) (x : nat * str) : Prop := exists l, pm_find (snd x) m = Some (Some l) /\ In (fst x) l.
Definition ends (m : pmap) : Prop := pm_find [] m = Some None.
Definition wf (m : pmap) : Prop :=
  NoDup (map fst m) /\
  forall n v, pm_find n m = Some v -> match v with None => n = [] | Some l => n <> [] /\ l <> [] /\ NoDup l end.
Lemma find_put : forall k v m k', pm_find k' (pm_put k v m) = if str_eqb k' k then Some v else pm_find k' m.
Proof.
  intros k v m k'. induction m as [|[a b] m IH]; cbn [pm_put pm_find]; [reflexivity|].
  destruct (str_eqb k a) eqn:E; cbn [pm_find].
  - apply str_eqb_eq in E. subst a. destruct (str_eqb k' k); reflexivity.
  - destruct (str_eqb k' a) eqn:E'; [|exact IH]. apply str_eqb_eq in E'. subst a.
    destruct (str_eqb k' k) eqn:E2; [|reflexivity]. apply str_eqb_eq in E2. subst k'. rewrite str_eqb_refl in E. discriminate.
Qed.
Lemma put_keys : forall k v m, In k (map fst m) /\ map fst (pm_put k v m) = map fst m \/
  ~ In k (map fst m) /\ map fst (pm_put k v m) = map fst m ++ [k].
Proof.
  intros k v m. induction m as [|[a b] m IH]; cbn [pm_put map fst In app]; [right; split; [tauto|reflexivity]|].
  destruct (str_eqb k a) eqn:E; cbn [map fst].
  - apply str_eqb_eq in E. subst a. left. split; [left; reflexivity|reflexivity].
  - assert (a <> k) by (intros ->; rewrite str_eqb_refl in E; discriminate).
    destruct IH as [[I1 I2]|[I1 I2]]; [left|right]; rewrite I2; split; try reflexivity; [right; exact I1|intros [X|X]; [congruence|contradiction]].
Qed.
Lemma put_nodup : forall k v m, NoDup (map fst m) -> NoDup (map fst (pm_put k v m)).
Proof.
  intros k v m H. destruct (put_keys k v m) as [[_ ->]|[N ->]]; [exact H|]. apply NoDup_rev in H. rewrite <- (rev_involutive (map fst m ++ [k])).
  apply NoDup_rev. rewrite rev_app_distr. cbn [rev app]. constructor; [rewrite <- in_rev; exact N|exact H].
Qed.
Lemma wf_nil : wf [].
Proof. split; [constructor|]. discriminate. Qed.
Lemma add_new_in : forall src t i, In i (add_new src t) <-> In i t \/ In i src.
Proof.
  induction src as [|j src IH]; intros t i; cbn [add_new In]; [tauto|]. rewrite IH. destruct (existsb (Nat.eqb j) t) eqn:E.
  - apply existsb_exists in E as (k & Hk & Ek). apply Nat.eqb_eq in Ek. subst k. split; [tauto|]. intros [H|[->|H]]; auto.
  - rewrite in_app_iff. cbn [In]. tauto.
Qed.
Lemma add_new_nodup : forall src t, NoDup t -> NoDup (add_new src t).
Proof.
  induction src as [|j src IH]; intros t H; cbn [add_new]; [exact H|]. apply IH. destruct (existsb (Nat.eqb j) t) eqn:E; [exact H|].
  apply NoDup_rev in H. rewrite <- (rev_involutive (t ++ [j])). apply NoDup_rev. rewrite rev_app_distr. cbn [rev app].
  constructor; [|exact H]. rewrite <- in_rev. intros X. assert (Y : existsb (Nat.eqb j) t = true) by (apply existsb_exists; exists j; split; [exact X|apply Nat.eqb_refl]). congruence.
Qed.
(** adding one particle *)
Definition add1 (m : pmap) (x : nat * str) : pmap :=
  match pm_find (snd x) m with
  | Some (Some t) => pm_put (snd x) (Some (add_new [fst x] t)) m
  | _ => pm_put (snd x) (Some [fst x]) m
  end.
Definition adds (m : pmap) (l : list (nat * str)) : pmap := fold_left add1 l m.
Lemma put_list_wf : forall n l m, wf m -> n <> [] -> l <> [] -> NoDup l -> wf (pm_put n (Some l) m).
Proof.
  intros n l m [W1 W2] H1 H2 H3. split; [apply put_nodup; exact W1|]. intros k v E. rewrite find_put in E.
  destruct (str_eqb k n) eqn:Ek; [|apply W2; exact E]. apply str_eqb_eq in Ek. subst k. inversion E; subst. auto.
Qed.
Lemma put_end_wf : forall m, wf m -> wf (pm_put [] None m).
Proof.
  intros m [W1 W2]. split; [apply put_nodup; exact W1|]. intros k v E. rewrite find_put in E.
  destruct (str_eqb k []) eqn:Ek; [|apply W2; exact E]. apply str_eqb_eq in Ek. subst k. inversion E; subst. reflexivity.
Qed.
Lemma not_nil : forall A (l : list A) x, In x l -> l <> [].
Proof. intros A l x H ->. destruct H. Qed.
Lemma has_put : forall n l m x, has (pm_put n (Some l) m) x <-> (snd x = n /\ In (fst x) l) \/ (snd x <> n /\ has m x).
Proof.
  intros n l m x. unfold has. rewrite find_put. destruct (str_eqb (snd x) n) eqn:E.
  - apply str_eqb_eq in E. split; [intros (l' & E' & H); inversion E'; subst; left; auto|intros [[_ H]|[N _]]; [exists l; auto|congruence]].
  - apply str_eqb_neq in E. split; [intros H; right; auto|intros [[H _]|[_ H]]; [congruence|exact H]].
Qed.
Lemma has_end : forall m x, wf m -> has (pm_put [] None m) x <-> has m x.
Proof.
  intros m x [_ W]. unfold has. rewrite find_put. destruct (str_eqb (snd x) []) eqn:E; [|tauto]. apply str_eqb_eq in E.
  split; [intros (l & X & _); discriminate|]. intros (l & X & _). apply W in X. tauto.
Qed.
Lemma ends_put : forall n l m, n <> [] -> ends (pm_put n (Some l) m) <-> ends m.
Proof. intros n l m H. unfold ends. rewrite find_put. destruct (str_eqb [] n) eqn:E; [apply str_eqb_eq in E; congruence|tauto]. Qed.
Lemma ends_end : forall m, ends (pm_put [] None m).
Proof. intros m. unfold ends. rewrite find_put. reflexivity. Qed.
Lemma add1_ok : forall m x, wf m -> snd x <> [] ->
  wf (add1 m x) /\ (forall y, has (add1 m x) y <-> has m y \/ y = x) /\ (ends (add1 m x) <-> ends m).
Proof.
  intros m [i n] W N. cbn [snd] in N. unfold add1. cbn [fst snd]. destruct (pm_find n m) as [[t|]|] eqn:E.
  - destruct W as [W1 W2]. pose proof (W2 _ _ E) as (_ & T1 & T2). split; [|split].
    + apply put_list_wf; [split; assumption|exact N| |apply add_new_nodup; exact T2].
      apply (not_nil _ _ i). apply add_new_in. right. left. reflexivity.
    + intros [j k]. rewrite has_put, add_new_in. cbn [fst snd In]. split.
      * intros [[-> [H|[->|[]]]]|[_ H]]; [left; exists t; auto|right; reflexivity|left; exact H].
      * intros [H|H]; [|inversion H; subst; left; auto]. destruct (str_eqb k n) eqn:Ek.
        -- apply str_eqb_eq in Ek. subst k. left. split; [reflexivity|]. left. destruct H as (l & E' & H). cbn [snd fst] in *. congruence.
        -- apply str_eqb_neq in Ek. right. auto.
    + apply ends_put. exact N.
  - exfalso. apply (proj2 W) in E. contradiction.
  - split; [|split].
    + apply put_list_wf; [exact W|exact N|discriminate|]. constructor; [intros []|constructor].
    + intros [j k]. rewrite has_put. cbn [fst snd In]. split.
      * intros [[-> [->|[]]]|[_ H]]; [right; reflexivity|left; exact H].
      * intros [H|H]; [|inversion H; subst; left; auto]. right. split; [|exact H]. intros ->. destruct H as (l & E' & _). cbn [snd] in E'. congruence.
    + apply ends_put. exact N.
Qed.
Lemma adds_ok : forall l m, wf m -> Forall (fun x => snd x <> []) l ->
  wf (adds m l) /\ (forall y, has (adds m l) y <-> has m y \/ In y l) /\ (ends (adds m l) <-> ends m).
Proof.
  induction l as [|x l IH]; intros m W F; [split; [exact W|]; split; [intros y; cbn [adds fold_left In]; tauto|tauto]|].
  inversion F; subst. destruct (add1_ok m x W H1) as (A1 & A2 & A3). destruct (IH _ A1 H2) as (B1 & B2 & B3).
  cbn [adds fold_left] in *. change (fold_left add1 l (add1 m x)) with (adds (add1 m x) l). split; [exact B1|]. split; [|rewrite B3; exact A3].
  intros y. rewrite B2, A2. cbn [In]. split; [intros [[H|H]|H]; auto|intros [H|[H|H]]; auto].
Qed.
Lemma adds_app : forall m a b, adds m (a ++ b) = adds (adds m a) b.
Proof. intros. apply fold_left_app. Qed.

(** seek_particles adds the first particles *)
Fixpoint seek_any (l : list particle) (m : pmap) (required : bool) : pmap * bool :=
  match l with [] => (m, required) | c :: r => let (m, q) := seek c m in seek_any r m (if q then required else false) end.
Fixpoint seek_all (l : list particle) (m : pmap) : pmap * bool :=
  match l with [] => (m, false) | c :: r => let (m, q) := seek c m in if q then (m, true) else seek_all r m end.
Lemma seek_choice : forall o l m, seek (PChoice o l) m = seek_any l m (req o).
Proof. reflexivity. Qed.
Lemma seek_seq : forall o l m, seek (PSeq o l) m = let (m, q) := seek_all l m in (m, q && req o).
Proof. reflexivity. Qed.
Lemma seek_eq : forall p m, seek p m = (adds m (firsts p), negb (nul p)).
Proof.
  induction p as [i n o|o l IH|o l IH] using particle_ind2; intros m.
  - cbn [seek firsts nul adds fold_left]. rewrite negb_involutive. reflexivity.
  - rewrite seek_choice. cbn [firsts nul]. rewrite negb_orb, negb_involutive. generalize (req o) as b. revert m.
    induction IH as [|c l Hc _ IH]; intros m b; cbn [seek_any flat_map existsb]; [rewrite andb_true_r; reflexivity|].
    rewrite Hc, IH, adds_app, negb_orb. f_equal. destruct (nul c), b, (existsb nul l); reflexivity.
  - rewrite seek_seq, firsts_seq. cbn [nul]. rewrite negb_orb, negb_involutive, andb_comm.
    assert (X : forall m, seek_all l m = (adds m (seqfirsts l), negb (forallb nul l))).
    { induction IH as [|c l Hc _ IH]; intros m'; cbn [seek_all seqfirsts forallb]; [reflexivity|]. rewrite Hc, adds_app, negb_andb.
      destruct (nul c); cbn [negb orb]; [apply IH|reflexivity]. }
    rewrite X. reflexivity.
Qed.
Lemma find_in : forall m n v, pm_find n m = Some v -> In (n, v) m.
Proof.
  induction m as [|[a b] m IH]; cbn [pm_find]; intros n v E; [discriminate|]. destruct (str_eqb n a) eqn:Ea; [|right; apply IH; exact E].
  apply str_eqb_eq in Ea. inversion E; subst. left. reflexivity.
Qed.
Lemma find_nodup : forall m n v, NoDup (map fst m) -> In (n, v) m -> pm_find n m = Some v.
Proof.
  induction m as [|[a b] m IH]; cbn [map fst pm_find In]; intros n v N H; [destruct H|]. inversion N; subst. destruct H as [H|H].
  - inversion H; subst. rewrite str_eqb_refl. reflexivity.
  - destruct (str_eqb n a) eqn:E; [|apply IH; assumption]. apply str_eqb_eq in E. subst a. exfalso. apply H2. apply in_map_iff. exists (n, v). auto.
Qed.
Lemma wf_inv : forall a m, wf (a :: m) -> wf m /\ wf [a].
Proof.
  intros [k v] m [W1 W2]. cbn [map fst] in W1. inversion W1; subst. split; split; [assumption| |constructor; [intros []|constructor]|].
  - intros n x E. apply W2. apply find_nodup; [exact W1|right; apply find_in; exact E].
  - intros n x E. cbn [pm_find] in E. destruct (str_eqb n k) eqn:Ek; [|discriminate]. inversion E; subst. apply W2. cbn [pm_find]. rewrite Ek. reflexivity.
Qed.
Lemma has_cons : forall a m y, wf (a :: m) -> has (a :: m) y <-> has [a] y \/ has m y.
Proof.
  intros [k v] m y [W _]. cbn [map fst] in W. inversion W; subst. unfold has. cbn [pm_find]. destruct (str_eqb (snd y) k) eqn:E; [|].
  - apply str_eqb_eq in E. subst k. split; [tauto|]. intros [H|(l & H & _)]; [exact H|]. exfalso. apply H1. apply in_map_iff. exists (snd y, Some l). split; [reflexivity|apply find_in; exact H].
  - split; [tauto|]. intros [(l & X & _)|X]; [discriminate|exact X].
Qed.
Lemma ends_cons : forall a m, wf (a :: m) -> ends (a :: m) <-> ends [a] \/ ends m.
Proof.
  intros [k v] m [W _]. cbn [map fst] in W. inversion W; subst. unfold ends. cbn [pm_find]. destruct (str_eqb [] k) eqn:E; [|].
  - apply str_eqb_eq in E. subst k. split; [tauto|]. intros [H|H]; [exact H|]. exfalso. apply H1. apply in_map_iff. exists ([], None). split; [reflexivity|apply find_in; exact H].
  - split; [tauto|]. intros [X|X]; [discriminate|exact X].
Qed.
Lemma add_entry_ok : forall e m, wf [e] -> wf m ->
  wf (add_entry m e) /\ (forall y, has (add_entry m e) y <-> has m y \/ has [e] y) /\ (ends (add_entry m e) <-> ends m \/ ends [e]).
Proof.
  intros [k v] m [_ We] W. specialize (We k v). cbn [pm_find] in We. rewrite str_eqb_refl in We. specialize (We eq_refl).
  unfold add_entry. destruct v as [l|].
  - destruct We as (Nk & Nl & Dl). assert (Ee : ~ ends [(k, Some l)]).
    { unfold ends. cbn [pm_find]. destruct (str_eqb [] k) eqn:E; [apply str_eqb_eq in E; congruence|discriminate]. }
    assert (He : forall y, has [(k, Some l)] y <-> snd y = k /\ In (fst y) l).
    { intros y. unfold has. cbn [pm_find]. destruct (str_eqb (snd y) k) eqn:E.
      - apply str_eqb_eq in E. split; [intros (l' & X & H); inversion X; subst; auto|intros [_ H]; eauto].
      - apply str_eqb_neq in E. split; [intros (l' & X & _); discriminate|intros [X _]; contradiction]. }
    assert (P : forall t, (forall y, snd y = k -> has m y <-> In (fst y) t) -> NoDup t ->
      wf (pm_put k (Some (add_new l t)) m) /\ (forall y, has (pm_put k (Some (add_new l t)) m) y <-> has m y \/ has [(k, Some l)] y) /\
      (ends (pm_put k (Some (add_new l t)) m) <-> ends m \/ ends [(k, Some l)])).
    { intros t Ht Dt. split; [|split].
      - apply put_list_wf; [exact W|exact Nk| |apply add_new_nodup; exact Dt]. destruct l as [|i l]; [congruence|]. apply (not_nil _ _ i). apply add_new_in. right. left. reflexivity.
      - intros y. rewrite has_put, add_new_in, He. split.
        + intros [[E [H|H]]|[_ H]]; [left; apply Ht; assumption|right; auto|left; exact H].
        + intros [H|[E H]]; [|left; auto]. destruct (str_eqb (snd y) k) eqn:E; [apply str_eqb_eq in E|apply str_eqb_neq in E].
          * left. split; [exact E|]. left. apply Ht; assumption.
          * right. auto.
      - rewrite ends_put by exact Nk. tauto. }
    destruct (pm_find k m) as [[t|]|] eqn:E.
    + apply P.
      * intros y Ey. unfold has. rewrite Ey, E. split; [intros (l' & X & H); congruence|eauto].
      * apply (proj2 W) in E. tauto.
    + exfalso. apply (proj2 W) in E. contradiction.
    + destruct k as [|c k]; [congruence|]. apply P; [|constructor]. intros y Ey. unfold has. rewrite Ey, E. split; [intros (l' & X & H); congruence|intros []].
  - subst k. assert (Ee : ends [([], None)]) by reflexivity.
    assert (He : forall y, ~ has [([], None)] y).
    { intros y (l & X & _). cbn [pm_find] in X. destruct (str_eqb (snd y) []); discriminate. }
    destruct (pm_find [] m) as [[t|]|] eqn:E.
    + exfalso. apply (proj2 W) in E. tauto.
    + split; [exact W|]. split; [intros y; specialize (He y); tauto|]. unfold ends at 1 2. tauto.
    + split; [apply put_end_wf; exact W|]. split; [intros y; rewrite has_end by exact W; specialize (He y); tauto|]. pose proof (ends_end m). tauto.
Qed.
Lemma add_particles_ok : forall src m, wf src -> wf m ->
  wf (add_particles src m) /\ (forall y, has (add_particles src m) y <-> has m y \/ has src y) /\
  (ends (add_particles src m) <-> ends m \/ ends src).
Proof.
  induction src as [|e src IH]; intros m Ws Wm.
  - split; [exact Wm|]. split; [intros y|]; cbn [add_particles fold_left]; unfold has, ends; cbn [pm_find].
    + split; [tauto|intros [H|(l & X & _)]; [exact H|discriminate]].
    + split; [tauto|intros [H|H]; [exact H|discriminate]].
  - destruct (wf_inv _ _ Ws) as [W1 W2]. destruct (add_entry_ok e m W2 Wm) as (A1 & A2 & A3). destruct (IH _ W1 A1) as (B1 & B2 & B3).
    unfold add_particles in *. cbn [fold_left]. split; [exact B1|]. split.
    + intros y. rewrite B2, A2, (has_cons e src y Ws). tauto.
    + rewrite B3, A3, (ends_cons e src Ws). tauto.
Qed.
