From Verif Require Import Py FbsModel.

Lemma fset_eq f p n : fset f p n p = n.
Proof. unfold fset. destruct (path_dec p p); congruence. Qed.
Lemma fset_ne f p n q : q <> p -> fset f p n q = f q.
Proof. unfold fset. intros. destruct (path_dec q p); congruence. Qed.
Lemma is_dir_true f p : is_dir f p = true <-> f p = Some NDir.
Proof. unfold is_dir. destruct (f p) as [[|w]|]; split; congruence. Qed.
Lemma is_dir_false f p : is_dir f p = false <-> f p <> Some NDir.
Proof. rewrite <- is_dir_true. destruct (is_dir f p); split; congruence. Qed.

Lemma key_split (k : str) : k = slice 0 2 k ++ slice 2 4 k ++ skipn 4 k.
Proof.
  unfold slice. destruct k as [|a [|b [|c [|d k]]]]; reflexivity.
Qed.
Lemma block_path_inj k k' : block_path k = block_path k' -> k = k'.
Proof.
  unfold block_path. intros E. injection E as E1 E2 E3.
  rewrite (key_split k), (key_split k'). rewrite E1, E2. do 2 f_equal. exact E3.
Qed.
Lemma slice_le i j (k : str) : (length (slice i j k) <= j - i)%nat.
Proof. unfold slice. rewrite firstn_length. lia. Qed.
Lemma tmp_not2 (k : str) i : slice i (i + 2) k <> lit "tmp".
Proof. intros E. apply (f_equal (@length Z)) in E. pose proof (slice_le i (i + 2) k). cbn in E. lia. Qed.
Lemma tmp_path_inj c k c' k' : tmp_path c k = tmp_path c' k' -> c = c'.
Proof. unfold tmp_path. intros E. injection E. intros. lia. Qed.
Lemma tmp_not_block c k k' : tmp_path c k <> block_path k'.
Proof. unfold tmp_path, block_path. discriminate. Qed.
Lemma tmp_not_dir c k k' : tmp_path c k <> block_dir k'.
Proof. unfold tmp_path, block_dir. intros E. injection E as E1 E2. apply (tmp_not2 k' 0). symmetry. exact E1. Qed.

Section P.
  Variable hash : str -> str.
  Variable max_block : Z.

  Definition cl_ok (f : fs) (c : nat) (st : cl) : Prop :=
    match st with
    | SWrite d rest => exists w, f (tmp_path c (hash d)) = Some (NFile w) /\ w ++ rest = d
    | SParent d | SMk1 d => f (tmp_path c (hash d)) = Some (NFile d)
    | SMk2 d => f (tmp_path c (hash d)) = Some (NFile d) /\ f (removelast (block_dir (hash d))) = Some NDir
    | SMove d => f (tmp_path c (hash d)) = Some (NFile d) /\ f (block_dir (hash d)) = Some NDir
    | _ => True
    end.

  Definition fs_ok (f : fs) : Prop :=
    f nil = Some NDir /\ f tmp_dir = Some NDir /\
    (forall p, f p = Some NDir -> (length p <= 2)%nat /\ forall c k, p <> tmp_path c k) /\
    (forall p w, f p = Some (NFile w) -> (exists c k, p = tmp_path c k) \/ p = block_path (hash w)).

  Definition inv (s : sys) : Prop := fs_ok (s_fs s) /\ forall c, cl_ok (s_fs s) c (s_cl s c).

  Lemma inv_init : inv init.
  Proof.
    split; [|intros c; exact I]. unfold fs_ok, init, init_fs; cbn [s_fs]. psplit.
    - rewrite fset_ne by discriminate. apply fset_eq.
    - apply fset_eq.
    - intros p. unfold fset. destruct (path_dec p tmp_dir); [subst; intros _; split; [cbn; lia|discriminate]|].
      destruct (path_dec p nil); [subst; intros _; split; [cbn; lia|discriminate]|discriminate].
    - intros p w. unfold fset. destruct (path_dec p tmp_dir); [discriminate|].
      destruct (path_dec p nil); discriminate.
  Qed.

  (** directories stay, and nobody touches another client's temporary file *)
  Definition stable (c : nat) (f f' : fs) : Prop :=
    (forall p, f p = Some NDir -> f' p = Some NDir) /\
    (forall c' k, c' <> c -> f' (tmp_path c' k) = f (tmp_path c' k)).
  Lemma stable_refl c f : stable c f f.
  Proof. split; auto. Qed.
  Lemma stable_ok c f f' c' st : stable c f f' -> c' <> c -> cl_ok f c' st -> cl_ok f' c' st.
  Proof.
    intros (D & T) N. destruct st; cbn; auto; try (rewrite T by auto; auto); try tauto.
    all: intros (A & B); split; auto; rewrite T; auto.
  Qed.
  Lemma stable_tmp c k f n : f (tmp_path c k) <> Some NDir -> stable c f (fset f (tmp_path c k) n).
  Proof.
    intros N. split.
    - intros p Hp. rewrite fset_ne; auto. intros ->. congruence.
    - intros c' k' Nc. rewrite fset_ne; auto. intros E. apply tmp_path_inj in E. auto.
  Qed.
  Lemma stable_block c k f n : f (block_path k) <> Some NDir -> stable c f (fset f (block_path k) n).
  Proof.
    intros N. split.
    - intros p Hp. rewrite fset_ne; auto. intros ->. congruence.
    - intros c' k' Nc. rewrite fset_ne; auto. apply tmp_not_block.
  Qed.
  Lemma stable_trans c f g h : stable c f g -> stable c g h -> stable c f h.
  Proof. intros (A & B) (C & D). split; auto. intros. rewrite D, B; auto. Qed.
  Lemma not_dir3 f k : fs_ok f -> f (block_path k) <> Some NDir.
  Proof. intros (_ & _ & D & _) H. apply D in H as (H & _). cbn in H. lia. Qed.

  (** a path that never carries a temporary file *)
  Lemma stable_mkdir c f p f' : sys_mkdir f p = Some f' -> (forall c' k, p <> tmp_path c' k) ->
    stable c f f' /\ f' = fset f p (Some NDir) /\ f p = None.
  Proof.
    unfold sys_mkdir, exists_. intros H NT. destruct (is_dir f (removelast p)) eqn:E; [|discriminate].
    destruct (f p) eqn:F; [discriminate|]. cbn in H. injection H as <-. split; [|auto]. split.
    - intros q Hq. destruct (path_dec q p); [subst; congruence|]. rewrite fset_ne; auto.
    - intros c' k Nc. rewrite fset_ne; auto.
  Qed.
  Lemma fs_ok_mkdir f p : fs_ok f -> (length p <= 2)%nat -> (forall c k, p <> tmp_path c k) -> fs_ok (fset f p (Some NDir)).
  Proof.
    intros (A & B & C & D) L NT. unfold fs_ok. psplit.
    - unfold fset. destruct (path_dec nil p); auto.
    - unfold fset. destruct (path_dec tmp_dir p); auto.
    - intros q. unfold fset. destruct (path_dec q p); [subst; auto|auto].
    - intros q w. unfold fset. destruct (path_dec q p); [discriminate|auto].
  Qed.
  Lemma fs_ok_file f p w : fs_ok f -> f p <> Some NDir ->
    (exists c k, p = tmp_path c k) \/ p = block_path (hash w) -> fs_ok (fset f p (Some (NFile w))).
  Proof.
    intros (A & B & C & D) N P. unfold fs_ok. psplit.
    - rewrite fset_ne; auto. congruence.
    - rewrite fset_ne; auto. congruence.
    - intros q. unfold fset. destruct (path_dec q p); [discriminate|auto].
    - intros q w'. unfold fset. destruct (path_dec q p); [|auto].
      intros E. injection E as <-. subst. auto.
  Qed.
  Lemma fs_ok_none f p : fs_ok f -> f p <> Some NDir -> fs_ok (fset f p None).
  Proof.
    intros (A & B & C & D) N. unfold fs_ok. psplit.
    - rewrite fset_ne; auto. congruence.
    - rewrite fset_ne; auto. congruence.
    - intros q. unfold fset. destruct (path_dec q p); [discriminate|auto].
    - intros q w'. unfold fset. destruct (path_dec q p); [discriminate|auto].
  Qed.

  Lemma exists_dir f k : fs_ok f -> exists_ f (block_dir k) = true -> f (block_dir k) = Some NDir.
  Proof.
    intros (_ & _ & _ & D) E. unfold exists_ in E. destruct (f (block_dir k)) as [[|w]|] eqn:F; auto; try discriminate.
    apply D in F as [(c & k' & F)|F].
    - symmetry in F. apply tmp_not_dir in F. destruct F.
    - discriminate.
  Qed.
  Lemma tmp_nodir f c k : fs_ok f -> f (tmp_path c k) <> Some NDir.
  Proof. intros (_ & _ & D & _) H. apply D in H as (_ & H). exact (H c k eq_refl). Qed.

  Lemma run1_inv f c n st f' st' r ev : fs_ok f -> cl_ok f c st ->
    run1 hash f c n st = Some (f', st', r, ev) ->
    fs_ok f' /\ cl_ok f' c st' /\ stable c f f'.
  Proof.
    intros O C R. assert (is_dir f tmp_dir = true) as TD by (apply is_dir_true; apply O).
    destruct st as [|d|d rest|d|d|d|d|k|k|]; cbn [run1] in R; try discriminate.
    - unfold sys_create in R. change (removelast (tmp_path c (hash d))) with tmp_dir in R. rewrite TD in R.
      destruct (is_dir f (tmp_path c (hash d))) eqn:E; cbn in R; injection R as <- <- <- <-.
      + psplit; cbn; auto using stable_refl.
      + apply is_dir_false in E. psplit.
        * apply fs_ok_file; eauto.
        * cbn. exists nil. rewrite fset_eq. auto.
        * apply stable_tmp; auto.
    - destruct C as (w & C1 & C2). destruct rest as [|x rest].
      + injection R as <- <- <- <-. rewrite app_nil_r in C2. subst. psplit; auto using stable_refl.
      + unfold sys_append in R. rewrite C1 in R. injection R as <- <- <- <-. psplit.
        * apply fs_ok_file; eauto. congruence.
        * cbn [cl_ok]. eexists. rewrite fset_eq. split; [reflexivity|]. rewrite <- app_assoc, firstn_skipn. auto.
        * apply stable_tmp. congruence.
    - injection R as <- <- <- <-. psplit; auto using stable_refl.
      destruct (exists_ f (block_dir (hash d))) eqn:E; cbn; auto. split; auto. apply exists_dir; auto.
    - destruct (sys_mkdir f (removelast (block_dir (hash d)))) as [g|] eqn:M; injection R as <- <- <- <-.
      + destruct (stable_mkdir c _ _ _ M) as (S & -> & N). { intros c' k. discriminate. }
        psplit; auto. { apply fs_ok_mkdir; auto. discriminate. }
        cbn [cl_ok]. split; [|apply fset_eq]. rewrite fset_ne; auto. discriminate.
      + psplit; auto using stable_refl. cbn [cl_ok]. split; auto.
        unfold sys_mkdir in M. change (removelast (removelast (block_dir (hash d)))) with (@nil str) in M.
        assert (is_dir f nil = true) as ND by (apply is_dir_true; apply O). rewrite ND in M. cbn [andb] in M.
        destruct (exists_ f (removelast (block_dir (hash d)))) eqn:X; [|discriminate].
        unfold exists_ in X. destruct (f (removelast (block_dir (hash d)))) as [[|w]|] eqn:F; auto; try discriminate.
        destruct O as (_ & _ & _ & D). apply D in F as [(c' & k' & F)|F]; discriminate.
    - destruct C as (C1 & C2).
      destruct (sys_mkdir f (block_dir (hash d))) as [g|] eqn:M; injection R as <- <- <- <-.
      + destruct (stable_mkdir c _ _ _ M) as (S & -> & N). { intros c' k E. symmetry in E. revert E. apply tmp_not_dir. }
        psplit; auto. { apply fs_ok_mkdir; auto. intros c' k E. symmetry in E. revert E. apply tmp_not_dir. }
        cbn [cl_ok]. split; [|apply fset_eq]. rewrite fset_ne; auto. apply tmp_not_dir.
      + psplit; auto using stable_refl. cbn [cl_ok]. split; auto.
        unfold sys_mkdir in M. apply is_dir_true in C2. rewrite C2 in M. cbn [andb] in M.
        destruct (exists_ f (block_dir (hash d))) eqn:X; [|discriminate]. apply exists_dir; auto.
    - destruct C as (C1 & C2). unfold sys_rename in R. rewrite C1 in R.
      change (removelast (block_path (hash d))) with (block_dir (hash d)) in R.
      apply is_dir_true in C2. rewrite C2 in R.
      pose proof (not_dir3 f (hash d) O) as N3. apply is_dir_false in N3. rewrite N3 in R. cbn in R. injection R as <- <- <- <-.
      apply is_dir_false in N3.
      assert (fset f (tmp_path c (hash d)) None (block_path (hash d)) <> Some NDir) as N4.
      { rewrite fset_ne; auto. intros E. symmetry in E. revert E. apply tmp_not_block. }
      psplit.
      + apply fs_ok_file; auto. apply fs_ok_none; auto. congruence.
      + exact I.
      + eapply stable_trans; [apply stable_tmp; rewrite C1; discriminate|apply stable_block; auto].
    - destruct (sys_read f (block_path k)); injection R as <- <- <- <-; psplit; auto using stable_refl; exact I.
    - unfold sys_remove in R. pose proof (not_dir3 f k O).
      destruct (f (block_path k)) as [[|w]|] eqn:F; injection R as <- <- <- <-; psplit; auto using stable_refl; try exact I.
      + apply fs_ok_none; auto. rewrite F; discriminate.
      + apply stable_block. rewrite F; discriminate.
  Qed.

  Lemma call_ok f c o st r : call hash max_block f o = (st, r) -> cl_ok f c st.
  Proof.
    unfold call. intros Q. destruct o; repeat match type of Q with context [if ?b then _ else _] => destruct b end; injection Q as <- <-; exact I.
  Qed.

  Lemma inv_step s l s' ev : inv s -> step hash max_block s l = Some (s', ev) -> inv s'.
  Proof.
    intros (O & C) S. destruct l as [c o|c n|c|c]; cbn [step] in S.
    - destruct (s_cl s c) eqn:T; try discriminate.
      destruct (call hash max_block (s_fs s) o) as [st r] eqn:E. injection S as <- <-.
      split; auto. intros c'. cbn. unfold cupd. destruct (Nat.eqb c' c) eqn:X; auto. eapply call_ok; eauto.
    - destruct (run1 hash (s_fs s) c n (s_cl s c)) as [[[[f' st] r] e]|] eqn:E; [|discriminate].
      injection S as <- <-. destruct (run1_inv _ _ _ _ _ _ _ _ O (C c) E) as (A & B & D).
      split; auto. intros c'. cbn. unfold cupd. destruct (Nat.eqb c' c) eqn:X; b2p; subst; auto.
      eapply stable_ok; eauto. 
    - destruct (in_store (s_cl s c)); [|discriminate]. injection S as <- <-.
      split; auto. intros c'. cbn. unfold cupd. destruct (Nat.eqb c' c); auto. exact I.
    - injection S as <- <-.
      split; auto. intros c'. cbn. unfold cupd. destruct (Nat.eqb c' c); auto. exact I.
  Qed.

  Lemma inv_run tr s : run hash max_block tr s -> inv s.
  Proof. induction 1; eauto using inv_init, inv_step. Qed.
End P.
