From Verif Require Import Py FbsModel FbsSpec FbsProofs.

Section H.
  Variable hash : str -> str.
  Variable max_block : Z.

  (** the call client c is in, and what happened since it was made *)
  Definition cur_step (c : nat) (a : option (op * list event)) (e : event) : option (op * list event) :=
    match e with
    | ECall c' o => if Nat.eqb c' c then Some (o, nil) else option_map (fun x => (fst x, snd x ++ [e])) a
    | ERet c' _ => if Nat.eqb c' c then None else option_map (fun x => (fst x, snd x ++ [e])) a
    | _ => option_map (fun x => (fst x, snd x ++ [e])) a
    end.
  Definition cur (c : nat) (tr : list event) := fold_left (cur_step c) tr None.

  Lemma cur_app c a b : cur c (a ++ b) = fold_left (cur_step c) b (cur c a).
  Proof. apply fold_left_app. Qed.
  Lemma cur_quiet c m : quiet c m -> forall x, fold_left (cur_step c) m x = option_map (fun y => (fst y, snd y ++ m)) x.
  Proof.
    induction m as [|e m IH]; intros Q x; cbn.
    - destruct x as [[o l]|]; cbn; rewrite ?app_nil_r; reflexivity.
    - assert (quiet c m) as Q' by (intros e' I; apply Q; right; exact I).
      pose proof (Q e (or_introl eq_refl)) as Qe.
      rewrite IH by auto. destruct e as [c' o|c' v|k]; cbn.
      + apply Nat.eqb_neq in Qe. rewrite Qe. destruct x as [[o' l]|]; cbn; rewrite <- ?app_assoc; reflexivity.
      + apply Nat.eqb_neq in Qe. rewrite Qe. destruct x as [[o' l]|]; cbn; rewrite <- ?app_assoc; reflexivity.
      + destruct x as [[o' l]|]; cbn; rewrite <- ?app_assoc; reflexivity.
  Qed.
  Lemma cur_at c a o m : quiet c m -> cur c (a ++ ECall c o :: m) = Some (o, m).
  Proof.
    intros Q. rewrite cur_app. cbn. rewrite Nat.eqb_refl, cur_quiet by auto. reflexivity.
  Qed.

  Definition hist (tr : list event) (s : sys) : Prop := forall c,
    match s_cl s c with
    | Idle => cur c tr = None
    | Dead => True
    | RRead k => exists m, cur c tr = Some (ORetrieve k, m) /\
                           (exists_ (s_fs s) (block_path k) = true \/ In (ERemoved k) m)
    | DRemove k => exists m, cur c tr = Some (ODelete k, m)
    | SOpen d | SWrite d _ | SParent d | SMk1 d | SMk2 d | SMove d =>
        exists m, cur c tr = Some (OStore d, m)
    end.

  (** what a step does to the blocks *)
  Lemma run1_exists f c n st f' st' r ev k : fs_ok hash f -> cl_ok hash f c st ->
    run1 hash f c n st = Some (f', st', r, ev) ->
    exists_ f (block_path k) = true -> exists_ f' (block_path k) = true \/ In (ERemoved k) ev.
  Proof.
    intros O C R X.
    assert (forall p n, p <> block_path k -> exists_ (fset f p n) (block_path k) = true) as NE.
    { intros p n0 N. unfold exists_. rewrite fset_ne; auto. }
    destruct st as [|d|d rest|d|d|d|d|k'|k'|]; cbn [run1] in R; try discriminate.
    - unfold sys_create in R. destruct (_ && _); injection R as <- <- <- <-; auto.
      left. apply NE, tmp_not_block.
    - destruct rest; [injection R as <- <- <- <-; auto|].
      unfold sys_append in R. destruct (f (tmp_path c (hash d))) as [[|w]|]; injection R as <- <- <- <-; auto.
      left. apply NE, tmp_not_block.
    - injection R as <- <- <- <-; auto.
    - unfold sys_mkdir in R. destruct (_ && _); injection R as <- <- <- <-; auto. left. apply NE. discriminate.
    - unfold sys_mkdir in R. destruct (_ && _); injection R as <- <- <- <-; auto. left. apply NE. discriminate.
    - unfold sys_rename in R. destruct (f (tmp_path c (hash d))) as [[|w]|]; [injection R as <- <- <- <-; auto| |injection R as <- <- <- <-; auto].
      destruct (_ && _); injection R as <- <- <- <-; auto.
      left. destruct (path_dec (block_path k) (block_path (hash d))) as [E|E].
      + unfold exists_. rewrite E, fset_eq. reflexivity.
      + unfold exists_. rewrite fset_ne by auto. rewrite fset_ne; auto.
        intros Q. symmetry in Q. revert Q. apply tmp_not_block.
    - destruct (sys_read f (block_path k')); injection R as <- <- <- <-; auto.
    - unfold sys_remove in R. destruct (f (block_path k')) as [[|w]|]; injection R as <- <- <- <-; auto.
      destruct (path_dec (block_path k) (block_path k')) as [E|E].
      + apply block_path_inj in E. subst. right. left. reflexivity.
      + left. apply NE. auto.
  Qed.

  Lemma step_exists s l s' ev k : inv hash s -> step hash max_block s l = Some (s', ev) ->
    exists_ (s_fs s) (block_path k) = true -> exists_ (s_fs s') (block_path k) = true \/ In (ERemoved k) ev.
  Proof.
    intros (O & C) S X. destruct l as [c o|c n|c|c]; cbn [step] in S.
    - destruct (s_cl s c); try discriminate. destruct (call _ _ _ o). injection S as <- <-. auto.
    - destruct (run1 hash (s_fs s) c n (s_cl s c)) as [[[[f' st] r] e]|] eqn:E; [|discriminate].
      injection S as <- <-. cbn. destruct (run1_exists _ _ _ _ _ _ _ _ k O (C c) E X); auto.
      right. apply in_or_app. auto.
    - destruct (in_store (s_cl s c)); [|discriminate]. injection S as <- <-. auto.
    - injection S as <- <-. auto.
  Qed.

  (** the value returned by a step, and why *)
  Definition good_ret (s' : sys) (o : op) (m : list event) (v : ret) : Prop :=
    match o with
    | ORetrieve k => v = VBlockMissing \/ (exists d, v = VData d /\ hash d = k) \/ (v = VOSError /\ In (ERemoved k) m)
    | OStore d => (v = VKey (hash d) /\ exists_ (s_fs s') (block_path (hash d)) = true) \/
                  v = VOSError \/ (v = VBlockSize /\ max_block < Z.of_nat (length d))
    | ODelete k => v = VNone
    end.

  Lemma block_content f k w : fs_ok hash f -> f (block_path k) = Some (NFile w) -> hash w = k.
  Proof.
    intros (_ & _ & _ & D) F. apply D in F as [(c & k' & F)|F]; [discriminate|].
    apply block_path_inj in F. auto.
  Qed.

  Lemma cur_other c ev x o m : quiet c ev -> x = Some (o, m) ->
    fold_left (cur_step c) ev x = Some (o, m ++ ev).
  Proof. intros Q ->. rewrite cur_quiet; auto. Qed.
  Lemma quiet_ev c c' ev : c' <> c -> (forall e, In e ev -> exists o, e = ECall c' o \/ (exists v, e = ERet c' v) \/ exists k, e = ERemoved k) -> quiet c ev.
  Proof. intros N H e I. destruct (H e I) as (o & [-> |[(v & ->)|(k & ->)]]); auto. Qed.

  (** all events of a step belong to one client *)
  Definition actor (l : label) : nat := match l with LCall c _ | LRun c _ | LFail c | LCrash c => c end.
  Lemma step_actor s l s' ev : step hash max_block s l = Some (s', ev) ->
    (forall e, In e ev -> exists o, e = ECall (actor l) o \/ (exists v, e = ERet (actor l) v) \/ exists k, e = ERemoved k) /\
    (forall c, c <> actor l -> s_cl s' c = s_cl s c).
  Proof.
    intros S. destruct l as [c o|c n|c|c]; cbn [step actor] in *.
    - destruct (s_cl s c); try discriminate. destruct (call _ _ _ o) as [st r]. injection S as <- <-. split.
      + intros e [<-|I]; [eauto|]. destruct r; cbn in I; [destruct I as [<-|[]]; exists o; eauto|destruct I].
      + intros c' N. cbn. unfold cupd. apply Nat.eqb_neq in N. rewrite N. auto.
    - destruct (run1 hash (s_fs s) c n (s_cl s c)) as [[[[f' st] r] e]|] eqn:E; [|discriminate].
      injection S as <- <-. split.
      + intros e' I. exists (ODelete nil). apply in_app_or in I as [I|I].
        * right; right. assert (e = nil \/ exists k, e = [ERemoved k]) as [-> |(k & ->)].
          { destruct (s_cl s c) as [|d|d [|x rest]|d|d|d|d|k|k|]; cbn [run1] in E; try discriminate;
            repeat match type of E with context [match ?y with _ => _ end] => destruct y end; injection E as <- <- <- <-; eauto. }
          destruct I. destruct I as [<-|[]]. eauto.
        * destruct r; cbn in I; [destruct I as [<-|[]]; eauto|destruct I].
      + intros c' N. cbn. unfold cupd. apply Nat.eqb_neq in N. rewrite N. auto.
    - destruct (in_store (s_cl s c)); [|discriminate]. injection S as <- <-. split.
      + intros e [<-|[]]. exists (ODelete nil). eauto.
      + intros c' N. cbn. unfold cupd. apply Nat.eqb_neq in N. rewrite N. auto.
    - injection S as <- <-. split; [intros e []|].
      intros c' N. cbn. unfold cupd. apply Nat.eqb_neq in N. rewrite N. auto.
  Qed.

  Lemma hist_others tr s l s' ev c : inv hash s -> hist tr s -> step hash max_block s l = Some (s', ev) -> c <> actor l ->
    match s_cl s' c with
    | Idle => cur c (tr ++ ev) = None
    | Dead => True
    | RRead k => exists m, cur c (tr ++ ev) = Some (ORetrieve k, m) /\
                           (exists_ (s_fs s') (block_path k) = true \/ In (ERemoved k) m)
    | DRemove k => exists m, cur c (tr ++ ev) = Some (ODelete k, m)
    | SOpen d | SWrite d _ | SParent d | SMk1 d | SMk2 d | SMove d =>
        exists m, cur c (tr ++ ev) = Some (OStore d, m)
    end.
  Proof.
    intros IV H S N. destruct (step_actor _ _ _ _ S) as (A & B). rewrite (B c N).
    assert (quiet c ev) as Q by (eapply quiet_ev; [|exact A]; auto).
    specialize (H c). rewrite cur_app. destruct (s_cl s c); auto.
    all: try (destruct H as (m & H); rewrite (cur_other _ _ _ _ _ Q H); eauto; fail).
    - rewrite H, cur_quiet; auto.
    - destruct H as (m & H & X). rewrite (cur_other _ _ _ _ _ Q H). eexists. split; [reflexivity|].
      destruct X as [X|X]; [|right; apply in_or_app; auto].
      destruct (step_exists _ _ _ _ k IV S X); auto. right. apply in_or_app. auto.
  Qed.

  (** the step's own client: history and, if it returns, a good value *)
  Lemma hist_step tr s l s' ev : inv hash s -> hist tr s -> step hash max_block s l = Some (s', ev) ->
    hist (tr ++ ev) s' /\
    (forall a c v b, ev = a ++ ERet c v :: b -> b = nil /\ exists o m, cur c (tr ++ a) = Some (o, m) /\ good_ret s' o m v).
  Proof.
    intros IV H S.
    assert (match s_cl s' (actor l) with
      | Idle => cur (actor l) (tr ++ ev) = None
      | Dead => True
      | RRead k => exists m, cur (actor l) (tr ++ ev) = Some (ORetrieve k, m) /\
                           (exists_ (s_fs s') (block_path k) = true \/ In (ERemoved k) m)
      | DRemove k => exists m, cur (actor l) (tr ++ ev) = Some (ODelete k, m)
      | SOpen d | SWrite d _ | SParent d | SMk1 d | SMk2 d | SMove d =>
        exists m, cur (actor l) (tr ++ ev) = Some (OStore d, m)
      end /\
      (forall a c v b, ev = a ++ ERet c v :: b -> b = nil /\ exists o m, cur c (tr ++ a) = Some (o, m) /\ good_ret s' o m v)) as (P1 & P2).
    2:{ split; auto. intros c. destruct (Nat.eq_dec c (actor l)) as [-> |N]; [exact P1|eapply hist_others; eauto]. }
    destruct IV as (O & C). specialize (H (actor l)).
    destruct l as [c o|c n|c|c]; cbn [step actor] in *.
    - destruct (s_cl s c) eqn:T; try discriminate.
      destruct (call hash max_block (s_fs s) o) as [st r] eqn:E. injection S as <- <-. cbn [s_cl s_fs].
      unfold cupd. rewrite Nat.eqb_refl. split.
      + rewrite cur_app. unfold call in E.
        destruct o; repeat match type of E with context [if ?b then _ else _] => destruct b eqn:?X end; injection E as <- <-; cbn;
          rewrite ?Nat.eqb_refl; eauto.
      + intros a c' v b Ev. destruct a as [|e a]; [discriminate|]. injection Ev as <- Ev.
        destruct r as [w|]; cbn in Ev; [|destruct a; discriminate].
        destruct a as [|e a]; [|destruct a; discriminate]. cbn in Ev. injection Ev as <- <- <-.
        split; auto. exists o, nil. rewrite cur_app. cbn. rewrite Nat.eqb_refl. split; auto.
        unfold call in E. destruct o; repeat match type of E with context [if ?b then _ else _] => destruct b eqn:?X end; inversion E; subst; cbn; b2p; auto.
    - destruct (run1 hash (s_fs s) c n (s_cl s c)) as [[[[f' st] r] e]|] eqn:E; [|discriminate].
      injection S as <- <-. cbn [s_cl s_fs]. unfold cupd. rewrite Nat.eqb_refl.
      specialize (C c).
      assert (forall rr (x : list event) , match rr with Some _ => cur c (tr ++ x ++ evret c rr) = None | None => True end) as CR.
      { intros [v|] x; auto. cbn [evret]. rewrite cur_app. rewrite fold_left_app. cbn. rewrite Nat.eqb_refl. reflexivity. }
      destruct (s_cl s c) as [|d|d rest|d|d|d|d|k|k|] eqn:T; cbn [run1] in E; try discriminate.
      + unfold sys_create in E. destruct (_ && _); injection E as <- <- <- <-; cbn [app evret]; rewrite ?app_nil_r.
        * split; auto. intros a c' v b Ev. destruct a; discriminate.
        * split. apply (CR (Some VOSError) nil). intros a c' v b Ev.
          destruct a as [|e0 a]; [|destruct a; discriminate]. cbn in Ev. injection Ev as <- <- <-.
          destruct H as (m & H). rewrite app_nil_r. split; auto. exists (OStore d), m. split; auto. cbn. auto.
      + destruct rest.
        * injection E as <- <- <- <-; cbn [app evret]; rewrite ?app_nil_r. split; auto. intros a c' v b Ev. destruct a; discriminate.
        * destruct (sys_append _ _ _); injection E as <- <- <- <-; cbn [app evret]; rewrite ?app_nil_r.
          -- split; auto. intros a c' v b Ev. destruct a; discriminate.
          -- split. apply (CR (Some VOSError) nil). intros a c' v b Ev.
             destruct a as [|e0 a]; [|destruct a; discriminate]. cbn in Ev. injection Ev as <- <- <-.
             destruct H as (m & H). rewrite app_nil_r. split; auto. exists (OStore d), m. split; auto. cbn. auto.
      + injection E as <- <- <- <-; cbn [app evret]; rewrite ?app_nil_r.
        split; [|intros a c' v b Ev; destruct a; discriminate]. destruct (exists_ _ _); auto.
      + destruct (sys_mkdir _ _); injection E as <- <- <- <-; cbn [app evret]; rewrite ?app_nil_r;
          (split; [auto|intros a c' v b Ev; destruct a; discriminate]).
      + destruct (sys_mkdir _ _); injection E as <- <- <- <-; cbn [app evret]; rewrite ?app_nil_r;
          (split; [auto|intros a c' v b Ev; destruct a; discriminate]).
      + destruct H as (m & H). destruct (sys_rename _ _ _) eqn:Q; injection E as <- <- <- <-; cbn [app evret]; rewrite ?app_nil_r.
        * split; [apply (CR (Some (VKey (hash d))) nil)|]. intros a c' v b Ev.
          destruct a as [|e0 a]; [|destruct a; discriminate]. cbn in Ev. injection Ev as <- <- <-.
          split; auto. exists (OStore d), m. rewrite app_nil_r. split; auto. cbn. left. split; auto.
          unfold sys_rename in Q. destruct (s_fs s (tmp_path c (hash d))) as [[|w]|]; try discriminate.
          destruct (_ && _); [|discriminate]. injection Q as <-. unfold exists_. rewrite fset_eq. reflexivity.
        * split; [apply (CR (Some VOSError) nil)|]. intros a c' v b Ev.
          destruct a as [|e0 a]; [|destruct a; discriminate]. cbn in Ev. injection Ev as <- <- <-.
          split; auto. exists (OStore d), m. rewrite app_nil_r. split; auto. cbn. auto.
      + destruct H as (m & H & X). destruct (sys_read (s_fs s) (block_path k)) eqn:Q; injection E as <- <- <- <-; cbn [app evret]; rewrite ?app_nil_r.
        * split; [apply (CR (Some (VData s0)) nil)|]. intros a c' v b Ev.
          destruct a as [|e0 a]; [|destruct a; discriminate]. cbn in Ev. injection Ev as <- <- <-.
          split; auto. exists (ORetrieve k), m. rewrite app_nil_r. split; auto. cbn. right; left. exists s0. split; auto.
          unfold sys_read in Q. destruct (s_fs s (block_path k)) as [[|w]|] eqn:F; try discriminate.
          injection Q as ->. eapply block_content; eauto.
        * split; [apply (CR (Some VOSError) nil)|]. intros a c' v b Ev.
          destruct a as [|e0 a]; [|destruct a; discriminate]. cbn in Ev. injection Ev as <- <- <-.
          split; auto. exists (ORetrieve k), m. rewrite app_nil_r. split; auto. cbn. right; right. split; auto.
          destruct X as [X|X]; auto. unfold exists_, sys_read in *.
          pose proof (not_dir3 hash _ k O). destruct (s_fs s (block_path k)) as [[|w]|]; congruence.
      + destruct H as (m & H). destruct (sys_remove (s_fs s) (block_path k)) eqn:Q; injection E as <- <- <- <-; cbn [app evret]; rewrite ?app_nil_r.
        * split; [apply (CR (Some VNone) [ERemoved k])|]. intros a c' v b Ev.
          destruct a as [|e0 [|e1 a]]; [discriminate| |destruct a; discriminate]. cbn in Ev. injection Ev as <- <- <- <-.
          split; auto. exists (ODelete k), (m ++ [ERemoved k]). rewrite cur_app, H. split; reflexivity.
        * split; [apply (CR (Some VNone) nil)|]. intros a c' v b Ev.
          destruct a as [|e0 a]; [|destruct a; discriminate]. cbn in Ev. injection Ev as <- <- <-.
          split; auto. exists (ODelete k), m. rewrite app_nil_r. split; auto. reflexivity.
    - destruct (in_store (s_cl s c)) eqn:T; [|discriminate]. injection S as <- <-. cbn [s_cl s_fs].
      unfold cupd. rewrite Nat.eqb_refl. split.
      + rewrite cur_app. cbn. rewrite Nat.eqb_refl. reflexivity.
      + intros a c' v b Ev. destruct a as [|e0 a]; [|destruct a; discriminate]. cbn in Ev. injection Ev as <- <- <-.
        split; auto. rewrite app_nil_r.
        destruct (s_cl s c); try discriminate; destruct H as (m & H); exists (OStore d), m; split; auto; cbn; auto.
    - injection S as <- <-. cbn [s_cl s_fs]. unfold cupd. rewrite Nat.eqb_refl. split; [exact I|].
      intros a c' v b Ev. destruct a; discriminate.
  Qed.

  Lemma hist_run tr s : run hash max_block tr s -> hist tr s.
  Proof.
    induction 1 as [|tr s l s' ev R IH S].
    - intros c. reflexivity.
    - eapply hist_step; eauto. eapply inv_run; eauto.
  Qed.

  Lemma app_split_cons {A} (l1 l2 a : list A) x b :
    l1 ++ l2 = a ++ x :: b ->
    (exists b1, l1 = a ++ x :: b1 /\ b = b1 ++ l2) \/ (exists a2, a = l1 ++ a2 /\ l2 = a2 ++ x :: b).
  Proof.
    revert a; induction l1 as [|y l1 IH]; intros a H; cbn in H.
    - right. exists a. auto.
    - destruct a as [|z a]; cbn in H; inversion H; subst.
      + left. exists l1. auto.
      + apply IH in H2 as [(b1 & -> & ->)|(a2 & -> & ->)]; [left; exists b1|right; exists a2]; auto.
  Qed.

  (** every return is good at the moment it happens; a stored block stays until removed *)
  Lemma completed_good tr s c o m v b : run hash max_block tr s -> completed tr c o m v b ->
    match o with
    | OStore d => (v = VKey (hash d) /\ (In (ERemoved (hash d)) b \/ exists_ (s_fs s) (block_path (hash d)) = true)) \/
                  v = VOSError \/ (v = VBlockSize /\ max_block < Z.of_nat (length d))
    | ORetrieve k => v = VBlockMissing \/ (exists d, v = VData d /\ hash d = k) \/ (v = VOSError /\ In (ERemoved k) m)
    | ODelete k => v = VNone
    end.
  Proof.
    intros R (a & E & Q). revert a b E. induction R as [|tr s l s' ev R IH S]; intros a b E.
    - destruct a; discriminate.
    - pose proof (inv_run _ _ _ _ R) as IV.
      change (a ++ ECall c o :: m ++ ERet c v :: b) with (a ++ (ECall c o :: m) ++ ERet c v :: b) in E.
      rewrite app_assoc in E. apply app_split_cons in E as [(b1 & -> & ->)|(a2 & E1 & ->)].
      + rewrite <- app_assoc in IH. specialize (IH a b1 eq_refl). destruct o; auto.
        destruct IH as [(IH & X)|IH]; auto. left. split; auto.
        destruct X as [X|X]; [left; apply in_or_app; auto|].
        destruct (step_exists _ _ _ _ (hash d) IV S X); auto. left. apply in_or_app. auto.
      + destruct (hist_step _ _ _ _ _ IV (hist_run _ _ R) S) as (_ & G).
        destruct (G _ _ _ _ eq_refl) as (-> & o' & m' & Cu & Go).
        rewrite <- E1, cur_at in Cu by auto. injection Cu as <- <-. destruct o; cbn in Go; tauto.
  Qed.
End H.
