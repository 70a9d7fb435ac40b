(** Property C139: normalised paths. *)
From Coq Require Import Lia String.
From Verif Require Import Py Num UriModel UriRel VfModel VfSpec.
Open Scope Z_scope.

Definition dots (dot : bool) : list str := if dot then [curdir] else [].
Definition good (c : str) : Prop := c <> [] /\ c <> curdir.
Lemma eqb_not : forall a b, a <> b -> str_eqb a b = false.
Proof. intros a b N. destruct (str_eqb a b) eqn:E; [apply str_eqb_eq in E; contradiction|reflexivity]. Qed.
Lemma loop_rel : forall f don rest st dot, (2 * List.length rest + List.length don < f)%nat -> don = st ++ dots dot -> Forall good st -> (don = [] -> exists c r, rest = c :: r /\ c <> []) ->
  exists dot', norm_loop f don rest = rev (walk false st rest ++ dots dot') /\ walk false st rest ++ dots dot' <> [].
Proof.
  induction f as [|f IH]; intros don rest st dot L D G H; [lia|]. cbn [norm_loop]. destruct rest as [|c r].
  - exists dot. cbn [walk]. rewrite <- D. split; [reflexivity|]. intros X. destruct (H X) as (c & r & E & _). discriminate.
  - cbn [List.length] in L. destruct c as [|x c].
    + assert (N : don <> []) by (intros X; destruct (H X) as (c & r2 & E & N); inversion E; congruence). cbn [walk str_eqb orb]. destruct (IH don r st dot) as (dot' & A & B); [lia|exact D|exact G|intros X; contradiction|]. exists dot'. cbn [walk str_eqb orb]. rewrite <- A. split; [|exact B].
      destruct don as [|[|y t] [|u d]]; try congruence; try reflexivity. exfalso. destruct st as [|s st]; [destruct dot; cbn in D; discriminate|]. inversion G as [|? ? [G1 _] _]; subst. cbn [app] in D. inversion D. congruence.
    + set (w := x :: c) in *. assert (Nw : str_eqb w [] = false) by reflexivity. cbn [walk]. rewrite Nw. change (lit ".") with curdir. change (lit "..") with pardir. cbn [orb]. destruct (str_eqb w pardir) eqn:E1.
      * apply str_eqb_eq in E1. rewrite E1. change (str_eqb pardir curdir) with false. cbn [orb]. change (str_eqb pardir pardir) with true. cbv iota.
        destruct st as [|s st].
        { assert (X : match don with [] => norm_loop f (pardir :: don) r | par :: d => if str_eqb par pardir || str_eqb par curdir then norm_loop f (pardir :: don) r else match par with [] => norm_loop f don r | _ => norm_loop f d (curdir :: r) end end = norm_loop f (pardir :: don) r) by (rewrite D; destruct dot; reflexivity).
          rewrite X. apply (IH (pardir :: don) r [pardir] dot); [cbn [List.length]; lia|rewrite D; reflexivity|repeat constructor; discriminate|discriminate]. }
        { inversion G as [|? ? [G1 G2] G3]; subst don. cbn [app]. rewrite (eqb_not s curdir G2), orb_false_r. destruct (str_eqb s pardir) eqn:E2.
          - apply (IH (pardir :: s :: st ++ dots dot) r (pardir :: s :: st) dot); [cbn [List.length app] in *; lia|reflexivity|constructor; [split; discriminate|exact G]|discriminate].
          - destruct s as [|y s]; [congruence|]. destruct (IH (st ++ dots dot) (curdir :: r) st dot) as (dot' & A & B); [cbn [List.length app] in *; lia|reflexivity|exact G3|intros _; exists curdir, r; split; [reflexivity|discriminate]|]. exists dot'. cbn [walk] in A, B. change (str_eqb curdir [] || str_eqb curdir (lit ".")) with true in A, B. cbv iota in A, B. auto. }
      * destruct (str_eqb w curdir) eqn:E2.
        { destruct don as [|u d].
          - apply (IH [w] r st true); [cbn [List.length] in *; lia| |exact G|discriminate]. apply str_eqb_eq in E2. rewrite E2. destruct st; [reflexivity|discriminate].
          - apply (IH (u :: d) r st dot); [lia|exact D|exact G|discriminate]. }
        { apply (IH (w :: don) r (w :: st) dot); [cbn [List.length] in *; lia|rewrite D; reflexivity| |discriminate]. constructor; [|exact G]. split; [discriminate|]. intros X. rewrite X in E2. discriminate. }
Qed.
Lemma loop_abs : forall f rest st, (2 * List.length rest + List.length st + 1 < f)%nat -> Forall (fun c => good c /\ c <> pardir) st -> (forall a b, rest = a ++ [] :: b -> b = []) ->
  norm_trim (norm_loop f (st ++ [[]]) rest) = match rev (walk true st rest) with [] => [[]; []] | s => [] :: s end.
Proof.
  induction f as [|f IH]; intros rest st L G H; [lia|]. cbn [norm_loop]. destruct rest as [|c r].
  - cbn [walk]. rewrite rev_app_distr. cbn [rev app]. destruct (rev st); reflexivity.
  - cbn [List.length] in L. assert (H2 : forall a b, r = a ++ [] :: b -> b = []) by (intros a b ->; apply (H (c :: a) b); reflexivity). destruct c as [|x c].
    + cbn [walk str_eqb orb]. destruct st as [|s st].
      * assert (r = []) as -> by (apply (H []); reflexivity). reflexivity.
      * inversion G as [|? ? [[G1 _] _] _]; subst. destruct s as [|y s]; [congruence|]. cbn [app]. apply (IH r ((y :: s) :: st)); [cbn [List.length] in *; lia|exact G|exact H2].
    + set (w := x :: c) in *. assert (Nw : str_eqb w [] = false) by reflexivity. cbn [walk]. rewrite Nw. change (lit ".") with curdir. change (lit "..") with pardir. cbn [orb]. destruct (str_eqb w pardir) eqn:E1.
      * apply str_eqb_eq in E1. rewrite E1. change (str_eqb pardir curdir) with false. cbn [orb]. change (str_eqb pardir pardir) with true. cbv iota. destruct st as [|s st].
        { cbn [app str_eqb orb]. apply (IH r []); [cbn [List.length]; lia|constructor|exact H2]. }
        { inversion G as [|? ? [[G1 G2] G4] G3]; subst. cbn [app]. rewrite (eqb_not s curdir G2), (eqb_not s pardir G4). cbn [orb]. destruct s as [|y s]; [congruence|]. rewrite (IH (curdir :: r) st); [reflexivity|cbn [List.length] in *; lia|exact G3|]. intros [|u a] b E; cbn [app] in E; inversion E; subst. eapply H2. reflexivity. }
      * destruct (str_eqb w curdir) eqn:E2.
        { destruct st as [|u st]; [apply (IH r [])|apply (IH r (u :: st))]; [lia|exact G|exact H2|lia|exact G|exact H2]. }
        { change (w :: st ++ [[]]) with ((w :: st) ++ [[]]). apply IH; [cbn [List.length]; lia| |exact H2]. constructor; [|exact G]. split; [split; [discriminate|]|]; intros X; rewrite X in *; discriminate. }
Qed.
Lemma join_two : forall (a b : list str), a <> [] -> b <> [] -> join_on 47 (a ++ [] :: b) = join_on 47 a ++ 47 :: 47 :: join_on 47 b.
Proof.
  induction a as [|x a IH]; intros b Na Nb; [congruence|]. destruct a as [|y a].
  - cbn [app join_on]. destruct b; [congruence|]. reflexivity.
  - change ((x :: y :: a) ++ [] :: b) with (x :: (y :: a) ++ [] :: b). assert (J : forall l, l <> [] -> join_on 47 (x :: l) = x ++ 47 :: join_on 47 l) by (intros [|u l] N; [congruence|reflexivity]). rewrite J by discriminate. rewrite IH by (discriminate || exact Nb). rewrite (J (y :: a)) by discriminate. rewrite <- app_assoc. reflexivity.
Qed.
(** ** a path is normalised to what is left of it; if it is absolute it must not have two slashes together *)
Theorem norm_exact : forall p, isabs p = false \/ no_double p -> normpath p = tidy p.
Proof.
  intros p H. destruct p as [|x p]; [reflexivity|]. unfold normpath. set (q := x :: p) in *. destruct (isabs q) eqn:A.
  - destruct H as [H|H]; [congruence|]. unfold q, isabs in A. apply Z.eqb_eq in A. subst x. unfold tidy, q. set (cs := split_on 47 p). assert (S1 : split_on 47 (47 :: p) = [] :: cs) by reflexivity. rewrite S1.
    match goal with |- context [norm_loop ?f _ _] => assert (Q : f = S (2 * List.length cs + 2)) by (cbn [List.length]; lia); rewrite Q; clear Q end. cbn [norm_loop]. change [[]] with (([] : list str) ++ [[]]). rewrite loop_abs; [|unfold str; cbn [List.length]; lia|constructor|].
    + cbn [walk str_eqb orb]. destruct (rev (walk true [] cs)) as [|s l]; reflexivity.
    + intros a b E. destruct b as [|u b]; [reflexivity|]. exfalso. apply (H (join_on 47 ([] :: a)) (join_on 47 (u :: b))). rewrite <- (join_two ([] :: a) (u :: b)) by discriminate. transitivity (join_on 47 (split_on 47 (47 :: p))); [symmetry; apply join_split|]. f_equal. rewrite S1. rewrite E. reflexivity.
  - assert (T : tidy q = match rev (walk false [] (split_on 47 q)) with [] => lit "." | l => join_on 47 l end).
    { unfold tidy, q. unfold isabs, q in A. destruct (Z.eqb_spec x 47); [discriminate|]. destruct x as [|y|y]; try reflexivity. repeat (destruct y as [y|y|]; try reflexivity). congruence. }
    rewrite T. destruct (loop_rel (2 * List.length (split_on 47 q) + 1) [] (split_on 47 q) [] false) as (dot & E & N); [unfold str; cbn [List.length]; lia|reflexivity|constructor| |].
    + intros _. unfold q, isabs in *. cbn [split_on]. rewrite A. destruct (split_on 47 p) as [|w l]; eexists; eexists; (split; [reflexivity|discriminate]).
    + rewrite E, rev_app_distr. set (l := rev (walk false [] (split_on 47 q))) in *. destruct dot; cbn [dots rev app] in *.
      * destruct l as [|s l2]; reflexivity.
      * rewrite app_nil_r in N. destruct l as [|s l2] eqn:El; [exfalso; apply N; unfold l in El; apply (f_equal (@rev str)) in El; rewrite rev_involutive in El; exact El|]. unfold norm_trim. assert (G : good s).
        { assert (W : forall cs st, Forall good st -> Forall good (walk false st cs)).
          { clear. induction cs as [|c cs IH]; intros st G; [exact G|]. cbn [walk]. destruct (str_eqb c []) eqn:E1; [apply IH; exact G|]. destruct (str_eqb c (lit ".")) eqn:E2; [apply IH; exact G|]. cbn [orb]. assert (Gc : good c) by (split; intros X; rewrite X in *; discriminate). destruct (str_eqb c (lit "..")).
            - destruct st as [|t s]; [apply IH; repeat constructor; apply Gc|]. destruct (str_eqb t (lit "..")); [apply IH; constructor; assumption|]. inversion G; subst. apply IH. assumption.
            - apply IH. constructor; assumption. }
          specialize (W (split_on 47 q) [] (Forall_nil _)). apply Forall_rev in W. fold l in W. rewrite El in W. inversion W; assumption. }
        destruct l2 as [|u l2]; [destruct s; [destruct G; congruence|reflexivity]|]. rewrite (eqb_not s curdir) by apply G. reflexivity.
Qed.

(** ** the normalised path leads to the same place *)
Lemma resolve_app : forall a b x, resolve x (a ++ b) = resolve (resolve x a) b.
Proof.
  induction a as [|c a IH]; intros b x; [reflexivity|]. cbn [app resolve]. destruct (str_eqb c [] || str_eqb c (lit ".")); [apply IH|]. destruct (str_eqb c (lit "..")); apply IH.
Qed.
Lemma walk_abs : forall cs st, Forall (fun c => c <> pardir) st -> walk true st cs = resolve st cs.
Proof.
  induction cs as [|c cs IH]; intros st G; [reflexivity|]. cbn [walk resolve]. destruct (str_eqb c [] || str_eqb c (lit ".")) eqn:E1; [apply IH; exact G|]. destruct (str_eqb c (lit "..")) eqn:E2.
  - destruct st as [|t s]; [apply IH; constructor|]. inversion G; subst. rewrite (eqb_not t (lit "..")) by assumption. apply IH. assumption.
  - apply IH. constructor; [|exact G]. intros X. rewrite X in E2. discriminate.
Qed.
Lemma walk_rel : forall cs st x, Forall good st -> resolve x (rev (walk false st cs)) = resolve (resolve x (rev st)) cs.
Proof.
  induction cs as [|c cs IH]; intros st x G; [reflexivity|]. cbn [walk resolve]. destruct (str_eqb c [] || str_eqb c (lit ".")) eqn:E1; [apply IH; exact G|]. assert (Gc : good c) by (apply orb_false_iff in E1 as [A B]; split; intros X; rewrite X in *; discriminate). destruct (str_eqb c (lit "..")) eqn:E2.
  - destruct st as [|t s].
    + rewrite IH by (constructor; [exact Gc|constructor]). cbn [rev app resolve]. rewrite E1, E2. reflexivity.
    + destruct (str_eqb t (lit "..")) eqn:E3.
      * rewrite IH by (constructor; assumption). cbn [rev]. rewrite !resolve_app. cbn [resolve]. rewrite E1, E2. reflexivity.
      * inversion G as [|? ? [G1 G2] G3]; subst. rewrite IH by exact G3. cbn [rev]. rewrite resolve_app. cbn [resolve]. rewrite (eqb_not t []) by exact G1. rewrite (eqb_not t (lit ".")) by exact G2. cbn [orb]. rewrite E3. reflexivity.
  - rewrite IH by (constructor; assumption). cbn [rev]. rewrite resolve_app. cbn [resolve]. rewrite E1, E2. reflexivity.
Qed.
Lemma walk_names : forall cs st, Forall (fun c => ~ In 47 c) cs -> Forall name st -> Forall name (walk true st cs).
Proof.
  induction cs as [|c cs IH]; intros st F G; [exact G|]. inversion F; subst. cbn [walk]. destruct (str_eqb c [] || str_eqb c (lit ".")) eqn:E1; [apply IH; assumption|]. destruct (str_eqb c (lit "..")) eqn:E2.
  - destruct st as [|t s]; [apply IH; [assumption|constructor]|]. inversion G as [|? ? (_ & _ & N & _) G2]; subst. rewrite (eqb_not t (lit "..")) by exact N. apply IH; assumption.
  - apply IH; [assumption|]. constructor; [|exact G]. apply orb_false_iff in E1 as [A B]. repeat split; try assumption; intros X; rewrite X in *; discriminate.
Qed.
Lemma repeat_end : forall n (x : str), repeat x n ++ [x] = x :: repeat x n.
Proof. induction n as [|n IH]; intros x; [reflexivity|]. cbn [repeat app]. rewrite IH. reflexivity. Qed.
Lemma walk_shape : forall cs l n, Forall (fun c => ~ In 47 c) cs -> Forall name l -> exists l' n', walk false (l ++ repeat pardir n) cs = l' ++ repeat pardir n' /\ Forall name l'.
Proof.
  induction cs as [|c cs IH]; intros l n F G; [exists l, n; auto|]. inversion F; subst. cbn [walk]. destruct (str_eqb c [] || str_eqb c (lit ".")) eqn:E1; [apply IH; assumption|]. destruct (str_eqb c (lit "..")) eqn:E2.
  - apply str_eqb_eq in E2. subst c. change (lit "..") with pardir. destruct l as [|t l].
    + cbn [app]. destruct n as [|n]; cbn [repeat]; [apply (IH [] 1%nat); [assumption|constructor]|]. change (str_eqb pardir pardir) with true. cbv iota. apply (IH [] (S (S n))); [assumption|constructor].
    + inversion G as [|? ? (_ & _ & N & _) G2]; subst. cbn [app]. rewrite (eqb_not t pardir) by exact N. apply IH; assumption.
  - apply (IH (c :: l) n); [assumption|]. constructor; [|exact G]. apply orb_false_iff in E1 as [A B]. repeat split; try assumption; intros X; rewrite X in *; discriminate.
Qed.
Lemma split_bars : forall p, Forall (fun c => ~ In 47 c) (split_on 47 p).
Proof. intros p. apply Forall_forall. intros c H. eapply split_in. exact H. Qed.
Lemma isabs_cases : forall p, (exists r, p = 47 :: r) \/ (isabs p = false /\ forall A (x y : A), match p with 47 :: _ => x | _ => y end = y).
Proof.
  intros [|x p]; [right; auto|]. destruct (Z.eq_dec x 47) as [->|N]; [left; eauto|]. right. split; [apply Z.eqb_neq; exact N|]. intros A a b. destruct x as [|y|y]; try reflexivity. repeat (destruct y as [y|y|]; try reflexivity). congruence.
Qed.
Lemma tidy_abs : forall r, tidy (47 :: r) = 47 :: join_on 47 (rev (place [] (47 :: r))).
Proof. intros r. unfold tidy, place. rewrite walk_abs by constructor. reflexivity. Qed.
(** an absolute path is normalised to the names of what it leads to, from the root: two lead to the same place if and only if they are normalised to the same *)
Theorem absolute_exact : forall p cwd, isabs p = true -> no_double p -> Forall name (place cwd p) /\ normpath p = 47 :: join_on 47 (rev (place cwd p)).
Proof.
  intros p cwd A N. rewrite (norm_exact p (or_intror N)). destruct (isabs_cases p) as [[r ->]|[B _]]; [|congruence]. split; [|exact (tidy_abs r)]. unfold place. rewrite <- walk_abs by constructor. apply walk_names; [apply split_bars|constructor].
Qed.
Lemma join_inj : forall a b, Forall name a -> Forall name b -> join_on 47 a = join_on 47 b -> a = b.
Proof.
  assert (Z : forall u r, Forall name (u :: r) -> join_on 47 (u :: r) <> []) by (intros u r F; inversion F as [|? ? [N _] _]; subst; destruct r; cbn [join_on]; destruct u; try congruence; discriminate).
  assert (B : forall l, Forall name l -> Forall (fun c => ~ In 47 c) l) by (intros l F; eapply Forall_impl; [|exact F]; intros c (_ & _ & _ & X); exact X).
  intros [|x a] [|y b] Fa Fb E; [reflexivity|exfalso; apply (Z y b Fb); symmetry; exact E|exfalso; apply (Z x a Fa); exact E|].
  rewrite <- (split_join 47 (x :: a)) by (discriminate || apply B; exact Fa). rewrite E. apply split_join; [discriminate|apply B; exact Fb].
Qed.
Theorem absolute_same : forall p q cwd, isabs p = true -> isabs q = true -> no_double p -> no_double q -> normpath p = normpath q <-> place cwd p = place cwd q.
Proof.
  intros p q cwd A B Np Nq. destruct (absolute_exact p cwd A Np) as [Fp ->]. destruct (absolute_exact q cwd B Nq) as [Fq ->]. split; [|intros ->; reflexivity]. intros E. inversion E as [E2]. apply join_inj in E2; [|apply Forall_rev; assumption..]. apply (f_equal (@rev str)) in E2. rewrite !rev_involutive in E2. exact E2.
Qed.
(** a relative path is normalised to so many steps up and then so many names, and leads to the same place from everywhere *)
Theorem relative_exact : forall p, isabs p = false -> exists n l, Forall name l /\ normpath p = (match repeat (lit "..") n ++ l with [] => lit "." | cs => join_on 47 cs end) /\ forall cwd, place cwd (normpath p) = place cwd p.
Proof.
  intros p A. rewrite (norm_exact p (or_introl A)). destruct (isabs_cases p) as [[r ->]|[_ M]]; [discriminate|]. destruct (walk_shape (split_on 47 p) [] 0 (split_bars p) (Forall_nil _)) as (l & n & E & F). cbn [app repeat] in E. exists n, (rev l). split; [apply Forall_rev; exact F|].
  assert (T : tidy p = match rev (walk false [] (split_on 47 p)) with [] => lit "." | l => join_on 47 l end) by (unfold tidy; destruct p as [|x p]; [reflexivity|]; apply M).
  assert (R : rev (walk false [] (split_on 47 p)) = repeat (lit "..") n ++ rev l). { rewrite E, rev_app_distr. f_equal. clear. induction n as [|n IH]; [reflexivity|]. cbn [repeat rev]. rewrite IH. apply repeat_end. }
  assert (W : forall x, resolve x (repeat (lit "..") n ++ rev l) = resolve x (split_on 47 p)) by (intros x; rewrite <- R; apply (walk_rel (split_on 47 p) [] x); constructor).
  rewrite T, R. split; [reflexivity|]. intros cwd. assert (B : Forall (fun c => ~ In 47 c) (repeat (lit "..") n ++ rev l)).
  { apply Forall_app. split; [apply Forall_forall; intros c Hc; apply repeat_spec in Hc; subst c; cbn; intuition discriminate|]. eapply Forall_impl; [|apply Forall_rev; exact F]. intros c (_ & _ & _ & X). exact X. }
  assert (H : match repeat (lit "..") n ++ rev l with [] => True | c :: _ => exists x t, c = x :: t /\ x <> 47 end).
  { destruct n as [|n]; cbn [repeat app]; [|exists 46, [46]; split; [reflexivity|discriminate]]. destruct (rev l) as [|c r] eqn:Q; [exact Logic.I|]. apply Forall_rev in F. rewrite Q in F. inversion F as [|? ? (N1 & _ & _ & N2) _]; subst. destruct c as [|x t]; [congruence|]. exists x, t. split; [reflexivity|]. intros ->. apply N2. left. reflexivity. }
  unfold place at 2. rewrite M. rewrite <- W. destruct (repeat (lit "..") n ++ rev l) as [|c r] eqn:Q; [reflexivity|]. unfold place. rewrite split_join by (discriminate || exact B). f_equal. destruct H as (x & t & -> & N). destruct (isabs_cases (join_on 47 ((x :: t) :: r))) as [[u X]|[_ M2]]; [|apply M2]. exfalso. destruct r; cbn [join_on app] in X; inversion X; congruence.
Qed.
(** normalising again changes nothing *)
Lemma join_no_double : forall l, Forall name l -> no_double (47 :: join_on 47 l).
Proof.
  intros l F a b E. assert (S1 : split_on 47 (47 :: join_on 47 l) = [] :: match l with [] => [[]] | _ => l end).
  { cbn [split_on]. change (47 =? 47) with true. cbv iota. f_equal. destruct l; [reflexivity|]. apply split_join; [discriminate|]. eapply Forall_impl; [|exact F]. intros c (_ & _ & _ & X). exact X. }
  assert (S2 : forall a, exists u v, split_on 47 (a ++ 47 :: 47 :: b) = u ++ [] :: v /\ u <> [] /\ v <> []).
  { clear. induction a as [|x a IH].
    - cbn [app split_on]. change (47 =? 47) with true. cbv iota. exists [[]], (split_on 47 b). repeat split; try discriminate. destruct b as [|y b]; [discriminate|]. cbn [split_on]. destruct (y =? 47); [discriminate|]. destruct (split_on 47 b); discriminate.
    - destruct IH as (u & v & E & U & V). cbn [app split_on]. rewrite E. destruct (x =? 47); [exists ([] :: u), v; repeat split; [discriminate|exact V]|]. destruct u as [|w u]; [congruence|]. cbn [app]. exists ((x :: w) :: u), v. repeat split; [discriminate|exact V]. }
  destruct (S2 a) as (u & v & E2 & U & V). rewrite <- E, S1 in E2. destruct u as [|w u]; [congruence|]. cbn [app] in E2. inversion E2 as [[E3 E4]]. destruct l as [|c l].
  - destruct u as [|u0 [|u1 u]]; cbn [app] in E4; inversion E4; try congruence. 
  - assert (I2 : In [] (c :: l)) by (rewrite E4; apply in_app_iff; right; left; reflexivity). rewrite Forall_forall in F. destruct (F _ I2) as [N _]. congruence.
Qed.
Theorem absolute_stable : forall p, isabs p = true -> no_double p -> no_double (normpath p) /\ normpath (normpath p) = normpath p.
Proof.
  intros p A N. destruct (absolute_exact p [] A N) as [F E]. assert (N2 : no_double (normpath p)) by (rewrite E; apply join_no_double, Forall_rev; exact F). split; [exact N2|].
  apply (absolute_same (normpath p) p []); [rewrite E; reflexivity|exact A|exact N2|exact N|]. rewrite E. set (l := rev (place [] p)) in *. assert (G : Forall name l) by (apply Forall_rev; exact F). assert (Q : place [] p = rev l) by (unfold l; rewrite rev_involutive; reflexivity). rewrite Q. unfold place.
  assert (S1 : resolve [] (split_on 47 (47 :: join_on 47 l)) = resolve [] l). { cbn [split_on]. change (47 =? 47) with true. cbv iota. cbn [resolve str_eqb orb]. destruct l as [|c r] eqn:El; [reflexivity|]. rewrite split_join; [reflexivity|discriminate|]. eapply Forall_impl; [|exact G]. intros c0 (_ & _ & _ & X). exact X. }
  rewrite S1. assert (R : forall l x, Forall name l -> resolve x l = rev l ++ x).
  { clear. induction l as [|c l IH]; intros x G; [reflexivity|]. inversion G as [|? ? (N1 & N2 & N3 & _) G2]; subst. cbn [resolve]. rewrite (eqb_not c [] N1), (eqb_not c _ N2), (eqb_not c _ N3). cbn [orb rev]. rewrite IH by exact G2. rewrite <- app_assoc. reflexivity. }
  rewrite R by exact G. apply app_nil_r.
Qed.
Lemma walk_up : forall n m r, walk false (repeat pardir m) (repeat pardir n ++ r) = walk false (repeat pardir (n + m)) r.
Proof.
  induction n as [|n IH]; intros m r; [reflexivity|]. cbn [repeat app walk]. change (str_eqb pardir [] || str_eqb pardir (lit ".")) with false. change (str_eqb pardir (lit "..")) with true. cbv iota. destruct m as [|m]; cbn [repeat].
  - change [pardir] with (repeat pardir 1). rewrite IH. f_equal. f_equal. lia.
  - change (str_eqb pardir (lit "..")) with true. cbv iota. change (pardir :: pardir :: repeat pardir m) with (repeat pardir (S (S m))). rewrite IH. f_equal. f_equal. lia.
Qed.
Lemma walk_down : forall l st, Forall name l -> walk false st l = rev l ++ st.
Proof.
  induction l as [|c l IH]; intros st G; [reflexivity|]. inversion G as [|? ? (N1 & N2 & N3 & _) G2]; subst. cbn [walk]. rewrite (eqb_not c [] N1), (eqb_not c _ N2), (eqb_not c _ N3). cbn [orb rev]. rewrite IH by exact G2. rewrite <- app_assoc. reflexivity.
Qed.
Lemma rev_repeat : forall n (x : str), rev (repeat x n) = repeat x n.
Proof. induction n as [|n IH]; intros x; [reflexivity|]. cbn [repeat rev]. rewrite IH. apply repeat_end. Qed.
Theorem relative_stable : forall p, isabs p = false -> isabs (normpath p) = false /\ normpath (normpath p) = normpath p.
Proof.
  intros p A. destruct (relative_exact p A) as (n & l & F & E & _). set (cs := repeat (lit "..") n ++ l) in *. rewrite E. destruct cs as [|c r] eqn:Q; [split; reflexivity|]. assert (B : Forall (fun c => ~ In 47 c) (c :: r)).
  { rewrite <- Q. unfold cs. apply Forall_app. split; [apply Forall_forall; intros w Hc; apply repeat_spec in Hc; subst w; cbn; intuition discriminate|]. eapply Forall_impl; [|exact F]. intros w (_ & _ & _ & X). exact X. }
  assert (H : exists x t, c = x :: t /\ x <> 47).
  { unfold cs in Q. destruct n as [|n]; cbn [repeat app] in Q; [|inversion Q; exists 46, [46]; split; [reflexivity|discriminate]]. subst l. inversion F as [|? ? (N1 & _ & _ & N2) _]; subst. destruct c as [|x t]; [congruence|]. exists x, t. split; [reflexivity|]. intros ->. apply N2. left. reflexivity. }
  assert (P : isabs (join_on 47 (c :: r)) = false). { destruct H as (x & t & -> & N). destruct r; apply Z.eqb_neq; exact N. }
  split; [exact P|]. rewrite (norm_exact _ (or_introl P)). destruct (isabs_cases (join_on 47 (c :: r))) as [[u X]|[_ M]]; [rewrite X in P; discriminate|].
  assert (T : tidy (join_on 47 (c :: r)) = match rev (walk false [] (split_on 47 (join_on 47 (c :: r)))) with [] => lit "." | l => join_on 47 l end) by (unfold tidy; destruct (join_on 47 (c :: r)) as [|x q]; [reflexivity|]; apply M).
  rewrite T. rewrite split_join by (discriminate || exact B). rewrite <- Q. unfold cs. change (lit "..") with pardir. change (@nil str) with (repeat pardir 0) at 1. rewrite walk_up, Nat.add_0_r, walk_down by exact F. rewrite rev_app_distr, rev_repeat, rev_involutive. change (repeat pardir n ++ l) with cs. rewrite Q. reflexivity.
Qed.

(** ** What is not so *)
(** two slashes at the start stop it, so that the path is not normalised, and one is made into it *)
Theorem double_refuted : normpath (lit "/.//b") = lit "//b" /\ place [] (lit "/.//b") = [lit "b"] /\ normpath (lit "//a/../b") = lit "//a/../b" /\ place [] (lit "//a/../b") = [lit "b"].
Proof. repeat split; vm_compute; reflexivity. Qed.

(** ** Examples *)
Example ex_norm : normpath (lit "/a/./b/../c/") = lit "/a/c" /\ isabs (lit "/a/./b/../c/") = true /\ normpath (lit "/../..") = lit "/" /\ normpath (lit "a/../../b/..") = lit ".." /\ normpath (lit "a//b/./..") = lit "a" /\ normpath (lit "./x") = lit "x" /\ normpath (lit "a/..") = lit "." /\ place [lit "c"; lit "d"] (lit "../x") = [lit "x"; lit "d"] /\ isabs (lit "../x") = false.
Proof. repeat split; vm_compute; reflexivity. Qed.
Example ex_no_double : no_double (lit "/a/../b").
Proof. intros a b E. do 8 (destruct a as [|? a]; [cbn in E; try discriminate|cbn in E; try (inversion E; fail)]). all: try (injection E; intros; discriminate). Qed.
Print Assumptions norm_exact.
Print Assumptions absolute_exact.
Print Assumptions absolute_same.
Print Assumptions relative_exact.
Print Assumptions absolute_stable.
Print Assumptions double_refuted.
Print Assumptions relative_stable.
