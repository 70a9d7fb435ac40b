(** Property C140: joining and splitting paths. *)
From Coq Require Import Lia String.
From Verif Require Import Py Num UriModel UriRel UriServer VfModel VfSpec VfProps VjModel.
Open Scope Z_scope.

(** ** what a joined path leads to *)
Lemma split_two : forall x y, split_on 47 (x ++ 47 :: y) = split_on 47 x ++ split_on 47 y.
Proof.
  induction x as [|a x IH]; intros y; [reflexivity|]. cbn [app split_on]. rewrite IH. destruct (a =? 47); [reflexivity|]. destruct (split_on 47 x) as [|w l] eqn:E; [|reflexivity]. exfalso. destruct x as [|b x]; [discriminate|]. cbn [split_on] in E. destruct (b =? 47); [discriminate|]. destruct (split_on 47 x); discriminate.
Qed.
Lemma place_bar : forall cwd x y, place cwd (x ++ 47 :: y) = resolve (place cwd (x ++ [47])) (split_on 47 y).
Proof.
  intros cwd x y. unfold place. rewrite !split_two, !resolve_app. assert (B : match x ++ 47 :: y with 47 :: _ => @nil str | _ => cwd end = match x ++ [47] with 47 :: _ => [] | _ => cwd end) by (destruct x; reflexivity).
  rewrite B. reflexivity.
Qed.
Lemma place_end : forall cwd x, x <> [] -> place cwd (x ++ [47]) = place cwd x.
Proof.
  intros cwd x N. unfold place. rewrite split_two, resolve_app. destruct x as [|a x]; [congruence|]. reflexivity.
Qed.
Lemma place_rel : forall cwd c, isabs c = false -> place cwd c = resolve cwd (split_on 47 c).
Proof. intros cwd c A. unfold place. destruct (isabs_cases c) as [[r ->]|[_ M]]; [discriminate|]. rewrite M. reflexivity. Qed.
Lemma place_abs : forall a b c, isabs c = true -> place a c = place b c.
Proof. intros a b c A. destruct (isabs_cases c) as [[r ->]|[B _]]; [reflexivity|congruence]. Qed.
Lemma ends_is : forall p, ends_bar p = true -> exists q, p = q ++ [47].
Proof.
  intros p H. unfold ends_bar in H. destruct (rev p) as [|c r] eqn:E; [discriminate|]. apply Z.eqb_eq in H. subst c. exists (rev r). apply (f_equal (@rev Z)) in E. rewrite rev_involutive in E. exact E.
Qed.
Lemma loop_place : forall cs cwd np (sep : bool), (if sep then np <> [] else np = [] \/ ends_bar np = true) -> place cwd (join_loop cs np sep) = fold_left place cs (place cwd np).
Proof.
  induction cs as [|c cs IH]; intros cwd np sep H; [reflexivity|]. cbn [join_loop fold_left]. destruct c as [|x c].
  - change (place (place cwd np) []) with (place cwd np). destruct sep; [|apply IH; exact H]. rewrite IH; [rewrite place_end by exact H; reflexivity|]. right. unfold ends_bar. rewrite rev_app_distr. reflexivity.
  - set (w := x :: c) in *. assert (J : forall z, if negb (ends_bar w) then z ++ w <> [] else z ++ w = [] \/ ends_bar (z ++ w) = true).
    { intros z. destruct (ends_bar w) eqn:E; cbn [negb]; [right|destruct z; discriminate]. destruct (ends_is w E) as [q ->]. unfold ends_bar. rewrite app_assoc, rev_app_distr. reflexivity. }
    destruct (isabs w) eqn:A.
    + rewrite IH by (apply (J [])). rewrite (place_abs cwd (place cwd np) w A). reflexivity.
    + rewrite IH by apply J. f_equal. rewrite (place_rel (place cwd np) w A). destruct sep.
      * rewrite <- app_assoc. cbn [app]. rewrite place_bar. rewrite place_end by exact H. reflexivity.
      * destruct H as [->|H]; [cbn [app]; apply place_rel; exact A|]. destruct (ends_is np H) as [q ->]. rewrite <- app_assoc. cbn [app]. apply place_bar.
Qed.
(** a joined path leads to where one gets by following each of the paths from where the one before leads *)
Theorem join_place : forall cwd p cs, place cwd (join p cs) = fold_left place cs (place cwd p).
Proof.
  intros cwd p cs. unfold join. destruct p as [|x p]; [apply loop_place; auto|]. apply loop_place. destruct (ends_bar (x :: p)) eqn:E; cbn [negb]; [auto|discriminate].
Qed.
(** what is before an absolute path is left out *)
Lemma loop_absolute : forall a c b np sep, isabs c = true -> join_loop (a ++ c :: b) np sep = join_loop b c (negb (ends_bar c)).
Proof.
  induction a as [|d a IH]; intros c b np sep A; cbn [app join_loop].
  - destruct c as [|x c]; [discriminate|]. rewrite A. reflexivity.
  - destruct d as [|x d]; [destruct sep; apply IH; exact A|]. destruct (isabs (x :: d)); apply IH; exact A.
Qed.
Theorem join_absolute : forall p a c b, isabs c = true -> join p (a ++ c :: b) = join c b.
Proof.
  intros p a c b A. unfold join at 1. assert (X : join c b = join_loop b c (negb (ends_bar c))) by (destruct c; [discriminate|reflexivity]). rewrite X. destruct p; apply loop_absolute; exact A.
Qed.

(** ** the absolute path is that of what the path leads to from the working directory *)
Lemma double_app : forall x y, no_double x -> no_double y -> (forall q r, x = q ++ [47] -> y <> 47 :: r) -> no_double (x ++ y).
Proof.
  induction x as [|c x IH]; intros y Nx Ny H; [exact Ny|]. intros a b E. destruct a as [|d a]; cbn [app] in E; inversion E as [[E1 E2]]; subst.
  - destruct x as [|d x]; cbn [app] in E2.
    + exact (H [] b eq_refl E2).
    + inversion E2; subst. apply (Nx [] x). reflexivity.
  - assert (Q : no_double (x ++ y)); [apply IH; [|exact Ny|]|exact (Q a b E2)].
    + intros u v ->. apply (Nx (d :: u) v). reflexivity.
    + intros q r ->. apply (H (d :: q) r). reflexivity.
Qed.
Lemma bar_ends : forall q, ends_bar (q ++ [47]) = true.
Proof. intros q. unfold ends_bar. rewrite rev_app_distr. reflexivity. Qed.
Lemma join_one : forall cwd p, isabs cwd = true -> no_double cwd -> no_double p -> isabs (join cwd [p]) = true /\ no_double (join cwd [p]).
Proof.
  intros cwd p A Nc Np. assert (B : no_double [47]) by (intros [|u [|v a]] b E; cbn [app] in E; inversion E).
  destruct cwd as [|x c]; [discriminate|]. unfold join. set (w := x :: c) in *. destruct (isabs_cases w) as [[r Q]|[X _]]; [|congruence]. cbn [join_loop]. destruct p as [|y p].
  - destruct (ends_bar w) eqn:E; cbn [negb]; [auto|]. split; [rewrite Q; reflexivity|]. apply double_app; [exact Nc|exact B|]. intros q r0 E2. rewrite E2, bar_ends in E. discriminate.
  - set (v := y :: p) in *. destruct (isabs v) eqn:Av; [auto|]. assert (V : forall r0, v <> 47 :: r0) by (intros r0 E2; rewrite E2 in Av; discriminate). destruct (ends_bar w) eqn:E; cbn [negb]; (split; [rewrite Q; reflexivity|]).
    + apply double_app; [exact Nc|exact Np|]. intros q r0 _. apply V.
    + apply double_app; [|exact Np|intros q r0 _; apply V]. apply double_app; [exact Nc|exact B|]. intros q r0 E2. rewrite E2, bar_ends in E. discriminate.
Qed.
Theorem abspath_exact : forall cwd p, isabs cwd = true -> no_double cwd -> no_double p ->
  Forall name (place (place [] cwd) p) /\ abspath cwd p = 47 :: join_on 47 (rev (place (place [] cwd) p)) /\ realpath cwd p = abspath cwd p.
Proof.
  intros cwd p A Nc Np. destruct (join_one cwd p A Nc Np) as [J1 J2]. destruct (absolute_exact (join cwd [p]) [] J1 J2) as [F E]. rewrite (join_place [] cwd [p]) in F, E. cbn [fold_left] in F, E. split; [exact F|]. split; [exact E|].
  unfold realpath, abspath. destruct (isabs p) eqn:B; [|reflexivity]. pose proof (join_absolute cwd [] p [] B) as X. cbn [app] in X. rewrite X. destruct p; [discriminate|reflexivity].
Qed.

(** ** splitting *)
Theorem split_exact : forall p head tail, split p = (head, tail) <->
  (~ In 47 p /\ head = [] /\ tail = p) \/ (exists h, p = h ++ 47 :: tail /\ ~ In 47 tail /\ head = match h with [] => lit "/" | _ => h end).
Proof.
  intros p head tail. unfold split. destruct (rfind_spec 47 p) as [(E & N)|(a & b & -> & N & E)]; rewrite E.
  - change (0 <=? -1) with false. cbv iota. split; [intros X; inversion X; subst; left; auto|intros [(_ & -> & ->)|(h & Q & _)]; [reflexivity|]]. exfalso. apply N. rewrite Q. apply in_app_iff. right. left. reflexivity.
  - assert (L : (0 <=? Z.of_nat (List.length a)) = true) by (apply Z.leb_le; lia). rewrite L. rewrite zslice_head. assert (T : zslice (Z.of_nat (List.length a) + 1) (zlen (a ++ 47 :: b)) (a ++ 47 :: b) = b).
    { replace (a ++ 47 :: b) with ((a ++ [47]) ++ b ++ []) by (rewrite app_nil_r, <- app_assoc; reflexivity). apply zslice_mid; [|unfold zlen]; rewrite ?app_length; cbn [List.length]; lia. }
    rewrite T. split.
    + intros X. inversion X; subst. right. exists a. split; [reflexivity|split; [exact N|]]. destruct a; reflexivity.
    + intros [(H & _)|(h & H1 & H2 & ->)]; [exfalso; apply H; apply in_app_iff; right; left; reflexivity|].
      assert (Q : forall a h, ~ In 47 b -> ~ In 47 tail -> a ++ 47 :: b = h ++ 47 :: tail -> a = h /\ b = tail).
      { clear. induction a as [|x a IH]; intros [|y h] N M E; cbn [app] in E; inversion E; subst; auto; [exfalso; apply N; apply in_app_iff; right; left; reflexivity|exfalso; apply M; apply in_app_iff; right; left; reflexivity|]. destruct (IH h N M) as [-> ->]; [assumption|auto]. }
      destruct (Q a h N H2 H1) as [-> ->]. destruct h; reflexivity.
Qed.
Theorem split_place : forall cwd p head tail, split p = (head, tail) -> place (place cwd head) tail = place cwd p.
Proof.
  intros cwd p head tail E. apply split_exact in E as [(_ & -> & ->)|(h & -> & N & ->)]; [reflexivity|].
  assert (A : isabs tail = false). { destruct tail as [|x t]; [reflexivity|]. apply Z.eqb_neq. intros ->. apply N. left. reflexivity. }
  rewrite place_bar, (place_rel _ tail A). f_equal. destruct h as [|x h]; [reflexivity|]. symmetry. apply place_end. discriminate.
Qed.
(** the two are joined to the path *)
Theorem split_join_back : forall p head tail, no_double p -> split p = (head, tail) -> join head [tail] = p.
Proof.
  intros p head tail D E. apply split_exact in E as [(N & -> & ->)|(h & -> & N & ->)].
  - unfold join. cbn [join_loop]. destruct p as [|x p]; [reflexivity|]. assert (A : isabs (x :: p) = false) by (apply Z.eqb_neq; intros ->; apply N; left; reflexivity). rewrite A. reflexivity.
  - assert (A : isabs tail = false). { destruct tail as [|x t]; [reflexivity|]. apply Z.eqb_neq. intros ->. apply N. left. reflexivity. }
    destruct h as [|x h].
    + unfold join. cbn [join_loop]. change (lit "/") with [47]. cbv iota. destruct tail as [|y t]; [reflexivity|]. rewrite A. reflexivity.
    + assert (B : ends_bar (x :: h) = false). { destruct (ends_bar (x :: h)) eqn:B; [|reflexivity]. exfalso. destruct (ends_is _ B) as [q Q]. apply (D q tail). rewrite Q, <- app_assoc. reflexivity. }
      unfold join. rewrite B. cbn [negb join_loop]. destruct tail as [|y t]; [reflexivity|]. rewrite A. rewrite <- app_assoc. reflexivity.
Qed.
(** ** the extension is all from the last dot, if the path does not end with a slash or a slash and a dot *)
Definition directory_like (p : str) : Prop := (exists q, p = q ++ lit "/") \/ exists q, p = q ++ lit "/.".
Lemma dirlike_is : forall p, is_dirlike p = true <-> directory_like p.
Proof.
  intros p. unfold is_dirlike. rewrite orb_true_iff. split.
  - intros [H|H]; [left; apply ends_is; exact H|right]. destruct (rev p) as [|a [|b r]] eqn:E; try discriminate.
    + exfalso. destruct a as [|y|y]; try discriminate. repeat (destruct y as [y|y|]; try discriminate).
    + assert (Q : a = 46 /\ b = 47). { destruct (Z.eq_dec a 46) as [->|N]; [|exfalso; destruct a as [|y|y]; try discriminate; repeat (destruct y as [y|y|]; try discriminate; try congruence)]. destruct (Z.eq_dec b 47) as [->|N]; [auto|exfalso; destruct b as [|y|y]; try discriminate; repeat (destruct y as [y|y|]; try discriminate; try congruence)]. }
      destruct Q as [-> ->]. exists (rev r). apply (f_equal (@rev Z)) in E. rewrite rev_involutive in E. rewrite E. cbn [rev]. rewrite <- app_assoc. reflexivity.
  - intros [[q ->]|[q ->]]; [left; unfold ends_bar|right]; rewrite rev_app_distr; reflexivity.
Qed.
Theorem splitext_exact : forall p, let (root, ext) := splitext p in p = root ++ ext /\ (ext = [] <-> directory_like p \/ ~ In 46 p) /\ (ext <> [] -> exists e, ext = lit "." ++ e /\ ~ In 46 e).
Proof.
  intros p. unfold splitext. destruct (is_dirlike p) eqn:D.
  - apply dirlike_is in D. rewrite app_nil_r. split; [reflexivity|split; [split; auto|congruence]].
  - assert (N0 : ~ directory_like p) by (intros X; apply dirlike_is in X; congruence). destruct (rfind_spec 46 p) as [(E & N)|(a & b & -> & N & E)]; rewrite E.
    + change (0 <=? -1) with false. cbv iota. rewrite app_nil_r. split; [reflexivity|split; [split; auto|congruence]].
    + assert (L : (0 <=? Z.of_nat (List.length a)) = true) by (apply Z.leb_le; lia). rewrite L. rewrite zslice_head. assert (T : zslice (Z.of_nat (List.length a)) (zlen (a ++ 46 :: b)) (a ++ 46 :: b) = 46 :: b).
      { replace (a ++ 46 :: b) with (a ++ (46 :: b) ++ []) by (rewrite app_nil_r; reflexivity). apply zslice_mid; [|unfold zlen]; rewrite ?app_length; cbn [List.length]; lia. }
      rewrite T. split; [reflexivity|split]; [split; [discriminate|]|intros _; exists b; auto]. intros [X|X]; [contradiction|]. exfalso. apply X. apply in_app_iff. right. left. reflexivity.
Qed.

(** ** What is not so *)
(** the extension can be that of a directory, with the name of the file in it, and a hidden file is all extension *)
Theorem ext_refuted : splitext (lit "/v1.2/readme") = (lit "/v1", lit ".2/readme") /\ splitext (lit ".profile") = ([], lit ".profile") /\ splitext (lit "/home/..") = (lit "/home/.", lit ".").
Proof. repeat split; vm_compute; reflexivity. Qed.
(** with two slashes together the path is not what its parts are joined to *)
Theorem split_join_refuted : exists h t, split (lit "a//b") = (h, t) /\ join h [t] = lit "a/b".
Proof. exists (lit "a/"), (lit "b"). split; vm_compute; reflexivity. Qed.

(** ** Examples *)
Example ex_abspath : isabs (lit "/home/me") = true /\ abspath (lit "/home/me") (lit "../you/./x") = lit "/home/you/x" /\ place (place [] (lit "/home/me")) (lit "../you/./x") = [lit "x"; lit "you"; lit "home"] /\ realpath (lit "/home/me") (lit "/a/..") = lit "/".
Proof. repeat split; vm_compute; reflexivity. Qed.
Example ex_join : join (lit "/a") [lit "b"; lit ""; lit "c"] = lit "/a/b/c" /\ join (lit "a") [lit "/b"; lit "c/"; lit "../d"] = lit "/b/c/../d" /\ join (lit "a") [lit ""] = lit "a/" /\ isabs (lit "/b") = true /\
  place [lit "x"] (join (lit "a") [lit "../b"; lit "c"]) = [lit "c"; lit "b"; lit "x"].
Proof. repeat split; vm_compute; reflexivity. Qed.
Example ex_split : split (lit "/a/b.txt") = (lit "/a", lit "b.txt") /\ split (lit "/a") = (lit "/", lit "a") /\ split (lit "a/") = (lit "a", []) /\ splitext (lit "/a/b.tar.gz") = (lit "/a/b.tar", lit ".gz") /\ splitext (lit "a.b/") = (lit "a.b/", []).
Proof. repeat split; vm_compute; reflexivity. Qed.
Print Assumptions join_place.
Print Assumptions join_absolute.
Print Assumptions split_exact.
Print Assumptions split_place.
Print Assumptions split_join_back.
Print Assumptions splitext_exact.
Print Assumptions ext_refuted.
Print Assumptions split_join_refuted.
Print Assumptions abspath_exact.
