(** The cookie store refines the jar. *)
From Coq Require Import Permutation Sorted.
From Verif Require Import Py UriModel UriRel Dict CookieModel CookieSpec.

(** ** trees *)
Fixpoint find (n : node) (d : domain) : option node :=
  match d with [] => Some n | x :: r => match child n x with Some c => find c r | None => None end end.
Definition cookies_at (n : node) (d : domain) : cookies := match find n d with Some m => n_cookies m | None => [] end.

Lemma find_cons : forall n x r, find n (x :: r) = match child n x with Some c => find c r | None => None end.
Proof. reflexivity. Qed.
Lemma at_nil : forall n, cookies_at n [] = n_cookies n.
Proof. reflexivity. Qed.
Lemma at_cons : forall n x r, cookies_at n (x :: r) = match child n x with Some c => cookies_at c r | None => [] end.
Proof. intros. unfold cookies_at. cbn. destruct (child n x); reflexivity. Qed.
Lemma child_set_eq : forall n d c, child (set_child n d c) d = Some c.
Proof. intros [p v z l ck] d c. unfold child, set_child. cbn. apply dget_dset_eq. apply str_eqb_eq. Qed.
Lemma child_set_ne : forall n d c x, x <> d -> child (set_child n d c) x = child n x.
Proof. intros [p v z l ck] d c x N. unfold child, set_child. cbn. apply dget_dset_ne; [apply str_eqb_eq|exact N]. Qed.
Lemma cookies_set_child : forall n d c, n_cookies (set_child n d c) = n_cookies n.
Proof. intros [p v z l ck] d c. reflexivity. Qed.
Lemma at_set_child : forall n d c p, cookies_at (set_child n d c) p =
  match p with [] => n_cookies n | x :: r => if str_eqb x d then cookies_at c r else cookies_at n p end.
Proof.
  intros n d c [|x r]; [rewrite at_nil; apply cookies_set_child|]. rewrite at_cons. destruct (str_eqb x d) eqn:E.
  - apply str_eqb_eq in E. subst x. rewrite child_set_eq. reflexivity.
  - apply str_eqb_neq in E. rewrite child_set_ne by exact E. rewrite at_cons. reflexivity.
Qed.
Lemma dget_map : forall (f : node -> node) (l : list (str * node)) x, dget str_eqb x (map (fun y => (fst y, f (snd y))) l) = option_map f (dget str_eqb x l).
Proof. intros f l x. induction l as [|[k c] l IH]; [reflexivity|]. cbn. destruct (str_eqb x k); [reflexivity|exact IH]. Qed.
Lemma map_pair : forall (f : node -> node) (l : list (str * node)), map (fun x => match x with (k, c) => (k, f c) end) l = map (fun y => (fst y, f (snd y))) l.
Proof. intros f l. apply map_ext. intros [k c]. reflexivity. Qed.
Lemma child_copy : forall n x, child (copy_node n) x = option_map copy_node (child n x).
Proof. intros [p v z l ck] x. unfold child. cbn [copy_node n_nodes]. rewrite map_pair. apply dget_map. Qed.
Lemma at_copy : forall p n, cookies_at (copy_node n) p = [].
Proof.
  induction p as [|x r IH]; intros n; [destruct n; reflexivity|]. rewrite at_cons, child_copy. destruct (child n x); [apply IH|reflexivity].
Qed.
Lemma at_expand : forall n d p, cookies_at (expand_node n d) p = [].
Proof.
  assert (F : forall a b z p, cookies_at (Node a b z [] []) p = []) by (intros a b z [|x r]; reflexivity).
  intros n d p. unfold expand_node. destruct (negb (str_eqb d STAR)); [destruct (child n STAR); [apply at_copy|]|]; destruct (negb (n_depth n =? 0)); apply F.
Qed.
Lemma at_child : forall n d p, cookies_at (match child n d with Some c => c | None => expand_node n d end) p = cookies_at n (d :: p).
Proof. intros n d p. rewrite at_cons. destruct (child n d); [reflexivity|apply at_expand]. Qed.

Lemma at_at_node : forall A (f : node -> node * A) d n p, (forall x, n_nodes (fst (f x)) = n_nodes x) ->
  cookies_at (fst (at_node f n d)) p = if dom_dec p d then n_cookies (fst (f (node_at n d))) else cookies_at n p.
Proof.
  intros A f d. induction d as [|x d IH]; intros n p Hf.
  - cbn [at_node node_at]. destruct (dom_dec p []) as [->|N]; [reflexivity|]. destruct p as [|y p]; [congruence|]. rewrite !at_cons. unfold child. rewrite Hf. reflexivity.
  - cbn [at_node node_at]. set (m := match child n x with Some c => c | None => expand_node n x end).
    destruct (at_node f m d) as [m' a] eqn:E. cbn [fst]. rewrite at_set_child. destruct p as [|y p]; [destruct (dom_dec [] (x :: d)); [discriminate|reflexivity]|].
    destruct (str_eqb y x) eqn:X.
    + apply str_eqb_eq in X. subst y. specialize (IH m p Hf). rewrite E in IH. cbn [fst] in IH. rewrite IH. unfold m at 2. rewrite at_child.
      destruct (dom_dec p d) as [Q1|N]; destruct (dom_dec (x :: p) (x :: d)) as [Q|Q]; try reflexivity; congruence.
    + apply str_eqb_neq in X. destruct (dom_dec (y :: p) (x :: d)); [congruence|reflexivity].
Qed.
Lemma at_node_snd : forall A (f : node -> node * A) d n, snd (at_node f n d) = snd (f (node_at n d)).
Proof.
  intros A f d. induction d as [|x d IH]; intros n; [reflexivity|]. cbn [at_node node_at]. rewrite <- IH. destruct (at_node f _ d). reflexivity.
Qed.
Lemma cookies_at_node_at : forall d n, n_cookies (node_at n d) = cookies_at n d.
Proof.
  induction d as [|x d IH]; intros n; [reflexivity|]. cbn [node_at]. rewrite IH. apply at_child.
Qed.
Lemma at_clean : forall f p n, cookies_at (clean f n) p = remove_cookies f (cookies_at n p).
Proof.
  intros f p. induction p as [|x r IH]; intros n; [destruct n; reflexivity|]. rewrite !at_cons.
  assert (E : child (clean f n) x = option_map (clean f) (child n x)) by (destruct n as [q v z l ck]; unfold child; cbn [clean n_nodes]; rewrite map_pair; apply dget_map).
  rewrite E. destruct (child n x); [apply IH|reflexivity].
Qed.
Lemma at_map_children : forall f n p, (forall m, n_cookies (f m) = n_cookies m) -> (forall m, n_nodes (f m) = n_nodes m) ->
  cookies_at (map_children f n) p = cookies_at n p.
Proof.
  intros f [q v z l ck] p H1 H2. destruct p as [|x r]; [reflexivity|]. rewrite !at_cons. unfold child, map_children. cbn [n_nodes set_nodes]. rewrite dget_map.
  destruct (dget str_eqb x l) as [m|]; cbn [option_map]; [|reflexivity]. destruct r as [|y r]; [apply H1|]. rewrite !at_cons. unfold child. rewrite H2. reflexivity.
Qed.
Lemma at_flags : forall n m p, n_cookies m = n_cookies n -> n_nodes m = n_nodes n -> cookies_at m p = cookies_at n p.
Proof. intros n m [|x r] H1 H2; [exact H1|]. rewrite !at_cons. unfold child. rewrite H2. reflexivity. Qed.
Lemma pub_cookies : forall m, n_cookies (make_public m) = n_cookies m.
Proof. intros [p v z l ck]. unfold make_public. cbn. destruct v; reflexivity. Qed.
Lemma pub_nodes : forall m, n_nodes (make_public m) = n_nodes m.
Proof. intros [p v z l ck]. unfold make_public. cbn. destruct v; reflexivity. Qed.
Lemma priv_cookies : forall m, n_cookies (make_private m) = n_cookies m.
Proof. intros [p v z l ck]. reflexivity. Qed.
Lemma priv_nodes : forall m, n_nodes (make_private m) = n_nodes m.
Proof. intros [p v z l ck]. reflexivity. Qed.

Lemma at_same_child : forall n d c p, (forall q, cookies_at c q = cookies_at n (d :: q)) -> cookies_at (set_child n d c) p = cookies_at n p.
Proof.
  intros n d c p H. rewrite at_set_child. destruct p as [|x r]; [reflexivity|]. destruct (str_eqb x d) eqn:E; [|reflexivity]. apply str_eqb_eq in E. subst. apply H.
Qed.
Lemma at_add_public : forall d n p, cookies_at (add_public n d) p = cookies_at n p.
Proof.
  induction d as [|x d IH]; intros n p; [reflexivity|]. cbn [add_public]. destruct (child n x) as [m|] eqn:E.
  - assert (H : forall q, cookies_at m q = cookies_at n (x :: q)) by (intros q; rewrite at_cons, E; reflexivity).
    assert (K : forall m', (forall q, cookies_at m' q = cookies_at m q) -> forall p, cookies_at (set_child n x m') p = cookies_at n p).
    { intros m' Hm p0. apply at_same_child. intros q. rewrite Hm. apply H. }
    destruct d as [|y d]; [|apply K; intros q; apply IH].
    assert (K2 : forall p, cookies_at (set_child n x (make_public m)) p = cookies_at n p) by (apply K; intros q; apply at_flags; [apply pub_cookies|apply pub_nodes]).
    destruct (str_eqb x STAR); [|apply K2]. rewrite at_map_children by (intros; apply pub_cookies || apply pub_nodes). apply K2.
  - assert (K : forall m', (forall q, cookies_at m' q = []) -> forall p, cookies_at (set_child n x m') p = cookies_at n p).
    { intros m' Hm p0. apply at_same_child. intros q. rewrite Hm, at_cons, E. reflexivity. }
    destruct (str_eqb x STAR) eqn:X.
    + destruct d as [|y d]; [|apply K; intros q; rewrite IH; apply at_expand]. rewrite at_map_children by (intros; apply pub_cookies || apply pub_nodes).
      destruct (n_depth n <? 1); [apply at_flags; destruct n; reflexivity|reflexivity].
    + apply K. intros q. rewrite IH. rewrite <- (at_expand n x q). apply at_flags; destruct (expand_node n x); reflexivity.
Qed.
Lemma at_add_private : forall d n p, cookies_at (add_private n d) p = cookies_at n p.
Proof.
  induction d as [|x d IH]; intros n p; [reflexivity|]. cbn [add_private]. destruct (child n x) as [m|] eqn:E.
  - assert (H : forall q, cookies_at m q = cookies_at n (x :: q)) by (intros q; rewrite at_cons, E; reflexivity).
    assert (K : forall m', (forall q, cookies_at m' q = cookies_at m q) -> forall p, cookies_at (set_child n x m') p = cookies_at n p).
    { intros m' Hm p0. apply at_same_child. intros q. rewrite Hm. apply H. }
    destruct d as [|y d]; [|apply K; intros q; apply IH].
    assert (K2 : forall p, cookies_at (set_child n x (make_private m)) p = cookies_at n p) by (apply K; intros q; apply at_flags; [apply priv_cookies|apply priv_nodes]).
    destruct (str_eqb x STAR); [|apply K2]. rewrite at_map_children by (intros; apply priv_cookies || apply priv_nodes). apply K2.
  - assert (K : forall m', (forall q, cookies_at m' q = []) -> forall p, cookies_at (set_child n x m') p = cookies_at n p).
    { intros m' Hm p0. apply at_same_child. intros q. rewrite Hm, at_cons, E. reflexivity. }
    destruct (str_eqb x STAR) eqn:X.
    + destruct d as [|y d]; [|apply K; intros q; rewrite IH; apply at_expand]. rewrite at_map_children by (intros; apply priv_cookies || apply priv_nodes).
      apply at_flags; destruct n; reflexivity.
    + apply K. intros q. destruct d as [|y d]; [|rewrite IH; apply at_expand]. rewrite <- (at_expand n x q). apply at_flags; destruct (expand_node n x); reflexivity.
Qed.
Lemma at_lines : forall puny lines s p, cookies_at (fst (public_lines puny s lines)) p = cookies_at s p.
Proof.
  intros puny lines. induction lines as [|line r IH]; intros s p; [reflexivity|]. cbn [public_lines]. destruct (match line with [] => true | _ => startswith line (lit "//") end); [apply IH|].
  destruct (first_word line) as [w|]; [|reflexivity]. rewrite IH.
  assert (A : cookies_at (fst (add_public_suffix puny s w)) p = cookies_at s p) by (unfold add_public_suffix; destruct (split_domain puny w true); [apply at_add_public|reflexivity]).
  assert (B : forall w', cookies_at (fst (add_private_suffix puny s w')) p = cookies_at s p) by (intros w'; unfold add_private_suffix; destruct (split_domain puny w' true); [apply at_add_private|reflexivity]).
  destruct w as [|b w']; [exact A|]. destruct b as [|q|q]; try exact A. do 6 (try destruct q as [q|q|]); try exact A; apply B.
Qed.
Lemma at_list : forall puny s l t p, cookies_at (fst (set_public_list puny s l t)) p = cookies_at s p.
Proof. intros puny s l t p. unfold set_public_list. rewrite at_lines. apply at_flags; destruct s; reflexivity. Qed.

(** ** dictionaries of cookies *)
Lemma ostr_eqb_eq : forall a b, ostr_eqb a b = true <-> a = b.
Proof. intros [a|] [b|]; cbn; try (split; congruence). rewrite str_eqb_eq. split; congruence. Qed.
Lemma key_eqb_eq : forall a b, key_eqb a b = true <-> a = b.
Proof. intros [a1 a2] [b1 b2]. unfold key_eqb. cbn. rewrite andb_true_iff, str_eqb_eq, ostr_eqb_eq. split; [intros [-> ->]; reflexivity|intros E; inversion E; auto]. Qed.
Definition okc (l : cookies) : Prop := NoDup (map fst l) /\ Forall (fun x => fst x = key_of (snd x) /\ exists c r, c_path (snd x) = Some (c :: r)) l.
Definition okt (n : node) : Prop := forall p, okc (cookies_at n p).
Lemma okc_nil : okc [].
Proof. split; constructor. Qed.
Lemma ddel_ok : forall k l, okc l -> okc (ddel key_eqb k l).
Proof.
  intros k l [H1 H2]. split; [apply ddel_nodup; exact H1|]. apply Forall_forall. intros x Hx. rewrite Forall_forall in H2. apply H2. eapply ddel_in, Hx.
Qed.
Lemma dset_in : forall (k : key) (v : cookie) l x, In x (dset key_eqb k v l) -> x = (k, v) \/ In x l.
Proof.
  intros k v l x. induction l as [|[k1 v1] l IH]; cbn; [intuition|]. destruct (key_eqb k k1) eqn:E; cbn.
  - apply key_eqb_eq in E. subst. intuition.
  - intuition.
Qed.
Lemma dset_ok : forall c l, okc l -> (exists x r, c_path c = Some (x :: r)) -> okc (dset key_eqb (key_of c) c l).
Proof.
  intros c l [H1 H2] Hp. split; [apply dset_nodup; [apply key_eqb_eq|exact H1]|]. apply Forall_forall. intros x Hx. apply dset_in in Hx as [->|Hx]; [split; [reflexivity|exact Hp]|]. rewrite Forall_forall in H2. auto.
Qed.
Lemma del_all_get : forall l cks k, okc cks -> okc (del_all l cks) /\ dget key_eqb k (del_all l cks) =
  if existsb (fun x => key_eqb k (key_of (snd x))) l then None else dget key_eqb k cks.
Proof.
  induction l as [|[k0 c] l IH]; intros cks k H; [split; [exact H|reflexivity]|]. cbn [del_all existsb snd]. destruct (IH _ k (ddel_ok (key_of c) cks H)) as [A B]. split; [exact A|]. rewrite B.
  destruct (existsb _ l); [rewrite orb_true_r; reflexivity|]. rewrite orb_false_r. destruct (key_eqb k (key_of c)) eqn:E.
  - apply key_eqb_eq in E. subst. apply dget_ddel_eq; [apply key_eqb_eq|apply H].
  - apply dget_ddel_ne; [apply key_eqb_eq|]. apply (eqb_neq key_eqb key_eqb_eq) in E. exact E.
Qed.
Lemma remove_get : forall f cks k, okc cks -> okc (remove_cookies f cks) /\ dget key_eqb k (remove_cookies f cks) = drop f (dget key_eqb k cks).
Proof.
  intros f cks k H. unfold remove_cookies. destruct (del_all_get (filter (fun x => f (snd x)) cks) cks k H) as [A B]. split; [exact A|]. rewrite B. clear A B.
  destruct (existsb _ (filter _ cks)) eqn:E.
  - apply existsb_exists in E as ([k0 c] & E1 & E2). apply filter_In in E1 as [E1 E3]. cbn [snd] in *. apply key_eqb_eq in E2. destruct H as [H1 H2]. rewrite Forall_forall in H2. pose proof (H2 _ E1) as [X _]. cbn in X. subst k0 k.
    rewrite (in_dget key_eqb key_eqb_eq _ _ _ H1 E1). cbn. rewrite E3. reflexivity.
  - destruct (dget key_eqb k cks) as [c|] eqn:G; [|reflexivity]. cbn. destruct (f c) eqn:F; [|reflexivity]. exfalso. apply (dget_in key_eqb key_eqb_eq) in G.
    assert (X : existsb (fun x => key_eqb k (key_of (snd x))) (filter (fun x => f (snd x)) cks) = true); [|congruence]. apply existsb_exists. exists (k, c). split; [apply filter_In; split; [exact G|exact F]|].
    cbn. destruct H as [_ H2]. rewrite Forall_forall in H2. destruct (H2 _ G) as [X _]. cbn in X. apply key_eqb_eq. exact X.
Qed.

(** ** set_cookie *)
Lemma store_nodes : forall now b c x, n_nodes (fst (store_cookie now b c x)) = n_nodes x.
Proof.
  intros now b c [p v z l ck]. unfold store_cookie. cbn [n_public n_cookies]. destruct (p && negb b); [reflexivity|]. reflexivity.
Qed.
(** the default path *)
Lemma split_zin : forall c s, zin c s = false -> split_on c s = [s].
Proof. intros c s H. apply split_no. apply zin_not_In. exact H. Qed.
Lemma split_cons : forall c x s, x <> c -> exists h t, split_on c s = h :: t /\ split_on c (x :: s) = (x :: h) :: t.
Proof.
  intros c x s N. pose proof (split_nonempty c s) as E. cbn [split_on]. destruct (split_on c s) as [|h t]; [congruence|]. exists h, t. split; [reflexivity|]. destruct (Z.eqb_spec x c); [congruence|reflexivity].
Qed.
Lemma split_sep : forall c s, split_on c (c :: s) = [] :: split_on c s.
Proof. intros c s. exact (split_app c [] s (fun X => X)). Qed.
Lemma removelast_cons2 : forall A (a : A) l, l <> [] -> removelast (a :: l) = a :: removelast l.
Proof. intros A a [|b l] H; [congruence|reflexivity]. Qed.
Lemma split_len : forall c s, zin c s = true -> (2 <= length (split_on c s))%nat.
Proof.
  intros c s. induction s as [|x s IH]; [discriminate|]. intros H. destruct (Z.eq_dec x c) as [->|N].
  - rewrite split_sep. cbn. pose proof (split_nonempty c s). destruct (split_on c s); [congruence|cbn; lia].
  - destruct (split_cons c x s N) as (h & t & E1 & E2). rewrite E2. assert (Z : zin c s = true) by (unfold zin in H |- *; cbn in H; destruct (Z.eqb_spec c x); [congruence|exact H]). specialize (IH Z). rewrite E1 in IH. exact IH.
Qed.
Lemma join_cons_head : forall c (x : Z) h t, join_on c ((x :: h) :: t) = x :: join_on c (h :: t).
Proof. intros c x h [|y t]; reflexivity. Qed.
Lemma upto_join : forall s, zin 47 s = true -> join_on 47 (removelast (split_on 47 s)) = upto_last_slash s.
Proof.
  induction s as [|x s IH]; [discriminate|]. intros H. cbn [upto_last_slash]. destruct (zin 47 s) eqn:Z.
  - specialize (IH eq_refl). pose proof (split_len 47 s Z) as L. destruct (Z.eq_dec x 47) as [->|N].
    + rewrite split_sep. rewrite removelast_cons2 by (destruct (split_on 47 s); [cbn in L; lia|discriminate]). rewrite <- IH.
      destruct (split_on 47 s) as [|a [|b l]]; cbn in L; try lia. rewrite removelast_cons2 by discriminate. reflexivity.
    + destruct (split_cons 47 x s N) as (h & t & E1 & E2). rewrite E2. rewrite E1 in L, IH. destruct t as [|b t]; [cbn in L; lia|].
      rewrite removelast_cons2 by discriminate. rewrite removelast_cons2 in IH by discriminate. rewrite join_cons_head. f_equal. exact IH.
  - assert (x = 47) by (apply zin_In in H as [H|H]; [auto|apply zin_In in H; congruence]). subst x. rewrite split_sep, split_zin by exact Z. reflexivity.
Qed.
Lemma default_directory : forall u, default_path u = directory u.
Proof.
  intros [k h [p|]]; [|reflexivity]. unfold default_path, directory. cbn [u_path]. destruct p as [|c p]; [reflexivity|].
  destruct (Z.eq_dec c 47) as [->|N].
  - rewrite split_sep. cbn [length]. destruct (zin 47 p) eqn:Z.
    + pose proof (split_len 47 p Z) as L. destruct ((2 <? S (length (split_on 47 p)))%nat) eqn:E; b2p; [|lia]. rewrite <- split_sep. apply upto_join. unfold zin. cbn. reflexivity.
    + rewrite split_zin by exact Z. reflexivity.
  - destruct c as [|q|q]; try reflexivity. do 6 (try destruct q as [q|q|]); try reflexivity. congruence.
Qed.
Lemma directory_some : forall u, exists c r, directory u = c :: r.
Proof.
  intros [k h [p|]]; unfold directory; cbn [u_path]; [|exists 47, []; reflexivity]. destruct p as [|c p]; [exists 47, []; reflexivity|].
  destruct c as [|q|q]; try (exists 47, []; reflexivity). do 6 (try destruct q as [q|q|]); try (exists 47, []; reflexivity).
  destruct (zin 47 p) eqn:E; [|exists 47, []; reflexivity]. cbn [upto_last_slash]. rewrite E. eauto.
Qed.

Lemma did_spec : forall a b, domain_in_domain a b = true <-> in_domain b a.
Proof.
  induction a as [|x a IH]; intros b; cbn; [split; [intros _; exists b; reflexivity|reflexivity]|]. destruct b as [|y b]; [split; [discriminate|intros [m H]; discriminate]|].
  rewrite andb_true_iff, str_eqb_eq, IH. split.
  - intros [-> [m ->]]. exists m. reflexivity.
  - intros [m H]. inversion H; subst. split; [reflexivity|exists m; reflexivity].
Qed.
Lemma host_labels_spec : forall puny u, match host_labels puny u with Ok h => host_of puny u = Some h | Err _ => host_of puny u = None end.
Proof.
  intros puny u. unfold host_labels, host_of, labels. destruct (u_host u) as [h|]; [|reflexivity]. destruct (split_domain puny h false); reflexivity.
Qed.
(** what set_cookie does, once it gets to the tree *)
Lemma set_cookie_target : forall puny now s u c, set_cookie puny now s u c =
  match target puny u c with
  | None => (s, snd (set_cookie puny now s u c))
  | Some (dom, host) => at_node (store_cookie now (Nat.eqb (length dom) (length host)) (match c_path c with None => with_path c (Some (default_path u)) | Some _ => c end)) s dom
  end.
Proof.
  intros puny now s u c. unfold set_cookie, target. rewrite andb_comm. destruct (c_http_only c && negb (is_http (u_kind u))); [reflexivity|].
  pose proof (host_labels_spec puny u) as H. destruct (host_labels puny u) as [host|e]; rewrite H; [|reflexivity].
  destruct (c_domain c) as [d|]; [|reflexivity]. unfold labels. destruct (split_domain puny d false) as [l|e]; cbn [rbind]; [|reflexivity].
  destruct (domain_in_domain (rev l) host) eqn:E; destruct (in_domain_dec host (rev l)) as [I|I]; try reflexivity.
  - exfalso. apply I. apply did_spec. exact E.
  - exfalso. apply did_spec in I. congruence.
Qed.
Lemma target_in : forall puny u c dom host, target puny u c = Some (dom, host) -> in_domain host dom /\ host_of puny u = Some host.
Proof.
  intros puny u c dom host. unfold target. destruct (c_http_only c && negb (is_http (u_kind u))); [discriminate|]. destruct (host_of puny u) as [h|]; [|discriminate].
  destruct (c_domain c) as [d|].
  - destruct (labels puny d) as [l|]; [|discriminate]. destruct (in_domain_dec h l) as [I|I]; [|discriminate]. intros E. inversion E; subst. auto.
  - intros E. inversion E; subst. split; [exists []; symmetry; apply app_nil_r|reflexivity].
Qed.
Lemma same_len : forall host dom, in_domain host dom -> Nat.eqb (length dom) (length host) = if dom_dec dom host then true else false.
Proof.
  intros host dom [m ->]. destruct (dom_dec dom (dom ++ m)) as [E|E].
  - rewrite <- E. apply Nat.eqb_refl.
  - apply Nat.eqb_neq. rewrite app_length. destruct m; [rewrite app_nil_r in E; congruence|cbn; lia].
Qed.
Definition jar_of (s : node) : jar := fun d k => dget key_eqb k (cookies_at s d).
Lemma stored_path : forall c u, good_path c -> (match c_path c with None => with_path c (Some (default_path u)) | Some _ => c end) = stored false u c /\ exists x r, c_path (stored false u c) = Some (x :: r).
Proof.
  intros [nm v [p|] d s h cr e] u G; unfold stored, good_path in *; cbn [c_path c_name c_value c_domain c_secure c_http_only c_created c_expires] in *.
  - split; [reflexivity|]. destruct p; [exfalso; apply G; reflexivity|]. eauto.
  - split; [unfold with_path; rewrite default_directory; reflexivity|]. destruct (directory_some u) as (x & r & E). rewrite E. eauto.
Qed.
Lemma set_jar : forall puny now s u c, okt s -> good_path c ->
  okt (fst (set_cookie puny now s u c)) /\
  forall d k, jar_of (fst (set_cookie puny now s u c)) d k = jar_step puny (public_of s) (OSet now u c) (jar_of s) d k.
Proof.
  intros puny now s u c T G. rewrite set_cookie_target. cbn [jar_step]. destruct (target puny u c) as [[dom host]|] eqn:E; [|split; [exact T|reflexivity]].
  destruct (target_in _ _ _ _ _ E) as [I _]. rewrite (same_len host dom I). destruct (stored_path c u G) as [-> [x [r Hp]]]. set (b := if dom_dec dom host then true else false). set (c0 := stored false u c) in *.
  set (f := store_cookie now b c0).
  assert (A : forall d, cookies_at (fst (at_node f s dom)) d = if dom_dec d dom then n_cookies (fst (f (node_at s dom))) else cookies_at s d) by (intros d; apply at_at_node; intros y; apply store_nodes).
  pose proof (cookies_at_node_at dom s) as N. pose proof (T dom) as Td. fold (public_of s dom). unfold public_of. set (nd := node_at s dom) in *.
  unfold f, store_cookie in A. rewrite <- N in Td. destruct (n_public nd && negb b) eqn:P.
  - cbn [fst] in A. split.
    + intros d. rewrite A. destruct (dom_dec d dom); [exact Td|apply T].
    + intros d k. unfold jar_of. rewrite A. destruct (dom_dec d dom) as [->|]; [rewrite N|]; reflexivity.
  - set (c1 := if n_public nd then with_domain c0 None else c0) in *. assert (S : stored (n_public nd) u c = c1) by (unfold c1, c0, stored, with_domain; destruct (n_public nd); reflexivity). rewrite S.
    assert (K1 : c_path c1 = Some (x :: r)) by (unfold c1; destruct (n_public nd); exact Hp).
    set (old := dget key_eqb (key_of c1) (n_cookies nd)) in *.
    set (c2 := match old with Some o => with_created c1 (c_created o) | None => c1 end) in *.
    assert (K2 : key_of c2 = key_of c1) by (unfold c2; destruct old; reflexivity). assert (X2 : expired c2 now = expired c1 now) by (unfold c2; destruct old; reflexivity).
    assert (P2 : c_path c2 = Some (x :: r)) by (unfold c2; destruct old; exact K1).
    assert (E2 : c2 = with_created c1 (match old with Some o => c_created o | None => c_created c1 end)) by (unfold c2; destruct old; [reflexivity|destruct c1; reflexivity]).
    set (l1 := match old with Some _ => ddel key_eqb (key_of c2) (n_cookies nd) | None => n_cookies nd end) in *.
    assert (O1 : okc l1) by (unfold l1; destruct old; [apply ddel_ok|]; exact Td).
    assert (G1 : dget key_eqb (key_of c1) l1 = None).
    { unfold l1. rewrite K2. destruct old as [o|] eqn:Eo; [apply dget_ddel_eq; [apply key_eqb_eq|apply Td]|exact Eo]. }
    assert (G2 : forall k, k <> key_of c1 -> dget key_eqb k l1 = dget key_eqb k (n_cookies nd)).
    { intros k Nk. unfold l1. rewrite K2. destruct old; [apply dget_ddel_ne; [apply key_eqb_eq|exact Nk]|reflexivity]. }
    set (l2 := if expired c2 now then l1 else dset key_eqb (key_of c2) c2 l1) in *.
    assert (O2 : okc l2) by (unfold l2; destruct (expired c2 now); [exact O1|apply dset_ok; [exact O1|eauto]]).
    assert (A2 : forall d, cookies_at (fst (at_node f s dom)) d = if dom_dec d dom then l2 else cookies_at s d) by (intros d; rewrite A; cbn [fst]; destruct (dom_dec d dom); [destruct nd; reflexivity|reflexivity]).
    split; [intros d; rewrite A2; destruct (dom_dec d dom); [exact O2|apply T]|]. intros d k. unfold jar_of at 1. rewrite A2. destruct (dom_dec d dom) as [->|]; [|reflexivity].
    destruct (key_dec k (key_of c1)) as [->|Nk].
    + unfold l2. change (over c1 now) with (expired c1 now). rewrite X2. destruct (expired c1 now); [exact G1|]. rewrite K2. rewrite dget_dset_eq by apply key_eqb_eq. f_equal. rewrite E2. f_equal. unfold jar_of. rewrite <- N. reflexivity.
    + unfold jar_of. rewrite <- N. unfold l2. destruct (expired c2 now); [apply G2; exact Nk|]. rewrite K2. rewrite dget_dset_ne by (try apply key_eqb_eq; exact Nk). apply G2. exact Nk.
Qed.
