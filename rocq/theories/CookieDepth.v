(** The depth of every node is at least zero, in every history. *)
From Verif Require Import Py UriModel UriRel Dict CookieModel CookieSpec CookieProofs CookieSearch CookieSuffix CookieHist.

Lemma depth_intro : forall n, 0 <= n_depth n -> (forall x c, child n x = Some c -> depth_ok c) -> depth_ok n.
Proof. intros n H K [|x p] m F; [cbn in F; inversion F; subst; exact H|]. rewrite find_cons in F. destruct (child n x) as [c|] eqn:E; [|discriminate]. exact (K x c E p m F). Qed.
Lemma depth_root : forall n, depth_ok n -> 0 <= n_depth n.
Proof. intros n H. exact (H [] n eq_refl). Qed.
Lemma depth_set_child : forall n x c, depth_ok n -> depth_ok c -> depth_ok (set_child n x c).
Proof.
  intros n x c H K p m F. rewrite find_set_child in F. destruct p as [|y r]; [inversion F; subst; destruct n; exact (H [] _ eq_refl)|]. destruct (str_eqb y x); [exact (K r m F)|exact (H _ m F)].
Qed.
Lemma depth_nodes : forall n n', n_nodes n' = n_nodes n -> 0 <= n_depth n' -> depth_ok n -> depth_ok n'.
Proof.
  intros n n' H K D [|x p] m F; [inversion F; subst; exact K|]. rewrite (find_nodes n n' x p H) in F. exact (D _ m F).
Qed.
Lemma depth_copy : forall n, depth_ok n -> depth_ok (copy_node n).
Proof.
  intros n D p m. revert n D. induction p as [|x p IH]; intros n D F.
  - inversion F; subst. destruct n as [a b z l c]. exact (D [] _ eq_refl).
  - rewrite find_cons, child_copy in F. destruct (child n x) as [c|] eqn:E; [|discriminate]. cbn [option_map] in F. apply (IH c); [eapply depth_child; eassumption|exact F].
Qed.
Lemma depth_expand : forall n x, depth_ok n -> depth_ok (expand_node n x).
Proof.
  intros n x D. pose proof (depth_root n D) as H.
  assert (F : depth_ok (fresh n)) by (apply depth_intro; [unfold fresh; destruct (Z.eqb_spec (n_depth n) 0); cbn [n_depth negb]; lia|intros y c E; rewrite child_fresh in E; discriminate]).
  unfold expand_node. fold (fresh n). destruct (negb (str_eqb x STAR)); [|exact F]. destruct (child n STAR) as [w|] eqn:E; [|exact F]. apply depth_copy. exact (depth_child n STAR w D E).
Qed.
Lemma depth_map_children : forall f n, (forall m, depth_ok m -> depth_ok (f m)) -> depth_ok n -> depth_ok (map_children f n).
Proof.
  intros f n H D. apply depth_intro; [destruct n; exact (D [] _ eq_refl)|]. intros x c E. assert (C : child (map_children f n) x = option_map f (child n x)) by (destruct n; unfold child, map_children; cbn [n_nodes set_nodes]; apply dget_map).
  rewrite C in E. destruct (child n x) as [k|] eqn:X; [|discriminate]. inversion E; subst. apply H. eapply depth_child; eassumption.
Qed.
Lemma depth_public : forall n, depth_ok n -> depth_ok (make_public n).
Proof. intros n D. pose proof (depth_root n D). eapply depth_nodes; [apply pub_nodes| |exact D]. unfold make_public. destruct (n_private n); destruct n; exact H. Qed.
Lemma depth_private : forall n, depth_ok n -> depth_ok (make_private n).
Proof. intros n D. pose proof (depth_root n D). eapply depth_nodes; [apply priv_nodes| |exact D]. destruct n; exact H. Qed.
Lemma depth_setpub : forall n b, depth_ok n -> depth_ok (set_public n b).
Proof. intros n b D. pose proof (depth_root n D). apply (depth_nodes n); [destruct n; reflexivity|destruct n; exact H|exact D]. Qed.
Lemma depth_setdepth : forall n z, 0 <= z -> depth_ok n -> depth_ok (set_depth n z).
Proof. intros n z Z0 D. apply (depth_nodes n); [destruct n; reflexivity|destruct n; exact Z0|exact D]. Qed.
Lemma depth_add_public : forall d n, depth_ok n -> depth_ok (add_public n d).
Proof.
  induction d as [|x r IH]; intros n D; cbn [add_public]; [exact D|]. destruct (child n x) as [c|] eqn:E.
  - pose proof (depth_child n x c D E) as Dc. destruct r as [|y r]; [|apply depth_set_child; auto]. pose proof (depth_set_child n x _ D (depth_public c Dc)). destruct (str_eqb x STAR); [apply depth_map_children; [exact depth_public|]|]; assumption.
  - destruct (str_eqb x STAR).
    + destruct r as [|y r]; [|apply depth_set_child; [exact D|]; apply IH, depth_expand, D]. apply depth_map_children; [exact depth_public|]. destruct (n_depth n <? 1); [apply depth_setdepth; [lia|exact D]|exact D].
    + apply depth_set_child; [exact D|]. apply IH, depth_setpub, depth_expand, D.
Qed.
Lemma depth_add_private : forall d n, depth_ok n -> depth_ok (add_private n d).
Proof.
  induction d as [|x r IH]; intros n D; cbn [add_private]; [exact D|]. destruct (child n x) as [c|] eqn:E.
  - pose proof (depth_child n x c D E) as Dc. destruct r as [|y r]; [|apply depth_set_child; auto]. pose proof (depth_set_child n x _ D (depth_private c Dc)). destruct (str_eqb x STAR); [apply depth_map_children; [exact depth_private|]|]; assumption.
  - destruct (str_eqb x STAR).
    + destruct r as [|y r]; [|apply depth_set_child; [exact D|]; apply IH, depth_expand, D]. apply depth_map_children; [exact depth_private|]. apply depth_setdepth; [lia|exact D].
    + apply depth_set_child; [exact D|]. destruct r; [apply depth_private|apply IH]; apply depth_expand, D.
Qed.
Lemma depth_at_node : forall A (f : node -> node * A) d n, (forall m, depth_ok m -> depth_ok (fst (f m))) -> depth_ok n -> depth_ok (fst (at_node f n d)).
Proof.
  intros A f d n Hf. revert n. induction d as [|x r IH]; intros n D; cbn [at_node]; [auto|].
  set (c := match child n x with Some c => c | None => expand_node n x end). assert (Dc : depth_ok c) by (unfold c; destruct (child n x) as [c1|] eqn:E; [eapply depth_child; eassumption|apply depth_expand, D]).
  specialize (IH c Dc). destruct (at_node f c r) as [c' a]. cbn [fst] in *. apply depth_set_child; assumption.
Qed.
Lemma depth_same : forall n n', same_tree n n' -> depth_ok n -> depth_ok n'.
Proof.
  intros n n' H D p m F. specialize (H p). rewrite F in H. unfold same_opt in H. destruct (find n p) as [m0|] eqn:E; [|exfalso; exact H]. destruct H as (_ & _ & H). rewrite H. exact (D p m0 E).
Qed.
Lemma depth_lines : forall puny lines s, depth_ok s -> depth_ok (fst (public_lines puny s lines)).
Proof.
  intros puny lines. induction lines as [|line r IH]; intros s D; cbn [public_lines]; [exact D|]. destruct (match line with [] => true | _ => _ end); [apply IH; exact D|]. destruct (first_word line) as [w|]; [|exact D]. apply IH.
  assert (P1 : forall w, depth_ok (fst (add_public_suffix puny s w))) by (intros v; unfold add_public_suffix; destruct (split_domain puny v true); [apply depth_add_public|]; exact D).
  assert (P2 : forall w, depth_ok (fst (add_private_suffix puny s w))) by (intros v; unfold add_private_suffix; destruct (split_domain puny v true); [apply depth_add_private|]; exact D).
  destruct w as [|z w]; [apply P1|]. destruct z as [|z|z]; try apply P1. do 6 (destruct z as [z|z|]; try apply P1; try apply P2).
Qed.
Lemma depth_step : forall puny o s, depth_op o -> depth_ok s -> depth_ok (step puny s o).
Proof.
  intros puny o s N D. destruct o as [now u c|now u|now|now|d|d|l z]; cbn [step depth_op] in *.
  - rewrite set_cookie_target. destruct (target puny u c) as [[dom host]|]; [|exact D]. apply depth_at_node; [|exact D]. intros m Dm. unfold store_cookie. destruct (n_public m && negb _); [exact Dm|]. cbn [fst]. apply (depth_nodes m); [destruct m; reflexivity|destruct m; exact (Dm [] _ eq_refl)|exact Dm].
  - unfold search. destruct (host_labels puny u) as [host|e]; [|exact D]. pose proof (same_search host now u s) as H. destruct (search_at now u s host) as [s' m]. eapply depth_same; [exact H|exact D].
  - eapply depth_same; [apply same_clean|exact D].
  - eapply depth_same; [apply same_clean|exact D].
  - unfold add_public_suffix; destruct (split_domain puny d true); [apply depth_add_public|]; exact D.
  - unfold add_private_suffix; destruct (split_domain puny d true); [apply depth_add_private|]; exact D.
  - apply depth_lines. apply depth_setdepth; assumption.
Qed.
Lemma depth_run : forall puny ops s, Forall depth_op ops -> depth_ok s -> depth_ok (run puny ops s).
Proof. intros puny ops. induction ops as [|o ops IH]; intros s F D; [exact D|]. inversion F; subst. cbn [run fold_left]. apply IH; [assumption|apply depth_step; assumption]. Qed.
Lemma depth_new : depth_ok new_store.
Proof. apply depth_intro; [cbn; lia|intros x c E; discriminate]. Qed.
