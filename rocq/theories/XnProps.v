(** Properties C131-C132: namespaces in XML. *)
From Coq Require Import Lia String.
From Coq Require FinFun.
From Verif Require Import Py Num UriModel UriRel XnModel XnSpec.
Open Scope Z_scope.

(** ** Dictionaries *)
Section Dict.
  Context {K A : Type} (eqb : K -> K -> bool) (eqb_eq : forall a b, eqb a b = true <-> a = b).
  Lemma dget_in : forall (m : list (K * A)) k a, dget eqb m k = Some a -> In (k, a) m.
  Proof using eqb_eq.
    induction m as [|[j b] m IH]; intros k a H; cbn [dget] in H; [discriminate|]. destruct (eqb j k) eqn:E; [injection H as <-; apply eqb_eq in E; subst; left; reflexivity|right; apply IH; exact H].
  Qed.
  Lemma in_dget : forall (m : list (K * A)) k a, NoDup (map fst m) -> In (k, a) m -> dget eqb m k = Some a.
  Proof using eqb_eq.
    induction m as [|[j b] m IH]; intros k a Hn H; cbn [dget map fst] in *; [destruct H|]. inversion Hn as [|? ? H1 H2]; subst. destruct H as [[= -> ->]|H].
    - replace (eqb k k) with true by (symmetry; apply eqb_eq; reflexivity). reflexivity.
    - destruct (eqb j k) eqn:E; [|apply IH; assumption]. apply eqb_eq in E. subst. exfalso. apply H1. apply in_map_iff. exists (k, a). split; [reflexivity|exact H].
  Qed.
  Lemma dget_none : forall (m : list (K * A)) k, dget eqb m k = None <-> ~ In k (map fst m).
  Proof using eqb_eq.
    induction m as [|[j b] m IH]; intros k; cbn [dget map fst In]; [tauto|]. destruct (eqb j k) eqn:E.
    - apply eqb_eq in E. split; [discriminate|tauto].
    - rewrite IH. assert (j <> k) by (intros ->; assert (T : eqb k k = true) by (apply eqb_eq; reflexivity); congruence). tauto.
  Qed.
  Lemma dget_dset : forall (m : list (K * A)) k a j, dget eqb (dset eqb m k a) j = if eqb k j then Some a else dget eqb m j.
  Proof using eqb_eq.
    induction m as [|[i b] m IH]; intros k a j; cbn [dset dget]; [reflexivity|]. destruct (eqb i k) eqn:E; cbn [dget].
    - apply eqb_eq in E. subst i. destruct (eqb k j); reflexivity.
    - rewrite IH. destruct (eqb i j) eqn:E2; [|reflexivity]. destruct (eqb k j) eqn:E3; [|reflexivity]. apply eqb_eq in E2, E3. subst. assert (T : eqb j j = true) by (apply eqb_eq; reflexivity). congruence.
  Qed.
  Lemma dset_keys : forall (m : list (K * A)) k a j, In j (map fst (dset eqb m k a)) <-> j = k \/ In j (map fst m).
  Proof using eqb_eq.
    induction m as [|[i b] m IH]; intros k a j; cbn [dset map fst In]; [split; [intros [H|[]]; left; congruence|intros [H|[]]; left; congruence]|]. destruct (eqb i k) eqn:E; cbn [map fst In].
    - apply eqb_eq in E. subst i. split; [tauto|intros [->|H]; tauto].
    - rewrite IH. tauto.
  Qed.
  Lemma dset_nodup : forall (m : list (K * A)) k a, NoDup (map fst m) -> NoDup (map fst (dset eqb m k a)).
  Proof using eqb_eq.
    induction m as [|[i b] m IH]; intros k a H; cbn [dset]; [constructor; [intros []|constructor]|]. destruct (eqb i k) eqn:E; [exact H|]. cbn [map fst] in *. inversion H as [|? ? H1 H2]; subst.
    constructor; [|apply IH; exact H2]. rewrite dset_keys. intros [->|Hin]; [|tauto]. assert (T : eqb k k = true) by (apply eqb_eq; reflexivity). congruence.
  Qed.
  Lemma dset_new : forall (m : list (K * A)) k a, ~ In k (map fst m) -> dset eqb m k a = m ++ [(k, a)].
  Proof using eqb_eq.
    induction m as [|[i b] m IH]; intros k a H; cbn [dset app map fst In] in *; [reflexivity|]. destruct (eqb i k) eqn:E; [apply eqb_eq in E; tauto|]. rewrite IH by tauto. reflexivity.
  Qed.
  Lemma in_dset : forall (m : list (K * A)) k a j b, NoDup (map fst m) -> In (j, b) (dset eqb m k a) <-> j = k /\ b = a \/ j <> k /\ In (j, b) m.
  Proof using eqb_eq.
    intros m k a j b Hn. pose proof (dset_nodup m k a Hn) as Hn'. split.
    - intros H. apply (in_dget _ _ _ Hn') in H. rewrite dget_dset in H. destruct (eqb k j) eqn:E; [apply eqb_eq in E; left; split; congruence|]. right. split; [intros ->; assert (T : eqb k k = true) by (apply eqb_eq; reflexivity); congruence|apply dget_in; exact H].
    - intros H. apply dget_in. rewrite dget_dset. destruct H as [(-> & ->)|(Hne & H)]; [replace (eqb k k) with true by (symmetry; apply eqb_eq; reflexivity); reflexivity|].
      destruct (eqb k j) eqn:E; [apply eqb_eq in E; congruence|]. apply in_dget; assumption.
  Qed.
End Dict.
Arguments dget_in {K A eqb} eqb_eq {m k a}. Arguments in_dget {K A eqb} eqb_eq {m k a}. Arguments dget_none {K A eqb} eqb_eq m k.
Lemma xname_eqb_eq : forall a b, xname_eqb a b = true <-> a = b.
Proof.
  intros [[u|] a] [[v|] b]; unfold xname_eqb; cbn [fst snd]; rewrite ?andb_true_iff, ?str_eqb_eq; split; try discriminate; try (intros [= -> ->]; tauto); try (intros (-> & ->); reflexivity).
  - intros ->. reflexivity.
  - intros [= ->]. reflexivity.
Qed.

(** ** The innermost declaration *)
Fixpoint decl (sc : scope) (p : str) : option str := match sc with [] => None | n :: sc => match sget (p2n n) p with Some u => Some u | None => decl sc p end end.
Lemma decl_app : forall a b p, decl (a ++ b) p = match decl a p with Some u => Some u | None => decl b p end.
Proof. induction a as [|n a IH]; intros b p; cbn [app decl]; [reflexivity|]. destruct (sget (p2n n) p); [reflexivity|apply IH]. Qed.
Lemma decl_undeclared : forall sc p, decl sc p = None <-> Forall (fun m => ~ declared m p) sc.
Proof.
  induction sc as [|n sc IH]; intros p; cbn [decl]; [split; [constructor|reflexivity]|]. split.
  - destruct (sget (p2n n) p) eqn:E; [discriminate|]. intros H. constructor; [apply (dget_none str_eqb_eq); exact E|apply IH; exact H].
  - intros H. inversion H as [|? ? H1 H2]; subst. apply (dget_none str_eqb_eq) in H1. rewrite H1. apply IH. exact H2.
Qed.
Lemma decl_in : forall sc p u, Forall node_ok sc -> decl sc p = Some u <-> exists inner n outer, sc = inner ++ n :: outer /\ Forall (fun m => ~ declared m p) inner /\ In (p, u) (p2n n).
Proof.
  intros sc p u Hok. split.
  - induction Hok as [|n sc Hn Hok IH]; cbn [decl]; [discriminate|]. destruct (sget (p2n n) p) as [w|] eqn:E.
    + intros [= ->]. exists [], n, sc. split; [reflexivity|]. split; [constructor|apply (dget_in str_eqb_eq); exact E].
    + intros H. destruct (IH H) as (i & m & o & -> & H1 & H2). exists (n :: i), m, o. split; [reflexivity|]. split; [|exact H2]. constructor; [apply (dget_none str_eqb_eq); exact E|exact H1].
  - intros (i & n & o & -> & H1 & H2). rewrite decl_app. apply decl_undeclared in H1. rewrite H1. cbn [decl]. apply Forall_app in Hok. destruct Hok as (_ & Hok). inversion Hok as [|? ? (Hn & _) _]; subst.
    rewrite (in_dget str_eqb_eq Hn H2). reflexivity.
Qed.
Lemma decl_ok : forall sc p u, Forall node_ok sc -> decl sc p = Some u -> prefix_ok p /\ u <> [].
Proof.
  intros sc p u Hok H. apply (decl_in sc p u Hok) in H. destruct H as (i & n & o & -> & _ & Hin). apply Forall_app in Hok. destruct Hok as (_ & Hok). inversion Hok as [|? ? (_ & _ & Hn & _) _]; subst. exact (Hn _ _ Hin).
Qed.
Lemma search_ns_decl : forall sc dflt p last, Forall node_ok sc -> sc <> [] -> search_ns sc dflt p last = match decl sc p with Some u => Some u | None => match p with [] => dflt | _ => None end end.
Proof.
  induction sc as [|n sc IH]; intros dflt p last Hok Hne; [congruence|]. inversion Hok as [|? ? (_ & _ & Hn & _) Hok']; subst. cbn [search_ns decl]. destruct (sget (p2n n) p) as [u|] eqn:E.
  - apply (dget_in str_eqb_eq) in E. destruct (Hn _ _ E) as (_ & Hu). destruct u as [|c u]; [congruence|]. reflexivity.
  - cbn [truthy]. destruct sc as [|m sc].
    + cbn [decl search_ns]. destruct p as [|c p]; cbn [truthy]; [destruct dflt as [[|c u]|]; reflexivity|reflexivity].
    + assert (Ei : (match p with [] => match m :: sc with [] => dflt | _ => None end | _ => @None str end) = None) by (destruct p; reflexivity). rewrite Ei. cbn [truthy]. apply IH; [exact Hok'|discriminate].
Qed.
Lemma get_ns_decl : forall sc dflt p, Forall node_ok sc -> sc <> [] -> p <> lit "xml" -> get_ns sc dflt p = match decl sc p with Some u => Some u | None => match p with [] => dflt | _ => None end end.
Proof. intros sc dflt p Hok Hne Hp. unfold get_ns. apply str_eqb_neq in Hp. rewrite Hp. apply search_ns_decl; assumption. Qed.
(** ** C131 *)
Theorem scope_exact : forall sc dflt p u, Forall node_ok sc -> sc <> [] -> p <> lit "xml" -> (get_ns sc dflt p = Some u <-> in_force sc dflt p u).
Proof.
  intros sc dflt p u Hok Hne Hp. rewrite get_ns_decl by assumption. unfold in_force. rewrite <- (decl_in sc p u Hok). destruct (decl sc p) as [w|] eqn:E.
  - split; [left; exact H|]. intros [H|(_ & _ & H)]; [exact H|]. apply decl_undeclared in H. congruence.
  - rewrite decl_undeclared in E. destruct p as [|c p]; [split; [intros ->; right; repeat split; exact E|intros [H|(_ & H & _)]; [discriminate|exact H]]|]. split; [discriminate|]. intros [H|(H & _)]; discriminate.
Qed.
Lemma search_prefix_sound : forall sc inner u p, Forall node_ok sc -> search_prefix inner sc u = Some p -> decl (inner ++ sc) p = Some u.
Proof.
  induction sc as [|ei sc IH]; intros inner u p Hok H; cbn [search_prefix] in H; [discriminate|]. inversion Hok as [|? ? Hn Hok']; subst.
  assert (Ea : inner ++ ei :: sc = (inner ++ [ei]) ++ sc) by (rewrite <- app_assoc; reflexivity).
  destruct (sget (n2p ei) u) as [q|] eqn:E; [|rewrite Ea; apply IH; assumption]. destruct (existsb (fun ej => declares ej q) inner) eqn:Ex; [rewrite Ea; apply IH; assumption|].
  injection H as <-. rewrite decl_app. assert (Hi : decl inner q = None).
  { clear -Ex. induction inner as [|m inner IH]; cbn [decl existsb] in *; [reflexivity|]. apply orb_false_iff in Ex. destruct Ex as (E1 & E2). unfold declares in E1. destruct (sget (p2n m) q); [discriminate|]. apply IH. exact E2. }
  rewrite Hi. cbn [decl]. destruct Hn as (N1 & _ & _ & N4). apply (dget_in str_eqb_eq) in E. apply N4 in E. rewrite (in_dget str_eqb_eq N1 E). reflexivity.
Qed.
(** the prefix used for a namespace does stand for it there *)
Theorem prefix_sound : forall sc dflt u p, Forall node_ok sc -> uri_ok u -> get_prefix sc u = Some p -> u = XML_NAMESPACE /\ p = lit "xml" \/ u <> XML_NAMESPACE /\ in_force sc dflt p u /\ prefix_ok p.
Proof.
  intros sc dflt u p Hok (_ & Hu) H. unfold get_prefix in H. destruct (str_eqb u XML_NAMESPACE) eqn:E1; [apply str_eqb_eq in E1; injection H as <-; left; split; [exact E1|reflexivity]|].
  destruct (str_eqb u NO_NAMESPACE) eqn:E2; [apply str_eqb_eq in E2; congruence|]. apply str_eqb_neq in E1. right. split; [exact E1|]. apply search_prefix_sound in H; [|exact Hok]. cbn [app] in H.
  split; [left; apply (decl_in sc p u Hok); exact H|exact (proj1 (decl_ok sc p u Hok H))].
Qed.
Lemma nth_prefix_inj : forall j k, nth_prefix j = nth_prefix k -> j = k.
Proof.
  intros j k H. unfold nth_prefix in H. apply app_inv_head in H. destruct (dec_nat_spec (Z.of_nat j) ltac:(lia)) as (_ & H1 & _). destruct (dec_nat_spec (Z.of_nat k) ltac:(lia)) as (_ & H2 & _). rewrite H in H1. lia.
Qed.
Lemma nth_prefix_ok : forall k, prefix_ok (nth_prefix k) /\ nth_prefix k <> [].
Proof.
  intros k. unfold nth_prefix, prefix_ok, no_colon. destruct (dec_nat_spec (Z.of_nat k) ltac:(lia)) as (H & _). split; [|discriminate]. split; [|split; discriminate].
  intros Hin. cbn in Hin. destruct Hin as [Hin|[Hin|Hin]]; try discriminate. rewrite Forall_forall in H. apply H in Hin. unfold dec_digit, colon in Hin. lia.
Qed.
Lemma count_up_spec : forall fuel sc dflt k, (exists j, (k <= j <= k + fuel)%nat /\ get_ns sc dflt (nth_prefix j) = None) ->
  exists j, (k <= j)%nat /\ count_up fuel sc dflt k = Ok (nth_prefix j) /\ get_ns sc dflt (nth_prefix j) = None /\ forall i, (k <= i < j)%nat -> get_ns sc dflt (nth_prefix i) <> None.
Proof.
  induction fuel as [|f IH]; intros sc dflt k (j & Hj & H); cbn [count_up].
  - replace j with k in * by lia. rewrite H. exists k. split; [lia|]. split; [reflexivity|]. split; [exact H|]. intros i Hi. lia.
  - destruct (get_ns sc dflt (nth_prefix k)) as [u|] eqn:E.
    + destruct (IH sc dflt (S k)) as (i & H1 & H2 & H3 & H4); [exists j; split; [assert (j <> k) by (intros ->; congruence); lia|exact H]|]. exists i. split; [lia|]. split; [exact H2|]. split; [exact H3|].
      intros i' Hi'. destruct (Nat.eq_dec i' k) as [->|Hne]; [congruence|apply H4; lia].
    + exists k. split; [lia|]. split; [reflexivity|]. split; [exact E|]. intros i Hi. lia.
Qed.
Lemma decl_key : forall sc p u, decl sc p = Some u -> In p (map fst (flat_map p2n sc)).
Proof.
  induction sc as [|n sc IH]; intros p u H; cbn [decl flat_map] in *; [discriminate|]. rewrite map_app. apply in_or_app. destruct (sget (p2n n) p) as [w|] eqn:E; [left|right; exact (IH p u H)].
  apply (dget_in str_eqb_eq) in E. apply in_map_iff. exists (p, w). split; [reflexivity|exact E].
Qed.
(** a new prefix is always found: the first of ns1, ns2, ... that is not in use *)
Theorem new_prefix_unused : forall sc dflt, Forall node_ok sc -> sc <> [] -> exists k, (1 <= k)%nat /\ new_prefix sc dflt = Ok (nth_prefix k) /\
  (forall u, ~ in_force sc dflt (nth_prefix k) u) /\ forall i, (1 <= i < k)%nat -> exists u, in_force sc dflt (nth_prefix i) u.
Proof.
  intros sc dflt Hok Hne. unfold new_prefix. set (m := List.length (flat_map p2n sc)).
  assert (Hx : forall k, nth_prefix k <> lit "xml") by (intros k; discriminate).
  assert (Hex : exists j, (1 <= j <= 1 + m)%nat /\ get_ns sc dflt (nth_prefix j) = None).
  { destruct (List.Exists_dec (fun j => get_ns sc dflt (nth_prefix j) = None) (seq 1 (S m))) as [H|H]; [intros j; destruct (get_ns sc dflt (nth_prefix j)); [right; discriminate|left; reflexivity]| |].
    - apply Exists_exists in H. destruct H as (j & Hj & H). apply in_seq in Hj. exists j. split; [lia|exact H].
    - exfalso. assert (Hi : incl (map nth_prefix (seq 1 (S m))) (map fst (flat_map p2n sc))).
      { intros p Hp. apply in_map_iff in Hp. destruct Hp as (j & <- & Hj). destruct (get_ns sc dflt (nth_prefix j)) as [u|] eqn:E; [|exfalso; apply H; apply Exists_exists; exists j; split; assumption].
        rewrite get_ns_decl in E by (first [assumption|apply Hx]). destruct (decl sc (nth_prefix j)) as [w|] eqn:Ed; [exact (decl_key _ _ _ Ed)|]. discriminate E. }
      apply NoDup_incl_length in Hi; [rewrite !map_length, seq_length in Hi; unfold m in Hi; lia|]. apply FinFun.Injective_map_NoDup; [intros a b; apply nth_prefix_inj|apply seq_NoDup]. }
  destruct (count_up_spec m sc dflt 1 Hex) as (k & H1 & H2 & H3 & H4). exists k. split; [exact H1|]. split; [exact H2|]. split.
  - intros u Hu. apply (scope_exact sc dflt (nth_prefix k) u Hok Hne (Hx k)) in Hu. congruence.
  - intros i Hi. specialize (H4 i Hi). destruct (get_ns sc dflt (nth_prefix i)) as [u|] eqn:E; [|congruence]. exists u. apply (scope_exact sc dflt (nth_prefix i) u Hok Hne (Hx i)). exact E.
Qed.

(** ** C132: writing *)
Lemma bind_ok : forall {A B} (m : res A) (f : A -> res B) b, (let! x := m in f x) = Ok b -> exists a, m = Ok a /\ f a = Ok b.
Proof. intros A B [a|e] f b H; [exists a; split; [reflexivity|exact H]|discriminate]. Qed.
Lemma make_prefix_ok : forall nd u p nd', node_ok nd -> prefix_ok p -> u <> [] -> make_prefix nd u p = Ok nd' ->
  node_ok nd' /\ (forall q, sget (p2n nd') q = if str_eqb p q then Some u else sget (p2n nd) q) /\ sget (p2n nd) p = None /\ (forall v, sget (n2p nd') v = if str_eqb u v then Some p else sget (n2p nd) v).
Proof.
  intros nd u p nd' (N1 & N2 & N3 & N4) Hp Hu H. unfold make_prefix, declares in H. destruct (sget (p2n nd) p) eqn:E; [discriminate|]. injection H as <-. cbn [p2n n2p].
  split; [|split; [|split; [reflexivity|]]].
  - split; [apply (dset_nodup _ str_eqb_eq); exact N1|]. split; [apply (dset_nodup _ str_eqb_eq); exact N2|]. cbn [p2n n2p]. split.
    + intros q w H. apply (in_dset _ str_eqb_eq) in H; [|exact N1]. destruct H as [(-> & ->)|(_ & H)]; [split; assumption|exact (N3 _ _ H)].
    + intros v q H. apply (in_dset _ str_eqb_eq) in H; [|exact N2]. apply (in_dset _ str_eqb_eq); [exact N1|]. destruct H as [(-> & ->)|(Hv & H)]; [left; split; reflexivity|]. right. apply N4 in H. split; [|exact H].
      intros ->. apply (dget_none str_eqb_eq) in E. apply E. apply in_map_iff. exists (p, v). split; [reflexivity|exact H].
  - intros q. apply (dget_dset _ str_eqb_eq).
  - intros v. apply (dget_dset _ str_eqb_eq).
Qed.
Lemma default_EN : forall EN sc u, Forall node_ok sc -> Forall (defaults_in EN) sc -> decl sc [] = Some u -> EN u.
Proof.
  intros EN sc u Hok Hd H. apply (decl_in sc [] u Hok) in H. destruct H as (i & n & o & -> & _ & Hin). apply Forall_app in Hd. destruct Hd as (_ & Hd). inversion Hd; subst. auto.
Qed.
Lemma empty_prefix_ok : prefix_ok [].
Proof. split; [intros []|split; discriminate]. Qed.
Lemma make_prefix_defaults : forall (EN : str -> Prop) nd u p nd', node_ok nd -> prefix_ok p -> u <> [] -> make_prefix nd u p = Ok nd' -> defaults_in EN nd -> (p = [] -> EN u) -> defaults_in EN nd'.
Proof.
  intros EN nd u p nd' Hn Hp Hu H Hd He w Hw. destruct (make_prefix_ok nd u p nd' Hn Hp Hu H) as ((N1 & _) & G & _). apply (in_dget str_eqb_eq N1) in Hw. rewrite G in Hw. destruct (str_eqb p []) eqn:E.
  - apply str_eqb_eq in E. injection Hw as <-. exact (He E).
  - apply Hd. apply (dget_in str_eqb_eq). exact Hw.
Qed.
Lemma element_prefix_spec : forall EN sc nd u a p nd1, Forall node_ok sc -> node_ok nd -> defaults_in EN nd -> uri_ok u -> EN u -> element_prefix sc nd (Some u, a) = Ok (p, nd1) ->
  node_ok nd1 /\ defaults_in EN nd1 /\ (u = XML_NAMESPACE /\ p = lit "xml" \/ decl (nd1 :: sc) p = Some u).
Proof.
  intros EN sc nd u a p nd1 Hsc Hn Hd Hu He H. unfold element_prefix in H. cbn [fst] in H. destruct u as [|c u]; [destruct Hu; congruence|]. destruct (get_prefix (nd :: sc) (c :: u)) as [q|] eqn:E.
  - injection H as <- <-. split; [exact Hn|]. split; [exact Hd|]. destruct (prefix_sound (nd :: sc) None (c :: u) q (Forall_cons _ Hn Hsc) Hu E) as [H|(_ & [H|(_ & H & _)] & _)]; [left; exact H| |discriminate].
    right. apply (decl_in (nd :: sc)); [constructor; assumption|exact H].
  - apply bind_ok in H. destruct H as (nd' & Hm & H). injection H as <- <-. assert (Hc : c :: u <> []) by discriminate. destruct (make_prefix_ok nd _ [] nd' Hn empty_prefix_ok Hc Hm) as (N & G & _).
    split; [exact N|]. split; [exact (make_prefix_defaults EN nd (c :: u) [] nd' Hn empty_prefix_ok Hc Hm Hd (fun _ => He))|]. right. cbn [decl]. rewrite G. reflexivity.
Qed.
Definition written_as (D : str -> option str) (x : xname) (q : str) : Prop := no_colon (snd x) /\
  (fst x = Some NO_NAMESPACE /\ q = snd x /\ firstn 5 q <> lit "xmlns" \/
   exists p, q = p ++ colon :: snd x /\ (p = lit "xml" /\ fst x = Some XML_NAMESPACE \/ prefix_ok p /\ D p = fst x /\ fst x <> None)).
Lemma written_mono : forall (D D' : str -> option str) x q, (forall p u, D p = Some u -> D' p = Some u) -> written_as D x q -> written_as D' x q.
Proof.
  intros D D' x q H (H1 & [H2|(p & Hq & [H2|(H2 & H3 & H4)])]); (split; [exact H1|]); [left; exact H2|right; exists p; split; [exact Hq|left; exact H2]|right; exists p; split; [exact Hq|right]].
  split; [exact H2|]. split; [|exact H4]. destruct (fst x) as [u|]; [apply H; exact H3|congruence].
Qed.
Lemma new_prefix_decl : forall nd sc dflt p, Forall node_ok (nd :: sc) -> new_prefix (nd :: sc) dflt = Ok p -> prefix_ok p /\ p <> [] /\ decl (nd :: sc) p = None.
Proof.
  intros nd sc dflt p Hok H. destruct (new_prefix_unused (nd :: sc) dflt Hok ltac:(discriminate)) as (k & _ & Hk & Hu & _). rewrite Hk in H. injection H as <-. destruct (nth_prefix_ok k) as (H1 & H2). split; [exact H1|]. split; [exact H2|].
  destruct (decl (nd :: sc) (nth_prefix k)) as [u|] eqn:E; [|reflexivity]. exfalso. apply (Hu u). left. apply (decl_in _ _ _ Hok). exact E.
Qed.
Lemma write_attrs_spec : forall EN dflt sc attrs nd al nd', Forall node_ok sc -> Forall (defaults_in EN) sc -> node_ok nd -> defaults_in EN nd -> Forall (attr_ok EN) (map fst attrs) -> write_attrs dflt sc nd attrs = Ok (al, nd') ->
  node_ok nd' /\ defaults_in EN nd' /\ (forall q w, decl (nd :: sc) q = Some w -> decl (nd' :: sc) q = Some w) /\ Forall2 (fun at_ wr => snd at_ = snd wr /\ written_as (decl (nd' :: sc)) (fst at_) (fst wr)) attrs al.
Proof.
  intros EN dflt sc attrs. induction attrs as [|[[ns a] v] attrs IH]; intros nd al nd' Hsc Hds Hn Hd Ha H; cbn [write_attrs map fst] in *.
  - injection H as <- <-. split; [exact Hn|]. split; [exact Hd|]. split; [tauto|constructor].
  - inversion Ha as [|? ? (Hc & u & Hu & Hx) Ha']; subst. cbn [fst snd] in Hc, Hu, Hx. subst ns. apply bind_ok in H. destruct H as ((p & nd1) & H1 & H). apply bind_ok in H. destruct H as ((l & nd2) & H2 & H). injection H as <- <-.
    assert (Q : node_ok nd1 /\ defaults_in EN nd1 /\ (forall q w, decl (nd :: sc) q = Some w -> decl (nd1 :: sc) q = Some w) /\ written_as (decl (nd1 :: sc)) (Some u, a) (qualified p a)).
    { destruct (get_prefix (nd :: sc) u) as [q|] eqn:E.
      - injection H1 as <- <-. split; [exact Hn|]. split; [exact Hd|]. split; [tauto|]. split; [exact Hc|]. cbn [fst snd]. destruct Hx as [(-> & Hx)|Hx].
        + left. unfold get_prefix in E. cbn in E. injection E as <-. split; [reflexivity|]. split; [reflexivity|exact Hx].
        + right. assert (Hq : q = lit "xml" /\ u = XML_NAMESPACE \/ u <> XML_NAMESPACE /\ uri_ok u /\ ~ EN u).
          { destruct (str_eqb u XML_NAMESPACE) eqn:Ex; [left; apply str_eqb_eq in Ex; subst u; unfold get_prefix in E; rewrite str_eqb_refl in E; injection E as <-; split; reflexivity|]. apply str_eqb_neq in Ex. right. split; [exact Ex|]. destruct Hx; [contradiction|assumption]. }
          destruct Hq as [(-> & ->)|(Hne & Huo & Hen)]; [exists (lit "xml"); split; [reflexivity|left; split; reflexivity]|].
          destruct (prefix_sound (nd :: sc) None u q (Forall_cons _ Hn Hsc) Huo E) as [(H3 & _)|(_ & [H3|(_ & H3 & _)] & Hp)]; [contradiction| |discriminate].
          apply (decl_in (nd :: sc) q u (Forall_cons _ Hn Hsc)) in H3. exists q. split; [|right; split; [exact Hp|split; [exact H3|discriminate]]].
          destruct q as [|c q]; [exfalso; apply Hen; exact (default_EN EN (nd :: sc) u (Forall_cons _ Hn Hsc) (Forall_cons _ Hd Hds) H3)|reflexivity].
      - apply bind_ok in H1. destruct H1 as (q & Hq & H1). apply bind_ok in H1. destruct H1 as (nd3 & Hm & H1). injection H1 as <- <-. destruct (new_prefix_decl nd sc dflt q (Forall_cons _ Hn Hsc) Hq) as (Hp & Hne & Hund).
        assert (Hu0 : u <> []) by (destruct Hx as [(-> & _)|[->|((Hx & _) & _)]]; [discriminate|discriminate|exact Hx]). destruct (make_prefix_ok nd u q nd3 Hn Hp Hu0 Hm) as (N & G & _).
        split; [exact N|]. split; [exact (make_prefix_defaults EN nd u q nd3 Hn Hp Hu0 Hm Hd (fun E0 => False_ind _ (Hne E0)))|]. split.
        + intros r w Hr. cbn [decl] in *. rewrite G. destruct (str_eqb q r) eqn:Eq; [|exact Hr]. apply str_eqb_eq in Eq. subst r. destruct (sget (p2n nd) q); congruence.
        + split; [exact Hc|]. cbn [fst snd]. right. exists q. split; [destruct q; [congruence|reflexivity]|]. right. split; [exact Hp|]. split; [cbn [decl]; rewrite G, str_eqb_refl; reflexivity|discriminate]. }
    destruct Q as (N1 & D1 & M1 & W1). destruct (IH nd1 l nd2 Hsc Hds N1 D1 Ha' H2) as (N2 & D2 & M2 & W2). split; [exact N2|]. split; [exact D2|]. split; [intros q w Hq; apply M2; apply M1; exact Hq|].
    constructor; [|exact W2]. split; [reflexivity|]. cbn [fst]. eapply written_mono; [exact M2|exact W1].
Qed.
(** the complete map of prefixes *)
Lemma prefix_map_spec : forall sc, (forall p, sget (prefix_map sc) p = decl sc p) /\ NoDup (map fst (prefix_map sc)).
Proof.
  assert (In1 : forall l m : list (str * str), NoDup (map fst m) -> let r := fold_left (fun m e => match sget m (fst e) with Some _ => m | None => m ++ [(fst e, snd e)] end) l m in
    (forall p, sget r p = match sget m p with Some u => Some u | None => sget l p end) /\ NoDup (map fst r)).
  { induction l as [|[q w] l IH]; intros m Hm; cbn [fold_left fst snd]; [split; [intros p; cbn [dget]; destruct (sget m p); reflexivity|exact Hm]|]. destruct (sget m q) as [u|] eqn:E.
    - destruct (IH m Hm) as (H1 & H2). split; [|exact H2]. intros p. rewrite H1. cbn [dget]. destruct (str_eqb q p) eqn:Eq; [apply str_eqb_eq in Eq; subst; rewrite E; reflexivity|reflexivity].
    - assert (E2 : m ++ [(q, w)] = sset m q w) by (symmetry; apply (dset_new _ str_eqb_eq); apply (dget_none str_eqb_eq); exact E). match goal with |- context [fold_left ?f l ?z] => replace z with (sset m q w) by (symmetry; exact E2) end.
      destruct (IH (sset m q w) (dset_nodup _ str_eqb_eq _ _ _ Hm)) as (H1 & H2). split; [|exact H2]. intros p. rewrite H1, (dget_dset _ str_eqb_eq). cbn [dget]. destruct (str_eqb q p) eqn:Eq; [|reflexivity].
      apply str_eqb_eq in Eq. subst. rewrite E. reflexivity. }
  assert (In2 : forall (sc : scope) (m : list (str * str)), NoDup (map fst m) -> let r := fold_left (fun m ei => fold_left (fun m e => match sget m (fst e) with Some _ => m | None => m ++ [(fst e, snd e)] end) (p2n ei) m) sc m in
    (forall p, sget r p = match sget m p with Some u => Some u | None => decl sc p end) /\ NoDup (map fst r)).
  { induction sc as [|n sc IH]; intros m Hm; cbn [fold_left decl]; [split; [intros p; destruct (sget m p); reflexivity|exact Hm]|].
    destruct (In1 (p2n n) m Hm) as (H1 & H2). destruct (IH _ H2) as (H3 & H4). split; [|exact H4]. intros p. rewrite H3, H1. destruct (sget m p); [reflexivity|]. destruct (sget (p2n n) p); reflexivity. }
  intros sc. destruct (In2 sc [] ltac:(constructor)) as (H1 & H2). split; [exact H1|exact H2].
Qed.

(** ** C132: reading what was written *)
Lemma firstn_colon : forall p a, firstn 5 p <> lit "xmlns" -> firstn 5 (p ++ colon :: a) <> lit "xmlns".
Proof.
  intros p a H E. apply H. destruct p as [|c1 [|c2 [|c3 [|c4 [|c5 p]]]]]; cbn [app firstn] in *; try exact E; exfalso; cbn in E; injection E; unfold colon; intros; discriminate.
Qed.
Lemma not_ns : forall a, is_ns_attr a = false <-> firstn 5 a <> lit "xmlns".
Proof. intros a. unfold is_ns_attr. apply str_eqb_neq. Qed.
Lemma written_not_ns : forall D x q, written_as D x q -> is_ns_attr q = false.
Proof.
  intros D x q (_ & [(_ & _ & H)|(p & -> & H)]); apply not_ns; [exact H|]. apply firstn_colon. destruct H as [(-> & _)|((_ & H & _) & _)]; [discriminate|exact H].
Qed.
Lemma ns_decls_written : forall l (al : list (str * str)), NoDup (map fst l) -> Forall (fun wr => is_ns_attr (fst wr) = false) al -> ns_decls (map ns_attr l ++ al) = l.
Proof.
  intros l al Hn Ha. unfold ns_decls. rewrite fold_left_app.
  assert (H1 : forall l m : list (str * str), NoDup (map fst (m ++ l)) -> fold_left (fun (m : list (str * str)) e => if is_ns_attr (fst e) then match skipn 5 (fst e) with [] => sset m [] (snd e) | c :: p => if c =? colon then sset m p (snd e) else m end else m) (map ns_attr l) m = m ++ l).
  { clear. induction l as [|[p u] l IH]; intros m H; cbn [map fold_left]; [symmetry; apply app_nil_r|]. assert (Hk : ~ In p (map fst m)).
    { rewrite map_app in H. cbn [map fst] in H. apply NoDup_remove_2 in H. intros Hin. apply H. apply in_or_app. left. exact Hin. }
    assert (E : (if is_ns_attr (fst (ns_attr (p, u))) then match skipn 5 (fst (ns_attr (p, u))) with [] => sset m [] (snd (ns_attr (p, u))) | c :: q => if c =? colon then sset m q (snd (ns_attr (p, u))) else m end else m) = m ++ [(p, u)]).
    { destruct p as [|c p]; cbn; apply (dset_new _ str_eqb_eq); exact Hk. }
    match goal with |- fold_left ?f _ ?z = _ => replace z with (m ++ [(p, u)]) by (symmetry; exact E) end. rewrite IH by (rewrite <- app_assoc; exact H). rewrite <- app_assoc. reflexivity. }
  rewrite H1 by exact Hn. cbn [app]. clear H1 Hn. revert l. induction Ha as [|e al He Ha IH]; intros l; cbn [fold_left]; [reflexivity|]. rewrite He. apply IH.
Qed.
Lemma filter_written : forall l (al : list (str * str)), Forall (fun wr => is_ns_attr (fst wr) = false) al -> filter (fun e => negb (is_ns_attr (fst e))) (map ns_attr l ++ al) = al.
Proof.
  intros l al Ha. rewrite filter_app. assert (H1 : filter (fun e => negb (is_ns_attr (fst e))) (map ns_attr l) = []) by (induction l as [|[[|c p] u] l IH]; cbn; auto). rewrite H1. cbn [app].
  induction Ha as [|e al He Ha IH]; cbn [filter]; [reflexivity|]. rewrite He. cbn [negb]. rewrite IH. reflexivity.
Qed.
Definition looks_up (ns : list (str * str)) (dflt : option str) (ctx : scope) (D : str -> option str) : Prop :=
  forall p u, p <> lit "xml" -> D p = Some u -> match sget ns p with Some w => Some w | None => get_ns ctx dflt p end = Some u.
Lemma expand_prefixed : forall p a ns dflt ctx b, no_colon p -> no_colon a -> p <> lit "xml" -> p <> lit "xmlns" ->
  expand_qname (p ++ colon :: a) ns dflt ctx b = Ok (match sget ns p with Some u => Some u | None => get_ns ctx dflt p end, a).
Proof.
  intros p a ns dflt ctx b Hp Ha Hx Hn. unfold expand_qname. rewrite split_app by exact Hp. rewrite split_no by exact Ha. apply str_eqb_neq in Hx, Hn. rewrite Hx, Hn. reflexivity.
Qed.
Lemma not_xmlns : forall p, prefix_ok p -> p <> lit "xmlns".
Proof. intros p (_ & H & _) ->. apply H. reflexivity. Qed.
Lemma expand_written : forall D ns dflt ctx x q, looks_up ns dflt ctx D -> written_as D x q -> expand_qname q ns dflt ctx false = Ok x.
Proof.
  intros D ns dflt ctx [u a] q HL (Hc & [(Hu & -> & Hf)|(p & -> & [(-> & Hu)|(Hp & Hu & Hn)])]); cbn [fst snd] in *.
  - subst u. unfold expand_qname. rewrite split_no by exact Hc. destruct (str_eqb a (lit "xmlns")) eqn:E; [apply str_eqb_eq in E; subst a; exfalso; apply Hf; reflexivity|reflexivity].
  - subst u. unfold expand_qname. rewrite split_app by (intros H; cbn in H; unfold colon in H; repeat (destruct H as [H|H]; [discriminate|]); exact H). rewrite split_no by exact Hc. reflexivity.
  - pose proof (not_xmlns p Hp) as Hn2. destruct Hp as (Hp1 & _ & Hp2). rewrite expand_prefixed by assumption. destruct u as [u|]; [|congruence]. rewrite (HL p u Hp2 Hu). reflexivity.
Qed.
Lemma expand_attrs_written : forall D ns dflt ctx attrs al done, looks_up ns dflt ctx D -> Forall2 (fun at_ wr => snd at_ = snd wr /\ written_as D (fst at_) (fst wr)) attrs al -> NoDup (map fst (done ++ attrs)) ->
  expand_attrs al ns dflt ctx done = Ok (done ++ attrs).
Proof.
  intros D ns dflt ctx attrs al done HL H. revert done. induction H as [|[x v] [q w] attrs al (Hv & Hw) H IH]; intros done Hn; cbn [expand_attrs]; [rewrite app_nil_r; reflexivity|]. cbn [fst snd] in *. subst w.
  rewrite (expand_written D ns dflt ctx x q HL Hw). cbn [rbind]. rewrite (dset_new _ xname_eqb_eq).
  - rewrite IH; rewrite <- app_assoc; [reflexivity|exact Hn].
  - rewrite map_app in Hn. cbn [map fst] in Hn. apply NoDup_remove_2 in Hn. intros Hin. apply Hn. apply in_or_app. left. exact Hin.
Qed.
Section ElemInd.
  Variable P : elem -> Prop.
  Hypothesis H : forall x attrs nd cs, Forall P cs -> P (E x attrs nd cs).
  Fixpoint elem_induct (e : elem) : P e.
  Proof using H. destruct e as [x attrs nd cs]. apply H. induction cs as [|c cs IH]; constructor; [apply elem_induct|exact IH]. Defined.
End ElemInd.
Definition write_all (dflt : option str) (sc : scope) := (fix children (l : list elem) : res (list tag * list elem) :=
  match l with [] => Ok ([], []) | e :: l => let! te := write dflt false sc e in let! r := children l in Ok (fst te :: fst r, snd te :: snd r) end).
Definition read_all (dflt : option str) (ctx : scope) := (fix children (l : list tag) : res (list elem) :=
  match l with [] => Ok [] | t :: l => let! e := read dflt ctx t in let! r := children l in Ok (e :: r) end).
Definition related (dflt : option str) (ctx : scope) (sc : scope) : Prop := forall p u, p <> lit "xml" -> decl sc p = Some u -> get_ns ctx dflt p = Some u.
Lemma search_last : forall ctx dflt p o o', ctx <> [] -> search_ns ctx dflt p o = search_ns ctx dflt p o'.
Proof. intros [|n ctx] dflt p o o' H; [congruence|]. cbn [search_ns]. reflexivity. Qed.
Lemma related_push : forall dflt ctx sc ns nd, looks_up ns dflt ctx (decl (nd :: sc)) -> (forall p u, sget ns p = Some u -> u <> []) -> related dflt (node_of ns :: ctx) (nd :: sc).
Proof.
  intros dflt ctx sc ns nd HL Hu p u Hp H. specialize (HL p u Hp H). unfold get_ns in *. apply str_eqb_neq in Hp. rewrite Hp in *. cbn [search_ns p2n node_of]. destruct (sget ns p) as [w|] eqn:E.
  - injection HL as ->. specialize (Hu _ _ E). destruct u as [|c u]; [congruence|]. reflexivity.
  - cbn [truthy]. destruct ctx as [|m ctx]; [cbn [search_ns] in HL; discriminate|]. replace (match p with [] => match m :: ctx with [] => dflt | _ => None end | _ => @None str end) with (@None str) by (destruct p; reflexivity). cbn [truthy].
    exact HL.
Qed.
Lemma write_read_gen : forall EN dflt e, tree_ok EN e -> forall root sc t e', Forall node_ok sc -> Forall (defaults_in EN) sc -> write dflt root sc e = Ok (t, e') ->
  forall dflt' ctx, root = true \/ related dflt' ctx sc -> exists r, read dflt' ctx t = Ok r /\ same e r.
Proof.
  intros EN dflt e. pattern e. apply elem_induct. clear e. intros x attrs nd cs IH Ht root sc t e' Hsc Hds H dflt' ctx HR. inversion Ht as [u a attrs0 nd0 cs0 Hu He Hc Hx Hnd Hat Hn Hd Hcs]; subst.
  cbn [write] in H. fold (write_all dflt) in H. apply bind_ok in H. destruct H as ((p & nd1) & H1 & H). apply bind_ok in H. destruct H as ((al & nd2) & H2 & H). apply bind_ok in H. destruct H as ((ts & es) & H3 & H).
  cbn [fst snd] in H. injection H as <- <-. destruct (element_prefix_spec EN sc nd u a p nd1 Hsc Hn Hd Hu He H1) as (N1 & D1 & P1).
  destruct (write_attrs_spec EN dflt sc attrs nd1 al nd2 Hsc Hds N1 D1 Hat H2) as (N2 & D2 & M2 & W2).
  set (l := if root then prefix_map (nd2 :: sc) else p2n nd2) in *. assert (Hok2 : Forall node_ok (nd2 :: sc)) by (constructor; assumption).
  assert (Hl : NoDup (map fst l)) by (unfold l; destruct root; [apply prefix_map_spec|apply N2]).
  assert (Hlu : forall q w, sget l q = Some w -> decl (nd2 :: sc) q = Some w).
  { intros q w Hq. unfold l in Hq. destruct root; [rewrite (proj1 (prefix_map_spec _)) in Hq; exact Hq|]. cbn [decl]. rewrite Hq. reflexivity. }
  assert (Hal : Forall (fun wr => is_ns_attr (fst wr) = false) al) by (clear -W2; induction W2 as [|at_ wr attrs al (_ & Hw) W2 IHw]; constructor; [eapply written_not_ns; exact Hw|exact IHw]).
  assert (HL : looks_up l dflt' ctx (decl (nd2 :: sc))).
  { intros q w Hq Hw. destruct (sget l q) as [w'|] eqn:El; [rewrite (Hlu q w' El) in Hw; exact Hw|]. destruct HR as [->|HR].
    - unfold l in El. rewrite (proj1 (prefix_map_spec _)) in El. congruence.
    - apply (HR q w Hq). unfold l in El. destruct root; [rewrite (proj1 (prefix_map_spec _)) in El; congruence|]. cbn [decl] in Hw. rewrite El in Hw. exact Hw. }
  assert (HR2 : related dflt' (node_of l :: ctx) (nd2 :: sc)) by (apply related_push; [exact HL|]; intros q w Hq; apply Hlu in Hq; exact (proj2 (decl_ok _ _ _ Hok2 Hq))).
  assert (Hch : exists rs, read_all dflt' (node_of l :: ctx) ts = Ok rs /\ Forall2 same cs rs).
  { clear - IH Hcs H3 HR2 Hok2 D2 Hds. assert (Hds2 : Forall (defaults_in EN) (nd2 :: sc)) by (constructor; assumption). revert ts es H3. induction cs as [|c cs IHc]; intros ts es H3; cbn [write_all] in H3.
    - injection H3 as <- <-. exists []. split; [reflexivity|constructor].
    - inversion IH as [|? ? I1 I2]; subst. inversion Hcs as [|? ? C1 C2]; subst. fold (write_all dflt) in H3. apply bind_ok in H3. destruct H3 as ((t1 & e1) & E1 & H3). apply bind_ok in H3. destruct H3 as ((ts1 & es1) & E2 & H3). injection H3 as <- <-.
      destruct (I1 C1 false (nd2 :: sc) t1 e1 Hok2 Hds2 E1 dflt' (node_of l :: ctx) (or_intror HR2)) as (r & R1 & R2). destruct (IHc I2 C2 ts1 es1 E2) as (rs & R3 & R4).
      exists (r :: rs). split; [|constructor; assumption]. cbn [read_all fst]. fold (read_all dflt'). rewrite R1. cbn [rbind]. rewrite R3. reflexivity. }
  destruct Hch as (rs & R1 & R2). exists (E (Some u, a) attrs (node_of l) rs). split; [|constructor; exact R2].
  cbn [read]. fold (read_all dflt'). rewrite ns_decls_written by assumption. rewrite filter_written by exact Hal.
  rewrite (expand_attrs_written (decl (nd2 :: sc)) l dflt' ctx attrs al [] HL W2) by exact Hnd. cbn [rbind app].
  assert (HE : expand_qname (qualified p a) l dflt' ctx true = Ok (Some u, a)).
  { destruct P1 as [(-> & ->)|P1].
    - unfold expand_qname. change (qualified (lit "xml") a) with (lit "xml" ++ colon :: a). rewrite split_app by (intros H; cbn in H; unfold colon in H; repeat (destruct H as [H|H]; [discriminate|]); exact H). rewrite split_no by exact Hc. reflexivity.
    - apply M2 in P1. destruct (decl_ok _ _ _ Hok2 P1) as (Hp & _). pose proof (not_xmlns p Hp) as Hn2. destruct Hp as (Hp1 & _ & Hp2). specialize (HL p u Hp2 P1). destruct p as [|c p].
      + cbn [qualified]. unfold expand_qname. rewrite split_no by exact Hc. apply str_eqb_neq in Hx. rewrite Hx. rewrite HL. reflexivity.
      + change (qualified (c :: p) a) with ((c :: p) ++ colon :: a). rewrite expand_prefixed by assumption. rewrite HL. reflexivity. }
  rewrite HE. cbn [rbind fst snd]. unfold read_all in R1. match goal with |- rbind ?m _ = _ => replace m with (@Ok (list elem) rs) by (symmetry; exact R1) end. reflexivity.
Qed.
(** what is written can be read in any document and gives the same elements and attributes *)
Theorem write_read_partial : forall EN dflt doc e t e', node_ok doc -> defaults_in EN doc -> tree_ok EN e -> write dflt true [doc] e = Ok (t, e') ->
  forall dflt' ctx, exists r, read dflt' ctx t = Ok r /\ same e r.
Proof. intros EN dflt doc e t e' Hn Hd Ht H dflt' ctx. exact (write_read_gen EN dflt e Ht true [doc] t e' (Forall_cons _ Hn (Forall_nil _)) (Forall_cons _ Hd (Forall_nil _)) H dflt' ctx (or_introl eq_refl)). Qed.

Lemma write_attrs_total : forall EN dflt sc attrs nd, Forall node_ok sc -> Forall (defaults_in EN) sc -> node_ok nd -> defaults_in EN nd -> Forall (attr_ok EN) (map fst attrs) ->
  exists al nd', write_attrs dflt sc nd attrs = Ok (al, nd').
Proof.
  intros EN dflt sc attrs. induction attrs as [|[[ns a] v] attrs IH]; intros nd Hsc Hds Hn Hd Ha; [exists [], nd; reflexivity|].
  assert (Hstep : exists al nd1, write_attrs dflt sc nd [((ns, a), v)] = Ok (al, nd1)).
  { inversion Ha as [|? ? (Hc & u & Hu & Hx) Ha']; subst. cbn [fst snd] in Hc, Hu, Hx. subst ns. cbn [write_attrs]. destruct (get_prefix (nd :: sc) u) as [p|]; [eexists; eexists; reflexivity|].
    destruct (new_prefix_unused (nd :: sc) dflt (Forall_cons _ Hn Hsc) ltac:(discriminate)) as (k & _ & Hk & _). rewrite Hk. cbn [rbind].
    destruct (new_prefix_decl nd sc dflt _ (Forall_cons _ Hn Hsc) Hk) as (_ & _ & Hdn). unfold make_prefix, declares. cbn [decl] in Hdn. destruct (sget (p2n nd) (nth_prefix k)); [discriminate|]. eexists; eexists; reflexivity. }
  destruct Hstep as (al & nd1 & Hstep). pose proof Ha as Ha0. cbn [map fst] in Ha. inversion Ha as [|? ? A1 A2]; subst.
  destruct (write_attrs_spec EN dflt sc [((ns, a), v)] nd al nd1 Hsc Hds Hn Hd (Forall_cons _ A1 (Forall_nil _)) Hstep) as (N1 & D1 & _).
  destruct (IH nd1 Hsc Hds N1 D1 A2) as (al2 & nd2 & H2). cbn [write_attrs] in Hstep |- *. apply bind_ok in Hstep. destruct Hstep as ((p & nd1') & E1 & E2). rewrite E1. cbn [rbind] in *. injection E2 as _ <-. rewrite H2. cbn [rbind]. eexists; eexists; reflexivity.
Qed.
Lemma write_fresh_gen : forall EN dflt e, tree_ok EN e -> fresh e -> forall root sc, Forall node_ok sc -> Forall (defaults_in EN) sc -> exists t e', write dflt root sc e = Ok (t, e').
Proof.
  intros EN dflt e. pattern e. apply elem_induct. clear e. intros x attrs nd cs IH Ht Hf root sc Hsc Hds. inversion Ht as [u a attrs0 nd0 cs0 Hu He Hc Hx Hnd Hat Hn Hd Hcs]; subst. inversion Hf as [? ? ? Hfs]; subst.
  assert (H1 : exists p nd1, element_prefix sc empty_node (Some u, a) = Ok (p, nd1)).
  { unfold element_prefix. cbn [fst]. destruct u as [|c u]; [eexists; eexists; reflexivity|]. destruct (get_prefix (empty_node :: sc) (c :: u)); [eexists; eexists; reflexivity|]. unfold make_prefix. cbn. eexists; eexists; reflexivity. }
  destruct H1 as (p & nd1 & H1). destruct (element_prefix_spec EN sc empty_node u a p nd1 Hsc Hn Hd Hu He H1) as (N1 & D1 & _).
  destruct (write_attrs_total EN dflt sc attrs nd1 Hsc Hds N1 D1 Hat) as (al & nd2 & H2). destruct (write_attrs_spec EN dflt sc attrs nd1 al nd2 Hsc Hds N1 D1 Hat H2) as (N2 & D2 & _).
  cbn [write]. fold (write_all dflt). rewrite H1. cbn [rbind]. rewrite H2. cbn [rbind].
  assert (H3 : exists ts es, write_all dflt (nd2 :: sc) cs = Ok (ts, es)).
  { assert (Hsc2 : Forall node_ok (nd2 :: sc)) by (constructor; assumption). assert (Hds2 : Forall (defaults_in EN) (nd2 :: sc)) by (constructor; assumption). clear - IH Hcs Hfs Hsc2 Hds2.
    induction cs as [|c cs IHc]; [exists [], []; reflexivity|]. inversion IH as [|? ? I1 I2]; subst. inversion Hcs as [|? ? C1 C2]; subst. inversion Hfs as [|? ? F1 F2]; subst.
    destruct (I1 C1 F1 false (nd2 :: sc) Hsc2 Hds2) as (t & e & E1). destruct (IHc I2 C2 F2) as (ts & es & E2). cbn [write_all]. fold (write_all dflt). rewrite E1. cbn [rbind]. rewrite E2. eexists; eexists; reflexivity. }
  destruct H3 as (ts & es & H3). unfold write_all in H3. match goal with |- context [rbind ?m _] => replace m with (@Ok (list tag * list elem) (ts, es)) by (symmetry; exact H3) end. eexists; eexists; reflexivity.
Qed.
(** a tree without declarations of its own can be written, and read back *)
Theorem fresh_write_read : forall EN dflt doc e, node_ok doc -> defaults_in EN doc -> tree_ok EN e -> fresh e ->
  exists t e', write dflt true [doc] e = Ok (t, e') /\ forall dflt' ctx, exists r, read dflt' ctx t = Ok r /\ same e r.
Proof.
  intros EN dflt doc e Hn Hd Ht Hf. destruct (write_fresh_gen EN dflt e Ht Hf true [doc] (Forall_cons _ Hn (Forall_nil _)) (Forall_cons _ Hd (Forall_nil _))) as (t & e' & H). exists t, e'. split; [exact H|].
  intros dflt' ctx. exact (write_read_partial EN dflt doc e t e' Hn Hd Ht H dflt' ctx).
Qed.

(** ** Reading names *)
Lemma is_ns_attr_shape : forall a, is_ns_attr a = true <-> a = lit "xmlns" ++ skipn 5 a.
Proof.
  intros a. unfold is_ns_attr. rewrite str_eqb_eq. split; intros H.
  - rewrite <- H. symmetry. apply firstn_skipn.
  - rewrite H. reflexivity.
Qed.
(** the declarations of a tag are its xmlns attributes *)
Lemma ns_decls_exact : forall attrs, NoDup (map fst attrs) -> ~ In (lit "xmlns:") (map fst attrs) -> NoDup (map fst (ns_decls attrs)) /\ forall p u, In (p, u) (ns_decls attrs) <-> In (ns_attr (p, u)) attrs.
Proof.
  intros attrs. unfold ns_decls.
  assert (G : forall (l m : list (str * str)), NoDup (map fst l) -> ~ In (lit "xmlns:") (map fst l) -> NoDup (map fst m) -> (forall p u, In p (map fst m) -> ~ In (fst (ns_attr (p, u))) (map fst l)) ->
    let r := fold_left (fun (m : list (str * str)) e => if is_ns_attr (fst e) then match skipn 5 (fst e) with [] => sset m [] (snd e) | c :: p => if c =? colon then sset m p (snd e) else m end else m) l m in
    NoDup (map fst r) /\ forall p u, In (p, u) r <-> In (p, u) m \/ In (ns_attr (p, u)) l).
  { clear attrs. induction l as [|[a v] l IH]; intros m Hl Hx Hm Hd; cbn [fold_left]; [split; [exact Hm|intros p u; split; [left; exact H|intros [H|[]]; exact H]]|].
    cbn [map fst] in Hl, Hx, Hd. inversion Hl as [|? ? Ha Hl']; subst. assert (Hx' : ~ In (lit "xmlns:") (map fst l)) by (intros H; apply Hx; right; exact H).
    assert (Skip : (forall p u, fst (ns_attr (p, u)) <> a) -> let r := fold_left (fun (m : list (str * str)) e => if is_ns_attr (fst e) then match skipn 5 (fst e) with [] => sset m [] (snd e) | c :: p => if c =? colon then sset m p (snd e) else m end else m) l m in
      NoDup (map fst r) /\ forall p u, In (p, u) r <-> In (p, u) m \/ In (ns_attr (p, u)) ((a, v) :: l)).
    { intros Hno. destruct (IH m Hl' Hx' Hm (fun p u H H2 => Hd p u H (or_intror H2))) as (R1 & R2). split; [exact R1|]. intros p u. rewrite R2. cbn [In]. split; [tauto|]. intros [H|[H|H]]; [tauto| |tauto]. exfalso. apply (Hno p u). rewrite <- H. reflexivity. }
    assert (Add : forall q, (forall u, fst (ns_attr (q, u)) = a) -> (forall p u, fst (ns_attr (p, u)) = a -> p = q) -> let r := fold_left (fun (m : list (str * str)) e => if is_ns_attr (fst e) then match skipn 5 (fst e) with [] => sset m [] (snd e) | c :: p => if c =? colon then sset m p (snd e) else m end else m) l (sset m q v) in
      NoDup (map fst r) /\ forall p u, In (p, u) r <-> In (p, u) m \/ In (ns_attr (p, u)) ((a, v) :: l)).
    { intros q Hq Hq2. assert (Hnq : ~ In q (map fst m)) by (intros H; apply (Hd q [] H); left; symmetry; apply Hq). destruct (IH (sset m q v) Hl' Hx' (dset_nodup _ str_eqb_eq _ _ _ Hm)) as (R1 & R2).
      { intros p u H. apply (dset_keys _ str_eqb_eq) in H. destruct H as [->|H]; [rewrite Hq; exact Ha|]. intros H2. apply (Hd p u H). right. exact H2. }
      split; [exact R1|]. intros p u. rewrite R2. rewrite (in_dset _ str_eqb_eq _ _ _ _ _ Hm). cbn [In]. split.
      - intros [[(-> & ->)|(_ & H)]|H]; [right; left|left; exact H|right; right; exact H]. specialize (Hq v). unfold ns_attr in *. cbn [fst snd] in *. rewrite Hq. reflexivity.
      - intros [H|[H|H]]; [left; right; split; [|exact H]|left; left|right; exact H]; [intros ->; apply Hnq; apply in_map_iff; exists (q, u); split; [reflexivity|exact H]|].
        assert (H1 := f_equal fst H). assert (H2 := f_equal snd H). cbn [fst] in H1. cbn [snd ns_attr] in H2. split; [apply (Hq2 p u); symmetry; exact H1|congruence]. }
    cbn [fst snd]. destruct (is_ns_attr a) eqn:E.
    - apply is_ns_attr_shape in E. destruct (skipn 5 a) as [|c q] eqn:Es.
      + apply Add; [intros u; rewrite E; reflexivity|]. intros p u H. destruct p; [reflexivity|]. rewrite E in H. discriminate.
      + destruct (c =? colon) eqn:Ec.
        * apply Z.eqb_eq in Ec. subst c. destruct q as [|c q]; [exfalso; apply Hx; left; exact E|]. apply Add; [intros u; rewrite E; reflexivity|]. intros p u H. rewrite E in H. destruct p as [|c' p]; [discriminate|]. cbn in H. injection H as H1 H2. congruence.
        * apply Skip. intros p u H. rewrite E in H. destruct p as [|c' p]; [discriminate|]. cbn in H. injection H as H1 _. rewrite <- H1 in Ec. discriminate.
    - apply Skip. intros p u H. assert (is_ns_attr a = true); [|congruence]. rewrite <- H. destruct p; reflexivity. }
  intros Hn Hx. destruct (G attrs [] Hn Hx ltac:(constructor)) as (R1 & R2); [intros p u []|]. split; [exact R1|]. intros p u. rewrite R2. cbn [In]. tauto.
Qed.
Lemma name_lookup : forall ns dflt ctx p, Forall node_ok (node_of ns :: ctx) -> p <> lit "xml" -> ctx <> [] ->
  match sget ns p with Some u => Some u | None => get_ns ctx dflt p end = get_ns (node_of ns :: ctx) dflt p.
Proof.
  intros ns dflt ctx p Hok Hp Hne. rewrite (get_ns_decl (node_of ns :: ctx)) by (try assumption; discriminate). cbn [decl]. change (p2n (node_of ns)) with ns. destruct (sget ns p) as [u|]; [reflexivity|]. inversion Hok as [|? ? Hn Hok2]. rewrite get_ns_decl by assumption. reflexivity.
Qed.
(** names, by their prefixes and the declarations in force *)
Definition resolves (sc : scope) (dflt : option str) (q : str) (x : xname) : Prop :=
  exists p a, q = p ++ colon :: a /\ no_colon p /\ no_colon a /\ snd x = a /\
    (p = lit "xml" /\ fst x = Some XML_NAMESPACE \/ p = lit "xmlns" /\ fst x = Some XMLNS_NAMESPACE \/ p <> lit "xml" /\ p <> lit "xmlns" /\ forall u, fst x = Some u <-> in_force sc dflt p u).
Lemma split_parts : forall q, (exists a, split_on colon q = [a] /\ q = a /\ no_colon a) \/ (exists p a, split_on colon q = [p; a] /\ q = p ++ colon :: a /\ no_colon p /\ no_colon a) \/ exists a b c l, split_on colon q = a :: b :: c :: l.
Proof.
  assert (D : forall q : str, no_colon q \/ exists p r, q = p ++ colon :: r /\ no_colon p).
  { induction q as [|c q IH]; [left; intros []|]. destruct (Z.eq_dec c colon) as [->|Hc]; [right; exists [], q; split; [reflexivity|intros []]|]. destruct IH as [H|(p & r & -> & H)]; [left; intros [E|E]; [congruence|exact (H E)]|].
    right. exists (c :: p), r. split; [reflexivity|]. intros [E|E]; [congruence|exact (H E)]. }
  intros q. destruct (D q) as [H|(p & r & -> & H)]; [left; exists q; split; [apply split_no; exact H|split; [reflexivity|exact H]]|]. rewrite split_app by exact H.
  destruct (D r) as [H2|(p2 & r2 & -> & H2)]; [right; left; exists p, r; rewrite split_no by exact H2; repeat split; assumption|]. rewrite split_app by exact H2. right; right. destruct (split_on colon r2) eqn:E; [|do 4 eexists; reflexivity].
  exfalso. destruct (D r2) as [H3|(p3 & r3 & -> & H3)]; [rewrite split_no in E by exact H3; discriminate|rewrite split_app in E by exact H3; discriminate].
Qed.
Lemma expand_exact : forall ns dflt ctx q b x, Forall node_ok (node_of ns :: ctx) -> ctx <> [] -> expand_qname q ns dflt ctx b = Ok x ->
  resolves (node_of ns :: ctx) dflt q x \/ no_colon q /\ (q = lit "xmlns" \/ q <> lit "xmlns" /\ snd x = q /\ (if b then forall u, fst x = Some u <-> in_force (node_of ns :: ctx) dflt [] u else fst x = Some NO_NAMESPACE)).
Proof.
  intros ns dflt ctx q b x Hok Hne H. unfold expand_qname in H. destruct (split_parts q) as [(a & Es & <- & Ha)|[(p & a & Es & -> & Hp & Ha)|(a & b' & c & l & Es)]]; rewrite Es in H; [| |discriminate].
  - right. split; [exact Ha|]. destruct (str_eqb q (lit "xmlns")) eqn:E; [left; apply str_eqb_eq; exact E|]. right. split; [apply str_eqb_neq; exact E|]. destruct b; injection H as <-; cbn [fst snd]; [|split; reflexivity]. split; [reflexivity|]. intros u.
    rewrite name_lookup by (try assumption; discriminate). apply scope_exact; [exact Hok|discriminate|discriminate].
  - left. exists p, a. split; [reflexivity|]. split; [exact Hp|]. split; [exact Ha|]. destruct (str_eqb p (lit "xml")) eqn:E1; [injection H as <-; split; [reflexivity|left; split; [apply str_eqb_eq; exact E1|reflexivity]]|].
    destruct (str_eqb p (lit "xmlns")) eqn:E2; [injection H as <-; split; [reflexivity|right; left; split; [apply str_eqb_eq; exact E2|reflexivity]]|]. apply str_eqb_neq in E1, E2. injection H as <-. cbn [fst snd]. split; [reflexivity|]. right; right. split; [exact E1|]. split; [exact E2|].
    intros u. rewrite name_lookup by assumption. apply scope_exact; [exact Hok|discriminate|exact E1].
Qed.
Lemma expand_attrs_exact : forall ns dflt ctx attrs done al, expand_attrs attrs ns dflt ctx done = Ok al ->
  (forall y v, In (y, v) al -> In (y, v) done \/ exists q, In (q, v) attrs /\ expand_qname q ns dflt ctx false = Ok y) /\
  (forall y, In y (map fst done) -> In y (map fst al)) /\ (forall q, In q (map fst attrs) -> exists y, expand_qname q ns dflt ctx false = Ok y /\ In y (map fst al)) /\ (NoDup (map fst done) -> NoDup (map fst al)).
Proof.
  intros ns dflt ctx. induction attrs as [|[q v] attrs IH]; intros done al H; cbn [expand_attrs] in H.
  - injection H as <-. split; [tauto|]. split; [tauto|]. split; [intros q []|tauto].
  - apply bind_ok in H. destruct H as (x & Hx & H). destruct (IH _ _ H) as (H1 & H2 & H3 & H4). split; [|split; [|split]].
    + intros y w Hy. destruct (H1 y w Hy) as [Hd|(q' & Hq & He)]; [|right; exists q'; split; [right; exact Hq|exact He]]. clear - Hd Hx. induction done as [|[k b] done IHd]; cbn [dset] in Hd.
      * destruct Hd as [[= <- <-]|[]]. right. exists q. split; [left; reflexivity|exact Hx].
      * destruct (xname_eqb k x) eqn:E; [|destruct Hd as [Hd|Hd]; [left; left; exact Hd|destruct (IHd Hd) as [Hd2|Hd2]; [left; right; exact Hd2|right; exact Hd2]]].
        destruct Hd as [[= <- <-]|Hd]; [|left; right; exact Hd]. apply xname_eqb_eq in E. subst k. right. exists q. split; [left; reflexivity|exact Hx].
    + intros y Hy. apply H2. apply (dset_keys _ xname_eqb_eq). right. exact Hy.
    + intros q' [<-|Hq]; [exists x; split; [exact Hx|]; apply H2; apply (dset_keys _ xname_eqb_eq); left; reflexivity|exact (H3 q' Hq)].
    + intros Hn. apply H4. apply (dset_nodup _ xname_eqb_eq). exact Hn.
Qed.
(** legal declarations give a node both maps of which agree *)
Lemma node_of_ok : forall ns, NoDup (map fst ns) -> (forall p u, In (p, u) ns -> prefix_ok p /\ u <> []) -> node_ok (node_of ns).
Proof.
  intros ns Hn Hl. split; [exact Hn|]. unfold node_of. cbn [p2n n2p].
  assert (G : forall (l m : list (str * str)), NoDup (map fst m) -> let r := fold_left (fun (m : list (str * str)) (e : str * str) => sset m (snd e) (fst e)) l m in NoDup (map fst r) /\ forall u p, In (u, p) r -> In (u, p) m \/ In (p, u) l).
  { induction l as [|[p u] l IH]; intros m Hm; cbn [fold_left fst snd]; [split; [exact Hm|tauto]|]. destruct (IH (sset m u p) (dset_nodup _ str_eqb_eq _ _ _ Hm)) as (H1 & H2). split; [exact H1|]. intros v q H. destruct (H2 v q H) as [H3|H3]; [|right; right; exact H3].
    apply (in_dset _ str_eqb_eq _ _ _ _ _ Hm) in H3. destruct H3 as [(-> & ->)|(_ & H3)]; [right; left; reflexivity|left; exact H3]. }
  destruct (G ns [] ltac:(constructor)) as (H1 & H2). split; [exact H1|]. split; [exact Hl|]. intros u p H. destruct (H2 u p H) as [[]|H3]. exact H3.
Qed.
(** the names of an element that was read, and of its attributes: the declarations are the xmlns attributes, the others
    are kept (once for each expanded name), and the prefixes are those in force; an element with none is given the document's default *)
Theorem read_names : forall dflt ctx q attrs cs x al nd l, ctx <> [] -> Forall node_ok ctx -> NoDup (map fst attrs) -> ~ In (lit "xmlns:") (map fst attrs) -> (forall p u, In (ns_attr (p, u)) attrs -> prefix_ok p /\ u <> []) -> q <> lit "xmlns" ->
  read dflt ctx (T q attrs cs) = Ok (E x al nd l) ->
  node_ok nd /\
  (forall p u, In (p, u) (p2n nd) <-> In (ns_attr (p, u)) attrs) /\
  (exists y, (resolves (nd :: ctx) dflt q y \/ no_colon q /\ snd y = q /\ forall u, fst y = Some u <-> in_force (nd :: ctx) dflt [] u) /\ snd x = snd y /\ (fst x = fst y \/ fst y = None /\ fst x = dflt)) /\
  NoDup (map fst al) /\
  (forall y v, In (y, v) al -> exists a, In (a, v) attrs /\ firstn 5 a <> lit "xmlns" /\ (resolves (nd :: ctx) dflt a y \/ no_colon a /\ y = (Some NO_NAMESPACE, a))) /\
  (forall a, In a (map fst attrs) -> firstn 5 a <> lit "xmlns" -> exists y, In y (map fst al) /\ (resolves (nd :: ctx) dflt a y \/ no_colon a /\ y = (Some NO_NAMESPACE, a))) /\
  List.length l = List.length cs.
Proof.
  intros dflt ctx q attrs cs x al nd l Hne Hok0 Hn Hx Hlg Hq H. cbn [read] in H. apply bind_ok in H. destruct H as (al' & H1 & H). apply bind_ok in H. destruct H as (y & H2 & H). apply bind_ok in H. destruct H as (l' & H3 & H). injection H as Ex -> <- ->.
  destruct (ns_decls_exact attrs Hn Hx) as (Hnd & Hdecl). assert (Hnode : node_ok (node_of (ns_decls attrs))) by (apply node_of_ok; [exact Hnd|intros p u H; apply Hlg; apply Hdecl; exact H]).
  assert (Hok : Forall node_ok (node_of (ns_decls attrs) :: ctx)) by (constructor; assumption). split; [exact Hnode|].
  destruct (expand_attrs_exact _ _ _ _ _ _ H1) as (A1 & _ & A3 & A4).
  assert (Hat : forall a z, firstn 5 a <> lit "xmlns" -> expand_qname a (ns_decls attrs) dflt ctx false = Ok z -> resolves (node_of (ns_decls attrs) :: ctx) dflt a z \/ no_colon a /\ z = (Some NO_NAMESPACE, a)).
  { intros a z Ha Hz. destruct (expand_exact _ _ _ _ _ _ Hok Hne Hz) as [R|(R & [->|(_ & R2 & R3)])]; [left; exact R|exfalso; apply Ha; reflexivity|]. right. split; [exact R|]. destruct z as [z1 z2]. cbn [fst snd] in R2, R3. rewrite R2, R3. reflexivity. }
  split; [exact (proj2 (ns_decls_exact attrs Hn Hx))|]. split.
  - exists y. split; [|destruct (fst y) eqn:E; subst x; [split; [reflexivity|left; exact E]|split; [reflexivity|right; split; reflexivity]]].
    destruct (expand_exact _ _ _ _ _ _ Hok Hne H2) as [R|(R & [->|(_ & R2 & R3)])]; [left; exact R|congruence|]. right. split; [exact R|]. split; assumption.
  - split; [apply A4; constructor|]. split; [|split].
    + intros z v Hz. destruct (A1 z v Hz) as [[]|(a & Ha & Hz2)]. apply filter_In in Ha. destruct Ha as (Ha & Hf). cbn [fst] in Hf. apply negb_true_iff in Hf. apply not_ns in Hf. exists a. split; [exact Ha|]. split; [exact Hf|]. exact (Hat a z Hf Hz2).
    + intros a Ha Hf. apply in_map_iff in Ha. destruct Ha as ((a' & v) & <- & Ha). cbn [fst] in *. destruct (A3 a') as (z & Hz1 & Hz2).
      * apply in_map_iff. exists (a', v). split; [reflexivity|]. apply filter_In. split; [exact Ha|]. cbn [fst]. apply not_ns in Hf. rewrite Hf. reflexivity.
      * exists z. split; [exact Hz2|exact (Hat a' z Hf Hz1)].
    + clear - H3. revert l H3. induction cs as [|c cs IH]; intros l H3; [injection H3 as <-; reflexivity|]. apply bind_ok in H3. destruct H3 as (e & _ & H3). apply bind_ok in H3. destruct H3 as (r & H4 & H3). injection H3 as <-. cbn [List.length]. f_equal. apply IH. exact H4.
Qed.

(** ** What goes wrong *)
Definition ud := lit "urn:d".
Definition uv := lit "urn:v".
(** an attribute in the namespace of its element is written without a prefix, and read back in no namespace *)
Theorem attribute_namespace_refuted : exists e t e' r, fresh e /\ e = E (Some ud, lit "a") [((Some ud, lit "x"), lit "1")] empty_node [] /\
  write None true [empty_node] e = Ok (t, e') /\ read None [empty_node] t = Ok r /\ (exists nd, r = E (Some ud, lit "a") [((Some NO_NAMESPACE, lit "x"), lit "1")] nd []) /\ ~ same e r.
Proof.
  do 4 eexists. split; [|split; [reflexivity|split; [vm_compute; reflexivity|split; [vm_compute; reflexivity|split; [eexists; reflexivity|]]]]]; [constructor; constructor|]. intros H. inversion H.
Qed.
(** an element in no namespace takes on its parent's *)
Theorem no_namespace_child_refuted : exists e t e' r, fresh e /\ e = E (Some ud, lit "a") [] empty_node [E (None, lit "b") [] empty_node []] /\
  write None true [empty_node] e = Ok (t, e') /\ read None [empty_node] t = Ok r /\ (exists n1 n2, r = E (Some ud, lit "a") [] n1 [E (Some ud, lit "b") [] n2 []]) /\ ~ same e r.
Proof.
  do 4 eexists. split; [|split; [reflexivity|split; [vm_compute; reflexivity|split; [vm_compute; reflexivity|split; [eexists; eexists; reflexivity|]]]]]; [repeat constructor|]. intros H. inversion H as [? ? ? ? ? ? Hf]; subst. inversion Hf as [|? ? ? ? H1]; subst. inversion H1.
Qed.
(** an empty declaration does not remove the default namespace: [<a xmlns="urn:d"><b xmlns=""><c/></b></a>] *)
Theorem undeclare_refuted : exists n1 n2 n3, read None [empty_node] (T (lit "a") [(lit "xmlns", ud)] [T (lit "b") [(lit "xmlns", [])] [T (lit "c") [] []]]) =
  Ok (E (Some ud, lit "a") [] n1 [E (Some [], lit "b") [] n2 [E (Some ud, lit "c") [] n3 []]]).
Proof. do 3 eexists. vm_compute. reflexivity. Qed.
(** a prefix that is nowhere declared is accepted *)
Theorem undeclared_prefix_refuted : exists n1, read None [empty_node] (T (lit "p:a") [(lit "q:x", lit "1")] []) = Ok (E (None, lit "a") [((None, lit "x"), lit "1")] n1 []).
Proof. eexists. vm_compute. reflexivity. Qed.
(** two attributes with the same expanded name are accepted, and the first lost *)
Theorem duplicate_attributes_refuted : exists n1, read None [empty_node] (T (lit "a") [(lit "xmlns:p", ud); (lit "xmlns:q", ud); (lit "p:x", lit "1"); (lit "q:x", lit "2")] []) =
  Ok (E (None, lit "a") [((Some ud, lit "x"), lit "2")] n1 []).
Proof. eexists. vm_compute. reflexivity. Qed.
(** what was read cannot always be written: [<a xmlns="urn:a" xmlns:p="urn:d" xmlns:q="urn:d"><p:b xmlns:q="urn:v" xmlns="urn:w"/></a>] *)
Theorem rewrite_refuted : exists t r, t = T (lit "a") [(lit "xmlns", lit "urn:a"); (lit "xmlns:p", ud); (lit "xmlns:q", ud)] [T (lit "p:b") [(lit "xmlns:q", uv); (lit "xmlns", lit "urn:w")] []] /\
  read None [empty_node] t = Ok r /\ write None true [empty_node] r = Err ValueError.
Proof. do 2 eexists. split; [reflexivity|]. split; vm_compute; reflexivity. Qed.

(** ** Examples *)
Definition ex_EN (u : str) := u = ud \/ u = lit "urn:w".
Definition ex_tree := E (Some ud, lit "a") [((Some uv, lit "x"), lit "1"); ((Some NO_NAMESPACE, lit "y"), lit "2")] empty_node
  [E (Some (lit "urn:w"), lit "b") [((Some XML_NAMESPACE, lit "lang"), lit "en"); ((Some uv, lit "z"), lit "3")] empty_node [E (Some ud, lit "c") [] empty_node []]].
Definition ex_doc := N [(lit "p", uv)] [(uv, lit "p")].
Ltac notin := let H := fresh in intros H; vm_compute in H; repeat (destruct H as [H|H]; [discriminate|]); exact H.
Ltac distinct := cbn [map fst]; repeat (apply NoDup_cons; [notin|]); apply NoDup_nil.
Lemma ex_node : node_ok empty_node.
Proof. split; [constructor|split; [constructor|split; intros ? ? []]]. Qed.
Example ex_tree_ok : tree_ok ex_EN ex_tree /\ fresh ex_tree /\ node_ok ex_doc /\ defaults_in ex_EN ex_doc.
Proof.
  assert (U1 : uri_ok ud) by (split; discriminate). assert (U2 : uri_ok (lit "urn:w")) by (split; discriminate). assert (U3 : uri_ok uv /\ ~ ex_EN uv) by (split; [split; discriminate|intros [H|H]; discriminate]).
  assert (D : defaults_in ex_EN empty_node) by (intros u []).
  split; [|split; [|split]].
  - assert (A1 : attr_ok ex_EN (Some uv, lit "x")) by (split; [notin|exists uv; split; [reflexivity|right; right; exact U3]]).
    assert (A2 : attr_ok ex_EN (Some NO_NAMESPACE, lit "y")) by (split; [notin|exists NO_NAMESPACE; split; [reflexivity|left; split; [reflexivity|discriminate]]]).
    assert (A3 : attr_ok ex_EN (Some XML_NAMESPACE, lit "lang")) by (split; [notin|exists XML_NAMESPACE; split; [reflexivity|right; left; reflexivity]]).
    assert (A4 : attr_ok ex_EN (Some uv, lit "z")) by (split; [notin|exists uv; split; [reflexivity|right; right; exact U3]]).
    apply tree_ok_e; [exact U1|left; reflexivity|notin|discriminate|distinct|cbn [map fst]; repeat (apply Forall_cons; [assumption|]); apply Forall_nil|exact ex_node|exact D|]. constructor; [|constructor].
    apply tree_ok_e; [exact U2|right; reflexivity|notin|discriminate|distinct|cbn [map fst]; repeat (apply Forall_cons; [assumption|]); apply Forall_nil|exact ex_node|exact D|]. constructor; [|constructor].
    apply tree_ok_e; [exact U1|left; reflexivity|notin|discriminate|constructor|constructor|exact ex_node|exact D|constructor].
  - repeat constructor.
  - split; [distinct|split; [distinct|split]]; intros p u [[= <- <-]|[]]; [|left; reflexivity]. split; [split; [notin|split; discriminate]|discriminate].
  - intros u [H|[]]. discriminate.
Qed.
Example ex_written : exists n1 n2 n3, write None true [ex_doc] ex_tree = Ok
  (T (lit "a") [(lit "xmlns", ud); (lit "xmlns:p", uv); (lit "p:x", lit "1"); (lit "y", lit "2")]
     [T (lit "b") [(lit "xmlns", lit "urn:w"); (lit "xml:lang", lit "en"); (lit "p:z", lit "3")] [T (lit "c") [(lit "xmlns", ud)] []]],
   E (Some ud, lit "a") [((Some uv, lit "x"), lit "1"); ((Some NO_NAMESPACE, lit "y"), lit "2")] n1
     [E (Some (lit "urn:w"), lit "b") [((Some XML_NAMESPACE, lit "lang"), lit "en"); ((Some uv, lit "z"), lit "3")] n2 [E (Some ud, lit "c") [] n3 []]]).
Proof. do 3 eexists. vm_compute. reflexivity. Qed.
Example ex_read_back : exists r, (let! te := write None true [ex_doc] ex_tree in read None [empty_node] (fst te)) = Ok r /\ same ex_tree r.
Proof. eexists. split; [vm_compute; reflexivity|]. repeat constructor. Qed.
(** a prefix declared again further in *)
Example ex_shadow : Forall node_ok [N [(lit "p", ud)] [(ud, lit "p")]; ex_doc] /\ get_ns [N [(lit "p", ud)] [(ud, lit "p")]; ex_doc] None (lit "p") = Some ud /\
  get_prefix [N [(lit "p", ud)] [(ud, lit "p")]; ex_doc] ud = Some (lit "p") /\ get_prefix [N [(lit "p", ud)] [(ud, lit "p")]; ex_doc] uv = None /\
  new_prefix [N [(lit "ns1", ud)] [(ud, lit "ns1")]; ex_doc] None = Ok (lit "ns2").
Proof.
  split; [|vm_compute; repeat split; reflexivity]. constructor; [|constructor; [exact (proj1 (proj2 (proj2 ex_tree_ok)))|constructor]].
  split; [distinct|split; [distinct|split]]; intros p u [[= <- <-]|[]]; [|left; reflexivity]. split; [split; [notin|split; discriminate]|discriminate].
Qed.
Example ex_read_names : let attrs := [(lit "xmlns:p", ud); (lit "x", lit "1"); (lit "p:y", lit "2")] in
  NoDup (map fst attrs) /\ ~ In (lit "xmlns:") (map fst attrs) /\ (forall p u, In (ns_attr (p, u)) attrs -> prefix_ok p /\ u <> []) /\ Forall node_ok [ex_doc] /\
  exists nd, read None [ex_doc] (T (lit "p:a") attrs []) = Ok (E (Some ud, lit "a") [((Some NO_NAMESPACE, lit "x"), lit "1"); ((Some ud, lit "y"), lit "2")] nd []).
Proof.
  cbv zeta. split; [distinct|]. split; [notin|]. split; [|split; [constructor; [exact (proj1 (proj2 (proj2 ex_tree_ok)))|constructor]|eexists; vm_compute; reflexivity]].
  intros p u [H|[H|[H|[]]]]; assert (H1 := f_equal fst H); assert (H2 := f_equal snd H); cbn [snd ns_attr] in H2; destruct p as [|c p]; try discriminate. cbn in H1.
  injection H1 as <- <-. subst u. split; [split; [notin|split; discriminate]|discriminate].
Qed.
Print Assumptions scope_exact.
Print Assumptions prefix_sound.
Print Assumptions new_prefix_unused.
Print Assumptions read_names.
Print Assumptions write_read_partial.
Print Assumptions fresh_write_read.
Print Assumptions attribute_namespace_refuted.
Print Assumptions no_namespace_child_refuted.
Print Assumptions undeclare_refuted.
Print Assumptions undeclared_prefix_refuted.
Print Assumptions duplicate_attributes_refuted.
Print Assumptions rewrite_refuted.
