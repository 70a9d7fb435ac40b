(** XML text: canonical children and equality. *)
From Coq Require Import Permutation.
From Verif Require Import Py Num CmSpec CdModel CdProofs XtSpec XtModel XtParse.

Lemma node_rect' : forall P : node -> Prop, (forall s, P (Text s)) -> (forall n a ch, Forall P ch -> P (Elem n a ch)) -> forall e, P e.
Proof.
  intros P HT HE. fix IH 1. intros [s|n a ch]; [apply HT|]. apply HE. induction ch as [|c ch IHc]; constructor; [apply IH|exact IHc].
Qed.

(** ** Collapsing white space *)
Lemma s32 : is_s 32 = true. Proof. reflexivity. Qed.
Fixpoint good (m : bool) (s : str) : bool :=
  match s with
  | [] => true
  | c :: r => if c =? 32 then negb m && good true r else negb (is_s c) && good false r
  end.
Lemma collapse_good : forall s m, good m (collapse_loop m s) = true.
Proof.
  induction s as [|c s IH]; intro m; cbn [collapse_loop]; [reflexivity|]. destruct (is_s c) eqn:E.
  - destruct m; cbn [app]; [apply IH|]. cbn [good]. change (32 =? 32) with true. cbv iota. rewrite IH. reflexivity.
  - cbn [good]. destruct (Z.eqb_spec c 32) as [->|N]; [discriminate|]. rewrite E, IH. reflexivity.
Qed.
Lemma good_collapse : forall s m, good m s = true -> collapse_loop m s = s.
Proof.
  induction s as [|c s IH]; intros m H; cbn [collapse_loop good] in *; [reflexivity|]. destruct (Z.eqb_spec c 32) as [->|N].
  - apply andb_true_iff in H as [H1 H2]. rewrite s32. destruct m; [discriminate|]. cbn [app]. rewrite IH by assumption. reflexivity.
  - apply andb_true_iff in H as [H1 H2]. destruct (is_s c); [discriminate|]. rewrite IH by assumption. reflexivity.
Qed.
Lemma collapse_space_idem : forall s m, collapse_space (collapse_space s m) m = collapse_space s m.
Proof.
  intros s m. unfold collapse_space at 2 3. pose proof (collapse_good s m) as G. destruct (collapse_loop m s) as [|c r] eqn:E.
  - unfold collapse_space. cbn [collapse_loop]. rewrite s32. destruct m; reflexivity.
  - unfold collapse_space. rewrite good_collapse by assumption. reflexivity.
Qed.
Lemma good_strip : forall t m, good m (t ++ [32]) = true -> good m t = true /\ (t <> [] -> last t 0 <> 32).
Proof.
  induction t as [|c t IH]; intros m H; [split; [reflexivity|congruence]|]. cbn [app good] in *. destruct (Z.eqb_spec c 32) as [->|N].
  - apply andb_true_iff in H as [H1 H2]. rewrite H1. destruct t as [|d t]; [discriminate|]. destruct (IH _ H2) as [I1 I2]. split; [rewrite I1; reflexivity|].
    intros _. apply I2. discriminate.
  - apply andb_true_iff in H as [H1 H2]. rewrite H1. destruct (IH _ H2) as [I1 I2]. split; [rewrite I1; reflexivity|].
    intros _. destruct t as [|d t]; [exact N|]. apply I2. discriminate.
Qed.
Lemma str_eqb_false : forall a b : str, str_eqb a b = false <-> a <> b.
Proof. intros a b. split; [intros H ->; rewrite str_eqb_refl in H; discriminate|]. intro H. destruct (str_eqb a b) eqn:E; [apply str_eqb_eq in E; contradiction|reflexivity]. Qed.
Definition trailing {A} (s : str) : list (piece A) :=
  let c := collapse_space s false in
  if str_eqb c [32] then [] else if last c 0 =? 32 then [PText (removelast c)] else [PText c].
Lemma trailing_idem : forall A s, @trailing A s = [] \/ exists t, @trailing A s = [PText t] /\ t <> [] /\ @trailing A t = [PText t].
Proof.
  intros A s. unfold trailing at 1 2. destruct (str_eqb (collapse_space s false) [32]) eqn:E1; [left; reflexivity|]. right. apply str_eqb_false in E1.
  assert (G : good false (collapse_space s false) = true) by (unfold collapse_space; pose proof (collapse_good s false) as G; destruct (collapse_loop false s); [reflexivity|exact G]).
  assert (N : collapse_space s false <> []) by (unfold collapse_space; destruct (collapse_loop false s); discriminate).
  assert (K : forall t, t <> [] -> good false t = true -> last t 0 <> 32 -> @trailing A t = [PText t]).
  { intros t Nt Gt Lt. unfold trailing, collapse_space. rewrite good_collapse by assumption. destruct t as [|c t]; [congruence|].
    destruct (str_eqb (c :: t) [32]) eqn:E; [apply str_eqb_eq in E; rewrite E in Lt; cbn in Lt; congruence|]. replace (last (c :: t) 0 =? 32) with false by lia. reflexivity. }
  destruct (Z.eqb_spec (last (collapse_space s false) 0) 32) as [L|L].
  - destruct (exists_last N) as (t & x & Ex). rewrite Ex in *. rewrite last_last in L. subst x. rewrite removelast_last.
    destruct (good_strip _ _ G) as [G1 G2]. assert (Nt : t <> []) by (intros ->; apply E1; reflexivity). exists t. auto.
  - eexists. split; [reflexivity|]. auto.
Qed.

(** ** Canonical children *)
Definition pmap {A B} (f : A -> B) (l : list (piece A)) : list (piece B) := map (fun c => match c with PText s => PText s | PElem a => PElem (f a) end) l.
Lemma loop_pmap : forall A B (f : A -> B) l d m, canonical_loop d m (pmap f l) = pmap f (canonical_loop d m l).
Proof.
  induction l as [|[s|e] l IH]; intros d m; cbn [pmap map canonical_loop].
  - destruct d as [d|]; [|reflexivity]. destruct (str_eqb _ _); [destruct m; reflexivity|]. destruct (_ =? _); reflexivity.
  - apply IH.
  - fold (pmap f l). rewrite IH. unfold pmap. rewrite map_app. cbn [map]. f_equal.
    destruct d as [d|]; [|reflexivity]. destruct (_ || _); reflexivity.
Qed.
Lemma canonical_pmap : forall A B (f : A -> B) p l, canonical_children p (pmap f l) = pmap f (canonical_children p l).
Proof.
  intros A B f [|] l; unfold canonical_children; [reflexivity|]. destruct l as [|[s|e] [|x l]]; try reflexivity.
  - change (pmap f (PText s :: x :: l)) with (PText s :: pmap f (x :: l)). rewrite <- loop_pmap. cbn [pmap map]. reflexivity.
  - change (pmap f (PElem e :: x :: l)) with (PElem (f e) :: pmap f (x :: l)). 
    change (pmap f (PElem e :: canonical_loop None false (x :: l))) with (PElem (f e) :: pmap f (canonical_loop None false (x :: l))).
    rewrite <- loop_pmap. cbn [pmap map]. reflexivity.
Qed.
(** no text next to text *)
Fixpoint apart {A} (l : list (piece A)) : Prop :=
  match l with
  | PText _ :: r => match r with PText _ :: _ => False | _ => apart r end
  | PElem _ :: r => apart r
  | [] => True
  end.
Definition filled {A} (l : list (piece A)) : Prop := Forall (fun c => match c with PText s => s <> [] | PElem _ => True end) l.
(** what the loop does after an element *)
Fixpoint body {A} (l : list (piece A)) : list (piece A) :=
  match l with
  | [] => []
  | PElem e :: r => PElem e :: body r
  | PText s :: r => match r with [] => trailing s | _ => PText (collapse_space s false) :: body r end
  end.
Lemma loop_body : forall A (l : list (piece A)), apart l -> canonical_loop None false l = body l.
Proof.
  intros A l. induction l as [|[s|e] l IH]; intro H; [reflexivity| |].
  - cbn [canonical_loop]. destruct l as [|[s'|e] l]; [reflexivity|destruct H|]. cbn [canonical_loop body]. cbn [apart] in H. specialize (IH H).
    cbn [canonical_loop body app] in IH. injection IH as IH. rewrite IH. reflexivity.
  - cbn [canonical_loop app body]. rewrite IH by assumption. reflexivity.
Qed.
Lemma collapse_nonempty : forall s m, collapse_space s m <> [].
Proof. intros s m. unfold collapse_space. destruct (collapse_loop m s); discriminate. Qed.
Lemma body_ok : forall A k (l : list (piece A)), (length l <= k)%nat -> apart l -> apart (body l) /\ filled (body l) /\ body (body l) = body l.
Proof.
  intros A. induction k as [|k IH]; intros l Hk H.
  - destruct l; [|cbn in Hk; lia]. repeat split; constructor.
  - destruct l as [|[s|e] l]; [repeat split; constructor| |].
    + destruct l as [|[s'|e] l].
      * cbn [body]. destruct (trailing_idem A s) as [->|(t & -> & Nt & Et)]; [repeat split; constructor|].
        cbn [body apart]. split; [constructor|]. split; [constructor; [exact Nt|constructor]|exact Et].
      * destruct H.
      * cbn [apart] in H. cbn [length] in Hk. destruct (IH l ltac:(lia) H) as (I1 & I2 & I3). cbn [body]. split; [exact I1|]. split.
        { constructor; [apply collapse_nonempty|]. constructor; [exact Logic.I|exact I2]. }
        rewrite collapse_space_idem, I3. reflexivity.
    + cbn [apart] in H. cbn [length] in Hk. destruct (IH l ltac:(lia) H) as (I1 & I2 & I3). cbn [body]. split; [exact I1|]. split; [constructor; [exact Logic.I|exact I2]|].
      rewrite I3. reflexivity.
Qed.
Lemma canonical_elem : forall A (e : A) r, apart r -> canonical_children false (PElem e :: r) = PElem e :: body r.
Proof. intros A e r H. unfold canonical_children. destruct r as [|x r]; [reflexivity|]. rewrite loop_body by assumption. reflexivity. Qed.
Definition leading {A} (s : str) : list (piece A) := if str_eqb (collapse_space s true) [32] then [] else [PText (collapse_space s true)].
Lemma canonical_text : forall A s (e : A) r, apart r -> canonical_children false (PText s :: PElem e :: r) = leading s ++ PElem e :: body r.
Proof.
  intros A s e r H. unfold canonical_children, leading. cbn [canonical_loop]. rewrite loop_body by assumption. cbn [negb orb].
  destruct (str_eqb _ _); reflexivity.
Qed.
Lemma canonical_ok : forall A (l : list (piece A)), apart l ->
  apart (canonical_children false l) /\ filled (canonical_children false l) /\ canonical_children false (canonical_children false l) = canonical_children false l.
Proof.
  intros A l H. destruct l as [|[s|e] l].
  - repeat split; constructor.
  - destruct l as [|[s'|e] l].
    + cbn [canonical_children]. split; [exact Logic.I|]. split; [constructor; [apply collapse_nonempty|constructor]|]. rewrite collapse_space_idem. reflexivity.
    + destruct H.
    + cbn [apart] in H. destruct (body_ok A _ l (le_n _) H) as (I1 & I2 & I3). rewrite canonical_text by assumption. unfold leading. destruct (str_eqb _ _) eqn:E.
      * cbn [app]. split; [exact I1|]. split; [constructor; [exact Logic.I|exact I2]|]. rewrite canonical_elem by assumption. rewrite I3. reflexivity.
      * cbn [app]. split; [exact I1|]. split; [constructor; [apply collapse_nonempty|constructor; [exact Logic.I|exact I2]]|].
        rewrite canonical_text by assumption. unfold leading. rewrite collapse_space_idem, E, I3. reflexivity.
  - cbn [apart] in H. destruct (body_ok A _ l (le_n _) H) as (I1 & I2 & I3). rewrite canonical_elem by assumption. split; [exact I1|]. split; [constructor; [exact Logic.I|exact I2]|].
    rewrite canonical_elem by assumption. rewrite I3. reflexivity.
Qed.

(** ** Attributes *)
Lemma leb_total : forall a b, str_leb a b = false -> str_leb b a = true.
Proof.
  induction a as [|x a IH]; intros [|y b] H; cbn [str_leb] in *; try discriminate; try reflexivity.
  destruct (x <? y) eqn:E1; [discriminate|]. destruct (y <? x) eqn:E2; [reflexivity|]. apply IH, H.
Qed.
Lemma leb_trans : forall a b c, str_leb a b = true -> str_leb b c = true -> str_leb a c = true.
Proof.
  induction a as [|x a IH]; intros [|y b] [|z c] H1 H2; cbn [str_leb] in *; try discriminate; try reflexivity.
  destruct (x <? y) eqn:E1; [|destruct (y <? x) eqn:E1'; [discriminate|]]; (destruct (y <? z) eqn:E2; [|destruct (z <? y) eqn:E2'; [discriminate|]]).
  - replace (x <? z) with true by lia. reflexivity.
  - replace (x <? z) with true by lia. reflexivity.
  - replace (x <? z) with true by lia. reflexivity.
  - replace (x <? z) with false by lia. replace (z <? x) with false by lia. eapply IH; eassumption.
Qed.
Lemma leb_antisym : forall a b, str_leb a b = true -> str_leb b a = true -> a = b.
Proof.
  induction a as [|x a IH]; intros [|y b] H1 H2; cbn [str_leb] in *; try discriminate; try reflexivity.
  destruct (x <? y) eqn:E1; [replace (y <? x) with false in H2 by lia; discriminate|]. destruct (y <? x) eqn:E2; [discriminate|].
  f_equal; [lia|]. apply IH; assumption.
Qed.
Inductive ordered : list (str * str) -> Prop :=
| or_nil : ordered []
| or_cons : forall x l, Forall (fun y => str_leb (fst x) (fst y) = true) l -> ordered l -> ordered (x :: l).
Lemma insert_perm : forall x l, Permutation (x :: l) (insert_name x l).
Proof.
  intros x l. induction l as [|y l IH]; cbn [insert_name]; [apply Permutation_refl|]. destruct (str_leb _ _); [apply Permutation_refl|].
  eapply Permutation_trans; [apply perm_swap|]. apply perm_skip, IH.
Qed.
Lemma sort_perm : forall a, Permutation a (sort_attrs a).
Proof. induction a as [|x a IH]; cbn; [constructor|]. eapply Permutation_trans; [apply perm_skip, IH|]. apply insert_perm. Qed.
Lemma insert_ordered : forall x l, ordered l -> ordered (insert_name x l).
Proof.
  intros x l H. induction H as [|y l Hy Ho IH]; cbn [insert_name]; [constructor; constructor|]. destruct (str_leb (fst x) (fst y)) eqn:E.
  - constructor; [|constructor; assumption]. constructor; [exact E|]. eapply Forall_impl; [|exact Hy]. intros z Hz. cbn beta in *. eapply leb_trans; eassumption.
  - constructor; [|exact IH]. eapply Permutation_Forall; [apply insert_perm|]. constructor; [apply leb_total, E|exact Hy].
Qed.
Lemma sort_ordered : forall a, ordered (sort_attrs a).
Proof. induction a; [constructor|]. apply insert_ordered. assumption. Qed.
Lemma ordered_sort : forall a, ordered a -> sort_attrs a = a.
Proof.
  intros a H. induction H as [|x l Hx Ho IH]; [reflexivity|]. change (sort_attrs (x :: l)) with (insert_name x (sort_attrs l)). rewrite IH.
  destruct l as [|y l]; [reflexivity|]. cbn [insert_name]. inversion Hx; subst. rewrite H1. reflexivity.
Qed.
Lemma ordered_unique : forall a b, ordered a -> ordered b -> Permutation a b -> NoDup (map fst a) -> a = b.
Proof.
  intros a b Ha. revert b. induction Ha as [|x a Hx Ha IH]; intros b Hb P N; [apply Permutation_nil in P; subst; reflexivity|].
  destruct Hb as [|y b Hy Hb]; [apply Permutation_sym, Permutation_nil in P; discriminate|].
  assert (E : x = y).
  { assert (Ix : In x (y :: b)) by (eapply Permutation_in; [exact P|left; reflexivity]).
    assert (Iy : In y (x :: a)) by (eapply Permutation_in; [apply Permutation_sym, P|left; reflexivity]).
    destruct Ix as [Ix|Ix]; [congruence|]. destruct Iy as [Iy|Iy]; [congruence|]. exfalso.
    rewrite Forall_forall in Hx, Hy. specialize (Hx y Iy). specialize (Hy x Ix). assert (F : fst x = fst y) by (apply leb_antisym; assumption).
    cbn [map] in N. inversion N as [|? ? N1 N2]; subst. apply N1. rewrite F. apply in_map, Iy. }
  subst y. f_equal. apply IH; [assumption|eapply Permutation_cons_inv; exact P|]. inversion N; assumption.
Qed.
Lemma sort_unique : forall a b, Permutation a b -> NoDup (map fst a) -> sort_attrs a = sort_attrs b.
Proof.
  intros a b P N. apply ordered_unique; try apply sort_ordered.
  - eapply Permutation_trans; [apply Permutation_sym, sort_perm|]. eapply Permutation_trans; [exact P|apply sort_perm].
  - eapply Permutation_NoDup; [|exact N]. apply Permutation_map, sort_perm.
Qed.
Lemma get_attr_in : forall n v a, NoDup (map fst a) -> get_attr n a = Some v <-> In (n, v) a.
Proof.
  intros n v a. unfold get_attr. induction a as [|[k w] a IH]; intro N; cbn [find fst]; [split; [discriminate|intros []]|].
  inversion N as [|? ? N1 N2]; subst. destruct (str_eqb k n) eqn:E.
  - apply str_eqb_eq in E as ->. split; [intro H; injection H as ->; left; reflexivity|]. intros [H|H]; [congruence|]. elim N1. cbn. apply (in_map fst _ _ H).
  - rewrite IH by assumption. split; [intro H; right; exact H|]. intros [H|H]; [injection H as -> ->; rewrite str_eqb_refl in E; discriminate|exact H].
Qed.
Lemma get_attr_none : forall n a, get_attr n a = None <-> ~ In n (map fst a).
Proof.
  intros n a. unfold get_attr. induction a as [|[k w] a IH]; cbn [find fst map]; [split; [intros _ []|reflexivity]|].
  destruct (str_eqb k n) eqn:E.
  - apply str_eqb_eq in E as ->. split; [discriminate|]. intro H. elim H. left. reflexivity.
  - rewrite IH. apply str_eqb_false in E. cbn [In]. tauto.
Qed.
Lemma get_attr_perm : forall n a b, Permutation a b -> NoDup (map fst a) -> get_attr n a = get_attr n b.
Proof.
  intros n a b P N. assert (N' : NoDup (map fst b)) by (eapply Permutation_NoDup; [apply Permutation_map, P|exact N]).
  destruct (get_attr n a) as [v|] eqn:E.
  - symmetry. apply get_attr_in; [assumption|]. eapply Permutation_in; [exact P|]. apply get_attr_in; assumption.
  - symmetry. apply get_attr_none. apply get_attr_none in E. intro K. apply E. eapply Permutation_in; [apply Permutation_sym, Permutation_map, P|exact K].
Qed.
Lemma preserves_force : forall p a, NoDup (map fst a) -> preserves p a = in_force p a.
Proof.
  intros p a N. unfold preserves, in_force, get_space. destruct (get_attr (lit "xml:space") a) as [v|] eqn:E.
  - apply get_attr_in in E; [|assumption].
    assert (existsb (fun x => str_eqb (fst x) (lit "xml:space")) a = true) as ->.
    { apply existsb_exists. exists (lit "xml:space", v). split; [assumption|apply str_eqb_refl]. }
    cbn [negb]. rewrite andb_false_r, orb_false_r. apply eq_true_iff_eq. rewrite existsb_exists. split.
    + intro H. exists (lit "xml:space", v). split; [assumption|]. cbn [fst snd]. rewrite H, str_eqb_refl. reflexivity.
    + intros ([k w] & Hi & H). cbn [fst snd] in H. apply andb_true_iff in H as [H1 H2]. apply str_eqb_eq in H1 as ->.
      apply get_attr_in in Hi; [|assumption]. apply get_attr_in in E; [|assumption]. rewrite Hi in E. injection E as ->. exact H2.
  - apply get_attr_none in E.
    assert (K : forall f, existsb (fun x : str * str => str_eqb (fst x) (lit "xml:space") && f x) a = false).
    { intro f. destruct (existsb _ a) eqn:Q; [|reflexivity]. apply existsb_exists in Q as (x & Hi & Q). apply andb_true_iff in Q as [Q _]. apply str_eqb_eq in Q.
      elim E. rewrite <- Q. apply in_map, Hi. }
    assert (existsb (fun x => str_eqb (fst x) (lit "xml:space") && str_eqb (snd x) (lit "preserve")) a = false) as ->
      by apply (K (fun x => str_eqb (snd x) (lit "preserve"))).
    assert (existsb (fun x => str_eqb (fst x) (lit "xml:space")) a = false) as ->.
    { apply not_true_is_false. intro Q. apply existsb_exists in Q as (x & Hi & Q). apply str_eqb_eq in Q. elim E. rewrite <- Q. apply in_map, Hi. }
    cbn. rewrite andb_true_r. reflexivity.
Qed.

(** ** Equality *)
Definition unp (l : list (piece node)) : list node := map (fun c => match c with PText s => Text s | PElem e => e end) l.
Lemma deep_pieces : forall A (f : node -> A) ch,
  map (fun c => match c with Text s => PText s | Elem _ _ _ => PElem (f c) end) ch = pmap f (pieces ch).
Proof. intros A f ch. unfold pieces, pmap. rewrite map_map. apply map_ext. intros [s|n a c]; reflexivity. Qed.
Fixpoint deep (p : bool) (e : node) : node :=
  match e with
  | Text s => Text s
  | Elem n a ch => Elem n (sort_attrs a) (unp (canonical_children (preserves p a)
      (map (fun c => match c with Text s => PText s | Elem _ _ _ => PElem (deep (preserves p a) c) end) ch)))
  end.
Lemma deep_elem : forall p n a ch, deep p (Elem n a ch) =
  Elem n (sort_attrs a) (unp (pmap (deep (preserves p a)) (canonical_children (preserves p a) (pieces ch)))).
Proof. intros. cbn [deep]. rewrite deep_pieces, canonical_pmap. reflexivity. Qed.

Lemma names_eqb_eq : forall a b, names_eqb a b = true <-> a = b.
Proof. intros a b. unfold names_eqb. destruct (list_eq_dec (list_eq_dec Z.eq_dec) a b); split; congruence. Qed.
Lemma sort_in : forall x a, In x (sort_attrs a) <-> In x a.
Proof. intros x a. split; apply Permutation_in; [apply Permutation_sym|]; apply sort_perm. Qed.
Lemma sort_nodup : forall a, NoDup (map fst a) -> NoDup (map fst (sort_attrs a)).
Proof. intros a N. eapply Permutation_NoDup; [apply Permutation_map, sort_perm|exact N]. Qed.
Lemma attrs_equal : forall a a', NoDup (map fst a) -> NoDup (map fst a') ->
  (names_eqb (map fst (sort_attrs a)) (map fst (sort_attrs a'))
    && forallb (fun x => match get_attr (fst x) a, get_attr (fst x) a' with Some v, Some v' => str_eqb v v' | _, _ => false end) (sort_attrs a)) = true
  <-> sort_attrs a = sort_attrs a'.
Proof.
  intros a a' N N'. rewrite andb_true_iff, names_eqb_eq, forallb_forall. split.
  - intros [H1 H2]. assert (K : forall n v, In (n, v) (sort_attrs a) -> In (n, v) (sort_attrs a')).
    { intros n v Hi. specialize (H2 _ Hi). cbn [fst] in H2. apply (proj1 (sort_in _ _)) in Hi. apply get_attr_in in Hi; [|assumption]. rewrite Hi in H2.
      destruct (get_attr n a') as [w|] eqn:E; [|discriminate]. apply str_eqb_eq in H2 as <-. apply sort_in, get_attr_in; assumption. }
    pose proof (sort_nodup a' N') as Nd. clear H2 N N'. revert H1 K Nd. generalize (sort_attrs a') as l'. generalize (sort_attrs a) as l.
    induction l as [|[n v] l IH]; intros [|[n' v'] l'] H1 K Nd; cbn [map fst] in H1; try discriminate; [reflexivity|]. injection H1 as <- H1. cbn [map fst] in Nd. inversion Nd as [|? ? N1 N2]; subst.
    assert (v' = v) as ->.
    { destruct (K n v (or_introl eq_refl)) as [Q|Q]; [injection Q as ->; reflexivity|]. elim N1. apply (in_map fst _ _ Q). }
    f_equal. apply IH; [assumption| |assumption]. intros k w Hi. destruct (K k w (or_intror Hi)) as [Q|Q]; [|exact Q].
    injection Q as -> ->. elim N1. rewrite <- H1. apply (in_map fst _ _ Hi).
  - intro H. split; [rewrite H; reflexivity|]. intros [n v] Hi. cbn [fst]. assert (Hi' : In (n, v) (sort_attrs a')) by (rewrite <- H; exact Hi).
    apply (proj1 (sort_in _ _)) in Hi, Hi'. apply get_attr_in in Hi, Hi'; [|assumption|assumption]. rewrite Hi, Hi'. apply str_eqb_refl.
Qed.
Definition every_dict := every dict.
Lemma unp_inj : forall l m, (forall s, ~ In (PElem (Text s)) l) -> (forall s, ~ In (PElem (Text s)) m) -> unp l = unp m -> l = m.
Proof.
  induction l as [|x l IH]; intros [|y m] H1 H2 E; try discriminate; [reflexivity|]. cbn [unp map] in E. injection E as E1 E2. f_equal.
  - destruct x as [s|[s|n a c]], y as [s'|[s'|n' a' c']]; try congruence; exfalso; solve [eapply H1; left; reflexivity|eapply H2; left; reflexivity].
  - apply IH; [intros s K; apply (H1 s); right; exact K|intros s K; apply (H2 s); right; exact K|exact E2].
Qed.
(** what can be in a canonical list is in the list *)
Lemma loop_in : forall A (e : A) l d m, In (PElem e) (canonical_loop d m l) <-> In (PElem e) l.
Proof.
  induction l as [|[s|x] l IH]; intros d m; cbn [canonical_loop].
  - split; [|intros []]. destruct d as [d|]; [|intros []]. destruct (str_eqb _ _); [destruct m|destruct (_ =? _)]; cbn; intuition discriminate.
  - rewrite IH. cbn [In]. intuition discriminate.
  - rewrite in_app_iff. cbn [In]. rewrite IH. assert (K : forall l, l = [] \/ (exists s, l = [PText s]) -> ~ In (PElem e) l).
    { intros ? [->|(s & ->)]; cbn; intuition discriminate. }
    split; [|tauto]. intros [H|H]; [|exact H]. exfalso. revert H. apply K. destruct d as [d|]; [|auto]. destruct (_ || _); eauto.
Qed.
Lemma canonical_in : forall A (e : A) p l, In (PElem e) (canonical_children p l) <-> In (PElem e) l.
Proof.
  intros A e [|] l; unfold canonical_children; [tauto|]. destruct l as [|[s|x] [|y l]]; try tauto.
  - cbn. intuition discriminate.
  - rewrite loop_in. cbn [In]. intuition discriminate.
  - cbn [In]. rewrite loop_in. cbn [In]. tauto.
Qed.
Lemma pieces_in : forall e ch, In (PElem e) (pieces ch) -> In e ch /\ exists n a c, e = Elem n a c.
Proof.
  intros e ch H. unfold pieces in H. apply in_map_iff in H as ([s|n a c] & H & Hi); [discriminate|]. injection H as <-. eauto.
Qed.
Lemma equal_deep : forall e p q e', every dict p e -> every dict q e' -> (exists n a c, e = Elem n a c) -> (exists n a c, e' = Elem n a c) ->
  equal e e' p q = true <-> deep p e = deep q e'.
Proof.
  induction e as [s|n a ch IH] using node_rect'; intros p q e' D D' (n0 & a0 & c0 & E) (n1 & a1 & c1 & ->); [discriminate|]. clear E n0 a0 c0.
  inversion D as [|? ? ? ? N C]; subst. inversion D' as [|? ? ? ? N' C']; subst. unfold dict in N, N'. rewrite <- preserves_force in C, C' by assumption.
  rewrite !deep_elem. cbn [equal].
  rewrite (deep_pieces _ (fun c x => equal c x (preserves p a) (preserves q a1))).
  rewrite canonical_pmap. set (P := preserves p a) in *. set (Q := preserves q a1) in *.
  assert (L : forall l m, (forall e, In (PElem e) l -> In e ch /\ exists n a c, e = Elem n a c) -> (forall e, In (PElem e) m -> In e c1 /\ exists n a c, e = Elem n a c) ->
    equal_children (fun (f : node -> bool) x => f x) (pmap (fun c x => equal c x P Q) l) m = true <-> unp (pmap (deep P) l) = unp (pmap (deep Q) m)).
  { induction l as [|x l IHl]; intros [|y m] Hl Hm.
    - cbn. tauto.
    - cbn. destruct y; split; discriminate.
    - cbn. destruct x; split; discriminate.
    - assert (Il : equal_children (fun (f : node -> bool) x => f x) (pmap (fun c x => equal c x P Q) l) m = true <-> unp (pmap (deep P) l) = unp (pmap (deep Q) m)).
      { apply IHl; intros z Hz; [apply Hl|apply Hm]; right; exact Hz. }
      destruct x as [s|x], y as [s'|y]; cbn [pmap map equal_children unp].
      + rewrite andb_true_iff. fold (pmap (fun c x => equal c x P Q) l). rewrite Il. rewrite str_eqb_eq. split; [intros [-> H]; unfold unp, pmap in H; rewrite H; reflexivity|intro H; injection H as -> H; split; [reflexivity|exact H]].
      + destruct (Hm y (or_introl eq_refl)) as (_ & ? & ? & ? & ->). split; discriminate.
      + destruct (Hl x (or_introl eq_refl)) as (_ & ? & ? & ? & ->). split; discriminate.
      + rewrite andb_true_iff. fold (pmap (fun c x => equal c x P Q) l). rewrite Il.
        destruct (Hl x (or_introl eq_refl)) as (Ix & Ex). destruct (Hm y (or_introl eq_refl)) as (Iy & Ey).
        rewrite Forall_forall in IH, C, C'. rewrite (IH x Ix P Q y (C x Ix) (C' y Iy) Ex Ey).
        split; [intros [H1 H2]; unfold unp, pmap in H2; rewrite H1, H2; reflexivity|intro H; injection H as H1 H2; split; [exact H1|exact H2]]. }
  assert (L' := L (canonical_children P (pieces ch)) (canonical_children Q (pieces c1)) ltac:(intros x Hx; apply canonical_in in Hx; apply pieces_in, Hx)
    ltac:(intros x Hx; apply canonical_in in Hx; apply pieces_in, Hx)).
  rewrite <- andb_assoc, <- andb_assoc, andb_true_iff, andb_assoc, andb_true_iff, L', (attrs_equal a a1 N N'), str_eqb_eq.
  split; [intros (-> & -> & ->); reflexivity|intro H; injection H; auto].
Qed.
