(** Proofs for C40. *)
From Verif Require Import Py Num UriModel UriRel HttpModel HttpParamModel HttpVersionModel HttpVersionSpec.

Lemma is_digit_ok : forall c, is_digit c = true <-> dec_digit c.
Proof. intros c. unfold is_digit, dec_digit. rewrite andb_true_iff, !Z.leb_le. reflexivity. Qed.
Lemma is_digit_no : forall c, is_digit c = false <-> ~ dec_digit c.
Proof. intros c. rewrite <- is_digit_ok. destruct (is_digit c); split; congruence. Qed.
Definition nodig (s : str) : Prop := match s with c :: _ => ~ dec_digit c | [] => True end.
Definition stop (t : str) : Prop := match t with c :: _ => c = 46 | [] => True end.
Lemma stop_nodig : forall t, stop t -> nodig t.
Proof. intros [|c t] H; [exact I|]. cbn in *. subst. unfold dec_digit. lia. Qed.
Lemma prefix_ok : forall d t, Forall dec_digit d -> nodig t -> digits_prefix (d ++ t) = (d, t).
Proof.
  intros d t F N. induction F as [|c d H F IH].
  - destruct t as [|c t]; [reflexivity|]. cbn in *. apply is_digit_no in N. rewrite N. reflexivity.
  - cbn [app digits_prefix]. apply is_digit_ok in H. rewrite H, IH. reflexivity.
Qed.
Lemma runs_head : forall b s l, runs b s l -> exists c r, s = c :: r /\ (if b then dec_digit c else nondigit c).
Proof. intros b s l H. destruct H as [d N F|q N F|d s l N F _|q s l N F _]; (destruct F as [|c x Hc F]; [congruence|]); eexists _, _; (split; [reflexivity|exact Hc]). Qed.
Lemma runs_nodig : forall s l t, runs false s l -> nodig (s ++ t).
Proof. intros s l t H. destruct (runs_head _ _ _ H) as (c & r & -> & [Hc _]). exact Hc. Qed.

Definition opt_mod (m : str) : list vval := match m with [] => [] | _ => [VStr m] end.
Definition final (r : vitem * str * str) : vitem * str :=
  let '(item, m, t) := r in
  (match m with [] => match item with [] => [] | _ => item ++ [VStr (lit "~")] end | _ => item ++ [VStr m] end, t).

Lemma step_digits : forall f d t item m, d <> [] -> Forall dec_digit d -> nodig t ->
  item_loop (S f) (d ++ t) item m = item_loop f t ((item ++ opt_mod m) ++ [VInt (decimal d)]) [].
Proof.
  intros f d t item m N F H. destruct F as [|c d Hc F]; [congruence|]. cbn [app item_loop].
  replace (c =? 46) with false by (symmetry; apply Z.eqb_neq; unfold dec_digit in Hc; lia).
  pose proof (prefix_ok (c :: d) t (Forall_cons _ Hc F) H) as P. cbn [app] in P. rewrite P. destruct m; cbn [opt_mod]; [rewrite app_nil_r|]; reflexivity.
Qed.
Lemma step_txt : forall f c t item m, nondigit c -> item <> [] -> item_loop (S f) (c :: t) item m = item_loop f t item (m ++ [c]).
Proof.
  intros f c t item m [H1 H2] N. cbn [item_loop]. apply Z.eqb_neq in H2. rewrite H2. cbn [digits_prefix]. apply is_digit_no in H1. rewrite H1.
  destruct item; [congruence|reflexivity].
Qed.
Lemma step_first : forall f c t m, nondigit c -> item_loop (S f) (c :: t) [] m = item_loop (S f) (c :: t) [VInt (-1)] m.
Proof. intros f c t m [H1 H2]. cbn [item_loop]. apply Z.eqb_neq in H2. rewrite H2. cbn [digits_prefix]. apply is_digit_no in H1. rewrite H1. reflexivity. Qed.
Lemma steps_txt : forall q f t item m, Forall nondigit q -> item <> [] -> item_loop (length q + f) (q ++ t) item m = item_loop f t item (m ++ q).
Proof.
  induction q as [|c q IH]; intros f t item m F N; [cbn; rewrite app_nil_r; reflexivity|]. inversion F; subst. cbn [length plus app]. rewrite step_txt by assumption.
  rewrite IH by assumption. rewrite <- app_assoc. reflexivity.
Qed.
Lemma loop_stop : forall f t item m, stop t -> item_loop f t item m = (item, m, t).
Proof. intros [|f] [|c t] item m H; try reflexivity. cbn in *. subst c. reflexivity. Qed.
Lemma close_cons : forall x l, l <> [] -> close (x :: l) = x :: close l.
Proof. intros x l N. unfold close. destruct l as [|y l]; [congruence|]. change (last (x :: y :: l) (VStr [])) with (last (y :: l) (VStr [])). destruct (last (y :: l) (VStr [])); reflexivity. Qed.
Lemma runs_ne : forall b s l, runs b s l -> l <> [].
Proof. intros b s l H. destruct H; discriminate. Qed.
Lemma loop_runs : forall b w l, runs b w l -> forall f t item m, stop t -> (length w <= f)%nat ->
  (if b then True else item <> [] /\ m = []) ->
  final (item_loop f (w ++ t) item m) = (item ++ opt_mod m ++ close l, t).
Proof.
  intros b w l H. induction H as [d N F|q N F|d s l N F H IH|q s l N F H IH]; intros f t item m St Hf Hb.
  - destruct f as [|f]; [destruct d; cbn in Hf; [congruence|lia]|]. rewrite step_digits by (auto using stop_nodig). rewrite loop_stop by exact St. cbn [final close last].
    destruct ((item ++ opt_mod m) ++ [VInt (decimal d)]) eqn:E; [destruct (item ++ opt_mod m); discriminate|]. rewrite <- E, <- !app_assoc. reflexivity.
  - destruct Hb as [Ni ->]. replace f with (length q + (f - length q))%nat by lia. rewrite steps_txt by assumption. rewrite loop_stop by exact St.
    cbn [app final]. destruct q; [congruence|reflexivity].
  - rewrite app_length in Hf. destruct f as [|f]; [destruct d; cbn in Hf; [congruence|lia]|]. rewrite <- app_assoc, step_digits by (auto; eapply runs_nodig; exact H).
    rewrite IH; [|exact St|destruct d; [congruence|cbn in Hf; lia]|split; [destruct (item ++ opt_mod m); discriminate|reflexivity]].
    cbn [opt_mod app]. rewrite close_cons by (eapply runs_ne; exact H). rewrite <- !app_assoc. reflexivity.
  - destruct Hb as [Ni ->]. rewrite app_length in Hf. rewrite <- app_assoc. replace f with (length q + (f - length q))%nat by lia. rewrite steps_txt by assumption.
    cbn [app]. rewrite IH; [|exact St|lia|exact I]. rewrite close_cons by (eapply runs_ne; exact H). destruct q; [congruence|]. reflexivity.
Qed.
Lemma runs_exist : forall n w, (length w <= n)%nat -> w <> [] -> ~ In 46 w -> exists b l, runs b w l.
Proof.
  induction n as [|n IH]; intros w L N D; [destruct w; cbn in L; [congruence|lia]|]. destruct w as [|c w]; [congruence|].
  assert (Hc : c <> 46) by (intros ->; apply D; left; reflexivity). assert (D' : ~ In 46 w) by (intros X; apply D; right; exact X). cbn in L.
  destruct (is_digit c) eqn:E.
  - apply is_digit_ok in E. exists true. destruct (list_eq_dec Z.eq_dec w []) as [->|Nw]; [eexists; apply r_num; [discriminate|constructor; [exact E|constructor]]|].
    destruct (IH w) as ([|] & l & R); [lia|exact Nw|exact D'| |].
    + inversion R as [d N1 F|q N1 F|d s l' N1 F H|q s l' N1 F H]; subst.
      * eexists. apply (r_num (c :: w)); [discriminate|constructor; assumption].
      * eexists. apply (r_num_cons (c :: d) s); [discriminate|constructor; assumption|exact H].
    + eexists. apply (r_num_cons [c] w); [discriminate|constructor; [exact E|constructor]|exact R].
  - apply is_digit_no in E. exists false. assert (ND : nondigit c) by (split; assumption). destruct (list_eq_dec Z.eq_dec w []) as [->|Nw]; [eexists; apply r_txt; [discriminate|constructor; [exact ND|constructor]]|].
    destruct (IH w) as ([|] & l & R); [lia|exact Nw|exact D'| |].
    + eexists. apply (r_txt_cons [c] w); [discriminate|constructor; [exact ND|constructor]|exact R].
    + inversion R as [d N1 F|q N1 F|d s l' N1 F H|q s l' N1 F H]; subst.
      * eexists. apply (r_txt (c :: w)); [discriminate|constructor; assumption].
      * eexists. apply (r_txt_cons (c :: q) s); [discriminate|constructor; assumption|exact H].
Qed.
(** the item of a text without dots *)
Definition item (w : str) : vitem := fst (final (item_loop (length w) w [] [])).
Lemma item_ok : forall w t f, ~ In 46 w -> stop t -> (length w <= f)%nat ->
  final (item_loop f (w ++ t) [] []) = (item w, t) /\ item_of w (item w).
Proof.
  intros w t f D St Hf. destruct w as [|c w].
  - cbn [app]. rewrite loop_stop by exact St. split; [reflexivity|constructor].
  - destruct (runs_exist (length (c :: w)) (c :: w)) as (b & l & R); [lia|discriminate|exact D|]. pose proof (runs_head _ _ _ R) as (x & r & E & Hx). inversion E; subst x r.
    set (v := if b then close l else VInt (-1) :: close l).
    assert (G : forall t f, stop t -> (length (c :: w) <= f)%nat -> final (item_loop f ((c :: w) ++ t) [] []) = (v, t)).
    { intros t0 f0 St0 Hf0. destruct b; [apply (loop_runs true _ _ R); auto|]. destruct f0 as [|f0]; [cbn in Hf0; lia|]. cbn [app]. rewrite step_first by exact Hx.
      change (c :: w ++ t0) with ((c :: w) ++ t0). rewrite (loop_runs false _ _ R); [reflexivity|exact St0|exact Hf0|split; [discriminate|reflexivity]]. }
    assert (Ei : item (c :: w) = v).
    { unfold item. specialize (G [] (length (c :: w)) I (le_n _)). rewrite app_nil_r in G. rewrite G. reflexivity. }
    rewrite Ei. split; [apply G; assumption|]. unfold v. destruct b; constructor; exact R.
Qed.
(** [explode] one part at a time *)
Lemma split_first : forall s : str, ~ In 46 s \/ exists a b, s = a ++ 46 :: b /\ ~ In 46 a.
Proof.
  induction s as [|c s IH]; [left; intros []|]. destruct (Z.eq_dec c 46) as [->|N].
  - right. exists [], s. split; [reflexivity|intros []].
  - destruct IH as [H|(a & b & -> & H)]; [left; intros [X|X]; [congruence|contradiction]|]. right. exists (c :: a), b. split; [reflexivity|]. intros [X|X]; [congruence|contradiction].
Qed.
Lemma final_eq : forall r, (let '(i, m, t) := r in
   (match m with [] => match i with [] => [] | _ => i ++ [VStr (lit "~")] end | _ => i ++ [VStr m] end, t)) = final r.
Proof. intros [[i m] t]. reflexivity. Qed.
Lemma explode_step : forall f s, s <> [] -> explode_loop (S f) s =
  let (i, t) := final (item_loop (length s) s [] []) in i :: explode_loop f (match t with 46 :: r => r | _ => t end).
Proof. intros f [|c s] N; [congruence|]. cbn [explode_loop]. destruct (item_loop (length (c :: s)) (c :: s) [] []) as [[i m] t]. reflexivity. Qed.
Lemma explode_fuel : forall f g s, (length s <= f)%nat -> (length s <= g)%nat -> explode_loop f s = explode_loop g s.
Proof.
  induction f as [|f IH]; intros g s Hf Hg; [destruct s; cbn in Hf; [destruct g; reflexivity|lia]|].
  destruct s as [|c s]; [destruct g; reflexivity|]. destruct g as [|g]; [cbn in Hg; lia|]. rewrite !explode_step by discriminate.
  destruct (split_first (c :: s)) as [D|(a & b & E & D)].
  - destruct (item_ok (c :: s) [] (length (c :: s)) D I (le_n _)) as [E _]. rewrite app_nil_r in E. rewrite E. destruct f, g; reflexivity.
  - rewrite E. destruct (item_ok a (46 :: b) (length (a ++ 46 :: b)) D eq_refl) as [X _]; [rewrite app_length; lia|]. rewrite X.
    f_equal. apply (f_equal (@length Z)) in E. rewrite app_length in E. cbn in *. apply IH; lia.
Qed.
Lemma explode_nil : explode [] = [].
Proof. reflexivity. Qed.
Lemma explode_dot : forall a b, ~ In 46 a -> explode (a ++ 46 :: b) = item a :: explode b.
Proof.
  intros a b D. unfold explode. rewrite app_length. cbn [length]. rewrite Nat.add_succ_r. rewrite explode_step by (destruct a; discriminate).
  destruct (item_ok a (46 :: b) (length (a ++ 46 :: b)) D eq_refl) as [X _]; [rewrite app_length; lia|]. rewrite X.
  f_equal. apply explode_fuel; lia.
Qed.
Lemma explode_last : forall a, ~ In 46 a -> a <> [] -> explode a = [item a].
Proof.
  intros a D N. unfold explode. destruct a as [|c a]; [congruence|]. cbn [length]. rewrite explode_step by discriminate.
  destruct (item_ok (c :: a) [] (length (c :: a)) D I (le_n _)) as [X _]. rewrite app_nil_r in X. rewrite X. f_equal. destruct (length a); reflexivity.
Qed.
Lemma dot_parts_dot : forall a b, ~ In 46 a -> dot_parts (a ++ 46 :: b) = a :: dot_parts b.
Proof.
  intros a b D. unfold dot_parts. rewrite split_app by exact D. pose proof (split_nonempty 46 b) as N. destruct (split_on 46 b) as [|x l]; [congruence|].
  change (last (a :: x :: l) []) with (last (x :: l) []). change (removelast (a :: x :: l)) with (a :: removelast (x :: l)). destruct (last (x :: l) []); reflexivity.
Qed.
Lemma dot_parts_last : forall a, ~ In 46 a -> a <> [] -> dot_parts a = [a].
Proof. intros a D N. unfold dot_parts. rewrite split_no by exact D. destruct a; [congruence|reflexivity]. Qed.
(** a text by its parts *)
Lemma parts_ind : forall P : str -> Prop, P [] -> (forall a, a <> [] -> ~ In 46 a -> P a) -> (forall a b, ~ In 46 a -> P b -> P (a ++ 46 :: b)) -> forall s, P s.
Proof.
  intros P H0 H1 H2 s. remember (length s) as n eqn:E. assert (L : (length s <= n)%nat) by lia. clear E. revert s L.
  induction n as [|n IH]; intros s L; [destruct s; [exact H0|cbn in L; lia]|]. destruct (split_first s) as [D|(a & b & -> & D)].
  - destruct s; [exact H0|]. apply H1; [discriminate|exact D].
  - apply H2; [exact D|]. apply IH. rewrite app_length in L. cbn in L. lia.
Qed.
Lemma explode_parts : forall v, Forall2 item_of (dot_parts v) (explode v) /\ explode v = map item (dot_parts v).
Proof.
  apply parts_ind.
  - split; constructor.
  - intros a N D. rewrite dot_parts_last, explode_last by assumption. split; [|reflexivity]. constructor; [|constructor]. apply (item_ok a [] (length a) D I (le_n _)).
  - intros a b D [F E]. rewrite dot_parts_dot, explode_dot by assumption. split; [|cbn; congruence]. constructor; [|exact F]. apply (item_ok a [] (length a) D I (le_n _)).
Qed.

(** ** order *)
Section Lex.
  Context {A : Type} (cmp : A -> A -> comparison).
  Hypothesis cmp_eq : forall x y, cmp x y = Eq <-> x = y.
  Hypothesis cmp_sym : forall x y, cmp y x = CompOpp (cmp x y).
  Hypothesis cmp_trans : forall x y z, cmp x y = Lt -> cmp y z = Lt -> cmp x z = Lt.
  Fixpoint lex (a b : list A) : comparison :=
    match a, b with
    | [], [] => Eq
    | [], _ :: _ => Lt
    | _ :: _, [] => Gt
    | x :: a', y :: b' => match cmp x y with Eq => lex a' b' | c => c end
    end.
  Lemma lex_eq : forall a b, lex a b = Eq <-> a = b.
  Proof.
    induction a as [|x a IH]; intros [|y b]; cbn; try (split; [discriminate|discriminate]); [split; reflexivity|].
    destruct (cmp x y) eqn:E.
    - apply cmp_eq in E. subst. rewrite IH. split; congruence.
    - split; [discriminate|]. intros X. inversion X; subst. assert (cmp y y = Eq) by (apply cmp_eq; reflexivity). congruence.
    - split; [discriminate|]. intros X. inversion X; subst. assert (cmp y y = Eq) by (apply cmp_eq; reflexivity). congruence.
  Qed.
  Lemma lex_sym : forall a b, lex b a = CompOpp (lex a b).
  Proof. induction a as [|x a IH]; intros [|y b]; cbn; try reflexivity. rewrite (cmp_sym x y). destruct (cmp x y); cbn; [apply IH|reflexivity|reflexivity]. Qed.
  Lemma lex_trans : forall a b c, lex a b = Lt -> lex b c = Lt -> lex a c = Lt.
  Proof.
    induction a as [|x a IH]; intros [|y b] [|z c]; cbn; try discriminate; try reflexivity.
    destruct (cmp x y) eqn:E1; try discriminate.
    - apply cmp_eq in E1. subst. destruct (cmp y z); try discriminate; [apply IH|reflexivity].
    - intros _. destruct (cmp y z) eqn:E2; try discriminate.
      + apply cmp_eq in E2. subst. rewrite E1. reflexivity.
      + rewrite (cmp_trans x y z E1 E2). reflexivity.
  Qed.
  Lemma lex_app : forall p a b, lex (p ++ a) (p ++ b) = lex a b.
  Proof. induction p as [|x p IH]; intros a b; [reflexivity|]. cbn. assert (E : cmp x x = Eq) by (apply cmp_eq; reflexivity). rewrite E. apply IH. Qed.
End Lex.
Definition s_lex : str -> str -> comparison := lex Z.compare.
Lemma z_eq : forall x y, (x ?= y) = Eq <-> x = y. Proof. apply Z.compare_eq_iff. Qed.
Lemma z_sym : forall x y, (y ?= x) = CompOpp (x ?= y). Proof. intros. apply Z.compare_antisym. Qed.
Lemma z_trans : forall x y z, (x ?= y) = Lt -> (y ?= z) = Lt -> (x ?= z) = Lt. Proof. intros x y z. rewrite !Z.compare_lt_iff. lia. Qed.
Definition v_lex (a b : vval) : comparison :=
  match a, b with VInt x, VInt y => x ?= y | VStr x, VStr y => s_lex x y | VInt _, VStr _ => Lt | VStr _, VInt _ => Gt end.
Lemma v_eq : forall x y, v_lex x y = Eq <-> x = y.
Proof.
  intros [x|x] [y|y]; cbn; try (split; discriminate); [rewrite z_eq|unfold s_lex; rewrite (lex_eq _ z_eq)]; split; congruence.
Qed.
Lemma v_sym : forall x y, v_lex y x = CompOpp (v_lex x y).
Proof. intros [x|x] [y|y]; cbn; try reflexivity; [apply z_sym|apply (lex_sym _ z_sym)]. Qed.
Lemma v_trans : forall x y z, v_lex x y = Lt -> v_lex y z = Lt -> v_lex x z = Lt.
Proof. intros [x|x] [y|y] [z|z]; cbn; try discriminate; try reflexivity; [apply z_trans|apply (lex_trans _ z_eq z_trans)]. Qed.
Definition i_lex : vitem -> vitem -> comparison := lex v_lex.
Definition x_lex : list vitem -> list vitem -> comparison := lex i_lex.
Lemma i_eq : forall x y, i_lex x y = Eq <-> x = y. Proof. apply (lex_eq _ v_eq). Qed.
Lemma i_sym : forall x y, i_lex y x = CompOpp (i_lex x y). Proof. apply (lex_sym _ v_sym). Qed.
Lemma i_trans : forall x y z, i_lex x y = Lt -> i_lex y z = Lt -> i_lex x z = Lt. Proof. apply (lex_trans _ v_eq v_trans). Qed.
Lemma x_eq : forall x y, x_lex x y = Eq <-> x = y. Proof. apply (lex_eq _ i_eq). Qed.
Lemma x_sym : forall x y, x_lex y x = CompOpp (x_lex x y). Proof. apply (lex_sym _ i_sym). Qed.
Lemma x_trans : forall x y z, x_lex x y = Lt -> x_lex y z = Lt -> x_lex x z = Lt. Proof. apply (lex_trans _ i_eq i_trans). Qed.

Definition opb (op : cmpop) (c : comparison) : bool :=
  match op, c with
  | OpLt, Lt | OpGt, Gt | OpLe, Lt | OpLe, Eq | OpGe, Gt | OpGe, Eq => true
  | _, _ => false
  end.
Lemma z_cmp_ok : forall op x y, z_cmp op x y = opb op (x ?= y).
Proof.
  intros op x y. destruct (Z.compare_spec x y); destruct op; cbn; rewrite ?Z.ltb_lt, ?Z.ltb_ge, ?Z.leb_le, ?Z.leb_gt;
    first [apply Z.ltb_lt; lia|apply Z.ltb_ge; lia|apply Z.leb_le; lia|apply Z.leb_gt; lia].
Qed.
Lemma ltb_lex : forall a b, str_ltb a b = match s_lex a b with Lt => true | _ => false end.
Proof.
  induction a as [|x a IH]; intros [|y b]; cbn; try reflexivity. unfold s_lex in *. cbn [lex]. rewrite IH. destruct (Z.compare_spec x y) as [E|E|E].
  - subst. rewrite Z.ltb_irrefl, Z.eqb_refl. reflexivity.
  - apply Z.ltb_lt in E. rewrite E. reflexivity.
  - replace (x <? y) with false by (symmetry; apply Z.ltb_ge; lia). replace (x =? y) with false by (symmetry; apply Z.eqb_neq; lia). reflexivity.
Qed.
Lemma s_cmp_ok : forall op x y, s_cmp op x y = opb op (s_lex x y).
Proof.
  intros op x y. destruct op; cbn; rewrite !ltb_lex; try rewrite (lex_sym _ z_sym x y : s_lex y x = CompOpp (s_lex x y)); destruct (s_lex x y); reflexivity.
Qed.
Lemma str_eqb_lex : forall x y, str_eqb x y = match s_lex x y with Eq => true | _ => false end.
Proof.
  intros x y. destruct (str_eqb x y) eqn:E.
  - apply str_eqb_eq in E. subst. assert (X : s_lex y y = Eq) by (apply (lex_eq _ z_eq); reflexivity). rewrite X. reflexivity.
  - apply str_eqb_neq in E. destruct (s_lex x y) eqn:X; try reflexivity. apply (lex_eq _ z_eq) in X. congruence.
Qed.
Lemma veqb_ok : forall a b, veqb a b = match v_lex a b with Eq => true | _ => false end.
Proof. intros [x|x] [y|y]; cbn; try reflexivity; [|apply str_eqb_lex]. destruct (Z.compare_spec x y); [apply Z.eqb_eq|apply Z.eqb_neq|apply Z.eqb_neq]; lia. Qed.
Lemma t_eqb_ok : forall (A : Type) (eqb : A -> A -> bool) cmp, (forall x y, eqb x y = match cmp x y with Eq => true | _ => false end) ->
  forall a b, t_eqb eqb a b = match lex cmp a b with Eq => true | _ => false end.
Proof. intros A eqb cmp H. induction a as [|x a IH]; intros [|y b]; cbn; try reflexivity. rewrite H. destruct (cmp x y); [apply IH|reflexivity|reflexivity]. Qed.
(** items: numbers and strings alternate *)
Fixpoint alt (b : bool) (l : vitem) : Prop :=
  match l with [] => True | VInt _ :: r => b = true /\ alt false r | VStr _ :: r => b = false /\ alt true r end.
Lemma i_cmp_ok : forall op a b p, alt p a -> alt p b -> i_cmp op a b = Ok (opb op (i_lex a b)).
Proof.
  intros op. induction a as [|x a IH]; intros [|y b] p Ha Hb; try (destruct op; reflexivity). unfold i_cmp, i_lex in *. cbn [t_cmp lex]. rewrite veqb_ok.
  destruct x as [x|x], y as [y|y]; cbn in Ha, Hb; destruct Ha as [Pa Ha], Hb as [Pb Hb]; try congruence.
  - destruct (v_lex (VInt x) (VInt y)) eqn:E; [eapply IH; eassumption|cbn [v_cmp]; rewrite z_cmp_ok; cbn in E; rewrite E; reflexivity..].
  - destruct (v_lex (VStr x) (VStr y)) eqn:E; [eapply IH; eassumption|cbn [v_cmp]; rewrite s_cmp_ok; cbn in E; rewrite E; reflexivity..].
Qed.
Lemma runs_alt : forall b s l, runs b s l -> alt b l /\ alt b (close l).
Proof.
  intros b s l H. induction H as [d N F|q N F|d s l N F H [IH1 IH2]|q s l N F H [IH1 IH2]]; try (cbn; auto; fail).
  - split; [cbn; auto|]. rewrite close_cons by (eapply runs_ne; exact H). cbn. auto.
  - split; [cbn; auto|]. rewrite close_cons by (eapply runs_ne; exact H). cbn. auto.
Qed.
Lemma item_alt : forall s l, item_of s l -> alt true l.
Proof. intros s l H. destruct H as [|s l R|s l R]; [exact I|apply (runs_alt _ _ _ R)|]. split; [reflexivity|apply (runs_alt _ _ _ R)]. Qed.
Lemma explode_alt : forall v, Forall (alt true) (explode v).
Proof.
  intros v. destruct (explode_parts v) as [F _]. induction F as [|s l x y H F IH]; constructor; [eapply item_alt, H|exact IH].
Qed.
Lemma x_cmp_ok : forall op a b, Forall (alt true) a -> Forall (alt true) b -> x_cmp op a b = Ok (opb op (x_lex a b)).
Proof.
  intros op a b Fa. revert b. induction Fa as [|x a Hx Fa IH]; intros [|y b] Fb; try (destruct op; reflexivity). inversion Fb as [|? ? Hy Fb']; subst.
  unfold x_cmp, x_lex in *. cbn [t_cmp lex]. unfold i_eqb at 1. rewrite (t_eqb_ok _ _ _ veqb_ok). fold (i_lex x y).
  destruct (i_lex x y) eqn:E; [apply IH; assumption|rewrite (i_cmp_ok op x y true Hx Hy), E; reflexivity..].
Qed.
(** products *)
Definition p_lex (p q : product) : comparison := match s_lex (pt_token p) (pt_token q) with Eq => x_lex (pt_exploded p) (pt_exploded q) | c => c end.
Lemma pt_alt : forall p, Forall (alt true) (pt_exploded p).
Proof. intros [t [v|]]; [apply explode_alt|constructor]. Qed.
Lemma pt_cmp_ok : forall op p q, pt_cmp op p q = Ok (opb op (p_lex p q)).
Proof.
  intros op p q. unfold pt_cmp, p_lex. rewrite str_eqb_lex, s_cmp_ok. destruct (s_lex (pt_token p) (pt_token q)) eqn:E; [|reflexivity|reflexivity].
  apply x_cmp_ok; apply pt_alt.
Qed.
Lemma pt_eq_ok : forall p q, pt_eq p q = match p_lex p q with Eq => true | _ => false end.
Proof.
  intros p q. unfold pt_eq, p_lex. rewrite str_eqb_lex. unfold x_eqb. rewrite (t_eqb_ok _ i_eqb i_lex).
  - fold (x_lex (pt_exploded p) (pt_exploded q)). destruct (s_lex (pt_token p) (pt_token q)); reflexivity.
  - intros x y. apply (t_eqb_ok _ _ _ veqb_ok).
Qed.
Lemma p_eq : forall p q, p_lex p q = Eq <-> pt_token p = pt_token q /\ pt_exploded p = pt_exploded q.
Proof.
  intros p q. unfold p_lex. destruct (s_lex (pt_token p) (pt_token q)) eqn:E.
  - apply (lex_eq _ z_eq) in E. rewrite x_eq. tauto.
  - split; [discriminate|]. intros [X _]. apply (lex_eq _ z_eq) in X. unfold s_lex in E. congruence.
  - split; [discriminate|]. intros [X _]. apply (lex_eq _ z_eq) in X. unfold s_lex in E. congruence.
Qed.
Lemma p_sym : forall p q, p_lex q p = CompOpp (p_lex p q).
Proof. intros p q. unfold p_lex. rewrite (lex_sym _ z_sym (pt_token p) (pt_token q) : s_lex (pt_token q) (pt_token p) = _). fold (s_lex (pt_token p) (pt_token q)). destruct (s_lex (pt_token p) (pt_token q)); cbn; [apply x_sym|reflexivity|reflexivity]. Qed.
Lemma p_trans : forall p q r, p_lex p q = Lt -> p_lex q r = Lt -> p_lex p r = Lt.
Proof.
  intros p q r. unfold p_lex. destruct (s_lex (pt_token p) (pt_token q)) eqn:E1; try discriminate.
  - apply (lex_eq _ z_eq) in E1. rewrite E1. destruct (s_lex (pt_token q) (pt_token r)); try discriminate; [apply x_trans|reflexivity].
  - intros _. destruct (s_lex (pt_token q) (pt_token r)) eqn:E2; try discriminate.
    + apply (lex_eq _ z_eq) in E2. rewrite <- E2, E1. reflexivity.
    + intros _. pose proof (lex_trans _ z_eq z_trans _ _ _ E1 E2) as X. fold (s_lex (pt_token p) (pt_token r)) in X. rewrite X. reflexivity.
Qed.

(** ** qualifiers *)
(** after a number at the end of [w], the loop has no modifier *)
Lemma loop_num_end : forall b w l, runs b w l -> forall d x, w = x ++ [d] -> dec_digit d ->
  forall t item m, nodig t -> (if b then True else item <> [] /\ m = []) ->
  exists k item', item' <> [] /\ (k <= length w)%nat /\ (forall f, item_loop (k + f) (w ++ t) item m = item_loop f t item' []) /\ item' = item ++ opt_mod m ++ l.
Proof.
  intros b w l H. induction H as [n N F|q N F|n s l N F H IH|q s l N F H IH]; intros d x E Hd t item m Nt Hb.
  - exists 1%nat, ((item ++ opt_mod m) ++ [VInt (decimal n)]). split; [destruct (item ++ opt_mod m); discriminate|]. split; [destruct n; [congruence|cbn; lia]|].
    split; [intros f; apply step_digits; assumption|]. rewrite <- app_assoc. reflexivity.
  - exfalso. subst q. apply Forall_app in F as [_ F]. inversion F as [|? ? [H1 _] _]; subst. contradiction.
  - assert (Es : exists y, s = y ++ [d]).
    { destruct (exists_last (l := s)) as (y & z & Ez); [destruct (runs_head _ _ _ H) as (c & r & -> & _); discriminate|]. exists y. rewrite Ez in *. rewrite app_assoc in E. apply app_inj_tail in E as [_ ->]. reflexivity. }
    destruct Es as [y Es]. destruct (IH d y Es Hd t ((item ++ opt_mod m) ++ [VInt (decimal n)]) [] Nt) as (k & i' & N' & Lk & L & E'); [split; [destruct (item ++ opt_mod m); discriminate|reflexivity]|].
    exists (S k), i'. split; [exact N'|]. split; [rewrite app_length; destruct n; [congruence|cbn; lia]|]. split.
    + intros f. rewrite <- app_assoc. cbn [plus]. rewrite step_digits; [apply L|exact N|exact F|eapply runs_nodig; exact H].
    + rewrite E'. cbn [opt_mod app]. rewrite <- !app_assoc. reflexivity.
  - destruct Hb as [Ni ->]. assert (Es : exists y, s = y ++ [d]).
    { destruct (exists_last (l := s)) as (y & z & Ez); [destruct (runs_head _ _ _ H) as (c & r & -> & _); discriminate|]. exists y. rewrite Ez in *. rewrite app_assoc in E. apply app_inj_tail in E as [_ ->]. reflexivity. }
    destruct Es as [y Es]. destruct (IH d y Es Hd t item q Nt I) as (k & i' & N' & Lk & L & E').
    exists (length q + k)%nat, i'. split; [exact N'|]. split; [rewrite app_length; lia|]. split.
    + intros f. rewrite <- app_assoc, <- Nat.add_assoc, steps_txt by assumption. apply L.
    + rewrite E'. cbn [opt_mod app]. destruct q; [congruence|reflexivity].
Qed.
(** a modifier stays in front *)
Lemma loop_mod : forall f s item m, m <> [] -> item <> [] -> exists m' r, fst (final (item_loop f s item m)) = item ++ VStr (m ++ m') :: r.
Proof.
  induction f as [|f IH]; intros s item m Nm Ni.
  - exists [], []. cbn. destruct m; [congruence|]. rewrite app_nil_r. reflexivity.
  - destruct s as [|c s]; [exists [], []; cbn; destruct m; [congruence|]; rewrite app_nil_r; reflexivity|].
    destruct (Z.eq_dec c 46) as [->|Nc]; [exists [], []; cbn; destruct m; [congruence|]; rewrite app_nil_r; reflexivity|].
    destruct (is_digit c) eqn:E.
    + assert (S : item_loop (S f) (c :: s) item m = item_loop f (snd (digits_prefix (c :: s))) (item ++ [VStr m] ++ [VInt (decimal (fst (digits_prefix (c :: s))))]) []).
      { cbn [item_loop]. apply Z.eqb_neq in Nc. rewrite Nc. cbn [digits_prefix]. rewrite E. destruct (digits_prefix s). cbn [fst snd]. destruct m; [congruence|]. rewrite <- app_assoc. reflexivity. }
      rewrite S. generalize (snd (digits_prefix (c :: s))) as u. generalize (decimal (fst (digits_prefix (c :: s)))) as n. clear - Nm. intros n u.
      assert (G : forall f u i mm, i <> [] -> exists r, fst (final (item_loop f u i mm)) = i ++ r).
      { clear. induction f as [|f IH]; intros u i mm Ni.
        - cbn. destruct mm; [destruct i; [congruence|]|]; eexists; reflexivity.
        - destruct u as [|c u]; [cbn; destruct mm; [destruct i; [congruence|]|]; eexists; reflexivity|]. cbn [item_loop]. destruct (c =? 46).
          + cbn. destruct mm; [destruct i; [congruence|]|]; eexists; reflexivity.
          + destruct (digits_prefix (c :: u)) as [[|d dd] t].
            * destruct i as [|i0 i]; [congruence|]. apply IH; discriminate.
            * destruct (IH t ((match mm with [] => i | _ => i ++ [VStr mm] end) ++ [VInt (decimal (d :: dd))]) []) as [r E]; [destruct mm; destruct i; discriminate|].
              rewrite E. destruct mm; rewrite <- !app_assoc; eexists; reflexivity. }
      destruct (G f u (item ++ [VStr m] ++ [VInt n]) []) as [r ->]; [destruct item; discriminate|]. exists [], (VInt n :: r). rewrite app_nil_r, <- app_assoc. reflexivity.
    + apply is_digit_no in E. rewrite step_txt by (auto; split; assumption). destruct (IH s item (m ++ [c])) as (m' & r & ->); [destruct m; discriminate|exact Ni|].
      exists (c :: m'), r. rewrite <- app_assoc. reflexivity.
Qed.
Lemma explode_first : forall w t, ~ In 46 w -> w <> [] -> stop t -> exists R, explode (w ++ t) = item w :: R.
Proof.
  intros w [|c t] D N St.
  - exists []. rewrite app_nil_r. apply explode_last; assumption.
  - cbn in St. subst c. exists (explode t). apply explode_dot. exact D.
Qed.
Lemma notin_app : forall (a b : str), ~ In 46 (a ++ b) <-> ~ In 46 a /\ ~ In 46 b.
Proof. intros a b. rewrite in_app_iff. tauto. Qed.
Lemma item_qualified : forall v d c q, ~ In 46 v -> dec_digit d -> nondigit c -> ~ In 46 q -> c < 126 ->
  i_lex (item ((v ++ [d]) ++ c :: q)) (item (v ++ [d])) = Lt.
Proof.
  intros v d c q Dv Hd Hc Dq Lc. set (w := v ++ [d]).
  assert (Dw : ~ In 46 w) by (apply notin_app; split; [exact Dv|intros [X|[]]; unfold dec_digit in Hd; lia]).
  assert (Nw : w <> []) by (unfold w; destruct v; discriminate).
  destruct (runs_exist (length w) w (le_n _) Nw Dw) as (b & l & R).
  destruct (runs_head _ _ _ R) as (x & r & Ex & Hx).
  set (start := if b then [] else [VInt (-1)] : vitem).
  assert (S : forall f t, (0 < f)%nat -> item_loop f (w ++ t) [] [] = item_loop f (w ++ t) start []).
  { intros [|f] t Hf; [lia|]. unfold start. destruct b; [reflexivity|]. rewrite Ex. cbn [app]. apply step_first. exact Hx. }
  assert (B : if b then True else start <> [] /\ [] = @nil Z) by (unfold start; destruct b; [exact I|split; [discriminate|reflexivity]]).
  assert (Lw : (0 < length w)%nat) by (destruct w; [congruence|cbn; lia]).
  assert (E1 : item w = (start ++ l) ++ [VStr (lit "~")]).
  { destruct (loop_num_end b w l R d v eq_refl Hd [] start [] I B) as (k & i' & Ni & Lk & L & E'). unfold item.
    rewrite <- (app_nil_r w) at 2. rewrite S by exact Lw. replace (length w) with (k + (length w - k))%nat by lia. rewrite L, loop_stop by exact I.
    cbn [final fst]. cbn [opt_mod app] in E'. rewrite <- E'. destruct i'; [congruence|reflexivity]. }
  assert (E2 : exists m' r', item (w ++ c :: q) = (start ++ l) ++ VStr ((c :: m')) :: r').
  { destruct (loop_num_end b w l R d v eq_refl Hd (c :: q) start [] (proj1 Hc) B) as (k & i' & Ni & Lk & L & E'). cbn [opt_mod app] in E'. unfold item.
    rewrite S by (rewrite app_length; lia). rewrite app_length. cbn [length]. replace (length w + Datatypes.S (length q))%nat with (k + Datatypes.S (length w - k + length q))%nat by lia.
    rewrite L. rewrite step_txt by assumption. destruct (loop_mod (length w - k + length q) q i' ([] ++ [c])) as (m' & r' & E); [discriminate|exact Ni|].
    exists m', r'. rewrite E, E'. reflexivity. }
  destruct E2 as (m' & r' & E2). rewrite E1, E2. unfold i_lex. rewrite (lex_app _ v_eq). cbn [lex v_lex]. unfold s_lex. change (lit "~") with [126]. cbn [lex].
  replace (c ?= 126) with Lt by (symmetry; apply Z.compare_lt_iff; exact Lc). reflexivity.
Qed.
Lemma split_stop : forall q, exists q1 t, q = q1 ++ t /\ ~ In 46 q1 /\ stop t.
Proof.
  intros q. destruct (split_first q) as [D|(a & b & -> & D)]; [exists q, []|exists a, (46 :: b)].
  - rewrite app_nil_r. cbn. auto.
  - cbn. auto.
Qed.
Lemma explode_qualified : forall v d c q tail, dec_digit d -> nondigit c -> c < 126 -> stop tail ->
  x_lex (explode ((v ++ [d]) ++ c :: q)) (explode ((v ++ [d]) ++ tail)) = Lt.
Proof.
  intros v d c q tail Hd Hc Lc St. revert v.
  assert (G : forall v, ~ In 46 v -> x_lex (explode ((v ++ [d]) ++ c :: q)) (explode ((v ++ [d]) ++ tail)) = Lt).
  { intros v Dv. destruct (split_stop q) as (q1 & t & -> & D1 & Tt).
    assert (Dw : ~ In 46 (v ++ [d])) by (apply notin_app; split; [exact Dv|intros [X|[]]; unfold dec_digit in Hd; lia]).
    destruct (explode_first (v ++ [d]) tail Dw) as [R1 E1]; [destruct v; discriminate|exact St|].
    destruct (explode_first ((v ++ [d]) ++ c :: q1) t) as [R2 E2]; [apply notin_app; split; [exact Dw|intros [X|X]; [destruct Hc; congruence|contradiction]]|destruct v; discriminate|exact Tt|].
    replace ((v ++ [d]) ++ c :: q1 ++ t) with (((v ++ [d]) ++ c :: q1) ++ t) by (rewrite <- !app_assoc; reflexivity).
    rewrite E1, E2. unfold x_lex. cbn [lex]. rewrite (item_qualified v d c q1) by assumption. reflexivity. }
  apply (parts_ind (fun v => x_lex (explode ((v ++ [d]) ++ c :: q)) (explode ((v ++ [d]) ++ tail)) = Lt)).
  - apply G. intros [].
  - intros a _ D. apply G. exact D.
  - intros a b D IH. rewrite <- !app_assoc in *. cbn [app] in *. rewrite !explode_dot by exact D. unfold x_lex in *. cbn [lex].
    assert (E : i_lex (item a) (item a) = Eq) by (apply i_eq; reflexivity). rewrite E. exact IH.
Qed.
Lemma explode_prefix : forall p s, explode (p ++ 46 :: s) = explode (p ++ [46]) ++ explode s.
Proof.
  intros p s. revert p. assert (G : forall p, ~ In 46 p -> explode (p ++ 46 :: s) = explode (p ++ [46]) ++ explode s) by (intros p D; rewrite !explode_dot by exact D; reflexivity).
  apply (parts_ind (fun p => explode (p ++ 46 :: s) = explode (p ++ [46]) ++ explode s)).
  - apply G. intros [].
  - intros a _ D. apply G. exact D.
  - intros a b D IH. rewrite <- !app_assoc. cbn [app]. rewrite !(explode_dot a) by exact D. rewrite IH. reflexivity.
Qed.
Lemma item_first : forall c w, ~ In 46 (c :: w) -> exists n r, item (c :: w) = VInt n :: r /\ (if is_digit c then 0 <= n else n = -1).
Proof.
  intros c w D. destruct (item_ok (c :: w) [] (length (c :: w)) D I (le_n _)) as [_ H]. inversion H as [|s l R E1 E2|s l R E1 E2].
  - destruct (runs_head _ _ _ R) as (x & y & Ex & Hx). inversion Ex; subst x y. apply is_digit_ok in Hx. rewrite Hx. subst s.
    assert (G : exists d l', l = VInt (decimal d) :: l' /\ 0 <= decimal d).
    { clear - R. inversion R as [d N F|d|d s l' N F R2|d]; subst; eexists _, _; (split; [reflexivity|apply decimal_nonneg; exact F]). }
    destruct G as (d & l' & -> & L). unfold close. destruct (last (VInt (decimal d) :: l') (VStr [])); eexists _, _; (split; [reflexivity|exact L]).
  - destruct (runs_head _ _ _ R) as (x & y & Ex & [Hx _]). inversion Ex; subst x y. apply is_digit_no in Hx. rewrite Hx. eexists _, _. split; reflexivity.
Qed.
Lemma explode_unnumbered : forall c r d s, nondigit c -> dec_digit d -> x_lex (explode (c :: r)) (explode (d :: s)) = Lt.
Proof.
  intros c r d s Hc Hd. destruct (split_stop r) as (r1 & t & -> & Dr & St). destruct (split_stop s) as (s1 & u & -> & Ds & Su).
  assert (D1 : ~ In 46 (c :: r1)) by (intros [X|X]; [destruct Hc; congruence|contradiction]).
  assert (D2 : ~ In 46 (d :: s1)) by (intros [X|X]; [unfold dec_digit in Hd; lia|contradiction]).
  destruct (explode_first (c :: r1) t D1) as [R1 E1]; [discriminate|exact St|]. destruct (explode_first (d :: s1) u D2) as [R2 E2]; [discriminate|exact Su|].
  cbn [app] in E1, E2. rewrite E1, E2. unfold x_lex. cbn [lex]. destruct (item_first c r1 D1) as (n & x & -> & Hn). destruct (item_first d s1 D2) as (m & y & -> & Hm).
  destruct Hc as [Hc _]. apply is_digit_no in Hc. apply is_digit_ok in Hd. rewrite Hc in Hn. rewrite Hd in Hm. unfold i_lex. cbn [lex v_lex].
  replace (n ?= m) with Lt by (symmetry; apply Z.compare_lt_iff; lia). reflexivity.
Qed.
Lemma item_digits : forall d, digits d -> item d = [VInt (decimal d); VStr (lit "~")].
Proof.
  intros d [N F]. unfold item. pose proof (loop_runs true d _ (r_num d N F) (length d) [] [] [] I (le_n _) I) as H. rewrite app_nil_r in H. rewrite H. reflexivity.
Qed.
Lemma digits_nodot : forall d, digits d -> ~ In 46 d.
Proof. intros d [_ F] H. rewrite Forall_forall in F. apply F in H. unfold dec_digit in H. lia. Qed.
Lemma explode_digits : forall l, Forall digits l -> explode (join_on 46 l) = map (fun d => [VInt (decimal d); VStr (lit "~")]) l.
Proof.
  intros l F. induction F as [|d l Hd F IH]; [reflexivity|]. destruct l as [|e l].
  - cbn [join_on map]. rewrite explode_last, item_digits; [reflexivity|exact Hd|apply digits_nodot; exact Hd|apply Hd].
  - change (join_on 46 (d :: e :: l)) with (d ++ 46 :: join_on 46 (e :: l)). rewrite explode_dot by (apply digits_nodot; exact Hd). rewrite item_digits, IH by exact Hd. reflexivity.
Qed.
Lemma nums_lex : forall a b, x_lex (map (fun d => [VInt (decimal d); VStr (lit "~")]) a) (map (fun d => [VInt (decimal d); VStr (lit "~")]) b) = lex Z.compare (map decimal a) (map decimal b).
Proof.
  induction a as [|x a IH]; intros [|y b]; try reflexivity. unfold x_lex in *. cbn [map lex]. unfold i_lex at 1. cbn [lex v_lex]. destruct (decimal x ?= decimal y); [|reflexivity|reflexivity].
  assert (E : s_lex (lit "~") (lit "~") = Eq) by reflexivity. rewrite E. apply IH.
Qed.
Lemma nums_lt_lex : forall a b, nums_lt a b <-> lex Z.compare a b = Lt.
Proof.
  induction a as [|x a IH]; intros [|y b]; cbn; try (split; [contradiction|discriminate]); [split; auto|]. rewrite IH. destruct (Z.compare_spec x y) as [E|E|E].
  - split; [intros [H|[_ H]]; [lia|exact H]|intros H; right; auto].
  - split; auto.
  - split; [intros [H|[H _]]; lia|discriminate].
Qed.
