(** C15: normalize_segments. *)
From Verif Require Import Py Num Codec UriModel UriSpec UriProofs UriParse UriMain.
#[local] Arguments lit : simpl never.
#[local] Arguments dot : simpl never.
#[local] Arguments dotdot : simpl never.

Definition plain (s : str) : Prop := s <> dot /\ s <> dotdot.
Definition pre_of (st : nat * list str) : list str := repeat dotdot (fst st) ++ rev (snd st).
Definition step (x : str) (st : nat * list str) : nat * list str :=
  if str_eqb x dot then st
  else if str_eqb x dotdot then
    match snd st with _ :: n => (fst st, n) | [] => (S (fst st), []) end
  else (fst st, x :: snd st).
Lemma walk_cons x r st : walk (x :: r) st = walk r (step x st).
Proof. destruct st as [u n]. reflexivity. Qed.
Lemma walk_app a b st : walk (a ++ b) st = walk b (walk a st).
Proof. revert st. induction a; intros st; [reflexivity|]. cbn [app]. rewrite !walk_cons. apply IHa. Qed.
Definition st_ok (st : nat * list str) : Prop := Forall plain (snd st).
Lemma dd_neq_dot : str_eqb dotdot dot = false. Proof. reflexivity. Qed.
Lemma step_ok x st : st_ok st -> st_ok (step x st).
Proof.
  unfold st_ok, step. intros H. destruct (str_eqb x dot) eqn:E1; auto.
  destruct (str_eqb x dotdot) eqn:E2.
  - destruct (snd st) eqn:E; cbn; [constructor|]. inversion H; auto.
  - cbn. constructor; auto. apply str_eqb_neq in E1, E2. split; auto.
Qed.
Lemma walk_ok l st : st_ok st -> st_ok (walk l st).
Proof. revert st. induction l; intros st H; auto. rewrite walk_cons. apply IHl, step_ok, H. Qed.

Definition fin (l : list str) : list str := if str_eqb (last l []) dotdot then l ++ [[]] else l.
Lemma repeat_snoc {A} (x : A) n : repeat x n ++ [x] = x :: repeat x n.
Proof. induction n; cbn; congruence. Qed.
Lemma get_app {A} (a : list A) x b : get (a ++ x :: b) (length a) = Ok x.
Proof. unfold get. rewrite nth_error_app2, Nat.sub_diag by lia. reflexivity. Qed.
Lemma del_app {A} (a : list A) x b : del (length a) (a ++ x :: b) = a ++ b.
Proof.
  unfold del. rewrite firstn_len. f_equal.
  replace (a ++ x :: b) with ((a ++ [x]) ++ b) by (rewrite <- app_assoc; reflexivity).
  replace (S (length a)) with (length (a ++ [x])) by (rewrite app_length; cbn; lia). apply skipn_len.
Qed.
Lemma set_nth_app {A} (a : list A) x b v : set_nth (a ++ x :: b) (length a) v = a ++ v :: b.
Proof. induction a; cbn; congruence. Qed.
Lemma last_snoc {A} (l : list A) x d : last (l ++ [x]) d = x.
Proof. apply last_last. Qed.

(** the result of the loop for the segments still to be read *)
Definition rest_ok (suf : list str) (st : nat * list str) (l' : list str) : Prop :=
  match suf with
  | [] => l' = pre_of st
  | _ => fin l' = pre_of (walk suf st) ++ (if is_dots (last suf []) then [[]] else [])
  end.
Lemma plain_eqb x : plain x -> str_eqb x dot = false /\ str_eqb x dotdot = false.
Proof. intros [H1 H2]. split; apply str_eqb_neq; auto. Qed.
Lemma fin_plain l x : x <> dotdot -> fin (l ++ [x]) = l ++ [x].
Proof. intros H. unfold fin. rewrite last_snoc. apply str_eqb_neq in H. rewrite H. reflexivity. Qed.
Lemma pre_cons u n ns : pre_of (u, n :: ns) = pre_of (u, ns) ++ [n].
Proof. unfold pre_of. cbn. rewrite app_assoc. reflexivity. Qed.
Lemma pre_up u : pre_of (S u, []) = pre_of (u, []) ++ [dotdot].
Proof. unfold pre_of. cbn. rewrite !app_nil_r, repeat_snoc. reflexivity. Qed.

Lemma norm_end f l : norm_loop (S f) l (length l) = Ok l.
Proof. cbn [norm_loop]. rewrite Nat.ltb_irrefl. reflexivity. Qed.
Lemma norm_loop_spec : forall suf st fuel, st_ok st -> (length suf + 2 <= fuel)%nat \/ (suf = [] /\ (1 <= fuel)%nat) ->
  exists l', norm_loop fuel (pre_of st ++ suf) (length (pre_of st)) = Ok l' /\ rest_ok suf st l'.
Proof.
  induction suf as [|x suf IH]; intros st fuel K F.
  - rewrite app_nil_r. destruct fuel as [|f]; [destruct F as [F|[_ F]]; cbn in F; lia|].
    rewrite norm_end. eexists. split; reflexivity.
  - destruct F as [F|[F _]]; [|discriminate]. cbn [length] in F. destruct fuel as [|f]; [lia|].
    cbn [norm_loop].
    assert (L : (length (pre_of st) <? length (pre_of st ++ x :: suf))%nat = true).
    { apply Nat.ltb_lt. rewrite app_length. cbn. lia. }
    rewrite L, get_app. cbn [rbind]. clear L.
    assert (LE : (length (pre_of st ++ x :: suf) <=? length (pre_of st) + 1)%nat =
                 match suf with [] => true | _ => false end).
    { rewrite app_length. cbn [length]. destruct suf; [apply Nat.leb_le|apply Nat.leb_gt]; cbn; lia. }
    rewrite LE. clear LE.
    destruct (str_eqb x dot) eqn:E1.
    + assert (W : step x st = st) by (unfold step; rewrite E1; reflexivity).
      destruct suf as [|y suf].
      * rewrite set_nth_app. destruct f as [|f]; [lia|]. cbn [norm_loop].
        match goal with |- context [Nat.ltb ?a ?b] => replace (Nat.ltb a b) with true
          by (symmetry; apply Nat.ltb_lt; rewrite app_length; cbn; lia) end.
        rewrite get_app. cbn [rbind str_eqb]. change (str_eqb [] dot) with false. change (str_eqb [] dotdot) with false.
        cbn [andb rbind]. cbv iota.
        destruct f as [|f]; [lia|].
        replace (length (pre_of st) + 1)%nat with (length (pre_of st ++ [[]])) by (rewrite app_length; reflexivity).
        rewrite norm_end. eexists. split; [reflexivity|]. cbn [rest_ok]. rewrite walk_cons, W. cbn [walk last].
        unfold is_dots. rewrite E1. cbn [orb]. apply fin_plain. discriminate.
      * rewrite del_app. destruct (IH st f K) as (l' & H1 & H2); [left; cbn in *; lia|].
        exists l'. split; [exact H1|]. cbn [rest_ok] in *. rewrite walk_cons, W. exact H2.
    + destruct (str_eqb x dotdot) eqn:E2; cbn [andb].
      * destruct st as [u n]. destruct n as [|z ns].
        -- (* nothing to remove *)
           assert (C : (if (0 <? length (pre_of (u, [])))%nat then
               let! y := get (pre_of (u, []) ++ x :: suf) (length (pre_of (u, [])) - 1) in
               Ok (negb (str_eqb y dotdot)) else Ok false) = Ok false).
           { unfold pre_of. cbn [fst snd rev]. rewrite app_nil_r, repeat_length. destruct u as [|u]; [reflexivity|].
             change (0 <? S u)%nat with true. cbv iota. replace (S u - 1)%nat with (length (repeat dotdot u)) by (rewrite repeat_length; lia).
             replace (repeat dotdot (S u) ++ x :: suf) with (repeat dotdot u ++ dotdot :: x :: suf).
             2:{ cbn [repeat]. rewrite <- repeat_snoc, <- app_assoc. reflexivity. }
             rewrite get_app. reflexivity. }
           change ((0 <? length (pre_of (u, [])))%nat) with ((0 <? length (pre_of (u, [])))%nat) in *.
           rewrite C. cbn [rbind]. cbv iota.
           apply str_eqb_eq in E2. subst x.
           assert (W : step dotdot (u, []) = (S u, [])) by reflexivity.
           replace (pre_of (u, []) ++ dotdot :: suf) with (pre_of (S u, []) ++ suf)
             by (rewrite pre_up, <- app_assoc; reflexivity).
           replace (length (pre_of (u, [])) + 1)%nat with (length (pre_of (S u, [])))
             by (rewrite pre_up, app_length; reflexivity).
           destruct (IH (S u, []) f) as (l' & H1 & H2). { constructor. }
           { destruct suf; [right; split; auto; lia|left; cbn in *; lia]. }
           exists l'. split; [exact H1|]. destruct suf as [|y suf].
           ++ cbn [rest_ok] in *. subst l'. rewrite walk_cons, W. cbn [walk last].
              change (is_dots dotdot) with true. cbv iota. unfold fin. rewrite pre_up, last_snoc. reflexivity.
           ++ cbn [rest_ok] in *. rewrite walk_cons, W. exact H2.
        -- assert (C : (if (0 <? length (pre_of (u, z :: ns)))%nat then
               let! y := get (pre_of (u, z :: ns) ++ x :: suf) (length (pre_of (u, z :: ns)) - 1) in
               Ok (negb (str_eqb y dotdot)) else Ok false) = Ok true).
           { rewrite pre_cons, <- app_assoc, app_length. cbn [length app].
             replace (length (pre_of (u, ns)) + 1 - 1)%nat with (length (pre_of (u, ns))) by lia.
             rewrite get_app. destruct (0 <? _)%nat eqn:Q; b2p; [|lia]. cbn [rbind].
             inversion K; subst. apply plain_eqb in H1 as [_ ->]. reflexivity. }
           rewrite C. cbn [rbind]. cbv iota.
           apply str_eqb_eq in E2. subst x.
           assert (W : step dotdot (u, z :: ns) = (u, ns)) by reflexivity.
           assert (LN : (length (pre_of (u, z :: ns)) - 1)%nat = length (pre_of (u, ns))).
           { rewrite pre_cons, app_length. cbn. lia. }
           rewrite LN. destruct suf as [|y suf].
           ++ rewrite set_nth_app, pre_cons, <- app_assoc. cbn [app]. rewrite del_app.
              replace (length (pre_of (u, ns) ++ [z])) with (length (pre_of (u, ns) ++ [[]])) by (rewrite !app_length; reflexivity).
              destruct f as [|f]; [lia|]. rewrite norm_end. eexists. split; [reflexivity|].
              cbn [rest_ok]. rewrite walk_cons, W. cbn [walk last]. change (is_dots dotdot) with true. cbv iota.
              apply fin_plain. discriminate.
           ++ rewrite del_app, pre_cons, <- app_assoc. cbn [app]. rewrite del_app.
              destruct (IH (u, ns) f) as (l' & H1 & H2). { inversion K; auto. } { left; cbn in *; lia. }
              exists l'. split; [exact H1|]. cbn [rest_ok] in *. rewrite walk_cons, W. exact H2.
      * cbn [rbind]. cbv iota. destruct st as [u n].
        assert (W : step x (u, n) = (u, x :: n)) by (unfold step; rewrite E1, E2; reflexivity).
        assert (PX : plain x) by (split; apply str_eqb_neq; auto).
        replace (pre_of (u, n) ++ x :: suf) with (pre_of (u, x :: n) ++ suf)
          by (rewrite pre_cons, <- app_assoc; reflexivity).
        replace (length (pre_of (u, n)) + 1)%nat with (length (pre_of (u, x :: n)))
          by (rewrite pre_cons, app_length; reflexivity).
        destruct (IH (u, x :: n) f) as (l' & H1 & H2). { constructor; auto. }
        { destruct suf; [right; split; auto; lia|left; cbn in *; lia]. }
        exists l'. split; [exact H1|]. destruct suf as [|y suf].
        -- cbn [rest_ok] in *. subst l'. rewrite walk_cons, W. cbn [walk last].
           unfold is_dots. rewrite E1, E2. cbn [orb]. rewrite app_nil_r, pre_cons. apply fin_plain, PX.
        -- cbn [rest_ok] in *. rewrite walk_cons, W. exact H2.
Qed.

(** the normal form *)
Definition nf (l : list str) : list str :=
  pre_of (walk l (O, [])) ++ (if is_dots (last l []) then [[]] else []).
Lemma normalize_nf l : normalize_segments l = Ok (nf l).
Proof.
  unfold normalize_segments.
  destruct (norm_loop_spec l (O, []) (2 * length l + 1)) as (l' & H1 & H2).
  - constructor.
  - destruct l; [right; cbn; auto|left; cbn; lia].
  - cbn [pre_of fst snd repeat rev app length] in H1. change (pre_of (O, []) ++ l) with l in H1.
    change (length (pre_of (O, []))) with O in H1.
    rewrite H1. cbn [rbind]. fold (fin l'). f_equal. destruct l as [|x l].
    + cbn [rest_ok] in H2. subst l'. reflexivity.
    + exact H2.
Qed.

(** names of a walk come from the segments *)
Lemma walk_repeat_dd k u : walk (repeat dotdot k) (u, []) = ((u + k)%nat, []).
Proof.
  revert u. induction k; intros u; cbn [repeat]; [cbn; f_equal; lia|].
  rewrite walk_cons. change (step dotdot (u, [])) with (S u, @nil str). rewrite IHk. f_equal. lia.
Qed.
Lemma walk_plain : forall l u n, Forall plain l -> walk l (u, n) = (u, rev l ++ n).
Proof.
  induction l as [|x l IH]; intros u n H; [reflexivity|]. inversion H; subst.
  rewrite walk_cons. unfold step. destruct (plain_eqb x H2) as [-> ->]. cbn [fst snd].
  rewrite IH by auto. cbn [rev]. rewrite <- app_assoc. reflexivity.
Qed.
Lemma walk_pre st : st_ok st -> walk (pre_of st) (O, []) = st.
Proof.
  intros H. destruct st as [u n]. unfold pre_of. cbn [fst snd]. rewrite walk_app, walk_repeat_dd, walk_plain.
  - rewrite rev_involutive, app_nil_r. reflexivity.
  - apply Forall_rev. exact H.
Qed.
Definition normal_list (l : list str) : Prop :=
  exists k r, l = repeat dotdot k ++ r /\ Forall plain r /\ (k <> O -> r <> []).
Lemma plain_nil : plain []. Proof. split; discriminate. Qed.
(** after a walk that ends with ordinary text, the last name is that text *)
Lemma walk_last l x st : plain x -> walk (l ++ [x]) st = (fst (walk l st), x :: snd (walk l st)).
Proof.
  intros H. rewrite walk_app, walk_cons. cbn [walk]. unfold step. destruct (plain_eqb x H) as [-> ->]. reflexivity.
Qed.
Lemma not_dots_plain x : is_dots x = false -> plain x.
Proof. unfold is_dots. intros H. b2p. split; apply str_eqb_neq; auto. Qed.
Lemma nf_cases l : (l = [] /\ nf l = []) \/
  (exists m x, l = m ++ [x] /\ is_dots x = true /\ nf l = pre_of (walk l (O, [])) ++ [[]]) \/
  (exists m x, l = m ++ [x] /\ is_dots x = false /\ nf l = pre_of (walk m (O, [])) ++ [x]).
Proof.
  destruct l as [|y l] using rev_ind; [left; auto|]. clear IHl. right. unfold nf. rewrite last_snoc.
  destruct (is_dots y) eqn:E.
  - left. exists l, y. auto.
  - right. exists l, y. psplit; auto. rewrite app_nil_r, walk_last by (apply not_dots_plain; auto).
    rewrite pre_cons. destruct (walk l (O, [])); reflexivity.
Qed.
Lemma st0_ok : st_ok (O, []). Proof. constructor. Qed.
Lemma nf_normal l : normal_list (nf l).
Proof.
  assert (W : st_ok (walk l (O, []))) by (apply walk_ok, st0_ok).
  destruct (nf_cases l) as [(-> & ->)|[(m & x & -> & D & ->)|(m & x & -> & D & ->)]].
  - exists O, []. cbn. psplit; auto; congruence.
  - exists (fst (walk (m ++ [x]) (O, []))), (rev (snd (walk (m ++ [x]) (O, []))) ++ [[]]). psplit.
    + unfold pre_of. rewrite <- app_assoc. reflexivity.
    + apply Forall_app. split; [apply Forall_rev; exact W|]. repeat constructor; discriminate.
    + intros _ X. destruct (rev _); discriminate.
  - assert (W2 : st_ok (walk m (O, []))) by (apply walk_ok, st0_ok).
    exists (fst (walk m (O, []))), (rev (snd (walk m (O, []))) ++ [x]). psplit.
    + unfold pre_of. rewrite <- app_assoc. reflexivity.
    + apply Forall_app. split; [apply Forall_rev; exact W2|]. constructor; auto. apply not_dots_plain; auto.
    + intros _ X. destruct (rev _); discriminate.
Qed.
Lemma nf_fixed l : normal_list l -> nf l = l.
Proof.
  intros (k & r & -> & F & Hk). unfold nf. rewrite walk_app, walk_repeat_dd, walk_plain by auto.
  unfold pre_of. cbn [fst snd]. rewrite app_nil_r, rev_involutive. cbn [Nat.add].
  destruct r as [|y r] using rev_ind.
  - destruct k; [reflexivity|]. exfalso. apply Hk; auto.
  - clear IHr. rewrite (app_assoc _ r), last_snoc. apply Forall_app in F as [_ F]. inversion F; subst.
    unfold is_dots. destruct (plain_eqb y H1) as [-> ->]. cbn. rewrite app_nil_r, <- app_assoc. reflexivity.
Qed.
Lemma nf_denotes l : denotes (nf l) = denotes l.
Proof.
  destruct (nf_cases l) as [(-> & ->)|[(m & x & -> & D & ->)|(m & x & -> & D & ->)]]; [reflexivity| |].
  - unfold denotes. rewrite !last_snoc. change (is_dots []) with false. rewrite D.
    change (str_eqb [] []) with true. cbn [orb]. rewrite removelast_last.
    rewrite walk_pre; [|apply walk_ok, st0_ok]. reflexivity.
  - unfold denotes. rewrite !last_snoc, D, !removelast_last.
    rewrite walk_pre; [|apply walk_ok, st0_ok]. reflexivity.
Qed.
Lemma c15 l : exists l', normalize_segments l = Ok l' /\
  ~ In dot l' /\
  (exists k r, l' = repeat dotdot k ++ r /\ ~ In dotdot r /\ (r = [] -> l = [])) /\
  normalize_segments l' = Ok l' /\ denotes l' = denotes l.
Proof.
  exists (nf l). rewrite !normalize_nf. destruct (nf_normal l) as (k & r & E & F & Hk). psplit; auto.
  - rewrite E. intros X. apply in_app_or in X as [X|X].
    + apply repeat_spec in X. discriminate.
    + rewrite Forall_forall in F. apply F in X as [X _]. congruence.
  - exists k, r. psplit; auto.
    + intros X. rewrite Forall_forall in F. apply F in X as [_ X]. congruence.
    + intros ->. destruct k; [|exfalso; apply Hk; auto]. cbn in E.
      destruct (nf_cases l) as [(-> & _)|[(m & x & _ & _ & X)|(m & x & _ & _ & X)]]; auto;
        rewrite X in E; destruct (pre_of _); discriminate.
  - f_equal. apply nf_fixed, nf_normal.
  - apply nf_denotes.
Qed.
(** and it is the only normal form *)
Lemma denotes_normal_eq a b : normal_list a -> normal_list b -> a <> [] -> b <> [] ->
  denotes a = denotes b -> a = b.
Proof.
  intros (k & r & -> & F & Hk) (j & s & -> & G & Hj) Na Nb.
  assert (R : r <> []). { intros ->. destruct k; [apply Na; reflexivity|apply Hk; auto]. }
  assert (S : s <> []). { intros ->. destruct j; [apply Nb; reflexivity|apply Hj; auto]. }
  destruct r as [|y r] using rev_ind; [congruence|]. clear IHr.
  destruct s as [|z s] using rev_ind; [congruence|]. clear IHs.
  apply Forall_app in F as [F1 F2]. apply Forall_app in G as [G1 G2]. inversion F2; inversion G2; subst.
  rewrite !app_assoc. unfold denotes. rewrite !last_snoc, !removelast_last.
  unfold is_dots. destruct (plain_eqb y H1) as [-> ->]. destruct (plain_eqb z H5) as [-> ->]. cbn [orb].
  rewrite !walk_app, !walk_repeat_dd, !walk_plain by auto. rewrite !app_nil_r. cbn [Nat.add].
  destruct (str_eqb y []) eqn:Ey, (str_eqb z []) eqn:Ez; intros X; inversion X; subst.
  - apply str_eqb_eq in Ey, Ez. subst. f_equal. f_equal. rewrite <- (rev_involutive r), H3. apply rev_involutive.
  - f_equal. f_equal. rewrite <- (rev_involutive r), H3. apply rev_involutive.
Qed.
