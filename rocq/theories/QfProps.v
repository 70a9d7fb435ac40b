(** C117-C118: QTI test forms, pyslet/qtiv2/tests.py. *)
From Coq Require Import Permutation Sorted.
From Verif Require Import Py QfModel QfSpec QfProofs QfForm.

(** ** Lemmas: every form can come up *)
Scheme form_mut := Minimality for form Sort Prop
  with line_mut := Minimality for line Sort Prop
  with blocks_mut := Minimality for blocks Sort Prop
  with fill_mut := Minimality for fill Sort Prop.
Lemma form_clear : forall p e out, form p e out -> clear_ out.
Proof.
  apply (form_mut (fun _ _ out => clear_ out) (fun _ _ _ _ _ => True) (fun _ _ x => clear_ x) (fun _ _ _ out => clear_ out)); auto.
  - constructor.
  - intros. constructor; [discriminate|assumption].
  - intros. constructor; [discriminate|]. apply Forall_app. split; [assumption|]. constructor; [discriminate|assumption].
  - constructor.
  - intros. apply Forall_app. auto.
  - intros. constructor; assumption.
Qed.
Lemma deal_in : forall ts hs pre, length hs = length ts ->
  deal (concat ts) (pre ++ hs) (Ok (pre ++ map (fun ht => fst ht ++ snd ht) (combine hs ts))).
Proof.
  induction ts as [|t ts IH]; intros [|h hs] pre L; try discriminate L; cbn [concat combine map fst snd].
  - reflexivity.
  - injection L as L. revert h. induction t as [|x t IHt]; intros h; cbn [app].
    + rewrite app_nil_r. specialize (IH hs (pre ++ [h])). rewrite <- !app_assoc in IH. apply IH. exact L.
    + cbn [deal]. eapply bnd_in with (a := length pre).
      * unfold choice. destruct (seq 0 (length (pre ++ h :: hs))) eqn:E; [rewrite app_length in E; cbn [length] in E; rewrite Nat.add_succ_r in E; discriminate|]. rewrite <- E.
        exists (length pre). split; [|reflexivity]. apply in_seq. rewrite app_length. cbn [length]. lia.
      * assert (P : put (length pre) x (pre ++ h :: hs) = pre ++ (h ++ [x]) :: hs) by (clear; induction pre as [|y pre IH]; cbn [length put app]; [reflexivity|rewrite IH; reflexivity]).
        rewrite P. specialize (IHt (h ++ [x])). rewrite <- app_assoc in IHt. exact IHt.
Qed.
Lemma first_in : forall hs r, first_buckets (length hs) (hs ++ r) = Ok (map (fun h => [h]) hs, r).
Proof. induction hs as [|h hs IH]; intros r; cbn [length first_buckets app map]; [reflexivity|]. rewrite IH. reflexivity. Qed.
Lemma expand_in : forall b, Forall plain_item b -> expand_bucket b = Ok (opens b).
Proof. induction 1 as [|p b H F IH]; cbn [expand_bucket]; [reflexivity|]. rewrite H, IH. reflexivity. Qed.
Lemma fill_splice : forall l bs o, fill0 l bs o -> Forall plain_item (concat bs) -> forall x, clear_ x -> splice_all bs (x ++ l) = Ok (x ++ o) /\ length bs = length (filter is_free l).
Proof.
  induction 1 as [|b l bs out H IH|c l bs out N H IH]; intros Q x C.
  - split; reflexivity.
  - cbn [concat] in Q. apply Forall_app in Q as [Q1 Q2]. cbn [splice_all]. rewrite (expand_in _ Q1). cbn [rbind]. rewrite splice_clear by exact C. cbn [splice].
    rewrite !app_assoc. destruct (IH Q2 (x ++ opens b)) as [A B]; [apply Forall_app; split; [exact C|apply opens_clear]|]. split; [exact A|]. cbn [length filter is_free]. congruence.
  - destruct (IH Q (x ++ [c])) as [A B]; [apply Forall_app; split; [exact C|constructor; [exact N|constructor]]|]. rewrite <- !app_assoc in A. split; [exact A|].
    rewrite B. destruct c; reflexivity || congruence.
Qed.
Lemma arrange_in : forall l sh bs out, fill0 l bs out -> Permutation sh (concat bs) -> Forall plain_item sh -> Forall (fun y => y <> []) bs -> arrange l sh (Ok out).
Proof.
  intros l sh bs out F P Q NE. assert (Qb : Forall plain_item (concat bs)) by (eapply Permutation_Forall; eauto).
  destruct (fill_splice _ _ _ F Qb [] (Forall_nil _)) as [A B]. cbn [app] in A. unfold arrange. destruct sh as [|p sh].
  - apply Permutation_nil in P. destruct bs as [|b bs]; [|inversion NE; subst; destruct b; [congruence|discriminate]]. cbn in A. injection A as ->. reflexivity.
  - assert (Pd : exists hs ts, length hs = length ts /\ length bs = length hs /\ bs = map (fun ht => fst ht ++ snd ht) (combine (map (fun h => [h]) hs) ts) /\ Permutation (hs ++ concat ts) (concat bs)).
    { clear -NE. induction NE as [|b0 bs0 N NE IH]; [exists [], []; repeat split; constructor|]. destruct IH as (hs & ts & L & L2 & E & P). destruct b0 as [|h t]; [congruence|].
      exists (h :: hs), (t :: ts). cbn [length map combine fst snd app concat]. split; [congruence|]. split; [congruence|]. split; [rewrite <- E; reflexivity|].
      constructor. rewrite <- P, !app_assoc. apply Permutation_app_tail. apply Permutation_app_comm. }
    destruct Pd as (hs & ts & L & L2 & E & P2). eapply bnd_in; [exists (hs ++ concat ts); split; [rewrite P, P2; reflexivity|reflexivity]|].
    eapply bnd_in with (a := (map (fun h => [h]) hs, concat ts)); [unfold lift; rewrite <- B, L2, first_in; reflexivity|]. cbv beta iota.
    eapply bnd_in; [apply (deal_in ts (map (fun h => [h]) hs) []); rewrite map_length; exact L|]. cbn [app]. rewrite <- E. unfold lift. symmetry. exact A.
Qed.
Lemma blocks_items : forall e b x, blocks e b x -> Forall plain_item b -> x = opens b.
Proof.
  induction 1 as [|e p ps x E H IH|p ps o x E F H IH]; intros Q; [reflexivity| |]; inversion Q; subst; cbn [opens map].
  - f_equal. apply IH. assumption.
  - unfold plain_item in *. congruence.
Qed.
Lemma fill_fill0 : forall e l bs out, fill e l bs out -> Forall plain_item (concat bs) -> fill0 l bs out /\ Forall (fun y => y <> []) bs.
Proof.
  induction 1 as [|e b x l bs out N B F IH|e c l bs out N F IH]; intros Q.
  - split; constructor.
  - cbn [concat] in Q. apply Forall_app in Q as [Q1 Q2]. rewrite (blocks_items _ _ _ B Q1). destruct (IH Q2). split; constructor; assumption.
  - destruct (IH Q). split; [constructor; assumption|assumption].
Qed.
Lemma adopt_in : forall gs, Forall (fun g => fixed (at_ g) = false) gs -> adopt (opens gs) = Ok gs.
Proof. induction 1 as [|g gs F G IH]; cbn [opens map adopt]; [reflexivity|]. rewrite F. fold (opens gs). rewrite IH. reflexivity. Qed.
(** a form of a section with items only has items only *)
Lemma items_form : forall p gs, items_only p -> form p false (opens gs) -> Forall plain_item gs.
Proof.
  intros p gs I F. inversion F as [a v k sel shuf ch expand idx l free bs out Ch Li Pm Fi]; subst. cbn [items_only] in I.
  assert (Sub : Forall plain_item (nths ch idx)) by (apply Forall_forall; intros c C; apply nths_in in C; rewrite Forall_forall in I; apply I; exact C).
  assert (X : Forall plain_item free /\ Forall (fun c => match c with Open g => plain_item g | _ => True end) l).
  { clear -Li Sub. induction Li; inversion Sub as [|? ? S1 S2]; subst; unfold plain_item in *.
    - split; constructor.
    - destruct (IHLi S2) as [A B]. split; [exact A|]. apply Forall_app. split; [|exact B].
      match goal with H : blocks _ [p] x |- _ => apply blocks_items in H; [subst x|constructor; [exact S1|constructor]] end. repeat constructor. exact S1.
    - destruct (IHLi S2) as [A B]. split; constructor; auto.
    - match goal with H : splits p = true |- _ => apply splits_section in H end. congruence. }
  destruct X as [X1 X2]. assert (Qb : Forall plain_item (concat bs)) by (eapply Permutation_Forall; eauto).
  apply fill_fill0 in Fi as [Fi _]; [|exact Qb].
  assert (Y : Forall (fun c => match c with Open g => plain_item g | _ => True end) (opens gs)).
  { clear -Fi Qb X2. induction Fi as [|b l bs out H IH|c l bs out N H IH]; [constructor| |].
    - inversion X2; subst. cbn [concat] in Qb. apply Forall_app in Qb as [Q1 Q2]. apply Forall_app. split; [|auto]. clear -Q1. induction Q1; constructor; assumption.
    - inversion X2; subst. constructor; auto. }
  clear -Y. induction gs as [|g gs IH]; [constructor|]. inversion Y; subst. constructor; auto.
Qed.
Definition easy (c : spart) : Prop := is_section c = true -> fixed (at_ c) = true \/ splits c = true /\ items_only c.
Lemma line_in : forall shuf e ps l free, line shuf e ps l free -> (shuf = true -> Forall easy ps) ->
  Forall (fun c => is_section c = true -> forall e out, form c e out -> select c e (Ok out)) ps ->
  lay_out shuf e (map kid_of ps) (Ok (l, free)) /\ Forall plain_item free.
Proof.
  induction 1 as [shuf e|shuf e p ps x l free St B Li IH|e p ps l free Fx Sp Li IH|e p ps gs l free Fx Sp Fm Fg Li IH]; intros Ez C; cbn [map lay_out].
  - split; [reflexivity|constructor].
  - inversion C as [|? ? C1 C2]; subst. destruct IH as [IH1 IH2]; [intros E; specialize (Ez E); inversion Ez; assumption|exact C2|]. split; [|exact IH2].
    cbn [kid_of k_part k_full k_bare]. rewrite St. eapply bnd_in with (a := (x, [])).
    + inversion B as [|? ? ? y E By|? ? o y E Fo By]; subst.
      * rewrite E. inversion By; subst. reflexivity.
      * rewrite E. inversion By; subst. cbn [andb]. eapply bnd_in; [apply C1; [exact E|exact Fo]|]. reflexivity.
    + eapply bnd_in; [exact IH1|]. reflexivity.
  - inversion C as [|? ? C1 C2]; subst. specialize (Ez eq_refl). inversion Ez as [|? ? E1 E2]; subst. destruct IH as [IH1 IH2]; [auto|exact C2|]. split.
    + cbn [kid_of k_part k_full k_bare]. rewrite Fx, Sp. cbn [andb negb]. eapply bnd_in; [reflexivity|]. cbv beta iota. eapply bnd_in; [exact IH1|]. reflexivity.
    + constructor; [|exact IH2]. unfold plain_item. destruct (is_section p) eqn:Se; [|reflexivity]. destruct (E1 Se) as [X|[X _]]; congruence.
  - inversion C as [|? ? C1 C2]; subst. specialize (Ez eq_refl). inversion Ez as [|? ? E1 E2]; subst. destruct IH as [IH1 IH2]; [auto|exact C2|].
    pose proof (splits_section _ Sp) as Se. destruct (E1 Se) as [X|[_ X]]; [congruence|]. split.
    + cbn [kid_of k_part k_full k_bare]. rewrite Fx, Sp. cbn [andb negb]. eapply bnd_in with (a := ([Free], gs)).
      * eapply bnd_in; [apply C1; [exact Se|exact Fm]|]. fold (opens gs). rewrite adopt_in by exact Fg. reflexivity.
      * cbv beta iota. eapply bnd_in; [exact IH1|]. reflexivity.
    + apply Forall_app. split; [|exact IH2]. eapply items_form; eauto.
Qed.
(** the components are nested *)
Lemma nested_app : forall x y, nested x -> nested y -> nested (x ++ y).
Proof.
  intros x y H. revert y. induction H; intros y Y; cbn [app]; auto; try (constructor; auto; fail).
  - rewrite <- app_assoc. cbn [app]. apply nested_section; auto.
  - rewrite <- app_assoc. cbn [app]. apply nested_part; auto.
Qed.
Lemma splice_app : forall x y n, splice (x ++ y) n = if existsb is_free x then splice x n ++ y else x ++ splice y n.
Proof.
  induction x as [|c x IH]; intros y n; cbn [app splice existsb]; [reflexivity|]. destruct c; cbn [is_free orb]; try (rewrite IH; destruct (existsb is_free x); reflexivity).
  rewrite app_assoc. reflexivity.
Qed.
Lemma splice_nested : forall l n, nested l -> nested n -> nested (splice l n).
Proof.
  intros l n H N. induction H as [|a l H IH|p x l S H1 IH1 H2 IH2|t x l H1 IH1 H2 IH2|l H IH]; cbn [splice].
  - constructor.
  - constructor. exact IH.
  - rewrite splice_app. destruct (existsb is_free x); [apply nested_section; assumption|]. cbn [splice]. apply nested_section; assumption.
  - rewrite splice_app. destruct (existsb is_free x); [apply nested_part; assumption|]. cbn [splice]. apply nested_part; assumption.
  - apply nested_app; assumption.
Qed.
Lemma splice_all_nested : forall bs l out, nested l -> splice_all bs l = Ok out -> nested out.
Proof.
  induction bs as [|b bs IH]; intros l out N H; cbn [splice_all] in H; [injection H as <-; exact N|].
  destruct (expand_bucket b) as [n|] eqn:E; [|discriminate]. cbn [rbind] in H. apply expand_ok in E as [-> F]. apply IH in H; [exact H|].
  apply splice_nested; [exact N|]. clear -F. induction F as [|p b H F IH]; cbn [opens map]; [constructor|]. destruct p; [|discriminate]. constructor. exact IH.
Qed.
Lemma lay_out_nested : forall shuf ks l sh, Forall (fun k => is_section (k_part k) = true -> forall out, k_full k (Ok out) -> nested out) ks ->
  lay_out shuf true ks (Ok (l, sh)) -> nested l.
Proof.
  intros shuf ks. induction ks as [|k ks IH]; intros l sh G H; cbn [lay_out] in H; [rk H; constructor|]. inversion G as [|? ? G1 G2]; subst.
  apply bnd_ok in H as ([l1 s1] & H1 & H). apply bnd_ok in H as ([l2 s2] & H2 & H). rk H. specialize (IH _ _ G2 H2). apply nested_app; [|exact IH].
  destruct (shuf && negb (fixed (at_ (k_part k)))).
  - destruct (splits (k_part k)); [|rk H1; repeat constructor]. apply bnd_ok in H1 as (x & X & H1). destruct (adopt x); [|discriminate]. rk H1. repeat constructor.
  - destruct (is_section (k_part k)) eqn:E; cbn [andb] in H1.
    + apply bnd_ok in H1 as (x & X & H1). rk H1. apply nested_section; [exact E|eauto|constructor].
    + rk H1. destruct (k_part k); [|discriminate]. repeat constructor.
Qed.
Lemma select_nested : forall p, is_section p = true -> forall out, select p true (Ok out) -> nested out.
Proof.
  induction p as [a|a v k sel shuf ch IH] using spart_ind2; intros Se out H; [discriminate|]. cbn [select] in H. change (choose sel shuf (map kid_of ch) true (Ok out)) in H.
  unfold choose in H. apply bnd_ok in H as (idx & _ & H). apply bnd_ok in H as ([l sh] & L & A). rewrite get_nths in L.
  apply lay_out_nested in L.
  - unfold arrange in A. destruct sh; [rk A; exact L|]. apply bnd_ok in A as (s' & _ & A). apply bnd_ok in A as ([b rest] & _ & A). apply bnd_ok in A as (b' & _ & A).
    unfold lift in A. symmetry in A. exact (splice_all_nested _ _ _ L A).
  - apply Forall_forall. intros kd K. apply in_map_iff in K as (c & <- & C). apply nths_in in C. rewrite Forall_forall in IH. cbn [kid_of k_part k_full]. exact (IH c C).
Qed.

(** ** C117 *)
(** Every form that is built is one that the rules allow, if every section selects something *)
Theorem select_form_partial : forall p e out, full p -> is_section p = true -> select p e (Ok out) -> form p e out.
Proof. intros p e out F S H. apply (form_good p F S e out H). Qed.
(** Every form that the rules allow can come up, if subsections are not shuffled as a whole *)
Theorem form_select_partial : forall p e out, simple p -> form p e out -> select p e (Ok out).
Proof.
  assert (G : forall p, simple p -> is_section p = true -> forall e out, form p e out -> select p e (Ok out)).
  { induction p as [a|a v k sel shuf ch IH] using spart_ind2; intros Sm Se e out F; [discriminate|]. cbn [simple] in Sm. destruct Sm as [Ez Sm]. apply fold_and in Sm.
    inversion F as [a' v' k' sel' shuf' ch' expand idx l free bs out' Ch Li Pm Fi]; subst.
    assert (Sub : forall P, Forall P ch -> Forall P (nths ch idx)) by (intros P X; apply Forall_forall; intros c C; apply nths_in in C; rewrite Forall_forall in X; auto).
    destruct (line_in _ _ _ _ _ Li) as [L Q].
    - intros E. apply Sub, Ez, E.
    - apply Sub. apply Forall_forall. intros c C. rewrite Forall_forall in IH, Sm. auto.
    - cbn [select]. change (choose sel shuf (map kid_of ch) e (Ok out)). unfold choose. rewrite kid_parts. eapply bnd_in; [apply pick_ok; exact Ch|].
      rewrite get_nths. eapply bnd_in; [exact L|]. assert (Qb : Forall plain_item (concat bs)) by (eapply Permutation_Forall; eauto).
      apply fill_fill0 in Fi as [Fi NE]; [|exact Qb]. eapply arrange_in; eauto. }
  intros p e out Sm F. apply G; [exact Sm| |exact F]. inversion F. reflexivity.
Qed.
(** Children are chosen as the rules say, and SelectionError means that they cannot be *)
Theorem pick_chosen : forall sel ch r, pick sel ch r ->
  match r with Ok idx => chosen sel ch idx | Err e => e = SelectionError /\ forall idx, ~ chosen sel ch idx end.
Proof. intros sel ch [idx|e] H; [apply pick_ok; exact H|apply pick_err; exact H]. Qed.
(** What the rules mean: required children are there, *)
Lemma blocks_open : forall e b x, blocks e b x -> forall p, In p b -> In (Open p) x.
Proof.
  induction 1 as [|e q ps x E H IH|q ps o x E F H IH]; intros p I; [destruct I| |]; (destruct I as [->|I]; [left; reflexivity|right]); [auto|].
  apply in_or_app. right. right. auto.
Qed.
Lemma fill_open : forall e l bs out, fill e l bs out -> forall p, In (Open p) l \/ In p (concat bs) -> In (Open p) out.
Proof.
  induction 1 as [|e b x l bs out N B F IH|e c l bs out N F IH]; intros p I.
  - destruct I as [[]|[]].
  - apply in_or_app. cbn [concat] in I. destruct I as [[I|I]|I]; [discriminate|right; auto|]. apply in_app_or in I as [I|I]; [left; eapply blocks_open; eauto|right; auto].
  - destruct I as [[I|I]|I]; [left; exact I|right; auto|right; auto].
Qed.
Lemma line_open : forall shuf e ps l free, line shuf e ps l free -> forall p, In p ps -> splits p = false -> In (Open p) l \/ In p free.
Proof.
  induction 1 as [shuf e|shuf e q ps x l free St B Li IH|e q ps l free Fx Sp Li IH|e q ps gs l free Fx Sp Fm Fg Li IH]; intros p I S; [destruct I| | |].
  - destruct I as [->|I]; [left; apply in_or_app; left; eapply blocks_open; [exact B|left; reflexivity]|].
    destruct (IH p I S) as [X|X]; [left; apply in_or_app; right; exact X|right; exact X].
  - destruct I as [->|I]; [right; left; reflexivity|]. destruct (IH p I S) as [X|X]; [left; right; exact X|right; right; exact X].
  - destruct I as [->|I]; [congruence|]. destruct (IH p I S) as [X|X]; [left; right; exact X|right; apply in_or_app; right; exact X].
Qed.
Lemma nths_nth : forall A (l : list A) idx i x, In i idx -> nth_error l i = Some x -> In x (nths l idx).
Proof. intros A l idx i x I N. unfold nths. apply in_flat_map. exists i. split; [exact I|]. rewrite N. left. reflexivity. Qed.
Theorem required_present : forall a v k sel shuf ch e out i p, form (Sect a v k sel shuf ch) e out ->
  nth_error ch i = Some p -> required (at_ p) = true -> splits p = false -> In (Open p) out.
Proof.
  intros a v k sel shuf ch e out i p F N R Sp. inversion F as [a' v' k' sel' shuf' ch' expand idx l free bs out' Ch Li Pm Fi]; subst.
  destruct Ch as (_ & _ & _ & Rq & _). pose proof (nths_nth _ _ _ _ _ (Rq _ _ N R) N) as I. eapply fill_open; [exact Fi|].
  destruct (line_open _ _ _ _ _ Li _ I Sp) as [X|X]; [left; exact X|right]. eapply Permutation_in; eauto.
Qed.
(** a fixed first child stays the first, *)
Theorem first_stays : forall a v k sel shuf ch p e out, form (Sect a v k sel shuf (p :: ch)) e out ->
  required (at_ p) = true -> fixed (at_ p) = true -> exists r, out = Open p :: r.
Proof.
  intros a v k sel shuf ch p e out F R Fx. inversion F as [a' v' k' sel' shuf' ch' expand idx l free bs out' Ch Li Pm Fi]; subst.
  destruct Ch as (So & _ & _ & Rq & _). specialize (Rq O p eq_refl R).
  assert (H : exists r, idx = O :: r).
  { destruct idx as [|j idx]; [destruct Rq|]. destruct Rq as [->|I]; [eauto|]. apply Sorted_StronglySorted in So; [|exact Nat.le_trans]. inversion So as [|? ? _ Fa]; subst.
    rewrite Forall_forall in Fa. apply Fa in I. assert (j = O) by lia. subst j. eauto. }
  destruct H as (r & ->). cbn [nths flat_map nth_error app] in Li. inversion Li as [|? ? ? ? x l' ? St B L2|? ? ? ? ? Fx2|? ? ? ? ? ? Fx2]; subst; try congruence.
  inversion B; subst; cbn [app] in Fi; inversion Fi; subst; eauto.
Qed.
(** and there are as many as there should be. *)
Lemma blocks_length : forall e b x, blocks e b x -> e = false -> length x = length b.
Proof. induction 1; intros E; cbn [length]; [reflexivity|rewrite IHblocks by exact E; reflexivity|discriminate]. Qed.
Lemma fill_length : forall e l bs out, fill e l bs out -> e = false -> (length out + length (filter is_free l) = length l + length (concat bs))%nat.
Proof.
  induction 1 as [|e b x l bs out N B F IH|e c l bs out N F IH]; intros E; [reflexivity| |].
  - cbn [concat filter is_free length]. rewrite !app_length, (blocks_length _ _ _ B E). specialize (IH E). lia.
  - specialize (IH E). cbn [length]. destruct c; cbn [filter is_free]; lia || congruence.
Qed.
Lemma line_length : forall shuf e ps l free, line shuf e ps l free -> e = false -> Forall (fun p => splits p = false) ps ->
  length l = length ps /\ length (filter is_free l) = length free.
Proof.
  induction 1 as [shuf e|shuf e q ps x l free St B Li IH|e q ps l free Fx Sp Li IH|e q ps gs l free Fx Sp Fm Fg Li IH]; intros E Q.
  - split; reflexivity.
  - inversion Q; subst. destruct IH as [A C]; auto. inversion B as [|? ? ? y E By|]; subst. inversion By; subst. cbn [app length filter is_free]. auto.
  - inversion Q; subst. destruct IH as [A C]; auto. cbn [length filter is_free]. auto.
  - inversion Q; subst. congruence.
Qed.
Lemma nths_length : forall A (l : list A) idx, Forall (fun i => (i < length l)%nat) idx -> length (nths l idx) = length idx.
Proof.
  intros A l. induction 1 as [|i idx H F IH]; [reflexivity|]. unfold nths in *. cbn [flat_map]. rewrite app_length, IH. destruct (nth_error l i) eqn:E; [reflexivity|].
  apply nth_error_None in E. lia.
Qed.
Theorem number_of_components : forall a v k sel shuf ch out, form (Sect a v k sel shuf ch) false out ->
  Forall (fun p => splits p = false) ch -> Z.of_nat (length out) = target sel ch.
Proof.
  intros a v k sel shuf ch out F Q. inversion F as [a' v' k' sel' shuf' ch' expand idx l free bs out' Ch Li Pm Fi]; subst.
  destruct Ch as (_ & <- & B & _). assert (Q' : Forall (fun p => splits p = false) (nths ch idx)) by (apply Forall_forall; intros c C; apply nths_in in C; rewrite Forall_forall in Q; auto).
  destruct (line_length _ _ _ _ _ Li eq_refl Q') as [A C]. rewrite nths_length in A by exact B. pose proof (fill_length _ _ _ _ Fi eq_refl) as L.
  rewrite <- (Permutation_length Pm), C in L. lia.
Qed.
(** A subsection that has to be shuffled as a whole cannot be: there is no form *)
Theorem shuffled_section_refuted : forall a v k sel ch e i p, nth_error ch i = Some p -> required (at_ p) = true ->
  fixed (at_ p) = false -> is_section p = true -> splits p = false -> forall out, ~ select (Sect a v k sel true ch) e (Ok out).
Proof.
  intros a v k sel ch e i p N R Fx Se Sp out H. cbn [select] in H. change (choose sel true (map kid_of ch) e (Ok out)) in H.
  unfold choose in H. rewrite kid_parts in H. apply bnd_ok in H as (idx & P & H). apply pick_ok in P as (_ & _ & _ & Rq & _). apply bnd_ok in H as ([l sh] & L & A).
  rewrite get_nths in L. assert (I : In p (nths ch idx)).
  { unfold nths. apply in_flat_map. exists i. split; [eapply Rq; eauto|]. rewrite N. left. reflexivity. }
  assert (Q : In p sh).
  { clear -L I Fx Sp. revert l sh L. induction (nths ch idx) as [|c cs IH]; intros l sh L; [destruct I|]. cbn [map lay_out] in L.
    apply bnd_ok in L as ([l1 s1] & H1 & H). apply bnd_ok in H as ([l2 s2] & H2 & H). rk H. apply in_or_app. destruct I as [->|I]; [left|right; eauto].
    cbn [kid_of k_part] in H1. rewrite Fx, Sp in H1. cbn [andb negb] in H1. rk H1. left. reflexivity. }
  apply arrange_ok in A; [|intros _ ->; destruct Q]. destruct A as (bs & P & _ & X & _). apply (Permutation_in p P) in Q. rewrite Forall_forall in X. apply X in Q. unfold plain_item in Q. congruence.
Qed.

(** ** C118 *)
(** A form of a test is its parts and sections, in order, each with a form of its own *)
Theorem test_form_partial : forall l r, Forall (fun t => Forall (fun s => full s /\ is_section s = true) (t_sections t)) l ->
  test_form l (Ok r) -> exists x, r = Root :: x /\ parts_of l x.
Proof.
  intros l r F H. unfold test_form in H. apply bnd_ok in H as (x & X & H). rk H. exists x. split; [reflexivity|]. revert x X.
  induction F as [|t l Ft F IH]; intros x X; cbn [parts] in X; [rk X; constructor|]. apply bnd_ok in X as (o & O & X). apply bnd_ok in X as (y & Y & X). rk X.
  apply parts_cons; [|auto]. clear -Ft O. revert o O. induction Ft as [|s ss [S1 S2] Ft IH]; intros o O; cbn [sections] in O; [rk O; constructor|].
  apply bnd_ok in O as (c & C & O). apply bnd_ok in O as (y & Y & O). rk O. apply sections_cons; [apply select_form_partial; assumption|auto].
Qed.
(** Starts and ends of parts and sections match, in every form of every test *)
Theorem form_nested : forall l r, test_form l (Ok r) -> exists x, r = Root :: x /\ nested x.
Proof.
  intros l r H. unfold test_form in H. apply bnd_ok in H as (x & X & H). rk H. exists x. split; [reflexivity|]. revert x X.
  induction l as [|t l IH]; intros x X; cbn [parts] in X; [rk X; constructor|]. apply bnd_ok in X as (o & O & X). apply bnd_ok in X as (y & Y & X). rk X.
  apply nested_part; [|auto]. clear -O. revert o O. induction (t_sections t) as [|s ss IH]; intros o O; cbn [sections] in O; [rk O; constructor|].
  apply bnd_ok in O as (c & C & O). apply bnd_ok in O as (y & Y & O). rk O. assert (Se : is_section s = true) by (destruct s; [destruct C|reflexivity]).
  apply nested_section; [exact Se|exact (select_nested s Se c C)|auto].
Qed.

(** A split section that selects nothing leaves None in the form, or makes an IndexError of it *)
Definition att (n : nat) (r f : bool) : attrs := Attrs n r f [] [] 0 true.
Definition nothing : spart := Sect (att 9 false false) false false None false [].
Definition with_nothing (l : list spart) : spart := Sect (att 1 false false) true true None true (nothing :: l).
Theorem empty_slot_refuted : select (with_nothing []) true (Ok [Free]).
Proof.
  cbn [with_nothing select]. change (choose None true (map kid_of [nothing]) true (Ok [Free])). unfold choose. eapply bnd_in with (a := [O]).
  - apply pick_ok. split; [repeat constructor|]. split; [reflexivity|]. split; [repeat constructor|]. split; [|repeat constructor; intros []].
    intros [|[|i]] c H R; cbn in H; try discriminate. left. reflexivity.
  - eapply bnd_in with (a := ([Free], [])); [|reflexivity]. cbn [get flat_map nth_error map kid_of app lay_out k_part k_bare at_ nothing fixed att splits andb negb].
    eapply bnd_in with (a := ([Free], [])); [|cbv beta iota; eapply bnd_in; reflexivity].
    eapply bnd_in with (a := []); [|reflexivity]. cbn [select map]. eapply bnd_in with (a := []); [|eapply bnd_in with (a := ([], [])); reflexivity].
    apply (pick_ok None [] []). split; [constructor|]. split; [reflexivity|]. split; [constructor|]. split; [|constructor]. intros [|i] c H; discriminate.
Qed.

(** ** An example: three items of which two are chosen, the last one being required and the first fixed *)
Definition ex_section : spart :=
  Sect (att 1 false false) true true (Some (2, false)) true [Item (att 2 false true); Item (att 3 false false); Item (att 4 true false)].
Definition ex_test : list tpart := [TPart 0 true true [] [] [ex_section]].
Example ex_forms : full ex_section /\ simple ex_section /\
  chosen (Some (2, false)) [Item (att 2 false true); Item (att 3 false false); Item (att 4 true false)] [0; 2]%nat /\
  form ex_section true [Open (Item (att 2 false true)); Open (Item (att 4 true false))] /\
  form ex_section true [Open (Item (att 4 true false)); Open (Item (att 3 false false))].
Proof.
  assert (C1 : chosen (Some (2, false)) [Item (att 2 false true); Item (att 3 false false); Item (att 4 true false)] [0; 2]%nat).
  { split; [repeat constructor|]. split; [reflexivity|]. split; [repeat constructor|]. split; [|intros _; repeat constructor; cbn; intuition discriminate].
    intros [|[|[|[|i]]]] c H R; cbn in H; try discriminate; injection H as <-; try discriminate. cbn. auto. }
  assert (C2 : chosen (Some (2, false)) [Item (att 2 false true); Item (att 3 false false); Item (att 4 true false)] [1; 2]%nat).
  { split; [repeat constructor|]. split; [reflexivity|]. split; [repeat constructor|]. split; [|intros _; repeat constructor; cbn; intuition discriminate].
    intros [|[|[|[|i]]]] c H R; cbn in H; try discriminate; injection H as <-; try discriminate. cbn. auto. }
  assert (B : forall i, blocks true [Item i] [Open (Item i)]) by (intros i; apply blocks_leaf; [reflexivity|constructor]).
  split; [repeat split|]. split; [split; [intros _; apply Forall_forall; intros c [<-|[<-|[<-|[]]]] E; discriminate|repeat split]|]. split; [exact C1|]. split.
  - eapply form_of with (bs := [[Item (att 4 true false)]]) (free := [Item (att 4 true false)]) (l := [Open (Item (att 2 false true))] ++ [Free]); [exact C1| |reflexivity|].
    + cbn [nths flat_map nth_error app]. 
      apply (line_stay true true (Item (att 2 false true)) _ [Open (Item (att 2 false true))]); [reflexivity|apply B|]. apply line_free; [reflexivity|reflexivity|constructor].
    + cbn [app]. apply fill_other; [discriminate|]. eapply (fill_slot true _ [_] _ _ []); [discriminate|apply B|constructor].
  - eapply form_of with (bs := [[Item (att 4 true false)]; [Item (att 3 false false)]]) (free := [Item (att 3 false false); Item (att 4 true false)]) (l := [Free; Free]); [exact C2| |apply perm_swap|].
    + cbn [nths flat_map nth_error app]. apply line_free; [reflexivity|reflexivity|]. apply line_free; [reflexivity|reflexivity|constructor].
    + eapply (fill_slot true _ [_] _ _ [_]); [discriminate|apply B|]. eapply (fill_slot true _ [_] _ _ []); [discriminate|apply B|constructor].
Qed.
Print Assumptions select_form_partial.
Print Assumptions form_select_partial.
Print Assumptions pick_chosen.
Print Assumptions required_present.
Print Assumptions first_stays.
Print Assumptions number_of_components.
Print Assumptions shuffled_section_refuted.
Print Assumptions test_form_partial.
Print Assumptions form_nested.
Print Assumptions empty_slot_refuted.
