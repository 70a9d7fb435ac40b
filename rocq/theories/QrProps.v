(** Properties C128-C130: rules and item sessions of QTI. *)
From Coq Require Import Lia String.
From Verif Require Import Py QeModel QeSpec QeProofs QeCalcProps QrModel QrSpec.
Open Scope Z_scope.

(** ** The dictionary *)
Lemma get_set : forall s x y v, get (set s x v) y = if str_eqb x y then Some v else get s y.
Proof.
  induction s as [|[k w] s IH]; intros x y v; cbn [set get]; [reflexivity|]. destruct (str_eqb k x) eqn:E; cbn [get].
  - apply str_eqb_eq in E. subst k. destruct (str_eqb x y); reflexivity.
  - rewrite IH. destruct (str_eqb k y) eqn:E'; [|reflexivity]. destruct (str_eqb x y) eqn:E''; [|reflexivity]. apply str_eqb_eq in E', E''. subst. rewrite str_eqb_refl in E. discriminate.
Qed.
Lemma get_set_same : forall s x v, get (set s x v) x = Some v.
Proof. intros. rewrite get_set, str_eqb_refl. reflexivity. Qed.
Lemma get_set_other : forall s x y v, x <> y -> get (set s x v) y = get s y.
Proof. intros s x y v H. rewrite get_set. apply str_eqb_neq in H. rewrite H. reflexivity. Qed.
Lemma set_keys : forall s x v, get s x <> None -> map fst (set s x v) = map fst s.
Proof.
  induction s as [|[k w] s IH]; intros x v H; cbn [set get map fst] in *; [congruence|]. destruct (str_eqb k x) eqn:E; cbn [map fst]; [reflexivity|]. rewrite IH by exact H. reflexivity.
Qed.
Lemma get_in : forall s x, get s x <> None <-> In x (map fst s).
Proof.
  induction s as [|[k w] s IH]; intros x; cbn [get map fst In]; [tauto|]. destruct (str_eqb k x) eqn:E.
  - apply str_eqb_eq in E. split; [tauto|discriminate].
  - rewrite IH. apply str_eqb_neq in E. tauto.
Qed.
Lemma state_ext : forall s s', NoDup (map fst s) -> map fst s = map fst s' -> (forall x, get s x = get s' x) -> s = s'.
Proof.
  induction s as [|[k v] s IH]; intros [|[k' v'] s'] Hn Hk Hg; cbn [map fst] in *; try discriminate; [reflexivity|]. injection Hk as <- Hk. inversion Hn as [|? ? Hk0 Hn']; subst.
  pose proof (Hg k) as E. cbn [get] in E. rewrite str_eqb_refl in E. injection E as <-. f_equal. apply IH; [exact Hn'|exact Hk|]. intros x. specialize (Hg x). cbn [get] in Hg.
  destruct (str_eqb k x) eqn:Ex; [|exact Hg]. apply str_eqb_eq in Ex. subst x.
  assert (H1 : get s k = None) by (destruct (get s k) eqn:E1; [|reflexivity]; exfalso; apply Hk0; apply get_in; congruence).
  assert (H2 : get s' k = None) by (destruct (get s' k) eqn:E2; [|reflexivity]; exfalso; apply Hk0; rewrite Hk; apply get_in; congruence). congruence.
Qed.

(** ** C128: which rules are followed *)
Lemma sequence_app : forall f l l' s, sequence f (l ++ l') s = match sequence f l s with Done s => sequence f l' s | o => o end.
Proof. intros f. induction l as [|r l IH]; intros l' s; cbn [app sequence]; [reflexivity|]. destruct (f r s); [apply IH|reflexivity|reflexivity]. Qed.
Lemma cond_true : forall it a1 e rs a2 els s, Forall (fun a => is_false (fst a) s) a1 -> is_true e s -> run it (Cond (a1 ++ (e, rs) :: a2) els) s = run_all it rs s.
Proof.
  intros it a1 e rs a2 els s H He. cbn [run]. induction H as [|[e' rs'] a1 Hf H IH]; cbn [app].
  - rewrite He. reflexivity.
  - cbn [fst] in Hf. rewrite Hf. exact IH.
Qed.
Lemma cond_else : forall it arms els s, Forall (fun a => is_false (fst a) s) arms -> run it (Cond arms els) s = run_all it els s.
Proof.
  intros it arms els s H. cbn [run]. induction H as [|[e' rs'] a1 Hf H IH]; [reflexivity|]. cbn [fst] in Hf. rewrite Hf. exact IH.
Qed.
Lemma cond_cases : forall (arms : list (option expression * list rule)) s, (exists a1 e rs a2, arms = a1 ++ (e, rs) :: a2 /\ Forall (fun a => is_false (fst a) s) a1 /\ is_true e s) \/
  Forall (fun a => is_false (fst a) s) arms \/ exists a1 e rs a2 x, arms = a1 ++ (e, rs) :: a2 /\ Forall (fun a => is_false (fst a) s) a1 /\ test e s = Err x.
Proof.
  induction arms as [|[e rs] arms IH]; intros s; [right; left; constructor|]. destruct (test e s) as [[|]|x] eqn:E.
  - left. exists [], e, rs, arms. split; [reflexivity|]. split; [constructor|exact E].
  - destruct (IH s) as [(a1 & e' & rs' & a2 & -> & H & He)|[H|(a1 & e' & rs' & a2 & x & -> & H & He)]].
    + left. exists ((e, rs) :: a1), e', rs', a2. split; [reflexivity|]. split; [constructor; [exact E|exact H]|exact He].
    + right. left. constructor; [exact E|exact H].
    + right. right. exists ((e, rs) :: a1), e', rs', a2, x. split; [reflexivity|]. split; [constructor; [exact E|exact H]|exact He].
  - right. right. exists [], e, rs, arms, x. split; [reflexivity|]. split; [constructor|exact E].
Qed.
Lemma cond_err : forall it a1 e rs a2 els s x, Forall (fun a => is_false (fst a) s) a1 -> test e s = Err x -> run it (Cond (a1 ++ (e, rs) :: a2) els) s = Raised x.
Proof.
  intros it a1 e rs a2 els s x H He. cbn [run]. induction H as [|[e' rs'] a1 Hf H IH]; cbn [app].
  - rewrite He. reflexivity.
  - cbn [fst] in Hf. rewrite Hf. exact IH.
Qed.
Section RuleInd.
  Variable P : rule -> Prop.
  Hypothesis Hexit : P Exit.
  Hypothesis Hset : forall w x e, P (Set_ w x e).
  Hypothesis Hcond : forall arms els, Forall (fun a => Forall P (snd a)) arms -> Forall P els -> P (Cond arms els).
  Fixpoint rule_induct (r : rule) : P r.
  Proof using Hexit Hset Hcond.
    destruct r as [arms els|w x e|]; [|apply Hset|apply Hexit]. apply Hcond.
    - induction arms as [|[e rs] arms IH]; constructor; [|exact IH]. cbn [snd]. induction rs as [|r rs IHr]; constructor; [apply rule_induct|exact IHr].
    - induction els as [|r rs IHr]; constructor; [apply rule_induct|exact IHr].
  Defined.
End RuleInd.
Definition continues (it : item) (r : rule) : Prop := forall s l,
  (forall s1 s', run it r s = Done s1 -> follows it l s1 s' -> follows it (r :: l) s s') /\ (forall s1, run it r s = Stopped s1 -> follows it (r :: l) s s1).
Lemma continues_all : forall it rs, Forall (continues it) rs -> forall s l,
  (forall s1 s', run_all it rs s = Done s1 -> follows it l s1 s' -> follows it (rs ++ l) s s') /\ (forall s1, run_all it rs s = Stopped s1 -> follows it (rs ++ l) s s1).
Proof.
  intros it rs H. unfold run_all. induction H as [|r rs Hr H IH]; intros s l; cbn [sequence app].
  - split; [intros s1 s' [= <-] Hf; exact Hf|discriminate].
  - destruct (Hr s (rs ++ l)) as (H1 & H2). destruct (run it r s) as [s2|s2|x] eqn:E.
    + destruct (IH s2 l) as (H3 & H4). split; [intros s1 s' Hs Hf; apply (H1 s2); [reflexivity|exact (H3 _ _ Hs Hf)]|intros s1 Hs; apply (H1 s2); [reflexivity|exact (H4 _ Hs)]].
    + split; [discriminate|]. intros s1 [= <-]. apply H2. reflexivity.
    + split; discriminate.
Qed.
Lemma run_continues : forall it r, continues it r.
Proof.
  intros it. apply rule_induct.
  - intros s l. split; [discriminate|]. intros s1 [= <-]. constructor.
  - intros w x e s l. cbn [run]. destruct (set_rule it w x e s) as [s2|y] eqn:E; [|split; discriminate]. split; [|discriminate]. intros s1 s' [= <-] Hf. econstructor; eassumption.
  - intros arms els Ha He s l. destruct (cond_cases arms s) as [(a1 & e & rs & a2 & -> & Hf & Ht)|[Hf|(a1 & e & rs & a2 & x & -> & Hf & Ht)]].
    + rewrite (cond_true _ _ _ _ _ _ _ Hf Ht). rewrite Forall_forall in Ha. specialize (Ha (e, rs) ltac:(apply in_or_app; right; left; reflexivity)). cbn [snd] in Ha.
      destruct (continues_all it rs Ha s l) as (H1 & H2). split; [intros s1 s' Hr Hs; eapply first_true; eauto|intros s1 Hr; eapply first_true; eauto].
    + rewrite (cond_else _ _ _ _ Hf). destruct (continues_all it els He s l) as (H1 & H2). split; [intros s1 s' Hr Hs; eapply none_true; eauto|intros s1 Hr; eapply none_true; eauto].
    + rewrite (cond_err _ _ _ _ _ _ _ _ Hf Ht). split; discriminate.
Qed.
Theorem rules_exact : forall it l s s', process it l s = Ok s' <-> follows it l s s'.
Proof.
  intros it l s s'. split.
  - intros H. unfold process in H. assert (Hc : Forall (continues it) l) by (apply Forall_forall; intros r _; apply run_continues).
    destruct (continues_all it l Hc s []) as (H1 & H2). rewrite app_nil_r in H1, H2. destruct (run_all it l s) as [s1|s1|x] eqn:E; [|..|discriminate]; injection H as <-.
    + eapply H1; [reflexivity|constructor].
    + apply H2. reflexivity.
  - intros H. induction H as [s|l s|w x e l s s1 s' Hs H IH|a1 e rs a2 els l s s' Hf Ht H IH|arms els l s s' Hf H IH]; unfold process, run_all in *; cbn [sequence].
    + reflexivity.
    + reflexivity.
    + cbn [run]. rewrite Hs. exact IH.
    + rewrite (cond_true _ _ _ _ _ _ _ Hf Ht). rewrite sequence_app in IH. exact IH.
    + rewrite (cond_else _ _ _ _ Hf). rewrite sequence_app in IH. exact IH.
Qed.
(** errors of conditions are not swallowed *)
Theorem condition_error : forall it a1 e rs a2 els l s x, Forall (fun a => is_false (fst a) s) a1 -> test e s = Err x -> process it (Cond (a1 ++ (e, rs) :: a2) els :: l) s = Err x.
Proof. intros. unfold process, run_all. cbn [sequence]. rewrite (cond_err _ _ _ _ _ _ _ _ H H0). reflexivity. Qed.
(** a condition is true exactly if its expression gives the truth value true; NULL counts as false, all else is an error *)
Theorem condition_exact : forall e s v, e s = Ok v -> well_formed v ->
  (is_true (Some e) s <-> vval v = Some (PS (DBool true))) /\
  (is_false (Some e) s <-> vval v = Some (PS (DBool false)) \/ is_null v /\ (vcard v = None \/ vcard v = Some Single) /\ (vbase v = None \/ vbase v = Some Boolean)).
Proof.
  intros e s [c b p] He Hw. unfold is_true, is_false, test, is_null, well_formed in *. rewrite He. cbn [rbind vcard vbase vval] in *.
  assert (Hb : check_base_types [b; Some Boolean] = match b with None => Ok (Some Boolean) | Some b => if base_dec b Boolean then Ok (Some Boolean) else Err ProcessingError end) by (destruct b as [[]|]; reflexivity).
  assert (Hc : check_cardinalities [c; Some Single] = match c with None => Ok (Some Single) | Some b => if card_dec b Single then Ok (Some Single) else Err ProcessingError end) by (destruct c as [[]|]; reflexivity).
  rewrite Hb, Hc. destruct p as [[d|l|m|n]|].
  - destruct Hw as (-> & b' & -> & Ht). destruct b'; destruct d as [[|]|z|t|a t|x y|n|n|n]; try destruct Ht; cbn; (split; split; [try discriminate; intros; first [reflexivity|congruence]|try discriminate; intros; first [reflexivity|congruence]| |]);
      try (intros [H|(H & _)]; discriminate); try discriminate; intros H; try discriminate; try (left; reflexivity); try (destruct H as [H|(H & _)]; first [discriminate|reflexivity]); reflexivity.
  - destruct Hw as (-> & _). cbn. destruct b as [[]|]; cbn; (split; split; [discriminate|discriminate|discriminate|intros [H|(H & _)]; discriminate]).
  - destruct Hw as (-> & _). cbn. destruct b as [[]|]; cbn; (split; split; [discriminate|discriminate|discriminate|intros [H|(H & _)]; discriminate]).
  - destruct Hw as (-> & _). cbn. destruct b as [[]|]; cbn; (split; split; [discriminate|discriminate|discriminate|intros [H|(H & _)]; discriminate]).
  - destruct b as [[]|]; destruct c as [[]|]; cbn; (split; split; [discriminate|discriminate| |]); try discriminate; try (intros _; right; tauto); try reflexivity;
      intros [H|(_ & [H|H] & [H'|H'])]; discriminate.
Qed.

(** ** C129: assignments *)
Lemma assign_types : forall v p v', assign v p = Ok v' -> vcard v' = vcard v /\ vbase v' = vbase v.
Proof.
  intros v p v' H. unfold assign in H. destruct p as [p|]; [|injection H as <-; split; reflexivity].
  destruct (vcard v) as [[]|] eqn:E; destruct p; try discriminate.
  - unfold multiple_of in H. apply bind_ok in H. destruct H as (l & _ & H). injection H as <-. split; reflexivity.
  - unfold ordered_of in H. apply bind_ok in H. destruct H as (l' & _ & H). injection H as <-. split; reflexivity.
  - injection H as <-. split; reflexivity.
  - apply bind_ok in H. destruct H as (d' & _ & H). injection H as <-. split; reflexivity.
Qed.
Lemma nodup_times : forall d l, NoDup l -> times d l = Nat.min 1 (times d l).
Proof. intros d l H. unfold times. rewrite (NoDup_count_occ dat_dec) in H. specialize (H d). lia. Qed.
Lemma keys_times : forall m d, NoDup (map fst m) -> Forall (fun e => (0 < snd e)%nat) m -> times d (map fst m) = Nat.min 1 (times d (dict_values m)).
Proof.
  intros m d Hn Hp. rewrite nodup_times by exact Hn. assert (E : In d (map fst m) <-> In d (dict_values m)).
  { split; [|apply in_values]. intros H. apply in_map_iff in H. destruct H as ([k n] & <- & Hin). unfold dict_values. apply in_flat_map. exists (k, n). split; [exact Hin|].
    rewrite Forall_forall in Hp. apply Hp in Hin. cbn in *. destruct n as [|n]; [lia|left; reflexivity]. }
  unfold times. rewrite !(count_occ_In dat_dec) in E. lia.
Qed.
Lemma assign_exact : forall v w v', well_formed w -> assign v (vval w) = Ok v' -> (vval w <> None -> vcard w = vcard v /\ vbase w = vbase v) ->
  well_formed v' /\ (is_null v' <-> is_null w) /\ (vcard v <> Some Multiple -> vval v' = vval w) /\ (vcard v = Some Multiple -> forall d, times d (members v') = Nat.min 1 (times d (members w))).
Proof.
  intros v [cw bw pw] v' Hw H Hty. unfold is_null, well_formed, assign in *. cbn [vcard vbase vval] in *. destruct pw as [p|].
  2:{ injection H as <-. cbn [vval]. split; [exact Logic.I|]. split; [tauto|]. split; [reflexivity|]. intros _ d. reflexivity. }
  destruct (Hty ltac:(discriminate)) as (E1 & E2). rewrite <- E1, <- E2 in *. clear Hty. destruct p as [d|l|m|n].
  - destruct Hw as (-> & b & -> & Ht). apply bind_ok in H. destruct H as (d' & Hd & H). injection H as <-. cbn [vval vcard vbase].
    assert (Hr : renew_all (Some b) [d] = Ok [d']) by (cbn [renew_all]; rewrite Hd; reflexivity). apply renew_all_ok in Hr. destruct Hr as (Hr & _). injection Hr as ->.
    split; [split; [reflexivity|exists b; split; [reflexivity|exact Ht]]|]. split; [split; discriminate|]. split; [reflexivity|discriminate].
  - destruct Hw as (-> & Hl & b & -> & Ht). destruct (ordered_spec _ _ _ H) as (H1 & H2 & H3 & H4).
    { intros x Hx. exists b. split; [reflexivity|]. rewrite Forall_forall in Ht. exact (Ht x Hx). }
    unfold ordered_of in H. apply bind_ok in H. destruct H as (l' & Hr & H). injection H as <-. apply renew_all_ok in Hr. destruct Hr as (-> & _). split; [exact H1|]. cbn [vval].
    destruct l as [|x l]; [congruence|]. split; [split; discriminate|]. split; [reflexivity|discriminate].
  - destruct Hw as (-> & Hm & Hn & Hp & b & -> & Ht). destruct (multiple_spec _ _ _ H) as (H1 & H2 & H3 & H4).
    { intros x Hx. exists b. split; [reflexivity|]. rewrite Forall_forall in Ht. exact (Ht x Hx). }
    split; [exact H1|]. assert (Hd : forall d, times d (members v') = Nat.min 1 (times d (dict_values m))) by (intros d; rewrite H4; apply keys_times; assumption).
    split; [|split; [congruence|intros _; exact Hd]]. split; [|discriminate]. intros Hnull. exfalso. destruct m as [|[k n] m]; [congruence|].
    assert (Hk : (1 <= times k (dict_values ((k, n) :: m)))%nat).
    { unfold times. apply (count_occ_In dat_dec). inversion Hp as [|? ? Hpn _]; subst. cbn in Hpn. unfold dict_values. cbn [flat_map]. destruct n as [|n]; [lia|]. left. reflexivity. }
    specialize (Hd k). unfold members in Hd. rewrite Hnull in Hd. change (times k []) with 0%nat in Hd. destruct (times k (dict_values ((k, n) :: m))) as [|t]; [lia|discriminate Hd].
  - destruct Hw as (-> & ->). injection H as <-. cbn [vval vcard vbase]. split; [split; reflexivity|]. split; [split; discriminate|]. split; [reflexivity|discriminate].
Qed.
Lemma set_item_ok : forall s x w s', set_item s x w = Ok s' -> exists v v', get s x = Some v /\ assign v (vval w) = Ok v' /\ s' = set s x v' /\
  (vcard w = None \/ vcard w = vcard v) /\ (vbase w = None \/ vbase w = vbase v).
Proof.
  intros s x w s' H. unfold set_item in H. destruct (get s x) as [v|]; [|discriminate].
  destruct (match vcard w with None => false | Some c => match vcard v with Some c' => if card_dec c c' then false else true | None => true end end) eqn:Ec; [discriminate|].
  destruct (match vbase w with None => false | Some b => match vbase v with Some b' => if base_dec b b' then false else true | None => true end end) eqn:Eb; [discriminate|].
  apply bind_ok in H. destruct H as (v' & Ha & H). injection H as <-. exists v, v'. split; [reflexivity|]. split; [exact Ha|]. split; [reflexivity|]. split.
  - destruct (vcard w) as [c|]; [right|left; reflexivity]. destruct (vcard v) as [c'|]; [|discriminate]. destruct (card_dec c c'); [congruence|discriminate].
  - destruct (vbase w) as [b|]; [right|left; reflexivity]. destruct (vbase v) as [b'|]; [|discriminate]. destruct (base_dec b b'); [congruence|discriminate].
Qed.
Lemma wf_typed_val : forall w c b, well_formed w -> (vcard w = None \/ vcard w = c) -> (vbase w = None \/ vbase w = b) -> (c = Some Record_ -> b = None) -> vval w <> None -> vcard w = c /\ vbase w = b.
Proof.
  intros [cw bw pw] c b Hw Hc Hb Hr Hn. unfold well_formed in Hw. cbn [vcard vbase vval] in *. destruct pw as [[d|l|m|n]|]; [..|congruence].
  - destruct Hw as (-> & b' & -> & _). destruct Hc, Hb; try discriminate. tauto.
  - destruct Hw as (-> & _ & b' & -> & _). destruct Hc, Hb; try discriminate. tauto.
  - destruct Hw as (-> & _ & _ & _ & b' & -> & _). destruct Hc, Hb; try discriminate. tauto.
  - destruct Hw as (-> & ->). destruct Hc as [Hc|Hc]; [discriminate|]. split; [exact Hc|]. rewrite Hr by congruence. reflexivity.
Qed.
(** a value is copied, except that a multiple container then has each of its values once *)
Theorem assignment_exact : forall s x w s' v, well_formed w -> get s x = Some v -> (vcard v = Some Record_ -> vbase v = None) -> set_item s x w = Ok s' ->
  (forall y, y <> x -> get s' y = get s y) /\ exists v', get s' x = Some v' /\ vcard v' = vcard v /\ vbase v' = vbase v /\ well_formed v' /\ (is_null v' <-> is_null w) /\
  (vcard v <> Some Multiple -> vval v' = vval w) /\ (vcard v = Some Multiple -> forall d, times d (members v') = Nat.min 1 (times d (members w))).
Proof.
  intros s x w s' v Hw Hv Hr H. apply set_item_ok in H. destruct H as (v0 & v' & Hv0 & Ha & -> & Hc & Hb). rewrite Hv in Hv0. injection Hv0 as <-.
  split; [intros y Hy; apply get_set_other; congruence|]. exists v'. split; [apply get_set_same|]. destruct (assign_types _ _ _ Ha) as (H1 & H2). split; [exact H1|]. split; [exact H2|].
  apply assign_exact; [exact Hw|exact Ha|]. intros Hn. apply wf_typed_val; assumption.
Qed.
(** it should have them as often *)
Theorem assignment_refuted : exists s w s' v', well_formed w /\ get s [1] = Some (V (Some Multiple) (Some Integer) None) /\ set_item s [1] w = Ok s' /\ get s' [1] = Some v' /\
  times (DInt 5) (members w) = 2%nat /\ times (DInt 5) (members v') = 1%nat.
Proof.
  exists [([1], V (Some Multiple) (Some Integer) None)], (V (Some Multiple) (Some Integer) (Some (PM [(DInt 5, 2%nat)]))), [([1], V (Some Multiple) (Some Integer) (Some (PM [(DInt 5, 1%nat)])))], (V (Some Multiple) (Some Integer) (Some (PM [(DInt 5, 1%nat)]))).
  split; [|repeat split]. split; [reflexivity|]. split; [discriminate|]. split; [constructor; [intros []|constructor]|]. split; [repeat constructor|]. exists Integer. split; [reflexivity|repeat constructor].
Qed.
Theorem assignment_refused : forall s x w, (get s x = None -> set_item s x w = Err KeyError) /\
  forall v, get s x = Some v -> (exists c, vcard w = Some c /\ vcard v <> Some c) \/ (exists b, vbase w = Some b /\ vbase v <> Some b) -> set_item s x w = Err ValueError.
Proof.
  intros s x w. split; [intros H; unfold set_item; rewrite H; reflexivity|]. intros v Hv H. unfold set_item. rewrite Hv. destruct H as [(c & -> & Hc)|(b & -> & Hb)].
  - destruct (vcard v) as [c'|]; [|reflexivity]. destruct (card_dec c c'); [congruence|reflexivity].
  - assert (E : match vbase v with Some b' => if base_dec b b' then false else true | None => true end = true) by (destruct (vbase v) as [b'|]; [|reflexivity]; destruct (base_dec b b'); [congruence|reflexivity]).
    rewrite E. destruct (match vcard w with None => false | Some c => match vcard v with Some c' => if card_dec c c' then false else true | None => true end end); reflexivity.
Qed.

(** ** C129: what rules can change *)
Definition allowed (it : item) (w : what) (k : str) : Prop :=
  match w with
  | Outcome => In k (outcome_names it)
  | Template => In k (map dname (templates it))
  | CorrectResponse => In k (map (fun d => dot_correct (dname d)) (responses it))
  | DefaultValue => In k (map (fun d => dot_default (dname d)) (responses it)) \/ In k (map (fun d => dot_default (dname d)) (outcomes it))
  end.
Definition kinds_ok (it : item) : Prop :=
  Forall (fun d => dkind d = KTemplate) (templates it) /\ Forall (fun d => dkind d = KResponse) (responses it) /\ Forall (fun d => dkind d = KOutcome) (outcomes it).
Lemma declared : forall it s x d, kinds_ok it -> get_declaration it s x = Ok (Some d) -> dname d = x /\
  match dkind d with KTemplate => In d (templates it) | KResponse => In d (responses it) | KOutcome => In d (outcomes it) end.
Proof.
  intros it s x d (Ht & Hr & Ho) H. unfold get_declaration in H. destruct (get s x); [|discriminate]. injection H as H. apply find_some in H. destruct H as (Hin & E).
  apply str_eqb_eq in E. split; [exact E|]. unfold all_decls in Hin. rewrite Forall_forall in Ht, Hr, Ho. apply in_app_or in Hin. destruct Hin as [Hin|Hin]; [rewrite (Ht d Hin); exact Hin|].
  apply in_app_or in Hin. destruct Hin as [Hin|Hin]; [rewrite (Hr d Hin); exact Hin|rewrite (Ho d Hin); exact Hin].
Qed.
Lemma set_rule_effect : forall it w x e s s', kinds_ok it -> set_rule it w x e s = Ok s' -> exists f v k, e = Some f /\ f s = Ok v /\ allowed it w k /\ set_item s k v = Ok s'.
Proof.
  intros it w x e s s' Hk H. unfold set_rule in H. destruct e as [f|]; [|discriminate]. apply bind_ok in H. destruct H as (v & Hv & H). exists f, v.
  destruct w; cbn [allowed].
  - apply bind_ok in H. destruct H as (b & Hb & H). destruct b; [|discriminate]. exists x. split; [reflexivity|]. split; [exact Hv|]. split; [|exact H].
    unfold is_outcome in Hb. apply bind_ok in Hb. destruct Hb as ([d|] & Hd & Hb).
    + destruct (declared it s x d Hk Hd) as (<- & Hd'). destruct (dkind d); try discriminate. right. apply in_map. exact Hd'.
    + injection Hb as Hb. apply str_eqb_eq in Hb. left. symmetry. exact Hb.
  - apply bind_ok in H. destruct H as (b & Hb & H). destruct b; [|discriminate]. exists x. split; [reflexivity|]. split; [exact Hv|]. split; [|exact H].
    unfold is_template in Hb. apply bind_ok in Hb. destruct Hb as ([d|] & Hd & Hb); [|discriminate].
    destruct (declared it s x d Hk Hd) as (<- & Hd'). destruct (dkind d); try discriminate. apply in_map. exact Hd'.
  - apply bind_ok in H. destruct H as ([d|] & Hd & H); [|discriminate]. destruct (declared it s x d Hk Hd) as (<- & Hd'). destruct (dkind d); try discriminate.
    exists (dot_correct (dname d)). split; [reflexivity|]. split; [exact Hv|]. split; [|exact H]. apply in_map_iff. exists d. split; [reflexivity|exact Hd'].
  - apply bind_ok in H. destruct H as ([d|] & Hd & H); [|discriminate]. destruct (declared it s x d Hk Hd) as (<- & Hd'). destruct (dkind d); try discriminate;
      exists (dot_default (dname d)); (split; [reflexivity|]; split; [exact Hv|]; split; [|exact H]); [left|right]; apply in_map_iff; exists d; (split; [reflexivity|exact Hd']).
Qed.
Lemma same_refl : forall s, same_types s s.
Proof. intros s. split; [reflexivity|]. intros x v v' -> [= ->]. split; reflexivity. Qed.
Lemma same_trans : forall a b c, same_types a b -> same_types b c -> same_types a c.
Proof.
  intros a b c (H1 & H2) (H3 & H4). split; [congruence|]. intros x v v' Hv Hv'. destruct (get b x) as [u|] eqn:E.
  - destruct (H2 x v u Hv E). destruct (H4 x u v' E Hv'). split; congruence.
  - exfalso. assert (Hin : In x (map fst a)) by (apply get_in; congruence). rewrite H1 in Hin. apply get_in in Hin. congruence.
Qed.
Lemma set_same : forall s x v v', get s x = Some v -> vcard v' = vcard v -> vbase v' = vbase v -> same_types s (set s x v').
Proof.
  intros s x v v' Hv Hc Hb. split; [symmetry; apply set_keys; congruence|]. intros y u u' Hu Hu'. rewrite get_set in Hu'. destruct (str_eqb x y) eqn:E; [|rewrite Hu in Hu'; injection Hu' as <-; split; reflexivity].
  apply str_eqb_eq in E. subst y. injection Hu' as <-. rewrite Hv in Hu. injection Hu as <-. split; congruence.
Qed.
Lemma set_item_frame : forall s x w s', set_item s x w = Ok s' -> same_types s s' /\ forall y, y <> x -> get s' y = get s y.
Proof.
  intros s x w s' H. apply set_item_ok in H. destruct H as (v & v' & Hv & Ha & -> & _). destruct (assign_types _ _ _ Ha) as (H1 & H2). split; [eapply set_same; eassumption|].
  intros y Hy. apply get_set_other. congruence.
Qed.
Lemma made_of_cond : forall P a1 (e : option expression) rs a2 els, made_of P (Cond (a1 ++ (e, rs) :: a2) els) -> Forall (made_of P) rs.
Proof.
  intros P a1 e rs a2 els H. inversion H as [| |? ? Ha _]; subst. rewrite Forall_forall in Ha. exact (Ha (e, rs) ltac:(apply in_or_app; right; left; reflexivity)).
Qed.
Lemma frame : forall it P l s s', kinds_ok it -> Forall (made_of P) l -> follows it l s s' ->
  same_types s s' /\ forall k, (forall w x e, P w x e -> ~ allowed it w k) -> get s' k = get s k.
Proof.
  intros it P l s s' Hk Hl H. induction H as [s|l s|w x e l s s1 s' Hs H IH|a1 e rs a2 els l s s' Hf Ht H IH|arms els l s s' Hf H IH].
  - split; [apply same_refl|reflexivity].
  - split; [apply same_refl|reflexivity].
  - inversion Hl as [|? ? Hr Hl']; subst. destruct (set_rule_effect _ _ _ _ _ _ Hk Hs) as (f & v & k & _ & _ & Hal & Hset). destruct (set_item_frame _ _ _ _ Hset) as (H1 & H2).
    destruct (IH Hl') as (H3 & H4). split; [eapply same_trans; eassumption|]. intros y Hy. rewrite (H4 y Hy). apply H2. intros ->. inversion Hr; subst. exact (Hy _ _ _ H5 Hal).
  - inversion Hl as [|? ? Hr Hl']; subst. apply IH. apply Forall_app. split; [exact (made_of_cond _ _ _ _ _ _ Hr)|exact Hl'].
  - inversion Hl as [|? ? Hr Hl']; subst. apply IH. apply Forall_app. inversion Hr; subst. split; assumption.
Qed.
Theorem response_rules_frame : forall it l s s', item_ok it -> Forall response_rule l -> process it l s = Ok s' ->
  same_types s s' /\ forall k, ~ In k (outcome_names it) -> get s' k = get s k.
Proof.
  intros it l s s' (H1 & H2 & H3 & _) Hl H. apply rules_exact in H. destruct (frame it _ l s s' (conj H1 (conj H2 H3)) Hl H) as (H4 & H5). split; [exact H4|].
  intros k Hk. apply H5. intros w x e ->. exact Hk.
Qed.
Theorem template_rules_frame : forall it l s s', item_ok it -> Forall template_rule l -> process it l s = Ok s' ->
  same_types s s' /\ forall k, ~ In k (map dname (templates it)) -> ~ In k (meta_names it) -> get s' k = get s k.
Proof.
  intros it l s s' (H1 & H2 & H3 & _) Hl H. apply rules_exact in H. destruct (frame it _ l s s' (conj H1 (conj H2 H3)) Hl H) as (H4 & H5). split; [exact H4|].
  intros k Hk Hm. apply H5. unfold meta_names in Hm. rewrite !in_app_iff in Hm. intros [] x e Hw; cbn [allowed]; tauto.
Qed.
(** well-formed sessions stay so *)
Lemma records_same : forall s s', records_ok s -> same_types s s' -> records_ok s'.
Proof.
  intros s s' H (Hk & Ht) x v Hv Hc. destruct (get s x) as [u|] eqn:E; [destruct (Ht x u v E Hv) as (H1 & H2); rewrite <- H2; apply (H x u E); congruence|].
  exfalso. assert (Hin : In x (map fst s')) by (apply get_in; congruence). rewrite <- Hk in Hin. apply get_in in Hin. congruence.
Qed.
Theorem rules_well_formed : forall it l s s', item_ok it -> Forall sound_rule l -> wf_state s -> records_ok s -> process it l s = Ok s' -> wf_state s'.
Proof.
  intros it l s s' (H1 & H2 & H3 & _) Hl Hw Hrec H. apply rules_exact in H. induction H as [s|l s|w x e l s s1 s' Hs H IH|a1 e rs a2 els l s s' Hf Ht H IH|arms els l s s' Hf H IH]; try assumption.
  - inversion Hl as [|? ? Hr Hl']; subst. destruct (set_rule_effect _ _ _ _ _ _ (conj H1 (conj H2 H3)) Hs) as (f & v & k & -> & Hv & _ & Hset). inversion Hr as [|? ? ? Hsnd|]; subst.
    pose proof (Hsnd s v Hw Hv) as Hwv. destruct (set_item_frame _ _ _ _ Hset) as (H4 & _). apply IH; [exact Hl'| |exact (records_same _ _ Hrec H4)].
    destruct (set_item_ok _ _ _ _ Hset) as (u & _ & Hu & _). destruct (assignment_exact _ _ _ _ _ Hwv Hu (Hrec _ _ Hu) Hset) as (Ho & v' & Hg & _ & _ & Hwf & _).
    intros y z Hz. destruct (list_eq_dec Z.eq_dec y k) as [->|Hne]; [congruence|]. rewrite (Ho y Hne) in Hz. exact (Hw y z Hz).
  - inversion Hl as [|? ? Hr Hl']; subst. apply IH; [|exact Hw|exact Hrec]. apply Forall_app. split; [exact (made_of_cond _ _ _ _ _ _ Hr)|exact Hl'].
  - inversion Hl as [|? ? Hr Hl']; subst. apply IH; [|exact Hw|exact Hrec]. apply Forall_app. inversion Hr; subst. split; assumption.
Qed.
(** expressions with variables are type safe in well-formed sessions *)
Theorem tree_type_safe : forall lower it s e, wf_state s -> constants e -> match tree_value lower it s e with Ok v => well_formed v | Err x => expected x end.
Proof.
  intros lower it s e Hw. revert e. assert (Hl : forall x, match lookup s x with Ok v => well_formed v | Err e => e = KeyError end) by (intros x; unfold lookup; destruct (get s x) as [v|] eqn:E; [exact (Hw x v E)|reflexivity]).
  assert (Hd : forall r, match r with Ok v => well_formed v | Err e => e = KeyError \/ expected e end -> fine (declared_or r)).
  { intros [v|x] H; [exact H|]. destruct H as [->|H]; [left; reflexivity|]. unfold declared_or. destruct x; first [exact H|left; reflexivity]. }
  fix IH 1. intros e He. change (fine (tree_value lower it s e)). destruct e as [v|x|x|x| |o l|o e]; cbn [tree_value constants] in *.
  - exact He.
  - apply Hd. specialize (Hl x). destruct (lookup s x); tauto.
  - apply Hd. unfold get_declaration. destruct (get s x); cbn [rbind]; [|left; reflexivity]. specialize (Hl (dot_default x)). destruct (lookup s (dot_default x)); tauto.
  - apply Hd. unfold get_declaration. destruct (get s x); cbn [rbind]; [|left; reflexivity]. destruct (find _ _) as [d|]; [|right; left; reflexivity]. destruct (dkind d); try (right; left; reflexivity).
    specialize (Hl (dot_correct x)). destruct (lookup s (dot_correct x)); tauto.
  - exact Logic.I.
  - assert (G : match (fix children (l : list tree) : res (list value) := match l with [] => Ok [] | e :: l => let! v := tree_value lower it s e in let! vs := children l in Ok (v :: vs) end) l with
                Ok vs => Forall well_formed vs | Err x => expected x end).
    { revert He. induction l as [|e l IHl]; intros He; [constructor|]. cbn [fold_right] in He. destruct He as (He & Hl'). specialize (IHl Hl'). pose proof (IH e He) as H1.
      destruct (tree_value lower it s e) as [v|x]; cbn [rbind]; [|exact H1]. destruct ((fix children (l : list tree) := _) l) as [vs|x]; cbn [rbind]; [constructor; assumption|exact IHl]. }
    apply bind_fine; [intros x E; rewrite E in G; exact G|]. intros vs E. rewrite E in G. apply apply_n_fine. exact G.
  - apply bind_fine; [intros x E; pose proof (IH e He) as G; rewrite E in G; exact G|]. intros v E. pose proof (IH e He) as G. rewrite E in G. apply apply_u_fine. exact G.
Qed.
Theorem tree_lookup_exact : forall lower it s x, item_ok it -> session_of it s ->
  (forall v, get s x = Some v -> tree_value lower it s (TVariable x) = Ok v) /\
  (get s x = None -> forall e, In e [TVariable x; TDefault x; TCorrect x] -> tree_value lower it s e = Err ProcessingError) /\
  (forall d, In d (responses it ++ outcomes it) -> x = dname d -> exists v, get s (dot_default x) = Some v /\ tree_value lower it s (TDefault x) = Ok v) /\
  (forall d, In d (responses it) -> x = dname d -> exists v, get s (dot_correct x) = Some v /\ tree_value lower it s (TCorrect x) = Ok v) /\
  (get s x <> None -> ~ In x (map dname (responses it)) -> tree_value lower it s (TCorrect x) = Err ProcessingError).
Proof.
  intros lower it s x Hok (_ & Hs). assert (Hk : kinds_ok it) by (destruct Hok as (A & B & C & _); exact (conj A (conj B C))). cbn [tree_value]. unfold lookup. split; [|split; [|split; [|split]]].
  - intros v ->. reflexivity.
  - intros Hn e He. cbn [In] in He. unfold get_declaration. destruct He as [<-|[<-|[<-|[]]]]; cbn [tree_value]; unfold lookup, get_declaration; rewrite Hn; reflexivity.
  - intros d Hin ->. assert (G1 : get s (dname d) <> None) by (apply Hs; unfold all_names; rewrite !in_app_iff; apply in_app_or in Hin; destruct Hin as [Hin|Hin]; [right; left|right; right; left]; apply in_map; exact Hin).
    assert (G2 : get s (dot_default (dname d)) <> None).
    { apply Hs. unfold all_names, meta_names. rewrite !in_app_iff. do 3 right. left. apply in_app_or in Hin. destruct Hin as [Hin|Hin]; [right; left|right; right]; apply in_map_iff; exists d; tauto. }
    unfold get_declaration. destruct (get s (dname d)) as [u|]; [|congruence]. destruct (get s (dot_default (dname d))) as [v|]; [|congruence]. exists v. split; reflexivity.
  - intros d Hin ->. assert (G1 : get s (dname d) <> None) by (apply Hs; unfold all_names; rewrite !in_app_iff; right; left; apply in_map; exact Hin).
    assert (G2 : get s (dot_correct (dname d)) <> None) by (apply Hs; unfold all_names, meta_names; rewrite !in_app_iff; do 3 right; left; left; apply in_map_iff; exists d; tauto).
    destruct (get_declaration it s (dname d)) as [[d'|]|e] eqn:E.
    + destruct (declared it s _ d' Hk E) as (E1 & E2). cbn [rbind].
      assert (Hkind : dkind d' = KResponse).
      { destruct Hok as (_ & _ & _ & Hn). unfold all_names in Hn. assert (Hd : In (dname d) (map dname (responses it))) by (apply in_map; exact Hin). apply in_split in Hd. destruct Hd as (l1 & l2 & El). rewrite El in Hn.
        rewrite <- app_assoc, app_assoc in Hn. apply NoDup_remove_2 in Hn. rewrite !in_app_iff in Hn. destruct (dkind d'); [reflexivity| |]; exfalso; apply Hn; rewrite <- E1.
        - right. right. left. apply in_map. exact E2.
        - left. left. apply in_map. exact E2. }
      rewrite Hkind. destruct (get s (dot_correct (dname d))) as [v|]; [|congruence]. exists v. split; reflexivity.
    + exfalso. unfold get_declaration in E. destruct (get s (dname d)); [|discriminate]. injection E as E. assert (X : str_eqb (dname d) (dname d) = false) by (apply (find_none _ _ E d); unfold all_decls; rewrite !in_app_iff; tauto). rewrite str_eqb_refl in X. discriminate.
    + exfalso. unfold get_declaration in E. destruct (get s (dname d)); [discriminate|congruence].
  - intros G Hn. destruct (get_declaration it s x) as [[d|]|e] eqn:E; cbn [rbind]; [|reflexivity|unfold get_declaration in E; destruct (get s x); [discriminate|congruence]].
    destruct (declared it s _ d Hk E) as (<- & E2). destruct (dkind d); try reflexivity. exfalso. apply Hn. apply in_map. exact E2.
Qed.
Theorem tree_rules_well_formed : forall lower it l s s', item_ok it -> Forall (tree_rule lower it) l -> wf_state s -> records_ok s -> process it l s = Ok s' -> wf_state s'.
Proof.
  intros lower it l s s' Hok Hl. apply rules_well_formed; [exact Hok|]. eapply Forall_impl; [|exact Hl]. clear. unfold tree_rule, sound_rule.
  apply (rule_induct (fun r => made_of _ r -> made_of _ r)).
  - intros _. constructor.
  - intros w x e H. inversion H as [|? ? ? He|]; subst. constructor. destruct e as [e|]; [|exact Logic.I]. destruct He as (t & Ht & ->). intros s v Hw Hv. pose proof (tree_type_safe lower it s t Hw Ht) as G. rewrite Hv in G. exact G.
  - intros arms els Ha He H. inversion H as [| |? ? H1 H2]; subst. constructor.
    + rewrite Forall_forall in *. intros a Hin. specialize (Ha a Hin). specialize (H1 a Hin). rewrite Forall_forall in *. intros r Hr. apply Ha; [exact Hr|]. apply H1. exact Hr.
    + rewrite Forall_forall in *. intros r Hr. apply He; [exact Hr|]. apply H2. exact Hr.
Qed.

(** ** C130: sessions *)
Definition writes (l : list (str * res value)) (s : state) : res state := each (fun p s => let! v := snd p in Ok (set s (fst p) v)) l s.
Lemma each_app : forall {A} (f : A -> state -> res state) l l' s, each f (l ++ l') s = let! s := each f l s in each f l' s.
Proof. intros A f. induction l as [|a l IH]; intros l' s; cbn [app each]; [reflexivity|]. destruct (f a s); cbn [rbind]; [apply IH|reflexivity]. Qed.
Lemma each_writes : forall {A} (f : A -> state -> res state) (g : A -> list (str * res value)), (forall a s, f a s = writes (g a) s) -> forall l s, each f l s = writes (flat_map g l) s.
Proof.
  intros A f g H. induction l as [|a l IH]; intros s; cbn [each flat_map]; [reflexivity|]. unfold writes in *. rewrite each_app, H. destruct (each _ (g a) s); cbn [rbind]; [apply IH|reflexivity].
Qed.
Lemma set_in : forall s x v k, In k (map fst (set s x v)) <-> k = x \/ In k (map fst s).
Proof.
  intros s x v k. rewrite <- !get_in, get_set. destruct (str_eqb x k) eqn:E; [apply str_eqb_eq in E; subst; split; [intros _; left; reflexivity|discriminate]|].
  apply str_eqb_neq in E. split; [tauto|intros [->|H]; [congruence|exact H]].
Qed.
Lemma set_nodup : forall s x v, NoDup (map fst s) -> NoDup (map fst (set s x v)).
Proof.
  induction s as [|[k w] s IH]; intros x v H; cbn [set]; [constructor; [intros []|constructor]|]. destruct (str_eqb k x) eqn:E; [exact H|]. cbn [map fst] in *.
  inversion H as [|? ? H1 H2]; subst. constructor; [|apply IH; exact H2]. rewrite set_in. apply str_eqb_neq in E. tauto.
Qed.
Lemma writes_effect : forall l s s', NoDup (map fst l) -> writes l s = Ok s' ->
  (forall k r, In (k, r) l -> exists v, r = Ok v /\ get s' k = Some v) /\ (forall k, ~ In k (map fst l) -> get s' k = get s k) /\
  (NoDup (map fst s) -> NoDup (map fst s')) /\ forall k, In k (map fst s') <-> In k (map fst l) \/ In k (map fst s).
Proof.
  induction l as [|[k r] l IH]; intros s s' Hn H; unfold writes in *; cbn [each fst snd map] in *.
  - injection H as <-. split; [intros ? ? []|]. split; [reflexivity|]. split; [tauto|]. intros k. cbn [In]. tauto.
  - apply bind_ok in H. destruct H as (s1 & H1 & H). apply bind_ok in H1. destruct H1 as (v & -> & H1). injection H1 as <-. inversion Hn as [|? ? Hk Hn']; subst.
    destruct (IH _ _ Hn' H) as (Ha & Hb & Hc & Hd). split; [|split; [|split]].
    + intros k' r' [[= <- <-]|Hin]; [|exact (Ha _ _ Hin)]. exists v. split; [reflexivity|]. rewrite (Hb k Hk). apply get_set_same.
    + intros k' Hk'. cbn [In] in Hk'. rewrite Hb by tauto. apply get_set_other. intros ->. tauto.
    + intros Hs. apply Hc. apply set_nodup. exact Hs.
    + intros k'. rewrite Hd, set_in. cbn [In]. intuition congruence.
Qed.
Definition w_template (d : decl) : list (str * res value) := [(dname d, defined d (ddefault d))].
Definition w_builtin : list (str * res value) :=
  [(numAttempts, Ok (V (Some Single) (Some Integer) None)); (duration, Ok (V (Some Single) (Some Duration) None)); (completionStatus, Ok (V (Some Single) (Some Identifier) None))].
Definition w_response (d : decl) : list (str * res value) :=
  [(dot_correct (dname d), defined d (dcorrect d)); (dot_default (dname d), defined d (ddefault d)); (dname d, new_value (dcard d) (dbase d))].
Definition w_outcome (d : decl) : list (str * res value) := [(dot_default (dname d), defined d (ddefault d)); (dname d, new_value (dcard d) (dbase d))].
Definition all_writes (it : item) : list (str * res value) :=
  flat_map w_template (templates it) ++ w_builtin ++ flat_map w_response (responses it) ++ flat_map w_outcome (outcomes it).
Lemma create_writes : forall it, create it = writes (all_writes it) [].
Proof.
  intros it. unfold create, all_writes. rewrite (each_writes _ w_template) by (intros d s; unfold writes, w_template; cbn [each fst snd]; destruct (defined d (ddefault d)); reflexivity).
  unfold writes at 2. rewrite each_app. unfold writes. destruct (each _ (flat_map w_template (templates it)) []) as [s|x]; cbn [rbind]; [|reflexivity].
  rewrite each_app. unfold w_builtin at 1. cbn [each fst snd rbind]. rewrite each_app.
  rewrite (each_writes _ w_response) by (intros d s'; unfold writes, w_response; cbn [each fst snd]; destruct (defined d (dcorrect d)); [cbn [rbind]|reflexivity]; destruct (defined d (ddefault d)); [cbn [rbind]|reflexivity]; destruct (new_value (dcard d) (dbase d)); reflexivity).
  unfold writes. destruct (each _ (flat_map w_response (responses it)) _) as [s'|x]; cbn [rbind]; [|reflexivity].
  rewrite (each_writes _ w_outcome) by (intros d s''; unfold writes, w_outcome; cbn [each fst snd]; destruct (defined d (ddefault d)); [cbn [rbind]|reflexivity]; destruct (new_value (dcard d) (dbase d)); reflexivity).
  reflexivity.
Qed.
Lemma written_names : forall it, incl (all_names it) (map fst (all_writes it)) /\ incl (map fst (all_writes it)) (all_names it) /\ List.length (map fst (all_writes it)) = List.length (all_names it).
Proof.
  intros it. assert (E1 : forall l, map fst (flat_map w_template l) = map dname l) by (induction l as [|d l IH]; cbn; congruence).
  assert (E2 : forall l, map fst (flat_map w_response l) = flat_map (fun d => [dot_correct (dname d); dot_default (dname d); dname d]) l) by (induction l as [|d l IH]; cbn; congruence).
  assert (E3 : forall l, map fst (flat_map w_outcome l) = flat_map (fun d => [dot_default (dname d); dname d]) l) by (induction l as [|d l IH]; cbn; congruence).
  unfold all_writes, all_names, meta_names. rewrite !map_app, E1, E2, E3. split; [|split].
  - intros k H. rewrite !in_app_iff in *. destruct H as [H|[H|[H|[[H|[H|H]]|H]]]].
    + tauto.
    + right. right. left. apply in_map_iff in H. destruct H as (d & <- & H). apply in_flat_map. exists d. cbn. tauto.
    + right. right. right. apply in_map_iff in H. destruct H as (d & <- & H). apply in_flat_map. exists d. cbn. tauto.
    + right. right. left. apply in_map_iff in H. destruct H as (d & <- & H). apply in_flat_map. exists d. cbn. tauto.
    + right. right. left. apply in_map_iff in H. destruct H as (d & <- & H). apply in_flat_map. exists d. cbn. tauto.
    + right. right. right. apply in_map_iff in H. destruct H as (d & <- & H). apply in_flat_map. exists d. cbn. tauto.
    + right. left. exact H.
  - intros k H. rewrite !in_app_iff in *. destruct H as [H|[H|[H|H]]].
    + tauto.
    + do 4 right. exact H.
    + apply in_flat_map in H. destruct H as (d & H & [<-|[<-|[<-|[]]]]).
      * do 3 right. left. left. apply in_map_iff. exists d. tauto.
      * do 3 right. left. right. left. apply in_map_iff. exists d. tauto.
      * right. left. apply in_map. exact H.
    + apply in_flat_map in H. destruct H as (d & H & [<-|[<-|[]]]).
      * do 3 right. left. right. right. apply in_map_iff. exists d. tauto.
      * right. right. left. apply in_map. exact H.
  - rewrite !app_length, !map_length. cbn [w_builtin map List.length].
    assert (L2 : forall l, List.length (flat_map (fun d => [dot_correct (dname d); dot_default (dname d); dname d]) l) = (3 * List.length l)%nat) by (induction l as [|d l IH]; cbn [flat_map app List.length] in *; lia).
    assert (L3 : forall l, List.length (flat_map (fun d => [dot_default (dname d); dname d]) l) = (2 * List.length l)%nat) by (induction l as [|d l IH]; cbn [flat_map app List.length] in *; lia).
    rewrite L2, L3. lia.
Qed.
(** a new session has all variables of the item, with these values *)
Theorem create_exact : forall it s, item_ok it -> create it = Ok s -> session_of it s /\
  (forall d, In d (templates it) -> exists v, defined d (ddefault d) = Ok v /\ get s (dname d) = Some v) /\
  (forall d, In d (responses it ++ outcomes it) -> exists n v, new_value (dcard d) (dbase d) = Ok n /\ get s (dname d) = Some n /\ defined d (ddefault d) = Ok v /\ get s (dot_default (dname d)) = Some v) /\
  (forall d, In d (responses it) -> exists v, defined d (dcorrect d) = Ok v /\ get s (dot_correct (dname d)) = Some v) /\
  get s numAttempts = Some (V (Some Single) (Some Integer) None) /\ get s completionStatus = Some (V (Some Single) (Some Identifier) None).
Proof.
  intros it s (_ & _ & _ & Hn) H. rewrite create_writes in H. destruct (written_names it) as (H1 & H2 & H3).
  assert (Hn' : NoDup (map fst (all_writes it))) by (apply (NoDup_incl_NoDup Hn); [rewrite H3; constructor|exact H1]).
  destruct (writes_effect _ _ _ Hn' H) as (Ha & _ & Hc & Hd). assert (Hw : forall k r, In (k, r) (all_writes it) -> exists v, r = Ok v /\ get s k = Some v) by exact Ha.
  unfold all_writes in Hw. split; [split; [apply Hc; constructor|]|].
  { intros x. rewrite get_in, Hd. cbn [map In]. split; [intros Hx; left; apply H1; exact Hx|intros [Hx|[]]; apply H2; exact Hx]. }
  split; [|split; [|split]].
  - intros d Hin. apply Hw. rewrite !in_app_iff. left. apply in_flat_map. exists d. split; [exact Hin|]. left. reflexivity.
  - intros d Hin. apply in_app_or in Hin. destruct Hin as [Hin|Hin].
    + destruct (Hw (dname d) (new_value (dcard d) (dbase d))) as (n & En & Gn); [rewrite !in_app_iff; right; right; left; apply in_flat_map; exists d; split; [exact Hin|right; right; left; reflexivity]|].
      destruct (Hw (dot_default (dname d)) (defined d (ddefault d))) as (v & Ev & Gv); [rewrite !in_app_iff; right; right; left; apply in_flat_map; exists d; split; [exact Hin|right; left; reflexivity]|].
      exists n, v. tauto.
    + destruct (Hw (dname d) (new_value (dcard d) (dbase d))) as (n & En & Gn); [rewrite !in_app_iff; right; right; right; apply in_flat_map; exists d; split; [exact Hin|right; left; reflexivity]|].
      destruct (Hw (dot_default (dname d)) (defined d (ddefault d))) as (v & Ev & Gv); [rewrite !in_app_iff; right; right; right; apply in_flat_map; exists d; split; [exact Hin|left; reflexivity]|].
      exists n, v. tauto.
  - intros d Hin. apply Hw. rewrite !in_app_iff. right. right. left. apply in_flat_map. exists d. split; [exact Hin|]. left. reflexivity.
  - split.
    + destruct (Hw numAttempts (Ok (V (Some Single) (Some Integer) None))) as (v & [= <-] & G); [rewrite !in_app_iff; right; left; left; reflexivity|exact G].
    + destruct (Hw completionStatus (Ok (V (Some Single) (Some Identifier) None))) as (v & [= <-] & G); [rewrite !in_app_iff; right; left; right; right; left; reflexivity|exact G].
Qed.
(** an item with a variable for a file has no sessions: creating one fails, though such variables are legal *)
Theorem file_variable_refuted : forall it s d, item_ok it -> In d (responses it ++ outcomes it) -> dcard d = Single -> dbase d = Some File -> create it <> Ok s.
Proof.
  intros it s d Hok Hin Hc Hb H. destruct (create_exact it s Hok H) as (_ & _ & H1 & _). destruct (H1 d Hin) as (n & v & Hn & _). rewrite Hc, Hb in Hn. discriminate.
Qed.

Lemma NoDup_app_remove_l : forall {A} (a b : list A), NoDup (a ++ b) -> NoDup b.
Proof. intros A. induction a as [|x a IH]; intros b H; [exact H|]. inversion H; subst. apply IH. assumption. Qed.
Lemma NoDup_app_remove_r : forall {A} (a b : list A), NoDup (a ++ b) -> NoDup a.
Proof. intros A. induction a as [|x a IH]; intros b H; [constructor|]. cbn in H. inversion H as [|? ? H1 H2]; subst. constructor; [|exact (IH b H2)]. intros Hin. apply H1. apply in_or_app. left. exact Hin. Qed.
Lemma default_not_outcome : forall it d d', item_ok it -> In d (responses it ++ outcomes it) -> In d' (responses it ++ outcomes it) -> dot_default (dname d) <> dname d'.
Proof.
  intros it d d' (_ & _ & _ & Hn) Hd Hd' E. unfold all_names in Hn. rewrite (app_assoc (map dname (responses it))), <- map_app in Hn.
  assert (Hm : In (dot_default (dname d)) (meta_names it)).
  { unfold meta_names. rewrite !in_app_iff. apply in_app_or in Hd. destruct Hd as [Hd|Hd]; [right; left|right; right]; apply in_map_iff; exists d; tauto. }
  apply NoDup_app_remove_l in Hn. apply in_split in Hm. destruct Hm as (m1 & m2 & Em). rewrite Em in Hn. rewrite <- app_assoc, app_assoc in Hn. apply NoDup_remove_2 in Hn. apply Hn. rewrite E. rewrite !in_app_iff. left. left. apply in_map. exact Hd'.
Qed.
Lemma outcome_default_get : forall s1 s2 x, get s1 (dot_default x) = get s2 (dot_default x) -> outcome_default s1 x = outcome_default s2 x.
Proof. intros s1 s2 x H. unfold outcome_default, default_of. rewrite H. reflexivity. Qed.
(** what is set for each of some variables, as g gives it from the values that were there before *)
Definition each_set (g : state -> str -> res value) (l : list decl) (s : state) : res state := each (fun d s => let! v := g s (dname d) in Ok (set s (dname d) v)) l s.
Lemma each_set_effect : forall g l s s', (forall s1 s2 x, get s1 (dot_default x) = get s2 (dot_default x) -> g s1 x = g s2 x) -> (forall d d', In d l -> In d' l -> dot_default (dname d) <> dname d') ->
  NoDup (map dname l) -> each_set g l s = Ok s' ->
  (forall k, ~ In k (map dname l) -> get s' k = get s k) /\ (forall d, In d l -> exists v, g s (dname d) = Ok v /\ get s' (dname d) = Some v) /\
  ((forall d, In d l -> get s (dname d) <> None) -> map fst s' = map fst s).
Proof.
  intros g l. induction l as [|d l IH]; intros s s' Hg Hd Hn H; unfold each_set in *; cbn [each map] in *.
  - injection H as <-. split; [reflexivity|]. split; [intros ? []|reflexivity].
  - apply bind_ok in H. destruct H as (s1 & H1 & H). apply bind_ok in H1. destruct H1 as (v & Hv & H1). injection H1 as <-. inversion Hn as [|? ? Hk Hn']; subst.
    destruct (IH _ _ Hg (fun a b Ha Hb => Hd a b (or_intror Ha) (or_intror Hb)) Hn' H) as (Ha & Hb & Hc). split; [|split].
    + intros k Hk'. cbn [In] in Hk'. rewrite Ha by tauto. apply get_set_other. tauto.
    + intros d' [<-|Hin].
      * exists v. split; [exact Hv|]. rewrite Ha by exact Hk. apply get_set_same.
      * destruct (Hb d' Hin) as (v' & Hv' & G). exists v'. split; [|exact G]. rewrite <- Hv'. apply Hg. symmetry. apply get_set_other. intros E. apply (Hd d' d (or_intror Hin) (or_introl eq_refl)). congruence.
    + intros Hp. rewrite Hc; [apply set_keys; apply Hp; left; reflexivity|]. intros d' Hin. rewrite get_set. destruct (str_eqb (dname d) (dname d')); [discriminate|]. apply Hp. right. exact Hin.
Qed.
Lemma outcomes_nodup : forall it, item_ok it -> NoDup (map dname (responses it)) /\ NoDup (map dname (outcomes it)).
Proof.
  intros it (_ & _ & _ & Hn). unfold all_names in Hn. apply NoDup_app_remove_l in Hn. split; [exact (NoDup_app_remove_r _ _ Hn)|]. apply NoDup_app_remove_l in Hn. exact (NoDup_app_remove_r _ _ Hn).
Qed.
(** what scoring gives does not depend on earlier scores *)
Lemma defaults_afresh : forall it l, item_ok it -> incl l (outcomes it) -> forall s1 s2, map fst s1 = map fst s2 -> NoDup (map fst s1) -> (forall d, In d l -> get s1 (dname d) <> None) ->
  (forall k, ~ In k (map dname l) -> get s1 k = get s2 k) -> each_set outcome_default l s1 = each_set outcome_default l s2.
Proof.
  intros it l Hok. induction l as [|d l IH]; intros Hi s1 s2 Hk Hn Hp Hg; unfold each_set in *; cbn [each map] in *.
  - f_equal. apply state_ext; [exact Hn|exact Hk|]. intros x. apply Hg. intros [].
  - rewrite (outcome_default_get s1 s2 (dname d)).
    2:{ apply Hg. intros H. assert (H' : In (dot_default (dname d)) (map dname (d :: l))) by exact H. apply in_map_iff in H'. destruct H' as (d' & E & Hin).
        refine (default_not_outcome it d d' Hok _ _ (eq_sym E)); apply in_or_app; right; apply Hi; [left; reflexivity|exact Hin]. }
    destruct (outcome_default s2 (dname d)) as [v|x]; cbn [rbind]; [|reflexivity].
    assert (Hp1 : get s1 (dname d) <> None) by (apply Hp; left; reflexivity). assert (Hp2 : get s2 (dname d) <> None) by (apply get_in; rewrite <- Hk; apply get_in; exact Hp1).
    apply IH.
    + intros a Ha. apply Hi. right. exact Ha.
    + rewrite !set_keys by assumption. exact Hk.
    + apply set_nodup. exact Hn.
    + intros d' Hin. rewrite get_set. destruct (str_eqb (dname d) (dname d')); [discriminate|]. apply Hp. right. exact Hin.
    + intros k Hk'. rewrite !get_set. destruct (str_eqb (dname d) k) eqn:E; [reflexivity|]. apply str_eqb_neq in E. apply Hg. intros [H|H]; [congruence|tauto].
Qed.
Theorem scored_afresh : forall it s1 s2, item_ok it -> adaptive it = false -> session_of it s1 -> map fst s1 = map fst s2 -> (forall k, ~ In k (map dname (outcomes it)) -> get s1 k = get s2 k) ->
  end_attempt it s1 = end_attempt it s2.
Proof.
  intros it s1 s2 Hok Ha (Hn & Hs) Hk Hg. unfold end_attempt. rewrite Ha. replace (set_outcome_defaults it s1) with (set_outcome_defaults it s2); [reflexivity|]. symmetry.
  apply (defaults_afresh it (outcomes it) Hok (incl_refl _) s1 s2 Hk Hn); [|exact Hg]. intros d Hin. apply Hs. unfold all_names. rewrite !in_app_iff. right. right. left. apply in_map. exact Hin.
Qed.

Lemma names_in : forall it s, session_of it s -> get s numAttempts <> None /\ get s duration <> None /\ get s completionStatus <> None /\ (forall d, In d (responses it) -> get s (dname d) <> None) /\ (forall d, In d (outcomes it) -> get s (dname d) <> None).
Proof.
  intros it s (_ & Hs). assert (Hb : forall x, In x [numAttempts; duration; completionStatus] -> get s x <> None) by (intros x Hx; apply Hs; unfold all_names; rewrite !in_app_iff; tauto).
  split; [apply Hb; cbn; tauto|]. split; [apply Hb; cbn; tauto|]. split; [apply Hb; cbn; tauto|].
  split; intros d Hin; apply Hs; unfold all_names; rewrite !in_app_iff; [right; left|right; right; left]; apply in_map; exact Hin.
Qed.
Lemma same_keys_session : forall it s s', session_of it s -> map fst s' = map fst s -> session_of it s'.
Proof. intros it s s' (Hn & Hs) H. split; [rewrite H; exact Hn|]. intros x. rewrite Hs, !get_in, H. tauto. Qed.
Lemma names_distinct : forall it, item_ok it -> forall x, In x [numAttempts; duration; completionStatus] -> ~ In x (map dname (templates it)) /\ ~ In x (map dname (responses it)) /\ ~ In x (map dname (outcomes it)) /\ ~ In x (meta_names it).
Proof.
  intros it (_ & _ & _ & Hn) x Hx. unfold all_names in Hn. rewrite !app_assoc in Hn. apply in_split in Hx. destruct Hx as (l1 & l2 & E). rewrite E in Hn. rewrite app_assoc in Hn. apply NoDup_remove_2 in Hn.
  rewrite !in_app_iff in Hn. tauto.
Qed.
(** the first attempt: the responses get their defaults *)
Theorem first_attempt : forall it s s', item_ok it -> session_of it s -> holds_int s numAttempts 0 -> begin_attempt it s = Ok s' ->
  session_of it s' /\ holds_int s' numAttempts 1 /\ holds_id s' completionStatus (lit "unknown") /\
  (forall d, In d (responses it) -> exists v w, get s (dot_default (dname d)) = Some v /\ copy_value v = Ok w /\ get s' (dname d) = Some w) /\
  forall k, k <> numAttempts -> k <> completionStatus -> ~ In k (map dname (responses it)) -> get s' k = get s k.
Proof.
  intros it s s' Hok Hs Hi H. unfold holds_int in Hi. unfold begin_attempt in H. rewrite Hi in H. change (0 + 1) with 1 in H. change (1 =? 1) with true in H. cbv iota in H.
  change (IntegerValue (Some 1)) with (Ok (V (Some Single) (Some Integer) (Some (PS (DInt 1))))) in H. cbn [rbind] in H. apply bind_ok in H. destruct H as (s2 & H1 & H). injection H as <-.
  destruct (names_in it s Hs) as (P1 & _ & P3 & P4 & _). set (s1 := set s numAttempts (V (Some Single) (Some Integer) (Some (PS (DInt 1))))) in *.
  assert (K1 : map fst s1 = map fst s) by (apply set_keys; exact P1). pose proof (same_keys_session it s s1 Hs K1) as Hs1. destruct (names_in it s1 Hs1) as (_ & _ & _ & P5 & _).
  destruct (each_set_effect default_of (responses it) s1 s2) as (Ha & Hb & Hc).
  { intros a b x E. unfold default_of. rewrite E. reflexivity. }
  { intros d d' Hd Hd'. apply (default_not_outcome it d d' Hok); apply in_or_app; left; assumption. }
  { apply (outcomes_nodup it Hok). }
  { exact H1. }
  specialize (Hc P5). pose proof (same_keys_session it s1 s2 Hs1 Hc) as Hs2. destruct (names_in it s2 Hs2) as (_ & _ & P6 & _ & _).
  destruct (names_distinct it Hok numAttempts) as (_ & N1 & _ & N2); [cbn; tauto|]. destruct (names_distinct it Hok completionStatus) as (_ & N3 & _); [cbn; tauto|].
  split; [apply (same_keys_session it s2); [exact Hs2|apply set_keys; exact P6]|]. split; [|split; [|split]].
  - unfold holds_int. rewrite get_set_other by discriminate. rewrite Ha by exact N1. unfold s1. apply get_set_same.
  - unfold holds_id. apply get_set_same.
  - intros d Hin. destruct (Hb d Hin) as (w & Hw & G). unfold default_of in Hw.
    assert (Hne : numAttempts <> dot_default (dname d)).
    { intros E. apply N2. unfold meta_names. rewrite !in_app_iff. right. left. rewrite E. apply in_map_iff. exists d. split; [reflexivity|exact Hin]. }
    unfold s1 in Hw. rewrite get_set_other in Hw by exact Hne. destruct (get s (dot_default (dname d))) as [v|]; [|discriminate]. exists v, w. split; [reflexivity|]. split; [exact Hw|].
    rewrite get_set_other; [exact G|]. intros E. apply N3. rewrite E. apply in_map. exact Hin.
  - intros k K2 K3 K4. rewrite get_set_other by congruence. rewrite Ha by exact K4. apply get_set_other. congruence.
Qed.
(** later attempts: only counted *)
Theorem later_attempt : forall it s s' n, n <> 0 -> session_of it s -> holds_int s numAttempts n -> begin_attempt it s = Ok s' ->
  session_of it s' /\ holds_int s' numAttempts (n + 1) /\ forall k, k <> numAttempts -> get s' k = get s k.
Proof.
  intros it s s' n Hz Hs Hi H. unfold holds_int in Hi. unfold begin_attempt in H. rewrite Hi in H. apply bind_ok in H. destruct H as (v & Hv & H).
  assert (En : (n + 1 =? 1) = false) by (apply Z.eqb_neq; lia). rewrite En in H. injection H as <-. unfold IntegerValue in Hv. destruct (in_range (n + 1)); [|discriminate]. injection Hv as <-.
  split; [apply (same_keys_session it s); [exact Hs|apply set_keys; apply (names_in it s Hs)]|]. split; [apply get_set_same|]. intros k Hk. apply get_set_other. congruence.
Qed.
Lemma set_outcome_defaults_effect : forall it s s', item_ok it -> session_of it s -> set_outcome_defaults it s = Ok s' ->
  session_of it s' /\ (forall d, In d (outcomes it) -> exists v, outcome_default s (dname d) = Ok v /\ get s' (dname d) = Some v) /\ forall k, ~ In k (map dname (outcomes it)) -> get s' k = get s k.
Proof.
  intros it s s' Hok Hs H. destruct (each_set_effect outcome_default (outcomes it) s s') as (Ha & Hb & Hc).
  { apply outcome_default_get. }
  { intros d d' Hd Hd'. apply (default_not_outcome it d d' Hok); apply in_or_app; right; assumption. }
  { apply (outcomes_nodup it Hok). }
  { exact H. }
  destruct (names_in it s Hs) as (_ & _ & _ & _ & P). split; [apply (same_keys_session it s); [exact Hs|exact (Hc P)]|]. split; [exact Hb|exact Ha].
Qed.
(** submitting: the responses that are given, then scores; all else stays *)
Lemma submitted : forall saved l s s1, each (fun d s =>
      match get saved (dname d) with
      | None => Ok s
      | Some w => match get s (dname d) with None => Err KeyError | Some v => let! v := assign v (vval w) in Ok (set s (dname d) v) end
      end) l s = Ok s1 -> NoDup (map dname l) -> same_types s s1 /\ (forall k, ~ In k (map dname l) -> get s1 k = get s k) /\
  forall d, In d l -> match get saved (dname d) with None => get s1 (dname d) = get s (dname d) | Some w => exists v v', get s (dname d) = Some v /\ assign v (vval w) = Ok v' /\ get s1 (dname d) = Some v' end.
Proof.
  intros saved. induction l as [|d l IH]; intros s s1 H Hn; cbn [each map] in *.
  - injection H as <-. split; [apply same_refl|]. split; [reflexivity|intros ? []].
  - apply bind_ok in H. destruct H as (s2 & H2 & H). inversion Hn as [|? ? Hk Hn']; subst. destruct (IH _ _ H Hn') as (Ha & Hb & Hc).
    assert (H3 : same_types s s2 /\ (forall k, k <> dname d -> get s2 k = get s k) /\ match get saved (dname d) with None => get s2 (dname d) = get s (dname d) | Some w => exists v v', get s (dname d) = Some v /\ assign v (vval w) = Ok v' /\ get s2 (dname d) = Some v' end).
    { destruct (get saved (dname d)) as [w|]; [|injection H2 as <-; split; [apply same_refl|split; reflexivity]]. destruct (get s (dname d)) as [v|] eqn:Ev; [|discriminate].
      apply bind_ok in H2. destruct H2 as (v' & Hv' & H2). injection H2 as <-. destruct (assign_types _ _ _ Hv') as (T1 & T2). split; [eapply set_same; eassumption|].
      split; [intros k Hk'; apply get_set_other; congruence|]. exists v, v'. split; [reflexivity|]. split; [exact Hv'|apply get_set_same]. }
    destruct H3 as (T & F & D). split; [eapply same_trans; eassumption|]. split.
    + intros k Hk'. cbn [In] in Hk'. rewrite Hb by tauto. apply F. intros ->. tauto.
    + intros d' [<-|Hin].
      * rewrite Hb by exact Hk. exact D.
      * specialize (Hc d' Hin). rewrite F in Hc by (intros E; apply Hk; rewrite <- E; apply in_map; exact Hin). exact Hc.
Qed.
Theorem submit_frame : forall it saved s s', item_ok it -> Forall response_rule (response_rules it) -> session_of it s -> submit it saved s = Ok s' -> session_of it s' /\
  (forall k, ~ In k (outcome_names it) -> ~ In k (map dname (responses it)) -> get s' k = get s k) /\
  forall d, In d (responses it) -> match get saved (dname d) with None => get s' (dname d) = get s (dname d) | Some w => exists v v', get s (dname d) = Some v /\ assign v (vval w) = Ok v' /\ get s' (dname d) = Some v' end.
Proof.
  intros it saved s s' Hok Hr Hs H. unfold submit in H. apply bind_ok in H. destruct H as (s1 & H1 & H). destruct (submitted _ _ _ _ H1 (proj1 (outcomes_nodup it Hok))) as ((T & _) & F & D).
  assert (Hs1 : session_of it s1) by (apply (same_keys_session it s); [exact Hs|congruence]).
  assert (H2 : session_of it s' /\ forall k, ~ In k (outcome_names it) -> get s' k = get s1 k).
  { unfold end_attempt in H. apply bind_ok in H. destruct H as (s2 & H2 & H). destruct (response_rules_frame it _ s2 s' Hok Hr H) as ((T2 & _) & F2).
    assert (H3 : session_of it s2 /\ forall k, ~ In k (map dname (outcomes it)) -> get s2 k = get s1 k).
    { destruct (adaptive it); [injection H2 as <-; split; [exact Hs1|reflexivity]|]. destruct (set_outcome_defaults_effect it s1 s2 Hok Hs1 H2) as (A & _ & B). split; assumption. }
    destruct H3 as (A & B). split; [apply (same_keys_session it s2); [exact A|congruence]|]. intros k Hk. rewrite F2 by exact Hk. apply B. intros Hin. apply Hk. right. exact Hin. }
  destruct H2 as (Hs' & F2). split; [exact Hs'|]. split.
  - intros k K1 K2. rewrite F2 by exact K1. apply F. exact K2.
  - intros d Hin. specialize (D d Hin). rewrite F2; [exact D|]. intros [E|Hin'].
    + destruct (names_distinct it Hok completionStatus) as (_ & N & _); [cbn; tauto|]. apply N. rewrite E. apply in_map. exact Hin.
    + destruct Hok as (_ & _ & _ & Hn). unfold all_names in Hn. apply NoDup_app_remove_l in Hn. apply in_map with (f := dname) in Hin. apply in_split in Hin. destruct Hin as (l1 & l2 & E). rewrite E in Hn.
      rewrite <- app_assoc in Hn. apply NoDup_remove_2 in Hn. apply Hn. rewrite !in_app_iff. tauto.
Qed.
(** over every history of attempts: they are counted, and template variables, defaults and correct responses stay *)
Theorem attempts_counted : forall it l s0 s1 s, item_ok it -> Forall response_rule (response_rules it) -> session_of it s0 -> begin_session it s0 = Ok s1 -> history it l s1 = Ok s ->
  session_of it s /\ holds_int s numAttempts (attempts l) /\ (forall k, In k (map dname (templates it)) \/ In k (meta_names it) -> get s k = get s0 k).
Proof.
  intros it l s0 s1 s Hok Hr Hs0 H1 H.
  assert (Hst : forall k, In k (map dname (templates it)) \/ In k (meta_names it) -> ~ In k (outcome_names it) /\ ~ In k (map dname (responses it)) /\ k <> numAttempts /\ k <> duration).
  { intros k Hk. assert (Hb : ~ In k [numAttempts; duration; completionStatus]) by (intros Hx; destruct (names_distinct it Hok k Hx) as (A & _ & _ & B); tauto).
    cbn [In] in Hb. assert (Hd : ~ In k (map dname (responses it)) /\ ~ In k (map dname (outcomes it))).
    { destruct Hok as (_ & _ & _ & Hn). unfold all_names in Hn. destruct Hk as [Hk|Hk].
      - apply in_split in Hk. destruct Hk as (l1 & l2 & E). rewrite E in Hn. rewrite <- app_assoc in Hn. apply NoDup_remove_2 in Hn. rewrite !in_app_iff in Hn. tauto.
      - apply in_split in Hk. destruct Hk as (l1 & l2 & E). rewrite E in Hn. rewrite !app_assoc in Hn. rewrite <- (app_assoc _ _ [_; _; _]) in Hn. cbn [app] in Hn. apply NoDup_remove_2 in Hn. rewrite !in_app_iff in Hn. tauto. }
    unfold outcome_names. cbn [In]. repeat split; try tauto; intros ->; tauto. }
  assert (B : session_of it s1 /\ holds_int s1 numAttempts 0 /\ forall k, In k (map dname (templates it)) \/ In k (meta_names it) -> get s1 k = get s0 k).
  { unfold begin_session in H1. apply bind_ok in H1. destruct H1 as (s2 & H2 & H1). injection H1 as <-. destruct (names_in it s0 Hs0) as (P1 & P2 & P3 & _).
    assert (S1 : session_of it (set s0 completionStatus (V (Some Single) (Some Identifier) (Some (PS (DStr (lit "not_attempted"))))))) by (apply (same_keys_session it s0); [exact Hs0|apply set_keys; exact P3]).
    destruct (set_outcome_defaults_effect it _ s2 Hok S1 H2) as (S2 & _ & F). destruct (names_in it s2 S2) as (P4 & _).
    match goal with |- session_of it (set ?a _ _) /\ _ => assert (S3 : session_of it a) by (apply (same_keys_session it s2); [exact S2|apply set_keys; exact P4]) end.
    destruct (names_in it _ S3) as (_ & P5 & _).
    split; [eapply same_keys_session; [exact S3|apply set_keys; exact P5]|]. split; [unfold holds_int; rewrite get_set_other by discriminate; apply get_set_same|].
    intros k Hk. destruct (Hst k Hk) as (N1 & _ & N3 & N4). unfold outcome_names in N1. cbn [In] in N1. rewrite get_set_other by congruence. rewrite get_set_other by congruence. rewrite F by tauto. apply get_set_other. tauto. }
  destruct B as (S1 & C1 & F1).
  assert (G : forall l n s1 s, 0 <= n -> session_of it s1 -> holds_int s1 numAttempts n -> history it l s1 = Ok s ->
    session_of it s /\ holds_int s numAttempts (n + attempts l) /\ forall k, In k (map dname (templates it)) \/ In k (meta_names it) -> get s k = get s1 k).
  { clear - Hok Hr Hst. induction l as [|e l IH]; intros n s1 s Hn S1 C1 H; unfold history in *; cbn [each attempts] in *.
    - injection H as <-. rewrite Z.add_0_r. split; [exact S1|]. split; [exact C1|reflexivity].
    - apply bind_ok in H. destruct H as (s2 & H2 & H). destruct e as [|saved]; cbn [on_event] in H2.
      + assert (Q : session_of it s2 /\ holds_int s2 numAttempts (n + 1) /\ forall k, In k (map dname (templates it)) \/ In k (meta_names it) -> get s2 k = get s1 k).
        { destruct (Z.eq_dec n 0) as [->|Hz].
          - destruct (first_attempt it s1 s2 Hok S1 C1 H2) as (A & B & _ & _ & F). split; [exact A|]. split; [exact B|]. intros k Hk. destruct (Hst k Hk) as (N1 & N2 & N3 & _). apply F; [exact N3|intros ->; apply N1; left; reflexivity|exact N2].
          - destruct (later_attempt it s1 s2 n Hz S1 C1 H2) as (A & B & F). split; [exact A|]. split; [exact B|]. intros k Hk. destruct (Hst k Hk) as (_ & _ & N3 & _). apply F. exact N3. }
        destruct Q as (A & B & F). destruct (IH (n + 1) s2 s ltac:(lia) A B H) as (A' & B' & F'). split; [exact A'|]. split; [rewrite Z.add_assoc; exact B'|]. intros k Hk. rewrite F' by exact Hk. apply F. exact Hk.
      + destruct (submit_frame it saved s1 s2 Hok Hr S1 H2) as (A & F & _).
        assert (B : holds_int s2 numAttempts n).
        { unfold holds_int. rewrite F; [exact C1| |]; destruct (names_distinct it Hok numAttempts) as (_ & N1 & N2 & _); try (cbn; tauto). unfold outcome_names. cbn [In]. intros [E|E]; [discriminate E|tauto]. }
        destruct (IH n s2 s Hn A B H) as (A' & B' & F'). split; [exact A'|]. split; [exact B'|]. intros k Hk. rewrite F' by exact Hk. destruct (Hst k Hk) as (N1 & N2 & _). apply F; assumption. }
  destruct (G l 0 s1 s ltac:(lia) S1 C1 H) as (A & B & F). split; [exact A|]. split; [exact B|]. intros k Hk. rewrite F by exact Hk. apply F1. exact Hk.
Qed.
(** a session begins with the defaults of the outcomes; without one, numbers are zero *)
Theorem begin_exact : forall it s0 s, item_ok it -> session_of it s0 -> begin_session it s0 = Ok s ->
  holds_int s numAttempts 0 /\ holds_id s completionStatus (lit "not_attempted") /\
  forall d, In d (outcomes it) -> exists v w, get s0 (dot_default (dname d)) = Some v /\ copy_value v = Ok w /\
    get s (dname d) = Some (if vval w then w else match vcard w, vbase w with Some Single, Some Integer => V (Some Single) (Some Integer) (Some (PS (DInt 0))) | Some Single, Some Float => V (Some Single) (Some Float) (Some (PS (DReal 0))) | _, _ => w end).
Proof.
  intros it s0 s Hok Hs0 H. unfold begin_session in H. apply bind_ok in H. destruct H as (s2 & H2 & H). injection H as <-. destruct (names_in it s0 Hs0) as (_ & _ & P3 & _).
  assert (S1 : session_of it (set s0 completionStatus (V (Some Single) (Some Identifier) (Some (PS (DStr (lit "not_attempted"))))))) by (apply (same_keys_session it s0); [exact Hs0|apply set_keys; exact P3]).
  destruct (set_outcome_defaults_effect it _ s2 Hok S1 H2) as (_ & D & F).
  assert (N : forall x, In x [numAttempts; duration; completionStatus] -> ~ In x (map dname (outcomes it))) by (intros x Hx; apply (names_distinct it Hok x Hx)).
  split; [unfold holds_int; rewrite get_set_other by discriminate; apply get_set_same|]. split.
  - unfold holds_id. rewrite get_set_other by discriminate. rewrite get_set_other by discriminate. rewrite F by (apply N; cbn; tauto). apply get_set_same.
  - intros d Hin. destruct (D d Hin) as (v & Hv & G). unfold outcome_default, default_of in Hv.
    assert (Hne : completionStatus <> dot_default (dname d)).
    { intros E. destruct (names_distinct it Hok completionStatus) as (_ & _ & _ & N2); [cbn; tauto|]. apply N2. unfold meta_names. rewrite !in_app_iff. right. right. rewrite E. apply in_map_iff. exists d. tauto. }
    rewrite get_set_other in Hv by exact Hne. destruct (get s0 (dot_default (dname d))) as [u|]; [|discriminate]. apply bind_ok in Hv. destruct Hv as (w & Hw & Hv). exists u, w. split; [reflexivity|]. split; [exact Hw|].
    assert (Hn : forall x, In x [numAttempts; duration; completionStatus] -> x <> dname d) by (intros x Hx E; apply (N x Hx); rewrite E; apply in_map; exact Hin).
    rewrite get_set_other by (apply Hn; cbn; tauto). rewrite get_set_other by (apply Hn; cbn; tauto). rewrite G. f_equal.
    destruct (vval w); [congruence|]. destruct (vcard w) as [[]|], (vbase w) as [[]|]; congruence.
Qed.
(** new variables are NULL; defaults are copied *)
Theorem new_value_null : forall c b v, new_value c b = Ok v -> is_null v /\ vcard v = Some c /\ vbase v = (match c with Record_ => None | _ => b end).
Proof. intros c b v H. destruct c, b as [[]|]; cbn in H; try discriminate; injection H as <-; repeat split. Qed.
Theorem copy_exact : forall v w, well_formed v -> (vcard v = Some Record_ -> vbase v = None) -> copy_value v = Ok w ->
  vcard w = vcard v /\ vbase w = vbase v /\ well_formed w /\ (is_null w <-> is_null v) /\
  (vcard v <> Some Multiple -> vval w = vval v) /\ (vcard v = Some Multiple -> forall d, times d (members w) = Nat.min 1 (times d (members v))).
Proof.
  intros v w Hv Hr H. unfold copy_value in H. destruct (vcard v) as [c|] eqn:Ec; [|discriminate]. apply bind_ok in H. destruct H as (n & Hn & H). destruct (new_value_null _ _ _ Hn) as (_ & N1 & N2).
  destruct (assign_types _ _ _ H) as (T1 & T2). assert (Nb : vbase n = vbase v) by (rewrite N2; destruct c; try reflexivity; symmetry; apply Hr; reflexivity).
  split; [congruence|]. split; [congruence|]. rewrite <- N1. apply assign_exact; [exact Hv|exact H|]. intros _. split; congruence.
Qed.

(** ** Concrete cases *)
Definition ex_R := D (lit "R") KResponse Single (Some Identifier) None (Some (V (Some Single) (Some Identifier) (Some (PS (DStr (lit "a")))))).
Definition ex_T := D (lit "T") KTemplate Single (Some Integer) (Some (V (Some Single) (Some Integer) (Some (PS (DInt 3))))) None.
Definition ex_S := D (lit "SCORE") KOutcome Single (Some Integer) None None.
Definition ex_e (it : item) (t : tree) : option expression := Some (fun s => tree_value id it s t).
Definition ex_bare := Item [ex_T] [ex_R] [ex_S] false [] [].
Definition ex_rules : list rule :=
  [Cond [(ex_e ex_bare (TN NMatch [TVariable (lit "R"); TCorrect (lit "R")]), [Set_ Outcome (lit "SCORE") (ex_e ex_bare (TN NSum [TVariable (lit "T"); TVariable (lit "SCORE")])); Exit])]
        [Set_ Outcome completionStatus (ex_e ex_bare (TValue (V (Some Single) (Some Identifier) (Some (PS (DStr (lit "completed")))))))];
   Set_ Outcome (lit "SCORE") (ex_e ex_bare (TValue (V (Some Single) (Some Integer) (Some (PS (DInt 9))))))].
Definition ex_item := Item [ex_T] [ex_R] [ex_S] false [Set_ Template (lit "T") (ex_e ex_bare (TValue (V (Some Single) (Some Integer) (Some (PS (DInt 5))))))] ex_rules.
Definition ex_answer (a : str) : state := [(lit "R", V (Some Single) (Some Identifier) (Some (PS (DStr a))))].
Definition ex_final (a : str) : res state :=
  let! s := create ex_item in let! s := select_clone ex_item s in let! s := begin_session ex_item s in history ex_item [BeginAttempt; Submit (ex_answer (lit "b")); BeginAttempt; Submit (ex_answer a)] s.
Example ex_right : exists s, ex_final (lit "a") = Ok s /\ holds_int s (lit "SCORE") 5 /\ holds_int s numAttempts 2 /\ holds_int s (lit "T") 5 /\ holds_id s (lit "R") (lit "a").
Proof. eexists. split; [vm_compute; reflexivity|]. repeat split. Qed.
Example ex_wrong : exists s, ex_final (lit "c") = Ok s /\ holds_int s (lit "SCORE") 9 /\ holds_id s completionStatus (lit "completed").
Proof. eexists. split; [vm_compute; reflexivity|]. repeat split. Qed.
Example ex_item_ok : item_ok ex_item.
Proof.
  split; [repeat constructor|]. split; [repeat constructor|]. split; [repeat constructor|]. vm_compute. repeat (constructor; [intros H; repeat (destruct H as [H|H]; [discriminate|]); exact H|]). constructor.
Qed.
Example ex_response_rules : Forall response_rule ex_rules.
Proof. unfold ex_rules. repeat constructor. Qed.
Example ex_template_rules : Forall template_rule (template_rules ex_item).
Proof. constructor; [|constructor]. constructor. discriminate. Qed.
Example ex_tree_rules : Forall (tree_rule id ex_bare) ex_rules.
Proof.
  assert (H : forall t, constants t -> match ex_e ex_bare t with None => True | Some e => exists t, constants t /\ e = fun s => tree_value id ex_bare s t end) by (intros t Ht; exists t; split; [exact Ht|reflexivity]).
  unfold ex_rules, tree_rule. repeat (cbn [snd]; first [apply Forall_nil|apply Forall_cons|apply mo_exit|apply mo_cond|apply mo_set; apply H]); cbn; repeat split; eexists; split; reflexivity.
Qed.
Lemma get_snd : forall s x v, get s x = Some v -> In v (map snd s).
Proof. induction s as [|[k w] s IH]; intros x v H; cbn [get map snd] in *; [discriminate|]. destruct (str_eqb k x); [injection H as <-; left; reflexivity|right; exact (IH _ _ H)]. Qed.
Example ex_session : exists s, create ex_item = Ok s /\ session_of ex_item s /\ wf_state s /\ records_ok s.
Proof.
  destruct (create ex_item) as [s|e] eqn:E; [|vm_compute in E; discriminate]. exists s. split; [reflexivity|]. split; [exact (proj1 (create_exact _ _ ex_item_ok E))|]. vm_compute in E. injection E as <-.
  assert (F : forall s : state, Forall (fun v => well_formed v /\ vcard v <> Some Record_) (map snd s) -> wf_state s /\ records_ok s).
  { intros s H. rewrite Forall_forall in H. split; intros x v Hv; apply get_snd in Hv; destruct (H v Hv) as (H1 & H2); [exact H1|congruence]. }
  apply F. cbn [map snd]. repeat (constructor; [split; [first [exact Logic.I|split; [reflexivity|]; eexists; split; [reflexivity|]; exact Logic.I]|discriminate]|]). constructor.
Qed.

Print Assumptions rules_exact.
Print Assumptions condition_error.
Print Assumptions condition_exact.
Print Assumptions assignment_exact.
Print Assumptions assignment_refuted.
Print Assumptions assignment_refused.
Print Assumptions response_rules_frame.
Print Assumptions template_rules_frame.
Print Assumptions rules_well_formed.
Print Assumptions tree_type_safe.
Print Assumptions tree_lookup_exact.
Print Assumptions tree_rules_well_formed.
Print Assumptions create_exact.
Print Assumptions file_variable_refuted.
Print Assumptions scored_afresh.
Print Assumptions first_attempt.
Print Assumptions later_attempt.
Print Assumptions submit_frame.
Print Assumptions attempts_counted.
Print Assumptions begin_exact.
Print Assumptions new_value_null.
Print Assumptions copy_exact.
