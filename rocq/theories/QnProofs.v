(** Proofs about QTI test sessions. *)
From Coq Require Import Sorted Lia.
From Verif Require Import Py QfModel QfSpec QnModel QnSpec.

Section Nav.
  Variable registered : nat -> option (option nat).
  Variable ev : nat -> nat -> res bool.

  Lemma all_pre_true : forall i l, all_pre ev i l = Ok true <-> all_hold ev i l.
  Proof using.
    induction l as [|e l IH]; cbn [all_pre].
    - split; [intros _ x []|reflexivity].
    - split.
      + destruct (ev i e) as [[|]|] eqn:E; cbn [rbind]; try discriminate.
        intros H x [<-|Hx]; [exact E|apply IH; assumption].
      + intros H. rewrite (H e (or_introl eq_refl)). cbn [rbind]. apply IH. intros x Hx. apply H. right. exact Hx.
  Qed.

  Lemma all_pre_timeout : forall i l, (forall e, ev i e <> Err Timeout) -> all_pre ev i l <> Err Timeout.
  Proof using.
    induction l as [|e l IH]; cbn [all_pre]; intros H; [discriminate|].
    specialize (IH H). specialize (H e). destruct (ev i e) as [[|]|]; cbn [rbind]; congruence.
  Qed.

  Lemma part_timeout : forall i l, (forall e, ev i e <> Err Timeout) -> part_target registered ev i l <> Err Timeout.
  Proof using.
    induction l as [|[e g] l IH]; cbn [part_target]; intros H; [discriminate|].
    specialize (IH H). specialize (H e). destruct (ev i e) as [[|]|]; cbn [rbind negb]; try congruence.
    destruct g as [| | |id]; try discriminate. destruct (registered id) as [[|]|]; discriminate.
  Qed.
  Lemma rule_timeout : forall i tp l, (forall e, ev i e <> Err Timeout) -> rule_target registered ev i tp l <> Err Timeout.
  Proof using.
    induction l as [|[e g] l IH]; cbn [rule_target]; intros H; [discriminate|].
    specialize (IH H). specialize (H e). destruct (ev i e) as [[|]|]; cbn [rbind negb]; try congruence.
    destruct g as [| | |id]; try discriminate. destruct (registered id) as [[q|]|]; try discriminate.
    destruct (Nat.eqb q tp); discriminate.
  Qed.

  Lemma scan_range : forall g rest q n, scan g q rest = Ok n -> (q <= n <= q + length rest)%nat.
  Proof using.
    intros g rest. induction rest as [|c rest IH]; intros q n; cbn [scan length].
    - intros [= <-]. lia.
    - destruct c as [|p|p|t|t|]; try discriminate.
      + destruct (match g with To id => Nat.eqb (ident (at_ p)) id | _ => false end).
        * intros [= <-]. lia.
        * intros H. apply IH in H. lia.
      + destruct g; intros H; try (apply IH in H; lia); injection H as <-; lia.
      + destruct (match g with To id => Nat.eqb (t_ident t) id | _ => false end).
        * intros [= <-]. lia.
        * intros H. apply IH in H. lia.
      + destruct g; intros H; try (apply IH in H; lia); injection H as <-; lia.
  Qed.
  Lemma scan_timeout : forall g rest q, scan g q rest <> Err Timeout.
  Proof using.
    intros g rest. induction rest as [|c rest IH]; intros q; cbn [scan]; [discriminate|].
    destruct c as [|p|p|t|t|]; try discriminate.
    - destruct (match g with To id => Nat.eqb (ident (at_ p)) id | _ => false end); [discriminate|apply IH].
    - destruct g; try apply IH; discriminate.
    - destruct (match g with To id => Nat.eqb (t_ident t) id | _ => false end); [discriminate|apply IH].
    - destruct g; try apply IH; discriminate.
  Qed.

  Lemma bind_ok : forall A B (m : res A) (f : A -> res B) b, rbind m f = Ok b -> exists a, m = Ok a /\ f a = Ok b.
  Proof using. intros A B [a|e] f b H; cbn [rbind] in H; [eauto|discriminate]. Qed.

  Lemma branch_range : forall form q n, (q < length form)%nat -> branch_target registered ev form q = Ok n -> (q < n <= length form)%nat.
  Proof using.
    intros form q n Hq H. unfold branch_target in H. apply bind_ok in H. destruct H as (g & _ & H).
    assert (HL : length (skipn (S q) form) = (length form - S q)%nat) by apply skipn_length.
    destruct g as [[| | |id]|].
    - apply scan_range in H. lia.
    - apply scan_range in H. lia.
    - injection H as <-. lia.
    - apply scan_range in H. lia.
    - injection H as <-. lia.
  Qed.
  Lemma branch_timeout : forall form q, (forall i e, ev i e <> Err Timeout) -> branch_target registered ev form q <> Err Timeout.
  Proof using.
    intros form q Hev H. unfold branch_target in H.
    assert (Hg : forall a, get_branch_target registered ev q a <> Err Timeout).
    { intros a. unfold get_branch_target. destruct (negb (linear a)); [discriminate|]. apply rule_timeout. intros e. apply Hev. }
    assert (Hp : forall l, part_target registered ev q l <> Err Timeout) by (intros l; apply part_timeout; intros e; apply Hev).
    assert (Hf : forall (r : res (option goto)), r <> Err Timeout -> rbind r (fun g => match g with None => Ok (S q) | Some ExitTest => Ok (length form)
       | Some g => scan g (S q) (skipn (S q) form) end) <> Err Timeout).
    { intros [[[| | |id]|]|e] Hr; cbn [rbind]; try apply scan_timeout; try discriminate. congruence. }
    revert H. apply Hf. destruct (nth_error form q) as [[|p|p|t|t|]|]; try discriminate; first [apply Hg|apply Hp].
  Qed.

  Lemma seek_timeout : forall form, (forall i e, ev i e <> Err Timeout) ->
    forall n iq, (length form < n + iq)%nat -> seek registered ev n form iq <> Err Timeout \/ n = O.
  Proof using.
    intros form Hev. induction n as [|n IH]; intros iq Hn; [right; reflexivity|left]. cbn [seek].
    destruct (nth_error form iq) as [c|] eqn:Ec; [|discriminate].
    assert (Hiq : (iq < length form)%nat) by (apply nth_error_Some; congruence).
    assert (Hs : forall j, (iq < j)%nat -> seek registered ev n form j <> Err Timeout).
    { intros j Hj. destruct (IH j) as [H|H]; [lia|exact H|]. exfalso. lia. }
    assert (Hb : rbind (branch_target registered ev form iq) (seek registered ev n form) <> Err Timeout).
    { pose proof (branch_timeout form iq Hev) as Hbt. pose proof (branch_range form iq) as Hr.
      destruct (branch_target registered ev form iq) as [j|e]; cbn [rbind]; [|congruence]. apply Hs. specialize (Hr j Hiq eq_refl). lia. }
    destruct c as [|p|p|t|t|]; try discriminate.
    - pose proof (all_pre_timeout iq (pre (at_ p)) (Hev iq)) as Ha.
      unfold check_pre_conditions. destruct (negb (linear (at_ p))); cbn [rbind negb]; [apply Hs; lia|].
      destruct (all_pre ev iq (pre (at_ p))) as [[|]|e]; cbn [rbind negb].
      + destruct (is_section p); [apply Hs; lia|discriminate].
      + apply Hs; lia.
      + congruence.
    - exact Hb.
    - pose proof (all_pre_timeout iq (t_pre t) (Hev iq)) as Ha.
      destruct (all_pre ev iq (t_pre t)) as [[|]|e]; cbn [rbind]; [apply Hs; lia|apply Hs; lia|congruence].
    - exact Hb.
  Qed.

  Lemma seek_put : forall form n iq q, seek registered ev n form iq = Ok (Some q) -> (iq <= q)%nat /\ may_be_put ev form q.
  Proof using.
    intros form. induction n as [|n IH]; intros iq q; cbn [seek]; [discriminate|].
    destruct (nth_error form iq) as [c|] eqn:Ec; [|discriminate].
    assert (Hiq : (iq < length form)%nat) by (apply nth_error_Some; congruence).
    assert (Hb : rbind (branch_target registered ev form iq) (seek registered ev n form) = Ok (Some q) -> (iq <= q)%nat /\ may_be_put ev form q).
    { intros H. apply bind_ok in H. destruct H as (j & Hj & H). apply branch_range in Hj; [|exact Hiq]. apply IH in H. split; [lia|tauto]. }
    destruct c as [|p|p|t|t|]; try discriminate.
    - intros H. apply bind_ok in H. destruct H as (b & Hb1 & H). destruct b; cbn [negb] in H.
      + destruct (is_section p) eqn:Ep.
        * apply IH in H. split; [lia|tauto].
        * injection H as <-. split; [lia|]. destruct p as [a|]; [|discriminate Ep]. exists a. unfold check_pre_conditions in Hb1.
          cbn [at_] in Hb1. destruct (linear a) eqn:El; cbn [negb] in Hb1; [|discriminate]. apply all_pre_true in Hb1. split; [exact Ec|split; [reflexivity|exact Hb1]].
      + apply IH in H. split; [lia|tauto].
    - exact Hb.
    - intros H. apply bind_ok in H. destruct H as ([|] & _ & H); apply IH in H; (split; [lia|tauto]).
    - exact Hb.
  Qed.

  Lemma next_put : forall form q q', next_question registered ev form q = Ok (Some q') ->
    (match q with Some n => n < q' | None => False end)%nat /\ may_be_put ev form q'.
  Proof using.
    intros form [[|q]|] q' H; cbn [next_question] in H.
    - apply seek_put in H. split; [lia|tauto].
    - apply bind_ok in H. destruct H as (j & Hj & H). apply seek_put in H.
      assert (Hq : (S q < length form)%nat).
      { unfold branch_target in Hj. apply nth_error_Some. intros E. rewrite E in Hj. discriminate. }
      apply branch_range in Hj; [|exact Hq]. split; [lia|tauto].
    - discriminate.
  Qed.

  (** *** Where branches go *)
  Lemma skipn_nth : forall (form : list comp) q c rest, skipn q form = c :: rest -> nth_error form q = Some c /\ skipn (S q) form = rest.
  Proof using.
    intros form q. revert form. induction q as [|q IH]; intros [|x form] c rest H; cbn [skipn] in H; try discriminate.
    - injection H as -> ->. split; reflexivity.
    - apply IH in H. exact H.
  Qed.
  Definition stop (g : goto) (c : comp) : bool :=
    match g, c with
    | To id, Open p => Nat.eqb (ident (at_ p)) id
    | To id, OpenPart t => Nat.eqb (t_ident t) id
    | ExitSection, (Close _ | ClosePart _) => true
    | ExitTestPart, ClosePart _ => true
    | _, _ => false
    end.
  Lemma scan_first : forall g form rest q n, rest = skipn (S q) form -> (q < length form)%nat -> scan g (S q) rest = Ok n ->
    exists m, first_after form q (fun c => stop g c = true) m /\ n = match g with To _ => m | _ => Nat.min (S m) (length form) end.
  Proof using.
    intros g form rest. induction rest as [|c rest IH]; intros q n Hr Hq H.
    - cbn [scan] in H. injection H as <-.
      assert (HL : (length form - S q)%nat = O) by (rewrite <- skipn_length, <- Hr; reflexivity).
      exists (S q). split.
      + split; [lia|]. split; [intros m c Hm; lia|right; lia].
      + destruct g; lia.
    - symmetry in Hr. apply skipn_nth in Hr. destruct Hr as (Hc & Hrest).
      assert (HL : (S q < length form)%nat) by (apply nth_error_Some; congruence).
      assert (Hstop : stop g c = true -> exists m, first_after form q (fun c => stop g c = true) m /\ m = S q).
      { intros Hs. exists (S q). split; [|reflexivity]. split; [lia|]. split; [intros m c' Hm; lia|]. left. eauto. }
      assert (Hgo : stop g c = false -> scan g (S (S q)) rest = Ok n ->
        exists m, first_after form q (fun c => stop g c = true) m /\ n = match g with To _ => m | _ => Nat.min (S m) (length form) end).
      { intros Hs H'. destruct (IH (S q) n) as (m & (H1 & H2 & H3) & Hm); [symmetry; exact Hrest|exact HL|exact H'|].
        exists m. split; [|exact Hm]. split; [lia|]. split; [|exact H3].
        intros k d Hk Hd. destruct (Nat.eq_dec k (S q)) as [->|Hne]; [rewrite Hc in Hd; injection Hd as <-; congruence|].
        apply (H2 k d); [lia|exact Hd]. }
      assert (Hend : stop g c = true -> n = S (S q) -> match g with To _ => False | _ => True end ->
        exists m, first_after form q (fun c => stop g c = true) m /\ n = match g with To _ => m | _ => Nat.min (S m) (length form) end).
      { intros Hs -> Hg. destruct (Hstop Hs) as (m & Hm & ->). exists (S q). split; [exact Hm|]. destruct g; lia. }
      cbn [scan] in H. destruct c as [|p|p|t|t|]; try discriminate.
      + destruct g as [| | |id]; try (apply Hgo; [reflexivity|exact H]). cbn [stop] in *. destruct (Nat.eqb (ident (at_ p)) id) eqn:E.
        * injection H as <-. destruct (Hstop eq_refl) as (m & Hm & ->). exists (S q). split; [exact Hm|reflexivity].
        * apply Hgo; [reflexivity|exact H].
      + destruct g as [| | |id]; try (apply Hgo; [reflexivity|exact H]). injection H as <-. apply Hend; reflexivity || exact Logic.I.
      + destruct g as [| | |id]; try (apply Hgo; [reflexivity|exact H]). cbn [stop] in *. destruct (Nat.eqb (t_ident t) id) eqn:E.
        * injection H as <-. destruct (Hstop eq_refl) as (m & Hm & ->). exists (S q). split; [exact Hm|reflexivity].
        * apply Hgo; [reflexivity|exact H].
      + destruct g as [| | |id]; try (apply Hgo; [reflexivity|exact H]); injection H as <-; apply Hend; reflexivity || exact Logic.I.
  Qed.

  Lemma rule_spec : forall q tp l r, rule_target registered ev q tp l = Ok r ->
    match r with None => no_rule ev q l
               | Some g => first_rule ev q l g /\ (forall id, g = To id -> registered id = Some (Some tp)) end.
  Proof using.
    intros q tp l. induction l as [|[e g] l IH]; intros r H; cbn [rule_target] in H.
    - injection H as <-. intros e g [].
    - apply bind_ok in H. destruct H as ([|] & He & H); cbn [negb] in H.
      + assert (Hf : first_rule ev q ((e, g) :: l) g) by (exists [], e, l; repeat split; [exact He|intros e' g' []]).
        destruct g as [| | |id]; try (injection H as <-; split; [exact Hf|intros ? [=]]).
        destruct (registered id) as [[p|]|] eqn:Er; try discriminate. destruct (Nat.eqb p tp) eqn:E; [|discriminate].
        injection H as <-. apply Nat.eqb_eq in E. subst p. split; [exact Hf|]. intros id' [= <-]. exact Er.
      + apply IH in H. destruct r as [g'|].
        * destruct H as ((l1 & e' & l2 & -> & He' & Hl) & Hg). split; [|exact Hg]. exists ((e, g) :: l1), e', l2.
          split; [reflexivity|]. split; [exact He'|]. intros a b [[= <- <-]|Hin]; [exact He|eauto].
        * intros a b [[= <- <-]|Hin]; [exact He|eapply H; exact Hin].
  Qed.
  Lemma part_spec : forall q l r, part_target registered ev q l = Ok r ->
    match r with None => no_rule ev q l
               | Some g => first_rule ev q l g /\ (g = ExitTest \/ exists id, g = To id /\ registered id = Some None) end.
  Proof using.
    intros q l. induction l as [|[e g] l IH]; intros r H; cbn [part_target] in H.
    - injection H as <-. intros e g [].
    - apply bind_ok in H. destruct H as ([|] & He & H); cbn [negb] in H.
      + assert (Hf : first_rule ev q ((e, g) :: l) g) by (exists [], e, l; repeat split; [exact He|intros e' g' []]).
        destruct g as [| | |id]; try discriminate.
        * injection H as <-. split; [exact Hf|left; reflexivity].
        * destruct (registered id) as [[p|]|] eqn:Er; try discriminate. injection H as <-. split; [exact Hf|]. right. eauto.
      + apply IH in H. destruct r as [g'|].
        * destruct H as ((l1 & e' & l2 & -> & He' & Hl) & Hg). split; [|exact Hg]. exists ((e, g) :: l1), e', l2.
          split; [reflexivity|]. split; [exact He'|]. intros a b [[= <- <-]|Hin]; [exact He|eauto].
        * intros a b [[= <- <-]|Hin]; [exact He|eapply H; exact Hin].
  Qed.

  (** *** Without branch rules *)
  Lemma branch_none : forall form q c, nth_error form q = Some c -> plain c -> no_rules c -> branch_target registered ev form q = Ok (S q).
  Proof using.
    intros form q c Hc Hp Hr. unfold branch_target. rewrite Hc. destruct c as [|p|p|t|t|]; cbn [plain no_rules] in *; try contradiction.
    - unfold get_branch_target. rewrite Hr. destruct (negb (linear (at_ p))); reflexivity.
    - unfold get_branch_target. rewrite Hr. destruct (negb (linear (at_ p))); reflexivity.
    - rewrite Hr. reflexivity.
    - rewrite Hr. reflexivity.
  Qed.
  Lemma all_pre_total : (forall i e, exists b, ev i e = Ok b) -> forall i l, exists b, all_pre ev i l = Ok b.
  Proof using.
    intros H i l. induction l as [|e l [b IH]]; cbn [all_pre]; [eauto|]. destruct (H i e) as [[|] ->]; cbn [rbind]; eauto.
  Qed.
  Lemma seek_plain : forall form, (forall i e, exists b, ev i e = Ok b) ->
    forall n iq, (length form < n + iq)%nat -> n <> O -> (forall m c, (iq <= m)%nat -> nth_error form m = Some c -> plain c /\ no_rules c) ->
    exists r, seek registered ev n form iq = Ok r /\
      match r with Some q => (iq <= q)%nat /\ may_be_put ev form q /\ forall m, (iq <= m < q)%nat -> ~ may_be_put ev form m
                 | None => forall m, (iq <= m)%nat -> ~ may_be_put ev form m end.
  Proof using.
    intros form Hev. induction n as [|n IH]; intros iq Hn H0 Hpl; [congruence|]. cbn [seek].
    destruct (nth_error form iq) as [c|] eqn:Ec.
    2:{ exists None. split; [reflexivity|]. intros m Hm (a & Ha & _). apply nth_error_None in Ec. assert (m < length form)%nat by (apply nth_error_Some; unfold item_at in Ha; congruence). lia. }
    assert (Hiq : (iq < length form)%nat) by (apply nth_error_Some; congruence).
    assert (Hgo : ~ may_be_put ev form iq -> exists r, seek registered ev n form (S iq) = Ok r /\
      match r with Some q => (iq <= q)%nat /\ may_be_put ev form q /\ forall m, (iq <= m < q)%nat -> ~ may_be_put ev form m
                 | None => forall m, (iq <= m)%nat -> ~ may_be_put ev form m end).
    { intros Hno. destruct (IH (S iq)) as (r & Hr & H); [lia|lia|intros m d Hm; apply Hpl; lia|]. exists r. split; [exact Hr|].
      destruct r as [q|].
      - destruct H as (H1 & H2 & H3). split; [lia|]. split; [exact H2|]. intros m Hm. destruct (Nat.eq_dec m iq) as [->|Hne]; [exact Hno|]. apply H3. lia.
      - intros m Hm. destruct (Nat.eq_dec m iq) as [->|Hne]; [exact Hno|]. apply H. lia. }
    destruct (Hpl iq c (le_n _) Ec) as (Hp & Hr).
    assert (Hnot : forall d, c = d -> match d with Open (Item _) => False | _ => True end -> ~ may_be_put ev form iq).
    { intros d -> Hd (a & Ha & _). unfold item_at in Ha. rewrite Ec in Ha. injection Ha as ->. exact Hd. }
    destruct c as [|p|p|t|t|]; try contradiction.
    - unfold check_pre_conditions. destruct p as [a|a v k sel sh ch]; cbn [at_ is_section].
      + destruct (linear a) eqn:El; cbn [negb rbind].
        * destruct (all_pre_total Hev iq (pre a)) as [b Hb]. rewrite Hb. cbn [rbind]. destruct b; cbn [negb].
          -- exists (Some iq). split; [reflexivity|]. split; [lia|]. split; [|intros m Hm; lia]. exists a. split; [exact Ec|]. split; [exact El|]. apply all_pre_true. exact Hb.
          -- apply Hgo. intros (a' & Ha & _ & Hh). unfold item_at in Ha. rewrite Ec in Ha. injection Ha as <-. apply all_pre_true in Hh. congruence.
        * apply Hgo. intros (a' & Ha & Hl & _). unfold item_at in Ha. rewrite Ec in Ha. injection Ha as <-. congruence.
      + assert (Hno : ~ may_be_put ev form iq) by (eapply Hnot; [reflexivity|exact Logic.I]).
        destruct (negb (linear a)); cbn [rbind negb]; [apply Hgo; exact Hno|].
        destruct (all_pre_total Hev iq (pre a)) as [[|] ->]; cbn [rbind negb]; apply Hgo; exact Hno.
    - rewrite (branch_none form iq _ Ec Hp Hr). cbn [rbind]. apply Hgo. eapply Hnot; [reflexivity|exact Logic.I].
    - destruct (all_pre_total Hev iq (t_pre t)) as [[|] ->]; cbn [rbind]; apply Hgo; (eapply Hnot; [reflexivity|exact Logic.I]).
    - rewrite (branch_none form iq _ Ec Hp Hr). cbn [rbind]. apply Hgo. eapply Hnot; [reflexivity|exact Logic.I].
  Qed.
End Nav.

(** ** Durations *)
Definition opens_section (c : comp) : bool := match c with Open p => is_section p | OpenPart _ => true | _ => false end.
Fixpoint stk (off : nat) (l : list comp) (acc : list nat) : list nat :=
  match l with
  | [] => acc
  | c :: l => stk (S off) l (if opens_section c then off :: acc else if closes c then tl acc else acc)
  end.
Lemma stk_app : forall u v off acc, stk off (u ++ v) acc = stk (off + length u) v (stk off u acc).
Proof.
  induction u as [|c u IH]; intros v off acc; cbn [app stk length]; [rewrite Nat.add_0_r; reflexivity|].
  rewrite IH. f_equal. lia.
Qed.
Lemma skipn_tl : forall A g (l : list A), skipn (S g) l = skipn g (tl l).
Proof. intros A g [|x l]; cbn [skipn tl]; [destruct g; reflexivity|reflexivity]. Qed.
Lemma enclosing_stk : forall l g, enclosing (S (length l)) g (rev (Root :: l)) = skipn g (stk 1 l []).
Proof.
  intros l. induction l as [|c l IH] using rev_ind; intros g.
  - cbn. destruct g; reflexivity.
  - rewrite stk_app, app_length. cbn [length]. rewrite Nat.add_1_r.
    cbn [rev] in *. rewrite rev_app_distr. cbn [rev app enclosing Nat.eqb].
    replace (1 + length l)%nat with (S (length l)) by lia.
    cbn [stk]. destruct c as [|p|p|t|t|]; cbn [opens_section closes].
    + apply IH.
    + destruct (is_section p); [|apply IH]. destruct g as [|g]; cbn [skipn]; [f_equal; apply (IH O)|apply IH].
    + etransitivity; [exact (IH (S g))|]. apply skipn_tl.
    + destruct g as [|g]; cbn [skipn]; [f_equal; apply (IH O)|apply IH].
    + etransitivity; [exact (IH (S g))|]. apply skipn_tl.
    + apply IH.
Qed.

Lemma nested_stk : forall x, nested x -> forall off acc, stk off x acc = acc.
Proof.
  intros x H. induction H as [|a l Hl IH|p x l Hp Hx IHx Hl IH|t x l Hx IHx Hl IH|l Hl IH]; intros off acc.
  - reflexivity.
  - cbn [stk opens_section is_section closes]. apply IH.
  - cbn [stk opens_section]. rewrite Hp, stk_app, IHx. cbn [stk opens_section closes tl]. apply IH.
  - cbn [stk opens_section]. rewrite stk_app, IHx. cbn [stk opens_section closes tl]. apply IH.
  - cbn [stk opens_section closes]. apply IH.
Qed.
Lemma encloses_app : forall a l k i, encloses l k i -> encloses (a ++ l) (length a + k) (length a + i).
Proof.
  intros a l k i (u & o & x & c & v & -> & Hu & Hx & Hi & H). exists (a ++ u), o, x, c, v. split; [rewrite app_assoc; reflexivity|].
  split; [rewrite app_length; lia|]. split; [exact Hx|]. split; [lia|exact H].
Qed.
Lemma encloses_grow : forall l a k i, encloses l k i -> encloses (l ++ a) k i.
Proof.
  intros l a k i (u & o & x & c & v & -> & Hu & Hx & Hi & H). exists u, o, x, c, (v ++ a). split; [|tauto].
  repeat rewrite <- app_assoc. cbn [app]. repeat rewrite <- app_assoc. reflexivity.
Qed.
Lemma prefix_app : forall A (a b u v : list A), a ++ b = u ++ v ->
  (exists w, a = u ++ w /\ v = w ++ b) \/ (exists w, u = a ++ w /\ b = w ++ v).
Proof.
  intros A a. induction a as [|x a IH]; intros b u v H.
  - right. exists u. split; [reflexivity|exact H].
  - destruct u as [|y u].
    + left. exists (x :: a). split; [reflexivity|symmetry; exact H].
    + cbn [app] in H. injection H as <- H. apply IH in H. destruct H as [(w & -> & ->)|(w & -> & ->)]; [left|right]; exists w; split; reflexivity.
Qed.
(** what is open at an item of something nested *)
Definition opened (l : list comp) : Prop := forall u a v off acc, l = u ++ Open (Item a) :: v ->
  exists os, stk off u acc = os ++ acc /\ (forall k, In k os -> (off <= k)%nat /\ encloses l (k - off) (length u)).
Lemma opened_block : forall o c x l, nested x -> (exists p, is_section p = true /\ o = Open p /\ c = Close p) \/ (exists t, o = OpenPart t /\ c = ClosePart t) ->
  opened x -> opened l -> opened (o :: x ++ c :: l).
Proof.
  intros o c x l Hx Hoc IHx IHl u a v off acc E.
  assert (Ho : opens_section o = true) by (destruct Hoc as [(p & Hp & -> & _)|(t & -> & _)]; [exact Hp|reflexivity]).
  assert (Hc : closes c = true /\ opens_section c = false) by (destruct Hoc as [(p & _ & _ & ->)|(t & _ & ->)]; split; reflexivity).
  destruct Hc as (Hc & Hc').
  assert (Hci : c <> Open (Item a)) by (destruct Hoc as [(p & _ & _ & ->)|(t & _ & ->)]; discriminate).
  destruct u as [|o' u]; [exists []; split; [reflexivity|intros k []]|]. cbn [app] in E. injection E as <- E.
  cbn [stk length]. rewrite Ho. apply prefix_app in E. destruct E as [(w & Ex & Ev)|(w & Eu & E)].
  - destruct w as [|d w]; [cbn [app] in Ev; injection Ev as Ev _; congruence|]. cbn [app] in Ev. injection Ev as <- Ev.
    destruct (IHx u a w (S off) (off :: acc) Ex) as (os & -> & Hos). exists (os ++ [off]). split; [rewrite <- app_assoc; reflexivity|].
    intros k Hk. apply in_app_or in Hk. destruct Hk as [Hk|[<-|[]]].
    + apply Hos in Hk. destruct Hk as (Hk & He). split; [lia|]. replace (k - off)%nat with (length [o] + (k - S off))%nat by (cbn [length]; lia).
      change (o :: x ++ c :: l) with ([o] ++ (x ++ c :: l)). change (S (length u)) with (length [o] + length u)%nat. apply encloses_app. apply encloses_grow. exact He.
    + split; [lia|]. rewrite Nat.sub_diag. exists [], o, x, c, l. split; [reflexivity|]. split; [reflexivity|]. split; [exact Hx|].
      split; [rewrite Ex, app_length; cbn [length]; lia|exact Hoc].
  - destruct w as [|d w]; [cbn [app] in E; injection E as E _; congruence|]. cbn [app] in E. injection E as <- E.
    rewrite Eu, stk_app, (nested_stk x Hx). cbn [stk]. rewrite Hc, Hc'. cbn [tl].
    destruct (IHl w a v (S (S off + length x)) acc E) as (os & -> & Hos). exists os. split; [reflexivity|].
    intros k Hk. apply Hos in Hk. destruct Hk as (Hk & He). split; [lia|].
    replace (o :: x ++ c :: l) with ((o :: x ++ [c]) ++ l) by (cbn [app]; rewrite <- app_assoc; reflexivity).
    replace (k - off)%nat with (length (o :: x ++ [c]) + (k - S (S off + length x)))%nat by (cbn [length]; rewrite app_length; cbn [length]; lia).
    replace (S (length (x ++ c :: w))) with (length (o :: x ++ [c]) + length w)%nat by (cbn [length]; repeat rewrite app_length; cbn [length]; lia).
    apply encloses_app. exact He.
Qed.
Lemma opened_skip : forall c l, opens_section c = false -> closes c = false -> opened l -> opened (c :: l).
Proof.
  intros c l H1 H2 IH u a v off acc E. destruct u as [|c' u]; [exists []; split; [reflexivity|intros k []]|].
  cbn [app] in E. injection E as <- E. cbn [stk length]. rewrite H1, H2. destruct (IH u a v (S off) acc E) as (os & -> & Hos).
  exists os. split; [reflexivity|]. intros k Hk. apply Hos in Hk. destruct Hk as (Hk & He). split; [lia|].
  change (c :: l) with ([c] ++ l). replace (k - off)%nat with (length [c] + (k - S off))%nat by (cbn [length]; lia).
  change (S (length u)) with (length [c] + length u)%nat. apply encloses_app. exact He.
Qed.
Lemma nested_opened : forall l, nested l -> opened l.
Proof.
  intros l H. induction H as [|a l Hl IH|p x l Hp Hx IHx Hl IH|t x l Hx IHx Hl IH|l Hl IH].
  - intros u a v off acc E. destruct u; discriminate.
  - apply opened_skip; [reflexivity|reflexivity|exact IH].
  - apply opened_block; [exact Hx|left; eauto|exact IHx|exact IH].
  - apply opened_block; [exact Hx|right; eauto|exact IHx|exact IH].
  - apply opened_skip; [reflexivity|reflexivity|exact IH].
Qed.

Lemma stk_nodup : forall l off acc, NoDup acc -> (forall k, In k acc -> (k < off)%nat) ->
  NoDup (stk off l acc) /\ forall k, In k (stk off l acc) -> (k < off + length l)%nat.
Proof.
  induction l as [|c l IH]; intros off acc Hn Hk; cbn [stk length].
  - split; [exact Hn|]. intros k H. apply Hk in H. lia.
  - replace (off + S (length l))%nat with (S off + length l)%nat by lia. apply IH.
    + destruct (opens_section c); [constructor; [intros H; apply Hk in H; lia|exact Hn]|].
      destruct (closes c); [|exact Hn]. destruct acc; [exact Hn|inversion Hn; assumption].
    + intros k H. destruct (opens_section c); [destruct H as [<-|H]; [lia|apply Hk in H; lia]|].
      destruct (closes c); [destruct acc as [|y acc]; [destruct H|assert (k < off)%nat by (apply Hk; right; exact H); lia]|]. apply Hk in H. lia.
Qed.

Lemma enclosing_spec : forall l i a, nested l -> nth_error (Root :: l) i = Some (Open (Item a)) ->
  exists ks, enclosing i 0 (rev (firstn i (Root :: l))) = ks /\ NoDup ks /\ (forall k, In k ks <-> encloses (Root :: l) k i) /\
    forall k, In k ks -> (0 < k < i)%nat.
Proof.
  intros l i a Hl Hi. destruct i as [|i]; [discriminate|]. cbn [nth_error] in Hi. destruct (nth_error_split _ _ Hi) as (u & v & El & Hu).
  assert (Hf : firstn (S i) (Root :: l) = Root :: u).
  { cbn [firstn]. f_equal. rewrite El, <- Hu. rewrite firstn_app, Nat.sub_diag, firstn_all. apply app_nil_r. }
  exists (stk 1 u []). split; [rewrite Hf, <- Hu; apply (enclosing_stk u O)|].
  destruct (nested_opened l Hl u a v 1%nat [] El) as (os & Hos & H). rewrite app_nil_r in Hos.
  destruct (stk_nodup u 1%nat []) as (Hn & Hb); [constructor|intros k []|].
  split; [exact Hn|]. split.
  - intros k. split.
    + intros Hk. rewrite Hos in Hk. apply H in Hk. destruct Hk as (Hk & He). change (Root :: l) with ([Root] ++ l).
      replace k with (length [Root] + (k - 1))%nat by (cbn [length]; lia). rewrite <- Hu. change (S (length u)) with (length [Root] + length u)%nat. apply encloses_app. exact He.
    + intros (w & o & x & c & z & E & Hw & Hx & Hki & Hoc).
      assert (Ho : opens_section o = true) by (destruct Hoc as [(p & Hp & -> & _)|(t & -> & _)]; [exact Hp|reflexivity]).
      destruct w as [|r w]; [cbn [app] in E; injection E as <- _; discriminate Ho|]. cbn [app] in E. injection E as <- E. cbn [length] in Hw.
      assert (Eu : u = w ++ o :: firstn (i - length w - 1) x).
      { assert (Hfu : u = firstn i l) by (rewrite El, <- Hu, firstn_app, Nat.sub_diag, firstn_all; symmetry; apply app_nil_r).
        rewrite Hfu, E. rewrite firstn_app. rewrite (firstn_all2 w) by lia. f_equal. replace (i - length w)%nat with (S (i - length w - 1)) by lia.
        cbn [firstn]. f_equal. replace (S (i - length w - 1) - 1)%nat with (i - length w - 1)%nat by lia. rewrite firstn_app.
        replace (i - length w - 1 - length x)%nat with O by lia. cbn [firstn]. apply app_nil_r. }
      assert (Hx2 : exists v2, x = firstn (i - length w - 1) x ++ Open (Item a) :: v2).
      { exists (skipn (S (i - length w - 1)) x). rewrite <- (firstn_skipn (i - length w - 1) x) at 1. f_equal.
        assert (Hn2 : nth_error x (i - length w - 1) = Some (Open (Item a))).
        { rewrite E in Hi. rewrite nth_error_app2 in Hi by lia. replace (i - length w)%nat with (S (i - length w - 1)) in Hi by lia. cbn [nth_error] in Hi.
          rewrite nth_error_app1 in Hi by lia. exact Hi. }
        clear - Hn2. revert x Hn2. generalize (i - length w - 1)%nat as n. induction n as [|n IHn]; intros [|y x] H; cbn [nth_error skipn] in *; try discriminate.
        - injection H as ->. reflexivity.
        - apply IHn. exact H. }
      destruct Hx2 as (v2 & Hx2). rewrite Eu, stk_app. cbn [stk]. rewrite Ho.
      destruct (nested_opened x Hx _ a v2 (S (1 + length w)) ((1 + length w)%nat :: stk 1 w []) Hx2) as (os2 & -> & _).
      apply in_or_app. right. left. lia.
  - intros k Hk. assert (Hk2 := Hk). apply Hb in Hk. rewrite Hos in Hk2. apply H in Hk2. lia.
Qed.
