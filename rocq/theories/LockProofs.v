(** Invariants of LockStore *)
From Verif Require Import Py LockModel LockSpec.

Lemma scan_app c h a : forall b x y,
  scan c h (a ++ b) x y = scan c h b (fst (scan c h a x y)) (snd (scan c h a x y)).
Proof.
  induction a as [|e a IH]; intros b x y; [reflexivity|].
  destruct e; cbn [app scan]; try destruct (_ && _); apply IH.
Qed.

Definition called (tr : list event) c h := fst (scan c h tr 0 None).
Definition heldby (tr : list event) c h := snd (scan c h tr 0 None).

Lemma called_app tr ev c h : called (tr ++ ev) c h = fst (scan c h ev (called tr c h) (heldby tr c h)).
Proof. unfold called, heldby. rewrite scan_app. reflexivity. Qed.
Lemma heldby_app tr ev c h : heldby (tr ++ ev) c h = snd (scan c h ev (called tr c h) (heldby tr c h)).
Proof. unfold called, heldby. rewrite scan_app. reflexivity. Qed.

Lemma str_eqb_dec a b : str_eqb a b = if str_dec a b then true else false.
Proof.
  destruct (str_dec a b) as [->|n].
  - apply str_eqb_eq. reflexivity.
  - destruct (str_eqb a b) eqn:E; [|reflexivity]. apply str_eqb_eq in E. congruence.
Qed.

Lemma tset_same f h v : tset f h v h = v.
Proof. unfold tset. destruct (str_dec h h); congruence. Qed.
Lemma tset_other f h v h' : h' <> h -> tset f h v h' = f h'.
Proof. unfold tset. destruct (str_dec h' h); congruence. Qed.
Lemma pset_same f c v : pset f c v c = v.
Proof. unfold pset. rewrite Nat.eqb_refl. reflexivity. Qed.
Lemma pset_other f c v c' : c' <> c -> pset f c v c' = f c'.
Proof. intros H. unfold pset. apply Nat.eqb_neq in H. rewrite H. reflexivity. Qed.

(** the events of a step of c say nothing about others *)
Definition ev_of (e : event) : nat :=
  match e with
  | ELock c _ _ _ | ELocked c _ _ | ELockError c _ _ | EUnlock c _ _
  | EUnlocked c _ _ | EReleased c _ _ => c
  end.

Lemma scan_other c h ev x y : (forall e, In e ev -> ev_of e <> c) -> scan c h ev x y = (x, y).
Proof.
  revert x y; induction ev as [|e ev IH]; intros x y H; [reflexivity|].
  assert (He := H e (or_introl eq_refl)).
  assert (Hr : forall e, In e ev -> ev_of e <> c) by (intros; apply H; right; assumption).
  destruct e; cbn [scan ev_of] in *; try (apply Nat.eqb_neq in He; rewrite He; cbn); apply IH, Hr.
Qed.

Section Inv.
  Variables U T : Z.
  Hypothesis HU : 0 < U.

  Lemma from_now_gt t : t - U < from_now U t.
  Proof.
    unfold from_now. pose proof (Z.mod_pos_bound t U HU).
    pose proof (Z.div_mod t U ltac:(lia)). nia.
  Qed.
  Lemma new_token_gt o t : t - U < new_token U o t.
  Proof. unfold new_token. pose proof (from_now_gt t). destruct (_ =? _) eqn:E; b2p; lia. Qed.

  Definition fresh_ok (now : Z) (tab : str -> option entry) (c : nat) (h : str) (v : Z) : Prop :=
    now <= v + T -> tab h = Some (mkEnt c v).

  Definition pcinv (now : Z) (tab : str -> option entry) (tr : list event) (c : nat) (p : pc) : Prop :=
    match p with
    | Idle => True
    | LStamp h tnow tstop => called tr c h <= now /\ tnow <= now
    | LTok h tnow tstop v | LIns h tnow tstop v =>
        called tr c h <= now /\ tnow <= now /\ called tr c h - U < v
    | LRead h tnow tstop => called tr c h <= now /\ tnow <= now
    | LSteal h tnow tstop e => called tr c h <= now /\ e_created e + T < now
    | LUpd h tnow tstop e v => called tr c h - U < v /\ called tr c h <= now /\ e_created e + T < now
    | LNext h tstop => called tr c h <= now
    | URead h => heldby tr c h = None
    | UCheck h e | UTok h e | UUpd h e _ _ | UDel h e _ =>
        heldby tr c h = None /\ e_owner e = c /\ fresh_ok now tab c h (e_created e)
    end.

  Record inv (tr : list event) (s : sys) : Prop := mkInv {
    i_held : forall c h t0, heldby tr c h = Some t0 ->
      exists v, t0 - U < v /\ fresh_ok (s_now s) (s_tab s) c h v;
    i_pc : forall c, pcinv (s_now s) (s_tab s) tr c (s_pc s c);
    i_rel : forall c h o, In (EReleased c h o) tr -> o = c }.

  (** may c change the entry at h without hurting anybody else? *)
  Definition safe (now : Z) (tab : str -> option entry) (c : nat) (h : str) : Prop :=
    match tab h with None => True | Some e => e_owner e = c \/ e_created e + T < now end.

  Lemma fresh_set now tab c h v c' h' v' : safe now tab c h -> c' <> c ->
    fresh_ok now tab c' h' v' -> fresh_ok now (tset tab h v) c' h' v'.
  Proof.
    intros S N F L. specialize (F L). destruct (str_dec h' h) as [->|n].
    - unfold safe in S. rewrite F in S. cbn in S. lia.
    - rewrite tset_other by assumption. exact F.
  Qed.

  Lemma pcinv_other now now' tab tab' tr ev c p : now <= now' ->
    (forall e, In e ev -> ev_of e <> c) ->
    (forall h v, fresh_ok now tab c h v -> fresh_ok now' tab' c h v) ->
    pcinv now tab tr c p -> pcinv now' tab' (tr ++ ev) c p.
  Proof.
    intros L E F. destruct p; cbn; rewrite ?called_app, ?heldby_app, ?scan_other by assumption;
      cbn [fst snd]; intuition (auto; lia).
  Qed.

  Lemma fresh_later now now' tab c h v : now <= now' -> fresh_ok now tab c h v -> fresh_ok now' tab c h v.
  Proof. unfold fresh_ok. intros; auto with zarith. Qed.

  (** what a step of c does to the table and the history *)
  Definition good (now : Z) (tab : str -> option entry) (tr : list event) (c : nat)
      (tab' : str -> option entry) (p' : pc) (ev : list event) : Prop :=
    (forall e, In e ev -> ev_of e = c) /\
    (forall c' h' v', c' <> c -> fresh_ok now tab c' h' v' -> fresh_ok now tab' c' h' v') /\
    pcinv now tab' (tr ++ ev) c p' /\
    (forall h t0, heldby (tr ++ ev) c h = Some t0 ->
       exists v, t0 - U < v /\ fresh_ok now tab' c h v) /\
    (forall h o, In (EReleased c h o) ev -> o = c).

  Lemma held_keep tr now tab c ev :
    (forall h t0, heldby tr c h = Some t0 -> exists v, t0 - U < v /\ fresh_ok now tab c h v) ->
    (forall h, heldby (tr ++ ev) c h = heldby tr c h) ->
    (forall h t0, heldby (tr ++ ev) c h = Some t0 -> exists v, t0 - U < v /\ fresh_ok now tab c h v).
  Proof. intros A B h t0 H. rewrite B in H. eauto. Qed.

  Lemma run1_good now tab tr c p tab' p' ev :
    (forall h t0, heldby tr c h = Some t0 -> exists v, t0 - U < v /\ fresh_ok now tab c h v) ->
    pcinv now tab tr c p ->
    (match p with UDel _ e _ => e_created e + T <? now | _ => false end) = false ->
    run1 U T true now tab c p = Some (tab', p', ev) -> good now tab tr c tab' p' ev.
  Proof.
    intros IH IP NL R.
    assert (Q : forall p'', pcinv now tab (tr ++ nil) c p'' -> good now tab tr c tab p'' nil).
    { intros p'' P. unfold good. rewrite !app_nil_r in *. intuition (try contradiction). }
    assert (Q1 : forall e h, pcinv now tab (tr ++ [e]) c Idle -> e = EUnlocked c h now \/ e = ELockError c h now ->
       good now tab tr c tab Idle [e]).
    { intros e h P E. unfold good.
      assert (E1 : forall h, heldby (tr ++ [e]) c h = heldby tr c h).
      { intros h'. rewrite heldby_app. destruct E as [-> | ->]; reflexivity. }
      split; [intros e' [<-|[]]; destruct E as [-> | ->]; reflexivity|].
      split; [auto|]. split; [exact P|]. split.
      - eapply held_keep; eassumption.
      - intros h' o [X|[]]; destruct E as [E|E]; congruence. }
    assert (Q2 : forall h v, safe now tab c h -> called tr c h - U < v ->
      good now tab tr c (tset tab h (Some (mkEnt c v))) Idle [ELocked c h now]).
    { intros h v S V. unfold good.
      split; [intros e' [<-|[]]; reflexivity|].
      split; [intros; eapply fresh_set; eassumption|]. split; [exact I|]. split.
      - intros h' t0. rewrite heldby_app. cbn [scan]. rewrite Nat.eqb_refl, str_eqb_dec. cbn [andb].
        destruct (str_dec h h') as [<-|n]; cbn [snd].
        + intros [= <-]. exists v. split; [lia|]. intros _. apply tset_same.
        + intros H. destruct (IH h' t0 H) as [v' [A B]]. exists v'. split; [exact A|].
          intros L. rewrite tset_other by congruence. auto.
      - intros h' o [E|[]]; discriminate. }
    assert (QN : forall h tstop, called tr c h <= now -> good now tab tr c tab (LNext h tstop) nil).
    { intros. apply Q. cbn. rewrite app_nil_r. assumption. }
    destruct p as [|h tnow tstop|h tnow tstop v|h tnow tstop v|h tnow tstop|h tnow tstop e|h tnow tstop e v|h tstop|h|h e|h e|h e v t|h e t];
      cbn [run1 pcinv] in *.
    - discriminate.
    - injection R as <- <- <-. apply Q. cbn. rewrite app_nil_r. pose proof (from_now_gt now). lia.
    - injection R as <- <- <-. apply Q. cbn. rewrite app_nil_r. pose proof (new_token_gt v now). lia.
    - destruct (tab h) as [e|] eqn:E; injection R as <- <- <-.
      + apply Q. cbn. rewrite app_nil_r. lia.
      + apply Q2; [|lia]. unfold safe. rewrite E. exact I.
    - destruct (tab h) as [e|] eqn:E; [destruct (_ <? _) eqn:L|]; injection R as <- <- <-.
      + apply Q. cbn. rewrite app_nil_r. b2p. lia.
      + apply QN. lia.
      + apply QN. lia.
    - injection R as <- <- <-. apply Q. cbn. rewrite app_nil_r.
      pose proof (new_token_gt (e_created e) now). lia.
    - destruct (tab h) as [e'|] eqn:E; [destruct (_ =? _) eqn:L|]; cbn [andb negb] in R; injection R as <- <- <-.
      + apply Q2; [|lia]. unfold safe. rewrite E. right. b2p. lia.
      + apply QN. lia.
      + apply QN. lia.
    - unfold again in R. destruct (now <? tstop) eqn:L; injection R as <- <- <-.
      + apply Q. cbn. rewrite app_nil_r. lia.
      + eapply Q1; [exact I|right; reflexivity].
    - destruct (tab h) as [e|] eqn:E; [destruct (Nat.eqb _ _) eqn:O|]; injection R as <- <- <-.
      + apply Q. cbn. rewrite app_nil_r. apply Nat.eqb_eq in O. split; [assumption|]. split; [assumption|].
        intros _. rewrite E. destruct e; cbn in *; congruence.
      + eapply Q1; [exact I|left; reflexivity].
      + eapply Q1; [exact I|left; reflexivity].
    - destruct (_ <? _) eqn:L; injection R as <- <- <-; apply Q; cbn; rewrite app_nil_r; exact IP.
    - injection R as <- <- <-; apply Q; cbn; rewrite app_nil_r; exact IP.
    - destruct IP as [Hn [Ho F]].
      destruct (tab h) as [e'|] eqn:E; [destruct (_ =? _) eqn:L|]; cbn [andb negb] in R; injection R as <- <- <-.
      + assert (S : safe now tab c h).
        { unfold safe. rewrite E. destruct (Z_le_gt_dec now (e_created e + T)) as [Z|Z].
          - left. specialize (F Z). rewrite E in F. injection F as ->. reflexivity.
          - right. b2p. lia. }
        unfold good. rewrite app_nil_r. split; [intros _ []|].
        split; [intros; eapply fresh_set; eassumption|]. cbn. split; [|split].
        * split; [exact Hn|]. split; [reflexivity|]. intros _. apply tset_same.
        * intros h' t0 H. destruct (IH h' t0 H) as [v' [A B]]. exists v'. split; [exact A|].
          intros Z. destruct (str_dec h' h) as [->|n]; [congruence|]. rewrite tset_other by assumption. auto.
        * intros _ _ [].
      + eapply Q1; [exact I|left; reflexivity].
      + eapply Q1; [exact I|left; reflexivity].
    - destruct IP as [Hn [Ho F]]. apply Z.ltb_ge in NL. specialize (F NL). rewrite F in R.
      injection R as <- <- <-. unfold good. cbn [e_owner].
      split; [intros e' [<-|[<-|[]]]; reflexivity|].
      split; [intros; apply fresh_set with (c := c); [unfold safe; rewrite F; left; reflexivity|assumption|assumption]|].
      split; [exact I|]. split.
      + intros h' t0. rewrite heldby_app. cbn [scan snd]. intros H.
        destruct (IH h' t0 H) as [v' [A B]]. exists v'. split; [exact A|].
        intros Z. destruct (str_dec h' h) as [->|n]; [congruence|]. rewrite tset_other by assumption. auto.
      + intros h' o [E|[E|[]]]; [injection E as _ <-; reflexivity|discriminate].
  Qed.

  Lemma good_inv tr now tab pcs c tab' p' ev : inv tr (mkSys now tab pcs) ->
    good now tab tr c tab' p' ev -> inv (tr ++ ev) (mkSys now tab' (pset pcs c p')).
  Proof.
    intros [IH IP IR] [E [F [P [H R]]]]. cbn in *. constructor; cbn.
    - intros c' h t0. destruct (Nat.eq_dec c' c) as [->|n]; [apply H|].
      rewrite heldby_app, scan_other by (intros e I; rewrite (E e I); congruence). cbn [snd].
      intros Q. destruct (IH _ _ _ Q) as [v [A B]]. eauto.
    - intros c'. destruct (Nat.eq_dec c' c) as [->|n]; [rewrite pset_same; exact P|].
      rewrite pset_other by assumption. eapply pcinv_other with (now := now) (tab := tab);
        [lia| |intros; apply F; assumption|apply IP].
      intros e I. rewrite (E e I). congruence.
    - intros c' h o I. apply in_app_or in I. destruct I as [I|I]; [eauto|].
      assert (c' = c) as -> by (exact (E _ I)). eauto.
  Qed.

  Lemma run_inv tr s : run U T true (expired T) tr s -> inv tr s.
  Proof.
    induction 1 as [t|tr s l s' ev _ IH ST PR].
    - constructor; cbn; intros; try discriminate; try contradiction; exact I.
    - destruct s as [now tab pcs]. destruct l as [d|c h timeout|c h|c]; cbn in ST, PR.
      + injection ST as <- <-. rewrite app_nil_r. destruct IH as [IH IP IR]; cbn in *.
        constructor; cbn.
        * intros c h t0 Q. destruct (IH _ _ _ Q) as [v [A B]]. exists v. split; [exact A|].
          eapply fresh_later; [|exact B]; lia.
        * intros c. rewrite <- (app_nil_r tr). eapply pcinv_other; [| | |apply IP]; [lia|intros ? []|].
          intros h v. apply fresh_later; lia.
        * exact IR.
      + pose proof (i_pc _ _ IH c) as _. destruct (pcs c) eqn:Ep; try discriminate.
        destruct (again c now h (now + timeout)) as [p ev'] eqn:A. injection ST as <- <-.
        eapply good_inv; [exact IH|]. unfold again in A.
        assert (QH : forall ev, ev = nil \/ ev = [ELockError c h now] ->
          (forall h' t0, heldby (tr ++ ELock c h now timeout :: ev) c h' = Some t0 ->
             exists v, t0 - U < v /\ fresh_ok now tab c h' v)).
        { intros ev0 E0 h' t0. rewrite heldby_app.
          replace (snd _) with (heldby tr c h');
            [intros Q; exact (i_held _ _ IH _ _ _ Q)|].
          destruct E0 as [-> | ->]; cbn [scan]; destruct (_ && _); reflexivity. }
        destruct (now <? now + timeout) eqn:L; injection A as <- <-; unfold good.
        * split; [intros e [<-|[]]; reflexivity|]. split; [auto|].
          split; [|split; [apply QH; auto|intros h' o [E|[]]; discriminate]].
          cbn. rewrite called_app. cbn. rewrite Nat.eqb_refl, str_eqb_dec.
          destruct (str_dec h h); [|congruence]. cbn. lia.
        * split; [intros e [<-|[<-|[]]]; reflexivity|]. split; [auto|].
          split; [exact I|split; [apply QH; auto|intros h' o [E|[E|[]]]; discriminate]].
      + destruct (pcs c) eqn:Ep; try discriminate. injection ST as <- <-.
        eapply good_inv; [exact IH|]. unfold good.
        split; [intros e [<-|[]]; reflexivity|]. split; [auto|].
        split; [|split; [|intros h' o [E|[]]; discriminate]].
        * cbn. rewrite heldby_app. cbn. rewrite Nat.eqb_refl, str_eqb_dec.
          destruct (str_dec h h); [|congruence]. reflexivity.
        * intros h' t0. rewrite heldby_app. cbn. destruct (_ && _); [discriminate|].
          intros Q. exact (i_held _ _ IH _ _ _ Q).
      + destruct (run1 _ _ _ _ _ _ _) as [[[tab' p'] ev']|] eqn:R; [|discriminate]. injection ST as <- <-.
        eapply good_inv; [exact IH|]. eapply run1_good; [| | |exact R].
        * intros h t0. apply (i_held _ _ IH).
        * apply (i_pc _ _ IH).
        * exact PR.
  Qed.
End Inv.

(** ** LockError is raised only when the timeout is over *)
Definition in_lock (p : pc) : option (str * Z) :=
  match p with
  | LStamp h _ tstop | LTok h _ tstop _ | LIns h _ tstop _ | LRead h _ tstop
  | LSteal h _ tstop _ | LUpd h _ tstop _ _ | LNext h tstop => Some (h, tstop)
  | _ => None
  end.

Definition err_ok (tr : list event) : Prop :=
  forall a c h t b, tr = a ++ ELockError c h t :: b ->
    exists t0 timeout, in_lock_call a c h t0 timeout /\ t0 + timeout <= t.

Lemma in_lock_call_app tr ev c h t0 to : in_lock_call tr c h t0 to ->
  (forall e, In e ev -> ev_of e <> c) -> in_lock_call (tr ++ ev) c h t0 to.
Proof.
  intros [a [b [-> H]]] E. exists a, (b ++ ev). rewrite <- app_assoc. split; [reflexivity|].
  intros e I. apply in_app_or in I. destruct I as [I|I]; [exact (H e I)|].
  specialize (E e I). destruct e; exact E.
Qed.

Lemma err_ok_snoc tr e : err_ok tr ->
  (forall c h t, e = ELockError c h t -> exists t0 to, in_lock_call tr c h t0 to /\ t0 + to <= t) ->
  err_ok (tr ++ [e]).
Proof.
  intros A B a c h t b E.
  destruct b as [|x b] using rev_ind.
  - apply app_inj_tail in E. destruct E as [-> ->]. apply (B c h t). reflexivity.
  - clear IHb. rewrite app_comm_cons, app_assoc in E. apply app_inj_tail in E. destruct E as [E _].
    eapply A. exact E.
Qed.

Section Err.
  Variables U T : Z. Variable occ : bool.

  Record einv (tr : list event) (s : sys) : Prop := mkE {
    e_err : err_ok tr;
    e_pc : forall c h tstop, in_lock (s_pc s c) = Some (h, tstop) ->
      exists t0 to, in_lock_call tr c h t0 to /\ tstop = t0 + to }.

  Lemma einv_step tr now tab pcs c tab' p' ev : einv tr (mkSys now tab pcs) ->
    (forall e, In e ev -> ev_of e = c) -> err_ok (tr ++ ev) ->
    (forall h tstop, in_lock p' = Some (h, tstop) ->
      exists t0 to, in_lock_call (tr ++ ev) c h t0 to /\ tstop = t0 + to) ->
    einv (tr ++ ev) (mkSys now tab' (pset pcs c p')).
  Proof.
    intros [E P] A B C. constructor; [exact B|]. cbn in *. intros c' h tstop.
    destruct (Nat.eq_dec c' c) as [->|n]; [rewrite pset_same; apply C|].
    rewrite pset_other by assumption. intros Q. destruct (P _ _ _ Q) as [t0 [to [X Y]]].
    exists t0, to. split; [|exact Y]. apply in_lock_call_app; [exact X|]. intros e I. rewrite (A e I). congruence.
  Qed.

  Lemma in_lock_self tr c h t0 to : in_lock_call (tr ++ [ELock c h t0 to]) c h t0 to.
  Proof. exists tr, nil. split; [reflexivity|]. intros _ []. Qed.

  Lemma run_einv bad tr s : run U T occ bad tr s -> einv tr s.
  Proof.
    induction 1 as [t|tr s l s' ev _ IH ST PR].
    - constructor; cbn; [|discriminate]. intros a c h t0 b E. destruct a; discriminate.
    - clear PR. destruct s as [now tab pcs]. destruct l as [d|c h timeout|c h|c]; cbn in ST.
      + injection ST as <- <-. rewrite app_nil_r. destruct IH as [A B]. constructor; assumption.
      + destruct (pcs c) eqn:Ep; try discriminate. unfold again in ST.
        assert (EL : err_ok (tr ++ [ELock c h now timeout])).
        { apply err_ok_snoc; [apply IH|discriminate]. }
        destruct (now <? now + timeout) eqn:L; injection ST as <- <-.
        * eapply einv_step; [exact IH|intros e [<-|[]]; reflexivity|exact EL|].
          cbn. intros h' ts [= <- <-]. exists now, timeout. split; [apply in_lock_self|reflexivity].
        * eapply einv_step; [exact IH|intros e [<-|[<-|[]]]; reflexivity| |discriminate].
          change (tr ++ [ELock c h now timeout; ELockError c h now]) with (tr ++ [ELock c h now timeout] ++ [ELockError c h now]).
          rewrite app_assoc. apply err_ok_snoc; [exact EL|].
          intros c' h' t' [= <- <- <-]. exists now, timeout. split; [apply in_lock_self|b2p; lia].
      + destruct (pcs c) eqn:Ep; try discriminate. injection ST as <- <-.
        eapply einv_step; [exact IH|intros e [<-|[]]; reflexivity| |discriminate].
        apply err_ok_snoc; [apply IH|discriminate].
      + destruct (run1 U T occ now tab c (pcs c)) as [[[tab' p'] ev']|] eqn:R; [|discriminate].
        injection ST as <- <-.
        assert (N : forall p'', (forall h ts, in_lock p'' = Some (h, ts) -> in_lock (pcs c) = Some (h, ts)) ->
           forall tb, einv (tr ++ nil) (mkSys now tb (pset pcs c p''))).
        { intros p'' Q tb. eapply einv_step; [exact IH|intros ? []|rewrite app_nil_r; apply IH|].
          intros h ts X. rewrite app_nil_r. apply (e_pc _ _ IH). apply Q. exact X. }
        assert (D : forall e tb, ev_of e = c -> match e with ELockError _ _ _ => False | _ => True end ->
            einv (tr ++ [e]) (mkSys now tb (pset pcs c Idle))).
        { intros e tb E X. eapply einv_step; [exact IH|intros e' [<-|[]]; exact E| |discriminate].
          apply err_ok_snoc; [apply IH|]. intros c' h' t' ->. contradiction. }
        destruct (pcs c) eqn:Ep; cbn in R; try discriminate;
          repeat match type of R with
            | context [match ?x with _ => _ end] => destruct x eqn:?
            end; injection R as <- <- <-; try (apply N; cbn; intros; congruence); try (apply D; [reflexivity|exact I]).
        * unfold again in *. destruct (now <? tstop) eqn:L; inversion Heqp; subst.
          -- apply N. cbn. congruence.
          -- eapply einv_step; [exact IH|intros e [<-|[]]; reflexivity| |discriminate].
             apply err_ok_snoc; [apply IH|]. intros c' h' t' [= <- <- <-].
             assert (Q : in_lock (pcs c) = Some (h, tstop)) by (rewrite Ep; reflexivity).
             destruct (e_pc _ _ IH _ _ _ Q) as [t0 [to [X Y]]]. exists t0, to. split; [exact X|b2p; lia].
        * match goal with |- einv (tr ++ [?a; ?b]) _ => change [a; b] with ([a] ++ [b]) end.
          eapply einv_step; [exact IH|intros e' [<-|[<-|[]]]; reflexivity| |discriminate].
          rewrite app_assoc. apply err_ok_snoc; [apply err_ok_snoc; [apply IH|discriminate]|discriminate].
  Qed.
End Err.

(** ** an unlock that is not suspended for a second deletes before the lock expires *)
Section Prompt.
  Variables U T : Z.
  Hypothesis HU : 0 < U.
  Hypothesis HT : 2 * U <= T.

  Definition tinv (p : pc) : Prop :=
    match p with
    | UUpd _ _ v t => t - U < v
    | UDel _ e t => t + U <= e_created e + T
    | _ => True
    end.

  Lemma run_prompt tr s : run U T true (suspended U) tr s ->
    run U T true (expired T) tr s /\ forall c, tinv (s_pc s c).
  Proof.
    induction 1 as [t|tr s l s' ev _ [IR IH] ST PR].
    - split; [constructor|]. intros c. exact I.
    - split.
      + eapply run_step; [exact IR|exact ST|]. destruct l as [| | |c]; try reflexivity.
        cbn in *. specialize (IH c). destruct (s_pc s c); try reflexivity. cbn in IH. b2p.
        apply Z.ltb_ge. lia.
      + destruct s as [now tab pcs]. cbn in IH. intros c'.
        assert (G : forall c p, tinv p -> tinv (pset pcs c p c')).
        { intros c p P. destruct (Nat.eq_dec c' c) as [->|n]; [rewrite pset_same; exact P|].
          rewrite pset_other by assumption. apply IH. }
        destruct l as [d|c h timeout|c h|c]; cbn in ST.
        * injection ST as <- <-. apply IH.
        * destruct (pcs c); try discriminate. unfold again in ST.
          destruct (now <? _); injection ST as <- <-; apply G; exact I.
        * destruct (pcs c); try discriminate. injection ST as <- <-. apply G; exact I.
        * destruct (run1 U T true now tab c (pcs c)) as [[[tab' p'] ev']|] eqn:R; [|discriminate].
          injection ST as <- <-. apply G. pose proof (IH c) as Ic. clear G IH PR IR.
          unfold again in R.
          destruct (pcs c); cbn in R, Ic; try discriminate;
            repeat match type of R with
            | context [if ?x then _ else _] => destruct x eqn:?
            | context [match ?x with Some _ => _ | None => _ end] => destruct x eqn:?
            end; try discriminate R; cbn in R; try (injection R as <- <- <-; cbn; try exact I).
          -- unfold again in R. destruct (now <? tstop); injection R as <- <- <-; exact I.
          -- b2p. lia.
          -- pose proof (new_token_gt U HU (e_created e) now). lia.
          -- lia.
  Qed.
End Prompt.
