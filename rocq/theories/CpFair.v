(* Invariants of the connection pool that hold for part of the runs *)
From Coq Require Import List Bool Arith Lia.
From Verif Require Import CpModel CpInv.
Import ListNotations.

Section Fair.
Variable max : nat.
Notation inv := (inv max).

(* a connection that is left idle or upgraded has not been replaced by another one of the
   same thread and target in the meantime *)
Definition not_replaced (l : label) (s : pool) : Prop :=
  match l with
  | LIdle T c | LUpgrade T c _ => forall c', look (T, tgt s c) (act s) = Some c' -> c' = c
  | _ => True
  end.
(* killed, or about to be *)
Definition gone (s : pool) (c : nat) : Prop := dead s c = true \/ exists K, In (K, c) (doomed s).

Record fair (s : pool) : Prop := Fair {
  f_ath : forall T c, In (T, c) (ath s) -> In ((T, tgt s c), c) (act s);
  f_act : forall T g c, In ((T, g), c) (act s) -> In (T, c) (ath s);
  f_gone : forall c, gone s c -> c < nextid s /\ (forall T, ~ In (T, c) (ath s)) /\ ~ In c (idle s)
}.

Lemma fair_start : fair start.
Proof using Type. constructor; cbn; try tauto. intros c [H|[K []]]. discriminate. Qed.
Lemma fair_delete d s : fair s -> fair (delete_idle d s).
Proof using Type.
  intros []. constructor; cbn [act ath idle tgt nextid delete_idle set_tables]; auto.
  intros c H. destruct (f_gone0 c H) as (A & B & C). repeat split; auto. intros K. apply in_without in K as [K _]. auto.
Qed.
Lemma fair_activate c T s : inv s -> fair s -> owner s c = None -> look (T, tgt s c) (act s) = None -> ~ gone s c ->
  fair (activate c T s).
Proof using Type.
  intros J F O K G. unfold activate. rewrite (unkey_none _ _ K).
  rewrite unpair_none by (intros H; destruct (i_ath _ _ J T c H); congruence).
  destruct F. constructor; cbn [act ath idle tgt nextid set_tables].
  - intros U c' [E|H]; [injection E as <- <-; now left|right; auto].
  - intros U g c' [E|H]; [injection E as <- _ <-; now left|right; eauto].
  - intros c' H. assert (N : c' <> c) by (intros ->; auto). destruct (f_gone0 c' H) as (A & B & C).
    repeat split; auto.
    + intros U [E|Q]; [congruence|elim (B U Q)].
    + intros Q. apply in_without in Q as [Q _]. auto.
Qed.
Lemma fair_new g s : inv s -> fair s -> fair (new_connection g s).
Proof using Type.
  intros J []. constructor; cbn [act ath idle tgt nextid new_connection]; auto.
  - intros T c H. destruct (i_ath _ _ J T c H) as (_ & L). rewrite upd_ne by lia. auto.
  - intros c H. destruct (f_gone0 c H) as (A & B & C). auto.
Qed.
Lemma fair_take T g s c s' : take max T g s c s' -> inv s -> fair s -> fair s'.
Proof using Type.
  induction 1 as [s c H|s c H1 H2 H3|s H1 H2 H3|s d c s' H1 H2 H3 H4 H5 IH]; intros J F; auto.
  - apply fair_activate; auto.
    + now apply (i_idle _ _ J).
    + now rewrite H3.
    + intros G. destruct (f_gone _ F c G) as (_ & _ & X). auto.
  - apply fair_activate; auto using inv_new, fair_new.
    + apply (i_new _ _ J). lia.
    + cbn [tgt new_connection act]. now rewrite upd_eq.
    + intros G. destruct (f_gone _ F (nextid s) G). lia.
  - apply IH; auto using inv_delete, fair_delete.
Qed.

Lemma fair_cleanup sel : forall s, inv s -> fair s -> NoDup sel -> incl sel (ath s) ->
  exists s', cleanup sel s = (s', false) /\ fair s' /\ same s s' /\ idle s' = idle s /\ nextid s' = nextid s /\
    length (act s') + length sel = length (act s) /\ (forall x, In x (ath s') <-> In x (ath s) /\ ~ In x sel) /\
    (forall x, In x (act s') -> In x (act s)).
Proof using Type.
  induction sel as [|[T c] sel IH]; intros s J F N Hs; cbn [cleanup].
  - exists s. split; [reflexivity|]. split; [exact F|]. split; [apply same_refl|]. cbn [length In]. intuition.
  - inversion N as [|? ? N1 N2]. subst. assert (Ha : In (T, c) (ath s)) by (apply Hs; now left).
    destruct (i_ath _ _ J T c Ha) as (O & L). rewrite O.
    assert (K : look (T, tgt s c) (act s) = Some c) by (apply look_in; [apply J|now apply F]).
    rewrite K. set (s1 := set_tables _ _ _ _ s).
    assert (J1 : inv s1).
    { apply inv_less; auto; try apply J; try apply incl_refl.
      - apply nodup_filter_map, J.
      - apply incl_filter.
      - apply nodup_filter, J.
      - apply incl_filter.
      - pose proof (i_len _ _ J). pose proof (unkey_len _ _ _ (i_keys _ _ J) K). lia. }
    assert (F1 : fair s1).
    { destruct F. subst s1. constructor; cbn [act ath idle tgt nextid set_tables].
      - intros U c' H. apply in_unpair in H as [H H']. apply in_unkey. split; auto. cbn [fst].
        intros E. injection E as -> E. apply H'. f_equal.
        pose proof (f_ath0 T c' H) as X. rewrite E in X. apply (look_in _ _ _ (i_keys _ _ J)) in X. congruence.
      - intros U g c' H. apply in_unkey in H as [H H']. cbn [fst] in H'. apply in_unpair. split; [eauto|].
        intros E. injection E as -> ->. destruct (i_act _ _ J T g c H) as (_ & G & _). apply H'. congruence.
      - intros c' H. destruct (f_gone0 c' H) as (A & B & C). repeat split; auto.
        intros U Q. apply in_unpair in Q as [Q _]. elim (B U Q). }
    destruct (IH s1 J1 F1 N2) as (s' & E1 & E2 & E3 & E4 & E5 & E6 & E7 & E8).
    { intros x H. cbn [ath set_tables s1]. apply in_unpair. split; [apply Hs; now right|]. intros ->. auto. }
    exists s'. split; [exact E1|]. split; [exact E2|]. split; [exact E3|]. split; [exact E4|]. split; [exact E5|].
    split; [|split].
    + cbn [length]. pose proof (unkey_len _ _ _ (i_keys _ _ J) K). cbn [act set_tables s1] in E6. lia.
    + intros x. rewrite E7. cbn [ath set_tables s1]. rewrite in_unpair. cbn [In]. intuition congruence.
    + intros x H. apply E8 in H. cbn [act set_tables s1] in H. now apply in_unkey in H.
Qed.

Lemma fair_same t s : fair s -> act t = act s -> ath t = ath s -> idle t = idle s -> tgt t = tgt s -> nextid t = nextid s ->
  (forall c, gone t c -> gone s c) -> fair t.
Proof using Type.
  intros [] E1 E2 E3 E4 E5 E6. constructor; rewrite ?E1, ?E2, ?E3, ?E4, ?E5; auto.
Qed.
Lemma fair_release a i c T s : inv s -> fair s -> owner s c = Some T ->
  a = unkey (T, tgt s c) (act s) -> (i = idle s \/ i = c :: without c (idle s) /\ ~ gone s c) ->
  (forall c', look (T, tgt s c) (act s) = Some c' -> c' = c) ->
  fair (set_tables (upd (owner s) c None) a (unpair (T, c) (ath s)) i s).
Proof using Type.
  intros J [] O -> Hi Hr. constructor; cbn [act ath idle tgt nextid set_tables].
  - intros U c' H. apply in_unpair in H as [H H']. apply in_unkey. split; auto. cbn [fst].
    intros E. injection E as -> E. apply H'. f_equal. apply Hr. rewrite <- E. apply look_in; auto. apply J.
  - intros U g c' H. apply in_unkey in H as [H H']. cbn [fst] in H'. apply in_unpair. split; [eauto|].
    intros E. injection E as -> ->. destruct (i_act _ _ J T g c H) as (_ & G & _). apply H'. congruence.
  - intros c' H. destruct (f_gone0 c' H) as (A & B & C). repeat split; auto.
    + intros U Q. apply in_unpair in Q as [Q _]. elim (B U Q).
    + destruct Hi as [->|[-> Hi]]; auto. intros [<-|Q]; auto. apply in_without in Q as [Q _]. auto.
Qed.

(* the order of the waiting threads and the room in the pool *)
Record waits (s : pool) : Prop := Waits {
  w_threads : NoDup (map fst (waiting s ++ woken s));
  w_none : forall T g r, In (T, (g, r)) (waiting s ++ woken s) -> look (T, g) (act s) = None;
  w_room : waiting s <> [] -> max <= length (act s) + length (woken s)
}.
Lemma take_act T g s c s' : take max T g s c s' ->
  (look (T, g) (act s) <> None /\ act s' = act s) \/
  (look (T, g) (act s) = None /\ length (act s') = S (length (act s)) /\
   forall k, k <> (T, g) -> look k (act s') = look k (act s)).
Proof using Type.
  induction 1 as [s c H|s c H1 H2 H3|s H1 H2 H3|s d c s' H1 H2 H3 H4 H5 IH].
  - left. split; [congruence|auto].
  - right. split; auto. cbn [act activate set_tables]. rewrite H3, (unkey_none _ _ H1). split; auto.
    intros k N. cbn [look]. destruct (keq k (T, g)) eqn:E; auto. apply keq_true in E. congruence.
  - right. split; auto. cbn [act activate set_tables new_connection tgt]. rewrite upd_eq, (unkey_none _ _ H1). split; auto.
    intros k N. cbn [look]. destruct (keq k (T, g)) eqn:E; auto. apply keq_true in E. congruence.
  - exact IH.
Qed.
Lemma look_less k a b : (forall x, In x a -> In x b) -> look k b = None -> look k a = None.
Proof using Type. intros H. rewrite !look_none. intros N c K. elim (N c (H _ K)). Qed.

Definition no_upgrade (l : label) (s : pool) : Prop :=
  match l with LUpgrade _ _ _ => False | _ => not_replaced l s end.

Lemma fair_step l s s' : step max l s s' -> inv s -> not_replaced l s -> fair s -> fair s'.
Proof using Type.
  intros H J R F. destruct H; cbn [not_replaced] in R.
  - pose proof (fair_take _ _ _ _ _ H1 J F) as X. eapply fair_same; eauto.
  - eapply fair_same; eauto.
  - eapply fair_same; eauto.
  - eapply fair_same; eauto.
  - pose proof (fair_take _ _ _ _ _ H0 J F) as X. eapply fair_same; eauto.
  - eapply fair_same; eauto.
  - eapply fair_same; eauto.
  - eapply fair_same; eauto.
  - eapply fair_same; eauto.
  - destruct (i_held _ _ J T c H0) as (O & L). unfold deactivate.
    destruct (look (T, tgt s c) (act s)) as [c'|] eqn:K.
    + specialize (R c' eq_refl) as ->.
      eapply (fair_same _ (set_tables (upd (owner s) c None) (unkey (T, tgt s c) (act s)) (unpair (T, c) (ath s)) (c :: without c (idle s)) s));
        [|reflexivity..|auto].
      apply fair_release; auto; [right; split; auto|intros c' E; congruence].
      intros G. destruct (f_gone _ F c G) as (_ & X & _). apply look_some in K. elim (X T). eapply f_act; eauto.
    + eapply (fair_same _ (set_tables (upd (owner s) c None) (act s) (unpair (T, c) (ath s)) (idle s) s));
        [|reflexivity..|auto].
      apply fair_release; auto; [now rewrite unkey_none|intros c' E; congruence].
  - eapply fair_same; eauto.
  - destruct (i_held _ _ J T c H0) as (O & L).
    eapply (fair_same _ (upgrade c T s)); [|reflexivity..|auto]. now apply fair_release; auto.
  - unfold active_cleanup. destruct (fair_cleanup sel s J F H0 H1) as (s' & E & F' & Sm & Ei & En & El & Ea & Eb).
    rewrite E. destruct F'. constructor; cbn [act ath idle tgt nextid set_dead notify set_wait]; auto.
    intros c G. unfold gone in G. cbn [dead doomed set_dead notify set_wait] in G.
    destruct Sm as (_ & _ & _ & Sd & Sx & _). rewrite Sd, Sx in G.
    assert (X : gone s c \/ exists T, In (T, c) sel).
    { destruct G as [G|[K' G]]; [left; left; auto|]. apply in_app_iff in G as [G|G]; [right|left; right; eauto].
      apply in_map_iff in G as ([T c'] & E' & G). injection E' as _ <-. eauto. }
    destruct X as [X|[T X]].
    + destruct (f_gone _ F c X) as (A & B & C). rewrite En, Ei. repeat split; auto. intros U Q. apply Ea in Q as [Q _]. elim (B U Q).
    + destruct (i_ath _ _ J T c (H1 _ X)) as (A & B). rewrite En, Ei. repeat split; auto.
      * intros U Q. apply Ea in Q as [Q Q']. destruct (i_ath _ _ J U c Q) as (A' & _). apply Q'. congruence.
      * intros Q. destruct (i_idle _ _ J c Q). congruence.
  - eapply fair_same; eauto. intros c' [G|[K' G]].
    + cbn [dead set_dead] in G. destruct (upd_dec (dead s) c (dead s c || b) c') as [[-> E]|[_ E]].
      * right. exists K. rewrite H. apply in_app_iff. right. now left.
      * left. congruence.
    + right. exists K'. cbn [doomed set_dead] in G. rewrite H. apply in_app_iff in G as [G|G]; apply in_app_iff; [left|right; right]; auto.
  - clear - F. induction sel as [|d sel IH]; cbn [fold_right]; auto using fair_delete.
  - eapply fair_same; eauto.
Qed.
End Fair.
