(** Properties C123-C127: QTI expressions. *)
From Coq Require Import Lia.
From Verif Require Import Py QeModel QeSpec QeProofs.

(** for the examples *)
Definition vi (z : Z) : value := V (Some Single) (Some Integer) (Some (PS (DInt z))).
Definition vb (b : bool) : value := V (Some Single) (Some Boolean) (Some (PS (DBool b))).
Definition null : value := V None None None.
Definition ordered_ints (l : list Z) : value := V (Some Ordered) (Some Integer) (Some (PL (map DInt l))).

(** ** C123: truth values and NULL *)
Theorem and_decides : forall lower vs os, Forall2 operand vs os -> exists r, apply_n lower NAnd vs = Ok (BooleanValue r) /\ decides (forallb id) os r.
Proof.
  intros lower vs os H. cbn [apply_n]. unfold op_and. destruct (booleans_ok vs os H) as (b & ->). cbn [rbind]. eexists. split; [reflexivity|].
  rewrite (and_eq vs os (Some true) H ltac:(discriminate)). pose proof (n_all os) as Hn.
  destruct (Nat.ltb_spec 0 (n_false os)) as [Hf|Hf]; [|destruct (Nat.ltb_spec 0 (n_null os)) as [Hu|Hu]]; cbn [decides].
  - intros bs Hb. apply fills_range in Hb. rewrite all_true. apply Nat.eqb_neq. lia.
  - split.
    + destruct (fills_any os (n_true os + n_null os)) as (bs & Hb & E); [lia|]. exists bs. split; [exact Hb|]. apply fills_range in Hb. rewrite all_true. apply Nat.eqb_eq. lia.
    + destruct (fills_any os (n_true os)) as (bs & Hb & E); [lia|]. exists bs. split; [exact Hb|]. apply fills_range in Hb. rewrite all_true. apply Nat.eqb_neq. lia.
  - intros bs Hb. apply fills_range in Hb. rewrite all_true. apply Nat.eqb_eq. lia.
Qed.
Theorem or_decides : forall lower vs os, Forall2 operand vs os -> exists r, apply_n lower NOr vs = Ok (BooleanValue r) /\ decides (existsb id) os r.
Proof.
  intros lower vs os H. cbn [apply_n]. unfold op_or. destruct (booleans_ok vs os H) as (b & ->). cbn [rbind]. eexists. split; [reflexivity|].
  rewrite (or_eq vs os (Some false) H ltac:(discriminate)).
  destruct (Nat.ltb_spec 0 (n_true os)) as [Hf|Hf]; [|destruct (Nat.ltb_spec 0 (n_null os)) as [Hu|Hu]]; cbn [decides].
  - intros bs Hb. apply fills_range in Hb. rewrite some_true. apply Nat.ltb_lt. lia.
  - split.
    + destruct (fills_any os (n_true os + n_null os)) as (bs & Hb & E); [lia|]. exists bs. split; [exact Hb|]. rewrite some_true. apply Nat.ltb_lt. lia.
    + destruct (fills_any os (n_true os)) as (bs & Hb & E); [lia|]. exists bs. split; [exact Hb|]. rewrite some_true. apply Nat.ltb_ge. lia.
  - intros bs Hb. apply fills_range in Hb. rewrite some_true. apply Nat.ltb_ge. lia.
Qed.
Theorem not_exact : forall v o, operand v o -> op_not v = Ok (BooleanValue (option_map negb o)).
Proof.
  intros [c b p] o (Hc & Hb & Hv). cbn [vcard vbase vval] in *. subst p. unfold op_not, check_base_types, check_cardinalities. cbn [vcard vbase vval].
  destruct Hc as [->|(-> & ->)]; destruct Hb as [->|(-> & Ho)]; try rewrite Ho; try destruct o; reflexivity.
Qed.
Theorem anyn_decides_partial : forall lower mn mx vs os, mn <= mx -> Forall2 operand vs os ->
  exists r, apply_n lower (NAnyN (Some mn) (Some mx)) vs = Ok (BooleanValue r) /\ decides (between mn mx) os r.
Proof.
  intros lower mn mx vs os Hle H. cbn [apply_n]. unfold op_anyn. destruct (booleans_ok vs os H) as (b & ->). cbn [rbind]. destruct (truths_eq vs os H) as (-> & ->).
  assert (Hb : forall bs, between mn mx bs = true <-> mn <= Z.of_nat (n_t bs) <= mx).
  { intros bs. unfold between, count_true, n_t. rewrite andb_true_iff, !Z.leb_le. tauto. }
  assert (Hb' : forall bs, between mn mx bs = false <-> ~ mn <= Z.of_nat (n_t bs) <= mx).
  { intros bs. rewrite <- Hb. destruct (between mn mx bs); split; congruence. }
  destruct (Z.leb_spec mn (Z.of_nat (n_true os))) as [H1|H1].
  - destruct (Z.ltb_spec mx (Z.of_nat (n_true os))) as [H2|H2].
    { eexists. split; [reflexivity|]. intros bs Hf. apply fills_range in Hf. apply Hb'. lia. }
    destruct (Z.ltb_spec mx (Z.of_nat (n_true os) + Z.of_nat (n_null os))) as [H3|H3].
    { eexists. split; [reflexivity|]. split.
      - destruct (fills_any os (n_true os)) as (bs & Hf & E); [lia|]. exists bs. split; [exact Hf|]. apply Hb. lia.
      - destruct (fills_any os (n_true os + n_null os)) as (bs & Hf & E); [lia|]. exists bs. split; [exact Hf|]. apply Hb'. lia. }
    eexists. split; [reflexivity|]. intros bs Hf. apply fills_range in Hf. apply Hb. lia.
  - destruct (Z.leb_spec mn (Z.of_nat (n_true os) + Z.of_nat (n_null os))) as [H2|H2].
    { eexists. split; [reflexivity|]. split.
      - destruct (fills_any os (Z.to_nat mn)) as (bs & Hf & E); [lia|]. exists bs. split; [exact Hf|]. apply Hb. lia.
      - destruct (fills_any os (n_true os)) as (bs & Hf & E); [lia|]. exists bs. split; [exact Hf|]. apply Hb'. lia. }
    eexists. split; [reflexivity|]. intros bs Hf. apply fills_range in Hf. apply Hb'. lia.
Qed.
(** no number of true sub-expressions will do, but the result is NULL; and a bound that is NULL gives a TypeError *)
Theorem anyn_refuted : op_anyn (Some 2) (Some 1) [null; null] = Ok (BooleanValue None) /\ decides (between 2 1) [None; None] (Some false) /\
  forall mx, op_anyn None mx [null] = Err TypeError.
Proof.
  split; [reflexivity|]. split; [|reflexivity]. intros bs H. unfold between. destruct (Z.leb_spec 2 (count_true bs)); [|reflexivity].
  destruct (Z.leb_spec (count_true bs) 1); [lia|reflexivity].
Qed.
(** anything else than truth values is refused *)
Theorem booleans_only : forall vs v, In v vs -> (exists b, vbase v = Some b /\ b <> Boolean) \/ (exists c, vcard v = Some c /\ c <> Single) ->
  op_and vs = Err ProcessingError /\ op_or vs = Err ProcessingError /\ (forall mn mx, op_anyn mn mx vs = Err ProcessingError) /\ op_not v = Err ProcessingError.
Proof.
  assert (Hlist : forall vs v, In v vs -> (exists b, vbase v = Some b /\ b <> Boolean) \/ (exists c, vcard v = Some c /\ c <> Single) -> check_booleans vs = Err ProcessingError).
  { intros vs v Hin H. unfold check_booleans. destruct (check_cardinalities (Some Single :: map vcard vs)) as [c|e] eqn:Ec; cbn [rbind].
    - apply card_from in Ec. destruct Ec as (_ & Hc & _). rewrite (Hc Single (or_introl eq_refl)) in Hc.
      destruct (check_base_types (Some Boolean :: map vbase vs)) as [b|e] eqn:Eb.
      + apply base_from in Eb. destruct Eb as (_ & Hb & _). rewrite (Hb Boolean (or_introl eq_refl)) in Hb. exfalso. destruct H as [(x & Hx & Hne)|(x & Hx & Hne)].
        * assert (E : Some Boolean = Some x) by (apply Hb; right; apply in_map_iff; eauto). congruence.
        * assert (E : Some Single = Some x) by (apply Hc; right; apply in_map_iff; eauto). congruence.
      + apply base_err in Eb. congruence.
    - apply card_err in Ec. congruence. }
  intros vs v Hin H. unfold op_and, op_or, op_anyn. rewrite (Hlist vs v Hin H). repeat split.
  unfold op_not. destruct (check_base_types [vbase v; Some Boolean]) as [b|e] eqn:Eb; cbn [rbind]; [|apply base_err in Eb; congruence].
  destruct (check_cardinalities [vcard v; Some Single]) as [c|e] eqn:Ec; cbn [rbind]; [|apply card_err in Ec; congruence].
  apply base_from in Eb. destruct Eb as (_ & Hb & _). apply card_from in Ec. destruct Ec as (_ & Hc & _). exfalso.
  rewrite (Hb Boolean (or_intror (or_introl eq_refl))) in Hb. rewrite (Hc Single (or_intror (or_introl eq_refl))) in Hc. destruct H as [(x & Hx & Hne)|(x & Hx & Hne)].
  - assert (E : Some Boolean = Some x) by (apply Hb; left; exact Hx). congruence.
  - assert (E : Some Single = Some x) by (apply Hc; left; exact Hx). congruence.
Qed.
Example ex_and : op_and [vb true; null; vb true] = Ok (BooleanValue None) /\ op_and [null; vb false] = Ok (BooleanValue (Some false)) /\
  Forall2 operand [vb true; null; vb true] [Some true; None; Some true].
Proof.
  split; [reflexivity|]. split; [reflexivity|]. constructor; [|constructor; [|constructor; [|constructor]]]; (split; [|split; [|reflexivity]]); auto; left; reflexivity.
Qed.

(** ** C124: containers *)
Lemma collect_ok : forall ord l b b' r, collect ord b l = Ok (b', r) -> Forall well_formed l ->
  r = concat (map members l) /\ (forall x, b = Some x -> b' = Some x) /\ (forall v, In v l -> vbase v <> None -> b' = vbase v).
Proof.
  intros ord l. induction l as [|v l IH]; intros b b' r H Hwf; cbn [collect] in H.
  - injection H as <- <-. split; [reflexivity|]. split; [tauto|intros v []].
  - inversion Hwf as [|? ? Hv Hwf']; subst. cbn [map concat]. destruct (vbase v) as [bv|] eqn:Ebv.
    + apply bind_ok in H. destruct H as (b1 & Hb1 & H).
      assert (Hb1' : b1 = Some bv /\ forall x, b = Some x -> b1 = Some x).
      { destruct b as [y|]; [destruct (base_dec y bv) as [->|]; [injection Hb1 as <-; split; [reflexivity|tauto]|discriminate]|]. injection Hb1 as <-. split; [reflexivity|discriminate]. }
      destruct Hb1' as (-> & Hbb).
      assert (Hrest : forall r', collect ord (Some bv) l = Ok (b', r') -> r' = concat (map members l) /\ (forall x, b = Some x -> b' = Some x) /\ (forall w, In w (v :: l) -> vbase w <> None -> b' = vbase w)).
      { intros r' Hr. apply IH in Hr; [|exact Hwf']. destruct Hr as (H1 & H2 & H3). split; [exact H1|]. split.
        - intros x Hx. apply H2. symmetry. apply Hbb in Hx. congruence.
        - intros w [<-|Hw] Hn; [rewrite Ebv; apply H2; reflexivity|apply H3; assumption]. }
      destruct (vval v) as [p|] eqn:Ep.
      * apply bind_ok in H. destruct H as (x & Hx & H). apply bind_ok in H. destruct H as ((b2, r2) & Hr & H). injection H as <- <-.
        destruct (Hrest r2 Hr) as (-> & H2). split; [|exact H2]. f_equal. unfold members. rewrite Ep.
        destruct (vcard v) as [[]|]; destruct p; try discriminate; destruct ord; try discriminate; injection Hx as <-; reflexivity.
      * destruct (Hrest r H) as (-> & H2). split; [|exact H2]. unfold members at 2. rewrite Ep. reflexivity.
    + apply IH in H; [|exact Hwf']. destruct H as (H1 & H2 & H3). split; [|split; [exact H2|]].
      * rewrite H1. unfold members at 2. unfold well_formed in Hv. destruct (vval v) as [[d|l'|m|n]|]; try reflexivity.
        -- destruct Hv as (_ & b0 & E & _). congruence.
        -- destruct Hv as (_ & _ & b0 & E & _). congruence.
        -- destruct Hv as (_ & _ & _ & _ & b0 & E & _). congruence.
      * intros w [<-|Hw] Hn; [contradiction|apply H3; assumption].
Qed.
Lemma collect_typed : forall ord l b b' r, collect ord b l = Ok (b', r) -> Forall well_formed l -> forall x, In x r -> exists y, b' = Some y /\ typed y x.
Proof.
  intros ord l b b' r H Hwf x Hx. destruct (collect_ok ord l b b' r H Hwf) as (-> & _ & Hb). apply in_concat in Hx. destruct Hx as (ms & Hms & Hx).
  apply in_map_iff in Hms. destruct Hms as (v & <- & Hv). rewrite Forall_forall in Hwf. destruct (members_typed v x (Hwf v Hv) Hx) as (y & Hy & Ht).
  exists y. split; [|exact Ht]. rewrite <- Hy. apply Hb; [exact Hv|congruence].
Qed.
(** multiple: every member of the sub-expressions as many times as it is there *)
Theorem multiple_members : forall vs r, Forall well_formed vs -> op_multiple vs = Ok r ->
  well_formed r /\ vcard r = Some Multiple /\ (forall v, In v vs -> vbase v <> None -> vbase r = vbase v) /\
  forall d, times d (members r) = times d (concat (map members vs)).
Proof.
  intros vs r Hwf H. unfold op_multiple in H. apply bind_ok in H. destruct H as ((b, l) & Hc & H). pose proof (collect_typed _ _ _ _ _ Hc Hwf) as Ht.
  destruct (collect_ok _ _ _ _ _ Hc Hwf) as (-> & _ & Hb). destruct (multiple_spec _ _ _ H Ht) as (H1 & H2 & H3 & H4).
  split; [exact H1|]. split; [exact H2|]. split; [|exact H4]. intros v Hv Hn. rewrite H3. apply Hb; assumption.
Qed.
Theorem ordered_members : forall vs r, Forall well_formed vs -> op_ordered vs = Ok r ->
  well_formed r /\ vcard r = Some Ordered /\ (forall v, In v vs -> vbase v <> None -> vbase r = vbase v) /\ members r = concat (map members vs).
Proof.
  intros vs r Hwf H. unfold op_ordered in H. apply bind_ok in H. destruct H as ((b, l) & Hc & H). pose proof (collect_typed _ _ _ _ _ Hc Hwf) as Ht.
  destruct (collect_ok _ _ _ _ _ Hc Hwf) as (-> & _ & Hb). destruct (ordered_spec _ _ _ H Ht) as (H1 & H2 & H3 & H4).
  split; [exact H1|]. split; [exact H2|]. split; [|exact H4]. intros v Hv Hn. rewrite H3. apply Hb; assumption.
Qed.
(** they are made of values of one type, of files none and of integers those in the range *)
Lemma collect_total : forall (ord : bool) b vs b0, goes_with b0 b -> Forall well_formed vs ->
  Forall (fun v => goes_with (vbase v) b /\ (is_null v \/ vcard v = Some Single \/ vcard v = Some (if ord then Ordered else Multiple))) vs ->
  exists b' r, collect ord b0 vs = Ok (b', r) /\ goes_with b' b.
Proof.
  intros ord b vs. induction vs as [|v vs IH]; intros b0 Hb0 Hwf H; cbn [collect]; [eauto|]. inversion Hwf as [|? ? Hw Hwf']; subst. inversion H as [|? ? (Hb & Hc) H']; subst.
  destruct Hb as [->|Hb]; [apply IH; assumption|]. rewrite Hb.
  assert (E : match b0 with None => Ok (Some b) | Some b' => if base_dec b' b then Ok b0 else Err ProcessingError end = Ok (Some b)).
  { destruct Hb0 as [->| ->]; [reflexivity|]. destruct (base_dec b b); congruence. }
  rewrite E. cbn [rbind]. destruct (IH (Some b) (or_intror eq_refl) Hwf' H') as (b' & r & Hr & Hg). unfold well_formed in Hw. destruct (vval v) as [p|] eqn:Ep.
  - unfold is_null in Hc. rewrite Ep in Hc. destruct p as [d|l|m|n]; destruct Hw as (Hcw & Hw); rewrite Hcw in *.
    + cbn [rbind]. rewrite Hr. cbn [rbind]. eauto.
    + destruct ord; [cbn [rbind]; rewrite Hr; cbn [rbind]; eauto|destruct Hc as [Hc|[Hc|Hc]]; discriminate].
    + destruct ord; [destruct Hc as [Hc|[Hc|Hc]]; discriminate|cbn [rbind]; rewrite Hr; cbn [rbind]; eauto].
    + congruence.
  - rewrite Hr. eauto.
Qed.
Lemma renew_total : forall b l, b <> File -> (b = Integer -> Forall (fun d => match d with DInt z => in_range z = true | _ => True end) l) ->
  Forall (typed b) l -> exists r, renew_all (Some b) l = Ok r.
Proof.
  intros b l Hb Hr Ht. induction l as [|d l IH]; cbn [renew_all]; [eauto|]. inversion Ht as [|? ? Hd Ht']; subst.
  assert (E : renew (Some b) d = Ok d).
  { destruct b; try reflexivity; try congruence. destruct d; try reflexivity. cbn [renew]. specialize (Hr eq_refl). inversion Hr as [|? ? Hz _]; subst. rewrite Hz. reflexivity. }
  rewrite E. cbn [rbind]. destruct IH as (r & ->); [intros E'; specialize (Hr E'); inversion Hr; assumption|exact Ht'|]. cbn [rbind]. eauto.
Qed.
Theorem containers_total : forall (ord : bool) b vs, b <> File -> Forall well_formed vs ->
  Forall (fun v => goes_with (vbase v) b /\ (is_null v \/ vcard v = Some Single \/ vcard v = Some (if ord then Ordered else Multiple))) vs ->
  (b = Integer -> Forall (fun d => match d with DInt z => in_range z = true | _ => True end) (concat (map members vs))) ->
  exists r, (if ord then op_ordered vs else op_multiple vs) = Ok r.
Proof.
  intros ord b vs Hf Hwf H Hr. destruct (collect_total ord b vs None (or_introl eq_refl) Hwf H) as (b' & r & Hc & Hg).
  destruct (collect_ok _ _ _ _ _ Hc Hwf) as (E & _ & _). pose proof (collect_typed _ _ _ _ _ Hc Hwf) as Ht.
  assert (Hrenew : exists r', renew_all b' r = Ok r').
  { destruct Hg as [->| ->].
    - destruct r as [|x r]; [cbn; eauto|]. destruct (Ht x (or_introl eq_refl)) as (y & Hy & _). discriminate.
    - apply renew_total; [exact Hf|rewrite E; exact Hr|]. apply Forall_forall. intros x Hx. apply Ht in Hx. destruct Hx as (y & [= <-] & Hx). exact Hx. }
  destruct Hrenew as (r' & Hr'). destruct ord; unfold op_ordered, op_multiple; rewrite Hc; cbn [rbind]; [unfold ordered_of|unfold multiple_of]; rewrite Hr'; cbn [rbind]; eauto.
Qed.
(** values of different types are refused, but a record is passed over *)
Theorem mixed_refused : forall (ord : bool) vs v w b b', Forall well_formed vs -> In v vs -> In w vs -> vbase v = Some b -> vbase w = Some b' -> b <> b' ->
  exists e, (if ord then op_ordered vs else op_multiple vs) = Err e.
Proof.
  intros ord vs v w b b' Hwf Hv Hw Hb Hb' Hne. assert (H : exists e, collect ord None vs = Err e).
  { destruct (collect ord None vs) as [(c, r)|e] eqn:E; [|eauto]. exfalso. destruct (collect_ok _ _ _ _ _ E Hwf) as (_ & _ & H).
    pose proof (H v Hv ltac:(congruence)) as H1. pose proof (H w Hw ltac:(congruence)) as H2. congruence. }
  destruct H as (e & H). exists e. destruct ord; unfold op_ordered, op_multiple; rewrite H; reflexivity.
Qed.
Theorem record_refuted : op_multiple [V (Some Record_) None (Some (PR 0)); vi 1] = op_multiple [vi 1].
Proof. reflexivity. Qed.

Theorem size_exact : forall v, well_formed v -> vcard v = Some Ordered \/ vcard v = Some Multiple ->
  op_size v = IntegerValue (Some (Z.of_nat (length (members v)))).
Proof.
  intros v Hwf Hc. unfold op_size, members, well_formed in *. destruct (vval v) as [[d|l|m|n]|]; destruct Hc as [Hc|Hc]; rewrite Hc in *; try reflexivity;
    destruct Hwf as (Hx & Hwf); try discriminate. f_equal. f_equal. clear.
  assert (H : forall s, fold_left (fun s '(_, n) => s + Z.of_nat n) m s = s + Z.of_nat (length (dict_values m))).
  { unfold dict_values. induction m as [|[k n] m IH]; intros s; cbn [fold_left flat_map length]; [lia|]. rewrite IH, app_length, repeat_length. lia. }
  apply H.
Qed.
Theorem index_exact : forall n v r, well_formed v -> op_index n v = Ok r ->
  vcard r = Some Single /\ vbase r = vbase v /\ vcard v = Some Ordered /\ (is_null v \/ 1 <= n) /\
  members r = match nth_error (members v) (Z.to_nat (n - 1)) with Some d => [d] | None => [] end.
Proof.
  intros n v r Hwf H. unfold op_index in H. destruct (vcard v) as [[]|] eqn:Ec; try discriminate. apply bind_ok in H. destruct H as (f & Hf & H).
  assert (Ef : f = V (Some Single) (vbase v) None) by (unfold fresh in Hf; destruct (vbase v) as [[]|]; congruence). subst f.
  unfold well_formed, members, is_null in *. destruct (vval v) as [[d|l|m|x]|]; try (destruct Hwf as (Hx & _); congruence).
  - destruct (Z.ltb_spec n 1); [discriminate|]. destruct (nth_error l (Z.to_nat (n - 1))) as [d|].
    + apply bind_ok in H. destruct H as (d' & Hd & H). injection H as <-. cbn [vcard vbase vval]. split; [reflexivity|]. split; [reflexivity|]. split; [reflexivity|]. split; [right; assumption|].
      assert (Hr : renew_all (vbase v) [d] = Ok [d']) by (cbn [renew_all]; rewrite Hd; reflexivity). apply renew_all_ok in Hr. destruct Hr as (Hr & _). congruence.
    + injection H as <-. cbn [vcard vbase vval]. split; [reflexivity|]. split; [reflexivity|]. split; [reflexivity|]. split; [right; assumption|reflexivity].
  - injection H as <-. cbn [vcard vbase vval]. split; [reflexivity|]. split; [reflexivity|]. split; [reflexivity|]. split; [left; reflexivity|]. destruct (Z.to_nat (n - 1)); reflexivity.
Qed.

Lemma existsb_in : forall d l, existsb (dat_eqb d) l = true <-> In d l.
Proof.
  intros d l. rewrite existsb_exists. split; [intros (x & Hx & E); apply dat_eqb_eq in E; subst x; exact Hx|intros H; exists d; split; [exact H|apply dat_eqb_refl]].
Qed.
Lemma in_keys : forall m d, Forall (fun e => (0 < snd e)%nat) m -> In d (map fst m) <-> In d (dict_values m).
Proof.
  intros m d Hp. split; [|apply in_values]. intros H. apply in_map_iff in H. destruct H as ([k n] & <- & Hin). unfold dict_values. apply in_flat_map. exists (k, n). split; [exact Hin|].
  rewrite Forall_forall in Hp. apply Hp in Hin. cbn in *. destruct n as [|n]; [lia|left; reflexivity].
Qed.
Theorem member_exact : forall v w d r, well_formed w -> members v = [d] -> vcard v = Some Single -> ~ is_null w -> op_member v w = Ok r ->
  exists b, r = BooleanValue b /\ (vbase v = None \/ vbase w = None \/ vbase v = vbase w) /\ (vbase v <> None -> vbase w <> None -> exists x, b = Some x /\ (x = true <-> In d (members w))).
Proof.
  intros v w d r Hw Hm Hc Hn H. unfold op_member in H. destruct (vbase v) as [bv|] eqn:Ev.
  2:{ injection H as <-. exists None. split; [reflexivity|]. split; [left; reflexivity|congruence]. }
  destruct (vbase w) as [bw|] eqn:Ew.
  2:{ injection H as <-. exists None. split; [reflexivity|]. split; [right; left; reflexivity|congruence]. }
  destruct (base_dec bv bw) as [->|]; [|discriminate]. destruct (base_dec bw Duration); [discriminate|].
  unfold members in *. unfold is_null in Hn. unfold well_formed in Hw. rewrite Hc in H. destruct (vval v) as [[d'|l|m|n']|]; try discriminate.
  - injection Hm as ->. destruct (vval w) as [[dd|l|m|n'']|]; try congruence; destruct (vcard w) as [[]|]; try discriminate; injection H as <-.
    + eexists. split; [reflexivity|]. split; [right; right; reflexivity|]. intros _ _. eexists. split; [reflexivity|]. apply existsb_in.
    + destruct Hw as (_ & _ & Hnd & Hp & _). eexists. split; [reflexivity|]. split; [right; right; reflexivity|]. intros _ _. eexists. split; [reflexivity|]. rewrite <- (in_keys m d Hp).
      pose proof (dict_get_none m d) as Hg. destruct (dict_get m d) as [k|] eqn:E.
      * split; [|reflexivity]. intros _. apply dict_get_in in E. apply in_map_iff. exists (d, k). split; [reflexivity|exact E].
      * split; [discriminate|]. intros Hin. exfalso. apply Hg in Hin; [exact Hin|reflexivity].
  - destruct (vval w); [discriminate|]. congruence.
  - destruct (vval w); [discriminate|]. congruence.
Qed.
Lemma times_filter : forall d x l, times d (filter (fun y => negb (dat_eqb x y)) l) = if dat_dec d x then O else times d l.
Proof.
  intros d x l. unfold times. induction l as [|y l IH]; cbn [filter count_occ]; [destruct (dat_dec d x); reflexivity|]. unfold dat_eqb at 1. destruct (dat_dec x y) as [->|Hxy]; cbn [negb].
  - rewrite IH. destruct (dat_dec d y) as [->|Hd]; [reflexivity|]. destruct (dat_dec y d); [congruence|reflexivity].
  - cbn [count_occ]. rewrite IH. destruct (dat_dec y d) as [->|Hy]; [|reflexivity]. destruct (dat_dec d x); [congruence|reflexivity].
Qed.
(** delete: all of the container but the value *)
Theorem delete_exact : forall v w d r, well_formed v -> well_formed w -> members v = [d] -> vcard v = Some Single -> ~ is_null w -> vbase w <> None -> op_delete v w = Ok r ->
  well_formed r /\ vcard r = vcard w /\ vbase r = vbase w /\ (vcard w = Some Ordered -> members r = filter (fun x => negb (dat_eqb d x)) (members w)) /\
  forall x, times x (members r) = if dat_dec x d then O else times x (members w).
Proof.
  intros [cv bv pv] [cw bw pw] d r Hv Hw Hm Hc Hn Hbw H. pose proof (members_typed (V cw bw pw)) as Hty. unfold op_delete, is_null, well_formed, members in *. cbn [vcard vbase vval] in *. subst cv.
  destruct bw as [bw|]; [|congruence]. destruct pv as [[d'|l|m|nn]|]; try discriminate; try (destruct Hv as (E & _); discriminate).
  injection Hm as ->. destruct Hv as (_ & b & -> & Htd). destruct (base_dec b bw) as [->|]; [|discriminate]. destruct (base_dec bw Duration); [discriminate|].
  assert (Hsize : forall y, In y (filter (fun z => negb (dat_eqb d z)) (match pw with Some (PL l) => l | Some (PM m) => dict_values m | _ => [] end)) -> exists b, Some bw = Some b /\ typed b y).
  { intros y Hy. apply filter_In in Hy. destruct Hy as (Hy & _). destruct (Hty y Hw) as (b & Hb & Ht); [destruct pw as [[]|]; try exact Hy; destruct Hy|]. exists b. split; [congruence|exact Ht]. }
  destruct pw as [[dd|l|m|nn]|]; [..|congruence].
  - destruct Hw as (-> & _). discriminate.
  - destruct Hw as (-> & _). destruct (ordered_spec _ _ _ H Hsize) as (H1 & H2 & H3 & H4). split; [exact H1|]. split; [exact H2|]. split; [exact H3|]. unfold members in H4. split; [intros _; exact H4|].
    intros x. rewrite H4. apply times_filter.
  - destruct Hw as (-> & _). destruct (multiple_spec _ _ _ H Hsize) as (H1 & H2 & H3 & H4). split; [exact H1|]. split; [exact H2|]. split; [exact H3|]. split; [discriminate|].
    intros x. unfold members in H4. rewrite H4. apply times_filter.
  - destruct Hw as (_ & Hw). discriminate.
Qed.
Print Assumptions and_decides.
Print Assumptions or_decides.
Print Assumptions not_exact.
Print Assumptions anyn_decides_partial.
Print Assumptions anyn_refuted.
Print Assumptions booleans_only.
Print Assumptions multiple_members.
Print Assumptions ordered_members.
Print Assumptions containers_total.
Print Assumptions mixed_refused.
Print Assumptions record_refuted.
Print Assumptions size_exact.
Print Assumptions index_exact.
Print Assumptions member_exact.
Print Assumptions delete_exact.
