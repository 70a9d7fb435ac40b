(* The grammar is unambiguous, and how the printed tree is read *)
From Coq Require Import List Bool Arith String Ascii Lia.
From Verif Require Import SxModel SxSpec SxPrint SxScan.
Import ListNotations.
Local Open Scope string_scope.

Section Read.
Context {P : Type}.
Variable D : dialect.
Notation T := standard.
Notation tree := (tree P).
Notation tok := (tok P).
Notation reads := (reads (P := P) D).

(* --- a deterministic parser --- *)
Inductive pe : nat -> list tok -> tree -> list tok -> Prop :=
| pe_intro l ts a mid t rest : pp ts a mid -> pl l a mid t rest -> pe l ts t rest
with pp : list tok -> tree -> list tok -> Prop :=
| pp_val p ts : pp (TVal p :: ts) (TrVal p) ts
| pp_col t c ts : pp (TId t :: TSym "." :: TId c :: ts) (TrCol t c) ts
| pp_str s ts : pp (TStr s :: ts) (TrStr s) ts
| pp_paren ts t rest : pe 0 ts t (TSym ")" :: rest) -> pp (TSym "(" :: ts) t rest
| pp_fun f ts a rest : special f = false -> pe 0 ts a (TSym ")" :: rest) ->
    pp (TWord f :: TSym "(" :: ts) (TrFun f a) rest
| pp_pos ts a mid b rest : pe 0 ts a (TWord "IN" :: mid) -> pe 0 mid b (TSym ")" :: rest) ->
    pp (TWord "POSITION" :: TSym "(" :: ts) (TrPos a b) rest
| pp_part f ts a rest : pe 0 ts a (TSym ")" :: rest) ->
    pp (TWord "EXTRACT" :: TSym "(" :: TWord f :: TWord "FROM" :: ts) (TrPart f a) rest
| pp_strf f ts a rest : pe 0 ts a (TSym ")" :: TWord "AS" :: TWord "INTEGER" :: TSym ")" :: rest) ->
    pp (TWord "CAST" :: TSym "(" :: TWord "strftime" :: TSym "(" :: TStr f :: TSym "," :: ts) (TrStrf f a) rest
with pl : nat -> tree -> list tok -> tree -> list tok -> Prop :=
| pl_stop l a ts : (forall o r, ts = gtok o :: r -> D o < l) -> pl l a ts a ts
| pl_go l a o ts b mid t rest : l <= D o -> pe (S (D o)) ts b mid -> pl l (TrBin o a b) mid t rest ->
    pl l a (gtok o :: ts) t rest.

Scheme pe_m := Minimality for pe Sort Prop
with pp_m := Minimality for pp Sort Prop
with pl_m := Minimality for pl Sort Prop.
Combined Scheme parse_ind from pe_m, pp_m, pl_m.

Lemma gtok_inj o o' : gtok (P := P) o = gtok o' -> o = o'.
Proof using Type. destruct o, o'; intros H; try reflexivity; discriminate H. Qed.

Lemma parse_det :
  (forall l ts t rest, pe l ts t rest -> forall t' rest', pe l ts t' rest' -> t = t' /\ rest = rest') /\
  (forall ts t rest, pp ts t rest -> forall t' rest', pp ts t' rest' -> t = t' /\ rest = rest') /\
  (forall l a ts t rest, pl l a ts t rest -> forall t' rest', pl l a ts t' rest' -> t = t' /\ rest = rest').
Proof using Type.
  apply parse_ind.
  - intros l ts a mid t rest _ IH1 _ IH2 t' rest' H. inversion H as [? ? a' mid' ? ? H1 H2]; subst.
    destruct (IH1 _ _ H1) as [<- <-]. exact (IH2 _ _ H2).
  - intros p ts t' rest' H. inversion H; subst; auto.
  - intros t c ts t' rest' H. inversion H; subst; auto.
  - intros s ts t' rest' H. inversion H; subst; auto.
  - intros ts t rest _ IH t' rest' H. inversion H as [| | |? ? ? H1| | | |]; subst.
    destruct (IH _ _ H1) as [-> E]. injection E as ->. auto.
  - intros f ts a rest Hf _ IH t' rest' H. inversion H; subst; try discriminate Hf.
    match goal with K : pe _ _ _ _ |- _ => destruct (IH _ _ K) as [-> E] end. injection E as ->. auto.
  - intros ts a mid b rest _ IH1 _ IH2 t' rest' H. inversion H; subst.
    + match goal with K : special _ = false |- _ => discriminate K end.
    + match goal with K : pe 0 ts _ _ |- _ => destruct (IH1 _ _ K) as [-> E]; injection E as -> end.
      match goal with K : pe 0 _ _ (_ :: rest') |- _ => destruct (IH2 _ _ K) as [-> E]; injection E as -> end. auto.
  - intros f ts a rest _ IH t' rest' H. inversion H; subst.
    + match goal with K : special _ = false |- _ => discriminate K end.
    + match goal with K : pe 0 ts _ _ |- _ => destruct (IH _ _ K) as [-> E]; injection E as -> end. auto.
  - intros f ts a rest _ IH t' rest' H. inversion H; subst.
    + match goal with K : special _ = false |- _ => discriminate K end.
    + match goal with K : pe 0 ts _ _ |- _ => destruct (IH _ _ K) as [-> E]; injection E as -> end. auto.
  - intros l a ts Hs t' rest' H. inversion H as [|? ? o ? ? ? ? ? L]; subst; auto.
    specialize (Hs o _ eq_refl). lia.
  - intros l a o ts b mid t rest L _ IH1 _ IH2 t' rest' H.
    inversion H as [? ? ? Hs|? ? o' ts' b' mid' ? ? L' H1 H2]; subst.
    + specialize (Hs o _ eq_refl). lia.
    + match goal with K : gtok _ = gtok _ |- _ => apply gtok_inj in K; subst end.
      destruct (IH1 _ _ H1) as [<- <-]. exact (IH2 _ _ H2).
Qed.

Definition stops (l : nat) (rest : list tok) : Prop := forall o r, rest = gtok o :: r -> D o <= l.
Lemma stops_sym l s r : (forall o, gtok (P := P) o <> s) -> stops l (s :: r).
Proof using Type. intros H o r' E. injection E as E _. now elim (H o). Qed.
Lemma pl_sym l a s r : (forall o, gtok (P := P) o <> s) -> pl l a (s :: r) a (s :: r).
Proof using Type. intros H. apply pl_stop. intros o r' E. injection E as E _. now elim (H o). Qed.
Ltac noop := let o := fresh in intros o; destruct o; discriminate.

Lemma reads_pe l ts t : reads l ts t -> forall l' rest, l' <= l -> stops l rest ->
  forall t2 r2, pl l' t rest t2 r2 -> pe l' (app ts rest) t2 r2.
Proof using Type.
  induction 1 as [l p|l t c|l s|l ts t H IH|l o ts1 ts2 a b L H1 IH1 H2 IH2|l f ts a Hf H IH
                 |l ts1 ts2 a b H1 IH1 H2 IH2|l f ts a H IH|l f ts a H IH];
    intros l' rest Ll St t2 r2 Hp.
  - apply pe_intro with (2 := Hp). cbn [app]. constructor.
  - apply pe_intro with (2 := Hp). cbn [app]. constructor.
  - apply pe_intro with (2 := Hp). cbn [app]. constructor.
  - apply pe_intro with (2 := Hp). cbn [app]. rewrite <- app_assoc. cbn [app]. constructor.
    apply IH; [lia|apply stops_sym; noop|apply pl_sym; noop].
  - rewrite <- app_assoc. cbn [app]. apply IH1; [lia| |].
    + intros o' r E. injection E as E _. apply gtok_inj in E. subst. lia.
    + apply pl_go with (b := b) (mid := rest); [lia| |exact Hp].
      apply IH2; [lia| |].
      * intros o' r E. specialize (St o' r E). lia.
      * apply pl_stop. intros o' r E. specialize (St o' r E). lia.
  - apply pe_intro with (2 := Hp). cbn [app]. rewrite <- app_assoc. cbn [app]. constructor; [exact Hf|].
    apply IH; [lia|apply stops_sym; noop|apply pl_sym; noop].
  - apply pe_intro with (2 := Hp). cbn [app]. rewrite <- app_assoc. cbn [app]. rewrite <- app_assoc. cbn [app].
    apply pp_pos with (mid := app ts2 (TSym ")" :: rest)).
    + apply IH1; [lia|apply stops_sym; noop|apply pl_sym; noop].
    + apply IH2; [lia|apply stops_sym; noop|apply pl_sym; noop].
  - apply pe_intro with (2 := Hp). cbn [app]. rewrite <- app_assoc. cbn [app]. constructor.
    apply IH; [lia|apply stops_sym; noop|apply pl_sym; noop].
  - apply pe_intro with (2 := Hp). cbn [app]. rewrite <- app_assoc. cbn [app]. constructor.
    apply IH; [lia|apply stops_sym; noop|apply pl_sym; noop].
Qed.

Theorem reads_unique ts t t' : reads 0 ts t -> reads 0 ts t' -> t = t'.
Proof using Type.
  intros H H'.
  assert (K : forall u, reads 0 ts u -> pe 0 ts u []).
  { intros u Hu. rewrite <- (app_nil_r ts). apply (reads_pe _ _ _ Hu); [lia|discriminate|].
    apply pl_stop. discriminate. }
  apply (proj1 parse_det _ _ _ _ (K _ H) _ _ (K _ H')).
Qed.

Lemma reads_weaken l l' ts t : l' <= l -> reads l ts t -> reads l' ts t.
Proof using Type.
  intros L H. destruct H; try (constructor; auto; fail).
  apply r_bin; auto; lia.
Qed.

(* --- how the printed tree is read --- *)
Definition attach (pre : option (gop * tree)) (t : tree) : tree :=
  match pre with None => t | Some (o, a) => TrBin o a t end.
Definition joins (pre : option (gop * tree)) (o : gop) : bool :=
  match pre with Some (o', _) => Nat.eqb (T o') (T o) | None => false end.
Fixpoint rg (pre : option (gop * tree)) (t : tree) : tree :=
  match t with
  | TrBin o a b =>
      if joins pre o then rg (Some (o, rg pre a)) b
      else attach pre (rg (Some (o, rg None a)) b)
  | TrFun f a => attach pre (TrFun f (rg None a))
  | TrPos a b => attach pre (TrPos (rg None a) (rg None b))
  | TrPart f a => attach pre (TrPart f (rg None a))
  | TrStrf f a => attach pre (TrStrf f (rg None a))
  | TrVal _ | TrCol _ _ | TrStr _ => attach pre t
  end.

Hypothesis finer : forall o o', T o < T o' -> D o < D o'.

(* the level at which t, printed in the context c, is read *)
Definition lev (t : tree) (c : nat) (l : nat) : Prop :=
  match t with TrBin o _ _ => T o < c \/ l <= D o | _ => True end.

Lemma reads_op l o A ta B tb : l <= D o -> reads (D o) A ta -> reads (S (D o)) B tb ->
  reads l (app A (gtok o :: B)) (TrBin o ta tb).
Proof using Type. clear finer. intros. now apply r_bin. Qed.

Lemma reads_printed t : wf t -> unmixed D t ->
  (forall c l, lev t c l -> reads l (ptoks t c) (rg None t)) /\
  (forall o A ta, same_in D o t -> reads (D o) A ta ->
     reads (D o) (app A (gtok o :: ptoks t (T o))) (rg (Some (o, ta)) t)).
Proof using finer.
  unfold unmixed.
  induction t as [p|t c|s|o a IHa b IHb|f a IH|a IHa b IHb|f a IH|f a IH];
    intros W U; cbn [wf every ptoks rg attach] in *.
  - split; [intros; constructor|]. intros o A ta _ H. apply reads_op; [lia|exact H|constructor].
  - split; [intros; constructor|]. intros o A ta _ H. apply reads_op; [lia|exact H|constructor].
  - split; [intros; constructor|]. intros o A ta _ H. apply reads_op; [lia|exact H|constructor].
  - destruct W as [Wa Wb]. destruct U as ((Sa & Sb) & Ua & Ub).
    specialize (IHa Wa Ua). specialize (IHb Wb Ub).
    assert (Body : reads (D o) (app (ptoks a (T o)) (gtok o :: ptoks b (T o))) (rg (Some (o, rg None a)) b)).
    { apply (proj2 IHb); [exact Sb|]. apply (proj1 IHa).
      unfold lev, same_in in *. destruct a as [| | |o' a1 a2| | | |]; auto. cbn [top] in Sa.
      destruct (lt_eq_lt_dec (T o') (T o)) as [[Q|Q]|Q]; [left; exact Q|right; rewrite (Sa Q); lia|right].
      pose proof (finer _ _ Q). lia. }
    assert (One : forall c l, lev (TrBin o a b) c l ->
              reads l (tbrk (Nat.ltb (T o) c) (app (ptoks a (T o)) (gtok o :: ptoks b (T o)))) (rg (Some (o, rg None a)) b)).
    { intros c l Hl. unfold tbrk. destruct (Nat.ltb (T o) c) eqn:E.
      - constructor. apply (reads_weaken (D o)); [lia|exact Body].
      - apply Nat.ltb_ge in E. destruct Hl as [Hl|Hl]; [lia|]. apply (reads_weaken (D o)); auto. }
    split; [exact One|]. intros o' A ta Hs H. unfold joins. destruct (Nat.eqb (T o') (T o)) eqn:E.
    + apply Nat.eqb_eq in E. unfold same_in in Hs. cbn [top] in Hs. pose proof (Hs (eq_sym E)) as ED.
      unfold tbrk. replace (Nat.ltb (T o) (T o')) with false by (symmetry; apply Nat.ltb_ge; lia).
      replace (app A (gtok o' :: app (ptoks a (T o)) (gtok o :: ptoks b (T o))))
        with (app (app A (gtok o' :: ptoks a (T o'))) (gtok o :: ptoks b (T o))).
      2:{ rewrite <- app_assoc. cbn [app]. now rewrite E. }
      rewrite <- ED. apply (proj2 IHb); [exact Sb|]. rewrite ED. apply (proj2 IHa); [|exact H].
      unfold same_in in *. destruct (top a) as [x|]; auto. intros Q. rewrite <- ED. apply Sa. congruence.
    + apply Nat.eqb_neq in E. unfold attach. apply reads_op; [lia|exact H|]. apply One.
      unfold lev. destruct (Nat.lt_trichotomy (T o) (T o')) as [Q|[Q|Q]]; [left; exact Q|lia|right].
      apply finer in Q. lia.
  - destruct W as [(W1 & W2 & W3) W]. destruct (IH W U) as [IH1 _].
    assert (One : forall l, reads l (TWord f :: TSym "(" :: app (ptoks a 0) [TSym ")"]) (TrFun f (rg None a))).
    { intros l. constructor; [exact W3|]. apply IH1. unfold lev. destruct a; auto. right; lia. }
    split; [intros c l _; apply One|]. intros o A ta _ H. apply reads_op; [lia|exact H|apply One].
  - destruct W as [Wa Wb]. destruct U as [Ua Ub]. destruct (IHa Wa Ua) as [A1 _]. destruct (IHb Wb Ub) as [B1 _].
    assert (One : forall l, reads l (TWord "POSITION" :: TSym "(" :: app (ptoks a 0) (TWord "IN" :: app (ptoks b 0) [TSym ")"]))
                              (TrPos (rg None a) (rg None b))).
    { intros l. constructor; [apply A1|apply B1]; unfold lev; [destruct a|destruct b]; auto; right; lia. }
    split; [intros c l _; apply One|]. intros o A ta _ H. apply reads_op; [lia|exact H|apply One].
  - destruct W as [W1 W]. destruct (IH W U) as [IH1 _].
    assert (One : forall l, reads l (TWord "EXTRACT" :: TSym "(" :: TWord f :: TWord "FROM" :: app (ptoks a 0) [TSym ")"]) (TrPart f (rg None a))).
    { intros l. constructor. apply IH1. unfold lev. destruct a; auto. right; lia. }
    split; [intros c l _; apply One|]. intros o A ta _ H. apply reads_op; [lia|exact H|apply One].
  - destruct W as [W1 W]. destruct (IH W U) as [IH1 _].
    assert (One : forall l, reads l (TWord "CAST" :: TSym "(" :: TWord "strftime" :: TSym "(" :: TStr f :: TSym "," ::
                  app (ptoks a 0) [TSym ")"; TWord "AS"; TWord "INTEGER"; TSym ")"]) (TrStrf f (rg None a))).
    { intros l. constructor. apply IH1. unfold lev. destruct a; auto. right; lia. }
    split; [intros c l _; apply One|]. intros o A ta _ H. apply reads_op; [lia|exact H|apply One].
Qed.

(* --- the tree read and the tree printed --- *)
Lemma rg_leftish t : leftish t -> rg None t = t /\
  (forall o a, match top t with Some o' => T o' <> T o | None => True end -> rg (Some (o, a)) t = TrBin o a t).
Proof using Type.
  clear finer. unfold leftish.
  induction t as [p|t c|s|o a IHa b IHb|f a IH|a IHa b IHb|f a IH|f a IH]; intros L; cbn [every rg attach top joins] in *;
    try (split; intros; reflexivity).
  - destruct L as (Lb & La & Lb'). destruct (IHa La) as [A1 A2]. destruct (IHb Lb') as [B1 B2].
    assert (E : rg (Some (o, rg None a)) b = TrBin o a b). { rewrite A1. apply B2. exact Lb. }
    split; [exact E|]. intros o' x N. destruct (Nat.eqb (T o') (T o)) eqn:Q.
    + apply Nat.eqb_eq in Q. congruence.
    + rewrite E. reflexivity.
  - destruct (IH L) as [-> _]. split; intros; reflexivity.
  - destruct L as [La Lb]. destruct (IHa La) as [-> _]. destruct (IHb Lb) as [-> _]. split; intros; reflexivity.
  - destruct (IH L) as [-> _]. split; intros; reflexivity.
  - destruct (IH L) as [-> _]. split; intros; reflexivity.
Qed.

(* every rotation the reading makes is allowed by Q *)
Section Rot.
Variable Q : gop -> gop -> Prop.
Notation rot := (rotated (P := P) Q).
Notation spine := (follows (P := P) Q).
Definition okS : tree -> Prop := every (fun o _ b => spine o b).

Lemma rg_rotated t : okS t ->
  rot (rg None t) t /\
  (forall o a a', rot a a' -> spine o t -> rot (rg (Some (o, a)) t) (TrBin o a' t)).
Proof using Type.
  clear finer. unfold okS.
  induction t as [p|t c|s|o a IHa b IHb|f a IH|a IHa b IHb|f a IH|f a IH]; intros K; cbn [every rg attach joins follows] in *;
    try (split; [apply ro_refl|intros o1 x x' Hx _; apply ro_bin; [exact Hx|apply ro_refl]]).
  - destruct K as (Sb & Ka & Kb). destruct (IHa Ka) as [A1 A2]. destruct (IHb Kb) as [B1 B2].
    assert (E : rot (rg (Some (o, rg None a)) b) (TrBin o a b)) by (apply B2; [exact A1|exact Sb]).
    split; [exact E|]. intros o' x x' Hx Hs. destruct (Nat.eqb (T o') (T o)) eqn:Eq.
    + apply Nat.eqb_eq in Eq. destruct (Hs (eq_sym Eq)) as [HQ Hsa].
      apply ro_trans with (TrBin o (TrBin o' x' a) b).
      * apply B2; [|exact Sb]. apply A2; [exact Hx|exact Hsa].
      * apply ro_sym, ro_step, HQ.
    + apply ro_bin; [exact Hx|exact E].
  - destruct (IH K) as [R _]. split; [now apply ro_fun|]. intros o x x' Hx _. apply ro_bin; [exact Hx|now apply ro_fun].
  - destruct K as [Ka Kb]. destruct (IHa Ka) as [A1 _]. destruct (IHb Kb) as [B1 _].
    split; [now apply ro_pos|]. intros o x x' Hx _. apply ro_bin; [exact Hx|now apply ro_pos].
  - destruct (IH K) as [R _]. split; [now apply ro_part|]. intros o x x' Hx _. apply ro_bin; [exact Hx|now apply ro_part].
  - destruct (IH K) as [R _]. split; [now apply ro_strf|]. intros o x x' Hx _. apply ro_bin; [exact Hx|now apply ro_strf].
Qed.
End Rot.
End Read.
