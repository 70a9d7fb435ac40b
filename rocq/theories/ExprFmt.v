(** The formatter writes a text of the expression. *)
From Verif Require Import Py ExprModel ExprSpec ExprLex ExprParse.

(** decimal text *)
Lemma dec_digits_ok fuel : forall n acc, 0 <= n < 2 ^ Z.of_nat fuel -> (1 <= fuel)%nat ->
  exists s, dec_digits fuel n acc = s ++ acc /\ decimal s n /\
    (forall k, (1 <= k)%nat -> n < 10 ^ Z.of_nat k -> (length s <= k)%nat).
Proof.
  induction fuel as [|f IH]; intros n acc B F; [lia|]. cbn [dec_digits].
  assert (0 <= n mod 10 <= 9) as M by (pose proof (Z.mod_pos_bound n 10); lia).
  destruct (n <? 10) eqn:Q; b2p.
  - exists [48 + n mod 10]. split; [reflexivity|split].
    + rewrite Z.mod_small by lia. constructor. lia.
    + intros k K _. cbn. lia.
  - assert (0 <= n / 10) as D0 by (apply Z.div_pos; lia).
    assert (2 ^ Z.of_nat (S f) = 2 * 2 ^ Z.of_nat f) as P by (rewrite Nat2Z.inj_succ, Z.pow_succ_r; lia).
    destruct (IH (n / 10) ((48 + n mod 10) :: acc)) as (s & E1 & D & L).
    + split; auto. apply Z.div_lt_upper_bound; lia.
    + destruct f; [cbn in B; lia|lia].
    + exists (s ++ [48 + n mod 10]). split; [rewrite E1, <- app_assoc; reflexivity|split].
      * rewrite (Z.div_mod n 10) at 2 by lia. constructor; auto.
      * intros k K H. destruct k as [|k]; [lia|]. rewrite app_length. cbn [length].
        assert (10 ^ Z.of_nat (S k) = 10 * 10 ^ Z.of_nat k) as P' by (rewrite Nat2Z.inj_succ, Z.pow_succ_r; lia).
        destruct k as [|k]; [cbn in H; lia|].
        specialize (L (S k) ltac:(lia)). assert (n / 10 < 10 ^ Z.of_nat (S k)) by (apply Z.div_lt_upper_bound; lia).
        specialize (L ltac:(lia)). lia.
Qed.
Lemma str_of_int_ok z k : (1 <= k)%nat -> Z.abs z < 10 ^ Z.of_nat k -> signed k (str_of_int z) z.
Proof.
  intros K B. unfold str_of_int.
  destruct (dec_digits_ok (S (Z.to_nat (Z.log2 (Z.abs z)))) (Z.abs z) nil) as (s & -> & D & L); [|lia|].
  - rewrite Nat2Z.inj_succ, Z2Nat.id by apply Z.log2_nonneg. split; [lia|].
    destruct (Z.eq_dec (Z.abs z) 0) as [->|N]; [cbn; lia|]. apply Z.log2_spec. lia.
  - rewrite app_nil_r. specialize (L k K B).
    destruct (z <? 0) eqn:Q; b2p.
    + assert (z = - Z.abs z) as X by lia. rewrite X at 1. apply sg_neg; auto.
    + assert (z = Z.abs z) as X by lia. rewrite X at 1. apply sg_pos; auto.
Qed.
Lemma dquote_ok s : quoted (dquote s) s.
Proof.
  induction s as [|c s IH]; cbn; [constructor|].
  destruct (Z.eq_dec c 39) as [->|N]; [constructor; auto|].
  assert (forall X Y : str, match c with 39 => X | _ => Y end = Y) as Q.
  { intros. destruct c as [|p|p]; auto. do 6 (try (destruct p; auto)); congruence. }
  rewrite Q. constructor; auto.
Qed.
Lemma hexc_ok d : 0 <= d <= 15 -> hexdigit (hexc d) d.
Proof.
  intros H. unfold hexc. destruct (d <? 10) eqn:Q; b2p; constructor; lia.
Qed.
Lemma hex2_ok b : (forall x, In x b -> 0 <= x <= 255) -> hexbytes (flat_map hex2 b) b.
Proof.
  induction b as [|x b IH]; intros H; cbn [flat_map]; [constructor|].
  assert (0 <= x <= 255) as B by (apply H; cbn; auto).
  change (hex2 x ++ flat_map hex2 b) with (hexc (x / 16) :: hexc (x mod 16) :: flat_map hex2 b).
  rewrite (Z.div_mod x 16) at 3 by lia. constructor.
  - apply hexc_ok. split; [apply Z.div_pos; lia|]. assert (x / 16 < 16) by (apply Z.div_lt_upper_bound; lia). lia.
  - apply hexc_ok. pose proof (Z.mod_pos_bound x 16). lia.
  - apply IH. intros; apply H; cbn; auto.
Qed.
Lemma guid_ok h : length h = 32%nat -> (forall x, In x h -> 48 <= x <= 57 \/ 97 <= x <= 102) ->
  guid_text (slice 0 8 h ++ lit "-" ++ slice 8 12 h ++ lit "-" ++ slice 12 16 h
                   ++ lit "-" ++ slice 16 20 h ++ lit "-" ++ slice 20 32 h) h.
Proof.
  intros L H. exists (slice 0 8 h), (slice 8 12 h), (slice 12 16 h), (slice 16 20 h), (slice 20 32 h).
  split; [reflexivity|].
  do 33 (destruct h as [|?c h]; [try discriminate|]); [|discriminate].
  unfold slice. cbn [Nat.sub skipn firstn length app]. do 5 (split; [reflexivity|]). split.
  - intros x X. specialize (H x X). destruct H as [H|H]; [exists (x - 48)|exists (x - 87)].
    + replace x with (48 + (x - 48)) at 1 by lia. constructor. lia.
    + replace x with (87 + (x - 87)) at 1 by lia. constructor. lia.
  - symmetry. etransitivity; [|apply map_id]. apply map_ext_in. intros x X. specialize (H x X).
    unfold ascii_lower. destruct ((65 <=? x) && (x <=? 90)) eqn:Q; auto. b2p. lia.
Qed.

Section Fmt.
Variable E : env.
Hypothesis OK : env_ok E.

Lemma fmt_lit_ok l : literal_ok l -> exists s, fmt_lit E l = Ok s /\ literal_text E l s.
Proof.
  destruct l as [|b|z|z|s|b| |h|k n|k t]; cbn [literal_ok fmt_lit]; intros H; try contradiction.
  - eexists. split; [reflexivity|]. constructor.
    + apply (ident_word E OK); [|discriminate]. intros c C. right. cbn in C. intuition lia.
    + apply (lower_words E OK). intros c C. cbn in C. intuition lia.
  - eexists. split; [reflexivity|]. destruct b; constructor.
    1,3: apply (ident_word E OK); [|discriminate]; intros c C; right; cbn in C; intuition lia.
    all: apply (lower_words E OK); intros c C; cbn in C; intuition lia.
  - eexists. split; [reflexivity|]. constructor; auto. apply str_of_int_ok; [lia|]. cbn. lia.
  - eexists. split; [reflexivity|]. apply lt_int64; auto; [|cbn; auto]. apply str_of_int_ok; [lia|].
    change (10 ^ Z.of_nat 19) with 10000000000000000000. cbn [literal_ok] in *. lia.
  - eexists. split; [reflexivity|]. apply lt_str. apply dquote_ok.
  - eexists. split; [reflexivity|]. destruct H as (N & H). apply lt_bin; [apply hex2_ok; auto|].
    destruct b; [congruence|]. discriminate.
  - eexists. split; [reflexivity|]. destruct H as (L & H).
    replace (slice 0 8 h ++ lit "-" ++ slice 8 12 h ++ lit "-" ++ slice 12 16 h
                   ++ lit "-" ++ slice 16 20 h ++ lit "-" ++ slice 20 32 h ++ lit "'")
    with ((slice 0 8 h ++ lit "-" ++ slice 8 12 h ++ lit "-" ++ slice 12 16 h
                   ++ lit "-" ++ slice 16 20 h ++ lit "-" ++ slice 20 32 h) ++ lit "'") by (rewrite <- !app_assoc; reflexivity).
    apply lt_guid. apply guid_ok; auto.
Qed.

(** how tightly the text of an expression binds *)
Definition plevel (a : ast) : nat :=
  match a with Bin o _ _ => level o | Neg _ | Not _ => unary_level | _ => primary_level end.

Section Ind.
  Variable P : ast -> Prop.
  Hypothesis HLit : forall l, P (Lit l).
  Hypothesis HProp : forall n, P (Prop_ n).
  Hypothesis HNeg : forall a, P a -> P (Neg a).
  Hypothesis HNot : forall a, P a -> P (Not a).
  Hypothesis HBin : forall o a b, P a -> P b -> P (Bin o a b).
  Hypothesis HMem : forall a n, P a -> P (Member a n).
  Hypothesis HCast : forall a t, P a -> P (Cast a t).
  Hypothesis HIs : forall a t, P a -> P (IsOf a t).
  Hypothesis HCast1 : forall t, P (Cast1 t).
  Hypothesis HIs1 : forall t, P (IsOf1 t).
  Hypothesis HCall : forall m l, Forall P l -> P (Call m l).
  Fixpoint ast_rect' (a : ast) : P a :=
    match a with
    | Lit l => HLit l | Prop_ n => HProp n
    | Neg a => HNeg a (ast_rect' a) | Not a => HNot a (ast_rect' a)
    | Bin o a b => HBin o a b (ast_rect' a) (ast_rect' b)
    | Member a n => HMem a n (ast_rect' a)
    | Cast a t => HCast a t (ast_rect' a) | IsOf a t => HIs a t (ast_rect' a)
    | Cast1 t => HCast1 t | IsOf1 t => HIs1 t
    | Call m l => HCall m l ((fix go l : Forall P l :=
        match l with [] => Forall_nil P | a :: r => Forall_cons a (ast_rect' a) (go r) end) l)
    end.
End Ind.

Lemma ws_nil : ws [].
Proof. intros c []. Qed.
Lemma ws_sp : ws1 (lit " ").
Proof. split; [|discriminate]. intros c [<-|[]]. auto. Qed.

Definition FF (a : ast) : Prop := printable E a ->
  exists s, fmt E (obj a) = Ok s /\ forall n, (n <= plevel a)%nat -> G E false n a s.

(** an operand, in brackets if it is weaker than [parent] *)
Lemma operand_ok a s parent n : (forall m, (m <= plevel a)%nat -> G E false m a s) ->
  (weaker (obj a) parent = true -> ~ is_negation a) ->
  (weaker (obj a) parent = false -> (n <= plevel a)%nat) ->
  G E false n a (bracket (weaker (obj a) parent) s).
Proof.
  intros H U N. destruct (weaker (obj a) parent); cbn [bracket]; [|apply H; auto].
  change (lit "(" ++ s ++ lit ")") with (lit "(" ++ [] ++ s ++ [] ++ lit ")"). apply g_paren; auto using ws_nil.
  apply H. destruct a as [| | | |[]| | | | | |]; cbn; unfold primary_level, unary_level; lia.
Qed.
Lemma key_obj a : match sortkey (obj a) with
  | Some k => (k = Z.of_nat (plevel a) + 1 \/ (plevel a = primary_level /\ k <= 9))
  | None => plevel a = primary_level end.
Proof.
  destruct a as [| | | |o a b| | | | | |]; cbn; auto; try (left; reflexivity); try (right; split; [reflexivity|lia]).
  left. apply prec_level.
Qed.
Lemma level_lt8 a : (plevel a <= 8)%nat.
Proof. destruct a as [| | | |[]| | | | | |]; cbn; unfold primary_level, unary_level; lia. Qed.
(** a level that an operand without brackets has *)
Lemma weaker_level a parent n : weaker (obj a) parent = false -> Z.of_nat n + 1 <= key parent -> (n <= 8)%nat -> (n <= plevel a)%nat.
Proof.
  unfold weaker. pose proof (key_obj a) as K. intros W P N. destruct (sortkey (obj a)) as [k|].
  - b2p. destruct K as [K|(K & _)]; [lia|]. rewrite K. unfold primary_level. lia.
  - rewrite K. unfold primary_level. lia.
Qed.
Lemma negation_strong a parent : is_negation a -> key parent <= 8 -> weaker (obj a) parent = false.
Proof.
  intros N K. destruct a; cbn in N; try contradiction; cbn; apply Z.ltb_ge; lia.
Qed.

Lemma strong_primary a u l : ~ is_negation a -> weaker (obj a) (XUn u l) = false -> plevel a = primary_level.
Proof. destruct a as [| | | |[]| | | | | |]; cbn; auto; try tauto; destruct u; discriminate. Qed.

Lemma not_number_paren s : ~ starts_number (40 :: s) /\ ~ starts_inf_nan E (40 :: s).
Proof.
  split.
  - intros (c & r & Q & C). inversion Q; subst. lia.
  - unfold starts_inf_nan. change (firstn 3 (40 :: s)) with (40 :: firstn 2 s). intros H.
    destruct (ok_lower_head E OK 40 (firstn 2 s)) as (t & T); [lia|]. rewrite T in H. cbn in H. destruct H; discriminate.
Qed.

Lemma lead_char c r : 0 <= c < 128 -> ~ 48 <= c <= 57 -> c <> 46 -> ascii_lower c <> 105 -> ascii_lower c <> 110 ->
  ~ starts_number (c :: r) /\ ~ starts_inf_nan E (c :: r).
Proof.
  intros A D P I N. split.
  - intros (x & y & Q & C). inversion Q; subst. lia.
  - unfold starts_inf_nan. change (firstn 3 (c :: r)) with (c :: firstn 2 r). intros H.
    destruct (ok_lower_head E OK c (firstn 2 r)) as (t & T); [lia|]. rewrite T in H. cbn in H. destruct H as [H|H]; inversion H; contradiction.
Qed.
Lemma lead_word w r : (3 <=? length w)%nat && forallb (fun c => (97 <=? c) && (c <=? 122)) w && negb (str_eqb (firstn 3 w) (lit "inf"))
    && negb (str_eqb (firstn 3 w) (lit "nan")) = true ->
  ~ starts_number (w ++ r) /\ ~ starts_inf_nan E (w ++ r).
Proof.
  intros H. rewrite !andb_true_iff, !negb_true_iff, forallb_forall, Nat.leb_le in H. destruct H as (((L & B) & I) & N).
  assert (forall c, In c w -> 97 <= c <= 122) as A by (intros c C; specialize (B c C); rewrite andb_true_iff, !Z.leb_le in B; lia).
  split.
  - intros (x & y & Q & C). destruct w as [|c w]; [cbn in L; lia|]. inversion Q; subst. specialize (A x (or_introl eq_refl)). lia.
  - unfold starts_inf_nan. rewrite firstn_app. replace (3 - length w)%nat with O by lia. rewrite firstn_O, app_nil_r.
    rewrite (lower_words E OK).
    + intros [Q|Q]; [change (str_eqb (firstn 3 w) (lit "inf") = false) in I; rewrite Q in I
      |change (str_eqb (firstn 3 w) (lit "nan") = false) in N; rewrite Q in N]; discriminate.
    + intros c C. apply A. rewrite <- (firstn_skipn 3 w). apply in_or_app. left. exact C.
Qed.
Lemma lead_ok a : printable E a -> ~ is_negation a -> minus_ok E a -> forall s, fmt E (obj a) = Ok s ->
  match a with Bin _ _ _ => True | _ => ~ starts_number s /\ ~ starts_inf_nan E s end.
Proof.
  induction a as [l|p|a IH|a IH|o a b IHa IHb|a p IH|a t IH|a t IH|t|t|m l IH] using ast_rect'; intros P N M s F;
    try (cbn in N; tauto); try exact I; cbn [printable minus_ok] in P, M; try contradiction.
  - cbn [obj fmt] in F. destruct l; cbn [fmt_lit] in F; try contradiction; inversion F; subst; clear F.
    + apply (lead_word (lit "null") [] eq_refl).
    + destruct b; [apply (lead_word (lit "true") [])|apply (lead_word (lit "false") [])]; reflexivity.
    + unfold str_of_int. destruct (z <? 0) eqn:Q; b2p; [|lia]. apply (lead_char 45); cbn; lia.
    + unfold str_of_int. destruct (z <? 0) eqn:Q; b2p; [|lia]. apply (lead_char 45); cbn; lia.
    + apply (lead_char 39); cbn; lia.
    + apply (lead_char 88); cbn; lia.
    + apply (lead_word (lit "guid")); reflexivity.
  - cbn in F. inversion F; subst. split; auto. intros (c & r & -> & C). destruct P as (P & _). apply ident_hd in P as (c' & r' & Q & S).
    inversion Q; subst. apply (idstart_not E OK) in S as (S1 & S2). destruct C as [C| ->]; [auto|]. apply S1. left. cbn. auto 12.
  - destruct P as (P & NN & Q). cbn [obj fmt] in F. destruct (fmt E (obj a)) as [sa|] eqn:Fa; cbn [rbind] in F; [|discriminate].
    cbn [fmt rbind weaker sortkey bracket] in F. inversion F; subst; clear F.
    destruct (weaker (obj a) _) eqn:W; cbn [bracket].
    + cbn [app lit]. apply not_number_paren.
    + specialize (IH P NN M sa eq_refl).
      assert (~ starts_number sa /\ ~ starts_inf_nan E sa) as (H1 & H2).
      { destruct a; auto. destruct o; discriminate W. }
      assert (dl (lit "/" ++ p)) as D by (cbn; auto 12).
      split; [|intros H; apply H2; eapply inf_nan_app; eauto].
      intros (c & r & Q' & C). destruct sa as [|d sa].
      * cbn in Q'. inversion Q'; subst. lia.
      * inversion Q'; subst. apply H1. exists c, sa. auto.
  - cbn [obj fmt] in F. destruct (fmt E (obj a)) as [sa|] eqn:Fa; cbn [rbind] in F; [|discriminate].
    cbn [fmt rbind fmt_lit] in F. inversion F; subst; clear F. apply (lead_word (lit "cast")); reflexivity.
  - cbn [obj fmt] in F. destruct (fmt E (obj a)) as [sa|] eqn:Fa; cbn [rbind] in F; [|discriminate].
    cbn [fmt rbind fmt_lit] in F. inversion F; subst; clear F. apply (lead_word (lit "isof")); reflexivity.
  - destruct P as (Mn & _). cbn [obj fmt] in F. match type of F with rbind ?x _ = _ => destruct x as [ts|]; cbn [rbind] in F; [|discriminate] end.
    inversion F; subst; clear F. apply lead_word.
    all: cbv [method_name lit] in Mn; repeat destruct Mn as [<-|Mn]; try contradiction; reflexivity.
Qed.

Lemma call_texts l : Forall FF l -> l <> [] ->
  (fix all (l : list ast) : Prop := match l with [] => True | a :: r => printable E a /\ all r end) l ->
  exists ts, (fix go (l : list (option expr)) : res (list str) :=
                  match l with
                  | nil => Ok nil
                  | None :: r => let! ts := go r in Ok (lit "None" :: ts)
                  | Some a :: r => let! t := fmt E a in let! ts := go r in Ok (t :: ts)
                  end) (map (fun a => Some (obj a)) l) = Ok ts /\ Gargs E false l (join (lit ",") ts).
Proof.
  induction 1 as [|a l Ha H IH]; intros N A; [congruence|]. destruct A as (Pa & A).
  destruct (Ha Pa) as (t & Ft & Gt). cbn [map]. rewrite Ft. cbn [rbind].
  assert (G E false 1 a t) as G1 by (apply Gt; destruct a as [| | | |[]| | | | | |]; cbn; unfold primary_level, unary_level; lia).
  destruct l as [|b l].
  - eexists. split; [reflexivity|]. cbn [join].
    replace t with ([] ++ t ++ []) by (cbn; apply app_nil_r). constructor; auto using ws_nil.
  - destruct IH as (ts & Q & Gs); [discriminate|exact A|]. rewrite Q. cbn [rbind]. eexists. split; [reflexivity|].
    destruct ts as [|t' ts].
    { exfalso. revert Q. cbn [map]. destruct (fmt E (obj b)); cbn [rbind]; [|discriminate].
      match goal with |- (let! _ := ?x in _) = _ -> _ => destruct x end; discriminate. }
    change (join (lit ",") (t :: t' :: ts)) with (t ++ lit "," ++ join (lit ",") (t' :: ts)).
    change (t ++ lit "," ++ join (lit ",") (t' :: ts)) with ([] ++ t ++ [] ++ lit "," ++ join (lit ",") (t' :: ts)).
    constructor; auto using ws_nil.
Qed.

Theorem fmt_sound : forall a, FF a.
Proof.
  induction a as [l|p|a IH|a IH|o a b IHa IHb|a p IH|a t IH|a t IH|t|t|m l IH] using ast_rect'; intros P; cbn [printable] in P.
  - destruct (fmt_lit_ok l P) as (s & F & T). exists s. split; auto. intros. apply g_lit; auto.
  - exists p. split; auto. intros. apply g_prop; auto.
  - destruct P as (P & N & M). destruct (IH P) as (s & F & Gs). cbn [obj fmt]. rewrite F. cbn [rbind]. eexists. split; [reflexivity|].
    intros n Ln.
    match goal with |- G _ _ _ _ (lit "-" ++ ?x) => change (lit "-" ++ x) with (lit "-" ++ [] ++ x) end.
    assert (~ starts_number (bracket (weaker (obj a) (XUn ONeg [Some (obj a)])) s) /\ ~ starts_inf_nan E (bracket (weaker (obj a) (XUn ONeg [Some (obj a)])) s)) as (M1 & M2).
    { destruct (weaker (obj a) (XUn ONeg [Some (obj a)])) eqn:W; cbn [bracket].
      - apply not_number_paren.
      - pose proof (lead_ok a P N M s F) as H. destruct a; auto. destruct o; discriminate W. }
    apply g_neg; auto using ws_nil.
    apply operand_ok; auto. intros W. rewrite (strong_primary _ _ _ N W). auto.
  - destruct P as (P & N). destruct (IH P) as (s & F & Gs). cbn [obj fmt]. rewrite F. cbn [rbind]. eexists. split; [reflexivity|].
    intros n Ln.
    match goal with |- G _ _ _ _ (lit "not " ++ ?x) => change (lit "not " ++ x) with (lit "not" ++ lit " " ++ x) end.
    apply g_not; auto using ws_sp.
    apply operand_ok; auto. intros W. rewrite (strong_primary _ _ _ N W). auto.
  - destruct P as (Pa & Pb & R). destruct (IHa Pa) as (s1 & F1 & G1). destruct (IHb Pb) as (s2 & F2 & G2).
    cbn [obj fmt]. rewrite F1. cbn [rbind]. rewrite F2. cbn [rbind]. eexists. split; [reflexivity|].
    intros n Ln. cbn [plevel] in Ln. set (p := XBin (obin o) [Some (obj a); Some (obj b)]).
    assert (key p = Z.of_nat (level o) + 1) as K by apply prec_level. pose proof (level_bounds o) as B.
    replace (match obin o with BMember => _ | _ => _ end) with
      (bracket (weaker (obj a) p) s1 ++ lit " " ++ oname o ++ lit " " ++ bracket (weaker (obj b) p) s2)
      by (destruct o; reflexivity).
    apply g_bin; auto using ws_sp.
    + apply operand_ok; auto.
      * intros W C. rewrite negation_strong in W; [discriminate|auto|lia].
      * intros W. eapply weaker_level; eauto; lia.
    + apply operand_ok; auto.
      * intros W C. rewrite negation_strong in W; [discriminate|auto|lia].
      * intros W. assert (level o <= plevel b)%nat by (eapply weaker_level; eauto; lia).
        destruct b; cbn in *; unfold primary_level, unary_level; lia.
  - destruct P as (P & N & Q). destruct (IH P) as (s & F & Gs). cbn [obj fmt]. rewrite F. cbn [rbind]. eexists. split; [reflexivity|].
    intros n Ln. cbn [weaker sortkey bracket].
    match goal with |- G _ _ _ _ (?x ++ lit "/" ++ ?y) => change (x ++ lit "/" ++ y) with (x ++ [] ++ lit "/" ++ [] ++ y) end.
    apply g_member; auto using ws_nil. apply operand_ok; auto.
    intros W. eapply weaker_level; eauto; cbn; lia.
  - destruct (IH P) as (s & F & Gs). cbn [obj fmt]. rewrite F. cbn [rbind]. eexists. split; [reflexivity|].
    intros n Ln. cbn [fmt fmt_lit weaker sortkey bracket]. 
    set (p := XBin BCast _).
    replace ((lit "'" ++ dquote t ++ lit "'") ++ lit ")") with (lit "'" ++ dquote t ++ lit "'" ++ lit ")") by (rewrite <- !app_assoc; reflexivity).
    apply (g_cast E false n true a t [] [] (bracket (weaker (obj a) p) s) [] [] (dquote t) []); auto using ws_nil, dquote_ok.
    apply operand_ok; auto.
    + intros W C. rewrite negation_strong in W; [discriminate|auto|cbn; lia].
    + intros W. eapply weaker_level; eauto; cbn; lia.
  - destruct (IH P) as (s & F & Gs). cbn [obj fmt]. rewrite F. cbn [rbind]. eexists. split; [reflexivity|].
    intros n Ln. cbn [fmt fmt_lit weaker sortkey bracket]. 
    set (p := XBin BIsOf _).
    replace ((lit "'" ++ dquote t ++ lit "'") ++ lit ")") with (lit "'" ++ dquote t ++ lit "'" ++ lit ")") by (rewrite <- !app_assoc; reflexivity).
    apply (g_cast E false n false a t [] [] (bracket (weaker (obj a) p) s) [] [] (dquote t) []); auto using ws_nil, dquote_ok.
    apply operand_ok; auto.
    + intros W C. rewrite negation_strong in W; [discriminate|auto|cbn; lia].
    + intros W. eapply weaker_level; eauto; cbn; lia.
  - contradiction.
  - contradiction.
  - destruct P as (M & N & A). destruct (call_texts l IH N A) as (ts & Q & Gs). cbn [obj fmt]. rewrite Q. cbn [rbind].
    eexists. split; [reflexivity|]. intros n Ln.
    change (m ++ lit "(" ++ join (lit ",") ts ++ lit ")") with (m ++ [] ++ lit "(" ++ join (lit ",") ts ++ lit ")").
    apply g_call; auto using ws_nil.
Qed.
End Fmt.
