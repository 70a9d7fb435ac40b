From Verif Require Import Py UriModel UriPath UriSpec UriRel HttpModel HttpSpec HttpProofs HttpLex HttpParamModel HttpParamSpec HttpProps
  HttpParamProofs HttpParamMain HttpDate BaModel BaSpec.

(** ** base64 *)
Lemma char_digit : forall v, 0 <= v < 64 -> digit v (b64_char v).
Proof.
  intros v H. split; [exact H|]. assert (X : In v (map Z.of_nat (seq 0 64))).
  { apply in_map_iff. exists (Z.to_nat v). split; [lia|]. apply in_seq. lia. }
  remember (map Z.of_nat (seq 0 64)) as L. vm_compute in HeqL. subst L. unfold b64_char.
  repeat (destruct X as [<-|X]; [vm_compute; reflexivity|]). destruct X.
Qed.
Lemma val_char : forall v, 0 <= v < 64 -> b64_val (b64_char v) = Some v /\ b64_char v <> 61.
Proof.
  intros v H. assert (X : In v (map Z.of_nat (seq 0 64))).
  { apply in_map_iff. exists (Z.to_nat v). split; [lia|]. apply in_seq. lia. }
  remember (map Z.of_nat (seq 0 64)) as L. vm_compute in HeqL. subst L.
  repeat (destruct X as [<-|X]; [split; [vm_compute; reflexivity|vm_compute; discriminate]|]). destruct X.
Qed.
Lemma go_char : forall v q l p r, 0 <= v < 64 -> b64_go q l p (b64_char v :: r) =
  (if q =? 0 then b64_go 1 v 0 r
   else if q =? 1 then let! t := b64_go 2 (v mod 16) 0 r in Ok (l * 4 + v / 16 :: t)
   else if q =? 2 then let! t := b64_go 3 (v mod 4) 0 r in Ok (l * 16 + v / 4 :: t)
   else let! t := b64_go 0 0 0 r in Ok (l * 64 + v :: t)).
Proof.
  intros v q l p r H. destruct (val_char v H) as [E N]. cbn [b64_go]. destruct (Z.eqb_spec (b64_char v) 61); [contradiction|]. rewrite E. reflexivity.
Qed.
Definition byte (c : Z) : Prop := 0 <= c < 256.
Lemma triples : forall (P : str -> Prop), P [] -> (forall a, P [a]) -> (forall a b, P [a; b]) ->
  (forall a b c s, P s -> P (a :: b :: c :: s)) -> forall s, P s.
Proof.
  intros P P0 P1 P2 P3 s. assert (G : forall n s, (length s <= n)%nat -> P s).
  { induction n as [|n IH]; intros [|a [|b [|c t]]] H; cbn [length] in H; auto; try lia. apply P3, IH. lia. }
  apply (G (length s)). lia.
Qed.
Lemma encode_spec : forall s, Forall byte s -> base64 s (b64encode s).
Proof.
  apply (triples (fun s => Forall byte s -> base64 s (b64encode s))).
  - intros _. constructor.
  - intros a F. inversion F as [|? ? A]; subst. unfold byte in A. cbn [b64encode].
    apply (b64_one a (a / 4) (a mod 4 * 16)); try apply char_digit; Z.div_mod_to_equations; lia.
  - intros a b F. inversion F as [|? ? A F1]; subst. inversion F1 as [|? ? B]; subst. unfold byte in *. cbn [b64encode].
    apply (b64_two a b (a / 4) (a mod 4 * 16 + b / 16) (b mod 16 * 4)); try apply char_digit; Z.div_mod_to_equations; lia.
  - intros a b c s IH F. inversion F as [|? ? A F1]; subst. inversion F1 as [|? ? B F2]; subst. inversion F2 as [|? ? C F3]; subst.
    unfold byte in *. cbn [b64encode].
    apply (b64_three a b c (a / 4) (a mod 4 * 16 + b / 16) (b mod 16 * 4 + c / 64) (c mod 64)); try apply char_digit; auto;
      Z.div_mod_to_equations; lia.
Qed.
Lemma go_end2 : forall l, b64_go 2 l 0 [61; 61] = Ok []. Proof. reflexivity. Qed.
Lemma go_end3 : forall l, b64_go 3 l 0 [61] = Ok []. Proof. reflexivity. Qed.
Ltac quads := change (0 =? 0) with true; change (1 =? 0) with false; change (1 =? 1) with true; change (2 =? 0) with false; change (2 =? 1) with false;
    change (2 =? 2) with true; change (3 =? 0) with false; change (3 =? 1) with false; change (3 =? 2) with false; cbv iota.
Ltac gc := rewrite go_char by (Z.div_mod_to_equations; lia); quads.
Lemma decode_encode : forall s, Forall byte s -> b64decode (b64encode s) = Ok s.
Proof.
  unfold b64decode. apply (triples (fun s => Forall byte s -> b64_go 0 0 0 (b64encode s) = Ok s)).
  - reflexivity.
  - intros a F. inversion F as [|? ? A]; subst. unfold byte in A. cbn [b64encode].
    gc. gc. rewrite go_end2. cbn [rbind]. f_equal. f_equal. Z.div_mod_to_equations; lia.
  - intros a b F. inversion F as [|? ? A F1]; subst. inversion F1 as [|? ? B]; subst. unfold byte in *. cbn [b64encode].
    gc. gc. gc. rewrite go_end3. cbn [rbind]. f_equal. f_equal; [|f_equal]; Z.div_mod_to_equations; lia.
  - intros a b c s IH F. inversion F as [|? ? A F1]; subst. inversion F1 as [|? ? B F2]; subst. inversion F2 as [|? ? C F3]; subst.
    unfold byte in *. cbn [b64encode]. gc. gc. gc. gc.
    rewrite (IH F3). cbn [rbind]. f_equal. f_equal; [|f_equal; [|f_equal]]; Z.div_mod_to_equations; lia.
Qed.
(** ** the words of the text *)
Definition b64ch (c : Z) : Prop := tok c \/ c = 47 \/ c = 61.
Lemma char_ok : forall v, 0 <= v < 64 -> b64ch (b64_char v).
Proof.
  intros v H. assert (X : In v (map Z.of_nat (seq 0 64))).
  { apply in_map_iff. exists (Z.to_nat v). split; [lia|]. apply in_seq. lia. }
  assert (T : forall c, special c = false -> tok c).
  { intros c E. assert (F : token [c]) by (apply lit_token; [discriminate|cbn; rewrite E; reflexivity]). destruct F as [_ F]. inversion F. assumption. }
  remember (map Z.of_nat (seq 0 64)) as L. vm_compute in HeqL. subst L.
  repeat (destruct X as [<-|X]; [first [left; apply T; vm_compute; reflexivity|right; left; reflexivity]|]). destruct X.
Qed.
Lemma encode_chars : forall s, Forall byte s -> Forall b64ch (b64encode s).
Proof.
  assert (E61 : b64ch 61) by (right; right; reflexivity).
  apply (triples (fun s => Forall byte s -> Forall b64ch (b64encode s))).
  - constructor.
  - intros a F. inversion F as [|? ? A]; subst. unfold byte in A. cbn [b64encode].
    repeat (apply Forall_cons; [first [exact E61|apply char_ok; Z.div_mod_to_equations; lia]|]); apply Forall_nil.
  - intros a b F. inversion F as [|? ? A F1]; subst. inversion F1 as [|? ? B]; subst. unfold byte in *. cbn [b64encode].
    repeat (apply Forall_cons; [first [exact E61|apply char_ok; Z.div_mod_to_equations; lia]|]); apply Forall_nil.
  - intros a b c s IH F. inversion F as [|? ? A F1]; subst. inversion F1 as [|? ? B F2]; subst. inversion F2 as [|? ? C F3]; subst.
    unfold byte in *. cbn [b64encode]. repeat (constructor; [apply char_ok; Z.div_mod_to_equations; lia|]). auto.
Qed.
Lemma tok_run : forall s, Forall b64ch s -> exists t r, s = t ++ r /\ Forall tok t /\ stop_tok r.
Proof.
  induction 1 as [|c s H F (t & r & -> & T & S)]; [exists [], []; repeat split; constructor|].
  destruct H as [H|H].
  - exists (c :: t), r. repeat split; auto.
  - exists [], (c :: t ++ r). repeat split; [constructor|]. cbn [stop_tok]. intros X. destruct X as [_ X]. apply X. left.
    destruct H as [-> | ->]; cbn; tauto.
Qed.
Lemma lex_b64 : forall n s, (length s <= n)%nat -> Forall b64ch s -> exists l, lexed ending false s l /\ remainder l = s.
Proof.
  induction n as [|n IH]; intros s L F.
  - destruct s; [|cbn [length] in L; lia]. exists []. split; [apply lex_end|reflexivity].
  - destruct (tok_run s F) as (t & r & -> & T & S). apply Forall_app in F as [_ F]. rewrite app_length in L.
    assert (G : exists l, lexed ending false r l /\ remainder l = r).
    { destruct r as [|c r]; [exists []; split; [apply lex_end|reflexivity]|]. inversion F as [|? ? C F']; subst. cbn [length] in L.
      destruct (IH r ltac:(lia) F') as (l & H1 & H2). exists (WByte c :: l). split; [|unfold remainder in *; cbn; rewrite H2; reflexivity].
      destruct C as [C|C]; [exfalso; exact (S C)|]. apply lex_sep; [destruct C as [-> | ->]; reflexivity|destruct C as [-> | ->]; reflexivity|exact H1]. }
    destruct G as (l & H1 & H2). destruct t as [|c t]; [exists l; auto|].
    exists (WStr (c :: t) :: l). split; [apply lex_tok; [split; [discriminate|exact T]|exact S|exact H1]|].
    unfold remainder in *. cbn [map concat]. rewrite H2. reflexivity.
Qed.
Lemma basic_words : forall s, Forall b64ch s -> s <> [] -> exists l, words_of (lit "Basic " ++ s) true = Ok (WStr (lit "Basic") :: l) /\ remainder l = s.
Proof.
  intros s F N. destruct (lex_b64 (length s) s ltac:(lia) F) as (l & H1 & H2). exists l. split; [|exact H2].
  apply words_ok. cbn [negb]. change (lit "Basic " ++ s) with (lit "Basic" ++ 32 :: s).
  apply HttpDate.lex_word_sp; [apply lit_token; [discriminate|reflexivity]| |exact H1].
  destruct s as [|c s]; [congruence|]. inversion F as [|? ? C _]; subst. intros a b E Hl.
  assert (W : exists c' a', a = c' :: a' /\ (c' = 32 \/ c' = 9 \/ c' = 13)).
  { destruct Hl as [w Nw Fw|w Nw Fw]; [destruct w as [|c' w]; [congruence|]; inversion Fw as [|? ? X _]; subst; exists c', w; destruct X; auto|].
    exists 13. eexists. split; [reflexivity|auto]. }
  destruct W as (c' & a' & -> & W). injection E as <- _. destruct C as [[C1 C2]|C]; [|lia].
  destruct W as [-> |[-> | ->]]; [apply C2; left; cbn; tauto|apply C2; right; reflexivity|apply C1; left; lia].
Qed.

(** ** prefixes of paths *)
Lemma is_prefix_trans : forall p q r, is_prefix p q = true -> is_prefix q r = true -> is_prefix p r = true.
Proof.
  induction p as [|x p IH]; intros [|y q] [|z r] H1 H2; cbn [is_prefix] in *; try discriminate; auto.
  apply andb_true_iff in H1 as [A1 B1], H2 as [A2 B2]. apply andb_true_iff. split; [|eapply IH; eauto].
  destruct x; [reflexivity|]. apply str_eqb_eq in A1. subst y. exact A2.
Qed.
Definition under (ps : list (list str)) (q : list str) : bool := existsb (fun p => is_prefix p q) ps.
Lemma under_app : forall a b q, under (a ++ b) q = under a q || under b q.
Proof. intros. apply existsb_app. Qed.
Lemma absorb_ok : forall new ps q, let '(k, r) := absorb new ps in
  under (if k then r ++ [new] else r) q = under ps q || is_prefix new q.
Proof.
  intros new ps q. induction ps as [|p ps IH]; cbn [absorb]; [cbn; rewrite orb_false_r; reflexivity|].
  destruct (is_prefix p new) eqn:E1.
  - cbn [under existsb]. destruct (is_prefix new q) eqn:E2; [|rewrite orb_false_r; reflexivity].
    rewrite (is_prefix_trans _ _ _ E1 E2). reflexivity.
  - destruct (is_prefix new p) eqn:E2.
    + destruct (absorb new ps) as [k r]. rewrite IH. cbn [under existsb]. fold (under ps q). destruct (is_prefix p q) eqn:E3; [|reflexivity].
      rewrite (is_prefix_trans _ _ _ E2 E3). rewrite orb_true_r. reflexivity.
    + destruct (absorb new ps) as [k r]. cbn [under existsb]. fold (under ps q).
      transitivity (is_prefix p q || under (if k then r ++ [new] else r) q); [destruct k; reflexivity|].
      rewrite IH. apply orb_assoc.
Qed.
Lemma blank_snoc : forall d x, blank_last (d ++ [x]) = d ++ [[]].
Proof.
  induction d as [|y d IH]; intros x; [reflexivity|]. cbn [app blank_last]. rewrite IH. destruct (d ++ [x]) eqn:E; [destruct d; discriminate|reflexivity].
Qed.
Lemma blank_plain : forall l, Forall plain l -> Forall plain (blank_last l).
Proof.
  intros l F. destruct l as [|a l] using rev_ind; [constructor|]. rewrite blank_snoc. apply Forall_app in F as [F _]. apply Forall_app. split; [exact F|].
  constructor; [split; discriminate|constructor].
Qed.
Lemma prefix_at : forall d rest, rest <> [] -> is_prefix (d ++ [[]]) (d ++ rest) = true.
Proof.
  induction d as [|x d IH]; intros rest N; cbn [app is_prefix].
  - destruct rest; [congruence|]. reflexivity.
  - rewrite IH by exact N. destruct x; [reflexivity|]. rewrite str_eqb_refl. reflexivity.
Qed.
Lemma prefix_inv : forall d q, Forall (fun s => s <> []) d -> is_prefix (d ++ [[]]) q = true -> exists rest, q = d ++ rest /\ rest <> [].
Proof.
  induction d as [|x d IH]; intros [|y q] F H; cbn [app is_prefix] in H; try discriminate.
  - exists (y :: q). split; [reflexivity|discriminate].
  - inversion F as [|? ? X F']; subst. apply andb_true_iff in H as [A B]. destruct x; [congruence|]. apply str_eqb_eq in A. subst y.
    destruct (IH q F' B) as (rest & -> & N). exists rest. auto.
Qed.
Lemma path_app : forall a b, path_of (a ++ b) = path_of a ++ path_of b.
Proof. intros. unfold path_of. rewrite map_app. apply concat_app. Qed.
Lemma path_inj : forall a b, ordinary a -> ordinary b -> path_of a = path_of b -> a = b.
Proof.
  intros a b A B E. pose proof (split_path_of a A) as X. rewrite E, (split_path_of b B) in X. congruence.
Qed.
(** the segments of a folder *)
Lemma folder_segs : forall d folder name rest l, Forall (fun s => ~ has 47 s) (d ++ [name]) -> path_of (d ++ [name]) = folder ++ lit "/" ++ name ->
  ordinary l -> path_of l = folder ++ lit "/" ++ rest -> exists r, l = d ++ r /\ r <> [].
Proof.
  intros d folder name rest l F E O L. rewrite path_app in E. unfold path_of at 2 in E. cbn [map concat] in E. rewrite app_nil_r in E.
  apply app_inv_tail in E. subst folder. revert l O L. induction d as [|x d IH]; intros l O L.
  - exists l. split; [reflexivity|]. apply O.
  - change (path_of (x :: d)) with ((lit "/" ++ x) ++ path_of d) in L. destruct l as [|y l]; [destruct O; congruence|].
    change (path_of (y :: l)) with ((lit "/" ++ y) ++ path_of l) in L. rewrite <- !app_assoc in L. apply app_inv_head in L.
    inversion F as [|? ? X F']; subst. destruct O as [_ O]. inversion O as [|? ? (Y & Y1 & Y2) O']; subst.
    assert (SP : y = x /\ path_of l = path_of d ++ lit "/" ++ rest).
    { (* both go on with a slash, or end *)
      assert (T : forall s s' t t' : str, ~ In 47 s -> ~ In 47 s' -> (t = [] \/ exists u, t = 47 :: u) -> (exists u, t' = 47 :: u) -> s ++ t = s' ++ t' -> s = s' /\ t = t').
      { induction s as [|c s IHs]; intros s' t t' N N' T T' Q.
        - destruct s' as [|c' s']; [auto|]. exfalso. destruct T' as (u & ->). cbn [app] in Q. destruct T as [-> | (v & ->)]; [discriminate|].
          injection Q as <- _. apply N'. left. reflexivity.
        - destruct s' as [|c' s'].
          + exfalso. destruct T' as (u & ->). cbn [app] in Q. injection Q as -> _. apply N. left. reflexivity.
          + cbn [app] in Q. injection Q as <- Q. destruct (IHs s' t t') as [-> ->]; auto; intros Z; [apply N|apply N']; right; exact Z. }
      apply T; auto.
      - destruct l as [|z l]; [left; reflexivity|right; unfold path_of; cbn; eauto].
      - destruct d as [|z d]; [exists rest; reflexivity|unfold path_of; cbn; eauto]. }
    destruct SP as [-> L']. destruct l as [|z l].
    + exfalso. destruct d; discriminate.
    + destruct (IH F' (z :: l)) as (r & E & N); [split; [discriminate|exact O']|exact L'|]. exists r. split; [rewrite E; reflexivity|exact N].
Qed.
Lemma covers_segs : forall a b, ordinary a -> ordinary b ->
  (covers (path_of a) (path_of b) <-> exists d x r, a = d ++ [x] /\ b = d ++ r /\ r <> []).
Proof.
  intros a b A B. split.
  - intros (folder & name & rest & E & Nn & E2). destruct a as [|x d _] using rev_ind; [destruct A; congruence|].
    assert (x = name /\ path_of d = folder).
    { rewrite path_app in E. unfold path_of at 2 in E. cbn [map concat] in E. rewrite app_nil_r in E.
      assert (Nx : ~ In 47 x). { destruct A as [_ A]. apply Forall_app in A as [_ A]. inversion A as [|? ? (X & _) _]. exact X. }
      assert (T : forall (s s' t t' : str), ~ In 47 s -> ~ In 47 s' -> t ++ 47 :: s = t' ++ 47 :: s' -> s = s' /\ t = t').
      { intros s s' t t' N N' Q. apply (f_equal (@rev Z)) in Q. rewrite !rev_app_distr in Q. cbn [rev] in Q. rewrite <- !app_assoc in Q. cbn [app] in Q.
        assert (N1 : ~ In 47 (rev s)) by (intros Z; apply in_rev in Z; auto). assert (N2 : ~ In 47 (rev s')) by (intros Z; apply in_rev in Z; auto).
        assert (U : rev s = rev s' /\ rev t = rev t').
        { revert N1 N2 Q. generalize (rev s) (rev s') (rev t) (rev t'). induction l as [|c l IH]; intros [|c' l'] m m' N1 N2 Q; cbn [app] in Q.
          - injection Q as ->. auto.
          - exfalso. injection Q as <- _. apply N2. left. reflexivity.
          - exfalso. injection Q as -> _. apply N1. left. reflexivity.
          - injection Q as <- Q. destruct (IH l' m m') as [-> ->]; auto; intros Z; [apply N1|apply N2]; right; exact Z. }
        destruct U as [U1 U2]. apply (f_equal (@rev Z)) in U1, U2. rewrite !rev_involutive in *. auto. }
      apply T; auto. }
    destruct H as [-> E3]. destruct A as [_ A]. destruct (folder_segs d folder name rest b) as (r & -> & N); auto.
    + eapply Forall_impl; [|exact A]. intros s (X & _). exact X.
    + exists d, name, r. auto.
  - intros (d & x & r & -> & -> & N). exists (path_of d), x. destruct r as [|y r]; [congruence|]. exists (y ++ path_of r).
    split; [rewrite path_app; unfold path_of at 2; cbn [map concat]; rewrite app_nil_r; reflexivity|].
    split; [destruct A as [_ A]; apply Forall_app in A as [_ A]; inversion A as [|? ? (X & _) _]; exact X|].
    rewrite path_app. unfold path_of at 2. cbn [map concat]. rewrite <- app_assoc. reflexivity.
Qed.
Lemma learn_one : forall l c, ordinary l -> exists c', add_success_path (path_of l) c = Ok c' /\
  scheme c' = scheme c /\ space c' = space c /\ realm c' = realm c /\
  forall q, under (prefixes c') q = under (prefixes c) q || is_prefix (blank_last l) q.
Proof.
  intros l c O. unfold add_success_path. pose proof O as O2. destruct O2 as [N _].
  rewrite path_join by exact N. cbv zeta iota. rewrite <- path_join by exact N.
  match goal with |- context[split_path ?x true] => change (split_path x true) with (split_path (Some (path_of l)) true) end.
  rewrite (split_path_of l O). cbn [rbind]. rewrite normalize_plain by (apply blank_plain, ordinary_plain, O). cbn [rbind].
  destruct (absorb (blank_last l) (prefixes c)) as [k r] eqn:A. eexists. split; [reflexivity|]. cbn [scheme space realm prefixes].
  repeat split. intros q. pose proof (absorb_ok (blank_last l) (prefixes c) q) as H. rewrite A in H. exact H.
Qed.
Lemma test_ordinary : forall c l, ordinary l -> test_path c (path_of l) = Ok (under (prefixes c) l).
Proof.
  intros c l O. unfold test_path. rewrite (split_path_of l O). cbn [rbind]. rewrite normalize_plain by (apply ordinary_plain, O). reflexivity.
Qed.
Lemma blank_covers : forall a b, ordinary a -> ordinary b -> covers (path_of a) (path_of b) -> is_prefix (blank_last a) b = true.
Proof.
  intros a b A B C. apply covers_segs in C as (d & x & r & -> & -> & N); auto. rewrite blank_snoc. apply prefix_at. exact N.
Qed.
Lemma covers_blank : forall a b, ordinary a -> no_empty_inside a -> ordinary b -> is_prefix (blank_last a) b = true -> covers (path_of a) (path_of b).
Proof.
  intros a b A NE B H. apply covers_segs; auto. destruct a as [|x d _] using rev_ind; [destruct A; congruence|]. rewrite blank_snoc in H.
  apply prefix_inv in H as (r & -> & N); [exists d, x, r; auto|]. apply Forall_forall. intros s S E. subst s. apply in_split in S as (d1 & d2 & ->).
  apply (NE d1 [] (d2 ++ [x])); [rewrite <- app_assoc; reflexivity|destruct d2; discriminate|reflexivity].
Qed.
