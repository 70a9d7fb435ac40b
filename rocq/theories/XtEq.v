(** XML text: equality, the ends of lines. *)
From Coq Require Import Permutation.
From Verif Require Import Py Num CmSpec CdModel CdProofs XtSpec XtModel XtParse XtMarkup XtElement XtCanon XtWrite XtTree.

(** ** White space that is not preserved *)
Lemma space_is : forall c, xml_s c -> is_s c = true.
Proof. intros c H. apply is_s_iff, H. Qed.
Lemma not_space_is : forall c, ~ xml_s c -> is_s c = false.
Proof. intros c H. destruct (is_s c) eqn:E; [apply is_s_iff in E; contradiction|reflexivity]. Qed.
Lemma collapse_run_true : forall r s, spaces r -> collapse_loop true (r ++ s) = collapse_loop true s.
Proof. intros r s H. induction H as [|c r Hc H IH]; [reflexivity|]. cbn [app collapse_loop]. rewrite (space_is c Hc). exact IH. Qed.
Lemma collapse_run_false : forall r s, spaces r -> r <> [] -> collapse_loop false (r ++ s) = 32 :: collapse_loop true s.
Proof. intros r s H N. destruct H as [|c r Hc H]; [congruence|]. cbn [app collapse_loop]. rewrite (space_is c Hc). cbn [app]. rewrite collapse_run_true by assumption. reflexivity. Qed.
Lemma respaced_collapse : forall s s', respaced s s' -> forall m, collapse_loop m s = collapse_loop m s'.
Proof.
  intros s s' H. induction H as [|c s s' N H IH|r r' s s' Hr Nr Hr' Nr' H IH]; intro m; [reflexivity| |].
  - cbn [collapse_loop]. rewrite not_space_is by assumption. rewrite IH. reflexivity.
  - destruct m; [rewrite !collapse_run_true by assumption; apply IH|]. rewrite !collapse_run_false by assumption. rewrite IH. reflexivity.
Qed.
Lemma respaced_app : forall a a' b b', respaced a a' -> respaced b b' -> respaced (a ++ b) (a' ++ b').
Proof. intros a a' b b' H Hb. induction H; [exact Hb| |]; [constructor; assumption|]. rewrite <- !app_assoc. apply rs_run; assumption. Qed.
Lemma respaced_refl : forall s, respaced s s.
Proof.
  induction s as [|c s IH]; [constructor|]. destruct (is_s c) eqn:E.
  - apply (rs_run [c] [c]); [| discriminate | | discriminate |assumption]; (constructor; [apply is_s_iff; exact E|constructor]).
  - constructor; [|assumption]. intro K. apply is_s_iff in K. congruence.
Qed.
(** a run and what it is followed by *)
Lemma run : forall s, exists r t, s = r ++ t /\ spaces r /\ ends is_s t /\ (match s with c :: _ => is_s c = true -> r <> [] | [] => True end).
Proof.
  intro s. destruct (take_s s) as [r t] eqn:E. pose proof E as E'. apply take_s_ok in E as (-> & Hr & Ht). exists r, t. repeat split; try assumption.
  destruct r as [|c r]; [|cbn; discriminate]. cbn [app]. destruct t as [|c t]; [exact Logic.I|]. intros K _. cbn in Ht. congruence.
Qed.
Lemma collapse_respaced : forall k s s', (length s + length s' <= k)%nat -> collapse_loop false s = collapse_loop false s' -> respaced s s'.
Proof.
  induction k as [|k IH]; intros s s' Hk H.
  - destruct s; [|cbn in Hk; lia]. destruct s'; [constructor|cbn in Hk; lia].
  - assert (Tr : forall t t', ends is_s t -> ends is_s t' -> (length t + length t' <= k)%nat -> collapse_loop true t = collapse_loop true t' -> respaced t t').
    { intros t t' E1 E2 L K. apply IH; [exact L|]. 
      assert (Q : forall t, ends is_s t -> collapse_loop false t = collapse_loop true t) by (intros [|c u] E; [reflexivity|]; cbn in E; cbn [collapse_loop]; rewrite E; reflexivity).
      rewrite !Q by assumption. exact K. }
    destruct s as [|c s], s' as [|c' s']; [constructor| | |].
    + cbn [collapse_loop] in H. destruct (is_s c'); discriminate.
    + cbn [collapse_loop] in H. destruct (is_s c); discriminate.
    + destruct (is_s c) eqn:E, (is_s c') eqn:E'.
      * destruct (run (c :: s)) as (r & t & Es & Hr & Ht & Nr). destruct (run (c' :: s')) as (r' & t' & Es' & Hr' & Ht' & Nr'). specialize (Nr E). specialize (Nr' E').
        rewrite Es, Es' in *. rewrite !collapse_run_false in H by assumption. injection H as H. apply rs_run; try assumption.
        apply Tr; try assumption. rewrite !app_length in Hk. destruct r, r'; try congruence. cbn in Hk. lia.
      * cbn [collapse_loop] in H. rewrite E, E' in H. cbn [app] in H. injection H as <- _. discriminate.
      * cbn [collapse_loop] in H. rewrite E, E' in H. cbn [app] in H. injection H as -> _. discriminate.
      * cbn [collapse_loop] in H. rewrite E, E' in H. injection H as -> H. cbn [length] in Hk. constructor; [intro K; apply is_s_iff in K; congruence|]. apply IH; [lia|exact H].
Qed.
(** what two texts that collapse to the same have in common *)
Lemma collapse_space_iff : forall s s', collapse_space s true = collapse_space s' true <->
  exists r r' t t', s = r ++ t /\ s' = r' ++ t' /\ spaces r /\ spaces r' /\ respaced t t'.
Proof.
  intros s s'. split.
  - intro H. destruct (run s) as (r & t & -> & Hr & Ht & _). destruct (run s') as (r' & t' & -> & Hr' & Ht' & _). exists r, r', t, t'. repeat split; try assumption.
    unfold collapse_space in H. rewrite !collapse_run_true in H by assumption.
    assert (Q : forall t, ends is_s t -> collapse_loop true t = collapse_loop false t /\ (collapse_loop true t = [] -> t = []) /\ collapse_loop true t <> [32]).
    { intros [|c u] E; [repeat split; discriminate|]. cbn in E. cbn [collapse_loop]. rewrite E. split; [reflexivity|]. split; [discriminate|]. intro K. injection K as -> _. discriminate. }
    destruct (Q t Ht) as (Q1 & Q2 & Q3). destruct (Q t' Ht') as (Q1' & Q2' & Q3').
    apply (collapse_respaced _ _ _ (le_n _)). rewrite <- Q1, <- Q1'. destruct (collapse_loop true t) eqn:E1, (collapse_loop true t') eqn:E2; congruence.
  - intros (r & r' & t & t' & -> & -> & Hr & Hr' & H). unfold collapse_space. rewrite !collapse_run_true by assumption. rewrite (respaced_collapse _ _ H). reflexivity.
Qed.

(** ** Trees that are alike *)
Inductive prel {A B} (S' : str -> str -> Prop) (R : A -> B -> Prop) : piece A -> piece B -> Prop :=
| pr_text : forall s s', S' s s' -> prel S' R (PText s) (PText s')
| pr_elem : forall a b, R a b -> prel S' R (PElem a) (PElem b).
Lemma loop_rel : forall A B (R : A -> B -> Prop) l l', Forall2 (prel respaced R) l l' -> forall d d' m,
  (match d, d' with Some d, Some d' => respaced d d' | None, None => True | _, _ => False end) ->
  Forall2 (prel eq R) (canonical_loop d m l) (canonical_loop d' m l').
Proof.
  intros A B R l l' H. induction H as [|x y l l' Hx H IH]; intros d d' m Hd.
  - cbn [canonical_loop]. destruct d as [d|], d' as [d'|]; try contradiction; [|constructor].
    assert (collapse_space d m = collapse_space d' m) as -> by (unfold collapse_space; rewrite (respaced_collapse _ _ Hd); reflexivity).
    destruct (str_eqb _ _); [destruct m|destruct (_ =? _)]; repeat constructor.
  - destruct Hx as [s s' Hs|a b Hab]; cbn [canonical_loop].
    + apply IH. destruct d as [d|], d' as [d'|]; try contradiction; [apply respaced_app; assumption|assumption].
    + apply Forall2_app; [|constructor; [constructor; exact Hab|apply IH; exact Logic.I]]. destruct d as [d|], d' as [d'|]; try contradiction; [|constructor].
      assert (collapse_space d m = collapse_space d' m) as -> by (unfold collapse_space; rewrite (respaced_collapse _ _ Hd); reflexivity).
      destruct (_ || _); repeat constructor.
Qed.
Lemma canonical_rel : forall A B (R : A -> B -> Prop) l l', Forall2 (prel respaced R) l l' -> Forall2 (prel eq R) (canonical_children false l) (canonical_children false l').
Proof.
  intros A B R l l' H. unfold canonical_children. destruct H as [|x y l l' Hx H]; [constructor|]. destruct Hx as [s s' Hs|a b Hab]; destruct H as [|x' y' l l' Hx' H].
  - assert (collapse_space s true = collapse_space s' true) as -> by (unfold collapse_space; rewrite (respaced_collapse _ _ Hs); reflexivity). repeat constructor.
  - apply loop_rel; [constructor; assumption|exact Hs].
  - repeat constructor. exact Hab.
  - constructor; [constructor; exact Hab|]. apply loop_rel; [constructor; assumption|exact Logic.I].
Qed.
Lemma alike_deep : forall e p e', alike p e e' -> every dict p e -> is_elem e -> deep p e = deep p e'.
Proof.
  induction e as [s|n a ch IH] using node_rect'; intros p e' H D Hel; [destruct Hel|]. inversion D as [|? ? ? ? N C]; subst. inversion H as [| |? ? ? a' ? ch' P L]; subst. unfold dict in N.
  assert (N' : NoDup (map fst a')) by (eapply Permutation_NoDup; [apply Permutation_map, P|exact N]).
  rewrite !deep_elem. rewrite (sort_unique a a' P N). f_equal.
  assert (preserves p a' = preserves p a) as -> by (unfold preserves, get_space; rewrite <- (get_attr_perm _ a a' P N); reflexivity).
  rewrite <- preserves_force in C, L by assumption. set (Q := preserves p a) in *.
  assert (K : Forall2 (prel eq (fun e e' => deep Q e = deep Q e')) (canonical_children Q (pieces ch)) (canonical_children Q (pieces ch'))).
  { assert (G : forall (S' : str -> str -> Prop), (forall s s', alike Q (Text s) (Text s') -> S' s s') -> Forall2 (prel S' (fun e e' => deep Q e = deep Q e')) (pieces ch) (pieces ch')).
    { intros S' HS. clear D H. induction L as [|x y ch ch' Hx L IHL]; [constructor|]. inversion IH as [|? ? I1 I2]; subst. inversion C as [|? ? C1 C2]; subst.
      constructor; [|apply IHL; assumption].
      destruct x as [s|xn xa xc]; [inversion Hx; subst; constructor; apply HS; assumption|].
      destruct y as [s|yn ya yc]; [inversion Hx|]. constructor. apply I1; [exact Hx|exact C1|exact Logic.I]. }
    destruct Q eqn:EQ.
    - apply G. intros s s' Hs. inversion Hs; reflexivity.
    - apply canonical_rel. apply G. intros s s' Hs. inversion Hs; assumption. }
  unfold unp, pmap. rewrite !map_map. induction K as [|x y l l' Hx K IHK]; [reflexivity|]. cbn [map]. f_equal; [|exact IHK].
  destruct Hx as [s s' ->|x y ->]; reflexivity.
Qed.

(** ** The ends of lines *)
Lemma next_app : forall a b i, next_chars (a ++ b) i = let (u, j) := next_chars a i in let (v, k) := next_chars b j in (u ++ v, k).
Proof.
  induction a as [|c a IH]; intros b i; cbn [app next_chars]; [destruct (next_chars b i); reflexivity|]. rewrite !IH.
  destruct (c =? 13); [destruct (next_chars a true) as [u j]; destruct (next_chars b j); reflexivity|].
  destruct (c =? 10); [destruct i|]; destruct (next_chars a false) as [u j]; cbv beta iota; destruct (next_chars b j); reflexivity.
Qed.
Lemma entity_concat : forall reads i, Forall (fun r => r <> []) reads -> entity_chars reads i = fst (next_chars (concat reads) i).
Proof.
  intros reads i H. revert i. induction H as [|r reads N H IH]; intro i; cbn [entity_chars concat]; [reflexivity|]. destruct r as [|c r]; [congruence|].
  rewrite next_app. destruct (next_chars (c :: r) i) as [u j]. rewrite IH. destruct (next_chars (concat reads) j). reflexivity.
Qed.
Lemma next_eol : forall s, eol s (fst (next_chars s false)) /\ eol (13 :: s) (10 :: fst (next_chars s true)).
Proof.
  induction s as [|c s [I1 I2]].
  - split; [constructor|]. apply eol_cr; [discriminate|constructor].
  - cbn [next_chars]. destruct (next_chars s true) as [u j]. destruct (next_chars s false) as [v k]. cbn [fst] in *. destruct (Z.eqb_spec c 13) as [->|N13].
    + cbn [fst]. split; [exact I2|]. apply eol_cr; [discriminate|exact I2].
    + destruct (Z.eqb_spec c 10) as [->|N10]; cbn [fst].
      * split; [apply eol_char; assumption|]. apply eol_crlf. exact I1.
      * split; [apply eol_char; assumption|]. apply eol_cr; [cbn; congruence|]. apply eol_char; assumption.
Qed.
Lemma eol_det : forall s u, eol s u -> forall v, eol s v -> u = v.
Proof.
  intros s u H. induction H as [|t u H IH|t u N H IH|c t u N H IH]; intros v Hv.
  - inversion Hv. reflexivity.
  - inversion Hv; subst; [f_equal; auto| |congruence]. cbn in H1. congruence.
  - inversion Hv; subst; [cbn in N; congruence|f_equal; auto|congruence].
  - inversion Hv; subst; [congruence|congruence|f_equal; auto].
Qed.
Lemma eol_id : forall s, Forall (fun c => c <> 13) s -> eol s s.
Proof. induction 1; constructor; assumption. Qed.

(** ** No carriage returns are written *)
Definition ncr (s : str) : Prop := Forall (fun c => c <> 13) s.
Lemma ncr_app : forall a b, ncr a -> ncr b -> ncr (a ++ b).
Proof. intros. apply Forall_app. split; assumption. Qed.
Lemma ncr_lit : forall s, forallb (fun c => negb (c =? 13)) s = true -> ncr s.
Proof. intros s H. apply Forall_forall. intros c Hc ->. rewrite forallb_forall in H. specialize (H 13 Hc). discriminate. Qed.
Lemma name_ncr : forall n, xml_name n -> ncr n.
Proof.
  intros n (c & r & -> & Hc & Hr). constructor; [unfold name_start in Hc; lia|]. eapply Forall_impl; [|exact Hr]. intros x Hx ->. apply char_iff in Hx. discriminate.
Qed.
Lemma ref_ncr : forall c t, ref_text c t -> ncr t.
Proof.
  intros c t H. destruct H; try (apply ncr_lit; reflexivity).
  - apply ncr_app; [apply ncr_lit; reflexivity|]. apply ncr_app; [|apply ncr_lit; reflexivity]. apply Forall_map. eapply Forall_impl; [|exact H0]. intros d Hd; cbv beta in *; lia.
  - apply ncr_app; [apply ncr_lit; reflexivity|]. apply ncr_app; [|apply ncr_lit; reflexivity]. clear -H0. induction H0 as [|d x ds cs Hd H IH]; constructor; [unfold hex_digit in Hd; lia|exact IH].
Qed.
Lemma items_ncr : forall (ok : Z -> Prop) src ts, (forall c, ok c -> c <> 13) -> Forall2 (esc_item ok) src ts -> ncr (concat ts).
Proof.
  intros ok src ts Hk H. induction H as [|c t src ts Ht H IH]; [constructor|]. cbn [concat]. apply ncr_app; [|exact IH].
  destruct Ht as [[-> P]|[R _]]; [constructor; [apply Hk, P|constructor]|apply (ref_ncr _ _ R)].
Qed.
Lemma escape_ncr : forall seven src b, chars_ok seven src -> ncr (escape_function seven src b).
Proof.
  intros seven src [|] H.
  - destruct (escape_quoted seven src H) as (q & ts & Hq & -> & Hf). constructor; [unfold quote in Hq; lia|]. apply ncr_app; [|constructor; [unfold quote in Hq; lia|constructor]].
    eapply items_ncr; [|exact Hf]. intros c [P _]. apply P.
  - destruct (escape_plain seven src H) as (ts & -> & Hf). eapply items_ncr; [|exact Hf]. intros c P. apply P.
Qed.
Section ncr.
  Variable mixed : str -> bool.
  Variable seven : bool.
  Lemma attributes_ncr : forall a, Forall (fun x => xml_name (fst x) /\ Forall (fun c => xml_char c /\ c <> 9 /\ c <> 10) (snd x)) a -> ncr (attributes_text seven a).
  Proof.
    intros a H. unfold attributes_text. assert (H' := Permutation_Forall (sort_perm a) H). induction H' as [|[n v] l [Hn Hv] H' IH]; [constructor|]. cbn [flat_map fst snd] in *.
    apply ncr_app; [|exact IH]. constructor; [lia|]. apply ncr_app; [apply name_ncr, Hn|]. constructor; [lia|]. apply escape_ncr. intros _. eapply Forall_impl; [|exact Hv]. cbn. tauto.
  Qed.
  Lemma written_ncr : forall e p pp indent tab, every (writable mixed) p e -> is_elem e -> ncr indent -> ncr tab -> ncr (generate_xml mixed seven e p pp indent tab).
  Proof.
    induction e as [s|n a ch IH] using node_rect'; intros p pp indent tab He Hel Hi Ht; [destruct Hel|]. clear Hel.
    inversion He as [|? ? ? ? W C]; subst. pose proof (writable_pieces _ _ _ _ _ W) as (T & _). destruct W as (Hn & Hd & Ha & _).
    rewrite <- preserves_force in * by assumption. rewrite generate_elem. cbv zeta. set (P := preserves p a) in *.
    assert (T' : texts_all xml_char (canonical_children P (pieces ch))) by (apply canonical_all; [unfold xml_char; lia|exact T]).
    assert (Ie : forall e, In (PElem e) (canonical_children P (pieces ch)) -> In e ch /\ is_elem e).
    { intros e Hx. apply canonical_in in Hx. apply pieces_in in Hx as (Hx & ? & ? & ? & ->). split; [exact Hx|exact Logic.I]. }
    set (pretty := can_pretty_print mixed n a pp). set (pre := match canonical_children P (pieces ch) with PText (c :: _) :: _ => is_s c | _ => false end).
    assert (Si : ncr (if pre then [] else if pretty then match tab with [] => indent | _ => indent ++ tab end else [])).
    { destruct pre; [constructor|]. destruct pretty; [|constructor]. destruct tab; [exact Hi|]. apply ncr_app; assumption. }
    assert (St : ncr (if pre then [] else if pretty then tab else [])) by (destruct pre; [constructor|]; destruct pretty; [exact Ht|constructor]).
    assert (Sw : ncr (ws_of indent tab)) by (destruct tab; cbn [ws_of]; [apply Forall_nil|apply Forall_cons; [lia|exact Hi]]).
    pose proof (attributes_ncr a Ha) as Hat. pose proof (name_ncr n Hn) as Hnn.
    revert T' Ie. generalize (canonical_children P (pieces ch)) as l. intros l T' Ie.
    assert (Fm : forall i t, ncr i -> ncr t -> ncr (flat_map (fun c => match c with PText s => escape_function seven s false | PElem e => generate_xml mixed seven e P pretty i t end) l)).
    { intros i t Hii Htt. induction T' as [|x l Hx T' IHT]; [constructor|]. cbn [flat_map]. apply ncr_app; [|apply IHT; intros e Hin; apply Ie; right; exact Hin].
      destruct x as [s|e]; [apply escape_ncr; intros _; exact Hx|]. destruct (Ie e (or_introl eq_refl)) as [Hin Hel]. rewrite Forall_forall in IH, C. apply IH; auto. }
    destruct l as [|x l].
    - repeat apply ncr_app; try assumption; apply ncr_lit; reflexivity.
    - specialize (Fm _ _ Si St). match goal with |- context [flat_map ?f (x :: l)] => assert (HF : ncr (flat_map f (x :: l))) by exact Fm; set (F := flat_map f (x :: l)) in HF |- * end. clearbody F.
      repeat apply ncr_app; try assumption; try (apply ncr_lit; reflexivity).
      match goal with |- ncr (match ?x with _ => _ end) => destruct x end; [apply Forall_nil|].
      match goal with |- ncr (if ?x then _ else _) => destruct x end; [apply Forall_nil|exact Sw].
  Qed.
End ncr.
