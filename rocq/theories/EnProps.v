(** Property C138: enumerations. *)
From Coq Require Import Lia String Permutation Sorted.
From Verif Require Import Py Num UriModel AnModel AnProofs EnModel EnSpec.
Open Scope Z_scope.

(** ** dictionaries *)
Section Dict.
  Context {K V : Type} (eqb : K -> K -> bool) (E : forall a b, eqb a b = true <-> a = b).
  Lemma dget_in : forall k (d : list (K * V)) v, dget eqb k d = Some v -> In (k, v) d.
  Proof using E. induction d as [|[k' w] d IH]; intros v H; cbn [dget] in H; [discriminate|]. destruct (eqb k' k) eqn:Q; [apply E in Q; inversion H; subst; left; reflexivity|right; apply IH; exact H]. Qed.
  Lemma in_dget : forall k (d : list (K * V)) v, NoDup (map fst d) -> In (k, v) d -> dget eqb k d = Some v.
  Proof using E.
    induction d as [|[k' w] d IH]; intros v N H; [contradiction|]. cbn [map fst] in N. inversion N as [|? ? N1 N2]; subst. cbn [dget]. destruct (eqb k' k) eqn:Q.
    - apply E in Q. subst k'. destruct H as [H|H]; [congruence|]. exfalso. apply N1. apply (in_map fst) in H. exact H.
    - destruct H as [H|H]; [inversion H; subst; assert (X : eqb k k = true) by (apply E; reflexivity); congruence|]. apply IH; assumption.
  Qed.
  Lemma dget_none : forall k (d : list (K * V)), dget eqb k d = None <-> ~ In k (map fst d).
  Proof using E.
    intros k d. induction d as [|[k' w] d IH]; cbn [dget map fst]; [split; auto; intros _ []|]. destruct (eqb k' k) eqn:Q.
    - apply E in Q. split; [discriminate|]. intros H. exfalso. apply H. left. exact Q.
    - rewrite IH. split; [intros H [X|X]; [subst; assert (X : eqb k k = true) by (apply E; reflexivity); congruence|contradiction]|]. intros H X. apply H. right. exact X.
  Qed.
  Lemma dset_new : forall k v (d : list (K * V)), ~ In k (map fst d) -> dset eqb k v d = d ++ [(k, v)].
  Proof using E.
    induction d as [|[k' w] d IH]; intros H; [reflexivity|]. cbn [dset]. destruct (eqb k' k) eqn:Q; [apply E in Q; exfalso; apply H; left; exact Q|]. cbn [app]. f_equal. apply IH. intros X. apply H. right. exact X.
  Qed.
End Dict.
Lemma str_E : forall a b, str_eqb a b = true <-> a = b. Proof. exact str_eqb_eq. Qed.
Lemma Z_E : forall a b, (a =? b) = true <-> a = b. Proof. exact Z.eqb_eq. Qed.

(** ** aliases *)
Lemma distinct_move : forall d k c v al, distinct d ((Some k, c) :: al) -> ~ In k (map fst d) /\ distinct (d ++ [(k, v)]) al.
Proof.
  intros d k c v al H. unfold distinct in *. cbn [alias_names flat_map fst app] in H. fold (alias_names al) in H. split; [apply NoDup_remove_2 in H; intros X; apply H; apply in_or_app; left; exact X|]. rewrite map_app. cbn [map fst]. rewrite <- app_assoc. exact H.
Qed.
Lemma distinct_names : forall d al, distinct d al -> NoDup (map fst d).
Proof. intros d al H. unfold distinct in H. revert H. generalize (alias_names al). intros l H. clear al. induction l as [|x l IH] in H |- *; [rewrite app_nil_r in H; exact H|]. apply NoDup_remove_1 in H. apply IH. exact H. Qed.
Lemma alias_in : forall al n c, In (Some n, c) al -> In n (alias_names al).
Proof. intros al n c H. unfold alias_names. apply in_flat_map. exists (Some n, c). split; [exact H|left; reflexivity]. Qed.
Lemma declared_one : forall d al c v w, distinct d al -> In (c, v) d -> names d al c w -> w = v.
Proof.
  intros d al c v w D H N. inversion N as [? ? X|? c2 ? X _]; subst.
  - pose proof (in_dget str_eqb str_E _ _ _ (distinct_names _ _ D) H). pose proof (in_dget str_eqb str_E _ _ _ (distinct_names _ _ D) X). congruence.
  - exfalso. apply alias_in in X. unfold distinct in D. apply (in_map fst) in H. cbn [fst] in H. apply in_split in H as (l1 & l2 & E). rewrite E, <- app_assoc in D. cbn [app] in D. apply NoDup_remove_2 in D. apply D. apply in_or_app. right. apply in_or_app. right. exact X.
Qed.
Lemma names_move : forall d k c v al n w, distinct d ((Some k, c) :: al) -> In (c, v) d -> names d ((Some k, c) :: al) n w <-> names (d ++ [(k, v)]) al n w.
Proof.
  intros d k c v al n w D H. destruct (distinct_move d k c v al D) as [Nk D2]. split.
  - induction 1 as [n w X|n c2 w X N IH]; [constructor; apply in_or_app; left; exact X|]. destruct X as [X|X]; [|eapply nm_alias; eassumption]. inversion X; subst. assert (w = v) as -> by (eapply declared_one; [exact D2| |exact IH]; apply in_or_app; left; exact H). constructor. apply in_or_app. right. left. reflexivity.
  - induction 1 as [n w X|n c2 w X N IH]; [|eapply nm_alias; [right; exact X|exact IH]]. apply in_app_or in X as [X|[X|[]]]; [constructor; exact X|]. inversion X; subst. eapply nm_alias; [left; reflexivity|]. constructor. exact H.
Qed.
Lemma names_none : forall d c al n w, names d ((None, c) :: al) n w <-> names d al n w.
Proof.
  intros. split; (induction 1 as [n w X|n c2 w X N IH]; [constructor; exact X|]).
  - destruct X as [X|X]; [discriminate|]. eapply nm_alias; eassumption.
  - eapply nm_alias; [right; exact X|exact IH].
Qed.
Lemma loop_names : forall al d def d' def', distinct d al -> alias_loop al d def = Ok (d', def') -> NoDup (map fst d') /\ forall n v, In (n, v) d' <-> names d al n v.
Proof.
  induction al as [|[k c] al IH]; intros d def d' def' D H; cbn [alias_loop] in H.
  - inversion H; subst. split; [eapply distinct_names; exact D|]. intros n v. split; [intros X; constructor; exact X|]. intros X. inversion X as [? ? Y|? c2 ? Y _]; subst; [exact Y|contradiction].
  - destruct (dget str_eqb c d) as [v0|] eqn:G; [|discriminate]. apply (dget_in str_eqb str_E) in G. destruct k as [k|].
    + destruct (distinct_move d k c v0 al D) as [Nk D2]. rewrite (dset_new str_eqb str_E k v0 d Nk) in H. destruct (IH _ _ _ _ D2 H) as [N X]. split; [exact N|]. intros n v. rewrite X. symmetry. apply names_move; assumption.
    + destruct (IH d (Some v0) d' def') as [N X]; [exact D|exact H|]. split; [exact N|]. intros n v. rewrite X. symmetry. apply names_none.
Qed.
(** a text is read as the value of the name it is, without the white space round it *)
Theorem read_exact : forall decode aliases E s v, distinct decode aliases -> init_enum decode aliases = Ok E -> from_str E s = Ok v <-> names decode aliases (strip s) v.
Proof.
  intros decode aliases E s v D H. unfold init_enum in H. destruct (alias_loop aliases decode None) as [[d' def']|] eqn:L; [|discriminate]. cbn [rbind] in H. inversion H; subst. destruct (loop_names _ _ _ _ _ D L) as [N X]. rewrite <- X. unfold from_str. cbn [en_decode]. split.
  - destruct (dget str_eqb (strip s) d') as [w|] eqn:G; [|discriminate]. intros Y. inversion Y; subst. eapply dget_in; [exact str_E|exact G].
  - intros Y. rewrite (in_dget str_eqb str_E _ _ _ N Y). reflexivity.
Qed.
Theorem read_errors : forall E s e, from_str E s = Err e -> e = ValueError.
Proof. intros E s e. unfold from_str. destruct (dget _ _ _); congruence. Qed.
Lemma distinct_prefix : forall d a b, distinct d (a ++ b) -> distinct d a.
Proof.
  intros d a b. unfold distinct, alias_names. rewrite flat_map_app, app_assoc. generalize (flat_map (fun x : option str * str => match fst x with Some n => [n] | None => [] end) b). intros l D. induction l as [|y l IH] in D |- *; [rewrite app_nil_r in D; exact D|]. apply NoDup_remove_1 in D. apply IH. exact D.
Qed.
(** an enumeration can be made if what each alias stands for is named before it *)
Lemma loop_ok : forall al d def, distinct d al -> match alias_loop al d def with
  | Ok _ => forall a x c b, al = a ++ (x, c) :: b -> exists v, names d a c v
  | Err e => e = KeyError /\ exists a x c b, al = a ++ (x, c) :: b /\ forall v, ~ names d a c v
  end.
Proof.
  induction al as [|[k c] al IH]; intros d def D; cbn [alias_loop]; [intros [|? a] x c b E; discriminate|]. destruct (dget str_eqb c d) as [v0|] eqn:G.
  - pose proof (dget_in str_eqb str_E _ _ _ G) as G1. destruct k as [k|].
    + destruct (distinct_move d k c v0 al D) as [Nk D2]. rewrite (dset_new str_eqb str_E k v0 d Nk). specialize (IH _ def D2). assert (M : forall a b, al = a ++ b -> forall n w, names d ((Some k, c) :: a) n w <-> names (d ++ [(k, v0)]) a n w).
      { intros a b -> n w. apply names_move; [|exact G1]. apply (distinct_prefix d ((Some k, c) :: a) b). exact D. }
      match goal with |- match ?t with _ => _ end => change t with (alias_loop al (d ++ [(k, v0)]) def) end. destruct (alias_loop al (d ++ [(k, v0)]) def) as [p|e].
      * intros [|y a] x c2 b E; cbn [app] in E; inversion E; subst; [exists v0; constructor; exact G1|]. destruct (IH a x c2 b eq_refl) as [v Hv]. exists v. eapply M; [reflexivity|exact Hv].
      * destruct IH as (-> & a & x & c2 & b & -> & Hn). split; [reflexivity|]. exists ((Some k, c) :: a), x, c2, b. split; [reflexivity|]. intros v Hv. apply (Hn v). eapply M; [reflexivity|exact Hv].
    + specialize (IH d (Some v0) D). destruct (alias_loop al d (Some v0)) as [p|e].
      * intros [|y a] x c2 b E; cbn [app] in E; inversion E; subst; [exists v0; constructor; exact G1|]. destruct (IH a x c2 b eq_refl) as [v Hv]. exists v. apply names_none. exact Hv.
      * destruct IH as (-> & a & x & c2 & b & -> & Hn). split; [reflexivity|]. exists ((None, c) :: a), x, c2, b. split; [reflexivity|]. intros v Hv. apply (Hn v). apply names_none in Hv. exact Hv.
  - split; [reflexivity|]. exists [], k, c, al. split; [reflexivity|]. intros v Hv. inversion Hv as [? ? Y|? c2 ? Y _]; subst; [|contradiction]. apply (dget_none str_eqb str_E) in G. apply G. apply (in_map fst) in Y. exact Y.
Qed.
Theorem made_exact : forall decode aliases, distinct decode aliases -> match init_enum decode aliases with
  | Ok _ => forall a x c b, aliases = a ++ (x, c) :: b -> exists v, names decode a c v
  | Err e => e = KeyError /\ exists a x c b, aliases = a ++ (x, c) :: b /\ forall v, ~ names decode a c v
  end.
Proof. intros d al D. unfold init_enum. pose proof (loop_ok al d None D) as H. destruct (alias_loop al d None) as [[d' def']|e]; exact H. Qed.
(** the default is what the alias with no name stands for *)
Lemma loop_default : forall al d def d' def', distinct d al -> alias_loop al d def = Ok (d', def') -> (def' = def /\ forall c, ~ In (None, c) al) \/ exists c v, In (None, c) al /\ def' = Some v /\ names d al c v.
Proof.
  induction al as [|[k c] al IH]; intros d def d' def' D H; cbn [alias_loop] in H; [inversion H; subst; left; split; [reflexivity|intros c []]|]. destruct (dget str_eqb c d) as [v0|] eqn:G; [|discriminate]. apply (dget_in str_eqb str_E) in G. destruct k as [k|].
  - destruct (distinct_move d k c v0 al D) as [Nk D2]. rewrite (dset_new str_eqb str_E k v0 d Nk) in H. destruct (IH _ _ _ _ D2 H) as [[-> X]|(c2 & v & X & -> & Y)]; [left; split; [reflexivity|intros c2 [Z|Z]; [discriminate|exact (X c2 Z)]]|].
    right. exists c2, v. split; [right; exact X|]. split; [reflexivity|]. apply (names_move d k c v0 al c2 v D G). exact Y.
  - right. destruct (IH d (Some v0) d' def' D H) as [[-> X]|(c2 & v & X & -> & Y)]; [exists c, v0; split; [left; reflexivity|]; split; [reflexivity|constructor; exact G]|]. exists c2, v. split; [right; exact X|]. split; [reflexivity|]. apply names_none. exact Y.
Qed.
Theorem default_exact : forall decode aliases E, distinct decode aliases -> init_enum decode aliases = Ok E ->
  match en_default E with None => forall c, ~ In (None, c) aliases | Some v => exists c, In (None, c) aliases /\ names decode aliases c v end.
Proof.
  intros d al E D H. unfold init_enum in H. destruct (alias_loop al d None) as [[d' def']|] eqn:L; [|discriminate]. cbn [rbind] in H. inversion H; subst. cbn [en_default]. destruct (loop_default _ _ _ _ _ D L) as [[-> X]|(c & v & X & -> & Y)]; [exact X|exists c; auto].
Qed.

(** ** to_str *)
Lemma encode_loop : forall d e, NoDup (map fst e ++ map snd d) -> fold_left (fun e (x : str * Z) => dset Z.eqb (snd x) (fst x) e) d e = e ++ map (fun x => (snd x, fst x)) d.
Proof.
  induction d as [|[n v] d IH]; intros e N; cbn [fold_left map]; [rewrite app_nil_r; reflexivity|]. cbn [map snd] in N. assert (X : ~ In v (map fst e)) by (apply NoDup_remove_2 in N; intros X; apply N; apply in_or_app; left; exact X). cbn [fst snd]. rewrite (dset_new Z.eqb Z_E v n e X). rewrite IH; [rewrite <- app_assoc; reflexivity|]. rewrite map_app. cbn [map fst]. rewrite <- app_assoc. exact N.
Qed.
Lemma encode_is : forall d, NoDup (map snd d) -> make_encode d = map (fun x => (snd x, fst x)) d.
Proof. intros d N. unfold make_encode. rewrite encode_loop; [reflexivity|exact N]. Qed.
Lemma init_encode : forall d al E, init_enum d al = Ok E -> en_encode E = make_encode d.
Proof. intros d al E H. unfold init_enum in H. destruct (alias_loop al d None) as [[d' def']|]; [|discriminate]. cbn [rbind] in H. inversion H. reflexivity. Qed.
(** a value is written as its declared name, never as an alias; None and any other value as the default's name if there is a default *)
Theorem write_exact : forall decode aliases E, NoDup (map snd decode) -> init_enum decode aliases = Ok E ->
  (forall n v, In (n, v) decode -> to_str E (Some v) = Some n) /\
  (forall x, (forall n v, In (n, v) decode -> x <> Some v) -> match to_str E x with Some n => exists v, en_default E = Some v /\ In (n, v) decode | None => forall n v, en_default E = Some v -> ~ In (n, v) decode end).
Proof.
  intros d al E N H. apply init_encode in H. rewrite (encode_is d N) in H. set (e := map (fun x => (snd x, fst x)) d) in *. assert (N2 : NoDup (map fst e)) by (unfold e; rewrite map_map; exact N). assert (I1 : forall n v, In (n, v) d -> dget Z.eqb v e = Some n).
  { intros n v X. apply (in_dget Z.eqb Z_E); [exact N2|]. unfold e. apply (in_map (fun x : str * Z => (snd x, fst x))) in X. exact X. }
  assert (I2 : forall n v, dget Z.eqb v e = Some n -> In (n, v) d). { intros n v X. apply (dget_in Z.eqb Z_E) in X. unfold e in X. apply in_map_iff in X as ([n' v'] & Q & X). inversion Q; subst. exact X. }
  split.
  - intros n v X. unfold to_str. rewrite H, (I1 n v X). reflexivity.
  - intros x X. unfold to_str. rewrite H. assert (G : match x with Some v => dget Z.eqb v e | None => None end = None). { destruct x as [v|]; [|reflexivity]. destruct (dget Z.eqb v e) as [n|] eqn:G; [|reflexivity]. exfalso. apply (X n v); [apply I2; exact G|reflexivity]. }
    rewrite G. destruct (en_default E) as [v|]; [|discriminate]. destruct (dget Z.eqb v e) as [n|] eqn:Q; [exists v; auto|]. intros n w Y Z. inversion Y; subst. rewrite (I1 n w Z) in Q. discriminate.
Qed.
Lemma lstrip_word : forall s, word s -> lstrip s = s.
Proof. intros [|c s] [N H]; [congruence|]. cbn [lstrip]. rewrite H by (left; reflexivity). reflexivity. Qed.
Lemma strip_word : forall s, word s -> strip s = s.
Proof.
  intros s W. unfold strip. rewrite (lstrip_word s W). rewrite lstrip_word; [apply rev_involutive|]. destruct W as [N H]. split; [intros X; apply N; apply (f_equal (@rev Z)) in X; rewrite rev_involutive in X; exact X|]. intros c Hc. apply H. apply in_rev. exact Hc.
Qed.
(** what is written is read as the value *)
Theorem value_round : forall decode aliases E n v, distinct decode aliases -> NoDup (map snd decode) -> init_enum decode aliases = Ok E -> In (n, v) decode -> word n -> exists s, to_str E (Some v) = Some s /\ from_str E s = Ok v.
Proof.
  intros d al E n v D N H X W. destruct (write_exact d al E N H) as [W1 _]. exists n. split; [apply W1; exact X|]. apply (read_exact d al E n v D H). rewrite (strip_word n W). constructor. exact X.
Qed.

(** ** lists *)
Lemma split_word : forall a r w, (forall c, In c a -> is_space c = false) -> split_ws (a ++ r) w = split_ws r (w ++ a).
Proof.
  induction a as [|c a IH]; intros r w H; [rewrite app_nil_r; reflexivity|]. cbn [app split_ws]. rewrite H by (left; reflexivity). rewrite IH; [rewrite <- app_assoc; reflexivity|]. intros x Hx. apply H. right. exact Hx.
Qed.
Lemma split_join : forall l, Forall word l -> split_ws (join_sp l) [] = l.
Proof.
  induction 1 as [|a l [N W] F IH]; [reflexivity|]. destruct l as [|b l].
  - cbn [join_sp]. rewrite <- (app_nil_r a) at 1. rewrite split_word by exact W. cbn [app split_ws flush]. destruct a; [congruence|reflexivity].
  - change (join_sp (a :: b :: l)) with (a ++ 32 :: join_sp (b :: l)). rewrite split_word by exact W. cbn [app split_ws]. change (is_space 32) with true. cbv iota. rewrite IH. destruct a; [congruence|reflexivity].
Qed.
Theorem list_round : forall decode aliases E vs, distinct decode aliases -> NoDup (map snd decode) -> init_enum decode aliases = Ok E -> (forall v, In v vs -> exists n, In (n, v) decode /\ word n) ->
  exists s, list_to_str E (map Some vs) = Ok s /\ list_from_str (from_str E) s = Ok vs.
Proof.
  intros d al E vs D N H X. assert (Y : exists l, str_all E (map Some vs) = Ok l /\ Forall word l /\ decode_all (from_str E) l = Ok vs).
  { induction vs as [|v vs IH]; [exists []; repeat split; constructor|]. destruct IH as (l & A & B & C); [intros w Hw; apply X; right; exact Hw|]. destruct (X v) as (n & Hn & Wn); [left; reflexivity|]. destruct (write_exact d al E N H) as [W1 _]. exists (n :: l). cbn [map str_all]. rewrite (W1 n v Hn), A. cbn [rbind]. split; [reflexivity|]. split; [constructor; assumption|].
    cbn [decode_all]. assert (R : from_str E n = Ok v) by (apply (read_exact d al E n v D H); rewrite (strip_word n Wn); constructor; exact Hn). rewrite R, C. reflexivity. }
  destruct Y as (l & A & B & C). exists (join_sp l). unfold list_to_str, list_from_str. rewrite A, (split_join l B). split; [reflexivity|exact C].
Qed.
(** ** lists: each word is read as a value is, in order *)
Lemma split_spaces : forall sp r, (forall c, In c sp -> is_space c = true) -> split_ws (sp ++ r) [] = split_ws r [].
Proof.
  induction sp as [|c sp IH]; intros r H; [reflexivity|]. cbn [app split_ws]. rewrite H by (left; reflexivity). cbn [flush app]. apply IH. intros x Hx. apply H. right. exact Hx.
Qed.
Lemma words_split : forall s ws, words_of s ws -> split_ws s [] = ws.
Proof.
  intros s ws H. induction H as [sp H|sp w r ws Hs [N W] Hr Hw IH].
  - match goal with |- split_ws ?x [] = _ => rewrite <- (app_nil_r x); apply (split_spaces x [] H) end.
  - rewrite split_spaces by exact Hs. rewrite split_word by exact W.
    cbn [app]. destruct r as [|c r].
    + cbn [split_ws flush] in *. subst ws. destruct w; [congruence|reflexivity].
    + cbn [split_ws] in *. rewrite Hr in *. cbn [flush app] in IH. rewrite IH. destruct w; [congruence|reflexivity].
Qed.
Lemma words_space : forall c r ws, is_space c = true -> words_of r ws -> words_of (c :: r) ws.
Proof.
  intros c r ws C H. assert (X : forall sp, (forall c, In c sp -> is_space c = true) -> forall x, In x (c :: sp) -> is_space x = true) by (intros sp Q x [<-|Hx]; auto).
  destruct H as [sp Hs|sp w r' ws' Hs W Hr Hw]; [apply wo_none, X, Hs|]. change (c :: sp ++ w ++ r') with ((c :: sp) ++ w ++ r'). apply (wo_word (c :: sp)); [apply X, Hs|exact W|exact Hr|exact Hw].
Qed.
Lemma split_words : forall s w, (forall c, In c w -> is_space c = false) -> words_of (w ++ s) (split_ws s w).
Proof.
  induction s as [|c s IH]; intros w W.
  - cbn [split_ws]. destruct w as [|x w]; [constructor; intros ? []|]. cbn [flush]. apply (wo_word [] (x :: w) [] []); [intros ? []|split; [discriminate|exact W]|exact Logic.I|constructor; intros ? []].
  - cbn [split_ws]. destruct (is_space c) eqn:C.
    + specialize (IH [] (fun c (H : In c []) => match H with end)). cbn [app] in IH. apply (words_space c s _ C) in IH. destruct w as [|x w]; [exact IH|]. cbn [flush]. apply (wo_word [] (x :: w) (c :: s)); [intros ? []|split; [discriminate|exact W]|exact C|exact IH].
    + specialize (IH (w ++ [c])). rewrite <- app_assoc in IH. apply IH. intros x Hx. apply in_app_iff in Hx as [Hx|[<-|[]]]; auto.
Qed.
Lemma words_are : forall s ws, words_of s ws -> Forall word ws.
Proof. induction 1; constructor; assumption. Qed.
Lemma decode_forall : forall decoder l vs, decode_all decoder l = Ok vs <-> Forall2 (fun w v => decoder w = Ok v) l vs.
Proof.
  induction l as [|w l IH]; intros vs; cbn [decode_all].
  - split; [intros X; inversion X; constructor|intros X; inversion X; reflexivity].
  - destruct (decoder w) as [v|] eqn:D; cbn [rbind].
    + destruct (decode_all decoder l) as [us|] eqn:L; cbn [rbind].
      * split; [intros X; inversion X; subst; constructor; [exact D|apply IH; reflexivity]|intros X; inversion X as [|? y ? ? Y1 Y2]; subst; apply IH in Y2; congruence].
      * split; [discriminate|intros X; inversion X as [|? y ? ? Y1 Y2]; subst; apply IH in Y2; discriminate].
    + split; [discriminate|intros X; inversion X; congruence].
Qed.
Theorem list_read_exact : forall decode aliases E s vs, distinct decode aliases -> init_enum decode aliases = Ok E ->
  (exists ws, words_of s ws) /\ (list_from_str (from_str E) s = Ok vs <-> exists ws, words_of s ws /\ Forall2 (names decode aliases) ws vs).
Proof.
  intros d al E s vs D H. assert (W : words_of s (split_ws s [])) by (apply (split_words s []); intros ? []). split; [eexists; exact W|]. unfold list_from_str. rewrite decode_forall.
  assert (X : forall ws us, Forall word ws -> Forall2 (fun w v => from_str E w = Ok v) ws us <-> Forall2 (names d al) ws us).
  { intros ws us F. revert us. induction F as [|w ws Fw F IH]; intros us; [split; intros Y; inversion Y; constructor|]. split; intros Y; inversion Y; subst; (constructor; [|apply IH; assumption]).
    - rewrite <- (strip_word w Fw). apply (read_exact d al E w _ D H). assumption.
    - apply (read_exact d al E w _ D H). rewrite (strip_word w Fw). assumption. }
  split.
  - intros Y. exists (split_ws s []). split; [exact W|]. apply X; [eapply words_are; exact W|exact Y].
  - intros (ws & Hw & Y). rewrite (words_split s ws Hw). apply X; [eapply words_are; exact Hw|exact Y].
Qed.
Theorem list_errors : forall E s e, list_from_str (from_str E) s = Err e -> e = ValueError.
Proof.
  intros E s e. unfold list_from_str. induction (split_ws s []) as [|w l IH]; cbn [decode_all]; [discriminate|]. destruct (from_str E w) as [v|x] eqn:R; cbn [rbind].
  - destruct (decode_all (from_str E) l); cbn [rbind]; [discriminate|exact IH].
  - intros Y. inversion Y; subst. eapply read_errors. exact R.
Qed.
(** of the names of one value the last declared is written *)
Lemma dget_dset : forall (k k' : Z) (n : str) d, dget Z.eqb k (dset Z.eqb k' n d) = if k' =? k then Some n else dget Z.eqb k d.
Proof.
  induction d as [|[u m] d IH]; cbn [dset dget]; [reflexivity|]. destruct (u =? k') eqn:A; cbn [dget].
  - apply Z.eqb_eq in A. subst u. destruct (k' =? k); reflexivity.
  - rewrite IH. destruct (u =? k) eqn:B; [|reflexivity]. destruct (k' =? k) eqn:C; [|reflexivity]. apply Z.eqb_eq in B, C. subst. rewrite Z.eqb_refl in A. discriminate.
Qed.
Theorem write_last : forall decode aliases E n v a b, init_enum decode aliases = Ok E -> decode = a ++ (n, v) :: b -> (forall m, ~ In (m, v) b) -> to_str E (Some v) = Some n.
Proof.
  intros d al E n v a b H -> B. apply init_encode in H. unfold to_str. rewrite H. assert (X : dget Z.eqb v (make_encode (a ++ (n, v) :: b)) = Some n); [|rewrite X; reflexivity].
  clear H. unfold make_encode. induction b as [|[m u] b IH] using rev_ind.
  - rewrite fold_left_app. cbn [fold_left fst snd]. rewrite dget_dset, Z.eqb_refl. reflexivity.
  - rewrite app_comm_cons, app_assoc, fold_left_app. cbn [fold_left fst snd]. rewrite dget_dset. destruct (u =? v) eqn:Q; [apply Z.eqb_eq in Q; subst; exfalso; apply (B m); apply in_app_iff; right; left; reflexivity|]. apply IH. intros k Hk. apply (B k). apply in_app_iff. left. exact Hk.
Qed.
(** ** dictionaries: the text is that of the keys in order, whatever order they are in *)
Lemma zsorted_unique : forall a b : list Z, StronglySorted (fun x y => (x ?= y) <> Gt) a -> StronglySorted (fun x y => (x ?= y) <> Gt) b -> Permutation a b -> a = b.
Proof.
  induction a as [|x a IH]; intros b Ha Hb P; [apply Permutation_nil in P; congruence|]. destruct b as [|y b]; [apply Permutation_sym, Permutation_nil in P; discriminate|]. inversion Ha as [|? ? A1 A2]; subst. inversion Hb as [|? ? B1 B2]; subst.
  assert (Q : x = y).
  { assert (Hx : In x (y :: b)) by (eapply Permutation_in; [exact P|left; reflexivity]). assert (Hy : In y (x :: a)) by (eapply Permutation_in; [symmetry; exact P|left; reflexivity]). destruct Hx as [Hx|Hx]; [congruence|]. destruct Hy as [Hy|Hy]; [congruence|].
    rewrite Forall_forall in A2, B2. specialize (A2 y Hy). specialize (B2 x Hx). change (x <= y) in A2. change (y <= x) in B2. lia. }
  subst y. f_equal. apply IH; [exact A1|exact B1|]. eapply Permutation_cons_inv. exact P.
Qed.
Theorem dict_same : forall E a b, Permutation a b -> dict_to_str E a true = dict_to_str E b true.
Proof.
  intros E a b P. unfold dict_to_str. destruct (sort_spec Z.compare good_Z a) as [A1 A2]. destruct (sort_spec Z.compare good_Z b) as [B1 B2]. rewrite (zsorted_unique (sort Z.compare a) (sort Z.compare b) A1 B1); [reflexivity|]. eapply perm_trans; [symmetry; exact A2|]. eapply perm_trans; [exact P|exact B2].
Qed.
Theorem dict_keys_round : forall decode aliases E keys sorted, distinct decode aliases -> NoDup (map snd decode) -> init_enum decode aliases = Ok E -> (forall v, In v keys -> exists n, In (n, v) decode /\ word n) ->
  exists s l, dict_to_str E keys sorted = Ok s /\ list_from_str (from_str E) s = Ok l /\ Permutation keys l /\ (sorted = true -> StronglySorted Z.le l).
Proof.
  intros d al E keys sorted D N H X. unfold dict_to_str. set (l := if sorted then sort Z.compare keys else keys). assert (P : Permutation keys l) by (unfold l; destruct sorted; [apply (sort_spec Z.compare good_Z)|reflexivity]). destruct (list_round d al E l D N H) as (s & A & B); [intros v Hv; apply X; eapply Permutation_in; [symmetry; exact P|exact Hv]|].
  exists s, l. repeat split; try assumption. intros ->. exact (proj1 (sort_spec Z.compare good_Z keys)).
Qed.

(** ** What is not so *)
(** a text of many values is read as a dictionary of the last one only; one of none cannot be read *)
Lemma dict_last : forall decoder l x r, dict_loop decoder l x = Ok r -> l <> [] -> exists v s, r = Some (v, s) /\ last l [] = s /\ decoder s = Ok v.
Proof.
  induction l as [|s l IH]; intros x r H N; [congruence|]. cbn [dict_loop] in H. destruct (decoder s) as [v|] eqn:D; [|discriminate]. cbn [rbind] in H. destruct l as [|t l]; [cbn [dict_loop] in H; inversion H; subst; exists v, s; auto|]. destruct (IH (Some (v, s)) r H) as (w & u & A & B & C); [discriminate|]. exists w, u. repeat split; assumption.
Qed.
Theorem dict_read_refuted : forall decoder src d, dict_from_str decoder src = Ok d -> exists v s, d = [(v, s)] /\ s = last (split_ws src []) [] /\ decoder s = Ok v.
Proof.
  intros decoder src d H. unfold dict_from_str in H. destruct (split_ws src []) as [|a l] eqn:S0; [discriminate|]. destruct (dict_loop decoder (a :: l) None) as [r|] eqn:L; [|discriminate]. cbn [rbind] in H. destruct (dict_last _ _ _ _ L) as (v & s & -> & A & B); [discriminate|]. exists v, s. split; [congruence|]. auto.
Qed.

(** ** Examples *)
Example ex_last : exists E, init_enum [(lit "Grey", 1); (lit "Gray", 1); (lit "Red", 2)] [] = Ok E /\ to_str E (Some 1) = Some (lit "Gray") /\ list_from_str (from_str E) (lit " Red  Grey ") = Ok [2; 1] /\ list_from_str (from_str E) (lit "Red Blue") = Err ValueError.
Proof. eexists. split; [reflexivity|]. repeat split; vm_compute; reflexivity. Qed.
Definition fruit := [(lit "Apple", 1); (lit "Pear", 2); (lit "Orange", 3)].
Definition fruit_aliases := [(Some (lit "Pomme"), lit "Apple"); (None, lit "Pear"); (Some (lit "Apfel"), lit "Pomme")].
Example ex_fruit : distinct fruit fruit_aliases /\ NoDup (map snd fruit) /\ (forall n v, In (n, v) fruit -> word n) /\
  exists E, init_enum fruit fruit_aliases = Ok E /\ from_str E (lit " Apfel ") = Ok 1 /\ from_str E (lit "apple") = Err ValueError /\ to_str E (Some 1) = Some (lit "Apple") /\ to_str E None = Some (lit "Pear") /\ to_str E (Some 9) = Some (lit "Pear") /\
  dict_to_str E [3; 1] true = Ok (lit "Apple Orange") /\ list_from_str (from_str E) (lit "Apple  Orange Apple") = Ok [1; 3; 1] /\ dict_from_str (from_str E) (lit "Apple Orange") = Ok [(3, lit "Orange")] /\ dict_from_str (from_str E) [] = Err NameError.
Proof.
  split; [|split; [|split]].
  - unfold distinct. cbn. repeat constructor; cbn; intuition discriminate.
  - cbn. repeat constructor; cbn; intuition discriminate.
  - intros n v [X|[X|[X|[]]]]; inversion X; subst; (split; [discriminate|]); intros c Hc; cbn in Hc; repeat (destruct Hc as [<-|Hc]; [reflexivity|]); contradiction.
  - eexists. split; [reflexivity|]. repeat split; vm_compute; reflexivity.
Qed.
Print Assumptions read_exact.
Print Assumptions read_errors.
Print Assumptions made_exact.
Print Assumptions default_exact.
Print Assumptions write_exact.
Print Assumptions value_round.
Print Assumptions list_round.
Print Assumptions dict_same.
Print Assumptions dict_keys_round.
Print Assumptions dict_read_refuted.
Print Assumptions list_read_exact.
Print Assumptions list_errors.
Print Assumptions write_last.
