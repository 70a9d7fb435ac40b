(** C79-C80: content models of XML elements. *)
From Coq Require Import Sorting.Sorted.
From Verif Require Import Py Num UriModel HttpModel CmSpec CmModel CmProofs CmMain.

(** ** Words and particles *)
Fixpoint fulls (l : list particle) : Prop := match l with [] => True | p :: r => full p /\ fulls r end.
Lemma fulls_in : forall l, fulls l <-> Forall full l.
Proof.
  induction l as [|p l IH]; cbn [fulls]; [split; constructor|]. rewrite IH. split; [intros [H1 H2]; constructor; assumption|intros H; inversion H; auto].
Qed.
Lemma seq_word : forall l, Forall (fun p => exists w, matched p w) l -> exists w, seqw mk l w.
Proof.
  intros l F. induction F as [|p l (u & Hu) F (v & Hv)]; [exists []; reflexivity|]. exists (u ++ v). cbn [seqw]. exists u, v. auto.
Qed.
Lemma some_word : forall p, full p -> exists w, matched p w.
Proof.
  unfold matched. induction p as [i n o|o l IH|o l IH] using particle_ind2; intros Fp.
  - exists [(i, n)]. cbn [words]. apply times_one. reflexivity.
  - destruct Fp as [N Fl]. change (fulls l) in Fl. apply fulls_in in Fl. destruct l as [|p l]; [congruence|]. inversion IH; subst. inversion Fl; subst.
    destruct (H1 H3) as (w & Hw). exists w. rewrite words_choice. apply times_one. left. exact Hw.
  - destruct Fp as [N Fl]. change (fulls l) in Fl. apply fulls_in in Fl. destruct (seq_word l) as (w & Hw).
    { apply Forall_forall. intros p Hp. rewrite Forall_forall in IH, Fl. apply IH; [exact Hp|apply Fl; exact Hp]. }
    exists w. rewrite words_seq. apply times_one. exact Hw.
Qed.
Lemma reach : forall p x, full p -> In x (leaves p) -> exists u s, matched p (u ++ x :: s).
Proof.
  unfold matched. induction p as [i n o|o l IH|o l IH] using particle_ind2; intros x Fp Hx.
  - destruct Hx as [<-|[]]. exists [], []. cbn [words app]. apply times_one. reflexivity.
  - destruct Fp as [N Fl]. change (fulls l) in Fl. apply fulls_in in Fl. cbn [leaves] in Hx. apply in_flat_map in Hx as (p & Hp & Hx).
    rewrite Forall_forall in IH, Fl. destruct (IH p Hp x (Fl p Hp) Hx) as (u & s & H). exists u, s. rewrite words_choice. apply times_one. apply anyw_in. eauto.
  - destruct Fp as [N Fl]. change (fulls l) in Fl. apply fulls_in in Fl. cbn [leaves] in Hx.
    assert (G : exists u s, seqw mk l (u ++ x :: s)).
    { clear N. induction IH as [|p l Hp _ IH]; [destruct Hx|]. inversion Fl; subst. cbn [flat_map] in Hx. apply in_app_or in Hx as [Hx|Hx].
      - destruct (Hp x H1 Hx) as (u & s & H). destruct (seq_word l) as (v & Hv).
        { apply Forall_forall. intros q Hq. apply some_word. rewrite Forall_forall in H2. apply H2. exact Hq. }
        exists u, (s ++ v). cbn [seqw]. exists (u ++ x :: s), v. split; [rewrite <- app_assoc; reflexivity|auto].
      - destruct (IH H2 Hx) as (u & s & H). destruct (some_word p H1) as (v & Hv). exists (v ++ u), s. cbn [seqw]. exists v, (u ++ x :: s). split; [symmetry; apply app_assoc|auto]. }
    destruct G as (u & s & G). exists u, s. rewrite words_seq. apply times_one. exact G.
Qed.
(** every particle leads to the end *)
Lemma live : forall h p T, full p -> built h p T -> (exists v, KT h T v) -> forall x, In x (leaves p) -> exists v, K h (hp_get h (fst x)) v.
Proof.
  intros h. induction p as [i n o|o l IH|o l IH] using particle_ind2; intros T Fp B (v & Kv) x Hx.
  - destruct Hx as [<-|[]]. cbn [fst]. exists v. rewrite K_sem. apply (KT_teq _ _ _ _ B). apply KT_more. left. exact Kv.
  - destruct Fp as [_ Fl]. change (fulls l) in Fl. apply fulls_in in Fl. rewrite built_choice in B. cbn [leaves] in Hx.
    assert (E : exists v, KT h (more (rep o) (firsts (PChoice o l)) T) v) by (exists v; apply KT_more; auto). revert B E.
    generalize (more (rep o) (firsts (PChoice o l)) T) as T'. intros T' B E. clear v Kv.
    induction IH as [|p l Hp _ IH]; [destruct Hx|]. inversion Fl; subst. destruct B as [B1 B2]. cbn [flat_map] in Hx. apply in_app_or in Hx as [Hx|Hx].
    + eapply Hp; eassumption.
    + apply IH; assumption.
  - destruct Fp as [_ Fl]. change (fulls l) in Fl. apply fulls_in in Fl. pose proof B as B0. rewrite built_seq in B. cbn [leaves] in Hx.
    assert (E : exists v, KT h (more (rep o) (firsts (PSeq o l)) T) v) by (exists v; apply KT_more; auto). revert B E.
    generalize (more (rep o) (firsts (PSeq o l)) T) as T'. intros T' B E. clear v Kv B0.
    induction IH as [|p l Hp _ IH]; [destruct Hx|]. inversion Fl; subst. destruct B as [B1 B2]. cbn [flat_map] in Hx. apply in_app_or in Hx as [Hx|Hx].
    + eapply Hp; [assumption|exact B1| |exact Hx].
      destruct (seq_word l) as (u & Hu). { apply Forall_forall. intros q Hq. apply some_word. rewrite Forall_forall in H2. apply H2. exact Hq. }
      destruct E as (v & Kv). exists (u ++ v). apply KT_after. destruct u as [|y u]; [right; split; [apply nuls_ok; exact Hu|exact Kv]|left].
      assert (A : built h (PSeq Once l) T').
      { rewrite built_seq. clear -B2. assert (X : teq T' (more (rep Once) (firsts (PSeq Once l)) T')).
        { split; [intros x; cbn [more fst rep]; intuition discriminate|tauto]. }
        revert X B2. generalize (more (rep Once) (firsts (PSeq Once l)) T') as T2. intros T2 X. induction l as [|c l IH]; cbn [built_all]; [tauto|].
        intros [B1 B2]. split; [eapply built_teq; [|exact B1]; apply after_teq; exact X|apply IH; exact B2]. }
      apply (accepts h (PSeq Once l) T' A). exists (y :: u), v. split; [reflexivity|]. split; [discriminate|]. split; [|exact Kv]. unfold matched. rewrite words_seq. apply times_one. exact Hu.
    + apply IH; assumption.
Qed.
Lemma stays : forall h p T, built h p T -> forall x y, In x (leaves p) -> has (hp_get h (fst x)) y -> In y (leaves p) \/ fst T y.
Proof.
  intros h. induction p as [i n o|o l IH|o l IH] using particle_ind2; intros T B x y Hx Hy.
  - destruct Hx as [<-|[]]. cbn [fst] in Hy. apply (proj1 B) in Hy. cbn [more fst] in Hy. destruct Hy as [H|[_ [<-|[]]]]; [right; exact H|left; left; reflexivity].
  - rewrite built_choice in B. assert (E : forall z, fst (more (rep o) (firsts (PChoice o l)) T) z -> In z (leaves (PChoice o l)) \/ fst T z).
    { cbn [more fst]. intros z [H|[_ H]]; [right; exact H|left; apply firsts_leaves; exact H]. }
    revert B E. generalize (more (rep o) (firsts (PChoice o l)) T) as T'. intros T' B E. 
    assert (G : In y (flat_map leaves l) \/ fst T' y); [|destruct G as [G|G]; [left; exact G|apply E; exact G]].
    cbn [leaves] in Hx. clear E. induction IH as [|p l Hp _ IH]; [destruct Hx|]. destruct B as [B1 B2]. cbn [flat_map] in *. apply in_app_or in Hx as [Hx|Hx].
    + destruct (Hp _ B1 x y Hx Hy) as [H|H]; [left; apply in_or_app; auto|right; exact H].
    + destruct (IH Hx B2) as [H|H]; [left; apply in_or_app; auto|right; exact H].
  - rewrite built_seq in B. assert (E : forall z, fst (more (rep o) (firsts (PSeq o l)) T) z -> In z (leaves (PSeq o l)) \/ fst T z).
    { cbn [more fst]. intros z [H|[_ H]]; [right; exact H|left; apply firsts_leaves; exact H]. }
    revert B E. generalize (more (rep o) (firsts (PSeq o l)) T) as T'. intros T' B E. 
    assert (G : In y (flat_map leaves l) \/ fst T' y); [|destruct G as [G|G]; [left; exact G|apply E; exact G]].
    cbn [leaves] in Hx. clear E. induction IH as [|p l Hp _ IH]; [destruct Hx|]. destruct B as [B1 B2]. cbn [flat_map] in *. apply in_app_or in Hx as [Hx|Hx].
    + destruct (Hp _ B1 x y Hx Hy) as [H|H]; [left; apply in_or_app; auto|]. cbn [after fst] in H. destruct H as [H|[_ H]]; [left; apply in_or_app; right; apply seqfirsts_leaves; exact H|right; exact H].
    + destruct (IH Hx B2) as [H|H]; [left; apply in_or_app; auto|right; exact H].
Qed.

(** ** The element type *)
Definition T0 : target := ((fun _ => False), True).
(** the model of a content *)
Definition model_of (c : content) (p : particle) : Prop :=
  match c with CChildren q => p = q | CMixed l => p = mixed l | _ => False end.
Record model (e : etype) (m : pmap) (p : particle) : Prop := mkModel {
  m_wf : wf m;
  m_has : forall x, has m x <-> In x (firsts p);
  m_K : forall w, K (e_heap e) m w <-> matched p w;
  m_built : built (e_heap e) p T0;
  m_maps : forall x, In x (leaves p) -> wf (hp_get (e_heap e) (fst x));
  m_full : full p \/ leaves p = [];
  m_word : exists w, matched p w }.
Lemma teq_end : teq (sem [([], None)]) T0.
Proof.
  split; [|split; [exact (fun _ => I)|reflexivity]]. intros x. cbn [sem fst T0]. split; [|tauto]. intros (l & E & _). cbn [pm_find] in E. destruct (str_eqb (snd x) []); discriminate.
Qed.
Lemma leaves_mixed : forall l, leaves (mixed l) = l.
Proof. intros l. unfold mixed. cbn [leaves]. induction l as [|[i n] l IH]; [reflexivity|]. cbn [map flat_map leaves fst snd app]. rewrite IH. reflexivity. Qed.
Lemma full_mixed : forall l, full (mixed l) \/ leaves (mixed l) = [].
Proof.
  intros l. destruct l as [|x l]; [right; reflexivity|left]. split; [discriminate|]. change (fulls (map (fun x => PName (fst x) (snd x) Once) (x :: l))).
  apply fulls_in. apply Forall_forall. intros p Hp. apply in_map_iff in Hp as (y & <- & _). exact I.
Qed.
Lemma matched_nil : forall h p, built h p T0 -> forall w, (KF h (firsts p) w \/ (nul p = true /\ w = [])) <-> matched p w.
Proof.
  intros h p B w. rewrite (accepts _ _ _ B). split.
  - intros [(u & v & -> & _ & Mu & Kv)|[N ->]]; [|apply nul_ok; exact N]. destruct v as [|x v]; [rewrite app_nil_r; exact Mu|destruct Kv as [[] _]].
  - intros Mw. destruct w as [|x w]; [right; split; [apply nul_ok; exact Mw|reflexivity]|left]. exists (x :: w), []. rewrite app_nil_r. split; [reflexivity|]. split; [discriminate|]. split; [exact Mw|exact I].
Qed.
Lemma build_model_ok : forall c p, content_ok c -> model_of c p -> exists m, e_map (build_model c) = Some m /\ model (build_model c) m p.
Proof.
  intros c p Hc Hp. assert (N : named p) by (destruct c; cbn in Hc, Hp; subst; try contradiction; tauto).
  destruct N as [D N]. destruct (adds_ok (firsts p) [] wf_nil (names_firsts p N)) as (A1 & A2 & A3).
  assert (A2' : forall y, has (adds [] (firsts p)) y <-> In y (firsts p)).
  { intros y. rewrite A2. split; [intros [(l & E & _)|H]; [discriminate|exact H]|auto]. }
  assert (A3' : ~ ends (adds [] (firsts p))) by (rewrite A3; discriminate).
  assert (KM : forall h m, (forall x, has m x <-> In x (firsts p)) -> (ends m <-> nul p = true) -> built h p T0 -> forall w, K h m w <-> matched p w).
  { intros h m H1 H2 B w. rewrite <- (matched_nil _ _ B). destruct w as [|x w]; cbn [K KF]; [rewrite H2; tauto|]. rewrite H1. intuition discriminate. }
  destruct c as [| |l|q]; try contradiction; cbn [model_of] in Hp; subst p.
  - cbn [build_model]. rewrite seek_eq. cbn [fst]. eexists. split; [reflexivity|]. cbn [e_heap e_content].
    set (m := pm_put [] None (adds [] (firsts (mixed l)))).
    assert (Wm : wf m) by (apply put_end_wf; exact A1).
    assert (Hm : forall x, has m x <-> In x (firsts (mixed l))) by (intros x; unfold m; rewrite has_end by exact A1; apply A2').
    assert (Em : ends m) by apply ends_end.
    destruct (build_ok (mixed l) m [] Wm N D) as (B1 & _ & B3).
    assert (B : built (build (mixed l) m []) (mixed l) T0).
    { unfold mixed in B1 |- *. rewrite built_choice in B1 |- *. fold (mixed l) in *. set (h := build (mixed l) m []) in *. clearbody h.
      assert (E : teq (more (rep Star) (firsts (mixed l)) (sem m)) (more (rep Star) (firsts (mixed l)) T0)).
      { split; cbn [more fst snd sem T0 rep]; [intros x; rewrite Hm; intuition|tauto]. }
      revert B1 E. generalize (more (rep Star) (firsts (mixed l)) (sem m)) as Ta, (more (rep Star) (firsts (mixed l)) T0) as Tb. clear. intros Ta Tb B E.
      induction (map (fun x => PName (fst x) (snd x) Once) l) as [|c r IH]; [exact I|]. destruct B as [B1 B2]. split; [eapply built_teq; eassumption|apply IH; exact B2]. }
    constructor; try assumption.
    + apply (KM (build (mixed l) m []) m); [exact Hm| |exact B]. split; [intros _; reflexivity|intros _; exact Em].
    + intros x Hx. apply B3. apply in_map. exact Hx.
    + apply full_mixed.
    + exists []. apply nul_ok. reflexivity.
  - cbn [build_model]. rewrite seek_eq. eexists. split; [reflexivity|]. cbn [e_heap e_content].
    assert (W0 : wf [([], None)]) by (apply (put_end_wf []); apply wf_nil).
    destruct (build_ok q [([], None)] [] W0 N D) as (B1 & _ & B3). apply (built_teq _ _ _ _ teq_end) in B1.
    constructor; try assumption.
    + destruct (nul q); cbn [negb]; [apply put_end_wf|]; exact A1.
    + intros x. destruct (nul q); cbn [negb]; [rewrite has_end by exact A1|]; apply A2'.
    + apply KM; [| |exact B1].
      * intros x. destruct (nul q); cbn [negb]; [rewrite has_end by exact A1|]; apply A2'.
      * destruct (nul q); cbn [negb]; [split; [reflexivity|intros _; apply ends_end]|split; [intros X; contradiction|discriminate]].
    + intros x Hx. apply B3. apply in_map. exact Hx.
    + left. apply Hc.
    + apply some_word. apply Hc.
Qed.

(** ** The cursor *)
Definition KS (e : etype) (m : pmap) (s : cstate) (w : list (nat * str)) : Prop :=
  match s with
  | START_STATE => K (e_heap e) m w
  | PARTICLE_STATE l => exists i, In i l /\ K (e_heap e) (hp_get (e_heap e) i) w
  | END_STATE => False
  end.
Definition inside (p : particle) (s : cstate) : Prop :=
  match s with
  | START_STATE => True
  | PARTICLE_STATE l => l <> [] /\ forall i, In i l -> exists n, In (i, n) (leaves p)
  | END_STATE => False
  end.
(** the names that can come from state s *)
Definition goes (e : etype) (m : pmap) (s : cstate) (w : list str) : Prop := exists u, map snd u = w /\ KS e m s u.
Lemma follow_end : forall h l new, (forall i, In i l -> wf (hp_get h i)) ->
  (follow h [] l new = None <-> exists i, In i l /\ ends (hp_get h i)) /\ (follow h [] l new = None \/ follow h [] l new = Some new).
Proof.
  intros h l. induction l as [|i l IH]; intros new W; cbn [follow].
  - split; [|right; reflexivity]. split; [discriminate|intros (i & [] & _)].
  - assert (Wi : wf (hp_get h i)) by (apply W; left; reflexivity). assert (Wl : forall j, In j l -> wf (hp_get h j)) by (intros j Hj; apply W; right; exact Hj).
    destruct (pm_find [] (hp_get h i)) as [[t|]|] eqn:E.
    + apply (proj2 Wi) in E. exfalso. tauto.
    + split; [|left; reflexivity]. split; [|reflexivity]. intros _. exists i. split; [left; reflexivity|exact E].
    + destruct (IH new Wl) as [I1 I2]. split; [|exact I2]. rewrite I1. split; [intros (j & Hj & Ej); exists j; split; [right; exact Hj|exact Ej]|].
      intros (j & [<-|Hj] & Ej); [unfold ends in Ej; congruence|eauto].
Qed.
Lemma follow_name : forall h n l new, n <> [] -> (forall i, In i l -> wf (hp_get h i)) ->
  exists l', follow h n l new = Some l' /\ forall j, In j l' <-> In j new \/ exists i, In i l /\ has (hp_get h i) (j, n).
Proof.
  intros h n l. induction l as [|i l IH]; intros new N W; cbn [follow].
  - exists new. split; [reflexivity|]. intros j. split; [auto|intros [H|(i & [] & _)]; exact H].
  - assert (Wi : wf (hp_get h i)) by (apply W; left; reflexivity). assert (Wl : forall j, In j l -> wf (hp_get h j)) by (intros j Hj; apply W; right; exact Hj).
    destruct (pm_find n (hp_get h i)) as [[t|]|] eqn:E.
    + destruct (IH (new ++ t) N Wl) as (l' & E' & H). exists l'. split; [exact E'|]. intros j. rewrite H, in_app_iff. split.
      * intros [[Hn|Ht]|(k & Hk & Ek)]; [left; exact Hn|right; exists i; split; [left; reflexivity|exists t; auto]|right; exists k; split; [right; exact Hk|exact Ek]].
      * intros [Hn|(k & [<-|Hk] & Ek)]; [auto| |right; eauto]. left. right. destruct Ek as (t' & Et & Hj). cbn [fst snd] in *. congruence.
    + apply (proj2 Wi) in E. contradiction.
    + destruct (IH new N Wl) as (l' & E' & H). exists l'. split; [exact E'|]. intros j. rewrite H. split.
      * intros [Hn|(k & Hk & Ek)]; [auto|right; exists k; split; [right; exact Hk|exact Ek]].
      * intros [Hn|(k & [<-|Hk] & Ek)]; [auto| |right; eauto]. destruct Ek as (t' & Et & _). cbn [snd] in Et. congruence.
Qed.
Section cursor.
  Context (e : etype) (m : pmap) (p : particle) (Em : e_map e = Some m) (M : model e m p).
  Lemma maps_in : forall l, (forall i, In i l -> exists n, In (i, n) (leaves p)) -> forall i, In i l -> wf (hp_get (e_heap e) i).
  Proof. intros l H i Hi. destruct (H i Hi) as (n & Hn). apply (m_maps _ _ _ M _ Hn). Qed.
  Lemma next_end : forall s, inside p s -> (fst (next e s []) = true <-> goes e m s []).
  Proof.
    intros s Hs. assert (G : goes e m s [] <-> KS e m s []).
    { unfold goes. split; [intros (u & E & H); apply map_eq_nil in E; subst; exact H|intros H; exists []; auto]. }
    rewrite G. clear G. destruct s as [|l|]; [| |destruct Hs]; cbn [next KS]; cbn [K].
    - rewrite Em. unfold ends. destruct (pm_find [] m) as [[t|]|] eqn:E; cbn [fst]; [|tauto|split; discriminate].
      apply (proj2 (m_wf _ _ _ M)) in E. exfalso. tauto.
    - destruct Hs as [Nl Hl]. destruct (follow_end (e_heap e) l [] (maps_in l Hl)) as [F1 F2]. cbn [K]. rewrite <- F1. destruct F2 as [-> | ->]; cbn [fst]; split; congruence.
  Qed.
  Lemma next_name : forall s n, inside p s -> n <> [] ->
    match next e s n with
    | (true, s') => inside p s' /\ s' <> START_STATE /\ forall v, goes e m s' v <-> goes e m s (n :: v)
    | (false, _) => forall v, ~ goes e m s (n :: v)
    end.
  Proof.
    intros s n Hs N. destruct s as [|l|]; [| |destruct Hs]; cbn [next].
    - rewrite Em. destruct (pm_find n m) as [[t|]|] eqn:E.
      + assert (Ht : forall i, In i t <-> has m (i, n)).
        { intros i. unfold has. cbn [fst snd]. rewrite E. split; [eauto|intros (l & X & H); congruence]. }
        split; [|split; [discriminate|]].
        * split; [apply (proj2 (m_wf _ _ _ M)) in E; tauto|]. intros i Hi. exists n. apply firsts_leaves. apply (m_has _ _ _ M). apply Ht. exact Hi.
        * intros v. unfold goes. cbn [KS]. split.
          -- intros (u & <- & i & Hi & Ku). exists ((i, n) :: u). split; [reflexivity|]. cbn [K fst]. split; [apply Ht; exact Hi|exact Ku].
          -- intros ([|[i k] u] & Eu & Ku); [discriminate|]. cbn [map snd K fst] in *. inversion Eu; subst. destruct Ku as [K1 K2]. exists u. split; [reflexivity|]. exists i. split; [apply Ht; exact K1|exact K2].
      + apply (proj2 (m_wf _ _ _ M)) in E. contradiction.
      + intros v ([|[i k] u] & Eu & Ku); [discriminate|]. cbn [map snd KS K fst] in *. inversion Eu; subst. destruct Ku as [(l & X & _) _]. cbn [snd] in X. congruence.
    - destruct Hs as [Nl Hl]. destruct (follow_name (e_heap e) n l [] N (maps_in l Hl)) as (l' & -> & H).
      assert (G : forall v, (exists u, map snd u = v /\ exists j, In j l' /\ K (e_heap e) (hp_get (e_heap e) j) u) <-> goes e m (PARTICLE_STATE l) (n :: v)).
      { intros v. unfold goes. cbn [KS]. split.
        - intros (u & <- & j & Hj & Ku). apply H in Hj as [[]|(i & Hi & Hj)]. exists ((j, n) :: u). split; [reflexivity|]. exists i. split; [exact Hi|]. cbn [K fst]. auto.
        - intros ([|[j k] u] & Eu & i & Hi & Ku); [discriminate|]. cbn [map snd K fst] in *. inversion Eu; subst. exists u. split; [reflexivity|]. exists j. split; [apply H; right; exists i; split; [exact Hi|apply Ku]|apply Ku]. }
      destruct l' as [|j l'].
      + intros v Gv. apply G in Gv as (u & _ & j & [] & _).
      + split; [|split; [discriminate|exact G]]. split; [discriminate|]. intros i Hi. apply H in Hi as [[]|(k & Hk & Hi)]. destruct (Hl k Hk) as (nk & Hnk).
        destruct (stays _ _ _ (m_built _ _ _ M) (k, nk) (i, n) Hnk Hi) as [X|[]]. exists n. exact X.
  Qed.
  Lemma alive : forall s, inside p s -> exists v, goes e m s v.
  Proof.
    intros s Hs. destruct s as [|l|]; [| |destruct Hs].
    - destruct (m_word _ _ _ M) as (w & Hw). exists (map snd w), w. split; [reflexivity|]. apply (m_K _ _ _ M). exact Hw.
    - destruct Hs as [Nl Hl]. destruct l as [|i l]; [congruence|]. destruct (Hl i (or_introl eq_refl)) as (n & Hn).
      destruct (m_full _ _ _ M) as [Fp|Fp]; [|rewrite Fp in Hn; destruct Hn].
      destruct (live _ _ _ Fp (m_built _ _ _ M) (ex_intro _ [] I) (i, n) Hn) as (v & Kv). exists (map snd v), v. split; [reflexivity|]. exists i. split; [left; reflexivity|exact Kv].
  Qed.
End cursor.

(** the cursor's next, called for one name after the other; None when one of them is refused *)
Fixpoint run (e : etype) (s : cstate) (w : list str) : option cstate :=
  match w with
  | [] => Some s
  | n :: r => match next e s n with (true, s') => run e s' r | (false, _) => None end
  end.
Definition names (w : list str) : Prop := Forall (fun n => n <> []) w.
Lemma run_ok : forall e m p, e_map e = Some m -> model e m p -> forall w s, names w -> inside p s ->
  match run e s w with
  | Some s' => inside p s' /\ forall v, goes e m s' v <-> goes e m s (w ++ v)
  | None => forall v, ~ goes e m s (w ++ v)
  end.
Proof.
  intros e m p Em M. induction w as [|n w IH]; intros s N Hs; cbn [run app]; [split; [exact Hs|tauto]|]. inversion N; subst.
  pose proof (next_name e m p Em M s n Hs H1) as X. destruct (next e s n) as [[|] s'].
  - destruct X as (X1 & _ & X2). specialize (IH s' H2 X1). destruct (run e s' w) as [s2|].
    + destruct IH as [I1 I2]. split; [exact I1|]. intros v. rewrite I2, X2. tauto.
    + intros v. rewrite <- X2. apply IH.
  - intros v. apply X.
Qed.
Lemma valid_goes : forall c p m, content_ok c -> model_of c p -> model (build_model c) m p -> forall w, valid_children c w <-> goes (build_model c) m START_STATE w.
Proof.
  intros c p m Hc Hp M w. assert (A : goes (build_model c) m START_STATE w <-> allowed p w).
  { rewrite allowed_matched. unfold goes. cbn [KS]. split; intros (u & H1 & H2); exists u; [split; [apply (m_K _ _ _ M); exact H2|exact H1]|split; [exact H2|apply (m_K _ _ _ M); exact H1]]. }
  rewrite A. clear A. destruct c as [| |l|q]; try contradiction; cbn [model_of valid_children] in *; subst p; [|tauto].
  unfold allowed, mixed. rewrite words_choice. cbn [times].
  assert (L : forall v, anyw (fun (_ : nat) n => [n]) (map (fun x => PName (fst x) (snd x) Once) l) v <-> exists n, v = [n] /\ In n (map snd l)).
  { intros v. rewrite anyw_in. split.
    - intros (q & Hq & Hv). apply in_map_iff in Hq as (x & <- & Hx). cbn [words times] in Hv. exists (snd x). split; [exact Hv|apply in_map; exact Hx].
    - intros (n & -> & Hn). apply in_map_iff in Hn as (x & <- & Hx). exists (PName (fst x) (snd x) Once). split; [apply in_map_iff; eauto|reflexivity]. }
  split.
  - intros F. induction F as [|n w Hn F IH]; [constructor|]. apply (rp_cons _ [n] w); [apply L; eauto|exact IH].
  - intros R. induction R as [|u v Lu R IH]; [constructor|]. apply L in Lu as (n & -> & Hn). constructor; assumption.
Qed.
Definition modelled (c : content) : Prop := match c with CMixed _ | CChildren _ => True | _ => False end.
Lemma modelled_of : forall c, modelled c -> exists p, model_of c p.
Proof. intros [| |l|p] H; try destruct H; eexists; reflexivity. Qed.

(** ** C79: the cursor *)
(** the cursor accepts the names of children one after the other as long as they can be the beginning of valid content *)
Theorem c79_prefix : forall c w, content_ok c -> names w ->
  ((exists s, run (build_model c) START_STATE w = Some s) <-> exists v, valid_children c (w ++ v)).
Proof.
  intros c w Hc N. destruct c as [| |l|q].
  - destruct w as [|[|a n] w]; [|inversion N; congruence|].
    + split; [intros _; exists []; reflexivity|intros _; eexists; reflexivity].
    + cbn. split; [intros (s & E); discriminate|intros (v & E); discriminate].
  - assert (X : forall w, names w -> run (build_model CAny) START_STATE w = Some START_STATE).
    { clear. intros w N. induction N as [|n w Hn N IH]; [reflexivity|]. destruct n as [|a n]; [congruence|]. exact IH. }
    split; [intros _; exists []; exact I|intros _; exists START_STATE; apply X; exact N].
  - destruct (build_model_ok _ (mixed l) Hc eq_refl) as (m & Em & M). pose proof (run_ok _ _ _ Em M w START_STATE N I) as R. destruct (run _ _ w) as [s|].
    + destruct R as [R1 R2]. split; [intros _|eauto]. destruct (alive _ _ _ M s R1) as (v & Gv). exists v. apply (valid_goes _ _ _ Hc eq_refl M). apply R2. exact Gv.
    + split; [intros (s & E); discriminate|]. intros (v & Hv). apply (valid_goes _ _ _ Hc eq_refl M) in Hv. exfalso. exact (R v Hv).
  - destruct (build_model_ok _ q Hc eq_refl) as (m & Em & M). pose proof (run_ok _ _ _ Em M w START_STATE N I) as R. destruct (run _ _ w) as [s|].
    + destruct R as [R1 R2]. split; [intros _|eauto]. destruct (alive _ _ _ M s R1) as (v & Gv). exists v. apply (valid_goes _ _ _ Hc eq_refl M). apply R2. exact Gv.
    + split; [intros (s & E); discriminate|]. intros (v & Hv). apply (valid_goes _ _ _ Hc eq_refl M) in Hv. exfalso. exact (R v Hv).
Qed.
(** and the end tag where the names before it are valid content *)
Theorem c79_end : forall c w s, content_ok c -> names w -> run (build_model c) START_STATE w = Some s ->
  (fst (next (build_model c) s []) = true <-> valid_children c w).
Proof.
  intros c w s Hc N R. assert (G : forall p, model_of c p -> fst (next (build_model c) s []) = true <-> valid_children c w).
  { intros p Hp. destruct (build_model_ok _ p Hc Hp) as (m & Em & M). pose proof (run_ok _ _ _ Em M w START_STATE N I) as X. rewrite R in X. destruct X as [X1 X2].
    rewrite (next_end _ _ _ Em M _ X1), (valid_goes _ _ _ Hc Hp M), X2, app_nil_r. tauto. }
  destruct c as [| |l|q]; [| |apply (G (mixed l)); reflexivity|apply (G q); reflexivity].
  - destruct w as [|[|a n] w]; [|inversion N; congruence|discriminate]. inversion R; subst. cbn. tauto.
  - assert (X : forall w, names w -> run (build_model CAny) START_STATE w = Some START_STATE).
    { clear. intros w N. induction N as [|n w Hn N IH]; [reflexivity|]. destruct n as [|a n]; [congruence|]. exact IH. }
    rewrite X in R by exact N. inversion R; subst. cbn. tauto.
Qed.
(** an element with an end tag is reported as invalid exactly if its children are not what was declared *)
Lemma check_run : forall e w s, check_children e s w = Ok None <-> exists s', run e s w = Some s' /\ fst (next e s' []) = true.
Proof.
  intros e. induction w as [|n w IH]; intros s; cbn [check_children run].
  - destruct (next e s []) as [[|] s'] eqn:E; cbn [fst].
    + split; [intros _; exists s; rewrite E; auto|reflexivity].
    + split; [destruct (expected e s'); discriminate|]. intros (s2 & X1 & X2). inversion X1; subst. rewrite E in X2. discriminate.
  - destruct (next e s n) as [[|] s'] eqn:E; [apply IH|]. split; [destruct (expected e s'); discriminate|intros (s2 & X & _); discriminate].
Qed.
Theorem c79_valid : forall c w, content_ok c -> names w -> (check_element (build_model c) false w = Ok None <-> valid_children c w).
Proof.
  intros c w Hc N. unfold check_element. rewrite check_run. split.
  - intros (s & R & E). apply (c79_end c w s Hc N R). exact E.
  - intros V. destruct (proj2 (c79_prefix c w Hc N)) as (s & R); [exists []; rewrite app_nil_r; exact V|]. exists s. split; [exact R|]. apply (c79_end c w s Hc N R). exact V.
Qed.
Print Assumptions c79_valid.

(** ** What is expected *)
Lemma ltb_total : forall a b, str_ltb a b = true \/ str_ltb b a = true \/ a = b.
Proof.
  induction a as [|x a IH]; intros [|y b]; cbn [str_ltb]; auto. rewrite !orb_true_iff, !andb_true_iff, !Z.ltb_lt, !Z.eqb_eq.
  destruct (Z.lt_trichotomy x y) as [H|[H|H]]; auto. subst. destruct (IH b) as [H|[H|H]]; auto. subst. auto.
Qed.
Lemma ins_sorted : forall x l, Sorted (fun a b => str_ltb a b = true) l -> Sorted (fun a b => str_ltb a b = true) (ins_name x l) /\
  (forall y, HdRel (fun a b => str_ltb a b = true) y l -> str_ltb y x = true -> HdRel (fun a b => str_ltb a b = true) y (ins_name x l)).
Proof.
  intros x l Sl. induction Sl as [|y l Sl [IH1 IH2] Hd]; cbn [ins_name]; [split; [repeat constructor|intros y _ H; constructor; exact H]|].
  destruct (str_eqb x y) eqn:E; [split; [constructor; assumption|auto]|]. apply str_eqb_neq in E. destruct (str_ltb y x) eqn:L.
  - split; [constructor; [exact IH1|apply IH2; [exact Hd|exact L]]|]. intros z Hz _. inversion Hz; subst. constructor. assumption.
  - destruct (ltb_total x y) as [H|[H|H]]; [|congruence|congruence]. split; [constructor; [constructor; assumption|constructor; exact H]|]. intros z _ Hz. constructor. exact Hz.
Qed.
Lemma sorted_names_sorted : forall l, Sorted (fun a b => str_ltb a b = true) (sorted_names l).
Proof. induction l as [|x l IH]; [constructor|]. cbn [sorted_names fold_right]. apply ins_sorted. exact IH. Qed.
Lemma ins_in : forall x l y, In y (ins_name x l) <-> y = x \/ In y l.
Proof.
  intros x l y. induction l as [|z l IH]; cbn [ins_name In]; [intuition|]. destruct (str_eqb x z) eqn:E; [apply str_eqb_eq in E; subst; cbn [In]; intuition|].
  destruct (str_ltb z x); cbn [In]; [rewrite IH|]; intuition.
Qed.
Lemma sorted_names_in : forall l y, In y (sorted_names l) <-> In y l.
Proof. induction l as [|x l IH]; intros y; [tauto|]. cbn [sorted_names fold_right In]. change (fold_right ins_name [] l) with (sorted_names l). rewrite ins_in, IH. intuition. Qed.
Lemma key_find : forall m n, In n (map fst m) <-> pm_find n m <> None.
Proof.
  intros m n. induction m as [|[k v] m IH]; cbn [map fst In pm_find]; [intuition|]. destruct (str_eqb n k) eqn:E.
  - apply str_eqb_eq in E. subst. split; [discriminate|auto].
  - apply str_eqb_neq in E. rewrite <- IH. intuition.
Qed.
Lemma key_name : forall m n, wf m -> n <> [] -> In n (map fst m) <-> exists j, has m (j, n).
Proof.
  intros m n W N. rewrite key_find. unfold has. cbn [fst snd]. split.
  - destruct (pm_find n m) as [[l|]|] eqn:E; [|apply (proj2 W) in E; contradiction|congruence]. intros _. apply (proj2 W) in E. destruct E as (_ & E & _). destruct l as [|j l]; [congruence|].
    exists j, (j :: l). split; [reflexivity|left; reflexivity].
  - intros (j & l & E & _). congruence.
Qed.
Lemma key_end : forall m, wf m -> In [] (map fst m) <-> ends m.
Proof.
  intros m W. rewrite key_find. unfold ends. destruct (pm_find [] m) as [[l|]|] eqn:E; [|split; congruence|split; congruence]. apply (proj2 W) in E. exfalso. tauto.
Qed.
(** at any point the error message lists, in order, the names that can come next, and says whether the end tag can *)
Theorem c79_expected : forall c w s, content_ok c -> modelled c -> names w -> run (build_model c) START_STATE w = Some s ->
  exists ns b, expected (build_model c) s = Ok (ns, b) /\ Sorted (fun x y => str_ltb x y = true) ns /\
    (forall n, In n ns <-> n <> [] /\ exists v, names v /\ valid_children c (w ++ n :: v)) /\ (b = true <-> valid_children c w).
Proof.
  intros c w s Hc Hm N R. destruct (modelled_of c Hm) as (p & Hp). destruct (build_model_ok _ p Hc Hp) as (m & Em & M).
  pose proof (run_ok _ _ _ Em M w START_STATE N I) as X. rewrite R in X. destruct X as [X1 X2].
  assert (NW : forall u, matched p u -> names (map snd u)).
  { intros u Mu. assert (Nm : names_ok p) by (destruct c; cbn in Hc, Hp; try contradiction; subst; apply Hc). 
    assert (Q : forall x, In x u -> In x (leaves p)).
    { apply (m_K _ _ _ M) in Mu. assert (Z : forall v m', (forall y, has m' y -> In y (leaves p)) -> K (e_heap (build_model c)) m' v -> forall x, In x v -> In x (leaves p)).
      { induction v as [|y v IHv]; intros m' Hm' Kv x Hx; [destruct Hx|]. destruct Kv as [K1 K2]. destruct Hx as [<-|Hx]; [apply Hm'; exact K1|]. eapply IHv; [|exact K2|exact Hx].
        intros z Hz. destruct (stays _ _ _ (m_built _ _ _ M) y z (Hm' y K1) Hz) as [Y|[]]. exact Y. }
      intros x Hx. eapply Z; [|exact Mu|exact Hx]. intros y Hy. apply firsts_leaves. apply (m_has _ _ _ M). exact Hy. }
    unfold names. rewrite Forall_map. apply Forall_forall. intros x Hx. unfold names_ok in Nm. rewrite Forall_forall in Nm. apply Nm. apply Q. exact Hx. }
  assert (NV : forall v, goes (build_model c) m START_STATE v -> names v).
  { intros v (u & <- & Ku). apply NW. apply (m_K _ _ _ M). exact Ku. }
  assert (G : forall ks, (forall n, n <> [] -> In n ks <-> exists v, goes (build_model c) m s (n :: v)) -> (In [] ks <-> goes (build_model c) m s []) ->
    exists ns b, Ok (sorted_names (filter (fun k => negb (str_eqb k [])) ks), existsb (str_eqb []) ks) = Ok (ns, b) /\ Sorted (fun x y => str_ltb x y = true) ns /\
    (forall n, In n ns <-> n <> [] /\ exists v, names v /\ valid_children c (w ++ n :: v)) /\ (b = true <-> valid_children c w)).
  { intros ks H1 H2. do 2 eexists. split; [reflexivity|]. split; [apply sorted_names_sorted|]. split.
    - intros n. rewrite sorted_names_in, filter_In, negb_true_iff, str_eqb_neq. split.
      + intros [K1 K2]. split; [exact K2|]. apply H1 in K1 as (v & Gv); [|exact K2]. exists v. apply X2 in Gv. split; [|apply (valid_goes _ _ _ Hc Hp M); exact Gv].
        apply NV in Gv. unfold names in Gv. apply Forall_app in Gv as [_ Gv]. inversion Gv; subst. assumption.
      + intros [K1 (v & _ & Hv)]. split; [|exact K1]. apply H1; [exact K1|]. exists v. apply X2. apply (valid_goes _ _ _ Hc Hp M). exact Hv.
    - rewrite (valid_goes _ _ _ Hc Hp M). rewrite <- (app_nil_r w). rewrite <- X2, <- H2, existsb_exists. split; [intros (x & Hx & E); apply str_eqb_eq in E; subst; exact Hx|intros H; exists []; auto]. }
  assert (L : forall i n, In (i, n) (leaves p) -> exists v, K (e_heap (build_model c)) (hp_get (e_heap (build_model c)) i) v).
  { intros i n Hn. destruct (m_full _ _ _ M) as [Fp|Fp]; [|rewrite Fp in Hn; destruct Hn]. exact (live _ _ _ Fp (m_built _ _ _ M) (ex_intro _ [] I) (i, n) Hn). }
  destruct s as [|l|]; [| |destruct X1]; cbn [expected].
  - rewrite Em. apply G.
    + intros n Nn. rewrite (key_name _ _ (m_wf _ _ _ M) Nn). unfold goes. cbn [KS]. split.
      * intros (j & Hj). destruct (L j n) as (v & Kv); [apply firsts_leaves; apply (m_has _ _ _ M); exact Hj|]. exists (map snd v), ((j, n) :: v). split; [reflexivity|]. cbn [K fst]. auto.
      * intros (v & [|[j k] u] & Eu & Ku); [discriminate|]. cbn [map snd] in Eu. inversion Eu; subst. exists j. apply Ku.
    + rewrite (key_end _ (m_wf _ _ _ M)). unfold goes. cbn [KS]. split; [intros E; exists []; auto|intros ([|x u] & Eu & Ku); [exact Ku|discriminate]].
  - destruct X1 as [Nl Hl]. assert (Wl := maps_in (build_model c) m p M l Hl). apply G.
    + intros n Nn. rewrite in_flat_map. unfold goes. cbn [KS]. split.
      * intros (i & Hi & Hk). apply (key_name _ _ (Wl i Hi) Nn) in Hk as (j & Hj). destruct (Hl i Hi) as (ni & Hni).
        destruct (stays _ _ _ (m_built _ _ _ M) (i, ni) (j, n) Hni Hj) as [Hl'|[]]. destruct (L j n Hl') as (v & Kv). exists (map snd v), ((j, n) :: v). split; [reflexivity|]. exists i. split; [exact Hi|]. cbn [K fst]. auto.
      * intros (v & [|[j k] u] & Eu & i & Hi & Ku); [discriminate|]. cbn [map snd] in Eu. inversion Eu; subst. exists i. split; [exact Hi|]. apply (key_name _ _ (Wl i Hi) Nn). exists j. apply Ku.
    + rewrite in_flat_map. unfold goes. cbn [KS]. split.
      * intros (i & Hi & Hk). apply (key_end _ (Wl i Hi)) in Hk. exists []. split; [reflexivity|]. exists i. auto.
      * intros ([|x u] & Eu & i & Hi & Ku); [|discriminate]. exists i. split; [exact Hi|]. apply (key_end _ (Wl i Hi)). exact Ku.
Qed.
Print Assumptions c79_expected.

(** ** C80: determinism *)
Lemma det_map_false : forall m, wf m -> det_map m = false <-> exists n i j, i <> j /\ has m (i, n) /\ has m (j, n).
Proof.
  intros m W. split.
  - intros E. assert (X : exists k l, In (k, Some l) m /\ (1 < length l)%nat).
    { clear W. unfold det_map in E. induction m as [|[k [l|]] m IH]; cbn [forallb snd] in E; [discriminate| |].
      - destruct (Nat.leb_spec (length l) 1) as [H|H]; cbn [andb] in E; [destruct (IH E) as (k' & l' & H1 & H2); exists k', l'; split; [right; exact H1|exact H2]|]. exists k, l. split; [left; reflexivity|exact H].
      - destruct (IH E) as (k' & l' & H1 & H2). exists k', l'. split; [right; exact H1|exact H2]. }
    destruct X as (k & l & H1 & H2). apply (find_nodup _ _ _ (proj1 W)) in H1. pose proof (proj2 W _ _ H1) as (_ & _ & D).
    destruct l as [|i [|j l]]; [cbn in H2; lia|cbn in H2; lia|]. exists k, i, j. inversion D; subst. split; [intros ->; apply H3; left; reflexivity|]. unfold has. cbn [fst snd]. split; exists (i :: j :: l); (split; [exact H1|]); [left; reflexivity|right; left; reflexivity].
  - intros (n & i & j & N & (l & E1 & H1) & (l' & E2 & H2)). cbn [fst snd] in *. assert (l' = l) by congruence. subst l'. unfold det_map. apply not_true_is_false. rewrite forallb_forall. intros X.
    specialize (X _ (find_in _ _ _ E1)). cbn [snd] in X. apply Nat.leb_le in X. destruct l as [|a [|b l]]; [destruct H1| |cbn in X; lia]. destruct H1 as [<-|[]]. destruct H2 as [<-|[]]. congruence.
Qed.
Lemma det_false : forall h p, det h p = false <-> exists x, In x (leaves p) /\ det_map (hp_get h (fst x)) = false.
Proof.
  intros h. induction p as [i n o|o l IH|o l IH] using particle_ind2.
  - cbn [det leaves]. split; [intros E; exists (i, n); split; [left; reflexivity|exact E]|intros (x & [<-|[]] & E); exact E].
  - cbn [det leaves]. induction IH as [|c l Hc _ IH]; cbn [flat_map]; [split; [discriminate|intros (x & [] & _)]|]. destruct (det h c) eqn:E.
    + rewrite IH. split; intros (x & H1 & H2); exists x; (split; [|exact H2]); [apply in_or_app; right; exact H1|]. apply in_app_or in H1 as [H1|H1]; [|exact H1]. exfalso. assert (Y : true = false) by (apply Hc; eauto). discriminate.
    + split; [intros _|reflexivity]. apply Hc in E || (destruct (proj1 Hc eq_refl) as (x & H1 & H2); exists x; split; [apply in_or_app; left; exact H1|exact H2]).
  - cbn [det leaves]. induction IH as [|c l Hc _ IH]; cbn [flat_map]; [split; [discriminate|intros (x & [] & _)]|]. destruct (det h c) eqn:E.
    + rewrite IH. split; intros (x & H1 & H2); exists x; (split; [|exact H2]); [apply in_or_app; right; exact H1|]. apply in_app_or in H1 as [H1|H1]; [|exact H1]. exfalso. assert (Y : true = false) by (apply Hc; eauto). discriminate.
    + split; [intros _|reflexivity]. destruct (proj1 Hc eq_refl) as (x & H1 & H2). exists x. split; [apply in_or_app; left; exact H1|exact H2].
Qed.
Lemma K_app : forall h m u x s, K h m (u ++ x :: s) -> K h (hp_get h (fst x)) s /\ (forall s', K h (hp_get h (fst x)) s' -> K h m (u ++ x :: s')) /\
  exists m', has m' x /\ (m' = m /\ u = [] \/ exists u' y, u = u' ++ [y] /\ m' = hp_get h (fst y)).
Proof.
  intros h m u. revert m. induction u as [|y u IH]; intros m x s Kw; cbn [app K] in *.
  - destruct Kw as [K1 K2]. split; [exact K2|]. split; [auto|]. exists m. auto.
  - destruct Kw as [K1 K2]. apply IH in K2 as (H1 & H2 & m' & H3 & H4). split; [exact H1|]. split; [auto|]. exists m'. split; [exact H3|]. right. destruct H4 as [[-> ->]|(u' & z & -> & ->)]; [exists [], y; auto|exists (y :: u'), z; auto].
Qed.
Theorem deterministic : forall c p, content_ok c -> model_of c p -> (is_deterministic (build_model c) = false <-> ambiguous p).
Proof.
  intros c p Hc Hp. destruct (build_model_ok _ p Hc Hp) as (m & Em & M). set (e := build_model c) in *.
  assert (D : is_deterministic e = false <-> det_map m = false \/ det (e_heap e) p = false).
  { unfold is_deterministic. rewrite Em. replace (e_content e) with c by (unfold e; destruct c; cbn [build_model]; [reflexivity|reflexivity|reflexivity|destruct (seek p0 []); reflexivity]).
    destruct c as [| |l|q]; try contradiction; cbn [model_of] in Hp; subst p; destruct (det_map m); intuition discriminate. }
  rewrite D. clear D. rewrite (det_map_false _ (m_wf _ _ _ M)), det_false.
  assert (Lv : forall i n, In (i, n) (leaves p) -> exists v, K (e_heap e) (hp_get (e_heap e) i) v).
  { intros i n Hn. destruct (m_full _ _ _ M) as [Fp|Fp]; [|rewrite Fp in Hn; destruct Hn]. exact (live _ _ _ Fp (m_built _ _ _ M) (ex_intro _ [] I) (i, n) Hn). }
  split.
  - intros [(n & i & j & N & H1 & H2)|(x & Hx & E)].
    + destruct (Lv i n) as (s & Ks); [apply firsts_leaves; apply (m_has _ _ _ M); exact H1|]. destruct (Lv j n) as (t & Kt); [apply firsts_leaves; apply (m_has _ _ _ M); exact H2|].
      exists [], n, i, j, s, t. split; [apply (m_K _ _ _ M); split; assumption|]. split; [apply (m_K _ _ _ M); split; assumption|exact N].
    + apply (det_map_false _ (m_maps _ _ _ M x Hx)) in E as (n & i & j & N & H1 & H2).
      destruct (stays _ _ _ (m_built _ _ _ M) x (i, n) Hx H1) as [L1|[]]. destruct (stays _ _ _ (m_built _ _ _ M) x (j, n) Hx H2) as [L2|[]].
      destruct (Lv i n L1) as (s & Ks). destruct (Lv j n L2) as (t & Kt). destruct (m_full _ _ _ M) as [Fp|Fp]; [|rewrite Fp in Hx; destruct Hx].
      destruct (reach p x Fp Hx) as (u & r & Mu). apply (m_K _ _ _ M) in Mu. apply K_app in Mu as (_ & Q & _).
      exists (u ++ [x]), n, i, j, s, t. rewrite <- !app_assoc. cbn [app]. split; [apply (m_K _ _ _ M); apply Q; split; assumption|]. split; [apply (m_K _ _ _ M); apply Q; split; assumption|exact N].
  - intros (u & n & i & j & s & t & M1 & M2 & N). apply (m_K _ _ _ M) in M1, M2.
    assert (Z : forall u x r, K (e_heap e) m (u ++ x :: r) -> In x (leaves p)).
    { assert (Z0 : forall u m' x r, (forall y, has m' y -> In y (leaves p)) -> K (e_heap e) m' (u ++ x :: r) -> In x (leaves p)).
      { induction u0 as [|y u0 IHu]; intros m' x r Hm' Kw; cbn [app K] in Kw; destruct Kw as [K1 K2]; [apply Hm'; exact K1|]. eapply IHu; [|exact K2].
        intros z Hz. destruct (stays _ _ _ (m_built _ _ _ M) y z (Hm' y K1) Hz) as [Y|[]]. exact Y. }
      intros u0 x r Kw. eapply Z0; [|exact Kw]. intros y Hy. apply firsts_leaves. apply (m_has _ _ _ M). exact Hy. }
    pose proof (K_app _ _ _ _ _ M1) as (_ & _ & m1 & H1 & E1). pose proof (K_app _ _ _ _ _ M2) as (_ & _ & m2 & H2 & E2).
    destruct E1 as [[-> ->]|(u' & y & -> & ->)].
    + destruct E2 as [[-> _]|(u' & y & E & _)]; [|destruct u'; discriminate]. left. exists n, i, j. auto.
    + destruct E2 as [[_ E]|(u2 & y2 & E & ->)]; [destruct u'; discriminate|]. apply app_inj_tail in E as [-> ->]. right. exists y2.
      assert (Ly : In y2 (leaves p)). { rewrite <- app_assoc in M1. cbn [app] in M1. apply Z in M1. exact M1. }
      split; [exact Ly|]. apply (det_map_false _ (m_maps _ _ _ M y2 Ly)). exists n, i, j. auto.
Qed.
(** is_deterministic says whether an element can match more than one occurrence of its name in the model *)
Theorem c80_children : forall p, content_ok (CChildren p) -> (is_deterministic (build_model (CChildren p)) = false <-> ambiguous p).
Proof. intros p H. apply (deterministic (CChildren p) p H eq_refl). Qed.
(** mixed content is deterministic if no name occurs twice *)
Theorem c80_mixed : forall l, content_ok (CMixed l) -> (is_deterministic (build_model (CMixed l)) = true <-> NoDup (map snd l)).
Proof.
  intros l H. rewrite <- not_false_iff_true, (deterministic (CMixed l) (mixed l) H eq_refl).
  assert (L : forall v, anyw mk (map (fun x => PName (fst x) (snd x) Once) l) v <-> exists x, v = [x] /\ In x l).
  { intros v. rewrite anyw_in. split.
    - intros (q & Hq & Hv). apply in_map_iff in Hq as (x & <- & Hx). cbn [words times] in Hv. exists x. rewrite <- surjective_pairing in Hv. auto.
    - intros (x & -> & Hx). exists (PName (fst x) (snd x) Once). split; [apply in_map_iff; eauto|]. cbn [words times]. rewrite <- surjective_pairing. reflexivity. }
  assert (Mm : forall w, matched (mixed l) w <-> forall x, In x w -> In x l).
  { intros w. unfold matched, mixed. rewrite words_choice. cbn [times]. split.
    - intros R. induction R as [|u v Lu R IH]; [intros x []|]. apply L in Lu as (y & -> & Hy). intros x [<-|Hx]; auto.
    - intros Q. induction w as [|x w IH]; [constructor|]. apply (rp_cons _ [x] w); [apply L; exists x; split; [reflexivity|apply Q; left; reflexivity]|]. apply IH. intros y Hy. apply Q. right. exact Hy. }
  destruct H as [D _]. rewrite leaves_mixed in D. split.
  - intros A. clear L Mm. assert (Q : forall i j n, In (i, n) l -> In (j, n) l -> i = j).
    { intros i j n Hi Hj. destruct (Nat.eq_dec i j) as [E|E]; [exact E|]. exfalso. apply A. exists [], n, i, j, [], [].
      assert (X : forall x, In x l -> matched (mixed l) ([] ++ x :: [])).
      { intros x Hx. unfold matched, mixed. rewrite words_choice. cbn [times app]. apply (rp_cons _ [x] []); [|constructor]. apply anyw_in. exists (PName (fst x) (snd x) Once). split; [apply in_map_iff; eauto|]. cbn [words times]. rewrite <- surjective_pairing. reflexivity. }
      split; [apply X; exact Hi|]. split; [apply X; exact Hj|exact E]. }
    clear A. induction l as [|[i n] l IH]; [constructor|]. cbn [map fst snd] in *. inversion D; subst. constructor.
    + intros X. apply in_map_iff in X as ([j n'] & E & Hj). cbn [snd] in E. subst n'. assert (i = j) by (apply (Q i j n); [left; reflexivity|right; exact Hj]). subst j. apply H1. apply in_map_iff. exists (i, n). auto.
    + apply IH; [exact H2|]. intros a b c Ha Hb. apply (Q a b c); right; assumption.
  - intros Nd (u & n & i & j & s & t & M1 & M2 & N). apply N. assert (H1 : In (i, n) l) by (apply (proj1 (Mm _) M1); apply in_or_app; right; left; reflexivity).
    assert (H2 : In (j, n) l) by (apply (proj1 (Mm _) M2); apply in_or_app; right; left; reflexivity). clear -Nd H1 H2.
    induction l as [|[k a] l IH]; [destruct H1|]. cbn [map snd] in Nd. inversion Nd; subst. destruct H1 as [H1|H1], H2 as [H2|H2].
    + congruence.
    + exfalso. apply H3. inversion H1; subst. apply in_map_iff. exists (j, n). auto.
    + exfalso. apply H3. inversion H2; subst. apply in_map_iff. exists (i, n). auto.
    + apply IH; assumption.
Qed.
Print Assumptions c80_children. Print Assumptions c80_mixed.

(** ** Cases *)
Definition A := lit "a". Definition B := lit "b". Definition C := lit "c".
(** ((a, b?)+ | c) , a* *)
Definition model1 : particle := PSeq Once [PChoice Once [PSeq Plus [PName 0 A Once; PName 1 B Opt]; PName 2 C Once]; PName 3 A Star].
Example model1_ok : content_ok (CChildren model1).
Proof.
  split; [split; [repeat constructor; cbn; intuition discriminate|repeat constructor; discriminate]|]. repeat (split; try discriminate).
Qed.
Example c79_case : check_element (build_model (CChildren model1)) false [A; B; A; A] = Ok None /\
  check_element (build_model (CChildren model1)) false [C; A; B] = Ok (Some (B, ([A], true))) /\
  is_deterministic (build_model (CChildren model1)) = false.
Proof. vm_compute. auto. Qed.
(** appendix E's examples *)
Example c80_case : is_deterministic (build_model (CChildren (PChoice Once [PSeq Once [PName 0 B Once; PName 1 C Once]; PSeq Once [PName 2 B Once; PName 3 A Once]]))) = false /\
  is_deterministic (build_model (CChildren (PSeq Once [PName 0 B Once; PChoice Once [PName 1 C Once; PName 2 A Once]]))) = true.
Proof. vm_compute. auto. Qed.
(** ** Where the parser does not check *)
(** an element that is written as an empty-element tag is not checked: <e/> is accepted whatever e must contain *)
Theorem c79_empty_tag_refuted : check_element (build_model (CChildren (PSeq Once [PName 0 A Once]))) true [] = Ok None /\
  ~ valid_children (CChildren (PSeq Once [PName 0 A Once])) [].
Proof. split; [reflexivity|]. cbn. intros (u & v & E & -> & _). discriminate. Qed.
(** a child in an element that was declared EMPTY makes the parser fail with an AttributeError *)
Theorem c79_empty_refuted : forall n w, n <> [] -> check_element (build_model CEmpty) false (n :: w) = Err AttributeError.
Proof. intros [|a n] w H; [congruence|reflexivity]. Qed.
