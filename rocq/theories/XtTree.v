(** XML text: writing a tree and reading it back. *)
From Coq Require Import Permutation.
From Verif Require Import Py Num CmSpec CdModel CdProofs XtSpec XtModel XtParse XtMarkup XtElement XtCanon XtWrite.

(** ** Attributes *)
Lemma attrs_written : forall seven l, Forall (fun x => xml_name (fst x) /\ Forall (fun c => xml_char c /\ c <> 9 /\ c <> 10) (snd x)) l ->
  attrs_text l (flat_map (fun x => [32] ++ fst x ++ [61] ++ escape_function seven (snd x) true) l).
Proof.
  intros seven l H. induction H as [|[n v] l [Hn Hv] H IH]; [constructor|]. cbn [fst snd flat_map] in *.
  assert (Hx : chars_ok seven v) by (intros _; eapply Forall_impl; [|exact Hv]; cbn; tauto).
  destruct (escape_quoted seven v Hx) as (q & ts & Hq & Eq & Hf). rewrite Eq.
  assert (Ha : att_text q v (concat ts)) by (rewrite <- (att_exact v) at 1; [apply att_concat; exact Hf|eapply Forall_impl; [|exact Hv]; cbn; tauto]).
  assert (K := as_cons [32] n [] [] q v (concat ts) l _ ltac:(constructor; [left; reflexivity|constructor]) ltac:(discriminate) Hn ltac:(constructor) ltac:(constructor) Hq Ha IH).
  cbn [app] in *. rewrite <- !app_assoc. cbn [app]. rewrite <- !app_assoc. cbn [app]. exact K.
Qed.
Lemma attributes_ok : forall seven a, Forall (fun x => xml_name (fst x) /\ Forall (fun c => xml_char c /\ c <> 9 /\ c <> 10) (snd x)) a ->
  attrs_text (sort_attrs a) (attributes_text seven a).
Proof. intros seven a H. apply attrs_written. eapply Permutation_Forall; [apply sort_perm|exact H]. Qed.

(** ** The text of canonical children *)
Definition texts_all {A} (P : Z -> Prop) (l : list (piece A)) : Prop := Forall (fun c => match c with PText s => Forall P s | PElem _ => True end) l.
Lemma collapse_all : forall (P : Z -> Prop) s m, P 32 -> Forall P s -> Forall P (collapse_space s m).
Proof.
  intros P s m H32 H. assert (K : forall m, Forall P (collapse_loop m s)).
  { clear m. induction H as [|c s Hc H IH]; intro m; cbn [collapse_loop]; [constructor|]. destruct (is_s c); [destruct m; cbn [app]; auto|constructor; auto]. }
  unfold collapse_space. specialize (K m). destruct (collapse_loop m s); [constructor; [exact H32|constructor]|exact K].
Qed.
Lemma removelast_all : forall (P : Z -> Prop) (s : str), Forall P s -> Forall P (removelast s).
Proof. intros P s H. induction H as [|c s Hc H IH]; [constructor|]. cbn [removelast]. destruct s; [constructor|constructor; assumption]. Qed.
Lemma loop_all : forall A (P : Z -> Prop) (l : list (piece A)) d m, P 32 -> texts_all P l -> (match d with Some d => Forall P d | None => True end) -> texts_all P (canonical_loop d m l).
Proof.
  intros A P l. induction l as [|[s|e] l IH]; intros d m H32 H Hd; cbn [canonical_loop].
  - destruct d as [d|]; [|constructor]. pose proof (collapse_all P d m H32 Hd) as K. destruct (str_eqb _ _); [destruct m|destruct (_ =? _)]; repeat constructor; try assumption. apply removelast_all, K.
  - inversion H; subst. apply IH; [assumption|assumption|]. destruct d as [d|]; [apply Forall_app; split; assumption|assumption].
  - inversion H; subst. apply Forall_app. split; [|constructor; [exact Logic.I|apply IH; auto]]. destruct d as [d|]; [|constructor]. destruct (_ || _); repeat constructor. apply collapse_all; assumption.
Qed.
Lemma canonical_all : forall A (P : Z -> Prop) p (l : list (piece A)), P 32 -> texts_all P l -> texts_all P (canonical_children p l).
Proof.
  intros A P [|] l H32 H; unfold canonical_children; [exact H|]. destruct l as [|[s|e] [|x l]]; try exact H.
  - inversion H; subst. constructor; [apply collapse_all; assumption|constructor].
  - inversion H; subst. apply loop_all; assumption.
  - inversion H; subst. constructor; [exact Logic.I|]. apply loop_all; [assumption|assumption|exact Logic.I].
Qed.
Definition no_text {A} (l : list (piece A)) : Prop := Forall (fun c => match c with PText _ => False | PElem _ => True end) l.
Lemma no_text_apart : forall A (l : list (piece A)), no_text l -> apart l.
Proof. intros A l H. induction H as [|[s|e] l Hx H IH]; [exact Logic.I|destruct Hx|exact IH]. Qed.
Lemma no_text_body : forall A (l : list (piece A)), no_text l -> body l = l.
Proof. intros A l H. induction H as [|[s|e] l Hx H IH]; [reflexivity|destruct Hx|]. cbn [body]. rewrite IH. reflexivity. Qed.
Lemma no_text_canonical : forall A p (l : list (piece A)), no_text l -> canonical_children p l = l.
Proof.
  intros A [|] l H; [reflexivity|]. destruct H as [|[s|e] l Hx H]; [reflexivity|destruct Hx|]. rewrite canonical_elem by (apply no_text_apart, H). rewrite no_text_body by assumption. reflexivity.
Qed.

(** ** Children as they are written *)
Definition items (w : str) (l : list (piece node)) : list item := flat_map (fun c => match c with PText s => [Data s] | PElem e => [Data w; Child e] end) l.
Definition elems (l : list (piece node)) : Prop := Forall (fun c => match c with PText _ => True | PElem e => is_elem e end) l.
Lemma items_proper : forall w l, elems l -> proper (items w l).
Proof. intros w l H. induction H as [|[s|e] l Hx H IH]; [constructor| |]; cbn [items flat_map]; repeat constructor; assumption. Qed.
Lemma gather_items : forall l, apart l -> filled l -> elems l -> gather (items [] l ++ [Data []]) = unp l.
Proof.
  induction l as [|[s|e] l IH]; intros Ha Hf He; [reflexivity| |]; inversion Hf as [|? ? F1 F2]; subst; inversion He as [|? ? E1 E2]; subst.
  - cbn [items flat_map app]. fold (items [] l). cbn [gather]. destruct s as [|c s]; [congruence|]. cbn [unp map].
    assert (Ha' : apart l) by (cbn [apart] in Ha; destruct l as [|[s'|e] l]; [exact Logic.I|destruct Ha|exact Ha]).
    rewrite IH by assumption. destruct l as [|[s'|e] l]; [reflexivity|destruct Ha|]. inversion E2; subst. destruct e; [contradiction|]. reflexivity.
  - cbn [items flat_map app]. fold (items [] l). cbn [gather unp map]. f_equal. apply IH; assumption.
Qed.
Lemma assembled_items : forall m w c l, elems l -> spaces w -> spaces c -> apart l ->
  (if m : bool then w = [] /\ c = [] /\ filled l else no_text l) -> assembled m (items w l ++ [Data c]) (unp l).
Proof.
  intros [|] w c l He Hw Hc Ha H; unfold assembled.
  - destruct H as (-> & -> & Hf). symmetry. apply gather_items; assumption.
  - clear Ha. induction H as [|[s|e] l Hx H IH]; [split; [constructor; [exact Hc|constructor]|reflexivity]|destruct Hx|].
    inversion He; subst. destruct (IH H3) as [I1 I2]. cbn [items flat_map app]. split; [constructor; [exact Hw|constructor; [exact Logic.I|exact I1]]|].
    cbn [unp map children_of flat_map app]. f_equal. exact I2.
Qed.

Section tree.
  Variable mixed : str -> bool.
  Variables cm pi : str -> Prop.
  Variable seven : bool.
  Notation cont := (content_text mixed cm pi).
  Lemma deep_is_elem : forall p e, is_elem e -> is_elem (deep p e).
  Proof. intros p [s|n a ch] H; [destruct H|exact Logic.I]. Qed.
  Lemma children_written : forall (f g : node -> str) (dp : node -> node) w c l,
    (forall e, In (PElem e) l -> exists u, f e = w ++ u /\ element_text mixed cm pi (dp e) u) -> spaces w -> spaces c -> texts_all xml_char l ->
    exists its, cont its (flat_map (fun x => match x with PText s => escape_function seven s false | PElem e => f e end) l ++ c) /\ clean its /\
      forall m ch, feed m ch its = feed m ch (items w (pmap dp l) ++ [Data c]).
  Proof.
    intros f _ dp w c l. induction l as [|x l IH]; intros H Hw Hc Ht.
    - cbn [flat_map app]. destruct (cont_spaces mixed cm pi c [Data []] [] Hc (cont_nil mixed cm pi)) as (its & I1 & I2 & I3); [constructor|].
      rewrite app_nil_r in I1. exists its. split; [exact I1|]. split; [exact I2|]. intros m ch. rewrite I3. cbn [pmap map items flat_map app feed].
      destruct (handle_data m ch c); reflexivity.
    - inversion Ht as [|? ? T1 T2]; subst. destruct IH as (its & I1 & I2 & I3); [intros e He; apply H; right; exact He|assumption|assumption|assumption|].
      destruct x as [s|e]; cbn [flat_map]; rewrite <- app_assoc.
      + destruct (escape_plain seven s) as (ts & Es & Hf); [intros _; exact T1|]. rewrite Es.
        destruct (cont_escaped mixed cm pi s ts its _ Hf I1 I2) as (its' & J1 & J2 & J3). exists its'. split; [exact J1|]. split; [exact J2|].
        intros m ch. rewrite J3. cbn [pmap map items flat_map app feed]. destruct (handle_data m ch s); cbn [rbind]; [apply I3|reflexivity].
      + destruct (H e (or_introl eq_refl)) as (u & -> & Hu). rewrite <- app_assoc.
        destruct (cont_mark mixed cm pi (Child (dp e)) u its _ (mk_elem _ _ _ _ _ Hu) I1) as (its1 & J1 & J2 & J3).
        destruct (cont_spaces mixed cm pi w its1 _ Hw J1 J2) as (its2 & K1 & K2 & K3). exists its2. split; [exact K1|]. split; [exact K2|].
        intros m ch. rewrite K3. cbn [pmap map items flat_map app feed]. destruct (handle_data m ch w); cbn [rbind]; [|reflexivity]. rewrite J3. cbn [feed]. apply I3.
  Qed.
  Lemma any_proper : forall its t, cont its t -> proper its.
  Proof.
    induction 1 as [d Hd|d i x its u Hd Hi Hc IH]; [repeat constructor|]. constructor; [exact Logic.I|]. constructor; [|exact IH].
    destruct Hi as [e t He| | | |]; try exact Logic.I. destruct He; exact Logic.I.
  Qed.
  Definition ws_of (indent tab : str) : str := match tab with [] => [] | _ => 10 :: indent end.
  Lemma generate_elem : forall n a ch inh pp indent tab, generate_xml mixed seven (Elem n a ch) inh pp indent tab =
    let pretty := can_pretty_print mixed n a pp in
    let indent1 := if pretty then match tab with [] => indent | _ => indent ++ tab end else [] in
    let tab1 := if pretty then tab else [] in
    let p := preserves inh a in
    let l := canonical_children p (pieces ch) in
    let pre := match l with PText (c :: _) :: _ => is_s c | _ => false end in
    let indent2 := if pre then [] else indent1 in
    let tab2 := if pre then [] else tab1 in
    match l with
    | [] => ws_of indent tab ++ lit "<" ++ n ++ attributes_text seven a ++ lit "/>"
    | _ => ws_of indent tab ++ lit "<" ++ n ++ attributes_text seven a ++ lit ">"
        ++ flat_map (fun c => match c with PText s => escape_function seven s false | PElem e => generate_xml mixed seven e p pretty indent2 tab2 end) l
        ++ (match tab2 with [] => [] | _ => if existsb (fun c => match c with PText _ => true | PElem _ => false end) l then [] else ws_of indent tab end) ++ lit "</" ++ n ++ lit ">"
    end.
  Proof.
    intros. cbn [generate_xml]. rewrite (deep_pieces _ (fun c indent tab => generate_xml mixed seven c (preserves inh a) (can_pretty_print mixed n a pp) indent tab)).
    rewrite canonical_pmap. set (l := canonical_children (preserves inh a) (pieces ch)). cbv zeta.
    assert (Ex : forall (l : list (piece node)) (g : node -> str -> str -> str), existsb (fun c => match c with PText _ => true | PElem _ => false end) (pmap g l) = existsb (fun c => match c with PText _ => true | PElem _ => false end) l).
    { intros k g. induction k as [|[s|e] k IH]; [reflexivity|reflexivity|]. cbn. exact IH. }
    assert (Fm : forall (l : list (piece node)) (g : node -> str -> str -> str) i t,
      flat_map (fun c => match c with PText s => escape_function seven s false | PElem g => g i t end) (pmap g l)
      = flat_map (fun c => match c with PText s => escape_function seven s false | PElem e => g e i t end) l).
    { intros k g i t. induction k as [|[s|e] k IH]; [reflexivity| |]; cbn [pmap map flat_map]; f_equal; exact IH. }
    destruct l as [|x l]; [reflexivity|]. rewrite <- (Ex _ (fun c indent tab => generate_xml mixed seven c (preserves inh a) (can_pretty_print mixed n a pp) indent tab)).
    rewrite <- (Fm _ (fun c indent tab => generate_xml mixed seven c (preserves inh a) (can_pretty_print mixed n a pp) indent tab)).
    destruct x as [[|c s]|e]; reflexivity.
  Qed.
  Lemma pieces_apart : forall ch, ~ adjacent_texts ch -> apart (pieces ch).
  Proof.
    induction ch as [|x ch IH]; intro H; [exact Logic.I|].
    assert (IH' : apart (pieces ch)) by (apply IH; intros (l & s & s' & r & E); apply H; exists (x :: l), s, s', r; rewrite E; reflexivity).
    destruct x as [s|n a c]; [|exact IH']. cbn [pieces map apart]. destruct ch as [|[s'|n a c] ch]; [exact Logic.I| |exact IH'].
    apply H. exists [], s, s', ch. reflexivity.
  Qed.
  Lemma pieces_elems : forall ch, elems (pieces ch).
  Proof. intro ch. unfold elems, pieces. apply Forall_map. apply Forall_forall. intros [s|n a c] _; exact Logic.I. Qed.
  Lemma elems_pmap_deep : forall p l, (forall e, In (PElem e) l -> is_elem e) -> elems (pmap (deep p) l).
  Proof.
    intros p l H. unfold elems, pmap. apply Forall_map. apply Forall_forall. intros [s|e] Hi; [exact Logic.I|]. apply deep_is_elem, H, Hi.
  Qed.
  Lemma apart_pmap : forall A B (f : A -> B) l, apart l -> apart (pmap f l).
  Proof. intros A B f l. induction l as [|[s|e] l IH]; intro H; [exact Logic.I| |apply IH, H]. destruct l as [|[s'|e] l]; [exact Logic.I|destruct H|apply IH, H]. Qed.
  Lemma filled_pmap : forall A B (f : A -> B) l, filled l -> filled (pmap f l).
  Proof. intros A B f l H. unfold filled, pmap. apply Forall_map. eapply Forall_impl; [|exact H]. intros [s|e]; auto. Qed.
  Lemma no_text_pmap : forall A B (f : A -> B) l, no_text l -> no_text (pmap f l).
  Proof. intros A B f l H. unfold no_text, pmap. apply Forall_map. eapply Forall_impl; [|exact H]. intros [s|e]; auto. Qed.
  Lemma writable_pieces : forall p n a ch, writable mixed p n a ch -> texts_all xml_char (pieces ch) /\ apart (pieces ch) /\ (p = true -> filled (pieces ch)) /\ (mixed n = false -> no_text (pieces ch)).
  Proof.
    intros p n a ch (Hn & Hd & Ha & Hc & Hadj & Hp & Hm). split; [|split; [apply pieces_apart, Hadj|split]].
    - unfold texts_all, pieces. apply Forall_map. eapply Forall_impl; [|exact Hc]. intros [s|? ? ?]; auto.
    - intro Ep. specialize (Hp Ep). unfold filled, pieces. apply Forall_map. apply Forall_forall. intros [s|? ? ?] Hi; [|exact Logic.I]. intros ->. contradiction.
    - intro Em. specialize (Hm Em). unfold no_text, pieces. apply Forall_map. apply Forall_forall. intros [s|? ? ?] Hi; [|exact Logic.I]. apply (Hm s Hi).
  Qed.
  Lemma canonical_props : forall A p (l : list (piece A)), apart l -> (p = true -> filled l) -> apart (canonical_children p l) /\ filled (canonical_children p l).
  Proof. intros A [|] l Ha Hf; [split; [exact Ha|apply Hf; reflexivity]|]. destruct (canonical_ok A l Ha) as (H1 & H2 & _). auto. Qed.
  Lemma canonical_idem : forall A p (l : list (piece A)), apart l -> canonical_children p (canonical_children p l) = canonical_children p l.
  Proof. intros A [|] l Ha; [reflexivity|]. apply canonical_ok, Ha. Qed.

  Theorem written : forall e p pp indent tab, every (writable mixed) p e -> is_elem e -> spaces indent -> spaces tab ->
    exists u, generate_xml mixed seven e p pp indent tab = ws_of indent tab ++ u /\ element_text mixed cm pi (deep p e) u.
  Proof.
    induction e as [s|n a ch IH] using node_rect'; intros p pp indent tab He Hel Hi Ht; [destruct Hel|]. clear Hel.
    inversion He as [|? ? ? ? W C]; subst. pose proof (writable_pieces _ _ _ _ W) as (T & Ap & Fi & Nt). destruct W as (Hn & Hd & Ha & _).
    rewrite <- preserves_force in * by assumption. rewrite generate_elem, deep_elem. cbv zeta.
    set (P := preserves p a) in *. set (pretty := can_pretty_print mixed n a pp).
    set (l := canonical_children P (pieces ch)).
    destruct (canonical_props _ P (pieces ch) Ap Fi) as [Ap' Fi']. fold l in Ap', Fi'.
    assert (T' : texts_all xml_char l) by (apply canonical_all; [unfold xml_char; lia|exact T]).
    assert (Ie : forall e, In (PElem e) l -> In e ch /\ is_elem e).
    { intros e Hx. apply canonical_in in Hx. apply pieces_in in Hx as (Hx & ? & ? & ? & ->). split; [exact Hx|exact Logic.I]. }
    set (pre := match l with PText (c :: _) :: _ => is_s c | _ => false end).
    set (indent2 := if pre then [] else if pretty then match tab with [] => indent | _ => indent ++ tab end else []).
    set (tab2 := if pre then [] else if pretty then tab else []).
    assert (Si : spaces indent2).
    { unfold indent2. destruct pre; [constructor|]. destruct pretty; [|constructor]. destruct tab; [exact Hi|]. apply Forall_app. split; assumption. }
    assert (St : spaces tab2) by (unfold tab2; destruct pre; [constructor|]; destruct pretty; [exact Ht|constructor]).
    assert (Sw : forall i t, spaces i -> spaces (ws_of i t)) by (intros i t H; destruct t; cbn [ws_of]; [apply Forall_nil|]; apply Forall_cons; [unfold xml_s; lia|exact H]).
    pose proof (attributes_ok seven a Ha) as Hat. pose proof (sort_nodup a Hd) as Hsd.
    destruct l as [|x l0] eqn:El.
    - eexists. split; [reflexivity|]. cbn [pmap map unp]. pose proof (et_empty mixed cm pi n (sort_attrs a) (attributes_text seven a) [] Hn Hat Hsd ltac:(constructor)) as K. exact K.
    - rewrite <- El in *. set (c := match tab2 with [] => [] | _ => if existsb (fun c => match c with PText _ => true | PElem _ => false end) l then [] else ws_of indent tab end).
      assert (Hc : spaces c) by (unfold c; destruct tab2; [constructor|]; destruct (existsb _ l); [constructor|apply Sw, Hi]).
      destruct (children_written (fun e => generate_xml mixed seven e P pretty indent2 tab2) (fun _ => []) (deep P) (ws_of indent2 tab2) c l) as (its & I1 & I2 & I3).
      { intros e Hx. destruct (Ie e Hx) as [Hin Hel]. rewrite Forall_forall in IH, C. apply IH; auto. }
      { apply Sw, Si. } { exact Hc. } { exact T'. }
      assert (Pr : proper its) by (eapply any_proper; exact I1).
      assert (As : assembled (mixed n) its (unp (pmap (deep P) l))).
      { apply (feed_iff _ _ _ Pr). rewrite I3. apply feed_iff.
        - apply Forall_app. split; [apply items_proper, elems_pmap_deep; intros e Hx; apply Ie, Hx|constructor; [exact Logic.I|constructor]].
        - apply assembled_items; [apply elems_pmap_deep; intros e Hx; apply Ie, Hx|apply Sw, Si|exact Hc|apply apart_pmap, Ap'|]. destruct (mixed n) eqn:Em.
          + assert (pretty = false) as Q by (unfold pretty, can_pretty_print; rewrite Em; reflexivity).
            assert (T2 : tab2 = []) by (unfold tab2; rewrite Q; destruct pre; reflexivity). unfold c. rewrite T2. split; [reflexivity|]. split; [reflexivity|apply filled_pmap, Fi'].
          + apply no_text_pmap. unfold l. rewrite no_text_canonical; apply Nt; reflexivity. }
      exists (lit "<" ++ n ++ attributes_text seven a ++ lit ">" ++ flat_map (fun c => match c with PText s => escape_function seven s false | PElem e => generate_xml mixed seven e P pretty indent2 tab2 end) l ++ c ++ lit "</" ++ n ++ lit ">").
      split; [unfold c; rewrite El; reflexivity|].
      pose proof (et_full mixed cm pi n (sort_attrs a) (attributes_text seven a) [] its _ _ [] Hn Hat Hsd ltac:(constructor) I1 As ltac:(constructor)) as K.
      cbn [app] in K. rewrite <- !app_assoc in K. exact K.
  Qed.
  Lemma deep_deep : forall e p, every (writable mixed) p e -> deep p (deep p e) = deep p e.
  Proof.
    induction e as [s|n a ch IH] using node_rect'; intros p He; [reflexivity|].
    inversion He as [|? ? ? ? W C]; subst. pose proof (writable_pieces _ _ _ _ W) as (_ & Ap & _ & _). destruct W as (Hn & Hd & Ha & _).
    rewrite <- preserves_force in * by assumption. rewrite deep_elem. set (P := preserves p a) in *. rewrite deep_elem.
    assert (preserves p (sort_attrs a) = P) as ->.
    { unfold P, preserves, get_space. rewrite <- (get_attr_perm (lit "xml:space") a (sort_attrs a) (sort_perm a) Hd). reflexivity. }
    f_equal; [apply ordered_sort, sort_ordered|].
    assert (E : pieces (unp (pmap (deep P) (canonical_children P (pieces ch)))) = pmap (deep P) (canonical_children P (pieces ch))).
    { unfold pieces, unp. rewrite map_map. rewrite <- (map_id (pmap (deep P) _)) at 2. apply map_ext_in. intros [s|e] Hx; [reflexivity|].
      unfold pmap in Hx. apply in_map_iff in Hx as ([s|e'] & Hx & Hx'); [discriminate|]. injection Hx as <-. apply canonical_in in Hx'. apply pieces_in in Hx' as (_ & ? & ? & ? & ->). reflexivity. }
    rewrite E, canonical_pmap, canonical_idem by assumption. unfold unp, pmap. rewrite !map_map. apply map_ext_in. intros [s|e] Hx; [reflexivity|].
    apply canonical_in in Hx. apply pieces_in in Hx as (Hx & _). rewrite Forall_forall in IH, C. apply IH; auto.
  Qed.
End tree.
Lemma every_impl : forall (P Q : bool -> str -> list (str * str) -> list node -> Prop), (forall p n a ch, P p n a ch -> Q p n a ch) -> forall e p, every P p e -> every Q p e.
Proof.
  intros P Q H. induction e as [s|n a ch IH] using node_rect'; intros p He; [constructor|]. inversion He as [|? ? ? ? W C]; subst. constructor; [apply H, W|].
  rewrite Forall_forall in *. intros c Hc. apply IH; [exact Hc|apply C, Hc].
Qed.
Lemma deep_every : forall e p, every dict p e -> every dict p (deep p e).
Proof.
  induction e as [s|n a ch IH] using node_rect'; intros p He; [constructor|]. inversion He as [|? ? ? ? W C]; subst. unfold dict in W.
  rewrite deep_elem. assert (F : in_force p (sort_attrs a) = in_force p a).
  { rewrite <- !preserves_force; [|assumption|apply sort_nodup; assumption]. unfold preserves, get_space. rewrite <- (get_attr_perm _ a (sort_attrs a) (sort_perm a) W). reflexivity. }
  constructor; rewrite F; [apply sort_nodup, W|]. rewrite preserves_force by assumption. unfold unp, pmap. rewrite map_map. apply Forall_map. apply Forall_forall.
  intros [s|e] Hx; [constructor|]. apply canonical_in in Hx. apply pieces_in in Hx as (Hx & _). rewrite Forall_forall in IH, C. apply IH; auto.
Qed.
