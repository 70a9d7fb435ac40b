(** XML text: elements and their content. *)
From Verif Require Import Py Num CmSpec CdModel CdProofs XtSpec XtModel XtParse XtMarkup.

(** ** The children *)
Definition is_elem (e : node) : Prop := match e with Elem _ _ _ => True | Text _ => False end.
Definition proper (its : list item) : Prop := Forall (fun i => match i with Child e => is_elem e | Data _ => True end) its.
Fixpoint feed (m : bool) (ch : list node) (its : list item) : res (list node) :=
  match its with
  | [] => Ok ch
  | Data d :: r => let! ch := handle_data m ch d in feed m ch r
  | Child e :: r => feed m (ch ++ [e]) r
  end.
Definition join (ch g : list node) : list node := match g with Text s :: g => append_data ch s ++ g | _ => ch ++ g end.
Lemma append_elem : forall ch e s, is_elem e -> append_data (ch ++ [e]) s = ch ++ [e; Text s].
Proof.
  induction ch as [|x ch IH]; intros e s He; cbn [app append_data].
  - destruct e; [destruct He|]. reflexivity.
  - rewrite IH by assumption. destruct x; [|reflexivity]. destruct (ch ++ [e]) eqn:E; [destruct ch; discriminate|]. reflexivity.
Qed.
Lemma append_cons : forall x y ch d, append_data (x :: y :: ch) d = x :: append_data (y :: ch) d.
Proof. intros [t|n a c] y ch d; reflexivity. Qed.
Lemma append_twice : forall ch d s, append_data (append_data ch d) s = append_data ch (d ++ s).
Proof.
  induction ch as [|x [|y ch] IH]; intros d s; [reflexivity| |].
  - destruct x as [t|n a c]; [cbn; rewrite <- app_assoc|]; reflexivity.
  - rewrite !append_cons, <- IH. destruct (append_data (y :: ch) d) eqn:E; [|apply append_cons].
    destruct y; [destruct ch|]; discriminate.
Qed.
Lemma feed_mixed : forall its ch, proper its -> feed true ch its = Ok (join ch (gather its)).
Proof.
  induction its as [|i its IH]; intros ch H; [cbn; rewrite app_nil_r; reflexivity|]. inversion H as [|? ? Hi Hr]; subst. destruct i as [d|e]; cbn [feed gather].
  - destruct d as [|c d]; [apply IH, Hr|]. cbn [handle_data rbind]. rewrite IH by assumption. f_equal.
    destruct (gather its) as [|[s|n a l] g]; cbn [join]; [rewrite app_nil_r; reflexivity| |reflexivity]. rewrite append_twice. reflexivity.
  - rewrite IH by assumption. f_equal. destruct e as [|n a l]; [destruct Hi|]. cbn [join].
    destruct (gather its) as [|[s|n' a' l'] g]; cbn [join]; [rewrite app_nil_r; reflexivity| |rewrite <- app_assoc; reflexivity].
    rewrite append_elem by exact Logic.I. rewrite <- app_assoc. reflexivity.
Qed.
Lemma feed_elements : forall its ch ch', feed false ch its = Ok ch' <-> blank its /\ ch' = ch ++ children_of its.
Proof.
  induction its as [|i its IH]; intros ch ch'.
  - cbn. rewrite app_nil_r. split; [intro H; injection H as ->; split; [constructor|reflexivity]|intros [_ ->]; reflexivity].
  - destruct i as [d|e]; cbn [feed children_of flat_map].
    + cbn [app]. fold (children_of its). assert (handle_data false ch d = if forallb is_s d then Ok ch else Err XMLError) as ->.
      { destruct d as [|c d]; reflexivity. }
      destruct (forallb is_s d) eqn:E; cbn [rbind].
      * rewrite IH. unfold blank. rewrite Forall_cons_iff, spaces_forallb. tauto.
      * split; [discriminate|]. intros [H _]. inversion H; subst. apply spaces_forallb in H2. congruence.
    + rewrite IH. unfold blank. rewrite Forall_cons_iff. cbn [app]. rewrite <- app_assoc. cbn [app]. tauto.
Qed.
Lemma feed_iff : forall m its ch, proper its -> feed m [] its = Ok ch <-> assembled m its ch.
Proof.
  intros [|] its ch H; unfold assembled.
  - rewrite feed_mixed by assumption. assert (join [] (gather its) = gather its) as -> by (destruct (gather its) as [|[]]; reflexivity).
    split; [intro K; injection K as <-; reflexivity|intros ->; reflexivity].
  - apply feed_elements.
Qed.

(** ** The induction over the grammar *)
Scheme element_ind' := Induction for element_text Sort Prop
  with content_ind' := Induction for content_text Sort Prop
  with markup_ind' := Induction for markup_text Sort Prop.
Combined Scheme grammar_ind from element_ind', content_ind', markup_ind'.
Lemma grammar_mono : forall mixed (c1 p1 c2 p2 : str -> Prop), (forall t, c1 t -> c2 t) -> (forall t, p1 t -> p2 t) ->
  forall e t, element_text mixed c1 p1 e t -> element_text mixed c2 p2 e t.
Proof.
  intros mixed c1 p1 c2 p2 Hc Hp.
  assert (K : (forall e t, element_text mixed c1 p1 e t -> element_text mixed c2 p2 e t) /\
              (forall i t, content_text mixed c1 p1 i t -> content_text mixed c2 p2 i t) /\
              (forall i t, markup_text mixed c1 p1 i t -> markup_text mixed c2 p2 i t)).
  { apply (grammar_ind mixed c1 p1 (fun e t _ => element_text mixed c2 p2 e t) (fun i t _ => content_text mixed c2 p2 i t) (fun i t _ => markup_text mixed c2 p2 i t));
      intros; try (econstructor; eauto; fail). }
  apply K.
Qed.

Section proofs.
  Variable mixed : str -> bool.
  Notation elem := (element_text mixed lax_comment lax_pi).
  Notation cont := (content_text mixed lax_comment lax_pi).
  Notation mark := (markup_text mixed lax_comment lax_pi).
  Lemma elem_shape : forall e t, elem e t -> is_elem e /\ exists c r, t = 60 :: c :: r /\ name_start c.
  Proof. intros e t H. destruct H; (split; [exact Logic.I|]); destruct H as (c & r & -> & Hc & _); exists c; eexists; (split; [reflexivity|exact Hc]). Qed.
  Lemma mark_head : forall i t, mark i t -> exists c r, t = c :: r /\ (c = 60 \/ c = 38).
  Proof.
    intros i t H. destruct H.
    - destruct (elem_shape _ _ H) as (_ & c & r & -> & _). eauto.
    - destruct (ref_complete _ _ H) as (r & -> & _). eauto.
    - eexists _, _. split; [reflexivity|]. auto.
    - destruct H as (b & s & -> & _). eexists _, _. split; [reflexivity|]. auto.
    - destruct H as (n & _ & [->|(s & d & -> & _)]); eexists _, _; (split; [reflexivity|]); auto.
  Qed.
  Lemma mark_proper : forall i t, mark i t -> proper [i].
  Proof. intros i t H. constructor; [|constructor]. destruct H; try exact Logic.I. apply (elem_shape _ _ H). Qed.
  Lemma cont_proper : forall its t, cont its t -> proper its.
  Proof.
    induction 1; [repeat constructor|]. apply Forall_cons; [exact Logic.I|]. apply mark_proper in H0. inversion H0; subst. constructor; assumption.
  Qed.

  Lemma attrs_unnamed : forall l a s t, attrs_text l a -> spaces s -> unnamed t -> unnamed (a ++ s ++ t).
  Proof.
    intros l a s t Hl Hs Ht. destruct Hl as [|s0]; [cbn [app]; apply spaces_unnamed; assumption|].
    destruct s0 as [|x s0]; [congruence|]. inversion H; subst. cbn. apply s_not_name, is_s_iff. assumption.
  Qed.
  (** *** Completeness *)
  Definition closing (t : str) : Prop := t = [] \/ exists r, t = lit "</" ++ r.
  Lemma step_etag : forall f m ch t, closing t -> (0 < f)%nat -> parse_content mixed f m ch t = Ok (ch, t).
  Proof. intros [|f] m ch t H Hf; [lia|]. destruct H as [->|(r & ->)]; reflexivity. Qed.
  Lemma step_data : forall f m ch d u, char_data d -> d <> [] -> markup_head u ->
    parse_content mixed (S f) m ch (d ++ u) = let! ch := handle_data m ch d in parse_content mixed f m ch u.
  Proof.
    intros f m ch d u Hd N Hu. destruct d as [|c d]; [congruence|]. pose proof (proj1 Hd) as Hc. inversion Hc as [|? ? [H1 H2] _]; subst.
    cbn [app parse_content]. replace (c =? 60) with false by lia. replace (c =? 38) with false by lia.
    change (c :: d ++ u) with ((c :: d) ++ u). rewrite char_data_complete by assumption. reflexivity.
  Qed.
  Lemma complete :
    (forall e t, elem e t -> forall f rest, (length t <= f)%nat -> parse_element mixed f (t ++ rest) = Ok (e, rest)) /\
    (forall its t, cont its t -> forall f m ch rest, (length t < f)%nat -> closing rest ->
       parse_content mixed f m ch (t ++ rest) = let! ch := feed m ch its in Ok (ch, rest)) /\
    (forall i t, mark i t -> forall f m ch rest, (length t <= f)%nat ->
       parse_content mixed (S f) m ch (t ++ rest) = let! ch := feed m ch [i] in parse_content mixed f m ch rest).
  Proof.
    apply (grammar_ind mixed lax_comment lax_pi
      (fun e t _ => forall f rest, (length t <= f)%nat -> parse_element mixed f (t ++ rest) = Ok (e, rest))
      (fun its t _ => forall f m ch rest, (length t < f)%nat -> closing rest ->
         parse_content mixed f m ch (t ++ rest) = let! ch := feed m ch its in Ok (ch, rest))
      (fun i t _ => forall f m ch rest, (length t <= f)%nat ->
         parse_content mixed (S f) m ch (t ++ rest) = let! ch := feed m ch [i] in parse_content mixed f m ch rest)).
    - (* empty *) intros n l a s Hn Hl Hd Hs f rest Hf. rewrite !app_length in Hf. destruct f as [|f]; [cbn in Hf; lia|]. cbn [parse_element].
      unfold parse_stag. rewrite <- !app_assoc. rewrite req_app. cbn [rbind].
      rewrite required_name_app; [|assumption|].
      2: { apply (attrs_unnamed l a s); [assumption|assumption|reflexivity]. }
      cbn [rbind]. rewrite (stag_complete l a Hl _ [] s true rest) by (try assumption; apply attrs_len in Hl; rewrite !app_length; cbn; lia). reflexivity.
    - (* full *) intros n l a s its ch u s' Hn Hl Hd Hs Hc IHc Ha Hs' f rest Hf. rewrite !app_length in Hf. cbn in Hf. destruct f as [|f]; [lia|]. cbn [parse_element].
      unfold parse_stag. rewrite <- !app_assoc. rewrite req_app. cbn [rbind].
      rewrite required_name_app; [|assumption|].
      2: { apply (attrs_unnamed l a s); [assumption|assumption|reflexivity]. }
      cbn [rbind]. rewrite (stag_complete l a Hl _ [] s false) by (try assumption; apply attrs_len in Hl; rewrite !app_length; cbn; lia).
      cbn [rbind app]. rewrite IHc; [|lia|right; eauto].
      apply (feed_iff (mixed n) its ch (cont_proper _ _ Hc)) in Ha. rewrite Ha. cbn [rbind]. unfold parse_etag. rewrite req_app. cbn [rbind].
      rewrite required_name_app; [|assumption|apply spaces_unnamed; [assumption|reflexivity]]. cbn [rbind].
      rewrite take_s_app; [|assumption|reflexivity]. rewrite req_app. cbn [rbind]. rewrite str_eqb_refl. reflexivity.
    - (* data *) intros d Hd f m ch rest Hf Hr. destruct d as [|c d].
      + cbn [app feed rbind handle_data]. apply step_etag; [assumption|lia].
      + destruct f as [|f]; [lia|]. rewrite step_data; [|assumption|discriminate|destruct Hr as [->|(r & ->)]; cbn; auto].
        cbn [feed rbind]. destruct (handle_data m ch (c :: d)); cbn [rbind]; [|reflexivity]. apply step_etag; [assumption|cbn in Hf; lia].
    - (* more *) intros d i t its u Hd Hm IHm Hc IHc f m ch rest Hf Hr. rewrite !app_length in Hf. rewrite <- !app_assoc.
      destruct (mark_head _ _ Hm) as (c0 & r0 & Et & Hc0).
      assert (Lt : (1 <= length t)%nat) by (subst; cbn; lia).
      assert (K : forall f ch, (length t + length u < f)%nat -> parse_content mixed f m ch (t ++ u ++ rest) = let! ch := feed m ch (i :: its) in Ok (ch, rest)).
      { clear f ch Hf. intros f ch Hf. destruct f as [|f]; [lia|]. rewrite IHm by lia. cbn [feed]. destruct i as [d'|e].
        - destruct (handle_data m ch d'); cbn [rbind]; [|reflexivity]. apply IHc; [lia|assumption].
        - cbn [rbind]. apply IHc; [lia|assumption]. }
      destruct d as [|c d].
      + cbn [app length] in *. change (feed m ch (Data [] :: i :: its)) with (let! ch := handle_data m ch [] in feed m ch (i :: its)). cbn [handle_data rbind]. apply K. lia.
      + destruct f as [|f]; [lia|]. rewrite step_data; [|assumption|discriminate|subst; exact Hc0].
        change (feed m ch (Data (c :: d) :: i :: its)) with (let! ch := handle_data m ch (c :: d) in feed m ch (i :: its)).
        destruct (handle_data m ch (c :: d)); cbn [rbind]; [|reflexivity]. apply K. cbn in Hf. lia.
    - (* element *) intros e t He IH f m ch rest Hf. destruct (elem_shape _ _ He) as (_ & c & r & E & Hc). rewrite E. cbn [app parse_content].
      change (60 =? 60) with true. cbv iota. unfold name_start in Hc. replace (c =? 33) with false by lia. replace (c =? 63) with false by lia. replace (c =? 47) with false by lia.
      change (60 :: c :: r ++ rest) with ((60 :: c :: r) ++ rest). rewrite <- E. rewrite IH by assumption. reflexivity.
    - (* reference *) intros c t Hr f m ch rest Hf. destruct (ref_complete _ _ Hr) as (r & -> & Hp). cbn [app parse_content].
      change (38 =? 60) with false. change (38 =? 38) with true. cbv iota. rewrite Hp. cbn [rbind feed]. destruct (handle_data m ch [c]); reflexivity.
    - (* section *) intros d Hd f m ch rest Hf. rewrite <- !app_assoc.
      change (lit "<![CDATA[") with (60 :: 33 :: lit "[CDATA["). cbn [app parse_content tl]. change (60 =? 60) with true. change (33 =? 33) with true. cbv iota.
      change (match lit "[CDATA[" ++ d ++ lit "]]>" ++ rest with [] => -1 | d :: _ => d end) with 91. change (91 =? 45) with false. change (91 =? 91) with true. cbv iota.
      rewrite req_app. cbn [rbind]. rewrite cdsect_complete by assumption. cbn [rbind feed]. destruct (handle_data m ch d); reflexivity.
    - (* comment *) intros t (b & s & -> & Hb & Hs) f m ch rest Hf. rewrite <- !app_assoc.
      change (lit "<!--") with (60 :: 33 :: lit "--"). cbn [app parse_content tl]. change (60 =? 60) with true. change (33 =? 33) with true. cbv iota.
      change (match lit "--" ++ b ++ lit "--" ++ s ++ lit ">" ++ rest with [] => -1 | d :: _ => d end) with 45. change (45 =? 45) with true. cbv iota.
      rewrite req_app. cbn [rbind]. rewrite comment_complete by assumption. reflexivity.
    - (* instruction *) intros t (n & Hn & H) f m ch rest Hf.
      assert (exists u, t = lit "<?" ++ n ++ u /\ forall rest, parse_pi (n ++ u ++ rest) = Ok rest) as (u & -> & Hp).
      { destruct H as [->|(s & d & -> & Hs & Ns & Hd)].
        - eexists. split; [reflexivity|]. intro r. apply pi_complete; [assumption|]. left. reflexivity.
        - exists (s ++ d ++ lit "?>"). split; [reflexivity|]. intro r. apply pi_complete; [assumption|]. right. exists s, d. rewrite <- !app_assoc. auto. }
      rewrite <- !app_assoc. change (lit "<?") with [60; 63]. cbn [app parse_content tl]. change (60 =? 60) with true. change (63 =? 33) with false. change (63 =? 63) with true. cbv iota.
      rewrite Hp. reflexivity.
  Qed.

  (** *** Soundness *)
  Lemma stuck : forall f m ch r, parse_content mixed f m ch (lit "]]>" ++ r) = Err Timeout.
  Proof. induction f as [|f IH]; intros; [reflexivity|]. exact (IH m ch r). Qed.
  Lemma add_data_front : forall d its u r t, char_data d -> cont its u -> markup_head t -> t = u ++ r -> r <> [] ->
    exists its', cont its' (d ++ u) /\ forall m ch, feed m ch its' = let! ch := handle_data m ch d in feed m ch its.
  Proof.
    intros d its u r t Hd Hc Ht -> Nr. destruct Hc as [d' Hd'|d' i x its u Hd' Hi Hc].
    - destruct d' as [|c d'].
      + exists [Data d]. rewrite app_nil_r. split; [constructor; assumption|]. intros. reflexivity.
      + cbn in Ht. destruct Hd' as [Hd' _]. inversion Hd'; subst. lia.
    - destruct d' as [|c d'].
      + exists (Data d :: i :: its). split; [cbn [app]; constructor; assumption|]. intros. reflexivity.
      + cbn in Ht. destruct Hd' as [Hd' _]. inversion Hd'; subst. lia.
  Qed.
  Lemma cd_nil : char_data [].
  Proof. split; [constructor|intro K; apply contains_nil in K; discriminate]. Qed.
  Lemma sound : forall f,
    (forall t e rest, parse_element mixed f t = Ok (e, rest) -> exists u, t = u ++ rest /\ elem e u) /\
    (forall m ch t ch' rest, parse_content mixed f m ch t = Ok (ch', rest) -> rest <> [] ->
       exists its u, t = u ++ rest /\ cont its u /\ feed m ch its = Ok ch').
  Proof.
    induction f as [|f [IHe IHc]]; [split; intros; discriminate|]. split.
    - intros t e rest H. cbn [parse_element] in H. unfold parse_stag in H. step H. destruct x as [[[n attrs] em] t1]. step E. apply required_literal_ok in E0 as ->.
      step E. destruct x0 as [n' t2]. apply required_name_ok in E0 as [-> Hn]. step E. destruct x as [[at' em'] t3]. injection E as -> -> -> ->.
      apply stag_sound in E0 as (l & a & s & -> & -> & Hl & Hs & Hd); [|constructor]. cbn [app] in *. destruct em.
      + injection H as <- <-. exists (lit "<" ++ n ++ a ++ s ++ lit "/>"). split; [cbn [tag_end]; aeq|]. constructor; assumption.
      + step H. destruct x as [ch t4]. step H. destruct x as [n' t5]. destruct (str_eqb n' n) eqn:En; [|discriminate]. apply str_eqb_eq in En as ->. injection H as <- <-.
        unfold parse_etag in E0. step E0. apply required_literal_ok in E1 as ->. step E0. destruct x0 as [n' t6]. apply required_name_ok in E1 as [-> _].
        destruct (take_s t6) as [s' t7] eqn:Es. apply take_s_ok in Es as (-> & Hs' & _). step E0. apply required_literal_ok in E1 as ->. injection E0 as -> ->.
        apply IHc in E as (its & u & -> & Hc & Hf); [|discriminate]. apply feed_iff in Hf; [|eapply cont_proper; eassumption].
        exists (lit "<" ++ n ++ a ++ s ++ lit ">" ++ u ++ lit "</" ++ n ++ s' ++ lit ">"). split; [cbn [tag_end]; aeq|]. econstructor; eassumption.
    - intros m ch t ch' rest H Nr. cbn [parse_content] in H. destruct t as [|c r]; [injection H as <- <-; congruence|].
      assert (M : forall i x t1 ch1, mark i x -> c :: r = x ++ t1 -> feed m ch [i] = Ok ch1 -> parse_content mixed f m ch1 t1 = Ok (ch', rest) ->
        exists its u, c :: r = u ++ rest /\ cont its u /\ feed m ch its = Ok ch').
      { intros i x t1 ch1 Hi E Hf Hp. apply IHc in Hp as (its & u & -> & Hu & Hf'); [|assumption]. exists (Data [] :: i :: its), (x ++ u). rewrite <- app_assoc.
        split; [exact E|]. split; [apply (ct_more mixed lax_comment lax_pi [] i x its u cd_nil); assumption|].
        cbn [feed handle_data rbind] in *. destruct i as [d|e]; [|injection Hf as ->; exact Hf'].
        destruct (handle_data m ch d); cbn [rbind] in *; [injection Hf as ->; exact Hf'|discriminate]. }
      destruct (Z.eqb_spec c 60) as [->|N60].
      + destruct (Z.eqb_spec (match r with d :: _ => d | [] => -1 end) 33) as [E33|N33].
        { destruct r as [|c2 r]; [discriminate|]. subst c2. cbn [tl] in H.
          destruct (Z.eqb_spec (match r with d :: _ => d | [] => -1 end) 45) as [E45|N45].
          - step H. apply required_literal_ok in E as ->. step H.
            destruct x0 as [|y0 x0]; [destruct f; [discriminate|]; cbn in H; injection H as <- <-; congruence|].
            apply comment_sound in E as (b & s & -> & Hb & Hs); [|discriminate].
            apply (M (Data []) (lit "<!--" ++ b ++ lit "--" ++ s ++ lit ">") (y0 :: x0) ch); [|aeq|reflexivity|assumption].
            apply mk_comment. exists b, s. auto.
          - destruct (Z.eqb_spec (match r with d :: _ => d | [] => -1 end) 91) as [E91|N91]; [|discriminate].
            step H. apply required_literal_ok in E as ->. step H. destruct x0 as [d t1]. apply cdsect_sound in E as [-> Hd]. step H.
            apply (M (Data d) (lit "<![CDATA[" ++ d ++ lit "]]>") t1 x); [constructor; assumption|aeq|cbn [feed]; rewrite E; reflexivity|assumption]. }
        destruct (Z.eqb_spec (match r with d :: _ => d | [] => -1 end) 63) as [E63|N63].
        { destruct r as [|c2 r]; [discriminate|]. subst c2. cbn [tl] in H. step H.
          destruct x as [|y0 x]; [destruct f; [discriminate|]; cbn in H; injection H as <- <-; congruence|].
          apply pi_sound in E as (n & u & -> & Hn & Hu); [|discriminate].
          destruct Hu as [->|(s & d & -> & Hs & Ns & Hd)].
          - apply (M (Data []) (lit "<?" ++ n ++ lit "?>") (y0 :: x) ch); [|aeq|reflexivity|assumption]. apply mk_pi. exists n. auto.
          - apply (M (Data []) (lit "<?" ++ n ++ s ++ d ++ lit "?>") (y0 :: x) ch); [|aeq|reflexivity|assumption]. apply mk_pi. exists n. split; [assumption|]. right. exists s, d. auto. }
        destruct (Z.eqb_spec (match r with d :: _ => d | [] => -1 end) 47) as [E47|N47].
        { injection H as <- <-. exists [Data []], []. split; [reflexivity|]. split; [constructor; apply cd_nil|reflexivity]. }
        step H. destruct x as [e t1]. apply IHe in E as (u & Eu & He). apply (M (Child e) u t1 (ch ++ [e])); [constructor; assumption|exact Eu|reflexivity|assumption].
      + destruct (Z.eqb_spec c 38) as [->|N38].
        { step H. destruct x as [x t1]. apply ref_sound in E as (u & -> & Hu). step H.
          apply (M (Data [x]) (38 :: u) t1 x0); [constructor; assumption|reflexivity|cbn [feed]; rewrite E; reflexivity|assumption]. }
        destruct (char_data_loop (c :: r)) as [d t1] eqn:Ed. apply char_data_sound in Ed as (Et & Hd & Ht). step H.
        destruct Ht as [Ht|(q & ->)]; [|rewrite stuck in H; discriminate].
        apply IHc in H as (its & u & -> & Hu & Hf); [|assumption].
        destruct (add_data_front d its u rest (u ++ rest) Hd Hu Ht eq_refl Nr) as (its' & Hc' & Hf').
        exists its', (d ++ u). rewrite <- app_assoc. split; [exact Et|]. split; [exact Hc'|]. rewrite Hf', E. exact Hf.
  Qed.

  Theorem element_iff : forall t e rest, parse_element mixed (S (length t)) t = Ok (e, rest) <-> exists u, t = u ++ rest /\ elem e u.
  Proof.
    intros t e rest. split; [apply sound|]. intros (u & -> & He). apply complete; [assumption|]. rewrite app_length. lia.
  Qed.
End proofs.
