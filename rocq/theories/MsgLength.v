(** Proofs for C72-C78: how the length of what is sent is decided. *)
From Verif Require Import Py Num UriModel UriRel HttpModel HttpSpec HttpProofs HttpLex HttpParamModel HttpParamSpec
  HttpProps HttpParamProofs HttpParamMain BswModel BswProps MsgModel MsgSpec MsgLex MsgHead MsgRecv MsgData MsgStart MsgWhole MsgSend.

Notation TE := (lit "Transfer-Encoding").
Notation CL := (lit "Content-Length").
Definition one (o : option str) : option (list str) := option_map (fun x => [x]) o.
(** what the headers say about the length *)
Record view (hs : headers) (te cl : option str) : Prop := mkView {
  v_ok : hs_ok hs;
  v_te : get_header_list hs TE = one te; v_te_ok : forall t, te = Some t -> lower t = lit "chunked";
  v_cl : get_header_list hs CL = one cl; v_cl_ok : forall d, cl = Some d -> d <> [] /\ Forall dec_digit d }.
Lemma view_te : forall hs te cl, view hs te cl ->
  get_transfer_encoding hs = Ok (option_map (fun _ => [mkte (lit "chunked") []]) te).
Proof.
  intros hs te cl V. unfold get_transfer_encoding. rewrite get_list_get, (v_te _ _ _ V). destruct te as [t|]; [|reflexivity].
  cbn [one option_map commas]. rewrite te_chunked by (apply (v_te_ok _ _ _ V); reflexivity). reflexivity.
Qed.
Lemma view_cl : forall hs te cl, view hs te cl -> get_content_length hs = Ok (option_map decimal cl).
Proof.
  intros hs te cl V. unfold get_content_length. rewrite get_list_get, (v_cl _ _ _ V). destruct cl as [d|]; [|reflexivity].
  destruct (v_cl_ok _ _ _ V d eq_refl) as [H1 H2]. cbn [one option_map commas]. rewrite bstrip_digits, py_int_digits by assumption. reflexivity.
Qed.
Lemma dec_str_nat : forall n, 0 <= n -> dec_str n = dec_nat n.
Proof. intros n H. unfold dec_str. destruct (Z.ltb_spec n 0); [lia|reflexivity]. Qed.
Lemma dec_ok : forall n, 0 <= n -> dec_str n <> [] /\ Forall dec_digit (dec_str n) /\ decimal (dec_str n) = n.
Proof.
  intros n H. rewrite dec_str_nat by exact H. destruct (dec_nat_spec n H) as (A1 & A3 & A2 & _). split; [exact A2|]. split; [|exact A3].
  exact A1.
Qed.
Lemma no_crlf_digits : forall d, Forall dec_digit d -> no_crlf d.
Proof. intros d F. apply not_in_no_crlf. intros X. rewrite Forall_forall in F. apply F in X. destruct X. lia. Qed.
Ltac tokl := apply lit_token; [discriminate|reflexivity].
Lemma view_set_cl : forall hs te cl n, view hs te cl -> 0 <= n -> view (set_content_length hs n) te (Some (dec_str n)).
Proof.
  intros hs te cl n V H. destruct (dec_ok n H) as (D1 & D2 & D3). unfold set_content_length. constructor.
  - apply set_hs_ok; [apply (v_ok _ _ _ V)|tokl|]. intros x E. inversion E; subst. apply no_crlf_digits. exact D2.
  - rewrite get_set. change (str_eqb (b_lower TE) (b_lower CL)) with false. apply (v_te _ _ _ V).
  - apply (v_te_ok _ _ _ V).
  - rewrite get_set. change (str_eqb (b_lower CL) (b_lower CL)) with true. cbv iota. rewrite bstrip_digits by exact D2. destruct (get_header_list hs CL); reflexivity.
  - intros d E. inversion E; subst. auto.
Qed.
Lemma view_set_te : forall hs te cl, view hs te cl -> view (set_header hs TE (Some (lit "chunked")) false) (Some (lit "chunked")) cl.
Proof.
  intros hs te cl V. constructor.
  - apply set_hs_ok; [apply (v_ok _ _ _ V)|tokl|]. intros x E. inversion E; subst. apply not_in_no_crlf. cbn. intuition lia.
  - rewrite get_set. change (str_eqb (b_lower TE) (b_lower TE)) with true. cbv iota. destruct (get_header_list hs TE); reflexivity.
  - intros t E. inversion E; subst. reflexivity.
  - rewrite get_set. change (str_eqb (b_lower CL) (b_lower TE)) with false. apply (v_cl _ _ _ V).
  - apply (v_cl_ok _ _ _ V).
Qed.
Lemma view_del_te : forall hs te cl, view hs te cl -> view (set_header hs TE None false) None cl.
Proof.
  intros hs te cl V. pose proof (v_ok _ _ _ V) as Ho. constructor.
  - apply set_hs_ok; [exact Ho|tokl|discriminate].
  - rewrite get_unset by apply Ho. change (str_eqb (b_lower TE) (b_lower TE)) with true. reflexivity.
  - discriminate.
  - rewrite get_unset by apply Ho. change (str_eqb (b_lower CL) (b_lower TE)) with false. apply (v_cl _ _ _ V).
  - apply (v_cl_ok _ _ _ V).
Qed.
Lemma view_close : forall hs te cl, view hs te cl -> view (set_header hs (lit "Connection") (Some (lit "close")) false) te cl.
Proof.
  intros hs te cl V. constructor.
  - apply set_hs_ok; [apply (v_ok _ _ _ V)|tokl|]. intros x E. inversion E; subst. apply not_in_no_crlf. cbn. intuition lia.
  - rewrite get_set. change (str_eqb (b_lower TE) (b_lower (lit "Connection"))) with false. apply (v_te _ _ _ V).
  - apply (v_te_ok _ _ _ V).
  - rewrite get_set. change (str_eqb (b_lower CL) (b_lower (lit "Connection"))) with false. apply (v_cl _ _ _ V).
  - apply (v_cl_ok _ _ _ V).
Qed.

(** the fields that are not about the length stay as they are *)
Definition others (hs hs' : headers) : Prop := forall name, lower name <> lower TE -> lower name <> lower CL ->
  get_header_list hs' name = get_header_list hs name.
Lemma others_refl : forall hs, others hs hs. Proof. intros hs name _ _. reflexivity. Qed.
Lemma others_trans : forall a b c, others a b -> others b c -> others a c.
Proof. intros a b c H1 H2 name X Y. rewrite H2, H1 by assumption. reflexivity. Qed.
Lemma others_cl : forall hs n, others hs (set_content_length hs n).
Proof. intros hs n name X Y. unfold set_content_length. rewrite get_set. apply str_eqb_neq in Y. change (b_lower ?x) with (lower x). rewrite Y. reflexivity. Qed.
Lemma others_te : forall hs v, hs_ok hs -> others hs (set_header hs TE v false).
Proof.
  intros hs v Ho name X Y. apply str_eqb_neq in X. destruct v as [v|]; [rewrite get_set|rewrite get_unset by apply Ho]; change (b_lower ?x) with (lower x); rewrite X; reflexivity.
Qed.

(** ** Message.send_transferlength *)
Definition content (m : smsg) : str := match s_body m with Some s => s_rest s | None => [] end.
Definition blen_ok (m : smsg) : Prop := forall n, s_blen m = Some n -> has_body m = true /\ n = Z.of_nat (length (content m)).
(** what the caller may say: a Content-Length that is right where it will not be checked, and the chunked coding
    only for a body *)
Record inv (m : smsg) (te cl : option str) : Prop := mkInv {
  i_view : view (s_headers m) te cl; i_blen : blen_ok m;
  i_te : te <> None -> has_body m = true;
  i_cl : forall d, cl = Some d -> s_blen m = None -> decimal d = Z.of_nat (length (content m)) }.
Definition settled (m : smsg) (te cl : option str) (fr : framing) : Prop :=
  inv m te cl /\
  match fr with
  | Chunked => s_chunked m = true /\ s_len m = None /\ s_tbody m = true /\ has_body m = true /\ old_protocol (s_proto m) = false /\
               te <> None /\ cl = None
  | Length n => s_chunked m = false /\ s_len m = Some n /\ s_tbody m = has_body m /\ te = None /\
                (exists d, cl = Some d /\ decimal d = n) /\ n = Z.of_nat (length (content m))
  | UntilClose => s_chunked m = false /\ s_len m = None /\ s_tbody m = true /\ has_body m = true /\ s_blen m = None /\
                  te = None /\ cl = None /\ old_protocol (s_proto m) = true
  | Empty => s_chunked m = false /\ s_len m = Some 0 /\ s_tbody m = false /\ has_body m = false /\ s_blen m = None /\
             te = None /\ cl = None
  end.
(** what does not change *)
Record kept (m m' : smsg) : Prop := mkKept {
  k_kind : s_kind m' = s_kind m; k_body : s_body m' = s_body m; k_blen : s_blen m' = s_blen m; k_keep : s_keep m' = s_keep m;
  k_proto : s_proto m' = s_proto m; k_others : others (s_headers m) (s_headers m'); k_pos : s_pos m' = s_pos m; k_done : s_done m' = s_done m }.

Lemma chunked_te : str_eqb (te_token (mkte (lit "chunked") [])) (lit "chunked") = true. Proof. reflexivity. Qed.
Lemma body_content : forall m, has_body m = false -> content m = [].
Proof. intros m. unfold has_body, content. destruct (s_body m); [discriminate|reflexivity]. Qed.
Lemma ok_inj : forall A (a b : A), Ok a = Ok b -> b = a. Proof. intros A a b E. inversion E. reflexivity. Qed.
Ltac mk := constructor; try assumption; try discriminate; try congruence.
Lemma length_ok : forall m te cl m', inv m te cl -> te = None -> send_length m (option_map decimal cl) = Ok m' ->
  kept m m' /\ exists te' cl' fr, settled m' te' cl' fr /\ (cl <> None \/ s_blen m <> None -> exists n, fr = Length n).
Proof.
  intros m te cl m' [V B T C] -> E. unfold send_length in E. destruct cl as [d|]; cbn [option_map] in E.
  - assert (X : m' = s_set_frame m false (Some (decimal d)) (has_body m) /\ decimal d = Z.of_nat (length (content m))).
    { destruct (s_blen m) as [b|] eqn:Eb.
      - destruct (Z.eqb_spec b (decimal d)); [|discriminate]. inversion E; subst. split; [reflexivity|]. apply (proj2 (B _ Eb)).
      - inversion E. split; [reflexivity|]. apply C; reflexivity. }
    destruct X as [-> X]. split; [constructor; try reflexivity; apply others_refl|].
    exists None, (Some d), (Length (decimal d)). split; [|intros _; exists (decimal d); reflexivity]. split; [mk|]. cbn [s_set_frame s_chunked s_len s_tbody].
    split; [reflexivity|]. split; [reflexivity|]. split; [reflexivity|]. split; [reflexivity|]. split; [exists d; auto|exact X].
  - destruct (s_blen m) as [b|] eqn:Eb.
    + apply ok_inj in E; subst m'. destruct (B b Eb) as [B1 B2].
      assert (Hb : 0 <= b) by lia. split; [constructor; try reflexivity; apply others_cl|].
      exists None, (Some (dec_str b)), (Length b). destruct (dec_ok b Hb) as (D1 & D2 & D3). split; [|intros _; exists b; reflexivity].
      split; [mk|].
      * cbn [s_headers s_set_frame s_set_headers]. apply view_set_cl with None; assumption.
      * cbn [s_blen s_set_frame s_set_headers]. congruence.
      * cbn [s_set_frame s_set_headers s_chunked s_len s_tbody]. split; [reflexivity|]. split; [reflexivity|]. split; [reflexivity|]. split; [reflexivity|].
        split; [exists (dec_str b); auto|exact B2].
    + destruct (has_body m) eqn:Hb; cbn [negb] in E.
      * destruct (old_protocol (s_proto m)) eqn:Op; apply ok_inj in E; subst m'.
        -- split; [constructor; try reflexivity; apply others_refl|]. exists None, None, UntilClose. split; [|intros [X|X]; congruence]. split; [mk|].
           cbn [s_set_frame s_chunked s_len s_tbody s_blen s_proto]. repeat (split; [solve [auto]|]). exact Op.
        -- split; [constructor; cbn [s_set_frame s_set_headers s_headers s_kind s_body s_blen s_keep s_proto s_pos s_done]; solve [apply others_te, (v_ok _ _ _ V)|reflexivity]|].
           exists (Some (lit "chunked")), None, Chunked. split; [|intros [X|X]; congruence]. split.
           ++ constructor; cbn [s_set_frame s_set_headers s_headers]; try assumption; try discriminate.
              ** apply view_set_te with None; exact V.
              ** intros _. exact Hb.
           ++ cbn [s_set_frame s_set_headers s_chunked s_len s_tbody s_proto]. repeat (split; [solve [auto|discriminate]|]). reflexivity.
      * apply ok_inj in E; subst m'. split; [constructor; try reflexivity; apply others_refl|]. exists None, None, Empty. split; [|intros [X|X]; congruence].
        split; [mk|]. cbn [s_set_frame s_chunked s_len s_tbody s_blen]. repeat (split; [solve [auto]|]). reflexivity.
Qed.
Lemma inv_del : forall m te cl, inv m te cl -> inv (s_set_headers m (set_header (s_headers m) TE None false)) None cl.
Proof.
  intros m te cl [V B T C]. constructor; cbn [s_set_headers s_headers]; try assumption; [apply view_del_te with te; exact V|congruence].
Qed.
Lemma kept_trans : forall a b c, kept a b -> kept b c -> kept a c.
Proof. intros a b c [? ? ? ? ? H1 ? ?] [? ? ? ? ? H2 ? ?]. constructor; try congruence. eapply others_trans; [exact H1|exact H2]. Qed.
Lemma kept_del : forall m, hs_ok (s_headers m) -> kept m (s_set_headers m (set_header (s_headers m) TE None false)).
Proof. intros m H. constructor; cbn [s_set_frame s_set_headers s_headers s_kind s_body s_blen s_keep s_proto s_pos s_done]; solve [apply others_te; exact H|reflexivity]. Qed.
Lemma message_settles : forall m te cl m', inv m te cl -> message_send_transferlength m = Ok m' ->
  kept m m' /\ exists te' cl' fr, settled m' te' cl' fr /\ (te = None -> cl <> None \/ s_blen m <> None -> exists n, fr = Length n).
Proof.
  intros m te cl m' Iv E. pose proof Iv as [V B T C]. unfold message_send_transferlength in E.
  rewrite (view_te _ _ _ V), (view_cl _ _ _ V) in E. cbn [rbind] in E. destruct te as [t|]; cbn [option_map] in E.
  - destruct (old_protocol (s_proto m)) eqn:Op.
    + destruct (length_ok _ _ _ _ (inv_del _ _ _ Iv) eq_refl E) as [K (te' & cl' & fr & S & _)]. split; [|exists te', cl', fr; split; [exact S|discriminate]]. eapply kept_trans; [apply kept_del, (v_ok _ _ _ V)|exact K].
    + destruct cl as [d|]; [discriminate|]. cbn [option_map rev app rbind] in E. rewrite chunked_te in E. apply ok_inj in E; subst m'.
      split; [constructor; try reflexivity; apply others_refl|]. exists (Some t), None, Chunked. split; [|discriminate]. split; [mk|].
      cbn [s_set_frame s_chunked s_len s_tbody s_proto]. assert (Hb : has_body m = true) by (apply T; discriminate).
      repeat (split; [solve [auto|discriminate]|]). reflexivity.
  - destruct (length_ok _ _ _ _ Iv eq_refl E) as [K (te' & cl' & fr & S & L)]. split; [exact K|]. exists te', cl', fr. split; [exact S|]. intros _. exact L.
Qed.
(** the same decision is made again *)
Lemma frame_same : forall m, s_set_frame m (s_chunked m) (s_len m) (s_tbody m) = m.
Proof. intros []; reflexivity. Qed.
Lemma message_again : forall m te cl fr, settled m te cl fr -> message_send_transferlength m = Ok m.
Proof.
  intros m te cl fr [Iv F]. pose proof Iv as [V B T C]. unfold message_send_transferlength. rewrite (view_te _ _ _ V), (view_cl _ _ _ V). cbn [rbind].
  pose proof (frame_same m) as Fs. destruct fr as [| |n|].
  - destruct F as (F1 & F2 & F3 & F4 & F5 & -> & ->). cbn [option_map]. unfold send_length. rewrite F4, F5. cbn [negb]. rewrite F1, F2, F3 in Fs. rewrite Fs. reflexivity.
  - destruct F as (F1 & F2 & F3 & F4 & F5 & F6 & ->). destruct te as [t|]; [|congruence]. cbn [option_map]. rewrite F5. cbn [rev app rbind].
    rewrite chunked_te, F4. rewrite F1, F2, F3 in Fs. rewrite Fs. reflexivity.
  - destruct F as (F1 & F2 & F3 & -> & (d & -> & Hd) & F6). cbn [option_map]. unfold send_length. rewrite F1, F2, F3 in Fs. rewrite Hd.
    destruct (s_blen m) as [b|] eqn:Eb; [|rewrite Fs; reflexivity]. destruct (B b Eb) as [_ B2]. replace (b =? n) with true by lia. rewrite Fs. reflexivity.
  - destruct F as (F1 & F2 & F3 & F4 & F5 & -> & -> & F8). cbn [option_map]. unfold send_length. rewrite F4, F5, F8. cbn [negb]. rewrite F1, F2, F3 in Fs. rewrite Fs. reflexivity.
Qed.

(** ** Request.send_transferlength *)
Definition bodiless_method (method : str) : bool := existsb (str_eqb (b_upper method)) [lit "GET"; lit "HEAD"; lit "DELETE"].
(** like [kept], but for the way the body is held *)
Record kept2 (m m' : smsg) : Prop := mkKept2 {
  k2_kind : s_kind m' = s_kind m; k2_body : content m' = content m; k2_keep : s_keep m' = s_keep m;
  k2_proto : s_proto m' = s_proto m; k2_others : others (s_headers m) (s_headers m') }.
Lemma kept_kept2 : forall m m', kept m m' -> kept2 m m'.
Proof. intros m m' []. constructor; try assumption. unfold content. rewrite k_body0. reflexivity. Qed.
Lemma kept2_trans : forall a b c, kept2 a b -> kept2 b c -> kept2 a c.
Proof. intros a b c [? ? ? ? H1] [? ? ? ? H2]. constructor; try congruence. eapply others_trans; [exact H1|exact H2]. Qed.
Definition qsettled (method : str) (m : smsg) (te cl : option str) (fr : framing) : Prop :=
  settled m te cl fr /\ fr <> UntilClose /\ (bodiless_method method = true -> fr = Empty \/ fr = Length 0) /\
  (bodiless_method method = false -> fr <> Empty).
Lemma request_again : forall maxra method m te cl fr, qsettled method m te cl fr -> request_send_transferlength maxra method m = Ok m.
Proof.
  intros maxra method m te cl fr (S & Nu & B1 & B2). unfold request_send_transferlength. rewrite (message_again _ _ _ _ S). cbn [rbind].
  change (existsb (str_eqb (b_upper method)) [lit "GET"; lit "HEAD"; lit "DELETE"]) with (bodiless_method method).
  destruct S as [Iv F]. destruct (bodiless_method method) eqn:E.
  - destruct (B1 eq_refl) as [->| ->].
    + destruct F as (_ & -> & _). reflexivity.
    + destruct F as (_ & -> & _). reflexivity.
  - specialize (B2 eq_refl). destruct fr as [| |n|]; try congruence.
    + destruct F as (F1 & F2 & _). rewrite F1, F2. reflexivity.
    + destruct F as (F1 & F2 & _ & _ & (d & -> & Hd) & _). rewrite F2. destruct (n =? 0); [|reflexivity].
      rewrite (view_cl _ _ _ (i_view _ _ _ Iv)). reflexivity.
Qed.
Lemma request_settles : forall maxra method m te cl m', inv m te cl -> request_send_transferlength maxra method m = Ok m' ->
  kept2 m m' /\ exists te' cl' fr, qsettled method m' te' cl' fr.
Proof.
  intros maxra method m te cl m' Iv E. unfold request_send_transferlength in E.
  change (existsb (str_eqb (b_upper method)) [lit "GET"; lit "HEAD"; lit "DELETE"]) with (bodiless_method method) in E.
  destruct (message_send_transferlength m) as [m1|] eqn:E1; [|discriminate]. cbn [rbind] in E.
  destruct (message_settles _ _ _ _ Iv E1) as (K1 & te1 & cl1 & fr1 & S1 & _). pose proof S1 as [Iv1 F1]. apply kept_kept2 in K1.
  destruct (bodiless_method method) eqn:Bm.
  - destruct (s_len m1) as [n|] eqn:El; [|discriminate]. destruct (Z.ltb_spec 0 n) as [Hn|Hn]; [discriminate|]. apply ok_inj in E; subst m'.
    split; [exact K1|]. exists te1, cl1, fr1. split; [exact S1|]. split; [|split; [intros _|congruence]].
    + intros ->. destruct F1 as (_ & F1 & _). congruence.
    + destruct fr1 as [| |k|]; [left; reflexivity|destruct F1 as (_ & F1 & _); congruence| |destruct F1 as (_ & F1 & _); congruence].
      right. destruct F1 as (_ & F1 & _ & _ & _ & F6). assert (k = n) by congruence. f_equal. lia.
  - destruct (s_len m1) as [n|] eqn:El.
    + assert (Fr : fr1 = Empty \/ fr1 = Length n).
      { destruct fr1 as [| |k|]; [left; reflexivity|destruct F1 as (_ & F1 & _); congruence| |destruct F1 as (_ & F1 & _); congruence].
        right. destruct F1 as (_ & F1 & _). congruence. }
      destruct Fr as [->| ->].
      * destruct F1 as (G1 & G2 & G3 & G4 & G5 & -> & ->). assert (n = 0) as -> by congruence. change (0 =? 0) with true in E. cbv iota in E.
        rewrite (view_cl _ _ _ (i_view _ _ _ Iv1)) in E. cbn [option_map rbind] in E. apply ok_inj in E; subst m'.
        split.
        { eapply kept2_trans; [exact K1|]. constructor; cbn [s_set_headers s_kind s_keep s_proto s_headers]; solve [apply others_cl|reflexivity]. }
        exists None, (Some (dec_str 0)), (Length 0). split; [split|].
        -- destruct Iv1 as [V B T C]. constructor; cbn [s_set_headers s_headers]; try assumption.
           ++ apply view_set_cl with None; [exact V|lia].
           ++ intros d X _. inversion X; subst. change (content (s_set_headers m1 (set_content_length (s_headers m1) 0))) with (content m1).
              rewrite body_content by exact G4. reflexivity.
        -- cbn [s_set_headers s_chunked s_len s_tbody]. change (has_body (s_set_headers m1 (set_content_length (s_headers m1) 0))) with (has_body m1).
           change (content (s_set_headers m1 (set_content_length (s_headers m1) 0))) with (content m1). rewrite (body_content m1) by exact G4.
           split; [exact G1|]. split; [exact El|]. split; [congruence|]. split; [reflexivity|]. split; [exists (dec_str 0); split; reflexivity|reflexivity].
        -- split; [discriminate|]. split; [congruence|discriminate].
      * assert (m' = m1) as ->.
        { destruct F1 as (_ & _ & _ & _ & (d & -> & Hd) & _). rewrite (view_cl _ _ _ (i_view _ _ _ Iv1)) in E. cbn [option_map rbind] in E.
          destruct (n =? 0); apply ok_inj in E; exact E. }
        split; [exact K1|]. exists te1, cl1, (Length n). split; [exact S1|]. split; [discriminate|]. split; [congruence|discriminate].
    + destruct (s_chunked m1) eqn:Ec.
      * apply ok_inj in E; subst m'. split; [exact K1|]. exists te1, cl1, fr1. split; [exact S1|].
        destruct fr1; try (destruct F1 as (F1 & _); congruence). split; [discriminate|]. split; [congruence|discriminate].
      * destruct (s_body m1) as [src|] eqn:Eb; [|discriminate]. destruct (init_ok maxra src) as (w & Iw & R1 & R2 & _). rewrite Iw in E.
        unfold b_length in E. destruct (b_overflow w) eqn:Ov; [discriminate|]. rewrite (R2 eq_refl), app_nil_r in R1.
        assert (te1 = None /\ cl1 = None /\ s_blen m1 = None) as (-> & -> & Bn).
        { destruct fr1; try (destruct F1 as (F1 & F2 & _); congruence). destruct F1 as (_ & _ & _ & _ & ? & ? & ? & _). auto. }
        set (m2 := s_set_body m1 (Some (mkSrc (b_bytes w) [])) (Some (b_size w))) in *.
        assert (Iv2 : inv m2 None None).
        { destruct Iv1 as [V B T C]. constructor; try assumption.
          - intros n X. cbn [m2 s_set_body s_blen] in X. inversion X; subst. split; reflexivity.
          - congruence.
          - discriminate. }
        destruct (message_settles _ _ _ _ Iv2 E) as (K2 & te2 & cl2 & fr2 & S2 & L2). split.
        { eapply kept2_trans; [exact K1|]. eapply kept2_trans; [|apply kept_kept2; exact K2].
          constructor; try reflexivity; [|apply others_refl]. unfold content. rewrite Eb. cbn [m2 s_set_body s_body s_rest]. congruence. }
        exists te2, cl2, fr2. destruct (L2 eq_refl) as (n & ->); [right; discriminate|]. split; [exact S2|]. split; [discriminate|]. split; [congruence|discriminate].
Qed.

(** ** Response.send_transferlength *)
Record rinv (m : smsg) (te cl : option str) : Prop := mkRinv {
  ri_view : view (s_headers m) te cl; ri_blen : blen_ok m;
  ri_te : te <> None -> has_body m = true;
  ri_cl : forall d, cl = Some d -> has_body m = true -> s_blen m = None -> decimal d = Z.of_nat (length (content m)) }.
Lemma rinv_inv : forall m te cl, rinv m te cl -> has_body m = true -> inv m te cl.
Proof. intros m te cl [V B T C] H. constructor; try assumption. intros d X. apply C; assumption. Qed.
Definition oldr (rp sp : http_version) : bool := version_le rp (1, 0) || version_le sp (1, 0).
Definition rsettled (bl : bool) (rp sp : http_version) (m : smsg) (te cl : option str) (fr : framing) : Prop :=
  view (s_headers m) te cl /\
  ((bl = true /\ fr = Empty /\ s_chunked m = false /\ s_len m = Some 0 /\ s_tbody m = false /\ content m = [] /\
    (has_body m = false \/ s_blen m = Some 0)) \/
   (bl = false /\ has_body m = false /\ s_blen m = None /\ fr = Length 0 /\ s_chunked m = false /\ s_len m = Some 0 /\ s_tbody m = false /\ te = None /\
    cl = Some (lit "0") /\ h_find (lit "content-length") (s_headers m) = Some (CL, [lit "0"])) \/
   (bl = false /\ oldr rp sp = true /\ fr = UntilClose /\ te = None /\ cl = None /\ s_blen m = None /\ has_body m = true /\
    s_chunked m = false /\ s_len m = None /\ s_tbody m = true /\ s_keep m = false) \/
   (bl = false /\ has_body m = true /\ settled m te cl fr /\ (oldr rp sp = true -> te = None /\ exists n, fr = Length n))).
Lemma put_same : forall k v hs, h_find k hs = Some v -> h_put k v hs = hs.
Proof.
  intros k v hs. induction hs as [|[k' w] hs IH]; cbn [h_find h_put]; [discriminate|]. destruct (str_eqb k k') eqn:E.
  - intros X. inversion X; subst. reflexivity.
  - intros X. rewrite IH by exact X. reflexivity.
Qed.
Lemma set_cl_same : forall m, h_find (lit "content-length") (s_headers m) = Some (CL, [lit "0"]) ->
  s_set_headers m (set_content_length (s_headers m) 0) = m.
Proof.
  intros m H. unfold set_content_length, set_header. change (b_lower CL) with (lit "content-length"). rewrite H. change (bstrip (dec_str 0)) with (lit "0").
  rewrite put_same by exact H. destruct m; reflexivity.
Qed.
Lemma keep_same : forall m, s_keep m = false -> s_set_keep m false = m.
Proof. intros [] E. cbn in E. subst. reflexivity. Qed.
Definition resp_bl (st : Z) (rm : str) : bool := bodyless st (str_eqb rm (lit "HEAD")).
Lemma response_again : forall st rm rp sp m te cl fr, rsettled (resp_bl st rm) rp sp m te cl fr ->
  response_send_transferlength st rm rp sp m = Ok m.
Proof.
  intros st rm rp sp m te cl fr [V H]. unfold response_send_transferlength. fold (resp_bl st rm). fold (oldr rp sp). pose proof (frame_same m) as Fs.
  destruct H as [H|[H|[H|H]]].
  - destruct H as (-> & _ & F1 & F2 & F3 & _ & F4). rewrite F1, F2, F3 in Fs. rewrite Fs. destruct F4 as [-> | ->]; [reflexivity|].
    cbn [negb]. rewrite andb_false_r. reflexivity.
  - destruct H as (-> & Hb & Bn & _ & F1 & F2 & F3 & -> & -> & Hf). cbn [option_map].
    rewrite (view_te _ _ _ V). cbn [option_map rbind]. rewrite (view_cl _ _ _ V). cbn [option_map rbind]. rewrite Hb.
    rewrite set_cl_same by exact Hf. rewrite F1, F2, F3 in Fs. rewrite Fs. destruct (oldr rp sp); reflexivity.
  - destruct H as (-> & -> & _ & -> & -> & F1 & F2 & F3 & F4 & F5 & F6). rewrite (view_te _ _ _ V). cbn [option_map rbind]. rewrite (view_cl _ _ _ V).
    cbn [option_map rbind]. rewrite F1, F2. rewrite F3, F4, F5 in Fs. rewrite Fs, keep_same by exact F6. reflexivity.
  - destruct H as (-> & Hb & S & O). pose proof (message_again _ _ _ _ S) as Me. destruct (oldr rp sp); [|rewrite Hb; exact Me]. destruct (O eq_refl) as (-> & n & ->).
    rewrite (view_te _ _ _ V). cbn [option_map rbind]. rewrite (view_cl _ _ _ V). destruct S as [Iv F]. destruct F as (F1 & F2 & F3 & F4 & (d & -> & Hd) & F6).
    cbn [option_map rbind]. destruct (s_blen m); rewrite Hb; exact Me.
Qed.
Record kept3 (m m' : smsg) : Prop := mkKept3 {
  k3_kind : s_kind m' = s_kind m; k3_body : content m' = content m;
  k3_keep : s_keep m' = true -> s_keep m = true; k3_proto : s_proto m' = s_proto m; k3_others : others (s_headers m) (s_headers m') }.
Lemma kept_kept3 : forall m m', kept m m' -> kept3 m m'.
Proof. intros m m' []. constructor; try assumption; try congruence. unfold content. rewrite k_body0. reflexivity. Qed.
Lemma kept3_trans : forall a b c, kept3 a b -> kept3 b c -> kept3 a c.
Proof. intros a b c [? ? K1 ? H1] [? ? K2 ? H2]. constructor; try congruence; [intros X; apply K1, K2, X|]. eapply others_trans; [exact H1|exact H2]. Qed.
Lemma find_cl : forall hs te cl, view hs te cl -> h_find (lit "content-length") (set_content_length hs 0) = Some (CL, [lit "0"]).
Proof.
  intros hs te cl V. unfold set_content_length, set_header. change (b_lower CL) with (lit "content-length"). change (bstrip (dec_str 0)) with (lit "0").
  destruct (h_find (lit "content-length") hs) as [[? ?]|]; apply h_find_put.
Qed.
Lemma response_settles : forall st rm rp sp m te cl m', rinv m te cl -> response_send_transferlength st rm rp sp m = Ok m' ->
  kept3 m m' /\ exists te' cl' fr, rsettled (resp_bl st rm) rp sp m' te' cl' fr.
Proof.
  intros st rm rp sp m te cl m' Ri E. pose proof Ri as [V B T C]. unfold response_send_transferlength in E. fold (resp_bl st rm) in E. fold (oldr rp sp) in E.
  destruct (resp_bl st rm) eqn:Bl.
  - destruct (has_body m && negb (match s_blen m with Some 0 => true | _ => false end)) eqn:X; [discriminate|]. apply ok_inj in E; subst m'.
    split; [constructor; try reflexivity; [auto|apply others_refl]|]. exists te, cl, Empty. split; [exact V|]. left.
    assert (Y : has_body m = false \/ s_blen m = Some 0).
    { apply andb_false_iff in X as [X|X]; [left; exact X|right]. destruct (s_blen m) as [[| |]|]; try discriminate. reflexivity. }
    cbn [s_set_frame s_chunked s_len s_tbody s_blen]. repeat (split; [reflexivity|]). split; [|exact Y]. change (content (s_set_frame m false (Some 0) false)) with (content m).
    destruct Y as [Y|Y]; [apply body_content; exact Y|]. apply B in Y as [_ Y]. destruct (content m); [reflexivity|discriminate].
  - (* what is done where the length can be decided *)
    assert (Rest : forall m1 te1, rinv m1 te1 cl -> (oldr rp sp = true -> te1 = None /\ (has_body m1 = true -> cl <> None \/ s_blen m1 <> None)) ->
      (if has_body m1 then message_send_transferlength m1
       else Ok (s_set_frame (s_set_headers m1 (set_content_length (s_headers m1) 0)) false (Some 0) false)) = Ok m' ->
      kept3 m1 m' /\ exists te' cl' fr, rsettled false rp sp m' te' cl' fr).
    { clear E. intros m1 te1 Ri1 Old E. pose proof Ri1 as [V1 B1 T1 C1]. destruct (has_body m1) eqn:Hb.
      - destruct (message_settles _ _ _ _ (rinv_inv _ _ _ Ri1 Hb) E) as (K & te2 & cl2 & fr2 & S & L). split; [apply kept_kept3; exact K|].
        exists te2, cl2, fr2. split; [apply (i_view _ _ _ (proj1 S))|]. right. right. right. split; [reflexivity|].
        split; [unfold has_body in *; rewrite (k_body _ _ K); exact Hb|]. split; [exact S|]. intros O. destruct (Old O) as [-> O2]. destruct (L eq_refl (O2 eq_refl)) as (n & ->).
        split; [destruct S as [_ (_ & _ & _ & S & _)]; exact S|exists n; reflexivity].
      - apply ok_inj in E; subst m'. assert (te1 = None) as -> by (destruct te1; [exfalso; assert (X : false = true) by (apply T1; discriminate); discriminate|reflexivity]).
        split; [constructor; cbn [s_set_frame s_set_headers s_kind s_proto s_headers]; solve [apply others_cl|reflexivity|auto]|].
        exists None, (Some (lit "0")), (Length 0). split; [apply (view_set_cl _ _ _ 0 V1); lia|]. right. left.
        cbn [s_set_frame s_set_headers s_chunked s_len s_tbody s_headers s_blen]. split; [reflexivity|]. split; [exact Hb|].
        split; [|split; [reflexivity|]; split; [reflexivity|]; split; [reflexivity|]; split; [reflexivity|]; split; [reflexivity|]; split; [reflexivity|apply (find_cl _ _ _ V1)]].
        destruct (s_blen m1) eqn:Eb; [|reflexivity]. apply B1 in Eb as [Eb _]. congruence. }
    destruct (oldr rp sp) eqn:O.
    + rewrite (view_te _ _ _ V) in E. cbn [rbind] in E.
      set (m1 := match option_map (fun _ => [mkte (lit "chunked") []]) te with None | Some [] => m | Some _ => s_set_headers m (set_header (s_headers m) TE None false) end) in *.
      assert (X : rinv m1 None cl /\ kept m m1).
      { destruct te as [t|]; cbn [option_map] in m1.
        - split; [|apply kept_del, (v_ok _ _ _ V)]. constructor; cbn [m1 s_set_headers s_headers]; try assumption; [apply view_del_te with (Some t); exact V|congruence].
        - split; [exact Ri|constructor; try reflexivity; apply others_refl]. }
      destruct X as [Ri1 K1]. clearbody m1. pose proof Ri1 as [V1 B1 T1 C1]. rewrite (view_cl _ _ _ V1) in E. cbn [rbind] in E.
      assert (Go : (cl <> None \/ s_blen m1 <> None \/ has_body m1 = false) -> kept3 m m' /\ exists te' cl' fr, rsettled false rp sp m' te' cl' fr).
      { intros Cs. destruct (Rest m1 None Ri1) as [K2 S].
        - intros _. split; [reflexivity|]. intros Hb. destruct Cs as [Cs|[Cs|Cs]]; [left; exact Cs|right; exact Cs|congruence].
        - destruct cl as [d|]; [exact E|]. destruct (s_blen m1) as [b|]; [exact E|]. destruct (has_body m1); [|exact E]. destruct Cs as [Cs|[Cs|Cs]]; congruence.
        - split; [eapply kept3_trans; [apply kept_kept3; exact K1|exact K2]|exact S]. }
      destruct cl as [d|]; [apply Go; left; discriminate|]. destruct (s_blen m1) as [b|] eqn:Eb; [apply Go; right; left; discriminate|].
      destruct (has_body m1) eqn:Hb; [|apply Go; right; right; reflexivity]. cbn [option_map] in E. apply ok_inj in E; subst m'.
      split; [eapply kept3_trans; [apply kept_kept3; exact K1|constructor; try reflexivity; [discriminate|apply others_refl]]|].
      exists None, None, UntilClose. split; [exact V1|]. right. right. left. cbn [s_set_keep s_set_frame s_blen s_chunked s_len s_tbody s_keep].
      repeat (split; [solve [reflexivity|assumption]|]). reflexivity.
    + apply (Rest m te Ri); [discriminate|exact E].
Qed.
