From Verif Require Import Py Codec DetectModel DetectSpec.

Lemma star b : b <> 0 -> b <> 254 -> b <> 255 -> (if zin b [0; 254; 255] then b else 42) = 42.
Proof.
  intros. destruct (zin b [0;254;255]) eqn:E; [|reflexivity].
  apply zin_In in E. cbn in E. lia.
Qed.

Definition kb (o : option Z) : Z :=
  match o with None => 42 | Some b => if zin b [0; 254; 255] then b else 42 end.

Lemma detect_key magic : str_eqb (slice 0 3 magic) [239; 187; 191] = false ->
  detect_encoding magic =
  lookup [kb (nth_error magic 0); kb (nth_error magic 1); kb (nth_error magic 2); kb (nth_error magic 3)]
    magic_table.
Proof. intros H. unfold detect_encoding. rewrite H. reflexivity. Qed.

Definition utf8_byte (b : Z) : Prop := b <> 0 /\ b <> 254 /\ b <> 255.
Lemma utf8_char_nokeep c : is_scalar c -> c <> 0 -> Forall utf8_byte (utf8_char c).
Proof.
  unfold is_scalar, maxunicode, utf8_char, utf8_byte. intros H H0.
  repeat destr; b2p; repeat constructor; zdiv.
Qed.
Lemma utf8_nokeep t : Forall (fun c => is_scalar c /\ c <> 0) t -> Forall utf8_byte (utf8 t).
Proof.
  induction 1 as [|c t [H1 H2] _ IH]; cbn; [constructor|]. apply Forall_app. split; auto.
  apply utf8_char_nokeep; auto.
Qed.

Lemma kb_utf8 l i : Forall utf8_byte l -> kb (nth_error l i) = 42.
Proof.
  intros H. unfold kb. destruct (nth_error l i) as [b|] eqn:E; [|reflexivity].
  apply nth_error_In in E. rewrite Forall_forall in H. destruct (H b E) as (A & B & C).
  apply star; auto.
Qed.

Lemma detect_utf8 t : Forall (fun c => is_scalar c /\ c <> 0) t -> (exists c t', t = c :: t' /\ ascii c) ->
  detect_encoding (utf8 t) = Some Utf8.
Proof.
  intros H (c & t' & -> & Hc). rewrite detect_key.
  - rewrite !kb_utf8 by (apply utf8_nokeep; exact H). reflexivity.
  - unfold utf8. cbn [flat_map]. unfold ascii in Hc.
    replace (utf8_char c) with [c]
      by (unfold utf8_char; replace (c <? 128) with true by (symmetry; apply Z.ltb_lt; lia); reflexivity).
    unfold slice. apply str_eqb_neq. cbn [app skipn]. change (3 - 0)%nat with 3%nat. cbn [firstn].
    intros Q. inversion Q. lia.
Qed.

Lemma slice3 (a b c : Z) l : slice 0 3 (a :: b :: c :: l) = [a; b; c].
Proof. reflexivity. Qed.

(** the 4 first bytes as a function of the key bytes *)
Lemma detect4 a b c d l : ~ (a = 239 /\ b = 187 /\ c = 191) ->
  detect_encoding (a :: b :: c :: d :: l) = lookup [kb (Some a); kb (Some b); kb (Some c); kb (Some d)] magic_table.
Proof.
  intros H. rewrite detect_key; [reflexivity|]. rewrite slice3. apply str_eqb_neq.
  intros Q. inversion Q. tauto.
Qed.
Lemma detect2 a b : detect_encoding [a; b] = lookup [kb (Some a); kb (Some b); 42; 42] magic_table.
Proof.
  rewrite detect_key; [reflexivity|]. apply str_eqb_neq. discriminate.
Qed.

Lemma kb_star b : b <> 0 -> b <> 254 -> b <> 255 -> kb (Some b) = 42.
Proof. apply star. Qed.

Lemma kb_cases b : kb (Some b) = 42 \/ (b = 0 /\ kb (Some b) = 0) \/ (b = 254 /\ kb (Some b) = 254) \/
  (b = 255 /\ kb (Some b) = 255).
Proof.
  destruct (Z.eq_dec b 0) as [->|]; [right; left; split; reflexivity|].
  destruct (Z.eq_dec b 254) as [->|]; [do 2 right; left; split; reflexivity|].
  destruct (Z.eq_dec b 255) as [->|]; [do 3 right; split; reflexivity|].
  left. apply kb_star; auto.
Qed.

Lemma small_units c : ascii c -> units16 c = [c].
Proof. unfold ascii, units16. intros. replace (c <? 65536) with true; auto. symmetry. apply Z.ltb_lt. lia. Qed.
Lemma be16_small c : ascii c -> be16 c = [0; c].
Proof. unfold ascii, be16. intros. rewrite Z.div_small, Z.mod_small by lia. reflexivity. Qed.
Lemma le16_small c : ascii c -> le16 c = [c; 0].
Proof. unfold ascii, le16. intros. rewrite Z.div_small, Z.mod_small by lia. reflexivity. Qed.
Lemma be32_small c : ascii c -> be32 c = [0; 0; 0; c].
Proof. unfold ascii, be32. intros. repeat f_equal; zdiv. Qed.
Lemma le32_small c : ascii c -> le32 c = [c; 0; 0; 0].
Proof. unfold ascii, le32. intros. repeat f_equal; zdiv. Qed.
Lemma kb_ascii c : ascii c -> kb (Some c) = 42.
Proof. unfold ascii. intros. apply kb_star; lia. Qed.

(** first 16-bit unit of a NUL-free text *)
Lemma utf16be_head t : Forall (fun c => is_scalar c /\ c <> 0) t ->
  t = [] \/ exists u l, utf16be t = be16 u ++ l /\ 1 <= u <= 65535.
Proof.
  intros H. destruct t as [|c t]; [auto|right]. inversion H as [|? ? [Hs Hn] Ht]; subst.
  unfold utf16be. cbn [flat_map]. unfold units16. unfold is_scalar, maxunicode in Hs.
  destruct (c <? 65536) eqn:E; b2p; cbn [flat_map].
  - exists c. eexists. split; [rewrite <- !app_assoc; reflexivity|lia].
  - eexists. eexists. split; [rewrite <- !app_assoc; reflexivity|zdiv].
Qed.
Lemma utf16le_head t : Forall (fun c => is_scalar c /\ c <> 0) t ->
  t = [] \/ exists u l, utf16le t = le16 u ++ l /\ 1 <= u <= 65535.
Proof.
  intros H. destruct t as [|c t]; [auto|right]. inversion H as [|? ? [Hs Hn] Ht]; subst.
  unfold utf16le. cbn [flat_map]. unfold units16. unfold is_scalar, maxunicode in Hs.
  destruct (c <? 65536) eqn:E; b2p; cbn [flat_map].
  - exists c. eexists. split; [rewrite <- !app_assoc; reflexivity|lia].
  - eexists. eexists. split; [rewrite <- !app_assoc; reflexivity|zdiv].
Qed.

Ltac kcase b :=
  let H := fresh in destruct (kb_cases b) as [H|[[? H]|[[? H]|[? H]]]]; rewrite H in *.

Ltac head8 := unfold utf8; cbn [flat_map]; change (utf8_char bom) with [239; 187; 191];
  cbn [app]; unfold detect_encoding; rewrite slice3; reflexivity.

Lemma certain_right e wb t d : written e wb t d -> text_ok wb t -> certain e wb t ->
  detect_encoding d = Some e.
Proof.
  intros W [H Hb] C. destruct W; cbn [certain] in C.
  - destruct Hb as [|Hb]; [discriminate|]. apply detect_utf8; auto.
  - head8.
  - destruct C as (c & d & t' & -> & Hc & Hd). unfold utf16be. cbn [flat_map].
    repeat match goal with Ha : ascii ?x |- _ => rewrite (small_units x Ha); revert Ha end; intros. cbn [flat_map]. repeat match goal with Ha : ascii ?x |- _ => rewrite (be16_small x Ha); revert Ha end; intros. cbn [app].
    rewrite detect4 by lia. repeat match goal with Ha : ascii ?x |- _ => rewrite ?(kb_ascii x Ha); clear Ha end. reflexivity.
  - destruct C as (c & t' & -> & Hc). unfold utf16be. cbn [flat_map].
    repeat match goal with Ha : ascii ?x |- _ => rewrite (small_units x Ha); revert Ha end; intros. cbn [flat_map]. repeat match goal with Ha : ascii ?x |- _ => rewrite (be16_small x Ha); revert Ha end; intros.
    change (flat_map be16 (units16 bom)) with [254; 255]. cbn [app].
    rewrite detect4 by lia. repeat match goal with Ha : ascii ?x |- _ => rewrite ?(kb_ascii x Ha); clear Ha end. reflexivity.
  - destruct C as (c & d & t' & -> & Hc & Hd). unfold utf16le. cbn [flat_map].
    repeat match goal with Ha : ascii ?x |- _ => rewrite (small_units x Ha); revert Ha end; intros. cbn [flat_map]. repeat match goal with Ha : ascii ?x |- _ => rewrite (le16_small x Ha); revert Ha end; intros. cbn [app].
    rewrite detect4 by lia. repeat match goal with Ha : ascii ?x |- _ => rewrite ?(kb_ascii x Ha); clear Ha end. reflexivity.
  - destruct C as (c & t' & -> & Hc). unfold utf16le. cbn [flat_map].
    repeat match goal with Ha : ascii ?x |- _ => rewrite (small_units x Ha); revert Ha end; intros. cbn [flat_map]. repeat match goal with Ha : ascii ?x |- _ => rewrite (le16_small x Ha); revert Ha end; intros.
    change (flat_map le16 (units16 bom)) with [255; 254]. cbn [app].
    rewrite detect4 by lia. repeat match goal with Ha : ascii ?x |- _ => rewrite ?(kb_ascii x Ha); clear Ha end. reflexivity.
  - destruct Hb as [|(c & t' & -> & Hc)]; [discriminate|]. unfold utf32be. cbn [flat_map].
    rewrite be32_small by auto. cbn [app]. rewrite detect4 by lia. rewrite (kb_ascii c Hc). reflexivity.
  - unfold utf32be. cbn [flat_map]. change (be32 bom) with [0; 0; 254; 255]. cbn [app].
    rewrite detect4 by lia. reflexivity.
  - destruct Hb as [|(c & t' & -> & Hc)]; [discriminate|]. unfold utf32le. cbn [flat_map].
    rewrite le32_small by auto. cbn [app]. rewrite detect4 by lia. rewrite (kb_ascii c Hc). reflexivity.
  - unfold utf32le. cbn [flat_map]. change (le32 bom) with [255; 254; 0; 0]. cbn [app].
    rewrite detect4 by lia. reflexivity.
Qed.

Lemma never_wrong e wb t d : written e wb t d -> text_ok wb t ->
  detect_encoding d = None \/ detect_encoding d = Some e.
Proof.
  intros W [H Hb].
  destruct e; try solve [right; eapply certain_right; [exact W|split; auto|exact I]]; try solve [inversion W].
  - inversion W; subst.
    + destruct Hb as [|(c & t' & -> & Hc)]; [discriminate|]. inversion H as [|? ? [Hs Hn] Ht]; subst.
      unfold utf16be. cbn [flat_map]. rewrite small_units by auto. cbn [flat_map].
      rewrite be16_small by auto. fold (utf16be t'). cbn [app].
      destruct (utf16be_head t' Ht) as [->|(u & l & -> & Hu)].
      * cbn [utf16be flat_map]. rewrite detect2, (kb_ascii c Hc). auto.
      * unfold be16. cbn [app]. rewrite !detect4 by lia. rewrite (kb_ascii c Hc).
        change (kb (Some 0)) with 0.
        kcase (u / 256); kcase (u mod 256); try (exfalso; zdiv); cbn; auto.
    + unfold utf16be. cbn [flat_map]. change (flat_map be16 (units16 bom)) with [254; 255].
      fold (utf16be t). cbn [app].
      destruct (utf16be_head t H) as [->|(u & l & -> & Hu)].
      * left. reflexivity.
      * unfold be16. cbn [app]. rewrite !detect4 by lia.
        change (kb (Some 254)) with 254. change (kb (Some 255)) with 255.
        kcase (u / 256); kcase (u mod 256); try (exfalso; zdiv); cbn; auto.
  - inversion W; subst.
    + destruct Hb as [|(c & t' & -> & Hc)]; [discriminate|]. inversion H as [|? ? [Hs Hn] Ht]; subst.
      unfold utf16le. cbn [flat_map]. rewrite small_units by auto. cbn [flat_map].
      rewrite le16_small by auto. fold (utf16le t'). cbn [app].
      destruct (utf16le_head t' Ht) as [->|(u & l & -> & Hu)].
      * cbn [utf16le flat_map]. rewrite detect2, (kb_ascii c Hc). auto.
      * unfold le16. cbn [app]. rewrite !detect4 by lia. rewrite (kb_ascii c Hc).
        change (kb (Some 0)) with 0.
        kcase (u / 256); kcase (u mod 256); try (exfalso; zdiv); cbn; auto.
    + unfold utf16le. cbn [flat_map]. change (flat_map le16 (units16 bom)) with [255; 254].
      fold (utf16le t). cbn [app].
      destruct (utf16le_head t H) as [->|(u & l & -> & Hu)].
      * left. reflexivity.
      * unfold le16. cbn [app]. rewrite !detect4 by lia.
        change (kb (Some 254)) with 254. change (kb (Some 255)) with 255.
        kcase (u / 256); kcase (u mod 256); try (exfalso; zdiv); cbn; auto.
Qed.
