(** Python's UTF codecs (standard library, not part of /repo), as used by the models:
    [str.encode] for single characters and strings, strict error handling.  Code points in the
    surrogate range have no encoding (UnicodeEncodeError, a ValueError). *)
From Verif Require Import Py.

(** Unicode scalar values *)
Definition is_scalar (c : Z) : Prop := 0 <= c <= 55295 \/ 57344 <= c <= maxunicode.
Definition scalarb (c : Z) : bool :=
  ((0 <=? c) && (c <=? 55295)) || ((57344 <=? c) && (c <=? maxunicode)).
Lemma scalarb_ok c : scalarb c = true <-> is_scalar c.
Proof. unfold scalarb, is_scalar. rewrite orb_true_iff, !andb_true_iff, !Z.leb_le. tauto. Qed.

(** RFC 3629 *)
Definition utf8_char (c : Z) : str :=
  if c <? 128 then [c]
  else if c <? 2048 then [192 + c / 64; 128 + c mod 64]
  else if c <? 65536 then [224 + c / 4096; 128 + (c / 64) mod 64; 128 + c mod 64]
  else [240 + c / 262144; 128 + (c / 4096) mod 64; 128 + (c / 64) mod 64; 128 + c mod 64].
Definition utf8 (s : str) : str := flat_map utf8_char s.
Definition utf8_encode (s : str) : res str :=
  if forallb scalarb s then Ok (utf8 s) else Err UnicodeError.

(** big and little endian code units *)
Definition be16 (u : Z) : str := [u / 256; u mod 256].
Definition le16 (u : Z) : str := [u mod 256; u / 256].
Definition units16 (c : Z) : list Z :=
  if c <? 65536 then [c] else [55296 + (c - 65536) / 1024; 56320 + (c - 65536) mod 1024].
Definition utf16be (s : str) : str := flat_map (fun c => flat_map be16 (units16 c)) s.
Definition utf16le (s : str) : str := flat_map (fun c => flat_map le16 (units16 c)) s.
Definition be32 (c : Z) : str := [c / 16777216; (c / 65536) mod 256; (c / 256) mod 256; c mod 256].
Definition le32 (c : Z) : str := [c mod 256; (c / 256) mod 256; (c / 65536) mod 256; c / 16777216].
Definition utf32be (s : str) : str := flat_map be32 s.
Definition utf32le (s : str) : str := flat_map le32 s.

(** a strict UTF-8 decoder: the text, or [None] for malformed data *)
Definition cont (b : Z) : bool := (128 <=? b) && (b <? 192).
Definition cons_opt (c : Z) (r : option str) : option str :=
  match r with Some s => Some (c :: s) | None => None end.
Fixpoint utf8_dec (fuel : nat) (l : str) : option str :=
  match fuel with
  | O => match l with [] => Some [] | _ => None end
  | S fuel' =>
    match l with
    | [] => Some []
    | b :: l1 =>
      if (0 <=? b) && (b <? 128) then cons_opt b (utf8_dec fuel' l1)
      else if (194 <=? b) && (b <? 224) then
        match l1 with
        | b1 :: l2 =>
          if cont b1 then cons_opt ((b - 192) * 64 + (b1 - 128)) (utf8_dec fuel' l2) else None
        | _ => None
        end
      else if (224 <=? b) && (b <? 240) then
        match l1 with
        | b1 :: b2 :: l3 =>
          let c := (b - 224) * 4096 + (b1 - 128) * 64 + (b2 - 128) in
          if cont b1 && cont b2 && (2048 <=? c) && scalarb c
          then cons_opt c (utf8_dec fuel' l3) else None
        | _ => None
        end
      else if (240 <=? b) && (b <? 245) then
        match l1 with
        | b1 :: b2 :: b3 :: l4 =>
          let c := (b - 240) * 262144 + (b1 - 128) * 4096 + (b2 - 128) * 64 + (b3 - 128) in
          if cont b1 && cont b2 && cont b3 && (65536 <=? c) && scalarb c
          then cons_opt c (utf8_dec fuel' l4) else None
        | _ => None
        end
      else None
    end
  end.
Definition utf8_decode (l : str) : res str :=
  match utf8_dec (length l) l with Some s => Ok s | None => Err UnicodeError end.

Ltac zdiv := Z.to_euclidean_division_equations; lia.

Lemma utf8_char_bytes c : is_scalar c -> Forall is_byte (utf8_char c).
Proof.
  unfold is_scalar, maxunicode, utf8_char, is_byte. intros H.
  repeat destr; b2p; repeat constructor; zdiv.
Qed.

Lemma utf8_char_nonempty c : utf8_char c <> [].
Proof. unfold utf8_char. repeat destr; discriminate. Qed.

Lemma utf8_dec_char c l fuel : is_scalar c -> 
  utf8_dec (S fuel) (utf8_char c ++ l) = cons_opt c (utf8_dec fuel l).
Proof.
  intros H. unfold utf8_char.
  assert (Hs : scalarb c = true) by (apply scalarb_ok; exact H).
  unfold is_scalar, maxunicode in H.
  destruct (c <? 128) eqn:E1; b2p; [|destruct (c <? 2048) eqn:E2; b2p; [|destruct (c <? 65536) eqn:E3; b2p]];
    cbn [app utf8_dec].
  - replace ((0 <=? c) && (c <? 128)) with true; [reflexivity|].
    symmetry. rewrite andb_true_iff, Z.leb_le, Z.ltb_lt. lia.
  - replace ((0 <=? 192 + c / 64) && (192 + c / 64 <? 128)) with false
      by (symmetry; apply andb_false_iff; right; apply Z.ltb_ge; zdiv).
    replace ((194 <=? 192 + c / 64) && (192 + c / 64 <? 224)) with true
      by (symmetry; rewrite andb_true_iff, Z.leb_le, Z.ltb_lt; zdiv).
    replace (cont (128 + c mod 64)) with true
      by (symmetry; unfold cont; rewrite andb_true_iff, Z.leb_le, Z.ltb_lt; zdiv).
    f_equal. zdiv.
  - replace ((0 <=? 224 + c / 4096) && (224 + c / 4096 <? 128)) with false
      by (symmetry; apply andb_false_iff; right; apply Z.ltb_ge; zdiv).
    replace ((194 <=? 224 + c / 4096) && (224 + c / 4096 <? 224)) with false
      by (symmetry; apply andb_false_iff; right; apply Z.ltb_ge; zdiv).
    replace ((224 <=? 224 + c / 4096) && (224 + c / 4096 <? 240)) with true
      by (symmetry; rewrite andb_true_iff, Z.leb_le, Z.ltb_lt; zdiv).
    replace (cont (128 + c mod 64)) with true
      by (symmetry; unfold cont; rewrite andb_true_iff, Z.leb_le, Z.ltb_lt; zdiv).
    replace (cont (128 + (c / 64) mod 64)) with true
      by (symmetry; unfold cont; rewrite andb_true_iff, Z.leb_le, Z.ltb_lt; zdiv).
    replace ((224 + c / 4096 - 224) * 4096 + (128 + (c / 64) mod 64 - 128) * 64 + (128 + c mod 64 - 128))
      with c by zdiv.
    rewrite Hs. replace (2048 <=? c) with true by (symmetry; apply Z.leb_le; lia). reflexivity.
  - replace ((0 <=? 240 + c / 262144) && (240 + c / 262144 <? 128)) with false
      by (symmetry; apply andb_false_iff; right; apply Z.ltb_ge; zdiv).
    replace ((194 <=? 240 + c / 262144) && (240 + c / 262144 <? 224)) with false
      by (symmetry; apply andb_false_iff; right; apply Z.ltb_ge; zdiv).
    replace ((224 <=? 240 + c / 262144) && (240 + c / 262144 <? 240)) with false
      by (symmetry; apply andb_false_iff; right; apply Z.ltb_ge; zdiv).
    replace ((240 <=? 240 + c / 262144) && (240 + c / 262144 <? 245)) with true
      by (symmetry; rewrite andb_true_iff, Z.leb_le, Z.ltb_lt; zdiv).
    replace (cont (128 + c mod 64)) with true
      by (symmetry; unfold cont; rewrite andb_true_iff, Z.leb_le, Z.ltb_lt; zdiv).
    replace (cont (128 + (c / 64) mod 64)) with true
      by (symmetry; unfold cont; rewrite andb_true_iff, Z.leb_le, Z.ltb_lt; zdiv).
    replace (cont (128 + (c / 4096) mod 64)) with true
      by (symmetry; unfold cont; rewrite andb_true_iff, Z.leb_le, Z.ltb_lt; zdiv).
    replace ((240 + c / 262144 - 240) * 262144 + (128 + (c / 4096) mod 64 - 128) * 4096 +
             (128 + (c / 64) mod 64 - 128) * 64 + (128 + c mod 64 - 128)) with c by zdiv.
    rewrite Hs. replace (65536 <=? c) with true by (symmetry; apply Z.leb_le; lia). reflexivity.
Qed.

Lemma utf8_dec_fuel : forall s fuel, Forall is_scalar s -> (length s <= fuel)%nat ->
  utf8_dec fuel (utf8 s) = Some s.
Proof.
  induction s as [|c s IH]; intros fuel H L.
  - destruct fuel; reflexivity.
  - inversion H; subst. cbn [length] in L. destruct fuel as [|fuel]; [lia|].
    unfold utf8. cbn [flat_map]. rewrite utf8_dec_char by assumption. fold (utf8 s).
    rewrite IH by (auto; lia). reflexivity.
Qed.

Lemma utf8_length s : (length s <= length (utf8 s))%nat.
Proof.
  induction s as [|c s IH]; cbn; [lia|]. rewrite app_length.
  pose proof (utf8_char_nonempty c). destruct (utf8_char c); [congruence|cbn]. fold (utf8 s). lia.
Qed.

(** the codec round trip *)
Lemma utf8_round_trip s : Forall is_scalar s -> utf8_decode (utf8 s) = Ok s.
Proof.
  intros H. unfold utf8_decode. rewrite utf8_dec_fuel; auto. apply utf8_length.
Qed.

Lemma utf8_encode_ok s : Forall is_scalar s -> utf8_encode s = Ok (utf8 s).
Proof.
  intros H. unfold utf8_encode. replace (forallb scalarb s) with true; auto.
  symmetry. apply forallb_forall. intros c Hc. apply scalarb_ok.
  rewrite Forall_forall in H. auto.
Qed.

Lemma utf8_bytes s : Forall is_scalar s -> Forall is_byte (utf8 s).
Proof.
  induction 1; cbn; [constructor|]. apply Forall_app. split; [apply utf8_char_bytes|]; auto.
Qed.
