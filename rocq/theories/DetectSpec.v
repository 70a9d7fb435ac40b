(** Specification for C06: what data in each encoding looks like.  A text file starts with a
    byte order mark (U+FEFF) or not. *)
From Verif Require Import Py Codec DetectModel.

Definition bom : Z := 65279.

(** [writes e with_bom text]: the bytes of [text] in encoding [e].  Utf8Sig is UTF-8 with a BOM;
    [Utf32] (no byte order) is never the right answer for data written here. *)
Inductive written : enc -> bool -> str -> str -> Prop :=
| w_utf8 t : written Utf8 false t (utf8 t)
| w_utf8sig t : written Utf8Sig true t (utf8 (bom :: t))
| w_16be t : written Utf16BE false t (utf16be t)
| w_16be_bom t : written Utf16BE true t (utf16be (bom :: t))
| w_16le t : written Utf16LE false t (utf16le t)
| w_16le_bom t : written Utf16LE true t (utf16le (bom :: t))
| w_32be t : written Utf32BE false t (utf32be t)
| w_32be_bom t : written Utf32BE true t (utf32be (bom :: t))
| w_32le t : written Utf32LE false t (utf32le t)
| w_32le_bom t : written Utf32LE true t (utf32le (bom :: t)).

(** text in scope: no NUL, no BOM character at the start; without a BOM in the file the first
    character must be ASCII (as in an XML or JSON file) *)
Definition ascii (c : Z) : Prop := 1 <= c <= 127.
Definition text_ok (with_bom : bool) (t : str) : Prop :=
  Forall (fun c => is_scalar c /\ c <> 0) t /\
  (with_bom = true \/ exists c t', t = c :: t' /\ ascii c).

(** the texts for which the answer is certain *)
Definition certain (e : enc) (with_bom : bool) (t : str) : Prop :=
  match e, with_bom with
  | Utf8, _ | Utf8Sig, _ | Utf32BE, _ | Utf32LE, _ => True
  | _, true => exists c t', t = c :: t' /\ ascii c
  | _, false => exists c d t', t = c :: d :: t' /\ ascii c /\ ascii d
  end.
