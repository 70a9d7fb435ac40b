(** Model of detect_encoding, pyslet/unicode5.py 38-101. *)
From Verif Require Import Py.

Inductive enc := Utf8 | Utf8Sig | Utf16BE | Utf16LE | Utf32BE | Utf32LE | Utf32.

(** unicode5.py 38-67 MAGIC_TABLE *)
Definition magic_table : list (str * enc) :=
  [([0; 0; 254; 255], Utf32BE); ([255; 254; 0; 0], Utf32LE); ([0; 0; 255; 254], Utf32);
   ([254; 255; 0; 0], Utf32); ([254; 255; 0; 42], Utf16BE); ([255; 254; 42; 0], Utf16LE);
   ([0; 0; 0; 42], Utf32BE); ([42; 0; 0; 0], Utf32LE); ([0; 0; 42; 0], Utf32LE);
   ([0; 42; 0; 0], Utf32LE); ([0; 42; 0; 42], Utf16BE); ([42; 0; 42; 0], Utf16LE);
   ([42; 42; 42; 42], Utf8)].

Fixpoint lookup (k : str) (t : list (str * enc)) : option enc :=
  match t with
  | [] => None
  | (k', e) :: t' => if str_eqb k k' then Some e else lookup k t'
  end.

(** unicode5.py 88-95: one turn of the loop building the key *)
Definition key_byte (magic : str) (i : nat) : Z :=
  match nth_error magic i with
  | None => 42
  | Some b => if zin b [0; 254; 255] then b else 42
  end.

(** unicode5.py 70-101 *)
Definition detect_encoding (magic : str) : option enc :=
  if str_eqb (slice 0 3 magic) [239; 187; 191] then Some Utf8Sig
  else lookup (map (key_byte magic) [0; 1; 2; 3]%nat) magic_table.
