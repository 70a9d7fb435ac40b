(** What C108-C111 speak of: reading a sequence of bytes as a file, and what is asked of an input stream. *)
From Verif Require Import Py.

Definition len (s : str) : Z := Z.of_nat (length s).
(** The bytes of [B] from position [p] on *)
Definition from (p : Z) (B : str) : str := skipn (Z.to_nat p) B.

(** A line of at most [limit] bytes (any number if limit is negative) at the start of [s]: it ends with the first
    LF, or at the limit, or at the end of [s]. *)
Inductive is_line (limit : Z) (s l : str) : Prop :=
| il_lf : forall a b, s = a ++ [10] ++ b -> ~ In 10 a -> l = a ++ [10] -> (limit < 0 \/ len l <= limit) -> is_line limit s l
| il_limit : forall b, s = l ++ b -> ~ In 10 l -> 0 <= limit -> len l = limit -> is_line limit s l
| il_end : s = l -> ~ In 10 l -> (limit < 0 \/ len l <= limit) -> is_line limit s l.

Inductive from_where := FromStart | FromHere | FromEnd.
Inductive operation := Read (n : Z) | ReadAll | ReadLine (limit : Z) | Tell | Seek (offset : Z) (w : from_where).
Inductive result := Data (d : str) | Position (p : Z) | Done | Fails.

(** Where a seek goes: FromEnd only if the length is known. *)
Definition target (L : option Z) (p offset : Z) (w : from_where) : option Z :=
  match w with
  | FromStart => Some offset
  | FromHere => Some (p + offset)
  | FromEnd => match L with Some l => Some (l + offset) | None => None end
  end.
(** One operation on a file that has the bytes [B], of which [n0] can be gone back to, at position [p].
    A read may give fewer bytes than asked for, but gives none only at the end. *)
Inductive file_op (B : str) (n0 : Z) (L : option Z) (p : Z) : operation -> result -> Z -> Prop :=
| fo_read : forall n d b, 0 <= n -> from p B = d ++ b -> len d <= n -> (d = [] -> n = 0 \/ from p B = []) ->
    file_op B n0 L p (Read n) (Data d) (p + len d)
| fo_all : file_op B n0 L p ReadAll (Data (from p B)) (p + len (from p B))
| fo_line : forall limit l, is_line limit (from p B) l -> file_op B n0 L p (ReadLine limit) (Data l) (p + len l)
| fo_tell : file_op B n0 L p Tell (Position p) p
| fo_seek : forall offset w q, p <= n0 -> target L p offset w = Some q -> 0 <= q <= n0 ->
    file_op B n0 L p (Seek offset w) Done q
| fo_no_seek : forall offset w,
    n0 < p \/ target L p offset w = None \/ (exists q, target L p offset w = Some q /\ q < 0) ->
    file_op B n0 L p (Seek offset w) Fails p.
(** The operations that are considered *)
Definition plain (n0 : Z) (L : option Z) (p : Z) (o : operation) : Prop :=
  match o with
  | Read n => 0 <= n
  | Seek offset w => forall q, target L p offset w = Some q -> q <= n0
  | _ => True
  end.

(** An input stream that has the bytes [c] to give, and that may be asked for [a] bytes in all (for any number if
    None).  Each answer to a request that keeps within [a] is a start of [c] no longer than asked, and empty only if
    nothing was asked for or nothing is left.  Nothing is said of a request beyond [a]: it may raise an exception or
    wait for ever. *)
Section Stream.
Variable source : Type.
Variable sread : Z -> source -> res (str * source).
Definition within (n : Z) (a : option Z) : Prop := match a with Some k => n <= k | None => True end.
Definition input_stream (R : source -> str -> option Z -> Prop) : Prop :=
  forall s c a n, R s c a -> 0 <= n -> within n a ->
  exists d s' c', sread n s = Ok (d, s') /\ c = d ++ c' /\ len d <= n /\ (d = [] -> n = 0 \/ c = []) /\
    R s' c' (option_map (fun k => k - len d) a).
End Stream.
