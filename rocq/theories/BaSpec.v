(** What C112-C116 speak of: base64, and the paths that are known to be in a protection space. *)
From Verif Require Import Py UriSpec.

(** ** base64, RFC 4648 section 4 *)
Definition alphabet : str := lit "ABCDEFGHIJKLMNOPQRSTUVWXYZabcdefghijklmnopqrstuvwxyz0123456789+/".
Definition digit (v c : Z) : Prop := 0 <= v < 64 /\ nth_error alphabet (Z.to_nat v) = Some c.
(** three bytes are four digits of six bits, the most significant first; one or two bytes are padded with 0 bits *)
Inductive base64 : str -> str -> Prop :=
| b64_nil : base64 [] []
| b64_three : forall a b c d1 d2 d3 d4 c1 c2 c3 c4 s t,
    65536 * a + 256 * b + c = 262144 * d1 + 4096 * d2 + 64 * d3 + d4 ->
    digit d1 c1 -> digit d2 c2 -> digit d3 c3 -> digit d4 c4 -> base64 s t ->
    base64 (a :: b :: c :: s) (c1 :: c2 :: c3 :: c4 :: t)
| b64_two : forall a b d1 d2 d3 c1 c2 c3,
    1024 * a + 4 * b = 4096 * d1 + 64 * d2 + d3 -> digit d1 c1 -> digit d2 c2 -> digit d3 c3 ->
    base64 [a; b] (c1 :: c2 :: c3 :: lit "=")
| b64_one : forall a d1 d2 c1 c2,
    16 * a = 64 * d1 + d2 -> digit d1 c1 -> digit d2 c2 -> base64 [a] (c1 :: c2 :: lit "==").

(** ** Paths *)
(** [q] is at or below the folder of [p]: [p] up to its last slash is a start of [q] *)
Definition covers (p q : str) : Prop :=
  exists folder name rest, p = folder ++ lit "/" ++ name /\ ~ has 47 name /\ q = folder ++ lit "/" ++ rest.
(** an absolute path without dot segments; one in which, too, no segment but the last is empty *)
Definition clean (p : str) : Prop := exists l, ordinary l /\ p = path_of l.
Definition clean_full (p : str) : Prop := exists l, ordinary l /\ no_empty_inside l /\ p = path_of l.
