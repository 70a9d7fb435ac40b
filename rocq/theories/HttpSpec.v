(** The parts of the HTTP grammar (RFC 2616 section 2.2 and errata) that C37 and C38 speak of.
    Where a run of bytes has two forms, the first is what is in the source and the second the
    same with each folding (CRLF and white space) replaced by one SP. *)
From Verif Require Import Py HttpModel.

Definition bytes (s : str) : Prop := Forall (fun c => 0 <= c < 256) s.

Definition ws (c : Z) : Prop := c = 32 \/ c = 9.
Definition no_ws (s : str) : Prop := match s with c :: _ => ~ ws c | nil => True end.
Definition separator (c : Z) : Prop := In c (lit "()<>@,;:\""/[]?={} ") \/ c = 9.
Definition ctl (c : Z) : Prop := c < 32 \/ c = 127.
(** a byte that may be in a token (the RFC has only those less than 128) *)
Definition tok (c : Z) : Prop := ~ ctl c /\ ~ separator c.
Definition token (s : str) : Prop := s <> nil /\ Forall tok s.

(** LWS = [CRLF] 1*( SP | HT ) *)
Inductive lws : str -> Prop :=
| lws_plain : forall w, w <> nil -> Forall ws w -> lws w
| lws_fold : forall w, w <> nil -> Forall ws w -> lws (13 :: 10 :: w).
Inductive lwss : str -> Prop :=
| lwss_one : forall a, lws a -> lwss a
| lwss_more : forall a b, lws a -> lwss b -> lwss (a ++ b).
Definition no_lws (s : str) : Prop := forall a b, s = a ++ b -> ~ lws a.

(** what is between the quotes of a quoted-string *)
Inductive qbody : str -> str -> Prop :=
| qb_nil : qbody nil nil
| qb_char : forall c r u, 32 < c < 256 -> c <> 127 -> c <> 34 -> c <> 92 -> qbody r u -> qbody (c :: r) (c :: u)
| qb_ws : forall c r u, ws c -> qbody r u -> qbody (c :: r) (c :: u)
| qb_fold : forall w r u, w <> nil -> Forall ws w -> no_ws r -> qbody r u -> qbody (13 :: 10 :: w ++ r) (32 :: u)
| qb_pair : forall c r u, 0 <= c < 128 -> qbody r u -> qbody (92 :: c :: r) (92 :: c :: u).
Definition quoted (raw s : str) : Prop := exists b u, qbody b u /\ raw = 34 :: b ++ [34] /\ s = 34 :: u ++ [34].

(** what is between the brackets of a comment *)
Inductive cbody : str -> str -> Prop :=
| cb_nil : cbody nil nil
| cb_char : forall c r u, 32 < c < 256 -> c <> 127 -> c <> 40 -> c <> 41 -> c <> 92 -> cbody r u -> cbody (c :: r) (c :: u)
| cb_ws : forall c r u, ws c -> cbody r u -> cbody (c :: r) (c :: u)
| cb_fold : forall w r u, w <> nil -> Forall ws w -> no_ws r -> cbody r u -> cbody (13 :: 10 :: w ++ r) (32 :: u)
| cb_pair : forall c r u, 0 <= c < 128 -> cbody r u -> cbody (92 :: c :: r) (92 :: c :: u)
| cb_comment : forall b v r u, cbody b v -> cbody r u -> cbody (40 :: b ++ 41 :: r) (40 :: v ++ 41 :: u).
Definition comment (raw s : str) : Prop := exists b u, cbody b u /\ raw = 40 :: b ++ [41] /\ s = 40 :: u ++ [41].

(** A source and its words.  A run of white space is one SP if sp, nothing if not; tail is how the
    source may end. *)
Inductive lexed (tail : str -> list word -> Prop) (sp : bool) : str -> list word -> Prop :=
| lx_tail : forall s l, tail s l -> lexed tail sp s l
| lx_lws : forall a s l, lwss a -> no_lws s -> lexed tail sp s l -> lexed tail sp (a ++ s) ((if sp then [WByte 32] else nil) ++ l)
| lx_sep : forall c s l, separator c -> ~ ws c -> c <> 40 -> c <> 34 -> lexed tail sp s l -> lexed tail sp (c :: s) (WByte c :: l)
| lx_token : forall t s l, token t -> (match s with c :: _ => ~ tok c | nil => True end) ->
    lexed tail sp s l -> lexed tail sp (t ++ s) (WStr t :: l)
| lx_quoted : forall raw u s l, quoted raw u -> lexed tail sp s l -> lexed tail sp (raw ++ s) (WStr u :: l)
| lx_comment : forall raw u s l, comment raw u -> lexed tail sp s l -> lexed tail sp (raw ++ s) (WStr u :: l).

(** sources of words *)
Definition source_of : bool -> str -> list word -> Prop := lexed (fun s l => s = nil /\ l = nil).
(** ... that end in a quoted string that is not closed *)
Definition open_source_of : bool -> str -> list word -> Prop :=
  lexed (fun s l => exists b u, qbody b u /\ s = 34 :: b /\ l = [WStr (34 :: u)]).
