(** What C133 says of content negotiation: RFC 2616, sections 14.1 to 14.4. *)
From Verif Require Import Py UriModel HttpModel HttpParamModel AnModel.
From Coq Require Import String.

(** case is ignored *)
Definition same_name (a b : str) : Prop := u_lower a = u_lower b.
(** "*/*", "text/*", or the type itself, with at least the parameters of the range *)
Definition in_range (r m : mediatype) : Prop :=
  mt_type r = star \/
  same_name (mt_type r) (mt_type m) /\ (mt_subtype r = star \/
    same_name (mt_subtype r) (mt_subtype m) /\ forall k n v, In (k, (n, v)) (mt_params r) -> exists n', In (k, (n', v)) (mt_params m)).
Definition specificity (r : mediatype) : nat :=
  if str_eqb (mt_type r) star then 0%nat else if str_eqb (mt_subtype r) star then 1%nat else (2 + List.length (mt_params r))%nat.
(** "the most specific reference has precedence" *)
Inductive quality (items : list aitem) (m : mediatype) : option Z -> Prop :=
| quality_some i : In i items -> in_range (arange i) m -> (forall j, In j items -> in_range (arange j) m -> (specificity (arange j) <= specificity (arange i))%nat) ->
    (forall j, In j items -> arange j = arange i -> aq j <= aq i) -> quality items m (Some (aq i))
| quality_none : (forall j, In j items -> ~ in_range (arange j) m) -> quality items m None.
(** the first of those with the greatest quality; 0 stands for not acceptable *)
Definition chosen {M} (f : M -> option Z) (ms : list M) (r : option M) : Prop :=
  match r with
  | Some m => exists l1 l2 q, ms = l1 ++ m :: l2 /\ f m = Some q /\ 0 < q /\ (forall m' q', In m' l1 -> f m' = Some q' -> q' < q) /\ forall m' q', In m' l2 -> f m' = Some q' -> q' <= q
  | None => forall m q, In m ms -> f m = Some q -> q <= 0
  end.
(** what the parser makes: lower case; no names that start with "~" or go beyond *)
Definition below_tilde (s : str) : Prop := match s with [] => True | c :: _ => c < 126 end.
Definition range_ok (r : mediatype) : Prop :=
  u_lower (mt_type r) = mt_type r /\ u_lower (mt_subtype r) = mt_subtype r /\ below_tilde (mt_type r) /\ below_tilde (mt_subtype r) /\ NoDup (map fst (mt_params r)).
(** tokens: the one that is named, else the wild card *)
Inductive token_quality (items : list atok) (t : str) : option Z -> Prop :=
| token_named i : In i items -> same_name (token i) t -> (forall j, In j items -> token j = token i -> tq j <= tq i) -> token_quality items t (Some (tq i))
| token_star i : (forall j, In j items -> ~ same_name (token j) t) -> In i items -> token i = star -> (forall j, In j items -> token j = star -> tq j <= tq i) -> token_quality items t (Some (tq i))
| token_none : (forall j, In j items -> ~ same_name (token j) t /\ token j <> star) -> token_quality items t None.
(** languages: the longest range that the tag starts with *)
Definition has_range (i : atok) (r : list str) : Prop := token i = star /\ r = [] \/ token i <> star /\ u_lower (token i) = join_on 45 r /\ r <> [] /\ Forall (fun p => ~ In 45 p) r.
Definition in_language (r : list str) (l : langtag) : Prop := exists more, map u_lower (lt_primary l :: lt_subtags l) = r ++ more.
Inductive language_quality (items : list atok) (l : langtag) : option Z -> Prop :=
| language_some i r : In i items -> has_range i r -> in_language r l -> (forall j r', In j items -> has_range j r' -> in_language r' l -> (List.length r' <= List.length r)%nat) -> language_quality items l (Some (tq i))
| language_none : (forall j r', In j items -> has_range j r' -> ~ in_language r' l) -> language_quality items l None.
