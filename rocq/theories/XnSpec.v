(** What C131-C132 say of namespaces: Namespaces in XML 1.0, sections 3 to 6. *)
From Verif Require Import Py XnModel.
From Coq Require Import String.

Definition declared (n : node) (p : str) : Prop := In p (map fst (p2n n)).
(** the namespace of a prefix (the empty one stands for the default namespace): the innermost declaration counts; the
    document's default is used where there is no other *)
Definition in_force (sc : scope) (dflt : option str) (p u : str) : Prop :=
  (exists inner n outer, sc = inner ++ n :: outer /\ Forall (fun m => ~ declared m p) inner /\ In (p, u) (p2n n)) \/
  (p = [] /\ dflt = Some u /\ Forall (fun m => ~ declared m p) sc).
(** names that may be used *)
Definition no_colon (a : str) : Prop := ~ In colon a.
Definition prefix_ok (p : str) : Prop := no_colon p /\ firstn 5 p <> lit "xmlns" /\ p <> lit "xml".
Definition uri_ok (u : str) : Prop := u <> [] /\ u <> NO_NAMESPACE.
(** a node with legal declarations, both maps of which agree *)
Definition node_ok (n : node) : Prop :=
  NoDup (map fst (p2n n)) /\ NoDup (map fst (n2p n)) /\ (forall p u, In (p, u) (p2n n) -> prefix_ok p /\ u <> []) /\ forall u p, In (u, p) (n2p n) -> In (p, u) (p2n n).
(** EN: the namespaces of elements and default namespaces *)
Definition defaults_in (EN : str -> Prop) (n : node) : Prop := forall u, In ([], u) (p2n n) -> EN u.
(** an attribute is in no namespace, or in one that is not the namespace of an element *)
Definition attr_ok (EN : str -> Prop) (x : xname) : Prop :=
  no_colon (snd x) /\ exists u, fst x = Some u /\ (u = NO_NAMESPACE /\ firstn 5 (snd x) <> lit "xmlns" \/ u = XML_NAMESPACE \/ uri_ok u /\ ~ EN u).
(** all elements are in namespaces *)
Inductive tree_ok (EN : str -> Prop) : elem -> Prop :=
| tree_ok_e u a attrs nd cs : uri_ok u -> EN u -> no_colon a -> a <> lit "xmlns" -> NoDup (map fst attrs) -> Forall (attr_ok EN) (map fst attrs) -> node_ok nd -> defaults_in EN nd ->
    Forall (tree_ok EN) cs -> tree_ok EN (E (Some u, a) attrs nd cs).
(** the same elements with the same attributes, by expanded names *)
Inductive same : elem -> elem -> Prop := same_e x attrs nd nd' cs cs' : Forall2 same cs cs' -> same (E x attrs nd cs) (E x attrs nd' cs').
(** elements without declarations of their own *)
Inductive fresh : elem -> Prop := fresh_e x attrs cs : Forall fresh cs -> fresh (E x attrs empty_node cs).
