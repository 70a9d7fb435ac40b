(** What C79-C81 speak of: content models (XML 1.0, 3.2) as regular expressions over the names of elements. *)
From Verif Require Import Py.

Inductive occ := Once | Opt | Star | Plus.
(** A content particle.  The number of a name tells its occurrences in the model apart. *)
Inductive particle :=
| PName (i : nat) (n : str) (o : occ)
| PChoice (o : occ) (l : list particle)
| PSeq (o : occ) (l : list particle).

(** how often: a language repeated *)
Inductive repeated {A} (L : list A -> Prop) : list A -> Prop :=
| rp_nil : repeated L []
| rp_cons : forall u v, L u -> repeated L v -> repeated L (u ++ v).
Definition times {A} (o : occ) (L : list A -> Prop) (w : list A) : Prop :=
  match o with
  | Once => L w
  | Opt => w = [] \/ L w
  | Star => repeated L w
  | Plus => exists u v, w = u ++ v /\ L u /\ repeated L v
  end.
(** [matches leaf p w]: the words of p, where leaf i n are the words of a name *)
Section words.
  Context {A : Type} (leaf : nat -> str -> list A).
  Fixpoint words (p : particle) : list A -> Prop :=
    match p with
    | PName i n o => times o (fun w => w = leaf i n)
    | PChoice o l => times o ((fix any l w := match l with [] => False | p :: r => words p w \/ any r w end) l)
    | PSeq o l => times o ((fix all l w := match l with [] => w = [] | p :: r => exists u v, w = u ++ v /\ words p u /\ all r v end) l)
    end.
End words.
(** the sequences of names that the model allows *)
Definition allowed (p : particle) (w : list str) : Prop := words (fun _ n => [n]) p w.
(** the same, with the occurrence in the model that each name matches *)
Definition matched (p : particle) (w : list (nat * str)) : Prop := words (fun i n => [(i, n)]) p w.
(** XML 1.0 appendix E: a model is ambiguous if an element can match two occurrences of its name *)
Definition ambiguous (p : particle) : Prop :=
  exists u n i j s t, matched p (u ++ (i, n) :: s) /\ matched p (u ++ (j, n) :: t) /\ i <> j.

(** the occurrences in a model, in order *)
Fixpoint leaves (p : particle) : list (nat * str) :=
  match p with
  | PName i n _ => [(i, n)]
  | PChoice _ l | PSeq _ l => flat_map leaves l
  end.
(** the names are not empty, and no two particles are the same object *)
Definition named (p : particle) : Prop := NoDup (map fst (leaves p)) /\ Forall (fun x => snd x <> []) (leaves p).
(** the lists have members *)
Fixpoint full (p : particle) : Prop :=
  match p with
  | PName _ _ _ => True
  | PChoice _ l | PSeq _ l => l <> [] /\ (fix go l := match l with [] => True | p :: r => full p /\ go r end) l
  end.
(** what is declared for an element *)
Inductive content := CEmpty | CAny | CMixed (names : list (nat * str)) | CChildren (p : particle).
Definition mixed (names : list (nat * str)) : particle := PChoice Star (map (fun x => PName (fst x) (snd x) Once) names).
Definition content_ok (c : content) : Prop :=
  match c with CChildren p => named p /\ full p | CMixed l => named (mixed l) | _ => True end.
(** XML 1.0, VC: Element Valid: the sequences of child elements *)
Definition valid_children (c : content) (w : list str) : Prop :=
  match c with
  | CEmpty => w = []
  | CAny => True
  | CMixed l => Forall (fun n => In n (map snd l)) w
  | CChildren p => allowed p w
  end.

(** ** Declarations: XML 1.0 productions 3, 5, 46-51 *)
Definition xml_s (c : Z) : Prop := c = 32 \/ c = 9 \/ c = 10 \/ c = 13.
Definition spaces (s : str) : Prop := Forall xml_s s.
(** [4], [4a] up to U+FFFF *)
Definition name_start (c : Z) : Prop :=
  c = 58 \/ 65 <= c <= 90 \/ c = 95 \/ 97 <= c <= 122 \/ 192 <= c <= 214 \/ 216 <= c <= 246 \/ 248 <= c <= 767 \/
  880 <= c <= 893 \/ 895 <= c <= 8191 \/ 8204 <= c <= 8205 \/ 8304 <= c <= 8591 \/ 11264 <= c <= 12271 \/
  12289 <= c <= 55295 \/ 63744 <= c <= 64975 \/ 65008 <= c <= 65533.
Definition name_char (c : Z) : Prop :=
  name_start c \/ c = 45 \/ c = 46 \/ 48 <= c <= 57 \/ c = 183 \/ 768 <= c <= 879 \/ 8255 <= c <= 8256.
Definition xml_name (n : str) : Prop := exists c r, n = c :: r /\ name_start c /\ Forall name_char r.
Definition occ_text (o : occ) : str := match o with Once => [] | Opt => lit "?" | Star => lit "*" | Plus => lit "+" end.
(** [48] cp, [49] choice, [50] seq *)
Inductive cp_text : particle -> str -> Prop :=
| ct_name : forall i n o, xml_name n -> cp_text (PName i n o) (n ++ occ_text o)
| ct_choice : forall o p q l s u, spaces s -> group_text (lit "|") (p :: q :: l) u ->
    cp_text (PChoice o (p :: q :: l)) (lit "(" ++ s ++ u ++ lit ")" ++ occ_text o)
| ct_seq : forall o l s u, spaces s -> group_text (lit ",") l u ->
    cp_text (PSeq o l) (lit "(" ++ s ++ u ++ lit ")" ++ occ_text o)
with group_text : str -> list particle -> str -> Prop :=
| gt_last : forall sep p t s, cp_text p t -> spaces s -> group_text sep [p] (t ++ s)
| gt_more : forall sep p t s s' l u, cp_text p t -> spaces s -> spaces s' -> group_text sep l u ->
    group_text sep (p :: l) (t ++ s ++ sep ++ s' ++ u).
(** the names of mixed content *)
Inductive mixed_text : list (nat * str) -> str -> Prop :=
| mt_nil : forall s, spaces s -> mixed_text [] s
| mt_cons : forall i n s s' l u, spaces s -> spaces s' -> xml_name n -> mixed_text l u ->
    mixed_text ((i, n) :: l) (s ++ lit "|" ++ s' ++ n ++ u).
(** [46] contentspec, [47] children, [51] Mixed *)
Inductive content_text : content -> str -> Prop :=
| nt_empty : content_text CEmpty (lit "EMPTY")
| nt_any : content_text CAny (lit "ANY")
| nt_mixed : forall s l u, spaces s -> mixed_text l u -> content_text (CMixed l) (lit "(" ++ s ++ lit "#PCDATA" ++ u ++ lit ")*")
| nt_pcdata : forall s u, spaces s -> spaces u -> content_text (CMixed []) (lit "(" ++ s ++ lit "#PCDATA" ++ u ++ lit ")")
| nt_children : forall p t, cp_text p t -> (forall i n o, p <> PName i n o) -> content_text (CChildren p) t.
Definition content_leaves (c : content) : list (nat * str) :=
  match c with CMixed l => l | CChildren p => leaves p | _ => [] end.
(** the names are numbered in the order of the text *)
Definition numbered (k : nat) (l : list (nat * str)) : Prop := map fst l = seq k (length l).
(** [45] elementdecl, after <!ELEMENT *)
Definition element_text (n : str) (c : content) (t : str) : Prop :=
  exists s1 s2 u s3, t = s1 ++ n ++ s2 ++ u ++ s3 ++ lit ">" /\ s1 <> [] /\ s2 <> [] /\ spaces s1 /\ spaces s2 /\ spaces s3 /\
    xml_name n /\ content_text c u.
