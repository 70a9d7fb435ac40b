(** What C82-C86 speak of: XML text and the trees that it stands for, XML 1.0 productions 2, 10, 14-21, 39-44, 66-68. *)
From Coq Require Import Permutation.
From Verif Require Import Py CmSpec.

Inductive node := Text (s : str) | Elem (n : str) (attrs : list (str * str)) (children : list node).
(** [2] *)
Definition xml_char (c : Z) : Prop :=
  c = 9 \/ c = 10 \/ c = 13 \/ 32 <= c <= 55295 \/ 57344 <= c <= 65533 \/ 65536 <= c <= 1114111.
Definition contains (w t : str) : Prop := exists a b, t = a ++ w ++ b.
(** [66] CharRef, [68] EntityRef for the five predefined entities: a character and the text that refers to it *)
Definition number (base : Z) (ds : list Z) : Z := fold_left (fun a d => a * base + d) ds 0.
Definition hex_digit (d c : Z) : Prop := (0 <= d < 10 /\ c = 48 + d) \/ (10 <= d < 16 /\ (c = 55 + d \/ c = 87 + d)).
Inductive ref_text : Z -> str -> Prop :=
| rt_lt : ref_text 60 (lit "&lt;")
| rt_gt : ref_text 62 (lit "&gt;")
| rt_amp : ref_text 38 (lit "&amp;")
| rt_apos : ref_text 39 (lit "&apos;")
| rt_quot : ref_text 34 (lit "&quot;")
| rt_dec : forall ds, ds <> [] -> Forall (fun d => 0 <= d < 10) ds -> xml_char (number 10 ds) ->
    ref_text (number 10 ds) (lit "&#" ++ map (fun d => 48 + d) ds ++ lit ";")
| rt_hex : forall ds cs, ds <> [] -> Forall2 hex_digit ds cs -> xml_char (number 16 ds) ->
    ref_text (number 16 ds) (lit "&#x" ++ cs ++ lit ";").
(** [10] AttValue between the quotes q, and its value after the normalization of 3.3.3 (CDATA) *)
Inductive att_text (q : Z) : str -> str -> Prop :=
| at_nil : att_text q [] []
| at_space : forall c v t, xml_s c -> att_text q v t -> att_text q (32 :: v) (c :: t)
| at_char : forall c v t, ~ xml_s c -> c <> q -> c <> 60 -> c <> 38 -> att_text q v t -> att_text q (c :: v) (c :: t)
| at_ref : forall c r v t, ref_text c r -> att_text q v t -> att_text q (c :: v) (r ++ t).
(** (S Attribute)* *)
Inductive attrs_text : list (str * str) -> str -> Prop :=
| as_nil : attrs_text [] []
| as_cons : forall s n s1 s2 q v t l u, spaces s -> s <> [] -> xml_name n -> spaces s1 -> spaces s2 -> q = 34 \/ q = 39 ->
    att_text q v t -> attrs_text l u ->
    attrs_text ((n, v) :: l) (s ++ n ++ s1 ++ lit "=" ++ s2 ++ [q] ++ t ++ [q] ++ u).
(** [14] *)
Definition char_data (d : str) : Prop := Forall (fun c => c <> 60 /\ c <> 38) d /\ ~ contains (lit "]]>") d.
(** [15]: the body of a comment *)
Definition comment_body (b : str) : Prop := ~ contains (lit "--") (b ++ lit "-").
Definition xml_comment (t : str) : Prop := exists b, t = lit "<!--" ++ b ++ lit "-->" /\ comment_body b.
Definition lower_ascii (c : Z) : Z := if (65 <=? c) && (c <=? 90) then c + 32 else c.
(** [16] PI, [17] PITarget *)
Definition pi_target (n : str) : Prop := xml_name n /\ map lower_ascii n <> lit "xml".
Definition xml_pi (t : str) : Prop := exists n, pi_target n /\
  (t = lit "<?" ++ n ++ lit "?>" \/
   exists s d, t = lit "<?" ++ n ++ s ++ d ++ lit "?>" /\ spaces s /\ s <> [] /\ ~ contains (lit "?>") d).

(** What the children of an element are: its data, where adjacent pieces are one, and its child elements.  Elements whose
    class has element content have no data: white space is dropped, and there can be nothing else. *)
Inductive item := Data (s : str) | Child (e : node).
Fixpoint gather (l : list item) : list node :=
  match l with
  | [] => []
  | Child e :: r => e :: gather r
  | Data d :: r => match d, gather r with
                   | [], g => g
                   | _, Text s :: g => Text (d ++ s) :: g
                   | _, g => Text d :: g
                   end
  end.
Definition children_of (l : list item) : list node := flat_map (fun i => match i with Child e => [e] | Data _ => [] end) l.
Definition blank (l : list item) : Prop := Forall (fun i => match i with Data d => spaces d | Child _ => True end) l.
Definition assembled (mixed : bool) (l : list item) (ch : list node) : Prop :=
  if mixed then ch = gather l else blank l /\ ch = children_of l.

Section grammar.
  (** Which elements may have data; the texts of comments and processing instructions *)
  Variable mixed : str -> bool.
  Variables comment pi : str -> Prop.
  Inductive element_text : node -> str -> Prop :=
  | et_empty : forall n l a s, xml_name n -> attrs_text l a -> NoDup (map fst l) -> spaces s ->
      element_text (Elem n l []) (lit "<" ++ n ++ a ++ s ++ lit "/>")
  | et_full : forall n l a s its ch u s', xml_name n -> attrs_text l a -> NoDup (map fst l) -> spaces s ->
      content_text its u -> assembled (mixed n) its ch -> spaces s' ->
      element_text (Elem n l ch) (lit "<" ++ n ++ a ++ s ++ lit ">" ++ u ++ lit "</" ++ n ++ s' ++ lit ">")
  with content_text : list item -> str -> Prop :=
  | ct_data : forall d, char_data d -> content_text [Data d] d
  | ct_more : forall d i m its u, char_data d -> markup_text i m -> content_text its u -> content_text (Data d :: i :: its) (d ++ m ++ u)
  with markup_text : item -> str -> Prop :=
  | mk_elem : forall e t, element_text e t -> markup_text (Child e) t
  | mk_ref : forall c t, ref_text c t -> markup_text (Data [c]) t
  | mk_cdata : forall d, ~ contains (lit "]]>") d -> markup_text (Data d) (lit "<![CDATA[" ++ d ++ lit "]]>")
  | mk_comment : forall t, comment t -> markup_text (Data []) t
  | mk_pi : forall t, pi t -> markup_text (Data []) t.
End grammar.

(** What this parser takes for a comment and for a processing instruction: white space may come before the > of a comment;
    in a processing instruction each ? that is not followed by > hides the character after it. *)
Definition lax_comment (t : str) : Prop := exists b s, t = lit "<!--" ++ b ++ lit "--" ++ s ++ lit ">" /\ comment_body b /\ spaces s.
Inductive pi_data : str -> Prop :=
| pd_nil : pi_data []
| pd_char : forall c d, c <> 63 -> pi_data d -> pi_data (c :: d)
| pd_quest : forall c d, c <> 62 -> pi_data d -> pi_data (63 :: c :: d).
Definition lax_pi (t : str) : Prop := exists n, pi_target n /\
  (t = lit "<?" ++ n ++ lit "?>" \/
   exists s d, t = lit "<?" ++ n ++ s ++ d ++ lit "?>" /\ spaces s /\ s <> [] /\ pi_data d).

(** 2.11: the ends of lines: CR LF, and CR that no LF follows, are LF *)
Inductive eol : str -> str -> Prop :=
| eol_nil : eol [] []
| eol_crlf : forall t u, eol t u -> eol (13 :: 10 :: t) (10 :: u)
| eol_cr : forall t u, hd_error t <> Some 10 -> eol t u -> eol (13 :: t) (10 :: u)
| eol_char : forall c t u, c <> 13 -> eol t u -> eol (c :: t) (c :: u).

(** ** Trees *)
(** Whether white space is to be preserved in an element with the attributes a, when p says so of its parent *)
Definition in_force (p : bool) (a : list (str * str)) : bool :=
  existsb (fun x => str_eqb (fst x) (lit "xml:space") && str_eqb (snd x) (lit "preserve")) a
  || p && negb (existsb (fun x => str_eqb (fst x) (lit "xml:space")) a).
(** every element e of a tree satisfies P (the policy for its own children) (its name) (its attributes) (its children) *)
Inductive every (P : bool -> str -> list (str * str) -> list node -> Prop) : bool -> node -> Prop :=
| every_text : forall p s, every P p (Text s)
| every_elem : forall p n a ch, P (in_force p a) n a ch -> Forall (every P (in_force p a)) ch -> every P p (Elem n a ch).
(** attributes are dictionaries *)
Definition dict : bool -> str -> list (str * str) -> list node -> Prop := fun _ _ a _ => NoDup (map fst a).
(** s and s' differ only in what white space separates their characters: runs of it stand for each other *)
Inductive respaced : str -> str -> Prop :=
| rs_nil : respaced [] []
| rs_char : forall c s s', ~ xml_s c -> respaced s s' -> respaced (c :: s) (c :: s')
| rs_run : forall r r' s s', spaces r -> r <> [] -> spaces r' -> r' <> [] -> respaced s s' -> respaced (r ++ s) (r' ++ s').
(** trees that are the same but for the order of attributes and, where it is not preserved, the amount of white space *)
Inductive alike : bool -> node -> node -> Prop :=
| al_exact : forall s, alike true (Text s) (Text s)
| al_text : forall s s', respaced s s' -> alike false (Text s) (Text s')
| al_elem : forall p n a a' ch ch', Permutation a a' -> Forall2 (alike (in_force p a)) ch ch' -> alike p (Elem n a ch) (Elem n a' ch').
(** Trees that can be written as XML: names are names, attributes are dictionaries of values without tabs and line feeds,
    all characters are XML characters, no two texts are adjacent, there is no empty text where white space is preserved,
    and there is no text in an element whose class has element content. *)
Definition adjacent_texts (ch : list node) : Prop := exists l s s' r, ch = l ++ Text s :: Text s' :: r.
Definition writable (mixed : str -> bool) : bool -> str -> list (str * str) -> list node -> Prop := fun p n a ch =>
  xml_name n /\ NoDup (map fst a) /\
  Forall (fun x => xml_name (fst x) /\ Forall (fun c => xml_char c /\ c <> 9 /\ c <> 10) (snd x)) a /\
  Forall (fun c => match c with Text s => Forall xml_char s | Elem _ _ _ => True end) ch /\
  ~ adjacent_texts ch /\
  (p = true -> ~ In (Text []) ch) /\
  (mixed n = false -> forall s, ~ In (Text s) ch).
