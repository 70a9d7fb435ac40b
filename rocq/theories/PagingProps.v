(** C59, C60: paging and ordering of entity collections. *)
From Coq Require Import Sorting Permutation.
From Verif Require Import Py PagingModel PagingSpec PagingProofs.

Lemma fresh_emin : forall c, fresh_page c -> emin_of c = Z.of_nat (start c).
Proof. intros c (T & S & _ & _). unfold emin_of, start. rewrite T. destruct (skip c) as [s|]; [specialize (S s eq_refl); lia|reflexivity]. Qed.
Lemma fresh_ok : forall c, fresh_page c -> ok_sizes c.
Proof. intros c (_ & _ & A & B). split; assumption. Qed.

(** C59: the pages of a collection *)
(** a page is the part of the collection that was asked for *)
Theorem c59_page : forall V (l : list V) b c, fresh_page c -> fst (iterpage l b c) = at_most (page_size c) (skipn (start c) l).
Proof. intros V l b c H. destruct (iterpage_spec l b c (start c) (fresh_ok c H) (fresh_emin c H)) as (c' & -> & _). reflexivity. Qed.
(** pages one after the other give every entity from the start on exactly once and in order, then none *)
Theorem c59_pages : forall V (l : list V) n c, fresh_page c -> (length l < n)%nat ->
  exists ps c', pages (fun _ => l) n c = (ps, c') /\ concat ps = skipn (start c) l /\ Forall (fun p => at_most (page_size c) p = p) ps /\
    forall b, fst (iterpage l b c') = [].
Proof.
  intros V l n c H L. destruct (pages_spec n l c (start c) (fresh_ok c H) (fresh_emin c H)) as (ps & c' & P & C & T & F); [rewrite skipn_length; lia|].
  exists ps, c'. split; [exact P|]. split; [exact C|]. split; [exact F|]. intros b. unfold iterpage. now rewrite T.
Qed.
(** the same over links to the next page, if the provider limits the pages and no top is given *)
Theorem c59_links : forall V (l : list V) n c m, fresh_page c -> top c = None -> topmax c = Some m -> (length l <= n)%nat ->
  concat (follow l n c) = skipn (start c) l /\ Forall (fun p => (length p <= Z.to_nat m)%nat) (follow l n c).
Proof.
  intros V l n c m H T M L. assert (Hm : 0 < m) by (apply H, M). destruct (follow_spec n l c (start c) m T M Hm (fresh_emin c H)) as (q & -> & C & F). split; [|exact F].
  rewrite C. apply firstn_all2. rewrite skipn_length. nia.
Qed.
(** with a top that is within the limit there is one page and no link *)
Theorem c59_top : forall V (l : list V) n c t, fresh_page c -> top c = Some t -> (forall m, topmax c = Some m -> t <= m) -> concat (follow l (S n) c) = firstn (Z.to_nat t) (skipn (start c) l).
Proof.
  intros V l n c t H T M. cbn [follow]. destruct (iterpage_spec l false c (start c) (fresh_ok c H) (fresh_emin c H)) as (c' & -> & _ & NX & _). rewrite NX, T.
  destruct (topmax c) as [m|] eqn:E.
  - specialize (M m eq_refl). destruct (m <? t) eqn:Q; [apply Z.ltb_lt in Q; lia|]. unfold page_size. rewrite T, E. cbn [concat at_most]. rewrite app_nil_r. f_equal. lia.
  - unfold page_size. rewrite T, E. cbn [concat at_most]. apply app_nil_r.
Qed.
(** the skiptoken is understood again, whatever the position *)
Theorem c59_token : forall n, int16 (hex n) = Some n.
Proof. exact int16_hex. Qed.

(** a page asked for with a skiptoken and a skip starts that much after the position of the token *)
Theorem c59_token_skip : forall V (l : list V) b c k, 0 <= k -> (forall s, skip c = Some s -> 0 <= s) ->
  (forall t, top c = Some t -> 0 < t) -> (forall m, topmax c = Some m -> 0 < m) -> token c = Some (hex k) ->
  fst (iterpage l b c) = at_most (page_size c) (skipn (start c) (skipn (Z.to_nat k) l)).
Proof.
  intros V l b c k K S A B T. rewrite skipn_skipn.
  destruct (iterpage_spec l b c (Z.to_nat k + start c)%nat (conj A B)) as (c' & -> & _); [|cbn [fst]; f_equal; f_equal; lia].
  unfold emin_of, start. rewrite T, int16_hex. destruct (skip c) as [s|]; [specialize (S s eq_refl)|]; lia.
Qed.
Example c59_token_skip_case : fst (iterpage [1; 2; 3; 4; 5; 6] false (mkcoll (Some 2) (Some 1) (Some (hex 2)) None None)) = [4; 5].
Proof. reflexivity. Qed.

(** C60: the order *)
Theorem c60_order : forall dirs l, no_nulls dirs l -> NoDup (map e_key l) ->
  exists l', order_entities true dirs l = Ok l' /\ Permutation l l' /\ StronglySorted (ordered dirs) l'.
Proof.
  intros dirs l H ND. unfold order_entities. pose proof (stable_sort_perm (fun a b => e_key a <=? e_key b) l) as P.
  destruct (sort_rules_spec dirs 0 (length dirs) _ (fun a b => e_key a < e_key b) (nn_perm (length dirs) _ _ P H) eq_refl (key_sorted l ND)) as (l' & E & P' & S).
  exists l'. split; [exact E|]. split; [etransitivity; eauto|]. exact S.
Qed.
(** outside of paging: the same with the order in which the provider gave the entities, whatever it is, for the keys *)
Theorem c60_stable : forall dirs l (given : entity -> entity -> Prop), no_nulls dirs l -> StronglySorted given l ->
  exists l', order_entities false dirs l = Ok l' /\ Permutation l l' /\ StronglySorted (fun a b => before_by dirs (e_vals a) (e_vals b) (given a b)) l'.
Proof. intros dirs l R H S. exact (sort_rules_spec dirs 0 (length dirs) l R H eq_refl S). Qed.
(** while paging the order does not depend on the provider *)
Theorem c60_deterministic : forall dirs l l', no_nulls dirs l -> NoDup (map e_key l) -> Permutation l l' -> order_entities true dirs l' = order_entities true dirs l.
Proof.
  intros dirs l l' H ND P. destruct (c60_order dirs l H ND) as (m & E & Pm & S).
  destruct (c60_order dirs l') as (m' & E' & Pm' & S'). { intros e I. apply H. eapply Permutation_in; [symmetry; exact P|exact I]. } { eapply Permutation_NoDup; [apply Permutation_map, P|exact ND]. }
  rewrite E, E'. f_equal. eapply (sorted_unique (ordered dirs)); eauto; [intros x y A B; refine (before_by_asym dirs _ _ _ _ _ A B); lia|]. etransitivity; [symmetry; exact Pm'|]. etransitivity; [symmetry; exact P|exact Pm].
Qed.
(** so the pages of an unchanged set of entities fit together although each is made from a new iteration in any order *)
Theorem c60_pages : forall dirs es (given : nat -> list entity) (l : nat -> list entity) n c, fresh_page c -> no_nulls dirs es -> NoDup (map e_key es) ->
  (forall i, Permutation es (given i)) -> (forall i, order_entities true dirs (given i) = Ok (l i)) -> (length es < n)%nat ->
  exists ps c' all, pages l n c = (ps, c') /\ concat ps = skipn (start c) all /\ Permutation es all /\ StronglySorted (ordered dirs) all /\ Forall (fun p => at_most (page_size c) p = p) ps.
Proof.
  intros dirs es given l n c F H ND P L N. destruct (c60_order dirs es H ND) as (all & E & Pm & S).
  assert (LA : forall i, l i = all). { intros i. specialize (L i). rewrite (c60_deterministic dirs es (given i) H ND (P i)), E in L. congruence. }
  destruct (c59_pages entity all n c F) as (ps & c' & Q & C & Z & _); [rewrite <- (Permutation_length Pm); exact N|].
  exists ps, c', all. split; [|auto]. rewrite <- Q. now apply pages_ext.
Qed.

(** ** Refuted *)
(** next_skiptoken "returns ... None if all requested entities were returned" *)
Theorem c59_last_token_refuted : exists (l : list Z) c, fresh_page c /\ fst (iterpage l false c) = l /\ next (snd (iterpage l false c)) <> None.
Proof. exists [1; 2], (mkcoll None (Some 0) None (Some 10) None). split; [repeat split; cbn; intros; congruence || (injection H as <-; lia)|]. split; [reflexivity|discriminate]. Qed.
(** a client that asks for 3 entities and follows the links gets all 5 *)
Theorem c59_top_refuted : exists (l : list Z) c, fresh_page c /\ top c = Some 3 /\ concat (follow l 5 c) = [1; 2; 3; 4; 5].
Proof. exists [1; 2; 3; 4; 5], (mkcoll (Some 3) (Some 0) None (Some 2) None). split; [repeat split; cbn; intros; congruence || (injection H as <-; lia)|]. split; reflexivity. Qed.
(** an entity that is there all the time is missed when another is deleted between two pages *)
Theorem c59_delete_refuted : exists (l : nat -> list Z) c, fresh_page c /\ (forall i, In 3 (l i)) /\ concat (fst (pages l 3 c)) = [1; 2; 4] /\ top (snd (pages l 3 c)) = Some 0.
Proof.
  exists (fun i => match i with O => [1; 2; 3; 4] | _ => [2; 3; 4] end), (mkcoll None (Some 0) None (Some 2) None). split; [repeat split; cbn; intros; congruence || (injection H as <-; lia)|].
  split; [intros [|i]; cbn; auto|]. split; reflexivity.
Qed.
(** and returned twice when another is inserted *)
Theorem c59_insert_refuted : exists (l : nat -> list Z) c, fresh_page c /\ concat (fst (pages l 3 c)) = [1; 2; 2; 3].
Proof.
  exists (fun i => match i with O => [1; 2; 3] | _ => [0; 1; 2; 3] end), (mkcoll None (Some 0) None (Some 2) None). split; [repeat split; cbn; intros; congruence || (injection H as <-; lia)|]. reflexivity.
Qed.
(** entities with a null in the order expression *)
Theorem c60_null_refuted : exists l, NoDup (map e_key l) /\ order_entities true [1] l = Err TypeError.
Proof. exists [mkentity 1 [Some 1]; mkentity 2 [None]]. split; [repeat constructor; cbn; intuition lia|reflexivity]. Qed.

(** ** Examples *)
Example c59_example : let c := mkcoll (Some 10) (Some 1) None (Some 2) None in fresh_page c /\
  pages (fun _ => [1; 2; 3; 4; 5; 6]) 7 c = ([[2; 3]; [4; 5]; [6]; []; []; []; []], mkcoll (Some 0) (Some 0) None (Some 2) (Some (lit "7"))) /\
  follow [1; 2; 3; 4; 5; 6] 6 (mkcoll None None None (Some 4) None) = [[1; 2; 3; 4]; [5; 6]; []; []; []; []].
Proof. split; [repeat split; cbn; intros; congruence || (injection H as <-; lia)|]. split; reflexivity. Qed.
Example c60_example : let l := [mkentity 3 [Some 1; Some 5]; mkentity 1 [Some 2; Some 5]; mkentity 2 [Some 1; Some 5]; mkentity 4 [Some 1; Some 7]] in
  no_nulls [1; -1] l /\ NoDup (map e_key l) /\ rmap (map e_key) (order_entities true [1; -1] l) = Ok [4; 2; 3; 1] /\ rmap (map e_key) (order_entities false [1; -1] l) = Ok [4; 3; 2; 1].
Proof.
  split; [|split; [repeat constructor; cbn; intuition lia|split; reflexivity]]. intros e [<-|[<-|[<-|[<-|[]]]]]; (split; [reflexivity|repeat constructor; discriminate]).
Qed.
Example c59_tokens : hex 255 = lit "FF" /\ int16 (lit " 0x_ff ") = Some 255 /\ int16 (lit "1_0") = Some 16 /\ int16 (lit "1__0") = None /\ int16 (lit "-A") = Some (-10) /\ int16 [] = None.
Proof. repeat split; reflexivity. Qed.

Print Assumptions c59_page.
Print Assumptions c59_pages.
Print Assumptions c59_links.
Print Assumptions c59_top.
Print Assumptions c59_token.
Print Assumptions c60_order.
Print Assumptions c60_stable.
Print Assumptions c60_deterministic.
Print Assumptions c60_pages.
Print Assumptions c59_token_skip.
