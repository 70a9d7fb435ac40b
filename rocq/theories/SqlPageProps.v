(** C61, C62: paging of SQL collections. *)
From Coq Require Import Sorting Permutation.
From Verif Require Import Py SqlPageModel SqlPageSpec SqlPageProofs SqlPagePages.

Lemma sorted_before : forall k l, StronglySorted (rlt k) l <-> StronglySorted (row_before k) l.
Proof.
  intros k l. induction l as [|x l IH]; [split; constructor|]. split; intros H; inversion H as [|? ? S F]; subst; (constructor; [now apply IH|]); eapply Forall_impl; try exact F; intros y Q; apply ord_before; exact Q.
Qed.
Lemma fresh_ok : forall k c, fresh_page c -> ok_coll k c.
Proof. intros k c (T & A & B & C). split; [congruence|]. auto. Qed.
Lemma fresh_rest : forall k c t, fresh_page c -> rest k c t = skipn (start c) (order_rows (names k) t).
Proof. intros k c t (T & _). unfold rest. rewrite T. f_equal. induction (order_rows (names k) t) as [|x l IH]; [reflexivity|]. cbn in *. f_equal. exact IH. Qed.
Lemma in_order_rows : forall k t, good_config k -> good_table k t -> in_order k t (order_rows (names k) t).
Proof. intros k t K G. split; [apply order_perm|]. apply sorted_before, order_sorted; [exact K|now apply goodt_of]. Qed.
(** there is only one list in order *)
Theorem c61_order : forall k t l l', good_config k -> good_table k t -> in_order k t l -> in_order k t l' -> l = l'.
Proof.
  intros k t l l' K G [P S] [P' S']. apply (sorted_unique k K); [now apply sorted_before|now apply sorted_before|etransitivity; [symmetry; exact P|exact P']|]. eapply perm_good; [exact P|]. apply G.
Qed.

(** C61: a table that stays as it is.  Pages one after the other give every row from the start on exactly once and in order, then none *)
Theorem c61_pages_partial : forall k t n c, good_config k -> good_table k t -> short_tokens t -> fresh_page c -> can_skip k c -> (length t < n)%nat ->
  exists ps c' l, pages k (fun _ => t) n c = (ps, Ok c') /\ in_order k t l /\ concat ps = skipn (start c) l /\ Forall (fun p => at_most (page_size c) p = p) ps /\ forall b, iterpage k t b c' = ([], Ok c').
Proof.
  intros k t n c K G SH F CS L. destruct (pages_const k K n c t (fresh_ok k c F) (goodt_of k t G) SH CS) as (ps & c' & E & C & T & P).
  { rewrite fresh_rest, skipn_length by assumption. rewrite <- (Permutation_length (order_perm k t)). lia. }
  exists ps, c', (order_rows (names k) t). split; [exact E|]. split; [now apply in_order_rows|]. split; [rewrite C; now apply fresh_rest|]. split; [exact P|]. intros b. unfold iterpage. now rewrite T.
Qed.
(** and so do the links to the next page *)
Theorem c61_links_partial : forall k t n c m, good_config k -> good_table k t -> short_tokens t -> fresh_page c -> top c = None -> topmax c = Some m -> next c = None -> (length t < n)%nat ->
  exists ps l, follow k (fun _ => t) n c = (ps, Ok tt) /\ in_order k t l /\ concat ps = skipn (start c) l /\ Forall (fun p => (length p <= Z.to_nat m)%nat) ps.
Proof.
  intros k t n c m K G SH F T M NX L. destruct (follow_const k K n c t m (fresh_ok k c F) (goodt_of k t G) SH T M NX) as (ps & E & C & P).
  { rewrite fresh_rest, skipn_length by assumption. rewrite <- (Permutation_length (order_perm k t)). lia. }
  exists ps, (order_rows (names k) t). split; [exact E|]. split; [now apply in_order_rows|]. split; [rewrite C; now apply fresh_rest|]. exact P.
Qed.

(** C62: a table that is changed in any way between the pages, when the provider limits the pages.  The rows come in order, none
    twice, each was in the table when its page was made, and at the end every row that was there all the time has come *)
Theorem c62_pages_partial : forall k T n c m, good_config k -> (forall i, good_table k (T i)) -> (forall i, short_tokens (T i)) ->
  fresh_page c -> top c = None -> topmax c = Some m -> start c = O ->
  exists ps c', pages k T n c = (ps, Ok c') /\ StronglySorted (row_before k) (concat ps) /\ NoDup (map r_ord (concat ps)) /\
    (forall i r, In r (nth i ps []) -> In r (T i)) /\ Forall (fun p => (length p <= Z.to_nat m)%nat) ps /\
    (top c' = Some 0 -> forall v, (forall i, (i < n)%nat -> In v (map r_ord (T i))) -> In v (map r_ord (concat ps))).
Proof.
  intros k T n c m K G SH F Tp M ST. assert (KS : keyset k c) by (split; [exact Tp|split; [congruence|split; [exact ST|now apply fresh_ok]]]).
  destruct (pages_change k K n T c KS (fun i => goodt_of k _ (G i)) SH) as (ps & c' & E & S & Gd & _ & I & P & C). exists ps, c'. split; [exact E|]. split; [now apply sorted_before|]. split; [|split; [exact I|split]].
  - clear -S. induction S as [|x l S IH F]; [constructor|]. cbn [map]. constructor; [|exact IH]. intros J. apply in_map_iff in J. destruct J as (y & E & J). rewrite Forall_forall in F. specialize (F y J). unfold rlt in F. rewrite E in F. now apply lt_irrefl in F.
  - unfold page_size in P. rewrite Tp, M in P. eapply Forall_impl; [|exact P]. intros p Q. cbn [at_most] in Q. rewrite <- Q, firstn_length. lia.
  - intros D v H. apply (C D v H). destruct F as (F & _). rewrite F. discriminate.
Qed.
Theorem c62_links_partial : forall k T n c m, good_config k -> (forall i, good_table k (T i)) -> (forall i, short_tokens (T i)) ->
  fresh_page c -> top c = None -> topmax c = Some m -> start c = O -> next c = None ->
  exists ps, follow k T n c = (ps, Ok tt) /\ StronglySorted (row_before k) (concat ps) /\ NoDup (map r_ord (concat ps)) /\
    (forall i r, In r (nth i ps []) -> In r (T i)) /\ Forall (fun p => (length p <= Z.to_nat m)%nat) ps /\
    ((length ps < n)%nat -> forall v, (forall i, (i < length ps)%nat -> In v (map r_ord (T i))) -> In v (map r_ord (concat ps))).
Proof.
  intros k T n c m K G SH F Tp M ST NX. assert (KS : keyset k c) by (split; [exact Tp|split; [congruence|split; [exact ST|now apply fresh_ok]]]).
  destruct (follow_change k K n T c KS NX (fun i => goodt_of k _ (G i)) SH) as (ps & E & S & Gd & _ & I & P & C). exists ps. split; [exact E|]. split; [now apply sorted_before|]. split; [|split; [exact I|split]].
  - clear -S. induction S as [|x l S IH F]; [constructor|]. cbn [map]. constructor; [|exact IH]. intros J. apply in_map_iff in J. destruct J as (y & E & J). rewrite Forall_forall in F. specialize (F y J). unfold rlt in F. rewrite E in F. now apply lt_irrefl in F.
  - unfold page_size in P. rewrite Tp, M in P. eapply Forall_impl; [|exact P]. intros p Q. cbn [at_most] in Q. rewrite <- Q, firstn_length. lia.
  - intros D v H. apply (C D v H). destruct F as (F & _). rewrite F. discriminate.
Qed.

(** ** Examples *)
Definition kid := mkconfig [] 1 true.
Definition kname := mkconfig [-1] 1 true.
Definition R (v : val) (key : Z) : row := mkrow [v] [VInt key] 0.
Definition people := [R (VStr (lit "Ann")) 1; R (VStr (lit "Bob")) 2; R (VStr (lit "Ann")) 3; R (VStr (lit "Cy")) 4; R (VStr (lit "Al")) 5].
Definition page1 (t : option Z) (m : option Z) : coll := mkcoll t (Some 0) None m None.
Definition keys (p : list (list row)) : list (list (list val)) := map (map r_key) p.
Example people_ok : good_config kname /\ good_table kname people /\ short_tokens people /\ fresh_page (page1 None (Some 2)) /\ can_skip kname (page1 None (Some 2)) /\
  keys (fst (pages kname (fun _ => people) 4 (page1 None (Some 2)))) = [[[VInt 4]; [VInt 2]]; [[VInt 1]; [VInt 3]]; [[VInt 5]]; []] /\
  keys (fst (pages kname (fun _ => people) 4 (page1 (Some 3) (Some 9)))) = [[[VInt 4]; [VInt 2]; [VInt 1]]; [[VInt 3]; [VInt 5]]; []; []] /\
  keys (fst (follow kname (fun i => match i with O => people | _ => tl people end) 6 (page1 None (Some 2)))) = [[[VInt 4]; [VInt 2]]; [[VInt 3]; [VInt 5]]; []].
Proof.
  split; [split; [cbn; lia|repeat constructor; now right]|]. split; [split; [|repeat constructor; cbn; intuition congruence]|].
  { repeat constructor; cbn; intuition congruence. }
  split; [repeat constructor; cbn; lia|]. split; [repeat split; cbn; intros; congruence || (injection H as <-; lia)|]. split; [intros _; now left|]. split; [vm_compute; reflexivity|]. split; vm_compute; reflexivity.
Qed.

(** ** Refuted *)
(** with a null among the order values: the rows after it are lost *)
Theorem c61_null_refuted : exists t c, let k := mkconfig [1] 1 true in fresh_page c /\ NoDup (map r_key t) /\ top c = None /\ keys (fst (pages k (fun _ => t) 5 c)) = [[[VInt 2]]; []; []; []; []] /\ length t = 3%nat.
Proof. exists [R (VInt 7) 1; R VNull 2; R (VInt 9) 3], (page1 None (Some 1)). cbn zeta. split; [repeat split; cbn; intros; congruence || (injection H as <-; lia)|]. split; [repeat constructor; cbn; intuition congruence|]. split; [reflexivity|]. split; vm_compute; reflexivity. Qed.
(** with a token that is too long: on the first page an exception after the rows of the page *)
Definition long (c : Z) : val := VStr (repeat c 513).
Theorem c61_long_first_refuted : exists t c, let k := kid in good_table k t /\ fresh_page c /\ iterpage k t true c = ([mkrow [] [long 97] 0], Err TypeError) /\ length t = 2%nat.
Proof.
  exists [mkrow [] [long 97] 0; mkrow [] [long 98] 0], (page1 None (Some 1)). cbn zeta. split; [split; [|repeat constructor; cbn; intuition discriminate]|]. { repeat constructor; cbn; intuition discriminate. }
  split; [repeat split; cbn; intros; congruence || (injection H as <-; lia)|]. split; [vm_compute; reflexivity|reflexivity].
Qed.
(** later, the same page again and again *)
Definition longs := [mkrow [] [VStr (lit "A")] 0; mkrow [] [long 97] 0; mkrow [] [long 98] 0].
Lemma long_page : forall e nx, iterpage kid longs true (mkcoll None (Some 0) (Some (VStr (lit "A") :: e)) (Some 1) nx) =
  ([mkrow [] [long 97] 0], Ok (mkcoll None (Some 0) (Some (VStr (lit "A") :: e ++ [VInt 1])) (Some 1) (Some (VStr (lit "A") :: e ++ [VInt 1])))).
Proof. intros e nx. vm_compute. reflexivity. Qed.
Theorem c61_long_refuted : good_table kid longs /\ fresh_page (page1 None (Some 1)) /\ forall n, fst (pages kid (fun _ => longs) (S n) (page1 None (Some 1))) = [mkrow [] [VStr (lit "A")] 0] :: repeat [mkrow [] [long 97] 0] n.
Proof.
  split; [split; [repeat constructor; cbn; intuition discriminate|repeat constructor; cbn; intuition discriminate]|]. split; [repeat split; cbn; intros; congruence || (injection H as <-; lia)|]. intros n.
  change (pages kid (fun _ => longs) (S n) (page1 None (Some 1))) with (let (p, c) := iterpage kid longs true (page1 None (Some 1)) in match c with Err e => ([p], Err e) | Ok c => let (ps, c) := pages kid (fun _ => longs) n c in (p :: ps, c) end).
  assert (E : iterpage kid longs true (page1 None (Some 1)) = ([mkrow [] [VStr (lit "A")] 0], Ok (mkcoll None (Some 0) (Some (VStr (lit "A") :: [])) (Some 1) (Some [VStr (lit "A")])))) by (vm_compute; reflexivity).
  rewrite E. clear E. assert (H : forall e nx, fst (pages kid (fun _ => longs) n (mkcoll None (Some 0) (Some (VStr (lit "A") :: e)) (Some 1) nx)) = repeat [mkrow [] [long 97] 0] n).
  { induction n as [|n IH]; intros e nx; [reflexivity|]. cbn [pages]. rewrite long_page. specialize (IH (e ++ [VInt 1]) (Some (VStr (lit "A") :: e ++ [VInt 1]))). destruct (pages kid (fun _ => longs) n _) as [ps c]. cbn [fst repeat] in *. now rewrite IH. }
  specialize (H [] (Some [VStr (lit "A")])). destruct (pages kid (fun _ => longs) n _) as [ps c]. cbn [fst] in *. now rewrite H.
Qed.
(** over links the server, that has no skip, cannot use the token *)
Theorem c61_long_link_refuted : follow kid (fun _ => longs) 3 (page1 None (Some 1)) = ([[mkrow [] [VStr (lit "A")] 0]; [mkrow [] [long 97] 0]], Err TypeError).
Proof. vm_compute. reflexivity. Qed.
(** SQLite: a skip without a limit *)
Theorem c61_skip_refuted : exists t c, good_table kid t /\ fresh_page c /\ iterpage kid t true c = ([], Err BadSyntax).
Proof. exists [mkrow [] [VInt 1] 0; mkrow [] [VInt 2] 0], (mkcoll None (Some 1) None None None). split; [split; [repeat constructor; cbn; intuition discriminate|repeat constructor; cbn; intuition discriminate]|]. split; [repeat split; cbn; intros; congruence || (injection H as <-; lia)|]. reflexivity. Qed.
(** next_skiptoken after the last page still gives the token of the page before *)
Theorem c61_stale_token_refuted : exists t c c', good_table kid t /\ fresh_page c /\ snd (pages kid (fun _ => t) 3 c) = Ok c' /\ top c' = Some 0 /\ next c' <> None.
Proof.
  exists [mkrow [] [VInt 1] 0; mkrow [] [VInt 2] 0; mkrow [] [VInt 3] 0], (page1 None (Some 2)). eexists. split; [split; [repeat constructor; cbn; intuition discriminate|repeat constructor; cbn; intuition discriminate]|].
  split; [repeat split; cbn; intros; congruence || (injection H as <-; lia)|]. split; [vm_compute; reflexivity|]. split; [reflexivity|discriminate].
Qed.
(** a client that asks for 2 rows and follows the links gets all 3 *)
Theorem c61_top_refuted : exists t c, good_table kid t /\ fresh_page c /\ top c = Some 2 /\ length t = 3%nat /\ length (concat (fst (follow kid (fun _ => t) 4 c))) = 3%nat.
Proof.
  exists [mkrow [] [VInt 1] 0; mkrow [] [VInt 2] 0; mkrow [] [VInt 3] 0], (page1 (Some 2) (Some 2)). split; [split; [repeat constructor; cbn; intuition discriminate|repeat constructor; cbn; intuition discriminate]|].
  split; [repeat split; cbn; intros; congruence || (injection H as <-; lia)|]. split; [reflexivity|]. split; [reflexivity|]. vm_compute. reflexivity.
Qed.

Print Assumptions c61_order.
Print Assumptions c61_pages_partial.
Print Assumptions c61_links_partial.
Print Assumptions c62_pages_partial.
Print Assumptions c62_links_partial.
Print Assumptions c61_long_refuted.
