(** Proofs about sequences of pages of SQL collections. *)
From Coq Require Import Sorting Permutation.
From Verif Require Import Py SqlPageModel SqlPageSpec SqlPageProofs.

Section Config.
  Variable k : config.
  Hypothesis Hk : good_config k.
  Notation nm := (names k).
  Notation rlt := (rlt k).
  Notation rest := (rest k).
  Notation goodt := (goodt k).
  Notation ok_coll := (ok_coll k).
  Notation sorted := (StronglySorted rlt).
  Lemma sorted_app : forall a b, sorted (a ++ b) <-> sorted a /\ sorted b /\ (forall x y, In x a -> In y b -> rlt x y).
  Proof.
    induction a as [|x a IH]; intros b; cbn [app].
    - split; [intros H; split; [constructor|split; [exact H|intros ? ? []]]|tauto].
    - split.
      + intros H. inversion H as [|? ? S F]; subst. apply IH in S. destruct S as (A & B & C). rewrite Forall_forall in F. split; [constructor; [exact A|apply Forall_forall; intros y I; apply F, in_app_iff; now left]|]. split; [exact B|].
        intros u y [<-|I] J; [apply F, in_app_iff; now right|now apply C].
      + intros (A & B & C). inversion A as [|? ? S F]; subst. constructor; [apply IH; split; [exact S|split; [exact B|]]; intros u y I J; apply C; [now right|exact J]|]. apply Forall_app. split; [exact F|]. apply Forall_forall. intros y J. apply C; [now left|exact J].
  Qed.
  Lemma suffix_after : forall v s, goodv k v -> Forall (good_row k) s -> sorted s -> exists a, s = a ++ filter (after k (Some v)) s.
  Proof.
    intros v s V. induction s as [|x s IH]; intros G S; [exists []; reflexivity|]. inversion G as [|? ? Gx Gs]; inversion S as [|? ? S' F]; subst. cbn [filter]. destruct (after k (Some v) x) eqn:E.
    - exists []. cbn [app]. f_equal. symmetry. rewrite Forall_forall in F, Gs. assert (H : forall y, In y s -> after k (Some v) y = true).
      { intros y I. cbn in E |- *. apply ltb_lt in E. apply ltb_lt. eapply lt_trans; [exact V|apply good_row_v; [exact Hk|exact Gx]|apply good_row_v; [exact Hk|now apply Gs]|exact E|now apply F]. }
      clear -H. induction s as [|y s IH]; [reflexivity|]. cbn [filter]. rewrite H by now left. f_equal. apply IH. intros z I. apply H. now right.
    - destruct (IH Gs S') as [a Ea]. exists (x :: a). cbn [app]. now f_equal.
  Qed.
  Lemma after_split : forall a x b, Forall (good_row k) (a ++ x :: b) -> sorted (a ++ x :: b) -> filter (after k (Some (r_ord x))) (a ++ x :: b) = b.
  Proof.
    intros a x b G S. rewrite filter_app. apply Forall_app in G. destruct G as [Ga Gb]. inversion Gb as [|? ? Gx Gb']; subst. apply sorted_app in S. destruct S as (_ & S & C). inversion S as [|? ? _ F]; subst. rewrite Forall_forall in Ga, Gb', F.
    assert (A : filter (after k (Some (r_ord x))) a = []).
    { assert (H : forall y, In y a -> after k (Some (r_ord x)) y = false).
      { intros y I. cbn. destruct (ltb k (r_ord x) (r_ord y)) eqn:E; [|reflexivity]. apply ltb_lt in E. exfalso. apply (lt_irrefl k (r_ord x)). eapply lt_trans; [| |  |exact E|apply C; [exact I|now left]]; apply good_row_v; auto. }
      clear -H. induction a as [|y a IH]; [reflexivity|]. cbn. cbn in H. rewrite (H y) by now left. apply IH. intros z I. apply H. now right. }
    rewrite A. cbn [app filter]. destruct (after k (Some (r_ord x)) x) eqn:E; [cbn in E; apply ltb_lt in E; now apply lt_irrefl in E|].
    assert (H : forall y, In y b -> after k (Some (r_ord x)) y = true) by (intros y I; cbn; apply ltb_lt; now apply F).
    clear -H. induction b as [|y b IH]; [reflexivity|]. cbn [filter]. rewrite H by now left. f_equal. apply IH. intros z I. apply H. now right.
  Qed.
  Lemma rest_suffix : forall c t, ok_coll c -> goodt t -> exists a, order_rows nm t = a ++ rest c t.
  Proof.
    intros c t OK G. unfold SqlPageProofs.rest. set (s := order_rows nm t). assert (S : sorted s) by (apply order_sorted; assumption). assert (Gs : Forall (good_row k) s) by (eapply perm_good; [apply order_perm|apply G]).
    assert (X : exists a, s = a ++ filter (after k (tok c)) s).
    { destruct (tok c) as [v|] eqn:E; [apply suffix_after; auto; now apply OK|]. exists []. cbn [app]. clear. induction s as [|x s IH]; [reflexivity|]. cbn [filter]. cbn. f_equal. exact IH. }
    destruct X as [a E]. exists (a ++ firstn (start c) (filter (after k (tok c)) s)). rewrite <- app_assoc, firstn_skipn. exact E.
  Qed.
  Lemma last_split : forall (l : list row) n, (0 < n)%nat -> (n <= length l)%nat -> exists p x, firstn n l = p ++ [x] /\ last (firstn n l) (mkrow [] [] 0) = x /\ l = p ++ x :: skipn n l.
  Proof.
    intros l n P L. destruct (exists_last (l := firstn n l)) as (p & x & E); [intros Q; apply (f_equal (@length row)) in Q; rewrite firstn_length in Q; cbn in Q; lia|].
    exists p, x. split; [exact E|]. rewrite E. split; [apply last_last|]. rewrite <- (firstn_skipn n l) at 1. rewrite E, <- app_assoc. reflexivity.
  Qed.
  (** the page after a token *)
  Lemma rest_token : forall c t n, ok_coll c -> goodt t -> (0 < n)%nat -> (n <= length (rest c t))%nat ->
    let x := last (firstn n (rest c t)) (mkrow [] [] 0) in
    In x (rest c t) /\ good_row k x /\ filter (after k (Some (r_ord x))) (order_rows nm t) = skipn n (rest c t).
  Proof.
    intros c t n OK G P L x. destruct (last_split (rest c t) n P L) as (p & y & E1 & E2 & E3). change (x = y) in E2. rewrite <- E2 in E1, E3. clear E2 y.
    destruct (rest_suffix c t OK G) as [a Ea]. assert (Gs : Forall (good_row k) (order_rows nm t)) by (eapply perm_good; [apply order_perm|apply G]). assert (S : sorted (order_rows nm t)) by (apply order_sorted; assumption).
    assert (I : In x (rest c t)) by (rewrite E3; apply in_app_iff; right; now left). split; [exact I|]. split; [rewrite Forall_forall in Gs; apply Gs; rewrite Ea; apply in_app_iff; now right|].
    assert (Q : order_rows nm t = (a ++ p) ++ x :: skipn n (rest c t)) by (rewrite <- app_assoc, <- E3; exact Ea).
    rewrite Q in Gs, S |- *. now apply after_split.
  Qed.
  Lemma skipn_skipn : forall V a b (l : list V), skipn a (skipn b l) = skipn (b + a) l.
  Proof. intros V a b. induction b as [|b IH]; intros l; [reflexivity|]. destruct l; [now rewrite !skipn_nil|]. cbn. apply IH. Qed.
  Definition short (t : list row) : Prop := Forall (fun r => tokenlen (r_ord r) <= 512) t.
  Lemma make_token_short : forall b r c, tokenlen (r_ord r) <= 512 ->
    make_token b r c = Ok (if b then mkcoll (top c) (Some 0) (Some (r_ord r)) (topmax c) (Some (r_ord r)) else mkcoll (top c) (skip c) (tok c) (topmax c) (Some (r_ord r))).
  Proof. intros b r c H. unfold make_token. destruct (512 <? tokenlen (r_ord r)) eqn:E; [apply Z.ltb_lt in E; lia|]. reflexivity. Qed.
  Lemma rest_in : forall c t r, In r (rest c t) -> In r t /\ after k (tok c) r = true.
  Proof.
    intros c t r I. assert (J : In r (filter (after k (tok c)) (order_rows nm t))). { rewrite <- (firstn_skipn (start c) (filter (after k (tok c)) (order_rows nm t))). apply in_app_iff. now right. }
    apply filter_In in J. destruct J as [J A]. split; [|exact A]. eapply Permutation_in; [symmetry; apply order_perm|exact J].
  Qed.
  Lemma page_size_pos : forall c n, ok_coll c -> page_size c = Some n -> (0 < n)%nat.
  Proof. intros c n (_ & _ & Ht & Hm) H. unfold page_size in H. destruct (top c) as [t|], (topmax c) as [m|]; injection H as <- || discriminate; try specialize (Ht _ eq_refl); try specialize (Hm _ eq_refl); lia. Qed.

  (** ** A table that does not change *)
  Lemma pages_done : forall n T c, top c = Some 0 -> exists ps, pages k T n c = (ps, Ok c) /\ concat ps = [] /\ Forall (fun p => p = []) ps.
  Proof. induction n as [|n IH]; intros T c H; cbn [pages]; [exists []; auto|]. unfold iterpage. rewrite H. destruct (IH (fun i => T (S i)) c H) as (ps & -> & E & F). exists ([] :: ps). auto. Qed.
  Lemma pages_const : forall n c t, ok_coll c -> goodt t -> short t -> can_skip k c -> (length (rest c t) < n)%nat ->
    exists ps c', pages k (fun _ => t) n c = (ps, Ok c') /\ concat ps = rest c t /\ top c' = Some 0 /\ Forall (fun p => at_most (page_size c) p = p) ps.
  Proof.
    induction n as [|n IH]; intros c t OK G SH CS L; [lia|]. cbn [pages]. rewrite (iterpage_spec k Hk c t true OK G CS). destruct (page_size c) as [m|] eqn:P.
    2:{ destruct (pages_done n (fun _ => t) (done true c) eq_refl) as (ps & E & C & F). rewrite E. eexists _, _. split; [reflexivity|]. cbn [concat at_most]. rewrite C, app_nil_r. split; [reflexivity|]. split; [reflexivity|]. constructor; [reflexivity|]. apply Forall_forall. reflexivity. }
    pose proof (page_size_pos c m OK P) as Pm. destruct (length (rest c t) <? m)%nat eqn:Q.
    - apply Nat.ltb_lt in Q. destruct (pages_done n (fun _ => t) (done true c) eq_refl) as (ps & E & C & F). rewrite E. eexists _, _. split; [reflexivity|]. cbn [concat at_most]. rewrite C, app_nil_r. split; [reflexivity|]. split; [reflexivity|].
      constructor; [apply firstn_all2; lia|]. eapply Forall_impl; [|exact F]. intros q ->. apply firstn_nil.
    - apply Nat.ltb_ge in Q. destruct (rest_token c t m OK G Pm Q) as (Ix & Gx & R). set (x := last _ _) in *.
      assert (X : exists c1, (if max_first (top c) (topmax c) then make_token true x c else Ok (by_top true c)) = Ok c1 /\ ok_coll c1 /\ page_size c1 = Some m /\ rest c1 t = skipn m (rest c t)).
      { destruct OK as (O1 & O2 & O3 & O4). destruct (max_first (top c) (topmax c)) eqn:MF.
        - rewrite make_token_short. 2:{ unfold short in SH. rewrite Forall_forall in SH. apply SH. now apply (rest_in c t). }
          eexists. split; [reflexivity|]. split; [|split].
          + split; [intros vs [= <-]; now apply good_row_v|]. split; [intros s [= <-]; lia|]. split; [exact O3|exact O4].
          + exact P.
          + unfold SqlPageProofs.rest at 1. cbn [start skip tok]. change (start _) with O. cbn [skipn]. exact R.
        - eexists. split; [reflexivity|]. unfold max_first in MF. assert (T : exists t0, top c = Some t0 /\ m = Z.to_nat t0).
          { unfold page_size in P. destruct (topmax c) as [mm|]; destruct (top c) as [t0|]; try discriminate; exists t0; (split; [reflexivity|]); [apply Z.leb_gt in MF; specialize (O3 t0 eq_refl)|]; injection P as <-; lia. }
          destruct T as (t0 & T & ->). specialize (O3 t0 T). split; [|split].
          + split; [exact O1|]. split; [|split; [intros q E; cbn in E; assert (q = t0) by congruence; lia|exact O4]]. intros s E. cbn in E. rewrite T in E. injection E as <-. destruct (skip c) as [s|]; [specialize (O2 s eq_refl)|]; lia.
          + exact P.
          + unfold SqlPageProofs.rest. unfold by_top, start. cbn [skip tok]. rewrite T, skipn_skipn. f_equal. destruct (skip c) as [s|]; [specialize (O2 s eq_refl)|]; lia. }
      destruct X as (c1 & -> & OK1 & P1 & R1). destruct (IH c1 t OK1 G SH) as (ps & c' & E & C & T & F).
      { intros _. right. rewrite P1. discriminate. } { rewrite R1, skipn_length. lia. }
      rewrite E. eexists _, _. split; [reflexivity|]. cbn [concat]. rewrite C, R1. split; [apply firstn_skipn|]. split; [exact T|]. constructor; [cbn [at_most]; now rewrite firstn_firstn, Nat.min_id|]. rewrite P1 in F. exact F.
  Qed.
  Lemma set_page_token : forall r c, good_row k r -> set_page k None None (Some (r_ord r)) c = Ok (mkcoll None None (Some (r_ord r)) (topmax c) None).
  Proof.
    intros r c G. destruct (good_row_v k Hk r G) as [L _]. destruct (names_ok k Hk) as (_ & _ & N). unfold set_page. rewrite L, N. destruct (Nat.eqb_spec (length (orderby k) + nkeys k) (length (orderby k) + nkeys k + 1)); [lia|]. now rewrite Nat.eqb_refl.
  Qed.
  Lemma follow_const : forall n c t m, ok_coll c -> goodt t -> short t -> top c = None -> topmax c = Some m -> next c = None -> (length (rest c t) < n)%nat ->
    exists ps, follow k (fun _ => t) n c = (ps, Ok tt) /\ concat ps = rest c t /\ Forall (fun p => (length p <= Z.to_nat m)%nat) ps.
  Proof.
    induction n as [|n IH]; intros c t m OK G SH T M NX L; [lia|]. cbn [follow]. assert (P : page_size c = Some (Z.to_nat m)) by (unfold page_size; now rewrite T, M).
    rewrite (iterpage_spec k Hk c t false OK G) by (intros _; right; rewrite P; discriminate). rewrite P. pose proof (page_size_pos c _ OK P) as Pm. destruct (length (rest c t) <? Z.to_nat m)%nat eqn:Q.
    - apply Nat.ltb_lt in Q. cbn [done]. rewrite NX. eexists. split; [reflexivity|]. cbn [concat]. rewrite app_nil_r. split; [reflexivity|]. constructor; [lia|constructor].
    - apply Nat.ltb_ge in Q. destruct (rest_token c t _ OK G Pm Q) as (Ix & Gx & R). set (x := last _ _) in *. unfold max_first. rewrite T, M. rewrite make_token_short. 2:{ unfold short in SH. rewrite Forall_forall in SH. apply SH. now apply (rest_in c t). }
      cbn [next]. rewrite (set_page_token x _ Gx). cbn [topmax]. set (c1 := mkcoll _ _ _ _ _).
      assert (OK1 : ok_coll c1). { split; [intros vs [= <-]; now apply good_row_v|]. split; [discriminate|]. split; [discriminate|apply OK]. }
      assert (R1 : rest c1 t = skipn (Z.to_nat m) (rest c t)) by exact R.
      destruct (IH c1 t m OK1 G SH eq_refl M eq_refl) as (ps & E & C & F). { rewrite R1, skipn_length. lia. }
      rewrite E. eexists. split; [reflexivity|]. cbn [concat]. rewrite C, R1. split; [apply firstn_skipn|]. constructor; [rewrite firstn_length; lia|exact F].
  Qed.

  (** ** A table that changes between the pages *)
  Definition covers (n : nat) (T : nat -> list row) (o : option (list val)) (l : list row) : Prop :=
    forall v, (forall i, (i < n)%nat -> In v (map r_ord (T i))) -> (forall w, o = Some w -> lt k w v) -> In v (map r_ord l).
  Definition keyset (c : coll) : Prop := top c = None /\ topmax c <> None /\ start c = O /\ ok_coll c.
  Lemma keyset_page : forall c t m, keyset c -> topmax c = Some m -> goodt t -> short t ->
    let p := firstn (Z.to_nat m) (rest c t) in
    sorted p /\ Forall (good_row k) p /\ (forall r, In r p -> In r t /\ after k (tok c) r = true) /\ (length p <= Z.to_nat m)%nat /\
    ((forall b, iterpage k t b c = (p, Ok (done b c))) /\ (forall v, In v (map r_ord t) -> (forall w, tok c = Some w -> lt k w v) -> In v (map r_ord p))
     \/ exists x, In x p /\ good_row k x /\ (forall r, In r p -> r = x \/ rlt r x) /\
          (forall b, iterpage k t b c = (p, Ok (if b then mkcoll None (Some 0) (Some (r_ord x)) (topmax c) (Some (r_ord x)) else mkcoll None (skip c) (tok c) (topmax c) (Some (r_ord x))))) /\
          (forall v, In v (map r_ord t) -> (forall w, tok c = Some w -> lt k w v) -> In v (map r_ord p) \/ lt k (r_ord x) v)).
  Proof.
    intros c t m (T & TM & ST & OK) M G SH p. assert (P : page_size c = Some (Z.to_nat m)) by (unfold page_size; now rewrite T, M). pose proof (page_size_pos c _ OK P) as Pm.
    assert (S : sorted (order_rows nm t)) by (apply order_sorted; assumption). assert (Gs : Forall (good_row k) (order_rows nm t)) by (eapply perm_good; [apply order_perm|apply G]).
    destruct (rest_suffix c t OK G) as [a Ea]. assert (SR : sorted (rest c t)) by (rewrite Ea in S; apply sorted_app in S; tauto). assert (GR : Forall (good_row k) (rest c t)) by (rewrite Ea in Gs; apply Forall_app in Gs; tauto).
    assert (E : rest c t = p ++ skipn (Z.to_nat m) (rest c t)) by (symmetry; apply firstn_skipn).
    assert (In_rest : forall v, In v (map r_ord t) -> (forall w, tok c = Some w -> lt k w v) -> In v (map r_ord (rest c t))).
    { intros v I W. apply in_map_iff in I. destruct I as (r & <- & I). apply in_map. unfold SqlPageProofs.rest. rewrite ST. cbn [skipn]. apply filter_In. split; [eapply Permutation_in; [apply order_perm|exact I]|]. destruct (tok c) as [w|]; [|reflexivity]. cbn. apply ltb_lt. now apply W. }
    split; [rewrite E in SR; apply sorted_app in SR; tauto|]. split; [rewrite E in GR; apply Forall_app in GR; tauto|]. split; [intros r I; apply rest_in; rewrite E; apply in_app_iff; now left|]. split; [unfold p; rewrite firstn_length; lia|].
    assert (IT : forall b, iterpage k t b c = _) by (intros b; apply (iterpage_spec k Hk c t b OK G); intros _; right; rewrite P; discriminate). rewrite P in IT. destruct (length (rest c t) <? Z.to_nat m)%nat eqn:Q.
    - left. apply Nat.ltb_lt in Q. assert (PE : p = rest c t) by (apply firstn_all2; lia). rewrite PE. split; [exact IT|exact In_rest].
    - right. apply Nat.ltb_ge in Q. destruct (rest_token c t _ OK G Pm Q) as (Ix & Gx & R). fold p in Ix, Gx, R, IT. set (x := last p (mkrow [] [] 0)) in *. destruct (last_split (rest c t) _ Pm Q) as (q & y & E1 & E2 & E3). fold p in E1, E2. assert (x = y) by exact E2. subst y.
      exists x. split; [rewrite E1; apply in_app_iff; right; now left|]. split; [exact Gx|]. split; [|split].
      + intros r I. rewrite E1 in I. apply in_app_iff in I. destruct I as [I|[<-|[]]]; [right|now left]. rewrite E in SR. apply sorted_app in SR. destruct SR as (SP & _). rewrite E1 in SP. apply sorted_app in SP. apply SP; [exact I|now left].
      + intros b. rewrite IT. unfold max_first. rewrite T, M. rewrite make_token_short. 2:{ unfold short in SH. rewrite Forall_forall in SH. apply SH. now apply (rest_in c t). } now rewrite T, M.
      + intros v I W. specialize (In_rest v I W). rewrite E, map_app in In_rest. apply in_app_iff in In_rest. destruct In_rest as [J|J]; [now left|right]. rewrite <- R in J. apply in_map_iff in J. destruct J as (r & <- & J). apply filter_In in J. destruct J as [_ J]. cbn in J. now apply ltb_lt.
  Qed.
  Lemma after_lt : forall o r, after k o r = true <-> (forall w, o = Some w -> lt k w (r_ord r)).
  Proof. intros [w|] r; cbn; [rewrite ltb_lt; split; [intros H ? [= <-]; exact H|auto]|]. split; [discriminate|reflexivity]. Qed.
  Lemma lt_after : forall o r x, (forall w, o = Some w -> goodv k w) -> good_row k r -> good_row k x -> after k o x = true -> rlt x r -> after k o r = true.
  Proof. intros o r x V Gr Gx A L. apply after_lt. intros w E. rewrite after_lt in A. eapply lt_trans; [now apply V|apply good_row_v; [exact Hk|exact Gx]|apply good_row_v; [exact Hk|exact Gr]|now apply A|exact L]. Qed.
  (** the first page [p] up to [x] and the pages [l] after it *)
  Lemma join_pages : forall n T o p l x, (forall w, o = Some w -> goodv k w) -> sorted p -> Forall (good_row k) p -> (forall r, In r p -> after k o r = true) -> In x p -> good_row k x -> (forall r, In r p -> r = x \/ rlt r x) ->
    (forall v, In v (map r_ord (T O)) -> (forall w, o = Some w -> lt k w v) -> In v (map r_ord p) \/ lt k (r_ord x) v) ->
    sorted l -> Forall (good_row k) l -> (forall r, In r l -> after k (Some (r_ord x)) r = true) ->
    sorted (p ++ l) /\ Forall (good_row k) (p ++ l) /\ (forall r, In r (p ++ l) -> after k o r = true) /\ (covers n (fun i => T (S i)) (Some (r_ord x)) l -> covers (S n) T o (p ++ l)).
  Proof.
    intros n T o p l x V Sp Gp Ap Ix Gx Bx Cx Sl Gl Al. rewrite Forall_forall in Gp, Gl.
    assert (XL : forall r, In r l -> rlt x r) by (intros r I; specialize (Al r I); cbn in Al; now apply ltb_lt in Al).
    split; [|split; [|split]].
    - apply sorted_app. split; [exact Sp|]. split; [exact Sl|]. intros a b Ia Ib. destruct (Bx a Ia) as [->|B]; [now apply XL|]. eapply lt_trans; [apply good_row_v; [exact Hk|now apply Gp]|apply good_row_v; [exact Hk|exact Gx]|apply good_row_v; [exact Hk|now apply Gl]|exact B|now apply XL].
    - apply Forall_forall. intros r I. apply in_app_iff in I. destruct I; auto.
    - intros r I. apply in_app_iff in I. destruct I as [I|I]; [now apply Ap|]. eapply lt_after; [exact V|now apply Gl|exact Gx|now apply Ap|now apply XL].
    - intros C v H W. rewrite map_app, in_app_iff. destruct (Cx v (H O ltac:(lia)) W) as [J|J]; [now left|right]. apply C; [intros i Hi; apply (H (S i)); lia|]. intros w [= <-]. exact J.
  Qed.
  Lemma pages_change : forall n T c, keyset c -> (forall i, goodt (T i)) -> (forall i, short (T i)) ->
    exists ps c', pages k T n c = (ps, Ok c') /\ sorted (concat ps) /\ Forall (good_row k) (concat ps) /\ (forall r, In r (concat ps) -> after k (tok c) r = true) /\
      (forall i r, In r (nth i ps []) -> In r (T i)) /\ Forall (fun p => at_most (page_size c) p = p) ps /\ (top c' = Some 0 -> covers n T (tok c) (concat ps)).
  Proof.
    induction n as [|n IH]; intros T c K G SH; cbn [pages].
    - exists [], c. split; [reflexivity|]. cbn. split; [constructor|]. split; [constructor|]. split; [intros r []|]. split; [intros [|i] r []|]. split; [constructor|]. intros E. destruct K as (K & _). congruence.
    - destruct K as (Kt & Km & Ks & OK). destruct (topmax c) as [m|] eqn:M; [|contradiction]. assert (K : keyset c) by (split; [exact Kt|split; [congruence|split; assumption]]).
      assert (PS : page_size c = Some (Z.to_nat m)) by (unfold page_size; now rewrite Kt, M).
      destruct (keyset_page c (T O) m K M (G O) (SH O)) as (Sp & Gp & Ap & Lp & C). set (p := firstn _ _) in *. destruct C as [(IT & C)|(x & Ix & Gx & Bx & IT & C)]; rewrite (IT true).
      + destruct (pages_done n (fun i => T (S i)) (done true c) eq_refl) as (ps & E & C0 & F). rewrite E. eexists _, _. split; [reflexivity|]. cbn [concat]. rewrite C0, app_nil_r. split; [exact Sp|]. split; [exact Gp|]. split; [intros r I; now apply Ap|]. split; [|split].
        * intros [|i] r I; [now apply Ap|]. cbn [nth] in I. destruct (nth_in_or_default i ps []) as [J|J]; [|rewrite J in I; destruct I]. rewrite Forall_forall in F. rewrite (F _ J) in I. destruct I.
        * rewrite PS. constructor; [apply firstn_all2; lia|]. eapply Forall_impl; [|exact F]. intros q ->. apply firstn_nil.
        * intros _ v H W. apply C; [apply H; lia|exact W].
      + rewrite M. set (c1 := mkcoll _ _ _ _ _). assert (OK1 : ok_coll c1) by (split; [intros vs [= <-]; now apply good_row_v|]; split; [intros s [= <-]; lia|]; split; [discriminate|intros m0 [= <-]; now apply OK]).
        destruct (IH (fun i => T (S i)) c1) as (ps & c' & E & S1 & G1 & A1 & I1 & F1 & C1); [split; [reflexivity|split; [discriminate|split; [reflexivity|exact OK1]]]|intros i; apply G|intros i; apply SH|].
        rewrite E. eexists _, _. split; [reflexivity|]. cbn [concat]. destruct (join_pages n T (tok c) p (concat ps) x (proj1 OK) Sp Gp (fun r I => proj2 (Ap r I)) Ix Gx Bx C S1 G1 A1) as (J1 & J2 & J3 & J4).
        split; [exact J1|]. split; [exact J2|]. split; [exact J3|]. split; [|split].
        * intros [|i] r I; [now apply Ap|]. now apply (I1 i).
        * rewrite PS. constructor; [apply firstn_all2; lia|]. exact F1.
        * intros Z0. apply J4, C1, Z0.
  Qed.
  Lemma follow_change : forall n T c, keyset c -> next c = None -> (forall i, goodt (T i)) -> (forall i, short (T i)) ->
    exists ps, follow k T n c = (ps, Ok tt) /\ sorted (concat ps) /\ Forall (good_row k) (concat ps) /\ (forall r, In r (concat ps) -> after k (tok c) r = true) /\
      (forall i r, In r (nth i ps []) -> In r (T i)) /\ Forall (fun p => at_most (page_size c) p = p) ps /\ ((length ps < n)%nat -> covers (length ps) T (tok c) (concat ps)).
  Proof.
    induction n as [|n IH]; intros T c K NX G SH; cbn [follow].
    - exists []. split; [reflexivity|]. cbn. split; [constructor|]. split; [constructor|]. split; [intros r []|]. split; [intros [|i] r []|]. split; [constructor|]. intros E. lia.
    - destruct K as (Kt & Km & Ks & OK). destruct (topmax c) as [m|] eqn:M; [|contradiction]. assert (K : keyset c) by (split; [exact Kt|split; [congruence|split; assumption]]).
      assert (PS : page_size c = Some (Z.to_nat m)) by (unfold page_size; now rewrite Kt, M).
      destruct (keyset_page c (T O) m K M (G O) (SH O)) as (Sp & Gp & Ap & Lp & C). set (p := firstn _ _) in *. destruct C as [(IT & C)|(x & Ix & Gx & Bx & IT & C)]; rewrite (IT false).
      + cbn [done]. rewrite NX. eexists. split; [reflexivity|]. cbn [concat]. rewrite app_nil_r. split; [exact Sp|]. split; [exact Gp|]. split; [intros r I; now apply Ap|]. split; [|split].
        * intros [|[|i]] r I; [now apply Ap|destruct I|destruct I].
        * rewrite PS. constructor; [apply firstn_all2; lia|constructor].
        * intros _ v H W. apply C; [apply H; cbn; lia|exact W].
      + cbn [next]. rewrite (set_page_token x _ Gx). cbn [topmax]. rewrite M. set (c1 := mkcoll _ _ _ _ _). assert (OK1 : ok_coll c1) by (split; [intros vs [= <-]; now apply good_row_v|]; split; [discriminate|]; split; [discriminate|intros m0 [= <-]; now apply OK]).
        destruct (IH (fun i => T (S i)) c1) as (ps & E & S1 & G1 & A1 & I1 & F1 & C1); [split; [reflexivity|split; [discriminate|split; [reflexivity|exact OK1]]]|reflexivity|intros i; apply G|intros i; apply SH|].
        rewrite E. eexists. split; [reflexivity|]. cbn [concat]. destruct (join_pages (length ps) T (tok c) p (concat ps) x (proj1 OK) Sp Gp (fun r I => proj2 (Ap r I)) Ix Gx Bx C S1 G1 A1) as (J1 & J2 & J3 & J4).
        split; [exact J1|]. split; [exact J2|]. split; [exact J3|]. split; [|split].
        * intros [|i] r I; [now apply Ap|]. now apply (I1 i).
        * rewrite PS. constructor; [apply firstn_all2; lia|]. exact F1.
        * cbn [length]. intros Z0. apply J4, C1. lia.
  Qed.
End Config.
