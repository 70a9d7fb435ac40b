(** search, and histories. *)
From Coq Require Import Permutation Sorted.
From Verif Require Import Py UriModel UriRel Dict CookieModel CookieSpec CookieProofs.

(** ** one cookie *)
Lemma startswith_spec : forall p s, startswith s p = true <-> exists r, s = p ++ r.
Proof.
  induction p as [|x p IH]; intros s; [destruct s; (split; [intros _; eexists; reflexivity|reflexivity])|]. destruct s as [|y s]; cbn; [split; [discriminate|intros [r H]; discriminate]|].
  rewrite andb_true_iff, Z.eqb_eq, IH. split.
  - intros [-> [r ->]]. exists r. reflexivity.
  - intros [r H]. inversion H; subst. split; [reflexivity|exists r; reflexivity].
Qed.
Lemma slice_end : forall (cp r : str), slice (length cp) (length cp + 1) (cp ++ r) = firstn 1 r.
Proof. intros cp r. unfold slice. rewrite skipn_app, skipn_all, Nat.sub_diag. cbn [app skipn]. f_equal. lia. Qed.
Lemma matches_spec : forall u hm c, (exists x r, c_path c = Some (x :: r)) -> exists b, cookie_matches u hm c = Ok b /\
  (b = true <-> (c_domain c = None -> hm = true) /\ (exists p cp, u_path u = Some p /\ c_path c = Some cp /\ path_match p cp) /\
    (c_secure c = true -> u_kind u = Https) /\ (c_http_only c = true -> u_kind u <> Other)).
Proof.
  intros u hm c (x & r & Hp). unfold cookie_matches. rewrite Hp.
  destruct (match c_domain c with None => negb hm | Some _ => false end) eqn:D.
  { exists false. split; [reflexivity|]. split; [discriminate|]. intros [H _]. destruct (c_domain c); [discriminate|]. rewrite H in D by reflexivity. discriminate. }
  assert (D1 : c_domain c = None -> hm = true) by (destruct (c_domain c); [discriminate|]; intros _; destruct hm; [reflexivity|discriminate]).
  destruct (u_path u) as [p|] eqn:U; [|exists false; split; [reflexivity|]; split; [discriminate|]; intros (_ & (p & cp & E & _) & _); discriminate].
  set (cp := x :: r) in *. 
  assert (PM : exists b, (if (length p <? length cp)%nat then Ok false else if startswith p cp then match rev cp with [] => Err IndexError | last :: _ => Ok ((last =? 47) || str_eqb (slice (length cp) (length cp + 1) p) (lit "/")) end else Ok false) = Ok b /\ (b = true <-> path_match p cp)).
  { destruct ((length p <? length cp)%nat) eqn:L.
    - exists false. split; [reflexivity|]. split; [discriminate|]. b2p. intros [(q & -> & _)|(q & ->)]; rewrite app_length in L; lia.
    - destruct (startswith p cp) eqn:S.
      + apply startswith_spec in S as [q ->]. destruct (rev cp) as [|l z] eqn:R; [apply (f_equal (@length Z)) in R; rewrite rev_length in R; discriminate|].
        assert (E : cp = rev z ++ [l]) by (rewrite <- (rev_involutive cp), R; reflexivity).
        eexists. split; [reflexivity|]. rewrite slice_end, orb_true_iff, Z.eqb_eq, str_eqb_eq. split.
        * intros [->|F]; [left; exists q; split; [reflexivity|exists (rev z); exact E]|]. right. destruct q as [|y q]; [discriminate|]. cbn in F. inversion F. exists q. reflexivity.
        * intros [(q' & _ & (w & F))|(q' & F)]; [left; rewrite E in F; apply app_inj_tail in F as [_ F]; exact F|]. apply app_inv_head in F. subst q. right. reflexivity.
      + exists false. split; [reflexivity|]. split; [discriminate|]. intros H. exfalso. assert (X : startswith p cp = true); [|congruence]. apply startswith_spec. destruct H as [(q & -> & _)|(q & ->)]; eauto. }
  destruct PM as (b & E & Hb). destruct ((length p <? length cp)%nat) eqn:L.
  { inversion E; subst b. exists false. split; [reflexivity|]. split; [discriminate|]. intros (_ & (p' & cp' & X & Y & M) & _). inversion X; inversion Y; subst. apply Hb in M. exact M. }
  rewrite E. cbn [rbind]. destruct b; cbn [negb].
  - destruct (c_secure c && negb (is_https (u_kind u))) eqn:S1.
    { exists false. split; [reflexivity|]. split; [discriminate|]. intros (_ & _ & H & _). b2p. rewrite H in * by assumption. discriminate. }
    destruct (c_http_only c && negb (is_http (u_kind u))) eqn:S2.
    { exists false. split; [reflexivity|]. split; [discriminate|]. intros (_ & _ & _ & H). b2p. destruct (u_kind u); try discriminate. exfalso. apply H; [assumption|reflexivity]. }
    exists true. split; [reflexivity|]. split; [|reflexivity]. intros _. split; [exact D1|]. split; [exists p, cp; split; [reflexivity|split; [reflexivity|apply Hb; reflexivity]]|]. split; intros H; rewrite H in *; cbn in *; destruct (u_kind u); cbn in *; congruence.
  - exists false. split; [reflexivity|]. split; [discriminate|]. intros (_ & (p' & cp' & X & Y & M) & _). inversion X; inversion Y; subst. apply Hb in M. exact M.
Qed.
Definition ok_true (r : res bool) : bool := match r with Ok b => b | Err _ => false end.
Lemma match_all_spec : forall now u hm l, okc l ->
  match_all now u hm l = Ok (map snd (filter (fun x => negb (expired (snd x) now) && ok_true (cookie_matches u hm (snd x))) l)).
Proof.
  intros now u hm l [_ F]. induction F as [|[k c] l [_ Hp] F IH]; [reflexivity|]. cbn [match_all filter snd]. destruct (expired c now); [exact IH|]. cbn [negb andb].
  destruct (matches_spec u hm c Hp) as (b & E & _). rewrite E. cbn [rbind ok_true]. rewrite IH. destruct b; reflexivity.
Qed.

Lemma remove_ok : forall f cks, okc cks -> okc (remove_cookies f cks).
Proof. intros f cks H. exact (proj1 (remove_get f cks ([], None) H)). Qed.
Lemma set_cookies_get : forall n l, n_cookies (set_cookies n l) = l.
Proof. intros [a b z x y] l. reflexivity. Qed.
(** ** the walk *)
Definition entry := ((domain * key) * cookie)%type.
Definition push (x : str) (e : entry) : entry := ((x :: fst (fst e), snd (fst e)), snd e).
Lemma okt_child : forall n x c, okt n -> child n x = Some c -> okt c.
Proof. intros n x c T E p. specialize (T (x :: p)). rewrite at_cons, E in T. exact T. Qed.
Lemma NoDup_app_intro : forall A (a b : list A), NoDup a -> NoDup b -> (forall x, In x a -> ~ In x b) -> NoDup (a ++ b).
Proof.
  intros A a b H1 H2 H. induction H1 as [|x a N H1 IH]; [exact H2|]. cbn. constructor.
  - rewrite in_app_iff. intros [X|X]; [exact (N X)|]. apply (H x); [left; reflexivity|exact X].
  - apply IH. intros y Hy. apply H. right. exact Hy.
Qed.
Lemma hm_eq : forall (x : str) (host : domain), (if dom_dec [x] (x :: host) then true else false) = match host with [] => true | _ :: _ => false end.
Proof. intros x [|y host]; destruct (dom_dec _ _) as [Q|Q]; try reflexivity; [exfalso; apply Q; reflexivity|discriminate]. Qed.
Lemma search_at_spec : forall host now u n, okt n -> exists e s',
  search_at now u n host = (s', Ok (map snd e)) /\ NoDup (map fst e) /\
  (forall d k c, In ((d, k), c) e <-> d <> [] /\ in_domain host d /\ dget key_eqb k (cookies_at n d) = Some c /\ expired c now = false /\
    cookie_matches u (if dom_dec d host then true else false) c = Ok true) /\
  (forall d, d <> [] -> cookies_at s' d = if in_domain_dec host d then remove_cookies (fun c => expired c now) (cookies_at n d) else cookies_at n d) /\
  cookies_at s' [] = cookies_at n [].
Proof.
  induction host as [|x host IH]; intros now u n T.
  - exists [], n. split; [reflexivity|]. split; [constructor|]. split.
    + intros d k c. split; [intros []|]. intros (N & [m H] & _). destruct d; [congruence|discriminate].
    + split; [|reflexivity]. intros d N. destruct (in_domain_dec [] d) as [[m H]|H]; [destruct d; [congruence|discriminate]|reflexivity].
  - cbn [search_at]. destruct (child n x) as [c0|] eqn:E.
    + pose proof (okt_child n x c0 T E) as T0. pose proof (T0 []) as K0. rewrite at_nil in K0. rewrite match_all_spec by exact K0.
      set (c1 := set_cookies c0 (remove_cookies (fun c => expired c now) (n_cookies c0))).
      assert (A1 : forall d, d <> [] -> cookies_at c1 d = cookies_at c0 d) by (intros [|y d] Nd; [congruence|]; unfold c1; rewrite !at_cons; destruct c0; reflexivity).
      assert (T1 : okt c1). { intros [|y d]; [|rewrite A1 by discriminate; apply T0]. unfold c1. rewrite at_nil, set_cookies_get. apply remove_ok. exact K0. }
      destruct (IH now u c1 T1) as (e & s' & Es & Hn & Hi & Hc & Hr). rewrite Es. cbn [rbind].
      set (hm := match host with [] => true | _ :: _ => false end).
      set (own := filter (fun y => negb (expired (snd y) now) && ok_true (cookie_matches u hm (snd y))) (n_cookies c0)).
      exists (map (fun y => (([x], fst y), snd y)) own ++ map (push x) e), (set_child n x s'). split.
      { f_equal. f_equal. rewrite map_app, !map_map. f_equal. }
      assert (Hown : forall k c, In (k, c) own <-> dget key_eqb k (n_cookies c0) = Some c /\ expired c now = false /\ cookie_matches u hm c = Ok true).
      { intros k c. unfold own. rewrite filter_In. cbn [snd]. rewrite andb_true_iff, negb_true_iff. split.
        - intros (I & X & M). split; [apply (in_dget key_eqb key_eqb_eq); [apply K0|exact I]|]. split; [exact X|]. destruct (cookie_matches u hm c) as [[|]|]; try discriminate. reflexivity.
        - intros (I & X & M). split; [apply (dget_in key_eqb key_eqb_eq); exact I|]. split; [exact X|]. rewrite M. reflexivity. }
      split.
      { rewrite map_app, !map_map. apply NoDup_app_intro.
        - cbn [fst]. unfold own. assert (ND : NoDup (map fst (n_cookies c0))) by apply K0. clear - ND. induction (n_cookies c0) as [|[k c] l IH]; [constructor|]. inversion ND as [|? ? N1 N2]; subst. cbn [filter snd].
          destruct (negb (expired c now) && ok_true (cookie_matches u hm c)); [|auto]. cbn [map fst]. constructor; [|auto]. intros X. apply N1. apply in_map_iff in X as ([k' c'] & Y & X). cbn in Y. inversion Y; subst. apply filter_In in X as [X _]. apply in_map_iff. exists (k, c'). auto.
        - unfold push. cbn [fst]. clear - Hn. induction e as [|[[d k] c] e IH]; [constructor|]. cbn [map fst snd] in *. inversion Hn as [|? ? N1 N2]; subst. constructor; [|auto]. intros X. apply N1. apply in_map_iff in X as ([[d' k'] c'] & Y & X). cbn in Y. inversion Y; subst. apply in_map_iff. exists ((d, k), c'). auto.
        - intros y Hy1 Hy2. apply in_map_iff in Hy1 as ([k c] & <- & _). apply in_map_iff in Hy2 as ([[d' k'] c'] & Y & X). cbn in Y. inversion Y; subst. apply Hi in X as [X _]. congruence. }
      split.
      { intros d k c. rewrite in_app_iff. split.
        - intros [X|X].
          + apply in_map_iff in X as ([k' c'] & Y & X). cbn in Y. inversion Y; subst. apply Hown in X as (G & Ex & M). split; [discriminate|]. split; [exists host; reflexivity|]. rewrite at_cons, E, at_nil. split; [exact G|]. split; [exact Ex|]. rewrite <- M. f_equal.
            apply hm_eq.
          + apply in_map_iff in X as ([[d' k'] c'] & Y & X). cbn in Y. inversion Y; subst. apply Hi in X as (Nd & [m ->] & G & Ex & M). split; [discriminate|]. split; [exists m; reflexivity|]. rewrite at_cons, E. rewrite A1 in G by exact Nd. split; [exact G|]. split; [exact Ex|]. rewrite <- M. f_equal.
            destruct (dom_dec d' (d' ++ m)), (dom_dec (x :: d') (x :: d' ++ m)); try reflexivity; congruence.
        - intros (Nd & [m Hm] & G & Ex & M). destruct d as [|y d]; [congruence|]. cbn in Hm. inversion Hm; subst. rewrite at_cons, E in G. destruct d as [|z d].
          + left. apply in_map_iff. exists (k, c). split; [reflexivity|]. apply Hown. rewrite at_nil in G. split; [exact G|]. split; [exact Ex|]. rewrite <- M. f_equal. symmetry. apply hm_eq.
          + right. apply in_map_iff. exists ((z :: d, k), c). split; [reflexivity|]. apply Hi. split; [discriminate|]. split; [exists m; reflexivity|]. rewrite A1 by discriminate. split; [exact G|]. split; [exact Ex|]. rewrite <- M. f_equal.
            destruct (dom_dec (z :: d) ((z :: d) ++ m)), (dom_dec (y :: z :: d) (y :: (z :: d) ++ m)); try reflexivity; congruence. }
      split; [|rewrite at_set_child; reflexivity]. intros d Nd. rewrite at_set_child. destruct d as [|y d]; [congruence|]. destruct (str_eqb y x) eqn:X.
      * apply str_eqb_eq in X. subst y. rewrite at_cons, E. destruct d as [|z d].
        -- rewrite Hr. unfold c1. rewrite !at_nil. destruct (in_domain_dec (x :: host) [x]) as [_|Q]; [destruct c0; reflexivity|]. exfalso. apply Q. exists host. reflexivity.
        -- rewrite Hc by discriminate. rewrite A1 by discriminate. destruct (in_domain_dec host (z :: d)) as [[m Q]|Q], (in_domain_dec (x :: host) (x :: z :: d)) as [[m' Q']|Q']; try reflexivity.
           ++ exfalso. apply Q'. exists m. rewrite Q. reflexivity.
           ++ exfalso. apply Q. exists m'. inversion Q'. reflexivity.
      * destruct (in_domain_dec (x :: host) (y :: d)) as [[m Q]|Q]; [|reflexivity]. cbn in Q. inversion Q. subst. rewrite str_eqb_refl in X. discriminate.
    + exists [], n. split; [reflexivity|]. split; [constructor|]. split.
      * intros d k c. split; [intros []|]. intros (Nd & [m Hm] & G & _). destruct d as [|y d]; [congruence|]. cbn in Hm. inversion Hm; subst. rewrite at_cons, E in G. discriminate.
      * split; [|reflexivity]. intros d Nd. destruct (in_domain_dec (x :: host) d) as [[m Hm]|]; [|reflexivity]. destruct d as [|y d]; [congruence|]. cbn in Hm. inversion Hm; subst. rewrite at_cons, E. reflexivity.
Qed.

(** ** sorting *)
Lemma insert_perm : forall c l, Permutation (insert_cookie c l) (c :: l).
Proof.
  intros c l. induction l as [|x l IH]; [reflexivity|]. cbn. destruct (before x c); [|reflexivity]. rewrite IH. apply perm_swap.
Qed.
Lemma sort_perm : forall l, Permutation (sort_cookies l) l.
Proof. induction l as [|x l IH]; [constructor|]. cbn. rewrite insert_perm. constructor. exact IH. Qed.
(** a may come before b *)
Lemma path_plen : forall c, path_len c = Z.of_nat (plen c).
Proof. intros c. unfold path_len, plen. destruct (c_path c); reflexivity. Qed.
Lemma before_order : forall a b, before a b = true -> in_order a b.
Proof. intros a b. unfold before, in_order. rewrite !path_plen. rewrite orb_true_iff, andb_true_iff, !Z.ltb_lt, Z.eqb_eq. lia. Qed.
Lemma not_before_order : forall a b, before a b = false -> in_order b a.
Proof. intros a b. unfold before, in_order. rewrite !path_plen. intros H. apply orb_false_iff in H as [H1 H2]. apply Z.ltb_ge in H1. apply andb_false_iff in H2. rewrite Z.eqb_neq, Z.ltb_ge in H2. lia. Qed.
Lemma in_order_trans : forall a b c, in_order a b -> in_order b c -> in_order a c.
Proof. unfold in_order. intros. lia. Qed.
Lemma insert_sorted : forall c l, StronglySorted in_order l -> StronglySorted in_order (insert_cookie c l).
Proof.
  intros c l H. induction H as [|x l H IH F]; [constructor; constructor|]. cbn. destruct (before x c) eqn:B.
  - constructor; [exact IH|]. rewrite insert_perm. constructor; [apply before_order; exact B|exact F].
  - apply not_before_order in B. constructor; [constructor; assumption|]. constructor; [exact B|]. eapply Forall_impl; [|exact F]. intros y. apply in_order_trans. exact B.
Qed.
Lemma sort_sorted : forall l, StronglySorted in_order (sort_cookies l).
Proof. induction l as [|x l IH]; [constructor|]. cbn. apply insert_sorted. exact IH. Qed.

(** ** histories *)
Lemma okt_new : okt new_store.
Proof. intros [|x d]; apply okc_nil. Qed.
Lemma okt_ext : forall s s', okt s -> (forall d, cookies_at s' d = cookies_at s d) -> okt s'.
Proof. intros s s' T H d. rewrite H. apply T. Qed.
Lemma step_jar : forall puny o s, okt s -> op_ok o -> okt (step puny s o) /\
  forall d k, d <> [] -> jar_of (step puny s o) d k = jar_step puny (public_of s) o (jar_of s) d k.
Proof.
  intros puny o s T G. destruct o as [now u c|now u|now|now|d0|d0|l t]; cbn [step].
  - destruct (set_jar puny now s u c T G) as [A B]. split; [exact A|]. intros d k _. apply B.
  - unfold search. cbn [jar_step]. pose proof (host_labels_spec puny u) as H. destruct (host_labels puny u) as [host|e]; rewrite H; [|split; [exact T|reflexivity]].
    destruct (search_at_spec host now u s T) as (e & s' & E & _ & _ & A & B). rewrite E. cbn [fst]. split.
    + intros d. destruct d as [|x d]; [rewrite B; apply T|]. rewrite A by discriminate. destruct (in_domain_dec host (x :: d)); [apply remove_ok; apply T|apply T].
    + intros d k Nd. unfold jar_of at 1. rewrite A by exact Nd. destruct (in_domain_dec host d); [apply remove_get; apply T|reflexivity].
  - split; [intros d|intros d k Nd; unfold jar_of at 1]; unfold expire_cookies; rewrite at_clean; [apply remove_ok; apply T|]. apply remove_get. apply T.
  - split; [intros d|intros d k Nd; unfold jar_of at 1]; unfold end_session; rewrite at_clean; [apply remove_ok; apply T|]. apply remove_get. apply T.
  - assert (A : forall d, cookies_at (fst (add_public_suffix puny s d0)) d = cookies_at s d) by (intros d; unfold add_public_suffix; destruct (split_domain puny d0 true); [apply at_add_public|reflexivity]).
    split; [eapply okt_ext; [exact T|exact A]|]. intros d k _. unfold jar_of. rewrite A. reflexivity.
  - assert (A : forall d, cookies_at (fst (add_private_suffix puny s d0)) d = cookies_at s d) by (intros d; unfold add_private_suffix; destruct (split_domain puny d0 true); [apply at_add_private|reflexivity]).
    split; [eapply okt_ext; [exact T|exact A]|]. intros d k _. unfold jar_of. rewrite A. reflexivity.
  - split; [eapply okt_ext; [exact T|intros d; apply at_list]|]. intros d k _. unfold jar_of. rewrite at_list. reflexivity.
Qed.
Lemma split_labels_len : forall puny w l r, split_labels puny w l = Ok r -> length r = length l.
Proof.
  intros puny w l. induction l as [|x l IH]; intros r E; [inversion E; reflexivity|]. cbn [split_labels] in E.
  destruct (if is_ldh_label x then Ok (lower x) else _) as [a|]; [|discriminate]. cbn [rbind] in E. destruct (split_labels puny w l) as [b|]; [|discriminate]. cbn [rbind] in E. inversion E. cbn. f_equal. apply IH. reflexivity.
Qed.
Lemma labels_nonempty : forall puny d l, labels puny d = Some l -> l <> [].
Proof.
  intros puny d l. unfold labels, split_domain. destruct (split_labels puny false (split_on 46 d)) as [r|] eqn:E; [|discriminate]. apply split_labels_len in E. intros X. inversion X; subst. pose proof (split_nonempty 46 d).
  intros Y. apply (f_equal (@length str)) in Y. rewrite rev_length in Y. destruct (split_on 46 d); [congruence|cbn in *; lia].
Qed.
Lemma host_nonempty : forall puny u h, host_of puny u = Some h -> h <> [].
Proof. intros puny u h. unfold host_of. destruct (u_host u) as [x|]; [apply labels_nonempty|discriminate]. Qed.
Lemma target_nonempty : forall puny u c d h, target puny u c = Some (d, h) -> d <> [].
Proof.
  intros puny u c d h. unfold target. destruct (c_http_only c && negb (is_http (u_kind u))); [discriminate|]. destruct (host_of puny u) as [h'|] eqn:H; [|discriminate].
  destruct (c_domain c) as [x|].
  - destruct (labels puny x) as [l|] eqn:L; [|discriminate]. destruct (in_domain_dec h' l); [|discriminate]. intros E. inversion E; subst. eapply labels_nonempty, L.
  - intros E. inversion E; subst. eapply host_nonempty, H.
Qed.
Lemma jar_step_ext : forall puny pub o j j' d k, (forall d k, d <> [] -> j d k = j' d k) -> d <> [] -> jar_step puny pub o j d k = jar_step puny pub o j' d k.
Proof.
  intros puny pub o j j' d k H Nd. destruct o as [now u c|now u|now|now|d0|d0|l t]; cbn [jar_step]; auto.
  - destruct (target puny u c) as [[dom host]|] eqn:E; [|auto]. destruct (pub dom && negb (if dom_dec dom host then true else false)); [auto|]. destruct (dom_dec d dom) as [->|]; [|auto]. rewrite !H by exact Nd.
    destruct (key_dec k _); [|auto]. reflexivity.
  - destruct (host_of puny u) as [host|]; [|auto]. rewrite H by exact Nd. reflexivity.
  - rewrite H by exact Nd. reflexivity.
  - rewrite H by exact Nd. reflexivity.
Qed.
Lemma run_jar : forall puny ops s j, okt s -> Forall op_ok ops -> (forall d k, d <> [] -> jar_of s d k = j d k) ->
  okt (run puny ops s) /\ forall d k, d <> [] -> jar_of (run puny ops s) d k = jar_run puny ops s j d k.
Proof.
  intros puny ops. induction ops as [|o ops IH]; intros s j T F H; [split; assumption|]. inversion F as [|? ? F1 F2]; subst. cbn [run fold_left jar_run]. destruct (step_jar puny o s T F1) as [A B].
  apply IH; [exact A|exact F2|]. intros d k Nd. rewrite B by exact Nd. apply jar_step_ext; assumption.
Qed.
