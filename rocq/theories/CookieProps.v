(** C48 - C52: the cookie store. *)
From Coq Require Import Permutation Sorted.
From Verif Require Import Py UriModel UriRel Dict CookieModel CookieSpec CookieProofs CookieSearch CookieSuffix CookieHist CookieDepth CookieNostar.

(** ** C48: where a cookie that is sent comes from *)
Theorem c48_isolation : forall puny ops now u l c, Forall op_ok ops ->
  snd (search puny now (run puny ops new_store) u) = Ok l -> In c l ->
  exists pre now0 u0 c0 post host0 host,
    (* it was given to set_cookie, which accepted it *)
    ops = pre ++ OSet now0 u0 c0 :: post /\ snd (set_cookie puny now0 (run puny pre new_store) u0 c0) = Ok tt /\
    c_name c = c_name c0 /\ c_value c = c_value c0 /\ c_secure c = c_secure c0 /\ c_http_only c = c_http_only c0 /\ c_expires c = c_expires c0 /\
    (* from the host of u0; it goes to the host of u *)
    host_of puny u0 = Some host0 /\ host_of puny u = Some host /\
    match c_domain c with
    | None => host = host0
    | Some t => c_domain c0 = Some t /\ exists d, labels puny t = Some d /\ in_domain host0 d /\ in_domain host d /\
        public_of (run puny pre new_store) d = false /\
        (Forall depth_op pre -> Forall rule_ok (flat_map (op_rules puny) pre) -> test_public_domain puny (run puny pre new_store) t = Ok false)
    end /\
    (* the paths, the flags and the time *)
    (exists p cp, u_path u = Some p /\ c_path c = Some cp /\ cp = match c_path c0 with Some q => q | None => directory u0 end /\ path_match p cp) /\
    (c_secure c0 = true -> u_kind u = Https) /\
    (c_http_only c0 = true -> u_kind u <> Other /\ u_kind u0 <> Other) /\
    match c_expires c0 with Some t => now <= t | None => True end.
Proof.
  intros puny ops now u l c F S I.
  assert (H : exists host, host_of puny u = Some host).
  { pose proof (host_labels_spec puny u) as H. unfold search in S. destruct (host_labels puny u) as [h|e]; [eauto|discriminate]. }
  destruct H as [host H]. destruct (search_hist puny ops now u host F H) as (e & l' & s' & E & P & _ & _ & K). rewrite E in S. cbn [snd] in S. injection S as <-.
  apply (Permutation_in _ P) in I. apply in_map_iff in I as (((d & k) & c1) & X & I). cbn [snd] in X. subst c1. apply (K d k c) in I. destruct I as [J SN]. destruct SN as (S1 & S2 & S3 & S4 & S5 & S6).
  destruct (provenance puny ops d k c J) as (pre & now0 & u0 & c0 & post & host0 & E1 & A & T & Q & z & C). pose proof (target_in _ _ _ _ _ T) as TI. destruct TI as [D0 H0].
  exists pre, now0, u0, c0, post, host0, host. repeat (split; [first [exact E1|exact A|exact H0|exact H|subst c; reflexivity]|]). split; [|split; [|split; [|split]]].
  - subst c. cbn [stored with_created c_domain] in *. destruct (public_of (run puny pre new_store) d) eqn:PU.
    + destruct Q as [Q|Q]; [|discriminate]. subst d. symmetry. apply S3. reflexivity.
    + unfold target in T. destruct (c_http_only c0 && negb (is_http (u_kind u0))); [discriminate|]. rewrite H0 in T. destruct (c_domain c0) as [t|].
      * split; [reflexivity|]. destruct (labels puny t) as [d1|] eqn:L; [|discriminate]. destruct (in_domain_dec host0 d1); [|discriminate]. injection T as ->. exists d. split; [reflexivity|]. split; [exact D0|]. split; [exact S2|]. split; [exact PU|].
        intros DO RO. unfold labels in L. unfold test_public_domain. destruct (split_domain puny t false) as [x|]; [|discriminate]. injection L as L. cbn [rbind]. rewrite L. f_equal. rewrite <- PU. symmetry. apply public_test; [apply depth_run; [exact DO|exact depth_new]|apply nostar_run; [exact RO|exact nostar_new]].
      * injection T as T. subst d. symmetry. apply S3. reflexivity.
  - destruct S4 as (p & cp & U & CP & PM). exists p, cp. split; [exact U|]. split; [exact CP|]. split; [subst c; cbn in CP; congruence|exact PM].
  - subst c. exact S5.
  - intros HO. split; [apply S6; subst c; exact HO|]. unfold target in T. rewrite HO in T. destruct (u_kind u0); cbn in T; [| |discriminate]; discriminate.
  - subst c. unfold over in S1. cbn in S1. destruct (c_expires c0); [|exact I]. b2p. lia.
Qed.

(** the labels that a domain name may have: 1 to 63 letters, digits and hyphens, no hyphen at either end *)
Definition ldh_char (c : Z) : Prop := 65 <= c <= 90 \/ 97 <= c <= 122 \/ 48 <= c <= 57 \/ c = 45.
Definition ldh (x : str) : Prop := (1 <= length x <= 63)%nat /\ Forall ldh_char x /\ hd 45 x <> 45 /\ last x 45 <> 45.
Theorem c48_labels : forall x, is_ldh_label x = true <-> ldh x.
Proof.
  assert (CH : forall c, is_alpha c || is_digit c || (c =? 45) = true <-> ldh_char c).
  { intros c. unfold is_alpha, is_upalpha, is_lowalpha, is_digit, between, ldh_char. rewrite !orb_true_iff, !andb_true_iff, !Z.leb_le, Z.eqb_eq. tauto. }
  assert (L : forall x b, ldh_loop true b x = true <-> Forall ldh_char x /\ match x with [] => b = false | _ => last x 45 <> 45 end).
  { induction x as [|c x IH]; intros b; [cbn; rewrite negb_true_iff; split; [intros H; split; [constructor|exact H]|tauto]|]. cbn [ldh_loop]. rewrite andb_true_l. destruct (is_alpha c || is_digit c || (c =? 45)) eqn:E.
    - apply CH in E. rewrite IH. split.
      + intros [F H]. split; [constructor; assumption|]. destruct x as [|y x]; [|exact H]. cbn. apply Z.eqb_neq. exact H.
      + intros [F H]. inversion F; subst. split; [assumption|]. destruct x as [|y x]; [|exact H]. cbn in H. apply Z.eqb_neq. exact H.
    - split; [discriminate|]. intros [F _]. inversion F as [|? ? F1 F2]; subst. apply CH in F1. congruence. }
  intros [|c x]; [split; [discriminate|intros [H _]; cbn in H; lia]|]. unfold is_ldh_label, ldh. destruct (Z.ltb_spec 63 (zlen (c :: x))) as [G|G]; unfold zlen in G.
  - split; [discriminate|]. intros [H _]. lia.
  - cbn [ldh_loop andb orb]. rewrite orb_false_r. destruct (is_alpha c || is_digit c) eqn:E.
    + assert (N : c <> 45) by (intros ->; discriminate). assert (C1 : ldh_char c) by (apply CH; rewrite E; reflexivity). rewrite L. split.
      * intros [F H]. split; [cbn [length] in *; lia|]. split; [constructor; assumption|]. split; [exact N|]. destruct x as [|y x]; [exact N|exact H].
      * intros (_ & F & _ & H). inversion F; subst. split; [assumption|]. destruct x as [|y x]; [apply Z.eqb_neq; exact N|exact H].
    + split; [discriminate|]. intros (_ & F & N & _). inversion F as [|? ? F1 F2]; subst. apply CH in F1. rewrite E in F1. cbn in *. b2p. congruence.
Qed.

(** ** C49: the store is a jar, and search finds exactly the cookies to send *)
Theorem c49_search : forall puny ops now u host, Forall op_ok ops -> host_of puny u = Some host ->
  exists l e, snd (search puny now (run puny ops new_store) u) = Ok l /\ Permutation l (map snd e) /\ NoDup (map fst e) /\
  forall d k c, In ((d, k), c) e <-> jar_run puny ops new_store empty_jar d k = Some c /\ sent now u host d c.
Proof.
  intros puny ops now u host F H. destruct (search_hist puny ops now u host F H) as (e & l & s' & E & P & ND & _ & K). exists l, e. rewrite E. auto.
Qed.
(** after end_session, and before the next set_cookie, only persistent cookies are sent *)
Theorem c49_end_session : forall puny ops now0 more now u l c, Forall op_ok ops -> Forall (fun o => match o with OSet _ _ _ => False | _ => True end) more ->
  snd (search puny now (run puny (ops ++ OEndSession now0 :: more) new_store) u) = Ok l -> In c l -> exists t, c_expires c = Some t /\ now0 <= t.
Proof.
  intros puny ops now0 more now u l c F M S I.
  assert (F' : Forall op_ok (ops ++ OEndSession now0 :: more)).
  { apply Forall_app. split; [exact F|]. constructor; [exact Logic.I|]. eapply Forall_impl; [|exact M]. intros []; cbn; tauto. }
  assert (H : exists host, host_of puny u = Some host).
  { pose proof (host_labels_spec puny u) as H. unfold search in S. destruct (host_labels puny u) as [h|e]; [eauto|discriminate]. }
  destruct H as [host H]. destruct (search_hist puny _ now u host F' H) as (e & l' & s' & E & P & _ & _ & K). rewrite E in S. cbn [snd] in S. injection S as <-.
  apply (Permutation_in _ P) in I. apply in_map_iff in I as (((d & k) & c1) & X & I). cbn [snd] in X. subst c1. apply K in I as [J _]. clear - J M.
  revert d k c J. induction more as [|o more IH] using rev_ind; intros d k c J.
  - rewrite jar_run_app in J. cbn [jar_run jar_step] in J. unfold drop in J. destruct (jar_run puny ops new_store empty_jar d k) as [c1|]; [|discriminate]. destruct (over c1 now0 || negb (lasting c1)) eqn:B; [discriminate|]. injection J as <-.
    apply orb_false_iff in B as [B1 B2]. unfold over, lasting in *. destruct (c_expires c1) as [t|]; [|discriminate]. exists t. b2p. split; [reflexivity|lia].
  - apply Forall_app in M as [M1 M2]. inversion M2 as [|? ? M3 _]; subst. specialize (IH M1). rewrite app_comm_cons, app_assoc, jar_run_app in J. cbn [jar_run] in J.
    assert (DROP : forall f o, drop f o = Some c -> o = Some c) by (intros f [c1|]; cbn; [destruct (f c1); [discriminate|auto]|discriminate]).
    destruct o as [? ? ?|nw v|nw|nw|x|x|y z]; cbn [jar_step] in J; try contradiction; try (eapply IH; exact J); try (eapply IH, DROP; exact J).
    destruct (host_of puny v); [|eapply IH; exact J]. destruct (in_domain_dec d0 d); [eapply IH, DROP; exact J|eapply IH; exact J].
Qed.

(** ** C50: the order of the cookies *)
Theorem c50_order : forall puny ops now u l, Forall op_ok ops -> snd (search puny now (run puny ops new_store) u) = Ok l -> StronglySorted in_order l.
Proof.
  intros puny ops now u l F S.
  assert (H : exists host, host_of puny u = Some host).
  { pose proof (host_labels_spec puny u) as H. unfold search in S. destruct (host_labels puny u) as [h|e]; [eauto|discriminate]. }
  destruct H as [host H]. destruct (search_hist puny ops now u host F H) as (e & l' & s' & E & _ & _ & SS & _). rewrite E in S. cbn [snd] in S. injection S as <-. exact SS.
Qed.
(** a cookie that replaces another keeps its place: the creation time is that of the one it replaces *)
Theorem c50_replace : forall puny ops now u c dom host, Forall op_ok ops -> good_path c ->
  let s := run puny ops new_store in let k := key_of (stored false u c) in
  target puny u c = Some (dom, host) -> snd (set_cookie puny now s u c) = Ok tt -> over c now = false ->
  exists c', jar_of (fst (set_cookie puny now s u c)) dom k = Some c' /\ c_name c' = c_name c /\ c_value c' = c_value c /\ c_expires c' = c_expires c /\
    c_created c' = match jar_of s dom k with Some old => c_created old | None => c_created c end.
Proof.
  intros puny ops now u c dom host F G s k T A X. apply accept_spec in A as (d & h & E & A). rewrite T in E. injection E as <- <-.
  destruct (run_jar puny ops new_store empty_jar okt_new F) as [TT _]; [intros [|y w] kk NN; [congruence|reflexivity]|]. fold s in TT.
  destruct (set_jar puny now s u c TT G) as [_ J]. rewrite J. cbn [jar_step]. rewrite T.
  assert (AA : public_of s dom && negb (if dom_dec dom host then true else false) = false).
  { destruct A as [->|Y]; [destruct (dom_dec host host); [apply andb_false_r|congruence]|rewrite Y; reflexivity]. }
  rewrite AA. destruct (dom_dec dom dom) as [_|]; [|congruence]. pose proof (eq_refl : key_of (stored (public_of s dom) u c) = k) as KS. rewrite KS. destruct (key_dec k k) as [_|]; [|congruence].
  assert (EX : over (stored (public_of s dom) u c) now = over c now) by reflexivity. rewrite EX, X. eexists. split; [reflexivity|]. repeat (split; [reflexivity|]). reflexivity.
Qed.

(** ** C51: public suffixes *)
Theorem c51_public_partial : forall puny lines t ops d l, 0 <= t -> Forall nonlist ops ->
  let R := flat_map (op_rules puny) (OList lines t :: ops) in
  Forall rule_ok R -> labels puny d = Some l ->
  exists b, test_public_domain puny (run puny (OList lines t :: ops) new_store) d = Ok b /\
    (b = true -> ~ exception R l /\ (listed R t l \/ above R l)) /\
    (~ exception R l -> listed R t l -> b = true).
Proof.
  intros puny lines t ops d l T N R F L. pose proof (history_inv puny lines t ops T N F) as V. fold R in V.
  exists (test_public (run puny (OList lines t :: ops) new_store) l). pose proof (labels_nonempty _ _ _ L) as Nl. pose proof (labels_nostar _ _ _ L) as NS. split.
  - unfold test_public_domain. unfold labels in L. destruct (split_domain puny d false) as [x|]; [|discriminate]. injection L as L. cbn [rbind]. rewrite L. reflexivity.
  - destruct (test_inv t l R _ [] _ V Nl NS) as [A B]. cbn [app] in *. split; [|exact B]. intros H. destruct (A H) as [A1 A2]. split; [exact A1|]. destruct A2 as [A2|[r A2]]; [left; exact A2|].
    destruct r as [|x r]; [left; right; left; rewrite app_nil_r in A2; exact A2|]. right. exists (x :: r). split; [discriminate|exact A2].
Qed.
(** set_cookie asks the same question as test_public_domain *)
Theorem c51_accept : forall puny ops now u c t, Forall depth_op ops -> Forall rule_ok (flat_map (op_rules puny) ops) -> c_domain c = Some t ->
  let s := run puny ops new_store in
  (snd (set_cookie puny now s u c) = Ok tt <->
   (c_http_only c = true -> u_kind u <> Other) /\
   exists dom host, labels puny t = Some dom /\ host_of puny u = Some host /\ in_domain host dom /\ (dom = host \/ test_public_domain puny s t = Ok false)).
Proof.
  intros puny ops now u c t DO RO CD s. rewrite accept_spec.
  assert (PT : forall dom, labels puny t = Some dom -> (test_public_domain puny s t = Ok false <-> public_of s dom = false)).
  { intros dom L. unfold labels in L. unfold test_public_domain. destruct (split_domain puny t false) as [x|]; [|discriminate]. injection L as L. cbn [rbind]. rewrite L.
    rewrite <- (public_test dom s) by (first [apply depth_run; [exact DO|exact depth_new]|apply nostar_run; [exact RO|exact nostar_new]]). split; congruence. }
  unfold target. rewrite CD. split.
  - intros (dom & host & T & Q). destruct (c_http_only c && negb (is_http (u_kind u))) eqn:HO; [discriminate|]. split.
    + intros X. rewrite X in HO. destruct (u_kind u); [discriminate|discriminate|discriminate HO].
    + destruct (host_of puny u) as [h|]; [|discriminate]. destruct (labels puny t) as [l|] eqn:L; [|discriminate]. destruct (in_domain_dec h l) as [I|]; [|discriminate]. injection T as <- <-. exists l, h. split; [reflexivity|]. split; [reflexivity|]. split; [exact I|]. destruct Q as [Q|Q]; [left; exact Q|right; apply (PT l eq_refl); exact Q].
  - intros (HO & dom & host & L & H & I & Q). rewrite L, H. destruct (in_domain_dec host dom) as [_|]; [|contradiction]. exists dom, host. split.
    + destruct (c_http_only c); [|reflexivity]. specialize (HO eq_refl). destruct (u_kind u); [reflexivity|reflexivity|congruence].
    + destruct Q as [Q|Q]; [left; exact Q|right; apply (PT dom L); exact Q].
Qed.
Theorem c51_accept_host : forall puny ops now u c, c_domain c = None ->
  (snd (set_cookie puny now (run puny ops new_store) u c) = Ok tt <-> (c_http_only c = true -> u_kind u <> Other) /\ host_of puny u <> None).
Proof.
  intros puny ops now u c CD. rewrite accept_spec. unfold target. rewrite CD. split.
  - intros (dom & host & T & Q). destruct (c_http_only c && negb (is_http (u_kind u))) eqn:HO; [discriminate|]. split; [|destruct (host_of puny u); [discriminate|discriminate]]. intros X. rewrite X in HO. destruct (u_kind u); [discriminate|discriminate|discriminate HO].
  - intros (HO & H). destruct (host_of puny u) as [h|]; [|congruence]. exists h, h. split; [|left; reflexivity]. destruct (c_http_only c); [|reflexivity]. specialize (HO eq_refl). destruct (u_kind u); [reflexivity|reflexivity|congruence].
Qed.
(** no cookie for a listed suffix, from below it *)
Theorem c51_supercookie : forall puny lines t ops now u c d dom host, 0 <= t -> Forall nonlist ops ->
  let R := flat_map (op_rules puny) (OList lines t :: ops) in let s := run puny (OList lines t :: ops) new_store in
  Forall rule_ok R -> c_domain c = Some d -> labels puny d = Some dom -> host_of puny u = Some host -> host <> dom ->
  listed R t dom -> ~ exception R dom ->
  snd (set_cookie puny now s u c) <> Ok tt /\ forall x k, Forall op_ok ops -> good_path c -> x <> [] -> jar_of (fst (set_cookie puny now s u c)) x k = jar_of s x k.
Proof.
  intros puny lines t ops now u c d dom host T N R s F CD L H ND LI NE.
  destruct (c51_public_partial puny lines t ops d dom T N F L) as (b & TB & _ & B). specialize (B NE LI). subst b.
  assert (DO : Forall depth_op (OList lines t :: ops)) by (constructor; [exact T|]; eapply Forall_impl; [|exact N]; intros []; cbn; tauto).
  assert (A : snd (set_cookie puny now s u c) <> Ok tt).
  { intros A. apply (c51_accept puny (OList lines t :: ops) now u c d DO F CD) in A as (_ & dom1 & host1 & L1 & H1 & _ & Q). rewrite L in L1. injection L1 as <-. rewrite H in H1. injection H1 as <-. destruct Q as [Q|Q]; [congruence|]. congruence. }
  split; [exact A|]. intros x k OK G Nx.
  assert (OK' : Forall op_ok (OList lines t :: ops)) by (constructor; [exact Logic.I|exact OK]).
  destruct (run_jar puny (OList lines t :: ops) new_store empty_jar okt_new OK') as [TT _]; [intros [|y w] kk NN; [congruence|reflexivity]|]. fold s in TT.
  destruct (set_jar puny now s u c TT G) as [_ J]. rewrite J. cbn [jar_step]. destruct (target puny u c) as [[d1 h1]|] eqn:TG; [|reflexivity].
  destruct (public_of s d1 && negb (if dom_dec d1 h1 then true else false)) eqn:P; [reflexivity|]. exfalso. apply A. apply accept_spec. exists d1, h1. split; [exact TG|]. destruct (dom_dec d1 h1); [left; assumption|]. right. rewrite andb_true_r in P. exact P.
Qed.

(** ** C52: the registered domain *)
Definition text (d : domain) : str := join_on 46 (rev d).
Lemma lower_idem : forall s, lower (lower s) = lower s.
Proof. intros s. unfold lower. rewrite map_map. apply map_ext. intros c. unfold lower1. destruct ((65 <=? c) && (c <=? 90)) eqn:E; [|rewrite E; reflexivity]. destruct ((65 <=? c + 32) && (c + 32 <=? 90)) eqn:E2; [|reflexivity]. b2p. lia. Qed.
Lemma ldh_lower : forall x, is_ldh_label (lower x) = is_ldh_label x.
Proof.
  assert (L : forall x a b, ldh_loop a b (lower x) = ldh_loop a b x).
  { induction x as [|c x IH]; intros a b; [reflexivity|]. unfold lower in *. cbn [map ldh_loop].
    assert (E1 : (lower1 c =? 45) = (c =? 45)) by (unfold lower1; destruct ((65 <=? c) && (c <=? 90)) eqn:E; [|reflexivity]; b2p; destruct (Z.eqb_spec (c + 32) 45), (Z.eqb_spec c 45); lia).
    assert (E2 : is_alpha (lower1 c) || is_digit (lower1 c) = is_alpha c || is_digit c).
    { unfold lower1. destruct ((65 <=? c) && (c <=? 90)) eqn:E; [|reflexivity]. b2p. unfold is_alpha, is_upalpha, is_lowalpha, is_digit, between.
      replace ((97 <=? c + 32) && (c + 32 <=? 122)) with true by (symmetry; apply andb_true_intro; split; apply Z.leb_le; lia). replace ((65 <=? c) && (c <=? 90)) with true by (symmetry; apply andb_true_intro; split; apply Z.leb_le; lia). rewrite orb_true_r. reflexivity. }
    rewrite E1, E2. rewrite IH. reflexivity. }
  intros [|c x]; [reflexivity|]. change (lower (c :: x)) with (lower1 c :: lower x). unfold is_ldh_label. change (lower1 c :: lower x) with (lower (c :: x)). rewrite L. unfold zlen, lower. rewrite map_length. reflexivity.
Qed.
Definition good_label (x : str) : Prop := is_ldh_label x = true /\ lower x = x.
Lemma ldh_nodot : forall x, is_ldh_label x = true -> ~ In 46 x.
Proof.
  assert (L : forall x a b, ldh_loop a b x = true -> ~ In 46 x).
  { induction x as [|c x IH]; intros a b H; [intros []|]. cbn [ldh_loop] in H. destruct (is_alpha c || is_digit c || (a && (c =? 45))) eqn:E; [|discriminate]. intros [->|X]; [|exact (IH _ _ H X)]. destruct a; discriminate. }
  intros [|c x] H; [discriminate|]. unfold is_ldh_label in H. destruct (63 <? zlen (c :: x)); [discriminate|]. exact (L _ _ _ H).
Qed.
Lemma labels_good : forall puny d l, labels puny d = Some l -> Forall good_label l.
Proof.
  intros puny d l. unfold labels, split_domain. destruct (split_labels puny false (split_on 46 d)) as [r|] eqn:E; [|discriminate]. intros X. injection X as <-. apply Forall_rev. revert r E. generalize (split_on 46 d) as w.
  induction w as [|x w IH]; intros r E; [injection E as <-; constructor|]. cbn [split_labels andb] in E. destruct (is_ldh_label x) eqn:A; [|destruct (puny x) as [y|]; [|discriminate]; destruct (is_ldh_label y) eqn:B; [|discriminate]];
  cbn [rbind] in E; destruct (split_labels puny false w) as [b|]; try discriminate; cbn [rbind] in E; injection E as <-; constructor; auto; split; rewrite ?ldh_lower, ?lower_idem; auto.
Qed.
Lemma labels_text : forall puny l, l <> [] -> Forall good_label l -> labels puny (text l) = Some l.
Proof.
  intros puny l N F. unfold labels, split_domain, text. rewrite split_join.
  - assert (K : forall w, Forall good_label w -> split_labels puny false w = Ok w).
    { induction w as [|x w IH]; intros G; [reflexivity|]. inversion G as [|? ? [G1 G2] G3]; subst. cbn [split_labels]. rewrite G1. cbn [rbind]. rewrite (IH G3). cbn [rbind]. rewrite G2. reflexivity. }
    rewrite K by (apply Forall_rev; exact F). rewrite rev_involutive. reflexivity.
  - intros X. apply N. rewrite <- (rev_involutive l), X. reflexivity.
  - apply Forall_rev. eapply Forall_impl; [|exact F]. intros x [G _]. apply ldh_nodot. exact G.
Qed.
Theorem c52_registered : forall puny ops d l, Forall depth_op ops -> labels puny d = Some l ->
  let s := run puny ops new_store in
  match get_registered_domain puny s d with
  | Ok (Some r) => exists m, (exists more, l = m ++ more) /\ m <> [] /\ r = text m /\ test_public_domain puny s r = Ok false /\
      forall p q, p <> [] -> q <> [] -> m = p ++ q -> test_public_domain puny s (text p) = Ok true
  | Ok None => forall p q, p <> [] -> l = p ++ q -> test_public_domain puny s (text p) = Ok true
  | Err _ => False
  end.
Proof.
  intros puny ops d l DO L s. pose proof (labels_nonempty _ _ _ L) as Nl. pose proof (labels_good _ _ _ L) as G.
  pose proof (registered_spec l s (depth_run puny ops new_store DO depth_new) Nl) as R.
  assert (TT : forall p, p <> [] -> Forall good_label p -> test_public_domain puny s (text p) = Ok (test_public s p)).
  { intros p Np Gp. pose proof (labels_text puny p Np Gp) as X. unfold labels in X. unfold test_public_domain. destruct (split_domain puny (text p) false) as [y|]; [|discriminate]. injection X as X. cbn [rbind]. rewrite X. reflexivity. }
  unfold get_registered_domain. unfold labels in L. destruct (split_domain puny d false) as [y|]; [|discriminate]. injection L as L. cbn [rbind]. rewrite L. destruct (registered s l) as [m|].
  - destruct R as ([more E] & Nm & T & H). assert (Gm : Forall good_label m) by (rewrite E in G; apply Forall_app in G; apply G). exists m. split; [eauto|]. split; [exact Nm|]. split; [reflexivity|]. fold (text m). split; [rewrite TT, T by assumption; reflexivity|].
    intros p q Np Nq X. rewrite TT, (H p q Np Nq X); [reflexivity|exact Np|]. rewrite X in Gm. apply Forall_app in Gm. apply Gm.
  - intros p q Np X. rewrite TT, (R p q Np X); [reflexivity|exact Np|]. rewrite X in G. apply Forall_app in G. apply G.
Qed.

(** ** Cases that meet the hypotheses, and claims that are false *)
Definition nopuny : str -> option str := fun _ => None.
Definition U (k : kind) (h p : string) : url := mkurl k (Some (lit h)) (Some (lit p)).
Definition K (nm v : string) (p d : option str) (cr : Z) (ex : option Z) : cookie := mkcookie (lit nm) (lit v) p d false false cr ex.
Definition psl : list str := [lit "// a comment"; lit "com"; lit "*.uk"; lit "!metro.uk"; lit "b.c.jp and more"; []].
Definition hist : list op :=
  [OList psl 1;
   OSet 10 (U Http "www.example.com" "/a/b/c") (K "x" "1" None (Some (lit "example.com")) 10 (Some 100));
   OSet 11 (U Https "www.example.com" "/") (K "y" "2" None None 11 None);
   OSet 12 (U Http "www.example.com" "/a/b/z") (K "x" "3" None (Some (lit "EXAMPLE.com")) 12 (Some 90));
   OSet 13 (U Http "www.example.com" "/") (K "z" "4" (Some (lit "/")) (Some (lit "com")) 13 None)].
Example c48_case : Forall op_ok hist /\ Forall depth_op hist /\ Forall rule_ok (flat_map (op_rules nopuny) hist) /\
  host_of nopuny (U Http "ftp.example.com" "/a/b/") = Some [lit "com"; lit "example"; lit "ftp"].
Proof.
  split; [repeat constructor; discriminate|]. split; [repeat constructor; discriminate|]. split; [|vm_compute; reflexivity].
  vm_compute flat_map. repeat constructor; vm_compute; intros H; repeat (destruct H as [H|H]; [discriminate|]); exact H.
Qed.
Definition shown (r : res (list cookie)) : res (list (str * str * Z)) := match r with Ok l => Ok (map (fun c => (c_name c, c_value c, c_created c)) l) | Err e => Err e end.
Example c49_case :
  shown (snd (search nopuny 50 (run nopuny hist new_store) (U Http "ftp.example.com" "/a/b/d"))) = Ok [(lit "x", lit "3", 10)] /\
  shown (snd (search nopuny 50 (run nopuny hist new_store) (U Http "www.example.com" "/a/b/d"))) = Ok [(lit "x", lit "3", 10); (lit "y", lit "2", 11)] /\
  shown (snd (search nopuny 95 (run nopuny hist new_store) (U Http "www.example.com" "/a/b/d"))) = Ok [(lit "y", lit "2", 11)] /\
  shown (snd (search nopuny 50 (run nopuny hist new_store) (U Http "example.com" "/a"))) = Ok [] /\
  shown (snd (search nopuny 50 (run nopuny hist new_store) (U Http "other.com" "/a/b/d"))) = Ok [].
Proof. vm_compute. repeat split; reflexivity. Qed.
Example c51_case : let s := run nopuny hist new_store in
  map (fun d => test_public_domain nopuny s (lit d)) ["com"; "example.com"; "uk"; "co.uk"; "metro.uk"; "x.co.uk"; "b.c.jp"; "a.b.c.jp"; "org"]%string =
  map Ok [true; false; true; true; false; false; true; false; true] /\
  snd (set_cookie nopuny 13 s (U Http "www.example.com" "/") (K "z" "4" (Some (lit "/")) (Some (lit "com")) 13 None)) = Err CookieError.
Proof. vm_compute. split; reflexivity. Qed.
Example c52_case : let s := run nopuny hist new_store in
  map (fun d => get_registered_domain nopuny s (lit d)) ["www.example.com"; "a.b.co.uk"; "a.metro.uk"; "co.uk"; "x.y.z.org"]%string =
  [Ok (Some (lit "example.com")); Ok (Some (lit "b.co.uk")); Ok (Some (lit "metro.uk")); Ok None; Ok (Some (lit "z.org"))].
Proof. vm_compute. reflexivity. Qed.

(** RFC 6265 5.1.4: a cookie with the path "/a" is to be sent to a URL whose path is "/a" *)
Theorem c49_path_refuted : exists ops u c, Forall op_ok ops /\ ops = [OSet 0 u c] /\ c_path c = u_path u /\
  snd (set_cookie nopuny 0 new_store u c) = Ok tt /\ snd (search nopuny 0 (run nopuny ops new_store) u) = Ok [].
Proof. exists [OSet 0 (U Http "h.com" "/a") (K "x" "1" (Some (lit "/a")) None 0 None)], (U Http "h.com" "/a"), (K "x" "1" (Some (lit "/a")) None 0 None). split; [repeat constructor; discriminate|]. vm_compute. repeat split; reflexivity. Qed.
(** a cookie with an empty path stops every later search of its host *)
Theorem c49_empty_path_refuted : exists u c, c_path c = Some [] /\ snd (set_cookie nopuny 0 new_store u c) = Ok tt /\
  snd (search nopuny 0 (run nopuny [OSet 0 u c] new_store) (U Http "h.com" "/x")) = Err IndexError.
Proof. exists (U Http "h.com" "/"), (K "x" "1" (Some []) None 0 None). vm_compute. repeat split; reflexivity. Qed.
(** a host that is not a domain name: the code meant for IP addresses fails *)
Theorem c49_host_refuted : snd (search nopuny 0 new_store (U Http "[::1]" "/")) = Err NameError /\ snd (search nopuny 0 new_store (U Http "example.com." "/")) = Err NameError.
Proof. vm_compute. split; reflexivity. Qed.
(** an IPv4 address is taken for a domain name: a cookie goes from one address to another *)
Theorem c48_address_refuted : exists c, let s := run nopuny [OList [] 1; OSet 0 (U Http "10.0.0.1" "/") c] new_store in
  exists c', snd (search nopuny 0 s (U Http "192.168.0.1" "/")) = Ok [c'] /\ c_value c' = c_value c.
Proof. exists (K "x" "1" (Some (lit "/")) (Some (lit "0.1")) 0 None). eexists. vm_compute. split; reflexivity. Qed.
(** the domains above a rule of three labels become public, though no rule says so *)
Theorem c51_above_refuted : exists lines, let s := run nopuny [OList lines 1] new_store in
  rules_of_list nopuny lines = [(true, [lit "jp"; lit "c"; lit "b"])] /\
  test_public_domain nopuny s (lit "c.jp") = Ok true /\ snd (set_cookie nopuny 0 s (U Http "www.c.jp" "/") (K "x" "1" None (Some (lit "c.jp")) 0 None)) = Err CookieError.
Proof. exists [lit "b.c.jp"]. vm_compute. repeat split; reflexivity. Qed.
(** set_public_list does not change what is known about the nodes that there are: here a cookie was set before *)
Theorem c51_late_list_refuted : exists c, let s := run nopuny [OSet 0 (U Http "www.example.com" "/") c; OList [lit "com"] 1] new_store in
  test_public_domain nopuny s (lit "example.com") = Ok true /\ test_public_domain nopuny (run nopuny [OList [lit "com"] 1] new_store) (lit "example.com") = Ok false.
Proof. exists (K "x" "1" None None 0 None). vm_compute. split; reflexivity. Qed.
(** with a wild card that is not the first label, test_public_domain and set_cookie do not agree *)
Theorem c51_inner_wildcard_refuted : let s := run nopuny [OList [lit "a.*.jp"] 1] new_store in
  test_public_domain nopuny s (lit "a.x.jp") = Ok false /\
  snd (set_cookie nopuny 0 s (U Http "www.a.x.jp" "/") (K "x" "1" None (Some (lit "a.x.jp")) 0 None)) = Err CookieError.
Proof. vm_compute. split; reflexivity. Qed.
(** a line of white space ends the list with an exception *)
Theorem c51_blank_line_refuted : snd (set_public_list nopuny new_store [lit "com"; lit " "; lit "uk"] 1) = Err IndexError.
Proof. vm_compute. reflexivity. Qed.

Print Assumptions c48_isolation.
Print Assumptions c48_labels.
Print Assumptions c49_search.
Print Assumptions c49_end_session.
Print Assumptions c50_order.
Print Assumptions c50_replace.
Print Assumptions c51_public_partial.
Print Assumptions c51_accept.
Print Assumptions c51_accept_host.
Print Assumptions c51_supercookie.
Print Assumptions c52_registered.
