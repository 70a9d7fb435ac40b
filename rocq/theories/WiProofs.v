From Verif Require Import Py HttpModel HttpParamModel PagingModel MsgModel WiModel WiSpec.

Lemma zlen_len : forall s : str, zlen s = len s. Proof. reflexivity. Qed.
Lemma len_app : forall a b, len (a ++ b) = len a + len b.
Proof. intros. unfold len. rewrite app_length. lia. Qed.
Lemma len_nn : forall a, 0 <= len a. Proof. intros. unfold len. lia. Qed.
Lemma len_0 : forall a, len a = 0 -> a = [].
Proof. intros [|c a]; [reflexivity|]. unfold len. cbn [length]. lia. Qed.
Lemma from_app : forall a b, from (len a) (a ++ b) = b.
Proof. intros. unfold from, len. rewrite Nat2Z.id, skipn_app, skipn_all, Nat.sub_diag. reflexivity. Qed.
Lemma skipn_two : forall a b (l : str), skipn a (skipn b l) = skipn (a + b) l.
Proof.
  intros a b. revert a. induction b as [|b IH]; intros a l; [rewrite Nat.add_0_r; reflexivity|].
  destruct l as [|y l]; [rewrite !skipn_nil; reflexivity|]. rewrite Nat.add_succ_r. apply IH.
Qed.
Lemma from_plus : forall p d b B, 0 <= p -> from p B = d ++ b -> from (p + len d) B = b.
Proof.
  intros p d b B P H. unfold from in *. rewrite Z2Nat.inj_add by (auto using len_nn). unfold len. rewrite Nat2Z.id.
  rewrite Nat.add_comm, <- skipn_two, H, skipn_app, skipn_all, Nat.sub_diag. reflexivity.
Qed.
Lemma ztake_drop : forall n (s : str), s = ztake n s ++ zdrop n s.
Proof. intros. unfold ztake, zdrop. symmetry. apply firstn_skipn. Qed.
Lemma len_ztake : forall n (s : str), 0 <= n -> len (ztake n s) = Z.min n (len s).
Proof. intros. unfold len, ztake. rewrite firstn_length. lia. Qed.

Section W.
Variable source : Type.
Variable sread : Z -> source -> res (str * source).
Variable R : source -> str -> option Z -> Prop.
Hypothesis stream_ok : input_stream source sread R.
Notation wi := (wi source).
Notation WI := (WI source).
Notation stream := (stream source).
Notation input_length := (input_length source).
Notation pos := (pos source).
Notation buf := (buf source).
Notation bpos := (bpos source).
Notation read_some := (read_some source sread).

Definition cut (L : option Z) (C : str) : str := match L with Some l => ztake l C | None => C end.

Definition Inv (L : option Z) (C : str) (n0 : Z) (w : wi) : Prop :=
  exists x c, C = buf w ++ x ++ c /\ input_length w = L /\ len (buf w) = n0 /\
    match L with Some l => len (buf w ++ x) <= l | None => True end /\
    match stream w with
    | Some s => R s c (option_map (fun l => l - len (buf w ++ x)) L)
    | None => c = [] \/ L = Some (len (buf w ++ x))
    end /\
    ((x = [] /\ bpos w = pos w /\ 0 <= pos w <= n0) \/ (x <> [] /\ pos w = len (buf w ++ x))).

Lemma len_eq : forall a : str, Z.of_nat (length a) = len a. Proof. reflexivity. Qed.
Ltac la := unfold zlen in *; rewrite ?app_nil_r, ?len_eq, ?len_app in *;
  repeat match goal with |- context [len ?a] => lazymatch goal with H : 0 <= len a |- _ => fail | _ => pose proof (len_nn a) end end; try lia.

Lemma cut_le : forall l (a b : str), len a <= l -> ztake l (a ++ b) = a ++ ztake (l - len a) b.
Proof.
  intros l a b H. unfold ztake, len in *. rewrite firstn_app, firstn_all2 by lia. f_equal. f_equal. lia.
Qed.

(** what is left of the file *)
Definition rest (L : option Z) (k : Z) (c : str) : str := match L with Some l => ztake (l - k) c | None => c end.
Lemma cut_rest : forall L a b, match L with Some l => len a <= l | None => True end -> cut L (a ++ b) = a ++ rest L (len a) b.
Proof. intros [l|] a b H; [|reflexivity]. cbn [cut rest]. apply cut_le. exact H. Qed.
Lemma from_zdrop : forall p (a b : str), 0 <= p <= len a -> from p (a ++ b) = zdrop p a ++ b.
Proof.
  intros p a b H. unfold from, zdrop. rewrite skipn_app. f_equal. unfold len in H.
  replace (Z.to_nat p - length a)%nat with 0%nat by lia. reflexivity.
Qed.
Lemma len_zdrop : forall p (a : str), 0 <= p <= len a -> len (zdrop p a) = len a - p.
Proof. intros p a H. unfold len, zdrop in *. rewrite skipn_length. lia. Qed.

(** the heart: one read *)
Lemma read_ok : forall L C n0 w n, Inv L C n0 w -> 0 <= n ->
  exists d b w', read_some n w = Ok (d, w') /\ from (pos w) (cut L C) = d ++ b /\ len d <= n /\
    (d = [] -> n = 0 \/ from (pos w) (cut L C) = []) /\ pos w' = pos w + len d /\ Inv L C n0 w' /\ 0 <= pos w.
Proof using stream_ok.
  intros L C n0 w n (x & c & EC & EL & En & LE & ST & P) N.
  assert (LEb : match L with Some l => len (buf w) <= l | None => True end).
  { destruct L; [|trivial]. rewrite len_app in LE. pose proof (len_nn x). lia. }
  destruct w as [st il p b bp]. cbn [WiModel.stream WiModel.input_length WiModel.pos WiModel.buf WiModel.bpos] in *. subst il n0.
  assert (EB : cut L C = (b ++ x) ++ rest L (len (b ++ x)) c) by (rewrite EC, app_assoc; apply cut_rest; exact LE).
  unfold read_some, buff_size. cbn [WiModel.stream WiModel.input_length WiModel.pos WiModel.buf WiModel.bpos].
  change zlen with len.
  (* the part that comes from the stream *)
  assert (G : forall d0 m, m = n - len d0 -> 0 <= m -> p + len d0 = len (b ++ x) \/ m = 0 -> 0 <= p ->
      from p (cut L C) = d0 ++ from (p + len d0) (cut L C) ->
      ((x = [] /\ bp + len d0 = p + len d0 /\ 0 <= p + len d0 <= len b) \/ (x <> [] /\ p + len d0 = len (b ++ x))) ->
      exists d r w', (match st with
  | Some s =>
      if m =? 0 then Ok (d0, WI st L (p + len d0) b (bp + len d0))
      else
        let! (idata, s') := sread (match L with
                 | Some l => if l <? p + len d0 + m then l - (p + len d0) else m
                 | None => m
                 end) s in
        match idata with
        | [] => Ok (d0, WI None L (p + len d0) b (bp + len d0))
        | _ => Ok (d0 ++ idata, WI (Some s') L (p + len d0 + len idata) b (bp + len d0))
        end
  | None => Ok (d0, WI st L (p + len d0) b (bp + len d0))
  end) = Ok (d, w') /\ from p (cut L C) = d ++ r /\ len d <= n /\
    (d = [] -> n = 0 \/ from p (cut L C) = []) /\ pos w' = p + len d /\ Inv L C (len b) w' /\ 0 <= p).
  { intros d0 m Em M At P0 Fr X. pose proof (len_nn d0) as D0.
    assert (Same : forall st', match st' with
    | Some s => R s c (option_map (fun l => l - len (b ++ x)) L)
    | None => c = [] \/ L = Some (len (b ++ x))
    end -> Inv L C (len b) (WI st' L (p + len d0) b (bp + len d0))).
    { intros st' S'. exists x, c. cbn [WiModel.stream WiModel.input_length WiModel.pos WiModel.buf WiModel.bpos]. repeat split; auto. }
    destruct st as [s|].
    2:{ exists d0, (from (p + len d0) (cut L C)), (WI None L (p + len d0) b (bp + len d0)). repeat split; auto; try lia.
        intros ->. destruct At as [At| ->]; [|left; cbn in *; lia]. right.
        rewrite Fr, At, EB, from_app. cbn [app]. destruct ST as [-> | ->].
        - destruct L; cbn [rest]; [|reflexivity]. unfold ztake. apply firstn_nil.
        - cbn [rest]. rewrite Z.sub_diag. reflexivity. }
    destruct (Z.eqb_spec m 0) as [Z0|NZ].
    { exists d0, (from (p + len d0) (cut L C)), (WI (Some s) L (p + len d0) b (bp + len d0)). repeat split; auto; try lia.
      intros ->. left. cbn in *. lia. }
    destruct At as [At|At]; [|contradiction].
    set (q := match L with Some l => if l <? p + len d0 + m then l - (p + len d0) else m | None => m end).
    assert (Q : 0 <= q <= m /\ within q (option_map (fun l => l - len (b ++ x)) L) /\
        (q = 0 -> L = Some (len (b ++ x)))).
    { subst q. destruct L as [l|]; cbn [option_map within].
      - rewrite At. destruct (Z.ltb_spec l (len (b ++ x) + m)); (split; [lia|]); (split; [lia|]); intros; [f_equal; lia|lia].
      - repeat split; try lia. }
    destruct Q as (Q1 & Q2 & Q3).
    destruct (stream_ok s c _ q ST (proj1 Q1) Q2) as (d & s' & c' & E1 & E2 & E3 & E4 & E5).
    rewrite E1. cbn [rbind].
    assert (FrC : from (p + len d0) (cut L C) = rest L (len (b ++ x)) c) by (rewrite At, EB, from_app; reflexivity).
    destruct d as [|y d].
    - exists d0, (from (p + len d0) (cut L C)), (WI None L (p + len d0) b (bp + len d0)).
      assert (End : c = [] \/ L = Some (len (b ++ x))) by (destruct (E4 eq_refl); auto).
      split; [reflexivity|]. split; [exact Fr|]. split; [lia|]. split; [|split; [reflexivity|split; [apply Same; exact End|exact P0]]].
      intros ->. right. rewrite Fr, FrC. cbn [app]. destruct End as [-> | ->].
      + destruct L; cbn [rest]; [|reflexivity]. unfold ztake. apply firstn_nil.
      + cbn [rest]. rewrite Z.sub_diag. reflexivity.
    - remember (y :: d) as dd. assert (NE : dd <> []) by (subst; discriminate).
      assert (Wd : within (len dd) (option_map (fun l => l - len (b ++ x)) L)).
      { destruct L; cbn [option_map within] in *; [lia|trivial]. }
      exists (d0 ++ dd), (rest L (len (b ++ x ++ dd)) c'), (WI (Some s') L (p + len d0 + len dd) b (bp + len d0)).
      assert (RR : rest L (len (b ++ x)) c = dd ++ rest L (len (b ++ x ++ dd)) c').
      { rewrite E2. destruct L as [l|]; cbn [rest option_map within] in *; [|reflexivity].
        rewrite cut_le by lia. f_equal. f_equal. rewrite !len_app. lia. }
      split; [destruct dd; [congruence|reflexivity]|]. split.
      { rewrite Fr, FrC, RR, app_assoc. reflexivity. }
      split; [rewrite len_app; lia|]. split; [intros Z; destruct d0; [cbn in Z; congruence|discriminate Z]|].
      split; [cbn [WiModel.pos]; rewrite len_app; lia|]. split; [|exact P0].
      exists (x ++ dd), c'. cbn [WiModel.stream WiModel.input_length WiModel.pos WiModel.buf WiModel.bpos].
      split; [rewrite EC, E2, <- !app_assoc; reflexivity|]. split; [reflexivity|]. split; [reflexivity|].
      split. { destruct L; cbn [option_map within] in *; [|trivial]. rewrite !len_app in *. lia. }
      split. { replace (option_map (fun l => l - len (b ++ x ++ dd)) L) with (option_map (fun k => k - len dd) (option_map (fun l => l - len (b ++ x)) L)); [exact E5|].
               destruct L; [|reflexivity]. cbn [option_map]. f_equal. rewrite !len_app. lia. }
      right. split; [destruct x; [exact NE|discriminate]|]. rewrite At, !len_app. lia. }
  destruct P as [(Ex & Eb & Pb)|(Ex & Ep)].
  - subst x bp. rewrite app_nil_r in *.
    destruct (Z.eqb_spec n 0) as [Hn|Hn]; cbn [negb andb].
    + apply (G [] _ eq_refl); try (unfold len; cbn; lia); auto.
      * rewrite Z.add_0_r. reflexivity.
      * left. unfold len at 1 2 3 4. cbn. repeat split; lia.
    + destruct (Z.ltb_spec p (len b)).
      * unfold buffer_read. cbn [WiModel.bpos WiModel.buf]. destruct (Z.ltb_spec n 0); [lia|].
        assert (Ld : len (ztake n (zdrop p b)) = Z.min n (len b - p)) by (rewrite len_ztake, len_zdrop; lia).
        apply (G (ztake n (zdrop p b)) _ eq_refl); try lia.
        -- assert (Pre : from p (cut L C) = ztake n (zdrop p b) ++ zdrop n (zdrop p b) ++ rest L (len b) c).
           { rewrite EB, from_zdrop by lia. rewrite app_assoc, <- ztake_drop. reflexivity. }
           rewrite (from_plus _ _ _ _ (proj1 Pb) Pre). exact Pre.
        -- left. repeat split; lia.
      * apply (G [] _ eq_refl); try (unfold len; cbn; lia); auto.
        -- left. unfold len in *. cbn [length] in *. lia.
        -- rewrite Z.add_0_r. reflexivity.
        -- left. unfold len at 1 2 3 4. cbn. repeat split; lia.
  - assert (Pb : len b < p).
    { rewrite Ep, len_app. destruct x; [congruence|]. unfold len at 3. cbn [length]. lia. }
    destruct (Z.ltb_spec p (len b)); [lia|]. rewrite andb_false_r.
    apply (G [] _ eq_refl); try (unfold len; cbn; lia); auto.
    + left. rewrite Ep. unfold len. cbn. lia.
    + pose proof (len_nn b). lia.
    + rewrite Z.add_0_r. reflexivity.
    + right. split; [exact Ex|]. rewrite Ep. unfold len. cbn. lia.
Qed.

Lemma fill_ok : forall fuel seek b s c L, R s c (option_map (fun l => l - len b) L) -> (Z.to_nat (seek - len b) <= fuel)%nat ->
  within seek L ->
  exists o x c', fill source sread fuel seek b s = Ok (o, b ++ x) /\ c = x ++ c' /\
    (len (b ++ x) = seek \/ (c' = [] /\ len (b ++ x) < seek) \/ (x = [] /\ seek <= len b)) /\
    match o with Some s' => R s' c' (option_map (fun l => l - len (b ++ x)) L) | None => c' = [] end.
Proof using stream_ok.
  induction fuel as [|f IH]; intros seek b s c L H F W; cbn [fill]; change (zlen b) with (len b);
    destruct (Z.ltb_spec (len b) seek).
  - lia.
  - exists (Some s), [], c. rewrite app_nil_r. repeat split; auto.
  - destruct (stream_ok s c _ (seek - len b) H ltac:(lia)) as (d & s' & c' & E1 & E2 & E3 & E4 & E5).
    { destruct L; cbn [option_map within] in *; [lia|trivial]. }
    rewrite E1. cbn [rbind]. destruct d as [|y d].
    + exists None, [], c'. rewrite app_nil_r. split; [reflexivity|]. split; [exact E2|].
      assert (c' = []) by (destruct (E4 eq_refl) as [|E]; [lia|rewrite E2 in E; exact E]). subst. repeat split; auto.
    + assert (LY : 0 < len (y :: d)) by (unfold len; cbn [length]; lia). set (dd := y :: d) in *.
      destruct (IH seek (b ++ dd) s' c' L) as (o & x & c'' & F1 & F2 & F3 & F4).
      * replace (option_map (fun l => l - len (b ++ dd)) L) with (option_map (fun k => k - len dd) (option_map (fun l => l - len b) L)); [exact E5|].
        destruct L; [|reflexivity]. cbn [option_map]. f_equal. rewrite len_app. lia.
      * rewrite len_app. lia.
      * exact W.
      * exists o, (dd ++ x), c''. rewrite app_assoc. split; [exact F1|]. split; [rewrite E2, F2, app_assoc; reflexivity|].
        split; [|exact F4]. destruct F3 as [F3|[F3|(-> & F3)]]; auto.
        rewrite app_nil_r. left. rewrite len_app in *. lia.
  - exists (Some s), [], c. rewrite app_nil_r. repeat split; auto.
Qed.

Lemma open_ok : forall L seek s c, R s c L -> 0 <= seek -> match L with Some l => 0 <= l | None => True end ->
  exists w, open_input source sread L seek s = Ok w /\ Inv L c (Z.min seek (len (cut L c))) w /\ pos w = 0.
Proof using stream_ok.
  intros L seek s c H S0 L0. unfold open_input.
  set (k := match L with Some n => if n <? seek then n else seek | None => seek end).
  assert (K : 0 <= k /\ within k L /\ k <= seek /\ match L with Some l => k = Z.min l seek | None => k = seek end).
  { subst k. destruct L as [l|]; cbn [within]; [destruct (Z.ltb_spec l seek)|]; repeat split; lia. }
  destruct K as (K1 & K2 & K3 & K4).
  destruct (fill_ok (Z.to_nat k) k [] s c L) as (o & x & c' & F1 & F2 & F3 & F4).
  { destruct L; cbn [option_map]; [|exact H]. unfold len. cbn. rewrite Z.sub_0_r. exact H. }
  { unfold len. cbn. lia. }
  { exact K2. }
  rewrite F1. cbn [rbind app]. cbn [app] in F3, F4. eexists. split; [reflexivity|]. split; [|reflexivity].
  assert (X : len x <= k).
  { destruct F3 as [F3|[(_ & F3)|(-> & F3)]]; try lia. unfold len in *. cbn in *. lia. }
  exists [], c'. cbn [WiModel.stream WiModel.input_length WiModel.pos WiModel.buf WiModel.bpos]. rewrite app_nil_r.
  assert (LX : match L with Some l => len x <= l | None => True end) by (destruct L; cbn [within] in *; [lia|trivial]).
  assert (EX : len x = Z.min seek (len (cut L c))).
  { rewrite F2, cut_rest, len_app by exact LX. pose proof (len_nn (rest L (len x) c')) as Rn.
    assert (F3' : len x = k \/ (c' = [] /\ len x < k)).
    { destruct F3 as [F3|[F3|(-> & F3)]]; auto. left. unfold len in *. cbn in *. lia. }
    destruct F3' as [F3'|(-> & F3')].
    - destruct L as [l|]; [|lia]. destruct (Z.le_gt_cases seek l); [lia|].
      assert (len x = l) by lia. cbn [rest]. replace (l - len x) with 0 by lia. unfold ztake. cbn. unfold len in *. cbn. lia.
    - replace (rest L (len x) []) with (@nil Z) by (destruct L; cbn [rest]; [unfold ztake; rewrite firstn_nil|]; reflexivity).
      unfold len in *. cbn. lia. }
  split; [exact F2|]. split; [reflexivity|]. split; [exact EX|]. split; [exact LX|].
  split; [destruct o; auto|]. left. pose proof (len_nn x). repeat split; lia.
Qed.

Lemma readall_ok : forall fuel L C n0 w, Inv L C n0 w -> (length (from (pos w) (cut L C)) < fuel)%nat ->
  exists w', readall source sread fuel w = Ok (from (pos w) (cut L C), w') /\ pos w' = pos w + len (from (pos w) (cut L C)) /\ Inv L C n0 w'.
Proof using stream_ok.
  induction fuel as [|f IH]; intros L C n0 w H F; [lia|]. cbn [readall].
  destruct (read_ok L C n0 w DEFAULT_BUFFER_SIZE H ltac:(unfold DEFAULT_BUFFER_SIZE; lia)) as (d & b & w' & E1 & E2 & E3 & E4 & E5 & E6 & E7).
  rewrite E1. cbn [rbind]. destruct d as [|y d].
  - destruct (E4 eq_refl) as [|Z]; [discriminate|]. rewrite Z. exists w'. rewrite E5. auto.
  - assert (FP : from (pos w') (cut L C) = b) by (rewrite E5; apply from_plus; assumption).
    destruct (IH L C n0 w' E6) as (w'' & F1 & F2 & F3).
    { rewrite FP. rewrite E2, app_length in F. cbn [length] in F. lia. }
    rewrite F1. cbn [rbind]. exists w''. split; [rewrite E2, FP; reflexivity|]. split; [|exact F3].
    rewrite F2, FP, E5, E2, len_app. lia.
Qed.

Lemma is_line_cons : forall limit y s l, y <> 10 -> is_line (if limit <? 0 then limit else limit - 1) s l -> limit <> 0 ->
  is_line limit (y :: s) (y :: l).
Proof.
  intros limit y s l Y H L0. assert (LC : forall l, len (y :: l) = len l + 1) by (intros; unfold len; cbn [length]; lia).
  destruct (Z.ltb_spec limit 0) as [N|N]; destruct H as [a b E1 E2 E3 E4|b E1 E2 E3 E4|E1 E2 E3].
  - apply (il_lf _ _ _ (y :: a) b); try lia; subst; auto. intros [?|?]; auto.
  - lia.
  - apply il_end; try lia; subst; auto. intros [?|?]; auto.
  - apply (il_lf _ _ _ (y :: a) b); subst; auto. intros [?|?]; auto. rewrite LC. lia.
  - apply (il_limit _ _ _ b); subst; auto. intros [?|?]; auto. rewrite LC. lia.
  - apply il_end; subst; auto. intros [?|?]; auto. rewrite LC. lia.
Qed.

Lemma readline_ok : forall fuel limit line L C n0 w, Inv L C n0 w -> (length (from (pos w) (cut L C)) < fuel)%nat ->
  exists l w', readline_loop source sread fuel limit line w = Ok (line ++ l, w') /\ 
    (is_line (if limit <? 0 then limit else limit - len line) (from (pos w) (cut L C)) l \/ (0 <= limit < len line /\ l = [])) /\
    pos w' = pos w + len l /\ Inv L C n0 w'.
Proof using stream_ok.
  induction fuel as [|f IH]; intros limit line L C n0 w H F; [lia|]. cbn [readline_loop]. change (zlen line) with (len line).
  destruct ((limit <? 0) || (len line <? limit)) eqn:Cd.
  2:{ apply orb_false_iff in Cd as (C1 & C2). apply Z.ltb_ge in C1, C2. exists [], w. rewrite app_nil_r. split; [reflexivity|].
      split; [|split; [unfold len; cbn; lia|exact H]]. destruct (Z.ltb_spec limit 0); [lia|].
      destruct (Z.eq_dec limit (len line)); [|right; split; [lia|reflexivity]].
      left. apply (il_limit _ _ _ (from (pos w) (cut L C))); auto; unfold len in *; cbn; lia. }
  destruct (read_ok L C n0 w 1 H ltac:(lia)) as (d & b & w' & E1 & E2 & E3 & E4 & E5 & E6 & E7).
  rewrite E1. cbn [rbind]. apply orb_true_iff in Cd. rewrite Z.ltb_lt in Cd. rewrite Z.ltb_lt in Cd.
  destruct d as [|y d].
  - exists [], w'. rewrite app_nil_r. split; [reflexivity|]. rewrite E5. split; [|split; [reflexivity|exact E6]].
    destruct (E4 eq_refl) as [|Z]; [discriminate|]. rewrite Z. left. apply il_end; auto. unfold len at 1 3. cbn.
    destruct (Z.ltb_spec limit 0); lia.
  - assert (d = []) by (apply len_0; unfold len in *; cbn [length] in *; lia). subst d.
    assert (L1 : len [y] = 1) by reflexivity.
    destruct (str_eqb [y] [10]) eqn:Ey.
    + apply str_eqb_eq in Ey. injection Ey as ->. exists [10], w'. split; [reflexivity|]. split; [|auto].
      left. apply (il_lf _ _ _ [] b); auto. change (len [10]) with 1. destruct (Z.ltb_spec limit 0); lia.
    + assert (Ny : y <> 10) by (intros ->; rewrite str_eqb_refl in Ey; discriminate).
      assert (FP : from (pos w') (cut L C) = b) by (rewrite E5; apply from_plus; assumption).
      destruct (IH limit (line ++ [y]) L C n0 w' E6) as (l & w'' & F1 & F2 & F3 & F4).
      { rewrite FP. rewrite E2, app_length in F. cbn [length] in F. lia. }
      exists (y :: l), w''. rewrite F1. rewrite <- app_assoc. split; [reflexivity|].
      split; [|split; [|exact F4]].
      2:{ rewrite F3, E5. unfold len. cbn [length]. lia. }
      rewrite FP in F2. rewrite E2. cbn [app]. destruct F2 as [F2|(F2 & ->)].
      * left. rewrite len_app, L1 in F2. apply is_line_cons; auto.
        -- destruct (Z.ltb_spec limit 0).
           ++ destruct (Z.ltb_spec limit 0); [exact F2|lia].
           ++ destruct (Z.ltb_spec (limit - len line) 0); [lia|]. replace (limit - len line - 1) with (limit - (len line + 1)) by lia. exact F2.
        -- destruct (Z.ltb_spec limit 0); lia.
      * exfalso. rewrite len_app, L1 in F2. lia.
Qed.

Definition wh (w : from_where) : whence := match w with FromStart => SEEK_SET | FromHere => SEEK_CUR | FromEnd => SEEK_END end.
Lemma seek_ok : forall L C n0 w off f, Inv L C n0 w -> plain n0 L (pos w) (Seek off f) ->
  (exists w', seek source sread off (wh f) w = Ok w' /\ file_op (cut L C) n0 L (pos w) (Seek off f) Done (pos w') /\ Inv L C n0 w') \/
  (seek source sread off (wh f) w = Err IOError /\ file_op (cut L C) n0 L (pos w) (Seek off f) Fails (pos w)).
Proof.
  intros L C n0 w off f H Pl. destruct H as (x & c & EC & EL & En & LE & ST & P). unfold seek, buff_size. change zlen with len.
  rewrite En, EL.
  destruct (Z.ltb_spec n0 (pos w)). { right. split; [reflexivity|]. apply fo_no_seek. auto. }
  assert (Sk : forall q, target L (pos w) off f = Some q ->
    (exists w', (if q <? 0 then Err IOError
    else if q =? pos w then Ok w
    else if q <=? n0 then Ok (WI (stream w) L q (buf w) q)
    else let! w' := skip source sread (Z.to_nat q) q w in Ok (WI (stream w') (input_length w') q (buf w') (bpos w'))) = Ok w' /\
      file_op (cut L C) n0 L (pos w) (Seek off f) Done (pos w') /\ Inv L C n0 w') \/
    ((if q <? 0 then Err IOError
    else if q =? pos w then Ok w
    else if q <=? n0 then Ok (WI (stream w) L q (buf w) q)
    else let! w' := skip source sread (Z.to_nat q) q w in Ok (WI (stream w') (input_length w') q (buf w') (bpos w'))) = Err IOError /\
      file_op (cut L C) n0 L (pos w) (Seek off f) Fails (pos w))).
  { intros q Q. specialize (Pl q Q). destruct (Z.ltb_spec q 0).
    { right. split; [reflexivity|]. apply fo_no_seek. eauto. }
    left. destruct (Z.eqb_spec q (pos w)) as [->|].
    { exists w. split; [reflexivity|]. split; [apply fo_seek; auto|]. exists x, c. repeat split; auto. }
    destruct (Z.leb_spec q n0); [|lia]. eexists. split; [reflexivity|]. cbn [WiModel.pos].
    split; [apply fo_seek; auto|]. assert (x = []).
    { destruct P as [(-> & _)|(_ & P)]; [reflexivity|]. apply len_0. rewrite len_app in P. pose proof (len_nn x). lia. }
    exists x, c. cbn [WiModel.stream WiModel.input_length WiModel.pos WiModel.buf WiModel.bpos]. repeat split; auto. }
  destruct f; cbn [wh rbind target] in *.
  - apply (Sk _ eq_refl).
  - apply (Sk _ eq_refl).
  - destruct L as [l|]; cbn [rbind].
    + apply (Sk _ eq_refl).
    + right. split; [reflexivity|]. apply fo_no_seek. auto.
Qed.
End W.
