(** The lemmas behind CharClassProps.v *)
From Verif Require Import Py ReSpec CharClassModel CharClassProofs CharClassSpec CharClassWorld
  CharClassReProofs.

Lemma spec_in_range w ss tt i : good w ss tt -> (i < length (objs w))%nat -> (i < length ss)%nat.
Proof. intros G. rewrite (g_len _ _ _ G). auto. Qed.

Lemma c01 h : covered [] [] h ->
  exists w, run w0 h = Ok w /\ length (objs w) = length (spec_run [] h) /\
    forall i c, (i < length (spec_run [] h))%nat -> is_char c ->
      exists b w', w_test i w c = Ok (b, w') /\ (b = true <-> set_of (spec_run [] h) i c).
Proof.
  intros H. destruct (run_good h w0 [] [] good_w0 H) as (w & tt & E & G).
  exists w. split; [exact E|]. split; [apply (g_len _ _ _ G)|]. intros i c Hi Hc.
  destruct (w_test_good i w _ tt c G Hi Hc) as (b & w' & E' & Hb & _). eauto.
Qed.

Lemma c02 h : covered [] [] h -> forall w, run w0 h = Ok w -> forall i j,
  (i < length (spec_run [] h))%nat -> (j < length (spec_run [] h))%nat ->
  exists b, w_eq i j w = Ok b /\
    (b = true <-> forall c, is_char c -> (set_of (spec_run [] h) i c <-> set_of (spec_run [] h) j c)).
Proof.
  intros H w E i j Hi Hj. destruct (run_good h w0 [] [] good_w0 H) as (w' & tt & E' & G).
  rewrite E in E'. inversion E'; subst w'. clear E'.
  destruct (good_get w _ tt i G Hi) as (o1 & S1 & Hg1 & _ & HS1 & (W1 & _ & M1 & _)).
  destruct (good_get w _ tt j G Hj) as (o2 & S2 & Hg2 & _ & HS2 & (W2 & _ & M2 & _)).
  unfold w_eq. rewrite Hg1, Hg2. cbn [rbind]. eexists. split; [reflexivity|].
  rewrite (nth_set_of _ _ _ HS1), (nth_set_of _ _ _ HS2).
  split.
  - intros Q c _. rewrite <- M1, <- M2. apply ranges_eqb_mem. exact Q.
  - intros Q. apply wf_mem_eq; auto. intros c.
    assert (Hc : is_char c \/ ~ is_char c) by (unfold is_char; lia). destruct Hc as [Hc|Hc].
    + rewrite M1, M2. apply Q. exact Hc.
    + split; intros Hm; exfalso; apply Hc; revert Hm; apply mem_char; assumption.
Qed.

Lemma c03 h : covered [] [] h -> forall w, run w0 h = Ok w -> forall i c,
  (i < length (objs w))%nat -> is_char c ->
  exists b w', w_test i w c = Ok (b, w') /\ w_test_slow i w c = Ok b.
Proof.
  intros H w E i c Hi Hc. destruct (run_good h w0 [] [] good_w0 H) as (w' & tt & E' & G).
  rewrite E in E'. inversion E'; subst w'. clear E'.
  apply (spec_in_range _ _ _ _ G) in Hi.
  destruct (w_test_good i w _ tt c G Hi Hc) as (b & w' & E' & Hb & _). exists b, w'.
  split; [exact E'|].
  destruct (good_get w _ tt i G Hi) as (o1 & S1 & Hg1 & _ & HS1 & (W1 & _ & M1 & _)).
  unfold w_test_slow. rewrite Hg1. cbn [rbind].
  destruct (test_slow_mem _ c W1) as (b' & -> & Hb').
  rewrite (nth_set_of _ _ _ HS1), <- M1, <- Hb' in Hb. f_equal.
  destruct b, b'; auto; exfalso; destruct Hb as [Q1 Q2]; first [discriminate (Q1 eq_refl) | discriminate (Q2 eq_refl)].
Qed.

Lemma c05 h : covered [] [] h -> forall w, run w0 h = Ok w -> forall i,
  (i < length (spec_run [] h))%nat ->
  (exists c, is_char c /\ ~ set_of (spec_run [] h) i c) ->
  ~ (forall c, is_char c -> (set_of (spec_run [] h) i c <-> c <> 92)) ->
  exists s f, w_str i w = Ok s /\ re_one s = Some f /\
    forall c, is_char c -> (f c = true <-> set_of (spec_run [] h) i c).
Proof.
  intros H w E i Hi. destruct (run_good h w0 [] [] good_w0 H) as (w' & tt & E' & G).
  rewrite E in E'. inversion E'; subst w'. clear E'.
  destruct (good_get w _ tt i G Hi) as (o1 & S1 & Hg1 & _ & HS1 & (W1 & _ & M1 & _)).
  rewrite (nth_set_of _ _ _ HS1). intros (c0 & Hc0 & Hn0) Hb.
  destruct (to_str_re (oranges w o1) W1) as (s & f & Es & Ef & Hf).
  - exists c0. rewrite M1. auto.
  - intros Q. apply Hb. intros c Hc. rewrite <- M1. apply Q. exact Hc.
  - exists s, f. unfold w_str. rewrite Hg1. split; [exact Es|]. split; [exact Ef|].
    intros c Hc. rewrite Hf, M1 by exact Hc. tauto.
Qed.

Lemma upd_length (ss : list cset) i f : length (upd ss i f) = length ss.
Proof. unfold upd. destruct (nth_error ss i); rewrite ?set_nth_length; reflexivity. Qed.
Lemma upd_other (ss : list cset) i j f : i <> j -> set_of (upd ss i f) j = set_of ss j.
Proof.
  intros H. unfold upd, set_of. destruct (nth_error ss i); [|reflexivity].
  rewrite <- !nth_default_eq. unfold nth_default. rewrite nth_error_set_nth_ne by auto. reflexivity.
Qed.

Lemma copy_edits_covered : forall h n own ss tt, length ss = S n -> length tt = S n ->
  (own = true -> untainted tt n) -> copy_edits n own h ->
  covered ss tt h /\ forall j, j <> n -> set_of (spec_run ss h) j = set_of ss j.
Proof.
  induction h as [|k h IH]; intros n own ss tt Ls Lt Ho Hc; [cbn; auto|].
  assert (Hupd : forall f j, j <> n -> set_of (upd ss n f) j = set_of ss j)
    by (intros; apply upd_other; auto).
  cbn [copy_edits] in Hc. cbn [covered spec_run call_valid].
  assert (REC : forall own' f tt', length tt' = S n -> (own' = true -> untainted tt' n) ->
     copy_edits n own' h ->
     covered (upd ss n f) tt' h /\ forall j, j <> n -> set_of (spec_run (upd ss n f) h) j = set_of ss j).
  { intros own' f tt' L' O' C'. destruct (IH n own' (upd ss n f) tt') as [A B]; auto.
    - rewrite upd_length. auto.
    - split; [exact A|]. intros j Hj. rewrite B by auto. apply Hupd. exact Hj. }
  destruct k; try contradiction; cbn [spec_call call_valid].
  - destruct Hc as (-> & Hc & Hr). destruct (REC own (fun s x => s x \/ x = c) tt Lt Ho Hr) as [A B].
    split; [split; [split; [lia|auto]|auto]|auto].
  - destruct Hc as (-> & Hc & Hc' & Hr).
    destruct (REC own (fun s x => s x \/ Z.min a z <= x <= Z.max a z) tt Lt Ho Hr) as [A B].
    split; [split; [split; [lia|auto]|auto]|auto].
  - destruct Hc as (-> & Hj & Hr).
    destruct (REC false (fun s x => s x \/ set_of ss j x) (taint2 tt n j)) as [A B]; auto.
    { unfold taint2. rewrite !set_nth_length. auto. } { discriminate. }
    split; [split; [lia|right; auto]|auto].
  - destruct Hc as (-> & Hc & Hw & Hr).
    destruct (REC own (fun s x => s x /\ x <> c) tt Lt Ho Hr) as [A B].
    split; [split; [split; [lia|auto]|auto]|auto].
  - destruct Hc as (-> & Hc & Hc' & Hw & Hr).
    destruct (REC own (fun s x => s x /\ ~ (Z.min a z <= x <= Z.max a z)) tt Lt Ho Hr) as [A B].
    split; [split; [split; [lia|auto]|auto]|auto].
  - destruct Hc as (-> & Hj & Hw & Hr).
    destruct (REC own (fun s x => s x /\ ~ set_of ss j x) tt Lt Ho Hr) as [A B].
    split; [split; [lia|split; [auto|split; [lia|auto]]]|auto].
  - destruct Hc as (-> & Hr).
    destruct (REC true (fun s x => is_char x /\ ~ s x) (set_nth tt n false)) as [A B]; auto.
    { rewrite set_nth_length. auto. }
    { intros _. unfold untainted. apply nth_error_set_nth_eq. lia. }
    split; [split; [lia|auto]|auto].
  - destruct Hc as (-> & Hc & Hr). destruct (IH n own ss tt Ls Lt Ho Hr) as [A B].
    split; [split; [split; [lia|auto]|auto]|auto].
Qed.

Lemma set_of_app_l ss x j : (j < length ss)%nat -> set_of (ss ++ [x]) j = set_of ss j.
Proof. intros. unfold set_of. apply app_nth1. auto. Qed.

Lemma run_app : forall h1 h2 w, run w (h1 ++ h2) = (let! w1 := run w h1 in run w1 h2).
Proof.
  induction h1; intros; cbn; [reflexivity|]. destruct (do_call w a); cbn; [apply IHh1|reflexivity].
Qed.

Lemma c04 h j edits w : covered [] [] h -> run w0 h = Ok w -> (j < length (objs w))%nat ->
  copy_edits (length (objs w)) false edits ->
  exists w', run w (New :: AddClass (length (objs w)) j :: edits) = Ok w' /\
    forall i c, (i < length (objs w))%nat -> is_char c -> exists b w1 w2,
      w_test i w c = Ok (b, w1) /\ w_test i w' c = Ok (b, w2).
Proof.
  intros H E Hj He. destruct (run_good h w0 [] [] good_w0 H) as (w' & tt & E' & G).
  rewrite E in E'. inversion E'; subst w'. clear E'.
  set (ss := spec_run [] h) in *. set (n := length (objs w)) in *.
  assert (Ln : n = length ss) by apply (g_len _ _ _ G).
  set (ss2 := spec_call (ss ++ [fun _ => False]) (AddClass n j)).
  set (tt2 := taint2 (tt ++ [false]) n j).
  assert (Ls2 : length ss2 = S n).
  { unfold ss2. cbn [spec_call]. rewrite upd_length, app_length, <- Ln. cbn. lia. }
  assert (Lt2 : length tt2 = S n).
  { unfold tt2, taint2. rewrite !set_nth_length, app_length, <- (g_tt _ _ _ G), <- Ln. cbn. lia. }
  destruct (copy_edits_covered edits n false ss2 tt2 Ls2 Lt2) as [A B]; auto; [discriminate|].
  assert (Cov : covered ss tt (New :: AddClass n j :: edits)).
  { cbn [covered call_valid spec_call]. split; [exact I|]. split.
    - rewrite app_length, <- Ln. cbn. lia.
    - right. exact A. }
  destruct (run_good _ w ss tt G Cov) as (w' & tt' & E' & G').
  exists w'. split; [exact E'|]. intros i c Hi Hc.
  assert (Hi' : (i < length ss)%nat) by lia.
  destruct (w_test_good i w ss tt c G Hi' Hc) as (b & w1 & Et & Hb & _).
  destruct (w_test_good i w' _ tt' c G') with (2 := Hc) as (b' & w2 & Et' & Hb' & _).
  { rewrite <- (g_len _ _ _ G'). 
    assert (L : length (spec_run ss (New :: AddClass n j :: edits)) = S n).
    { change (length (spec_run ss2 edits) = S n). clear - He Ls2. clearbody n ss2.
      assert (Q : forall hh own s, copy_edits n own hh -> length (spec_run s hh) = length s).
      { induction hh as [|k hh IH]; intros own s Hc; [reflexivity|]. cbn [spec_run copy_edits] in *.
        destruct k; try contradiction; psplit; intuition;
          match goal with Hx : copy_edits n ?o hh |- _ => rewrite (IH o _ Hx) end;
          apply spec_call_length; discriminate. }
      rewrite (Q _ _ _ He). exact Ls2. }
    rewrite (g_len _ _ _ G'), L. lia. }
  exists b, w1, w2. split; [exact Et|]. rewrite Et'. do 2 f_equal.
  assert (Q : set_of (spec_run ss (New :: AddClass n j :: edits)) i = set_of ss i).
  { change (set_of (spec_run ss2 edits) i = set_of ss i). rewrite B by lia.
    unfold ss2. cbn [spec_call]. rewrite upd_other by lia. apply set_of_app_l. lia. }
  rewrite Q, <- Hb in Hb'. destruct b, b'; auto; exfalso; destruct Hb' as [Q1 Q2]; first [discriminate (Q1 eq_refl) | discriminate (Q2 eq_refl)].
Qed.
