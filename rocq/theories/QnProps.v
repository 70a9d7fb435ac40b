(** Properties C119-C122: QTI test sessions (navigation, branching, durations, keys). *)
From Coq Require Import Sorted Lia.
From Verif Require Import Py QfModel QfSpec QnModel QnSpec QnProofs.

(** a form with a section in a test part in linear mode: for the examples *)
Definition li (n : nat) (p : list nat) (r : list (nat * goto)) : attrs := Attrs n false false p r 0%nat true.
Definition q_ (n : nat) (p : list nat) (r : list (nat * goto)) : spart := Item (li n p r).
Definition s_ (n : nat) (p : list nat) (l : list spart) : spart := Sect (li n p []) true true None false l.
Definition tp_ (lin : bool) : tpart := TPart 0 lin true [] [] [].
(** expressions: 0 is false, the others are true; identifiers below 100 are in the test part 0 *)
Definition ev0 (i e : nat) : res bool := Ok (negb (Nat.eqb e 0)).
Definition reg0 (i : nat) : option (option nat) := if Nat.eqb i 0 then Some None else if Nat.ltb i 100 then Some (Some 0%nat) else None.

(** ** C119: questions come one after the other, each once, and the test comes to an end *)
Theorem next_question_ends : forall registered ev form q, (forall i e, ev i e <> Err Timeout) -> next_question registered ev form q <> Err Timeout.
Proof.
  intros registered ev form [[|q]|] Hev; cbn [next_question].
  - destruct (seek_timeout registered ev form Hev (S (length form)) 1) as [H|H]; [lia|exact H|discriminate].
  - pose proof (branch_timeout registered ev form (S q) Hev) as Hb.
    destruct (branch_target registered ev form (S q)) as [j|e]; cbn [rbind]; [|congruence].
    destruct (seek_timeout registered ev form Hev (S (length form)) j) as [H|H]; [lia|exact H|discriminate].
  - discriminate.
Qed.

Lemma session_bound : forall registered form q l r, session_of registered form q l r ->
  Forall (fun n => (match q with Some m => m < n | None => False end)%nat) l /\ Sorted lt l /\
  Forall (fun n => exists ev, may_be_put ev form n) l /\ (q = None -> r = None).
Proof.
  intros registered form q l r H. induction H as [q|q ev q' l r Hn Hs IH|q ev l r Hn Hs IH].
  - split; [constructor|]. split; [constructor|]. split; [constructor|tauto].
  - apply next_put in Hn. destruct Hn as (Hlt & Hp). destruct IH as (H1 & H2 & H3 & _). split; [|split; [|split]].
    + constructor; [exact Hlt|]. eapply Forall_impl; [|exact H1]. intros n Hn. cbn in Hn. destruct q as [m|]; [lia|contradiction].
    + constructor; [exact H2|]. destruct l as [|y l]; constructor. inversion H1; assumption.
    + constructor; [eauto|exact H3].
    + intros ->. contradiction.
  - destruct IH as (H1 & H2 & H3 & H4). destruct l as [|n l]; [|inversion H1; contradiction].
    split; [constructor|]. split; [constructor|]. split; [constructor|]. intros _. apply H4. reflexivity.
Qed.
Lemma sorted_nodup : forall l, Sorted lt l -> NoDup l.
Proof.
  intros l H. apply Sorted_StronglySorted in H; [|exact Nat.lt_trans]. induction H as [|x l Hs IH Hx]; constructor; [|exact IH].
  intros Hin. rewrite Forall_forall in Hx. apply Hx in Hin. lia.
Qed.
Theorem questions_in_order : forall registered form q l r, session_of registered form (Some q) l r ->
  Sorted lt (q :: l) /\ NoDup l /\ (length l <= length form)%nat /\ Forall (fun n => exists ev, may_be_put ev form n) l.
Proof.
  intros registered form q l r H. apply session_bound in H. destruct H as (H1 & H2 & H3 & _).
  assert (Hn : NoDup l) by (apply sorted_nodup; exact H2).
  split; [|split; [exact Hn|split; [|exact H3]]].
  - constructor; [exact H2|]. destruct l; constructor. inversion H1; assumption.
  - rewrite <- (seq_length (length form) 0). apply NoDup_incl_length; [exact Hn|]. intros n Hin. rewrite Forall_forall in H3. apply H3 in Hin.
    destruct Hin as (ev & a & Ha & _). apply in_seq. split; [lia|]. apply nth_error_Some. unfold item_at in Ha. rewrite Ha. discriminate.
Qed.
Theorem finished_stays : forall registered form l r, session_of registered form None l r -> l = [] /\ r = None.
Proof.
  intros registered form l r H. apply session_bound in H. destruct H as (H1 & _ & _ & H4).
  split; [|apply H4; reflexivity]. destruct l as [|n l]; [reflexivity|inversion H1; contradiction].
Qed.
(** a test part in nonlinear mode, where every question can be reached, is passed over *)
Theorem nonlinear_refuted : forall registered form q l r n a, session_of registered form q l r -> item_at form n a -> linear a = false -> ~ In n l.
Proof.
  intros registered form q l r n a H Ha Hl Hin. apply session_bound in H. destruct H as (_ & _ & H3 & _).
  rewrite Forall_forall in H3. apply H3 in Hin. destruct Hin as (ev & b & Hb & Hlb & _). unfold item_at in *. congruence.
Qed.
Definition sample : list comp :=
  let s := s_ 1 [] [] in let s2 := s_ 2 [] [] in
  [Root; OpenPart (tp_ true); Open s; Open (q_ 3 [1%nat] [(0%nat, ExitTest)]); Open (q_ 4 [0%nat] []); Open (q_ 5 [] [(1%nat, To 7%nat)]);
   Open (q_ 6 [] []); Close s; Open s2; Open (q_ 7 [] []); Close s2; ClosePart (tp_ true)].
Example ex_session : session_of reg0 sample (Some O) [3%nat; 5%nat; 9%nat] None.
Proof.
  apply session_put with (ev := ev0); [vm_compute; reflexivity|]. apply session_put with (ev := ev0); [vm_compute; reflexivity|].
  apply session_put with (ev := ev0); [vm_compute; reflexivity|]. apply session_end with (ev := ev0); [vm_compute; reflexivity|constructor].
Qed.
Example ex_nonlinear : let a := Attrs 3 false false [] [] 0%nat false in let s := Sect (Attrs 1 false false [] [] 0%nat false) true true None false [Item a] in
  next_question reg0 ev0 [Root; OpenPart (tp_ false); Open s; Open (Item a); Close s; ClosePart (tp_ false)] (Some O) = Ok None.
Proof. vm_compute. reflexivity. Qed.

(** ** C120: preconditions and branch rules *)
(** without branch rules, the next question is the first item that has no precondition that does not hold *)
Theorem next_question_partial : forall registered ev form q, (forall i e, exists b, ev i e = Ok b) ->
  (forall m c, (0 < m)%nat -> nth_error form m = Some c -> plain c /\ no_rules c) -> (q < length form)%nat ->
  exists r, next_question registered ev form (Some q) = Ok r /\
    match r with Some n => (q < n)%nat /\ may_be_put ev form n /\ (forall m, (q < m < n)%nat -> ~ may_be_put ev form m)
               | None => forall m, (q < m)%nat -> ~ may_be_put ev form m end.
Proof.
  intros registered ev form q Hev Hpl Hq.
  assert (H : exists r, seek registered ev (S (length form)) form (S q) = Ok r /\
      match r with Some n => (S q <= n)%nat /\ may_be_put ev form n /\ (forall m, (S q <= m < n)%nat -> ~ may_be_put ev form m)
               | None => forall m, (S q <= m)%nat -> ~ may_be_put ev form m end).
  { apply seek_plain; [exact Hev|lia|discriminate|]. intros m c Hm. apply Hpl. lia. }
  destruct H as (r & Hr & H). exists r. split.
  - cbn [next_question]. destruct q as [|q]; [exact Hr|].
    destruct (nth_error form (S q)) as [c|] eqn:Ec; [|apply nth_error_None in Ec; lia].
    destruct (Hpl (S q) c) as (Hp & Hrr); [lia|exact Ec|].
    rewrite (branch_none registered ev form (S q) c Ec Hp Hrr). cbn [rbind]. exact Hr.
  - destruct r as [n|].
    + destruct H as (H1 & H2 & H3). split; [lia|]. split; [exact H2|]. intros m Hm. apply H3. lia.
    + intros m Hm. apply H. lia.
Qed.
(** a section whose precondition does not hold is entered all the same; so is a test part *)
Theorem section_precondition_refuted : let s := s_ 1 [0%nat] [q_ 2 [] []] in
  next_question reg0 ev0 [Root; OpenPart (tp_ true); Open s; Open (q_ 2 [] []); Close s; ClosePart (tp_ true)] (Some O) = Ok (Some 3%nat).
Proof. vm_compute. reflexivity. Qed.
Theorem part_precondition_refuted : let s := s_ 1 [] [q_ 2 [] []] in let t := TPart 0 true true [0%nat] [] [s] in
  next_question reg0 ev0 [Root; OpenPart t; Open s; Open (q_ 2 [] []); Close s; ClosePart t] (Some O) = Ok (Some 3%nat).
Proof. vm_compute. reflexivity. Qed.

(** the rules of an item that was put, or of a section that ends *)
Theorem branch_of_section_part : forall registered ev form q p n, nth_error form q = Some (Open p) \/ nth_error form q = Some (Close p) ->
  linear (at_ p) = true -> branch_target registered ev form q = Ok n ->
  no_rule ev q (rules (at_ p)) /\ n = S q \/
  exists g, first_rule ev q (rules (at_ p)) g /\
    match g with
    | ExitTest => n = length form
    | To id => registered id = Some (Some (in_part (at_ p))) /\ first_after form q (starts id) n
    | ExitTestPart => exists m, first_after form q ends_part m /\ n = Nat.min (S m) (length form)
    | ExitSection => exists m, first_after form q (fun c => closes c = true) m /\ n = Nat.min (S m) (length form)
    end.
Proof.
  intros registered ev form q p n Hq Hl H.
  assert (Hlen : (q < length form)%nat) by (apply nth_error_Some; destruct Hq; congruence).
  assert (Hr : exists g, rule_target registered ev q (in_part (at_ p)) (rules (at_ p)) = Ok g /\
      match g with None => Ok (S q) | Some ExitTest => Ok (length form) | Some g => scan g (S q) (skipn (S q) form) end = Ok n).
  { unfold branch_target in H. apply bind_ok in H. destruct H as (g & Hg & H). exists g. split; [|exact H].
    unfold get_branch_target in Hg. destruct Hq as [Hq|Hq]; rewrite Hq, Hl in Hg; exact Hg. }
  destruct Hr as (g & Hg & Hn). apply rule_spec in Hg. destruct g as [g|].
  - right. destruct Hg as (Hf & Hreg). exists g. split; [exact Hf|].
    destruct g as [| | |id]; try (injection Hn as <-; reflexivity);
      destruct (scan_first _ form _ q n eq_refl Hlen Hn) as (m & (H1 & H2 & H3) & Hm).
    + exists m. split; [|exact Hm]. split; [exact H1|]. split.
      * intros k c Hk Hc Hs. apply (H2 k c Hk Hc). destruct c; cbn [closes stop] in *; congruence.
      * destruct H3 as [(c & Hc & Hs)|H3]; [left|right; exact H3]. exists c. split; [exact Hc|]. destruct c; cbn [closes stop] in *; congruence.
    + exists m. split; [|exact Hm]. split; [exact H1|]. split.
      * intros k c Hk Hc Hs. apply (H2 k c Hk Hc). destruct c; cbn [ends_part stop] in *; tauto.
      * destruct H3 as [(c & Hc & Hs)|H3]; [left|right; exact H3]. exists c. split; [exact Hc|]. destruct c; cbn [ends_part stop] in *; try discriminate. exact Logic.I.
    + split; [apply Hreg; reflexivity|]. subst m. split; [exact H1|]. split.
      * intros k c Hk Hc Hs. apply (H2 k c Hk Hc). destruct c; cbn [starts stop] in *; try contradiction; apply Nat.eqb_eq; exact Hs.
      * destruct H3 as [(c & Hc & Hs)|H3]; [left|right; exact H3]. exists c. split; [exact Hc|]. destruct c; cbn [starts stop] in *; try discriminate; apply Nat.eqb_eq; exact Hs.
  - left. injection Hn as <-. split; [exact Hg|reflexivity].
Qed.
(** the rules of a test part that ends *)
Theorem branch_of_part : forall registered ev form q t n, nth_error form q = Some (ClosePart t) -> branch_target registered ev form q = Ok n ->
  no_rule ev q (t_rules t) /\ n = S q \/
  exists g, first_rule ev q (t_rules t) g /\
    (g = ExitTest /\ n = length form \/ exists id, g = To id /\ registered id = Some None /\ first_after form q (starts id) n).
Proof.
  intros registered ev form q t n Hq H.
  assert (Hlen : (q < length form)%nat) by (apply nth_error_Some; congruence).
  unfold branch_target in H. rewrite Hq in H. apply bind_ok in H. destruct H as (g & Hg & Hn). apply part_spec in Hg. destruct g as [g|].
  - right. destruct Hg as (Hf & Hreg). exists g. split; [exact Hf|]. destruct Hreg as [->|(id & -> & Hid)].
    + left. injection Hn as <-. split; reflexivity.
    + right. exists id. split; [reflexivity|]. split; [exact Hid|].
      destruct (scan_first _ form _ q n eq_refl Hlen Hn) as (m & (H1 & H2 & H3) & ->). split; [exact H1|]. split.
      * intros k c Hk Hc Hs. apply (H2 k c Hk Hc). destruct c; cbn [starts stop] in *; try contradiction; apply Nat.eqb_eq; exact Hs.
      * destruct H3 as [(c & Hc & Hs)|H3]; [left|right; exact H3]. exists c. split; [exact Hc|]. destruct c; cbn [starts stop] in *; try discriminate; apply Nat.eqb_eq; exact Hs.
  - left. injection Hn as <-. split; [exact Hg|reflexivity].
Qed.
Theorem nonlinear_branches : forall registered ev form q p, nth_error form q = Some (Open p) \/ nth_error form q = Some (Close p) ->
  linear (at_ p) = false -> branch_target registered ev form q = Ok (S q).
Proof. intros registered ev form q p [H|H] Hl; unfold branch_target; rewrite H; unfold get_branch_target; rewrite Hl; reflexivity. Qed.

(** from the question the rules of which decide where to look first, to the next one *)
Lemma seek_path : forall registered ev form n iq r, seek registered ev n form iq = Ok r ->
  exists m, goes_on registered ev form iq m /\ match r with Some q => q = m /\ may_be_put ev form m | None => (length form <= m)%nat end.
Proof.
  intros registered ev form. induction n as [|n IH]; intros iq r; cbn [seek]; [discriminate|].
  destruct (nth_error form iq) as [c|] eqn:Ec.
  2:{ intros [= <-]. exists iq. split; [constructor|]. apply nth_error_None. exact Ec. }
  assert (Hnot : match c with Open (Item _) => False | _ => True end -> ~ may_be_put ev form iq).
  { intros Hd (a & Ha & _). unfold item_at in Ha. rewrite Ec in Ha. injection Ha as ->. exact Hd. }
  assert (Hgo : closes c = false -> ~ may_be_put ev form iq -> seek registered ev n form (S iq) = Ok r ->
    exists m, goes_on registered ev form iq m /\ match r with Some q => q = m /\ may_be_put ev form m | None => (length form <= m)%nat end).
  { intros Hc Hn H. apply IH in H. destruct H as (m & Hm & H). exists m. split; [|exact H]. apply goes_cons with (p' := S iq); [|exact Hm].
    exists c. rewrite Hc. split; [exact Ec|]. split; [exact Hn|reflexivity]. }
  assert (Hb : closes c = true -> (let! j := branch_target registered ev form iq in seek registered ev n form j) = Ok r ->
    exists m, goes_on registered ev form iq m /\ match r with Some q => q = m /\ may_be_put ev form m | None => (length form <= m)%nat end).
  { intros Hc H. apply bind_ok in H. destruct H as (j & Hj & H). apply IH in H. destruct H as (m & Hm & H). exists m. split; [|exact H].
    apply goes_cons with (p' := j); [|exact Hm]. exists c. rewrite Hc. split; [exact Ec|]. split; [|exact Hj]. apply Hnot. destruct c; try discriminate; exact Logic.I. }
  destruct c as [|p|p|t|t|]; try discriminate; try (apply Hb; reflexivity).
  - intros H. apply bind_ok in H. destruct H as (b & Hbb & H). unfold check_pre_conditions in Hbb.
    destruct p as [a|a v k sel sh ch]; cbn [at_ is_section] in *.
    + destruct b; cbn [negb] in H.
      * injection H as <-. exists iq. split; [constructor|]. split; [reflexivity|]. exists a. split; [exact Ec|].
        destruct (linear a); cbn [negb] in Hbb; [|discriminate]. split; [reflexivity|]. apply all_pre_true. exact Hbb.
      * apply Hgo; [reflexivity| |exact H]. intros (a' & Ha & Hl & Hh). unfold item_at in Ha. rewrite Ec in Ha. injection Ha as <-.
        rewrite Hl in Hbb. cbn [negb] in Hbb. apply all_pre_true in Hh. congruence.
    + apply Hgo; [reflexivity|apply Hnot; exact Logic.I|]. destruct b; exact H.
  - intros H. apply bind_ok in H. destruct H as (b & _ & H). apply Hgo; [reflexivity|apply Hnot; exact Logic.I|]. destruct b; exact H.
Qed.
Theorem next_question_path : forall registered ev form q r, next_question registered ev form (Some q) = Ok r ->
  exists j m, (if Nat.eqb q 0 then j = 1%nat else branch_target registered ev form q = Ok j) /\ goes_on registered ev form j m /\
    match r with Some n => n = m /\ may_be_put ev form m | None => (length form <= m)%nat end.
Proof.
  intros registered ev form [|q] r H; cbn [next_question Nat.eqb] in *.
  - apply seek_path in H. destruct H as (m & H). exists 1%nat, m. split; [reflexivity|exact H].
  - apply bind_ok in H. destruct H as (j & Hj & H). apply seek_path in H. destruct H as (m & H). exists j, m. split; [exact Hj|exact H].
Qed.

(** EXIT_SECTION leaves the section, when there is no other section before its end *)
Lemma first_close : forall u c x p v m, Forall (fun d => closes d = false) x ->
  first_after (u ++ c :: x ++ Close p :: v) (length u) (fun d => closes d = true) m -> m = (length u + S (length x))%nat.
Proof.
  intros u c x p v m Hx (H1 & H2 & H3).
  assert (Hat : forall k d, (length u < k)%nat -> (k <= length u + length x)%nat -> nth_error (u ++ c :: x ++ Close p :: v) k = Some d -> closes d = false).
  { intros k d Hk Hk' Hd. rewrite nth_error_app2 in Hd by lia. replace (k - length u)%nat with (S (k - length u - 1)) in Hd by lia. cbn [nth_error] in Hd.
    rewrite nth_error_app1 in Hd by lia. apply nth_error_In in Hd. rewrite Forall_forall in Hx. apply Hx. exact Hd. }
  assert (Hend : nth_error (u ++ c :: x ++ Close p :: v) (length u + S (length x)) = Some (Close p)).
  { rewrite nth_error_app2 by lia. replace (length u + S (length x) - length u)%nat with (S (length x)) by lia. cbn [nth_error].
    rewrite nth_error_app2 by lia. rewrite Nat.sub_diag. reflexivity. }
  assert (Hlen : (length u + S (length x) < length (u ++ c :: x ++ Close p :: v))%nat) by (apply nth_error_Some; congruence).
  destruct (Nat.lt_trichotomy m (length u + S (length x))) as [Hm|[Hm|Hm]]; [|exact Hm|].
  - destruct H3 as [(d & Hd & Hs)|H3]; [|lia]. rewrite (Hat m d) in Hs; [discriminate|lia|lia|exact Hd].
  - exfalso. apply (H2 (length u + S (length x))%nat (Close p)); [lia|exact Hend|reflexivity].
Qed.
Lemma first_rule_fun : forall ev q l g g', first_rule ev q l g -> first_rule ev q l g' -> g = g'.
Proof.
  intros ev q l g g' (l1 & e & l2 & E1 & He & H1) (l3 & e' & l4 & E2 & He' & H2).
  rewrite E1 in E2. apply prefix_app in E2. destruct E2 as [(w & -> & E)|(w & -> & E)].
  - destruct w as [|y w]; cbn [app] in E; [injection E as _ ->; reflexivity|]. injection E as <- _.
    rewrite (H1 e' g') in He'; [discriminate|]. apply in_or_app. right. left. reflexivity.
  - destruct w as [|y w]; cbn [app] in E; [injection E as _ ->; reflexivity|]. injection E as <- _.
    rewrite (H2 e g) in He; [discriminate|]. apply in_or_app. right. left. reflexivity.
Qed.
Theorem exit_section_partial : forall registered ev u c x p v r n, (c = Open r \/ c = Close r) -> linear (at_ r) = true ->
  nested x -> Forall (fun d => closes d = false) x -> first_rule ev (length u) (rules (at_ r)) ExitSection ->
  branch_target registered ev (u ++ c :: x ++ Close p :: v) (length u) = Ok n -> leaves_section (u ++ c :: x ++ Close p :: v) (length u) n.
Proof.
  intros registered ev u c x p v r n Hc Hl Hx Hcl Hf H.
  assert (Hq : nth_error (u ++ c :: x ++ Close p :: v) (length u) = Some c) by (rewrite nth_error_app2 by lia; rewrite Nat.sub_diag; reflexivity).
  apply branch_of_section_part with (p := r) in H; [|destruct Hc as [Hc|Hc]; rewrite Hc in *; [left|right]; exact Hq|exact Hl].
  destruct H as [(Hno & _)|(g & Hg & H)].
  - destruct Hf as (l1 & e & l2 & E & He & _). rewrite (Hno e ExitSection) in He; [discriminate|]. rewrite E. apply in_or_app. right. left. reflexivity.
  - rewrite (first_rule_fun _ _ _ _ _ Hg Hf) in H. destruct H as (m & Hm & ->). apply first_close in Hm; [|exact Hcl].
    exists u, c, x, p, v. split; [reflexivity|]. split; [reflexivity|]. split; [exact Hx|]. subst m. rewrite app_length. cbn [length]. rewrite app_length. cbn [length]. lia.
Qed.
(** it leaves a section that comes before that end instead *)
Definition exits : list comp :=
  let t := tp_ true in let s := s_ 1 [] [] in let s2 := s_ 2 [] [] in
  [Root; OpenPart t; Open s; Open (q_ 3 [] [(1%nat, ExitSection)]); Open s2; Open (q_ 4 [] []); Close s2; Open (q_ 5 [] []); Close s; ClosePart t].
Theorem exit_section_refuted : branch_target reg0 ev0 exits 3 = Ok 7%nat /\ leaves_section exits 3 9 /\
  next_question reg0 ev0 exits (Some 3%nat) = Ok (Some 7%nat).
Proof.
  split; [vm_compute; reflexivity|]. split; [|vm_compute; reflexivity].
  exists [Root; OpenPart (tp_ true); Open (s_ 1 [] [])], (Open (q_ 3 [] [(1%nat, ExitSection)])), [Open (s_ 2 [] []); Open (q_ 4 [] []); Close (s_ 2 [] []); Open (q_ 5 [] [])],
    (s_ 1 [] []), [ClosePart (tp_ true)].
  split; [reflexivity|]. split; [reflexivity|]. split; [|reflexivity].
  apply (nested_section (s_ 2 [] []) [Open (q_ 4 [] [])] [Open (q_ 5 [] [])]); [reflexivity| |]; apply nested_item; constructor.
Qed.
Example ex_exit : branch_target reg0 ev0 [Root; OpenPart (tp_ true); Open (s_ 1 [] []); Open (q_ 3 [] [(0%nat, ExitTest); (1%nat, ExitSection)]); Open (q_ 5 [] []); Close (s_ 1 [] []); ClosePart (tp_ true)] 3 = Ok 6%nat /\
  branch_target reg0 ev0 sample 5 = Ok 9%nat.
Proof. split; vm_compute; reflexivity. Qed.

(** ** C121: durations *)
Lemma fold_add : forall ks dt d k, NoDup ks -> fold_left (fun d k => add_to k dt d) ks d k = if existsb (Nat.eqb k) ks then plus (d k) dt else d k.
Proof.
  induction ks as [|x ks IH]; intros dt d k Hn; cbn [fold_left existsb]; [reflexivity|]. inversion Hn as [|? ? Hx Hn']; subst. rewrite IH by exact Hn'.
  unfold add_to at 1 2. destruct (Nat.eqb k x) eqn:E; cbn [orb].
  - apply Nat.eqb_eq in E. subst x. destruct (existsb (Nat.eqb k) ks) eqn:Ex; [|reflexivity]. apply existsb_exists in Ex. destruct Ex as (y & Hy & E). apply Nat.eqb_eq in E. subst y. contradiction.
  - destruct (existsb (Nat.eqb k) ks); reflexivity.
Qed.
Theorem add_duration_exact : forall l i a dt d k, nested l -> item_at (Root :: l) i a ->
  (runs (Root :: l) k i -> add_duration (Root :: l) (Some i) dt d k = plus (d k) dt) /\
  (~ runs (Root :: l) k i -> add_duration (Root :: l) (Some i) dt d k = d k).
Proof.
  intros l i a dt d k Hl Hi. destruct (enclosing_spec l i a Hl Hi) as (ks & Hks & Hn & Hspec & Hb). destruct i as [|i]; [discriminate|].
  unfold add_duration. rewrite Hks.
  assert (Hin : existsb (Nat.eqb k) ks = true <-> encloses (Root :: l) k (S i)).
  { rewrite <- Hspec, existsb_exists. split; [intros (x & Hx & E); apply Nat.eqb_eq in E; subst x; exact Hx|intros H; exists k; split; [exact H|apply Nat.eqb_refl]]. }
  assert (Hlt : existsb (Nat.eqb k) ks = true -> (0 < k < S i)%nat) by (intros H; apply Hin, Hspec, Hb in H; exact H).
  assert (Hto : forall F, add_to 0 dt F k = if Nat.eqb k 0 then plus (F O) dt else F k) by reflexivity.
  rewrite Hto. rewrite (fold_add ks _ _ k Hn). rewrite (fold_add ks _ _ O Hn).
  destruct (existsb (Nat.eqb O) ks) eqn:E0.
  { apply existsb_exists in E0. destruct E0 as (x & Hx & E). apply Nat.eqb_eq in E. subst x. apply Hb in Hx. lia. }
  unfold add_to, runs. destruct (Nat.eqb k O) eqn:Ek0.
  - apply Nat.eqb_eq in Ek0. subst k. cbn [Nat.eqb]. split; [reflexivity|]. intros H. exfalso. apply H. left. reflexivity.
  - apply Nat.eqb_neq in Ek0. destruct (Nat.eqb k (S i)) eqn:Eki.
    + apply Nat.eqb_eq in Eki. destruct (existsb (Nat.eqb k) ks) eqn:Ex; [specialize (Hlt eq_refl); lia|]. subst k.
      split; [reflexivity|]. intros H. exfalso. apply H. right. left. reflexivity.
    + apply Nat.eqb_neq in Eki. destruct (existsb (Nat.eqb k) ks) eqn:Ex.
      * split; [reflexivity|]. intros H. exfalso. apply H. right. right. apply Hin. reflexivity.
      * split; [|reflexivity]. intros [H|[H|H]]; [contradiction|contradiction|]. apply Hin in H. discriminate.
Qed.
Theorem add_duration_finished : forall form dt d, add_duration form None dt d = d.
Proof. reflexivity. Qed.
(** over a session: the sum of the time of the events at which it runs *)
Fixpoint total (on : nat -> bool) (h : list (nat * Z)) : Z := match h with [] => 0 | (i, dt) :: h => (if on i then dt else 0) + total on h end.
Theorem durations_add_up : forall l h d k on v, nested l -> Forall (fun e => exists a, item_at (Root :: l) (fst e) a) h ->
  (forall i, In i (map fst h) -> on i = true <-> runs (Root :: l) k i) -> d k = Some v ->
  fold_left (fun d e => add_duration (Root :: l) (Some (fst e)) (snd e) d) h d k = Some (v + total on h).
Proof.
  intros l h. induction h as [|[i dt] h IH]; intros d k on v Hl Hh Hon Hd; cbn [fold_left total].
  - rewrite Hd. f_equal. lia.
  - inversion Hh as [|? ? (a & Ha) Hh']; subst. cbn [fst snd] in *. destruct (add_duration_exact l i a dt d k Hl Ha) as (H1 & H2).
    assert (Hi := Hon i (or_introl eq_refl)). rewrite (IH _ k on (v + (if on i then dt else 0))); [f_equal; lia|exact Hl|exact Hh'| |].
    + intros j Hj. apply Hon. right. exact Hj.
    + destruct (on i).
      * rewrite H1 by (apply Hi; reflexivity). rewrite Hd. reflexivity.
      * rewrite H2 by (intros Hr; apply Hi in Hr; discriminate). rewrite Hd. f_equal. lia.
Qed.
Example ex_duration : let d := add_duration exits (Some 5%nat) 10 (fun _ => Some 1) in map d (seq 0 10) =
  [Some 11; Some 11; Some 11; Some 1; Some 11; Some 11; Some 1; Some 1; Some 1; Some 1].
Proof. vm_compute. reflexivity. Qed.

(** ** C122: session keys *)
Section Digest.
  Variable digest : Z -> str.
  Hypothesis inj : forall a b, digest a = digest b -> a = b.
  Hypothesis some : forall a, digest a <> [].
  Fixpoint increasing (t : Z) (l : list Z) : Prop := match l with [] => True | x :: l => t < x /\ increasing x l end.
  Definition good (s : session) (now : Z) (k : str -> Prop) : Prop :=
    key s = digest (t s) /\ t s <= now /\ (forall u, In u (used s) -> (exists a, a < t s /\ u = digest a)) /\ (forall u, In u (key s :: used s) -> k u).
  Lemma created_eq : forall t0, created digest t0 = Session (digest t0) [] t0.
  Proof using. intros t0. reflexivity. Qed.
  Lemma event_good : forall s now k kk t1, good s now k -> now < t1 ->
    let s' := event digest s (kk, t1) in
    good s' t1 (fun u => k u \/ u = digest t1) /\ (forall u, In u (used s) -> In u (used s')) /\
    (forall dt s'', event_update digest kk t1 s = Ok (dt, s'') -> kk = key s /\ dt = t1 - t s /\ t s'' = t1 /\ In kk (used s'') /\ s'' = s').
  Proof using some.
    intros s now k kk t1 (Hk & Hn & Hu & Hkk) Hlt. unfold event. cbn [fst snd]. unfold event_update.
    destruct (str_eqb (key s) kk) eqn:E; cbn [negb].
    - apply str_eqb_eq in E. destruct (key s) as [|z zs] eqn:Ez; [exfalso; apply (some (t s)); symmetry; exact Hk|].
      destruct (t1 - t s =? 0) eqn:E0; [apply Z.eqb_eq in E0; lia|]. cbn zeta. cbn [key used t]. split; [|split].
      + unfold good. cbn [key used t]. split; [reflexivity|]. split; [lia|]. split.
        * intros u [<-|Hin]; [exists (t s); split; [lia|exact Hk]|]. destruct (Hu u Hin) as (a & Ha & ->). exists a. split; [lia|reflexivity].
        * intros u [<-|Hin]; [right; reflexivity|left; apply Hkk; exact Hin].
      + intros u Hin. right. exact Hin.
      + intros dt s'' [= <- <-]. cbn [used t]. repeat split; [congruence|]. left. exact E.
    - cbn zeta. destruct (existsb (str_eqb kk) (used s)); (split; [|split; [tauto|discriminate]]).
      + split; [exact Hk|]. split; [lia|]. split; [exact Hu|]. intros u Hin. left. apply Hkk. exact Hin.
      + split; [exact Hk|]. split; [lia|]. split; [exact Hu|]. intros u Hin. left. apply Hkk. exact Hin.
  Qed.
  Fixpoint final (t0 : Z) (l : list Z) : Z := match l with [] => t0 | x :: l => final x l end.
  Lemma run_good : forall h s now k, good s now k -> increasing now (map snd h) ->
    good (fold_left (event digest) h s) (final now (map snd h)) (fun u => k u \/ exists x, In x (map snd h) /\ u = digest x) /\
    (forall u, In u (used s) -> In u (used (fold_left (event digest) h s))).
  Proof using some.
    induction h as [|[kk t1] h IH]; intros s now k Hg Hi; cbn [fold_left map snd final].
    - destruct Hg as (H1 & H2 & H3 & H4). split; [|tauto]. split; [exact H1|]. split; [exact H2|]. split; [exact H3|]. intros u Hu. left. apply H4. exact Hu.
    - cbn [map snd increasing] in Hi. destruct Hi as (Hlt & Hi). destruct (event_good s now k kk t1 Hg Hlt) as (Hg' & Hmono & _).
      destruct (IH _ _ _ Hg' Hi) as ((H1 & H2 & H3 & H4) & Hm). split; [|intros u Hu; apply Hm, Hmono, Hu].
      split; [exact H1|]. split; [exact H2|]. split; [exact H3|]. intros u Hu. destruct (H4 u Hu) as [[Hk| ->]|(x & Hx & ->)]; [left; exact Hk|right; exists t1; split; [left; reflexivity|reflexivity]|].
      right. exists x. split; [right; exact Hx|reflexivity].
  Qed.
  Lemma start_good : forall t0, good (created digest t0) t0 (fun u => u = digest t0).
  Proof using.
    intros t0. rewrite created_eq. split; [reflexivity|]. split; [cbn [t]; lia|]. split; [intros u []|]. intros u [<-|[]]. reflexivity.
  Qed.
  Lemma not_used : forall s now k, good s now k -> ~ In (key s) (used s).
  Proof using inj. intros s now k (Hk & _ & Hu & _) Hin. apply Hu in Hin. destruct Hin as (a & Ha & E). rewrite Hk in E. apply inj in E. lia. Qed.
  Lemma refused : forall s k now, key s <> k -> event_update digest k now s = Err (if existsb (str_eqb k) (used s) then SessionKeyExpired else SessionKeyMismatch).
  Proof using.
    intros s k now H. unfold event_update. destruct (str_eqb (key s) k) eqn:E; [apply str_eqb_eq in E; congruence|]. cbn [negb].
    destruct (existsb (str_eqb k) (used s)); reflexivity.
  Qed.
  Lemma in_existsb : forall k l, In k l -> existsb (str_eqb k) l = true.
  Proof using. intros k l H. apply existsb_exists. exists k. split; [exact H|]. apply str_eqb_eq. reflexivity. Qed.

  (** a key works once: an event with it gives the time since it was made, and it is expired ever after *)
  Theorem keys_once_partial : forall t0 h1 k now h2 dt s', increasing t0 (map snd (h1 ++ (k, now) :: h2)) ->
    event_update digest k now (after digest t0 h1) = Ok (dt, s') ->
    s' = after digest t0 (h1 ++ [(k, now)]) /\ k = key (after digest t0 h1) /\ t s' = now /\ dt = now - t (after digest t0 h1) /\ 0 < dt /\
    forall later, event_update digest k later (after digest t0 (h1 ++ (k, now) :: h2)) = Err SessionKeyExpired.
  Proof using inj some.
    intros t0 h1 k now h2 dt s' Hi H. rewrite map_app in Hi. cbn [map snd] in Hi.
    assert (Hsplit : increasing t0 (map snd h1) /\ final t0 (map snd h1) < now /\ increasing now (map snd h2)).
    { clear H. revert t0 Hi. induction (map snd h1) as [|x l IH]; intros t0 Hi; cbn [app increasing final] in *; [tauto|].
      destruct Hi as (Hx & Hi). apply IH in Hi. tauto. }
    destruct Hsplit as (Hi1 & Hlt & Hi2). destruct (run_good h1 _ _ _ (start_good t0) Hi1) as (Hg & _). fold (after digest t0 h1) in Hg.
    destruct (event_good _ _ _ k now Hg Hlt) as (Hg' & _ & Hev). destruct (Hev dt s' H) as (Hk & Hdt & Hts & Hin & Hs').
    assert (Hafter : s' = after digest t0 (h1 ++ [(k, now)])) by (unfold after; rewrite fold_left_app; exact Hs').
    split; [exact Hafter|]. split; [exact Hk|]. split; [exact Hts|]. split; [exact Hdt|]. split; [destruct Hg as (_ & Hg & _); lia|].
    intros later. unfold after. rewrite fold_left_app. cbn [fold_left]. fold (after digest t0 h1). rewrite <- Hs' in *.
    destruct (run_good h2 _ _ _ Hg' Hi2) as (Hg2 & Hm). apply Hm in Hin. rewrite refused.
    - rewrite (in_existsb _ _ Hin). reflexivity.
    - intros E. apply (not_used _ _ _ Hg2). rewrite E. exact Hin.
  Qed.
  (** what never was a key is refused, and nothing changes *)
  Theorem keys_unknown : forall t0 h k now, increasing t0 (map snd h) -> (forall x, In x (t0 :: map snd h) -> k <> digest x) ->
    event_update digest k now (after digest t0 h) = Err SessionKeyMismatch.
  Proof using some.
    intros t0 h k now Hi Hk. destruct (run_good h _ _ _ (start_good t0) Hi) as ((H1 & H2 & H3 & H4) & _). fold (after digest t0 h) in *.
    assert (Hno : ~ In k (key (after digest t0 h) :: used (after digest t0 h))).
    { intros Hin. apply H4 in Hin. destruct Hin as [->|(x & Hx & ->)]; [apply (Hk t0); [left; reflexivity|reflexivity]|apply (Hk x); [right; exact Hx|reflexivity]]. }
    rewrite refused by (intros E; apply Hno; left; exact E). destruct (existsb (str_eqb k) (used (after digest t0 h))) eqn:E; [|reflexivity].
    apply existsb_exists in E. destruct E as (y & Hy & E). apply str_eqb_eq in E. subst y. exfalso. apply Hno. right. exact Hy.
  Qed.
  (** the current key works *)
  Theorem keys_current : forall t0 h now, increasing t0 (map snd h) -> exists r, event_update digest (key (after digest t0 h)) now (after digest t0 h) = Ok r.
  Proof using some.
    intros t0 h now Hi. destruct (run_good h _ _ _ (start_good t0) Hi) as ((H1 & _) & _). fold (after digest t0 h) in *. unfold event_update.
    rewrite (proj2 (str_eqb_eq _ _) eq_refl). cbn [negb]. destruct (key (after digest t0 h)) as [|z zs]; [exfalso; exact (some _ (eq_sym H1))|].
    destruct (now - t (after digest t0 h) =? 0); eauto.
  Qed.
End Digest.
(** when the clock gives the same time three times, an old key is the current one again, and time goes backwards *)
Theorem keys_once_refuted : forall digest : Z -> str, (forall a, digest a <> []) -> (forall a b, digest a = digest b -> a = b) -> let k := digest 5 in
  (exists s, event_update digest k 5 (created digest 5) = Ok (1, s)) /\
  (exists s, event_update digest (digest 6) 5 (after digest 5 [(k, 5)]) = Ok (-1, s)) /\
  exists r, event_update digest k 9 (after digest 5 [(k, 5); (digest 6, 5)]) = Ok r.
Proof.
  intros digest some inj k.
  assert (Hk : forall a, str_eqb (digest a) (digest a) = true) by (intros a; apply str_eqb_eq; reflexivity).
  assert (Hd : forall a, exists z zs, digest a = z :: zs) by (intros a; destruct (digest a) as [|z zs] eqn:E; [exfalso; exact (some a E)|eauto]).
  assert (H1 : event_update digest k 5 (created digest 5) = Ok (1, Session (digest 6) [k] 6)).
  { rewrite created_eq. unfold event_update. cbn [key used t]. unfold k. rewrite Hk. cbn [negb]. destruct (Hd 5) as (z & zs & ->). reflexivity. }
  assert (H2 : event_update digest (digest 6) 5 (Session (digest 6) [k] 6) = Ok (-1, Session k [digest 6; k] 5)).
  { unfold event_update. cbn [key used t]. rewrite Hk. cbn [negb]. destruct (Hd 6) as (z & zs & ->). reflexivity. }
  assert (E1 : after digest 5 [(k, 5)] = Session (digest 6) [k] 6).
  { unfold after. cbn [fold_left]. unfold event at 1. cbn [fst snd]. rewrite H1. reflexivity. }
  assert (E2 : after digest 5 [(k, 5); (digest 6, 5)] = Session k [digest 6; k] 5).
  { change (after digest 5 [(k, 5); (digest 6, 5)]) with (event digest (after digest 5 [(k, 5)]) (digest 6, 5)). rewrite E1. unfold event. cbn [fst snd]. rewrite H2. reflexivity. }
  split; [eauto|]. split; [rewrite E1; eauto|]. rewrite E2. unfold event_update. cbn [key used t]. unfold k. rewrite Hk. cbn [negb].
  destruct (Hd 5) as (z & zs & ->). eexists. reflexivity.
Qed.
Example ex_keys : let digest := fun x : Z => [x] in increasing 5 (map snd [(digest 5, 8); (digest 7, 9)]) /\
  event_update digest [5] 8 (created digest 5) = Ok (3, after digest 5 [([5], 8)]) /\
  event_update digest [5] 10 (after digest 5 [([5], 8); ([8], 9)]) = Err SessionKeyExpired.
Proof. cbn. repeat split; lia. Qed.

Print Assumptions next_question_ends.
Print Assumptions questions_in_order.
Print Assumptions finished_stays.
Print Assumptions nonlinear_refuted.
Print Assumptions next_question_partial.
Print Assumptions section_precondition_refuted.
Print Assumptions part_precondition_refuted.
Print Assumptions branch_of_section_part.
Print Assumptions branch_of_part.
Print Assumptions nonlinear_branches.
Print Assumptions exit_section_partial.
Print Assumptions exit_section_refuted.
Print Assumptions add_duration_exact.
Print Assumptions add_duration_finished.
Print Assumptions durations_add_up.
Print Assumptions keys_once_partial.
Print Assumptions keys_unknown.
Print Assumptions keys_current.
Print Assumptions keys_once_refuted.
Print Assumptions next_question_path.
