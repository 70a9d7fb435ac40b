(** Model of pyslet/unicode5.py, class CharClass (lines 104-668).

    A CharClass holds [self.ranges], a Python list of two-element lists
    [[lo, hi]] of one-character strings.  A range list is a mutable object that
    several classes can share, so a range is modelled as a record carrying the
    identity [rid] of its cell; creating a new two-element list allocates a fresh
    identity, assigning to [ranges[i][0]] keeps it.  Characters are code points.
    force_text (py2.py 194-197) is the identity on text and is omitted. *)
From Verif Require Import Py.

Record rng := mkr { rid : nat; rlo : Z; rhi : Z }.
Notation ranges := (list rng).

(** unicode5.py 644-668 [_bisection_search]; recursion on fuel. *)
Fixpoint bisect (fuel : nat) (l : ranges) (c : Z) (rmin rmax : nat) : res (bool * nat) :=
  match fuel with
  | O => Err Timeout
  | S fuel' =>
    if (rmin =? rmax)%nat then
      let! r := get l rmin in
      if rhi r <? c then Ok (false, S rmin)
      else if c <? rlo r then Ok (false, rmin)
      else Ok (true, rmin)
    else
      let rtry := ((rmin + rmax) / 2)%nat in
      let! r := get l rtry in
      if c <=? rhi r then bisect fuel' l c rmin rtry
      else bisect fuel' l c (S rtry) rmax
  end.

(** the call [self._bisection_search(c, 0, len(self.ranges) - 1)] *)
Definition search (l : ranges) (c : Z) : res (bool * nat) :=
  bisect (S (length l)) l c 0 (length l - 1).

(** A mutation of the list of ranges: next fresh cell identity and list. *)
Definition rstate := (nat * ranges)%type.

(** unicode5.py 529-548 [_merge] *)
Definition merge (n : nat) (l : ranges) (index : nat) : res rstate :=
  let! r := get l index in
  let! index_a :=
    (if (0 <? index)%nat then
       let! p := get l (index - 1) in
       if rlo r - 1 <=? rhi p then Ok (index - 1)%nat else Ok index
     else Ok index) in
  let! index_z :=
    (if (index <? length l - 1)%nat then
       let! q := get l (S index) in
       if rlo q <=? rhi r + 1 then Ok (S index) else Ok index
     else Ok index) in
  if (index_a =? index_z)%nat then Ok (n, l)
  else
    let! ra := get l index_a in
    let! rz := get l index_z in
    Ok (S n, slice_assign index_a (S index_z) [mkr n (rlo ra) (rhi rz)] l).

(** unicode5.py 326-374 [add_range]; the boolean says whether the cache is cleared
    (the early return at line 346 skips [_clear_cache]). *)
Definition add_range (n : nat) (l : ranges) (a0 z0 : Z) : res (rstate * bool) :=
  let (a, z) := if z0 <? a0 then (z0, a0) else (a0, z0) in
  match l with
  | [] => Ok ((S n, [mkr n a z]), true)
  | _ =>
    let! (match_a, index_a) := search l a in
    let! (match_z, index_z) := search l z in
    if match_a then
      if match_z then
        if (index_a =? index_z)%nat then Ok ((n, l), false)
        else
          let! ra := get l index_a in
          let! rz := get l index_z in
          let! s := merge (S n)
                     (slice_assign index_a (S index_z) [mkr n (rlo ra) (rhi rz)] l) index_a in
          Ok (s, true)
      else
        let! ra := get l index_a in
        let! s := merge (S n) (slice_assign index_a index_z [mkr n (rlo ra) z] l) index_a in
        Ok (s, true)
    else if match_z then
      let! rz := get l index_z in
      let! s := merge (S n) (slice_assign index_a (S index_z) [mkr n a (rhi rz)] l) index_a in
      Ok (s, true)
    else
      let! s := merge (S n) (slice_assign index_a index_z [mkr n a z] l) index_a in
      Ok (s, true)
  end.

(** [self.ranges[i][0] = character(v)] and [self.ranges[i][1] = character(v)] *)
Definition set_lo (l : ranges) (i : nat) (v : Z) : res ranges :=
  let! r := get l i in
  let! v' := character v in
  Ok (set_nth l i (mkr (rid r) v' (rhi r))).
Definition set_hi (l : ranges) (i : nat) (v : Z) : res ranges :=
  let! r := get l i in
  let! v' := character v in
  Ok (set_nth l i (mkr (rid r) (rlo r) v')).

(** unicode5.py 376-459 [subtract_range] *)
Definition subtract_range (n : nat) (l : ranges) (a0 z0 : Z) : res rstate :=
  let (a, z) := if z0 <? a0 then (z0, a0) else (a0, z0) in
  match l with
  | [] => Ok (n, l)
  | _ =>
    let! (match_a, index_a) := search l a in
    let! (match_z, index_z) := search l z in
    if match_a then
      if match_z then
        if (index_a =? index_z)%nat then
          let! r := get l index_a in
          let rlower := rlo r in
          let rupper := rhi r in
          if (rlower =? rupper) || ((rlower =? a) && (rupper =? z)) then
            Ok (n, slice_assign index_a (S index_a) [] l)
          else if rlower =? a then
            let! l1 := set_lo l index_a (z + 1) in Ok (n, l1)
          else if rupper =? z then
            let! l1 := set_hi l index_a (a - 1) in Ok (n, l1)
          else
            let! l1 := set_hi l index_a (a - 1) in
            let! c := character (z + 1) in
            Ok (S n, slice_assign (S index_a) (S index_a) [mkr n c rupper] l1)
        else
          let! r := get l index_a in
          let! (l1, snip_a) :=
            (if (rlo r =? rhi r) || (a =? rlo r) then Ok (l, index_a)
             else let! l1 := set_hi l index_a (a - 1) in Ok (l1, S index_a)) in
          let! r2 := get l1 index_z in
          let! (l2, snip_z) :=
            (if (rlo r2 =? rhi r2) || (z =? rhi r2) then Ok (l1, S index_z)
             else let! l2 := set_lo l1 index_z (z + 1) in Ok (l2, index_z)) in
          if (snip_a <=? snip_z)%nat then Ok (n, slice_assign snip_a snip_z [] l2)
          else Ok (n, l2)
      else
        let! r := get l index_a in
        let! (l1, snip) :=
          (if (rlo r =? rhi r) || (a =? rlo r) then Ok (l, index_a)
           else let! l1 := set_hi l index_a (a - 1) in Ok (l1, S index_a)) in
        Ok (n, slice_assign snip index_z [] l1)
    else if match_z then
      let! r := get l index_z in
      let! (l1, snip) :=
        (if (rlo r =? rhi r) || (z =? rhi r) then Ok (l, S index_z)
         else let! l1 := set_lo l index_z (z + 1) in Ok (l1, index_z)) in
      Ok (n, slice_assign index_a snip [] l1)
    else
      Ok (n, slice_assign index_a index_z [] l)
  end.

(** unicode5.py 461-471 [add_char] *)
Definition add_char (n : nat) (l : ranges) (c : Z) : res rstate :=
  match l with
  | [] => Ok (S n, [mkr n c c])
  | _ =>
    let! (m, index) := search l c in
    if m then Ok (n, l)
    else merge (S n) (slice_assign index index [mkr n c c] l) index
  end.

(** unicode5.py 473-492 [subtract_char] *)
Definition subtract_char (n : nat) (l : ranges) (c : Z) : res rstate :=
  match l with
  | [] => Ok (n, l)
  | _ =>
    let! (m, index) := search l c in
    if m then
      let! r := get l index in
      let a := rlo r in
      let z := rhi r in
      if a =? z then Ok (n, slice_assign index (S index) [] l)
      else if a =? c then let! l1 := set_lo l index (a + 1) in Ok (n, l1)
      else if z =? c then let! l1 := set_hi l index (z - 1) in Ok (n, l1)
      else
        let! l1 := set_hi l index (c - 1) in
        let! v := character (c + 1) in
        Ok (S n, slice_assign (S index) (S index) [mkr n v z] l1)
    else Ok (n, l)
  end.

(** unicode5.py 322-324 [__eq__]: list equality of the two-element lists (cells are
    compared by content). *)
Fixpoint ranges_eqb (l1 l2 : ranges) : bool :=
  match l1, l2 with
  | [], [] => true
  | r1 :: t1, r2 :: t2 => (rlo r1 =? rlo r2) && (rhi r1 =? rhi r2) && ranges_eqb t1 t2
  | _, _ => false
  end.

(** unicode5.py 634-642 [test_slow] (c is a character; None gives False) *)
Definition test_slow (l : ranges) (c : Z) : res bool :=
  match l with
  | [] => Ok false
  | _ => let! (m, _) := search l c in Ok m
  end.

(** * The block cache, unicode5.py 550-632 *)
Definition cache := list (option (list bool)).
(** 550-551 [_clear_cache] *)
Definition clear_cache : cache := repeat None 256.

(** the body of the loop at 600-619: one iteration for each further code in the block.
    [mt] is [match], [rm] is [rmatch] with its [cmin], [cmax]. *)
Definition rm_of (l : ranges) (index : nat) : option (Z * Z) :=
  match nth_error l index with Some r => Some (rlo r, rhi r) | None => None end.

Fixpoint fill (steps : nat) (l : ranges) (mt : bool) (index : nat)
         (rm : option (Z * Z)) (ccode : Z) : list bool :=
  match steps with
  | O => []
  | S steps' =>
    let ccode := ccode + 1 in
    let left := mt && match rm with Some (_, cmax) => cmax <? ccode | None => false end in
    if mt && negb left then
      true :: fill steps' l true index rm ccode
    else
      let index := if left then S index else index in
      let rm := if left then rm_of l index else rm in
      match rm with
      | Some (cmin, _) =>
        if cmin <=? ccode then true :: fill steps' l true index rm ccode
        else false :: fill steps' l false index rm ccode
      | None => false :: fill steps' l false index rm ccode
      end
  end.

(** the block built at 586-620 for block number [b] *)
Definition make_block (l : ranges) (b : Z) : res (list bool) :=
  let! c0 := character (b * 256) in
  let! (mt, index) := search l c0 in
  Ok (mt :: fill 255 l mt index (rm_of l index) (b * 256)).

(** 553-632 [test]: result and new cache.  A block number of 256 or more indexes
    outside the cache: IndexError, handled by the standard search. *)
Definition test (l : ranges) (bc : cache) (c : Z) : res (bool * cache) :=
  match l with
  | [] => Ok (false, bc)
  | _ =>
    let b := Z.shiftr c 8 in
    let pos := Z.land c 255 in
    match nth_error bc (Z.to_nat b) with
    | None => let! (m, _) := search l c in Ok (m, bc)
    | Some (Some blk) => let! v := get blk (Z.to_nat pos) in Ok (v, bc)
    | Some None =>
      let! blk := make_block l b in
      let! v := get blk (Z.to_nat pos) in
      Ok (v, set_nth bc (Z.to_nat b) (Some blk))
    end
  end.

(** * Several classes sharing range cells *)

(** An instance: the identities of the cells in [self.ranges] and [self._block_cache]. *)
Record obj := mko { otags : list nat; ocache : cache }.
(** The interpreter state: contents of every cell, next fresh cell, instances. *)
Record world := mkw { heap : nat -> Z * Z; wnext : nat; objs : list obj }.

Definition cell (w : world) (t : nat) : rng := mkr t (fst (heap w t)) (snd (heap w t)).
Definition oranges (w : world) (o : obj) : ranges := map (cell w) (otags o).

(** storing the cells of a range list *)
Fixpoint store (h : nat -> Z * Z) (l : ranges) : nat -> Z * Z :=
  match l with
  | [] => h
  | r :: l' => fun t => if (t =? rid r)%nat then (rlo r, rhi r) else store h l' t
  end.

(** instance [i] now has ranges [l]; its cache is cleared if [clr] *)
Definition put (w : world) (i : nat) (s : rstate) (clr : bool) : world :=
  let o := nth i (objs w) (mko [] clear_cache) in
  mkw (store (heap w) (snd s)) (fst s)
      (set_nth (objs w) i
         (mko (map rid (snd s)) (if clr then clear_cache else ocache o))).

Definition getobj (w : world) (i : nat) : res obj := get (objs w) i.

(** [for r in other.ranges: self.<op>(r[0], r[1])]: Python list iteration re-reads the
    list of the other instance by position, and its cells, at every turn. *)
Fixpoint for_ranges (fuel : nat) (body : world -> Z -> Z -> res world)
         (w : world) (other k : nat) : res world :=
  match fuel with
  | O => Err Timeout
  | S fuel' =>
    let! o := getobj w other in
    match nth_error (otags o) k with
    | None => Ok w
    | Some t =>
      let! w1 := body w (fst (heap w t)) (snd (heap w t)) in
      for_ranges fuel' body w1 other (S k)
    end
  end.

Definition w_add_range (i : nat) (w : world) (a z : Z) : res world :=
  let! o := getobj w i in
  let! (s, clr) := add_range (wnext w) (oranges w o) a z in
  Ok (put w i s clr).
Definition w_subtract_range (i : nat) (w : world) (a z : Z) : res world :=
  let! o := getobj w i in
  let! s := subtract_range (wnext w) (oranges w o) a z in
  Ok (put w i s true).
Definition w_add_char (i : nat) (w : world) (c : Z) : res world :=
  let! o := getobj w i in
  let! s := add_char (wnext w) (oranges w o) c in
  Ok (put w i s true).
Definition w_subtract_char (i : nat) (w : world) (c : Z) : res world :=
  let! o := getobj w i in
  let! s := subtract_char (wnext w) (oranges w o) c in
  Ok (put w i s true).

(** number of turns allowed when iterating over the ranges of [i]: one more than its length
    (the theorems show that no call runs out of turns) *)
Definition iter_fuel (w : world) (i : nat) : nat :=
  match nth_error (objs w) i with Some o => S (length (otags o)) | None => 1 end.

Definition setobj (w : world) (i : nat) (o : obj) : world :=
  mkw (heap w) (wnext w) (set_nth (objs w) i o).

(** unicode5.py 494-505 [add_class]: instance [i], argument instance [j].  When [i] has no
    ranges the cells of [j] themselves are appended (line 504).  (With [i = j] and no ranges
    nothing is appended.) *)
Definition w_add_class (i j : nat) (w : world) : res world :=
  let! o := getobj w i in
  let! w1 :=
    match otags o with
    | _ :: _ => for_ranges (iter_fuel w j) (w_add_range i) w j 0
    | [] => let! oj := getobj w j in Ok (setobj w i (mko (otags oj) (ocache o)))
    end in
  let! o1 := getobj w1 i in
  Ok (setobj w1 i (mko (otags o1) clear_cache)).

(** unicode5.py 507-511 [subtract_class] *)
Definition w_subtract_class (i j : nat) (w : world) : res world :=
  let! w1 := for_ranges (iter_fuel w j) (w_subtract_range i) w j 0 in
  let! o1 := getobj w1 i in
  Ok (setobj w1 i (mko (otags o1) clear_cache)).

(** a new instance with no ranges: unicode5.py 177-179 with no arguments *)
Definition w_new (w : world) : world :=
  mkw (heap w) (wnext w) (objs w ++ [mko [] clear_cache]).

(** unicode5.py 513-527 [negate]: a temporary instance, the full range, minus [i]; the
    temporary is the last instance and is dropped afterwards. *)
Definition w_negate (i : nat) (w : world) : res world :=
  let k := length (objs w) in
  let! w1 := w_add_range k (w_new w) 0 maxunicode in
  let! w2 := w_subtract_class k i w1 in
  let! tmp := getobj w2 k in
  let! o := getobj w2 i in
  let w3 := setobj w2 i (mko (otags tmp) clear_cache) in
  Ok (mkw (heap w3) (wnext w3) (firstn k (objs w3))).

(** unicode5.py 553-632 [test] on instance [i] *)
Definition w_test (i : nat) (w : world) (c : Z) : res (bool * world) :=
  let! o := getobj w i in
  let! (b, bc) := test (oranges w o) (ocache o) c in
  Ok (b, setobj w i (mko (otags o) bc)).

(** unicode5.py 322-324 [__eq__] on instances *)
Definition w_eq (i j : nat) (w : world) : res bool :=
  let! o1 := getobj w i in
  let! o2 := getobj w j in
  Ok (ranges_eqb (oranges w o1) (oranges w o2)).

(** The public calls.  The constructor with arguments (177-190) is New followed by one
    AddChar per character of a string argument, AddRange for a pair, AddClass for an instance. *)
Inductive call :=
| New
| AddChar (i : nat) (c : Z)
| AddRange (i : nat) (a z : Z)
| AddClass (i j : nat)
| SubtractChar (i : nat) (c : Z)
| SubtractRange (i : nat) (a z : Z)
| SubtractClass (i j : nat)
| Negate (i : nat)
| Test (i : nat) (c : Z).

Definition do_call (w : world) (k : call) : res world :=
  match k with
  | New => Ok (w_new w)
  | AddChar i c => w_add_char i w c
  | AddRange i a z => w_add_range i w a z
  | AddClass i j => w_add_class i j w
  | SubtractChar i c => w_subtract_char i w c
  | SubtractRange i a z => w_subtract_range i w a z
  | SubtractClass i j => w_subtract_class i j w
  | Negate i => w_negate i w
  | Test i c => let! (_, w') := w_test i w c in Ok w'
  end.

Fixpoint run (w : world) (h : list call) : res world :=
  match h with
  | [] => Ok w
  | k :: h' => let! w' := do_call w k in run w' h'
  end.

(** the interpreter before any CharClass exists *)
Definition w0 : world := mkw (fun _ => (0, 0)) 0 [].

(** * String form *)

(** unicode5.py 211-218 [_set_controls], 231-237 [_re_controls] (no backspace) *)
Definition set_controls (c : Z) : option Z :=
  if c =? 7 then Some (ch "a") else if c =? 8 then Some (ch "b")
  else if c =? 9 then Some (ch "t") else if c =? 10 then Some (ch "n")
  else if c =? 11 then Some (ch "v") else if c =? 12 then Some (ch "f")
  else if c =? 13 then Some (ch "r") else None.
Definition re_controls (c : Z) : option Z := if c =? 8 then None else set_controls c.

(** unicode5.py 223-228 [_set_escape] *)
Definition set_escape (c : Z) : str :=
  if zin c (lit "-\]") then [92; c]
  else match set_controls c with Some e => [92; e] | None => [c] end.
(** unicode5.py 240-246 [_re_escape] *)
Definition re_escape (c : Z) : str :=
  if zin c (lit ".^$*+?{}\[]|()") then [92; c]
  else match re_controls c with Some e => [92; e] | None => [c] end.

(** unicode5.py 248 [_empty_range] *)
Definition empty_range : str := lit "[^\x00-" ++ [maxunicode] ++ lit "]".

(** the ranges of [CharClass(self).negate()], 262-263 with 513-527: full range minus each
    range.  The copy's shared cells are only read. *)
Fixpoint sub_all (n : nat) (l : ranges) (from : ranges) : res rstate :=
  match l with
  | [] => Ok (n, from)
  | r :: l' => let! (n', from') := subtract_range n from (rlo r) (rhi r) in sub_all n' l' from'
  end.
Definition negated (l : ranges) : res ranges :=
  let! (_, l') := sub_all 1 l [mkr 0 0 maxunicode] in Ok l'.

(** 284-297: the text of one range, with the start of the range already adjusted for '^' *)
Definition range_text (r0 r1 : Z) : str :=
  if r1 <? r0 then []
  else if r0 =? r1 then set_escape r0
  else if r0 + 1 =? r1 then set_escape r0 ++ set_escape r1
  else set_escape r0 ++ [45] ++ set_escape r1.
Definition set_body (l : ranges) : str :=
  flat_map (fun r => range_text (if rlo r =? 94 then 95 else rlo r) (rhi r)) l
  ++ (if existsb (fun r => rlo r =? 94) l then [94] else []).

(** 270-272: values of _re_controls *)
Definition is_re_control_value (s : str) : bool :=
  existsb (str_eqb s) [lit "\a"; lit "\t"; lit "\n"; lit "\v"; lit "\f"; lit "\r"].

(** unicode5.py 250-300 [__unicode__]; recursion (line 264) on fuel *)
Fixpoint to_str (fuel : nat) (l : ranges) : res str :=
  match fuel with
  | O => Err Timeout
  | S fuel' =>
    match l with
    | [] => Ok empty_range
    | _ =>
      if rhi (last l (mkr 0 0 0)) =? maxunicode then
        let! neg := negated l in
        let! result := to_str fuel' neg in
        match result with
        | [] => Err IndexError
        | c :: r =>
          if c =? 91 then Ok (lit "[^" ++ removelast r ++ lit "]")
          else if c =? 92 then
            if str_eqb result (lit "\]") then Ok (lit "[^\]]")
            else if is_re_control_value result then Ok (lit "[^" ++ result ++ lit "]")
            else let! d := get result 1 in Ok (lit "[^" ++ [d] ++ lit "]")
          else Ok (lit "[^" ++ result ++ lit "]")
        end
      else
        match l with
        | [r] => if rlo r =? rhi r then Ok (re_escape (rlo r))
                 else Ok (lit "[" ++ set_body l ++ lit "]")
        | _ => Ok (lit "[" ++ set_body l ++ lit "]")
        end
    end
  end.

(** [str(c)] of an instance: two levels suffice, a negated class does not end at maxunicode *)
Definition w_str (i : nat) (w : world) : res str :=
  let! o := getobj w i in to_str 3 (oranges w o).

(** unicode5.py 634-642 [test_slow] on instance [i] *)
Definition w_test_slow (i : nat) (w : world) (c : Z) : res bool :=
  let! o := getobj w i in test_slow (oranges w o) c.
