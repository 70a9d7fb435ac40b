(** Model of the in-memory data service: pyslet/odata2/memds.py with the parts of csdl.py it uses.

    Entity sets and association sets are numbered.  Only the keys of entities are modelled (a key is an
    integer; the values of the other properties and the media streams are left out), and only keys given
    by the caller (no auto_key).  The operations are run one after the other (memds takes a lock for most of
    them).  Every association set is assumed to be bound to a navigation property of at least one of its ends
    (memds makes no index for one that is not).  A dictionary of sets is a function to [option (list Z)];
    a set is a list without repetitions, its order of iteration is given by [ord], a parameter. *)
From Verif Require Import Py.

Definition zmem (x : Z) (l : list Z) : bool := existsb (Z.eqb x) l.
Definition zremove (x : Z) (l : list Z) : list Z := filter (fun y => negb (x =? y)) l.

(** ** The schema *)
Inductive mult := ZeroToOne | One | Many.
Definition is_one (m : mult) : bool := match m with One => true | _ => false end.
Definition is_many (m : mult) : bool := match m with Many => true | _ => false end.
(** an association set, memds.py 785-824: the index is made for the first navigation property found, whose
    entity set is the from-end; [a_rev]: the other end has a navigation property too.  [a_mfrom] and [a_mto] are
    the multiplicities of the two ends *)
Record assoc := mkassoc { a_from : nat; a_to : nat; a_mfrom : mult; a_mto : mult; a_rev : bool }.
(** an end: the association set, and whether it is the to-end.  [ends] lists all the ends in the order of
    the container, which is the order of linkEnds (csdl.py 4681-4699) *)
Definition end_ := (nat * bool)%type.
Record schema := mkschema { nsets : nat; assocs : nat -> option assoc; ends : list end_ }.
Definition set_of (A : assoc) (is_to : bool) : nat := if is_to then a_to A else a_from A.
Definition mult_of (A : assoc) (is_to : bool) : mult := if is_to then a_mto A else a_mfrom A.
(** the end has a navigation property *)
Definition has_nav (A : assoc) (is_to : bool) : bool := if is_to then a_rev A else true.
Definition end_eqb (x y : end_) : bool := Nat.eqb (fst x) (fst y) && Bool.eqb (snd x) (snd y).

(** ** The state *)
(** memds.py 35-53, 280-297: the keys of the data, _deleting, index and reverseIndex *)
Record st := mkst { data : nat -> list Z; del : nat -> list Z; index : nat -> Z -> option (list Z); rindex : nat -> Z -> option (list Z) }.
Definition empty : st := mkst (fun _ => []) (fun _ => []) (fun _ _ => None) (fun _ _ => None).
Definition upd {V} (f : nat -> V) (n : nat) (v : V) : nat -> V := fun m => if Nat.eqb m n then v else f m.
Definition updz {V} (f : Z -> V) (n : Z) (v : V) : Z -> V := fun m => if m =? n then v else f m.
Definition set_data (s : st) (d : nat -> list Z) : st := mkst d (del s) (index s) (rindex s).
Definition set_del (s : st) (d : nat -> list Z) : st := mkst (data s) d (index s) (rindex s).
Definition set_index (s : st) (a : nat) (f : Z -> option (list Z)) : st := mkst (data s) (del s) (upd (index s) a f) (rindex s).
Definition set_rindex (s : st) (a : nat) (f : Z -> option (list Z)) : st := mkst (data s) (del s) (index s) (upd (rindex s) a f).

Section Ord.
  Variable ord : list Z -> list Z.
  Definition items (o : option (list Z)) : list Z := match o with Some l => ord l | None => [] end.
  (** memds.py 337-340 [get_links_from], 342-345 [get_links_to] *)
  Definition links_from (s : st) (a : nat) (k : Z) : list Z := items (index s a k).
  Definition links_to (s : st) (a : nat) (k : Z) : list Z := items (rindex s a k).
  Definition zadd (x : Z) (o : option (list Z)) : option (list Z) :=
    match o with Some l => Some (if zmem x l then l else l ++ [x]) | None => Some [x] end.
  (** memds.py 331-335 [add_link] *)
  Definition add_link (s : st) (a : nat) (f t : Z) : st :=
    let s := set_index s a (updz (index s a) f (zadd t (index s a f))) in
    set_rindex s a (updz (rindex s a) t (zadd f (rindex s a t))).
  (** memds.py 347-351 [remove_link] *)
  Definition remove_link (s : st) (a : nat) (f t : Z) : st :=
    let s := set_index s a (updz (index s a) f (option_map (zremove t) (index s a f))) in
    set_rindex s a (updz (rindex s a) t (option_map (zremove f) (rindex s a t))).
  (** memds.py 353-364 [delete_hook], 366-377 [rdelete_hook]: a KeyError ends the loop and is ignored *)
  Fixpoint unhook (l : list Z) (x : Z) (m : Z -> option (list Z)) : (Z -> option (list Z)) * bool :=
    match l with
    | [] => (m, true)
    | y :: r =>
      match m y with
      | None => (m, false)
      | Some xs =>
        if zmem x xs then
          let xs' := zremove x xs in
          unhook r x (updz m y (match xs' with [] => None | _ => Some xs' end))
        else (m, false)
      end
    end.
  Definition delete_hook (a : nat) (k : Z) (s : st) : st :=
    match index s a k with
    | None => s
    | Some l =>
      let (m, ok) := unhook (ord l) k (rindex s a) in
      let s := set_rindex s a m in
      if ok then set_index s a (updz (index s a) k None) else s
    end.
  Definition rdelete_hook (a : nat) (k : Z) (s : st) : st :=
    match rindex s a k with
    | None => s
    | Some l =>
      let (m, ok) := unhook (ord l) k (index s a) in
      let s := set_index s a m in
      if ok then set_rindex s a (updz (rindex s a) k None) else s
    end.

  Variable sc : schema.
  (** the ends at an entity set, without repetitions in the schema *)
  Definition ends_of (E : nat) : list end_ :=
    filter (fun e => match assocs sc (fst e) with Some A => Nat.eqb (set_of A (snd e)) E | None => false end) (ends sc).
  (** memds.py 249-257 [delete_entity]: the hooks of the associations from and to the set *)
  Definition delete_entity (E : nat) (k : Z) (s : st) : st * res unit :=
    let s := fold_left (fun s (e : end_) => if snd e then s else delete_hook (fst e) k s) (ends_of E) s in
    let s := fold_left (fun s (e : end_) => if snd e then rdelete_hook (fst e) k s else s) (ends_of E) s in
    if zmem k (data s E) then (set_data s (upd (data s) E (zremove k (data s E))), Ok tt) else (s, Err KeyError).

  (** memds.py 483-542 [EntityCollection.__delitem__] with 219-247, in three parts.  508-523 and 530-539, the loop over the
      linked entities; [dl] deletes one entity *)
  Definition each_link (dl : nat -> Z -> st -> st * res unit) (nav forward : bool) (a target : nat) (k : Z) : list Z -> st -> st * res unit :=
    fix go (keys : list Z) (s : st) : st * res unit :=
      match keys with
      | [] => (s, Ok tt)
      | x :: keys =>
        if negb nav && negb (zmem x (del s target)) then (s, Err NavigationError)
        else
          let s := if forward then remove_link s a k x else remove_link s a x k in
          let (s, r) := dl target x s in
          match r with Ok _ => go keys s | Err e => (s, Err e) end
      end.
  (** 491-539, the loop over the ends.  The association is looked up among those from the entity set first,
      whichever end is in hand *)
  Definition each_end (dl : nat -> Z -> st -> st * res unit) (E : nat) (k : Z) : list end_ -> st -> st * res unit :=
    fix go (l : list end_) (s : st) : st * res unit :=
      match l with
      | [] => (s, Ok tt)
      | (a, is_to) :: more =>
        match assocs sc a with
        | None => go more s
        | Some A =>
          if negb (is_one (mult_of A is_to)) then go more s
          else
            let forward := Nat.eqb (a_from A) E in
            let target := if forward then a_to A else a_from A in
            let (s, r) := each_link dl (has_nav A is_to) forward a target k (if forward then links_from s a k else links_to s a k) s in
            match r with Ok _ => go more s | Err e => (s, Err e) end
        end
      end.
  (** the whole; the recursion is over a number large enough *)
  Fixpoint delitem (fuel : nat) (E : nat) (k : Z) (s : st) : st * res unit :=
    match fuel with
    | O => (s, Err Timeout)
    | S fuel =>
      if zmem k (del s E) then (s, Ok tt)
      else if negb (zmem k (data s E)) then (s, Err KeyError)
      else
        let s := set_del s (upd (del s) E (k :: del s E)) in
        let (s, r) := each_end (delitem fuel) E k (ends_of E) s in
        let (s, r) := match r with Ok _ => delete_entity E k s | Err e => (s, Err e) end in
        (set_del s (upd (del s) E (zremove k (del s E))), r)
    end.

  (** ** Navigation *)
  (** the lookup methods of a NavigationCollection, memds.py 652-663; [rev]: from the to-end *)
  Definition lookup (s : st) (n : end_) (k : Z) : list Z := if snd n then links_to s (fst n) k else links_from s (fst n) k.
  Definition rlookup (s : st) (n : end_) (k : Z) : list Z := if snd n then links_from s (fst n) k else links_to s (fst n) k.
  Definition link (s : st) (n : end_) (k x : Z) : st := if snd n then add_link s (fst n) x k else add_link s (fst n) k x.
  Definition unlink (s : st) (n : end_) (k x : Z) : st := if snd n then remove_link s (fst n) x k else remove_link s (fst n) k x.
  (** memds.py 715-736 [NavigationCollection.__setitem__]; the base collection is asked for the entity *)
  Definition nav_set (A : assoc) (n : end_) (k x : Z) (s : st) : st * res unit :=
    let result_set := lookup s n k in
    if zmem x result_set then (s, Ok tt)
    else if negb (zmem x (data s (set_of A (negb (snd n))))) then (s, Err KeyError)
    else if negb (is_many (mult_of A (negb (snd n)))) && (match result_set with [] => false | _ => true end) then (s, Err NavigationError)
    else if negb (is_many (mult_of A (snd n))) && (match rlookup s n x with [] => false | _ => true end) then (s, Err NavigationError)
    else (link s n k x, Ok tt).
  (** memds.py 738-751 [NavigationCollection.__delitem__] *)
  Definition nav_del (A : assoc) (n : end_) (k x : Z) (s : st) : st * res unit :=
    if is_one (mult_of A (snd n)) || is_one (mult_of A (negb (snd n))) then (s, Err NavigationError)
    else if negb (zmem x (lookup s n k)) then (s, Err KeyError)
    else (unlink s n k x, Ok tt).
  Definition is_single (l : list Z) (x : Z) : bool := match l with [y] => x =? y | _ => false end.
  (** memds.py 753-782 [replace] *)
  Definition nav_replace (A : assoc) (n : end_) (k x : Z) (s : st) : st * res unit :=
    let result_set := lookup s n k in
    if is_single result_set x then (s, Ok tt)
    else if is_one (mult_of A (snd n)) then
      match result_set with
      | [] => nav_set A n k x s
      | _ => (s, Err NavigationError)
      end
    else
      let s := if zmem x result_set then s else link s n k x in
      (fold_left (fun s y => if y =? x then s else unlink s n k y) result_set s, Ok tt).
  (** the keys that iterating over a navigation collection gives, memds.py 692-702 *)
  Fixpoint read_all (d : list Z) (l : list Z) : res (list Z) :=
    match l with
    | [] => Ok []
    | x :: r => if zmem x d then let! m := read_all d r in Ok (x :: m) else Err KeyError
    end.
  Definition nav_keys (A : assoc) (n : end_) (k : Z) (s : st) : res (list Z) :=
    read_all (data s (set_of A (negb (snd n)))) (lookup s n k).

  (** ** Entities with bindings *)
  (** an entity that does not exist yet, with its key and the bindings of its navigation properties
      (csdl.py 2200-2223): a key, an entity object that exists (or did), or a new entity *)
  Inductive ent := Ent (key : Z) (bindings : list (end_ * list binding))
  with binding := BKey (x : Z) | BObj (x : Z) | BNew (e : ent).
  Definition ent_key (e : ent) : Z := let (k, _) := e in k.
  (** csdl.py 2460-2486 [check_navigation_constraints] and 2225-2235: [ignore] is the association end to ignore;
      an end without a navigation property whose other end is required is the unbound principal *)
  Definition bound (bs : list (end_ * list binding)) (n : end_) : bool :=
    existsb (fun x => end_eqb (fst x) n && match snd x with [] => false | _ => true end) bs.
  Definition check_constraints (E : nat) (ignore : option end_) (bs : list (end_ * list binding)) : bool :=
    forallb (fun e => match assocs sc (fst e) with
                      | None => true
                      | Some A =>
                        if is_one (mult_of A (negb (snd e))) then
                          (match ignore with Some i => end_eqb i e | None => false end) || (has_nav A (snd e) && bound bs e)
                        else true
                      end) (ends_of E).
  (** csdl.py 2237-2273 [update_bindings] of one navigation property; [ins] is insert_entity of memds.py 417-450
      and the last case is [NavigationCollection.insert_entity], memds.py 674-680 *)
  Definition put (A : assoc) (n : end_) (k x : Z) (s : st) : st * res unit :=
    if is_many (mult_of A (negb (snd n))) then nav_set A n k x s else nav_replace A n k x s.
  Definition each_binding (ins : nat -> option end_ -> ent -> st -> st * res unit) (A : assoc) (n : end_) (k : Z)
      : list binding -> st -> st * res unit :=
    fix go (b : list binding) (s : st) : st * res unit :=
      match b with
      | [] => (s, Ok tt)
      | x :: b =>
        let target := set_of A (negb (snd n)) in
        let (s, r) :=
          match x with
          | BKey x => if zmem x (data s target) then put A n k x s else (s, Err KeyError)
          | BObj x => put A n k x s
          | BNew e' =>
            let (s, r) := ins target (Some (fst n, negb (snd n))) e' s in
            match r with Ok _ => nav_set A n k (ent_key e') s | Err e => (s, Err e) end
          end in
        match r with Ok _ => go b s | Err e => (s, Err e) end
      end.
  (** the end belongs to the entity set and has a navigation property *)
  Definition nav_of (E : nat) (n : end_) : option assoc :=
    match assocs sc (fst n) with
    | Some A => if Nat.eqb (set_of A (snd n)) E && has_nav A (snd n) then Some A else None
    | None => None
    end.
  (** csdl.py 3212-3221 [update_bindings] of a collection.  There is no binding of anything but a navigation
      property of the entity: KeyError *)
  Definition each_nav (ins : nat -> option end_ -> ent -> st -> st * res unit) (E : nat) (k : Z)
      : list (end_ * list binding) -> st -> st * res unit :=
    fix go (l : list (end_ * list binding)) (s : st) : st * res unit :=
      match l with
      | [] => (s, Ok tt)
      | (n, b) :: more =>
        match nav_of E n with
        | None => (s, Err KeyError)
        | Some A =>
          let (s, r) := each_binding ins A n k b s in
          match r with Ok _ => go more s | Err e => (s, Err e) end
        end
      end.
  (** memds.py 417-450 [insert_entity] with 71-97 [add_entity] *)
  Fixpoint insert (E : nat) (ignore : option end_) (e : ent) (s : st) : st * res unit :=
    match e with
    | Ent k bs =>
      if negb (check_constraints E ignore bs) then (s, Err NavigationError)
      else if zmem k (data s E) then (s, Err ConstraintError)
      else each_nav insert E k bs (set_data s (upd (data s) E (data s E ++ [k])))
    end.
  (** memds.py 476-481 [update_entity], with 165-191 *)
  Definition update (E : nat) (k : Z) (bs : list (end_ * list binding)) (s : st) : st * res unit :=
    if zmem k (data s E) then each_nav insert E k bs s else (s, Err KeyError).

  (** ** Histories *)
  (** [ONavInsert], [OLink], [OUnlink], [OReplace]: on the navigation collection at the end [n] of the entity with
      key [k], opened at any time before *)
  Inductive op :=
  | OInsert (E : nat) (e : ent)
  | OUpdate (E : nat) (k : Z) (bs : list (end_ * list binding))
  | ODelete (E : nat) (k : Z)
  | ONavInsert (n : end_) (k : Z) (e : ent)
  | OLink (n : end_) (k x : Z)
  | OUnlink (n : end_) (k x : Z)
  | OReplace (n : end_) (k x : Z).
  (** a navigation property of any entity set *)
  Definition nav_any (n : end_) : option assoc :=
    match assocs sc (fst n) with Some A => if has_nav A (snd n) then Some A else None | None => None end.
  (** the number of entities that are not being deleted: enough fuel for delitem *)
  Definition size (s : st) : nat :=
    list_sum (map (fun E => length (filter (fun k => negb (zmem k (del s E))) (data s E))) (seq 0 (nsets sc))).
  Definition step (o : op) (s : st) : st * res unit :=
    match o with
    | OInsert E e => insert E None e s
    | OUpdate E k bs => update E k bs s
    | ODelete E k => delitem (S (size s)) E k s
    | ONavInsert n k e =>
      match nav_any n with
      | None => (s, Err KeyError)
      | Some A =>
        let (s, r) := insert (set_of A (negb (snd n))) (Some (fst n, negb (snd n))) e s in
        match r with Ok _ => nav_set A n k (ent_key e) s | Err e => (s, Err e) end
      end
    | OLink n k x => match nav_any n with Some A => nav_set A n k x s | None => (s, Err KeyError) end
    | OUnlink n k x => match nav_any n with Some A => nav_del A n k x s | None => (s, Err KeyError) end
    | OReplace n k x => match nav_any n with Some A => nav_replace A n k x s | None => (s, Err KeyError) end
    end.
  Definition run (ops : list op) (s : st) : st := fold_left (fun s o => fst (step o s)) ops s.
End Ord.
