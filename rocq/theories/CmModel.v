(** Model of content models and the cursor that checks them: pyslet/xml/structures.py, ElementType (1171-1240),
    XMLContentParticle and its subclasses (2865-3101), pyslet/xml/parser.py ContentParticleCursor (432-545) and
    check_expected_particle (2402-2419).  Name particles are objects that are compared with [is]: here they have
    numbers.  Their particle_map attributes are in a heap. *)
From Verif Require Import Py Num UriModel HttpModel CmSpec.

(** A particle map: a dictionary from names to lists of particles; the key '' has the value None *)
Definition pmap := list (str * option (list nat)).
Fixpoint pm_find (k : str) (m : pmap) : option (option (list nat)) :=
  match m with [] => None | (k', v) :: r => if str_eqb k k' then Some v else pm_find k r end.
Fixpoint pm_put (k : str) (v : option (list nat)) (m : pmap) : pmap :=
  match m with
  | [] => [(k, v)]
  | (k', w) :: r => if str_eqb k k' then (k', v) :: r else (k', w) :: pm_put k v r
  end.
(** 2926-2936: the particles that are not there yet are added *)
Fixpoint add_new (src target : list nat) : list nat :=
  match src with
  | [] => target
  | i :: r => add_new r (if existsb (Nat.eqb i) target then target else target ++ [i])
  end.
(** 2907-2936 [add_particles].  (A list for the name '' does not occur; the code would fail when it meets a None.) *)
Definition add_entry (m : pmap) (e : str * option (list nat)) : pmap :=
  let (name, v) := e in
  let ips := match v with Some l => l | None => [] end in
  match pm_find name m with
  | Some None => m
  | Some (Some target) => pm_put name (Some (add_new ips target)) m
  | None => match name with
            | [] => pm_put name None m
            | _ => pm_put name (Some (add_new ips [])) m
            end
  end.
Definition add_particles (src m : pmap) : pmap := fold_left add_entry src m.

Definition rep (o : occ) : bool := match o with Star | Plus => true | _ => false end.
Definition req (o : occ) : bool := match o with Once | Plus => true | _ => false end.

(** [seek_particles]: 2984-2996 name, 3023-3032 choice, 3080-3091 sequence; the map, and whether a required particle
    was added *)
Fixpoint seek (p : particle) (m : pmap) : pmap * bool :=
  match p with
  | PName i n o =>
      (match pm_find n m with
       | Some (Some target) => pm_put n (Some (add_new [i] target)) m
       | _ => pm_put n (Some [i]) m
       end, req o)
  | PChoice o l =>
      (fix go l m required :=
         match l with
         | [] => (m, required)
         | c :: r => let (m, q) := seek c m in go r m (if q then required else false)
         end) l m (req o)
  | PSeq o l =>
      let (m, q) := (fix go l m :=
         match l with
         | [] => (m, false)
         | c :: r => let (m, q) := seek c m in if q then (m, true) else go r m
         end) l m in
      (m, q && req o)
  end.
(** 3058-3078: the exits of a child of a sequence: the entries of the children after it *)
Fixpoint child_exits (l : list particle) (exits m : pmap) : pmap :=
  match l with
  | [] => add_particles exits m
  | c :: r => let (m, q) := seek c m in if q then m else child_exits r exits m
  end.

(** The particle_map attributes *)
Definition heap := list (nat * pmap).
Fixpoint hp_get (h : heap) (i : nat) : pmap :=
  match h with [] => [] | (j, m) :: r => if (i =? j)%nat then m else hp_get r i end.
Fixpoint hp_put (h : heap) (i : nat) (m : pmap) : heap :=
  match h with [] => [(i, m)] | (j, m') :: r => if (i =? j)%nat then (j, m) :: r else (j, m') :: hp_put r i m end.
(** [build_particle_maps]: 2976-2982 name, 3010-3021 choice, 3052-3078 sequence *)
Fixpoint build (p : particle) (exits : pmap) (h : heap) : heap :=
  match p with
  | PName i n o => hp_put h i (add_particles exits (if rep o then [(n, Some [i])] else []))
  | PChoice o l =>
      let new_exits := add_particles exits (if rep o then fst (seek p []) else []) in
      (fix go l h := match l with [] => h | c :: r => go r (build c new_exits h) end) l h
  | PSeq o l =>
      let new_exits := add_particles exits (if rep o then fst (seek p []) else []) in
      (fix go l h := match l with [] => h | c :: r => go r (build c (child_exits r new_exits []) h) end) l h
  end.

(** An element type after build_model: 1213-1227; the particles' maps are in [e_heap] *)
Record etype := mkE { e_content : content; e_map : option pmap; e_heap : heap }.
Definition build_model (c : content) : etype :=
  match c with
  | CChildren p =>
      let (m, q) := seek p [] in
      mkE c (Some (if q then m else pm_put [] None m)) (build p [([], None)] [])
  | CMixed l =>
      let m := pm_put [] None (fst (seek (mixed l) [])) in
      mkE c (Some m) (build (mixed l) m [])
  | _ => mkE c None []
  end.

(** 2938-2957 [XMLContentParticle.is_deterministic] *)
Definition det_map (m : pmap) : bool :=
  forallb (fun e => match snd e with Some l => (length l <=? 1)%nat | None => true end) m.
(** 2998-2999, 3034-3041, 3093-3100: name, choice, sequence *)
Fixpoint det (h : heap) (p : particle) : bool :=
  match p with
  | PName i _ _ => det_map (hp_get h i)
  | PChoice _ l | PSeq _ l => (fix go l := match l with [] => true | c :: r => if det h c then go r else false end) l
  end.
(** 1229-1239 [ElementType.is_deterministic]; the content model is a choice or a sequence *)
Definition is_deterministic (e : etype) : bool :=
  match e_content e, e_map e with
  | CChildren p, Some m => if det_map m then det (e_heap e) p else false
  | CMixed l, Some m => if det_map m then det (e_heap e) (mixed l) else false
  | _, _ => true
  end.

(** ** parser.py 432-545 [ContentParticleCursor] *)
Inductive cstate := START_STATE | PARTICLE_STATE (plist : list nat) | END_STATE.
(** 484-505: the particles that the current ones lead to; None for the end *)
Fixpoint follow (h : heap) (name : str) (plist : list nat) (new : list nat) : option (list nat) :=
  match plist with
  | [] => Some new
  | p :: r =>
    match pm_find name (hp_get h p) with
    | None => follow h name r new
    | Some None => None
    | Some (Some ps) => follow h name r (new ++ ps)
    end
  end.
(** 458-516 [next] *)
Definition next (e : etype) (s : cstate) (name : str) : bool * cstate :=
  match s with
  | START_STATE =>
      match e_map e with
      | Some m =>
          match pm_find name m with
          | Some None => (true, END_STATE)
          | Some (Some l) => (true, PARTICLE_STATE l)
          | None => (false, s)
          end
      | None =>
          match e_content e with
          | CAny => (true, match name with [] => END_STATE | _ => s end)
          | _ => match name with [] => (true, END_STATE) | _ => (false, s) end
          end
      end
  | PARTICLE_STATE plist =>
      match follow (e_heap e) name plist [] with
      | None => (true, END_STATE)
      | Some [] => (false, s)
      | Some l => (true, PARTICLE_STATE l)
      end
  | END_STATE => (false, s)
  end.
(** sorted(dict_keys(d)) *)
Fixpoint ins_name (x : str) (l : list str) : list str :=
  match l with
  | [] => [x]
  | y :: r => if str_eqb x y then l else if str_ltb y x then y :: ins_name x r else x :: l
  end.
Definition sorted_names (l : list str) : list str := fold_right ins_name [] l.
(** 518-545 [expected]: the names, and whether the end tag is valid too.  For EMPTY and ANY the particle map is None,
    which has no keys. *)
Definition expected (e : etype) (s : cstate) : res (list str * bool) :=
  let names (ks : list str) := (sorted_names (filter (fun k => negb (str_eqb k [])) ks), existsb (str_eqb []) ks) in
  match s with
  | START_STATE => match e_map e with Some m => Ok (names (map fst m)) | None => Err AttributeError end
  | PARTICLE_STATE plist => Ok (names (flat_map (fun p => map fst (hp_get (e_heap e) p)) plist))
  | END_STATE => Ok ([], false)
  end.

(** 2402-2419 [check_expected_particle], for the children of one element and its end tag: the first name that is not
    allowed, and what was expected; Ok None when there is no validity error *)
Fixpoint check_children (e : etype) (s : cstate) (w : list str) : res (option (str * (list str * bool))) :=
  match w with
  | [] => match next e s [] with
          | (true, _) => Ok None
          | (false, s') => let! x := expected e s' in Ok (Some ([], x))
          end
  | n :: r => match next e s n with
              | (true, s') => check_children e s' r
              | (false, s') => let! x := expected e s' in Ok (Some (n, x))
              end
  end.
(** 2122-2134, 2186-2234 [parse_element]: the names of the children are checked as they come; the end of the content is
    checked when there is an end tag, not after <name/> *)
Definition check_element (e : etype) (empty_tag : bool) (w : list str) : res (option (str * (list str * bool))) :=
  if empty_tag then Ok None else check_children e START_STATE w.
