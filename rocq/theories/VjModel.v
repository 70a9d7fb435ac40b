(** Joining and splitting paths of virtual file systems with no drives and no UNC paths: pyslet/vfs.py 222-313 as in MemFilePath.
    Simplified: the list of pieces is one text, as they are joined with nothing between at the end. *)
From Verif Require Import Py UriModel VfModel.
From Coq Require Import String.
Open Scope Z_scope.

(** path.endswith(sep) *)
Definition ends_bar (p : str) : bool := match rev p with c :: _ => c =? 47 | [] => false end.
(** 241-265 *)
Fixpoint join_loop (cs : list str) (new_path : str) (add_sep : bool) : str :=
  match cs with
  | [] => new_path
  | c :: r =>
      match c with
      | [] => if add_sep then join_loop r (new_path ++ [47]) false else join_loop r new_path add_sep
      | _ => if isabs c then join_loop r c (negb (ends_bar c))
             else join_loop r ((if add_sep then new_path ++ [47] else new_path) ++ c) (negb (ends_bar c))
      end
  end.
(** 222-239, 268 *)
Definition join (p : str) (cs : list str) : str := match p with [] => join_loop cs [] false | _ => join_loop cs p (negb (ends_bar p)) end.
(** 270-295 *)
Definition split (p : str) : str * str :=
  let pos := rfind_ch 47 p in
  if 0 <=? pos then
    let head := zslice 0 pos p in
    ((match head with [] => [47] | _ => head end), zslice (pos + 1) (zlen p) p)
  else ([], p).
(** 462-468 *)
Definition is_dirlike (p : str) : bool := ends_bar p || (match rev p with 46 :: 47 :: _ => true | _ => false end).
(** 297-313 *)
Definition splitext (p : str) : str * str :=
  if is_dirlike p then (p, [])
  else let pos := rfind_ch 46 p in
       if 0 <=? pos then (zslice 0 pos p, zslice pos (zlen p) p) else (p, []).
(** 355-357; the path of the working directory is cwd *)
Definition abspath (cwd p : str) : str := normpath (join cwd [p]).
(** 359-368; normcase is the identity *)
Definition realpath (cwd p : str) : str := normpath (if isabs p then p else join cwd [p]).
