(** Paths of virtual file systems with no drives: pyslet/vfs.py 370-423 (normpath) as in MemFilePath.
    Simplified: the list of components and the index i are a list of those before i, the last first, and a list of the others. *)
From Verif Require Import Py UriModel.
From Coq Require Import String.
Open Scope Z_scope.

Definition curdir : str := lit ".".
Definition pardir : str := lit "..".
(** 378-414; the first case is not reached *)
Fixpoint norm_loop (fuel : nat) (don rest : list str) : list str :=
  match fuel with
  | O => []
  | S f =>
      match rest with
      | [] => rev don
      | c :: r =>
          match c with
          | [] => match don with
                  | [[]] => rev don ++ rest
                  | [] => norm_loop f (c :: don) r
                  | _ => norm_loop f don r
                  end
          | _ =>
              if str_eqb c pardir then
                match don with
                | [] => norm_loop f (c :: don) r
                | par :: d => if str_eqb par pardir || str_eqb par curdir then norm_loop f (c :: don) r
                              else match par with [] => norm_loop f don r | _ => norm_loop f d (curdir :: r) end
                end
              else if str_eqb c curdir then match don with [] => norm_loop f (c :: don) r | _ => norm_loop f don r end
              else norm_loop f (c :: don) r
          end
      end
  end.
(** 415-420 *)
Definition norm_trim (cs : list str) : list str :=
  match cs with
  | [c] => match c with [] => [[]; []] | _ => cs end
  | c :: r => if str_eqb c curdir then r else cs
  | [] => cs
  end.
(** 370-421 *)
Definition normpath (p : str) : str :=
  match p with
  | [] => curdir
  | _ => let cs := split_on 47 p in join_on 47 (norm_trim (norm_loop (2 * List.length cs + 1) [] cs))
  end.
(** 480-483 *)
Definition isabs (p : str) : bool := match p with c :: _ => c =? 47 | [] => false end.
