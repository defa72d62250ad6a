(** How Unix finds the place of a path text in a tree of directories (without symbolic links).  Only the
    segments of [PathSpec] are shared. *)
From Verif.Model Require Import RustStd.
From Verif.Spec Require Import PathSpec.

(** From a directory to the next; the root is its own parent. *)
Definition step_to (dir : list str) (seg : str) : list str :=
  match seg with
  | [] => dir
  | [x2e] => dir
  | [x2e; x2e] => removelast dir
  | _ => dir ++ [seg]
  end.
Definition absolute (s : str) : bool := match s with x2f :: _ => true | _ => false end.
(** [s], used in the directory [cwd], leads to [d] (segments counted from the root). *)
Definition located (cwd : list str) (s : str) (d : list str) : Prop :=
  exists segs, segments_of segs s /\ d = fold_left step_to segs (if absolute s then [] else cwd).

(** What is found there: a regular file only if the text ends in a name. *)
Inductive kind := KFile | KDir.
Definition ends_in_name (s : str) : Prop := exists l x, segments_of (l ++ [x]) s /\ normal x.
Definition finds (tree : list str -> option kind) (cwd : list str) (s : str) (k : kind) : Prop :=
  s <> [] /\ exists d, located cwd s d /\ tree d = Some k /\ (k = KFile -> ends_in_name s).
