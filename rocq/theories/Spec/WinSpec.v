(** How Windows finds the place of a path text (drive letters and directories; no shares, no links, names
    taken literally). *)
From Verif.Model Require Import RustStd.
From Verif.Spec Require Import PathSpec FsSpec.

Definition letter (b : byte) : Prop := (65 <= bN b <= 90 \/ 97 <= bN b <= 122)%N.
(** Both slashes separate. *)
Definition slash (c : byte) : bool := ((bN c =? 47) || (bN c =? 92))%N.
Definition rooted (s : str) : bool := match s with c :: _ => slash c | [] => false end.
Fixpoint cut (s : str) : list str :=
  match s with
  | [] => [[]]
  | c :: r =>
      if slash c then [] :: cut r
      else match cut r with x :: l => (c :: x) :: l | [] => [[c]] end
  end.
(** A machine has a current drive and on every drive a current directory. *)
Record machine := Machine { drive : byte; current : byte -> list str }.
Definition walk (m : machine) (d : byte) (s : str) : byte * list str :=
  (d, fold_left step_to (cut s) (if rooted s then [] else current m d)).
(** The drive and the directories that the text leads to *)
Inductive win_located (m : machine) : str -> byte * list str -> Prop :=
| wl_drive d s : letter d -> win_located m (d :: x3a :: s) (walk m d s)
| wl_plain s : (forall d r, s = d :: x3a :: r -> ~ letter d) -> win_located m s (walk m (drive m) s).
(** Not the beginning of a network share or device *)
Definition no_share (s : str) : Prop := forall a b r, s = a :: b :: r -> slash a = true -> slash b = false.
(** A name without the characters that mean something to Windows *)
Definition simple_name (s : str) : Prop := normal s /\ ~ In x2f s /\ ~ In x5c s /\ ~ In x3a s.
