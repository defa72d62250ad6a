(** Specification for C146: which handlers run if the application changes the public fields of its routers.
    A router is seen as a plain list of what it holds, each with its index. *)
From Coq Require Import Sorting.Sorted.
From Verif.Model Require Import RustStd Path Request Router Edit.
From Verif.Spec Require Import Common PathSpec RoutingSpec.

Section Edit.
Context {H : Type}.

(** A handler for a method and a pattern, or one for every request. *)
Inductive item := IRoute (m : method) (pat : list str) (h : H) (n : N) | IAdd (h : H) (n : N).

Definition method_of (v : verb) : method :=
  match v with
  | VHead => MHead | VPut => MPut | VGet => MGet | VDelete => MDelete | VPost => MPost | VPatch => MPatch
  | VAll => MAll
  end.
Definition of_closures (c : closures H) : item := IAdd (closure c) (index c).
Definition of_entry (m : method) (d : pathdata (closures H)) : item :=
  IRoute m (orig_path d) (closure (data d)) (index (data d)).
Definition for_all (i : item) : Prop := match i with IAdd _ _ => True | IRoute _ _ _ _ => False end.
Definition under (m : method) (i : item) : Prop := match i with IAdd _ _ => False | IRoute m' _ _ _ => m' = m end.
Definition later (k : N) (i : item) : item :=
  match i with IRoute m pat h n => IRoute m pat h (n + k) | IAdd h n => IAdd h (n + k) end.

(** What a router holds after a call or an assignment: the next index, and the list. *)
Inductive registers : N * list item -> rreg H -> N * list item -> Prop :=
| reg_route : forall n L v p pat h, path_means p pat ->
    registers (n, L) (RRoute v p h) ((n + 1)%N, L ++ [IRoute (method_of v) pat h n])
| reg_rejected : forall n L v p h, (forall pat, ~ path_means p pat) -> registers (n, L) (RRoute v p h) (n, L)
| reg_add : forall n L h, registers (n, L) (RAdd h) ((n + 1)%N, L ++ [IAdd h n]).
Inductive changes : N * list item -> edit H -> N * list item -> Prop :=
| ch_register : forall s c s', registers s c s' -> changes s (ERegister c) s'
| ch_counter : forall n L n', changes (n, L) (ECounter n') (n', L)
| ch_handlers : forall n L l kept, selects (fun i => ~ for_all i) L kept ->
    changes (n, L) (EHandlers l) (n, kept ++ map of_closures l)
| ch_table : forall n L m l kept, selects (fun i => ~ under m i) L kept -> Forall (fun d => Forall normal (orig_path d)) l ->
    changes (n, L) (ETable m l) (n, kept ++ map (of_entry m) l)
| ch_remove : forall n L m kept, selects (fun i => ~ under m i) L kept -> changes (n, L) (ERemove m) (n, kept).
Inductive edits_to : N * list item -> list (edit H) -> N * list item -> Prop :=
| ed_nil : forall s, edits_to s [] s
| ed_cons : forall s e s1 l s2, changes s e s1 -> edits_to s1 l s2 -> edits_to s (e :: l) s2.
(** The same of an application, which takes over the routers it is given. *)
Inductive builds : N * list item -> list (oedit H) -> N * list item -> Prop :=
| bu_nil : forall s, builds s [] s
| bu_reg : forall s c s1 l s2, registers s c s1 -> builds s1 l s2 -> builds s (OEReg c :: l) s2
| bu_mount : forall n L es n' L' l s2, edits_to (0%N, []) es (n', L') -> builds ((n + n')%N, L ++ map (later n) L') l s2 ->
    builds (n, L) (OEMount es :: l) s2.

(** The route applies to a request. *)
Definition routed (with_vars : bool) (m : method) (path : list str) (i : item) : Prop :=
  match i with IRoute m' pat _ _ => (m' = m \/ m' = MAll) /\ route_matches with_vars pat path | IAdd _ _ => False end.
(** The call of its handler. *)
Definition calls_item (with_vars : bool) (path : list str) (i : item) (call : H * varmap) : Prop :=
  match i with
  | IRoute _ pat h _ => fst call = h /\
      forall name val, mget seqb name (snd call) = Some val <-> (with_vars = true /\ binds pat path name val)
  | IAdd h _ => call = (h, [])
  end.

(** The turn of a handler: its index; with the same index, routes of the method come before routes of all methods,
    and these before handlers for every request.  The latter keep their order, so one that stands behind others with
    a greater index waits for them. *)
Definition turn_of_route (i : item) : N * nat :=
  match i with IRoute MAll _ _ n => (n, 1) | IRoute _ _ _ n => (n, 0) | IAdd _ n => (n, 2) end.
Fixpoint turns_of_handlers (greatest : N) (L : list item) : list (N * nat * item) :=
  match L with
  | [] => []
  | IRoute _ _ _ _ :: l => turns_of_handlers greatest l
  | IAdd h n :: l => (N.max greatest n, 2, IAdd h n) :: turns_of_handlers (N.max greatest n) l
  end.
Definition not_after (a b : N * nat * item) : Prop :=
  (fst (fst a) < fst (fst b))%N \/ (fst (fst a) = fst (fst b) /\ snd (fst a) <= snd (fst b)).

(** The order in which the handlers of a request have their turn: each once.  (Routes of one table with the same
    index come in any order.) *)
Definition in_turn (with_vars : bool) (m : method) (path : list str) (L : list item) (order : list item) : Prop :=
  exists routes turns, selects (routed with_vars m path) L routes /\
    Permutation turns (map (fun i => (turn_of_route i, i)) routes ++ turns_of_handlers 0 L) /\
    StronglySorted not_after turns /\ selects (fun t => for_all (snd t)) turns (turns_of_handlers 0 L) /\
    order = map snd turns.
(** The greatest index cannot be used. *)
Definition usable (i : item) : Prop := match i with IRoute _ _ _ n | IAdd _ n => (n < USIZE_MAX)%N end.
(** Tables hold patterns that were parsed: without empty segments and dots. *)
Definition patterns_parsed (e : edit H) : Prop :=
  match e with ETable _ l => Forall (fun d => Forall normal (orig_path d)) l | _ => True end.
Definition all_parsed (c : oedit H) : Prop := match c with OEMount l => Forall patterns_parsed l | OEReg _ => True end.
End Edit.
Arguments item : clear implicits.
