(** Routers whose fields the application changes: [route_counter], [middlewares] and [paths] are public, and so are
    the fields of what they hold (src/router.rs:212-219, src/middlewares/mod.rs:3-6, src/path.rs:145-149). *)
From Verif.Model Require Export RustStd Path Request Router.

Section Edit.
Context {H : Type}.

(** What an application does with a [Router] of its own (src/router.rs:212-219, 435-472): it registers, it sets the
    counter, it puts other handlers (or the same with other indices, in another order) into [middlewares], it puts
    under a method a table collected from entries, or it removes one. *)
Inductive edit :=
| ERegister (c : rreg H)
| ECounter (n : N)
| EHandlers (l : list (closures H))
| ETable (m : method) (l : list (pathdata (closures H)))
| ERemove (m : method).
(** One of these; the registrations are those of src/router.rs:435-472, the others are assignments to the fields of
    src/router.rs:212-219 and calls on the map of tables ([insert] and [remove]; [collect] is src/path.rs:408-416) *)
Definition apply_edit (r : router H) (e : edit) : outcome (router H) :=
  match e with
  | ERegister c => apply_rreg r c
  | ECounter n => Done (Router n (middlewares r) (paths r))
  | EHandlers l => Done (Router (route_counter r) l (paths r))
  | ETable m l => omap (fun n => Router (route_counter r) (middlewares r) (mset method_eqb m n (paths r))) (node_from_iter l)
  | ERemove m => Done (Router (route_counter r) (middlewares r) (mremove method_eqb m (paths r)))
  end.
(** Several of these, src/router.rs:212-219, 435-472 *)
Fixpoint apply_edits (r : router H) (l : list edit) : outcome (router H) :=
  match l with
  | [] => Done r
  | e :: rest => obind (apply_edit r e) (fun r' => apply_edits r' rest)
  end.

(** The calls on an [Octane] (src/server.rs:104-106, 228-258); its own router is private (src/server.rs:50) *)
Inductive oedit := OEReg (c : rreg H) | OEMount (l : list edit).
(** src/server.rs:228-258, 104-106 [with_router] *)
Definition apply_oedit (o : order) (pos : list nat) (r : router H) (c : oedit) : outcome (router H) :=
  match c with
  | OEReg c => apply_rreg r c
  | OEMount l => obind (apply_edits router_new l) (fun sub => router_append o pos r sub)
  end.
(** The calls one after the other (src/server.rs:104-106, 228-258); [k] numbers them, to choose hash orders *)
Fixpoint build_edited_from (o : order) (k : nat) (r : router H) (l : list oedit) : outcome (router H) :=
  match l with
  | [] => Done r
  | c :: rest => obind (apply_oedit o [k] r c) (fun r' => build_edited_from o (S k) r' rest)
  end.
(** [Octane::new] (src/server.rs:55-60) and then calls *)
Definition build_edited (o : order) (l : list oedit) : outcome (router H) := build_edited_from o 0 router_new l.
End Edit.
Arguments edit : clear implicits.
Arguments oedit : clear implicits.
