(** Model of the convenience macros: [route!], [route_next!], [route_stop!] (src/router.rs:350-411) and
    [path!] (octane_macros/src/lib.rs:186-220). *)
From Verif.Model Require Export RustStd Router Macros.

(** ** Route macros *)

(** How the expression given to a macro ends: with a value, with [return flow] (which returns from the
    closure the macro builds), or in a panic. ($body of src/router.rs:351, 377, 405) *)
Inductive body_exit (V : Type) := BValue (v : V) | BReturn (f : flow) | BPanic.
Arguments BValue {V}.
Arguments BReturn {V}.
Arguments BPanic {V}.

Section Routes.
Context {W V : Type}.
(** src/router.rs:350-355 [route!]: the closure [|req, res| body]; [W] is all the body may change *)
Definition route (body : W -> W * body_exit flow) (w : W) : W * outcome flow :=
  let '(w', e) := body w in
  (w', match e with BValue f => Done f | BReturn f => Done f | BPanic => Panic end).
(** src/router.rs:378-381, 406-409 the block [{ body; flow }] *)
Definition then_flow (f : flow) (body : W -> W * body_exit V) (w : W) : W * body_exit flow :=
  let '(w', e) := body w in
  (w', match e with BValue _ => BValue f | BReturn g => BReturn g | BPanic => BPanic end).
(** src/router.rs:376-383 [route_next!] *)
Definition route_next (body : W -> W * body_exit V) : W -> W * outcome flow := route (then_flow FNext body).
(** src/router.rs:404-411 [route_stop!] *)
Definition route_stop (body : W -> W * body_exit V) : W -> W * outcome flow := route (then_flow FStop body).
End Routes.

(** ** path! *)

(** [str.replace], every double quote by nothing: octane_macros/src/lib.rs:214 *)
Definition remove_quotes (s : str) : str := filter (fun b => negb (beqb b x22)) s.

(** octane_macros/src/lib.rs:202-220 [path!], at compile time: a panic is a compile error, otherwise the
    text of the resulting token.  [cwd]: the working directory of the compiler ([None]: there is none or
    it is not UTF-8); [ex]: which paths exist; [sq]: see [debug_str].  [value.parse::<String>()] (208)
    is the identity. *)
Definition path_macro (cwd : option str) (ex : str -> bool) (sq : debug_style) (input : list token) : outcome str :=
  match input with
  | TkLit value :: _ =>
      obind (unwrap cwd) (fun dir =>
        let path := dir ++ remove_quotes value in
        if ex path then Done (debug_str sq path) else Panic)
  | _ => Panic
  end.
