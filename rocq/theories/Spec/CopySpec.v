(** Specification for C148: text of a request that a handler copies into headers of the response. *)
From Verif.Model Require Import RustStd Path Request Query Time Status Response Router Server.
From Verif.Spec Require Import Common TextSpec RequestSpec ResponseSpec.

(** Text without line end (CR LF); CR and LF may stand alone. *)
Definition one_line (s : str) : Prop := ~ occurs CRLF s.

Section Copies.
Context {cl : cookie_lib}.
(** What a handler can take from a request without decoding it: a segment of the path, the path, a variable of the
    route, the value of a header. *)
Inductive from_request (rq : request cl) (vars : varmap) : str -> Prop :=
| fr_segment : forall seg, In seg (rl_path (rq_line rq)) -> from_request rq vars seg
| fr_path : from_request rq vars (path_display (rl_path (rq_line rq)))
| fr_variable : forall name val, mget seqb name vars = Some val -> from_request rq vars val
| fr_header : forall name val, headers_get (rq_headers rq) name = Some val -> from_request rq vars val.
(** Text of the program's own, with at most one piece of the request in it. *)
Definition copied (rq : request cl) (vars : varmap) (s : str) : Prop :=
  clean s \/ exists a t b, s = a ++ t ++ b /\ clean a /\ clean b /\ from_request rq vars t.
(** A call whose arguments that go into headers unprocessed are such texts (and that adds no cookie). *)
Definition copies (rq : request cl) (vars : varmap) (o : rop cl) : Prop :=
  match o with
  | OpSet k v => clean k /\ ~ In x3a k /\ copied rq vars v
  | OpWithType t => copied rq vars t
  | OpRedirect l => copied rq vars l
  | OpCookie _ => False
  | _ => True
  end.

(** A handler that answers and redirects to the text it finds. *)
Definition moves_to (w : world) (find : matched_request cl -> outcome (option str)) (h : unit)
    (mr : matched_request cl) (x : unit * response cl) : (unit * response cl) * outcome flow :=
  match find mr with
  | Done (Some v) =>
      match apply_ops [(w, OpSend (B "moved")); (w, OpRedirect v)] (snd x) with
      | Done r => ((fst x, r), Done FStop)
      | Panic => (x, Panic)
      end
  | Done None => (x, Done FNext)
  | Panic => (x, Panic)
  end.
(** It looks in the parameters, or in the variables of the route. *)
Definition in_query (ft : features) (mr : matched_request cl) : outcome (option str) :=
  omap (mget seqb (B "to")) (get_query ft (mr_request mr)).
Definition in_variables (mr : matched_request cl) : outcome (option str) := Done (mget seqb (B "to") (mr_vars mr)).
End Copies.

(** A request for a target, with a Host header. *)
Definition asks_for (target : str) : str :=
  B "GET " ++ target ++ B " HTTP/1.1" ++ CRLF ++ B "Host: x" ++ CRLFCRLF.

(** A client that also takes a LF alone for a line end (RFC 7230, 3.5) finds this header: a line before the first
    empty one. *)
Definition lenient_header (bytes n x : str) : Prop :=
  exists ls rest, pieces_of [x0a] bytes (ls ++ (n ++ [x3a] ++ x ++ [x0d]) :: rest) /\
    Forall (fun l => l <> [] /\ l <> [x0d]) ls /\ ~ In x3a n.
