(** Model of src/router.rs, src/middlewares/mod.rs and of the routing part of src/server.rs. *)
From Verif.Model Require Export RustStd Path Request.

(** src/middlewares/mod.rs:3-6 [Closures].  A closure is an opaque value of type [H]; what calling
    it does is given by [exec] below. *)
Record closures (H : Type) := Closures { closure : H; index : N }.
Arguments Closures {H}.
Arguments closure {H}.
Arguments index {H}.

(** src/router.rs:212-219 [Router], 11 [Paths] *)
Record router (H : Type) := Router {
  route_counter : N;
  middlewares : list (closures H);
  paths : list (method * pathnode (closures H))
}.
Arguments Router {H}.
Arguments route_counter {H}.
Arguments middlewares {H}.
Arguments paths {H}.

(** [usize] addition: overflow panics (checked build). (src/router.rs:239, 251, 254, 431, 465) *)
Definition add_usize (a b : N) : outcome N :=
  if (a + b <=? USIZE_MAX)%N then Done (a + b)%N else Panic.

Section Router.
Context {H : Type}.

(** src/router.rs:226-232 [Router::new] *)
Definition router_new : router H := Router 0 [] [].

(** Result of a registration: [RouterResult] with the updated router. (src/router.rs:16) *)
Inductive rresult := ROk | RErr.

(** src/router.rs:416-433 [inject_method!].  [entry().or_insert()] runs before the path is
    parsed, so a rejected path may leave an empty node behind. *)
Definition inject_method (r : router H) (path : str) (h : H) (m : method)
  : outcome (router H * rresult) :=
  let node := match mget method_eqb m (paths r) with Some n => n | None => node_new end in
  let paths1 := mset method_eqb m node (paths r) in
  match path_parse path with
  | None => Done (Router (route_counter r) (middlewares r) paths1, RErr)
  | Some p =>
      obind (node_insert node p (Closures h (route_counter r))) (fun node' =>
      obind (add_usize (route_counter r) 1) (fun c =>
      Done (Router c (middlewares r) (mset method_eqb m node' paths1), ROk)))
  end.

(** The registration methods of the trait [Route], src/router.rs:78-207. *)
Inductive verb := VHead | VPut | VGet | VDelete | VPost | VPatch | VAll.
(** src/router.rs:436-459, 468-471: which method table each registration method uses *)
Definition verb_method (v : verb) : method :=
  match v with
  | VHead => MHead
  | VPut => MPut
  | VGet => MGet
  | VDelete => MDelete
  | VPost => MPost
  | VPatch => MPatch
  | VAll => MAll
  end.
(** src/router.rs:435-472 [Route for Router]: head, put, get, delete, post, patch, add_route *)
Definition router_route (v : verb) (r : router H) (path : str) (h : H)
  : outcome (router H * rresult) := inject_method r path h (verb_method v).
(** src/router.rs:460-467 [add]; duplicated in src/server.rs:247-254 *)
Definition router_add (r : router H) (h : H) : outcome (router H * rresult) :=
  obind (add_usize (route_counter r) 1) (fun c =>
  Done (Router c (middlewares r ++ [Closures h (route_counter r)]) (paths r), ROk)).

(** src/router.rs:238-241 and 250-253 [v.data.index += self_count] *)
Definition shift_closure (by_ : N) (c : closures H) : outcome (closures H) :=
  omap (Closures (closure c)) (add_usize (index c) by_).
(** src/router.rs:238-241 the closure *)
Definition shift_entry (by_ : N) (d : pathdata (closures H)) : outcome (pathdata (closures H)) :=
  omap (PathData (orig_path d)) (shift_closure by_ (data d)).

(** src/router.rs:237-247 the loop over the other router's tables.  [updated_paths] is lazy, but
    shifting all entries first and inserting then is the same.  [pos ++ [1; k]] identifies the
    iteration over the [k]-th table for the order oracle. *)
Fixpoint append_paths (o : order) (pos : list nat) (k : nat) (self_count : N)
    (self : list (method * pathnode (closures H)))
    (others : list (method * pathnode (closures H)))
  : outcome (list (method * pathnode (closures H))) :=
  match others with
  | [] => Done self
  | (m, node) :: rest =>
      obind (node_into_list o (pos ++ [1; k]%nat) node) (fun entries =>
      obind (omapM (shift_entry self_count) entries) (fun updated =>
      obind (match mget method_eqb m self with
             | Some x => node_extend x updated
             | None => node_from_iter updated
             end) (fun node' =>
      append_paths o pos (S k) self_count (mset method_eqb m node' self) rest)))
  end.
(** src/router.rs:234-255 [Router::append], called by [Octane::with_router],
    src/server.rs:104-106.  [ord_fn o (pos ++ [0])] is the order of the outer iteration. *)
Definition router_append (o : order) (pos : list nat) (self other : router H)
  : outcome (router H) :=
  let self_count := route_counter self in
  let other_count := route_counter other in
  obind (append_paths o pos 0 self_count (paths self)
           (ord_fn o (pos ++ [0]%nat) _ (paths other))) (fun paths' =>
  obind (omapM (shift_closure self_count) (middlewares other)) (fun mws =>
  obind (add_usize self_count other_count) (fun c =>
  Done (Router c (middlewares self ++ mws) paths')))).

(** ** Building an application

    The calls a program makes on a [Router], and on an [Octane] (which can also mount routers).
    (src/router.rs:435-472) *)
Inductive rreg := RRoute (v : verb) (path : str) (h : H) | RAdd (h : H).
(** src/server.rs:104-106, 228-258: the calls on an [Octane] *)
Inductive oreg := ORoute (v : verb) (path : str) (h : H) | OAdd (h : H) | OMount (l : list rreg).

(** One call on a [Router], src/router.rs:435-472 *)
Definition apply_rreg (r : router H) (c : rreg) : outcome (router H) :=
  match c with
  | RRoute v p h => omap fst (router_route v r p h)
  | RAdd h => omap fst (router_add r h)
  end.
(** Calls on a [Router], src/router.rs:435-472 *)
Fixpoint apply_rregs (r : router H) (l : list rreg) : outcome (router H) :=
  match l with
  | [] => Done r
  | c :: rest => obind (apply_rreg r c) (fun r' => apply_rregs r' rest)
  end.
(** src/server.rs:228-258 [Route for Octane], 104-106 [with_router] *)
Definition apply_oreg (o : order) (pos : list nat) (r : router H) (c : oreg)
  : outcome (router H) :=
  match c with
  | ORoute v p h => omap fst (router_route v r p h)
  | OAdd h => omap fst (router_add r h)
  | OMount l => obind (apply_rregs router_new l) (fun sub => router_append o pos r sub)
  end.
(** Calls on an [Octane], src/server.rs:104-106, 228-258; [k] numbers the calls, to choose hash
    orders *)
Fixpoint build_from (o : order) (k : nat) (r : router H) (l : list oreg) : outcome (router H) :=
  match l with
  | [] => Done r
  | c :: rest => obind (apply_oreg o [k] r c) (fun r' => build_from o (S k) r' rest)
  end.
(** [Octane::new] (src/server.rs:55-60) and then calls *)
Definition build (o : order) (l : list oreg) : outcome (router H) := build_from o 0 router_new l.

(** ** Dispatch *)

(** src/router.rs:39-44 [Flow] *)
Inductive flow := FStop | FNext.
(** src/router.rs:48-50 [should_continue] *)
Definition should_continue (f : flow) : bool := match f with FNext => true | FStop => false end.

(** [sort_by_key] (a stable sort) on the index (src/router.rs:265, 271) *)
Fixpoint insert_sorted (x : matchedpath (closures H)) (l : list (matchedpath (closures H))) :=
  match l with
  | [] => [x]
  | y :: r => if (index (mp_data x) <=? index (mp_data y))%N then x :: l
              else y :: insert_sorted x r
  end.
(** src/router.rs:265, 271 [sort_by_key(|v| v.index)] *)
Definition sort_by_index (l : list (matchedpath (closures H))) : list (matchedpath (closures H)) :=
  fold_right insert_sorted [] l.

(** src/router.rs:262-284 [matches] *)
Definition table_matches (ft : features) (r : router H) (m : method) (path : pathbuf)
  : outcome (list (list (matchedpath (closures H)))) :=
  match mget method_eqb m (paths r) with
  | Some functions => omap (fun routes => [sort_by_index routes]) (node_get ft functions path)
  | None => Done []
  end.
(** src/router.rs:262-284 the vector [matches] *)
Definition run_matches (ft : features) (r : router H) (m : method) (path : pathbuf)
  : outcome (list (list (matchedpath (closures H)))) :=
  obind (table_matches ft r m path) (fun a =>
  obind (table_matches ft r MAll path) (fun b =>
  Done (a ++ b ++ [map (fun c => MatchedPath [] c) (middlewares r)]))).

(** src/router.rs:298-305 the search for the smallest next index *)
Fixpoint find_min (n minind : nat) (minval : N)
    (l : list (list (matchedpath (closures H)) * nat)) : nat :=
  match l with
  | [] => minind
  | (v, i) :: rest =>
      match nth_error v i with
      | Some x => if (index (mp_data x) <? minval)%N
                  then find_min (S n) n (index (mp_data x)) rest
                  else find_min (S n) minind minval rest
      | None => find_min (S n) minind minval rest
      end
  end.

(** [indices[minind] += 1] (src/router.rs:311) *)
Fixpoint incr_at (n : nat) (l : list nat) : list nat :=
  match l, n with
  | [], _ => []
  | x :: r, O => S x :: r
  | x :: r, S n' => x :: incr_at n' r
  end.

(** What calling a closure does: [exec h vars w] runs closure [h] on the request with URL
    variables [vars] in state [w] (response and whatever else the closures share); it returns
    the new state and the flow, or panics. *)
Context {W : Type} (exec : H -> varmap -> W -> W * outcome flow).

(** src/router.rs:297-315 the loop; indexing out of bounds panics. *)
Fixpoint run_loop (ft : features) (total : nat) (matches : list (list (matchedpath (closures H))))
    (indices : list nat) (w : W) : W * outcome unit :=
  match total with
  | O => (w, Done tt)
  | S total' =>
      let minind := find_min 0 0 USIZE_MAX (combine matches indices) in
      match nth_error matches minind, nth_error indices minind with
      | Some v, Some i =>
          match nth_error v i with
          | Some mp =>
              let vars := if url_variables ft then mp_vars mp else [] in
              match exec (closure (mp_data mp)) vars w with
              | (w', Panic) => (w', Panic)
              | (w', Done f) =>
                  if should_continue f
                  then run_loop ft total' matches (incr_at minind indices) w'
                  else (w', Done tt)
              end
          | None => (w, Panic)
          end
      | _, _ => (w, Panic)
      end
  end.
(** src/router.rs:259-316 [Router::run] *)
Definition router_run (ft : features) (r : router H) (m : method) (path : pathbuf) (w : W)
  : W * outcome unit :=
  match run_matches ft r m path with
  | Panic => (w, Panic)
  | Done matches =>
      run_loop ft (list_sum (map (@length _) matches)) matches
               (repeat 0%nat (length matches)) w
  end.

End Router.
Arguments rreg : clear implicits.
Arguments oreg : clear implicits.
