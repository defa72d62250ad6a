(** C105-C110: the rest of the public interface and what clients may expect.  Handlers, cookie library,
    world, hash orders and application are arbitrary. *)
From Verif.Model Require Import RustStd Path Request Time Status Response Router Server Query Tasks.
From Verif.Spec Require Import Common PathSpec RoutingSpec TextSpec RequestSpec ResponseSpec ServerSpec QuerySpec TaskSpec AppSpec ApiSpec.
From Verif.Proofs Require Import ApiWitness.

(** C105.  After any calls on a fresh response, [headers_sent] answers exactly whether one of them set a
    header. *)
Theorem C105_exact_partial :
  forall cl l (r : response cl), apply_ops l new_empty = Done r ->
  (headers_sent r = true <-> exists w o, In (w, o) l /\ puts_header w o).
Proof. exact @sent_exact. Qed.
Print Assumptions C105_exact_partial.
(** In particular it is true after every [send]. *)
Theorem C105_after_send_partial :
  forall cl l1 l2 w b (r : response cl), apply_ops (l1 ++ (w, OpSend b) :: l2) new_empty = Done r -> headers_sent r = true.
Proof. exact @sent_after_send. Qed.
Print Assumptions C105_after_send_partial.
(** But it is true before anything is sent: after one [set]. *)
Theorem C105_refuted :
  exists (l : list (world * rop demo_lib)) r, apply_ops l new_empty = Done r /\ Forall (fun wo => ~ composes (snd wo)) l /\
    has_body r = false /\ headers_sent r = true.
Proof.
  exists [(ex_world, OpSet (B "X") (B "1"))]. eexists. split; [reflexivity|]. split; [repeat constructor; auto|split; reflexivity].
Qed.
Print Assumptions C105_refuted.
Example C105_example :
  (exists r, ex_run [OpStatus StCreated; OpCharset (B "utf-8"); @OpCookie demo_lib (B "a=b")] = Done r /\ headers_sent r = false) /\
  (exists r, ex_run [OpStatus StCreated; OpSend (B "hi")] = Done r /\ headers_sent r = true) /\
  (exists r, ex_run [OpSendFile (B "/nope")] = Done r /\ headers_sent r = false).
Proof. repeat split; eexists; split; vm_compute; reflexivity. Qed.

(** C106: for a request to "/p?k=v" the parameter k is absent; instead "p?k" is the text "v/". *)
Theorem C106_refuted :
  forall cl ft (r : request cl) p k v,
  plain_text p -> plain_text k -> ~ In x5d k -> plain_text v ->
  rl_path (rq_line r) = [p ++ [x3f] ++ k ++ [x3d] ++ v] ->
  exists m, get_extended_query ft r = Done m /\ mget seqb k m = None /\
            mget seqb (p ++ [x3f] ++ k) m = Some (QStr (v ++ [x2f])).
Proof. exact @get_extended_misses. Qed.
Print Assumptions C106_refuted.
(** What it returns for "dir/p?first&..&last": the items in the middle as C37 reads them, the first under
    a name that includes the path, the last with a '/' appended. *)
Theorem C106_items_partial :
  forall cl ft (r : request cl) dir p first mid lst,
  rl_path (rq_line r) = dir ++ [p ++ [x3f] ++ join [x26] (first :: mid ++ [lst])] ->
  Forall (fun s => utf8_valid s = true) (rl_path (rq_line r)) ->
  Forall (fun s => ~ In x26 s) (p :: first :: lst :: dir ++ mid) ->
  exists m evs, get_extended_query ft r = Done m /\
    Forall2 (ext_means (faithful ft)) ((path_display dir ++ p ++ [x3f] ++ first) :: mid ++ [lst ++ [x2f]]) evs /\
    forall k, ext_result k (somes evs) (mget seqb k m).
Proof. exact @get_extended_items. Qed.
Print Assumptions C106_items_partial.
(** Escapes in a name are decoded without brackets after it, and not decoded with them. *)
Theorem C106_escaped_names_refuted :
  forall ft k v, k <> [] -> Forall (fun b => (bN b < 128)%N) k -> plain_text v ->
  (exists m, parse_extended_query ft (pct k ++ [x3d] ++ v) = Done m /\ mget seqb k m = Some (QStr v)) /\
  (exists m, parse_extended_query ft (pct k ++ [x5b; x5d; x3d] ++ v) = Done m /\ mget seqb k m = None /\
     mget seqb (pct k) m = Some (QArr [v])).
Proof. exact in_brackets_not_decoded. Qed.
Print Assumptions C106_escaped_names_refuted.
(** Exactly one of the accessors returns the value. *)
Theorem C106_accessors :
  forall q,
  match qv_str q, qv_arr q, qv_obj q with
  | Some s, None, None => q = QStr s
  | None, Some l, None => q = QArr l
  | None, None, Some m => q = QObj m
  | _, _, _ => False
  end.
Proof. exact one_accessor. Qed.
Print Assumptions C106_accessors.
Example C106_example :
  parse_extended_query default_features (path_display [B "d"; B "p?a[]=1&b[x]=2&a[]=3&c=4"]) =
    Done [(B "d/p?a", QArr [B "1"]); (B "b", QObj [(B "x", B "2")]); (B "a", QArr [B "3"]); (B "c", QStr (B "4/"))] /\
  Forall (fun s => utf8_valid s = true) [B "d"; B "p?a[]=1&b[x]=2&a[]=3&c=4"] /\
  [B "d"; B "p?a[]=1&b[x]=2&a[]=3&c=4"] = [B "d"] ++ [B "p" ++ [x3f] ++ join [x26] (B "a[]=1" :: [B "b[x]=2"; B "a[]=3"] ++ [B "c=4"])] /\
  plain_text (B "p") /\ pct (B "k") = B "%6b" /\
  parse_extended_query default_features (B "%6b=v&%6b[]=v") = Done [(B "k", QStr (B "v")); (B "%6b", QArr [B "v"])].
Proof.
  split; [vm_compute; reflexivity|]. split; [repeat constructor|]. split; [vm_compute; reflexivity|].
  split; [|split; vm_compute; reflexivity].
  unfold plain_text. repeat split; try reflexivity; intros [H|[]]; discriminate.
Qed.

(** C107.  Take any schedule in which what connection [i] has sent by the end of [evs1] is not in need of
    more, [i] then gets more turns than there are registrations ([evs2]), and no write to it fails.  At
    the end the whole answer has been written and the connection is closed, or a panic has ended the task, or the
    peer has not taken as many bytes as the answer has.  [story] (see C71) says which answer; the calls it speaks of
    are those made for [i] in the one history of all calls. *)
Theorem C107_answered_under_every_fair_schedule :
  forall ft cl (H ST : Type) (handle : H -> matched_request cl -> ST * response cl -> (ST * response cl) * outcome flow)
    o app (rt : router H) (s0 : ST) evs1 evs2 evs3 i,
  (N.of_nat (length (flatten app)) <= USIZE_MAX)%N -> build o app = Done rt ->
  let evs := evs1 ++ evs2 ++ evs3 in
  real_inputs evs -> Forall (fun ev => clock (fst (snd ev)) <> None) evs -> writes_succeed i evs ->
  ~ stream_waits ft (stream_of (input_of (inputs i evs1))) (fin (input_of (inputs i evs1))) ->
  length (flatten app) < runs_of i evs2 ->
  exists L p, linked s0 L (tshared (tasks_run ft cl handle rt (TasksState s0 []) evs)) /\
    story ft cl handle (fun w ho => In (i, TRun, (w, ho)) evs) [i] app
      (stream_of (input_of (inputs i evs))) (fin (input_of (inputs i evs))) (calls_on i L) p /\
    match task_get cl i (tasks (tasks_run ft cl handle rt (TasksState s0 []) evs)) with
    | TClosed out => p = Answering out
    | TCrashed => p = Dead
    | TSending sent rest => p = Answering (sent ++ rest) /\ room_of i evs3 < length (sent ++ rest)
    | TReading _ | TWorking _ => False
    end.
Proof. exact @answered_when_fair. Qed.
Print Assumptions C107_answered_under_every_fair_schedule.
(** A well-formed request dies only by a panic of one of its own handlers on it. *)
Theorem C107_no_crash :
  forall ft cl (H ST : Type) (handle : H -> matched_request cl -> ST * response cl -> (ST * response cl) * outcome flow)
    o app (rt : router H) (s0 : ST) evs i rl hs cs body,
  (N.of_nat (length (flatten app)) <= USIZE_MAX)%N -> build o app = Done rt ->
  real_inputs evs -> Forall (fun ev => clock (fst (snd ev)) <> None) evs ->
  (forall rq calls h vars x, admitted ft cl (stream_of (input_of (inputs i evs))) rq -> chosen ft cl app rq calls ->
     In (h, vars) calls -> snd (handle h (MatchedRequest rq vars) x) <> Panic) ->
  carries ft cl (stream_of (input_of (inputs i evs))) rl hs cs body ->
  task_get cl i (tasks (tasks_run ft cl handle rt (TasksState s0 []) evs)) <> TCrashed.
Proof. exact @no_crash. Qed.
Print Assumptions C107_no_crash.
Example C107_example :
  let evs1 := firstn 2 mixed in let evs2 := firstn 6 (skipn 2 mixed) in let evs3 := skipn 8 mixed in
  mixed = evs1 ++ evs2 ++ evs3 /\
  ~ stream_waits default_features (stream_of (input_of (inputs 1 evs1))) (fin (input_of (inputs 1 evs1))) /\
  length (flatten relay_app) < runs_of 1 evs2 /\ writes_succeed 1 mixed /\
  task_get demo_lib 1 (tasks mixed_state) = TClosed (answer_head (B "200 OK") (B "1") ++ B "b").
Proof. exact example_107. Qed.
Example C107_no_crash_example :
  (forall h mr x, snd (relay_handle h mr x) <> Panic) /\
  exists rl hs cs body, carries default_features demo_lib (stream_of (input_of (inputs 1 mixed))) rl hs cs body.
Proof. split; [exact relay_total|exact example_107_carries]. Qed.

(** C60.  Every HEAD request that reaches the handlers is answered with the body they give, whatever it is. *)
Theorem C60_body_always_sent :
  forall ft cl (H ST : Type) (handle : H -> matched_request cl -> ST * response cl -> (ST * response cl) * outcome flow)
    o app (rt : router H) w ho pos (s : ST) t rl hs cs body,
  (N.of_nat (length (flatten app)) <= USIZE_MAX)%N -> build o app = Done rt -> clock w <> None -> real_segments t ->
  carries ft cl (stream_of t) rl hs cs body -> ~ lacks_host rl hs -> rl_method rl = MHead ->
  exists rq got s' res r, request_is ft rq rl hs cs got /\ handled ft cl handle app rq s ((s', res), r) /\
  (r = Done tt -> rs_body res <> BodyNone -> forall b, given_body (rs_body res) b ->
   exists head, serve ft cl handle w ho pos rt s t = (s', IoDone (head ++ b))).
Proof. exact @head_sends_body. Qed.
Print Assumptions C60_body_always_sent.

(** C108.  A request of any other version than 1.1, known or not, is handed to the handlers. *)
Theorem C108_refuted :
  forall ft cl (H ST : Type) (handle : H -> matched_request cl -> ST * response cl -> (ST * response cl) * outcome flow)
    o app (rt : router H) w ho pos (s : ST) t rl hs cs body,
  (N.of_nat (length (flatten app)) <= USIZE_MAX)%N -> build o app = Done rt -> clock w <> None -> real_segments t ->
  carries ft cl (stream_of t) rl hs cs body -> rl_version rl <> Http11 -> rl_method rl <> MNone ->
  reaches_handlers ft cl handle w ho pos app s rl hs cs (serve ft cl handle w ho pos rt s t).
Proof. exact @any_version. Qed.
Print Assumptions C108_refuted.
Example C108_example :
  (exists rl hs cs body, carries default_features demo_lib (stream_of (Transport [odd_version] Stall)) rl hs cs body /\
     rl = RequestLine MGet [B "hi"] HttpInvalid) /\
  ex_serve odd_version Stall = (8, IoDone (answer_head (B "200 OK") (B "2") ++ B "hi")).
Proof. exact example_108. Qed.

(** C109.  A request with several Host lines is handed to the handlers. *)
Theorem C109_refuted :
  forall ft cl (H ST : Type) (handle : H -> matched_request cl -> ST * response cl -> (ST * response cl) * outcome flow)
    o app (rt : router H) w ho pos (s : ST) t rl hs cs body h1 h2,
  (N.of_nat (length (flatten app)) <= USIZE_MAX)%N -> build o app = Done rt -> clock w <> None -> real_segments t ->
  carries ft cl (stream_of t) rl hs cs body -> (exists l1 l2 l3, hs = l1 ++ h1 :: l2 ++ h2 :: l3) ->
  same_fold (h_name h1) (B "host") -> same_fold (h_name h2) (B "host") -> rl_method rl <> MNone ->
  reaches_handlers ft cl handle w ho pos app s rl hs cs (serve ft cl handle w ho pos rt s t).
Proof. exact @many_hosts. Qed.
Print Assumptions C109_refuted.
Example C109_example :
  (exists rl hs cs body, carries default_features demo_lib (stream_of (Transport [two_hosts] Stall)) rl hs cs body /\
     rl_method rl = MGet /\ hs = [Header (B "Host") (B "a"); Header (B "HOST") (B "b")]) /\
  ex_serve two_hosts Stall = (8, IoDone (answer_head (B "200 OK") (B "2") ++ B "hi")).
Proof. exact example_109. Qed.

(** C110.  A connection whose request is incomplete stays open through any number of events (and whatever
    the clock shows) as long as its peer is silent. *)
Theorem C110_refuted :
  forall ft cl (H ST : Type) (handle : H -> matched_request cl -> ST * response cl -> (ST * response cl) * outcome flow)
    (rt : router H) evs i received (st : tasks_state cl (ST := ST)),
  task_get cl i (tasks st) = TReading received -> inputs i evs = [] ->
  task_get cl i (tasks (tasks_run ft cl handle rt st evs)) = TReading received.
Proof. exact @waits_for_ever. Qed.
Print Assumptions C110_refuted.
Example C110_example :
  let evs := (1, TInput (Arrive (B "GET /hi HT")), ex_x) :: map (fun n => (n mod 3, TRun, (World (Some (N.of_nat n * 1000000000)%N) (fs ex_world) (ulower ex_world) (uupper ex_world) DebugNew, insertion_order))) (seq 0 50) in
  task_get demo_lib 1 (tasks (tasks_run default_features demo_lib relay_handle relay_router (TasksState [] []) evs)) = TReading [B "GET /hi HT"].
Proof. exact example_110. Qed.
