(** C149: how large what handlers can read of a request is. *)
From Verif.Model Require Import RustStd Path Request Router Server Query.
From Verif.Spec Require Import Common PathSpec RoutingSpec TextSpec RequestSpec ServerSpec QuerySpec SizeSpec.
From Verif.Proofs Require Import PathExtra RequestExtra SizeProofs.

(** C149.  The header map, the path and the body of a request are together no larger than what the client sent, and
    neither are the list of raw headers, the number of cookies, the parameters and the extended parameters. *)
Theorem C149_request : forall ft cl t rq, real_segments t -> read_request ft cl t = IoDone (RdRequest rq) ->
  (forall l, entries_of (headers_get (rq_headers rq)) l ->
     texts_size l + length (path_display (rl_path (rq_line rq))) + length (rq_body rq) <= length (stream_of t)) /\
  (raw_headers_on ft = true -> headers_size (raw (rq_headers rq)) <= length (stream_of t)) /\
  length (rq_cookies rq) <= length (stream_of t) /\
  (exists m, get_query ft rq = Done m /\
     forall l, entries_of (fun k => mget seqb k m) l -> texts_size l <= length (stream_of t)) /\
  (exists m, get_extended_query ft rq = Done m /\
     forall l, entries_of (fun k => mget seqb k m) l -> extended_size l <= length (stream_of t)).
Proof. exact request_size. Qed.
Print Assumptions C149_request.
(** The values of the variables that a handler is given are no larger than the path. *)
Theorem C149_variables :
  forall (H W : Type) (exec : H -> varmap -> W -> W * outcome flow) o ft (l : list (oreg H)) m path w,
  (N.of_nat (length (flatten l)) <= USIZE_MAX)%N -> m <> MAll ->
  exists r calls, build o l = Done r /\ router_run exec ft r m path w = run_chain exec calls w /\
    forall call vs, In call calls -> entries_of (fun k => mget seqb k (snd call)) vs ->
      values_size vs <= length (path_display path).
Proof. exact variables_size. Qed.
Print Assumptions C149_variables.
(** Neither of the functions that read queries returns more than the query. *)
Theorem C149_query : forall ft q, utf8_valid q = true -> exists m, parse_query ft q = Done m /\
  forall l, entries_of (fun k => mget seqb k m) l -> texts_size l <= S (length q).
Proof. exact query_size. Qed.
Print Assumptions C149_query.
Theorem C149_extended_query : forall ft q, utf8_valid q = true -> exists m, parse_extended_query ft q = Done m /\
  forall l, entries_of (fun k => mget seqb k m) l -> extended_size l <= S (length q).
Proof. exact extended_query_size. Qed.
Print Assumptions C149_extended_query.
(** Percent-decoding makes no text longer. *)
Theorem C149_decoding : forall s, utf8_valid s = true -> exists d, unescape_hex s = Done d /\ length d <= length s.
Proof. exact unescape_size. Qed.
Print Assumptions C149_decoding.
Definition sized_stream : str :=
  B "PUT a/./b?x%41=%FFz&l[]=1&l[]=22&o[k]=3 HTTP/1.1" ++ CRLF ++ B "Host: h" ++ CRLF ++ B "A:bc" ++ CRLF ++ B "a: de" ++ CRLF ++
  B "Cookie: c=d; e=f" ++ CRLF ++ B "content-length: 3" ++ CRLFCRLF ++ B "xyz".
Example C149_example : exists rq,
  read_request default_features demo_lib (Transport [sized_stream] Stall) = IoDone (RdRequest rq) /\
  parsed (rq_headers rq) = [(B "host", B "h"); (B "a", B "bc, de"); (B "cookie", B "c=d; e=f"); (B "content-length", B "3")] /\
  path_display (rl_path (rq_line rq)) = B "a/b?x%41=%FFz&l[]=1&l[]=22&o[k]=3/" /\
  length (rq_cookies rq) = 2 /\
  get_query default_features rq =
    Done [(B "a/b?xA", [xc3; xbf; x7a]); (B "l[]", B "22"); (B "o[k]", B "3/")] /\
  get_extended_query default_features rq =
    Done [(B "a/b?xA", QStr [xc3; xbf; x7a]); (B "l", QArr [B "1"; B "22"]); (B "o", QObj [(B "k", B "3/")])] /\
  texts_size (parsed (rq_headers rq)) = 45 /\ length sized_stream = 114.
Proof. eexists. repeat split; vm_compute; reflexivity. Qed.
Example C149_variables_example : exists r,
  build insertion_order [ORoute VGet (B "/:x/k/:y") 1; ORoute VGet (B "/:x/:x/:x") 2] = Done r /\
  router_run (fun h vars w => (w ++ [(h, vars, values_size vars)], Done FNext)) default_features r MGet [B "pq"; B "k"; B "rst"] [] =
    ([(1, [(B "x", B "pq"); (B "y", B "rst")], 7); (2, [(B "x", B "rst")], 4)], Done tt) /\
  length (path_display [B "pq"; B "k"; B "rst"]) = 9.
Proof. eexists. repeat split; vm_compute; reflexivity. Qed.
