(** C150: the work of reading the parameters of a URL. *)
From Verif.Model Require Import RustStd Path Request Query QueryCost.
From Verif.Spec Require Import Common TextSpec RequestSpec.
From Verif.Proofs Require Import RequestExtra QueryCostProofs.

(** C150.  Asking a request for its parameters takes at most eight steps for each byte that the client sent, asking
    for the extended ones at most ten, *)
Theorem C150_request : forall ft cl t (rq : request cl), real_segments t -> read_request ft cl t = IoDone (RdRequest rq) ->
  snd (get_query_counted ft rq) <= 8 * length (stream_of t) /\
  snd (get_extended_query_counted ft rq) <= 10 * length (stream_of t).
Proof. exact request_work. Qed.
Print Assumptions C150_request.
(** whatever the query, *)
Theorem C150_query : forall ft q, utf8_valid q = true -> snd (parse_query_counted ft q) <= 7 * S (length q).
Proof. exact query_work. Qed.
Print Assumptions C150_query.
Theorem C150_extended_query : forall ft q, utf8_valid q = true -> snd (parse_extended_query_counted ft q) <= 9 * S (length q).
Proof. exact ext_work. Qed.
Print Assumptions C150_extended_query.
(** even though decoding looks ahead at each percent sign. *)
Theorem C150_decoding : forall s, utf8_valid s = true -> snd (unescape_counted s) <= S (4 * length s).
Proof. exact decode_work. Qed.
Print Assumptions C150_decoding.
(** The counting functions compute what the functions of the other theorems compute. *)
Theorem C150_counts_the_functions : forall ft cl (rq : request cl) q s,
  fst (get_query_counted ft rq) = get_query ft rq /\ fst (get_extended_query_counted ft rq) = get_extended_query ft rq /\
  fst (parse_query_counted ft q) = parse_query ft q /\ fst (parse_extended_query_counted ft q) = parse_extended_query ft q /\
  fst (unescape_counted s) = unescape_hex s.
Proof. exact counted_same. Qed.
Print Assumptions C150_counts_the_functions.
Example C150_example :
  snd (unescape_counted (B "%%%%")) = 4 + 4 + 4 + 3 + 1 /\ snd (unescape_counted (B "a%41b")) = 2 + 6 + 2 + 1 /\
  snd (parse_query_counted default_features (B "a=%41&b")) = (6 + 2 + 3 + 7 + 2) + (2 + 1 + 3 + 2) /\
  snd (parse_extended_query_counted default_features (B "a[]=1&a[k]=2&a=3")) =
    (6 + 4 + 3 + 1 + 2 + 2 + (2 + 3 + 2) + 1) + (7 + 5 + 3 + 1 + 3 + 2 + 2 + (2 + 2)) + (4 + 2 + 3 + 1 + 3 + 2).
Proof. repeat split; vm_compute; reflexivity. Qed.
Example C150_request_example :
  let t := Transport [B "GET /?a=%41&b[]=2 HT"; B "TP/1.1"; CRLF; B "Host: h"; CRLFCRLF] Stall in
  exists rq, read_request default_features demo_lib t = IoDone (RdRequest rq) /\ real_segments t /\
    snd (get_query_counted default_features rq) = 13 + (7 + 3 + 5 + 7 + 3) + (7 + 4 + 7 + 5 + 4) /\ length (stream_of t) = 39.
Proof.
  eexists. split; [vm_compute; reflexivity|]. split; [repeat constructor; discriminate|]. split; vm_compute; reflexivity.
Qed.
