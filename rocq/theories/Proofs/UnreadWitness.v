(** Examples for C143. *)
From Verif.Spec Require Import Common PathSpec TextSpec RequestSpec ServerSpec ArriveSpec.
From Verif.Model Require Import RustStd Path Request Server Unread.
From Verif.Proofs Require Export UnreadProofs SwapWitness.

(** A request with a body in two segments; two requests in a row; an unreadable head with more behind it. *)
Definition in_two : transport := Transport [req (B "POST") (B "/echo/x") [HOST; LEN (B "5")] (B "ab"); B "cde"] Stall.
Definition two_requests : transport := Transport [get_hi; get_hi] Stall.
Definition bad_and_more : transport := Transport [B "GET" ++ CRLFCRLF ++ B "abc"; B "def"] Stall.

Lemma means_of t rq : real_segments t -> read_of t = Some rq ->
  exists a b rl hs cs, head_at (stream_of t) a b /\ head_means default_features demo_lib a rl hs cs /\
    (forall k, headers_get (rq_headers rq) k = folded k hs) /\ (announced hs <= ISIZE_MAX)%N.
Proof.
  intros R E. unfold read_of in E. pose proof (read_request_cases default_features demo_lib t R) as X.
  destruct (read_request _ _ t) as [[|rq']| | |]; try discriminate. injection E as ->.
  destruct X as (rl & hs & cs & body & (a & b & Ha & Hm & _ & Li & _) & (_ & _ & _ & G & _)). exists a, b, rl, hs, cs. auto.
Qed.
Lemma example_143 :
  (exists a b rl hs cs, head_at (stream_of in_two) a b /\ head_means default_features demo_lib a rl hs cs /\
     N.of_nat (length b) = announced hs /\ (announced hs <= ISIZE_MAX)%N) /\ real_segments in_two /\
  snd (read_request_left default_features demo_lib in_two) = [] /\
  (exists rq, read_request_left default_features demo_lib two_requests = (IoDone (RdRequest rq), get_hi)) /\
  along bad_and_more (B "abc") /\ head_bad (B "GET") /\
  read_request_left default_features demo_lib bad_and_more = (IoDone RdBad, B "def").
Proof.
  assert (R : real_segments in_two) by (repeat constructor; discriminate).
  split.
  { eassert (E : read_of in_two = Some _) by (vm_compute; reflexivity).
    destruct (means_of in_two _ R E) as (a & b & rl & hs & cs & Ha & Hm & G & Li). exists a, b, rl, hs, cs. split; [exact Ha|]. split; [exact Hm|]. split; [|exact Li].
    assert (An : announced hs = 5%N) by (unfold announced; rewrite <- G; vm_compute; reflexivity). rewrite An.
    assert (Hc : head_at (stream_of in_two) (firstn 49 (stream_of in_two)) (B "abcde")).
    { pose proof (find_str_spec CRLFCRLF (stream_of in_two)) as F. vm_compute find_str in F.
      split; [vm_compute; reflexivity|]. replace (length (firstn 49 (stream_of in_two))) with 49 by (vm_compute; reflexivity). exact F. }
    destruct (head_at_fun _ _ _ _ _ Ha Hc) as [-> ->]. reflexivity. }
  split; [exact R|]. split; [vm_compute; reflexivity|]. split; [eexists; vm_compute; reflexivity|]. split.
  { exists [], (B "GET" ++ CRLFCRLF ++ B "abc"), [B "def"], (B "GET"). split; [|split].
    - cbn [bad_and_more segs List.app]. repeat (apply ra_fits; [cbn; lia|]). apply ra_nil.
    - exact nothing_yet.
    - pose proof (find_str_spec CRLFCRLF (B "GET" ++ CRLFCRLF ++ B "abc")) as F. vm_compute find_str in F. split; [reflexivity|exact F]. }
  split; [|vm_compute; reflexivity]. right. pose proof (find_str_spec CRLF (B "GET")) as F. vm_compute find_str in F. exact F.
Qed.
