(** Examples for C139. *)
From Verif.Proofs Require Export ArriveProofs ConformWitness.
From Verif.Spec Require Import Common PathSpec RoutingSpec TextSpec RequestSpec ResponseSpec ServerSpec ConformSpec QuerySpec ArriveSpec.

Lemma short_reads l : forallb (fun s => Nat.leb (length s) 512) l = true -> read_as 512 l l.
Proof.
  induction l as [|s l IH]; intro F; [apply ra_nil|]. cbn [forallb] in F. apply andb_prop in F as [F1 F2].
  apply ra_fits; auto. apply Nat.leb_le; auto.
Qed.
Lemma along_check e before last later i : forallb (fun s => Nat.leb (length s) 512) (before ++ last :: later) = true ->
  find_str CRLFCRLF (concat before) = None -> find_str CRLFCRLF (concat before ++ last) = Some i ->
  along (Transport (before ++ last :: later) e) (skipn (i + 4) (concat before ++ last)).
Proof.
  intros F N1 N2. exists before, last, later, (firstn i (concat before ++ last)). cbn [segs].
  apply find_str_None in N1. apply find_str_Some in N2. split; [|split]; auto.
  - apply short_reads. exact F.
  - pose proof (occurs_at_le _ _ _ (proj1 N2)) as Li. split.
    + apply (occurs_at_firstn CRLFCRLF (concat before ++ last) i). apply N2.
    + rewrite firstn_length_le by lia. exact N2.
Qed.

Definition post_head (n : str) : str := req (B "POST") (B "/echo/7") [HOST; LEN n] [].
(** A length of isize::MAX + 1. *)
Definition too_long : str := B "9223372036854775808".

Lemma real_check l e : forallb (fun s => negb (is_nil s)) l = true -> real_segments (Transport l e).
Proof.
  intro F. unfold real_segments. cbn [segs]. apply Forall_forall. intros x I0 ->.
  rewrite forallb_forall in F. apply F in I0. discriminate.
Qed.

Lemma example_139 :
  let t := Transport [post_head (B "2") ++ B "a"; B "bc"] Stall in
  let t' := Transport [firstn 30 (post_head (B "2")); skipn 30 (post_head (B "2")) ++ B "a"; B "b"; B "c"] Stall in
  real_segments t /\ real_segments t' /\ same_arrival t t' /\ along t (B "a") /\
  serve default_features demo_lib ex_handle ex_world insertion_order [] ex_router 7 t =
    (7, IoDone (answer_head (B "200 OK") (B "2") ++ B "ab")).
Proof.
  cbv zeta.
  assert (A1 : along (Transport [post_head (B "2") ++ B "a"; B "bc"] Stall) (B "a")).
  { apply (along_check Stall [] (post_head (B "2") ++ B "a") [B "bc"] (length (post_head (B "2")) - 4)); vm_compute; reflexivity. }
  assert (A2 : along (Transport [firstn 30 (post_head (B "2")); skipn 30 (post_head (B "2")) ++ B "a"; B "b"; B "c"] Stall) (B "a")).
  { apply (along_check Stall [firstn 30 (post_head (B "2"))] (skipn 30 (post_head (B "2")) ++ B "a") [B "b"; B "c"] (length (post_head (B "2")) - 4)); vm_compute; reflexivity. }
  assert (R1 : real_segments (Transport [post_head (B "2") ++ B "a"; B "bc"] Stall)) by (apply real_check; vm_compute; reflexivity).
  split; [exact R1|]. split; [apply real_check; vm_compute; reflexivity|]. split; [|split; [exact A1|vm_compute; reflexivity]].
  split; [vm_compute; reflexivity|]. split; [reflexivity|].
  intros early A. rewrite (along_fun _ _ _ R1 A A1). exact A2.
Qed.

Lemma borderline_139 :
  let t := Transport [post_head too_long ++ B "a"; B "bc"] Stall in
  let t' := Transport [post_head too_long; B "abc"] Stall in
  real_segments t /\ real_segments t' /\ stream_of t = stream_of t' /\ along t (B "a") /\ along t' [] /\
  read_request default_features demo_lib t = IoBlocked /\ read_request default_features demo_lib t' = IoPanic.
Proof.
  cbv zeta.
  assert (R1 : real_segments (Transport [post_head too_long ++ B "a"; B "bc"] Stall)) by (apply real_check; vm_compute; reflexivity).
  assert (R2 : real_segments (Transport [post_head too_long; B "abc"] Stall)) by (apply real_check; vm_compute; reflexivity).
  assert (A1 : along (Transport [post_head too_long ++ B "a"; B "bc"] Stall) (B "a")).
  { apply (along_check Stall [] (post_head too_long ++ B "a") [B "bc"] (length (post_head too_long) - 4)); vm_compute; reflexivity. }
  assert (A2 : along (Transport [post_head too_long; B "abc"] Stall) []).
  { apply (along_check Stall [] (post_head too_long) [B "abc"] (length (post_head too_long) - 4)); vm_compute; reflexivity. }
  split; [exact R1|]. split; [exact R2|]. split; [vm_compute; reflexivity|]. split; [exact A1|]. split; [exact A2|].
  destruct (text_head default_features demo_lib (B "POST") (B "/echo/7") (B "1.1") [HOST; LEN too_long] (B "abc") MPost Http11
    [B "echo"; B "7"] []) as (a & Ha & Hm).
  1: constructor. 1: constructor. 1: target_lit. 1: apply path_means_parse; reflexivity. 1: discriminate. 1: good_hds. 1: reflexivity.
  destruct Hm as (V & rlt & hst & Hp & Hl & Hb & Hc). destruct (block_parse _ _ _ Hb) as (h & Eh & G & _). apply request_line_iff in Hl.
  split.
  - rewrite (read_request_along default_features demo_lib _ a (B "abc") (RequestLine MPost [B "echo"; B "7"] Http11) [HOST; LEN too_long] h rlt hst (B "a") R1); [|exact Ha|exact V|exact Hp|exact Hl|exact Eh|exact G|exact A1].
    vm_compute. reflexivity.
  - rewrite (read_request_along default_features demo_lib _ a (B "abc") (RequestLine MPost [B "echo"; B "7"] Http11) [HOST; LEN too_long] h rlt hst [] R2); [|exact Ha|exact V|exact Hp|exact Hl|exact Eh|exact G|exact A2].
    vm_compute. reflexivity.
Qed.
