(** C141: what the Date header tells about the clock.  [253402300800] is the first second of the year 10000. *)
From Verif.Model Require Import RustStd Time Status Response.
From Verif.Spec Require Import TimeSpec ClockSpec.
From Verif.Proofs Require Import ClockProofs ServerWitness.
Local Open Scope Z_scope.

(** C141.  Later seconds have later dates, as the calendar orders them, *)
Theorem C141_order :
  forall s s' t t', - 2 ^ 63 + 951868800 <= s -> s' <= 2 ^ 63 - 1 -> s < s' ->
  time_of_stamp s = Done t -> time_of_stamp s' = Done t' -> time_before t t'.
Proof. exact time_order. Qed.
Print Assumptions C141_order.
(** different seconds have different texts (in every month, including September), *)
Theorem C141_text :
  forall s s' t t', 0 <= s < 253402300800 -> 0 <= s' < 253402300800 ->
  time_of_stamp s = Done t -> time_of_stamp s' = Done t' -> time_format t = time_format t' -> s = s'.
Proof. exact format_inj. Qed.
Print Assumptions C141_text.
(** and two responses have the same Date exactly if they were sent in the same second, whatever else they
    carry and whatever Date was set before. *)
Theorem C141_same_date :
  forall cl (w w' : world) b b' (r r' r1 r1' : response cl) c c' d,
  clock w = Some c -> clock w' = Some c' -> four_digits c -> four_digits c' ->
  res_send w b r = Done r1 -> res_send w' b' r' = Done r1' ->
  mget seqb (B "Date") (rs_headers r1) = Some d ->
  (mget seqb (B "Date") (rs_headers r1') = Some d <-> c' = c).
Proof. exact @sent_date. Qed.
Print Assumptions C141_same_date.
Theorem C141_has_date :
  forall cl (w : world) b (r r1 : response cl) c,
  clock w = Some c -> four_digits c -> res_send w b r = Done r1 ->
  exists d, mget seqb (B "Date") (rs_headers r1) = Some d.
Proof. exact @sent_with_date. Qed.
Print Assumptions C141_has_date.
Example C141_example :
  let at_time c := World (Some c) (fs ex_world) (ulower ex_world) (uupper ex_world) (dbg_sq ex_world) in
  let date c := match res_send (at_time c) (B "hi") (new_empty : response demo_lib) with
                | Done r => mget seqb (B "Date") (rs_headers r) | Panic => None end in
  four_digits 1600000000 /\ four_digits 1601510400 /\
  date 1600000000%N = Some (B "Sun, 13 Sept 2020 12:26:40 GMT") /\ date 1600000001%N = Some (B "Sun, 13 Sept 2020 12:26:41 GMT") /\
  date 1601510400%N = Some (B "Thu, 01 Oct 2020 00:00:00 GMT") /\
  time_before (Time 59 59 23 3 2020 8 30) (Time 0 0 0 4 2020 9 1).
Proof.
  cbv zeta. split; [reflexivity|]. split; [reflexivity|]. split; [vm_compute; reflexivity|]. split; [vm_compute; reflexivity|].
  split; [vm_compute; reflexivity|]. left. right. cbn. auto with zarith.
Qed.
