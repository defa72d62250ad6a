(** How the bytes of a request arrive (C139): what matters of the way a stream is cut into segments. *)
From Verif.Model Require Import RustStd Request.
From Verif.Spec Require Export TextSpec RequestSpec.

(** Reading with a buffer of [n] bytes: each segment that arrived is returned whole if it fits, otherwise in
    pieces of [n] bytes and a last one. *)
Inductive read_as (n : nat) : list str -> list str -> Prop :=
| ra_nil : read_as n [] []
| ra_fits s l reads : length s <= n -> read_as n l reads -> read_as n (s :: l) (s :: reads)
| ra_piece s1 s2 l reads : length s1 = n -> s2 <> [] -> read_as n (s2 :: l) reads -> read_as n ((s1 ++ s2) :: l) (s1 :: reads).

(** [early] came along with the end of the head: the read that brought the end of the first empty line brought
    these bytes behind it. *)
Definition along (t : transport) (early : str) : Prop :=
  exists before last later a, read_as 512 (segs t) (before ++ last :: later) /\
    ~ occurs CRLFCRLF (concat before) /\ head_at (concat before ++ last) a early.

(** Two ways to cut the same stream that bring the same bytes along with the end of the head. *)
Definition same_arrival (t t' : transport) : Prop :=
  stream_of t = stream_of t' /\ fin t = fin t' /\ forall early, along t early -> along t' early.

(** The body taken from [b], the bytes behind the head, when [n] bytes are announced and [early] came along. *)
Definition body_taken (n : N) (early b : str) : str :=
  if (n =? 0)%N then [] else if (n <=? N.of_nat (length early))%N then early else firstn (N.to_nat n) b.

(** A stream ending in [e] of which [early] came along with the end of the head, and which kills the task. *)
Definition kills (ft : features) (cl : cookie_lib) (early s : str) (e : ending) : Prop :=
  exists a b rlt hst, head_at s a b /\ utf8_valid a = true /\ head_parts a rlt hst /\
    ((forall hs, ~ header_block (faithful ft) hst hs) \/
     (forall rl, ~ line_means (faithful ft) rlt rl) \/
     exists hs, header_block (faithful ft) hst hs /\
       (((N.of_nat (length b) < announced hs)%N /\ e <> Stall) \/
        (ISIZE_MAX < announced hs - N.of_nat (length early))%N \/
        ((announced hs <= N.of_nat (length b))%N /\
         ((ISIZE_MAX < announced hs)%N \/ forall cs, ~ cookies_mean cl (cookies_on ft) hs cs)))).
