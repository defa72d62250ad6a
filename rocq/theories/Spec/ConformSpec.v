(** Specification of what other HTTP implementations and the HTTP standard (RFC 7230, 7231) rely on. *)
From Verif.Model Require Import RustStd Path Request Time Status Response Router Server.
From Verif.Spec Require Import Common PathSpec RoutingSpec TextSpec RequestSpec ResponseSpec ServerSpec AppSpec.

(** More bytes have come after the head than its headers announce (and they announce some). *)
Definition surplus (ft : features) (s : str) : Prop :=
  exists a b rlt hst hs, head_at s a b /\ utf8_valid a = true /\ head_parts a rlt hst /\
    header_block (faithful ft) hst hs /\ (0 < announced hs < N.of_nat (length b))%N.
(** The head announces no body. *)
Definition bodyless (ft : features) (a : str) : Prop :=
  forall rlt hst hs, head_parts a rlt hst -> header_block (faithful ft) hst hs -> announced hs = 0%N.

(** The same header field: names are compared without regard to case. *)
Definition same_field (hd hd' : header) : Prop :=
  same_fold (h_name hd) (h_name hd') /\ h_value hd = h_value hd'.

(** There are at least two header lines of this name. *)
Definition repeated (k : str) (hs : list header) : Prop := 2 <= length (filter (named k) hs).
(** The Content-Length field is a decimal number [n] (a leading '+' is let through) that fits. *)
Definition usable_length (hs : list header) (n : N) : Prop :=
  exists v, folded (B "content-length") hs = Some v /\ number USIZE_MAX v n.

(** The chunked transfer coding (RFC 7230, 4.1), without extensions and trailers. *)
Definition hex_digit (b : byte) (n : N) : Prop :=
  ((48 <= bN b <= 57)%N /\ n = (bN b - 48)%N) \/ ((65 <= bN b <= 70)%N /\ n = (bN b - 55)%N) \/
  ((97 <= bN b <= 102)%N /\ n = (bN b - 87)%N).
Inductive hex_number : N -> str -> N -> Prop :=
| hex_end : forall acc, hex_number acc [] acc
| hex_next : forall acc b d s n, hex_digit b d -> hex_number (16 * acc + d) s n -> hex_number acc (b :: s) n.
Inductive chunked : str -> str -> Prop :=
| chunked_last : chunked [] (B "0" ++ CRLFCRLF)
| chunked_more : forall size data rest bytes, data <> [] -> size <> [] ->
    hex_number 0 size (N.of_nat (length data)) -> chunked rest bytes ->
    chunked (data ++ rest) (size ++ CRLF ++ data ++ CRLF ++ bytes).

(** Statuses whose responses never have a body. *)
Definition never_body (c : status_code) : Prop := c = StNoContent \/ c = StNotModified.

(** The response header names that calls fill in by themselves. *)
Definition own_names : list str :=
  [B "Content-Length"; B "Date"; B "Content-Type"; B "Content-Disposition"; B "Location"].
(** The names set by the calls of the application. *)
Definition set_names {cl} (l : list (world * rop cl)) : list str :=
  flat_map (fun wo => match snd wo with OpSet k _ => [k] | _ => [] end) l.
(** No two names differ in case only. *)
Definition one_spelling (l : list str) : Prop :=
  forall k k', In k l -> In k' l -> same_fold k k' -> k = k'.

(** No header of this response is called Connection (in any spelling), and the client sees its headers as
    they are: no line breaks in them, no cookies. *)
Definition quiet {cl} (ft : features) (w : world) (r : response cl) : Prop :=
  writable w r /\ (cookies_on ft = false \/ rs_cookies r = []) /\
  forall k v, In (k, v) (rs_headers r) -> ~ same_fold k (B "Connection").

(** In the list, [x] comes before [y]. *)
Definition precedes {A} (x y : A) (l : list A) : Prop := exists l1 l2 l3, l = l1 ++ x :: l2 ++ y :: l3.
