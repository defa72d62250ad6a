(** The work of reading a request head: the functions of Model/Request.v for
    octane_http/src/http1x/mod.rs:17-73, counting the comparisons of elements (line 62), and for
    src/request.rs:206-230, counting the bytes copied into header values. *)
From Verif.Model Require Export RustStd Request.

(** octane_http/src/http1x/mod.rs:61-66 the inner loop: whether it matches, and the comparisons made *)
Fixpoint slice_counted (haystack needle : str) (i : nat) : bool * nat :=
  match needle with
  | [] => (true, 0)
  | n :: needle' =>
      match nth_error haystack i with
      | Some h => if beqb h n then let '(b, c) := slice_counted haystack needle' (S i) in (b, S c)
                  else (false, 1)
      | None => (false, 1)
      end
  end.
(** octane_http/src/http1x/mod.rs:59-71 the outer loop *)
Fixpoint find_from_counted (haystack needle : str) (i count : nat) : option nat * nat :=
  match count with
  | O => (None, 0)
  | S count' =>
      let '(b, c) := slice_counted haystack needle i in
      if b then (Some i, c)
      else let '(r, c') := find_from_counted haystack needle (S i) count' in (r, c + c')
  end.
(** octane_http/src/http1x/mod.rs:54-73 [find_in_slice] *)
Definition find_in_slice_counted (haystack needle : str) : option nat * nat :=
  if Nat.ltb (length haystack) (length needle) then (None, 0)
  else find_from_counted haystack needle 0 (S (length haystack - length needle)).

(** octane_http/src/http1x/mod.rs:26-44 the read loop, with the comparisons made until it ends or
    waits for input *)
Fixpoint head_loop_counted (fuel : nat) (data : str) (t : transport) : io head_result * nat :=
  match fuel with
  | O => (IoFuel, 0)
  | S fuel' =>
      match tr_read BUF t with
      | IoDone (None, _) => (IoPanic, 0)
      | IoDone (Some chunk, t') =>
          if Nat.eqb (length chunk) 0 then (IoDone HeadBad, 0)
          else
            let data' := data ++ chunk in
            let '(found, c) := find_in_slice_counted data' CRLFCRLF in
            match found with
            | None => let '(r, c') := head_loop_counted fuel' data' t' in (r, c + c')
            | Some i =>
                let head := firstn i data' in
                (if utf8_valid head then
                   match parse_without_body head with
                   | Some (rl, heads) => IoDone (HeadOk heads rl (skipn (i + 4) data') t')
                   | None => IoDone HeadBad
                   end
                 else IoDone HeadBad, c)
            end
      | IoPanic => (IoPanic, 0)
      | IoBlocked => (IoBlocked, 0)
      | IoFuel => (IoFuel, 0)
      end
  end.
(** octane_http/src/http1x/mod.rs:17-51 [Http1xReader::new] *)
Definition read_head_counted (t : transport) : io head_result * nat :=
  head_loop_counted (S (total_len (segs t))) [] t.

(** ** Folding repeated headers *)

(** src/request.rs:216-219 the value that ends up in the map, and the bytes copied to make it: [format!]
    writes the old value, the separator and the new one into a new string. *)
Definition add_header_counted (m : list (str * str)) (p : header) : list (str * str) * nat :=
  let key := to_ascii_lowercase (h_name p) in
  match mget seqb key m with
  | Some v => (mset seqb key (v ++ B ", " ++ h_value p) m, length v + 2 + length (h_value p))
  | None => (mset seqb key (h_value p) m, length (h_value p))
  end.
(** src/request.rs:211-222 the loop over the lines *)
Fixpoint headers_loop_counted (ft : features) (acc : headers) (toks : list str) : option headers * nat :=
  match toks with
  | [] => (Some acc, 0)
  | tok :: rest =>
      if utf8_valid tok then
        match header_parse ft tok with
        | None => (None, 0)
        | Some p =>
            let '(m, c) := add_header_counted (parsed acc) p in
            let '(r, c') := headers_loop_counted ft
              (Headers m (if raw_headers_on ft then raw acc ++ [p] else raw acc)) rest in
            (r, c + c')
        end
      else (None, 0)
  end.
(** src/request.rs:206-230 [Headers::parse] *)
Definition headers_parse_counted (ft : features) (request : str) : option headers * nat :=
  match spliterator_collect (2 + length request) (spliterator_new request CRLF) with
  | Some toks => headers_loop_counted ft (Headers [] []) toks
  | None => (None, 0)
  end.
