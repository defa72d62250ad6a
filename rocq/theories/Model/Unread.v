(** What a connection's task leaves unread: the functions of Model/Request.v and Model/Server.v for
    octane_http/src/http1x/mod.rs:17-51, src/request.rs:296-323 and src/server.rs:171-186, with the part of the
    stream that is still in the socket (or yet to arrive) when reading ends.  Nothing reads from the stream
    afterwards: src/server.rs:187-210 only writes, then both halves are dropped, which closes it. *)
From Verif.Model Require Export RustStd Request Server.

(** octane_http/src/http1x/mod.rs:26-44 the read loop, with the stream that is left *)
Fixpoint head_loop_left (fuel : nat) (data : str) (t : transport) : io head_result * transport :=
  match fuel with
  | O => (IoFuel, t)
  | S fuel' =>
      match tr_read BUF t with
      | IoDone (None, t') => (IoPanic, t')
      | IoDone (Some chunk, t') =>
          if Nat.eqb (length chunk) 0 then (IoDone HeadBad, t')
          else
            let data' := data ++ chunk in
            match find_in_slice data' CRLFCRLF with
            | None => head_loop_left fuel' data' t'
            | Some i =>
                let head := firstn i data' in
                if utf8_valid head then
                  match parse_without_body head with
                  | Some (rl, heads) => (IoDone (HeadOk heads rl (skipn (i + 4) data') t'), t')
                  | None => (IoDone HeadBad, t')
                  end
                else (IoDone HeadBad, t')
            end
      | IoPanic => (IoPanic, t)
      | IoBlocked => (IoBlocked, t)
      | IoFuel => (IoFuel, t)
      end
  end.
(** octane_http/src/http1x/mod.rs:17-51 [Http1xReader::new], with the stream that is left *)
Definition read_head_left (t : transport) : io head_result * transport :=
  head_loop_left (S (total_len (segs t))) [] t.

(** [AsyncReadExt::read_exact] (src/request.rs:311), with the segments that are left *)
Fixpoint read_exact_left (n : nat) (l : list str) (e : ending) : io (option str) * list str :=
  match l with
  | [] => (match e with Stall => IoBlocked | _ => IoDone None end, [])
  | s :: rest =>
      if is_nil s then (IoDone None, rest)
      else if Nat.leb n (length s) then (IoDone (Some (firstn n s)), skipn n s :: rest)
      else let '(r, left_over) := read_exact_left (n - length s) rest e in
           (io_bind r (fun o => IoDone (match o with Some x => Some (s ++ x) | None => None end)), left_over)
  end.

(** src/request.rs:296-323 [Request::from_raw], with the segments that are left *)
Definition from_raw_left (ft : features) (cl : cookie_lib) (h : headers) (rl : request_line)
    (body_remainder : str) (reader : transport) : io (option (request cl)) * list str :=
  let body_len := content_length h in
  if (0 <? body_len)%N then
    let have := N.of_nat (length body_remainder) in
    if (have <? body_len)%N then
      let missing := (body_len - have)%N in
      if (ISIZE_MAX <? missing)%N then (IoPanic, segs reader)
      else
        let '(r, left_over) := read_exact_left (N.to_nat missing) (segs reader) (fin reader) in
        (io_bind r (fun o =>
           match o with
           | None => IoPanic
           | Some temp =>
               if (ISIZE_MAX <? body_len)%N then IoPanic
               else io_of_outcome (request_parse ft cl rl h (body_remainder ++ temp))
           end), left_over)
    else (io_of_outcome (request_parse ft cl rl h body_remainder), segs reader)
  else (io_of_outcome (request_parse ft cl rl h []), segs reader).

(** src/server.rs:171-186 reading a request, with the bytes of the stream that are left *)
Definition read_request_left (ft : features) (cl : cookie_lib) (t : transport) : io (read_result cl) * str :=
  match read_head_left t with
  | (IoDone HeadBad, left_over) => (IoDone RdBad, concat (segs left_over))
  | (IoDone (HeadOk raw_headers raw_request_line body_remainder reader_left), left_over) =>
      match headers_parse ft raw_headers with
      | None => (IoPanic, concat (segs left_over))
      | Some h =>
          match obind (request_line_parse ft raw_request_line) unwrap with
          | Panic => (IoPanic, concat (segs left_over))
          | Done rl =>
              let '(r, unread) := from_raw_left ft cl h rl body_remainder reader_left in
              (io_bind r (fun o => IoDone (match o with Some rq => RdRequest rq | None => RdBad end)), concat unread)
          end
      end
  | (IoPanic, left_over) => (IoPanic, concat (segs left_over))
  | (IoBlocked, left_over) => (IoBlocked, concat (segs left_over))
  | (IoFuel, left_over) => (IoFuel, concat (segs left_over))
  end.
