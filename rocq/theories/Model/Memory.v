(** The heap bytes reserved for a request body: the functions of Model/Request.v and Model/Server.v for
    src/request.rs:296-323 and src/server.rs:173-186, with the sizes of the two buffers (lines 310 and 312).
    The buffers for the head grow with what is received and are not counted. *)
From Verif.Model Require Export RustStd Request Server.

(** src/request.rs:296-323 [Request::from_raw], with the bytes reserved until it ends or waits for input *)
Definition from_raw_counted (ft : features) (cl : cookie_lib) (h : headers) (rl : request_line)
    (body_remainder : str) (reader : transport) : io (option (request cl)) * N :=
  let body_len := content_length h in
  if (0 <? body_len)%N then
    let have := N.of_nat (length body_remainder) in
    if (have <? body_len)%N then
      let missing := (body_len - have)%N in
      if (ISIZE_MAX <? missing)%N then (IoPanic, 0%N)
      else
        match read_exact_segs (N.to_nat missing) (segs reader) (fin reader) with
        | IoDone (Some temp) =>
            if (ISIZE_MAX <? body_len)%N then (IoPanic, missing)
            else (io_of_outcome (request_parse ft cl rl h (body_remainder ++ temp)), missing + body_len)%N
        | IoDone None => (IoPanic, missing)
        | IoPanic => (IoPanic, missing)
        | IoBlocked => (IoBlocked, missing)
        | IoFuel => (IoFuel, missing)
        end
    else (io_of_outcome (request_parse ft cl rl h body_remainder), 0%N)
  else (io_of_outcome (request_parse ft cl rl h []), 0%N).

(** src/server.rs:173-186 reading a request, with the bytes reserved for its body *)
Definition read_request_counted (ft : features) (cl : cookie_lib) (t : transport) : io (read_result cl) * N :=
  match read_head t with
  | IoDone HeadBad => (IoDone RdBad, 0%N)
  | IoDone (HeadOk raw_headers raw_request_line body_remainder reader_left) =>
      match headers_parse ft raw_headers with
      | None => (IoPanic, 0%N)
      | Some h =>
          match obind (request_line_parse ft raw_request_line) unwrap with
          | Panic => (IoPanic, 0%N)
          | Done rl =>
              let '(r, n) := from_raw_counted ft cl h rl body_remainder reader_left in
              (io_bind r (fun o => IoDone (match o with Some rq => RdRequest rq | None => RdBad end)), n)
          end
      end
  | IoPanic => (IoPanic, 0%N)
  | IoBlocked => (IoBlocked, 0%N)
  | IoFuel => (IoFuel, 0%N)
  end.
