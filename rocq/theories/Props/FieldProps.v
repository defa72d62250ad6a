(** C147: handlers that assign to the public fields of their response.  Cookie library, worlds and responses are
    arbitrary.  [is_map]: what is assigned to [headers] is a map. *)
From Verif.Model Require Import RustStd Path Request Time Status Response Fields.
From Verif.Spec Require Import Common TextSpec RequestSpec ResponseSpec HistorySpec FieldSpec.
From Verif.Proofs Require Import ResponseWitness FieldProofs FieldWitness.

(** C147 is false: a length assigned to the field is announced by the next [default_headers], whatever the body. *)
Theorem C147_refuted :
  forall cl w w' body n (r : response cl), clock w <> None -> clock w' <> None ->
  exists r', apply_fops [(w, FCall (OpSend body)); (w, FLen (Some n)); (w', FCall OpDefaultHeaders)] r = Done r' /\
  (exists s, res_get (B "Content-Length") r' = Some s /\ decimal n s) /\
  forall ft v ho pos, octane_send (get_data ft v ho pos r') = fst (get_data ft v ho pos r') ++ body.
Proof. exact @length_spoiled. Qed.
Print Assumptions C147_refuted.
(** It is true where the body is given anew between the two (and no file or length of one's own is given). *)
Theorem C147_length_partial :
  forall cl (l : list (world * fop cl)) r r', r = new_empty \/ (exists b, r = new_from_slice b) ->
  Forall plain_call l -> length_unused l ->
  apply_fops l r = Done r' -> forall s, res_get (B "Content-Length") r' = Some s ->
  forall ft w ho pos, exists body, octane_send (get_data ft w ho pos r') = fst (get_data ft w ho pos r') ++ body /\
  decimal (N.of_nat (length body)) s.
Proof. exact @field_agree. Qed.
Print Assumptions C147_length_partial.
(** The last call or assignment that gives a part of the response a value decides. *)
Theorem C147_history :
  forall cl (l : list (world * fop cl)) r r', Forall is_map l -> apply_fops l r = Done r' -> left_by r l r'.
Proof. exact @fields_left. Qed.
Print Assumptions C147_history.
(** The length announced is the one in the field at the last filling-in. *)
Theorem C147_announced :
  forall cl pre w (o : rop cl) post r r' n, Forall is_map (pre ++ (w, FCall o) :: post) ->
  apply_fops (pre ++ (w, FCall o) :: post) r = Done r' -> fills_in o = true -> (forall c, In c post -> ~ may_set_length c) ->
  last_in puts_length (pre ++ [(w, FCall o)]) (Some (Some n)) \/
  (last_in puts_length (pre ++ [(w, FCall o)]) None /\ rs_content_len r = Some n) ->
  exists s, res_get (B "Content-Length") r' = Some s /\ decimal n s.
Proof. exact @field_length. Qed.
Print Assumptions C147_announced.
(** The content type is the one given last; *)
Theorem C147_type :
  forall cl (l : list (world * fop cl)) r r' t, Forall is_map l -> apply_fops l r = Done r' ->
  last_in puts_type l (Some (Some t)) -> res_get (B "Content-Type") r' = Some t.
Proof. exact @field_type_given. Qed.
Print Assumptions C147_type.
(** while there is none, the next filling-in gives the default one, with the charset of that moment. *)
Theorem C147_default_type :
  forall cl pre mid w (o : rop cl) post r r', Forall is_map (pre ++ mid ++ (w, FCall o) :: post) ->
  apply_fops (pre ++ mid ++ (w, FCall o) :: post) r = Done r' ->
  (pre = [] /\ res_get (B "Content-Type") r = None) \/ (exists q c, pre = q ++ [c] /\ puts_type c None) ->
  (forall c v, In c (mid ++ (w, FCall o) :: post) -> ~ puts_type c v) -> (forall c, In c mid -> ~ fills c) -> fills_in o = true ->
  forall s, last_in puts_charset (pre ++ mid) s ->
  res_get (B "Content-Type") r' = Some (default_type (dbg_sq w) (match s with Some x => x | None => rs_charset r end)).
Proof. exact @field_type_default. Qed.
Print Assumptions C147_default_type.
(** Assignments never panic. *)
Theorem C147_no_panic :
  forall cl (l : list (world * fop cl)) r, (exists r', apply_fops l r = Done r') <-> Forall harmless l.
Proof. exact @fields_safe. Qed.
Print Assumptions C147_no_panic.
Example C147_example :
  Forall is_map assigned /\ Forall harmless assigned /\ Forall plain_call assigned /\ length_unused assigned /\
  last_in puts_status assigned (Some StNotFound) /\ last_in puts_version assigned (Some (B "2")) /\
  last_in puts_charset assigned (Some (Some (B "utf-8"))) /\ last_in puts_body assigned (Some (2%N, RCursor (B "ho"))) /\
  last_in puts_length assigned (Some None) /\ last_in (puts_header (B "A") (gives_header (B "A"))) assigned (Some (Some (B "2"))) /\
  last_in (puts_header (B "Z") (gives_header (B "Z"))) assigned (Some None) /\
  exists r, apply_fops assigned new_empty = Done r /\
    octane_send (get_data default_features ex_world insertion_order [] r) =
    B "HTTP/2 404 NOT FOUND" ++ CRLF ++ B "A: 2" ++ CRLF ++ B "Content-Length: 2" ++ CRLF ++
    B "Date: Fri, 01 Jan 2021 00:00:00 GMT" ++ CRLF ++ B "Content-Type: text/html ;charset=""utf-8""" ++ CRLFCRLF ++ B "ho".
Proof. exact assigned_example. Qed.
Example C147_refuted_example :
  exists r, apply_fops [(ex_world, FCall (OpSend (B "hello"))); (ex_world, FLen (Some 2%N)); (ex_world, FCall OpDefaultHeaders)]
    (new_empty (cl := ex_cl)) = Done r /\ clock ex_world <> None /\
  exists v n p hs, wire_reads (octane_send (get_data default_features ex_world insertion_order [] r)) v n p hs (B "hello") /\
    In (B "Content-Length", B "2") hs.
Proof. exact spoiled_example. Qed.
