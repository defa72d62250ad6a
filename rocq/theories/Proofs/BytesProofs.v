(** Requests and answers with their line ends written as numbers. *)
From Verif.Model Require Import RustStd Path Request Time Status Response Router Server.
From Verif.Spec Require Import Common PathSpec RoutingSpec TextSpec RequestSpec ResponseSpec ServerSpec BytesSpec.
From Verif.Proofs Require Import RequestExtra ResponseProofs ServerProofs.
From Coq Require Import Permutation.

Lemma lines_join (l : list str) : l <> [] ->
  concat (map (fun x => x ++ newline) l) = join CRLF l ++ newline.
Proof.
  induction l as [|x l IH]; intros N; [destruct (N eq_refl)|].
  destruct l as [|y l]; [cbn; now rewrite app_nil_r|].
  cbn [map concat]. cbn [map concat] in IH. rewrite IH by discriminate.
  change (join CRLF (x :: y :: l)) with (x ++ newline ++ join CRLF (y :: l)). now rewrite <- !app_assoc.
Qed.
Lemma request_bytes_text m p ver hs body : hs <> [] ->
  request_bytes m p ver hs body = request_text m p ver hs body.
Proof.
  intros N. unfold request_bytes, request_text.
  replace (concat (map (fun hd => h_name hd ++ [x3a; x20] ++ h_value hd ++ newline) hs))
    with (concat (map (fun x => x ++ newline) (map header_text hs))).
  - rewrite lines_join by (destruct hs; [now destruct N|discriminate]).
    change CRLFCRLF with (newline ++ newline). now rewrite <- !app_assoc.
  - rewrite map_map. f_equal. apply map_ext. intros hd. unfold header_text.
    change (B ": ") with [x3a; x20]. now rewrite <- !app_assoc.
Qed.
Lemma head_before_at s a b : head_before s a b <-> head_at s a b.
Proof. reflexivity. Qed.
Lemma head_read_bytes t a b rl hs : real_segments t ->
  head_before (stream_of t) a b -> utf8_valid a = true -> a = rl ++ newline ++ hs -> ~ occurs newline rl ->
  exists rem later, read_head t = IoDone (HeadOk hs rl rem later) /\
    rem ++ stream_of later = b /\ fin later = fin t /\ real_segments later /\ length rem < 512.
Proof. intros R Hd U E N. exact (read_head_ok t a b rl hs R Hd U (conj E N)). Qed.
Lemma head_missing_bytes t : real_segments t -> ~ occurs (newline ++ newline) (stream_of t) ->
  read_head t = match fin t with Eof => IoDone HeadBad | Broken => IoPanic | Stall => IoBlocked end.
Proof. intros R N. exact (read_head_none t R N). Qed.

Lemma wire_text bytes ver num reason hs body : wire_reads bytes ver num reason hs body ->
  bytes = answer_bytes ver num reason hs body.
Proof.
  intros (a & hls & [-> _] & P & _ & _ & F). unfold answer_bytes.
  change CRLFCRLF with (newline ++ newline).
  assert (E : a ++ newline = concat (map (fun x => x ++ newline) ((B "HTTP/" ++ ver ++ [SP] ++ num ++ [SP] ++ reason) :: hls))).
  { rewrite lines_join by discriminate. f_equal. symmetry. apply P. }
  transitivity ((a ++ newline) ++ newline ++ body); [now rewrite <- !app_assoc|].
  rewrite E. cbn [map concat]. change [SP] with [x20].
  replace (concat (map (fun x => x ++ newline) hls))
    with (concat (map (fun kv : str * str => fst kv ++ [x3a; x20] ++ snd kv ++ newline) hs)).
  - now rewrite <- !app_assoc.
  - clear E P. induction F as [|l kv hls' hs' [-> _] F IH]; [reflexivity|].
    cbn [map concat]. rewrite IH. change (B ": ") with [x3a; x20]. now rewrite <- !app_assoc.
Qed.
Lemma answer_text cl ft w ho pos (r : response cl) body :
  cookies_on ft = false \/ rs_cookies r = [] -> headers_ok r -> given_body (rs_body r) body ->
  clean (rs_version r) -> ~ In x20 (rs_version r) -> clean (reason_phrase w r) ->
  exists hs, Permutation hs (rs_headers r) /\
    octane_send (get_data ft w ho pos r) =
      answer_bytes (rs_version r) (show_Z (status_into_i32 (rs_status r))) (reason_phrase w r) hs body.
Proof.
  intros C Ho G V S R. destruct (round_trip ft w ho pos r body C Ho G V S R) as (hs & P & W).
  exists hs. split; [exact P|]. now apply wire_text.
Qed.

Lemma end_to_end_bytes ft cl (H ST : Type) handle o app (rt : router H) w ho pos (s : ST) t m p ver hs body meth v path cs :
  (N.of_nat (length (flatten app)) <= USIZE_MAX)%N -> build o app = Done rt ->
  method_named m meth -> version_named ver v -> target_ok p -> path_means p path ->
  hs <> [] -> Forall (fun hd => good_header (faithful ft) hd /\ clean (header_text hd)) hs ->
  cookies_mean cl (cookies_on ft) hs cs -> ~ lacks_host (RequestLine meth path v) hs ->
  announced hs = N.of_nat (length body) -> (announced hs <= ISIZE_MAX)%N ->
  real_segments t -> stream_of t = request_bytes m p ver hs body ->
  exists rq s' res r, request_is ft rq (RequestLine meth path v) hs cs body /\
    handled ft cl handle app rq s ((s', res), r) /\
    (r = Done tt -> rs_body res <> BodyNone ->
       serve ft cl handle w ho pos rt s t = (s', IoDone (octane_send (get_data ft w ho pos res)))).
Proof.
  intros A Bd M V T P N G C L An Hb R E. rewrite request_bytes_text in E by exact N.
  destruct (end_to_end ft cl handle o app rt w ho pos s t m p ver hs body meth v path cs A Bd M V T P N G C L An Hb R E)
    as (rq & s' & res & r & Q & Hd & _ & D & _).
  exists rq, s', res, r. auto.
Qed.
