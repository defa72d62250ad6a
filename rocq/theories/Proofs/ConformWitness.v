(** Examples of requests that other implementations send. *)
From Verif.Proofs Require Export ConformProofs ServerWitness AppWitness.
From Verif.Spec Require Import Common PathSpec RoutingSpec TextSpec RequestSpec ResponseSpec ServerSpec ConformSpec QuerySpec.

Ltac good_hd := split; [|clean_lit]; apply strict_good; [split; [discriminate|split; [not_in|intros _; apply Forall_forall;
    let I := fresh in intros ? I; apply tchar_b; repeat (destruct I as [<-|I]; [reflexivity|]); destruct I]]
  | split; [let E := fresh in cbn [h_value]; intros ? ? E; injection E as <- _; let X := fresh in intros [X|X]; discriminate X
           |intros _; repeat apply Forall_cons; try apply Forall_nil; let X := fresh in intros [X|X]; vm_compute in X; discriminate X]
  | reflexivity].
Ltac good_hds := repeat (apply Forall_cons; [good_hd|]); apply Forall_nil.
Ltac target_lit := split; [clean_lit|split; [not_in|reflexivity]].
(** A request text that starts with this line and these headers. *)
Definition req (m p : str) (hs : list header) (rest : str) : str := request_text m p (B "1.1") hs rest.
Definition HOST := Header (B "Host") (B "x").
Definition CHUNKED := Header (B "Transfer-Encoding") (B "chunked").
Definition LEN (v : str) := Header (B "Content-Length") v.

Ltac head_lit := eapply (text_head default_features demo_lib);
  [constructor|constructor|target_lit|apply path_means_parse; vm_compute; reflexivity|discriminate|good_hds|reflexivity].
Lemma stream_one s e : stream_of (Transport [s] e) = s.
Proof. unfold stream_of. cbn. apply app_nil_r. Qed.

(** A chunked body. *)
Definition chunked_hello : str := B "3" ++ CRLF ++ B "hel" ++ CRLF ++ B "02" ++ CRLF ++ B "lo" ++ CRLF ++ B "0" ++ CRLFCRLF.
Lemma hello_chunked : chunked (B "hello") chunked_hello.
Proof.
  change (B "hello") with (B "hel" ++ B "lo" ++ B "").
  apply (chunked_more (B "3") (B "hel") (B "lo" ++ []) (B "02" ++ CRLF ++ B "lo" ++ CRLF ++ B "0" ++ CRLFCRLF)); try discriminate.
  - apply hex_next with (d := 3%N); [left; split; [split; vm_compute; discriminate|reflexivity]|apply hex_end].
  - apply (chunked_more (B "02") (B "lo") [] (B "0" ++ CRLFCRLF)); try discriminate; [|apply chunked_last].
    apply hex_next with (d := 0%N); [left; split; [split; vm_compute; discriminate|reflexivity]|].
    apply hex_next with (d := 2%N); [left; split; [split; vm_compute; discriminate|reflexivity]|apply hex_end].
Qed.
Lemma chunked_refuted : exists t a b rl hs cs data rq, real_segments t /\
  head_at (stream_of t) a b /\ head_means default_features demo_lib a rl hs cs /\
  folded (B "transfer-encoding") hs = Some (B "chunked") /\ chunked data b /\ data = B "hello" /\
  read_request default_features demo_lib t = IoDone (RdRequest rq) /\ rq_body rq = [].
Proof.
  destruct (text_head default_features demo_lib (B "POST") (B "/echo/7") (B "1.1") [HOST; CHUNKED] chunked_hello MPost Http11
    [B "echo"; B "7"] []) as (a & Ha & Hm).
  1: constructor. 1: constructor. 1: target_lit. 1: apply path_means_parse; reflexivity. 1: discriminate. 1: good_hds. 1: reflexivity.
  exists (Transport [req (B "POST") (B "/echo/7") [HOST; CHUNKED] chunked_hello] Eof), a, chunked_hello.
  do 3 eexists. exists (B "hello"). eexists. split; [apply real_one; discriminate|]. split; [rewrite stream_one; exact Ha|].
  split; [exact Hm|]. split; [reflexivity|]. split; [exact hello_chunked|]. split; [reflexivity|].
  split; [vm_compute; reflexivity|reflexivity].
Qed.

(** Contradictory lengths. *)
Lemma lengths_refuted : exists t a b rl hs cs rq, real_segments t /\
  head_at (stream_of t) a b /\ head_means default_features demo_lib a rl hs cs /\
  hs = [HOST; LEN (B "3"); LEN (B "30")] /\ repeated (B "content-length") hs /\ (forall n, ~ usable_length hs n) /\
  read_request default_features demo_lib t = IoDone (RdRequest rq) /\ rq_body rq = [] /\
  snd (serve default_features demo_lib ex_handle ex_world insertion_order [] ex_router 7 t) =
    IoDone (answer_head (B "200 OK") (B "0")).
Proof.
  destruct (text_head default_features demo_lib (B "POST") (B "/echo/7") (B "1.1") [HOST; LEN (B "3"); LEN (B "30")] (B "abc") MPost Http11
    [B "echo"; B "7"] []) as (a & Ha & Hm).
  1: constructor. 1: constructor. 1: target_lit. 1: apply path_means_parse; reflexivity. 1: discriminate. 1: good_hds. 1: reflexivity.
  exists (Transport [req (B "POST") (B "/echo/7") [HOST; LEN (B "3"); LEN (B "30")] (B "abc")] Eof), a, (B "abc").
  do 4 eexists. split; [apply real_one; discriminate|]. split; [rewrite stream_one; exact Ha|].
  split; [exact Hm|]. split; [reflexivity|]. assert (Rp : repeated (B "content-length") [HOST; LEN (B "3"); LEN (B "30")]) by (vm_compute; lia).
  split; [exact Rp|]. split; [intro n; apply repeated_unusable; exact Rp|].
  split; [vm_compute; reflexivity|]. split; [reflexivity|vm_compute; reflexivity].
Qed.
Lemma usable_example : usable_length [HOST; LEN (B "+17")] 17 /\ announced [HOST; LEN (B "+17")] = 17%N /\
  announced [HOST; LEN (B "17 ")] = 0%N /\ announced [LEN (B "18446744073709551616")] = 0%N.
Proof.
  split; [|split; [|split]; vm_compute; reflexivity]. exists (B "+17"). split; [reflexivity|]. exists (B "17").
  split; [right; reflexivity|]. split; [discriminate|]. split; [repeat constructor; vm_compute; discriminate|].
  split; vm_compute; [reflexivity|discriminate].
Qed.

(** Two requests on one connection. *)
Lemma bodyless_means ft cl a rl hs cs : head_means ft cl a rl hs cs -> announced hs = 0%N -> bodyless ft a.
Proof.
  intros (_ & rlt & hst & Hp & _ & Hb & _) An rlt' hst' hs' Hp' Hb'. destruct (head_parts_fun _ _ _ _ _ Hp Hp') as [<- <-].
  rewrite (header_block_fun _ _ _ _ Hb' Hb). exact An.
Qed.
Lemma pipelined_refuted :
  (exists a, head_at get_hi a [] /\ head_at (get_hi ++ get_hi) a get_hi /\ bodyless default_features a) /\
  ex_serve (get_hi ++ get_hi) Stall = ex_serve get_hi Stall /\
  ex_serve get_hi Stall = (8, IoDone (answer_head (B "200 OK") (B "2") ++ B "hi")).
Proof.
  split; [|split; vm_compute; reflexivity].
  destruct (text_head default_features demo_lib (B "GET") (B "/hi") (B "1.1") [HOST] [] MGet Http11 [B "hi"] []) as (a & Ha & Hm).
  1: constructor. 1: constructor. 1: target_lit. 1: apply path_means_parse; reflexivity. 1: discriminate. 1: good_hds. 1: reflexivity.
  destruct (text_head default_features demo_lib (B "GET") (B "/hi") (B "1.1") [HOST] get_hi MGet Http11 [B "hi"] []) as (a' & Ha' & Hm').
  1: constructor. 1: constructor. 1: target_lit. 1: apply path_means_parse; reflexivity. 1: discriminate. 1: good_hds. 1: reflexivity.
  assert (a = a') as <-.
  { destruct Ha as [E _], Ha' as [E' _]. apply (app_inv_tail (CRLFCRLF ++ get_hi)).
    rewrite <- E'. rewrite app_nil_r in E. rewrite app_assoc, <- E. vm_compute. reflexivity. }
  exists a. split; [exact Ha|]. split; [exact Ha'|]. eapply bodyless_means; [exact Hm|reflexivity].
Qed.

(** Segmentation. *)
Lemma no_surplus ft cl s a b rl hs cs : head_at s a b -> head_means ft cl a rl hs cs ->
  (announced hs = 0%N \/ (N.of_nat (length b) <= announced hs)%N) -> ~ surplus ft s.
Proof.
  intros Ha (V & rlt & hst & Hp & _ & Hb & _) L (a' & b' & rlt' & hst' & hs' & Ha' & _ & Hp' & Hb' & S).
  destruct (head_at_fun _ _ _ _ _ Ha Ha') as [<- <-]. destruct (head_parts_fun _ _ _ _ _ Hp Hp') as [<- <-].
  rewrite (header_block_fun _ _ _ _ Hb' Hb) in S. lia.
Qed.
Lemma not_borderline ft cl s a b rl hs cs e : head_at s a b -> head_means ft cl a rl hs cs ->
  (announced hs <= ISIZE_MAX)%N -> ~ borderline ft s e.
Proof.
  intros Ha (V & rlt & hst & Hp & _ & Hb & _) L (_ & a' & b' & rlt' & hst' & rl' & hs' & Ha' & _ & Hp' & _ & Hb' & _ & S & _).
  destruct (head_at_fun _ _ _ _ _ Ha Ha') as [<- <-]. destruct (head_parts_fun _ _ _ _ _ Hp Hp') as [<- <-].
  rewrite (header_block_fun _ _ _ _ Hb' Hb) in S. lia.
Qed.
Definition post_abc (n : str) : str := req (B "POST") (B "/echo/7") [HOST; LEN n] (B "abc").
Lemma segmentation_example :
  let t := Transport [post_abc (B "3")] Stall in let t' := Transport (map (fun b => [b]) (post_abc (B "3"))) Stall in
  real_segments t /\ real_segments t' /\ stream_of t = stream_of t' /\
  ~ surplus default_features (stream_of t) /\ ~ borderline default_features (stream_of t) Stall /\
  serve default_features demo_lib ex_handle ex_world insertion_order [] ex_router 7 t' =
    (7, IoDone (answer_head (B "200 OK") (B "3") ++ B "abc")).
Proof.
  destruct (text_head default_features demo_lib (B "POST") (B "/echo/7") (B "1.1") [HOST; LEN (B "3")] (B "abc") MPost Http11
    [B "echo"; B "7"] []) as (a & Ha & Hm).
  1: constructor. 1: constructor. 1: target_lit. 1: apply path_means_parse; reflexivity. 1: discriminate. 1: good_hds. 1: reflexivity.
  cbv zeta. rewrite stream_one. split; [apply real_one; discriminate|]. split.
  { apply Forall_forall. intros x I. cbn [segs] in I. apply in_map_iff in I as (y & <- & _). discriminate. }
  split; [vm_compute; reflexivity|]. split; [eapply no_surplus; [exact Ha|exact Hm|right; vm_compute; discriminate]|].
  split; [eapply not_borderline; [exact Ha|exact Hm|vm_compute; discriminate]|]. vm_compute. reflexivity.
Qed.
Lemma segmentation_refuted :
  let t := Transport [post_abc (B "2")] Stall in let t' := Transport (map (fun b => [b]) (post_abc (B "2"))) Stall in
  real_segments t /\ real_segments t' /\ stream_of t = stream_of t' /\
  serve default_features demo_lib ex_handle ex_world insertion_order [] ex_router 7 t =
    (7, IoDone (answer_head (B "200 OK") (B "3") ++ B "abc")) /\
  serve default_features demo_lib ex_handle ex_world insertion_order [] ex_router 7 t' =
    (7, IoDone (answer_head (B "200 OK") (B "2") ++ B "ab")).
Proof.
  cbv zeta. split; [apply real_one; discriminate|]. split.
  { apply Forall_forall. intros x I. cbn [segs] in I. apply in_map_iff in I as (y & <- & _). discriminate. }
  repeat split; vm_compute; reflexivity.
Qed.

(** Spellings. *)
Definition lower_host := Header (B "hOST") (B "x").
Lemma spelling_example : exists a a' a'' rl,
  head_at (req (B "POST") (B "/echo/7") [HOST; LEN (B "3")] (B "abc")) a (B "abc") /\
  head_at (req (B "POST") (B "//echo/./y/../7/") [HOST; LEN (B "3")] (B "abc")) a' (B "abc") /\
  head_at (req (B "POST") (B "/echo/7") [lower_host; LEN (B "3")] (B "abc")) a'' (B "abc") /\
  head_means default_features demo_lib a rl [HOST; LEN (B "3")] [] /\
  head_means default_features demo_lib a' rl [HOST; LEN (B "3")] [] /\
  head_means default_features demo_lib a'' rl [lower_host; LEN (B "3")] [] /\
  Forall2 same_field [HOST; LEN (B "3")] [lower_host; LEN (B "3")] /\ announced [HOST; LEN (B "3")] = 3%N.
Proof.
  destruct (text_head default_features demo_lib (B "POST") (B "/echo/7") (B "1.1") [HOST; LEN (B "3")] (B "abc") MPost Http11
    [B "echo"; B "7"] []) as (a & Ha & Hm).
  1: constructor. 1: constructor. 1: target_lit. 1: apply path_means_parse; reflexivity. 1: discriminate. 1: good_hds. 1: reflexivity.
  destruct (text_head default_features demo_lib (B "POST") (B "//echo/./y/../7/") (B "1.1") [HOST; LEN (B "3")] (B "abc") MPost Http11
    [B "echo"; B "7"] []) as (a' & Ha' & Hm').
  1: constructor. 1: constructor. 1: target_lit. 1: apply path_means_parse; reflexivity. 1: discriminate. 1: good_hds. 1: reflexivity.
  destruct (text_head default_features demo_lib (B "POST") (B "/echo/7") (B "1.1") [lower_host; LEN (B "3")] (B "abc") MPost Http11
    [B "echo"; B "7"] []) as (a'' & Ha'' & Hm'').
  1: constructor. 1: constructor. 1: target_lit. 1: apply path_means_parse; reflexivity. 1: discriminate. 1: good_hds. 1: reflexivity.
  exists a, a', a''. eexists. repeat (split; [eassumption|]). split; [|reflexivity].
  repeat apply Forall2_cons; [| |apply Forall2_nil]; (split; [apply same_fold_lower|]; reflexivity).
Qed.

(** Targets. *)
Lemma absolute_refuted :
  path_means (B "http://x/hi") [B "http:"; B "x"; B "hi"] /\
  snd (ex_serve (req (B "GET") (B "http://x/hi") [HOST] []) Eof) = IoDone (answer_head (B "404 NOT FOUND") (B "189") ++ NOT_FOUND) /\
  snd (ex_serve (req (B "GET") (B "/hi") [HOST] []) Eof) = IoDone (answer_head (B "200 OK") (B "2") ++ B "hi").
Proof. split; [apply path_means_parse; reflexivity|]. split; vm_compute; reflexivity. Qed.
Lemma percent_refuted :
  escapes (map bN (B "/hi")) (map bN (B "/%68i")) /\ path_means (B "/%68i") [B "%68i"] /\
  snd (ex_serve (req (B "GET") (B "/%68i") [HOST] []) Eof) = IoDone (answer_head (B "404 NOT FOUND") (B "189") ++ NOT_FOUND) /\
  snd (ex_serve (req (B "GET") (B "/hi") [HOST] []) Eof) = IoDone (answer_head (B "200 OK") (B "2") ++ B "hi").
Proof.
  split. { cbv. apply esc_copy; [discriminate|]. apply (esc_hex 54 56 6 8 [105]%N); [left; lia|left; lia|].
    apply esc_copy; [discriminate|constructor]. }
  split; [apply path_means_parse; reflexivity|]. split; vm_compute; reflexivity.
Qed.

(** Responses. *)
Definition ex_head (status more : str) : str := B "HTTP/1.1 " ++ status ++ CRLF ++ B "Content-Length: 2" ++ CRLF ++
  B "Date: Fri, 01 Jan 2021 00:00:00 GMT" ++ CRLF ++ B "Content-Type: text/html" ++ more.
Lemma no_content_refuted : exists r hs, run [OpSend (B "hi"); OpStatus StNoContent] = Done r /\ never_body (rs_status r) /\
  wire_reads (wire_of (Done r)) (B "1.1") (B "204") (B "NO CONTENT") hs (B "hi").
Proof.
  eexists. exists [(B "Content-Length", B "2"); (B "Date", B "Fri, 01 Jan 2021 00:00:00 GMT"); (B "Content-Type", B "text/html")].
  split; [vm_compute; reflexivity|]. split; [left; reflexivity|].
  eapply wire_reads_b with (a := ex_head (B "204 NO CONTENT") []); try (vm_compute; reflexivity); try not_in.
  repeat constructor; not_in.
Qed.
Lemma two_types_refuted : exists r hs, run [OpSet (B "content-type") (B "application/json"); OpSend (B "{}")] = Done r /\
  wire_reads (wire_of (Done r)) (B "1.1") (B "200") (B "OK") hs (B "{}") /\
  In (B "content-type", B "application/json") hs /\ In (B "Content-Type", B "text/html") hs.
Proof.
  eexists. exists [(B "content-type", B "application/json"); (B "Content-Length", B "2");
    (B "Date", B "Fri, 01 Jan 2021 00:00:00 GMT"); (B "Content-Type", B "text/html")].
  split; [vm_compute; reflexivity|]. split; [|cbn; tauto].
  eapply wire_reads_b with (a := B "HTTP/1.1 200 OK" ++ CRLF ++ B "content-type: application/json" ++ CRLF ++
    B "Content-Length: 2" ++ CRLF ++ B "Date: Fri, 01 Jan 2021 00:00:00 GMT" ++ CRLF ++ B "Content-Type: text/html");
    try (vm_compute; reflexivity); try not_in.
  repeat constructor; not_in.
Qed.
Lemma one_spelling_b l : forallb (fun k => forallb (fun k' => implb (seqb (to_ascii_lowercase k) (to_ascii_lowercase k')) (seqb k k')) l) l = true ->
  one_spelling l.
Proof.
  intros F k k' I I' E. apply same_fold_lower in E. rewrite forallb_forall in F. specialize (F k I). rewrite forallb_forall in F. specialize (F k' I').
  rewrite E, (proj2 (seqb_eq _ _) eq_refl) in F. cbn in F. apply seqb_eq. exact F.
Qed.
Lemma names_example : let l := map (fun o => (ex_world, o)) [OpSet (B "X-A") (B "1"); OpSet (B "Content-Type") (B "a/b"); OpSend (B "{}") : rop ex_cl] in
  one_spelling (own_names ++ set_names l) /\
  match apply_ops l new_empty with
  | Done r => map fst (rs_headers r) = [B "X-A"; B "Content-Type"; B "Content-Length"; B "Date"]
  | Panic => False
  end.
Proof. split; [apply one_spelling_b; vm_compute; reflexivity|vm_compute; reflexivity]. Qed.
Lemma connection_refuted : exists hs, 
  wire_reads (wire_of (run [OpSend (B "hi")])) (B "1.1") (B "200") (B "OK") hs (B "hi") /\
  forall v, ~ In (B "Connection", v) hs.
Proof.
  exists [(B "Content-Length", B "2"); (B "Date", B "Fri, 01 Jan 2021 00:00:00 GMT"); (B "Content-Type", B "text/html")].
  split; [|intro v; not_in].
  eapply wire_reads_b with (a := ex_head (B "200 OK") []); try (vm_compute; reflexivity); try not_in.
  repeat constructor; not_in.
Qed.
Lemma quiet_example :
  (forall h mr s r, quiet default_features ex_world r -> quiet default_features ex_world (snd (fst (ex_handle h mr (s, r))))) /\
  fits ex_app /\ build insertion_order ex_app = Done ex_router /\
  snd (ex_serve get_hi Stall) = IoDone (answer_head (B "200 OK") (B "2") ++ B "hi").
Proof.
  split; [apply ex_keeps; intros; eapply quiet_send; eauto|]. split; [vm_compute; discriminate|].
  split; [exact ex_built|vm_compute; reflexivity].
Qed.
