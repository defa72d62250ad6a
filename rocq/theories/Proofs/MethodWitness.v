(** Examples for C134-C136. *)
From Verif.Spec Require Import Common PathSpec RouteSpec RoutingSpec TextSpec RequestSpec ResponseSpec ServerSpec AppSpec MethodSpec.
From Verif.Model Require Import RustStd Path Request Time Status Response Router Server.
From Verif.Proofs Require Export AppWitness ConformWitness GuardWitness MethodProofs.

Definition read_of (t : transport) : option (request demo_lib) :=
  match read_request default_features demo_lib t with IoDone (RdRequest rq) => Some rq | _ => None end.
Lemma read_carried t rq : real_segments t -> read_of t = Some rq ->
  exists hs cs body, carries default_features demo_lib (stream_of t) (rq_line rq) hs cs body /\
    (err_bad_request (http_validate (rl_version (rq_line rq)) (rq_headers rq)) = false -> ~ lacks_host (rq_line rq) hs).
Proof.
  intros R E. unfold read_of in E. pose proof (read_request_cases default_features demo_lib t R) as X.
  destruct (read_request _ _ t) as [[|rq']| | |]; try discriminate. injection E as ->.
  destruct X as (rl & hs & cs & body & Ca & Ri). pose proof Ri as (El & _ & _ & G & _). exists hs, cs, body. rewrite El. split; auto.
  intros Nn L. apply (host_check _ _ hs G) in L. congruence.
Qed.

(** One page, for GET only. *)
Definition page_app : list (oreg nat) := [ORoute VGet (B "/hi") 1].
Definition page_router := match build insertion_order page_app with Done r => r | Panic => router_new end.
Definition post_hi : transport := Transport [req (B "POST") (B "/hi") [HOST] []] Stall.
Definition t_head_hi : transport := Transport [head_hi] Stall.
Lemma page_built : build insertion_order page_app = Done page_router.
Proof. vm_compute. reflexivity. Qed.
Lemma page_fits : fits page_app.
Proof. vm_compute. discriminate. Qed.
Lemma page_nothing m : m <> MGet -> nothing_for true m [B "hi"] page_app.
Proof. intro N. repeat constructor. intros (S & _). cbn in S. auto. Qed.
Lemma page_has : has_route true MGet [B "hi"] page_app.
Proof.
  exists VGet, (B "/hi"), 1. split; [now left|]. split; [reflexivity|]. exists [B "hi"]. split; [apply path_means_parse; reflexivity|].
  apply (proj1 (match_b_spec default_features [B "hi"] [B "hi"] ltac:(repeat constructor; discriminate))). reflexivity.
Qed.
Lemma ex_ignores : ignores_method ex_handle.
Proof. intros h m m' p v hs body cs vars [s r]. reflexivity. Qed.

Lemma example_134 :
  fits page_app /\ build insertion_order page_app = Done page_router /\ clock ex_world <> None /\ real_segments post_hi /\
  (exists hs cs body, carries default_features demo_lib (stream_of post_hi) (RequestLine MPost [B "hi"] Http11) hs cs body /\
     ~ lacks_host (RequestLine MPost [B "hi"] Http11) hs) /\
  nothing_for true MPost [B "hi"] page_app /\ has_route true MGet [B "hi"] page_app /\
  serve default_features demo_lib ex_handle ex_world insertion_order [] page_router 7 post_hi =
    (7, IoDone (answer_head (B "404 NOT FOUND") (B "189") ++ NOT_FOUND)).
Proof.
  split; [exact page_fits|]. split; [exact page_built|]. split; [discriminate|]. split; [repeat constructor; discriminate|].
  split; [|split; [apply page_nothing; discriminate|split; [exact page_has|vm_compute; reflexivity]]].
  eassert (E : read_of post_hi = Some _) by (vm_compute; reflexivity).
  destruct (read_carried post_hi _ ltac:(repeat constructor; discriminate) E) as (hs & cs & body & Ca & Nh).
  exists hs, cs, body. split; [exact Ca|]. apply Nh. vm_compute. reflexivity.
Qed.

Lemma not_405 :
  ~ (forall ft cl (H ST : Type) (handle : H -> matched_request cl -> ST * response cl -> (ST * response cl) * outcome flow)
       o app (rt : router H) w ho pos s t rl hs cs body m',
     fits app -> build o app = Done rt -> clock w <> None -> real_segments t ->
     carries ft cl (stream_of t) rl hs cs body -> ~ lacks_host rl hs -> rl_method rl <> MNone ->
     nothing_for (url_variables ft) (rl_method rl) (rl_path rl) app -> has_route (url_variables ft) m' (rl_path rl) app ->
     exists out reason hs' page, snd (serve ft cl handle w ho pos rt s t) = IoDone out /\
       wire_reads out (B "1.1") (B "405") reason hs' page).
Proof.
  intro X. destruct example_134 as (F & E & C & R & (hs & cs & body & Ca & Nh) & Nf & Hr & Es).
  specialize (X default_features demo_lib nat nat ex_handle insertion_order page_app page_router ex_world insertion_order [] 7 post_hi
                (RequestLine MPost [B "hi"] Http11) hs cs body MGet F E C R Ca Nh ltac:(discriminate) Nf Hr).
  destruct X as (out & reason & hs' & page & Eo & W).
  destruct (nothing_applies default_features demo_lib ex_handle insertion_order page_app page_router ex_world insertion_order [] 7 post_hi
              _ hs cs body F E C R Ca Nh ltac:(discriminate) Nf) as (out' & Eo' & (hs2 & b2 & len & W2 & _)).
  rewrite Eo' in Eo. cbn [snd] in Eo. injection Eo as ->.
  pose proof (wire_reads_fun _ _ _ _ _ _ _ _ _ _ _ W W2) as (_ & Q & _). discriminate Q.
Qed.

(** HEAD *)
Lemma not_like_get :
  ~ (forall ft cl (H ST : Type) (handle : H -> matched_request cl -> ST * response cl -> (ST * response cl) * outcome flow)
       o app (rt : router H) w ho pos s t t' a a' b p v hs cs out num reason hs1 b1,
     fits app -> build o app = Done rt -> clock w <> None -> real_segments t -> real_segments t' ->
     head_at (stream_of t) a b -> head_at (stream_of t') a' b ->
     head_means ft cl a (RequestLine MGet p v) hs cs -> head_means ft cl a' (RequestLine MHead p v) hs cs ->
     announced hs = N.of_nat (length b) -> (announced hs <= ISIZE_MAX)%N -> ignores_method handle ->
     (forall q h, ~ In (RRoute VHead q h) (flatten app)) ->
     snd (serve ft cl handle w ho pos rt s t) = IoDone out -> wire_reads out (B "1.1") num reason hs1 b1 ->
     exists out' hs2 b2, snd (serve ft cl handle w ho pos rt s t') = IoDone out' /\ wire_reads out' (B "1.1") num reason hs2 b2).
Proof.
  intro X.
  destruct (text_head default_features demo_lib (B "GET") (B "/hi") (B "1.1") [HOST] [] MGet Http11 [B "hi"] []) as (a & Ha & Hm).
  1: constructor. 1: constructor. 1: target_lit. 1: apply path_means_parse; reflexivity. 1: discriminate. 1: good_hds. 1: reflexivity.
  destruct (text_head default_features demo_lib (B "HEAD") (B "/hi") (B "1.1") [HOST] [] MHead Http11 [B "hi"] []) as (a' & Ha' & Hm').
  1: constructor. 1: constructor. 1: target_lit. 1: apply path_means_parse; reflexivity. 1: discriminate. 1: good_hds. 1: reflexivity.
  set (t := Transport [req (B "GET") (B "/hi") [HOST] []] Stall). set (t' := Transport [req (B "HEAD") (B "/hi") [HOST] []] Stall).
  assert (R : real_segments t) by (repeat constructor; discriminate). assert (R' : real_segments t') by (repeat constructor; discriminate).
  assert (Es : serve default_features demo_lib ex_handle ex_world insertion_order [] page_router 7 t =
               (8, IoDone (answer_head (B "200 OK") (B "2") ++ B "hi"))) by (vm_compute; reflexivity).
  assert (Es' : serve default_features demo_lib ex_handle ex_world insertion_order [] page_router 7 t' =
               (7, IoDone (answer_head (B "404 NOT FOUND") (B "189") ++ NOT_FOUND))) by (vm_compute; reflexivity).
  assert (S' : stream_of t = request_text (B "GET") (B "/hi") (B "1.1") [HOST] []) by (vm_compute; reflexivity).
  assert (S'' : stream_of t' = request_text (B "HEAD") (B "/hi") (B "1.1") [HOST] []) by (vm_compute; reflexivity).
  rewrite <- S' in Ha. rewrite <- S'' in Ha'.
  assert (W0 : wire_reads (answer_head (B "200 OK") (B "2") ++ B "hi") (B "1.1") (B "200") (B "OK")
    [(B "Content-Length", B "2"); (B "Date", B "Fri, 01 Jan 2021 00:00:00 GMT"); (B "Content-Type", B "text/html")] (B "hi")).
  { eapply wire_reads_b with (a := B "HTTP/1.1 200 OK" ++ CRLF ++ B "Content-Length: 2" ++ CRLF ++
          B "Date: Fri, 01 Jan 2021 00:00:00 GMT" ++ CRLF ++ B "Content-Type: text/html");
      try (vm_compute; reflexivity); try not_in.
    repeat constructor; not_in. }
  assert (Nh : forall q h, ~ In (RRoute VHead q h) (flatten page_app)).
  { intros q h I. cbn in I. destruct I as [I|[]]. discriminate. }
  assert (An : announced [HOST] = N.of_nat (length (@nil byte))) by (vm_compute; reflexivity).
  assert (Ai : (announced [HOST] <= ISIZE_MAX)%N) by (vm_compute; discriminate).
  assert (Es1 : snd (serve default_features demo_lib ex_handle ex_world insertion_order [] page_router 7 t) =
               IoDone (answer_head (B "200 OK") (B "2") ++ B "hi")) by (rewrite Es; reflexivity).
  destruct (X default_features demo_lib nat nat ex_handle insertion_order page_app page_router ex_world insertion_order [] 7 t t' a a' []
    [B "hi"] Http11 [HOST] [] _ _ _ _ _ page_fits page_built ltac:(discriminate) R R' Ha Ha' Hm Hm' An Ai ex_ignores Nh Es1 W0)
    as (out' & hs2 & b2 & Eo & W). clear X Nh.
  { eassert (E : read_of t' = Some _) by (vm_compute; reflexivity).
    destruct (read_carried t' _ R' E) as (hs & cs & body & Ca & Nh).
    destruct (nothing_applies default_features demo_lib ex_handle insertion_order page_app page_router ex_world insertion_order [] 7 t'
                _ hs cs body page_fits page_built ltac:(discriminate) R' Ca ltac:(apply Nh; vm_compute; reflexivity)
                ltac:(discriminate) ltac:(apply page_nothing; discriminate)) as (out2 & Eo2 & (hs3 & b3 & len & W3 & _)).
    rewrite Eo2 in Eo. cbn [snd] in Eo. injection Eo as ->.
    pose proof (wire_reads_fun _ _ _ _ _ _ _ _ _ _ _ W W3) as (_ & Q & _). discriminate Q. }
Qed.
(** The page for both methods. *)
Definition both_app : list (oreg nat) := [OAdd 0; ORoute VAll (B "/hi") 1; ORoute VPost (B "/:x") 2].
Definition both_router := match build insertion_order both_app with Done r => r | Panic => router_new end.
Lemma example_135 : exists a a',
  fits both_app /\ build insertion_order both_app = Done both_router /\ real_segments t_hi /\ real_segments t_head_hi /\
  head_at (stream_of t_hi) a [] /\ head_at (stream_of t_head_hi) a' [] /\
  head_means default_features demo_lib a (RequestLine MGet [B "hi"] Http11) [HOST] [] /\
  head_means default_features demo_lib a' (RequestLine MHead [B "hi"] Http11) [HOST] [] /\
  announced [HOST] = 0%N /\ ignores_method ex_handle /\ alike_for true MGet MHead [B "hi"] both_app /\
  serve default_features demo_lib ex_handle ex_world insertion_order [] both_router 7 t_head_hi =
    (8, IoDone (answer_head (B "200 OK") (B "2") ++ B "hi")).
Proof.
  destruct (text_head default_features demo_lib (B "GET") (B "/hi") (B "1.1") [HOST] [] MGet Http11 [B "hi"] []) as (a & Ha & Hm).
  1: constructor. 1: constructor. 1: target_lit. 1: apply path_means_parse; reflexivity. 1: discriminate. 1: good_hds. 1: reflexivity.
  destruct (text_head default_features demo_lib (B "HEAD") (B "/hi") (B "1.1") [HOST] [] MHead Http11 [B "hi"] []) as (a' & Ha' & Hm').
  1: constructor. 1: constructor. 1: target_lit. 1: apply path_means_parse; reflexivity. 1: discriminate. 1: good_hds. 1: reflexivity.
  assert (S' : stream_of t_hi = request_text (B "GET") (B "/hi") (B "1.1") [HOST] []) by (vm_compute; reflexivity).
  assert (S'' : stream_of t_head_hi = request_text (B "HEAD") (B "/hi") (B "1.1") [HOST] []) by (vm_compute; reflexivity).
  rewrite <- S' in Ha. rewrite <- S'' in Ha'. exists a, a'.
  split; [vm_compute; discriminate|]. split; [vm_compute; reflexivity|].
  split; [repeat constructor; discriminate|]. split; [repeat constructor; discriminate|].
  split; [exact Ha|]. split; [exact Ha'|]. split; [exact Hm|]. split; [exact Hm'|]. split; [reflexivity|]. split; [exact ex_ignores|].
  split; [|vm_compute; reflexivity].
  unfold alike_for. cbn [both_app flatten flat_map flatten1 app].
  repeat (apply Forall_cons; [cbn [applies serves]; split; intros A; try exact A; destruct A as (A & _); discriminate A|]).
  apply Forall_nil.
Qed.

(** A router for /vault with its own guard. *)
Definition vault_sub : list (rreg nat) := [RAdd 0; RRoute VGet (B "/vault") 1].
Definition site_app : list (oreg nat) := [OMount vault_sub; ORoute VGet (B "/hi") 1].
Definition site_router := match build insertion_order site_app with Done r => r | Panic => router_new end.
Lemma vault_below : routes_below true [B "vault"] vault_sub.
Proof.
  intros v p h pat path I Pm Rm. cbn in I. destruct I as [I|[I|[]]]; [discriminate|]. injection I as <- <- <-.
  apply path_means_parse in Pm. vm_compute in Pm. injection Pm as <-. cbn [route_matches] in Rm.
  inversion Rm as [|x y l l' S F]; subst. inversion F; subst. exists []. destruct S as [S|S].
  - exfalso. destruct S as (n & S). discriminate S.
  - cbn. subst. reflexivity.
Qed.
Lemma hi_not_below rl hs cs body : carries default_features demo_lib (stream_of t_hi) rl hs cs body -> ~ below [B "vault"] (rl_path rl).
Proof. intros C (rest & E). rewrite (hi_line _ _ _ _ C) in E. discriminate E. Qed.
Lemma not_scoped :
  ~ (forall ft cl (H ST : Type) (handle : H -> matched_request cl -> ST * response cl -> (ST * response cl) * outcome flow)
       o o' l1 sub l2 prefix (rt rt' : router H) w ho pos s t,
     fits (l1 ++ OMount sub :: l2) -> build o (l1 ++ OMount sub :: l2) = Done rt -> build o' (l1 ++ l2) = Done rt' ->
     real_segments t -> routes_below (url_variables ft) prefix sub ->
     (forall rl hs cs body, carries ft cl (stream_of t) rl hs cs body -> ~ below prefix (rl_path rl)) ->
     serve ft cl handle w ho pos rt s t = serve ft cl handle w ho pos rt' s t).
Proof.
  intro X. specialize (X default_features demo_lib nat nat vault_handle insertion_order insertion_order [] vault_sub page_app [B "vault"]
    site_router page_router ex_world insertion_order [] 0 t_hi ltac:(vm_compute; discriminate) ltac:(vm_compute; reflexivity)
    page_built ltac:(repeat constructor; discriminate) vault_below hi_not_below).
  vm_compute in X. discriminate X.
Qed.
Lemma example_136 :
  build insertion_order site_app = Done site_router /\ routes_below true [B "vault"] vault_sub /\
  serve default_features demo_lib vault_handle ex_world insertion_order [] site_router 0 t_hi =
    (0, IoDone (answer_head (B "200 OK") (B "2") ++ B "no")) /\
  serve default_features demo_lib vault_handle ex_world insertion_order [] page_router 0 t_hi =
    (1, IoDone (answer_head (B "200 OK") (B "4") ++ B "gold")).
Proof. split; [vm_compute; reflexivity|]. split; [exact vault_below|]. split; vm_compute; reflexivity. Qed.
(** The same router with the guard registered for its routes. *)
Definition scoped_sub : list (rreg nat) := [RRoute VAll (B "/vault") 0; RRoute VGet (B "/vault") 1].
Definition scoped_app : list (oreg nat) := [OMount scoped_sub; ORoute VGet (B "/hi") 1].
Definition scoped_router := match build insertion_order scoped_app with Done r => r | Panic => router_new end.
Lemma scoped_below : routes_below true [B "vault"] scoped_sub.
Proof.
  intros v p h pat path I Pm Rm. cbn in I.
  assert (p = B "/vault") as -> by (destruct I as [I|[I|[]]]; injection I as <- <- <-; reflexivity).
  apply (vault_below VGet (B "/vault") 1 pat path); auto. right. now left.
Qed.
Lemma example_136_scoped :
  fits scoped_app /\ build insertion_order scoped_app = Done scoped_router /\ (forall h, ~ In (RAdd h) scoped_sub) /\
  routes_below true [B "vault"] scoped_sub /\
  (forall rl hs cs body, carries default_features demo_lib (stream_of t_hi) rl hs cs body -> ~ below [B "vault"] (rl_path rl)) /\
  serve default_features demo_lib vault_handle ex_world insertion_order [] scoped_router 0 t_hi =
    (1, IoDone (answer_head (B "200 OK") (B "4") ++ B "gold")) /\
  serve default_features demo_lib vault_handle ex_world insertion_order [] scoped_router 0 t_vault =
    (0, IoDone (answer_head (B "200 OK") (B "2") ++ B "no")).
Proof.
  split; [vm_compute; discriminate|]. split; [vm_compute; reflexivity|].
  split; [intros h I; cbn in I; destruct I as [I|[I|[]]]; discriminate I|]. split; [exact scoped_below|]. split; [exact hi_not_below|].
  split; vm_compute; reflexivity.
Qed.
