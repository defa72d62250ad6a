(** Requests whose text is copied into headers. *)
From Verif.Model Require Import RustStd Path Request Query Time Status Response Router Server.
From Verif.Spec Require Import Common PathSpec RoutingSpec TextSpec QuerySpec RequestSpec ResponseSpec ServerSpec AppSpec SwapSpec ReachSpec CopySpec.
From Verif.Proofs Require Import SwapProofs ResponseWitness ServerWitness ApiWitness ConformWitness CopyProofs.

Definition go_target : str := B "/go?a=1&to=" ++ pct (B "/home" ++ CRLF ++ B "Set-Cookie" ++ B ": " ++ B "admin=1") ++ B "&z=1".
Definition lf_target : str := B "/" ++ B "home" ++ [x0a] ++ B "Set-Cookie" ++ B ":" ++ B "admin=1".
Definition get_served (find : matched_request demo_lib -> outcome (option str)) (app : list (oreg unit)) (target : str) : option (io str) :=
  match build insertion_order app with
  | Done rt => Some (snd (serve default_features demo_lib (moves_to ex_world find) ex_world insertion_order [] rt tt (Transport [asks_for target] Stall)))
  | Panic => None
  end.
Definition found_head (location : str) : str :=
  B "HTTP/1.1 302 FOUND" ++ CRLF ++ B "Content-Length: 5" ++ CRLF ++ B "Date: Fri, 01 Jan 2021 00:00:00 GMT" ++ CRLF ++
  B "Content-Type: text/html" ++ CRLF ++ B "Location: " ++ location ++ CRLFCRLF ++ B "moved".
Lemma injected_example :
  (clean (B "/home") /\ clean (B "Set-Cookie") /\ ~ In x3a (B "Set-Cookie") /\ clean (B "admin=1") /\
   Forall (fun b => (bN b < 0x80)%N) (B "/home" ++ B "Set-Cookie" ++ B "admin=1") /\ clock ex_world <> None) /\
  get_served (in_query default_features) [OAdd tt] go_target =
    Some (IoDone (found_head (B "/home" ++ CRLF ++ B "Set-Cookie: admin=1"))) /\
  Forall (fun s => clean s /\ line_text s /\ ~ In x2f s) [B "home"; B "Set-Cookie"; B "admin=1"] /\
  get_served in_variables [ORoute VGet (B "/:to") tt] lf_target =
    Some (IoDone (found_head (B "home" ++ [x0a] ++ B "Set-Cookie:admin=1"))).
Proof.
  assert (Nc : forall s, existsb (beqb x0d) s = false -> ~ occurs [x0d; x0a] s).
  { intros s E (i & a & b & -> & _). rewrite existsb_app in E. cbn in E. rewrite Bool.orb_true_r in E. discriminate. }
  split; [|split; [vm_compute; reflexivity|split; [|vm_compute; reflexivity]]].
  - split; [clean_lit|]. split; [clean_lit|]. split; [intro I; cbn in I; intuition discriminate|]. split; [clean_lit|]. split; [repeat constructor|discriminate].
  - repeat (apply Forall_cons; [split; [clean_lit|]; split; [split; [reflexivity|]; split; [intro I; cbn in I; intuition discriminate|apply Nc; reflexivity]|intro I; cbn in I; intuition discriminate]|]).
    constructor.
Qed.

Definition ab : str := B "a" ++ [x0a] ++ B "b".
Definition copied_calls : list (world * rop demo_lib) :=
  map (fun o => (ex_world, o)) [OpSet (B "X-Echo") (B "you asked for <" ++ ab ++ B ">"); OpRedirect (B "http://" ++ B "x" ++ B "/"); OpSend (B "hi")].
Lemma copied_example :
  exists (rq : request demo_lib) rl hs cs body vars r,
    carries default_features demo_lib (asks_for (B "/" ++ ab)) rl hs cs body /\ request_is default_features rq rl hs cs body /\
    invokes (url_variables default_features) (rl_path rl) (RRoute VGet (B "/:to") tt) (tt, vars) /\
    Forall (fun wo => copies rq vars (snd wo) /\ no_file (fst wo) (snd wo)) copied_calls /\
    apply_ops copied_calls blank_response = Done r /\ clean (reason_phrase ex_world r) /\
    rs_headers r = [(B "X-Echo", B "you asked for <a" ++ [x0a] ++ B "b>"); (B "Location", B "http://x/");
      (B "Content-Length", B "2"); (B "Date", B "Fri, 01 Jan 2021 00:00:00 GMT"); (B "Content-Type", B "text/html")].
Proof.
  eassert (E : read_request default_features demo_lib (Transport [asks_for (B "/" ++ ab)] Stall) = IoDone (RdRequest _)) by (vm_compute; reflexivity).
  match type of E with _ = IoDone (RdRequest ?q) => set (rq := q) in E end.
  destruct (carried_some _ _ _ _ (real_one (asks_for (B "/" ++ ab)) Stall ltac:(discriminate)) E) as (rl & hs & cs & body & C & Q).
  assert (Rl : rl = RequestLine MGet [ab] Http11) by (rewrite <- (proj1 Q); reflexivity).
  assert (Pt : path_means (B "/:to") [B ":to"]) by (apply (one_segment (B ":to")); [repeat split; discriminate|intro I; cbn in I; intuition discriminate]).
  eexists rq, rl, hs, cs, body, [(B "to", ab)], _. split; [|split; [exact Q|]].
  { unfold stream_of in C. cbn [segs concat] in C. rewrite app_nil_r in C. exact C. }
  split; [|split; [|split; [vm_compute; reflexivity|split; [|reflexivity]]]].
  - rewrite Rl. cbn [rl_path invokes fst snd]. split; [reflexivity|]. exists [B ":to"]. split; [exact Pt|].
    intros name val. split.
    + intro G. cbn [mget] in G. destruct (seqb_spec name (B "to")) as [->|]; [|discriminate]. injection G as <-.
      split; [reflexivity|]. exists 0. split; [reflexivity|]. split; [reflexivity|]. intros [|[|j]] L; [lia| |]; discriminate.
    + intros (_ & i & H1 & H2 & _). destruct i as [|[|i]]; [|discriminate|discriminate]. injection H1 as <-. injection H2 as <-. reflexivity.
  - unfold copied_calls. cbn [map]. constructor; [|constructor; [|constructor; [|constructor]]]; (split; [|exact I]).
    + cbn [snd copies]. split; [clean_lit|]. split; [intro J; cbn in J; intuition discriminate|]. right. exists (B "you asked for <"), ab, (B ">").
      split; [reflexivity|]. split; [clean_lit|]. split; [clean_lit|]. apply fr_variable with (name := B "to"). reflexivity.
    + cbn [snd copies]. right. exists (B "http://"), (B "x"), (B "/"). split; [reflexivity|]. split; [clean_lit|]. split; [clean_lit|].
      apply fr_header with (name := B "host"). vm_compute. reflexivity.
    + exact I.
  - rewrite found_phrase by reflexivity. clean_lit.
Qed.
