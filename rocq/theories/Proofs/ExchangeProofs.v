(** Whole exchanges: lemmas behind Props/ExchangeProps.v. *)
From Coq Require Import Permutation.
From Verif.Model Require Import RustStd Path Request Time Status Response Router Server Tasks.
From Verif.Spec Require Import Common PathSpec RoutingSpec TextSpec RequestSpec ResponseSpec ServerSpec TaskSpec AppSpec ExchangeSpec.
From Verif.Proofs Require Import Basics TextProofs TransportProofs RequestProofs ResponseProofs ResponseExtra RouterProofs ServerProofs ConnProofs TaskProofs ApiProofs.

Section Exchange.
Context (ft : features) (cl : cookie_lib) {H ST : Type}
  (handle : H -> matched_request cl -> ST * response cl -> (ST * response cl) * outcome flow) (ws : world -> Prop).

Lemma blank_presentable : presentable ft ws (@blank_response cl).
Proof.
  split; [|split; [|split; [right; reflexivity|exists []; reflexivity]]].
  - intros w _. split; [|split].
    + constructor.
    + split; intro X; vm_compute in X; intuition discriminate.
    + split; intro X; vm_compute in X; intuition discriminate.
  - intro X; vm_compute in X; intuition discriminate.
Qed.
Lemma calls_presentable rq calls r log left r' : calls_made cl handle rq calls r log left r' ->
  (forall h vars s r, In (h, vars) calls -> presentable ft ws r -> presentable ft ws (snd (fst (handle h (MatchedRequest rq vars) (s, r))))) ->
  presentable ft ws r -> presentable ft ws r'.
Proof.
  induction 1 as [|h vars rest r s s1 r1 log left r' E M IH|h vars rest r s s1 r1 E]; intros Hk P; auto.
  - apply IH; [intros h' v' s' r0 I; apply Hk; now right|].
    pose proof (Hk h vars s r (or_introl eq_refl) P) as K. rewrite E in K. exact K.
  - pose proof (Hk h vars s r (or_introl eq_refl) P) as K. rewrite E in K. exact K.
Qed.
Lemma presentable_reads w ho pos (r : response cl) : ws w -> presentable ft ws r -> reads_response ws (octane_send (get_data ft w ho pos r)) r.
Proof.
  intros Ww (Wr & Sp & Ck & b & G). destruct (Wr w Ww) as (Ho & Cv & Cr).
  destruct (round_trip ft w ho pos r b Ck Ho G Cv Sp Cr) as (fields & Pf & Rd).
  exists w, fields, b. auto.
Qed.

Lemma text_carried m p ver hs body meth v path cs :
  method_named m meth -> version_named ver v -> target_ok p -> path_means p path ->
  hs <> [] -> Forall (fun hd => good_header (faithful ft) hd /\ clean (header_text hd)) hs ->
  cookies_mean cl (cookies_on ft) hs cs ->
  announced hs = N.of_nat (length body) -> (announced hs <= ISIZE_MAX)%N ->
  carries ft cl (request_text m p ver hs body) (RequestLine meth path v) hs cs body.
Proof.
  intros Hm Hv Ht Hp Hn Hg Hc An Ai. destruct (text_head ft cl m p ver hs body meth v path cs Hm Hv Ht Hp Hn Hg Hc) as (a & Ha & Hh).
  exists a, body. split; auto. split; auto. split; [lia|]. split; auto. left. symmetry. apply firstn_all2. lia.
Qed.
Lemma carries_body stream rl hs cs body body' : carries ft cl stream rl hs cs body -> carries ft cl stream rl hs cs body' ->
  (exists a, head_at stream a body) -> announced hs = N.of_nat (length body) -> body' = body.
Proof.
  intros _ (a' & b' & Ha' & _ & _ & _ & Bc) (a & Ha) An.
  destruct (head_at_fun _ _ _ _ _ Ha Ha') as [<- <-]. destruct Bc as [->|(_ & k & Hk' & ->)]; apply firstn_all2; lia.
Qed.

Theorem exchange_log o app rt s0 evs1 evs2 evs3 i log m p ver hs body meth v path cs :
  (N.of_nat (length (flatten app)) <= USIZE_MAX)%N -> build o app = Done rt ->
  method_named m meth -> version_named ver v -> target_ok p -> path_means p path ->
  hs <> [] -> Forall (fun hd => good_header (faithful ft) hd /\ clean (header_text hd)) hs ->
  cookies_mean cl (cookies_on ft) hs cs -> ~ lacks_host (RequestLine meth path v) hs ->
  announced hs = N.of_nat (length body) -> (announced hs <= ISIZE_MAX)%N ->
  (forall rq, request_is ft rq (RequestLine meth path v) hs cs body -> well_behaved ft cl handle ws app rq) ->
  let evs := evs1 ++ evs2 ++ evs3 in
  real_inputs evs -> Forall (fun ev => ws (fst (snd ev)) /\ clock (fst (snd ev)) <> None) evs -> writes_succeed i evs ->
  stream_of (input_of (inputs i evs1)) = request_text m p ver hs body -> stream_of (input_of (inputs i evs)) = request_text m p ver hs body ->
  length (flatten app) < runs_of i evs2 ->
  let final := tasks_run ft cl handle rt (TasksState s0 []) evs in
  told ft cl handle app i evs log (task_get cl i (tasks final)) ->
  exists rq calls res out, request_is ft rq (RequestLine meth path v) hs cs body /\ chosen ft cl app rq calls /\
    calls_made cl handle rq calls blank_response log [] res /\
    reads_answer ws out res /\
    (task_get cl i (tasks final) = TClosed out \/
     room_of i evs3 < length out /\ exists sent rest, sent ++ rest = out /\ task_get cl i (tasks final) = TSending sent rest).
Proof.
  intros HB Eb Hm Hv Ht Hp Hn Hg Hc NH An Ai Wb evs R Cw Ws S1 S Lt final K.
  assert (Ca : carries ft cl (request_text m p ver hs body) (RequestLine meth path v) hs cs body) by (apply text_carried; auto).
  assert (Cl : Forall (fun ev : nat * task_event * (world * order) => clock (fst (snd ev)) <> None) evs).
  { eapply Forall_impl; [|exact Cw]. intros ev X. apply X. }
  assert (Nw : ~ stream_waits ft (stream_of (input_of (inputs i evs1))) (fin (input_of (inputs i evs1)))).
  { rewrite S1. intro X. eapply waits_not_carried; eauto. }
  destruct (answered_log ft cl handle o app rt s0 evs1 evs2 evs3 i log HB Eb R Cl Ws Nw Lt K) as (ph & St & M).
  fold evs in St, M. fold final in M. rewrite S in St.
  assert (Same : forall rq, admitted ft cl (request_text m p ver hs body) rq -> request_is ft rq (RequestLine meth path v) hs cs body).
  { intros rq (rl' & hs' & cs' & body' & Ca' & _ & _ & Ri).
    destruct (carries_fun _ _ _ _ _ _ _ _ _ _ _ Ca Ca') as (<- & <- & <-).
    assert (body' = body) as ->; auto. eapply carries_body; [exact Ca|exact Ca'| |exact An].
    destruct (text_head ft cl m p ver hs body meth v path cs Hm Hv Ht Hp Hn Hg Hc) as (a & Ha & _). eauto. }
  pose proof (no_crash ft cl handle o app rt s0 evs i (RequestLine meth path v) hs cs body HB Eb R Cl) as Nc. rewrite S in Nc. fold final in Nc.
  specialize (Nc (fun rq calls h vars x Ad Ch I => match x with (s, r) => proj1 (Wb rq (Same rq Ad) calls h vars s r Ch I) end) Ca).
  assert (A : exists out, ph = Answering out /\
    (task_get cl i (tasks final) = TClosed out \/
     room_of i evs3 < length out /\ exists sent rest, sent ++ rest = out /\ task_get cl i (tasks final) = TSending sent rest)).
  { destruct (task_get cl i (tasks final)) as [rec|j|sent rest|sent|] eqn:E; try contradiction.
    - destruct M as (-> & X). exists (sent ++ rest). split; auto. right. split; auto. exists sent, rest. auto.
    - exists sent. auto. }
  destruct A as (out & -> & A).
  inversion St as [| | | |num reason out' Rf Ea| | |rq calls log' res out' Ad Ch Cm Bn Ea|rq calls log' res w ho Ad Ch Cm Bn Sn]; subst.
  - exfalso. inversion Rf as [X|rl' hs' cs' body' Ca' X|rl' hs' cs' body' Ca' X Y]; subst.
    + eapply bad_not_carried; eauto.
    + destruct (carries_fun _ _ _ _ _ _ _ _ _ _ _ Ca Ca') as (<- & <- & _). contradiction.
    + destruct (carries_fun _ _ _ _ _ _ _ _ _ _ _ Ca Ca') as (<- & _). cbn in Y. destruct Hm; discriminate.
  - exists rq, calls, res, out. split; [apply Same; auto|]. split; auto. split; auto. split; auto.
    split; [congruence|auto].
  - eexists rq, calls, res, _. split; [apply Same; auto|]. split; [exact Ch|]. split; [exact Cm|]. split; [|exact A].
    split; [|congruence]. intros _. apply presentable_reads.
    + rewrite Forall_forall in Cw. exact (proj1 (Cw _ Sn)).
    + eapply calls_presentable; [exact Cm| |exact blank_presentable]. intros h vars s r I. apply (Wb rq (Same rq Ad) calls h vars s r Ch I).
Qed.
Lemma history_told o app rt s0 evs :
  (N.of_nat (length (flatten app)) <= USIZE_MAX)%N -> build o app = Done rt ->
  real_inputs evs -> Forall (fun ev => ws (fst (snd ev)) /\ clock (fst (snd ev)) <> None) evs ->
  let final := tasks_run ft cl handle rt (TasksState s0 []) evs in
  exists L, linked s0 L (tshared final) /\ forall j, told ft cl handle app j evs (calls_on j L) (task_get cl j (tasks final)).
Proof.
  intros HB Eb R Cw. apply tasks_told with (o := o); auto. eapply Forall_impl; [|exact Cw]. intros ev X. apply X.
Qed.
Theorem exchange o app rt s0 evs1 evs2 evs3 i m p ver hs body meth v path cs :
  (N.of_nat (length (flatten app)) <= USIZE_MAX)%N -> build o app = Done rt ->
  method_named m meth -> version_named ver v -> target_ok p -> path_means p path ->
  hs <> [] -> Forall (fun hd => good_header (faithful ft) hd /\ clean (header_text hd)) hs ->
  cookies_mean cl (cookies_on ft) hs cs -> ~ lacks_host (RequestLine meth path v) hs ->
  announced hs = N.of_nat (length body) -> (announced hs <= ISIZE_MAX)%N ->
  (forall rq, request_is ft rq (RequestLine meth path v) hs cs body -> well_behaved ft cl handle ws app rq) ->
  let evs := evs1 ++ evs2 ++ evs3 in
  real_inputs evs -> Forall (fun ev => ws (fst (snd ev)) /\ clock (fst (snd ev)) <> None) evs -> writes_succeed i evs ->
  stream_of (input_of (inputs i evs1)) = request_text m p ver hs body -> stream_of (input_of (inputs i evs)) = request_text m p ver hs body ->
  length (flatten app) < runs_of i evs2 ->
  let final := tasks_run ft cl handle rt (TasksState s0 []) evs in
  exists L rq calls res out, linked s0 L (tshared final) /\
    request_is ft rq (RequestLine meth path v) hs cs body /\ chosen ft cl app rq calls /\
    calls_made cl handle rq calls blank_response (calls_on i L) [] res /\
    reads_answer ws out res /\
    (task_get cl i (tasks final) = TClosed out \/
     room_of i evs3 < length out /\ exists sent rest, sent ++ rest = out /\ task_get cl i (tasks final) = TSending sent rest).
Proof.
  intros HB Eb Hm Hv Ht Hp Hn Hg Hc NH An Ai Wb evs R Cw Ws S1 S Lt final.
  destruct (history_told o app rt s0 evs HB Eb R Cw) as (L & Lk & Ka).
  destruct (exchange_log o app rt s0 evs1 evs2 evs3 i (calls_on i L) m p ver hs body meth v path cs HB Eb Hm Hv Ht Hp Hn Hg Hc NH An Ai Wb R Cw Ws S1 S Lt (Ka i)) as (rq & calls & res & out & X).
  exists L, rq, calls, res, out. auto.
Qed.

(** All exchanges, in one history *)
Theorem exchanges o app rt s0 evs :
  (N.of_nat (length (flatten app)) <= USIZE_MAX)%N -> build o app = Done rt ->
  real_inputs evs -> Forall (fun ev => ws (fst (snd ev)) /\ clock (fst (snd ev)) <> None) evs ->
  let final := tasks_run ft cl handle rt (TasksState s0 []) evs in
  exists L, linked s0 L (tshared final) /\
  forall evs1 evs2 evs3 i m p ver hs body meth v path cs,
  method_named m meth -> version_named ver v -> target_ok p -> path_means p path ->
  hs <> [] -> Forall (fun hd => good_header (faithful ft) hd /\ clean (header_text hd)) hs ->
  cookies_mean cl (cookies_on ft) hs cs -> ~ lacks_host (RequestLine meth path v) hs ->
  announced hs = N.of_nat (length body) -> (announced hs <= ISIZE_MAX)%N ->
  (forall rq, request_is ft rq (RequestLine meth path v) hs cs body -> well_behaved ft cl handle ws app rq) ->
  evs = evs1 ++ evs2 ++ evs3 -> writes_succeed i evs ->
  stream_of (input_of (inputs i evs1)) = request_text m p ver hs body -> stream_of (input_of (inputs i evs)) = request_text m p ver hs body ->
  length (flatten app) < runs_of i evs2 ->
  exists rq calls res out, request_is ft rq (RequestLine meth path v) hs cs body /\ chosen ft cl app rq calls /\
    calls_made cl handle rq calls blank_response (calls_on i L) [] res /\
    reads_answer ws out res /\
    (task_get cl i (tasks final) = TClosed out \/
     room_of i evs3 < length out /\ exists sent rest, sent ++ rest = out /\ task_get cl i (tasks final) = TSending sent rest).
Proof.
  intros HB Eb R Cw final. destruct (history_told o app rt s0 evs HB Eb R Cw) as (L & Lk & Ka). exists L. split; [exact Lk|].
  intros evs1 evs2 evs3 i m p ver hs body meth v path cs Hm Hv Ht Hp Hn Hg Hc NH An Ai Wb E Ws S1 S Lt. unfold final. clear final Lk. subst evs.
  exact (exchange_log o app rt s0 evs1 evs2 evs3 i (calls_on i L) m p ver hs body meth v path cs HB Eb Hm Hv Ht Hp Hn Hg Hc NH An Ai Wb R Cw Ws S1 S Lt (Ka i)).
Qed.

(** Refused requests *)
Lemma borderline_not_carried stream e rl hs cs body : borderline ft stream e -> ~ carries ft cl stream rl hs cs body.
Proof.
  intros (_ & a & b & rlt & hst & rl' & hs2 & X1 & X2 & X3 & X4 & X5 & X6 & X7) (a' & b' & Ha' & (V' & rlt' & hst' & Hp' & L' & Hb' & Hc) & An & _).
  destruct (head_at_fun _ _ _ _ _ X1 Ha') as [<- <-]. destruct (head_parts_fun _ _ _ _ _ X3 Hp') as [<- <-].
  rewrite (header_block_fun _ _ _ _ X5 Hb') in *. lia.
Qed.
Lemma borderline_not_bad stream e : borderline ft stream e -> ~ stream_bad stream e.
Proof.
  intros (-> & a & b & rlt & hst & rl' & hs2 & X1 & X2 & [Hp X3] & _) [(N & E)|(a' & b' & Ha' & Bd)]; [discriminate|].
  destruct (head_at_fun _ _ _ _ _ X1 Ha') as [<- <-]. destruct Bd as [Bd|Bd]; [congruence|].
  apply Bd. subst a. exists (length rlt), rlt, hst. auto.
Qed.
Lemma refused_not_admitted stream e num reason rq : refused ft cl stream e num reason -> ~ admitted ft cl stream rq.
Proof.
  intros Rf (rl & hs & cs & body & Ca & NH & NM & _). inversion Rf as [X|rl' hs' cs' body' Ca' X|rl' hs' cs' body' Ca' X Y]; subst.
  - eapply bad_not_carried; eauto.
  - destruct (carries_fun _ _ _ _ _ _ _ _ _ _ _ Ca Ca') as (<- & <- & _). contradiction.
  - destruct (carries_fun _ _ _ _ _ _ _ _ _ _ _ Ca Ca') as (<- & _). contradiction.
Qed.
Lemma refused_fun stream e num reason num' reason' : refused ft cl stream e num reason -> refused ft cl stream e num' reason' ->
  num = num' /\ reason = reason'.
Proof.
  intros Rf Rf'. inversion Rf as [X|rl hs cs body Ca X|rl hs cs body Ca X Y]; inversion Rf' as [X'|rl' hs' cs' body' Ca' X'|rl' hs' cs' body' Ca' X' Y']; subst; auto; exfalso.
  - eapply bad_not_carried; eauto.
  - destruct (carries_fun _ _ _ _ _ _ _ _ _ _ _ Ca Ca') as (<- & <- & _). contradiction.
  - eapply bad_not_carried; eauto.
  - destruct (carries_fun _ _ _ _ _ _ _ _ _ _ _ Ca Ca') as (<- & <- & _). contradiction.
Qed.
Theorem refused_exchange o app rt s0 evs1 evs2 evs3 i num reason :
  (N.of_nat (length (flatten app)) <= USIZE_MAX)%N -> build o app = Done rt ->
  let evs := evs1 ++ evs2 ++ evs3 in
  real_inputs evs -> Forall (fun ev => clock (fst (snd ev)) <> None) evs -> writes_succeed i evs ->
  ~ stream_waits ft (stream_of (input_of (inputs i evs1))) (fin (input_of (inputs i evs1))) ->
  refused ft cl (stream_of (input_of (inputs i evs))) (fin (input_of (inputs i evs))) num reason ->
  length (flatten app) < runs_of i evs2 ->
  let final := tasks_run ft cl handle rt (TasksState s0 []) evs in
  exists L out, linked s0 L (tshared final) /\ calls_on i L = [] /\ error_answer num reason out /\
    (task_get cl i (tasks final) = TClosed out \/
     room_of i evs3 < length out /\ exists sent rest, sent ++ rest = out /\ task_get cl i (tasks final) = TSending sent rest).
Proof.
  intros HB Eb evs R Cl Ws Nw Rf Lt final.
  destruct (tasks_told ft cl handle o app rt HB Eb s0 evs R Cl) as (L & Lk & Ka).
  destruct (answered_log ft cl handle o app rt s0 evs1 evs2 evs3 i (calls_on i L) HB Eb R Cl Ws Nw Lt (Ka i)) as (ph & St & M).
  fold evs in St, M. fold final in M, Lk. exists L.
  assert (NA : forall rq, ~ admitted ft cl (stream_of (input_of (inputs i evs))) rq) by (intro rq; eapply refused_not_admitted; eauto).
  assert (Nd : ph <> Dead).
  { intros ->. inversion St as [|X|X| | | |rq calls log h vars left' res s s1 res1 Ad| |]; subst; [| |eapply NA; eauto].
    - inversion Rf as [Y|rl' hs' cs' body' Ca' Y|rl' hs' cs' body' Ca' Y Z]; subst;
        [eapply borderline_not_bad; eauto|eapply borderline_not_carried; eauto|eapply borderline_not_carried; eauto].
    - inversion Rf as [Y|rl' hs' cs' body' Ca' Y|rl' hs' cs' body' Ca' Y Z]; subst;
        [eapply bad_not_kills; eauto|eapply kills_not_carried; eauto|eapply kills_not_carried; eauto]. }
  assert (A : exists out, ph = Answering out /\
    (task_get cl i (tasks final) = TClosed out \/
     room_of i evs3 < length out /\ exists sent rest, sent ++ rest = out /\ task_get cl i (tasks final) = TSending sent rest)).
  { destruct (task_get cl i (tasks final)) as [rec|j|sent rest|sent|] eqn:E; try contradiction.
    - destruct M as (-> & X). exists (sent ++ rest). split; auto. right. split; auto. exists sent, rest. auto.
    - exists sent. auto. }
  destruct A as (out & -> & A). exists out. split; auto.
  inversion St as [| | | |num' reason' out' Rf' Ea| | |rq calls log' res out' Ad|rq calls log' res w ho Ad]; subst; try (exfalso; eapply NA; eauto; fail).
  destruct (refused_fun _ _ _ _ _ _ Rf Rf') as [<- <-]. auto.
Qed.

(** Handlers that leave the shared state alone. *)
Section ReadOnly.
Context (Ro : read_only handle).
Lemma calls_fixed rq calls r log left r' : calls_made cl handle rq calls r log left r' -> Forall (fun x => fst x = snd x) log.
Proof.
  induction 1 as [|h vars rest r s s1 r1 log left r' E M IH|h vars rest r s s1 r1 E]; constructor; auto.
  - pose proof (Ro h (MatchedRequest rq vars) s r) as K. rewrite E in K. symmetry. exact K.
  - pose proof (Ro h (MatchedRequest rq vars) s r) as K. rewrite E in K. symmetry. exact K.
Qed.
Lemma story_fixed seen pos app stream e log p : story ft cl handle seen pos app stream e log p -> Forall (fun x => fst x = snd x) log.
Proof.
  intros [| | | | |rq calls log' left res A C M|rq calls log' h vars left res s s1 res1 A C M E|rq calls log' res out A C M _ _|rq calls log' res w ho A C M _ _]; auto;
    try (eapply calls_fixed; exact M).
  apply Forall_app. split; [eapply calls_fixed; exact M|]. constructor; auto.
  pose proof (Ro h (MatchedRequest rq vars) s res) as K. rewrite E in K. symmetry. exact K.
Qed.
Lemma told_fixed app j evs log t : told ft cl handle app j evs log t -> Forall (fun x => fst x = snd x) log.
Proof.
  unfold told. destruct t; intro T; [destruct T as (_ & T)| | |destruct T as (rest & T & _)|]; eapply story_fixed; exact T.
Qed.
Lemma linked_fixed (L : history (ST := ST)) : forall s s', linked s L s' -> (forall j, Forall (fun x => fst x = snd x) (calls_on j L)) ->
  s' = s /\ Forall (fun x => snd x = (s, s)) L.
Proof.
  induction L as [|[j [a b]] L IH]; intros s s' Lk Fx; cbn [linked] in Lk; [auto|]. destruct Lk as (-> & Lk).
  assert (b = s) as ->.
  { pose proof (Fx j) as K. unfold calls_on in K. cbn [filter fst] in K. rewrite Nat.eqb_refl in K. inversion K. symmetry. assumption. }
  destruct (IH s s' Lk) as (-> & A).
  - intro k. specialize (Fx k). unfold calls_on in *. cbn [filter fst] in Fx. destruct (Nat.eqb j k); [inversion Fx; assumption|exact Fx].
  - split; auto.
Qed.
Lemma calls_chain rq s calls r log r' : calls_made cl handle rq calls r log [] r' -> Forall (fun x => x = (s, s)) log ->
  run_chain (fun h vars => handle h (MatchedRequest rq vars)) calls (s, r) = ((s, r'), Done tt).
Proof.
  intro M. remember [] as left eqn:El. induction M as [|h vars rest r s2 s1 r1 log left r' E M IH|h vars rest r s2 s1 r1 E]; intro F.
  - subst. reflexivity.
  - inversion F as [|x l Ex Fl]; subst. injection Ex as -> ->. cbn [run_chain]. rewrite E. auto.
  - inversion F as [|x l Ex Fl]; subst. injection Ex as -> ->. cbn [run_chain]. rewrite E. reflexivity.
Qed.
Theorem exchange_stateless o app rt s0 evs1 evs2 evs3 i m p ver hs body meth v path cs :
  (N.of_nat (length (flatten app)) <= USIZE_MAX)%N -> build o app = Done rt ->
  method_named m meth -> version_named ver v -> target_ok p -> path_means p path ->
  hs <> [] -> Forall (fun hd => good_header (faithful ft) hd /\ clean (header_text hd)) hs ->
  cookies_mean cl (cookies_on ft) hs cs -> ~ lacks_host (RequestLine meth path v) hs ->
  announced hs = N.of_nat (length body) -> (announced hs <= ISIZE_MAX)%N ->
  (forall rq, request_is ft rq (RequestLine meth path v) hs cs body -> well_behaved ft cl handle ws app rq) ->
  let evs := evs1 ++ evs2 ++ evs3 in
  real_inputs evs -> Forall (fun ev => ws (fst (snd ev)) /\ clock (fst (snd ev)) <> None) evs -> writes_succeed i evs ->
  stream_of (input_of (inputs i evs1)) = request_text m p ver hs body -> stream_of (input_of (inputs i evs)) = request_text m p ver hs body ->
  length (flatten app) < runs_of i evs2 ->
  let final := tasks_run ft cl handle rt (TasksState s0 []) evs in
  exists rq res out, tshared final = s0 /\ request_is ft rq (RequestLine meth path v) hs cs body /\
    handled ft cl handle app rq s0 ((s0, res), Done tt) /\ reads_answer ws out res /\
    (task_get cl i (tasks final) = TClosed out \/
     room_of i evs3 < length out /\ exists sent rest, sent ++ rest = out /\ task_get cl i (tasks final) = TSending sent rest).
Proof.
  intros HB Eb Hm Hv Ht Hp Hn Hg Hc NH An Ai Wb evs R Cw Ws S1 S Lt final.
  destruct (history_told o app rt s0 evs HB Eb R Cw) as (L & Lk & Ka).
  destruct (exchange_log o app rt s0 evs1 evs2 evs3 i (calls_on i L) m p ver hs body meth v path cs HB Eb Hm Hv Ht Hp Hn Hg Hc NH An Ai Wb R Cw Ws S1 S Lt (Ka i)) as (rq & calls & res & out & Ri & (sel & Se & In) & Cm & Ra & D).
  fold evs final in D.
  destruct (linked_fixed L s0 _ Lk) as (Es & A); [intro j; eapply told_fixed; apply Ka|].
  exists rq, res, out. split; auto. split; auto. split; auto. exists sel, calls. split; auto. split; auto.
  apply calls_chain with (log := calls_on i L); auto.
  unfold calls_on. apply Forall_forall. intros x I. apply in_map_iff in I. destruct I as (y & <- & I). apply filter_In in I.
  rewrite Forall_forall in A. apply A, I.
Qed.
End ReadOnly.
End Exchange.
