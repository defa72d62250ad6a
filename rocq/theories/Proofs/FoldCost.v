(** Lemmas behind C121: the copying done for repeated headers. *)
From Verif.Model Require Import RustStd Request Cost.
From Verif.Spec Require Import Common TextSpec RequestSpec WorkSpec.
From Verif.Proofs Require Import Basics TextProofs RequestProofs.

Lemma add_counted_fst m p : fst (add_header_counted m p) = add_header m p.
Proof. unfold add_header_counted, add_header. destruct (mget seqb _ m); reflexivity. Qed.
Lemma loop_counted_fst ft toks : forall acc, fst (headers_loop_counted ft acc toks) = headers_loop ft acc toks.
Proof.
  induction toks as [|t toks IH]; intro acc; auto. cbn [headers_loop_counted headers_loop].
  destruct (utf8_valid t); auto. destruct (header_parse ft t) as [p|]; auto.
  rewrite <- add_counted_fst. destruct (add_header_counted (parsed acc) p) as [m c]. cbn [fst]. rewrite <- IH.
  destruct (headers_loop_counted ft _ toks). reflexivity.
Qed.
Theorem parse_counted_fst ft s : fst (headers_parse_counted ft s) = headers_parse ft s.
Proof. unfold headers_parse_counted, headers_parse. destruct (spliterator_collect _ _); auto. apply loop_counted_fst. Qed.

(** ** Upper bound *)
Lemma parse_len ft l p : utf8_valid l = true -> header_parse ft l = Some p -> length (h_value p) + 2 <= length l.
Proof.
  intros V E. destruct p as [n v]. apply header_parse_spec in E; auto. destruct E as ((N & _) & _ & ws & _ & ->).
  rewrite !app_length. cbn [h_value length]. destruct n; [congruence|]. cbn [length]. lia.
Qed.
Definition small (d : nat) (m : list (str * str)) : Prop := forall k v, mget seqb k m = Some v -> length v <= d.
Lemma loop_bound ft toks : forall acc d, small d (parsed acc) ->
  exists n, snd (headers_loop_counted ft acc toks) <= n * (d + total_len toks) /\ 2 * n <= total_len toks.
Proof.
  induction toks as [|t toks IH]; intros acc d Sm; [exists 0; cbn; lia|]. cbn [headers_loop_counted].
  destruct (utf8_valid t) eqn:V; [|exists 0; cbn; lia]. destruct (header_parse ft t) as [p|] eqn:E; [|exists 0; cbn; lia].
  pose proof (parse_len ft t p V E) as L.
  assert (G : small (d + length t) (fst (add_header_counted (parsed acc) p)) /\ snd (add_header_counted (parsed acc) p) <= d + length t).
  { unfold add_header_counted. destruct (mget seqb (to_ascii_lowercase (h_name p)) (parsed acc)) as [v|] eqn:Ev; cbn [fst snd].
    - apply Sm in Ev. split; [|lia]. intros k x Hx. rewrite (mget_mset seqb seqb_eq) in Hx.
      destruct (seqb k _); [injection Hx as <-|apply Sm in Hx; lia]. rewrite app_length. cbn [length app]. lia.
    - split; [|lia]. intros k x Hx. rewrite (mget_mset seqb seqb_eq) in Hx.
      destruct (seqb k _); [injection Hx as <-; lia|apply Sm in Hx; lia]. }
  destruct (add_header_counted (parsed acc) p) as [m c]. cbn [fst snd] in G. destruct G as [G1 G2].
  destruct (IH (Headers m (if raw_headers_on ft then raw acc ++ [p] else raw acc)) (d + length t) G1) as (n & N1 & N2).
  destruct (headers_loop_counted ft _ toks) as [r c']. cbn [snd] in *.
  exists (S n). change (total_len (t :: toks)) with (length t + total_len toks). split; nia.
Qed.
Lemma join_len sep l : total_len l <= length (join sep l).
Proof.
  induction l as [|x [|y l] IH]; [auto|cbn; lia|]. change (join sep (x :: y :: l)) with (x ++ sep ++ join sep (y :: l)).
  change (total_len (x :: y :: l)) with (length x + total_len (y :: l)). rewrite !app_length. lia.
Qed.
Theorem fold_quadratic ft s : 2 * snd (headers_parse_counted ft s) <= length s * length s.
Proof.
  unfold headers_parse_counted. destruct (collect_pieces CRLF s) as (lines & E & _ & _ & J); [discriminate|].
  unfold collect_all in E. rewrite E. destruct (loop_bound ft lines (Headers [] []) 0) as (n & N1 & N2).
  - intros k v X. discriminate.
  - pose proof (join_len CRLF lines) as L. rewrite J in L. nia.
Qed.

(** ** Many empty headers of one name *)
Definition many (n : nat) : str := join CRLF (repeat (B "a:") n).
Lemma many_lines n : n <> 0 -> pieces_of CRLF (many n) (repeat (B "a:") n).
Proof.
  intro N. split; [destruct n; [congruence|discriminate]|]. split; [|reflexivity].
  apply Forall_forall. intros x I. apply repeat_spec in I. subst x.
  intros (i & a & b & E & _). apply (f_equal (@length _)) in E as El. rewrite !app_length in El. cbn in El.
  destruct a as [|p [|q a]]; cbn in E, El; try discriminate; lia.
Qed.
Lemma many_len n : length (many n) <= 4 * n.
Proof.
  unfold many. induction n as [|n IH]; [auto|]. cbn [repeat]. destruct n as [|n]; [cbn; lia|].
  change (join CRLF (B "a:" :: repeat (B "a:") (S n))) with (B "a:" ++ CRLF ++ join CRLF (repeat (B "a:") (S n))).
  rewrite !app_length. change (length (B "a:")) with 2. change (length CRLF) with 2. lia.
Qed.
Lemma many_parse ft : header_parse ft (B "a:") = Some (Header (B "a") []).
Proof. unfold header_parse. destruct (faithful ft); reflexivity. Qed.
Lemma many_loop ft n : forall acc k v, parsed acc = [(B "a", v)] -> length v = k ->
  exists acc', headers_loop_counted ft acc (repeat (B "a:") n) = (Some acc', n * (k + 1) + n * n).
Proof.
  induction n as [|n IH]; intros acc k v P L; [eexists; reflexivity|]. cbn [repeat headers_loop_counted].
  change (utf8_valid (B "a:")) with true. rewrite many_parse. unfold add_header_counted. rewrite P.
  change (mget seqb (to_ascii_lowercase (h_name (Header (B "a") []))) [(B "a", v)]) with (Some v).
  destruct (IH (Headers (mset seqb (to_ascii_lowercase (h_name (Header (B "a") []))) (v ++ B ", " ++ []) [(B "a", v)])
     (if raw_headers_on ft then raw acc ++ [Header (B "a") []] else raw acc)) (k + 2) (v ++ B ", " ++ [])) as (acc' & E).
  - reflexivity.
  - rewrite app_length. cbn. lia.
  - cbn [h_value] in *. rewrite E. exists acc'. f_equal. cbn [length]. nia.
Qed.
Theorem fold_not_linear ft a b : exists s hs, header_block (faithful ft) s hs /\ headers_parse ft s <> None /\
  a * length s + b < snd (headers_parse_counted ft s).
Proof.
  set (n := 4 * a + b + 4). exists (many (S n)), (repeat (Header (B "a") []) (S n)).
  assert (P : pieces_of CRLF (many (S n)) (repeat (B "a:") (S n))) by (apply many_lines; discriminate).
  assert (E : exists acc', headers_parse_counted ft (many (S n)) = (Some acc', n * 1 + n * n)).
  { unfold headers_parse_counted. destruct (collect_pieces CRLF (many (S n))) as (lines & E & Hp); [discriminate|].
    unfold collect_all in E. rewrite E, (pieces_unique _ _ _ Hp P). cbn [repeat headers_loop_counted].
    change (utf8_valid (B "a:")) with true. rewrite many_parse. unfold add_header_counted. cbn [parsed mget].
    match goal with |- context [headers_loop_counted ft ?x _] => destruct (many_loop ft n x 0 [] eq_refl eq_refl) as (acc' & E') end.
    cbn [h_value h_name] in *. rewrite E'. exists acc'. reflexivity. }
  destruct E as (acc' & E). split; [|split].
  - exists (repeat (B "a:") (S n)). split; [exact P|]. clear E acc' P. generalize (S n). intro k.
    induction k as [|k IH]; cbn [repeat]; constructor; auto. split; [reflexivity|].
    apply header_parse_spec; [reflexivity|]. apply many_parse.
  - rewrite <- parse_counted_fst, E. discriminate.
  - rewrite E. cbn [snd]. pose proof (many_len (S n)) as L. unfold n in *. nia.
Qed.

(** ** Exactly *)
Lemma folded_fold seen k : mget seqb k (fold_left add_header seen []) = folded k seen.
Proof. rewrite fold_add. unfold folded. cbn [mget]. destruct (map h_value (filter (named k) seen)); reflexivity. Qed.
Lemma add_counted_snd m p :
  snd (add_header_counted m p) = match mget seqb (to_ascii_lowercase (h_name p)) (add_header m p) with Some v => length v | None => 0 end.
Proof.
  rewrite mget_add, seqb_refl. unfold add_header_counted. destruct (mget seqb _ m); cbn [snd]; [|reflexivity].
  rewrite !app_length. change (length (B ", ")) with 2. lia.
Qed.
Lemma loop_written ft lines hs :
  Forall2 (fun l hd => utf8_valid l = true /\ header_means (faithful ft) l (h_name hd) (h_value hd)) lines hs ->
  forall acc seen, parsed acc = fold_left add_header seen [] -> snd (headers_loop_counted ft acc lines) = written seen hs.
Proof.
  induction 1 as [|l [n v] lines hs [V M] _ IH]; intros acc seen P; [reflexivity|]. cbn [headers_loop_counted written]. rewrite V.
  apply header_parse_spec in M; auto. cbn [h_name h_value] in M. rewrite M.
  assert (A := add_counted_snd (parsed acc) (Header n v)). assert (A' := add_counted_fst (parsed acc) (Header n v)).
  assert (S : add_header (parsed acc) (Header n v) = fold_left add_header (seen ++ [Header n v]) []).
  { rewrite fold_left_app, P. reflexivity. }
  destruct (add_header_counted (parsed acc) (Header n v)) as [m c]. cbn [fst snd] in A, A'. subst m c. rewrite S, folded_fold.
  specialize (IH (Headers (fold_left add_header (seen ++ [Header n v]) []) (if raw_headers_on ft then raw acc ++ [Header n v] else raw acc))
    (seen ++ [Header n v]) eq_refl).
  destruct (headers_loop_counted ft _ lines) as [r c']. cbn [snd] in IH |- *. rewrite IH. reflexivity.
Qed.
Theorem fold_exact ft s hs : header_block (faithful ft) s hs -> snd (headers_parse_counted ft s) = written [] hs.
Proof.
  intros (lines & P & F). unfold headers_parse_counted. destruct (collect_pieces CRLF s) as (lines' & E & Hp); [discriminate|].
  unfold collect_all in E. rewrite E, (pieces_unique _ _ _ Hp P). apply (loop_written ft lines hs F). reflexivity.
Qed.

(** ** Few repetitions *)
Fixpoint total {A} (f : A -> nat) (l : list A) : nat := match l with [] => 0 | x :: l => f x + total f l end.
Lemma total_le {A} (f g : A -> nat) l : (forall x, In x l -> f x <= g x) -> total f l <= total g l.
Proof.
  induction l as [|x l IH]; intro L; [auto|]. cbn [total]. pose proof (L x (or_introl eq_refl)).
  specialize (IH (fun y Y => L y (or_intror Y))). lia.
Qed.
Lemma total_zero {A} (l : list A) : total (fun _ => 0) l = 0.
Proof. induction l; auto. Qed.
Lemma total_plus {A} (f g : A -> nat) l : total (fun x => f x + g x) l = total f l + total g l.
Proof. induction l as [|x l IH]; [auto|]. cbn [total]. lia. Qed.
Lemma total_scale {A} (f : A -> nat) k l : total (fun x => k * f x) l = k * total f l.
Proof. induction l as [|x l IH]; cbn [total]; [lia|]. rewrite IH. lia. Qed.
Lemma total_swap {A C} (f : A -> C -> nat) l m : total (fun x => total (f x) m) l = total (fun y => total (fun x => f x y) l) m.
Proof.
  induction l as [|x l IH]; cbn [total]; [symmetry; apply total_zero|]. rewrite IH, <- total_plus. reflexivity.
Qed.
Lemma total_app {A} (f : A -> nat) l m : total f (l ++ m) = total f l + total f m.
Proof. induction l as [|x l IH]; [auto|]. cbn [app total]. lia. Qed.
Lemma total_filter {A} (f : A -> nat) b l : total f (filter b l) = total (fun x => if b x then f x else 0) l.
Proof. induction l as [|x l IH]; [auto|]. cbn [filter total]. destruct (b x); cbn [total]; lia. Qed.
Lemma total_count {A} (b : A -> bool) c l : total (fun x => if b x then c else 0) l = length (filter b l) * c.
Proof. induction l as [|x l IH]; [auto|]. cbn [filter total]. destruct (b x); cbn [length]; lia. Qed.
Definition copy_cost (hd : header) : nat := length (h_value hd) + 2.
Lemma folded_cost k hs v : folded k hs = Some v -> length v <= total copy_cost (filter (named k) hs).
Proof.
  unfold folded. generalize (filter (named k) hs). clear hs. intros l E.
  assert (X : length (join (B ", ") (map h_value l)) <= total copy_cost l).
  { clear E. induction l as [|x l IH]; [auto|]. destruct l as [|y l]; [cbn; unfold copy_cost; lia|].
    change (join (B ", ") (map h_value (x :: y :: l))) with (h_value x ++ B ", " ++ join (B ", ") (map h_value (y :: l))).
    rewrite !app_length. change (length (B ", ")) with 2. cbn [total] in *. unfold copy_cost at 1. lia. }
  destruct (map h_value l) eqn:M; [discriminate|]. injection E as <-. exact X.
Qed.
Lemma written_total hs : forall seen, written seen hs <=
  total (fun hd => total copy_cost (filter (named (to_ascii_lowercase (h_name hd))) (seen ++ hs))) hs.
Proof.
  induction hs as [|hd hs IH]; intro seen; [auto|]. cbn [written total]. specialize (IH (seen ++ [hd])).
  rewrite <- app_assoc in IH. cbn [app] in IH. apply Nat.add_le_mono; [|exact IH].
  destruct (folded _ (seen ++ [hd])) as [v|] eqn:E; [|lia]. apply folded_cost in E.
  change (seen ++ hd :: hs) with (seen ++ [hd] ++ hs). rewrite app_assoc, filter_app, total_app. lia.
Qed.
Lemma block_cost strict s hs : header_block strict s hs -> total copy_cost hs <= S (length s).
Proof.
  intros (lines & (Ne & _ & <-) & F). revert Ne. induction F as [|ln hd lines hs (_ & Hm) F IH]; [congruence|]. intros _.
  assert (Lc : S (length (h_value hd)) <= length ln).
  { destruct Hm as (_ & _ & ws & _ & ->). rewrite !app_length. cbn [length]. lia. }
  destruct lines as [|ln' lines].
  - inversion F; subst. cbn [total join]. unfold copy_cost. lia.
  - change (join CRLF (ln :: ln' :: lines)) with (ln ++ CRLF ++ join CRLF (ln' :: lines)).
    specialize (IH ltac:(discriminate)). rewrite !app_length. change (length CRLF) with 2. cbn [total]. unfold copy_cost at 1. lia.
Qed.
Theorem fold_few ft s hs k : header_block (faithful ft) s hs -> (forall n, length (filter (named n) hs) <= k) ->
  snd (headers_parse_counted ft s) <= k * S (length s).
Proof.
  intros Hb K. rewrite (fold_exact ft s hs Hb). apply block_cost in Hb.
  eapply Nat.le_trans; [apply written_total|]. cbn [app].
  transitivity (total (fun hd => k * copy_cost hd) hs); [|rewrite total_scale; apply Nat.mul_le_mono_l, Hb].
  erewrite (total_le _ (fun hd => total (fun hd' => if named (to_ascii_lowercase (h_name hd)) hd' then copy_cost hd' else 0) hs));
    [|intros; rewrite total_filter; auto].
  rewrite total_swap. apply total_le. intros hd' _.
  rewrite (total_le _ (fun hd => if named (to_ascii_lowercase (h_name hd')) hd then copy_cost hd' else 0)).
  - rewrite total_count. apply Nat.mul_le_mono_r, K.
  - intros hd _. unfold named. rewrite (seqb_sym (to_ascii_lowercase (h_name hd'))). destruct (seqb _ _); auto.
Qed.
Example few_example :
  let s := join CRLF [B "A: bc"; B "x:"; B "a:d"; B "y: efg"] in
  let hs := [Header (B "A") (B "bc"); Header (B "x") []; Header (B "a") (B "d"); Header (B "y") (B "efg")] in
  header_block (faithful default_features) s hs /\ (forall n, length (filter (named n) hs) <= 2) /\
  snd (headers_parse_counted default_features s) = 10 /\ length s = 22.
Proof.
  cbv zeta. split; [|split; [|split; vm_compute; reflexivity]].
  - exists [B "A: bc"; B "x:"; B "a:d"; B "y: efg"]. split.
    + destruct (collect_pieces CRLF (join CRLF [B "A: bc"; B "x:"; B "a:d"; B "y: efg"])) as (l & E & P); [discriminate|].
      vm_compute in E. injection E as <-. exact P.
    + repeat (constructor; [split; [reflexivity|apply header_parse_spec; reflexivity]|]). constructor.
  - intro n. cbn [filter]. unfold named. cbn [h_name].
    change (to_ascii_lowercase (B "A")) with (B "a"). change (to_ascii_lowercase (B "x")) with (B "x").
    change (to_ascii_lowercase (B "a")) with (B "a"). change (to_ascii_lowercase (B "y")) with (B "y").
    destruct (seqb_spec (B "a") n) as [<-|_]; [cbn; lia|].
    destruct (seqb (B "x") n), (seqb (B "y") n); cbn [length]; lia.
Qed.
