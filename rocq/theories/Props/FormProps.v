(** C130: escaped parameters. *)
From Verif.Model Require Import RustStd Path Request Query.
From Verif.Spec Require Import Common TextSpec QuerySpec FormSpec.
From Verif.Proofs Require Import FormProofs.

(** C130.  A list of parameters, each name and value escaped in any way that leaves no '&' and '=' (in names also no
    '['), is read as exactly these parameters: every name has the last value given to it, and there are no
    others.  So no value can add or change another parameter, whatever it contains. *)
Theorem C130_round_trip :
  forall ft ps items, ps <> [] -> Forall2 form_item ps items ->
  exists m, parse_query ft (join [x26] items) = Done m /\ forall k, mget seqb k m = last_opt (values_of k ps).
Proof. exact form_query. Qed.
Print Assumptions C130_round_trip.
Theorem C130_extended :
  forall ft ps items, ps <> [] -> Forall2 form_item ps items ->
  exists m, parse_extended_query ft (join [x26] items) = Done m /\
    forall k, mget seqb k m = match last_opt (values_of k ps) with Some v => Some (QStr v) | None => None end.
Proof. exact form_extended. Qed.
Print Assumptions C130_extended.
(** For a request: [get_query] reads the displayed path, so the first item's name includes the path and the last
    item's value a slash (C35); all parameters between them arrive as they are. *)
Theorem C130_requests :
  forall cl ft (r : request cl) dir p first lst ps items,
  rl_path (rq_line r) = dir ++ [p ++ [x3f] ++ join [x26] (first :: items ++ [lst])] ->
  Forall (fun s => ~ In x26 s) (p :: first :: lst :: dir) -> Forall2 form_item ps items ->
  exists m, get_query ft r = Done m /\ forall k,
    (forall v, ~ assigns (faithful ft) k (path_display dir ++ p ++ [x3f] ++ first) v) -> (forall v, ~ assigns (faithful ft) k (lst ++ [x2f]) v) ->
    mget seqb k m = last_opt (values_of k ps).
Proof. exact form_request. Qed.
Print Assumptions C130_requests.
(** Every list of ASCII names (not empty) and values has such a form: escape every byte. *)
Theorem C130_ascii :
  forall ft ps, ps <> [] ->
  Forall (fun p => fst p <> [] /\ Forall (fun b => (bN b < 0x80)%N) (fst p) /\ Forall (fun b => (bN b < 0x80)%N) (snd p)) ps ->
  exists m m', parse_query ft (join [x26] (map (fun p => pct (fst p) ++ [x3d] ++ pct (snd p)) ps)) = Done m /\
    parse_extended_query ft (join [x26] (map (fun p => pct (fst p) ++ [x3d] ++ pct (snd p)) ps)) = Done m' /\
    forall k, mget seqb k m = last_opt (values_of k ps) /\
      mget seqb k m' = match last_opt (values_of k ps) with Some v => Some (QStr v) | None => None end.
Proof. exact form_ascii. Qed.
Print Assumptions C130_ascii.
Example C130_example :
  path_parse (B "/p?a=1&user=eve%26admin%3D1&c=3") = Some ([] ++ [B "p" ++ [x3f] ++ join [x26] (B "a=1" :: [B "user=eve%26admin%3D1"] ++ [B "c=3"])]) /\
  form_item (B "user", B "eve&admin=1") (B "user=eve%26admin%3D1") /\
  parse_query default_features (B "user=eve%26admin%3D1&a%5B%5D=x&user=bob") = Done [(B "user", B "bob"); (B "a[]", B "x")] /\
  parse_extended_query default_features (B "user=eve%26admin%3D1&a%5B%5D=x") = Done [(B "user", QStr (B "eve&admin=1")); (B "a[]", QStr (B "x"))].
Proof. exact form_example. Qed.
