(** C117, C118, C122: paths of the file system made from paths of requests. *)
From Verif.Model Require Import RustStd Path StdPath.
From Verif.Spec Require Import PathSpec FsSpec WinSpec.
From Verif.Proofs Require Import StdPathProofs WinProofs.

(** C117.  Appended to a directory, both conversions of an accepted path lead below it, to its segments. *)
Theorem C117_below_base :
  forall s p cwd base d', path_parse s = Some p ->
  (located cwd (std_push base (to_std_pathbuf p)) d' <-> exists d, located cwd base d /\ d' = d ++ p) /\
  (located cwd (std_push base (std_from p)) d' <-> exists d, located cwd base d /\ d' = d ++ p).
Proof. exact below_base. Qed.
Print Assumptions C117_below_base.
Example C117_example :
  path_parse (B "/a/../..b/./c//") = Some [B "..b"; B "c"] /\
  std_push (B "../www") (to_std_pathbuf [B "..b"; B "c"]) = B "../www/..b/c/" /\
  std_push (B "/srv/") (std_from [B "..b"; B "c"]) = B "/srv/..b/c" /\
  located [B "home"; B "me"] (B "../www") [B "home"; B "www"] /\
  located [B "home"; B "me"] (B "../www/..b/c/") [B "home"; B "www"; B "..b"; B "c"] /\
  located [B "home"; B "me"] (B "../www/../../../etc") [B "etc"].
Proof.
  split; [reflexivity|]. split; [reflexivity|]. split; [reflexivity|].
  split; [|split]; eexists; (split; [apply PathProofs.segments_of_split|reflexivity]).
Qed.

(** C118 is false: [to_std_pathbuf] finds no file, in no tree; only directories. *)
Theorem C118_to_std_refuted :
  forall s p tree cwd, path_parse s = Some p -> p <> [] -> tree (cwd ++ p) = Some KFile ->
  ~ finds tree cwd (to_std_pathbuf p) KFile /\ finds tree cwd (std_from p) KFile.
Proof. exact file_not_found. Qed.
Print Assumptions C118_to_std_refuted.
Theorem C118_to_std_partial :
  forall s p tree cwd k, path_parse s = Some p -> p <> [] ->
  (finds tree cwd (to_std_pathbuf p) k <-> k = KDir /\ tree (cwd ++ p) = Some KDir).
Proof. exact finds_to_std. Qed.
Print Assumptions C118_to_std_partial.
(** The other conversion finds what is there. *)
Theorem C118_from :
  forall s p tree cwd k, path_parse s = Some p -> p <> [] -> (finds tree cwd (std_from p) k <-> tree (cwd ++ p) = Some k).
Proof. exact finds_from. Qed.
Print Assumptions C118_from.
Example C118_example :
  let tree d := if path_eqb d [B "www"; B "a.txt"] then Some KFile else if path_eqb d [B "www"] then Some KDir else None in
  path_parse (B "/a.txt") = Some [B "a.txt"] /\ tree ([B "www"] ++ [B "a.txt"]) = Some KFile /\
  to_std_pathbuf [B "a.txt"] = B "a.txt/" /\ std_from [B "a.txt"] = B "a.txt".
Proof. vm_compute. repeat split. Qed.

(** C122 is false: on Windows a request can name every place on the machine, whatever directory its path is
    appended to. *)
Theorem C122_below_base_refuted :
  forall m base d target, letter d -> Forall simple_name target ->
  exists s p, path_parse s = Some p /\
    (exists r, win_push base (to_std_pathbuf p) = Some r /\ win_located m r (d, target)) /\
    (exists q r, win_from p = Some q /\ win_push base q = Some r /\ win_located m r (d, target)).
Proof. exact win_anywhere. Qed.
Print Assumptions C122_below_base_refuted.
(** It holds of paths without backslashes and colons, below directories that are not on network shares. *)
Theorem C122_below_base_partial :
  forall s p m base loc, path_parse s = Some p -> Forall (fun c => ~ In x5c c /\ ~ In x3a c) p -> no_share base ->
  win_located m base loc ->
  exists r q r', win_push base (to_std_pathbuf p) = Some r /\ win_located m r (fst loc, snd loc ++ p) /\
    win_from p = Some q /\ win_push base q = Some r' /\ win_located m r' (fst loc, snd loc ++ p).
Proof. exact win_below. Qed.
Print Assumptions C122_below_base_partial.
Example C122_example :
  let m := Machine x43 (fun d => if beqb d x43 then [B "srv"; B "app"] else []) in
  path_parse (B "/a/../css/x.css") = Some [B "css"; B "x.css"] /\
  win_push (B "..\www") (to_std_pathbuf [B "css"; B "x.css"]) = Some (B "..\www\css/x.css/") /\
  win_from [B "css"; B "x.css"] = Some (B "css\x.css") /\
  win_push (B "D:\www\") (B "css\x.css") = Some (B "D:\www\css\x.css") /\
  win_located m (B "..\www") (x43, [B "srv"; B "www"]) /\
  win_located m (B "..\www\css/x.css/") (x43, [B "srv"; B "www"; B "css"; B "x.css"]) /\
  (* two requests that leave the directory *)
  path_parse (B "/D:\secret.txt") = Some [B "D:\secret.txt"] /\
  win_push (B "..\www") (B "D:\secret.txt") = Some (B "D:\secret.txt") /\
  path_parse (B "/..\app\secret.txt") = Some [B "..\app\secret.txt"] /\
  win_push (B "..\www") (B "..\app\secret.txt") = Some (B "..\www\..\app\secret.txt") /\
  win_located m (B "..\www\..\app\secret.txt") (x43, [B "srv"; B "app"; B "secret.txt"]).
Proof.
  repeat split; try reflexivity; apply (located_place _ _ _); reflexivity.
Qed.
