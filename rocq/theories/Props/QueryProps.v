(** C31-C37: percent-decoding and queries. *)
From Verif.Model Require Import RustStd Path Request Query Router.
From Verif.Spec Require Import Common PathSpec TextSpec RoutingSpec RequestSpec QuerySpec.
From Verif.Proofs Require Import Utf8 QueryExtra RequestExtra PathExtra RouterExtra.

(** C31: decoding inverts every escaping, for characters (escaped ones are below 256); the
    property speaks of ASCII strings, where the characters are the bytes. *)
Theorem C31_decode_escaped :
  forall t e, Forall scalar t -> Forall scalar e -> escapes t e ->
  unescape_hex (of_chars e) = Done (of_chars t).
Proof. exact unescape_escaped. Qed.
Print Assumptions C31_decode_escaped.
Theorem C31_no_percent : forall s, utf8_valid s = true -> ~ In x25 s -> unescape_hex s = Done s.
Proof. exact unescape_plain. Qed.
Print Assumptions C31_no_percent.
Theorem C31_lone_percent :
  forall a b d, utf8_valid a = true -> utf8_valid b = true -> ~ In x25 a ->
  ~ two_hex (chars b) -> unescape_hex b = Done d ->
  unescape_hex (a ++ [x25] ++ b) = Done (a ++ [x25] ++ d).
Proof. exact lone_percent_bytes. Qed.
Print Assumptions C31_lone_percent.
(** The complete meaning of [unescape_hex]; it never panics and its loop ends. *)
Theorem C31_decode_meaning : forall s d, unescape_hex s = Done d <-> decoded s d.
Proof. exact unescape_hex_spec. Qed.
Print Assumptions C31_decode_meaning.
Theorem C31_decode_total : forall s, exists d, unescape_hex s = Done d.
Proof. exact unescape_total. Qed.
Print Assumptions C31_decode_total.
Example C31_example : unescape_hex (B "a%2fb%2F%25%zz%4%%41+c") = Done (B "a/b/%%zz%4%A+c").
Proof. vm_compute. reflexivity. Qed.
Example C31_example_escapes : escapes (map bN (B "a/%")) (map bN (B "a%2F%25")).
Proof.
  cbv. apply esc_copy; [discriminate|].
  apply (esc_hex 50 70 2 15 [37]%N); [left; lia|right; left; lia|].
  apply (esc_hex 50 53 2 5 []%N); [left; lia|left; lia|]. constructor.
Qed.
Example C31_example_lone : ~ two_hex (chars (B "zz")) /\ unescape_hex (B "zz") = Done (B "zz").
Proof.
  split; [|vm_compute; reflexivity].
  intros (a & b & x & y & r & E & [H|[H|H]] & _); cbv in E; injection E as <- <- <-; lia.
Qed.

(** C32: wrong for every character outside ASCII, right for ASCII text. *)
Theorem C32_ascii_partial : forall s, Forall (fun b => (bN b < 0x80)%N) s -> unescape_hex (pct s) = Done s.
Proof. exact pct_ascii. Qed.
Print Assumptions C32_ascii_partial.
Theorem C32_refuted :
  forall c, scalar c -> (0x80 <= c)%N ->
  exists d, unescape_hex (pct (encode_char c)) = Done d /\ d <> encode_char c.
Proof. exact pct_broken. Qed.
Print Assumptions C32_refuted.
(** e with acute accent becomes two characters (4 bytes). *)
Example C32_example :
  pct (encode_char 0xE9%N) = B "%c3%a9" /\ unescape_hex (B "%c3%a9") = Done [xc3; x83; xc2; xa9] /\
  pct (B "a b") = B "%61%20%62" /\ unescape_hex (B "%61%20%62") = Done (B "a b").
Proof. repeat split; vm_compute; reflexivity. Qed.

(** C33: [next] is transparent under every interleaving, and nothing panics. *)
Theorem C33_next_transparent_partial :
  forall (T : Type) (dflt : T) items ops,
  exists s, dp_run dflt ops (dp_new dflt items) =
            Done (map (nth_error items) (seq 0 (count_next ops)), s).
Proof. exact (fun T => @dp_transparent T). Qed.
Print Assumptions C33_next_transparent_partial.
(** From any reachable state with at most one item buffered, a reset and two peeks show the next
    two items, and the items still to come are unchanged. *)
Theorem C33_peek_partial :
  forall (T : Type) (dflt : T) items ops l s,
  dp_run dflt ops (dp_new dflt items) = Done (l, s) -> dp_stored s <= 1 ->
  let n := count_next ops in
  exists s1 s2, dp_peek (dp_set_unpeek s) = Done (nth_error items n, s1) /\
    dp_peek s1 = Done (nth_error items (S n), s2) /\
    forall ops', exists s', dp_run dflt ops' s2 =
      Done (map (nth_error (skipn n items)) (seq 0 (count_next ops')), s').
Proof. exact (fun T => @dp_peeks T). Qed.
Print Assumptions C33_peek_partial.
(** The result of every peek in every sequence of operations. *)
Theorem C33_every_peek_partial :
  forall (T : Type) (dflt : T) items ops, dp_shown dflt ops (dp_new dflt items) = Done (looks ops items 0 false).
Proof. exact dp_every_peek. Qed.
Print Assumptions C33_every_peek_partial.
(** With two items buffered, the second peek after a reset shows nothing. *)
Theorem C33_refuted :
  exists s s1 s2, dp_run 0 [OpPeek; OpPeek] (dp_new 0 [1; 2; 3]) = Done ([], s) /\
    dp_peek (dp_set_unpeek s) = Done (Some 1, s1) /\ dp_peek s1 = Done (None, s2).
Proof. exact dp_second_peek_lost. Qed.
Print Assumptions C33_refuted.
Example C33_example :
  option_map fst (match dp_run 0 [OpPeek; OpNext; OpReset; OpPeek; OpPeek; OpNext; OpNext; OpPeek; OpNext; OpNext] (dp_new 0 [7; 8; 9; 6])
   with Done x => Some x | Panic => None end) = Some [Some 7; Some 8; Some 9; Some 6; None] /\
  option_map (fun x => dp_stored (snd x)) (match dp_run 0 [OpReset; OpPeek; OpPeek; OpNext] (dp_new 0 [7; 8; 9; 6])
   with Done x => Some x | Panic => None end) = Some 1 /\
  dp_shown 0 [OpPeek; OpPeek; OpPeek; OpNext; OpReset; OpPeek; OpPeek; OpNext; OpNext; OpPeek] (dp_new 0 [7; 8; 9]) =
    Done [Some 7; Some 8; None; Some 8; Some 9; None].
Proof. repeat split; vm_compute; reflexivity. Qed.

(** C34 *)
Theorem C34_last_value :
  forall ft q, exists m, parse_query ft q = Done m /\
  forall items, pieces_of [x26] q items ->
  forall k, last_in (assigns (faithful ft) k) items (mget seqb k m).
Proof. exact query_lookup. Qed.
Print Assumptions C34_last_value.
Example C34_example :
  parse_query default_features (B "a=1&&=5&%62&a=%32=&c=x%20y") =
    Done [(B "a", B "2="); (B "b", []); (B "c", B "x y")] /\
  pieces_of [x26] (B "a=1&b") [B "a=1"; B "b"].
Proof.
  split; [vm_compute; reflexivity|]. apply RequestProofs.pieces1_unique. vm_compute. reflexivity.
Qed.

(** C35: for a request to "/p?k=v" the parameter k is absent; instead "p?k" maps to "v/". *)
Theorem C35_refuted :
  forall cl ft (r : request cl) p k v,
  plain_text p -> plain_text k -> plain_text v ->
  rl_path (rq_line r) = [p ++ [x3f] ++ k ++ [x3d] ++ v] ->
  exists m, get_query ft r = Done m /\ mget seqb k m = None /\
            mget seqb (p ++ [x3f] ++ k) m = Some (v ++ [x2f]).
Proof. exact (fun cl => @get_query_misses cl). Qed.
Print Assumptions C35_refuted.
(** What it returns for "dir/p?first&..&last": the items in the middle as sent, the first under a
    name that includes the path, the last with a '/' appended. *)
Theorem C35_items_partial :
  forall cl ft (r : request cl) dir p first mid lst,
  rl_path (rq_line r) = dir ++ [p ++ [x3f] ++ join [x26] (first :: mid ++ [lst])] ->
  Forall (fun s => ~ In x26 s) (p :: first :: lst :: dir ++ mid) ->
  exists m, get_query ft r = Done m /\
  forall k, last_in (assigns (faithful ft) k)
    ((path_display dir ++ p ++ [x3f] ++ first) :: mid ++ [lst ++ [x2f]]) (mget seqb k m).
Proof. exact (fun cl => @get_query_items cl). Qed.
Print Assumptions C35_items_partial.
Example C35_items_example :
  path_parse (B "/d/p?a=1&b=2&c=3") = Some ([B "d"] ++ [B "p" ++ [x3f] ++ join [x26] (B "a=1" :: [B "b=2"] ++ [B "c=3"])]) /\
  parse_query default_features (path_display [B "d"; B "p?a=1&b=2&c=3"]) =
    Done [(B "d/p?a", B "1"); (B "b", B "2"); (B "c", B "3/")].
Proof. split; vm_compute; reflexivity. Qed.
Example C35_example :
  path_parse (B "/p?k=v") = Some [B "p" ++ [x3f] ++ B "k" ++ [x3d] ++ B "v"] /\
  parse_query default_features (path_display [B "p?k=v"]) = Done [(B "p?k", B "v/")] /\
  plain_text (B "p") /\ plain_text (B "k") /\ plain_text (B "v").
Proof.
  split; [vm_compute; reflexivity|]. split; [vm_compute; reflexivity|].
  unfold plain_text. repeat split; try reflexivity; intros [H|[]]; discriminate.
Qed.

(** C36 *)
Theorem C36_refuted :
  exists r, build insertion_order [ORoute VGet (B "/p") 1; OAdd 2] = Done r /\
    path_parse (B "/p?q") <> path_parse (B "/p") /\
    (exists a, path_parse (B "/p") = Some a /\
       router_run tr_exec default_features r MGet a [] = ([(1, []); (2, [])], Done tt)) /\
    (exists a, path_parse (B "/p?q") = Some a /\
       router_run tr_exec default_features r MGet a [] = ([(2, [])], Done tt)).
Proof. exact query_breaks_routing. Qed.
Print Assumptions C36_refuted.

(** C37 *)
Theorem C37_precedence :
  forall ft q, utf8_valid q = true -> exists m, parse_extended_query ft q = Done m /\
  forall items, pieces_of [x26] q items ->
  exists evs, Forall2 (ext_means (faithful ft)) items evs /\
    forall k, ext_result k (somes evs) (mget seqb k m).
Proof. exact ext_lookup. Qed.
Print Assumptions C37_precedence.
(** The reading of the items is unique. *)
Theorem C37_items_unique :
  forall strict items evs evs',
  Forall2 (ext_means strict) items evs -> Forall2 (ext_means strict) items evs' -> evs = evs'.
Proof. exact ext_items_unique. Qed.
Print Assumptions C37_items_unique.
Example C37_example :
  parse_extended_query default_features (B "a[]=1&b[x]=2&a[y]=3&c=4&b[x]=5&a[]=%36&b[z]=&c[]=7&d[0]=1&d=8&=9&e[[k]=l") =
    Done [(B "a", QArr [B "1"; B "6"]); (B "b", QObj [(B "x", B "5"); (B "z", [])]); (B "c", QStr (B "4"));
          (B "d", QStr (B "8")); (B "e[", QObj [(B "k", B "l")])].
Proof. vm_compute. reflexivity. Qed.
Example C37_example_items :
  ext_means true (B "a[]=1") (Some (EArr (B "a") (B "1"))) /\
  ext_means true (B "b[x]=2") (Some (EObj (B "b") (B "x") (B "2"))).
Proof.
  split.
  - apply (em_arr true (B "a[]")); [intros [H|[H|[H|[]]]]; discriminate|split; [reflexivity|intros []]|].
    apply unescape_hex_spec. vm_compute. reflexivity.
  - apply (em_obj true (B "b[x]")); [intros [H|[H|[H|[H|[]]]]]; discriminate|split; [reflexivity|intros [H|[]]; discriminate]|discriminate|].
    apply unescape_hex_spec. vm_compute. reflexivity.
Qed.
