(** Specification of percent-decoding and query strings. *)
From Verif.Model Require Import RustStd Path Request Query.
From Verif.Spec Require Import Common TextSpec.

(** ** Percent-decoding, on characters *)

Definition hex_value (c v : N) : Prop :=
  (48 <= c <= 57 /\ v = c - 48)%N \/ (65 <= c <= 70 /\ v = c - 55)%N \/ (97 <= c <= 102 /\ v = c - 87)%N.

(** [e] is an escaped form of the text [t]: every character is either copied (not '%') or
    written as '%' and two hexadecimal digits. *)
Inductive escapes : list N -> list N -> Prop :=
| esc_nil : escapes [] []
| esc_copy : forall c t e, c <> 37%N -> escapes t e -> escapes (c :: t) (c :: e)
| esc_hex : forall a b x y t e, hex_value a x -> hex_value b y -> escapes t e ->
    escapes ((x * 16 + y)%N :: t) (37%N :: a :: b :: e).

(** Two hexadecimal digits come next. *)
Definition two_hex (cs : list N) : Prop :=
  exists a b x y rest, cs = a :: b :: rest /\ hex_value a x /\ hex_value b y.

(** [t] is the decoded form of the characters [e]: escapes are replaced, a '%' that does not
    start an escape is copied. *)
Inductive decodes : list N -> list N -> Prop :=
| dec_nil : decodes [] []
| dec_copy : forall c t e, c <> 37%N -> decodes e t -> decodes (c :: e) (c :: t)
| dec_hex : forall a b x y t e, hex_value a x -> hex_value b y -> decodes e t ->
    decodes (37%N :: a :: b :: e) ((x * 16 + y)%N :: t)
| dec_lone : forall t e, ~ two_hex e -> decodes e t -> decodes (37%N :: e) (37%N :: t).
(** On UTF-8 text. *)
Definition decoded (s d : str) : Prop := exists t, decodes (chars s) t /\ d = of_chars t.

(** The escaped form of a byte string. *)
Definition pct_byte (b : byte) : str := [x25; hex_digit (bN b / 16); hex_digit (bN b mod 16)].
Definition pct (s : str) : str := flat_map pct_byte s.

(** ** Plain queries *)

(** The '&'-separated item assigns [v] to [k]. *)
Definition assigns (strict : bool) (k : str) (item v : str) : Prop :=
  (strict = true -> item <> []) /\
  ((exists n w, item = n ++ [x3d] ++ w /\ ~ In x3d n /\ (strict = true -> n <> []) /\
      decoded n k /\ decoded w v) \/
   (~ In x3d item /\ decoded item k /\ v = [])).

(** Text without the special characters '%', '&', '='. *)
Definition plain_text (s : str) : Prop :=
  utf8_valid s = true /\ ~ In x25 s /\ ~ In x26 s /\ ~ In x3d s.

(** ** Extended queries *)

Inductive ext := EPlain (k v : str) | EArr (k v : str) | EObj (k x v : str).

(** The name ends in "[x]" with no further '[' in x. *)
Definition bracketed (n k x : str) : Prop := n = k ++ [x5b] ++ x ++ [x5d] /\ ~ In x5b x.

(** What an item says, if anything. *)
Inductive ext_means (strict : bool) : str -> option ext -> Prop :=
| em_empty : strict = true -> ext_means strict [] None
| em_flag : forall item k, ~ In x3d item -> (strict = true -> item <> []) -> decoded item k ->
    ext_means strict item (Some (EPlain k []))
| em_noname : forall w, ext_means strict ([x3d] ++ w) None
| em_arr : forall n k w v, ~ In x3d n -> bracketed n k [] -> decoded w v ->
    ext_means strict (n ++ [x3d] ++ w) (Some (EArr k v))
| em_obj : forall n k x w v, ~ In x3d n -> bracketed n k x -> x <> [] -> decoded w v ->
    ext_means strict (n ++ [x3d] ++ w) (Some (EObj k x v))
| em_plain : forall n k w v, n <> [] -> ~ In x3d n -> (forall k' x', ~ bracketed n k' x') ->
    decoded n k -> decoded w v -> ext_means strict (n ++ [x3d] ++ w) (Some (EPlain k v)).

Definition plains (k : str) (es : list ext) : list str :=
  flat_map (fun e => match e with EPlain k' v => if seqb k k' then [v] else [] | _ => [] end) es.
Definition arrs (k : str) (es : list ext) : list str :=
  flat_map (fun e => match e with EArr k' v => if seqb k k' then [v] else [] | _ => [] end) es.
Definition objs (k x : str) (es : list ext) : list str :=
  flat_map (fun e => match e with
                     | EObj k' x' v => if seqb k k' && seqb x x' then [v] else []
                     | _ => []
                     end) es.
(** For each bracketed item of [k]: whether it is an array item. *)
Definition brackets (k : str) (es : list ext) : list bool :=
  flat_map (fun e => match e with
                     | EArr k' _ => if seqb k k' then [true] else []
                     | EObj k' _ _ => if seqb k k' then [false] else []
                     | EPlain _ _ => []
                     end) es.
Definition last_opt (l : list str) : option str := hd_error (rev l).
Definition ext_result (k : str) (es : list ext) (o : option query_value) : Prop :=
  match last_opt (plains k es) with
  | Some v => o = Some (QStr v)
  | None =>
      match brackets k es with
      | [] => o = None
      | true :: _ => o = Some (QArr (arrs k es))
      | false :: _ => exists m, o = Some (QObj m) /\ forall x, mget seqb x m = last_opt (objs k x es)
      end
  end.

(** The items that say something, in order. *)
Fixpoint somes {A} (l : list (option A)) : list A :=
  match l with
  | [] => []
  | Some a :: r => a :: somes r
  | None :: r => somes r
  end.

(** ** Look-ahead *)
Inductive dp_op := OpNext | OpPeek | OpReset.
Section DP.
Context {T : Type} (dflt : T).
(** Running a sequence of operations; collects the results of [next]. *)
Fixpoint dp_run (ops : list dp_op) (s : dpeek T) : outcome (list (option T) * dpeek T) :=
  match ops with
  | [] => Done ([], s)
  | OpNext :: r => obind (dp_run r (snd (dp_next dflt s)))
                     (fun x => Done (fst (dp_next dflt s) :: fst x, snd x))
  | OpPeek :: r => obind (dp_peek s) (fun x => dp_run r (snd x))
  | OpReset :: r => dp_run r (dp_set_unpeek s)
  end.
Fixpoint count_next (ops : list dp_op) : nat :=
  match ops with
  | [] => 0
  | OpNext :: r => S (count_next r)
  | _ :: r => count_next r
  end.
(** The results of the peeks in a sequence of operations. *)
Fixpoint dp_shown (ops : list dp_op) (s : dpeek T) : outcome (list (option T)) :=
  match ops with
  | [] => Done []
  | OpNext :: r => dp_shown r (snd (dp_next dflt s))
  | OpPeek :: r => obind (dp_peek s) (fun x => obind (dp_shown r (snd x)) (fun l => Done (fst x :: l)))
  | OpReset :: r => dp_shown r (dp_set_unpeek s)
  end.
(** What they should be: [l] are the items to come, [ahead] of them (at most two) have been looked at, and
    [again] tells whether the next peek starts over.  A peek shows the next item not looked at, the first
    one if it starts over, and nothing if two have been looked at. *)
Fixpoint looks (ops : list dp_op) (l : list T) (ahead : nat) (again : bool) : list (option T) :=
  match ops with
  | [] => []
  | OpNext :: r => looks r (tl l) (pred ahead) again
  | OpReset :: r => looks r l ahead true
  | OpPeek :: r =>
      if again && Nat.ltb 0 ahead then nth_error l 0 :: looks r l ahead false
      else if Nat.ltb ahead 2 then nth_error l ahead :: looks r l (Nat.min (S ahead) (length l)) false
      else None :: looks r l ahead false
  end.
End DP.
