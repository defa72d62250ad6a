(** Model of the parts of the Rust standard library that Octane uses.
    A Rust [&str]/[String]/[&[u8]] is modelled by its bytes ([list byte]); a [char] by its
    Unicode scalar value ([N]).  Nothing in this file is Octane code: each definition models the
    documented behaviour of the std function named in its comment. *)
From Coq Require Import Strings.String Numbers.DecimalN.
From Coq Require Export List NArith ZArith Bool Lia.
From Coq Require Export Init.Byte Strings.Byte.
Export ListNotations StringSyntax.

(** Rust [&str], [String], [&[u8]], [Vec<u8>]: bytes, as everywhere; for example src/request.rs:87,
    144, 266 *)
Definition str := list byte.
(** Rust [char], as in src/query.rs:5-9, 102 *)
Definition char := N.

(** String literals: [B "abc"] is the byte string abc. (literals such as src/constants.rs:9-22) *)
Definition B (s : string) : str := list_byte_of_string s.
Arguments B s%string.

(** Result of code that may panic.  [Panic] models an unwinding panic of the current task. (panics
    such as src/server.rs:175-176, src/request.rs:92) *)
Inductive outcome (A : Type) : Type :=
| Done (a : A)
| Panic.
Arguments Done {A} a.
Arguments Panic {A}.

(** Sequencing: a panic ends the task, as in src/server.rs:175-176 *)
Definition obind {A C : Type} (o : outcome A) (f : A -> outcome C) : outcome C :=
  match o with Done a => f a | Panic => Panic end.

(** The same with a pure continuation, as in src/file_handler.rs:43 *)
Definition omap {A C : Type} (f : A -> C) (o : outcome A) : outcome C :=
  match o with Done a => Done (f a) | Panic => Panic end.

(** [Option::unwrap] (src/server.rs:175-176, src/cookie.rs:75, src/path.rs:266, src/request.rs:311,
    src/file_handler.rs:43) *)
Definition unwrap {A : Type} (o : option A) : outcome A :=
  match o with Some a => Done a | None => Panic end.

(** ** Bytes (comparisons of bytes such as src/path.rs:80, 213) *)

Definition bN (b : byte) : N := Byte.to_N b.
(** [==] of two [u8]s: src/path.rs:80, octane_http/src/http1x/mod.rs:62 *)
Definition beqb (a b : byte) : bool := Byte.eqb a b.

(** src/constants.rs:5-10 *)
Definition SP : byte := x20.   (* src/constants.rs:5 *)
Definition HT : byte := x09.   (* src/constants.rs:6 *)
Definition CR : byte := x0d.   (* src/constants.rs:7 *)
Definition LF : byte := x0a.   (* src/constants.rs:8 *)
Definition CRLF : str := [CR; LF].  (* src/constants.rs:9-10 *)

(** [==] on strings/slices (src/path.rs:50, 63, 82; src/query.rs:120-150) *)
Fixpoint seqb (a b : str) : bool :=
  match a, b with
  | [], [] => true
  | x :: xs, y :: ys => beqb x y && seqb xs ys
  | _, _ => false
  end.

(** [u8::to_ascii_lowercase] / [to_ascii_uppercase] / [is_ascii_alphabetic]
    (octane_macros/src/util.rs:12-18, src/request.rs:217) *)
Definition byte_of_N (n : N) : byte :=
  match Byte.of_N n with Some b => b | None => x00 end.
(** ASCII capital letters, octane_macros/src/util.rs:12 *)
Definition is_upper (b : byte) : bool := ((65 <=? bN b) && (bN b <=? 90))%N.
(** ASCII small letters, octane_macros/src/util.rs:12 *)
Definition is_lower (b : byte) : bool := ((97 <=? bN b) && (bN b <=? 122))%N.
(** [char::is_ascii_alphabetic], octane_macros/src/util.rs:12 *)
Definition is_alpha (b : byte) : bool := is_upper b || is_lower b.
(** [u8::to_ascii_lowercase], src/request.rs:217, octane_macros/src/util.rs:18 *)
Definition lower (b : byte) : byte := if is_upper b then byte_of_N (bN b + 32) else b.
(** [u8::to_ascii_uppercase], octane_macros/src/util.rs:16 *)
Definition upper (b : byte) : byte := if is_lower b then byte_of_N (bN b - 32) else b.
(** [str::to_ascii_lowercase] (src/request.rs:217) *)
Definition to_ascii_lowercase (s : str) : str := map lower s.
(** What [to_uppercase] (src/responder.rs:479) does on ASCII strings *)
Definition to_ascii_uppercase (s : str) : str := map upper s.
(** [u8::is_ascii]: where the Unicode case mappings of src/responder.rs:479 and
    src/file_handler.rs:69 are the ASCII ones *)
Definition is_ascii (b : byte) : bool := (bN b <? 128)%N.
(** [str::is_ascii], see [is_ascii]; src/responder.rs:479, src/file_handler.rs:69 *)
Definition ascii_str (s : str) : bool := forallb is_ascii s.

(** ** Searching and splitting *)

(** [str::split(char)] for an ASCII separator: always at least one piece. (src/path.rs:46,
    src/query.rs:120, 198, src/request.rs:88, 368) *)
Fixpoint split_char (c : byte) (s : str) : list str :=
  match s with
  | [] => [[]]
  | x :: xs =>
      if beqb x c then [] :: split_char c xs
      else match split_char c xs with
           | [] => [[x]]
           | p :: ps => (x :: p) :: ps
           end
  end.

(** [str::find(char)] for an ASCII char: byte offset of the first occurrence. (src/query.rs:126,
    204, src/request.rs:370) *)
Fixpoint find_char (c : byte) (s : str) : option nat :=
  match s with
  | [] => None
  | x :: xs => if beqb x c then Some 0%nat
               else match find_char c xs with Some i => Some (S i) | None => None end
  end.

(** [<[T]>::starts_with] (used to search for a string, as octane_http/src/http1x/mod.rs:76 does) *)
Fixpoint starts_with (p s : str) : bool :=
  match p, s with
  | [], _ => true
  | _ :: _, [] => false
  | x :: xs, y :: ys => beqb x y && starts_with xs ys
  end.

(** [str::find(&str)]: byte offset of the first occurrence of the pattern.
    (octane_http/src/http1x/mod.rs:76) *)
Fixpoint find_str (p s : str) : option nat :=
  if starts_with p s then Some 0%nat
  else match s with
       | [] => None
       | _ :: xs => match find_str p xs with Some i => Some (S i) | None => None end
       end.

(** [str::split(&str)] for a non-empty pattern [p].  [fuel] bounds the number of pieces;
    callers pass [S (length s)], which always suffices because every match consumes at
    least one byte. (src/cookie.rs:72) *)
Fixpoint split_str_fuel (fuel : nat) (p s : str) : list str :=
  match fuel with
  | O => [s]
  | S fuel' =>
      match find_str p s with
      | None => [s]
      | Some i => firstn i s :: split_str_fuel fuel' p (skipn (i + length p) s)
      end
  end.
(** [str::split(&str)], src/cookie.rs:72 *)
Definition split_str (p s : str) : list str := split_str_fuel (S (length s)) p s.

(** [str::trim_start_matches(pred)] for a predicate on ASCII characters. (src/request.rs:155) *)
Fixpoint trim_start_matches (f : byte -> bool) (s : str) : str :=
  match s with
  | [] => []
  | x :: xs => if f x then trim_start_matches f xs else s
  end.

(** [str::is_char_boundary] and [str::split_at]: panics when the offset is past the end or not on
    a character boundary. (src/request.rs:95, 374-375, src/query.rs:128, 206) *)
Definition is_continuation (b : byte) : bool := ((128 <=? bN b) && (bN b <? 192))%N.
(** [str::is_char_boundary], checked by [split_at] in src/request.rs:95 *)
Definition is_char_boundary (s : str) (n : nat) : bool :=
  match nth_error s n with
  | Some b => negb (is_continuation b)
  | None => Nat.eqb n (length s)
  end.
(** [str::split_at], src/request.rs:95, 374 *)
Definition split_at (s : str) (n : nat) : outcome (str * str) :=
  if is_char_boundary s n then Done (firstn n s, skipn n s) else Panic.

(** [[String]::join] (src/responder.rs:510) *)
Fixpoint join (sep : str) (l : list str) : str :=
  match l with
  | [] => []
  | [x] => x
  | x :: xs => x ++ sep ++ join sep xs
  end.

(** ** UTF-8 (for [from_utf8], src/request.rs:212, src/query.rs:216, 221,
    octane_http/src/http1x/mod.rs:35) *)

Definition in_range (lo hi : N) (b : byte) : bool := ((lo <=? bN b) && (bN b <=? hi))%N.

(** [std::str::from_utf8(..).is_ok()]: the well-formed byte sequences of Unicode table 3-7.
    (src/request.rs:212, octane_http/src/http1x/mod.rs:35, src/query.rs:216, 221) *)
Fixpoint utf8_valid (s : str) : bool :=
  match s with
  | [] => true
  | a :: r =>
      if in_range 0x00 0x7F a then utf8_valid r
      else match r with
      | [] => false
      | b :: r1 =>
          if in_range 0xC2 0xDF a then in_range 0x80 0xBF b && utf8_valid r1
          else match r1 with
          | [] => false
          | c :: r2 =>
              if in_range 0xE0 0xEF a then
                (if in_range 0xE0 0xE0 a then in_range 0xA0 0xBF b
                 else if in_range 0xED 0xED a then in_range 0x80 0x9F b
                 else in_range 0x80 0xBF b)
                && in_range 0x80 0xBF c && utf8_valid r2
              else match r2 with
              | [] => false
              | d :: r3 =>
                  if in_range 0xF0 0xF4 a then
                    (if in_range 0xF0 0xF0 a then in_range 0x90 0xBF b
                     else if in_range 0xF4 0xF4 a then in_range 0x80 0x8F b
                     else in_range 0x80 0xBF b)
                    && in_range 0x80 0xBF c && in_range 0x80 0xBF d && utf8_valid r3
                  else false
              end
          end
      end
  end.

(** [str::chars()]: decoding (meaningful on valid UTF-8 only, which every [&str] is).
    (src/query.rs:13-36) *)
Fixpoint chars (s : str) : list char :=
  match s with
  | [] => []
  | a :: r =>
      if in_range 0x00 0x7F a then bN a :: chars r
      else match r with
      | [] => []
      | b :: r1 =>
          if in_range 0xC0 0xDF a then ((bN a - 0xC0) * 64 + (bN b - 0x80))%N :: chars r1
          else match r1 with
          | [] => []
          | c :: r2 =>
              if in_range 0xE0 0xEF a then
                ((bN a - 0xE0) * 4096 + (bN b - 0x80) * 64 + (bN c - 0x80))%N :: chars r2
              else match r2 with
              | [] => []
              | d :: r3 =>
                  ((bN a - 0xF0) * 262144 + (bN b - 0x80) * 4096 + (bN c - 0x80) * 64
                   + (bN d - 0x80))%N :: chars r3
              end
          end
      end
  end.

(** [String::push(char)]: the UTF-8 encoding of one scalar value. ([ret.push(val)], src/query.rs:9,
    31) *)
Definition encode_char (c : char) : str :=
  (if c <? 0x80 then [byte_of_N c]
   else if c <? 0x800 then [byte_of_N (0xC0 + c / 64); byte_of_N (0x80 + c mod 64)]
   else if c <? 0x10000 then
     [byte_of_N (0xE0 + c / 4096); byte_of_N (0x80 + (c / 64) mod 64);
      byte_of_N (0x80 + c mod 64)]
   else
     [byte_of_N (0xF0 + c / 262144); byte_of_N (0x80 + (c / 4096) mod 64);
      byte_of_N (0x80 + (c / 64) mod 64); byte_of_N (0x80 + c mod 64)])%N.

(** [chars.collect::<String>()] (the string built in src/query.rs:4-36) *)
Definition of_chars (l : list char) : str := flat_map encode_char l.

(** ** Unicode white space, [str::trim] *)

(** The encodings of the characters with property White_Space. (for [str::trim], src/request.rs:369) *)
Definition ws_encodings : list str :=
  [ [x09]; [x0a]; [x0b]; [x0c]; [x0d]; [x20];
    [xc2; x85]; [xc2; xa0]; [xe1; x9a; x80];
    [xe2; x80; x80]; [xe2; x80; x81]; [xe2; x80; x82]; [xe2; x80; x83]; [xe2; x80; x84];
    [xe2; x80; x85]; [xe2; x80; x86]; [xe2; x80; x87]; [xe2; x80; x88]; [xe2; x80; x89];
    [xe2; x80; x8a]; [xe2; x80; xa8]; [xe2; x80; xa9]; [xe2; x80; xaf];
    [xe2; x81; x9f]; [xe3; x80; x80] ].

(** The white-space character at the front, if any (for [str::trim], src/request.rs:369) *)
Definition find_ws (encs : list str) (s : str) : option str :=
  find (fun w => starts_with w s) encs.

(** Removal of white space at the front (for [str::trim], src/request.rs:369); [fuel] bounds the
    number of characters removed *)
Fixpoint trim_fuel (fuel : nat) (encs : list str) (s : str) : str :=
  match fuel with
  | O => s
  | S fuel' =>
      match find_ws encs s with
      | Some w => trim_fuel fuel' encs (skipn (length w) s)
      | None => s
      end
  end.
(** [str::trim_start]: [fuel = length s] suffices because each step removes a byte. (Part of [trim],
    src/request.rs:369) *)
Definition trim_start (s : str) : str := trim_fuel (length s) ws_encodings s.
(** [str::trim_end]: the same on reversed bytes (UTF-8 is self-synchronising, so a byte suffix
    equal to the encoding of a white-space character is that character). (Part of [trim],
    src/request.rs:369) *)
Definition trim_end (s : str) : str :=
  rev (trim_fuel (length s) (map (@rev byte) ws_encodings) (rev s)).
(** [str::trim], src/request.rs:369 *)
Definition trim (s : str) : str := trim_end (trim_start s).

(** ** Numbers ([usize] of src/router.rs:214, 239, src/request.rs:304-307) *)

Definition USIZE_MAX : N := 18446744073709551615.   (* 64-bit target *)
(** [u64] of src/request.rs:375 *)
Definition U64_MAX : N := 18446744073709551615.
(** [i64] of src/time.rs:8-14, 99 *)
Definition I64_MAX : Z := 9223372036854775807.
(** [i64] of src/time.rs:8-14, 99 *)
Definition I64_MIN : Z := -9223372036854775808.

(** [char::to_digit(10)], inside [parse] of src/request.rs:306, 375 *)
Definition digit_val (b : byte) : option N :=
  if in_range 48 57 b then Some (bN b - 48)%N else None.

(** The digits of a number, inside [parse] of src/request.rs:306, 375 *)
Fixpoint parse_digits (acc : N) (s : str) : option N :=
  match s with
  | [] => Some acc
  | b :: r => match digit_val b with
              | Some d => parse_digits (acc * 10 + d)%N r
              | None => None
              end
  end.

(** [str::parse::<usize>()] / [parse::<u64>()]: optional '+', at least one digit, no overflow.
    (src/request.rs:306 (usize), 375 (u64)) *)
Definition parse_uint (max : N) (s : str) : option N :=
  let body := match s with
              | x2b :: r => r
              | _ => s
              end in
  match body with
  | [] => None
  | _ => match parse_digits 0 body with
         | Some n => if (n <=? max)%N then Some n else None
         | None => None
         end
  end.

(** Decimal digits, for [to_string] in src/responder.rs:150 *)
Fixpoint bytes_of_uint (u : Decimal.uint) : str :=
  match u with
  | Decimal.Nil => []
  | Decimal.D0 u => x30 :: bytes_of_uint u
  | Decimal.D1 u => x31 :: bytes_of_uint u
  | Decimal.D2 u => x32 :: bytes_of_uint u
  | Decimal.D3 u => x33 :: bytes_of_uint u
  | Decimal.D4 u => x34 :: bytes_of_uint u
  | Decimal.D5 u => x35 :: bytes_of_uint u
  | Decimal.D6 u => x36 :: bytes_of_uint u
  | Decimal.D7 u => x37 :: bytes_of_uint u
  | Decimal.D8 u => x38 :: bytes_of_uint u
  | Decimal.D9 u => x39 :: bytes_of_uint u
  end.
(** [usize::to_string] (src/responder.rs:150) *)
Definition show_N (n : N) : str := bytes_of_uint (N.to_uint n).
(** [i64::to_string], [i32::to_string] (src/responder.rs:484-495, src/time.rs:21-26) *)
Definition show_Z (z : Z) : str :=
  match z with
  | Z0 => show_N 0
  | Zpos p => show_N (Npos p)
  | Zneg p => x2d :: show_N (Npos p)
  end.

(** ** [{:?}] of a [str] (one digit of [{:?}], src/responder.rs:159, 362) *)

Definition hex_digit (n : N) : byte :=
  (if n <? 10 then byte_of_N (48 + n) else byte_of_N (87 + n))%N.
(** Hexadecimal without leading zeros, for values below 256 (all that is needed: control
    characters). (src/responder.rs:159, 362) *)
Definition show_hex8 (n : N) : str :=
  (if n <? 16 then [hex_digit n] else [hex_digit (n / 16); hex_digit (n mod 16)])%N.

(** What the toolchain's [Debug for str] does: before Rust 1.53 it escaped single quotes, and until
    about Rust 1.61 it printed NUL as \u{0} and not as \0. (src/responder.rs:159, 362) *)
Inductive debug_style := DebugOld | DebugMiddle | DebugNew.
(** see [debug_style] (src/responder.rs:159, 362) *)
Definition escapes_quote (d : debug_style) : bool := match d with DebugOld => true | _ => false end.
(** see [debug_style] (src/responder.rs:159, 362) *)
Definition short_nul (d : debug_style) : bool := match d with DebugNew => true | _ => false end.
(** Escaping of one byte inside a debug-printed string.  Simplification: non-ASCII characters are
    copied (the std prints some non-printable ones as \u{..}; either way no ASCII byte other than
    backslash, u, braces and hex digits is produced for them). (src/responder.rs:159, 362) *)
Definition debug_byte (sq : debug_style) (b : byte) : str :=
  if beqb b x22 then [x5c; x22]                          (* double quote *)
  else if beqb b x5c then [x5c; x5c]                     (* backslash *)
  else if beqb b x27 && escapes_quote sq then [x5c; x27] (* single quote *)
  else if beqb b x09 then [x5c; x74]
  else if beqb b x0a then [x5c; x6e]
  else if beqb b x0d then [x5c; x72]
  else if beqb b x00 && short_nul sq then [x5c; x30]
  else if (bN b <? 32)%N || (bN b =? 127)%N then
    [x5c; x75; x7b] ++ show_hex8 (bN b) ++ [x7d]
  else [b].
(** [format!("{:?}", s)] (src/responder.rs:159, 362) *)
Definition debug_str (sq : debug_style) (s : str) : str :=
  [x22] ++ flat_map (debug_byte sq) s ++ [x22].

(** ** HashMap *)

Section Map.
  Context {K V : Type} (eqb : K -> K -> bool).

  (** [HashMap::get] (src/responder.rs:117, 156, src/router.rs:242, 263, 269, src/path.rs:238, 243,
      249) *)
  Fixpoint mget (k : K) (m : list (K * V)) : option V :=
    match m with
    | [] => None
    | (k', v) :: r => if eqb k k' then Some v else mget k r
    end.

  (** [HashMap::insert]: overwrites an existing entry. (src/responder.rs:96, src/router.rs:245,
      src/path.rs:81, src/query.rs:132, 135) *)
  Fixpoint mset (k : K) (v : V) (m : list (K * V)) : list (K * V) :=
    match m with
    | [] => [(k, v)]
    | (k', v') :: r => if eqb k k' then (k', v) :: r else (k', v') :: mset k v r
    end.

  (** [HashMap::remove] ([obj.remove(..)] in octane_macros/src/json.rs:118) *)
  Fixpoint mremove (k : K) (m : list (K * V)) : list (K * V) :=
    match m with
    | [] => []
    | (k', v') :: r => if eqb k k' then r else (k', v') :: mremove k r
    end.
End Map.

(** ** Cargo features (Cargo.toml:30-41) that change behaviour *)
Record features := Features {
  faithful : bool;
  url_variables : bool;
  cookies_on : bool;
  raw_headers_on : bool
}.
(** Cargo.toml:31 *)
Definition default_features : features := Features true true true true.
