(** How the declaration of an enum and a [match] over its variants are read, and what the match gives. *)
From Verif.Model Require Import RustStd Macros.
From Verif.Spec Require Import RustLang Common ResponseSpec.

(** Without the attributes [#[..]] in front *)
Fixpoint skip_attrs (fuel : nat) (l : list token) : list token :=
  match fuel, l with
  | S n, TkPunct c :: TkGroup DBracket _ :: r => if beqb c x23 then skip_attrs n r else l
  | _, _ => l
  end.
(** [V] or [V(types)] *)
Definition read_variant (p : list token) : option (str * list (list token)) :=
  match skip_attrs (length p) p with
  | [TkIdent v] => if is_name v then Some (v, []) else None
  | [TkIdent v; TkGroup DParen g] => if is_name v then Some (v, pieces (length g) g) else None
  | _ => None
  end.
Definition read_variants (l : list token) : option (list (str * list (list token))) :=
  all (map read_variant (pieces (length l) l)).

(** Values of i32 and of strings *)
Inductive scalar := SInt (z : Z) | SText (s : str).
(** An arm [Enum::V => (..)] or [Enum::V(x, ..) => (..)] *)
Record arm := Arm { a_enum : str; a_variant : str; a_binders : list str; a_result : list (list token) }.
Definition read_binder (p : list token) : option str := match p with [TkIdent x] => Some x | _ => None end.
Definition read_arm (p : list token) : option arm :=
  match read_path p with
  | ([e; v], TkPunct c :: TkPunct d :: [TkGroup DParen r]) =>
      if beqb c x3d && beqb d x3e then Some (Arm e v [] (pieces (length r) r)) else None
  | ([e; v], TkGroup DParen b :: TkPunct c :: TkPunct d :: [TkGroup DParen r]) =>
      if beqb c x3d && beqb d x3e then
        option_map (fun xs => Arm e v xs (pieces (length r) r)) (all (map read_binder (pieces (length b) b)))
      else None
  | _ => None
  end.
Definition read_arms (l : list token) : option (list arm) := all (map read_arm (pieces (length l) l)).
(** A literal, a bound variable or what it refers to *)
Definition component (env : list (str * scalar)) (p : list token) : option scalar :=
  match p with
  | [TkLit r] =>
      match r with
      | x22 :: _ => option_map SText (read_text r)
      | [] => None
      | _ => if forallb (fun b => (48 <=? bN b) && (bN b <=? 57))%N r then Some (SInt (Z.of_N (dec_val r))) else None
      end
  | [TkIdent x] => mget seqb x env
  | [TkPunct c; TkIdent x] => if beqb c x2a then mget seqb x env else None
  | _ => None
  end.
(** The value of a variant: its name and its arguments.  The first arm for it counts. *)
Fixpoint matches (arms : list arm) (enum v : str) (args : list scalar) : option (list scalar) :=
  match arms with
  | [] => None
  | a :: rest =>
      if seqb (a_enum a) enum && seqb (a_variant a) v && Nat.eqb (length (a_binders a)) (length args)
      then all (map (component (combine (a_binders a) args)) (a_result a))
      else matches rest enum v args
  end.

(** ** Tables of status codes *)
Fixpoint words (s : str) : list str :=
  match s with
  | [] => [[]]
  | b :: r =>
      if beqb b x20 then [] :: words r
      else match words r with w :: ws => (b :: w) :: ws | [] => [[b]] end
  end.
(** A word in camel case: its letters, the first one large, the others small *)
Definition camel (w : str) : str :=
  match filter is_alpha w with [] => [] | c :: cs => upper c :: map lower cs end.
Definition variant_name (phrase : str) : str := concat (map camel (words phrase)).
(** Printable ASCII without quotes and backslashes, with a letter *)
Definition phrase_text (s : str) : Prop :=
  Forall (fun b => (32 <= bN b <= 126)%N /\ b <> x22 /\ b <> x5c) s /\ Exists (fun b => is_alpha b = true) s.
(** [r] is a number that fits an i32 *)
Definition code_text (r : str) (n : N) : Prop := r <> [] /\ Forall is_digit r /\ dec_val r = n /\ (n <= 2147483647)%N.
(** The literals among the tokens *)
Definition literals (toks : list token) : list str := flat_map (fun t => match t with TkLit r => [r] | _ => [] end) toks.
(** One line of the table: the number as written, its value, the phrase *)
Record entry := Entry { e_text : str; e_code : N; e_phrase : str }.
Definition entry_ok (e : entry) : Prop :=
  code_text (e_text e) (e_code e) /\ phrase_text (e_phrase e) /\ variant_name (e_phrase e) <> B "Self".
Definition entry_literals (e : entry) : list str := [e_text e; [x22] ++ e_phrase e ++ [x22]].

(** [#[derive(Debug, Clone, Copy, PartialEq, Eq)] pub enum StatusCode { body }] *)
Definition enum_decl (body : list token) : list token :=
  [TkPunct x23; TkGroup DBracket [TkIdent (B "derive"); TkGroup DParen
     [TkIdent (B "Debug"); TkPunct x2c; TkIdent (B "Clone"); TkPunct x2c; TkIdent (B "Copy"); TkPunct x2c;
      TkIdent (B "PartialEq"); TkPunct x2c; TkIdent (B "Eq")]];
   TkIdent (B "pub"); TkIdent (B "enum"); TkIdent (B "StatusCode"); TkGroup DBrace body].
(** [&'static str] *)
Definition static_str : list token := [TkPunct x26; TkPunct x27; TkIdent (B "static"); TkIdent (B "str")].
(** [impl StatusCode { pub fn fetch(&self) -> (i32, &'static str) { match self { arms } } }] *)
Definition fetch_impl (arms : list token) : list token :=
  [TkIdent (B "impl"); TkIdent (B "StatusCode"); TkGroup DBrace
    [TkIdent (B "pub"); TkIdent (B "fn"); TkIdent (B "fetch"); TkGroup DParen [TkPunct x26; TkIdent (B "self")];
     TkPunct x2d; TkPunct x3e; TkGroup DParen (TkIdent (B "i32") :: TkPunct x2c :: static_str);
     TkGroup DBrace [TkIdent (B "match"); TkIdent (B "self"); TkGroup DBrace arms]]].
