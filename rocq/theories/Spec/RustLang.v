(** A small fragment of Rust: how tokens are read as expressions and blocks, and what running them does.
    It knows nothing of the macros; it covers the constructs that conversions between structs and JSON
    values are written with. *)
From Verif.Model Require Import RustStd Macros.

(** ** Syntax *)

Inductive expr :=
| EVar (x : str)
| EText (s : str)                                    (* a string literal *)
| ECall (path : list str) (args : list expr)         (* a::b(args) *)
| EMethod (e : expr) (m : str) (args : list expr)    (* e.m(args) *)
| EField (e : expr) (f : str)                        (* e.f, e.0 *)
| ETry (e : expr)                                    (* e? *)
| ENot (e : expr)                                    (* !e *)
| EStruct (fields : list (str * expr))               (* Self { f: e, .. } *)
| EBlock (l : list stmt)                             (* { .. } *)
| EIfLet (ctor : list str) (x : str) (e : expr) (yes no : list stmt)  (* if let a::b(x) = e {..} else {..} *)
with stmt :=
| SLet (x : str) (e : expr)                          (* let x = e; *)
| SIf (e : expr) (l : list stmt)                     (* if e { .. } *)
| SReturn (e : expr)                                 (* return e; *)
| SDo (e : expr)                                     (* e; *)
| SValue (e : expr).                                 (* the value of the block *)

(** The tokens before the first one satisfying [p], and those from it on. *)
Fixpoint before (p : token -> bool) (l : list token) : list token * list token :=
  match l with
  | [] => ([], [])
  | t :: r => if p t then ([], l) else let '(a, b) := before p r in (t :: a, b)
  end.
Definition is_semi (t : token) : bool := is_punct x3b t.
Definition is_comma (t : token) : bool := is_punct x2c t.
Definition is_block (t : token) : bool := match t with TkGroup DBrace _ => true | _ => false end.
(** The pieces between commas; nothing after a trailing comma. *)
Fixpoint pieces (fuel : nat) (l : list token) : list (list token) :=
  match fuel, l with
  | O, _ | _, [] => []
  | S n, _ => let '(a, b) := before is_comma l in a :: pieces n (tl b)
  end.
(** [a::b::c] and what follows *)
Fixpoint read_path (l : list token) : list str * list token :=
  match l with
  | TkIdent x :: r =>
      match r with
      | TkPunct c :: TkPunct d :: r' =>
          if beqb c x3a && beqb d x3a then let '(p, rest) := read_path r' in (x :: p, rest) else ([x], r)
      | _ => ([x], r)
      end
  | _ => ([], l)
  end.
(** A string literal without escapes *)
Definition read_text (repr : str) : option str :=
  match repr with
  | x22 :: r =>
      match rev r with
      | x22 :: s => if existsb (fun b => beqb b x22 || beqb b x5c) s then None else Some (rev s)
      | _ => None
      end
  | _ => None
  end.
(** The characters of identifiers written in ASCII, and the # of r#name *)
Definition word_byte (b : byte) : bool :=
  let n := bN b in
  ((97 <=? n) && (n <=? 122) || (65 <=? n) && (n <=? 90) || (48 <=? n) && (n <=? 57) || (n =? 95) || (n =? 35))%N.
(** The items of a list, if every one is there *)
Fixpoint all {A : Type} (l : list (option A)) : option (list A) :=
  match l with
  | [] => Some []
  | o :: r => match o, all r with Some a, Some l' => Some (a :: l') | _, _ => None end
  end.


(** The keywords of Rust, which are no names. *)
Definition keywords : list str :=
  [B "as"; B "async"; B "await"; B "break"; B "const"; B "continue"; B "crate"; B "dyn"; B "else"; B "enum"; B "extern"; B "false";
   B "fn"; B "for"; B "if"; B "impl"; B "in"; B "let"; B "loop"; B "match"; B "mod"; B "move"; B "mut"; B "pub"; B "ref"; B "return";
   B "self"; B "Self"; B "static"; B "struct"; B "super"; B "trait"; B "true"; B "type"; B "unsafe"; B "use"; B "where"; B "while"].
Definition is_name (f : str) : bool := negb (existsb (seqb f) keywords).
(** Arguments, with a reader [rd] of expressions *)
Definition read_args (rd : list token -> option expr) (g : list token) : option (list expr) :=
  all (map rd (pieces (length g) g)).
(** [f: e] in a struct expression *)
Definition read_item (rd : list token -> option expr) (p : list token) : option (str * expr) :=
  match p with
  | TkIdent f :: TkPunct c :: v => if beqb c x3a && is_name f then option_map (pair f) (rd v) else None
  | _ => None
  end.
Definition read_items (rd : list token -> option expr) (g : list token) : option (list (str * expr)) :=
  all (map (read_item rd) (pieces (length g) g)).
(** What follows an operand: [?], [.m(..)], [.f], [.0] *)
Fixpoint after (rd : list token -> option expr) (m : nat) (e : expr) (l : list token) : option expr :=
  match m with
  | O => None
  | S m' =>
      match l with
      | [] => Some e
      | TkPunct c :: r =>
          if beqb c x3f then after rd m' (ETry e) r
          else if beqb c x2e then
            match r with
            | TkIdent f :: TkGroup DParen g :: r' =>
                match read_args rd g with Some a => after rd m' (EMethod e f a) r' | None => None end
            | TkIdent f :: r' => if is_name f then after rd m' (EField e f) r' else None
            | TkLit f :: r' => after rd m' (EField e f) r'
            | _ => None
            end
          else None
      | _ => None
      end
  end.
(** An operand that is not [if], a negation or a struct expression, and what follows it *)
Definition read_operand (rd : list token -> option expr) (l : list token) : option expr :=
  match l with
  | TkLit s :: r => match read_text s with Some t => after rd (S (length r)) (EText t) r | None => None end
  | TkIdent x :: _ =>
      match read_path l with
      | (p, TkGroup DParen g :: r) =>
          match read_args rd g with Some a => after rd (S (length r)) (ECall p a) r | None => None end
      | (_, r) => after rd (S (length r)) (EVar x) r
      end
  | _ => None
  end.
(** [let a::b(mut x) = e { .. } else { .. }], after [if] *)
Definition read_if_let (rd : list token -> option expr) (rb : list token -> option (list stmt)) (l : list token) : option expr :=
  match read_path (tl l) with
  | (ctor, TkGroup DParen pat :: TkPunct c :: r) =>
      match before is_block r with
      | (e, [TkGroup DBrace yes; TkIdent k; TkGroup DBrace no]) =>
          if beqb c x3d && seqb k (B "else") then
            match rd e, rb yes, rb no, rev pat with
            | Some e', Some y, Some o, TkIdent v :: _ => Some (EIfLet ctor v e' y o)
            | _, _, _, _ => None
            end
          else None
      | _ => None
      end
  | _ => None
  end.
Definition prepend {A : Type} (a : option A) (b : option (list A)) : option (list A) :=
  match a, b with Some x, Some l => Some (x :: l) | _, _ => None end.
(** [x = e], [mut x = e], after [let] *)
Definition read_let (rd : list token -> option expr) (l : list token) : option stmt :=
  match l with
  | TkIdent m :: TkIdent x :: TkPunct c :: e => if seqb m (B "mut") && beqb c x3d then option_map (SLet x) (rd e) else None
  | TkIdent x :: TkPunct c :: e => if beqb c x3d then option_map (SLet x) (rd e) else None
  | _ => None
  end.

Fixpoint read_expr (fuel : nat) (l : list token) : option expr :=
  match fuel with
  | O => None
  | S n =>
      match l with
      | TkPunct c :: r => if beqb c x21 then option_map ENot (read_expr n r) else None
      | TkIdent x :: r =>
          if seqb x (B "if") then read_if_let (read_expr n) (read_block n) r
          else match r with
               | [TkGroup DBrace g] => if seqb x (B "Self") then option_map EStruct (read_items (read_expr n) g) else None
               | _ => read_operand (read_expr n) l
               end
      | _ => read_operand (read_expr n) l
      end
  end
with read_block (fuel : nat) (l : list token) : option (list stmt) :=
  match fuel with
  | O => None
  | S n =>
      match l with
      | [] => Some []
      | TkIdent x :: r =>
          if seqb x (B "if") then
            if match r with t :: _ => is_word (B "let") t | [] => false end
            then option_map (fun e => [SValue e]) (read_expr n l)
            else match before is_block r with
                 | (c, TkGroup DBrace g :: r') =>
                     match read_expr n c, read_block n g with
                     | Some e, Some s => prepend (Some (SIf e s)) (read_block n r')
                     | _, _ => None
                     end
                 | _ => None
                 end
          else
            let '(a, b) := before is_semi r in
            if seqb x (B "let") then prepend (read_let (read_expr n) a) (read_block n (tl b))
            else if seqb x (B "return") then prepend (option_map SReturn (read_expr n a)) (read_block n (tl b))
            else
              match b with
              | [] => option_map (fun e => [SValue e]) (read_expr n l)
              | _ :: r' => prepend (option_map SDo (read_expr n (TkIdent x :: a))) (read_block n r')
              end
      | _ => None
      end
  end.

(** ** Meaning *)

Section Run.
Context {L F : Type}.
(** The conversions of the types of the fields, by field name; fields of tuples are named by their index. *)
Context (field_from : str -> value L -> option F) (field_to : str -> F -> option (value L)).

Inductive rv :=
| RVal (v : value L)                     (* a JSON value *)
| RMap (m : list (str * value L))        (* a hash map *)
| RVec (l : list (value L))
| RIter (l : list (value L))             (* an iterator with these items to come *)
| ROpt (o : option rv)
| RBool (b : bool)
| RText (s : str)
| RField (f : str) (x : F)               (* a value of the type of the field [f] *)
| RStruct (l : list (str * F))
| RUnit.
Definition env := list (str * rv).
(** The outcome of an expression: a value, [return] (also by [?]), or something this fragment does not know. *)
Inductive res (A : Type) := Value (en : env) (a : A) | Returned (v : rv) | Stuck.
Arguments Value {A}.
Arguments Returned {A}.
Arguments Stuck {A}.
Definition bind {A C} (r : res A) (k : env -> A -> res C) : res C :=
  match r with Value en a => k en a | Returned v => Returned v | Stuck => Stuck end.

Fixpoint same_path (a b : list str) : bool :=
  match a, b with [], [] => true | x :: a', y :: b' => seqb x y && same_path a' b' | _, _ => false end.
(** Calls of functions; [want]: the field whose type is expected. *)
Definition call (want : option str) (p : list str) (args : list rv) : option rv :=
  match args with
  | [] =>
      if same_path p [B "std"; B "collections"; B "HashMap"; B "new"] then Some (RMap [])
      else if same_path p [B "Vec"; B "new"] then Some (RVec [])
      else None
  | [a] =>
      if same_path p [B "Some"] then Some (ROpt (Some a))
      else if same_path p [B "crate"; B "FromJSON"; B "from_json"] then
        match a, want with RVal v, Some f => Some (ROpt (option_map (RField f) (field_from f v))) | _, _ => None end
      else if same_path p [B "crate"; B "ToJSON"; B "to_json"] then
        match a with RField f x => Some (ROpt (option_map RVal (field_to f x))) | _ => None end
      else if same_path p [B "crate"; B "Value"; B "Object"] then match a with RMap m => Some (RVal (VObject m)) | _ => None end
      else if same_path p [B "crate"; B "Value"; B "Array"] then match a with RVec l => Some (RVal (VArray l)) | _ => None end
      else None
  | _ => None
  end.
(** Methods: the result, and the receiver afterwards. *)
Definition method_on (r : rv) (m : str) (args : list rv) : option (rv * rv) :=
  match r, args with
  | RMap l, [RText k] => if seqb m (B "remove") then Some (ROpt (option_map RVal (mget seqb k l)), RMap (mremove seqb k l)) else None
  | RMap l, [RText k; RVal v] => if seqb m (B "insert") then Some (ROpt (option_map RVal (mget seqb k l)), RMap (mset seqb k v l)) else None
  | RMap l, [] => if seqb m (B "is_empty") then Some (RBool (match l with [] => true | _ => false end), r) else None
  | RVec l, [RVal v] => if seqb m (B "push") then Some (RUnit, RVec (l ++ [v])) else None
  | RVec l, [] => if seqb m (B "into_iter") then Some (RIter l, RUnit) else None
  | RIter l, [] => if seqb m (B "next") then Some (ROpt (option_map RVal (hd_error l)), RIter (tl l)) else None
  | ROpt o, [] => if seqb m (B "is_some") then Some (RBool (match o with Some _ => true | None => false end), r) else None
  | RText s, [] => if seqb m (B "to_owned") then Some (RText s, r) else None
  | _, _ => None
  end.
(** What [if let ctor(x) = v] binds *)
Definition matches_ctor (ctor : list str) (v : value L) : option rv :=
  match v with
  | VObject m => if same_path ctor [B "crate"; B "Value"; B "Object"] then Some (RMap m) else None
  | VArray l => if same_path ctor [B "crate"; B "Value"; B "Array"] then Some (RVec l) else None
  | VLeaf _ => None
  end.

Fixpoint eval (want : option str) (en : env) (e : expr) {struct e} : res rv :=
  let fix list_of (en : env) (l : list expr) {struct l} : res (list rv) :=
    match l with
    | [] => Value en []
    | e :: r => bind (eval None en e) (fun en1 v => bind (list_of en1 r) (fun en2 vs => Value en2 (v :: vs)))
    end in
  let fix items (i : nat) (en : env) (l : list expr) {struct l} : res (list (str * F)) :=
    match l with
    | [] => Value en []
    | e :: r =>
        bind (eval (Some (show_N (N.of_nat i))) en e) (fun en1 v =>
          match v with
          | RField f x => bind (items (S i) en1 r) (fun en2 vs => Value en2 ((f, x) :: vs))
          | _ => Stuck
          end)
    end in
  let fix named_items (en : env) (l : list (str * expr)) {struct l} : res (list (str * F)) :=
    match l with
    | [] => Value en []
    | (f, e) :: r =>
        bind (eval (Some f) en e) (fun en1 v =>
          match v with
          | RField f x => bind (named_items en1 r) (fun en2 vs => Value en2 ((f, x) :: vs))
          | _ => Stuck
          end)
    end in
  let fix block (en : env) (l : list stmt) {struct l} : res rv :=
    match l with
    | [] => Value en RUnit
    | s :: r =>
        match s with
        | SValue e => eval None en e
        | SReturn e => bind (eval None en e) (fun _ v => Returned v)
        | SDo e => bind (eval None en e) (fun en1 _ => block en1 r)
        | SLet x e => bind (eval None en e) (fun en1 v => block (mset seqb x v en1) r)
        | SIf c l' =>
            bind (eval None en c) (fun en1 b =>
              match b with
              | RBool true =>
                  bind ((fix inner (en : env) (l : list stmt) {struct l} : res unit :=
                    match l with
                    | [] => Value en tt
                    | SReturn e :: _ => bind (eval None en e) (fun _ v => Returned v)
                    | SDo e :: r => bind (eval None en e) (fun en1 _ => inner en1 r)
                    | _ => Stuck
                    end) en1 l') (fun en2 _ => block en2 r)
              | RBool false => block en1 r
              | _ => Stuck
              end)
        end
    end in
  match e with
  | EVar x =>
      if seqb x (B "None") then Value en (ROpt None)
      else match mget seqb x en with Some v => Value en v | None => Stuck end
  | EText s => Value en (RText s)
  | ECall p args =>
      if same_path p [B "Self"] then bind (items 0 en args) (fun en1 l => Value en1 (RStruct l))
      else bind (list_of en args) (fun en1 vs => match call want p vs with Some v => Value en1 v | None => Stuck end)
  | EMethod e m args =>
      match e with
      | EVar x =>
          bind (list_of en args) (fun en1 vs =>
            match mget seqb x en1 with
            | Some r => match method_on r m vs with Some (v, r') => Value (mset seqb x r' en1) v | None => Stuck end
            | None => Stuck
            end)
      | _ =>
          bind (eval None en e) (fun en1 r =>
          bind (list_of en1 args) (fun en2 vs => match method_on r m vs with Some (v, _) => Value en2 v | None => Stuck end))
      end
  | EField e f =>
      bind (eval None en e) (fun en1 r =>
        match r with
        | RStruct l => match mget seqb f l with Some x => Value en1 (RField f x) | None => Stuck end
        | _ => Stuck
        end)
  | ETry e =>
      bind (eval want en e) (fun en1 r =>
        match r with ROpt (Some v) => Value en1 v | ROpt None => Returned (ROpt None) | _ => Stuck end)
  | ENot e => bind (eval None en e) (fun en1 r => match r with RBool b => Value en1 (RBool (negb b)) | _ => Stuck end)
  | EStruct fields => bind (named_items en fields) (fun en1 l => Value en1 (RStruct l))
  | EBlock l => block en l
  | EIfLet ctor x e yes no =>
      bind (eval None en e) (fun en1 r =>
        match r with
        | RVal v => match matches_ctor ctor v with Some w => block (mset seqb x w en1) yes | None => block en1 no end
        | _ => Stuck
        end)
  end.
(** The result of a function with these parameters and this body *)
Definition result (params : env) (body : list stmt) : option rv :=
  match eval None params (EBlock body) with Value _ v | Returned v => Some v | Stuck => None end.
End Run.
Arguments Value {L F A}.
Arguments Returned {L F A}.
Arguments Stuck {L F A}.

(** The statements that a block of tokens is read as. *)
Definition reads (l : list token) (p : list stmt) : Prop := exists n, forall m, n <= m -> read_block m l = Some p.
(** Running the block [body] with these parameters gives [v]. *)
Definition computes {L F : Type} (field_from : str -> value L -> option F) (field_to : str -> F -> option (value L))
  (params : env) (body : list token) (v : rv) : Prop :=
  exists p, reads body p /\ result field_from field_to params p = Some v.
