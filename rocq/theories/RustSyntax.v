(** RustSyntax.v: tokens and syntax trees of the part of Rust that src/ is written in, and how text is
    read as such trees.  Nothing here models a function of /repo; the Rust reference is followed from
    memory.  Whatever is not understood makes reading fail. *)
From Coq Require Import String Ascii.
From Verif Require Import Base.
Local Open Scope string_scope.
Local Open Scope list_scope.
Local Open Scope bool_scope.

(** Integer types; [Open]: that of a literal without suffix, before it meets a value whose type is known. *)
Inductive ity := I16 | I32 | U8 | U32 | U64 | Usize | Open.

Inductive pun :=
| Amp
| Star
| Bang
| Bar
| LBrack
| RBrack
| LPar
| RPar
| LBrace
| RBrace
| LAngle
| RAngle
| Dot
| Comma
| Semi
| Colon
| Quest
| Hash
| Assign
| Plus
| Minus
| Slash
| Percent
| Caret
| PathSep
| Arrow
| FatArrow
| EqEq
| NotEq
| LessEq
| GreaterEq
| AndAnd
| OrOr
| DotDot
| BarAssign
| PlusAssign
| MinusAssign
| StarAssign
| AmpAssign.
Inductive keyword :=
| Kmut
| Kref
| Kas
| Ktrue
| Kfalse
| Kbreak
| Kreturn
| Kif
| Klet
| Kmatch
| Kfor
| Kin
| Kelse
| Kuse
| Kpub
| Kconst
| Kfn
| Kmod
| Ktype
| Kstruct
| Kenum
| Ktrait
| Kimpl
| Kwhere.

Inductive tok :=
| TId (s : string)
| TKw (k : keyword)
| TNum (t : ity) (z : Z)
| TStr (s : string)
| TChr (c : N)
| TLife
| TPun (p : pun).

(** ** Tokens *)
Definition code (c : ascii) : N := N_of_ascii c.
Definition between (a c b : N) : bool := (N.leb a c && N.leb c b)%N.
Definition is_digit (c : ascii) : bool := between 48 (code c) 57.
Definition is_upper (c : ascii) : bool := between 65 (code c) 90.
Definition is_word (c : ascii) : bool :=
  is_digit c || is_upper c || between 97 (code c) 122 || N.eqb (code c) 95.
Definition is_space (c : ascii) : bool := N.eqb (code c) 32 || N.eqb (code c) 10.

Fixpoint take_while (f : ascii -> bool) (s : string) : string * string :=
  match s with
  | EmptyString => (EmptyString, EmptyString)
  | String c s' => if f c then let (a, b) := take_while f s' in (String c a, b) else (EmptyString, s)
  end.

(** Without the first [n] characters *)
Fixpoint without (n : nat) (s : string) : string :=
  match n, s with S n', String _ s' => without n' s' | _, _ => s end.

(** Digits in a base, underscores skipped, up to the first other character. *)
Definition digit_of (c : ascii) : Z :=
  if is_digit c then Z.of_N (code c) - 48
  else if between 97 (code c) 102 then Z.of_N (code c) - 87
  else if between 65 (code c) 70 then Z.of_N (code c) - 55 else 99.
Fixpoint digits (base acc : Z) (s : string) : Z * string :=
  match s with
  | EmptyString => (acc, s)
  | String c s' =>
      if N.eqb (code c) 95 then digits base acc s'
      else if Z.ltb (digit_of c) base then digits base (acc * base + digit_of c) s' else (acc, s)
  end.
Definition suffix (s : string) : option ity :=
  if s =? "" then Some Open else if s =? "i16" then Some I16 else if s =? "i32" then Some I32
  else if s =? "u8" then Some U8 else if s =? "u32" then Some U32 else if s =? "u64" then Some U64
  else if s =? "usize" then Some Usize else None.
Definition number_of (w : string) : option tok :=
  let (z, r) := if prefix "0b" w then digits 2 0 (without 2 w)
                else if prefix "0x" w then digits 16 0 (without 2 w)
                else digits 10 0 w in
  match suffix r with Some t => Some (TNum t z) | None => None end.

(** Longer ones first. *)
Definition puns : list (string * pun) :=
  [("::", PathSep); ("->", Arrow); ("=>", FatArrow); ("==", EqEq); ("!=", NotEq); ("<=", LessEq); (">=", GreaterEq); ("&&", AndAnd); ("||", OrOr); ("..", DotDot); ("|=", BarAssign); ("+=", PlusAssign); ("-=", MinusAssign); ("*=", StarAssign); ("&=", AmpAssign); ("&", Amp); ("*", Star); ("!", Bang); ("|", Bar); ("[", LBrack); ("]", RBrack); ("(", LPar); (")", RPar); ("{", LBrace); ("}", RBrace); ("<", LAngle); (">", RAngle); (".", Dot); (",", Comma); (";", Semi); (":", Colon); ("?", Quest); ("#", Hash); ("=", Assign); ("+", Plus); ("-", Minus); ("/", Slash); ("%", Percent); ("^", Caret)].
Definition keywords : list (string * keyword) :=
  [("mut", Kmut); ("ref", Kref); ("as", Kas); ("true", Ktrue); ("false", Kfalse); ("break", Kbreak); ("return", Kreturn); ("if", Kif); ("let", Klet); ("match", Kmatch); ("for", Kfor); ("in", Kin); ("else", Kelse); ("use", Kuse); ("pub", Kpub); ("const", Kconst); ("fn", Kfn); ("mod", Kmod); ("type", Ktype); ("struct", Kstruct); ("enum", Kenum); ("trait", Ktrait); ("impl", Kimpl); ("where", Kwhere)].
Definition word (w : string) : tok :=
  match find (fun kv => fst kv =? w) keywords with Some (_, k) => TKw k | None => TId w end.

(** The rest of a text literal; the only escape known is a backslash before the end of the line, which
    goes together with the white space after it. *)
Fixpoint text_literal (skipping : bool) (s : string) : option (string * string) :=
  match s with
  | EmptyString => None
  | String c s' =>
      if skipping && is_space c then text_literal true s'
      else if N.eqb (code c) 34 then Some (EmptyString, s')
      else if N.eqb (code c) 92 then
        match s' with
        | String d s'' => if N.eqb (code d) 10 then text_literal true s'' else None
        | EmptyString => None
        end
      else match text_literal false s' with Some (w, r) => Some (String c w, r) | None => None end
  end.

Fixpoint lex (fuel : nat) (s : string) : option (list tok) :=
  match fuel with
  | O => None
  | S fuel =>
    let more t r := match lex fuel r with Some ts => Some (t :: ts) | None => None end in
    match s with
    | EmptyString => Some []
    | String c r =>
      if is_space c then lex fuel r
      else if prefix "//" s then lex fuel (snd (take_while (fun c => negb (N.eqb (code c) 10)) s))
      else if is_digit c then
        let (w, r) := take_while is_word s in
        match number_of w with Some t => more t r | None => None end
      else if is_word c then let (w, r) := take_while is_word s in more (word w) r
      else if N.eqb (code c) 34 then
        match text_literal false r with Some (w, r) => more (TStr w) r | None => None end
      else if N.eqb (code c) 39 then                                  (* a character or a lifetime *)
        if prefix "\u{" r then
          let (z, r) := digits 16 0 (without 3 r) in
          if prefix "}'" r then more (TChr (Z.to_N z)) (without 2 r) else None
        else
          match r with
          | String x (String q r') =>
              if N.eqb (code q) 39 then more (TChr (code x)) r' else more TLife (snd (take_while is_word r))
          | _ => None
          end
      else
        match find (fun kv => prefix (fst kv) s) puns with
        | Some (w, p) => more (TPun p) (without (String.length w) s)
        | None => None
        end
    end
  end.
Definition tokens (s : string) : option (list tok) := lex (S (String.length s)) s.

(** ** Syntax trees *)
Inductive binop := Add | Sub | Mul | BitAnd | BitOr | BitXor | Shl | Shr | Equal | Differ | Less | Greater | AtMost | AtLeast.
Inductive ty := TyInt (t : ity) | TyInts (t : ity) | TyName (t : string) | TyResult | TyOther.

Inductive pat :=
| PWild
| PVar (x : string)
| PNum (z : Z)
| PChr (c : N)
| PPath (p : list string)                              (* [A::B] *)
| PTup (p : list string) (ps : list pat)               (* [A::B(..)]; a tuple when [p] is empty *)
| PRec (p : list string) (fs : list (string * pat))    (* [A::B { .. }] *)
| PArr (ps : list pat)
| POr (ps : list pat).

Inductive expr :=
| ENum (t : ity) (z : Z)
| EBool (b : bool)
| EStr (s : string)
| EChr (c : N)
| EPath (p : list string)
| ETup (es : list expr)
| EArr (es : list expr)
| ENot (e : expr)
| EBin (op : binop) (a b : expr)
| EAnd (a b : expr)
| EOr (a b : expr)
| ERange (a b : expr)
| ECast (e : expr) (t : ity)
| EFn (p : list string) (targs : list Z) (args : list expr)   (* [A::f::<..>(..)] *)
| EMeth (e : expr) (m : string) (args : list expr)
| EClos (ps : list pat) (e : expr)
| EField (e : expr) (f : string)
| EIndex (e i : expr)
| ERec (p : list string) (fs : list (string * expr))
| EIf (c t f : expr)
| EIfLet (p : pat) (e t f : expr)
| EMatch (e : expr) (arms : list (pat * option expr * expr))
| EBlock (ss : list (expr * bool))                            (* [true]: followed by a semicolon *)
| ELet (p : pat) (t : ty) (e : option expr)
| EUse (t : string)                                           (* [use T::*;] *)
| EAssign (l : expr) (op : option binop) (e : expr)
| EFor (p : pat) (e b : expr)
| EReturn (e : expr)
| EBreak
| ETry (e : expr)
| EMac (m : string) (args : list expr)
| EMatches (e : expr) (p : pat).

(** A function; a constant is a function without parameters. *)
Record fundef := mk_fundef {
  fn_name : string;                    (* [Type::name] or [name] *)
  fn_type : string;                    (* the type of the [impl] block *)
  fn_constant : bool;
  fn_params : list (string * ty);
  fn_out : option nat;                 (* the place of the parameter, if any, that is taken by [&mut] *)
  fn_const_n : bool;                   (* it or its [impl] block has a parameter [const N: usize] *)
  fn_result : ty;
  fn_body : expr
}.
(** The fields of a struct or of a variant; a parameter [const N: usize] of a struct counts as a field. *)
Definition decl := (string * list (string * ty))%type.
Inductive item := IFun (f : fundef) | IDecl (d : decl).

(** ** Reading *)
Definition pun_code (p : pun) : nat :=
  match p with
  | Amp => 0 | Star => 1 | Bang => 2 | Bar => 3 | LBrack => 4 | RBrack => 5 | LPar => 6 | RPar => 7 | LBrace => 8
  | RBrace => 9 | LAngle => 10 | RAngle => 11 | Dot => 12 | Comma => 13 | Semi => 14 | Colon => 15 | Quest => 16
  | Hash => 17 | Assign => 18 | Plus => 19 | Minus => 20 | Slash => 21 | Percent => 22 | Caret => 23 | PathSep => 24
  | Arrow => 25 | FatArrow => 26 | EqEq => 27 | NotEq => 28 | LessEq => 29 | GreaterEq => 30 | AndAnd => 31
  | OrOr => 32 | DotDot => 33 | BarAssign => 34 | PlusAssign => 35 | MinusAssign => 36 | StarAssign => 37
  | AmpAssign => 38
  end.
Definition keyword_code (k : keyword) : nat :=
  match k with
  | Kmut => 0 | Kref => 1 | Kas => 2 | Ktrue => 3 | Kfalse => 4 | Kbreak => 5 | Kreturn => 6 | Kif => 7 | Klet => 8
  | Kmatch => 9 | Kfor => 10 | Kin => 11 | Kelse => 12 | Kuse => 13 | Kpub => 14 | Kconst => 15 | Kfn => 16
  | Kmod => 17 | Ktype => 18 | Kstruct => 19 | Kenum => 20 | Ktrait => 21 | Kimpl => 22 | Kwhere => 23
  end.
Definition is_pun (p : pun) (t : tok) : bool := match t with TPun q => Nat.eqb (pun_code p) (pun_code q) | _ => false end.
Definition is_kw (k : keyword) (t : tok) : bool := match t with TKw l => Nat.eqb (keyword_code k) (keyword_code l) | _ => false end.
Definition is_id (x : string) (t : tok) : bool := match t with TId y => x =? y | _ => false end.
Definition upper (s : string) : bool := match s with String c _ => is_upper c | EmptyString => false end.
(** The rest after an expected token. *)
Definition after (p : pun) (ts : list tok) : option (list tok) :=
  match ts with t :: r => if is_pun p t then Some r else None | [] => None end.
Definition after_kw (k : keyword) (ts : list tok) : option (list tok) :=
  match ts with t :: r => if is_kw k t then Some r else None | [] => None end.
(** The rest after a sequence of keywords and punctuation. *)
Definition same (t u : tok) : bool :=
  match t with TPun p => is_pun p u | TKw k => is_kw k u | _ => false end.
Fixpoint eat (l : list tok) (ts : list tok) : option (list tok) :=
  match l, ts with
  | [], _ => Some ts
  | t :: l', u :: ts' => if same t u then eat l' ts' else None
  | _ :: _, [] => None
  end.
(** Skipping an optional token. *)
Definition maybe (p : pun) (ts : list tok) : list tok := match after p ts with Some r => r | None => ts end.
Definition maybe_kw (k : keyword) (ts : list tok) : list tok := match after_kw k ts with Some r => r | None => ts end.

Local Notation "'do' x '<-' m ; k" := (match m with Some x => k | None => None end)
  (at level 200, x pattern, m at level 100, k at level 200).
Local Notation "'at' l 'of' ts 'as' r ',' a 'or' b" := (match eat l ts with Some r => a | None => b end)
  (at level 200, l at level 100, ts at level 100, r name, a at level 200, b at level 200).
Local Notation "! p" := (TPun p) (at level 5).
Local Notation "% k" := (TKw k) (at level 5).

(** The tokens up to one of [stop] outside all brackets; [angles]: angle brackets count. *)
Fixpoint until (angles : bool) (stop : tok -> bool) (depth : nat) (ts : list tok) : list tok * list tok :=
  match ts with
  | [] => ([], [])
  | t :: r =>
      if Nat.eqb depth 0 && stop t then ([], ts)
      else
        let depth' := match t with
                      | TPun LPar | TPun LBrack | TPun LBrace => S depth
                      | TPun RPar | TPun RBrack | TPun RBrace => pred depth
                      | TPun LAngle => if angles then S depth else depth
                      | TPun RAngle => if angles then pred depth else depth
                      | _ => depth
                      end in
        let (a, b) := until angles stop depth' r in (t :: a, b)
  end.
(** What stands between a bracket and its partner, the bracket itself being gone. *)
Definition between_brackets (angles : bool) (ts : list tok) : option (list tok * list tok) :=
  match until angles (fun t => match t with
                               | TPun RPar | TPun RBrack | TPun RBrace => true
                               | TPun RAngle => angles
                               | _ => false
                               end) 0 ts with
  | (a, _ :: b) => Some (a, b)
  | _ => None
  end.
Definition group := between_brackets false.
Definition generics := between_brackets true.
Definition int_type (s : string) : option ity := if s =? "" then None else suffix s.
(** A type, as far as it matters: an integer type, an array or range of integers, a type with a name, [Result<..>], or
    something else. *)
Definition type_of (ts : list tok) : ty :=
  let ts := match ts with TPun Amp :: r => r | _ => ts end in
  match ts with
  | [TId s] => match int_type s with Some t => TyInt t | None => if upper s then TyName s else TyOther end
  | TPun LBrack :: TId s :: TPun Semi :: _ => match int_type s with Some t => TyInts t | None => TyOther end
  | _ => if (match ts with x :: TPun LAngle :: _ => is_id "Result" x | _ => false end) then TyResult
         else match rev ts with
              | TPun RAngle :: TId s :: TPun LAngle :: TId range :: _ =>
                  if range =? "Range" then match int_type s with Some t => TyInts t | None => TyOther end else TyOther
              | _ => TyOther
              end
  end.
(** The numbers among generic arguments. *)
Definition numbers (ts : list tok) : list Z := flat_map (fun t => match t with TNum _ z => [z] | _ => [] end) ts.

(** [a::b::c], possibly with generic arguments at the end, of which the numbers are kept *)
Fixpoint path (fuel : nat) (ts : list tok) : option (list string * list Z * list tok) :=
  match fuel, ts with
  | S fuel, TId a :: ts =>
      at [!PathSep; !LAngle] of ts as r,
        do (g, r) <- generics r;
        at [!PathSep] of r as r', do (p, _, r) <- path fuel r'; Some (a :: p, numbers g, r)
        or Some ([a], numbers g, r)
      or at [!PathSep] of ts as r, do (p, n, r) <- path fuel r; Some (a :: p, n, r)
      or Some ([a], [], ts)
  | _, _ => None
  end.

(** Patterns *)
Fixpoint pattern (fuel : nat) (ts : list tok) : option (pat * list tok) :=
  match fuel with
  | O => None
  | S fuel =>
    match ts with
    | TNum _ z :: r => Some (PNum z, r)
    | TChr c :: r => Some (PChr c, r)
    | TId _ :: _ =>
        do (p, _, r) <- path fuel ts;
        match p with
        | [x] => if x =? "_" then Some (PWild, r)
                 else if upper x then path_pattern fuel p r else Some (PVar x, r)
        | _ => path_pattern fuel p r
        end
    | _ =>
        at [!Amp] of ts as r, pattern fuel r
        or at [%Kmut] of ts as r, pattern fuel r
        or at [%Kref] of ts as r, pattern fuel r
        or at [!LBrack] of ts as r, do (ps, r) <- patterns fuel RBrack r; Some (PArr ps, r)
        or at [!LPar] of ts as r, do (ps, r) <- patterns fuel RPar r; Some (PTup [] ps, r)
        or None
    end
  end
with path_pattern (fuel : nat) (p : list string) (ts : list tok) : option (pat * list tok) :=
  match fuel with
  | O => None
  | S fuel =>
    at [!LPar] of ts as r, do (ps, r) <- patterns fuel RPar r; Some (PTup p ps, r)
    or at [!LBrace] of ts as r, do (fs, r) <- field_patterns fuel r; Some (PRec p fs, r)
    or Some (PPath p, ts)
  end
with patterns (fuel : nat) (close : pun) (ts : list tok) : option (list pat * list tok) :=
  match fuel with
  | O => None
  | S fuel =>
    match after close ts with
    | Some r => Some ([], r)
    | None => do (p, r) <- pattern fuel ts; do (ps, r) <- patterns fuel close (maybe Comma r); Some (p :: ps, r)
    end
  end
with field_patterns (fuel : nat) (ts : list tok) : option (list (string * pat) * list tok) :=
  match fuel with
  | O => None
  | S fuel =>
    match ts with
    | TId x :: r' =>
        at [!Colon] of r' as r,
          do (p, r) <- pattern fuel r; do (fs, r) <- field_patterns fuel (maybe Comma r); Some ((x, p) :: fs, r)
        or do (fs, r) <- field_patterns fuel (maybe Comma r'); Some ((x, PVar x) :: fs, r)
    | _ =>
        at [!RBrace] of ts as r, Some ([], r)
        or at [!DotDot] of ts as r, field_patterns fuel r
        or at [%Kref] of ts as r, field_patterns fuel r
        or None
    end
  end.
(** Patterns separated by [|] *)
Fixpoint alternatives (fuel : nat) (ts : list tok) : option (list pat * list tok) :=
  match fuel with
  | O => None
  | S fuel =>
    do (p, r) <- pattern fuel ts;
    at [!Bar] of r as r', do (ps, r) <- alternatives fuel r'; Some (p :: ps, r)
    or Some ([p], r)
  end.
Definition any_pattern (fuel : nat) (ts : list tok) : option (pat * list tok) :=
  do (ps, r) <- alternatives fuel ts; Some (match ps with [p] => p | _ => POr ps end, r).

(** Binary operators and how tightly they bind. *)
Inductive infix := OpAssign (o : option binop) | OpRange | OpOr | OpAnd | OpBin (o : binop).
Definition operator (ts : list tok) : option (infix * nat * list tok) :=
  at [!RAngle; !RAngle] of ts as r, Some (OpBin Shr, 9, r)
  or at [!LAngle; !LAngle] of ts as r, Some (OpBin Shl, 9, r)
  or match ts with
     | TPun p :: r =>
         match p with
         | Assign => Some (OpAssign None, 1, r)
         | BarAssign => Some (OpAssign (Some BitOr), 1, r)
         | PlusAssign => Some (OpAssign (Some Add), 1, r)
         | MinusAssign => Some (OpAssign (Some Sub), 1, r)
         | StarAssign => Some (OpAssign (Some Mul), 1, r)
         | AmpAssign => Some (OpAssign (Some BitAnd), 1, r)
         | DotDot => Some (OpRange, 2, r)
         | OrOr => Some (OpOr, 3, r)
         | AndAnd => Some (OpAnd, 4, r)
         | EqEq => Some (OpBin Equal, 5, r)
         | NotEq => Some (OpBin Differ, 5, r)
         | LAngle => Some (OpBin Less, 5, r)
         | RAngle => Some (OpBin Greater, 5, r)
         | LessEq => Some (OpBin AtMost, 5, r)
         | GreaterEq => Some (OpBin AtLeast, 5, r)
         | Bar => Some (OpBin BitOr, 6, r)
         | Caret => Some (OpBin BitXor, 7, r)
         | Amp => Some (OpBin BitAnd, 8, r)
         | Plus => Some (OpBin Add, 10, r)
         | Minus => Some (OpBin Sub, 10, r)
         | Star => Some (OpBin Mul, 11, r)
         | _ => None
         end
     | _ => None
     end.
Definition combine (op : infix) (a b : expr) : expr :=
  match op with
  | OpAssign o => EAssign a o b
  | OpRange => ERange a b
  | OpOr => EOr a b
  | OpAnd => EAnd a b
  | OpBin o => EBin o a b
  end.

Fixpoint casts (fuel : nat) (e : expr) (ts : list tok) : option (expr * list tok) :=
  match fuel with
  | O => None
  | S fuel =>
    match eat [%Kas] ts with
    | Some (TId t :: r) => do i <- int_type t; casts fuel (ECast e i) r
    | _ => Some (e, ts)
    end
  end.

(** Expressions.  [lits]: a brace after a path begins a literal (not so in front of a block). *)
Fixpoint expression (fuel : nat) (lits : bool) (least : nat) (ts : list tok) : option (expr * list tok) :=
  match fuel with
  | O => None
  | S fuel => do (a, r) <- unary fuel lits ts; operators fuel lits least a r
  end
with operators (fuel : nat) (lits : bool) (least : nat) (a : expr) (ts : list tok) : option (expr * list tok) :=
  match fuel with
  | O => None
  | S fuel =>
    match operator ts with
    | Some (op, n, r) =>
        if Nat.leb least n then
          do (b, r) <- expression fuel lits (if Nat.eqb n 1 then 1 else S n) r;
          operators fuel lits least (combine op a b) r
        else Some (a, ts)
    | None => Some (a, ts)
    end
  end
with unary (fuel : nat) (lits : bool) (ts : list tok) : option (expr * list tok) :=
  match fuel with
  | O => None
  | S fuel =>
    at [!Amp] of ts as r, unary fuel lits (maybe_kw Kmut r)
    or at [!Star] of ts as r, unary fuel lits r
    or at [!Bang] of ts as r, do (e, r) <- unary fuel lits r; Some (ENot e, r)
    or at [!Bar] of ts as r,
      do (ps, r) <- patterns fuel Bar r; do (e, r) <- expression fuel lits 1 r; Some (EClos ps e, r)
    or do (e, r) <- primary fuel lits ts; do (e, r) <- postfix fuel e r; casts fuel e r
  end
with postfix (fuel : nat) (e : expr) (ts : list tok) : option (expr * list tok) :=
  match fuel with
  | O => None
  | S fuel =>
    at [!LBrack] of ts as r, do (i, r) <- expression fuel true 1 r; do r <- after RBrack r; postfix fuel (EIndex e i) r
    or at [!Quest] of ts as r, postfix fuel (ETry e) r
    or match eat [!Dot] ts with
       | Some (TNum _ z :: r) => postfix fuel (EField e (if Z.eqb z 0 then "0" else "1")) r
       | Some (TId m :: r) =>
           do (p, _, r) <- path fuel (TId m :: r);
           at [!LPar] of r as r', do (args, r) <- expressions fuel RPar r'; postfix fuel (EMeth e m args) r
           or postfix fuel (EField e m) r
       | _ => Some (e, ts)
       end
  end
with primary (fuel : nat) (lits : bool) (ts : list tok) : option (expr * list tok) :=
  match fuel with
  | O => None
  | S fuel =>
    match ts with
    | TNum t z :: r => Some (ENum t z, r)
    | TStr s :: r => Some (EStr s, r)
    | TChr c :: r => Some (EChr c, r)
    | TId m :: r' =>
        at [!Bang; !LPar] of r' as r,
          if m =? "matches" then
            do (e, r) <- expression fuel true 1 r; do r <- after Comma r; do (p, r) <- any_pattern fuel r;
            do r <- after RPar (maybe Comma r); Some (EMatches e p, r)
          else do (es, r) <- expressions fuel RPar r; Some (EMac m es, r)
        or
          do (p, n, r) <- path fuel ts;
          at [!LPar] of r as r', do (args, r) <- expressions fuel RPar r'; Some (EFn p n args, r)
          or match eat [!LBrace] r with
             | Some r' =>
                 if lits && upper (last p "") then do (fs, r) <- fields fuel r'; Some (ERec p fs, r) else Some (EPath p, r)
             | None => Some (EPath p, r)
             end
    | _ =>
        at [!LPar] of ts as r,
          do (es, r') <- expressions fuel RPar r;
          match es with [e] => Some (e, r') | _ => Some (ETup es, r') end
        or at [!LBrack] of ts as r, do (es, r) <- expressions fuel RBrack r; Some (EArr es, r)
        or at [!LBrace] of ts as r, do (ss, r) <- statements fuel r; Some (EBlock ss, r)
        or at [%Ktrue] of ts as r, Some (EBool true, r)
        or at [%Kfalse] of ts as r, Some (EBool false, r)
        or at [%Kbreak] of ts as r, Some (EBreak, r)
        or at [%Kreturn] of ts as r, do (e, r) <- expression fuel true 1 r; Some (EReturn e, r)
        or at [%Kif; %Klet] of ts as r,
          do (p, r) <- any_pattern fuel r; do r <- after Assign r; do (e, r) <- expression fuel false 1 r;
          do (t, f, r) <- branches fuel r; Some (EIfLet p e t f, r)
        or at [%Kif] of ts as r,
          do (c, r) <- expression fuel false 1 r; do (t, f, r) <- branches fuel r; Some (EIf c t f, r)
        or at [%Kmatch] of ts as r,
          do (e, r) <- expression fuel false 1 r; do r <- after LBrace r; do (cs, r) <- arms fuel r; Some (EMatch e cs, r)
        or at [%Kfor] of ts as r,
          do (p, r) <- pattern fuel r; do r <- after_kw Kin r; do (e, r) <- expression fuel false 1 r;
          do r <- after LBrace r; do (ss, r) <- statements fuel r; Some (EFor p e (EBlock ss), r)
        or None
    end
  end
with branches (fuel : nat) (ts : list tok) : option (expr * expr * list tok) :=
  match fuel with
  | O => None
  | S fuel =>
    do r <- after LBrace ts; do (ss, r) <- statements fuel r;
    at [%Kelse; !LBrace] of r as r', do (es, r) <- statements fuel r'; Some (EBlock ss, EBlock es, r)
    or at [%Kelse] of r as r', do (e, r) <- primary fuel false r'; Some (EBlock ss, e, r)
    or Some (EBlock ss, EBlock [], r)
  end
with arms (fuel : nat) (ts : list tok) : option (list (pat * option expr * expr) * list tok) :=
  match fuel with
  | O => None
  | S fuel =>
    at [!RBrace] of ts as r, Some ([], r)
    or
      do (p, r) <- any_pattern fuel ts;
      do (g, r) <- (at [%Kif] of r as r', do (e, r) <- expression fuel true 1 r'; Some (Some e, r) or Some (None, r));
      do r <- after FatArrow r; do (e, r) <- expression fuel true 1 r;
      do (cs, r) <- arms fuel (maybe Comma r); Some ((p, g, e) :: cs, r)
  end
with expressions (fuel : nat) (close : pun) (ts : list tok) : option (list expr * list tok) :=
  match fuel with
  | O => None
  | S fuel =>
    match after close ts with
    | Some r => Some ([], r)
    | None =>
        do (e, r) <- expression fuel true 1 ts;
        match after close r with
        | Some r => Some ([e], r)
        | None => do r <- after Comma r; do (es, r) <- expressions fuel close r; Some (e :: es, r)
        end
    end
  end
with fields (fuel : nat) (ts : list tok) : option (list (string * expr) * list tok) :=
  match fuel with
  | O => None
  | S fuel =>
    match ts with
    | TId x :: r' =>
        at [!Colon] of r' as r,
          do (e, r) <- expression fuel true 1 r; do (fs, r) <- fields fuel (maybe Comma r); Some ((x, e) :: fs, r)
        or do (fs, r) <- fields fuel (maybe Comma r'); Some ((x, EPath [x]) :: fs, r)
    | _ => at [!RBrace] of ts as r, Some ([], r) or None
    end
  end
with statements (fuel : nat) (ts : list tok) : option (list (expr * bool) * list tok) :=
  match fuel with
  | O => None
  | S fuel =>
    at [!RBrace] of ts as r, Some ([], r)
    or match eat [%Kuse] ts with
    | Some (TId t :: r) =>
        at [!PathSep; !Star; !Semi] of r as r', do (ss, r) <- statements fuel r'; Some ((EUse t, true) :: ss, r)
        or let (_, r) := until true (is_pun Semi) 0 r in do r <- after Semi r; statements fuel r
    | _ =>
      at [%Klet] of ts as r,
        do (p, r) <- pattern fuel r;
        let (t, r) := (at [!Colon] of r as r', until true (fun t => is_pun Assign t || is_pun Semi t) 0 r' or ([], r)) in
        do (e, r) <- (at [!Assign] of r as r', do (e, r) <- expression fuel true 1 r'; Some (Some e, r) or Some (None, r));
        do r <- after Semi r; do (ss, r) <- statements fuel r; Some ((ELet p (type_of t) e, true) :: ss, r)
      or
        let block := match ts with t :: _ => is_kw Kif t || is_kw Kfor t || is_kw Kmatch t | [] => false end in
        do (e, r) <- (if block then primary fuel true ts else expression fuel true 1 ts);
        at [!Semi] of r as r', do (ss, r) <- statements fuel r'; Some ((e, true) :: ss, r)
        or at [!RBrace] of r as r', Some ([(e, false)], r')
        or if block then do (ss, r) <- statements fuel r; Some ((e, true) :: ss, r) else None
    end
  end.

(** ** Items *)
(** Parameters: names and types; the flag tells of [&mut]. *)
Fixpoint parameters (fuel : nat) (ts : list tok) : list (string * ty * bool) :=
  match fuel with
  | O => []
  | S fuel =>
    match ts with
    | [] => []
    | TPun Comma :: r => parameters fuel r
    | TPun Amp :: TKw Kmut :: TId _ :: r => ("self", TyOther, true) :: parameters fuel r
    | TPun Amp :: TId _ :: r => ("self", TyOther, false) :: parameters fuel r
    | TId x :: TPun Colon :: r =>
        let (t, r) := until true (is_pun Comma) 0 r in
        (x, type_of t, match eat [!Amp; %Kmut] t with Some _ => true | None => false end) :: parameters fuel r
    | TId _ :: r => ("self", TyOther, false) :: parameters fuel r
    | _ :: r => parameters fuel r
    end
  end.
(** The places of the flags that are set *)
Fixpoint places (i : nat) (l : list bool) : list nat :=
  match l with
  | [] => []
  | b :: l' => if b then i :: places (S i) l' else places (S i) l'
  end.
(** Without [pub], [pub(crate)] and the like *)
Definition visible (ts : list tok) : list tok :=
  match ts with
  | TKw Kpub :: TPun LPar :: r => match group r with Some (_, r) => r | None => ts end
  | TKw Kpub :: r => r
  | _ => ts
  end.
Definition qualified (t name : string) : string := if t =? "" then name else t ++ "::" ++ name.
(** The fields of a struct or variant *)
Fixpoint field_types (fuel : nat) (ts : list tok) : list (string * ty) :=
  match fuel with
  | O => []
  | S fuel =>
    match visible ts with
    | TId x :: TPun Colon :: r =>
        let (t, r) := until true (is_pun Comma) 0 r in (x, type_of t) :: field_types fuel (maybe Comma r)
    | _ => []
    end
  end.
Definition tuple_type (ts : list tok) : list (string * ty) := [("0", type_of (visible ts))].
Fixpoint variants (fuel : nat) (t : string) (ts : list tok) : list item :=
  match fuel with
  | O => []
  | S fuel =>
    match ts with
    | TId v :: TPun LBrace :: r =>
        match group r with
        | Some (fs, r) => IDecl (qualified t v, field_types (List.length fs) fs) :: variants fuel t (maybe Comma r)
        | None => []
        end
    | TId v :: TPun LPar :: r =>
        match group r with
        | Some (fs, r) => IDecl (qualified t v, tuple_type fs) :: variants fuel t (maybe Comma r)
        | None => []
        end
    | TId v :: r => IDecl (qualified t v, []) :: variants fuel t (maybe Comma r)
    | _ => []
    end
  end.

(** Generic parameters, if any: is one of them a constant? *)
Definition generic_parameters (ts : list tok) : option (bool * list tok) :=
  match ts with
  | TPun LAngle :: r => do (g, r) <- generics r; Some (existsb (is_kw Kconst) g, r)
  | _ => Some (false, ts)
  end.
(** A function after [fn], inside an [impl] block for [t]; [n]: the block has a constant parameter. *)
Definition function (fuel : nat) (t : string) (n : bool) (ts : list tok) : option (fundef * list tok) :=
  match ts with
  | TId name :: r =>
      do (m, r) <- generic_parameters r;
      do r <- after LPar r; do (ps, r) <- group r;
      let params := parameters (S (List.length ps)) ps in
      do out <- (match places 0 (map snd params) with [] => Some None | [i] => Some (Some i) | _ => None end);
      let (res, r) := match r with TPun Arrow :: r => until true (fun t => is_pun LBrace t || is_kw Kwhere t) 0 r | _ => ([], r) end in
      let (_, r) := until true (is_pun LBrace) 0 r in
      do r <- after LBrace r; do (ss, r) <- statements fuel r;
      Some (mk_fundef (qualified t name) t false (map fst params) out (n || m) (type_of res) (EBlock ss), r)
  | _ => None
  end.
(** The type an [impl] is for, from the tokens between [impl] and its block. *)
Fixpoint impl_type (ts : list tok) : list tok :=
  match ts with
  | [] => []
  | TKw Kfor :: r => match r with TPun LAngle :: _ => impl_type r | _ => r end
  | _ :: r => impl_type r
  end.
Fixpoint path_end (ts : list tok) : string :=
  match ts with
  | TId _ :: TPun PathSep :: r => path_end r
  | TId a :: _ => a
  | _ => ""
  end.
Definition impl_for (ts : list tok) : string :=
  match impl_type ts with
  | [] => path_end (match ts with TPun LAngle :: r => match generics r with Some (_, r) => r | None => [] end | _ => ts end)
  | r => path_end r
  end.

Fixpoint items (fuel : nat) (t : string) (n : bool) (ts : list tok) : option (list item) :=
  match fuel with
  | O => None
  | S fuel =>
    match visible ts with
    | [] => Some []
    | TPun Hash :: TPun LBrack :: r => do (_, r) <- group r; items fuel t n r
    | TKw Kuse :: r | TKw Ktype :: r => let (_, r) := until true (is_pun Semi) 0 r in items fuel t n (tl r)
    | TKw Kmod :: TId _ :: TPun Semi :: r => items fuel t n r
    | TKw Kmod :: TId _ :: TPun LBrace :: r =>
        do (b, r) <- group r; do a <- items fuel t n b; do l <- items fuel t n r; Some (a ++ l)%list
    | TKw Kconst :: TKw Kfn :: r | TKw Kfn :: r =>
        do (f, r) <- function fuel t n r; do l <- items fuel t n r; Some (IFun f :: l)
    | TKw Kconst :: TId x :: TPun Colon :: r =>
        let (c, r) := until true (is_pun Assign) 0 r in
        do r <- after Assign r; do (e, r) <- expression fuel true 1 r; do r <- after Semi r;
        do l <- items fuel t n r; Some (IFun (mk_fundef (qualified t x) t true [] None false (type_of c) e) :: l)
    | TKw Kstruct :: TId s :: r =>
        do (m, r) <- generic_parameters r;
        match r with
        | TPun LPar :: r => do (f, r) <- group r; do l <- items fuel t n (tl r); Some (IDecl (s, tuple_type f) :: l)
        | TPun LBrace :: r =>
            do (f, r) <- group r; do l <- items fuel t n r; 
            Some (IDecl (s, field_types (List.length f) f ++ if m then [("N", TyInt Usize)] else [])%list :: l)
        | _ => None
        end
    | TKw Kenum :: TId s :: TPun LBrace :: r =>
        do (v, r) <- group r; do l <- items fuel t n r; Some (variants (List.length v) s v ++ l)%list
    | TKw Ktrait :: r =>
        let (_, r) := until true (is_pun LBrace) 0 r in do r <- after LBrace r; do (_, r) <- group r; items fuel t n r
    | TKw Kimpl :: r =>                                               (* [Debug] is left out *)
        let (h, r) := until true (is_pun LBrace) 0 r in
        do r <- after LBrace r; do (b, r) <- group r;
        if existsb (is_id "Debug") h then items fuel t n r else
        do a <- items fuel (impl_for h) (existsb (is_kw Kconst) h) b; do l <- items fuel t n r; Some (a ++ l)%list
    | _ => None
    end
  end.
Definition read_items (s : string) : option (list item) :=
  match tokens s with Some ts => items (S (List.length ts)) "" false ts | None => None end.
