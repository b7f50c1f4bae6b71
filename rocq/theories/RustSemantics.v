(** RustSemantics.v: what a program of RustSyntax.v does when it is run: an interpreter.  Nothing here
    models a particular function of /repo.

    Integers keep their type; a literal without suffix ([Open]) takes the type of what it meets, and what
    fits no type certainly is [Stuck].  Plain arithmetic panics on overflow (debug semantics, as in Base.v).
    References are values: nothing in the texts read here depends on sharing, and a method taking
    [&mut self] gives the new [self] back to the place it was called on.  Iterators over ranges, slices and
    vectors are the lists of their items (the closures given to them only read); a [for] over any other
    value calls the [next] of its type.  Whatever is not understood is [Stuck], never guessed. *)
From Coq Require Import String Ascii DecimalString.
From Verif Require Import Base RustSyntax.
Local Open Scope string_scope.
Local Open Scope list_scope.
Local Open Scope bool_scope.

(** ** Values *)
Inductive value :=
| VInt (t : ity) (z : Z)
| VBool (b : bool)
| VUnit
| VChr (c : N)
| VStr (s : list N)
| VCon (c : string) (fs : list (string * value))      (* [Type], [Type::Variant]; tuple fields are ["0"], .. *)
| VList (vs : list value)                             (* an array, slice, vector or tuple *)
| VInts (t : ity) (zs : list Z)                       (* the same, of integers of one type *)
| VMap (m : PositiveMap.t value)                      (* a hash map with i32 keys *)
| VFn (f : string)
| VClos (ps : list pat) (e : expr) (env : list (string * value)).

(** Variables, the innermost first.  Three entries are no variables: [Self] (the type of the [impl] block),
    [use] (the type whose variants are in scope) and [|] (the border of a closure). *)
Definition env := list (string * value).

Fixpoint lookup (x : string) (r : env) : option value :=
  match r with
  | [] => None
  | (y, v) :: r' => if x =? y then Some v else lookup x r'
  end.
(** A closure may not assign what lies outside of it. *)
Fixpoint store (x : string) (v : value) (r : env) : option env :=
  match r with
  | [] => None
  | (y, w) :: r' =>
      if y =? "|" then None
      else if x =? y then Some ((y, v) :: r')
      else match store x v r' with Some r'' => Some ((y, w) :: r'') | None => None end
  end.
(** Leaving a block: the variables declared in it go. *)
Fixpoint size (r : env) : nat := match r with [] => O | _ :: r' => S (size r') end.
Fixpoint drop (n : nat) (r : env) : env :=
  match n, r with S n', _ :: r' => drop n' r' | _, _ => r end.
Definition leave (outer r : env) : env := drop (size r - size outer) r.

(** ** Results *)
Inductive res (A : Type) :=
| Val (a : A)
| Panics (p : panic)
| NoFuel
| Stuck.
Arguments Val {A} a.
Arguments Panics {A} p.
Arguments NoFuel {A}.
Arguments Stuck {A}.
Definition bnd {A B} (m : res A) (f : A -> res B) : res B :=
  match m with
  | Val a => f a
  | Panics p => Panics p
  | NoFuel => NoFuel
  | Stuck => Stuck
  end.
(** How a piece of code ends: it goes on with a value, breaks the loop, or returns from the function. *)
Inductive flow := Go (v : value) | Brk | Back (v : value).
Definition ans := res (flow * env).
Definition some {A} (o : option A) (k : A -> ans) : ans := match o with Some a => k a | None => Stuck end.

(** ** Programs *)
(** What a caller needs to know of a function: what it takes by [&mut], and whether it has a parameter [N]. *)
Record program := mk_program {
  bodies : list (string * fundef);
  heads : list (string * (option nat * bool));
  constants : list (string * value);
  decls : list decl
}.
Fixpoint assoc {A} (x : string) (l : list (string * A)) : option A :=
  match l with
  | [] => None
  | (y, a) :: l' => if x =? y then Some a else assoc x l'
  end.
(** The type of a constructor [Type::Variant] *)
Fixpoint owner (c : string) : string :=
  match c with
  | EmptyString => EmptyString
  | String a c' => if prefix "::" c then EmptyString else String a (owner c')
  end.
Fixpoint position (c : string) (l : list decl) : Z :=
  match l with
  | [] => 0%Z
  | (d, _) :: l' => if c =? d then 0%Z else (1 + position c l')%Z
  end.

(** What lies outside of one function body: calling a function (with the constant [N], if it has one; the
    result and what has become of the argument taken by [&mut]), applying a closure, running a loop. *)
Record outside := mk_outside {
  call : string -> option value -> list value -> res (value * value);
  apply : value -> list value -> res value;
  loop : pat -> expr -> value -> env -> ans
}.

(** ** Integers *)
Definition ity_eqb (a b : ity) : bool :=
  match a, b with
  | I16, I16 | I32, I32 | U8, U8 | U32, U32 | U64, U64 | Usize, Usize | Open, Open => true
  | _, _ => false
  end.
Definition bits (t : ity) : Z :=
  match t with I16 => 16 | I32 | U32 => 32 | U8 => 8 | U64 | Usize | Open => 64 end%Z.
Definition signed (t : ity) : bool := match t with I16 | I32 => true | _ => false end.
(** Is the number one of the type?  (For [Open]: of every type.) *)
Definition in_ty (t : ity) (z : Z) : bool :=
  match t with
  | I16 => in_i16 z
  | I32 => in_i32 z
  | U8 => in_u8 z
  | U32 => (0 <=? z)%Z && (z <? 4294967296)%Z
  | U64 | Usize => in_u64 z
  | Open => (0 <=? z)%Z && (z <? 128)%Z
  end.
Definition wrap (t : ity) (z : Z) : Z :=
  match t with
  | I16 => wrap_i16 z
  | I32 => wrap_i32 z
  | U8 => z mod 256
  | U32 => z mod 4294967296
  | U64 | Usize => z mod 18446744073709551616
  | Open => z
  end%Z.
Definition in_width (t : ity) (n : Z) : bool := ((0 <=? n) && (n <? bits t))%Z.
Definition trailing_zeros (t : ity) (z : Z) : Z :=
  match z with Z0 => bits t | Zpos p | Zneg p => pos_trailing_zeros p end.

Definition whole {A} (t : ity) (z : Z) (k : value -> res A) : res A :=
  if in_ty t z then k (VInt t z) else match t with Open => Stuck | _ => Panics ArithmeticOverflow end.
(** Two integers of one type. *)
Definition int_op (op : binop) (t : ity) (a b : Z) (k : value -> ans) : ans :=
  match op with
  | Add => whole t (a + b) k
  | Sub => whole t (a - b) k
  | Mul => whole t (a * b) k
  | BitAnd => k (VInt t (Z.land a b))
  | BitOr => k (VInt t (Z.lor a b))
  | BitXor => k (VInt t (Z.lxor a b))
  | Equal => k (VBool (a =? b)%Z)
  | Differ => k (VBool (negb (a =? b)%Z))
  | Less => k (VBool (a <? b)%Z)
  | Greater => k (VBool (b <? a)%Z)
  | AtMost => k (VBool (a <=? b)%Z)
  | AtLeast => k (VBool (b <=? a)%Z)
  | Shl | Shr => Stuck
  end.
(** Bringing two integers to one type. *)
Definition agree {A} (t : ity) (a : Z) (u : ity) (b : Z) (k : ity -> res A) : res A :=
  match t, u with
  | Open, Open => k Open
  | Open, _ => if in_ty u a then k u else Stuck
  | _, Open => if in_ty t b then k t else Stuck
  | _, _ => if ity_eqb t u then k t else Stuck
  end.
(** [a << n], [a >> n]; a literal is shifted exactly, and not to the right. *)
Definition shift (op : binop) (t : ity) (a : Z) (n : Z) (k : value -> ans) : ans :=
  match op, t with
  | Shl, Open => if in_width Open n then k (VInt Open (Z.shiftl a n)) else Stuck
  | Shl, _ => if in_width t n then k (VInt t (wrap t (Z.shiftl a n))) else Panics ArithmeticOverflow
  | Shr, Open => Stuck
  | Shr, _ => if in_width t n then k (VInt t (Z.shiftr a n)) else Panics ArithmeticOverflow
  | _, _ => Stuck
  end.

(** A value where a type is declared. *)
Fixpoint ints_of (t : ity) (vs : list value) : option (list Z) :=
  match vs with
  | [] => Some []
  | VInt u z :: vs' =>
      if ity_eqb u t || (ity_eqb u Open && in_ty t z)
      then match ints_of t vs' with Some zs => Some (z :: zs) | None => None end else None
  | _ => None
  end.
Definition coerce {A} (t : ty) (v : value) (k : value -> res A) : res A :=
  match t, v with
  | TyInt t, VInt Open z => if in_ty t z then k (VInt t z) else Stuck
  | TyInt t, VInt u z => if ity_eqb t u then k v else Stuck
  | TyInt _, _ => Stuck
  | TyInts t, VInts Open zs => if forallb (in_ty t) zs then k (VInts t zs) else Stuck
  | TyInts t, VInts u zs => if ity_eqb t u then k v else Stuck
  | TyInts t, VList vs => match ints_of t vs with Some zs => k (VInts t zs) | None => Stuck end
  | TyInts _, _ => Stuck
  | TyName _, _ | TyResult, _ | TyOther, _ => k v
  end.

(** ** Lists *)
Definition ints (t : ity) (zs : list Z) : list value := map (VInt t) zs.
Definition items_of (v : value) : option (list value) :=
  match v with VList vs => Some vs | VInts t zs => Some (ints t zs) | _ => None end.
(** The numbers from [a] up to [b] *)
Definition range (a b : Z) : list Z := map (fun i => a + Z.of_nat i)%Z (seq 0 (Z.to_nat (b - a))).
Fixpoint pick (n : nat) (vs : list value) : option value :=
  match n, vs with O, v :: _ => Some v | S n', _ :: vs' => pick n' vs' | _, _ => None end.
Definition position_of (z : Z) : nat := match z with Zpos p => Pos.to_nat p | _ => O end.
Definition replace (zs : list Z) (n : nat) (z : Z) : list Z := firstn n zs ++ z :: skipn (S n) zs.
(** Numbering arguments. *)
Definition digit (n : nat) : string := String (ascii_of_nat (48 + n)) EmptyString.
Fixpoint numbered (n : nat) (vs : list value) : list (string * value) :=
  match vs with [] => [] | v :: vs' => (digit n, v) :: numbered (S n) vs' end.

Definition element {A} (v i : value) (k : value -> res A) : res A :=
  match v, i with
  | VList vs, VInt Open z => match pick (position_of z) vs with Some w => k w | None => Panics IndexOutOfBounds end
  | VList vs, VInt Usize z => match nth_error vs (Z.to_nat z) with Some w => k w | None => Panics IndexOutOfBounds end
  | VInts t zs, VInt Open z | VInts t zs, VInt Usize z =>
      match nth_error zs (Z.to_nat z) with Some w => k (VInt t w) | None => Panics IndexOutOfBounds end
  | VMap m, VInt I32 z => match PositiveMap.find (zkey z) m with Some w => k w | None => Panics MissingKey end
  | _, _ => Stuck
  end.

Definition none : value := VCon "None" [].
Definition some_value (v : value) : value := VCon "Some" [("0", v)].
Definition ordering (o : comparison) : value :=
  VCon (match o with Lt => "Ordering::Less" | Eq => "Ordering::Equal" | Gt => "Ordering::Greater" end) [].
Definition comparison_of (v : value) : option comparison :=
  match v with
  | VCon c [] =>
      if c =? "Ordering::Less" then Some Lt else if c =? "Ordering::Equal" then Some Eq
      else if c =? "Ordering::Greater" then Some Gt else None
  | _ => None
  end.

(** ** One function body *)
Section Body.
Variable P : program.
Variable o : outside.

Definition self_type (r : env) : string := match lookup "Self" r with Some (VFn t) => t | _ => "" end.
(** Modules are dropped from paths: the names in the texts read here are unique without them. *)
Fixpoint full_name (p : list string) (r : env) : string :=
  match p with
  | [] => ""
  | [x] => if x =? "Self" then self_type r else x
  | a :: ([b] as p') => if upper a then (if a =? "Self" then self_type r else a) ++ "::" ++ b else full_name p' r
  | _ :: p' => full_name p' r
  end.
Definition declared (c : string) : bool := match assoc c (decls P) with Some _ => true | None => false end.
Definition name_of (p : list string) (r : env) : string :=
  match p, lookup "use" r with
  | [x], Some (VFn t) => if declared (t ++ "::" ++ x) then t ++ "::" ++ x else full_name p r
  | _, _ => full_name p r
  end.

Definition result {A} (m : res A) (k : A -> ans) : ans := bnd m k.
Definition bool_of (v : value) (k : bool -> ans) : ans := match v with VBool b => k b | _ => Stuck end.

(** [==]: the type's own [eq] if it has one, otherwise the derived one. *)
Fixpoint equal (v w : value) (k : bool -> ans) {struct v} : ans :=
  match v, w with
  | VInt t a, VInt u b => agree t a u b (fun _ => k (a =? b)%Z)
  | VBool a, VBool b => k (Bool.eqb a b)
  | VChr a, VChr b => k (N.eqb a b)
  | VCon c fs, VCon d gs =>
      match assoc (owner c ++ "::eq") (heads P) with
      | Some _ => result (call o (owner c ++ "::eq") None [v; w]) (fun p => bool_of (fst p) k)
      | None =>
          if c =? d then
            (fix all fs gs :=
               match fs, gs with
               | [], [] => k true
               | (_, x) :: fs', (_, y) :: gs' => equal x y (fun b => if b then all fs' gs' else k false)
               | _, _ => Stuck
               end) fs gs
          else k false
      end
  | _, _ => Stuck
  end.
(** [partial_cmp], likewise; derived: first by the position of the variant, then by the fields in order. *)
Fixpoint compare (v w : value) (k : comparison -> ans) {struct v} : ans :=
  match v, w with
  | VInt t a, VInt u b =>
      agree t a u b (fun _ => if (a =? b)%Z then k Eq else if (a <? b)%Z then k Lt else k Gt)
  | VCon c fs, VCon d gs =>
      match assoc (owner c ++ "::partial_cmp") (heads P) with
      | Some _ =>
          result (call o (owner c ++ "::partial_cmp") None [v; w]) (fun p =>
            match fst p with
            | VCon s [(_, x)] => if s =? "Some" then some (comparison_of x) k else Stuck
            | _ => Stuck
            end)
      | None =>
          match Z.compare (position c (decls P)) (position d (decls P)) with
          | Eq =>
              (fix lex fs gs :=
                 match fs, gs with
                 | [], [] => k Eq
                 | (_, x) :: fs', (_, y) :: gs' =>
                     compare x y (fun s => match s with Eq => lex fs' gs' | s => k s end)
                 | _, _ => Stuck
                 end) fs gs
          | s => k s
          end
      end
  | _, _ => Stuck
  end.

Definition binary (op : binop) (v w : value) (k : value -> ans) : ans :=
  match op, v, w with
  | Shl, VInt t a, VInt _ n | Shr, VInt t a, VInt _ n => shift op t a n k
  | _, VInt t a, VInt u b => agree t a u b (fun t => int_op op t a b k)
  | Equal, _, _ => equal v w (fun b => k (VBool b))
  | Differ, _, _ => equal v w (fun b => k (VBool (negb b)))
  | Less, VCon _ _, _ => compare v w (fun s => k (VBool (match s with Lt => true | _ => false end)))
  | Greater, VCon _ _, _ => compare v w (fun s => k (VBool (match s with Gt => true | _ => false end)))
  | AtMost, VCon _ _, _ => compare v w (fun s => k (VBool (match s with Gt => false | _ => true end)))
  | AtLeast, VCon _ _, _ => compare v w (fun s => k (VBool (match s with Lt => false | _ => true end)))
  | _, _, _ => Stuck
  end.

(** Does the value match the pattern?  The variables it binds are added. *)
Fixpoint matching (p : pat) (v : value) (r : env) (yes : env -> ans) (no : unit -> ans) {struct p} : ans :=
  match p with
  | PWild => yes r
  | PVar x => yes ((x, v) :: r)
  | PNum n => match v with
              | VInt t z => if in_ty t n then if (z =? n)%Z then yes r else no tt else Stuck
              | _ => Stuck
              end
  | PChr c => match v with VChr d => if N.eqb d c then yes r else no tt | _ => Stuck end
  | PPath q =>
      match assoc (full_name q r) (constants P) with
      | Some w => equal v w (fun b => if b then yes r else no tt)
      | None => match v with VCon c _ => if name_of q r =? c then yes r else no tt | _ => Stuck end
      end
  | PTup q ps =>
      let each := (fix each ps (vs : list value) r :=
                     match ps, vs with
                     | [], [] => yes r
                     | p :: ps', v :: vs' => matching p v r (fun r => each ps' vs' r) no
                     | _, _ => Stuck
                     end) in
      match q, v with
      | [], VList vs => each ps vs r
      | _ :: _, VCon c fs => if name_of q r =? c then each ps (List.map snd fs) r else no tt
      | _, _ => Stuck
      end
  | PRec q fps =>
      match v with
      | VCon c fs =>
          if name_of q r =? c then
            (fix each fps r :=
               match fps with
               | [] => yes r
               | (f, p) :: fps' => some (lookup f fs) (fun w => matching p w r (fun r => each fps' r) no)
               end) fps r
          else no tt
      | _ => Stuck
      end
  | PArr ps =>
      some (items_of v) (fun vs =>
        (fix each ps (vs : list value) r :=
           match ps, vs with
           | [], [] => yes r
           | p :: ps', v :: vs' => matching p v r (fun r => each ps' vs' r) no
           | _, _ => no tt
           end) ps vs r)
  | POr ps =>
      (fix any ps :=
         match ps with
         | [] => no tt
         | p :: ps' => matching p v r yes (fun _ => any ps')
         end) ps
  end.

(** Storing into a place: a variable, a field of one, an element of either. *)
Definition put_list (v i w : value) (k : value -> ans) : ans :=
  match v, i, w with
  | VInts t zs, VInt Usize z, VInt u x =>
      if (z <? Z.of_nat (length zs))%Z
      then coerce (TyInt t) w (fun w => match w with VInt _ x => k (VInts t (replace zs (Z.to_nat z) x)) | _ => Stuck end)
      else Panics IndexOutOfBounds
  | _, _, _ => Stuck
  end.
Definition put (l : expr) (v : value) (r : env) (k : env -> ans) : ans :=
  match l with
  | EPath [x] => some (store x v r) k
  | EField (EPath [x]) f =>
      match lookup x r with
      | Some (VCon c fs) => some (store f v fs) (fun fs' => some (store x (VCon c fs') r) k)
      | _ => Stuck
      end
  | _ => Stuck
  end.

(** Closures over lists *)
Fixpoint map_values (f : value) (vs : list value) : res (list value) :=
  match vs with
  | [] => Val []
  | v :: vs' => bnd (apply o f [v]) (fun w => bnd (map_values f vs') (fun ws => Val (w :: ws)))
  end.
Fixpoint filter_ints (f : value) (t : ity) (zs : list Z) : res (list Z) :=
  match zs with
  | [] => Val []
  | z :: zs' =>
      bnd (apply o f [VInt t z]) (fun w =>
      match w with
      | VBool b => bnd (filter_ints f t zs') (fun r => Val (if b then z :: r else r))
      | _ => Stuck
      end)
  end.
Fixpoint fold_values (f : value) (vs : list value) (acc : value) : res value :=
  match vs with
  | [] => Val acc
  | v :: vs' => bnd (apply o f [acc; v]) (fun w => fold_values f vs' w)
  end.

Fixpoint filter_map_values (f : value) (vs : list value) : res (list value) :=
  match vs with
  | [] => Val []
  | v :: vs' =>
      bnd (apply o f [v]) (fun w =>
      match w with
      | VCon c [(_, x)] => if c =? "Some" then bnd (filter_map_values f vs') (fun ws => Val (x :: ws)) else Stuck
      | VCon c [] => if c =? "None" then filter_map_values f vs' else Stuck
      | _ => Stuck
      end)
  end.
(** [counts]: each item with the number of its occurrences, in the order of the first ones.  (The hash map has some other
    order; what is stated does not depend on it.) *)
Fixpoint count_one (v : value) (l : list (value * Z)) (k : list (value * Z) -> ans) : ans :=
  match l with
  | [] => k [(v, 1%Z)]
  | (w, n) :: l' => equal v w (fun b => if b then k ((w, (n + 1)%Z) :: l') else count_one v l' (fun l' => k ((w, n) :: l')))
  end.
Definition entry (x : value * Z) : value := VList [fst x; VInt Usize (snd x)].
Fixpoint count_all (vs : list value) (l : list (value * Z)) (k : list value -> ans) : ans :=
  match vs with
  | [] => k (map entry l)
  | v :: vs' => count_one v l (fun l => count_all vs' l k)
  end.
(** [join] of strings *)
Fixpoint joined (sep : list N) (vs : list value) : option (list N) :=
  match vs with
  | [] => Some []
  | [VStr s] => Some s
  | VStr s :: vs' => match joined sep vs' with Some r => Some (s ++ sep ++ r) | None => None end
  | _ => None
  end.

(** [collect] into a [Result]: the first [Err] among the items, or all that the [Ok]s hold *)
Fixpoint collected (vs acc : list value) : option value :=
  match vs with
  | [] => Some (VCon "Ok" [("0", VList (rev acc))])
  | VCon c [(_, x)] as v :: vs' => if c =? "Ok" then collected vs' (x :: acc) else if c =? "Err" then Some v else None
  | _ => None
  end.
(** The functions [from_str] of the texts; [parse] means the only one. *)
Definition from_strs : list string :=
  filter (fun n => owner n ++ "::from_str" =? n) (map fst (heads P)).
(** [hash]: a hasher is the list of the integers it was fed.  The type's own [hash] if it has one, otherwise, for a
    struct, the derived one. *)
Fixpoint fed (v : value) (st : list value) (k : list value -> ans) {struct v} : ans :=
  match v with
  | VInt Open _ => Stuck
  | VInt _ _ => k (st ++ [v])
  | VCon c fs =>
      match assoc (owner c ++ "::hash") (heads P) with
      | Some _ => result (call o (owner c ++ "::hash") None [v; VList st]) (fun p => match snd p with VList st' => k st' | _ => Stuck end)
      | None =>
          if owner c =? c then
            (fix all fs st := match fs with [] => k st | (_, x) :: fs' => fed x st (fun st => all fs' st) end) fs st
          else Stuck
      end
  | _ => Stuck
  end.
(** [shuffle]: a generator is the list of its answers; from the last place down to the second, each place is exchanged
    with the answer to how many places there are up to it. *)
Definition exchange (vs : list value) (i j : nat) : list value :=
  map (fun n => nth (if Nat.eqb n i then j else if Nat.eqb n j then i else n) vs VUnit) (seq 0 (length vs)).
Fixpoint shuffle (n : nat) (vs : list value) (answers : list Z) : option (list value * list Z) :=
  match n with
  | O | S O => Some (vs, answers)
  | S i =>
      match answers with
      | z :: answers' =>
          if ((0 <=? z) && (z <? Z.of_nat n))%Z then shuffle i (exchange vs i (Z.to_nat z)) answers' else None
      | [] => None
      end
  end.

(** Methods of the standard library.  [k] is given the result and what the receiver has become. *)
Definition wrapping (t : ity) (z : Z) (k : value -> option value -> ans) : ans :=
  match t with
  | Open => if in_ty Open z then k (VInt Open z) None else Stuck
  | _ => k (VInt t (wrap t z)) None
  end.
Fixpoint wrapping_pow (t : ity) (z : Z) (n : nat) : Z :=
  match n with O => 1%Z | S n' => wrap t (wrapping_pow t z n' * z) end.
Definition builtin (m : string) (v : value) (args : list value) (k : value -> option value -> ans) : ans :=
  match v, args with
  | VInt t a, [VInt u b] =>
      if m =? "wrapping_add" then agree t a u b (fun t => wrapping t (a + b) k)
      else if m =? "wrapping_sub" then agree t a u b (fun t => wrapping t (a - b) k)
      else if m =? "wrapping_mul" then agree t a u b (fun t => wrapping t (a * b) k)
      else if m =? "wrapping_pow" then
        match t, u with
        | Open, _ => Stuck
        | _, Open => k (VInt t (wrapping_pow t a (position_of b))) None
        | _, _ => Stuck
        end
      else Stuck
  | VInt t a, [] =>
      if m =? "wrapping_neg" then match t with Open => Stuck | _ => k (VInt t (wrap t (- a))) None end
      else if m =? "trailing_zeros" then match t with Open => Stuck | _ => k (VInt U32 (trailing_zeros t a)) None end
      else Stuck
  | VCon c fs, [f] =>
      if m =? "map_err" then
        match fs with
        | [(_, x)] =>
            if c =? "Ok" then k v None
            else if c =? "Err" then result (apply o f [x]) (fun y => k (VCon "Err" [("0", y)]) None)
            else Stuck
        | _ => Stuck
        end
      else if m =? "partial_cmp" then compare v f (fun s => k (some_value (ordering s)) None)
      else if m =? "cmp" then compare v f (fun s => k (ordering s) None)
      else if m =? "hash" then match f with VList st => fed v st (fun st => k VUnit (Some (VList st))) | _ => Stuck end
      else Stuck
  | VStr s, [] =>
      if (m =? "to_string") || (m =? "as_ref") then k v None
      else if m =? "chars" then k (VList (map VChr s)) None
      else if m =? "len" then k (VInt Usize (Z.of_N (str_len s))) None
      else if m =? "parse" then
        match from_strs with [f] => result (call o f None [v]) (fun p => k (fst p) None) | _ => Stuck end
      else Stuck
  | VChr c, [] => if m =? "to_string" then k (VStr [c]) None else Stuck
  | VStr s, [VChr c] =>
      if m =? "push" then k VUnit (Some (VStr (s ++ [c])))
      else if m =? "write_char" then k (VCon "Ok" [("0", VUnit)]) (Some (VStr (s ++ [c])))
      else Stuck
  | VList vs, [] =>
      if m =? "len" then k (VInt Usize (Z.of_nat (length vs))) None
      else if m =? "rev" then k (VList (rev vs)) None
      else if (m =? "into_iter") || (m =? "iter") || (m =? "collect") || (m =? "as_ref") || (m =? "to_vec") then k v None
      else if m =? "next" then
        match vs with [] => k none None | w :: vs' => k (some_value w) (Some (VList vs')) end
      else if m =? "next_back" then
        match rev vs with [] => k none None | w :: vs' => k (some_value w) (Some (VList (rev vs'))) end
      else if m =? "size_hint" then
        k (VList [VInt Usize (Z.of_nat (length vs)); some_value (VInt Usize (Z.of_nat (length vs)))]) None
      else if m =? "collect -> Result" then some (collected vs []) (fun w => k w None)
      else if m =? "counts" then count_all vs [] (fun l => k (VList l) None)
      else Stuck
  | VInts t zs, [] =>
      if m =? "len" then k (VInt Usize (Z.of_nat (length zs))) None
      else if m =? "rev" then k (VInts t (rev zs)) None
      else if (m =? "into_iter") || (m =? "iter") || (m =? "collect") || (m =? "as_ref") || (m =? "to_vec") then k v None
      else Stuck
  | VList vs, [w] =>
      if m =? "push" then k VUnit (Some (VList (vs ++ [w])))
      else if m =? "map" then result (map_values w vs) (fun ws => k (VList ws) None)
      else if m =? "filter_map" then result (filter_map_values w vs) (fun ws => k (VList ws) None)
      else if m =? "join" then match w with VStr sep => some (joined sep vs) (fun s => k (VStr s) None) | _ => Stuck end
      else if m =? "cartesian_product" then
        match w with
        | VList ws => k (VList (flat_map (fun v => map (fun w => VList [v; w]) ws) vs)) None
        | _ => Stuck
        end
      else Stuck
  | VInts t zs, [w] =>
      if m =? "map" then result (map_values w (ints t zs)) (fun ws => k (VList ws) None)
      else if m =? "filter" then result (filter_ints w t zs) (fun ws => k (VInts t ws) None)
      else Stuck
  | VList vs, [acc; f] => if m =? "fold" then result (fold_values f vs acc) (fun w => k w None) else Stuck
  | VMap h, [VInt I32 z; w] => if m =? "insert" then k VUnit (Some (VMap (PositiveMap.add (zkey z) w h))) else Stuck
  | _, _ => Stuck
  end.
(** Functions of the standard library. *)
Definition builtin_fn (f : string) (args : list value) (r : env) (k : value -> ans) (other : unit -> ans) : ans :=
  if f =? "FxHashMap::with_capacity_and_hasher" then k (VMap (PositiveMap.empty value))
  else if f =? "Vec::with_capacity" then k (VList [])
  else if f =? "String::with_capacity" then k (VStr [])
  else if f =? "from_fn" then
    match args, lookup "N" r with
    | [g], Some (VInt Usize n) => result (map_values g (ints Usize (range 0 n))) (fun vs => k (VList vs))
    | _, _ => Stuck
    end
  else other tt.

(** The fields of a struct literal in the order in which they are declared. *)
Fixpoint arrange (ds : list (string * ty)) (given : list (string * value)) (r : env)
    (k : list (string * value) -> ans) : ans :=
  match ds with
  | [] => k []
  | (f, t) :: ds' =>
      some (match assoc f given with Some v => Some v | None => if f =? "N" then lookup "N" r else None end) (fun v =>
        coerce t v (fun v => arrange ds' given r (fun l => k ((f, v) :: l))))
  end.
(** Constructors the texts do not declare *)
Definition foreign : list decl :=
  [("Ok", [("0", TyOther)]); ("Err", [("0", TyOther)]); ("Some", [("0", TyOther)]); ("None", []);
   ("Ordering::Less", []); ("Ordering::Equal", []); ("Ordering::Greater", []); ("FxBuildHasher", [])].
Definition construct (c : string) (given : list (string * value)) (r : env) (k : value -> ans) : ans :=
  match assoc c (decls P), assoc c foreign with
  | Some ds, _ | None, Some ds => arrange ds given r (fun fs => k (VCon c fs))
  | None, None => Stuck
  end.

(** Calling what a name stands for; [n]: the constant [N] given explicitly. *)
Definition invoke (f : string) (n : option value) (args : list value) (r : env) (k : value -> option value -> ans) : ans :=
  match assoc f (heads P) with
  | Some (m, c) =>
      result (call o f (if c then match n with Some _ => n | None => lookup "N" r end else None) args) (fun p =>
        k (fst p) (match m with Some _ => Some (snd p) | None => None end))
  | None => builtin_fn f args r (fun v => k v None)
              (fun _ => construct f (numbered 0 args) r (fun v => k v None))
  end.

Definition decimal (z : Z) : list N := lit (DecimalString.NilZero.string_of_uint (N.to_uint (Z.to_N z))).
(** [write!]: a formatter is the text written so far (a [String]: writing does not fail); its options are left out.
    The format string in pieces: what stands before, between and after the [{}]. *)
Fixpoint split_format (s : list N) : option (list (list N)) :=
  match s with
  | [] => Some [[]]
  | c :: s' =>
      if N.eqb c 123 then
        match s' with
        | d :: s'' => if N.eqb d 125 then match split_format s'' with Some l => Some ([] :: l) | None => None end else None
        | [] => None
        end
      else if N.eqb c 125 then None
      else match split_format s' with Some (p :: l) => Some ((c :: p) :: l) | _ => None end
  end.
Definition pieces (s : string) : option (list (list N)) := split_format (lit s).
Definition shown (v : value) (acc : list N) (k : list N -> ans) : ans :=
  match v with
  | VStr s => k (acc ++ s)
  | VChr c => k (acc ++ [c])
  | VInt Usize z => k (acc ++ decimal z)
  | VCon c _ =>
      result (call o (owner c ++ "::fmt") None [v; VStr acc]) (fun p =>
        match snd p with VStr acc' => k acc' | _ => Stuck end)
  | _ => Stuck
  end.
Fixpoint written (ps : list (list N)) (vs : list value) (acc : list N) (k : list N -> ans) : ans :=
  match ps, vs with
  | [p], [] => k (acc ++ p)
  | p :: ps', v :: vs' => shown v (acc ++ p) (fun acc => written ps' vs' acc k)
  | _, _ => Stuck
  end.

Fixpoint eval (e : expr) (r : env) (k : value -> env -> ans) {struct e} : ans :=
  let arguments := (fix arguments (es : list expr) (r : env) (k : list value -> env -> ans) : ans :=
                      match es with
                      | [] => k [] r
                      | e :: es' => eval e r (fun v r => arguments es' r (fun vs r => k (v :: vs) r))
                      end) in
  match e with
  | ENum t z => k (VInt t z) r
  | EBool b => k (VBool b) r
  | EStr s => k (VStr (lit s)) r
  | EChr c => k (VChr c) r
  | EPath p =>
      let global (_ : unit) := let n := name_of p r in
                    match assoc n (constants P) with
                    | Some v => k v r
                    | None => match assoc n (heads P) with Some _ => k (VFn n) r | None => construct n [] r (fun v => k v r) end
                    end in
      match p with
      | [x] => match lookup x r with Some v => k v r | None => global tt end
      | _ => global tt
      end
  | ETup [] => k VUnit r
  | ETup es | EArr es => arguments es r (fun vs r => k (VList vs) r)
  | ENot e =>
      eval e r (fun v r =>
        match v with
        | VBool b => k (VBool (negb b)) r
        | VInt t z => if signed t then k (VInt t (Z.lnot z)) r else Stuck
        | _ => Stuck
        end)
  | EBin op a b => eval a r (fun v r => eval b r (fun w r => binary op v w (fun x => k x r)))
  | EAnd a b => eval a r (fun v r => bool_of v (fun x => if x then eval b r k else k (VBool false) r))
  | EOr a b => eval a r (fun v r => bool_of v (fun x => if x then k (VBool true) r else eval b r k))
  | ERange a b =>
      eval a r (fun v r => eval b r (fun w r =>
        match v, w with
        | VInt t x, VInt u y => agree t x u y (fun t => k (VInts t (range x y)) r)
        | _, _ => Stuck
        end))
  | ECast e t =>
      eval e r (fun v r =>
        match v with
        | VInt Open z => if in_ty t z then k (VInt t z) r else Stuck
        | VInt _ z => k (VInt t (wrap t z)) r
        | _ => Stuck
        end)
  | EFn p targs es =>
      arguments es r (fun vs r =>
        invoke (name_of p r) (match targs with [z] => Some (VInt Usize z) | _ => None end) vs r (fun v s =>
          match s with Some _ => Stuck | None => k v r end))
  | EMeth e m es =>
      eval e r (fun v r => arguments es r (fun vs r =>
        let after p w s := match s with Some x => put p x r (fun r => k w r) | None => k w r end in
        match v with
        | VCon c fs =>
            match assoc (owner c ++ "::" ++ m) (heads P) with
            | Some h =>
                invoke (owner c ++ "::" ++ m) (lookup "N" fs) (v :: vs) r
                  (after (match fst h with Some (S i) => nth i es e | _ => e end))
            | None => builtin m v vs (after (if m =? "hash" then nth 0 es e else e))
            end
        | VList ws =>
            if m =? "shuffle" then
              match vs with
              | [VInts Usize zs] =>
                  some (shuffle (length ws) ws zs) (fun x =>
                    put e (VList (fst x)) r (fun r => put (nth 0 es e) (VInts Usize (snd x)) r (fun r => k VUnit r)))
              | _ => Stuck
              end
            else builtin m v vs (after e)
        | _ => builtin m v vs (after e)
        end))
  | EClos ps e => k (VClos ps e r) r
  | EField e f => eval e r (fun v r => match v with VCon _ fs => some (lookup f fs) (fun w => k w r) | _ => Stuck end)
  | EIndex e i => eval e r (fun v r => eval i r (fun j r => element v j (fun w => k w r)))
  | ERec p fs =>
      (fix given (fs : list (string * expr)) (r : env) (k : list (string * value) -> env -> ans) : ans :=
         match fs with
         | [] => k [] r
         | (f, e) :: fs' => eval e r (fun v r => given fs' r (fun l r => k ((f, v) :: l) r))
         end) fs r (fun l r => construct (name_of p r) l r (fun v => k v r))
  | EIf c a b =>
      eval c r (fun v r => bool_of v (fun x => if x then eval a r k else eval b r k))
  | EIfLet p e a b =>
      eval e r (fun v r => matching p v r (fun r' => eval a r' (fun w s => k w (leave r s))) (fun _ => eval b r k))
  | EMatch e arms =>
      eval e r (fun v r =>
        (fix first (arms : list (pat * option expr * expr)) : ans :=
           match arms with
           | [] => Stuck
           | (p, g, e) :: arms' =>
               matching p v r (fun r' =>
                 match g with
                 | None => eval e r' (fun w s => k w (leave r s))
                 | Some g =>
                     eval g r' (fun x r' => bool_of x (fun x =>
                       if x then eval e r' (fun w s => k w (leave r s)) else first arms'))
                 end) (fun _ => first arms')
           end) arms)
  | EMatches e p => eval e r (fun v r => matching p v r (fun _ => k (VBool true) r) (fun _ => k (VBool false) r))
  | EBlock ss =>
      (fix block (ss : list (expr * bool)) (s : env) : ans :=
         match ss with
         | [] => k VUnit (leave r s)
         | (e, semi) :: ss' =>
             match semi, ss' with
             | false, [] => eval e s (fun v s => k v (leave r s))
             | _, _ => eval e s (fun _ s => block ss' s)
             end
         end) ss r
  | ELet p t (Some e) => eval e r (fun v r => coerce t v (fun v => matching p v r (fun r => k VUnit r) (fun _ => Stuck)))
  | ELet (PVar x) _ None => k VUnit ((x, VUnit) :: r)
  | ELet _ _ None => Stuck
  | EUse t => k VUnit (("use", VFn t) :: r)
  | EAssign l op e =>
      let write v r := match l with
                       | EIndex b i =>
                           eval b r (fun a r => eval i r (fun j r =>
                             put_list a j v (fun a => put b a r (fun r => k VUnit r))))
                       | _ => put l v r (fun r => k VUnit r)
                       end in
      eval e r (fun v r =>
        match op with
        | None => write v r
        | Some op => eval l r (fun old r => binary op old v (fun v => write v r))
        end)
  | EFor p e b =>
      eval e r (fun v r =>
        result (loop o p b v r) (fun x =>
          match x with
          | (Go _, r) => k VUnit r
          | (Brk, _) => Stuck
          | (Back v, r) => Val (Back v, r)
          end))
  | EReturn e => eval e r (fun v r => Val (Back v, r))
  | EBreak => Val (Brk, r)
  | ETry e =>
      eval e r (fun v r =>
        match v with
        | VCon c [(_, x)] =>
            if c =? "Ok" then k x r else if c =? "Err" then Val (Back v, r) else Stuck
        | _ => Stuck
        end)
  | EMac m es =>
      if m =? "unreachable" then Panics UnreachableReached
      else if m =? "debug_assert" then
        arguments es r (fun vs r =>
          match vs with
          | [VBool b] => if b then k VUnit r else Panics AssertFailed
          | _ => Stuck
          end)
      else if m =? "write" then
        match es with
        | f :: EStr s :: es' =>
            eval f r (fun v r => arguments es' r (fun vs r => some (pieces s) (fun ps =>
              match v with
              | VStr acc => written ps vs acc (fun acc => put f (VStr acc) r (fun r => k (VCon "Ok" [("0", VUnit)]) r))
              | _ => Stuck
              end)))
        | _ => Stuck
        end
      else Stuck
  end.

(** One round of a loop; the variables it declares go. *)
Definition round (p : pat) (b : expr) (v : value) (r : env) : ans :=
  bnd (matching p v r (fun s => eval b s (fun _ s => Val (Go VUnit, s))) (fun _ => Stuck)) (fun x => Val (fst x, leave r (snd x))).
Fixpoint each (p : pat) (b : expr) (vs : list value) (r : env) : ans :=
  match vs with
  | [] => Val (Go VUnit, r)
  | v :: vs' =>
      bnd (round p b v r) (fun x =>
        match x with
        | (Go _, r) => each p b vs' r
        | (Brk, r) => Val (Go VUnit, r)
        | (Back v, r) => Val (Back v, r)
        end)
  end.
(** A [for] over a value whose type has a [next]; [fuel] bounds the number of calls. *)
Fixpoint drain (fuel : nat) (p : pat) (b : expr) (c : string) (n : option value) (it : value) (r : env) : ans :=
  match fuel with
  | O => NoFuel
  | S fuel =>
      bnd (call o (c ++ "::next") n [it]) (fun x =>
        match fst x with
        | VCon s [] => if s =? "None" then Val (Go VUnit, r) else Stuck
        | VCon s [(_, v)] =>
            if s =? "Some" then
              bnd (round p b v r) (fun y =>
                match y with
                | (Go _, r) => drain fuel p b c n (snd x) r
                | (Brk, r) => Val (Go VUnit, r)
                | (Back v, r) => Val (Back v, r)
                end)
            else Stuck
        | _ => Stuck
        end)
  end.
Definition run_loop (fuel : nat) (p : pat) (b : expr) (v : value) (r : env) : ans :=
  match v with
  | VList vs => each p b vs r
  | VInts t zs => each p b (ints t zs) r
  | VCon c fs => drain fuel p b (owner c) (lookup "N" fs) v r
  | _ => Stuck
  end.

(** The value a body ends with *)
Definition finished {A} (a : ans) (k : value -> env -> res A) : res A :=
  bnd a (fun x => match x with (Go v, r) | (Back v, r) => k v r | (Brk, _) => Stuck end).
Fixpoint bind_params (ps : list (string * ty)) (vs : list value) (r : env) (k : env -> res (value * value)) :
    res (value * value) :=
  match ps, vs with
  | [], [] => k r
  | (x, t) :: ps', v :: vs' => coerce t v (fun v => bind_params ps' vs' ((x, v) :: r) k)
  | _, _ => Stuck
  end.
Definition run_body (f : fundef) (n : option value) (args : list value) : res (value * value) :=
  let r := match n with Some v => [("N", v); ("Self", VFn (fn_type f))] | None => [("Self", VFn (fn_type f))] end in
  bind_params (fn_params f) args r (fun r =>
    finished (eval (fn_body f) r (fun v s => Val (Go v, s))) (fun v s =>
      coerce (fn_result f) v (fun v =>
        Val (v, match fn_out f with
                | Some i => match lookup (fst (nth i (fn_params f) ("", TyOther))) (leave r s) with Some w => w | None => VUnit end
                | None => VUnit
                end)))).
Definition run_call (f : string) (n : option value) (args : list value) : res (value * value) :=
  match assoc f (bodies P) with Some d => run_body d n args | None => Stuck end.
Definition run_apply (f : value) (args : list value) : res value :=
  match f with
  | VFn g => bnd (call o g None args) (fun x => Val (fst x))
  | VClos ps e r =>
      finished
        ((fix bind ps (vs : list value) s :=
            match ps, vs with
            | [], [] => eval e s (fun v s => Val (Go v, s))
            | p :: ps', v :: vs' => matching p v s (fun s => bind ps' vs' s) (fun _ => Stuck)
            | _, _ => Stuck
            end) ps args (("|", VUnit) :: r))
        (fun v _ => Val v)
  | _ => Stuck
  end.
End Body.

(** ** Running: calls, closures and loops nest [depth] deep at most *)
Definition stuck : outside := mk_outside (fun _ _ _ => Stuck) (fun _ _ => Stuck) (fun _ _ _ _ => Stuck).
Fixpoint machine (P : program) (fuel depth : nat) : outside :=
  match depth with
  | O => stuck
  | S depth =>
      let o := machine P fuel depth in
      mk_outside (run_call P o) (run_apply P o) (run_loop P o fuel)
  end.

(** ** Loading: functions, what is declared, and the constants in their order *)
Definition fundefs (l : list item) : list fundef := flat_map (fun i => match i with IFun f => [f] | _ => [] end) l.
Definition declared_items (l : list item) : list decl := flat_map (fun i => match i with IDecl d => [d] | _ => [] end) l.
(** What only types tell.  A [try_into] in [let x = ..;] is the [try_from] of the type that a function called with [x]
    declares for it; a [collect] at the end of a function that returns a [Result] collects into one. *)
Section Types.
Variable fs : list fundef.
Variable self : string.
Definition function_name (p : list string) : string :=
  match p with [a; b] => (if a =? "Self" then self else a) ++ "::" ++ b | [b] => b | _ => "" end.
Fixpoint declared_for (x : string) (es : list expr) (ps : list (string * ty)) : option string :=
  match es, ps with
  | e :: es', (_, t) :: ps' =>
      match e, t with
      | EPath [y], TyName t => if x =? y then Some t else declared_for x es' ps'
      | _, _ => declared_for x es' ps'
      end
  | _, _ => None
  end.
Fixpoint wanted (x : string) (e : expr) : option string :=
  match e with
  | EFn p _ es =>
      match find (fun f => fn_name f =? function_name p) fs with
      | Some f => declared_for x es (fn_params f)
      | None => (fix first es := match es with [] => None | e :: es' => match wanted x e with Some t => Some t | None => first es' end end) es
      end
  | _ => None
  end.
Fixpoint into (t : string) (e : expr) : expr :=
  match e with
  | EMeth c m es => if m =? "try_into" then EFn [t; "try_from"] [] [c] else EMeth (into t c) m es
  | ETry e => ETry (into t e)
  | _ => e
  end.
Fixpoint typed (res : ty) (ss : list (expr * bool)) : list (expr * bool) :=
  match ss with
  | [] => []
  | (e, b) :: ss' =>
      (match e, ss', res with
       | ELet (PVar x) t (Some e), _, _ =>
           ELet (PVar x) t (Some (match flat_map (fun s => match wanted x (fst s) with Some t => [t] | None => [] end) ss' with
                                  | t :: _ => into t e
                                  | [] => e
                                  end))
       | EMeth c m [], [], TyResult => if m =? "collect" then EMeth c "collect -> Result" [] else e
       | _, _, _ => e
       end, b) :: typed res ss'
  end.
End Types.
Definition with_types (fs : list fundef) (f : fundef) : fundef :=
  match fn_body f with
  | EBlock ss =>
      mk_fundef (fn_name f) (fn_type f) (fn_constant f) (fn_params f) (fn_out f) (fn_const_n f) (fn_result f)
        (EBlock (typed fs (fn_type f) (fn_result f) ss))
  | _ => f
  end.
Definition load_functions (l : list item) : program :=
  let fs := filter (fun f => negb (fn_constant f)) (map (with_types (fundefs l)) (fundefs l)) in
  mk_program (map (fun f => (fn_name f, f)) fs) (map (fun f => (fn_name f, (fn_out f, fn_const_n f))) fs) []
    (declared_items l).
Definition with_constant (P : program) (f : fundef) : option program :=
  match run_body P stuck f None [] with
  | Val (v, _) => Some (mk_program (bodies P) (heads P) ((fn_name f, v) :: constants P) (decls P))
  | _ => None
  end.
Fixpoint with_constants (P : program) (fs : list fundef) : option program :=
  match fs with
  | [] => Some P
  | f :: fs' => match with_constant P f with Some P' => with_constants P' fs' | None => None end
  end.
Definition load (l : list item) : option program :=
  with_constants (load_functions l) (filter fn_constant (fundefs l)).
