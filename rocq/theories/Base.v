(** Base.v: the fragment of Rust's semantics the model is written in.

    Nothing here models a particular function of /repo; these are the language and
    standard-library notions the code in /repo is written with. *)
From Coq Require Export ZArith NArith List Bool Permutation FMapPositive.
From Coq Require Import String Ascii Lia.
Export ListNotations.
Local Open Scope Z_scope.

(** ** Results of running code

    [Ret v]: the function returned [v].  [Panic p]: the thread panicked.
    [OutOfFuel]: a loop was cut off by the model's fuel; Rust has no such outcome, and
    every theorem about a looping function excludes it. *)
Inductive panic :=
| IndexOutOfBounds      (* slice or array index out of range *)
| MissingKey            (* [map[&key]] on an absent key *)
| ArithmeticOverflow    (* plain [+ - * <<] overflowing, debug semantics *)
| UnreachableReached    (* unreachable!() *)
| UnwrapFailed          (* .unwrap() on Err *)
| AssertFailed.         (* debug_assert! *)

Inductive outcome (A : Type) :=
| Ret (a : A)
| Panic (p : panic)
| OutOfFuel.
Arguments Ret {A} a.
Arguments Panic {A} p.
Arguments OutOfFuel {A}.

Definition bind {A B} (m : outcome A) (k : A -> outcome B) : outcome B :=
  match m with
  | Ret a => k a
  | Panic p => Panic p
  | OutOfFuel => OutOfFuel
  end.

Notation "'let!' x ':=' m 'in' k" := (bind m (fun x => k))
  (at level 200, x binder, m at level 100, k at level 200, right associativity).

(** A [for] loop over a fixed list, threading a state. *)
Fixpoint foldM {S A} (f : S -> A -> outcome S) (l : list A) (s : S) : outcome S :=
  match l with
  | [] => Ret s
  | x :: xs => let! s' := f s x in foldM f xs s'
  end.

(** Mapping a possibly panicking closure over an array. *)
Fixpoint mapM {A B} (f : A -> outcome B) (l : list A) : outcome (list B) :=
  match l with
  | [] => Ret []
  | x :: xs => let! y := f x in let! ys := mapM f xs in Ret (y :: ys)
  end.

(** [slice[i]] *)
Definition index {A} (l : list A) (i : nat) : outcome A :=
  match nth_error l i with
  | Some a => Ret a
  | None => Panic IndexOutOfBounds
  end.

(** Rust's [Result]. *)
Inductive result (A E : Type) :=
| Ok (a : A)
| Err (e : E).
Arguments Ok {A E} a.
Arguments Err {A E} e.

(** [result.unwrap()] *)
Definition unwrap {A E} (r : result A E) : outcome A :=
  match r with Ok a => Ret a | Err _ => Panic UnwrapFailed end.

(** ** Machine integers (two's complement, as values in [Z])

    [wrap_*] is reduction to the representable range.  The range test in front only
    makes computation cheap; [wrap_i32_spec]/[wrap_i16_spec] (BaseFacts.v) show it is the
    usual residue. *)
Definition in_i32 (z : Z) : bool := (-2147483648 <=? z) && (z <? 2147483648).
Definition wrap_i32 (z : Z) : Z :=
  if in_i32 z then z else (z + 2147483648) mod 4294967296 - 2147483648.

Definition in_i16 (z : Z) : bool := (-32768 <=? z) && (z <? 32768).
Definition wrap_i16 (z : Z) : Z :=
  if in_i16 z then z else (z + 32768) mod 65536 - 32768.

Definition in_u8 (z : Z) : bool := (0 <=? z) && (z <? 256).
Definition in_u64 (z : Z) : bool := (0 <=? z) && (z <? 18446744073709551616).

(** Plain arithmetic: panics when the exact result is not representable. *)
Definition chk (inr : Z -> bool) (z : Z) : outcome Z :=
  if inr z then Ret z else Panic ArithmeticOverflow.

(** [a << n] on a [bits]-wide type: panics when [n >= bits]; the value is truncated. *)
Definition shl_i32 (a n : Z) : outcome Z :=
  if (0 <=? n) && (n <? 32) then Ret (wrap_i32 (Z.shiftl a n)) else Panic ArithmeticOverflow.
Definition shl_i16 (a n : Z) : outcome Z :=
  if (0 <=? n) && (n <? 16) then Ret (wrap_i16 (Z.shiftl a n)) else Panic ArithmeticOverflow.
Definition shl_u64 (a n : Z) : outcome Z :=
  if (0 <=? n) && (n <? 64) then Ret (Z.shiftl a n mod 18446744073709551616)
  else Panic ArithmeticOverflow.
(** [a >> n] on i16 (arithmetic shift). *)
Definition shr_i16 (a n : Z) : outcome Z :=
  if (0 <=? n) && (n <? 16) then Ret (Z.shiftr a n) else Panic ArithmeticOverflow.

Definition wrapping_add_i16 (a b : Z) : Z := wrap_i16 (a + b).
Definition wrapping_sub_i16 (a b : Z) : Z := wrap_i16 (a - b).
Definition wrapping_neg_i16 (a : Z) : Z := wrap_i16 (- a).
Definition wrapping_mul_i32 (a b : Z) : Z := wrap_i32 (a * b).
Fixpoint wrapping_pow_i32 (a : Z) (n : nat) : Z :=
  match n with O => 1 | S n' => wrapping_mul_i32 (wrapping_pow_i32 a n') a end.

(** [i16::trailing_zeros] *)
Fixpoint pos_trailing_zeros (p : positive) : Z :=
  match p with xO q => 1 + pos_trailing_zeros q | _ => 0 end.
Definition trailing_zeros_i16 (z : Z) : Z :=
  match z with Z0 => 16 | Zpos p | Zneg p => pos_trailing_zeros p end.

(** ** Hash maps keyed by i32 as finite maps (insertion replaces) *)
Definition zkey (z : Z) : positive :=
  match z with Z0 => xH | Zpos p => xO p | Zneg p => xI p end.
Definition map_i32 (V : Type) := PositiveMap.t V.
Definition map_empty {V} : map_i32 V := PositiveMap.empty V.
Definition map_insert {V} (k : Z) (v : V) (m : map_i32 V) : map_i32 V :=
  PositiveMap.add (zkey k) v m.
Definition map_get {V} (m : map_i32 V) (k : Z) : option V := PositiveMap.find (zkey k) m.
Definition map_len {V} (m : map_i32 V) : nat := PositiveMap.cardinal m.

(** [map[&k]] through the [Index] trait: panics on an absent key. *)
Definition index_key {V} (get : Z -> option V) (k : Z) : outcome V :=
  match get k with Some v => Ret v | None => Panic MissingKey end.

(** ** Characters and strings: a [char] is its code point, a [str] a list of chars. *)
Definition rchar := N.
Definition rstring := list rchar.

(** An ASCII literal. *)
Fixpoint lit (s : string) : rstring :=
  match s with
  | EmptyString => []
  | String a s' => N_of_ascii a :: lit s'
  end.

(** [char::len_utf8] and [str::len] (a length in bytes). *)
Definition len_utf8 (c : rchar) : N :=
  (if c <? 128 then 1 else if c <? 2048 then 2 else if c <? 65536 then 3 else 4)%N.
Definition str_len (s : rstring) : N := fold_right (fun c n => len_utf8 c + n)%N 0%N s.

(** [Ordering] is Coq's [comparison]: Less = Lt, Equal = Eq, Greater = Gt.
    [Ord]'s default operators on top of [partial_cmp]. *)
Definition op_lt (o : option comparison) : bool := match o with Some Lt => true | _ => false end.
Definition op_le (o : option comparison) : bool :=
  match o with Some Lt | Some Eq => true | _ => false end.
Definition op_gt (o : option comparison) : bool := match o with Some Gt => true | _ => false end.
Definition op_ge (o : option comparison) : bool :=
  match o with Some Gt | Some Eq => true | _ => false end.

(** [std::cmp::max]: the second argument unless the first is greater. *)
Definition cmp_max {A} (cmp : A -> A -> comparison) (a b : A) : A :=
  match cmp a b with Gt => a | _ => b end.
