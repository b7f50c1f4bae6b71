(** ModelOrder.v: what the standard library builds on the orders that the crate gives to its types: the
    provided methods of [PartialOrd], [Ord] and [Iterator], sorting, and ordered sets.

    The orders themselves are [Rank]'s (src/card/rank.rs:6), [Card]'s (src/card/mod.rs:307-315),
    [EvalClass]'s (src/evaluate/class.rs:28) and [Eval]'s (src/evaluate/eval.rs:58,
    src/evaluate/meta.rs:136-162); all of them are public and none of them overrides a provided method.
    The code of the standard library is not in the repository: what is modelled is its documentation, as
    functions of the order.  [op_lt], [op_le], [op_gt], [op_ge] and [cmp_max] (Ord::max) are in Base.v. *)
From Coq Require Import List.
From Verif Require Import Base ModelEval.
Import ListNotations.

(** src/evaluate/class.rs:28 derived [PartialOrd] of [EvalClass] *)
Definition class_partial_cmp (a b : eval_class) : option comparison := Some (class_cmp a b).

Section Order.
  Context {A : Type} (cmp : A -> A -> comparison).

  (** [Ord::min] (for the orders of src/card/mod.rs:313-315 and src/evaluate/eval.rs:58): the first
      argument if they are equal. *)
  Definition cmp_min (a b : A) : A := match cmp a b with Gt => b | _ => a end.
  (** [Ord::clamp]: [assert!(min <= max)], then [if self < min { min } else if self > max { max } else { self }].
      The operators go through [partial_cmp] (src/card/mod.rs:307-311, src/evaluate/meta.rs:136-148). *)
  Definition cmp_clamp (partial_cmp : A -> A -> option comparison) (x low high : A) : outcome A :=
    if op_le (partial_cmp low high)
    then Ret (if op_lt (partial_cmp x low) then low else if op_gt (partial_cmp x high) then high else x)
    else Panic AssertFailed.
  (** [Iterator::max] and [Iterator::min] over an [Ord] type (src/card/mod.rs:313-315,
      src/evaluate/eval.rs:58): a [reduce] with [max] and [min]. *)
  Definition iter_max (l : list A) : option A :=
    match l with [] => None | x :: l' => Some (fold_left (cmp_max cmp) l' x) end.
  Definition iter_min (l : list A) : option A :=
    match l with [] => None | x :: l' => Some (fold_left cmp_min l' x) end.

  (** [slice::sort], a stable sort; by insertion here (C79 shows that every stable sort gives the same). *)
  Fixpoint sort_insert (x : A) (l : list A) : list A :=
    match l with
    | [] => [x]
    | y :: l' => match cmp x y with Gt => y :: sort_insert x l' | _ => x :: l end
    end.
  Definition slice_sort (l : list A) : list A := fold_right sort_insert [] l.

  (** A [BTreeSet], as the list of what its iterator yields.  [insert] does nothing if there is an
      element that compares [Equal]; [contains] asks for such an element; [extend] inserts one by one. *)
  Fixpoint tree_insert (x : A) (l : list A) : list A :=
    match l with
    | [] => [x]
    | y :: l' => match cmp x y with Lt => x :: l | Eq => l | Gt => y :: tree_insert x l' end
    end.
  Definition tree_contains (s : list A) (x : A) : bool :=
    existsb (fun y => match cmp x y with Eq => true | _ => false end) s.
  Definition tree_extend (s l : list A) : list A := fold_left (fun s x => tree_insert x s) l s.
End Order.

(** [Vec::dedup], which goes by [==] ([Card]'s is derived, src/card/mod.rs:95): of neighbours that are
    equal the first stays. *)
Fixpoint vec_dedup {A} (eqb : A -> A -> bool) (l : list A) : list A :=
  match l with
  | [] => []
  | x :: l' =>
      match vec_dedup eqb l' with
      | y :: r => if eqb x y then x :: r else x :: y :: r
      | [] => [x]
      end
  end.
