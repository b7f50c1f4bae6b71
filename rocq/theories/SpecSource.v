(** SpecSource.v: vocabulary of C72: what an iterator gives.  Definitions only. *)
From Coq Require Import List Arith NArith String.
From Verif Require Import Base ModelCard.
Import ListNotations.

(** [gives next s l s']: asked [length l] times, the iterator in state [s] gives the items [l] and is left
    in the state [s']. *)
Inductive gives {S T} (next : S -> option T * S) : S -> list T -> S -> Prop :=
| gives_none s : gives next s [] s
| gives_more s x s1 l s2 : next s = (Some x, s1) -> gives next s1 l s2 -> gives next s (x :: l) s2.

(** A collection that takes [None] for the end. *)
Definition stops {A T C} (made : A -> option C) (feed : A -> option T -> A) : Prop :=
  forall a, made a = None -> made (feed a None) <> None.
(** [fed made feed a l b]: in state [a] it asks, and gets [l] before it is in state [b]. *)
Inductive fed {A T C} (made : A -> option C) (feed : A -> option T -> A) : A -> list T -> A -> Prop :=
| fed_none a : fed made feed a [] a
| fed_more a x l b : made a = None -> fed made feed (feed a (Some x)) l b -> fed made feed a (x :: l) b.

(** [asked next s l s']: asked [length l] times, the iterator answers [l], also where an answer is [None]. *)
Inductive asked {S T} (next : S -> option T * S) : S -> list (option T) -> S -> Prop :=
| asked_none s : asked next s [] s
| asked_more s x s1 l s2 : next s = (x, s1) -> asked next s1 l s2 -> asked next s (x :: l) s2.
(** [told made feed a l b]: in state [a] a collection asks, and is told [l] before it is in state [b]. *)
Inductive told {A T C} (made : A -> option C) (feed : A -> option T -> A) : A -> list (option T) -> A -> Prop :=
| told_none a : told made feed a [] a
| told_more a x l b : made a = None -> told made feed (feed a x) l b -> told made feed a (x :: l) b.
(** The card a text is, if there is a text and it is one, and the errors among some texts. *)
Definition card_or_none (t : option (list N)) : option card :=
  match t with Some t => match card_from_str t with Ok c => Some c | Err _ => None end | None => None end.
Definition errors_in (ts : list (option (list N))) : list parse_card_error :=
  flat_map (fun t => match t with Some t => match card_from_str t with Ok _ => [] | Err e => [e] end | None => [] end) ts.

(** Example: texts numbered 0, 1, 2, ..., all ["As"] but those numbered 2 and 3, which are ["Zs"] and ["Ax"]. *)
Local Open Scope string_scope.
Definition numbered (n : nat) : option (list N) * nat :=
  (Some (if Nat.eqb n 2 then lit "Zs" else if Nat.eqb n 3 then lit "Ax" else lit "As"), Datatypes.S n).
(** Example: a collection that asks four times, whatever it is told. *)
Definition four_made {T} (a : list (option T)) : option (list (option T)) := if Nat.eqb (List.length a) 4 then Some a else None.
Definition four_feed {T} (a : list (option T)) (x : option T) : list (option T) := (a ++ [x])%list.
(** Example: a collection of the first card only. *)
Definition one_made {T} (a : option (option T)) : option (option T) := a.
Definition one_feed {T} (a : option (option T)) (x : option T) : option (option T) := Some x.
