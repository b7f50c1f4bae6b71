(** SpecPlace.v: the places of the 7462 values, 1 being the best.  Definitions only. *)
From Coq Require Import ZArith.
From Verif Require Import SpecMore.
Local Open Scope Z_scope.

(** The first and the last place of a category (8: straight flush, ..., 0: high card) *)
Definition first_place (category : nat) : Z :=
  match category with
  | 8%nat => 1 | 7%nat => 11 | 6%nat => 167 | 5%nat => 323 | 4%nat => 1600 | 3%nat => 1610 | 2%nat => 2468 | 1%nat => 3326 | _ => 6186
  end.
Definition last_place (category : nat) : Z :=
  match category with
  | 8%nat => 10 | 7%nat => 166 | 6%nat => 322 | 5%nat => 1599 | 4%nat => 1609 | 3%nat => 2467 | 2%nat => 3325 | 1%nat => 6185 | _ => 7462
  end.
(** How many of the 2598960 five-card hands are in a better category *)
Definition in_better (category : nat) : Z :=
  match category with
  | 8%nat => 0 | 7%nat => 40 | 6%nat => 664 | 5%nat => 4408 | 4%nat => 9516 | 3%nat => 19716 | 2%nat => 74628 | 1%nat => 198180 | _ => 1296420
  end.
(** How many of them are better than the value at a place of a category, and how many are worse *)
Definition ahead (category : nat) (place : Z) : Z :=
  in_better category + alike category * (place - first_place category).
Definition behind (category : nat) (place : Z) : Z := 2598960 - ahead category place - alike category.
