(** SpecMore.v: vocabulary of the statements in PropertiesClasses.v.  Definitions only. *)
From Coq Require Import List ZArith.
From Verif Require Import Base ModelCard ModelEval Spec.
Import ListNotations.

(** How many five-card hands have the value of a given one, by its category. *)
Definition alike (category : nat) : Z :=
  Z.of_nat match category with
           | 0 => 1020 | 1 => 384 | 2 => 144 | 3 => 64 | 4 => 1020 | 5 => 4 | 6 => 24 | 7 => 4 | _ => 4
           end.

(** How many sets of five different ranks with the given highest one are not in sequence. *)
Definition loose (top : rank) : Z :=
  match top with
  | Seven => 4 | Eight => 14 | Nine => 34 | Ten => 69 | Jack => 125 | Queen => 209 | King => 329 | Ace => 493
  | _ => 0
  end%Z.
(** How many of the 2598960 five-card hands are in a class that there is. *)
Definition hands_of (c : eval_class) : Z :=
  match c with
  | HighCard top => 1020 * loose top
  | Pair _ => 84480
  | TwoPair _ _ => 1584
  | ThreeOfAKind _ => 4224
  | Straight _ => 1020
  | Flush top => 4 * loose top
  | FullHouse _ _ => 24
  | FourOfAKind _ => 48
  | StraightFlush _ => 4
  end%Z.
