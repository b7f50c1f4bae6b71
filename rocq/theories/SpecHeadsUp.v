(** SpecHeadsUp.v: two players with five cards each. *)
From Coq Require Import List Arith ZArith.
From Verif Require Import Base ModelCard Spec SpecApi SpecMore SpecBest.
Import ListNotations.
Local Open Scope Z_scope.

(** How many suits the cards are of. *)
Definition suits_of (h : list face) : nat := length (nodup suit_dec (map snd h)).

(** How many hands of the other player tie with the hand [h] of category [k]. *)
Definition rivals (h : list face) (k : nat) : Z :=
  match k with
  | 0%nat | 4%nat => 239 + Z.of_nat (suits_of h)
  | 1%nat => 27
  | 2%nat | 5%nat | 8%nat => 3
  | _ => 0
  end.
(** How many pairs of hands tie. *)
Definition tied : Z := 347798880.

(** [g] and [h] are hands of five cards of the deck, in its order, with no card in common. *)
Definition hands (g h : list card) : Prop :=
  sublist g deck_generate /\ sublist h deck_generate /\ length g = 5%nat /\ length h = 5%nat
  /\ (forall c, In c g -> ~ In c h).
(** [a] and [b] are five places of the deck each, all ten distinct: where two players are dealt their cards. *)
Definition apart (a b : list nat) : Prop :=
  NoDup (a ++ b) /\ Forall (fun i => (i < 52)%nat) (a ++ b) /\ length a = 5%nat /\ length b = 5%nat.
