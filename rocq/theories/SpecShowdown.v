(** SpecShowdown.v: who wins when several players share cards on the table. *)
From Coq Require Import List Arith.
From Verif Require Import ModelCard Spec SpecApi.
Import ListNotations.

(** What each player may choose five cards from: the board and their own cards. *)
Definition seats (board : list face) (own : list (list face)) : list (list face) :=
  map (fun cards => board ++ cards) own.

(** The player of the seat [i] can lay down five cards that no five cards of any seat beat. *)
Definition wins (all : list (list face)) (i : nat) : Prop :=
  exists seat F, nth_error all i = Some seat /\ five_card_hand F /\ incl F seat
    /\ forall other G, In other all -> five_card_hand G -> incl G other -> ~ beats G F.

(** Dealing: the cards of a deck at given positions (the first card is at 0), and the player of the
    seat [i] winning when the board is at the positions [board] and each player's cards at theirs. *)
Definition picks (deck : list card) (positions : list nat) : list card :=
  flat_map (fun i => match nth_error deck i with Some c => [c] | None => [] end) positions.
Definition dealt_wins (board : list nat) (own : list (list nat)) (i : nat) (deck : list card) : Prop :=
  wins (seats (faces (picks deck board)) (map (fun positions => faces (picks deck positions)) own)) i.
(** A way of dealing: no card goes to two places, nobody has less than five to choose from. *)
Definition dealing (board : list nat) (own : list (list nat)) : Prop :=
  NoDup (board ++ concat own) /\ Forall (fun x => x < 52) (board ++ concat own)
  /\ Forall (fun positions => 5 <= length board + length positions) own.
