(** SpecLookup.v: vocabulary for C71, evaluation with any tables.  Definitions only. *)
From Coq Require Import List ZArith.
From Verif Require Import Base ModelCard ModelEval Spec SpecApi SpecTable.

(** What two tables hold for five cards: the first is asked if the cards are suited, the second if not,
    at the product of the primes of the ranks. *)
Definition finds (F U : map_i32 meta) (five : list card) (found : option meta) : Prop :=
  (suited (faces five) -> map_get F (product (ranks (faces five))) = found)
  /\ (~ suited (faces five) -> map_get U (product (ranks (faces five))) = found).
(** Five of the cards [h]. *)
Definition five_of (h five : list card) : Prop := hand5 five /\ incl five h.
(** The number of a result and of an entry: lower is better. *)
Definition number (e : eval) : Z := phr (eval_hand_rank e).
Definition entry_number (m : meta) : Z := phr (meta_hand_rank m).
(** A table with one entry: it calls the royal flush a bad high card. *)
Definition hearts_royal : list card := map (fun r => card_new r Hearts) (Ten :: Jack :: Queen :: King :: Ace :: nil).
Definition royal_only : map_i32 meta :=
  map_insert (product (Ten :: Jack :: Queen :: King :: Ace :: nil)) (MHighCard (PokerHandRank 9999%Z) Two) map_empty.
