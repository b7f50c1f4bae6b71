(** SpecWidth.v: vocabulary of the statements about machines with a [usize] of another width.
    Definitions only. *)
From Coq Require Import List String ZArith.
From Verif Require Import Base ModelCard ModelExamples SpecText SpecExamples.
Import ListNotations.
Local Open Scope Z_scope.
Local Open Scope list_scope.

(** A number as it may be typed: decimal, perhaps with one [+] in front; of any size. *)
Definition typed (s : rstring) (n : Z) : Prop := decimal s n \/ exists s', s = 43%N :: s' /\ decimal s' n.

(** What is printed by two machines, the first with a [usize] of [bits] bits and the second with a
    wider one, when these lines have been typed: the same, but for the complaint about a number that the
    first cannot hold. *)
Inductive alike (bits : Z) (lines : list rstring) : printed -> printed -> Prop :=
| alike_same p : alike bits lines p p
| alike_wager s n : In s lines -> typed s n -> 2 ^ bits <= n ->
    alike bits lines (Line [] (lit "Invalid input '" ++ s ++ lit "'. Expected wager from 1 to 5." ++ [10%N]))
      (Line [] (lit "Invalid wager amount '" ++ show n ++ lit "'. Expected amount from 1 to 5." ++ [10%N]))
| alike_swaps s w n : In s lines -> In w (split_whitespace s) -> typed w n -> 2 ^ bits <= n ->
    alike bits lines
      (Line [] (lit "Error parsing input '" ++ s ++ lit "'. Expected space-separated list of card numbers to swap." ++ [10%N]))
      (Line [] (lit "Error parsing input '" ++ s ++ lit "'. Not all listed numbers are between 1 and 5." ++ [10%N])).
(** Two games in the same position, of which such things have been printed. *)
Record twins {R} (bits : Z) (lines : list rstring) (g g' : game R) : Prop := mk_twins {
  twin_lines : g_lines g = g_lines g';
  twin_deck : g_deck g = g_deck g';
  twin_hand : g_hand g = g_hand g';
  twin_credits : g_credits g = g_credits g';
  twin_rng : g_rng g = g_rng g';
  twin_out : Forall2 (alike bits lines) (g_out g) (g_out g')
}.
(** No number of a line is too large for [bits] bits. *)
Definition small_numbers (bits : Z) (line : rstring) : Prop :=
  (forall n, typed line n -> n < 2 ^ bits)
  /\ forall w n, In w (split_whitespace line) -> typed w n -> n < 2 ^ bits.
