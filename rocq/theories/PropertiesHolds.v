(** PropertiesHolds.v: C103 (patterns, parts of a hand, weakest results, cards on the table), of the source text itself,
    read and run as in PropertiesRust.v. *)
From Coq Require Import String List Arith Permutation Lia.
From Verif Require Import Base ModelCard ModelEval Spec SpecApi SpecBest SpecBoard SpecInside RustSyntax RustSemantics RustProgram RustValues SpecRust.
From Verif Require HandFacts RustHolds.
Import ListNotations.
Local Open Scope string_scope.
Local Open Scope list_scope.

(** C103: the category of the result is the best pattern that the hand, of any size, holds; *)
Theorem C103_best_pattern : forall P ev h cs e, load_all texts = Some P -> returns P "Evaluator::new" None [] ev ->
  Forall2 (made P) h cs -> NoDup h -> 5 <= length h -> gives P ev cs e ->
  exists c, returns P "Eval::class" None [e] (class_value c) /\ holds h (category c)
    /\ forall k, holds h k -> k <= category c.
Proof. exact RustHolds.runs_best_pattern. Qed.
Print Assumptions C103_best_pattern.
(** the result is the best of those of the hands of [n] of the cards; *)
Theorem C103_parts : forall P ev h cs e n, load_all texts = Some P -> returns P "Evaluator::new" None [] ev ->
  Forall2 (made P) h cs -> NoDup h -> 5 <= n <= length h -> gives P ev cs e ->
  (exists h' cs', NoDup h' /\ length h' = n /\ incl h' h /\ Forall2 (made P) h' cs' /\ gives P ev cs' e)
  /\ forall h' cs' e', NoDup h' -> length h' = n -> incl h' h -> Forall2 (made P) h' cs' -> gives P ev cs' e' -> worse P e e' false.
Proof. exact RustHolds.runs_parts. Qed.
Print Assumptions C103_parts.
(** up to eleven cards are never worse than the weakest hand of their number, *)
Theorem C103_weakest : forall P ev h cs e w cs' e', load_all texts = Some P -> returns P "Evaluator::new" None [] ev ->
  Forall2 (made P) h cs -> NoDup h -> 5 <= length h <= 11 -> gives P ev cs e ->
  Forall2 (made P) w cs' -> five_card_hand w -> Permutation (ranks w) (weakest (length h)) -> ~ suited w -> gives P ev cs' e' ->
  worse P e e' false.
Proof. exact RustHolds.runs_weakest. Qed.
Print Assumptions C103_weakest.
(** which occurs; *)
Theorem C103_weakest_attained : forall P ev n, load_all texts = Some P -> returns P "Evaluator::new" None [] ev -> 5 <= n <= 11 ->
  exists h cs e w cs' e', NoDup h /\ length h = n /\ Forall2 (made P) h cs /\ gives P ev cs e
    /\ five_card_hand w /\ Permutation (ranks w) (weakest n) /\ ~ suited w /\ Forall2 (made P) w cs' /\ gives P ev cs' e'
    /\ same P e e' true.
Proof. exact RustHolds.runs_weakest_attained. Qed.
Print Assumptions C103_weakest_attained.
(** and three to five cards on the table allow a flush, four of a kind, a full house, a straight or a straight flush
    with two more cards exactly if they show so many of its cards. *)
Theorem C103_board : forall P ev b, load_all texts = Some P -> returns P "Evaluator::new" None [] ev ->
  NoDup b -> 3 <= length b <= 5 ->
  (lets P ev b [5; 8] <-> exists s, 3 <= length (only s b))
  /\ (lets P ev b [7] <-> exists r, 2 <= count r b)
  /\ (lets P ev b [6] <-> (exists r, 2 <= count r b) /\ forall r, count r b < 4)
  /\ (lets P ev b [4; 8] <-> near_run b)
  /\ (lets P ev b [8] <-> exists s, near_run (only s b)).
Proof. exact RustHolds.runs_board. Qed.
Print Assumptions C103_board.
(** Seven cards with three aces; the weakest seven cards can be; two kings on the table, and no straight. *)
Example C103_case :
  let seven := [(Ace, Spades); (Ace, Hearts); (Ace, Clubs); (Four, Clubs); (Two, Clubs); (Nine, Hearts); (Ten, Spades)] in
  let table := [(King, Clubs); (Seven, Hearts); (King, Spades); (Two, Clubs)] in
  NoDup seven /\ holds seven 3
  /\ weakest (length seven) = [Nine; Eight; Seven; Five; Four]
  /\ five_card_hand [(Nine, Clubs); (Eight, Hearts); (Seven, Clubs); (Five, Spades); (Four, Clubs)]
  /\ NoDup table /\ 2 <= count King table /\ ~ near_run table.
Proof.
  split; [ apply HandFacts.nodupb_NoDup; reflexivity | ]. split; [ exists Ace; cbn; lia | ]. split; [ reflexivity | ].
  split; [ split; [ apply HandFacts.nodupb_NoDup; reflexivity | reflexivity ] | ].
  split; [ apply HandFacts.nodupb_NoDup; reflexivity | ]. split; [ cbn; lia | ].
  intros (t & T & Q). cbn in T. intuition (subst t; cbn in Q; lia).
Qed.
