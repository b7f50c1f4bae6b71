(** PropertiesWorth.v: C100 (the worth of a hand, and who wins), of the source text itself, read and run as in
    PropertiesRust.v. *)
From Coq Require Import String List Arith.
From Verif Require Import Base ModelCard ModelEval Spec SpecBest SpecShowdown RustSyntax RustSemantics RustProgram RustValues SpecRust.
From Verif Require RustWorth.
Import ListNotations.
Local Open Scope string_scope.
Local Open Scope list_scope.

(** C100: the class of the result for a hand of any size is read off the hand (SpecBest.v), *)
Theorem C100_class : forall P ev h cs e, load_all texts = Some P -> returns P "Evaluator::new" None [] ev ->
  Forall2 (made P) h cs -> NoDup h -> 5 <= length h -> gives P ev cs e ->
  returns P "Eval::class" None [e] (class_value (fst (best h))).
Proof. exact RustWorth.runs_read_off. Qed.
Print Assumptions C100_class.
(** so is which of two results is better, *)
Theorem C100_versus : forall P ev h1 cs1 e1 h2 cs2 e2, load_all texts = Some P ->
  returns P "Evaluator::new" None [] ev ->
  Forall2 (made P) h1 cs1 -> NoDup h1 -> 5 <= length h1 -> gives P ev cs1 e1 ->
  Forall2 (made P) h2 cs2 -> NoDup h2 -> 5 <= length h2 -> gives P ev cs2 e2 ->
  exists x y z, better P e1 e2 x /\ worse P e1 e2 y /\ same P e1 e2 z
    /\ (x = true <-> worth_more (best h1) (best h2))
    /\ (y = true <-> worth_more (best h2) (best h1))
    /\ (z = true <-> best h1 = best h2).
Proof. exact RustWorth.runs_read_off_versus. Qed.
Print Assumptions C100_versus.
(** and the players whose results are worse than no other are those who win by the rules. *)
Theorem C100_showdown : forall P ev board own css, load_all texts = Some P -> returns P "Evaluator::new" None [] ev ->
  NoDup (board ++ concat own) -> Forall (fun h => 5 <= length board + length h) own ->
  Forall2 (fun h cs => Forall2 (made P) (board ++ h) cs) own css ->
  exists es, Forall2 (gives P ev) css es
    /\ forall i e, nth_error es i = Some e ->
         ((forall e', In e' es -> worse P e e' false) <-> wins (seats board own) i).
Proof. exact RustWorth.runs_showdown. Qed.
Print Assumptions C100_showdown.
(** Two players with an ace and a king share the pot, the third loses. *)
Example C100_case :
  let board := [(King, Spades); (Nine, Hearts); (Four, Clubs); (Four, Diamonds); (Two, Spades)] in
  let own := [[(Ace, Spades); (King, Hearts)]; [(King, Diamonds); (Ace, Clubs)]; [(Nine, Clubs); (Ace, Hearts)]] in
  NoDup (board ++ concat own) /\ Forall (fun h => 5 <= length board + length h) own
  /\ map best (seats board own)
     = [(TwoPair King Four, [King; Four; Ace]); (TwoPair King Four, [King; Four; Ace]); (TwoPair Nine Four, [Nine; Four; Ace])]
  /\ exists P css, load_all texts = Some P /\ Forall2 (fun h cs => Forall2 (made P) (board ++ h) cs) own css.
Proof. exact RustWorth.three_players. Qed.
