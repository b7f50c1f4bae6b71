(** PropertiesSizes.v: C102 (what the number of cards guarantees, ties, classes, the cards that matter), of the source
    text itself, read and run as in PropertiesRust.v. *)
From Coq Require Import String List Arith Permutation.
From Verif Require Import Base ModelCard ModelEval Spec SpecApi RustSyntax RustSemantics RustProgram RustValues SpecRust.
From Verif Require HandFacts RustSizes.
Import ListNotations.
Local Open Scope string_scope.
Local Open Scope list_scope.

(** C102: a hand of a given size is at least in the category its size guarantees, *)
Theorem C102_size : forall P ev h cs e, load_all texts = Some P -> returns P "Evaluator::new" None [] ev ->
  Forall2 (made P) h cs -> NoDup h -> 5 <= length h -> gives P ev cs e ->
  exists c, returns P "Eval::class" None [e] (class_value c) /\ guaranteed (length h) <= category c.
Proof. exact RustSizes.runs_size. Qed.
Print Assumptions C102_size.
(** and no size guarantees more; *)
Theorem C102_size_tight : forall P ev n, load_all texts = Some P -> returns P "Evaluator::new" None [] ev -> 5 <= n <= 52 ->
  exists h cs e c, NoDup h /\ length h = n /\ Forall2 (made P) h cs /\ gives P ev cs e
    /\ returns P "Eval::class" None [e] (class_value c) /\ category c = guaranteed n.
Proof. exact RustSizes.runs_size_tight. Qed.
Print Assumptions C102_size_tight.
(** 49 cards or more have the best result; *)
Theorem C102_best_from_49 : forall P ev h cs e, load_all texts = Some P -> returns P "Evaluator::new" None [] ev ->
  Forall2 (made P) h cs -> NoDup h -> 49 <= length h -> gives P ev cs e -> assoc "Eval::BEST" (constants P) = Some e.
Proof. exact RustSizes.runs_royal. Qed.
Print Assumptions C102_best_from_49.
(** five cards tie with five cards of the same ranks if both or neither are of one suit, and with no others; *)
Theorem C102_ties : forall P ev h1 cs1 e1 h2 cs2 e2, load_all texts = Some P -> returns P "Evaluator::new" None [] ev ->
  five_card_hand h1 -> Forall2 (made P) h1 cs1 -> gives P ev cs1 e1 ->
  five_card_hand h2 -> Forall2 (made P) h2 cs2 -> gives P ev cs2 e2 ->
  exists z, same P e1 e2 z /\ (z = true <-> Permutation (ranks h1) (ranks h2) /\ (suited h1 <-> suited h2)).
Proof. exact RustSizes.runs_ties. Qed.
Print Assumptions C102_ties.
(** the classes reported are the possible ones (309 by C58); *)
Theorem C102_classes : forall P ev c, load_all texts = Some P -> returns P "Evaluator::new" None [] ev ->
  ((exists h cs e, Forall2 (made P) h cs /\ NoDup h /\ 5 <= length h /\ gives P ev cs e
      /\ returns P "Eval::class" None [e] (class_value c)) <-> possible c).
Proof. exact RustSizes.runs_classes. Qed.
Print Assumptions C102_classes.
(** and some five of the cards carry the result, whichever of the others are left out. *)
Theorem C102_five_carry : forall P ev h cs e, load_all texts = Some P -> returns P "Evaluator::new" None [] ev ->
  Forall2 (made P) h cs -> NoDup h -> 5 <= length h -> gives P ev cs e ->
  exists five, five_card_hand five /\ incl five h
    /\ forall h' cs', NoDup h' -> incl five h' -> incl h' h -> Forall2 (made P) h' cs' -> gives P ev cs' e.
Proof. exact RustSizes.runs_five_carry. Qed.
Print Assumptions C102_five_carry.
(** The whole deck is a hand of 52 cards; seventeen cards guarantee a flush; two hands that tie. *)
Example C102_case :
  NoDup (list_prod RANK_ALL_VARIANTS SUIT_ALL_VARIANTS) /\ length (list_prod RANK_ALL_VARIANTS SUIT_ALL_VARIANTS) = 52
  /\ guaranteed 17 = category (Flush Ace) /\ possible (Straight Five) /\ ~ possible (HighCard Six)
  /\ five_card_hand [(Ace, Spades); (Ace, Hearts); (Nine, Clubs); (Four, Clubs); (Two, Clubs)]
  /\ five_card_hand [(Ace, Clubs); (Ace, Hearts); (Nine, Hearts); (Four, Clubs); (Two, Spades)].
Proof.
  split; [ apply HandFacts.nodupb_NoDup; reflexivity | ]. split; [ reflexivity | ]. split; [ reflexivity | ].
  split; [ cbn; repeat constructor | ]. split; [ cbn; intros H; repeat (apply le_S_n in H); inversion H | ].
  split; (split; [ apply HandFacts.nodupb_NoDup; reflexivity | reflexivity ]).
Qed.
