(** PropertiesOdds.v: C99 (how many), of the source text itself, read and run as in PropertiesRust.v. *)
From Coq Require Import String List ZArith.
From Verif Require Import Base ModelCard Spec RustSyntax RustSemantics RustProgram RustValues SpecRust SpecOdds.
From Verif Require RustOdds.
Import ListNotations.
Local Open Scope string_scope.
Local Open Scope list_scope.

(** C99: the deck that [deck::generate] makes, all choices of five of its cards that [const_combos] makes, and what
    [evaluate] returns for each of them: how many are what *)
Theorem C99_five : forall P ev ds, load_all texts = Some P -> returns P "Evaluator::new" None [] ev ->
  returns P "generate" None [] (VList ds) ->
  exists it L es, returns P "const_combos" (Some (VInt Usize 5)) [VList ds] it /\ yields P 5 it L
    /\ Z.of_nat (length L) = 2598960%Z /\ Forall2 (gives P ev) L es
    /\ forall f k, In (f, k)
         [("Eval::is_royal_flush", 4); ("Eval::is_straight_flush", 40); ("Eval::is_four_of_a_kind", 624);
          ("Eval::is_full_house", 3744); ("Eval::is_flush", 5108); ("Eval::is_straight", 10200);
          ("Eval::is_three_of_a_kind", 54912); ("Eval::is_two_pair", 123552); ("Eval::is_pair", 1098240);
          ("Eval::is_high_card", 1302540)]%Z -> counted P es f k.
Proof. exact RustOdds.runs_five_odds. Qed.
Print Assumptions C99_five.
(** of six *)
Theorem C99_six : forall P ev ds, load_all texts = Some P -> returns P "Evaluator::new" None [] ev ->
  returns P "generate" None [] (VList ds) ->
  exists it L es, returns P "const_combos" (Some (VInt Usize 6)) [VList ds] it /\ yields P 6 it L
    /\ Z.of_nat (length L) = 20358520%Z /\ Forall2 (gives P ev) L es
    /\ forall f k, In (f, k)
         [("Eval::is_royal_flush", 188); ("Eval::is_straight_flush", 1844); ("Eval::is_four_of_a_kind", 14664);
          ("Eval::is_full_house", 165984); ("Eval::is_flush", 205792); ("Eval::is_straight", 361620);
          ("Eval::is_three_of_a_kind", 732160); ("Eval::is_two_pair", 2532816); ("Eval::is_pair", 9730740);
          ("Eval::is_high_card", 6612900)]%Z -> counted P es f k.
Proof. exact RustOdds.runs_six_odds. Qed.
Print Assumptions C99_six.
(** and of seven. *)
Theorem C99_seven : forall P ev ds, load_all texts = Some P -> returns P "Evaluator::new" None [] ev ->
  returns P "generate" None [] (VList ds) ->
  exists it L es, returns P "const_combos" (Some (VInt Usize 7)) [VList ds] it /\ yields P 7 it L
    /\ Z.of_nat (length L) = 133784560%Z /\ Forall2 (gives P ev) L es
    /\ forall f k, In (f, k)
         [("Eval::is_royal_flush", 4324); ("Eval::is_straight_flush", 41584); ("Eval::is_four_of_a_kind", 224848);
          ("Eval::is_full_house", 3473184); ("Eval::is_flush", 4047644); ("Eval::is_straight", 6180020);
          ("Eval::is_three_of_a_kind", 6461620); ("Eval::is_two_pair", 31433400); ("Eval::is_pair", 58627800);
          ("Eval::is_high_card", 23294460)]%Z -> counted P es f k.
Proof. exact RustOdds.runs_seven_odds. Qed.
Print Assumptions C99_seven.
(** How many different results there are of five, six and seven cards. *)
Theorem C99_values : forall n k, In (n, k) [(5, 7462%Z); (6, 6075%Z); (7, 4824%Z)] ->
  forall P ev, load_all texts = Some P -> returns P "Evaluator::new" None [] ev ->
  exists vs, Z.of_nat (length vs) = k /\ best_first P vs
    /\ forall v, In v vs <-> exists h cs, Forall2 (made P) h cs /\ NoDup h /\ length h = n /\ gives P ev cs v.
Proof. exact RustOdds.runs_values. Qed.
Print Assumptions C99_values.
(** There are such an evaluator and such a deck. *)
Example C99_case : exists P ev ds, load_all texts = Some P /\ returns P "Evaluator::new" None [] ev
  /\ returns P "generate" None [] (VList ds) /\ length ds = 52.
Proof. exact RustOdds.deck_and_evaluator. Qed.
