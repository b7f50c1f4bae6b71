(** PropertiesTests.v: what the crate's authors expect of it (C70). *)
From Coq Require Import List ZArith Permutation.
From Verif Require Import Base ModelCard ModelEval ModelTable ModelEvaluation ModelTests SpecApi.
From Verif Require TestFacts.
Import ListNotations.

(** C70: the crate's own tests, examples and benchmarks. *)
(** Every test, every asserting example of the documentation and every benchmark ends without a panic, whatever
    the random source and whatever the order in which a hash map is gone through. *)
Theorem C70_suite_passes : forall R (gen : R -> nat -> nat * R) rng iter_order,
  (forall rng n, 0 < n -> fst (gen rng n) < n) -> (forall l, Permutation l (iter_order l)) ->
  Forall (fun test => test = Ret tt) (suite gen rng iter_order).
Proof. exact TestFacts.suite_passes. Qed.
Print Assumptions C70_suite_passes.
(** So do those of the feature static_lookup, if the tables built in are those of [Evaluator::new]. *)
Theorem C70_static_suite_passes : forall ev F U, new_evaluator ev ->
  (forall k, map_get F k = map_get (flush_lookup (evaluator_table ev)) k) ->
  (forall k, map_get U k = map_get (unsuited_lookup (evaluator_table ev)) k) ->
  Forall (fun test => test = Ret tt) (static_suite F U).
Proof. exact TestFacts.static_passes. Qed.
Print Assumptions C70_static_suite_passes.
(** What [ensure_identical_tables] finds out about the tables built in. *)
Theorem C70_tables_test : forall ev F U, new_evaluator ev ->
  (ensure_identical_tables F U = Ret tt <->
   table_test (flush_lookup (evaluator_table ev)) F /\ table_test (unsuited_lookup (evaluator_table ev)) U).
Proof. exact TestFacts.ensure_spec. Qed.
Print Assumptions C70_tables_test.
(** Tables it lets pass make the test of all combinations and the benchmark of all combinations pass too. *)
Theorem C70_static_combos : forall ev F U, new_evaluator ev ->
  table_test (flush_lookup (evaluator_table ev)) F -> table_test (unsuited_lookup (evaluator_table ev)) U ->
  all_five_card_combos (static_evaluate F U) = Ret tt /\ bench_all (static_evaluate F U) = Ret tt.
Proof. exact TestFacts.static_all_five. Qed.
Print Assumptions C70_static_combos.
(** What the tests are written with: [==] of the types that derive it decides equality, [assert!] lets
    pass what is true, [unwrap] panics on [Err] and [unwrap_err] on [Ok], [HashSet::insert] says whether the card was new. *)
Theorem C70_tools :
  (forall a b, cards_eqb a b = true <-> a = b)
  /\ (forall a b, parse_card_error_eqb a b = true <-> a = b)
  /\ (forall a b, parsed_eqb a b = true <-> a = b)
  /\ (forall a b, eval_class_eqb a b = true <-> a = b)
  /\ (forall a b, evaluation_eqb a b = true <->
        match a, b with Ok e, Ok f => eval_eqb e f = true | Err x, Err y => x = y | _, _ => False end)
  /\ (forall b, assert b = Ret tt <-> b = true)
  /\ (forall A E (r : result A E) a, unwrap r = Ret a <-> r = Ok a)
  /\ (forall A E (r : result A E) p, unwrap r = Panic p <-> p = UnwrapFailed /\ exists e, r = Err e)
  /\ (forall A E (r : result A E) e, unwrap_err r = Ret e <-> r = Err e)
  /\ (forall A E (r : result A E) p, unwrap_err r = Panic p <-> p = UnwrapFailed /\ exists a, r = Ok a)
  /\ (forall c s, set_insert card_eqb c s = (true, c :: s) /\ ~ In c s \/ set_insert card_eqb c s = (false, s) /\ In c s).
Proof. exact TestFacts.test_tools. Qed.
Print Assumptions C70_tools.
(** The tests can fail: every hand a royal flush, a deck that is not shuffled fairly, empty tables. *)
Example C70_case :
  length (suite (fun rng n => (0, rng)) tt (@rev (card * nat))) = 43
  /\ (forall rng n, 0 < n -> fst ((fun (rng : unit) (n : nat) => (0, rng)) rng n) < n)
  /\ (forall l, Permutation l (@rev (card * nat) l))
  /\ representatives (fun _ => Ret (Ok EVAL_BEST)) FiveCardHand predicates = Panic AssertFailed
  /\ generate_shuffled_deck_is_52_cards (fun (rng : unit) n => (n, rng)) tt <> Ret tt
  /\ ensure_identical_tables map_empty map_empty <> Ret tt.
Proof.
  split; [reflexivity|]. split; [intros rng n H; exact H|]. split; [exact (@Permutation_rev _)|].
  split; [vm_compute; reflexivity|]. split; [vm_compute; discriminate|].
  exact TestFacts.empty_tables_fail.
Qed.
