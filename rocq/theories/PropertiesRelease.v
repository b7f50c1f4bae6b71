(** PropertiesRelease.v: builds with and without overflow checks and debug assertions (C74). *)
From Coq Require Import List ZArith String.
From Verif Require Import Base ModelCard ModelEval ModelTable ModelEvaluation ModelExamples ModelRelease.
From Verif Require Import Spec SpecApi SpecExamples.
From Verif Require ReleaseFacts.
Import ListNotations.
Local Open Scope Z_scope.

(** C74: the release build computes what the debug build does. *)
Theorem C74_cards : forall r s, rel_card_new r s = card_new_chk r s.
Proof. exact ReleaseFacts.cards. Qed.
Print Assumptions C74_cards.
Theorem C74_evaluator : rel_evaluator_new = evaluator_new.
Proof. exact ReleaseFacts.evaluator_same. Qed.
Print Assumptions C74_evaluator.
(** Any tables, and any cards a slice can hold: duplicates, too few and more than a deck included. *)
Theorem C74_evaluate : forall (ev : evaluation) cards, Z.of_nat (List.length cards) < 2 ^ 64 ->
  rel_evaluate_with ev cards = evaluate_with ev cards.
Proof. exact ReleaseFacts.evaluate_same. Qed.
Print Assumptions C74_evaluate.
Theorem C74_methods : forall cards, Z.of_nat (List.length cards) < 2 ^ 64 ->
  (forall ev, rel_evaluate ev cards = evaluate ev cards)
  /\ (forall F U, rel_static_evaluate F U cards = static_evaluate F U cards).
Proof. exact ReleaseFacts.methods_same. Qed.
Print Assumptions C74_methods.
(** Combinations of any number of any items, also of more items than there are. *)
Theorem C74_combinations : forall T St n (items : list T) (f : St -> list T -> outcome St) s,
  Z.of_nat (List.length items) < 2 ^ 64 ->
  rel_for_const_combos n items f s = for_const_combos n items f s.
Proof. intros T St n items f s H. exact (ReleaseFacts.combos n items f f s H (fun _ _ => eq_refl)). Qed.
Print Assumptions C74_combinations.
(** The generator of bit patterns: the builds differ from just two of the values of an i16. *)
Theorem C74_patterns : forall b, -32768 <= bs_bits b < 32768 ->
  (bs_bits b <> 0 -> bs_bits b <> -32768 -> get_next b = Ret (rel_get_next b))
  /\ (bs_bits b = 0 \/ bs_bits b = -32768 -> get_next b = Panic ArithmeticOverflow).
Proof. exact ReleaseFacts.patterns. Qed.
Print Assumptions C74_patterns.
(** One turn of Jacks or Better: where the debug build stops because the credits do not fit, the other one goes on
    with them reduced by 2^64. *)
Theorem C74_turn : forall (R : Type) (gen : R -> nat -> nat * R) order,
  fair gen -> reorders order -> forall ev, new_evaluator ev ->
  forall g : game R, between g ->
  (forall x, game_turn gen order ev g = Ret x -> rel_game_turn gen order ev g = Ret x)
  /\ (game_turn gen order ev g = Panic ArithmeticOverflow ->
      exists w c t g', 1 <= w <= 5 /\ w <= g_credits g /\ 2 ^ 64 <= settle (g_credits g) w c
        /\ rel_game_turn gen order ev g = Ret (t, g') /\ all_52 g'
        /\ g_credits g' = settle (g_credits g) w c - 2 ^ 64 /\ 0 <= g_credits g' < 4000
        /\ (t = Break <-> g_credits g' = 0)).
Proof. exact @ReleaseFacts.turn_same. Qed.
Print Assumptions C74_turn.
(** The whole program: without overflow checks it always ends by itself. *)
Theorem C74_program : forall (R : Type) (gen : R -> nat -> nat * R) order lines rng,
  fair gen -> reorders order ->
  (forall g, jacks_main gen order lines rng = Ret g -> rel_jacks_main gen order lines rng = Ret g)
  /\ (Z.of_nat (List.length lines) < 2 ^ 52 -> rel_jacks_main gen order lines rng = jacks_main gen order lines rng)
  /\ exists g, rel_jacks_main gen order lines rng = Ret g /\ all_52 g /\ 0 <= g_credits g < 2 ^ 64.
Proof. exact @ReleaseFacts.program_same. Qed.
Print Assumptions C74_program.
(** A royal flush with the maximal wager and 2^64 - 1 credits: the debug build panics. *)
Example C74_case : exists ev g, new_evaluator ev /\ between g
  /\ game_turn ReleaseFacts.first_of ReleaseFacts.as_is ev g = Panic ArithmeticOverflow.
Proof.
  destruct HandFacts.evaluator_new_ret as [ev Hev]. exists ev, ReleaseFacts.rich. split; [exact Hev|].
  split; [exact ReleaseFacts.rich_between|exact (ReleaseFacts.rich_turn ev Hev)].
Qed.
Example C74_case_fair : fair ReleaseFacts.first_of /\ reorders ReleaseFacts.as_is.
Proof. split; [intros rng n H; exact H|intros l; apply Permutation.Permutation_refl]. Qed.
Example C74_case_pattern : get_next (bit_sequence_new 0) = Panic ArithmeticOverflow
  /\ get_next (bit_sequence_new 31) = Ret (rel_get_next (bit_sequence_new 31)).
Proof. split; reflexivity. Qed.
