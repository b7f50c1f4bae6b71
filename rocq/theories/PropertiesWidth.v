(** PropertiesWidth.v: C76 (the game on machines with a narrower [usize]). *)
From Coq Require Import List String ZArith.
From Verif Require Import Base ModelCard ModelEval ModelTable ModelEvaluation ModelExamples ModelWidth.
From Verif Require Import Spec SpecApi SpecText SpecExamples SpecWidth.
From Verif Require WidthFacts ReleaseFacts HandFacts.
Import ListNotations.
Local Open Scope Z_scope.

(** C76: a text is read as a [usize] exactly if it is a decimal number, perhaps with a [+], that fits. *)
Theorem C76_read : forall bits s n, 0 <= bits ->
  (parse_usize_at bits s = Some n <-> n < 2 ^ bits /\ typed s n).
Proof. exact WidthFacts.read. Qed.
Print Assumptions C76_read.
(** The model with 64 bits is that of the other properties. *)
Theorem C76_64 : forall (R : Type) (gen : R -> nat -> nat * R) order,
  jacks_main_at true 64 gen order = jacks_main gen order.
Proof. exact @WidthFacts.program_64. Qed.
Print Assumptions C76_64.
(** One turn on two machines of different width, from 12 bits on: the same if the credits fit afterwards, but for
    complaints about numbers that do not fit; if the credits do not fit, the narrow machine panics. *)
Theorem C76_turn : forall bits bits', 12 <= bits -> bits <= bits' ->
  forall lines (R : Type) (gen : R -> nat -> nat * R) order ev (g g' : game R),
  twins bits lines g g' -> incl (g_lines g) lines -> 0 <= g_credits g < 2 ^ bits ->
  (forall t x', game_turn_at true bits' gen order ev g' = Ret (t, x') -> g_credits x' < 2 ^ bits ->
     exists x, game_turn_at true bits gen order ev g = Ret (t, x) /\ twins bits lines x x')
  /\ (forall t x', game_turn_at true bits' gen order ev g' = Ret (t, x') -> 2 ^ bits <= g_credits x' ->
     game_turn_at true bits gen order ev g = Panic ArithmeticOverflow)
  /\ (forall t x, game_turn_at true bits gen order ev g = Ret (t, x) ->
     exists x', game_turn_at true bits' gen order ev g' = Ret (t, x') /\ twins bits lines x x').
Proof. exact WidthFacts.turn_two. Qed.
Print Assumptions C76_turn.
(** The whole program: what a narrow machine does, wider ones do; *)
Theorem C76_wider : forall (R : Type) (gen : R -> nat -> nat * R) order lines rng bits bits' x,
  12 <= bits -> bits <= bits' -> jacks_main_at true bits gen order lines rng = Ret x ->
  exists x', jacks_main_at true bits' gen order lines rng = Ret x' /\ twins bits lines x x'.
Proof. exact @WidthFacts.program_back. Qed.
Print Assumptions C76_wider.
(** for fewer than 2^(bits - 12) lines of input (a million with 32 bits) it runs to its end, as with 64 bits,
    and if no line has a number that does not fit, nothing at all differs. *)
Theorem C76_program : forall (R : Type) (gen : R -> nat -> nat * R) order lines rng bits,
  fair gen -> reorders order -> 12 <= bits <= 64 -> Z.of_nat (List.length lines) < 2 ^ (bits - 12) ->
  exists x x', jacks_main_at true bits gen order lines rng = Ret x /\ jacks_main gen order lines rng = Ret x'
  /\ twins bits lines x x' /\ (Forall (small_numbers bits) lines -> x = x').
Proof. exact @WidthFacts.program_same. Qed.
Print Assumptions C76_program.
(** A build without overflow checks does the same where the other one does not panic. *)
Theorem C76_release : forall bits (R : Type) (gen : R -> nat -> nat * R) order lines rng x,
  jacks_main_at true bits gen order lines rng = Ret x -> jacks_main_at false bits gen order lines rng = Ret x.
Proof. intros bits R. exact (WidthFacts.program_unchecked bits). Qed.
Print Assumptions C76_release.

(** With 16 bits, 65000 credits and a royal flush are too much, *)
Example C76_case : exists ev, new_evaluator ev
  /\ game_turn_at true 16 ReleaseFacts.first_of ReleaseFacts.as_is ev WidthFacts.rich_16 = Panic ArithmeticOverflow.
Proof.
  destruct HandFacts.evaluator_new_ret as [ev Hev]. exists ev. split; [exact Hev|exact (WidthFacts.rich_16_turn ev Hev)].
Qed.
(** and 70000 is not a number. *)
Example C76_case_read : parse_usize_at 16 (lit "70000") = None /\ parse_usize_at 32 (lit "70000") = Some 70000
  /\ parse_usize_at 16 (lit "+5") = Some 5.
Proof. repeat split; vm_compute; reflexivity. Qed.
Example C76_case_complaint :
  snd (get_wager_at 16 100 [lit "70000"; lit "5"] [])
  = [wager_message 100; Line [] (lit "Invalid input '70000'. Expected wager from 1 to 5." ++ [10%N]); wager_message 100]
  /\ snd (get_wager 100 [lit "70000"; lit "5"] [])
  = [wager_message 100; Line [] (lit "Invalid wager amount '70000'. Expected amount from 1 to 5." ++ [10%N]); wager_message 100].
Proof. split; vm_compute; reflexivity. Qed.
Example C76_case_small : small_numbers 16 (lit "1 2 5").
Proof. exact WidthFacts.small_case. Qed.
