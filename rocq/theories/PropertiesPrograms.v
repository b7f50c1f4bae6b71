(** PropertiesPrograms.v: C66 (the programs of the README and of the crate's documentation). *)
From Coq Require Import Lia List Arith Bool Permutation NArith ZArith String Factorial.
From Verif Require Import Base ModelCard ModelEval ModelTable ModelEvaluation ModelThreads ModelExamples ModelPrograms.
From Verif Require Import Spec SpecApi SpecText SpecExamples SpecMore.
From Verif Require HandFacts ClassOrderFacts ProgramFacts.
Import ListNotations.
Local Open Scope list_scope.

(** C66: the README program never panics: it prints the name of the class of the first five cards of
    its shuffled deck, *)
Theorem C66_readme : forall R (gen : R -> nat -> nat * R) rng, fair gen -> exists ev d e rng',
  new_evaluator ev /\ shuffled_with gen rng = Ret (d, rng') /\ Permutation deck_generate d
  /\ evaluates ev (firstn 5 d) e
  /\ readme_main gen rng = Ret (lit (hand_name (eval_class_of e)) ++ [10%N], rng').
Proof. exact @ProgramFacts.readme_prints. Qed.
Print Assumptions C66_readme.
(** and nothing but one of 309 lines (C58). *)
Theorem C66_lines : forall js, answers 52 js ->
  exists c, possible c /\ readme_main script js = Ret (lit (hand_name c) ++ [10%N], []).
Proof. exact ProgramFacts.readme_outputs. Qed.
Print Assumptions C66_lines.
(** Of the 52! lists of answers of the random source (C45), how many lead to each line. *)
Theorem C66_odds : forall c, possible c -> exists L, NoDup L
  /\ Z.of_nat (List.length L) = (hands_of c * Z.of_nat (fact 5 * fact 47))%Z
  /\ forall js, In js L <-> answers 52 js /\ readme_main script js = Ret (lit (hand_name c) ++ [10%N], []).
Proof. exact ProgramFacts.readme_odds. Qed.
Print Assumptions C66_odds.
(** The threaded program prints the class of the best of the hands its threads were dealt, as soon as
    each thread was allowed enough steps, in whatever order. *)
Theorem C66_threads : forall R (gen : R -> nat -> nat * R) rngs, fair gen -> rngs <> [] ->
  exists bound, forall schedule,
  (forall tid, tid < List.length rngs -> bound <= count_occ Nat.eq_dec schedule tid) ->
  exists ev hands h e, new_evaluator ev
    /\ Forall2 (fun rng h => exists d rng', shuffled_with gen rng = Ret (d, rng') /\ h = firstn 5 d) rngs hands
    /\ In h hands /\ evaluates ev h e
    /\ (forall h' e', In h' hands -> evaluates ev h' e' -> eval_cmp e e' <> Lt)
    /\ docs_main gen rngs schedule = Ret (lit (hand_name (eval_class_of e)) ++ [10%N]).
Proof. exact @ProgramFacts.docs_prints. Qed.
Print Assumptions C66_threads.
(** Answers that leave each card where it is deal the four twos and a three; a fair source; the
    numbers of hands add up to that of all hands. *)
Example C66_case :
  answers 52 (rev (seq 1 51)) /\ readme_main script (rev (seq 1 51)) = Ret (lit "Four of a kind, twos" ++ [10%N], [])
  /\ possible (FourOfAKind Two) /\ hands_of (FourOfAKind Two) = 48%Z
  /\ fair (fun (rng n : nat) => (0, rng))
  /\ exists L, NoDup L /\ (forall c, In c L <-> possible c) /\ fold_right Z.add 0%Z (map hands_of L) = 2598960%Z.
Proof.
  assert (V : answers 52 (rev (seq 1 51))) by (cbn; repeat split; lia).
  split; [exact V|]. split; [|split; [exact I|split; [reflexivity|]]].
  - destruct HandFacts.evaluator_new_ret as [ev Hev]. exact (ProgramFacts.quads_printed ev Hev).
  - split; [intros rng n H; exact H|]. exact ProgramFacts.hands_of_sum.
Qed.
