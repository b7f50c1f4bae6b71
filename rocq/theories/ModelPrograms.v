(** ModelPrograms.v: the program of the README and the threaded program of the crate's documentation,
    from the random source to the characters on standard output. *)
From Coq Require Import List Arith NArith.
From Verif Require Import Base ModelCard ModelEval ModelTable ModelEvaluation ModelThreads ModelExamples.
Import ListNotations.

(** [println!("{}", result)]: the [Display] text and a line feed *)
Definition print_result (e : eval) : list N := eval_display e ++ [10%N].

(** README.md:15-31 [main]; [gen] stands for the [thread_rng] that [deck::shuffled] asks
    (src/deck.rs:36) *)
Definition readme_main {R} (gen : R -> nat -> nat * R) (rng : R) : outcome (list N * R) :=
  let! ev := evaluator_new in
  let! shuffled := shuffled_with gen rng in
  let (deck, rng) := (shuffled : list card * R) in
  let! drained := drain_front 5 deck in
  let hand := fst drained in
  let! verdict := evaluate ev hand in
  let! result := unwrap verdict in
  Ret (print_result result, rng).

(** src/lib.rs:60-61: the hand of one thread, [&deck[..5]] of its own shuffled deck.  ([thread_rng] is
    one source for each thread.) *)
Definition thread_hand {R} (gen : R -> nat -> nat * R) (rng : R) : outcome (list card) :=
  let! shuffled := shuffled_with gen rng in
  let (deck, _) := (shuffled : list card * R) in
  let! parts := drain_front 5 deck in
  Ret (fst parts).

(** src/lib.rs:68 [handle.join().unwrap()], and line 62.  Joining waits for the thread; where the
    schedule ends before the thread does, the model runs out of fuel. *)
Definition join (t : thread) : outcome eval :=
  match th_current t, th_pending t with
  | None, [] =>
      match th_answers t with
      | [answer] => let! r := answer in Ret (unwrap_or_worst r)
      | _ => OutOfFuel
      end
  | _, _ => OutOfFuel
  end.

(** src/lib.rs:55-71, with one random source in [rngs] for each of the threads (the code has ten) *)
Definition docs_main {R} (gen : R -> nat -> nat * R) (rngs : list R) (schedule : list nat) :
    outcome (list N) :=
  let! ev := evaluator_new in
  let! hands := mapM (thread_hand gen) rngs in
  let! es := mapM join (w_threads (run schedule (spawn_all ev (map (fun h => [h]) hands)))) in
  Ret (print_result (max_of_joins es)).
