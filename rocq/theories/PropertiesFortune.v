(** PropertiesFortune.v: C81.  Each theorem is closed by a lemma of the proof files. *)
From Coq Require Import List Arith Lia Permutation ZArith QArith.
From Verif Require Import Base ModelCard ModelEval ModelTable ModelEvaluation ModelExamples Spec SpecApi SpecExamples SpecGain.
From Verif Require FortuneFacts.
Import ListNotations.
Local Open Scope Z_scope.

(** C81: the credits with which examples/jacks-or-better.rs ends after [n] rounds.  If no run of losses can
    ruin the player, they are on average the 100 credits of the beginning and [n] times what one round
    brings, however the player decides and types. *)
Theorem C81_credits : forall order ev w bet say plan v n q, reorders order -> new_evaluator ev -> 1 <= w <= 5 ->
  understood w bet say -> playable plan -> (forall l, Permutation l deck_generate -> round_gain ev w plan l v) ->
  Z.of_nat n * w <= 100 ->
  fortune order ev bet say plan n deck_generate [] [] q <-> (q == 100 + inject_Z (Z.of_nat n) * v)%Q.
Proof. exact FortuneFacts.fortune_linear. Qed.
Print Assumptions C81_credits.
Theorem C81_sensible : forall order ev w bet say n q, reorders order -> new_evaluator ev -> 1 <= w <= 5 ->
  understood w bet say -> Z.of_nat n * w <= 100 ->
  fortune order ev bet say sensible n deck_generate [] [] q <->
  (q == 100 + inject_Z (Z.of_nat n) * (inject_Z w * (if (w =? 5)%Z then 72064151 # 551845840 else 71362901 # 551845840)))%Q.
Proof. exact FortuneFacts.fortune_sensible. Qed.
Print Assumptions C81_sensible.
Theorem C81_stand : forall order ev w bet say n q, reorders order -> new_evaluator ev -> 1 <= w <= 5 ->
  understood w bet say -> Z.of_nat n * w <= 100 ->
  fortune order ev bet say stand n deck_generate [] [] q <->
  (q == 100 + inject_Z (Z.of_nat n) * (inject_Z w * (if (w =? 5)%Z then - (296839 # 649740) else - (297389 # 649740))))%Q.
Proof. exact FortuneFacts.fortune_stand. Qed.
Print Assumptions C81_stand.
(** The player can type so that the program understands, and can decide in these three ways. *)
Theorem C81_typed : forall w, 1 <= w <= 5 -> understood w (show w) aloud.
Proof. exact FortuneFacts.aloud_understood. Qed.
Print Assumptions C81_typed.
Theorem C81_plans : playable stand /\ playable renew /\ playable sensible.
Proof. exact (conj FortuneFacts.stand_positions (conj FortuneFacts.renew_positions FortuneFacts.sensible_positions)). Qed.
Print Assumptions C81_plans.
(** A hundred rounds for one credit each make 112.93 credits of the 100. *)
Example C81_case : exists ev q, new_evaluator ev
  /\ fortune (fun l => l) ev (show 1) aloud sensible 100 deck_generate [] [] q /\ (112.9 < q < 113)%Q.
Proof. exact (FortuneFacts.hundred_rounds (fun l => l) (fun l => Permutation_refl l)). Qed.
