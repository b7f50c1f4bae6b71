(** PropertiesGain.v: C80.  Each theorem is closed by a lemma of the proof files. *)
From Coq Require Import List Arith Lia Permutation ZArith QArith.
From Verif Require Import Base ModelCard ModelEval ModelTable ModelEvaluation ModelExamples Spec SpecApi SpecExamples SpecGain.
From Verif Require CardFacts DeckFacts HandFacts GainFacts.
Import ListNotations.
Local Open Scope nat_scope.

(** C80: what a player of examples/jacks-or-better.rs gains on average.  An average is one number. *)
Theorem C80_one_average : forall ev w plan l q q',
  round_gain ev w plan l q -> round_gain ev w plan l q' -> (q == q')%Q.
Proof. exact GainFacts.round_fun. Qed.
Print Assumptions C80_one_average.

(** The discards go back into the deck before the draw: exchanging cards brings what drawing from all
    cards that are not kept brings. *)
Theorem C80_exchange : forall ev w is hand deck cs kept rest q, new_evaluator ev -> (1 <= w <= 5)%Z -> is <> [] ->
  length hand = 5 -> Permutation (hand ++ deck) deck_generate -> positions hand is -> at_positions hand is cs ->
  Permutation hand (kept ++ cs) -> Permutation (kept ++ rest) deck_generate ->
  drawn ev w is hand deck q <-> average (some_of rest (length is)) (fun h => gain ev w (kept ++ h)) q.
Proof. exact GainFacts.exchange_value. Qed.
Print Assumptions C80_exchange.

(** Who never exchanges loses 45.8 % of the wager (45.7 % of a wager of five). *)
Theorem C80_stand : forall ev w l q, new_evaluator ev -> (1 <= w <= 5)%Z -> Permutation l deck_generate ->
  round_gain ev w stand l q <->
  (q == inject_Z w * (if (w =? 5)%Z then - (296839 # 649740) else - (297389 # 649740)))%Q.
Proof. exact GainFacts.stand_gain. Qed.
Print Assumptions C80_stand.
(** So does who always exchanges everything. *)
Theorem C80_renew : forall ev w l q, new_evaluator ev -> (1 <= w <= 5)%Z -> Permutation l deck_generate ->
  round_gain ev w renew l q <-> round_gain ev w stand l q.
Proof. exact GainFacts.renew_gain. Qed.
Print Assumptions C80_renew.

(** Keeping a pair that pays nothing brings 19/245 of the wager, whatever the other three cards are. *)
Theorem C80_low_pair : forall ev w r hand deck e q, new_evaluator ev -> (1 <= w <= 5)%Z -> length hand = 5 ->
  Permutation (hand ++ deck) deck_generate -> evaluates ev hand e -> eval_class_of e = Pair r -> pips r < 11 ->
  drawn ev w (others r hand) hand deck q <-> (q == inject_Z w * (19 # 245))%Q.
Proof. exact GainFacts.pair_gain. Qed.
Print Assumptions C80_low_pair.

(** The sensible player wins. *)
Theorem C80_sensible : forall ev w l q, new_evaluator ev -> (1 <= w <= 5)%Z -> Permutation l deck_generate ->
  round_gain ev w sensible l q <->
  (q == inject_Z w * (if (w =? 5)%Z then 72064151 # 551845840 else 71362901 # 551845840))%Q.
Proof. exact GainFacts.sensible_gain. Qed.
Print Assumptions C80_sensible.
Theorem C80_beaten : forall ev w l, new_evaluator ev -> (1 <= w <= 5)%Z -> Permutation l deck_generate ->
  exists q, round_gain ev w sensible l q /\ (inject_Z w * (129 # 1000) < q)%Q.
Proof. exact GainFacts.game_beaten. Qed.
Print Assumptions C80_beaten.

(** A pair of deuces is kept, the other three cards are exchanged. *)
Example C80_case :
  let hand := [card_new Two Clubs; card_new Nine Hearts; card_new Two Spades; card_new Ace Hearts; card_new Three Clubs] in
  let is := others Two hand in
  let deck := filter (fun c => if in_dec CardFacts.card_dec c hand then false else true) deck_generate in
  (exists ev, new_evaluator ev) /\ is = [1; 3; 4]%Z /\ sensible hand (Pair Two) = is
  /\ Permutation (hand ++ deck) deck_generate
  /\ positions hand is /\ at_positions hand is [card_new Nine Hearts; card_new Ace Hearts; card_new Three Clubs]
  /\ classify (faces hand) (Pair Two)
  /\ Permutation hand ([card_new Two Clubs; card_new Two Spades] ++ [card_new Nine Hearts; card_new Ace Hearts; card_new Three Clubs]).
Proof.
  cbv zeta. split; [exact HandFacts.evaluator_new_ret|].
  split; [vm_compute; reflexivity|]. split; [vm_compute; reflexivity|]. split.
  { apply GainFacts.rest_perm.
    - repeat constructor; cbn; intuition discriminate.
    - repeat constructor; apply CardFacts.a_card_new. }
  split; [split; [vm_compute; repeat constructor; cbn; intuition lia|vm_compute; repeat constructor; cbn; intuition discriminate]|].
  split; [vm_compute; repeat constructor|]. split.
  { split; [vm_compute; reflexivity|]. intros r Hr. destruct r; try (contradiction Hr; reflexivity); vm_compute; repeat constructor. }
  apply (NoDup_Permutation); [repeat constructor; cbn; intuition discriminate|repeat constructor; cbn; intuition discriminate|].
  intros c. cbn. tauto.
Qed.
