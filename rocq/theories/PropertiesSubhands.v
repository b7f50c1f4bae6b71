(** PropertiesSubhands.v: the result of a hand and those of the hands within it (C73). *)
From Coq Require Import Lia List Permutation.
From Verif Require Import Base ModelCard ModelEval ModelEvaluation Spec SpecApi SpecLookup Samples.
From Verif Require HandFacts SubhandFacts.
Import ListNotations.

(** C73: hands within hands. *)
(** Five of the cards carry the result: the others may be left out one by one, in any order. *)
Theorem C73_five_carry : forall ev h e, new_evaluator ev -> all_cards h -> evaluates ev h e ->
  exists five, five_of h five /\ forall h', NoDup h' -> incl five h' -> incl h' h -> evaluates ev h' e.
Proof. exact SubhandFacts.between. Qed.
Print Assumptions C73_five_carry.
(** So each result of [n] cards is one of [m] cards, for each [m] from five to [n]. *)
Theorem C73_fewer_cards : forall ev h e m, new_evaluator ev -> all_cards h -> evaluates ev h e -> 5 <= m <= length h ->
  exists h', NoDup h' /\ length h' = m /\ incl h' h /\ evaluates ev h' e.
Proof. exact SubhandFacts.some_of_size. Qed.
Print Assumptions C73_fewer_cards.
(** The result of a hand is the best of the results of parts of it, if each five of the cards are in one part. *)
Theorem C73_parts : forall ev h e (part : list card -> Prop), new_evaluator ev -> legal h ->
  (forall x, part x -> NoDup x /\ incl x h) ->
  (forall five, five_of h five -> exists x, part x /\ incl five x) ->
  (evaluates ev h e <-> (exists x, part x /\ evaluates ev x e)
                        /\ forall x e', part x -> evaluates ev x e' -> eval_cmp e e' <> Lt).
Proof. exact SubhandFacts.cover. Qed.
Print Assumptions C73_parts.
(** Such are all the hands of [m] of the cards, *)
Theorem C73_parts_of_a_size : forall ev h e m, new_evaluator ev -> legal h -> 5 <= m <= length h ->
  (evaluates ev h e <->
   (exists x, (NoDup x /\ length x = m /\ incl x h) /\ evaluates ev x e)
   /\ forall x e', NoDup x /\ length x = m /\ incl x h -> evaluates ev x e' -> eval_cmp e e' <> Lt).
Proof. exact SubhandFacts.of_size. Qed.
Print Assumptions C73_parts_of_a_size.
(** and all the hands with one card less. *)
Theorem C73_one_card_less : forall ev h e, new_evaluator ev -> legal h -> 5 < length h ->
  (evaluates ev h e <->
   (exists c x, Permutation h (c :: x) /\ evaluates ev x e)
   /\ forall c x e', Permutation h (c :: x) -> evaluates ev x e' -> eval_cmp e e' <> Lt).
Proof. exact SubhandFacts.one_less. Qed.
Print Assumptions C73_one_card_less.
(** The other way it does not go: hands with the same result can differ once the same card is added. *)
Theorem C73_results_do_not_add_up : forall ev, new_evaluator ev -> exists h h' c e d d',
  hand5 h /\ hand5 h' /\ a_card c
  /\ evaluates ev h e /\ evaluates ev h' e /\ evaluates ev (c :: h) d /\ evaluates ev (c :: h') d' /\ eval_cmp d d' = Gt.
Proof. exact SubhandFacts.not_from_results. Qed.
Print Assumptions C73_results_do_not_add_up.

(** Seven cards evaluate, and have parts of six. *)
Example C73_case : exists ev e, new_evaluator ev /\ legal (cards_macro_idents holdem)
  /\ 5 <= 6 <= length (cards_macro_idents holdem) /\ evaluates ev (cards_macro_idents holdem) e.
Proof.
  assert (L : legal (cards_macro_idents holdem)) by (apply idents_legal; [reflexivity|cbn; lia]).
  destruct HandFacts.evaluator_new_ret as [ev Hev]. destruct (HandFacts.evaluate_spec ev _ Hev L) as (e & E & _).
  exists ev, e. split; [exact Hev|]. split; [exact L|]. split; [cbn; lia|exact E].
Qed.
