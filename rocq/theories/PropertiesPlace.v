(** PropertiesPlace.v: C78 (the number of a value, and how many hands are better and worse). *)
From Coq Require Import List ZArith.
From Verif Require Import Base ModelCard ModelEval ModelTable ModelEvaluation.
From Verif Require Import Spec SpecApi SpecMore SpecPlace.
From Verif Require PlaceFacts HandFacts CardFacts.
Import ListNotations.
Local Open Scope Z_scope.

(** C78: the number of a result, which [{:?}] shows, is its place among the 7462 values: so many less one
    are better. *)
Theorem C78_place : forall ev h e, new_evaluator ev -> all_cards h -> evaluates ev h e -> exists l,
  NoDup l /\ Z.of_nat (length l) = phr (eval_hand_rank e) - 1
  /\ forall e', In e' l <-> eval_cmp e' e = Gt /\ exists g, hand5 g /\ evaluates ev g e'.
Proof. exact PlaceFacts.place_counts. Qed.
Print Assumptions C78_place.
(** Each category has its places, *)
Theorem C78_category : forall ev h e, new_evaluator ev -> all_cards h -> evaluates ev h e ->
  first_place (category (eval_class_of e)) <= phr (eval_hand_rank e) <= last_place (category (eval_class_of e)).
Proof. exact PlaceFacts.category_places. Qed.
Print Assumptions C78_category.
(** and each place has a value. *)
Theorem C78_all_places : forall ev z, new_evaluator ev -> 1 <= z <= 7462 -> exists h e, hand5 h /\ evaluates ev h e
  /\ phr (eval_hand_rank e) = z
  /\ first_place (category (eval_class_of e)) <= z <= last_place (category (eval_class_of e)).
Proof. exact PlaceFacts.places_exhausted. Qed.
Print Assumptions C78_all_places.
(** How many of the 2598960 five-card hands are better than a hand of any size, *)
Theorem C78_ahead : forall ev h e, new_evaluator ev -> all_cards h -> evaluates ev h e -> exists L, NoDup L
  /\ (forall g, In g L <-> sublist g deck_generate /\ length g = 5%nat
                           /\ exists e', evaluates ev g e' /\ eval_cmp e' e = Gt)
  /\ Z.of_nat (length L) = ahead (category (eval_class_of e)) (phr (eval_hand_rank e)).
Proof. exact PlaceFacts.hands_ahead. Qed.
Print Assumptions C78_ahead.
(** and how many are worse. *)
Theorem C78_behind : forall ev h e, new_evaluator ev -> all_cards h -> evaluates ev h e -> exists L, NoDup L
  /\ (forall g, In g L <-> sublist g deck_generate /\ length g = 5%nat
                           /\ exists e', evaluates ev g e' /\ eval_cmp e' e = Lt)
  /\ Z.of_nat (length L) = behind (category (eval_class_of e)) (phr (eval_hand_rank e)).
Proof. exact PlaceFacts.hands_behind. Qed.
Print Assumptions C78_behind.

(** The best hand has nobody ahead, the worst nobody behind; the best high card is ahead of 1301520. *)
Example C78_case : ahead 8 1 = 0 /\ behind 0 7462 = 0 /\ behind 0 6186 = 1301520
  /\ phr (eval_hand_rank EVAL_BEST) = 1 /\ phr (eval_hand_rank EVAL_WORST) = 7462.
Proof. repeat split. Qed.
Example C78_case_hand : exists ev h e, new_evaluator ev /\ all_cards h /\ evaluates ev h e /\ phr (eval_hand_rank e) = 3000.
Proof.
  destruct HandFacts.evaluator_new_ret as [ev H]. destruct (HandFacts.rank_attained ev 3000 H) as (h & e & Hh & E & R); [split; discriminate|].
  exists ev, h, e. exact (conj H (conj (proj1 Hh) (conj E R))).
Qed.
