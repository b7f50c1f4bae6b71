(** PropertiesOrder.v: C79 (operators, the greatest and the least, sorting, ordered sets). *)
From Coq Require Import Lia List Arith Bool Permutation Sorted ZArith.
From Verif Require Import Base ModelCard ModelEval ModelTable ModelEvaluation ModelOrder.
From Verif Require Import Spec SpecApi SpecOrder SpecBest.
From Verif Require OrderFacts HandFacts LawFacts.
Import ListNotations.

(** C79: the four orders are total orders, and [partial_cmp] agrees with [cmp]. *)
Theorem C79_orders :
  total_order rank_cmp /\ total_order card_cmp /\ total_order class_cmp /\ total_order eval_cmp
  /\ (forall a b, rank_partial_cmp a b = Some (rank_cmp a b)) /\ (forall a b, card_partial_cmp a b = Some (card_cmp a b))
  /\ (forall a b, class_partial_cmp a b = Some (class_cmp a b)) /\ (forall a b, eval_partial_cmp a b = Some (eval_cmp a b)).
Proof. exact OrderFacts.crate_orders. Qed.
Print Assumptions C79_orders.
(** [>], [<], [>=] and [<=] between results say which hand is worth more, *)
Theorem C79_result_operators : forall ev h1 h2 e1 e2, new_evaluator ev -> all_cards h1 -> all_cards h2 ->
  evaluates ev h1 e1 -> evaluates ev h2 e2 ->
  (op_gt (eval_partial_cmp e1 e2) = true <-> worth_more (best (faces h1)) (best (faces h2)))
  /\ (op_lt (eval_partial_cmp e1 e2) = true <-> worth_more (best (faces h2)) (best (faces h1)))
  /\ (op_ge (eval_partial_cmp e1 e2) = true <-> ~ worth_more (best (faces h2)) (best (faces h1)))
  /\ (op_le (eval_partial_cmp e1 e2) = true <-> ~ worth_more (best (faces h1)) (best (faces h2))).
Proof. exact OrderFacts.result_operators. Qed.
Print Assumptions C79_result_operators.
(** between cards and ranks which is higher, *)
Theorem C79_card_operators : forall a b,
  let p := pips (card_rank a) in let q := pips (card_rank b) in
  (op_gt (card_partial_cmp a b) = true <-> q < p) /\ (op_lt (card_partial_cmp a b) = true <-> p < q)
  /\ (op_ge (card_partial_cmp a b) = true <-> q <= p) /\ (op_le (card_partial_cmp a b) = true <-> p <= q).
Proof. exact OrderFacts.card_operators. Qed.
Print Assumptions C79_card_operators.
Theorem C79_rank_operators : forall a b,
  (op_gt (rank_partial_cmp a b) = true <-> pips b < pips a) /\ (op_lt (rank_partial_cmp a b) = true <-> pips a < pips b)
  /\ (op_ge (rank_partial_cmp a b) = true <-> pips b <= pips a) /\ (op_le (rank_partial_cmp a b) = true <-> pips a <= pips b).
Proof. exact OrderFacts.rank_operators. Qed.
Print Assumptions C79_rank_operators.
(** and between classes which outranks the other. *)
Theorem C79_class_operators : forall a b,
  (op_gt (class_partial_cmp a b) = true <-> outranks a b) /\ (op_lt (class_partial_cmp a b) = true <-> outranks b a)
  /\ (op_ge (class_partial_cmp a b) = true <-> a = b \/ outranks a b)
  /\ (op_le (class_partial_cmp a b) = true <-> a = b \/ outranks b a).
Proof. exact OrderFacts.class_operators. Qed.
Print Assumptions C79_class_operators.
(** By any of the orders, [max] over an iterator is the last of the greatest, [min] the first of the least. *)
Theorem C79_choosing : forall A (cmp : A -> A -> comparison), total_order cmp -> forall l m,
  (iter_max cmp l = Some m <-> last_greatest cmp l m) /\ (iter_min cmp l = Some m <-> first_least cmp l m)
  /\ (iter_max cmp l = None <-> l = []) /\ (iter_min cmp l = None <-> l = []).
Proof. exact @OrderFacts.choosing. Qed.
Print Assumptions C79_choosing.
(** [clamp] panics exactly if the bounds are crossed, and otherwise is the nearest value within them. *)
Theorem C79_clamp : forall A (cmp : A -> A -> comparison), total_order cmp -> forall pcmp x low high,
  (forall a b, pcmp a b = Some (cmp a b)) ->
  (cmp low high = Gt -> cmp_clamp pcmp x low high = Panic AssertFailed)
  /\ (cmp low high <> Gt -> exists y, cmp_clamp pcmp x low high = Ret y
        /\ cmp low y <> Gt /\ cmp y high <> Gt
        /\ (cmp low x <> Gt -> cmp x high <> Gt -> y = x)
        /\ (cmp x low = Lt -> y = low) /\ (cmp x high = Gt -> y = high)).
Proof. exact @OrderFacts.clamped. Qed.
Print Assumptions C79_clamp.
(** A stable sort is determined by the order. *)
Theorem C79_sorting : forall A (cmp : A -> A -> comparison), total_order cmp -> forall l,
  in_order cmp l (slice_sort cmp l) /\ stable cmp l (slice_sort cmp l)
  /\ forall l', in_order cmp l l' -> stable cmp l l' -> l' = slice_sort cmp l.
Proof. exact @OrderFacts.sorting. Qed.
Print Assumptions C79_sorting.
(** Sorting a hand puts its ranks in order and does not change its worth. *)
Theorem C79_sorted_hand : forall ev h, new_evaluator ev -> all_cards h ->
  (forall e, evaluates ev h e <-> evaluates ev (slice_sort card_cmp h) e)
  /\ StronglySorted (fun a b => pips (card_rank a) <= pips (card_rank b)) (slice_sort card_cmp h).
Proof. exact OrderFacts.sorted_hand. Qed.
Print Assumptions C79_sorted_hand.
(** Results of evaluations have only one order, so that an unstable sort will do. *)
Theorem C79_sorted_results : forall ev es l, new_evaluator ev ->
  Forall (fun e => exists h, all_cards h /\ evaluates ev h e) es -> in_order eval_cmp es l -> l = slice_sort eval_cmp es.
Proof. exact OrderFacts.sorted_results. Qed.
Print Assumptions C79_sorted_results.
(** An ordered set has one of each group of elements that compare equal, and extending it keeps those it had. *)
Theorem C79_collecting : forall A (cmp : A -> A -> comparison), total_order cmp -> forall l s,
  one_of_each cmp s s -> one_of_each cmp (s ++ l) (tree_extend cmp s l) /\ incl s (tree_extend cmp s l).
Proof. exact @OrderFacts.collecting. Qed.
Print Assumptions C79_collecting.
(** So an ordered set of cards, however it was built, has one card of each rank: it cannot hold a hand. *)
Theorem C79_card_set : forall h s, all_cards h -> one_of_each card_cmp h s ->
  NoDup (map card_rank s) /\ length s <= 13 /\ (forall r, In r (map card_rank s) <-> In r (map card_rank h))
  /\ forall c, tree_contains card_cmp s c = true <-> In (card_rank c) (map card_rank h).
Proof. exact OrderFacts.card_set. Qed.
Print Assumptions C79_card_set.
(** What is left of a hand in such a set is a high card, a straight, a flush, a straight flush or too small. *)
Theorem C79_card_set_evaluated : forall ev h s, new_evaluator ev -> all_cards h -> one_of_each card_cmp h s ->
  (length s < 5 -> evaluate ev s = Ret (Err (InvalidHandSize (length s))))
  /\ (5 <= length s -> exists e, evaluates ev s e /\ In (category (eval_class_of e)) [0; 4; 5; 8]).
Proof. exact OrderFacts.card_set_evaluated. Qed.
Print Assumptions C79_card_set_evaluated.
(** An ordered set of results loses nothing but repetitions. *)
Theorem C79_result_set : forall ev es s, new_evaluator ev ->
  Forall (fun e => exists h, all_cards h /\ evaluates ev h e) es -> one_of_each eval_cmp es s ->
  (forall e, In e s <-> In e es) /\ NoDup s /\ (Z.of_nat (length s) <= 7462)%Z
  /\ forall e, (exists h, all_cards h /\ evaluates ev h e) -> (tree_contains eval_cmp s e = true <-> In e es).
Proof. exact OrderFacts.result_set. Qed.
Print Assumptions C79_result_set.
(** The usual way to remove repetitions, [sort] and then [dedup], works for results *)
Theorem C79_sort_dedup_results : forall ev es, new_evaluator ev ->
  Forall (fun e => exists h, all_cards h /\ evaluates ev h e) es ->
  let l := vec_dedup eval_eqb (slice_sort eval_cmp es) in NoDup l /\ forall e, In e l <-> In e es.
Proof. exact OrderFacts.dedup_results. Qed.
Print Assumptions C79_sort_dedup_results.
(** and not for cards. *)
Theorem C79_sort_dedup_cards_refuted : exists h, all_cards h /\ ~ NoDup (vec_dedup card_eqb (slice_sort card_cmp h)).
Proof. exact OrderFacts.dedup_cards. Qed.
Print Assumptions C79_sort_dedup_cards_refuted.

(** Kings full of twos, sorted, and what an ordered set keeps of it; the set of the whole deck *)
Definition kings_full : list card :=
  cards_macro_idents [(King, Spades); (Two, Hearts); (King, Clubs); (Two, Spades); (King, Hearts)].
Example C79_case :
  faces (slice_sort card_cmp kings_full) = [(Two, Hearts); (Two, Spades); (King, Spades); (King, Clubs); (King, Hearts)]
  /\ faces (tree_extend card_cmp [] kings_full) = [(Two, Hearts); (King, Spades)]
  /\ tree_contains card_cmp (tree_extend card_cmp [] kings_full) (card_new King Diamonds) = true
  /\ option_map face_of (iter_max card_cmp kings_full) = Some (King, Hearts)
  /\ option_map face_of (iter_min card_cmp kings_full) = Some (Two, Hearts)
  /\ length (tree_extend card_cmp [] deck_generate) = 13
  /\ cmp_clamp eval_partial_cmp EVAL_BEST EVAL_WORST EVAL_WORST = Ret EVAL_WORST
  /\ cmp_clamp eval_partial_cmp EVAL_BEST EVAL_BEST EVAL_WORST = Panic AssertFailed.
Proof. vm_compute. repeat split. Qed.
Example C79_case_results : exists ev, new_evaluator ev
  /\ Forall (fun e => exists h, all_cards h /\ evaluates ev h e) [EVAL_BEST; EVAL_WORST; EVAL_BEST]
  /\ slice_sort eval_cmp [EVAL_BEST; EVAL_WORST; EVAL_BEST] = [EVAL_WORST; EVAL_BEST; EVAL_BEST]
  /\ tree_extend eval_cmp [] [EVAL_BEST; EVAL_WORST; EVAL_BEST] = [EVAL_WORST; EVAL_BEST].
Proof.
  destruct HandFacts.evaluator_new_ret as [ev H]. exists ev. split; [exact H|].
  destruct (LawFacts.extremes_attained ev H) as ((b & Hb & Eb) & (w & Hw & Ew)).
  split; [|split; reflexivity].
  apply Forall_cons; [exists b; exact (conj (proj1 Hb) Eb)|]. apply Forall_cons; [exists w; exact (conj (proj1 Hw) Ew)|].
  apply Forall_cons; [exists b; exact (conj (proj1 Hb) Eb)|constructor].
Qed.
