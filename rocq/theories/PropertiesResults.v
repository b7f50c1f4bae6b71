(** PropertiesResults.v: C10, C11, C30 (results), C28 (combinations). *)
From Coq Require Import Lia List Arith Bool Permutation Sorted String.
From Verif Require Import Base ModelCard ModelEval ModelTable ModelEvaluation.
From Verif Require Import Spec SpecApi SpecText.
From Verif Require CardFacts HandFacts ClassFacts LawFacts CombosFacts.
Import ListNotations.

(** C10: results are totally ordered; everything else agrees with the order. *)
Theorem C10_total_order : forall a b c : eval,
  eval_cmp a a = Eq
  /\ eval_cmp b a = CompOpp (eval_cmp a b)
  /\ (eval_cmp a b <> Gt -> eval_cmp b c <> Gt -> eval_cmp a c <> Gt)
  /\ (eval_cmp a b = Eq <-> eval_eqb a b = true)
  /\ eval_partial_cmp a b = Some (eval_cmp a b).
Proof. exact LawFacts.eval_order. Qed.
Print Assumptions C10_total_order.
Theorem C10_methods : forall a b : eval,
  (eval_is_better_than a b = true <-> eval_cmp a b = Gt)
  /\ (eval_is_worse_than a b = true <-> eval_cmp a b = Lt)
  /\ (eval_is_equal_to a b = true <-> eval_eqb a b = true)
  /\ (eval_eqb a b = true ->
        forall H (write_i16 : H -> Z -> H) (state : H),
          eval_hash write_i16 a state = eval_hash write_i16 b state).
Proof. exact LawFacts.eval_methods. Qed.
Print Assumptions C10_methods.
Example C10_case : eval_cmp EVAL_BEST EVAL_WORST = Gt /\ eval_is_better_than EVAL_BEST EVAL_WORST = true
  /\ eval_hash (fun s x => x :: s) EVAL_WORST [] = [7462%Z].
Proof. repeat split. Qed.

(** C11: the predicates. *)
Theorem C11_predicates : forall e : eval,
  (eval_is_high_card e = true <-> exists h, eval_class_of e = HighCard h)
  /\ (eval_is_pair e = true <-> exists p, eval_class_of e = Pair p)
  /\ (eval_is_two_pair e = true <-> exists a b, eval_class_of e = TwoPair a b)
  /\ (eval_is_three_of_a_kind e = true <-> exists t, eval_class_of e = ThreeOfAKind t)
  /\ (eval_is_straight e = true <-> exists h, eval_class_of e = Straight h)
  /\ (eval_is_flush e = true <-> exists h, eval_class_of e = Flush h)
  /\ (eval_is_full_house e = true <-> exists t p, eval_class_of e = FullHouse t p)
  /\ (eval_is_four_of_a_kind e = true <-> exists q, eval_class_of e = FourOfAKind q)
  /\ (eval_is_straight_flush e = true <-> exists h, eval_class_of e = StraightFlush h)
  /\ (eval_is_royal_flush e = true <-> eval_is_straight_flush e = true /\ eval_eqb e EVAL_BEST = true)
  /\ count_occ Bool.bool_dec
       [eval_is_high_card e; eval_is_pair e; eval_is_two_pair e; eval_is_three_of_a_kind e;
        eval_is_straight e; eval_is_flush e; eval_is_full_house e; eval_is_four_of_a_kind e;
        eval_is_straight_flush e] true = 1.
Proof. exact LawFacts.is_predicates. Qed.
Print Assumptions C11_predicates.
Example C11_case : eval_is_royal_flush EVAL_BEST = true /\ eval_is_high_card EVAL_WORST = true.
Proof. split; reflexivity. Qed.

(** C30: text. *)
Theorem C30_text : forall e, eval_display e = lit (hand_name (eval_class_of e)).
Proof. exact LawFacts.eval_display_spec. Qed.
Print Assumptions C30_text.
Theorem C30_text_determines_class : forall e1 e2,
  eval_display e1 = eval_display e2 <-> eval_class_of e1 = eval_class_of e2.
Proof. exact LawFacts.eval_display_class. Qed.
Print Assumptions C30_text_determines_class.
Example C30_case :
  eval_display EVAL_BEST = lit "Royal flush"
  /\ eval_display (MkEval (MFullHouse (PokerHandRank 200) Six Two)) = lit "Full house, sixes over twos".
Proof. split; reflexivity. Qed.

(** C28: the combination generator: every choice of [n] positions once, in lexicographic order,
    then [None]; a [for] loop over it runs the body on exactly these. *)
Theorem C28_combinations : forall T n (items : list T) d, 1 <= n <= List.length items ->
  exists Is, (forall I, In I Is <-> choice n (List.length items) I)
    /\ StronglySorted lex_lt Is
    /\ iterates (combinations_new n items) (map (map (fun i => nth i items d)) Is)
    /\ (forall St (body : St -> list T -> outcome St) s,
          for_const_combos n items body s = foldM body (map (map (fun i => nth i items d)) Is) s).
Proof. exact @CombosFacts.combos_iterate. Qed.
Print Assumptions C28_combinations.
Theorem C28_too_few : forall T n (items : list T), List.length items < n ->
  exists p, combinations_next (combinations_new n items) = Panic p.
Proof. exact @CombosFacts.combinations_short. Qed.
Print Assumptions C28_too_few.
Theorem C28_sequence_determined : forall T (c : combinations T) l1, iterates c l1 ->
  forall l2, iterates c l2 -> l1 = l2.
Proof. exact @CombosFacts.iterates_fun. Qed.
Print Assumptions C28_sequence_determined.
Example C28_case : for_const_combos 2 [10; 20; 30] (fun l x => Ret (l ++ [x])) []
  = Ret [[10; 20]; [10; 30]; [20; 30]].
Proof. reflexivity. Qed.
