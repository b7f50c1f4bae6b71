(** PropertiesDebug.v: C68 ([{:#?}], and [Debug] of [Evaluator]). *)
From Coq Require Import List String NArith ZArith Bool Arith Permutation.
From Verif Require Import Base ModelCard ModelEval ModelTable ModelEvaluation ModelDebug ModelDebugText ModelDebugTree.
From Verif Require Import Spec SpecApi SpecText SpecTable SpecDebug SpecDebugTree.
From Verif Require HandFacts DebugTreeFacts.
Import ListNotations.
Local Open Scope string_scope.
Local Open Scope list_scope.

(** C68: [{:?}] of the trees gives the texts of C53 and C63, also within the [Result] of [evaluate]. *)
Theorem C68_one_line : forall plain,
  (forall c, compact (card_tree c) = card_debug c) /\ (forall c, pretty (card_tree c) = card_debug_pretty c)
  /\ (forall c, compact (class_tree c) = class_debug c) /\ (forall e, compact (eval_tree e) = eval_debug e)
  /\ (forall e, compact (eval_error_tree e) = eval_error_debug e)
  /\ (forall e, compact (parse_card_error_tree plain e) = parse_card_error_debug plain e)
  /\ (forall e, pretty (parse_card_error_tree plain e) = parse_card_error_debug_pretty plain e)
  /\ (forall e, compact (result_tree (Ok e)) = lit "Ok(" ++ eval_debug e ++ lit ")")
  /\ (forall e, compact (result_tree (Err e)) = lit "Err(" ++ eval_error_debug e ++ lit ")").
Proof. exact DebugTreeFacts.compact_texts. Qed.
Print Assumptions C68_one_line.
(** [{:#?}] shows the same characters, but for blanks, line feeds and commas, whatever the value. *)
Theorem C68_same_characters : forall t, squeezed (pretty t) = squeezed (compact t).
Proof. exact DebugTreeFacts.same_characters. Qed.
Print Assumptions C68_same_characters.
(** The lines of [{:#?}], of a class, *)
Theorem C68_class_lines : forall c, pretty (class_tree c) = block (class_lines c).
Proof. exact DebugTreeFacts.class_pretty. Qed.
Print Assumptions C68_class_lines.
(** of a result, *)
Theorem C68_result_lines : forall e, (0 <= phr (eval_hand_rank e))%Z ->
  pretty (eval_tree e) = block (result_lines (dec (Z.to_N (phr (eval_hand_rank e)))) (eval_class_of e)).
Proof. exact DebugTreeFacts.result_pretty. Qed.
Print Assumptions C68_result_lines.
(** and of an error. *)
Theorem C68_error_lines :
  (forall n, pretty (eval_error_tree (InvalidHandSize n))
             = block [(0, lit "InvalidHandSize("); (1, dec (N.of_nat n) ++ lit ","); (0, lit ")")])
  /\ (pretty (eval_error_tree (CardsNotUnique [])) = block [(0, lit "CardsNotUnique("); (1, lit "[],"); (0, lit ")")])
  /\ forall h, all_cards h -> h <> [] -> pretty (eval_error_tree (CardsNotUnique h))
       = block ([(0, lit "CardsNotUnique("); (1, lit "[")] ++ flat_map card_lines h ++ [(1, lit "],"); (0, lit ")")]).
Proof. exact DebugTreeFacts.error_pretty. Qed.
Print Assumptions C68_error_lines.
(** [{:#?}] tells values apart. *)
Theorem C68_classes_apart : forall a b, pretty (class_tree a) = pretty (class_tree b) <-> a = b.
Proof. exact DebugTreeFacts.class_apart. Qed.
Print Assumptions C68_classes_apart.
Theorem C68_results_apart : forall a b, pretty (eval_tree a) = pretty (eval_tree b) <-> a = b.
Proof. exact DebugTreeFacts.result_apart. Qed.
Print Assumptions C68_results_apart.
Theorem C68_errors_apart : forall a b, pretty (eval_error_tree a) = pretty (eval_error_tree b) <-> a = b.
Proof. exact DebugTreeFacts.error_apart. Qed.
Print Assumptions C68_errors_apart.
(** [{:?}] of an [Evaluator] lists every entry of its two tables once, in some order. *)
Theorem C68_evaluator : forall iter_order ev, new_evaluator ev -> (forall l, Permutation l (iter_order l)) ->
  exists F U f u, compact (evaluator_tree iter_order ev)
      = lit "Evaluator(LookupTable { flush_lookup: {" ++ f ++ lit "}, unsuited_lookup: {" ++ u ++ lit "} })"
  /\ listed (map (fun p => entry_text (fst p) (phr (meta_hand_rank (snd p))) (meta_class (snd p))) F) f
  /\ listed (map (fun p => entry_text (fst p) (phr (meta_hand_rank (snd p))) (meta_class (snd p))) U) u
  /\ NoDup (map fst F) /\ NoDup (map fst U)
  /\ Z.of_nat (List.length F) = 1287%Z /\ Z.of_nat (List.length U) = 6175%Z
  /\ (forall k m, In (k, m) F <-> entry (evaluator_table ev) true k m)
  /\ (forall k m, In (k, m) U <-> entry (evaluator_table ev) false k m).
Proof. exact DebugTreeFacts.evaluator_text. Qed.
Print Assumptions C68_evaluator.
Definition unlines (l : list string) : rstring := join [10%N] (map lit l).
Example C68_case :
  pretty (result_tree (Ok EVAL_BEST))
  = unlines ["Ok(";
             "    Eval(";
             "        StraightFlush {";
             "            hand_rank: PokerHandRank(";
             "                1,";
             "            ),";
             "            high_rank: Ace,";
             "        },";
             "    ),";
             ")"]
  /\ pretty (eval_error_tree (CardsNotUnique [card_new Two Clubs; card_new Two Clubs]))
  = unlines ["CardsNotUnique(";
             "    [";
             "        Card {";
             "            unique_integer: 98306,";
             "            rank: Two,";
             "            suit: Clubs,";
             "        },";
             "        Card {";
             "            unique_integer: 98306,";
             "            rank: Two,";
             "            suit: Clubs,";
             "        },";
             "    ],";
             ")"]
  /\ pretty (evaluator_tree (fun l => l) evaluator_default)
  = unlines ["Evaluator(";
             "    LookupTable {";
             "        flush_lookup: {},";
             "        unsuited_lookup: {},";
             "    },";
             ")"]
  /\ pretty (map_tree (fun l => l) (map_insert 31367009 (eval_meta EVAL_BEST) map_empty))
  = unlines ["{";
             "    31367009: StraightFlush {";
             "        hand_rank: PokerHandRank(";
             "            1,";
             "        ),";
             "        high_rank: Ace,";
             "    },";
             "}"]
  /\ entry_text 31367009 1 (StraightFlush Ace)
  = lit "31367009: StraightFlush { hand_rank: PokerHandRank(1), high_rank: Ace }"
  /\ (0 <= phr (eval_hand_rank EVAL_BEST))%Z /\ (forall l : list (Z * meta), Permutation l (rev l))
  /\ exists ev, new_evaluator ev.
Proof.
  do 5 (split; [vm_compute; reflexivity|]). split; [discriminate|]. split; [intros l; apply Permutation_rev|].
  exact HandFacts.evaluator_new_ret.
Qed.
