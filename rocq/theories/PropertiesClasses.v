(** PropertiesClasses.v: C57-C62 (the order of the classes, the classes there are, the random
    indices behind the shuffles, printed numbers, hands alike, the values of six and seven cards). *)
From Coq Require Import Lia List Arith Bool Permutation ZArith.
From Verif Require Import Base ModelCard ModelEval ModelTable ModelEvaluation ModelExamples ModelRand.
From Verif Require Import Spec SpecApi SpecExamples SpecRand SpecMore.
From Verif Require HandFacts ClassFacts ClassOrderFacts RandFacts NumberFacts AlikeFacts ValuesComplete.
Import ListNotations.

(** C57: the order of [EvalClass] and [Rank]. *)
Theorem C57_classes : forall a b,
  (class_cmp a b = Gt <-> outranks a b) /\ (class_cmp a b = Eq <-> a = b) /\ (class_cmp a b = Lt <-> outranks b a).
Proof. exact ClassOrderFacts.class_cmp_spec. Qed.
Print Assumptions C57_classes.
Theorem C57_strict : (forall a, ~ outranks a a) /\ (forall a b c, outranks a b -> outranks b c -> outranks a c).
Proof. exact (conj ClassOrderFacts.outranks_irrefl ClassOrderFacts.outranks_trans). Qed.
Print Assumptions C57_strict.
Theorem C57_ranks : forall a b, rank_cmp a b = Nat.compare (pips a) (pips b).
Proof. exact ClassFacts.rank_cmp_pips. Qed.
Print Assumptions C57_ranks.
Example C57_case : outranks (TwoPair King Three) (TwoPair King Two)
  /\ outranks (FullHouse Three Two) (FullHouse Two Ace) /\ outranks (StraightFlush Five) (FourOfAKind Ace).
Proof. unfold outranks. cbn. repeat split; try lia; right; (split; [reflexivity|]); cbn; intuition lia. Qed.

(** C58: the classes that an evaluation of five or more cards can report. *)
Theorem C58_classes_reported : forall ev, new_evaluator ev -> forall c,
  (exists h e, legal h /\ evaluates ev h e /\ eval_class_of e = c) <-> possible c.
Proof. exact ClassOrderFacts.classes_occur. Qed.
Print Assumptions C58_classes_reported.
Theorem C58_number : exists L, NoDup L /\ length L = 309 /\ forall c, In c L <-> possible c.
Proof. exact ClassOrderFacts.possible_309. Qed.
Print Assumptions C58_number.
Example C58_case : (exists ev, new_evaluator ev)
  /\ possible (HighCard Seven) /\ ~ possible (HighCard Six) /\ possible (Straight Five) /\ ~ possible (TwoPair Two Two).
Proof. split; [exact HandFacts.evaluator_new_ret|]. cbn. lia. Qed.

(** C59: the indices that rand draws for a shuffle.  Every index comes from equally many words, and at
    least half of the words give one. *)
Theorem C59_index_unbiased : forall W r, (0 < W -> 0 < r < 2 ^ W -> exists c, copies W r c
  /\ forall j, 0 <= j < r -> exists L, NoDup L /\ Z.of_nat (length L) = c
       /\ forall v, In v L <-> word_of W v /\ sample W r v = Some j)%Z.
Proof. exact RandFacts.indices_unbiased. Qed.
Print Assumptions C59_index_unbiased.
Theorem C59_index_range : forall R fuel (next : Z -> R -> Z * R) rng n j rng',
  (forall W rng, word_of W (fst (next W rng))) -> (0 < n < 2 ^ 64)%Z ->
  gen_index fuel next rng n = Ret (j, rng') -> (0 <= j < n)%Z.
Proof. exact @RandFacts.gen_index_range. Qed.
Print Assumptions C59_index_range.
(** A shuffle over words is one of the shuffles over answers. *)
Theorem C59_refines : forall R fuel (next : Z -> R -> Z * R) (l d : list card) rng rng',
  (forall W rng, word_of W (fst (next W rng))) -> (Z.of_nat (length l) < 2 ^ 64)%Z ->
  word_shuffle fuel next l rng = Ret (d, rng') ->
  exists js, answers (length l) js /\ shuffle script l js = Ret (d, []).
Proof. exact (fun R => @RandFacts.word_shuffle_answers card R). Qed.
Print Assumptions C59_refines.
(** Each order of the cards comes from equally many sequences of words without a rejected one. *)
Theorem C59_shuffle_fair : forall l : list card, NoDup l -> (Z.of_nat (length l) < 2 ^ 32)%Z -> exists c,
  weight (length l) c /\ (0 < c)%Z
  /\ forall d, Permutation l d -> exists L, NoDup L /\ Z.of_nat (length L) = c
       /\ forall ws, In ws L <-> length ws = length l - 1 /\ Forall (word_of 32) ws
                                 /\ word_shuffle 1 prepared l ws = Ret (d, []).
Proof. exact (@RandFacts.all_orders card). Qed.
Print Assumptions C59_shuffle_fair.
(** A word that is accepted and one that is rejected; one shuffle of three cards with words; the
    number of words for each index below 52. *)
Example C59_case :
  let l := [card_new Ace Spades; card_new King Spades; card_new Two Clubs] in
  NoDup l /\ sample 32 52 2147483648 = Some 26%Z /\ sample 32 52 4294967295 = None
  /\ copies 32 52 67108864
  /\ word_shuffle 1 prepared l [0; 2147483648]%Z
     = Ret ([card_new Two Clubs; card_new King Spades; card_new Ace Spades], []).
Proof.
  split; [repeat constructor; cbn; intuition discriminate|]. split; [reflexivity|]. split; [reflexivity|].
  split; [exists 26%Z; split; [lia|split; [reflexivity|cbn; lia]]|]. reflexivity.
Qed.

(** C60: numbers are printed in decimal without leading zeros, *)
Theorem C60_printed : forall n, decimal (dec n) (Z.of_N n) /\ (hd 0%N (dec n) = 48%N -> n = 0%N).
Proof. exact NumberFacts.dec_decimal. Qed.
Print Assumptions C60_printed.
(** and what the game prints, it reads as the same number. *)
Theorem C60_read_back : forall z, (0 <= z < 2 ^ 64)%Z -> parse_usize (show z) = Some z.
Proof. exact NumberFacts.show_read. Qed.
Print Assumptions C60_read_back.
Example C60_case : dec 7462 = [55; 52; 54; 50]%N /\ dec 0 = [48%N] /\ (0 <= 18446744073709551615 < 2 ^ 64)%Z.
Proof. split; [reflexivity|]. split; [reflexivity|]. lia. Qed.

(** C61: how many five-card hands tie with a given one, itself included. *)
Theorem C61_hands_alike : forall ev h e, new_evaluator ev -> hand5 h -> evaluates ev h e ->
  exists L, NoDup L
    /\ (forall g, In g L <-> sublist g deck_generate /\ length g = 5
                             /\ exists e', evaluates ev g e' /\ eval_eqb e' e = true)
    /\ Z.of_nat (length L) = alike (category (eval_class_of e)).
Proof. exact AlikeFacts.alike_count. Qed.
Print Assumptions C61_hands_alike.
Example C61_case : exists ev e, new_evaluator ev
  /\ hand5 (map (fun r => card_new r Spades) [Ace; King; Queen; Jack; Ten])
  /\ evaluates ev (map (fun r => card_new r Spades) [Ace; King; Queen; Jack; Ten]) e.
Proof.
  destruct HandFacts.evaluator_new_ret as (ev & H). exists ev.
  assert (A : hand5 (map (fun r => card_new r Spades) [Ace; King; Queen; Jack; Ten])).
  { split; [repeat constructor; apply CardFacts.a_card_new|]. split; [|reflexivity]. repeat constructor; cbn; intuition discriminate. }
  destruct (HandFacts.evaluate_spec ev _ H (HandFacts.hand5_legal _ A)) as (e & E & _). exists e. tauto.
Qed.

(** C62: the values that hands of six cards can have, *)
Theorem C62_six_cards : forall ev, new_evaluator ev -> exists l, Z.of_nat (length l) = 6075%Z /\ descending l
  /\ forall e, In e l <-> exists h, legal h /\ length h = 6 /\ evaluates ev h e.
Proof. exact ValuesComplete.six_values. Qed.
Print Assumptions C62_six_cards.
(** and hands of seven. *)
Theorem C62_seven_cards : forall ev, new_evaluator ev -> exists l, Z.of_nat (length l) = 4824%Z /\ descending l
  /\ forall e, In e l <-> exists h, legal h /\ length h = 7 /\ evaluates ev h e.
Proof. exact ValuesComplete.seven_values. Qed.
Print Assumptions C62_seven_cards.
Example C62_case : exists ev, new_evaluator ev.
Proof. exact HandFacts.evaluator_new_ret. Qed.
