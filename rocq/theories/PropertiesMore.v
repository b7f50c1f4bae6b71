(** PropertiesMore.v: C43-C50 (hand sizes, fairness of the shuffle, equal evaluators, both ends of a
    parse iterator, categories, odds and worth of larger hands). *)
From Coq Require Import Lia String List Arith Bool Permutation ZArith.
From Verif Require Import Base ModelCard ModelEval ModelTable ModelEvaluation.
From Verif Require Import Spec SpecApi SpecText SpecBest Samples.
From Verif Require HandFacts SizeFacts WeakFacts ShuffleFacts EqFacts TextFacts CategoryFacts DealFacts
  WorthFacts.
Import ListNotations.

(** C43: how good a hand of [length h] different cards has to be. *)
Theorem C43_size_guarantees : forall ev h e, new_evaluator ev -> all_cards h -> evaluates ev h e ->
  guaranteed (length h) <= category (eval_class_of e).
Proof. exact SizeFacts.size_guarantees. Qed.
Print Assumptions C43_size_guarantees.
(** No size guarantees more. *)
Theorem C43_size_tight : forall ev n, new_evaluator ev -> 5 <= n <= 52 ->
  exists h e, legal h /\ length h = n /\ evaluates ev h e /\ category (eval_class_of e) = guaranteed n.
Proof. exact SizeFacts.size_tight. Qed.
Print Assumptions C43_size_tight.
(** 49 cards or more hold a royal flush; 48 need not. *)
Theorem C43_best_from_49 : forall ev h e, new_evaluator ev -> all_cards h -> evaluates ev h e ->
  49 <= length h -> e = EVAL_BEST.
Proof. exact SizeFacts.size_royal. Qed.
Print Assumptions C43_best_from_49.
Theorem C43_not_from_48 : forall ev, new_evaluator ev ->
  exists h e, legal h /\ length h = 48 /\ evaluates ev h e /\ e <> EVAL_BEST.
Proof. exact SizeFacts.size_royal_tight. Qed.
Print Assumptions C43_not_from_48.
(** Seventeen cards always make a flush at least; sixteen (four of each suit) need not. *)
Example C43_case : guaranteed 17 = category (Flush Ace) /\ guaranteed 16 = category (TwoPair Ace King)
  /\ exists ev h e, new_evaluator ev /\ all_cards h /\ evaluates ev h e /\ length h = 51.
Proof.
  split; [reflexivity|]. split; [reflexivity|].
  assert (L : legal (cards_macro_idents (tl (list_prod RANK_ALL_VARIANTS SUIT_ALL_VARIANTS))))
    by (apply idents_legal; [vm_compute; reflexivity|cbn; lia]).
  destruct (legal_evaluates _ L) as (ev & e & Hev & E). exists ev, (cards_macro_idents (tl (list_prod RANK_ALL_VARIANTS SUIT_ALL_VARIANTS))), e.
  split; [exact Hev|]. split; [exact (proj1 L)|]. split; [exact E|reflexivity].
Qed.

(** C44: no hand of up to eleven cards is worse than the five cards [weakest] (SpecApi.v) names, and
    one hand of each size is no better. *)
Theorem C44_weakest_bound : forall ev h e w ew, new_evaluator ev ->
  legal h -> evaluates ev h e -> length h <= 11 ->
  hand5 w -> Permutation (ranks (faces w)) (weakest (length h)) -> ~ suited (faces w) ->
  evaluates ev w ew -> eval_cmp e ew <> Lt.
Proof. exact WeakFacts.weakest_bound. Qed.
Print Assumptions C44_weakest_bound.
Theorem C44_weakest_attained : forall ev n, new_evaluator ev -> 5 <= n <= 11 ->
  exists h e w ew, legal h /\ length h = n /\ evaluates ev h e
    /\ hand5 w /\ Permutation (ranks (faces w)) (weakest n) /\ ~ suited (faces w)
    /\ evaluates ev w ew /\ eval_cmp e ew = Eq.
Proof. exact WeakFacts.weakest_attained. Qed.
Print Assumptions C44_weakest_attained.
(** A seven-card hand against nine-high, the worst seven cards can do. *)
Definition nine_high : list face :=
  [(Nine, Clubs); (Eight, Hearts); (Seven, Clubs); (Five, Spades); (Four, Clubs)].
Example C44_case : exists ev e ew,
  new_evaluator ev /\ legal (cards_macro_idents holdem) /\ evaluates ev (cards_macro_idents holdem) e
  /\ length (cards_macro_idents holdem) = 7 /\ hand5 (cards_macro_idents nine_high)
  /\ Permutation (ranks (faces (cards_macro_idents nine_high))) (weakest 7)
  /\ ~ suited (faces (cards_macro_idents nine_high)) /\ evaluates ev (cards_macro_idents nine_high) ew.
Proof.
  assert (L : legal (cards_macro_idents holdem))
    by (apply idents_legal; [vm_compute; reflexivity|cbn; lia]).
  assert (F : hand5 (cards_macro_idents nine_high)) by (apply idents_hand5; reflexivity).
  destruct (legal_evaluates _ L) as (ev & e & Hev & E).
  destruct (HandFacts.evaluate_spec ev _ Hev (HandFacts.hand5_legal _ F)) as (ew & Ew & _).
  exists ev, e, ew. split; [exact Hev|]. split; [exact L|]. split; [exact E|]. split; [reflexivity|].
  split; [exact F|]. rewrite idents_faces. split; [apply Permutation_refl|]. split; [|exact Ew].
  intros (s & S). pose proof (Forall_inv S) as A. pose proof (Forall_inv (Forall_inv_tail S)) as B.
  cbn in A, B. congruence.
Qed.

(** C45: every order of the deck comes from exactly one list of answers of the random source, so
    uniform answers give a uniform order. *)
Theorem C45_one_script_per_order : forall d, Permutation deck_generate d ->
  exists! js, answers 52 js /\ shuffled_with script js = Ret (d, []).
Proof. exact ShuffleFacts.shuffle_fair. Qed.
Print Assumptions C45_one_script_per_order.
(** And every list of answers gives an order of the deck. *)
Theorem C45_every_script_shuffles : forall js, answers 52 js ->
  exists d, shuffled_with script js = Ret (d, []) /\ Permutation deck_generate d.
Proof. exact ShuffleFacts.shuffle_scripted. Qed.
Print Assumptions C45_every_script_shuffles.
(** And the numbers asked for, of any source that keeps within bounds, are one below 52, one below
    51, and so on down to one below 2. *)
Theorem C45_bounds_asked : forall R (gen : R -> nat -> nat * R) rng,
  (forall rng n, 0 < n -> fst (gen rng n) < n) ->
  exists d rng', shuffled_with (recording gen) (rng, []) = Ret (d, (rng', rev (seq 2 51)))
    /\ Permutation deck_generate d.
Proof. exact @ShuffleFacts.bounds_asked. Qed.
Print Assumptions C45_bounds_asked.
Example C45_case : answers 4 [3; 0; 1] /\ ~ answers 4 [3; 3; 0] /\ ~ answers 4 [0; 0; 0; 0]
  /\ answers 52 (repeat 0 51).
Proof. cbn. repeat split; try lia. intros (_ & _ & _ & H). discriminate H. Qed.

(** C46: [==] on evaluators is an equivalence that clones keep, and equal evaluators give equal
    verdicts on every input. *)
Theorem C46_equivalence : forall a b c : evaluator,
  evaluator_eqb a a = true /\ evaluator_eqb a b = evaluator_eqb b a
  /\ (evaluator_eqb a b = true -> evaluator_eqb b c = true -> evaluator_eqb a c = true)
  /\ evaluator_eqb a (evaluator_clone a) = true.
Proof. exact EqFacts.evaluator_eq_laws. Qed.
Print Assumptions C46_equivalence.
Theorem C46_equal_evaluators_agree : forall a b : evaluator, evaluator_eqb a b = true ->
  forall h, same_verdict (evaluate a h) (evaluate b h).
Proof. exact EqFacts.equal_evaluators_agree. Qed.
Print Assumptions C46_equal_evaluators_agree.
Theorem C46_built_are_equal : forall a b : evaluator, built a -> built b -> evaluator_eqb a b = true.
Proof. exact EqFacts.built_equal. Qed.
Print Assumptions C46_built_are_equal.
Theorem C46_built_not_default : forall a : evaluator, built a -> evaluator_eqb a evaluator_default = false.
Proof. exact EqFacts.built_not_default. Qed.
Print Assumptions C46_built_not_default.
Example C46_case : exists a, built a /\ built (evaluator_clone a).
Proof.
  destruct HandFacts.evaluator_new_ret as [ev Hev]. exists ev.
  split; [|apply built_clone]; apply built_new; exact Hev.
Qed.

(** C47: whatever was taken from the two ends of a parse iterator, nothing is lost, repeated or out
    of order, and the length it reports is what is left.  (This is about the trait impls at
    src/card/mod.rs:341-365.  The declared return type of [parse_to_iter], [ParseToIter<impl
    Iterator>], lets callers outside the crate use [next] and [size_hint] only.) *)
Theorem C47_both_ends : forall ss fs bs it, takes (parse_to_iter ss) fs bs it ->
  (exists l, yields it l /\ map card_from_str ss = (fs ++ l ++ rev bs)%list
     /\ pi_len it = length l /\ pi_size_hint it = (length l, Some (length l)))
  /\ (forall it', pi_next it = (None, it') <-> length fs + length bs = length ss /\ it' = it)
  /\ (forall it', pi_next_back it = (None, it') <-> length fs + length bs = length ss /\ it' = it).
Proof. exact EqFacts.both_ends. Qed.
Print Assumptions C47_both_ends.
Local Open Scope string_scope.
Example C47_case : exists it,
  takes (parse_to_iter [lit "Ks"; lit "xx"; lit "2c"; lit "Td"])
    [card_from_str (lit "Ks"); card_from_str (lit "xx")] [card_from_str (lit "Td")] it
  /\ pi_len it = 1.
Proof.
  eexists. split.
  - eapply takes_front; [reflexivity|]. eapply takes_back; [reflexivity|].
    eapply takes_front; [reflexivity|]. apply takes_none.
  - reflexivity.
Qed.
Local Close Scope string_scope.

(** C48: whatever the size of the hand, its category is the best one whose pattern it holds ([holds],
    SpecApi.v). *)
Theorem C48_best_pattern : forall ev h e, new_evaluator ev -> all_cards h -> evaluates ev h e ->
  holds (faces h) (category (eval_class_of e))
  /\ forall k, holds (faces h) k -> k <= category (eval_class_of e).
Proof. exact CategoryFacts.category_holds. Qed.
Print Assumptions C48_best_pattern.
(** Five clubs and a pair of aces. *)
Example C48_case : holds holdem 5 /\ holds holdem 1 /\ ~ holds holdem 7
  /\ exists ev e, new_evaluator ev /\ evaluates ev (cards_macro_idents holdem) e
     /\ 5 <= category (eval_class_of e).
Proof.
  assert (F : holds holdem 5).
  { exists [(Three, Clubs); (Five, Clubs); (Jack, Clubs); (Ten, Clubs); (Ace, Clubs)]. split; [split|split].
    - apply HandFacts.nodupb_NoDup. reflexivity.
    - reflexivity.
    - intros f I. simpl in *. tauto.
    - exists Clubs. repeat constructor. }
  split; [exact F|]. split; [exists Ace; vm_compute; lia|].
  split; [intros (r & Q); destruct r; vm_compute in Q; discriminate Q|].
  assert (L : legal (cards_macro_idents holdem))
    by (apply idents_legal; [vm_compute; reflexivity|cbn; lia]).
  destruct (legal_evaluates _ L) as (ev & e & Hev & E). exists ev, e.
  split; [exact Hev|]. split; [exact E|].
  apply (CategoryFacts.category_holds ev _ e Hev (proj1 L) E). rewrite idents_faces. exact F.
Qed.

(** C49: the odds of six- and seven-card poker. *)
Theorem C49_six_card_odds : forall ev, new_evaluator ev -> exists L es,
  NoDup L
  /\ (forall h, In h L <-> sublist h deck_generate /\ length h = 6)
  /\ Forall2 (evaluates ev) L es
  /\ Z.of_nat (length L) = 20358520%Z
  /\ Z.of_nat (length (filter eval_is_royal_flush es)) = 188%Z
  /\ Z.of_nat (length (filter eval_is_straight_flush es)) = 1844%Z
  /\ Z.of_nat (length (filter eval_is_four_of_a_kind es)) = 14664%Z
  /\ Z.of_nat (length (filter eval_is_full_house es)) = 165984%Z
  /\ Z.of_nat (length (filter eval_is_flush es)) = 205792%Z
  /\ Z.of_nat (length (filter eval_is_straight es)) = 361620%Z
  /\ Z.of_nat (length (filter eval_is_three_of_a_kind es)) = 732160%Z
  /\ Z.of_nat (length (filter eval_is_two_pair es)) = 2532816%Z
  /\ Z.of_nat (length (filter eval_is_pair es)) = 9730740%Z
  /\ Z.of_nat (length (filter eval_is_high_card es)) = 6612900%Z.
Proof. exact DealFacts.six_odds. Qed.
Print Assumptions C49_six_card_odds.
Theorem C49_seven_card_odds : forall ev, new_evaluator ev -> exists L es,
  NoDup L
  /\ (forall h, In h L <-> sublist h deck_generate /\ length h = 7)
  /\ Forall2 (evaluates ev) L es
  /\ Z.of_nat (length L) = 133784560%Z
  /\ Z.of_nat (length (filter eval_is_royal_flush es)) = 4324%Z
  /\ Z.of_nat (length (filter eval_is_straight_flush es)) = 41584%Z
  /\ Z.of_nat (length (filter eval_is_four_of_a_kind es)) = 224848%Z
  /\ Z.of_nat (length (filter eval_is_full_house es)) = 3473184%Z
  /\ Z.of_nat (length (filter eval_is_flush es)) = 4047644%Z
  /\ Z.of_nat (length (filter eval_is_straight es)) = 6180020%Z
  /\ Z.of_nat (length (filter eval_is_three_of_a_kind es)) = 6461620%Z
  /\ Z.of_nat (length (filter eval_is_two_pair es)) = 31433400%Z
  /\ Z.of_nat (length (filter eval_is_pair es)) = 58627800%Z
  /\ Z.of_nat (length (filter eval_is_high_card es)) = 23294460%Z.
Proof. exact DealFacts.seven_odds. Qed.
Print Assumptions C49_seven_card_odds.
(** The categories are disjoint and cover everything. *)
Example C49_case : (exists ev, new_evaluator ev)
  /\ (41584 + 224848 + 3473184 + 4047644 + 6180020 + 6461620 + 31433400 + 58627800 + 23294460
      = 133784560)%Z
  /\ (1844 + 14664 + 165984 + 205792 + 361620 + 732160 + 2532816 + 9730740 + 6612900 = 20358520)%Z.
Proof. split; [exact HandFacts.evaluator_new_ret|]. split; reflexivity. Qed.

(** C50: the class of a hand of any size is the one read off it directly ([best], SpecBest.v: no
    five-card subsets), and two results compare as what is read off the two hands. *)
Theorem C50_class : forall ev h e, new_evaluator ev -> all_cards h -> evaluates ev h e ->
  eval_class_of e = fst (best (faces h)).
Proof. exact WorthFacts.class_best. Qed.
Print Assumptions C50_class.
Theorem C50_compare : forall ev h1 h2 e1 e2, new_evaluator ev -> all_cards h1 -> all_cards h2 ->
  evaluates ev h1 e1 -> evaluates ev h2 e2 ->
  (eval_cmp e1 e2 = Gt <-> worth_more (best (faces h1)) (best (faces h2)))
  /\ (eval_cmp e1 e2 = Eq <-> best (faces h1) = best (faces h2))
  /\ (eval_cmp e1 e2 = Lt <-> worth_more (best (faces h2)) (best (faces h1))).
Proof. exact WorthFacts.worth_compare. Qed.
Print Assumptions C50_compare.
(** Two triples make a full house, which beats five clubs. *)
Definition triples : list face :=
  [(Ten, Clubs); (Ten, Hearts); (Ten, Spades); (Nine, Clubs); (Nine, Hearts); (Nine, Spades); (Ace, Hearts)].
Example C50_case : best holdem = (Flush Ace, [Ace; Jack; Ten; Five; Three])
  /\ best triples = (FullHouse Ten Nine, [Ten; Nine])
  /\ exists ev e1 e2, new_evaluator ev /\ all_cards (cards_macro_idents triples)
     /\ all_cards (cards_macro_idents holdem)
     /\ evaluates ev (cards_macro_idents triples) e1 /\ evaluates ev (cards_macro_idents holdem) e2
     /\ eval_cmp e1 e2 = Gt.
Proof.
  split; [vm_compute; reflexivity|]. split; [vm_compute; reflexivity|].
  assert (L : legal (cards_macro_idents holdem))
    by (apply idents_legal; [vm_compute; reflexivity|cbn; lia]).
  assert (M : legal (cards_macro_idents triples))
    by (apply idents_legal; [vm_compute; reflexivity|cbn; lia]).
  destruct (legal_evaluates _ L) as (ev & e & Hev & E).
  destruct (HandFacts.evaluate_spec ev _ Hev M) as (e' & E' & _).
  exists ev, e', e. split; [exact Hev|]. split; [exact (proj1 M)|]. split; [exact (proj1 L)|].
  split; [exact E'|]. split; [exact E|].
  apply (WorthFacts.worth_compare ev _ _ e' e Hev (proj1 M) (proj1 L) E' E). rewrite !idents_faces.
  left. vm_compute. lia.
Qed.
