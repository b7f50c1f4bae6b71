(** PropertiesEvaluate.v: C01-C09, C12, C25-C27, C29, C40 (evaluating hands). *)
From Coq Require Import Lia List Arith Bool Permutation String.
From Verif Require Import Base ModelCard ModelEval ModelTable ModelEvaluation ModelThreads.
From Verif Require Import Spec SpecApi SpecText.
From Verif Require CardFacts HandFacts ClassFacts LawFacts DeckFacts ThreadFacts.
From Verif Require Import Samples.
Import ListNotations.

(** C01: [evaluate] is total; which of its three kinds of answer it gives. *)
Theorem C01_evaluate_total : forall ev h, new_evaluator ev -> all_cards h ->
  exists r, evaluate ev h = Ret r
    /\ (~ NoDup h -> r = Err (CardsNotUnique h))
    /\ (NoDup h -> List.length h < 5 -> r = Err (InvalidHandSize (List.length h)))
    /\ (NoDup h -> 5 <= List.length h -> exists e, r = Ok e).
Proof. exact HandFacts.evaluate_total. Qed.
Print Assumptions C01_evaluate_total.
Theorem C01_evaluator_new_returns : exists ev, new_evaluator ev.
Proof. exact HandFacts.evaluator_new_ret. Qed.
Print Assumptions C01_evaluator_new_returns.
(** Four cards with a repetition: the repetition is what is reported. *)
Example C01_case : exists ev h,
  new_evaluator ev /\ all_cards h /\ List.length h < 5 /\ ~ NoDup h
  /\ evaluate ev h = Ret (Err (CardsNotUnique h)).
Proof.
  destruct HandFacts.evaluator_new_ret as [ev Hev].
  set (h := cards_macro_idents [(Ace, Spades); (Two, Clubs); (Ace, Spades)]).
  assert (N : ~ NoDup h).
  { intros N. inversion N as [|x l H _]; subst. apply H. right. left. reflexivity. }
  exists ev, h. split; [exact Hev|]. split; [apply idents_all_cards|].
  split; [simpl; lia|]. split; [exact N|]. apply HandFacts.evaluate_dup; [apply idents_all_cards|exact N].
Qed.

(** C02: the class of five cards is what the rules say, and nothing else. *)
Theorem C02_five_card_class : forall ev h e, new_evaluator ev -> hand5 h -> evaluates ev h e ->
  forall c, classify (faces h) c <-> eval_class_of e = c.
Proof. exact HandFacts.class_correct. Qed.
Print Assumptions C02_five_card_class.
Example C02_case : exists ev e, new_evaluator ev
  /\ evaluates ev (cards_macro_idents full_house) e /\ eval_class_of e = FullHouse King Two.
Proof. apply five_class; [reflexivity|reflexivity|]. split; reflexivity. Qed.
Example C02_case_wheel : exists ev e, new_evaluator ev
  /\ evaluates ev (cards_macro_idents wheel) e /\ eval_class_of e = Straight Five.
Proof.
  apply five_class; [reflexivity|reflexivity|]. split.
  - intros [s F]. inversion F as [|? ? H1 F1]; subst. inversion F1 as [|? ? H2 F2]; subst.
    discriminate H2.
  - right. split; [reflexivity|]. cbn.
    apply Permutation_sym.
    apply (Permutation_cons_app [Four; Two] [Five; Three]). cbn.
    apply (Permutation_cons_app [Four] [Five; Three]). cbn.
    apply (Permutation_cons_app [Four; Five] []). cbn. apply Permutation_refl.
Qed.

(** C03: comparing results is comparing hands. *)
Theorem C03_comparison : forall ev h1 h2 e1 e2,
  new_evaluator ev -> hand5 h1 -> hand5 h2 -> evaluates ev h1 e1 -> evaluates ev h2 e2 ->
  (eval_cmp e1 e2 = Gt <-> beats (faces h1) (faces h2))
  /\ (eval_cmp e1 e2 = Eq <-> ties (faces h1) (faces h2))
  /\ (eval_cmp e1 e2 = Lt <-> beats (faces h2) (faces h1)).
Proof. exact HandFacts.comparison_correct. Qed.
Print Assumptions C03_comparison.
Example C03_case : hand5 (cards_macro_idents full_house) /\ hand5 (cards_macro_idents jacks_up)
  /\ beats (faces (cards_macro_idents full_house)) (faces (cards_macro_idents jacks_up)).
Proof.
  split; [apply idents_hand5; reflexivity|]. split; [apply idents_hand5; reflexivity|].
  rewrite !idents_faces. exists (FullHouse King Two), (TwoPair Jack Nine).
  split; [split; reflexivity|]. split; [|left; simpl; lia].
  split; [reflexivity|]. split; [reflexivity|]. simpl. lia.
Qed.

(** C04: the best five cards of any number. *)
Theorem C04_best_five : forall ev h, new_evaluator ev -> legal h ->
  exists e, evaluates ev h e
    /\ (exists x, hand5 x /\ incl x h /\ evaluates ev x e)
    /\ forall x e', hand5 x -> incl x h -> evaluates ev x e' -> eval_cmp e e' <> Lt.
Proof. exact LawFacts.best_choice. Qed.
Print Assumptions C04_best_five.
Example C04_case : legal (cards_macro_idents holdem) /\ 5 < List.length (cards_macro_idents holdem).
Proof. split; [apply idents_legal; [reflexivity|simpl; lia]|simpl; lia]. Qed.

(** C05: order of the cards. *)
Theorem C05_order_irrelevant : forall ev h h', new_evaluator ev -> all_cards h -> Permutation h h' ->
  (forall e, evaluate ev h = Ret (Ok e) <-> evaluate ev h' = Ret (Ok e))
  /\ (evaluate ev h = Ret (Err (CardsNotUnique h)) <->
      evaluate ev h' = Ret (Err (CardsNotUnique h')))
  /\ (forall n, evaluate ev h = Ret (Err (InvalidHandSize n)) <->
      evaluate ev h' = Ret (Err (InvalidHandSize n))).
Proof. exact HandFacts.permutation_ok. Qed.
Print Assumptions C05_order_irrelevant.
Example C05_case : let h := cards_macro_idents holdem in
  all_cards h /\ Permutation h (rev h) /\ h <> rev h.
Proof. split; [apply idents_all_cards|]. split; [apply Permutation_rev|discriminate]. Qed.

(** C06: suits are interchangeable. *)
Theorem C06_suits_interchangeable : forall ev f h e,
  (forall a b, f a = f b -> a = b) -> new_evaluator ev -> all_cards h ->
  (evaluates ev h e <-> evaluates ev (map (recolour f) h) e).
Proof. exact LawFacts.suits_iff. Qed.
Print Assumptions C06_suits_interchangeable.
Example C06_case :
  let f := fun s => match s with Clubs => Hearts | Hearts => Spades | Spades => Diamonds
                               | Diamonds => Clubs end in
  (forall a b, f a = f b -> a = b)
  /\ map (recolour f) (cards_macro_idents wheel)
     = cards_macro_idents [(Four, Diamonds); (Two, Spades); (Ace, Spades); (Five, Hearts); (Three, Clubs)].
Proof. split; [intros [] []; simpl; congruence|reflexivity]. Qed.

(** C07: more cards never hurt. *)
Theorem C07_more_cards : forall ev h h' e e', new_evaluator ev -> all_cards h' -> incl h h' ->
  evaluates ev h e -> evaluates ev h' e' -> eval_cmp e' e <> Lt.
Proof. exact HandFacts.more_cards. Qed.
Print Assumptions C07_more_cards.
Example C07_case : exists ev e e', new_evaluator ev
  /\ incl (firstn 5 (cards_macro_idents holdem)) (cards_macro_idents holdem)
  /\ evaluates ev (firstn 5 (cards_macro_idents holdem)) e
  /\ evaluates ev (cards_macro_idents holdem) e'.
Proof.
  destruct HandFacts.evaluator_new_ret as [ev Hev]. exists ev.
  destruct (HandFacts.evaluate_spec ev (cards_macro_idents (firstn 5 holdem)) Hev) as (e & E & _).
  { apply idents_legal; [reflexivity|simpl; lia]. }
  destruct (HandFacts.evaluate_spec ev (cards_macro_idents holdem) Hev) as (e' & E' & _).
  { apply idents_legal; [reflexivity|simpl; lia]. }
  exists e, e'. split; [exact Hev|]. split; [|split; [exact E|exact E']].
  intros c H. rewrite <- (firstn_skipn 5). apply in_or_app. left. exact H.
Qed.

(** C08: exactly 7462 values. *)
Theorem C08_exactly_7462_values : forall ev, new_evaluator ev ->
  exists l, Z.of_nat (List.length l) = 7462%Z /\ descending l
    /\ (forall e, In e l <-> exists h, hand5 h /\ evaluates ev h e)
    /\ (forall e, In e l <-> exists h, legal h /\ evaluates ev h e).
Proof. exact HandFacts.all_values. Qed.
Print Assumptions C08_exactly_7462_values.
Example C08_case : exists ev, new_evaluator ev.
Proof. exact HandFacts.evaluator_new_ret. Qed.

(** C09: the extremes. *)
Theorem C09_bounds : forall ev h e, new_evaluator ev -> all_cards h -> evaluates ev h e ->
  eval_cmp e EVAL_WORST <> Lt /\ eval_cmp EVAL_BEST e <> Lt.
Proof. exact HandFacts.extremes. Qed.
Print Assumptions C09_bounds.
Theorem C09_bounds_attained : forall ev, new_evaluator ev ->
  (exists h, hand5 h /\ evaluates ev h EVAL_BEST)
  /\ (exists h, hand5 h /\ evaluates ev h EVAL_WORST).
Proof. exact LawFacts.extremes_attained. Qed.
Print Assumptions C09_bounds_attained.
Theorem C09_royal_flush : forall ev h e, new_evaluator ev -> all_cards h -> evaluates ev h e ->
  (e = EVAL_BEST <-> eval_eqb e EVAL_BEST = true)
  /\ (e = EVAL_BEST <-> eval_is_royal_flush e = true)
  /\ (e = EVAL_BEST <-> eval_class_of e = StraightFlush Ace)
  /\ (e = EVAL_BEST <-> eval_display e = lit "Royal flush")
  /\ (e = EVAL_BEST <-> exists s, incl (royal s) h).
Proof. exact LawFacts.royal_equivalences. Qed.
Print Assumptions C09_royal_flush.
Example C09_case : exists ev, new_evaluator ev /\ evaluates ev (royal Hearts) EVAL_BEST.
Proof.
  destruct HandFacts.evaluator_new_ret as [ev Hev]. exists ev. split; [exact Hev|].
  apply LawFacts.royal_evaluates. exact Hev.
Qed.

(** C12: order of classes. *)
Theorem C12_class_order : forall ev h1 h2 e1 e2,
  new_evaluator ev -> all_cards h1 -> all_cards h2 -> evaluates ev h1 e1 -> evaluates ev h2 e2 ->
  (eval_cmp e1 e2 <> Lt -> class_cmp (eval_class_of e1) (eval_class_of e2) <> Lt)
  /\ (class_cmp (eval_class_of e1) (eval_class_of e2) = Gt -> eval_cmp e1 e2 = Gt)
  /\ (eval_cmp e1 e2 = Eq ->
        eval_class_of e1 = eval_class_of e2 /\ eval_display e1 = eval_display e2).
Proof. exact ClassFacts.class_order. Qed.
Print Assumptions C12_class_order.
Example C12_case : exists ev e1 e2, new_evaluator ev
  /\ evaluates ev (cards_macro_idents full_house) e1 /\ evaluates ev (cards_macro_idents wheel) e2.
Proof.
  destruct HandFacts.evaluator_new_ret as [ev Hev]. exists ev.
  destruct (HandFacts.evaluate_spec ev (cards_macro_idents full_house) Hev) as (e & E & _).
  { apply idents_legal; [reflexivity|simpl; lia]. }
  destruct (HandFacts.evaluate_spec ev (cards_macro_idents wheel) Hev) as (e' & E' & _).
  { apply idents_legal; [reflexivity|simpl; lia]. }
  exists e, e'. auto.
Qed.

(** C25: the full claim fails for [Evaluator::default()], whose tables are empty. *)
Theorem C25_default_refuted : forall h, legal h -> evaluate evaluator_default h = Panic MissingKey.
Proof. exact LawFacts.default_panics. Qed.
Print Assumptions C25_default_refuted.
(** What holds: [Evaluator::new()] and clones (missing: [Evaluator::default()]). *)
Theorem C25_new_and_clones_partial : forall ev ev0, new_evaluator ev0 -> built ev ->
  forall h, evaluate ev h = evaluate ev0 h
    /\ (legal h -> exists e, evaluates ev h e).
Proof. exact LawFacts.built_evaluates. Qed.
Print Assumptions C25_new_and_clones_partial.
Example C25_case : exists h ev, legal h /\ built (evaluator_clone (evaluator_clone ev)).
Proof.
  destruct HandFacts.evaluator_new_ret as [ev Hev].
  exists (cards_macro_idents wheel), ev. split; [apply idents_legal; [reflexivity|simpl; lia]|].
  apply built_clone, built_clone, built_new. exact Hev.
Qed.

(** C26: static tables. *)
Theorem C26_same_tables : forall (F U : map_i32 meta) ev,
  (forall k, map_get F k = map_get (flush_lookup (evaluator_table ev)) k) ->
  (forall k, map_get U k = map_get (unsuited_lookup (evaluator_table ev)) k) ->
  forall cards, static_evaluate F U cards = evaluate ev cards.
Proof. exact LawFacts.static_same. Qed.
Print Assumptions C26_same_tables.
Theorem C26_tables_passing_the_test : forall (F U : map_i32 meta) ev,
  table_test (flush_lookup (evaluator_table ev)) F ->
  table_test (unsuited_lookup (evaluator_table ev)) U ->
  forall cards, same_verdict (static_evaluate F U cards) (evaluate ev cards).
Proof. exact LawFacts.static_verdict. Qed.
Print Assumptions C26_tables_passing_the_test.
(** The test is too weak to guarantee the class: tables exist that pass it and give another. *)
Theorem C26_test_does_not_fix_the_class : forall ev, new_evaluator ev ->
  exists F U h e e',
    table_test (flush_lookup (evaluator_table ev)) F
    /\ table_test (unsuited_lookup (evaluator_table ev)) U
    /\ hand5 h /\ evaluates ev h e /\ static_evaluate F U h = Ret (Ok e')
    /\ eval_class_of e <> eval_class_of e'.
Proof. exact LawFacts.class_may_differ. Qed.
Print Assumptions C26_test_does_not_fix_the_class.
Example C26_case : exists ev, new_evaluator ev
  /\ table_test (flush_lookup (evaluator_table ev)) (flush_lookup (evaluator_table ev)).
Proof.
  destruct HandFacts.evaluator_new_ret as [ev Hev]. exists ev. split; [exact Hev|].
  split; [|reflexivity]. intros k v H. exists v. split; [exact H|]. apply Z.eqb_refl.
Qed.

(** C27: one evaluator, any number of threads, any schedule of single table reads. *)
Theorem C27_each_call_as_if_alone : forall ev works sched tid work,
  nth_error works tid = Some work ->
  exists t, nth_error (w_threads (run sched (spawn_all ev works))) tid = Some t
    /\ w_shared (run sched (spawn_all ev works)) = ev
    /\ (exists rest, map (evaluate ev) work = th_answers t ++ rest)
    /\ (finished t -> th_answers t = map (evaluate ev) work).
Proof. exact ThreadFacts.threads_independent. Qed.
Print Assumptions C27_each_call_as_if_alone.
Theorem C27_every_thread_finishes : forall ev works, exists bound, forall sched tid work,
  nth_error works tid = Some work ->
  bound <= count_occ Nat.eq_dec sched tid ->
  exists t, nth_error (w_threads (run sched (spawn_all ev works))) tid = Some t /\ finished t.
Proof. exact ThreadFacts.threads_finish. Qed.
Print Assumptions C27_every_thread_finishes.
Theorem C27_join_order_irrelevant : forall ev es, new_evaluator ev ->
  Forall (an_evaluation ev) es ->
  In (max_of_joins es) (EVAL_WORST :: es)
  /\ (es <> [] -> In (max_of_joins es) es)
  /\ (forall e, In e es -> eval_cmp (max_of_joins es) e <> Lt)
  /\ (forall es', Permutation es es' -> max_of_joins es' = max_of_joins es).
Proof. exact ThreadFacts.max_of_joins_spec. Qed.
Print Assumptions C27_join_order_irrelevant.
(** The program in the documentation: each thread evaluates a hand, errors count as the worst hand, and
    the best of the answers is shown.  It is the best of the hands, unless none beats the worst. *)
Theorem C27_best_of_threads : forall ev hands sched, new_evaluator ev -> Forall all_cards hands ->
  Forall finished (w_threads (run sched (spawn_all ev (map (fun h => [h]) hands)))) ->
  exists rs, Forall2 (fun t r => th_answers t = [Ret r])
               (w_threads (run sched (spawn_all ev (map (fun h => [h]) hands)))) rs
    /\ (forall h e, In h hands -> evaluates ev h e -> eval_cmp (max_of_joins (map unwrap_or_worst rs)) e <> Lt)
    /\ (max_of_joins (map unwrap_or_worst rs) = EVAL_WORST
        \/ exists h, In h hands /\ evaluates ev h (max_of_joins (map unwrap_or_worst rs))).
Proof. exact ThreadFacts.best_of_threads. Qed.
Print Assumptions C27_best_of_threads.
Example C27_case : exists ev, new_evaluator ev
  /\ Forall (an_evaluation ev) [EVAL_WORST; EVAL_BEST; EVAL_WORST]
  /\ max_of_joins [EVAL_WORST; EVAL_BEST; EVAL_WORST] = EVAL_BEST.
Proof.
  destruct HandFacts.evaluator_new_ret as [ev Hev]. exists ev. split; [exact Hev|].
  split; [|reflexivity].
  pose proof (ThreadFacts.worst_evaluation ev Hev) as W.
  assert (B : an_evaluation ev EVAL_BEST).
  { exists (royal Hearts). split; [apply HandFacts.hand5_legal, HandFacts.royal_hand5|].
    apply LawFacts.royal_evaluates. exact Hev. }
  repeat constructor; assumption.
Qed.

(** C29: what ties. *)
Theorem C29_ties : forall h1 h2, five_card_hand h1 -> five_card_hand h2 ->
  (ties h1 h2 <-> Permutation (ranks h1) (ranks h2) /\ (suited h1 <-> suited h2)).
Proof. exact HandFacts.ties_ranks_flush. Qed.
Print Assumptions C29_ties.
Theorem C29_equal_results : forall ev h1 h2 e1 e2,
  new_evaluator ev -> hand5 h1 -> hand5 h2 -> evaluates ev h1 e1 -> evaluates ev h2 e2 ->
  (eval_eqb e1 e2 = true <->
   Permutation (ranks (faces h1)) (ranks (faces h2)) /\ (suited (faces h1) <-> suited (faces h2))).
Proof. exact LawFacts.equal_results. Qed.
Print Assumptions C29_equal_results.
Example C29_case : five_card_hand jacks_up /\ five_card_hand jacks_up_other
  /\ ties jacks_up jacks_up_other.
Proof.
  split; [split; [apply HandFacts.nodupb_NoDup; reflexivity|reflexivity]|].
  split; [split; [apply HandFacts.nodupb_NoDup; reflexivity|reflexivity]|].
  exists (TwoPair Jack Nine), (TwoPair Jack Nine).
  repeat split; simpl; lia.
Qed.

(** C40: large hands. *)
Theorem C40_five_of_a_suit : forall ev h e x, new_evaluator ev -> all_cards h -> evaluates ev h e ->
  NoDup x -> List.length x = 5 -> incl x h -> suited (faces x) ->
  category (Flush Ace) <= category (eval_class_of e).
Proof. exact ClassFacts.five_suited. Qed.
Print Assumptions C40_five_of_a_suit.
Theorem C40_four_of_a_rank : forall ev h e r, new_evaluator ev -> all_cards h -> evaluates ev h e ->
  count r (faces h) = 4 -> category (FourOfAKind r) <= category (eval_class_of e).
Proof. exact ClassFacts.four_same_rank. Qed.
Print Assumptions C40_four_of_a_rank.
Theorem C40_whole_deck : forall ev d e,
  new_evaluator ev -> Permutation deck_generate d -> evaluates ev d e -> e = EVAL_BEST.
Proof. exact LawFacts.all_52. Qed.
Print Assumptions C40_whole_deck.
Example C40_case : exists ev e x,
  new_evaluator ev /\ evaluates ev (cards_macro_idents holdem) e
  /\ NoDup x /\ List.length x = 5 /\ incl x (cards_macro_idents holdem) /\ suited (faces x).
Proof.
  destruct (legal_evaluates (cards_macro_idents holdem)) as (ev & e & Hev & E).
  { apply idents_legal; [reflexivity|simpl; lia]. }
  exists ev, e, (cards_macro_idents [(Three, Clubs); (Five, Clubs); (Jack, Clubs); (Ten, Clubs); (Ace, Clubs)]).
  split; [exact Hev|]. split; [exact E|]. split; [apply idents_NoDup; reflexivity|].
  split; [reflexivity|]. split.
  - intros c H. simpl in H. repeat (destruct H as [<-|H]; [simpl; tauto|]). destruct H.
  - rewrite idents_faces. exists Clubs. repeat constructor.
Qed.
