(** PropertiesExamples.v: C31-C34, C39, C41, C42 (the example programs). *)
From Coq Require Import Lia List Arith Bool Permutation String ZArith.
From Verif Require Import Base ModelCard ModelEval ModelTable ModelEvaluation ModelExamples.
From Verif Require Import Spec SpecApi SpecText SpecExamples.
From Verif Require HandFacts TextFacts DeckFacts ExamplesFacts JacksFacts ReplFacts.
Import ListNotations.
Local Open Scope Z_scope.

(** C31: from a state between two rounds (all 52 cards in the deck), a turn of the game loop is a
    [round] (SpecExamples.v: both hands shown are five different cards), and leaves all 52 cards in
    hand and deck; if the game goes on, it is between two rounds again.  It can only panic when the
    player has won more credits than a [usize] holds. *)
Theorem C31_turn : forall (R : Type) (gen : R -> nat -> nat * R) order,
  fair gen -> reorders order -> forall ev, new_evaluator ev ->
  forall g : game R, between g ->
  (exists x t g', game_turn gen order ev g = Ret (t, g') /\ round ev g x t g' /\ all_52 g'
    /\ (t = Again -> between g' /\ (List.length (g_lines g') < List.length (g_lines g))%nat
        /\ g_credits g' <= g_credits g + 4000))
  \/ (exists bad w rest c, answers_with (wager_ok (g_credits g)) (g_lines g) bad (Some w) rest
      /\ 2 ^ 64 <= settle (g_credits g) w c
      /\ game_turn gen order ev g = Panic ArithmeticOverflow).
Proof. exact @JacksFacts.turn_total. Qed.
Print Assumptions C31_turn.
(** The whole program, on any input.  The panic needs 2^52 lines of input. *)
Theorem C31_program : forall (R : Type) (gen : R -> nat -> nat * R) order lines rng,
  fair gen -> reorders order ->
  exists ev g0, new_evaluator ev /\ game_start gen lines rng = Ret (ev, g0)
    /\ between g0 /\ g_lines g0 = lines /\ g_credits g0 = 100
    /\ g_out g0 = [Clear; Line [BrightGreen; Bold] jacks_welcome]
    /\ ((exists l g, jacks_main gen order lines rng = Ret g /\ session ev g0 l g /\ all_52 g)
        \/ (exists l g w c, jacks_main gen order lines rng = Panic ArithmeticOverflow
             /\ so_far ev g0 l g /\ 1 <= w <= 5 /\ w <= g_credits g /\ 2 ^ 64 <= settle (g_credits g) w c
             /\ 2 ^ 52 <= Z.of_nat (List.length lines))).
Proof. exact @JacksFacts.jacks_total. Qed.
Print Assumptions C31_program.
(** The generator that always answers 0, and no reordering, will do; a state between rounds. *)
Example C31_case : fair (fun (_ : unit) _ => (0%nat, tt)) /\ reorders (fun l : list (Z * nat) => l)
  /\ between (mk_game [lit "2"; lit "1 3"] [] deck_generate [] 100 tt).
Proof.
  split; [intros rng n H; exact H|]. split; [intros l; apply Permutation_refl|].
  split; [apply Permutation_refl|]. split; [reflexivity|]. cbn [g_credits]. lia.
Qed.

(** C32: the rounds of a game can be booked, one after the other, from 100 credits. *)
Theorem C32_ledger : forall (R : Type) (gen : R -> nat -> nat * R) order lines rng g,
  fair gen -> reorders order -> jacks_main gen order lines rng = Ret g ->
  exists ev g0 l, session ev g0 l g /\ g_lines g0 = lines
    /\ booked 100 l /\ g_credits g = fold_left after l 100.
Proof. exact @JacksFacts.jacks_ledger. Qed.
Print Assumptions C32_ledger.
Example C32_case :
  booked 9 [Played 5 (Pair Ten); Played 4 (TwoPair Ten Two); Played 5 (HighCard Ace); Forfeit 3]
  /\ fold_left after
       [Played 5 (Pair Ten); Played 4 (TwoPair Ten Two); Played 5 (HighCard Ace); Forfeit 3] 9 = 4
  /\ booked 3 [Played 3 (HighCard Ace)] /\ ~ booked 3 [Played 3 (HighCard Ace); Left].
Proof. cbn. repeat split; try lia. intros (_ & _ & H). discriminate H. Qed.

(** C33.  Published: the payout is the wager times the chart of README.md.  That is false of every
    straight flush, royal or not, for every wager. *)
Theorem C33_chart_refuted : forall w h, 1 <= w <= 5 ->
  payout w (StraightFlush h) <> Ret (chart (StraightFlush h) * w).
Proof. exact JacksFacts.chart_straight_flush. Qed.
Print Assumptions C33_chart_refuted.
(** The other classes follow the chart (missing: straight flushes). *)
Theorem C33_chart_partial : forall w c, 1 <= w <= 5 -> (forall h, c <> StraightFlush h) ->
  payout w c = Ret (chart c * w).
Proof. exact JacksFacts.chart_others. Qed.
Print Assumptions C33_chart_partial.
(** What is paid for every class, in full. *)
Theorem C33_paid : forall w c, 1 <= w <= 5 -> payout w c = Ret (pays w c).
Proof. exact JacksFacts.payout_pays. Qed.
Print Assumptions C33_paid.
Theorem C33_better_class_pays_no_less : forall w c c' p p', 1 <= w <= 5 -> class_cmp c c' <> Gt ->
  payout w c = Ret p -> payout w c' = Ret p' -> p <= p'.
Proof. exact JacksFacts.payout_monotone. Qed.
Print Assumptions C33_better_class_pays_no_less.
Theorem C33_jacks_or_better : forall w c p, 1 <= w <= 5 -> payout w c = Ret p ->
  (0 < p <-> class_cmp c (Pair Jack) <> Lt).
Proof. exact JacksFacts.payout_weakest. Qed.
Print Assumptions C33_jacks_or_better.
Example C33_case : payout 5 (StraightFlush Ace) = Ret 4000 /\ chart (StraightFlush Ace) * 5 = 20000
  /\ payout 2 (StraightFlush King) = Ret 100 /\ chart (StraightFlush King) * 2 = 500
  /\ payout 3 (Pair Jack) = Ret 3 /\ payout 3 (Pair Ten) = Ret 0.
Proof. repeat split. Qed.

(** C34: one answer per line up to "quit", the same whatever came before it.  [history] is
    rustyline's history, assumed to accept every line. *)
Theorem C34_repl : forall (H : Type) (history : H -> rstring -> result H unit) order,
  (forall h l, exists h', history h l = Ok h') -> reorders order ->
  exists ev answer, new_evaluator ev /\ (forall l, replies ev l (answer l))
    /\ forall lines h, exists ls, until_quit lines ls
       /\ repl_main history order lines h
          = Ret (Line [BrightGreen; Bold] repl_welcome :: map answer ls).
Proof. exact @ReplFacts.repl_correct. Qed.
Print Assumptions C34_repl.
Example C34_case :
  (forall (h : nat) (l : rstring), exists h', Ok (E := unit) (S h) = Ok h')
  /\ reorders (fun l : list (card * nat) => l)
  /\ until_quit [lit "help"; lit "quit"; lit "Ah Kh Qh Jh Th"] [lit "help"].
Proof.
  split; [eauto|]. split; [intros l; apply Permutation_refl|].
  apply until_line; [discriminate|]. apply until_stop.
Qed.

(** C39: what the two prompts accept, refuse and say. *)
Theorem C39_wager : forall credits lines out, exists bad a rest out',
  get_wager credits lines out = (a, rest, out ++ out')
  /\ answers_with (wager_ok credits) lines bad a rest
  /\ conversation (wager_prompt credits) (wager_complaint credits) bad out'.
Proof. exact ExamplesFacts.get_wager_correct. Qed.
Print Assumptions C39_wager.
Theorem C39_swaps : forall order lines, reorders order -> forall out, exists bad a rest out',
  get_swaps order lines out = Ret (a, rest, out ++ out')
  /\ answers_with swaps_ok lines bad a rest
  /\ conversation swaps_prompt swaps_complaint bad out'.
Proof. exact ExamplesFacts.get_swaps_correct. Qed.
Print Assumptions C39_swaps.
(** The numbers read by [str::parse::<usize>]. *)
Theorem C39_numbers : forall s n, parse_usize s = Some n <-> number s n.
Proof. exact ExamplesFacts.parse_usize_spec. Qed.
Print Assumptions C39_numbers.
(** For given lines there is only one answer that fits. *)
Theorem C39_answers_determined : forall lines credits,
  (forall bad a rest bad' a' rest', answers_with (wager_ok credits) lines bad a rest ->
     answers_with (wager_ok credits) lines bad' a' rest' -> bad = bad' /\ a = a' /\ rest = rest')
  /\ (forall bad a rest bad' a' rest', answers_with swaps_ok lines bad a rest ->
     answers_with swaps_ok lines bad' a' rest' -> bad = bad' /\ a = a' /\ rest = rest').
Proof. exact JacksFacts.answers_determined. Qed.
Print Assumptions C39_answers_determined.
Example C39_case :
  get_wager 3 [lit "x"; lit "0"; lit "6"; lit "4"; lit "+03"; lit "1"] []
  = (Some 3, [lit "1"],
     [wager_prompt 3; tell (lit "Invalid input 'x'. Expected wager from 1 to 5.");
      wager_prompt 3; tell (lit "Sorry, you can't bet 0 credits!");
      wager_prompt 3; tell (lit "Invalid wager amount '6'. Expected amount from 1 to 5.");
      wager_prompt 3; tell (lit "Not enough credits! Got 4 but you have 3.");
      wager_prompt 3])
  /\ get_swaps (fun l => l) [lit "1 1 2 2"; lit " 5  1 "; lit "quit"] []
  = Ret (Some [4; 0], [lit "quit"],
     [swaps_prompt; tell (lit "Cannot provide duplicate cards to swap: 1 2."); swaps_prompt]).
Proof. split; reflexivity. Qed.

(** C41: the draw.  Kept cards stay where they are, no card is lost or doubled, new cards come
    from the deck or the discards. *)
Theorem C41_draw_partial : forall (R : Type) (gen : R -> nat -> nat * R) is deck hand rng, fair gen ->
  positions hand is ->
  exists deck' hand' rng', swap_cards gen is deck hand rng = Ret (deck', hand', rng')
    /\ Permutation (hand' ++ deck') (hand ++ deck) /\ redrawn deck hand is hand'.
Proof. exact @JacksFacts.swap_cards_correct. Qed.
Print Assumptions C41_draw_partial.
(** Every way to deal from deck and discards is possible. *)
Theorem C41_any_draw : forall is deck hand cs dealt rest, positions hand is ->
  at_positions hand is cs ->
  List.length dealt = List.length is -> Permutation (dealt ++ rest) (deck ++ cs) ->
  exists (R : Type) (gen : R -> nat -> nat * R) (rng rng' : R) hand', fair gen
    /\ swap_cards gen is deck hand rng = Ret (rest, hand', rng')
    /\ at_positions hand' is dealt.
Proof. exact JacksFacts.draw_any. Qed.
Print Assumptions C41_any_draw.
(** In video poker a discarded card is out of play for the round.  Here it is not: whatever is
    swapped, the same hand can come back. *)
Theorem C41_discards_gone_refuted : forall is deck hand cs, positions hand is ->
  at_positions hand is cs ->
  exists (R : Type) (gen : R -> nat -> nat * R) (rng rng' : R), fair gen
    /\ swap_cards gen is deck hand rng = Ret (deck, hand, rng').
Proof. exact JacksFacts.discards_come_back. Qed.
Print Assumptions C41_discards_gone_refuted.
Example C41_case : let hand := firstn 5 deck_generate in
  positions hand [4; 0; 2]
  /\ at_positions hand [4; 0; 2] [card_new Three Clubs; card_new Two Clubs; card_new Two Spades].
Proof.
  cbn zeta. split; [split|].
  - repeat constructor; simpl; lia.
  - repeat constructor; simpl; lia.
  - repeat constructor.
Qed.

(** C42: between rounds there is always a move: betting 1 and keeping all cards (unless the credits
    are within 250 of the largest [usize], when the payout may overflow). *)
Theorem C42_always_a_move : forall (R : Type) (gen : R -> nat -> nat * R) order ev (g : game R) rest,
  fair gen -> reorders order -> new_evaluator ev -> between g ->
  g_lines g = lit "1" :: [] :: rest ->
  (exists c t g', game_turn gen order ev g = Ret (t, g') /\ round ev g (Played 1 c) t g'
    /\ g_lines g' = rest)
  \/ (2 ^ 64 <= g_credits g + 250 /\ game_turn gen order ev g = Panic ArithmeticOverflow).
Proof. exact @JacksFacts.move_exists. Qed.
Print Assumptions C42_always_a_move.
Example C42_case : between (mk_game [lit "1"; []; lit "quit"] [] deck_generate [] 1 tt).
Proof. split; [apply Permutation_refl|]. split; [reflexivity|]. cbn [g_credits]. lia. Qed.
