(** PropertiesFurther.v: C51-C56 (table reads of a call, fairness of deals, [Debug] and [Hash], the build
    script, the return and the draws of the example game). *)
From Coq Require Import Lia String List Arith Factorial Bool Permutation ZArith.
From Verif Require Import Base ModelCard ModelEval ModelTable ModelEvaluation ModelThreads ModelExamples
  ModelDebug ModelBuild.
From Verif Require Import Spec SpecApi SpecDebug SpecExamples SpecReads SpecBuild Samples.
From Verif Require DeckFacts HandFacts ReadFacts UniformFacts DrawFacts ReturnFacts DebugFacts BuildFacts OddsFacts.
Import ListNotations.

(** C51: what one call reads.  A rejected call reads no table. *)
Theorem C51_rejected : forall e h, all_cards h -> ~ NoDup h \/ length h < 5 ->
  call e (evaluate_proc h) = ([], evaluate e h).
Proof. exact ReadFacts.reads_rejected. Qed.
Print Assumptions C51_rejected.
(** An accepted one makes one read for each of its five-card subsets, at that subset's key. *)
Theorem C51_accepted : forall ev h, new_evaluator ev -> legal h -> exists L l,
  call ev (evaluate_proc h) = (l, evaluate ev h)
  /\ NoDup L /\ (forall F, In F L <-> sublist F h /\ length F = 5)
  /\ Forall2 read_for L l.
Proof. exact ReadFacts.reads_accepted. Qed.
Print Assumptions C51_accepted.
Theorem C51_number : forall ev h, new_evaluator ev -> legal h ->
  let n := Z.of_nat (length h) in
  (120 * Z.of_nat (length (fst (call ev (evaluate_proc h)))) = n * (n - 1) * (n - 2) * (n - 3) * (n - 4))%Z.
Proof. exact ReadFacts.reads_number. Qed.
Print Assumptions C51_number.
Example C51_case : legal (cards_macro_idents holdem) /\ (7 * 6 * 5 * 4 * 3 = 120 * 21)%Z
  /\ exists ev, new_evaluator ev /\ length (fst (call ev (evaluate_proc (cards_macro_idents holdem)))) = 21.
Proof.
  assert (L : legal (cards_macro_idents holdem))
    by (apply idents_legal; [vm_compute; reflexivity|cbn; lia]).
  split; [exact L|]. split; [reflexivity|]. destruct HandFacts.evaluator_new_ret as [ev Hev]. exists ev.
  split; [exact Hev|]. pose proof (ReadFacts.reads_number ev _ Hev L) as N.
  change (length (cards_macro_idents holdem)) with 7 in N. cbn [Z.of_nat Pos.of_succ_nat Pos.succ] in N. lia.
Qed.

(** C52: of the 52! lists of answers (C45) the same number leads to any given first cards, in this
    order or in any. *)
Theorem C52_deals : forall p, NoDup p -> all_cards p -> exists L,
  NoDup L /\ length L = fact (52 - length p)
  /\ forall js, In js L <-> answers 52 js
       /\ exists d, shuffled_with script js = Ret (d, []) /\ firstn (length p) d = p.
Proof. exact UniformFacts.deals_uniform. Qed.
Print Assumptions C52_deals.
Theorem C52_hands : forall h, NoDup h -> all_cards h -> exists L,
  NoDup L /\ length L = fact (length h) * fact (52 - length h)
  /\ forall js, In js L <-> answers 52 js
       /\ exists d, shuffled_with script js = Ret (d, []) /\ Permutation h (firstn (length h) d).
Proof. exact UniformFacts.hands_uniform. Qed.
Print Assumptions C52_hands.
(** So the odds of C36 and C49 are those of a hand dealt from the shuffled deck. *)
Theorem C52_odds : forall ev k HS es (P : eval -> bool), new_evaluator ev -> 5 <= k <= 52 ->
  NoDup HS -> (forall h, In h HS <-> sublist h deck_generate /\ length h = k) -> Forall2 (evaluates ev) HS es ->
  exists L, NoDup L /\ length L = length (filter P es) * (fact k * fact (52 - k))
    /\ forall js, In js L <-> answers 52 js
         /\ exists d e, shuffled_with script js = Ret (d, []) /\ evaluates ev (firstn k d) e /\ P e = true.
Proof. exact UniformFacts.dealt_odds. Qed.
Print Assumptions C52_odds.
Example C52_case : NoDup (cards_macro_idents wheel) /\ all_cards (cards_macro_idents wheel)
  /\ exists ev HS es, new_evaluator ev /\ NoDup HS
     /\ (forall h, In h HS <-> sublist h deck_generate /\ length h = 5) /\ Forall2 (evaluates ev) HS es
     /\ Z.of_nat (length (filter eval_is_royal_flush es)) = 4%Z.
Proof.
  split; [apply idents_NoDup; reflexivity|]. split; [apply idents_all_cards|].
  destruct HandFacts.evaluator_new_ret as [ev Hev].
  destruct (OddsFacts.odds ev Hev) as (L & es & N & I & F & _ & R & _). exists ev, L, es. auto.
Qed.

Local Open Scope string_scope.
Local Open Scope list_scope.
(** C53: the [Debug] texts tell different values apart (the derived ones show every field). *)
Theorem C53_cards : forall a b, (card_debug a = card_debug b <-> a = b)
  /\ (card_debug_pretty a = card_debug_pretty b <-> a = b).
Proof. exact DebugFacts.card_debug_iff. Qed.
Print Assumptions C53_cards.
Theorem C53_classes : forall a b, class_debug a = class_debug b <-> a = b.
Proof. exact DebugFacts.class_debug_iff. Qed.
Print Assumptions C53_classes.
Theorem C53_results : forall a b, eval_debug a = eval_debug b <-> a = b.
Proof. exact DebugFacts.eval_debug_iff. Qed.
Print Assumptions C53_results.
Theorem C53_errors : forall a b,
  (forall h, a = CardsNotUnique h -> all_cards h) -> (forall h, b = CardsNotUnique h -> all_cards h) ->
  eval_error_debug a = eval_error_debug b -> a = b.
Proof. exact DebugFacts.eval_error_debug_inj. Qed.
Print Assumptions C53_errors.
(** The texts: of a card, plain and pretty, *)
Theorem C53_card_text : forall r s,
  let number := dec (Z.to_N (unique_integer (card_new r s))) in
  card_debug (card_new r s)
  = lit "Card { unique_integer: " ++ number ++ lit ", rank: " ++ lit (Rank_ r) ++ lit ", suit: " ++ lit (Suit_ s) ++ lit " }"
  /\ card_debug_pretty (card_new r s)
  = lit "Card {" ++ [10%N] ++ lit "    unique_integer: " ++ number ++ lit "," ++ [10%N]
    ++ lit "    rank: " ++ lit (Rank_ r) ++ lit "," ++ [10%N] ++ lit "    suit: " ++ lit (Suit_ s) ++ lit "," ++ [10%N] ++ lit "}".
Proof. exact DebugFacts.card_debug_text. Qed.
Print Assumptions C53_card_text.
(** of a class and of a result, *)
Theorem C53_class_text : forall c, class_debug c = lit (class_source c).
Proof. exact DebugFacts.class_debug_text. Qed.
Print Assumptions C53_class_text.
Theorem C53_result_text : forall e, (0 <= phr (eval_hand_rank e))%Z -> eval_debug e
  = lit "Eval(" ++ lit (variant (eval_class_of e)) ++ lit " { hand_rank: PokerHandRank("
    ++ dec (Z.to_N (phr (eval_hand_rank e))) ++ lit "), " ++ lit (fields "high_pair" "low_pair" (eval_class_of e)) ++ lit " })".
Proof. exact DebugFacts.eval_debug_text. Qed.
Print Assumptions C53_result_text.
(** and of an error. *)
Theorem C53_error_text :
  (forall n, eval_error_debug (InvalidHandSize n) = lit "InvalidHandSize(" ++ dec (N.of_nat n) ++ lit ")")
  /\ forall h text, listed (map card_debug h) text ->
       eval_error_debug (CardsNotUnique h) = lit "CardsNotUnique([" ++ text ++ lit "])".
Proof. exact DebugFacts.eval_error_debug_text. Qed.
Print Assumptions C53_error_text.
(** Cards that are [==] hash alike, whatever the hasher. *)
Theorem C53_hash : forall H (write : H -> Z -> H) a b state,
  card_eqb a b = true -> card_hash write a state = card_hash write b state.
Proof. exact @DebugFacts.card_hash_eq. Qed.
Print Assumptions C53_hash.
(** Hashing tells cards apart as long as the hasher does: here one that keeps all it is given. *)
Theorem C53_hash_separates : forall a b state,
  card_hash (fun l z => z :: l) a state = card_hash (fun l z => z :: l) b state -> a = b.
Proof. exact DebugFacts.card_hash_separates. Qed.
Print Assumptions C53_hash_separates.
Example C53_case :
  card_debug (card_new Ace Spades) = lit "Card { unique_integer: 268442665, rank: Ace, suit: Spades }"
  /\ class_debug (FullHouse Ten Two) = lit "FullHouse { trips: Ten, pair: Two }"
  /\ eval_debug EVAL_BEST
     = lit "Eval(StraightFlush { hand_rank: PokerHandRank(1), high_rank: Ace })"
  /\ eval_error_debug (CardsNotUnique [card_new Two Clubs; card_new Two Clubs])
     = lit "CardsNotUnique([Card { unique_integer: 98306, rank: Two, suit: Clubs }, Card { unique_integer: 98306, rank: Two, suit: Clubs }])"
  /\ card_eqb (card_new Two Clubs) (card_new Two Clubs) = true
  /\ all_cards [card_new Two Clubs; card_new Two Clubs]
  /\ (0 <= phr (eval_hand_rank EVAL_BEST))%Z /\ forall l, exists text, listed l text.
Proof.
  do 5 (split; [vm_compute; reflexivity|]).
  split; [repeat constructor; exists Two, Clubs; reflexivity|]. split; [discriminate|exact DebugFacts.listed_exists].
Qed.

(** C54: the build script.  It does nothing without the feature, or on docs.rs. *)
Theorem C54_skipped : forall w, static_lookup w = false \/ docs_rs w = Some (lit "1") ->
  build_main w = ([], BuildOk).
Proof. exact BuildFacts.skipped. Qed.
Print Assumptions C54_skipped.
(** Otherwise it succeeds exactly if everything it does succeeds, and leaves the fetched bytes. *)
Theorem C54_succeeds : forall w acts e old, wanted w -> build_main w = (acts, e) ->
  (e = BuildOk <-> exists dir status bytes, out_dir w = Some dir /\ can_create w (codegen dir) = true
     /\ web w published = Response status (Some bytes) /\ written w bytes = None)
  /\ (e = BuildOk -> exists dir status bytes, out_dir w = Some dir /\ web w published = Response status (Some bytes)
       /\ content acts (codegen dir) old = Some bytes).
Proof. exact BuildFacts.ok_iff. Qed.
Print Assumptions C54_succeeds.
(** It makes at most one request, to one address, and touches one file. *)
Theorem C54_footprint : forall w acts e, build_main w = (acts, e) ->
  (requests acts = [] \/ requests acts = [published])
  /\ (forall p old, (forall dir, out_dir w = Some dir -> p <> codegen dir) -> content acts p old = old)
  /\ (requests acts <> [] -> wanted w
        /\ exists dir, out_dir w = Some dir /\ hd_error acts = Some (Create (codegen dir))).
Proof. exact BuildFacts.footprint. Qed.
Print Assumptions C54_footprint.
(** Without a connection it panics, after emptying the generated file. *)
Theorem C54_offline : forall w dir old, wanted w -> out_dir w = Some dir ->
  can_create w (codegen dir) = true -> web w published = NoResponse ->
  snd (build_main w) = BuildPanic /\ content (fst (build_main w)) (codegen dir) old = Some [].
Proof. exact BuildFacts.offline. Qed.
Print Assumptions C54_offline.
(** The HTTP status makes no difference. *)
Theorem C54_status_ignored : forall status w, build_main (with_status status w) = build_main w.
Proof. exact BuildFacts.status_ignored. Qed.
Print Assumptions C54_status_ignored.
(** A page that says "Not found" becomes the generated file. *)
Example C54_case :
  let w := mk_environment true None (Some (lit "/out")) (fun _ => true)
             (fun _ => Response 404 (Some (lit "Not found"))) (fun _ => None) in
  wanted w /\ snd (build_main w) = BuildOk
  /\ content (fst (build_main w)) (lit "/out/codegen.rs") None = Some (lit "Not found")
  /\ snd (build_main (mk_environment true None (Some (lit "/out")) (fun _ => true)
             (fun _ => NoResponse) (fun _ => None))) = BuildPanic.
Proof. split; [split; [reflexivity|discriminate]|]. vm_compute. auto. Qed.
Local Close Scope string_scope.

(** C55: what the game of examples/jacks-or-better.rs pays, over all hands it can deal, to a player
    who keeps the first five cards. *)
Theorem C55_return : forall ev w, new_evaluator ev -> (1 <= w <= 5)%Z -> exists L es ps,
  NoDup L
  /\ (forall h, In h L <-> sublist h deck_generate /\ length h = 5)
  /\ Forall2 (evaluates ev) L es
  /\ Forall2 (fun e p => payout w (eval_class_of e) = Ret p) es ps
  /\ Z.of_nat (length ps) = 2598960%Z
  /\ Z.of_nat (length (filter (fun p => p =? 0)%Z ps)) = 2062860%Z
  /\ fold_right Z.add 0%Z ps = (872304 * w + 4 * (if w =? 5 then 4000 else 250 * w))%Z.
Proof. exact ReturnFacts.keep_return. Qed.
Print Assumptions C55_return.
Example C55_case : (exists ev, new_evaluator ev) /\ (1 <= 3 <= 5)%Z.
Proof. split; [exact HandFacts.evaluator_new_ret|lia]. Qed.

(** C56: the shuffles within a game.  The game shuffles whatever cards are in the deck; each order of
    them comes from one list of answers. *)
Theorem C56_shuffles : forall l d : list card, NoDup l -> Permutation l d ->
  exists! js, answers (length l) js /\ shuffle script l js = Ret (d, []).
Proof. exact DrawFacts.any_shuffle_fair. Qed.
Print Assumptions C56_shuffles.
Theorem C56_bounds : forall R (gen : R -> nat -> nat * R) (l : list card) rng,
  (forall rng n, 0 < n -> fst (gen rng n) < n) ->
  exists d rng', shuffle (recording gen) l (rng, []) = Ret (d, (rng', rev (seq 2 (length l - 1)))).
Proof. exact (fun R => @DrawFacts.any_shuffle_bounds card R). Qed.
Print Assumptions C56_bounds.
(** Any cards of the deck and the discards are dealt in exchange by the same number of lists. *)
Theorem C56_draw : forall is deck hand cs dealt, positions hand is -> at_positions hand is cs ->
  NoDup (hand ++ deck) -> NoDup dealt -> incl dealt (deck ++ cs) -> length dealt = length is -> exists L,
  NoDup L /\ length L = fact (length deck)
  /\ forall js, In js L <-> answers (length deck + length is) js
       /\ exists deck' hand', swap_cards script is deck hand js = Ret (deck', hand', [])
            /\ at_positions hand' is dealt.
Proof. exact DrawFacts.draw_uniform. Qed.
Print Assumptions C56_draw.
(** Two of five cards are exchanged; one of the two, and the top of the deck, come back. *)
Example C56_case :
  let hand := firstn 5 deck_generate in let deck := skipn 5 deck_generate in
  let dealt := [card_new Two Diamonds; hd (card_new Ace Clubs) deck] in
  positions hand [3; 1]%Z /\ exists cs, at_positions hand [3; 1]%Z cs
  /\ NoDup (hand ++ deck) /\ NoDup dealt /\ incl dealt (deck ++ cs) /\ length dealt = 2.
Proof.
  cbv zeta. split; [split; [repeat constructor; cbn; intuition lia|repeat constructor; cbn; lia]|].
  exists [card_new Two Diamonds; card_new Two Hearts].
  split; [repeat constructor|]. split; [rewrite firstn_skipn; exact DeckFacts.deck_NoDup|].
  split; [repeat constructor; cbn; intuition discriminate|]. split; [|reflexivity].
  intros c [<-|[<-|[]]]; apply in_or_app; [right; left; reflexivity|left; left; reflexivity].
Qed.
