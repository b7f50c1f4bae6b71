{"id": "C01", "title": "evaluate is total and classifies its input exactly", "statement": "With an evaluator obtained from Evaluator::new(), evaluate(cards) never panics. It returns Err(CardsNotUnique(cards)), carrying the caller's cards unchanged and in order, exactly when some card occurs twice; otherwise Err(InvalidHandSize(n)) exactly when n = cards.len() < 5; otherwise Ok. The duplicate check takes precedence over the size check.", "quantifier": "every slice of cards of any length, with any repetitions", "why_tests_cant": "the inputs are all card slices of unbounded length; a missing lookup key would panic on one particular hand among millions", "anchors": ["src/evaluate/evaluation.rs:evaluate", "src/evaluate/utils.rs:all_unique", "src/evaluate/mod.rs:Evaluator::evaluate"]}
{"id": "C02", "title": "five-card class is the poker class", "statement": "For five distinct cards, evaluate returns an Eval whose class() is exactly the class the rules of poker give that hand (straight flush, quads, full house, flush, straight, trips, two pair, pair, high card) with exactly the right ranks in its fields, ace playing low only in A-2-3-4-5.", "quantifier": "all 2,598,960 five-card hands in each of their 120 orders", "why_tests_cant": "311 million ordered inputs; the rules are a semantic specification unit tests sample with ten representative hands", "anchors": ["src/evaluate/evaluation.rs:five", "src/evaluate/lookup_table.rs:LookupTable::new", "src/evaluate/class.rs:EvalClass"]}
{"id": "C03", "title": "five-card comparison is the poker comparison", "statement": "For any two five-card hands, the first Eval is greater than the second iff the first hand beats the second by the rules of poker: higher category, or same category and lexicographically higher ranks taken by multiplicity then rank (straights by their top card only); the Evals are equal iff the hands tie.", "quantifier": "all pairs of five-card hands", "why_tests_cant": "about 6.7 * 10^12 pairs", "anchors": ["src/evaluate/evaluation.rs:five", "src/evaluate/lookup_table.rs:LookupTable", "src/evaluate/meta.rs:Ord for Meta", "src/evaluate/eval.rs:Eval"]}
{"id": "C04", "title": "evaluate picks the best five-card hand", "statement": "For six or more distinct cards the result is at least as good as the evaluation of every five-card hand that can be chosen from them, and equals (as a value: same ordering, class and text) the evaluation of some five of them.", "quantifier": "every set of 5..52 distinct cards, in every order, and every five-card choice from it", "why_tests_cant": "2^52 card sets times their orders and sub-hands", "anchors": ["src/evaluate/evaluation.rs:six_plus", "src/evaluate/utils.rs:Combinations"]}
{"id": "C05", "title": "card order does not matter", "statement": "Permuting the cards given to evaluate does not change the resulting Eval value; on error inputs the kind of error stays the same.", "quantifier": "every card slice and every permutation of it", "why_tests_cant": "factorially many orders of every hand", "anchors": ["src/evaluate/evaluation.rs:evaluate"]}
{"id": "C06", "title": "suits are interchangeable", "statement": "Renaming suits by any bijection of the four suits leaves the Eval value unchanged.", "quantifier": "every hand of at least five distinct cards and all 24 suit bijections", "why_tests_cant": "every hand times every relabelling", "anchors": ["src/evaluate/evaluation.rs:five", "src/card/suit.rs:Suit::as_i32"]}
{"id": "C07", "title": "more cards never hurt", "statement": "If every card of hand h also occurs in hand h' (both legal), evaluate(h') is greater than or equal to evaluate(h).", "quantifier": "all pairs of legal hands ordered by inclusion", "why_tests_cant": "unbounded combinations of hands and extensions", "anchors": ["src/evaluate/evaluation.rs:six_plus"]}
{"id": "C08", "title": "exactly 7462 hand values", "statement": "Evaluations of five-card hands take exactly 7462 distinct values, linearly ordered with no gaps: each position from best (royal flush) to worst (seven-high) is attained by some hand, and every evaluation of any legal hand is one of them.", "quantifier": "all five-card hands, all legal larger hands", "why_tests_cant": "the existing exhaustive test covers sorted five-card combinations only; larger hands and orders cannot be enumerated", "anchors": ["src/evaluate/hand_rank.rs:PokerHandRank", "src/evaluate/lookup_table.rs:constants"]}
{"id": "C09", "title": "BEST and WORST are the true extremes", "statement": "Eval::WORST <= e <= Eval::BEST for the evaluation e of every legal hand; both bounds are attained; e == BEST iff is_royal_flush() iff class() is StraightFlush{Ace} iff it prints 'Royal flush' iff the hand holds T-J-Q-K-A of one suit.", "quantifier": "every legal hand of any size", "why_tests_cant": "quantifies over every hand", "anchors": ["src/evaluate/eval.rs:Eval::BEST", "src/evaluate/eval.rs:Eval::WORST", "src/evaluate/meta.rs:is_royal_flush"]}
{"id": "C10", "title": "Eval comparison is a coherent total order", "statement": "Ord on Eval is a total order (reflexive, antisymmetric with respect to ==, transitive, total), partial_cmp agrees with cmp, is_better_than / is_worse_than / is_equal_to are exactly > / < / ==, and equal Evals feed identical data to any Hasher.", "quantifier": "all pairs and triples of Eval values", "why_tests_cant": "algebraic laws over all pairs and triples", "anchors": ["src/evaluate/meta.rs:Ord for Meta", "src/evaluate/meta.rs:Hash for Meta", "src/evaluate/eval.rs:is_better_than"]}
{"id": "C11", "title": "is_* predicates partition the hands", "statement": "For every Eval exactly one of is_high_card, is_pair, is_two_pair, is_three_of_a_kind, is_straight, is_flush, is_full_house, is_four_of_a_kind, is_straight_flush holds, and it is the one matching class(); is_royal_flush holds exactly for the straight flushes that are == Eval::BEST.", "quantifier": "every Eval value", "why_tests_cant": "ranges over every value of the type, not only sampled hands", "anchors": ["src/evaluate/eval.rs:is_high_card", "src/evaluate/meta.rs:Meta"]}
{"id": "C12", "title": "class order agrees with hand order", "statement": "If one legal hand's Eval is at least another's, its class() compares greater than or equal under EvalClass's Ord; a strictly greater class implies a strictly better Eval; equal Evals have equal classes and equal text.", "quantifier": "all pairs of legal hands", "why_tests_cant": "all pairs of hands; derived Ord depends on variant and field declaration order", "anchors": ["src/evaluate/class.rs:EvalClass", "src/evaluate/meta.rs:class"]}
{"id": "C13", "title": "Card encoding round-trips and is injective", "statement": "Card::new(r, s).rank() == r and .suit() == s; two cards are == iff they have the same rank and suit iff their unique_integer()s are equal; the integer has exactly the documented layout (one rank bit at 16+rank, one suit bit at 12..15, rank number in bits 8..11, the rank-th prime in bits 0..7, nothing else).", "quantifier": "all ranks and suits, all bit positions", "why_tests_cant": "a bit-level layout claim over all cards and all bit positions", "anchors": ["src/card/mod.rs:Card::new", "src/card/mod.rs:Card::rank", "src/card/mod.rs:Card::suit", "src/card/rank.rs:as_i32", "src/card/suit.rs:as_i32"]}
{"id": "C14", "title": "parsing inverts printing and accepts nothing else", "statement": "s.parse::<Card>() succeeds iff s is exactly one of '23456789TJQKA' followed by exactly one of 'chsd'; parse(c.rank_suit_string()) == Ok(c) for every card, and parse(s) == Ok(c) implies c.rank_suit_string() == s.", "quantifier": "every Unicode string of every length", "why_tests_cant": "the domain of strings is infinite", "anchors": ["src/card/mod.rs:FromStr for Card", "src/card/mod.rs:rank_suit_string", "src/card/rank.rs:TryFrom<char>", "src/card/suit.rs:TryFrom<char>"]}
{"id": "C15", "title": "parse errors are precise", "statement": "parse(s) fails with InvalidLength{s} iff s does not have exactly two chars; else InvalidRank{s, first char} iff the first char is not a rank; else InvalidSuit{s, second char} iff the second is not a suit. No other outcome exists, and original_input is always the input verbatim. The message quotes the input and the offending character, and lists exactly the characters accepted in its place.", "quantifier": "every Unicode string", "why_tests_cant": "infinite domain, plus precedence between the error kinds", "anchors": ["src/card/mod.rs:FromStr for Card", "src/error.rs:ParseCardError"]}
{"id": "C16", "title": "try_from_chars agrees with parse", "statement": "try_from_chars(a, b) is Ok(c) iff parse of the two-char string 'ab' is Ok(c); on failure both report the same variant and incorrect_char, and try_from_chars puts only the offending char in original_input.", "quantifier": "every pair of Unicode chars", "why_tests_cant": "about 10^12 pairs of chars", "anchors": ["src/card/mod.rs:Card::try_from_chars"]}
{"id": "C17", "title": "parse_to_iter / try_collect collect all or report the first error", "statement": "parse_to_iter yields exactly one Result per input string in order; try_collect is Ok(cards) iff every string parses, in input order, and otherwise returns the parse error of the first bad string, however many others follow. fold, size_hint, len and next_back agree with next.", "quantifier": "every finite sequence of strings", "why_tests_cant": "unbounded sequences; first-error semantics depends on position", "anchors": ["src/card/mod.rs:parse_to_iter", "src/card/mod.rs:ParseToIter", "src/card/mod.rs:try_collect"]}
{"id": "C18", "title": "cards!(text) splits on whitespace only", "statement": "cards!(text) parses the maximal runs of non-whitespace characters of text in order: writing any cards separated by any non-empty whitespace, with any leading or trailing whitespace, collects to exactly those cards, and the words reported are whitespace-free and non-empty.", "quantifier": "every string; every list of cards with every choice of Unicode whitespace separators", "why_tests_cant": "infinitely many layouts of the same cards", "anchors": ["src/card/macros.rs:cards!"]}
{"id": "C19", "title": "the deck is the 52 cards", "statement": "deck::generate() yields 52 cards, each rank/suit combination exactly once (so no duplicates and nothing missing), in rank-major order.", "quantifier": "every rank and suit", "why_tests_cant": "completeness and uniqueness claim over the whole deck", "anchors": ["src/deck.rs:generate", "src/card/rank.rs:ALL_VARIANTS", "src/card/suit.rs:ALL_VARIANTS"]}
{"id": "C20", "title": "shuffling preserves the deck", "statement": "shuffled_with(rng) returns a permutation of the 52 cards for every random number generator, so any k cards dealt from it are distinct and any 5 or more dealt cards evaluate without error; and every permutation is reachable by some rng.", "quantifier": "every rng behaviour (stream of random indices) and every number of cards dealt", "why_tests_cant": "2^64-sized space of random streams", "anchors": ["src/deck.rs:shuffled_with", "src/deck.rs:shuffled"]}
{"id": "C21", "title": "box_cards! concatenates", "statement": "box_cards!(a, b, ...) contains the cards of all slices in order and nothing else; evaluating box_cards!(hand, board) and box_cards!(board, hand) give the same Eval.", "quantifier": "every list of card slices", "why_tests_cant": "unbounded slices", "anchors": ["src/card/macros.rs:box_cards!"]}
{"id": "C22", "title": "Card ordering is by rank, and is consistent with ==", "statement": "Card's Ord/PartialOrd compare ranks (2 lowest, ace highest), cmp and partial_cmp agree, the order is total and transitive, and (the contract of Ord) a.cmp(b) is Equal iff a == b.", "quantifier": "all pairs and triples of cards", "why_tests_cant": "algebraic laws over all pairs and triples", "anchors": ["src/card/mod.rs:Ord for Card", "src/card/mod.rs:PartialOrd for Card", "src/card/rank.rs:Rank"]}
{"id": "C23", "title": "InvalidLength reports the number of characters received", "statement": "Displaying ParseCardError::InvalidLength quotes the input and reports how many characters were received, which is never the expected 2.", "quantifier": "every Unicode string whose length is not two chars", "why_tests_cant": "infinite domain, including multi-byte characters", "anchors": ["src/error.rs:Display for ParseCardError"]}
{"id": "C24", "title": "CardsNotUnique lists exactly the duplicated cards", "statement": "Displaying CardsNotUnique(cards) prints the fixed prefix followed by the two-char names, separated by single spaces, of exactly the cards that occur at least twice, each once (in some order).", "quantifier": "every card slice with repetitions, every hash-map iteration order", "why_tests_cant": "unbounded inputs and an unspecified iteration order", "anchors": ["src/error.rs:Display for EvalError"]}
{"id": "C25", "title": "every Evaluator a user can build evaluates legal hands", "statement": "Evaluator::new(), its clones, and Evaluator::default() all evaluate every legal hand without panicking and give the same answers.", "quantifier": "every way of constructing an Evaluator and every legal hand", "why_tests_cant": "ranges over all evaluators and hands", "anchors": ["src/evaluate/mod.rs:Evaluator", "src/evaluate/lookup_table.rs:LookupTable"]}
{"id": "C26", "title": "static_lookup::evaluate agrees with Evaluator", "statement": "If the bundled static tables hold the same entries as the dynamically generated ones, static_lookup::evaluate returns the same result (or error) as Evaluator::evaluate for every input; if they only pass the crate's own table-equality test, results still compare equal under ==.", "quantifier": "every card slice and every pair of tables satisfying the table-equality check", "why_tests_cant": "all tables and all inputs", "anchors": ["src/evaluate/static_lookup.rs:evaluate", "src/evaluate/evaluation.rs:Evaluation"]}
{"id": "C27", "title": "an Evaluator can be shared between threads", "statement": "Whatever the interleaving of evaluate calls by any number of threads on one shared Evaluator, each call returns what it would return alone; folding the results with cmp::max from Eval::WORST gives the same value for every order in which threads are joined, and it is the maximum; hands that cannot be evaluated count as the worst hand.", "quantifier": "every number of threads, every work list per thread, every schedule, every join order", "why_tests_cant": "exponentially many interleavings", "anchors": ["src/lib.rs:Arc", "src/evaluate/mod.rs:Evaluator::evaluate(&self)"]}
{"id": "C28", "title": "five-card choices are enumerated exactly once", "statement": "The internal combination generator used for hands of six or more cards (and kicker tables) terminates and produces every N-element sub-selection of its input exactly once, in lexicographic position order, for every N >= 1 and every input with at least N elements; with fewer elements it panics.", "quantifier": "every element type, every N >= 1, every input length", "why_tests_cant": "unbounded in N and input length", "anchors": ["src/evaluate/utils.rs:Combinations", "src/evaluate/utils.rs:const_combos"]}
{"id": "C29", "title": "ties are exactly equal ranks and flushness", "statement": "Two five-card hands that are both not flushes tie iff they have the same ranks with the same multiplicities; two flushes tie iff they have the same ranks; a flush and a non-flush never tie.", "quantifier": "all pairs of five-card hands", "why_tests_cant": "all pairs of hands; needs injectivity of the prime-product keys over all rank multisets", "anchors": ["src/evaluate/utils.rs:prime_product_from_hand", "src/evaluate/utils.rs:prime_product_from_rank_bits", "src/evaluate/evaluation.rs:five"]}
{"id": "C30", "title": "Display names the class and nothing is confused", "statement": "Displaying an Eval never fails, prints 'Royal flush' for an ace-high straight flush and otherwise the class name with the rank names, and two Evals print the same text iff their class() is the same.", "quantifier": "every Eval value and pair of values", "why_tests_cant": "injectivity over all pairs of classes", "anchors": ["src/evaluate/class.rs:Display for EvalClass", "src/card/rank.rs:as_str_name", "src/card/rank.rs:as_str_name_plural"]}
{"id": "C31", "title": "jacks-or-better conserves cards", "statement": "In the jacks-or-better example, whatever the player types and whatever the rng does, at every point hand and deck together are exactly the 52 cards, so the hands shown are always five distinct cards and no unwrap or index in the game loop panics; the program returns, unless the player has won credits up to the limit of usize, which needs more than 2^52 lines of input and panics with an overflow.", "quantifier": "every sequence of input lines, every rng stream, every number of rounds", "why_tests_cant": "unbounded histories of play", "anchors": ["examples/jacks-or-better.rs:main", "examples/jacks-or-better.rs:swap_cards"]}
{"id": "C32", "title": "jacks-or-better credits are accounted exactly", "statement": "Every accepted wager w satisfies 1 <= w <= 5 and w <= credits; after a round credits change by exactly -w (no win) or +payout; credits never underflow, and the game ends by itself exactly when credits reach 0.", "quantifier": "every history of play of a program that returns (see C31)", "why_tests_cant": "unbounded histories of play", "anchors": ["examples/jacks-or-better.rs:main", "examples/jacks-or-better.rs:get_wager"]}
{"id": "C33", "title": "jacks-or-better payouts follow the published chart", "statement": "The payout for a hand is the wager times the multiple in the README's payout chart; a pair of jacks or better is the weakest paying hand; a better class never pays less for the same wager.", "quantifier": "every wager 1..5 and every hand class", "why_tests_cant": "monotonicity over all pairs of classes", "anchors": ["examples/jacks-or-better.rs:payout", "README.md"]}
{"id": "C34", "title": "the REPL survives every input", "statement": "In poker-repl no input line causes a panic: each line other than help/quit prints either the evaluation of exactly the cards written on it in the style of its category or one error message, and the answer does not depend on earlier lines.", "quantifier": "every sequence of input lines", "why_tests_cant": "infinite domain of lines and histories", "anchors": ["examples/poker-repl.rs:main"]}
{"id": "C35", "title": "the lookup tables hold exactly one entry per hand kind", "statement": "LookupTable::new() has exactly 1287 flush entries and 6175 unsuited entries, no insertion overwrites another, no arithmetic overflows, and their hand ranks are exactly 1..7462 with each class occupying the documented contiguous range.", "quantifier": "every entry of the tables, every rank multiset", "why_tests_cant": "collision freedom and exact coverage over all multisets of ranks", "anchors": ["src/evaluate/lookup_table.rs:flushes_straights_high_cards", "src/evaluate/lookup_table.rs:multiples", "src/evaluate/lookup_table.rs:constants"]}
{"id": "C36", "title": "poker odds are reproduced", "statement": "Among the five-card sub-hands of the generated deck, evaluate reports exactly 40 straight flushes (4 royal), 624 quads, 3744 full houses, 5108 flushes, 10200 straights, 54912 trips, 123552 two pairs, 1098240 pairs and 1302540 high cards.", "quantifier": "all 2,598,960 five-card subsets of the deck", "why_tests_cant": "a counting statement over all hands", "anchors": ["src/deck.rs:generate", "src/evaluate/evaluation.rs:evaluate"]}
{"id": "C37", "title": "the bit-pattern generator steps to the next pattern", "statement": "Starting from any positive pattern, each step of the generator used to build the flush table yields the smallest larger integer with the same number of one bits, as long as that fits; hence from 0b11111 its first 1286 values are, in increasing order, all remaining 13-bit patterns with five ones.", "quantifier": "every positive starting value whose successor fits in 15 bits", "why_tests_cant": "a number-theoretic claim over all values", "anchors": ["src/evaluate/utils.rs:BitSequence::get_next"]}
{"id": "C38", "title": "rank and suit characters round-trip", "statement": "Rank::try_from(r.as_char()) == Ok(r), Suit::try_from(s.as_char()) == Ok(s), every other char is rejected with Err(that char); Display of a rank is its char and of a suit its pretty char; pretty chars are distinct; Display of a card determines it; == of ranks and of suits is equality.", "quantifier": "every rank, suit and every Unicode char", "why_tests_cant": "1.1 million chars", "anchors": ["src/card/rank.rs:TryFrom<char> for Rank", "src/card/suit.rs:TryFrom<char> for Suit", "src/card/mod.rs:Display for Card"]}
{"id": "C39", "title": "player input is validated before use", "statement": "get_swaps returns only lists of at most five distinct positions in 0..=4 that are exactly the numbers typed minus one, in order; get_wager returns only the number typed; any other line is rejected with a message and re-prompted, and quit or end of input ends the game.", "quantifier": "every sequence of input lines", "why_tests_cant": "infinite domain of inputs", "anchors": ["examples/jacks-or-better.rs:get_swaps", "examples/jacks-or-better.rs:get_wager"]}
{"id": "C40", "title": "only hand-relevant cards matter in large hands", "statement": "For six or more distinct cards: if some five cards share a suit the result is at least a flush; if four share a rank at least quads; holding all 52 cards (or any set containing a royal flush) evaluates to BEST.", "quantifier": "every legal hand of any size", "why_tests_cant": "quantifies over every large hand", "anchors": ["src/evaluate/evaluation.rs:six_plus"]}
{"id": "C41", "title": "drawing replaces exactly the discarded cards", "statement": "In jacks-or-better, swapping cards leaves every kept card in its place, loses and duplicates no card, and replaces the card at each named position by a card taken at random from the deck; a discarded card is out of play for the rest of the round.", "quantifier": "every hand, deck, list of positions and rng stream", "why_tests_cant": "quantifies over all rng streams", "anchors": ["examples/jacks-or-better.rs:swap_cards"]}
{"id": "C42", "title": "a player in credit can always play on", "statement": "In jacks-or-better, whenever the game asks for a wager, answering 1 and then an empty line (keep all cards) is accepted without complaint and completes the round: the player is never stuck at a prompt no answer satisfies.", "quantifier": "every state of the game between two rounds", "why_tests_cant": "a progress claim over all reachable states", "anchors": ["examples/jacks-or-better.rs:main", "examples/jacks-or-better.rs:get_wager", "examples/jacks-or-better.rs:get_swaps"]}
{"id": "C43", "title": "the number of cards held guarantees a category", "statement": "A hand of n distinct cards is at least a pair from 12 cards on, two pairs from 13, a flush from 17, a full house from 27, four of a kind from 40, a straight flush from 45, and Eval::BEST from 49; each of these sizes is the smallest possible.", "quantifier": "every hand of every size 5..=52", "why_tests_cant": "extremal claims over all 2^52 hands", "anchors": ["src/evaluate/evaluation.rs:six_plus", "src/evaluate/eval.rs:Eval"]}
{"id": "C44", "title": "the worst result of each hand size", "statement": "No hand of n distinct cards, 5 <= n <= 11, evaluates below a fixed high-card hand (7-5-4-3-2 for five, 8-7-5-4-3 for six, 9-8-7-5-4 for seven, ... A-K-Q-J-9 for eleven), and some hand of n cards evaluates equal to it.", "quantifier": "every hand of 5 to 11 cards", "why_tests_cant": "extremal claim over billions of hands", "anchors": ["src/evaluate/evaluation.rs:six_plus"]}
{"id": "C45", "title": "the shuffle is fair", "statement": "deck::shuffled_with asks its source for a number below 52, then below 51, down to below 2; each of the 52! orders of the deck is produced by exactly one sequence of answers, so independent uniform answers give each order the same probability.", "quantifier": "every sequence of answers, every order of the deck", "why_tests_cant": "52! orders", "anchors": ["src/deck.rs:shuffled_with"]}
{"id": "C46", "title": "equality of evaluators", "statement": "== on Evaluator is reflexive, symmetric and transitive; a clone equals its original; equal evaluators give the same verdict on every input; any two evaluators built by new() are equal and none equals default().", "quantifier": "all evaluators and all inputs", "why_tests_cant": "quantifies over all table contents", "anchors": ["src/evaluate/mod.rs:Evaluator", "src/evaluate/lookup_table.rs:LookupTable"]}
{"id": "C47", "title": "parse iterators can be consumed from both ends", "statement": "(About the trait impls of ParseToIter over a slice source: the opaque return type of parse_to_iter hides all but Iterator from callers.) However next and next_back are interleaved on the iterator over strs, the items taken from the front, the items left, and the items taken from the back (reversed) are together exactly the parses of strs in order; len and size_hint are exact; either end returns None exactly when all are taken.", "quantifier": "every list of strings and every interleaving", "why_tests_cant": "infinitely many strings and interleavings", "anchors": ["src/card/mod.rs:ParseToIter"]}
{"id": "C48", "title": "the category of any hand is the best pattern it holds", "statement": "For distinct cards of any number: the category of the result is the highest k such that the cards include category k's pattern (a pair, two pairs, three of a rank, five in sequence, five of a suit, three and two of a rank, four of a rank, five suited in sequence).", "quantifier": "every legal hand of every size", "why_tests_cant": "all hands of 5 to 52 cards", "anchors": ["src/evaluate/evaluation.rs:evaluate", "src/evaluate/evaluation.rs:six_plus"]}
{"id": "C49", "title": "six- and seven-card odds are reproduced", "statement": "Over all 133,784,560 seven-card hands of the deck evaluate reports exactly 41584 straight flushes (4324 royal), 224848 quads, 3473184 full houses, 4047644 flushes, 6180020 straights, 6461620 trips, 31433400 two pairs, 58627800 pairs and 23294460 high cards; over all 20,358,520 six-card hands 1844 (188 royal), 14664, 165984, 205792, 361620, 732160, 2532816, 9730740 and 6612900.", "quantifier": "all six- and seven-card subsets of the deck", "why_tests_cant": "a counting statement over 154 million hands", "anchors": ["src/deck.rs:generate", "src/evaluate/evaluation.rs:six_plus"]}
{"id": "C50", "title": "the worth of any hand can be read off the hand", "statement": "For distinct cards of any number, without looking at five-card subsets: the class of the result is the first that applies of: straight flush to the highest rank that ends five suited ranks in sequence; four of a kind of the highest rank held four times; full house of the highest rank held three times and the highest other held twice; flush of the suit with the highest five; straight; three of a kind; the two highest pairs; the pair; the highest card. Two results of hands of any two sizes compare by category, then by these ranks followed by the highest remaining ranks, and are equal exactly if all of these agree.", "quantifier": "every legal hand of every size, every pair of legal hands", "why_tests_cant": "all pairs of hands of 5 to 52 cards", "anchors": ["src/evaluate/evaluation.rs:evaluate", "src/evaluate/evaluation.rs:six_plus", "src/evaluate/eval.rs:Eval"]}
{"id": "C51", "title": "which table entries a call reads", "statement": "evaluate of cards with a repetition, or of fewer than five, reads no table entry. Of n >= 5 distinct cards it makes n(n-1)(n-2)(n-3)(n-4)/120 reads: one for each five-card subset, in the flush table if the five are suited and otherwise in the other, at the product of the primes of their ranks. Nothing is read twice for one subset and no key outside the tables is asked for.", "quantifier": "every input, every legal hand of every size", "why_tests_cant": "no test can see the reads, and hands run to 52 cards", "anchors": ["src/evaluate/evaluation.rs:evaluate", "src/evaluate/evaluation.rs:five", "src/evaluate/evaluation.rs:six_plus"]}
{"id": "C52", "title": "every deal is equally likely", "statement": "Of the 52! answer sequences deck::shuffled_with can be given, exactly (52-k)! put any given k cards on top in a given order, and k!(52-k)! put them on top in some order; so a hand of k cards dealt from the top has a given property in exactly the proportion that property has among all k-card subsets of the deck.", "quantifier": "every list of distinct cards, every k, every property of results", "why_tests_cant": "52! sequences", "anchors": ["src/deck.rs:shuffled_with", "src/deck.rs:generate"]}
{"id": "C53", "title": "Debug texts and hashes tell values apart", "statement": "The Debug text (plain or pretty) of two Cards is the same exactly if the cards are; likewise the Debug texts of EvalClass and Eval; two EvalErrors over cards with the same Debug text are the same. The texts are the Rust-like ones: Card { unique_integer: N, rank: Ace, suit: Spades } (one field per line for {:#?}), FullHouse { trips: Ten, pair: Two }, Eval(...) with the hand rank, InvalidHandSize(n), CardsNotUnique([...]). Equal cards feed any hasher the same data, different cards different data.", "quantifier": "all pairs of cards, classes, results and errors, every hasher", "why_tests_cant": "all pairs of values, error texts of unbounded length", "anchors": ["src/card/mod.rs:Card", "src/evaluate/class.rs:EvalClass", "src/evaluate/eval.rs:Eval", "src/error.rs:EvalError"]}
{"id": "C54", "title": "what the build script does", "statement": "Without feature static_lookup, or with DOCS_RS=1, build.rs does nothing and succeeds. Otherwise it succeeds exactly if OUT_DIR is set, the file codegen.rs in it can be created, the fixed URL answers with a readable body and the body can be written; then codegen.rs holds exactly that body. It makes at most one request and changes no other file. Without an answer it panics and leaves codegen.rs empty. (The HTTP status is not looked at: an error page is written as code.)", "quantifier": "every environment and every answer of the network and the file system", "why_tests_cant": "needs failures of the network and the file system", "anchors": ["build.rs:main"]}
{"id": "C55", "title": "the return of the example game", "statement": "Over the 2,598,960 five-card hands, a bet of w credits (1 to 5) in examples/jacks-or-better.rs pays nothing on exactly 2,062,860 and in total 872304*w plus 4 royal flushes' 250*w (4000 each for w = 5).", "quantifier": "all five-card subsets of the deck, every bet", "why_tests_cant": "a sum over 2.6 million hands", "anchors": ["examples/jacks-or-better.rs:payout"]}
{"id": "C56", "title": "every draw in the example game is fair", "statement": "Whatever distinct cards are in the deck, the shuffles of examples/jacks-or-better.rs (after the discards are put back, and between rounds) ask for numbers below their count, down to below 2, and each order of the cards comes from exactly one sequence of answers. In an exchange of k cards with n cards in the deck, every way to fill the k places with different cards out of the deck and the discards comes from exactly n! of the (n+k)! answer sequences.", "quantifier": "every hand, deck, choice of discards and result of the draw", "why_tests_cant": "52! sequences for each of the millions of hands and decks", "anchors": ["examples/jacks-or-better.rs:swap_cards", "examples/jacks-or-better.rs:main"]}
{"id": "C57", "title": "EvalClass and Rank are ordered as in poker", "statement": "Ord on EvalClass orders by category (high card lowest, straight flush highest) and within a category by the ranks the class names, the more important first (two pair: high pair, then low pair; full house: trips, then pair); it is Equal exactly for equal classes. Ord on Rank is two lowest to ace highest.", "quantifier": "all pairs of EvalClass values, also those no hand has; all pairs of ranks", "why_tests_cant": "derived Ord depends on declaration order of variants and fields; a swap shows up only for particular pairs", "anchors": ["src/evaluate/class.rs:EvalClass", "src/card/rank.rs:Rank"]}
{"id": "C58", "title": "exactly 309 classes are reported", "statement": "class() of an evaluation of five or more cards is never an impossible class (two pair with high pair not above the low one, full house of one rank, high card or flush below seven, straight below five), and every other class is reported for some hand: 309 in all.", "quantifier": "all legal hands of any size, all EvalClass values", "why_tests_cant": "absence over 2^52 hands", "anchors": ["src/evaluate/class.rs:EvalClass", "src/evaluate/eval.rs:Eval::class"]}
{"id": "C59", "title": "random indices and shuffles are unbiased down to the random words", "statement": "(About rand 0.8.5, the version in Cargo.lock, as used by deck::shuffled_with and the examples.) The index below r drawn from a W-bit word is below r, every index comes from the same number of words (the largest power of two c with r*c < 2^W), and at least half of all words are accepted. A shuffle over words is one of the shuffles over index answers (C45), and each order of the cards comes from the same number of sequences of accepted words.", "quantifier": "every bound, word width, source of words, list of fewer than 2^32 distinct cards and order of it", "why_tests_cant": "2^32 words per index and 52! orders", "anchors": ["src/deck.rs:shuffled_with", "examples/jacks-or-better.rs:swap_cards", "Cargo.lock:rand"]}
{"id": "C60", "title": "numbers are printed in decimal", "statement": "Every number in a message (length, hand size, credits, wager, winnings) is printed in decimal digits without leading zeros, and a usize printed by the example game is read back by it as the same number.", "quantifier": "all natural numbers; all 64-bit numbers for reading back", "why_tests_cant": "2^64 numbers", "anchors": ["src/error.rs:EvalError", "examples/jacks-or-better.rs:get_wager"]}
{"id": "C61", "title": "how many five-card hands tie", "statement": "Of the 2,598,960 five-card hands, exactly as many have the same value as a given one (==) as its category says: high card 1020, pair 384, two pair 144, three of a kind 64, straight 1020, flush 4, full house 24, four of a kind 4, straight flush 4.", "quantifier": "every five-card hand", "why_tests_cant": "counts over 2.6 million hands for each of 7462 values", "anchors": ["src/evaluate/eval.rs:Eval", "src/evaluate/evaluation.rs:evaluate"]}
{"id": "C62", "title": "six cards have 6075 values, seven cards 4824", "statement": "Evaluations of six distinct cards take exactly 6075 different values and evaluations of seven distinct cards exactly 4824, in strictly descending order each; the other values of the 7462 never occur with that many cards.", "quantifier": "all hands of six and of seven cards", "why_tests_cant": "20 million and 134 million hands; absence of values", "anchors": ["src/evaluate/evaluation.rs:evaluate"]}
{"id": "C63", "title": "the Debug text of a parse error is the error as Rust source", "statement": "{:?} of a ParseCardError is its variant and fields as one writes them in Rust, the input as a string literal and the character as a character literal with Rust's escapes, and {:#?} is the same over several lines. Reading the text as source gives back exactly the error, so different errors have different texts. {:?} is one line without control whitespace whatever the input was, and printable input without quotes and backslashes appears unchanged.", "quantifier": "all parse errors over arbitrary text, whichever characters the Unicode tables call printable", "why_tests_cant": "arbitrary Unicode input; ambiguity of quoting shows up only for inputs that contain quotes and backslashes", "anchors": ["src/error.rs:ParseCardError"]}
{"id": "C64", "title": "the macros accept the documented forms and no others", "statement": "card! accepts 'R, S', 'R of S' (giving Card::new(Rank::R, Suit::S)) and one expression (giving its parse); cards! accepts 'R, S; ..' and 'R of S, ..', each with or without a trailing separator (an array, in order), two or more expressions separated by commas with or without a trailing one (each parsed), and one expression (its words parsed); box_cards! accepts two or more expressions (concatenated). Every other sequence of tokens is rejected, among them unknown ranks and suits, one expression with a trailing comma, and 'x, y' for two string variables, which is taken for a rank and a suit.", "quantifier": "all token sequences and all values of the expressions in them", "why_tests_cant": "which arm of a macro matches depends on the tokens; rejected invocations cannot be part of a test program", "anchors": ["src/card/macros.rs:card", "src/card/macros.rs:cards", "src/card/macros.rs:box_cards"]}
{"id": "C65", "title": "what the terminal shows", "statement": "If no input line contains an escape character, then in a run of either example program an ECMA-48 terminal shows exactly the texts the program prints, each in its colour and attributes (none if colours are off), erases the screen exactly where the program clears it, and is left with no style and no unfinished sequence. The prompt shows as its own characters in bright green. With an escape character in the input this is false: the REPL quotes the input raw, and a line can erase the screen.", "quantifier": "all input lines without escape characters, all random sources, colours on or off", "why_tests_cant": "all sessions; the sequences that reach the terminal are not visible to a test of the texts", "anchors": ["examples/common/mod.rs:highlight_prompt", "examples/common/mod.rs:clear_terminal", "examples/jacks-or-better.rs:main", "examples/poker-repl.rs:main"]}
{"id": "C66", "title": "what the documented programs print", "statement": "The README program never panics: whatever the random source, it prints one line, the name of the class of the first five cards of its shuffled deck, and this is one of 309 lines. Of the 52! equally likely lists of answers of the source, exactly (number of five-card hands of that class) * 5! * 47! lead to each of the lines, e.g. 48 of 2,598,960 to 'Four of a kind, twos'. The threaded program of the crate documentation prints the class of the best of the hands its threads were dealt, whatever the interleaving.", "quantifier": "all random sources in range, all 52! lists of answers, all schedules, any number of threads from one", "why_tests_cant": "random output: a test sees one of 52! runs and one interleaving", "anchors": ["README.md:main", "src/lib.rs:crate documentation", "src/deck.rs:shuffled", "src/evaluate/mod.rs:Evaluator::evaluate"]}
{"id": "C67", "title": "the results decide a showdown", "statement": "Let players with different cards share a board, each with at least five cards in all. Every player's cards evaluate with the board, in either order of box_cards!. A result is worse than nobody's (is_worse_than) exactly if the player can lay down five cards out of their own and the board's that no five cards of any player beat; somebody always can, all who can have the same result, and who they are can be read off the ranks and suits. Nobody is below the board itself, and if no suit of the board leaves room for a flush, players with cards of the same ranks tie.", "quantifier": "all boards, any number of players, any numbers of cards", "why_tests_cant": "hold'em alone has about 3*10^12 deals for two players", "anchors": ["src/evaluate/evaluation.rs:evaluate", "src/evaluate/eval.rs:Eval::is_worse_than", "src/card/macros.rs:box_cards"]}
{"id": "C68", "title": "what {:#?} and the Debug text of an Evaluator show", "statement": "{:#?} of a class, a result (also within the Result of evaluate) and an error has one field per line, four blanks per level, a comma after each, and apart from blanks, line feeds and commas the same characters as {:?}; two values have the same {:#?} text exactly if they are equal. {:?} of an Evaluator made by new() lists each of the 1287 and 6175 entries of its two tables exactly once, in whatever order the hash maps iterate.", "quantifier": "all classes, results and errors with any number of cards; every order of iteration", "why_tests_cant": "infinitely many errors; all orders of 7462 entries", "anchors": ["src/evaluate/class.rs:EvalClass", "src/evaluate/eval.rs:Eval", "src/evaluate/meta.rs:Meta", "src/error.rs:EvalError", "src/evaluate/mod.rs:Evaluator"]}
{"id": "C69", "title": "no place in the shuffled deck is better than another", "statement": "Take cards from a shuffled deck at any positions, in any order. Whatever is asked of these cards, exactly as many of the 52! lists of answers of the random source lead to it as with any other positions. So however a showdown is dealt (card by card, hand by hand, with burnt cards), a player wins in the same number of cases, and players who are dealt equally many cards win equally often.", "quantifier": "all choices of positions, all questions about the cards, all ways of dealing to any number of players", "why_tests_cant": "52! orders of the deck", "anchors": ["src/deck.rs:shuffled", "src/deck.rs:shuffled_with", "src/evaluate/evaluation.rs:evaluate"]}
{"id": "C70", "title": "the crate's own tests, documentation examples and benchmarks pass", "statement": "Every #[test] of the crate, every documentation example with an assertion and every benchmark, transcribed as a program over the model, ends without a panic, for every random source that answers below what it is asked and every order in which hash maps are gone through. With the feature static_lookup the same holds if the tables built in have the contents of those of Evaluator::new(). ensure_identical_tables passes exactly for tables with the same keys and the same numbers; for all such tables the test and the benchmark of all 2,598,960 combinations pass. The comparisons and helpers the tests are written with do what they say.", "quantifier": "all random sources, all orders of iteration, all tables that may be built in", "why_tests_cant": "running a test samples one random source, one order of iteration and one build", "anchors": ["src/evaluate/mod.rs:tests", "src/evaluate/static_lookup.rs:tests", "src/evaluate/utils.rs:tests", "src/error.rs:tests", "src/deck.rs:tests", "benches/evaluation.rs"]}
{"id": "C71", "title": "what evaluate answers, whatever tables were built in", "statement": "static_lookup::evaluate with any two tables at all: repeated cards and too few cards are turned away without asking the tables. If the tables lack the entry of some five of the cards it panics (on docs.rs, with empty tables, on every legal hand); otherwise five cards get their own entry, and more cards the entry with the lowest number among all five of them, or Eval::WORST if none is below 7462. The first table is asked if the five cards are of one suit, the second if not, at the product of the primes of the ranks. Two pairs of tables answer alike on all cards exactly if they agree at the 1287 and 6175 such products; other entries are never asked for.", "quantifier": "all pairs of tables and all lists of cards", "why_tests_cant": "the tables come out of the build script or a download; a test sees one pair of them", "anchors": ["src/evaluate/static_lookup.rs:evaluate", "src/evaluate/evaluation.rs:evaluate", "src/evaluate/evaluation.rs:five", "src/evaluate/evaluation.rs:six_plus"]}
{"id": "C72", "title": "parsing any iterator of strings, also an endless one", "statement": "Over any iterator of strings, endless or resuming after its end, each next() of Card::parse_to_iter takes one string and gives what parse() makes of it. fold returns exactly if the strings end. try_collect into a Vec succeeds exactly if the texts of cards come and then the end, with those cards; it fails exactly if texts of cards come and then a text that is none, with that text's error, and asks for nothing further; of cards without end it makes nothing. The same holds for every collection that takes None for the end; one that goes on asking after None gets the last error it met. Over a list it is the try_collect of C17.", "quantifier": "all iterators of strings, all collections, all closures of fold", "why_tests_cant": "endless iterators and iterators that resume; a test takes finitely many items", "anchors": ["src/card/mod.rs:Card::parse_to_iter", "src/card/mod.rs:ParseToIter::next", "src/card/mod.rs:ParseToIter::fold", "src/card/mod.rs:ParseToIter::try_collect"]}
{"id": "C73", "title": "the result of a hand and of the hands within it", "statement": "Five of the cards of a hand carry its result: every hand between those five and the whole hand has the same result, so a result of n cards is also a result of m of them, 5 <= m <= n. The result of a hand is the best of the results of any parts of it, as long as each five of its cards lie together in one part; in particular of all hands of m of its cards, and of all hands with one card less. The converse fails: two hands can have the same result and different ones once the same card is added to both.", "quantifier": "all hands of five or more cards, all families of parts", "why_tests_cant": "all subsets of all hands of up to 52 cards", "anchors": ["src/evaluate/evaluation.rs:evaluate", "src/evaluate/evaluation.rs:six_plus", "src/evaluate/eval.rs:Eval::cmp"]}
{"id": "C74", "title": "debug and release builds compute the same", "statement": "Without overflow checks and debug assertions (cargo build --release) Card::new, Evaluator::new(), evaluate with any tables on any cards, and the combinations of any n of any items give exactly what they give with them, the same panics included. The generator of bit patterns differs only from the patterns 0 and i16::MIN, where the checked build panics. Jacks or Better runs alike in both builds whenever the checked one does not panic, so on every input of fewer than 2^52 lines; where the checked build stops because the credits exceed u64, the other one goes on with 2^64 credits less, and it always ends by itself.", "quantifier": "all cards, tables, hands, items and bit patterns; all inputs, random sources and hash map orders of the game", "why_tests_cant": "tests run in one of the builds; the inputs where they part are out of a test's reach", "anchors": ["src/card/mod.rs:Card::new", "src/evaluate/utils.rs:Combinations", "src/evaluate/utils.rs:BitSequence::get_next", "src/evaluate/evaluation.rs:evaluate", "src/evaluate/lookup_table.rs:LookupTable::new", "examples/jacks-or-better.rs:main"]}
{"id": "C75", "title": "format options and failing writers", "statement": "Whatever the options of the format string (width, fill, alignment, precision, sign, #, 0), Display of Rank, Suit, Card, EvalClass, Eval, ParseCardError and EvalError hands the writer exactly the text of {}, in the same pieces; it stops at the first failure of the writer and returns it, so what the writer has accepted is always a beginning of the text, and all of it if Ok is returned. to_string never panics. Debug does the same with the text of {:?} (or {:#?}) in which only the numbers follow the options, each one padded by itself; for Rank, Suit, EvalClass and ParseCardError no option but # matters.", "quantifier": "all values, all options, all writers (any state, failing at any call)", "why_tests_cant": "all widths, fills and writers; writers that fail are rarely written for a test", "anchors": ["src/card/mod.rs:Card::fmt", "src/card/rank.rs:Rank::fmt", "src/card/suit.rs:Suit::fmt", "src/evaluate/class.rs:EvalClass::fmt", "src/evaluate/eval.rs:Eval::fmt", "src/evaluate/meta.rs:Meta::fmt", "src/error.rs:ParseCardError::fmt", "src/error.rs:EvalError::fmt"]}
{"id": "C76", "title": "the game does not depend on the width of usize", "statement": "Jacks or Better with a usize of 12 bits or more does on every machine what it does on a 64-bit one, in every turn after which the credits fit into the usize; where they do not fit, it panics (with overflow checks). The one visible difference is the complaint about a number that was typed and does not fit. A text is read as a usize exactly if it is a decimal number, perhaps with a + in front, that fits. Fewer than 2^(bits-12) lines of input (2^20 with 32 bits) never make it panic; if no line holds a number that does not fit, the whole run is the same.", "quantifier": "all widths, inputs, random sources, hash map orders", "why_tests_cant": "tests run on the developer's machine", "anchors": ["examples/jacks-or-better.rs:main", "examples/jacks-or-better.rs:get_wager", "examples/jacks-or-better.rs:get_swaps", "examples/jacks-or-better.rs:payout"]}
{"id": "C77", "title": "the example programs at a terminal", "statement": "Whoever types the lines, and whatever the lines depend on, Jacks or Better ends as it would had it been given the same lines beforehand (same output, deck, hand, credits, random source). Each time it reads a line, everything that the lines before it cause has already been printed, and last of all the question this line answers: the wager with the credits there are while the hand is empty, or the cards to swap while five cards are in the hand. The end of input ends it there and then. It never goes on without reading, and it never panics within 2^52 lines, except when standard output fails: then it panics right there, having read and printed a beginning of the same game. poker-repl prints its welcome, and then for each line its answer before the next line is read, until the end of input, quit, or an answer that cannot be printed.", "quantifier": "all worlds: every way in which the typed lines and the failures of standard output depend on what happened before; all random sources and hash map orders", "why_tests_cant": "tests feed prepared input and look at the output afterwards; a failing terminal is not simulated", "anchors": ["examples/jacks-or-better.rs:main", "examples/jacks-or-better.rs:get_wager", "examples/jacks-or-better.rs:get_swaps", "examples/poker-repl.rs:main"]}
{"id": "C78", "title": "the number of a value counts the better ones", "statement": "The hand_rank number that {:?} shows for a result is its place among the 7462 values: exactly that number less one of them are better. Straight flushes have the places 1-10, four of a kind 11-166, full houses 167-322, flushes 323-1599, straights 1600-1609, three of a kind 1610-2467, two pair 2468-3325, pairs 3326-6185, high cards 6186-7462, and every place is taken. How many of the 2,598,960 five-card hands are better than a result, and how many are worse, is a linear function of the place within each category.", "quantifier": "all hands of five or more cards", "why_tests_cant": "all hands, against all 2,598,960 others", "anchors": ["src/evaluate/hand_rank.rs:PokerHandRank", "src/evaluate/lookup_table.rs:LookupTable::new", "src/evaluate/eval.rs:Eval::cmp"]}
{"id": "C79", "title": "operators, max, min, clamp, sorting and ordered sets follow the orders", "statement": "Rank, Card, EvalClass and Eval are totally ordered and partial_cmp agrees with cmp. Between results >, <, >=, <= say which hand is worth more; between cards and ranks which is higher; between classes which outranks the other. Iterator::max is the last of the greatest and Iterator::min the first of the least; clamp panics exactly if its bounds are crossed. A stable sort is determined by the order; sorting a hand does not change its result, and results have only one sorted order, so an unstable sort will do. A BTreeSet of cards, however it was built, keeps one card per rank, so what is left of a hand evaluates to a high card, straight, flush or straight flush or is too small; a BTreeSet of results loses nothing but repetitions. sort followed by dedup removes the repetitions from a list of results (but not from every list of cards).", "quantifier": "all lists of cards, ranks, classes and results, all ways to sort and collect them", "why_tests_cant": "unboundedly many lists; that a sort is determined speaks about every sorting algorithm", "anchors": ["src/card/mod.rs:Card::cmp", "src/card/mod.rs:Card::partial_cmp", "src/card/rank.rs:Rank", "src/evaluate/class.rs:EvalClass", "src/evaluate/eval.rs:Eval", "src/evaluate/meta.rs:Meta::cmp"]}
{"id": "C80", "title": "the example game can be beaten", "statement": "In examples/jacks-or-better.rs the discards go back into the deck before the draw, so exchanging any positions brings, on average over the random answers, what drawing as many cards from all cards not kept brings. Over shuffle and draw together, a player who never exchanges loses 297389/649740 of the wager (296839/649740 of a wager of five), and so does a player who always exchanges everything. Keeping a pair that does not pay brings 19/245 of the wager whatever the rest of the hand is. A player who keeps what pays, keeps a low pair and otherwise exchanges everything gains exactly 71362901/551845840 of the wager (72064151/551845840 of a wager of five): the player is ahead by 12.9 %.", "quantifier": "all wagers, all orders of the deck before the shuffle, all answers of the random generator, all exchanges", "why_tests_cant": "the average runs over 52! shuffles times the draws, no test can enumerate or sample an exact value", "anchors": ["examples/jacks-or-better.rs:main", "examples/jacks-or-better.rs:swap_cards", "examples/jacks-or-better.rs:payout", "src/deck.rs:shuffled"]}
{"id": "C81", "title": "credits of the example game after several rounds", "statement": "If a player of examples/jacks-or-better.rs always wagers w and plays n rounds that cannot ruin them (n*w <= 100) before leaving, the credits with which the program ends are, on average over all answers of the random generator, exactly 100 plus n times what one round brings with the player's plan, however the plan chooses cards of the hand and however wager and positions are typed as long as the program understands them. With the plan of C80 that is 100 + n*w*71362901/551845840 (72064151/551845840 for wagers of five), and 100 - n*w*297389/649740 for who never exchanges. A hundred rounds for one credit make 112.93 credits on average.", "quantifier": "all plans, wagers, numbers of rounds, ways of typing, hash map orders; the average runs over all answers", "why_tests_cant": "needs the whole program run on every sequence of random answers of up to a hundred rounds", "anchors": ["examples/jacks-or-better.rs:main", "examples/jacks-or-better.rs:swap_cards", "examples/jacks-or-better.rs:get_wager", "examples/jacks-or-better.rs:get_swaps", "examples/jacks-or-better.rs:payout", "src/deck.rs:shuffled"]}
{"id": "C82", "title": "the iterator of deck::generate is a pile of 52 cards", "statement": "However the iterator that deck::generate returns is asked, with next, nth, by_ref().take(n) and size_hint in any order and number, it answers like a pile of the 52 cards: no call panics, every card comes once and in the order of the deck, after the last card every call yields nothing for ever, and size_hint is exact at any time. collect, count and fold of whatever is left go through exactly the cards not yet taken.", "quantifier": "all sequences of calls of any length, all folds", "why_tests_cant": "tests only collect or count a fresh deck; the sequences of calls are unboundedly many", "anchors": ["src/deck.rs:generate"]}
{"id": "C83", "title": "hash maps and hash sets of the crate's types are dictionaries", "statement": "A hash map whose keys are cards, ranks, suits, results or the numbers of the lookup tables answers every sequence of get, insert, entry, remove and len as a dictionary up to == does, whatever the hasher, the number of slots, the order in which they are searched and the growth of the table; only the order of iteration shows them. Hence the evaluator built over such hash maps has the same 1287 and 6175 entries and evaluates every list of cards as the one built over finite maps. The counts in the errors about duplicate cards and positions, and the example game's test for duplicates, do not depend on the hasher. A HashSet of cards holds every card once and contains exactly the cards collected; a HashSet of results holds one result per worth, at most 7462, and contains a result exactly if some hand of the same worth was collected.", "quantifier": "all hashers, layouts and growth policies of the table, sequences of calls of any length, lists of cards and hands", "why_tests_cant": "one hasher and one layout per run; collisions depend on the seed and hardly ever happen in a test", "anchors": ["src/evaluate/lookup_table.rs:LookupTable::new", "src/evaluate/mod.rs:Evaluator::evaluate", "src/card/mod.rs:Card", "src/card/rank.rs:Rank", "src/card/suit.rs:Suit", "src/evaluate/eval.rs:Eval", "src/evaluate/meta.rs:Meta::hash", "src/error.rs:EvalError::fmt", "examples/jacks-or-better.rs:get_swaps"]}
{"id": "C84", "title": "static tables are certified by two of the crate's tests together", "statement": "With the feature static_lookup the tables are perfect hash maps read from a downloaded file: a seed, displacements and entries. Whatever the file holds: if the crate's tests ensure_identical_tables and test_all_five_card_combos both pass, static_lookup::evaluate answers every list of cards as Evaluator::evaluate does, up to ==. Neither test is enough alone: ensure_identical_tables goes through the entries and never looks one up, so for every seed and displacements some entries pass it and make a hand panic; test_all_five_card_combos passes with tables that compare every two hands the wrong way round. Entries that are those of Evaluator::new and stand where their keys lead give the very same results, and both tests pass. The empty maps of docs.rs make every hand of five or more different cards panic.", "quantifier": "all hash functions, seeds, displacements, lists of entries; all lists of cards", "why_tests_cant": "the file is one of infinitely many; the tests look at five-card hands only", "anchors": ["src/evaluate/static_lookup.rs:evaluate", "src/evaluate/static_lookup.rs:statics", "src/evaluate/static_lookup.rs:ensure_identical_tables", "src/evaluate/static_lookup.rs:test_all_five_card_combos", "src/evaluate/evaluation.rs:evaluate"]}
{"id": "C85", "title": "heads-up: how often two five-card hands tie and win", "statement": "Against any five cards the other player can hold 1533939 hands. Of these, as many compare equal to the own hand as its category and suits say: 239 plus the number of suits in the own hand for a high card or a straight, 27 for a pair, 3 for two pairs, a flush or a straight flush, none for three or four of a kind or a full house. In all 347798880 ordered pairs of hands without a common card compare equal. When the deck is shuffled with uniform answers and two players are dealt five cards each from any ten different places, the hands tie for 347798880 * 5! * 5! * 42! of the 52! lists of answers, and each player's hand is_better_than the other's in exactly half of the remaining ones.", "quantifier": "all five-card hands; all choices of ten different places of the deck; all lists of answers of the random number generator", "why_tests_cant": "there are about 4 * 10^12 pairs of hands and 52! lists of answers", "anchors": ["src/evaluate/evaluation.rs:evaluate", "src/evaluate/eval.rs:is_better_than", "src/evaluate/eval.rs:PartialEq", "src/deck.rs:shuffled_with", "src/deck.rs:generate"]}
{"id": "C86", "title": "what the cards on the table allow", "statement": "For any three, four or five different cards on the table: two further cards exist with which evaluate gives a flush (or straight flush) if and only if three cards on the table have the same suit; four of a kind if and only if two of them have the same rank; a full house if and only if two of them have the same rank and not four; a straight (or straight flush) if and only if three of the five ranks of some straight are on the table; a straight flush if and only if they are there in one suit. If none of this is on the table, two more cards of the highest rank there are as good as any two cards: they give ThreeOfAKind of that rank, any other two cards with these ranks compare equal, and all other two cards compare less.", "quantifier": "all boards of three, four or five different cards; all pairs of further cards", "why_tests_cant": "there are about 2.9 million boards with about 1000 pairs of cards each", "anchors": ["src/evaluate/evaluation.rs:evaluate", "src/evaluate/eval.rs:class", "src/evaluate/eval.rs:Ord", "src/card/macros.rs:box_cards"]}
{"id": "C87", "title": "what the source text does: cards", "statement": "Read as a Rust program and run, the text of src/ makes, for every rank and suit, a card v by Card::new of which Card::rank and Card::suit return this rank and suit, whose unique_integer has exactly the documented bits, whose rank_suit_string is the two characters of rank and suit, and which Card::from_str returns for these two characters. For any other string Card::from_str returns InvalidLength, InvalidRank (if the first of two characters is no rank) or InvalidSuit (if only the second is wrong), each with the string and the offending character. Card::cmp answers as the ranks compare.", "quantifier": "all ranks and suits; all strings; all pairs of cards; any nesting depth and loop bound of the interpreter beyond some point", "why_tests_cant": "the strings are infinitely many, and a test runs compiled code while this is about every run of the text itself", "anchors": ["src/card/mod.rs:new", "src/card/mod.rs:from_str", "src/card/mod.rs:rank_suit_string", "src/card/mod.rs:Ord", "src/card/rank.rs:as_char", "src/card/suit.rs:as_char"]}
{"id": "C88", "title": "what the source text does: hands", "statement": "Read as a Rust program and run, the text of src/ returns an evaluator from Evaluator::new. For the values that Card::new returns, Evaluator::evaluate returns CardsNotUnique with the cards if two are equal; InvalidHandSize with their number if they are different and fewer than five; otherwise an Eval. For five cards Eval::class returns the class the rules of poker give the hand; for two such hands is_better_than, is_worse_than and is_equal_to return true exactly if the first hand beats, is beaten by or ties with the second by the rules. For more cards the result is that of some five of them, and is_worse_than returns false of it against the result of any five of them.", "quantifier": "all lists of cards of any length; all pairs of five-card hands; any nesting depth and loop bound of the interpreter beyond some point", "why_tests_cant": "there are 2598960 five-card hands, more than 10^12 pairs of them and 2^52 sets of cards; and the claim is about the text, not one compilation of it", "anchors": ["src/evaluate/mod.rs:Evaluator", "src/evaluate/evaluation.rs:evaluate", "src/evaluate/evaluation.rs:five", "src/evaluate/evaluation.rs:six_plus", "src/evaluate/lookup_table.rs:new", "src/evaluate/eval.rs:is_better_than"]}
{"id": "C89", "title": "what the source text does: choices of items", "statement": "Read as a Rust program and run, the text of const_combos::<T, N> and of Combinations::next yields, for any list of items and any N from 1 to its length, every choice of N items exactly once, in lexicographic order of their places, and then None. With fewer items than N the first call of next panics.", "quantifier": "all N; all lists of values of any type, of fewer than 2^63 items", "why_tests_cant": "N, the items and their number are arbitrary", "anchors": ["src/evaluate/utils.rs:const_combos", "src/evaluate/utils.rs:Combinations"]}
{"id": "C90", "title": "what the source text does: results", "statement": "Read as a Rust program and run, the text of Evaluator::evaluate gives any five or more different cards a result whose class, by the text of Eval::class, is the class of five of these cards that no five of them beat. The nine texts Eval::is_high_card to Eval::is_straight_flush return true exactly for the category of that class, Eval::is_royal_flush exactly for an ace-high straight flush; Eval::hand_rank is between 1 and 7462; and Eval::fmt appends the name of that class, such as \"Full house, kings over twos\", to what was written before.", "quantifier": "all hands of five or more different cards; everything already written", "why_tests_cant": "hands of any size are too many to run", "anchors": ["src/evaluate/eval.rs:Eval", "src/evaluate/meta.rs:Meta", "src/evaluate/class.rs:EvalClass::fmt", "src/evaluate/evaluation.rs:evaluate"]}
{"id": "C91", "title": "what the source text does: what is written", "statement": "Read as a Rust program and run, the text of the fmt functions appends to what was written before: for a Rank its character, for a Suit its sign, for a Card both in square brackets with spaces, for an EvalClass its name; for the error with which Card::from_str refuses a string the message about this string that names what is wrong with it, with the length in bytes; for EvalError::InvalidHandSize(n) the message with the number n; and for EvalError::CardsNotUnique the message with each card that occurs more than once, once. All of them return Ok.", "quantifier": "all ranks, suits, cards, classes, strings that are not cards, numbers of cards, lists of cards; everything already written", "why_tests_cant": "strings and numbers are unboundedly many", "anchors": ["src/card/rank.rs:Rank::fmt", "src/card/suit.rs:Suit::fmt", "src/card/mod.rs:Card::fmt", "src/evaluate/class.rs:EvalClass::fmt", "src/error.rs:ParseCardError::fmt", "src/error.rs:EvalError::fmt"]}
{"id": "C92", "title": "what the source text does: the deck", "statement": "Read as a Rust program and run, the text of deck::generate yields 52 values: those that Card::new returns for each rank from the two to the ace, and for each of them for clubs, hearts, spades and diamonds, in this order.", "quantifier": "the only call there is", "why_tests_cant": "a test checks the number and that they differ, not that they are these cards in this order", "anchors": ["src/deck.rs:generate"]}
{"id": "C93", "title": "what the source text does: characters, and strings in turn", "statement": "Read as a Rust program and run, Card::try_from_chars returns for two characters the card that from_str returns for the string of the two, or the same kind of error, quoting the offending character alone. The iterator of Card::parse_to_iter for any strings yields, in turn and from either end, what from_str returns for each, says with len and size_hint how many are left, and its try_collect returns all cards, or the error of the first string that is not a card. Its fold applies the given function to the accumulator and each of them in turn.", "quantifier": "every pair of characters, every list of strings, every interleaving of next and next_back, every function to fold with", "why_tests_cant": "infinitely many strings and orders of calls", "anchors": ["src/card/mod.rs:try_from_chars", "src/card/mod.rs:parse_to_iter", "src/card/mod.rs:ParseToIter"]}
{"id": "C94", "title": "what the source text does: hashing", "statement": "Read as a Rust program and run, hashing a result of evaluate feeds the hasher one i16, and for two results the same one exactly if is_equal_to says true; hashing a card feeds one i32, the same for two cards exactly if they are the same card.", "quantifier": "every two hands of five or more different cards, every two cards, every state of the hasher", "why_tests_cant": "ranges over all pairs of hands of any size", "anchors": ["src/evaluate/meta.rs:hash", "src/evaluate/eval.rs:Eval", "src/card/mod.rs:Card"]}
{"id": "C95", "title": "what the source text does: shuffling", "statement": "Read as a Rust program and run, deck::shuffled_with returns 52 different cards for every list of answers of the generator, uses 51 of them (one below 52, one below 51, and so on), and every order of the 52 cards comes of exactly one list of answers.", "quantifier": "every list of answers and every order of the deck", "why_tests_cant": "52! orders", "anchors": ["src/deck.rs:shuffled_with"]}
{"id": "C96", "title": "what the source text does: best and worst", "statement": "Read as a Rust program and run, no result of evaluate is better than Eval::BEST or worse than Eval::WORST; both are results of evaluate; a result equals Eval::BEST exactly if the cards hold a royal flush, and Eval::WORST exactly if no five of the cards beat any five-card hand.", "quantifier": "every hand of five or more different cards", "why_tests_cant": "ranges over hands of any size", "anchors": ["src/evaluate/eval.rs:BEST", "src/evaluate/eval.rs:WORST", "src/evaluate/evaluation.rs:evaluate"]}
{"id": "C97", "title": "what the source text does: what does not change a result", "statement": "Read as a Rust program and run, evaluate returns the same result for the cards in any order and with suits exchanged; with more cards the result is never worse; of two results exactly one of better, worse and equal holds, the same with the sides exchanged, equal only for the same value, and better is transitive.", "quantifier": "every hand of five or more different cards, every order, every exchange of suits, every three results", "why_tests_cant": "ranges over hands of any size and all their orders", "anchors": ["src/evaluate/evaluation.rs:evaluate", "src/evaluate/eval.rs:is_better_than", "src/evaluate/eval.rs:is_worse_than", "src/evaluate/eval.rs:is_equal_to"]}
{"id": "C98", "title": "the model and the source text", "statement": "Read as a Rust program and run, the functions about cards, parsing, the deck, evaluation (with whatever tables, panicking where the model panics), results, comparison of results and writing return what the functions of the hand-written model return.", "quantifier": "every argument; for evaluate every table and every list of fewer than 2^63 cards", "why_tests_cant": "ranges over all strings, tables and lists of cards", "anchors": ["src/card/mod.rs", "src/card/rank.rs", "src/card/suit.rs", "src/deck.rs:generate", "src/evaluate/evaluation.rs:evaluate", "src/evaluate/eval.rs", "src/evaluate/meta.rs", "src/error.rs"]}
{"id": "C99", "title": "what the source text does: how many", "statement": "Read as a Rust program and run, const_combos makes 2598960, 20358520 and 133784560 choices of five, six and seven cards of the deck that deck::generate makes; evaluate returns a result for each, and exactly as many of these answer true to each is_* method as the published poker odds say; there are exactly 7462, 6075 and 4824 different results of five, six and seven cards, each better than the next.", "quantifier": "all choices of five, six and seven cards", "why_tests_cant": "hundreds of millions of hands, and completeness of the list of results", "anchors": ["src/deck.rs:generate", "src/evaluate/utils.rs:const_combos", "src/evaluate/evaluation.rs:evaluate", "src/evaluate/eval.rs"]}
{"id": "C100", "title": "what the source text does: the worth of a hand, and who wins", "statement": "Read as a Rust program and run, evaluate gives a hand of any size the class that can be read off the hand by the rules (without looking at its five-card hands); is_better_than, is_worse_than and is_equal_to compare the worths read off; and when players share a board, those whose results are worse than no other are exactly those who win by the rules.", "quantifier": "every hand and every two hands of five or more different cards, every board and any number of players", "why_tests_cant": "ranges over hands of any size and any number of players", "anchors": ["src/evaluate/evaluation.rs:evaluate", "src/evaluate/eval.rs:class", "src/evaluate/eval.rs:is_better_than", "src/evaluate/eval.rs:is_worse_than", "src/evaluate/eval.rs:is_equal_to"]}
{"id": "C101", "title": "what the source text does: internals", "statement": "The functions behind evaluation, as run by the interpreter of the source text: all_unique answers true exactly if all cards given differ; card_to_index gives each of the 52 cards its own index from 0 to 51; prime_product_from_hand and prime_product_from_rank_bits give the exact, unwrapped product of the primes of five ranks; high_rank_from_rank_bits gives the highest of five different ranks, and the five for A2345; LookupTable::new returns two tables whose keys are exactly the products for five different ranks (1287) and for five ranks that four suits allow (6175); each entry carries a number in the interval of its class, and each number from 1 to 7462 is carried by exactly one entry; BitSequence::get_next gives the next greater number with as many bits set.", "quantifier": "hands of any length for all_unique; every card, every five cards, every set of five ranks, every key of either table, and every positive bit pattern with a successor that fits", "why_tests_cant": "hands of any length; absence of further keys over all integers; bit patterns with arbitrary other state", "anchors": ["src/evaluate/utils.rs:all_unique", "src/evaluate/utils.rs:card_to_index", "src/evaluate/utils.rs:prime_product_from_hand", "src/evaluate/utils.rs:prime_product_from_rank_bits", "src/evaluate/utils.rs:high_rank_from_rank_bits", "src/evaluate/utils.rs:get_next", "src/evaluate/lookup_table.rs:new"]}
{"id": "C102", "title": "what the source text does: hands of many cards", "statement": "As answered by the interpreter of the source text: the class of a hand of n different cards is at least in the category that n cards guarantee (for instance a flush from 17 cards), and for each n from 5 to 52 some hand is in no higher one; 49 or more cards have the result Eval::BEST; two five-card hands have equal results exactly if their ranks are the same and both or neither are suited; the classes reported for hands of any size are exactly the 309 possible ones; and in every hand some five cards carry the result, whichever of the other cards are left out.", "quantifier": "every hand of five or more different cards, every size, every two five-card hands, every class", "why_tests_cant": "ranges over all hands of any size up to 52 cards and all ways to leave out cards", "anchors": ["src/evaluate/evaluation.rs:evaluate", "src/evaluate/eval.rs:class", "src/evaluate/eval.rs:is_equal_to", "src/evaluate/eval.rs:BEST"]}
{"id": "C103", "title": "what the source text does: patterns and parts of a hand", "statement": "As answered by the interpreter of the source text: the category of a hand of any size is the best pattern the hand holds; its result occurs among, and is the best of, the results of its sub-hands of n cards, for every n from five up; hands of five to eleven cards are never worse than the weakest hand of their size (seven-high for five cards, nine-high for seven, ...), which occurs; and three to five cards on the table allow, with two more cards, a flush, four of a kind, a full house, a straight or a straight flush exactly if they show three of a suit, two of a rank, two but not four of a rank, three ranks of a straight, or three such ranks in one suit.", "quantifier": "every hand of five or more different cards, every size of sub-hands, every table of three to five cards", "why_tests_cant": "ranges over all hands of any size, all their sub-hands, and all tables with all pairs of further cards", "anchors": ["src/evaluate/evaluation.rs:evaluate", "src/evaluate/eval.rs:class", "src/evaluate/eval.rs:is_worse_than", "src/evaluate/eval.rs:is_equal_to"]}
