# Formal model of `deus-x-mackina/poker` in Rocq (Coq 8.16.1)

`properties.jsonl` lists the properties, `MANIFEST.json` the theorems that settle each of them, and
`seeded/LOG.jsonl` what happened when the model was replaced by wrong programs.

Build: `cd rocq && coq_makefile -f _CoqProject -o Makefile && make -j4` (about six minutes).

## Layout (`rocq/theories/`)

* `Base.v`: the fragment of Rust the model is written in. Machine integers (i16/i32/u64/usize, wrapping
  or checked), the `outcome` monad (`Ret v`, `Panic reason`, `OutOfFuel`), finite maps standing for hash
  maps, strings as lists of Unicode code points.
* `Model*.v`: the code, function by function; each definition cites file and lines in `/repo`.
  `ModelCard` (cards, ranks, suits, parsing, deck, shuffle, macros), `ModelEval` (hand ranks, classes,
  `Meta`, `Eval`, errors), `ModelTable` (combinations, bit patterns, `LookupTable::new`),
  `ModelEvaluation` (`five`, `six_plus`, `evaluate`, `Evaluator`, `static_lookup`), `ModelThreads`
  (a shared evaluator), `ModelExamples` (the two example programs), `ModelDebug` (`Debug` and `Hash`),
  `ModelDebugText` (`Debug` of parse errors), `ModelMacros` (the macros, over tokens),
  `ModelBuild` (`build.rs`), `ModelRand` (the indices of rand 0.8.5), `ModelTerminal` (the characters the
  examples send to the terminal, as made by `colored` 2), `ModelPrograms` (the programs of the README and
  of the crate documentation), `ModelDebugTree` (`{:#?}`, and `Debug` of `Evaluator`),
  `ModelTests` (the crate's tests, asserting documentation examples and benchmarks), `ModelSource` (parsing
  any iterator of strings), `ModelRelease` (builds without overflow checks),
  `ModelFormat` (the `fmt` functions at work, with format options and writers that fail),
  `ModelWidth` (the game with a `usize` of any width), `ModelInteract` (the example programs as they talk to a
  terminal), `ModelOrder` (what the standard library builds on the crate's orders: `max`, `min`, `clamp`, sorting,
  `BTreeSet`; from its documentation), `ModelDeck` (the iterator of `deck::generate` as it is stepped),
  `ModelHash` (hash maps and hash sets as tables of slots; from memory of the standard library),
  `ModelPhf` (the perfect hash maps of static_lookup; from memory of phf).
* `Rust*.v`: the source text itself instead of a model of it. `RustText` holds the text of fourteen files of src/
  (written by `tools/gen_text.py`; `tools/gen_text.py --check` compares it with /repo), `RustSyntax` is a lexer and a
  parser and `RustSemantics` an interpreter for the part of Rust they are written in, `RustProgram` the program that
  the text is. `RustValues` says which values of the interpreter stand for those of the model. `RustSteps` runs code
  with unknown values in it; `RustFacts`, `RustUtils`, `RustEvaluate`, `RustCombos`, `RustHands`, `RustTable`,
  `RustFormat`, `RustDuplicates` and `RustStreams` prove, function by function, that the text returns what the model returns, and
  `RustRuns`, `RustSays`, `RustTakes`, `RustBounds`, `RustAgrees`, `RustOdds`, `RustFindings`, `RustWorth`, `RustInside`, `RustSizes` and `RustHolds`
  draw the conclusions.
* `Spec*.v`: the specifications, definitions only. `Spec` is the rules of poker about lists of
  (rank, suit) pairs; it mentions no table, prime, bit or evaluating function. `SpecBest` reads the
  worth of a hand of any size off the hand. `SpecApi`, `SpecText`, `SpecTable`, `SpecExamples`,
  `SpecReads`, `SpecBuild`, `SpecRand`, `SpecDebug`, `SpecDebugText`, `SpecDebugTree`, `SpecMacros`, `SpecTerminal`
  (a terminal), `SpecShowdown` (who wins), `SpecLookup` (any tables), `SpecSource` (iterators), `SpecFormat` (writers),
  `SpecWidth` (two machines), `SpecInteract` (runs at a terminal), `SpecPlace` (places of values), `SpecOrder` (choosing, sorting and collecting by an order), `SpecGain` (averages over the random answers), `SpecDeck` (a pile of cards), `SpecHash` (a dictionary on paper), `SpecPhf` (entries in their places), `SpecHeadsUp` (two hands of five cards), `SpecBoard` (two cards beside a board), `SpecRust` (running a program), `SpecOdds` (counting its answers), `SpecInside` (bits of ranks, entries of tables, two cards beside others) and `SpecMore` hold the vocabulary of the other property statements.
* `*Facts.v`, `Sweep.v`: lemmas. `Samples.v`: concrete hands used by the examples.
* `Properties*.v`: only the property theorems, each closed by `exact`, with `Print Assumptions` and a
  concrete non-trivial case beside it.

## Trusted base

* Coq's kernel, including its virtual machine in the build (`vm_compute`); `coqchk` re-checks every file
  without it.
* `Print Assumptions` answers "Closed under the global context" for every theorem listed in
  `MANIFEST.json`: no axioms, not even of the standard library. (`coqchk -o` also names seven axioms of
  `Coq.ssr.ssrunder`, a standard library file that is loaded along with others; nothing here depends on
  them.)
* That the model says what the code does. The definitions were transcribed by hand; the sections below
  say what was simplified. C70 runs the project's own tests, documentation examples and benchmarks on it.
  For the functions of C87-C103 (cards, parsing, the tables, evaluation, comparison, combinations, results, what is
  written, the deck, hashing, shuffling) this is
  not trusted but proved: those theorems are about the text, and rest instead on the text being that of /repo
  (`tools/gen_text.py --check`) and on the meaning that `RustSyntax` and `RustSemantics` give to Rust.
  The standard library and the dependencies are not in /repo; what the code uses of them is modelled from
  memory of their documented behaviour and was not compared with their sources.
* That the specifications say what is meant: the `Spec*.v` files are short and meant to be read.

## Modelling decisions

* `&mut self` functions return the new value. Loops are structural recursion; `for x in iterator` over
  `Combinations` takes fuel, and running out of fuel is an outcome that the theorems exclude.
* A panic (index out of bounds, missing key, arithmetic overflow, `unwrap` on `Err`, `unreachable!()`,
  failed `debug_assert!`) is a `Panic` outcome. Arithmetic written with plain operators is checked, as in
  debug builds; arithmetic written with `wrapping_*` wraps. `ModelRelease` repeats the functions with such
  operations as built by `--release` (Cargo.toml leaves the profile's defaults: no overflow checks, no debug
  assertions): plain arithmetic wraps, a shift takes its right operand modulo the width, `debug_assert!` is
  left out. C74 proves the two builds equal, and names the inputs where they are not.
* `HashMap`/`FxHashMap`/`phf::Map` are finite maps: `insert` replaces, indexing panics on a missing key,
  the order of iteration is an arbitrary permutation (`iter_order`). C83 proves that this is all that can be
  seen of hash maps made of slots (`ModelHash`), whatever the hasher and the layout. C84 does without the simplification for `phf::Map`.
* `rand`'s `shuffle` is the Fisher-Yates loop of rand 0.8: position i is swapped with an index that the
  random source answers, for i = 51 down to 1. The source is an arbitrary state machine whose answers are
  in range. How rand 0.8.5 turns random words into such an answer is in `ModelRand.v`. The source of
  rand is neither in /repo nor in the sandbox: this file and the `shuffle` loop are written from memory of
  the published version and were not compared with it, so C45, C52, C56 and C59 rest
  on that. The generator of the words (ChaCha12) is not modelled.
* A `Card` can only be made by `Card::new` (private field), so theorems quantify over cards of that form.
* `AsRef<[Card]>`, `IntoIterator` and the like are replaced by the list they deliver.
* `Hasher` is an arbitrary state machine; what is modelled is which values are fed to it.
* Threads interleave at single table reads (C27). `evaluate` reaches the shared evaluator through `&self`
  only and no data has interior mutability, so table reads are the only shared steps.
* The examples are state machines over the input lines and the random source. What they print is data:
  text and `colored` style, prompts left out. Which characters that is on standard output is a second step
  (`ModelTerminal`, C65); whether `colored` uses colours is a parameter.
* The standard library's table of printable characters is an arbitrary predicate (C63).
* A macro is a function from the tokens of its invocation to what it expands to, `None` for a compile error
  (C64). An expression is one token; keywords, hygiene and the types of expressions are left out.
* A `fmt` function hands pieces of text to a writer, an arbitrary state machine that may fail at each of
  them; the options of the format string are a record (C75). Elsewhere formatting is the text it gives.
* `usize` has 64 bits, except in `ModelWidth`, which repeats the functions of the game that compute with it, for
  any width (C76). The library uses it for lengths and indices only.

* The interpreter of C87-C103: integers have their types and overflow panics; a literal without suffix takes the type of
  what it meets; references are values, and a function with one `&mut` parameter hands its new value back to where it
  was called; iterator chains over ranges, slices and vectors work on the list of their items, with closures that only
  read; hash maps are finite maps; a trait method is found by the type of its receiver; `#[derive]`d comparisons are
  structural. A formatter is the text written to it so far, without options (C75 has those), and writing does not fail.
  Comments, attributes (except `derive`), `use` and types (except where they decide the meaning of an
  expression: casts, suffixes, `Self`, const generics) are read over; `Debug` is left out. What it does not understand is
  `Stuck`, which is neither a value nor a panic, so the theorems exclude it. Types decide in two more places, before
  the program runs (`typed`): a `try_into` in a `let` becomes the `try_from` of the type that the function called with the
  variable declares, and a `collect` at the end of a function that returns a `Result` collects into one. `parse` is the
  only `from_str` of the texts. A hasher is the list of the integers fed to it; a generator is the list of its answers,
  and `shuffle` (of the rand crate, not in /repo) exchanges each place from the last down with the one answered, as in
  `ModelCard`. `counts` (of the itertools crate, a hash map) lists the items in the order of their first occurrences; the
  real order is unspecified, and C91 only says that each is named once. Not understood, and so outside C87-C103, is
  `deck::shuffled`, which asks for a generator; the macros, the examples and static_lookup.rs are not among the texts.

## Not modelled

* The downloaded `codegen.rs` of the `static_lookup` feature, which is not in the repository: C26 speaks
  about an arbitrary pair of tables. `reqwest` and the file system in `ModelBuild` are an environment that
  answers arbitrarily.
* `rustyline` (line editing, history, how it draws the prompt; creating the editor always succeeds). When output
  buffered by `print!` reaches the terminal.
* `Debug` and `Clone` of `ParseToIter` (they need an inner iterator that has them; callers get an opaque one
  that does not), `Error::source`, memory use and running time
  (C51 counts table lookups), the benchmark harness, OS threads and the memory model.

## Properties and how they are proved

| id | proof |
|----|-------|
| C01 | bit-set invariant for `all_unique`; totality of the tables from the sweep of C02; C28 |
| C02 | permutation invariance reduces a hand to (flush?, sorted ranks): 1287 + 6175 cases, checked in the kernel by a lifted sweep; the declarative classification is proved functional |
| C03 | the sweep gives a bijection between rank numbers and canonical hands with strictly falling strength; transitivity lifts it to all pairs |
| C04 | C28 and a lemma on folding maxima; sub-hands are given by `incl` and `NoDup` |
| C05, C06, C07 | from C04 and C03; the rules are invariant under permutations and bijections of suits |
| C08, C09 | surjectivity of the bijection, its endpoints |
| C10, C11, C12 | integer order; case analysis; C02 and C03 |
| C13 | case analysis, `Z.testbit` for every bit position |
| C14-C18 | over all strings as lists of code points, by induction over texts and lists |
| C19-C21 | computation, induction over swaps, list lemmas |
| C22 | order laws proved; "Equal iff ==" refuted, of the model and of the text |
| C23 | refuted (bytes are reported), of the model and of the text; proved for ASCII |
| C24 | over every order of iteration |
| C25 | refuted for `default()`, of the model and of the text; proved for `new()` and clones |
| C26 | the evaluator is a pair of lookups; congruence |
| C27 | each call is a program whose visible steps are table reads; induction over schedules |
| C28 | generic in N, element type and length; lexicographic successor invariant |
| C29, C30 | from C03; injectivity over the finite set of classes |
| C31, C32, C39, C41, C42 | `jacks-or-better` as a state machine; invariants by induction over rounds |
| C33 | the README chart refuted; what is paid, and its monotonicity, proved |
| C34 | induction over lines |
| C35 | kernel computation on the closed table; a log of insertions shows that none overwrites |
| C36, C49 | counting by rank pattern and suit pattern instead of enumerating, with the counting principle proved |
| C37 | algebraic, for all bit patterns |
| C38, C40 | case analysis over all code points; corollaries of C04 and C02 |
| C43, C44 | pigeonhole arguments on counts, extremal hands exhibited |
| C45 | the swaps are inverted step by step |
| C46, C47 | map equality; induction over interleavings |
| C48, C50 | every five cards are covered by the rule of their category; five cards attaining each rule are built |
| C51 | the reads of a call are counted along its execution |
| C52 | C45 and counting the completions of a deal |
| C53 | each text is cut at the first character that cannot occur in the field before it |
| C54 | case analysis over an arbitrary environment |
| C55 | the payouts are summed class by class with the counts behind C36 |
| C56 | as C45 and C52, over any list of distinct cards |
| C57 | case analysis, and lexicographic order of `pips` |
| C58 | class of a five-card hand is `possible` (C02, C04); a witness hand for each possible class, by a finite sweep |
| C59 | arithmetic: the words accepted for index j are an interval with exactly c multiples of r; product over the steps of the shuffle, with C56 |
| C60 | induction on the digits that the standard library's conversion gives |
| C61 | C36's enumeration of the five-card hands, grouped by value: a computed count per category lifted to hands |
| C62 | the list of values is computed with a witness hand for each (checked by the kernel); completeness by case analysis on the rules of SpecBest.v (C48), using that the cards which do not count make no straight |
| C63 | induction on the spelling of a literal: a literal's first character determines its first piece, up to the closing quote |
| C64 | each pattern of the model is equivalent to its form (strong induction on the tokens); the arms exclude each other except for `x, y` |
| C65 | the terminal as an automaton runs over concatenations; every style is the sum of its codes; invariants over the loops of both programs say where text comes from |
| C66 | C52 and the counts behind C36, class by class; C27 and C30 |
| C67 | C03, C04, C07 and C21 for each player's cards; C50 for reading the winners off and for hands without a flush |
| C68 | structural induction over the tree of what is printed; texts told apart by their characters without blanks and commas, with C53; for `Evaluator` C35 |
| C69 | moving cards to other positions is an injection on the orders of the deck, in both directions; C45 takes orders to answers, C67 decides who wins |
| C70 | tests of given cards are run by the kernel; the test of all hands by C09 and C10 (which numbers occur), not by going through the hands; static tables by C26 |
| C71 | the entry read for five cards is determined by their faces (C35's keys), for any tables; induction over the combinations for more; the converse deals five cards for every key |
| C72 | the iterator is a state machine; induction over the calls of `next` (the fuel) one way, over the items given the other; a collection is a second state machine |
| C73 | a hand between the best five (C04) and the whole is not worse than the first nor better than the second (C07); counterexample from the royal flush (C09) and ties (C29) |
| C74 | an operation that does not panic gives the same value without its check; invariants keep the operands in range (the indices of `Combinations`, the positions in `INT_RANKS`); one walk through a turn of the game with the new credits as a parameter |
| C75 | a program that writes is a list of pieces fed to any writer; composition; `PadAdapter` as a writer around a writer, refined to the padding of texts; induction over the tree of what is printed |
| C76 | a number read by two machines is the same or too large for one; the two runs go in lockstep, related by a relation on games that allows for different complaints |
| C77 | programs as trees of reads and prints; the batch model is one interpretation of them, a monad morphism; induction over paths shows that any run agrees with it on the lines it read; predicates on trees, closed under sequencing, for what precedes and follows a read; more fuel only extends a tree |
| C78 | the canonical hands of better categories, counted, take distinct numbers below (pigeonhole), so a category has its interval; induction over the places, adding at each the hands that tie there (C61) |
| C79 | induction on lists for any total order, then the four orders of the crate (C10, C22, C57) and the rules that read a hand (C48, C50) |
| C80 | every set of dealt cards comes from the same number of answer lists (C56); sums over the choices from blocks of equal rank, computed by the kernel; class counts of C36 |
| C81 | induction over the rounds: the state in which the program is before each shuffle, whatever answers and lines follow; averages shift by what has been won |
| C82 | an invariant on the state of `Product`: what is left of the pairs; induction over the questions asked |
| C83 | an invariant on the slots: the entries are those of the dictionary, and on the way to each no slot was never used; induction over the calls; the table's insertions replayed |
| C84 | what a map finds is an entry; filling the gaps of the static tables from the dynamic ones relates the two (C26), and the second test shows that no five cards meet a gap; `five` does not depend on the order of the cards whatever the tables are |
| C85 | how many choices of the remaining cards have given ranks is a sum over the suits left of each rank; it is computed for each of the 7462 kinds of hands (checked by the kernel) and taken back to the hand on the table; the dealt hands are counted through the bijection between lists of answers and decks (C45), and exchanging the players' places exchanges who wins (C69) |
| C86 | the category of a hand is the highest pattern in it (C48); each pattern leaves at least all but two of its cards on the table; conversely the two missing cards are built, with fillers of ranks not on the table, and five different ranks leave no room in seven cards for a full house or four of a kind; on a dry board three of a kind needs a pocket pair, read off by C50 |
| C87 to C103 | the text is lexed, parsed and loaded by kernel computation; each function is then run symbolically on arbitrary arguments and shown to return what the model does (loops by induction, `LookupTable::new`, which takes no argument, by one computation), for all fuel and depth beyond a bound; the theorems about the model (C01-C04, C05-C07, C09-C11, C13-C15, C19, C22, C28-C30, C35-C38, C43, C44, C48-C50, C58, C62, C67, C73, C86) carry over; the orders a deck is shuffled into (C95) by induction on the places left |

## Findings about the code

* `Ord for Card` compares ranks only while `==` compares cards, so `cmp` returns `Equal` for unequal cards
  (C22). A `BTreeSet` of cards keeps one card per rank, and `sort` followed by `dedup` can leave repetitions (C79).
- The example game gives its discards back before the draw and pays on top of the returned wager: a simple plan gains
  12.9 % of every wager (C80).
* `ParseCardError::InvalidLength` reports `str::len`, bytes: "Found input of length 2, expected 2" for "é"
  (C23).
* `Evaluator::default()` has empty tables and panics on every five distinct cards (C25). The same holds of
  `static_lookup::evaluate` when built with `--cfg docsrs`.
* `ensure_identical_tables` goes through the entries of the static tables and never looks one up. A file with
  misplaced or repeated entries passes it and makes `evaluate` panic; only together with
  `test_all_five_card_combos` does it certify the file (C84).
* The test that compares the static with the dynamic tables uses `Meta`'s `==`, which compares rank
  numbers only, so it does not notice a wrong class (C26).
* The README chart disagrees with `payout` for straight flush and royal flush (C33).
* `jacks-or-better` returns the discards to the deck before it deals the replacements, so a discarded card
  can come straight back (C41).
* `ParseToIter` implements `DoubleEndedIterator`, `ExactSizeIterator` and `FusedIterator`, but
  `parse_to_iter` returns `ParseToIter<impl Iterator>`, so no caller can use them (C47).
* `build.rs` does not look at the HTTP status, so the text of an error page would be compiled as the tables;
  it truncates `codegen.rs` before it tries the network (C54).
* `jacks-or-better` returns the bet on top of the payout of a winning hand, so a pair of jacks gains the bet
  rather than returning it (C31, C32).
* `cards!(x, y)` with two string variables does not compile: the arm for a rank and a suit comes first. With a
  trailing comma it does (C64).
* `poker-repl` quotes its input raw in its complaints, so a line with an escape sequence in it can erase the
  screen (C65).
* Width, alignment and precision are ignored by every `Display` of the crate: `{:>20}` of a `Card` or an `Eval`
  prints it unpadded, because the `fmt` functions use `write!` and `write_char` where `Formatter::pad` would
  honour them (C75).
* Slips in the documentation: the leftmost rank bit is called a king and is the ace (`src/card/mod.rs:20-22`);
  the descriptions of `Card::rank` and `Card::suit` name each other's values (`src/card/mod.rs:162-163`,
  `178-179`); the field `high_rank` is called `high_card` (`src/evaluate/class.rs:8`); that of
  `ParseCardError::InvalidSuit` describes `InvalidRank` (`src/error.rs:87-89`). C13, C15 and C38 say
  what the code does.
* `LookupTable::new` exchanges the two capacity hints (no effect on results).
* The REPL prints a pair and two pair in the same style (`bright_purple` is `bright_magenta`).

## Testing the theorems against wrong programs

`tools/seed_test.py` applies each entry of `seeded/mutants.json` to a scratch copy of the model, recompiles
what depends on it, admits every proof that fails, and reads off `Print Assumptions` which property theorems
no longer stand. `tools/auto_seed.py` does the same with
random small edits of the model (operators, constants, texts, conditions), stopping at the first proof that fails.
`tools/gen_log.py` writes `seeded/LOG.jsonl` from the results. A theorem that survived an
edit that falsifies its claim was tightened (`theorems_tightened`); edits that change nothing observable are
kept as controls and say so in their note.
