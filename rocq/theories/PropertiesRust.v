(** PropertiesRust.v: C87 (cards), C88 (hands), C89 (choices of items), C90 (results), C91 (what is written), C92 (the
    deck), C93 (characters, and strings in turn), C94 (hashing) and C95 (shuffling), of the source text itself: the text is
    read as a Rust program (RustSyntax.v) and run (RustSemantics.v); no hand-written model takes part in these statements.
    PropertiesModel.v goes on. *)
From Coq Require Import String List Arith Lia Sorted.
From Verif Require Import Base ModelCard ModelEval Spec SpecText RustSyntax RustSemantics RustProgram RustValues.
From Verif Require Import SpecApi SpecRust.
From Verif Require RustRuns RustSays RustTakes Samples.
Import ListNotations.
Local Open Scope string_scope.
Local Open Scope list_scope.

(** C87: the text can be read. *)
Theorem C87_readable : exists P, load_all texts = Some P.
Proof. exact RustRuns.readable. Qed.
Print Assumptions C87_readable.
(** A card made of a rank and a suit has this rank, this suit, the documented bits and a text that is read as this card. *)
Theorem C87_cards : forall P, load_all texts = Some P -> forall r s,
  exists v, made P (r, s) v
    /\ returns P "Card::rank" None [v] (rank_value r)
    /\ returns P "Card::suit" None [v] (suit_value s)
    /\ (exists z, returns P "Card::unique_integer" None [v] (VInt I32 z)
          /\ forall n, (0 <= n)%Z -> Z.testbit z n = layout r s n)
    /\ exists x y, nth_error rank_chars (pips r - 2) = Some x
       /\ nth_error (lit "chsd") (match s with Clubs => 0 | Hearts => 1 | Spades => 2 | Diamonds => 3 end) = Some y
       /\ returns P "Card::rank_suit_string" None [v] (VStr [x; y])
       /\ returns P "Card::from_str" None [VStr [x; y]] (VCon "Ok" [("0", v)]).
Proof. exact RustRuns.runs_cards. Qed.
Print Assumptions C87_cards.
(** Reading any string as a card. *)
Theorem C87_parse : forall P, load_all texts = Some P -> forall s,
  (forall x y, s = [x; y] -> In x rank_chars -> In y suit_chars ->
     exists f v, made P f v /\ returns P "Card::from_str" None [VStr s] (VCon "Ok" [("0", v)])
       /\ returns P "Card::rank_suit_string" None [v] (VStr s))
  /\ (length s <> 2 ->
      returns P "Card::from_str" None [VStr s]
        (VCon "Err" [("0", VCon "ParseCardError::InvalidLength" [("original_input", VStr s)])]))
  /\ (forall x y, s = [x; y] -> ~ In x rank_chars ->
      returns P "Card::from_str" None [VStr s]
        (VCon "Err" [("0", VCon "ParseCardError::InvalidRank" [("original_input", VStr s); ("incorrect_char", VChr x)])]))
  /\ (forall x y, s = [x; y] -> In x rank_chars -> ~ In y suit_chars ->
      returns P "Card::from_str" None [VStr s]
        (VCon "Err" [("0", VCon "ParseCardError::InvalidSuit" [("original_input", VStr s); ("incorrect_char", VChr y)])])).
Proof. exact RustRuns.runs_parse. Qed.
Print Assumptions C87_parse.
(** Cards compare as their ranks do. *)
Theorem C87_compare : forall P, load_all texts = Some P -> forall f g v w, made P f v -> made P g w ->
  exists o, returns P "Card::cmp" None [v; w] (VCon o [])
    /\ (o = "Ordering::Less" <-> pips (fst f) < pips (fst g))
    /\ (o = "Ordering::Equal" <-> pips (fst f) = pips (fst g))
    /\ (o = "Ordering::Greater" <-> pips (fst g) < pips (fst f)).
Proof. exact RustRuns.runs_compare. Qed.
Print Assumptions C87_compare.
(** The ten of hearts is made, written [Th] and read back. *)
Example C87_case : exists P v, load_all texts = Some P /\ made P (Ten, Hearts) v
  /\ returns P "Card::from_str" None [VStr (lit "Th")] (VCon "Ok" [("0", v)]).
Proof.
  destruct RustRuns.readable as [P HP]. exists P. destruct (RustRuns.runs_cards P HP Ten Hearts) as (v & M & _ & _ & _ & x & y & X & Y & _ & R).
  exists v. split; [exact HP|]. split; [exact M|]. injection X as <-. injection Y as <-. exact R.
Qed.

(** C88: an evaluator can be made. *)
Theorem C88_new : forall P, load_all texts = Some P -> exists ev, returns P "Evaluator::new" None [] ev.
Proof. exact RustRuns.runs_evaluator. Qed.
Print Assumptions C88_new.
(** Its [evaluate] refuses cards that are not all different, and fewer than five, *)
Theorem C88_errors : forall P ev h cs, load_all texts = Some P -> returns P "Evaluator::new" None [] ev ->
  Forall2 (made P) h cs ->
  (~ NoDup h -> fails P ev cs (VCon "EvalError::CardsNotUnique" [("0", VList cs)]))
  /\ (NoDup h -> length h < 5 -> fails P ev cs (VCon "EvalError::InvalidHandSize" [("0", VInt Usize (Z.of_nat (length h)))])).
Proof. exact RustRuns.runs_errors. Qed.
Print Assumptions C88_errors.
(** gives five cards the class that the rules give them, *)
Theorem C88_five : forall P ev h cs, load_all texts = Some P -> returns P "Evaluator::new" None [] ev ->
  Forall2 (made P) h cs -> five_card_hand h ->
  exists e c, gives P ev cs e /\ returns P "Eval::class" None [e] (class_value c) /\ (forall c', classify h c' <-> c' = c).
Proof. exact RustRuns.runs_five. Qed.
Print Assumptions C88_five.
(** compares them as the rules do, *)
Theorem C88_versus : forall P ev h1 cs1 e1 h2 cs2 e2, load_all texts = Some P -> returns P "Evaluator::new" None [] ev ->
  Forall2 (made P) h1 cs1 -> five_card_hand h1 -> gives P ev cs1 e1 ->
  Forall2 (made P) h2 cs2 -> five_card_hand h2 -> gives P ev cs2 e2 ->
  exists b w s, better P e1 e2 b /\ worse P e1 e2 w /\ same P e1 e2 s
    /\ (b = true <-> beats h1 h2) /\ (w = true <-> beats h2 h1) /\ (s = true <-> ties h1 h2).
Proof. exact RustRuns.runs_versus. Qed.
Print Assumptions C88_versus.
(** and gives any number of cards what the best five of them get. *)
Theorem C88_best : forall P ev h cs, load_all texts = Some P -> returns P "Evaluator::new" None [] ev ->
  Forall2 (made P) h cs -> NoDup h -> 5 <= length h ->
  exists e, gives P ev cs e
    /\ (exists h' cs', five_card_hand h' /\ incl h' h /\ Forall2 (made P) h' cs' /\ gives P ev cs' e)
    /\ (forall h' cs' e', five_card_hand h' -> incl h' h -> Forall2 (made P) h' cs' -> gives P ev cs' e' ->
          worse P e e' false).
Proof. exact RustRuns.runs_best. Qed.
Print Assumptions C88_best.
(** Kings full of deuces, as the text evaluates them. *)
Example C88_case : exists P ev cs e, load_all texts = Some P /\ returns P "Evaluator::new" None [] ev
  /\ Forall2 (made P) [(King, Spades); (Two, Hearts); (King, Hearts); (Two, Clubs); (King, Diamonds)] cs
  /\ gives P ev cs e
  /\ returns P "Eval::class" None [e]
       (VCon "EvalClass::FullHouse" [("trips", VCon "Rank::King" []); ("pair", VCon "Rank::Two" [])]).
Proof.
  destruct RustRuns.readable as [P HP]. destruct (RustRuns.runs_evaluator P HP) as [ev Hev].
  destruct (RustRuns.made_list P HP Samples.full_house) as [cs F].
  destruct (RustRuns.runs_five P ev _ cs HP Hev F) as (e & c & G & R & C).
  - split; [|reflexivity]. repeat constructor; cbn; intuition discriminate.
  - exists P, ev, cs, e. split; [exact HP|]. split; [exact Hev|]. split; [exact F|]. split; [exact G|].
    rewrite <- (proj1 (C (FullHouse King Two)) (conj eq_refl eq_refl)) in R. exact R.
Qed.

(** C89: [const_combos] yields every choice of [n] of any items, once each and in lexicographic order of places, *)
Theorem C89_combos : forall P, load_all texts = Some P -> forall n items d, 1 <= n <= length items ->
  (Z.of_nat (length items) < 2 ^ 63)%Z ->
  exists it Is, returns P "const_combos" (Some (VInt Usize (Z.of_nat n))) [VList items] it
    /\ (forall I, In I Is <-> choice n (length items) I)
    /\ StronglySorted lex_lt Is
    /\ yields P n it (map (map (fun i => nth i items d)) Is).
Proof. exact RustRuns.runs_combos. Qed.
Print Assumptions C89_combos.
(** and panics when it is asked for more items than there are. *)
Theorem C89_short : forall P, load_all texts = Some P -> forall n items, length items < n ->
  (Z.of_nat (length items) < 2 ^ 63)%Z ->
  exists it, returns P "const_combos" (Some (VInt Usize (Z.of_nat n))) [VList items] it
    /\ panics P "Combinations::next" (Some (VInt Usize (Z.of_nat n))) [it].
Proof. exact RustRuns.runs_combos_short. Qed.
Print Assumptions C89_short.
(** Two of three characters. *)
Example C89_case : exists P it, load_all texts = Some P
  /\ returns P "const_combos" (Some (VInt Usize 2)) [VList [VChr 97; VChr 98; VChr 99]] it
  /\ yields P 2 it [[VChr 97; VChr 98]; [VChr 97; VChr 99]; [VChr 98; VChr 99]].
Proof. exact RustRuns.three_choices. Qed.

(** C90: the result for any five or more cards has the class of the best five of them, answers every question about its
    kind as this class does, is a royal flush only if the class is that of one, has a number from 1 to 7462, and is
    written as the name of the class. *)
Theorem C90_results : forall P ev h cs e, load_all texts = Some P -> returns P "Evaluator::new" None [] ev ->
  Forall2 (made P) h cs -> NoDup h -> 5 <= length h -> gives P ev cs e ->
  exists h' c,
    (five_card_hand h' /\ incl h' h /\ classify h' c /\ forall x, five_card_hand x -> incl x h -> ~ beats x h')
    /\ returns P "Eval::class" None [e] (class_value c)
    /\ (forall f k, In (f, k) eval_questions -> exists b, returns P f None [e] (VBool b) /\ (b = true <-> category c = k))
    /\ (exists b, returns P "Eval::is_royal_flush" None [e] (VBool b) /\ (b = true <-> c = StraightFlush Ace))
    /\ (exists z, returns P "Eval::hand_rank" None [e] (hand_rank_value (PokerHandRank z)) /\ (1 <= z <= 7462)%Z)
    /\ forall acc, returns_mut P "Eval::fmt" None [e; VStr acc] fine (VStr (acc ++ lit (hand_name c))).
Proof. exact RustSays.runs_results. Qed.
Print Assumptions C90_results.
(** Kings full of deuces are a full house and are written so. *)
Example C90_case : exists P ev cs e, load_all texts = Some P /\ returns P "Evaluator::new" None [] ev
  /\ Forall2 (made P) [(King, Spades); (Two, Hearts); (King, Hearts); (Two, Clubs); (King, Diamonds)] cs
  /\ gives P ev cs e
  /\ returns P "Eval::is_full_house" None [e] (VBool true)
  /\ returns P "Eval::is_pair" None [e] (VBool false)
  /\ returns_mut P "Eval::fmt" None [e; VStr []] fine (VStr (lit "Full house, kings over twos")).
Proof. exact RustSays.full_house_says. Qed.

(** C91: ranks, suits and cards as they are written, *)
Theorem C91_cards : forall P, load_all texts = Some P -> forall acc,
  (forall r, exists x, nth_error rank_chars (pips r - 2) = Some x
     /\ returns_mut P "Rank::fmt" None [rank_value r; VStr acc] fine (VStr (acc ++ [x])))
  /\ (forall s, returns_mut P "Suit::fmt" None [suit_value s; VStr acc] fine (VStr (acc ++ [suit_sign s])))
  /\ (forall f v, made P f v -> exists x, nth_error rank_chars (pips (fst f) - 2) = Some x
     /\ returns_mut P "Card::fmt" None [v; VStr acc] fine (VStr (acc ++ lit "[ " ++ [x; suit_sign (snd f)] ++ lit " ]"))).
Proof. exact RustSays.runs_writes. Qed.
Print Assumptions C91_cards.
(** classes, *)
Theorem C91_classes : forall P, load_all texts = Some P -> forall c acc,
  returns_mut P "EvalClass::fmt" None [class_value c; VStr acc] fine (VStr (acc ++ lit (hand_name c))).
Proof. exact RustSays.runs_writes_class. Qed.
Print Assumptions C91_classes.
(** what is wrong with a string that is not a card, *)
Theorem C91_parse_errors : forall P, load_all texts = Some P -> forall s e,
  returns P "Card::from_str" None [VStr s] (VCon "Err" [("0", e)]) -> forall acc,
  exists m, card_complaint s m /\ returns_mut P "ParseCardError::fmt" None [e; VStr acc] fine (VStr (acc ++ m)).
Proof. exact RustSays.runs_writes_errors. Qed.
Print Assumptions C91_parse_errors.
(** too few cards, *)
Theorem C91_size_errors : forall P, load_all texts = Some P -> forall n acc,
  returns_mut P "EvalError::fmt" None [VCon "EvalError::InvalidHandSize" [("0", VInt Usize (Z.of_nat n))]; VStr acc] fine
    (VStr (acc ++ lit "Cannot evaluate a poker hand with a set of less than 5 cards. Number of cards received: "
           ++ dec (N.of_nat n))).
Proof. exact RustSays.runs_writes_size. Qed.
Print Assumptions C91_size_errors.
(** and the cards that occur more than once, each named once. *)
Theorem C91_duplicates : forall P, load_all texts = Some P -> forall h cs, Forall2 (made P) h cs -> forall acc,
  exists dups, NoDup dups
    /\ (forall f, In f dups <-> exists a b c, h = a ++ f :: b ++ f :: c)
    /\ returns_mut P "EvalError::fmt" None [VCon "EvalError::CardsNotUnique" [("0", VList cs)]; VStr acc] fine
         (VStr (acc ++ lit "Cannot evaluate a poker hand with a set of cards that are not unique. Cards duplicated at least once: "
                ++ spaced (map face_text dups))).
Proof. exact RustSays.runs_writes_duplicates. Qed.
Print Assumptions C91_duplicates.
(** Two of four cards occur more than once. *)
Example C91_duplicates_case : exists P cs, load_all texts = Some P
  /\ Forall2 (made P) [(Ace, Spades); (Two, Clubs); (Ace, Spades); (Three, Hearts); (Two, Clubs); (Ace, Spades)] cs
  /\ returns_mut P "EvalError::fmt" None [VCon "EvalError::CardsNotUnique" [("0", VList cs)]; VStr []] fine
       (VStr (lit "Cannot evaluate a poker hand with a set of cards that are not unique. Cards duplicated at least once: As 2c")).
Proof. exact RustSays.pairs_of_cards. Qed.
(** The ace of spades; a string that is not a card. *)
Example C91_case : exists P v e, load_all texts = Some P /\ made P (Ace, Spades) v
  /\ returns_mut P "Card::fmt" None [v; VStr []] fine (VStr (lit "[ A" ++ [9824%N] ++ lit " ]"))
  /\ returns P "Card::from_str" None [VStr (lit "Ax")] (VCon "Err" [("0", e)])
  /\ returns_mut P "ParseCardError::fmt" None [e; VStr []] fine
       (VStr (lit "Error parsing input 'Ax' as a Card: Invalid suit character 'x', expected one of [chsd]")).
Proof. exact RustSays.ace_of_spades_says. Qed.

(** C92: the deck is each rank in turn with each suit. *)
Theorem C92_deck : forall P, load_all texts = Some P ->
  exists vs, returns P "generate" None [] (VList vs)
    /\ Forall2 (made P) (list_prod [Two; Three; Four; Five; Six; Seven; Eight; Nine; Ten; Jack; Queen; King; Ace]
                                   [Clubs; Hearts; Spades; Diamonds]) vs.
Proof. exact RustSays.runs_deck. Qed.
Print Assumptions C92_deck.
(** Its last card is the ace of diamonds. *)
Example C92_case : exists P vs v, load_all texts = Some P /\ returns P "generate" None [] (VList vs)
  /\ length vs = 52 /\ nth_error vs 51 = Some v /\ made P (Ace, Diamonds) v.
Proof. exact RustSays.last_of_deck. Qed.

(** C93: a rank character and a suit character are read as the string of the two is, except that an error quotes the
    character alone; *)
Theorem C93_chars: forall P, load_all texts = Some P -> forall x y,
  (forall v, reads P [x; y] (VCon "Ok" [("0", v)]) -> returns P "Card::try_from_chars" None [VChr x; VChr y] (VCon "Ok" [("0", v)]))
  /\ (~ In x rank_chars -> returns P "Card::try_from_chars" None [VChr x; VChr y]
        (VCon "Err" [("0", VCon "ParseCardError::InvalidRank" [("original_input", VStr [x]); ("incorrect_char", VChr x)])]))
  /\ (In x rank_chars -> ~ In y suit_chars -> returns P "Card::try_from_chars" None [VChr x; VChr y]
        (VCon "Err" [("0", VCon "ParseCardError::InvalidSuit" [("original_input", VStr [y]); ("incorrect_char", VChr y)])])).
Proof. exact RustTakes.runs_chars. Qed.
Print Assumptions C93_chars.
(** strings in turn are each read so, from either end, and are collected into the cards or the first error. *)
Theorem C93_strings: forall P, load_all texts = Some P -> forall ss rs, Forall2 (reads P) ss rs ->
  exists it, returns P "Card::parse_to_iter" None [VList (map VStr ss)] it
    /\ serves P it rs
    /\ (forall vs, rs = map (fun v => VCon "Ok" [("0", v)]) vs ->
          returns P "ParseToIter::try_collect" None [it] (VCon "Ok" [("0", VList vs)]))
    /\ (forall vs e rest, rs = map (fun v => VCon "Ok" [("0", v)]) vs ++ VCon "Err" [("0", e)] :: rest ->
          returns P "ParseToIter::try_collect" None [it] (VCon "Err" [("0", e)])).
Proof. exact RustTakes.runs_strings. Qed.
Print Assumptions C93_strings.
(** Folding over them applies the given function to each in turn. *)
Theorem C93_fold : forall P, load_all texts = Some P -> forall ss rs, Forall2 (reads P) ss rs ->
  exists it, returns P "Card::parse_to_iter" None [VList (map VStr ss)] it
    /\ forall f init w, folds P f init rs w -> returns P "ParseToIter::fold" None [it; init; f] w.
Proof. exact RustTakes.runs_fold. Qed.
Print Assumptions C93_fold.
(** Counting three strings with [|n, _| n + 1] *)
Example C93_fold_case : exists P it, load_all texts = Some P
  /\ returns P "Card::parse_to_iter" None [VList (map VStr [lit "As"; lit "Kx"; lit "2c"])] it
  /\ returns P "ParseToIter::fold" None
       [it; VInt Usize 0; VClos [PVar "n"; PWild] (EBin Add (EPath ["n"]) (ENum Usize 1)) []] (VInt Usize 3).
Proof. exact RustTakes.counts_three. Qed.
(** The second of three strings is not a card. *)
Example C93_case: exists P it v e, load_all texts = Some P /\ made P (Ace, Spades) v
  /\ returns P "Card::parse_to_iter" None [VList (map VStr [lit "As"; lit "Kx"; lit "2c"])] it
  /\ (exists it', returns_mut P "ParseToIter::next" None [it] (VCon "Some" [("0", VCon "Ok" [("0", v)])]) it')
  /\ returns P "ParseToIter::try_collect" None [it] (VCon "Err" [("0", e)])
  /\ returns_mut P "ParseCardError::fmt" None [e; VStr []] fine
       (VStr (lit "Error parsing input 'Kx' as a Card: Invalid suit character 'x', expected one of [chsd]")).
Proof. exact RustTakes.second_is_wrong. Qed.

(** C94: hashing a result feeds the hasher one number, the same for two results exactly if they are equal; *)
Theorem C94_results: forall P ev h1 cs1 e1 h2 cs2 e2, load_all texts = Some P -> returns P "Evaluator::new" None [] ev ->
  Forall2 (made P) h1 cs1 -> NoDup h1 -> 5 <= length h1 -> gives P ev cs1 e1 ->
  Forall2 (made P) h2 cs2 -> NoDup h2 -> 5 <= length h2 -> gives P ev cs2 e2 ->
  exists z1 z2 s, feeds P e1 (VInt I16 z1) /\ feeds P e2 (VInt I16 z2) /\ same P e1 e2 s /\ (s = true <-> z1 = z2).
Proof. exact RustTakes.runs_hash. Qed.
Print Assumptions C94_results.
(** so does hashing a card. *)
Theorem C94_cards: forall P, load_all texts = Some P -> forall f v g w, made P f v -> made P g w ->
  exists y z, feeds P v (VInt I32 y) /\ feeds P w (VInt I32 z) /\ (y = z <-> f = g).
Proof. exact RustTakes.runs_card_hash. Qed.
Print Assumptions C94_cards.
(** Two royal flushes. *)
Example C94_case: exists P ev cs1 cs2 e1 e2 z, load_all texts = Some P /\ returns P "Evaluator::new" None [] ev
  /\ Forall2 (made P) [(Ten, Spades); (Jack, Spades); (Queen, Spades); (King, Spades); (Ace, Spades)] cs1
  /\ Forall2 (made P) [(Ten, Clubs); (Jack, Clubs); (Queen, Clubs); (King, Clubs); (Ace, Clubs)] cs2
  /\ gives P ev cs1 e1 /\ gives P ev cs2 e2
  /\ feeds P e1 (VInt I16 z) /\ feeds P e2 (VInt I16 z).
Proof. exact RustTakes.royal_flushes_feed. Qed.

(** C95: whatever a generator answers, the shuffled deck is 52 different cards, *)
Theorem C95_shuffled: forall P, load_all texts = Some P -> forall zs rest, draws zs ->
  exists fs vs, returns_mut P "shuffled_with" None [VInts Usize (zs ++ rest)] (VList vs) (VInts Usize rest)
    /\ Forall2 (made P) fs vs /\ NoDup fs /\ length fs = 52.
Proof. exact RustTakes.runs_shuffled. Qed.
Print Assumptions C95_shuffled.
(** and every order of them comes of exactly one list of answers. *)
Theorem C95_orders: forall P, load_all texts = Some P -> forall fs vs, Forall2 (made P) fs vs -> NoDup fs -> length fs = 52 ->
  exists zs, draws zs /\ returns_mut P "shuffled_with" None [VInts Usize zs] (VList vs) (VInts Usize [])
    /\ forall zs' w, draws zs' -> returns_mut P "shuffled_with" None [VInts Usize zs'] (VList vs) w -> zs' = zs.
Proof. exact RustTakes.runs_orders. Qed.
Print Assumptions C95_orders.
(** Exchanging every card with itself leaves the deck as it was. *)
Example C95_case: exists P zs vs, load_all texts = Some P /\ draws zs
  /\ returns_mut P "shuffled_with" None [VInts Usize zs] (VList vs) (VInts Usize [])
  /\ returns P "generate" None [] (VList vs).
Proof. exact RustTakes.still_deck. Qed.
