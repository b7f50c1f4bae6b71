(** ModelTests.v: the crate's own tests, the examples in its documentation that assert something, and
    its benchmarks, as programs that end normally or panic.

    [assert!], [assert_eq!], [unwrap], [expect] and [unwrap_err] panic as in Rust; which panic it is,
    and the message, do not matter to a test.  [dbg!] and [println!] have no effect on the outcome and
    are left out; so is [criterion], which calls the closures of a benchmark any number of times.
    [lazy_static]'s EVALUATOR is [Evaluator::new()].  The examples in the documentation that assert
    nothing (README.md, src/lib.rs:43-73) are in ModelPrograms.v. *)
From Coq Require Import String List ZArith NArith Bool.
From Verif Require Import Base ModelCard ModelEval ModelTable ModelEvaluation ModelExamples ModelDebugTree ModelMacros.
Import ListNotations.
Local Open Scope list_scope.

(** ** What the tests are written with *)
Definition assert (b : bool) : outcome unit := if b then Ret tt else Panic AssertFailed.
Definition unwrap_err {A E} (r : result A E) : outcome E :=
  match r with Ok _ => Panic UnwrapFailed | Err e => Ret e end.
(** [HashSet::insert]: whether the value was new, and the set.  Iteration over a set in no particular
    order is over this list. *)
Definition set_insert {K} (eqb : K -> K -> bool) (x : K) (set : list K) : bool * list K :=
  if existsb (eqb x) set then (false, set) else (true, x :: set).
(** [==] of slices and arrays of cards, and of parse results *)
Fixpoint cards_eqb (a b : list card) : bool :=
  match a, b with
  | [], [] => true
  | x :: a', y :: b' => card_eqb x y && cards_eqb a' b'
  | _, _ => false
  end.
(** src/error.rs:65 derived [PartialEq] of [ParseCardError] *)
Definition parse_card_error_eqb (a b : parse_card_error) : bool :=
  match a, b with
  | InvalidLength s, InvalidLength t => str_eqb s t
  | InvalidRank s c, InvalidRank t d | InvalidSuit s c, InvalidSuit t d => str_eqb s t && N.eqb c d
  | _, _ => false
  end.
Definition parsed_eqb (a b : result card parse_card_error) : bool :=
  match a, b with
  | Ok c, Ok d => card_eqb c d
  | Err e, Err f => parse_card_error_eqb e f
  | _, _ => false
  end.
(** src/error.rs:177 derived [PartialEq] of [EvalError], and [==] of the results of [evaluate] *)
Definition evaluation_eqb (a b : result eval eval_error) : bool :=
  match a, b with
  | Ok e, Ok f => eval_eqb e f
  | Err (CardsNotUnique l), Err (CardsNotUnique m) => cards_eqb l m
  | Err (InvalidHandSize n), Err (InvalidHandSize m) => Nat.eqb n m
  | _, _ => false
  end.
(** src/evaluate/class.rs:28 derived [PartialEq] and [PartialOrd] of [EvalClass] *)
Definition eval_class_eqb (a b : eval_class) : bool :=
  match class_cmp a b with Eq => true | _ => false end.
(** [cards!("..", ..).try_collect().unwrap()] and [cards!("...").try_collect().unwrap()] *)
Definition each (texts : list string) : outcome (list card) :=
  unwrap (try_collect (cards_macro_strings (map lit texts))).
Definition words (text : string) : outcome (list card) :=
  unwrap (try_collect (cards_macro_text (lit text))).

(** ** src/card *)

(** src/card/mod.rs:388-418 [from_str_fails] *)
Definition from_str_fails : outcome unit :=
  let fails (text : string) (expected : parse_card_error) :=
    let result := card_from_str (lit text) in
    let! _ := assert (match result with Err _ => true | Ok _ => false end) in
    let! e := unwrap_err result in
    assert (parse_card_error_eqb e expected) in
  let! _ := fails "2x"%string (InvalidSuit (lit "2x") 120%N) in
  let! _ := fails "Rd"%string (InvalidRank (lit "Rd") 82%N) in
  fails "AsX"%string (InvalidLength (lit "AsX")).

(** src/card/mod.rs:420-435 [try_from_works] *)
Definition try_from_works : outcome unit :=
  foldM (fun _ (p : nat * rchar) =>
    foldM (fun _ (q : nat * rchar) =>
      let! r := index RANK_ALL_VARIANTS (fst p) in
      let! s := index SUIT_ALL_VARIANTS (fst q) in
      assert (parsed_eqb (card_from_str ([snd p] ++ [snd q])) (Ok (card_new r s))))
      (combine (seq 0 4) (map suit_as_char SUIT_ALL_VARIANTS)) tt)
    (combine (seq 0 13) (map rank_as_char RANK_ALL_VARIANTS)) tt.

(** src/card/macros.rs:178-191 [box_cards_works] *)
Definition box_cards_works : outcome unit :=
  let cards1 := cards_macro_idents [(Ace, Clubs)] in
  let cards2 := cards_macro_idents [(Two, Clubs)] in
  let cards3 := cards_macro_idents [(Three, Clubs)] in
  let cards := box_cards cards1 [cards2; cards3] in
  assert (cards_eqb cards [card_new Ace Clubs; card_new Two Clubs; card_new Three Clubs]).

(** ** src/deck.rs *)

(** src/deck.rs:58-65 [card_integers_unique], and the example at src/deck.rs:14-24 *)
Definition all_inserted_new {K} (eqb : K -> K -> bool) (l : list K) : outcome (list K) :=
  foldM (fun set x => let (new, set') := set_insert eqb x set in let! _ := assert new in Ret set') l [].
Definition card_integers_unique : outcome unit :=
  let! ints := all_inserted_new Z.eqb (map unique_integer deck_generate) in
  assert (Nat.eqb (length ints) 52).
Definition deck_example : outcome unit :=
  let! _ := assert (Nat.eqb (length deck_generate) 52) in
  let! _ := all_inserted_new card_eqb deck_generate in Ret tt.

(** src/deck.rs:68-80 [card_suit_and_rank_calculations] *)
Definition card_suit_and_rank_calculations : outcome unit :=
  let suits := counts suit_eqb (map card_suit deck_generate) in
  let ranks := counts rank_eqb (map card_rank deck_generate) in
  let! _ := assert (forallb (fun p => Nat.eqb (snd p) 13) suits) in
  assert (forallb (fun p => Nat.eqb (snd p) 4) ranks).

(** src/deck.rs:83-85 and 89-91 [generate_deck_is_52_cards], [generate_shuffled_deck_is_52_cards] *)
Definition generate_deck_is_52_cards : outcome unit := assert (Nat.eqb (length deck_generate) 52).
Definition generate_shuffled_deck_is_52_cards {R} (gen : R -> nat -> nat * R) (rng : R) : outcome unit :=
  let! shuffled := shuffled_with gen rng in
  assert (Nat.eqb (length (fst shuffled)) 52).

(** ** src/error.rs *)

(** src/error.rs:228-261 [parse_card_error_format] *)
Definition parse_card_error_format : outcome unit :=
  let! e := unwrap_err (card_from_str (lit "5")) in
  let! _ := assert (str_eqb (parse_card_error_display e)
    (lit "Error parsing input '5' as a Card: Found input of length 1, expected 2")) in
  let! e := unwrap_err (card_from_str (lit "ac")) in
  let! _ := assert (str_eqb (parse_card_error_display e)
    (lit "Error parsing input 'ac' as a Card: Invalid rank character 'a', expected one of [23456789TJQKA]")) in
  let! e := unwrap_err (card_from_str (lit "TC")) in
  assert (str_eqb (parse_card_error_display e)
    (lit "Error parsing input 'TC' as a Card: Invalid suit character 'C', expected one of [chsd]")).

(** src/error.rs:264-289 [eval_error_format] *)
Definition eval_error_format (iter_order : list (card * nat) -> list (card * nat)) : outcome unit :=
  let! EVALUATOR := evaluator_new in
  let! cards := words "5c 5c Tc Jc Qc" in
  let! r := evaluate EVALUATOR cards in
  let! e := unwrap_err r in
  let! _ := assert (str_eqb (eval_error_display iter_order e)
    (lit "Cannot evaluate a poker hand with a set of cards that are not unique. Cards duplicated at least once: 5c")) in
  let! r := evaluate EVALUATOR (cards_macro_idents [(Ace, Spades)]) in
  let! e := unwrap_err r in
  assert (str_eqb (eval_error_display iter_order e)
    (lit "Cannot evaluate a poker hand with a set of less than 5 cards. Number of cards received: 1")).

(** ** src/evaluate *)

(** src/evaluate/utils.rs:174-188 [bit_sequence_generator_works] *)
Definition bit_sequence_generator_works : outcome unit :=
  let! _ := foldM (fun xs bin =>
    let! p := get_next xs in
    let! _ := assert (Z.eqb (fst p) bin) in Ret (snd p))
    [21; 22; 25; 26; 28; 35]%Z (bit_sequence_new 19) in
  Ret tt.

(** src/evaluate/utils.rs:191-200 [check_all_unique] *)
Definition check_all_unique : outcome unit :=
  foldM (fun _ texts =>
    let! cards := each texts in
    let! unique := all_unique cards in
    assert (negb unique))
    [["Th"; "Td"; "Th"]; ["Th"; "Th"; "Td"]; ["Th"; "5c"; "3d"; "Th"]; ["5c"; "Th"; "3d"; "Th"]]%string tt.

(** src/evaluate/utils.rs:203-211 [const_combos_works] *)
Definition const_combos_works : outcome unit :=
  let! combos := for_const_combos 2 (lit "cat") (fun l x => Ret (l ++ [x])) [] in
  let expected := [lit "ca"; lit "ct"; lit "at"] in
  let! _ := assert (Nat.eqb (length combos) (length expected)) in
  foldM (fun _ combo => assert (existsb (str_eqb combo) combos)) expected tt.

(** src/evaluate/class.rs:127-137 [eval_class_derived_ord_works] *)
Definition eval_class_derived_ord_works : outcome unit :=
  let! _ := assert (op_gt (Some (class_cmp (HighCard Ace) (HighCard King)))) in
  assert (op_gt (Some (class_cmp (Pair Two) (HighCard Ace)))).

(** src/evaluate/eval.rs:136-141 and 144-148 [eval_best], [eval_worst] *)
Definition eval_best : outcome unit :=
  let! _ := assert (eval_is_straight_flush EVAL_BEST) in
  let! _ := assert (eval_is_royal_flush EVAL_BEST) in
  assert (str_eqb (eval_display EVAL_BEST) (lit "Royal flush")).
Definition eval_worst : outcome unit :=
  let! _ := assert (eval_is_high_card EVAL_WORST) in
  assert (str_eqb (eval_display EVAL_WORST) (lit "High card, seven")).

(** [evaluate(..).unwrap()] *)
Definition evaluated (eval_ : list card -> outcome (result eval eval_error)) (cards : list card) : outcome eval :=
  let! r := eval_ cards in unwrap r.

(** src/evaluate/eval.rs:151-181 [eval_better_worse_tie] *)
Definition eval_better_worse_tie : outcome unit :=
  let! EVALUATOR := evaluator_new in
  let! hand := each ["2h"; "2c"; "5h"; "Qd"; "6s"]%string in
  let! hand := evaluated (evaluate EVALUATOR) hand in
  let! better := each ["3h"; "3d"; "5c"; "Qs"; "6h"]%string in
  let! better := evaluated (evaluate EVALUATOR) better in
  let! worse := each ["Ac"; "Kd"; "Jd"; "7h"; "5d"]%string in
  let! worse := evaluated (evaluate EVALUATOR) worse in
  let! tie := each ["2s"; "2d"; "5s"; "Qc"; "6d"]%string in
  let! tie := evaluated (evaluate EVALUATOR) tie in
  let! _ := assert (negb (eval_is_better_than hand better)) in
  let! _ := assert (eval_is_better_than hand worse) in
  let! _ := assert (negb (eval_is_better_than hand tie)) in
  let! _ := assert (eval_is_worse_than hand better) in
  let! _ := assert (negb (eval_is_worse_than hand worse)) in
  let! _ := assert (negb (eval_is_worse_than hand tie)) in
  let! _ := assert (negb (eval_is_equal_to hand better)) in
  let! _ := assert (negb (eval_is_equal_to hand worse)) in
  assert (eval_is_equal_to hand tie).

(** src/evaluate/lookup_table.rs:363-377 [check_metadata_ordering] *)
Definition check_metadata_ordering : outcome unit :=
  let! t := lookup_table_new in
  foldM (fun _ (p : Z * meta) =>
    match snd p with
    | MTwoPair _ high_pair low_pair => assert (op_gt (rank_partial_cmp high_pair low_pair))
    | _ => Ret tt
    end) (map_contents (unsuited_lookup t)) tt.

(** src/evaluate/mod.rs:172-185 and src/evaluate/static_lookup.rs:123-137 [test_all_five_card_combos] *)
Definition all_five_card_combos (eval_ : list card -> outcome (result eval eval_error)) : outcome unit :=
  let! evals := for_const_combos 5 deck_generate (fun ints hand =>
    let! e := evaluated eval_ hand in Ret (snd (set_insert eval_eqb e ints))) [] in
  let! _ := assert (Z.eqb (Z.of_nat (length evals)) 7462) in
  foldM (fun _ i => assert (existsb (fun m => phr_eqb (eval_hand_rank m) (PokerHandRank (Z.of_nat i))) evals))
    (seq 1 (Z.to_nat 7462)) tt.
Definition test_all_five_card_combos : outcome unit :=
  let! EVALUATOR := evaluator_new in all_five_card_combos (evaluate EVALUATOR).

(** src/evaluate/mod.rs:259-275 [FiveCardHand], 277-292 [SixCardHand], 294-308 [SevenCardHand], in the
    order of [ALL_HANDS], src/evaluate/mod.rs:245-256 *)
Definition FiveCardHand : list (list string) :=
  [["Ah"; "8s"; "6d"; "4c"; "2h"]; ["Ac"; "Ah"; "9s"; "8d"; "7c"]; ["Kd"; "Kc"; "Qh"; "Qs"; "Jd"];
   ["Ac"; "Ah"; "As"; "2d"; "7c"]; ["5h"; "6c"; "7d"; "8s"; "9h"]; ["Ac"; "5c"; "Tc"; "Jc"; "8c"];
   ["As"; "Ad"; "Ac"; "Kh"; "Ks"]; ["Ac"; "Ah"; "As"; "Ad"; "2h"]; ["5s"; "6s"; "7s"; "8s"; "9s"];
   ["Th"; "Jh"; "Qh"; "Kh"; "Ah"]]%string.
Definition SixCardHand : list (list string) :=
  [["Ah"; "8s"; "6d"; "4c"; "2h"; "Jh"]; ["Ac"; "Ah"; "9s"; "8d"; "7c"; "6c"]; ["Kd"; "Kc"; "Qh"; "Qs"; "Jd"; "2c"];
   ["Ac"; "Ah"; "As"; "2d"; "7c"; "3h"]; ["5h"; "6c"; "7d"; "8s"; "9h"; "2d"]; ["Ac"; "5c"; "Tc"; "Jc"; "8c"; "4h"];
   ["As"; "Ad"; "Ac"; "Kh"; "Ks"; "2d"]; ["Ac"; "Ah"; "As"; "Ad"; "2h"; "3c"]; ["5s"; "6s"; "7s"; "8s"; "9s"; "Ts"];
   ["Th"; "Jh"; "Qh"; "Kh"; "Ah"; "2c"]]%string.
Definition SevenCardHand : list (list string) :=
  [["Ah"; "8s"; "6d"; "4c"; "2h"; "Jh"; "Ts"]; ["Ac"; "Ah"; "9s"; "8d"; "7c"; "6c"; "2h"];
   ["Kd"; "Kc"; "Qh"; "Qs"; "Jd"; "2c"; "3s"]; ["Ac"; "Ah"; "As"; "2d"; "7c"; "3h"; "5s"];
   ["5h"; "6c"; "7d"; "8s"; "9h"; "2d"; "Ac"]; ["Ac"; "5c"; "Tc"; "Jc"; "8c"; "4h"; "As"];
   ["As"; "Ad"; "Ac"; "Kh"; "Ks"; "2d"; "3c"]; ["Ac"; "Ah"; "As"; "Ad"; "2h"; "3c"; "4d"];
   ["5s"; "6s"; "7s"; "8s"; "9s"; "Ts"; "2c"]; ["Th"; "Jh"; "Qh"; "Kh"; "Ah"; "2c"; "3s"]]%string.
(** src/evaluate/mod.rs:202-233 and src/evaluate/static_lookup.rs:138-156
    [representative_hand_evaluates_correctly]: the predicates in the order of the assertions.  [next] on
    a lazy iterator evaluates one hand; running past the end of either list fails. *)
Definition predicates : list (eval -> bool) :=
  [eval_is_high_card; eval_is_pair; eval_is_two_pair; eval_is_three_of_a_kind; eval_is_straight;
   eval_is_flush; eval_is_full_house; eval_is_four_of_a_kind; eval_is_straight_flush; eval_is_royal_flush].
Fixpoint representatives (eval_ : list card -> outcome (result eval eval_error))
    (hands : list (list string)) (preds : list (eval -> bool)) : outcome unit :=
  match preds, hands with
  | [], [] => Ret tt                                     (* [assert!(evaluations.next().is_none())] *)
  | [], _ :: _ => Panic AssertFailed
  | _ :: _, [] => Panic UnwrapFailed
  | p :: preds', hand :: hands' =>
      let! cards := unwrap (try_collect (parse_to_iter (map lit hand))) in
      let! e := evaluated eval_ cards in
      let! _ := assert (p e) in
      representatives eval_ hands' preds'
  end.
(** src/evaluate/mod.rs:187-200 [representative_five_card_hands] and the like *)
Definition representative_hands (hands : list (list string)) (hand_size : nat) : outcome unit :=
  let! EVALUATOR := evaluator_new in
  let! _ := assert (forallb (fun hand => Nat.eqb (length hand) hand_size) hands) in
  representatives (evaluate EVALUATOR) hands predicates.

(** src/evaluate/static_lookup.rs:171-193 [ensure_identical_tables] *)
Definition ensure_identical_tables (FLUSH_LOOKUP UNSUITED_LOOKUP : map_i32 meta) : outcome unit :=
  let! EVALUATOR := evaluator_new in
  let identical (dyn stat : map_i32 meta) :=
    let! _ := foldM (fun _ (p : Z * meta) =>
      let! v := index_key (map_get dyn) (fst p) in assert (meta_eqb v (snd p))) (map_contents stat) tt in
    assert (Nat.eqb (map_len dyn) (map_len stat)) in
  let! _ := identical (flush_lookup (evaluator_table EVALUATOR)) FLUSH_LOOKUP in
  identical (unsuited_lookup (evaluator_table EVALUATOR)) UNSUITED_LOOKUP.

(** ** Examples of the documentation *)

(** src/card/mod.rs:37-46 and 202-209 *)
Definition unique_integer_example : outcome unit :=
  assert (Z.eqb (unique_integer (card_new Ace Spades)) 268442665).
(** src/card/mod.rs:85-92 and 108-115 *)
Definition display_example : outcome unit :=
  let! _ := assert (str_eqb (card_display (card_new Ace Spades)) (lit "[ A" ++ [9824%N] ++ lit " ]")) in
  assert (str_eqb (card_display (card_new Three Clubs)) (lit "[ 3" ++ [9827%N] ++ lit " ]")).
(** src/card/mod.rs:139-145 *)
Definition try_from_chars_example : outcome unit :=
  let! card_two := unwrap (try_from_chars 56%N 100%N) in
  assert (card_eqb (card_new Eight Diamonds) card_two).
(** src/card/mod.rs:167-172 and 183-188 *)
Definition rank_suit_example : outcome unit :=
  let! _ := assert (rank_eqb (card_rank (card_new Queen Hearts)) Queen) in
  assert (suit_eqb (card_suit (card_new King Diamonds)) Diamonds).
(** src/card/mod.rs:219-227 *)
Definition rank_suit_string_example : outcome unit :=
  let card_one := card_new Seven Clubs in
  let card_one_string := rank_suit_string card_one in
  let! _ := assert (str_eqb card_one_string (lit "7c")) in
  let! card_two := unwrap (card_from_str card_one_string) in
  assert (card_eqb card_one card_two).
(** src/card/mod.rs:255-266 *)
Definition parse_to_iter_example : outcome unit :=
  let! cards := unwrap (try_collect (parse_to_iter (split_whitespace (lit "As Ad")))) in
  assert (cards_eqb cards [card_new Ace Spades; card_new Ace Diamonds]).
(** src/card/macros.rs:9-13, 18-22, 29-33 and 59-136; an invocation that does not compile fails *)
Definition card_is (v : option macro_value) (c : card) : outcome unit :=
  match v with
  | Some (VCard d) => assert (card_eqb d c)
  | Some (VResult r) => let! d := unwrap r in assert (card_eqb d c)
  | _ => Panic AssertFailed
  end.
Definition cards_are (v : option macro_value) (cs : list card) : outcome unit :=
  match v with
  | Some (VArray ds) => assert (cards_eqb ds cs)
  | Some (VIter it) => let! ds := unwrap (try_collect it) in assert (cards_eqb ds cs)
  | _ => Panic AssertFailed
  end.
Definition macros_example : outcome unit :=
  let no_variables := fun _ => None in
  let ace_of_spades := card_new Ace Spades in
  let king_and_queen := [card_new King Hearts; card_new Queen Hearts] in
  let! _ := foldM (fun _ ts => card_is (card_macro 128 no_variables ts) ace_of_spades)
    [[Ident "Ace"; Comma; Ident "Spades"]; [Ident "Ace"; Ident "of"; Ident "Spades"]; [Text (lit "As")]]%string tt in
  foldM (fun _ ts => cards_are (cards_macro 128 no_variables ts) king_and_queen)
    [[Ident "King"; Comma; Ident "Hearts"; Semi; Ident "Queen"; Comma; Ident "Hearts"; Semi];
     [Ident "King"; Ident "of"; Ident "Hearts"; Comma; Ident "Queen"; Ident "of"; Ident "Hearts"; Comma];
     [Text (lit "Kh"); Comma; Text (lit "Qh")]; [Text (lit "Kh Qh")]]%string tt.
(** src/card/rank.rs:63-67, src/card/suit.rs:27-33 and 49-55 *)
Definition characters_example : outcome unit :=
  let! _ := assert (N.eqb (rank_as_char Ten) 84) in
  let! _ := foldM (fun _ p => assert (N.eqb (suit_as_pretty_char (fst p)) (snd p)))
    [(Hearts, 9829); (Diamonds, 9830); (Clubs, 9827); (Spades, 9824)]%N tt in
  foldM (fun _ p => assert (N.eqb (suit_as_char (fst p)) (snd p)))
    [(Diamonds, 100); (Clubs, 99); (Spades, 115); (Hearts, 104)]%N tt.
(** src/error.rs:20-30, 36-47 and 53-64 *)
Definition parse_errors_example : outcome unit :=
  let! _ := assert (parsed_eqb (card_from_str (lit "10c")) (Err (InvalidLength (lit "10c")))) in
  let! _ := assert (parsed_eqb (card_from_str (lit "jc")) (Err (InvalidRank (lit "jc") 106%N))) in
  assert (parsed_eqb (card_from_str (lit "2D")) (Err (InvalidSuit (lit "2D") 68%N))).
(** src/error.rs:140-156 and 162-176 *)
Definition eval_errors_example : outcome unit :=
  let! ev := evaluator_new in
  let hand := cards_macro_idents [(Ten, Clubs); (Jack, Clubs); (Queen, Clubs); (King, Clubs); (King, Clubs)] in
  let! result := evaluate ev hand in
  let! _ := assert (evaluation_eqb result (Err (CardsNotUnique hand))) in
  let four_cards := cards_macro_idents [(Two, Clubs); (Ten, Hearts); (Seven, Hearts); (Eight, Spades)] in
  let! result := evaluate ev four_cards in
  assert (evaluation_eqb result (Err (InvalidHandSize 4))).
(** src/evaluate/class.rs:12-25 *)
Definition wheel_example : outcome unit :=
  let! ev := evaluator_new in
  let! result := evaluated (evaluate ev) (cards_macro_idents
    [(Ace, Clubs); (Two, Spades); (Three, Diamonds); (Four, Diamonds); (Five, Clubs)]) in
  assert (match eval_class_of result with Straight Five => true | _ => false end).
(** src/evaluate/eval.rs:13-22 *)
Definition pair_example : outcome unit :=
  let! hand := words "7c 8d 3s Ks 7h" in
  let! ev := evaluator_new in
  let! result := evaluated (evaluate ev) hand in
  let! _ := assert (str_eqb (eval_display result) (lit "Pair, sevens")) in
  assert (eval_is_pair result).
(** src/evaluate/eval.rs:34-56; [?] on an error makes the program exit with a status that fails the test *)
Definition flushes_example : outcome unit :=
  let! ev := evaluator_new in
  let! better_flush_cards := words "Jh Th 7h 4h 3h" in
  let! worse_flush_cards := words "Jc Tc 7c 4c 2c" in
  let! better_flush_hand := evaluated (evaluate ev) better_flush_cards in
  let! worse_flush_hand := evaluated (evaluate ev) worse_flush_cards in
  let! _ := assert (eval_class_eqb (eval_class_of better_flush_hand) (Flush Jack)) in
  let! _ := assert (eval_class_eqb (eval_class_of worse_flush_hand) (Flush Jack)) in
  assert (eval_is_better_than better_flush_hand worse_flush_hand).
(** src/evaluate/mod.rs:53-75 *)
Definition full_house_example : outcome unit :=
  let! ev := evaluator_new in
  let! result := evaluated (evaluate ev) (cards_macro_idents
    [(Four, Clubs); (Four, Spades); (Jack, Diamonds); (Jack, Clubs); (Jack, Hearts)]) in
  let! _ := assert (match eval_class_of result with FullHouse Jack Four => true | _ => false end) in
  assert (str_eqb (eval_display result) (lit "Full house, jacks over fours")).
(** src/evaluate/mod.rs:108-128 and src/evaluate/static_lookup.rs:69-85 *)
Definition royal_example (eval_ : list card -> outcome (result eval eval_error)) : outcome unit :=
  let ROYAL_FLUSH := cards_macro_idents [(Ten, Clubs); (Jack, Clubs); (Queen, Clubs); (King, Clubs); (Ace, Clubs)] in
  let! r1 := evaluated eval_ ROYAL_FLUSH in
  let! r2 := evaluated eval_ ROYAL_FLUSH in
  assert (forallb eval_is_royal_flush [r1; r2]).
(** src/evaluate/mod.rs:132-145 and src/evaluate/static_lookup.rs:89-99 *)
Definition board_example (eval_ : list card -> outcome (result eval eval_error)) : outcome unit :=
  let! board := words "3c 5c As Jc Qh" in
  let! hand := words "Tc Ac" in
  let! result := evaluated eval_ (box_cards board [hand]) in
  assert (match eval_class_of result with Flush _ => true | _ => false end).
(** src/lib.rs:8-38 *)
Definition crate_example : outcome unit :=
  let! ev := evaluator_new in
  let! royal_flush_cards := words "Ks Js Ts Qs As" in
  let! royal_flush_hand := evaluated (evaluate ev) royal_flush_cards in
  let! _ := assert (match eval_class_of royal_flush_hand with StraightFlush Ace => true | _ => false end) in
  let! _ := assert (eval_is_royal_flush royal_flush_hand) in
  let! pair_cards := words "3c 4h Td 3h Kd" in
  let! pair_hand := evaluated (evaluate ev) pair_cards in
  assert (eval_is_better_than royal_flush_hand pair_hand).

(** ** Benchmarks *)

(** benches/evaluation.rs:9-28, 30-52 and 54-79 (5-7 is [Evaluator::new] alone), [let _ = evaluate(..)] for given cards and for all
    combinations ([Itertools::combinations] yields the same as [const_combos]) *)
Definition bench_hand (eval_ : list card -> outcome (result eval eval_error)) (texts : list string) : outcome unit :=
  let! hand := each texts in
  let! _ := eval_ hand in Ret tt.
Definition bench_all (eval_ : list card -> outcome (result eval eval_error)) : outcome unit :=
  for_const_combos 5 deck_generate (fun _ cards => let! _ := eval_ cards in Ret tt) tt.

(** ** All of them *)

(** Without the feature [static_lookup]. *)
Definition suite {R} (gen : R -> nat -> nat * R) (rng : R) (iter_order : list (card * nat) -> list (card * nat)) :
    list (outcome unit) :=
  [(let! _ := evaluator_new in Ret tt); from_str_fails; try_from_works; box_cards_works; card_integers_unique; deck_example;
   card_suit_and_rank_calculations; generate_deck_is_52_cards; generate_shuffled_deck_is_52_cards gen rng;
   parse_card_error_format; eval_error_format iter_order; bit_sequence_generator_works; check_all_unique;
   const_combos_works; eval_class_derived_ord_works; eval_best; eval_worst; eval_better_worse_tie;
   check_metadata_ordering; test_all_five_card_combos; representative_hands FiveCardHand 5;
   representative_hands SixCardHand 6; representative_hands SevenCardHand 7;
   unique_integer_example; display_example; try_from_chars_example; rank_suit_example;
   rank_suit_string_example; parse_to_iter_example; macros_example;
   characters_example; parse_errors_example; eval_errors_example; wheel_example; pair_example;
   flushes_example; full_house_example;
   (let! ev := evaluator_new in royal_example (evaluate ev));
   (let! ev := evaluator_new in board_example (evaluate ev)); crate_example;
   (let! ev := evaluator_new in bench_hand (evaluate ev) ["Th"; "Jh"; "Qh"; "Kh"; "Ah"]%string);
   (let! ev := evaluator_new in bench_hand (evaluate ev) ["8h"; "9h"; "Th"; "Jh"; "Qh"; "Kh"; "Ah"]%string);
   (let! ev := evaluator_new in bench_all (evaluate ev))].
(** What the feature adds, apart from [ensure_identical_tables]. *)
Definition static_suite (FLUSH_LOOKUP UNSUITED_LOOKUP : map_i32 meta) : list (outcome unit) :=
  let eval_ := static_evaluate FLUSH_LOOKUP UNSUITED_LOOKUP in
  [all_five_card_combos eval_; representatives eval_ FiveCardHand predicates;
   representatives eval_ SixCardHand predicates; representatives eval_ SevenCardHand predicates;
   royal_example eval_; board_example eval_;
   bench_hand eval_ ["Th"; "Jh"; "Qh"; "Kh"; "Ah"]%string;
   bench_hand eval_ ["8h"; "9h"; "Th"; "Jh"; "Qh"; "Kh"; "Ah"]%string; bench_all eval_].
