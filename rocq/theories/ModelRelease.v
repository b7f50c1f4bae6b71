(** ModelRelease.v: the crate as built with --release (Cargo.toml:34-36 leaves overflow checks and debug
    assertions off).  Plain arithmetic wraps, a shift uses its right operand modulo the width, [debug_assert!] is
    left out.  Only functions with such operations, and their callers, are repeated here; the rest is shared with
    the model of the debug build. *)
From Coq Require Import String.
From Verif Require Import Base ModelCard ModelEval ModelTable ModelEvaluation ModelExamples.
Local Open Scope Z_scope.

(** ** Arithmetic without overflow checks *)
Definition rel_shl_i32 (a n : Z) : Z := wrap_i32 (Z.shiftl a (n mod 32)).
Definition rel_shl_i16 (a n : Z) : Z := wrap_i16 (Z.shiftl a (n mod 16)).
Definition rel_shl_u64 (a n : Z) : Z := Z.shiftl a (n mod 64) mod 18446744073709551616.
Definition rel_shr_i16 (a n : Z) : Z := Z.shiftr a (n mod 16).
Definition rel_u8 (z : Z) : Z := z mod 256.
Definition rel_u64 (z : Z) : Z := z mod 18446744073709551616.

(** src/card/mod.rs:116-126 [Card::new] *)
Definition rel_card_new (r : rank) (s : suit) : outcome card :=
  let rank_int := rank_as_i32 r in
  let suit_int := suit_as_i32 s in
  let! rank_prime := index PRIMES (Z.to_nat rank_int) in
  let bit_rank := rel_shl_i32 (rel_shl_i32 1 rank_int) 16 in
  let card_suit := rel_shl_i32 suit_int 12 in
  let card_rank := rel_shl_i32 rank_int 8 in
  Ret (mk_card (Z.lor (Z.lor (Z.lor bit_rank card_suit) card_rank) rank_prime)).

(** ** src/evaluate/utils.rs *)

(** src/evaluate/utils.rs:38-50, the loop of [next] *)
Fixpoint rel_advance_loop {T} (len n : nat) (isucc : nat) (c : combinations T) : outcome (combinations T) :=
  match isucc with
  | O => Ret c
  | S i =>
      let limit := rel_u64 (rel_u64 (Z.of_nat len - Z.of_nat n) + Z.of_nat i) in
      let! idx := index (cb_indices c) i in
      let c := if Nat.eqb i 0 && (Z.of_nat idx =? limit)
               then mk_combinations (cb_data c) (cb_indices c) true else c in
      if Z.of_nat idx <? limit then
        Ret (mk_combinations (cb_data c)
               (firstn i (cb_indices c) ++ S idx :: reset_after (S idx) (skipn (S i) (cb_indices c)))
               (cb_done c))
      else rel_advance_loop len n i c
  end.
(** src/evaluate/utils.rs:31-53 [Iterator::next] *)
Definition rel_combinations_next {T} (c : combinations T) : outcome (option (list T) * combinations T) :=
  if cb_done c then Ret (None, c)
  else
    let! r := mapM (index (cb_data c)) (cb_indices c) in
    let n := length (cb_indices c) in
    let! c' := rel_advance_loop (length (cb_data c)) n n c in
    Ret (Some r, c').
Fixpoint rel_for_combinations {T St} (fuel : nat) (c : combinations T)
    (body : St -> list T -> outcome St) (s : St) : outcome St :=
  match fuel with
  | O => OutOfFuel
  | S fuel' =>
      let! p := rel_combinations_next c in
      match p with
      | (None, _) => Ret s
      | (Some x, c') => let! s' := body s x in rel_for_combinations fuel' c' body s'
      end
  end.
(** src/evaluate/utils.rs:85-90 *)
Definition rel_for_const_combos {T St} (n : nat) (items : list T)
    (body : St -> list T -> outcome St) (s : St) : outcome St :=
  rel_for_combinations (S (binom (length items) n)) (combinations_new n items) body s.

(** src/evaluate/utils.rs:75-82 [get_next] *)
Definition rel_get_next (b : bit_sequence) : Z * bit_sequence :=
  let t := Z.lor (bs_bits b) (wrapping_sub_i16 (bs_bits b) 1) in
  let next_bits := wrapping_add_i16 t 1 in
  let low := wrapping_sub_i16 (Z.land (Z.lnot t) (wrapping_neg_i16 (Z.lnot t))) 1 in
  let next_bits := Z.lor next_bits (rel_shr_i16 low (trailing_zeros_i16 (bs_bits b) + 1)) in
  (next_bits, mk_bit_sequence next_bits t next_bits).

(** src/evaluate/utils.rs:93-103 [prime_product_from_rank_bits] *)
Definition rel_prime_product_from_rank_bits (rank_bits : Z) : outcome Z :=
  foldM (fun product i =>
    if negb (Z.land rank_bits (rel_shl_i16 1 i) =? 0) then
      let! p := index PRIMES (Z.to_nat i) in
      Ret (wrapping_mul_i32 product p)
    else Ret product) INT_RANKS 1.

(** src/evaluate/utils.rs:119-124 the loop of [high_rank_from_rank_bits] *)
Fixpoint rel_high_rank_loop (rank_bits : Z) (is : list Z) : outcome rank :=
  match is with
  | [] => Panic UnreachableReached
  | i :: is' =>
      if negb (Z.land rank_bits (rel_shl_i16 1 i) =? 0) then index RANK_ALL_VARIANTS (Z.to_nat i)
      else rel_high_rank_loop rank_bits is'
  end.
(** src/evaluate/utils.rs:114-125 [high_rank_from_rank_bits] *)
Definition rel_high_rank_from_rank_bits (rank_bits : Z) : outcome rank :=
  let! wheel := index STRAIGHTS 9 in
  if rank_bits =? wheel then Ret Five
  else rel_high_rank_loop rank_bits (rev INT_RANKS).

(** src/evaluate/utils.rs:141-166 [card_to_index] *)
Definition rel_card_to_index (c : card) : Z :=
  let suit_shift :=
    match card_suit c with Clubs => 0 | Diamonds => 13 | Hearts => 26 | Spades => 39 end in
  let rank_shift :=
    match card_rank c with
    | Two => 0 | Three => 1 | Four => 2 | Five => 3 | Six => 4 | Seven => 5 | Eight => 6
    | Nine => 7 | Ten => 8 | Jack => 9 | Queen => 10 | King => 11 | Ace => 12
    end in
  rel_u8 (suit_shift + rank_shift).
(** src/evaluate/utils.rs:128-138 [all_unique] *)
Fixpoint rel_all_unique_from (card_flags : Z) (hand : list card) : bool :=
  match hand with
  | [] => true
  | c :: hand' =>
      let card_flag := rel_shl_u64 1 (rel_card_to_index c) in
      if negb (Z.land card_flags card_flag =? 0) then false
      else rel_all_unique_from (Z.lor card_flags card_flag) hand'
  end.
Definition rel_all_unique (hand : list card) : bool := rel_all_unique_from 0 hand.

(** ** src/evaluate/lookup_table.rs *)

(** src/evaluate/lookup_table.rs:52-66 *)
Fixpoint rel_gen_not_straights (count : nat) (gen : bit_sequence) : list Z :=
  match count with
  | O => []
  | S count' =>
      let (bits, gen') := rel_get_next gen in
      let rest := rel_gen_not_straights count' gen' in
      if existsb (fun straight => Z.lxor bits straight =? 0) STRAIGHTS then rest else bits :: rest
  end.
(** src/evaluate/lookup_table.rs:93-123 *)
Definition rel_straight_step (st : lookup_table * Z * Z) (straight : Z) : outcome (lookup_table * Z * Z) :=
  let '(t, rank_suited, rank_unsuited) := st in
  let! prime_product := rel_prime_product_from_rank_bits straight in
  let! high_rank := rel_high_rank_from_rank_bits straight in
  let t := insert_flush prime_product (MStraightFlush (PokerHandRank rank_suited) high_rank) t in
  let t := insert_unsuited prime_product (MStraight (PokerHandRank rank_unsuited) high_rank) t in
  Ret (t, wrapping_add_i16 rank_suited 1, wrapping_add_i16 rank_unsuited 1).
(** src/evaluate/lookup_table.rs:137-165 *)
Definition rel_not_straight_step (st : lookup_table * Z * Z) (bits : Z) : outcome (lookup_table * Z * Z) :=
  let '(t, rank_suited, rank_unsuited) := st in
  let! prime_product := rel_prime_product_from_rank_bits bits in
  let! high_rank := rel_high_rank_from_rank_bits bits in
  let t := insert_flush prime_product (MFlush (PokerHandRank rank_suited) high_rank) t in
  let t := insert_unsuited prime_product (MHighCard (PokerHandRank rank_unsuited) high_rank) t in
  Ret (t, wrapping_add_i16 rank_suited 1, wrapping_add_i16 rank_unsuited 1).
(** src/evaluate/lookup_table.rs:40-166 [flushes_straights_high_cards] *)
Definition rel_flushes_straights_high_cards (t : lookup_table) : outcome lookup_table :=
  let not_straights := rel_gen_not_straights 1286 (bit_sequence_new 31) in
  let! st := foldM rel_straight_step STRAIGHTS (t, 1, wrap_i16 (WORST_FLUSH + 1)) in
  let '(t, _, _) := st in
  let rank_suited := wrapping_add_i16 WORST_FULL_HOUSE 1 in
  let rank_unsuited := wrapping_add_i16 WORST_PAIR 1 in
  let! st := foldM rel_not_straight_step (rev not_straights) (t, rank_suited, rank_unsuited) in
  let '(t, _, _) := st in
  Ret t.
(** src/evaluate/lookup_table.rs:230-258 three of a kind *)
Definition rel_table_trips (t : lookup_table) : outcome lookup_table :=
  let! st := foldM (fun st trips =>
    let kickers := filter (fun kicker => negb (kicker =? trips)) (rev INT_RANKS) in
    rel_for_const_combos 2 kickers (fun (st : lookup_table * Z) k =>
      let (t, rk) := st in
      let! c1 := index k 0 in
      let! c2 := index k 1 in
      let! pt := prime_at trips in
      let! p1 := prime_at c1 in
      let! p2 := prime_at c2 in
      let product := wrapping_mul_i32 (wrapping_mul_i32 (wrapping_pow_i32 pt 3) p1) p2 in
      let! rt := rank_at trips in
      Ret (insert_unsuited product (MThreeOfAKind (PokerHandRank rk) rt) t,
           wrapping_add_i16 rk 1)) st)
    (rev INT_RANKS) (t, wrapping_add_i16 WORST_STRAIGHT 1) in
  Ret (fst st).
(** src/evaluate/lookup_table.rs:262-289 two pair *)
Definition rel_table_two_pairs (t : lookup_table) : outcome lookup_table :=
  let! st := rel_for_const_combos 2 (rev INT_RANKS) (fun st pairs =>
    let! pair1 := index pairs 0 in
    let! pair2 := index pairs 1 in
    foldM (fun (st : lookup_table * Z) kicker =>
      let (t, rk) := st in
      let! p1 := prime_at pair1 in
      let! p2 := prime_at pair2 in
      let! pk := prime_at kicker in
      let product := wrapping_mul_i32
          (wrapping_mul_i32 (wrapping_pow_i32 p1 2) (wrapping_pow_i32 p2 2)) pk in
      let! high_pair := rank_at pair1 in
      let! low_pair := rank_at pair2 in
      Ret (insert_unsuited product (MTwoPair (PokerHandRank rk) high_pair low_pair) t,
           wrapping_add_i16 rk 1))
      (filter (fun kicker => negb (kicker =? pair1) && negb (kicker =? pair2)) (rev INT_RANKS)) st)
    (t, wrapping_add_i16 WORST_THREE_OF_A_KIND 1) in
  Ret (fst st).
(** src/evaluate/lookup_table.rs:293-323 pair *)
Definition rel_table_pairs (t : lookup_table) : outcome lookup_table :=
  let! st := foldM (fun st pair_rank =>
    let kickers := filter (fun kicker => negb (kicker =? pair_rank)) (rev INT_RANKS) in
    rel_for_const_combos 3 kickers (fun (st : lookup_table * Z) k =>
      let (t, rk) := st in
      let! k1 := index k 0 in
      let! k2 := index k 1 in
      let! k3 := index k 2 in
      let! pp := prime_at pair_rank in
      let! p1 := prime_at k1 in
      let! p2 := prime_at k2 in
      let! p3 := prime_at k3 in
      let product := wrapping_mul_i32
          (wrapping_mul_i32 (wrapping_mul_i32 (wrapping_pow_i32 pp 2) p1) p2) p3 in
      let! rp := rank_at pair_rank in
      Ret (insert_unsuited product (MPair (PokerHandRank rk) rp) t,
           wrapping_add_i16 rk 1)) st)
    (rev INT_RANKS) (t, wrapping_add_i16 WORST_TWO_PAIR 1) in
  Ret (fst st).
(** src/evaluate/lookup_table.rs:169-326 [multiples]; the first two loops have no plain arithmetic *)
Definition rel_multiples (t : lookup_table) : outcome lookup_table :=
  let! t := table_quads insert_unsuited t in
  let! t := table_full_houses insert_unsuited t in
  let! t := rel_table_trips t in
  let! t := rel_table_two_pairs t in
  rel_table_pairs t.
(** src/evaluate/lookup_table.rs:28-36 [LookupTable::new] *)
Definition rel_lookup_table_new : outcome lookup_table :=
  let! t := rel_flushes_straights_high_cards (mk_lookup_table map_empty map_empty) in
  rel_multiples t.
(** src/evaluate/mod.rs:82 [Evaluator::new] *)
Definition rel_evaluator_new : outcome evaluator :=
  let! t := rel_lookup_table_new in Ret (Evaluator t).

(** ** src/evaluate/evaluation.rs *)

(** src/evaluate/evaluation.rs:39-52 [five] *)
Definition rel_five (ev : evaluation) (cards : list card) : outcome eval :=
  let uniques := map unique_integer cards in
  let detect_flush := negb (fold_left Z.land uniques 61440 =? 0) in
  if detect_flush then
    let bit_rank_or := Z.shiftr (fold_left Z.lor uniques 0) 16 in
    let! prime := rel_prime_product_from_rank_bits (wrap_i16 bit_rank_or) in
    let! m := index_key (ev_flush_lookup ev) prime in
    Ret (MkEval m)
  else
    let prime := prime_product_from_hand cards in
    let! m := index_key (ev_unsuited_lookup ev) prime in
    Ret (MkEval m).
(** src/evaluate/evaluation.rs:54-65 [six_plus], without the [debug_assert!] *)
Definition rel_six_plus (ev : evaluation) (cards : list card) : outcome eval :=
  rel_for_const_combos 5 cards (fun current_max combo =>
    let! score := rel_five ev combo in
    if op_gt (eval_partial_cmp score current_max) then Ret score else Ret current_max)
    EVAL_WORST.
(** src/evaluate/evaluation.rs:24-37 [evaluate] *)
Definition rel_evaluate_with (ev : evaluation) (cards : list card) : outcome (result eval eval_error) :=
  if rel_all_unique cards then
    if Nat.ltb (length cards) 5 then Ret (Err (InvalidHandSize (length cards)))
    else if Nat.eqb (length cards) 5 then
      let! c0 := index cards 0 in
      let! c1 := index cards 1 in
      let! c2 := index cards 2 in
      let! c3 := index cards 3 in
      let! c4 := index cards 4 in
      let! e := rel_five ev [c0; c1; c2; c3; c4] in
      Ret (Ok e)
    else
      let! e := rel_six_plus ev cards in
      Ret (Ok e)
  else Ret (Err (CardsNotUnique cards)).
(** src/evaluate/mod.rs:148-151 [Evaluator::evaluate] *)
Definition rel_evaluate (e : evaluator) (cards : list card) : outcome (result eval eval_error) :=
  rel_evaluate_with (evaluator_evaluation e) cards.
(** src/evaluate/static_lookup.rs:102-105 [static_lookup::evaluate] *)
Definition rel_static_evaluate (FLUSH_LOOKUP UNSUITED_LOOKUP : map_i32 meta) (cards : list card) :
    outcome (result eval eval_error) :=
  rel_evaluate_with (mk_evaluation (map_get FLUSH_LOOKUP) (map_get UNSUITED_LOOKUP)) cards.

(** ** examples/jacks-or-better.rs *)

(** examples/jacks-or-better.rs:165-231 [get_swaps] *)
Fixpoint rel_get_swaps (iter_order : list (Z * nat) -> list (Z * nat)) (lines : list rstring)
    (out : list printed) : option (list Z) * list rstring * list printed :=
  let out := out ++ [swaps_message] in
  match lines with
  | [] => (None, [], out)
  | input :: lines' =>
      if str_eqb input (lit "quit") then (None, lines', out)
      else
        match parse_all (split_whitespace input) with
        | None =>
            rel_get_swaps iter_order lines'
              (out ++ [Line [] (lit "Error parsing input '" ++ input
                        ++ lit "'. Expected space-separated list of card numbers to swap."
                        ++ newline)])
        | Some swaps =>
            if negb (forallb (fun num => (1 <=? num) && (num <=? 5)) swaps) then
              rel_get_swaps iter_order lines'
                (out ++ [Line [] (lit "Error parsing input '" ++ input
                          ++ lit "'. Not all listed numbers are between 1 and 5." ++ newline)])
            else if negb (Nat.leb (length swaps) 5) then
              rel_get_swaps iter_order lines'
                (out ++ [Line [] (lit "Error parsing input '" ++ input
                          ++ lit "'. Specified more than 5 cards to swap." ++ newline)])
            else if negb (all_inserted [] swaps) then
              let counts :=
                flat_map (fun p => if Nat.ltb 1 (snd p) then [show (fst p)] else [])
                  (iter_order (counts Z.eqb swaps)) in
              rel_get_swaps iter_order lines'
                (out ++ [Line [] (lit "Cannot provide duplicate cards to swap: "
                          ++ join (lit " ") counts ++ lit "." ++ newline)])
            else
              let indices := map (fun x => rel_u64 (x - 1)) swaps in
              (Some indices, lines', out)
        end
  end.

(** examples/jacks-or-better.rs:233-264 [payout] *)
Definition rel_payout (wager : Z) (class : eval_class) : Z :=
  match class with
  | Pair Jack | Pair Queen | Pair King | Pair Ace => wager
  | TwoPair _ _ => rel_u64 (2 * wager)
  | ThreeOfAKind _ => rel_u64 (3 * wager)
  | Straight _ => rel_u64 (4 * wager)
  | Flush _ => rel_u64 (6 * wager)
  | FullHouse _ _ => rel_u64 (9 * wager)
  | FourOfAKind _ => rel_u64 (25 * wager)
  | StraightFlush Ace => if wager =? MAX_WAGER then 4000 else rel_u64 (250 * wager)
  | StraightFlush _ => rel_u64 (50 * wager)
  | _ => 0
  end.

(** examples/jacks-or-better.rs:34-103, one turn of the ['game] loop *)
Definition rel_game_turn {R} (gen : R -> nat -> nat * R)
    (iter_order : list (Z * nat) -> list (Z * nat)) (ev : evaluator) (g : game R) :
    outcome (turn * game R) :=
  (* 36-40 *)
  match get_wager (g_credits g) (g_lines g) (g_out g) with
  | (None, lines, out) =>
      Ret (Break, mk_game lines out (g_deck g) (g_hand g) (g_credits g) (g_rng g))
  | (Some wager, lines, out) =>
      let credits := rel_u64 (g_credits g - wager) in
      (* 43-49 *)
      let! drained := drain_front 5 (g_deck g) in
      let (dealt, deck) := drained in
      let hand := g_hand g ++ dealt in
      let! r := rel_evaluate ev hand in
      let! first_eval := unwrap r in
      let out := out ++ [Clear] in
      let! text := show_hand hand first_eval in
      let out := out ++ [Line [] (text ++ newline ++ lit " (1)    (2)    (3)    (4)    (5)")] in
      (* 52-55 *)
      match rel_get_swaps iter_order lines out with
      | (None, lines, out) => Ret (Break, mk_game lines out deck hand credits (g_rng g))
      | (Some swaps, lines, out) =>
          (* 58-60 *)
          let! swapped :=
            match swaps with
            | [] => Ret (deck, hand, g_rng g)
            | _ => swap_cards gen swaps deck hand (g_rng g)
            end in
          let '(deck, hand, rng) := swapped in
          (* 63-67 *)
          let! r := rel_evaluate ev hand in
          let! second_eval := unwrap r in
          let! text := show_hand hand second_eval in
          let out := out ++ [Line [] text] in
          (* 70-78 *)
          let out :=
            match class_cmp (eval_class_of second_eval) (eval_class_of first_eval) with
            | Gt => out ++ [Line [BrightGreen; Bold] (lit "You got a better hand!")]
            | Lt => out ++ [Line [BrightRed; Bold] (lit "You got a worse hand...")]
            | Eq => out
            end in
          (* 81-91 *)
          let winnings := rel_payout wager (eval_class_of second_eval) in
          let s := lit "Winnings: " ++ show winnings in
          let (credits, winnings_string) :=
            if 0 <? winnings then
              (rel_u64 (credits + rel_u64 (wager + winnings)), Line [BrightGreen; Bold] s)
            else (credits, Line [BrightRed; Bold] s) in
          let out := out ++ [winnings_string] in
          (* 92-95 *)
          if credits =? 0 then
            Ret (Break, mk_game lines (out ++ [Line [BrightRed; Bold] (lit "Game over!")])
                          deck hand credits rng)
          else
            (* 98-100 *)
            let out := out ++ [Line [] []] in
            let deck := deck ++ hand in
            let! shuffled := shuffle gen deck rng in
            let (deck, rng) := shuffled in
            Ret (Again, mk_game lines out deck [] credits rng)
      end
  end.

(** The ['game] loop; every turn that loops back has read at least two lines. *)
Fixpoint rel_game_loop {R} (gen : R -> nat -> nat * R) iter_order (ev : evaluator) (fuel : nat)
    (g : game R) : outcome (game R) :=
  match fuel with
  | O => OutOfFuel
  | S fuel' =>
      let! p := rel_game_turn gen iter_order ev g in
      match p with
      | (Break, g') => Ret g'
      | (Again, g') => rel_game_loop gen iter_order ev fuel' g'
      end
  end.

(** examples/jacks-or-better.rs:19-32 [main] up to the loop.  [thread_rng()] and the
    [thread_rng()] inside [deck::shuffled] are handles of the same generator. *)
Definition rel_game_start {R} (gen : R -> nat -> nat * R) (lines : list rstring) (rng : R) :
    outcome (evaluator * game R) :=
  let! ev := rel_evaluator_new in
  let! shuffled := shuffled_with gen rng in
  let (deck, rng) := shuffled in
  Ret (ev, mk_game lines [Clear; Line [BrightGreen; Bold] JACKS_WELCOME] deck []
             STARTING_CREDITS rng).

(** examples/jacks-or-better.rs:19-104 [main] *)
Definition rel_jacks_main {R} (gen : R -> nat -> nat * R) iter_order (lines : list rstring) (rng : R) :
    outcome (game R) :=
  let! start := rel_game_start gen lines rng in
  rel_game_loop gen iter_order (fst start) (S (length lines)) (snd start).
