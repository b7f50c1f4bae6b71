(** ModelWidth.v: examples/jacks-or-better.rs with a [usize] of any width.

    ModelExamples.v takes [usize] to have 64 bits.  Here are the functions of the game that compute with
    [usize], once more, with its width as a parameter, and with or without overflow checks.  (The library
    itself uses [usize] for indices and lengths only, which are far below any width.) *)
From Coq Require Import String.
From Verif Require Import Base ModelCard ModelEval ModelTable ModelEvaluation ModelExamples.
Local Open Scope Z_scope.

Section Usize.
(** With overflow checks?  How many bits? *)
Context (checks : bool) (bits : Z).

(** The values of [usize]. *)
Definition in_usize (z : Z) : bool := (0 <=? z) && (z <? 2 ^ bits).
(** Plain arithmetic: with overflow checks (debug builds) it panics, without them (release builds) it wraps. *)
Definition arith (z : Z) : outcome Z :=
  if checks then chk in_usize z else Ret (z mod 2 ^ bits).

(** [str::parse::<usize>] of the standard library *)
Fixpoint parse_digits_at (s : rstring) (result : Z) : option Z :=
  match s with
  | [] => Some result
  | c :: s' =>
      match to_digit c with
      | None => None
      | Some x =>
          if in_usize (result * 10) then
            if in_usize (result * 10 + x) then parse_digits_at s' (result * 10 + x) else None
          else None
      end
  end.
Definition parse_usize_at (s : rstring) : option Z :=
  match s with
  | [] => None
  | [43%N] | [45%N] => None
  | 43%N :: digits => parse_digits_at digits 0
  | digits => parse_digits_at digits 0
  end.

(** [iterator.collect::<Result<Vec<_>, _>>()] over [map(str::parse)] *)
Fixpoint parse_all_at (l : list rstring) : option (list Z) :=
  match l with
  | [] => Some []
  | s :: l' =>
      match parse_usize_at s with
      | None => None
      | Some x => match parse_all_at l' with None => None | Some xs => Some (x :: xs) end
      end
  end.

(** examples/jacks-or-better.rs:118-161 [get_wager] *)
Fixpoint get_wager_at (credits : Z) (lines : list rstring) (out : list printed) :
    option Z * list rstring * list printed :=
  let out := out ++ [wager_message credits] in
  match lines with
  | [] => (None, [], out)
  | input :: lines' =>
      if str_eqb input (lit "quit") then (None, lines', out)
      else
        match parse_usize_at input with
        | None =>
            get_wager_at credits lines'
              (out ++ [Line [] (lit "Invalid input '" ++ input ++ lit "'. Expected wager from 1 to "
                                ++ show MAX_WAGER ++ lit "." ++ newline)])
        | Some x =>
            if x =? 0 then
              get_wager_at credits lines'
                (out ++ [Line [] (lit "Sorry, you can't bet 0 credits!" ++ newline)])
            else if MAX_WAGER <? x then
              get_wager_at credits lines'
                (out ++ [Line [] (lit "Invalid wager amount '" ++ show x
                                  ++ lit "'. Expected amount from 1 to " ++ show MAX_WAGER
                                  ++ lit "." ++ newline)])
            else if credits <? x then
              get_wager_at credits lines'
                (out ++ [Line [] (lit "Not enough credits! Got " ++ show x ++ lit " but you have "
                                  ++ show credits ++ lit "." ++ newline)])
            else (Some x, lines', out)
        end
  end.

(** examples/jacks-or-better.rs:165-231 [get_swaps] *)
Fixpoint get_swaps_at (iter_order : list (Z * nat) -> list (Z * nat)) (lines : list rstring)
    (out : list printed) : outcome (option (list Z) * list rstring * list printed) :=
  let out := out ++ [swaps_message] in
  match lines with
  | [] => Ret (None, [], out)
  | input :: lines' =>
      if str_eqb input (lit "quit") then Ret (None, lines', out)
      else
        match parse_all_at (split_whitespace input) with
        | None =>
            get_swaps_at iter_order lines'
              (out ++ [Line [] (lit "Error parsing input '" ++ input
                        ++ lit "'. Expected space-separated list of card numbers to swap."
                        ++ newline)])
        | Some swaps =>
            if negb (forallb (fun num => (1 <=? num) && (num <=? 5)) swaps) then
              get_swaps_at iter_order lines'
                (out ++ [Line [] (lit "Error parsing input '" ++ input
                          ++ lit "'. Not all listed numbers are between 1 and 5." ++ newline)])
            else if negb (Nat.leb (length swaps) 5) then
              get_swaps_at iter_order lines'
                (out ++ [Line [] (lit "Error parsing input '" ++ input
                          ++ lit "'. Specified more than 5 cards to swap." ++ newline)])
            else if negb (all_inserted [] swaps) then
              let counts :=
                flat_map (fun p => if Nat.ltb 1 (snd p) then [show (fst p)] else [])
                  (iter_order (counts Z.eqb swaps)) in
              get_swaps_at iter_order lines'
                (out ++ [Line [] (lit "Cannot provide duplicate cards to swap: "
                          ++ join (lit " ") counts ++ lit "." ++ newline)])
            else
              let! indices := mapM (fun x => arith (x - 1)) swaps in
              Ret (Some indices, lines', out)
        end
  end.

(** examples/jacks-or-better.rs:233-264 [payout] *)
Definition payout_at (wager : Z) (class : eval_class) : outcome Z :=
  match class with
  | Pair Jack | Pair Queen | Pair King | Pair Ace => Ret wager
  | TwoPair _ _ => arith (2 * wager)
  | ThreeOfAKind _ => arith (3 * wager)
  | Straight _ => arith (4 * wager)
  | Flush _ => arith (6 * wager)
  | FullHouse _ _ => arith (9 * wager)
  | FourOfAKind _ => arith (25 * wager)
  | StraightFlush Ace => if wager =? MAX_WAGER then Ret 4000 else arith (250 * wager)
  | StraightFlush _ => arith (50 * wager)
  | _ => Ret 0
  end.

(** examples/jacks-or-better.rs:34-103, one turn of the ['game] loop *)
Definition game_turn_at {R} (gen : R -> nat -> nat * R)
    (iter_order : list (Z * nat) -> list (Z * nat)) (ev : evaluator) (g : game R) :
    outcome (turn * game R) :=
  (* 36-40 *)
  match get_wager_at (g_credits g) (g_lines g) (g_out g) with
  | (None, lines, out) =>
      Ret (Break, mk_game lines out (g_deck g) (g_hand g) (g_credits g) (g_rng g))
  | (Some wager, lines, out) =>
      let! credits := arith (g_credits g - wager) in
      (* 43-49 *)
      let! drained := drain_front 5 (g_deck g) in
      let (dealt, deck) := drained in
      let hand := g_hand g ++ dealt in
      let! r := evaluate ev hand in
      let! first_eval := unwrap r in
      let out := out ++ [Clear] in
      let! text := show_hand hand first_eval in
      let out := out ++ [Line [] (text ++ newline ++ lit " (1)    (2)    (3)    (4)    (5)")] in
      (* 52-55 *)
      let! answer := get_swaps_at iter_order lines out in
      match answer with
      | (None, lines, out) => Ret (Break, mk_game lines out deck hand credits (g_rng g))
      | (Some swaps, lines, out) =>
          (* 58-60 *)
          let! swapped :=
            match swaps with
            | [] => Ret (deck, hand, g_rng g)
            | _ => swap_cards gen swaps deck hand (g_rng g)
            end in
          let '(deck, hand, rng) := swapped in
          (* 63-67 *)
          let! r := evaluate ev hand in
          let! second_eval := unwrap r in
          let! text := show_hand hand second_eval in
          let out := out ++ [Line [] text] in
          (* 70-78 *)
          let out :=
            match class_cmp (eval_class_of second_eval) (eval_class_of first_eval) with
            | Gt => out ++ [Line [BrightGreen; Bold] (lit "You got a better hand!")]
            | Lt => out ++ [Line [BrightRed; Bold] (lit "You got a worse hand...")]
            | Eq => out
            end in
          (* 81-91 *)
          let! winnings := payout_at wager (eval_class_of second_eval) in
          let s := lit "Winnings: " ++ show winnings in
          let! settled :=
            if 0 <? winnings then
              let! back := arith (wager + winnings) in
              let! credits := arith (credits + back) in
              Ret (credits, Line [BrightGreen; Bold] s)
            else Ret (credits, Line [BrightRed; Bold] s) in
          let (credits, winnings_string) := settled in
          let out := out ++ [winnings_string] in
          (* 92-95 *)
          if credits =? 0 then
            Ret (Break, mk_game lines (out ++ [Line [BrightRed; Bold] (lit "Game over!")])
                          deck hand credits rng)
          else
            (* 98-100 *)
            let out := out ++ [Line [] []] in
            let deck := deck ++ hand in
            let! shuffled := shuffle gen deck rng in
            let (deck, rng) := shuffled in
            Ret (Again, mk_game lines out deck [] credits rng)
      end
  end.

(** The ['game] loop; every turn that loops back has read at least two lines. *)
Fixpoint game_loop_at {R} (gen : R -> nat -> nat * R) iter_order (ev : evaluator) (fuel : nat)
    (g : game R) : outcome (game R) :=
  match fuel with
  | O => OutOfFuel
  | S fuel' =>
      let! p := game_turn_at gen iter_order ev g in
      match p with
      | (Break, g') => Ret g'
      | (Again, g') => game_loop_at gen iter_order ev fuel' g'
      end
  end.

(** examples/jacks-or-better.rs:19-104 [main] *)
Definition jacks_main_at {R} (gen : R -> nat -> nat * R) iter_order (lines : list rstring) (rng : R) :
    outcome (game R) :=
  let! start := game_start gen lines rng in
  game_loop_at gen iter_order (fst start) (S (length lines)) (snd start).
End Usize.
