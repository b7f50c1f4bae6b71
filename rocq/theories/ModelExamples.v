(** ModelExamples.v: examples/jacks-or-better.rs, examples/poker-repl.rs, examples/common/mod.rs. *)
From Coq Require Import String.
From Verif Require Import Base ModelCard ModelEval ModelTable ModelEvaluation.
Local Open Scope Z_scope.

(** ** Console

    The terminal as data.  Input: the lines [rl.readline] will return, after which it returns
    [Err] (end of input or CTRL+C; both programs stop at the first [Err]).  Output: what is
    printed, in order.  Simplifications: the prompt and its colouring (examples/common/mod.rs),
    line editing and failing writes to stdout are left out. *)

(** The [colored] methods used.  ([bright_purple] is [colored]'s other name of [bright_magenta].) *)
Inductive style :=
| BrightGreen | BrightRed | BrightMagenta | BrightYellow | BrightCyan | BrightBlue | BrightWhite
| Bold | Italic | Underline.

(** [Clear]: the macro [clear_terminal!], examples/common/mod.rs:37-41.
    [Line st s]: [println!("{}", s)] with [s] styled by [st] ([[]]: not styled). *)
Inductive printed :=
| Clear
| Line (st : list style) (text : rstring).

Definition newline : rstring := [10%N].
Definition quote : rstring := [34%N].

(** [String == str] *)
Fixpoint str_eqb (a b : rstring) : bool :=
  match a, b with
  | [], [] => true
  | x :: a', y :: b' => N.eqb x y && str_eqb a' b'
  | _, _ => false
  end.

(** [str::parse::<usize>] of the standard library, the error value dropped: an optional [+], then
    one or more ASCII digits, accumulated with [checked_mul] and [checked_add].  (64-bit usize) *)
Definition to_digit (c : rchar) : option Z :=
  if ((48 <=? c) && (c <=? 57))%N then Some (Z.of_N c - 48) else None.
Fixpoint parse_digits (s : rstring) (result : Z) : option Z :=
  match s with
  | [] => Some result
  | c :: s' =>
      match to_digit c with
      | None => None
      | Some x =>
          if in_u64 (result * 10) then
            if in_u64 (result * 10 + x) then parse_digits s' (result * 10 + x) else None
          else None
      end
  end.
Definition parse_usize (s : rstring) : option Z :=
  match s with
  | [] => None
  | [43%N] | [45%N] => None
  | 43%N :: digits => parse_digits digits 0
  | digits => parse_digits digits 0
  end.

(** [iterator.collect::<Result<Vec<_>, _>>()] over [map(str::parse)] *)
Fixpoint parse_all (l : list rstring) : option (list Z) :=
  match l with
  | [] => Some []
  | s :: l' =>
      match parse_usize s with
      | None => None
      | Some x => match parse_all l' with None => None | Some xs => Some (x :: xs) end
      end
  end.

Definition show (z : Z) : rstring := dec (Z.to_N z).

(** ** jacks-or-better *)

(** examples/jacks-or-better.rs:12-17 *)
Definition STARTING_CREDITS : Z := 100.
Definition MAX_WAGER : Z := 5.
Definition JACKS_WELCOME : rstring :=
  lit "Welcome to Jacks or Better video poker!" ++ newline
  ++ lit "To quit, enter " ++ quote ++ lit "quit" ++ quote ++ lit " or press CTRL+C." ++ newline.

(** examples/jacks-or-better.rs:118-161 [get_wager].  Each turn of the [loop] reads one line. *)
Definition wager_message (credits : Z) : printed :=
  Line [BrightGreen; Bold]
    (lit "Enter a wager. (Credits: " ++ show credits ++ lit ", max: " ++ show MAX_WAGER ++ lit ")").
Fixpoint get_wager (credits : Z) (lines : list rstring) (out : list printed) :
    option Z * list rstring * list printed :=
  let out := out ++ [wager_message credits] in
  match lines with
  | [] => (None, [], out)
  | input :: lines' =>
      if str_eqb input (lit "quit") then (None, lines', out)
      else
        match parse_usize input with
        | None =>
            get_wager credits lines'
              (out ++ [Line [] (lit "Invalid input '" ++ input ++ lit "'. Expected wager from 1 to "
                                ++ show MAX_WAGER ++ lit "." ++ newline)])
        | Some x =>
            if x =? 0 then
              get_wager credits lines'
                (out ++ [Line [] (lit "Sorry, you can't bet 0 credits!" ++ newline)])
            else if MAX_WAGER <? x then
              get_wager credits lines'
                (out ++ [Line [] (lit "Invalid wager amount '" ++ show x
                                  ++ lit "'. Expected amount from 1 to " ++ show MAX_WAGER
                                  ++ lit "." ++ newline)])
            else if credits <? x then
              get_wager credits lines'
                (out ++ [Line [] (lit "Not enough credits! Got " ++ show x ++ lit " but you have "
                                  ++ show credits ++ lit "." ++ newline)])
            else (Some x, lines', out)
        end
  end.

(** [HashSet::insert] (false if present) and [swaps.iter().all(move |x| duplicates.insert(x))] *)
Fixpoint all_inserted (duplicates : list Z) (l : list Z) : bool :=
  match l with
  | [] => true
  | x :: l' => if existsb (Z.eqb x) duplicates then false else all_inserted (x :: duplicates) l'
  end.
(** examples/jacks-or-better.rs:165-231 [get_swaps].  [iter_order] is the unspecified order in
    which the hash map of counts is iterated. *)
Definition swaps_message : printed :=
  Line [BrightGreen; Bold] (lit "Enter the cards' numbers you wish to swap, if any.").
Fixpoint get_swaps (iter_order : list (Z * nat) -> list (Z * nat)) (lines : list rstring)
    (out : list printed) : outcome (option (list Z) * list rstring * list printed) :=
  let out := out ++ [swaps_message] in
  match lines with
  | [] => Ret (None, [], out)
  | input :: lines' =>
      if str_eqb input (lit "quit") then Ret (None, lines', out)
      else
        match parse_all (split_whitespace input) with
        | None =>
            get_swaps iter_order lines'
              (out ++ [Line [] (lit "Error parsing input '" ++ input
                        ++ lit "'. Expected space-separated list of card numbers to swap."
                        ++ newline)])
        | Some swaps =>
            if negb (forallb (fun num => (1 <=? num) && (num <=? 5)) swaps) then
              get_swaps iter_order lines'
                (out ++ [Line [] (lit "Error parsing input '" ++ input
                          ++ lit "'. Not all listed numbers are between 1 and 5." ++ newline)])
            else if negb (Nat.leb (length swaps) 5) then
              get_swaps iter_order lines'
                (out ++ [Line [] (lit "Error parsing input '" ++ input
                          ++ lit "'. Specified more than 5 cards to swap." ++ newline)])
            else if negb (all_inserted [] swaps) then
              let counts :=
                flat_map (fun p => if Nat.ltb 1 (snd p) then [show (fst p)] else [])
                  (iter_order (counts Z.eqb swaps)) in
              get_swaps iter_order lines'
                (out ++ [Line [] (lit "Cannot provide duplicate cards to swap: "
                          ++ join (lit " ") counts ++ lit "." ++ newline)])
            else
              let! indices := mapM (fun x => chk in_u64 (x - 1)) swaps in
              Ret (Some indices, lines', out)
        end
  end.

(** [vec.drain(..n)], returning what is drained and what stays *)
Definition drain_front {A} (n : nat) (l : list A) : outcome (list A * list A) :=
  if Nat.leb n (length l) then Ret (firstn n l, skipn n l) else Panic IndexOutOfBounds.
(** [vec[i] = x] *)
Definition index_set {A} (l : list A) (i : nat) (x : A) : outcome (list A) :=
  if Nat.ltb i (length l) then Ret (set_nth l i x) else Panic IndexOutOfBounds.

(** examples/jacks-or-better.rs:106-114 [swap_cards]; gives back the new deck, hand and rng.
    [combine (seq 0 _) _] is [enumerate]. *)
Definition swap_cards {R} (gen : R -> nat -> nat * R) (swaps : list Z) (deck hand : list card)
    (rng : R) : outcome (list card * list card * R) :=
  let! deck := foldM (fun deck i => let! c := index hand (Z.to_nat i) in Ret (deck ++ [c]))
                 swaps deck in
  let! shuffled := shuffle gen deck rng in
  let (deck, rng) := shuffled in
  let! drained := drain_front (length swaps) deck in
  let (dealt, deck) := drained in
  let! hand :=
    foldM (fun hand p =>
             let! i := index swaps (fst p) in
             index_set hand (Z.to_nat i) (snd p))
      (combine (seq 0 (length dealt)) dealt) hand in
  Ret (deck, hand, rng).

(** examples/jacks-or-better.rs:233-264 [payout] *)
Definition payout (wager : Z) (class : eval_class) : outcome Z :=
  match class with
  | Pair Jack | Pair Queen | Pair King | Pair Ace => Ret wager
  | TwoPair _ _ => chk in_u64 (2 * wager)
  | ThreeOfAKind _ => chk in_u64 (3 * wager)
  | Straight _ => chk in_u64 (4 * wager)
  | Flush _ => chk in_u64 (6 * wager)
  | FullHouse _ _ => chk in_u64 (9 * wager)
  | FourOfAKind _ => chk in_u64 (25 * wager)
  | StraightFlush Ace => if wager =? MAX_WAGER then Ret 4000 else chk in_u64 (250 * wager)
  | StraightFlush _ => chk in_u64 (50 * wager)
  | _ => Ret 0
  end.

(** The local variables of [main], examples/jacks-or-better.rs:19-104. *)
Record game (R : Type) := mk_game {
  g_lines : list rstring;    (* what [rl] will read *)
  g_out : list printed;      (* what has been printed *)
  g_deck : list card;
  g_hand : list card;
  g_credits : Z;
  g_rng : R
}.
Arguments mk_game {R}.
Arguments g_lines {R}. Arguments g_out {R}. Arguments g_deck {R}. Arguments g_hand {R}.
Arguments g_credits {R}. Arguments g_rng {R}.

(** ["{} {} {} {} {} ({})"] with the hand indexed, lines 46-49 and 64-67 *)
Definition show_hand (hand : list card) (e : eval) : outcome rstring :=
  let! c0 := index hand 0 in
  let! c1 := index hand 1 in
  let! c2 := index hand 2 in
  let! c3 := index hand 3 in
  let! c4 := index hand 4 in
  Ret (card_display c0 ++ lit " " ++ card_display c1 ++ lit " " ++ card_display c2 ++ lit " "
       ++ card_display c3 ++ lit " " ++ card_display c4 ++ lit " (" ++ eval_display e ++ lit ")").

(** How a turn of [main]'s ['game] loop ends. *)
Inductive turn := Break | Again.

(** examples/jacks-or-better.rs:34-103, one turn of the ['game] loop *)
Definition game_turn {R} (gen : R -> nat -> nat * R)
    (iter_order : list (Z * nat) -> list (Z * nat)) (ev : evaluator) (g : game R) :
    outcome (turn * game R) :=
  (* 36-40 *)
  match get_wager (g_credits g) (g_lines g) (g_out g) with
  | (None, lines, out) =>
      Ret (Break, mk_game lines out (g_deck g) (g_hand g) (g_credits g) (g_rng g))
  | (Some wager, lines, out) =>
      let! credits := chk in_u64 (g_credits g - wager) in
      (* 43-49 *)
      let! drained := drain_front 5 (g_deck g) in
      let (dealt, deck) := drained in
      let hand := g_hand g ++ dealt in
      let! r := evaluate ev hand in
      let! first_eval := unwrap r in
      let out := out ++ [Clear] in
      let! text := show_hand hand first_eval in
      let out := out ++ [Line [] (text ++ newline ++ lit " (1)    (2)    (3)    (4)    (5)")] in
      (* 52-55 *)
      let! answer := get_swaps iter_order lines out in
      match answer with
      | (None, lines, out) => Ret (Break, mk_game lines out deck hand credits (g_rng g))
      | (Some swaps, lines, out) =>
          (* 58-60 *)
          let! swapped :=
            match swaps with
            | [] => Ret (deck, hand, g_rng g)
            | _ => swap_cards gen swaps deck hand (g_rng g)
            end in
          let '(deck, hand, rng) := swapped in
          (* 63-67 *)
          let! r := evaluate ev hand in
          let! second_eval := unwrap r in
          let! text := show_hand hand second_eval in
          let out := out ++ [Line [] text] in
          (* 70-78 *)
          let out :=
            match class_cmp (eval_class_of second_eval) (eval_class_of first_eval) with
            | Gt => out ++ [Line [BrightGreen; Bold] (lit "You got a better hand!")]
            | Lt => out ++ [Line [BrightRed; Bold] (lit "You got a worse hand...")]
            | Eq => out
            end in
          (* 81-91 *)
          let! winnings := payout wager (eval_class_of second_eval) in
          let s := lit "Winnings: " ++ show winnings in
          let! settled :=
            if 0 <? winnings then
              let! back := chk in_u64 (wager + winnings) in
              let! credits := chk in_u64 (credits + back) in
              Ret (credits, Line [BrightGreen; Bold] s)
            else Ret (credits, Line [BrightRed; Bold] s) in
          let (credits, winnings_string) := settled in
          let out := out ++ [winnings_string] in
          (* 92-95 *)
          if credits =? 0 then
            Ret (Break, mk_game lines (out ++ [Line [BrightRed; Bold] (lit "Game over!")])
                          deck hand credits rng)
          else
            (* 98-100 *)
            let out := out ++ [Line [] []] in
            let deck := deck ++ hand in
            let! shuffled := shuffle gen deck rng in
            let (deck, rng) := shuffled in
            Ret (Again, mk_game lines out deck [] credits rng)
      end
  end.

(** The ['game] loop; every turn that loops back has read at least two lines. *)
Fixpoint game_loop {R} (gen : R -> nat -> nat * R) iter_order (ev : evaluator) (fuel : nat)
    (g : game R) : outcome (game R) :=
  match fuel with
  | O => OutOfFuel
  | S fuel' =>
      let! p := game_turn gen iter_order ev g in
      match p with
      | (Break, g') => Ret g'
      | (Again, g') => game_loop gen iter_order ev fuel' g'
      end
  end.

(** examples/jacks-or-better.rs:19-32 [main] up to the loop.  [thread_rng()] and the
    [thread_rng()] inside [deck::shuffled] are handles of the same generator. *)
Definition game_start {R} (gen : R -> nat -> nat * R) (lines : list rstring) (rng : R) :
    outcome (evaluator * game R) :=
  let! ev := evaluator_new in
  let! shuffled := shuffled_with gen rng in
  let (deck, rng) := shuffled in
  Ret (ev, mk_game lines [Clear; Line [BrightGreen; Bold] JACKS_WELCOME] deck []
             STARTING_CREDITS rng).

(** examples/jacks-or-better.rs:19-104 [main] *)
Definition jacks_main {R} (gen : R -> nat -> nat * R) iter_order (lines : list rstring) (rng : R) :
    outcome (game R) :=
  let! start := game_start gen lines rng in
  game_loop gen iter_order (fst start) (S (length lines)) (snd start).

(** ** poker-repl *)

(** examples/poker-repl.rs:48-59 *)
Definition REPL_WELCOME : rstring :=
  lit "Welcome to the poker hand REPL!" ++ newline
  ++ lit "For help, enter " ++ quote ++ lit "help" ++ quote ++ lit ". To quit, enter "
  ++ quote ++ lit "quit" ++ quote ++ lit " or press CTRL+C.".
Definition HELP : rstring :=
  newline
  ++ lit "Enter a list of 5 or more space-separated cards to be evaluated as a hand." ++ newline
  ++ lit "Cards are two character strings, where the first character represents" ++ newline
  ++ lit "the card rank, and the second character represents the card suit." ++ newline
  ++ newline
  ++ lit "Valid ranks: one of [23456789TJQKA]" ++ newline
  ++ lit "Valid suits: one of [chsd]" ++ newline
  ++ newline
  ++ lit "Example: poker> Tc Jc Qc Kc Ac" ++ newline.

(** examples/poker-repl.rs:25-36 *)
Definition repl_style (c : eval_class) : list style :=
  match c with
  | HighCard _ => [BrightRed]
  | Pair _ => [BrightMagenta]
  | TwoPair _ _ => [BrightMagenta]
  | ThreeOfAKind _ => [BrightYellow]
  | Straight _ => [BrightCyan]
  | Flush _ => [BrightBlue]
  | FullHouse _ _ => [BrightWhite]
  | FourOfAKind _ => [BrightWhite; Italic]
  | StraightFlush _ => [BrightWhite; Underline]
  end.

(** examples/poker-repl.rs:13-44, the [while let] loop.  [history] is rustyline's
    [add_history_entry] ([Ok] or [Err]) over an arbitrary state; its result is unwrapped. *)
Fixpoint repl_loop {H} (history : H -> rstring -> result H unit)
    (iter_order : list (card * nat) -> list (card * nat)) (ev : evaluator)
    (lines : list rstring) (h : H) (out : list printed) : outcome (list printed) :=
  match lines with
  | [] => Ret out
  | line :: lines' =>
      let! h := unwrap (history h line) in
      if str_eqb line (lit "help") then
        repl_loop history iter_order ev lines' h (out ++ [Line [BrightGreen; Bold] HELP])
      else if str_eqb line (lit "quit") then Ret out
      else
        match try_collect (cards_macro_text line) with
        | Ok cards =>
            let! r := evaluate ev cards in
            match r with
            | Ok result =>
                repl_loop history iter_order ev lines' h
                  (out ++ [Line (repl_style (eval_class_of result)) (eval_display result)])
            | Err e =>
                repl_loop history iter_order ev lines' h
                  (out ++ [Line [] (eval_error_display iter_order e)])
            end
        | Err e =>
            repl_loop history iter_order ev lines' h
              (out ++ [Line [] (parse_card_error_display e)])
        end
  end.

(** examples/poker-repl.rs:6-45 [main] *)
Definition repl_main {H} (history : H -> rstring -> result H unit) iter_order
    (lines : list rstring) (h : H) : outcome (list printed) :=
  let! ev := evaluator_new in
  repl_loop history iter_order ev lines h [Line [BrightGreen; Bold] REPL_WELCOME].
