(** ModelInteract.v: the example programs as they talk to the terminal, one line read and one thing printed
    at a time.

    ModelExamples.v takes all input lines beforehand and collects all output.  Here the program is a tree
    of what it does next, so that the answers may depend on what was printed, never end, or come after a
    failure of standard output.  [rl.readline(PROMPT)] is one step (it draws the prompt by itself); so is
    each [println!] and [print!], which panics if standard output fails. *)
From Coq Require Import String.
From Verif Require Import Base ModelCard ModelEval ModelTable ModelEvaluation ModelExamples.
Local Open Scope Z_scope.

(** What a program does next.  [Unfinished]: the fuel given for its loops is used up. *)
Inductive prog (A : Type) :=
| Return (a : A)
| Panics (p : panic)
| Unfinished
| Read (k : option rstring -> prog A)
| Print (p : printed) (k : prog A).
Arguments Return {A}. Arguments Panics {A}. Arguments Unfinished {A}. Arguments Read {A}. Arguments Print {A}.
Fixpoint and_next {A B} (p : prog A) (f : A -> prog B) : prog B :=
  match p with
  | Return a => f a
  | Panics e => Panics e
  | Unfinished => Unfinished
  | Read k => Read (fun l => and_next (k l) f)
  | Print x k => Print x (and_next k f)
  end.
Notation "'let?' x ':=' p 'in' q" := (and_next p (fun x => q)) (at level 200, x name, right associativity).
Notation "'let?' ' x ':=' p 'in' q" := (and_next p (fun y => let 'x := y in q)) (at level 200, x pattern, right associativity).
(** What neither reads nor prints *)
Definition pure {A} (x : outcome A) : prog A :=
  match x with Ret a => Return a | Panic e => Panics e | OutOfFuel => Unfinished end.

(** The world outside: whether [readline] gives a line ([None]: [Err]), and whether standard output takes
    what is printed. *)
Record world (W : Type) := mk_world {
  w_read : W -> option rstring * W;
  w_print : W -> printed -> bool * W
}.
Arguments mk_world {W}. Arguments w_read {W}. Arguments w_print {W}.
(** How a run ends; [Broken]: the panic of [println!] *)
Inductive ended (A : Type) := Finished (a : A) | Panicked (p : panic) | Broken | Going.
Arguments Finished {A}. Arguments Panicked {A}. Arguments Broken {A}. Arguments Going {A}.
Fixpoint exec {W A} (o : world W) (p : prog A) (w : W) : W * ended A :=
  match p with
  | Return a => (w, Finished a)
  | Panics e => (w, Panicked e)
  | Unfinished => (w, Going)
  | Read k => let (l, w) := w_read o w in exec o (k l) w
  | Print x k => let (ok, w) := w_print o w x in if ok then exec o k w else (w, Broken)
  end.

(** ** jacks-or-better *)
(** examples/jacks-or-better.rs:118-161 [get_wager] *)
Fixpoint ask_wager (fuel : nat) (credits : Z) : prog (option Z) :=
  match fuel with
  | O => Unfinished
  | S fuel' =>
      Print (wager_message credits)
        (Read (fun answer =>
           match answer with
           | None => Return None
           | Some input =>
               if str_eqb input (lit "quit") then Return None
               else
                 match parse_usize input with
                 | None =>
                     Print (Line [] (lit "Invalid input '" ++ input ++ lit "'. Expected wager from 1 to "
                                     ++ show MAX_WAGER ++ lit "." ++ newline)) (ask_wager fuel' credits)
                 | Some x =>
                     if x =? 0 then
                       Print (Line [] (lit "Sorry, you can't bet 0 credits!" ++ newline)) (ask_wager fuel' credits)
                     else if MAX_WAGER <? x then
                       Print (Line [] (lit "Invalid wager amount '" ++ show x
                                       ++ lit "'. Expected amount from 1 to " ++ show MAX_WAGER
                                       ++ lit "." ++ newline)) (ask_wager fuel' credits)
                     else if credits <? x then
                       Print (Line [] (lit "Not enough credits! Got " ++ show x ++ lit " but you have "
                                       ++ show credits ++ lit "." ++ newline)) (ask_wager fuel' credits)
                     else Return (Some x)
                 end
           end))
  end.
(** examples/jacks-or-better.rs:165-231 [get_swaps] *)
Fixpoint ask_swaps (fuel : nat) (iter_order : list (Z * nat) -> list (Z * nat)) : prog (option (list Z)) :=
  match fuel with
  | O => Unfinished
  | S fuel' =>
      Print swaps_message
        (Read (fun answer =>
           match answer with
           | None => Return None
           | Some input =>
               if str_eqb input (lit "quit") then Return None
               else
                 match parse_all (split_whitespace input) with
                 | None =>
                     Print (Line [] (lit "Error parsing input '" ++ input
                               ++ lit "'. Expected space-separated list of card numbers to swap."
                               ++ newline)) (ask_swaps fuel' iter_order)
                 | Some swaps =>
                     if negb (forallb (fun num => (1 <=? num) && (num <=? 5)) swaps) then
                       Print (Line [] (lit "Error parsing input '" ++ input
                                 ++ lit "'. Not all listed numbers are between 1 and 5." ++ newline))
                         (ask_swaps fuel' iter_order)
                     else if negb (Nat.leb (length swaps) 5) then
                       Print (Line [] (lit "Error parsing input '" ++ input
                                 ++ lit "'. Specified more than 5 cards to swap." ++ newline))
                         (ask_swaps fuel' iter_order)
                     else if negb (all_inserted [] swaps) then
                       let counts :=
                         flat_map (fun p => if Nat.ltb 1 (snd p) then [show (fst p)] else [])
                           (iter_order (counts Z.eqb swaps)) in
                       Print (Line [] (lit "Cannot provide duplicate cards to swap: "
                                 ++ join (lit " ") counts ++ lit "." ++ newline))
                         (ask_swaps fuel' iter_order)
                     else
                       let? indices := pure (mapM (fun x => chk in_u64 (x - 1)) swaps) in
                       Return (Some indices)
                 end
           end))
  end.

(** The local variables of [main], examples/jacks-or-better.rs:19-104, but for [rl] and [eval] *)
Record table (R : Type) := mk_table { t_deck : list card; t_hand : list card; t_credits : Z; t_rng : R }.
Arguments mk_table {R}. Arguments t_deck {R}. Arguments t_hand {R}. Arguments t_credits {R}. Arguments t_rng {R}.

(** examples/jacks-or-better.rs:34-103, one turn of the ['game] loop *)
Definition play_turn {R} (fuel : nat) (gen : R -> nat -> nat * R)
    (iter_order : list (Z * nat) -> list (Z * nat)) (ev : evaluator) (g : table R) :
    prog (turn * table R) :=
  (* 36-40 *)
  let? answer := ask_wager fuel (t_credits g) in
  match answer with
  | None => Return (Break, g)
  | Some wager =>
      let? credits := pure (chk in_u64 (t_credits g - wager)) in
      (* 43-49 *)
      let? 'drained := pure (drain_front 5 (t_deck g)) in
      let (dealt, deck) := drained in
      let hand := t_hand g ++ dealt in
      let? r := pure (evaluate ev hand) in
      let? first_eval := pure (unwrap r) in
      Print Clear
      (let? text := pure (show_hand hand first_eval) in
      Print (Line [] (text ++ newline ++ lit " (1)    (2)    (3)    (4)    (5)"))
      (* 52-55 *)
      (let? answer := ask_swaps fuel iter_order in
      match answer with
      | None => Return (Break, mk_table deck hand credits (t_rng g))
      | Some swaps =>
          (* 58-60 *)
          let? 'swapped :=
            pure (match swaps with
                  | [] => Ret (deck, hand, t_rng g)
                  | _ => swap_cards gen swaps deck hand (t_rng g)
                  end) in
          let '(deck, hand, rng) := swapped in
          (* 63-67 *)
          let? r := pure (evaluate ev hand) in
          let? second_eval := pure (unwrap r) in
          let? text := pure (show_hand hand second_eval) in
          Print (Line [] text)
          (* 70-78 *)
          (let? _ :=
            match class_cmp (eval_class_of second_eval) (eval_class_of first_eval) with
            | Gt => Print (Line [BrightGreen; Bold] (lit "You got a better hand!")) (Return tt)
            | Lt => Print (Line [BrightRed; Bold] (lit "You got a worse hand...")) (Return tt)
            | Eq => Return tt
            end in
          (* 81-91 *)
          let? winnings := pure (payout wager (eval_class_of second_eval)) in
          let s := lit "Winnings: " ++ show winnings in
          let? settled :=
            pure (if 0 <? winnings then
                    let! back := chk in_u64 (wager + winnings) in
                    let! credits := chk in_u64 (credits + back) in
                    Ret (credits, Line [BrightGreen; Bold] s)
                  else Ret (credits, Line [BrightRed; Bold] s)) in
          let (credits, winnings_string) := settled in
          Print winnings_string
          (* 92-95 *)
          (if credits =? 0 then
            Print (Line [BrightRed; Bold] (lit "Game over!")) (Return (Break, mk_table deck hand credits rng))
          else
            (* 98-100 *)
            Print (Line [] [])
            (let? shuffled := pure (shuffle gen (deck ++ hand) rng) in
             let (deck, rng) := shuffled in
             Return (Again, mk_table deck [] credits rng))))
      end))
  end.
(** The ['game] loop *)
Fixpoint play_loop {R} (fuel : nat) (gen : R -> nat -> nat * R) iter_order (ev : evaluator) (g : table R) :
    prog (table R) :=
  match fuel with
  | O => Unfinished
  | S fuel' =>
      let? p := play_turn fuel gen iter_order ev g in
      match p with
      | (Break, g') => Return g'
      | (Again, g') => play_loop fuel' gen iter_order ev g'
      end
  end.
(** examples/jacks-or-better.rs:19-104 [main].  Simplified: the editor can always be created. *)
Definition play {R} (fuel : nat) (gen : R -> nat -> nat * R) iter_order (rng : R) : prog (table R) :=
  Print Clear
  (let? ev := pure evaluator_new in
  Print (Line [BrightGreen; Bold] JACKS_WELCOME)
  (let? shuffled := pure (shuffled_with gen rng) in
  let (deck, rng) := shuffled in
  play_loop fuel gen iter_order ev (mk_table deck [] STARTING_CREDITS rng))).

(** ** poker-repl *)
(** examples/poker-repl.rs:13-44, the [while let] loop *)
Fixpoint serve {H} (fuel : nat) (history : H -> rstring -> result H unit)
    (iter_order : list (card * nat) -> list (card * nat)) (ev : evaluator) (h : H) : prog unit :=
  match fuel with
  | O => Unfinished
  | S fuel' =>
      Read (fun answer =>
        match answer with
        | None => Return tt
        | Some line =>
            let? h := pure (unwrap (history h line)) in
            if str_eqb line (lit "help") then
              Print (Line [BrightGreen; Bold] HELP) (serve fuel' history iter_order ev h)
            else if str_eqb line (lit "quit") then Return tt
            else
              match try_collect (cards_macro_text line) with
              | Ok cards =>
                  let? r := pure (evaluate ev cards) in
                  match r with
                  | Ok result =>
                      Print (Line (repl_style (eval_class_of result)) (eval_display result))
                        (serve fuel' history iter_order ev h)
                  | Err e => Print (Line [] (eval_error_display iter_order e)) (serve fuel' history iter_order ev h)
                  end
              | Err e => Print (Line [] (parse_card_error_display e)) (serve fuel' history iter_order ev h)
              end
        end)
  end.
(** examples/poker-repl.rs:6-45 [main] *)
Definition repl {H} (fuel : nat) (history : H -> rstring -> result H unit) iter_order (h : H) : prog unit :=
  let? ev := pure evaluator_new in
  Print (Line [BrightGreen; Bold] REPL_WELCOME) (serve fuel history iter_order ev h).
