(** SpecExamples.v: vocabulary of the statements about the two example programs.  Definitions
    only; texts and rules are written out here rather than taken from the model. *)
From Coq Require Import List String ZArith Permutation.
From Verif Require Import Base ModelCard ModelEval ModelTable ModelEvaluation ModelExamples.
From Verif Require Import Spec SpecApi SpecText.
Import ListNotations.
Local Open Scope Z_scope.

(** ** Numbers typed by the player *)

(** Decimal notation: one or more ASCII digits, most significant first. *)
Inductive decimal : rstring -> Z -> Prop :=
| decimal_digit d : (d < 10)%N -> decimal [(48 + d)%N] (Z.of_N d)
| decimal_more s n d : decimal s n -> (d < 10)%N ->
    decimal (s ++ [(48 + d)%N]) (10 * n + Z.of_N d).
(** What the standard library reads as a [usize]: decimal, perhaps with one [+] in front, and
    below 2^64. *)
Definition number (s : rstring) (n : Z) : Prop :=
  n < 2 ^ 64 /\ (decimal s n \/ exists s', s = 43%N :: s' /\ decimal s' n).

(** ** Answers of the player

    [answers_with ok lines a rest]: of [lines], some are refused, and then comes the end of the
    input or the line "quit" ([a = None]), or the first acceptable line ([a = Some _]);
    [rest] is what has not been read. *)
Definition refused {A} (ok : rstring -> A -> Prop) (l : rstring) : Prop :=
  l <> lit "quit" /\ forall a, ~ ok l a.
Inductive answers_with {A} (ok : rstring -> A -> Prop) :
    list rstring -> list rstring -> option A -> list rstring -> Prop :=
| answer_end : answers_with ok [] [] None []
| answer_quit rest : answers_with ok (lit "quit" :: rest) [] None rest
| answer_ok l a rest : l <> lit "quit" -> ok l a -> answers_with ok (l :: rest) [] (Some a) rest
| answer_refused l lines bad a rest : refused ok l -> answers_with ok lines bad a rest ->
    answers_with ok (l :: lines) (l :: bad) a rest.

(** A wager: a number from 1 to 5, not more than the credits. *)
Definition wager_ok (credits : Z) (l : rstring) (w : Z) : Prop :=
  number l w /\ 1 <= w <= 5 /\ w <= credits.
(** Positions to swap: different numbers from 1 to 5, separated by whitespace; the position is
    the number minus one. *)
Definition swaps_ok (l : rstring) (is : list Z) : Prop :=
  exists words ns, splits l words /\ Forall2 number words ns
    /\ Forall (fun n => 1 <= n <= 5) ns /\ NoDup ns /\ is = map (fun n => n - 1) ns.

(** What is said about a refused line. *)
Definition tell (s : rstring) : printed := Line [] (s ++ [10%N]).
Inductive wager_complaint (credits : Z) (l : rstring) : printed -> Prop :=
| not_a_number : (forall n, ~ number l n) ->
    wager_complaint credits l
      (tell (lit "Invalid input '" ++ l ++ lit "'. Expected wager from 1 to 5."))
| bet_nothing : number l 0 ->
    wager_complaint credits l (tell (lit "Sorry, you can't bet 0 credits!"))
| bet_too_high n : number l n -> 5 < n ->
    wager_complaint credits l
      (tell (lit "Invalid wager amount '" ++ show n ++ lit "'. Expected amount from 1 to 5."))
| bet_too_poor n : number l n -> credits < n <= 5 ->
    wager_complaint credits l
      (tell (lit "Not enough credits! Got " ++ show n ++ lit " but you have " ++ show credits
             ++ lit ".")).
Inductive swaps_complaint (l : rstring) : printed -> Prop :=
| not_numbers words w : splits l words -> In w words -> (forall n, ~ number w n) ->
    swaps_complaint l
      (tell (lit "Error parsing input '" ++ l
             ++ lit "'. Expected space-separated list of card numbers to swap."))
| out_of_range words ns n : splits l words -> Forall2 number words ns ->
    In n ns -> ~ 1 <= n <= 5 ->
    swaps_complaint l
      (tell (lit "Error parsing input '" ++ l
             ++ lit "'. Not all listed numbers are between 1 and 5."))
| too_many words ns : splits l words -> Forall2 number words ns ->
    Forall (fun n => 1 <= n <= 5) ns -> (5 < List.length ns)%nat ->
    swaps_complaint l
      (tell (lit "Error parsing input '" ++ l ++ lit "'. Specified more than 5 cards to swap."))
| repeated words ns dups : splits l words -> Forall2 number words ns ->
    Forall (fun n => 1 <= n <= 5) ns -> (List.length ns <= 5)%nat ->
    NoDup dups -> dups <> [] ->
    (forall n, In n dups <-> (2 <= count_occ Z.eq_dec ns n)%nat) ->
    swaps_complaint l
      (tell (lit "Cannot provide duplicate cards to swap: " ++ spaced (map show dups)
             ++ lit ".")).

(** The prompt, once for every line refused, with its complaint, and once more. *)
Inductive conversation (prompt : printed) (complaint : rstring -> printed -> Prop) :
    list rstring -> list printed -> Prop :=
| conversation_end : conversation prompt complaint [] [prompt]
| conversation_refused l bad p out : complaint l p -> conversation prompt complaint bad out ->
    conversation prompt complaint (l :: bad) (prompt :: p :: out).
Definition green (s : string) : printed := Line [BrightGreen; Bold] (lit s).
Definition red (s : string) : printed := Line [BrightRed; Bold] (lit s).
Definition wager_prompt (credits : Z) : printed :=
  Line [BrightGreen; Bold] (lit "Enter a wager. (Credits: " ++ show credits ++ lit ", max: 5)").
Definition swaps_prompt : printed := green "Enter the cards' numbers you wish to swap, if any.".

(** ** The game *)
Definition jacks_welcome : rstring := lit
"Welcome to Jacks or Better video poker!
To quit, enter ""quit"" or press CTRL+C.
".

(** A payout: the bet multiple published in README.md. *)
Definition chart (c : eval_class) : Z :=
  match c with
  | StraightFlush Ace => 4000
  | StraightFlush _ => 250
  | FourOfAKind _ => 25
  | FullHouse _ _ => 9
  | Flush _ => 6
  | Straight _ => 4
  | ThreeOfAKind _ => 3
  | TwoPair _ _ => 2
  | Pair p => if Nat.leb 11 (pips p) then 1 else 0
  | HighCard _ => 0
  end.
(** What the program pays on a wager from 1 to 5: the chart, except 50 times the wager for a
    straight flush, and for a royal flush 250 times the wager or 4000 credits in all for 5. *)
Definition pays (w : Z) (c : eval_class) : Z :=
  match c with
  | StraightFlush Ace => if w =? 5 then 4000 else 250 * w
  | StraightFlush _ => 50 * w
  | _ => chart c * w
  end.
(** The credits after a round. *)
Definition settle (credits w : Z) (c : eval_class) : Z :=
  if pays w c =? 0 then credits - w else credits + pays w c.

(** [h2] is [h1] with the cards at the positions [is] replaced by cards that are either new
    (from [deck]) or among those given away. *)
Definition redrawn (deck h1 : list card) (is : list Z) (h2 : list card) : Prop :=
  List.length h2 = List.length h1
  /\ forall n c, nth_error h2 n = Some c ->
       if in_dec Z.eq_dec (Z.of_nat n) is
       then In c deck \/ exists i, In i is /\ nth_error h1 (Z.to_nat i) = Some c
       else nth_error h1 n = Some c.

(** Positions of a hand, each at most once. *)
Definition positions (hand : list card) (is : list Z) : Prop :=
  NoDup is /\ Forall (fun i => 0 <= i < Z.of_nat (List.length hand)) is.
(** [cs] are the cards of [hand] at the positions [is], in that order. *)
Definition at_positions (hand : list card) (is : list Z) (cs : list card) : Prop :=
  Forall2 (fun i c => nth_error hand (Z.to_nat i) = Some c) is cs.

(** The line showing a hand. *)
Definition hand_text (h : list card) (e : eval) : rstring :=
  concat (map (fun c => card_display c ++ lit " ") h) ++ lit "(" ++ eval_display e ++ lit ")".
Definition verdict (e1 e2 : eval) : list printed :=
  match class_cmp (eval_class_of e2) (eval_class_of e1) with
  | Gt => [green "You got a better hand!"]
  | Lt => [red "You got a worse hand..."]
  | Eq => []
  end.
Definition winnings (w : Z) : printed :=
  Line [if w =? 0 then BrightRed else BrightGreen; Bold] (lit "Winnings: " ++ show w).

(** All 52 cards are in [hand] and [deck], each once. *)
Definition all_52 {R} (g : game R) : Prop := Permutation (g_hand g ++ g_deck g) deck_generate.
(** Between rounds. *)
Definition between {R} (g : game R) : Prop :=
  all_52 g /\ g_hand g = [] /\ 1 <= g_credits g < 2 ^ 64.

(** A random generator asked for an index below [n > 0] answers with one. *)
Definition fair {R} (gen : R -> nat -> nat * R) : Prop :=
  forall rng n, (0 < n)%nat -> (fst (gen rng n) < n)%nat.
Definition reorders {A} (order : list A -> list A) : Prop := forall l, Permutation (order l) l.

(** What a round does to the credits. *)
Inductive entry :=
| Left                                 (* left at the wager prompt *)
| Forfeit (w : Z)                      (* left after betting *)
| Played (w : Z) (c : eval_class).     (* wager and class of the final hand *)
Definition after (credits : Z) (x : entry) : Z :=
  match x with
  | Left => credits
  | Forfeit w => credits - w
  | Played w c => settle credits w c
  end.

(** One turn of the loop from [g] to [g'], as seen by the player. *)
Definition numbers_line : rstring := lit " (1)    (2)    (3)    (4)    (5)".
Inductive round {R} (ev : evaluator) (g : game R) : entry -> turn -> game R -> Prop :=
| left_at_wager bad out g' :
    answers_with (wager_ok (g_credits g)) (g_lines g) bad None (g_lines g') ->
    conversation (wager_prompt (g_credits g)) (wager_complaint (g_credits g)) bad out ->
    g_out g' = g_out g ++ out ->
    g_credits g' = after (g_credits g) Left ->
    g_hand g' = [] -> g_deck g' = g_deck g ->
    round ev g Left Break g'
| left_at_swaps bad w rest h1 e1 bad' out out' g' :
    answers_with (wager_ok (g_credits g)) (g_lines g) bad (Some w) rest ->
    conversation (wager_prompt (g_credits g)) (wager_complaint (g_credits g)) bad out ->
    g_deck g = h1 ++ g_deck g' -> hand5 h1 -> evaluates ev h1 e1 ->
    answers_with swaps_ok rest bad' None (g_lines g') ->
    conversation swaps_prompt swaps_complaint bad' out' ->
    g_out g' = g_out g ++ out
      ++ [Clear; Line [] (hand_text h1 e1 ++ [10%N] ++ numbers_line)] ++ out' ->
    g_credits g' = after (g_credits g) (Forfeit w) -> g_hand g' = h1 ->
    round ev g (Forfeit w) Break g'
| played bad w rest h1 e1 deck1 bad' is out out' h2 e2 t g' :
    answers_with (wager_ok (g_credits g)) (g_lines g) bad (Some w) rest ->
    conversation (wager_prompt (g_credits g)) (wager_complaint (g_credits g)) bad out ->
    g_deck g = h1 ++ deck1 -> hand5 h1 -> evaluates ev h1 e1 ->
    answers_with swaps_ok rest bad' (Some is) (g_lines g') ->
    conversation swaps_prompt swaps_complaint bad' out' ->
    redrawn deck1 h1 is h2 -> hand5 h2 -> evaluates ev h2 e2 ->
    g_credits g' = after (g_credits g) (Played w (eval_class_of e2)) ->
    (t = Break <-> g_credits g' = 0) ->
    (t = Break -> g_hand g' = h2) -> (t = Again -> g_hand g' = []) ->
    g_out g' = g_out g ++ out
      ++ [Clear; Line [] (hand_text h1 e1 ++ [10%N] ++ numbers_line)]
      ++ out' ++ [Line [] (hand_text h2 e2)] ++ verdict e1 e2
      ++ [winnings (pays w (eval_class_of e2))]
      ++ [if g_credits g' =? 0 then red "Game over!" else Line [] []] ->
    round ev g (Played w (eval_class_of e2)) t g'.

(** From the start of a round to the end of the program. *)
Inductive session {R} (ev : evaluator) : game R -> list entry -> game R -> Prop :=
| session_last g x g' : round ev g x Break g' -> session ev g [x] g'
| session_more g x g1 l g' : round ev g x Again g1 -> session ev g1 l g' ->
    session ev g (x :: l) g'.

(** Some rounds after each of which the program goes on. *)
Inductive so_far {R} (ev : evaluator) : game R -> list entry -> game R -> Prop :=
| so_far_none g : so_far ev g [] g
| so_far_more g x g1 l g' : round ev g x Again g1 -> so_far ev g1 l g' -> so_far ev g (x :: l) g'.

(** A sequence of rounds that can be booked, starting with [credits]: wagers are from 1 to 5 and
    covered, only the last round is left unfinished, and a finished round is the last exactly when
    it leaves no credits. *)
Fixpoint booked (credits : Z) (l : list entry) : Prop :=
  match l with
  | [] => False
  | Left :: l' => 1 <= credits /\ l' = []
  | Forfeit w :: l' => 1 <= w <= 5 /\ w <= credits /\ l' = []
  | Played w c :: l' =>
      1 <= w <= 5 /\ w <= credits
      /\ if settle credits w c =? 0 then l' = [] else booked (settle credits w c) l'
  end.

(** ** The REPL *)

(** How the program prints a hand of each category ([bright_purple] is another name of
    [bright_magenta]: pair and two pair look alike). *)
Definition look (category : nat) : list style :=
  match category with
  | 0%nat => [BrightRed]
  | 1%nat => [BrightMagenta]
  | 2%nat => [BrightMagenta]
  | 3%nat => [BrightYellow]
  | 4%nat => [BrightCyan]
  | 5%nat => [BrightBlue]
  | 6%nat => [BrightWhite]
  | 7%nat => [BrightWhite; Italic]
  | _ => [BrightWhite; Underline]
  end.
(** The fixed texts. *)
Definition repl_welcome : rstring := lit
"Welcome to the poker hand REPL!
For help, enter ""help"". To quit, enter ""quit"" or press CTRL+C.".
Definition help_text : rstring := lit "
Enter a list of 5 or more space-separated cards to be evaluated as a hand.
Cards are two character strings, where the first character represents
the card rank, and the second character represents the card suit.

Valid ranks: one of [23456789TJQKA]
Valid suits: one of [chsd]

Example: poker> Tc Jc Qc Kc Ac
".
(** [replies ev l p]: what is printed for the line [l], which is not "quit". *)
Inductive replies (ev : evaluator) (l : rstring) : printed -> Prop :=
| reply_help : l = lit "help" -> replies ev l (Line [BrightGreen; Bold] help_text)
| reply_hand words cs e : l <> lit "help" ->
    splits l words -> words = map card_text cs -> legal cs -> evaluates ev cs e ->
    replies ev l (Line (look (category (eval_class_of e))) (lit (hand_name (eval_class_of e))))
| reply_few words cs : l <> lit "help" ->
    splits l words -> words = map card_text cs -> all_cards cs -> NoDup cs ->
    (List.length cs < 5)%nat ->
    replies ev l (Line []
      (lit "Cannot evaluate a poker hand with a set of less than 5 cards. Number of cards received: "
       ++ dec (N.of_nat (List.length cs))))
| reply_repeated words cs dups : l <> lit "help" ->
    splits l words -> words = map card_text cs -> all_cards cs -> ~ NoDup cs ->
    NoDup dups -> (forall w, In w dups <-> (2 <= count_occ (list_eq_dec N.eq_dec) words w)%nat) ->
    replies ev l (Line []
      (lit "Cannot evaluate a poker hand with a set of cards that are not unique. Cards duplicated at least once: "
       ++ spaced dups))
| reply_not_a_card cs w more m : l <> lit "help" ->
    splits l (map card_text cs ++ w :: more) -> all_cards cs ->
    card_complaint w m ->
    replies ev l (Line [] m).

(** The lines before the first "quit". *)
Inductive until_quit : list rstring -> list rstring -> Prop :=
| until_end : until_quit [] []
| until_stop rest : until_quit (lit "quit" :: rest) []
| until_line l lines ls : l <> lit "quit" -> until_quit lines ls ->
    until_quit (l :: lines) (l :: ls).
