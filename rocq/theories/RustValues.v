(** RustValues.v: how the types of the model are written as values of the interpreter. *)
From Coq Require Import String.
From Verif Require Import Base ModelCard ModelEval ModelTable ModelEvaluation RustSyntax RustSemantics.
Local Open Scope string_scope.
Local Open Scope list_scope.

(** What the model's code gives, as what the interpreter gives *)
Definition lift {A B} (f : A -> B) (m : outcome A) : res B :=
  match m with Ret a => Val (f a) | Panic p => Panics p | OutOfFuel => NoFuel end.

(** src/card/rank.rs:12-26 *)
Definition rank_value (r : rank) : value :=
  VCon (match r with
        | Two => "Rank::Two" | Three => "Rank::Three" | Four => "Rank::Four" | Five => "Rank::Five"
        | Six => "Rank::Six" | Seven => "Rank::Seven" | Eight => "Rank::Eight" | Nine => "Rank::Nine"
        | Ten => "Rank::Ten" | Jack => "Rank::Jack" | Queen => "Rank::Queen" | King => "Rank::King"
        | Ace => "Rank::Ace"
        end) [].
(** src/card/suit.rs:9-14 *)
Definition suit_value (s : suit) : value :=
  VCon (match s with
        | Clubs => "Suit::Clubs" | Hearts => "Suit::Hearts" | Spades => "Suit::Spades"
        | Diamonds => "Suit::Diamonds"
        end) [].
(** src/card/mod.rs:95-98 *)
Definition card_value (c : card) : value := VCon "Card" [("unique_integer", VInt I32 (unique_integer c))].
(** A slice or an array of cards *)
Definition cards_value (l : list card) : value := VList (map card_value l).
(** src/evaluate/hand_rank.rs:7-8 *)
Definition hand_rank_value (h : poker_hand_rank) : value := VCon "PokerHandRank" [("0", VInt I16 (phr h))].
(** src/evaluate/class.rs:29-81 *)
Definition class_value (c : eval_class) : value :=
  match c with
  | HighCard h => VCon "EvalClass::HighCard" [("high_rank", rank_value h)]
  | Pair p => VCon "EvalClass::Pair" [("pair", rank_value p)]
  | TwoPair a b => VCon "EvalClass::TwoPair" [("first_pair", rank_value a); ("second_pair", rank_value b)]
  | ThreeOfAKind t => VCon "EvalClass::ThreeOfAKind" [("trips", rank_value t)]
  | Straight h => VCon "EvalClass::Straight" [("high_rank", rank_value h)]
  | Flush h => VCon "EvalClass::Flush" [("high_rank", rank_value h)]
  | FullHouse t p => VCon "EvalClass::FullHouse" [("trips", rank_value t); ("pair", rank_value p)]
  | FourOfAKind q => VCon "EvalClass::FourOfAKind" [("quads", rank_value q)]
  | StraightFlush h => VCon "EvalClass::StraightFlush" [("high_rank", rank_value h)]
  end.
(** src/evaluate/meta.rs:12-51 *)
Definition meta_value (m : meta) : value :=
  match m with
  | MHighCard n h => VCon "Meta::HighCard" [("hand_rank", hand_rank_value n); ("high_rank", rank_value h)]
  | MPair n p => VCon "Meta::Pair" [("hand_rank", hand_rank_value n); ("pair", rank_value p)]
  | MTwoPair n a b =>
      VCon "Meta::TwoPair" [("hand_rank", hand_rank_value n); ("high_pair", rank_value a); ("low_pair", rank_value b)]
  | MThreeOfAKind n t => VCon "Meta::ThreeOfAKind" [("hand_rank", hand_rank_value n); ("trips", rank_value t)]
  | MStraight n h => VCon "Meta::Straight" [("hand_rank", hand_rank_value n); ("high_rank", rank_value h)]
  | MFlush n h => VCon "Meta::Flush" [("hand_rank", hand_rank_value n); ("high_rank", rank_value h)]
  | MFullHouse n t p =>
      VCon "Meta::FullHouse" [("hand_rank", hand_rank_value n); ("trips", rank_value t); ("pair", rank_value p)]
  | MFourOfAKind n q => VCon "Meta::FourOfAKind" [("hand_rank", hand_rank_value n); ("quads", rank_value q)]
  | MStraightFlush n h => VCon "Meta::StraightFlush" [("hand_rank", hand_rank_value n); ("high_rank", rank_value h)]
  end.
(** src/evaluate/eval.rs:58-59 *)
Definition eval_value (e : ModelEval.eval) : value := VCon "Eval" [("0", meta_value (eval_meta e))].
(** [Result], [Option] *)
Definition ok_value (v : value) : value := VCon "Ok" [("0", v)].
Definition err_value (v : value) : value := VCon "Err" [("0", v)].
Definition result_value {A E} (f : A -> value) (g : E -> value) (r : Base.result A E) : value :=
  match r with Ok a => ok_value (f a) | Err e => err_value (g e) end.
Definition option_value {A} (f : A -> value) (o : option A) : value :=
  match o with Some a => some_value (f a) | None => none end.
(** src/error.rs:66-98, 178-185 *)
Definition parse_error_value (e : parse_card_error) : value :=
  match e with
  | InvalidLength s => VCon "ParseCardError::InvalidLength" [("original_input", VStr s)]
  | InvalidRank s c => VCon "ParseCardError::InvalidRank" [("original_input", VStr s); ("incorrect_char", VChr c)]
  | InvalidSuit s c => VCon "ParseCardError::InvalidSuit" [("original_input", VStr s); ("incorrect_char", VChr c)]
  end.
Definition eval_error_value (e : eval_error) : value :=
  match e with
  | CardsNotUnique l => VCon "EvalError::CardsNotUnique" [("0", cards_value l)]
  | InvalidHandSize n => VCon "EvalError::InvalidHandSize" [("0", VInt Usize (Z.of_nat n))]
  end.
(** src/evaluate/lookup_table.rs:22-25, src/evaluate/mod.rs:76-77 *)
Definition table_value (t : lookup_table) : value :=
  VCon "LookupTable" [("flush_lookup", VMap (PositiveMap.map meta_value (flush_lookup t)));
                      ("unsuited_lookup", VMap (PositiveMap.map meta_value (unsuited_lookup t)))].
Definition evaluator_value (e : evaluator) : value := VCon "Evaluator" [("0", table_value (evaluator_table e))].
(** src/evaluate/utils.rs:11-15, 60-64 *)
Definition combinations_value {T} (f : T -> value) (c : combinations T) : value :=
  VCon "Combinations" [("data", VList (map f (cb_data c))); ("indices", VInts Usize (map Z.of_nat (cb_indices c)));
                       ("done", VBool (cb_done c)); ("N", VInt Usize (Z.of_nat (length (cb_indices c))))].
Definition bit_sequence_value (b : bit_sequence) : value :=
  VCon "BitSequence" [("bits", VInt I16 (bs_bits b)); ("t", VInt I16 (bs_t b)); ("next_bits", VInt I16 (bs_next_bits b))].
