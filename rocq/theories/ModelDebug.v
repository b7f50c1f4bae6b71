(** ModelDebug.v: the [Debug] ([{:?}]) texts of the API's types, and [Hash] for [Card].

    Written by hand: [Card] (src/card/mod.rs:317-325).  Derived: [Rank], [Suit], [EvalClass],
    [PokerHandRank], [Meta], [Eval], [EvalError].  [ParseCardError] is in
    ModelDebugText.v, [Evaluator] in ModelDebugTree.v. *)
From Coq Require Import String.
From Verif Require Import Base ModelCard ModelEval.
Local Open Scope string_scope.
Local Open Scope list_scope.

(** ** The standard library's builders, [core::fmt::builders] (not in /repo) *)
(** [debug_struct(name).field(..)...finish()] *)
Definition debug_struct (name : rstring) (fields : list (rstring * rstring)) : rstring :=
  name ++ lit " { " ++ join (lit ", ") (map (fun p => fst p ++ lit ": " ++ snd p) fields) ++ lit " }".
(** The same under [{:#?}], for fields whose own text is a single line. *)
Definition debug_struct_pretty (name : rstring) (fields : list (rstring * rstring)) : rstring :=
  name ++ lit " {" ++ [10%N]
  ++ flat_map (fun p => lit "    " ++ fst p ++ lit ": " ++ snd p ++ lit "," ++ [10%N]) fields
  ++ lit "}".
(** [debug_tuple(name).field(v).finish()] *)
Definition debug_tuple (name v : rstring) : rstring := name ++ lit "(" ++ v ++ lit ")".
(** [debug_list().entries(..).finish()] *)
Definition debug_list (l : list rstring) : rstring := lit "[" ++ join (lit ", ") l ++ lit "]".
(** [Debug] of the integer types: decimal, with a sign if negative *)
Definition debug_int (z : Z) : rstring :=
  if (z <? 0)%Z then lit "-" ++ dec (Z.to_N (- z)) else dec (Z.to_N z).

(** src/card/rank.rs:6 derived [Debug] of [Rank] *)
Definition rank_debug (r : rank) : rstring :=
  lit match r with
  | Two => "Two" | Three => "Three" | Four => "Four" | Five => "Five" | Six => "Six"
  | Seven => "Seven" | Eight => "Eight" | Nine => "Nine" | Ten => "Ten" | Jack => "Jack"
  | Queen => "Queen" | King => "King" | Ace => "Ace"
  end.
(** src/card/suit.rs:7 derived [Debug] of [Suit] *)
Definition suit_debug (s : suit) : rstring :=
  lit match s with Clubs => "Clubs" | Hearts => "Hearts" | Spades => "Spades" | Diamonds => "Diamonds" end.

(** src/card/mod.rs:317-325 [Debug for Card] *)
Definition card_debug_fields (c : card) : list (rstring * rstring) :=
  [(lit "unique_integer", debug_int (unique_integer c)); (lit "rank", rank_debug (card_rank c));
   (lit "suit", suit_debug (card_suit c))].
Definition card_debug (c : card) : rstring := debug_struct (lit "Card") (card_debug_fields c).
Definition card_debug_pretty (c : card) : rstring := debug_struct_pretty (lit "Card") (card_debug_fields c).

(** src/card/mod.rs:95 derived [Hash] of [Card]: hashes its one field.  [write_i32] is the arbitrary
    [Hasher]'s operation on its state. *)
Definition card_hash {H} (write_i32 : H -> Z -> H) (c : card) (state : H) : H :=
  write_i32 state (unique_integer c).

(** src/evaluate/class.rs:28 derived [Debug] of [EvalClass] (variants and fields at lines 29-77) *)
Definition class_debug (c : eval_class) : rstring :=
  match c with
  | HighCard r => debug_struct (lit "HighCard") [(lit "high_rank", rank_debug r)]
  | Pair r => debug_struct (lit "Pair") [(lit "pair", rank_debug r)]
  | TwoPair a b => debug_struct (lit "TwoPair") [(lit "first_pair", rank_debug a); (lit "second_pair", rank_debug b)]
  | ThreeOfAKind r => debug_struct (lit "ThreeOfAKind") [(lit "trips", rank_debug r)]
  | Straight r => debug_struct (lit "Straight") [(lit "high_rank", rank_debug r)]
  | Flush r => debug_struct (lit "Flush") [(lit "high_rank", rank_debug r)]
  | FullHouse a b => debug_struct (lit "FullHouse") [(lit "trips", rank_debug a); (lit "pair", rank_debug b)]
  | FourOfAKind r => debug_struct (lit "FourOfAKind") [(lit "quads", rank_debug r)]
  | StraightFlush r => debug_struct (lit "StraightFlush") [(lit "high_rank", rank_debug r)]
  end.

(** src/evaluate/hand_rank.rs:7 derived [Debug] of [PokerHandRank] *)
Definition phr_debug (p : poker_hand_rank) : rstring := debug_tuple (lit "PokerHandRank") (debug_int (phr p)).
(** src/evaluate/meta.rs:11 derived [Debug] of [Meta] (variants and fields at lines 12-51) *)
Definition meta_debug (m : meta) : rstring :=
  match m with
  | MHighCard p r => debug_struct (lit "HighCard") [(lit "hand_rank", phr_debug p); (lit "high_rank", rank_debug r)]
  | MPair p r => debug_struct (lit "Pair") [(lit "hand_rank", phr_debug p); (lit "pair", rank_debug r)]
  | MTwoPair p a b => debug_struct (lit "TwoPair")
      [(lit "hand_rank", phr_debug p); (lit "high_pair", rank_debug a); (lit "low_pair", rank_debug b)]
  | MThreeOfAKind p r => debug_struct (lit "ThreeOfAKind") [(lit "hand_rank", phr_debug p); (lit "trips", rank_debug r)]
  | MStraight p r => debug_struct (lit "Straight") [(lit "hand_rank", phr_debug p); (lit "high_rank", rank_debug r)]
  | MFlush p r => debug_struct (lit "Flush") [(lit "hand_rank", phr_debug p); (lit "high_rank", rank_debug r)]
  | MFullHouse p a b => debug_struct (lit "FullHouse")
      [(lit "hand_rank", phr_debug p); (lit "trips", rank_debug a); (lit "pair", rank_debug b)]
  | MFourOfAKind p r => debug_struct (lit "FourOfAKind") [(lit "hand_rank", phr_debug p); (lit "quads", rank_debug r)]
  | MStraightFlush p r => debug_struct (lit "StraightFlush")
      [(lit "hand_rank", phr_debug p); (lit "high_rank", rank_debug r)]
  end.
(** src/evaluate/eval.rs:58 derived [Debug] of [Eval] *)
Definition eval_debug (e : eval) : rstring := debug_tuple (lit "Eval") (meta_debug (eval_meta e)).
(** src/error.rs:177 derived [Debug] of [EvalError] *)
Definition eval_error_debug (e : eval_error) : rstring :=
  match e with
  | CardsNotUnique cards => debug_tuple (lit "CardsNotUnique") (debug_list (map card_debug cards))
  | InvalidHandSize size => debug_tuple (lit "InvalidHandSize") (dec (N.of_nat size))
  end.
