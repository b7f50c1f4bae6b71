(** SpecDebug.v: vocabulary of the statements about [Debug] texts.  Definitions only; the texts are
    written out here rather than taken from the model. *)
From Coq Require Import List String Ascii.
From Verif Require Import Base ModelCard ModelEval Spec SpecApi SpecText.
Import ListNotations.
Local Open Scope string_scope.

(** A word with its first letter in upper case: Rust's names of the ranks. *)
Definition capital (s : string) : string :=
  match s with String a t => String (ascii_of_nat (nat_of_ascii a - 32)) t | EmptyString => "" end.
Definition Rank_ (r : rank) : string := capital (rank_word r).
Definition Suit_ (s : suit) : string :=
  match s with Clubs => "Clubs" | Hearts => "Hearts" | Spades => "Spades" | Diamonds => "Diamonds" end.

(** A class as one writes it in Rust: its variant, and its fields in the order of declaration. *)
Definition variant (c : eval_class) : string :=
  match category c with
  | 0 => "HighCard" | 1 => "Pair" | 2 => "TwoPair" | 3 => "ThreeOfAKind" | 4 => "Straight"
  | 5 => "Flush" | 6 => "FullHouse" | 7 => "FourOfAKind" | _ => "StraightFlush"
  end.
Definition fields (high low : string) (c : eval_class) : string :=
  match c with
  | HighCard r | Straight r | Flush r | StraightFlush r => "high_rank: " ++ Rank_ r
  | Pair r => "pair: " ++ Rank_ r
  | TwoPair hi lo => high ++ ": " ++ Rank_ hi ++ ", " ++ low ++ ": " ++ Rank_ lo
  | ThreeOfAKind r => "trips: " ++ Rank_ r
  | FullHouse t p => "trips: " ++ Rank_ t ++ ", pair: " ++ Rank_ p
  | FourOfAKind r => "quads: " ++ Rank_ r
  end.
Definition class_source (c : eval_class) : string :=
  variant c ++ " { " ++ fields "first_pair" "second_pair" c ++ " }".

(** Texts with commas between them. *)
Inductive listed : list rstring -> rstring -> Prop :=
| listed_none : listed [] []
| listed_one t : listed [t] t
| listed_more t u l text : listed (u :: l) text -> listed (t :: u :: l) (t ++ lit ", " ++ text)%list.
