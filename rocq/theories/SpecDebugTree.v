(** SpecDebugTree.v: vocabulary of the statements about [{:#?}].  Definitions only. *)
From Coq Require Import List String NArith ZArith.
From Verif Require Import Base ModelCard ModelEval Spec SpecApi SpecText SpecDebug.
Import ListNotations.
Local Open Scope string_scope.

(** Lines, each with its level: four blanks per level, a line feed between lines. *)
Definition indented (l : nat * rstring) : rstring := (List.concat (repeat (lit "    ") (fst l)) ++ snd l)%list.
Fixpoint block (lines : list (nat * rstring)) : rstring :=
  match lines with
  | [] => []
  | [l] => indented l
  | l :: rest => (indented l ++ 10%N :: block rest)%list
  end.

(** The fields of a class, in the order of declaration. *)
Definition field_texts (high low : string) (c : eval_class) : list string :=
  match c with
  | HighCard r | Straight r | Flush r | StraightFlush r => ["high_rank: " ++ Rank_ r]
  | Pair r => ["pair: " ++ Rank_ r]
  | TwoPair hi lo => [high ++ ": " ++ Rank_ hi; low ++ ": " ++ Rank_ lo]
  | ThreeOfAKind r => ["trips: " ++ Rank_ r]
  | FullHouse t p => ["trips: " ++ Rank_ t; "pair: " ++ Rank_ p]
  | FourOfAKind r => ["quads: " ++ Rank_ r]
  end.
Definition field_lines (level : nat) (l : list string) : list (nat * rstring) :=
  map (fun f => (level, lit (f ++ ","))) l.

(** The lines of a class, of a result and of a card within a list. *)
Definition class_lines (c : eval_class) : list (nat * rstring) :=
  ([(0, lit (variant c ++ " {"))] ++ field_lines 1 (field_texts "first_pair" "second_pair" c) ++ [(0, lit "}")])%list.
Definition result_lines (number : rstring) (c : eval_class) : list (nat * rstring) :=
  ([(0, lit "Eval("); (1, lit (variant c ++ " {"));
    (2, lit "hand_rank: PokerHandRank("); (3, number ++ lit ","); (2, lit "),")]
   ++ field_lines 2 (field_texts "high_pair" "low_pair" c) ++ [(1, lit "},"); (0, lit ")")])%list.
Definition card_lines (c : card) : list (nat * rstring) :=
  [(2, lit "Card {"); (3, lit "unique_integer: " ++ dec (Z.to_N (unique_integer c)) ++ lit ",");
   (3, lit ("rank: " ++ Rank_ (card_rank c) ++ ",")); (3, lit ("suit: " ++ Suit_ (card_suit c) ++ ","));
   (2, lit "},")]%list.

(** A text without its blanks, line feeds and commas. *)
Definition squeezed (s : rstring) : rstring :=
  filter (fun c => negb ((c =? 32) || (c =? 10) || (c =? 44)))%N s.

(** An entry of a table: [key: Variant { hand_rank: PokerHandRank(number), .. }]. *)
Definition entry_text (key number : Z) (c : eval_class) : rstring :=
  (dec (Z.to_N key) ++ lit ": " ++ lit (variant c) ++ lit " { hand_rank: PokerHandRank(" ++ dec (Z.to_N number)
   ++ lit "), " ++ lit (fields "high_pair" "low_pair" c) ++ lit " }")%list.
