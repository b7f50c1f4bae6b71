(** SpecText.v: vocabulary of the statements about cards as integers and as text.  Definitions
    only; the values are written out here rather than taken from the model. *)
From Coq Require Import List String ZArith.
From Verif Require Import Base ModelCard ModelEval Spec SpecApi.
Import ListNotations.
Local Open Scope nat_scope.

(** ** Bits of a card *)
Definition nth_prime (r : rank) : Z :=
  (match r with
   | Two => 2 | Three => 3 | Four => 5 | Five => 7 | Six => 11 | Seven => 13 | Eight => 17
   | Nine => 19 | Ten => 23 | Jack => 29 | Queen => 31 | King => 37 | Ace => 41
   end)%Z.
Definition suit_bit (s : suit) : Z :=
  (match s with Spades => 0 | Hearts => 1 | Diamonds => 2 | Clubs => 3 end)%Z.

(** The documented layout [xxxbbbbb bbbbbbbb cdhsrrrr xxpppppp]. *)
Definition layout (r : rank) (s : suit) (n : Z) : bool :=
  ((n =? 16 + (Z.of_nat (pips r) - 2)) || (n =? 12 + suit_bit s)
   || ((8 <=? n) && (n <? 12) && Z.testbit (Z.of_nat (pips r) - 2) (n - 8))
   || ((0 <=? n) && (n <? 8) && Z.testbit (nth_prime r) n))%Z.

(** ** Text of a card *)
Definition rank_chars : rstring := lit "23456789TJQKA".
Definition suit_chars : rstring := lit "chsd".
Definition card_text (c : card) : rstring :=
  [nth (pips (card_rank c) - 2) rank_chars 0%N;
   match card_suit c with Clubs => 99 | Hearts => 104 | Spades => 115 | Diamonds => 100 end%N].

(** Text as bytes: UTF-8. *)
Definition utf8_char (c : rchar) : list N :=
  (if c <? 128 then [c]
   else if c <? 2048 then [192 + c / 64; 128 + c mod 64]
   else if c <? 65536 then [224 + c / 4096; 128 + c / 64 mod 64; 128 + c mod 64]
   else [240 + c / 262144; 128 + c / 4096 mod 64; 128 + c / 64 mod 64; 128 + c mod 64])%N.
Definition utf8 (s : rstring) : list N := flat_map utf8_char s.

(** [card_complaint s m]: the message [m] about the input [s], which is not a card.  It quotes the
    input and the offending character, and lists the characters accepted in its place; the length
    it gives is in bytes. *)
Definition about (s : rstring) : rstring := lit "Error parsing input '" ++ s ++ lit "' as a Card: ".
Inductive card_complaint (s : rstring) : rstring -> Prop :=
| not_two : List.length s <> 2 ->
    card_complaint s (about s ++ lit "Found input of length " ++ dec (N.of_nat (List.length (utf8 s)))
                      ++ lit ", expected 2")
| not_a_rank x y : s = [x; y] -> ~ In x rank_chars ->
    card_complaint s (about s ++ lit "Invalid rank character '" ++ [x]
                      ++ lit "', expected one of [" ++ rank_chars ++ lit "]")
| not_a_suit x y : s = [x; y] -> In x rank_chars -> ~ In y suit_chars ->
    card_complaint s (about s ++ lit "Invalid suit character '" ++ [y]
                      ++ lit "', expected one of [" ++ suit_chars ++ lit "]").

(** What [parse] calls the input, [try_from_chars] calls the offending character. *)
Definition blame (x y : rchar) (e : parse_card_error) : parse_card_error :=
  match e with
  | InvalidLength s => InvalidLength s
  | InvalidRank _ c => InvalidRank [x] c
  | InvalidSuit _ c => InvalidSuit [y] c
  end.

(** ** What an iterator yields to a caller who keeps asking *)
Inductive yields : parse_iter -> list (result card parse_card_error) -> Prop :=
| yields_end it it' : pi_next it = (None, it') -> yields it []
| yields_item it r it' l : pi_next it = (Some r, it') -> yields it' l -> yields it (r :: l).

(** ** Words of a text *)
(** Words with one space between them. *)
Definition spaced (words : list rstring) : rstring := tl (flat_map (fun w => 32%N :: w) words).
(** The code points with the Unicode property White_Space. *)
Definition white_space : list rchar :=
  [9; 10; 11; 12; 13; 32; 133; 160; 5760; 8192; 8193; 8194; 8195; 8196; 8197; 8198; 8199; 8200;
   8201; 8202; 8232; 8233; 8239; 8287; 12288]%N.
Definition blank (s : rstring) : Prop := Forall (fun c => In c white_space) s.
Definition word (s : rstring) : Prop := s <> [] /\ Forall (fun c => ~ In c white_space) s.

(** [splits text words]: [words] are the maximal runs of non-whitespace of [text], in order. *)
Inductive splits : rstring -> list rstring -> Prop :=
| splits_end ws : blank ws -> splits ws []
| splits_last ws w : blank ws -> word w -> splits (ws ++ w) [w]
| splits_word ws w c rest l : blank ws -> word w -> In c white_space ->
    splits rest l -> splits (ws ++ w ++ c :: rest) (w :: l).

(** Any cards written with any separators. *)
Inductive written : list card -> rstring -> Prop :=
| written_end ws : blank ws -> written [] ws
| written_last ws c : blank ws -> written [c] (ws ++ card_text c)
| written_card ws c d cs rest : blank ws -> In d white_space -> written cs rest ->
    written (c :: cs) (ws ++ card_text c ++ d :: rest).

(** Text without multi-byte characters. *)
Definition ascii_text (s : rstring) : Prop := Forall (fun c => (c < 128)%N) s.

(** ** English names *)
Definition rank_word (r : rank) : string :=
  match pips r with
  | 2 => "two" | 3 => "three" | 4 => "four" | 5 => "five" | 6 => "six" | 7 => "seven"
  | 8 => "eight" | 9 => "nine" | 10 => "ten" | 11 => "jack" | 12 => "queen" | 13 => "king"
  | _ => "ace"
  end.
Definition plural (r : rank) : string :=
  (rank_word r ++ match r with Six => "es" | _ => "s" end)%string.
Definition hand_name (c : eval_class) : string :=
  (match c with
   | HighCard h => "High card, " ++ rank_word h
   | Pair p => "Pair, " ++ plural p
   | TwoPair a b => "Two pair, " ++ plural a ++ " and " ++ plural b
   | ThreeOfAKind t => "Three of a kind, " ++ plural t
   | Straight h => "Straight, " ++ rank_word h ++ "-high"
   | Flush h => "Flush, " ++ rank_word h ++ "-high"
   | FullHouse t p => "Full house, " ++ plural t ++ " over " ++ plural p
   | FourOfAKind q => "Four of a kind, " ++ plural q
   | StraightFlush h =>
       if Nat.eqb (pips h) 14 then "Royal flush" else "Straight flush, " ++ rank_word h ++ "-high"
   end)%string.

(** ** Taking items from either end: [fs] came from [next], [bs] from [next_back], in any
    interleaving *)
Inductive takes : parse_iter -> list (result card parse_card_error) ->
    list (result card parse_card_error) -> parse_iter -> Prop :=
| takes_none it : takes it [] [] it
| takes_front it r it1 fs bs it2 :
    pi_next it = (Some r, it1) -> takes it1 fs bs it2 -> takes it (r :: fs) bs it2
| takes_back it r it1 fs bs it2 :
    pi_next_back it = (Some r, it1) -> takes it1 fs bs it2 -> takes it fs (r :: bs) it2.
