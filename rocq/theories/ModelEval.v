(** ModelEval.v: src/evaluate/hand_rank.rs, class.rs, meta.rs, eval.rs and src/error.rs. *)
From Coq Require Import String DecimalString.
From Verif Require Import Base ModelCard.
Local Open Scope Z_scope.

(** src/evaluate/lookup_table.rs:333-341 the worst rank number of each class (i16) *)
Definition WORST_STRAIGHT_FLUSH : Z := 10.
Definition WORST_FOUR_OF_A_KIND : Z := 166.
Definition WORST_FULL_HOUSE : Z := 322.
Definition WORST_FLUSH : Z := 1599.
Definition WORST_STRAIGHT : Z := 1609.
Definition WORST_THREE_OF_A_KIND : Z := 2467.
Definition WORST_TWO_PAIR : Z := 3325.
Definition WORST_PAIR : Z := 6185.
Definition WORST_HIGH_CARD : Z := 7462.

(** src/evaluate/hand_rank.rs:7-8 [PokerHandRank(i16)], derived [PartialEq] *)
Record poker_hand_rank := PokerHandRank { phr : Z }.
Definition phr_eqb (a b : poker_hand_rank) : bool := phr a =? phr b.
(** src/evaluate/hand_rank.rs:11-12 *)
Definition PHR_BEST : poker_hand_rank := PokerHandRank 1.
Definition PHR_WORST : poker_hand_rank := PokerHandRank WORST_HIGH_CARD.
(** src/evaluate/hand_rank.rs:15,17 *)
Definition phr_is_better_than (a b : poker_hand_rank) : bool := phr a <? phr b.
Definition phr_is_worse_than (a b : poker_hand_rank) : bool := phr b <? phr a.

(** src/evaluate/class.rs:29-81 [enum EvalClass] *)
Inductive eval_class :=
| HighCard (high_rank : rank)
| Pair (pair : rank)
| TwoPair (first_pair second_pair : rank)
| ThreeOfAKind (trips : rank)
| Straight (high_rank : rank)
| Flush (high_rank : rank)
| FullHouse (trips pair : rank)
| FourOfAKind (quads : rank)
| StraightFlush (high_rank : rank).

(** src/evaluate/class.rs:28 derived [Ord]: position of the variant first, then the fields in
    declaration order *)
Definition class_discr (c : eval_class) : Z :=
  match c with
  | HighCard _ => 0 | Pair _ => 1 | TwoPair _ _ => 2 | ThreeOfAKind _ => 3 | Straight _ => 4
  | Flush _ => 5 | FullHouse _ _ => 6 | FourOfAKind _ => 7 | StraightFlush _ => 8
  end.
Definition class_fields (c : eval_class) : list rank :=
  match c with
  | HighCard h => [h] | Pair p => [p] | TwoPair a b => [a; b] | ThreeOfAKind t => [t]
  | Straight h => [h] | Flush h => [h] | FullHouse t p => [t; p] | FourOfAKind q => [q]
  | StraightFlush h => [h]
  end.
Fixpoint fields_cmp (a b : list rank) : comparison :=
  match a, b with
  | [], [] => Eq
  | [], _ => Lt
  | _, [] => Gt
  | x :: xs, y :: ys => match rank_cmp x y with Eq => fields_cmp xs ys | o => o end
  end.
Definition class_cmp (a b : eval_class) : comparison :=
  match Z.compare (class_discr a) (class_discr b) with
  | Eq => fields_cmp (class_fields a) (class_fields b)
  | o => o
  end.

(** src/evaluate/class.rs:83-120 [Display for EvalClass] *)
Definition class_display (c : eval_class) : rstring :=
  match c with
  | HighCard h => lit "High card, " ++ rank_as_str_name h
  | Pair p => lit "Pair, " ++ rank_as_str_name_plural p
  | TwoPair a b =>
      lit "Two pair, " ++ rank_as_str_name_plural a ++ lit " and " ++ rank_as_str_name_plural b
  | ThreeOfAKind t => lit "Three of a kind, " ++ rank_as_str_name_plural t
  | Straight h => lit "Straight, " ++ rank_as_str_name h ++ lit "-high"
  | Flush h => lit "Flush, " ++ rank_as_str_name h ++ lit "-high"
  | FullHouse t p =>
      lit "Full house, " ++ rank_as_str_name_plural t ++ lit " over " ++ rank_as_str_name_plural p
  | FourOfAKind q => lit "Four of a kind, " ++ rank_as_str_name_plural q
  | StraightFlush h =>
      match h with
      | Ace => lit "Royal flush"
      | h => lit "Straight flush, " ++ rank_as_str_name h ++ lit "-high"
      end
  end.

(** src/evaluate/meta.rs:12-51 [enum Meta] *)
Inductive meta :=
| MHighCard (hand_rank : poker_hand_rank) (high_rank : rank)
| MPair (hand_rank : poker_hand_rank) (pair : rank)
| MTwoPair (hand_rank : poker_hand_rank) (high_pair low_pair : rank)
| MThreeOfAKind (hand_rank : poker_hand_rank) (trips : rank)
| MStraight (hand_rank : poker_hand_rank) (high_rank : rank)
| MFlush (hand_rank : poker_hand_rank) (high_rank : rank)
| MFullHouse (hand_rank : poker_hand_rank) (trips pair : rank)
| MFourOfAKind (hand_rank : poker_hand_rank) (quads : rank)
| MStraightFlush (hand_rank : poker_hand_rank) (high_rank : rank).

(** src/evaluate/meta.rs:55-63 *)
Definition META_BEST : meta := MStraightFlush PHR_BEST Ace.
Definition META_WORST : meta := MHighCard PHR_WORST Seven.

(** src/evaluate/meta.rs:65-78 [Meta::hand_rank] *)
Definition meta_hand_rank (m : meta) : poker_hand_rank :=
  match m with
  | MHighCard hr _ | MPair hr _ | MTwoPair hr _ _ | MThreeOfAKind hr _ | MStraight hr _
  | MFlush hr _ | MFullHouse hr _ _ | MFourOfAKind hr _ | MStraightFlush hr _ => hr
  end.

(** src/evaluate/meta.rs:80-99 [Meta::class] *)
Definition meta_class (m : meta) : eval_class :=
  match m with
  | MHighCard _ h => HighCard h
  | MPair _ p => Pair p
  | MTwoPair _ hp lp => TwoPair hp lp
  | MThreeOfAKind _ t => ThreeOfAKind t
  | MStraight _ h => Straight h
  | MFlush _ h => Flush h
  | MFullHouse _ t p => FullHouse t p
  | MFourOfAKind _ q => FourOfAKind q
  | MStraightFlush _ h => StraightFlush h
  end.

(** src/evaluate/meta.rs:101-127 [is_*] *)
Definition meta_is_high_card m := match m with MHighCard _ _ => true | _ => false end.
Definition meta_is_pair m := match m with MPair _ _ => true | _ => false end.
Definition meta_is_two_pair m := match m with MTwoPair _ _ _ => true | _ => false end.
Definition meta_is_three_of_a_kind m := match m with MThreeOfAKind _ _ => true | _ => false end.
Definition meta_is_straight m := match m with MStraight _ _ => true | _ => false end.
Definition meta_is_flush m := match m with MFlush _ _ => true | _ => false end.
Definition meta_is_full_house m := match m with MFullHouse _ _ _ => true | _ => false end.
Definition meta_is_four_of_a_kind m := match m with MFourOfAKind _ _ => true | _ => false end.
Definition meta_is_straight_flush m := match m with MStraightFlush _ _ => true | _ => false end.
(** the constant pattern [hand_rank: PokerHandRank::BEST] compares by value *)
Definition meta_is_royal_flush m :=
  match m with MStraightFlush hr _ => phr_eqb hr PHR_BEST | _ => false end.

(** src/evaluate/meta.rs:130-162 [PartialEq], [PartialOrd], [Ord] for [Meta] *)
Definition meta_eqb (a b : meta) : bool := phr_eqb (meta_hand_rank a) (meta_hand_rank b).
Definition meta_partial_cmp (a b : meta) : option comparison :=
  let hand_rank_self := meta_hand_rank a in
  let hand_rank_other := meta_hand_rank b in
  if phr_is_better_than hand_rank_self hand_rank_other then Some Gt
  else if phr_eqb hand_rank_self hand_rank_other then Some Eq
  else Some Lt.
Definition meta_cmp (a b : meta) : comparison :=
  let hand_rank_self := meta_hand_rank a in
  let hand_rank_other := meta_hand_rank b in
  if phr_is_better_than hand_rank_self hand_rank_other then Gt
  else if phr_eqb hand_rank_self hand_rank_other then Eq
  else Lt.

(** src/evaluate/meta.rs:164-166 [Hash for Meta]: hashes the rank number only.
    [write_i16] is the arbitrary [Hasher]'s operation on its state. *)
Definition meta_hash {H} (write_i16 : H -> Z -> H) (m : meta) (state : H) : H :=
  write_i16 state (phr (meta_hand_rank m)).

(** src/evaluate/meta.rs:168-170 [Display for Meta] *)
Definition meta_display (m : meta) : rstring := class_display (meta_class m).

(** src/evaluate/eval.rs:58-59 [Eval(Meta)]; its derived traits delegate to the one field *)
Record eval := MkEval { eval_meta : meta }.
(** src/evaluate/eval.rs:63-65 *)
Definition EVAL_BEST : eval := MkEval META_BEST.
Definition EVAL_WORST : eval := MkEval META_WORST.
(** src/evaluate/eval.rs:67 *)
Definition eval_hand_rank (e : eval) : poker_hand_rank := meta_hand_rank (eval_meta e).
(** src/evaluate/eval.rs:71 *)
Definition eval_class_of (e : eval) : eval_class := meta_class (eval_meta e).
(** src/evaluate/eval.rs:76-93 *)
Definition eval_is_better_than (a b : eval) : bool :=
  phr_is_better_than (eval_hand_rank a) (eval_hand_rank b).
Definition eval_is_worse_than (a b : eval) : bool :=
  phr_is_worse_than (eval_hand_rank a) (eval_hand_rank b).
Definition eval_is_equal_to (a b : eval) : bool :=
  phr (eval_hand_rank a) =? phr (eval_hand_rank b).
(** src/evaluate/eval.rs:96-123 *)
Definition eval_is_high_card e := meta_is_high_card (eval_meta e).
Definition eval_is_pair e := meta_is_pair (eval_meta e).
Definition eval_is_two_pair e := meta_is_two_pair (eval_meta e).
Definition eval_is_three_of_a_kind e := meta_is_three_of_a_kind (eval_meta e).
Definition eval_is_straight e := meta_is_straight (eval_meta e).
Definition eval_is_flush e := meta_is_flush (eval_meta e).
Definition eval_is_full_house e := meta_is_full_house (eval_meta e).
Definition eval_is_four_of_a_kind e := meta_is_four_of_a_kind (eval_meta e).
Definition eval_is_straight_flush e := meta_is_straight_flush (eval_meta e).
Definition eval_is_royal_flush e := meta_is_royal_flush (eval_meta e).
(** src/evaluate/eval.rs:126-128 [Display for Eval] *)
Definition eval_display (e : eval) : rstring := meta_display (eval_meta e).
(** src/evaluate/eval.rs:58 derived [PartialEq], [PartialOrd], [Ord], [Hash] *)
Definition eval_eqb (a b : eval) : bool := meta_eqb (eval_meta a) (eval_meta b).
Definition eval_partial_cmp (a b : eval) : option comparison :=
  meta_partial_cmp (eval_meta a) (eval_meta b).
Definition eval_cmp (a b : eval) : comparison := meta_cmp (eval_meta a) (eval_meta b).
Definition eval_hash {H} (write_i16 : H -> Z -> H) (e : eval) (state : H) : H :=
  meta_hash write_i16 (eval_meta e) state.

(** ** Errors (src/error.rs) *)

(** [usize]'s Display: decimal digits *)
Definition dec (n : N) : rstring := lit (NilZero.string_of_uint (N.to_uint n)).

(** src/error.rs:100-129 [Display for ParseCardError] *)
Definition parse_card_error_display (e : parse_card_error) : rstring :=
  match e with
  | InvalidLength original_input =>
      lit "Error parsing input '" ++ original_input
      ++ lit "' as a Card: Found input of length " ++ dec (str_len original_input)
      ++ lit ", expected 2"
  | InvalidRank original_input incorrect_char =>
      lit "Error parsing input '" ++ original_input
      ++ lit "' as a Card: Invalid rank character '" ++ [incorrect_char]
      ++ lit "', expected one of [23456789TJQKA]"
  | InvalidSuit original_input incorrect_char =>
      lit "Error parsing input '" ++ original_input
      ++ lit "' as a Card: Invalid suit character '" ++ [incorrect_char]
      ++ lit "', expected one of [chsd]"
  end.

(** src/error.rs:178-185 [enum EvalError] *)
Inductive eval_error :=
| CardsNotUnique (cards : list card)
| InvalidHandSize (size : nat).

(** [Itertools::counts]: a [HashMap] from element to number of occurrences, here as the list of
    its entries in first-insertion order.  [eqb] is the [Eq] of the elements. *)
Fixpoint counts_add {K} (eqb : K -> K -> bool) (c : K) (m : list (K * nat)) : list (K * nat) :=
  match m with
  | [] => [(c, 1%nat)]
  | (d, n) :: m' => if eqb c d then (d, S n) :: m' else (d, n) :: counts_add eqb c m'
  end.
Definition counts {K} (eqb : K -> K -> bool) (l : list K) : list (K * nat) :=
  fold_left (fun m c => counts_add eqb c m) l [].

(** [Vec<String>::join(sep)] *)
Fixpoint join (sep : rstring) (l : list rstring) : rstring :=
  match l with
  | [] => []
  | [x] => x
  | x :: xs => x ++ sep ++ join sep xs
  end.

(** src/error.rs:187-219 [Display for EvalError].  [iter_order] is the unspecified order in which
    the hash map of counts is iterated; the theorems assume only that it is a permutation. *)
Definition eval_error_display (iter_order : list (card * nat) -> list (card * nat))
    (e : eval_error) : rstring :=
  match e with
  | CardsNotUnique cards =>
      let dups :=
        join (lit " ")
          (flat_map (fun p => if Nat.ltb 1 (snd p) then [rank_suit_string (fst p)] else [])
             (iter_order (counts card_eqb cards))) in
      lit "Cannot evaluate a poker hand with a set of cards that are not unique. Cards duplicated at least once: "
      ++ dups
  | InvalidHandSize size =>
      lit "Cannot evaluate a poker hand with a set of less than 5 cards. Number of cards received: "
      ++ dec (N.of_nat size)
  end.
