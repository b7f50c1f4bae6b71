(** ModelCard.v: src/constants.rs, src/card/rank.rs, src/card/suit.rs, src/card/mod.rs,
    src/card/macros.rs, src/deck.rs. *)
From Coq Require Import String.
From Verif Require Import Base.
Local Open Scope Z_scope.

(** src/constants.rs:4 [PRIMES] *)
Definition PRIMES : list Z := [2; 3; 5; 7; 11; 13; 17; 19; 23; 29; 31; 37; 41].

(** src/constants.rs:8 [INT_RANKS], the range [0..13] of i16 as the list it iterates *)
Definition INT_RANKS : list Z := [0; 1; 2; 3; 4; 5; 6; 7; 8; 9; 10; 11; 12].

(** src/card/rank.rs:12-39 [enum Rank] *)
Inductive rank :=
| Two | Three | Four | Five | Six | Seven | Eight | Nine | Ten | Jack | Queen | King | Ace.

(** src/card/suit.rs:8-17 [enum Suit] *)
Inductive suit := Clubs | Hearts | Spades | Diamonds.

(** src/card/rank.rs:42-56 [Rank::ALL_VARIANTS] *)
Definition RANK_ALL_VARIANTS : list rank :=
  [Two; Three; Four; Five; Six; Seven; Eight; Nine; Ten; Jack; Queen; King; Ace].

(** src/card/suit.rs:20-21 [Suit::ALL_VARIANTS] *)
Definition SUIT_ALL_VARIANTS : list suit := [Clubs; Hearts; Spades; Diamonds].

(** src/card/rank.rs:89-106 [Rank::as_i32] *)
Definition rank_as_i32 (r : rank) : Z :=
  match r with
  | Two => 0 | Three => 1 | Four => 2 | Five => 3 | Six => 4 | Seven => 5 | Eight => 6
  | Nine => 7 | Ten => 8 | Jack => 9 | Queen => 10 | King => 11 | Ace => 12
  end.

(** src/card/rank.rs:110-129 [Rank::from_i32] (fall-through arm is [Ace]) *)
Definition rank_from_i32 (v : Z) : rank :=
  match v with
  | 0 => Two | 1 => Three | 2 => Four | 3 => Five | 4 => Six | 5 => Seven | 6 => Eight
  | 7 => Nine | 8 => Ten | 9 => Jack | 10 => Queen | 11 => King | _ => Ace
  end.

(** src/card/rank.rs:6 derived [Ord]/[PartialOrd]/[PartialEq] of [Rank]: by declaration order.
    The discriminant of a field-less enum is its position, 0 for [Two]. *)
Definition rank_discr (r : rank) : Z :=
  match r with
  | Two => 0 | Three => 1 | Four => 2 | Five => 3 | Six => 4 | Seven => 5 | Eight => 6
  | Nine => 7 | Ten => 8 | Jack => 9 | Queen => 10 | King => 11 | Ace => 12
  end.
Definition rank_cmp (a b : rank) : comparison := Z.compare (rank_discr a) (rank_discr b).
Definition rank_partial_cmp (a b : rank) : option comparison := Some (rank_cmp a b).
Definition rank_eqb (a b : rank) : bool := rank_discr a =? rank_discr b.

(** src/card/suit.rs:7 derived [PartialEq] of [Suit] *)
Definition suit_eqb (a b : suit) : bool :=
  match a, b with
  | Clubs, Clubs | Hearts, Hearts | Spades, Spades | Diamonds, Diamonds => true
  | _, _ => false
  end.

(** src/card/rank.rs:68-85 [Rank::as_char] (code points of the char literals) *)
Definition rank_as_char (r : rank) : rchar :=
  match r with
  | Ace => 65 | Two => 50 | Three => 51 | Four => 52 | Five => 53 | Six => 54 | Seven => 55
  | Eight => 56 | Nine => 57 | Ten => 84 | Jack => 74 | Queen => 81 | King => 75
  end%N.

(** src/card/rank.rs:174-196 [TryFrom<char> for Rank] *)
Definition rank_try_from (c : rchar) : result rank rchar :=
  match c with
  | 65 => Ok Ace | 50 => Ok Two | 51 => Ok Three | 52 => Ok Four | 53 => Ok Five
  | 54 => Ok Six | 55 => Ok Seven | 56 => Ok Eight | 57 => Ok Nine | 84 => Ok Ten
  | 74 => Ok Jack | 81 => Ok Queen | 75 => Ok King
  | x => Err x
  end%N.

(** src/card/rank.rs:133-150 [Rank::as_str_name] *)
Definition rank_as_str_name (r : rank) : rstring :=
  lit match r with
  | Two => "two" | Three => "three" | Four => "four" | Five => "five" | Six => "six"
  | Seven => "seven" | Eight => "eight" | Nine => "nine" | Ten => "ten" | Jack => "jack"
  | Queen => "queen" | King => "king" | Ace => "ace"
  end.

(** src/card/rank.rs:154-171 [Rank::as_str_name_plural] *)
Definition rank_as_str_name_plural (r : rank) : rstring :=
  lit match r with
  | Two => "twos" | Three => "threes" | Four => "fours" | Five => "fives" | Six => "sixes"
  | Seven => "sevens" | Eight => "eights" | Nine => "nines" | Ten => "tens" | Jack => "jacks"
  | Queen => "queens" | King => "kings" | Ace => "aces"
  end.

(** src/card/rank.rs:198-200 [Display for Rank] *)
Definition rank_display (r : rank) : rstring := [rank_as_char r].

(** src/card/suit.rs:34-42 [Suit::as_pretty_char] *)
Definition suit_as_pretty_char (s : suit) : rchar :=
  match s with
  | Spades => 9824    (* U+2660 *)
  | Hearts => 9829    (* U+2665 *)
  | Clubs => 9827     (* U+2663 *)
  | Diamonds => 9830  (* U+2666 *)
  end%N.

(** src/card/suit.rs:56-64 [Suit::as_char] *)
Definition suit_as_char (s : suit) : rchar :=
  match s with Clubs => 99 | Hearts => 104 | Spades => 115 | Diamonds => 100 end%N.

(** src/card/suit.rs:71-79 [Suit::as_i32] *)
Definition suit_as_i32 (s : suit) : Z :=
  match s with Clubs => 8 | Hearts => 2 | Spades => 1 | Diamonds => 4 end.

(** src/card/suit.rs:84-94 [Suit::from_i32] (fall-through arm is [Spades]) *)
Definition suit_from_i32 (v : Z) : suit :=
  match v with 8 => Clubs | 4 => Diamonds | 2 => Hearts | _ => Spades end.

(** src/card/suit.rs:97-110 [TryFrom<char> for Suit] *)
Definition suit_try_from (c : rchar) : result suit rchar :=
  match c with
  | 115 => Ok Spades | 99 => Ok Clubs | 104 => Ok Hearts | 100 => Ok Diamonds
  | x => Err x
  end%N.

(** src/card/suit.rs:112-114 [Display for Suit] *)
Definition suit_display (s : suit) : rstring := [suit_as_pretty_char s].

(** src/card/mod.rs:95-98 [struct Card] *)
Record card := mk_card { unique_integer : Z }.

(** src/card/mod.rs:116-126 [Card::new], with the array index and the shifts able to panic *)
Definition card_new_chk (r : rank) (s : suit) : outcome card :=
  let rank_int := rank_as_i32 r in
  let suit_int := suit_as_i32 s in
  let! rank_prime := index PRIMES (Z.to_nat rank_int) in
  let! one_shl := shl_i32 1 rank_int in
  let! bit_rank := shl_i32 one_shl 16 in
  let! card_suit := shl_i32 suit_int 12 in
  let! card_rank := shl_i32 rank_int 8 in
  Ret (mk_card (Z.lor (Z.lor (Z.lor bit_rank card_suit) card_rank) rank_prime)).

(** The value [Card::new] returns.  [card_new_chk_ret] (CardFacts.v) proves the [_] branch is
    never taken, i.e. [Card::new] never panics. *)
Definition card_new (r : rank) (s : suit) : card :=
  match card_new_chk r s with Ret c => c | _ => mk_card 0 end.

(** src/card/mod.rs:173-176 [Card::rank] *)
Definition card_rank (c : card) : rank :=
  rank_from_i32 (Z.land (Z.shiftr (unique_integer c) 8) 15).

(** src/card/mod.rs:189-192 [Card::suit] *)
Definition card_suit (c : card) : suit :=
  suit_from_i32 (Z.land (Z.shiftr (unique_integer c) 12) 15).

(** src/card/mod.rs:95 derived [PartialEq] of [Card] *)
Definition card_eqb (a b : card) : bool := unique_integer a =? unique_integer b.

(** src/card/mod.rs:307-315 [PartialOrd], [Ord] for [Card] *)
Definition card_partial_cmp (a b : card) : option comparison :=
  rank_partial_cmp (card_rank a) (card_rank b).
Definition card_cmp (a b : card) : comparison := rank_cmp (card_rank a) (card_rank b).

(** src/card/mod.rs:228-233 [Card::rank_suit_string] *)
Definition rank_suit_string (c : card) : rstring :=
  [] ++ [rank_as_char (card_rank c)] ++ [suit_as_char (card_suit c)].

(** src/card/mod.rs:327-331 [Display for Card]: ["[ {}{} ]"] *)
Definition card_display (c : card) : rstring :=
  lit "[ " ++ rank_display (card_rank c) ++ suit_display (card_suit c) ++ lit " ]".

(** src/error.rs:66-98 [enum ParseCardError] *)
Inductive parse_card_error :=
| InvalidLength (original_input : rstring)
| InvalidRank (original_input : rstring) (incorrect_char : rchar)
| InvalidSuit (original_input : rstring) (incorrect_char : rchar).

(** src/card/mod.rs:146-160 [Card::try_from_chars] *)
Definition try_from_chars (rank_char suit_char : rchar) : result card parse_card_error :=
  match rank_try_from rank_char with
  | Err incorrect_char => Err (InvalidRank [rank_char] incorrect_char)
  | Ok r =>
      match suit_try_from suit_char with
      | Err incorrect_char => Err (InvalidSuit [suit_char] incorrect_char)
      | Ok s => Ok (card_new r s)
      end
  end.

(** src/card/mod.rs:284-304 [FromStr for Card].  The three [chars.next()] calls give
    [(Some, Some, None)] exactly when the list of chars has two elements. *)
Definition card_from_str (value : rstring) : result card parse_card_error :=
  match value with
  | [rk; st] =>
      match rank_try_from rk with
      | Err incorrect_char => Err (InvalidRank value incorrect_char)
      | Ok r =>
          match suit_try_from st with
          | Err incorrect_char => Err (InvalidSuit value incorrect_char)
          | Ok s => Ok (card_new r s)
          end
      end
  | _ => Err (InvalidLength value)
  end.

(** ** ParseToIter (src/card/mod.rs:270-278, 337-381)

    The wrapped iterator [strings.into_iter().map(|s| s.as_ref().parse())] over a finite
    sequence of strings, as its remaining inputs.  Simplification: the source iterator is a
    finite list; ModelSource.v has any source, and C72_list that the two agree. *)
Record parse_iter := mk_parse_iter { pi_rest : list rstring }.

(** src/card/mod.rs:270-278 [Card::parse_to_iter] *)
Definition parse_to_iter (strings : list rstring) : parse_iter := mk_parse_iter strings.

(** src/card/mod.rs:344 [next] *)
Definition pi_next (it : parse_iter) : option (result card parse_card_error) * parse_iter :=
  match pi_rest it with
  | [] => (None, it)
  | s :: rest => (Some (card_from_str s), mk_parse_iter rest)
  end.

(** src/card/mod.rs:364 [next_back] *)
Definition pi_next_back (it : parse_iter) : option (result card parse_card_error) * parse_iter :=
  match rev (pi_rest it) with
  | [] => (None, it)
  | s :: rest => (Some (card_from_str s), mk_parse_iter (rev rest))
  end.

(** src/card/mod.rs:346 [size_hint], src/card/mod.rs:360 [len] (for slice sources) *)
Definition pi_size_hint (it : parse_iter) : nat * option nat :=
  (length (pi_rest it), Some (length (pi_rest it))).
Definition pi_len (it : parse_iter) : nat := length (pi_rest it).

(** src/card/mod.rs:348-354 [fold], forwarded to the inner [Map] iterator *)
Definition pi_fold {B} (it : parse_iter) (init : B)
    (f : B -> result card parse_card_error -> B) : B :=
  fold_left f (map card_from_str (pi_rest it)) init.

(** src/card/mod.rs:380 [try_collect] = [collect::<Result<C, E>>()] of the inner iterator:
    the standard library's collection into [Result] calls [next] until the first [Err], which
    it returns, or the end.  Recursion is on the remaining inputs, which [next] consumes. *)
Fixpoint try_collect_from (rest : list rstring) (acc : list card) :
    result (list card) parse_card_error :=
  match rest with
  | [] => Ok acc
  | s :: rest' =>
      match card_from_str s with
      | Ok c => try_collect_from rest' (acc ++ [c])
      | Err e => Err e
      end
  end.
Definition try_collect (it : parse_iter) : result (list card) parse_card_error :=
  try_collect_from (pi_rest it) [].

(** ** Macros (src/card/macros.rs) *)

(** [char::is_whitespace]: Unicode White_Space, used by [str::split_whitespace] *)
Definition is_whitespace (c : rchar) : bool :=
  ((9 <=? c) && (c <=? 13) || (c =? 32) || (c =? 133) || (c =? 160) || (c =? 5760)
   || (8192 <=? c) && (c <=? 8202) || (c =? 8232) || (c =? 8233) || (c =? 8239)
   || (c =? 8287) || (c =? 12288))%N.

(** [str::split_whitespace]: split at every whitespace char, drop empty pieces.
    [cur] is the (reversed) piece being read. *)
Definition flush_piece (cur : rstring) (rest : list rstring) : list rstring :=
  match cur with [] => rest | _ => rev cur :: rest end.
Fixpoint split_whitespace_from (cur : rstring) (s : rstring) : list rstring :=
  match s with
  | [] => flush_piece cur []
  | c :: s' =>
      if is_whitespace c then flush_piece cur (split_whitespace_from [] s')
      else split_whitespace_from (c :: cur) s'
  end.
Definition split_whitespace (s : rstring) : list rstring := split_whitespace_from [] s.

(** src/card/macros.rs:150-152 [cards!("..", "..", ..)] *)
Definition cards_macro_strings (strings : list rstring) : parse_iter := parse_to_iter strings.
(** src/card/macros.rs:153-155 [cards!("...")] *)
Definition cards_macro_text (text : rstring) : parse_iter := parse_to_iter (split_whitespace text).
(** src/card/macros.rs:144-149 [cards!(Rank of Suit, ..)] *)
Definition cards_macro_idents (l : list (rank * suit)) : list card :=
  map (fun p => card_new (fst p) (snd p)) l.
(** src/card/macros.rs:164-172 [box_cards!(a, b, ..)]: [chain] of all, collected *)
Definition box_cards (first : list card) (others : list (list card)) : list card :=
  fold_left (fun acc slice => acc ++ slice) others first.

(** ** Deck (src/deck.rs) *)

(** src/deck.rs:26-31 [generate]: [cartesian_product] varies the second component fastest *)
Definition deck_generate : list card :=
  map (fun p => card_new (fst p) (snd p)) (list_prod RANK_ALL_VARIANTS SUIT_ALL_VARIANTS).

(** [slice.swap(i, j)] *)
Definition set_nth {A} (l : list A) (i : nat) (x : A) : list A :=
  firstn i l ++ match skipn i l with [] => [] | _ :: tl => x :: tl end.
Definition swap {A} (l : list A) (i j : nat) : outcome (list A) :=
  match nth_error l i, nth_error l j with
  | Some a, Some b => Ret (set_nth (set_nth l i b) j a)
  | _, _ => Panic IndexOutOfBounds
  end.

(** rand 0.8 [SliceRandom::shuffle] (a dependency, not in /repo):
    [for i in (1..self.len()).rev() { self.swap(i, gen_index(rng, i + 1)) }].
    The rng is an arbitrary state machine [gen : R -> nat -> nat * R] asked for an index below
    a bound; the theorems assume only that the answer is below the bound. *)
Fixpoint shuffle_from {A R} (gen : R -> nat -> nat * R) (i : nat) (l : list A) (rng : R) :
    outcome (list A * R) :=
  match i with
  | O => Ret (l, rng)
  | S i' =>
      let (j, rng') := gen rng (S i) in
      let! l' := swap l i j in
      shuffle_from gen i' l' rng'
  end.
Definition shuffle {A R} (gen : R -> nat -> nat * R) (l : list A) (rng : R) :
    outcome (list A * R) :=
  shuffle_from gen (length l - 1) l rng.

(** src/deck.rs:41-49 [shuffled_with] *)
Definition shuffled_with {R} (gen : R -> nat -> nat * R) (rng : R) : outcome (list card * R) :=
  shuffle gen deck_generate rng.
