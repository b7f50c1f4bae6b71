(** Spec.v: the rules of poker, independent of how the code works.

    A face is what is printed on a card: its rank and suit.  Nothing below mentions tables,
    primes, bit patterns, rank numbers or any function that evaluates.  The only things taken
    from the model are the API's data types [rank], [suit] and [eval_class]. *)
From Coq Require Import List Arith Permutation.
From Verif Require Import ModelCard ModelEval.
Import ListNotations.

Definition face := (rank * suit)%type.

(** Pip value: deuce 2 ... ten 10, jack 11, queen 12, king 13, ace 14. *)
Definition pips (r : rank) : nat :=
  match r with
  | Two => 2 | Three => 3 | Four => 4 | Five => 5 | Six => 6 | Seven => 7 | Eight => 8
  | Nine => 9 | Ten => 10 | Jack => 11 | Queen => 12 | King => 13 | Ace => 14
  end.

Definition rank_dec (a b : rank) : {a = b} + {a <> b}.
Proof. decide equality. Defined.

Definition ranks (h : list face) : list rank := map fst h.

(** How many cards of rank [r] the hand has. *)
Definition count (r : rank) (h : list face) : nat := count_occ rank_dec (ranks h) r.

(** All cards of one suit. *)
Definition suited (h : list face) : Prop := exists s, Forall (fun f => snd f = s) h.

(** Five ranks in sequence up to [top]; the ace may also play below the deuce. *)
Definition in_sequence (h : list face) (top : rank) : Prop :=
  let p := pips top in
  Permutation (map pips (ranks h)) [p - 4; p - 3; p - 2; p - 1; p]
  \/ (top = Five /\ Permutation (ranks h) [Ace; Two; Three; Four; Five]).

Definition highest (h : list face) (r : rank) : Prop :=
  In r (ranks h) /\ forall r', In r' (ranks h) -> pips r' <= pips r.

(** The class of a five-card hand. *)
Definition classify (h : list face) (c : eval_class) : Prop :=
  match c with
  | StraightFlush top => suited h /\ in_sequence h top
  | FourOfAKind q => count q h = 4
  | FullHouse t p => count t h = 3 /\ count p h = 2
  | Flush top => suited h /\ (forall r, ~ in_sequence h r) /\ highest h top
  | Straight top => ~ suited h /\ in_sequence h top
  | ThreeOfAKind t => count t h = 3 /\ (forall r, count r h <> 2)
  | TwoPair hi lo => count hi h = 2 /\ count lo h = 2 /\ pips lo < pips hi
  | Pair p => count p h = 2 /\ (forall r, r <> p -> count r h <= 1)
  | HighCard top =>
      ~ suited h /\ (forall r, ~ in_sequence h r) /\ (forall r, count r h <= 1) /\ highest h top
  end.

(** Categories from weakest to strongest. *)
Definition category (c : eval_class) : nat :=
  match c with
  | HighCard _ => 0 | Pair _ => 1 | TwoPair _ _ => 2 | ThreeOfAKind _ => 3 | Straight _ => 4
  | Flush _ => 5 | FullHouse _ _ => 6 | FourOfAKind _ => 7 | StraightFlush _ => 8
  end.

Definition high_to_low : list rank :=
  [Ace; King; Queen; Jack; Ten; Nine; Eight; Seven; Six; Five; Four; Three; Two].

(** The ranks of a hand in the order in which they decide a comparison: those held most often
    first, and among equally frequent ones the higher first (each listed once). *)
Definition by_multiplicity (h : list face) : list rank :=
  flat_map (fun n => filter (fun r => count r h =? n) high_to_low) [4; 3; 2; 1].

(** What decides between two hands of the same category. *)
Definition deciders (c : eval_class) (h : list face) : list rank :=
  match c with
  | Straight top | StraightFlush top => [top]
  | _ => by_multiplicity h
  end.

Fixpoint lex_gt (a b : list rank) : Prop :=
  match a, b with
  | x :: a', y :: b' => pips y < pips x \/ (x = y /\ lex_gt a' b')
  | _, _ => False
  end.

(** Hand [h1] beats hand [h2]. *)
Definition beats (h1 h2 : list face) : Prop :=
  exists c1 c2, classify h1 c1 /\ classify h2 c2 /\
    (category c2 < category c1 \/
     (category c1 = category c2 /\ lex_gt (deciders c1 h1) (deciders c2 h2))).

(** Hands [h1] and [h2] split the pot. *)
Definition ties (h1 h2 : list face) : Prop :=
  exists c1 c2, classify h1 c1 /\ classify h2 c2 /\
    category c1 = category c2 /\ deciders c1 h1 = deciders c2 h2.

(** A legal five-card hand: five different cards. *)
Definition five_card_hand (h : list face) : Prop := NoDup h /\ length h = 5.
