(** SpecBest.v: the worth of a hand of any size, read off the hand directly.  Nothing here looks at
    five-card subsets of the hand, let alone at tables; every definition can be evaluated. *)
From Coq Require Import List Arith Bool.
From Verif Require Import ModelCard ModelEval Spec.
Import ListNotations.

Definition suit_dec (a b : suit) : {a = b} + {a <> b}.
Proof. decide equality. Defined.
Definition four_suits : list suit := [Clubs; Hearts; Spades; Diamonds].

(** The ranks held at least [n] times, highest first. *)
Definition held (n : nat) (H : list face) : list rank := filter (fun r => n <=? count r H) high_to_low.
(** [l] without the ranks [rs]. *)
Definition without (rs l : list rank) : list rank :=
  filter (fun r => if in_dec rank_dec r rs then false else true) l.
(** The cards of one suit. *)
Definition only (s : suit) (H : list face) : list face :=
  filter (fun f => if suit_dec (snd f) s then true else false) H.

(** What a straight can end in, and the ranks of the straight ending in [top]. *)
Definition tops : list rank := [Ace; King; Queen; Jack; Ten; Nine; Eight; Seven; Six; Five].
Definition run (top : rank) : list rank :=
  match top with
  | Five => [Five; Four; Three; Two; Ace]
  | _ => filter (fun r => (pips r <=? pips top) && (pips top <? pips r + 5)) high_to_low
  end.
Definition has_run (H : list face) (top : rank) : bool := forallb (fun r => 1 <=? count r H) (run top).

(** The five highest ranks of a suit of five or more cards, and the highest of two such lists. *)
Definition flush_in (H : list face) (s : suit) : list rank :=
  if 5 <=? length (only s H) then firstn 5 (held 1 (only s H)) else [].
Fixpoint higher (a b : list rank) : list rank :=
  match a, b with
  | x :: a', y :: b' =>
      if pips y <? pips x then a else if pips x <? pips y then b else x :: higher a' b'
  | [], _ => b
  | _, [] => a
  end.

(** For each category the best class of that category and the ranks that decide between hands of
    this category, the most important first. *)
Definition rule (k : nat) (H : list face) : option (eval_class * list rank) :=
  match k with
  | 8 => match filter (fun t => existsb (fun s => has_run (only s H) t) four_suits) tops with
         | t :: _ => Some (StraightFlush t, [t])
         | [] => None
         end
  | 7 => match held 4 H with
         | q :: _ => Some (FourOfAKind q, q :: firstn 1 (without [q] (held 1 H)))
         | [] => None
         end
  | 6 => match held 3 H with
         | t :: _ => match without [t] (held 2 H) with
                     | p :: _ => Some (FullHouse t p, [t; p])
                     | [] => None
                     end
         | [] => None
         end
  | 5 => match fold_right higher [] (map (flush_in H) four_suits) with
         | t :: l => Some (Flush t, t :: l)
         | [] => None
         end
  | 4 => match filter (has_run H) tops with
         | t :: _ => Some (Straight t, [t])
         | [] => None
         end
  | 3 => match held 3 H with
         | t :: _ => Some (ThreeOfAKind t, t :: firstn 2 (without [t] (held 1 H)))
         | [] => None
         end
  | 2 => match held 2 H with
         | p :: q :: _ => Some (TwoPair p q, p :: q :: firstn 1 (without [p; q] (held 1 H)))
         | _ => None
         end
  | 1 => match held 2 H with
         | p :: _ => Some (Pair p, p :: firstn 3 (without [p] (held 1 H)))
         | [] => None
         end
  | _ => match firstn 5 (held 1 H) with
         | t :: l => Some (HighCard t, t :: l)
         | [] => None
         end
  end.

(** The first category, from the top, that applies. *)
Fixpoint first_rule (ks : list nat) (H : list face) : eval_class * list rank :=
  match ks with
  | [] => (HighCard Two, [])
  | k :: ks' => match rule k H with Some x => x | None => first_rule ks' H end
  end.
Definition best (H : list face) : eval_class * list rank := first_rule [8; 7; 6; 5; 4; 3; 2; 1; 0] H.

(** Comparing two such descriptions. *)
Definition worth_more (x y : eval_class * list rank) : Prop :=
  category (fst y) < category (fst x)
  \/ (category (fst x) = category (fst y) /\ lex_gt (snd x) (snd y)).
