(** SpecApi.v: vocabulary of the property statements that relates values of the API (cards, hands,
    evaluators) to the rules in Spec.v.  Definitions only. *)
From Coq Require Import List Sorted.
From Verif Require Import Base ModelCard ModelEval ModelTable ModelEvaluation Spec.
Import ListNotations.

(** A card that exists: the field of [Card] is private, so [Card::new] is the only source. *)
Definition a_card (c : card) : Prop := exists r s, c = card_new r s.
Definition all_cards (h : list card) : Prop := Forall a_card h.

(** What a card shows through [Card::rank] and [Card::suit]. *)
Definition face_of (c : card) : face := (card_rank c, card_suit c).
Definition faces (h : list card) : list face := map face_of h.

(** Five different cards. *)
Definition hand5 (h : list card) : Prop := all_cards h /\ NoDup h /\ length h = 5.
(** Five or more different cards. *)
Definition legal (h : list card) : Prop := all_cards h /\ NoDup h /\ 5 <= length h.

(** [ev] is what [Evaluator::new()] returns. *)
Definition new_evaluator (ev : evaluator) : Prop := evaluator_new = Ret ev.
(** [ev.evaluate(h)] returns [Ok(e)]. *)
Definition evaluates (ev : evaluator) (h : list card) (e : eval) : Prop :=
  evaluate ev h = Ret (Ok e).

(** The same card in another suit. *)
Definition recolour (f : suit -> suit) (c : card) : card :=
  card_new (card_rank c) (f (card_suit c)).

(** Ten to ace of one suit. *)
Definition royal (s : suit) : list card :=
  map (fun r => card_new r s) [Ten; Jack; Queen; King; Ace].

(** Each result strictly better than all later ones. *)
Fixpoint descending (l : list eval) : Prop :=
  match l with
  | [] => True
  | e :: l' => (forall e', In e' l' -> eval_cmp e e' = Gt) /\ descending l'
  end.

(** Some elements of a list, in their order. *)
Inductive sublist {T} : list T -> list T -> Prop :=
| sub_nil : sublist [] []
| sub_keep x a l : sublist a l -> sublist (x :: a) (x :: l)
| sub_skip x a l : sublist a l -> sublist a (x :: l).

(** What a [Combinations] iterator yields to a caller who keeps asking. *)
Inductive iterates {T} : combinations T -> list (list T) -> Prop :=
| iterates_end c c' : combinations_next c = Ret (None, c') -> iterates c []
| iterates_item c x c' l :
    combinations_next c = Ret (Some x, c') -> iterates c' l -> iterates c (x :: l).

(** Lexicographic order of position lists. *)
Fixpoint lex_lt (a b : list nat) : Prop :=
  match a, b with
  | x :: a', y :: b' => x < y \/ (x = y /\ lex_lt a' b')
  | _, _ => False
  end.

(** A choice of [n] positions below [len], smallest first. *)
Definition choice (n len : nat) (I : list nat) : Prop :=
  length I = n /\ StronglySorted lt I /\ Forall (fun i => i < len) I.

(** A result of evaluating some legal hand. *)
Definition an_evaluation (ev : evaluator) (e : eval) : Prop :=
  exists h, legal h /\ evaluates ev h e.

(** An evaluator a user can get without [default()]: new, or a clone of such. *)
Inductive built : evaluator -> Prop :=
| built_new ev : new_evaluator ev -> built ev
| built_clone ev : built ev -> built (evaluator_clone ev).

(** src/evaluate/static_lookup.rs:171-193, what the crate's test [ensure_identical_tables]
    asserts about one pair of tables ([==] on [Meta] compares rank numbers only). *)
Definition table_test (dyn stat : map_i32 meta) : Prop :=
  (forall k v, map_get stat k = Some v ->
     exists w, map_get dyn k = Some w /\ meta_eqb w v = true)
  /\ map_len dyn = map_len stat.

(** Two results a caller can only tell apart by looking at the class. *)
Definition same_verdict (a b : outcome (result eval eval_error)) : Prop :=
  match a, b with
  | Ret (Ok x), Ret (Ok y) => eval_eqb x y = true
  | _, _ => a = b
  end.

(** The category (Spec.v) every hand of [n] different cards reaches, and some such hand does not
    exceed. *)
Definition guaranteed (n : nat) : nat :=
  if Nat.ltb n 12 then category (HighCard Ace)
  else if Nat.ltb n 13 then category (Pair Ace)
  else if Nat.ltb n 17 then category (TwoPair Ace King)
  else if Nat.ltb n 27 then category (Flush Ace)
  else if Nat.ltb n 40 then category (FullHouse Ace King)
  else if Nat.ltb n 45 then category (FourOfAKind Ace)
  else category (StraightFlush Ace).

(** The deciding ranks of the weakest result any [n] different cards can have, for [n] up to 11. *)
Definition weakest (n : nat) : list rank :=
  match n with
  | 5 => [Seven; Five; Four; Three; Two]
  | 6 => [Eight; Seven; Five; Four; Three]
  | 7 => [Nine; Eight; Seven; Five; Four]
  | 8 => [Ten; Nine; Eight; Seven; Five]
  | 9 => [Queen; Ten; Nine; Eight; Seven]
  | 10 => [King; Queen; Ten; Nine; Eight]
  | _ => [Ace; King; Queen; Jack; Nine]
  end.

(** The source [gen], keeping a list of the bounds it was asked for. *)
Definition recording {R} (gen : R -> nat -> nat * R) (state : R * list nat) (bound : nat) :
    nat * (R * list nat) :=
  let (j, r) := gen (fst state) bound in (j, (r, snd state ++ [bound])).
(** A source of random numbers that gives prepared answers, and the lists of answers it can give to
    someone who asks for a number below [n], then below [n - 1], and so on down to 2. *)
Definition script (js : list nat) (bound : nat) : nat * list nat :=
  match js with j :: js' => (j, js') | [] => (0, []) end.
Fixpoint answers (n : nat) (js : list nat) : Prop :=
  match n with
  | S (S _ as n') => match js with j :: js' => j < n /\ answers n' js' | [] => False end
  | _ => js = []
  end.

(** What a hand [H] of any size has to hold for category [k]. *)
Definition holds (H : list face) (k : nat) : Prop :=
  match k with
  | 0 => True
  | 1 => exists r, 2 <= count r H
  | 2 => exists p q, p <> q /\ 2 <= count p H /\ 2 <= count q H
  | 3 => exists r, 3 <= count r H
  | 4 => exists F top, incl F H /\ in_sequence F top
  | 5 => exists F, five_card_hand F /\ incl F H /\ suited F
  | 6 => exists t p, t <> p /\ 3 <= count t H /\ 2 <= count p H
  | 7 => exists r, count r H = 4
  | 8 => exists F top, incl F H /\ in_sequence F top /\ suited F
  | _ => False
  end.

(** The ranks a class names, the more important first. *)
Definition named_ranks (c : eval_class) : list rank :=
  match c with
  | HighCard r | Pair r | ThreeOfAKind r | Straight r | Flush r | FourOfAKind r | StraightFlush r => [r]
  | TwoPair hi lo => [hi; lo]
  | FullHouse three two => [three; two]
  end.
(** Class [a] is above class [b]. *)
Definition outranks (a b : eval_class) : Prop :=
  category b < category a
  \/ (category a = category b /\ lex_gt (named_ranks a) (named_ranks b)).
(** The classes that five cards of a deck can have. *)
Definition possible (c : eval_class) : Prop :=
  match c with
  | HighCard top | Flush top => 7 <= pips top
  | Straight top | StraightFlush top => 5 <= pips top
  | TwoPair hi lo => pips lo < pips hi
  | FullHouse three two => three <> two
  | Pair _ | ThreeOfAKind _ | FourOfAKind _ => True
  end.
