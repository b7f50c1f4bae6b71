(** SpecRust.v: vocabulary of the statements about the source text itself.  Definitions only.  The values that go in
    and out are written as RustValues.v writes ranks, suits and classes: by the names they have in the text. *)
From Coq Require Import String List ZArith.
From Verif Require Import Base ModelCard ModelEval Spec RustSyntax RustSemantics RustValues.
From Verif Require SpecText.
Import ListNotations.
Local Open Scope string_scope.

(** [returns P f n args v]: calling [f::<n>(args)] returns [v]; how deep calls may nest and how often a loop may turn
    make no difference from some point on. *)
Definition returns (P : program) (f : string) (n : option value) (args : list value) (v : value) : Prop :=
  exists N D, forall fuel depth, N <= fuel -> D <= depth -> call (machine P fuel depth) f n args = Val (v, VUnit).
(** The same for a method that takes [&mut self]: [w] is what it leaves there. *)
Definition returns_mut (P : program) (f : string) (n : option value) (args : list value) (v w : value) : Prop :=
  exists N D, forall fuel depth, N <= fuel -> D <= depth -> call (machine P fuel depth) f n args = Val (v, w).
(** Calling it panics. *)
Definition panics (P : program) (f : string) (n : option value) (args : list value) : Prop :=
  exists N D p, forall fuel depth, N <= fuel -> D <= depth -> call (machine P fuel depth) f n args = Panics p.

(** The value that [Card::new] returns for a face. *)
Definition made (P : program) (f : face) (v : value) : Prop :=
  returns P "Card::new" None [rank_value (fst f); suit_value (snd f)] v.
(** [e] is the result for the cards [cs] with the evaluator [ev]. *)
Definition gives (P : program) (ev : value) (cs : list value) (e : value) : Prop :=
  returns P "Evaluator::evaluate" None [ev; VList cs] (VCon "Ok" [("0", e)]).
Definition fails (P : program) (ev : value) (cs : list value) (e : value) : Prop :=
  returns P "Evaluator::evaluate" None [ev; VList cs] (VCon "Err" [("0", e)]).
(** What the methods of two results say. *)
Definition better (P : program) (a b : value) (x : bool) : Prop := returns P "Eval::is_better_than" None [a; b] (VBool x).
Definition worse (P : program) (a b : value) (x : bool) : Prop := returns P "Eval::is_worse_than" None [a; b] (VBool x).
Definition same (P : program) (a b : value) (x : bool) : Prop := returns P "Eval::is_equal_to" None [a; b] (VBool x).

(** What a [Combinations] yields to a caller who keeps asking. *)
Inductive yields (P : program) (n : nat) : value -> list (list value) -> Prop :=
| yields_end it it' :
    returns_mut P "Combinations::next" (Some (VInt Usize (Z.of_nat n))) [it] (VCon "None" []) it' -> yields P n it []
| yields_item it it' x l :
    returns_mut P "Combinations::next" (Some (VInt Usize (Z.of_nat n))) [it] (VCon "Some" [("0", VList x)]) it' ->
    yields P n it' l -> yields P n it (x :: l).

(** The questions a result answers, and the category (Spec.v) that each asks for. *)
Definition eval_questions : list (string * nat) :=
  [("Eval::is_high_card", category (HighCard Two)); ("Eval::is_pair", category (Pair Two));
   ("Eval::is_two_pair", category (TwoPair Three Two)); ("Eval::is_three_of_a_kind", category (ThreeOfAKind Two));
   ("Eval::is_straight", category (Straight Two)); ("Eval::is_flush", category (Flush Two));
   ("Eval::is_full_house", category (FullHouse Three Two)); ("Eval::is_four_of_a_kind", category (FourOfAKind Two));
   ("Eval::is_straight_flush", category (StraightFlush Two))].
(** [Ok(())] *)
Notation fine := (VCon "Ok" [("0", VUnit)]).
(** The signs of the suits: U+2663, U+2665, U+2660 and U+2666 *)
Definition suit_sign (s : suit) : rchar :=
  match s with Clubs => 9827 | Hearts => 9829 | Spades => 9824 | Diamonds => 9830 end%N.

(** What reading a string as a card returns *)
Definition reads (P : program) (s : list N) (r : value) : Prop := returns P "Card::from_str" None [VStr s] r.
(** [serves P it rs]: the iterator [it] says how many items it has, and yields [rs] to a caller who keeps asking, from
    either end. *)
Inductive serves (P : program) : value -> list value -> Prop :=
| serves_items it rs :
    returns P "ParseToIter::len" None [it] (VInt Usize (Z.of_nat (length rs))) ->
    returns P "ParseToIter::size_hint" None [it]
      (VList [VInt Usize (Z.of_nat (length rs)); VCon "Some" [("0", VInt Usize (Z.of_nat (length rs)))]]) ->
    (rs = [] -> returns_mut P "ParseToIter::next" None [it] (VCon "None" []) it
                /\ returns_mut P "ParseToIter::next_back" None [it] (VCon "None" []) it) ->
    (forall r rs', rs = r :: rs' -> exists it',
       returns_mut P "ParseToIter::next" None [it] (VCon "Some" [("0", r)]) it' /\ serves P it' rs') ->
    (forall rs' r, rs = (rs' ++ [r])%list -> exists it',
       returns_mut P "ParseToIter::next_back" None [it] (VCon "Some" [("0", r)]) it' /\ serves P it' rs') ->
    serves P it rs.
(** Applying the function or closure [f] returns [v]; [folds P f acc rs w]: doing so to [acc] and the first of [rs], then
    to the result and the next, and so on, ends with [w]. *)
Definition applies (P : program) (f : value) (args : list value) (v : value) : Prop :=
  exists N D, forall fuel depth, N <= fuel -> D <= depth -> apply (machine P fuel depth) f args = Val v.
Inductive folds (P : program) (f : value) : value -> list value -> value -> Prop :=
| folds_end acc : folds P f acc [] acc
| folds_item acc r rs acc' w : applies P f [acc; r] acc' -> folds P f acc' rs w -> folds P f acc (r :: rs) w.
(** The two characters of a card: 23456789TJQKA and chsd *)
Definition face_text (f : face) : list N :=
  [nth (pips (fst f) - 2) SpecText.rank_chars 0%N;
   match snd f with Clubs => 99 | Hearts => 104 | Spades => 115 | Diamonds => 100 end%N].
(** Hashing [v] feeds a hasher (the list of the integers that it was fed) the integer [w]. *)
Definition feeds (P : program) (v w : value) : Prop :=
  exists N D, forall fuel depth st k, N <= fuel -> D <= depth -> fed P (machine P fuel depth) v st k = k (st ++ [w])%list.
(** The answers of a random number generator to [shuffle] for 52 cards: a number below 52, one below 51, and so on. *)
Definition draws (zs : list Z) : Prop := Forall2 (fun z k => (0 <= z < Z.of_nat k)%Z) zs (rev (seq 2 51)).
