(** PropertiesModel.v: C96 (best and worst), C97 (what does not change a result) and C98 (the model), of the source text
    itself, read and run as in PropertiesRust.v; C98 compares it with the hand-written model. *)
From Coq Require Import String List Arith Lia Permutation.
From Verif Require Import Base ModelCard ModelEval ModelTable ModelEvaluation Spec RustSyntax RustSemantics RustProgram RustValues.
From Verif Require Import SpecApi SpecRust.
From Verif Require RustBounds RustAgrees.
Import ListNotations.
Local Open Scope string_scope.
Local Open Scope list_scope.

(** C96: no result is better than [Eval::BEST] or worse than [Eval::WORST], both are results, the first exactly of hands
    with a royal flush, the second exactly of hands that beat no hand. *)
Theorem C96_bounds : forall P ev, load_all texts = Some P -> returns P "Evaluator::new" None [] ev ->
  exists b w, assoc "Eval::BEST" (constants P) = Some b /\ assoc "Eval::WORST" (constants P) = Some w
    /\ (exists h cs, five_card_hand h /\ Forall2 (made P) h cs /\ gives P ev cs b)
    /\ (exists h cs, five_card_hand h /\ Forall2 (made P) h cs /\ gives P ev cs w)
    /\ forall h cs e, Forall2 (made P) h cs -> NoDup h -> 5 <= length h -> gives P ev cs e ->
         better P e b false /\ worse P e w false
         /\ (exists x, same P e b x
               /\ (x = true <-> exists s, incl [(Ten, s); (Jack, s); (Queen, s); (King, s); (Ace, s)] h))
         /\ (exists x, same P e w x
               /\ (x = true <-> forall h' g, five_card_hand h' -> incl h' h -> five_card_hand g -> ~ beats h' g)).
Proof. exact RustBounds.runs_bounds. Qed.
Print Assumptions C96_bounds.
(** A royal flush and another card *)
Example C96_case : exists P ev cs b, load_all texts = Some P /\ returns P "Evaluator::new" None [] ev
  /\ Forall2 (made P) [(Ten, Hearts); (Jack, Hearts); (Queen, Hearts); (King, Hearts); (Ace, Hearts); (Two, Clubs)] cs
  /\ gives P ev cs b /\ assoc "Eval::BEST" (constants P) = Some b.
Proof. exact RustBounds.royal_is_best. Qed.

(** C97: neither the order of the cards *)
Theorem C97_order : forall P ev h1 cs1 h2 cs2 e, load_all texts = Some P -> returns P "Evaluator::new" None [] ev ->
  Forall2 (made P) h1 cs1 -> Forall2 (made P) h2 cs2 -> NoDup h1 -> 5 <= length h1 -> Permutation h1 h2 ->
  gives P ev cs1 e -> gives P ev cs2 e.
Proof. exact RustBounds.runs_order. Qed.
Print Assumptions C97_order.
(** nor exchanging suits changes the result, *)
Theorem C97_suits : forall P ev h cs f cs' e, load_all texts = Some P -> returns P "Evaluator::new" None [] ev ->
  (forall a b, f a = f b -> a = b) ->
  Forall2 (made P) h cs -> Forall2 (made P) (map (fun c => (fst c, f (snd c))) h) cs' -> NoDup h -> 5 <= length h ->
  gives P ev cs e -> gives P ev cs' e.
Proof. exact RustBounds.runs_suits. Qed.
Print Assumptions C97_suits.
(** more cards never make it worse, *)
Theorem C97_more : forall P ev h1 cs1 e1 h2 cs2 e2, load_all texts = Some P -> returns P "Evaluator::new" None [] ev ->
  Forall2 (made P) h1 cs1 -> NoDup h1 -> 5 <= length h1 -> gives P ev cs1 e1 ->
  Forall2 (made P) h2 cs2 -> NoDup h2 -> incl h1 h2 -> gives P ev cs2 e2 -> worse P e2 e1 false.
Proof. exact RustBounds.runs_more. Qed.
Print Assumptions C97_more.
(** and results are in a total order. *)
Theorem C97_laws : forall P ev a b c, load_all texts = Some P -> returns P "Evaluator::new" None [] ev ->
  (forall v, In v [a; b; c] -> exists h cs, Forall2 (made P) h cs /\ NoDup h /\ 5 <= length h /\ gives P ev cs v) ->
  (exists x y z, better P a b x /\ worse P a b y /\ same P a b z
     /\ better P b a y /\ worse P b a x /\ same P b a z
     /\ In (x, y, z) [(true, false, false); (false, true, false); (false, false, true)]
     /\ (z = true <-> a = b))
  /\ (better P a b true -> better P b c true -> better P a c true)
  /\ (better P a b false -> better P b c false -> better P a c false).
Proof. exact RustBounds.runs_laws. Qed.
Print Assumptions C97_laws.
(** Kings full of deuces, and the same from the last to the first *)
Example C97_case : exists P ev cs1 cs2 e, load_all texts = Some P /\ returns P "Evaluator::new" None [] ev
  /\ Forall2 (made P) [(King, Spades); (Two, Hearts); (King, Hearts); (Two, Clubs); (King, Diamonds)] cs1
  /\ Forall2 (made P) [(King, Diamonds); (Two, Clubs); (King, Hearts); (Two, Hearts); (King, Spades)] cs2
  /\ gives P ev cs1 e /\ gives P ev cs2 e.
Proof. exact RustBounds.turned_round. Qed.

(** C98: the text returns what the model's functions return: on cards, *)
Theorem C98_cards : forall P, load_all texts = Some P ->
  (forall r, returns P "Rank::as_char" None [rank_value r] (VChr (rank_as_char r)))
  /\ (forall s, returns P "Suit::as_char" None [suit_value s] (VChr (suit_as_char s)))
  /\ (forall s, returns P "Suit::as_pretty_char" None [suit_value s] (VChr (suit_as_pretty_char s)))
  /\ (forall x, returns P "Rank::try_from" None [VChr x] (result_value rank_value VChr (rank_try_from x)))
  /\ (forall x, returns P "Suit::try_from" None [VChr x] (result_value suit_value VChr (suit_try_from x)))
  /\ (forall r s, returns P "Card::new" None [rank_value r; suit_value s] (card_value (card_new r s)))
  /\ (forall x y, returns P "Card::try_from_chars" None [VChr x; VChr y] (result_value card_value parse_error_value (try_from_chars x y)))
  /\ (forall s, returns P "Card::from_str" None [VStr s] (result_value card_value parse_error_value (card_from_str s)))
  /\ (forall c, returns P "Card::rank" None [card_value c] (rank_value (card_rank c)))
  /\ (forall c, returns P "Card::suit" None [card_value c] (suit_value (card_suit c)))
  /\ (forall c, returns P "Card::unique_integer" None [card_value c] (VInt I32 (unique_integer c)))
  /\ (forall c, returns P "Card::rank_suit_string" None [card_value c] (VStr (rank_suit_string c)))
  /\ (forall a b, returns P "Card::cmp" None [card_value a; card_value b] (ordering (card_cmp a b)))
  /\ (forall a b, returns P "Card::partial_cmp" None [card_value a; card_value b] (option_value ordering (card_partial_cmp a b)))
  /\ returns P "generate" None [] (cards_value deck_generate).
Proof. exact RustAgrees.agrees_cards. Qed.
Print Assumptions C98_cards.
(** on hands, with whatever table (with the empty one of [Evaluator::default()] it panics), *)
Theorem C98_evaluate : forall P, load_all texts = Some P ->
  (forall m, new_evaluator m -> returns P "Evaluator::new" None [] (evaluator_value m))
  /\ (forall m l, (Z.of_nat (length l) < 2 ^ 63)%Z ->
        match evaluate m l with
        | Ret r => returns P "Evaluator::evaluate" None [evaluator_value m; cards_value l] (result_value eval_value eval_error_value r)
        | Panic _ => panics P "Evaluator::evaluate" None [evaluator_value m; cards_value l]
        | OutOfFuel => False
        end)
  /\ (forall h, legal h -> panics P "Evaluator::evaluate" None [evaluator_value evaluator_default; cards_value h]).
Proof. exact RustAgrees.agrees_evaluate. Qed.
Print Assumptions C98_evaluate.
(** on results, *)
Theorem C98_results : forall P, load_all texts = Some P ->
  (forall e, returns P "Eval::hand_rank" None [eval_value e] (hand_rank_value (eval_hand_rank e))
     /\ returns P "Eval::class" None [eval_value e] (class_value (eval_class_of e))
     /\ returns P "Eval::is_high_card" None [eval_value e] (VBool (eval_is_high_card e))
     /\ returns P "Eval::is_pair" None [eval_value e] (VBool (eval_is_pair e))
     /\ returns P "Eval::is_two_pair" None [eval_value e] (VBool (eval_is_two_pair e))
     /\ returns P "Eval::is_three_of_a_kind" None [eval_value e] (VBool (eval_is_three_of_a_kind e))
     /\ returns P "Eval::is_straight" None [eval_value e] (VBool (eval_is_straight e))
     /\ returns P "Eval::is_flush" None [eval_value e] (VBool (eval_is_flush e))
     /\ returns P "Eval::is_full_house" None [eval_value e] (VBool (eval_is_full_house e))
     /\ returns P "Eval::is_four_of_a_kind" None [eval_value e] (VBool (eval_is_four_of_a_kind e))
     /\ returns P "Eval::is_straight_flush" None [eval_value e] (VBool (eval_is_straight_flush e))
     /\ returns P "Eval::is_royal_flush" None [eval_value e] (VBool (eval_is_royal_flush e)))
  /\ (forall a b, returns P "Eval::is_better_than" None [eval_value a; eval_value b] (VBool (eval_is_better_than a b))
     /\ returns P "Eval::is_worse_than" None [eval_value a; eval_value b] (VBool (eval_is_worse_than a b))
     /\ returns P "Eval::is_equal_to" None [eval_value a; eval_value b] (VBool (eval_is_equal_to a b)))
  /\ (forall a b, returns P "Meta::eq" None [meta_value a; meta_value b] (VBool (meta_eqb a b))
     /\ returns P "Meta::cmp" None [meta_value a; meta_value b] (ordering (meta_cmp a b))
     /\ returns P "Meta::partial_cmp" None [meta_value a; meta_value b] (option_value ordering (meta_partial_cmp a b))).
Proof. exact RustAgrees.agrees_results. Qed.
Print Assumptions C98_results.
(** and in what it writes. *)
Theorem C98_written : forall P, load_all texts = Some P -> forall acc,
  (forall r, returns_mut P "Rank::fmt" None [rank_value r; VStr acc] fine (VStr (acc ++ rank_display r)))
  /\ (forall s, returns_mut P "Suit::fmt" None [suit_value s; VStr acc] fine (VStr (acc ++ suit_display s)))
  /\ (forall c, returns_mut P "Card::fmt" None [card_value c; VStr acc] fine (VStr (acc ++ card_display c)))
  /\ (forall c, returns_mut P "EvalClass::fmt" None [class_value c; VStr acc] fine (VStr (acc ++ class_display c)))
  /\ (forall e, returns_mut P "Eval::fmt" None [eval_value e; VStr acc] fine (VStr (acc ++ eval_display e)))
  /\ (forall e, returns_mut P "ParseCardError::fmt" None [parse_error_value e; VStr acc] fine (VStr (acc ++ parse_card_error_display e)))
  /\ (forall e, returns_mut P "EvalError::fmt" None [eval_error_value e; VStr acc] fine (VStr (acc ++ eval_error_display (fun l => l) e))).
Proof. exact RustAgrees.agrees_written. Qed.
Print Assumptions C98_written.
(** A royal flush and the empty table *)
Example C98_case : exists P, load_all texts = Some P
  /\ panics P "Evaluator::evaluate" None [evaluator_value evaluator_default; cards_value (royal Hearts)].
Proof. exact RustAgrees.default_panics_too. Qed.
