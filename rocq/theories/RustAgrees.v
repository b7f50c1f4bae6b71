(** RustAgrees.v: the source text returns what the functions of the model return, function by function, so that what is
    proved of the model holds of the text. *)
From Coq Require Import String Lia.
From Verif Require Import Base BaseFacts ModelCard ModelEval ModelTable ModelEvaluation CardFacts Spec SpecApi.
From Verif Require HandFacts LawFacts Samples.
From Verif Require Import RustSyntax RustSemantics RustProgram RustValues RustSteps RustFacts RustUtils RustEvaluate RustHands.
From Verif Require Import RustTable RustFormat RustDuplicates RustStreams RustRuns SpecRust.
Local Open Scope string_scope.
Local Open Scope list_scope.

Ltac by_call D L := apply (returns_at 0 D); intros fuel d; exact (L fuel d _).
Ltac by_call2 D L := apply (returns_at 0 D); intros fuel d; exact (L fuel d _ _).
Ltac by_write D L := apply (mut_at 0 D); intros fuel d; exact (L fuel d _ _).

Theorem agrees_cards : forall P, load_all texts = Some P ->
  (forall r, returns P "Rank::as_char" None [rank_value r] (VChr (rank_as_char r)))
  /\ (forall s, returns P "Suit::as_char" None [suit_value s] (VChr (suit_as_char s)))
  /\ (forall s, returns P "Suit::as_pretty_char" None [suit_value s] (VChr (suit_as_pretty_char s)))
  /\ (forall x, returns P "Rank::try_from" None [VChr x] (result_value rank_value VChr (rank_try_from x)))
  /\ (forall x, returns P "Suit::try_from" None [VChr x] (result_value suit_value VChr (suit_try_from x)))
  /\ (forall r s, returns P "Card::new" None [rank_value r; suit_value s] (card_value (card_new r s)))
  /\ (forall x y, returns P "Card::try_from_chars" None [VChr x; VChr y] (result_value card_value parse_error_value (try_from_chars x y)))
  /\ (forall s, returns P "Card::from_str" None [VStr s] (result_value card_value parse_error_value (card_from_str s)))
  /\ (forall c, returns P "Card::rank" None [card_value c] (rank_value (card_rank c)))
  /\ (forall c, returns P "Card::suit" None [card_value c] (suit_value (card_suit c)))
  /\ (forall c, returns P "Card::unique_integer" None [card_value c] (VInt I32 (unique_integer c)))
  /\ (forall c, returns P "Card::rank_suit_string" None [card_value c] (VStr (rank_suit_string c)))
  /\ (forall a b, returns P "Card::cmp" None [card_value a; card_value b] (ordering (card_cmp a b)))
  /\ (forall a b, returns P "Card::partial_cmp" None [card_value a; card_value b] (option_value ordering (card_partial_cmp a b)))
  /\ returns P "generate" None [] (cards_value deck_generate).
Proof.
  intros P H. rewrite (loaded P H). clear P H. repeat split; intros.
  - by_call 1 call_rank_as_char.
  - by_call 1 call_suit_as_char.
  - by_call 1 call_suit_as_pretty_char.
  - by_call 1 call_rank_try_from.
  - by_call 1 call_suit_try_from.
  - by_call2 2 call_card_new.
  - by_call2 3 call_try_from_chars.
  - by_call 3 call_card_from_str.
  - by_call 2 call_card_rank.
  - by_call 2 call_card_suit.
  - by_call 1 call_unique_integer.
  - by_call 3 call_rank_suit_string.
  - by_call2 3 call_card_cmp.
  - by_call2 3 call_card_partial_cmp.
  - apply (returns_at 0 4). exact call_generate.
Qed.

(** With any table, not only that of [Evaluator::new()] *)
(** [evaluate] is never cut off by the model's fuel. *)
Definition finishes {A} (x : outcome A) : Prop := x <> OutOfFuel.

Lemma finishes_bind {A B} (x : outcome A) (f : A -> outcome B) :
  finishes x -> (forall a, finishes (f a)) -> finishes (bind x f).
Proof. intros X F. destruct x; [ apply F | discriminate | contradiction X; reflexivity ]. Qed.

Lemma finishes_foldM {S A} (f : S -> A -> outcome S) : (forall s a, finishes (f s a)) ->
  forall l s, finishes (foldM f l s).
Proof. intros F l. induction l as [|a l IH]; intros s; [ discriminate | ]. apply finishes_bind; [ apply F | exact IH ]. Qed.

Lemma finishes_index {A} (l : list A) i : finishes (index l i).
Proof. unfold index. destruct (nth_error l i); discriminate. Qed.

Lemma finishes_key {V} (g : Z -> option V) k : finishes (index_key g k).
Proof. unfold index_key. destruct (g k); discriminate. Qed.

Lemma finishes_unique l : forall flags, finishes (all_unique_from flags l).
Proof.
  induction l as [|c l IH]; intros flags; [ discriminate | ]. cbn [all_unique_from].
  apply finishes_bind; [ | intros i ].
  { unfold card_to_index, chk. match goal with |- finishes (if ?b then _ else _) => destruct b end; discriminate. }
  apply finishes_bind; [ | intros b ].
  { unfold shl_u64. match goal with |- finishes (if ?b then _ else _) => destruct b end; discriminate. }
  destruct (negb _); [ discriminate | apply IH ].
Qed.

Lemma finishes_five ev l : finishes (five ev l).
Proof.
  unfold five. match goal with |- finishes (if ?b then _ else _) => destruct b end.
  - apply finishes_bind; [ | intros z; apply finishes_bind; [ apply finishes_key | discriminate ] ].
    unfold prime_product_from_rank_bits. apply finishes_foldM. intros p i. apply finishes_bind; [ | intros m ].
    + unfold shl_i16. match goal with |- finishes (if ?b then _ else _) => destruct b end; discriminate.
    + match goal with |- finishes (if ?b then _ else _) => destruct b end; [ | discriminate ].
      apply finishes_bind; [ apply finishes_index | discriminate ].
  - apply finishes_bind; [ apply finishes_key | discriminate ].
Qed.

Lemma finishes_evaluate m l : finishes (evaluate m l).
Proof.
  unfold evaluate, evaluate_with. apply finishes_bind; [ apply finishes_unique | intros [|]; [ | discriminate ] ].
  destruct (Nat.ltb (length l) 5) eqn:L; [ discriminate | ]. apply Nat.ltb_ge in L.
  destruct (Nat.eqb (length l) 5).
  - do 5 (apply finishes_bind; [ apply finishes_index | intros ? ]).
    apply finishes_bind; [ apply finishes_five | discriminate ].
  - apply finishes_bind; [ | discriminate ]. unfold six_plus. destruct (negb _); [ discriminate | ].
    rewrite CombosFacts.for_const_combos_spec by lia. apply finishes_foldM. intros e c.
    apply finishes_bind; [ apply finishes_five | intros x ]. destruct (op_gt _); discriminate.
Qed.

Theorem agrees_evaluate : forall P, load_all texts = Some P ->
  (forall m, new_evaluator m -> returns P "Evaluator::new" None [] (evaluator_value m))
  /\ (forall m l, (Z.of_nat (length l) < 2 ^ 63)%Z ->
        match evaluate m l with
        | Ret r => returns P "Evaluator::evaluate" None [evaluator_value m; cards_value l] (result_value eval_value eval_error_value r)
        | Panic _ => panics P "Evaluator::evaluate" None [evaluator_value m; cards_value l]
        | OutOfFuel => False
        end)
  /\ (forall h, legal h -> panics P "Evaluator::evaluate" None [evaluator_value evaluator_default; cards_value h]).
Proof.
  intros P H. rewrite (loaded P H). clear P H.
  assert (K : forall m l, (Z.of_nat (length l) < 2 ^ 63)%Z ->
        match evaluate m l with
        | Ret r => returns rust "Evaluator::evaluate" None [evaluator_value m; cards_value l] (result_value eval_value eval_error_value r)
        | Panic _ => panics rust "Evaluator::evaluate" None [evaluator_value m; cards_value l]
        | OutOfFuel => False
        end).
  { intros m l L.
    assert (C : forall fuel d, call (engine (S (binom (length l) 5) + fuel) (8 + d)) "Evaluator::evaluate" None [evaluator_value m; cards_value l]
              = lift (fun x => (result_value eval_value eval_error_value x, VUnit)) (evaluate m l)).
    { intros fuel d. apply (call_evaluator_evaluate (S (binom (length l) 5) + fuel) d m l); [ intros _; exact L | lia ]. }
    pose proof (finishes_evaluate m l) as F. destruct (evaluate m l) as [r|p|]; [ | | apply F; reflexivity ].
    - apply (returns_at (S (binom (length l) 5)) 8). exact C.
    - apply (panics_at (S (binom (length l) 5)) 8 _ _ _ p). exact C. }
  split; [ | split ].
  - intros m Hm. destruct (HandFacts.evaluator_new_inv m Hm) as (t & Ht & ->). exact (evaluator_made t Ht).
  - exact K.
  - intros h L. assert (L' : (Z.of_nat (length h) < 2 ^ 63)%Z).
    { apply Z.le_lt_trans with 52%Z; [ | reflexivity ]. apply (inj_le _ 52), deck_52; apply L. }
    pose proof (K evaluator_default h L') as X. rewrite (LawFacts.default_panics h L) in X. exact X.
Qed.

Theorem agrees_results : forall P, load_all texts = Some P ->
  (forall e, returns P "Eval::hand_rank" None [eval_value e] (hand_rank_value (eval_hand_rank e))
     /\ returns P "Eval::class" None [eval_value e] (class_value (eval_class_of e))
     /\ returns P "Eval::is_high_card" None [eval_value e] (VBool (eval_is_high_card e))
     /\ returns P "Eval::is_pair" None [eval_value e] (VBool (eval_is_pair e))
     /\ returns P "Eval::is_two_pair" None [eval_value e] (VBool (eval_is_two_pair e))
     /\ returns P "Eval::is_three_of_a_kind" None [eval_value e] (VBool (eval_is_three_of_a_kind e))
     /\ returns P "Eval::is_straight" None [eval_value e] (VBool (eval_is_straight e))
     /\ returns P "Eval::is_flush" None [eval_value e] (VBool (eval_is_flush e))
     /\ returns P "Eval::is_full_house" None [eval_value e] (VBool (eval_is_full_house e))
     /\ returns P "Eval::is_four_of_a_kind" None [eval_value e] (VBool (eval_is_four_of_a_kind e))
     /\ returns P "Eval::is_straight_flush" None [eval_value e] (VBool (eval_is_straight_flush e))
     /\ returns P "Eval::is_royal_flush" None [eval_value e] (VBool (eval_is_royal_flush e)))
  /\ (forall a b, returns P "Eval::is_better_than" None [eval_value a; eval_value b] (VBool (eval_is_better_than a b))
     /\ returns P "Eval::is_worse_than" None [eval_value a; eval_value b] (VBool (eval_is_worse_than a b))
     /\ returns P "Eval::is_equal_to" None [eval_value a; eval_value b] (VBool (eval_is_equal_to a b)))
  /\ (forall a b, returns P "Meta::eq" None [meta_value a; meta_value b] (VBool (meta_eqb a b))
     /\ returns P "Meta::cmp" None [meta_value a; meta_value b] (ordering (meta_cmp a b))
     /\ returns P "Meta::partial_cmp" None [meta_value a; meta_value b] (option_value ordering (meta_partial_cmp a b))).
Proof.
  intros P H. rewrite (loaded P H). clear P H. split; [ | split ].
  - intros e. repeat split.
    + by_call 2 call_eval_hand_rank.
    + by_call 2 call_eval_class.
    + by_call 2 call_eval_is_high_card.
    + by_call 2 call_eval_is_pair.
    + by_call 2 call_eval_is_two_pair.
    + by_call 2 call_eval_is_three_of_a_kind.
    + by_call 2 call_eval_is_straight.
    + by_call 2 call_eval_is_flush.
    + by_call 2 call_eval_is_full_house.
    + by_call 2 call_eval_is_four_of_a_kind.
    + by_call 2 call_eval_is_straight_flush.
    + by_call 2 call_eval_is_royal_flush.
  - intros a b. repeat split.
    + by_call2 3 call_eval_is_better_than.
    + by_call2 3 call_eval_is_worse_than.
    + by_call2 3 call_eval_is_equal_to.
  - intros a b. repeat split.
    + by_call2 2 call_meta_eq.
    + by_call2 2 call_meta_cmp.
    + by_call2 2 call_meta_partial_cmp.
Qed.

Theorem agrees_written : forall P, load_all texts = Some P -> forall acc,
  (forall r, returns_mut P "Rank::fmt" None [rank_value r; VStr acc] fine (VStr (acc ++ rank_display r)))
  /\ (forall s, returns_mut P "Suit::fmt" None [suit_value s; VStr acc] fine (VStr (acc ++ suit_display s)))
  /\ (forall c, returns_mut P "Card::fmt" None [card_value c; VStr acc] fine (VStr (acc ++ card_display c)))
  /\ (forall c, returns_mut P "EvalClass::fmt" None [class_value c; VStr acc] fine (VStr (acc ++ class_display c)))
  /\ (forall e, returns_mut P "Eval::fmt" None [eval_value e; VStr acc] fine (VStr (acc ++ eval_display e)))
  /\ (forall e, returns_mut P "ParseCardError::fmt" None [parse_error_value e; VStr acc] fine (VStr (acc ++ parse_card_error_display e)))
  /\ (forall e, returns_mut P "EvalError::fmt" None [eval_error_value e; VStr acc] fine (VStr (acc ++ eval_error_display (fun l => l) e))).
Proof.
  intros P H acc. rewrite (loaded P H). clear P H. repeat split; intros.
  - by_write 2 call_rank_fmt.
  - by_write 2 call_suit_fmt.
  - by_write 3 call_card_fmt.
  - by_write 2 call_class_fmt.
  - by_write 4 call_eval_fmt.
  - by_write 1 call_parse_error_fmt.
  - destruct e as [cs|n]; [ by_write 5 call_not_unique_fmt | ].
    apply (mut_at 0 1). intros fuel d. exact (call_eval_error_fmt fuel d n acc (fun l => l)).
Qed.
(** For the example beside the property *)
Lemma default_panics_too : exists P, load_all texts = Some P
  /\ panics P "Evaluator::evaluate" None [evaluator_value evaluator_default; cards_value (royal Hearts)].
Proof.
  exists rust. split; [ exact rust_loaded | ]. apply (agrees_evaluate rust rust_loaded).
  apply HandFacts.hand5_legal, HandFacts.royal_hand5.
Qed.
