(** RustFacts.v: running the text of each small function of /repo gives what the model's function gives. *)
From Coq Require Import String Lia.
From Verif Require Import Base BaseFacts ModelCard ModelEval ModelTable ModelEvaluation CardFacts.
From Verif Require Import RustSyntax RustSemantics RustProgram RustValues RustSteps.
Local Open Scope string_scope.
Local Open Scope list_scope.
Local Open Scope Z_scope.

Ltac finite := intros; rewrite call_S; repeat match goal with r : rank |- _ => destruct r | s : suit |- _ => destruct s end; vm_compute; reflexivity.

(** ** Ranks and suits (src/card/rank.rs, src/card/suit.rs) *)
Lemma call_rank_as_char : forall fuel d r,
  call (engine fuel (S d)) "Rank::as_char" None [rank_value r] = Val (VChr (rank_as_char r), VUnit).
Proof. finite. Qed.
Lemma call_rank_as_i32 : forall fuel d r,
  call (engine fuel (S d)) "Rank::as_i32" None [rank_value r] = Val (VInt I32 (rank_as_i32 r), VUnit).
Proof. finite. Qed.
Lemma call_rank_as_str_name : forall fuel d r,
  call (engine fuel (S d)) "Rank::as_str_name" None [rank_value r] = Val (VStr (rank_as_str_name r), VUnit).
Proof. finite. Qed.
Lemma call_rank_as_str_name_plural : forall fuel d r,
  call (engine fuel (S d)) "Rank::as_str_name_plural" None [rank_value r] = Val (VStr (rank_as_str_name_plural r), VUnit).
Proof. finite. Qed.
Lemma call_suit_as_char : forall fuel d s,
  call (engine fuel (S d)) "Suit::as_char" None [suit_value s] = Val (VChr (suit_as_char s), VUnit).
Proof. finite. Qed.
Lemma call_suit_as_pretty_char : forall fuel d s,
  call (engine fuel (S d)) "Suit::as_pretty_char" None [suit_value s] = Val (VChr (suit_as_pretty_char s), VUnit).
Proof. finite. Qed.
Lemma call_suit_as_i32 : forall fuel d s,
  call (engine fuel (S d)) "Suit::as_i32" None [suit_value s] = Val (VInt I32 (suit_as_i32 s), VUnit).
Proof. finite. Qed.
Lemma call_card_new : forall fuel d r s,
  call (engine fuel (S (S d))) "Card::new" None [rank_value r; suit_value s] = Val (card_value (card_new r s), VUnit).
Proof. finite. Qed.

Lemma rank_from_i32_if : forall z, rank_from_i32 z =
  if z =? 0 then Two else if z =? 1 then Three else if z =? 2 then Four else if z =? 3 then Five
  else if z =? 4 then Six else if z =? 5 then Seven else if z =? 6 then Eight else if z =? 7 then Nine
  else if z =? 8 then Ten else if z =? 9 then Jack else if z =? 10 then Queen else if z =? 11 then King else Ace.
Proof. intros [|p|p]; try reflexivity. do 4 (destruct p as [p|p|]; try reflexivity). Qed.
Lemma suit_from_i32_if : forall z, suit_from_i32 z =
  if z =? 8 then Clubs else if z =? 4 then Diamonds else if z =? 2 then Hearts else Spades.
Proof. intros [|p|p]; try reflexivity. do 4 (destruct p as [p|p|]; try reflexivity). Qed.
Lemma rank_try_from_if : forall c, rank_try_from c =
  (if c =? 50 then Ok Two else if c =? 51 then Ok Three else if c =? 52 then Ok Four else if c =? 53 then Ok Five
   else if c =? 54 then Ok Six else if c =? 55 then Ok Seven else if c =? 56 then Ok Eight else if c =? 57 then Ok Nine
   else if c =? 84 then Ok Ten else if c =? 74 then Ok Jack else if c =? 81 then Ok Queen else if c =? 75 then Ok King
   else if c =? 65 then Ok Ace else Err c)%N.
Proof. intros [|p]; try reflexivity. do 7 (destruct p as [p|p|]; try reflexivity). Qed.
Lemma suit_try_from_if : forall c, suit_try_from c =
  (if c =? 115 then Ok Spades else if c =? 99 then Ok Clubs else if c =? 104 then Ok Hearts
   else if c =? 100 then Ok Diamonds else Err c)%N.
Proof. intros [|p]; try reflexivity. do 7 (destruct p as [p|p|]; try reflexivity). Qed.

Ltac follow :=
  repeat match goal with H : ?b = true |- context [if ?b then _ else _] => rewrite H | H : ?b = false |- context [if ?b then _ else _] => rewrite H end.
Ltac settle :=
  try match goal with
      | H : (_ =? _)%N = true |- _ => apply N.eqb_eq in H; subst
      | H : (_ =? _)%Z = true |- _ => apply Z.eqb_eq in H; subst
      end; follow; reflexivity.
Lemma call_rank_from_i32 : forall fuel d z,
  call (engine fuel (S d)) "Rank::from_i32" None [VInt I32 z] = Val (rank_value (rank_from_i32 z), VUnit).
Proof. intros. rewrite rank_from_i32_if. code. cases; settle. Qed.
Lemma call_suit_from_i32 : forall fuel d z,
  call (engine fuel (S d)) "Suit::from_i32" None [VInt I32 z] = Val (suit_value (suit_from_i32 z), VUnit).
Proof. intros. rewrite suit_from_i32_if. code. cases; settle. Qed.
Lemma call_rank_try_from : forall fuel d c,
  call (engine fuel (S d)) "Rank::try_from" None [VChr c] = Val (result_value rank_value VChr (rank_try_from c), VUnit).
Proof. intros. rewrite rank_try_from_if. code. cases; settle. Qed.
Lemma call_suit_try_from : forall fuel d c,
  call (engine fuel (S d)) "Suit::try_from" None [VChr c] = Val (result_value suit_value VChr (suit_try_from c), VUnit).
Proof. intros. rewrite suit_try_from_if. code. cases; settle. Qed.

(** ** Cards (src/card/mod.rs) *)
Lemma call_card_rank : forall fuel d c,
  call (engine fuel (S (S d))) "Card::rank" None [card_value c] = Val (rank_value (card_rank c), VUnit).
Proof.
  code. knowing call_rank_from_i32. over. reflexivity.
Qed.
Lemma call_card_suit : forall fuel d c,
  call (engine fuel (S (S d))) "Card::suit" None [card_value c] = Val (suit_value (card_suit c), VUnit).
Proof. code. knowing call_suit_from_i32. over. reflexivity. Qed.
Lemma call_unique_integer : forall fuel d c,
  call (engine fuel (S d)) "Card::unique_integer" None [card_value c] = Val (VInt I32 (unique_integer c), VUnit).
Proof. code. over. reflexivity. Qed.
Lemma call_rank_suit_string : forall fuel d c,
  call (engine fuel (S (S (S d)))) "Card::rank_suit_string" None [card_value c] = Val (VStr (rank_suit_string c), VUnit).
Proof.
  code. knowing call_card_rank. knowing call_rank_as_char. knowing call_card_suit. knowing call_suit_as_char. over. reflexivity.
Qed.

Lemma call_card_from_str : forall fuel d s,
  call (engine fuel (S (S (S d)))) "Card::from_str" None [VStr s]
  = Val (result_value card_value parse_error_value (card_from_str s), VUnit).
Proof.
  intros fuel d [|a [|b [|c s]]].
  - code. over. reflexivity.
  - code. over. reflexivity.
  - code. unfold card_from_str. learn call_rank_try_from.
    destruct (rank_try_from a) as [r|x]; cbn [result_value]; known.
    + learn call_suit_try_from.
      destruct (suit_try_from b) as [t|x]; cbn [result_value]; known.
      * knowing call_card_new. over. reflexivity.
      * eapply to_bnd; [ closure; over; reflexivity | ]. known. over. reflexivity.
    + eapply to_bnd; [ closure; over; reflexivity | ]. known. over. reflexivity.
  - code. over. reflexivity.
Qed.
(** The derived comparison of ranks *)
Lemma compare_ranks : forall o a b k, compare rust o (rank_value a) (rank_value b) k = k (rank_cmp a b).
Proof. intros. destruct a, b; reflexivity. Qed.
Lemma method_rank_cmp : forall o e es a b r k,
  method rust o e "cmp" es (rank_value a) [rank_value b] r k = k (ordering (rank_cmp a b)) r.
Proof. intros. destruct a, b; reflexivity. Qed.
Lemma method_rank_partial_cmp : forall o e es a b r k,
  method rust o e "partial_cmp" es (rank_value a) [rank_value b] r k = k (some_value (ordering (rank_cmp a b))) r.
Proof. intros. destruct a, b; reflexivity. Qed.
Lemma call_card_cmp : forall fuel d a b,
  call (engine fuel (S (S (S d)))) "Card::cmp" None [card_value a; card_value b] = Val (ordering (card_cmp a b), VUnit).
Proof.
  code. knowing call_card_rank. knowing call_card_rank.
  by_eq method_rank_cmp. reflexivity.
Qed.
Lemma call_card_partial_cmp : forall fuel d a b,
  call (engine fuel (S (S (S d)))) "Card::partial_cmp" None [card_value a; card_value b]
  = Val (option_value ordering (card_partial_cmp a b), VUnit).
Proof.
  code. knowing call_card_rank. knowing call_card_rank.
  by_eq method_rank_partial_cmp. reflexivity.
Qed.

(** ** Rank numbers and metas (src/evaluate/hand_rank.rs, meta.rs, eval.rs) *)
Lemma call_is_better_than : forall fuel d a b,
  call (engine fuel (S d)) "PokerHandRank::is_better_than" None [hand_rank_value a; hand_rank_value b]
  = Val (VBool (phr_is_better_than a b), VUnit).
Proof. code. over. reflexivity. Qed.
Lemma call_is_worse_than : forall fuel d a b,
  call (engine fuel (S d)) "PokerHandRank::is_worse_than" None [hand_rank_value a; hand_rank_value b]
  = Val (VBool (phr_is_worse_than a b), VUnit).
Proof. code. over. reflexivity. Qed.

Lemma call_meta_hand_rank : forall fuel d m,
  call (engine fuel (S d)) "Meta::hand_rank" None [meta_value m] = Val (hand_rank_value (meta_hand_rank m), VUnit).
Proof. intros. destruct m; vm_compute; reflexivity. Qed.
Lemma call_meta_class : forall fuel d m,
  call (engine fuel (S d)) "Meta::class" None [meta_value m] = Val (class_value (meta_class m), VUnit).
Proof. intros. destruct m; vm_compute; reflexivity. Qed.
Lemma call_meta_is_high_card : forall fuel d m,
  call (engine fuel (S d)) "Meta::is_high_card" None [meta_value m] = Val (VBool (meta_is_high_card m), VUnit).
Proof. intros. destruct m; vm_compute; reflexivity. Qed.
Lemma call_meta_is_pair : forall fuel d m,
  call (engine fuel (S d)) "Meta::is_pair" None [meta_value m] = Val (VBool (meta_is_pair m), VUnit).
Proof. intros. destruct m; vm_compute; reflexivity. Qed.
Lemma call_meta_is_two_pair : forall fuel d m,
  call (engine fuel (S d)) "Meta::is_two_pair" None [meta_value m] = Val (VBool (meta_is_two_pair m), VUnit).
Proof. intros. destruct m; vm_compute; reflexivity. Qed.
Lemma call_meta_is_three_of_a_kind : forall fuel d m,
  call (engine fuel (S d)) "Meta::is_three_of_a_kind" None [meta_value m] = Val (VBool (meta_is_three_of_a_kind m), VUnit).
Proof. intros. destruct m; vm_compute; reflexivity. Qed.
Lemma call_meta_is_straight : forall fuel d m,
  call (engine fuel (S d)) "Meta::is_straight" None [meta_value m] = Val (VBool (meta_is_straight m), VUnit).
Proof. intros. destruct m; vm_compute; reflexivity. Qed.
Lemma call_meta_is_flush : forall fuel d m,
  call (engine fuel (S d)) "Meta::is_flush" None [meta_value m] = Val (VBool (meta_is_flush m), VUnit).
Proof. intros. destruct m; vm_compute; reflexivity. Qed.
Lemma call_meta_is_full_house : forall fuel d m,
  call (engine fuel (S d)) "Meta::is_full_house" None [meta_value m] = Val (VBool (meta_is_full_house m), VUnit).
Proof. intros. destruct m; vm_compute; reflexivity. Qed.
Lemma call_meta_is_four_of_a_kind : forall fuel d m,
  call (engine fuel (S d)) "Meta::is_four_of_a_kind" None [meta_value m] = Val (VBool (meta_is_four_of_a_kind m), VUnit).
Proof. intros. destruct m; vm_compute; reflexivity. Qed.
Lemma call_meta_is_straight_flush : forall fuel d m,
  call (engine fuel (S d)) "Meta::is_straight_flush" None [meta_value m] = Val (VBool (meta_is_straight_flush m), VUnit).
Proof. intros. destruct m; vm_compute; reflexivity. Qed.
Lemma call_meta_is_royal_flush : forall fuel d m,
  call (engine fuel (S d)) "Meta::is_royal_flush" None [meta_value m] = Val (VBool (meta_is_royal_flush m), VUnit).
Proof.
  intros. destruct m as [n h|n p|n p q|n t|n h|n h|n t p|n q|[n] h]; [ vm_compute; reflexivity .. | ].
  cbn [meta_is_royal_flush phr_eqb phr PHR_BEST].
  destruct n as [|[n|n|]|n]; vm_compute; reflexivity.
Qed.
Lemma call_meta_eq : forall fuel d a b,
  call (engine fuel (S (S d))) "Meta::eq" None [meta_value a; meta_value b] = Val (VBool (meta_eqb a b), VUnit).
Proof. code. knowing call_meta_hand_rank. knowing call_meta_hand_rank. unfold meta_eqb, phr_eqb. cases; follow; reflexivity. Qed.
Lemma call_meta_partial_cmp : forall fuel d a b,
  call (engine fuel (S (S d))) "Meta::partial_cmp" None [meta_value a; meta_value b]
  = Val (option_value ordering (meta_partial_cmp a b), VUnit).
Proof.
  code. knowing call_meta_hand_rank. knowing call_meta_hand_rank. knowing call_is_better_than.
  unfold meta_partial_cmp, phr_eqb. cases; unfold phr_is_better_than in *; follow; reflexivity.
Qed.
Lemma call_meta_cmp : forall fuel d a b,
  call (engine fuel (S (S d))) "Meta::cmp" None [meta_value a; meta_value b] = Val (ordering (meta_cmp a b), VUnit).
Proof.
  code. knowing call_meta_hand_rank. knowing call_meta_hand_rank. knowing call_is_better_than.
  unfold meta_cmp, phr_eqb. cases; unfold phr_is_better_than in *; follow; reflexivity.
Qed.
Lemma call_eval_hand_rank : forall fuel d e,
  call (engine fuel (S (S d))) "Eval::hand_rank" None [eval_value e] = Val (hand_rank_value (eval_hand_rank e), VUnit).
Proof. code. knowing call_meta_hand_rank. over. reflexivity. Qed.
Lemma call_eval_class : forall fuel d e,
  call (engine fuel (S (S d))) "Eval::class" None [eval_value e] = Val (class_value (eval_class_of e), VUnit).
Proof. code. knowing call_meta_class. over. reflexivity. Qed.
Lemma call_eval_is_better_than : forall fuel d a b,
  call (engine fuel (S (S (S d)))) "Eval::is_better_than" None [eval_value a; eval_value b]
  = Val (VBool (eval_is_better_than a b), VUnit).
Proof. code. knowing call_eval_hand_rank. knowing call_eval_hand_rank. knowing call_is_better_than. over. reflexivity. Qed.
Lemma call_eval_is_worse_than : forall fuel d a b,
  call (engine fuel (S (S (S d)))) "Eval::is_worse_than" None [eval_value a; eval_value b]
  = Val (VBool (eval_is_worse_than a b), VUnit).
Proof. code. knowing call_eval_hand_rank. knowing call_eval_hand_rank. knowing call_is_worse_than. over. reflexivity. Qed.
Lemma call_eval_is_equal_to : forall fuel d a b,
  call (engine fuel (S (S (S d)))) "Eval::is_equal_to" None [eval_value a; eval_value b]
  = Val (VBool (eval_is_equal_to a b), VUnit).
Proof. code. knowing call_eval_hand_rank. knowing call_eval_hand_rank. unfold eval_is_equal_to. cases; follow; reflexivity. Qed.
Lemma call_eval_is_high_card : forall fuel d e,
  call (engine fuel (S (S d))) "Eval::is_high_card" None [eval_value e] = Val (VBool (eval_is_high_card e), VUnit).
Proof. code. knowing call_meta_is_high_card. over. reflexivity. Qed.
Lemma call_eval_is_pair : forall fuel d e,
  call (engine fuel (S (S d))) "Eval::is_pair" None [eval_value e] = Val (VBool (eval_is_pair e), VUnit).
Proof. code. knowing call_meta_is_pair. over. reflexivity. Qed.
Lemma call_eval_is_two_pair : forall fuel d e,
  call (engine fuel (S (S d))) "Eval::is_two_pair" None [eval_value e] = Val (VBool (eval_is_two_pair e), VUnit).
Proof. code. knowing call_meta_is_two_pair. over. reflexivity. Qed.
Lemma call_eval_is_three_of_a_kind : forall fuel d e,
  call (engine fuel (S (S d))) "Eval::is_three_of_a_kind" None [eval_value e] = Val (VBool (eval_is_three_of_a_kind e), VUnit).
Proof. code. knowing call_meta_is_three_of_a_kind. over. reflexivity. Qed.
Lemma call_eval_is_straight : forall fuel d e,
  call (engine fuel (S (S d))) "Eval::is_straight" None [eval_value e] = Val (VBool (eval_is_straight e), VUnit).
Proof. code. knowing call_meta_is_straight. over. reflexivity. Qed.
Lemma call_eval_is_flush : forall fuel d e,
  call (engine fuel (S (S d))) "Eval::is_flush" None [eval_value e] = Val (VBool (eval_is_flush e), VUnit).
Proof. code. knowing call_meta_is_flush. over. reflexivity. Qed.
Lemma call_eval_is_full_house : forall fuel d e,
  call (engine fuel (S (S d))) "Eval::is_full_house" None [eval_value e] = Val (VBool (eval_is_full_house e), VUnit).
Proof. code. knowing call_meta_is_full_house. over. reflexivity. Qed.
Lemma call_eval_is_four_of_a_kind : forall fuel d e,
  call (engine fuel (S (S d))) "Eval::is_four_of_a_kind" None [eval_value e] = Val (VBool (eval_is_four_of_a_kind e), VUnit).
Proof. code. knowing call_meta_is_four_of_a_kind. over. reflexivity. Qed.
Lemma call_eval_is_straight_flush : forall fuel d e,
  call (engine fuel (S (S d))) "Eval::is_straight_flush" None [eval_value e] = Val (VBool (eval_is_straight_flush e), VUnit).
Proof. code. knowing call_meta_is_straight_flush. over. reflexivity. Qed.
Lemma call_eval_is_royal_flush : forall fuel d e,
  call (engine fuel (S (S d))) "Eval::is_royal_flush" None [eval_value e] = Val (VBool (eval_is_royal_flush e), VUnit).
Proof. code. knowing call_meta_is_royal_flush. over. reflexivity. Qed.
