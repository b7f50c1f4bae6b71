(** RustFormat.v: running the text of the [fmt] functions (that of [CardsNotUnique] is in RustDuplicates.v) and of [deck::generate]
    gives what the model's functions give. *)
From Coq Require Import String Lia.
From Verif Require Import Base BaseFacts ModelCard ModelEval ModelTable ModelEvaluation CardFacts.
From Verif Require Import RustSyntax RustSemantics RustProgram RustValues RustSteps RustFacts SpecRust.
Local Open Scope string_scope.
Local Open Scope list_scope.
Local Open Scope Z_scope.

(** src/card/rank.rs:198-200 *)
Lemma call_rank_fmt : forall fuel d r acc,
  call (engine fuel (S (S d))) "Rank::fmt" None [rank_value r; VStr acc] = Val (fine, VStr (acc ++ rank_display r)).
Proof. code. knowing call_rank_as_char. over. reflexivity. Qed.
(** src/card/suit.rs:112-114 *)
Lemma call_suit_fmt : forall fuel d s acc,
  call (engine fuel (S (S d))) "Suit::fmt" None [suit_value s; VStr acc] = Val (fine, VStr (acc ++ suit_display s)).
Proof. code. eapply to_bnd; [ eapply call_suit_as_pretty_char | ]. unfold suit_display. remember (suit_as_pretty_char s) as c. known. over. reflexivity. Qed.
(** src/card/mod.rs:327-331 *)
Lemma call_card_fmt : forall fuel d c acc,
  call (engine fuel (S (S (S d)))) "Card::fmt" None [card_value c; VStr acc] = Val (fine, VStr (acc ++ card_display c)).
Proof.
  code. knowing call_card_rank. knowing call_card_suit.
  eapply to_bnd; [ eapply call_rank_fmt | ]. unfold card_display. remember (rank_display (card_rank c)) as x. known.
  eapply to_bnd; [ eapply call_suit_fmt | ]. remember (suit_display (card_suit c)) as y. known.
  over. rewrite <- !app_assoc. reflexivity.
Qed.

(** src/evaluate/class.rs:83-120 *)
Ltac name_singular h := eapply to_bnd; [ eapply (call_rank_as_str_name _ _ h) | ]; generalize (rank_as_str_name h); intros ?; known.
Ltac name_plural h := eapply to_bnd; [ eapply (call_rank_as_str_name_plural _ _ h) | ]; generalize (rank_as_str_name_plural h); intros ?; known.
Ltac written_all := over; rewrite <- ?app_assoc, ?app_nil_r; reflexivity.
Lemma call_class_fmt : forall fuel d c acc,
  call (engine fuel (S (S d))) "EvalClass::fmt" None [class_value c; VStr acc] = Val (fine, VStr (acc ++ class_display c)).
Proof.
  intros fuel d c acc. destruct c as [h|p|a b|t|h|h|t p|q|h]; unfold class_value, class_display.
  - code. name_singular h. written_all.
  - code. name_plural p. written_all.
  - code. name_plural a. name_plural b. written_all.
  - code. name_plural t. written_all.
  - code. name_singular h. written_all.
  - code. name_singular h. written_all.
  - code. name_plural t. name_plural p. written_all.
  - code. name_plural q. written_all.
  - pose proof (call_rank_as_str_name fuel d h) as K. remember (rank_as_str_name h) as x eqn:E.
    destruct h; unfold rank_value in K |- *; rewrite <- ?E; clear E; code; try (eapply to_bnd; [ exact K | ]; known);
      written_all.
Qed.
(** src/evaluate/meta.rs:168-170, src/evaluate/eval.rs:126-128 *)
Lemma call_meta_fmt : forall fuel d m acc,
  call (engine fuel (S (S (S d)))) "Meta::fmt" None [meta_value m; VStr acc] = Val (fine, VStr (acc ++ meta_display m)).
Proof.
  code. knowing call_meta_class. eapply to_bnd; [ eapply call_class_fmt | ]. unfold meta_display.
  generalize (class_display (meta_class m)). intros x. known. over. reflexivity.
Qed.
Lemma call_eval_fmt : forall fuel d e acc,
  call (engine fuel (S (S (S (S d))))) "Eval::fmt" None [eval_value e; VStr acc] = Val (fine, VStr (acc ++ eval_display e)).
Proof.
  intros fuel d [m] acc. unfold eval_display. cbn [eval_meta]. pose proof (call_meta_fmt fuel d m acc) as K.
  remember (meta_display m) as x eqn:E. clear E. code. eapply to_bnd; [ exact K | ]. known. over. reflexivity.
Qed.
(** src/error.rs:100-129 *)
Lemma call_parse_error_fmt : forall fuel d e acc,
  call (engine fuel (S d)) "ParseCardError::fmt" None [parse_error_value e; VStr acc]
  = Val (fine, VStr (acc ++ parse_card_error_display e)).
Proof.
  intros fuel d e acc. destruct e as [s|s x|s x]; unfold parse_error_value, parse_card_error_display; code.
  - over. rewrite <- ?app_assoc, ?app_nil_r. destruct (str_len s); reflexivity.
  - written_all.
  - written_all.
Qed.
(** src/error.rs:187-221, fewer than five cards *)
Lemma call_eval_error_fmt : forall fuel d n acc order,
  call (engine fuel (S d)) "EvalError::fmt" None [eval_error_value (InvalidHandSize n); VStr acc]
  = Val (fine, VStr (acc ++ eval_error_display order (InvalidHandSize n))).
Proof.
  code. over. unfold decimal, dec. rewrite <- (nat_N_Z n), N2Z.id. rewrite <- ?app_assoc, ?app_nil_r. reflexivity.
Qed.
(** src/deck.rs:25-30 *)
Lemma call_generate : forall fuel d,
  call (engine fuel (S (S (S (S d))))) "generate" None [] = Val (cards_value deck_generate, VUnit).
Proof. intros fuel d. vm_compute. reflexivity. Qed.
