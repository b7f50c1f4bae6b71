(** RustStreams.v: running the text of [Card::try_from_chars], of [Card::parse_to_iter] and its iterator, of [Meta::hash]
    and of [deck::shuffled_with]. *)
From Coq Require Import String Lia Permutation.
From Verif Require Import Base BaseFacts ModelCard ModelEval ModelTable ModelEvaluation CardFacts.
From Verif Require Import RustSyntax RustSemantics RustProgram RustValues RustSteps RustFacts RustEvaluate RustFormat SpecRust.
Local Open Scope string_scope.
Local Open Scope list_scope.
Local Open Scope Z_scope.

(** src/card/mod.rs:146-160 *)
Lemma call_try_from_chars : forall fuel d x y,
  call (engine fuel (S (S (S d)))) "Card::try_from_chars" None [VChr x; VChr y]
  = Val (result_value card_value parse_error_value (try_from_chars x y), VUnit).
Proof.
  code. unfold try_from_chars. learn call_rank_try_from.
  destruct (rank_try_from x) as [r|z]; cbn [result_value]; known.
  - learn call_suit_try_from. destruct (suit_try_from y) as [t|z]; cbn [result_value]; known.
    + knowing call_card_new. over. reflexivity.
    + eapply to_bnd; [ closure; over; reflexivity | ]. known. over. reflexivity.
  - eapply to_bnd; [ closure; over; reflexivity | ]. known. over. reflexivity.
Qed.

(** A [ParseToIter] of these items *)
Definition iter_value (vs : list value) : value := VCon "ParseToIter" [("0", VList vs)].
Definition parsed (s : list N) : value := result_value card_value parse_error_value (card_from_str s).
(** src/card/mod.rs:270-278 *)
Lemma call_parse_to_iter : forall fuel d ss,
  call (engine fuel (S (S (S (S (S d)))))) "Card::parse_to_iter" None [VList (map VStr ss)]
  = Val (iter_value (map parsed ss), VUnit).
Proof.
  intros. remember (map VStr ss) as vs eqn:Evs. code.
  match goal with |- context [map_values ?o ?f vs] => assert (M : map_values o f vs = Val (map parsed ss)) end.
  { rewrite Evs. apply (map_values_all _ _ VStr parsed). intros s _. rewrite apply_clos. apply enter_value. steps.
    learn call_card_from_str. fold (parsed s). generalize (parsed s). intros v. known. over. reflexivity. }
  eapply to_bnd; [ exact M | ]. generalize (map parsed ss). intros l. known. over. reflexivity.
Qed.
(** src/card/mod.rs:345, 347, 362, 366 *)
Lemma call_iter_next : forall fuel d v vs,
  call (engine fuel (S d)) "ParseToIter::next" None [iter_value (v :: vs)] = Val (some_value v, iter_value vs).
Proof. code. over. reflexivity. Qed.
Lemma call_iter_next_end : forall fuel d,
  call (engine fuel (S d)) "ParseToIter::next" None [iter_value []] = Val (none, iter_value []).
Proof. code. over. reflexivity. Qed.
Lemma call_iter_next_back_end : forall fuel d,
  call (engine fuel (S d)) "ParseToIter::next_back" None [iter_value []] = Val (none, iter_value []).
Proof. code. cbn [rev]. steps. over. reflexivity. Qed.
Lemma call_iter_size_hint : forall fuel d vs,
  call (engine fuel (S d)) "ParseToIter::size_hint" None [iter_value vs]
  = Val (VList [VInt Usize (Z.of_nat (length vs)); some_value (VInt Usize (Z.of_nat (length vs)))], VUnit).
Proof. code. over. reflexivity. Qed.
Lemma call_iter_len : forall fuel d vs,
  call (engine fuel (S d)) "ParseToIter::len" None [iter_value vs] = Val (VInt Usize (Z.of_nat (length vs)), VUnit).
Proof. code. over. reflexivity. Qed.
Lemma call_iter_next_back : forall fuel d v vs,
  call (engine fuel (S d)) "ParseToIter::next_back" None [iter_value (vs ++ [v])] = Val (some_value v, iter_value vs).
Proof.
  intros. remember (vs ++ [v]) as l eqn:E. assert (R : rev l = v :: rev vs) by (rewrite E; apply rev_unit). clear E. code.
  rewrite R. steps. rewrite rev_involutive. over. reflexivity.
Qed.
(** src/card/mod.rs:349-355 *)
Lemma call_iter_fold : forall fuel d vs init f w, fold_values (engine fuel d) f vs init = Val w ->
  call (engine fuel (S d)) "ParseToIter::fold" None [iter_value vs; init; f] = Val (w, VUnit).
Proof.
  intros fuel d vs init f w H. rewrite call_S. enter. apply enter_finished. steps.
  eapply to_bnd; [ exact H | ]. known. over. reflexivity.
Qed.
(** src/card/mod.rs:380 *)
Lemma call_try_collect : forall fuel d vs w, collected vs [] = Some w ->
  call (engine fuel (S d)) "ParseToIter::try_collect" None [iter_value vs] = Val (w, VUnit).
Proof. intros fuel d vs w H. code. rewrite H. steps. over. reflexivity. Qed.

(** src/evaluate/meta.rs:164-166 *)
Lemma call_meta_hash : forall fuel d m st,
  call (engine fuel (S (S d))) "Meta::hash" None [meta_value m; VList st]
  = Val (VUnit, VList (st ++ [VInt I16 (phr (meta_hand_rank m))])).
Proof. code. knowing call_meta_hand_rank. over. reflexivity. Qed.

(** src/deck.rs:41-49 *)
Lemma call_shuffled_with : forall fuel d zs vs rest, shuffle 52 (map card_value deck_generate) zs = Some (vs, rest) ->
  call (engine fuel (S (S (S (S (S d)))))) "shuffled_with" None [VInts Usize zs] = Val (VList vs, VInts Usize rest).
Proof.
  intros fuel d zs vs rest H. code. learn call_generate. unfold cards_value.
  assert (L : length (map card_value deck_generate) = 52%nat) by reflexivity.
  revert L H. generalize (map card_value deck_generate). intros l L H. known.
  rewrite L, H. steps. over. reflexivity.
Qed.
