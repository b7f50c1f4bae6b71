(** RustDuplicates.v: running the text of the message about cards that are not unique. *)
From Coq Require Import String Lia Permutation.
From Verif Require Import Base BaseFacts ModelCard ModelEval ModelTable ModelEvaluation CardFacts.
From Verif Require Import RustSyntax RustSemantics RustProgram RustValues RustSteps RustFacts SpecRust.
Local Open Scope string_scope.
Local Open Scope list_scope.
Local Open Scope Z_scope.

Definition tally (x : card * nat) : value * Z := (card_value (fst x), Z.of_nat (snd x)).
Lemma equal_cards : forall o c e k, equal rust o (card_value c) (card_value e) k = k (card_eqb c e).
Proof.
  intros o c e k. unfold card_eqb. unfold card_value.
  etransitivity; [ lazy -[Z.eqb unique_integer]; reflexivity | ].
  destruct (unique_integer c =? unique_integer e); reflexivity.
Qed.
Lemma count_one_cards : forall o c l k,
  count_one rust o (card_value c) (map tally l) k = k (map tally (counts_add card_eqb c l)).
Proof.
  intros o c l. induction l as [|[e n] l IH]; intros k; [ reflexivity | ].
  cbn [map count_one counts_add tally fst snd]. unfold tally at 1. cbn [fst snd]. rewrite equal_cards.
  destruct (card_eqb c e).
  - f_equal. cbn [map]. f_equal. unfold tally. cbn [fst snd]. f_equal. lia.
  - rewrite IH. reflexivity.
Qed.
Lemma count_all_cards : forall o cs l k,
  count_all rust o (map card_value cs) (map tally l) k
  = k (map entry (map tally (fold_left (fun m c => counts_add card_eqb c m) cs l))).
Proof.
  intros o cs. induction cs as [|c cs IH]; intros l k; [ reflexivity | ].
  cbn [map count_all fold_left]. rewrite count_one_cards. apply IH.
Qed.
Lemma counts_cards : forall o vs cs k, vs = map card_value cs ->
  count_all rust o vs [] k = k (map entry (map tally (counts card_eqb cs))).
Proof. intros o vs cs k ->. exact (count_all_cards o cs [] k). Qed.
Lemma joined_strs : forall sep ss, joined sep (map VStr ss) = Some (join sep ss).
Proof.
  intros sep ss. induction ss as [|s ss IH]; [ reflexivity | ]. destruct ss as [|t ss]; [ reflexivity | ].
  change (joined sep (map VStr (s :: t :: ss)))
    with (match joined sep (map VStr (t :: ss)) with Some r => Some (s ++ sep ++ r) | None => None end).
  rewrite IH. reflexivity.
Qed.
Lemma apply_clos_pair : forall fuel d x y e r v w,
  apply (engine fuel (S d)) (VClos [PTup [] [PVar x; PVar y]] e r) [VList [v; w]]
  = finished (eval rust (engine fuel d) e ((y, w) :: (x, v) :: ("|", VUnit) :: r) (fun v s => Val (Go v, s))) (fun v _ => Val v).
Proof. reflexivity. Qed.
(** src/error.rs:187-207 *)
Lemma call_not_unique_fmt : forall fuel d cs acc,
  call (engine fuel (S (S (S (S (S d)))))) "EvalError::fmt" None [eval_error_value (CardsNotUnique cs); VStr acc]
  = Val (fine, VStr (acc ++ eval_error_display (fun l => l) (CardsNotUnique cs))).
Proof.
  intros. unfold eval_error_value, cards_value. remember (map card_value cs) as vs eqn:Evs. code.
  eapply to_eq; [ exact (counts_cards _ _ cs _ Evs) | ]. cbv beta.
  set (l := counts card_eqb cs). remember (map entry (map tally l)) as ws eqn:Ews. steps.
  match goal with |- to (bnd (filter_map_values ?o ?f ws) _) _ =>
    assert (M : filter_map_values o f ws
      = Val (map VStr (flat_map (fun p => if Nat.ltb 1 (snd p) then [rank_suit_string (fst p)] else []) l))) end.
  { rewrite Ews. clear. induction l as [|[c n] l IH]; [ reflexivity | ].
    cbn [map filter_map_values]. rewrite IH. clear IH. cbn [flat_map fst snd]. unfold entry, tally. cbn [fst snd].
    generalize (flat_map (fun p => if Nat.ltb 1 (snd p) then [rank_suit_string (fst p)] else []) l). intros ss.
    match goal with |- bnd ?a _ = _ =>
      assert (A : a = Val (if Nat.ltb 1 n then some_value (VStr (rank_suit_string c)) else none)) end.
    { rewrite apply_clos_pair. apply enter_value. steps.
      replace (Z.ltb 1 (Z.of_nat n)) with (Nat.ltb 1 n) by (apply Bool.eq_iff_eq_true; rewrite Nat.ltb_lt, Z.ltb_lt; lia).
      destruct (Nat.ltb 1 n); steps; [ learn call_rank_suit_string; generalize (rank_suit_string c); intros x; known | ]; over; reflexivity. }
    rewrite A. destruct (Nat.ltb 1 n); reflexivity. }
  eapply to_bnd; [ exact M | ].
  assert (E : eval_error_display (fun l => l) (CardsNotUnique cs)
    = lit "Cannot evaluate a poker hand with a set of cards that are not unique. Cards duplicated at least once: "
      ++ join (lit " ") (flat_map (fun p => if Nat.ltb 1 (snd p) then [rank_suit_string (fst p)] else []) l)) by reflexivity.
  rewrite E. clear E M. revert l Ews. intros l _. generalize (flat_map (fun p => if Nat.ltb 1 (snd p) then [rank_suit_string (fst p)] else []) l).
  intros ss. pose proof (joined_strs (lit " ") ss) as J. revert J. generalize (map VStr ss). intros us J. known.
  rewrite J. generalize (join (lit " ") ss). intros x. steps. over. rewrite <- ?app_assoc, ?app_nil_r. reflexivity.
Qed.
