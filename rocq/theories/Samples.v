(** Samples.v: concrete hands used by the examples beside the properties. *)
From Coq Require Import Lia List Arith Bool Permutation.
From Verif Require Import Base BaseFacts ModelCard ModelEval ModelTable ModelEvaluation.
From Verif Require Import Spec CardFacts Sweep EvaluateFacts HandFacts LawFacts.
Import ListNotations.

Lemma idents_all_cards l : all_cards (cards_macro_idents l).
Proof.
  apply Forall_forall. intros c H. apply in_map_iff in H. destruct H as (p & <- & _).
  apply a_card_new.
Qed.
Lemma idents_faces l : faces (cards_macro_idents l) = l.
Proof.
  induction l as [|[r s] l IH]; [reflexivity|]. unfold faces, cards_macro_idents in *.
  cbn [map]. rewrite IH. unfold face_of. cbn [fst snd].
  rewrite card_rank_new, card_suit_new. reflexivity.
Qed.
Lemma idents_NoDup l : nodupb l = true -> NoDup (cards_macro_idents l).
Proof.
  intros H. apply NoDup_faces; [apply idents_all_cards|]. rewrite idents_faces.
  apply nodupb_NoDup. exact H.
Qed.
Lemma idents_hand5 l : nodupb l = true -> length l = 5 -> hand5 (cards_macro_idents l).
Proof.
  intros H L. split; [apply idents_all_cards|]. split; [apply idents_NoDup; exact H|].
  unfold cards_macro_idents. rewrite map_length. exact L.
Qed.
Lemma idents_legal l : nodupb l = true -> 5 <= length l -> legal (cards_macro_idents l).
Proof.
  intros H L. split; [apply idents_all_cards|]. split; [apply idents_NoDup; exact H|].
  unfold cards_macro_idents. rewrite map_length. exact L.
Qed.
Lemma legal_evaluates h : legal h -> exists ev e, new_evaluator ev /\ evaluates ev h e.
Proof.
  intros L. destruct evaluator_new_ret as [ev Hev].
  destruct (evaluate_spec ev h Hev L) as (e & E & _). exists ev, e. auto.
Qed.
Lemma five_class l c : nodupb l = true -> length l = 5 -> classify l c ->
  exists ev e, new_evaluator ev /\ evaluates ev (cards_macro_idents l) e /\ eval_class_of e = c.
Proof.
  intros H L C. pose proof (idents_hand5 l H L) as F.
  destruct (legal_evaluates _ (hand5_legal _ F)) as (ev & e & Hev & E). exists ev, e.
  split; [exact Hev|]. split; [exact E|]. apply (class_correct ev _ e Hev F E).
  rewrite idents_faces. exact C.
Qed.

Definition full_house : list face :=
  [(King, Spades); (Two, Hearts); (King, Hearts); (Two, Clubs); (King, Diamonds)].
Definition wheel : list face :=
  [(Four, Spades); (Two, Hearts); (Ace, Hearts); (Five, Clubs); (Three, Diamonds)].
Definition jacks_up : list face :=
  [(Jack, Spades); (Jack, Hearts); (Nine, Hearts); (Nine, Clubs); (Three, Diamonds)].
Definition jacks_up_other : list face :=
  [(Nine, Spades); (Jack, Clubs); (Jack, Diamonds); (Three, Clubs); (Nine, Diamonds)].
(** A seven-card hold'em hand: the board 3c 5c As Jc Qh with Tc Ac. *)
Definition holdem : list face :=
  [(Three, Clubs); (Five, Clubs); (Ace, Spades); (Jack, Clubs); (Queen, Hearts); (Ten, Clubs);
   (Ace, Clubs)].
