(** PropertiesSeats.v: C69 (cards taken from a shuffled deck). *)
From Coq Require Import Lia List Arith Bool.
From Verif Require Import Base ModelCard ModelEval ModelTable ModelEvaluation.
From Verif Require Import Spec SpecApi SpecShowdown.
From Verif Require SeatFacts.
Import ListNotations.

(** C69: it does not matter which positions of the shuffled deck cards are taken from, nor in which
    order: whatever is asked of the cards, as many lists of answers (C45) lead to it. *)
Theorem C69_positions : forall a b (P : list card -> bool), NoDup a -> NoDup b -> length a = length b ->
  Forall (fun i => i < 52) a -> Forall (fun i => i < 52) b ->
  exists La Lb, NoDup La /\ NoDup Lb /\ length La = length Lb
  /\ (forall js, In js La <-> answers 52 js /\ exists d, shuffled_with script js = Ret (d, []) /\ P (picks d a) = true)
  /\ (forall js, In js Lb <-> answers 52 js /\ exists d, shuffled_with script js = Ret (d, []) /\ P (picks d b) = true).
Proof. exact SeatFacts.positions_alike_bool. Qed.
Print Assumptions C69_positions.
(** So it does not matter how the cards are dealt, *)
Theorem C69_dealings : forall board own board' own' i, dealing board own -> dealing board' own' ->
  length board = length board' -> map (@length nat) own = map (@length nat) own' ->
  exists L L', NoDup L /\ NoDup L' /\ length L = length L'
  /\ (forall js, In js L <-> answers 52 js /\ exists d, shuffled_with script js = Ret (d, []) /\ dealt_wins board own i d)
  /\ (forall js, In js L' <-> answers 52 js /\ exists d, shuffled_with script js = Ret (d, []) /\ dealt_wins board' own' i d).
Proof. exact SeatFacts.dealings_alike. Qed.
Print Assumptions C69_dealings.
(** and players who are dealt the same number of cards win (C67) equally often. *)
Theorem C69_seats : forall board own i j x y, dealing board own -> nth_error own i = Some x -> nth_error own j = Some y ->
  length x = length y -> exists Li Lj, NoDup Li /\ NoDup Lj /\ length Li = length Lj
  /\ (forall js, In js Li <-> answers 52 js /\ exists d, shuffled_with script js = Ret (d, []) /\ dealt_wins board own i d)
  /\ (forall js, In js Lj <-> answers 52 js /\ exists d, shuffled_with script js = Ret (d, []) /\ dealt_wins board own j d).
Proof. exact SeatFacts.seats_alike. Qed.
Print Assumptions C69_seats.
(** Three players, a card to each in turn and again, then a board of five, with or without cards burnt;
    with the deck in its first order the first player has two twos. *)
Example C69_case :
  dealing [6; 7; 8; 9; 10] [[0; 3]; [1; 4]; [2; 5]] /\ dealing [7; 8; 9; 11; 13] [[0; 1]; [2; 3]; [4; 5]]
  /\ picks deck_generate [0; 3] = [card_new Two Clubs; card_new Two Diamonds]
  /\ answers 52 (rev (seq 1 51)) /\ shuffled_with script (rev (seq 1 51)) = Ret (deck_generate, []).
Proof.
  assert (D : forall b own, nodup Nat.eq_dec (b ++ concat own) = b ++ concat own ->
    forallb (fun x => x <? 52) (b ++ concat own) = true -> forallb (fun o => 5 <=? length b + length o) own = true ->
    dealing b own).
  { intros b own N F S. split; [rewrite <- N; apply NoDup_nodup|]. rewrite forallb_forall in F, S. split; apply Forall_forall.
    - intros x I. apply Nat.ltb_lt, F, I.
    - intros o I. apply Nat.leb_le, S, I. }
  split; [apply D; reflexivity|]. split; [apply D; reflexivity|]. split; [reflexivity|].
  split; [cbn; repeat split; lia|reflexivity].
Qed.
