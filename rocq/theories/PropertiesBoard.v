(** PropertiesBoard.v: C86 (what the cards on the table allow). *)
From Coq Require Import Lia List Arith Bool.
From Verif Require Import Base ModelCard ModelEval ModelTable ModelEvaluation Spec SpecApi SpecBest SpecBoard.
From Verif Require BoardFacts.
Import ListNotations.

(** C86: with two cards added to the cards on the table a flush is possible if and only if three cards on the table have
    the same suit, *)
Theorem C86_flush : forall ev b, new_evaluator ev -> on_table b ->
  (allows ev b [5; 8] <-> exists s, 3 <= length (only s (faces b))).
Proof. exact BoardFacts.board_flush. Qed.
Print Assumptions C86_flush.
(** four of a kind if and only if two of them have the same rank, *)
Theorem C86_quads : forall ev b, new_evaluator ev -> on_table b ->
  (allows ev b [7] <-> exists r, 2 <= count r (faces b)).
Proof. exact BoardFacts.board_quads. Qed.
Print Assumptions C86_quads.
(** a full house if and only if moreover not four of them have, *)
Theorem C86_full_house : forall ev b, new_evaluator ev -> on_table b ->
  (allows ev b [6] <-> (exists r, 2 <= count r (faces b)) /\ forall r, count r (faces b) < 4).
Proof. exact BoardFacts.board_full_house. Qed.
Print Assumptions C86_full_house.
(** a straight if and only if three of its five ranks are on the table, *)
Theorem C86_straight : forall ev b, new_evaluator ev -> on_table b ->
  (allows ev b [4; 8] <-> near_run (faces b)).
Proof. exact BoardFacts.board_straight. Qed.
Print Assumptions C86_straight.
(** a straight flush if and only if they are there in one suit. *)
Theorem C86_straight_flush : forall ev b, new_evaluator ev -> on_table b ->
  (allows ev b [8] <-> exists s, near_run (only s (faces b))).
Proof. exact BoardFacts.board_straight_flush. Qed.
Print Assumptions C86_straight_flush.
(** With none of this on the table, two more cards of the highest rank there are the best two cards, and no others are as good. *)
Theorem C86_dry : forall ev b top, new_evaluator ev -> on_table b -> dry (faces b) ->
  In top (ranks (faces b)) -> (forall r, In r (ranks (faces b)) -> pips r <= pips top) ->
  (exists p, pocket b p /\ ranks (faces p) = [top; top])
  /\ forall p e, pocket b p -> ranks (faces p) = [top; top] -> evaluates ev (box_cards b [p]) e ->
     eval_class_of e = ThreeOfAKind top
     /\ forall p' e', pocket b p' -> evaluates ev (box_cards b [p']) e' ->
        (ranks (faces p') = [top; top] -> eval_cmp e' e = Eq) /\ (ranks (faces p') <> [top; top] -> eval_cmp e' e = Lt).
Proof. exact BoardFacts.dry_board. Qed.
Print Assumptions C86_dry.
(** Three hearts in sequence allow a straight flush; two kings, a seven and a two allow four of a kind, a full house and no
    straight; a king, an eight and a three in three suits allow nothing. *)
Example C86_case :
  on_table [card_new Nine Hearts; card_new Eight Hearts; card_new Seven Hearts]
  /\ near_run (only Hearts [(Nine, Hearts); (Eight, Hearts); (Seven, Hearts)])
  /\ (2 <= count King [(King, Clubs); (Seven, Hearts); (King, Spades); (Two, Clubs)]
      /\ (forall r, count r [(King, Clubs); (Seven, Hearts); (King, Spades); (Two, Clubs)] < 4)
      /\ ~ near_run [(King, Clubs); (Seven, Hearts); (King, Spades); (Two, Clubs)])
  /\ on_table [card_new King Clubs; card_new Eight Hearts; card_new Three Spades]
  /\ dry (faces [card_new King Clubs; card_new Eight Hearts; card_new Three Spades]).
Proof.
  assert (O : forall a b c : card, NoDup [a; b; c] -> all_cards [a; b; c] -> on_table [a; b; c]) by (intros; repeat split; cbn; auto).
  split; [apply O|]; [repeat constructor; cbn; intuition discriminate|repeat constructor; eexists; eexists; reflexivity|].
  split; [exists Nine; split; [cbn; tauto|cbn; lia]|].
  split; [split; [cbn; lia|split]|].
  - intros r. destruct r; cbn; lia.
  - intros (t & T & Q). cbn in T. intuition (subst t; cbn in Q; lia).
  - split; [apply O|]; [repeat constructor; cbn; intuition discriminate|repeat constructor; eexists; eexists; reflexivity|].
    assert (E : faces [card_new King Clubs; card_new Eight Hearts; card_new Three Spades] = [(King, Clubs); (Eight, Hearts); (Three, Spades)])
      by (vm_compute; reflexivity).
    rewrite E. split; [|split].
    + intros s. destruct s; cbn; lia.
    + intros r. destruct r; cbn; lia.
    + intros (t & T & Q). cbn in T. intuition (subst t; cbn in Q; lia).
Qed.
