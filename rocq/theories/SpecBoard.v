(** SpecBoard.v: what the cards on the table allow a player with two cards of their own. *)
From Coq Require Import List Arith.
From Verif Require Import Base ModelCard ModelEval ModelTable ModelEvaluation Spec SpecApi SpecBest.
Import ListNotations.

(** Three, four or five different cards on the table, and two more in a player's hand. *)
Definition on_table (b : list card) : Prop := all_cards b /\ NoDup b /\ 3 <= length b <= 5.
Definition pocket (b p : list card) : Prop := all_cards p /\ NoDup (b ++ p) /\ length p = 2.

(** With some two cards the result has a category among [ks]. *)
Definition allows (ev : evaluator) (b : list card) (ks : list nat) : Prop :=
  exists p e, pocket b p /\ evaluates ev (box_cards b [p]) e /\ In (category (eval_class_of e)) ks.

(** At least three of the five ranks of some straight are there. *)
Definition near_run (H : list face) : Prop :=
  exists top, In top tops /\ 3 <= length (filter (fun r => 1 <=? count r H) (run top)).
(** Nothing on the table to build on: no three cards of a suit, no two of a rank, no three ranks of a straight. *)
Definition dry (H : list face) : Prop :=
  (forall s, length (only s H) < 3) /\ (forall r, count r H < 2) /\ ~ near_run H.
