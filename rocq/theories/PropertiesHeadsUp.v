(** PropertiesHeadsUp.v: C85 (two players with five cards each). *)
From Coq Require Import Lia List Arith Bool ZArith Factorial.
From Verif Require Import Base ModelCard ModelEval ModelTable ModelEvaluation.
From Verif Require Import Spec SpecApi SpecMore SpecShowdown SpecBest SpecHeadsUp.
From Verif Require HeadsUpFacts.
Import ListNotations.

(** C85: the other player can hold 1533939 hands, *)
Theorem C85_opponents : forall h, hand5 h -> exists L, NoDup L
  /\ (forall g, In g L <-> sublist g deck_generate /\ length g = 5 /\ (forall c, In c g -> ~ In c h))
  /\ Z.of_nat (length L) = 1533939%Z.
Proof. exact HeadsUpFacts.others_count. Qed.
Print Assumptions C85_opponents.
(** of which so many are equal to the own one. *)
Theorem C85_rivals : forall ev h e, new_evaluator ev -> hand5 h -> evaluates ev h e -> exists L, NoDup L
  /\ (forall g, In g L <-> sublist g deck_generate /\ length g = 5 /\ (forall c, In c g -> ~ In c h)
                           /\ exists e', evaluates ev g e' /\ eval_eqb e' e = true)
  /\ Z.of_nat (length L) = rivals (faces h) (category (eval_class_of e)).
Proof. exact HeadsUpFacts.rivals_count. Qed.
Print Assumptions C85_rivals.
(** In all so many pairs of hands are equal, *)
Theorem C85_pairs : forall ev, new_evaluator ev -> exists L : list (list card * list card), NoDup L
  /\ (forall g h, In (g, h) L <-> hands g h /\ exists e e', evaluates ev g e /\ evaluates ev h e' /\ eval_eqb e e' = true)
  /\ Z.of_nat (length L) = tied.
Proof. exact HeadsUpFacts.tied_pairs. Qed.
Print Assumptions C85_pairs.
(** and so many lists of answers (C45) deal equal hands, whichever places the two players' cards are taken from, *)
Theorem C85_ties : forall ev a b, new_evaluator ev -> apart a b -> exists L,
  (NoDup L /\ forall js, In js L <-> answers 52 js /\ exists d, shuffled_with script js = Ret (d, [])
     /\ exists e e', evaluates ev (picks d a) e /\ evaluates ev (picks d b) e' /\ eval_eqb e e' = true)
  /\ Z.of_nat (length L) = (tied * Z.of_nat (fact 5 * fact 5 * fact 42))%Z.
Proof. exact HeadsUpFacts.dealt_ties. Qed.
Print Assumptions C85_ties.
(** and each player wins in half of the other cases. *)
Theorem C85_wins : forall ev a b, new_evaluator ev -> apart a b -> exists L,
  (NoDup L /\ forall js, In js L <-> answers 52 js /\ exists d, shuffled_with script js = Ret (d, [])
     /\ exists e e', evaluates ev (picks d a) e /\ evaluates ev (picks d b) e' /\ eval_is_better_than e e' = true)
  /\ (2 * Z.of_nat (length L) + tied * Z.of_nat (fact 5 * fact 5 * fact 42) = Z.of_nat (fact 52))%Z.
Proof. exact HeadsUpFacts.dealt_wins_count. Qed.
Print Assumptions C85_wins.
(** Cards dealt in turn; seven high in three suits ties with 242 hands, in two suits with 241; two fours, an ace, a king
    and a ten with 27. *)
Example C85_case :
  apart [0; 2; 4; 6; 8] [1; 3; 5; 7; 9]
  /\ hand5 [card_new Two Clubs; card_new Three Clubs; card_new Four Hearts; card_new Five Hearts; card_new Seven Spades]
  /\ rivals [(Two, Clubs); (Three, Clubs); (Four, Hearts); (Five, Hearts); (Seven, Spades)] 0 = 242%Z
  /\ rivals [(Two, Clubs); (Three, Clubs); (Four, Hearts); (Five, Hearts); (Seven, Hearts)] 0 = 241%Z
  /\ rivals [(Four, Clubs); (Four, Hearts); (Ace, Hearts); (King, Hearts); (Ten, Hearts)] 1 = 27%Z.
Proof.
  assert (N : forall l : list nat, nodup Nat.eq_dec l = l -> NoDup l) by (intros l <-; apply NoDup_nodup).
  split; [|split; [|repeat split]].
  - split; [apply N; reflexivity|]. split; [repeat constructor|]. split; reflexivity.
  - split; [|split; [|reflexivity]].
    + repeat constructor; eexists; eexists; reflexivity.
    + repeat constructor; cbn; intuition discriminate.
Qed.
