(** CategoryFacts.v: the category of a hand of any size is the best pattern it holds. *)
From Coq Require Import Lia List Arith Bool Permutation.
From Verif Require Import Base BaseFacts ModelCard ModelEval ModelTable ModelEvaluation.
From Verif Require Import Spec SpecApi CardFacts Sweep SweepFacts SpecFacts EvalFacts FiveFacts
  CombosFacts EvaluateFacts HandFacts ClassFacts SizeFacts.
Import ListNotations.
Local Open Scope nat_scope.

Lemma three_counts a b c F : a <> b -> a <> c -> b <> c -> count a F + count b F + count c F <= length F.
Proof.
  intros D1 D2 D3. induction F as [|f F IH]; [reflexivity|].
  unfold count, ranks in *. cbn [map count_occ length].
  destruct (rank_dec (fst f) a), (rank_dec (fst f) b), (rank_dec (fst f) c); try congruence; lia.
Qed.
Lemma trips_exact F c t : length F = 5 -> 3 <= count t F -> classify F c -> 3 <= category c.
Proof.
  intros L Q C. destruct c as [h|r|hi lo| | | | | |]; cbn [category classify] in *; try lia.
  - destruct C as (_ & _ & C & _). specialize (C t). lia.
  - destruct C as (C1 & C). destruct (rank_dec t r) as [->|D]; [lia|]. specialize (C t D). lia.
  - destruct C as (C1 & C2 & O).
    assert (hi <> lo) by (intros ->; lia). assert (hi <> t) by (intros ->; lia).
    assert (lo <> t) by (intros ->; lia). pose proof (three_counts hi lo t F). intuition lia.
Qed.

Lemma in_sequence_length F top : in_sequence F top -> length F = 5.
Proof.
  intros [P|(_ & P)]; cbv zeta in *; apply Permutation_length in P; unfold ranks in P;
    rewrite ?map_length in P; exact P.
Qed.
Lemma in_sequence_five F top : in_sequence F top -> NoDup F /\ length F = 5.
Proof.
  intros S. split; [|exact (in_sequence_length F top S)].
  apply (NoDup_map_inv fst). exact (in_sequence_NoDup F top S).
Qed.

Theorem category_holds ev h e : new_evaluator ev -> all_cards h -> evaluates ev h e ->
  holds (faces h) (category (eval_class_of e))
  /\ forall k, holds (faces h) k -> k <= category (eval_class_of e).
Proof.
  intros Hev A E. split.
  - destruct (at_most ev h e Hev A E) as (F & (N & L) & I & C).
    pose proof (fun r => count_incl r F (faces h) N I) as CI.
    destruct (eval_class_of e) as [t|p|hi lo|t|t|t|t p|q|t]; cbn [category classify holds] in *.
    + exact Logic.I.
    + exists p. specialize (CI p). lia.
    + exists hi, lo. pose proof (CI hi). pose proof (CI lo). split; [intros ->; lia|lia].
    + exists t. specialize (CI t). lia.
    + exists F, t. split; [exact I|apply C].
    + exists F. split; [split; assumption|]. split; [exact I|apply C].
    + exists t, p. pose proof (CI t). pose proof (CI p). split; [intros ->; lia|lia].
    + exists q. specialize (CI q). pose proof (count_le4 q (faces h) (SizeFacts.NH ev h e A E)). lia.
    + exists F, t. split; [exact I|]. split; apply C.
  - intros k Q. destruct k as [|[|[|[|[|[|[|[|[|k]]]]]]]]]; cbn [holds] in Q.
    + lia.
    + destruct Q as (r & Q). exact (has_pair ev h e Hev A E r Q).
    + destruct Q as (p & q & D & P & Q). exact (has_two_pair ev h e Hev A E p q D P Q).
    + destruct Q as (t & Q). apply (from_cards ev h e Hev A E (pick t 3 (faces h))).
      * apply pick_NoDup, (SizeFacts.NH ev h e A E).
      * rewrite pick_length; [lia|exact Q].
      * intros f J. apply pick_in in J. tauto.
      * intros G c L C. apply (trips_exact _ c t L) in C; [exact C|].
        rewrite count_app_face, pick_count by exact Q. lia.
    + destruct Q as (F & top & I & S). destruct (in_sequence_five F top S) as (N & L).
      apply (at_least ev h e F 4 Hev A E N L I). intros c. exact (sequence_up F c top S).
    + destruct Q as (F & (N & L) & I & S).
      apply (at_least ev h e F 5 Hev A E N L I). intros c. apply (suited_category F c); [split; assumption|exact S].
    + destruct Q as (t & p & D & T & P). apply (has_full_house ev h e Hev A E t p); [congruence|exact T|exact P].
    + destruct Q as (r & Q). apply (has_rank_four ev h e Hev A E r). lia.
    + destruct Q as (F & top & I & S & U). destruct (in_sequence_five F top S) as (N & L).
      apply (at_least ev h e F 8 Hev A E N L I). intros c C.
      rewrite (classify_unique F c (StraightFlush top)); [simpl; lia|split; assumption|exact C|].
      split; assumption.
    + destruct Q.
Qed.
