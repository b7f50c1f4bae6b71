(** AlikeFacts.v: how many five-card hands have the same value (C61). *)
From Coq Require Import Lia List Arith Bool Permutation ZArith Sorted.
From Verif Require Import Base BaseFacts ModelCard ModelEval ModelTable ModelEvaluation.
From Verif Require Import Spec SpecApi SpecMore CardFacts Sweep SweepFacts SpecFacts FiveFacts CombosFacts.
From Verif Require Import EvaluateFacts HandFacts DeckFacts LawFacts OddsFacts.
Import ListNotations.

Lemma weights_alike : forallb (fun c => match canon_weight c with
    Some w => (w =? alike (category (canon_class c)))%Z | None => false end) canons = true.
Proof. vm_compute. reflexivity. Qed.

Lemma canon_of_alike c g h : In c canons -> In g choices -> Permutation (ranks h) (snd c) -> (suited h <-> fst c = true) ->
  (canon_of g = c <-> Permutation (ranks g) (ranks h) /\ (suited g <-> suited h)).
Proof.
  intros Hc Hg P S0. destruct c as [f m]. cbn [fst snd] in *. unfold canon_of. split.
  - intros E. injection E as E1 E2. split.
    + rewrite P, <- E2. apply Permutation_rev.
    + rewrite S0, <- E1, suitedb_spec. reflexivity.
  - intros [Q T]. f_equal.
    + destruct f; [apply suitedb_spec, T, S0; reflexivity|]. apply not_true_is_false. intros X.
      apply suitedb_spec, T, S0 in X. discriminate X.
    + pose proof canons_sorted as K. rewrite forallb_forall in K. apply sorted_perm_eq.
      * exact (descb_spec _ (K _ (canon_of_in g Hg))).
      * exact (descb_spec _ (K _ Hc)).
      * rewrite <- Permutation_rev, Q. exact P.
Qed.

Theorem alike_count ev h e : new_evaluator ev -> hand5 h -> evaluates ev h e -> exists L,
  NoDup L
  /\ (forall g, In g L <-> sublist g deck_generate /\ length g = 5
                           /\ exists e', evaluates ev g e' /\ eval_eqb e' e = true)
  /\ Z.of_nat (length L) = alike (category (eval_class_of e)).
Proof.
  intros Hev F E.
  assert (F5 : five_card_hand (faces h)).
  { destruct F as (A & N & L). split; [apply NoDup_faces; assumption|]. unfold faces. rewrite map_length. exact L. }
  destruct (canon_exists (faces h) F5) as (c & Hc & P & S0).
  exists (map (map card_of) (filter (is_canon c) choices)). split; [|split].
  - apply FinFun.Injective_map_NoDup; [|apply NoDup_filter, choices_NoDup].
    intros a b X. rewrite <- (faces_card_of a), <- (faces_card_of b), X. reflexivity.
  - intros g.
    assert (K : forall x, In x choices -> (is_canon c x = true <->
      exists e', evaluates ev (map card_of x) e' /\ eval_eqb e' e = true)).
    { intros x Hx. destruct (evaluate_spec ev _ Hev (hand5_legal _ (choices_hand5 x Hx))) as (e' & E' & _).
      pose proof (equal_results ev _ _ e' e Hev (choices_hand5 x Hx) F E' E) as Q. rewrite faces_card_of in Q.
      rewrite <- (canon_of_alike c x (faces h) Hc Hx P S0) in Q. unfold is_canon. destruct (canon_dec _ _) as [X|X].
      - split; [|reflexivity]. intros _. exists e'. split; [exact E'|apply Q, X].
      - split; [discriminate|]. intros (e'' & E'' & B). exfalso. apply X, Q.
        assert (e'' = e') as <-; [|exact B]. unfold evaluates in E', E''. congruence. }
    split.
    + intros H. apply in_map_iff in H. destruct H as (x & <- & H). apply filter_In in H. destruct H as [Hx H].
      assert (I : In (map card_of x) five_card_choices) by (rewrite five_card_choices_map; apply in_map, Hx).
      apply (combs_sublist deck_generate 5) in I. destruct I as [I L]. split; [exact I|]. split; [exact L|].
      apply K; assumption.
    + intros (Sb & L & H). assert (I : In g five_card_choices) by (apply (combs_sublist deck_generate 5); auto).
      rewrite five_card_choices_map in I. apply in_map_iff in I. destruct I as (x & <- & Hx).
      apply in_map, filter_In. split; [exact Hx|]. apply K; assumption.
  - rewrite map_length. pose proof weights_alike as W. rewrite forallb_forall in W. specialize (W c Hc).
    destruct (canon_weight c) as [w|] eqn:Ew; [|discriminate W]. apply Z.eqb_eq in W.
    rewrite (canon_weight_spec c w Hc Ew), W. do 2 f_equal. symmetry. apply (class_correct ev h e Hev F E).
    pose proof canon_class_ok as K. rewrite forallb_forall in K. specialize (K c Hc).
    refine (proj1 (classifyb_spec (faces h) (fst c) (snd c) _ _ _ (canon_class c)) K); [apply F5|exact P|exact S0].
Qed.
