(** ClassOrderFacts.v: the order of [EvalClass] and the classes that occur. *)
From Coq Require Import Lia List Arith Bool Permutation ZArith.
From Verif Require Import Base ModelCard ModelEval ModelTable ModelEvaluation.
From Verif Require Import Spec SpecApi CardFacts Sweep SweepFacts SpecFacts EvalFacts EvaluateFacts HandFacts ClassFacts Samples.
Import ListNotations.
Local Open Scope nat_scope.

(** ** The order *)
Lemma fields_named c : class_fields c = named_ranks c.
Proof. destruct c; reflexivity. Qed.
Lemma fields_gt : forall a b, length a = length b -> (fields_cmp a b = Gt <-> lex_gt a b).
Proof.
  induction a as [|x a IH]; intros [|y b] L; try discriminate L; [split; [discriminate|intros []]|].
  cbn [fields_cmp lex_gt]. injection L as L. specialize (IH b L). rewrite rank_cmp_pips.
  destruct (Nat.compare_spec (pips x) (pips y)) as [E|E|E].
  - apply pips_inj in E. subst y. rewrite IH. split; [tauto|]. intros [H|[_ H]]; [lia|exact H].
  - split; [discriminate|]. intros [H|[-> _]]; lia.
  - split; [left; exact E|reflexivity].
Qed.
Theorem class_cmp_spec a b : (class_cmp a b = Gt <-> outranks a b)
  /\ (class_cmp a b = Eq <-> a = b)
  /\ (class_cmp a b = Lt <-> outranks b a).
Proof.
  assert (K : forall a b, class_cmp a b = Gt <-> outranks a b).
  { clear a b. intros a b. unfold class_cmp, outranks. rewrite !class_discr_category, !fields_named.
    destruct (Z.compare_spec (Z.of_nat (category a)) (Z.of_nat (category b))) as [E|E|E].
    - rewrite fields_gt by (rewrite <- !fields_named; apply category_fields; lia). split; [right; split; [lia|assumption]|].
      intros [H|[_ H]]; [lia|exact H].
    - split; [discriminate|]. intros [H|[H _]]; lia.
    - split; [left; lia|reflexivity]. }
  split; [apply K|]. split; [apply class_cmp_eq|]. rewrite <- K, (class_cmp_antisym a b).
  destruct (class_cmp a b); cbn; split; congruence.
Qed.
Lemma lex_gt_trans : forall a b c, lex_gt a b -> lex_gt b c -> lex_gt a c.
Proof.
  induction a as [|x a IH]; intros [|y b] [|z c] H1 H2; try (destruct H1); try (destruct H2).
  - left. lia.
  - destruct H0 as [-> _]. left. lia.
  - destruct H as [-> _]. left. lia.
  - destruct H as [-> H], H0 as [-> H0]. right. split; [reflexivity|exact (IH _ _ H H0)].
Qed.
Theorem outranks_trans a b c : outranks a b -> outranks b c -> outranks a c.
Proof.
  intros [H|[E H]] [H'|[E' H']]; unfold outranks; try (left; lia).
  right. split; [lia|]. exact (lex_gt_trans _ _ _ H H').
Qed.
Theorem outranks_irrefl a : ~ outranks a a.
Proof. intros [H|[_ H]]; [lia|]. exact (lex_gt_irrefl _ H). Qed.

(** ** The classes that occur *)
Lemma low_ranks h : length h = 5 -> NoDup (ranks h) -> (forall r, In r (ranks h) -> pips r <= 6) -> in_sequence h Six.
Proof.
  intros L N H. left. assert (P : Permutation (ranks h) [Two; Three; Four; Five; Six]).
  { assert (L' : length (ranks h) = 5) by (unfold ranks; rewrite map_length; exact L).
    apply NoDup_Permutation_bis; [exact N|rewrite L'; apply le_n|].
    intros r Hr. specialize (H r Hr). destruct r; cbn in H; try lia; cbn; tauto. }
  rewrite P. reflexivity.
Qed.
Lemma sequence_top h top : in_sequence h top -> 5 <= pips top.
Proof.
  intros [P|[-> _]]; [|cbn; lia]. assert (H : In (pips top - 4) (map pips (ranks h))).
  { rewrite P. left. reflexivity. }
  apply in_map_iff in H. destruct H as (r & E & _). pose proof (pips_range r). lia.
Qed.
Lemma count_NoDup h : (forall r, count r h <= 1) -> NoDup (ranks h).
Proof. intros H. apply (NoDup_count_occ rank_dec). exact H. Qed.
Lemma classify_possible h c : five_card_hand h -> classify h c -> possible c.
Proof.
  intros [N L] C. destruct c as [t|p|hi lo|t|t|t|t p|q|t]; cbn [classify possible] in *; try exact I.
  - destruct C as (_ & Q & U & _ & T). apply Nat.lt_nge. intros X. apply (Q Six), low_ranks; [exact L|apply count_NoDup, U|].
    intros r Hr. specialize (T r Hr). lia.
  - apply C.
  - apply (sequence_top h), C.
  - destruct C as (U & Q & _ & T). apply Nat.lt_nge. intros X. apply (Q Six), low_ranks; [exact L|apply suited_NoDup; assumption|].
    intros r Hr. specialize (T r Hr). lia.
  - destruct C as [C1 C2]. intros ->. lia.
  - apply (sequence_top h), C.
Qed.

(** A hand of each possible class. *)
Definition run_to (top : rank) : list rank :=
  match top with
  | Five => [Five; Four; Three; Two; Ace]
  | _ => filter (fun r => (pips top - 4 <=? pips r) && (pips r <=? pips top)) high_to_low
  end.
Definition apart (l : list rank) (n : nat) : list rank :=
  firstn n (filter (fun r => negb (existsb (rank_eqb r) l)) [Two; Four; Six; Eight; Ten; Queen]).
Definition no_run (top : rank) : list rank :=
  match top with Seven => [Seven; Five; Four; Three; Two] | _ => [top; Six; Four; Three; Two] end.
Definition witness (c : eval_class) : list face :=
  match c with
  | HighCard top => deal (false, no_run top)
  | Pair p => deal (false, [p; p] ++ apart [p] 3)
  | TwoPair hi lo => deal (false, [hi; hi; lo; lo] ++ apart [hi; lo] 1)
  | ThreeOfAKind t => deal (false, [t; t; t] ++ apart [t] 2)
  | Straight top => deal (false, run_to top)
  | Flush top => deal (true, no_run top)
  | FullHouse t p => deal (false, [t; t; t; p; p])
  | FourOfAKind q => deal (false, [q; q; q; q] ++ apart [q] 1)
  | StraightFlush top => deal (true, run_to top)
  end.
Definition suited_here (c : eval_class) : bool :=
  match c with Flush _ | StraightFlush _ => true | _ => false end.
Definition possibleb (c : eval_class) : bool :=
  match c with
  | HighCard top | Flush top => 7 <=? pips top
  | Straight top | StraightFlush top => 5 <=? pips top
  | TwoPair hi lo => pips lo <? pips hi
  | FullHouse three two => negb (rank_eqb three two)
  | Pair _ | ThreeOfAKind _ | FourOfAKind _ => true
  end.
Lemma possibleb_spec c : possibleb c = true <-> possible c.
Proof.
  destruct c; cbn [possibleb possible]; rewrite ?Nat.leb_le, ?Nat.ltb_lt; try tauto.
  rewrite negb_true_iff. split; [intros E ->|].
  - rewrite (proj2 (rank_eqb_eq pair pair) eq_refl) in E. discriminate E.
  - intros H. apply not_true_is_false. rewrite rank_eqb_eq. exact H.
Qed.
Definition witness_ok (c : eval_class) : bool :=
  negb (possibleb c)
  || (existsb (fun f => suit_eqb (snd f) Clubs) (witness c) && nodupb (witness c) && (length (witness c) =? 5)
      && Bool.eqb (forallb (fun f => suit_eqb (snd f) Clubs) (witness c)) (suited_here c)
      && classifyb (suited_here c) (ranks (witness c)) c).
Lemma witnesses_ok : forallb witness_ok all_classes = true.
Proof. vm_compute. reflexivity. Qed.

Theorem witness_class c : possible c -> five_card_hand (witness c) /\ classify (witness c) c.
Proof.
  intros H. apply possibleb_spec in H. pose proof witnesses_ok as W. rewrite forallb_forall in W.
  specialize (W c (in_all_classes c)). unfold witness_ok in W. rewrite H in W. cbn [negb orb] in W.
  apply andb_true_iff in W. destruct W as [W W4]. apply andb_true_iff in W. destruct W as [W W3].
  apply andb_true_iff in W. destruct W as [W W2]. apply andb_true_iff in W. destruct W as [W0 W1].
  apply existsb_exists in W0. destruct W0 as (g & Hg & Eg). apply nodupb_NoDup in W1. apply Nat.eqb_eq in W2.
  split; [split; assumption|]. apply (classifyb_spec _ (suited_here c) (ranks (witness c)) W2); [reflexivity| |exact W4].
  apply eqb_prop in W3. split.
  - intros [s F]. rewrite <- W3. apply forallb_forall. intros f Hf.
    assert (s = Clubs) as ->.
    { rewrite Forall_forall in F. rewrite <- (F g Hg). destruct (snd g); try discriminate Eg. reflexivity. }
    rewrite Forall_forall in F. rewrite (F f Hf). reflexivity.
  - intros E. rewrite E in W3. exists Clubs. apply Forall_forall. intros f Hf. rewrite forallb_forall in W3.
    specialize (W3 f Hf). destruct (snd f); try discriminate W3. reflexivity.
Qed.
Theorem classes_occur ev : new_evaluator ev -> forall c,
  (exists h e, legal h /\ evaluates ev h e /\ eval_class_of e = c) <-> possible c.
Proof.
  intros Hev c. split.
  - intros (h & e & Lh & E & C). destruct (best_five ev h e Hev (proj1 Lh) E) as (x & X5 & _ & Ex).
    apply (class_correct ev x e Hev X5 Ex) in C. refine (classify_possible (faces x) c _ C).
    destruct X5 as (A & N & L). split; [|unfold faces; rewrite map_length; exact L].
    apply NoDup_faces; assumption.
  - intros P. destruct (witness_class c P) as [[N L] C].
    assert (F : hand5 (cards_macro_idents (witness c))).
    { split; [apply idents_all_cards|]. split; [|unfold cards_macro_idents; rewrite map_length; exact L].
      apply NoDup_faces; [apply idents_all_cards|]. rewrite idents_faces. exact N. }
    destruct (evaluate_spec ev _ Hev (hand5_legal _ F)) as (e & E & _). exists (cards_macro_idents (witness c)), e.
    split; [apply hand5_legal, F|]. split; [exact E|]. apply (class_correct ev _ e Hev F E).
    rewrite idents_faces. exact C.
Qed.
Theorem possible_309 : exists L, NoDup L /\ length L = 309 /\ forall c, In c L <-> possible c.
Proof.
  exists (filter possibleb all_classes). split; [|split].
  - apply NoDup_filter. assert (X : forall l, (forall a b : eval_class, class_eqb a b = true <-> a = b) ->
      (fix nd l := match l with [] => true | x :: l' => negb (existsb (class_eqb x) l') && nd l' end) l = true -> NoDup l).
    { intros l K. induction l as [|x l IH]; intros H; [constructor|]. apply andb_true_iff in H. destruct H as [H1 H2].
      constructor; [|exact (IH H2)]. intros I. apply negb_true_iff, not_true_iff_false in H1. apply H1.
      apply existsb_exists. exists x. split; [exact I|apply K; reflexivity]. }
    apply X; [|vm_compute; reflexivity].
    intros a b. unfold class_eqb. rewrite <- class_cmp_eq. destruct (class_cmp a b); split; congruence.
  - vm_compute. reflexivity.
  - intros c. rewrite filter_In, possibleb_spec. split; [tauto|]. intros H. split; [apply in_all_classes|exact H].
Qed.
