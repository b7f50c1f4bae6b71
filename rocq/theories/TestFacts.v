(** TestFacts.v: the programs of ModelTests.v end normally. *)
From Coq Require Import String List ZArith NArith Lia Bool Permutation.
From Verif Require Import Base BaseFacts ModelCard ModelEval ModelTable ModelEvaluation ModelExamples ModelTests ModelDebugTree.
From Verif Require Import Spec SpecApi CardFacts Sweep SweepFacts SpecFacts EvalFacts FiveFacts CombosFacts EvaluateFacts
  HandFacts DeckFacts LawFacts TableFacts DebugTreeFacts.
From Verif Require ExamplesFacts.
Import ListNotations.
Local Open Scope list_scope.

Definition passes (o : outcome unit) : bool := match o with Ret tt => true | _ => false end.
Lemma passes_ret o : passes o = true <-> o = Ret tt.
Proof. destruct o as [[]|p|]; cbn [passes]; split; congruence. Qed.

(** Those that run the same way every time, without going through all hands. *)
Definition plain_tests : list (outcome unit) :=
  [(let! _ := evaluator_new in Ret tt); from_str_fails; try_from_works; box_cards_works; card_integers_unique;
   deck_example; card_suit_and_rank_calculations; generate_deck_is_52_cards; parse_card_error_format;
   bit_sequence_generator_works; check_all_unique; const_combos_works; eval_class_derived_ord_works; eval_best;
   eval_worst; eval_better_worse_tie; check_metadata_ordering; representative_hands FiveCardHand 5;
   representative_hands SixCardHand 6; representative_hands SevenCardHand 7;
   unique_integer_example; display_example; try_from_chars_example; rank_suit_example;
   rank_suit_string_example; parse_to_iter_example; macros_example;
   characters_example; parse_errors_example; eval_errors_example; wheel_example; pair_example;
   flushes_example; full_house_example;
   (let! ev := evaluator_new in royal_example (evaluate ev));
   (let! ev := evaluator_new in board_example (evaluate ev)); crate_example;
   (let! ev := evaluator_new in bench_hand (evaluate ev) ["Th"; "Jh"; "Qh"; "Kh"; "Ah"]%string);
   (let! ev := evaluator_new in bench_hand (evaluate ev) ["8h"; "9h"; "Th"; "Jh"; "Qh"; "Kh"; "Ah"]%string)].
Transparent lookup_table_new.
Lemma plain_pass : forallb passes plain_tests = true.
Proof. vm_compute. reflexivity. Qed.
Opaque lookup_table_new.
Lemma plain_ret o : In o plain_tests -> o = Ret tt.
Proof. intros I. apply passes_ret. exact (proj1 (forallb_forall _ _) plain_pass o I). Qed.

Lemma with_evaluator ev {A} (f : evaluator -> outcome A) : new_evaluator ev -> bind evaluator_new f = f ev.
Proof. unfold new_evaluator. intros ->. reflexivity. Qed.

(** ** The texts of errors, in whatever order a hash map is gone through *)
Lemma eval_error_format_passes iter_order : (forall l, Permutation l (iter_order l)) ->
  eval_error_format iter_order = Ret tt.
Proof.
  intros P. destruct evaluator_new_ret as [ev Hev]. unfold eval_error_format.
  rewrite (with_evaluator ev _ Hev).
  set (five := map (fun p => card_new (fst p) Clubs)
    [(Five, tt); (Five, tt); (Ten, tt); (Jack, tt); (Queen, tt)]).
  assert (W : words "5c 5c Tc Jc Qc" = Ret five) by reflexivity. rewrite W. cbn [bind].
  assert (A : all_cards five).
  { unfold five. cbn [map fst]. repeat constructor; do 2 eexists; reflexivity. }
  rewrite (evaluate_dup ev five A).
  2:{ intros N. inversion N as [|x l H ?]. apply H. left. reflexivity. }
  cbn [bind unwrap_err].
  set (one := cards_macro_idents [(Ace, Spades)]).
  assert (B : all_cards one).
  { unfold one, cards_macro_idents. cbn [map]. repeat constructor; do 2 eexists; reflexivity. }
  assert (T : eval_error_display iter_order (CardsNotUnique five) =
    lit "Cannot evaluate a poker hand with a set of cards that are not unique. Cards duplicated at least once: 5c").
  { unfold eval_error_display. cbv zeta.
    set (f := fun p : card * nat => if Nat.ltb 1 (snd p) then [rank_suit_string (fst p)] else []).
    pose proof (Permutation_flat_map f (P (counts card_eqb five))) as Q.
    assert (F : flat_map f (counts card_eqb five) = [lit "5c"]) by reflexivity.
    rewrite F in Q. apply Permutation_length_1_inv in Q. rewrite Q. reflexivity. }
  rewrite T. 
  match goal with |- context [str_eqb ?a ?a] => assert (E : str_eqb a a = true) by reflexivity; rewrite E end.
  cbn [assert bind].
  rewrite (evaluate_small ev one B).
  2:{ unfold one. cbn. repeat constructor. intros []. }
  2:{ unfold one. cbn. lia. }
  reflexivity.
Qed.

(** ** Shuffling *)
Lemma shuffled_passes R (gen : R -> nat -> nat * R) rng : (forall rng n, 0 < n -> fst (gen rng n) < n) ->
  generate_shuffled_deck_is_52_cards gen rng = Ret tt.
Proof.
  intros G. destruct (shuffled_correct gen rng G) as (d & rng' & E & P).
  unfold generate_shuffled_deck_is_52_cards. rewrite E. cbn [bind fst].
  rewrite <- (Permutation_length P), deck_length. reflexivity.
Qed.

(** ** All hands of five cards *)
Section AllHands.
Variable eval_ : list card -> outcome (result eval eval_error).
Hypothesis fine : forall h, hand5 h -> exists e, eval_ h = Ret (Ok e) /\ (1 <= rk e <= 7462)%Z.
Hypothesis onto : forall z, (1 <= z <= 7462)%Z ->
  exists h e, In h (combs 5 deck_generate) /\ eval_ h = Ret (Ok e) /\ rk e = z.

Definition result_of (h : list card) : eval :=
  match eval_ h with Ret (Ok e) => e | _ => EVAL_WORST end.
Definition insert_eval (set : list eval) (h : list card) : list eval :=
  snd (set_insert eval_eqb (result_of h) set).

Lemma insert_inv set h : NoDup (map rk set) ->
  NoDup (map rk (insert_eval set h))
  /\ forall z, In z (map rk (insert_eval set h)) <-> z = rk (result_of h) \/ In z (map rk set).
Proof.
  intros N. unfold insert_eval, set_insert.
  destruct (existsb (eval_eqb (result_of h)) set) eqn:X; cbn [snd map].
  - split; [exact N|]. intros z. split; [auto|]. intros [->|I]; [|exact I].
    apply existsb_exists in X. destruct X as (e & I & Q). apply eqb_rk in Q. rewrite Q.
    apply in_map. exact I.
  - split.
    + constructor; [|exact N]. intros I. apply in_map_iff in I. destruct I as (e & Q & I).
      assert (existsb (eval_eqb (result_of h)) set = true); [|congruence].
      apply existsb_exists. exists e. split; [exact I|]. apply eqb_rk. symmetry. exact Q.
    + intros z. cbn [In]. intuition congruence.
Qed.
Lemma insert_all hands : forall set, NoDup (map rk set) ->
  NoDup (map rk (fold_left insert_eval hands set))
  /\ forall z, In z (map rk (fold_left insert_eval hands set)) <->
               In z (map rk set) \/ exists h, In h hands /\ z = rk (result_of h).
Proof.
  induction hands as [|h hands IH]; intros set N; cbn [fold_left].
  - split; [exact N|]. intros z. split; [auto|]. intros [I|(h & [] & _)]. exact I.
  - destruct (insert_inv set h N) as [N1 I1]. destruct (IH _ N1) as [N2 I2]. split; [exact N2|].
    intros z. rewrite I2, I1. split.
    + intros [[->|I]|(x & I & ->)]; [right; exists h; split; [left; reflexivity|reflexivity]|auto|].
      right. exists x. split; [right; exact I|reflexivity].
    + intros [I|(x & [<-|I] & ->)]; [auto|auto|]. right. exists x. auto.
Qed.

Lemma in_combs_deck h : In h (combs 5 deck_generate) -> hand5 h.
Proof. intros I. exact (proj1 (combs_hand5 _ _ deck_all_cards deck_NoDup I)). Qed.
Lemma fine_result h : hand5 h -> eval_ h = Ret (Ok (result_of h)) /\ (1 <= rk (result_of h) <= 7462)%Z.
Proof. intros H. destruct (fine h H) as (e & E & R). unfold result_of. rewrite E. auto. Qed.

Lemma assert_all {A} (f : A -> bool) l : (forall x, In x l -> f x = true) ->
  foldM (fun _ x => assert (f x)) l tt = Ret tt.
Proof.
  intros H. induction l as [|x l IH]; [reflexivity|]. cbn [foldM]. rewrite H by (left; reflexivity).
  cbn [assert bind]. apply IH. intros y Hy. apply H. right. exact Hy.
Qed.

Lemma all_five_passes : all_five_card_combos eval_ = Ret tt.
Proof.
  unfold all_five_card_combos.
  rewrite for_const_combos_spec by (rewrite deck_length; lia).
  rewrite (foldM_ret _ insert_eval).
  2:{ intros set h I. destruct (fine_result h (in_combs_deck h I)) as [E _].
      unfold evaluated. rewrite E. cbn [bind unwrap]. reflexivity. }
  cbn [bind]. destruct (insert_all (combs 5 deck_generate) [] (NoDup_nil _)) as [N I].
  set (evals := fold_left insert_eval (combs 5 deck_generate) []) in *. clearbody evals.
  assert (J : forall z, In z (map rk evals) <-> (1 <= z <= 7462)%Z).
  { intros z. rewrite I. split.
    - intros [[]|(h & Hh & ->)]. apply fine_result. apply in_combs_deck. exact Hh.
    - intros Hz. right. destruct (onto z Hz) as (h & e & Hh & E & R). exists h. split; [exact Hh|].
      unfold result_of. rewrite E. symmetry. exact R. }
  assert (L : Z.of_nat (length evals) = 7462%Z).
  { assert (P : Permutation (map rk evals) (map Z.of_nat (seq 1 (Z.to_nat 7462)))).
    { apply NoDup_Permutation; [exact N| |].
      - apply FinFun.Injective_map_NoDup; [intros a b; apply Nat2Z.inj|apply seq_NoDup].
      - intros z. rewrite J, in_map_iff. split.
        + intros H. exists (Z.to_nat z). split; [lia|]. apply in_seq. lia.
        + intros (n & <- & H). apply in_seq in H. lia. }
    apply Permutation_length in P. rewrite !map_length, seq_length in P. lia. }
  rewrite L, Z.eqb_refl. cbn [assert bind].
  apply (assert_all (fun i => existsb (fun m => phr_eqb (eval_hand_rank m) (PokerHandRank (Z.of_nat i))) evals)).
  intros i Hi. apply in_seq in Hi. apply existsb_exists.
  assert (In (Z.of_nat i) (map rk evals)) as K by (apply J; lia).
  apply in_map_iff in K. destruct K as (e & Q & K). exists e. split; [exact K|].
  unfold phr_eqb. apply Z.eqb_eq. exact Q.
Qed.

Lemma bench_all_passes : bench_all eval_ = Ret tt.
Proof.
  unfold bench_all. rewrite for_const_combos_spec by (rewrite deck_length; lia).
  rewrite (foldM_ret _ (fun s _ => s)).
  - destruct (fold_left _ _ _). reflexivity.
  - intros [] h I. destruct (fine_result h (in_combs_deck h I)) as [E _]. rewrite E. reflexivity.
Qed.
End AllHands.

Lemma evaluate_fine ev : new_evaluator ev -> forall h, hand5 h ->
  exists e, evaluate ev h = Ret (Ok e) /\ (1 <= rk e <= 7462)%Z.
Proof.
  intros Hev h H5. destruct (evaluate_spec ev h Hev (hand5_legal h H5)) as (e & E & _).
  exists e. split; [exact E|]. exact (rank_range ev h e Hev (proj1 H5) E).
Qed.
Lemma evaluate_onto ev : new_evaluator ev -> forall z, (1 <= z <= 7462)%Z ->
  exists h e, In h (combs 5 deck_generate) /\ evaluate ev h = Ret (Ok e) /\ rk e = z.
Proof.
  intros Hev z Hz. destruct (rank_attained ev z Hev Hz) as (h & e & (A & N & L) & E & R).
  destruct (combs_complete card_dec deck_generate 5 h N) as (m & Hm & P); [|exact L|].
  { intros c Hc. apply in_deck. exact (proj1 (Forall_forall _ _) A c Hc). }
  exists m, e. split; [exact Hm|]. split; [|exact R].
  apply (proj1 (permutation_ok ev h m Hev A P)). exact E.
Qed.

(** ** The feature [static_lookup] *)
Lemma static_fine ev F U : new_evaluator ev ->
  table_test (flush_lookup (evaluator_table ev)) F -> table_test (unsuited_lookup (evaluator_table ev)) U ->
  forall h, hand5 h -> exists e, static_evaluate F U h = Ret (Ok e) /\ (1 <= rk e <= 7462)%Z.
Proof.
  intros Hev HF HU h H5. destruct (evaluate_fine ev Hev h H5) as (e & E & R).
  pose proof (static_verdict F U ev HF HU h) as V. rewrite E in V. unfold same_verdict in V.
  destruct (static_evaluate F U h) as [[e'|x]|x|]; try discriminate V.
  exists e'. split; [reflexivity|]. apply eqb_rk in V. rewrite V. exact R.
Qed.
Lemma static_onto ev F U : new_evaluator ev ->
  table_test (flush_lookup (evaluator_table ev)) F -> table_test (unsuited_lookup (evaluator_table ev)) U ->
  forall z, (1 <= z <= 7462)%Z ->
  exists h e, In h (combs 5 deck_generate) /\ static_evaluate F U h = Ret (Ok e) /\ rk e = z.
Proof.
  intros Hev HF HU z Hz. destruct (evaluate_onto ev Hev z Hz) as (h & e & I & E & R).
  pose proof (static_verdict F U ev HF HU h) as V. rewrite E in V. unfold same_verdict in V.
  destruct (static_evaluate F U h) as [[e'|x]|x|] eqn:S'; try discriminate V.
  exists h, e'. split; [exact I|]. split; [exact S'|]. apply eqb_rk in V. congruence.
Qed.

Lemma representatives_ext f g hands preds : (forall h, f h = g h) ->
  representatives f hands preds = representatives g hands preds.
Proof.
  intros Q. revert hands. induction preds as [|p preds IH]; intros [|h hands]; cbn [representatives]; try reflexivity.
  destruct (unwrap _) as [cards|x|]; cbn [bind]; try reflexivity.
  unfold evaluated. rewrite Q. destruct (g cards) as [r|x|]; cbn [bind]; try reflexivity.
  destruct (unwrap r) as [e|x|]; cbn [bind]; try reflexivity.
  destruct (assert (p e)) as [e'|x|]; cbn [bind]; try reflexivity. apply IH.
Qed.

Lemma representatives_of hands n ev : new_evaluator ev -> representative_hands hands n = Ret tt ->
  representatives (evaluate ev) hands predicates = Ret tt.
Proof.
  intros Hev. unfold representative_hands. rewrite (with_evaluator ev _ Hev).
  destruct (forallb _ hands); cbn [assert bind]; [auto|discriminate].
Qed.

(** Looks for the very same program: two that pass are equal by computation. *)
Ltac in_plain := unfold plain_tests; cbn [In];
  repeat match goal with
  | |- ?a = ?b \/ _ => first [constr_eq a b; left; exact eq_refl | right]
  end.

Lemma royal_ext f g : (forall h, f h = g h) -> royal_example f = royal_example g.
Proof. intros Q. unfold royal_example, evaluated. cbv zeta. rewrite !Q. reflexivity. Qed.
Lemma board_ext f g : (forall h, f h = g h) -> board_example f = board_example g.
Proof.
  intros Q. unfold board_example, evaluated. destruct (words _) as [b|x|]; cbn [bind]; try reflexivity.
  destruct (words _) as [c|x|]; cbn [bind]; try reflexivity. rewrite !Q. reflexivity.
Qed.
Lemma bench_hand_ext f g texts : (forall h, f h = g h) -> bench_hand f texts = bench_hand g texts.
Proof.
  intros Q. unfold bench_hand. destruct (each _) as [b|x|]; cbn [bind]; try reflexivity. rewrite Q. reflexivity.
Qed.
Lemma five_in : In (representative_hands FiveCardHand 5) plain_tests. Proof. in_plain. Qed.
Lemma six_in : In (representative_hands SixCardHand 6) plain_tests. Proof. in_plain. Qed.
Lemma seven_in : In (representative_hands SevenCardHand 7) plain_tests. Proof. in_plain. Qed.
Lemma royal_in : In (bind evaluator_new (fun ev => royal_example (evaluate ev))) plain_tests. Proof. in_plain. Qed.
Lemma board_in : In (bind evaluator_new (fun ev => board_example (evaluate ev))) plain_tests. Proof. in_plain. Qed.
Lemma bench5_in : In (bind evaluator_new (fun ev => bench_hand (evaluate ev) ["Th"; "Jh"; "Qh"; "Kh"; "Ah"]%string)) plain_tests.
Proof. in_plain. Qed.
Lemma bench7_in : In (bind evaluator_new (fun ev =>
  bench_hand (evaluate ev) ["8h"; "9h"; "Th"; "Jh"; "Qh"; "Kh"; "Ah"]%string)) plain_tests.
Proof. in_plain. Qed.
Lemma plain_with ev f : new_evaluator ev -> In (bind evaluator_new f) plain_tests -> f ev = Ret tt.
Proof. intros Hev I. apply plain_ret in I. rewrite (with_evaluator ev f Hev) in I. exact I. Qed.

Lemma static_passes ev F U : new_evaluator ev ->
  (forall k, map_get F k = map_get (flush_lookup (evaluator_table ev)) k) ->
  (forall k, map_get U k = map_get (unsuited_lookup (evaluator_table ev)) k) ->
  Forall (fun t => t = Ret tt) (static_suite F U).
Proof.
  intros Hev HF HU. pose proof (static_same F U ev HF HU) as Q.
  assert (Fi : forall h, hand5 h -> exists e, static_evaluate F U h = Ret (Ok e) /\ (1 <= rk e <= 7462)%Z).
  { intros h H5. rewrite Q. apply evaluate_fine; assumption. }
  assert (On : forall z, (1 <= z <= 7462)%Z ->
    exists h e, In h (combs 5 deck_generate) /\ static_evaluate F U h = Ret (Ok e) /\ rk e = z).
  { intros z Hz. destruct (evaluate_onto ev Hev z Hz) as (h & e & X). exists h, e. rewrite Q. exact X. }
  unfold static_suite. cbv zeta.
  repeat match goal with |- Forall _ (_ :: _) => constructor | |- Forall _ [] => constructor end.
  - apply all_five_passes; assumption.
  - rewrite (representatives_ext _ (evaluate ev)) by exact Q.
    exact (representatives_of _ 5 ev Hev (plain_ret _ five_in)).
  - rewrite (representatives_ext _ (evaluate ev)) by exact Q.
    exact (representatives_of _ 6 ev Hev (plain_ret _ six_in)).
  - rewrite (representatives_ext _ (evaluate ev)) by exact Q.
    exact (representatives_of _ 7 ev Hev (plain_ret _ seven_in)).
  - rewrite (royal_ext _ (evaluate ev)) by exact Q. exact (plain_with ev _ Hev royal_in).
  - rewrite (board_ext _ (evaluate ev)) by exact Q. exact (plain_with ev _ Hev board_in).
  - rewrite (bench_hand_ext _ (evaluate ev)) by exact Q. exact (plain_with ev _ Hev bench5_in).
  - rewrite (bench_hand_ext _ (evaluate ev)) by exact Q. exact (plain_with ev _ Hev bench7_in).
  - apply bench_all_passes. assumption.
Qed.

Lemma static_all_five ev F U : new_evaluator ev ->
  table_test (flush_lookup (evaluator_table ev)) F -> table_test (unsuited_lookup (evaluator_table ev)) U ->
  all_five_card_combos (static_evaluate F U) = Ret tt /\ bench_all (static_evaluate F U) = Ret tt.
Proof.
  intros Hev HF HU. split.
  - apply all_five_passes; [exact (static_fine ev F U Hev HF HU)|exact (static_onto ev F U Hev HF HU)].
  - apply bench_all_passes. exact (static_fine ev F U Hev HF HU).
Qed.

(** [ensure_identical_tables] *)
Lemma identical_spec dyn stat :
  (let! _ := foldM (fun _ (p : Z * meta) =>
     let! v := index_key (map_get dyn) (fst p) in assert (meta_eqb v (snd p))) (map_contents stat) tt in
   assert (Nat.eqb (map_len dyn) (map_len stat))) = Ret tt <-> table_test dyn stat.
Proof.
  assert (X : forall l, foldM (fun _ (p : Z * meta) =>
     let! v := index_key (map_get dyn) (fst p) in assert (meta_eqb v (snd p))) l tt = Ret tt
     <-> forall k v, In (k, v) l -> exists w, map_get dyn k = Some w /\ meta_eqb w v = true).
  { induction l as [|[k v] l IH]; cbn [foldM].
    - split; [intros _ k v []|reflexivity].
    - cbn [fst snd]. unfold index_key at 1. destruct (map_get dyn k) as [w|] eqn:G; cbn [bind].
      + destruct (meta_eqb w v) eqn:M; cbn [assert bind].
        * rewrite IH. split.
          -- intros H k' v' [E|I]; [injection E as <- <-; exists w; auto|exact (H k' v' I)].
          -- intros H k' v' I. apply H. right. exact I.
        * split; [discriminate|]. intros H. destruct (H k v (or_introl eq_refl)) as (w' & G' & M'). congruence.
      + split; [discriminate|]. intros H. destruct (H k v (or_introl eq_refl)) as (w' & G' & M'). congruence. }
  unfold table_test. specialize (X (map_contents stat)).
  set (o := foldM _ (map_contents stat) tt) in *. clearbody o.
  assert (Y : o = Ret tt <-> forall k v, map_get stat k = Some v ->
    exists w, map_get dyn k = Some w /\ meta_eqb w v = true).
  { rewrite X. split; intros H k v I; apply H; apply contents_in; exact I. }
  rewrite <- Y. destruct o as [[]|p|]; cbn [bind].
  - destruct (Nat.eqb_spec (map_len dyn) (map_len stat)) as [E|E]; cbn [assert]; split.
    + auto. + reflexivity. + discriminate. + intros [_ C]. contradiction.
  - split; [discriminate|intros [C _]; discriminate C].
  - split; [discriminate|intros [C _]; discriminate C].
Qed.
Lemma ensure_spec ev F U : new_evaluator ev ->
  (ensure_identical_tables F U = Ret tt <->
   table_test (flush_lookup (evaluator_table ev)) F /\ table_test (unsuited_lookup (evaluator_table ev)) U).
Proof.
  intros Hev. unfold ensure_identical_tables.
  match goal with |- bind evaluator_new ?f = _ <-> _ => rewrite (with_evaluator ev f Hev) end. cbv beta zeta.
  rewrite <- (identical_spec _ F), <- (identical_spec _ U).
  match goal with |- bind ?a (fun _ => ?b) = _ <-> _ => set (x := a); set (y := b); clearbody x y end.
  destruct x as [[]|p|]; cbn [bind]; intuition congruence.
Qed.

Lemma empty_tables_fail : ensure_identical_tables map_empty map_empty <> Ret tt.
Proof.
  destruct table_contents as (t & Ht & _ & _ & L & _).
  assert (Hev : new_evaluator (Evaluator t)) by (unfold new_evaluator, evaluator_new; rewrite Ht; reflexivity).
  rewrite (ensure_spec _ _ _ Hev). intros [[_ C] _]. cbn [evaluator_table] in C. rewrite C in L. discriminate L.
Qed.

(** ** All of them *)
Lemma test_all_passes : test_all_five_card_combos = Ret tt.
Proof.
  destruct evaluator_new_ret as [ev Hev]. unfold test_all_five_card_combos.
  rewrite (with_evaluator ev (fun ev => all_five_card_combos (evaluate ev)) Hev).
  exact (all_five_passes (evaluate ev) (evaluate_fine ev Hev) (evaluate_onto ev Hev)).
Qed.
Lemma bench_all_new : bind evaluator_new (fun ev => bench_all (evaluate ev)) = Ret tt.
Proof.
  destruct evaluator_new_ret as [ev Hev].
  rewrite (with_evaluator ev (fun ev => bench_all (evaluate ev)) Hev).
  exact (bench_all_passes (evaluate ev) (evaluate_fine ev Hev)).
Qed.
Lemma suite_passes R (gen : R -> nat -> nat * R) rng iter_order :
  (forall rng n, 0 < n -> fst (gen rng n) < n) -> (forall l, Permutation l (iter_order l)) ->
  Forall (fun t => t = Ret tt) (suite gen rng iter_order).
Proof.
  intros G P. unfold suite.
  repeat lazymatch goal with |- Forall ?Q (?x :: ?l) => refine (@Forall_cons _ Q x l _ _) | |- Forall _ [] => constructor end;
  lazymatch goal with
  | |- generate_shuffled_deck_is_52_cards _ _ = _ => exact (shuffled_passes R gen rng G)
  | |- eval_error_format _ = _ => exact (eval_error_format_passes iter_order P)
  | |- test_all_five_card_combos = _ => exact test_all_passes
  | |- ?x = _ => first
      [ constr_eq x (bind evaluator_new (fun ev => bench_all (evaluate ev))); exact bench_all_new
      | let H := fresh in assert (H : In x plain_tests) by in_plain; exact (plain_ret x H) ]
  end.
Qed.

(** ** What the tests are written with *)
Lemma cards_eqb_eq a : forall b, cards_eqb a b = true <-> a = b.
Proof.
  induction a as [|x a IH]; intros [|y b]; cbn [cards_eqb]; try (split; congruence).
  rewrite andb_true_iff, card_eqb_eq, IH. split; [intros [-> ->]; reflexivity|intros E; injection E; auto].
Qed.
Lemma parse_card_error_eqb_eq a b : parse_card_error_eqb a b = true <-> a = b.
Proof.
  assert (K : forall c d s t, str_eqb s t && N.eqb c d = true <-> s = t /\ c = d).
  { intros c d s t. rewrite andb_true_iff, ExamplesFacts.str_eqb_eq, N.eqb_eq. reflexivity. }
  destruct a, b; cbn [parse_card_error_eqb]; rewrite ?K, ?ExamplesFacts.str_eqb_eq; split; try congruence.
  all: try (intros [-> ->]; reflexivity).
  all: intros E; injection E; auto.
Qed.
Theorem test_tools :
  (forall a b, cards_eqb a b = true <-> a = b)
  /\ (forall a b, parse_card_error_eqb a b = true <-> a = b)
  /\ (forall a b, parsed_eqb a b = true <-> a = b)
  /\ (forall a b, eval_class_eqb a b = true <-> a = b)
  /\ (forall a b, evaluation_eqb a b = true <->
        match a, b with Ok e, Ok f => eval_eqb e f = true | Err x, Err y => x = y | _, _ => False end)
  /\ (forall b, assert b = Ret tt <-> b = true)
  /\ (forall A E (r : result A E) a, unwrap r = Ret a <-> r = Ok a)
  /\ (forall A E (r : result A E) p, unwrap r = Panic p <-> p = UnwrapFailed /\ exists e, r = Err e)
  /\ (forall A E (r : result A E) e, unwrap_err r = Ret e <-> r = Err e)
  /\ (forall A E (r : result A E) p, unwrap_err r = Panic p <-> p = UnwrapFailed /\ exists a, r = Ok a)
  /\ (forall c s, set_insert card_eqb c s = (true, c :: s) /\ ~ In c s \/ set_insert card_eqb c s = (false, s) /\ In c s).
Proof.
  split; [exact cards_eqb_eq|]. split; [exact parse_card_error_eqb_eq|]. split; [|split; [|split; [|split; [|split; [|split; [|split; [|split]]]]]]].
  - intros [c|e] [d|f]; cbn [parsed_eqb]; rewrite ?card_eqb_eq, ?parse_card_error_eqb_eq; split; congruence.
  - intros a b. unfold eval_class_eqb. rewrite <- class_cmp_eq. destruct (class_cmp a b); split; congruence.
  - intros [e|[l|n]] [f|[m|k]]; cbn [evaluation_eqb]; rewrite ?cards_eqb_eq, ?Nat.eqb_eq; split; try congruence; try contradiction.
  - intros [|]; cbn [assert]; split; congruence.
  - intros A E [a|x] e; cbn [unwrap]; split; congruence.
  - intros A E [a|x] p; cbn [unwrap]; split; try congruence.
    + intros [_ [e H]]. discriminate H.
    + intros H. injection H as <-. split; [reflexivity|]. exists x. reflexivity.
    + intros [-> _]. reflexivity.
  - intros A E [a|x] e; cbn [unwrap_err]; split; congruence.
  - intros A E [a|x] p; cbn [unwrap_err]; split; try congruence.
    + intros H. injection H as <-. split; [reflexivity|]. exists a. reflexivity.
    + intros [-> _]. reflexivity.
    + intros [_ [a H]]. discriminate H.
  - intros c s. unfold set_insert. destruct (existsb (card_eqb c) s) eqn:E.
    + right. split; [reflexivity|]. apply existsb_exists in E. destruct E as (d & H & Q). apply card_eqb_eq in Q. subst d. exact H.
    + left. split; [reflexivity|]. intros H. assert (X : existsb (card_eqb c) s = true); [|congruence].
      apply existsb_exists. exists c. split; [exact H|]. apply card_eqb_eq. reflexivity.
Qed.
