(** ProgramFacts.v: what the documented programs print (C66). *)
From Coq Require Import Lia List Arith NArith ZArith Bool Permutation Factorial.
From Verif Require Import Base BaseFacts ModelCard ModelEval ModelTable ModelEvaluation ModelThreads ModelExamples
  ModelPrograms.
From Verif Require Import Spec SpecApi SpecText SpecExamples SpecMore CardFacts Sweep SweepFacts EvalFacts EvaluateFacts
  HandFacts ClassFacts LawFacts CombosFacts DeckFacts OddsFacts ClassOrderFacts ShuffleFacts UniformFacts ThreadFacts.
Import ListNotations.

(** ** The number of hands in each class *)
Definition part (n : nat) (l : list (eval_class * option Z)) := filter (fun p => of_category n (fst p)) l.
Lemma total_part P n l : (forall c, P c = true -> category c = n) -> total P (part n l) = total P l.
Proof.
  intros H. induction l as [|[c w] l IH]; [reflexivity|]. cbn [part filter fst].
  destruct (of_category n c) eqn:C; cbn [total fold_right fst snd]; fold (part n l); fold (total P (part n l)); fold (total P l);
    rewrite IH; [reflexivity|].
  destruct (P c) eqn:E; [|reflexivity]. apply H in E. unfold of_category in C. apply Nat.eqb_neq in C. contradiction.
Qed.
Definition category_counts (n : nat) (l : list (eval_class * option Z)) : bool :=
  forallb (fun c => total_is l (class_eqb c) (hands_of c)) (filter (of_category n) (filter possibleb all_classes)).
Lemma counts_ok : (let l := class_weights in forallb (fun n => category_counts n (part n l)) (seq 0 9)) = true.
Proof. vm_compute. reflexivity. Qed.
Lemma class_eqb_spec a b : class_eqb a b = true <-> a = b.
Proof. unfold class_eqb. rewrite <- class_cmp_eq. destruct (class_cmp a b); split; congruence. Qed.
Lemma category_below c : category c < 9.
Proof. destruct c; cbn; lia. Qed.
Lemma class_total c : possible c -> total_is class_weights (class_eqb c) (hands_of c) = true.
Proof.
  intros Pc. pose proof counts_ok as K. cbv zeta in K. rewrite forallb_forall in K.
  specialize (K (category c)). rewrite in_seq in K. pose proof (category_below c).
  specialize (K ltac:(lia)). unfold category_counts in K.
  rewrite forallb_forall in K. specialize (K c). unfold total_is in *.
  rewrite total_part in K by (intros d D; apply class_eqb_spec in D; congruence). apply K.
  apply filter_In. split; [|apply Nat.eqb_refl]. apply filter_In. split; [apply in_all_classes|].
  apply possibleb_spec. exact Pc.
Qed.
Theorem class_hands ev c : new_evaluator ev -> possible c -> exists HS es,
  NoDup HS /\ (forall h, In h HS <-> sublist h deck_generate /\ length h = 5) /\ Forall2 (evaluates ev) HS es
  /\ Z.of_nat (length (filter (fun e => class_eqb c (eval_class_of e)) es)) = hands_of c.
Proof.
  intros Hev Pc. destruct (results_exist ev five_card_choices) as [es F].
  { intros h H. rewrite five_card_choices_map in H. apply in_map_iff in H. destruct H as (x & <- & H).
    destruct (evaluate_spec ev (map card_of x) Hev (hand5_legal _ (choices_hand5 x H))) as (e & E & _).
    exists e. exact E. }
  pose proof F as F'. rewrite five_card_choices_map in F'. exists five_card_choices, es.
  split; [exact (combs_NoDup _ deck_NoDup 5)|]. split; [exact (combs_sublist deck_generate 5)|]. split; [exact F|].
  rewrite (results_count ev choices es _ (class_eqb c) Hev F' (fun _ H => H) (fun _ e _ _ => eq_refl)).
  apply total_count. apply class_total. exact Pc.
Qed.

(** ** The README program *)
Lemma dealt_legal d : Permutation deck_generate d -> legal (firstn 5 d) /\ drain_front 5 d = Ret (firstn 5 d, skipn 5 d).
Proof.
  intros Pd. pose proof (Permutation_length Pd) as Ln. change (length deck_generate) with 52 in Ln.
  unfold drain_front. destruct (Nat.leb_spec 5 (length d)); [|lia]. split; [|reflexivity]. split; [|split].
  - unfold all_cards. apply Forall_forall. intros c Hc. apply in_deck.
    apply (Permutation_in _ (Permutation_sym Pd)). rewrite <- (firstn_skipn 5 d). apply in_app_iff. auto.
  - pose proof (Permutation_NoDup Pd deck_NoDup) as N. rewrite <- (firstn_skipn 5 d) in N.
    apply NoDup_parts in N. apply N.
  - rewrite firstn_length. lia.
Qed.
Lemma readme_runs {R} (gen : R -> nat -> nat * R) rng d rng' ev e : new_evaluator ev ->
  Permutation deck_generate d -> shuffled_with gen rng = Ret (d, rng') -> evaluates ev (firstn 5 d) e ->
  readme_main gen rng = Ret (lit (hand_name (eval_class_of e)) ++ [10%N], rng').
Proof.
  intros Hev Pd E Ee. destruct (dealt_legal d Pd) as [_ Dr]. unfold readme_main. rewrite Hev. cbn [bind].
  rewrite E. cbn [bind]. rewrite Dr. cbn [bind fst]. rewrite Ee. cbn [bind unwrap].
  unfold print_result. rewrite eval_display_spec. reflexivity.
Qed.
Theorem readme_prints {R} (gen : R -> nat -> nat * R) rng : fair gen -> exists ev d e rng',
  new_evaluator ev /\ shuffled_with gen rng = Ret (d, rng') /\ Permutation deck_generate d
  /\ evaluates ev (firstn 5 d) e
  /\ readme_main gen rng = Ret (lit (hand_name (eval_class_of e)) ++ [10%N], rng').
Proof.
  intros G. destruct evaluator_new_ret as [ev Hev].
  destruct (shuffle_perm gen deck_generate rng G) as (d & rng' & E & Pd).
  destruct (dealt_legal d Pd) as [Lg _]. destruct (evaluate_spec ev _ Hev Lg) as (e & Ee & _).
  exists ev, d, e, rng'. split; [exact Hev|]. split; [exact E|]. split; [exact Pd|]. split; [exact Ee|].
  exact (readme_runs gen rng d rng' ev e Hev Pd E Ee).
Qed.
Lemma line_inj a b : lit (hand_name a) ++ [10%N] = lit (hand_name b) ++ [10%N] -> a = b.
Proof. intros H. apply app_inj_tail in H. apply class_display_inj. rewrite !class_display_name. apply H. Qed.
Theorem readme_odds c : possible c -> exists L, NoDup L
  /\ Z.of_nat (length L) = (hands_of c * Z.of_nat (fact 5 * fact 47))%Z
  /\ forall js, In js L <-> answers 52 js /\ readme_main script js = Ret (lit (hand_name c) ++ [10%N], []).
Proof.
  intros Pc. destruct evaluator_new_ret as [ev Hev].
  destruct (class_hands ev c Hev Pc) as (HS & es & N & I & F & Cn).
  destruct (dealt_odds ev 5 HS es (fun e => class_eqb c (eval_class_of e)) Hev ltac:(lia) N I F) as (L & NL & LL & HL).
  exists L. split; [exact NL|]. split.
  { rewrite LL. change (52 - 5) with 47. rewrite Nat2Z.inj_mul, Cn. reflexivity. }
  intros js. rewrite HL. split.
  - intros (V & d & e & E & Ee & P). split; [exact V|]. apply class_eqb_spec in P. subst c.
    destruct (shuffle_scripted js V) as (d' & E' & Pd). assert (d' = d) by congruence. subst d'.
    exact (readme_runs script js d [] ev e Hev Pd E Ee).
  - intros (V & M). split; [exact V|]. destruct (shuffle_scripted js V) as (d & E & Pd).
    destruct (dealt_legal d Pd) as [Lg _]. destruct (evaluate_spec ev _ Hev Lg) as (e & Ee & _).
    exists d, e. split; [exact E|]. split; [exact Ee|]. apply class_eqb_spec.
    rewrite (readme_runs script js d [] ev e Hev Pd E Ee) in M. symmetry. apply line_inj.
    assert (X : forall A B (a a' : A) (b b' : B), Ret (a, b) = Ret (a', b') -> a = a') by (intros A B a a' b b' Q; congruence).
    exact (X _ _ _ _ _ _ M).
Qed.
Theorem readme_outputs js : answers 52 js ->
  exists c, possible c /\ readme_main script js = Ret (lit (hand_name c) ++ [10%N], []).
Proof.
  intros V. destruct evaluator_new_ret as [ev Hev]. destruct (shuffle_scripted js V) as (d & E & Pd).
  destruct (dealt_legal d Pd) as [Lg _]. destruct (evaluate_spec ev _ Hev Lg) as (e & Ee & _).
  exists (eval_class_of e). split; [|exact (readme_runs script js d [] ev e Hev Pd E Ee)].
  apply (classes_occur ev Hev). exists (firstn 5 d), e. auto.
Qed.
Lemma hands_of_total : fold_right Z.add 0%Z (map hands_of (filter possibleb all_classes)) = 2598960%Z.
Proof. vm_compute. reflexivity. Qed.

(** ** The threaded program *)
Lemma thread_hands {R} (gen : R -> nat -> nat * R) rngs : fair gen -> exists hands,
  mapM (thread_hand gen) rngs = Ret hands
  /\ Forall2 (fun rng h => exists d rng', shuffled_with gen rng = Ret (d, rng') /\ h = firstn 5 d) rngs hands
  /\ Forall legal hands.
Proof.
  intros G. induction rngs as [|rng rngs (hands & E & F & A)].
  - exists []. split; [reflexivity|]. split; constructor.
  - destruct (shuffle_perm gen deck_generate rng G) as (d & rng' & Es & Pd). destruct (dealt_legal d Pd) as [Lg Dr].
    exists (firstn 5 d :: hands). split; [|split].
    + cbn [mapM]. unfold thread_hand at 1, shuffled_with. rewrite Es. cbn [bind]. rewrite Dr. cbn [bind fst].
      rewrite E. reflexivity.
    + constructor; [|exact F]. exists d, rng'. split; [exact Es|reflexivity].
    + constructor; assumption.
Qed.
Lemma same_length {A B} (P : A -> B -> Prop) l m : Forall2 P l m -> length l = length m.
Proof. induction 1; cbn; congruence. Qed.
Lemma joins ts rs : Forall finished ts -> Forall2 (fun t r => th_answers t = [Ret r]) ts rs ->
  mapM join ts = Ret (map unwrap_or_worst rs).
Proof.
  intros F Q. induction Q as [|t r ts rs A _ IH]; [reflexivity|]. apply Forall_cons_iff in F. destruct F as [[F1 F2] F].
  cbn [mapM map]. unfold join at 1. rewrite F1, F2, A. cbn [bind]. rewrite (IH F). reflexivity.
Qed.
Theorem docs_prints {R} (gen : R -> nat -> nat * R) rngs : fair gen -> rngs <> [] -> exists bound, forall schedule,
  (forall tid, tid < length rngs -> bound <= count_occ Nat.eq_dec schedule tid) ->
  exists ev hands h e, new_evaluator ev
    /\ Forall2 (fun rng h => exists d rng', shuffled_with gen rng = Ret (d, rng') /\ h = firstn 5 d) rngs hands
    /\ In h hands /\ evaluates ev h e
    /\ (forall h' e', In h' hands -> evaluates ev h' e' -> eval_cmp e e' <> Lt)
    /\ docs_main gen rngs schedule = Ret (lit (hand_name (eval_class_of e)) ++ [10%N]).
Proof.
  intros G NE. destruct evaluator_new_ret as [ev Hev]. destruct (thread_hands gen rngs G) as (hands & E & F & A).
  destruct (threads_finish ev (map (fun h => [h]) hands)) as [bound B]. exists bound. intros sched S0.
  assert (Fin : Forall finished (w_threads (ModelThreads.run sched (spawn_all ev (map (fun h => [h]) hands))))).
  { apply Forall_forall. intros t I. apply In_nth_error in I. destruct I as [i I].
    destruct (nth_error (map (fun h => [h]) hands) i) as [w|] eqn:W.
    - destruct (B sched i w W) as (t' & I' & Ft); [|congruence]. apply S0. rewrite (same_length _ _ _ F).
      rewrite <- (map_length (fun h : list card => [h]) hands). apply nth_error_Some. congruence.
    - exfalso. rewrite run_thread in I. cbn [spawn_all w_threads w_shared] in I. rewrite nth_error_map, W in I. discriminate I. }
  destruct (best_of_threads ev hands sched Hev) as (rs & Q & Top & Best).
  { apply Forall_forall. intros h I. rewrite Forall_forall in A. exact (proj1 (A h I)). }
  { exact Fin. }
  assert (X : exists h, In h hands /\ evaluates ev h (max_of_joins (map unwrap_or_worst rs))).
  { destruct Best as [W|X]; [|exact X]. destruct hands as [|h hands]; [inversion F; subst; contradiction|].
    exists h. split; [left; reflexivity|]. apply Forall_cons_iff in A.
    destruct (evaluate_spec ev h Hev (proj1 A)) as (e & Ee & _).
    specialize (Top h e (or_introl eq_refl) Ee). rewrite W in *.
    apply cmp_not_Lt in Top. change (rk EVAL_WORST) with 7462%Z in Top.
    destruct (rank_range ev h e Hev) as [_ RR]; [apply A|exact Ee|].
    assert (X : EVAL_WORST = e); [|rewrite X; exact Ee]. apply (an_evaluation_eq ev _ _ Hev).
    - apply worst_evaluation. exact Hev.
    - exists h. split; [apply A|exact Ee].
    - change (rk EVAL_WORST) with 7462%Z. unfold rk in *. lia. }
  destruct X as (h & Ih & Eh). exists ev, hands, h, (max_of_joins (map unwrap_or_worst rs)).
  split; [exact Hev|]. split; [exact F|]. split; [exact Ih|]. split; [exact Eh|]. split; [exact Top|].
  unfold docs_main. rewrite Hev. cbn [bind]. rewrite E. cbn [bind]. rewrite (joins _ rs Fin Q). cbn [bind].
  unfold print_result. rewrite eval_display_spec. reflexivity.
Qed.

(** ** For the examples *)
Lemma hands_of_sum : exists L, NoDup L /\ (forall c, In c L <-> possible c) /\ fold_right Z.add 0%Z (map hands_of L) = 2598960%Z.
Proof.
  exists (filter possibleb all_classes). split; [|split; [|exact hands_of_total]].
  - destruct possible_309 as (L & N & Ln & I). apply (NoDup_incl_NoDup N).
    + rewrite Ln. apply Nat.leb_le. vm_compute. reflexivity.
    + intros c H. apply filter_In. split; [apply in_all_classes|apply possibleb_spec, I, H].
  - intros c. rewrite filter_In, possibleb_spec. split; [tauto|]. intros H. split; [apply in_all_classes|exact H].
Qed.
Lemma quads_printed ev : new_evaluator ev ->
  readme_main script (rev (seq 1 51)) = Ret (lit (hand_name (FourOfAKind Two)) ++ [10%N], []).
Proof.
  intros Hev. assert (E : shuffled_with script (rev (seq 1 51)) = Ret (deck_generate, [])) by (vm_compute; reflexivity).
  destruct (dealt_legal deck_generate (Permutation_refl _)) as [Lg _].
  destruct (evaluate_spec ev _ Hev Lg) as (e & Ee & _).
  rewrite (readme_runs script _ deck_generate [] ev e Hev (Permutation_refl _) E Ee).
  replace (eval_class_of e) with (FourOfAKind Two); [reflexivity|].
  symmetry. apply (class_correct ev (firstn 5 deck_generate) e Hev); [|exact Ee|].
  - split; [apply Lg|]. split; [apply Lg|reflexivity].
  - cbn [classify]. vm_compute. reflexivity.
Qed.
