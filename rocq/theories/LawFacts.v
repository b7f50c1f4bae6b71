(** LawFacts.v: order laws of results, evaluators other than [Evaluator::new()], and corollaries
    of HandFacts.v in the form the properties state them. *)
From Coq Require Import Lia List Arith Bool Permutation String.
From Verif Require Import Base BaseFacts ModelCard ModelEval ModelTable ModelEvaluation.
From Verif Require Import Spec CardFacts SpecText EvalFacts FiveFacts CombosFacts EvaluateFacts HandFacts
  ClassFacts DeckFacts.
From Verif Require Sweep.
Import ListNotations.

(** ** Order of results *)
Lemma eval_order (a b c : eval) :
  eval_cmp a a = Eq
  /\ eval_cmp b a = CompOpp (eval_cmp a b)
  /\ (eval_cmp a b <> Gt -> eval_cmp b c <> Gt -> eval_cmp a c <> Gt)
  /\ (eval_cmp a b = Eq <-> eval_eqb a b = true)
  /\ eval_partial_cmp a b = Some (eval_cmp a b).
Proof.
  rewrite !eval_cmp_spec, eval_partial_cmp_spec, eval_cmp_spec.
  split; [apply Z.compare_refl|]. split; [apply Z.compare_antisym|]. split; [|split].
  - rewrite !Z.compare_gt_iff. lia.
  - rewrite eqb_rk. unfold rk. rewrite Z.compare_eq_iff. split; congruence.
  - reflexivity.
Qed.

Lemma eval_methods (a b : eval) :
  (eval_is_better_than a b = true <-> eval_cmp a b = Gt)
  /\ (eval_is_worse_than a b = true <-> eval_cmp a b = Lt)
  /\ (eval_is_equal_to a b = true <-> eval_eqb a b = true)
  /\ (eval_eqb a b = true ->
        forall H (write_i16 : H -> Z -> H) (state : H),
          eval_hash write_i16 a state = eval_hash write_i16 b state).
Proof.
  rewrite !eval_cmp_spec. unfold eval_is_better_than, eval_is_worse_than, eval_is_equal_to,
    phr_is_better_than, phr_is_worse_than.
  rewrite !Z.ltb_lt, Z.compare_gt_iff, Z.compare_lt_iff, Z.eqb_eq, eqb_rk.
  split; [tauto|]. split; [tauto|]. split; [reflexivity|].
  intros E H w st. unfold eval_hash, meta_hash. unfold rk, eval_hand_rank in E. congruence.
Qed.

(** ** [is_*] *)
Lemma is_predicates (e : eval) :
  (eval_is_high_card e = true <-> exists h, eval_class_of e = HighCard h)
  /\ (eval_is_pair e = true <-> exists p, eval_class_of e = Pair p)
  /\ (eval_is_two_pair e = true <-> exists a b, eval_class_of e = TwoPair a b)
  /\ (eval_is_three_of_a_kind e = true <-> exists t, eval_class_of e = ThreeOfAKind t)
  /\ (eval_is_straight e = true <-> exists h, eval_class_of e = Straight h)
  /\ (eval_is_flush e = true <-> exists h, eval_class_of e = Flush h)
  /\ (eval_is_full_house e = true <-> exists t p, eval_class_of e = FullHouse t p)
  /\ (eval_is_four_of_a_kind e = true <-> exists q, eval_class_of e = FourOfAKind q)
  /\ (eval_is_straight_flush e = true <-> exists h, eval_class_of e = StraightFlush h)
  /\ (eval_is_royal_flush e = true <-> eval_is_straight_flush e = true /\ eval_eqb e EVAL_BEST = true)
  /\ count_occ Bool.bool_dec
       [eval_is_high_card e; eval_is_pair e; eval_is_two_pair e; eval_is_three_of_a_kind e;
        eval_is_straight e; eval_is_flush e; eval_is_full_house e; eval_is_four_of_a_kind e;
        eval_is_straight_flush e] true = 1.
Proof.
  destruct e as [m]; destruct m;
    cbv [eval_class_of eval_meta meta_class eval_is_high_card eval_is_pair eval_is_two_pair
         eval_is_three_of_a_kind eval_is_straight eval_is_flush eval_is_full_house
         eval_is_four_of_a_kind eval_is_straight_flush eval_is_royal_flush meta_is_high_card
         meta_is_pair meta_is_two_pair meta_is_three_of_a_kind meta_is_straight meta_is_flush
         meta_is_full_house meta_is_four_of_a_kind meta_is_straight_flush meta_is_royal_flush];
    repeat match goal with |- _ /\ _ => split end;
    try reflexivity;
    try (split; [eauto|reflexivity]);
    try (split; [discriminate|intros [x H]; discriminate H]);
    try (split; [discriminate|intros (x & y & H); discriminate H]);
    try (split; [discriminate|intros [H _]; discriminate H]);
    try discriminate; try reflexivity.
  split; [intros H; split; [reflexivity|exact H]|intros [_ H]; exact H].
Qed.

(** ** Text *)
Lemma lit_app a b : lit (a ++ b)%string = (lit a ++ lit b)%list.
Proof. induction a as [|x a IH]; [reflexivity|]. simpl. rewrite IH. reflexivity. Qed.

Lemma class_display_name c : class_display c = lit (hand_name c).
Proof.
  destruct c as [h|p|a b|t|h|h|t p|q|h]; try (destruct h; reflexivity);
    try (destruct p; reflexivity); try (destruct t; reflexivity); try (destruct q; reflexivity).
  - destruct a, b; reflexivity.
  - destruct t, p; reflexivity.
Qed.

Lemma eval_display_spec e : eval_display e = lit (hand_name (eval_class_of e)).
Proof. exact (class_display_name (meta_class (eval_meta e))). Qed.

Lemma eval_display_class e1 e2 : eval_display e1 = eval_display e2 <-> eval_class_of e1 = eval_class_of e2.
Proof.
  split; [apply class_display_inj|]. unfold eval_display, meta_display, eval_class_of.
  intros ->. reflexivity.
Qed.

(** ** Corollaries *)
Lemma best_choice ev h : new_evaluator ev -> legal h ->
  exists e, evaluates ev h e
    /\ (exists x, hand5 x /\ incl x h /\ evaluates ev x e)
    /\ forall x e', hand5 x -> incl x h -> evaluates ev x e' -> eval_cmp e e' <> Lt.
Proof.
  intros Hev L. destruct (evaluate_spec ev h Hev L) as (e & E & X & M). exists e.
  split; [exact E|]. split; [exact X|]. intros x e' Hx I E'.
  destruct (M x Hx I) as (e2 & E2 & R). rewrite (evaluates_fun ev x e' e2 E' E2).
  apply cmp_not_Lt. exact R.
Qed.

Lemma suits_iff ev f h e : (forall a b, f a = f b -> a = b) -> new_evaluator ev -> all_cards h ->
  (evaluates ev h e <-> evaluates ev (map (recolour f) h) e).
Proof.
  intros F Hev A. split; [apply suits_interchangeable; assumption|]. intros E.
  pose proof (evaluates_legal ev _ e (all_cards_recolour f h) E) as (_ & N & L).
  rewrite map_length in L. apply NoDup_map_inv in N.
  destruct (evaluate_spec ev h Hev (conj A (conj N L))) as (e' & E' & _).
  pose proof (suits_interchangeable ev f h e' F Hev A E') as E2.
  rewrite (evaluates_fun ev _ e e' E E2). exact E'.
Qed.

Lemma all_52 ev d e : new_evaluator ev -> Permutation deck_generate d -> evaluates ev d e ->
  e = EVAL_BEST.
Proof.
  intros Hev P E. apply (holds_royal ev d e Hev).
  - unfold all_cards. rewrite <- P. apply deck_all_cards.
  - exact E.
  - exists Spades. intros c Hc. eapply Permutation_in; [exact P|]. apply in_deck.
    unfold royal in Hc. apply in_map_iff in Hc. destruct Hc as (r & <- & _). apply a_card_new.
Qed.

(** ** Other evaluators *)
Lemma clone_same ev h : evaluate (evaluator_clone ev) h = evaluate ev h.
Proof. reflexivity. Qed.

Lemma default_five h : hand5 h ->
  five (evaluator_evaluation evaluator_default) h = Panic MissingKey.
Proof.
  intros H. destruct SweepFacts.table_new_ret as [t Ht].
  destruct (five_spec t h Ht H) as (c & m & _ & _ & _ & _ & E & _). clear c Ht.
  unfold five in *. cbv zeta in *. destruct (negb _).
  - apply bind_ret in E. destruct E as (p & Ep & _). rewrite Ep. cbn [bind].
    unfold index_key. cbn [ev_flush_lookup evaluator_evaluation evaluator_default evaluator_table
      lookup_table_default flush_lookup]. rewrite map_get_empty. reflexivity.
  - unfold index_key. cbn [ev_unsuited_lookup evaluator_evaluation evaluator_default evaluator_table
      lookup_table_default unsuited_lookup]. rewrite map_get_empty. reflexivity.
Qed.

Theorem default_panics h : legal h -> evaluate evaluator_default h = Panic MissingKey.
Proof.
  intros (A & N & L). unfold evaluate, evaluate_with.
  destruct (all_unique_spec h A) as (b & Hb & Hs). rewrite Hb. cbn [bind].
  rewrite (proj2 Hs N). destruct (Nat.ltb_spec (List.length h) 5); [lia|].
  destruct (Nat.eqb_spec (List.length h) 5) as [E|E].
  - destruct (length5 h E) as (a & b' & c & d & f & ->). cbn [index nth_error bind].
    rewrite default_five; [reflexivity|]. split; [exact A|]. split; [exact N|reflexivity].
  - unfold six_plus. destruct (Nat.ltb_spec 5 (List.length h)) as [G|G]; [|lia]. cbn [negb].
    rewrite for_const_combos_spec by lia.
    destruct (Sweep.combs 5 h) as [|x xs] eqn:C.
    + pose proof (combs_binom h 5) as B. rewrite C in B. simpl List.length in B.
      do 6 (destruct h as [|? h]; [simpl in G; lia|]). simpl in B. lia.
    + cbn [foldM]. rewrite default_five; [reflexivity|].
      apply (combs_hand5 h x A N). rewrite C. left. reflexivity.
Qed.

Lemma built_new_evaluator ev : built ev -> new_evaluator ev.
Proof.
  induction 1 as [ev H|ev H IH]; [exact H|]. unfold evaluator_clone. destruct ev. exact IH.
Qed.

(** ** Two sources of tables *)
Section Tables.
  Variable R : meta -> meta -> Prop.
  Hypothesis R_rank : forall a b, R a b -> phr (meta_hand_rank a) = phr (meta_hand_rank b).
  Hypothesis R_worst : R META_WORST META_WORST.

  Definition rel_opt (a b : option meta) : Prop :=
    match a, b with Some x, Some y => R x y | None, None => True | _, _ => False end.
  Definition rel_eval (a b : eval) : Prop := R (eval_meta a) (eval_meta b).
  Definition rel_out {A} (Q : A -> A -> Prop) (a b : outcome A) : Prop :=
    match a, b with
    | Ret x, Ret y => Q x y
    | Panic p, Panic q => p = q
    | OutOfFuel, OutOfFuel => True
    | _, _ => False
    end.
  Definition rel_result (a b : result eval eval_error) : Prop :=
    match a, b with Ok x, Ok y => rel_eval x y | Err e, Err f => e = f | _, _ => False end.

  Variables ev1 ev2 : evaluation.
  Hypothesis flush_rel : forall k, rel_opt (ev_flush_lookup ev1 k) (ev_flush_lookup ev2 k).
  Hypothesis unsuited_rel : forall k, rel_opt (ev_unsuited_lookup ev1 k) (ev_unsuited_lookup ev2 k).

  Lemma index_key_rel (f g : Z -> option meta) k : rel_opt (f k) (g k) ->
    rel_out rel_eval (let! m := index_key f k in Ret (MkEval m)) (let! m := index_key g k in Ret (MkEval m)).
  Proof.
    unfold index_key. destruct (f k), (g k); simpl; try contradiction; [auto|reflexivity].
  Qed.

  Lemma five_rel x : rel_out rel_eval (five ev1 x) (five ev2 x).
  Proof.
    unfold five. cbv zeta. destruct (negb _).
    - destruct (prime_product_from_rank_bits _); cbn [bind]; [|reflexivity|exact Logic.I].
      apply index_key_rel, flush_rel.
    - apply index_key_rel, unsuited_rel.
  Qed.

  Lemma for_rel {T} (b1 b2 : eval -> list T -> outcome eval) :
    (forall s1 s2 x, rel_eval s1 s2 -> rel_out rel_eval (b1 s1 x) (b2 s2 x)) ->
    forall fuel c s1 s2, rel_eval s1 s2 ->
      rel_out rel_eval (for_combinations fuel c b1 s1) (for_combinations fuel c b2 s2).
  Proof.
    intros Hb. induction fuel as [|fuel IH]; intros c s1 s2 Hs; [exact Logic.I|].
    cbn [for_combinations]. destruct (combinations_next c) as [[[x|] c']| |]; cbn [bind];
      [|exact Hs|reflexivity|exact Logic.I].
    specialize (Hb s1 s2 x Hs). destruct (b1 s1 x), (b2 s2 x); cbn [bind]; simpl in Hb;
      try contradiction; [|exact Hb|exact Logic.I].
    apply IH. exact Hb.
  Qed.

  Lemma evaluate_rel cards : rel_out rel_result (evaluate_with ev1 cards) (evaluate_with ev2 cards).
  Proof.
    unfold evaluate_with. destruct (all_unique cards) as [[|]| |]; cbn [bind];
      [|reflexivity|reflexivity|exact Logic.I].
    destruct (Nat.ltb _ _); [reflexivity|]. destruct (Nat.eqb _ _).
    - destruct (index cards 0); cbn [bind]; [|reflexivity|exact Logic.I].
      destruct (index cards 1); cbn [bind]; [|reflexivity|exact Logic.I].
      destruct (index cards 2); cbn [bind]; [|reflexivity|exact Logic.I].
      destruct (index cards 3); cbn [bind]; [|reflexivity|exact Logic.I].
      destruct (index cards 4); cbn [bind]; [|reflexivity|exact Logic.I].
      match goal with |- context [five ev1 ?x] => pose proof (five_rel x) as F end.
      destruct (five ev1 _), (five ev2 _); simpl in F |- *; auto.
    - assert (F : rel_out rel_eval (six_plus ev1 cards) (six_plus ev2 cards)).
      { unfold six_plus. destruct (negb _); [reflexivity|]. unfold for_const_combos.
        apply for_rel; [|exact R_worst]. intros s1 s2 x Hs. pose proof (five_rel x) as F.
        destruct (five ev1 x) as [a| |], (five ev2 x) as [b| |]; cbn [bind]; simpl in F;
          try contradiction; [|exact F|exact Logic.I].
        rewrite !eval_partial_cmp_spec, !eval_cmp_spec. unfold eval_hand_rank.
        rewrite (R_rank _ _ F), (R_rank _ _ Hs).
        destruct (op_gt _); simpl; assumption. }
      destruct (six_plus ev1 cards), (six_plus ev2 cards); simpl in F |- *; auto.
  Qed.
End Tables.

Theorem static_same (F U : map_i32 meta) ev :
  (forall k, map_get F k = map_get (flush_lookup (evaluator_table ev)) k) ->
  (forall k, map_get U k = map_get (unsuited_lookup (evaluator_table ev)) k) ->
  forall cards, static_evaluate F U cards = evaluate ev cards.
Proof.
  intros HF HU cards. unfold static_evaluate, evaluate.
  assert (Q := evaluate_rel eq (fun a b H => f_equal (fun m => phr (meta_hand_rank m)) H) eq_refl
    (mk_evaluation (map_get F) (map_get U)) (evaluator_evaluation ev)).
  specialize (Q (fun k => ltac:(cbn [ev_flush_lookup evaluator_evaluation]; rewrite HF; destruct (map_get _ k); simpl; auto))).
  specialize (Q (fun k => ltac:(cbn [ev_unsuited_lookup evaluator_evaluation]; rewrite HU; destruct (map_get _ k); simpl; auto))).
  specialize (Q cards). destruct (evaluate_with _ cards) as [[[a]|a]|a|], (evaluate_with _ cards) as [[[b]|b]|b|];
    simpl in Q; try contradiction; unfold rel_eval in Q; simpl in Q; congruence.
Qed.

(** Keys of finite maps. *)
Lemma zkey_surj p : exists k, zkey k = p.
Proof. destruct p as [p|p|]; [exists (Zneg p)|exists (Zpos p)|exists Z0]; reflexivity. Qed.

Definition map_keys {V} (m : map_i32 V) : list positive := map fst (PositiveMap.elements m).
Lemma map_keys_in {V} (m : map_i32 V) k : In (zkey k) (map_keys m) <-> map_get m k <> None.
Proof.
  unfold map_keys, map_get. rewrite in_map_iff. split.
  - intros ([p v] & E & H). simpl in E. subst p. apply PositiveMap.elements_complete in H. congruence.
  - intros H. destruct (PositiveMap.find (zkey k) m) as [v|] eqn:E; [|congruence].
    exists (zkey k, v). split; [reflexivity|]. apply PositiveMap.elements_correct. exact E.
Qed.
Lemma map_keys_NoDup {V} (m : map_i32 V) : NoDup (map_keys m).
Proof.
  unfold map_keys. pose proof (PositiveMap.elements_3w m) as H.
  induction H as [|[p v] l N H IH]; simpl; constructor; [|exact IH].
  intros I. apply N. apply in_map_iff in I. destruct I as ([q w] & E & I). simpl in E. subst q.
  apply SetoidList.InA_alt. exists (p, w). split; [reflexivity|exact I].
Qed.
Lemma map_keys_length {V} (m : map_i32 V) : List.length (map_keys m) = map_len m.
Proof. unfold map_keys, map_len. rewrite map_length, PositiveMap.cardinal_1. reflexivity. Qed.

Lemma table_test_rel dyn stat : table_test dyn stat ->
  forall k, rel_opt (fun a b => meta_eqb a b = true) (map_get stat k) (map_get dyn k).
Proof.
  intros [S L] k. unfold rel_opt. destruct (map_get stat k) as [v|] eqn:E.
  - destruct (S k v E) as (w & -> & H). unfold meta_eqb, phr_eqb in *.
    rewrite Z.eqb_eq in *. congruence.
  - destruct (map_get dyn k) as [w|] eqn:D; [|exact Logic.I].
    assert (I : incl (map_keys dyn) (map_keys stat)).
    { apply NoDup_length_incl.
      - apply map_keys_NoDup.
      - rewrite !map_keys_length. lia.
      - intros p Hp. destruct (zkey_surj p) as [k' <-]. apply map_keys_in in Hp.
        destruct (map_get stat k') as [v|] eqn:E'; [|congruence].
        destruct (S k' v E') as (w' & H & _). apply map_keys_in. congruence. }
    assert (C : In (zkey k) (map_keys stat)) by (apply I, map_keys_in; congruence).
    apply map_keys_in in C. congruence.
Qed.

Theorem static_verdict (F U : map_i32 meta) ev :
  table_test (flush_lookup (evaluator_table ev)) F ->
  table_test (unsuited_lookup (evaluator_table ev)) U ->
  forall cards, same_verdict (static_evaluate F U cards) (evaluate ev cards).
Proof.
  intros HF HU cards. unfold static_evaluate, evaluate.
  assert (Q := evaluate_rel (fun a b => meta_eqb a b = true)
    (fun a b H => proj1 (Z.eqb_eq _ _) H) eq_refl
    (mk_evaluation (map_get F) (map_get U)) (evaluator_evaluation ev)
    (table_test_rel _ _ HF) (table_test_rel _ _ HU) cards).
  destruct (evaluate_with _ cards) as [[a|a]|a|], (evaluate_with _ cards) as [[b|b]|b|];
    simpl in Q; try contradiction; unfold same_verdict; try congruence. exact Q.
Qed.

(** Tables that pass the test and still give a different class. *)
Definition blur (m : meta) : meta := MHighCard (meta_hand_rank m) Two.

Lemma map_get_map (m : map_i32 meta) (f : meta -> meta) k : map_get (PositiveMap.map f m) k = option_map f (map_get m k).
Proof. exact (PositiveMap.gmapi (fun _ => f) (zkey k) m). Qed.

Lemma map_len_map (m : map_i32 meta) (f : meta -> meta) : map_len (PositiveMap.map f m) = map_len m.
Proof.
  rewrite <- !map_keys_length. apply Nat.le_antisymm.
  - apply NoDup_incl_length; [apply map_keys_NoDup|]. intros p Hp.
    destruct (zkey_surj p) as [k <-]. apply map_keys_in in Hp. rewrite map_get_map in Hp.
    apply map_keys_in. destruct (map_get m k); simpl in Hp; congruence.
  - apply NoDup_incl_length; [apply map_keys_NoDup|]. intros p Hp.
    destruct (zkey_surj p) as [k <-]. apply map_keys_in in Hp. apply map_keys_in.
    rewrite map_get_map. destruct (map_get m k); simpl; congruence.
Qed.

Lemma blur_test m : table_test m (PositiveMap.map blur m).
Proof.
  split; [|symmetry; apply map_len_map]. intros k v H. rewrite map_get_map in H.
  destruct (map_get m k) as [w|]; [|discriminate H]. injection H as <-. exists w.
  split; [reflexivity|]. unfold meta_eqb, phr_eqb. cbn. apply Z.eqb_refl.
Qed.

Theorem class_may_differ ev : new_evaluator ev ->
  exists F U h e e',
    table_test (flush_lookup (evaluator_table ev)) F
    /\ table_test (unsuited_lookup (evaluator_table ev)) U
    /\ hand5 h /\ evaluates ev h e /\ static_evaluate F U h = Ret (Ok e')
    /\ eval_class_of e <> eval_class_of e'.
Proof.
  intros Hev.
  exists (PositiveMap.map blur (flush_lookup (evaluator_table ev))),
         (PositiveMap.map blur (unsuited_lookup (evaluator_table ev))), (royal Spades), EVAL_BEST.
  assert (E : evaluates ev (royal Spades) EVAL_BEST).
  { destruct (evaluate_spec ev (royal Spades) Hev (hand5_legal _ (royal_hand5 Spades))) as (e & E & _).
    assert (Q : e = EVAL_BEST).
    { apply (holds_royal ev (royal Spades) e Hev); [apply royal_hand5|exact E|].
      exists Spades. apply incl_refl. }
    rewrite <- Q. exact E. }
  pose proof (static_verdict (PositiveMap.map blur (flush_lookup (evaluator_table ev)))
    (PositiveMap.map blur (unsuited_lookup (evaluator_table ev))) ev (blur_test _) (blur_test _)
    (royal Spades)) as V.
  unfold evaluates in E. rewrite E in V. unfold same_verdict in V.
  remember (static_evaluate _ _ _) as o eqn:Eo. destruct o as [[e'|x]|x|]; try discriminate V.
  exists e'. split; [apply blur_test|]. split; [apply blur_test|]. split; [apply royal_hand5|].
  split; [exact E|]. split; [reflexivity|]. symmetry in Eo.
  assert (B : exists hr, eval_meta e' = MHighCard hr Two).
  { clear - Eo. unfold static_evaluate, evaluate_with in Eo.
    apply bind_ret in Eo. destruct Eo as (u & _ & Eo). destruct u; [|discriminate Eo].
    cbn [royal map List.length Nat.ltb Nat.leb Nat.eqb index nth_error bind] in Eo.
    apply bind_ret in Eo. destruct Eo as (e1 & E1 & Eo). injection Eo as ->.
    unfold five in E1. cbv zeta in E1. destruct (negb _).
    - apply bind_ret in E1. destruct E1 as (p & _ & E1). apply bind_ret in E1.
      destruct E1 as (m & E1 & E2). injection E2 as <-. unfold index_key in E1.
      cbn [ev_flush_lookup] in E1. rewrite map_get_map in E1.
      destruct (map_get _ p); [|discriminate E1]. injection E1 as <-. eexists. reflexivity.
    - apply bind_ret in E1. destruct E1 as (m & E1 & E2). injection E2 as <-. unfold index_key in E1.
      cbn [ev_unsuited_lookup] in E1. rewrite map_get_map in E1.
      destruct (map_get _ _); [|discriminate E1]. injection E1 as <-. eexists. reflexivity. }
  destruct B as [hr B]. unfold eval_class_of. rewrite B. discriminate.
Qed.

(** ** More corollaries *)
Lemma royal_evaluates ev s : new_evaluator ev -> evaluates ev (royal s) EVAL_BEST.
Proof.
  intros Hev.
  destruct (evaluate_spec ev (royal s) Hev (hand5_legal _ (royal_hand5 s))) as (e & E & _).
  assert (Q : e = EVAL_BEST).
  { apply (holds_royal ev (royal s) e Hev); [apply royal_hand5|exact E|].
    exists s. apply incl_refl. }
  rewrite <- Q. exact E.
Qed.

Lemma extremes_attained ev : new_evaluator ev ->
  (exists h, hand5 h /\ evaluates ev h EVAL_BEST)
  /\ (exists h, hand5 h /\ evaluates ev h EVAL_WORST).
Proof.
  intros Hev. split.
  - exists (royal Spades). split; [apply royal_hand5|apply royal_evaluates; exact Hev].
  - destruct (best_attained ev Hev) as [_ W]. eexists. split; [|exact W].
    apply deal_spec. apply SweepFacts.in_canons_worst.
Qed.

Lemma royal_equivalences ev h e : new_evaluator ev -> all_cards h -> evaluates ev h e ->
  (e = EVAL_BEST <-> eval_eqb e EVAL_BEST = true)
  /\ (e = EVAL_BEST <-> eval_is_royal_flush e = true)
  /\ (e = EVAL_BEST <-> eval_class_of e = StraightFlush Ace)
  /\ (e = EVAL_BEST <-> eval_display e = lit "Royal flush")
  /\ (e = EVAL_BEST <-> exists s, incl (royal s) h).
Proof.
  intros Hev A E. pose proof (class_royal_best ev h e Hev A E) as C.
  split; [|split; [|split; [|split]]].
  - split; [intros ->; reflexivity|]. intros H. apply eqb_rk in H.
    apply (best_iff_rank ev h e Hev A E). rewrite H. reflexivity.
  - symmetry. apply (is_royal_best ev h e Hev A E).
  - symmetry. exact C.
  - rewrite <- C. symmetry. exact (display_royal (eval_class_of e)).
  - symmetry. apply (holds_royal ev h e Hev A E).
Qed.

Lemma built_evaluates ev ev0 : new_evaluator ev0 -> built ev ->
  forall h, evaluate ev h = evaluate ev0 h /\ (legal h -> exists e, evaluates ev h e).
Proof.
  intros H0 B h. apply built_new_evaluator in B.
  assert (ev = ev0) by (unfold new_evaluator in *; congruence). subst ev0.
  split; [reflexivity|]. intros L. destruct (evaluate_spec ev h B L) as (e & E & _). exists e. exact E.
Qed.

Lemma equal_results ev h1 h2 e1 e2 : new_evaluator ev -> hand5 h1 -> hand5 h2 ->
  evaluates ev h1 e1 -> evaluates ev h2 e2 ->
  (eval_eqb e1 e2 = true <->
   Permutation (ranks (faces h1)) (ranks (faces h2)) /\ (suited (faces h1) <-> suited (faces h2))).
Proof.
  intros Hev H1 H2 E1 E2. rewrite eqb_rk, <- cmp_Eq.
  rewrite (proj1 (proj2 (comparison_correct ev h1 h2 e1 e2 Hev H1 H2 E1 E2))).
  apply ties_ranks_flush.
  - destruct (hand5_faces h1 H1). split; assumption.
  - destruct (hand5_faces h2 H2). split; assumption.
Qed.
