(** ClassFacts.v: classes, their order and their text; ranges of rank numbers. *)
From Coq Require Import Lia List Arith Bool Permutation String.
From Verif Require Import Base BaseFacts ModelCard ModelEval ModelTable ModelEvaluation.
From Verif Require Import Spec CardFacts Sweep SweepFacts SpecFacts EvalFacts FiveFacts
  CombosFacts EvaluateFacts HandFacts.
Import ListNotations.

(** ** Range and prefix facts of the table *)
Lemma canon_extra t c m : lookup_table_new = Ret t -> In c canons -> canon_meta t c = Some m ->
  check_range m = true /\ check_prefix c m = true.
Proof.
  intros Ht Hc Hm. pose proof (extra_t t Ht) as H. unfold extra in H. cbv zeta in H.
  do 4 (apply andb_true_iff in H; destruct H as [H _]).
  apply andb_true_iff in H. destruct H as [_ H]. rewrite forallb_forall in H.
  specialize (H c Hc). rewrite Hm in H. apply andb_true_iff in H. exact H.
Qed.

Lemma prefixb_spec a b : prefixb a b = true -> exists r, b = a ++ r.
Proof.
  revert b. induction a as [|x a IH]; intros b H; [exists b; reflexivity|].
  destruct b as [|y b]; [discriminate H|]. cbn [prefixb] in H.
  apply andb_true_iff in H. destruct H as [H1 H2]. apply rank_eqb_eq in H1. subst y.
  destruct (IH b H2) as [r ->]. exists r. reflexivity.
Qed.

Lemma class_discr_category c : class_discr c = Z.of_nat (category c).
Proof. destruct c; reflexivity. Qed.

Lemma category_fields a b : category a = category b ->
  List.length (class_fields a) = List.length (class_fields b).
Proof. destruct a, b; simpl; intros H; congruence. Qed.

Lemma rank_cmp_pips a b : rank_cmp a b = Nat.compare (pips a) (pips b).
Proof. destruct a, b; reflexivity. Qed.

Lemma fields_prefix a b ra rb : List.length a = List.length b ->
  lex_gt (a ++ ra) (b ++ rb) -> fields_cmp a b <> Lt.
Proof.
  revert b. induction a as [|x a IH]; intros [|y b] L H; simpl in L; try discriminate L;
    [simpl; congruence|].
  cbn [app lex_gt fields_cmp] in *. rewrite rank_cmp_pips. destruct H as [H|[-> H]].
  - rewrite (proj2 (Nat.compare_gt_iff _ _) H). congruence.
  - rewrite Nat.compare_refl. apply IH; [congruence|exact H].
Qed.

(** A better hand has a class at least as great. *)
Lemma better_class ev h1 h2 e1 e2 : new_evaluator ev -> hand5 h1 -> hand5 h2 ->
  evaluates ev h1 e1 -> evaluates ev h2 e2 -> (rk e1 < rk e2)%Z ->
  class_cmp (eval_class_of e1) (eval_class_of e2) <> Lt.
Proof.
  intros Hev H1 H2 E1 E2 R.
  destruct (five_eval ev h1 e1 Hev H1 E1) as (t & Ht & -> & V1 & _).
  destruct (five_eval _ h2 e2 Hev H2 E2) as (t' & _ & Et & V2 & _). injection Et as <-.
  destruct (five_spec t h1 Ht H1) as (c1 & m1 & I1 & P1 & S1 & M1 & W1 & _).
  destruct (five_spec t h2 Ht H2) as (c2 & m2 & I2 & P2 & S2 & M2 & W2 & _).
  rewrite V1 in W1. injection W1 as ->. rewrite V2 in W2. injection W2 as ->.
  unfold eval_class_of. cbn [eval_meta].
  destruct (canon_extra t c1 m1 Ht I1 M1) as [_ Q1].
  destruct (canon_extra t c2 m2 Ht I2 M2) as [_ Q2].
  apply prefixb_spec in Q1. destruct Q1 as [r1 Q1].
  apply prefixb_spec in Q2. destruct Q2 as [r2 Q2].
  pose proof (canon_rank_strength t Ht c1 c2 m1 m2 I1 I2 M1 M2 R) as G.
  unfold strength in G. cbn [lexgtb] in G.
  rewrite orb_true_iff, andb_true_iff, Nat.ltb_lt, Nat.eqb_eq, lexgtb_spec in G.
  unfold class_cmp. rewrite !class_discr_category. destruct G as [G|[G1 G2]].
  - replace (Z.compare _ _) with Gt; [congruence|]. symmetry. apply Z.compare_gt_iff. lia.
  - rewrite G1, Z.compare_refl. rewrite Q1, Q2 in G2.
    eapply fields_prefix; [apply category_fields; exact G1|exact G2].
Qed.

Lemma rank_cmp_antisym a b : rank_cmp b a = CompOpp (rank_cmp a b).
Proof. unfold rank_cmp. apply Z.compare_antisym. Qed.
Lemma fields_cmp_antisym a b : fields_cmp b a = CompOpp (fields_cmp a b).
Proof.
  revert b. induction a as [|x a IH]; intros [|y b]; simpl; try reflexivity.
  rewrite rank_cmp_antisym. destruct (rank_cmp x y); simpl; auto.
Qed.
Lemma class_cmp_antisym a b : class_cmp b a = CompOpp (class_cmp a b).
Proof.
  unfold class_cmp. rewrite Z.compare_antisym.
  destruct (Z.compare _ _); simpl; auto. apply fields_cmp_antisym.
Qed.

Theorem class_order ev h1 h2 e1 e2 : new_evaluator ev -> all_cards h1 -> all_cards h2 ->
  evaluates ev h1 e1 -> evaluates ev h2 e2 ->
  (eval_cmp e1 e2 <> Lt -> class_cmp (eval_class_of e1) (eval_class_of e2) <> Lt)
  /\ (class_cmp (eval_class_of e1) (eval_class_of e2) = Gt -> eval_cmp e1 e2 = Gt)
  /\ (eval_cmp e1 e2 = Eq ->
        eval_class_of e1 = eval_class_of e2 /\ eval_display e1 = eval_display e2).
Proof.
  intros Hev A1 A2 E1 E2.
  assert (M : forall h1 h2 e1 e2, all_cards h1 -> all_cards h2 ->
    evaluates ev h1 e1 -> evaluates ev h2 e2 -> (rk e1 < rk e2)%Z ->
    class_cmp (eval_class_of e1) (eval_class_of e2) <> Lt).
  { clear - Hev. intros h1 h2 e1 e2 A1 A2 E1 E2 R.
    destruct (best_five ev h1 e1 Hev A1 E1) as (x1 & X1 & _ & V1).
    destruct (best_five ev h2 e2 Hev A2 E2) as (x2 & X2 & _ & V2).
    exact (better_class ev x1 x2 e1 e2 Hev X1 X2 V1 V2 R). }
  assert (S : rk e1 = rk e2 -> e1 = e2).
  { apply (same_value ev h1 h2); auto; eapply evaluates_legal; eassumption. }
  split; [|split].
  - rewrite cmp_not_Lt. intros R. destruct (Z.eq_dec (rk e1) (rk e2)) as [Q|Q].
    + rewrite (S Q). rewrite (proj2 (class_cmp_eq _ _) eq_refl). congruence.
    + apply (M h1 h2); auto. lia.
  - intros G. rewrite cmp_Gt. destruct (Z.lt_trichotomy (rk e1) (rk e2)) as [L|[Q|L]].
    + exact L.
    + rewrite (S Q), (proj2 (class_cmp_eq _ _) eq_refl) in G. discriminate G.
    + exfalso. apply (M h2 h1 e2 e1 A2 A1 E2 E1 L).
      rewrite class_cmp_antisym, G. reflexivity.
  - rewrite cmp_Eq. intros Q. rewrite (S Q). auto.
Qed.

Lemma category_mono ev h1 h2 e1 e2 : new_evaluator ev -> all_cards h1 -> all_cards h2 ->
  evaluates ev h1 e1 -> evaluates ev h2 e2 -> eval_cmp e1 e2 <> Lt ->
  category (eval_class_of e2) <= category (eval_class_of e1).
Proof.
  intros Hev A1 A2 E1 E2 N.
  destruct (class_order ev h1 h2 e1 e2 Hev A1 A2 E1 E2) as [C _]. specialize (C N).
  destruct (le_lt_dec (category (eval_class_of e2)) (category (eval_class_of e1))) as [L|L];
    [exact L|]. exfalso. apply C. unfold class_cmp. rewrite !class_discr_category.
  rewrite (proj2 (Z.compare_lt_iff _ _)); [reflexivity|]. lia.
Qed.

(** ** Rank numbers of each category *)
Theorem category_rank ev h e : new_evaluator ev -> all_cards h -> evaluates ev h e ->
  (fst (category_range (category (eval_class_of e))) <= rk e
   <= snd (category_range (category (eval_class_of e))))%Z.
Proof.
  intros Hev A E. destruct (best_five ev h e Hev A E) as (x & Hx & _ & Vx).
  destruct (five_eval ev x e Hev Hx Vx) as (t & Ht & -> & V & _).
  destruct (five_spec t x Ht Hx) as (c & m & I & P & Sf & M & W & _).
  rewrite V in W. injection W as ->.
  destruct (canon_extra t c m Ht I M) as [R _]. unfold check_range in R.
  unfold eval_class_of, rk, eval_hand_rank. cbn [eval_meta].
  destruct (category_range _) as [lo hi]. simpl. apply andb_true_iff in R.
  rewrite !Z.leb_le in R. exact R.
Qed.

(** ** Large hands *)
Lemma suited_category h c : five_card_hand h -> suited h -> classify h c -> 5 <= category c.
Proof.
  intros F Sf C. pose proof (NoDup_ranks_count h (suited_NoDup h (proj1 F) Sf)) as Q.
  destruct c; simpl in *; try lia; try tauto.
  - specialize (Q pair). lia.
  - specialize (Q first_pair). lia.
  - specialize (Q trips). lia.
Qed.

Theorem five_suited ev h e x : new_evaluator ev -> all_cards h -> evaluates ev h e ->
  NoDup x -> List.length x = 5 -> incl x h -> suited (faces x) ->
  5 <= category (eval_class_of e).
Proof.
  intros Hev A E N L I Sf.
  assert (Hx : hand5 x) by (split; [eapply all_cards_incl; eassumption|auto]).
  destruct (evaluate_spec ev x Hev (hand5_legal x Hx)) as (e' & E' & _).
  pose proof (more_cards ev x h e' e Hev A I E' E) as M.
  pose proof (category_mono ev h x e e' Hev A (proj1 Hx) E E' M) as C.
  destruct (five_eval ev x e' Hev Hx E') as (t & _ & _ & _ & K & _).
  pose proof (suited_category _ _ (hand5_faces x Hx) Sf K). lia.
Qed.

Theorem four_same_rank ev h e r : new_evaluator ev -> all_cards h -> evaluates ev h e ->
  count r (faces h) = 4 -> 7 <= category (eval_class_of e).
Proof.
  intros Hev A E Q. pose proof (evaluates_legal ev h e A E) as (_ & N & L).
  set (p := fun c : card => if rank_dec (card_rank c) r then true else false).
  assert (F : List.length (filter p h) = 4).
  { rewrite <- Q. unfold count. rewrite ranks_faces. clear. induction h as [|c h IH]; [reflexivity|].
    cbn [map count_occ filter]. unfold p at 1. destruct (rank_dec (card_rank c) r); simpl; congruence. }
  assert (G : exists c, In c h /\ card_rank c <> r).
  { destruct (filter (fun c => negb (p c)) h) as [|c l] eqn:G.
    - exfalso. assert (W : List.length (filter p h) + List.length (filter (fun c => negb (p c)) h)
                = List.length h).
      { clear. induction h as [|c h IH]; simpl; [reflexivity|].
        destruct (p c); simpl; lia. }
      rewrite F, G in W. simpl in W. lia.
    - exists c. assert (I : In c (filter (fun c => negb (p c)) h)) by (rewrite G; left; reflexivity).
      apply filter_In in I. destruct I as [I1 I2]. split; [exact I1|].
      unfold p in I2. destruct (rank_dec (card_rank c) r); [discriminate I2|assumption]. }
  destruct G as (c & Hc & Nc). set (x := c :: filter p h).
  assert (I : incl x h).
  { intros d [<-|Hd]; [exact Hc|]. apply filter_In in Hd. tauto. }
  assert (Hx : hand5 x).
  { split; [eapply all_cards_incl; eassumption|]. split.
    - constructor; [|apply NoDup_filter; exact N]. intros Hin. apply filter_In in Hin.
      destruct Hin as [_ Hin]. unfold p in Hin. destruct (rank_dec (card_rank c) r); congruence.
    - simpl. rewrite F. reflexivity. }
  destruct (evaluate_spec ev x Hev (hand5_legal x Hx)) as (e' & E' & _).
  pose proof (more_cards ev x h e' e Hev A I E' E) as M.
  pose proof (category_mono ev h x e e' Hev A (proj1 Hx) E E' M) as C.
  assert (K : eval_class_of e' = FourOfAKind r).
  { apply (class_correct ev x e' Hev Hx E'). change (count r (faces x) = 4). unfold count. rewrite ranks_faces.
    unfold x. cbn [map count_occ]. destruct (rank_dec (card_rank c) r); [contradiction|].
    rewrite <- F. clear. induction h as [|d h IH]; [reflexivity|]. cbn [filter].
    destruct (p d) eqn:P; [|exact IH]. cbn [map count_occ List.length].
    unfold p in P. destruct (rank_dec (card_rank d) r); [|discriminate P]. congruence. }
  rewrite K in C. exact C.
Qed.

(** ** Text *)
Definition all_classes : list eval_class :=
  flat_map (fun r => [HighCard r; Pair r; ThreeOfAKind r; Straight r; Flush r; FourOfAKind r;
                      StraightFlush r]
                     ++ flat_map (fun q => [TwoPair r q; FullHouse r q]) high_to_low) high_to_low.

Lemma in_all_classes c : In c all_classes.
Proof.
  assert (Q : forall r q, In (TwoPair r q) all_classes /\ In (FullHouse r q) all_classes).
  { intros r q. split; apply in_flat_map; exists r; (split; [apply in_high_to_low|]);
      apply in_or_app; right; apply in_flat_map; exists q; (split; [apply in_high_to_low|]);
      simpl; tauto. }
  destruct c; try apply Q; apply in_flat_map; eexists; (split; [apply in_high_to_low|]);
    apply in_or_app; left; simpl; eauto 10.
Qed.

(** An injective-enough key of a text, used to build a table of all texts. *)
Definition text_key (s : rstring) : positive :=
  fold_left (fun k c => (k * 128 + N.succ_pos c)%positive) s 1%positive.
Definition text_table : PositiveMap.t eval_class :=
  fold_left (fun m c => PositiveMap.add (text_key (class_display c)) c m) all_classes
    (PositiveMap.empty _).
Definition text_check (c : eval_class) : bool :=
  match PositiveMap.find (text_key (class_display c)) text_table with
  | Some c' => class_eqb c c'
  | None => false
  end.
Lemma text_sweep : forallb text_check all_classes = true.
Proof. vm_compute. reflexivity. Qed.

Lemma class_display_inj a b : class_display a = class_display b -> a = b.
Proof.
  intros E. pose proof text_sweep as T. rewrite forallb_forall in T.
  pose proof (T a (in_all_classes a)) as Ta. pose proof (T b (in_all_classes b)) as Tb.
  unfold text_check in *. rewrite E in Ta. destruct (PositiveMap.find _ _) as [c|]; [|discriminate Ta].
  assert (K : forall x y, class_eqb x y = true -> x = y).
  { intros x y H. apply class_cmp_eq. unfold class_eqb in H. destruct (class_cmp x y); congruence. }
  apply K in Ta. apply K in Tb. congruence.
Qed.

Lemma display_royal c : class_display c = lit "Royal flush" <-> c = StraightFlush Ace.
Proof.
  split; [|intros ->; reflexivity]. intros H. apply class_display_inj. rewrite H. reflexivity.
Qed.
