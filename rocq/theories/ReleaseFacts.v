(** ReleaseFacts.v: builds without overflow checks and debug assertions. *)
From Coq Require Import Lia List Arith Bool Permutation String ZArith.
From Verif Require Import Base BaseFacts ModelCard ModelEval ModelTable ModelEvaluation ModelExamples ModelRelease.
From Verif Require Import Spec SpecApi SpecText SpecExamples CardFacts ExamplesFacts.
From Verif Require HandFacts TextFacts DeckFacts LookupFacts.
From Verif Require Import JacksFacts.
Import ListNotations.
Local Open Scope Z_scope.

(** ** Arithmetic *)
Lemma rel_shl_i16_ok a n z : shl_i16 a n = Ret z -> rel_shl_i16 a n = z.
Proof.
  unfold shl_i16, rel_shl_i16. destruct ((0 <=? n) && (n <? 16)) eqn:E; intros H; [|discriminate H].
  apply andb_true_iff in E. destruct E as [E1 E2]. apply Z.leb_le in E1. apply Z.ltb_lt in E2.
  rewrite Z.mod_small by lia. injection H as <-. reflexivity.
Qed.
Lemma shl_i16_rank i : In i INT_RANKS -> shl_i16 1 i = Ret (rel_shl_i16 1 i).
Proof. intros H. repeat (destruct H as [<-|H]; [reflexivity|]). destruct H. Qed.
Lemma rel_shr_ok a n z : shr_i16 a n = Ret z -> rel_shr_i16 a n = z.
Proof.
  unfold shr_i16, rel_shr_i16. destruct ((0 <=? n) && (n <? 16)) eqn:E; intros H; [|discriminate H].
  apply andb_true_iff in E. destruct E as [E1 E2]. apply Z.leb_le in E1. apply Z.ltb_lt in E2.
  rewrite Z.mod_small by lia. injection H as <-. reflexivity.
Qed.
Lemma rel_u64_small z : 0 <= z < 2 ^ 64 -> rel_u64 z = z.
Proof. intros H. apply Z.mod_small. exact H. Qed.

Lemma cards r s : rel_card_new r s = card_new_chk r s.
Proof. destruct r, s; reflexivity. Qed.

(** ** Prime products, high ranks, uniqueness *)
Lemma prime_product bits : rel_prime_product_from_rank_bits bits = prime_product_from_rank_bits bits.
Proof.
  unfold rel_prime_product_from_rank_bits, prime_product_from_rank_bits. apply LookupFacts.foldM_ext_in.
  intros s x H. rewrite (shl_i16_rank x H). reflexivity.
Qed.
Lemma high_loop bits is : incl is INT_RANKS -> rel_high_rank_loop bits is = high_rank_loop bits is.
Proof.
  induction is as [|i is IH]; intros H; [reflexivity|]. cbn [rel_high_rank_loop high_rank_loop].
  rewrite (shl_i16_rank i (H i (or_introl eq_refl))). cbn [bind].
  rewrite IH; [reflexivity|]. intros x Hx. apply H. right. exact Hx.
Qed.
Lemma high_rank bits : rel_high_rank_from_rank_bits bits = high_rank_from_rank_bits bits.
Proof.
  unfold rel_high_rank_from_rank_bits, high_rank_from_rank_bits. rewrite high_loop; [reflexivity|].
  intros x. apply in_rev.
Qed.
Lemma to_index c : card_to_index c = Ret (rel_card_to_index c) /\ 0 <= rel_card_to_index c < 52.
Proof.
  unfold card_to_index, rel_card_to_index. destruct (card_suit c), (card_rank c); (split; [reflexivity|]);
    vm_compute; (split; [intros X; discriminate X|reflexivity]).
Qed.
Lemma unique_from hand : forall flags, all_unique_from flags hand = Ret (rel_all_unique_from flags hand).
Proof.
  induction hand as [|c hand IH]; intros flags; [reflexivity|]. cbn [all_unique_from rel_all_unique_from].
  destruct (to_index c) as [-> R]. cbn [bind]. unfold shl_u64 at 1.
  replace ((0 <=? rel_card_to_index c) && (rel_card_to_index c <? 64)) with true
    by (symmetry; apply andb_true_iff; split; [apply Z.leb_le|apply Z.ltb_lt]; lia).
  cbn [bind]. unfold rel_shl_u64. rewrite (Z.mod_small (rel_card_to_index c) 64) by lia.
  destruct (negb _); [reflexivity|]. apply IH.
Qed.
Lemma unique hand : all_unique hand = Ret (rel_all_unique hand).
Proof. apply unique_from. Qed.

(** ** Combinations *)
Lemma reset_length l : forall p, List.length (reset_after p l) = List.length l.
Proof. induction l as [|x l IH]; intros p; [reflexivity|]. cbn [reset_after List.length]. rewrite IH. reflexivity. Qed.
Lemma advance {T} len n k : forall c : combinations T,
  (k <= n)%nat -> (n <= len)%nat -> Z.of_nat len < 2 ^ 64 -> (k <= List.length (cb_indices c))%nat ->
  rel_advance_loop len n k c = advance_loop len n k c
  /\ forall c', advance_loop len n k c = Ret c' ->
       cb_data c' = cb_data c /\ List.length (cb_indices c') = List.length (cb_indices c).
Proof.
  induction k as [|i IH]; intros c Hk Hn Hl Hi.
  { split; [reflexivity|]. intros c' H. injection H as <-. split; reflexivity. }
  cbn [rel_advance_loop advance_loop].
  replace (Nat.ltb len n) with false by (symmetry; apply Nat.ltb_ge; lia).
  assert (El : rel_u64 (rel_u64 (Z.of_nat len - Z.of_nat n) + Z.of_nat i) = Z.of_nat (len - n + i)).
  { rewrite (rel_u64_small (Z.of_nat len - Z.of_nat n)) by lia. rewrite rel_u64_small by lia. lia. }
  rewrite El. unfold index at 1 2 3. destruct (nth_error (cb_indices c) i) as [idx|] eqn:E;
    [|apply nth_error_None in E; lia]. cbn [bind].
  replace (Z.of_nat idx =? Z.of_nat (len - n + i)) with (Nat.eqb idx (len - n + i))
    by (destruct (Nat.eqb_spec idx (len - n + i)); symmetry; [apply Z.eqb_eq|apply Z.eqb_neq]; lia).
  replace (Z.of_nat idx <? Z.of_nat (len - n + i)) with (Nat.ltb idx (len - n + i))
    by (destruct (Nat.ltb_spec idx (len - n + i)); symmetry; [apply Z.ltb_lt|apply Z.ltb_ge]; lia).
  set (c1 := if Nat.eqb i 0 && Nat.eqb idx (len - n + i) then mk_combinations (cb_data c) (cb_indices c) true else c).
  assert (Hd : cb_data c1 = cb_data c /\ cb_indices c1 = cb_indices c)
    by (unfold c1; destruct (_ && _); split; reflexivity).
  destruct Hd as [Hd Hx]. destruct (Nat.ltb idx (len - n + i)).
  - split; [reflexivity|]. intros c' H. apply (f_equal (fun o => match o with Ret y => y | _ => c end)) in H. cbv beta iota in H.
    rewrite <- H. cbn [cb_data cb_indices]. split; [exact Hd|].
    rewrite app_length. cbn [List.length]. rewrite reset_length, firstn_length, skipn_length, Hx. lia.
  - destruct (IH c1 ltac:(lia) Hn Hl ltac:(rewrite Hx; lia)) as [E1 E2]. split; [exact E1|].
    intros c' H. destruct (E2 c' H) as [A B]. split; congruence.
Qed.
Lemma next {T} (c : combinations T) :
  (List.length (cb_indices c) <= List.length (cb_data c))%nat -> Z.of_nat (List.length (cb_data c)) < 2 ^ 64 ->
  rel_combinations_next c = combinations_next c
  /\ forall x c', combinations_next c = Ret (x, c') ->
       cb_data c' = cb_data c /\ List.length (cb_indices c') = List.length (cb_indices c).
Proof.
  intros Hn Hl. unfold rel_combinations_next, combinations_next. destruct (cb_done c).
  { split; [reflexivity|]. intros x c' H. injection H as _ <-. split; reflexivity. }
  destruct (mapM (index (cb_data c)) (cb_indices c)) as [r| |]; cbn [bind];
    [|split; [reflexivity|intros ? ? H; discriminate H]..].
  destruct (advance (List.length (cb_data c)) (List.length (cb_indices c)) (List.length (cb_indices c)) c
    ltac:(lia) Hn Hl ltac:(lia)) as [E1 E2]. rewrite E1.
  destruct (advance_loop _ _ _ c) as [c1| |]; cbn [bind];
    [|split; [reflexivity|intros ? ? H; discriminate H]..].
  split; [reflexivity|]. intros x c' H. injection H as _ <-. apply E2. reflexivity.
Qed.
Lemma each {T St} (f g : St -> list T -> outcome St) : (forall s x, f s x = g s x) ->
  forall fuel c s,
  (List.length (cb_indices c) <= List.length (cb_data c))%nat -> Z.of_nat (List.length (cb_data c)) < 2 ^ 64 ->
  rel_for_combinations fuel c f s = for_combinations fuel c g s.
Proof.
  intros Hf fuel. induction fuel as [|fuel IH]; intros c s Hn Hl; [reflexivity|].
  cbn [rel_for_combinations for_combinations]. destruct (next c Hn Hl) as [-> E2].
  destruct (combinations_next c) as [[[x|] c']| |]; cbn [bind]; [|reflexivity..].
  destruct (E2 _ _ eq_refl) as [A B]. rewrite Hf. destruct (g s x) as [s'| |]; cbn [bind]; [|reflexivity..].
  apply IH; rewrite ?A, ?B; assumption.
Qed.
Lemma too_few {T} (l : list T) n : (List.length l < n)%nat ->
  exists e, mapM (index l) (seq 0 n) = Panic e.
Proof.
  intros H.
  enough (G : forall k a, (a <= List.length l)%nat -> (List.length l < a + k)%nat ->
            exists e, mapM (index l) (seq a k) = Panic e) by (apply (G n 0%nat); lia).
  induction k as [|k IH]; intros a Ha Hk; [lia|]. cbn [seq mapM]. unfold index at 1.
  destruct (nth_error l a) as [y|] eqn:E; cbn [bind]; [|eexists; reflexivity].
  assert (a < List.length l)%nat by (apply nth_error_Some; congruence).
  destruct (IH (S a) ltac:(lia) ltac:(lia)) as [e ->]. exists e. reflexivity.
Qed.
Theorem combos {T St} n (items : list T) (f g : St -> list T -> outcome St) s :
  Z.of_nat (List.length items) < 2 ^ 64 -> (forall s x, f s x = g s x) ->
  rel_for_const_combos n items f s = for_const_combos n items g s.
Proof.
  intros Hl Hf. unfold rel_for_const_combos, for_const_combos.
  destruct (Nat.le_gt_cases n (List.length items)) as [Hn|Hn].
  - apply each; [exact Hf| |exact Hl]. unfold combinations_new. cbn [cb_indices cb_data]. rewrite seq_length. exact Hn.
  - destruct (too_few items n Hn) as [e E]. cbn [rel_for_combinations for_combinations].
    unfold rel_combinations_next, combinations_next, combinations_new. cbn [cb_done cb_data cb_indices].
    rewrite E. reflexivity.
Qed.

(** ** The bit patterns *)
Lemma next_pattern b x : get_next b = Ret x -> rel_get_next b = x.
Proof.
  unfold get_next, rel_get_next. destruct (shr_i16 _ _) as [z| |] eqn:E; cbn [bind]; intros H;
    [|discriminate H..].
  rewrite (rel_shr_ok _ _ _ E). injection H as <-. reflexivity.
Qed.
Lemma zeros_divide p : 0 <= pos_trailing_zeros p
  /\ exists m, Zpos p = 2 ^ pos_trailing_zeros p * (2 * m + 1) /\ 0 <= m.
Proof.
  induction p as [p IH|p [I0 (m & Em & Hm)]|]; cbn [pos_trailing_zeros].
  - split; [lia|]. exists (Zpos p). split; [rewrite Z.pow_0_r; lia|lia].
  - split; [lia|]. exists m. split; [|exact Hm]. rewrite Z.pow_add_r by lia. lia.
  - split; [lia|]. exists 0. split; [reflexivity|lia].
Qed.
Lemma zeros_small z : -32768 <= z < 32768 -> z <> 0 -> z <> -32768 -> 0 <= trailing_zeros_i16 z < 15.
Proof.
  intros R N0 N1. unfold trailing_zeros_i16.
  assert (K : forall p, Zpos p < 32768 -> 0 <= pos_trailing_zeros p < 15).
  { intros p Hp. destruct (zeros_divide p) as [I0 (m & Em & Hm)]. split; [exact I0|].
    destruct (Z.lt_ge_cases (pos_trailing_zeros p) 15) as [|X]; [assumption|]. exfalso.
    assert (2 ^ 15 <= 2 ^ pos_trailing_zeros p) by (apply Z.pow_le_mono_r; lia).
    change (2 ^ 15) with 32768 in *. nia. }
  destruct z as [|p|p]; [lia|apply K; lia|apply K; lia].
Qed.
Theorem patterns b : -32768 <= bs_bits b < 32768 ->
  (bs_bits b <> 0 -> bs_bits b <> -32768 -> get_next b = Ret (rel_get_next b))
  /\ (bs_bits b = 0 \/ bs_bits b = -32768 -> get_next b = Panic ArithmeticOverflow).
Proof.
  intros R. split.
  - intros N0 N1. destruct (get_next b) as [x| |] eqn:E.
    + rewrite (next_pattern b x E). reflexivity.
    + exfalso. revert E. pose proof (zeros_small _ R N0 N1) as Z1. unfold get_next, shr_i16.
      replace ((0 <=? _) && _) with true; [intros X; discriminate X|].
      symmetry. apply andb_true_iff. split; [apply Z.leb_le|apply Z.ltb_lt]; lia.
    + exfalso. revert E. unfold get_next, shr_i16. destruct (_ && _); intros X; discriminate X.
  - destruct b as [bits t nb]. cbn [bs_bits]. intros [-> | ->]; reflexivity.
Qed.

(** ** Building the evaluator *)
Lemma not_straights k : forall b l, gen_not_straights k b = Ret l -> rel_gen_not_straights k b = l.
Proof.
  induction k as [|k IH]; intros b l; cbn [gen_not_straights rel_gen_not_straights]; intros H.
  { injection H as <-. reflexivity. }
  destruct (get_next b) as [[x b']| |] eqn:E; cbn [bind] in H; [|discriminate H..].
  rewrite (next_pattern b _ E). destruct (gen_not_straights k b') as [rest| |] eqn:E'; cbn [bind] in H;
    [|discriminate H..].
  rewrite (IH b' rest E'). destruct (existsb _ _); injection H as <-; reflexivity.
Qed.
Lemma straight_step_same st x : rel_straight_step st x = straight_step insert_flush insert_unsuited st x.
Proof. destruct st as [[t a] b]. unfold rel_straight_step, straight_step. rewrite prime_product, high_rank. reflexivity. Qed.
Lemma not_straight_step_same st x :
  rel_not_straight_step st x = not_straight_step insert_flush insert_unsuited st x.
Proof.
  destruct st as [[t a] b]. unfold rel_not_straight_step, not_straight_step. rewrite prime_product, high_rank. reflexivity.
Qed.
Lemma flushes t t' : flushes_straights_high_cards insert_flush insert_unsuited t = Ret t' ->
  rel_flushes_straights_high_cards t = Ret t'.
Proof.
  unfold flushes_straights_high_cards, rel_flushes_straights_high_cards.
  destruct (gen_not_straights 1286 (bit_sequence_new 31)) as [l| |] eqn:E; cbn [bind]; intros H; [|discriminate H..].
  rewrite (not_straights _ _ _ E). clear E. change (chk in_i16 (WORST_FLUSH + 1)) with (Ret (wrap_i16 (WORST_FLUSH + 1))) in H.
  cbn [bind] in H. rewrite <- H. clear H.
  rewrite (LookupFacts.foldM_ext_in _ _ STRAIGHTS (fun s x _ => straight_step_same s x)).
  destruct (foldM _ STRAIGHTS _) as [[[t1 a] b]| |]; cbn [bind]; [|reflexivity..].
  rewrite (LookupFacts.foldM_ext_in _ _ (rev l) (fun s x _ => not_straight_step_same s x)). reflexivity.
Qed.
Lemma bind_inv {A B} (m : outcome A) (k : A -> outcome B) r : bind m k = Ret r -> exists x, m = Ret x /\ k x = Ret r.
Proof. destruct m as [x| |]; intros H; [|discriminate H..]. exists x. split; [reflexivity|exact H]. Qed.
Lemma bind_same {A B} (m m' : outcome A) (k : A -> outcome B) r :
  (forall x, m = Ret x -> m' = Ret x) -> bind m k = Ret r -> bind m' k = Ret r.
Proof. intros H E. destruct (bind_inv m k r E) as (x & Em & Ek). rewrite (H x Em). exact Ek. Qed.
Lemma combos_same {T St} n (items : list T) (f g : St -> list T -> outcome St) s : (List.length items <= 13)%nat ->
  (forall s x, f s x = g s x) -> rel_for_const_combos n items f s = for_const_combos n items g s.
Proof. intros H. apply combos. lia. Qed.
Lemma kickers_few f : (List.length (filter f (rev INT_RANKS)) <= 13)%nat.
Proof.
  assert (H : forall l : list Z, (List.length (filter f l) <= List.length l)%nat).
  { induction l as [|x l IH]; cbn [filter]; [lia|]. destruct (f x); cbn [List.length]; lia. }
  apply (H (rev INT_RANKS)).
Qed.
Lemma trips_same t : rel_table_trips t = table_trips insert_unsuited t.
Proof.
  unfold rel_table_trips, table_trips. erewrite LookupFacts.foldM_ext_in; [reflexivity|]. intros s x _.
  apply combos_same; [apply kickers_few|reflexivity].
Qed.
Lemma two_pairs_same t : rel_table_two_pairs t = table_two_pairs insert_unsuited t.
Proof.
  unfold rel_table_two_pairs, table_two_pairs. erewrite combos_same; [reflexivity|cbn; lia|]. reflexivity.
Qed.
Lemma pairs_same t : rel_table_pairs t = table_pairs insert_unsuited t.
Proof.
  unfold rel_table_pairs, table_pairs. erewrite LookupFacts.foldM_ext_in; [reflexivity|]. intros s x _.
  apply combos_same; [apply kickers_few|reflexivity].
Qed.
Lemma bind_ext {A B} (m m' : outcome A) (k k' : A -> outcome B) :
  m = m' -> (forall x, k x = k' x) -> bind m k = bind m' k'.
Proof. intros -> H. destruct m' as [x| |]; [apply H|reflexivity..]. Qed.
Lemma multiples_same t : rel_multiples t = multiples insert_unsuited t.
Proof.
  unfold rel_multiples, multiples. apply bind_ext; [exact eq_refl|]. intros t1. apply bind_ext; [exact eq_refl|]. intros t2.
  apply bind_ext; [exact (trips_same t2)|]. intros t3. apply bind_ext; [exact (two_pairs_same t3)|]. exact pairs_same.
Qed.
Transparent lookup_table_new.
Lemma table_same t : lookup_table_new = Ret t -> rel_lookup_table_new = Ret t.
Proof.
  unfold lookup_table_new, rel_lookup_table_new, build. intros H. destruct (bind_inv _ _ _ H) as (t1 & E1 & E2).
  rewrite (flushes _ _ E1). cbn [bind]. rewrite multiples_same. exact E2.
Qed.
Opaque lookup_table_new.
Theorem evaluator_same : rel_evaluator_new = evaluator_new.
Proof.
  destruct HandFacts.evaluator_new_ret as [ev E]. transitivity (@Ret evaluator ev); [|symmetry; exact E].
  revert E. unfold evaluator_new, rel_evaluator_new. apply bind_same. exact table_same.
Qed.

(** ** Evaluating *)
Lemma five_same ev cards : rel_five ev cards = five ev cards.
Proof. unfold rel_five, five. rewrite prime_product. reflexivity. Qed.
Theorem evaluate_same ev cards : Z.of_nat (List.length cards) < 2 ^ 64 ->
  rel_evaluate_with ev cards = evaluate_with ev cards.
Proof.
  intros H. unfold rel_evaluate_with, evaluate_with. rewrite unique. cbn [bind].
  destruct (rel_all_unique cards); [|reflexivity].
  destruct (Nat.ltb (List.length cards) 5) eqn:E1; [reflexivity|].
  destruct (Nat.eqb (List.length cards) 5) eqn:E2.
  - destruct (index cards 0); cbn [bind]; [|reflexivity..]. destruct (index cards 1); cbn [bind]; [|reflexivity..].
    destruct (index cards 2); cbn [bind]; [|reflexivity..]. destruct (index cards 3); cbn [bind]; [|reflexivity..].
    destruct (index cards 4); cbn [bind]; [|reflexivity..]. rewrite five_same. reflexivity.
  - apply Nat.ltb_ge in E1. apply Nat.eqb_neq in E2. unfold rel_six_plus, six_plus.
    replace (Nat.ltb 5 (List.length cards)) with true by (symmetry; apply Nat.ltb_lt; lia). cbn [negb].
    rewrite (combos 5 cards _ (fun current_max combo =>
      let! score := five ev combo in
      if op_gt (eval_partial_cmp score current_max) then Ret score else Ret current_max) EVAL_WORST H); [reflexivity|].
    intros s x. rewrite five_same. reflexivity.
Qed.
Theorem methods_same cards : Z.of_nat (List.length cards) < 2 ^ 64 ->
  (forall ev, rel_evaluate ev cards = evaluate ev cards)
  /\ (forall F U, rel_static_evaluate F U cards = static_evaluate F U cards).
Proof. intros H. split; intros; exact (evaluate_same _ cards H). Qed.

(** ** The game *)
Lemma swaps_same order lines : forall out r, get_swaps order lines out = Ret r -> rel_get_swaps order lines out = r.
Proof.
  induction lines as [|l lines IH]; intros out r; cbn [get_swaps rel_get_swaps]; intros H.
  { injection H as <-. reflexivity. }
  destruct (str_eqb l (lit "quit")). { injection H as <-. reflexivity. }
  destruct (parse_all (split_whitespace l)) as [sw|]; [|apply IH; exact H].
  destruct (negb (forallb _ sw)); [apply IH; exact H|].
  destruct (negb (Nat.leb _ 5)); [apply IH; exact H|].
  destruct (negb (all_inserted [] sw)); [apply IH; exact H|].
  destruct (mapM (fun x => chk in_u64 (x - 1)) sw) as [is| |] eqn:E; cbn [bind] in H; [|discriminate H..].
  injection H as <-. f_equal. f_equal. f_equal. clear IH. revert is E.
  induction sw as [|x sw IHs]; intros is E; cbn [mapM map] in *. { injection E as <-. reflexivity. }
  unfold chk in E at 1. destruct (in_u64 (x - 1)) eqn:Ex; cbn [bind] in E; [|discriminate E].
  destruct (mapM _ sw) as [is'| |] eqn:E'; cbn [bind] in E; [|discriminate E..]. injection E as <-.
  apply in_u64_iff in Ex. rewrite rel_u64_small by exact Ex. f_equal. apply IHs. reflexivity.
Qed.
Lemma payout_same w c z : payout w c = Ret z -> rel_payout w c = z.
Proof.
  assert (K : forall a b, chk in_u64 a = Ret b -> rel_u64 a = b).
  { intros a b. unfold chk. destruct (in_u64 a) eqn:E; intros H; [|discriminate H]. injection H as <-.
    apply in_u64_iff in E. apply rel_u64_small. exact E. }
  destruct c as [r|r|r r'|r|r|r|r r'|r|r]; cbn [payout rel_payout]; try apply K;
    try (destruct r; try apply K; try (destruct (w =? MAX_WAGER); try apply K); intros H; injection H as <-; reflexivity);
    intros H; injection H as <-; reflexivity.
Qed.

Section game.
Context {R : Type} (gen : R -> nat -> nat * R) (order : list (Z * nat) -> list (Z * nat)).
Hypothesis G : fair gen.
Hypothesis O : reorders order.
Context (ev : evaluator).
Hypothesis Hev : new_evaluator ev.

Lemma hand5_same h : List.length h = 5%nat -> rel_evaluate ev h = evaluate ev h.
Proof. intros L. apply evaluate_same. rewrite L. lia. Qed.

(** A turn that is not left early: all that differs is how the new credits are computed. *)
Lemma turn_both (g : game R) : between g ->
  (exists x, game_turn gen order ev g = Ret x /\ rel_game_turn gen order ev g = Ret x /\ fst x = Break
     /\ all_52 (snd x) /\ 0 <= g_credits (snd x) < 2 ^ 64)
  \/ exists w c (rest : Z -> turn * game R), 1 <= w <= 5 /\ w <= g_credits g
     /\ game_turn gen order ev g =
          (if settle (g_credits g) w c <? 2 ^ 64 then Ret (rest (settle (g_credits g) w c))
           else Panic ArithmeticOverflow)
     /\ rel_game_turn gen order ev g = Ret (rest (settle (g_credits g) w c mod 2 ^ 64))
     /\ forall z, g_credits (snd (rest z)) = z /\ fst (rest z) = (if z =? 0 then Break else Again)
          /\ (List.length (g_lines (snd (rest z))) < List.length (g_lines g))%nat
          /\ all_52 (snd (rest z)) /\ (z <> 0 -> g_hand (snd (rest z)) = []).
Proof.
  intros (A52 & Hh & Hc). unfold game_turn, rel_game_turn.
  destruct (get_wager_correct (g_credits g) (g_lines g) (g_out g))
    as (bad & a & rest & out1 & E1 & Ans1 & Con1).
  rewrite E1. destruct a as [w|].
  2:{ left. eexists. split; [reflexivity|]. split; [reflexivity|]. split; [reflexivity|]. split; [exact A52|].
      cbn [snd g_credits]. lia. }
  destruct (answers_ok _ _ _ _ _ Ans1) as (wl & _ & _ & Hw & Hwc).
  pose proof (answers_fewer _ _ _ _ _ Ans1) as F1.
  rewrite chk_u64 by lia. rewrite (rel_u64_small (g_credits g - w)) by lia. cbn [bind].
  unfold all_52 in A52. rewrite Hh in A52. cbn [app] in A52.
  assert (Ld : List.length (g_deck g) = 52%nat) by (rewrite A52; apply DeckFacts.deck_length).
  unfold drain_front. replace (Nat.leb 5 (List.length (g_deck g))) with true by (rewrite Ld; reflexivity).
  cbn [bind]. rewrite Hh. cbn [app].
  set (h1 := firstn 5 (g_deck g)). set (deck1 := skipn 5 (g_deck g)).
  assert (Ed : g_deck g = h1 ++ deck1) by (symmetry; apply firstn_skipn).
  assert (L1 : List.length h1 = 5%nat) by (unfold h1; rewrite firstn_length, Ld; reflexivity).
  assert (P1 : Permutation (h1 ++ deck1) deck_generate) by (rewrite <- Ed; exact A52).
  pose proof (hand_of_52 h1 deck1 P1 L1) as H5.
  destruct (hand5_evaluates ev h1 Hev H5) as [e1 Ee1]. unfold evaluates in Ee1.
  rewrite (hand5_same h1 L1). rewrite Ee1. cbn [bind unwrap].
  rewrite (show_hand_text h1 e1 L1). cbn [bind].
  match goal with |- context [get_swaps order rest ?o] => set (out2 := o) end.
  destruct (get_swaps_correct order rest O out2) as (bad' & a & rest' & out3 & E2 & Ans2 & Con2).
  rewrite (swaps_same _ _ _ _ E2). rewrite E2. cbn [bind]. destruct a as [is|].
  2:{ left. eexists. split; [reflexivity|]. split; [reflexivity|]. split; [reflexivity|]. split; [exact P1|].
      cbn [snd g_credits]. lia. }
  destruct (answers_ok _ _ _ _ _ Ans2) as (sl & _ & Hs).
  pose proof (answers_fewer _ _ _ _ _ Ans2) as F2.
  assert (Sw : exists deck2 h2 rng2,
      match is with
      | [] => Ret (deck1, h1, g_rng g)
      | _ => swap_cards gen is deck1 h1 (g_rng g)
      end = Ret (deck2, h2, rng2)
      /\ Permutation (h2 ++ deck2) (h1 ++ deck1) /\ redrawn deck1 h1 is h2).
  { destruct is as [|i is'].
    - exists deck1, h1, (g_rng g). split; [reflexivity|]. split; [apply Permutation_refl|apply redrawn_none].
    - exact (swap_cards_correct gen (i :: is') deck1 h1 (g_rng g) G (swaps_positions sl _ h1 Hs L1)). }
  destruct Sw as (deck2 & h2 & rng2 & -> & P2 & Rd). cbn [bind].
  rewrite P1 in P2.
  assert (L2 : List.length h2 = 5%nat) by (destruct Rd as [-> _]; exact L1).
  pose proof (hand_of_52 h2 deck2 P2 L2) as H52.
  destruct (hand5_evaluates ev h2 Hev H52) as [e2 Ee2]. unfold evaluates in Ee2.
  rewrite (hand5_same h2 L2). rewrite Ee2. cbn [bind unwrap].
  rewrite (show_hand_text h2 e2 L2). cbn [bind].
  pose proof (payout_pays w (eval_class_of e2) Hw) as Ep.
  rewrite (payout_same _ _ _ Ep). rewrite Ep. cbn [bind].
  pose proof (pays_range w (eval_class_of e2) Hw) as Hp.
  pose proof (settle_range (g_credits g) w (eval_class_of e2) Hw Hwc) as Rc.
  right. exists w, (eval_class_of e2).
  set (c' := settle (g_credits g) w (eval_class_of e2)) in *.
  set (p := pays w (eval_class_of e2)) in *.
  match goal with |- context [bind (if 0 <? p then _ else _) ?k] => set (kont := k) end.
  destruct (DeckFacts.shuffle_perm gen (deck2 ++ h2) rng2 G) as (d & rng3 & E3 & P3).
  set (out4 := match class_cmp (eval_class_of e2) (eval_class_of e1) with
      | Eq => (out2 ++ out3) ++ [Line [] (hand_text h2 e2)]
      | Lt => ((out2 ++ out3) ++ [Line [] (hand_text h2 e2)]) ++ [Line [BrightRed; Bold] (lit "You got a worse hand...")]
      | Gt => ((out2 ++ out3) ++ [Line [] (hand_text h2 e2)]) ++ [Line [BrightGreen; Bold] (lit "You got a better hand!")]
      end).
  set (col := if 0 <? p then BrightGreen else BrightRed).
  set (wl' := Line [col; Bold] (lit "Winnings: " ++ show p)).
  exists (fun z => if z =? 0
    then (Break, mk_game rest' ((out4 ++ [wl']) ++ [Line [BrightRed; Bold] (lit "Game over!")]) deck2 h2 z rng2)
    else (Again, mk_game rest' ((out4 ++ [wl']) ++ [Line [] []]) d [] z rng3)).
  split; [exact Hw|]. split; [exact Hwc|].
  assert (Ek : forall z, kont (z, wl') = Ret (if z =? 0
    then (Break, mk_game rest' ((out4 ++ [wl']) ++ [Line [BrightRed; Bold] (lit "Game over!")]) deck2 h2 z rng2)
    else (Again, mk_game rest' ((out4 ++ [wl']) ++ [Line [] []]) d [] z rng3))).
  { intros z. unfold kont. cbv zeta. fold out4. destruct (z =? 0); [reflexivity|].
    rewrite E3. reflexivity. }
  split; [|split].
  - unfold wl', col in *. destruct (0 <? p) eqn:E.
    + apply Z.ltb_lt in E.
      assert (Ec : c' = g_credits g + p).
      { unfold c', settle. fold p. replace (p =? 0) with false by (symmetry; apply Z.eqb_neq; lia). reflexivity. }
      rewrite (chk_u64 (w + p)) by lia. cbn [bind]. unfold chk.
      replace (g_credits g - w + (w + p)) with c' by lia.
      destruct (c' <? 2 ^ 64) eqn:Eb.
      * apply Z.ltb_lt in Eb. replace (in_u64 c') with true by (symmetry; apply in_u64_iff; lia).
        cbn [bind]. apply Ek.
      * apply Z.ltb_ge in Eb. replace (in_u64 c') with false; [reflexivity|].
        symmetry. apply not_true_is_false. rewrite in_u64_iff. lia.
    + apply Z.ltb_ge in E.
      assert (Ec : c' = g_credits g - w).
      { unfold c', settle. fold p. replace (p =? 0) with true by (symmetry; apply Z.eqb_eq; lia). reflexivity. }
      rewrite <- Ec. cbn [bind]. replace (c' <? 2 ^ 64) with true by (symmetry; apply Z.ltb_lt; lia). apply Ek.
  - fold out4. unfold wl', col in *. destruct (0 <? p) eqn:E.
    + apply Z.ltb_lt in E.
      assert (Ec : c' = g_credits g + p).
      { unfold c', settle. fold p. replace (p =? 0) with false by (symmetry; apply Z.eqb_neq; lia). reflexivity. }
      rewrite (rel_u64_small (w + p)) by lia.
      replace (g_credits g - w + (w + p)) with c' by lia. change (rel_u64 c') with (c' mod 2 ^ 64).
      set (z := c' mod 2 ^ 64). destruct (z =? 0); [reflexivity|]. rewrite E3. reflexivity.
    + apply Z.ltb_ge in E.
      assert (Ec : c' = g_credits g - w).
      { unfold c', settle. fold p. replace (p =? 0) with true by (symmetry; apply Z.eqb_eq; lia). reflexivity. }
      rewrite <- Ec. rewrite (Z.mod_small c') by lia. destruct (c' =? 0); [reflexivity|]. rewrite E3. reflexivity.
  - intros z. assert (P3' : Permutation d deck_generate).
    { rewrite <- P3, (Permutation_app_comm deck2 h2). exact P2. }
    destruct (z =? 0) eqn:Ez; cbn [fst snd g_credits g_lines g_hand].
    + split; [reflexivity|]. split; [reflexivity|]. split; [lia|]. split; [exact P2|].
      apply Z.eqb_eq in Ez. intros X. contradiction.
    + split; [reflexivity|]. split; [reflexivity|]. split; [lia|]. split; [exact P3'|]. reflexivity.
Qed.

Theorem turn_same (g : game R) : between g ->
  (forall x, game_turn gen order ev g = Ret x -> rel_game_turn gen order ev g = Ret x)
  /\ (game_turn gen order ev g = Panic ArithmeticOverflow ->
      exists w c t g', 1 <= w <= 5 /\ w <= g_credits g /\ 2 ^ 64 <= settle (g_credits g) w c
        /\ rel_game_turn gen order ev g = Ret (t, g') /\ all_52 g'
        /\ g_credits g' = settle (g_credits g) w c - 2 ^ 64 /\ 0 <= g_credits g' < 4000
        /\ (t = Break <-> g_credits g' = 0)).
Proof.
  intros B. destruct (turn_both g B) as [(x & E1 & E2 & _)|(w & c & k & Hw & Hwc & E1 & E2 & K)].
  { split; [intros y; congruence|]. intros X. rewrite E1 in X. discriminate X. }
  destruct B as (_ & _ & Hc). pose proof (settle_range (g_credits g) w c Hw Hwc) as Rc.
  rewrite E1, E2. clear E1 E2. set (c' := settle (g_credits g) w c) in *.
  destruct (c' <? 2 ^ 64) eqn:E.
  - apply Z.ltb_lt in E. rewrite Z.mod_small by lia. split; [intros x H; exact H|intros X; discriminate X].
  - apply Z.ltb_ge in E. split; [intros x H; discriminate H|]. intros _.
    assert (Em : c' mod 2 ^ 64 = c' - 2 ^ 64).
    { symmetry. apply Z.mod_unique with (q := 1); lia. }
    rewrite Em. specialize (K (c' - 2 ^ 64)). destruct (k (c' - 2 ^ 64)) as [t g']. cbn [fst snd] in K.
    destruct K as (K1 & K2 & _ & K4 & _). exists w, c, t, g'. split; [exact Hw|]. split; [exact Hwc|].
    split; [exact E|]. split; [reflexivity|]. split; [exact K4|]. split; [exact K1|]. split; [lia|].
    rewrite K1, K2. destruct (c' - 2 ^ 64 =? 0) eqn:E0.
    + apply Z.eqb_eq in E0. tauto.
    + apply Z.eqb_neq in E0. split; [intros X; discriminate X|intros X; contradiction].
Qed.

Lemma loop_same fuel : forall g : game R, between g ->
  (forall x, game_loop gen order ev fuel g = Ret x -> rel_game_loop gen order ev fuel g = Ret x)
  /\ ((List.length (g_lines g) < fuel)%nat ->
      exists g', rel_game_loop gen order ev fuel g = Ret g' /\ all_52 g' /\ 0 <= g_credits g' < 2 ^ 64).
Proof.
  induction fuel as [|fuel IH]; intros g B. { split; [intros x H; discriminate H|lia]. }
  cbn [game_loop rel_game_loop].
  destruct (turn_both g B) as [([t g1] & E1 & E2 & Ef & A & Hc)|(w & c & k & Hw & Hwc & E1 & E2 & K)].
  { cbn [fst snd] in *. rewrite E1, E2, Ef. cbn [bind]. split; [intros x H; exact H|]. intros _. exists g1.
    split; [reflexivity|]. split; [exact A|exact Hc]. }
  destruct B as (_ & _ & Hc). pose proof (settle_range (g_credits g) w c Hw Hwc) as Rc.
  rewrite E1, E2. cbn [bind]. clear E1 E2. set (c' := settle (g_credits g) w c) in *.
  pose proof (Z.mod_pos_bound c' (2 ^ 64) eq_refl) as Rm.
  assert (Bt : forall z, 0 <= z < 2 ^ 64 -> z <> 0 -> between (snd (k z))).
  { intros z Hz N0. destruct (K z) as (K1 & _ & _ & K4 & K5). split; [exact K4|]. split; [exact (K5 N0)|].
    rewrite K1. lia. }
  split.
  - destruct (c' <? 2 ^ 64) eqn:E; cbn [bind]; intros x H; [|discriminate H].
    apply Z.ltb_lt in E. rewrite Z.mod_small by lia. specialize (Bt c' ltac:(lia)). specialize (K c').
    destruct (k c') as [t g']. cbn [fst snd] in *. destruct K as (_ & K2 & _). rewrite K2 in *. clear t K2.
    destruct (c' =? 0) eqn:E0; [exact H|]. apply Z.eqb_neq in E0.
    exact (proj1 (IH g' (Bt E0)) x H).
  - intros L. specialize (Bt (c' mod 2 ^ 64) Rm). specialize (K (c' mod 2 ^ 64)).
    destruct (k (c' mod 2 ^ 64)) as [t g']. cbn [fst snd] in *. destruct K as (K1 & K2 & K3 & K4 & _).
    rewrite K2. clear t K2. destruct (c' mod 2 ^ 64 =? 0) eqn:E0.
    + exists g'. split; [reflexivity|]. split; [exact K4|]. rewrite K1. exact Rm.
    + apply Z.eqb_neq in E0. exact (proj2 (IH g' (Bt E0)) ltac:(lia)).
Qed.
End game.

Theorem program_same {R} (gen : R -> nat -> nat * R) order lines rng : fair gen -> reorders order ->
  (forall g, jacks_main gen order lines rng = Ret g -> rel_jacks_main gen order lines rng = Ret g)
  /\ (Z.of_nat (List.length lines) < 2 ^ 52 -> rel_jacks_main gen order lines rng = jacks_main gen order lines rng)
  /\ exists g, rel_jacks_main gen order lines rng = Ret g /\ all_52 g /\ 0 <= g_credits g < 2 ^ 64.
Proof.
  intros G O. destruct (jacks_total gen order lines rng G O)
    as (ev & g0 & Hev & E0 & B & El & _ & _ & J).
  assert (Es : rel_game_start gen lines rng = Ret (ev, g0)).
  { revert E0. unfold rel_game_start, game_start. rewrite evaluator_same. intros H; exact H. }
  destruct (loop_same gen order G O ev Hev (S (List.length lines)) g0 B) as [L1 L2].
  assert (Same : forall g, jacks_main gen order lines rng = Ret g -> rel_jacks_main gen order lines rng = Ret g).
  { intros g. unfold jacks_main, rel_jacks_main. rewrite E0, Es. cbn [bind fst snd]. apply L1. }
  split; [exact Same|]. split.
  - intros Hl. destruct J as [(l & g & E & _)|(l & g & w & c & _ & _ & _ & _ & _ & X)]; [|lia].
    rewrite E. apply Same. exact E.
  - unfold rel_jacks_main. rewrite Es. cbn [bind fst snd]. apply L2. rewrite El. lia.
Qed.

(** ** A turn in which the builds differ *)
Lemma filter_both {A} (f : A -> bool) l : Permutation (filter f l ++ filter (fun x => negb (f x)) l) l.
Proof.
  induction l as [|x l IH]; [constructor|]. cbn [filter]. destruct (f x); cbn [negb app].
  - constructor. exact IH.
  - rewrite <- Permutation_middle. constructor. exact IH.
Qed.
Definition in_royal (c : card) : bool := existsb (fun d => Z.eqb (unique_integer c) (unique_integer d)) (royal Hearts).
Definition royal_deck : list card := filter in_royal deck_generate ++ filter (fun c => negb (in_royal c)) deck_generate.
Definition rich : game unit := mk_game [lit "5"; lit ""] [] royal_deck [] (2 ^ 64 - 1) tt.
Definition first_of (_ : unit) (_ : nat) : nat * unit := (0%nat, tt).
Definition as_is (l : list (Z * nat)) : list (Z * nat) := l.

Lemma royal_deck_perm : Permutation royal_deck deck_generate.
Proof. unfold royal_deck. apply filter_both. Qed.
Lemma rich_between : between rich.
Proof.
  unfold between, all_52, rich. cbn [g_hand g_deck g_credits app]. split; [exact royal_deck_perm|].
  split; [reflexivity|]. lia.
Qed.
Lemma rich_hand ev : new_evaluator ev -> evaluates ev (firstn 5 royal_deck) EVAL_BEST.
Proof.
  intros Hev.
  assert (H5 : hand5 (firstn 5 royal_deck)).
  { apply (hand_of_52 _ (skipn 5 royal_deck)); [|reflexivity].
    rewrite firstn_skipn. exact royal_deck_perm. }
  destruct (hand5_evaluates ev _ Hev H5) as [e E].
  assert (e = EVAL_BEST) as <-; [|exact E].
  apply (HandFacts.holds_royal ev _ e Hev (proj1 H5) E). exists Hearts.
  intros c Hc. vm_compute in Hc. vm_compute. tauto.
Qed.
Lemma rich_wager : get_wager (2 ^ 64 - 1) [lit "5"; lit ""] [] = (Some 5, [lit ""], [wager_message (2 ^ 64 - 1)]).
Proof. vm_compute. reflexivity. Qed.
Lemma rich_drain : drain_front 5 royal_deck = Ret (firstn 5 royal_deck, skipn 5 royal_deck).
Proof. unfold drain_front. replace (Nat.leb 5 (List.length royal_deck)) with true; [reflexivity|]. vm_compute. reflexivity. Qed.
Lemma rich_swaps out : get_swaps as_is [lit ""] out = Ret (Some [], [], out ++ [swaps_message]).
Proof. reflexivity. Qed.
Theorem rich_turn ev : new_evaluator ev -> game_turn first_of as_is ev rich = Panic ArithmeticOverflow.
Proof.
  intros Hev. pose proof (rich_hand ev Hev) as E. unfold evaluates in E.
  assert (L : List.length (firstn 5 royal_deck) = 5%nat) by (vm_compute; reflexivity).
  unfold game_turn, rich. cbn [g_lines g_out g_deck g_hand g_credits g_rng]. rewrite rich_wager, rich_drain.
  rewrite chk_u64 by lia. cbn [bind app]. rewrite E. cbn [bind unwrap].
  rewrite (show_hand_text _ _ L). cbn [bind]. rewrite rich_swaps. cbn [bind]. rewrite E. cbn [bind unwrap].
  rewrite (show_hand_text _ _ L). cbn [bind].
  change (payout 5 (eval_class_of EVAL_BEST)) with (Ret 4000). cbn [bind].
  change (0 <? 4000) with true. cbv iota. rewrite (chk_u64 (5 + 4000)) by lia. cbn [bind]. reflexivity.
Qed.
