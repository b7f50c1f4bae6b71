(** ValuesComplete.v: the lists of ValuesFacts.v are complete, and what follows for [evaluate] (C62). *)
From Coq Require Import Lia List Arith Bool Permutation Sorted ZArith.
From Verif Require Import Base BaseFacts ModelCard ModelEval ModelTable ModelEvaluation.
From Verif Require Import Spec SpecApi CardFacts Sweep SweepFacts SpecFacts EvalFacts FiveFacts
  CombosFacts EvaluateFacts HandFacts ClassFacts SizeFacts CategoryFacts SpecBest BestFacts WorthFacts ValuesFacts.
Import ListNotations.
Local Open Scope nat_scope.

Lemma length_held H : NoDup H ->
  length H = length (held 1 H) + length (held 2 H) + length (held 3 H) + length (held 4 H).
Proof.
  intros N. rewrite <- sum_counts. pose proof (fun r => count_le4 r H N) as C4. unfold held.
  induction high_to_low as [|r l IH]; [reflexivity|]. cbn [map filter].
  change (list_sum (count r H :: map (fun r => count r H) l)) with (count r H + list_sum (map (fun r => count r H) l)).
  rewrite IH. specialize (C4 r). destruct (count r H) as [|[|[|[|[|n]]]]]; cbn [Nat.leb length]; lia.
Qed.
Lemma held_split rs H : NoDup rs -> (forall r, In r rs -> 1 <= count r H) ->
  length (held 1 H) = length rs + length (without rs (held 1 H)).
Proof.
  intros N I. rewrite <- app_length. apply Permutation_length, NoDup_Permutation.
  - apply desc_NoDup, desc_held.
  - apply NoDup_app_disj; [exact N|apply desc_NoDup, desc_without, desc_held|]. intros r A B. apply without_in in B. tauto.
  - intros r. rewrite in_app_iff, without_in, held_in. split.
    + intros L. destruct (in_dec rank_dec r rs); tauto.
    + intros [Hr|[L _]]; [apply I, Hr|exact L].
Qed.
Lemma one_NoDup (r : rank) : NoDup [r].
Proof. repeat constructor. intros []. Qed.
Lemma desc_skipn k l : desc l -> desc (skipn k l).
Proof. intros D. rewrite <- (firstn_skipn k l) in D. exact (proj1 (proj2 (desc_split _ _ D))). Qed.
Lemma length_some {A} n (l : list A) : length l = S n -> l <> [].
Proof. intros E ->. discriminate E. Qed.

(** The value of a hand with kickers: [n] of the other ranks count, [m] do not. *)
Lemma kickers m n H rs : filter (has_run H) tops = [] -> (forall r, In r rs -> 1 <= count r H) ->
  length (without rs (held 1 H)) = S n + m ->
  In (firstn (S n) (without rs (held 1 H)))
     (filter (fun l => some (spare m (below (last l Two) (apart rs)) (rs ++ l))) (combs (S n) (apart rs))).
Proof.
  intros NR U L. set (K := without rs (held 1 H)) in *.
  assert (IK : forall r, In r K -> 1 <= count r H /\ ~ In r rs).
  { intros r Hr. apply without_in in Hr. rewrite held_in in Hr. exact Hr. }
  assert (DK : desc K) by apply desc_without, desc_held.
  assert (L1 : length (firstn (S n) K) = S n) by (apply firstn_le; lia).
  apply filter_In. split.
  - pose proof (desc_combs (firstn (S n) K) (apart rs) (desc_firstn _ _ DK) (desc_apart rs)) as Q.
    rewrite L1 in Q. apply Q. intros r Hr. apply apart_in. apply firstn_in, IK in Hr. tauto.
  - apply (spare_held m rs H rs _ (skipn (S n) K)); [exact NR|exact U| | |exact (length_some n _ L1)| |].
    + intros r Hr. rewrite firstn_skipn in Hr. apply IK, Hr.
    + rewrite firstn_skipn. exact DK.
    + rewrite skipn_length. lia.
    + intros r Hr. apply IK. rewrite <- (firstn_skipn (S n) K). apply in_or_app. right. exact Hr.
Qed.

Theorem best_value m H : NoDup H -> length H = 5 + m -> In (best H) (values m).
Proof.
  intros N L. destruct (best_attained H N ltac:(lia)) as ((F & F5 & I & C & _) & _).
  destruct (rule_covers F H _ F5 N I C) as (x & Ex & _).
  destruct (first_rule_spec H [8; 7; 6; 5; 4; 3; 2; 1; 0] 9 eq_refl (le_n 9)) as (k & Lk & R & M).
  { exists (category (fst (best H))), x. split; [destruct (fst (best H)); cbn; lia|exact Ex]. }
  fold (best H) in R. generalize dependent (best H). intros v _ _ R. clear F F5 I x.
  apply (in_values m k); [lia|]. pose proof (length_held H N) as LH.
  pose proof (fun r => count_le4 r H N) as C4.
  destruct k as [|[|[|[|[|[|[|[|[|k]]]]]]]]]; try lia; cbn [vals].
  - pose proof (M 1 ltac:(lia) ltac:(lia)) as M1. pose proof (M 4 ltac:(lia) ltac:(lia)) as M4.
    pose proof (M 3 ltac:(lia) ltac:(lia)) as M3. pose proof (M 7 ltac:(lia) ltac:(lia)) as M7.
    cbn [rule] in R, M1, M3, M4, M7.
    destruct (filter (has_run H) tops) eqn:NR; [|discriminate M4].
    destruct (held 2 H) eqn:H2; [|discriminate M1]. destruct (held 3 H); [|discriminate M3].
    destruct (held 4 H); [|discriminate M7]. cbn [length] in LH.
    pose proof (kickers m 4 H [] NR (fun r J => match J with end)) as Q. rewrite without_none in Q. specialize (Q ltac:(lia)).
    destruct (firstn 5 (held 1 H)) as [|t l]; [discriminate R|]. injection R as <-.
    apply in_map_iff. exists (t :: l). split; [reflexivity|]. exact Q.
  - pose proof (M 2 ltac:(lia) ltac:(lia)) as M2. pose proof (M 4 ltac:(lia) ltac:(lia)) as M4.
    pose proof (M 3 ltac:(lia) ltac:(lia)) as M3. pose proof (M 7 ltac:(lia) ltac:(lia)) as M7.
    cbn [rule] in R, M2, M3, M4, M7.
    destruct (filter (has_run H) tops) eqn:NR; [|discriminate M4].
    destruct (held 2 H) as [|p [|q l]] eqn:H2; [discriminate R| |discriminate M2]. destruct (held 3 H); [|discriminate M3].
    destruct (held 4 H); [|discriminate M7]. cbn [length] in LH. injection R as <-.
    assert (U : forall r, In r [p] -> 1 <= count r H) by (intros r [<-|[]]; pose proof (head_held _ _ _ _ H2); lia).
    pose proof (held_split [p] H (one_NoDup p) U) as LS. cbn [length] in LS.
    pose proof (kickers m 2 H [p] NR U ltac:(lia)) as Q.
    apply in_flat_map. exists p. split; [apply in_high_to_low|]. apply in_map_iff. eexists. split; [reflexivity|exact Q].
  - pose proof (M 4 ltac:(lia) ltac:(lia)) as M4.
    pose proof (M 3 ltac:(lia) ltac:(lia)) as M3. pose proof (M 7 ltac:(lia) ltac:(lia)) as M7.
    cbn [rule] in R, M3, M4, M7.
    destruct (filter (has_run H) tops) eqn:NR; [|discriminate M4].
    destruct (held 2 H) as [|p [|q l]] eqn:H2; [discriminate R|discriminate R|]. destruct (held 3 H); [|discriminate M3].
    destruct (held 4 H); [|discriminate M7]. cbn [length] in LH. injection R as <-.
    pose proof (desc_held 2 H) as D2. rewrite H2 in D2.
    destruct (desc_split [p; q] l D2) as (Dpq & Dl & Ll).
    assert (U : forall r, In r [p; q] -> 1 <= count r H).
    { intros r J. assert (In r (held 2 H)) as Z by (rewrite H2; destruct J as [<-|[<-|[]]]; cbn; tauto). apply held_in in Z. lia. }
    pose proof (held_split [p; q] H (desc_NoDup _ Dpq) U) as LS. cbn [length] in LS.
    assert (IR : forall r, In r (without [p; q] (held 1 H)) -> 1 <= count r H /\ ~ In r [p; q]).
    { intros r Hr. apply without_in in Hr. rewrite held_in in Hr. exact Hr. }
    pose proof (desc_without [p; q] _ (desc_held 1 H)) as DR.
    assert (Jl : incl l (without [p; q] (held 1 H))).
    { intros r Hr. apply without_in. rewrite held_in. split.
      - assert (In r (held 2 H)) as Z by (rewrite H2; right; right; exact Hr). apply held_in in Z. lia.
      - intros J. pose proof (Ll r r J Hr). lia. }
    destruct (without [p; q] (held 1 H)) as [|k X] eqn:W.
    { pose proof (NoDup_incl_length (desc_NoDup _ Dl) Jl) as Z. cbn [length] in *. lia. }
    cbn [length firstn] in *.
    apply in_flat_map. exists [p; q]. split.
    { apply (desc_combs [p; q]); [exact Dpq|exact desc_high|intros r _; apply in_high_to_low]. }
    cbn [hd last]. apply in_map_iff. exists k. split; [reflexivity|]. apply filter_In. split; [apply apart_in, IR; left; reflexivity|].
    apply (find_some _ _ (length l, X)).
    + inversion DR as [|? ? DX FX]; subst. rewrite Forall_forall in FX. apply in_flat_map. exists (length l).
      assert (length X = m - length l) as <- by lia. split; [|apply in_map, desc_combs].
      * apply in_seq. destruct (le_lt_dec (length l) m) as [Q|Q]; [lia|].
        pose proof (NoDup_incl_length (desc_NoDup _ Dl) Jl) as Z. cbn [length] in Z. lia.
      * exact DX.
      * apply desc_below, desc_apart.
      * intros r Hr. apply below_in. split; [apply apart_in, IR; right; exact Hr|apply FX, Hr].
    + cbn [fst snd]. apply andb_true_iff. split.
      * apply Nat.leb_le. apply NoDup_incl_length; [apply desc_NoDup, Dl|]. intros r Hr. apply below_in.
        split; [apply Jl, Hr|]. apply Ll; [cbn; tauto|exact Hr].
      * apply (no_run_held H); [exact NR|]. intros r [<-|[<-|Hr]]; [apply U; cbn; tauto|apply U; cbn; tauto|apply IR, Hr].
  - pose proof (M 6 ltac:(lia) ltac:(lia)) as M6. pose proof (M 4 ltac:(lia) ltac:(lia)) as M4.
    pose proof (M 7 ltac:(lia) ltac:(lia)) as M7.
    cbn [rule] in R, M6, M4, M7.
    destruct (filter (has_run H) tops) eqn:NR; [|discriminate M4].
    destruct (held 4 H); [|discriminate M7].
    destruct (held 3 H) as [|t l] eqn:H3; [discriminate R|].
    destruct (without [t] (held 2 H)) as [|p l'] eqn:W2; [|discriminate M6]. injection R as <-.
    assert (T3 : 3 <= count t H) by exact (head_held _ _ _ _ H3).
    assert (E2 : held 2 H = [t]).
    { apply filter_is; [repeat constructor|]. intros r. rewrite Nat.leb_le. split; [intros [<-|[]]; lia|]. intros Z.
      destruct (rank_dec r t) as [->|D]; [left; reflexivity|]. exfalso.
      pose proof (without_nil [t] 2 H r W2 ltac:(intros [J|[]]; congruence)). lia. }
    assert (E3 : held 3 H = [t]).
    { apply filter_is; [repeat constructor|]. intros r. rewrite Nat.leb_le. split; [intros [<-|[]]; lia|]. intros Z.
      destruct (rank_dec r t) as [->|D]; [left; reflexivity|]. exfalso.
      pose proof (without_nil [t] 2 H r W2 ltac:(intros [J|[]]; congruence)). lia. }
    rewrite H3 in E3. rewrite E2, E3 in LH. cbn [length] in LH.
    assert (U : forall r, In r [t] -> 1 <= count r H) by (intros r [<-|[]]; lia).
    pose proof (held_split [t] H (one_NoDup t) U) as LS. cbn [length] in LS.
    pose proof (kickers m 1 H [t] NR U ltac:(lia)) as Q.
    apply in_flat_map. exists t. split; [apply in_high_to_low|]. apply in_map_iff. eexists. split; [reflexivity|exact Q].
  - cbn [rule] in R. destruct (filter (has_run H) tops) as [|t l] eqn:E; [discriminate R|]. injection R as <-.
    destruct (filter_head _ _ _ _ desc_tops E) as (_ & It & _). apply (in_map (fun t => (Straight t, [t])) tops t It).
  - pose proof (M 8 ltac:(lia) ltac:(lia)) as M8. cbn [rule] in R, M8.
    match type of M8 with context [filter ?f tops] => destruct (filter f tops) eqn:N8 end; [|discriminate M8].
    destruct (highest_in (map (flush_in H) four_suits)) as [E|J].
    { rewrite E in R. discriminate R. }
    destruct (fold_right higher [] (map (flush_in H) four_suits)) as [|t l]; [discriminate R|]. injection R as <-.
    apply in_map_iff in J. destruct J as (s & E & Is). unfold flush_in in E.
    destruct (5 <=? length (only s H)) eqn:Q; [|discriminate E]. apply Nat.leb_le in Q.
    pose proof (flush_length s H N Q) as L5. rewrite E in L5.
    assert (D : desc (t :: l)) by (rewrite <- E; apply desc_firstn, desc_held).
    apply in_map_iff. exists (t :: l). split; [reflexivity|]. apply filter_In. split.
    + rewrite <- L5. apply desc_combs; [exact D|exact desc_high|intros r _; apply in_high_to_low].
    + apply (no_run_held (only s H)).
      * destruct (filter (has_run (only s H)) tops) as [|u z] eqn:Z; [reflexivity|]. exfalso.
        destruct (filter_head _ _ _ _ desc_tops Z) as (Hu & Iu & _).
        match type of N8 with filter ?f tops = _ => assert (In u (filter f tops)) as B end.
        { apply filter_In. split; [exact Iu|]. apply existsb_exists. exists s. split; [exact Is|exact Hu]. }
        rewrite N8 in B. destruct B.
      * intros r Hr. rewrite <- E in Hr. apply firstn_in, held_in in Hr. exact Hr.
  - cbn [rule] in R. destruct (held 3 H) as [|t l] eqn:H3; [discriminate R|].
    destruct (without [t] (held 2 H)) as [|p l'] eqn:W2; [discriminate R|]. injection R as <-.
    assert (J : In p (without [t] (held 2 H))) by (rewrite W2; left; reflexivity). apply without_in in J.
    apply in_flat_map. exists t. split; [apply in_high_to_low|]. apply in_map_iff. exists p. split; [reflexivity|apply apart_in; tauto].
  - cbn [rule] in R. destruct (held 4 H) as [|q l] eqn:H4; [discriminate R|]. injection R as <-.
    pose proof (WorthFacts.others H [q] 4 4 (one_NoDup q) (fun r _ => C4 r) (fun r _ => C4 r)) as LK. cbn [length] in LK.
    destruct (without [q] (held 1 H)) as [|k X] eqn:W; [cbn [length] in LK; lia|].
    assert (J : In k (without [q] (held 1 H))) by (rewrite W; left; reflexivity). apply without_in in J.
    apply in_flat_map. exists q. split; [apply in_high_to_low|]. apply in_map_iff. exists k. split; [reflexivity|apply apart_in; tauto].
  - cbn [rule] in R. match type of R with context [filter ?f tops] => destruct (filter f tops) as [|t l] eqn:E end; [discriminate R|].
    injection R as <-. destruct (filter_head _ _ _ _ desc_tops E) as (_ & It & _).
    apply (in_map (fun t => (StraightFlush t, [t])) tops t It).
Qed.

(** ** What [evaluate] can return for hands of one size *)
Lemma Forall2_left {A B} (P : A -> B -> Prop) l m x : Forall2 P l m -> In x l -> exists y, In y m /\ P x y.
Proof.
  induction 1 as [|a b l m Pab F IH]; intros I; [destruct I|]. destruct I as [<-|I]; [exists b; split; [left; reflexivity|exact Pab]|].
  destruct (IH I) as (y & Iy & Py). exists y. split; [right; exact Iy|exact Py].
Qed.
Lemma Forall2_right {A B} (P : A -> B -> Prop) l m y : Forall2 P l m -> In y m -> exists x, In x l /\ P x y.
Proof.
  induction 1 as [|a b l m Pab F IH]; intros I; [destruct I|]. destruct I as [<-|I]; [exists a; split; [left; reflexivity|exact Pab]|].
  destruct (IH I) as (x & Ix & Px). exists x. split; [right; exact Ix|exact Px].
Qed.
Lemma Forall2_same {A B} (P : A -> B -> Prop) l m : Forall2 P l m -> length l = length m.
Proof. induction 1; [reflexivity|]. cbn [length]. f_equal. assumption. Qed.
Lemma hand_ok_spec m v : hand_ok m v = true ->
  NoDup (hand_for m v) /\ length (hand_for m v) = 5 + m /\ best (hand_for m v) = v.
Proof.
  unfold hand_ok. rewrite !andb_true_iff, Nat.eqb_eq. intros ((A & B) & C).
  split; [apply nodupb_NoDup, A|]. split; [exact B|]. destruct (value_dec (best (hand_for m v)) v) as [E|E]; [exact E|discriminate C].
Qed.
Theorem values_of_size m n : values_ok m n = true -> forall ev, new_evaluator ev ->
  exists l, Z.of_nat (length l) = n /\ descending l
    /\ forall e, In e l <-> exists h, legal h /\ length h = 5 + m /\ evaluates ev h e.
Proof.
  unfold values_ok. cbv zeta. rewrite !andb_true_iff, Z.eqb_eq. intros ((FA & HO) & LV) ev Hev.
  rewrite forallb_forall in HO. apply falling_sorted in FA.
  assert (LG : forall v, In v (values m) -> legal (map card_at (hand_for m v)) /\ length (map card_at (hand_for m v)) = 5 + m).
  { intros v Iv. destruct (hand_ok_spec m v (HO v Iv)) as (N & L & _). rewrite map_length. split; [|exact L].
    split; [apply card_at_all|]. split; [apply card_at_NoDup, N|]. rewrite map_length. lia. }
  assert (FE : exists es, Forall2 (fun v e => evaluates ev (map card_at (hand_for m v)) e) (values m) es).
  { revert LG. generalize (values m). induction l as [|v l IH]; intros LG; [exists []; constructor|].
    destruct IH as [es F]; [intros x Hx; apply LG; right; exact Hx|].
    destruct (evaluate_spec ev _ Hev (proj1 (LG v (or_introl eq_refl)))) as (e & E & _). exists (e :: es). constructor; assumption. }
  destruct FE as [es F]. exists es. split; [rewrite <- (Forall2_same _ _ _ F); exact LV|]. split.
  - clear LV. revert es F. induction FA as [|v V S IH FV]; intros es F; inversion F as [|? e ? es' Ev F']; subst; [exact Logic.I|].
    cbn [descending]. split; [|apply IH; [| |exact F']].
    + intros e' I'. destruct (Forall2_right _ _ _ _ F' I') as (w & Iw & Ew). rewrite Forall_forall in FV.
      apply (proj1 (worth_compare ev _ _ e e' Hev (proj1 (proj1 (LG v (or_introl eq_refl)))) (proj1 (proj1 (LG w (or_intror Iw)))) Ev Ew)).
      rewrite !faces_card_at. destruct (hand_ok_spec m v (HO v (or_introl eq_refl))) as (_ & _ & ->).
      destruct (hand_ok_spec m w (HO w (or_intror Iw))) as (_ & _ & ->). apply FV, Iw.
    + intros x Hx. apply HO. right. exact Hx.
    + intros x Hx. apply LG. right. exact Hx.
  - intros e. split.
    + intros Ie. destruct (Forall2_right _ _ _ _ F Ie) as (v & Iv & Ev). exists (map card_at (hand_for m v)).
      destruct (LG v Iv) as (A & B). tauto.
    + intros (h & Lh & L & E). destruct Lh as (A & N & L5).
      assert (Iv : In (best (faces h)) (values m)).
      { apply best_value; [exact (SizeFacts.NH ev h e A E)|]. unfold faces. rewrite map_length. exact L. }
      destruct (Forall2_left _ _ _ _ F Iv) as (e' & Ie & Ev).
      enough (e = e') as -> by exact Ie.
      apply (same_value ev _ _ e e' Hev (conj A (conj N L5)) (proj1 (LG _ Iv)) E Ev).
      apply cmp_Eq. apply (worth_compare ev _ _ e e' Hev A (proj1 (proj1 (LG _ Iv))) E Ev).
      rewrite faces_card_at. destruct (hand_ok_spec m _ (HO _ Iv)) as (_ & _ & ->). reflexivity.
Qed.
Theorem six_values ev : new_evaluator ev -> exists l, Z.of_nat (length l) = 6075%Z /\ descending l
    /\ forall e, In e l <-> exists h, legal h /\ length h = 6 /\ evaluates ev h e.
Proof. exact (values_of_size 1 6075 six_ok ev). Qed.
Theorem seven_values ev : new_evaluator ev -> exists l, Z.of_nat (length l) = 4824%Z /\ descending l
    /\ forall e, In e l <-> exists h, legal h /\ length h = 7 /\ evaluates ev h e.
Proof. exact (values_of_size 2 4824 seven_ok ev). Qed.
