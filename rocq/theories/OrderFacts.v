(** OrderFacts.v: choosing, sorting and collecting by the orders of the crate (C79). *)
From Coq Require Import Lia List Arith Bool Permutation Sorted ZArith.
From Verif Require Import Base ModelCard ModelEval ModelTable ModelEvaluation ModelOrder.
From Verif Require Import Spec SpecApi SpecOrder.
From Verif Require Import HandFacts.
From Verif Require TextFacts ClassFacts ClassOrderFacts LawFacts WorthFacts CategoryFacts.
From Verif Require Import SpecBest.
Import ListNotations.

(** ** Any order *)
Section Order.
  Context {A : Type} (cmp : A -> A -> comparison).
  Hypothesis O : total_order cmp.

  Lemma o_refl a : cmp a a = Eq.
  Proof. exact (proj1 (O a a a)). Qed.
  Lemma o_opp a b : cmp b a = CompOpp (cmp a b).
  Proof. exact (proj1 (proj2 (O a b a))). Qed.
  Lemma o_trans a b c : cmp a b <> Gt -> cmp b c <> Gt -> cmp a c <> Gt.
  Proof. exact (proj2 (proj2 (O a b c))). Qed.
  Lemma o_gt_lt a b : cmp a b = Gt <-> cmp b a = Lt.
  Proof. rewrite (o_opp a b). destruct (cmp a b); cbn; split; congruence. Qed.
  Lemma o_eq_sym a b : cmp a b = Eq <-> cmp b a = Eq.
  Proof. rewrite (o_opp a b). destruct (cmp a b); cbn; split; congruence. Qed.
  Lemma o_ngt a b : cmp a b <> Gt <-> cmp b a <> Lt.
  Proof. rewrite (o_gt_lt a b). reflexivity. Qed.
  (** the comparison sees only the level of an element *)
  Lemma o_le_lt a b c : cmp a b <> Gt -> cmp b c = Lt -> cmp a c = Lt.
  Proof.
    intros H K. assert (N : cmp a c <> Gt) by (apply (o_trans a b c); congruence).
    destruct (cmp a c) eqn:E; [exfalso|reflexivity|congruence].
    apply o_eq_sym in E. apply o_gt_lt in K. apply (o_trans c a b) in H; [congruence|congruence].
  Qed.
  Lemma o_lt_le a b c : cmp a b = Lt -> cmp b c <> Gt -> cmp a c = Lt.
  Proof.
    intros K H. assert (N : cmp a c <> Gt) by (apply (o_trans a b c); congruence).
    destruct (cmp a c) eqn:E; [exfalso|reflexivity|congruence].
    apply o_eq_sym in E. apply o_gt_lt in K.
    assert (cmp b a <> Gt) by (apply (o_trans b c a); congruence). congruence.
  Qed.
  Lemma o_eq_l a b c : cmp a b = Eq -> cmp a c = cmp b c.
  Proof.
    intros E. destruct (cmp b c) eqn:K.
    - assert (cmp a c <> Gt) by (apply (o_trans a b c); congruence).
      assert (cmp c a <> Gt) by (apply (o_trans c b a); [rewrite (o_opp b c), K|rewrite (o_opp a b), E]; discriminate).
      rewrite (o_opp a c) in *. destruct (cmp a c); cbn in *; congruence.
    - apply (o_le_lt a b c); congruence.
    - apply o_gt_lt. apply o_gt_lt in K. apply (o_lt_le c b a); [exact K|]. rewrite (o_opp a b), E. discriminate.
  Qed.

  Lemma max_of_two m l : last_greatest cmp (m :: l) (fold_left (cmp_max cmp) l m).
  Proof.
    revert m. induction l as [|x l IH]; intros m; cbn [fold_left].
    - exists [], []. repeat split; intros y [].
    - destruct (IH (cmp_max cmp m x)) as (a & b & Q & Ha & Hb). set (g := fold_left _ _ _) in *. unfold cmp_max in Q, Ha, g.
      destruct (cmp m x) eqn:E.
      + exists (m :: a), b. rewrite Q. split; [reflexivity|]. split; [|exact Hb]. intros y [<-|I]; [|exact (Ha y I)].
        apply (o_trans m x g); [congruence|]. destruct a as [|y a]; injection Q as Q0 _; [rewrite Q0, o_refl; discriminate|].
        subst y. apply Ha. left; reflexivity.
      + exists (m :: a), b. rewrite Q. split; [reflexivity|]. split; [|exact Hb]. intros y [<-|I]; [|exact (Ha y I)].
        apply (o_trans m x g); [congruence|]. destruct a as [|y a]; injection Q as Q0 _; [rewrite Q0, o_refl; discriminate|].
        subst y. apply Ha. left; reflexivity.
      + destruct a as [|y a]; injection Q as Q0 Q.
        * exists [], (x :: b). cbn [app]. rewrite Q, Q0. split; [reflexivity|]. split; [intros y []|].
          intros y [<-|I]; [|exact (Hb y I)]. rewrite <- Q0. apply o_gt_lt, E.
        * subst y. exists (m :: x :: a), b. rewrite Q. split; [reflexivity|]. split; [|exact Hb].
          intros y [<-|[<-|I]]; [apply Ha; left; reflexivity| |apply Ha; right; exact I].
          apply (o_trans x m g); [rewrite (o_opp m x), E; discriminate|]. apply Ha. left; reflexivity.
  Qed.
  Lemma min_of_two m l : first_least cmp (m :: l) (fold_left (cmp_min cmp) l m).
  Proof.
    revert m. induction l as [|x l IH]; intros m; cbn [fold_left].
    - exists [], []. repeat split; intros y [].
    - destruct (IH (cmp_min cmp m x)) as (a & b & Q & Ha & Hb). set (g := fold_left _ _ _) in *. unfold cmp_min in Q, Ha, g.
      assert (LE : match cmp m x with Gt => cmp x g <> Lt | _ => cmp m g <> Lt end).
      { destruct (cmp m x); (destruct a as [|y a]; injection Q as Q0 _;
          [rewrite Q0, o_refl; discriminate|subst y; rewrite (Ha _ (or_introl eq_refl)); discriminate]). }
      destruct (cmp m x) eqn:E.
      3: { exists (m :: a), b. rewrite Q. split; [reflexivity|]. split; [|exact Hb]. intros y [<-|I]; [|exact (Ha y I)].
           apply o_gt_lt. apply o_gt_lt in E. apply (o_le_lt g x m); [apply o_ngt; exact LE|exact E]. }
      all: destruct a as [|y a]; injection Q as Q0 Q;
        [exists [], (x :: b); cbn [app]; rewrite Q, Q0; split; [reflexivity|]; split; [intros y []|];
         intros y [<-|I]; [|exact (Hb y I)]; rewrite <- Q0; apply o_ngt; congruence|].
      all: subst y; exists (m :: x :: a), b; rewrite Q; split; [reflexivity|]; split; [|exact Hb];
        intros y [<-|[<-|I]]; [apply Ha; left; reflexivity| |apply Ha; right; exact I];
        apply o_gt_lt; apply (o_lt_le g m x); [apply o_gt_lt, Ha; left; reflexivity|congruence].
  Qed.
  Lemma greatest_unique l m m' : last_greatest cmp l m -> last_greatest cmp l m' -> m = m'.
  Proof.
    intros (a & b & -> & Ha & Hb) (a' & b' & Q & Ha' & Hb').
    revert a' Q Ha'. induction a as [|x a IH]; intros [|y a'] Q Ha'; injection Q as Q0 Q.
    - exact Q0.
    - subst y. assert (I : In m' b) by (rewrite Q; apply in_elt). pose proof (Hb m' I) as K.
      exfalso. apply (Ha' m (or_introl eq_refl)). apply o_gt_lt, K.
    - subst x. assert (I : In m b') by (rewrite <- Q; apply in_elt). pose proof (Hb' m I) as K.
      exfalso. apply (Ha m' (or_introl eq_refl)). apply o_gt_lt, K.
    - apply (IH (fun z Hz => Ha z (or_intror Hz)) a' Q (fun z Hz => Ha' z (or_intror Hz))).
  Qed.
  Lemma least_unique l m m' : first_least cmp l m -> first_least cmp l m' -> m = m'.
  Proof.
    intros (a & b & -> & Ha & Hb) (a' & b' & Q & Ha' & Hb').
    revert a' Q Ha'. induction a as [|x a IH]; intros [|y a'] Q Ha'; injection Q as Q0 Q.
    - exact Q0.
    - subst y. assert (I : In m' b) by (rewrite Q; apply in_elt).
      exfalso. apply (Hb m' I). apply o_gt_lt, (Ha' m (or_introl eq_refl)).
    - subst x. assert (I : In m b') by (rewrite <- Q; apply in_elt).
      exfalso. apply (Hb' m I). apply o_gt_lt, (Ha m' (or_introl eq_refl)).
    - apply (IH (fun z Hz => Ha z (or_intror Hz)) a' Q (fun z Hz => Ha' z (or_intror Hz))).
  Qed.
  Theorem choosing l m :
    (iter_max cmp l = Some m <-> last_greatest cmp l m) /\ (iter_min cmp l = Some m <-> first_least cmp l m)
    /\ (iter_max cmp l = None <-> l = []) /\ (iter_min cmp l = None <-> l = []).
  Proof.
    destruct l as [|x l]; cbn [iter_max iter_min].
    - repeat split; try discriminate; intros (a & b & Q & _); destruct a; discriminate Q.
    - repeat split; try discriminate.
      + intros Q. injection Q as <-. apply max_of_two.
      + intros G. f_equal. exact (greatest_unique _ _ _ (max_of_two x l) G).
      + intros Q. injection Q as <-. apply min_of_two.
      + intros G. f_equal. exact (least_unique _ _ _ (min_of_two x l) G).
  Qed.

  Theorem clamped pcmp x low high : (forall a b, pcmp a b = Some (cmp a b)) ->
    (cmp low high = Gt -> cmp_clamp pcmp x low high = Panic AssertFailed)
    /\ (cmp low high <> Gt -> exists y, cmp_clamp pcmp x low high = Ret y
          /\ cmp low y <> Gt /\ cmp y high <> Gt
          /\ (cmp low x <> Gt -> cmp x high <> Gt -> y = x)
          /\ (cmp x low = Lt -> y = low) /\ (cmp x high = Gt -> y = high)).
  Proof.
    intros P. unfold cmp_clamp. rewrite !P. split.
    - intros ->. reflexivity.
    - intros H. assert (X : op_le (Some (cmp low high)) = true) by (destruct (cmp low high); [reflexivity|reflexivity|congruence]).
      rewrite X. destruct (cmp x low) eqn:L; cbn [op_lt].
      + exists (if op_gt (Some (cmp x high)) then high else x). split; [reflexivity|].
        assert (cmp x high <> Gt) by (rewrite (o_eq_l x low high L); exact H).
        destruct (cmp x high) eqn:K; [| |congruence]; cbn [op_gt].
        all: repeat split; try congruence; rewrite (o_opp x low), L; discriminate.
      + exists low. split; [reflexivity|]. rewrite o_refl. repeat split; try congruence.
        * intros N. apply o_ngt in N. congruence.
        * intros K. apply o_gt_lt in K. exfalso. apply H. apply o_gt_lt. apply (o_lt_le high x low); [exact K|congruence].
      + exists (if op_gt (Some (cmp x high)) then high else x). split; [reflexivity|].
        destruct (cmp x high) eqn:K; cbn [op_gt].
        1,2: repeat split; try congruence; rewrite (o_opp x low), L; discriminate.
        rewrite o_refl. repeat split; try congruence.
  Qed.

  (** ** Sorting *)
  Lemma insert_perm x l : Permutation (x :: l) (sort_insert cmp x l).
  Proof.
    induction l as [|y l IH]; cbn [sort_insert]; [reflexivity|]. destruct (cmp x y); try reflexivity.
    rewrite perm_swap. apply perm_skip, IH.
  Qed.
  Lemma sort_perm l : Permutation l (slice_sort cmp l).
  Proof.
    induction l as [|x l IH]; [reflexivity|]. change (slice_sort cmp (x :: l)) with (sort_insert cmp x (slice_sort cmp l)).
    rewrite <- insert_perm. apply perm_skip, IH.
  Qed.
  Notation asc := (StronglySorted (fun a b => cmp a b <> Gt)).
  Lemma insert_asc x l : asc l -> asc (sort_insert cmp x l).
  Proof.
    induction 1 as [|y l S IH F]; cbn [sort_insert]; [repeat constructor|].
    assert (LE : cmp x y <> Gt -> Forall (fun b => cmp x b <> Gt) (y :: l)).
    { intros H. constructor; [exact H|]. rewrite Forall_forall in *. intros b Hb. apply (o_trans x y b H), F, Hb. }
    destruct (cmp x y) eqn:E; [constructor; [constructor; assumption|apply LE; congruence]..|].
    constructor; [exact IH|]. apply (Permutation_Forall (insert_perm x l)). constructor; [|exact F].
    apply o_gt_lt in E. congruence.
  Qed.
  Lemma sort_asc l : asc (slice_sort cmp l).
  Proof. induction l as [|x l IH]; [constructor|apply insert_asc, IH]. Qed.
  Lemma insert_stable z x l : filter (level cmp z) (sort_insert cmp x l) = filter (level cmp z) (x :: l).
  Proof.
    induction l as [|y l IH]; cbn [sort_insert]; [reflexivity|]. destruct (cmp x y) eqn:E; try reflexivity.
    cbn [filter] in *. rewrite IH. unfold level. destruct (cmp z x) eqn:X, (cmp z y) eqn:Y; try reflexivity.
    assert (cmp z y = Gt) by (rewrite (o_eq_l z x y X); exact E). congruence.
  Qed.
  Lemma sort_stable l : stable cmp l (slice_sort cmp l).
  Proof.
    intros z. induction l as [|x l IH]; [reflexivity|].
    change (slice_sort cmp (x :: l)) with (sort_insert cmp x (slice_sort cmp l)). rewrite insert_stable. cbn [filter].
    rewrite IH. reflexivity.
  Qed.
  Lemma stable_unique l1 l2 : asc l1 -> asc l2 -> (forall z, filter (level cmp z) l1 = filter (level cmp z) l2) -> l1 = l2.
  Proof.
    intros S1. revert l2. induction S1 as [|x l1 S1 IH F1]; intros l2 S2 H.
    - destruct l2 as [|y l2]; [reflexivity|]. specialize (H y). cbn [filter] in H. unfold level in H at 1. rewrite o_refl in H. discriminate H.
    - destruct l2 as [|y l2].
      { specialize (H x). cbn [filter] in H. unfold level in H at 1. rewrite o_refl in H. discriminate H. }
      inversion S2 as [|? ? S2' F2]; subst.
      assert (XY : cmp x y = Eq).
      { assert (Lxy : cmp x y <> Gt).
        { pose proof (H y) as Hy. assert (I : In y (filter (level cmp y) (y :: l2))).
          { apply filter_In. split; [left; reflexivity|]. unfold level. rewrite o_refl. reflexivity. }
          rewrite <- Hy in I. apply filter_In in I. destruct I as ([<-|I] & _); [rewrite o_refl; discriminate|].
          rewrite Forall_forall in F1. apply F1, I. }
        assert (Lyx : cmp y x <> Gt).
        { pose proof (H x) as Hx. assert (I : In x (filter (level cmp x) (x :: l1))).
          { apply filter_In. split; [left; reflexivity|]. unfold level. rewrite o_refl. reflexivity. }
          rewrite Hx in I. apply filter_In in I. destruct I as ([<-|I] & _); [rewrite o_refl; discriminate|].
          rewrite Forall_forall in F2. apply F2, I. }
        rewrite (o_opp x y) in Lyx. destruct (cmp x y); cbn in *; congruence. }
      assert (Q : x = y).
      { specialize (H x). cbn [filter] in H. assert (X1 : level cmp x x = true) by (unfold level; rewrite o_refl; reflexivity).
        assert (X2 : level cmp x y = true) by (unfold level; rewrite XY; reflexivity).
        rewrite X1, X2 in H. injection H as -> _. reflexivity. }
      subst y. f_equal. apply IH; [exact S2'|]. intros z. specialize (H z). cbn [filter] in H.
      destruct (level cmp z x); [injection H as H|]; exact H.
  Qed.
  Theorem sorting l : in_order cmp l (slice_sort cmp l) /\ stable cmp l (slice_sort cmp l)
    /\ forall l', in_order cmp l l' -> stable cmp l l' -> l' = slice_sort cmp l.
  Proof.
    split; [exact (conj (sort_perm l) (sort_asc l))|]. split; [apply sort_stable|].
    intros l' (_ & S') St. apply stable_unique; [exact S'|apply sort_asc|]. intros z. rewrite (St z), (sort_stable l z). reflexivity.
  Qed.
  (** Where elements on one level are equal, there is only one order. *)
  Lemma one_order l l1 l2 : (forall x y, In x l -> In y l -> cmp x y = Eq -> x = y) ->
    in_order cmp l l1 -> in_order cmp l l2 -> l1 = l2.
  Proof.
    intros E (P1 & S1) (P2 & S2). assert (P : Permutation l1 l2) by (rewrite <- P1; exact P2).
    assert (E1 : forall x y, In x l1 -> In y l1 -> cmp x y = Eq -> x = y).
    { intros x y Hx Hy. apply E; eapply Permutation_in; try (symmetry; exact P1); assumption. }
    clear P1 P2 E. revert l2 S2 P. induction S1 as [|x l1 S1 IH F1]; intros l2 S2 P.
    - apply Permutation_nil in P. subst. reflexivity.
    - destruct l2 as [|y l2]; [symmetry in P; apply Permutation_nil in P; discriminate P|].
      inversion S2 as [|? ? S2' F2]; subst.
      assert (Q : x = y).
      { apply E1; [left; reflexivity|apply (Permutation_in _ (Permutation_sym P)); left; reflexivity|].
        assert (Lxy : cmp x y <> Gt).
        { assert (I : In y (x :: l1)) by (apply (Permutation_in _ (Permutation_sym P)); left; reflexivity).
          destruct I as [<-|I]; [rewrite o_refl; discriminate|]. rewrite Forall_forall in F1. apply F1, I. }
        assert (Lyx : cmp y x <> Gt).
        { assert (I : In x (y :: l2)) by (apply (Permutation_in _ P); left; reflexivity).
          destruct I as [<-|I]; [rewrite o_refl; discriminate|]. rewrite Forall_forall in F2. apply F2, I. }
        rewrite (o_opp x y) in Lyx. destruct (cmp x y); cbn in *; congruence. }
      subst y. f_equal. apply IH; [|exact S2'|apply Permutation_cons_inv in P; exact P].
      intros a b Ha Hb. apply E1; right; assumption.
  Qed.

  (** ** Ordered sets *)
  Notation strict := (StronglySorted (fun a b => cmp a b = Lt)).
  Lemma tree_insert_in x l y : In y (tree_insert cmp x l) -> y = x \/ In y l.
  Proof.
    induction l as [|z l IH]; cbn [tree_insert]; [intros [<-|[]]; left; reflexivity|].
    destruct (cmp x z); intros I; [right; exact I|destruct I as [<-|I]; [left; reflexivity|right; exact I]|].
    destruct I as [<-|I]; [right; left; reflexivity|]. destruct (IH I) as [->|K]; [left; reflexivity|right; right; exact K].
  Qed.
  Lemma tree_insert_keeps x l y : In y l -> In y (tree_insert cmp x l).
  Proof.
    induction l as [|z l IH]; cbn [tree_insert]; [intros []|]. destruct (cmp x z); intros I; [exact I|right; exact I|].
    destruct I as [<-|I]; [left; reflexivity|right; apply IH, I].
  Qed.
  Lemma tree_insert_level x l : exists y, In y (tree_insert cmp x l) /\ cmp x y = Eq.
  Proof.
    induction l as [|z l IH]; cbn [tree_insert]; [exists x; split; [left; reflexivity|apply o_refl]|].
    destruct (cmp x z) eqn:E.
    - exists z. split; [left; reflexivity|exact E].
    - exists x. split; [left; reflexivity|apply o_refl].
    - destruct IH as (y & I & K). exists y. split; [right; exact I|exact K].
  Qed.
  Lemma tree_insert_strict x l : strict l -> strict (tree_insert cmp x l).
  Proof.
    induction 1 as [|z l S IH F]; cbn [tree_insert]; [repeat constructor|]. destruct (cmp x z) eqn:E.
    - constructor; assumption.
    - constructor; [constructor; assumption|]. constructor; [exact E|]. rewrite Forall_forall in *. intros y Hy.
      apply (o_lt_le x z y E). rewrite (F y Hy). discriminate.
    - constructor; [exact IH|]. rewrite Forall_forall in *. intros y Hy. destruct (tree_insert_in x l y Hy) as [->|I]; [|exact (F y I)].
      apply o_gt_lt, E.
  Qed.
  Lemma extend_spec l s : strict s -> strict (tree_extend cmp s l) /\ incl (tree_extend cmp s l) (s ++ l)
    /\ incl s (tree_extend cmp s l) /\ forall x, In x l -> exists y, In y (tree_extend cmp s l) /\ cmp x y = Eq.
  Proof.
    revert s. induction l as [|x l IH]; intros s S; cbn [tree_extend fold_left].
    - repeat split; [exact S|rewrite app_nil_r; apply incl_refl|apply incl_refl|intros x []].
    - destruct (IH (tree_insert cmp x s) (tree_insert_strict x s S)) as (S' & I & K & L). fold (tree_extend cmp (tree_insert cmp x s) l).
      split; [exact S'|]. split; [|split].
      + intros y Hy. apply I, in_app_or in Hy. apply in_or_app. destruct Hy as [Hy|Hy]; [|right; right; exact Hy].
        destruct (tree_insert_in x s y Hy) as [->|Q]; [right; left; reflexivity|left; exact Q].
      + intros y Hy. apply K, tree_insert_keeps, Hy.
      + intros y [<-|Hy]; [|apply L, Hy]. destruct (tree_insert_level x s) as (z & Hz & E). exists z. split; [apply K, Hz|exact E].
  Qed.
  Theorem collecting l s : one_of_each cmp s s -> one_of_each cmp (s ++ l) (tree_extend cmp s l) /\ incl s (tree_extend cmp s l).
  Proof.
    intros (S0 & _). destruct (extend_spec l s S0) as (S & I & K & L). split; [|exact K]. split; [exact S|]. split; [exact I|].
    intros x Hx. apply in_app_or in Hx. destruct Hx as [Hx|Hx]; [|exact (L x Hx)]. exists x. split; [exact (K x Hx)|apply o_refl].
  Qed.
  Theorem containing l s x : one_of_each cmp l s -> (tree_contains cmp s x = true <-> exists y, In y l /\ cmp x y = Eq).
  Proof.
    intros (_ & I & L). unfold tree_contains. rewrite existsb_exists. split.
    - intros (y & Hy & E). exists y. split; [apply I, Hy|]. destruct (cmp x y); congruence.
    - intros (y & Hy & E). destruct (L y Hy) as (z & Hz & K). exists z. split; [exact Hz|].
      rewrite (o_eq_l x y z E), K. reflexivity.
  Qed.
End Order.

(** ** The orders of the crate *)
Lemma nat_order {A} (f : A -> nat) cmp : (forall a b, cmp a b = Nat.compare (f a) (f b)) -> total_order cmp.
Proof.
  intros H a b c. rewrite !H. split; [apply Nat.compare_refl|]. split; [apply Nat.compare_antisym|].
  rewrite !Nat.compare_gt_iff. lia.
Qed.
Lemma class_order : total_order class_cmp.
Proof.
  intros a b c. destruct (ClassOrderFacts.class_cmp_spec a b) as (G & E & L).
  destruct (ClassOrderFacts.class_cmp_spec b a) as (G' & E' & L'). split; [|split].
  - destruct (ClassOrderFacts.class_cmp_spec a a) as (_ & X & _). apply X. reflexivity.
  - destruct (class_cmp a b); cbn [CompOpp].
    + apply E'. symmetry. apply E. reflexivity.
    + apply G', L. reflexivity.
    + apply L', G. reflexivity.
  - destruct (ClassOrderFacts.class_cmp_spec b c) as (Gc & Ec & Lc). destruct (ClassOrderFacts.class_cmp_spec a c) as (Ga & Ea & La).
    intros H K X. apply Ga in X. destruct (class_cmp a b); [| |congruence].
    + rewrite (proj1 E eq_refl) in X. apply Gc in X. congruence.
    + pose proof (ClassOrderFacts.outranks_trans b a c (proj1 L eq_refl) X) as Y. apply Gc in Y. congruence.
Qed.
Theorem crate_orders :
  total_order rank_cmp /\ total_order card_cmp /\ total_order class_cmp /\ total_order eval_cmp
  /\ (forall a b, rank_partial_cmp a b = Some (rank_cmp a b)) /\ (forall a b, card_partial_cmp a b = Some (card_cmp a b))
  /\ (forall a b, class_partial_cmp a b = Some (class_cmp a b)) /\ (forall a b, eval_partial_cmp a b = Some (eval_cmp a b)).
Proof.
  split; [exact (nat_order pips _ ClassFacts.rank_cmp_pips)|].
  split; [exact (nat_order (fun c => pips (card_rank c)) _ (fun a b => proj1 (TextFacts.card_order a b a)))|].
  split; [exact class_order|].
  split; [intros a b c; destruct (LawFacts.eval_order a b c) as (X & Y & Z & _); exact (conj X (conj Y Z))|].
  repeat split. intros a b. apply (LawFacts.eval_order a b a).
Qed.

Lemma op_spec c : (op_gt (Some c) = true <-> c = Gt) /\ (op_lt (Some c) = true <-> c = Lt)
  /\ (op_ge (Some c) = true <-> c <> Lt) /\ (op_le (Some c) = true <-> c <> Gt).
Proof. destruct c; cbn; repeat split; congruence. Qed.
Theorem result_operators ev h1 h2 e1 e2 : new_evaluator ev -> all_cards h1 -> all_cards h2 ->
  evaluates ev h1 e1 -> evaluates ev h2 e2 ->
  (op_gt (eval_partial_cmp e1 e2) = true <-> worth_more (best (faces h1)) (best (faces h2)))
  /\ (op_lt (eval_partial_cmp e1 e2) = true <-> worth_more (best (faces h2)) (best (faces h1)))
  /\ (op_ge (eval_partial_cmp e1 e2) = true <-> ~ worth_more (best (faces h2)) (best (faces h1)))
  /\ (op_le (eval_partial_cmp e1 e2) = true <-> ~ worth_more (best (faces h1)) (best (faces h2))).
Proof.
  intros Hev A1 A2 E1 E2. destruct (WorthFacts.worth_compare ev h1 h2 e1 e2 Hev A1 A2 E1 E2) as (G & _ & L).
  destruct (LawFacts.eval_order e1 e2 e1) as (_ & _ & _ & _ & P). rewrite P, <- G, <- L. apply op_spec.
Qed.
Theorem card_operators a b :
  let p := pips (card_rank a) in let q := pips (card_rank b) in
  (op_gt (card_partial_cmp a b) = true <-> q < p) /\ (op_lt (card_partial_cmp a b) = true <-> p < q)
  /\ (op_ge (card_partial_cmp a b) = true <-> q <= p) /\ (op_le (card_partial_cmp a b) = true <-> p <= q).
Proof.
  intros p q. destruct (TextFacts.card_order a b a) as (C & P & _). fold p q in C. rewrite P, C.
  destruct (op_spec (p ?= q)) as (G & L & GE & LE). rewrite G, L, GE, LE, Nat.compare_gt_iff, Nat.compare_lt_iff. lia.
Qed.
Theorem rank_operators a b :
  (op_gt (rank_partial_cmp a b) = true <-> pips b < pips a) /\ (op_lt (rank_partial_cmp a b) = true <-> pips a < pips b)
  /\ (op_ge (rank_partial_cmp a b) = true <-> pips b <= pips a) /\ (op_le (rank_partial_cmp a b) = true <-> pips a <= pips b).
Proof.
  unfold rank_partial_cmp. rewrite ClassFacts.rank_cmp_pips.
  destruct (op_spec (pips a ?= pips b)) as (G & L & GE & LE). rewrite G, L, GE, LE, Nat.compare_gt_iff, Nat.compare_lt_iff. lia.
Qed.
Theorem class_operators a b :
  (op_gt (class_partial_cmp a b) = true <-> outranks a b) /\ (op_lt (class_partial_cmp a b) = true <-> outranks b a)
  /\ (op_ge (class_partial_cmp a b) = true <-> a = b \/ outranks a b) /\ (op_le (class_partial_cmp a b) = true <-> a = b \/ outranks b a).
Proof.
  unfold class_partial_cmp. destruct (ClassOrderFacts.class_cmp_spec a b) as (G & E & L).
  rewrite <- G, <- E, <- L. destruct (op_spec (class_cmp a b)) as (X & Y & Z & T). rewrite X, Y, Z, T.
  destruct (class_cmp a b); intuition congruence.
Qed.

(** ** Sorting hands and results *)
Lemma card_total : total_order card_cmp.
Proof. exact (proj1 (proj2 crate_orders)). Qed.
Lemma eval_total : total_order eval_cmp.
Proof. exact (proj1 (proj2 (proj2 (proj2 crate_orders)))). Qed.

Lemma sorted_weaken {A} (P Q : A -> A -> Prop) l : (forall a b, P a b -> Q a b) -> StronglySorted P l -> StronglySorted Q l.
Proof. intros H. induction 1 as [|x l S IH F]; constructor; [exact IH|]. revert F. apply Forall_impl. intros b. apply H. Qed.
Theorem sorted_hand ev h : new_evaluator ev -> all_cards h ->
  (forall e, evaluates ev h e <-> evaluates ev (slice_sort card_cmp h) e)
  /\ StronglySorted (fun a b => pips (card_rank a) <= pips (card_rank b)) (slice_sort card_cmp h).
Proof.
  intros Hev A. split.
  - exact (proj1 (permutation_ok ev h _ Hev A (sort_perm card_cmp h))).
  - refine (sorted_weaken _ _ _ _ (sort_asc card_cmp card_total h)). intros a b.
    rewrite (proj1 (TextFacts.card_order a b a)), Nat.compare_gt_iff. lia.
Qed.
Definition result_of ev e := exists h, all_cards h /\ evaluates ev h e.
Lemma results_apart ev a b : new_evaluator ev -> result_of ev a -> result_of ev b -> eval_cmp a b = Eq -> a = b.
Proof.
  intros Hev (h & A & E) (g & B & F) C. apply cmp_Eq in C.
  apply (same_value ev h g a b Hev); try assumption; eapply evaluates_legal; eassumption.
Qed.
Theorem sorted_results ev es l : new_evaluator ev -> Forall (result_of ev) es -> in_order eval_cmp es l -> l = slice_sort eval_cmp es.
Proof.
  intros Hev R I. rewrite Forall_forall in R.
  apply (one_order eval_cmp eval_total es); [|exact I|exact (conj (sort_perm _ es) (sort_asc _ eval_total es))].
  intros x y Hx Hy. apply (results_apart ev); auto.
Qed.

(** ** Ordered sets of cards and of results *)
Lemma level_ranks a b : card_cmp a b = Eq <-> card_rank a = card_rank b.
Proof.
  rewrite (proj1 (TextFacts.card_order a b a)), Nat.compare_eq_iff. split; [|intros ->; reflexivity].
  destruct (card_rank a), (card_rank b); cbn; congruence.
Qed.
Lemma strict_ranks s : StronglySorted (fun a b => card_cmp a b = Lt) s -> NoDup (map card_rank s).
Proof.
  induction 1 as [|x s S IH F]; [constructor|]. cbn [map]. constructor; [|exact IH]. intros I. apply in_map_iff in I.
  destruct I as (y & E & Hy). rewrite Forall_forall in F. specialize (F y Hy). symmetry in E. apply level_ranks in E. congruence.
Qed.
Lemma all_ranks_13 (l : list rank) : NoDup l -> length l <= 13.
Proof.
  intros N. change 13 with (length high_to_low). apply (NoDup_incl_length N). intros r _. destruct r; cbn; tauto.
Qed.
Lemma once s r : NoDup (map card_rank s) -> count r (faces s) <= 1.
Proof.
  intros N. unfold count. assert (Q : ranks (faces s) = map card_rank s) by (unfold ranks, faces; rewrite map_map; reflexivity).
  rewrite Q. apply (proj1 (NoDup_count_occ rank_dec _) N).
Qed.
Lemma NoDup_unmap {A B} (f : A -> B) l : NoDup (map f l) -> NoDup l.
Proof. apply NoDup_map_inv. Qed.
Theorem card_set h s : all_cards h -> one_of_each card_cmp h s ->
  NoDup (map card_rank s) /\ length s <= 13 /\ (forall r, In r (map card_rank s) <-> In r (map card_rank h))
  /\ forall c, tree_contains card_cmp s c = true <-> In (card_rank c) (map card_rank h).
Proof.
  intros A H. destruct H as (S & I & L) eqn:Q. clear Q. pose proof (strict_ranks s S) as N. split; [exact N|].
  split; [rewrite <- (map_length card_rank s); apply all_ranks_13, N|]. split.
  - intros r. rewrite !in_map_iff. split; intros (c & E & Hc).
    + exists c. split; [exact E|apply I, Hc].
    + destruct (L c Hc) as (y & Hy & K). apply level_ranks in K. exists y. split; [congruence|exact Hy].
  - intros c. rewrite (containing card_cmp card_total h s c (conj S (conj I L))), in_map_iff. split.
    + intros (y & Hy & K). apply level_ranks in K. exists y. split; [congruence|exact Hy].
    + intros (y & K & Hy). exists y. split; [exact Hy|]. apply level_ranks. congruence.
Qed.
Theorem card_set_evaluated ev h s : new_evaluator ev -> all_cards h -> one_of_each card_cmp h s ->
  (length s < 5 -> evaluate ev s = Ret (Err (InvalidHandSize (length s))))
  /\ (5 <= length s -> exists e, evaluates ev s e /\ In (category (eval_class_of e)) [0; 4; 5; 8]).
Proof.
  intros Hev A H. destruct (card_set h s A H) as (N & _). destruct H as (_ & I & _).
  assert (As : all_cards s) by (unfold all_cards in *; rewrite Forall_forall in *; intros c Hc; apply A, I, Hc).
  destruct (evaluate_total ev s Hev As) as (r & E & _ & Few & Many). split; intros L.
  - rewrite E, (Few (NoDup_unmap _ _ N) L). reflexivity.
  - destruct (Many (NoDup_unmap _ _ N) L) as (e & ->). exists e. split; [exact E|].
    destruct (CategoryFacts.category_holds ev s e Hev As E) as (Hk & _). set (k := category _) in *.
    assert (K : k <= 8) by (unfold k; destruct (eval_class_of e); cbn; lia). clearbody k.
    destruct k as [|[|[|[|[|[|[|[|[|k]]]]]]]]]; try lia; try (cbn; tauto); exfalso; cbn [holds] in Hk.
    + destruct Hk as (r & X). pose proof (once s r N). lia.
    + destruct Hk as (r & _ & _ & X & _). pose proof (once s r N). lia.
    + destruct Hk as (r & X). pose proof (once s r N). lia.
    + destruct Hk as (r & _ & _ & X & _). pose proof (once s r N). lia.
    + destruct Hk as (r & X). pose proof (once s r N). lia.
Qed.
Theorem result_set ev es s : new_evaluator ev -> Forall (result_of ev) es -> one_of_each eval_cmp es s ->
  (forall e, In e s <-> In e es) /\ NoDup s /\ (Z.of_nat (length s) <= 7462)%Z
  /\ forall e, result_of ev e -> (tree_contains eval_cmp s e = true <-> In e es).
Proof.
  intros Hev R H. rewrite Forall_forall in R. pose proof H as (S & I & L). split; [|split; [|split]].
  - intros e. split; [apply I|]. intros Hin. destruct (L e Hin) as (y & Hy & E).
    rewrite (results_apart ev e y Hev (R e Hin) (R y (I y Hy)) E). exact Hy.
  - clear - S. induction S as [|x s S IH F]; constructor; [|exact IH]. intros Hx. rewrite Forall_forall in F.
    specialize (F x Hx). rewrite (o_refl eval_cmp eval_total) in F. discriminate F.
  - assert (N : NoDup s).
    { clear - S. induction S as [|x s S IH F]; constructor; [|exact IH]. intros Hx. rewrite Forall_forall in F.
      specialize (F x Hx). rewrite (o_refl eval_cmp eval_total) in F. discriminate F. }
    destruct (all_values ev Hev) as (l & Len & _ & _ & V).
    assert (C : incl s l).
    { intros e He. apply V. destruct (R e (I e He)) as (h & A & E). exists h. split; [eapply evaluates_legal; eassumption|exact E]. }
    pose proof (NoDup_incl_length N C). lia.
  - intros e He. rewrite (containing eval_cmp eval_total es s e H). split.
    + intros (y & Hy & E). rewrite (results_apart ev e y Hev He (R y Hy) E). exact Hy.
    + intros Hin. exists e. split; [exact Hin|]. apply (o_refl eval_cmp eval_total).
Qed.

(** ** [sort] and [dedup] *)
Lemma dedup_in {A} (eqb : A -> A -> bool) l : (forall x y, In x l -> In y l -> eqb x y = true -> x = y) ->
  forall z, In z (vec_dedup eqb l) <-> In z l.
Proof.
  induction l as [|x l IH]; intros E z; [reflexivity|]. cbn [vec_dedup].
  assert (IH' := IH (fun a b Ha Hb => E a b (or_intror Ha) (or_intror Hb))).
  destruct (vec_dedup eqb l) as [|y r] eqn:Q.
  - cbn [In]. rewrite <- IH'. reflexivity.
  - destruct (eqb x y) eqn:K.
    + assert (x = y) by (apply E; [left; reflexivity|right; apply IH'; left; reflexivity|exact K]). subst y.
      cbn [In]. rewrite <- IH'. cbn [In]. tauto.
    + cbn [In]. rewrite <- IH'. cbn [In]. tauto.
Qed.
Lemma dedup_results ev es : new_evaluator ev -> Forall (result_of ev) es ->
  let l := vec_dedup eval_eqb (slice_sort eval_cmp es) in NoDup l /\ forall e, In e l <-> In e es.
Proof.
  intros Hev R l. rewrite Forall_forall in R.
  pose proof (sort_perm eval_cmp es) as P. pose proof (sort_asc eval_cmp eval_total es) as S.
  assert (E : forall x y, In x (slice_sort eval_cmp es) -> In y (slice_sort eval_cmp es) -> eval_cmp x y = Eq -> x = y).
  { intros x y Hx Hy. apply (results_apart ev); [exact Hev|apply R..]; eapply Permutation_in; try (symmetry; exact P); assumption. }
  assert (EB : forall x y, eval_eqb x y = true <-> eval_cmp x y = Eq) by (intros x y; symmetry; apply (LawFacts.eval_order x y x)).
  assert (E' : forall x y, In x (slice_sort eval_cmp es) -> In y (slice_sort eval_cmp es) -> eval_eqb x y = true -> x = y).
  { intros x y Hx Hy K. apply EB in K. exact (E x y Hx Hy K). }
  split.
  - unfold l. clear l P R. set (s := slice_sort eval_cmp es) in *. clearbody s. clear Hev.
    induction S as [|x s S IH F]; [constructor|]. cbn [vec_dedup].
    assert (Es : forall a b, In a s -> In b s -> eval_cmp a b = Eq -> a = b) by (intros a b Ha Hb; apply E; right; assumption).
    assert (Es' : forall a b, In a s -> In b s -> eval_eqb a b = true -> a = b) by (intros a b Ha Hb; apply E'; right; assumption).
    specialize (IH Es Es'). pose proof (dedup_in eval_eqb s Es') as D.
    assert (HD : forall y r, vec_dedup eval_eqb s = y :: r -> forall z, In z s -> eval_cmp y z <> Gt).
    { clear - S D. intros y r Q z Hz. destruct s as [|a s]; [destruct Hz|]. assert (y = a).
      { cbn [vec_dedup] in Q. destruct (vec_dedup eval_eqb s); [congruence|]. destruct (eval_eqb a e); congruence. }
      subst y. inversion S; subst. destruct Hz as [<-|Hz]; [rewrite (o_refl eval_cmp eval_total); discriminate|].
      rewrite Forall_forall in H2. apply H2, Hz. }
    destruct (vec_dedup eval_eqb s) as [|y r]; [repeat constructor; intros []|].
    destruct (eval_eqb x y) eqn:K.
    + assert (x = y) by (apply E'; [left; reflexivity|right; apply D; left; reflexivity|exact K]). subst y. exact IH.
    + constructor; [|exact IH]. intros Hx. assert (Hs : In x s) by (apply D, Hx).
      assert (Hy : In y s) by (apply D; left; reflexivity). rewrite Forall_forall in F.
      pose proof (F y Hy) as A1. pose proof (HD y r eq_refl x Hs) as A2. rewrite (o_opp eval_cmp eval_total x y) in A2.
      assert (C : eval_cmp x y = Eq) by (destruct (eval_cmp x y); cbn in *; congruence). apply EB in C. congruence.
  - intros e. unfold l. rewrite (dedup_in eval_eqb _ E' e). split; apply Permutation_in; [symmetry|]; exact P.
Qed.
Lemma dedup_cards : exists h, all_cards h /\ ~ NoDup (vec_dedup card_eqb (slice_sort card_cmp h)).
Proof.
  exists [card_new Ace Hearts; card_new Ace Spades; card_new Ace Hearts]. split.
  - repeat constructor; eexists; eexists; reflexivity.
  - intros N. vm_compute in N. inversion N as [|? ? X _]. apply X. right. left. reflexivity.
Qed.
