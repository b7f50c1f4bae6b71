(** BestFacts.v: [evaluate] gives every hand the worth that can be read off it (SpecBest.v). *)
From Coq Require Import Lia List Arith Bool Permutation Sorted.
From Verif Require Import Base BaseFacts ModelCard ModelEval ModelTable ModelEvaluation.
From Verif Require Import Spec SpecApi CardFacts Sweep SweepFacts SpecFacts EvalFacts FiveFacts
  CombosFacts EvaluateFacts HandFacts ClassFacts SizeFacts CategoryFacts SpecBest.
Import ListNotations.
Local Open Scope nat_scope.

(** ** Descending lists of ranks *)
Definition desc : list rank -> Prop := StronglySorted (fun a b => pips b < pips a).
Lemma desc_high : desc high_to_low.
Proof. repeat constructor. Qed.
Lemma desc_tops : desc tops.
Proof. repeat constructor. Qed.
Lemma desc_filter f l : desc l -> desc (filter f l).
Proof.
  induction 1 as [|x l S IH F]; cbn [filter]; [constructor|]. destruct (f x); [|exact IH].
  constructor; [exact IH|]. apply Forall_forall. intros y I. apply filter_In in I.
  rewrite Forall_forall in F. apply F, I.
Qed.
Lemma desc_firstn k l : desc l -> desc (firstn k l).
Proof.
  intros S. revert k. induction S as [|x l S IH F]; intros [|k]; cbn [firstn]; try constructor; [apply IH|].
  apply Forall_forall. intros y I. apply firstn_in in I. rewrite Forall_forall in F. apply F, I.
Qed.
Lemma desc_NoDup l : desc l -> NoDup l.
Proof.
  induction 1 as [|x l S IH F]; constructor; [|exact IH]. intros I. rewrite Forall_forall in F.
  specialize (F x I). lia.
Qed.
Lemma desc_eq a b : desc a -> desc b -> (forall r, In r a <-> In r b) -> a = b.
Proof.
  intros Sa. revert b. induction Sa as [|x a Sa IH Fa]; intros b Sb I.
  - destruct b as [|y b]; [reflexivity|]. destruct (proj2 (I y) (or_introl eq_refl)).
  - destruct Sb as [|y b Sb Fb]; [destruct (proj1 (I x) (or_introl eq_refl))|].
    rewrite Forall_forall in Fa, Fb.
    assert (x = y) as ->.
    { destruct (proj1 (I x) (or_introl eq_refl)) as [E|Ix]; [congruence|].
      destruct (proj2 (I y) (or_introl eq_refl)) as [E|Iy]; [congruence|].
      specialize (Fa y Iy). specialize (Fb x Ix). lia. }
    f_equal. apply IH; [exact Sb|]. intros r. specialize (I r). cbn [In] in I. split; intros J.
    + destruct (proj1 I (or_intror J)) as [<-|K]; [|exact K]. specialize (Fa y J). lia.
    + destruct (proj2 I (or_intror J)) as [<-|K]; [|exact K]. specialize (Fb y J). lia.
Qed.
Lemma filter_is f l : desc l -> (forall r, In r l <-> f r = true) -> filter f high_to_low = l.
Proof.
  intros S I. apply desc_eq; [apply desc_filter, desc_high|exact S|].
  intros r. rewrite filter_In, I. pose proof (in_high_to_low r). tauto.
Qed.
Lemma filter_none f : (forall r, f r = false) -> filter f high_to_low = [].
Proof.
  intros N. apply filter_is; [constructor|]. intros r. rewrite N. split; [intros []|discriminate].
Qed.
Lemma filter_head f l x m : desc l -> filter f l = x :: m ->
  f x = true /\ In x l /\ forall y, In y l -> f y = true -> pips y <= pips x.
Proof.
  intros S E. pose proof (desc_filter f l S) as D. rewrite E in D. inversion D as [|? ? _ F]; subst.
  rewrite Forall_forall in F.
  assert (I : In x (filter f l)) by (rewrite E; left; reflexivity). apply filter_In in I.
  split; [tauto|]. split; [tauto|]. intros y Iy Fy.
  assert (J : In y (filter f l)) by (apply filter_In; tauto). rewrite E in J.
  destruct J as [<-|J]; [lia|]. specialize (F y J). lia.
Qed.
Lemma filter_filter {A} (f g : A -> bool) l : filter f (filter g l) = filter (fun x => g x && f x) l.
Proof.
  induction l as [|x l IH]; [reflexivity|]. cbn [filter]. destruct (g x); cbn [filter andb]; [|exact IH].
  destruct (f x); rewrite IH; reflexivity.
Qed.

(** ** Comparing lists *)
Definition lex_ge (a b : list rank) : Prop := a = b \/ lex_gt a b.
Lemma lex_gt_trans a b c : lex_gt a b -> lex_gt b c -> lex_gt a c.
Proof.
  revert b c. induction a as [|x a IH]; intros [|y b] [|z c]; cbn [lex_gt]; try tauto.
  intros [L|[-> L]] [M|[-> M]]; [left; lia|left; lia|left; lia|]. right. split; [reflexivity|].
  exact (IH b c L M).
Qed.
Lemma lex_ge_trans a b c : lex_ge a b -> lex_ge b c -> lex_ge a c.
Proof.
  intros [->|L] [->|M]; [left; reflexivity|right; exact M|right; exact L|right].
  exact (lex_gt_trans a b c L M).
Qed.
Lemma lex_gt_app a b x y : lex_gt a b -> lex_gt (a ++ x) (b ++ y).
Proof.
  revert b. induction a as [|r a IH]; intros [|q b]; cbn [lex_gt app]; try tauto.
  intros [L|[-> L]]; [left; exact L|right; split; [reflexivity|apply IH, L]].
Qed.
Lemma lex_ge_app a b x y : lex_ge a b -> (a = b -> lex_ge x y) -> lex_ge (a ++ x) (b ++ y).
Proof.
  intros [->|L] Q; [|right; apply lex_gt_app, L].
  destruct (Q eq_refl) as [->|M]; [left; reflexivity|right].
  clear Q. induction b as [|r b IH]; [exact M|]. cbn [app lex_gt]. right. split; [reflexivity|exact IH].
Qed.
Lemma lex_ge_one a b : pips b <= pips a -> lex_ge [a] [b].
Proof.
  intros L. destruct (Nat.eq_dec (pips a) (pips b)) as [E|E].
  - left. f_equal. apply pips_inj, E.
  - right. cbn [lex_gt]. left. lia.
Qed.
Lemma lex_ge_cons a b x y : pips b <= pips a -> (a = b -> lex_ge x y) -> lex_ge (a :: x) (b :: y).
Proof.
  intros L Q. change (a :: x) with ([a] ++ x). change (b :: y) with ([b] ++ y).
  apply lex_ge_app; [apply lex_ge_one, L|]. intros E. apply Q. congruence.
Qed.
Lemma lex_ge_antisym a b : lex_ge a b -> lex_ge b a -> a = b.
Proof.
  intros [E|L] [E'|M]; try congruence. exfalso. exact (lex_gt_irrefl a (lex_gt_trans _ _ _ L M)).
Qed.

(** The [k] highest ranks that pass [g] are at least any [k] that pass. *)
Lemma firstn_lex f g l k : desc l -> (forall r, f r = true -> g r = true) -> length (filter f l) = k ->
  length (firstn k (filter g l)) = k /\ lex_ge (firstn k (filter g l)) (filter f l).
Proof.
  intros D I. revert k. induction D as [|x l D IH F]; intros k L.
  - cbn in L. subst k. split; [reflexivity|left; reflexivity].
  - cbn [filter] in *. destruct (f x) eqn:Fx.
    + rewrite (I x Fx). destruct k as [|k]; [discriminate L|]. cbn [length] in L.
      destruct (IH k ltac:(lia)) as (Lk & G). cbn [firstn length]. split; [lia|].
      apply lex_ge_cons; [lia|]. intros _. exact G.
    + destruct (g x).
      * destruct k as [|k].
        -- destruct (filter f l); [|discriminate L]. split; [reflexivity|left; reflexivity].
        -- assert (Q : length (firstn (S k) (filter g l)) = S k) by apply (IH (S k) L).
           cbn [firstn length]. split.
           ++ rewrite firstn_length in *. lia.
           ++ destruct (filter f l) as [|y m] eqn:E; [discriminate L|]. right. cbn [lex_gt]. left.
              assert (J : In y (filter f l)) by (rewrite E; left; reflexivity). apply filter_In in J.
              rewrite Forall_forall in F. apply F, J.
      * exact (IH k L).
Qed.

(** ** Ranks held exactly [n] times *)
Definition exact (n : nat) (F : list face) : list rank := filter (fun r => count r F =? n) high_to_low.
Lemma exact_in n F r : In r (exact n F) <-> count r F = n.
Proof. unfold exact. rewrite filter_In, Nat.eqb_eq. pose proof (in_high_to_low r). tauto. Qed.
Lemma held_in n H r : In r (held n H) <-> n <= count r H.
Proof. unfold held. rewrite filter_In, Nat.leb_le. pose proof (in_high_to_low r). tauto. Qed.
Lemma without_in rs l r : In r (without rs l) <-> In r l /\ ~ In r rs.
Proof.
  unfold without. rewrite filter_In. destruct (in_dec rank_dec r rs); intuition discriminate.
Qed.
Lemma desc_exact n F : desc (exact n F).
Proof. apply desc_filter, desc_high. Qed.
Lemma desc_held n H : desc (held n H).
Proof. apply desc_filter, desc_high. Qed.
Lemma desc_without rs l : desc l -> desc (without rs l).
Proof. apply desc_filter. Qed.
Lemma by_mult F : by_multiplicity F = exact 4 F ++ exact 3 F ++ exact 2 F ++ exact 1 F.
Proof. unfold by_multiplicity. cbn [flat_map]. rewrite app_nil_r. reflexivity. Qed.

Lemma sum_exact F : NoDup F ->
  length (exact 1 F) + 2 * length (exact 2 F) + 3 * length (exact 3 F) + 4 * length (exact 4 F) = length F.
Proof.
  intros N. rewrite <- sum_counts. pose proof (fun r => count_le4 r F N) as C4. unfold exact.
  induction high_to_low as [|r l IH]; [reflexivity|]. cbn [map filter]. rewrite <- (Nat.add_cancel_l _ _ (count r F)) in IH.
  change (list_sum (count r F :: map (fun r => count r F) l)) with (count r F + list_sum (map (fun r => count r F) l)).
  rewrite <- IH. specialize (C4 r). destruct (count r F) as [|[|[|[|[|n]]]]]; cbn [Nat.eqb length]; lia.
Qed.
Lemma exact_nil n F : (forall r, count r F <> n) -> exact n F = [].
Proof.
  intros Q. apply filter_none. intros r. apply Nat.eqb_neq, Q.
Qed.
Lemma one_in {A} (l : list A) x : In x l -> length l = 1 -> l = [x].
Proof. destruct l as [|y [|z l]]; cbn; intros I L; try lia; try discriminate. destruct I as [->|[]]. reflexivity. Qed.
Lemma in_pos {A} (l : list A) x : In x l -> 1 <= length l.
Proof. destruct l; [intros []|cbn; lia]. Qed.
Lemma length_0 {A} (l : list A) : length l = 0 -> l = [].
Proof. destruct l; [reflexivity|discriminate]. Qed.
Lemma two_in l hi lo : desc l -> In hi l -> In lo l -> pips lo < pips hi -> length l = 2 -> l = [hi; lo].
Proof.
  intros S I J L2 L. destruct l as [|a [|b [|c l]]]; try discriminate L. inversion S as [|? ? _ F]; subst.
  inversion F as [|? ? G _]; subst. cbn [In] in I, J.
  destruct I as [->|[->|[]]], J as [->|[->|[]]]; try lia. reflexivity.
Qed.
Lemma two_in_length {A} (l : list A) a b : In a l -> In b l -> a <> b -> 2 <= length l.
Proof.
  destruct l as [|x [|y l]]; cbn [In length]; intros I J D; [destruct I| |lia].
  destruct I as [->|[]], J as [->|[]]. congruence.
Qed.

(** The ranks that decide, class by class. *)
Lemma shape F c : five_card_hand F -> classify F c ->
  match c with
  | HighCard _ | Flush _ => exact 4 F = [] /\ exact 3 F = [] /\ exact 2 F = [] /\ length (exact 1 F) = 5
  | Pair p => exact 4 F = [] /\ exact 3 F = [] /\ exact 2 F = [p] /\ length (exact 1 F) = 3
  | TwoPair a b => exact 4 F = [] /\ exact 3 F = [] /\ exact 2 F = [a; b] /\ length (exact 1 F) = 1
  | ThreeOfAKind t => exact 4 F = [] /\ exact 3 F = [t] /\ exact 2 F = [] /\ length (exact 1 F) = 2
  | FullHouse t p => exact 4 F = [] /\ exact 3 F = [t] /\ exact 2 F = [p] /\ exact 1 F = []
  | FourOfAKind q => exact 4 F = [q] /\ exact 3 F = [] /\ exact 2 F = [] /\ length (exact 1 F) = 1
  | _ => True
  end.
Proof.
  intros F5 C. destruct F5 as [N L]. pose proof (sum_exact F N) as S. rewrite L in S.
  assert (U : (forall r, count r F <= 1) -> exact 4 F = [] /\ exact 3 F = [] /\ exact 2 F = [] /\ length (exact 1 F) = 5).
  { intros Q. rewrite (exact_nil 4), (exact_nil 3), (exact_nil 2) in * by (intros r; specialize (Q r); lia).
    cbn [length] in S. repeat split. lia. }
  destruct c as [t|p|a b|t|t|t|t p|q|t]; cbn [classify] in C; try exact I.
  - apply U, C.
  - destruct C as (C1 & C2).
    rewrite (exact_nil 4), (exact_nil 3) in *
      by (intros r; destruct (rank_dec r p) as [->|D]; [lia|specialize (C2 r D); lia]).
    assert (E2 : exact 2 F = [p]).
    { apply filter_is; [repeat constructor|]. intros r. rewrite Nat.eqb_eq. cbn [In]. split.
      - intros [<-|[]]. exact C1.
      - intros E. destruct (rank_dec r p) as [->|D]; [left; reflexivity|]. specialize (C2 r D). lia. }
    rewrite E2 in *. cbn [length] in S. repeat split. lia.
  - destruct C as (C1 & C2 & O).
    assert (D : a <> b) by (intros ->; lia).
    pose proof (two_in_length _ a b (proj2 (exact_in 2 F a) C1) (proj2 (exact_in 2 F b) C2) D) as L2.
    assert (E2 : exact 2 F = [a; b])
      by (apply two_in; [apply desc_exact|apply exact_in, C1|apply exact_in, C2|exact O|lia]).
    rewrite E2 in *. cbn [length] in *. repeat split; try (apply length_0; lia); lia.
  - destruct C as (C1 & C2). rewrite (exact_nil 2) in * by exact C2.
    pose proof (in_pos _ _ (proj2 (exact_in 3 F t) C1)).
    assert (E : exact 3 F = [t]) by (apply one_in; [apply exact_in, C1|lia]).
    rewrite E in *. cbn [length] in *. repeat split; try (apply length_0; lia); lia.
  - apply U. apply NoDup_ranks_count. apply suited_NoDup; [exact N|apply C].
  - destruct C as (C1 & C2).
    pose proof (in_pos _ _ (proj2 (exact_in 3 F t) C1)). pose proof (in_pos _ _ (proj2 (exact_in 2 F p) C2)).
    assert (E3 : exact 3 F = [t]) by (apply one_in; [apply exact_in, C1|lia]).
    assert (E2 : exact 2 F = [p]) by (apply one_in; [apply exact_in, C2|lia]).
    rewrite E3, E2 in *. cbn [length] in *. repeat split; apply length_0; lia.
  - pose proof (in_pos _ _ (proj2 (exact_in 4 F q) C)).
    assert (E : exact 4 F = [q]) by (apply one_in; [apply exact_in, C|lia]).
    rewrite E in *. cbn [length] in *. repeat split; try (apply length_0; lia); lia.
Qed.

(** ** Straights *)
Lemma sequence_run F top : in_sequence F top -> In top tops /\ forall r, In r (run top) -> 1 <= count r F.
Proof.
  intros S.
  assert (K : forall r, In r (ranks F) -> 1 <= count r F) by (intros r; apply in_count).
  destruct S as [P|(-> & P)]; cbv zeta in *.
  - assert (M : forall n, In n [pips top - 4; pips top - 3; pips top - 2; pips top - 1; pips top] ->
        exists r, In r (ranks F) /\ pips r = n).
    { intros n I. apply (Permutation_in _ (Permutation_sym P)) in I. apply in_map_iff in I.
      destruct I as (r & E & I). exists r. tauto. }
    assert (T : 6 <= pips top).
    { destruct (M (pips top - 4)) as (r & _ & E); [left; reflexivity|]. destruct r, top; cbn in *; lia. }
    split; [destruct top; cbn in *; try lia; tauto|]. intros r I.
    assert (J : In (pips r) [pips top - 4; pips top - 3; pips top - 2; pips top - 1; pips top]).
    { destruct top; cbn in T; try lia; cbn in I |- *; repeat (destruct I as [<-|I]; [cbn; tauto|]); destruct I. }
    destruct (M _ J) as (q & Iq & E). apply pips_inj in E. subst q. apply K, Iq.
  - split; [cbn; tauto|]. intros r I. apply K. apply (Permutation_in _ (Permutation_sym P)).
    cbn in I |- *. tauto.
Qed.
Lemma has_run_spec H t : has_run H t = true <-> forall r, In r (run t) -> 1 <= count r H.
Proof.
  unfold has_run. rewrite forallb_forall. split; intros Q r I; specialize (Q r I); apply Nat.leb_le; exact Q.
Qed.
Lemma run_sequence F top : In top tops -> ranks F = run top -> in_sequence F top.
Proof.
  intros I E. unfold in_sequence. cbv zeta. rewrite E. destruct top.
  1-3: cbn in I; exfalso; intuition discriminate.
  1: right; split; [reflexivity|exact (Permutation_sym (Permutation_rev [Ace; Two; Three; Four; Five]))].
  all: left; match goal with |- Permutation (map pips ?l) _ => exact (Permutation_rev (map pips l)) end.
Qed.

(** ** Suits *)
Lemma only_in s H f : In f (only s H) <-> In f H /\ snd f = s.
Proof. unfold only. rewrite filter_In. destruct (suit_dec (snd f) s); intuition congruence. Qed.
Lemma in_four s : In s four_suits.
Proof. destruct s; cbn; tauto. Qed.
Lemma higher_choice a b : higher a b = a \/ higher a b = b.
Proof.
  revert b. induction a as [|x a IH]; intros [|y b]; cbn [higher]; auto.
  destruct (pips y <? pips x) eqn:E1; [auto|]. destruct (pips x <? pips y) eqn:E2; [auto|].
  apply Nat.ltb_ge in E1, E2. assert (x = y) as -> by (apply pips_inj; lia).
  destruct (IH b) as [-> | ->]; auto.
Qed.
Lemma higher_ge a b : length a = length b -> lex_ge (higher a b) a /\ lex_ge (higher a b) b.
Proof.
  revert b. induction a as [|x a IH]; intros [|y b] L; try discriminate L; [split; left; reflexivity|].
  cbn [higher]. destruct (pips y <? pips x) eqn:E1.
  - apply Nat.ltb_lt in E1. split; [left; reflexivity|right; cbn; tauto].
  - destruct (pips x <? pips y) eqn:E2.
    + apply Nat.ltb_lt in E2. split; [right; cbn; tauto|left; reflexivity].
    + apply Nat.ltb_ge in E1, E2. assert (x = y) as -> by (apply pips_inj; lia).
      destruct (IH b) as (A & B); [cbn in L; lia|]. split; apply lex_ge_cons; auto.
Qed.
Lemma highest_in l : fold_right higher [] l = [] \/ In (fold_right higher [] l) l.
Proof.
  induction l as [|a l IH]; [left; reflexivity|]. cbn [fold_right].
  destruct (higher_choice a (fold_right higher [] l)) as [-> | ->]; [right; left; reflexivity|].
  destruct IH as [->|I]; [left; reflexivity|right; right; exact I].
Qed.
Lemma highest_ge l k a : (forall b, In b l -> b = [] \/ length b = k) -> In a l -> a <> [] ->
  length (fold_right higher [] l) = k /\ lex_ge (fold_right higher [] l) a.
Proof.
  intros Q. induction l as [|b l IH]; intros I N; [destruct I|]. cbn [fold_right].
  set (m := fold_right higher [] l) in *.
  assert (Qm : m = [] \/ length m = k).
  { destruct (highest_in l) as [E|E]; fold m in E; [left; exact E|]. apply Q. right. exact E. }
  destruct I as [->|I].
  - destruct (Q a (or_introl eq_refl)) as [E|La]; [contradiction|].
    destruct Qm as [->|Lm].
    + destruct a; [contradiction|]. cbn [higher]. split; [exact La|left; reflexivity].
    + pose proof (higher_ge a m ltac:(lia)) as (G & _). split; [|exact G].
      destruct (higher_choice a m) as [-> | ->]; assumption.
  - destruct (IH (fun b J => Q b (or_intror J)) I N) as (Lm & G).
    destruct (Q b (or_introl eq_refl)) as [->|Lb]; [cbn [higher]; split; assumption|].
    pose proof (higher_ge b m ltac:(lia)) as (_ & Gm). split.
    + destruct (higher_choice b m) as [-> | ->]; assumption.
    + exact (lex_ge_trans _ _ _ Gm G).
Qed.

Lemma only_NoDup_ranks s H : NoDup H -> NoDup (ranks (only s H)).
Proof.
  intros N. apply suited_NoDup; [apply NoDup_filter, N|]. exists s. apply Forall_forall. intros f J.
  apply only_in in J. tauto.
Qed.
Lemma count_only r s H : 1 <= count r (only s H) <-> In (r, s) H.
Proof.
  split.
  - intros L. apply count_in in L. destruct L as ([q u] & J & E). apply only_in in J. cbn in *. destruct J as [J ->].
    subst q. exact J.
  - intros J. apply in_count. unfold ranks. apply in_map_iff. exists (r, s). split; [reflexivity|]. apply only_in. tauto.
Qed.
Lemma flush_length s H : NoDup H -> 5 <= length (only s H) -> length (firstn 5 (held 1 (only s H))) = 5.
Proof.
  intros N L. rewrite firstn_length.
  enough (length (only s H) <= length (held 1 (only s H))) by lia.
  pose proof (only_NoDup_ranks s H N) as Nr.
  replace (length (only s H)) with (length (ranks (only s H))) by apply map_length.
  apply NoDup_incl_length; [exact Nr|]. intros r I. apply held_in, in_count, I.
Qed.
Lemma flush_in_cases H s : NoDup H -> flush_in H s = [] \/ length (flush_in H s) = 5.
Proof.
  intros N. unfold flush_in. destruct (5 <=? length (only s H)) eqn:E; [|left; reflexivity].
  right. apply flush_length; [exact N|]. apply Nat.leb_le, E.
Qed.

(** ** Every five cards are covered *)
Theorem rule_covers F H c : five_card_hand F -> NoDup H -> incl F H -> classify F c ->
  exists x, rule (category c) H = Some x /\ lex_ge (snd x) (deciders c F).
Proof.
  intros F5 NH I C. pose proof F5 as [N L]. pose proof (fun r => count_incl r F H N I) as CI.
  pose proof (shape F c F5 C) as S.
  assert (K : forall k rs, length (exact 1 F) = k -> (forall r, In r rs -> count r F <> 1) ->
    lex_ge (firstn k (without rs (held 1 H))) (exact 1 F)).
  { intros k rs Lk Q. unfold without, held. rewrite filter_filter. unfold exact in *.
    apply firstn_lex; [exact desc_high| |exact Lk]. intros r E. apply Nat.eqb_eq in E.
    specialize (CI r). apply andb_true_iff. split; [apply Nat.leb_le; lia|].
    destruct (in_dec rank_dec r rs) as [J|J]; [|reflexivity]. destruct (Q r J E). }
  destruct c as [t|p|a b|t|t|t|t p|q|t]; cbn [category rule deciders]; rewrite ?by_mult.
  - destruct S as (-> & -> & -> & L1). cbn [app].
    assert (G : lex_ge (firstn 5 (held 1 H)) (exact 1 F)).
    { unfold held, exact in *. apply firstn_lex; [exact desc_high| |exact L1].
      intros r E. apply Nat.eqb_eq in E. apply Nat.leb_le. specialize (CI r). lia. }
    destruct (firstn 5 (held 1 H)) as [|x l] eqn:E; [|eexists; split; [reflexivity|exact G]].
    destruct (exact 1 F); [discriminate L1|]. destruct G as [G|[]]. discriminate G.
  - destruct S as (-> & -> & -> & L1). cbn [app]. destruct C as (C1 & C2).
    destruct (held 2 H) as [|p' m] eqn:E.
    { assert (J : In p (held 2 H)) by (apply held_in; specialize (CI p); lia). rewrite E in J. destruct J. }
    eexists. split; [reflexivity|]. cbn [snd].
    destruct (filter_head _ _ _ _ desc_high E) as (_ & _ & M). apply lex_ge_cons.
    + apply M; [apply in_high_to_low|]. apply Nat.leb_le. specialize (CI p). lia.
    + intros ->. apply K; [exact L1|]. intros r [<-|[]]. lia.
  - destruct S as (-> & -> & E2 & L1). rewrite E2. cbn [app]. destruct C as (C1 & C2 & O).
    destruct (firstn_lex (fun r => count r F =? 2) (fun r => 2 <=? count r H) high_to_low 2 desc_high) as (L2 & G).
    { intros r E. apply Nat.eqb_eq in E. apply Nat.leb_le. specialize (CI r). lia. }
    { fold (exact 2 F). rewrite E2. reflexivity. }
    fold (exact 2 F) in G. fold (held 2 H) in L2, G. rewrite E2 in G.
    destruct (held 2 H) as [|p [|q m]]; try discriminate L2. eexists. split; [reflexivity|]. cbn [snd].
    cbn [firstn] in G. change (p :: q :: firstn 1 (without [p; q] (held 1 H))) with ([p; q] ++ firstn 1 (without [p; q] (held 1 H))).
    change (a :: b :: exact 1 F) with ([a; b] ++ exact 1 F). apply lex_ge_app; [exact G|].
    intros E. injection E as -> ->. apply K; [exact L1|]. intros r [<-|[<-|[]]]; lia.
  - destruct S as (-> & -> & -> & L1). cbn [app]. destruct C as (C1 & C2).
    destruct (held 3 H) as [|p' m] eqn:E.
    { assert (J : In t (held 3 H)) by (apply held_in; specialize (CI t); lia). rewrite E in J. destruct J. }
    eexists. split; [reflexivity|]. cbn [snd].
    destruct (filter_head _ _ _ _ desc_high E) as (_ & _ & M). apply lex_ge_cons.
    + apply M; [apply in_high_to_low|]. apply Nat.leb_le. specialize (CI t). lia.
    + intros ->. apply K; [exact L1|]. intros r [<-|[]]. lia.
  - destruct C as (_ & C). destruct (sequence_run F t C) as (T & R).
    assert (Ht : has_run H t = true).
    { apply has_run_spec. intros r J. specialize (R r J). specialize (CI r). lia. }
    destruct (filter (has_run H) tops) as [|t' m] eqn:E.
    { assert (J : In t (filter (has_run H) tops)) by (apply filter_In; tauto). rewrite E in J. destruct J. }
    eexists. split; [reflexivity|]. cbn [snd].
    destruct (filter_head _ _ _ _ desc_tops E) as (_ & _ & M). apply lex_ge_one, M; assumption.
  - destruct S as (-> & -> & -> & L1). cbn [app]. destruct C as ((s & Fs) & _).
    assert (Is : incl F (only s H)).
    { intros f J. apply only_in. rewrite Forall_forall in Fs. split; [apply I, J|apply Fs, J]. }
    assert (Ls : 5 <= length (only s H)) by (rewrite <- L; apply NoDup_incl_length; assumption).
    destruct (firstn_lex (fun r => count r F =? 1) (fun r => 1 <=? count r (only s H)) high_to_low 5 desc_high) as (L5 & G).
    { intros r E. apply Nat.eqb_eq in E. apply Nat.leb_le. pose proof (count_incl r F _ N Is). lia. }
    { exact L1. }
    fold (exact 1 F) in G. fold (held 1 (only s H)) in L5, G.
    assert (Es : flush_in H s = firstn 5 (held 1 (only s H))).
    { unfold flush_in. rewrite (proj2 (Nat.leb_le _ _) Ls). reflexivity. }
    destruct (highest_ge (map (flush_in H) four_suits) 5 (flush_in H s)) as (Lh & Gh).
    { intros b J. apply in_map_iff in J. destruct J as (u & <- & _). apply flush_in_cases, NH. }
    { apply in_map, in_four. }
    { rewrite Es. intros Q. rewrite Q in L5. discriminate L5. }
    rewrite Es in Gh. pose proof (lex_ge_trans _ _ _ Gh G) as GG.
    destruct (fold_right higher [] (map (flush_in H) four_suits)) as [|x l]; [discriminate Lh|].
    eexists. split; [reflexivity|exact GG].
  - destruct S as (-> & -> & -> & ->). cbn [app]. destruct C as (C1 & C2).
    assert (D : t <> p) by (intros ->; lia).
    pose proof (CI t) as Ct. pose proof (CI p) as Cp.
    destruct (held 3 H) as [|t' m] eqn:E.
    { assert (J : In t (held 3 H)) by (apply held_in; lia). rewrite E in J. destruct J. }
    destruct (filter_head _ _ _ _ desc_high E) as (_ & _ & M).
    assert (Mt : pips t <= pips t') by (apply M; [apply in_high_to_low|]; apply Nat.leb_le; lia).
    destruct (without [t'] (held 2 H)) as [|p' m'] eqn:E'.
    { exfalso. destruct (rank_dec t' t) as [->|D'].
      - assert (J : In p (without [t] (held 2 H))).
        { apply without_in. split; [apply held_in; lia|]. intros [Q|[]]. congruence. }
        rewrite E' in J. destruct J.
      - assert (J : In t (without [t'] (held 2 H))).
        { apply without_in. split; [apply held_in; lia|]. intros [Q|[]]. congruence. }
        rewrite E' in J. destruct J. }
    eexists. split; [reflexivity|]. cbn [snd]. apply lex_ge_cons; [exact Mt|]. intros ->.
    unfold without in E'. destruct (filter_head _ _ _ _ (desc_held 2 H) E') as (_ & _ & M').
    apply lex_ge_one. apply M'; [apply held_in; lia|]. destruct (in_dec rank_dec p [t]) as [[Q|[]]|]; congruence.
  - destruct S as (-> & -> & -> & L1). cbn [app]. cbn [classify] in C.
    destruct (held 4 H) as [|p' m] eqn:E.
    { assert (J : In q (held 4 H)) by (apply held_in; specialize (CI q); lia). rewrite E in J. destruct J. }
    eexists. split; [reflexivity|]. cbn [snd].
    destruct (filter_head _ _ _ _ desc_high E) as (_ & _ & M). apply lex_ge_cons.
    + apply M; [apply in_high_to_low|]. apply Nat.leb_le. specialize (CI q). lia.
    + intros ->. apply K; [exact L1|]. intros r [<-|[]]. lia.
  - destruct C as ((s & Fs) & C). destruct (sequence_run F t C) as (T & R).
    assert (Is : incl F (only s H)).
    { intros f J. apply only_in. rewrite Forall_forall in Fs. split; [apply I, J|apply Fs, J]. }
    assert (Ht : existsb (fun s => has_run (only s H) t) four_suits = true).
    { apply existsb_exists. exists s. split; [apply in_four|]. apply has_run_spec. intros r J.
      specialize (R r J). pose proof (count_incl r F _ N Is). lia. }
    match goal with |- context [filter ?f tops] => destruct (filter f tops) as [|t' m] eqn:E;
      [assert (J : In t (filter f tops)) by (apply filter_In; tauto)|] end.
    { rewrite E in J. destruct J. }
    eexists. split; [reflexivity|]. cbn [snd].
    destruct (filter_head _ _ _ _ desc_tops E) as (_ & _ & M). apply lex_ge_one, M; assumption.
Qed.
