(** EvaluateFacts.v: [Evaluator::evaluate] on hands of any size. *)
From Coq Require Import Lia List Arith Bool Permutation.
From Verif Require Import Base BaseFacts ModelCard ModelEval ModelTable ModelEvaluation.
From Verif Require Import Spec CardFacts Sweep SweepFacts SpecFacts EvalFacts FiveFacts
  CombosFacts.
Import ListNotations.

(** ** [all_unique] *)
Definition card_idx (r : rank) (s : suit) : Z :=
  (match s with Clubs => 0 | Diamonds => 13 | Hearts => 26 | Spades => 39 end + rank_as_i32 r)%Z.

Lemma card_to_index_new r s : card_to_index (card_new r s) = Ret (card_idx r s).
Proof. destruct r, s; reflexivity. Qed.
Lemma card_idx_range r s : (0 <= card_idx r s < 52)%Z.
Proof. unfold card_idx. destruct r, s; simpl; lia. Qed.
Lemma card_idx_inj r s r' s' : card_idx r s = card_idx r' s' -> r = r' /\ s = s'.
Proof.
  unfold card_idx. intros H.
  assert (forall x, 0 <= rank_as_i32 x < 13)%Z by (intros x; destruct x; simpl; lia).
  assert (S : s = s') by (pose proof (H0 r); pose proof (H0 r'); destruct s, s'; try reflexivity; lia).
  subst s'. split; [|reflexivity].
  assert (E : rank_as_i32 r = rank_as_i32 r') by lia.
  clear - E. destruct r, r'; simpl in E; congruence.
Qed.

Lemma shl_flag r s : shl_u64 1 (card_idx r s) = Ret (2 ^ card_idx r s)%Z.
Proof. destruct r, s; reflexivity. Qed.

Lemma land_pow2 a i : (0 <= i)%Z -> (Z.land a (2 ^ i) =? 0)%Z = negb (Z.testbit a i).
Proof.
  intros Hi. destruct (Z.testbit a i) eqn:E; simpl.
  - apply Z.eqb_neq. intros H. assert (F : Z.testbit (Z.land a (2 ^ i)) i = true).
    { rewrite Z.land_spec, E, Z.pow2_bits_true by lia. reflexivity. }
    rewrite H, Z.bits_0 in F. discriminate.
  - apply Z.eqb_eq. apply Z.bits_inj'. intros n Hn. rewrite Z.land_spec, Z.bits_0.
    destruct (Z.eq_dec n i) as [->|N]; [rewrite E; reflexivity|].
    rewrite Z.pow2_bits_false by lia. apply andb_false_r.
Qed.

Definition idx_of (c : card) : Z := card_idx (card_rank c) (card_suit c).

Lemma all_unique_from_spec h : forall flags, all_cards h ->
  exists b, all_unique_from flags h = Ret b /\
    (b = true <-> NoDup h /\ forall c, In c h -> Z.testbit flags (idx_of c) = false).
Proof.
  induction h as [|c h IH]; intros flags A.
  - exists true. split; [reflexivity|]. split; [|reflexivity]. intros _.
    split; [constructor|intros c []].
  - inversion A as [|? ? Ac Ah]; subst. destruct Ac as (r & s & ->). cbn [all_unique_from].
    rewrite card_to_index_new. cbn [bind]. rewrite shl_flag. cbn [bind].
    pose proof (card_idx_range r s) as R.
    rewrite land_pow2, negb_involutive by lia.
    assert (EI : idx_of (card_new r s) = card_idx r s)
      by (unfold idx_of; rewrite card_rank_new, card_suit_new; reflexivity).
    destruct (Z.testbit flags (card_idx r s)) eqn:E.
    + exists false. split; [reflexivity|]. split; [discriminate|]. intros [_ H].
      specialize (H (card_new r s) (or_introl eq_refl)). rewrite EI in H. congruence.
    + destruct (IH (Z.lor flags (2 ^ card_idx r s)) Ah) as (b & Hb & Hs).
      exists b. split; [exact Hb|]. rewrite Hs.
      assert (K : forall d, In d h ->
        (Z.testbit (Z.lor flags (2 ^ card_idx r s)) (idx_of d) = false
         <-> Z.testbit flags (idx_of d) = false /\ d <> card_new r s)).
      { intros d Hd. unfold all_cards in Ah. rewrite Forall_forall in Ah.
        destruct (Ah d Hd) as (r' & s' & ->). unfold idx_of.
        rewrite card_rank_new, card_suit_new, Z.lor_spec, orb_false_iff.
        apply and_iff_compat_l. pose proof (card_idx_range r' s') as R'.
        destruct (Z.eq_dec (card_idx r' s') (card_idx r s)) as [Q|Q].
        - rewrite Q, Z.pow2_bits_true by lia. apply card_idx_inj in Q. destruct Q as [-> ->].
          split; [discriminate|congruence].
        - rewrite Z.pow2_bits_false by lia. split; [|reflexivity]. intros _ F. apply Q.
          pose proof (f_equal idx_of F) as G. unfold idx_of in G.
          rewrite !card_rank_new, !card_suit_new in G. exact G. }
      split.
      * intros [N H]. split.
        -- constructor; [|exact N]. intros Hin. apply (proj1 (K _ Hin) (H _ Hin)). reflexivity.
        -- intros d [<-|Hd]; [rewrite EI; exact E|]. apply (K d Hd), H, Hd.
      * intros [N H]. inversion N as [|? ? Nc Nh]; subst. split; [exact Nh|].
        intros d Hd. apply (K d Hd). split; [apply H; right; exact Hd|congruence].
Qed.

Lemma all_unique_spec h : all_cards h ->
  exists b, all_unique h = Ret b /\ (b = true <-> NoDup h).
Proof.
  intros A. destruct (all_unique_from_spec h 0 A) as (b & Hb & Hs). exists b.
  split; [exact Hb|]. rewrite Hs. split; [tauto|]. intros N. split; [exact N|].
  intros c _. apply Z.bits_0.
Qed.

(** ** Sub-hands *)
Lemma all_cards_incl a h : incl a h -> all_cards h -> all_cards a.
Proof. intros I A. unfold all_cards in *. rewrite Forall_forall in *. auto. Qed.

Lemma combs_hand5 h x : all_cards h -> NoDup h -> In x (combs 5 h) -> hand5 x /\ incl x h.
Proof.
  intros A N H. apply combs_sublist in H. destruct H as [S L].
  pose proof (sublist_incl _ _ S) as I. split; [|exact I].
  split; [eapply all_cards_incl; eauto|]. split; [eapply sublist_NoDup; eauto|exact L].
Qed.

(** ** [six_plus] takes the best five *)
Definition score (t : lookup_table) (x : list card) : eval :=
  match five (ev_of t) x with Ret e => e | _ => EVAL_WORST end.
Definition rk (e : eval) : Z := phr (eval_hand_rank e).

Lemma five_score t x : lookup_table_new = Ret t -> hand5 x ->
  five (ev_of t) x = Ret (score t x) /\ (1 <= rk (score t x) <= 7462)%Z
  /\ classify (faces x) (eval_class_of (score t x)).
Proof.
  intros Ht H. destruct (five_spec t x Ht H) as (c & m & _ & _ & _ & _ & V & C & R).
  unfold score. rewrite V. auto.
Qed.

Lemma op_gt_eval a b : op_gt (eval_partial_cmp a b) = (rk a <? rk b)%Z.
Proof.
  unfold op_gt, eval_partial_cmp, meta_partial_cmp, phr_is_better_than, rk, eval_hand_rank.
  destruct (_ <? _)%Z; [reflexivity|]. destruct (phr_eqb _ _); reflexivity.
Qed.

Lemma fold_best (s : list card -> eval) l : forall init,
  let best := fold_left (fun cur x => if (rk (s x) <? rk cur)%Z then s x else cur) l init in
  (best = init \/ exists x, In x l /\ best = s x)
  /\ (rk best <= rk init)%Z /\ (forall x, In x l -> (rk best <= rk (s x))%Z).
Proof.
  induction l as [|x l IH]; intros init; cbn [fold_left]; cbv zeta.
  - split; [auto|]. split; [lia|]. intros x [].
  - destruct (IH (if (rk (s x) <? rk init)%Z then s x else init)) as (H1 & H2 & H3).
    cbv zeta in *. set (best := fold_left _ l _) in *. clearbody best.
    destruct (Z.ltb_spec (rk (s x)) (rk init)) as [Hlt|Hge].
    + split; [|split].
      * right. destruct H1 as [->|(y & Hy & ->)].
        -- exists x. split; [left; reflexivity|reflexivity].
        -- exists y. split; [right; exact Hy|reflexivity].
      * lia.
      * intros y [<-|Hy]; [lia|auto].
    + split; [|split].
      * destruct H1 as [->|(y & Hy & ->)]; [left; reflexivity|right].
        exists y. split; [right; exact Hy|reflexivity].
      * lia.
      * intros y [<-|Hy]; [lia|auto].
Qed.

Lemma canon_meta_worst t : lookup_table_new = Ret t ->
  canon_meta t (false, [Seven; Five; Four; Three; Two]) = Some META_WORST
  /\ canon_meta t (true, [Ace; King; Queen; Jack; Ten]) = Some META_BEST.
Proof.
  intros Ht. pose proof (extra_t t Ht) as H. unfold extra in H.
  do 6 (apply andb_true_iff in H; destruct H as [H _]).
  pose proof (extra_t t Ht) as H'. unfold extra in H'.
  do 5 (apply andb_true_iff in H'; destruct H' as [H' _]).
  apply andb_true_iff in H'. destruct H' as [_ H'].
  assert (K : forall c m, meta_at t c m = true -> canon_meta t c = Some m).
  { intros c m Hm. unfold meta_at in Hm. destruct (canon_meta t c) as [m'|]; [|discriminate].
    unfold meta_same in Hm. apply andb_true_iff in Hm. destruct Hm as [Hm1 Hm2].
    apply Z.eqb_eq in Hm2. f_equal. symmetry. apply meta_ext; [|exact Hm2].
    apply class_cmp_eq. unfold class_eqb in Hm1. destruct (class_cmp _ _); congruence. }
  split; apply K; assumption.
Qed.

Lemma length5 {A} (l : list A) : length l = 5 -> exists a b c d e, l = [a; b; c; d; e].
Proof.
  intros H. destruct l as [|a [|b [|c [|d [|e [|]]]]]]; try discriminate.
  exists a, b, c, d, e. reflexivity.
Qed.

(** [evaluate] on five or more different cards gives the best five-card score. *)
Lemma evaluate_best t h : lookup_table_new = Ret t ->
  all_cards h -> NoDup h -> 5 <= length h ->
  exists x, In x (combs 5 h)
    /\ evaluate (Evaluator t) h = Ret (Ok (score t x))
    /\ forall y, In y (combs 5 h) -> (rk (score t x) <= rk (score t y))%Z.
Proof.
  intros Ht A N L. unfold evaluate, evaluate_with. fold (ev_of t).
  destruct (all_unique_spec h A) as (b & Hb & Hs). rewrite Hb. cbn [bind].
  rewrite (proj2 Hs N). destruct (Nat.ltb_spec (length h) 5) as [|_]; [lia|].
  destruct (Nat.eqb_spec (length h) 5) as [L5|L5].
  - assert (C : combs 5 h = [h]).
    { destruct (length5 h L5) as (a & b' & c & d & e & ->). reflexivity. }
    exists h. rewrite C. split; [left; reflexivity|]. split.
    + assert (V : five (ev_of t) h = Ret (score t h)).
      { apply five_score; [exact Ht|]. split; auto. }
      destruct (length5 h L5) as (c0 & c1 & c2 & c3 & c4 & ->).
      cbn [index nth_error bind]. rewrite V. reflexivity.
    + intros y [<-|[]]. lia.
  - unfold six_plus. destruct (Nat.ltb_spec 5 (length h)) as [_|]; [|lia]. cbn [negb].
    rewrite for_const_combos_spec by lia.
    rewrite (foldM_ret _ (fun cur x => if (rk (score t x) <? rk cur)%Z then score t x else cur)).
    2:{ intros s x Hx. destruct (combs_hand5 h x A N Hx) as [H5 _].
        rewrite (proj1 (five_score t x Ht H5)). cbn [bind]. rewrite op_gt_eval.
        destruct (_ <? _)%Z; reflexivity. }
    cbn [bind]. destruct (fold_best (score t) (combs 5 h) EVAL_WORST) as (H1 & H2 & H3).
    cbv zeta in *. set (best := fold_left _ _ _) in *. clearbody best.
    destruct H1 as [->|(x & Hx & ->)].
    + (* every five cards score 7462, the rank number of the worst hand *)
      destruct (combs 5 h) as [|x l] eqn:C.
      { pose proof (combs_binom h 5) as B. rewrite C in B.
        exfalso. clear - B L5 L.
        assert (Q : forall n k, k <= n -> 0 < binom n k).
        { induction n as [|n IH]; intros [|k] Hk; simpl; try lia.
          specialize (IH k). lia. }
        specialize (Q (length h) 5 L). simpl in B. lia. }
      assert (Hx : In x (combs 5 h)) by (rewrite C; left; reflexivity).
      destruct (combs_hand5 h x A N Hx) as [H5 _].
      exists x. split; [left; reflexivity|].
      assert (E : score t x = EVAL_WORST).
      { destruct (five_spec t x Ht H5) as (c & m & I & P & Sf & M & V & C' & R).
        assert (Es : score t x = MkEval m) by (unfold score; rewrite V; reflexivity).
        pose proof (H3 x (or_introl eq_refl)) as Hw. rewrite Es in *.
        destruct (canon_meta_worst t Ht) as [W _].
        assert (c = (false, [Seven; Five; Four; Three; Two])).
        { eapply (canon_rank_inj t Ht); [exact I| |exact M|exact W|].
          - apply in_canons_worst.
          - change (7462 <= phr (meta_hand_rank m))%Z in Hw.
            change (phr (meta_hand_rank META_WORST)) with 7462%Z. lia. }
        subst c. rewrite W in M. injection M as <-. reflexivity. }
      rewrite E. split; [reflexivity|]. intros y Hy. apply H3. exact Hy.
    + exists x. split; [exact Hx|]. split; [reflexivity|exact H3].
Qed.
