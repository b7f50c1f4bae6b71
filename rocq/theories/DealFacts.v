(** DealFacts.v: how many hands of five, six and seven cards reach each category. *)
From Coq Require Import Lia List Arith Bool Permutation ZArith PArith.
From Verif Require Import Base BaseFacts ModelCard ModelEval ModelTable ModelEvaluation.
From Verif Require Import Spec SpecApi CardFacts Sweep SweepFacts SpecFacts EvalFacts FiveFacts
  CombosFacts EvaluateFacts HandFacts ClassFacts DeckFacts OddsFacts SizeFacts CategoryFacts WalkFacts MachineFacts.
Import ListNotations.
Local Open Scope nat_scope.

Notation faces_of_deck := OddsFacts.all_faces.

(** ** [cat_of] is the category *)
Lemma all_ranks r : In r RANK_ALL_VARIANTS.
Proof. destruct r; simpl; tauto. Qed.
Lemma ranks_NoDup : NoDup RANK_ALL_VARIANTS.
Proof. repeat constructor; simpl; intuition discriminate. Qed.
Lemma some_held i h : Nat.leb 1 (held i h) = true <-> exists r, i <= count r h.
Proof.
  unfold held. rewrite Nat.leb_le. split.
  - destruct (filter _ _) as [|r l] eqn:E; cbn [length]; [lia|]. intros _. exists r.
    assert (I : In r (filter (fun r => i <=? count r h) RANK_ALL_VARIANTS)) by (rewrite E; left; reflexivity).
    apply filter_In in I. apply Nat.leb_le, I.
  - intros (r & Q). assert (I : In r (filter (fun r => i <=? count r h) RANK_ALL_VARIANTS))
      by (apply filter_In; split; [apply all_ranks|apply Nat.leb_le, Q]).
    destruct (filter _ _); [destruct I|cbn [length]; lia].
Qed.
Lemma two_held i h : Nat.leb 2 (held i h) = true <-> exists p q, p <> q /\ i <= count p h /\ i <= count q h.
Proof.
  unfold held. rewrite Nat.leb_le.
  pose proof (NoDup_filter (fun r => i <=? count r h) ranks_NoDup) as N.
  assert (K : forall r, In r (filter (fun r => i <=? count r h) RANK_ALL_VARIANTS) <-> i <= count r h).
  { intros r. rewrite filter_In, Nat.leb_le. pose proof (all_ranks r). tauto. }
  destruct (filter _ _) as [|p [|q l]]; cbn [length]; split; try lia.
  - intros (p & q & D & P & Q). apply K in P. destruct P.
  - intros (a & b & D & P & Q). apply K in P. apply K in Q. destruct P as [<-|[]], Q as [<-|[]]. congruence.
  - intros _. exists p, q. inversion N as [|? ? Np _]; subst. split; [intros ->; apply Np; left; reflexivity|].
    split; apply K; simpl; tauto.
Qed.
Lemma window_pips w : In w windows ->
  exists top, forall F, ranks F = w -> in_sequence F top.
Proof.
  intros Iw. 
  repeat (destruct Iw as [<-|Iw]; [first
      [exists Five; intros F R; unfold in_sequence; rewrite R; right; split; [reflexivity|apply Permutation_refl]
      |exists Six; intros F R; unfold in_sequence; rewrite R; left; apply Permutation_refl
      |exists Seven; intros F R; unfold in_sequence; rewrite R; left; apply Permutation_refl
      |exists Eight; intros F R; unfold in_sequence; rewrite R; left; apply Permutation_refl
      |exists Nine; intros F R; unfold in_sequence; rewrite R; left; apply Permutation_refl
      |exists Ten; intros F R; unfold in_sequence; rewrite R; left; apply Permutation_refl
      |exists Jack; intros F R; unfold in_sequence; rewrite R; left; apply Permutation_refl
      |exists Queen; intros F R; unfold in_sequence; rewrite R; left; apply Permutation_refl
      |exists King; intros F R; unfold in_sequence; rewrite R; left; apply Permutation_refl
      |exists Ace; intros F R; unfold in_sequence; rewrite R; left; apply Permutation_refl]|]).
  destruct Iw.
Qed.
Lemma seq_count h : seqb (fun r => Nat.leb 1 (count r h)) = true <-> holds h 4.
Proof.
  unfold seqb. rewrite existsb_exists. cbn [holds]. split.
  - intros (w & Iw & W). rewrite forallb_forall in W.
    assert (X : exists F, ranks F = w /\ incl F h).
    { clear Iw. revert W. induction w as [|r w IH]; intros W; [exists []; split; [reflexivity|intros f []]|].
      destruct IH as (F & R & I); [intros q J; apply W; right; exact J|].
      assert (Q : 1 <= count r h) by (apply Nat.leb_le, W; left; reflexivity).
      destruct (count_in r h Q) as (f & If & Ef).
      exists (f :: F). split; [unfold ranks in *; cbn [map]; congruence|]. intros g [<-|J]; [exact If|apply I, J]. }
    destruct X as (F & R & I).
    destruct (window_pips w Iw) as (top & T). exists F, top. split; [exact I|apply T, R].
  - intros (F & top & I & S). destruct (sequence_window F top S) as (w & Iw & W).
    exists w. split; [exact Iw|]. rewrite forallb_forall. intros r Ir. apply Nat.leb_le.
    apply in_count. apply in_map_iff. specialize (W r Ir). apply in_map_iff in W.
    destruct W as (f & E & J). exists f. split; [exact E|apply I, J].
Qed.
Lemma any_spec P : any P = true <-> exists s, P s = true.
Proof.
  unfold any. rewrite existsb_exists. split.
  - intros (s & _ & Q). exists s. exact Q.
  - intros (s & Q). exists s. split; [apply in_all_suits|exact Q].
Qed.
Lemma seq_suited h : any (fun s => suited_seq s h) = true <-> holds h 8.
Proof.
  rewrite any_spec. unfold suited_seq, seqb. cbn [holds]. split.
  - intros (s & Q). apply existsb_exists in Q. destruct Q as (w & Iw & W). rewrite forallb_forall in W.
    destruct (window_pips w Iw) as (top & T). exists (map (fun r => (r, s)) w), top.
    split; [|split].
    + intros f I. apply in_map_iff in I. destruct I as (r & <- & I). apply own_in, W, I.
    + apply T. unfold ranks. rewrite map_map. apply map_id.
    + exists s. apply Forall_forall. intros f I. apply in_map_iff in I. destruct I as (r & <- & I). reflexivity.
  - intros (F & top & I & S & (s & U)). destruct (sequence_window F top S) as (w & Iw & W).
    exists s. apply existsb_exists. exists w. split; [exact Iw|]. rewrite forallb_forall. intros r Ir.
    apply own_in, I. specialize (W r Ir). apply in_map_iff in W. destruct W as ([q t] & E & J).
    rewrite Forall_forall in U. specialize (U _ J). cbn in E, U. subst. exact J.
Qed.
Lemma flush_suited h : NoDup h -> (any (fun s => flushb s h) = true <-> holds h 5).
Proof.
  intros N. rewrite any_spec. unfold flushb. cbn [holds]. split.
  - intros (s & Q). apply Nat.leb_le in Q. exists (firstn 5 (filter (of_suit s) h)).
    split; [split|split].
    + apply firstn_NoDup, NoDup_filter, N.
    + rewrite firstn_length. unfold scount in Q. lia.
    + intros f I. apply firstn_in, filter_In in I. tauto.
    + exists s. apply Forall_forall. intros f I. apply firstn_in, filter_In in I. apply of_suit_eq, I.
  - intros (F & (NF & L) & I & (s & U)). exists s. apply Nat.leb_le.
    pose proof (scount_incl s F h NF I) as Q.
    assert (scount s F = 5).
    { unfold scount. rewrite <- L. f_equal. clear -U. induction U as [|f F Q S IH]; [reflexivity|].
      cbn [filter]. rewrite (proj2 (of_suit_eq s f) Q), IH. reflexivity. }
    lia.
Qed.

Lemma four_held h : NoDup h -> (Nat.leb 1 (held 4 h) = true <-> holds h 7).
Proof.
  intros N. rewrite some_held. cbn [holds]. split; intros (r & Q); exists r; pose proof (count_le4 r h N); lia.
Qed.
Lemma full_held h : (Nat.leb 1 (held 3 h) && Nat.leb 2 (held 2 h) = true <-> holds h 6).
Proof.
  rewrite andb_true_iff, some_held, two_held. cbn [holds]. split.
  - intros ((t & T) & p & q & D & P & Q). destruct (rank_dec t p) as [->|E].
    + exists p, q. auto.
    + exists t, p. auto.
  - intros (t & p & D & T & P). split; [exists t; exact T|]. exists t, p. split; [exact D|lia].
Qed.

Lemma cat_holds h : NoDup h -> holds h (cat_of h) /\ forall k, holds h k -> k <= cat_of h.
Proof.
  intros N. unfold cat_of, rank_cat.
  pose proof (seq_suited h) as H8. pose proof (four_held h N) as H7. pose proof (full_held h) as H6.
  pose proof (flush_suited h N) as H5. pose proof (seq_count h) as H4.
  pose proof (some_held 3 h) as H3. change (exists r, 3 <= count r h) with (holds h 3) in H3.
  pose proof (two_held 2 h) as H2. change (exists p q, p <> q /\ 2 <= count p h /\ 2 <= count q h) with (holds h 2) in H2.
  pose proof (some_held 2 h) as H1. change (exists r, 2 <= count r h) with (holds h 1) in H1.
  assert (K : forall k, holds h k -> k <= 8) by (intros k; do 9 (destruct k as [|k]; [lia|]); intros []).
  assert (D : forall k, k <= 8 -> k = 0 \/ k = 1 \/ k = 2 \/ k = 3 \/ k = 4 \/ k = 5 \/ k = 6 \/ k = 7 \/ k = 8) by lia.
  assert (T0 : holds h 0) by exact I.
  assert (Q : forall b P, (b = true <-> P) -> b = false -> ~ P).
  { intros b P E F p. apply E in p. congruence. }
  set (b8 := any (fun s => suited_seq s h)) in *. set (b7 := Nat.leb 1 (held 4 h)) in *.
  set (b6 := Nat.leb 1 (held 3 h) && Nat.leb 2 (held 2 h)) in *. set (b5 := any (fun s => flushb s h)) in *.
  set (b4 := seqb (fun r => Nat.leb 1 (count r h))) in *. set (b3 := Nat.leb 1 (held 3 h)) in *.
  set (b2 := Nat.leb 2 (held 2 h)) in *. set (b1 := Nat.leb 1 (held 2 h)) in *.
  clearbody b8 b7 b5 b4 b1. 
  assert (P : forall c : nat, holds h c -> (forall k, k <= 8 -> c < k -> ~ holds h k) ->
    holds h c /\ forall k, holds h k -> k <= c).
  { intros c Hc Ht. split; [exact Hc|]. intros k Hk. pose proof (K k Hk).
    destruct (le_lt_dec k c) as [G|G]; [exact G|]. exfalso. apply (Ht k); assumption. }
  assert (E6 : b6 = true -> b6 = true) by auto. clearbody b6 b3 b2. clear E6.
  destruct b8; [|destruct b7; [|destruct b6; [|destruct b4; [|destruct b3; [|destruct b2; [|destruct b1]]]]]];
    cbn [Nat.leb]; try destruct b5; apply P; try tauto;
    intros k L G; specialize (D k L);
    repeat (destruct D as [->|D]; [lia || (eapply Q; [eassumption|reflexivity])|]); try subst k;
    lia || (eapply Q; [eassumption|reflexivity]).
Qed.

Lemma cat_correct ev h e : new_evaluator ev -> all_cards h -> evaluates ev h e ->
  category (eval_class_of e) = cat_of (faces h).
Proof.
  intros Hev A E. destruct (category_holds ev h e Hev A E) as (H1 & H2).
  destruct (cat_holds (faces h) (SizeFacts.NH ev h e A E)) as (H3 & H4).
  apply Nat.le_antisymm; [apply H4, H1|apply H2, H3].
Qed.

(** ** Up to seven cards, a flush leaves room for nothing better but a straight flush *)
Lemma two_rests s a b h : a <> b -> rest s a h + rest s b h <= length h - scount s h.
Proof.
  intros D. pose proof (sum_rest s h) as S.
  assert (L : rest s a h + rest s b h <= list_sum (map (fun r => rest s r h) RANK_ALL_VARIANTS)).
  { assert (X : forall (f : rank -> nat) l, NoDup l -> In a l -> In b l -> f a + f b <= list_sum (map f l)).
    { intros f. assert (Y : forall c l, In c l -> f c <= list_sum (map f l)).
      { intros c l. induction l as [|x l IH]; intros I; [destruct I|]. cbn [map].
        change (list_sum (f x :: map f l)) with (f x + list_sum (map f l)).
        destruct I as [->|I]; [lia|]. specialize (IH I). lia. }
      induction l as [|x l IH]; intros N Ia Ib; [destruct Ia|]. inversion N as [|? ? Nx N']; subst. cbn [map].
      change (list_sum (f x :: map f l)) with (f x + list_sum (map f l)).
      destruct Ia as [->|Ia], Ib as [->|Ib]; [congruence|pose proof (Y b l Ib); lia|pose proof (Y a l Ia); lia|].
      specialize (IH N' Ia Ib). lia. }
    apply (X (fun r => rest s r h)); [apply ranks_NoDup|apply all_ranks|apply all_ranks]. }
  lia.
Qed.
Lemma one_rest s a h : rest s a h <= length h - scount s h.
Proof.
  destruct (rank_dec a Two) as [->|D].
  - pose proof (two_rests s Two Three h ltac:(discriminate)). lia.
  - pose proof (two_rests s a Two h D). lia.
Qed.
Lemma rank_cat_high h : Nat.leb 6 (rank_cat h) = Nat.leb 1 (held 4 h) || (Nat.leb 1 (held 3 h) && Nat.leb 2 (held 2 h)).
Proof.
  unfold rank_cat. destruct (1 <=? held 4 h); [reflexivity|]. cbn [orb].
  destruct ((1 <=? held 3 h) && (2 <=? held 2 h)); [reflexivity|].
  destruct (seqb _), (1 <=? held 3 h), (2 <=? held 2 h), (1 <=? held 2 h); reflexivity.
Qed.
Lemma rank_cat_not5 h : rank_cat h <> 5.
Proof.
  unfold rank_cat. destruct (1 <=? held 4 h); [discriminate|].
  destruct ((1 <=? held 3 h) && (2 <=? held 2 h)); [discriminate|].
  destruct (seqb _), (1 <=? held 3 h), (2 <=? held 2 h), (1 <=? held 2 h); discriminate.
Qed.
Lemma rank_cat_le h : rank_cat h <= 7.
Proof.
  unfold rank_cat. destruct (1 <=? held 4 h); [lia|].
  destruct ((1 <=? held 3 h) && (2 <=? held 2 h)); [lia|].
  destruct (seqb _), (1 <=? held 3 h), (2 <=? held 2 h), (1 <=? held 2 h); lia.
Qed.

Lemma flush_low s h : NoDup h -> length h <= 7 -> flushb s h = true -> rank_cat h <= 4.
Proof.
  intros N L F. apply Nat.leb_le in F.
  pose proof (rank_cat_not5 h). pose proof (rank_cat_high h) as Q.
  destruct (6 <=? rank_cat h) eqn:E; [|apply Nat.leb_gt in E; lia]. exfalso. clear E.
  symmetry in Q. apply orb_true_iff in Q. destruct Q as [Q|Q].
  - apply some_held in Q. destruct Q as (r & Q). rewrite <- (count_own s r h N) in Q.
    pose proof (one_rest s r h). destruct (own s r h); cbn [b2n] in Q; lia.
  - apply full_held in Q. destruct Q as (t & p & D & T & P).
    rewrite <- (count_own s t h N) in T. rewrite <- (count_own s p h N) in P.
    pose proof (two_rests s t p h D). destruct (own s t h), (own s p h); cbn [b2n] in *; lia.
Qed.
Lemma window_five w : In w windows -> NoDup w /\ length w = 5.
Proof.
  intros Iw. repeat (destruct Iw as [<-|Iw]; [split; [repeat constructor; simpl; intuition discriminate|reflexivity]|]).
  destruct Iw.
Qed.
Lemma seq_flush s h : suited_seq s h = true -> flushb s h = true.
Proof.
  intros Q. apply existsb_exists in Q. destruct Q as (w & Iw & W). rewrite forallb_forall in W.
  destruct (window_five w Iw) as (Nw & Lw). apply Nat.leb_le. unfold scount. rewrite <- Lw.
  rewrite <- (map_length (fun r => (r, s)) w). apply NoDup_incl_length.
  - apply FinFun.Injective_map_NoDup; [|exact Nw]. intros a b E. congruence.
  - intros f I. apply in_map_iff in I. destruct I as (r & <- & I). apply filter_In. split; [apply own_in, W, I|].
    apply of_suit_eq. reflexivity.
Qed.
Lemma one_flush s t h : length h <= 7 -> flushb s h = true -> flushb t h = true -> s = t.
Proof.
  unfold flushb. rewrite !Nat.leb_le. intros L A B. pose proof (sum_scounts h).
  destruct s, t; try reflexivity; lia.
Qed.

(** ** Counting *)
Definition invariant (P : list face -> bool) : Prop := forall h h', Permutation h h' -> P h = P h'.
Lemma inv_count r h h' : Permutation h h' -> count r h = count r h'.
Proof. intros Q. apply (Permutation_map fst) in Q. unfold count, ranks. apply Permutation_count_occ. exact Q. Qed.
Lemma inv_own s r h h' : Permutation h h' -> own s r h = own s r h'.
Proof.
  intros Q. destruct (own s r h) eqn:A, (own s r h') eqn:B; try reflexivity.
  - apply own_in in A. apply (Permutation_in _ Q), own_in in A. congruence.
  - apply own_in in B. apply (Permutation_in _ (Permutation_sym Q)), own_in in B. congruence.
Qed.
Lemma inv_scount s h h' : Permutation h h' -> scount s h = scount s h'.
Proof.
  unfold scount. induction 1 as [|x l l' Q IH|x y l|a b c Q1 I1 Q2 I2]; cbn [filter].
  - reflexivity.
  - destruct (of_suit s x); cbn [length]; congruence.
  - destruct (of_suit s x), (of_suit s y); reflexivity.
  - congruence.
Qed.
Lemma inv_held i h h' : Permutation h h' -> held i h = held i h'.
Proof. intros Q. unfold held. f_equal. apply filter_ext. intros r. rewrite (inv_count r h h' Q). reflexivity. Qed.
Lemma inv_rank_cat h h' : Permutation h h' -> rank_cat h = rank_cat h'.
Proof.
  intros Q. unfold rank_cat. rewrite !(inv_held _ h h' Q).
  rewrite (seqb_ext _ (fun r => Nat.leb 1 (count r h'))); [reflexivity|].
  intros r. rewrite (inv_count r h h' Q). reflexivity.
Qed.
Lemma inv_seq s h h' : Permutation h h' -> suited_seq s h = suited_seq s h'.
Proof. intros Q. apply seqb_ext. intros r. apply inv_own, Q. Qed.
Lemma inv_royal s h h' : Permutation h h' -> royalb s h = royalb s h'.
Proof. intros Q. apply forallb_ext'. intros r. apply inv_own, Q. Qed.

Lemma deck_order s : Permutation faces_of_deck (deck_by s RANK_ALL_VARIANTS).
Proof.
  apply NoDup_Permutation.
  - apply all_faces_NoDup.
  - apply nodupb_NoDup. destruct s; vm_compute; reflexivity.
  - intros [r t]. split; intros _.
    + apply in_flat_map. exists r. split; [apply all_ranks|]. destruct s, t; simpl; tauto.
    + apply in_prod; [apply all_ranks|apply in_all_suits].
Qed.

Lemma final_state m s h y : NoDup h -> y = ffold m s h RANK_ALL_VARIANTS start ->
  s_n y = length h /\ (if m_one m then s_o y + scount s h = length h else s_o y = 0)
  /\ (m_pure m = false -> s_g2 y = held 2 h /\ s_g3 y = held 3 h /\ s_g4 y = held 4 h)
  /\ s_found y = (if m_top m then topb else seqb)
                   (if m_pure m then fun r => own s r h else fun r => Nat.leb 1 (count r h)).
Proof.
  intros N Y. pose proof (ffold_fields m s h RANK_ALL_VARIANTS start) as K. cbv zeta in K.
  rewrite <- Y in K. clear Y. destruct K as (A1 & A2 & A3 & A4 & A5 & A6). cbn [start s_n s_o s_g2 s_g3 s_g4 s_run s_found s_wheel] in *.
  assert (E : forall r, b2n (own s r h) + rest s r h = count r h) by (intros r; apply count_own, N).
  split.
  { rewrite A1, (map_ext _ _ E). rewrite sum_all_counts. reflexivity. }
  split.
  { destruct (m_one m); [|exact A2]. rewrite A2. apply sum_rest. }
  split.
  { intros P. rewrite P in *. rewrite A3, A4, A5. unfold held.
    repeat split; cbn [Nat.add]; f_equal; apply filter_ext; intros r; rewrite E; reflexivity. }
  set (p := if m_pure m then fun r => own s r h else fun r => Nat.leb 1 (count r h)).
  destruct (runs_spec p) as (R1 & R2).
  assert (F : s_found y = runs (m_top m) p).
  { unfold runs. change (s_found y) with (snd (fst (s_run y, s_found y, s_wheel y))). rewrite A6. do 2 f_equal.
    generalize (0, false, false). clear -E. subst p. induction RANK_ALL_VARIANTS as [|r l IH]; intros z; [reflexivity|].
    cbn [fold_left]. rewrite <- IH. f_equal. f_equal. destruct (m_pure m); [reflexivity|]. rewrite E. reflexivity. }
  rewrite F. destruct (m_top m); assumption.
Qed.

Lemma machine_count m s f P : invariant P ->
  (forall h y, NoDup h -> y = ffold m s h RANK_ALL_VARIANTS start -> P h = within m y && f y) ->
  number P faces_of_deck = tally f (machine m).
Proof.
  intros Inv H. rewrite (number_perm _ _ (deck_order s) P Inv). unfold machine.
  rewrite <- (count_walks code st_eqb st_eqb_eq (step m) s f RANK_ALL_VARIANTS start ranks_NoDup).
  apply number_ext. intros h I.
  assert (N : NoDup h).
  { apply (subs_NoDup (deck_by s RANK_ALL_VARIANTS)); [|exact I].
    apply (Permutation_NoDup (deck_order s)), all_faces_NoDup. }
  rewrite (H h _ N eq_refl), (walk_read m s h RANK_ALL_VARIANTS start eq_refl). unfold accept.
  destruct (within _ _); reflexivity.
Qed.

Section count.
  Context (N : nat) (HN : N <= 7).
  Local Definition len (h : list face) : bool := Nat.eqb (length h) N.
  Lemma inv_len h h' : Permutation h h' -> len h = len h'.
  Proof. intros Q. unfold len. rewrite (Permutation_length Q). reflexivity. Qed.

  Definition at_cat (k : nat) (x : st) : bool := Nat.eqb (s_n x) N && Nat.eqb (by_ranks x) k.
  Definition at_flush (x : st) : bool := Nat.eqb (s_n x) N && Nat.leb 5 (N - s_o x).
  Definition at_both (k : nat) (x : st) : bool := at_flush x && Nat.eqb (by_ranks x) k.
  Definition at_found (x : st) : bool := Nat.eqb (s_n x) N && s_found x.
  Definition at_any (x : st) : bool := Nat.eqb (s_n x) N.

  Lemma read_cat s h y : NoDup h -> forall one,
    y = ffold (Mode N one false false) s h RANK_ALL_VARIANTS start -> by_ranks y = rank_cat h.
  Proof.
    intros ND one Y. destruct (final_state (Mode N one false false) s h y ND Y) as (_ & _ & G & F).
    cbn [m_pure m_top] in *. destruct (G eq_refl) as (G2 & G3 & G4).
    unfold by_ranks, rank_cat. rewrite G2, G3, G4, F. reflexivity.
  Qed.
  Local Open Scope Z_scope.

  Lemma count_any : number len faces_of_deck = tally at_any (machine (Mode N false false false)).
  Proof.
    apply (machine_count _ Clubs); [exact inv_len|]. intros h y ND Y.
    destruct (final_state (Mode N false false false) Clubs h y ND Y) as (A & B & _). cbn [m_one] in B.
    unfold len, within, at_any. rewrite A, B. cbn [m_N Nat.leb].
    destruct (Nat.eqb_spec (length h) N) as [E|E]; [|rewrite andb_false_r; reflexivity].
    rewrite E, Nat.leb_refl. reflexivity.
  Qed.
  Lemma count_cat k : number (fun h => len h && Nat.eqb (rank_cat h) k) faces_of_deck
    = tally (at_cat k) (machine (Mode N false false false)).
  Proof.
    apply (machine_count _ Clubs).
    { intros h h' Q. rewrite (inv_len h h' Q), (inv_rank_cat h h' Q). reflexivity. }
    intros h y ND Y.
    destruct (final_state (Mode N false false false) Clubs h y ND Y) as (A & B & _). cbn [m_one] in B.
    unfold len, within, at_cat. rewrite (read_cat Clubs h y ND false Y), A, B. cbn [m_N Nat.leb].
    destruct (Nat.eqb_spec (length h) N) as [E|E]; [|cbn [andb]; rewrite andb_false_r; reflexivity].
    rewrite E, Nat.leb_refl. reflexivity.
  Qed.
  Lemma flush_within s h y : NoDup h -> y = ffold (Mode N true false false) s h RANK_ALL_VARIANTS start ->
    len h && flushb s h = within (Mode N true false false) y && at_flush y.
  Proof.
    intros ND Y. destruct (final_state (Mode N true false false) s h y ND Y) as (A & B & _). cbn [m_one] in B.
    unfold len, within, at_flush, flushb. rewrite A. cbn [m_N].
    destruct (Nat.eqb_spec (length h) N) as [E|E]; [|cbn [andb]; rewrite andb_false_r; reflexivity].
    cbn [andb]. rewrite E, Nat.leb_refl. cbn [andb].
    destruct (Nat.leb_spec 5 (scount s h)), (Nat.leb_spec (s_o y) 2), (Nat.leb_spec 5 (N - s_o y)); cbn [andb]; lia || reflexivity.
  Qed.
  Lemma inv_flush s h h' : Permutation h h' -> flushb s h = flushb s h'.
  Proof. intros Q. unfold flushb. rewrite (inv_scount s h h' Q). reflexivity. Qed.
  Lemma count_flush s : number (fun h => len h && flushb s h) faces_of_deck
    = tally at_flush (machine (Mode N true false false)).
  Proof.
    apply (machine_count _ s).
    { intros h h' Q. rewrite (inv_len h h' Q), (inv_flush s h h' Q). reflexivity. }
    intros h y ND Y. apply flush_within; [exact ND|exact Y].
  Qed.
  Lemma count_both s k : number (fun h => len h && flushb s h && Nat.eqb (rank_cat h) k) faces_of_deck
    = tally (at_both k) (machine (Mode N true false false)).
  Proof.
    apply (machine_count _ s).
    { intros h h' Q. rewrite (inv_len h h' Q), (inv_flush s h h' Q), (inv_rank_cat h h' Q). reflexivity. }
    intros h y ND Y. unfold at_both. rewrite andb_assoc, <- (flush_within s h y ND Y).
    rewrite (read_cat s h y ND true Y). reflexivity.
  Qed.
  Lemma count_found s (top : bool) : number (fun h => len h && (if top then royalb s h else suited_seq s h)) faces_of_deck
    = tally at_found (machine (Mode N false true top)).
  Proof.
    apply (machine_count _ s).
    { intros h h' Q. rewrite (inv_len h h' Q), (inv_royal s h h' Q), (inv_seq s h h' Q). reflexivity. }
    intros h y ND Y.
    destruct (final_state (Mode N false true top) s h y ND Y) as (A & B & _ & F).
    cbn [m_one m_top m_pure] in B, F.
    unfold len, within, at_found. rewrite A, B, F. cbn [m_N Nat.leb].
    destruct (Nat.eqb_spec (length h) N) as [E|E]; [|cbn [andb]; rewrite andb_false_r; reflexivity].
    rewrite E, Nat.leb_refl. destruct top; reflexivity.
  Qed.
End count.

(** ** Putting it together *)
Lemma four_suits {T} (P : list T -> bool) (Q : suit -> list T -> bool) l :
  (forall h s t, In h (subs l) -> P h = true -> Q s h = true -> Q t h = true -> s = t) ->
  number (fun h => P h && any (fun s => Q s h)) l =
  (number (fun h => P h && Q Clubs h) l + number (fun h => P h && Q Hearts h) l
   + number (fun h => P h && Q Spades h) l + number (fun h => P h && Q Diamonds h) l)%Z.
Proof.
  intros D. unfold number. rewrite <- !Nat2Z.inj_add. f_equal.
  induction (subs l) as [|h L IH]; [reflexivity|]. cbn [filter].
  specialize (IH (fun h' s t I => D h' s t (or_intror I))). pose proof (D h) as Dh. clear D.
  unfold any in *. cbn [existsb SUIT_ALL_VARIANTS] in *. rewrite ?orb_false_r in *.
  destruct (P h) eqn:EP; cbn [andb]; [|exact IH].
  destruct (Q Clubs h) eqn:E1, (Q Hearts h) eqn:E2, (Q Spades h) eqn:E3, (Q Diamonds h) eqn:E4;
    cbn [orb length]; try lia; exfalso;
    first [discriminate (Dh Clubs Hearts (or_introl eq_refl) eq_refl E1 E2)
          |discriminate (Dh Clubs Spades (or_introl eq_refl) eq_refl E1 E3)
          |discriminate (Dh Clubs Diamonds (or_introl eq_refl) eq_refl E1 E4)
          |discriminate (Dh Hearts Spades (or_introl eq_refl) eq_refl E2 E3)
          |discriminate (Dh Hearts Diamonds (or_introl eq_refl) eq_refl E2 E4)
          |discriminate (Dh Spades Diamonds (or_introl eq_refl) eq_refl E3 E4)].
Qed.

Section odds.
  Context (N : nat) (HN : N <= 7).
  Local Notation len := (len N).
  Local Open Scope Z_scope.
  Local Notation deck := faces_of_deck.
  Definition ways (k : nat) : Z :=
    match k with
    | 8%nat => 4 * tally (at_found N) (machine (Mode N false true false))
    | 5%nat => 4 * tally (at_flush N) (machine (Mode N true false false))
               - 4 * tally (at_found N) (machine (Mode N false true false))
    | 6%nat | 7%nat => tally (at_cat N k) (machine (Mode N false false false))
    | _ => tally (at_cat N k) (machine (Mode N false false false))
           - 4 * tally (at_both N k) (machine (Mode N true false false))
    end.
  Definition royal_ways : Z := 4 * tally (at_found N) (machine (Mode N false true true)).
  Definition all_ways : Z := tally (at_any N) (machine (Mode N false false false)).

  Lemma deck_hand h : In h (subs deck) -> NoDup h.
  Proof. apply subs_NoDup, all_faces_NoDup. Qed.
  Lemma len_le h : len h = true -> (length h <= 7)%nat.
  Proof. unfold DealFacts.len. intros E. apply Nat.eqb_eq in E. lia. Qed.

  Lemma seq_ways : number (fun h => len h && any (fun s => suited_seq s h)) deck = ways 8.
  Proof.
    rewrite four_suits.
    - rewrite !(count_found N _ false). cbn [ways]. lia.
    - intros h s t I L A B. apply (one_flush s t h (len_le h L)); apply seq_flush; assumption.
  Qed.
  Lemma flush_ways : number (fun h => len h && any (fun s => flushb s h)) deck
    = 4 * tally (at_flush N) (machine (Mode N true false false)).
  Proof.
    rewrite four_suits.
    - rewrite !(count_flush N HN). lia.
    - intros h s t I L A B. exact (one_flush s t h (len_le h L) A B).
  Qed.
  Lemma both_ways k : number (fun h => len h && Nat.eqb (rank_cat h) k && any (fun s => flushb s h)) deck
    = 4 * tally (at_both N k) (machine (Mode N true false false)).
  Proof.
    rewrite four_suits.
    - assert (X : forall s, number (fun h => len h && Nat.eqb (rank_cat h) k && flushb s h) deck
        = tally (at_both N k) (machine (Mode N true false false))).
      { intros s. rewrite <- (count_both N HN s k). apply number_ext. intros h _.
        rewrite <- !andb_assoc. f_equal. apply andb_comm. }
      rewrite !X. lia.
    - intros h s t I L A B. apply andb_true_iff in L. exact (one_flush s t h (len_le h (proj1 L)) A B).
  Qed.
  Lemma royal_count : number (fun h => len h && any (fun s => royalb s h)) deck = royal_ways.
  Proof.
    rewrite four_suits.
    - rewrite !(count_found N _ true). unfold royal_ways. lia.
    - assert (X : forall s h, royalb s h = true -> suited_seq s h = true).
      { intros s h R. apply existsb_exists. exists [Ten; Jack; Queen; King; Ace]. split; [simpl; tauto|exact R]. }
      intros h s t I L A B. apply (one_flush s t h (len_le h L)); apply seq_flush, X; assumption.
  Qed.

  Theorem category_count k : (k <= 8)%nat ->
    number (fun h => len h && Nat.eqb (cat_of h) k) deck = ways k.
  Proof.
    intros K.
    assert (S : forall h, any (fun s => suited_seq s h) = true -> any (fun s => flushb s h) = true).
    { intros h A. apply any_spec in A. destruct A as (s & A). apply any_spec. exists s. apply seq_flush, A. }
    assert (F : forall h, In h (subs deck) -> len h = true -> any (fun s => flushb s h) = true ->
      (rank_cat h <= 4)%nat).
    { intros h I L A. apply any_spec in A. destruct A as (s & A).
      exact (flush_low s h (deck_hand h I) (len_le h L) A). }
    assert (C8 : k = 8%nat -> number (fun h => len h && Nat.eqb (cat_of h) k) deck = ways k).
    { intros ->. rewrite <- seq_ways. apply number_ext. intros h I. f_equal. unfold cat_of.
      pose proof (rank_cat_le h) as Q.
      destruct (any (fun s => suited_seq s h)); [reflexivity|].
      destruct (Nat.leb 6 (rank_cat h)); [|destruct (any _); [reflexivity|]];
        apply Nat.eqb_neq; lia. }
    assert (C67 : (k = 6 \/ k = 7)%nat -> number (fun h => len h && Nat.eqb (cat_of h) k) deck
      = tally (at_cat N k) (machine (Mode N false false false))).
    { intros D. rewrite <- (count_cat N k). apply number_ext. intros h I.
      destruct (len h) eqn:L; [|reflexivity]. cbn [andb]. specialize (F h I L). specialize (S h). unfold cat_of.
      destruct (any (fun s => suited_seq s h)).
      - specialize (F (S eq_refl)). transitivity false; [|symmetry]; apply Nat.eqb_neq; lia.
      - destruct (Nat.leb_spec 6 (rank_cat h)); [reflexivity|].
        destruct (any (fun s => flushb s h)); [|reflexivity].
        transitivity false; [|symmetry]; apply Nat.eqb_neq; lia. }
    assert (C5 : k = 5%nat -> number (fun h => len h && Nat.eqb (cat_of h) k) deck = ways k).
    { intros ->. cbn [ways]. rewrite <- flush_ways. change (4 * tally (at_found N) (machine (Mode N false true false)))
        with (ways 8). rewrite <- seq_ways.
      rewrite (number_split (fun h => len h && any (fun s => flushb s h)) (fun h => any (fun s => suited_seq s h)) deck).
      assert (X : number (fun h => len h && any (fun s => flushb s h) && any (fun s => suited_seq s h)) deck
        = number (fun h => len h && any (fun s => suited_seq s h)) deck).
      { apply number_ext. intros h _. specialize (S h). destruct (any (fun s => suited_seq s h)).
        - rewrite (S eq_refl), !andb_true_r. reflexivity.
        - rewrite !andb_false_r. reflexivity. }
      rewrite X. match goal with |- _ = ?a + ?b - ?a => transitivity b; [|lia] end.
      apply number_ext. intros h I. destruct (len h) eqn:L; [|reflexivity]. cbn [andb].
      specialize (F h I L). pose proof (rank_cat_not5 h). unfold cat_of.
      destruct (any (fun s => suited_seq s h)); [symmetry; apply andb_false_r|].
      rewrite andb_true_r. destruct (any (fun s => flushb s h)).
      - specialize (F eq_refl). destruct (Nat.leb_spec 6 (rank_cat h)); [lia|]. reflexivity.
      - destruct (Nat.leb 6 (rank_cat h)); apply Nat.eqb_neq; assumption. }
    assert (C04 : (k <= 4)%nat -> number (fun h => len h && Nat.eqb (cat_of h) k) deck
      = tally (at_cat N k) (machine (Mode N false false false))
        - 4 * tally (at_both N k) (machine (Mode N true false false))).
    { intros D. rewrite <- (count_cat N k), <- (both_ways k).
      rewrite (number_split (fun h => len h && Nat.eqb (rank_cat h) k) (fun h => any (fun s => flushb s h)) deck).
      match goal with |- _ = ?a + ?b - ?a => transitivity b; [|lia] end.
      apply number_ext. intros h I. destruct (len h) eqn:L; [|reflexivity]. cbn [andb].
      specialize (F h I L). specialize (S h). unfold cat_of.
      destruct (any (fun s => suited_seq s h)).
      - rewrite (S eq_refl), andb_false_r. apply Nat.eqb_neq. lia.
      - destruct (any (fun s => flushb s h)); cbn [negb]; rewrite ?andb_false_r, ?andb_true_r.
        + destruct (Nat.leb 6 (rank_cat h)) eqn:E; [apply Nat.leb_le in E; specialize (F eq_refl); lia|].
          apply Nat.eqb_neq. lia.
        + destruct (Nat.leb 6 (rank_cat h)); reflexivity. }
    destruct k as [|[|[|[|[|[|[|[|[|k]]]]]]]]]; try (apply C04; lia); try (apply C5; reflexivity);
      try (apply C67; lia); try (apply C8; reflexivity).
  Qed.
End odds.

Lemma ways_five : map (ways 5) (seq 0 9) =
  [1302540; 1098240; 123552; 54912; 10200; 5108; 3744; 624; 40]%Z
  /\ royal_ways 5 = 4%Z /\ all_ways 5 = 2598960%Z.
Proof. vm_compute. repeat split; reflexivity. Qed.
Lemma ways_six : map (ways 6) (seq 0 9) =
  [6612900; 9730740; 2532816; 732160; 361620; 205792; 165984; 14664; 1844]%Z
  /\ royal_ways 6 = 188%Z /\ all_ways 6 = 20358520%Z.
Proof. vm_compute. repeat split; reflexivity. Qed.
Lemma ways_seven : map (ways 7) (seq 0 9) =
  [23294460; 58627800; 31433400; 6461620; 6180020; 4047644; 3473184; 224848; 41584]%Z
  /\ royal_ways 7 = 4324%Z /\ all_ways 7 = 133784560%Z.
Proof. vm_compute. repeat split; reflexivity. Qed.

Lemma all_count n : number (len n) faces_of_deck = all_ways n.
Proof. exact (count_any n). Qed.
Global Opaque ways royal_ways all_ways.

Lemma results_number ev n es (p : eval -> bool) (P : list face -> bool) :
  Forall2 (evaluates ev) (combs n deck_generate) es ->
  (forall h e, In h (combs n faces_of_deck) -> evaluates ev (map card_of h) e -> p e = P h) ->
  Z.of_nat (length (filter p es)) = number (fun h => Nat.eqb (length h) n && P h) faces_of_deck.
Proof.
  intros F Q. rewrite <- combs_subs. f_equal.
  rewrite deck_faces, combs_map in F. revert es F Q.
  induction (combs n faces_of_deck) as [|h L IH]; intros es F Q; cbn [map] in F;
    inversion F as [|? e ? es' E F']; subst; [reflexivity|].
  cbn [filter]. rewrite (Q h e (or_introl eq_refl) E).
  specialize (IH es' F' (fun x y Hx => Q x y (or_intror Hx))). destruct (P h); cbn [length]; congruence.
Qed.

Lemma in_deal n h : In h (combs n faces_of_deck) -> NoDup h /\ length h = n /\ faces (map card_of h) = h
  /\ all_cards (map card_of h).
Proof.
  intros I. apply combs_sublist in I. destruct I as (Sb & L).
  split; [apply (sublist_NoDup _ _ Sb all_faces_NoDup)|]. split; [exact L|].
  split; [exact (faces_card_at h)|exact (card_at_all h)].
Qed.

Theorem deal_odds ev n : new_evaluator ev -> 5 <= n <= 7 -> exists L es,
  NoDup L
  /\ (forall h, In h L <-> sublist h deck_generate /\ length h = n)
  /\ Forall2 (evaluates ev) L es
  /\ Z.of_nat (length L) = all_ways n
  /\ Z.of_nat (length (filter eval_is_royal_flush es)) = royal_ways n
  /\ Z.of_nat (length (filter eval_is_straight_flush es)) = ways n 8
  /\ Z.of_nat (length (filter eval_is_four_of_a_kind es)) = ways n 7
  /\ Z.of_nat (length (filter eval_is_full_house es)) = ways n 6
  /\ Z.of_nat (length (filter eval_is_flush es)) = ways n 5
  /\ Z.of_nat (length (filter eval_is_straight es)) = ways n 4
  /\ Z.of_nat (length (filter eval_is_three_of_a_kind es)) = ways n 3
  /\ Z.of_nat (length (filter eval_is_two_pair es)) = ways n 2
  /\ Z.of_nat (length (filter eval_is_pair es)) = ways n 1
  /\ Z.of_nat (length (filter eval_is_high_card es)) = ways n 0.
Proof.
  intros Hev B.
  destruct (results_exist ev (combs n deck_generate)) as [es F].
  { intros h H. rewrite deck_faces, combs_map in H. apply in_map_iff in H. destruct H as (x & <- & H).
    destruct (in_deal n x H) as (N & L & _ & A).
    destruct (evaluate_spec ev (map card_of x) Hev) as (e & E & _); [|exists e; exact E].
    split; [exact A|]. split; [exact (card_at_NoDup x N)|]. rewrite map_length. lia. }
  exists (combs n deck_generate), es.
  split; [exact (combs_NoDup _ deck_NoDup n)|]. split; [exact (combs_sublist deck_generate n)|]. split; [exact F|].
  assert (R : forall (p : eval -> bool) k, k <= 8 -> (forall e, p e = Nat.eqb (category (eval_class_of e)) k) ->
    Z.of_nat (length (filter p es)) = ways n k).
  { intros p k K H. rewrite <- (category_count n (proj2 B) k K).
    apply (results_number ev n es p (fun h => Nat.eqb (cat_of h) k) F).
    intros h e I E. destruct (in_deal n h I) as (N & L & Q & A). rewrite H.
    rewrite (cat_correct ev _ e Hev A E), Q. reflexivity. }
  split.
  { rewrite <- all_count. rewrite deck_faces, combs_map, map_length.
    rewrite <- (filter_all (fun _ => true) (combs n faces_of_deck)) by reflexivity.
    rewrite combs_subs. apply number_ext. intros h _. apply andb_true_r. }
  split.
  { rewrite <- (royal_count n (proj2 B)).
    apply (results_number ev n es _ (fun h => any (fun s => royalb s h)) F).
    intros h e I E. destruct (in_deal n h I) as (N & L & Q & A).
    pose proof (is_royal_best ev _ e Hev A E) as X. pose proof (holds_royal ev _ e Hev A E) as Y.
    assert (Z : any (fun s => royalb s h) = true <-> exists s, incl (royal s) (map card_of h)).
    { rewrite any_spec. split; intros (s & R'); exists s.
      - unfold royalb, topb in R'. rewrite forallb_forall in R'.
        intros c Ic. apply in_map_iff in Ic. destruct Ic as (r & <- & Ir).
        assert (J : In (r, s) h) by (apply own_in, R'; simpl in Ir |- *; tauto).
        apply (in_map card_of) in J. exact J.
      - unfold royalb, topb. rewrite forallb_forall. intros r Ir. apply own_in.
        assert (J : In (card_of (r, s)) (map card_of h)).
        { apply R'. apply in_map_iff. exists r. split; [reflexivity|]. simpl in Ir |- *. tauto. }
        apply (in_map face_of) in J. fold (faces (map card_of h)) in J. rewrite Q in J.
        unfold face_of, card_of in J. cbn [fst snd] in J. rewrite card_rank_new, card_suit_new in J. exact J. }
    destruct (eval_is_royal_flush e), (any (fun s => royalb s h)); try reflexivity; exfalso.
    - pose proof (proj2 Z (proj2 Y (proj1 X eq_refl))). discriminate.
    - pose proof (proj2 X (proj1 Y (proj1 Z eq_refl))). discriminate. }
  split; [apply R; [lia|]; intros [[]]; reflexivity|].
  split; [apply R; [lia|]; intros [[]]; reflexivity|].
  split; [apply R; [lia|]; intros [[]]; reflexivity|].
  split; [apply R; [lia|]; intros [[]]; reflexivity|].
  split; [apply R; [lia|]; intros [[]]; reflexivity|].
  split; [apply R; [lia|]; intros [[]]; reflexivity|].
  split; [apply R; [lia|]; intros [[]]; reflexivity|].
  split; [apply R; [lia|]; intros [[]]; reflexivity|].
  apply R; [lia|]. intros [[]]; reflexivity.
Qed.

Lemma table_entry n row k : map (ways n) (seq 0 9) = row -> k < 9 -> ways n k = nth k row 0%Z.
Proof.
  intros <- K. rewrite (nth_indep _ 0%Z (ways n 0)) by (rewrite map_length, seq_length; exact K).
  rewrite map_nth, seq_nth by exact K. reflexivity.
Qed.

Theorem six_odds ev : new_evaluator ev -> exists L es,
  NoDup L
  /\ (forall h, In h L <-> sublist h deck_generate /\ length h = 6)
  /\ Forall2 (evaluates ev) L es
  /\ Z.of_nat (length L) = 20358520%Z
  /\ Z.of_nat (length (filter eval_is_royal_flush es)) = 188%Z
  /\ Z.of_nat (length (filter eval_is_straight_flush es)) = 1844%Z
  /\ Z.of_nat (length (filter eval_is_four_of_a_kind es)) = 14664%Z
  /\ Z.of_nat (length (filter eval_is_full_house es)) = 165984%Z
  /\ Z.of_nat (length (filter eval_is_flush es)) = 205792%Z
  /\ Z.of_nat (length (filter eval_is_straight es)) = 361620%Z
  /\ Z.of_nat (length (filter eval_is_three_of_a_kind es)) = 732160%Z
  /\ Z.of_nat (length (filter eval_is_two_pair es)) = 2532816%Z
  /\ Z.of_nat (length (filter eval_is_pair es)) = 9730740%Z
  /\ Z.of_nat (length (filter eval_is_high_card es)) = 6612900%Z.
Proof.
  intros Hev. destruct (deal_odds ev 6 Hev ltac:(lia)) as (L & es & H).
  destruct ways_six as (T & Rl & Al). rewrite Rl, Al in H.
  rewrite !(table_entry 6 _ _ T) in H by lia. exists L, es. exact H.
Qed.
Theorem seven_odds ev : new_evaluator ev -> exists L es,
  NoDup L
  /\ (forall h, In h L <-> sublist h deck_generate /\ length h = 7)
  /\ Forall2 (evaluates ev) L es
  /\ Z.of_nat (length L) = 133784560%Z
  /\ Z.of_nat (length (filter eval_is_royal_flush es)) = 4324%Z
  /\ Z.of_nat (length (filter eval_is_straight_flush es)) = 41584%Z
  /\ Z.of_nat (length (filter eval_is_four_of_a_kind es)) = 224848%Z
  /\ Z.of_nat (length (filter eval_is_full_house es)) = 3473184%Z
  /\ Z.of_nat (length (filter eval_is_flush es)) = 4047644%Z
  /\ Z.of_nat (length (filter eval_is_straight es)) = 6180020%Z
  /\ Z.of_nat (length (filter eval_is_three_of_a_kind es)) = 6461620%Z
  /\ Z.of_nat (length (filter eval_is_two_pair es)) = 31433400%Z
  /\ Z.of_nat (length (filter eval_is_pair es)) = 58627800%Z
  /\ Z.of_nat (length (filter eval_is_high_card es)) = 23294460%Z.
Proof.
  intros Hev. destruct (deal_odds ev 7 Hev ltac:(lia)) as (L & es & H).
  destruct ways_seven as (T & Rl & Al). rewrite Rl, Al in H.
  rewrite !(table_entry 7 _ _ T) in H by lia. exists L, es. exact H.
Qed.
