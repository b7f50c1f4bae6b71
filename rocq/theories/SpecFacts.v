(** SpecFacts.v: consequences of the rules in Spec.v alone, in particular that they assign at
    most one class to a hand, and the link to the boolean versions used by Sweep.v. *)
From Coq Require Import Lia List Arith Bool Permutation.
From Verif Require Import ModelCard ModelEval Spec CardFacts Sweep SweepFacts.
Import ListNotations.

(** ** Counting *)
Lemma count_sum_le (rs l : list rank) :
  NoDup rs -> list_sum (map (count_occ rank_dec l) rs) <= length l.
Proof.
  intros N. induction l as [|x l IH].
  - induction rs; simpl in *; [lia|]. inversion N; auto.
  - assert (E : list_sum (map (count_occ rank_dec (x :: l)) rs)
                = list_sum (map (count_occ rank_dec l) rs) + count_occ rank_dec rs x).
    { clear. induction rs as [|r rs IH]; [reflexivity|].
      cbn [map list_sum fold_right count_occ] in *. unfold list_sum in IH. rewrite IH.
      destruct (rank_dec x r), (rank_dec r x); subst; try congruence; lia. }
    rewrite E. pose proof (proj1 (NoDup_count_occ rank_dec rs) N x). simpl. lia.
Qed.

Section hand.
  Context (h : list face) (L : length h = 5).

  Lemma ranks_length : length (ranks h) = 5.
  Proof using L. unfold ranks. rewrite map_length. exact L. Qed.

  Lemma count2 a b : a <> b -> count a h + count b h <= 5.
  Proof using L.
    intros N. pose proof (count_sum_le [a; b] (ranks h)) as H. rewrite ranks_length in H.
    simpl in H. unfold count. enough (NoDup [a; b]) by (specialize (H H0); lia).
    repeat constructor; simpl; intuition congruence.
  Qed.
  Lemma count3 a b c : a <> b -> a <> c -> b <> c -> count a h + count b h + count c h <= 5.
  Proof using L.
    intros N1 N2 N3. pose proof (count_sum_le [a; b; c] (ranks h)) as H.
    rewrite ranks_length in H.
    simpl in H. unfold count. enough (NoDup [a; b; c]) by (specialize (H H0); lia).
    repeat constructor; simpl; intuition congruence.
  Qed.

  Lemma NoDup_ranks_count : NoDup (ranks h) -> forall r, count r h <= 1.
  Proof using.
    clear L. intros N r. apply (proj1 (NoDup_count_occ rank_dec _)). exact N. Qed.

  Lemma in_sequence_NoDup top : in_sequence h top -> NoDup (ranks h).
  Proof using.
    clear L.
    intros [P|[_ P]].
    - apply (NoDup_map_inv pips). apply (Permutation_NoDup (Permutation_sym P)).
      assert (6 <= pips top).
      { assert (H : In (pips top - 4) (map pips (ranks h))).
        { apply (Permutation_in _ (Permutation_sym P)). left. reflexivity. }
        apply in_map_iff in H. destruct H as (r & E & _). pose proof (pips_range r). lia. }
      repeat constructor; simpl; lia.
    - apply (Permutation_NoDup (Permutation_sym P)).
      repeat constructor; simpl; intuition congruence.
  Qed.

  Lemma in_sequence_unique a b : in_sequence h a -> in_sequence h b -> a = b.
  Proof using.
    clear L.
    assert (S : forall l l' : list nat, Permutation l l' -> list_sum l = list_sum l').
    { induction 1; simpl; unfold list_sum in *; simpl; lia. }
    assert (R : forall top, Permutation (map pips (ranks h))
       [pips top - 4; pips top - 3; pips top - 2; pips top - 1; pips top] -> 6 <= pips top).
    { intros top P. assert (H : In (pips top - 4) (map pips (ranks h))).
        { apply (Permutation_in _ (Permutation_sym P)). left. reflexivity. }
        apply in_map_iff in H. destruct H as (r & E & _). pose proof (pips_range r). lia. }
    assert (W : Permutation (ranks h) [Ace; Two; Three; Four; Five] ->
                list_sum (map pips (ranks h)) = 28).
    { intros P. rewrite (S _ _ (Permutation_map pips P)). reflexivity. }
    intros [Pa|[-> Pa]] [Pb|[-> Pb]]; auto.
    - apply pips_inj. pose proof (R _ Pa). pose proof (R _ Pb).
      apply S in Pa. apply S in Pb. simpl in Pa, Pb. lia.
    - pose proof (R _ Pa). apply S in Pa. apply W in Pb. simpl in Pa. lia.
    - pose proof (R _ Pb). apply S in Pb. apply W in Pa. simpl in Pb. lia.
  Qed.

  Lemma highest_unique a b : highest h a -> highest h b -> a = b.
  Proof using.
    clear L.
    intros [Ia Ha] [Ib Hb]. apply pips_inj. specialize (Ha _ Ib). specialize (Hb _ Ia). lia.
  Qed.
End hand.

Lemma suited_NoDup h : NoDup h -> suited h -> NoDup (ranks h).
Proof.
  intros N [s Hs]. induction N as [|[r s'] h Hx Hh IH]; simpl; [constructor|].
  inversion Hs as [|? ? E F]; subst. simpl in *. constructor; [|apply IH; exact F].
  intros Hin. apply Hx. unfold ranks in Hin. apply in_map_iff in Hin.
  destruct Hin as ([r2 s2] & E & Hin). simpl in E. subst r2.
  rewrite Forall_forall in F. pose proof (F _ Hin) as G. simpl in G. subst s2. exact Hin.
Qed.

(** ** The rules assign at most one class *)
Definition paired (c : eval_class) : bool :=
  match c with
  | FourOfAKind _ | FullHouse _ _ | ThreeOfAKind _ | TwoPair _ _ | Pair _ => true
  | _ => false
  end.

Lemma unpaired_count h c : five_card_hand h -> classify h c -> paired c = false ->
  forall r, count r h <= 1.
Proof.
  intros [N L] H P. destruct c; simpl in *; try discriminate.
  - tauto.
  - apply NoDup_ranks_count. eapply in_sequence_NoDup. apply H.
  - apply NoDup_ranks_count. apply suited_NoDup; [exact N|apply H].
  - apply NoDup_ranks_count. eapply in_sequence_NoDup. apply H.
Qed.

Lemma paired_count h c : classify h c -> paired c = true -> exists r, 2 <= count r h.
Proof.
  intros H P. destruct c; simpl in *; try discriminate.
  - exists pair; lia.
  - exists first_pair; lia.
  - exists trips; lia.
  - exists trips; lia.
  - exists quads; lia.
Qed.

Ltac kickers :=
  match goal with
  | N : ?x <> ?p, H : forall r, r <> ?p -> count r ?h <= 1 |- _ => specialize (H _ N); lia
  end.
Ltac nopair :=
  match goal with
  | A : forall r, count r ?h <> 2, B : count ?x ?h = 2 |- _ => exact (A _ B)
  end.

Theorem classify_unique h c1 c2 :
  five_card_hand h -> classify h c1 -> classify h c2 -> c1 = c2.
Proof.
  intros F H1 H2. pose proof (proj2 F) as L.
  destruct (paired c1) eqn:P1, (paired c2) eqn:P2.
  - clear F. pose proof (count2 h L) as C2. pose proof (count3 h L) as C3.
    assert (Q : forall a b, 6 <= count a h + count b h -> a = b).
    { intros a b Hab. destruct (rank_dec a b) as [->|Nab]; [reflexivity|].
      specialize (C2 _ _ Nab). lia. }
    assert (T : forall a b c, 6 <= count a h + count b h + count c h -> a = b \/ a = c \/ b = c).
    { intros a b c Habc. destruct (rank_dec a b) as [->|N1]; [auto|].
      destruct (rank_dec a c) as [->|N2]; [auto|]. destruct (rank_dec b c) as [->|N3]; [auto|].
      specialize (C3 _ _ _ N1 N2 N3). lia. }
    clear C2 C3.
    assert (R : forall a b, count a h <> count b h -> a <> b) by congruence.
    destruct c1, c2; simpl in *; try discriminate;
      repeat match goal with
             | H : _ /\ _ |- _ => destruct H
             end.
    (* Pair/Pair *)
    + f_equal. destruct (rank_dec pair pair0) as [->|N]; [reflexivity|]. kickers.
    + (* Pair/TwoPair *)
      exfalso. destruct (rank_dec first_pair pair) as [->|N].
      * destruct (rank_dec second_pair pair) as [->|N]; [lia|].
        kickers.
      * kickers.
    + exfalso. destruct (rank_dec trips pair) as [->|N]; [lia|]. kickers.
    + exfalso. destruct (rank_dec trips pair) as [->|N]; [lia|]. kickers.
    + exfalso. destruct (rank_dec quads pair) as [->|N]; [lia|]. kickers.
    (* TwoPair/_ *)
    + exfalso. destruct (rank_dec first_pair pair) as [->|N].
      * destruct (rank_dec second_pair pair) as [->|N]; [lia|].
        kickers.
      * kickers.
    + assert (E1 := T first_pair second_pair first_pair0).
      assert (E2 := T first_pair second_pair second_pair0).
      assert (D : first_pair <> second_pair) by (intros ->; lia).
      destruct E1 as [E|[E|E]]; [lia|congruence| |];
        destruct E2 as [E'|[E'|E']]; try lia; try congruence; subst; try lia; reflexivity.
    + exfalso. nopair.
    + exfalso. assert (D : first_pair <> second_pair) by (intros ->; lia).
      destruct (T trips first_pair second_pair) as [E|[E|E]]; [lia|subst; lia|subst; lia|congruence].
    + exfalso. assert (quads = first_pair) by (apply Q; lia). subst. lia.
    (* ThreeOfAKind/_ *)
    + exfalso. nopair.
    + exfalso. nopair.
    + f_equal. apply Q. lia.
    + exfalso. nopair.
    + exfalso. assert (trips = quads) by (apply Q; lia). subst. lia.
    (* FullHouse/_ *)
    + exfalso. destruct (rank_dec trips pair0) as [->|N]; [lia|]. kickers.
    + exfalso. assert (D : first_pair <> second_pair) by (intros ->; lia).
      destruct (T trips first_pair second_pair) as [E|[E|E]]; [lia|subst; lia|subst; lia|congruence].
    + exfalso. nopair.
    + assert (trips = trips0) by (apply Q; lia). subst trips0. f_equal.
      destruct (T trips pair pair0) as [E|[E|E]]; [lia|subst; lia|subst; lia|exact E].
    + exfalso. assert (trips = quads) by (apply Q; lia). subst. lia.
    (* FourOfAKind/_ *)
    + exfalso. destruct (rank_dec quads pair) as [->|N]; [lia|]. kickers.
    + exfalso. assert (quads = first_pair) by (apply Q; lia). subst. lia.
    + exfalso. assert (trips = quads) by (apply Q; lia). subst. lia.
    + exfalso. assert (trips = quads) by (apply Q; lia). subst. lia.
    + f_equal. apply Q. lia.
  - exfalso. destruct (paired_count _ _ H1 P1) as [r Hr].
    pose proof (unpaired_count _ _ F H2 P2 r). lia.
  - exfalso. destruct (paired_count _ _ H2 P2) as [r Hr].
    pose proof (unpaired_count _ _ F H1 P1 r). lia.
  - destruct c1, c2; simpl in *; try discriminate;
      try (exfalso; first [ tauto | destruct H1 as (A & B & C), H2 as (D & E); eapply B; exact E
                          | destruct H1 as (A & B), H2 as (C & D & E); eapply D; exact B ]).
    + f_equal. eapply highest_unique; [apply H1|apply H2].
    + f_equal. eapply in_sequence_unique; [apply H1|apply H2].
    + f_equal. eapply highest_unique; [apply H1|apply H2].
    + f_equal. eapply in_sequence_unique; [apply H1|apply H2].
Qed.

(** ** The boolean version on a canonical hand *)
Section canonical.
  Context (h : list face) (f : bool) (m : list rank).
  Context (L : length h = 5) (P : Permutation (ranks h) m) (Sf : suited h <-> f = true).

  Lemma canon_len : length m = 5.
  Proof using L P.
    rewrite <- (Permutation_length P). unfold ranks. rewrite map_length. exact L.
  Qed.

  Lemma canon_count r : count_occ rank_dec m r = count r h.
  Proof using P.
    unfold count. symmetry.
    apply (proj1 (Permutation_count_occ rank_dec (ranks h) m) P).
  Qed.

  Lemma rank_eqb_eq a b : rank_eqb a b = true <-> a = b.
  Proof using. destruct a, b; vm_compute; split; intros; congruence. Qed.

  Lemma sequenceb_spec top : sequenceb m top = true <-> in_sequence h top.
  Proof using L P.
    clear Sf f.
    unfold sequenceb, in_sequence. rewrite orb_true_iff, andb_true_iff, !forallb_forall, rank_eqb_eq.
    split; (intros [H|[E H]]; [left|right; split; [exact E|]]).
    - assert (I : incl [pips top - 4; pips top - 3; pips top - 2; pips top - 1; pips top] (map pips m)).
      { intros i Hi. specialize (H i Hi). apply existsb_exists in H. destruct H as (r & Hr & E).
        apply Nat.eqb_eq in E. subst i. apply in_map. exact Hr. }
      assert (6 <= pips top).
      { specialize (I (pips top - 4) (or_introl eq_refl)). apply in_map_iff in I.
        destruct I as (r & E & _). pose proof (pips_range r). lia. }
      rewrite (Permutation_map pips P). symmetry. apply NoDup_Permutation_bis.
      + repeat constructor; simpl; lia.
      + rewrite map_length, canon_len. simpl. lia.
      + exact I.
    - rewrite P. symmetry. apply NoDup_Permutation_bis.
      + repeat constructor; simpl; intuition congruence.
      + rewrite canon_len. simpl. lia.
      + intros r Hr. specialize (H r Hr). apply existsb_exists in H. destruct H as (r' & Hr' & E').
        apply rank_eqb_eq in E'. subst. exact Hr'.
    - intros i Hi. apply existsb_exists. apply (Permutation_in _ (Permutation_sym H)) in Hi.
      apply (Permutation_in _ (Permutation_map pips P)) in Hi. apply in_map_iff in Hi.
      destruct Hi as (r & E & Hr). exists r. split; [exact Hr|]. apply Nat.eqb_eq. exact E.
    - intros r Hr. apply existsb_exists. exists r. split; [|apply rank_eqb_eq; reflexivity].
      apply (Permutation_in _ P), (Permutation_in _ (Permutation_sym H)). exact Hr.
  Qed.

  Lemma no_sequenceb_spec : no_sequenceb m = true <-> forall r, ~ in_sequence h r.
  Proof using L P.
    clear Sf f.
    unfold no_sequenceb. rewrite forallb_forall. split; intros H r.
    - rewrite <- sequenceb_spec. specialize (H r (in_high_to_low r)).
      apply negb_true_iff in H. congruence.
    - intros _. apply negb_true_iff, not_true_iff_false. rewrite sequenceb_spec. apply H.
  Qed.

  Lemma highestb_spec r : highestb m r = true <-> highest h r.
  Proof using P.
    clear Sf f L.
    unfold highestb, highest. rewrite andb_true_iff, existsb_exists, forallb_forall.
    split; intros [H1 H2]; split.
    - destruct H1 as (r' & Hr & E). apply rank_eqb_eq in E. subst.
      apply (Permutation_in _ (Permutation_sym P)). exact Hr.
    - intros r' Hr. apply Nat.leb_le, H2, (Permutation_in _ P). exact Hr.
    - exists r. split; [apply (Permutation_in _ P); exact H1 | apply rank_eqb_eq; reflexivity].
    - intros r' Hr. apply Nat.leb_le, H2, (Permutation_in _ (Permutation_sym P)). exact Hr.
  Qed.

  Lemma unsuited_b : negb f = true <-> ~ suited h.
  Proof using Sf. rewrite Sf. destruct f; simpl; intuition congruence. Qed.

  Lemma classifyb_spec c : classifyb f m c = true <-> classify h c.
  Proof using L P Sf.
    destruct c; cbn [classifyb classify];
      rewrite ?andb_true_iff, ?unsuited_b, <- ?Sf, ?no_sequenceb_spec, ?sequenceb_spec,
        ?highestb_spec, ?Nat.eqb_eq, ?Nat.ltb_lt, ?canon_count, ?forallb_forall.
    - rewrite <- !and_assoc. apply and_iff_compat_r, and_iff_compat_l.
      split; intros H r; [|intros _]; specialize (H r).
      + apply Nat.leb_le. rewrite <- canon_count. apply H, in_high_to_low.
      + apply Nat.leb_le. rewrite canon_count. exact H.
    - apply and_iff_compat_l. split.
      + intros H r Hr. specialize (H r (in_high_to_low r)). rewrite canon_count in H.
        destruct (rank_dec r pair); [congruence|]. apply Nat.leb_le. exact H.
      + intros H r _. destruct (rank_dec r pair); [reflexivity|]. apply Nat.leb_le.
        rewrite canon_count. auto.
    - tauto.
    - apply and_iff_compat_l. split.
      + intros H r. specialize (H r (in_high_to_low r)). rewrite canon_count in H.
        apply negb_true_iff, Nat.eqb_neq in H. exact H.
      + intros H r _. apply negb_true_iff, Nat.eqb_neq. rewrite canon_count. apply H.
    - tauto.
    - tauto.
    - tauto.
    - tauto.
    - tauto.
  Qed.

  Lemma by_mult_spec : by_mult m = by_multiplicity h.
  Proof using P.
    unfold by_mult, by_multiplicity. apply flat_map_ext. intros n.
    apply filter_ext. intros r. rewrite canon_count. reflexivity.
  Qed.

  Lemma decidersb_spec c : decidersb c m = deciders c h.
  Proof using P. destruct c; simpl; rewrite ?by_mult_spec; reflexivity. Qed.

  Lemma strength_spec c : strength c m = category c :: map pips (deciders c h).
  Proof using P. unfold strength. rewrite decidersb_spec. reflexivity. Qed.
End canonical.

Lemma lexgtb_spec a b : lexgtb (map pips a) (map pips b) = true <-> lex_gt a b.
Proof.
  revert b. induction a as [|x a IH]; intros [|y b]; cbn [map lexgtb lex_gt];
    try (split; [discriminate|tauto]).
  rewrite orb_true_iff, andb_true_iff, Nat.ltb_lt, Nat.eqb_eq, IH.
  split; intros [H|[H1 H2]]; auto; right; split; auto.
  - apply pips_inj. exact H1.
  - congruence.
Qed.

Lemma map_pips_inj a b : map pips a = map pips b -> a = b.
Proof.
  revert b. induction a as [|x a IH]; intros [|y b] H; simpl in H; try discriminate; [reflexivity|].
  injection H as H1 H2. f_equal; [apply pips_inj; exact H1|auto].
Qed.

Lemma lex_gt_irrefl a : ~ lex_gt a a.
Proof. induction a as [|x a IH]; simpl; [tauto|]. intros [H|[_ H]]; [lia|tauto]. Qed.
