(** FiveFacts.v: [five] (src/evaluate/evaluation.rs:39-52) on five different cards. *)
From Coq Require Import Lia List Arith Bool Permutation.
From Verif Require Import Base BaseFacts ModelCard ModelEval ModelTable ModelEvaluation.
From Verif Require Import Spec CardFacts Sweep SweepFacts SpecFacts.
Import ListNotations.

(** ** Folding a commutative operation does not depend on the order *)
Lemma fold_left_perm {A B} (f : A -> B -> A) l l' :
  (forall a x y, f (f a x) y = f (f a y) x) ->
  Permutation l l' -> forall a, fold_left f l a = fold_left f l' a.
Proof.
  intros C P. induction P; intros a; simpl; auto.
  - rewrite C. reflexivity.
  - rewrite IHP1. apply IHP2.
Qed.

Lemma lor_perm l l' a : Permutation l l' -> fold_left Z.lor l a = fold_left Z.lor l' a.
Proof.
  intros P. apply fold_left_perm; [|exact P]. intros b x y.
  rewrite <- !Z.lor_assoc. f_equal. apply Z.lor_comm.
Qed.

Lemma wrapping_mul_swap a x y :
  wrapping_mul_i32 (wrapping_mul_i32 a x) y = wrapping_mul_i32 (wrapping_mul_i32 a y) x.
Proof.
  unfold wrapping_mul_i32. rewrite !wrap_i32_mul_l. f_equal. ring.
Qed.

Lemma mul_perm l l' a :
  Permutation l l' -> fold_left wrapping_mul_i32 l a = fold_left wrapping_mul_i32 l' a.
Proof. intros P. apply fold_left_perm; [|exact P]. apply wrapping_mul_swap. Qed.

(** ** Every list of ranks is a permutation of a listed multiset *)
Lemma multisets_complete rs : forall k l,
  (forall r, In r l -> In r rs) -> length l = k ->
  exists m, In m (multisets rs k) /\ Permutation l m.
Proof.
  induction rs as [|r rs IH].
  - intros k [|x l] H L; simpl in *; [|exfalso; eapply H; left; reflexivity].
    subst k. exists []. simpl. auto.
  - induction k as [|k IHk]; intros l H L.
    + destruct l; [|discriminate]. exists []. simpl. auto.
    + destruct (in_dec rank_dec r l) as [Hin|Hout].
      * apply in_split in Hin. destruct Hin as (l1 & l2 & ->).
        destruct (IHk (l1 ++ l2)) as (m & Hm & Pm).
        { intros x Hx. apply H. rewrite in_app_iff in *. simpl. tauto. }
        { rewrite app_length in *. simpl in L. lia. }
        exists (r :: m). split.
        -- simpl. apply in_or_app. left. apply in_map. exact Hm.
        -- rewrite <- Pm. symmetry. apply Permutation_middle.
      * destruct (IH (S k) l) as (m & Hm & Pm); [|exact L|].
        { intros x Hx. destruct (H x Hx) as [->|Hr]; [contradiction|exact Hr]. }
        exists m. split; [|exact Pm]. simpl. apply in_or_app. right. exact Hm.
Qed.

Lemma combs_complete {T} (dec : forall a b : T, {a = b} + {a <> b}) (rs : list T) : forall n l,
  NoDup l -> incl l rs -> length l = n ->
  exists m, In m (combs n rs) /\ Permutation l m.
Proof.
  induction rs as [|r rs IH]; intros n l N I L.
  - destruct l as [|x l]; [|exfalso; apply (I x); left; reflexivity].
    subst n. exists []. simpl. auto.
  - destruct n as [|n].
    { destruct l; [|discriminate]. exists []. simpl. auto. }
    destruct (in_dec dec r l) as [Hin|Hout].
    + apply in_split in Hin. destruct Hin as (l1 & l2 & ->).
      apply NoDup_remove in N. destruct N as [N Nr].
      destruct (IH n (l1 ++ l2)) as (m & Hm & Pm); [exact N| | |].
      { intros x Hx. destruct (I x) as [->|Hr]; [|contradiction|exact Hr].
        rewrite in_app_iff in *. simpl. tauto. }
      { rewrite app_length in *. simpl in L. lia. }
      exists (r :: m). split.
      * simpl. apply in_or_app. left. apply in_map. exact Hm.
      * rewrite <- Pm. symmetry. apply Permutation_middle.
    + destruct (IH (S n) l) as (m & Hm & Pm); [exact N| |exact L|].
      { intros x Hx. destruct (I x Hx) as [->|Hr]; [contradiction|exact Hr]. }
      exists m. split; [|exact Pm]. simpl. apply in_or_app. right. exact Hm.
Qed.

(** ** No rank occurs more than four times *)
Lemma count_le_4 h r : NoDup h -> count r h <= 4.
Proof.
  intros N. unfold count.
  assert (E : count_occ rank_dec (ranks h) r
              = length (filter (fun f => if rank_dec (fst f) r then true else false) h)).
  { clear. induction h as [|f h IH]; simpl; [reflexivity|].
    destruct (rank_dec (fst f) r); simpl; rewrite IH; reflexivity. }
  rewrite E.
  apply (NoDup_incl_length (l' := map (pair r) SUIT_ALL_VARIANTS)).
  - apply NoDup_filter. exact N.
  - intros [r' s] H. apply filter_In in H. destruct H as [_ H]. simpl in H.
    destruct (rank_dec r' r) as [->|]; [|discriminate].
    apply in_map. apply in_all_suits.
Qed.

Lemma suited_dec h : {suited h} + {~ suited h}.
Proof.
  destruct h as [|f h]; [left; exists Clubs; constructor|].
  destruct (Forall_dec (fun g : face => snd g = snd f) (fun g => suit_dec _ _) (f :: h)) as [H|H].
  - left. exists (snd f). exact H.
  - right. intros [s Hs]. apply H. inversion Hs; subst. exact Hs.
Qed.

(** ** Reduction to a canonical hand *)
Lemma canon_exists h : five_card_hand h ->
  exists c, In c canons /\ Permutation (ranks h) (snd c) /\ (suited h <-> fst c = true).
Proof.
  intros [N L]. destruct (suited_dec h) as [Hs|Hs].
  - destruct (combs_complete rank_dec high_to_low 5 (ranks h)) as (m & Hm & Pm).
    + apply suited_NoDup; assumption.
    + intros r _. apply in_high_to_low.
    + apply ranks_length. exact L.
    + exists (true, m). split; [apply in_canons_suited; exact Hm|].
      split; [exact Pm|]. simpl. tauto.
  - destruct (multisets_complete high_to_low 5 (ranks h)) as (m & Hm & Pm).
    + intros r _. apply in_high_to_low.
    + apply ranks_length. exact L.
    + exists (false, m). split; [|split; [exact Pm|simpl; intuition congruence]].
      apply in_canons_unsuited; [exact Hm|].
      unfold at_most_four. apply forallb_forall. intros r _. apply Nat.leb_le.
      rewrite (canon_count h m Pm). apply count_le_4. exact N.
Qed.

(** ** Flush detection *)
Definition suit_mask (s : suit) : Z := Z.shiftl (suit_as_i32 s) 12.

Lemma card_suit_mask r s : Z.land (unique_integer (card_new r s)) 61440 = suit_mask s.
Proof. destruct r, s; reflexivity. Qed.

Lemma suit_mask_land a b :
  Z.land (suit_mask a) (suit_mask b) = if suit_dec a b then suit_mask a else 0%Z.
Proof. destruct a, b; reflexivity. Qed.

Lemma mask_absorb l : forall a,
  fold_left Z.land l (Z.land a 61440) =
  fold_left Z.land (map (fun u => Z.land u 61440) l) (Z.land a 61440).
Proof.
  induction l as [|x l IH]; intros a; cbn [fold_left map]; [reflexivity|].
  replace (Z.land (Z.land a 61440) x) with (Z.land (Z.land a x) 61440)
    by (rewrite <- !Z.land_assoc; f_equal; apply Z.land_comm).
  rewrite IH. f_equal.
  replace (Z.land (Z.land a 61440) (Z.land x 61440))
    with (Z.land (Z.land a x) (Z.land 61440 61440)); [reflexivity|].
  rewrite <- !Z.land_assoc. f_equal. rewrite !Z.land_assoc. f_equal. apply Z.land_comm.
Qed.

Lemma fold_land_zero l : fold_left Z.land l 0%Z = 0%Z.
Proof. induction l; simpl; auto. Qed.

Lemma fold_suit_mask l : forall s,
  fold_left Z.land (map suit_mask l) (suit_mask s)
  = if Forall_dec (fun s' => s' = s) (fun s' => suit_dec s' s) l then suit_mask s else 0%Z.
Proof.
  induction l as [|x l IH]; intros s; cbn [map fold_left].
  - destruct (Forall_dec _ _ _) as [H|H]; [reflexivity|]. exfalso. apply H. constructor.
  - rewrite suit_mask_land. destruct (suit_dec s x) as [<-|Nx].
    + rewrite IH. destruct (Forall_dec _ _ l) as [H|H], (Forall_dec _ _ (s :: l)) as [H'|H'];
        try reflexivity; exfalso.
      * apply H'. constructor; [reflexivity|exact H].
      * apply H. inversion H'; assumption.
    + rewrite fold_land_zero. destruct (Forall_dec _ _ _) as [H|H]; [|reflexivity].
      inversion H. congruence.
Qed.

Lemma detect_flush_spec h : all_cards h -> h <> [] ->
  negb (fold_left Z.land (map unique_integer h) 61440 =? 0)%Z = true <-> suited (faces h).
Proof.
  intros A NE. rewrite negb_true_iff, Z.eqb_neq.
  change 61440%Z with (Z.land 61440 61440) at 1. rewrite mask_absorb.
  assert (E : map (fun u => Z.land u 61440) (map unique_integer h)
              = map suit_mask (map card_suit h)).
  { rewrite !map_map. apply map_ext_in. intros c Hc.
    unfold all_cards in A. rewrite Forall_forall in A. destruct (A c Hc) as (r & s & ->).
    rewrite card_suit_new. apply card_suit_mask. }
  rewrite E. clear E A. destruct h as [|c h]; [congruence|]. cbn [map fold_left].
  change (Z.land 61440 61440) with 61440%Z.
  replace (Z.land 61440 (suit_mask (card_suit c))) with (suit_mask (card_suit c))
    by (destruct (card_suit c); reflexivity).
  rewrite fold_suit_mask. destruct (Forall_dec _ _ _) as [H|H].
  - split; intros _.
    + exists (card_suit c). constructor; [reflexivity|].
      unfold faces. apply Forall_forall. intros f Hf. apply in_map_iff in Hf.
      destruct Hf as (d & <- & Hd). simpl. rewrite Forall_forall in H. apply H.
      apply in_map. exact Hd.
    + destruct (card_suit c); discriminate.
  - split; [congruence|]. intros [s Hs]. exfalso. apply H.
    inversion Hs as [|? ? E F]; subst. simpl. apply Forall_forall. intros s Hin.
    apply in_map_iff in Hin. destruct Hin as (d & <- & Hd).
    rewrite Forall_forall in F. apply (F (face_of d)). apply in_map. exact Hd.
Qed.

(** ** Keys *)
Lemma card_bit r s :
  Z.shiftr (unique_integer (card_new r s)) 16 = Z.shiftl 1 (rank_as_i32 r).
Proof. destruct r, s; reflexivity. Qed.

Lemma card_prime r s s' :
  Z.land (unique_integer (card_new r s)) 255 = Z.land (unique_integer (card_new r s')) 255.
Proof. destruct r, s, s'; reflexivity. Qed.

Lemma shiftr_fold_lor l n : forall a,
  Z.shiftr (fold_left Z.lor l a) n
  = fold_left Z.lor (map (fun u => Z.shiftr u n) l) (Z.shiftr a n).
Proof.
  induction l as [|x l IH]; intros a; simpl; [reflexivity|].
  rewrite IH, Z.shiftr_lor. reflexivity.
Qed.

Lemma ranks_faces h : ranks (faces h) = map card_rank h.
Proof. unfold ranks, faces. rewrite map_map. reflexivity. Qed.

Definition ev_of (t : lookup_table) : evaluation := evaluator_evaluation (Evaluator t).

(** ** [five] looks up the entry of the canonical hand *)
Lemma five_canon t h c : all_cards h -> h <> [] ->
  Permutation (ranks (faces h)) (snd c) -> (suited (faces h) <-> fst c = true) ->
  forall m, canon_meta t c = Some m -> five (ev_of t) h = Ret (MkEval m).
Proof.
  intros A NE P Sf m Hm. unfold five.
  pose proof (detect_flush_spec h A NE) as D.
  destruct (negb _).
  - assert (F : fst c = true) by (apply Sf, D; reflexivity).
    unfold canon_meta in Hm. destruct (canon_key c) as [k| |] eqn:K; try discriminate.
    unfold canon_key in K. rewrite F in *.
    assert (E : Z.shiftr (fold_left Z.lor (map unique_integer h) 0%Z) 16
                = fold_left Z.lor (map (fun r => Z.shiftl 1 (rank_as_i32 r)) (snd c)) 0%Z).
    { rewrite shiftr_fold_lor, map_map. change (Z.shiftr 0 16) with 0%Z.
      rewrite <- (lor_perm _ _ 0%Z (Permutation_map (fun r => Z.shiftl 1 (rank_as_i32 r)) P)).
      rewrite ranks_faces, map_map. f_equal. apply map_ext_in. intros d Hd.
      unfold all_cards in A. rewrite Forall_forall in A. destruct (A d Hd) as (r & s & ->).
      rewrite card_rank_new. apply card_bit. }
    rewrite E, K. simpl. unfold index_key. rewrite Hm. reflexivity.
  - assert (F : fst c = false).
    { destruct (fst c); [|reflexivity]. assert (false = true) by (apply D, Sf; reflexivity).
      discriminate. }
    unfold canon_meta, canon_key in Hm. rewrite F in Hm.
    assert (E : prime_product_from_hand h
      = fold_left wrapping_mul_i32
           (map (fun r => Z.land (unique_integer (card_new r Clubs)) 255) (snd c)) 1%Z).
    { unfold prime_product_from_hand.
      rewrite <- (mul_perm _ _ 1%Z
        (Permutation_map (fun r => Z.land (unique_integer (card_new r Clubs)) 255) P)).
      rewrite ranks_faces, map_map. f_equal. apply map_ext_in. intros d Hd.
      unfold all_cards in A. rewrite Forall_forall in A. destruct (A d Hd) as (r & s & ->).
      rewrite card_rank_new. apply card_prime. }
    rewrite E. simpl. unfold index_key. rewrite Hm. reflexivity.
Qed.

Lemma hand5_faces h : hand5 h -> five_card_hand (faces h).
Proof.
  intros (A & N & L). split; [apply NoDup_faces; assumption|].
  unfold faces. rewrite map_length. exact L.
Qed.

(** Summary: [five] succeeds; its result is the table entry of the canonical hand. *)
Lemma five_spec t h : lookup_table_new = Ret t -> hand5 h ->
  exists c m, In c canons /\ Permutation (ranks (faces h)) (snd c)
    /\ (suited (faces h) <-> fst c = true)
    /\ canon_meta t c = Some m /\ five (ev_of t) h = Ret (MkEval m)
    /\ classify (faces h) (meta_class m) /\ (1 <= phr (meta_hand_rank m) <= 7462)%Z.
Proof.
  intros Ht H. pose proof (hand5_faces h H) as F. destruct H as (A & N & L).
  destruct (canon_exists _ F) as (c & Hc & P & Sf).
  destruct (canon_found t Ht c Hc) as (m & Hm & Hcl & Hr & _).
  exists c, m. repeat (split; [assumption|]). split.
  - apply (five_canon t h c); auto. intros ->. discriminate.
  - split; [|exact Hr]. apply (classifyb_spec (faces h) (fst c) (snd c)); auto.
    unfold faces. rewrite map_length. exact L.
Qed.

(** Existence of a class, hence (with [classify_unique]) exactly one. *)
Lemma classify_exists h : five_card_hand h -> exists c, classify h c.
Proof.
  intros F. destruct (canon_exists h F) as (c & Hc & P & Sf).
  destruct table_new_ret as [t Ht].
  destruct (canon_found t Ht c Hc) as (m & _ & Hcl & _).
  exists (meta_class m). apply (classifyb_spec h (fst c) (snd c)); auto. apply F.
Qed.

(** Rank numbers order hands as the rules do. *)
Lemma five_beats t h1 h2 e1 e2 : lookup_table_new = Ret t -> hand5 h1 -> hand5 h2 ->
  five (ev_of t) h1 = Ret e1 -> five (ev_of t) h2 = Ret e2 ->
  ((phr (eval_hand_rank e1) < phr (eval_hand_rank e2))%Z <-> beats (faces h1) (faces h2)).
Proof.
  intros Ht H1 H2 E1 E2.
  pose proof (hand5_faces h1 H1) as F1. pose proof (hand5_faces h2 H2) as F2.
  destruct (five_spec t h1 Ht H1) as (c1 & m1 & I1 & P1 & S1 & M1 & V1 & C1 & R1).
  destruct (five_spec t h2 Ht H2) as (c2 & m2 & I2 & P2 & S2 & M2 & V2 & C2 & R2).
  rewrite E1 in V1. injection V1 as ->. rewrite E2 in V2. injection V2 as ->.
  unfold eval_hand_rank. cbn [eval_meta].
  assert (B : beats (faces h1) (faces h2) <->
    lexgtb (strength (meta_class m1) (snd c1)) (strength (meta_class m2) (snd c2)) = true).
  { rewrite (strength_spec _ _ P1), (strength_spec _ _ P2). cbn [lexgtb].
    rewrite orb_true_iff, andb_true_iff, Nat.ltb_lt, Nat.eqb_eq, lexgtb_spec.
    split.
    - intros (d1 & d2 & D1 & D2 & G).
      rewrite (classify_unique _ _ _ F1 C1 D1), (classify_unique _ _ _ F2 C2 D2). exact G.
    - intros G. exists (meta_class m1), (meta_class m2). auto. }
  rewrite B. split.
  - intros Lt. eapply canon_rank_strength; eauto.
  - intros G. destruct (Z.lt_trichotomy (phr (meta_hand_rank m1)) (phr (meta_hand_rank m2)))
      as [Lt|[Eq|Gt]]; [exact Lt| |]; exfalso.
    + assert (c1 = c2) by (eapply canon_rank_inj; eauto). subst c2.
      assert (m1 = m2) by congruence. subst m2. rewrite lexgtb_irrefl in G. discriminate.
    + assert (G' := canon_rank_strength t Ht c2 c1 m2 m1 I2 I1 M2 M1 Gt).
      rewrite (lexgtb_asym _ _ G) in G'. discriminate.
Qed.

Lemma five_ties t h1 h2 e1 e2 : lookup_table_new = Ret t -> hand5 h1 -> hand5 h2 ->
  five (ev_of t) h1 = Ret e1 -> five (ev_of t) h2 = Ret e2 ->
  (phr (eval_hand_rank e1) = phr (eval_hand_rank e2) <-> ties (faces h1) (faces h2)).
Proof.
  intros Ht H1 H2 E1 E2.
  pose proof (hand5_faces h1 H1) as F1. pose proof (hand5_faces h2 H2) as F2.
  destruct (five_spec t h1 Ht H1) as (c1 & m1 & I1 & P1 & S1 & M1 & V1 & C1 & R1).
  destruct (five_spec t h2 Ht H2) as (c2 & m2 & I2 & P2 & S2 & M2 & V2 & C2 & R2).
  rewrite E1 in V1. injection V1 as ->. rewrite E2 in V2. injection V2 as ->.
  unfold eval_hand_rank. cbn [eval_meta].
  assert (B : ties (faces h1) (faces h2) <->
    strength (meta_class m1) (snd c1) = strength (meta_class m2) (snd c2)).
  { rewrite (strength_spec _ _ P1), (strength_spec _ _ P2). split.
    - intros (d1 & d2 & D1 & D2 & G1 & G2).
      rewrite (classify_unique _ _ _ F1 C1 D1), (classify_unique _ _ _ F2 C2 D2). congruence.
    - intros G. injection G as G1 G2. exists (meta_class m1), (meta_class m2).
      repeat (split; [assumption|]). apply map_pips_inj. exact G2. }
  rewrite B. split.
  - intros Eq. assert (c1 = c2) by (eapply canon_rank_inj; eauto). subst c2. congruence.
  - intros G. destruct (Z.lt_trichotomy (phr (meta_hand_rank m1)) (phr (meta_hand_rank m2)))
      as [Lt|[Eq|Gt]]; [|exact Eq|]; exfalso.
    + assert (G' := canon_rank_strength t Ht c1 c2 m1 m2 I1 I2 M1 M2 Lt).
      rewrite G, lexgtb_irrefl in G'. discriminate.
    + assert (G' := canon_rank_strength t Ht c2 c1 m2 m1 I2 I1 M2 M1 Gt).
      rewrite G, lexgtb_irrefl in G'. discriminate.
Qed.

(** Equal rank numbers come from the same table entry. *)
Lemma five_same_rank t h1 h2 e1 e2 : lookup_table_new = Ret t -> hand5 h1 -> hand5 h2 ->
  five (ev_of t) h1 = Ret e1 -> five (ev_of t) h2 = Ret e2 ->
  (phr (eval_hand_rank e1) = phr (eval_hand_rank e2) <->
   Permutation (ranks (faces h1)) (ranks (faces h2))
   /\ (suited (faces h1) <-> suited (faces h2))) /\
  (phr (eval_hand_rank e1) = phr (eval_hand_rank e2) -> e1 = e2).
Proof.
  intros Ht H1 H2 E1 E2.
  destruct (five_spec t h1 Ht H1) as (c1 & m1 & I1 & P1 & S1 & M1 & V1 & C1 & R1).
  destruct (five_spec t h2 Ht H2) as (c2 & m2 & I2 & P2 & S2 & M2 & V2 & C2 & R2).
  rewrite E1 in V1. injection V1 as ->. rewrite E2 in V2. injection V2 as ->.
  unfold eval_hand_rank. cbn [eval_meta].
  assert (Q : phr (meta_hand_rank m1) = phr (meta_hand_rank m2) -> c1 = c2).
  { intros Eq. eapply canon_rank_inj; eauto. }
  split; [split|].
  - intros Eq. apply Q in Eq. subst c2. split; [|tauto].
    rewrite P1. symmetry. exact P2.
  - intros [P S].
    assert (G : five (ev_of t) h2 = Ret (MkEval m1)).
    { destruct H2 as (A2 & N2 & L2).
      apply (five_canon t h2 c1); auto; [intros ->; discriminate| |tauto].
      rewrite <- P. exact P1. }
    congruence.
  - intros Eq. apply Q in Eq. subst c2. congruence.
Qed.
