(** SubhandFacts.v: the result of a hand and those of the hands within it. *)
From Coq Require Import Lia List Arith Permutation ZArith.
From Verif Require Import Base ModelCard ModelEval ModelTable ModelEvaluation Spec SpecApi SpecLookup Samples.
From Verif Require Import EvaluateFacts.
From Verif Require HandFacts LawFacts SizeFacts.
Import ListNotations.

Lemma card_dec (a b : card) : {a = b} + {a <> b}.
Proof. decide equality. apply Z.eq_dec. Qed.
Lemma all_in h h' : all_cards h -> incl h' h -> all_cards h'.
Proof. unfold all_cards. rewrite !Forall_forall. intros A I c H. exact (A c (I c H)). Qed.

(** Results that are not worse than each other are the same. *)
Lemma level ev h h' e e' : new_evaluator ev -> legal h -> legal h' -> evaluates ev h e -> evaluates ev h' e' ->
  eval_cmp e e' <> Lt -> eval_cmp e' e <> Lt -> e = e'.
Proof.
  intros Hev L L' E E' A B. rewrite HandFacts.cmp_not_Lt in A, B.
  apply (HandFacts.same_value ev h h'); auto. lia.
Qed.

Theorem between ev h e : new_evaluator ev -> all_cards h -> evaluates ev h e ->
  exists five, five_of h five /\ forall h', NoDup h' -> incl five h' -> incl h' h -> evaluates ev h' e.
Proof.
  intros Hev A E. destruct (HandFacts.best_five ev h e Hev A E) as (x & Hx & I & V). exists x.
  split; [split; assumption|]. intros h' N I1 I2.
  assert (L' : legal h').
  { split; [exact (all_in h h' A I2)|]. split; [exact N|]. destruct Hx as (_ & Nx & <-). exact (NoDup_incl_length Nx I1). }
  destruct (HandFacts.evaluate_spec ev h' Hev L') as (e' & E' & _).
  pose proof (HandFacts.more_cards ev x h' e e' Hev (proj1 L') I1 V E') as M1.
  pose proof (HandFacts.more_cards ev h' h e' e Hev A I2 E' E) as M2.
  rewrite (level ev h h' e e' Hev (HandFacts.evaluates_legal ev h e A E) L' E E' M2 M1). exact E'.
Qed.

(** Five cards and further ones out of [h]. *)
Lemma fill (h five : list card) m : NoDup h -> NoDup five -> incl five h -> length five <= m <= length h ->
  exists h', NoDup h' /\ length h' = m /\ incl five h' /\ incl h' h.
Proof.
  intros N Nf I M.
  set (rest := filter (fun c => if in_dec card_dec c five then false else true) h).
  assert (R : forall c, In c rest <-> In c h /\ ~ In c five).
  { intros c. unfold rest. rewrite filter_In. destruct (in_dec card_dec c five); intuition congruence. }
  assert (P : Permutation h (five ++ rest)).
  { apply NoDup_Permutation; [exact N| |].
    - apply SizeFacts.NoDup_app_disj; [exact Nf|apply NoDup_filter; exact N|]. intros c H1 H2. apply R in H2. tauto.
    - intros c. rewrite in_app_iff, R. destruct (in_dec card_dec c five) as [H|H]; [|tauto]. specialize (I c H). tauto. }
  exists (firstn m (five ++ rest)). pose proof (Permutation_length P) as Lp.
  assert (X : firstn m (five ++ rest) = five ++ firstn (m - length five) rest).
  { rewrite firstn_app. rewrite firstn_all2 by lia. reflexivity. }
  split; [|split; [|split]].
  - assert (Q : NoDup (firstn m (five ++ rest) ++ skipn m (five ++ rest))).
    { rewrite firstn_skipn. exact (Permutation_NoDup P N). }
    clear - Q. induction (firstn m (five ++ rest)) as [|c l IH]; [constructor|]. cbn [app] in Q. inversion Q; subst.
    constructor; [intros H; apply H1; apply in_or_app; left; exact H|apply IH; assumption].
  - rewrite firstn_length. lia.
  - rewrite X. intros c H. apply in_or_app. left. exact H.
  - intros c H. apply (Permutation_in c (Permutation_sym P)). rewrite <- (firstn_skipn m). apply in_or_app. left. exact H.
Qed.

Theorem some_of_size ev h e m : new_evaluator ev -> all_cards h -> evaluates ev h e -> 5 <= m <= length h ->
  exists h', NoDup h' /\ length h' = m /\ incl h' h /\ evaluates ev h' e.
Proof.
  intros Hev A E M. destruct (between ev h e Hev A E) as (five & [(Af & Nf & Lf) I] & B).
  destruct (HandFacts.evaluates_legal ev h e A E) as (_ & N & _).
  destruct (fill h five m N Nf I) as (h' & N' & L' & I1 & I2); [lia|].
  exists h'. split; [exact N'|]. split; [exact L'|]. split; [exact I2|]. exact (B h' N' I1 I2).
Qed.

Theorem cover ev h e (part : list card -> Prop) : new_evaluator ev -> legal h ->
  (forall x, part x -> NoDup x /\ incl x h) ->
  (forall five, five_of h five -> exists x, part x /\ incl five x) ->
  (evaluates ev h e <-> (exists x, part x /\ evaluates ev x e)
                        /\ forall x e', part x -> evaluates ev x e' -> eval_cmp e e' <> Lt).
Proof.
  intros Hev L P C.
  assert (W : forall e, evaluates ev h e -> exists x, part x /\ evaluates ev x e).
  { intros e0 E. destruct (between ev h e0 Hev (proj1 L) E) as (five & F & B). destruct (C five F) as (x & Px & I).
    exists x. split; [exact Px|]. destruct (P x Px) as [Nx Ix]. exact (B x Nx I Ix). }
  split.
  - intros E. split; [exact (W e E)|]. intros x e' Px E'.
    exact (HandFacts.more_cards ev x h e' e Hev (proj1 L) (proj2 (P x Px)) E' E).
  - intros [(x & Px & E) M]. destruct (HandFacts.evaluate_spec ev h Hev L) as (e0 & E0 & _).
    destruct (W e0 E0) as (y & Py & Ey). pose proof (M y e0 Py Ey) as M1.
    destruct (P x Px) as [Nx Ix].
    pose proof (HandFacts.more_cards ev x h e e0 Hev (proj1 L) Ix E E0) as M2.
    assert (Lx : legal x) by exact (HandFacts.evaluates_legal ev x e (all_in h x (proj1 L) Ix) E).
    rewrite (level ev x h e e0 Hev Lx L E E0 M1 M2). exact E0.
Qed.

Theorem of_size ev h e m : new_evaluator ev -> legal h -> 5 <= m <= length h ->
  (evaluates ev h e <->
   (exists x, (NoDup x /\ length x = m /\ incl x h) /\ evaluates ev x e)
   /\ forall x e', NoDup x /\ length x = m /\ incl x h -> evaluates ev x e' -> eval_cmp e e' <> Lt).
Proof.
  intros Hev L M. apply (cover ev h e (fun x => NoDup x /\ length x = m /\ incl x h) Hev L).
  - intros x (N & _ & I). auto.
  - intros five [(_ & Nf & Lf) I]. destruct (fill h five m (proj1 (proj2 L)) Nf I) as (x & N & Lx & I1 & I2); [lia|].
    exists x. auto.
Qed.

Theorem one_less ev h e : new_evaluator ev -> legal h -> 5 < length h ->
  (evaluates ev h e <->
   (exists c x, Permutation h (c :: x) /\ evaluates ev x e)
   /\ forall c x e', Permutation h (c :: x) -> evaluates ev x e' -> eval_cmp e e' <> Lt).
Proof.
  intros Hev L M.
  rewrite (cover ev h e (fun x => exists c, Permutation h (c :: x)) Hev L).
  - split.
    + intros [(x & [c P] & E) B]. split; [exists c, x; auto|]. intros d y e' Q. apply B. exists d. exact Q.
    + intros [(c & x & P & E) B]. split; [exists x; split; [exists c; exact P|exact E]|].
      intros y e' [d Q]. exact (B d y e' Q).
  - intros x [c P]. pose proof (Permutation_NoDup P (proj1 (proj2 L))) as N. inversion N; subst. split; [assumption|].
    intros d H. apply (Permutation_in d (Permutation_sym P)). right. exact H.
  - intros five [(_ & Nf & Lf) I]. destruct L as (A & N & _).
    assert (D : exists c, In c h /\ ~ In c five).
    { destruct (Forall_Exists_dec (fun c => In c five) (fun c => in_dec card_dec c five) h) as [F|X].
      - exfalso. rewrite Forall_forall in F. pose proof (NoDup_incl_length N F). lia.
      - apply Exists_exists in X. exact X. }
    destruct D as (c & Hc & Nc). apply in_split in Hc. destruct Hc as (l1 & l2 & ->).
    exists (l1 ++ l2). split; [exists c; symmetry; apply Permutation_middle|].
    intros d Hd. specialize (I d Hd). apply in_app_or in I. apply in_or_app. destruct I as [I|[->|I]]; auto. contradiction.
Qed.

(** Results alone do not say what another card makes of a hand. *)
Definition four_hearts : list card :=
  [card_new Ten Hearts; card_new Jack Hearts; card_new Queen Hearts; card_new King Hearts; card_new Two Spades].
Definition three_hearts : list card :=
  [card_new Ten Clubs; card_new Jack Hearts; card_new Queen Hearts; card_new King Hearts; card_new Two Spades].
Ltac legal_hand := split; [repeat (constructor; [eexists; eexists; reflexivity|]); constructor|];
  split; [repeat constructor; cbn; intuition discriminate|cbn; lia].
Theorem not_from_results ev : new_evaluator ev -> exists h h' c e d d', hand5 h /\ hand5 h' /\ a_card c
  /\ evaluates ev h e /\ evaluates ev h' e /\ evaluates ev (c :: h) d /\ evaluates ev (c :: h') d' /\ eval_cmp d d' = Gt.
Proof.
  intros Hev.
  assert (H1 : hand5 four_hearts) by legal_hand. assert (H2 : hand5 three_hearts) by legal_hand.
  destruct (HandFacts.evaluate_spec ev _ Hev (HandFacts.hand5_legal _ H1)) as (e & E & _).
  destruct (HandFacts.evaluate_spec ev _ Hev (HandFacts.hand5_legal _ H2)) as (e' & E' & _).
  assert (Q : e = e').
  { apply (HandFacts.same_value ev _ _ e e' Hev (HandFacts.hand5_legal _ H1) (HandFacts.hand5_legal _ H2) E E').
    apply HandFacts.eqb_rk. apply (LawFacts.equal_results ev _ _ e e' Hev H1 H2 E E'). split; [apply Permutation_refl|].
    split; intros [s F]; exfalso; rewrite Forall_forall in F.
    - assert (X : Hearts = s) by (apply (F (Ten, Hearts)); left; reflexivity).
      assert (Y : Spades = s) by (apply (F (Two, Spades)); right; right; right; right; left; reflexivity). congruence.
    - assert (X : Clubs = s) by (apply (F (Ten, Clubs)); left; reflexivity).
      assert (Y : Spades = s) by (apply (F (Two, Spades)); right; right; right; right; left; reflexivity). congruence. }
  subst e'.
  assert (L1 : legal (card_new Ace Hearts :: four_hearts)) by legal_hand.
  assert (L2 : legal (card_new Ace Hearts :: three_hearts)) by legal_hand.
  destruct (HandFacts.evaluate_spec ev _ Hev L1) as (d & D & _).
  destruct (HandFacts.evaluate_spec ev _ Hev L2) as (d' & D' & _).
  exists four_hearts, three_hearts, (card_new Ace Hearts), e, d, d'.
  split; [exact H1|]. split; [exact H2|]. split; [exists Ace, Hearts; reflexivity|]. split; [exact E|]. split; [exact E'|].
  split; [exact D|]. split; [exact D'|].
  assert (B : d = EVAL_BEST).
  { apply (HandFacts.holds_royal ev _ d Hev (proj1 L1) D). exists Hearts. intros x Hx. cbn in *. tauto. }
  assert (B' : d' <> EVAL_BEST).
  { intros X. apply (HandFacts.holds_royal ev _ d' Hev (proj1 L2) D') in X. destruct X as [s I].
    destruct s; specialize (I _ (or_introl eq_refl)) as I1;
      pose proof (I _ (or_intror (or_introl eq_refl))) as I2;
      cbv in I1, I2; intuition discriminate. }
  subst d. pose proof (HandFacts.rank_range ev _ d' Hev (proj1 L2) D') as R.
  apply HandFacts.cmp_Gt. change (rk EVAL_BEST) with 1%Z.
  assert (rk d' <> 1%Z); [|lia]. intros X. apply B'. apply (HandFacts.best_iff_rank ev _ d' Hev (proj1 L2) D'). exact X.
Qed.
