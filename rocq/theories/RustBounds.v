(** RustBounds.v: the constants [Eval::BEST] and [Eval::WORST] of the source text, what does not change a result, and the
    laws of comparing results: from running the text (Rust*.v) and from what is proved of the model. *)
From Coq Require Import String Lia Permutation.
From Verif Require Import Base BaseFacts ModelCard ModelEval ModelTable ModelEvaluation CardFacts Spec SpecApi EvaluateFacts.
From Verif Require HandFacts LawFacts Samples.
From Verif Require Import RustSyntax RustSemantics RustProgram RustValues RustSteps RustRuns SpecRust.
Local Open Scope string_scope.
Local Open Scope list_scope.

Lemma rust_best : assoc "Eval::BEST" (constants rust) = Some (eval_value EVAL_BEST).
Proof. vm_compute. reflexivity. Qed.
Lemma rust_worst : assoc "Eval::WORST" (constants rust) = Some (eval_value EVAL_WORST).
Proof. vm_compute. reflexivity. Qed.
Lemma made_cards : forall h, Forall2 (made rust) h (map card_value (cards_macro_idents h)).
Proof. intros h. induction h as [|[r s] h IH]; constructor; [ apply made_card | exact IH ]. Qed.
Lemma idents_of_faces : forall x, all_cards x -> cards_macro_idents (faces x) = x.
Proof.
  intros x A. induction A as [|c x (r & s & ->) A IH]; [ reflexivity | ].
  unfold cards_macro_idents, faces, face_of in *. cbn [map fst snd]. rewrite IH, card_rank_new, card_suit_new. reflexivity.
Qed.
Lemma attained : forall m x e, hand5 x -> evaluates m x e ->
  exists h cs, five_card_hand h /\ Forall2 (made rust) h cs /\ gives rust (evaluator_value m) cs (eval_value e).
Proof.
  intros m x e (A & N & L) E. exists (faces x), (map card_value (cards_macro_idents (faces x))). split; [ | split ].
  - split; [ apply idents_nodup; rewrite (idents_of_faces x A); exact N | unfold faces; rewrite map_length; exact L ].
  - apply made_cards.
  - apply (run_gives m (faces x)); [ apply made_cards | ]. rewrite (idents_of_faces x A). exact E.
Qed.
Lemma royal_idents : forall s, cards_macro_idents [(Ten, s); (Jack, s); (Queen, s); (King, s); (Ace, s)] = royal s.
Proof. reflexivity. Qed.
Lemma idents_incl : forall a b, incl (cards_macro_idents a) (cards_macro_idents b) <-> incl a b.
Proof.
  intros a b. split; intros I.
  - intros f Hf. rewrite <- (Samples.idents_faces b). rewrite <- (Samples.idents_faces a) in Hf.
    unfold faces in *. apply in_map_iff in Hf. destruct Hf as (c & <- & Hc). apply in_map, I, Hc.
  - intros c Hc. unfold cards_macro_idents in *. apply in_map_iff in Hc. destruct Hc as (f & <- & Hf).
    apply (in_map (fun p => card_new (fst p) (snd p))), I, Hf.
Qed.
Lemma better_rk : forall a b, eval_is_better_than a b = true <-> (rk a < rk b)%Z.
Proof. intros a b. rewrite <- HandFacts.cmp_Gt. apply LawFacts.eval_methods. Qed.
Lemma worse_rk : forall a b, eval_is_worse_than a b = true <-> (rk b < rk a)%Z.
Proof. intros a b. rewrite <- HandFacts.cmp_Lt. apply LawFacts.eval_methods. Qed.
Lemma equal_rk : forall a b, eval_is_equal_to a b = true <-> rk a = rk b.
Proof. intros a b. rewrite <- HandFacts.eqb_rk. apply LawFacts.eval_methods. Qed.

Theorem runs_bounds : forall P ev, load_all texts = Some P -> returns P "Evaluator::new" None [] ev ->
  exists b w, assoc "Eval::BEST" (constants P) = Some b /\ assoc "Eval::WORST" (constants P) = Some w
    /\ (exists h cs, five_card_hand h /\ Forall2 (made P) h cs /\ gives P ev cs b)
    /\ (exists h cs, five_card_hand h /\ Forall2 (made P) h cs /\ gives P ev cs w)
    /\ forall h cs e, Forall2 (made P) h cs -> NoDup h -> 5 <= length h -> gives P ev cs e ->
         better P e b false /\ worse P e w false
         /\ (exists x, same P e b x
               /\ (x = true <-> exists s, incl [(Ten, s); (Jack, s); (Queen, s); (King, s); (Ace, s)] h))
         /\ (exists x, same P e w x
               /\ (x = true <-> forall h' g, five_card_hand h' -> incl h' h -> five_card_hand g -> ~ beats h' g)).
Proof.
  intros P ev HP. rewrite (loaded P HP). clear P HP. intros Hev. destruct (new_inv ev Hev) as (m & Hm & ->).
  exists (eval_value EVAL_BEST), (eval_value EVAL_WORST).
  split; [ exact rust_best | ]. split; [ exact rust_worst | ].
  destruct (LawFacts.extremes_attained m Hm) as ((hb & Hb5 & Eb) & (hw & Hw5 & Ew)).
  split; [ exact (attained m hb _ Hb5 Eb) | ]. split; [ exact (attained m hw _ Hw5 Ew) | ].
  intros h cs v F N L G. destruct (gives_inv m h cs v Hm F N L G) as (e & E & ->).
  pose proof (Samples.idents_all_cards h) as A.
  pose proof (HandFacts.rank_range m _ e Hm A E) as R.
  assert (RB : rk EVAL_BEST = 1%Z) by reflexivity. assert (RW : rk EVAL_WORST = 7462%Z) by reflexivity.
  destruct (run_verdicts e EVAL_BEST) as (B1 & _ & B3). destruct (run_verdicts e EVAL_WORST) as (_ & W2 & W3).
  split; [ | split; [ | split ] ].
  - replace false with (eval_is_better_than e EVAL_BEST); [ exact B1 | ].
    destruct (eval_is_better_than e EVAL_BEST) eqn:X; [ | reflexivity ]. apply better_rk in X. lia.
  - replace false with (eval_is_worse_than e EVAL_WORST); [ exact W2 | ].
    destruct (eval_is_worse_than e EVAL_WORST) eqn:X; [ | reflexivity ]. apply worse_rk in X. lia.
  - exists (eval_is_equal_to e EVAL_BEST). split; [ exact B3 | ].
    destruct (LawFacts.royal_equivalences m _ e Hm A E) as (Q & _ & _ & _ & Y).
    rewrite (proj1 (proj2 (proj2 (LawFacts.eval_methods e EVAL_BEST)))), <- Q, Y.
    split; intros (s & I); exists s.
    + apply idents_incl. rewrite royal_idents. exact I.
    + rewrite <- royal_idents. apply idents_incl. exact I.
  - exists (eval_is_equal_to e EVAL_WORST). split; [ exact W3 | ]. rewrite equal_rk, RW.
    assert (Lg : legal (cards_macro_idents h)).
    { split; [ exact A | ]. rewrite idents_length. split; [ apply idents_nodup, N | exact L ]. }
    destruct (LawFacts.best_choice m _ Hm Lg) as (e0 & E0 & (x & X5 & Xi & Ex) & M).
    assert (e0 = e) by exact (HandFacts.evaluates_fun _ _ _ _ E0 E). subst e0. clear E0.
    split.
    + intros Re h' g H5 I G5 Bt.
      destruct (LawFacts.best_choice m _ Hm (HandFacts.hand5_legal _ (idents_five h' H5))) as (e1 & E1 & _).
      destruct (LawFacts.best_choice m _ Hm (HandFacts.hand5_legal _ (idents_five g G5))) as (e2 & E2 & _).
      pose proof (M (cards_macro_idents h') e1 (idents_five h' H5) (proj2 (idents_incl h' h) I) E1) as C.
      apply HandFacts.cmp_not_Lt in C.
      destruct (HandFacts.comparison_correct m _ _ e1 e2 Hm (idents_five h' H5) (idents_five g G5) E1 E2) as (Cg & _ & _).
      rewrite !Samples.idents_faces in Cg. apply Cg, HandFacts.cmp_Gt in Bt.
      pose proof (HandFacts.rank_range m _ e2 Hm (Samples.idents_all_cards g) E2). lia.
    + intros K. destruct (Z.eq_dec (rk e) 7462) as [Y|Y]; [ exact Y | exfalso ].
      assert (Ix : cards_macro_idents (faces x) = x) by (apply idents_of_faces, X5).
      assert (Iw : cards_macro_idents (faces hw) = hw) by (apply idents_of_faces, Hw5).
      assert (T : forall y, hand5 y -> cards_macro_idents (faces y) = y -> five_card_hand (faces y)).
      { intros y (_ & Ny & Ly) Iy. split; [ apply idents_nodup; rewrite Iy; exact Ny | unfold faces; rewrite map_length; exact Ly ]. }
      apply (K (faces x) (faces hw) (T x X5 Ix)).
      * apply idents_incl. rewrite Ix. exact Xi.
      * exact (T hw Hw5 Iw).
      * apply (HandFacts.comparison_correct m x hw e EVAL_WORST Hm X5 Hw5 Ex Ew), HandFacts.cmp_Gt. rewrite RW. lia.
Qed.
(** For the example beside the property *)
Lemma royal_is_best : exists P ev cs b, load_all texts = Some P /\ returns P "Evaluator::new" None [] ev
  /\ Forall2 (made P) [(Ten, Hearts); (Jack, Hearts); (Queen, Hearts); (King, Hearts); (Ace, Hearts); (Two, Clubs)] cs
  /\ gives P ev cs b /\ assoc "Eval::BEST" (constants P) = Some b.
Proof.
  destruct (HandFacts.evaluator_new_ret) as (m & Hm). destruct (HandFacts.evaluator_new_inv m Hm) as (t & Ht & Em).
  pose (h := [(Ten, Hearts); (Jack, Hearts); (Queen, Hearts); (King, Hearts); (Ace, Hearts); (Two, Clubs)]).
  exists rust, (evaluator_value m), (map card_value (cards_macro_idents h)), (eval_value EVAL_BEST).
  split; [ exact rust_loaded | ]. split; [ rewrite Em; exact (evaluator_made t Ht) | ]. split; [ exact (made_cards h) | ].
  split; [ | exact rust_best ]. apply (run_gives m h _ EVAL_BEST (made_cards h)).
  assert (Lg : legal (cards_macro_idents h)).
  { split; [ apply Samples.idents_all_cards | ]. rewrite idents_length. split; [ | cbn; lia ]. apply idents_nodup.
    unfold h. repeat constructor; cbn; intuition discriminate. }
  destruct (LawFacts.best_choice m _ Hm Lg) as (e & E & _).
  destruct (LawFacts.royal_equivalences m _ e Hm (Samples.idents_all_cards h) E) as (_ & _ & _ & _ & Y).
  rewrite (proj2 Y) in E; [ exact E | ]. exists Hearts. rewrite <- royal_idents. apply idents_incl.
  intros f Hf. unfold h. cbn in Hf |- *. tauto.
Qed.

(** ** What does not change a result *)
Theorem runs_order : forall P ev h1 cs1 h2 cs2 e, load_all texts = Some P -> returns P "Evaluator::new" None [] ev ->
  Forall2 (made P) h1 cs1 -> Forall2 (made P) h2 cs2 -> NoDup h1 -> 5 <= length h1 -> Permutation h1 h2 ->
  gives P ev cs1 e -> gives P ev cs2 e.
Proof.
  intros P ev h1 cs1 h2 cs2 e HP. rewrite (loaded P HP). clear P HP. intros Hev F1 F2 N L Pm G.
  destruct (new_inv ev Hev) as (m & Hm & ->). destruct (gives_inv m h1 cs1 e Hm F1 N L G) as (x & E & ->).
  apply (run_gives m h2 cs2 x F2).
  destruct (HandFacts.permutation_ok m (cards_macro_idents h1) (cards_macro_idents h2) Hm (Samples.idents_all_cards h1)) as (K & _).
  { unfold cards_macro_idents. apply Permutation_map, Pm. }
  apply K. exact E.
Qed.
Theorem runs_suits : forall P ev h cs f cs' e, load_all texts = Some P -> returns P "Evaluator::new" None [] ev ->
  (forall a b, f a = f b -> a = b) ->
  Forall2 (made P) h cs -> Forall2 (made P) (map (fun c => (fst c, f (snd c))) h) cs' -> NoDup h -> 5 <= length h ->
  gives P ev cs e -> gives P ev cs' e.
Proof.
  intros P ev h cs f cs' e HP. rewrite (loaded P HP). clear P HP. intros Hev If F1 F2 N L G.
  destruct (new_inv ev Hev) as (m & Hm & ->). destruct (gives_inv m h cs e Hm F1 N L G) as (x & E & ->).
  apply (run_gives m _ cs' x F2).
  replace (cards_macro_idents (map (fun c => (fst c, f (snd c))) h)) with (map (recolour f) (cards_macro_idents h)).
  - apply (LawFacts.suits_iff m f _ x If Hm (Samples.idents_all_cards h)). exact E.
  - unfold cards_macro_idents. rewrite !map_map. apply map_ext. intros [r s]. unfold recolour. cbn [fst snd].
    rewrite card_rank_new, card_suit_new. reflexivity.
Qed.
Theorem runs_more : forall P ev h1 cs1 e1 h2 cs2 e2, load_all texts = Some P -> returns P "Evaluator::new" None [] ev ->
  Forall2 (made P) h1 cs1 -> NoDup h1 -> 5 <= length h1 -> gives P ev cs1 e1 ->
  Forall2 (made P) h2 cs2 -> NoDup h2 -> incl h1 h2 -> gives P ev cs2 e2 -> worse P e2 e1 false.
Proof.
  intros P ev h1 cs1 e1 h2 cs2 e2 HP. rewrite (loaded P HP). clear P HP. intros Hev F1 N1 L1 G1 F2 N2 I G2.
  destruct (new_inv ev Hev) as (m & Hm & ->). destruct (gives_inv m h1 cs1 e1 Hm F1 N1 L1 G1) as (a & Ea & ->).
  destruct (gives_inv m h2 cs2 e2 Hm F2 N2) as (b & Eb & ->); [ | exact G2 | ].
  { pose proof (NoDup_incl_length N1 I). lia. }
  destruct (run_verdicts b a) as (_ & W & _). replace false with (eval_is_worse_than b a); [ exact W | ].
  destruct (eval_is_worse_than b a) eqn:X; [ exfalso | reflexivity ].
  apply LawFacts.eval_methods in X. revert X.
  apply (HandFacts.more_cards m (cards_macro_idents h1) (cards_macro_idents h2) a b Hm (Samples.idents_all_cards h2));
    [ apply idents_incl, I | exact Ea | exact Eb ].
Qed.

(** ** Comparing *)
Theorem runs_laws : forall P ev a b c, load_all texts = Some P -> returns P "Evaluator::new" None [] ev ->
  (forall v, In v [a; b; c] -> exists h cs, Forall2 (made P) h cs /\ NoDup h /\ 5 <= length h /\ gives P ev cs v) ->
  (exists x y z, better P a b x /\ worse P a b y /\ same P a b z
     /\ better P b a y /\ worse P b a x /\ same P b a z
     /\ In (x, y, z) [(true, false, false); (false, true, false); (false, false, true)]
     /\ (z = true <-> a = b))
  /\ (better P a b true -> better P b c true -> better P a c true)
  /\ (better P a b false -> better P b c false -> better P a c false).
Proof.
  intros P ev a b c HP. rewrite (loaded P HP). clear P HP. intros Hev. destruct (new_inv ev Hev) as (m & Hm & ->).
  intros H. assert (I : forall v, In v [a; b; c] -> exists h e, evaluates m (cards_macro_idents h) e /\ v = eval_value e).
  { intros v Hv. destruct (H v Hv) as (h & cs & F & N & L & G). destruct (gives_inv m h cs v Hm F N L G) as (e & E & ->). eauto. }
  destruct (I a) as (ha & ea & Ea & ->); [ cbn; auto | ]. destruct (I b) as (hb & eb & Eb & ->); [ cbn; auto | ].
  destruct (I c) as (hc & ec & Ec & ->); [ cbn; auto | ]. clear I H.
  assert (D : forall x y, (exists v, better rust (eval_value x) (eval_value y) v /\ (v = true <-> (rk x < rk y)%Z))).
  { intros x y. exists (eval_is_better_than x y). split; [ apply run_verdicts | apply better_rk ]. }
  assert (U : forall x y v, better rust (eval_value x) (eval_value y) v -> (v = true <-> (rk x < rk y)%Z)).
  { intros x y v B. destruct (D x y) as (w & B' & W). pose proof (returns_fun _ _ _ _ _ _ B B') as X. injection X as ->. exact W. }
  split; [ | split ].
  - destruct (run_verdicts ea eb) as (B1 & B2 & B3), (run_verdicts eb ea) as (C1 & C2 & C3).
    pose proof (better_rk ea eb) as K1. pose proof (worse_rk ea eb) as K2. pose proof (equal_rk ea eb) as K3.
    pose proof (better_rk eb ea) as J1. pose proof (worse_rk eb ea) as J2. pose proof (equal_rk eb ea) as J3.
    assert (E1 : eval_is_better_than eb ea = eval_is_worse_than ea eb)
      by (apply Bool.eq_iff_eq_true; rewrite J1, K2; reflexivity).
    assert (E2 : eval_is_worse_than eb ea = eval_is_better_than ea eb)
      by (apply Bool.eq_iff_eq_true; rewrite J2, K1; reflexivity).
    assert (E3 : eval_is_equal_to eb ea = eval_is_equal_to ea eb)
      by (apply Bool.eq_iff_eq_true; rewrite J3, K3; split; intros X; symmetry; exact X).
    rewrite E1 in C1. rewrite E2 in C2. rewrite E3 in C3.
    exists (eval_is_better_than ea eb), (eval_is_worse_than ea eb), (eval_is_equal_to ea eb).
    do 6 (split; [ assumption | ]). split.
    + destruct (eval_is_better_than ea eb), (eval_is_worse_than ea eb), (eval_is_equal_to ea eb); cbn; auto;
        exfalso; try (pose proof (proj1 K1 eq_refl)); try (pose proof (proj1 K2 eq_refl)); try (pose proof (proj1 K3 eq_refl)); lia.
    + rewrite K3. split; [ | ].
      * intros X. f_equal. exact (HandFacts.same_value m _ _ _ _ Hm
          (HandFacts.evaluates_legal _ _ _ (Samples.idents_all_cards ha) Ea)
          (HandFacts.evaluates_legal _ _ _ (Samples.idents_all_cards hb) Eb) Ea Eb X).
      * intros X. apply K3. destruct (run_verdicts eb eb) as (_ & _ & S). rewrite X in B3.
        pose proof (returns_fun _ _ _ _ _ _ B3 S) as Y. injection Y as ->. apply equal_rk. reflexivity.
  - intros X Y. apply U in X, Y. pose proof (proj1 X eq_refl). pose proof (proj1 Y eq_refl).
    destruct (D ea ec) as (v & B & W). rewrite (proj2 W) in B by lia. exact B.
  - intros X Y. pose proof (U _ _ _ X) as X'. pose proof (U _ _ _ Y) as Y'.
    destruct (D ea ec) as (v & B & W). destruct v; [ exfalso | exact B ]. pose proof (proj1 W eq_refl).
    destruct (Z.lt_ge_cases (rk ea) (rk eb)) as [Q|Q]; [ discriminate (proj2 X' Q) | ].
    destruct (Z.lt_ge_cases (rk eb) (rk ec)) as [Q'|Q']; [ discriminate (proj2 Y' Q') | ]. lia.
Qed.

(** For the example beside the property *)
Lemma turned_round : exists P ev cs1 cs2 e, load_all texts = Some P /\ returns P "Evaluator::new" None [] ev
  /\ Forall2 (made P) [(King, Spades); (Two, Hearts); (King, Hearts); (Two, Clubs); (King, Diamonds)] cs1
  /\ Forall2 (made P) [(King, Diamonds); (Two, Clubs); (King, Hearts); (Two, Hearts); (King, Spades)] cs2
  /\ gives P ev cs1 e /\ gives P ev cs2 e.
Proof.
  destruct (runs_evaluator rust rust_loaded) as (ev & Hev).
  pose (h := [(King, Spades); (Two, Hearts); (King, Hearts); (Two, Clubs); (King, Diamonds)]).
  assert (N : NoDup h) by (unfold h; repeat constructor; cbn; intuition discriminate).
  destruct (runs_best rust ev h _ rust_loaded Hev (made_cards h) N (le_n 5)) as (e & G & _).
  exists rust, ev, (map card_value (cards_macro_idents h)), (map card_value (cards_macro_idents (rev h))), e.
  split; [ exact rust_loaded | ]. split; [ exact Hev | ]. split; [ exact (made_cards h) | ].
  split; [ exact (made_cards (rev h)) | ]. split; [ exact G | ].
  exact (runs_order rust ev h _ (rev h) _ e rust_loaded Hev (made_cards h) (made_cards (rev h)) N (le_n 5) (Permutation_rev h) G).
Qed.
