(** RustHolds.v: what the source text answers is the best pattern in the hand, the best result of its parts, and bounded
    by the weakest result of its size. *)
From Coq Require Import String Lia Permutation.
From Verif Require Import Base BaseFacts ModelCard ModelEval ModelTable ModelEvaluation CardFacts Spec SpecApi SpecBoard.
From Verif Require SpecBest BoardFacts HandFacts LawFacts Samples CategoryFacts WeakFacts SubhandFacts.
From Verif Require Import RustSyntax RustSemantics RustProgram RustValues RustSteps RustRuns RustSays RustBounds RustAgrees RustSizes SpecRust SpecInside.
Local Open Scope string_scope.
Local Open Scope list_scope.

Theorem runs_best_pattern : forall P ev h cs e, load_all texts = Some P -> returns P "Evaluator::new" None [] ev ->
  Forall2 (made P) h cs -> NoDup h -> 5 <= length h -> gives P ev cs e ->
  exists c, returns P "Eval::class" None [e] (class_value c) /\ holds h (category c)
    /\ forall k, holds h k -> k <= category c.
Proof.
  intros P ev h cs e HP. pose proof (agrees_results P HP) as (Q & _). rewrite (loaded P HP) in *. clear P HP.
  intros Hev F N L G. destruct (new_inv ev Hev) as (m & Hm & ->).
  destruct (gives_inv m h cs e Hm F N L G) as (x & E & ->).
  pose proof (CategoryFacts.category_holds m _ x Hm (Samples.idents_all_cards h) E) as C. rewrite Samples.idents_faces in C.
  exists (eval_class_of x). split; [ apply (Q x) | exact C ].
Qed.
Lemma legal_idents : forall h, NoDup h -> 5 <= length h -> legal (cards_macro_idents h).
Proof.
  intros h N L. split; [ apply Samples.idents_all_cards | ]. split; [ apply idents_nodup; exact N | rewrite idents_length; exact L ].
Qed.
Lemma not_worse : forall a b, eval_cmp a b <> Lt -> eval_is_worse_than a b = false.
Proof.
  intros a b H. destruct (eval_is_worse_than a b) eqn:W; [ | reflexivity ].
  apply worse_rk in W. exfalso. apply H. apply HandFacts.cmp_Lt. exact W.
Qed.
Theorem runs_weakest : forall P ev h cs e w cs' e', load_all texts = Some P -> returns P "Evaluator::new" None [] ev ->
  Forall2 (made P) h cs -> NoDup h -> 5 <= length h <= 11 -> gives P ev cs e ->
  Forall2 (made P) w cs' -> five_card_hand w -> Permutation (ranks w) (weakest (length h)) -> ~ suited w -> gives P ev cs' e' ->
  worse P e e' false.
Proof.
  intros P ev h cs e w cs' e' HP. pose proof (agrees_results P HP) as (_ & B & _). rewrite (loaded P HP) in *. clear P HP.
  intros Hev F N (L & L') G F' (Nw & Lw) Pw Sw G'. destruct (new_inv ev Hev) as (m & Hm & ->).
  assert (Mw : 5 <= length w) by (rewrite Lw; apply le_n).
  destruct (gives_inv m h cs e Hm F N L G) as (a & Ea & ->).
  destruct (gives_inv m w cs' e' Hm F' Nw Mw G') as (b & Eb & ->).
  destruct (B a b) as (_ & W & _). rewrite not_worse in W; [ exact W | ].
  apply (WeakFacts.weakest_bound m (cards_macro_idents h) a (cards_macro_idents w) b Hm (legal_idents h N L) Ea).
  - rewrite idents_length. exact L'.
  - destruct (legal_idents w Nw Mw) as (A1 & A2 & _). split; [ exact A1 | ]. split; [ exact A2 | rewrite idents_length; exact Lw ].
  - rewrite Samples.idents_faces, idents_length. exact Pw.
  - rewrite Samples.idents_faces. exact Sw.
  - exact Eb.
Qed.
Theorem runs_weakest_attained : forall P ev n, load_all texts = Some P -> returns P "Evaluator::new" None [] ev -> 5 <= n <= 11 ->
  exists h cs e w cs' e', NoDup h /\ length h = n /\ Forall2 (made P) h cs /\ gives P ev cs e
    /\ five_card_hand w /\ Permutation (ranks w) (weakest n) /\ ~ suited w /\ Forall2 (made P) w cs' /\ gives P ev cs' e'
    /\ same P e e' true.
Proof.
  intros P ev n HP. pose proof (agrees_results P HP) as (_ & B & _). rewrite (loaded P HP) in *. clear P HP.
  intros Hev Hn. destruct (new_inv ev Hev) as (m & Hm & ->).
  destruct (WeakFacts.weakest_attained m n Hm Hn) as (x & a & y & b & (Ax & Nx & Lx) & Ln & Ea & (Ay & Ny & Ly) & Py & Sy & Eb & C).
  pose proof (idents_of_faces x Ax) as Rx. pose proof (idents_of_faces y Ay) as Ry.
  exists (faces x), (map card_value (cards_macro_idents (faces x))), (eval_value a),
         (faces y), (map card_value (cards_macro_idents (faces y))), (eval_value b).
  split; [ apply idents_nodup; rewrite Rx; exact Nx | ].
  split; [ unfold faces; etransitivity; [ apply map_length | exact Ln ] | ].
  split; [ apply made_cards | ]. split; [ apply (run_gives m (faces x)); [ apply made_cards | rewrite Rx; exact Ea ] | ].
  split; [ split; [ apply idents_nodup; rewrite Ry; exact Ny | unfold faces; etransitivity; [ apply map_length | exact Ly ] ] | ].
  split; [ exact Py | ]. split; [ exact Sy | ]. split; [ apply made_cards | ].
  split; [ apply (run_gives m (faces y)); [ apply made_cards | rewrite Ry; exact Eb ] | ].
  destruct (B a b) as (_ & _ & S). assert (T : eval_is_equal_to a b = true) by (apply equal_rk, HandFacts.cmp_Eq, C).
  rewrite T in S. exact S.
Qed.
Theorem runs_parts : forall P ev h cs e n, load_all texts = Some P -> returns P "Evaluator::new" None [] ev ->
  Forall2 (made P) h cs -> NoDup h -> 5 <= n <= length h -> gives P ev cs e ->
  (exists h' cs', NoDup h' /\ length h' = n /\ incl h' h /\ Forall2 (made P) h' cs' /\ gives P ev cs' e)
  /\ forall h' cs' e', NoDup h' -> length h' = n -> incl h' h -> Forall2 (made P) h' cs' -> gives P ev cs' e' -> worse P e e' false.
Proof.
  intros P ev h cs e n HP. pose proof (agrees_results P HP) as (_ & B & _). rewrite (loaded P HP) in *. clear P HP.
  intros Hev F N (L5 & Ln) G. destruct (new_inv ev Hev) as (m & Hm & ->).
  pose proof (Nat.le_trans _ _ _ L5 Ln) as L. destruct (gives_inv m h cs e Hm F N L G) as (a & Ea & ->).
  assert (Hn : 5 <= n <= length (cards_macro_idents h)) by (rewrite idents_length; split; assumption).
  pose proof (proj1 (SubhandFacts.of_size m _ a n Hm (legal_idents h N L) Hn) Ea) as ((x & (Nx & Lx & Ix) & Ex) & W). split.
  - assert (Ax : all_cards x).
    { pose proof (Samples.idents_all_cards h) as A. unfold all_cards in *. rewrite Forall_forall in *. intros c Hc. apply A, Ix, Hc. }
    pose proof (idents_of_faces x Ax) as Rx. exists (faces x), (map card_value (cards_macro_idents (faces x))).
    split; [ apply idents_nodup; rewrite Rx; exact Nx | ].
    split; [ unfold faces; etransitivity; [ apply map_length | exact Lx ] | ].
    split; [ apply idents_incl; rewrite Rx; exact Ix | ]. split; [ apply made_cards | ].
    apply (run_gives m (faces x)); [ apply made_cards | rewrite Rx; exact Ex ].
  - intros h' cs' e' N' L' I' F' G'. assert (M' : 5 <= length h') by (rewrite L'; exact L5).
    destruct (gives_inv m h' cs' e' Hm F' N' M' G') as (b & Eb & ->).
    destruct (B a b) as (_ & X & _). rewrite not_worse in X; [ exact X | ].
    apply (W (cards_macro_idents h') b); [ | exact Eb ].
    split; [ apply idents_nodup; exact N' | ]. split; [ rewrite idents_length; exact L' | apply idents_incl; exact I' ].
Qed.

Lemma idents_app : forall a b, cards_macro_idents (a ++ b) = box_cards (cards_macro_idents a) [cards_macro_idents b].
Proof. intros a b. unfold cards_macro_idents, box_cards. cbn [fold_left]. apply map_app. Qed.
Lemma lets_allows : forall m b ks, new_evaluator m -> 3 <= length b ->
  (lets rust (evaluator_value m) b ks <-> allows m (cards_macro_idents b) ks).
Proof.
  intros m b ks Hm Lb. destruct (agrees_results rust rust_loaded) as (Q & _). split.
  - intros (own & cs & e & c & Lo & N & F & G & R & I).
    assert (L : 5 <= length (b ++ own)) by (rewrite app_length, Lo; lia).
    destruct (gives_inv m _ cs e Hm F N L G) as (x & E & ->).
    exists (cards_macro_idents own), x. split; [ | split ].
    + split; [ apply Samples.idents_all_cards | ]. split; [ | rewrite idents_length; exact Lo ].
      apply idents_nodup in N. unfold cards_macro_idents in *. rewrite map_app in N. exact N.
    + rewrite <- idents_app. exact E.
    + destruct (Q x) as (_ & C & _). rewrite (class_value_inj _ _ (returns_fun _ _ _ _ _ _ C R)). exact I.
  - intros (p & x & (A & N & L) & E & I). pose proof (idents_of_faces p A) as R.
    exists (faces p), (map card_value (cards_macro_idents (b ++ faces p))), (eval_value x), (eval_class_of x).
    split; [ unfold faces; etransitivity; [ apply map_length | exact L ] | ].
    assert (X : cards_macro_idents (b ++ faces p) = box_cards (cards_macro_idents b) [p]) by (rewrite idents_app, R; reflexivity).
    split; [ apply idents_nodup; rewrite X; exact N | ].
    split; [ apply made_cards | ]. split; [ apply (run_gives m (b ++ faces p)); [ apply made_cards | rewrite X; exact E ] | ].
    split; [ apply (Q x) | exact I ].
Qed.
Theorem runs_board : forall P ev b, load_all texts = Some P -> returns P "Evaluator::new" None [] ev ->
  NoDup b -> 3 <= length b <= 5 ->
  (lets P ev b [5; 8] <-> exists s, 3 <= length (SpecBest.only s b))
  /\ (lets P ev b [7] <-> exists r, 2 <= count r b)
  /\ (lets P ev b [6] <-> (exists r, 2 <= count r b) /\ forall r, count r b < 4)
  /\ (lets P ev b [4; 8] <-> near_run b)
  /\ (lets P ev b [8] <-> exists s, near_run (SpecBest.only s b)).
Proof.
  intros P ev b HP. rewrite (loaded P HP) in *. clear P HP. intros Hev N L. destruct (new_inv ev Hev) as (m & Hm & ->).
  assert (T : on_table (cards_macro_idents b))
    by (split; [ apply Samples.idents_all_cards | ]; split; [ apply idents_nodup; exact N | rewrite idents_length; exact L ]).
  rewrite !(lets_allows m b) by (exact Hm || exact (proj1 L)).
  pose proof (BoardFacts.board_flush m _ Hm T) as F1. pose proof (BoardFacts.board_quads m _ Hm T) as F2.
  pose proof (BoardFacts.board_full_house m _ Hm T) as F3. pose proof (BoardFacts.board_straight m _ Hm T) as F4.
  pose proof (BoardFacts.board_straight_flush m _ Hm T) as F5. rewrite Samples.idents_faces in *.
  split; [ exact F1 | ]. split; [ exact F2 | ]. split; [ exact F3 | ]. split; [ exact F4 | exact F5 ].
Qed.
