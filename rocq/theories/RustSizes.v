(** RustSizes.v: what the number of cards guarantees, ties, the classes there are and the cards that matter, of what the
    source text answers. *)
From Coq Require Import String Lia Permutation.
From Verif Require Import Base BaseFacts ModelCard ModelEval ModelTable ModelEvaluation CardFacts Spec SpecApi.
From Verif Require SpecLookup HandFacts LawFacts Samples SizeFacts ClassOrderFacts SubhandFacts.
From Verif Require Import RustSyntax RustSemantics RustProgram RustValues RustSteps RustRuns RustSays RustBounds RustAgrees SpecRust.
Local Open Scope string_scope.
Local Open Scope list_scope.

Theorem runs_size : forall P ev h cs e, load_all texts = Some P -> returns P "Evaluator::new" None [] ev ->
  Forall2 (made P) h cs -> NoDup h -> 5 <= length h -> gives P ev cs e ->
  exists c, returns P "Eval::class" None [e] (class_value c) /\ guaranteed (length h) <= category c.
Proof.
  intros P ev h cs e HP. pose proof (agrees_results P HP) as (Q & _). rewrite (loaded P HP) in *. clear P HP.
  intros Hev F N L G. destruct (new_inv ev Hev) as (m & Hm & ->).
  destruct (gives_inv m h cs e Hm F N L G) as (x & E & ->).
  exists (eval_class_of x). split; [ apply (Q x) | ].
  pose proof (SizeFacts.size_guarantees m _ x Hm (Samples.idents_all_cards h) E) as S.
  rewrite idents_length in S. exact S.
Qed.
Lemma attained_any : forall m x e, legal x -> evaluates m x e ->
  exists h cs, NoDup h /\ length h = length x /\ Forall2 (made rust) h cs
    /\ gives rust (evaluator_value m) cs (eval_value e).
Proof.
  intros m x e (A & N & L) E. exists (faces x), (map card_value (cards_macro_idents (faces x))).
  split; [ apply idents_nodup; rewrite (idents_of_faces x A); exact N | ].
  split; [ unfold faces; apply map_length | ]. split; [ apply made_cards | ].
  apply (run_gives m (faces x)); [ apply made_cards | ]. rewrite (idents_of_faces x A). exact E.
Qed.
Theorem runs_size_tight : forall P ev n, load_all texts = Some P -> returns P "Evaluator::new" None [] ev -> 5 <= n <= 52 ->
  exists h cs e c, NoDup h /\ length h = n /\ Forall2 (made P) h cs /\ gives P ev cs e
    /\ returns P "Eval::class" None [e] (class_value c) /\ category c = guaranteed n.
Proof.
  intros P ev n HP. pose proof (agrees_results P HP) as (Q & _). rewrite (loaded P HP) in *. clear P HP.
  intros Hev Hn. destruct (new_inv ev Hev) as (m & Hm & ->).
  destruct (SizeFacts.size_tight m n Hm Hn) as (x & e & Lx & Ln & E & C).
  destruct (attained_any m x e Lx E) as (h & cs & N & Lh & F & G).
  exists h, cs, (eval_value e), (eval_class_of e). split; [ exact N | ]. split; [ rewrite Lh; exact Ln | ].
  split; [ exact F | ]. split; [ exact G | ]. split; [ apply (Q e) | exact C ].
Qed.
Theorem runs_royal : forall P ev h cs e, load_all texts = Some P -> returns P "Evaluator::new" None [] ev ->
  Forall2 (made P) h cs -> NoDup h -> 49 <= length h -> gives P ev cs e -> assoc "Eval::BEST" (constants P) = Some e.
Proof.
  intros P ev h cs e HP. rewrite (loaded P HP) in *. clear P HP. intros Hev F N L G.
  assert (L5 : 5 <= length h) by (apply (Nat.le_trans 5 49); [ repeat constructor | exact L ]).
  destruct (new_inv ev Hev) as (m & Hm & ->). destruct (gives_inv m h cs e Hm F N L5 G) as (x & E & ->).
  assert (L' : 49 <= length (cards_macro_idents h)) by (rewrite idents_length; exact L).
  rewrite (SizeFacts.size_royal m _ x Hm (Samples.idents_all_cards h) E L'). exact rust_best.
Qed.
Theorem runs_ties : forall P ev h1 cs1 e1 h2 cs2 e2, load_all texts = Some P -> returns P "Evaluator::new" None [] ev ->
  five_card_hand h1 -> Forall2 (made P) h1 cs1 -> gives P ev cs1 e1 ->
  five_card_hand h2 -> Forall2 (made P) h2 cs2 -> gives P ev cs2 e2 ->
  exists z, same P e1 e2 z /\ (z = true <-> Permutation (ranks h1) (ranks h2) /\ (suited h1 <-> suited h2)).
Proof.
  intros P ev h1 cs1 e1 h2 cs2 e2 HP. pose proof (agrees_results P HP) as (_ & B & _). rewrite (loaded P HP) in *. clear P HP.
  intros Hev (N1 & L1) F1 G1 (N2 & L2) F2 G2. destruct (new_inv ev Hev) as (m & Hm & ->).
  assert (M1 : 5 <= length h1) by (rewrite L1; apply le_n). assert (M2 : 5 <= length h2) by (rewrite L2; apply le_n).
  destruct (gives_inv m h1 cs1 e1 Hm F1 N1 M1 G1) as (a & Ea & ->).
  destruct (gives_inv m h2 cs2 e2 Hm F2 N2 M2 G2) as (b & Eb & ->).
  exists (eval_is_equal_to a b). split; [ apply (B a b) | ].
  assert (H1 : hand5 (cards_macro_idents h1))
    by (split; [ apply Samples.idents_all_cards | split; [ apply idents_nodup; exact N1 | rewrite idents_length; exact L1 ] ]).
  assert (H2 : hand5 (cards_macro_idents h2))
    by (split; [ apply Samples.idents_all_cards | split; [ apply idents_nodup; exact N2 | rewrite idents_length; exact L2 ] ]).
  pose proof (LawFacts.equal_results m _ _ a b Hm H1 H2 Ea Eb) as Q. rewrite !Samples.idents_faces in Q.
  rewrite equal_rk, <- HandFacts.eqb_rk. exact Q.
Qed.
Theorem runs_classes : forall P ev c, load_all texts = Some P -> returns P "Evaluator::new" None [] ev ->
  ((exists h cs e, Forall2 (made P) h cs /\ NoDup h /\ 5 <= length h /\ gives P ev cs e
      /\ returns P "Eval::class" None [e] (class_value c)) <-> possible c).
Proof.
  intros P ev c HP. pose proof (agrees_results P HP) as (Q & _). rewrite (loaded P HP) in *. clear P HP.
  intros Hev. destruct (new_inv ev Hev) as (m & Hm & ->). rewrite <- (ClassOrderFacts.classes_occur m Hm c). split.
  - intros (h & cs & e & F & N & L & G & R). destruct (gives_inv m h cs e Hm F N L G) as (x & E & ->).
    exists (cards_macro_idents h), x. split; [ | split; [ exact E | ] ].
    + split; [ apply Samples.idents_all_cards | split; [ apply idents_nodup; exact N | rewrite idents_length; exact L ] ].
    + apply class_value_inj. destruct (Q x) as (_ & C & _). exact (returns_fun _ _ _ _ _ _ C R).
  - intros (x & e & Lx & E & <-). destruct (attained_any m x e Lx E) as (h & cs & N & Lh & F & G).
    exists h, cs, (eval_value e). split; [ exact F | ]. split; [ exact N | ].
    split; [ rewrite Lh; apply Lx | ]. split; [ exact G | apply (Q e) ].
Qed.
Theorem runs_five_carry : forall P ev h cs e, load_all texts = Some P -> returns P "Evaluator::new" None [] ev ->
  Forall2 (made P) h cs -> NoDup h -> 5 <= length h -> gives P ev cs e ->
  exists five, five_card_hand five /\ incl five h
    /\ forall h' cs', NoDup h' -> incl five h' -> incl h' h -> Forall2 (made P) h' cs' -> gives P ev cs' e.
Proof.
  intros P ev h cs e HP. rewrite (loaded P HP) in *. clear P HP. intros Hev F N L G.
  destruct (new_inv ev Hev) as (m & Hm & ->). destruct (gives_inv m h cs e Hm F N L G) as (x & E & ->).
  destruct (SubhandFacts.between m _ x Hm (Samples.idents_all_cards h) E) as (five & ((A5 & N5 & L5) & I5) & C).
  exists (faces five). pose proof (idents_of_faces five A5) as R. split; [ | split ].
  - split; [ apply idents_nodup; rewrite R; exact N5 | unfold faces; rewrite map_length; exact L5 ].
  - apply idents_incl. rewrite R. exact I5.
  - intros h' cs' N' I1 I2 F'. apply (run_gives m h' cs' x F'). apply C.
    + apply idents_nodup. exact N'.
    + apply idents_incl in I1. rewrite R in I1. exact I1.
    + apply idents_incl. exact I2.
Qed.
