(** RustWorth.v: what the source text answers for a hand of any size can be read off the hand, and decides who wins. *)
From Coq Require Import String Lia.
From Verif Require Import Base BaseFacts ModelCard ModelEval ModelTable ModelEvaluation CardFacts Spec SpecApi.
From Verif Require SpecBest SpecShowdown HandFacts LawFacts Samples WorthFacts ShowdownFacts.
From Verif Require Import RustSyntax RustSemantics RustProgram RustValues RustSteps RustRuns RustBounds RustAgrees SpecRust.
Local Open Scope string_scope.
Local Open Scope list_scope.

Theorem runs_read_off : forall P ev h cs e, load_all texts = Some P -> returns P "Evaluator::new" None [] ev ->
  Forall2 (made P) h cs -> NoDup h -> 5 <= length h -> gives P ev cs e ->
  returns P "Eval::class" None [e] (class_value (fst (SpecBest.best h))).
Proof.
  intros P ev h cs e HP. pose proof (agrees_results P HP) as (Q & _). rewrite (loaded P HP) in *. clear P HP.
  intros Hev F N L G. destruct (new_inv ev Hev) as (m & Hm & ->).
  destruct (gives_inv m h cs e Hm F N L G) as (x & E & ->).
  pose proof (WorthFacts.class_best m _ x Hm (Samples.idents_all_cards h) E) as C. rewrite Samples.idents_faces in C.
  rewrite <- C. apply (Q x).
Qed.
Theorem runs_read_off_versus : forall P ev h1 cs1 e1 h2 cs2 e2, load_all texts = Some P ->
  returns P "Evaluator::new" None [] ev ->
  Forall2 (made P) h1 cs1 -> NoDup h1 -> 5 <= length h1 -> gives P ev cs1 e1 ->
  Forall2 (made P) h2 cs2 -> NoDup h2 -> 5 <= length h2 -> gives P ev cs2 e2 ->
  exists x y z, better P e1 e2 x /\ worse P e1 e2 y /\ same P e1 e2 z
    /\ (x = true <-> SpecBest.worth_more (SpecBest.best h1) (SpecBest.best h2))
    /\ (y = true <-> SpecBest.worth_more (SpecBest.best h2) (SpecBest.best h1))
    /\ (z = true <-> SpecBest.best h1 = SpecBest.best h2).
Proof.
  intros P ev h1 cs1 e1 h2 cs2 e2 HP. pose proof (agrees_results P HP) as (_ & B & _). rewrite (loaded P HP) in *. clear P HP.
  intros Hev F1 N1 L1 G1 F2 N2 L2 G2. destruct (new_inv ev Hev) as (m & Hm & ->).
  destruct (gives_inv m h1 cs1 e1 Hm F1 N1 L1 G1) as (a & Ea & ->).
  destruct (gives_inv m h2 cs2 e2 Hm F2 N2 L2 G2) as (b & Eb & ->).
  pose proof (WorthFacts.worth_compare m _ _ a b Hm (Samples.idents_all_cards h1) (Samples.idents_all_cards h2) Ea Eb) as (C1 & C2 & C3).
  rewrite !Samples.idents_faces in C1, C2, C3. destruct (B a b) as (R1 & R2 & R3).
  exists (eval_is_better_than a b), (eval_is_worse_than a b), (eval_is_equal_to a b).
  split; [ exact R1 | ]. split; [ exact R2 | ]. split; [ exact R3 | ].
  split; [ rewrite <- C1, better_rk, HandFacts.cmp_Gt; reflexivity | ].
  split; [ rewrite <- C3, worse_rk, HandFacts.cmp_Lt; reflexivity | ].
  rewrite <- C2, equal_rk, HandFacts.cmp_Eq. reflexivity.
Qed.

Lemma concat_idents : forall own, concat (map cards_macro_idents own) = cards_macro_idents (concat own).
Proof. intros own. symmetry. apply concat_map. Qed.
Lemma idents_app : forall a b, cards_macro_idents (a ++ b) = cards_macro_idents a ++ cards_macro_idents b.
Proof. intros a b. apply map_app. Qed.

Theorem runs_showdown : forall P ev board own css, load_all texts = Some P -> returns P "Evaluator::new" None [] ev ->
  NoDup (board ++ concat own) -> Forall (fun h => 5 <= length board + length h) own ->
  Forall2 (fun h cs => Forall2 (made P) (board ++ h) cs) own css ->
  exists es, Forall2 (gives P ev) css es
    /\ forall i e, nth_error es i = Some e ->
         ((forall e', In e' es -> worse P e e' false) <-> SpecShowdown.wins (SpecShowdown.seats board own) i).
Proof.
  intros P ev board own css HP. pose proof (agrees_results P HP) as (_ & B & _). rewrite (loaded P HP) in *. clear P HP.
  intros Hev N L F. destruct (new_inv ev Hev) as (m & Hm & ->).
  destruct (ShowdownFacts.showdown m (cards_macro_idents board) (map cards_macro_idents own) Hm) as (es & Fe & W).
  - rewrite concat_idents, <- idents_app. apply Samples.idents_all_cards.
  - rewrite concat_idents, <- idents_app. apply idents_nodup, N.
  - apply Forall_map. eapply Forall_impl; [ | exact L ]. intros h Hh. rewrite !idents_length. exact Hh.
  - exists (map eval_value es). split.
    + clear W N L B. revert es Fe. induction F as [|h cs own css Fh F IH]; intros es Fe; cbn [map] in Fe.
      * inversion Fe; subst. constructor.
      * inversion Fe as [|x e l es' (E & _) Fe']; subst. cbn [map]. constructor; [ | apply IH, Fe' ].
        apply (run_gives m (board ++ h) cs e Fh). rewrite idents_app. exact E.
    + assert (X : map faces (map cards_macro_idents own) = own).
      { rewrite map_map. rewrite (map_ext _ (fun l => l)); [ apply map_id | apply Samples.idents_faces ]. }
      rewrite Samples.idents_faces, X in W. clear X.
      intros i v Hi. rewrite nth_error_map in Hi. destruct (nth_error es i) as [e|] eqn:Ei; [ | discriminate Hi ].
      injection Hi as <-. rewrite <- (W i e Ei). split; intros A e' He'.
      * pose proof (A (eval_value e') (in_map eval_value _ _ He')) as R. unfold worse in R.
        pose proof (returns_fun _ _ _ _ _ _ R (proj1 (proj2 (B e e')))) as Y. injection Y as Y. symmetry. exact Y.
      * apply in_map_iff in He'. destruct He' as (x & <- & Hx). unfold worse. pose proof (proj1 (proj2 (B e x))) as R. rewrite (A x Hx) in R. exact R.
Qed.

(** For the example beside the property *)
Definition board : list face := [(King, Spades); (Nine, Hearts); (Four, Clubs); (Four, Diamonds); (Two, Spades)].
Definition own : list (list face) :=
  [[(Ace, Spades); (King, Hearts)]; [(King, Diamonds); (Ace, Clubs)]; [(Nine, Clubs); (Ace, Hearts)]].
Lemma three_players : NoDup (board ++ concat own) /\ Forall (fun h => 5 <= length board + length h) own
  /\ map SpecBest.best (SpecShowdown.seats board own)
     = [(TwoPair King Four, [King; Four; Ace]); (TwoPair King Four, [King; Four; Ace]); (TwoPair Nine Four, [Nine; Four; Ace])]
  /\ exists P css, load_all texts = Some P /\ Forall2 (fun h cs => Forall2 (made P) (board ++ h) cs) own css.
Proof.
  split; [ unfold board, own; cbn [concat app]; repeat constructor; cbn [In]; intuition discriminate | ].
  split; [ unfold board, own; repeat constructor | ]. split; [ reflexivity | ].
  exists rust. exists (map (fun h => map card_value (cards_macro_idents (board ++ h))) own). split; [ exact rust_loaded | ].
  generalize own. intros l. induction l as [|h l IH]; constructor; [ apply made_cards | exact IH ].
Qed.
