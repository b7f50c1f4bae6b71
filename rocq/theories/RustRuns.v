(** RustRuns.v: what the source text computes, from running it (Rust*.v) and from what is proved of the model. *)
From Coq Require Import String Lia Sorted.
From Verif Require Import Base BaseFacts ModelCard ModelEval ModelTable ModelEvaluation CardFacts Spec SpecApi SpecText.
From Verif Require HandFacts LawFacts TextFacts CombosFacts EvaluateFacts Samples.
From Verif Require Import RustSyntax RustSemantics RustProgram RustValues RustSteps RustFacts RustUtils RustEvaluate
  RustCombos RustHands RustTable SpecRust.
Local Open Scope string_scope.
Local Open Scope list_scope.

Lemma loaded : forall P, load_all texts = Some P -> P = rust.
Proof. intros P H. rewrite rust_loaded in H. injection H as <-. reflexivity. Qed.

(** From the equations of the machine to [returns] *)
Lemma returns_at : forall N D f n args v,
  (forall fuel d, call (engine (N + fuel) (D + d)) f n args = Val (v, VUnit)) -> returns rust f n args v.
Proof.
  intros N D f n args v H. exists N, D. intros fuel depth HN HD.
  replace fuel with (N + (fuel - N)) by lia. replace depth with (D + (depth - D)) by lia. apply H.
Qed.
Lemma mut_at : forall N D f n args v w,
  (forall fuel d, call (engine (N + fuel) (D + d)) f n args = Val (v, w)) -> returns_mut rust f n args v w.
Proof.
  intros N D f n args v w H. exists N, D. intros fuel depth HN HD.
  replace fuel with (N + (fuel - N)) by lia. replace depth with (D + (depth - D)) by lia. apply H.
Qed.
Lemma panics_at : forall N D f n args p,
  (forall fuel d, call (engine (N + fuel) (D + d)) f n args = Panics p) -> panics rust f n args.
Proof.
  intros N D f n args p H. exists N, D, p. intros fuel depth HN HD.
  replace fuel with (N + (fuel - N)) by lia. replace depth with (D + (depth - D)) by lia. apply H.
Qed.
Lemma returns_fun : forall P f n args v w, returns P f n args v -> returns P f n args w -> v = w.
Proof.
  intros P f n args v w (N1 & D1 & H1) (N2 & D2 & H2).
  specialize (H1 (N1 + N2) (D1 + D2) ltac:(lia) ltac:(lia)). specialize (H2 (N1 + N2) (D1 + D2) ltac:(lia) ltac:(lia)).
  rewrite H1 in H2. injection H2 as ->. reflexivity.
Qed.

(** ** Cards *)
Lemma made_card : forall r s, made rust (r, s) (card_value (card_new r s)).
Proof. intros r s. apply (returns_at 0 2). intros fuel d. exact (call_card_new fuel d r s). Qed.
Lemma made_only : forall f v, made rust f v -> v = card_value (card_new (fst f) (snd f)).
Proof. intros [r s] v H. exact (returns_fun _ _ _ _ _ _ H (made_card r s)). Qed.
Lemma made_all : forall h cs, Forall2 (made rust) h cs -> VList cs = cards_value (cards_macro_idents h).
Proof.
  intros h cs H. unfold cards_value. f_equal. induction H as [|f v h cs Hf _ IH]; [ reflexivity | ].
  cbn [cards_macro_idents map] in *. rewrite IH. f_equal. exact (made_only _ _ Hf).
Qed.

Theorem runs_cards : forall P, load_all texts = Some P -> forall r s,
  exists v, made P (r, s) v
    /\ returns P "Card::rank" None [v] (rank_value r)
    /\ returns P "Card::suit" None [v] (suit_value s)
    /\ (exists z, returns P "Card::unique_integer" None [v] (VInt I32 z)
          /\ forall n, (0 <= n)%Z -> Z.testbit z n = layout r s n)
    /\ exists x y, nth_error rank_chars (pips r - 2) = Some x
       /\ nth_error (lit "chsd") (match s with Clubs => 0 | Hearts => 1 | Spades => 2 | Diamonds => 3 end) = Some y
       /\ returns P "Card::rank_suit_string" None [v] (VStr [x; y])
       /\ returns P "Card::from_str" None [VStr [x; y]] (VCon "Ok" [("0", v)]).
Proof.
  intros P H r s. rewrite (loaded P H). clear P H.
  destruct (TextFacts.card_new_parts r s) as (c & Hc & Hr & Hs & Hl).
  assert (Ec : c = card_new r s).
  { destruct (TextFacts.card_new_parts r s) as (c' & Hc' & _). unfold card_new. rewrite Hc. reflexivity. }
  subst c. exists (card_value (card_new r s)). split; [ apply made_card | ].
  split; [ apply (returns_at 0 2); intros fuel d; rewrite <- Hr at 2; exact (call_card_rank fuel d _) | ].
  split; [ apply (returns_at 0 2); intros fuel d; rewrite <- Hs at 2; exact (call_card_suit fuel d _) | ].
  split; [ exists (unique_integer (card_new r s)); split; [ | exact Hl ];
           apply (returns_at 0 1); intros fuel d; exact (call_unique_integer fuel d _) | ].
  assert (E : exists x y, nth_error rank_chars (pips r - 2) = Some x
    /\ nth_error (lit "chsd") (match s with Clubs => 0 | Hearts => 1 | Spades => 2 | Diamonds => 3 end) = Some y
    /\ rank_suit_string (card_new r s) = [x; y]).
  { destruct r, s; do 2 eexists; (split; [ reflexivity | split; reflexivity ]). }
  destruct E as (x & y & E1 & E2 & E3). exists x, y. split; [ exact E1 | ]. split; [ exact E2 | ]. rewrite <- E3.
  split; apply (returns_at 0 3); intros fuel d.
  - exact (call_rank_suit_string fuel d _).
  - etransitivity; [ exact (call_card_from_str fuel d _) | ].
    rewrite TextFacts.parse_print by (exists r, s; reflexivity). reflexivity.
Qed.

Theorem runs_parse : forall P, load_all texts = Some P -> forall s,
  (forall x y, s = [x; y] -> In x rank_chars -> In y suit_chars ->
     exists f v, made P f v /\ returns P "Card::from_str" None [VStr s] (VCon "Ok" [("0", v)])
       /\ returns P "Card::rank_suit_string" None [v] (VStr s))
  /\ (length s <> 2 ->
      returns P "Card::from_str" None [VStr s]
        (VCon "Err" [("0", VCon "ParseCardError::InvalidLength" [("original_input", VStr s)])]))
  /\ (forall x y, s = [x; y] -> ~ In x rank_chars ->
      returns P "Card::from_str" None [VStr s]
        (VCon "Err" [("0", VCon "ParseCardError::InvalidRank" [("original_input", VStr s); ("incorrect_char", VChr x)])]))
  /\ (forall x y, s = [x; y] -> In x rank_chars -> ~ In y suit_chars ->
      returns P "Card::from_str" None [VStr s]
        (VCon "Err" [("0", VCon "ParseCardError::InvalidSuit" [("original_input", VStr s); ("incorrect_char", VChr y)])])).
Proof.
  intros P H s. rewrite (loaded P H). clear P H.
  assert (R : returns rust "Card::from_str" None [VStr s] (result_value card_value parse_error_value (card_from_str s))).
  { apply (returns_at 0 3). intros fuel d. exact (call_card_from_str fuel d s). }
  split; [ | split; [ | split ] ].
  - intros x y Es Hx Hy. destruct (proj2 (TextFacts.parse_accepts s)) as [c Hc]; [ exists x, y; auto | ].
    destruct (TextFacts.parse_ok_inv s c Hc) as [(r & st & ->) Ht]. exists (r, st), (card_value (card_new r st)).
    split; [ apply made_card | ]. rewrite Hc in R. split; [ exact R | ].
    apply (returns_at 0 3). intros fuel d. rewrite <- Ht. exact (call_rank_suit_string fuel d _).
  - intros L. rewrite (proj2 (TextFacts.parse_errors s (InvalidLength s))) in R by (left; auto). exact R.
  - intros x y Es Hx. rewrite (proj2 (TextFacts.parse_errors s (InvalidRank s x))) in R by (right; left; eauto). exact R.
  - intros x y Es Hx Hy. rewrite (proj2 (TextFacts.parse_errors s (InvalidSuit s y))) in R by (right; right; eauto 6).
    exact R.
Qed.

Theorem runs_compare : forall P, load_all texts = Some P -> forall f g v w, made P f v -> made P g w ->
  exists o, returns P "Card::cmp" None [v; w] (VCon o [])
    /\ (o = "Ordering::Less" <-> pips (fst f) < pips (fst g))
    /\ (o = "Ordering::Equal" <-> pips (fst f) = pips (fst g))
    /\ (o = "Ordering::Greater" <-> pips (fst g) < pips (fst f)).
Proof.
  intros P H f g v w Hv Hw. rewrite (loaded P H) in *. clear P H.
  rewrite (made_only f v Hv), (made_only g w Hw).
  exists (match Nat.compare (pips (fst f)) (pips (fst g)) with Lt => "Ordering::Less" | Eq => "Ordering::Equal" | Gt => "Ordering::Greater" end).
  split.
  - apply (returns_at 0 3). intros fuel d. etransitivity; [ exact (call_card_cmp fuel d _ _) | ].
    destruct (TextFacts.card_order (card_new (fst f) (snd f)) (card_new (fst g) (snd g)) (card_new Two Clubs)) as [E _].
    rewrite E, !card_rank_new. clear E. destruct (Nat.compare (pips (fst f)) (pips (fst g))); reflexivity.
  - destruct (Nat.compare_spec (pips (fst f)) (pips (fst g))) as [E|E|E];
      (split; [ | split ]; split; intros X; try discriminate X; try reflexivity; lia).
Qed.

(** ** Evaluators and hands *)
Lemma call_evaluator_new : forall fuel d t, lookup_table_new = Ret t ->
  call (engine (221 + fuel) (S (S (S (S (S (S (S (S d))))))))) "Evaluator::new" None []
  = Val (evaluator_value (Evaluator t), VUnit).
Proof.
  intros fuel d t Ht.
  pose proof (call_lookup_table_new fuel d) as K. rewrite Ht in K. cbn [lift] in K.
  unfold evaluator_value. cbn [evaluator_table]. remember (table_value t) as tv eqn:E. clear E Ht t.
  change (S (220 + fuel)) with (221 + fuel) in K. remember (221 + fuel) as n eqn:En. clear En fuel.
  code. knowing K. over. reflexivity.
Qed.

Lemma evaluator_made : forall t, lookup_table_new = Ret t -> returns rust "Evaluator::new" None [] (evaluator_value (Evaluator t)).
Proof. intros t Ht. apply (returns_at 221 8). intros fuel d. exact (call_evaluator_new fuel d t Ht). Qed.
Lemma new_inv : forall ev, returns rust "Evaluator::new" None [] ev ->
  exists m, new_evaluator m /\ ev = evaluator_value m.
Proof.
  intros ev H. destruct HandFacts.evaluator_new_ret as [m Hm].
  destruct (HandFacts.evaluator_new_inv m Hm) as (t & Ht & ->). exists (Evaluator t). split; [ exact Hm | ].
  exact (returns_fun _ _ _ _ _ _ H (evaluator_made t Ht)).
Qed.
Lemma deck_52 : forall l, all_cards l -> NoDup l -> length l <= 52.
Proof.
  intros l A N.
  pose (deck := flat_map (fun r => map (card_new r) [Clubs; Hearts; Spades; Diamonds]) high_to_low).
  change 52 with (length deck). apply NoDup_incl_length; [ exact N | ]. intros c Hc.
  destruct (proj1 (Forall_forall _ _) A c Hc) as (r & s & ->). unfold deck. apply in_flat_map. exists r. split.
  - clear. destruct r; simpl; tauto.
  - apply in_map. clear. destruct s; simpl; tauto.
Qed.
Lemma run_evaluate : forall m l r, all_cards l -> evaluate m l = Ret r ->
  returns rust "Evaluator::evaluate" None [evaluator_value m; cards_value l] (result_value eval_value eval_error_value r).
Proof.
  intros m l r A H. apply (returns_at (S (binom (length l) 5)) 8). intros fuel d.
  etransitivity; [ apply (call_evaluator_evaluate (S (binom (length l) 5) + fuel) d m l) | ].
  - intros U. destruct (EvaluateFacts.all_unique_spec l A) as (b & Hb & Hs).
    rewrite Hb in U. injection U as ->. pose proof (deck_52 l A (proj1 Hs eq_refl)) as L.
    apply Z.le_lt_trans with 52%Z; [ apply (inj_le _ 52), L | reflexivity ].
  - lia.
  - rewrite H. reflexivity.
Qed.
Lemma idents_nodup : forall h, NoDup h <-> NoDup (cards_macro_idents h).
Proof.
  intros h. split; intros H.
  - apply NoDup_faces; [ apply Samples.idents_all_cards | ]. rewrite Samples.idents_faces. exact H.
  - apply (NoDup_map_inv (fun p => card_new (fst p) (snd p))). exact H.
Qed.
Lemma idents_length : forall h, length (cards_macro_idents h) = length h.
Proof. intros h. apply map_length. Qed.
Lemma idents_five : forall h, five_card_hand h -> hand5 (cards_macro_idents h).
Proof.
  intros h [N L]. split; [ apply Samples.idents_all_cards | ]. rewrite idents_length. split; [ apply idents_nodup, N | exact L ].
Qed.
Lemma run_gives : forall m h cs e, Forall2 (made rust) h cs -> evaluates m (cards_macro_idents h) e ->
  gives rust (evaluator_value m) cs (eval_value e).
Proof.
  intros m h cs e F E. unfold gives. rewrite (made_all h cs F).
  exact (run_evaluate m _ _ (Samples.idents_all_cards h) E).
Qed.
Lemma gives_inv : forall m h cs v, new_evaluator m -> Forall2 (made rust) h cs -> NoDup h -> 5 <= length h ->
  gives rust (evaluator_value m) cs v -> exists e, evaluates m (cards_macro_idents h) e /\ v = eval_value e.
Proof.
  intros m h cs v Hm F N L G.
  destruct (LawFacts.best_choice m (cards_macro_idents h) Hm) as (e & E & _).
  { split; [ apply Samples.idents_all_cards | ]. rewrite idents_length. split; [ apply idents_nodup, N | exact L ]. }
  exists e. split; [ exact E | ]. pose proof (returns_fun _ _ _ _ _ _ G (run_gives m h cs e F E)) as X.
  injection X as ->. reflexivity.
Qed.

Theorem runs_evaluator : forall P, load_all texts = Some P -> exists ev, returns P "Evaluator::new" None [] ev.
Proof.
  intros P H. rewrite (loaded P H). destruct HandFacts.evaluator_new_ret as [m Hm].
  destruct (HandFacts.evaluator_new_inv m Hm) as (t & Ht & ->). eexists. exact (evaluator_made t Ht).
Qed.

Theorem runs_errors : forall P ev h cs, load_all texts = Some P -> returns P "Evaluator::new" None [] ev ->
  Forall2 (made P) h cs ->
  (~ NoDup h -> fails P ev cs (VCon "EvalError::CardsNotUnique" [("0", VList cs)]))
  /\ (NoDup h -> length h < 5 -> fails P ev cs (VCon "EvalError::InvalidHandSize" [("0", VInt Usize (Z.of_nat (length h)))])).
Proof.
  intros P ev h cs HP. rewrite (loaded P HP). clear P HP. intros Hev F. destruct (new_inv ev Hev) as (m & Hm & ->).
  unfold fails. rewrite (made_all h cs F). pose proof (Samples.idents_all_cards h) as A. split.
  - intros N. apply (run_evaluate m _ (Err (CardsNotUnique (cards_macro_idents h))) A).
    apply HandFacts.evaluate_dup; [ exact A | ]. intros N'. apply N, idents_nodup, N'.
  - intros N L. replace (length h) with (length (cards_macro_idents h)) by (apply idents_length). apply (run_evaluate m _ (Err (InvalidHandSize (length (cards_macro_idents h)))) A).
    apply HandFacts.evaluate_small; [ exact A | apply idents_nodup, N | ]. rewrite idents_length. exact L.
Qed.

Theorem runs_five : forall P ev h cs, load_all texts = Some P -> returns P "Evaluator::new" None [] ev ->
  Forall2 (made P) h cs -> five_card_hand h ->
  exists e c, gives P ev cs e /\ returns P "Eval::class" None [e] (class_value c) /\ (forall c', classify h c' <-> c' = c).
Proof.
  intros P ev h cs HP. rewrite (loaded P HP). clear P HP. intros Hev F H5. destruct (new_inv ev Hev) as (m & Hm & ->).
  pose proof (idents_five h H5) as I5.
  destruct (LawFacts.best_choice m _ Hm (HandFacts.hand5_legal _ I5)) as (e & E & _).
  exists (eval_value e), (eval_class_of e). split; [ exact (run_gives m h cs e F E) | ]. split.
  - apply (returns_at 0 2). intros fuel d. exact (call_eval_class fuel d e).
  - intros c'. rewrite <- (Samples.idents_faces h), (HandFacts.class_correct m _ e Hm I5 E c').
    split; intros X; symmetry; exact X.
Qed.

Lemma run_verdicts : forall a b,
  better rust (eval_value a) (eval_value b) (eval_is_better_than a b)
  /\ worse rust (eval_value a) (eval_value b) (eval_is_worse_than a b)
  /\ same rust (eval_value a) (eval_value b) (eval_is_equal_to a b).
Proof.
  intros a b. split; [ | split ]; apply (returns_at 0 3); intros fuel d.
  - exact (call_eval_is_better_than fuel d a b).
  - exact (call_eval_is_worse_than fuel d a b).
  - exact (call_eval_is_equal_to fuel d a b).
Qed.

Theorem runs_versus : forall P ev h1 cs1 e1 h2 cs2 e2, load_all texts = Some P -> returns P "Evaluator::new" None [] ev ->
  Forall2 (made P) h1 cs1 -> five_card_hand h1 -> gives P ev cs1 e1 ->
  Forall2 (made P) h2 cs2 -> five_card_hand h2 -> gives P ev cs2 e2 ->
  exists b w s, better P e1 e2 b /\ worse P e1 e2 w /\ same P e1 e2 s
    /\ (b = true <-> beats h1 h2) /\ (w = true <-> beats h2 h1) /\ (s = true <-> ties h1 h2).
Proof.
  intros P ev h1 cs1 e1 h2 cs2 e2 HP. rewrite (loaded P HP). clear P HP. intros Hev F1 H1 G1 F2 H2 G2.
  destruct (new_inv ev Hev) as (m & Hm & ->).
  destruct (gives_inv m h1 cs1 e1 Hm F1 (proj1 H1)) as (a & Ea & ->); [ rewrite (proj2 H1); constructor | exact G1 | ].
  destruct (gives_inv m h2 cs2 e2 Hm F2 (proj1 H2)) as (b & Eb & ->); [ rewrite (proj2 H2); constructor | exact G2 | ].
  destruct (HandFacts.comparison_correct m _ _ a b Hm (idents_five h1 H1) (idents_five h2 H2) Ea Eb) as (Cg & Ce & Cl).
  rewrite !Samples.idents_faces in Cg, Ce, Cl.
  destruct (LawFacts.eval_methods a b) as (Mb & Mw & Ms & _).
  destruct (LawFacts.eval_order a b a) as (_ & _ & _ & Oe & _).
  destruct (run_verdicts a b) as (Rb & Rw & Rs).
  exists (eval_is_better_than a b), (eval_is_worse_than a b), (eval_is_equal_to a b).
  split; [ exact Rb | ]. split; [ exact Rw | ]. split; [ exact Rs | ].
  split; [ rewrite Mb; exact Cg | ]. split; [ rewrite Mw; exact Cl | ]. rewrite Ms, <- Oe. exact Ce.
Qed.

Theorem runs_best : forall P ev h cs, load_all texts = Some P -> returns P "Evaluator::new" None [] ev ->
  Forall2 (made P) h cs -> NoDup h -> 5 <= length h ->
  exists e, gives P ev cs e
    /\ (exists h' cs', five_card_hand h' /\ incl h' h /\ Forall2 (made P) h' cs' /\ gives P ev cs' e)
    /\ (forall h' cs' e', five_card_hand h' -> incl h' h -> Forall2 (made P) h' cs' -> gives P ev cs' e' ->
          worse P e e' false).
Proof.
  intros P ev h cs HP. rewrite (loaded P HP). clear P HP. intros Hev F N L. destruct (new_inv ev Hev) as (m & Hm & ->).
  destruct (LawFacts.best_choice m (cards_macro_idents h) Hm) as (e & E & (x & X5 & Xi & Ex) & M).
  { split; [ apply Samples.idents_all_cards | ]. rewrite idents_length. split; [ apply idents_nodup, N | exact L ]. }
  exists (eval_value e). split; [ exact (run_gives m h cs e F E) | ]. split.
  - assert (Ix : cards_macro_idents (faces x) = x).
    { destruct X5 as (A & _). clear - A. induction A as [|c x (r & s & ->) A IH]; [ reflexivity | ].
      unfold cards_macro_idents, faces, face_of in *. cbn [map fst snd]. rewrite IH, card_rank_new, card_suit_new. reflexivity. }
    exists (faces x), (map card_value x).
    assert (H5 : five_card_hand (faces x)).
    { split; [ apply idents_nodup; rewrite Ix; apply X5 | ]. unfold faces. rewrite map_length. apply X5. }
    assert (Fx : Forall2 (made rust) (faces x) (map card_value x)).
    { rewrite <- Ix at 2. generalize (faces x). intros l. clear. induction l as [|[r s] l IH]; constructor; [ apply made_card | exact IH ]. }
    split; [ exact H5 | ]. split; [ | split; [ exact Fx | ] ].
    + intros f Hf. unfold faces in Hf. apply in_map_iff in Hf. destruct Hf as (c & <- & Hc).
      rewrite <- (Samples.idents_faces h). apply in_map, Xi, Hc.
    + apply (run_gives m (faces x) _ e Fx). rewrite Ix. exact Ex.
  - intros h' cs' e' H5 I F' G'.
    destruct (gives_inv m h' cs' e' Hm F' (proj1 H5)) as (b & Eb & ->); [ rewrite (proj2 H5); constructor | exact G' | ].
    destruct (run_verdicts e b) as (_ & Rw & _). replace false with (eval_is_worse_than e b); [ exact Rw | ].
    destruct (eval_is_worse_than e b) eqn:W; [ exfalso | reflexivity ].
    destruct (LawFacts.eval_methods e b) as (_ & Mw & _). apply Mw in W. revert W.
    apply (M (cards_macro_idents h') b (idents_five h' H5)); [ | exact Eb ].
    intros c Hc. unfold cards_macro_idents in *. apply in_map_iff in Hc. destruct Hc as (f & <- & Hf).
    apply (in_map (fun p => card_new (fst p) (snd p))), I, Hf.
Qed.

(** ** Choices of items *)
Lemma run_yields : forall n (c : combinations value) l, length (cb_indices c) = n -> (Z.of_nat (length (cb_data c)) < 2 ^ 63)%Z ->
  iterates c l -> yields rust n (combinations_value (fun v => v) c) l.
Proof.
  intros n c l Hn Hl I. induction I as [c c' E|c x c' l E I IH].
  - apply (yields_end _ _ _ (combinations_value (fun v => v) c')). apply (mut_at 0 4). intros fuel d. rewrite <- Hn.
    etransitivity; [ exact (call_next (fun v => v) fuel d c Hl) | ]. rewrite E. reflexivity.
  - destruct (next_kept _ _ _ E) as (Kd & Kn).
    apply (yields_item _ _ _ (combinations_value (fun v => v) c')); [ | apply IH; congruence ].
    apply (mut_at 0 4). intros fuel d. rewrite <- Hn.
    etransitivity; [ exact (call_next (fun v => v) fuel d c Hl) | ]. rewrite E. cbn [lift fst snd option_value].
    rewrite map_id. reflexivity.
Qed.
Lemma new_value : forall n (items : list value),
  combinations_value (fun v => v) (combinations_new n items)
  = VCon "Combinations" [("data", VList items); ("indices", VInts Usize (map Z.of_nat (seq 0 n)));
                         ("done", VBool false); ("N", VInt Usize (Z.of_nat n))].
Proof. intros. unfold combinations_value, combinations_new. cbn [cb_data cb_indices cb_done]. rewrite map_id, seq_length. reflexivity. Qed.

Theorem runs_combos : forall P, load_all texts = Some P -> forall n items d, 1 <= n <= length items ->
  (Z.of_nat (length items) < 2 ^ 63)%Z ->
  exists it Is, returns P "const_combos" (Some (VInt Usize (Z.of_nat n))) [VList items] it
    /\ (forall I, In I Is <-> choice n (length items) I)
    /\ StronglySorted lex_lt Is
    /\ yields P n it (map (map (fun i => nth i items d)) Is).
Proof.
  intros P H n items d Hn Hl. rewrite (loaded P H). clear P H.
  destruct (CombosFacts.combos_iterate n items d Hn) as (Is & Hc & Hs & Hi & _).
  exists (combinations_value (fun v => v) (combinations_new n items)), Is. split; [ | split; [ exact Hc | split; [ exact Hs | ] ] ].
  - rewrite new_value. apply (returns_at 0 3). intros fuel d'. exact (call_const_combos fuel d' n items).
  - apply run_yields; [ apply seq_length | exact Hl | exact Hi ].
Qed.

Theorem runs_combos_short : forall P, load_all texts = Some P -> forall n items, length items < n ->
  (Z.of_nat (length items) < 2 ^ 63)%Z ->
  exists it, returns P "const_combos" (Some (VInt Usize (Z.of_nat n))) [VList items] it
    /\ panics P "Combinations::next" (Some (VInt Usize (Z.of_nat n))) [it].
Proof.
  intros P H n items Hn Hl. rewrite (loaded P H). clear P H.
  destruct (CombosFacts.combinations_short n items Hn) as (p & Hp).
  exists (combinations_value (fun v => v) (combinations_new n items)). split.
  - rewrite new_value. apply (returns_at 0 3). intros fuel d'. exact (call_const_combos fuel d' n items).
  - apply (panics_at 0 4 _ _ _ p). intros fuel d.
    pose proof (call_next (fun v => v) fuel d (combinations_new n items) Hl) as K. cbn [cb_indices combinations_new] in K.
    rewrite seq_length in K. etransitivity; [ exact K | ]. rewrite Hp. reflexivity.
Qed.

(** ** For the examples beside the properties *)
Lemma readable : exists P, load_all texts = Some P.
Proof. exists rust. exact rust_loaded. Qed.
Lemma made_list : forall P, load_all texts = Some P -> forall h, exists cs, Forall2 (made P) h cs.
Proof.
  intros P H h. rewrite (loaded P H). exists (map card_value (cards_macro_idents h)).
  induction h as [|[r s] h IH]; constructor; [ apply made_card | exact IH ].
Qed.
Lemma three_choices : exists P it, load_all texts = Some P
  /\ returns P "const_combos" (Some (VInt Usize 2)) [VList [VChr 97; VChr 98; VChr 99]] it
  /\ yields P 2 it [[VChr 97; VChr 98]; [VChr 97; VChr 99]; [VChr 98; VChr 99]].
Proof.
  exists rust, (combinations_value (fun v => v) (combinations_new 2 [VChr 97; VChr 98; VChr 99])). split; [ exact rust_loaded | ]. split.
  - rewrite new_value. apply (returns_at 0 3). intros fuel d. exact (call_const_combos fuel d 2 [VChr 97; VChr 98; VChr 99]).
  - apply run_yields; [ reflexivity | reflexivity | ].
    eapply iterates_item; [ reflexivity | ]. eapply iterates_item; [ reflexivity | ]. eapply iterates_item; [ reflexivity | ].
    eapply iterates_end. reflexivity.
Qed.
