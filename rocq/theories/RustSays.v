(** RustSays.v: what the source text says of a result, writes of cards, results and errors, and puts in the deck: from
    running it (Rust*.v) and from what is proved of the model. *)
From Coq Require Import String Lia.
From Verif Require Import Base BaseFacts ModelCard ModelEval ModelTable ModelEvaluation CardFacts Spec SpecApi SpecText.
From Verif Require HandFacts LawFacts TextFacts Samples.
From Verif Require Import RustSyntax RustSemantics RustProgram RustValues RustSteps RustFacts RustFormat RustDuplicates RustRuns SpecRust.
Local Open Scope string_scope.
Local Open Scope list_scope.

(** ** Results *)
Lemma run_class : forall e, returns rust "Eval::class" None [eval_value e] (class_value (eval_class_of e)).
Proof. intros e. apply (returns_at 0 2). intros fuel d. exact (call_eval_class fuel d e). Qed.
Lemma class_value_inj : forall a b, class_value a = class_value b -> a = b.
Proof.
  assert (R : forall r s, rank_value r = rank_value s -> r = s) by (intros [] [] Y; first [ reflexivity | discriminate Y ]).
  intros a b X. destruct a, b; unfold class_value in X; try discriminate X; f_equal; apply R; congruence.
Qed.
Ltac asked e :=
  destruct (eval_class_of e); split; intros K;
    first [ discriminate K | reflexivity | (eexists; reflexivity) | (do 2 eexists; reflexivity) | (destruct K as [? K]; discriminate K) | (destruct K as (? & ? & K); discriminate K) ].
Lemma run_questions : forall e f k, In (f, k) eval_questions ->
  exists b, returns rust f None [eval_value e] (VBool b) /\ (b = true <-> category (eval_class_of e) = k).
Proof.
  intros e f k H. destruct (LawFacts.is_predicates e) as (P1 & P2 & P3 & P4 & P5 & P6 & P7 & P8 & P9 & _).
  assert (X : forall b g, (forall fuel d, call (engine fuel (S (S d))) f None [eval_value e] = Val (VBool b, VUnit)) ->
    f = g -> (b = true <-> category (eval_class_of e) = k) ->
    exists b, returns rust f None [eval_value e] (VBool b) /\ (b = true <-> category (eval_class_of e) = k)).
  { intros b g C _ B. exists b. split; [ | exact B ]. apply (returns_at 0 2). exact C. }
  assert (Y : forall b (Q : Prop), (b = true <-> Q) -> (Q <-> category (eval_class_of e) = k) ->
    (b = true <-> category (eval_class_of e) = k)).
  { intros b Q A B. rewrite A. exact B. }
  unfold eval_questions in H. cbn [In] in H.
  destruct H as [H|[H|[H|[H|[H|[H|[H|[H|[H|[]]]]]]]]]]; injection H as <- <-.
  - apply (X _ _ (fun fuel d => call_eval_is_high_card fuel d e) eq_refl), (Y _ _ P1).
    asked e.
  - apply (X _ _ (fun fuel d => call_eval_is_pair fuel d e) eq_refl), (Y _ _ P2).
    asked e.
  - apply (X _ _ (fun fuel d => call_eval_is_two_pair fuel d e) eq_refl), (Y _ _ P3).
    asked e.
  - apply (X _ _ (fun fuel d => call_eval_is_three_of_a_kind fuel d e) eq_refl), (Y _ _ P4).
    asked e.
  - apply (X _ _ (fun fuel d => call_eval_is_straight fuel d e) eq_refl), (Y _ _ P5).
    asked e.
  - apply (X _ _ (fun fuel d => call_eval_is_flush fuel d e) eq_refl), (Y _ _ P6).
    asked e.
  - apply (X _ _ (fun fuel d => call_eval_is_full_house fuel d e) eq_refl), (Y _ _ P7).
    asked e.
  - apply (X _ _ (fun fuel d => call_eval_is_four_of_a_kind fuel d e) eq_refl), (Y _ _ P8).
    asked e.
  - apply (X _ _ (fun fuel d => call_eval_is_straight_flush fuel d e) eq_refl), (Y _ _ P9).
    asked e.
Qed.

Theorem runs_results : forall P ev h cs e, load_all texts = Some P -> returns P "Evaluator::new" None [] ev ->
  Forall2 (made P) h cs -> NoDup h -> 5 <= length h -> gives P ev cs e ->
  exists h' c,
    (five_card_hand h' /\ incl h' h /\ classify h' c /\ forall x, five_card_hand x -> incl x h -> ~ beats x h')
    /\ returns P "Eval::class" None [e] (class_value c)
    /\ (forall f k, In (f, k) eval_questions -> exists b, returns P f None [e] (VBool b) /\ (b = true <-> category c = k))
    /\ (exists b, returns P "Eval::is_royal_flush" None [e] (VBool b) /\ (b = true <-> c = StraightFlush Ace))
    /\ (exists z, returns P "Eval::hand_rank" None [e] (hand_rank_value (PokerHandRank z)) /\ (1 <= z <= 7462)%Z)
    /\ forall acc, returns_mut P "Eval::fmt" None [e; VStr acc] fine (VStr (acc ++ lit (hand_name c))).
Proof.
  intros P ev h cs e HP Hev F N L G.
  destruct (runs_best P ev h cs HP Hev F N L) as (e0 & G0 & (h' & cs' & H5 & I & F' & G') & M).
  pose proof (returns_fun _ _ _ _ _ _ G G0) as X. injection X as <-. clear G0.
  destruct (runs_five P ev h' cs' HP Hev F' H5) as (e1 & c & G1 & C & Hc).
  pose proof (returns_fun _ _ _ _ _ _ G' G1) as X. injection X as <-. clear G1.
  exists h', c. split.
  { split; [ exact H5 | ]. split; [ exact I | ]. split; [ apply Hc; reflexivity | ]. intros x X5 Xi B.
    destruct (made_list P HP x) as (csx & Fx). destruct (runs_five P ev x csx HP Hev Fx X5) as (ex & _ & Gx & _).
    destruct (runs_versus P ev h' cs' e x csx ex HP Hev F' H5 G' Fx X5 Gx) as (b & w & s & _ & W & _ & _ & Hw & _).
    pose proof (returns_fun _ _ _ _ _ _ W (M x csx ex X5 Xi Fx Gx)) as X. injection X as ->.
    discriminate (proj2 Hw B). }
  split; [ exact C | ].
  revert Hev F F' G G' C. rewrite (loaded P HP). clear P HP M Hc. intros Hev F F' G G' C.
  destruct (new_inv ev Hev) as (m & Hm & ->).
  destruct (gives_inv m h cs e Hm F N L G) as (a & Ea & ->).
  assert (Ec : c = eval_class_of a).
  { exact (class_value_inj _ _ (returns_fun _ _ _ _ _ _ C (run_class a))). }
  subst c. pose proof (Samples.idents_all_cards h) as A. split; [ | split; [ | split ] ].
  - exact (run_questions a).
  - exists (eval_is_royal_flush a). split; [ apply (returns_at 0 2); intros fuel d; exact (call_eval_is_royal_flush fuel d a) | ].
    destruct (LawFacts.royal_equivalences m _ a Hm A Ea) as (_ & R1 & R2 & _). rewrite <- R1. exact R2.
  - exists (phr (eval_hand_rank a)). split; [ | exact (HandFacts.rank_range m _ a Hm A Ea) ].
    apply (returns_at 0 2); intros fuel d. etransitivity; [ exact (call_eval_hand_rank fuel d a) | ].
    destruct (eval_hand_rank a). reflexivity.
  - intros acc. apply (mut_at 0 4). intros fuel d. etransitivity; [ exact (call_eval_fmt fuel d a acc) | ].
    rewrite LawFacts.eval_display_spec. reflexivity.
Qed.

(** ** What is written *)
Lemma run_card_fmt : forall f v acc, made rust f v ->
  returns_mut rust "Card::fmt" None [v; VStr acc] fine
    (VStr (acc ++ lit "[ " ++ [rank_as_char (fst f)] ++ [suit_as_pretty_char (snd f)] ++ lit " ]")).
Proof.
  intros [r s] v acc M. rewrite (made_only _ _ M). apply (mut_at 0 3). intros fuel d.
  etransitivity; [ exact (call_card_fmt fuel d _ acc) | ].
  destruct TextFacts.displays as (_ & _ & _ & D & _). cbn [fst snd]. rewrite D. reflexivity.
Qed.
Theorem runs_writes : forall P, load_all texts = Some P -> forall acc,
  (forall r, exists x, nth_error rank_chars (pips r - 2) = Some x
     /\ returns_mut P "Rank::fmt" None [rank_value r; VStr acc] fine (VStr (acc ++ [x])))
  /\ (forall s, returns_mut P "Suit::fmt" None [suit_value s; VStr acc] fine (VStr (acc ++ [suit_sign s])))
  /\ (forall f v, made P f v -> exists x, nth_error rank_chars (pips (fst f) - 2) = Some x
     /\ returns_mut P "Card::fmt" None [v; VStr acc] fine (VStr (acc ++ lit "[ " ++ [x; suit_sign (snd f)] ++ lit " ]"))).
Proof.
  intros P H acc. rewrite (loaded P H). clear P H. split; [ | split ].
  - intros r. exists (rank_as_char r). split; [ destruct r; reflexivity | ]. apply (mut_at 0 2). intros fuel d.
    exact (call_rank_fmt fuel d r acc).
  - intros s. replace (suit_sign s) with (suit_as_pretty_char s) by (destruct s; reflexivity).
    apply (mut_at 0 2). intros fuel d. exact (call_suit_fmt fuel d s acc).
  - intros [r s] v M. exists (rank_as_char r). split; [ destruct r; reflexivity | ].
    replace (suit_sign (snd (r, s))) with (suit_as_pretty_char s) by (destruct s; reflexivity).
    exact (run_card_fmt (r, s) v acc M).
Qed.
Lemma class_display_name : forall c, class_display c = lit (hand_name c).
Proof.
  intros c. pose (m := match c with
    | HighCard h => MHighCard PHR_BEST h | Pair p => MPair PHR_BEST p | TwoPair a b => MTwoPair PHR_BEST a b
    | ThreeOfAKind t => MThreeOfAKind PHR_BEST t | Straight h => MStraight PHR_BEST h | Flush h => MFlush PHR_BEST h
    | FullHouse t p => MFullHouse PHR_BEST t p | FourOfAKind q => MFourOfAKind PHR_BEST q
    | StraightFlush h => MStraightFlush PHR_BEST h end).
  assert (E : eval_class_of (MkEval m) = c) by (destruct c; reflexivity).
  pose proof (LawFacts.eval_display_spec (MkEval m)) as D. rewrite E in D. rewrite <- D.
  unfold eval_display, meta_display. rewrite <- E. reflexivity.
Qed.
Theorem runs_writes_class : forall P, load_all texts = Some P -> forall c acc,
  returns_mut P "EvalClass::fmt" None [class_value c; VStr acc] fine (VStr (acc ++ lit (hand_name c))).
Proof.
  intros P H c acc. rewrite (loaded P H). clear P H. apply (mut_at 0 2). intros fuel d.
  etransitivity; [ exact (call_class_fmt fuel d c acc) | ]. rewrite class_display_name. reflexivity.
Qed.
Theorem runs_writes_errors : forall P, load_all texts = Some P -> forall s e,
  returns P "Card::from_str" None [VStr s] (VCon "Err" [("0", e)]) -> forall acc,
  exists m, card_complaint s m /\ returns_mut P "ParseCardError::fmt" None [e; VStr acc] fine (VStr (acc ++ m)).
Proof.
  intros P H s e. rewrite (loaded P H). clear P H. intros R acc.
  assert (R' : returns rust "Card::from_str" None [VStr s] (result_value card_value parse_error_value (card_from_str s))).
  { apply (returns_at 0 3). intros fuel d. exact (call_card_from_str fuel d s). }
  pose proof (returns_fun _ _ _ _ _ _ R R') as X. destruct (card_from_str s) as [c|x] eqn:E; [ discriminate X | ].
  injection X as ->. exists (parse_card_error_display x). split; [ exact (TextFacts.error_message s x E) | ].
  apply (mut_at 0 1). intros fuel d. exact (call_parse_error_fmt fuel d x acc).
Qed.
Theorem runs_writes_size : forall P, load_all texts = Some P -> forall n acc,
  returns_mut P "EvalError::fmt" None [VCon "EvalError::InvalidHandSize" [("0", VInt Usize (Z.of_nat n))]; VStr acc] fine
    (VStr (acc ++ lit "Cannot evaluate a poker hand with a set of less than 5 cards. Number of cards received: "
           ++ dec (N.of_nat n))).
Proof.
  intros P H n acc. rewrite (loaded P H). clear P H. apply (mut_at 0 1). intros fuel d.
  exact (call_eval_error_fmt fuel d n acc (fun l => l)).
Qed.

Lemma face_dec : forall a b : face, {a = b} + {a <> b}.
Proof. repeat decide equality. Qed.
Lemma twice_count : forall {A} (dec : forall a b : A, {a = b} + {a <> b}) (l : list A) x,
  2 <= count_occ dec l x <-> exists a b c, l = a ++ x :: b ++ x :: c.
Proof.
  intros A dec l x. split.
  - intros H. assert (I : In x l) by (apply (count_occ_In dec); lia).
    destruct (in_split x l I) as (a & m & ->). rewrite count_occ_app in H. cbn [count_occ] in H.
    destruct (dec x x) as [_|n]; [ | congruence ].
    destruct (in_dec dec x m) as [M|M].
    + destruct (in_split x m M) as (b & c & ->). exists a, b, c. reflexivity.
    + assert (Ma : In x a).
      { apply (count_occ_In dec). pose proof (proj1 (count_occ_not_In dec m x) M). lia. }
      destruct (in_split x a Ma) as (b & c & ->). exists b, c, m. rewrite <- app_assoc. reflexivity.
  - intros (a & b & c & ->). rewrite count_occ_app. cbn [count_occ]. destruct (dec x x) as [_|n]; [ | congruence ].
    rewrite count_occ_app. cbn [count_occ]. destruct (dec x x) as [_|n]; [ | congruence ]. lia.
Qed.
Theorem runs_writes_duplicates : forall P, load_all texts = Some P -> forall h cs, Forall2 (made P) h cs -> forall acc,
  exists dups, NoDup dups
    /\ (forall f, In f dups <-> exists a b c, h = a ++ f :: b ++ f :: c)
    /\ returns_mut P "EvalError::fmt" None [VCon "EvalError::CardsNotUnique" [("0", VList cs)]; VStr acc] fine
         (VStr (acc ++ lit "Cannot evaluate a poker hand with a set of cards that are not unique. Cards duplicated at least once: "
                ++ spaced (map face_text dups))).
Proof.
  intros P H h cs. rewrite (loaded P H). clear P H. intros F acc. rewrite (made_all h cs F). clear cs F.
  destruct (TextFacts.not_unique_display (fun l => l) (cards_macro_idents h)) as (ds & N & D & E); [ reflexivity | ].
  assert (A : forall c, In c ds -> exists f, c = card_new (fst f) (snd f)).
  { intros c Hc. apply D in Hc. assert (I : In c (cards_macro_idents h)) by (apply (count_occ_In card_dec); lia).
    unfold cards_macro_idents in I. apply in_map_iff in I. destruct I as ([r s] & <- & _). exists (r, s). reflexivity. }
  assert (J : forall f g : face, card_new (fst f) (snd f) = card_new (fst g) (snd g) -> f = g).
  { intros [r s] [r' s'] X. cbn [fst snd] in X. pose proof (f_equal card_rank X) as X1. pose proof (f_equal card_suit X) as X2.
    rewrite !card_rank_new in X1. rewrite !card_suit_new in X2. congruence. }
  assert (M : ds = map (fun f => card_new (fst f) (snd f)) (faces ds)).
  { unfold faces. rewrite map_map. rewrite <- (map_id ds) at 1. apply map_ext_in. intros c Hc.
    destruct (A c Hc) as ([r s] & ->). unfold face_of. cbn [fst snd]. rewrite card_rank_new, card_suit_new. reflexivity. }
  exists (faces ds). split; [ | split ].
  - rewrite M in N. apply NoDup_map_inv in N. exact N.
  - intros f. rewrite <- (twice_count face_dec h f).
    assert (C : count_occ card_dec (cards_macro_idents h) (card_new (fst f) (snd f)) = count_occ face_dec h f).
    { unfold cards_macro_idents. clear -J. induction h as [|g h IH]; [ reflexivity | ]. cbn [map count_occ].
      destruct g as [r s]. cbn [fst snd] in *. rewrite IH.
      destruct (card_dec (card_new r s) (card_new (fst f) (snd f))) as [e|n], (face_dec (r, s) f) as [e'|n']; try reflexivity.
      - exfalso. apply n'. apply J. exact e.
      - exfalso. apply n. rewrite <- e'. reflexivity. }
    rewrite <- C, <- D. split.
    + intros I. rewrite M. apply in_map_iff. exists f. split; [ reflexivity | exact I ].
    + intros I. apply (in_map face_of) in I. destruct f as [r s]. unfold face_of in I at 1. cbn [fst snd] in I.
      rewrite card_rank_new, card_suit_new in I. exact I.
  - replace (map face_text (faces ds)) with (map card_text ds).
    + rewrite <- E. apply (mut_at 0 5). intros fuel d. exact (call_not_unique_fmt fuel d (cards_macro_idents h) acc).
    + unfold faces. rewrite map_map. reflexivity.
Qed.

(** ** The deck *)
Theorem runs_deck : forall P, load_all texts = Some P ->
  exists vs, returns P "generate" None [] (VList vs)
    /\ Forall2 (made P) (list_prod [Two; Three; Four; Five; Six; Seven; Eight; Nine; Ten; Jack; Queen; King; Ace]
                                   [Clubs; Hearts; Spades; Diamonds]) vs.
Proof.
  intros P H. rewrite (loaded P H). clear P H. exists (map card_value deck_generate). split.
  - apply (returns_at 0 4). intros fuel d. exact (call_generate fuel d).
  - replace deck_generate with (map (fun f => card_new (fst f) (snd f))
      (list_prod [Two; Three; Four; Five; Six; Seven; Eight; Nine; Ten; Jack; Queen; King; Ace] [Clubs; Hearts; Spades; Diamonds]))
      by reflexivity.
    generalize (list_prod [Two; Three; Four; Five; Six; Seven; Eight; Nine; Ten; Jack; Queen; King; Ace] [Clubs; Hearts; Spades; Diamonds]).
    intros l. induction l as [|[r s] l IH]; constructor; [ apply made_card | exact IH ].
Qed.

(** ** For the examples beside the properties *)
Lemma pairs_of_cards : exists P cs, load_all texts = Some P
  /\ Forall2 (made P) [(Ace, Spades); (Two, Clubs); (Ace, Spades); (Three, Hearts); (Two, Clubs); (Ace, Spades)] cs
  /\ returns_mut P "EvalError::fmt" None [VCon "EvalError::CardsNotUnique" [("0", VList cs)]; VStr []] fine
       (VStr (lit "Cannot evaluate a poker hand with a set of cards that are not unique. Cards duplicated at least once: As 2c")).
Proof.
  destruct readable as (P & H). exists P.
  exists (map card_value (cards_macro_idents
    [(Ace, Spades); (Two, Clubs); (Ace, Spades); (Three, Hearts); (Two, Clubs); (Ace, Spades)])).
  split; [ exact H | ]. rewrite (loaded P H). clear P H. split; [ cbn [cards_macro_idents map]; repeat constructor; apply made_card | ].
  apply (mut_at 0 5). intros fuel d.
  exact (call_not_unique_fmt fuel d (cards_macro_idents
    [(Ace, Spades); (Two, Clubs); (Ace, Spades); (Three, Hearts); (Two, Clubs); (Ace, Spades)]) []).
Qed.
Lemma full_house_says : exists P ev cs e, load_all texts = Some P /\ returns P "Evaluator::new" None [] ev
  /\ Forall2 (made P) [(King, Spades); (Two, Hearts); (King, Hearts); (Two, Clubs); (King, Diamonds)] cs
  /\ gives P ev cs e
  /\ returns P "Eval::is_full_house" None [e] (VBool true)
  /\ returns P "Eval::is_pair" None [e] (VBool false)
  /\ returns_mut P "Eval::fmt" None [e; VStr []] fine (VStr (lit "Full house, kings over twos")).
Proof.
  destruct readable as [P HP]. destruct (runs_evaluator P HP) as [ev Hev].
  destruct (made_list P HP Samples.full_house) as [cs F].
  assert (H5 : five_card_hand Samples.full_house).
  { split; [ | reflexivity ]. repeat constructor; cbn; intuition discriminate. }
  destruct (runs_five P ev _ cs HP Hev F H5) as (e & c & G & R & C).
  assert (E : c = FullHouse King Two) by (symmetry; apply C; split; reflexivity). subst c.
  destruct (runs_results P ev _ cs e HP Hev F (proj1 H5)) as (_ & c & _ & R' & Q & _ & _ & W);
    [ rewrite (proj2 H5); constructor | exact G | ].
  assert (E : c = FullHouse King Two) by (exact (class_value_inj _ _ (returns_fun _ _ _ _ _ _ R' R))). subst c.
  exists P, ev, cs, e. split; [ exact HP | ]. split; [ exact Hev | ]. split; [ exact F | ]. split; [ exact G | ].
  split; [ | split ].
  - destruct (Q "Eval::is_full_house" _ ltac:(do 6 right; left; reflexivity)) as (b & B & K).
    rewrite (proj2 K eq_refl) in B. exact B.
  - destruct (Q "Eval::is_pair" _ ltac:(do 1 right; left; reflexivity)) as (b & B & K).
    destruct b; [ discriminate (proj1 K eq_refl) | exact B ].
  - exact (W []).
Qed.
Lemma ace_of_spades_says : exists P v e, load_all texts = Some P /\ made P (Ace, Spades) v
  /\ returns_mut P "Card::fmt" None [v; VStr []] fine (VStr (lit "[ A" ++ [9824%N] ++ lit " ]"))
  /\ returns P "Card::from_str" None [VStr (lit "Ax")] (VCon "Err" [("0", e)])
  /\ returns_mut P "ParseCardError::fmt" None [e; VStr []] fine
       (VStr (lit "Error parsing input 'Ax' as a Card: Invalid suit character 'x', expected one of [chsd]")).
Proof.
  exists rust, (card_value (card_new Ace Spades)), (parse_error_value (InvalidSuit (lit "Ax") 120%N)).
  split; [ exact rust_loaded | ]. split; [ apply made_card | ].
  split; [ exact (run_card_fmt (Ace, Spades) _ [] (made_card Ace Spades)) | ]. split.
  - apply (returns_at 0 3). intros fuel d. exact (call_card_from_str fuel d (lit "Ax")).
  - apply (mut_at 0 1). intros fuel d. exact (call_parse_error_fmt fuel d (InvalidSuit (lit "Ax") 120%N) []).
Qed.
Lemma last_of_deck : exists P vs v, load_all texts = Some P /\ returns P "generate" None [] (VList vs)
  /\ length vs = 52 /\ nth_error vs 51 = Some v /\ made P (Ace, Diamonds) v.
Proof.
  exists rust, (map card_value deck_generate), (card_value (card_new Ace Diamonds)). split; [ exact rust_loaded | ].
  split; [ apply (returns_at 0 4); intros fuel d; exact (call_generate fuel d) | ]. split; [ reflexivity | ].
  split; [ reflexivity | apply made_card ].
Qed.
