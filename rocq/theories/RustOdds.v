(** RustOdds.v: all choices of five, six and seven cards of the deck, made, evaluated and counted by running the source
    text. *)
From Coq Require Import String Lia Permutation Bool.
From Verif Require Import Base BaseFacts ModelCard ModelEval ModelTable ModelEvaluation CardFacts Spec SpecApi.
From Verif Require HandFacts LawFacts Samples CombosFacts DeckFacts Sweep OddsFacts DealFacts ValuesComplete.
From Verif Require Import RustSyntax RustSemantics RustProgram RustValues RustSteps RustHands RustRuns RustBounds RustAgrees.
From Verif Require Import SpecRust SpecOdds.
Local Open Scope string_scope.
Local Open Scope list_scope.

(** ** Lists *)
Lemma along_permutation {A B} (R : A -> B -> Prop) : forall l1 l2, Permutation l1 l2 -> forall es, Forall2 R l1 es ->
  exists es', Forall2 R l2 es' /\ Permutation es es'.
Proof.
  intros l1 l2 Pm. induction Pm as [|x l1 l2 _ IH|x y l|l1 l2 l3 _ IH1 _ IH2]; intros es F.
  - exists es. split; [ exact F | apply Permutation_refl ].
  - inversion F as [|a e l es0 Ha Fl]; subst. destruct (IH _ Fl) as (es' & F' & Q). exists (e :: es').
    split; [ constructor; assumption | apply perm_skip, Q ].
  - inversion F as [|a e l0 es0 Ha Fl]; subst. inversion Fl as [|a' e' l1 es1 Ha' Fl']; subst.
    exists (e' :: e :: es1). split; [ repeat constructor; assumption | apply perm_swap ].
  - destruct (IH1 _ F) as (es1 & F1 & Q1). destruct (IH2 _ F1) as (es2 & F2 & Q2). exists es2.
    split; [ exact F2 | apply (Permutation_trans Q1 Q2) ].
Qed.
Lemma filter_permutation {A} (p : A -> bool) : forall l1 l2, Permutation l1 l2 -> length (filter p l1) = length (filter p l2).
Proof.
  intros l1 l2 Pm. induction Pm; cbn [filter]; [ reflexivity | | | congruence ].
  - destruct (p x); cbn [length]; congruence.
  - destruct (p x), (p y); reflexivity.
Qed.
Lemma count_filter {A} (p : A -> bool) : forall l, count_occ bool_dec (map p l) true = length (filter p l).
Proof.
  induction l as [|x l IH]; [ reflexivity | ]. cbn [map count_occ filter].
  destruct (bool_dec (p x) true) as [E|E].
  - rewrite E. cbn [length]. congruence.
  - destruct (p x); [ congruence | exact IH ].
Qed.
Lemma collect_all {T} : forall (l : list T) acc, foldM (fun s x => Ret (s ++ [x])) l acc = Ret (acc ++ l).
Proof.
  induction l as [|x l IH]; intros acc; [ rewrite app_nil_r; reflexivity | ]. cbn [foldM bind].
  rewrite IH, <- app_assoc. reflexivity.
Qed.
Lemma iterates_combs {T} n (items : list T) (d : T) : 1 <= n <= length items ->
  iterates (combinations_new n items) (Sweep.combs n items).
Proof.
  intros Hn. destruct (CombosFacts.combos_iterate n items d Hn) as (Is & _ & _ & I & F).
  specialize (F _ (fun s x => Ret (s ++ [x])) []). rewrite CombosFacts.for_const_combos_spec, !collect_all in F by exact Hn.
  injection F as F. rewrite F. exact I.
Qed.
Lemma combs_map {A B} (f : A -> B) : forall l n, Sweep.combs n (map f l) = map (map f) (Sweep.combs n l).
Proof.
  induction l as [|x l IH]; intros [|n]; try reflexivity. cbn [map Sweep.combs].
  rewrite !IH, map_app, !map_map. reflexivity.
Qed.

(** ** Counting *)
Lemma run_counted : forall es f p n, (forall e, returns rust f None [eval_value e] (VBool (p e))) ->
  Z.of_nat (length (filter p es)) = n -> counted rust (map eval_value es) f n.
Proof.
  intros es f p n R <-. exists (map p es). split; [ | rewrite count_filter; reflexivity ].
  induction es as [|e es IH]; constructor; [ apply R | exact IH ].
Qed.
Lemma run_all_given : forall m L es, (forall h, In h L -> all_cards h) -> Forall2 (evaluates m) L es ->
  Forall2 (gives rust (evaluator_value m)) (map (map card_value) L) (map eval_value es).
Proof.
  intros m L es A F. induction F as [|h e L es E F IH]; [ constructor | ]. cbn [map]. constructor.
  - exact (run_evaluate m h (Ok e) (A h (or_introl eq_refl)) E).
  - apply IH. intros x Hx. apply A. right. exact Hx.
Qed.

(** The questions and how many of the choices of [n] cards answer yes *)
Definition question_table (k1 k2 k3 k4 k5 k6 k7 k8 k9 k10 : Z) : list (string * Z) :=
  [("Eval::is_royal_flush", k1); ("Eval::is_straight_flush", k2); ("Eval::is_four_of_a_kind", k3);
   ("Eval::is_full_house", k4); ("Eval::is_flush", k5); ("Eval::is_straight", k6); ("Eval::is_three_of_a_kind", k7);
   ("Eval::is_two_pair", k8); ("Eval::is_pair", k9); ("Eval::is_high_card", k10)].

Lemma runs_table : forall n total k1 k2 k3 k4 k5 k6 k7 k8 k9 k10, 1 <= n <= 52 ->
  (forall m, new_evaluator m -> exists L es,
     NoDup L /\ (forall h, In h L <-> sublist h deck_generate /\ length h = n) /\ Forall2 (evaluates m) L es
     /\ Z.of_nat (length L) = total
     /\ Z.of_nat (length (filter eval_is_royal_flush es)) = k1
     /\ Z.of_nat (length (filter eval_is_straight_flush es)) = k2
     /\ Z.of_nat (length (filter eval_is_four_of_a_kind es)) = k3
     /\ Z.of_nat (length (filter eval_is_full_house es)) = k4
     /\ Z.of_nat (length (filter eval_is_flush es)) = k5
     /\ Z.of_nat (length (filter eval_is_straight es)) = k6
     /\ Z.of_nat (length (filter eval_is_three_of_a_kind es)) = k7
     /\ Z.of_nat (length (filter eval_is_two_pair es)) = k8
     /\ Z.of_nat (length (filter eval_is_pair es)) = k9
     /\ Z.of_nat (length (filter eval_is_high_card es)) = k10) ->
  forall P ev ds, load_all texts = Some P -> returns P "Evaluator::new" None [] ev ->
  returns P "generate" None [] (VList ds) ->
  exists it L es, returns P "const_combos" (Some (VInt Usize (Z.of_nat n))) [VList ds] it /\ yields P n it L
    /\ Z.of_nat (length L) = total /\ Forall2 (gives P ev) L es
    /\ forall f k, In (f, k) (question_table k1 k2 k3 k4 k5 k6 k7 k8 k9 k10) -> counted P es f k.
Proof.
  intros n total k1 k2 k3 k4 k5 k6 k7 k8 k9 k10 Hn M P ev ds HP. pose proof (agrees_results P HP) as (Q & _).
  pose proof (agrees_cards P HP) as (_ & _ & _ & _ & _ & _ & _ & _ & _ & _ & _ & _ & _ & _ & G).
  rewrite (loaded P HP) in *. clear P HP. intros Hev Hds.
  destruct (new_inv ev Hev) as (m & Hm & ->).
  assert (D : ds = map card_value deck_generate).
  { pose proof (returns_fun _ _ _ _ _ _ Hds G) as X. unfold cards_value in X. injection X as ->. reflexivity. }
  subst ds. clear Hds G.
  destruct (M m Hm) as (L & es & NL & IL & F & T & E). clear M.
  assert (Pm : Permutation L (Sweep.combs n deck_generate)).
  { apply NoDup_Permutation; [ exact NL | exact (OddsFacts.combs_NoDup _ DeckFacts.deck_NoDup n) | ].
    intros h. rewrite IL, CombosFacts.combs_sublist. reflexivity. }
  destruct (along_permutation _ _ _ Pm es F) as (es' & F' & Pe).
  rewrite !(fun p => filter_permutation p _ _ Pe) in E. rewrite (Permutation_length Pm) in T.
  assert (LD : length (map card_value deck_generate) = 52) by (rewrite map_length; reflexivity).
  exists (combinations_value (fun v => v) (combinations_new n (map card_value deck_generate))),
    (map (map card_value) (Sweep.combs n deck_generate)), (map eval_value es').
  split; [ | split; [ | split; [ | split ] ] ].
  - rewrite new_value. apply (returns_at 0 3). intros fuel d. exact (call_const_combos fuel d n _).
  - rewrite <- combs_map. apply run_yields; [ apply seq_length | | ].
    + change (Z.of_nat (length (map card_value deck_generate)) < 2 ^ 63)%Z. rewrite LD. reflexivity.
    + apply (iterates_combs n _ VUnit). rewrite LD. exact Hn.
  - rewrite map_length. exact T.
  - apply run_all_given; [ | exact F' ]. intros h Hh. apply CombosFacts.combs_sublist in Hh. destruct Hh as (S & _).
    apply Forall_forall. intros c Hc. pose proof DeckFacts.deck_all_cards as A. unfold all_cards in A. rewrite Forall_forall in A.
    apply A, (CombosFacts.sublist_incl _ _ S), Hc.
  - intros f k I. cbn [question_table In] in I.
    destruct E as (E1 & E2 & E3 & E4 & E5 & E6 & E7 & E8 & E9 & E10).
    destruct I as [I|[I|[I|[I|[I|[I|[I|[I|[I|[I|[]]]]]]]]]]]; injection I as <- <-;
      (eapply run_counted; [ intros e; apply Q | eassumption ]).
Qed.

Theorem runs_five_odds : forall P ev ds, load_all texts = Some P -> returns P "Evaluator::new" None [] ev ->
  returns P "generate" None [] (VList ds) ->
  exists it L es, returns P "const_combos" (Some (VInt Usize 5)) [VList ds] it /\ yields P 5 it L
    /\ Z.of_nat (length L) = 2598960%Z /\ Forall2 (gives P ev) L es
    /\ forall f k, In (f, k)
         [("Eval::is_royal_flush", 4); ("Eval::is_straight_flush", 40); ("Eval::is_four_of_a_kind", 624);
          ("Eval::is_full_house", 3744); ("Eval::is_flush", 5108); ("Eval::is_straight", 10200);
          ("Eval::is_three_of_a_kind", 54912); ("Eval::is_two_pair", 123552); ("Eval::is_pair", 1098240);
          ("Eval::is_high_card", 1302540)]%Z -> counted P es f k.
Proof. exact (runs_table 5 _ _ _ _ _ _ _ _ _ _ _ ltac:(lia) OddsFacts.odds). Qed.
Theorem runs_six_odds : forall P ev ds, load_all texts = Some P -> returns P "Evaluator::new" None [] ev ->
  returns P "generate" None [] (VList ds) ->
  exists it L es, returns P "const_combos" (Some (VInt Usize 6)) [VList ds] it /\ yields P 6 it L
    /\ Z.of_nat (length L) = 20358520%Z /\ Forall2 (gives P ev) L es
    /\ forall f k, In (f, k)
         [("Eval::is_royal_flush", 188); ("Eval::is_straight_flush", 1844); ("Eval::is_four_of_a_kind", 14664);
          ("Eval::is_full_house", 165984); ("Eval::is_flush", 205792); ("Eval::is_straight", 361620);
          ("Eval::is_three_of_a_kind", 732160); ("Eval::is_two_pair", 2532816); ("Eval::is_pair", 9730740);
          ("Eval::is_high_card", 6612900)]%Z -> counted P es f k.
Proof. exact (runs_table 6 _ _ _ _ _ _ _ _ _ _ _ ltac:(lia) DealFacts.six_odds). Qed.
Theorem runs_seven_odds : forall P ev ds, load_all texts = Some P -> returns P "Evaluator::new" None [] ev ->
  returns P "generate" None [] (VList ds) ->
  exists it L es, returns P "const_combos" (Some (VInt Usize 7)) [VList ds] it /\ yields P 7 it L
    /\ Z.of_nat (length L) = 133784560%Z /\ Forall2 (gives P ev) L es
    /\ forall f k, In (f, k)
         [("Eval::is_royal_flush", 4324); ("Eval::is_straight_flush", 41584); ("Eval::is_four_of_a_kind", 224848);
          ("Eval::is_full_house", 3473184); ("Eval::is_flush", 4047644); ("Eval::is_straight", 6180020);
          ("Eval::is_three_of_a_kind", 6461620); ("Eval::is_two_pair", 31433400); ("Eval::is_pair", 58627800);
          ("Eval::is_high_card", 23294460)]%Z -> counted P es f k.
Proof. exact (runs_table 7 _ _ _ _ _ _ _ _ _ _ _ ltac:(lia) DealFacts.seven_odds). Qed.

(** ** How many different results there are *)
Lemma run_best_first : forall l, descending l -> best_first rust (map eval_value l).
Proof.
  induction l as [|e l IH]; intros D; [ constructor | ]. destruct D as (De & D). cbn [map]. constructor; [ | apply IH, D ].
  apply Forall_forall. intros v Hv. apply in_map_iff in Hv. destruct Hv as (e' & <- & He'). unfold better.
  destruct (agrees_results rust rust_loaded) as (_ & B & _). pose proof (proj1 (B e e')) as R.
  assert (X : eval_is_better_than e e' = true) by (apply better_rk, HandFacts.cmp_Gt, De, He').
  rewrite X in R. exact R.
Qed.
Lemma runs_count : forall n k, 5 <= n ->
  (forall m, new_evaluator m -> exists l, Z.of_nat (length l) = k /\ descending l
     /\ forall e, In e l <-> exists h, legal h /\ length h = n /\ evaluates m h e) ->
  forall P ev, load_all texts = Some P -> returns P "Evaluator::new" None [] ev ->
  exists vs, Z.of_nat (length vs) = k /\ best_first P vs
    /\ forall v, In v vs <-> exists h cs, Forall2 (made P) h cs /\ NoDup h /\ length h = n /\ gives P ev cs v.
Proof.
  intros n k Hn M P ev HP. rewrite (loaded P HP). clear P HP. intros Hev. destruct (new_inv ev Hev) as (m & Hm & ->).
  destruct (M m Hm) as (l & Lk & D & I). exists (map eval_value l).
  split; [ rewrite map_length; exact Lk | ]. split; [ exact (run_best_first l D) | ].
  intros v. rewrite in_map_iff. split.
  - intros (e & <- & He). apply I in He. destruct He as (x & (A & N & _) & Lx & E).
    exists (faces x), (map card_value (cards_macro_idents (faces x))). split; [ apply made_cards | ].
    split; [ apply idents_nodup; rewrite (idents_of_faces x A); exact N | ].
    split; [ unfold faces; rewrite map_length; exact Lx | ].
    apply (run_gives m (faces x)); [ apply made_cards | ]. rewrite (idents_of_faces x A). exact E.
  - intros (h & cs & F & N & Lh & G). destruct (gives_inv m h cs v Hm F N) as (e & E & ->); [ rewrite Lh; exact Hn | exact G | ].
    exists e. split; [ reflexivity | ]. apply I. exists (cards_macro_idents h).
    split; [ | split; [ rewrite idents_length; exact Lh | exact E ] ].
    split; [ apply Samples.idents_all_cards | ]. split; [ apply idents_nodup, N | ]. rewrite idents_length. apply (Nat.le_trans _ n); [ exact Hn | apply Nat.eq_le_incl; symmetry; exact Lh ].
Qed.
Theorem runs_values : forall n k, In (n, k) [(5, 7462%Z); (6, 6075%Z); (7, 4824%Z)] ->
  forall P ev, load_all texts = Some P -> returns P "Evaluator::new" None [] ev ->
  exists vs, Z.of_nat (length vs) = k /\ best_first P vs
    /\ forall v, In v vs <-> exists h cs, Forall2 (made P) h cs /\ NoDup h /\ length h = n /\ gives P ev cs v.
Proof.
  intros n k [I|[I|[I|[]]]]; injection I as <- <-; apply runs_count; try lia.
  - intros m Hm. destruct (HandFacts.all_values m Hm) as (l & Lk & D & I & _). exists l. split; [ exact Lk | ].
    split; [ exact D | ]. intros e. rewrite I. split.
    + intros (h & (A & N & L) & E). exists h. repeat split; try assumption. rewrite L. apply le_n.
    + intros (h & (A & N & _) & L & E). exists h. repeat split; assumption.
  - exact ValuesComplete.six_values.
  - exact ValuesComplete.seven_values.
Qed.

(** For the examples beside the properties *)
Lemma deck_and_evaluator : exists P ev ds, load_all texts = Some P /\ returns P "Evaluator::new" None [] ev
  /\ returns P "generate" None [] (VList ds) /\ length ds = 52.
Proof.
  destruct (runs_evaluator rust rust_loaded) as (ev & Hev). exists rust, ev, (map card_value deck_generate).
  split; [ exact rust_loaded | ]. split; [ exact Hev | ]. split; [ | rewrite map_length; reflexivity ].
  apply (agrees_cards rust rust_loaded).
Qed.
