(** FortuneFacts.v: what the player of jacks-or-better has after several rounds, on average. *)
From Coq Require Import String Lia List Arith Permutation ZArith QArith Lqa.
From Verif Require Import Base ModelCard ModelEval ModelTable ModelEvaluation ModelExamples Spec SpecApi SpecText SpecExamples SpecGain.
From Verif Require Import CardFacts DeckFacts ShuffleFacts HandFacts ExamplesFacts JacksFacts DrawFacts GainFacts.
Import ListNotations.
Local Open Scope nat_scope.

Lemma average_map {X} (P : X -> Prop) (F G : X -> Q -> Prop) q k : (forall x g, P x -> F x g -> G x (g + k)%Q) ->
  average P F q -> average P G (q + k)%Q.
Proof.
  intros H (L & qs & N & Ne & I & A & E). exists L, (map (fun g => g + k)%Q qs).
  split; [exact N|]. split; [exact Ne|]. split; [exact I|]. split.
  - assert (I' : forall x, In x L -> P x) by (intros x; apply I). clear -A I' H.
    induction A as [|x g L qs Hx A IH]; [constructor|]. constructor.
    + apply H; [apply I'; left; reflexivity|exact Hx].
    + apply IH. intros y Hy. apply I'. right. exact Hy.
  - rewrite E, (Forall2_len _ _ _ A).
    assert (Z0 : ~ (inject_Z (Z.of_nat (length qs)) == 0)%Q).
    { rewrite <- (Forall2_len _ _ _ A). destruct L; [contradiction Ne; reflexivity|].
      unfold Qeq, inject_Z. cbn [Qnum Qden length]. lia. }
    assert (S0 : (qsum (map (fun g => g + k) qs) == qsum qs + inject_Z (Z.of_nat (length qs)) * k)%Q).
    { clear. induction qs as [|g qs IH]; [cbn; ring|]. cbn [map length]. rewrite !qsum_cons, IH, Nat2Z.inj_succ.
      unfold Z.succ. rewrite inject_Z_plus. ring. }
    rewrite S0. field. exact Z0.
Qed.
Lemma hand_split (h d h' d' : list card) : length h = 5 -> length h' = 5 -> h ++ d = h' ++ d' -> h = h' /\ d = d'.
Proof.
  intros L L' E'. assert (H : firstn 5 (h ++ d) = firstn 5 (h' ++ d')) by (rewrite E'; reflexivity).
  rewrite <- L in H at 1. rewrite <- L' in H. rewrite !firstn_app, !Nat.sub_diag, !firstn_all in H. cbn [firstn] in H.
  rewrite !app_nil_r in H. subst h'. apply app_inv_head in E'. split; [reflexivity|exact E'].
Qed.
Lemma exchanged_fun is hand deck (F : list nat -> list card -> list card -> Q -> Prop) q q' :
  (forall js h d g g', F js h d g -> F js h d g' -> (g == g')%Q) ->
  exchanged is hand deck F q -> exchanged is hand deck F q' -> (q == q')%Q.
Proof.
  intros H. destruct is as [|i is]; [apply H|]. apply average_fun.
  intros js g g' (d & h & E & G) (d' & h' & E' & G').
  assert (h' = h) by congruence. assert (d' = d) by congruence. subst h' d'. exact (H js h d g g' G G').
Qed.

(** ** Answers are used up one after the other *)
Lemma script_more {A} (more : list nat) : forall i (l : list A) js d, answers (S i) js ->
  shuffle_from script i l js = Ret (d, []) -> shuffle_from script i l (js ++ more) = Ret (d, more).
Proof.
  induction i as [|i IH]; intros l js d V E.
  - cbn in V. subst js. cbn in E |- *. congruence.
  - destruct js as [|j js]; [destruct V|]. destruct V as [_ V]. cbn [shuffle_from script app] in *.
    destruct (swap l (S i) j) as [l'| |]; cbn [bind] in *; try discriminate E. exact (IH l' js d V E).
Qed.
Lemma shuffle_more {A} (l : list A) js d more : answers (length l) js -> shuffle script l js = Ret (d, []) ->
  shuffle script l (js ++ more) = Ret (d, more).
Proof.
  intros V E. unfold shuffle in *. destruct l as [|x l].
  - cbn in V. subst js. cbn in E |- *. congruence.
  - replace (length (x :: l) - 1) with (length l) in * by (cbn; lia). exact (script_more more _ _ _ _ V E).
Qed.
Lemma script_zeros {A} : forall i (l : list A) d,
  shuffle_from script i l (repeat 0 i) = Ret (d, []) -> shuffle_from script i l [] = Ret (d, []).
Proof.
  induction i as [|i IH]; intros l d E; [exact E|]. cbn [shuffle_from script repeat] in *.
  destruct (swap l (S i) 0) as [l'| |]; cbn [bind] in *; try discriminate E. exact (IH l' d E).
Qed.
Lemma zeros_answer i : answers (S i) (repeat 0 i).
Proof. induction i as [|i IH]; [reflexivity|]. split; [lia|exact IH]. Qed.
Lemma shuffle_silent {A} (l : list A) : exists d, shuffle script l [] = Ret (d, []) /\ Permutation l d.
Proof.
  destruct l as [|x l]; [exists []; split; [reflexivity|constructor]|].
  destruct (any_shuffle_scripted (x :: l) (repeat 0 (length l)) (zeros_answer (length l))) as (d & E & P).
  exists d. split; [|exact P]. unfold shuffle in *. replace (length (x :: l) - 1) with (length l) in * by (cbn; lia).
  exact (script_zeros _ _ _ E).
Qed.
(** The exchange, for someone who has more answers than are needed *)
Definition exchange_of (is : list Z) (hand deck : list card) (js : list nat) (hand' deck' : list card) : Prop :=
  length hand' = length hand /\ Permutation (hand' ++ deck') (hand ++ deck)
  /\ forall more, match is with [] => Ret (deck, hand, js ++ more) | _ => swap_cards script is deck hand (js ++ more) end
                  = Ret (deck', hand', more).
Lemma swap_more is hand deck js deck' hand' : positions hand is -> answers (length deck + length is) js ->
  swap_cards script is deck hand js = Ret (deck', hand', []) -> is <> [] -> exchange_of is hand deck js hand' deck'.
Proof.
  intros Ps V E Ne. destruct (positions_exist hand is (proj2 Ps)) as [cs A].
  rewrite <- (at_positions_length _ _ _ A), <- app_length in V.
  destruct (any_shuffle_scripted (deck ++ cs) js V) as (d & E' & Pm).
  destruct (swap_cards_shuffled script is deck hand js cs d [] Ps A E' Pm) as (h & E1 & L1 & _ & _ & P1).
  assert (skipn (length is) d = deck') as Ed by congruence. assert (h = hand') as Eh by congruence. rewrite Ed in P1. subst h.
  split; [exact L1|]. split; [exact P1|]. intros more.
  assert (X : swap_cards script is deck hand (js ++ more) = Ret (deck', hand', more)).
  { clear E1 L1 P1 Ed. unfold swap_cards in E |- *. rewrite (push_discards hand is cs A deck) in E |- *. cbn [bind] in *.
    rewrite E' in E. rewrite (shuffle_more _ _ _ more V E'). cbn [bind] in *.
    destruct (drain_front (length is) d) as [[dealt dk]| |]; cbn [bind] in *; try discriminate E.
    match type of E with (let! _ := ?x in _) = _ => destruct x as [h| |]; cbn [bind] in *; try discriminate E end.
    congruence. }
  destruct is; [contradiction Ne; reflexivity|exact X].
Qed.

(** ** A round of the program *)
Local Open Scope Z_scope.
Section program.
Context (order : list (Z * nat) -> list (Z * nat)) (ev : evaluator) (w : Z) (bet : rstring) (say : list Z -> rstring).
Hypothesis O : reorders order.
Hypothesis Hev : new_evaluator ev.
Hypothesis W : 1 <= w <= 5.
Hypothesis Bet : number bet w.
Lemma not_quit : bet <> lit "quit".
Proof. intros E. rewrite E in Bet. apply parse_usize_spec in Bet. vm_compute in Bet. discriminate Bet. Qed.
Lemma swaps_not_quit is : swaps_ok (say is) is -> say is <> lit "quit".
Proof.
  intros (words & ns & S0 & F & _) E. rewrite E in S0. apply TextFacts.splits_complete in S0. vm_compute in S0. subst words.
  inversion F as [|? n ? ? N]; subst. apply parse_usize_spec in N. vm_compute in N. discriminate N.
Qed.
Lemma script_turn is hand deck js hand' deck' e e' lines out c : w <= c -> c + 4000 < 2 ^ 64 ->
  Permutation (hand ++ deck) deck_generate -> List.length hand = 5%nat -> evaluates ev hand e -> evaluates ev hand' e' ->
  swaps_ok (say is) is -> exchange_of is hand deck js hand' deck' ->
  exists out', forall more,
  game_turn script order ev (mk_game (bet :: say is :: lines) out (hand ++ deck) [] c (js ++ more))
  = if settle c w (eval_class_of e') =? 0
    then Ret (Break, mk_game lines (out' ++ [Line [BrightRed; Bold] (lit "Game over!")]) deck' hand' 0 more)
    else let! p := shuffle script (deck' ++ hand') more in
         Ret (Again, mk_game lines (out' ++ [Line [] []]) (fst p) [] (settle c w (eval_class_of e')) (snd p)).
Proof.
  intros Wc C P L V V' Hs (L' & P' & X).
  eexists. intros more. unfold game_turn. cbn [g_credits g_lines g_out g_deck g_hand g_rng].
  assert (B : wager_ok c bet w) by (split; [exact Bet|split; [exact W|exact Wc]]).
  destruct (get_wager_correct c (bet :: say is :: lines) out) as (bad & a & rest & out1 & E1 & A1 & C1).
  destruct (answers_fun _ _ (wager_ok_fun c) _ _ _ _ _ _ (answer_ok _ bet w (say is :: lines) not_quit B) A1) as (<- & <- & <-).
  assert (Eo : out1 = [wager_prompt c]) by (inversion C1; reflexivity). subst out1.
  rewrite E1. rewrite chk_u64 by lia. cbn [bind].
  assert (Ed : drain_front 5 (hand ++ deck) = Ret (hand, deck)).
  { unfold drain_front. replace (Nat.leb 5 (List.length (hand ++ deck))) with true
      by (symmetry; apply Nat.leb_le; rewrite app_length; lia).
    rewrite <- L, firstn_app, skipn_app, firstn_all, skipn_all, Nat.sub_diag. cbn [firstn skipn app]. rewrite app_nil_r. reflexivity. }
  rewrite Ed. cbn [bind app]. unfold evaluates in V, V'. rewrite V. cbn [bind unwrap].
  rewrite (show_hand_text hand e L). cbn [bind].
  match goal with |- context [get_swaps order (say is :: lines) ?o] => set (out2 := o) end.
  destruct (get_swaps_correct order (say is :: lines) O out2) as (bad' & a & rest' & out3 & E2 & A2 & C2).
  destruct (answers_fun _ _ swaps_ok_fun _ _ _ _ _ _ (answer_ok _ (say is) is lines (swaps_not_quit is Hs) Hs) A2) as (<- & <- & <-).
  assert (Eo : out3 = [swaps_prompt]) by (inversion C2; reflexivity). subst out3.
  rewrite E2. cbn [bind]. rewrite X. cbn [bind]. rewrite V'. cbn [bind unwrap].
  rewrite L in L'. rewrite (show_hand_text hand' e' L'). cbn [bind].
  rewrite (payout_pays w (eval_class_of e') W). cbn [bind].
  pose proof (pays_range w (eval_class_of e') W) as Hp. pose proof (settle_range c w (eval_class_of e') W Wc) as Hr.
  match goal with |- context [if 0 <? ?p then ?A else ?B] =>
    assert (Es : (if 0 <? p then A else B) = Ret (settle c w (eval_class_of e'), winnings p)) end.
  { unfold settle, winnings in *. destruct (Z.ltb_spec 0 (pays w (eval_class_of e'))) as [Hl|Hl].
    - rewrite (chk_u64 (w + _)) by lia. cbn [bind].
      replace (pays w (eval_class_of e') =? 0) with false in * by (symmetry; apply Z.eqb_neq; lia).
      rewrite chk_u64 by lia. cbn [bind]. do 2 f_equal. lia.
    - replace (pays w (eval_class_of e') =? 0) with true by (symmetry; apply Z.eqb_eq; lia). reflexivity. }
  rewrite Es. cbn [bind]. destruct (Z.eqb_spec (settle c w (eval_class_of e')) 0) as [E0|E0].
  - rewrite E0. reflexivity.
  - destruct (shuffle script (deck' ++ hand') more) as [[d rng]| |]; reflexivity.
Qed.

(** ** The state of the program after some rounds *)
Definition reached (js : list nat) (lines : list rstring) (c : Z) (l : list card) : Prop :=
  0 < c /\ forall lines', exists out fuel, (List.length lines' < fuel)%nat /\ forall js',
    jacks_main script order (lines ++ lines') (js ++ js')
    = let! p := shuffle script l js' in game_loop script order ev fuel (mk_game lines' out (fst p) [] c (snd p)).
Definition ruined (js : list nat) (lines : list rstring) : Prop :=
  exists g, jacks_main script order lines js = Ret g /\ g_credits g = 0.
Lemma reached_start : reached [] [] 100 deck_generate.
Proof.
  split; [lia|]. intros lines'. eexists. exists (S (List.length lines')). split; [lia|]. intros js'. cbn [app].
  unfold jacks_main, game_start, shuffled_with. unfold new_evaluator in Hev. rewrite Hev. cbn [bind].
  destruct (shuffle script deck_generate js') as [[d r]| |]; reflexivity.
Qed.
Lemma reached_round js lines c l js1 hand deck is js2 hand' deck' e e' : reached js lines c l ->
  w <= c -> c + 4000 < 2 ^ 64 ->
  answers (List.length l) js1 -> shuffle script l js1 = Ret (hand ++ deck, []) ->
  Permutation (hand ++ deck) deck_generate -> List.length hand = 5%nat -> evaluates ev hand e -> evaluates ev hand' e' ->
  swaps_ok (say is) is -> exchange_of is hand deck js2 hand' deck' ->
  if settle c w (eval_class_of e') =? 0 then ruined (js ++ js1 ++ js2) (lines ++ [bet; say is])
  else reached (js ++ js1 ++ js2) (lines ++ [bet; say is]) (settle c w (eval_class_of e')) (deck' ++ hand').
Proof.
  intros [C0 St] Wc C V E P L Ve Ve' Hs X.
  assert (T : forall lines', exists out fuel, (List.length lines' < fuel)%nat /\ forall more,
    jacks_main script order (lines ++ bet :: say is :: lines') (js ++ js1 ++ js2 ++ more)
    = if settle c w (eval_class_of e') =? 0
      then Ret (mk_game lines' (out ++ [Line [BrightRed; Bold] (lit "Game over!")]) deck' hand' 0 more)
      else let! p := shuffle script (deck' ++ hand') more in
           game_loop script order ev fuel (mk_game lines' (out ++ [Line [] []]) (fst p) [] (settle c w (eval_class_of e')) (snd p))).
  { intros lines'. destruct (St (bet :: say is :: lines')) as (out & fuel & Hf & H).
    destruct fuel as [|fuel]; [cbn in Hf; lia|].
    destruct (script_turn is hand deck js2 hand' deck' e e' lines' out c Wc C P L Ve Ve' Hs X) as [out' T].
    exists out', fuel. split; [cbn in Hf; lia|]. intros more.
    rewrite H, (shuffle_more l js1 _ (js2 ++ more) V E). cbn [bind fst snd game_loop]. rewrite T.
    destruct (settle c w (eval_class_of e') =? 0); [reflexivity|].
    destruct (shuffle script (deck' ++ hand') more) as [[d r]| |]; reflexivity. }
  pose proof (settle_range c w (eval_class_of e') W Wc) as Hr.
  destruct (Z.eqb_spec (settle c w (eval_class_of e')) 0) as [E0|E0].
  - destruct (T []) as (out & fuel & _ & H). specialize (H []). rewrite app_nil_r in H.
    eexists. split; [exact H|reflexivity].
  - split; [lia|]. intros lines'. destruct (T lines') as (out & fuel & Hf & H). exists (out ++ [Line [] []]), fuel.
    split; [exact Hf|]. intros js'. rewrite <- !app_assoc. exact (H js').
Qed.
Lemma reached_end js lines c l : reached js lines c l -> exists g, jacks_main script order lines js = Ret g /\ g_credits g = c.
Proof.
  intros [_ St]. destruct (St []) as (out & fuel & Hf & H). specialize (H []). rewrite !app_nil_r in H.
  destruct (shuffle_silent l) as (d & E & _). rewrite E in H. cbn [bind fst snd] in H.
  destruct fuel as [|fuel]; [inversion Hf|]. cbn [game_loop] in H. eexists. split; [exact H|]. reflexivity.
Qed.

(** ** The average *)
Context (plan : list card -> eval_class -> list Z) (v : Q).
Hypothesis Ps : forall hand c, List.length hand = 5%nat -> positions hand (plan hand c).
Hypothesis Say : forall hand is, List.length hand = 5%nat -> positions hand is -> swaps_ok (say is) is.
Hypothesis Hv : forall l, Permutation l deck_generate -> round_gain ev w plan l v.
Lemma fortune_eq n l js lines q q' : (q == q')%Q ->
  fortune order ev bet say plan n l js lines q -> fortune order ev bet say plan n l js lines q'.
Proof.
  intros E. destruct n as [|n]; cbn [fortune].
  - intros (g & J & H). exists g. split; [exact J|]. rewrite <- E. exact H.
  - exact (average_eq _ _ q q' E).
Qed.
Lemma fortune_fun : forall n l js lines q q', fortune order ev bet say plan n l js lines q ->
  fortune order ev bet say plan n l js lines q' -> (q == q')%Q.
Proof.
  induction n as [|n IH]; cbn [fortune]; intros l js lines q q'.
  - intros (g & J & H) (g' & J' & H'). assert (g' = g) by congruence. subst g'. rewrite H, H'. reflexivity.
  - apply average_fun.
    intros js1 g g' (h & d & e & E & L & V & D) (h' & d' & e' & E' & L' & V' & D').
    rewrite E in E'. injection E' as E'. destruct (hand_split h d h' d' L L' E') as [<- <-].
    pose proof (evaluates_fun ev h e e' V V'). subst e'. revert D D'. apply exchanged_fun.
    intros js2 h2 d2 x x'. apply IH.
Qed.
Lemma exchanged_cards is hand deck (F G : list nat -> list card -> list card -> Q -> Prop) q k : positions hand is ->
  (forall js h d g, exchange_of is hand deck js h d -> F js h d g -> G js h d (g + k)%Q) ->
  exchanged is hand deck F q -> exchanged is hand deck G (q + k)%Q.
Proof.
  intros Pi H. destruct is as [|i is].
  - apply H. split; [reflexivity|]. split; [apply Permutation_refl|]. intros more. reflexivity.
  - apply average_map. intros js g V (d & h & E & Fh). exists d, h. split; [exact E|]. apply H; [|exact Fh].
    apply swap_more; [exact Pi|exact V|exact E|discriminate].
Qed.
Lemma ruined_fortune js lines l : ruined js lines -> fortune order ev bet say plan 0 l js lines 0%Q.
Proof. intros (g & J & E). exists g. split; [exact J|]. rewrite E. reflexivity. Qed.
Theorem fortune_reached : forall n c l js lines, reached js lines c l -> Z.of_nat n * w <= c -> c + 4000 * Z.of_nat n < 2 ^ 64 ->
  Permutation l deck_generate ->
  fortune order ev bet say plan n l js lines (inject_Z c + inject_Z (Z.of_nat n) * v)%Q.
Proof.
  induction n as [|n IH]; intros c l js lines St Hn Hc Pl.
  - destruct (reached_end _ _ _ _ St) as (g & J & E). exists g. split; [exact J|]. rewrite E. cbn [Z.of_nat]. ring.
  - rewrite Nat2Z.inj_succ in Hn, Hc. cbn [fortune].
    apply (average_eq _ _ (v + (inject_Z c + inject_Z (Z.of_nat n) * v))%Q).
    { rewrite Nat2Z.inj_succ. unfold Z.succ. rewrite inject_Z_plus. ring. }
    refine (average_map _ _ _ v _ _ (Hv l Pl)).
    intros js1 g V (hand & deck & e & E & L & Ve & D). exists hand, deck, e.
    split; [exact E|]. split; [exact L|]. split; [exact Ve|]. cbv zeta.
    assert (Ph : Permutation (hand ++ deck) deck_generate).
    { destruct (any_shuffle_scripted l js1 V) as (d' & E' & Pm).
      assert (d' = hand ++ deck) as <- by congruence. rewrite <- Pm. exact Pl. }
    refine (exchanged_cards _ _ _ _ _ g _ (Ps hand _ L) _ D).
    intros js2 h d g' X (e' & p & V' & P' & Eg).
    rewrite (payout_pays w _ W) in P'. injection P' as <-.
    pose proof (pays_range w (eval_class_of e') W) as Hp.
    assert (Es : (g' + (inject_Z c + inject_Z (Z.of_nat n) * v) == inject_Z (settle c w (eval_class_of e')) + inject_Z (Z.of_nat n) * v)%Q).
    { rewrite Eg. unfold settle. destruct (pays w (eval_class_of e') =? 0); [unfold Z.sub|]; rewrite inject_Z_plus; ring. }
    apply (fortune_eq _ _ _ _ _ _ (Qeq_sym _ _ Es)). clear Es Eg.
    pose proof (reached_round js lines c l js1 hand deck _ js2 h d e e' St ltac:(nia) ltac:(lia) V E Ph L Ve V'
      (Say hand _ L (Ps hand (eval_class_of e) L)) X) as Rr.
    assert (Hs : Z.of_nat n * w <= settle c w (eval_class_of e') <= c + 4000).
    { unfold settle. destruct (pays w (eval_class_of e') =? 0); nia. }
    destruct X as (Lh & Pd & _).
    destruct (Z.eqb_spec (settle c w (eval_class_of e')) 0) as [E0|E0].
    + assert (n = 0%nat) by nia. subst n. rewrite E0.
      apply (fortune_eq _ _ _ _ 0%Q); [cbn [Z.of_nat]; ring|]. apply ruined_fortune. exact Rr.
    + apply IH; [exact Rr|lia|lia|]. rewrite Permutation_app_comm, Pd. exact Ph.
Qed.
Theorem fortune_value n q : Z.of_nat n * w <= 100 ->
  fortune order ev bet say plan n deck_generate [] [] q <-> (q == 100 + inject_Z (Z.of_nat n) * v)%Q.
Proof.
  intros Hn. pose proof (fortune_reached n 100 deck_generate [] [] reached_start Hn ltac:(nia) (Permutation_refl _)) as T.
  split; intros H.
  - exact (fortune_fun _ _ _ _ _ _ H T).
  - exact (fortune_eq _ _ _ _ _ _ (Qeq_sym _ _ H) T).
Qed.
End program.

Lemma stand_positions hand c : List.length hand = 5%nat -> positions hand (stand hand c).
Proof. intros _. split; constructor. Qed.
Lemma renew_positions hand c : List.length hand = 5%nat -> positions hand (renew hand c).
Proof. intros L. apply (all_positions hand L). Qed.
Lemma sensible_positions hand c : List.length hand = 5%nat -> positions hand (sensible hand c).
Proof.
  intros L. assert (N : positions hand []) by (split; constructor). assert (A := renew_positions hand c L).
  assert (Or : forall r, positions hand (others r hand)) by (intros r; apply (others_positions r hand L)).
  destruct c as [r|r| | | | | | |]; try exact N; [exact A|]. destruct r; first [exact N|apply Or].
Qed.

Lemma aloud_understood w : 1 <= w <= 5 -> understood w (show w) aloud.
Proof.
  intros W.
  assert (N : forall k, 1 <= k <= 5 -> number (show k) k /\ word (show k)).
  { intros k Hk. assert (k = 1 \/ k = 2 \/ k = 3 \/ k = 4 \/ k = 5) as K by lia.
    destruct K as [->|[->|[->|[->| ->]]]].
    all: split; [apply parse_usize_spec; vm_compute; reflexivity|].
    all: split; [intros E; vm_compute in E; discriminate E|]. all: repeat constructor; vm_compute; intuition discriminate. }
  split; [apply N, W|]. intros hand is L [Nd F]. rewrite L in F.
  exists (map (fun i => show (i + 1)) is), (map (fun i => i + 1) is).
  split; [|split; [|split; [|split]]].
  - clear Nd. induction F as [|i is Hi F IH]; [apply (splits_end []); constructor|].
    cbn [aloud flat_map map]. rewrite <- app_assoc. apply (splits_word [] (show (i + 1)) 32%N (aloud is)).
    + constructor.
    + apply N. cbn in Hi. lia.
    + vm_compute. tauto.
    + exact IH.
  - clear Nd. induction F as [|i is Hi F IH]; constructor; [|exact IH]. apply N. cbn in Hi. lia.
  - apply Forall_map. eapply Forall_impl; [|exact F]. cbn. lia.
  - apply FinFun.Injective_map_NoDup; [intros x y; lia|exact Nd].
  - rewrite map_map. rewrite <- (map_id is) at 1. apply map_ext. intros; lia.
Qed.

Theorem fortune_linear order ev w bet say plan v n q : reorders order -> new_evaluator ev -> 1 <= w <= 5 ->
  understood w bet say -> playable plan -> (forall l, Permutation l deck_generate -> round_gain ev w plan l v) ->
  Z.of_nat n * w <= 100 ->
  fortune order ev bet say plan n deck_generate [] [] q <-> (q == 100 + inject_Z (Z.of_nat n) * v)%Q.
Proof. intros O Hev W [B S0] P Hv Hn. exact (fortune_value order ev w bet say O Hev W B plan v P S0 Hv n q Hn). Qed.
Theorem fortune_sensible order ev w bet say n q : reorders order -> new_evaluator ev -> 1 <= w <= 5 ->
  understood w bet say -> Z.of_nat n * w <= 100 ->
  fortune order ev bet say sensible n deck_generate [] [] q <->
  (q == 100 + inject_Z (Z.of_nat n) * (inject_Z w * (if (w =? 5)%Z then 72064151 # 551845840 else 71362901 # 551845840)))%Q.
Proof.
  intros O Hev W U Hn. apply (fortune_linear order ev w); try assumption; [exact sensible_positions|].
  intros l Pl. apply sensible_gain; [exact Hev|exact W|exact Pl|reflexivity].
Qed.
Theorem fortune_stand order ev w bet say n q : reorders order -> new_evaluator ev -> 1 <= w <= 5 ->
  understood w bet say -> Z.of_nat n * w <= 100 ->
  fortune order ev bet say stand n deck_generate [] [] q <->
  (q == 100 + inject_Z (Z.of_nat n) * (inject_Z w * (if (w =? 5)%Z then - (296839 # 649740) else - (297389 # 649740))))%Q.
Proof.
  intros O Hev W U Hn. apply (fortune_linear order ev w); try assumption; [exact stand_positions|].
  intros l Pl. apply stand_gain; [exact Hev|exact W|exact Pl|reflexivity].
Qed.
(** After a hundred rounds for one credit each *)
Theorem hundred_rounds order : reorders order -> exists ev q, new_evaluator ev
  /\ fortune order ev (show 1) aloud sensible 100 deck_generate [] [] q /\ (112.9 < q < 113)%Q.
Proof.
  intros O. destruct evaluator_new_ret as [ev Hev]. exists ev, (100 + 100 * (71362901 # 551845840))%Q.
  split; [exact Hev|]. split; [|split; reflexivity].
  apply (fortune_sensible order ev 1); [exact O|exact Hev|lia|apply aloud_understood; lia|lia|reflexivity].
Qed.
