(** JacksFacts.v: examples/jacks-or-better.rs. *)
From Coq Require Import Lia List Arith Bool Permutation String ZArith.
From Verif Require Import Base BaseFacts ModelCard ModelEval ModelTable ModelEvaluation ModelExamples.
From Verif Require Import Spec SpecApi SpecText SpecExamples CardFacts ExamplesFacts.
From Verif Require HandFacts TextFacts DeckFacts.
Import ListNotations.
Local Open Scope Z_scope.

(** ** swap_cards *)
Lemma set_nth_length {A} (l : list A) i x : List.length (set_nth l i x) = List.length l.
Proof.
  unfold set_nth. destruct (skipn i l) as [|y t] eqn:E.
  - rewrite app_nil_r. rewrite firstn_length. pose proof (skipn_length i l) as L. rewrite E in L.
    simpl in L. lia.
  - rewrite <- (firstn_skipn i l) at 2. rewrite E, !app_length. reflexivity.
Qed.
Lemma nth_error_set_nth {A} (l : list A) i x n : (i < List.length l)%nat ->
  nth_error (set_nth l i x) n = if Nat.eq_dec n i then Some x else nth_error l n.
Proof.
  intros H. destruct (nth_error l i) as [y|] eqn:E; [|apply nth_error_None in E; lia].
  apply nth_error_split in E. destruct E as (l1 & l2 & -> & <-).
  rewrite DeckFacts.set_nth_split. destruct (Nat.eq_dec n (List.length l1)) as [->|N].
  - rewrite nth_error_app2, Nat.sub_diag by lia. reflexivity.
  - destruct (Nat.lt_ge_cases n (List.length l1)) as [L|L].
    + rewrite !nth_error_app1 by lia. reflexivity.
    + rewrite !nth_error_app2 by lia. destruct (n - List.length l1)%nat eqn:Ek; [lia|reflexivity].
Qed.
Lemma set_nth_perm {A} (l : list A) i x y : nth_error l i = Some y ->
  Permutation (y :: set_nth l i x) (x :: l).
Proof.
  intros E. apply nth_error_split in E. destruct E as (l1 & l2 & -> & <-).
  rewrite DeckFacts.set_nth_split. rewrite <- (Permutation_middle l1 l2 x).
  rewrite <- (Permutation_middle l1 l2 y). apply perm_swap.
Qed.

Lemma positions_exist (hand : list card) is :
  Forall (fun i => 0 <= i < Z.of_nat (List.length hand)) is -> exists cs, at_positions hand is cs.
Proof.
  intros F. induction F as [|i is Hi F (cs & IH)]; [exists []; constructor|].
  destruct (nth_error hand (Z.to_nat i)) as [c|] eqn:E; [|apply nth_error_None in E; lia].
  exists (c :: cs). constructor; assumption.
Qed.

Lemma push_discards hand is cs : at_positions hand is cs -> forall deck,
  foldM (fun deck i => let! c := index hand (Z.to_nat i) in Ret (deck ++ [c])) is deck
  = Ret (deck ++ cs).
Proof.
  intros F. induction F as [|i c is cs E F IH]; intros deck; cbn [foldM].
  - rewrite app_nil_r. reflexivity.
  - unfold index at 1. rewrite E. cbn [bind]. rewrite IH, <- app_assoc. reflexivity.
Qed.

Lemma at_positions_set hand is cs i x : at_positions hand is cs -> ~ In i is ->
  0 <= i -> Forall (fun i => 0 <= i) is -> (Z.to_nat i < List.length hand)%nat ->
  at_positions (set_nth hand (Z.to_nat i) x) is cs.
Proof.
  intros F. induction F as [|j c is cs E F IH]; intros Ni Hi P L; [constructor|].
  inversion P as [|? ? Pj Pr]; subst. constructor.
  - rewrite nth_error_set_nth by exact L. destruct (Nat.eq_dec (Z.to_nat j) (Z.to_nat i)) as [X|X].
    + exfalso. apply Ni. left. lia.
    + exact E.
  - apply IH; auto. intros H. apply Ni. right. exact H.
Qed.

(** Writing [dealt] to the positions [is2], the tail of [is1 ++ is2]. *)
Lemma write_dealt is2 : forall is1 hand cs dealt,
  at_positions hand is2 cs -> NoDup is2 -> Forall (fun i => 0 <= i) is2 ->
  List.length dealt = List.length is2 ->
  exists hand',
    foldM (fun hand p => let! i := index (is1 ++ is2) (fst p) in
                         index_set hand (Z.to_nat i) (snd p))
      (combine (seq (List.length is1) (List.length dealt)) dealt) hand = Ret hand'
    /\ List.length hand' = List.length hand
    /\ Permutation (cs ++ hand') (dealt ++ hand)
    /\ at_positions hand' is2 dealt
    /\ (forall n, ~ In (Z.of_nat n) is2 -> nth_error hand' n = nth_error hand n).
Proof.
  induction is2 as [|i is2 IH]; intros is1 hand cs dealt F N P L.
  - destruct dealt; [|discriminate L]. inversion F; subst. exists hand.
    split; [reflexivity|]. split; [reflexivity|]. split; [apply Permutation_refl|].
    split; [constructor|reflexivity].
  - destruct dealt as [|x dealt]; [discriminate L|]. injection L as L.
    inversion F as [|? c ? cs' E F']; subst. inversion N as [|? ? Ni N']; subst.
    inversion P as [|? ? Pi P']; subst.
    assert (Li : (Z.to_nat i < List.length hand)%nat) by (apply nth_error_Some; congruence).
    cbn [List.length seq combine foldM fst snd]. unfold index at 1.
    rewrite nth_error_app2, Nat.sub_diag by lia. cbn [nth_error bind].
    unfold index_set at 1. replace (Nat.ltb (Z.to_nat i) (List.length hand)) with true
      by (symmetry; apply Nat.ltb_lt; exact Li). cbn [bind].
    destruct (IH (is1 ++ [i]) (set_nth hand (Z.to_nat i) x) cs' dealt) as (hand' & E1 & L1 & Pm & A & U);
      [apply at_positions_set; assumption|assumption|assumption|exact L|].
    rewrite app_length in E1. cbn [List.length] in E1. rewrite Nat.add_1_r in E1.
    rewrite <- app_assoc in E1. cbn [app] in E1.
    exists hand'. split; [exact E1|]. split; [rewrite L1; apply set_nth_length|].
    split; [|split].
    + cbn [app]. rewrite Pm. rewrite (Permutation_middle dealt _ c).
      rewrite (set_nth_perm hand (Z.to_nat i) x c E). symmetry. apply Permutation_middle.
    + constructor; [|exact A]. rewrite U.
      * rewrite nth_error_set_nth by exact Li. destruct (Nat.eq_dec _ _); [reflexivity|congruence].
      * rewrite Z2Nat.id by exact Pi. exact Ni.
    + intros n Hn. rewrite U by (intros H; apply Hn; right; exact H).
      rewrite nth_error_set_nth by exact Li. destruct (Nat.eq_dec n (Z.to_nat i)) as [->|]; [|reflexivity].
      exfalso. apply Hn. left. rewrite Z2Nat.id by exact Pi. reflexivity.
Qed.

Lemma in_positions hand is cs c : at_positions hand is cs -> In c cs ->
  exists i, In i is /\ nth_error hand (Z.to_nat i) = Some c.
Proof.
  intros F. induction F as [|i d is cs E F IH]; [intros []|].
  intros [->|H]; [exists i; split; [left; reflexivity|exact E]|].
  destruct (IH H) as (j & Hj & Ej). exists j. split; [right; exact Hj|exact Ej].
Qed.
Lemma at_position hand is cs i : at_positions hand is cs -> In i is ->
  exists c, In c cs /\ nth_error hand (Z.to_nat i) = Some c.
Proof.
  intros F. induction F as [|j d is cs E F IH]; [intros []|].
  intros [->|H]; [exists d; split; [left; reflexivity|exact E]|].
  destruct (IH H) as (c & Hc & Ec). exists c. split; [right; exact Hc|exact Ec].
Qed.
Lemma at_positions_length hand is cs : at_positions hand is cs -> List.length cs = List.length is.
Proof. intros F. induction F; simpl; congruence. Qed.

(** The result of [swap_cards] once the shuffled deck is known. *)
Lemma swap_cards_shuffled {R} (gen : R -> nat -> nat * R) is deck hand rng cs deck' rng' :
  positions hand is -> at_positions hand is cs ->
  shuffle gen (deck ++ cs) rng = Ret (deck', rng') -> Permutation (deck ++ cs) deck' ->
  exists hand', swap_cards gen is deck hand rng
      = Ret (skipn (List.length is) deck', hand', rng')
    /\ List.length hand' = List.length hand
    /\ at_positions hand' is (firstn (List.length is) deck')
    /\ (forall n, ~ In (Z.of_nat n) is -> nth_error hand' n = nth_error hand n)
    /\ Permutation (hand' ++ skipn (List.length is) deck') (hand ++ deck).
Proof.
  intros [N F] A E Pm. unfold swap_cards.
  rewrite (push_discards hand is cs A deck). cbn [bind]. rewrite E. cbn [bind].
  assert (Lcs : List.length cs = List.length is) by exact (at_positions_length hand is cs A).
  assert (Ld : (List.length is <= List.length deck')%nat).
  { rewrite <- Pm, app_length. lia. }
  unfold drain_front. replace (Nat.leb (List.length is) (List.length deck')) with true
    by (symmetry; apply Nat.leb_le; exact Ld). cbn [bind].
  destruct (write_dealt is [] hand cs (firstn (List.length is) deck')) as (hand' & E1 & L1 & P1 & A1 & U1);
    [exact A|exact N| |rewrite firstn_length; lia|].
  { eapply Forall_impl; [|exact F]. simpl. lia. }
  cbn [app List.length] in E1. rewrite E1. cbn [bind]. exists hand'.
  split; [reflexivity|]. split; [exact L1|]. split; [exact A1|]. split; [exact U1|].
  apply (Permutation_app_inv_l cs).
  rewrite app_assoc, P1, <- app_assoc.
  rewrite (Permutation_app_comm hand (skipn _ _)), app_assoc, firstn_skipn.
  rewrite <- Pm. rewrite (Permutation_app_comm deck cs), <- app_assoc.
  apply Permutation_app_head, Permutation_app_comm.
Qed.

Lemma swap_cards_correct {R} (gen : R -> nat -> nat * R) is deck hand rng : fair gen ->
  positions hand is ->
  exists deck' hand' rng', swap_cards gen is deck hand rng = Ret (deck', hand', rng')
    /\ Permutation (hand' ++ deck') (hand ++ deck) /\ redrawn deck hand is hand'.
Proof.
  intros G P. destruct (positions_exist hand is (proj2 P)) as [cs A].
  destruct (DeckFacts.shuffle_perm gen (deck ++ cs) rng G) as (d & rng' & E & Pm).
  destruct (swap_cards_shuffled gen is deck hand rng cs d rng' P A E Pm)
    as (hand' & E1 & L1 & A1 & U1 & P1).
  exists (skipn (List.length is) d), hand', rng'. split; [exact E1|]. split; [exact P1|].
  split; [exact L1|]. intros n c Hn. destruct (in_dec Z.eq_dec (Z.of_nat n) is) as [I|I].
  - destruct (at_position hand' is _ _ A1 I) as (c' & Hc & Ec). rewrite Nat2Z.id in Ec.
    assert (c' = c) by congruence. subst c'.
    assert (Hd : In c (deck ++ cs)).
    { apply (Permutation_in _ (Permutation_sym Pm)). rewrite <- (firstn_skipn (List.length is) d).
      apply in_app_iff. left. exact Hc. }
    apply in_app_iff in Hd. destruct Hd as [Hd|Hd]; [left; exact Hd|right].
    apply (in_positions hand is cs c A Hd).
  - rewrite <- (U1 n I). exact Hn.
Qed.

(** ** payout *)
Lemma payout_pays w c : 1 <= w <= 5 -> payout w c = Ret (pays w c).
Proof.
  intros H. assert (K : forall k, 0 <= k <= 1000 -> chk in_u64 (k * w) = Ret (k * w)).
  { intros k Hk. unfold chk. replace (in_u64 (k * w)) with true; [reflexivity|].
    symmetry. apply in_u64_iff. nia. }
  destruct c as [r|r|r1 r2|r|r|r|r1 r2|r|r]; cbn [payout pays chart].
  - rewrite Z.mul_0_l. reflexivity.
  - destruct r; cbn [pips Nat.leb]; rewrite ?Z.mul_0_l, ?Z.mul_1_l; reflexivity.
  - apply K. lia.
  - apply K. lia.
  - apply K. lia.
  - apply K. lia.
  - apply K. lia.
  - apply K. lia.
  - destruct r; try (apply K; lia). unfold MAX_WAGER. destruct (w =? 5); [reflexivity|]. apply K. lia.
Qed.
Lemma pays_range w c : 1 <= w <= 5 -> 0 <= pays w c <= 4000.
Proof.
  intros H. destruct c as [r|r|r1 r2|r|r|r|r1 r2|r|r]; cbn [pays chart]; try lia.
  - destruct (Nat.leb 11 (pips r)); lia.
  - destruct r; try lia. destruct (w =? 5) eqn:E; [lia|]. apply Z.eqb_neq in E. lia.
Qed.
Lemma settle_range credits w c : 1 <= w <= 5 -> w <= credits ->
  0 <= settle credits w c <= credits + 4000.
Proof.
  intros H L. unfold settle. pose proof (pays_range w c H). destruct (pays w c =? 0); lia.
Qed.

(** ** One turn *)
Lemma answers_fewer {A} (ok : rstring -> A -> Prop) lines bad a rest :
  answers_with ok lines bad (Some a) rest -> (List.length rest < List.length lines)%nat.
Proof.
  intros H. remember (Some a) as o eqn:Eo. induction H; try discriminate Eo; simpl; [lia|].
  specialize (IHanswers_with Eo). lia.
Qed.
Lemma answers_ok {A} (ok : rstring -> A -> Prop) lines bad a rest :
  answers_with ok lines bad (Some a) rest -> exists l, In l lines /\ ok l a.
Proof.
  intros H. remember (Some a) as o eqn:Eo. induction H as [| |l b rest N O|l lines bad b rest _ H IH];
    try discriminate Eo.
  - injection Eo as ->. exists l. split; [left; reflexivity|exact O].
  - destruct (IH Eo) as (l' & H' & O). exists l'. split; [right; exact H'|exact O].
Qed.

Lemma NoDup_map_pred ns : NoDup ns -> NoDup (map (fun n => n - 1) ns).
Proof.
  intros N. induction N as [|n ns Hn N IH]; simpl; constructor; [|exact IH].
  rewrite in_map_iff. intros (m & E & Hm). apply Hn. replace n with m by lia. exact Hm.
Qed.
Lemma swaps_positions l is (hand : list card) : swaps_ok l is -> List.length hand = 5%nat ->
  positions hand is.
Proof.
  intros (words & ns & _ & _ & F & N & ->) L. split; [apply NoDup_map_pred; exact N|].
  apply Forall_forall. intros i Hi. apply in_map_iff in Hi. destruct Hi as (n & <- & Hn).
  rewrite Forall_forall in F. specialize (F n Hn). simpl in F. rewrite L. lia.
Qed.

Lemma hand_of_52 h d : Permutation (h ++ d) deck_generate -> List.length h = 5%nat -> hand5 h.
Proof.
  intros P L. split; [|split; [|exact L]].
  - apply Forall_forall. intros c Hc. apply DeckFacts.in_deck. apply (Permutation_in _ P).
    apply in_app_iff. auto.
  - assert (N : NoDup (h ++ d)) by (rewrite P; apply DeckFacts.deck_NoDup).
    clear -N. induction h as [|x h IH]; [constructor|]. inversion N; subst. constructor; [|auto].
    intros H. apply H1. apply in_app_iff. auto.
Qed.
Lemma hand5_evaluates ev h : new_evaluator ev -> hand5 h -> exists e, evaluates ev h e.
Proof.
  intros Hev (A & N & L). destruct (HandFacts.evaluate_total ev h Hev A) as (r & E & _ & _ & H).
  destruct (H N ltac:(lia)) as [e ->]. exists e. exact E.
Qed.
Lemma show_hand_text h e : List.length h = 5%nat -> show_hand h e = Ret (hand_text h e).
Proof.
  intros L. destruct h as [|a [|b [|c [|d [|f [|? h]]]]]]; try discriminate L.
  unfold show_hand, hand_text, index. cbn [nth_error bind map concat].
  rewrite <- !app_assoc. reflexivity.
Qed.

Lemma redrawn_none deck h : redrawn deck h [] h.
Proof. split; [reflexivity|]. intros n c H. destruct (in_dec Z.eq_dec (Z.of_nat n) []) as [[]|]; exact H. Qed.

Lemma chk_u64 z : 0 <= z < 2 ^ 64 -> chk in_u64 z = Ret z.
Proof. intros H. unfold chk. replace (in_u64 z) with true; [reflexivity|]. symmetry. apply in_u64_iff. exact H. Qed.

Section game.
Context {R : Type} (gen : R -> nat -> nat * R) (order : list (Z * nat) -> list (Z * nat)).
Hypothesis G : fair gen.
Hypothesis O : reorders order.
Context (ev : evaluator).
Hypothesis Hev : new_evaluator ev.

Lemma turn_total (g : game R) : between g ->
  (exists x t g', game_turn gen order ev g = Ret (t, g') /\ round ev g x t g' /\ all_52 g'
    /\ (t = Again -> between g' /\ (List.length (g_lines g') < List.length (g_lines g))%nat
        /\ g_credits g' <= g_credits g + 4000))
  \/ (exists bad w rest c, answers_with (wager_ok (g_credits g)) (g_lines g) bad (Some w) rest
      /\ 2 ^ 64 <= settle (g_credits g) w c
      /\ game_turn gen order ev g = Panic ArithmeticOverflow).
Proof.
  intros (A52 & Hh & Hc). unfold game_turn.
  destruct (get_wager_correct (g_credits g) (g_lines g) (g_out g))
    as (bad & a & rest & out1 & E1 & Ans1 & Con1).
  rewrite E1. destruct a as [w|].
  2:{ left. exists Left, Break. eexists. split; [reflexivity|]. split; [|split; [exact A52|intros X; discriminate X]].
      eapply left_at_wager; cbn [g_lines g_out g_deck g_hand g_credits g_rng after];
        [exact Ans1|exact Con1|reflexivity|reflexivity|exact Hh|reflexivity]. }
  destruct (answers_ok _ _ _ _ _ Ans1) as (wl & _ & _ & Hw & Hwc).
  pose proof (answers_fewer _ _ _ _ _ Ans1) as F1.
  rewrite chk_u64 by lia. cbn [bind].
  unfold all_52 in A52. rewrite Hh in A52. cbn [app] in A52.
  assert (Ld : List.length (g_deck g) = 52%nat) by (rewrite A52; apply DeckFacts.deck_length).
  unfold drain_front. replace (Nat.leb 5 (List.length (g_deck g))) with true by (rewrite Ld; reflexivity).
  cbn [bind]. rewrite Hh. cbn [app].
  set (h1 := firstn 5 (g_deck g)). set (deck1 := skipn 5 (g_deck g)).
  assert (Ed : g_deck g = h1 ++ deck1) by (symmetry; apply firstn_skipn).
  assert (L1 : List.length h1 = 5%nat) by (unfold h1; rewrite firstn_length, Ld; reflexivity).
  assert (P1 : Permutation (h1 ++ deck1) deck_generate) by (rewrite <- Ed; exact A52).
  pose proof (hand_of_52 h1 deck1 P1 L1) as H5.
  destruct (hand5_evaluates ev h1 Hev H5) as [e1 Ee1].
  pose proof Ee1 as Ee1'. unfold evaluates in Ee1'. rewrite Ee1'. cbn [bind unwrap]. clear Ee1'.
  rewrite (show_hand_text h1 e1 L1). cbn [bind].
  match goal with |- context [get_swaps order rest ?o] => set (out2 := o) end.
  destruct (get_swaps_correct order rest O out2) as (bad' & a & rest' & out3 & E2 & Ans2 & Con2).
  rewrite E2. cbn [bind]. destruct a as [is|].
  2:{ left. exists (Forfeit w), Break. eexists. split; [reflexivity|].
      split; [|split; [exact P1|intros X; discriminate X]].
      eapply left_at_swaps; cbn [g_lines g_out g_deck g_hand g_credits g_rng after];
        [exact Ans1|exact Con1|exact Ed|exact H5|exact Ee1|exact Ans2|exact Con2|
        |reflexivity|reflexivity].
      unfold out2. rewrite <- !app_assoc. reflexivity. }
  destruct (answers_ok _ _ _ _ _ Ans2) as (sl & _ & Hs).
  pose proof (answers_fewer _ _ _ _ _ Ans2) as F2.
  assert (Sw : exists deck2 h2 rng2,
      match is with
      | [] => Ret (deck1, h1, g_rng g)
      | _ => swap_cards gen is deck1 h1 (g_rng g)
      end = Ret (deck2, h2, rng2)
      /\ Permutation (h2 ++ deck2) (h1 ++ deck1) /\ redrawn deck1 h1 is h2).
  { destruct is as [|i is'].
    - exists deck1, h1, (g_rng g). split; [reflexivity|]. split; [apply Permutation_refl|apply redrawn_none].
    - exact (swap_cards_correct gen (i :: is') deck1 h1 (g_rng g) G (swaps_positions sl _ h1 Hs L1)). }
  destruct Sw as (deck2 & h2 & rng2 & -> & P2 & Rd). cbn [bind].
  rewrite P1 in P2.
  assert (L2 : List.length h2 = 5%nat) by (destruct Rd as [-> _]; exact L1).
  pose proof (hand_of_52 h2 deck2 P2 L2) as H52.
  destruct (hand5_evaluates ev h2 Hev H52) as [e2 Ee2].
  pose proof Ee2 as Ee2'. unfold evaluates in Ee2'. rewrite Ee2'. cbn [bind unwrap]. clear Ee2'.
  rewrite (show_hand_text h2 e2 L2). cbn [bind].
  rewrite (payout_pays w (eval_class_of e2) Hw). cbn [bind].
  pose proof (pays_range w (eval_class_of e2) Hw) as Hp.
  set (p := pays w (eval_class_of e2)) in *.
  set (c' := settle (g_credits g) w (eval_class_of e2)).
  assert (Rc : 0 <= c' <= g_credits g + 4000) by (apply settle_range; assumption).
  destruct (Z.lt_ge_cases c' (2 ^ 64)) as [Hb|Hb].
  2:{ right. exists bad, w, rest, (eval_class_of e2). split; [exact Ans1|]. split; [exact Hb|].
      assert (Pp : 0 < p).
      { destruct (Z.lt_ge_cases 0 p) as [|X]; [assumption|]. exfalso. unfold c', settle in Hb. fold p in Hb.
        replace (p =? 0) with true in Hb by (symmetry; apply Z.eqb_eq; lia). lia. }
      assert (Ec : c' = g_credits g + p).
      { unfold c', settle. fold p. replace (p =? 0) with false by (symmetry; apply Z.eqb_neq; lia). reflexivity. }
      replace (0 <? p) with true by (symmetry; apply Z.ltb_lt; exact Pp).
      rewrite (chk_u64 (w + p)) by lia. cbn [bind].
      unfold chk at 1. replace (in_u64 (g_credits g - w + (w + p))) with false; [reflexivity|].
      symmetry. apply not_true_is_false. rewrite in_u64_iff. lia. }
  left.
  assert (Es : (if 0 <? p then
        let! back := chk in_u64 (w + p) in
        let! credits := chk in_u64 (g_credits g - w + back) in
        Ret (credits, Line [BrightGreen; Bold] (lit "Winnings: " ++ show p))
      else Ret (g_credits g - w, Line [BrightRed; Bold] (lit "Winnings: " ++ show p)))
      = Ret (c', winnings p)).
  { unfold c', settle, winnings. fold p. destruct (0 <? p) eqn:E.
    - apply Z.ltb_lt in E. rewrite (chk_u64 (w + p)) by lia. cbn [bind].
      assert (Ec : c' = g_credits g + p).
      { unfold c', settle. fold p. replace (p =? 0) with false by (symmetry; apply Z.eqb_neq; lia). reflexivity. }
      rewrite (chk_u64 (g_credits g - w + (w + p))) by lia. cbn [bind].
      replace (p =? 0) with false by (symmetry; apply Z.eqb_neq; lia).
      f_equal. f_equal. lia.
    - apply Z.ltb_ge in E. replace (p =? 0) with true by (symmetry; apply Z.eqb_eq; lia). reflexivity. }
  rewrite Es. cbn [bind]. clear Es.
  assert (Ev : forall o : list printed,
      match class_cmp (eval_class_of e2) (eval_class_of e1) with
      | Eq => o
      | Lt => o ++ [Line [BrightRed; Bold] (lit "You got a worse hand...")]
      | Gt => o ++ [Line [BrightGreen; Bold] (lit "You got a better hand!")]
      end = o ++ verdict e1 e2).
  { intros o. unfold verdict. destruct (class_cmp _ _); [rewrite app_nil_r|..]; reflexivity. }
  rewrite Ev. clear Ev.
  destruct (c' =? 0) eqn:E0.
  - exists (Played w (eval_class_of e2)), Break. eexists. split; [reflexivity|].
    split; [|split; [exact P2|intros X; discriminate X]].
    eapply played with (h2 := h2) (e2 := e2) (h1 := h1) (e1 := e1);
      cbn [g_lines g_out g_deck g_hand g_credits g_rng after];
      [exact Ans1|exact Con1|exact Ed|exact H5|exact Ee1|exact Ans2|exact Con2|exact Rd|exact H52
      |exact Ee2|reflexivity| |reflexivity|intros X; discriminate X|].
    + apply Z.eqb_eq in E0. tauto.
    + fold p. rewrite E0. unfold out2. rewrite <- !app_assoc. reflexivity.
  - destruct (DeckFacts.shuffle_perm gen (deck2 ++ h2) rng2 G) as (d & rng3 & E3 & P3).
    rewrite E3. cbn [bind].
    exists (Played w (eval_class_of e2)), Again. eexists. split; [reflexivity|].
    assert (A' : Permutation d deck_generate).
    { rewrite <- P3, (Permutation_app_comm deck2 h2). exact P2. }
    pose proof (proj1 (Z.eqb_neq _ _) E0) as N0.
    split; [|split; [exact A'|]].
    + eapply played with (h2 := h2) (e2 := e2) (h1 := h1) (e1 := e1);
      cbn [g_lines g_out g_deck g_hand g_credits g_rng after];
      [exact Ans1|exact Con1|exact Ed|exact H5|exact Ee1|exact Ans2|exact Con2|exact Rd|exact H52
      |exact Ee2|reflexivity| |intros X; discriminate X|reflexivity|].
      * split; [intros X; discriminate X|]. intros X. unfold c' in N0. contradiction.
      * fold p. fold c'. rewrite E0. unfold out2. rewrite <- !app_assoc. reflexivity.
    + intros _. cbn [g_lines g_credits]. split; [|split; [lia|lia]].
      split; [exact A'|]. cbn [g_hand g_credits]. split; [reflexivity|]. lia.
Qed.

Lemma turn_correct (g : game R) : between g -> g_credits g + 4000 < 2 ^ 64 ->
  exists x t g', game_turn gen order ev g = Ret (t, g') /\ round ev g x t g' /\ all_52 g'
    /\ (t = Again -> between g' /\ (List.length (g_lines g') < List.length (g_lines g))%nat
        /\ g_credits g' <= g_credits g + 4000).
Proof.
  intros B C. destruct (turn_total g B) as [T|(bad & w & rest & c & An & O64 & _)]; [exact T|].
  destruct (answers_ok _ _ _ _ _ An) as (wl & _ & _ & Hw & Hwc).
  pose proof (settle_range (g_credits g) w c Hw Hwc). lia.
Qed.

(** ** The game *)
Lemma loop_total fuel : forall g : game R, between g -> (List.length (g_lines g) < fuel)%nat ->
  (exists l g', game_loop gen order ev fuel g = Ret g' /\ session ev g l g' /\ all_52 g')
  \/ (exists l g' w c, so_far ev g l g' /\ 1 <= w <= 5 /\ w <= g_credits g' /\ 2 ^ 64 <= settle (g_credits g') w c
      /\ g_credits g' <= g_credits g + 4000 * Z.of_nat (List.length l)
      /\ (List.length l <= List.length (g_lines g))%nat
      /\ game_loop gen order ev fuel g = Panic ArithmeticOverflow).
Proof.
  induction fuel as [|fuel IH]; intros g B L; [lia|]. cbn [game_loop].
  destruct (turn_total g B) as [(x & t & g1 & -> & Rd & A & Ag)|(bad & w & rest & c & An & Hs & ->)]; cbn [bind].
  2: destruct (answers_ok _ _ _ _ _ An) as (wl & _ & _ & Hw & Hwc).
  2:{ right. exists [], g, w, c. split; [constructor|]. split; [exact Hw|]. split; [exact Hwc|]. split; [exact Hs|].
      split; [cbn; lia|]. split; [cbn; lia|reflexivity]. }
  destruct t.
  - left. exists [x], g1. split; [reflexivity|]. split; [apply session_last; exact Rd|exact A].
  - destruct (Ag eq_refl) as (B1 & L1 & C1).
    destruct (IH g1 B1 ltac:(lia)) as [(l & g' & E & S & A')|(l & g' & w & c & S & Hw & Hwc & Hs & Hc & Hl & E)].
    + left. exists (x :: l), g'. split; [exact E|]. split; [|exact A']. eapply session_more; [exact Rd|exact S].
    + right. exists (x :: l), g', w, c. split; [eapply so_far_more; [exact Rd|exact S]|].
      split; [exact Hw|]. split; [exact Hwc|]. split; [exact Hs|]. cbn [List.length].
      split; [lia|]. split; [lia|exact E].
Qed.
End game.

(** What the session says about the credits. *)
Lemma round_entry {R} ev (g : game R) x t g' : round ev g x t g' ->
  g_credits g' = after (g_credits g) x
  /\ match x with
     | Left => t = Break
     | Forfeit w => 1 <= w <= 5 /\ w <= g_credits g /\ t = Break
     | Played w c => 1 <= w <= 5 /\ w <= g_credits g /\ (t = Break <-> g_credits g' = 0)
     end.
Proof.
  intros H. destruct H as
    [bad out g' A1 C1 Ho Hc Hh Hd
    |bad w rest h1 e1 bad' out out' g' A1 C1 D1 H5 E1 A2 C2 Ho Hc Hh
    |bad w rest h1 e1 deck1 bad' is out out' h2 e2 t g' A1 C1 D1 H5 E1 A2 C2 Rd H52 E2 Hc Hz Hb Hg Ho].
  - auto.
  - split; [exact Hc|]. destruct (answers_ok _ _ _ _ _ A1) as (l & _ & _ & Hw & Hwc). auto.
  - split; [exact Hc|]. destruct (answers_ok _ _ _ _ _ A1) as (l & _ & _ & Hw & Hwc). auto.
Qed.

Lemma session_credits {R} ev (g : game R) l g' : session ev g l g' ->
  g_credits g' = fold_left after l (g_credits g).
Proof.
  intros S. induction S as [g x g' Rd|g x g1 l g' Rd S IH].
  - destruct (round_entry _ _ _ _ _ Rd) as [E _]. exact E.
  - destruct (round_entry _ _ _ _ _ Rd) as [E _]. cbn [fold_left]. rewrite <- E. exact IH.
Qed.
Lemma session_booked {R} ev (g : game R) l g' : session ev g l g' -> 1 <= g_credits g ->
  booked (g_credits g) l.
Proof.
  intros S. induction S as [g x g' Rd|g x g1 l g' Rd S IH]; intros C;
    destruct (round_entry _ _ _ _ _ Rd) as [E Rx]; destruct x as [|w|w c]; cbn [booked].
  - auto.
  - destruct Rx as (Hw & Hc & _). auto.
  - destruct Rx as (Hw & Hc & Hz). split; [exact Hw|]. split; [exact Hc|].
    cbn [after] in E. rewrite <- E. destruct Hz as [Hz _]. rewrite (Hz eq_refl). reflexivity.
  - discriminate Rx.
  - destruct Rx as (_ & _ & X). discriminate X.
  - destruct Rx as (Hw & Hc & Hz). split; [exact Hw|]. split; [exact Hc|].
    cbn [after] in E. rewrite <- E. destruct (g_credits g1 =? 0) eqn:E0.
    + apply Z.eqb_eq in E0. apply Hz in E0. discriminate E0.
    + apply Z.eqb_neq in E0. apply IH.
      pose proof (settle_range (g_credits g) w c Hw Hc). rewrite <- E in H. lia.
Qed.

Theorem jacks_total {R} (gen : R -> nat -> nat * R) order lines rng : fair gen -> reorders order ->
  exists ev g0, new_evaluator ev /\ game_start gen lines rng = Ret (ev, g0)
    /\ between g0 /\ g_lines g0 = lines /\ g_credits g0 = 100
    /\ g_out g0 = [Clear; Line [BrightGreen; Bold] jacks_welcome]
    /\ ((exists l g, jacks_main gen order lines rng = Ret g /\ session ev g0 l g /\ all_52 g)
        \/ (exists l g w c, jacks_main gen order lines rng = Panic ArithmeticOverflow
             /\ so_far ev g0 l g /\ 1 <= w <= 5 /\ w <= g_credits g /\ 2 ^ 64 <= settle (g_credits g) w c
             /\ 2 ^ 52 <= Z.of_nat (List.length lines))).
Proof.
  intros G O. destruct HandFacts.evaluator_new_ret as [ev Hev].
  destruct (DeckFacts.shuffled_correct gen rng G) as (d & rng' & E & P).
  unfold jacks_main, game_start. pose proof Hev as Hev'. unfold new_evaluator in Hev'.
  rewrite Hev'. cbn [bind]. rewrite E. cbn [bind fst snd].
  match goal with |- context [Ret (ev, ?g)] => set (g0 := g) end.
  assert (B : between g0).
  { split; [|split; [reflexivity|]].
    - unfold all_52, g0. cbn [g_hand g_deck app]. symmetry. exact P.
    - unfold g0. cbn [g_credits]. unfold STARTING_CREDITS. lia. }
  exists ev, g0. split; [exact Hev|]. split; [reflexivity|]. split; [exact B|]. split; [reflexivity|]. split; [reflexivity|]. split; [reflexivity|].
  destruct (loop_total gen order G O ev Hev (S (List.length lines)) g0 B)
    as [(l & g & E1 & S1 & A1)|(l & g & w & c & S1 & Hw & Hwc & Hs & Hc & Hl & E1)].
  - unfold g0. cbn [g_lines]. lia.
  - left. exists l, g. auto.
  - right. exists l, g, w, c. split; [exact E1|]. split; [exact S1|]. split; [exact Hw|]. split; [exact Hwc|].
    split; [exact Hs|]. pose proof (settle_range (g_credits g) w c Hw Hwc) as Rg.
    change (g_credits g0) with 100 in Hc. change (g_lines g0) with lines in Hl. lia.
Qed.

(** ** The chart *)
Lemma chart_straight_flush w h : 1 <= w <= 5 ->
  payout w (StraightFlush h) <> Ret (chart (StraightFlush h) * w).
Proof.
  intros Hw. rewrite payout_pays by exact Hw. intros E'.
  assert (E : pays w (StraightFlush h) = chart (StraightFlush h) * w) by congruence. clear E'.
  destruct h; cbn [pays chart] in E; try lia. destruct (w =? 5) eqn:Ew; [|lia].
  apply Z.eqb_eq in Ew. lia.
Qed.
Lemma chart_others w c : 1 <= w <= 5 -> (forall h, c <> StraightFlush h) ->
  payout w c = Ret (chart c * w).
Proof.
  intros Hw N. rewrite payout_pays by exact Hw. destruct c; try reflexivity.
  exfalso. apply (N high_rank). reflexivity.
Qed.
Lemma rank_cmp_pips a b : rank_cmp a b = Nat.compare (pips a) (pips b).
Proof. destruct a, b; reflexivity. Qed.
Lemma payout_monotone w c c' p p' : 1 <= w <= 5 -> class_cmp c c' <> Gt ->
  payout w c = Ret p -> payout w c' = Ret p' -> p <= p'.
Proof.
  intros Hw H. rewrite !payout_pays by exact Hw. intros E E'. injection E as <-. injection E' as <-.
  unfold class_cmp in H. destruct (Z.compare (class_discr c) (class_discr c')) eqn:D; [| |congruence].
  - apply Z.compare_eq in D.
    destruct c as [r|r|r1 r2|r|r|r|r1 r2|r|r], c' as [q|q|q1 q2|q|q|q|q1 q2|q|q];
      cbn [class_discr] in D; try discriminate D; cbn [pays chart]; try lia.
    + cbn [class_fields fields_cmp] in H. rewrite rank_cmp_pips in H.
      destruct (Nat.leb_spec 11 (pips r)), (Nat.leb_spec 11 (pips q)); try lia.
      destruct (Nat.compare_spec (pips r) (pips q)); try lia. congruence.
    + destruct q, r; try (exfalso; apply H; reflexivity); try lia;
        destruct (w =? 5) eqn:Ew; try lia; apply Z.eqb_eq in Ew; lia.
  - apply Z.compare_lt_iff in D.
    assert (Lo : (match c' with StraightFlush _ => 50 | Pair _ => 0 | _ => chart c' end) * w
                 <= pays w c').
    { destruct c' as [q|q|q1 q2|q|q|q|q1 q2|q|q]; cbn [pays chart]; try lia.
      - destruct (Nat.leb _ _); lia.
      - destruct q; try lia. destruct (w =? 5) eqn:Ew; [|lia]. apply Z.eqb_eq in Ew. lia. }
    assert (Hi : pays w c <= (match c with StraightFlush _ => 1000 | Pair _ => 1 | _ => chart c end) * w).
    { destruct c as [q|q|q1 q2|q|q|q|q1 q2|q|q]; cbn [pays chart]; try lia.
      - destruct (Nat.leb _ _); lia.
      - destruct q; try lia. destruct (w =? 5) eqn:Ew; [|lia]. apply Z.eqb_eq in Ew. lia. }
    eapply Z.le_trans; [exact Hi|]. eapply Z.le_trans; [|exact Lo].
    apply Z.mul_le_mono_nonneg_r; [lia|].
    clear Lo Hi. destruct c, c'; try discriminate D; cbn [chart]; lia.
Qed.
Lemma payout_weakest w c p : 1 <= w <= 5 -> payout w c = Ret p ->
  (0 < p <-> class_cmp c (Pair Jack) <> Lt).
Proof.
  intros Hw. rewrite payout_pays by exact Hw. intros E. injection E as <-.
  destruct c as [r|r|r1 r2|r|r|r|r1 r2|r|r]; cbn [pays chart].
  - split; [lia|]. unfold class_cmp. cbn. congruence.
  - destruct r; cbn [pips Nat.leb]; split; intros H;
      first [lia | exfalso; apply H; reflexivity | discriminate].
  - split; [intros _; unfold class_cmp; cbn; discriminate|lia].
  - split; [intros _; unfold class_cmp; cbn; discriminate|lia].
  - split; [intros _; unfold class_cmp; cbn; discriminate|lia].
  - split; [intros _; unfold class_cmp; cbn; discriminate|lia].
  - split; [intros _; unfold class_cmp; cbn; discriminate|lia].
  - split; [intros _; unfold class_cmp; cbn; discriminate|lia].
  - split; [intros _; unfold class_cmp; cbn; discriminate|].
    destruct r; try lia. destruct (w =? 5); lia.
Qed.

(** ** The draw *)
Lemma draw_any is deck hand cs dealt rest : positions hand is -> at_positions hand is cs ->
  List.length dealt = List.length is -> Permutation (dealt ++ rest) (deck ++ cs) ->
  exists (R : Type) (gen : R -> nat -> nat * R) (rng rng' : R) hand', fair gen
    /\ swap_cards gen is deck hand rng = Ret (rest, hand', rng')
    /\ at_positions hand' is dealt.
Proof.
  intros P A L Pm. apply Permutation_sym in Pm.
  destruct (DeckFacts.shuffle_reach (deck ++ cs) (dealt ++ rest) Pm) as [js E].
  destruct (swap_cards_shuffled DeckFacts.replay is deck hand js cs (dealt ++ rest) [] P A E Pm)
    as (hand' & E1 & _ & A1 & _).
  exists (list nat), DeckFacts.replay, js, [], hand'. split; [exact DeckFacts.replay_range|].
  rewrite <- L in E1, A1. rewrite skipn_app, skipn_all, Nat.sub_diag in E1.
  rewrite firstn_app, firstn_all, Nat.sub_diag in A1. cbn [skipn firstn app] in E1, A1.
  rewrite app_nil_r in A1. split; [exact E1|exact A1].
Qed.

Lemma nth_error_ext {A} (l l' : list A) : (forall n, nth_error l n = nth_error l' n) -> l = l'.
Proof.
  revert l'. induction l as [|x l IH]; intros [|y l'] H; try (specialize (H 0%nat); discriminate H).
  - reflexivity.
  - pose proof (H 0%nat) as H0. injection H0 as ->. f_equal. apply IH. intros n. apply (H (S n)).
Qed.

(** In particular the discards themselves can be dealt back. *)
Lemma discards_come_back is deck hand cs : positions hand is -> at_positions hand is cs ->
  exists (R : Type) (gen : R -> nat -> nat * R) (rng rng' : R), fair gen
    /\ swap_cards gen is deck hand rng = Ret (deck, hand, rng').
Proof.
  intros P A. pose proof (at_positions_length hand is cs A) as L.
  pose proof (Permutation_app_comm cs deck) as Pm. apply Permutation_sym in Pm.
  destruct (DeckFacts.shuffle_reach (deck ++ cs) (cs ++ deck) Pm) as [js E].
  destruct (swap_cards_shuffled DeckFacts.replay is deck hand js cs (cs ++ deck) [] P A E Pm)
    as (hand' & E1 & L1 & A1 & U1 & _).
  exists (list nat), DeckFacts.replay, js, []. split; [exact DeckFacts.replay_range|].
  rewrite <- L in E1, A1. rewrite skipn_app, skipn_all, Nat.sub_diag in E1.
  rewrite firstn_app, firstn_all, Nat.sub_diag in A1. cbn [skipn firstn app] in E1, A1.
  rewrite app_nil_r in A1. replace hand with hand' at 2; [exact E1|].
  apply nth_error_ext. intros n. destruct (in_dec Z.eq_dec (Z.of_nat n) is) as [I|I]; [|apply U1; exact I].
  clear -A A1 I. revert cs A A1. induction is as [|i is IH]; [destruct I|].
  intros cs A A1. inversion A as [|? c ? cs' E F]; subst. inversion A1 as [|? ? ? ? E1 F1]; subst.
  destruct I as [->|I]; [rewrite Nat2Z.id in *; congruence|]. apply (IH I cs'); assumption.
Qed.

(** ** There is always a next move *)
Lemma number_one : number (lit "1") 1.
Proof. apply parse_usize_spec. reflexivity. Qed.
Lemma can_bet credits : 1 <= credits -> wager_ok credits (lit "1") 1.
Proof. intros H. split; [exact number_one|]. lia. Qed.
Lemma can_keep : swaps_ok [] [].
Proof.
  exists [], []. split; [apply (splits_end []); constructor|]. split; [constructor|].
  split; [constructor|]. split; [constructor|reflexivity].
Qed.
Lemma answers_fun {A} (ok : rstring -> A -> Prop) lines : (forall l a b, ok l a -> ok l b -> a = b) ->
  forall bad a rest bad' a' rest',
  answers_with ok lines bad a rest -> answers_with ok lines bad' a' rest' ->
  bad = bad' /\ a = a' /\ rest = rest'.
Proof.
  intros Fn bad a rest bad' a' rest' H. revert bad' a' rest'.
  induction H as [|rest|l a rest Nq Ok|l lines bad a rest [Nq Rf] H IH]; intros bad' a' rest' H'.
  - inversion H'; subst. auto.
  - inversion H'; subst; [auto|contradiction|].
    match goal with X : refused _ _ |- _ => destruct X as [X _]; contradiction end.
  - inversion H' as [|? E1|? a0 ? _ Ok'|? ? ? ? ? [_ Rf]]; subst; [contradiction| |].
    + rewrite (Fn l a a0 Ok Ok'). auto.
    + exfalso. apply (Rf a Ok).
  - inversion H' as [|? E1|? ? ? _ Ok'|? ? ? ? ? _ H2]; subst; [contradiction| |].
    + exfalso. apply (Rf _ Ok').
    + destruct (IH _ _ _ H2) as (-> & -> & ->). auto.
Qed.
Lemma wager_ok_fun credits l a b : wager_ok credits l a -> wager_ok credits l b -> a = b.
Proof. intros [H _] [H' _]. apply (number_unique l); assumption. Qed.
Lemma swaps_ok_fun l a b : swaps_ok l a -> swaps_ok l b -> a = b.
Proof.
  intros (w & ns & S & F & _ & _ & ->) (w' & ns' & S' & F' & _ & _ & ->).
  rewrite <- (TextFacts.splits_complete _ _ S) in F. rewrite <- (TextFacts.splits_complete _ _ S') in F'.
  rewrite (Forall2_number_unique _ _ _ F F'). reflexivity.
Qed.

Lemma move_exists {R} (gen : R -> nat -> nat * R) order ev (g : game R) rest :
  fair gen -> reorders order -> new_evaluator ev -> between g ->
  g_lines g = lit "1" :: [] :: rest ->
  (exists c t g', game_turn gen order ev g = Ret (t, g') /\ round ev g (Played 1 c) t g'
    /\ g_lines g' = rest)
  \/ (2 ^ 64 <= g_credits g + 250 /\ game_turn gen order ev g = Panic ArithmeticOverflow).
Proof.
  intros G O Hev B El. pose proof (turn_total gen order G O ev Hev g B) as T.
  destruct B as (_ & _ & C).
  assert (W : answers_with (wager_ok (g_credits g)) (g_lines g) [] (Some 1) ([] :: rest)).
  { rewrite El. apply answer_ok; [discriminate|]. apply can_bet. lia. }
  assert (K : answers_with swaps_ok ([] :: rest) [] (Some []) rest).
  { apply answer_ok; [discriminate|exact can_keep]. }
  destruct T as [(x & t & g' & E & Rd & _)|(bad & w & rest' & c & An & O64 & E)].
  2:{ right. split; [|exact E].
      destruct (answers_fun _ _ (wager_ok_fun (g_credits g)) _ _ _ _ _ _ W An) as (_ & X & _). injection X as <-.
      assert (pays 1 c <= 250).
      { destruct c as [r|r| | | | | | |r]; cbn; try lia; destruct r; cbn; lia. }
      unfold settle in O64. destruct (pays 1 c =? 0); lia. }
  left. pose proof Rd as Rd0. destruct Rd as
    [bad out g' A1 C1 Ho Hcr Hh Hd
    |bad w rest1 h1 e1 bad' out out' g' A1 C1 D1 H5 E1 A2 C2 Ho Hcr Hh
    |bad w rest1 h1 e1 deck1 bad' is out out' h2 e2 t g' A1 C1 D1 H5 E1 A2 C2 Rd H52 E2 Hcr Hz Hb Hg Ho].
  - destruct (answers_fun _ _ (wager_ok_fun (g_credits g)) _ _ _ _ _ _ W A1) as (_ & X & _). discriminate X.
  - destruct (answers_fun _ _ (wager_ok_fun (g_credits g)) _ _ _ _ _ _ W A1) as (_ & _ & <-).
    destruct (answers_fun _ _ swaps_ok_fun _ _ _ _ _ _ K A2) as (_ & X & _). discriminate X.
  - destruct (answers_fun _ _ (wager_ok_fun (g_credits g)) _ _ _ _ _ _ W A1) as (_ & X & <-).
    injection X as <-.
    destruct (answers_fun _ _ swaps_ok_fun _ _ _ _ _ _ K A2) as (_ & _ & X).
    exists (eval_class_of e2), t, g'. split; [exact E|]. split; [|symmetry; exact X].
    exact Rd0.
Qed.

Theorem jacks_ledger {R} (gen : R -> nat -> nat * R) order lines rng g : fair gen -> reorders order ->
  jacks_main gen order lines rng = Ret g ->
  exists ev g0 l, session ev g0 l g /\ g_lines g0 = lines
    /\ booked 100 l /\ g_credits g = fold_left after l 100.
Proof.
  intros G O E. destruct (jacks_total gen order lines rng G O)
    as (ev & g0 & Hev & E0 & B & El & Ec & _ & [(l & g' & E' & S & A)|(l & g' & w & c & E' & _)]); [|congruence].
  assert (g' = g) as -> by congruence.
  exists ev, g0, l. split; [exact S|]. split; [exact El|].
  rewrite <- Ec. split; [|apply (session_credits ev); exact S].
  apply (session_booked ev g0 l g S). lia.
Qed.

Lemma answers_determined lines credits :
  (forall bad a rest bad' a' rest', answers_with (wager_ok credits) lines bad a rest ->
     answers_with (wager_ok credits) lines bad' a' rest' -> bad = bad' /\ a = a' /\ rest = rest')
  /\ (forall bad a rest bad' a' rest', answers_with swaps_ok lines bad a rest ->
     answers_with swaps_ok lines bad' a' rest' -> bad = bad' /\ a = a' /\ rest = rest').
Proof.
  split; intros bad a rest bad' a' rest'.
  - apply answers_fun. apply wager_ok_fun.
  - apply answers_fun. apply swaps_ok_fun.
Qed.
