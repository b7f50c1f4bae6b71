(** GainFacts.v: proofs about SpecGain. *)
From Coq Require Import Lia List Arith Permutation Factorial ZArith QArith Lqa.
From Verif Require Import Base ModelCard ModelEval ModelTable ModelEvaluation ModelExamples Spec SpecApi SpecExamples SpecGain.
From Verif Require Import CardFacts DeckFacts ShuffleFacts CombosFacts Sweep SpecFacts FiveFacts HandFacts OddsFacts SizeFacts UniformFacts
  JacksFacts DrawFacts ReturnFacts.
Import ListNotations.
Local Open Scope nat_scope.

(** ** Averages *)
Lemma qsum_cons x l : qsum (x :: l) = (x + qsum l)%Q.
Proof. reflexivity. Qed.
Lemma qsum_app a b : (qsum (a ++ b) == qsum a + qsum b)%Q.
Proof.
  induction a as [|x a IH]; [change (qsum (nil ++ b)) with (qsum b); change (qsum nil) with 0%Q; lra|].
  cbn [app]. rewrite !qsum_cons, IH. lra.
Qed.
Lemma qsum_repeat q n : (qsum (repeat q n) == inject_Z (Z.of_nat n) * q)%Q.
Proof.
  induction n as [|n IH]; cbn [repeat]; [change (qsum nil) with 0%Q; change (inject_Z (Z.of_nat 0)) with 0%Q; lra|].
  rewrite qsum_cons, IH, Nat2Z.inj_succ. unfold Z.succ. rewrite inject_Z_plus. change (inject_Z 1) with 1%Q. lra.
Qed.
Lemma qsum_perm a b : Permutation a b -> (qsum a == qsum b)%Q.
Proof. induction 1; rewrite ?qsum_cons in *; lra. Qed.
Lemma qsum_eq a b : Forall2 Qeq a b -> (qsum a == qsum b)%Q.
Proof. induction 1 as [|x y a b E F IH]; rewrite ?qsum_cons; lra. Qed.
Lemma qsum_inject (l : list Z) : (qsum (map inject_Z l) == inject_Z (fold_right Z.add 0%Z l))%Q.
Proof.
  induction l as [|z l IH]; cbn [map fold_right]; [reflexivity|].
  rewrite qsum_cons, IH, inject_Z_plus. reflexivity.
Qed.

Lemma average_eq {X} (P : X -> Prop) (F : X -> Q -> Prop) q q' : (q == q')%Q -> average P F q -> average P F q'.
Proof.
  intros E (L & qs & N & E0 & H & F2 & Q). exists L, qs. repeat (split; [assumption|]). rewrite <- E. exact Q.
Qed.
Lemma Forall2_fun {X Y} (F : X -> Y -> Prop) (R : Y -> Y -> Prop) : (forall x q q', F x q -> F x q' -> R q q') ->
  forall L a b, Forall2 F L a -> Forall2 F L b -> Forall2 R a b.
Proof.
  intros U L a b A. revert b. induction A as [|x q L a Hx A IH]; intros b B; inversion B as [|? q' ? b' Hx' B']; subst; constructor.
  - exact (U x q q' Hx Hx').
  - apply IH, B'.
Qed.
Lemma average_fun {X} (P : X -> Prop) (F : X -> Q -> Prop) q q' : (forall x g g', F x g -> F x g' -> (g == g')%Q) ->
  average P F q -> average P F q' -> (q == q')%Q.
Proof.
  intros U (L & qs & N & _ & H & F2 & Q) (L' & qs' & N' & _ & H' & F2' & Q').
  assert (Pm : Permutation L L').
  { apply NoDup_Permutation; [exact N|exact N'|]. intros x. rewrite H, H'. reflexivity. }
  destruct (Permutation_Forall2 Pm F2) as (qs2 & Pq & F3).
  rewrite Q, Q', (Permutation_length Pm), (qsum_perm _ _ Pq).
  rewrite (qsum_eq qs2 qs'); [reflexivity|]. exact (Forall2_fun F Qeq U L' _ _ F3 F2').
Qed.
Lemma average_impl {X} (P : X -> Prop) (F G : X -> Q -> Prop) q : (forall x g, P x -> F x g -> G x g) ->
  average P F q -> average P G q.
Proof.
  intros I (L & qs & N & E & H & F2 & Q). exists L, qs. repeat (split; [assumption|]). split; [|exact Q].
  assert (A : forall x, In x L -> P x) by (intros x Hx; apply H, Hx). clear -I F2 A.
  induction F2 as [|x g L qs Hx F2 IH]; constructor.
  - apply I; [apply A; left; reflexivity|exact Hx].
  - apply IH. intros y Hy. apply A. right. exact Hy.
Qed.

(** ** Averages over shuffles *)
Lemma any_hand_scripts (l h : list card) : NoDup l -> NoDup h -> incl h l -> exists L,
  NoDup L /\ length L = fact (length h) * fact (length l - length h)
  /\ forall js, In js L <-> answers (length l) js
       /\ exists d, shuffle script l js = Ret (d, []) /\ Permutation h (firstn (length h) d).
Proof.
  intros Nl Nh I.
  assert (X : forall ps, NoDup ps -> (forall p, In p ps -> Permutation h p) -> exists D,
    NoDup D /\ length D = length ps * fact (length l - length h)
    /\ forall d, In d D <-> Permutation l d /\ In (firstn (length h) d) ps).
  { induction 1 as [|p ps Np N IH]; intros H.
    - exists []. split; [constructor|]. split; [reflexivity|]. intros d. split; [intros []|intros (_ & [])].
    - destruct IH as (D & ND & LD & HD); [intros q Hq; apply H; right; exact Hq|].
      pose proof (H p (or_introl eq_refl)) as Pp.
      destruct (any_prefix_orders l p Nl (Permutation_NoDup Pp Nh)) as (D' & ND' & LD' & HD').
      { intros c Hc. apply I. exact (Permutation_in _ (Permutation_sym Pp) Hc). }
      rewrite <- (Permutation_length Pp) in LD', HD'.
      exists (D' ++ D). split; [|split].
      + apply SizeFacts.NoDup_app_disj; [exact ND'|exact ND|]. intros d J K. apply HD' in J. apply HD in K.
        destruct J as (_ & J), K as (_ & K). rewrite J in K. contradiction.
      + rewrite app_length, LD, LD'. cbn [length]. lia.
      + intros d. rewrite in_app_iff, HD, HD'. cbn [In]. split.
        * intros [(P & E)|(P & E)]; split; auto.
        * intros (P & [E|E]); [left|right]; auto. }
  destruct (X (perms h) (perms_NoDup h Nh)) as (D & ND & LD & HD); [intros p Hp; apply in_perms, Hp|].
  destruct (any_scripts_for l D Nl ND) as (L & NL & LL & HL); [intros d Hd; apply HD, Hd|].
  exists L. split; [exact NL|]. split; [rewrite LL, LD, perms_length; reflexivity|].
  intros js. rewrite HL. split.
  - intros (V & d & Hd & E). split; [exact V|]. exists d. split; [exact E|]. apply HD in Hd. apply in_perms, Hd.
  - intros (V & d & E & Pd). split; [exact V|]. exists d. split; [|exact E]. apply HD.
    destruct (any_shuffle_scripted l js V) as (d' & E' & P'). assert (d' = d) by congruence. subst d'.
    split; [exact P'|]. apply in_perms, Pd.
Qed.

Theorem average_shuffle (l l' : list card) k (G : list card -> Q -> Prop) (F : list nat -> Q -> Prop) q :
  NoDup l -> Permutation l l' -> k <= length l ->
  (forall h g js d, some_of l' k h -> G h g -> answers (length l) js -> shuffle script l js = Ret (d, []) ->
     Permutation l d -> Permutation h (firstn k d) -> F js g) ->
  average (some_of l' k) G q -> average (answers (length l)) F q.
Proof.
  intros Nl Pl K I (L & qs & N & E0 & H & F2 & Q). unfold some_of in H, I.
  assert (Nl' : NoDup l') by exact (Permutation_NoDup Pl Nl).
  assert (HL : forall h, In h L -> NoDup h /\ incl h l /\ length h = k /\ sublist h l').
  { intros h Hh. apply H in Hh. destruct Hh as [S1 S2]. split; [exact (sublist_NoDup _ _ S1 Nl')|].
    split; [|split; [exact S2|exact S1]]. intros c Hc. apply (Permutation_in _ (Permutation_sym Pl)), (sublist_incl _ _ S1 c Hc). }
  set (c := fact k * fact (length l - k)).
  assert (X : exists LL QQ, NoDup LL /\ length LL = c * length L
    /\ (forall js, In js LL <-> answers (length l) js
         /\ exists h d, In h L /\ shuffle script l js = Ret (d, []) /\ Permutation h (firstn k d))
    /\ Forall2 F LL QQ /\ (qsum QQ == inject_Z (Z.of_nat c) * qsum qs)%Q).
  { clear Q H E0. revert N HL. induction F2 as [|h g L qs Hg F2 IH]; intros N HL.
    - exists [], []. split; [constructor|]. split; [cbn; lia|]. split; [|split; [constructor|change (qsum nil) with 0%Q; lra]].
      intros js. split; [intros []|]. intros (_ & h & d & [] & _).
    - inversion N as [|? ? Nh NL]; subst.
      destruct IH as (LL & QQ & A1 & A2 & A3 & A4 & A5); [exact NL|intros x Hx; apply HL; right; exact Hx|].
      destruct (HL h (or_introl eq_refl)) as (B1 & B2 & B3 & B4).
      destruct (any_hand_scripts l h Nl B1 B2) as (Lh & C1 & C2 & C3). rewrite B3 in C2, C3. fold c in C2.
      exists (Lh ++ LL), (repeat g (length Lh) ++ QQ). split; [|split; [|split; [|split]]].
      + apply SizeFacts.NoDup_app_disj; [exact C1|exact A1|]. intros js J1 J2. apply C3 in J1. apply A3 in J2.
        destruct J1 as (_ & d & E & P1), J2 as (_ & h2 & d2 & I2 & E2 & P2).
        assert (d2 = d) by congruence. subst d2. apply Nh.
        rewrite (sublist_perm_eq l' Nl' h h2); [exact I2|exact B4|apply HL; right; exact I2|].
        exact (Permutation_trans P1 (Permutation_sym P2)).
      + rewrite app_length, C2, A2. cbn [length]. lia.
      + intros js. rewrite in_app_iff, C3, A3. split.
        * intros [(V & d & E & Pd)|(V & h2 & d & I2 & E & Pd)]; (split; [exact V|]).
          -- exists h, d. split; [left; reflexivity|]. auto.
          -- exists h2, d. split; [right; exact I2|]. auto.
        * intros (V & h2 & d & [<-|I2] & E & Pd); [left|right]; (split; [exact V|]).
          -- exists d. auto.
          -- exists h2, d. auto.
      + apply Forall2_app; [|exact A4].
        assert (Z : forall js, In js Lh -> F js g).
        { intros js Hj. apply C3 in Hj. destruct Hj as (V & d & E & Pd).
          destruct (any_shuffle_scripted l js V) as (d' & E' & P'). assert (d' = d) by congruence. subst d'.
          exact (I h g js d (conj B4 B3) Hg V E P' Pd). }
        clear -Z. induction Lh as [|js Lh IH]; cbn [length repeat]; constructor.
        * apply Z. left. reflexivity.
        * apply IH. intros j Hj. apply Z. right. exact Hj.
      + rewrite qsum_app, qsum_repeat, A5, C2, qsum_cons. lra. }
  destruct X as (LL & QQ & A1 & A2 & A3 & A4 & A5).
  assert (Cp : c > 0). { unfold c. pose proof (lt_O_fact k). pose proof (lt_O_fact (length l - k)). nia. }
  assert (Lp : length L > 0) by (destruct L; [contradiction E0; reflexivity|cbn; lia]).
  exists LL, QQ. split; [exact A1|]. split; [|split; [|split; [exact A4|]]].
  - intros ->. cbn in A2. nia.
  - intros js. rewrite A3. split; [intros (V & _); exact V|]. intros V. split; [exact V|].
    destruct (any_shuffle_scripted l js V) as (d & E & P).
    assert (Nf : NoDup (firstn k d)).
    { pose proof (Permutation_NoDup P Nl) as Nd. rewrite <- (firstn_skipn k d) in Nd. apply NoDup_parts in Nd. apply Nd. }
    destruct (combs_complete card_dec l' k (firstn k d) Nf) as (h & Hh & Ph).
    { intros x Hx. apply (Permutation_in _ Pl), (Permutation_in _ (Permutation_sym P)).
      rewrite <- (firstn_skipn k d). apply in_app_iff. left. exact Hx. }
    { apply firstn_length_le. rewrite <- (Permutation_length P). exact K. }
    exists h, d. split; [apply H, combs_sublist, Hh|]. split; [exact E|]. symmetry. exact Ph.
  - rewrite Q, A5, A2. rewrite Nat2Z.inj_mul, inject_Z_mult. field. split.
    + intros Z. assert (~ (inject_Z (Z.of_nat (length L)) == inject_Z 0)%Q); [|contradiction].
      rewrite inject_Z_injective. lia.
    + intros Z. assert (~ (inject_Z (Z.of_nat c) == inject_Z 0)%Q); [|contradiction].
      rewrite inject_Z_injective. lia.
Qed.

(** ** What a hand brings *)
Lemma gain_fun ev w h q q' : gain ev w h q -> gain ev w h q' -> (q == q')%Q.
Proof.
  intros (e & p & E & Hp & Q) (e' & p' & E' & Hp' & Q').
  pose proof (evaluates_fun ev h e e' E E'). subst e'. assert (p' = p) by congruence. subst p'.
  rewrite Q, Q'. reflexivity.
Qed.
Lemma gain_perm ev w h h' q : new_evaluator ev -> all_cards h -> Permutation h h' -> gain ev w h q -> gain ev w h' q.
Proof.
  intros Hev A P (e & p & E & Hp & Q). exists e, p. split; [|split; assumption].
  exact (proj1 (proj1 (permutation_ok ev h h' Hev A P) e) E).
Qed.
Lemma gain_eq ev w h q q' : (q == q')%Q -> gain ev w h q -> gain ev w h q'.
Proof. intros E (e & p & A & B & C). exists e, p. split; [exact A|]. split; [exact B|]. rewrite <- E. exact C. Qed.
Definition net (w : Z) (c : eval_class) : Z := if (pays w c =? 0)%Z then (- w)%Z else pays w c.
Lemma gain_net ev w h e q : (1 <= w <= 5)%Z -> evaluates ev h e -> (q == inject_Z (net w (eval_class_of e)))%Q ->
  gain ev w h q.
Proof.
  intros W E Q. exists e, (pays w (eval_class_of e)). split; [exact E|]. split; [exact (payout_pays w _ W)|exact Q].
Qed.
Lemma evaluates_some ev h : new_evaluator ev -> legal h -> exists e, evaluates ev h e.
Proof. intros Hev Lh. destruct (evaluate_spec ev h Hev Lh) as (e & E & _). exists e. exact E. Qed.

Lemma drawn_fun ev w is hand deck q q' : drawn ev w is hand deck q -> drawn ev w is hand deck q' -> (q == q')%Q.
Proof.
  destruct is as [|i is]; [apply gain_fun|]. apply average_fun.
  intros js g g' (d & h & E & G) (d' & h' & E' & G'). assert (h' = h) by congruence. subst h'.
  exact (gain_fun ev w h g g' G G').
Qed.
Lemma drawn_eq ev w is hand deck q q' : (q == q')%Q -> drawn ev w is hand deck q -> drawn ev w is hand deck q'.
Proof. destruct is as [|i is]; [apply gain_eq|apply average_eq]. Qed.
Lemma round_fun ev w plan l q q' : round_gain ev w plan l q -> round_gain ev w plan l q' -> (q == q')%Q.
Proof.
  apply average_fun. intros js g g' (h & d & e & E & L & V & D) (h' & d' & e' & E' & L' & V' & D').
  rewrite E in E'. injection E' as E'.
  assert (h = h' /\ d = d') as [-> ->].
  { assert (H : firstn 5 (h ++ d) = firstn 5 (h' ++ d')) by (rewrite E'; reflexivity).
    rewrite <- L in H at 1. rewrite <- L' in H. rewrite !firstn_app, !Nat.sub_diag, !firstn_all in H. cbn [firstn] in H.
    rewrite !app_nil_r in H. subst h'. apply app_inv_head in E'. split; [reflexivity|exact E']. }
  pose proof (evaluates_fun ev h' e e' V V'). subst e'. exact (drawn_fun _ _ _ _ _ _ _ D D').
Qed.

(** ** An exchange is a draw from all cards that are not kept *)
Lemma deck_parts (a b : list card) : Permutation (a ++ b) deck_generate ->
  NoDup a /\ NoDup b /\ all_cards a /\ all_cards b.
Proof.
  intros P. pose proof (Permutation_NoDup (Permutation_sym P) deck_NoDup) as N. apply NoDup_parts in N.
  split; [apply N|]. split; [apply N|]. split; apply Forall_forall; intros c Hc; apply in_deck, (Permutation_in _ P), in_app_iff; auto.
Qed.
Lemma average_exists (l : list card) k (G : list card -> Q -> Prop) : NoDup l -> k <= length l ->
  (forall h, some_of l k h -> exists g, G h g) -> exists q, average (some_of l k) G q.
Proof.
  intros N K H.
  assert (X : forall L, (forall h, In h L -> exists g, G h g) -> exists qs, Forall2 G L qs).
  { clear. induction L as [|h L IH]; intros H; [exists []; constructor|].
    destruct (H h (or_introl eq_refl)) as [g Hg]. destruct IH as [qs F]; [intros; apply H; right; assumption|].
    exists (g :: qs). constructor; assumption. }
  destruct (X (combs k l)) as [qs F]; [intros h Hh; apply H, combs_sublist, Hh|].
  exists (qsum qs / inject_Z (Z.of_nat (length (combs k l))))%Q. exists (combs k l), qs.
  split; [apply combs_NoDup, N|]. split; [|split; [apply combs_sublist|split; [exact F|reflexivity]]].
  intros E. assert (Nf : NoDup (firstn k l)) by (rewrite <- (firstn_skipn k l) in N; apply NoDup_parts in N; apply N).
  destruct (combs_complete card_dec l k (firstn k l) Nf) as (h & Hh & _).
  - intros x Hx. rewrite <- (firstn_skipn k l). apply in_app_iff. left. exact Hx.
  - apply firstn_length_le, K.
  - rewrite E in Hh. destruct Hh.
Qed.
Theorem exchange_value ev w is hand deck cs kept rest q : new_evaluator ev -> (1 <= w <= 5)%Z -> is <> [] ->
  length hand = 5 -> Permutation (hand ++ deck) deck_generate -> positions hand is -> at_positions hand is cs ->
  Permutation hand (kept ++ cs) -> Permutation (kept ++ rest) deck_generate ->
  drawn ev w is hand deck q <-> average (some_of rest (length is)) (fun h => gain ev w (kept ++ h)) q.
Proof.
  intros Hev W Ne L5 Pd Ps A Pk Pr.
  assert (Lc : length cs = length is) by exact (at_positions_length hand is cs A).
  assert (Pcr : Permutation (deck ++ cs) rest).
  { apply (Permutation_app_inv_l kept). rewrite Pr, <- Pd, Pk.
    rewrite <- app_assoc. apply Permutation_app_head, Permutation_app_comm. }
  destruct (deck_parts kept rest Pr) as (Nk & Nr & Ak & Ar).
  assert (N : NoDup (deck ++ cs)) by exact (Permutation_NoDup (Permutation_sym Pcr) Nr).
  assert (T : forall q, average (some_of rest (length is)) (fun h => gain ev w (kept ++ h)) q -> drawn ev w is hand deck q).
  { intros q0 Q0.
    assert (X : average (answers (length deck + length is))
      (fun js g => exists deck' hand', swap_cards script is deck hand js = Ret (deck', hand', []) /\ gain ev w hand' g) q0);
      [|destruct is; [contradiction Ne; reflexivity|exact X]].
    replace (length deck + length is) with (length (deck ++ cs)) by (rewrite app_length, Lc; reflexivity).
    eapply (average_shuffle (deck ++ cs) rest (length is)); [exact N|exact Pcr|rewrite app_length; lia| |exact Q0].
    intros h g js d (Sh & Lh) G V E Pm Ph.
    destruct (swap_cards_shuffled script is deck hand js cs d [] Ps A E Pm) as (hand' & E1 & L1 & A1 & U1 & P1).
    exists (skipn (length is) d), hand'. split; [exact E1|].
    apply (gain_perm ev w (kept ++ h)); [exact Hev| | |exact G].
    - apply Forall_app. split; [exact Ak|]. apply Forall_forall. intros c Hc. unfold all_cards in Ar. rewrite Forall_forall in Ar.
      apply Ar, (sublist_incl _ _ Sh c Hc).
    - apply (Permutation_app_inv_r (skipn (length is) d)). rewrite P1, Ph, Pk, <- !app_assoc, firstn_skipn, <- Pm.
      apply Permutation_app_head, Permutation_app_comm. }
  split; [|apply T]. intros D.
  destruct (average_exists rest (length is) (fun h => gain ev w (kept ++ h)) Nr) as [q0 Q0].
  { rewrite <- Pcr, app_length. lia. }
  { intros h (Sh & Lh). destruct (evaluates_some ev (kept ++ h) Hev) as [e E].
    - pose proof (sublist_NoDup _ _ Sh Nr) as Nh. split; [|split].
      + apply Forall_app. split; [exact Ak|]. apply Forall_forall. intros c Hc. unfold all_cards in Ar. rewrite Forall_forall in Ar.
        apply Ar, (sublist_incl _ _ Sh c Hc).
      + apply SizeFacts.NoDup_app_disj; [exact Nk|exact Nh|]. intros c C1 C2.
        pose proof (Permutation_NoDup (Permutation_sym Pr) deck_NoDup) as Nkr. apply (sublist_incl _ _ Sh) in C2.
        clear -Nkr C1 C2. induction kept as [|x kept IH]; [destruct C1|]. cbn in Nkr. inversion Nkr as [|? ? Nx Nr]; subst.
        destruct C1 as [->|C1]; [apply Nx, in_app_iff; right; exact C2|exact (IH C1 Nr)].
      + rewrite app_length, Lh, <- Lc, <- app_length, <- (Permutation_length Pk), L5. lia.
    - exists (inject_Z (net w (eval_class_of e))). apply (gain_net ev w _ e); [exact W|exact E|reflexivity]. }
  apply (average_eq _ _ q0); [|exact Q0]. exact (drawn_fun _ _ _ _ _ _ _ (T q0 Q0) D).
Qed.

(** ** Over all five-card hands *)
Lemma class_sums ev : new_evaluator ev -> exists es, Forall2 (evaluates ev) five_card_choices es
  /\ forall P z, total_is class_weights P z = true ->
       fold_right Z.add 0%Z (map (fun e => ind (P (eval_class_of e))) es) = z.
Proof.
  intros Hev. destruct (results_exist ev five_card_choices) as [es F].
  { intros h H. rewrite five_card_choices_map in H. apply in_map_iff in H. destruct H as (x & <- & H).
    apply evaluates_some; [exact Hev|]. apply hand5_legal, choices_hand5, H. }
  exists es. split; [exact F|]. rewrite five_card_choices_map in F. intros P z B.
  rewrite <- (count_ind (fun e => P (eval_class_of e))).
  rewrite (results_count ev choices es _ P Hev F (fun _ H => H) (fun _ e _ _ => eq_refl)).
  apply total_count. exact B.
Qed.
Definition low_pair (c : eval_class) : bool := of_category 1 c && negb (high_pair c).
Definition paid (w : Z) : Z := (872304 * w + 4 * (if (w =? 5)%Z then 4000 else 250 * w))%Z.
Lemma five_sums ev w : new_evaluator ev -> (1 <= w <= 5)%Z -> exists es, Forall2 (evaluates ev) five_card_choices es
  /\ Z.of_nat (length es) = 2598960%Z
  /\ fold_right Z.add 0%Z (map (fun e => pays w (eval_class_of e)) es) = paid w
  /\ fold_right Z.add 0%Z (map (fun e => ind (low_pair (eval_class_of e))) es) = 760320%Z
  /\ fold_right Z.add 0%Z (map (fun e => ind (of_category 0 (eval_class_of e))) es) = 1302540%Z.
Proof.
  intros Hev W. destruct (class_sums ev Hev) as (es & F & R). exists es. split; [exact F|].
  pose proof totals_ok as T. cbv zeta in T.
  apply andb_true_iff in T. destruct T as [T A11]. apply andb_true_iff in T. destruct T as [T A10].
  apply andb_true_iff in T. destruct T as [T A9]. apply andb_true_iff in T. destruct T as [T A8].
  apply andb_true_iff in T. destruct T as [T A7]. apply andb_true_iff in T. destruct T as [T A6].
  apply andb_true_iff in T. destruct T as [T A5]. apply andb_true_iff in T. destruct T as [T A4].
  apply andb_true_iff in T. destruct T as [T A3]. apply andb_true_iff in T. destruct T as [A1 A2].
  pose proof high_pairs_ok as T. apply andb_true_iff in T. destruct T as [B1 B2].
  apply R in A1, A2, A3, A4, A5, A6, A7, A8, A9, A10, A11, B1, B2.
  split; [|split; [|split]].
  - rewrite <- A11. clear. induction es as [|e es IH]; [reflexivity|].
    cbn [length map fold_right]. rewrite <- IH. change (ind true) with 1%Z. lia.
  - rewrite (sum_ext _ _ es (fun e _ => pays_split w (eval_class_of e))).
    rewrite !sum_add, !sum_mul, A2, A3, A4, A5, A6, A7, A10, B1, B2. unfold paid. lia.
  - rewrite (sum_ext _ (fun e => ind (of_category 1 (eval_class_of e)) + -1 * ind (high_pair (eval_class_of e)))%Z).
    + rewrite sum_add, sum_mul, A8, B1. reflexivity.
    + intros e _. unfold low_pair, of_category.
      destruct (eval_class_of e) as [r|r| | | | | | |r]; cbn [category high_pair Nat.eqb andb]; try reflexivity.
      destruct (Nat.leb 11 (pips r)); reflexivity.
  - exact A9.
Qed.
Lemma net_split w c : (1 <= w)%Z -> net w c = (pays w c + - w * (ind (low_pair c) + ind (of_category 0 c)))%Z.
Proof.
  intros W. unfold net.
  assert (X : (ind (low_pair c) + ind (of_category 0 c) = ind (negb (high_pair c || Nat.leb 2 (category c))))%Z).
  { destruct c as [r|r| | | | | | |r]; try reflexivity; destruct r; reflexivity. }
  rewrite X, <- (pays_zero w c W). destruct (pays w c =? 0)%Z eqn:E; cbn [ind]; [apply Z.eqb_eq in E|]; lia.
Qed.

(** What a hand brings that is not exchanged. *)
Definition stand_value (w : Z) : Q := (inject_Z (paid w - 2062860 * w) / 2598960)%Q.
Lemma five_choices_some : forall h, In h five_card_choices <-> some_of deck_generate 5 h.
Proof. exact (combs_sublist deck_generate 5). Qed.
Lemma five_choices_NoDup : NoDup five_card_choices.
Proof. exact (combs_NoDup _ deck_NoDup 5). Qed.
Lemma Forall2_len {X Y} (F : X -> Y -> Prop) L qs : Forall2 F L qs -> length L = length qs.
Proof. induction 1; cbn [length]; congruence. Qed.
Lemma average_classes ev w (f : eval_class -> Q) (a b : Q) : new_evaluator ev -> (1 <= w <= 5)%Z ->
  (forall c, f c == inject_Z (pays w c) + a * inject_Z (ind (low_pair c)) + b * inject_Z (ind (of_category 0 c)))%Q ->
  average (some_of deck_generate 5) (fun h g => exists e, evaluates ev h e /\ (g == f (eval_class_of e))%Q)
    ((inject_Z (paid w) + a * 760320 + b * 1302540) / 2598960)%Q.
Proof.
  intros Hev W Hf. destruct (five_sums ev w Hev W) as (es & F & Le & S1 & S2 & S3).
  exists five_card_choices, (map (fun e => f (eval_class_of e)) es).
  split; [exact five_choices_NoDup|]. pose proof (Forall2_len _ _ _ F) as LL. split; [|split; [exact five_choices_some|split]].
  - intros E. rewrite E in LL. cbn [length] in LL. lia.
  - clear -F. induction F as [|h e L es E F IH]; cbn [map]; constructor; [|exact IH]. exists e. split; [exact E|reflexivity].
  - rewrite LL, Le. apply Qmult_comp; [|reflexivity]. rewrite <- S1. change 760320%Q with (inject_Z 760320). change 1302540%Q with (inject_Z 1302540).
    rewrite <- S2, <- S3. clear -Hf.
    induction es as [|e es IH]; cbn [map fold_right]; [change (qsum []) with 0%Q; change (inject_Z 0) with 0%Q; lra|].
    rewrite qsum_cons, <- IH, Hf, !inject_Z_plus. lra.
Qed.
Lemma net_split_q w c : (1 <= w)%Z -> (inject_Z (net w c)
  == inject_Z (pays w c) + - inject_Z w * inject_Z (ind (low_pair c)) + - inject_Z w * inject_Z (ind (of_category 0 c)))%Q.
Proof.
  intros W. rewrite (net_split w c W), inject_Z_plus, inject_Z_mult, inject_Z_plus, inject_Z_opp. lra.
Qed.
Lemma stand_average ev w : new_evaluator ev -> (1 <= w <= 5)%Z -> average (some_of deck_generate 5) (gain ev w) (stand_value w).
Proof.
  intros Hev W. pose proof (average_classes ev w (fun c => inject_Z (net w c)) _ _ Hev W (fun c => net_split_q w c (proj1 W))) as A.
  eapply average_eq; [|eapply average_impl; [|exact A]].
  - unfold stand_value. rewrite <- (Z.add_opp_r (paid w)), inject_Z_plus, inject_Z_opp, inject_Z_mult. field.
  - intros h g _ (e & E & Q). exact (gain_net ev w h e g W E Q).
Qed.

(** ** Sums over the choices from a list of blocks *)
Definition zsum (l : list Z) : Z := fold_right Z.add 0%Z l.
Lemma zsum_cons x l : zsum (x :: l) = (x + zsum l)%Z.
Proof. reflexivity. Qed.
Lemma zsum_app a b : zsum (a ++ b) = (zsum a + zsum b)%Z.
Proof. induction a as [|x a IH]; [reflexivity|]. cbn [app]. rewrite !zsum_cons, IH. lia. Qed.
Lemma zsum_ext {A} (f g : A -> Z) l : (forall a, In a l -> f a = g a) -> zsum (map f l) = zsum (map g l).
Proof.
  induction l as [|a l IH]; intros H; [reflexivity|]. cbn [map]. rewrite !zsum_cons, (H a (or_introl eq_refl)), IH; [reflexivity|].
  intros b Hb. apply H. right. exact Hb.
Qed.
Lemma zsum_plus {A} (f g : A -> Z) l : zsum (map (fun a => f a + g a)%Z l) = (zsum (map f l) + zsum (map g l))%Z.
Proof. induction l as [|a l IH]; [reflexivity|]. cbn [map]. rewrite !zsum_cons, IH. lia. Qed.
Lemma zsum_seq_last (f : nat -> Z) n : zsum (map f (seq 0 (S n))) = (zsum (map f (seq 0 n)) + f n)%Z.
Proof. rewrite seq_S, map_app, zsum_app. cbn. lia. Qed.
Lemma zsum_seq_first (f : nat -> Z) n : zsum (map f (seq 0 (S n))) = (f 0%nat + zsum (map (fun j => f (S j)) (seq 0 n)))%Z.
Proof. cbn [seq map]. rewrite zsum_cons. rewrite <- seq_shift, map_map. reflexivity. Qed.

Section blocks.
  Context {X K : Type} (key : X -> K).
  Definition over (F : list K -> Z) (k : nat) (l : list X) : Z := zsum (map (fun h => F (map key h)) (combs k l)).

  Lemma over_ext F G k l : (forall m, F m = G m) -> over F k l = over G k l.
  Proof. intros E. apply zsum_ext. intros h _. apply E. Qed.
  Lemma over_cons F k x l : over F (S k) (x :: l) = (over (fun m => F (key x :: m)) k l + over F (S k) l)%Z.
  Proof. unfold over. cbn [combs]. rewrite map_app, zsum_app, map_map. reflexivity. Qed.
  Lemma over_0 F l : over F 0 l = F [].
  Proof. unfold over. destruct l; cbn; lia. Qed.

  Lemma over_block r b l : Forall (fun x => key x = r) b -> forall k F,
    over F k (b ++ l) = zsum (map (fun j => Z.of_nat (binom (length b) j) * over (fun m => F (repeat r j ++ m)) (k - j) l)%Z
                                (seq 0 (S k))).
  Proof.
    induction 1 as [|x b Hx Hb IH]; intros k F.
    - rewrite zsum_seq_first. cbn [length app repeat binom]. rewrite Nat.sub_0_r.
      rewrite (zsum_ext _ (fun _ => 0%Z)) by (intros; reflexivity).
      assert (Z0 : forall l : list nat, zsum (map (fun _ => 0%Z) l) = 0%Z)
        by (clear; intros l; induction l as [|a l IHl]; [reflexivity|cbn [map]; rewrite zsum_cons, IHl; reflexivity]).
      rewrite Z0. change (over (fun m => F m) k l) with (over F k l). lia.
    - destruct k as [|k].
      + rewrite over_0. cbn [seq map]. rewrite zsum_cons, Nat.sub_0_r, over_0. cbn [repeat app length binom zsum fold_right map].
        destruct (length b); cbn [binom]; lia.
      + cbn [app]. rewrite over_cons, IH, IH, Hx. rewrite !(zsum_seq_first _ (S k)). cbn [length].
        match goal with |- (?a + (?b + ?c) = ?d + ?e)%Z =>
          assert (D : d = b); [|assert (E : e = (a + c)%Z); [|lia]] end.
        * destruct (length b); reflexivity.
        * rewrite <- zsum_plus. apply zsum_ext. intros j _.
          cbn [repeat app binom Nat.sub]. rewrite Nat2Z.inj_add. lia.
  Qed.

  Context (n : K -> nat) (block : K -> list X).
  Fixpoint bsum (F : list K -> Z) (rs : list K) (k : nat) (acc : list K) : Z :=
    match rs with
    | [] => match k with O => F acc | S _ => 0%Z end
    | r :: rs' => zsum (map (fun j => Z.of_nat (binom (n r) j) * bsum F rs' (k - j) (acc ++ repeat r j))%Z (seq 0 (S k)))
    end.
  Lemma bsum_spec F rs : (forall r, length (block r) = n r /\ Forall (fun x => key x = r) (block r)) ->
    forall k acc, zsum (map (fun h => F (acc ++ map key h)) (combs k (flat_map block rs))) = bsum F rs k acc.
  Proof.
    intros B. induction rs as [|r rs IH]; intros k acc.
    - destruct k as [|k]; cbn [flat_map combs map bsum]; [|reflexivity]. rewrite zsum_cons, app_nil_r. cbn. lia.
    - cbn [flat_map bsum]. change (over (fun m => F (acc ++ m)) k (block r ++ flat_map block rs)
        = zsum (map (fun j => Z.of_nat (binom (n r) j) * bsum F rs (k - j) (acc ++ repeat r j))%Z (seq 0 (S k)))).
      rewrite (over_block r) by apply B. apply zsum_ext. intros j _. rewrite (proj1 (B r)). f_equal. rewrite <- IH.
      apply zsum_ext. intros h _. rewrite app_assoc. reflexivity.
  Qed.
End blocks.

(** ** Drawing three cards to a pair *)
Definition left_of (r r' : rank) : nat := if rank_dec r' r then 2 else 4.
Definition pair_class (m : list rank) : eval_class := canon_class (false, m).
Definition unclear (m : list rank) : Z :=
  ind (negb (classifyb false m (pair_class m) && Nat.leb (category (pair_class m)) 7)).
Definition low_ranks : list rank := [Two; Three; Four; Five; Six; Seven; Eight; Nine; Ten].
Lemma pair_sums : forallb (fun r =>
    (bsum (left_of r) unclear RANK_ALL_VARIANTS 3 [r; r] =? 0)%Z
    && (bsum (left_of r) (fun m => net 1 (pair_class m)) RANK_ALL_VARIANTS 3 [r; r] =? 1520)%Z) low_ranks = true.
Proof. vm_compute. reflexivity. Qed.

Lemma zsum_zero {A} (f : A -> Z) l : (forall a, 0 <= f a)%Z -> zsum (map f l) = 0%Z -> forall a, In a l -> f a = 0%Z.
Proof.
  intros N. induction l as [|x l IH]; intros E a Ha; [destruct Ha|]. cbn [map] in E. rewrite zsum_cons in E.
  assert (P : (0 <= zsum (map f l))%Z).
  { clear -N. induction l as [|y l IH]; [cbn; lia|]. cbn [map]. rewrite zsum_cons. specialize (N y). lia. }
  pose proof (N x) as Nx. destruct Ha as [<-|Ha]; [lia|]. apply IH; [lia|exact Ha].
Qed.
Lemma ind_nonneg b : (0 <= ind b)%Z.
Proof. destruct b; cbn; lia. Qed.
Lemma filter_flat_map {A B} (P : B -> bool) (f : A -> list B) l : filter P (flat_map f l) = flat_map (fun a => filter P (f a)) l.
Proof. induction l as [|a l IH]; [reflexivity|]. cbn [flat_map]. rewrite filter_app, IH. reflexivity. Qed.
Lemma deck_blocks : deck_generate = flat_map (fun r => map (card_new r) SUIT_ALL_VARIANTS) RANK_ALL_VARIANTS.
Proof. vm_compute. reflexivity. Qed.

Definition keep_out (ks : list card) (c : card) : bool := if in_dec card_dec c ks then false else true.
Lemma keep_out_spec ks c : keep_out ks c = true <-> ~ In c ks.
Proof. unfold keep_out. destruct (in_dec card_dec c ks); split; intros H; try congruence; try tauto. Qed.
Lemma rest_perm ks : NoDup ks -> all_cards ks -> Permutation (ks ++ filter (keep_out ks) deck_generate) deck_generate.
Proof.
  intros N A. apply NoDup_Permutation; [|exact deck_NoDup|].
  - apply SizeFacts.NoDup_app_disj; [exact N|apply NoDup_filter, deck_NoDup|]. intros c H1 H2. apply filter_In in H2.
    destruct H2 as [_ H2]. apply keep_out_spec in H2. contradiction.
  - intros c. rewrite in_app_iff, filter_In, keep_out_spec. split.
    + intros [H|[H _]]; [|exact H]. apply in_deck. unfold all_cards in A. rewrite Forall_forall in A. apply A, H.
    + intros H. destruct (in_dec card_dec c ks) as [I|I]; [left; exact I|right; split; assumption].
Qed.
Lemma block_rank r s : card_rank (card_new r s) = r.
Proof. exact (f_equal fst (face_card_of (r, s))). Qed.
Lemma blocks_left r s1 s2 r' : s1 <> s2 ->
  let b := filter (keep_out [card_new r s1; card_new r s2]) (map (card_new r') SUIT_ALL_VARIANTS) in
  length b = left_of r r' /\ Forall (fun c => card_rank c = r') b.
Proof.
  intros N b. split.
  - unfold left_of. destruct (rank_dec r' r) as [->|D].
    + unfold b. destruct r, s1, s2; try (contradiction N; reflexivity); vm_compute; reflexivity.
    + assert (E : forall s, keep_out [card_new r s1; card_new r s2] (card_new r' s) = true).
      { intros s. apply keep_out_spec. intros H.
        assert (X : card_rank (card_new r' s) = r) by (destruct H as [<-|[<-|[]]]; apply block_rank).
        rewrite block_rank in X. contradiction. }
      unfold b. cbn [SUIT_ALL_VARIANTS map filter]. rewrite !E. reflexivity.
  - apply Forall_forall. intros c Hc. apply filter_In in Hc. destruct Hc as [Hc _]. apply in_map_iff in Hc.
    destruct Hc as (s & <- & _). apply block_rank.
Qed.

Lemma net_scale w c : (1 <= w)%Z -> Nat.leb (category c) 7 = true -> net w c = (w * net 1 c)%Z.
Proof.
  intros W C.
  assert (K : forall k, (if (k * w =? 0)%Z then - w else k * w)%Z = (w * (if (k * 1 =? 0)%Z then - (1) else k * 1))%Z).
  { intros k. destruct (k * w =? 0)%Z eqn:E, (k * 1 =? 0)%Z eqn:E'; rewrite ?Z.eqb_eq, ?Z.eqb_neq in *; nia. }
  unfold net. destruct c as [r|r| | | | | | |r]; try discriminate C; apply K.
Qed.

Lemma unsuited_pair r s1 s2 h : s1 <> s2 -> ~ suited (faces ([card_new r s1; card_new r s2] ++ h)).
Proof.
  intros Hs (s & F). apply Hs. unfold faces in F. cbn [app map] in F.
  inversion F as [|? ? F1 F']; subst. inversion F' as [|? ? F2 _]; subst.
  change (card_new r s2) with (card_of (r, s2)) in F2. change (card_new r s1) with (card_of (r, s1)) in F2.
  rewrite !face_card_of in F2. symmetry. exact F2.
Qed.
Theorem pair_average ev w r s1 s2 : new_evaluator ev -> (1 <= w <= 5)%Z -> In r low_ranks -> s1 <> s2 ->
  let ks := [card_new r s1; card_new r s2] in
  average (some_of (filter (keep_out ks) deck_generate) 3) (fun h => gain ev w (ks ++ h)) (inject_Z w * (19 # 245))%Q.
Proof.
  intros Hev W Hr Hs ks.
  assert (Nk : NoDup ks).
  { constructor; [|constructor; [intros []|constructor]]. intros [H|[]]. apply Hs.
    pose proof (f_equal face_of H) as F. change (card_new r s2) with (card_of (r, s2)) in F.
    change (card_new r s1) with (card_of (r, s1)) in F. rewrite !face_card_of in F. congruence. }
  assert (Ak : all_cards ks) by (constructor; [apply a_card_new|constructor; [apply a_card_new|constructor]]).
  pose proof (rest_perm ks Nk Ak) as Pr. set (rest := filter (keep_out ks) deck_generate) in *.
  assert (Lr : length rest = 50).
  { apply Permutation_length in Pr. rewrite app_length, deck_length in Pr. cbn [length ks] in Pr. lia. }
  destruct (deck_parts ks rest Pr) as (_ & Nr & _ & Ar).
  pose proof pair_sums as S. rewrite forallb_forall in S. specialize (S r Hr). apply andb_true_iff in S. destruct S as [S1 S2].
  apply Z.eqb_eq in S1, S2.
  assert (Rb : rest = flat_map (fun r' => filter (keep_out ks) (map (card_new r') SUIT_ALL_VARIANTS)) RANK_ALL_VARIANTS).
  { unfold rest. rewrite deck_blocks at 1. apply filter_flat_map. }
  pose proof (fun F => bsum_spec card_rank (left_of r) (fun r' => filter (keep_out ks) (map (card_new r') SUIT_ALL_VARIANTS)) F
     RANK_ALL_VARIANTS (fun r' => blocks_left r s1 s2 r' Hs) 3 [r; r]) as BS. rewrite <- Rb in BS.
  rewrite <- BS in S1, S2. clear BS Rb.
  assert (C : forall h, In h (combs 3 rest) -> exists e, evaluates ev (ks ++ h) e
    /\ eval_class_of e = pair_class ([r; r] ++ map card_rank h) /\ Nat.leb (category (eval_class_of e)) 7 = true).
  { intros h Hh. pose proof (zsum_zero _ _ (fun h => ind_nonneg _) S1 h Hh) as U. apply combs_sublist in Hh. destruct Hh as [Sh Lh].
    assert (H5 : hand5 (ks ++ h)).
    { split; [|split].
      - apply Forall_app. split; [exact Ak|]. apply Forall_forall. intros c Hc. unfold all_cards in Ar. rewrite Forall_forall in Ar.
        apply Ar, (sublist_incl _ _ Sh c Hc).
      - apply SizeFacts.NoDup_app_disj; [exact Nk|exact (sublist_NoDup _ _ Sh Nr)|]. intros c C1 C2. apply (sublist_incl _ _ Sh) in C2.
        unfold rest in C2. apply filter_In in C2. destruct C2 as [_ C2]. apply keep_out_spec in C2. contradiction.
      - rewrite app_length, Lh. reflexivity. }
    destruct (evaluates_some ev (ks ++ h) Hev (hand5_legal _ H5)) as [e E]. exists e. split; [exact E|].
    assert (M : ranks (faces (ks ++ h)) = [r; r] ++ map card_rank h).
    { unfold ranks, faces. rewrite map_map, map_app. unfold face_of. cbn [fst]. f_equal. cbn [ks map]. rewrite !block_rank. reflexivity. }
    unfold unclear in U. destruct (classifyb false ([r; r] ++ map card_rank h) (pair_class ([r; r] ++ map card_rank h))
      && Nat.leb (category (pair_class ([r; r] ++ map card_rank h))) 7) eqn:B; [|discriminate U].
    apply andb_true_iff in B. destruct B as [B1 B2].
    assert (Ec : eval_class_of e = pair_class ([r; r] ++ map card_rank h)).
    { apply (class_correct ev _ e Hev H5 E).
      refine (proj1 (classifyb_spec (faces (ks ++ h)) false ([r; r] ++ map card_rank h) _ _ _ _) B1).
      - unfold faces. rewrite map_length. apply H5.
      - rewrite M. apply Permutation_refl.
      - split; [intros F; exact (False_ind _ (unsuited_pair r s1 s2 h Hs F))|].
        intros X. exact (False_ind _ (Bool.diff_false_true X)). }
    split; [exact Ec|]. rewrite Ec. exact B2. }
  exists (combs 3 rest), (map (fun h => inject_Z (w * net 1 (pair_class ([r; r] ++ map card_rank h)))) (combs 3 rest)).
  split; [apply combs_NoDup, Nr|].
  assert (L3 : Z.of_nat (length (combs 3 rest)) = 19600%Z).
  { rewrite combs_binom, Lr. vm_compute. reflexivity. }
  split; [intros E; rewrite E in L3; discriminate L3|]. split; [apply combs_sublist|]. split.
  - assert (I : incl (combs 3 rest) (combs 3 rest)) by apply incl_refl. revert I. generalize (combs 3 rest) at 1 3 4.
    intros L. induction L as [|h L IH]; intros I; cbn [map]; constructor.
    + destruct (C h (I h (or_introl eq_refl))) as (e & E & Ec & B). apply (gain_net ev w _ e _ W E).
      rewrite (net_scale w _ (proj1 W) B), Ec. reflexivity.
    + apply IH. intros x Hx. apply I. right. exact Hx.
  - rewrite L3, <- (map_map (fun h => (w * net 1 (pair_class ([r; r] ++ map card_rank h)))%Z) inject_Z).
    rewrite qsum_inject, (sum_mul w (fun h => net 1 (pair_class ([r; r] ++ map card_rank h)))).
    unfold zsum in S2. rewrite S2, inject_Z_mult. field.
Qed.

(** ** The plans *)
Lemma round_value ev w plan l (V : eval_class -> Q) q : new_evaluator ev -> (1 <= w <= 5)%Z -> Permutation l deck_generate ->
  (forall hand deck e, length hand = 5 -> Permutation (hand ++ deck) deck_generate -> evaluates ev hand e ->
     drawn ev w (plan hand (eval_class_of e)) hand deck (V (eval_class_of e))) ->
  average (some_of deck_generate 5) (fun h g => exists e, evaluates ev h e /\ (g == V (eval_class_of e))%Q) q ->
  round_gain ev w plan l q.
Proof.
  intros Hev W Pl D A. unfold round_gain.
  assert (Ll : length l = 52) by (rewrite (Permutation_length Pl); exact deck_length).
  eapply (average_shuffle l deck_generate 5); [exact (Permutation_NoDup (Permutation_sym Pl) deck_NoDup)|exact Pl|lia| |exact A].
  intros h g js d (Sh & Lh) (e & E & Q) Vj Es Pd Ph.
  assert (L5 : length (firstn 5 d) = 5) by (rewrite <- (Permutation_length Ph); exact Lh).
  assert (Ah : all_cards h).
  { apply Forall_forall. intros c Hc. apply in_deck, (sublist_incl _ _ Sh c Hc). }
  assert (Ef : evaluates ev (firstn 5 d) e) by exact (proj1 (proj1 (permutation_ok ev h (firstn 5 d) Hev Ah Ph) e) E).
  exists (firstn 5 d), (skipn 5 d), e. rewrite firstn_skipn. split; [exact Es|]. split; [exact L5|]. split; [exact Ef|].
  apply (drawn_eq _ _ _ _ _ (V (eval_class_of e))); [symmetry; exact Q|]. apply D; [exact L5| |exact Ef].
  rewrite firstn_skipn, <- Pd. exact Pl.
Qed.

Theorem stand_round ev w l q : new_evaluator ev -> (1 <= w <= 5)%Z -> Permutation l deck_generate ->
  round_gain ev w stand l q <-> (q == stand_value w)%Q.
Proof.
  intros Hev W Pl.
  assert (T : round_gain ev w stand l (stand_value w)).
  { eapply (round_value ev w stand l (fun c => inject_Z (net w c))); [exact Hev|exact W|exact Pl| |].
    - intros hand deck e _ _ E. apply (gain_net ev w hand e _ W E). reflexivity.
    - pose proof (average_classes ev w (fun c => inject_Z (net w c)) _ _ Hev W (fun c => net_split_q w c (proj1 W))) as A.
      eapply average_eq; [|exact A]. unfold stand_value.
      rewrite <- (Z.add_opp_r (paid w)), inject_Z_plus, inject_Z_opp, inject_Z_mult. field. }
  split; [intros H; exact (round_fun _ _ _ _ _ _ H T)|]. intros E. symmetry in E. exact (average_eq _ _ _ _ E T).
Qed.

Lemma all_positions (hand : list card) : length hand = 5 ->
  positions hand [0; 1; 2; 3; 4]%Z /\ at_positions hand [0; 1; 2; 3; 4]%Z hand.
Proof.
  intros L. destruct hand as [|a [|b [|c [|d [|e [|f hand]]]]]]; try discriminate L. split.
  - split; [repeat constructor; cbn; intuition lia|repeat constructor; cbn; lia].
  - repeat constructor.
Qed.
Lemma renew_drawn ev w hand deck : new_evaluator ev -> (1 <= w <= 5)%Z -> length hand = 5 ->
  Permutation (hand ++ deck) deck_generate -> drawn ev w [0; 1; 2; 3; 4]%Z hand deck (stand_value w).
Proof.
  intros Hev W L P. destruct (all_positions hand L) as [Ps A].
  apply (exchange_value ev w [0; 1; 2; 3; 4]%Z hand deck hand [] deck_generate); try assumption.
  - intros X. inversion X.
  - apply Permutation_refl.
  - apply Permutation_refl.
  - exact (stand_average ev w Hev W).
Qed.
Lemma constant_average ev q : new_evaluator ev ->
  average (some_of deck_generate 5) (fun h g => exists e, evaluates ev h e /\ (g == q)%Q) q.
Proof.
  intros Hev. destruct (class_sums ev Hev) as (es & F & R). pose proof (Forall2_len _ _ _ F) as LL.
  assert (Le : Z.of_nat (length es) = 2598960%Z).
  { pose proof totals_ok as T. cbv zeta in T. apply andb_true_iff in T. destruct T as [_ T]. apply R in T.
    rewrite <- T. clear. induction es as [|e es IH]; [reflexivity|].
    cbn [length map fold_right]. rewrite <- IH. change (ind true) with 1%Z. lia. }
  exists five_card_choices, (repeat q (length es)). split; [exact five_choices_NoDup|].
  split; [|split; [exact five_choices_some|split]].
  - intros E. rewrite E in LL. cbn [length] in LL. lia.
  - clear -F. induction F as [|h e L es E F IH]; cbn [length repeat]; constructor; [|exact IH]. exists e. split; [exact E|reflexivity].
  - rewrite LL, qsum_repeat, Le. change (inject_Z 2598960) with (2598960 # 1)%Q. field.
Qed.
Theorem renew_round ev w l q : new_evaluator ev -> (1 <= w <= 5)%Z -> Permutation l deck_generate ->
  round_gain ev w renew l q <-> (q == stand_value w)%Q.
Proof.
  intros Hev W Pl.
  assert (T : round_gain ev w renew l (stand_value w)).
  { eapply (round_value ev w renew l (fun _ => stand_value w)); [exact Hev|exact W|exact Pl| |].
    - intros hand deck e L P _. exact (renew_drawn ev w hand deck Hev W L P).
    - exact (constant_average ev (stand_value w) Hev). }
  split; [intros H; exact (round_fun _ _ _ _ _ _ H T)|]. intros E. symmetry in E. exact (average_eq _ _ _ _ E T).
Qed.

Lemma others_positions r (hand : list card) : length hand = 5 ->
  positions hand (others r hand)
  /\ at_positions hand (others r hand) (filter (fun c => if rank_dec (card_rank c) r then false else true) hand).
Proof.
  intros L. destruct hand as [|a [|b [|c [|d [|e [|f hand]]]]]]; try discriminate L.
  unfold others. cbn [combine filter fst]. unfold positions.
  destruct (rank_dec (card_rank a) r), (rank_dec (card_rank b) r), (rank_dec (card_rank c) r), (rank_dec (card_rank d) r),
    (rank_dec (card_rank e) r); cbn [map snd];
    (split; [split; [repeat constructor; cbn; intuition lia|repeat constructor; cbn; lia]|repeat constructor]).
Qed.
Lemma filter_parts {A} (P : A -> bool) l : Permutation l (filter P l ++ filter (fun x => negb (P x)) l).
Proof.
  induction l as [|x l IH]; [constructor|]. cbn [filter]. destruct (P x); cbn [negb app].
  - constructor. exact IH.
  - rewrite <- Permutation_middle. constructor. exact IH.
Qed.
Lemma count_filter r (h : list card) : count r (faces h) = length (filter (fun c => if rank_dec (card_rank c) r then true else false) h).
Proof.
  unfold count, ranks, faces. rewrite map_map. unfold face_of. cbn [fst]. induction h as [|c h IH]; [reflexivity|].
  cbn [map count_occ filter]. destruct (rank_dec (card_rank c) r); cbn [length]; rewrite IH; reflexivity.
Qed.
Lemma pair_drawn ev w r hand deck e : new_evaluator ev -> (1 <= w <= 5)%Z -> length hand = 5 ->
  Permutation (hand ++ deck) deck_generate -> evaluates ev hand e -> eval_class_of e = Pair r -> In r low_ranks ->
  drawn ev w (others r hand) hand deck (inject_Z w * (19 # 245))%Q.
Proof.
  intros Hev W L P E Ec Hr. destruct (deck_parts hand deck P) as (Nh & _ & Ah & _).
  assert (H5 : hand5 hand) by (split; [exact Ah|split; [exact Nh|exact L]]).
  pose proof (proj2 (class_correct ev hand e Hev H5 E (Pair r)) Ec) as C. cbn [classify] in C. destruct C as [C _].
  rewrite count_filter in C. destruct (others_positions r hand L) as [Ps A].
  pose proof (filter_parts (fun c => if rank_dec (card_rank c) r then true else false) hand) as Pf.
  cbv beta in Pf.
  assert (Ef : filter (fun x => negb (if rank_dec (card_rank x) r then true else false)) hand
    = filter (fun c => if rank_dec (card_rank c) r then false else true) hand).
  { apply filter_ext. intros c. destruct (rank_dec (card_rank c) r); reflexivity. }
  rewrite Ef in Pf. clear Ef.
  set (cs := filter (fun c => if rank_dec (card_rank c) r then false else true) hand) in *.
  set (ks := filter (fun c => if rank_dec (card_rank c) r then true else false) hand) in *.
  assert (Ik : forall c, In c ks -> In c hand /\ card_rank c = r).
  { intros c Hc. apply filter_In in Hc. destruct Hc as [H1 H2]. split; [exact H1|].
    destruct (rank_dec (card_rank c) r); [assumption|inversion H2]. }
  assert (Nk : NoDup ks) by apply NoDup_filter, Nh.
  assert (K : exists s1 s2, s1 <> s2 /\ ks = [card_new r s1; card_new r s2]).
  { clearbody ks. destruct ks as [|a [|b [|x ks]]]; try (cbn [length] in C; lia).
    destruct (Ik a (or_introl eq_refl)) as [Ha Ra]. destruct (Ik b (or_intror (or_introl eq_refl))) as [Hb Rb].
    unfold all_cards in Ah. rewrite Forall_forall in Ah.
    pose proof (a_card_eta a (Ah a Ha)) as Ea. pose proof (a_card_eta b (Ah b Hb)) as Eb. rewrite Ra in Ea. rewrite Rb in Eb.
    exists (card_suit a), (card_suit b). rewrite <- Ea, <- Eb. split; [|reflexivity]. intros X.
    inversion Nk as [|? ? N1 _]; subst. apply N1. left. rewrite Ea, Eb, X. reflexivity. }
  destruct K as (s1 & s2 & Hs & Ek).
  assert (L3 : length (others r hand) = 3).
  { rewrite <- (at_positions_length _ _ _ A). apply Permutation_length in Pf. rewrite app_length, L, C in Pf. lia. }
  apply (exchange_value ev w (others r hand) hand deck cs ks (filter (keep_out ks) deck_generate)); try assumption.
  - intros X. rewrite X in L3. cbn [length] in L3. lia.
  - apply rest_perm; [exact Nk|]. apply Forall_forall. intros c Hc. unfold all_cards in Ah. rewrite Forall_forall in Ah. apply Ah, Ik, Hc.
  - rewrite L3, Ek. exact (pair_average ev w r s1 s2 Hev W Hr Hs).
Qed.

Definition sensible_value (w : Z) : Q :=
  ((inject_Z (paid w) + inject_Z w * (19 # 245) * 760320 + stand_value w * 1302540) / 2598960)%Q.
Definition class_value (w : Z) (c : eval_class) : Q :=
  (inject_Z (pays w c) + inject_Z w * (19 # 245) * inject_Z (ind (low_pair c))
   + stand_value w * inject_Z (ind (of_category 0 c)))%Q.
Lemma sensible_cases w c hand : (1 <= w)%Z ->
  (sensible hand c = [] /\ class_value w c == inject_Z (net w c))%Q
  \/ (exists r, c = Pair r /\ In r low_ranks /\ sensible hand c = others r hand /\ class_value w c == inject_Z w * (19 # 245))%Q
  \/ (sensible hand c = [0; 1; 2; 3; 4]%Z /\ class_value w c == stand_value w)%Q.
Proof.
  intros W. rewrite (net_split_q w c W). unfold class_value. generalize (stand_value w) (inject_Z w). intros v u.
  destruct c as [r|r| | | | | | |r].
  - right. right. split; [reflexivity|]. change (pays w (HighCard r)) with 0%Z. change (ind (low_pair (HighCard r))) with 0%Z.
    change (ind (of_category 0 (HighCard r))) with 1%Z. change (inject_Z 0) with 0%Q. change (inject_Z 1) with 1%Q. ring.
  - change (ind (of_category 0 (Pair r))) with 0%Z. change (inject_Z 0) with 0%Q.
    destruct (high_pair (Pair r)) eqn:H.
    + left. assert (X : ind (low_pair (Pair r)) = 0%Z) by (unfold low_pair; rewrite H, andb_false_r; reflexivity).
      rewrite X. change (inject_Z 0) with 0%Q. split; [|ring]. destruct r; try discriminate H; reflexivity.
    + right. left. exists r. assert (X : ind (low_pair (Pair r)) = 1%Z) by (unfold low_pair; rewrite H; reflexivity).
      rewrite X. change (inject_Z 1) with 1%Q. split; [reflexivity|].
      assert (Y : pays w (Pair r) = 0%Z) by (destruct r; try discriminate H; reflexivity). rewrite Y. change (inject_Z 0) with 0%Q.
      split; [destruct r; try discriminate H; cbn; tauto|]. split; [destruct r; try discriminate H; reflexivity|ring].
  - left. split; [reflexivity|]. change (inject_Z (ind _)) with 0%Q. ring.
  - left. split; [reflexivity|]. change (inject_Z (ind _)) with 0%Q. ring.
  - left. split; [reflexivity|]. change (inject_Z (ind _)) with 0%Q. ring.
  - left. split; [reflexivity|]. change (inject_Z (ind _)) with 0%Q. ring.
  - left. split; [reflexivity|]. change (inject_Z (ind _)) with 0%Q. ring.
  - left. split; [reflexivity|]. change (inject_Z (ind _)) with 0%Q. ring.
  - left. split; [reflexivity|]. change (inject_Z (ind _)) with 0%Q. ring.
Qed.
Theorem sensible_round ev w l q : new_evaluator ev -> (1 <= w <= 5)%Z -> Permutation l deck_generate ->
  round_gain ev w sensible l q <-> (q == sensible_value w)%Q.
Proof.
  intros Hev W Pl.
  assert (T : round_gain ev w sensible l (sensible_value w)).
  { eapply (round_value ev w sensible l (class_value w)); [exact Hev|exact W|exact Pl| |].
    - intros hand deck e L P E.
      destruct (sensible_cases w (eval_class_of e) hand (proj1 W)) as [(-> & V)|[(r & Ec & Hr & -> & V)|(-> & V)]].
      + exact (gain_net ev w hand e _ W E V).
      + apply (drawn_eq _ _ _ _ _ _ _ (Qeq_sym _ _ V)). exact (pair_drawn ev w r hand deck e Hev W L P E Ec Hr).
      + apply (drawn_eq _ _ _ _ _ _ _ (Qeq_sym _ _ V)). exact (renew_drawn ev w hand deck Hev W L P).
    - eapply average_eq; [|exact (average_classes ev w (class_value w) _ _ Hev W (fun c => Qeq_refl _))]. reflexivity. }
  split; [intros H; exact (round_fun _ _ _ _ _ _ H T)|]. intros E. symmetry in E. exact (average_eq _ _ _ _ E T).
Qed.
Lemma stand_values w : (1 <= w <= 5)%Z ->
  (stand_value w == inject_Z w * (if (w =? 5)%Z then - (296839 # 649740) else - (297389 # 649740)))%Q.
Proof.
  intros W. assert (w = 1 \/ w = 2 \/ w = 3 \/ w = 4 \/ w = 5)%Z as [->|[->|[->|[->| ->]]]] by lia; reflexivity.
Qed.
Lemma sensible_values w : (1 <= w <= 5)%Z ->
  (sensible_value w == inject_Z w * (if (w =? 5)%Z then 72064151 # 551845840 else 71362901 # 551845840))%Q.
Proof.
  intros W. assert (w = 1 \/ w = 2 \/ w = 3 \/ w = 4 \/ w = 5)%Z as [->|[->|[->|[->| ->]]]] by lia; reflexivity.
Qed.

Theorem stand_gain ev w l q : new_evaluator ev -> (1 <= w <= 5)%Z -> Permutation l deck_generate ->
  round_gain ev w stand l q <-> (q == inject_Z w * (if (w =? 5)%Z then - (296839 # 649740) else - (297389 # 649740)))%Q.
Proof. intros Hev W Pl. rewrite <- (stand_values w W). exact (stand_round ev w l q Hev W Pl). Qed.
Theorem renew_gain ev w l q : new_evaluator ev -> (1 <= w <= 5)%Z -> Permutation l deck_generate ->
  round_gain ev w renew l q <-> round_gain ev w stand l q.
Proof. intros Hev W Pl. rewrite (stand_round ev w l q Hev W Pl). exact (renew_round ev w l q Hev W Pl). Qed.
Theorem pair_gain ev w r hand deck e q : new_evaluator ev -> (1 <= w <= 5)%Z -> length hand = 5 ->
  Permutation (hand ++ deck) deck_generate -> evaluates ev hand e -> eval_class_of e = Pair r -> pips r < 11 ->
  drawn ev w (others r hand) hand deck q <-> (q == inject_Z w * (19 # 245))%Q.
Proof.
  intros Hev W L P E Ec Hr. assert (Hl : In r low_ranks) by (destruct r; cbn in Hr; try lia; cbn; tauto).
  pose proof (pair_drawn ev w r hand deck e Hev W L P E Ec Hl) as T.
  split; [intros D; exact (drawn_fun _ _ _ _ _ _ _ D T)|]. intros Q. symmetry in Q. exact (drawn_eq _ _ _ _ _ _ _ Q T).
Qed.
Theorem sensible_gain ev w l q : new_evaluator ev -> (1 <= w <= 5)%Z -> Permutation l deck_generate ->
  round_gain ev w sensible l q <-> (q == inject_Z w * (if (w =? 5)%Z then 72064151 # 551845840 else 71362901 # 551845840))%Q.
Proof. intros Hev W Pl. rewrite <- (sensible_values w W). exact (sensible_round ev w l q Hev W Pl). Qed.
Theorem game_beaten ev w l : new_evaluator ev -> (1 <= w <= 5)%Z -> Permutation l deck_generate ->
  exists q, round_gain ev w sensible l q /\ (inject_Z w * (129 # 1000) < q)%Q.
Proof.
  intros Hev W Pl. eexists. split; [apply (sensible_gain ev w l _ Hev W Pl); reflexivity|].
  assert (w = 1 \/ w = 2 \/ w = 3 \/ w = 4 \/ w = 5)%Z as [->|[->|[->|[->| ->]]]] by lia; reflexivity.
Qed.
