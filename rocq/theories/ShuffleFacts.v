(** ShuffleFacts.v: every order of the deck comes from exactly one list of random answers. *)
From Coq Require Import Lia List Arith Permutation.
From Verif Require Import Base ModelCard ModelEval ModelTable ModelEvaluation Spec SpecApi DeckFacts.
Import ListNotations.

Lemma swap_step {A} (P Q : list A) i j : length P = S i -> j <= i ->
  exists x P1, nth_error P j = Some x /\ swap (P ++ Q) i j = Ret (P1 ++ x :: Q) /\ length P1 = i
    /\ Permutation P (P1 ++ [x]).
Proof.
  intros L H. destruct (nth_split_last P i j L H) as [(-> & P1 & x & -> & L1)|(l1 & x & l2 & y & -> & L1 & E)].
  - exists x, P1. split; [rewrite nth_error_app2, L1, Nat.sub_diag by lia; reflexivity|].
    split; [|split; [exact L1|apply Permutation_refl]].
    rewrite <- app_assoc. cbn [app]. rewrite <- L1. apply swap_same.
  - exists x, (l1 ++ y :: l2). split; [rewrite nth_error_app2, L1, Nat.sub_diag by lia; reflexivity|].
    split; [|split].
    + rewrite E, <- L1. rewrite <- app_assoc. cbn [app]. rewrite <- app_assoc. cbn [app].
      rewrite swap_split. rewrite <- app_assoc. reflexivity.
    + rewrite app_length. simpl. lia.
    + rewrite <- app_assoc. apply Permutation_app_head. cbn [app].
      change (x :: l2 ++ [y]) with ((x :: l2) ++ [y]). change (y :: l2 ++ [x]) with ((y :: l2) ++ [x]).
      rewrite <- (Permutation_cons_append (x :: l2) y), <- (Permutation_cons_append (y :: l2) x).
      apply perm_swap.
Qed.

Lemma script_shuffles {A} : forall i (P Q : list A) js, length P = S i -> answers (S i) js ->
  exists P', shuffle_from script i (P ++ Q) js = Ret (P' ++ Q, []) /\ Permutation P P'.
Proof.
  induction i as [|i IH]; intros P Q js L V.
  - simpl in V. subst js. exists P. split; [reflexivity|apply Permutation_refl].
  - destruct js as [|j js]; [destruct V|]. destruct V as [Hj V].
    destruct (swap_step P Q (S i) j L ltac:(lia)) as (x & P1 & _ & E & L1 & Pm).
    cbn [shuffle_from script]. rewrite E. cbn [bind].
    destruct (IH P1 (x :: Q) js L1 V) as (P' & E' & Pm').
    rewrite E'. exists (P' ++ [x]). rewrite <- app_assoc. split; [reflexivity|].
    rewrite Pm. apply Permutation_app_tail, Pm'.
Qed.

Lemma script_reaches {A} : forall i (P P' Q : list A), length P = S i -> Permutation P P' ->
  exists js, answers (S i) js /\ shuffle_from script i (P ++ Q) js = Ret (P' ++ Q, []).
Proof.
  induction i as [|i IH]; intros P P' Q L Pm.
  - exists []. split; [reflexivity|]. destruct P as [|x [|y P]]; try discriminate L.
    apply Permutation_length_1_inv in Pm. subst P'. reflexivity.
  - destruct (exists_last (l := P')) as (P2 & x & ->).
    { intros ->. apply Permutation_sym, Permutation_nil in Pm. subst P. discriminate L. }
    assert (Hx : In x P).
    { eapply Permutation_in; [symmetry; exact Pm|]. apply in_app_iff. right. left. reflexivity. }
    apply In_nth_error in Hx. destruct Hx as [j Hj].
    assert (Hji : j <= S i).
    { assert (j < length P) by (apply nth_error_Some; congruence). lia. }
    destruct (swap_step P Q (S i) j L Hji) as (x' & P1 & N & E & L1 & Pm1).
    assert (x' = x) as -> by congruence.
    assert (Pm2 : Permutation P1 P2) by (apply (Permutation_app_inv_r [x]); rewrite <- Pm1; exact Pm).
    destruct (IH P1 P2 (x :: Q) L1 Pm2) as (js & V & Ejs).
    exists (j :: js). split; [split; [lia|exact V]|].
    cbn [shuffle_from script]. rewrite E. cbn [bind]. rewrite Ejs, <- app_assoc. reflexivity.
Qed.

Lemma script_injective {A} : forall i (P Q R : list A) js1 js2, NoDup P -> length P = S i ->
  answers (S i) js1 -> answers (S i) js2 ->
  shuffle_from script i (P ++ Q) js1 = Ret (R, []) -> shuffle_from script i (P ++ Q) js2 = Ret (R, []) ->
  js1 = js2.
Proof.
  induction i as [|i IH]; intros P Q R js1 js2 N L V1 V2 E1 E2.
  - simpl in V1, V2. congruence.
  - destruct js1 as [|j1 js1]; [destruct V1|]. destruct V1 as [H1 V1].
    destruct js2 as [|j2 js2]; [destruct V2|]. destruct V2 as [H2 V2].
    cbn [shuffle_from script] in E1, E2.
    destruct (swap_step P Q (S i) j1 L ltac:(lia)) as (x1 & P1 & N1 & S1 & L1 & Pm1).
    destruct (swap_step P Q (S i) j2 L ltac:(lia)) as (x2 & P2 & N2 & S2 & L2 & Pm2).
    rewrite S1 in E1. rewrite S2 in E2. cbn [bind] in E1, E2.
    destruct (script_shuffles i P1 (x1 :: Q) js1 L1 V1) as (Q1 & F1 & K1).
    destruct (script_shuffles i P2 (x2 :: Q) js2 L2 V2) as (Q2 & F2 & K2).
    assert (X : Q1 ++ x1 :: Q = Q2 ++ x2 :: Q) by congruence.
    assert (LQ : length Q1 = length Q2).
    { rewrite <- (Permutation_length K1), <- (Permutation_length K2). lia. }
    assert (x1 = x2).
    { assert (Y : nth_error (Q1 ++ x1 :: Q) (length Q1) = nth_error (Q2 ++ x2 :: Q) (length Q1)) by congruence.
      rewrite nth_error_app2, Nat.sub_diag in Y by lia. rewrite LQ, nth_error_app2, Nat.sub_diag in Y by lia.
      simpl in Y. congruence. }
    subst x2.
    assert (j1 = j2).
    { rewrite NoDup_nth_error in N. apply N; [lia|congruence]. }
    subst j2. f_equal. assert (P1 ++ x1 :: Q = P2 ++ x1 :: Q) by congruence.
    apply app_inv_tail in H. subst P2.
    apply (IH P1 (x1 :: Q) R js1 js2); try assumption.
    apply (Permutation_NoDup Pm1) in N. apply NoDup_remove_1 in N. rewrite app_nil_r in N. exact N.
Qed.

Lemma bounds_from {A R} (gen : R -> nat -> nat * R) : forall i (l l' : list A) r bs r' bs',
  shuffle_from (recording gen) i l (r, bs) = Ret (l', (r', bs')) ->
  bs' = bs ++ rev (seq 2 i).
Proof.
  induction i as [|i IH]; intros l l' r bs r' bs' H.
  - cbn in H. injection H as <- <- <-. symmetry. apply app_nil_r.
  - cbn [shuffle_from] in H. unfold recording at 1 in H. cbn [fst snd] in H.
    destruct (gen r (S (S i))) as [j r1]. destruct (swap l (S i) j) as [l1| |]; cbn [bind] in H; try discriminate H.
    apply IH in H. rewrite H, <- app_assoc. f_equal. rewrite seq_S, rev_app_distr. reflexivity.
Qed.
Theorem bounds_asked {R} (gen : R -> nat -> nat * R) rng :
  (forall rng n, 0 < n -> fst (gen rng n) < n) ->
  exists d rng', shuffled_with (recording gen) (rng, []) = Ret (d, (rng', rev (seq 2 51)))
    /\ Permutation deck_generate d.
Proof.
  intros G. destruct (shuffle_perm (recording gen) deck_generate (rng, [])) as (d & (r' & bs) & E & Pm).
  { intros [r bs] n H. unfold recording. cbn [fst snd]. pose proof (G r n H). destruct (gen r n). exact H0. }
  exists d, r'. split; [|exact Pm]. unfold shuffled_with. rewrite E.
  unfold shuffle in E. apply bounds_from in E. rewrite E. reflexivity.
Qed.

Theorem shuffle_fair d : Permutation deck_generate d ->
  exists! js, answers 52 js /\ shuffled_with script js = Ret (d, []).
Proof.
  intros Pm.
  destruct (script_reaches 51 deck_generate d [] (eq_refl) Pm) as (js & V & E). rewrite !app_nil_r in E.
  exists js. split; [split; [exact V|exact E]|].
  intros js' (V' & E'). rewrite <- (app_nil_r deck_generate) in E.
  unfold shuffled_with in E'. rewrite <- (app_nil_r deck_generate) in E'.
  exact (script_injective 51 deck_generate [] d js js' deck_NoDup eq_refl V V' E E').
Qed.
Theorem shuffle_scripted js : answers 52 js ->
  exists d, shuffled_with script js = Ret (d, []) /\ Permutation deck_generate d.
Proof.
  intros V. destruct (script_shuffles 51 deck_generate [] js eq_refl V) as (d & E & Pm).
  rewrite !app_nil_r in E. exists d. split; [exact E|exact Pm].
Qed.
