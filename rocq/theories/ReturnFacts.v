(** ReturnFacts.v: what jacks-or-better pays, over all deals, to a player who keeps every hand. *)
From Coq Require Import Lia List Arith Bool Permutation ZArith.
From Verif Require Import Base BaseFacts ModelCard ModelEval ModelTable ModelEvaluation ModelExamples.
From Verif Require Import Spec SpecApi SpecExamples CardFacts Sweep CombosFacts HandFacts DeckFacts OddsFacts JacksFacts.
Import ListNotations.
Open Scope Z_scope.

(** Classes by the multiple they pay. *)
Definition high_pair (c : eval_class) : bool :=
  match c with Pair r => Nat.leb 11 (pips r) | _ => false end.
Definition low_straight_flush (c : eval_class) : bool := of_category 8 c && negb (royal_class c).
Lemma high_pairs_ok : total_is class_weights high_pair 337920 && total_is class_weights low_straight_flush 36 = true.
Proof. vm_compute. reflexivity. Qed.

Definition ind (b : bool) : Z := if b then 1 else 0.
Lemma count_ind {A} (P : A -> bool) l : Z.of_nat (length (filter P l)) = fold_right Z.add 0 (map (fun a => ind (P a)) l).
Proof.
  induction l as [|a l IH]; [reflexivity|]. cbn [filter map fold_right]. rewrite <- IH.
  destruct (P a); cbn [length ind]; lia.
Qed.
Lemma sum_add {A} (f g : A -> Z) l : fold_right Z.add 0 (map (fun a => f a + g a) l)
  = fold_right Z.add 0 (map f l) + fold_right Z.add 0 (map g l).
Proof. induction l as [|a l IH]; [reflexivity|]. cbn [map fold_right]. rewrite IH. lia. Qed.
Lemma sum_mul {A} k (f : A -> Z) l : fold_right Z.add 0 (map (fun a => k * f a) l) = k * fold_right Z.add 0 (map f l).
Proof. induction l as [|a l IH]; [cbn; lia|]. cbn [map fold_right]. rewrite IH. lia. Qed.
Lemma sum_ext {A} (f g : A -> Z) l : (forall a, In a l -> f a = g a) ->
  fold_right Z.add 0 (map f l) = fold_right Z.add 0 (map g l).
Proof. intros H. f_equal. apply map_ext_in, H. Qed.

Lemma pays_split w c : pays w c = w * ind (high_pair c) + 2 * w * ind (of_category 2 c) + 3 * w * ind (of_category 3 c)
  + 4 * w * ind (of_category 4 c) + 6 * w * ind (of_category 5 c) + 9 * w * ind (of_category 6 c)
  + 25 * w * ind (of_category 7 c) + 50 * w * ind (low_straight_flush c)
  + (if w =? 5 then 4000 else 250 * w) * ind (royal_class c).
Proof.
  unfold pays, ind. destruct c as [r|r| | | | | | |r]; unfold low_straight_flush, high_pair, of_category; cbn [category Nat.eqb chart andb negb royal_class].
  2: destruct (Nat.leb 11 (pips r)). all: try (destruct (w =? 5); cbv beta iota; lia).
  destruct r; cbv beta iota delta [negb andb]; destruct (w =? 5); lia.
Qed.
Lemma pays_zero w c : 1 <= w -> (pays w c =? 0) = negb (high_pair c || Nat.leb 2 (category c)).
Proof.
  intros W. assert (X : forall b, 0 < b -> (b =? 0) = false) by (intros b B; apply Z.eqb_neq; lia).
  unfold pays. destruct c as [r|r| | | | | | |r]; cbn [chart category high_pair].
  2: destruct (Nat.leb 11 (pips r)). all: cbn [Nat.leb orb negb].
  all: try (apply X; lia); try (apply Z.eqb_eq; lia).
  destruct r; try (apply X; lia). destruct (w =? 5); apply X; lia.
Qed.

Theorem keep_return ev w : new_evaluator ev -> 1 <= w <= 5 -> exists L es ps,
  NoDup L
  /\ (forall h, In h L <-> sublist h deck_generate /\ length h = 5%nat)
  /\ Forall2 (evaluates ev) L es
  /\ Forall2 (fun e p => payout w (eval_class_of e) = Ret p) es ps
  /\ Z.of_nat (length ps) = 2598960
  /\ Z.of_nat (length (filter (fun p => p =? 0) ps)) = 2062860
  /\ fold_right Z.add 0 ps = 872304 * w + 4 * (if w =? 5 then 4000 else 250 * w).
Proof.
  intros Hev W.
  destruct (results_exist ev five_card_choices) as [es F].
  { intros h H. rewrite five_card_choices_map in H. apply in_map_iff in H. destruct H as (x & <- & H).
    destruct (evaluate_spec ev (map card_of x) Hev (hand5_legal _ (choices_hand5 x H))) as (e & E & _).
    exists e. exact E. }
  pose proof F as F'. rewrite five_card_choices_map in F'.
  assert (R : forall P z, total_is class_weights P z = true ->
    fold_right Z.add 0 (map (fun e => ind (P (eval_class_of e))) es) = z).
  { intros P z B. rewrite <- (count_ind (fun e => P (eval_class_of e))).
    rewrite (results_count ev choices es _ P Hev F' (fun _ H => H) (fun _ e _ _ => eq_refl)).
    apply total_count. exact B. }
  pose proof totals_ok as T. cbv zeta in T.
  apply andb_true_iff in T. destruct T as [T A11]. apply andb_true_iff in T. destruct T as [T A10].
  apply andb_true_iff in T. destruct T as [T A9]. apply andb_true_iff in T. destruct T as [T A8].
  apply andb_true_iff in T. destruct T as [T A7]. apply andb_true_iff in T. destruct T as [T A6].
  apply andb_true_iff in T. destruct T as [T A5]. apply andb_true_iff in T. destruct T as [T A4].
  apply andb_true_iff in T. destruct T as [T A3]. apply andb_true_iff in T. destruct T as [A1 A2].
  pose proof high_pairs_ok as T. apply andb_true_iff in T. destruct T as [B1 B2].
  apply R in A1, A2, A3, A4, A5, A6, A7, A10, A11, B1, B2.
  exists five_card_choices, es, (map (fun e => pays w (eval_class_of e)) es).
  split; [exact (combs_NoDup _ deck_NoDup 5)|]. split; [exact (combs_sublist deck_generate 5)|]. split; [exact F|].
  split.
  { clear -W. induction es as [|e es IH]; cbn [map]; constructor; [|exact IH]. apply payout_pays. exact W. }
  split.
  { rewrite map_length. rewrite <- A11. clear. induction es as [|e es IH]; [reflexivity|].
    cbn [length map fold_right]. rewrite <- IH. change (ind true) with 1. lia. }
  split.
  { rewrite count_ind, map_map.
    rewrite (sum_ext _ (fun e => ind true + -1 * (ind (high_pair (eval_class_of e)) + ind (of_category 2 (eval_class_of e))
      + ind (of_category 3 (eval_class_of e)) + ind (of_category 4 (eval_class_of e)) + ind (of_category 5 (eval_class_of e))
      + ind (of_category 6 (eval_class_of e)) + ind (of_category 7 (eval_class_of e)) + ind (of_category 8 (eval_class_of e))))).
    - rewrite sum_add, sum_mul, !sum_add, A1, A2, A3, A4, A5, A6, A7, A11, B1. reflexivity.
    - intros e _. rewrite pays_zero by lia. unfold of_category.
      destruct (eval_class_of e) as [r|r| | | | | | |r]; cbn [category high_pair Nat.eqb];
        try destruct (Nat.leb 11 (pips r)); reflexivity. }
  rewrite (sum_ext _ _ es (fun e _ => pays_split w (eval_class_of e))).
  rewrite !sum_add, !sum_mul, A2, A3, A4, A5, A6, A7, A10, B1, B2. lia.
Qed.
