(** ReadFacts.v: how often [evaluate] reads the tables, and at which keys. *)
From Coq Require Import Lia List Arith Bool Permutation ZArith.
From Verif Require Import Base BaseFacts ModelCard ModelEval ModelTable ModelEvaluation ModelThreads.
From Verif Require Import Spec SpecApi SpecTable SpecReads CardFacts Sweep SweepFacts SpecFacts FiveFacts.
From Verif Require Import CombosFacts EvaluateFacts HandFacts ThreadFacts TableFacts OddsFacts.
Import ListNotations.

Definition reads {A} e (p : proc A) := fst (call e p).

Lemma call_exec {A} e (p : proc A) : snd (call e p) = exec e p.
Proof. induction p as [o|t key k IH]; [reflexivity|]. cbn [call exec snd]. apply IH. Qed.
Lemma reads_pbind {A B} e (p : proc A) (k : A -> proc B) :
  reads e (pbind p k) = reads e p ++ match exec e p with Ret a => reads e (k a) | _ => [] end.
Proof.
  induction p as [[a|x|]|t key c IH]; try reflexivity.
  unfold reads in *. cbn [call pbind exec fst app]. rewrite IH. reflexivity.
Qed.

(** ** Five cards *)
Lemma shifted_bits h : all_cards h ->
  Z.shiftr (fold_left Z.lor (map unique_integer h) 0%Z) 16
  = fold_left Z.lor (map (fun r => Z.shiftl 1 (rank_as_i32 r)) (ranks (faces h))) 0%Z.
Proof.
  intros A. rewrite shiftr_fold_lor, map_map. change (Z.shiftr 0 16) with 0%Z.
  rewrite ranks_faces, map_map. f_equal. apply map_ext_in. intros d Hd.
  unfold all_cards in A. rewrite Forall_forall in A. destruct (A d Hd) as (r & s & ->).
  rewrite card_rank_new. apply card_bit.
Qed.
Lemma hand_product h : all_cards h -> prime_product_from_hand h
  = fold_left wrapping_mul_i32
      (map (fun r => Z.land (unique_integer (card_new r Clubs)) 255) (ranks (faces h))) 1%Z.
Proof.
  intros A. unfold prime_product_from_hand. rewrite ranks_faces, map_map. f_equal. apply map_ext_in.
  intros d Hd. unfold all_cards in A. rewrite Forall_forall in A. destruct (A d Hd) as (r & s & ->).
  rewrite card_rank_new. apply card_prime.
Qed.
Lemma five_reads e h : hand5 h -> exists r, reads e (five_proc h) = [r] /\ read_for h r.
Proof.
  intros H. pose proof (hand5_faces h H) as F. destruct H as (A & N & L).
  destruct (canon_exists _ F) as (c & Hc & P & Sf). pose proof (key_of c Hc) as K.
  pose proof (product_perm _ _ P) as Q.
  assert (NE : h <> []) by (intros ->; discriminate L).
  pose proof (detect_flush_spec h A NE) as D. unfold five_proc.
  destruct (negb (Z.eqb (fold_left Z.land (map unique_integer h) 61440%Z) 0)).
  - assert (T : fst c = true) by (apply Sf, D; reflexivity). unfold canon_key in K. rewrite T in K.
    exists (FlushTable, product (ranks (faces h))). split.
    + rewrite (shifted_bits h A), (lor_perm _ _ 0%Z (Permutation_map (fun r => Z.shiftl 1 (rank_as_i32 r)) P)).
      unfold lift. rewrite K. cbn [pbind]. rewrite reads_pbind.
      rewrite <- Q. unfold reads, read_key. cbn [call exec fst].
      destruct (read_table e FlushTable _); reflexivity.
    + split; [|reflexivity]. cbn [fst]. split; intros _; [apply D; reflexivity|reflexivity].
  - assert (T : fst c = false).
    { destruct (fst c); [|reflexivity]. assert (X : false = true) by (apply D, Sf; reflexivity).
      discriminate X. }
    unfold canon_key in K. rewrite T in K. injection K as K.
    exists (UnsuitedTable, product (ranks (faces h))). split.
    + rewrite (hand_product h A), (mul_perm _ _ 1%Z
        (Permutation_map (fun r => Z.land (unique_integer (card_new r Clubs)) 255) P)), K, <- Q.
      rewrite reads_pbind. unfold reads, read_key. cbn [call exec fst].
      destruct (read_table e UnsuitedTable _); reflexivity.
    + split; [|reflexivity]. cbn [fst]. split; intros X; [discriminate X|].
      apply D in X. discriminate X.
Qed.

(** ** The loop *)
Section Traced.
  Variables (T St : Type) (e : evaluator) (body : St -> list T -> proc St) (rd : list T -> list (table_id * Z)).
  Hypothesis Hrd : forall s x, reads e (body s x) = rd x.
  Definition traced (st : St * list (table_id * Z)) (x : list T) : outcome (St * list (table_id * Z)) :=
    let! s' := exec e (body (fst st) x) in Ret (s', snd st ++ rd x).
  Lemma for_reads : forall fuel (c : combinations T) s tr s' tr',
    for_combinations fuel c traced (s, tr) = Ret (s', tr') ->
    tr' = tr ++ reads e (for_combinations_proc fuel c body s).
  Proof.
    induction fuel as [|fuel IH]; intros c s tr s' tr' H; [discriminate H|].
    cbn [for_combinations for_combinations_proc] in *. unfold lift.
    destruct (combinations_next c) as [[[x|] c']| |]; cbn [bind pbind] in *; try discriminate H.
    - rewrite reads_pbind, Hrd. unfold traced at 1 in H. cbn [fst snd] in H.
      destruct (exec e (body s x)) as [s1| |]; cbn [bind] in H; try discriminate H.
      apply IH in H. rewrite H, app_assoc. reflexivity.
    - injection H as <- <-. unfold reads. cbn [call fst]. rewrite app_nil_r. reflexivity.
  Qed.
  Lemma fold_traced : forall L s tr, (forall s x, In x L -> exists s', exec e (body s x) = Ret s') ->
    exists s', foldM traced L (s, tr) = Ret (s', tr ++ concat (map rd L)).
  Proof.
    induction L as [|x L IH]; intros s tr H.
    - exists s. cbn. rewrite app_nil_r. reflexivity.
    - destruct (H s x (or_introl eq_refl)) as (s1 & E).
      destruct (IH s1 (tr ++ rd x) (fun s y Hy => H s y (or_intror Hy))) as (s2 & E2).
      exists s2. cbn [foldM map concat]. unfold traced at 1. cbn [fst snd]. rewrite E. cbn [bind].
      rewrite E2, app_assoc. reflexivity.
  Qed.
End Traced.

(** ** Any number of cards *)
Lemma hand5_combs h F : all_cards h -> NoDup h -> In F (combs 5 h) -> hand5 F.
Proof.
  intros A N H. destruct (proj1 (combs_sublist h 5 F) H) as [S L]. split; [|split].
  - unfold all_cards in *. rewrite Forall_forall in *. intros c Hc. apply A.
    exact (sublist_incl _ _ S c Hc).
  - exact (sublist_NoDup _ _ S N).
  - exact L.
Qed.
Lemma six_reads ev h : new_evaluator ev -> legal h -> 5 < length h ->
  reads ev (six_plus_proc h) = concat (map (fun F => reads ev (five_proc F)) (combs 5 h)).
Proof.
  intros Hev (A & N & L) G. unfold six_plus_proc. rewrite (proj2 (Nat.ltb_lt _ _) G). cbn [negb].
  set (body := fun current_max combo => pbind (five_proc combo) (fun score =>
     Done (Ret (if op_gt (eval_partial_cmp score current_max) then score else current_max)))).
  assert (Hrd : forall s x, reads ev (body s x) = reads ev (five_proc x)).
  { intros s x. unfold body. rewrite reads_pbind. destruct (exec ev (five_proc x));
      unfold reads; cbn [call fst]; apply app_nil_r. }
  destruct (fold_traced _ _ ev body (fun F => reads ev (five_proc F)) (combs 5 h) EVAL_WORST [])
    as (s' & E).
  { intros s x Hx. unfold body. rewrite exec_pbind, exec_five.
    destruct (evaluator_new_inv ev Hev) as (t & Ht & ->).
    destruct (five_spec t x Ht (hand5_combs h x A N Hx)) as (c & m & _ & _ & _ & _ & Em & _).
    unfold ev_of in Em. rewrite Em. cbn [bind exec]. eexists. reflexivity. }
  rewrite <- (for_const_combos_spec 5 h) in E by lia. unfold for_const_combos in E.
  apply (for_reads _ _ ev body _ Hrd) in E. symmetry. exact E.
Qed.

Lemma one_each e L : (forall F, In F L -> hand5 F) ->
  Forall2 read_for L (concat (map (fun F => reads e (five_proc F)) L)).
Proof.
  induction L as [|F L IH]; intros H; [constructor|]. cbn [map concat].
  destruct (five_reads e F (H F (or_introl eq_refl))) as (r & E & R). rewrite E. cbn [app].
  constructor; [exact R|]. apply IH. intros G HG. apply H. right. exact HG.
Qed.

Lemma all_unique_NoDup h : all_cards h -> NoDup h -> all_unique h = Ret true.
Proof. intros A N. destruct (all_unique_spec h A) as (b & -> & B). f_equal. apply B, N. Qed.
Lemma all_unique_dup h : all_cards h -> ~ NoDup h -> all_unique h = Ret false.
Proof.
  intros A N. destruct (all_unique_spec h A) as ([|] & -> & B); [|reflexivity].
  exfalso. apply N, B. reflexivity.
Qed.
Lemma combs_all {T} (l : list T) : forall n, length l = n -> combs n l = [l].
Proof.
  induction l as [|x l IH]; intros [|n] H; try discriminate H; [reflexivity|]. cbn in H. cbn [combs].
  rewrite (IH n) by lia. rewrite combs_empty by lia. reflexivity.
Qed.
Lemma evaluate_reads ev h : new_evaluator ev -> legal h ->
  reads ev (evaluate_proc h) = concat (map (fun F => reads ev (five_proc F)) (combs 5 h)).
Proof.
  intros Hev Lg. pose proof Lg as (A & N & L). unfold evaluate_proc, lift. rewrite reads_pbind.
  cbn [exec]. unfold reads at 1. cbn [call fst app].
  rewrite (all_unique_NoDup h A N). rewrite (proj2 (Nat.ltb_ge _ _) L).
  destruct (Nat.eqb_spec (length h) 5) as [L5|L5].
  - rewrite reads_pbind. rewrite (combs_all h 5 L5). cbn [map concat]. f_equal.
    destruct (exec ev (five_proc h)); reflexivity.
  - rewrite reads_pbind, (six_reads ev h Hev Lg) by lia.
    rewrite <- (app_nil_r (concat _)) at 2. f_equal.
    destruct (exec ev (six_plus_proc h)); reflexivity.
Qed.

Theorem reads_rejected e h : all_cards h -> ~ NoDup h \/ length h < 5 ->
  call e (evaluate_proc h) = ([], evaluate e h).
Proof.
  intros A H. rewrite (surjective_pairing (call e (evaluate_proc h))), call_exec, exec_evaluate. f_equal.
  change (reads e (evaluate_proc h) = []). unfold evaluate_proc, lift. rewrite reads_pbind.
  unfold reads at 1. cbn [call fst app exec].
  destruct (NoDup_card_dec h) as [N|N].
  - rewrite (all_unique_NoDup h A N). destruct H as [H|H]; [contradiction|].
    rewrite (proj2 (Nat.ltb_lt _ _) H). reflexivity.
  - rewrite (all_unique_dup h A N). reflexivity.
Qed.

(** ** How many five-card selections there are *)
Open Scope Z_scope.
Lemma binom_S n k : binom (S n) (S k) = (binom n k + binom n (S k))%nat.
Proof. reflexivity. Qed.
Lemma binom1 n : Z.of_nat (binom n 1) = Z.of_nat n.
Proof. induction n as [|n IH]; [reflexivity|]. rewrite binom_S, Nat2Z.inj_add, IH. destruct n; cbn [binom]; lia. Qed.
Ltac next prev := let n := fresh "n" in let IH := fresh "IH" in
  intros n; induction n as [|n IH]; [reflexivity|];
  rewrite binom_S, Nat2Z.inj_add, Z.mul_add_distr_l, IH; pose proof (prev n) as P; rewrite Nat2Z.inj_succ; nia.
Lemma binom2 : forall n, 2 * Z.of_nat (binom n 2) = Z.of_nat n * (Z.of_nat n - 1).
Proof. next binom1. Qed.
Lemma binom3 : forall n, 6 * Z.of_nat (binom n 3) = Z.of_nat n * (Z.of_nat n - 1) * (Z.of_nat n - 2).
Proof. next binom2. Qed.
Lemma binom4 : forall n, 24 * Z.of_nat (binom n 4)
  = Z.of_nat n * (Z.of_nat n - 1) * (Z.of_nat n - 2) * (Z.of_nat n - 3).
Proof. next binom3. Qed.
Lemma binom5 : forall n, 120 * Z.of_nat (binom n 5)
  = Z.of_nat n * (Z.of_nat n - 1) * (Z.of_nat n - 2) * (Z.of_nat n - 3) * (Z.of_nat n - 4).
Proof. next binom4. Qed.
Close Scope Z_scope.

Theorem reads_accepted ev h : new_evaluator ev -> legal h -> exists L l,
  call ev (evaluate_proc h) = (l, evaluate ev h)
  /\ NoDup L /\ (forall F, In F L <-> sublist F h /\ length F = 5)
  /\ Forall2 read_for L l.
Proof.
  intros Hev Lg. exists (combs 5 h), (reads ev (evaluate_proc h)). split; [|split; [|split]].
  - rewrite (surjective_pairing (call ev (evaluate_proc h))), call_exec, exec_evaluate. reflexivity.
  - apply combs_NoDup. apply Lg.
  - intros F. apply combs_sublist.
  - rewrite (evaluate_reads ev h Hev Lg). apply one_each. intros F HF.
    apply (hand5_combs h F); [apply Lg|apply Lg|exact HF].
Qed.
Lemma Forall2_length {A B} (R : A -> B -> Prop) l l' : Forall2 R l l' -> length l = length l'.
Proof. induction 1; cbn; congruence. Qed.
Theorem reads_number ev h : new_evaluator ev -> legal h ->
  let n := Z.of_nat (length h) in
  (120 * Z.of_nat (length (fst (call ev (evaluate_proc h)))) = n * (n - 1) * (n - 2) * (n - 3) * (n - 4))%Z.
Proof.
  intros Hev Lg n. fold (reads ev (evaluate_proc h)). rewrite (evaluate_reads ev h Hev Lg).
  rewrite <- (Forall2_length _ _ _ (one_each ev (combs 5 h) (fun F HF =>
    hand5_combs h F (proj1 Lg) (proj1 (proj2 Lg)) HF))).
  rewrite combs_binom. apply binom5.
Qed.
