(** EqFacts.v: [==] on evaluators, and taking parsed cards from both ends. *)
From Coq Require Import Lia List Arith Bool Permutation FSets.FMapPositive.
From Verif Require Import Base BaseFacts ModelCard ModelEval ModelTable ModelEvaluation.
From Verif Require Import Spec SpecApi SpecText CardFacts SpecFacts EvalFacts HandFacts TextFacts LawFacts.
Import ListNotations.

(** ** Equality of maps *)
Lemma map_eqb_test a b : map_eqb meta_eqb a b = true -> table_test b a.
Proof.
  unfold map_eqb. rewrite andb_true_iff, Nat.eqb_eq, forallb_forall. intros (L & F). split; [|congruence].
  intros k v G. specialize (F (zkey k, v) (PositiveMap.elements_correct _ _ G)). cbn [fst snd] in F.
  unfold map_get. destruct (PositiveMap.find (zkey k) b) as [w|]; [|discriminate F].
  exists w. split; [reflexivity|]. unfold meta_eqb, phr_eqb in *. rewrite Z.eqb_eq in *. congruence.
Qed.
Lemma rel_map_eqb a b :
  (forall k, rel_opt (fun x y => meta_eqb x y = true) (map_get a k) (map_get b k)) ->
  map_eqb meta_eqb a b = true.
Proof.
  intros R. unfold map_eqb. apply andb_true_iff. split.
  - apply Nat.eqb_eq. rewrite <- !map_keys_length. apply Permutation_length.
    apply NoDup_Permutation; [apply map_keys_NoDup|apply map_keys_NoDup|].
    intros p. destruct (zkey_surj p) as (k & <-). rewrite !map_keys_in. specialize (R k).
    destruct (map_get a k), (map_get b k); simpl in R; try contradiction; intuition congruence.
  - apply forallb_forall. intros (p, v) I. cbn [fst snd]. apply PositiveMap.elements_complete in I.
    destruct (zkey_surj p) as (k & <-). specialize (R k). unfold map_get in R.
    rewrite I in R. destruct (PositiveMap.find (zkey k) b) as [w|]; simpl in R; [exact R|contradiction].
Qed.
Lemma map_eqb_rel a b : map_eqb meta_eqb a b = true <->
  forall k, rel_opt (fun x y => meta_eqb x y = true) (map_get a k) (map_get b k).
Proof. split; [|apply rel_map_eqb]. intros Q. exact (table_test_rel b a (map_eqb_test a b Q)). Qed.

Lemma meta_eqb_iff a b : meta_eqb a b = true <-> phr (meta_hand_rank a) = phr (meta_hand_rank b).
Proof. unfold meta_eqb, phr_eqb. apply Z.eqb_eq. Qed.

Lemma map_eqb_refl a : map_eqb meta_eqb a a = true.
Proof.
  apply rel_map_eqb. intros k. destruct (map_get a k); simpl; [apply meta_eqb_iff; reflexivity|exact I].
Qed.
Lemma map_eqb_sym a b : map_eqb meta_eqb a b = map_eqb meta_eqb b a.
Proof.
  apply eq_true_iff_eq. rewrite !map_eqb_rel. split; intros R k; specialize (R k);
    destruct (map_get a k), (map_get b k); simpl in *; try contradiction; try exact I;
    rewrite meta_eqb_iff in *; congruence.
Qed.
Lemma map_eqb_trans a b c : map_eqb meta_eqb a b = true -> map_eqb meta_eqb b c = true ->
  map_eqb meta_eqb a c = true.
Proof.
  rewrite !map_eqb_rel. intros R S k. specialize (R k). specialize (S k).
  destruct (map_get a k), (map_get b k), (map_get c k); simpl in *; try contradiction; try exact I;
    rewrite meta_eqb_iff in *; congruence.
Qed.

Theorem evaluator_eq_laws (a b c : evaluator) :
  evaluator_eqb a a = true /\ evaluator_eqb a b = evaluator_eqb b a
  /\ (evaluator_eqb a b = true -> evaluator_eqb b c = true -> evaluator_eqb a c = true)
  /\ evaluator_eqb a (evaluator_clone a) = true.
Proof.
  unfold evaluator_eqb, lookup_table_eqb, evaluator_clone. cbn [evaluator_table].
  rewrite !map_eqb_refl. split; [reflexivity|]. split; [|split; [|reflexivity]].
  - f_equal; apply map_eqb_sym.
  - rewrite !andb_true_iff. intros (F1 & U1) (F2 & U2).
    split; [exact (map_eqb_trans _ _ _ F1 F2)|exact (map_eqb_trans _ _ _ U1 U2)].
Qed.

Theorem equal_evaluators_agree (a b : evaluator) : evaluator_eqb a b = true ->
  forall h, same_verdict (evaluate a h) (evaluate b h).
Proof.
  unfold evaluator_eqb, lookup_table_eqb. rewrite andb_true_iff. intros (F & U) h.
  exact (static_verdict (flush_lookup (evaluator_table a)) (unsuited_lookup (evaluator_table a)) b
    (map_eqb_test _ _ F) (map_eqb_test _ _ U) h).
Qed.

Theorem built_equal (a b : evaluator) : built a -> built b -> evaluator_eqb a b = true.
Proof.
  intros A B. apply built_new_evaluator in A. apply built_new_evaluator in B.
  assert (a = b) as -> by (unfold new_evaluator in *; congruence). apply (evaluator_eq_laws b b b).
Qed.
Theorem built_not_default (a : evaluator) : built a -> evaluator_eqb a evaluator_default = false.
Proof.
  intros A. destruct (evaluator_eqb a evaluator_default) eqn:Q; [|reflexivity]. exfalso.
  apply built_new_evaluator in A. pose proof (hand5_legal _ (royal_hand5 Clubs)) as L.
  destruct (evaluate_spec a (royal Clubs) A L) as (e & E & _).
  pose proof (equal_evaluators_agree _ _ Q (royal Clubs)) as V. unfold evaluates in E. rewrite E in V.
  rewrite (default_panics _ L) in V. discriminate V.
Qed.

(** ** Both ends *)
Lemma takes_spec it fs bs it' : takes it fs bs it' ->
  map card_from_str (pi_rest it) = fs ++ map card_from_str (pi_rest it') ++ rev bs.
Proof.
  induction 1 as [it|it r it1 fs bs it2 N T IH|it r it1 fs bs it2 N T IH].
  - simpl. rewrite app_nil_r. reflexivity.
  - unfold pi_next in N. destruct (pi_rest it) as [|s l] eqn:E; [discriminate N|].
    injection N as <- <-. cbn [pi_rest] in IH. cbn [map app]. rewrite IH. reflexivity.
  - unfold pi_next_back in N. destruct (rev (pi_rest it)) as [|s l] eqn:E; [discriminate N|].
    injection N as <- <-. cbn [pi_rest] in IH.
    assert (Q : pi_rest it = rev l ++ [s]) by (rewrite <- (rev_involutive (pi_rest it)), E; reflexivity).
    rewrite Q, map_app, IH. cbn [map rev]. rewrite !app_assoc. reflexivity.
Qed.
Lemma next_none it it' : (pi_next it = (None, it') <-> pi_rest it = [] /\ it' = it)
  /\ (pi_next_back it = (None, it') <-> pi_rest it = [] /\ it' = it).
Proof.
  unfold pi_next, pi_next_back. split.
  - destruct (pi_rest it) as [|s l]; split; [intros Q|intros (_ & ->)|intros Q|intros (Q & _)];
      try discriminate; [split; congruence|reflexivity].
  - destruct (pi_rest it) as [|s l]; cbn [rev].
    + split; [intros Q; split; congruence|intros (_ & ->); reflexivity].
    + destruct (rev l ++ [s]) as [|x m] eqn:E; [destruct (rev l); discriminate E|].
      split; [intros Q; discriminate Q|intros (Q & _); discriminate Q].
Qed.

Theorem both_ends ss fs bs it : takes (parse_to_iter ss) fs bs it ->
  (exists l, yields it l /\ map card_from_str ss = fs ++ l ++ rev bs
     /\ pi_len it = length l /\ pi_size_hint it = (length l, Some (length l)))
  /\ (forall it', pi_next it = (None, it') <-> length fs + length bs = length ss /\ it' = it)
  /\ (forall it', pi_next_back it = (None, it') <-> length fs + length bs = length ss /\ it' = it).
Proof.
  intros T. pose proof (takes_spec _ _ _ _ T) as Q. cbn [parse_to_iter pi_rest] in Q.
  assert (L : length fs + length bs = length ss <-> pi_rest it = []).
  { apply (f_equal (@length _)) in Q. rewrite !app_length, !map_length, rev_length in Q.
    destruct (pi_rest it); simpl in *; split; intros H; try reflexivity; try discriminate; lia. }
  split; [|split; intros it'; rewrite L; apply next_none].
  exists (map card_from_str (pi_rest it)). split; [|split; [exact Q|]].
  - destruct it as [l]. cbn [pi_rest]. apply yields_spec. reflexivity.
  - unfold pi_size_hint, pi_len. rewrite map_length. split; reflexivity.
Qed.
