(** SweepFacts.v: what [Sweep.sweep_ok] says, as lemmas about every table [LookupTable::new]
    returns. *)
From Coq Require Import Lia List Arith Bool ZifyBool ZifyNat.
From Verif Require Import Base BaseFacts ModelCard ModelEval ModelTable Spec CardFacts Sweep.
Import ListNotations.

Lemma in_canons_suited m : In m (combs 5 high_to_low) -> In (true, m) canons.
Proof. intros H. apply in_or_app. left. apply in_map. exact H. Qed.
Lemma in_canons_unsuited m :
  In m (multisets high_to_low 5) -> at_most_four m = true -> In (false, m) canons.
Proof. intros H Q. apply in_or_app. right. apply in_map. apply filter_In. auto. Qed.

Lemma canon_eqb_eq a b : canon_eqb a b = true <-> a = b.
Proof.
  unfold canon_eqb. destruct a as [f m], b as [f' m']; simpl.
  destruct (list_eq_dec rank_dec m m') as [->|N].
  - rewrite andb_true_r, Bool.eqb_true_iff. split; congruence.
  - rewrite andb_false_r. split; [discriminate|congruence].
Qed.

Lemma in_canons_worst : In (false, [Seven; Five; Four; Three; Two]) canons.
Proof.
  assert (H : existsb (canon_eqb (false, [Seven; Five; Four; Three; Two])) canons = true)
    by (vm_compute; reflexivity).
  apply existsb_exists in H. destruct H as (c & Hc & E). apply canon_eqb_eq in E.
  subst c. exact Hc.
Qed.

(** Too big to be unfolded by accident. *)
Global Opaque lookup_table_new canons.

(** ** Lexicographic order on strengths *)
Lemma lexgtb_irrefl a : lexgtb a a = false.
Proof. induction a as [|x a IH]; cbn [lexgtb]; [reflexivity|]. rewrite IH, Nat.ltb_irrefl, andb_false_r. reflexivity. Qed.

Lemma lexgtb_trans a b c : lexgtb a b = true -> lexgtb b c = true -> lexgtb a c = true.
Proof.
  revert b c. induction a as [|x a IH]; intros [|y b] [|z c] H1 H2; cbn [lexgtb] in *; try discriminate.
  rewrite !orb_true_iff, !andb_true_iff, !Nat.ltb_lt, !Nat.eqb_eq in *.
  destruct H1 as [H1|[-> H1]], H2 as [H2|[-> H2]]; try (left; lia).
  right. split; [reflexivity|]. exact (IH _ _ H1 H2).
Qed.

Lemma lexgtb_asym a b : lexgtb a b = true -> lexgtb b a = false.
Proof.
  intros H. destruct (lexgtb b a) eqn:E; [|reflexivity].
  pose proof (lexgtb_trans _ _ _ H E) as F. rewrite lexgtb_irrefl in F. discriminate.
Qed.

(** ** The inverse map only holds canonical hands under their own rank number *)
Lemma unrank_inv_aux t l u p c :
  (forall p c, PositiveMap.find p u = Some c ->
     In c canons /\ exists m, canon_meta t c = Some m /\ rank_key (phr (meta_hand_rank m)) = p) ->
  (forall c, In c l -> In c canons) ->
  PositiveMap.find p (fold_left (fun u c =>
    match canon_meta t c with
    | Some m => PositiveMap.add (rank_key (phr (meta_hand_rank m))) c u
    | None => u
    end) l u) = Some c ->
  In c canons /\ exists m, canon_meta t c = Some m /\ rank_key (phr (meta_hand_rank m)) = p.
Proof.
  revert u. induction l as [|d l IH]; intros u Hu Hl H; cbn [fold_left] in H; [apply Hu; exact H|].
  refine (IH _ _ _ H); [|intros; apply Hl; right; assumption].
  intros q e He. destruct (canon_meta t d) as [m|] eqn:Em; [|apply Hu; exact He].
  destruct (Pos.eq_dec q (rank_key (phr (meta_hand_rank m)))) as [->|N].
  - rewrite PositiveMap.gss in He. injection He as <-.
    split; [apply Hl; left; reflexivity|]. exists m. split; [exact Em|reflexivity].
  - rewrite PositiveMap.gso in He by congruence. apply Hu. exact He.
Qed.

Lemma unrank_inv t p c :
  PositiveMap.find p (unrank_map t) = Some c ->
  In c canons /\ exists m, canon_meta t c = Some m /\ rank_key (phr (meta_hand_rank m)) = p.
Proof.
  intros H. unfold unrank_map in H. refine (unrank_inv_aux t canons _ p c _ _ H).
  - intros q d Hd. rewrite PositiveMap.gempty in Hd. discriminate.
  - auto.
Qed.

(** ** Walking down the rank numbers *)
Definition at_pos t u (p : positive) (c : canon) (m : meta) : Prop :=
  PositiveMap.find p u = Some c /\ canon_meta t c = Some m.

Lemma descending_below t u l : forall i prev,
  check_descending t u l i prev = true ->
  forall p, (Zpos i <= Zpos p < Zpos i + Z.of_nat (length l))%Z ->
  exists c m, at_pos t u p c m /\ lexgtb prev (strength (meta_class m) (snd c)) = true.
Proof.
  induction l as [|x l IH]; intros i prev H p Hp; cbn [check_descending length] in *; [lia|].
  destruct (PositiveMap.find i u) as [c|] eqn:Ec; [|discriminate].
  destruct (canon_meta t c) as [m|] eqn:Em; [|discriminate].
  apply andb_true_iff in H. destruct H as [H1 H2].
  destruct (Pos.eq_dec p i) as [->|N].
  - exists c, m. repeat split; assumption.
  - destruct (IH _ _ H2 p) as (c' & m' & Hat & Hlt); [lia|].
    exists c', m'. split; [exact Hat|]. eapply lexgtb_trans; eassumption.
Qed.

Lemma descending_pairs t u l : forall i prev,
  check_descending t u l i prev = true ->
  forall p q c m c' m', (Zpos i <= Zpos p)%Z -> (Zpos p < Zpos q < Zpos i + Z.of_nat (length l))%Z ->
  at_pos t u p c m -> at_pos t u q c' m' ->
  lexgtb (strength (meta_class m) (snd c)) (strength (meta_class m') (snd c')) = true.
Proof.
  induction l as [|x l IH]; intros i prev H p q c m c' m' Hp Hq Hc Hc';
    cbn [check_descending length] in *; [lia|].
  destruct (PositiveMap.find i u) as [d|] eqn:Ed; [|discriminate].
  destruct (canon_meta t d) as [n|] eqn:En; [|discriminate].
  apply andb_true_iff in H. destruct H as [H1 H2].
  destruct (Pos.eq_dec p i) as [->|N].
  - destruct Hc as [Hc1 Hc2]. rewrite Ed in Hc1. injection Hc1 as <-.
    rewrite En in Hc2. injection Hc2 as <-.
    destruct (descending_below _ _ _ _ _ H2 q) as (e & k & He & Hlt); [lia|].
    destruct He as [He1 He2], Hc' as [Hc1' Hc2'].
    rewrite He1 in Hc1'. injection Hc1' as <-. rewrite He2 in Hc2'. injection Hc2' as <-.
    exact Hlt.
  - eapply (IH _ _ H2 p q); try eassumption; lia.
Qed.

Lemma table_new_ret : exists t, lookup_table_new = Ret t.
Proof.
  pose proof sweep_ok as H. destruct lookup_table_new as [t|p|]; try discriminate.
  exists t. reflexivity.
Qed.

Section table.
  Context (t : lookup_table) (Ht : lookup_table_new = Ret t).

  Lemma sweep_t : sweep t = true.
  Proof using Ht.
    pose proof sweep_ok as H. rewrite Ht in H. apply andb_true_iff in H. apply H.
  Qed.
  Lemma extra_t : extra t = true.
  Proof using Ht.
    pose proof sweep_ok as H. rewrite Ht in H. apply andb_true_iff in H. apply H.
  Qed.

  Lemma canon_found c : In c canons ->
    exists m, canon_meta t c = Some m
      /\ classifyb (fst c) (snd c) (meta_class m) = true
      /\ (1 <= phr (meta_hand_rank m) <= 7462)%Z
      /\ PositiveMap.find (rank_key (phr (meta_hand_rank m))) (unrank_map t) = Some c.
  Proof using Ht.
    intros Hc. pose proof sweep_t as H. unfold sweep in H. apply andb_true_iff in H.
    destruct H as [H _]. rewrite forallb_forall in H. specialize (H c Hc).
    unfold check_canon in H. destruct (canon_meta t c) as [m|]; [|discriminate].
    exists m. split; [reflexivity|].
    rewrite !andb_true_iff in H. destruct H as [[[H1 H2] H3] H4].
    split; [exact H1|]. split; [lia|].
    destruct (PositiveMap.find _ _) as [c'|]; [|discriminate].
    apply canon_eqb_eq in H4. congruence.
  Qed.

  Lemma canon_rank_inj c1 c2 m1 m2 : In c1 canons -> In c2 canons ->
    canon_meta t c1 = Some m1 -> canon_meta t c2 = Some m2 ->
    phr (meta_hand_rank m1) = phr (meta_hand_rank m2) -> c1 = c2.
  Proof using Ht.
    intros H1 H2 E1 E2 E.
    destruct (canon_found c1 H1) as (n1 & F1 & _ & _ & G1).
    destruct (canon_found c2 H2) as (n2 & F2 & _ & _ & G2).
    rewrite E1 in F1. injection F1 as <-. rewrite E2 in F2. injection F2 as <-.
    rewrite E in G1. rewrite G1 in G2. congruence.
  Qed.

  Lemma canon_rank_attained z : (1 <= z <= 7462)%Z ->
    exists c m, In c canons /\ canon_meta t c = Some m /\ phr (meta_hand_rank m) = z.
  Proof using Ht.
    intros Hz. pose proof sweep_t as H. unfold sweep in H. apply andb_true_iff in H.
    destruct H as [_ H].
    destruct (descending_below _ _ _ _ _ H (Z.to_pos z)) as (c & m & [Hf Hm] & _).
    { rewrite canons_length. lia. }
    destruct (unrank_inv _ _ _ Hf) as (Hin & m' & Hm' & Hk).
    rewrite Hm in Hm'. injection Hm' as <-.
    exists c, m. split; [exact Hin|]. split; [exact Hm|].
    destruct (canon_found c Hin) as (n & Hn & _ & Hr & _).
    rewrite Hm in Hn. injection Hn as <-. unfold rank_key in Hk. lia.
  Qed.

  Lemma canon_rank_strength c1 c2 m1 m2 : In c1 canons -> In c2 canons ->
    canon_meta t c1 = Some m1 -> canon_meta t c2 = Some m2 ->
    (phr (meta_hand_rank m1) < phr (meta_hand_rank m2))%Z ->
    lexgtb (strength (meta_class m1) (snd c1)) (strength (meta_class m2) (snd c2)) = true.
  Proof using Ht.
    intros H1 H2 E1 E2 L.
    destruct (canon_found c1 H1) as (n1 & F1 & _ & R1 & G1).
    destruct (canon_found c2 H2) as (n2 & F2 & _ & R2 & G2).
    rewrite E1 in F1. injection F1 as <-. rewrite E2 in F2. injection F2 as <-.
    pose proof sweep_t as H. unfold sweep in H. apply andb_true_iff in H. destruct H as [_ H].
    refine (descending_pairs _ _ _ _ _ H (rank_key (phr (meta_hand_rank m1)))
              (rank_key (phr (meta_hand_rank m2))) _ _ _ _ _ _ (conj G1 E1) (conj G2 E2)).
    - lia.
    - rewrite canons_length. unfold rank_key. lia.
  Qed.
End table.
