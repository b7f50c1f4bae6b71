(** CountFacts.v: [Itertools::counts] and the repeated elements of a list. *)
From Coq Require Import Lia List Arith Bool Permutation.
From Verif Require Import Base ModelCard ModelEval.
Import ListNotations.

Section counting.
Context {E0 : Type} (eqb : E0 -> E0 -> bool) (eqb_eq : forall a b, eqb a b = true <-> a = b)
  (dec : forall a b : E0, {a = b} + {a <> b}).

Lemma counts_add_keys c m d : In d (map fst (counts_add eqb c m)) <-> d = c \/ In d (map fst m).
Proof.
  induction m as [|[x n] m IH]; simpl; [intuition congruence|].
  destruct (eqb c x) eqn:E; simpl.
  - apply eqb_eq in E. subst x. intuition congruence.
  - rewrite IH. intuition congruence.
Qed.
Lemma counts_add_NoDup c m : NoDup (map fst m) -> NoDup (map fst (counts_add eqb c m)).
Proof.
  induction m as [|[x n] m IH]; simpl; intros N.
  - repeat constructor. simpl. tauto.
  - inversion N as [|? ? Nx Nm]; subst. destruct (eqb c x) eqn:E; simpl.
    + constructor; assumption.
    + constructor; [|auto]. rewrite counts_add_keys. intros [->|H]; [|contradiction].
      rewrite (proj2 (eqb_eq c c) eq_refl) in E. discriminate E.
Qed.
Lemma counts_add_in c m d n : NoDup (map fst m) ->
  (In (d, n) (counts_add eqb c m) <->
   (d <> c /\ In (d, n) m) \/ (d = c /\ ((exists k, n = S k /\ In (c, k) m)
                                         \/ (n = 1 /\ ~ In c (map fst m))))).
Proof.
  induction m as [|[x k] m IH]; simpl; intros N.
  - split.
    + intros [H|[]]. injection H as <- <-. right. split; [reflexivity|]. right. tauto.
    + intros [[_ []]|[-> [(k & _ & [])|[-> _]]]]. left. reflexivity.
  - inversion N as [|? ? Nx Nm]; subst. destruct (eqb c x) eqn:E; simpl.
    + apply eqb_eq in E. subst x.
      assert (K : forall q, In (c, q) m -> False).
      { intros q Hq. apply Nx. apply in_map_iff. exists (c, q). auto. }
      split.
      * intros [H|H].
        -- injection H as <- <-. right. split; [reflexivity|]. left. exists k. auto.
        -- left. split; [|auto]. intros ->. eapply K. exact H.
      * intros [[Nd [H|H]]|[-> [(q & -> & [H|H])|[_ H]]]].
        -- injection H as <- <-. congruence.
        -- auto.
        -- injection H as <-. auto.
        -- exfalso. eapply K. exact H.
        -- exfalso. apply H. auto.
    + assert (Ncx : c <> x).
      { intros ->. rewrite (proj2 (eqb_eq x x) eq_refl) in E. discriminate E. }
      rewrite IH by exact Nm. split.
      * intros [H|[[Nd H]|[-> [(q & -> & H)|[-> H]]]]].
        -- injection H as <- <-. left. split; [congruence|auto].
        -- left. auto.
        -- right. split; [reflexivity|]. left. exists q. auto.
        -- right. split; [reflexivity|]. right. split; [reflexivity|]. intuition congruence.
      * intros [[Nd [H|H]]|[-> [(q & -> & [H|H])|[-> H]]]].
        -- auto.
        -- right. left. auto.
        -- injection H as <- <-. congruence.
        -- right. right. split; [reflexivity|]. left. exists q. auto.
        -- right. right. split; [reflexivity|]. right. split; [reflexivity|]. tauto.
Qed.

Lemma counts_spec l0 :
  NoDup (map fst (counts eqb l0))
  /\ forall c n, In (c, n) (counts eqb l0) <-> n = count_occ dec l0 c /\ 0 < n.
Proof.
  unfold counts. rewrite <- fold_left_rev_right.
  assert (Q : forall l, NoDup (map fst (fold_right (fun c m => counts_add eqb c m) [] l))
     /\ forall c n, In (c, n) (fold_right (fun c m => counts_add eqb c m) [] l)
                    <-> n = count_occ dec l c /\ 0 < n).
  { induction l as [|x l [IN IH]]; cbn [fold_right].
    - split; [constructor|]. intros c n. simpl. split; [tauto|lia].
    - split; [apply counts_add_NoDup; exact IN|]. intros c n.
      rewrite counts_add_in by exact IN. rewrite IH. cbn [count_occ].
      assert (K : In x (map fst (fold_right (fun c m => counts_add eqb c m) [] l))
                  <-> 0 < count_occ dec l x).
      { rewrite in_map_iff. split.
        - intros ([y k] & <- & H). simpl. apply IH in H. lia.
        - intros H. exists (x, count_occ dec l x). split; [reflexivity|]. apply IH. auto. }
      rewrite K. destruct (dec x c) as [->|Nx].
      + split.
        * intros [[Nc _]|[_ [(k & -> & H)|[-> H]]]]; [congruence| |]; rewrite ?IH in H; lia.
        * intros [-> _]. right. split; [reflexivity|].
          destruct (count_occ dec l c) as [|k] eqn:E; [right; split; [reflexivity|lia]|].
          left. exists (S k). split; [reflexivity|]. apply IH. lia.
      + split.
        * intros [[_ H]|[-> _]]; [exact H|congruence].
        * intros H. left. split; [congruence|exact H]. }
  destruct (Q (rev l0)) as [Q1 Q2]. split; [exact Q1|]. intros c n. rewrite Q2.
  assert (E : count_occ dec (rev l0) c = count_occ dec l0 c).
  { apply (proj1 (Permutation_count_occ dec _ _)). symmetry. apply Permutation_rev. }
  rewrite E. reflexivity.
Qed.


(** The elements listed by a message made of the counts above 1, in whatever order. *)
Lemma duplicates_spec {T} (f : E0 -> T) (order : list (E0 * nat) -> list (E0 * nat)) l0 :
  (forall l, Permutation (order l) l) ->
  exists dups, NoDup dups
    /\ (forall c, In c dups <-> 2 <= count_occ dec l0 c)
    /\ flat_map (fun p => if 1 <? snd p then [f (fst p)] else []) (order (counts eqb l0))
       = map f dups.
Proof.
  intros O. destruct (counts_spec l0) as [CN CS].
  exists (map fst (filter (fun p => Nat.ltb 1 (snd p)) (order (counts eqb l0)))).
  split; [|split].
  - assert (N : NoDup (map fst (order (counts eqb l0)))).
    { eapply Permutation_NoDup; [apply Permutation_map; symmetry; apply O|exact CN]. }
    revert N. generalize (order (counts eqb l0)). intros l. induction l as [|[c n] l IH]; intros N; simpl;
      [constructor|]. inversion N as [|? ? Nc Nl]; subst. destruct (1 <? n); simpl; [|auto].
    constructor; [|auto]. intros H. apply Nc. apply in_map_iff in H. destruct H as (p & E & Hp).
    apply filter_In in Hp. apply in_map_iff. exists p. tauto.
  - intros c. rewrite in_map_iff. split.
    + intros ([d n] & <- & H). apply filter_In in H. destruct H as [H1 H2].
      apply (Permutation_in _ (O _)), CS in H1. apply Nat.ltb_lt in H2. simpl in *. lia.
    + intros H. exists (c, count_occ dec l0 c). split; [reflexivity|].
      apply filter_In. split; [|apply Nat.ltb_lt; simpl; lia].
      apply (Permutation_in _ (Permutation_sym (O _))), CS. lia.
  - generalize (order (counts eqb l0)). intros l. induction l as [|[c n] l IH]; simpl; [reflexivity|].
    destruct (1 <? n); simpl; congruence.
Qed.
End counting.
