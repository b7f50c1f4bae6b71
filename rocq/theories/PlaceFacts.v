(** PlaceFacts.v: the places of the values, and how many hands are ahead and behind (C78). *)
From Coq Require Import Lia List Arith Bool Permutation ZArith.
From Verif Require Import Base BaseFacts ModelCard ModelEval ModelTable ModelEvaluation.
From Verif Require Import Spec SpecApi SpecMore SpecPlace CardFacts Sweep SweepFacts SpecFacts FiveFacts CombosFacts.
From Verif Require Import EvaluateFacts HandFacts DeckFacts LawFacts OddsFacts AlikeFacts.
Import ListNotations.
Local Open Scope Z_scope.

Lemma pigeonhole (l : list Z) lo hi : NoDup l -> (forall z, In z l -> lo <= z <= hi) -> lo <= hi + 1 ->
  Z.of_nat (length l) <= hi - lo + 1.
Proof.
  intros N H B. assert (I : incl l (map (fun n => lo + Z.of_nat n) (seq 0 (Z.to_nat (hi - lo + 1))))).
  { intros z Hz. specialize (H z Hz). apply in_map_iff. exists (Z.to_nat (z - lo)). split; [lia|]. apply in_seq. lia. }
  pose proof (NoDup_incl_length N I) as L. rewrite map_length, seq_length in L. lia.
Qed.

(** ** The places of a category *)
Definition above (k : nat) (c : canon) : bool := Nat.ltb k (category (canon_class c)).
Definition below (k : nat) (c : canon) : bool := Nat.ltb (category (canon_class c)) k.
Lemma places_counted : forallb (fun k => (Z.of_nat (length (filter (above k) canons)) =? first_place k - 1)
    && (Z.of_nat (length (filter (below k) canons)) =? 7462 - last_place k)) (seq 0 9) = true.
Proof. vm_compute. reflexivity. Qed.

Section Table.
  Variable t : lookup_table.
  Hypothesis Ht : lookup_table_new = Ret t.
  Definition place (c : canon) : Z := match canon_meta t c with Some m => phr (meta_hand_rank m) | None => 0 end.
  Lemma place_range c : In c canons -> 1 <= place c <= 7462.
  Proof using Ht. intros H. destruct (canon_found t Ht c H) as (m & E & _ & R & _). unfold place. rewrite E. exact R. Qed.
  Lemma place_inj a b : In a canons -> In b canons -> place a = place b -> a = b.
  Proof using Ht.
    intros Ha Hb. destruct (canon_found t Ht a Ha) as (m & E & _). destruct (canon_found t Ht b Hb) as (m' & E' & _).
    unfold place. rewrite E, E'. apply (canon_rank_inj t Ht a b m m' Ha Hb E E').
  Qed.
  Lemma place_class c m : In c canons -> canon_meta t c = Some m -> meta_class m = canon_class c.
  Proof using Ht.
    intros Hc Hm. destruct (deal_spec c Hc) as (H5 & R & Sf). pose proof (hand5_faces _ H5) as F.
    destruct (canon_found t Ht c Hc) as (m' & E & C & _). rewrite Hm in E. injection E as <-.
    pose proof canon_class_ok as K. rewrite forallb_forall in K. specialize (K c Hc). cbv beta in K.
    assert (P : Permutation (ranks (faces (hand_of c))) (snd c)) by (rewrite R; reflexivity).
    apply (classify_unique (faces (hand_of c))); [exact F| |].
    - apply (classifyb_spec (faces (hand_of c)) (fst c) (snd c)); [apply F|exact P|exact Sf|exact C].
    - apply (classifyb_spec (faces (hand_of c)) (fst c) (snd c)); [apply F|exact P|exact Sf|exact K].
  Qed.
  Lemma place_order a b : In a canons -> In b canons -> (category (canon_class b) < category (canon_class a))%nat ->
    place a < place b.
  Proof using Ht.
    intros Ha Hb L. destruct (canon_found t Ht a Ha) as (m & E & _). destruct (canon_found t Ht b Hb) as (m' & E' & _).
    pose proof (place_class a m Ha E) as Ca. pose proof (place_class b m' Hb E') as Cb.
    destruct (Z.lt_trichotomy (place a) (place b)) as [H|[H|H]]; [exact H| |]; exfalso.
    - apply (place_inj a b Ha Hb) in H. subst b. lia.
    - unfold place in H. rewrite E, E' in H.
      pose proof (canon_rank_strength t Ht b a m' m Hb Ha E' E H) as S0. unfold strength in S0. cbn [lexgtb] in S0.
      rewrite Ca, Cb in S0. apply orb_true_iff in S0. rewrite andb_true_iff, Nat.ltb_lt, Nat.eqb_eq in S0. lia.
  Qed.
  Lemma map_place_NoDup f : NoDup (map place (filter f canons)).
  Proof using Ht.
    assert (G : forall l, NoDup l -> incl l canons -> NoDup (map place l)).
    { induction 1 as [|c l H N IH]; intros I; cbn [map]; constructor.
      - rewrite in_map_iff. intros (d & E & Hd). apply H.
        rewrite <- (place_inj d c); [exact Hd|apply I; right; exact Hd|apply I; left; reflexivity|exact E].
      - apply IH. intros d Hd. apply I. right. exact Hd. }
    apply G; [apply NoDup_filter, canons_NoDup|]. intros c Hc. apply filter_In in Hc. apply Hc.
  Qed.
  Lemma place_bounds c : In c canons ->
    first_place (category (canon_class c)) <= place c <= last_place (category (canon_class c)).
  Proof using Ht.
    intros Hc. pose proof places_counted as K. rewrite forallb_forall in K.
    assert (Hk : In (category (canon_class c)) (seq 0 9)) by (apply in_seq; destruct (canon_class c); cbn; lia).
    specialize (K _ Hk). cbv beta in K. apply andb_true_iff in K. rewrite !Z.eqb_eq in K. destruct K as [K1 K2].
    pose proof (place_range c Hc) as Rc. split.
    - assert (H : Z.of_nat (length (map place (filter (above (category (canon_class c))) canons))) <= place c - 1 - 1 + 1).
      { apply pigeonhole; [apply map_place_NoDup| |lia]. intros z Hz. apply in_map_iff in Hz. destruct Hz as (d & <- & Hd).
        apply filter_In in Hd. destruct Hd as [Hd A]. apply Nat.ltb_lt in A.
        pose proof (place_range d Hd). pose proof (place_order d c Hd Hc A). lia. }
      rewrite map_length in H. lia.
    - assert (H : Z.of_nat (length (map place (filter (below (category (canon_class c))) canons))) <= 7462 - (place c + 1) + 1).
      { apply pigeonhole; [apply map_place_NoDup| |lia]. intros z Hz. apply in_map_iff in Hz. destruct Hz as (d & <- & Hd).
        apply filter_In in Hd. destruct Hd as [Hd A]. apply Nat.ltb_lt in A.
        pose proof (place_range d Hd). pose proof (place_order c d Hc Hd A). lia. }
      rewrite map_length in H. lia.
  Qed.
End Table.

Theorem category_places ev h e : new_evaluator ev -> all_cards h -> evaluates ev h e ->
  first_place (category (eval_class_of e)) <= rk e <= last_place (category (eval_class_of e)).
Proof.
  intros Hev A E. destruct (best_five ev h e Hev A E) as (x & Hx & _ & Ex).
  destruct (five_eval ev x e Hev Hx Ex) as (t & Ht & Et & V & _).
  destruct (five_spec t x Ht Hx) as (c & m & Hc & _ & _ & Hm & W & _). rewrite V in W. injection W as ->.
  unfold eval_class_of, rk, eval_hand_rank. cbn [eval_meta]. rewrite (place_class t Ht c m Hc Hm).
  pose proof (place_bounds t Ht c Hc) as B. unfold place in B. rewrite Hm in B. exact B.
Qed.

(** ** Better values *)
Theorem place_counts ev h e : new_evaluator ev -> all_cards h -> evaluates ev h e -> exists l,
  NoDup l /\ Z.of_nat (length l) = rk e - 1
  /\ forall e', In e' l <-> eval_cmp e' e = Gt /\ exists g, hand5 g /\ evaluates ev g e'.
Proof.
  intros Hev A E. pose proof (rank_range ev h e Hev A E) as R.
  assert (Q : forall n, Z.of_nat n <= 7462 -> exists l, NoDup l /\ length l = n
     /\ forall e', In e' l <-> rk e' <= Z.of_nat n /\ exists g, hand5 g /\ evaluates ev g e').
  { induction n as [|n IH]; intros Hn.
    - exists []. split; [constructor|]. split; [reflexivity|]. intros e'. cbn [In]. split; [tauto|].
      intros [H (g & Hg & Eg)]. pose proof (rank_range ev g e' Hev (proj1 Hg) Eg). lia.
    - destruct IH as (l & N & L & M); [lia|]. destruct (rank_attained ev (Z.of_nat (S n)) Hev) as (g & v & Hg & Eg & Rg); [lia|].
      exists (v :: l). split; [constructor; [|exact N]|]. { rewrite M. intros [H _]. lia. }
      split; [cbn [length]; lia|]. intros e'. cbn [In]. rewrite M. split.
      + intros [<-|[H H']]; [split; [lia|exists g; auto]|]. split; [lia|exact H'].
      + intros [H H']. destruct (Z.eq_dec (rk e') (Z.of_nat (S n))) as [Eq|Ne].
        * left. destruct H' as (g' & Hg' & Eg'). apply (same_value ev g g'); auto using hand5_legal. lia.
        * right. split; [lia|exact H']. }
  destruct (Q (Z.to_nat (rk e - 1))) as (l & N & L & M); [lia|]. exists l. split; [exact N|]. split; [lia|].
  intros e'. rewrite M, cmp_Gt. split; intros [H H']; (split; [lia|exact H']).
Qed.

(** ** Hands ahead and behind *)
Lemma ahead_steps c c' z : (c <= 8)%nat -> (c' <= 8)%nat -> first_place c <= z <= last_place c ->
  first_place c' <= z + 1 <= last_place c' -> ahead c' (z + 1) = ahead c z + alike c.
Proof.
  unfold ahead, alike. intros Hc Hc' B B'. destruct c as [|[|[|[|[|[|[|[|[|c]]]]]]]]]; [..|lia].
  all: destruct c' as [|[|[|[|[|[|[|[|[|c']]]]]]]]]; [..|lia]; cbn [first_place last_place in_better] in *; lia.
Qed.
Lemma ahead_first c : first_place c <= 1 <= last_place c -> ahead c 1 = 0.
Proof.
  unfold ahead, alike. intros B. destruct c as [|[|[|[|[|[|[|[|[|c]]]]]]]]]; cbn [first_place last_place in_better] in *; lia.
Qed.
Section Count.
  Variable ev : evaluator.
  Hypothesis Hev : new_evaluator ev.
  Definition worth (g : list card) : Z := match evaluate ev g with Ret (Ok e) => rk e | _ => 0 end.
  Lemma worth_of g e : evaluates ev g e -> worth g = rk e.
  Proof using. unfold evaluates, worth. intros ->. reflexivity. Qed.
  Lemma choice_evaluates g : In g five_card_choices -> exists e, hand5 g /\ evaluates ev g e.
  Proof using Hev.
    intros H. rewrite five_card_choices_map in H. apply in_map_iff in H. destruct H as (x & <- & Hx).
    destruct (evaluate_spec ev _ Hev (hand5_legal _ (choices_hand5 x Hx))) as (e & E & _). exists e.
    split; [apply choices_hand5; exact Hx|exact E].
  Qed.
  Lemma five_NoDup : NoDup five_card_choices.
  Proof using.
    rewrite five_card_choices_map. apply FinFun.Injective_map_NoDup; [|apply choices_NoDup].
    intros a b X. rewrite <- (faces_card_of a), <- (faces_card_of b), X. reflexivity.
  Qed.
  Lemma same_length {A} (l l' : list A) : NoDup l -> NoDup l' -> (forall x, In x l <-> In x l') -> length l = length l'.
  Proof using. intros N N' H. apply Permutation_length, NoDup_Permutation; assumption. Qed.
  Lemma at_place h e : hand5 h -> evaluates ev h e ->
    Z.of_nat (length (filter (fun g => worth g =? rk e) five_card_choices)) = alike (category (eval_class_of e)).
  Proof using Hev.
    intros Hh E. destruct (alike_count ev h e Hev Hh E) as (L & N & M & C). rewrite <- C. f_equal.
    apply same_length; [apply NoDup_filter, five_NoDup|exact N|]. intros g. rewrite filter_In, M, Z.eqb_eq.
    rewrite (combs_sublist deck_generate 5 g : In g five_card_choices <-> _). split.
    - intros [[Sb L5] W]. split; [exact Sb|]. split; [exact L5|].
      destruct (choice_evaluates g) as (e' & _ & E'); [apply (combs_sublist deck_generate 5); auto|].
      exists e'. split; [exact E'|]. apply eqb_rk. rewrite <- (worth_of g e' E'). exact W.
    - intros (Sb & L5 & e' & E' & B). split; [auto|]. rewrite (worth_of g e' E'). apply eqb_rk. exact B.
  Qed.
  Lemma filter_split {A} (f g h : A -> bool) l : (forall x, f x = g x || h x) -> (forall x, g x && h x = false) ->
    length (filter f l) = (length (filter g l) + length (filter h l))%nat.
  Proof using.
    intros H D. induction l as [|x l IH]; [reflexivity|]. cbn [filter]. rewrite (H x). specialize (D x).
    destruct (g x), (h x); cbn [orb andb length] in *; try discriminate D; lia.
  Qed.
  (** The category at a place *)
  Definition at_most (z : Z) : Z := Z.of_nat (length (filter (fun g => worth g <=? z) five_card_choices)).
  Lemma at_most_step h e : hand5 h -> evaluates ev h e -> at_most (rk e) = at_most (rk e - 1) + alike (category (eval_class_of e)).
  Proof using Hev.
    intros Hh E. rewrite <- (at_place h e Hh E). unfold at_most.
    rewrite (filter_split (fun g => worth g <=? rk e) (fun g => worth g <=? rk e - 1) (fun g => worth g =? rk e)).
    - lia.
    - intros g. destruct (Z.leb_spec (worth g) (rk e)), (Z.leb_spec (worth g) (rk e - 1)), (Z.eqb_spec (worth g) (rk e)); cbn; lia.
    - intros g. destruct (Z.leb_spec (worth g) (rk e - 1)), (Z.eqb_spec (worth g) (rk e)); cbn; lia.
  Qed.
  Lemma at_most_ahead : forall n h e, hand5 h -> evaluates ev h e -> rk e = Z.of_nat (S n) ->
    at_most (Z.of_nat n) = ahead (category (eval_class_of e)) (rk e).
  Proof using Hev.
    induction n as [|n IH]; intros h e Hh E Er.
    - pose proof (category_places ev h e Hev (proj1 Hh) E) as B.
      assert (Z0 : at_most (Z.of_nat 0) = 0).
      { unfold at_most. replace (filter _ five_card_choices) with (@nil (list card)); [reflexivity|]. symmetry.
        assert (G : forall l, incl l five_card_choices -> filter (fun g => worth g <=? Z.of_nat 0) l = []).
        { induction l as [|g l IHl]; intros I; [reflexivity|]. cbn [filter].
          destruct (choice_evaluates g (I g (or_introl eq_refl))) as (e' & Hg & Eg). rewrite (worth_of g e' Eg).
          pose proof (rank_range ev g e' Hev (proj1 Hg) Eg). destruct (Z.leb_spec (rk e') (Z.of_nat 0)); [lia|].
          apply IHl. intros x Hx. apply I. right. exact Hx. }
        apply G. intros x Hx. exact Hx. }
      rewrite Z0, Er. rewrite Er in B. symmetry. exact (ahead_first _ B).
    - pose proof (rank_range ev h e Hev (proj1 Hh) E) as R.
      destruct (rank_attained ev (Z.of_nat (S n)) Hev) as (g & v & Hg & Eg & Rg); [lia|].
      pose proof (IH g v Hg Eg Rg) as A. pose proof (at_most_step g v Hg Eg) as St. rewrite Rg in St.
      replace (Z.of_nat (S n) - 1) with (Z.of_nat n) in St by lia. rewrite St, A.
      pose proof (category_places ev h e Hev (proj1 Hh) E) as B. pose proof (category_places ev g v Hev (proj1 Hg) Eg) as B'.
      replace (rk e) with (rk v + 1) by lia. symmetry. apply ahead_steps; [| |exact B'|].
      + destruct (eval_class_of v); cbn; lia.
      + destruct (eval_class_of e); cbn; lia.
      + replace (rk v + 1) with (rk e) by lia. exact B.
  Qed.
  Lemma ahead_count h e : hand5 h -> evaluates ev h e -> exists L, NoDup L
    /\ (forall g, In g L <-> sublist g deck_generate /\ length g = 5%nat
                             /\ exists e', evaluates ev g e' /\ eval_cmp e' e = Gt)
    /\ Z.of_nat (length L) = ahead (category (eval_class_of e)) (rk e).
  Proof using Hev.
    intros Hh E. pose proof (rank_range ev h e Hev (proj1 Hh) E) as R.
    rewrite <- (at_most_ahead (Z.to_nat (rk e - 1)) h e Hh E) by lia.
    exists (filter (fun g => worth g <=? Z.of_nat (Z.to_nat (rk e - 1))) five_card_choices).
    split; [apply NoDup_filter, five_NoDup|]. split; [|reflexivity]. intros g. rewrite filter_In, Z.leb_le.
    rewrite (combs_sublist deck_generate 5 g : In g five_card_choices <-> _). split.
    - intros [[Sb L5] W]. split; [exact Sb|]. split; [exact L5|].
      destruct (choice_evaluates g) as (e' & _ & E'); [apply (combs_sublist deck_generate 5); auto|].
      exists e'. split; [exact E'|]. apply cmp_Gt. rewrite <- (worth_of g e' E'). lia.
    - intros (Sb & L5 & e' & E' & B). split; [auto|]. rewrite (worth_of g e' E'). apply cmp_Gt in B. lia.
  Qed.
  Lemma five_count : Z.of_nat (length five_card_choices) = 2598960.
  Proof using Hev.
    destruct (odds ev Hev) as (L & es & N & M & _ & C & _). rewrite <- C. f_equal.
    apply same_length; [apply five_NoDup|exact N|]. intros g. rewrite M. apply (combs_sublist deck_generate 5 g).
  Qed.
  Lemma behind_count h e : hand5 h -> evaluates ev h e -> exists L, NoDup L
    /\ (forall g, In g L <-> sublist g deck_generate /\ length g = 5%nat
                             /\ exists e', evaluates ev g e' /\ eval_cmp e' e = Lt)
    /\ Z.of_nat (length L) = behind (category (eval_class_of e)) (rk e).
  Proof using Hev.
    intros Hh E. pose proof (rank_range ev h e Hev (proj1 Hh) E) as R.
    exists (filter (fun g => negb (worth g <=? rk e)) five_card_choices).
    split; [apply NoDup_filter, five_NoDup|]. split.
    - intros g. rewrite filter_In, negb_true_iff, Z.leb_gt.
      rewrite (combs_sublist deck_generate 5 g : In g five_card_choices <-> _). split.
      + intros [[Sb L5] W]. split; [exact Sb|]. split; [exact L5|].
        destruct (choice_evaluates g) as (e' & _ & E'); [apply (combs_sublist deck_generate 5); auto|].
        exists e'. split; [exact E'|]. apply cmp_Lt. rewrite <- (worth_of g e' E'). exact W.
      + intros (Sb & L5 & e' & E' & B). split; [auto|]. rewrite (worth_of g e' E'). apply cmp_Lt in B. exact B.
    - pose proof (filter_split (fun _ => true) (fun g => worth g <=? rk e) (fun g => negb (worth g <=? rk e)) five_card_choices) as F.
      assert (T : forall A (l : list A), filter (fun _ => true) l = l) by (intros A l; induction l as [|x l IH]; [reflexivity|cbn; f_equal; exact IH]).
      rewrite T in F. pose proof five_count as C. pose proof (at_most_step h e Hh E) as St. unfold at_most in St at 1.
      replace (rk e - 1) with (Z.of_nat (Z.to_nat (rk e - 1))) in St by lia.
      rewrite (at_most_ahead (Z.to_nat (rk e - 1)) h e Hh E) in St by lia. unfold behind.
      rewrite F in C; [lia| |]; intros g; destruct (worth g <=? rk e); reflexivity.
  Qed.
End Count.
Theorem hands_ahead ev h e : new_evaluator ev -> all_cards h -> evaluates ev h e -> exists L, NoDup L
  /\ (forall g, In g L <-> sublist g deck_generate /\ length g = 5%nat
                           /\ exists e', evaluates ev g e' /\ eval_cmp e' e = Gt)
  /\ Z.of_nat (length L) = ahead (category (eval_class_of e)) (rk e).
Proof.
  intros Hev A E. destruct (best_five ev h e Hev A E) as (x & Hx & _ & Ex). exact (ahead_count ev Hev x e Hx Ex).
Qed.
Theorem hands_behind ev h e : new_evaluator ev -> all_cards h -> evaluates ev h e -> exists L, NoDup L
  /\ (forall g, In g L <-> sublist g deck_generate /\ length g = 5%nat
                           /\ exists e', evaluates ev g e' /\ eval_cmp e' e = Lt)
  /\ Z.of_nat (length L) = behind (category (eval_class_of e)) (rk e).
Proof.
  intros Hev A E. destruct (best_five ev h e Hev A E) as (x & Hx & _ & Ex). exact (behind_count ev Hev x e Hx Ex).
Qed.
(** A value has one place, and the category and the place determine each other's range. *)
Theorem places_exhausted ev z : new_evaluator ev -> 1 <= z <= 7462 -> exists h e, hand5 h /\ evaluates ev h e
  /\ rk e = z /\ first_place (category (eval_class_of e)) <= z <= last_place (category (eval_class_of e)).
Proof.
  intros Hev H. destruct (rank_attained ev z Hev H) as (h & e & Hh & E & R). exists h, e. repeat (split; [assumption|]).
  rewrite <- R. exact (category_places ev h e Hev (proj1 Hh) E).
Qed.
