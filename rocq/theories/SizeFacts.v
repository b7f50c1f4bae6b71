(** SizeFacts.v: what a number of cards guarantees. *)
From Coq Require Import Lia List Arith Bool Permutation.
From Verif Require Import Base BaseFacts ModelCard ModelEval ModelTable ModelEvaluation.
From Verif Require Import Spec SpecApi CardFacts Sweep SweepFacts SpecFacts EvalFacts FiveFacts
  CombosFacts EvaluateFacts HandFacts ClassFacts.
Import ListNotations.
Local Open Scope nat_scope.

(** ** From faces to cards and back *)
Definition card_at (f : face) : card := card_new (fst f) (snd f).
Lemma faces_card_at F : faces (map card_at F) = F.
Proof.
  unfold faces. rewrite map_map. rewrite <- (map_id F) at 2. apply map_ext. intros [r s].
  unfold face_of, card_at. cbn [fst snd]. rewrite card_rank_new, card_suit_new. reflexivity.
Qed.
Lemma card_at_in h f : all_cards h -> In f (faces h) -> In (card_at f) h.
Proof.
  intros A I. apply in_map_iff in I. destruct I as (c & <- & I).
  unfold all_cards in A. rewrite Forall_forall in A.
  rewrite (a_card_eta c (A c I)) in I. exact I.
Qed.
Lemma card_at_NoDup F : NoDup F -> NoDup (map card_at F).
Proof.
  intros N. apply (NoDup_map_inv face_of). fold (faces (map card_at F)). rewrite faces_card_at. exact N.
Qed.
Lemma card_at_hand5 F : NoDup F -> length F = 5 -> hand5 (map card_at F).
Proof.
  intros N L. split; [|split].
  - apply Forall_forall. intros c I. apply in_map_iff in I. destruct I as (f & <- & _). apply a_card_new.
  - apply card_at_NoDup, N.
  - rewrite map_length. exact L.
Qed.

Lemma at_least ev h e F k : new_evaluator ev -> all_cards h -> evaluates ev h e ->
  NoDup F -> length F = 5 -> incl F (faces h) -> (forall c, classify F c -> k <= category c) ->
  k <= category (eval_class_of e).
Proof.
  intros Hev A E N L I C. pose proof (card_at_hand5 F N L) as Hx.
  destruct (evaluate_spec ev _ Hev (hand5_legal _ Hx)) as (e' & E' & _).
  assert (Ix : incl (map card_at F) h).
  { intros c Hc. apply in_map_iff in Hc. destruct Hc as (f & <- & Hf).
    apply card_at_in; [exact A|]. apply I, Hf. }
  pose proof (more_cards ev _ h e' e Hev A Ix E' E) as M.
  pose proof (category_mono ev h _ e e' Hev A (proj1 Hx) E E' M) as Q.
  pose proof (proj2 (class_correct ev _ e' Hev Hx E' _) eq_refl) as K.
  rewrite faces_card_at in K. specialize (C _ K). lia.
Qed.

Lemma at_most ev h e : new_evaluator ev -> all_cards h -> evaluates ev h e ->
  exists F, five_card_hand F /\ incl F (faces h) /\ classify F (eval_class_of e).
Proof.
  intros Hev A E. destruct (best_five ev h e Hev A E) as (x & Hx & I & V).
  exists (faces x). split; [apply hand5_faces, Hx|]. split; [apply incl_map, I|].
  apply (class_correct ev x e Hev Hx V). reflexivity.
Qed.

(** ** Counting by rank and suit *)
Definition of_rank (r : rank) (f : face) : bool := if rank_dec (fst f) r then true else false.
Definition of_suit (s : suit) (f : face) : bool := suit_eqb (snd f) s.
Definition scount (s : suit) (H : list face) : nat := length (filter (of_suit s) H).

Lemma of_rank_eq r f : of_rank r f = true <-> fst f = r.
Proof. unfold of_rank. destruct (rank_dec (fst f) r); split; congruence. Qed.
Lemma of_suit_eq s f : of_suit s f = true <-> snd f = s.
Proof. unfold of_suit. destruct (snd f), s; simpl; split; congruence. Qed.

Lemma count_filter r H : count r H = length (filter (of_rank r) H).
Proof.
  unfold count, ranks. induction H as [|f H IH]; [reflexivity|]. cbn [map count_occ filter].
  unfold of_rank at 1. destruct (rank_dec (fst f) r); simpl; congruence.
Qed.
Lemma count_app_face r A B : count r (A ++ B) = count r A + count r B.
Proof. unfold count, ranks. rewrite map_app. apply count_occ_app. Qed.
Lemma count_zero r F : (forall f, In f F -> fst f <> r) -> count r F = 0.
Proof.
  intros Q. rewrite count_filter. destruct (filter (of_rank r) F) as [|f l] eqn:E; [reflexivity|].
  exfalso. assert (I : In f (filter (of_rank r) F)) by (rewrite E; left; reflexivity).
  apply filter_In in I. destruct I as [I O]. apply of_rank_eq in O. exact (Q f I O).
Qed.
Lemma count_all r F : (forall f, In f F -> fst f = r) -> count r F = length F.
Proof.
  intros Q. rewrite count_filter. f_equal. induction F as [|f F IH]; [reflexivity|].
  cbn [filter]. rewrite (proj2 (of_rank_eq r f)); [|apply Q; left; reflexivity].
  f_equal. apply IH. intros g I. apply Q. right. exact I.
Qed.
Lemma count_incl r F H : NoDup F -> incl F H -> count r F <= count r H.
Proof.
  intros N I. rewrite !count_filter. apply NoDup_incl_length; [apply NoDup_filter, N|].
  intros f Hf. apply filter_In in Hf. apply filter_In. split; [apply I; tauto|tauto].
Qed.
Lemma scount_incl s F H : NoDup F -> incl F H -> scount s F <= scount s H.
Proof.
  intros N I. apply NoDup_incl_length; [apply NoDup_filter, N|].
  intros f Hf. apply filter_In in Hf. apply filter_In. split; [apply I; tauto|tauto].
Qed.
Lemma count_in r H : 1 <= count r H -> exists f, In f H /\ fst f = r.
Proof.
  rewrite count_filter. destruct (filter (of_rank r) H) as [|f l] eqn:E; simpl; [lia|]. intros _.
  exists f. assert (I : In f (filter (of_rank r) H)) by (rewrite E; left; reflexivity).
  apply filter_In in I. rewrite of_rank_eq in I. exact I.
Qed.
Lemma in_count r H : In r (ranks H) -> 1 <= count r H.
Proof. intros I. unfold count. apply count_occ_In. exact I. Qed.

Lemma sum_counts H : list_sum (map (fun r => count r H) high_to_low) = length H.
Proof.
  induction H as [|f H IH]; [reflexivity|]. cbn [length]. rewrite <- IH.
  assert (E : forall r, count r (f :: H) = (if rank_dec (fst f) r then 1 else 0) + count r H).
  { intros r. unfold count, ranks. cbn [map count_occ]. destruct (rank_dec (fst f) r); reflexivity. }
  rewrite (map_ext _ _ E). cbn [high_to_low map list_sum fold_right].
  destruct (fst f); cbn; lia.
Qed.
Lemma sum_scounts H :
  scount Clubs H + scount Hearts H + scount Spades H + scount Diamonds H = length H.
Proof.
  unfold scount. induction H as [|[r []] H IH]; [reflexivity| | | |]; cbn [filter of_suit snd suit_eqb length]; lia.
Qed.

Lemma NoDup_app_disj {A} (a b : list A) : NoDup a -> NoDup b -> (forall x, In x a -> ~ In x b) ->
  NoDup (a ++ b).
Proof.
  intros Na Nb D. induction Na as [|x a Hx Ha IH]; [exact Nb|]. simpl. constructor.
  - rewrite in_app_iff. intros [H|H]; [exact (Hx H)|]. exact (D x (or_introl eq_refl) H).
  - apply IH. intros y Hy. apply D. right. exact Hy.
Qed.

Lemma sum_except (f : rank -> nat) k E : NoDup E ->
  (forall r, ~ In r E -> f r <= k) ->
  list_sum (map f high_to_low) <= list_sum (map f E) + k * (13 - length E).
Proof.
  intros NE B. set (out := fun r => if in_dec rank_dec r E then false else true).
  assert (P : Permutation high_to_low (E ++ filter out high_to_low)).
  { assert (N13 : NoDup high_to_low) by (repeat constructor; simpl; intuition discriminate).
    apply NoDup_Permutation.
    - exact N13.
    - apply NoDup_app_disj; [exact NE|apply NoDup_filter, N13|].
      intros r I J. apply filter_In in J. unfold out in J. destruct (in_dec rank_dec r E); [|contradiction].
      destruct J; discriminate.
    - intros r. rewrite in_app_iff, filter_In. unfold out. pose proof (in_high_to_low r).
      destruct (in_dec rank_dec r E); tauto. }
  assert (L : length (filter out high_to_low) = 13 - length E).
  { apply Permutation_length in P. rewrite app_length in P. change (length high_to_low) with 13 in P. lia. }
  assert (S : forall a b, Permutation a b -> list_sum (map f a) = list_sum (map f b)).
  { clear. induction 1; simpl; unfold list_sum in *; simpl; lia. }
  rewrite (S _ _ P), map_app, list_sum_app, <- L.
  assert (Q : forall l, (forall r, In r l -> f r <= k) -> list_sum (map f l) <= k * length l).
  { clear. induction l as [|r l IH]; intros Q; simpl; [lia|].
    pose proof (Q r (or_introl eq_refl)). unfold list_sum in *. specialize (IH (fun r I => Q r (or_intror I))). nia. }
  enough (list_sum (map f (filter out high_to_low)) <= k * length (filter out high_to_low)) by lia.
  apply Q. intros r I. apply filter_In in I. apply B. intros J. unfold out in I.
  destruct (in_dec rank_dec r E); [destruct I; discriminate|contradiction].
Qed.

Lemma count_le4 r H : NoDup H -> count r H <= 4.
Proof.
  intros N. rewrite count_filter. change 4 with (length (map (pair r) SUIT_ALL_VARIANTS)).
  apply NoDup_incl_length; [apply NoDup_filter, N|]. intros [q s] I. apply filter_In in I.
  destruct I as [_ I]. apply of_rank_eq in I. simpl in I. subst q. apply in_map, in_all_suits.
Qed.

(** [M]: ranks missing in a suit. *)
Lemma scount_missing s M H : NoDup H -> NoDup M -> (forall r, In r M -> ~ In (r, s) H) ->
  scount s H + length M <= 13.
Proof.
  intros N NM D. unfold scount.
  change 13 with (length (map (fun r => (r, s)) high_to_low)).
  rewrite <- (map_length (fun r => (r, s)) M), <- app_length. apply NoDup_incl_length.
  - apply NoDup_app_disj; [apply NoDup_filter, N| |].
    + apply (FinFun.Injective_map_NoDup); [|exact NM]. intros a b Q. congruence.
    + intros f I J. apply filter_In in I. apply in_map_iff in J. destruct J as (r & <- & J).
      exact (D r J (proj1 I)).
  - intros [r q] I. apply in_app_iff in I.
    assert (q = s) as ->.
    { destruct I as [I|I]; [apply filter_In in I; destruct I as [_ I]; apply of_suit_eq in I; exact I|].
      apply in_map_iff in I. destruct I as (x & Q & _). congruence. }
    apply in_map_iff. exists r. split; [reflexivity|apply in_high_to_low].
Qed.

(** ** Choosing cards *)
Definition pick (r : rank) (k : nat) (H : list face) : list face := firstn k (filter (of_rank r) H).
Lemma firstn_in {A} k (l : list A) x : In x (firstn k l) -> In x l.
Proof. intros I. rewrite <- (firstn_skipn k l). apply in_or_app. left. exact I. Qed.
Lemma firstn_NoDup {A} k (l : list A) : NoDup l -> NoDup (firstn k l).
Proof.
  intros N. rewrite <- (firstn_skipn k l) in N. revert N. generalize (skipn k l). intros m.
  induction (firstn k l) as [|x a IH]; simpl; intros N; [constructor|].
  inversion N as [|? ? Hx Ha]; subst. constructor; [|apply IH, Ha].
  intros I. apply Hx. apply in_or_app. left. exact I.
Qed.
Lemma pick_in r k H f : In f (pick r k H) -> In f H /\ fst f = r.
Proof. intros I. apply firstn_in, filter_In in I. rewrite of_rank_eq in I. exact I. Qed.
Lemma pick_length r k H : k <= count r H -> length (pick r k H) = k.
Proof. rewrite count_filter. intros L. unfold pick. rewrite firstn_length. lia. Qed.
Lemma pick_NoDup r k H : NoDup H -> NoDup (pick r k H).
Proof. intros N. apply firstn_NoDup, NoDup_filter, N. Qed.
Lemma pick_count r k H : k <= count r H -> count r (pick r k H) = k.
Proof.
  intros L. rewrite count_all; [apply pick_length, L|]. intros f I. apply pick_in in I. tauto.
Qed.
Lemma pick_other r q k H : q <> r -> count q (pick r k H) = 0.
Proof. intros N. apply count_zero. intros f I. apply pick_in in I. destruct I. congruence. Qed.

(** Any cards can be completed to five. *)
Lemma complete (F H : list face) : NoDup F -> NoDup H -> incl F H -> length F <= 5 -> 5 <= length H ->
  exists G, NoDup (F ++ G) /\ length (F ++ G) = 5 /\ incl (F ++ G) H.
Proof.
  intros NF NH I LF LH.
  assert (D : forall a b : face, {a = b} + {a <> b}) by (repeat decide equality).
  set (out := fun f => if in_dec D f F then false else true).
  assert (P : Permutation H (F ++ filter out H)).
  { apply NoDup_Permutation; [exact NH| |].
    - apply NoDup_app_disj; [exact NF|apply NoDup_filter, NH|].
      intros f J K. apply filter_In in K. unfold out in K. destruct (in_dec D f F); [|contradiction].
      destruct K; discriminate.
    - intros f. rewrite in_app_iff, filter_In. unfold out.
      destruct (in_dec D f F) as [J|J]; [|tauto]. specialize (I f J). tauto. }
  exists (firstn (5 - length F) (filter out H)).
  assert (N : NoDup (F ++ filter out H)) by (apply (Permutation_NoDup P), NH).
  assert (L : length F + length (filter out H) = length H)
    by (rewrite <- app_length; symmetry; apply Permutation_length, P).
  replace (F ++ firstn (5 - length F) (filter out H)) with (firstn 5 (F ++ filter out H)).
  - split; [apply firstn_NoDup, N|]. split.
    + rewrite firstn_length, app_length. lia.
    + intros f J. apply firstn_in in J. apply (Permutation_in _ (Permutation_sym P)), J.
  - rewrite firstn_app. rewrite (firstn_all2 F) by lia. reflexivity.
Qed.

(** ** Lower bounds *)
Lemma pair_up F c r : 2 <= count r F -> classify F c -> 1 <= category c.
Proof.
  intros Q C. destruct c; simpl in *; try lia. destruct C as (_ & _ & C & _). specialize (C r). lia.
Qed.
Lemma two_pair_up F c p q : p <> q -> 2 <= count p F -> 2 <= count q F -> classify F c -> 2 <= category c.
Proof.
  intros N P Q C. destruct c as [h|r| | | | | | |]; simpl in *; try lia.
  - destruct C as (_ & _ & C & _). specialize (C p). lia.
  - destruct C as (_ & C). destruct (rank_dec p r) as [->|D].
    + specialize (C q). specialize (C ltac:(congruence)). lia.
    + specialize (C p D). lia.
Qed.
Lemma trips_up F c t : length F = 5 -> 3 <= count t F -> classify F c -> 2 <= category c.
Proof.
  intros L Q C. destruct c as [h|r| | | | | | |]; simpl in *; try lia.
  - destruct C as (_ & _ & C & _). specialize (C t). lia.
  - destruct C as (C1 & C). destruct (rank_dec t r) as [->|D]; [lia|]. specialize (C t D). lia.
Qed.
Lemma sequence_up F c top : in_sequence F top -> classify F c -> 4 <= category c.
Proof.
  intros S C. pose proof (NoDup_ranks_count F (in_sequence_NoDup F top S)) as N.
  destruct c; simpl in *; try lia.
  - destruct C as (_ & C & _). exfalso. exact (C top S).
  - specialize (N pair). lia.
  - specialize (N first_pair). lia.
  - specialize (N trips). lia.
Qed.

Section lower.
  Context (ev : evaluator) (h : list card) (e : eval).
  Context (Hev : new_evaluator ev) (A : all_cards h) (E : evaluates ev h e).
  Let H := faces h.

  Local Lemma NH : NoDup H.
  Proof using A E. apply NoDup_faces; [exact A|]. apply (evaluates_legal ev h e A E). Qed.
  Local Lemma LH : length H = length h.
  Proof using. apply map_length. Qed.
  Local Lemma five_at_least : 5 <= length H.
  Proof using A E. rewrite LH. apply (evaluates_legal ev h e A E). Qed.

  Lemma from_cards F k : NoDup F -> length F <= 5 -> incl F H ->
    (forall G c, length (F ++ G) = 5 -> classify (F ++ G) c -> k <= category c) ->
    k <= category (eval_class_of e).
  Proof using Hev A E.
    intros N L I C. destruct (complete F H N NH I L five_at_least) as (G & NG & LG & IG).
    apply (at_least ev h e (F ++ G) k Hev A E NG LG IG). intros c. apply C, LG.
  Qed.

  Lemma has_pair r : 2 <= count r H -> 1 <= category (eval_class_of e).
  Proof using Hev A E.
    intros Q. apply (from_cards (pick r 2 H)).
    - apply pick_NoDup, NH.
    - rewrite pick_length; [lia|exact Q].
    - intros f I. apply pick_in in I. tauto.
    - intros G c _ C. apply (pair_up _ c r) in C; [exact C|].
      rewrite count_app_face, pick_count by exact Q. lia.
  Qed.

  Lemma has_two_pair p q : p <> q -> 2 <= count p H -> 2 <= count q H -> 2 <= category (eval_class_of e).
  Proof using Hev A E.
    intros D P Q. apply (from_cards (pick p 2 H ++ pick q 2 H)).
    - apply NoDup_app_disj; try apply pick_NoDup, NH.
      intros f I J. apply pick_in in I. apply pick_in in J. destruct I, J. congruence.
    - rewrite app_length, !pick_length by assumption. lia.
    - intros f I. apply in_app_iff in I. destruct I as [I|I]; apply pick_in in I; tauto.
    - intros G c _ C. apply (two_pair_up _ c p q D) in C; [exact C| |];
        rewrite !count_app_face.
      + rewrite pick_count by exact P. lia.
      + rewrite (pick_count q) by exact Q. lia.
  Qed.

  Lemma has_trips t : 3 <= count t H -> 2 <= category (eval_class_of e).
  Proof using Hev A E.
    intros Q. apply (from_cards (pick t 3 H)).
    - apply pick_NoDup, NH.
    - rewrite pick_length; [lia|exact Q].
    - intros f I. apply pick_in in I. tauto.
    - intros G c L C. apply (trips_up _ c t L) in C; [exact C|].
      rewrite count_app_face, pick_count by exact Q. lia.
  Qed.

  Lemma has_full_house t p : p <> t -> 3 <= count t H -> 2 <= count p H -> 6 <= category (eval_class_of e).
  Proof using Hev A E.
    intros D T P. set (F := pick t 3 H ++ pick p 2 H).
    assert (N : NoDup F).
    { apply NoDup_app_disj; try apply pick_NoDup, NH.
      intros f I J. apply pick_in in I. apply pick_in in J. destruct I, J. congruence. }
    assert (L : length F = 5) by (unfold F; rewrite app_length, !pick_length by assumption; reflexivity).
    apply (at_least ev h e F 6 Hev A E N L).
    - intros f I. apply in_app_iff in I. destruct I as [I|I]; apply pick_in in I; tauto.
    - intros c C. rewrite (classify_unique F c (FullHouse t p)); [simpl; lia|split; assumption|exact C|].
      split; unfold F; rewrite count_app_face.
      + rewrite pick_count, pick_other by (congruence || assumption). reflexivity.
      + rewrite pick_count, pick_other by (congruence || assumption). reflexivity.
  Qed.

  Lemma has_suit s : 5 <= scount s H -> 5 <= category (eval_class_of e).
  Proof using Hev A E.
    intros Q. set (F := firstn 5 (filter (of_suit s) H)).
    assert (N : NoDup F) by (apply firstn_NoDup, NoDup_filter, NH).
    assert (L : length F = 5) by (unfold F; rewrite firstn_length; unfold scount in Q; lia).
    apply (at_least ev h e F 5 Hev A E N L).
    - intros f I. apply firstn_in, filter_In in I. tauto.
    - intros c C. apply (suited_category F c); [split; assumption| |exact C].
      exists s. apply Forall_forall. intros f I. apply firstn_in, filter_In in I.
      apply of_suit_eq, I.
  Qed.

  Lemma has_window (w : list rank) top : NoDup w -> length w = 5 ->
    map pips w = [pips top - 4; pips top - 3; pips top - 2; pips top - 1; pips top] ->
    (forall r, In r w -> 1 <= count r H) -> 4 <= category (eval_class_of e).
  Proof using Hev A E.
    intros Nw Lw P Q.
    assert (X : exists F, ranks F = w /\ incl F H).
    { clear Nw Lw P. induction w as [|r w IH]; [exists []; split; [reflexivity|intros f []]|].
      destruct IH as (F & R & I); [intros q J; apply Q; right; exact J|].
      destruct (count_in r H (Q r (or_introl eq_refl))) as (f & If & Ef).
      exists (f :: F). split; [simpl; congruence|]. intros g [<-|J]; [exact If|apply I, J]. }
    destruct X as (F & R & I).
    assert (N : NoDup F) by (apply (NoDup_map_inv fst); fold (ranks F); rewrite R; exact Nw).
    assert (L : length F = 5) by (rewrite <- Lw, <- R; unfold ranks; rewrite map_length; reflexivity).
    apply (at_least ev h e F 4 Hev A E N L I). intros c. apply (sequence_up F c top).
    left. cbv zeta. rewrite R, P. apply Permutation_refl.
  Qed.

  Lemma has_suited_window (w : list rank) top s : NoDup w -> length w = 5 ->
    map pips w = [pips top - 4; pips top - 3; pips top - 2; pips top - 1; pips top] ->
    (forall r, In r w -> In (r, s) H) -> 8 <= category (eval_class_of e).
  Proof using Hev A E.
    intros Nw Lw P Q. set (F := map (fun r => (r, s)) w).
    assert (R : ranks F = w) by (unfold ranks, F; rewrite map_map; apply map_id).
    assert (N : NoDup F) by (apply (NoDup_map_inv fst); fold (ranks F); rewrite R; exact Nw).
    assert (L : length F = 5) by (rewrite <- Lw, <- R; unfold ranks; rewrite map_length; reflexivity).
    apply (at_least ev h e F 8 Hev A E N L).
    - intros f I. apply in_map_iff in I. destruct I as (r & <- & I). apply Q, I.
    - intros c C. rewrite (classify_unique F c (StraightFlush top)); [simpl; lia|split; assumption|exact C|].
      split.
      + exists s. apply Forall_forall. intros f I. apply in_map_iff in I. destruct I as (r & <- & I). reflexivity.
      + left. cbv zeta. rewrite R, P. apply Permutation_refl.
  Qed.

  Lemma has_rank_four r : 4 <= count r H -> 7 <= category (eval_class_of e).
  Proof using Hev A E.
    intros Q. pose proof (count_le4 r H NH). apply (four_same_rank ev h e r Hev A E). unfold H in *. lia.
  Qed.
End lower.

Definition w1 : list rank := [Two; Three; Four; Five; Six].
Definition w2 : list rank := [Seven; Eight; Nine; Ten; Jack].

Lemma all_or_missing (P : rank -> Prop) (D : forall r, {P r} + {~ P r}) (w : list rank) :
  (forall r, In r w -> P r) \/ exists r, In r w /\ ~ P r.
Proof.
  induction w as [|r w IH]; [left; intros r []|].
  destruct (D r) as [Y|N]; [|right; exists r; split; [left; reflexivity|exact N]].
  destruct IH as [IH|(q & I & N)]; [left; intros q [<-|I]; auto|].
  right. exists q. split; [right; exact I|exact N].
Qed.
Lemma any_or_none (P : rank -> Prop) (D : forall r, {P r} + {~ P r}) :
  (exists r, P r) \/ forall r, ~ P r.
Proof.
  destruct (all_or_missing (fun r => ~ P r) (fun r => match D r with left y => right (fun n => n y) | right n => left n end)
    high_to_low) as [N|(r & _ & N)].
  - right. intros r. apply N, in_high_to_low.
  - left. exists r. destruct (D r); tauto.
Qed.
Lemma w1_w2 r1 r2 : In r1 w1 -> In r2 w2 -> r1 <> r2.
Proof. intros I J ->. simpl in *. intuition (subst; discriminate). Qed.

Theorem size_guarantees ev h e : new_evaluator ev -> all_cards h -> evaluates ev h e ->
  guaranteed (length h) <= category (eval_class_of e).
Proof.
  intros Hev A E. set (H := faces h).
  pose proof (NH ev h e A E) as N. fold H in N.
  assert (L : length H = length h) by apply map_length.
  pose proof (sum_counts H) as SR. pose proof (sum_scounts H) as SS. rewrite L in SR, SS.
  pose proof (fun r => count_le4 r H N) as C4.
  assert (W : 12 <= length h -> (exists r, 2 <= count r H) \/ 4 <= category (eval_class_of e)).
  { intros G. destruct (any_or_none (fun r => 2 <= count r H) (fun r => le_dec _ _)) as [X|X]; [left; exact X|].
    right.
    destruct (all_or_missing (fun r => 1 <= count r H) (fun r => le_dec _ _) w1) as [Y|(r1 & I1 & Y1)].
    { apply (has_window ev h e Hev A E w1 Six); [repeat constructor; simpl; intuition discriminate|reflexivity|reflexivity|exact Y]. }
    destruct (all_or_missing (fun r => 1 <= count r H) (fun r => le_dec _ _) w2) as [Y|(r2 & I2 & Y2)].
    { apply (has_window ev h e Hev A E w2 Jack); [repeat constructor; simpl; intuition discriminate|reflexivity|reflexivity|exact Y]. }
    exfalso. pose proof (sum_except (fun r => count r H) 1 [r1; r2]) as Q. rewrite SR in Q.
    cbn [map list_sum fold_right length] in Q.
    assert (length h <= count r1 H + (count r2 H + 0) + 1 * (13 - 2)).
    { apply Q.
      - constructor; [|constructor; [intros []|constructor]]. intros [Z|[]]. exact (w1_w2 r1 r2 I1 I2 (eq_sym Z)).
      - intros r _. specialize (X r). lia. }
    lia. }
  unfold guaranteed.
  destruct (Nat.ltb_spec (length h) 12) as [B|B]; [simpl; lia|].
  destruct (Nat.ltb_spec (length h) 13) as [B1|B1].
  { cbn [category]. destruct (W B) as [(r & Q)|Q]; [|lia]. exact (has_pair ev h e Hev A E r Q). }
  destruct (Nat.ltb_spec (length h) 17) as [B2|B2].
  { cbn [category].
    destruct (any_or_none (fun r => 3 <= count r H) (fun r => le_dec _ _)) as [(t & T)|X].
    { exact (has_trips ev h e Hev A E t T). }
    destruct (all_or_missing (fun r => 1 <= count r H) (fun r => le_dec _ _) w1) as [Y|(r1 & I1 & Y1)].
    { enough (4 <= category (eval_class_of e)) by lia.
      apply (has_window ev h e Hev A E w1 Six); [repeat constructor; simpl; intuition discriminate|reflexivity|reflexivity|exact Y]. }
    destruct (all_or_missing (fun r => 1 <= count r H) (fun r => le_dec _ _) w2) as [Y|(r2 & I2 & Y2)].
    { enough (4 <= category (eval_class_of e)) by lia.
      apply (has_window ev h e Hev A E w2 Jack); [repeat constructor; simpl; intuition discriminate|reflexivity|reflexivity|exact Y]. }
    destruct (W B) as [(p & P)|Q]; [|lia].
    destruct (any_or_none (fun r => r <> p /\ 2 <= count r H)) as [(q & D & Q)|Z].
    { intros r. destruct (rank_dec r p); [right; tauto|]. destruct (le_dec 2 (count r H)); [left; tauto|right; tauto]. }
    { exact (has_two_pair ev h e Hev A E p q (not_eq_sym D) P Q). }
    exfalso. pose proof (sum_except (fun r => count r H) 1 [r1; r2; p]) as Q. rewrite SR in Q.
    cbn [map list_sum fold_right length] in Q.
    assert (length h <= count r1 H + (count r2 H + (count p H + 0)) + 1 * (13 - 3)).
    { apply Q.
      - constructor; [|constructor; [|constructor; [intros []|constructor]]].
        + intros [Z'|[Z'|[]]]; [exact (w1_w2 r1 r2 I1 I2 (eq_sym Z'))|]. subst. lia.
        + intros [Z'|[]]. subst. lia.
      - intros r Nr. specialize (Z r). destruct (rank_dec r p) as [->|D]; [exfalso; apply Nr; simpl; tauto|].
        assert (~ 2 <= count r H) by tauto. lia. }
    specialize (X p). lia. }
  destruct (Nat.ltb_spec (length h) 27) as [B3|B3].
  { cbn [category].
    assert (Q : 5 <= scount Clubs H \/ 5 <= scount Hearts H \/ 5 <= scount Spades H \/ 5 <= scount Diamonds H) by lia.
    destruct Q as [Q|[Q|[Q|Q]]]; exact (has_suit ev h e Hev A E _ Q). }
  destruct (Nat.ltb_spec (length h) 40) as [B4|B4].
  { cbn [category].
    destruct (any_or_none (fun r => 3 <= count r H) (fun r => le_dec _ _)) as [(t & T)|X].
    - destruct (any_or_none (fun r => r <> t /\ 2 <= count r H)) as [(q & D & Q)|Z].
      { intros r. destruct (rank_dec r t); [right; tauto|]. destruct (le_dec 2 (count r H)); [left; tauto|right; tauto]. }
      { exact (has_full_house ev h e Hev A E t q D T Q). }
      exfalso. pose proof (sum_except (fun r => count r H) 1 [t]) as Q. rewrite SR in Q.
      cbn [map list_sum fold_right length] in Q.
      assert (length h <= count t H + 0 + 1 * (13 - 1)).
      { apply Q; [constructor; [intros []|constructor]|]. intros r Nr.
        destruct (rank_dec r t) as [->|D]; [exfalso; apply Nr; simpl; tauto|].
        specialize (Z r). assert (~ 2 <= count r H) by tauto. lia. }
      specialize (C4 t). lia.
    - exfalso. pose proof (sum_except (fun r => count r H) 2 []) as Q. rewrite SR in Q.
      cbn [map list_sum fold_right length] in Q.
      assert (length h <= 0 + 2 * (13 - 0)) by (apply Q; [constructor|intros r _; specialize (X r); lia]). lia. }
  destruct (Nat.ltb_spec (length h) 45) as [B5|B5].
  { cbn [category].
    destruct (any_or_none (fun r => 4 <= count r H) (fun r => le_dec _ _)) as [(t & T)|X].
    - exact (has_rank_four ev h e Hev A E t T).
    - exfalso. pose proof (sum_except (fun r => count r H) 3 []) as Q. rewrite SR in Q.
      cbn [map list_sum fold_right length] in Q.
      assert (length h <= 0 + 3 * (13 - 0)) by (apply Q; [constructor|intros r _; specialize (X r); lia]). lia. }
  cbn [category].
  assert (D : forall a b : face, {a = b} + {a <> b}) by (repeat decide equality).
  assert (Q : forall s, scount s H <= 11 \/ 8 <= category (eval_class_of e)).
  { intros s.
    destruct (all_or_missing (fun r => In (r, s) H) (fun r => in_dec D _ _) w1) as [Y|(r1 & I1 & Y1)].
    { right. apply (has_suited_window ev h e Hev A E w1 Six s); [repeat constructor; simpl; intuition discriminate|reflexivity|reflexivity|exact Y]. }
    destruct (all_or_missing (fun r => In (r, s) H) (fun r => in_dec D _ _) w2) as [Y|(r2 & I2 & Y2)].
    { right. apply (has_suited_window ev h e Hev A E w2 Jack s); [repeat constructor; simpl; intuition discriminate|reflexivity|reflexivity|exact Y]. }
    left. pose proof (scount_missing s [r1; r2] H N) as Q. simpl length in Q.
    enough (scount s H + 2 <= 13) by lia. apply Q.
    - constructor; [|constructor; [intros []|constructor]]. intros [Z|[]]. exact (w1_w2 r1 r2 I1 I2 (eq_sym Z)).
    - intros r [<-|[<-|[]]]; assumption. }
  destruct (Q Clubs); [|lia]. destruct (Q Hearts); [|lia]. destruct (Q Spades); [|lia].
  destruct (Q Diamonds); lia.
Qed.

Theorem size_royal ev h e : new_evaluator ev -> all_cards h -> evaluates ev h e ->
  49 <= length h -> e = EVAL_BEST.
Proof.
  intros Hev A E B. set (H := faces h). pose proof (NH ev h e A E) as N. fold H in N.
  assert (L : length H = length h) by apply map_length.
  pose proof (sum_scounts H) as SS. rewrite L in SS.
  apply (holds_royal ev h e Hev A E).
  assert (D : forall a b : face, {a = b} + {a <> b}) by (repeat decide equality).
  assert (Q : forall s, scount s H <= 12 \/ incl (royal s) h).
  { intros s.
    destruct (all_or_missing (fun r => In (r, s) H) (fun r => in_dec D _ _) [Ten; Jack; Queen; King; Ace])
      as [Y|(r1 & I1 & Y1)].
    - right. intros c I. apply in_map_iff in I. destruct I as (r & <- & I).
      exact (card_at_in h (r, s) A (Y r I)).
    - left. pose proof (scount_missing s [r1] H N) as Q. simpl length in Q.
      enough (scount s H + 1 <= 13) by lia. apply Q; [constructor; [intros []|constructor]|].
      intros r [<-|[]]. exact Y1. }
  destruct (Q Clubs); [|eauto]. destruct (Q Hearts); [|eauto]. destruct (Q Spades); [|eauto].
  destruct (Q Diamonds); [lia|eauto].
Qed.

(** ** Upper bounds: hands of every size that reach no more *)
Definition windows : list (list rank) :=
  [ [Ace; Two; Three; Four; Five]; [Two; Three; Four; Five; Six]; [Three; Four; Five; Six; Seven];
    [Four; Five; Six; Seven; Eight]; [Five; Six; Seven; Eight; Nine]; [Six; Seven; Eight; Nine; Ten];
    [Seven; Eight; Nine; Ten; Jack]; [Eight; Nine; Ten; Jack; Queen];
    [Nine; Ten; Jack; Queen; King]; [Ten; Jack; Queen; King; Ace] ].

Lemma sequence_window F top : in_sequence F top -> exists w, In w windows /\ incl w (ranks F).
Proof.
  assert (PI : forall r l, In (pips r) (map pips l) -> In r l).
  { intros r l I. apply in_map_iff in I. destruct I as (q & Q & I).
    assert (q = r) as -> by (destruct q, r; try reflexivity; discriminate Q). exact I. }
  intros [P|(_ & P)].
  - cbv zeta in P.
    assert (X : forall n, In n [pips top - 4; pips top - 3; pips top - 2; pips top - 1; pips top] ->
      exists r, pips r = n /\ In r (ranks F)).
    { intros n I. apply (Permutation_in _ (Permutation_sym P)) in I. apply in_map_iff in I. exact I. }
    assert (W : forall w, map pips w = [pips top - 4; pips top - 3; pips top - 2; pips top - 1; pips top] ->
      incl w (ranks F)).
    { intros w Q r I. apply PI. apply (Permutation_in _ (Permutation_sym P)). rewrite <- Q. apply in_map, I. }
    clear P.
    destruct top;
    try (destruct (X _ (or_introl eq_refl)) as ([] & Q & _); discriminate Q);
    match goal with
    | _ => exists [Two; Three; Four; Five; Six]; split; [simpl; tauto|apply W; reflexivity]
    | _ => exists [Three; Four; Five; Six; Seven]; split; [simpl; tauto|apply W; reflexivity]
    | _ => exists [Four; Five; Six; Seven; Eight]; split; [simpl; tauto|apply W; reflexivity]
    | _ => exists [Five; Six; Seven; Eight; Nine]; split; [simpl; tauto|apply W; reflexivity]
    | _ => exists [Six; Seven; Eight; Nine; Ten]; split; [simpl; tauto|apply W; reflexivity]
    | _ => exists [Seven; Eight; Nine; Ten; Jack]; split; [simpl; tauto|apply W; reflexivity]
    | _ => exists [Eight; Nine; Ten; Jack; Queen]; split; [simpl; tauto|apply W; reflexivity]
    | _ => exists [Nine; Ten; Jack; Queen; King]; split; [simpl; tauto|apply W; reflexivity]
    | _ => exists [Ten; Jack; Queen; King; Ace]; split; [simpl; tauto|apply W; reflexivity]
    end.
  - exists [Ace; Two; Three; Four; Five]. split; [left; reflexivity|]. intros r I.
    apply (Permutation_in _ (Permutation_sym P)). exact I.
Qed.

Definition face_in (H : list face) (f : face) : bool :=
  existsb (fun g => of_rank (fst f) g && of_suit (snd f) g) H.
Lemma face_in_true H f : In f H -> face_in H f = true.
Proof.
  intros I. apply existsb_exists. exists f. split; [exact I|].
  rewrite (proj2 (of_rank_eq _ f) eq_refl), (proj2 (of_suit_eq _ f) eq_refl). reflexivity.
Qed.

Definition none_above (g : nat) (H : list face) : bool :=
  (Nat.leb 8 g || forallb (fun s => forallb (fun w =>
      existsb (fun r => negb (face_in H (r, s))) w) windows) SUIT_ALL_VARIANTS)
  && (Nat.leb 7 g || forallb (fun r => Nat.ltb (count r H) 4) high_to_low)
  && (Nat.leb 6 g || forallb (fun t => forallb (fun p =>
      of_rank t (p, Clubs) || negb (Nat.leb 3 (count t H) && Nat.leb 2 (count p H))) high_to_low) high_to_low)
  && (Nat.leb 5 g || forallb (fun s => Nat.ltb (scount s H) 5) SUIT_ALL_VARIANTS)
  && (Nat.leb 4 g || forallb (fun w => existsb (fun r => Nat.eqb (count r H) 0) w) windows)
  && (Nat.leb 3 g || forallb (fun r => Nat.ltb (count r H) 3) high_to_low)
  && (Nat.leb 2 g || forallb (fun t => forallb (fun p =>
      of_rank t (p, Clubs) || negb (Nat.leb 2 (count t H) && Nat.leb 2 (count p H))) high_to_low) high_to_low)
  && (Nat.leb 1 g || forallb (fun r => Nat.ltb (count r H) 2) high_to_low).

Lemma none_above_spec g H F c : none_above g H = true -> NoDup F -> length F = 5 -> incl F H ->
  classify F c -> category c <= g.
Proof.
  intros B N L I C.
  pose proof (fun r => count_incl r F H N I) as CI.
  unfold none_above in B. rewrite !andb_true_iff, !orb_true_iff in B.
  destruct B as (((((((B8 & B7) & B6) & B5) & B4) & B3) & B2) & B1).
  assert (FA : forall (f : rank -> bool) r, forallb f high_to_low = true -> f r = true).
  { intros f r Q. rewrite forallb_forall in Q. apply Q, in_high_to_low. }
  assert (SA : forall (f : suit -> bool) s, forallb f SUIT_ALL_VARIANTS = true -> f s = true).
  { intros f s Q. rewrite forallb_forall in Q. apply Q, in_all_suits. }
  assert (OR : forall t p, t <> p -> of_rank t (p, Clubs) = false).
  { intros t p D. unfold of_rank. simpl. destruct (rank_dec p t); congruence. }
  destruct c; cbn [category classify] in *.
  - lia.
  - destruct B1 as [B1|B1]; [apply Nat.leb_le in B1; exact B1|].
    apply (FA _ pair), Nat.ltb_lt in B1. specialize (CI pair). lia.
  - destruct B2 as [B2|B2]; [apply Nat.leb_le in B2; exact B2|].
    destruct C as (C1 & C2 & O). exfalso.
    assert (D : first_pair <> second_pair) by (intros ->; lia).
    apply (FA _ first_pair) in B2. cbv beta in B2. apply (FA _ second_pair) in B2. cbv beta in B2. rewrite (OR _ _ D) in B2.
    apply negb_true_iff, andb_false_iff in B2. rewrite !Nat.leb_gt in B2.
    pose proof (CI first_pair). pose proof (CI second_pair). lia.
  - destruct B3 as [B3|B3]; [apply Nat.leb_le in B3; exact B3|].
    apply (FA _ trips), Nat.ltb_lt in B3. specialize (CI trips). lia.
  - destruct B4 as [B4|B4]; [apply Nat.leb_le in B4; exact B4|]. exfalso.
    destruct C as (_ & S). destruct (sequence_window F _ S) as (w & Iw & Q).
    rewrite forallb_forall in B4. specialize (B4 w Iw). apply existsb_exists in B4.
    destruct B4 as (r & Ir & Z). apply Nat.eqb_eq in Z.
    pose proof (in_count r F (Q r Ir)). specialize (CI r). lia.
  - destruct B5 as [B5|B5]; [apply Nat.leb_le in B5; exact B5|]. exfalso.
    destruct C as ((s & S) & _). apply (SA _ s), Nat.ltb_lt in B5.
    pose proof (scount_incl s F H N I) as Q.
    assert (scount s F = 5).
    { unfold scount. rewrite <- L. f_equal. clear -S. induction S as [|f F Q S IH]; [reflexivity|].
      cbn [filter]. rewrite (proj2 (of_suit_eq s f) Q), IH. reflexivity. }
    lia.
  - destruct B6 as [B6|B6]; [apply Nat.leb_le in B6; exact B6|]. exfalso.
    destruct C as (C1 & C2). assert (D : trips <> pair) by (intros ->; lia).
    apply (FA _ trips) in B6. cbv beta in B6. apply (FA _ pair) in B6. cbv beta in B6. rewrite (OR _ _ D) in B6.
    apply negb_true_iff, andb_false_iff in B6. rewrite !Nat.leb_gt in B6.
    pose proof (CI trips). pose proof (CI pair). lia.
  - destruct B7 as [B7|B7]; [apply Nat.leb_le in B7; exact B7|].
    match type of C with count ?q _ = _ => apply (FA _ q), Nat.ltb_lt in B7; specialize (CI q) end. lia.
  - destruct B8 as [B8|B8]; [apply Nat.leb_le in B8; exact B8|]. exfalso.
    destruct C as ((s & S) & Q). destruct (sequence_window F _ Q) as (w & Iw & W).
    apply (SA _ s) in B8. rewrite forallb_forall in B8. specialize (B8 w Iw). apply existsb_exists in B8.
    destruct B8 as (r & Ir & Z). apply negb_true_iff in Z. rewrite face_in_true in Z; [discriminate Z|].
    apply I. specialize (W r Ir). apply in_map_iff in W. destruct W as ([q t] & Eq & IF).
    rewrite Forall_forall in S. specialize (S _ IF). simpl in *. subst. exact IF.
Qed.

(** Sparse hands of the largest sizes. *)
Definition gap11 : list rank := [Ace; Two; Three; Four; Six; Seven; Eight; Nine; Jack; Queen; King].
Fixpoint cycle (l : list rank) (ss : list suit) : list face :=
  match l, ss with
  | r :: l, s :: ss => (r, s) :: cycle l (ss ++ [s])
  | _, _ => []
  end.
Definition sparse11 : list face := cycle gap11 SUIT_ALL_VARIANTS.
Definition sparse12 : list face := cycle (Ace :: gap11) SUIT_ALL_VARIANTS.
Definition sparse16 : list face :=
  cycle [Ace; Ace; Two; Two; Three; Three; Four; Four; Six; Six; Seven; Eight; Nine; Jack; Queen; King]
    SUIT_ALL_VARIANTS.
Definition all_faces : list face :=
  flat_map (fun s => map (fun r => (r, s)) high_to_low) SUIT_ALL_VARIANTS.
Definition without (miss : suit -> list rank) : list face :=
  filter (fun f => if in_dec rank_dec (fst f) (miss (snd f)) then false else true) all_faces.
Definition sparse26 : list face :=
  without (fun s => match s with
    | Clubs | Diamonds => [Two; Four; Six; Eight; Ten; Queen; Ace]
    | Hearts | Spades => [Three; Five; Seven; Nine; Jack; King] end).
Definition sparse39 : list face :=
  without (fun s => match s with
    | Clubs => [Five; Ten] | Diamonds => [Four; Nine; Ace] | Hearts => [Three; Eight; King]
    | Spades => [Two; Six; Seven; Jack; Queen] end).
Definition sparse44 : list face := without (fun _ => [Five; Ten]).
Definition sparse48 : list face := without (fun _ => [Ace]).
Definition sparse (n : nat) : list face :=
  firstn n (if Nat.ltb n 12 then sparse11 else if Nat.ltb n 13 then sparse12
    else if Nat.ltb n 17 then sparse16 else if Nat.ltb n 27 then sparse26
    else if Nat.ltb n 40 then sparse39 else if Nat.ltb n 45 then sparse44 else all_faces).

Lemma sparse_ok : forallb (fun n =>
  Nat.eqb (length (sparse n)) n && none_above (guaranteed n) (sparse n)
  && nodupb (sparse n)) (seq 0 53) = true.
Proof. vm_compute. reflexivity. Qed.

Lemma card_at_all F : all_cards (map card_at F).
Proof. apply Forall_forall. intros c I. apply in_map_iff in I. destruct I as (f & <- & _). apply a_card_new. Qed.

Theorem size_tight ev n : new_evaluator ev -> 5 <= n <= 52 ->
  exists h e, legal h /\ length h = n /\ evaluates ev h e /\ category (eval_class_of e) = guaranteed n.
Proof.
  intros Hev B. pose proof sparse_ok as K. rewrite forallb_forall in K.
  specialize (K n ltac:(apply in_seq; lia)). rewrite !andb_true_iff, Nat.eqb_eq in K.
  destruct K as ((L & U) & D). apply nodupb_NoDup, card_at_NoDup in D. set (h := map card_at (sparse n)) in *.
  assert (Lh : length h = n) by (unfold h; rewrite map_length; exact L).
  assert (G : legal h) by (split; [apply card_at_all|split; [exact D|lia]]).
  destruct (evaluate_spec ev h Hev G) as (e & E & _).
  exists h, e. split; [exact G|]. split; [exact Lh|]. split; [exact E|].
  apply Nat.le_antisymm.
  - destruct (at_most ev h e Hev (proj1 G) E) as (F & (NF & LF) & I & C).
    unfold h in I. rewrite faces_card_at in I. exact (none_above_spec _ _ F _ U NF LF I C).
  - rewrite <- Lh. apply (size_guarantees ev h e Hev (proj1 G) E).
Qed.

Lemma sparse48_ok : forallb (fun s => negb (face_in sparse48 (Ace, s))) SUIT_ALL_VARIANTS
  && nodupb sparse48 && Nat.eqb (length sparse48) 48 = true.
Proof. vm_compute. reflexivity. Qed.

Theorem size_royal_tight ev : new_evaluator ev ->
  exists h e, legal h /\ length h = 48 /\ evaluates ev h e /\ e <> EVAL_BEST.
Proof.
  intros Hev. pose proof sparse48_ok as K. rewrite !andb_true_iff, Nat.eqb_eq in K.
  destruct K as ((M & D) & L). apply nodupb_NoDup, card_at_NoDup in D. set (h := map card_at sparse48) in *.
  assert (Lh : length h = 48) by (unfold h; rewrite map_length; exact L).
  assert (G : legal h) by (split; [apply card_at_all|split; [exact D|lia]]).
  destruct (evaluate_spec ev h Hev G) as (e & E & _).
  exists h, e. split; [exact G|]. split; [exact Lh|]. split; [exact E|]. intros Q.
  apply (holds_royal ev h e Hev (proj1 G) E) in Q. destruct Q as (s & I).
  assert (J : In (Ace, s) sparse48).
  { rewrite <- (faces_card_at sparse48). fold h.
    replace (Ace, s) with (face_of (card_new Ace s)) by (unfold face_of; rewrite card_rank_new, card_suit_new; reflexivity).
    apply in_map, I. simpl. tauto. }
  rewrite forallb_forall in M. specialize (M s (in_all_suits s)). rewrite (face_in_true _ _ J) in M. discriminate M.
Qed.
