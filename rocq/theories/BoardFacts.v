(** BoardFacts.v: what the cards on the table allow (C86). *)
From Coq Require Import Lia List Arith Bool Permutation.
From Verif Require Import Base BaseFacts ModelCard ModelEval ModelTable ModelEvaluation.
From Verif Require Import Spec SpecApi CardFacts Sweep SweepFacts SpecFacts EvalFacts FiveFacts CombosFacts EvaluateFacts.
From Verif Require Import HandFacts SizeFacts CategoryFacts OddsFacts.
From Verif Require Import SpecBest BestFacts WorthFacts ShowdownFacts SpecBoard.
Import ListNotations.
Local Open Scope nat_scope.

(** ** From cards to faces *)
Definition topcat (H : list face) (k : nat) : Prop := holds H k /\ forall j, holds H j -> j <= k.
Lemma topcat_unique H j k : topcat H j -> topcat H k -> j = k.
Proof. intros (A & B) (C & D). specialize (B _ C). specialize (D _ A). lia. Qed.
Lemma dealt ev b P : new_evaluator ev -> on_table b -> NoDup (faces b ++ P) -> length P = 2 ->
  exists e, pocket b (map card_of P) /\ evaluates ev (box_cards b [map card_of P]) e
    /\ topcat (faces b ++ P) (category (eval_class_of e)).
Proof.
  intros Hev (A & N & L) NP LP.
  assert (Ap : all_cards (map card_of P)).
  { apply Forall_forall. intros c I. apply in_map_iff in I. destruct I as ((r & s) & <- & _). exists r, s. reflexivity. }
  assert (Ab : all_cards (b ++ map card_of P)) by (apply Forall_app; split; assumption).
  assert (Fb : faces (b ++ map card_of P) = faces b ++ P) by (rewrite faces_app, faces_card_of; reflexivity).
  assert (Nb : NoDup (b ++ map card_of P)) by (apply (NoDup_faces _ Ab); rewrite Fb; exact NP).
  assert (Lg : legal (b ++ map card_of P)).
  { split; [exact Ab|]. split; [exact Nb|]. rewrite app_length, map_length. lia. }
  destruct (evaluate_spec ev _ Hev Lg) as (e & E & _). exists e.
  split; [split; [exact Ap|split; [exact Nb|rewrite map_length; exact LP]]|]. split; [exact E|].
  rewrite <- Fb. exact (category_holds ev _ e Hev Ab E).
Qed.
Lemma undealt ev b p e : new_evaluator ev -> on_table b -> pocket b p -> evaluates ev (box_cards b [p]) e ->
  NoDup (faces b ++ faces p) /\ length (faces p) = 2 /\ topcat (faces b ++ faces p) (category (eval_class_of e)).
Proof.
  intros Hev (A & N & L) (Ap & Np & Lp) E.
  assert (Ab : all_cards (b ++ p)) by (apply Forall_app; split; assumption).
  rewrite <- faces_app. split; [apply (NoDup_faces _ Ab), Np|]. split; [unfold faces; rewrite map_length; exact Lp|].
  exact (category_holds ev _ e Hev Ab E).
Qed.
Definition sized (B : list face) : Prop := NoDup B /\ 3 <= length B <= 5.
Lemma sized_table b : on_table b -> sized (faces b).
Proof.
  intros (A & N & L). split; [apply (NoDup_faces b A), N|]. unfold faces. rewrite map_length. exact L.
Qed.
Lemma allows_iff ev b ks (Q : Prop) : new_evaluator ev -> on_table b ->
  (forall P k, NoDup (faces b ++ P) -> length P = 2 -> topcat (faces b ++ P) k -> In k ks -> Q) ->
  (Q -> exists P, NoDup (faces b ++ P) /\ length P = 2 /\ forall k, topcat (faces b ++ P) k -> In k ks) ->
  (allows ev b ks <-> Q).
Proof.
  intros Hev T F G. split.
  - intros (p & e & Pp & E & I). destruct (undealt ev b p e Hev T Pp E) as (N & L & C). exact (F _ _ N L C I).
  - intros q. destruct (G q) as (P & N & L & K). destruct (dealt ev b P Hev T N L) as (e & Pp & E & C).
    exists (map card_of P), e. split; [exact Pp|]. split; [exact E|]. exact (K _ C).
Qed.
Lemma topcat_le H k : topcat H k -> k <= 8.
Proof. intros (Q & _). do 9 (destruct k as [|k]; [lia|]). destruct Q. Qed.

(** ** Patterns *)
Lemma suited_only F s : Forall (fun f => snd f = s) F -> forall H, incl F H -> incl F (only s H).
Proof. intros Q H I f J. apply only_in. split; [apply I, J|]. rewrite Forall_forall in Q. apply Q, J. Qed.
Lemma NoDup_only s H : NoDup H -> NoDup (only s H).
Proof. apply NoDup_filter. Qed.
Lemma firstn_incl {A} n (l : list A) : incl (firstn n l) l.
Proof. intros x I. rewrite <- (firstn_skipn n l). apply in_app_iff. left. exact I. Qed.
Lemma firstn_NoDup {A} n (l : list A) : NoDup l -> NoDup (firstn n l).
Proof. intros N. rewrite <- (firstn_skipn n l) in N. revert N. generalize (firstn n l) (skipn n l). intros a b N.
  induction a as [|x a IH]; [constructor|]. inversion_clear N as [|? ? Nx Nl]. constructor; [|apply IH, Nl].
  intros I. apply Nx, in_app_iff. left. exact I.
Qed.
Lemma holds5 H : NoDup H -> (holds H 5 <-> exists s, 5 <= length (only s H)).
Proof.
  intros N. split.
  - intros (F & (NF & LF) & I & s & Q). exists s. rewrite <- LF. apply NoDup_incl_length; [exact NF|]. apply suited_only; assumption.
  - intros (s & L). exists (firstn 5 (only s H)). split; [split; [apply firstn_NoDup, NoDup_only, N|rewrite firstn_length; lia]|]. split.
    + intros f I. apply firstn_incl in I. apply only_in in I. tauto.
    + exists s. apply Forall_forall. intros f I. apply firstn_incl in I. apply only_in in I. tauto.
Qed.
Lemma holds4 H : holds H 4 <-> exists t, In t tops /\ forall r, In r (run t) -> 1 <= count r H.
Proof.
  split.
  - intros (F & t & I & S). destruct (sequence_run F t S) as (T & R). exists t. split; [exact T|].
    intros r Hr. specialize (R r Hr). apply in_count. apply count_in in R. destruct R as (f & J & <-). apply in_map, I, J.
  - intros (t & T & R). destruct (cards_of_ranks H (run t) R) as (F & E & I). exists F, t. split; [exact I|].
    apply run_sequence; assumption.
Qed.
Lemma holds8 H : holds H 8 <-> exists s t, In t tops /\ forall r, In r (run t) -> In (r, s) H.
Proof.
  split.
  - intros (F & t & I & S & s & Q). destruct (sequence_run F t S) as (T & R). exists s, t. split; [exact T|].
    intros r Hr. specialize (R r Hr). apply count_in in R. destruct R as (f & J & E).
    rewrite Forall_forall in Q. pose proof (Q f J) as X. apply I. destruct f as [r' s']. cbn in *. subst. exact J.
  - intros (s & t & T & R). exists (map (fun r => (r, s)) (run t)), t. split; [|split].
    + intros f I. apply in_map_iff in I. destruct I as (r & <- & I). apply R, I.
    + apply run_sequence; [exact T|apply ranks_map].
    + apply suited_map.
Qed.
Lemma NoDup_pair (s : suit) (l : list rank) : NoDup l -> NoDup (map (fun r => (r, s)) l).
Proof. apply FinFun.Injective_map_NoDup. intros a b E. congruence. Qed.
Lemma holds8_5 H : NoDup H -> holds H 8 -> holds H 5.
Proof.
  intros N Q. apply holds8 in Q. destruct Q as (s & t & T & R). apply (holds5 H N). exists s.
  rewrite <- (run_length t T), <- (map_length (fun r => (r, s))). apply NoDup_incl_length; [apply NoDup_pair, run_NoDup|].
  intros f I. apply in_map_iff in I. destruct I as (r & <- & I). apply only_in. auto.
Qed.
Lemma holds8_4 H : holds H 8 -> holds H 4.
Proof.
  intros Q. apply holds8 in Q. destruct Q as (s & t & T & R). apply holds4. exists t. split; [exact T|].
  intros r I. apply in_count. exact (in_map fst _ _ (R r I)).
Qed.
(** Five different ranks leave no room for a full house or four of a kind in seven cards. *)
Lemma drop1 (a : rank) l : NoDup l -> length l <= S (length (filter (fun r => if rank_dec a r then false else true) l)).
Proof.
  intros N. change (S (length (filter (fun r => if rank_dec a r then false else true) l)))
    with (length (a :: filter (fun r => if rank_dec a r then false else true) l)).
  apply NoDup_incl_length; [exact N|]. intros r I. destruct (rank_dec a r) as [->|D]; [left; reflexivity|].
  right. apply filter_In. split; [exact I|]. destruct (rank_dec a r); [contradiction|reflexivity].
Qed.
Lemma sum_ge (H : list face) l : (forall r, In r l -> 1 <= count r H) -> length l <= list_sum (map (count_occ rank_dec (ranks H)) l).
Proof.
  induction l as [|r l IH]; intros Q; [reflexivity|]. cbn [map length].
  change (S (length l) <= count r H + list_sum (map (count_occ rank_dec (ranks H)) l)).
  specialize (IH (fun x I => Q x (or_intror I))). specialize (Q r (or_introl eq_refl)). lia.
Qed.
Lemma five_out H rs : length H <= 7 -> NoDup rs -> 5 <= length rs -> (forall r, In r rs -> 1 <= count r H) ->
  ~ holds H 6 /\ ~ holds H 7.
Proof.
  intros L N L5 R. assert (LR : length (ranks H) = length H) by apply map_length.
  assert (D : forall a l, NoDup l -> NoDup (a :: filter (fun r => if rank_dec a r then false else true) l)).
  { intros a l Nl. constructor; [|apply NoDup_filter, Nl]. intros I. apply filter_In in I. destruct I as (_ & I).
    destruct (rank_dec a a); [discriminate I|contradiction]. }
  split.
  - intros (t & p & Ntp & Ct & Cp).
    set (l1 := filter (fun r => if rank_dec p r then false else true) rs).
    set (l2 := filter (fun r => if rank_dec t r then false else true) l1).
    assert (N1 : NoDup l1) by apply NoDup_filter, N.
    assert (Np : NoDup (t :: p :: l2)).
    { pose proof (D t l1 N1) as X. fold l2 in X. inversion_clear X as [|? ? X1 X2]. constructor.
      - intros [E|I]; [congruence|contradiction].
      - constructor; [|exact X2]. intros I. unfold l2, l1 in I. rewrite !filter_In in I. destruct I as ((_ & I) & _).
        destruct (rank_dec p p); [discriminate I|contradiction]. }
    pose proof (count_sum_le (t :: p :: l2) (ranks H) Np) as S. cbn [map] in S.
    change (count t H + (count p H + list_sum (map (count_occ rank_dec (ranks H)) l2)) <= length (ranks H)) in S.
    pose proof (sum_ge H l2) as G. pose proof (drop1 p rs N) as A1. fold l1 in A1. pose proof (drop1 t l1 N1) as A2. fold l2 in A2.
    assert (length l2 <= list_sum (map (count_occ rank_dec (ranks H)) l2)); [|lia].
    apply G. intros r I. unfold l2, l1 in I. rewrite !filter_In in I. apply R, I.
  - intros (q & Cq). set (l1 := filter (fun r => if rank_dec q r then false else true) rs).
    pose proof (count_sum_le (q :: l1) (ranks H) (D q rs N)) as S. cbn [map] in S.
    change (count q H + list_sum (map (count_occ rank_dec (ranks H)) l1) <= length (ranks H)) in S.
    pose proof (drop1 q rs N) as A1. fold l1 in A1. pose proof (sum_ge H l1) as G.
    assert (length l1 <= list_sum (map (count_occ rank_dec (ranks H)) l1)); [|lia].
    apply G. intros r I. apply filter_In in I. apply R, I.
Qed.
Lemma run_out H : length H <= 7 -> holds H 4 -> ~ holds H 6 /\ ~ holds H 7.
Proof.
  intros L Q. apply holds4 in Q. destruct Q as (t & T & R). apply (five_out H (run t) L (run_NoDup t)); [|exact R].
  rewrite (run_length t T). lia.
Qed.
Lemma flush_out H : NoDup H -> length H <= 7 -> holds H 5 -> ~ holds H 6 /\ ~ holds H 7.
Proof.
  intros N L Q. apply (holds5 H N) in Q. destruct Q as (s & K). apply (five_out H (ranks (only s H)) L (only_NoDup_ranks s H N)).
  - unfold ranks. rewrite map_length. exact K.
  - intros r I. apply in_map_iff in I. destruct I as (f & <- & I). apply only_in in I. apply in_count, in_map. tauto.
Qed.

(** ** Choosing the two cards *)
Lemma count_two r (P : list face) : length P = 2 -> count r P <= 2.
Proof. intros <-. assert (E : length (ranks P) = length P) by apply map_length. rewrite <- E. apply count_occ_bound. Qed.
Lemma fresh (l : list rank) : length l <= 12 -> exists a, ~ In a l.
Proof.
  intros L. destruct (filter (fun r => if in_dec rank_dec r l then false else true) high_to_low) as [|a m] eqn:E.
  - exfalso. assert (I : incl high_to_low l).
    { intros r Hr. destruct (in_dec rank_dec r l) as [J|J]; [exact J|exfalso].
      assert (X : In r (filter (fun r => if in_dec rank_dec r l then false else true) high_to_low)).
      { apply filter_In. split; [exact Hr|]. destruct (in_dec rank_dec r l); [contradiction|reflexivity]. }
      rewrite E in X. exact X. }
    pose proof (NoDup_incl_length (desc_NoDup _ desc_high) I) as Q. cbn [length high_to_low] in Q. lia.
  - exists a. assert (X : In a (a :: m)) by (left; reflexivity). rewrite <- E in X. apply filter_In in X. destruct X as (_ & X).
    destruct (in_dec rank_dec a l); [discriminate X|assumption].
Qed.
Lemma NoDup_snoc {A} (l : list A) x : NoDup l -> ~ In x l -> NoDup (l ++ [x]).
Proof.
  intros N I. apply (Permutation_NoDup (l := x :: l)); [|constructor; assumption].
  change (x :: l) with ([x] ++ l). apply Permutation_app_comm.
Qed.
Lemma extend s : forall n B M, length M + n = 2 -> length B <= 5 -> NoDup (B ++ M) ->
  exists Q, NoDup (B ++ M ++ Q) /\ length (M ++ Q) = 2 /\ forall f, In f Q -> snd f = s /\ ~ In (fst f) (ranks (B ++ M)).
Proof.
  induction n as [|n IH]; intros B M L LB N.
  - exists []. rewrite app_nil_r. split; [exact N|]. split; [lia|]. intros f [].
  - destruct (fresh (ranks (B ++ M))) as (a & Ha).
    { unfold ranks. rewrite map_length, app_length. lia. }
    destruct (IH B (M ++ [(a, s)])) as (Q & NQ & LQ & HQ).
    + rewrite app_length. cbn [length]. lia.
    + exact LB.
    + rewrite app_assoc. apply NoDup_snoc; [exact N|]. intros I. apply Ha. exact (in_map fst _ _ I).
    + exists ((a, s) :: Q). rewrite <- app_assoc in NQ, LQ. cbn [app] in NQ, LQ. split; [exact NQ|]. split; [exact LQ|].
      intros f [<-|I]; [split; [reflexivity|exact Ha]|]. destruct (HQ f I) as (E & J). split; [exact E|].
      intros K. apply J. unfold ranks in *. rewrite !map_app in *. rewrite !in_app_iff in *. tauto.
Qed.
Lemma NoDup_join {A} (a b : list A) : NoDup a -> NoDup b -> (forall x, In x a -> ~ In x b) -> NoDup (a ++ b).
Proof. intros Na Nb D. apply SizeFacts.NoDup_app_disj; assumption. Qed.
Lemma one_suit_missing r B : count r B < 4 -> exists s, ~ In (r, s) B.
Proof.
  intros L. destruct (filter (fun s => if in_dec face_dec (r, s) B then false else true) four_suits) as [|s m] eqn:E.
  - exfalso. assert (I : incl (map (fun s => (r, s)) four_suits) B).
    { intros f Hf. apply in_map_iff in Hf. destruct Hf as (s & <- & Hs). destruct (in_dec face_dec (r, s) B) as [J|J]; [exact J|exfalso].
      assert (X : In s (filter (fun s => if in_dec face_dec (r, s) B then false else true) four_suits)).
      { apply filter_In. split; [exact Hs|]. destruct (in_dec face_dec (r, s) B); [contradiction|reflexivity]. }
      rewrite E in X. exact X. }
    assert (N : NoDup (map (fun s => (r, s)) four_suits)) by (repeat constructor; cbn; intuition discriminate).
    pose proof (count_incl r _ _ N I) as Q. rewrite (count_all r) in Q.
    + rewrite map_length in Q. cbn in Q. lia.
    + intros f Hf. apply in_map_iff in Hf. destruct Hf as (s & <- & _). reflexivity.
  - exists s. assert (X : In s (s :: m)) by (left; reflexivity). rewrite <- E in X. apply filter_In in X. destruct X as (_ & X).
    destruct (in_dec face_dec (r, s) B); [discriminate X|assumption].
Qed.
Local Ltac flia := unfold face in *; lia.
Lemma app_only s B P : length (only s (B ++ P)) = length (only s B) + length (only s P).
Proof. rewrite only_app. apply app_length. Qed.
Lemma only_all s P : (forall f, In f P -> snd f = s) -> only s P = P.
Proof.
  unfold only. induction P as [|f P IH]; intros Q; [reflexivity|]. cbn [filter]. rewrite (IH (fun g I => Q g (or_intror I))).
  destruct (SpecBest.suit_dec (snd f) s) as [_|X]; [reflexivity|]. destruct X. apply Q. left. reflexivity.
Qed.
Lemma only_none s u P : (forall f, In f P -> snd f = s) -> s <> u -> only u P = [].
Proof.
  unfold only. induction P as [|f P IH]; intros Q D; [reflexivity|]. cbn [filter]. rewrite (IH (fun g I => Q g (or_intror I)) D).
  destruct (SpecBest.suit_dec (snd f) u) as [X|_]; [|reflexivity]. destruct D. rewrite <- X. symmetry. apply Q. left. reflexivity.
Qed.

(** ** A flush *)
Lemma flush_category H k : NoDup H -> length H <= 7 -> holds H 5 -> topcat H k -> In k [5; 8].
Proof.
  intros N L Q (A & B). destruct (flush_out H N L Q) as (N6 & N7). pose proof (B _ Q) as X. pose proof (topcat_le H k (conj A B)) as Y.
  assert (k <> 6) by (intros ->; exact (N6 A)). assert (k <> 7) by (intros ->; exact (N7 A)). cbn [In]. flia.
Qed.
Theorem board_flush ev b : new_evaluator ev -> on_table b ->
  (allows ev b [5; 8] <-> exists s, 3 <= length (only s (faces b))).
Proof.
  intros Hev T. apply allows_iff; [exact Hev|exact T| |].
  - intros P k N L (A & _) I. assert (Q : holds (faces b ++ P) 5).
    { destruct I as [<-|[<-|[]]]; [exact A|]. apply holds8_5; assumption. }
    apply (holds5 _ N) in Q. destruct Q as (s & Q). exists s. rewrite app_only in Q. pose proof (only_length s P). flia.
  - intros (s & L). destruct (sized_table b T) as (N & LB). destruct (extend s 2 (faces b) [] eq_refl) as (P & NP & LP & HP).
    + flia.
    + rewrite app_nil_r. exact N.
    + cbn [app] in NP, LP. exists P. split; [exact NP|]. split; [exact LP|]. intros k K. revert K. apply flush_category.
      * exact NP.
      * rewrite app_length. flia.
      * apply (holds5 _ NP). exists s. rewrite app_only, (only_all s P); [flia|]. intros f I. apply HP, I.
Qed.

(** ** Four of a kind *)
Lemma full_no_run H k : length H <= 7 -> holds H 6 \/ holds H 7 -> topcat H k -> k <> 8.
Proof. intros L Q (A & _) ->. apply holds8_4 in A. destruct (run_out H L A) as (X & Y). tauto. Qed.
Theorem board_quads ev b : new_evaluator ev -> on_table b ->
  (allows ev b [7] <-> exists r, 2 <= count r (faces b)).
Proof.
  intros Hev T. destruct (sized_table b T) as (N & LB). apply allows_iff; [exact Hev|exact T| |].
  - intros P k NP L (A & _) [<-|[]]. destruct A as (r & A). exists r. rewrite count_app_face in A.
    pose proof (count_two r P L). flia.
  - intros (r & L2). pose (ms := filter (fun s => if in_dec face_dec (r, s) (faces b) then false else true) four_suits).
    pose (M := map (fun s => (r, s)) ms : list face).
    assert (Nms : NoDup ms) by (apply NoDup_filter; repeat constructor; cbn; intuition discriminate).
    assert (NM : NoDup M) by (apply FinFun.Injective_map_NoDup; [intros x y E; congruence|exact Nms]).
    assert (DM : forall f, In f (faces b) -> ~ In f M).
    { intros f I J. apply in_map_iff in J. destruct J as (s & <- & J). apply filter_In in J. destruct J as (_ & J).
      destruct (in_dec face_dec (r, s) (faces b)); [discriminate J|contradiction]. }
    assert (NB : NoDup (faces b ++ M)) by (apply NoDup_join; assumption).
    assert (C4 : count r (faces b ++ M) = 4).
    { apply Nat.le_antisymm; [apply count_le4, NB|].
      change 4 with (length (map (fun s => (r, s)) four_suits)). rewrite count_filter. apply NoDup_incl_length.
      - repeat constructor; cbn; intuition discriminate.
      - intros f I. apply in_map_iff in I. destruct I as (s & <- & I). apply filter_In. split.
        + apply in_app_iff. destruct (in_dec face_dec (r, s) (faces b)) as [J|J]; [left; exact J|right].
          apply in_map_iff. exists s. split; [reflexivity|]. apply filter_In. split; [exact I|].
          destruct (in_dec face_dec (r, s) (faces b)); [contradiction|reflexivity].
        + unfold of_rank. cbn [fst]. destruct (rank_dec r r); [reflexivity|contradiction]. }
    assert (LM : length M <= 2).
    { assert (E : count r M = length M).
      { unfold count, M, ranks. rewrite map_map. cbn [fst]. rewrite map_length. clear. induction ms as [|s l IH]; [reflexivity|].
        cbn [map count_occ length]. destruct (rank_dec r r); [|contradiction]. f_equal. exact IH. }
      rewrite count_app_face in C4. flia. }
    destruct (extend Clubs (2 - length M) (faces b) M) as (Q & NQ & LQ & HQ); [flia|flia|exact NB|].
    exists (M ++ Q). split; [exact NQ|]. split; [exact LQ|]. intros k K.
    assert (H7 : holds (faces b ++ M ++ Q) 7).
    { exists r. apply Nat.le_antisymm; [apply count_le4, NQ|]. rewrite app_assoc, count_app_face. flia. }
    pose proof (topcat_le _ _ K) as K8. assert (k <> 8).
    { apply (full_no_run (faces b ++ M ++ Q)); [rewrite app_length; flia|right; exact H7|exact K]. }
    destruct K as (_ & K). specialize (K _ H7). cbn [In]. flia.
Qed.

(** ** A full house *)
Lemma count_sum2 r q (P : list face) : r <> q -> count r P + count q P <= length P.
Proof.
  intros D. assert (E : length (ranks P) = length P) by apply map_length.
  pose proof (count_sum_le [r; q] (ranks P)) as S. cbn [map] in S.
  change (NoDup [r; q] -> count r P + (count q P + 0) <= length (ranks P)) in S.
  assert (N : NoDup [r; q]) by (repeat constructor; cbn; intuition congruence). specialize (S N). flia.
Qed.
Lemma count_one r (x : rank) (s : suit) : count r [(x, s)] = if rank_dec x r then 1 else 0.
Proof. unfold count. cbn. destruct (rank_dec x r); reflexivity. Qed.
Lemma count_pair r (x y : rank) (s u : suit) :
  count r [(x, s); (y, u)] = (if rank_dec x r then 1 else 0) + (if rank_dec y r then 1 else 0).
Proof. unfold count. cbn. destruct (rank_dec x r), (rank_dec y r); reflexivity. Qed.
Lemma absent_count r (B : list face) : ~ In r (ranks B) -> count r B = 0.
Proof. intros I. unfold count. apply count_occ_not_In. exact I. Qed.
Lemma filter_length {A} (f : A -> bool) l : length (filter f l) + length (filter (fun x => negb (f x)) l) = length l.
Proof. induction l as [|x l IH]; [reflexivity|]. cbn [filter]. destruct (f x); cbn [negb length]; lia. Qed.
Lemma other_rank r B : NoDup B -> count r B < length B -> exists x, x <> r /\ 1 <= count x B.
Proof.
  intros N L. destruct (filter (fun f => negb (of_rank r f)) B) as [|[x s] l] eqn:E.
  - exfalso. rewrite count_filter in L. pose proof (filter_length (of_rank r) B) as F. rewrite E in F. cbn [length] in F. flia.
  - assert (I : In (x, s) (filter (fun f => negb (of_rank r f)) B)) by (rewrite E; left; reflexivity).
    apply filter_In in I. destruct I as (I & J). exists x. split.
    + intros ->. unfold of_rank in J. cbn [fst] in J. destruct (rank_dec r r); [discriminate J|contradiction].
    + apply in_count. exact (in_map fst _ _ I).
Qed.
Lemma full_category H k : length H <= 7 -> (forall r, count r H < 4) -> holds H 6 -> topcat H k -> In k [6].
Proof.
  intros L C Q K. pose proof (topcat_le _ _ K) as K8. pose proof (full_no_run H k L (or_introl Q) K) as N8.
  destruct K as (A & B). specialize (B _ Q).
  assert (k <> 7) by (intros ->; destruct A as (r & A); specialize (C r); lia). cbn [In]. lia.
Qed.
Theorem board_full_house ev b : new_evaluator ev -> on_table b ->
  (allows ev b [6] <-> (exists r, 2 <= count r (faces b)) /\ forall r, count r (faces b) < 4).
Proof.
  intros Hev T. destruct (sized_table b T) as (N & LB). apply allows_iff; [exact Hev|exact T| |].
  - intros P k NP L (A & M) [<-|[]]. split.
    + destruct A as (t & p & D & Ct & Cp). rewrite count_app_face in Ct, Cp. pose proof (count_sum2 t p P D) as S.
      destruct (le_lt_dec 2 (count t (faces b))) as [X|X]; [exists t; exact X|].
      destruct (le_lt_dec 2 (count p (faces b))) as [Y|Y]; [exists p; exact Y|]. flia.
    + intros r. destruct (le_lt_dec 4 (count r (faces b))) as [X|X]; [exfalso|exact X].
      assert (H7 : holds (faces b ++ P) 7).
      { exists r. apply Nat.le_antisymm; [apply count_le4, NP|]. rewrite count_app_face. lia. }
      specialize (M _ H7). lia.
  - intros ((r & L2) & C4). destruct (le_lt_dec 3 (count r (faces b))) as [L3|L3].
    + destruct (fresh (ranks (faces b))) as (a & Ha).
      { unfold ranks. rewrite map_length. flia. }
      exists [(a, Clubs); (a, Hearts)]. assert (NP : NoDup (faces b ++ [(a, Clubs); (a, Hearts)])).
      { apply NoDup_join; [exact N|repeat constructor; cbn; intuition discriminate|].
        intros f I [<-|[<-|[]]]; apply Ha; exact (in_map fst _ _ I). }
      split; [exact NP|]. split; [reflexivity|]. intros k K. refine (full_category _ k _ _ _ K).
      * rewrite app_length. cbn [length]. flia.
      * intros x. rewrite count_app_face, count_pair. destruct (rank_dec a x) as [<-|D]; [rewrite (absent_count a _ Ha); lia|].
        specialize (C4 x). lia.
      * exists r, a. split; [intros ->; rewrite (absent_count a _ Ha) in L3; lia|]. rewrite !count_app_face, !count_pair.
        split; [lia|]. destruct (rank_dec a a); [lia|contradiction].
    + destruct (le_lt_dec 3 (fold_right max 0 (map (fun x => count x (faces b)) high_to_low))) as [Lm|Lm].
      * assert (X : exists x, 3 <= count x (faces b)).
        { clear -Lm. induction high_to_low as [|x l IH]; [cbn in Lm; lia|]. cbn [map fold_right] in Lm.
          destruct (le_lt_dec 3 (count x (faces b))) as [Y|Y]; [exists x; exact Y|]. apply IH. lia. }
        destruct X as (t & X).
        assert (t <> r) by (intros ->; lia). pose proof (count_sum2 t r (faces b) H) as S.
        destruct (fresh (ranks (faces b))) as (a & Ha).
        { unfold ranks. rewrite map_length. flia. }
        exists [(a, Clubs); (a, Hearts)]. assert (NP : NoDup (faces b ++ [(a, Clubs); (a, Hearts)])).
        { apply NoDup_join; [exact N|repeat constructor; cbn; intuition discriminate|].
          intros f I [<-|[<-|[]]]; apply Ha; exact (in_map fst _ _ I). }
        split; [exact NP|]. split; [reflexivity|]. intros k K. refine (full_category _ k _ _ _ K).
        -- rewrite app_length. cbn [length]. flia.
        -- intros x. rewrite count_app_face, count_pair. destruct (rank_dec a x) as [<-|D]; [rewrite (absent_count a _ Ha); lia|].
           specialize (C4 x). lia.
        -- exists t, a. split; [intros ->; rewrite (absent_count a _ Ha) in X; lia|]. rewrite !count_app_face, !count_pair.
           split; [lia|]. destruct (rank_dec a a); [lia|contradiction].
      * assert (C3 : forall x, count x (faces b) <= 2).
        { intros x. assert (I : In x high_to_low) by (destruct x; cbn; tauto). clear -Lm I.
          induction high_to_low as [|y l IH]; [destruct I|]. cbn [map fold_right] in Lm. destruct I as [->|I]; [lia|]. apply IH; [lia|exact I]. }
        destruct (other_rank r (faces b) N) as (x & Dx & Cx); [flia|].
        destruct (one_suit_missing r (faces b)) as (s & Hs); [lia|].
        destruct (one_suit_missing x (faces b)) as (u & Hu); [specialize (C3 x); lia|].
        exists [(r, s); (x, u)]. assert (NP : NoDup (faces b ++ [(r, s); (x, u)])).
        { apply NoDup_join; [exact N|repeat constructor; cbn; intuition congruence|]. intros f I [<-|[<-|[]]]; contradiction. }
        split; [exact NP|]. split; [reflexivity|]. intros k K. refine (full_category _ k _ _ _ K).
        -- rewrite app_length. cbn [length]. flia.
        -- intros y. rewrite count_app_face, count_pair. specialize (C3 y). destruct (rank_dec r y), (rank_dec x y); try lia. congruence.
        -- exists r, x. split; [congruence|]. rewrite !count_app_face, !count_pair.
           destruct (rank_dec r r); [|contradiction]. destruct (rank_dec x x); [|contradiction]. lia.
Qed.

(** ** Straights *)
Definition lacking (H : list face) (t : rank) : list rank := filter (fun r => negb (1 <=? count r H)) (run t).
Lemma lacking_length H t : In t tops ->
  length (filter (fun r => 1 <=? count r H) (run t)) + length (lacking H t) = 5.
Proof. intros T. rewrite <- (run_length t T). apply filter_length. Qed.
Lemma lacking_in H t r : In r (lacking H t) -> In r (run t) /\ ~ In r (ranks H).
Proof.
  intros I. apply filter_In in I. destruct I as (I & J). split; [exact I|]. intros K. apply in_count in K.
  apply Nat.leb_le in K. rewrite K in J. discriminate J.
Qed.
Lemma not_lacking H t r : In r (run t) -> ~ In r (lacking H t) -> 1 <= count r H.
Proof.
  intros I J. destruct (1 <=? count r H) eqn:E; [apply Nat.leb_le, E|]. destruct J. apply filter_In. split; [exact I|].
  rewrite E. reflexivity.
Qed.
Lemma lacking_few B P t : In t tops -> length P = 2 -> (forall r, In r (run t) -> 1 <= count r (B ++ P)) ->
  3 <= length (filter (fun r => 1 <=? count r B) (run t)).
Proof.
  intros T L Q. pose proof (lacking_length B t T) as E. assert (X : length (lacking B t) <= length (ranks P)).
  { apply NoDup_incl_length; [apply NoDup_filter, run_NoDup|]. intros r I. destruct (lacking_in B t r I) as (J & K).
    specialize (Q r J). rewrite count_app_face, (absent_count r B K) in Q. apply count_in in Q. destruct Q as (f & F & <-).
    apply in_map, F. }
  unfold ranks in X. rewrite map_length in X. flia.
Qed.
(** The cards of suit [s] that a straight ending in [t] still needs, made up to two. *)
Lemma filled s B t : NoDup B -> length B <= 5 -> In t tops -> 3 <= length (filter (fun r => 1 <=? count r B) (run t)) ->
  exists P, NoDup (B ++ P) /\ length P = 2 /\ (forall f, In f P -> snd f = s) /\ forall r, In r (lacking B t) -> In (r, s) P.
Proof.
  intros N L T Q. pose proof (lacking_length B t T) as E.
  pose (M := map (fun r => (r, s)) (lacking B t) : list face).
  assert (LM : length M = length (lacking B t)) by apply map_length.
  destruct (extend s (2 - length M) B M) as (P & NP & LP & HP); [flia|exact L| |].
  { apply NoDup_join; [exact N|apply NoDup_pair, NoDup_filter, run_NoDup|]. intros f I J. apply in_map_iff in J.
    destruct J as (r & <- & J). apply lacking_in in J. apply J. exact (in_map fst _ _ I). }
  exists (M ++ P). split; [exact NP|]. split; [exact LP|]. split.
  - intros f I. apply in_app_iff in I. destruct I as [I|I]; [|apply HP, I]. apply in_map_iff in I. destruct I as (r & <- & _). reflexivity.
  - intros r I. apply in_app_iff. left. apply in_map_iff. exists r. split; [reflexivity|exact I].
Qed.
Lemma rare_suit (B : list face) : length B <= 5 -> exists s, length (only s B) <= 1.
Proof.
  intros L. assert (S : length (only Clubs B) + length (only Hearts B) + length (only Spades B) + length (only Diamonds B) = length B).
  { clear L. induction B as [|[r s] B IH]; [reflexivity|]. unfold only in *. cbn [filter length snd].
    destruct s; cbn [SpecBest.suit_dec]; destruct (SpecBest.suit_dec _ Clubs), (SpecBest.suit_dec _ Hearts), (SpecBest.suit_dec _ Spades),
      (SpecBest.suit_dec _ Diamonds); try congruence; cbn [length]; flia. }
  destruct (le_lt_dec (length (only Clubs B)) 1); [exists Clubs; assumption|].
  destruct (le_lt_dec (length (only Hearts B)) 1); [exists Hearts; assumption|].
  destruct (le_lt_dec (length (only Spades B)) 1); [exists Spades; assumption|]. exists Diamonds. flia.
Qed.
Lemma only_full s (B : list face) : length (only s B) = length B -> forall f, In f B -> snd f = s.
Proof.
  unfold only. induction B as [|g B IH]; intros E f I; [destruct I|]. cbn [filter] in E.
  pose proof (only_length s B) as O. unfold only in O.
  destruct (SpecBest.suit_dec (snd g) s) as [X|X]; cbn [length] in E; [|flia].
  destruct I as [<-|I]; [exact X|]. apply IH; [flia|exact I].
Qed.
Theorem board_straight ev b : new_evaluator ev -> on_table b ->
  (allows ev b [4; 8] <-> near_run (faces b)).
Proof.
  intros Hev T. destruct (sized_table b T) as (N & LB). apply allows_iff; [exact Hev|exact T| |].
  - intros P k NP L (A & _) I. assert (Q : holds (faces b ++ P) 4).
    { destruct I as [<-|[<-|[]]]; [exact A|]. apply holds8_4, A. }
    apply holds4 in Q. destruct Q as (t & Tt & Q). exists t. split; [exact Tt|]. apply (lacking_few _ P); assumption.
  - intros (t & Tt & Q).
    assert (S : exists s, (forall f, In f (faces b) -> snd f = s) \/ (length (only s (faces b)) <= 1 /\ forall u, length (only u (faces b)) <= 4)).
    { destruct (in_dec Nat.eq_dec 5 (map (fun u => length (only u (faces b))) four_suits)) as [I|I].
      - apply in_map_iff in I. destruct I as (s & E & _). exists s. left. apply only_full. pose proof (only_length s (faces b)). flia.
      - destruct (rare_suit (faces b)) as (s & E); [flia|]. exists s. right. split; [exact E|]. intros u.
        pose proof (only_length u (faces b)). assert (length (only u (faces b)) <> 5); [|flia].
        intros X. apply I. apply in_map_iff. exists u. split; [exact X|apply in_four]. }
    destruct S as (s & S). destruct (filled s (faces b) t N) as (P & NP & LP & SP & HP); [flia|exact Tt|exact Q|].
    assert (LH : length (faces b ++ P) <= 7) by (rewrite app_length; flia).
    assert (R : forall r, In r (run t) -> 1 <= count r (faces b) \/ In (r, s) P).
    { intros r I. destruct (in_dec rank_dec r (lacking (faces b) t)) as [J|J]; [right; apply HP, J|left]. exact (not_lacking _ _ _ I J). }
    assert (H4 : holds (faces b ++ P) 4).
    { apply holds4. exists t. split; [exact Tt|]. intros r I. rewrite count_app_face. destruct (R r I) as [X|X]; [lia|].
      pose proof (in_count r P (in_map fst _ _ X)). lia. }
    exists P. split; [exact NP|]. split; [exact LP|]. intros k K. destruct (run_out _ LH H4) as (N6 & N7).
    pose proof (topcat_le _ _ K) as K8. destruct K as (A & B). pose proof (B _ H4) as K4. cbn [In].
    assert (k <> 6) by (intros ->; exact (N6 A)). assert (k <> 7) by (intros ->; exact (N7 A)).
    assert (k <> 5); [|lia]. intros ->. destruct S as [S|(S1 & S4)].
    + assert (H8 : holds (faces b ++ P) 8).
      { apply holds8. exists s, t. split; [exact Tt|]. intros r I. apply in_app_iff. destruct (R r I) as [X|X]; [left|right; exact X].
        apply count_in in X. destruct X as ([r' s'] & J & E). pose proof (S _ J) as E'. cbn in E, E'. subst. exact J. }
      specialize (B _ H8). lia.
    + apply (holds5 _ NP) in A. destruct A as (u & A). rewrite app_only in A. specialize (S4 u).
      destruct (SpecBest.suit_dec s u) as [<-|D].
      * pose proof (only_length s P). flia.
      * rewrite (only_none s u P SP D) in A. cbn [length] in A. flia.
Qed.
Theorem board_straight_flush ev b : new_evaluator ev -> on_table b ->
  (allows ev b [8] <-> exists s, near_run (only s (faces b))).
Proof.
  intros Hev T. destruct (sized_table b T) as (N & LB). apply allows_iff; [exact Hev|exact T| |].
  - intros P k NP L (A & _) [<-|[]]. apply holds8 in A. destruct A as (s & t & Tt & A). exists s, t. split; [exact Tt|].
    pose proof (lacking_length (only s (faces b)) t Tt) as E.
    assert (X : length (lacking (only s (faces b)) t) <= length (ranks P)).
    { apply NoDup_incl_length; [apply NoDup_filter, run_NoDup|]. intros r I. destruct (lacking_in _ t r I) as (J & K).
      specialize (A r J). apply in_app_iff in A. destruct A as [A|A]; [|exact (in_map fst _ _ A)].
      destruct K. apply (in_map fst _ (r, s)). apply only_in. auto. }
    unfold ranks in X. rewrite map_length in X. flia.
  - intros (s & t & Tt & Q). pose proof (only_length s (faces b)) as Lo.
    pose proof (lacking_length (only s (faces b)) t Tt) as E.
    pose (M := map (fun r => (r, s)) (lacking (only s (faces b)) t) : list face).
    assert (LM : length M = length (lacking (only s (faces b)) t)) by apply map_length.
    destruct (extend s (2 - length M) (faces b) M) as (P & NP & LP & HP); [flia|flia| |].
    { apply NoDup_join; [exact N|apply NoDup_pair, NoDup_filter, run_NoDup|]. intros f I J. apply in_map_iff in J.
      destruct J as (r & <- & J). apply lacking_in in J. apply J. apply (in_map fst _ (r, s)). apply only_in. auto. }
    exists (M ++ P). split; [exact NP|]. split; [exact LP|]. intros k K.
    assert (H8 : holds (faces b ++ M ++ P) 8).
    { apply holds8. exists s, t. split; [exact Tt|]. intros r I. rewrite !in_app_iff.
      destruct (in_dec rank_dec r (lacking (only s (faces b)) t)) as [J|J].
      - right. left. apply in_map_iff. exists r. split; [reflexivity|exact J].
      - left. apply count_only. exact (not_lacking _ _ _ I J). }
    pose proof (topcat_le _ _ K) as K8. destruct K as (_ & B). specialize (B _ H8). cbn [In]. lia.
Qed.

(** ** Nothing to build on *)
Lemma dry_category B P k : NoDup (B ++ P) -> length P = 2 -> dry B -> topcat (B ++ P) k -> k <= 3.
Proof.
  intros N L (D5 & D2 & DR) K. pose proof (topcat_le _ _ K) as K8. destruct K as (A & _).
  assert (N4 : ~ holds (B ++ P) 4).
  { intros Q. apply holds4 in Q. destruct Q as (t & Tt & Q). apply DR. exists t. split; [exact Tt|]. apply (lacking_few _ P); assumption. }
  assert (k <> 4) by (intros ->; exact (N4 A)). assert (k <> 8) by (intros ->; exact (N4 (holds8_4 _ A))).
  assert (k <> 5).
  { intros ->. apply (holds5 _ N) in A. destruct A as (s & A). rewrite app_only in A. specialize (D5 s). pose proof (only_length s P). flia. }
  assert (k <> 6).
  { intros ->. destruct A as (t & p & D & Ct & Cp). rewrite count_app_face in Ct, Cp. pose proof (count_sum2 t p P D) as S.
    pose proof (D2 t). pose proof (D2 p). flia. }
  assert (k <> 7).
  { intros ->. destruct A as (r & A). rewrite count_app_face in A. pose proof (D2 r). pose proof (count_two r P L). lia. }
  lia.
Qed.
Lemma dry_suits B P s : length P = 2 -> dry B -> length (only s (B ++ P)) < 5.
Proof. intros L (D & _). specialize (D s). pose proof (only_length s P). rewrite app_only. flia. Qed.
Lemma pips_lower a b : pips a <= pips b -> a <> b -> pips a < pips b.
Proof. intros L D. assert (pips a <> pips b); [|lia]. intros X. apply pips_inj in X. contradiction. Qed.
Lemma best_rule H : 1 <= length H -> rule (category (fst (best H))) H = Some (best H).
Proof.
  intros L. destruct (first_rule_spec H [8; 7; 6; 5; 4; 3; 2; 1; 0] 9 eq_refl (le_n 9)) as (k & Lk & E & _).
  - destruct (firstn 5 (held 1 H)) as [|t l] eqn:E.
    + exfalso. destruct (held 1 H) as [|q m] eqn:Q; [|discriminate E]. destruct H as [|f H]; [cbn in L; lia|].
      pose proof (held_nil 1 (f :: H) (fst f) Q) as C. assert (1 <= count (fst f) (f :: H)); [|lia]. apply in_count. left. reflexivity.
    + exists 0, (HighCard t, t :: l). split; [lia|]. cbn [rule]. rewrite E. reflexivity.
  - change (rule k H = Some (best H)) in E. rewrite (rule_category k H (best H)); [exact E|lia|exact E].
Qed.
Lemma trips_best H : 1 <= length H -> category (fst (best H)) = 3 ->
  exists t l, best H = (ThreeOfAKind t, t :: l) /\ 3 <= count t H.
Proof.
  intros L C. pose proof (best_rule H L) as R. rewrite C in R. cbn [rule] in R. destruct (held 3 H) as [|t m] eqn:E; [discriminate R|].
  exists t, (firstn 2 (without [t] (held 1 H))). split; [congruence|]. exact (head_held 3 H t m E).
Qed.
Lemma trips_more top l x : category (fst x) <= 3 ->
  (category (fst x) = 3 -> exists t m, x = (ThreeOfAKind t, t :: m) /\ pips t < pips top) -> worth_more (ThreeOfAKind top, top :: l) x.
Proof.
  intros L Q. destruct (Nat.eq_dec (category (fst x)) 3) as [C|C]; [right|left; cbn; lia]. split; [symmetry; exact C|].
  destruct (Q C) as (t & m & -> & X). cbn. left. exact X.
Qed.
Lemma pair_ranks t (P : list face) : length P = 2 -> (2 <= count t P <-> ranks P = [t; t]).
Proof.
  intros L. destruct P as [|[a s] [|[c u] [|? ?]]]; try discriminate L. rewrite count_pair. cbn [ranks map fst].
  change (ranks [(a, s); (c, u)]) with [a; c]. destruct (rank_dec a t), (rank_dec c t); split; intros; try lia; try congruence.
Qed.
Theorem dry_board ev b top : new_evaluator ev -> on_table b -> dry (faces b) ->
  In top (ranks (faces b)) -> (forall r, In r (ranks (faces b)) -> pips r <= pips top) ->
  (exists p, pocket b p /\ ranks (faces p) = [top; top])
  /\ forall p e, pocket b p -> ranks (faces p) = [top; top] -> evaluates ev (box_cards b [p]) e ->
     eval_class_of e = ThreeOfAKind top
     /\ forall p' e', pocket b p' -> evaluates ev (box_cards b [p']) e' ->
        (ranks (faces p') = [top; top] -> eval_cmp e' e = Eq) /\ (ranks (faces p') <> [top; top] -> eval_cmp e' e = Lt).
Proof.
  intros Hev T D It Mt. destruct (sized_table b T) as (N & LB). pose proof D as (D5 & D2 & DR).
  assert (Ct : count top (faces b) = 1) by (pose proof (in_count _ _ It); specialize (D2 top); lia).
  assert (Cat : forall p e, pocket b p -> evaluates ev (box_cards b [p]) e ->
    category (fst (best (faces b ++ faces p))) <= 3
    /\ eval_class_of e = fst (best (faces b ++ faces p))
    /\ (forall t l, best (faces b ++ faces p) = (ThreeOfAKind t, t :: l) -> 3 <= count t (faces b ++ faces p) ->
          In t (ranks (faces b)) /\ ranks (faces p) = [t; t])
    /\ (ranks (faces p) = [top; top] -> 3 <= category (fst (best (faces b ++ faces p))))).
  { intros p e Pp E. destruct (undealt ev b p e Hev T Pp E) as (NP & LP & K).
    assert (Ab : all_cards (b ++ p)) by (apply Forall_app; split; [apply T|apply Pp]).
    assert (C : eval_class_of e = fst (best (faces b ++ faces p))).
    { rewrite <- faces_app. exact (class_best ev (b ++ p) e Hev Ab E). }
    rewrite <- C. split; [exact (dry_category _ _ _ NP LP D K)|]. split; [reflexivity|]. split.
    - intros t l _ Q. rewrite count_app_face in Q. pose proof (D2 t) as Dt. pose proof (count_two t _ LP) as Two. split.
      + unfold count in Q, Two. apply (count_occ_In rank_dec). unfold count in Dt. lia.
      + apply (pair_ranks t _ LP). lia.
    - intros R. apply (pair_ranks top _ LP) in R. destruct K as (_ & K). apply K. exists top. rewrite count_app_face. lia. }
  assert (Nz : forall p, 1 <= length (faces b ++ faces p)) by (intros p; rewrite app_length; flia).
  split.
  - destruct (one_suit_missing top (faces b)) as (s & Hs); [lia|].
    destruct (one_suit_missing top ((top, s) :: faces b)) as (u & Hu).
    { change ((top, s) :: faces b) with ([(top, s)] ++ faces b). rewrite count_app_face, count_one.
      destruct (rank_dec top top); [lia|contradiction]. }
    assert (NP : NoDup (faces b ++ [(top, s); (top, u)])).
    { apply NoDup_join; [exact N| |].
      - repeat constructor; cbn; [|tauto]. intros [X|[]]. apply Hu. left. congruence.
      - intros f I [<-|[<-|[]]]; [contradiction|]. apply Hu. right. exact I. }
    destruct (dealt ev b _ Hev T NP eq_refl) as (e & Pp & _). exists (map card_of [(top, s); (top, u)]). split; [exact Pp|].
    rewrite faces_card_of. reflexivity.
  - intros p e Pp Rp E. destruct (Cat p e Pp E) as (C3 & Ce & Ht & G). specialize (G Rp).
    destruct (trips_best _ (Nz p)) as (t & l & Eb & Q); [lia|]. destruct (Ht t l Eb Q) as (It' & Rp').
    assert (t = top) by congruence. subst t. split; [rewrite Ce, Eb; reflexivity|].
    intros p' e' Pp' E'. destruct (Cat p' e' Pp' E') as (C3' & Ce' & Ht' & G').
    assert (Ab : all_cards (b ++ p)) by (apply Forall_app; split; [apply T|apply Pp]).
    assert (Ab' : all_cards (b ++ p')) by (apply Forall_app; split; [apply T|apply Pp']).
    destruct (worth_compare ev (b ++ p') (b ++ p) e' e Hev Ab' Ab E' E) as (_ & We & Wl). rewrite !faces_app in We, Wl.
    destruct (undealt ev b p e Hev T Pp E) as (NP & LP & _). destruct (undealt ev b p' e' Hev T Pp' E') as (NP' & LP' & _).
    split.
    + intros R'. apply We. apply best_ranks; [exact NP'|exact NP| | |].
      * intros s. exact (dry_suits _ _ s LP' D).
      * intros s. exact (dry_suits _ _ s LP D).
      * intros r. rewrite !count_app_face. unfold count at 2 4. rewrite Rp, R'. reflexivity.
    + intros R'. apply Wl. rewrite Eb. apply trips_more; [exact C3'|]. intros C.
      destruct (trips_best _ (Nz p') C) as (t & l' & Eb' & Q'). destruct (Ht' t l' Eb' Q') as (J & R). exists t, l'.
      split; [exact Eb'|]. apply pips_lower; [exact (Mt t J)|]. intros ->. contradiction.
Qed.
