(** ShowdownFacts.v: comparing the results of several players who share a board. *)
From Coq Require Import Lia List Arith Bool Permutation ZArith.
From Verif Require Import Base BaseFacts ModelCard ModelEval ModelTable ModelEvaluation.
From Verif Require Import Spec SpecApi CardFacts Sweep SweepFacts SpecFacts EvalFacts FiveFacts
  CombosFacts EvaluateFacts HandFacts ClassFacts DeckFacts LawFacts SizeFacts CategoryFacts SpecBest BestFacts WorthFacts SpecShowdown.
Import ListNotations.
Local Open Scope nat_scope.

Lemma not_worse a b : eval_is_worse_than a b = false <-> eval_cmp a b <> Lt.
Proof.
  rewrite cmp_not_Lt. unfold eval_is_worse_than, phr_is_worse_than. apply Z.ltb_ge.
Qed.

Lemma NoDup_seat {A} (b : list A) hs h : NoDup (b ++ concat hs) -> In h hs -> NoDup (b ++ h).
Proof.
  intros N I. apply in_split in I. destruct I as (l1 & l2 & ->). rewrite concat_app in N. cbn [concat] in N.
  rewrite app_assoc in N.
  assert (P : Permutation ((b ++ concat l1) ++ h ++ concat l2) ((b ++ h) ++ concat l1 ++ concat l2)).
  { rewrite <- !app_assoc. apply Permutation_app_head.
    rewrite !app_assoc. apply Permutation_app_tail, Permutation_app_comm. }
  apply (Permutation_NoDup P) in N. revert N. generalize (concat l1 ++ concat l2) as r. generalize (b ++ h) as x.
  clear. intros x r. induction x as [|a x IH]; intros N; [constructor|].
  cbn [app] in N. apply NoDup_cons_iff in N. destruct N as (X & N). constructor; [|exact (IH N)].
  intros I. apply X, in_or_app. left. exact I.
Qed.

Lemma faces_app a b : faces (a ++ b) = faces a ++ faces b.
Proof. apply map_app. Qed.

(** Five cards of a seat as cards. *)
Lemma seat_five ev h F : new_evaluator ev -> all_cards h -> five_card_hand F -> incl F (faces h) ->
  exists x e, hand5 x /\ incl x h /\ faces x = F /\ evaluates ev x e.
Proof.
  intros Hev A (N & L) I. pose proof (card_at_hand5 F N L) as Hx.
  destruct (evaluate_spec ev _ Hev (hand5_legal _ Hx)) as (e & E & _). exists (map card_at F), e.
  split; [exact Hx|]. split; [|split; [apply faces_card_at|exact E]].
  intros c Hc. apply in_map_iff in Hc. destruct Hc as (f & <- & Hf). apply card_at_in; [exact A|]. apply I, Hf.
Qed.

Definition results ev (hs : list (list card)) (es : list eval) : Prop := Forall2 (evaluates ev) hs es.

Lemma all_results ev hs : new_evaluator ev -> Forall legal hs -> exists es, results ev hs es.
Proof.
  intros Hev. induction hs as [|h hs IH]; intros L; [exists []; constructor|].
  apply Forall_cons_iff in L. destruct L as (Lh & L). destruct (IH L) as (es & R).
  destruct (evaluate_spec ev h Hev Lh) as (e & E & _). exists (e :: es). constructor; assumption.
Qed.
Lemma result_at ev hs es i e : results ev hs es -> nth_error es i = Some e ->
  exists h, nth_error hs i = Some h /\ evaluates ev h e.
Proof.
  intros R. revert i. induction R as [|h e' hs es E R IH]; intros [|i] Q; try discriminate Q.
  - injection Q as <-. exists h. split; [reflexivity|exact E].
  - apply IH, Q.
Qed.
Lemma result_of ev hs es h : results ev hs es -> In h hs -> exists e, In e es /\ evaluates ev h e.
Proof.
  intros R. induction R as [|h' e' hs es E R IH]; intros []; [subst; exists e'; split; [left; reflexivity|exact E]|].
  destruct (IH H) as (e & I & E'). exists e. split; [right; exact I|exact E'].
Qed.
Lemma result_from ev hs es e : results ev hs es -> In e es -> exists h, In h hs /\ evaluates ev h e.
Proof.
  intros R. induction R as [|h' e' hs es E R IH]; intros []; [subst; exists h'; split; [left; reflexivity|exact E]|].
  destruct (IH H) as (h & I & E'). exists h. split; [right; exact I|exact E'].
Qed.

Lemma winner_is ev hs es i e : new_evaluator ev -> Forall legal hs -> results ev hs es -> nth_error es i = Some e ->
  ((forall e', In e' es -> eval_is_worse_than e e' = false) <-> wins (map faces hs) i).
Proof.
  intros Hev L R Q. rewrite Forall_forall in L.
  destruct (result_at ev hs es i e R Q) as (h & Hi & E).
  pose proof (L h (nth_error_In _ _ Hi)) as Lh. destruct (evaluate_spec ev h Hev Lh) as (e0 & E0 & (x & Hx & Ix & Vx) & _).
  rewrite (evaluates_fun ev h e0 e E0 E) in *. clear e0 E0. split.
  - intros B. exists (faces h), (faces x). split; [rewrite nth_error_map, Hi; reflexivity|].
    split; [apply hand5_faces, Hx|]. split; [apply incl_map, Ix|].
    intros o G Io FG IG BG. apply in_map_iff in Io. destruct Io as (ho & <- & Io).
    destruct (seat_five ev ho G Hev (proj1 (L ho Io)) FG IG) as (y & ey & Hy & Iy & <- & Ey).
    destruct (result_of ev hs es ho R Io) as (eo & Ieo & Eo).
    pose proof (more_cards ev y ho ey eo Hev (proj1 (L ho Io)) Iy Ey Eo) as M. apply cmp_not_Lt in M.
    pose proof (proj1 (not_worse e eo) (B eo Ieo)) as W. apply cmp_not_Lt in W.
    destruct (comparison_correct ev y x ey e Hev Hy Hx Ey Vx) as (C & _). apply C, cmp_Gt in BG. lia.
  - intros (o & F & Ho & F5 & IF & B) e' Ie'. rewrite nth_error_map, Hi in Ho. injection Ho as <-.
    destruct (seat_five ev h F Hev (proj1 Lh) F5 IF) as (y & ey & Hy & Iy & <- & Ey).
    apply not_worse, cmp_not_Lt.
    pose proof (more_cards ev y h ey e Hev (proj1 Lh) Iy Ey E) as M. apply cmp_not_Lt in M.
    destruct (result_from ev hs es e' R Ie') as (h' & Ih' & E').
    destruct (evaluate_spec ev h' Hev (L h' Ih')) as (e0 & E0 & (z & Hz & Iz & Vz) & _).
    rewrite (evaluates_fun ev h' e0 e' E0 E') in *.
    destruct (comparison_correct ev z y e' ey Hev Hz Hy Vz Ey) as (C & _).
    destruct (Z.le_gt_cases (rk e) (rk e')) as [K|K]; [exact K|]. exfalso.
    apply (B (faces h') (faces z)); [apply in_map, Ih'|apply hand5_faces, Hz|apply incl_map, Iz|].
    apply C, cmp_Gt. lia.
Qed.

Lemma some_best (es : list eval) : es <> [] -> exists i e, nth_error es i = Some e /\ forall e', In e' es -> (rk e <= rk e')%Z.
Proof.
  induction es as [|a es IH]; [congruence|]. intros _. destruct es as [|b es].
  - exists 0, a. split; [reflexivity|]. intros e' [<-|[]]. lia.
  - destruct IH as (i & e & Q & M); [discriminate|]. destruct (Z.le_gt_cases (rk a) (rk e)) as [K|K].
    + exists 0, a. split; [reflexivity|]. intros e' [<-|I]; [lia|]. specialize (M e' I). lia.
    + exists (S i), e. split; [exact Q|]. intros e' [<-|I]; [lia|]. exact (M e' I).
Qed.

Lemma seats_faces board own : map faces (map (fun h => board ++ h) own) = seats (faces board) (map faces own).
Proof. unfold seats. rewrite !map_map. apply map_ext. intros h. apply faces_app. Qed.

Definition table board own : Prop :=
  all_cards (board ++ concat own) /\ NoDup (board ++ concat own)
  /\ Forall (fun h => 5 <= length board + length h) own.
Lemma table_legal board own : table board own -> Forall legal (map (fun h => board ++ h) own).
Proof.
  intros (A & N & L). apply Forall_forall. intros x I. apply in_map_iff in I. destruct I as (h & <- & I). split; [|split].
  - apply Forall_app in A. destruct A as (Ab & Ac). apply Forall_app. split; [exact Ab|].
    unfold all_cards in *. rewrite Forall_forall in *. intros c Hc. apply Ac, in_concat. exists h. split; assumption.
  - exact (NoDup_seat board own h N I).
  - rewrite app_length. rewrite Forall_forall in L. apply L, I.
Qed.

Theorem showdown ev board own : new_evaluator ev -> all_cards (board ++ concat own) -> NoDup (board ++ concat own) ->
  Forall (fun h => 5 <= length board + length h) own ->
  exists es, Forall2 (fun h e => evaluates ev (box_cards board [h]) e /\ evaluates ev (box_cards h [board]) e) own es
    /\ forall i e, nth_error es i = Some e ->
         ((forall e', In e' es -> eval_is_worse_than e e' = false) <-> wins (seats (faces board) (map faces own)) i).
Proof.
  intros Hev A N L. pose proof (table_legal board own (conj A (conj N L))) as LL.
  destruct (all_results ev _ Hev LL) as (es & R). exists es. split.
  - assert (D : Forall (fun h => all_cards (board ++ h)) own).
    { rewrite Forall_forall in *. intros h I. apply (LL (board ++ h)). apply (in_map (fun h => board ++ h)), I. }
    clear - R D Hev. unfold results in R. remember (map (fun h => board ++ h) own) as hs eqn:Q. revert own Q D.
    induction R as [|h e hs es E R IH]; intros [|o own] Q D; try discriminate Q; constructor.
    + injection Q as -> _. apply Forall_cons_iff in D. destruct D as (D & _). split; [exact E|].
      apply Forall_app in D. apply (box_cards_commute ev board o e Hev); [apply D|apply D|exact E].
    + injection Q as _ Q. apply Forall_cons_iff in D. apply IH; [exact Q|apply D].
  - intros i e Q. rewrite <- seats_faces. apply (winner_is ev _ es i e Hev LL R Q).
Qed.

Theorem somebody_wins ev board own : new_evaluator ev -> all_cards (board ++ concat own) -> NoDup (board ++ concat own) ->
  Forall (fun h => 5 <= length board + length h) own -> own <> [] ->
  exists i, i < length own /\ wins (seats (faces board) (map faces own)) i.
Proof.
  intros Hev A N L O. pose proof (table_legal board own (conj A (conj N L))) as LL.
  destruct (all_results ev _ Hev LL) as (es & R).
  destruct (some_best es) as (i & e & Q & M).
  { intros ->. inversion R as [E|]. apply O. destruct own; [reflexivity|discriminate E]. }
  exists i. split.
  - destruct (result_at ev _ es i e R Q) as (h & Hi & _). rewrite <- (map_length (fun h => board ++ h)).
    apply nth_error_Some. congruence.
  - rewrite <- seats_faces. apply (winner_is ev _ es i e Hev LL R Q). intros e' I. apply not_worse, cmp_not_Lt, M, I.
Qed.

(** The winners' results are equal. *)
Theorem winners_tie ev board own i j h k ei ej : new_evaluator ev -> all_cards (board ++ concat own) ->
  NoDup (board ++ concat own) -> Forall (fun h => 5 <= length board + length h) own ->
  wins (seats (faces board) (map faces own)) i -> wins (seats (faces board) (map faces own)) j ->
  nth_error own i = Some h -> nth_error own j = Some k ->
  evaluates ev (box_cards board [h]) ei -> evaluates ev (box_cards board [k]) ej -> ei = ej.
Proof.
  intros Hev A N L Wi Wj Hi Hj Ei Ej. pose proof (table_legal board own (conj A (conj N L))) as LL.
  destruct (all_results ev _ Hev LL) as (es & R). rewrite <- seats_faces in Wi, Wj.
  assert (AT : forall i h ei, nth_error own i = Some h -> evaluates ev (box_cards board [h]) ei -> nth_error es i = Some ei).
  { clear - R. unfold results in R. intros i. remember (map (fun h => board ++ h) own) as hs eqn:Q. revert i own Q.
    induction R as [|x e hs es E R IH]; intros i [|o own] Q h ei Hi Ei; try discriminate Q; destruct i; try discriminate Hi.
    - injection Q as -> _. injection Hi as ->. cbn [nth_error]. rewrite (evaluates_fun ev (board ++ h) e ei E Ei). reflexivity.
    - injection Q as _ Q. cbn [nth_error] in *. exact (IH i own Q h ei Hi Ei). }
  pose proof (AT i h ei Hi Ei) as Qi. pose proof (AT j k ej Hj Ej) as Qj.
  pose proof (proj2 (winner_is ev _ es i ei Hev LL R Qi) Wi ej (nth_error_In _ _ Qj)) as X.
  pose proof (proj2 (winner_is ev _ es j ej Hev LL R Qj) Wj ei (nth_error_In _ _ Qi)) as Y.
  apply not_worse, cmp_not_Lt in X. apply not_worse, cmp_not_Lt in Y.
  assert (S : forall i h, nth_error own i = Some h -> legal (board ++ h)).
  { intros m x Hm. rewrite Forall_forall in LL. apply LL, (in_map (fun h => board ++ h)), (nth_error_In _ _ Hm). }
  apply (same_value ev (board ++ h) (board ++ k) ei ej Hev (S i h Hi) (S j k Hj) Ei Ej). lia.
Qed.

(** ** Without a flush only ranks matter *)
Lemma only_nil_rule8 H : (forall s, length (only s H) < 5) -> NoDup H -> rule 8 H = None.
Proof.
  intros L N. cbn [rule].
  destruct (filter (fun t => existsb (fun s => has_run (only s H) t) four_suits) tops) as [|t l] eqn:Q; [reflexivity|exfalso].
  assert (I : In t (t :: l)) by (left; reflexivity). rewrite <- Q in I. apply filter_In in I. destruct I as (It & X).
  apply existsb_exists in X. destruct X as (s & _ & X). rewrite has_run_spec in X.
  specialize (L s). assert (LR : length (ranks (only s H)) = length (only s H)) by apply map_length.
  assert (In_ : incl (run t) (ranks (only s H))).
  { intros r Hr. specialize (X r Hr). apply count_only in X. change r with (fst (r, s)). apply in_map, only_in. split; [exact X|reflexivity]. }
  pose proof (NoDup_incl_length (run_NoDup t) In_). rewrite (run_length t It) in H0. lia.
Qed.
Lemma only_nil_rule5 H : (forall s, length (only s H) < 5) -> rule 5 H = None.
Proof.
  intros L. cbn [rule]. replace (map (flush_in H) four_suits) with [@nil rank; []; []; []]; [reflexivity|].
  symmetry. unfold four_suits. cbn [map]. assert (F : forall s, flush_in H s = []).
  { intros s. unfold flush_in. destruct (Nat.leb_spec 5 (length (only s H))) as [K|K]; [|reflexivity]. specialize (L s). lia. }
  rewrite !F. reflexivity.
Qed.
Lemma held_ext n H G : (forall r, count r H = count r G) -> held n H = held n G.
Proof. intros C. unfold held. apply filter_ext. intros r. rewrite C. reflexivity. Qed.
Lemma has_run_ext H G t : (forall r, count r H = count r G) -> has_run H t = has_run G t.
Proof.
  intros C. unfold has_run. induction (run t) as [|r l IH]; [reflexivity|]. cbn [forallb]. rewrite C, IH. reflexivity.
Qed.
Lemma best_ranks H G : NoDup H -> NoDup G -> (forall s, length (only s H) < 5) -> (forall s, length (only s G) < 5) ->
  (forall r, count r H = count r G) -> best H = best G.
Proof.
  intros NH NG LH LG C. unfold best. cbn [first_rule].
  rewrite (only_nil_rule8 H LH NH), (only_nil_rule8 G LG NG), (only_nil_rule5 H LH), (only_nil_rule5 G LG).
  cbn [rule]. rewrite !(fun n => held_ext n H G C), (filter_ext _ _ (fun t => has_run_ext H G t C)). reflexivity.
Qed.

Lemma only_app s a b : only s (a ++ b) = only s a ++ only s b.
Proof. apply filter_app. Qed.
Lemma only_length s a : length (only s a) <= length a.
Proof. unfold only. induction a as [|x a IH]; cbn [filter length]; [lia|]. destruct (suit_dec (snd x) s); cbn [length]; lia. Qed.

(** If no suit of the board can make a flush with the players' cards, players with cards of the same
    ranks tie. *)
Theorem same_ranks_tie ev board h k eh ek : new_evaluator ev -> all_cards (board ++ h ++ k) ->
  evaluates ev (box_cards board [h]) eh -> evaluates ev (box_cards board [k]) ek ->
  (forall s, length (only s (faces board)) + length h < 5) ->
  Permutation (ranks (faces h)) (ranks (faces k)) -> eh = ek.
Proof.
  intros Hev A Eh Ek F P. change (evaluates ev (board ++ h) eh) in Eh. change (evaluates ev (board ++ k) ek) in Ek.
  assert (Ah : all_cards (board ++ h) /\ all_cards (board ++ k)).
  { unfold all_cards in *. rewrite !Forall_app in *. tauto. }
  destruct Ah as (Ah & Ak).
  assert (LK : length h = length k).
  { apply Permutation_length in P. unfold ranks, faces in P. rewrite !map_length in P. exact P. }
  assert (B : best (faces (board ++ h)) = best (faces (board ++ k))).
  { apply best_ranks.
    - apply (SizeFacts.NH ev _ eh Ah Eh).
    - apply (SizeFacts.NH ev _ ek Ak Ek).
    - intros s. rewrite faces_app, only_app, app_length. pose proof (only_length s (faces h)) as Q.
      unfold faces in Q at 2. rewrite map_length in Q. specialize (F s). lia.
    - intros s. rewrite faces_app, only_app, app_length. pose proof (only_length s (faces k)) as Q.
      unfold faces in Q at 2. rewrite map_length in Q. specialize (F s). lia.
    - intros r. unfold count. apply Permutation_count_occ. rewrite !faces_app. unfold ranks. rewrite !map_app.
      apply Permutation_app_head, P. }
  apply (worth_compare ev _ _ eh ek Hev Ah Ak Eh Ek) in B.
  apply (same_value ev _ _ eh ek Hev (evaluates_legal ev _ eh Ah Eh) (evaluates_legal ev _ ek Ak Ek) Eh Ek), cmp_Eq, B.
Qed.

Theorem not_below_board ev board h eb e : new_evaluator ev -> all_cards (board ++ h) -> evaluates ev board eb ->
  evaluates ev (box_cards board [h]) e -> eval_is_worse_than e eb = false.
Proof.
  intros Hev A Eb E. apply not_worse. apply (more_cards ev board (board ++ h) eb e Hev A); [|exact Eb|exact E].
  apply incl_appl, incl_refl.
Qed.

(** The winners, read off what everybody holds. *)
Theorem winners_read_off ev board own i h : new_evaluator ev -> all_cards (board ++ concat own) -> NoDup (board ++ concat own) ->
  Forall (fun h => 5 <= length board + length h) own -> nth_error own i = Some h ->
  (wins (seats (faces board) (map faces own)) i
   <-> forall k, In k own -> ~ worth_more (best (faces board ++ faces k)) (best (faces board ++ faces h))).
Proof.
  intros Hev A N L Hi. pose proof (table_legal board own (conj A (conj N L))) as LL.
  destruct (all_results ev _ Hev LL) as (es & R). rewrite Forall_forall in LL.
  assert (Hm : nth_error (map (fun h => board ++ h) own) i = Some (board ++ h)) by (rewrite nth_error_map, Hi; reflexivity).
  assert (exists e, nth_error es i = Some e) as (e & Q).
  { destruct (nth_error es i) as [e|] eqn:Q; [exists e; reflexivity|exfalso].
    apply nth_error_None in Q. assert (K : nth_error (map (fun h => board ++ h) own) i <> None) by congruence.
    apply nth_error_Some in K. assert (length (map (fun h => board ++ h) own) = length es); [|lia].
    clear - R. induction R as [|x y l l' _ _ IH]; [reflexivity|]. cbn [length]. congruence. }
  destruct (result_at ev _ es i e R Q) as (h' & Hi' & E). rewrite Hm in Hi'. injection Hi' as <-.
  rewrite <- seats_faces, <- (winner_is ev _ es i e Hev (proj2 (Forall_forall _ _) LL) R Q).
  assert (Lh : legal (board ++ h)) by (apply LL, (nth_error_In _ _ Hm)). split.
  - intros B k Ik W. pose proof (in_map (fun h => board ++ h) _ _ Ik) as Imk. cbv beta in Imk.
    destruct (result_of ev _ es (board ++ k) R Imk) as (ek & Iek & Ek).
    specialize (B ek Iek). apply not_worse in B. apply B.
    apply (worth_compare ev _ _ e ek Hev (proj1 Lh) (proj1 (LL _ Imk)) E Ek). rewrite !faces_app. exact W.
  - intros B e' Ie'. apply not_worse. intros X. destruct (result_from ev _ es e' R Ie') as (m & Im & E').
    pose proof (LL m Im) as Lm. apply in_map_iff in Im. destruct Im as (k & <- & Ik). apply (B k Ik).
    rewrite <- !faces_app. apply (worth_compare ev _ _ e e' Hev (proj1 Lh) (proj1 Lm) E E'). exact X.
Qed.
