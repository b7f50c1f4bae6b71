(** WeakFacts.v: the weakest result of a number of cards. *)
From Coq Require Import Lia List Arith Bool Permutation.
From Verif Require Import Base BaseFacts ModelCard ModelEval ModelTable ModelEvaluation.
From Verif Require Import Spec SpecApi CardFacts Sweep SweepFacts SpecFacts EvalFacts FiveFacts
  CombosFacts EvaluateFacts HandFacts ClassFacts LawFacts SizeFacts.
Import ListNotations.
Local Open Scope nat_scope.

Fixpoint powers (l : list rank) : list (list rank) :=
  match l with
  | [] => [[]]
  | x :: l => map (cons x) (powers l) ++ powers l
  end.
Lemma filter_powers f l : In (filter f l) (powers l).
Proof.
  induction l as [|x l IH]; [left; reflexivity|]. simpl. apply in_app_iff.
  destruct (f x); [left; apply in_map, IH|right; exact IH].
Qed.

Definition mem (l : list rank) (r : rank) : bool := if in_dec rank_dec r l then true else false.
Lemma mem_in l r : mem l r = true <-> In r l.
Proof. unfold mem. destruct (in_dec rank_dec r l); split; (tauto || discriminate). Qed.

(** The ranks of a hand, highest first. *)
Definition sorted (l : list rank) : list rank := filter (mem l) high_to_low.
Lemma sorted_in l r : In r (sorted l) <-> In r l.
Proof.
  unfold sorted. rewrite filter_In, mem_in. pose proof (in_high_to_low r). tauto.
Qed.
Lemma high_to_low_NoDup : NoDup high_to_low.
Proof. repeat constructor; simpl; intuition discriminate. Qed.
Lemma sorted_perm l : NoDup l -> Permutation l (sorted l).
Proof.
  intros N. apply NoDup_Permutation; [exact N|apply NoDup_filter, high_to_low_NoDup|].
  intros r. symmetry. apply sorted_in.
Qed.

Lemma by_multiplicity_distinct F : (forall r, count r F <= 1) -> by_multiplicity F = sorted (ranks F).
Proof.
  intros C. unfold by_multiplicity. cbn [flat_map]. rewrite app_nil_r.
  assert (Z : forall n, 2 <= n -> filter (fun r => count r F =? n) high_to_low = []).
  { intros n L. induction high_to_low as [|r l IH]; [reflexivity|]. cbn [filter].
    specialize (C r). destruct (Nat.eqb_spec (count r F) n); [lia|exact IH]. }
  rewrite !Z by lia. cbn [app]. unfold sorted. apply filter_ext. intros r.
  destruct (mem (ranks F) r) eqn:M.
  - apply mem_in, in_count in M. specialize (C r). apply Nat.eqb_eq. lia.
  - apply Nat.eqb_neq. intros Q.
    assert (In r (ranks F)) by (apply (count_occ_In rank_dec); fold (count r F); lia).
    apply mem_in in H. congruence.
Qed.

Fixpoint lex_geb (a b : list rank) : bool :=
  match a, b with
  | x :: a, y :: b => Nat.ltb (pips y) (pips x) || (Nat.eqb (pips x) (pips y) && lex_geb a b)
  | [], [] => true
  | _, _ => false
  end.
Lemma lex_geb_spec a b : lex_geb a b = true -> lex_gt a b \/ a = b.
Proof.
  revert b. induction a as [|x a IH]; intros [|y b]; simpl; intros Q; try discriminate Q; [right; reflexivity|].
  apply orb_true_iff in Q. rewrite andb_true_iff, Nat.ltb_lt, Nat.eqb_eq in Q.
  destruct Q as [Q|(Q & K)]; [left; left; exact Q|].
  assert (x = y) as -> by (destruct x, y; try reflexivity; discriminate Q).
  destruct (IH b K) as [G| ->]; [left; right; split; [reflexivity|exact G]|right; reflexivity].
Qed.

Lemma lex_geb_antisym a b : lex_geb a b = true -> lex_geb b a = true -> a = b.
Proof.
  revert b. induction a as [|x a IH]; intros [|y b] K2 K3; [reflexivity|discriminate K2|discriminate K2|].
  cbn [lex_geb] in K2, K3. rewrite orb_true_iff, andb_true_iff, Nat.ltb_lt, Nat.eqb_eq in K2, K3.
  assert (Q : pips x = pips y) by lia.
  assert (x = y) as -> by (destruct x, y; try reflexivity; discriminate Q).
  f_equal. apply IH; [destruct K2 as [K2|K2]; [lia|tauto]|destruct K3 as [K3|K3]; [lia|tauto]].
Qed.

Definition has_run (S : list rank) : bool := existsb (fun w => forallb (mem S) w) windows.

Lemma weakest_ok : forallb (fun S =>
    let n := length S in
    Nat.ltb n 5 || Nat.ltb 11 n || has_run S || lex_geb (firstn 5 S) (weakest n)) (powers high_to_low) = true.
Proof. vm_compute. reflexivity. Qed.
Lemma weakest_no_run : forallb (fun n =>
  negb (has_run (weakest n)) && Nat.eqb (length (weakest n)) 5
  && lex_geb (sorted (weakest n)) (weakest n) && lex_geb (weakest n) (sorted (weakest n))) (seq 5 7) = true.
Proof. vm_compute. reflexivity. Qed.

Lemma combine_pips a b : length a = length b ->
  forallb (fun p => Nat.eqb (pips (fst p)) (pips (snd p))) (combine a b) = true -> a = b.
Proof.
  revert b. induction a as [|x a IH]; intros [|y b] L Q; try discriminate L; [reflexivity|].
  cbn [combine forallb fst snd] in Q. apply andb_true_iff in Q. destruct Q as [Q1 Q2]. apply Nat.eqb_eq in Q1.
  assert (x = y) as -> by (destruct x, y; try reflexivity; discriminate Q1).
  f_equal. apply IH; [simpl in L; lia|exact Q2].
Qed.

Lemma powers_sorted : forallb (fun S =>
  Nat.eqb (length (sorted (firstn 5 S))) (length (firstn 5 S))
  && forallb (fun p => Nat.eqb (pips (fst p)) (pips (snd p))) (combine (sorted (firstn 5 S)) (firstn 5 S)))
  (powers high_to_low) = true.
Proof. vm_compute. reflexivity. Qed.

Lemma has_run_window S : has_run S = true <-> exists w, In w windows /\ incl w S.
Proof.
  unfold has_run. rewrite existsb_exists. split; intros (w & I & Q); exists w; (split; [exact I|]).
  - rewrite forallb_forall in Q. intros r J. apply mem_in, Q, J.
  - apply forallb_forall. intros r J. apply mem_in, Q, J.
Qed.

Lemma run_of_window ev h e w : new_evaluator ev -> all_cards h -> evaluates ev h e ->
  In w windows -> incl w (ranks (faces h)) -> 4 <= category (eval_class_of e).
Proof.
  intros Hev A E I Q.
  assert (Q' : forall r, In r w -> 1 <= count r (faces h)) by (intros r J; apply in_count, Q, J).
  simpl in I.
  destruct I as [<-|I].
  - (* the wheel *)
    destruct (count_in Ace _ (Q' Ace ltac:(simpl; tauto))) as (a & Ia & Ea).
    destruct (count_in Two _ (Q' Two ltac:(simpl; tauto))) as (b & Ib & Eb).
    destruct (count_in Three _ (Q' Three ltac:(simpl; tauto))) as (c & Ic & Ec).
    destruct (count_in Four _ (Q' Four ltac:(simpl; tauto))) as (d & Id & Ed).
    destruct (count_in Five _ (Q' Five ltac:(simpl; tauto))) as (f & If & Ef).
    set (F := [a; b; c; d; f]).
    assert (R : ranks F = [Ace; Two; Three; Four; Five]) by (cbn [F ranks map]; congruence).
    assert (N : NoDup F).
    { apply (NoDup_map_inv fst). fold (ranks F). rewrite R. repeat constructor; simpl; intuition discriminate. }
    apply (at_least ev h e F 4 Hev A E N eq_refl).
    + intros x [<-|[<-|[<-|[<-|[<-|[]]]]]]; assumption.
    + intros k. apply (sequence_up F k Five). right. split; [reflexivity|]. rewrite R. apply Permutation_refl.
  - repeat (destruct I as [<-|I];
      [match goal with |- _ => idtac end;
       match type of Q with incl ?w _ =>
         let top := constr:(last w Ace) in
         apply (has_window ev h e Hev A E w (last w Ace));
           [repeat constructor; simpl; intuition discriminate|reflexivity|reflexivity|exact Q']
       end|]).
    destruct I.
Qed.

Lemma at_least_cmp ev h e w ew : new_evaluator ev -> all_cards h -> all_cards w ->
  evaluates ev h e -> evaluates ev w ew -> category (eval_class_of ew) < category (eval_class_of e) ->
  eval_cmp e ew <> Lt.
Proof.
  intros Hev A Aw E Ew C Q.
  assert (N : eval_cmp ew e <> Lt).
  { rewrite (proj1 (proj2 (eval_order e ew e))), Q. discriminate. }
  pose proof (category_mono ev w h ew e Hev Aw A Ew E N). lia.
Qed.

(** A hand whose ranks are [weakest n], not all of one suit, is a high card. *)
Lemma weakest_high n w ew ev : new_evaluator ev -> 5 <= n <= 11 -> hand5 w -> evaluates ev w ew ->
  Permutation (ranks (faces w)) (weakest n) -> ~ suited (faces w) ->
  (exists top, eval_class_of ew = HighCard top) /\ by_multiplicity (faces w) = weakest n.
Proof.
  intros Hev B Hw E P NS. pose proof weakest_no_run as K. rewrite forallb_forall in K.
  specialize (K n ltac:(apply in_seq; lia)). rewrite !andb_true_iff, negb_true_iff in K.
  destruct K as (((K1 & _) & K2) & K3).
  assert (N : NoDup (ranks (faces w))).
  { apply (Permutation_NoDup (Permutation_sym P)).
    assert (n = 5 \/ n = 6 \/ n = 7 \/ n = 8 \/ n = 9 \/ n = 10 \/ n = 11) as D by lia.
    destruct D as [->|[->|[->|[->|[->|[->| ->]]]]]]; repeat constructor; simpl; intuition discriminate. }
  pose proof (NoDup_ranks_count (faces w) N) as C1.
  assert (NQ : forall r, ~ in_sequence (faces w) r).
  { intros r Q. destruct (sequence_window _ _ Q) as (x & I & J).
    assert (has_run (weakest n) = true); [|congruence].
    apply has_run_window. exists x. split; [exact I|]. intros q Hq. apply (Permutation_in _ P), J, Hq. }
  pose proof (proj2 (class_correct ev w ew Hev Hw E _) eq_refl) as C.
  split.
  - destruct (eval_class_of ew) as [t|p|a b|t|t|t|t p|q|t]; cbn [classify] in C;
      try (exfalso; first [ specialize (C1 p); lia | specialize (C1 a); lia | specialize (C1 t); lia
        | specialize (C1 q); lia | destruct C as (_ & C); exact (NQ _ C)
        | destruct C as (C & _); exact (NS C) ]).
    exists t. reflexivity.
  - rewrite by_multiplicity_distinct by exact C1.
    assert (S : sorted (ranks (faces w)) = sorted (weakest n)).
    { apply filter_ext. intros r.
      destruct (mem (ranks (faces w)) r) eqn:M1, (mem (weakest n) r) eqn:M2; try reflexivity; exfalso.
      - apply mem_in, (Permutation_in _ P), mem_in in M1. congruence.
      - apply mem_in, (Permutation_in _ (Permutation_sym P)), mem_in in M2. congruence. }
    rewrite S. exact (lex_geb_antisym _ _ K2 K3).
Qed.

Lemma cards_of_ranks (H : list face) (l : list rank) : incl l (ranks H) -> exists F, ranks F = l /\ incl F H.
Proof.
  induction l as [|r l IH]; intros I; [exists []; split; [reflexivity|intros f []]|].
  destruct IH as (F & R & J); [intros q Hq; apply I; right; exact Hq|].
  assert (Hr : In r (ranks H)) by (apply I; left; reflexivity).
  apply in_map_iff in Hr. destruct Hr as (f & Ef & If).
  exists (f :: F). split; [simpl; congruence|]. intros g [<-|Hg]; [exact If|apply J, Hg].
Qed.

Theorem weakest_bound ev h e w ew : new_evaluator ev -> legal h -> evaluates ev h e -> length h <= 11 ->
  hand5 w -> Permutation (ranks (faces w)) (weakest (length h)) -> ~ suited (faces w) -> evaluates ev w ew ->
  eval_cmp e ew <> Lt.
Proof.
  intros Hev (A & ND & L5) E L11 Hw P NS Ew.
  destruct (weakest_high (length h) w ew ev Hev (conj L5 L11) Hw Ew P NS) as ((tw & Cw) & Dw).
  assert (Up : 1 <= category (eval_class_of e) -> eval_cmp e ew <> Lt).
  { intros Q. apply (at_least_cmp ev h e w ew Hev A (proj1 Hw) E Ew). rewrite Cw. simpl. lia. }
  set (H := faces h).
  destruct (any_or_none (fun r => 2 <= count r H) (fun r => le_dec _ _)) as [(r & Q)|X].
  { apply Up. exact (has_pair ev h e Hev A E r Q). }
  assert (N : NoDup (ranks H)).
  { apply (NoDup_count_occ rank_dec). intros r. specialize (X r). unfold count in X. lia. }
  set (S := sorted (ranks H)).
  pose proof (sorted_perm _ N) as PS. fold S in PS.
  assert (LS : length S = length h).
  { rewrite <- (Permutation_length PS). unfold ranks, H, faces. rewrite !map_length. reflexivity. }
  pose proof weakest_ok as K. rewrite forallb_forall in K.
  specialize (K S (filter_powers _ _)). cbv zeta in K. rewrite LS, !orb_true_iff, !Nat.ltb_lt in K.
  destruct K as [[[K|K]|K]|K]; [lia|lia| |].
  { apply has_run_window in K. destruct K as (x & I & J). apply Up.
    enough (4 <= category (eval_class_of e)) by lia.
    apply (run_of_window ev h e x Hev A E I). intros q Hq. apply (Permutation_in _ (Permutation_sym PS)), J, Hq. }
  destruct (cards_of_ranks H (firstn 5 S)) as (F & R & IF).
  { intros r I. apply firstn_in in I. apply (Permutation_in _ (Permutation_sym PS)), I. }
  assert (NT : NoDup (firstn 5 S)) by (apply firstn_NoDup, (Permutation_NoDup PS), N).
  assert (NF : NoDup F) by (apply (NoDup_map_inv fst); fold (ranks F); rewrite R; exact NT).
  assert (LF : length F = 5).
  { replace (length F) with (length (ranks F)) by (unfold ranks; apply map_length).
    rewrite R, firstn_length. lia. }
  pose proof (card_at_hand5 F NF LF) as Hx.
  destruct (evaluate_spec ev _ Hev (hand5_legal _ Hx)) as (ex & Ex & _).
  assert (Ix : incl (map card_at F) h).
  { intros c Hc. apply in_map_iff in Hc. destruct Hc as (f & <- & Hf).
    apply card_at_in; [exact A|]. apply IF, Hf. }
  pose proof (more_cards ev _ h ex e Hev A Ix Ex E) as M.
  enough (Q : eval_cmp ex ew <> Lt).
  { pose proof (eval_order ew ex e) as (_ & O1 & O2 & _).
    pose proof (proj1 (proj2 (eval_order e ew e))) as O3.
    pose proof (proj1 (proj2 (eval_order e ex e))) as O4.
    pose proof (proj1 (proj2 (eval_order ex ew e))) as O5.
    destruct (eval_cmp e ew) eqn:Z1, (eval_cmp ex ew) eqn:Z2, (eval_cmp e ex) eqn:Z3; simpl in *; try congruence;
      exfalso; apply O2; congruence. }
  pose proof (proj2 (class_correct ev _ ex Hev Hx Ex _) eq_refl) as Cx. rewrite faces_card_at in Cx.
  pose proof (proj2 (class_correct ev w ew Hev Hw Ew _) eq_refl) as Cy.
  destruct (comparison_correct ev _ w ex ew Hev Hx Hw Ex Ew) as (G1 & G2 & _). rewrite faces_card_at in G1, G2.
  destruct (Nat.eq_dec (category (eval_class_of ex)) 0) as [Z|Z].
  - assert (D : deciders (eval_class_of ex) F = firstn 5 S).
    { assert (by_multiplicity F = firstn 5 S).
      { rewrite by_multiplicity_distinct by (apply NoDup_ranks_count; rewrite R; exact NT).
        rewrite R. pose proof powers_sorted as PQ. rewrite forallb_forall in PQ.
        specialize (PQ S (filter_powers _ _)). apply andb_true_iff in PQ. destruct PQ as [PQ1 PQ2].
        apply combine_pips; [apply Nat.eqb_eq, PQ1|exact PQ2]. }
      destruct (eval_class_of ex); simpl in *; (assumption || discriminate Z). }
    destruct (lex_geb_spec _ _ K) as [K'|K'].
    + assert (eval_cmp ex ew = Gt); [|congruence]. apply G1.
      exists (eval_class_of ex), (eval_class_of ew). split; [exact Cx|]. split; [exact Cy|]. right.
      rewrite Cw, D. split; [simpl; exact Z|]. simpl. rewrite Dw. exact K'.
    + assert (eval_cmp ex ew = Eq); [|congruence]. apply G2.
      exists (eval_class_of ex), (eval_class_of ew). split; [exact Cx|]. split; [exact Cy|].
      rewrite Cw, D. split; [simpl; exact Z|]. simpl. rewrite Dw. exact K'.
  - assert (eval_cmp ex ew = Gt); [|congruence]. apply G1.
    exists (eval_class_of ex), (eval_class_of ew). split; [exact Cx|]. split; [exact Cy|]. left.
    rewrite Cw. simpl. lia.
Qed.

(** Hands that are no stronger. *)
Definition weak_ranks (n : nat) : list rank :=
  match n with
  | 5 => [Seven; Five; Four; Three; Two]
  | 6 => [Eight; Seven; Five; Four; Three; Two]
  | 7 => [Nine; Eight; Seven; Five; Four; Three; Two]
  | 8 => [Ten; Nine; Eight; Seven; Five; Four; Three; Two]
  | 9 => [Queen; Ten; Nine; Eight; Seven; Five; Four; Three; Two]
  | 10 => [King; Queen; Ten; Nine; Eight; Seven; Five; Four; Three; Two]
  | _ => [Ace; King; Queen; Jack; Nine; Eight; Seven; Six; Four; Three; Two]
  end.
Definition weak_hand (n : nat) : list face := cycle (weak_ranks n) SUIT_ALL_VARIANTS.
Lemma weak_hand_ok : forallb (fun n =>
  none_above 0 (weak_hand n) && nodupb (weak_hand n) && Nat.eqb (length (weak_hand n)) n
  && forallb (fun t => negb (Nat.eqb (length t) 5) || negb (forallb (mem (weak_ranks n)) t)
       || lex_geb (weakest n) t) (powers high_to_low)) (seq 5 7) = true.
Proof. vm_compute. reflexivity. Qed.
Lemma weak_hand_ranks : forallb (fun n =>
  forallb (fun f => mem (weak_ranks n) (fst f)) (weak_hand n)
  && Nat.eqb (length (firstn 5 (weak_hand n))) 5
  && forallb (fun p => Nat.eqb (pips (fst p)) (pips (snd p))) (combine (ranks (firstn 5 (weak_hand n))) (weakest n))
  && forallb (fun s => Nat.ltb (scount s (firstn 5 (weak_hand n))) 5) SUIT_ALL_VARIANTS) (seq 5 7) = true.
Proof. vm_compute. reflexivity. Qed.
Theorem weakest_attained ev n : new_evaluator ev -> 5 <= n <= 11 ->
  exists h e w ew, legal h /\ length h = n /\ evaluates ev h e
    /\ hand5 w /\ Permutation (ranks (faces w)) (weakest n) /\ ~ suited (faces w) /\ evaluates ev w ew
    /\ eval_cmp e ew = Eq.
Proof.
  intros Hev B. pose proof weak_hand_ok as K. rewrite forallb_forall in K.
  specialize (K n ltac:(apply in_seq; lia)). rewrite !andb_true_iff, Nat.eqb_eq in K.
  destruct K as (((U & D) & L) & T). pose proof weak_hand_ranks as RK. rewrite forallb_forall in RK.
  specialize (RK n ltac:(apply in_seq; lia)). rewrite !andb_true_iff, Nat.eqb_eq in RK.
  destruct RK as (((RK & L5) & RW) & SW). pose proof weakest_no_run as WK. rewrite forallb_forall in WK.
  specialize (WK n ltac:(apply in_seq; lia)). rewrite !andb_true_iff, Nat.eqb_eq in WK.
  destruct WK as (((_ & LW) & _) & _).
  apply nodupb_NoDup in D. set (W := firstn 5 (weak_hand n)) in *. set (h := map card_at (weak_hand n)) in *.
  assert (NW : NoDup W) by (apply firstn_NoDup, D).
  apply card_at_NoDup in D. fold h in D.
  assert (Lh : length h = n) by (unfold h; rewrite map_length; exact L).
  assert (G : legal h) by (split; [apply card_at_all|split; [exact D|lia]]).
  destruct (evaluate_spec ev h Hev G) as (e & E & _).
  pose proof (card_at_hand5 W NW L5) as Hw. set (w := map card_at W) in *.
  assert (FW : faces w = W) by apply faces_card_at.
  destruct (evaluate_spec ev w Hev (hand5_legal w Hw)) as (ew & Ew & _).
  assert (RWe : ranks W = weakest n).
  { apply combine_pips; [|exact RW]. unfold ranks. rewrite map_length. transitivity 5; [exact L5|symmetry; exact LW]. }
  assert (P : Permutation (ranks (faces w)) (weakest n)) by (rewrite FW, RWe; apply Permutation_refl).
  assert (NS : ~ suited (faces w)).
  { rewrite FW. intros (s & S). rewrite forallb_forall in SW. specialize (SW s (in_all_suits s)).
    apply Nat.ltb_lt in SW.
    assert (scount s W = 5); [|lia].
    unfold scount. rewrite <- L5. f_equal. clear -S. induction S as [|f F Q S IH]; [reflexivity|].
    cbn [filter]. rewrite (proj2 (of_suit_eq s f) Q), IH. reflexivity. }
  exists h, e, w, ew. split; [exact G|]. split; [exact Lh|]. split; [exact E|]. split; [exact Hw|].
  split; [exact P|]. split; [exact NS|]. split; [exact Ew|].
  destruct (weakest_high n w ew ev Hev B Hw Ew P NS) as ((tw & Cw) & Dw).
  assert (GE : eval_cmp e ew <> Lt).
  { apply (weakest_bound ev h e w ew Hev G E); try assumption; rewrite Lh; [lia|exact P]. }
  destruct (best_five ev h e Hev (proj1 G) E) as (x & Hx & I & Ex).
  pose proof (proj2 (class_correct ev x e Hev Hx Ex _) eq_refl) as Cx.
  pose proof (hand5_faces x Hx) as (NX & LX).
  assert (IX : incl (faces x) (weak_hand n)).
  { intros f If. rewrite <- (faces_card_at (weak_hand n)). fold h. revert f If. apply incl_map, I. }
  pose proof (none_above_spec 0 (weak_hand n) (faces x) _ U NX LX IX Cx) as Z.
  assert (C1 : (forall r, count r (faces x) <= 1) /\ deciders (eval_class_of e) (faces x) = by_multiplicity (faces x)).
  { destruct (eval_class_of e); cbn [category] in Z; try (exfalso; lia). split; [exact (proj1 (proj2 (proj2 Cx)))|reflexivity]. }
  destruct C1 as (C1 & De). rewrite by_multiplicity_distinct in De by exact C1.
  assert (NR : NoDup (ranks (faces x))) by (apply (NoDup_count_occ rank_dec); intros r; exact (C1 r)).
  rewrite forallb_forall in T. specialize (T (sorted (ranks (faces x))) (filter_powers _ _)).
  rewrite !orb_true_iff, !negb_true_iff, Nat.eqb_neq in T.
  destruct (comparison_correct ev x w e ew Hev Hx Hw Ex Ew) as (_ & G2 & G3).
  pose proof (proj2 (class_correct ev w ew Hev Hw Ew _) eq_refl) as Cy.
  destruct T as [[T|T]|T].
  - exfalso. apply T. rewrite <- (Permutation_length (sorted_perm _ NR)). unfold ranks. rewrite map_length. exact LX.
  - exfalso. assert (forallb (mem (weak_ranks n)) (sorted (ranks (faces x))) = true); [|congruence].
    apply forallb_forall. intros r Ir. rewrite sorted_in in Ir. apply in_map_iff in Ir.
    destruct Ir as (f & <- & If). rewrite forallb_forall in RK. apply RK, IX, If.
  - destruct (lex_geb_spec _ _ T) as [T'|T'].
    + exfalso. apply GE, G3. exists (eval_class_of ew), (eval_class_of e). split; [exact Cy|]. split; [exact Cx|].
      right. rewrite De, Cw. simpl. rewrite Dw. split; [lia|exact T'].
    + apply G2. exists (eval_class_of e), (eval_class_of ew). split; [exact Cx|]. split; [exact Cy|].
      rewrite De, Cw. simpl. rewrite Dw. split; [lia|symmetry; exact T'].
Qed.
