(** ExamplesFacts.v: the example programs. *)
From Coq Require Import Lia List Arith Bool Permutation String ZArith.
From Verif Require Import Base BaseFacts ModelCard ModelEval ModelTable ModelEvaluation ModelExamples.
From Verif Require Import Spec SpecApi SpecText SpecExamples CardFacts.
From Verif Require CountFacts HandFacts TextFacts DeckFacts.
Import ListNotations.
Local Open Scope Z_scope.

Lemma str_eqb_eq a b : str_eqb a b = true <-> a = b.
Proof.
  revert b. induction a as [|x a IH]; intros [|y b]; simpl; try (split; congruence).
  rewrite andb_true_iff, N.eqb_eq, IH. split; [intros [-> ->]; reflexivity|].
  intros E. injection E as -> ->. auto.
Qed.
Lemma str_eqb_neq a b : str_eqb a b = false <-> a <> b.
Proof.
  rewrite <- not_true_iff_false, str_eqb_eq. reflexivity.
Qed.

(** ** Numbers *)
Definition is_digit (c : rchar) : Prop := exists d, (d < 10)%N /\ c = (48 + d)%N.
Definition digits_value (acc : Z) (s : rstring) : Z :=
  fold_left (fun a c => a * 10 + (Z.of_N c - 48)) s acc.

Lemma to_digit_spec c x : to_digit c = Some x <-> is_digit c /\ x = Z.of_N c - 48.
Proof.
  unfold to_digit, is_digit.
  destruct ((48 <=? c) && (c <=? 57))%N eqn:E.
  - apply andb_true_iff in E. destruct E as [E1 E2]. apply N.leb_le in E1, E2. split.
    + intros H. injection H as <-. split; [|reflexivity]. exists (c - 48)%N. lia.
    + intros [_ ->]. reflexivity.
  - split; [discriminate|]. intros [(d & Hd & ->) _].
    apply andb_false_iff in E. destruct E as [E|E]; apply N.leb_gt in E; lia.
Qed.

Lemma digits_value_ge s : forall acc, 0 <= acc -> Forall is_digit s -> acc <= digits_value acc s.
Proof.
  unfold digits_value. induction s as [|c s IH]; intros acc Ha F; cbn [fold_left]; [lia|].
  pose proof (Forall_inv_tail F) as Fs. apply Forall_inv in F. destruct F as (d & Hd & ->).
  eapply Z.le_trans; [|apply (IH (acc * 10 + (Z.of_N (48 + d) - 48)) ltac:(lia) Fs)]. lia.
Qed.

Lemma in_u64_iff z : in_u64 z = true <-> 0 <= z < 2 ^ 64.
Proof.
  unfold in_u64. rewrite andb_true_iff, Z.leb_le, Z.ltb_lt. reflexivity.
Qed.

Lemma parse_digits_spec s : forall acc n, 0 <= acc < 2 ^ 64 ->
  (parse_digits s acc = Some n <-> Forall is_digit s /\ n = digits_value acc s /\ n < 2 ^ 64).
Proof.
  induction s as [|c s IH]; intros acc n Ha.
  - cbn [parse_digits]. unfold digits_value. cbn [fold_left]. split.
    + intros H. injection H as <-. repeat split; [constructor|lia].
    + intros (_ & -> & _). reflexivity.
  - cbn [parse_digits]. destruct (to_digit c) as [x|] eqn:Ed.
    + apply to_digit_spec in Ed. destruct Ed as [Dc ->].
      destruct Dc as (d & Hd & ->).
      assert (Dc : is_digit (48 + d)%N) by (exists d; auto).
      unfold digits_value. cbn [fold_left]. fold (digits_value (acc * 10 + (Z.of_N (48 + d) - 48)) s).
      destruct (in_u64 (acc * 10)) eqn:E1; [destruct (in_u64 (acc * 10 + (Z.of_N (48 + d) - 48))) eqn:E2|].
      * apply in_u64_iff in E2. rewrite (IH _ n E2). split.
        -- intros (F & -> & L). split; [constructor; assumption|]. auto.
        -- intros (F & -> & L). inversion F; subst. auto.
      * split; [discriminate|]. intros (F & -> & L). inversion F as [|? ? _ Fs]; subst.
        pose proof (digits_value_ge s (acc * 10 + (Z.of_N (48 + d) - 48)) ltac:(lia) Fs).
        apply not_true_iff_false in E2. exfalso. apply E2. apply in_u64_iff. lia.
      * split; [discriminate|]. intros (F & -> & L). inversion F as [|? ? _ Fs]; subst.
        pose proof (digits_value_ge s (acc * 10 + (Z.of_N (48 + d) - 48)) ltac:(lia) Fs).
        apply not_true_iff_false in E1. exfalso. apply E1. apply in_u64_iff. lia.
    + split; [discriminate|]. intros (F & _). inversion F as [|? ? Dc _]; subst.
      assert (to_digit c = Some (Z.of_N c - 48)) by (apply to_digit_spec; auto). congruence.
Qed.

Lemma digits_value_snoc acc s c :
  digits_value acc (s ++ [c]) = digits_value acc s * 10 + (Z.of_N c - 48).
Proof. unfold digits_value. rewrite fold_left_app. reflexivity. Qed.

Lemma decimal_iff s n : decimal s n <-> s <> [] /\ Forall is_digit s /\ n = digits_value 0 s.
Proof.
  split.
  - intros D. induction D as [d Hd|s n d D (N & F & ->) Hd].
    + split; [discriminate|]. split; [repeat constructor; exists d; auto|].
      unfold digits_value. cbn [fold_left]. lia.
    + split; [destruct s; discriminate|]. split.
      * apply Forall_app. split; [exact F|]. repeat constructor. exists d. auto.
      * rewrite digits_value_snoc. lia.
  - intros (N & F & ->). induction s as [|c s IH] using rev_ind; [congruence|].
    apply Forall_app in F. destruct F as [F Fc]. apply Forall_inv in Fc. destruct Fc as (d & Hd & ->).
    rewrite digits_value_snoc. destruct s as [|x s].
    + replace (digits_value 0 [] * 10 + (Z.of_N (48 + d) - 48)) with (Z.of_N d)
        by (unfold digits_value; cbn [fold_left]; lia).
      apply (decimal_digit d Hd).
    + replace (digits_value 0 (x :: s) * 10 + (Z.of_N (48 + d) - 48))
        with (10 * digits_value 0 (x :: s) + Z.of_N d) by lia.
      apply decimal_more; [|exact Hd]. apply IH; [discriminate|exact F].
Qed.

Lemma parse_digits_decimal s n : s <> [] -> (parse_digits s 0 = Some n <-> n < 2 ^ 64 /\ decimal s n).
Proof.
  intros N. rewrite parse_digits_spec, decimal_iff by lia. tauto.
Qed.
Lemma decimal_nonneg s n : decimal s n -> 0 <= n.
Proof. intros D. induction D; lia. Qed.
Lemma decimal_head c s n : decimal (c :: s) n -> is_digit c.
Proof. rewrite decimal_iff. intros (_ & F & _). inversion F; assumption. Qed.
Lemma plus_not_digit : ~ is_digit 43%N.
Proof. intros (d & _ & E). lia. Qed.
Lemma minus_not_digit : ~ is_digit 45%N.
Proof. intros (d & _ & E). lia. Qed.
Lemma decimal_nil n : ~ decimal [] n.
Proof. rewrite decimal_iff. tauto. Qed.

Lemma number_head c s n : number (c :: s) n ->
  n < 2 ^ 64 /\ (decimal (c :: s) n \/ c = 43%N /\ decimal s n).
Proof.
  intros [L [D|(s' & E & D)]]; (split; [exact L|]); [auto|]. injection E as -> ->. auto.
Qed.

Lemma parse_usize_plus (s : rstring) : s <> [] -> parse_usize (43%N :: s) = parse_digits s 0.
Proof. destruct s; [congruence|reflexivity]. Qed.
Lemma parse_usize_other (c : rchar) (s : rstring) : c <> 43%N -> [c] ++ s <> [45%N] ->
  parse_usize (c :: s) = parse_digits (c :: s) 0.
Proof.
  intros N1 N2. unfold parse_usize.
  destruct c as [|p]; [reflexivity|].
  do 6 (destruct p as [p|p|]; try reflexivity).
  - congruence.
  - destruct s; [exfalso; apply N2; reflexivity|reflexivity].
Qed.

Lemma parse_usize_spec s n : parse_usize s = Some n <-> number s n.
Proof.
  destruct s as [|c s].
  - split; [discriminate|]. intros [_ [D|(s' & E & _)]]; [apply decimal_nil in D; tauto|discriminate E].
  - destruct (N.eq_dec c 43) as [->|N1].
    + destruct s as [|d s].
      * split; [discriminate|]. intros H. apply number_head in H.
        destruct H as [_ [D|[_ D]]]; [apply decimal_head, plus_not_digit in D; tauto|].
        apply decimal_nil in D. tauto.
      * rewrite parse_usize_plus, parse_digits_decimal by discriminate. split.
        -- intros [L D]. split; [exact L|]. right. exists (d :: s). auto.
        -- intros H. apply number_head in H.
           destruct H as [L [D|[_ D]]]; [apply decimal_head, plus_not_digit in D; tauto|]. auto.
    + destruct (list_eq_dec N.eq_dec (c :: s) [45%N]) as [E|N2].
      * injection E as -> ->. split; [discriminate|]. intros H. apply number_head in H.
        destruct H as [_ [D|[E D]]]; [apply decimal_head, minus_not_digit in D; tauto|].
        discriminate E.
      * rewrite (parse_usize_other c s N1 N2), parse_digits_decimal by discriminate. split.
        -- intros [L D]. split; auto.
        -- intros H. apply number_head in H. destruct H as [L [D|[E _]]]; [auto|congruence].
Qed.
Lemma parse_usize_none s : parse_usize s = None <-> forall n, ~ number s n.
Proof.
  split.
  - intros E n H. apply parse_usize_spec in H. congruence.
  - intros H. destruct (parse_usize s) as [n|] eqn:E; [|reflexivity].
    apply parse_usize_spec, H in E. tauto.
Qed.
Lemma number_unique s n m : number s n -> number s m -> n = m.
Proof. rewrite <- !parse_usize_spec. congruence. Qed.
Lemma number_range s n : number s n -> 0 <= n < 2 ^ 64.
Proof.
  intros [L [D|(s' & _ & D)]]; apply decimal_nonneg in D; lia.
Qed.

Lemma parse_all_spec ss : forall ns, parse_all ss = Some ns <-> Forall2 number ss ns.
Proof.
  induction ss as [|s ss IH]; intros ns; simpl.
  - split; [intros E; injection E as <-; constructor|]. intros F. inversion F. reflexivity.
  - destruct (parse_usize s) as [x|] eqn:E.
    + apply parse_usize_spec in E. destruct (parse_all ss) as [xs|].
      * split.
        -- intros H. injection H as <-. constructor; [exact E|]. apply IH. reflexivity.
        -- intros F. inversion F as [|? y ? ys Hy F']; subst. apply IH in F'. injection F' as ->.
           rewrite (number_unique _ _ _ E Hy). reflexivity.
      * split; [discriminate|]. intros F. inversion F as [|? y ? ys Hy F']; subst.
        apply IH in F'. discriminate F'.
    + split; [discriminate|]. intros F. inversion F as [|? y ? ys Hy F']; subst.
      rewrite parse_usize_none in E. apply E in Hy. tauto.
Qed.
Lemma parse_all_none ss : parse_all ss = None -> exists w, In w ss /\ forall n, ~ number w n.
Proof.
  induction ss as [|s ss IH]; simpl; [discriminate|].
  destruct (parse_usize s) as [x|] eqn:E.
  - destruct (parse_all ss); [discriminate|]. intros _. destruct IH as (w & Hw & H); [reflexivity|].
    exists w. auto.
  - intros _. exists s. split; [auto|]. apply parse_usize_none. exact E.
Qed.
Lemma Forall2_number_unique ss ns ms : Forall2 number ss ns -> Forall2 number ss ms -> ns = ms.
Proof. rewrite <- !parse_all_spec. congruence. Qed.

(** ** get_wager *)
Theorem get_wager_correct credits lines : forall out, exists bad a rest out',
  get_wager credits lines out = (a, rest, out ++ out')
  /\ answers_with (wager_ok credits) lines bad a rest
  /\ conversation (wager_prompt credits) (wager_complaint credits) bad out'.
Proof.
  induction lines as [|l lines IH]; intros out; cbn [get_wager].
  - exists [], None, [], [wager_prompt credits]. split; [reflexivity|]. split; constructor.
  - destruct (str_eqb l (lit "quit")) eqn:Eq.
    + apply str_eqb_eq in Eq. subst l. exists [], None, lines, [wager_prompt credits].
      split; [reflexivity|]. split; constructor.
    + apply str_eqb_neq in Eq.
      assert (Refuse : forall p, wager_complaint credits l p -> (forall w, ~ wager_ok credits l w) ->
        exists bad a rest out',
          get_wager credits lines ((out ++ [wager_message credits]) ++ [p]) = (a, rest, out ++ out')
          /\ answers_with (wager_ok credits) (l :: lines) bad a rest
          /\ conversation (wager_prompt credits) (wager_complaint credits) bad out').
      { intros p C NW. destruct (IH ((out ++ [wager_message credits]) ++ [p]))
          as (bad & a & rest & out' & E & A & V).
        exists (l :: bad), a, rest, (wager_prompt credits :: p :: out').
        rewrite E, <- !app_assoc. split; [reflexivity|]. split.
        - apply answer_refused; [|exact A]. split; assumption.
        - apply conversation_refused; assumption. }
      destruct (parse_usize l) as [x|] eqn:Ep.
      * apply parse_usize_spec in Ep. pose proof (number_range _ _ Ep) as Rx.
        destruct (x =? 0) eqn:E0; [apply Z.eqb_eq in E0; subst x|apply Z.eqb_neq in E0].
        { apply Refuse; [apply (bet_nothing credits l Ep)|].
          intros w (Hw & R & _). rewrite (number_unique _ _ _ Hw Ep) in R. lia. }
        unfold MAX_WAGER in *. destruct (5 <? x) eqn:E5; [apply Z.ltb_lt in E5|apply Z.ltb_ge in E5].
        { apply Refuse; [|intros w (Hw & R & _); rewrite (number_unique _ _ _ Hw Ep) in R; lia].
          pose proof (bet_too_high credits l x Ep E5) as C. unfold tell in C.
          rewrite <- !app_assoc in C. exact C. }
        destruct (credits <? x) eqn:Ec; [apply Z.ltb_lt in Ec|apply Z.ltb_ge in Ec].
        { apply Refuse; [|intros w (Hw & _ & R); rewrite (number_unique _ _ _ Hw Ep) in R; lia].
          pose proof (bet_too_poor credits l x Ep ltac:(lia)) as C. unfold tell in C.
          rewrite <- !app_assoc in C. exact C. }
        exists [], (Some x), lines, [wager_prompt credits]. split; [reflexivity|]. split.
        -- apply answer_ok; [exact Eq|]. split; [exact Ep|]; lia.
        -- constructor.
      * pose proof (proj1 (parse_usize_none l) Ep) as N. apply Refuse.
        -- pose proof (not_a_number credits l N) as C. unfold tell in C.
           rewrite <- !app_assoc in C. exact C.
        -- intros w (Hw & _). apply (N w Hw).
Qed.

(** ** get_swaps *)
Lemma existsb_eqb x l : existsb (Z.eqb x) l = true <-> In x l.
Proof.
  rewrite existsb_exists. split.
  - intros (y & H & E). apply Z.eqb_eq in E. subst y. exact H.
  - intros H. exists x. split; [exact H|apply Z.eqb_refl].
Qed.
Lemma all_inserted_spec l : forall seen,
  all_inserted seen l = true <-> NoDup l /\ (forall x, In x l -> ~ In x seen).
Proof.
  induction l as [|x l IH]; intros seen; simpl.
  - split; [intros _; split; [constructor|tauto]|reflexivity].
  - destruct (existsb (Z.eqb x) seen) eqn:E.
    + apply existsb_eqb in E. split; [discriminate|]. intros [_ H]. exfalso. apply (H x); auto.
    + assert (Nx : ~ In x seen) by (rewrite <- existsb_eqb; congruence).
      rewrite IH. split.
      * intros [N H]. split.
        -- constructor; [|exact N]. intros Hx. apply (H x Hx). left. reflexivity.
        -- intros y [<-|Hy]; [exact Nx|]. intros Hs. apply (H y Hy). right. exact Hs.
      * intros [N H]. inversion N as [|? ? N1 N2]; subst. split; [exact N2|].
        intros y Hy [->|Hs]; [contradiction|]. apply (H y); auto.
Qed.

Lemma mapM_pred ns : Forall (fun n => 1 <= n <= 5) ns ->
  mapM (fun x => chk in_u64 (x - 1)) ns = Ret (map (fun n => n - 1) ns).
Proof.
  intros F. induction F as [|n ns Hn F IH]; [reflexivity|]. cbn [mapM map]. rewrite IH.
  unfold chk. replace (in_u64 (n - 1)) with true by (symmetry; apply in_u64_iff; lia). reflexivity.
Qed.

Lemma range_forallb ns : forallb (fun num => (1 <=? num) && (num <=? 5)) ns = true
  <-> Forall (fun n => 1 <= n <= 5) ns.
Proof.
  rewrite forallb_forall, Forall_forall. split; intros H x Hx; specialize (H x Hx).
  - apply andb_true_iff in H. rewrite !Z.leb_le in H. exact H.
  - apply andb_true_iff. rewrite !Z.leb_le. exact H.
Qed.

Lemma NoDup_dups (ns : list Z) :
  (forall n, (2 <= count_occ Z.eq_dec ns n)%nat -> False) -> NoDup ns.
Proof.
  intros H. apply (NoDup_count_occ Z.eq_dec). intros n. specialize (H n). lia.
Qed.

Theorem get_swaps_correct order lines : reorders order -> forall out, exists bad a rest out',
  get_swaps order lines out = Ret (a, rest, out ++ out')
  /\ answers_with swaps_ok lines bad a rest
  /\ conversation swaps_prompt swaps_complaint bad out'.
Proof.
  intros O. induction lines as [|l lines IH]; intros out; cbn [get_swaps].
  - exists [], None, [], [swaps_prompt]. split; [reflexivity|]. split; constructor.
  - destruct (str_eqb l (lit "quit")) eqn:Eq.
    + apply str_eqb_eq in Eq. subst l. exists [], None, lines, [swaps_prompt].
      split; [reflexivity|]. split; constructor.
    + apply str_eqb_neq in Eq.
      assert (Refuse : forall p, swaps_complaint l p -> (forall w, ~ swaps_ok l w) ->
        exists bad a rest out',
          get_swaps order lines ((out ++ [swaps_message]) ++ [p]) = Ret (a, rest, out ++ out')
          /\ answers_with swaps_ok (l :: lines) bad a rest
          /\ conversation swaps_prompt swaps_complaint bad out').
      { intros p C NW. destruct (IH ((out ++ [swaps_message]) ++ [p]))
          as (bad & a & rest & out' & E & A & V).
        exists (l :: bad), a, rest, (swaps_prompt :: p :: out').
        rewrite E, <- !app_assoc. split; [reflexivity|]. split.
        - apply answer_refused; [|exact A]. split; assumption.
        - apply conversation_refused; assumption. }
      destruct (TextFacts.splits_exists l) as [words S].
      pose proof (TextFacts.splits_complete l words S) as Ew. rewrite Ew.
      assert (Uniq : forall is, swaps_ok l is -> exists ns, Forall2 number words ns
                /\ Forall (fun n => 1 <= n <= 5) ns /\ NoDup ns /\ is = map (fun n => n - 1) ns).
      { intros is (words' & ns & S' & F & R & N & E). exists ns.
        rewrite (TextFacts.splits_complete l words' S') in Ew. subst words'. auto. }
      destruct (parse_all words) as [ns|] eqn:Ep.
      2:{ destruct (parse_all_none words Ep) as (w & Hw & N). apply Refuse.
          - pose proof (not_numbers l words w S Hw N) as C. unfold tell in C.
            rewrite <- !app_assoc in C. exact C.
          - intros is H. destruct (Uniq is H) as (ns & F & _). apply parse_all_spec in F. congruence. }
      apply parse_all_spec in Ep.
      assert (Uniq' : forall is, swaps_ok l is ->
                Forall (fun n => 1 <= n <= 5) ns /\ NoDup ns /\ is = map (fun n => n - 1) ns).
      { intros is H. destruct (Uniq is H) as (ns' & F & R).
        rewrite (Forall2_number_unique _ _ _ Ep F). exact R. }
      destruct (forallb (fun num => (1 <=? num) && (num <=? 5)) ns) eqn:Er; cbn [negb].
      2:{ apply Refuse.
          - assert (X : exists n, In n ns /\ ~ 1 <= n <= 5).
            { destruct (Exists_dec (fun n => ~ 1 <= n <= 5) ns) as [X|X].
              - intros n. destruct (Z_le_dec 1 n), (Z_le_dec n 5); [right|left..]; lia.
              - apply Exists_exists in X. exact X.
              - exfalso. apply not_true_iff_false in Er. apply Er. apply range_forallb.
                apply Forall_Exists_neg in X. eapply Forall_impl; [|exact X].
                intros n H. simpl in H. lia. }
            destruct X as (n & Hn & R).
            pose proof (out_of_range l words ns n S Ep Hn R) as C. unfold tell in C.
            rewrite <- !app_assoc in C. exact C.
          - intros is H. destruct (Uniq' is H) as (R & _). apply range_forallb in R. congruence. }
      apply range_forallb in Er.
      destruct (Nat.leb (List.length ns) 5) eqn:El; cbn [negb].
      2:{ apply Nat.leb_gt in El. apply Refuse.
          - pose proof (too_many l words ns S Ep Er El) as C. unfold tell in C.
            rewrite <- !app_assoc in C. exact C.
          - intros is H. destruct (Uniq' is H) as (R & N & _).
            assert (I : incl ns [1; 2; 3; 4; 5]).
            { intros n Hn. rewrite Forall_forall in R. specialize (R n Hn). simpl. lia. }
            pose proof (NoDup_incl_length N I) as L. simpl in L. lia. }
      apply Nat.leb_le in El.
      destruct (all_inserted [] ns) eqn:Ea; cbn [negb].
      2:{ destruct (CountFacts.duplicates_spec Z.eqb Z.eqb_eq Z.eq_dec show order ns O)
            as (dups & N & D & E).
          rewrite E. apply Refuse.
          - assert (Nd : dups <> []).
            { intros ->. apply not_true_iff_false in Ea. apply Ea. apply all_inserted_spec.
              split; [|simpl; tauto]. apply NoDup_dups. intros n Hn. apply D in Hn. exact Hn. }
            pose proof (repeated l words ns dups S Ep Er El N Nd D) as C. unfold tell in C.
            rewrite <- !app_assoc in C. rewrite TextFacts.join_spaced. exact C.
          - intros is H. destruct (Uniq' is H) as (_ & N' & _).
            apply not_true_iff_false in Ea. apply Ea. apply all_inserted_spec.
            split; [exact N'|simpl; tauto]. }
      apply all_inserted_spec in Ea. destruct Ea as [N _].
      rewrite (mapM_pred ns Er). cbn [bind].
      exists [], (Some (map (fun n => n - 1) ns)), lines, [swaps_prompt].
      split; [reflexivity|]. split; [|constructor].
      apply answer_ok; [exact Eq|]. exists words, ns. auto.
Qed.
