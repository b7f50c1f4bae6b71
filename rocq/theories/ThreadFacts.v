(** ThreadFacts.v: interleavings of calls on one shared evaluator (ModelThreads.v). *)
From Coq Require Import Lia List Arith Bool Permutation.
From Verif Require Import Base BaseFacts ModelCard ModelEval ModelTable ModelEvaluation ModelThreads.
From Verif Require Import Spec CardFacts EvalFacts EvaluateFacts HandFacts.
Import ListNotations.

(** ** A call run alone is [evaluate] *)
Fixpoint exec {A} (e : evaluator) (p : proc A) : outcome A :=
  match p with
  | Done o => o
  | Read t key k => exec e (k (read_table e t key))
  end.

Lemma exec_pbind {A B} e (p : proc A) (k : A -> proc B) :
  exec e (pbind p k) = bind (exec e p) (fun a => exec e (k a)).
Proof. induction p as [[a|x|]|t key c IH]; simpl; auto. Qed.

Lemma exec_five e cards : exec e (five_proc cards) = five (evaluator_evaluation e) cards.
Proof.
  unfold five_proc, five. cbv zeta. destruct (negb _).
  - unfold lift. rewrite exec_pbind. cbn [exec].
    destruct (prime_product_from_rank_bits _); cbn [bind]; try reflexivity.
    rewrite exec_pbind. unfold read_key, index_key. cbn [exec read_table].
    cbn [evaluator_evaluation ev_flush_lookup]. destruct (map_get _ _); reflexivity.
  - rewrite exec_pbind. unfold read_key, index_key. cbn [exec read_table].
    cbn [evaluator_evaluation ev_unsuited_lookup]. destruct (map_get _ _); reflexivity.
Qed.

Lemma exec_for {T St} e body body' (H : forall s x, exec e (body s x) = body' s x) :
  forall fuel (c : combinations T) (s : St),
  exec e (for_combinations_proc fuel c body s) = for_combinations fuel c body' s.
Proof.
  induction fuel as [|fuel IH]; intros c s; [reflexivity|].
  cbn [for_combinations_proc for_combinations]. unfold lift. rewrite exec_pbind. cbn [exec].
  destruct (combinations_next c) as [[[x|] c']| |]; cbn [bind]; try reflexivity.
  rewrite exec_pbind, H. destruct (body' s x); cbn [bind]; auto.
Qed.

Lemma exec_six_plus e cards : exec e (six_plus_proc cards) = six_plus (evaluator_evaluation e) cards.
Proof.
  unfold six_plus_proc, six_plus. destruct (negb _); [reflexivity|].
  unfold for_const_combos. apply exec_for. intros s x. rewrite exec_pbind, exec_five.
  destruct (five _ x); cbn [bind exec]; try reflexivity.
  destruct (op_gt _); reflexivity.
Qed.

Lemma exec_evaluate e cards : exec e (evaluate_proc cards) = evaluate e cards.
Proof.
  unfold evaluate_proc, evaluate, evaluate_with, lift. rewrite exec_pbind. cbn [exec].
  destruct (all_unique cards) as [[|]| |]; cbn [bind]; try reflexivity.
  destruct (Nat.ltb _ _); [reflexivity|].
  destruct (Nat.eqb_spec (length cards) 5) as [L|L].
  - rewrite exec_pbind, exec_five. destruct (length5 cards L) as (a & b & c & d & f & ->).
    cbn [index nth_error bind]. destruct (five _ _); reflexivity.
  - rewrite exec_pbind, exec_six_plus. destruct (six_plus _ _); reflexivity.
Qed.

(** ** Invariant of a thread *)
Definition in_flight (e : evaluator) (t : thread) : list (outcome (result eval eval_error)) :=
  match th_current t with Some p => [exec e p] | None => [] end.
Definition on_course (e : evaluator) (work : list (list card)) (t : thread) : Prop :=
  map (evaluate e) work = th_answers t ++ in_flight e t ++ map (evaluate e) (th_pending t).

Lemma step_on_course e work t : on_course e work t -> on_course e work (thread_step e t).
Proof.
  unfold on_course, in_flight, thread_step. intros H.
  destruct (th_current t) as [[o|tb key k]|] eqn:Ec.
  - cbn. rewrite H. cbn. rewrite <- app_assoc. reflexivity.
  - exact H.
  - destruct (th_pending t) as [|h rest] eqn:E; [rewrite Ec, E; exact H|].
    cbn [th_current th_answers th_pending]. rewrite H, exec_evaluate. reflexivity.
Qed.

Lemma update_nth_nth {A} (f : A -> A) l : forall i j,
  nth_error (update_nth f i l) j = if i =? j then option_map f (nth_error l j) else nth_error l j.
Proof.
  induction l as [|x l IH]; intros i j.
  - destruct i, j; simpl; try destruct (_ =? _); reflexivity.
  - destruct i as [|i], j as [|j]; simpl; try reflexivity. apply IH.
Qed.

(** The state of one thread after a schedule depends only on how often it was scheduled. *)
Fixpoint iter_step (e : evaluator) (n : nat) (t : thread) : thread :=
  match n with O => t | S n' => iter_step e n' (thread_step e t) end.

Lemma run_shared sched : forall w, w_shared (run sched w) = w_shared w.
Proof. induction sched as [|i sched IH]; intros w; [reflexivity|]. exact (IH (world_step w i)). Qed.

Lemma run_thread sched : forall w tid,
  nth_error (w_threads (run sched w)) tid
  = option_map (iter_step (w_shared w) (count_occ Nat.eq_dec sched tid)) (nth_error (w_threads w) tid).
Proof.
  induction sched as [|i sched IH]; intros w tid.
  - simpl. destruct (nth_error _ _); reflexivity.
  - change (run (i :: sched) w) with (run sched (world_step w i)). rewrite IH.
    cbn [world_step w_shared w_threads]. rewrite update_nth_nth. cbn [count_occ].
    destruct (Nat.eqb_spec i tid) as [->|N].
    + destruct (Nat.eq_dec tid tid) as [_|C]; [|congruence].
      destruct (nth_error (w_threads w) tid); reflexivity.
    + destruct (Nat.eq_dec i tid) as [C|_]; [congruence|]. reflexivity.
Qed.

Lemma iter_on_course e work n : forall t, on_course e work t -> on_course e work (iter_step e n t).
Proof.
  induction n as [|n IH]; intros t H; [exact H|]. simpl. apply IH, step_on_course, H.
Qed.

(** ** Every thread finishes *)
Fixpoint turns {A} (e : evaluator) (p : proc A) : nat :=
  match p with
  | Done _ => 1
  | Read t key k => S (turns e (k (read_table e t key)))
  end.
Definition work_left (e : evaluator) (t : thread) : nat :=
  match th_current t with Some p => turns e p | None => 0 end
  + list_sum (map (fun h => S (turns e (evaluate_proc h))) (th_pending t)).

Lemma turns_pos {A} e (p : proc A) : 0 < turns e p.
Proof. destruct p; simpl; lia. Qed.

Lemma step_work e t : work_left e (thread_step e t) = work_left e t - 1.
Proof.
  unfold work_left, thread_step. destruct (th_current t) as [[o|tb key k]|] eqn:E.
  - cbn [th_current th_pending turns]. lia.
  - cbn [th_current th_pending turns]. lia.
  - destruct (th_pending t) as [|h rest] eqn:Ep; [rewrite E, Ep; reflexivity|].
    cbn [th_current th_pending map list_sum fold_right]. unfold list_sum. cbn [fold_right]. lia.
Qed.
Lemma iter_work e n : forall t, work_left e (iter_step e n t) = work_left e t - n.
Proof.
  induction n as [|n IH]; intros t; simpl; [lia|]. rewrite IH, step_work. lia.
Qed.
Lemma work_finished e t : work_left e t = 0 -> finished t.
Proof.
  unfold work_left, finished. destruct (th_current t) as [p|] eqn:E.
  - pose proof (turns_pos e p). lia.
  - destruct (th_pending t); [auto|]. unfold list_sum. cbn [map fold_right]. lia.
Qed.

Theorem threads_independent ev works sched tid work :
  nth_error works tid = Some work ->
  exists t, nth_error (w_threads (run sched (spawn_all ev works))) tid = Some t
    /\ w_shared (run sched (spawn_all ev works)) = ev
    /\ (exists rest, map (evaluate ev) work = th_answers t ++ rest)
    /\ (finished t -> th_answers t = map (evaluate ev) work).
Proof.
  intros H. rewrite run_thread, run_shared. cbn [spawn_all w_threads w_shared].
  rewrite nth_error_map, H. cbn [option_map]. eexists. split; [reflexivity|].
  split; [reflexivity|].
  assert (C : on_course ev work (thread_spawn work)) by reflexivity.
  apply (iter_on_course ev work (count_occ Nat.eq_dec sched tid)) in C.
  unfold on_course in C. split; [eexists; exact C|]. intros [F1 F2].
  unfold in_flight in C. rewrite F1, F2, !app_nil_r in C. symmetry. exact C.
Qed.

Theorem threads_finish ev works : exists bound, forall sched tid work,
  nth_error works tid = Some work ->
  bound <= count_occ Nat.eq_dec sched tid ->
  exists t, nth_error (w_threads (run sched (spawn_all ev works))) tid = Some t /\ finished t.
Proof.
  exists (list_sum (map (fun w => work_left ev (thread_spawn w)) works)).
  intros sched tid work H Hb. rewrite run_thread. cbn [spawn_all w_threads w_shared].
  rewrite nth_error_map, H. cbn [option_map]. eexists. split; [reflexivity|].
  apply (work_finished ev). rewrite iter_work.
  assert (Q : work_left ev (thread_spawn work)
              <= list_sum (map (fun w => work_left ev (thread_spawn w)) works)).
  { clear Hb. revert tid H. induction works as [|w works IH]; intros tid H; [destruct tid; discriminate H|].
    change (list_sum (map (fun w0 => work_left ev (thread_spawn w0)) (w :: works)))
      with (work_left ev (thread_spawn w) + list_sum (map (fun w0 => work_left ev (thread_spawn w0)) works)).
    destruct tid as [|tid]; simpl in H.
    - injection H as ->. lia.
    - specialize (IH tid H). lia. }
  lia.
Qed.

(** ** Maximum of the joined results *)
Lemma cmp_max_rk a b : rk (cmp_max eval_cmp a b) = Z.min (rk a) (rk b).
Proof.
  unfold cmp_max. destruct (eval_cmp a b) eqn:E.
  - apply cmp_Eq in E. lia.
  - apply cmp_Lt in E. lia.
  - apply cmp_Gt in E. lia.
Qed.

Lemma fold_max_spec es : forall a,
  In (fold_left (cmp_max eval_cmp) es a) (a :: es)
  /\ (rk (fold_left (cmp_max eval_cmp) es a) <= rk a)%Z
  /\ forall e, In e es -> (rk (fold_left (cmp_max eval_cmp) es a) <= rk e)%Z.
Proof.
  induction es as [|x es IH]; intros a; cbn [fold_left].
  - split; [left; reflexivity|]. split; [lia|]. intros e [].
  - destruct (IH (cmp_max eval_cmp a x)) as (I1 & I2 & I3). pose proof (cmp_max_rk a x) as M.
    split; [|split].
    + destruct I1 as [I1|I1]; [|right; right; exact I1]. rewrite <- I1.
      unfold cmp_max. destruct (eval_cmp a x); simpl; auto.
    + lia.
    + intros e [->|He]; [lia|auto].
Qed.

Lemma an_evaluation_eq ev e1 e2 : new_evaluator ev -> an_evaluation ev e1 -> an_evaluation ev e2 ->
  rk e1 = rk e2 -> e1 = e2.
Proof.
  intros Hev (h1 & L1 & E1) (h2 & L2 & E2) H. exact (same_value ev h1 h2 e1 e2 Hev L1 L2 E1 E2 H).
Qed.
Lemma worst_evaluation ev : new_evaluator ev -> an_evaluation ev EVAL_WORST.
Proof.
  intros Hev. destruct (best_attained ev Hev) as [_ W].
  eexists. split; [|exact W]. apply hand5_legal. apply deal_spec. apply SweepFacts.in_canons_worst.
Qed.

Theorem max_of_joins_spec ev es : new_evaluator ev ->
  Forall (an_evaluation ev) es ->
  In (max_of_joins es) (EVAL_WORST :: es)
  /\ (es <> [] -> In (max_of_joins es) es)
  /\ (forall e, In e es -> eval_cmp (max_of_joins es) e <> Lt)
  /\ (forall es', Permutation es es' -> max_of_joins es' = max_of_joins es).
Proof.
  intros Hev F. destruct (fold_max_spec es EVAL_WORST) as (M1 & M2 & M3).
  fold (max_of_joins es) in *. rewrite Forall_forall in F.
  assert (AE : forall e, In e (EVAL_WORST :: es) -> an_evaluation ev e).
  { intros e [<-|He]; [apply worst_evaluation; exact Hev|apply F; exact He]. }
  assert (RR : forall e, In e es -> (rk e <= 7462)%Z).
  { intros e He. destruct (F e He) as (h & L & E). apply (rank_range ev h e Hev); [apply L|exact E]. }
  split; [exact M1|]. split; [|split].
  - intros Ne. destruct M1 as [M1|M1]; [|exact M1]. destruct es as [|x es]; [congruence|].
    assert (x = max_of_joins (x :: es)).
    { apply (an_evaluation_eq ev x _ Hev); [apply AE; right; left; reflexivity|rewrite <- M1; apply AE; left; reflexivity|].
      specialize (M3 x (or_introl eq_refl)). specialize (RR x (or_introl eq_refl)).
      rewrite <- M1 in *. change (rk EVAL_WORST) with 7462%Z in *. lia. }
    left. assumption.
  - intros e He. apply cmp_not_Lt, M3, He.
  - intros es' P. destruct (fold_max_spec es' EVAL_WORST) as (N1 & N2 & N3).
    fold (max_of_joins es') in *.
    assert (SUB : forall e, In e (EVAL_WORST :: es') -> In e (EVAL_WORST :: es)).
    { intros e [<-|He]; [left; reflexivity|right]. eapply Permutation_in; [symmetry; exact P|exact He]. }
    apply (an_evaluation_eq ev _ _ Hev).
    + apply AE, SUB, N1.
    + apply AE, M1.
    + assert (A1 : (rk (max_of_joins es') <= rk (max_of_joins es))%Z).
      { destruct M1 as [M1|M1]; [rewrite <- M1; exact N2|].
        apply N3. eapply Permutation_in; [exact P|exact M1]. }
      assert (A2 : (rk (max_of_joins es) <= rk (max_of_joins es'))%Z).
      { apply SUB in N1. destruct N1 as [N1|N1]; [rewrite <- N1; exact M2|]. apply M3, N1. }
      lia.
Qed.

(** ** The program of the crate's documentation: one hand per thread *)
Lemma pointwise {A B} (R : A -> B -> Prop) : forall l m,
  (forall i, match nth_error l i, nth_error m i with Some a, Some b => R a b | None, None => True | _, _ => False end) ->
  Forall2 R l m.
Proof.
  induction l as [|a l IH]; intros [|b m] H.
  - constructor.
  - contradiction (H 0).
  - contradiction (H 0).
  - constructor; [exact (H 0)|]. apply IH. intros i. exact (H (S i)).
Qed.
Lemma Forall2_nth {A B} (R : A -> B -> Prop) l m : Forall2 R l m -> forall i,
  match nth_error l i, nth_error m i with Some a, Some b => R a b | None, None => True | _, _ => False end.
Proof.
  induction 1 as [|a b l m H _ IH]; intros [|i]; cbn [nth_error]; try exact I; [exact H|exact (IH i)].
Qed.
Theorem best_of_threads ev hands sched : new_evaluator ev -> Forall all_cards hands ->
  Forall finished (w_threads (run sched (spawn_all ev (map (fun h => [h]) hands)))) ->
  exists rs, Forall2 (fun t r => th_answers t = [Ret r])
               (w_threads (run sched (spawn_all ev (map (fun h => [h]) hands)))) rs
    /\ (forall h e, In h hands -> evaluates ev h e -> eval_cmp (max_of_joins (map unwrap_or_worst rs)) e <> Lt)
    /\ (max_of_joins (map unwrap_or_worst rs) = EVAL_WORST
        \/ exists h, In h hands /\ evaluates ev h (max_of_joins (map unwrap_or_worst rs))).
Proof.
  intros Hev A F.
  assert (X : exists rs, Forall2 (fun h r => evaluate ev h = Ret r) hands rs).
  { clear F. induction A as [|h hands Ah _ [rs IH]]; [exists []; constructor|].
    destruct (HandFacts.evaluate_total ev h Hev Ah) as (r & E & _). exists (r :: rs). constructor; assumption. }
  destruct X as [rs Q]. exists rs. split; [|split].
  - apply pointwise. intros i. pose proof (Forall2_nth _ _ _ Q i) as P.
    rewrite run_thread in *. cbn [spawn_all w_threads w_shared] in *.
    destruct (nth_error hands i) as [h|] eqn:E.
    + destruct (nth_error rs i) as [r|]; [|contradiction P].
      destruct (threads_independent ev (map (fun h => [h]) hands) sched i [h]) as (t & E1 & _ & _ & E2);
        [rewrite nth_error_map, E; reflexivity|].
      assert (Ft : finished t).
      { rewrite Forall_forall in F. apply F. exact (nth_error_In _ _ E1). }
      rewrite run_thread in E1. cbn [spawn_all w_threads w_shared] in E1. rewrite E1. rewrite (E2 Ft).
      cbn [map]. rewrite P. reflexivity.
    + destruct (nth_error rs i); [contradiction P|]. rewrite !nth_error_map, E. exact I.
  - intros h e Ih E. unfold max_of_joins. destruct (fold_max_spec (map unwrap_or_worst rs) EVAL_WORST) as (_ & _ & M).
    apply cmp_not_Lt, M. clear - Q Ih E. unfold evaluates in E.
    induction Q as [|h' r hands rs P _ IH]; [contradiction Ih|]. cbn [map].
    destruct Ih as [->|Ih]; [|right; exact (IH Ih)]. left. rewrite E in P. injection P as <-. reflexivity.
  - destruct (fold_max_spec (map unwrap_or_worst rs) EVAL_WORST) as (M & _ & _).
    fold (max_of_joins (map unwrap_or_worst rs)) in M. destruct M as [M|M]; [left; symmetry; exact M|].
    apply in_map_iff in M. destruct M as (r & E & I). rewrite <- E. clear F E.
    destruct r as [e|x]; [right|left; reflexivity]. cbn [unwrap_or_worst].
    induction Q as [|h' r hands rs P _ IH]; [contradiction I|].
    destruct I as [->|I]; [exists h'; split; [left; reflexivity|exact P]|].
    apply Forall_cons_iff in A. destruct (IH (proj2 A) I) as (h & H1 & H2). exists h. split; [right; exact H1|exact H2].
Qed.
