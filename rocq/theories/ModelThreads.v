(** ModelThreads.v: sharing one evaluator between threads, src/lib.rs:42-74 (the [Arc] example).

    [evaluate] only touches the shared evaluator through [&self], by reading its two tables
    (src/evaluate/evaluation.rs:39-52).  A call is therefore a program whose visible steps are
    table reads; threads interleave at the granularity of single reads.  Not modelled: the
    hardware memory model (the tables are never written after construction) and the operating
    system's thread creation. *)
From Verif Require Import Base ModelCard ModelEval ModelTable ModelEvaluation.
Local Open Scope Z_scope.

Inductive table_id := FlushTable | UnsuitedTable.

(** A running call: finished, or about to read one key of one of the shared tables. *)
Inductive proc (A : Type) :=
| Done (o : outcome A)
| Read (t : table_id) (key : Z) (k : option meta -> proc A).
Arguments Done {A} o.
Arguments Read {A} t key k.

Fixpoint pbind {A B} (p : proc A) (k : A -> proc B) : proc B :=
  match p with
  | Done (Ret a) => k a
  | Done (Panic x) => Done (Panic x)
  | Done OutOfFuel => Done OutOfFuel
  | Read t key c => Read t key (fun v => pbind (c v) k)
  end.
Notation "'plet' x ':=' m 'in' k" := (pbind m (fun x => k))
  (at level 200, x binder, m at level 100, k at level 200, right associativity).
Definition lift {A} (o : outcome A) : proc A := Done o.

(** [&table[&key]] *)
Definition read_key (t : table_id) (key : Z) : proc meta :=
  Read t key (fun v => match v with Some m => Done (Ret m) | None => Done (Panic MissingKey) end).

(** src/evaluate/evaluation.rs:39-52 [five] *)
Definition five_proc (cards : list card) : proc eval :=
  let uniques := map unique_integer cards in
  let detect_flush := negb (fold_left Z.land uniques 61440 =? 0) in
  if detect_flush then
    let bit_rank_or := Z.shiftr (fold_left Z.lor uniques 0) 16 in
    plet prime := lift (prime_product_from_rank_bits (wrap_i16 bit_rank_or)) in
    plet m := read_key FlushTable prime in
    Done (Ret (MkEval m))
  else
    let prime := prime_product_from_hand cards in
    plet m := read_key UnsuitedTable prime in
    Done (Ret (MkEval m)).

(** the [for] loop of src/evaluate/evaluation.rs:58-63 *)
Fixpoint for_combinations_proc {T St} (fuel : nat) (c : combinations T)
    (body : St -> list T -> proc St) (s : St) : proc St :=
  match fuel with
  | O => Done OutOfFuel
  | S fuel' =>
      plet p := lift (combinations_next c) in
      match p with
      | (None, _) => Done (Ret s)
      | (Some x, c') => plet s' := body s x in for_combinations_proc fuel' c' body s'
      end
  end.

(** src/evaluate/evaluation.rs:54-65 [six_plus] *)
Definition six_plus_proc (cards : list card) : proc eval :=
  if negb (Nat.ltb 5 (length cards)) then Done (Panic AssertFailed)
  else
    for_combinations_proc (S (binom (length cards) 5)) (combinations_new 5 cards)
      (fun current_max combo =>
        plet score := five_proc combo in
        Done (Ret (if op_gt (eval_partial_cmp score current_max) then score else current_max)))
      EVAL_WORST.

(** src/evaluate/evaluation.rs:24-37 [evaluate] *)
Definition evaluate_proc (cards : list card) : proc (result eval eval_error) :=
  plet unique := lift (all_unique cards) in
  if unique then
    if Nat.ltb (length cards) 5 then Done (Ret (Err (InvalidHandSize (length cards))))
    else if Nat.eqb (length cards) 5 then
      plet e := five_proc cards in Done (Ret (Ok e))
    else
      plet e := six_plus_proc cards in Done (Ret (Ok e))
  else Done (Ret (Err (CardsNotUnique cards))).

(** What reading a shared evaluator's table gives. *)
Definition read_table (e : evaluator) (t : table_id) (key : Z) : option meta :=
  match t with
  | FlushTable => map_get (flush_lookup (evaluator_table e)) key
  | UnsuitedTable => map_get (unsuited_lookup (evaluator_table e)) key
  end.

(** A thread: the call it is in the middle of, the hands it has still to evaluate, and what its
    finished calls returned, oldest first. *)
Record thread := mk_thread {
  th_current : option (proc (result eval eval_error));
  th_pending : list (list card);
  th_answers : list (outcome (result eval eval_error))
}.
Definition thread_spawn (work : list (list card)) : thread := mk_thread None work [].

(** The closure has returned, so [join] gives its answers. *)
Definition finished (t : thread) : Prop := th_current t = None /\ th_pending t = [].

(** One step of one thread on the shared evaluator. *)
Definition thread_step (e : evaluator) (t : thread) : thread :=
  match th_current t with
  | Some (Read tb key k) => mk_thread (Some (k (read_table e tb key))) (th_pending t) (th_answers t)
  | Some (Done o) => mk_thread None (th_pending t) (th_answers t ++ [o])
  | None =>
      match th_pending t with
      | [] => t
      | h :: rest => mk_thread (Some (evaluate_proc h)) rest (th_answers t)
      end
  end.

(** The whole program: one evaluator behind an [Arc], and its threads. *)
Record world := mk_world { w_shared : evaluator; w_threads : list thread }.
Fixpoint update_nth {A} (f : A -> A) (i : nat) (l : list A) : list A :=
  match l, i with
  | [], _ => []
  | x :: xs, O => f x :: xs
  | x :: xs, S i' => x :: update_nth f i' xs
  end.
(** The scheduler lets thread [tid] take one step. *)
Definition world_step (w : world) (tid : nat) : world :=
  mk_world (w_shared w) (update_nth (thread_step (w_shared w)) tid (w_threads w)).
Definition run (schedule : list nat) (w : world) : world := fold_left world_step schedule w.
Definition spawn_all (e : evaluator) (works : list (list (list card))) : world :=
  mk_world e (map thread_spawn works).

(** src/lib.rs:59-63 what a spawned closure returns: [evaluate(hand).unwrap_or(Eval::WORST)] *)
Definition unwrap_or_worst (r : result eval eval_error) : eval :=
  match r with Ok e => e | Err _ => EVAL_WORST end.
(** src/lib.rs:66-69 joining and [fold(Eval::WORST, cmp::max)] *)
Definition max_of_joins (es : list eval) : eval := fold_left (cmp_max eval_cmp) es EVAL_WORST.
