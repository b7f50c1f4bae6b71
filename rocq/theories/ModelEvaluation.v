(** ModelEvaluation.v: src/evaluate/evaluation.rs, src/evaluate/mod.rs,
    src/evaluate/static_lookup.rs. *)
From Verif Require Import Base ModelCard ModelEval ModelTable.
Local Open Scope Z_scope.

(** src/evaluate/evaluation.rs:10-14 [trait Evaluation]: two lookups indexable by [&i32] *)
Record evaluation := mk_evaluation {
  ev_flush_lookup : Z -> option meta;
  ev_unsuited_lookup : Z -> option meta
}.

(** src/evaluate/evaluation.rs:39-52 [five] *)
Definition five (ev : evaluation) (cards : list card) : outcome eval :=
  let uniques := map unique_integer cards in
  let detect_flush := negb (fold_left Z.land uniques 61440 =? 0) in
  if detect_flush then
    let bit_rank_or := Z.shiftr (fold_left Z.lor uniques 0) 16 in
    let! prime := prime_product_from_rank_bits (wrap_i16 bit_rank_or) in
    let! m := index_key (ev_flush_lookup ev) prime in
    Ret (MkEval m)
  else
    let prime := prime_product_from_hand cards in
    let! m := index_key (ev_unsuited_lookup ev) prime in
    Ret (MkEval m).

(** src/evaluate/evaluation.rs:54-65 [six_plus] *)
Definition six_plus (ev : evaluation) (cards : list card) : outcome eval :=
  if negb (Nat.ltb 5 (length cards)) then Panic AssertFailed
  else
    for_const_combos 5 cards (fun current_max combo =>
      let! score := five ev combo in
      if op_gt (eval_partial_cmp score current_max) then Ret score else Ret current_max)
      EVAL_WORST.

(** src/evaluate/evaluation.rs:24-37 [evaluate] *)
Definition evaluate_with (ev : evaluation) (cards : list card) :
    outcome (result eval eval_error) :=
  let! unique := all_unique cards in
  if unique then
    if Nat.ltb (length cards) 5 then Ret (Err (InvalidHandSize (length cards)))
    else if Nat.eqb (length cards) 5 then
      let! c0 := index cards 0 in
      let! c1 := index cards 1 in
      let! c2 := index cards 2 in
      let! c3 := index cards 3 in
      let! c4 := index cards 4 in
      let! e := five ev [c0; c1; c2; c3; c4] in
      Ret (Ok e)
    else
      let! e := six_plus ev cards in
      Ret (Ok e)
  else Ret (Err (CardsNotUnique cards)).

(** src/evaluate/mod.rs:76-77 [struct Evaluator(LookupTable)]; derived [Clone], [Default] *)
Record evaluator := Evaluator { evaluator_table : lookup_table }.
Definition evaluator_new : outcome evaluator :=  (* src/evaluate/mod.rs:82 *)
  let! t := lookup_table_new in Ret (Evaluator t).
Definition evaluator_default : evaluator := Evaluator lookup_table_default.
Definition evaluator_clone (e : evaluator) : evaluator := Evaluator (evaluator_table e).
(** src/evaluate/mod.rs:76 derived [PartialEq] *)
Definition evaluator_eqb (a b : evaluator) : bool :=
  lookup_table_eqb (evaluator_table a) (evaluator_table b).

(** src/evaluate/evaluation.rs:16-22 [impl Evaluation for Evaluator] *)
Definition evaluator_evaluation (e : evaluator) : evaluation :=
  mk_evaluation (map_get (flush_lookup (evaluator_table e)))
                (map_get (unsuited_lookup (evaluator_table e))).

(** src/evaluate/mod.rs:148-151 [Evaluator::evaluate] *)
Definition evaluate (e : evaluator) (cards : list card) : outcome (result eval eval_error) :=
  evaluate_with (evaluator_evaluation e) cards.

(** src/evaluate/static_lookup.rs:37-43, 102-105 [static_lookup::evaluate].  The generated maps
    [FLUSH_LOOKUP] and [UNSUITED_LOOKUP] come from a file downloaded at build time that is not
    in /repo, so they are parameters. *)
Definition static_evaluate (FLUSH_LOOKUP UNSUITED_LOOKUP : map_i32 meta) (cards : list card) :
    outcome (result eval eval_error) :=
  evaluate_with (mk_evaluation (map_get FLUSH_LOOKUP) (map_get UNSUITED_LOOKUP)) cards.
