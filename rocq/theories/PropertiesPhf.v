(** PropertiesPhf.v: the tables compiled in with the feature static_lookup (C84). *)
From Coq Require Import List ZArith.
From Verif Require Import Base ModelCard ModelEval ModelTable ModelEvaluation ModelTests ModelPhf.
From Verif Require Import Spec SpecApi SpecPhf.
From Verif Require PhfFacts HandFacts.
Import ListNotations.
Local Open Scope list_scope.

(** ** C84: downloaded tables, whatever the file holds *)

(** What a perfect hash map finds is one of its entries; if they stand where their keys lead, all are found. *)
Theorem C84_lookup : forall hash V (m : phf_map V) k v,
  (phf_get hash m k = Some v -> In (k, v) (phf_entries m))
  /\ (well_placed hash m -> (phf_get hash m k = Some v <-> In (k, v) (phf_entries m))).
Proof. exact (fun hash V m k v => conj (PhfFacts.get_in hash m k v) (fun W => PhfFacts.get_placed hash m W k v)). Qed.
Print Assumptions C84_lookup.

(** Any seed, displacements, entries and hash function: if the tests [ensure_identical_tables] and
    [test_all_five_card_combos] pass, [static_lookup::evaluate] gives for every hand of cards what
    [Evaluator::evaluate] does, up to [==], and never panics where that does not. *)
Theorem C84_tested : forall hash ev F U, new_evaluator ev ->
  phf_ensure_identical F U = Ret tt -> all_five_card_combos (phf_evaluate hash F U) = Ret tt ->
  forall h, all_cards h -> same_verdict (phf_evaluate hash F U h) (evaluate ev h).
Proof. exact PhfFacts.both_tests. Qed.
Print Assumptions C84_tested.

(** [ensure_identical_tables] asks this much of the entries, and nothing of where they stand. *)
Theorem C84_entries_test : forall ev F U, new_evaluator ev ->
  (phf_ensure_identical F U = Ret tt <->
   ((forall k v, In (k, v) (phf_entries F) -> exists w, map_get (flush_lookup (evaluator_table ev)) k = Some w /\ meta_eqb w v = true)
    /\ map_len (flush_lookup (evaluator_table ev)) = length (phf_entries F))
   /\ (forall k v, In (k, v) (phf_entries U) -> exists w, map_get (unsuited_lookup (evaluator_table ev)) k = Some w /\ meta_eqb w v = true)
    /\ map_len (unsuited_lookup (evaluator_table ev)) = length (phf_entries U)).
Proof. exact PhfFacts.ensure_spec. Qed.
Print Assumptions C84_entries_test.
(** Alone it is not enough: with every hash function, seed and displacements some tables pass it that make a hand
    panic. *)
Theorem C84_entries_test_alone : forall hash s1 d1 s2 d2 ev, new_evaluator ev ->
  exists F U h, phf_seed F = s1 /\ phf_disps F = d1 /\ phf_seed U = s2 /\ phf_disps U = d2
    /\ phf_ensure_identical F U = Ret tt /\ hand5 h /\ phf_evaluate hash F U h = Panic MissingKey.
Proof. exact PhfFacts.ensure_alone. Qed.
Print Assumptions C84_entries_test_alone.
(** Nor is [test_all_five_card_combos]: some tables pass it that give every hand its class and compare any two the
    wrong way round. *)
Theorem C84_combos_test_alone : forall ev, new_evaluator ev -> exists hash F U,
  all_five_card_combos (phf_evaluate hash F U) = Ret tt
  /\ forall h1 h2 e1 e2, hand5 h1 -> hand5 h2 -> evaluates ev h1 e1 -> evaluates ev h2 e2 ->
       exists e1' e2', phf_evaluate hash F U h1 = Ret (Ok e1') /\ phf_evaluate hash F U h2 = Ret (Ok e2')
         /\ eval_class_of e1' = eval_class_of e1 /\ eval_cmp e1' e2' = eval_cmp e2 e1.
Proof. exact PhfFacts.combos_alone. Qed.
Print Assumptions C84_combos_test_alone.

(** Tables with the right entries in the right places: the same results, class and all, and both tests pass. *)
Theorem C84_generated : forall hash ev F U, new_evaluator ev -> well_placed hash F -> well_placed hash U ->
  (forall k v, In (k, v) (phf_entries F) <-> map_get (flush_lookup (evaluator_table ev)) k = Some v) ->
  (forall k v, In (k, v) (phf_entries U) <-> map_get (unsuited_lookup (evaluator_table ev)) k = Some v) ->
  (forall h, phf_evaluate hash F U h = evaluate ev h)
  /\ phf_ensure_identical F U = Ret tt /\ all_five_card_combos (phf_evaluate hash F U) = Ret tt.
Proof. exact PhfFacts.placed_same. Qed.
Print Assumptions C84_generated.

(** The empty maps of [--cfg docsrs] make every hand panic. *)
Theorem C84_docs : forall hash h, legal h -> phf_evaluate hash phf_new phf_new h = Panic MissingKey.
Proof. exact PhfFacts.docs_panic. Qed.
Print Assumptions C84_docs.

(** The tables of an evaluator can be placed.  A map of three entries with two displacements: a key that is there,
    one that leads to another's place, and what remains when the seed is wrong. *)
Example C84_case :
  (exists ev hash F U, new_evaluator ev /\ well_placed hash F /\ well_placed hash U
    /\ (forall k v, In (k, v) (phf_entries F) <-> map_get (flush_lookup (evaluator_table ev)) k = Some v)
    /\ (forall k v, In (k, v) (phf_entries U) <-> map_get (unsuited_lookup (evaluator_table ev)) k = Some v))
  /\ let hash s k := mk_hashes k (k + s) (k / 2) in
     let m s := mk_phf s [(0, 1); (2, 2)]%Z [(7, 2); (11, 1); (2, 3)]%Z in
     map (phf_get hash (m 1%Z)) [2; 7; 11; 4]%Z = [Some 3; Some 2; Some 1; None]%Z
     /\ map (phf_get hash (m 0%Z)) [2; 7; 11; 4]%Z = [Some 3; None; None; None]%Z.
Proof.
  split; [|vm_compute; split; reflexivity]. destruct HandFacts.evaluator_new_ret as [ev Hev].
  destruct (PhfFacts.placed_exist ev Hev) as (hash & F & U & P). exists ev, hash, F, U. split; [exact Hev|exact P].
Qed.
