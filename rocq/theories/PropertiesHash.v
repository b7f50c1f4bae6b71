(** PropertiesHash.v: hash maps and hash sets (C83). *)
From Coq Require Import List ZArith Permutation.
From Verif Require Import Base ModelCard ModelDeck ModelEval ModelTable ModelEvaluation ModelExamples ModelDebug ModelHash.
From Verif Require Import Spec SpecApi SpecHash.
From Verif Require HashFacts HashCrateFacts.
From Verif Require Import SpecBest.
Import ListNotations.
Local Open Scope list_scope.

(** ** C83: a hash map is a dictionary *)

(** Whatever the calls: the hash map answers what a dictionary on paper does, if [==] is an equivalence, equal keys
    have equal hash values and every slot is looked at.  The hash values, tags and numbers of slots do not show,
    but in the order of iteration. *)
Theorem C83_dictionary : forall K V lay (eqb : K -> K -> bool) (hash : K -> Z),
  equivalence eqb -> (forall a b, eqb a b = true -> hash a = hash b) -> complete lay ->
  forall n (l : list (map_call K V)), exists rs slots d,
    calls (by_hash lay eqb hash) (repeat Empty n) l = (rs, slots)
    /\ calls (on_paper eqb) [] l = (rs, d) /\ Permutation (hash_iter slots) d.
Proof. exact @HashFacts.dictionary. Qed.
Print Assumptions C83_dictionary.

(** Cards, results, ranks, suits and the keys of the tables are such keys, with every hasher. *)
Theorem C83_keys : forall H (new : H) finish write,
  (equivalence card_eqb /\ forall a b, card_eqb a b = true -> hash_one new finish (card_hash write) a = hash_one new finish (card_hash write) b)
  /\ (equivalence eval_eqb /\ forall a b, eval_eqb a b = true -> hash_one new finish (eval_hash write) a = hash_one new finish (eval_hash write) b)
  /\ (equivalence rank_eqb /\ forall a b, rank_eqb a b = true -> hash_one new finish (rank_hash write) a = hash_one new finish (rank_hash write) b)
  /\ (equivalence suit_eqb /\ forall a b, suit_eqb a b = true -> hash_one new finish (suit_hash write) a = hash_one new finish (suit_hash write) b)
  /\ (equivalence Z.eqb /\ forall a b, Z.eqb a b = true -> hash_one new finish (int_hash write) a = hash_one new finish (int_hash write) b).
Proof. exact HashCrateFacts.keys. Qed.
Print Assumptions C83_keys.

(** The two tables of an evaluator, made of slots: building them does not panic, they hold what the finite maps
    hold, and evaluating with them is the same. *)
Theorem C83_tables : forall H (new : H) finish write lay, complete lay ->
  forall ev, new_evaluator ev -> exists t, hashed_table_new new finish write lay = Ret t
    /\ (forall k, hash_get lay Z.eqb (key_hash new finish write) (fst t) k = map_get (flush_lookup (evaluator_table ev)) k)
    /\ (forall k, hash_get lay Z.eqb (key_hash new finish write) (snd t) k = map_get (unsuited_lookup (evaluator_table ev)) k)
    /\ Z.of_nat (hash_len (fst t)) = 1287%Z /\ Z.of_nat (hash_len (snd t)) = 6175%Z
    /\ forall h, hashed_evaluate new finish write lay t h = evaluate ev h.
Proof. exact @HashCrateFacts.tables. Qed.
Print Assumptions C83_tables.

(** The counts that the errors about duplicates are made of are those of the model, up to their order. *)
Theorem C83_counts : forall H (new : H) finish write lay, complete lay ->
  (forall cards, Permutation (hash_iter (hashed_counts new finish lay card_eqb (card_hash write) cards)) (counts card_eqb cards))
  /\ (forall swaps, Permutation (hash_iter (hashed_counts new finish lay Z.eqb (int_hash write) swaps)) (counts Z.eqb swaps)).
Proof. exact HashCrateFacts.duplicates. Qed.
Print Assumptions C83_counts.

(** The example game's test for duplicates is the one of the model, and says whether there are any. *)
Theorem C83_swaps : forall H (new : H) finish write lay n l, complete lay ->
  hashed_all_inserted new finish write lay (repeat Empty n) l = all_inserted [] l
  /\ (all_inserted [] l = true <-> NoDup l).
Proof. exact HashCrateFacts.all_distinct. Qed.
Print Assumptions C83_swaps.

(** A hash set of cards holds every card once. *)
Theorem C83_card_set : forall H (new : H) finish write lay h, complete lay ->
  let s := hashed_set new finish lay card_eqb (card_hash write) h in
  NoDup (map fst (hash_iter s)) /\ (forall c, In c (map fst (hash_iter s)) <-> In c h)
  /\ (forall c, set_contains new finish lay card_eqb (card_hash write) s c = true <-> In c h)
  /\ (hash_len s = length h <-> NoDup h).
Proof. exact HashCrateFacts.card_sets. Qed.
Print Assumptions C83_card_set.

(** A hash set of results holds one for every worth among the hands. *)
Theorem C83_result_set : forall H (new : H) finish write lay ev hs es, complete lay -> new_evaluator ev ->
  Forall all_cards hs -> Forall2 (evaluates ev) hs es ->
  let s := hashed_set new finish lay eval_eqb (eval_hash write) es in
  NoDup (map fst (hash_iter s)) /\ (forall e, In e (map fst (hash_iter s)) <-> In e es)
  /\ (forall h e, all_cards h -> evaluates ev h e ->
       (set_contains new finish lay eval_eqb (eval_hash write) s e = true
        <-> exists h', In h' hs /\ best (faces h') = best (faces h)))
  /\ (hash_len s = length hs <-> NoDup (map (fun h => best (faces h)) hs))
  /\ (Z.of_nat (hash_len s) <= 7462)%Z.
Proof. exact HashCrateFacts.result_sets. Qed.
Print Assumptions C83_result_set.

(** Linear probing looks at every slot.  A hasher that tells no two keys apart: the whole deck is still held, and a
    key behind a removed one is found.  Without the hypotheses: hash values that [==] keys do not share keep two
    copies of a key; a search of the first slot only loses a key. *)
Example C83_case :
  complete HashCrateFacts.plain_layout
  /\ hash_len (hashed_set tt (fun _ => 7%Z) HashCrateFacts.plain_layout card_eqb (card_hash (fun _ _ => tt)) (deck_generate ++ deck_generate)) = 52
  /\ fst (calls (by_hash HashCrateFacts.plain_layout Z.eqb (fun _ => 7%Z)) (repeat Empty 4)
       [Insert 1 10; Insert 2 20; Remove 1; Get 2; Insert 2 21; Insert 3 30; Insert 4 40;
        Update 4 (fun v => match v with Some v => v + 1 | None => 0 end); Get 4; Get 1; Len]%Z)
     = [Value None; Value None; Value (Some 10%Z); Value (Some 20%Z); Value (Some 20%Z); Value None; Value None;
        Nothing; Value (Some 41%Z); Value None; Number 3]
  /\ fst (calls (by_hash HashCrateFacts.plain_layout (fun a b => Z.eqb (a mod 2) (b mod 2)) (fun k => k)) (repeat Empty 4)
       [Insert 1 10; Insert 3 30; Len]%Z) = [Value None; Value None; Number 2]
  /\ fst (calls (by_hash HashCrateFacts.first_layout Z.eqb (fun k => k)) (repeat Empty 4)
       [Insert 1 10; Insert 2 20; Get 2; Len]%Z) = [Value None; Value None; Value None; Number 1].
Proof. split; [exact HashCrateFacts.plain_complete|]. repeat split; vm_compute; reflexivity. Qed.
