(** PropertiesInternals.v: C35-C37 (lookup tables, odds, bit patterns). *)
From Coq Require Import Lia List Arith Bool Permutation Sorted ZArith.
From Verif Require Import Base ModelCard ModelEval ModelTable ModelEvaluation.
From Verif Require Import Spec SpecApi SpecText SpecTable.
From Verif Require HandFacts TableFacts OddsFacts BitsFacts.
Import ListNotations.

(** C35: the tables.  [LookupTable::new] returns; the keys of the flush table are the (exact,
    unwrapped) prime products of five different ranks, those of the other table the products of
    five ranks that four suits allow. *)
Theorem C35_table_contents : exists t, lookup_table_new = Ret t
  /\ (forall k, (exists m, entry t true k m) <-> exists rs, five_different rs /\ k = product rs)
  /\ (forall k, (exists m, entry t false k m) <-> exists rs, five_dealable rs /\ k = product rs)
  /\ Z.of_nat (map_len (flush_lookup t)) = 1287%Z
  /\ Z.of_nat (map_len (unsuited_lookup t)) = 6175%Z.
Proof. exact TableFacts.table_contents. Qed.
Print Assumptions C35_table_contents.
(** One entry for each number 1..7462, in the interval of its class. *)
Theorem C35_rank_numbers : forall t, lookup_table_new = Ret t ->
  (forall f k m, entry t f k m ->
     (fst (rank_interval (meta_class m)) <= phr (meta_hand_rank m)
      <= snd (rank_interval (meta_class m)))%Z)
  /\ (forall z, (1 <= z <= 7462)%Z -> exists f k m, entry t f k m /\ phr (meta_hand_rank m) = z)
  /\ (forall f k m f' k' m', entry t f k m -> entry t f' k' m' ->
       phr (meta_hand_rank m) = phr (meta_hand_rank m') -> f = f' /\ k = k' /\ m = m').
Proof. exact TableFacts.table_ranks. Qed.
Print Assumptions C35_rank_numbers.
(** No insertion overwrites another: the keys inserted are all different, and every insertion
    survives. *)
Theorem C35_no_overwriting : forall t, lookup_table_new = Ret t ->
  exists lg, insertions = Ret lg
    /\ NoDup (map (fun i => (ins_flush i, ins_key i)) lg)
    /\ (forall f k m, entry t f k m <-> In (mk_insertion f k m) lg).
Proof. exact TableFacts.no_overwriting. Qed.
Print Assumptions C35_no_overwriting.
(** Different rank multisets have different products. *)
Theorem C35_products_differ : forall rs rs', five_dealable rs -> five_dealable rs' ->
  product rs = product rs' -> Permutation rs rs'.
Proof. exact TableFacts.product_inj. Qed.
Print Assumptions C35_products_differ.
Example C35_case : five_different [Two; Three; Four; Five; Seven]
  /\ product [Two; Three; Four; Five; Seven] = 2730%Z
  /\ five_dealable [Ace; Ace; Ace; Ace; King]
  /\ product [Ace; Ace; Ace; Ace; King] = 104553157%Z.
Proof.
  split; [split; [repeat constructor; simpl; intuition discriminate|reflexivity]|].
  split; [reflexivity|]. split; [|reflexivity]. split; [reflexivity|].
  intros []; simpl; lia.
Qed.

(** C36: odds.  [L] lists every five-card choice from the deck once. *)
Theorem C36_odds : forall ev, new_evaluator ev -> exists L es,
  NoDup L
  /\ (forall h, In h L <-> sublist h deck_generate /\ length h = 5)
  /\ Forall2 (evaluates ev) L es
  /\ Z.of_nat (length L) = 2598960%Z
  /\ Z.of_nat (length (filter eval_is_royal_flush es)) = 4%Z
  /\ Z.of_nat (length (filter eval_is_straight_flush es)) = 40%Z
  /\ Z.of_nat (length (filter eval_is_four_of_a_kind es)) = 624%Z
  /\ Z.of_nat (length (filter eval_is_full_house es)) = 3744%Z
  /\ Z.of_nat (length (filter eval_is_flush es)) = 5108%Z
  /\ Z.of_nat (length (filter eval_is_straight es)) = 10200%Z
  /\ Z.of_nat (length (filter eval_is_three_of_a_kind es)) = 54912%Z
  /\ Z.of_nat (length (filter eval_is_two_pair es)) = 123552%Z
  /\ Z.of_nat (length (filter eval_is_pair es)) = 1098240%Z
  /\ Z.of_nat (length (filter eval_is_high_card es)) = 1302540%Z.
Proof. exact OddsFacts.odds. Qed.
Print Assumptions C36_odds.
Example C36_case : exists ev, new_evaluator ev.
Proof. exact HandFacts.evaluator_new_ret. Qed.

(** C37: the bit-pattern generator. *)
Theorem C37_next_pattern : forall g, (0 < bs_bits g)%Z ->
  (exists c, (bs_bits g < c < 32768)%Z /\ ones c = ones (bs_bits g)) ->
  exists v g', get_next g = Ret (v, g') /\ bs_bits g' = v /\ (v < 32768)%Z
    /\ next_pattern (bs_bits g) v.
Proof. exact BitsFacts.get_next_correct. Qed.
Print Assumptions C37_next_pattern.
Theorem C37_all_patterns : exists l, patterns 1286 (bit_sequence_new 31) = Ret l
  /\ StronglySorted Z.lt l
  /\ forall v, In v l <-> (31 < v < 8192)%Z /\ ones v = 5.
Proof. exact BitsFacts.all_patterns. Qed.
Print Assumptions C37_all_patterns.
(** 0b10011 -> 0b10101, as in the crate's own test. *)
Example C37_case : (19 < 21 < 32768)%Z /\ ones 21 = ones 19
  /\ exists g, get_next (bit_sequence_new 19) = Ret (21%Z, g).
Proof. split; [lia|]. split; [reflexivity|]. eexists. reflexivity. Qed.
