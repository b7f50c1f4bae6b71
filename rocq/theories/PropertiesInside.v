(** PropertiesInside.v: C101 (internal functions) of the source text itself, read and run as in PropertiesRust.v. *)
From Coq Require Import String List Arith ZArith Permutation Lia.
From Verif Require Import Base ModelCard Spec SpecTable SpecInside RustSyntax RustSemantics RustProgram RustValues SpecRust.
From Verif Require RustInside.
Import ListNotations.
Local Open Scope string_scope.
Local Open Scope list_scope.

(** C101: [all_unique] tells whether all cards differ, however many they are; *)
Theorem C101_unique : forall P h cs, load_all texts = Some P -> Forall2 (made P) h cs ->
  exists b, returns P "all_unique" None [VList cs] (VBool b) /\ (b = true <-> NoDup h).
Proof. exact RustInside.runs_all_unique. Qed.
Print Assumptions C101_unique.
(** each card has an index below 52, no two the same; *)
Theorem C101_index : forall P f v, load_all texts = Some P -> made P f v ->
  exists z, returns P "card_to_index" None [v] (VInt U8 z) /\ (0 <= z < 52)%Z.
Proof. exact RustInside.runs_card_to_index. Qed.
Print Assumptions C101_index.
Theorem C101_index_apart : forall P f g v w i, load_all texts = Some P -> made P f v -> made P g w ->
  returns P "card_to_index" None [v] i -> returns P "card_to_index" None [w] i -> f = g.
Proof. exact RustInside.runs_index_apart. Qed.
Print Assumptions C101_index_apart.
(** the two functions that make keys give the exact product of the primes of the ranks, nothing wraps; *)
Theorem C101_hand_product : forall P h cs, load_all texts = Some P -> Forall2 (made P) h cs -> length h = 5 ->
  returns P "prime_product_from_hand" None [VList cs] (VInt I32 (product (map fst h))).
Proof. exact RustInside.runs_hand_product. Qed.
Print Assumptions C101_hand_product.
Theorem C101_bits_product : forall P rs, load_all texts = Some P -> five_different rs ->
  returns P "prime_product_from_rank_bits" None [VInt I16 (rank_bits rs)] (VInt I32 (product rs)).
Proof. exact RustInside.runs_bits_product. Qed.
Print Assumptions C101_bits_product.
(** the high rank of five different ranks is the highest, except that of A2345, which is the five; *)
Theorem C101_high_rank : forall P rs, load_all texts = Some P -> five_different rs ->
  exists r, returns P "high_rank_from_rank_bits" None [VInt I16 (rank_bits rs)] (rank_value r)
    /\ (Permutation rs [Ace; Five; Four; Three; Two] -> r = Five)
    /\ (~ Permutation rs [Ace; Five; Four; Three; Two] -> In r rs /\ forall q, In q rs -> pips q <= pips r).
Proof. exact RustInside.runs_high_rank. Qed.
Print Assumptions C101_high_rank.
(** the tables have these products as keys, all of them and no others; *)
Theorem C101_tables : forall P, load_all texts = Some P -> exists flush other,
  returns P "LookupTable::new" None [] (tables flush other)
  /\ (forall k, (exists v, map_get flush k = Some v) <-> exists rs, five_different rs /\ k = product rs)
  /\ (forall k, (exists v, map_get other k = Some v) <-> exists rs, five_dealable rs /\ k = product rs)
  /\ Z.of_nat (map_len flush) = 1287%Z /\ Z.of_nat (map_len other) = 6175%Z.
Proof. exact RustInside.runs_tables. Qed.
Print Assumptions C101_tables.
(** each entry has a number in the interval of its class, each number from 1 to 7462 is that of one entry only; *)
Theorem C101_numbers : forall P flush other, load_all texts = Some P ->
  returns P "LookupTable::new" None [] (tables flush other) ->
  (forall f k v, held flush other f k v -> exists c z,
     returns P "Meta::class" None [v] (class_value c) /\ number_is v z
     /\ (fst (rank_interval c) <= z <= snd (rank_interval c))%Z)
  /\ (forall z, (1 <= z <= 7462)%Z -> exists f k v,
       held flush other f k v /\ number_is v z)
  /\ (forall f k v f' k' v' z, held flush other f k v ->
       held flush other f' k' v' -> number_is v z -> number_is v' z -> f = f' /\ k = k').
Proof. exact RustInside.runs_numbers. Qed.
Print Assumptions C101_numbers.
(** and [get_next] goes from a positive bit pattern to the next greater one with as many bits, if one fits. *)
Theorem C101_next_pattern : forall P b t n, load_all texts = Some P -> (0 < b)%Z ->
  (exists c, (b < c < 32768)%Z /\ ones c = ones b) ->
  exists v self, returns_mut P "BitSequence::get_next" None
      [VCon "BitSequence" [("bits", VInt I16 b); ("t", VInt I16 t); ("next_bits", VInt I16 n)]] (VInt I16 v) self
    /\ field self "bits" = Some (VInt I16 v) /\ (v < 32768)%Z /\ next_pattern b v.
Proof. exact RustInside.runs_get_next. Qed.
Print Assumptions C101_next_pattern.
Example C101_case :
  five_different [Ace; Two; Three; Four; Five] /\ rank_bits [Ace; Two; Three; Four; Five] = 4111%Z
  /\ product [Ace; Two; Three; Four; Five] = 8610%Z
  /\ Permutation [Ace; Two; Three; Four; Five] [Ace; Five; Four; Three; Two]
  /\ ~ Permutation [Ace; Two; Three; Four; Six] [Ace; Five; Four; Three; Two]
  /\ (exists c, (31 < c < 32768)%Z /\ ones c = ones 31)
  /\ next_pattern 31 47.
Proof.
  split; [ split; [ repeat constructor; simpl; intuition discriminate | reflexivity ] | ].
  split; [ reflexivity | ]. split; [ reflexivity | ]. split.
  { apply perm_skip. apply (Permutation_rev [Two; Three; Four; Five]). }
  split.
  { intros H. assert (I : In Six [Ace; Five; Four; Three; Two]) by (apply (Permutation_in _ H); simpl; tauto).
    simpl in I. intuition discriminate. }
  split; [ exists 47%Z; split; [ lia | reflexivity ] | ].
  split; [ lia | ]. split; [ reflexivity | ]. intros c H.
  assert (C : (c = 32 \/ c = 33 \/ c = 34 \/ c = 35 \/ c = 36 \/ c = 37 \/ c = 38 \/ c = 39 \/ c = 40 \/ c = 41
    \/ c = 42 \/ c = 43 \/ c = 44 \/ c = 45 \/ c = 46)%Z) by lia.
  repeat (destruct C as [->|C]; [ discriminate | ]). subst c. discriminate.
Qed.
