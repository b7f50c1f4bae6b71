(** ModelTable.v: src/evaluate/utils.rs and src/evaluate/lookup_table.rs. *)
From Verif Require Import Base ModelCard ModelEval.
Local Open Scope Z_scope.

(** src/evaluate/lookup_table.rs:344-355 [STRAIGHTS] *)
Definition STRAIGHTS : list Z := [7936; 3968; 1984; 992; 496; 248; 124; 62; 31; 4111].

(** ** Combinations (src/evaluate/utils.rs:10-54) *)

(** src/evaluate/utils.rs:11-15; the const generic [N] is the length of [indices] *)
Record combinations (T : Type) := mk_combinations {
  cb_data : list T;
  cb_indices : list nat;
  cb_done : bool
}.
Arguments mk_combinations {T}.
Arguments cb_data {T}.
Arguments cb_indices {T}.
Arguments cb_done {T}.

(** src/evaluate/utils.rs:18-25 [Combinations::new]; also [const_combos], utils.rs:85-90 *)
Definition combinations_new {T} (n : nat) (data : list T) : combinations T :=
  mk_combinations data (seq 0 n) false.

(** src/evaluate/utils.rs:45-47: [for j in i + 1..N { indices[j] = indices[j - 1] + 1 }],
    applied to the tail [after] of the indices behind position [i], whose value is [prev]. *)
Fixpoint reset_after (prev : nat) (after : list nat) : list nat :=
  match after with
  | [] => []
  | _ :: after' => S prev :: reset_after (S prev) after'
  end.

(** src/evaluate/utils.rs:38-50: the loop [for i in (0..N).rev()], with [i] counting down from
    [fuel - 1] (structural in [i + 1]).  [data.len() - N + i] panics when [data.len() < N]. *)
Fixpoint advance_loop {T} (len n : nat) (isucc : nat) (c : combinations T) :
    outcome (combinations T) :=
  match isucc with
  | O => Ret c
  | S i =>
      if Nat.ltb len n then Panic ArithmeticOverflow
      else
        let limit := (len - n + i)%nat in
        let! idx := index (cb_indices c) i in
        let c := if Nat.eqb i 0 && Nat.eqb idx limit
                 then mk_combinations (cb_data c) (cb_indices c) true else c in
        if Nat.ltb idx limit then
          Ret (mk_combinations (cb_data c)
                 (firstn i (cb_indices c) ++ S idx :: reset_after (S idx) (skipn (S i) (cb_indices c)))
                 (cb_done c))
        else advance_loop len n i c
  end.

(** src/evaluate/utils.rs:31-53 [Iterator::next] *)
Definition combinations_next {T} (c : combinations T) :
    outcome (option (list T) * combinations T) :=
  if cb_done c then Ret (None, c)
  else
    let! r := mapM (index (cb_data c)) (cb_indices c) in
    let n := length (cb_indices c) in
    let! c' := advance_loop (length (cb_data c)) n n c in
    Ret (Some r, c').

(** [for x in combinations { body }]: calls [next] until it gives [None].  [fuel] bounds the
    number of calls; [OutOfFuel] is proved unreachable for the fuel used below. *)
Fixpoint for_combinations {T St} (fuel : nat) (c : combinations T)
    (body : St -> list T -> outcome St) (s : St) : outcome St :=
  match fuel with
  | O => OutOfFuel
  | S fuel' =>
      let! p := combinations_next c in
      match p with
      | (None, _) => Ret s
      | (Some x, c') => let! s' := body s x in for_combinations fuel' c' body s'
      end
  end.

(** Binomial coefficient: how many combinations there are; only used as fuel. *)
Fixpoint binom (n k : nat) : nat :=
  match k, n with
  | O, _ => 1
  | S _, O => 0
  | S k', S n' => binom n' k' + binom n' k
  end.

(** [for x in const_combos::<_, N>(items) { body }], src/evaluate/utils.rs:85-90 *)
Definition for_const_combos {T St} (n : nat) (items : list T)
    (body : St -> list T -> outcome St) (s : St) : outcome St :=
  for_combinations (S (binom (length items) n)) (combinations_new n items) body s.

(** ** BitSequence (src/evaluate/utils.rs:56-83) *)

(** src/evaluate/utils.rs:60-64 *)
Record bit_sequence := mk_bit_sequence { bs_bits : Z; bs_t : Z; bs_next_bits : Z }.
(** src/evaluate/utils.rs:67-73 *)
Definition bit_sequence_new (bits : Z) : bit_sequence := mk_bit_sequence bits 0 0.
(** src/evaluate/utils.rs:75-82 [get_next].  [trailing_zeros().wrapping_add(1)] is u32
    arithmetic on a number at most 16, so it cannot wrap. *)
Definition get_next (b : bit_sequence) : outcome (Z * bit_sequence) :=
  let t := Z.lor (bs_bits b) (wrapping_sub_i16 (bs_bits b) 1) in
  let next_bits := wrapping_add_i16 t 1 in
  let low := wrapping_sub_i16 (Z.land (Z.lnot t) (wrapping_neg_i16 (Z.lnot t))) 1 in
  let! sh := shr_i16 low (trailing_zeros_i16 (bs_bits b) + 1) in
  let next_bits := Z.lor next_bits sh in
  Ret (next_bits, mk_bit_sequence next_bits t next_bits).

(** ** Prime products and high ranks *)

(** src/evaluate/utils.rs:93-103 [prime_product_from_rank_bits] *)
Definition prime_product_from_rank_bits (rank_bits : Z) : outcome Z :=
  foldM (fun product i =>
    let! m := shl_i16 1 i in
    if negb (Z.land rank_bits m =? 0) then
      let! p := index PRIMES (Z.to_nat i) in
      Ret (wrapping_mul_i32 product p)
    else Ret product) INT_RANKS 1.

(** src/evaluate/utils.rs:107-111 [prime_product_from_hand] *)
Definition prime_product_from_hand (hand : list card) : Z :=
  fold_left (fun acc x => wrapping_mul_i32 acc x)
    (map (fun c => Z.land (unique_integer c) 255) hand) 1.

(** src/evaluate/utils.rs:119-124 the loop of [high_rank_from_rank_bits] *)
Fixpoint high_rank_loop (rank_bits : Z) (is : list Z) : outcome rank :=
  match is with
  | [] => Panic UnreachableReached
  | i :: is' =>
      let! m := shl_i16 1 i in
      if negb (Z.land rank_bits m =? 0) then index RANK_ALL_VARIANTS (Z.to_nat i)
      else high_rank_loop rank_bits is'
  end.

(** src/evaluate/utils.rs:114-125 [high_rank_from_rank_bits] *)
Definition high_rank_from_rank_bits (rank_bits : Z) : outcome rank :=
  let! wheel := index STRAIGHTS 9 in
  if rank_bits =? wheel then Ret Five
  else high_rank_loop rank_bits (rev INT_RANKS).

(** ** Uniqueness of cards *)

(** src/evaluate/utils.rs:141-166 [card_to_index] (u8 arithmetic) *)
Definition card_to_index (c : card) : outcome Z :=
  let suit_shift :=
    match card_suit c with Clubs => 0 | Diamonds => 13 | Hearts => 26 | Spades => 39 end in
  let rank_shift :=
    match card_rank c with
    | Two => 0 | Three => 1 | Four => 2 | Five => 3 | Six => 4 | Seven => 5 | Eight => 6
    | Nine => 7 | Ten => 8 | Jack => 9 | Queen => 10 | King => 11 | Ace => 12
    end in
  chk in_u8 (suit_shift + rank_shift).

(** src/evaluate/utils.rs:128-138 [all_unique] *)
Fixpoint all_unique_from (card_flags : Z) (hand : list card) : outcome bool :=
  match hand with
  | [] => Ret true
  | c :: hand' =>
      let! i := card_to_index c in
      let! card_flag := shl_u64 1 i in
      if negb (Z.land card_flags card_flag =? 0) then Ret false
      else all_unique_from (Z.lor card_flags card_flag) hand'
  end.
Definition all_unique (hand : list card) : outcome bool := all_unique_from 0 hand.

(** ** LookupTable (src/evaluate/lookup_table.rs) *)

(** src/evaluate/lookup_table.rs:22-25 *)
Record lookup_table := mk_lookup_table {
  flush_lookup : map_i32 meta;
  unsuited_lookup : map_i32 meta
}.

(** src/evaluate/lookup_table.rs:21 derived [Default]: both maps empty *)
Definition lookup_table_default : lookup_table := mk_lookup_table map_empty map_empty.

(** [HashMap]'s [PartialEq]: the same number of entries, and every entry of [self] has an equal one
    under its key in [other] *)
Definition map_eqb {V} (eqb : V -> V -> bool) (self other : map_i32 V) : bool :=
  Nat.eqb (map_len self) (map_len other)
  && forallb (fun kv => match PositiveMap.find (fst kv) other with
                        | Some v => eqb (snd kv) v
                        | None => false
                        end) (PositiveMap.elements self).
(** src/evaluate/lookup_table.rs:21 derived [PartialEq] *)
Definition lookup_table_eqb (a b : lookup_table) : bool :=
  map_eqb meta_eqb (flush_lookup a) (flush_lookup b)
  && map_eqb meta_eqb (unsuited_lookup a) (unsuited_lookup b).

Definition insert_flush (k : Z) (m : meta) (t : lookup_table) : lookup_table :=
  mk_lookup_table (map_insert k m (flush_lookup t)) (unsuited_lookup t).
Definition insert_unsuited (k : Z) (m : meta) (t : lookup_table) : lookup_table :=
  mk_lookup_table (flush_lookup t) (map_insert k m (unsuited_lookup t)).

(** src/evaluate/lookup_table.rs:52-66: [not_straights], in generation order *)
Fixpoint gen_not_straights (count : nat) (gen : bit_sequence) : outcome (list Z) :=
  match count with
  | O => Ret []
  | S count' =>
      let! p := get_next gen in
      let (bits, gen') := p in
      let! rest := gen_not_straights count' gen' in
      if existsb (fun straight => Z.lxor bits straight =? 0) STRAIGHTS
      then Ret rest else Ret (bits :: rest)
  end.

(** The table is built by [HashMap::insert] calls only.  Everything from here to [build] is generic
    in those two operations, so that the sequence of insertions itself can be talked about
    (TableFacts.v); [lookup_table_new] below is the instance with the real maps. *)
Section building.
Context {T : Type} (insert_flush insert_unsuited : Z -> meta -> T -> T).

(** src/evaluate/lookup_table.rs:93-123: one iteration over a straight.
    State: table, [rank_suited], [rank_unsuited]. *)
Definition straight_step (st : T * Z * Z) (straight : Z) :
    outcome (T * Z * Z) :=
  let '(t, rank_suited, rank_unsuited) := st in
  let! prime_product := prime_product_from_rank_bits straight in
  let! high_rank := high_rank_from_rank_bits straight in
  let t := insert_flush prime_product (MStraightFlush (PokerHandRank rank_suited) high_rank) t in
  let t := insert_unsuited prime_product (MStraight (PokerHandRank rank_unsuited) high_rank) t in
  Ret (t, wrapping_add_i16 rank_suited 1, wrapping_add_i16 rank_unsuited 1).

(** src/evaluate/lookup_table.rs:137-165: one iteration over a non-straight *)
Definition not_straight_step (st : T * Z * Z) (bits : Z) :
    outcome (T * Z * Z) :=
  let '(t, rank_suited, rank_unsuited) := st in
  let! prime_product := prime_product_from_rank_bits bits in
  let! high_rank := high_rank_from_rank_bits bits in
  let t := insert_flush prime_product (MFlush (PokerHandRank rank_suited) high_rank) t in
  let t := insert_unsuited prime_product (MHighCard (PokerHandRank rank_unsuited) high_rank) t in
  Ret (t, wrapping_add_i16 rank_suited 1, wrapping_add_i16 rank_unsuited 1).

(** src/evaluate/lookup_table.rs:40-166 [flushes_straights_high_cards] *)
Definition flushes_straights_high_cards (t : T) : outcome T :=
  let! not_straights := gen_not_straights 1286 (bit_sequence_new 31) in
  let! first_unsuited := chk in_i16 (WORST_FLUSH + 1) in
  let! st := foldM straight_step STRAIGHTS (t, 1, first_unsuited) in
  let '(t, _, _) := st in
  let rank_suited := wrapping_add_i16 WORST_FULL_HOUSE 1 in
  let rank_unsuited := wrapping_add_i16 WORST_PAIR 1 in
  let! st := foldM not_straight_step (rev not_straights) (t, rank_suited, rank_unsuited) in
  let '(t, _, _) := st in
  Ret t.

(** [PRIMES[i as usize]] and [Rank::ALL_VARIANTS[i as usize]] for an i16 [i] *)
Definition prime_at (i : Z) : outcome Z := index PRIMES (Z.to_nat i).
Definition rank_at (i : Z) : outcome rank := index RANK_ALL_VARIANTS (Z.to_nat i).

(** src/evaluate/lookup_table.rs:180-202 four of a kind *)
Definition table_quads (t : T) : outcome T :=
  let! st := foldM (fun st quad =>
    foldM (fun (st : T * Z) k =>
      let (t, rk) := st in
      let! pq := prime_at quad in
      let! pk := prime_at k in
      let product := wrapping_mul_i32 (wrapping_pow_i32 pq 4) pk in
      let! quads := rank_at quad in
      Ret (insert_unsuited product (MFourOfAKind (PokerHandRank rk) quads) t,
           wrapping_add_i16 rk 1))
      (filter (fun kicker => negb (kicker =? quad)) (rev INT_RANKS)) st)
    (rev INT_RANKS) (t, wrapping_add_i16 WORST_STRAIGHT_FLUSH 1) in
  Ret (fst st).

(** src/evaluate/lookup_table.rs:206-226 full house *)
Definition table_full_houses (t : T) : outcome T :=
  let! st := foldM (fun st trips =>
    foldM (fun (st : T * Z) pr =>
      let (t, rk) := st in
      let! pt := prime_at trips in
      let! pp := prime_at pr in
      let product := wrapping_mul_i32 (wrapping_pow_i32 pt 3) (wrapping_pow_i32 pp 2) in
      let! rp := rank_at pr in
      let! rt := rank_at trips in
      Ret (insert_unsuited product (MFullHouse (PokerHandRank rk) rt rp) t,
           wrapping_add_i16 rk 1))
      (filter (fun pr => negb (pr =? trips)) (rev INT_RANKS)) st)
    (rev INT_RANKS) (t, wrapping_add_i16 WORST_FOUR_OF_A_KIND 1) in
  Ret (fst st).

(** src/evaluate/lookup_table.rs:230-258 three of a kind *)
Definition table_trips (t : T) : outcome T :=
  let! st := foldM (fun st trips =>
    let kickers := filter (fun kicker => negb (kicker =? trips)) (rev INT_RANKS) in
    for_const_combos 2 kickers (fun (st : T * Z) k =>
      let (t, rk) := st in
      let! c1 := index k 0 in
      let! c2 := index k 1 in
      let! pt := prime_at trips in
      let! p1 := prime_at c1 in
      let! p2 := prime_at c2 in
      let product := wrapping_mul_i32 (wrapping_mul_i32 (wrapping_pow_i32 pt 3) p1) p2 in
      let! rt := rank_at trips in
      Ret (insert_unsuited product (MThreeOfAKind (PokerHandRank rk) rt) t,
           wrapping_add_i16 rk 1)) st)
    (rev INT_RANKS) (t, wrapping_add_i16 WORST_STRAIGHT 1) in
  Ret (fst st).

(** src/evaluate/lookup_table.rs:262-289 two pair *)
Definition table_two_pairs (t : T) : outcome T :=
  let! st := for_const_combos 2 (rev INT_RANKS) (fun st pairs =>
    let! pair1 := index pairs 0 in
    let! pair2 := index pairs 1 in
    foldM (fun (st : T * Z) kicker =>
      let (t, rk) := st in
      let! p1 := prime_at pair1 in
      let! p2 := prime_at pair2 in
      let! pk := prime_at kicker in
      let product := wrapping_mul_i32
          (wrapping_mul_i32 (wrapping_pow_i32 p1 2) (wrapping_pow_i32 p2 2)) pk in
      let! high_pair := rank_at pair1 in
      let! low_pair := rank_at pair2 in
      Ret (insert_unsuited product (MTwoPair (PokerHandRank rk) high_pair low_pair) t,
           wrapping_add_i16 rk 1))
      (filter (fun kicker => negb (kicker =? pair1) && negb (kicker =? pair2)) (rev INT_RANKS)) st)
    (t, wrapping_add_i16 WORST_THREE_OF_A_KIND 1) in
  Ret (fst st).

(** src/evaluate/lookup_table.rs:293-323 pair *)
Definition table_pairs (t : T) : outcome T :=
  let! st := foldM (fun st pair_rank =>
    let kickers := filter (fun kicker => negb (kicker =? pair_rank)) (rev INT_RANKS) in
    for_const_combos 3 kickers (fun (st : T * Z) k =>
      let (t, rk) := st in
      let! k1 := index k 0 in
      let! k2 := index k 1 in
      let! k3 := index k 2 in
      let! pp := prime_at pair_rank in
      let! p1 := prime_at k1 in
      let! p2 := prime_at k2 in
      let! p3 := prime_at k3 in
      let product := wrapping_mul_i32
          (wrapping_mul_i32 (wrapping_mul_i32 (wrapping_pow_i32 pp 2) p1) p2) p3 in
      let! rp := rank_at pair_rank in
      Ret (insert_unsuited product (MPair (PokerHandRank rk) rp) t,
           wrapping_add_i16 rk 1)) st)
    (rev INT_RANKS) (t, wrapping_add_i16 WORST_TWO_PAIR 1) in
  Ret (fst st).

(** src/evaluate/lookup_table.rs:169-326 [multiples] *)
Definition multiples (t : T) : outcome T :=
  let! t := table_quads t in
  let! t := table_full_houses t in
  let! t := table_trips t in
  let! t := table_two_pairs t in
  table_pairs t.

(** src/evaluate/lookup_table.rs:33-34 *)
Definition build (t : T) : outcome T :=
  let! t := flushes_straights_high_cards t in
  multiples t.
End building.

(** src/evaluate/lookup_table.rs:28-36 [LookupTable::new] (capacities are only hints) *)
Definition lookup_table_new : outcome lookup_table :=
  build insert_flush insert_unsuited (mk_lookup_table map_empty map_empty).
