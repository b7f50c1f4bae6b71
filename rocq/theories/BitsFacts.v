(** BitsFacts.v: [BitSequence::get_next] (src/evaluate/utils.rs:75-82) yields the next larger
    pattern with the same number of ones (C37). *)
From Coq Require Import Lia List Arith Bool ZArith Sorted.
From Verif Require Import Base BaseFacts ModelCard ModelEval ModelTable SpecTable.
Import ListNotations.
Local Open Scope Z_scope.

Definition p2 (n : nat) : Z := 2 ^ Z.of_nat n.
Lemma p2_0 : p2 0 = 1. Proof. reflexivity. Qed.
Lemma p2_S n : p2 (S n) = 2 * p2 n.
Proof. unfold p2. rewrite Nat2Z.inj_succ, Z.pow_succ_r by lia. reflexivity. Qed.
Lemma p2_pos n : 0 < p2 n.
Proof. unfold p2. apply Z.pow_pos_nonneg; lia. Qed.
Lemma p2_add a b : p2 (a + b)%nat = p2 a * p2 b.
Proof. unfold p2. rewrite Nat2Z.inj_add, Z.pow_add_r by lia. reflexivity. Qed.

(** ** Counting ones *)
Lemma ones_double x : 0 <= x -> ones (2 * x) = ones x.
Proof. intros H. destruct x; [reflexivity|reflexivity|lia]. Qed.
Lemma ones_double_1 x : 0 <= x -> ones (2 * x + 1) = S (ones x).
Proof. intros H. destruct x; [reflexivity|reflexivity|lia]. Qed.

Lemma halve r : 0 <= r -> exists r' b, r = 2 * r' + b /\ (b = 0 \/ b = 1) /\ 0 <= r'.
Proof.
  intros H. exists (r / 2), (r mod 2). pose proof (Z.div_mod r 2 ltac:(lia)).
  pose proof (Z.mod_pos_bound r 2 ltac:(lia)). repeat split; try lia; try (apply Z.div_pos; lia).
Qed.

Lemma ones_split n : forall a r, 0 <= a -> 0 <= r < p2 n -> ones (a * p2 n + r) = (ones a + ones r)%nat.
Proof.
  induction n as [|n IH]; intros a r Ha Hr.
  - rewrite p2_0 in *. replace r with 0 by lia. rewrite Z.mul_1_r, Z.add_0_r. cbn [ones]. lia.
  - rewrite p2_S in *. destruct (halve r) as (r' & b & -> & Hb & Hr'); [lia|].
    assert (B : 0 <= r' < p2 n) by lia. pose proof (p2_pos n).
    assert (0 <= a * p2 n + r') by nia.
    destruct Hb as [->| ->].
    + rewrite Z.add_0_r. replace (a * (2 * p2 n) + 2 * r') with (2 * (a * p2 n + r')) by ring.
      rewrite !ones_double by lia. apply IH; lia.
    + replace (a * (2 * p2 n) + (2 * r' + 1)) with (2 * (a * p2 n + r') + 1) by ring.
      rewrite !ones_double_1 by lia. rewrite IH by lia. lia.
Qed.
Lemma ones_full k : ones (p2 k - 1) = k.
Proof.
  induction k as [|k IH]; [reflexivity|]. rewrite p2_S. pose proof (p2_pos k).
  replace (2 * p2 k - 1) with (2 * (p2 k - 1) + 1) by ring. rewrite ones_double_1 by lia. rewrite IH. reflexivity.
Qed.
Lemma ones_lt k : forall s, 0 <= s < p2 k - 1 -> (ones s < k)%nat.
Proof.
  induction k as [|k IH]; intros s H; [rewrite p2_0 in H; lia|]. rewrite p2_S in H.
  destruct (halve s) as (s' & b & -> & Hb & Hs'); [lia|]. destruct Hb as [->| ->].
  - rewrite Z.add_0_r, ones_double by lia. destruct (Z.eq_dec s' (p2 k - 1)) as [->|N].
    + rewrite ones_full. lia.
    + specialize (IH s' ltac:(lia)). lia.
  - rewrite ones_double_1 by lia. specialize (IH s' ltac:(lia)). lia.
Qed.
Lemma ones_pos_pos p : (0 < ones_pos p)%nat.
Proof. induction p; cbn [ones_pos]; lia. Qed.
Lemma ones_positive s : 0 < s -> (0 < ones s)%nat.
Proof. destruct s as [|p|p]; [lia| |lia]. intros _. apply ones_pos_pos. Qed.
Lemma ones_shift a n : 0 <= a -> ones (a * p2 n) = ones a.
Proof. intros H. pose proof (p2_pos n). rewrite <- (Z.add_0_r (a * p2 n)), ones_split by lia. cbn [ones]. lia. Qed.

(** ** Every positive number is [a 0 1^(k+1) 0^z] in binary *)
Lemma decompose b : 0 < b -> exists a k z, 0 <= a /\
  b = (a * p2 (S (S k)) + (p2 (S k) - 1)) * p2 z /\ trailing_zeros_i16 b = Z.of_nat z.
Proof.
  intros H. destruct b as [|p|p]; [lia| |lia]. clear H.
  assert (O : forall q, exists a k, 0 <= a /\ Zpos q~1 = a * p2 (S (S k)) + (p2 (S k) - 1)).
  { induction q as [q (a & k & Ha & E)|q _|].
    - exists a, (S k). split; [exact Ha|]. rewrite Pos2Z.inj_xI, E, !p2_S. ring.
    - exists (Zpos q), 0%nat. split; [lia|]. rewrite Pos2Z.inj_xI, (Pos2Z.inj_xO q), !p2_S, p2_0. ring.
    - exists 0, 1%nat. split; [lia|reflexivity]. }
  induction p as [q _|q (a & k & z & Ha & E & T)|].
  - destruct (O q) as (a & k & Ha & E). exists a, k, 0%nat. split; [exact Ha|].
    rewrite p2_0, Z.mul_1_r. split; [exact E|reflexivity].
  - exists a, k, (S z). split; [exact Ha|]. split.
    + rewrite (Pos2Z.inj_xO q), E, (p2_S z). ring.
    + cbn [trailing_zeros_i16 pos_trailing_zeros] in *. lia.
  - exists 0, 0%nat, 0%nat. split; [lia|]. split; reflexivity.
Qed.

(** ** The successor in unbounded integers *)
Definition succ_of (a : Z) (k z : nat) : Z :=
  a * p2 (S (S k) + z) + p2 (S k + z) + (p2 k - 1).

Lemma succ_minimal a k z b : 0 <= a -> b = (a * p2 (S (S k)) + (p2 (S k) - 1)) * p2 z ->
  next_pattern b (succ_of a k z).
Proof.
  intros Ha ->.
  assert (Eb : (a * p2 (S (S k)) + (p2 (S k) - 1)) * p2 z
               = a * p2 (S (S k) + z) + (p2 (S k) - 1) * p2 z) by (rewrite p2_add; ring).
  rewrite Eb. pose proof (p2_pos k) as Pk. pose proof (p2_pos z) as Pz.
  assert (Ek : p2 (S k + z) = 2 * p2 k * p2 z) by (rewrite p2_add, p2_S; ring).
  assert (Ekk : p2 (S (S k) + z) = 2 * p2 (S k + z)) by (rewrite <- p2_S; reflexivity).
  assert (Pkz : 0 < p2 k * p2 z) by nia.
  assert (Le : p2 k - 1 < p2 (S k + z)) by nia.
  assert (Ob : ones (a * p2 (S (S k) + z) + (p2 (S k) - 1) * p2 z) = (ones a + S k)%nat).
  { rewrite ones_split; [|exact Ha|rewrite Ekk, Ek, p2_S; nia]. f_equal.
    rewrite ones_shift by (rewrite p2_S; lia). apply ones_full. }
  assert (low : forall s, 0 <= s < p2 (S k + z) ->
    ones (a * p2 (S (S k) + z) + p2 (S k + z) + s) = (ones a + S (ones s))%nat).
  { intros s Hs. rewrite <- Z.add_assoc. rewrite ones_split; [|exact Ha|lia]. f_equal.
    replace (p2 (S k + z) + s) with (1 * p2 (S k + z) + s) by ring.
    rewrite ones_split; [reflexivity|lia|exact Hs]. }
  unfold next_pattern, succ_of. split; [|split].
  - rewrite Ek, p2_S. nia.
  - rewrite Ob, low by lia. rewrite ones_full. lia.
  - intros c [L U]. rewrite Ob.
    destruct (Z_lt_ge_dec c (a * p2 (S (S k) + z) + p2 (S k + z))) as [C|C].
    + set (s := c - (a * p2 (S (S k) + z) + (p2 (S k) - 1) * p2 z)).
      assert (Hs : 0 < s < p2 z) by (unfold s; rewrite Ek, p2_S in *; nia).
      replace c with (a * p2 (S (S k) + z) + ((p2 (S k) - 1) * p2 z + s)) by (unfold s; ring).
      rewrite ones_split; [|exact Ha|rewrite Ekk, Ek, p2_S; nia].
      rewrite ones_split; [|rewrite p2_S; lia|lia]. rewrite ones_full.
      pose proof (ones_positive s). lia.
    + set (s := c - (a * p2 (S (S k) + z) + p2 (S k + z))).
      assert (Hs : 0 <= s < p2 k - 1) by (unfold s; lia).
      replace c with (a * p2 (S (S k) + z) + p2 (S k + z) + s) by (unfold s; ring).
      rewrite low by lia. pose proof (ones_lt k s Hs). lia.
Qed.

(** ** The bit tricks *)
Lemma bits_split a n r i : 0 <= r < p2 n -> 0 <= i ->
  Z.testbit (a * p2 n + r) i = if i <? Z.of_nat n then Z.testbit r i else Z.testbit a (i - Z.of_nat n).
Proof.
  intros Hr Hi. unfold p2 in *. destruct (Z.ltb_spec i (Z.of_nat n)) as [L|L].
  - rewrite <- (Z.mod_pow2_bits_low (a * 2 ^ Z.of_nat n + r) (Z.of_nat n) i) by lia.
    rewrite Z.add_comm, Z.mod_add by lia. apply Z.mod_pow2_bits_low. lia.
  - replace i with ((i - Z.of_nat n) + Z.of_nat n) at 1 by ring.
    rewrite <- Z.div_pow2_bits by lia. rewrite Z.div_add_l by lia.
    rewrite Z.div_small by lia. rewrite Z.add_0_r. reflexivity.
Qed.
Lemma bits_full n i : 0 <= i -> Z.testbit (p2 n - 1) i = (i <? Z.of_nat n).
Proof.
  intros Hi. unfold p2. replace (2 ^ Z.of_nat n - 1) with (Z.ones (Z.of_nat n)).
  - destruct (Z.ltb_spec i (Z.of_nat n)).
    + apply Z.ones_spec_low. lia.
    + apply Z.ones_spec_high. lia.
  - rewrite Z.ones_equiv. lia.
Qed.

Lemma lor_disjoint a n r : 0 <= r < p2 n -> Z.lor (a * p2 n) r = a * p2 n + r.
Proof.
  intros Hr. apply Z.bits_inj'. intros i Hi. rewrite Z.lor_spec.
  rewrite (bits_split a n r i Hr Hi).
  replace (a * p2 n) with (a * p2 n + 0) by ring. pose proof (p2_pos n).
  rewrite (bits_split a n 0 i) by lia. destruct (Z.ltb_spec i (Z.of_nat n)) as [L|L].
  - rewrite Z.bits_0. reflexivity.
  - destruct (Z.eq_dec r 0) as [->|N]; [rewrite Z.bits_0; apply orb_false_r|].
    rewrite (Z.bits_above_log2 r i); [apply orb_false_r|lia|].
    apply Z.log2_lt_pow2; [lia|]. unfold p2 in Hr.
    apply Z.lt_le_trans with (2 ^ Z.of_nat n); [lia|]. apply Z.pow_le_mono_r; lia.
Qed.

(** [x | (x - 1)] fills the trailing zeros. *)
Lemma lor_pred y z : 0 <= y -> Z.lor ((2 * y + 1) * p2 z) ((2 * y + 1) * p2 z - 1) = (2 * y + 1) * p2 z + (p2 z - 1).
Proof.
  intros Hy. pose proof (p2_pos z).
  replace ((2 * y + 1) * p2 z - 1) with (y * p2 (S z) + (p2 z - 1)) by (rewrite p2_S; ring).
  replace ((2 * y + 1) * p2 z + (p2 z - 1)) with (y * p2 (S z) + (p2 (S z) - 1)) by (rewrite p2_S; ring).
  replace ((2 * y + 1) * p2 z) with (y * p2 (S z) + (1 * p2 z + 0)) by (rewrite p2_S; ring).
  apply Z.bits_inj'. intros i Hi. rewrite Z.lor_spec.
  rewrite !bits_split by (rewrite ?p2_S; lia). rewrite !bits_full by lia.
  destruct (Z.ltb_spec i (Z.of_nat (S z))) as [L|L].
  - destruct (Z.ltb_spec i (Z.of_nat z)) as [L'|L'].
    + rewrite Z.bits_0. reflexivity.
    + replace (i - Z.of_nat z) with 0 by lia. reflexivity.
  - rewrite orb_diag. reflexivity.
Qed.

(** [!x & -!x] is the lowest zero bit of [x]. *)
Lemma lowest_zero a n : 0 <= a ->
  Z.land (Z.lnot (a * p2 (S n) + (p2 n - 1))) (- Z.lnot (a * p2 (S n) + (p2 n - 1))) = p2 n.
Proof.
  intros Ha. pose proof (p2_pos n).
  replace (- Z.lnot (a * p2 (S n) + (p2 n - 1))) with (a * p2 (S n) + (1 * p2 n + 0)).
  2:{ unfold Z.lnot. rewrite Z.opp_pred. ring_simplify. lia. }
  apply Z.bits_inj'. intros i Hi. rewrite Z.land_spec, Z.lnot_spec by exact Hi.
  rewrite !bits_split by (rewrite ?p2_S; lia). rewrite bits_full by exact Hi.
  unfold p2. rewrite Z.pow2_bits_eqb by lia.
  destruct (Z.ltb_spec i (Z.of_nat (S n))) as [L|L].
  - destruct (Z.ltb_spec i (Z.of_nat n)) as [L'|L'].
    + cbn [negb andb]. symmetry. apply Z.eqb_neq. lia.
    + replace (i - Z.of_nat n) with 0 by lia. cbn. symmetry. apply Z.eqb_eq. lia.
  - rewrite andb_negb_l. symmetry. apply Z.eqb_neq. lia.
Qed.

Lemma shift_full k z : Z.shiftr (p2 (S k + z) - 1) (Z.of_nat z + 1) = p2 k - 1.
Proof.
  apply Z.bits_inj'. intros i Hi. rewrite Z.shiftr_spec by exact Hi. rewrite !bits_full by lia.
  destruct (Z.ltb_spec i (Z.of_nat k)), (Z.ltb_spec (i + (Z.of_nat z + 1)) (Z.of_nat (S k + z))); lia || reflexivity.
Qed.

Lemma small_i16 z : -32768 <= z < 32768 -> wrap_i16 z = z.
Proof.
  intros H. unfold wrap_i16, in_i16.
  destruct (Z.leb_spec (-32768) z), (Z.ltb_spec z 32768); try lia. reflexivity.
Qed.

Lemma p2_bound n : p2 n < 32768 -> (n < 15)%nat.
Proof.
  intros H. destruct (le_lt_dec 15 n) as [L|L]; [|exact L]. exfalso.
  replace n with (15 + (n - 15))%nat in H by lia. rewrite p2_add in H.
  pose proof (p2_pos (n - 15)). change (p2 15) with 32768 in H. lia.
Qed.

Lemma get_next_succ a k z b t nb : 0 <= a ->
  b = (a * p2 (S (S k)) + (p2 (S k) - 1)) * p2 z -> trailing_zeros_i16 b = Z.of_nat z ->
  succ_of a k z < 32768 ->
  exists g, get_next (mk_bit_sequence b t nb) = Ret (succ_of a k z, g) /\ bs_bits g = succ_of a k z.
Proof.
  intros Ha Eb Tz U. pose proof (p2_pos k) as Pk. pose proof (p2_pos z) as Pz.
  assert (Ek : p2 (S k + z) = 2 * p2 k * p2 z) by (rewrite p2_add, p2_S; ring).
  assert (Ekk : p2 (S (S k) + z) = 2 * p2 (S k + z)) by (rewrite <- p2_S; reflexivity).
  assert (Pkz : 0 < p2 k * p2 z) by nia.
  assert (T : Z.lor b (b - 1) = a * p2 (S (S k + z)) + (p2 (S k + z) - 1)).
  { rewrite Eb. replace (a * p2 (S (S k)) + (p2 (S k) - 1)) with (2 * (a * p2 (S k) + (p2 k - 1)) + 1)
      by (rewrite !p2_S; ring).
    rewrite lor_pred; [|rewrite p2_S; nia].
    change (S (S k + z)) with (S (S k) + z)%nat. rewrite Ekk, Ek, !p2_S. ring. }
  unfold succ_of in U. cbn [Nat.add] in *.
  assert (Hb : 0 < b /\ b < 32768).
  { rewrite Eb. rewrite !p2_S in *. nia. }
  assert (A0 : 0 <= a * p2 (S (S (k + z)))) by (pose proof (p2_pos (S (S (k + z)))); nia).
  pose proof (p2_pos (S (k + z))) as P1.
  unfold get_next. cbn [bs_bits]. unfold wrapping_sub_i16, wrapping_add_i16, wrapping_neg_i16.
  rewrite (small_i16 (b - 1)) by lia. rewrite T.
  set (x := a * p2 (S (S (k + z))) + (p2 (S (k + z)) - 1)).
  assert (Hx : 0 <= x < 32767) by (unfold x; lia).
  rewrite (small_i16 (x + 1)) by lia.
  assert (Nx : Z.lnot x = - x - 1) by (unfold Z.lnot; lia).
  rewrite (small_i16 (- Z.lnot x)) by lia.
  assert (Lz : Z.land (Z.lnot x) (- Z.lnot x) = p2 (S (k + z))) by (apply lowest_zero; exact Ha).
  rewrite Lz, (small_i16 (p2 (S (k + z)) - 1)) by lia. rewrite Tz.
  assert (Bz : (S (k + z) < 15)%nat) by (apply p2_bound; lia).
  unfold shr_i16. replace (0 <=? Z.of_nat z + 1) with true by (symmetry; apply Z.leb_le; lia).
  replace (Z.of_nat z + 1 <? 16) with true by (symmetry; apply Z.ltb_lt; lia). cbn [andb bind].
  change (S (k + z)) with (S k + z)%nat. rewrite shift_full.
  assert (R : Z.lor (x + 1) (p2 k - 1) = succ_of a k z).
  { unfold x, succ_of. cbn [Nat.add].
    replace (a * p2 (S (S (k + z))) + (p2 (S (k + z)) - 1) + 1)
      with (((2 * a + 1) * p2 (S z)) * p2 k).
    2:{ rewrite Ekk, Ek, (p2_S z). ring. }
    rewrite lor_disjoint by lia. rewrite Ekk, Ek, (p2_S z). ring. }
  rewrite R. eexists. split; [reflexivity|reflexivity].
Qed.

Theorem get_next_correct g : 0 < bs_bits g ->
  (exists c, bs_bits g < c < 32768 /\ ones c = ones (bs_bits g)) ->
  exists v g', get_next g = Ret (v, g') /\ bs_bits g' = v /\ v < 32768 /\ next_pattern (bs_bits g) v.
Proof.
  intros H (c & Hc & Oc). destruct g as [b t nb]. cbn [bs_bits] in *.
  destruct (decompose b H) as (a & k & z & Ha & Eb & Tz).
  pose proof (succ_minimal a k z b Ha Eb) as M. pose proof M as (M1 & M2 & M3).
  assert (U : succ_of a k z < 32768).
  { destruct (Z_lt_ge_dec c (succ_of a k z)) as [L|L]; [|lia]. exfalso. apply (M3 c); [lia|exact Oc]. }
  destruct (get_next_succ a k z b t nb Ha Eb Tz U) as (g' & E & Eg).
  exists (succ_of a k z), g'. auto.
Qed.

(** ** The patterns used for the flush table *)
Definition five_ones (v : Z) : bool := (ones v =? 5)%nat.
Definition later_patterns : list Z := filter five_ones (map Z.of_nat (seq 32 (Z.to_nat 8160))).

Lemma patterns_ok : match patterns 1286 (bit_sequence_new 31) with
                    | Ret l => if list_eq_dec Z.eq_dec l later_patterns then true else false
                    | _ => false
                    end = true.
Proof. vm_compute. reflexivity. Qed.

Lemma seq_sorted n : forall a, StronglySorted Z.lt (map Z.of_nat (seq a n)).
Proof.
  induction n as [|n IH]; intros a; cbn [seq map]; constructor; [apply IH|].
  apply Forall_forall. intros z Hz. apply in_map_iff in Hz. destruct Hz as (m & <- & Hm).
  apply in_seq in Hm. lia.
Qed.
Lemma filter_sorted {A} (R : A -> A -> Prop) P l : StronglySorted R l -> StronglySorted R (filter P l).
Proof.
  induction 1 as [|x l S IH F]; cbn [filter]; [constructor|]. destruct (P x); [|exact IH].
  constructor; [exact IH|]. rewrite Forall_forall in *. intros y Hy. apply filter_In in Hy. apply F, Hy.
Qed.

Theorem all_patterns : exists l, patterns 1286 (bit_sequence_new 31) = Ret l
  /\ StronglySorted Z.lt l
  /\ forall v, In v l <-> 31 < v < 8192 /\ ones v = 5%nat.
Proof.
  pose proof patterns_ok as H. destruct (patterns 1286 (bit_sequence_new 31)) as [l| |]; [|discriminate H|discriminate H].
  destruct (list_eq_dec Z.eq_dec l later_patterns) as [->|]; [|discriminate H].
  exists later_patterns. split; [reflexivity|]. split; [apply filter_sorted, seq_sorted|].
  intros v. unfold later_patterns. rewrite filter_In, in_map_iff. unfold five_ones. rewrite Nat.eqb_eq. split.
  - intros [(n & <- & Hn) O]. apply in_seq in Hn. split; [lia|exact O].
  - intros [Hv O]. split; [|exact O]. exists (Z.to_nat v). split; [lia|]. apply in_seq. lia.
Qed.
