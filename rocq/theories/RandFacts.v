(** RandFacts.v: rand's indices are unbiased, and so are its shuffles. *)
From Coq Require Import Lia List Arith Permutation ZArith.
From Verif Require Import Base BaseFacts ModelCard ModelEval ModelTable ModelEvaluation ModelRand Spec SpecApi SpecRand.
From Verif Require Import ShuffleFacts DrawFacts.
Import ListNotations.
Local Open Scope Z_scope.

(** ** One index *)
Lemma copies_lz W r : 0 < W -> 0 < r < 2 ^ W -> copies W r (2 ^ leading_zeros W r) /\ 0 <= leading_zeros W r.
Proof.
  intros HW Hr. unfold copies, leading_zeros. pose proof (Z.log2_spec r (proj1 Hr)) as [A B].
  pose proof (Z.log2_nonneg r) as N.
  assert (L : Z.log2 r < W) by (apply Z.log2_lt_pow2; lia).
  assert (E : 2 ^ W / 2 = 2 ^ (W - 1)).
  { replace W with (Z.succ (W - 1)) at 1 by lia. rewrite Z.pow_succ_r by lia. rewrite Z.mul_comm. apply Z.div_mul. lia. }
  assert (P : 0 < 2 ^ (W - 1 - Z.log2 r)) by (apply Z.pow_pos_nonneg; lia).
  assert (E1 : 2 ^ (W - 1) = 2 ^ Z.log2 r * 2 ^ (W - 1 - Z.log2 r)) by (rewrite <- Z.pow_add_r by lia; f_equal; lia).
  assert (E2 : 2 ^ W = 2 ^ Z.succ (Z.log2 r) * 2 ^ (W - 1 - Z.log2 r)) by (rewrite <- Z.pow_add_r by lia; f_equal; lia).
  split; [|lia]. exists (W - 1 - Z.log2 r). split; [lia|]. split; [reflexivity|]. rewrite E, E1, E2. nia.
Qed.
Lemma copies_fun W r c d : 0 < W -> 0 < r -> copies W r c -> copies W r d -> c = d.
Proof.
  intros HW Hr (k & Hk & -> & A) (m & Hm & -> & B).
  assert (E : 2 ^ W = 2 * (2 ^ W / 2)).
  { apply Z.div_exact; [lia|]. replace W with (Z.succ (W - 1)) by lia. rewrite Z.pow_succ_r by lia.
    rewrite Z.mul_comm. apply Z.mod_mul. lia. }
  assert (K : forall k m, 0 <= k -> 0 <= m -> 2 ^ W / 2 <= r * 2 ^ k -> r * 2 ^ m < 2 ^ W -> m <= k).
  { clear k m Hk A Hm B. intros k m Hk Hm A B. apply Z.nlt_ge. intros X.
    assert (2 ^ m = 2 * 2 ^ k * 2 ^ (m - k - 1)).
    { rewrite <- Z.pow_succ_r, <- Z.pow_add_r by lia. f_equal. lia. }
    assert (0 < 2 ^ (m - k - 1)) by (apply Z.pow_pos_nonneg; lia). 
    assert (0 < 2 ^ k) by (apply Z.pow_pos_nonneg; lia).
    assert (2 * 2 ^ k <= 2 ^ m) by (rewrite H; nia). nia. }
  assert (k = m) by (apply Z.le_antisymm; [apply (K m k)|apply (K k m)]; tauto). subst m. reflexivity.
Qed.
Lemma zone_copies W r c : 0 < W -> 0 < r < 2 ^ W -> copies W r c -> zone W r = r * c - 1.
Proof.
  intros HW Hr Hc. destruct (copies_lz W r HW Hr) as [Hl N].
  pose proof (copies_fun W r _ _ HW (proj1 Hr) Hc Hl) as ->.
  destruct Hl as (k & Hk & E & B). unfold zone. rewrite Z.shiftl_mul_pow2 by exact N.
  set (m := r * 2 ^ leading_zeros W r) in *. assert (0 < 2 ^ W / 2 \/ 2 ^ W / 2 = 0) by lia.
  rewrite (Z.mod_small m) by lia. apply Z.mod_small.
  assert (0 < m); [|lia]. unfold m. assert (0 < 2 ^ leading_zeros W r) by (apply Z.pow_pos_nonneg; lia). nia.
Qed.
Lemma sample_iff W r c v j : 0 < W -> 0 < r < 2 ^ W -> copies W r c -> word_of W v ->
  (sample W r v = Some j <-> 2 ^ W * j <= v * r < 2 ^ W * j + r * c).
Proof.
  intros HW Hr Hc Hv. unfold sample. rewrite (zone_copies W r c HW Hr Hc).
  assert (P : 0 < 2 ^ W) by (apply Z.pow_pos_nonneg; lia).
  pose proof (Z.div_mod (v * r) (2 ^ W) ltac:(lia)) as D. pose proof (Z.mod_pos_bound (v * r) (2 ^ W) P) as M.
  assert (B : r * c < 2 ^ W) by (destruct Hc as (k & _ & _ & B); lia).
  destruct (Z.leb_spec ((v * r) mod 2 ^ W) (r * c - 1)) as [H|H].
  - split; [intros X; injection X as <-; lia|]. intros X. f_equal. symmetry. apply (Z.div_unique_pos _ _ _ (v * r - 2 ^ W * j)); lia.
  - split; [discriminate|]. intros X. exfalso.
    assert (j = v * r / 2 ^ W) by (apply (Z.div_unique_pos _ _ _ (v * r - 2 ^ W * j)); lia). subst j. lia.
Qed.
Lemma sample_range W r v j : 0 < W -> 0 < r < 2 ^ W -> word_of W v -> sample W r v = Some j -> 0 <= j < r.
Proof.
  intros HW Hr [V0 V1]. unfold sample. destruct (_ <=? _); [|discriminate]. intros X. injection X as <-.
  assert (P : 0 < 2 ^ W) by (apply Z.pow_pos_nonneg; lia).
  split; [apply Z.div_pos; nia|]. apply Z.div_lt_upper_bound; nia.
Qed.

(** Each index comes from the same number of words. *)
Definition words_for (W r c j : Z) : list Z :=
  map (fun i => (2 ^ W * j + r - 1) / r + Z.of_nat i) (seq 0 (Z.to_nat c)).
Theorem index_unbiased W r c j : 0 < W -> 0 < r < 2 ^ W -> copies W r c -> 0 <= j < r -> exists L,
  NoDup L /\ Z.of_nat (length L) = c /\ forall v, In v L <-> word_of W v /\ sample W r v = Some j.
Proof.
  intros HW Hr Hc Hj. assert (P : 0 < 2 ^ W) by (apply Z.pow_pos_nonneg; lia).
  assert (C : 0 < c /\ r * c < 2 ^ W).
  { destruct Hc as (k & Hk & -> & B). split; [apply Z.pow_pos_nonneg; lia|lia]. }
  exists (words_for W r c j). unfold words_for. split; [|split].
  - apply FinFun.Injective_map_NoDup; [intros a b E; lia|apply seq_NoDup].
  - rewrite map_length, seq_length. lia.
  - set (v0 := (2 ^ W * j + r - 1) / r).
    pose proof (Z.div_mod (2 ^ W * j + r - 1) r ltac:(lia)) as D. fold v0 in D.
    pose proof (Z.mod_pos_bound (2 ^ W * j + r - 1) r ltac:(lia)) as M.
    intros v. rewrite in_map_iff. split.
    + intros (i & <- & Hi). apply in_seq in Hi.
      assert (V : word_of W (v0 + Z.of_nat i)).
      { split; [assert (0 <= v0) by (apply Z.div_pos; nia); lia|].
        assert (r * v0 < 2 ^ W * j + r) by lia.
        assert ((v0 + Z.of_nat i) * r < 2 ^ W * r); [|nia].
        assert (Z.of_nat i * r <= (c - 1) * r) by nia. nia. }
      split; [exact V|]. apply (sample_iff W r c _ j HW Hr Hc V). split; [nia|].
      assert (Z.of_nat i * r <= (c - 1) * r) by nia. nia.
    + intros [V E]. apply (sample_iff W r c _ j HW Hr Hc V) in E.
      assert (A : v0 <= v) by (apply Z.lt_succ_r; apply (Z.mul_lt_mono_pos_l r); lia).
      assert (B : v < v0 + c) by (apply (Z.mul_lt_mono_pos_l r); lia).
      exists (Z.to_nat (v - v0)). split; [lia|]. apply in_seq. lia.
Qed.

(** ** Shuffles *)
Definition words {R} (next : Z -> R -> Z * R) : Prop := forall W rng, word_of W (fst (next W rng)).
Lemma loop_sample {R} (next : Z -> R -> Z * R) W r : words next -> forall fuel rng j rng',
  sample_loop fuel next W r rng = Ret (j, rng') -> exists v, word_of W v /\ sample W r v = Some j.
Proof.
  intros N. induction fuel as [|fuel IH]; intros rng j rng' E; [discriminate E|]. cbn [sample_loop] in E.
  pose proof (N W rng) as V. destruct (next W rng) as [v rng1]. cbn [fst] in V.
  destruct (sample W r v) as [hi|] eqn:S1; [|exact (IH _ _ _ E)].
  injection E as <- <-. exists v. auto.
Qed.
Theorem gen_index_range {R} fuel (next : Z -> R -> Z * R) rng n j rng' : words next -> 0 < n < 2 ^ 64 ->
  gen_index fuel next rng n = Ret (j, rng') -> 0 <= j < n.
Proof.
  intros N Hn E. unfold gen_index in E. destruct (loop_sample next _ n N fuel rng j rng' E) as (v & V & S1).
  destruct (Z.leb_spec n (2 ^ 32 - 1)); eapply sample_range; try exact S1; try exact V; lia.
Qed.

Lemma shuffle_words_from {A R} fuel (next : Z -> R -> Z * R) : words next -> forall i (l d : list A) rng rng',
  Z.of_nat (S i) < 2 ^ 64 -> word_shuffle_from fuel next i l rng = Ret (d, rng') ->
  exists js, answers (S i) js /\ shuffle_from script i l js = Ret (d, []).
Proof.
  intros N. induction i as [|i IH]; intros l d rng rng' B E.
  - cbn in E. injection E as <- <-. exists []. split; reflexivity.
  - cbn [word_shuffle_from] in E.
    destruct (gen_index fuel next rng (Z.of_nat (S (S i)))) as [[j rng1]| |] eqn:G; try discriminate E.
    cbn [bind fst snd] in E. apply gen_index_range in G; [|exact N|lia].
    destruct (swap l (S i) (Z.to_nat j)) as [l'| |] eqn:Sw; try discriminate E. cbn [bind] in E.
    destruct (IH l' d rng1 rng' ltac:(lia) E) as (js & V & E'). exists (Z.to_nat j :: js).
    split; [split; [lia|exact V]|]. cbn [shuffle_from script]. rewrite Sw. exact E'.
Qed.
(** Whatever the words, a shuffle over words is a shuffle over answers. *)
Theorem word_shuffle_answers {A R} fuel (next : Z -> R -> Z * R) (l d : list A) rng rng' : words next ->
  Z.of_nat (length l) < 2 ^ 64 -> word_shuffle fuel next l rng = Ret (d, rng') ->
  exists js, answers (length l) js /\ shuffle script l js = Ret (d, []).
Proof.
  intros N B E. unfold word_shuffle, shuffle in *. destruct l as [|x l].
  - cbn in E. injection E as <- <-. exists []. split; reflexivity.
  - replace (length (x :: l) - 1)%nat with (length l) in * by (cbn; lia).
    exact (shuffle_words_from fuel next N (length l) (x :: l) d rng rng' B E).
Qed.

(** The words of which none is rejected and that give certain answers. *)
Fixpoint picked (n : nat) (js : list nat) (ws : list Z) : Prop :=
  match n, js, ws with
  | S (S _ as n'), j :: js', w :: ws' => word_of 32 w /\ sample 32 (Z.of_nat n) w = Some (Z.of_nat j) /\ picked n' js' ws'
  | S (S _), _, _ => False
  | _, [], [] => True
  | _, _, _ => False
  end.
Lemma picked_count : forall n js c, Z.of_nat n < 2 ^ 32 -> answers n js -> weight n c -> exists L,
  NoDup L /\ Z.of_nat (length L) = c /\ forall ws, In ws L <-> picked n js ws.
Proof.
  induction n as [|n IH]; intros js c B V H.
  { cbn in V. subst js. inversion H; subst. exists [[]]. split; [repeat constructor; intros []|]. split; [reflexivity|].
    intros [|w ws]; cbn; split; try tauto. intros [X|[]]. discriminate X. }
  inversion H as [m Hm Em Ec|m c1 d Hm Hd Hc Em Ec]; subst.
  - assert (n = 0)%nat by lia. subst n. cbn in V. subst js. exists [[]].
    split; [repeat constructor; intros []|]. split; [reflexivity|].
    intros [|w ws]; cbn; split; try tauto. intros [X|[]]. discriminate X.
  - destruct n as [|n]; [lia|]. destruct js as [|j js]; [destruct V|]. destruct V as [Vj V].
    destruct (IH js d ltac:(lia) V Hd) as (L & NL & CL & HL).
    destruct (index_unbiased 32 (Z.of_nat (S (S n))) c1 (Z.of_nat j) ltac:(lia) ltac:(lia) Hc ltac:(lia)) as (K & NK & CK & HK).
    exists (flat_map (fun w => map (cons w) L) K). split; [|split].
    + clear -NL NK. induction NK as [|w K Nw NK IH]; [constructor|]. cbn [flat_map].
      apply SizeFacts.NoDup_app_disj; [|exact IH|].
      * apply FinFun.Injective_map_NoDup; [intros a b E; injection E as E; exact E|exact NL].
      * intros ws H1 H2. apply in_map_iff in H1. destruct H1 as (a & <- & _).
        apply in_flat_map in H2. destruct H2 as (w' & Hw' & H2). apply in_map_iff in H2. destruct H2 as (b & E & _).
        injection E as -> _. contradiction.
    + rewrite <- CK, <- CL. clear. induction K as [|w K IH]; [reflexivity|]. cbn [flat_map length].
      rewrite app_length, map_length. lia.
    + intros ws. rewrite in_flat_map. split.
      * intros (w & Hw & H'). apply in_map_iff in H'. destruct H' as (ws' & <- & H'). apply HK in Hw. apply HL in H'.
        cbn [picked]. tauto.
      * intros P. destruct ws as [|w ws]; [destruct P|]. destruct P as (P1 & P2 & P3). exists w.
        split; [apply HK; auto|]. apply in_map, HL. exact P3.
Qed.
Lemma prepared_step fuel w ws n : n < 2 ^ 32 -> gen_index (S fuel) prepared (w :: ws) n
  = match sample 32 n w with Some j => Ret (j, ws) | None => sample_loop fuel prepared 32 n ws end.
Proof.
  intros H. unfold gen_index. replace (n <=? 2 ^ 32 - 1) with true by (symmetry; apply Z.leb_le; lia). reflexivity.
Qed.
Lemma picked_shuffle {A} : forall i (l d : list A) ws, Z.of_nat (S i) < 2 ^ 32 -> length ws = i -> Forall (word_of 32) ws ->
  (word_shuffle_from 1 prepared i l ws = Ret (d, [])
   <-> exists js, answers (S i) js /\ picked (S i) js ws /\ shuffle_from script i l js = Ret (d, [])).
Proof.
  induction i as [|i IH]; intros l d ws B Lw F.
  - destruct ws; [|discriminate Lw]. cbn. split.
    + intros E. injection E as <-. exists []. auto.
    + intros (js & -> & _ & E). injection E as <-. reflexivity.
  - destruct ws as [|w ws]; [discriminate Lw|]. injection Lw as Lw. inversion F as [|? ? Fw Fs]; subst.
    cbn [word_shuffle_from]. rewrite prepared_step by lia.
    destruct (sample 32 (Z.of_nat (S (S (length ws)))) w) as [j|] eqn:S1.
    + cbn [bind fst snd]. pose proof (sample_range 32 (Z.of_nat (S (S (length ws)))) w j ltac:(lia) ltac:(lia) Fw S1) as Rj. split.
      * destruct (swap l (S (length ws)) (Z.to_nat j)) as [l'| |] eqn:Sw; try discriminate. cbn [bind]. intros E.
        apply IH in E; [|lia|reflexivity|exact Fs]. destruct E as (js & V & P & E). exists (Z.to_nat j :: js).
        split; [split; [lia|exact V]|]. split.
        -- cbn [picked]. split; [exact Fw|]. split; [|exact P]. rewrite S1. f_equal. lia.
        -- cbn [shuffle_from script]. rewrite Sw. exact E.
      * intros ([|j' js] & V & P & E); [destruct P|]. destruct V as [Vj V]. cbn [picked] in P.
        destruct P as (_ & P1 & P). rewrite S1 in P1. injection P1 as ->. rewrite Nat2Z.id.
        cbn [shuffle_from script] in E. destruct (swap l (S (length ws)) j') as [l'| |]; try discriminate E.
        cbn [bind] in *. apply IH; [lia|reflexivity|exact Fs|]. exists js. auto.
    + cbn [sample_loop bind]. split; [discriminate|]. intros ([|j' js] & V & P & E); [destruct P|].
      cbn [picked] in P. destruct P as (_ & P1 & _). rewrite S1 in P1. discriminate P1.
Qed.
Lemma picked_words : forall n js ws, picked n js ws -> length ws = (n - 1)%nat /\ Forall (word_of 32) ws.
Proof.
  induction n as [|n IH]; intros js ws P; [destruct js, ws; try destruct P; split; [reflexivity|constructor]|].
  destruct n as [|n]; [destruct js, ws; try destruct P; split; [reflexivity|constructor]|].
  destruct js as [|j js]; [destruct P|]. destruct ws as [|w ws]; [destruct P|]. cbn [picked] in P. destruct P as (P1 & _ & P).
  destruct (IH js ws P) as [L F]. split; [cbn in *; lia|constructor; assumption].
Qed.
(** Each order comes from the same number of words. *)
Theorem word_shuffle_fair {A} (l d : list A) c : NoDup l -> Permutation l d -> Z.of_nat (length l) < 2 ^ 32 ->
  weight (length l) c -> exists L, NoDup L /\ Z.of_nat (length L) = c
  /\ forall ws, In ws L <-> length ws = (length l - 1)%nat /\ Forall (word_of 32) ws
                            /\ word_shuffle 1 prepared l ws = Ret (d, []).
Proof.
  intros N P B W. destruct (any_shuffle_fair l d N P) as (js & (V & E) & U).
  destruct (picked_count (length l) js c B V W) as (L & NL & CL & HL). exists L. split; [exact NL|]. split; [exact CL|].
  intros ws. rewrite HL. destruct l as [|x l].
  { cbn in V. subst js. apply Permutation_nil in P. subst d. cbn. split.
    - intros Q. destruct ws; [|destruct Q]. split; [reflexivity|]. split; [constructor|reflexivity].
    - intros (Q & _). destruct ws; [exact I|discriminate Q]. }
  unfold word_shuffle, shuffle in *. replace (length (x :: l) - 1)%nat with (length l) in * by (cbn; lia).
  change (length (x :: l)) with (S (length l)) in *. split.
  - intros Q. destruct (picked_words _ _ _ Q) as [Lw F]. replace (S (length l) - 1)%nat with (length l) in Lw by lia.
    split; [exact Lw|]. split; [exact F|]. apply picked_shuffle; [exact B|exact Lw|exact F|]. exists js. auto.
  - intros (Lw & F & Q). apply picked_shuffle in Q; [|exact B|exact Lw|exact F].
    destruct Q as (js' & V' & Q & E'). rewrite (U js' (conj V' E')). exact Q.
Qed.
Lemma weight_exists n : Z.of_nat n < 2 ^ 32 -> exists c, weight n c /\ 0 < c.
Proof.
  induction n as [|n IH]; intros B; [exists 1; split; [constructor; lia|lia]|].
  destruct n as [|n]; [exists 1; split; [constructor; lia|lia]|].
  destruct (IH ltac:(lia)) as (d & Wd & Pd).
  destruct (copies_lz 32 (Z.of_nat (S (S n))) ltac:(lia) ltac:(lia)) as [C N].
  eexists. split; [constructor; [lia|exact Wd|exact C]|].
  assert (0 < 2 ^ leading_zeros 32 (Z.of_nat (S (S n)))) by (apply Z.pow_pos_nonneg; lia). nia.
Qed.
Theorem indices_unbiased W r : 0 < W -> 0 < r < 2 ^ W -> exists c, copies W r c
  /\ forall j, 0 <= j < r -> exists L, NoDup L /\ Z.of_nat (length L) = c
       /\ forall v, In v L <-> word_of W v /\ sample W r v = Some j.
Proof.
  intros HW Hr. destruct (copies_lz W r HW Hr) as [C _]. eexists. split; [exact C|].
  intros j Hj. exact (index_unbiased W r _ j HW Hr C Hj).
Qed.
Theorem all_orders {A} (l : list A) : NoDup l -> Z.of_nat (length l) < 2 ^ 32 -> exists c,
  weight (length l) c /\ 0 < c
  /\ forall d, Permutation l d -> exists L, NoDup L /\ Z.of_nat (length L) = c
       /\ forall ws, In ws L <-> length ws = (length l - 1)%nat /\ Forall (word_of 32) ws
                                 /\ word_shuffle 1 prepared l ws = Ret (d, []).
Proof.
  intros N B. destruct (weight_exists _ B) as (c & W & P). exists c. split; [exact W|]. split; [exact P|].
  intros d Pd. exact (word_shuffle_fair l d c N Pd B W).
Qed.
