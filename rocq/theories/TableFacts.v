(** TableFacts.v: the contents of the lookup tables (C35). *)
From Coq Require Import Lia List Arith Bool Permutation ZArith.
From Verif Require Import Base BaseFacts ModelCard ModelEval ModelTable ModelEvaluation.
From Verif Require Import Spec SpecApi SpecText SpecTable CardFacts Sweep SweepFacts SpecFacts FiveFacts LawFacts.
Import ListNotations.

(** ** Building commutes with maps of the state that respect insertion *)
Definition map_out {A B} (f : A -> B) (o : outcome A) : outcome B :=
  match o with Ret a => Ret (f a) | Panic p => Panic p | OutOfFuel => OutOfFuel end.

Lemma map_out_foldM {A B X} (f : A -> B) (sa : A -> X -> outcome A) (sb : B -> X -> outcome B) :
  (forall a x, sb (f a) x = map_out f (sa a x)) ->
  forall l a, foldM sb l (f a) = map_out f (foldM sa l a).
Proof.
  intros H l. induction l as [|x l IH]; intros a; cbn [foldM]; [reflexivity|].
  rewrite H. destruct (sa a x) as [a'| |]; cbn [map_out bind]; auto.
Qed.

Lemma map_out_for {T A B} (f : A -> B) (sa : A -> list T -> outcome A) (sb : B -> list T -> outcome B) :
  (forall a x, sb (f a) x = map_out f (sa a x)) ->
  forall fuel c a, for_combinations fuel c sb (f a) = map_out f (for_combinations fuel c sa a).
Proof.
  intros H fuel. induction fuel as [|fuel IH]; intros c a; cbn [for_combinations]; [reflexivity|].
  destruct (combinations_next c) as [[[x|] c']| |]; cbn [bind map_out]; auto.
  rewrite H. destruct (sa a x) as [a'| |]; cbn [map_out bind]; auto.
Qed.

Section hom.
  Context {A B : Type} (fA uA : Z -> meta -> A -> A) (fB uB : Z -> meta -> B -> B) (f : A -> B).
  Context (Hf : forall k m a, fB k m (f a) = f (fA k m a)).
  Context (Hu : forall k m a, uB k m (f a) = f (uA k m a)).

  Definition f1 (p : A * Z) : B * Z := (f (fst p), snd p).
  Definition f2 (p : A * Z * Z) : B * Z * Z := (f1 (fst p), snd p).

  Ltac steps :=
    repeat match goal with
    | |- context [bind ?o _] =>
        lazymatch o with
        | Ret _ => fail
        | _ => destruct o; cbn [bind map_out]; try reflexivity
        end
    end.

  Lemma straight_step_hom a x : straight_step fB uB (f2 a) x = map_out f2 (straight_step fA uA a x).
  Proof using Hf Hu.
    destruct a as [[a r] s]. unfold f2, f1, straight_step. cbn [fst snd].
    steps. cbv zeta. rewrite Hf, Hu. reflexivity.
  Qed.
  Lemma not_straight_step_hom a x :
    not_straight_step fB uB (f2 a) x = map_out f2 (not_straight_step fA uA a x).
  Proof using Hf Hu.
    destruct a as [[a r] s]. unfold f2, f1, not_straight_step. cbn [fst snd].
    steps. cbv zeta. rewrite Hf, Hu. reflexivity.
  Qed.
  Lemma flushes_hom a :
    flushes_straights_high_cards fB uB (f a) = map_out f (flushes_straights_high_cards fA uA a).
  Proof using Hf Hu.
    unfold flushes_straights_high_cards. destruct (gen_not_straights _ _) as [ns| |]; cbn [bind map_out]; auto.
    destruct (chk _ _) as [z| |]; cbn [bind map_out]; auto.
    change (f a, 1%Z, z) with (f2 (a, 1%Z, z)).
    rewrite (map_out_foldM f2 _ _ straight_step_hom).
    destruct (foldM _ STRAIGHTS _) as [[[a' r] s]| |]; cbn [bind map_out]; auto.
    unfold f2 at 1, f1 at 1. cbn [fst snd]. cbv zeta.
    match goal with |- context [foldM (not_straight_step fB uB) ?l (f a', ?x, ?y)] =>
      change (f a', x, y) with (f2 (a', x, y)) end.
    rewrite (map_out_foldM f2 _ _ not_straight_step_hom).
    destruct (foldM _ (rev ns) _) as [[[a2 r2] s2]| |]; cbn [bind map_out]; auto.
  Qed.

  Ltac leaf := intros [a0 r0] x0; cbn [f1 fst snd]; unfold f1; cbn [fst snd]; steps; cbv zeta;
               rewrite Hu; reflexivity.
  Lemma close_hom (L : outcome (B * Z)) (R : outcome (A * Z)) : L = map_out f1 R ->
    (let! st := L in Ret (fst st)) = map_out f (let! st := R in Ret (fst st)).
  Proof. intros ->. destruct R as [[? ?]| |]; reflexivity. Qed.

  Lemma quads_hom a : table_quads uB (f a) = map_out f (table_quads uA a).
  Proof using Hu.
    unfold table_quads. match goal with |- context [(f a, ?x)] => change (f a, x) with (f1 (a, x)) end.
    apply close_hom, map_out_foldM. intros p x. apply map_out_foldM. leaf.
  Qed.
  Lemma full_houses_hom a : table_full_houses uB (f a) = map_out f (table_full_houses uA a).
  Proof using Hu.
    unfold table_full_houses. match goal with |- context [(f a, ?x)] => change (f a, x) with (f1 (a, x)) end.
    apply close_hom, map_out_foldM. intros p x. apply map_out_foldM. leaf.
  Qed.
  Lemma trips_hom a : table_trips uB (f a) = map_out f (table_trips uA a).
  Proof using Hu.
    unfold table_trips. match goal with |- context [(f a, ?x)] => change (f a, x) with (f1 (a, x)) end.
    apply close_hom, map_out_foldM. intros p x. cbv zeta. apply map_out_for. leaf.
  Qed.
  Lemma two_pairs_hom a : table_two_pairs uB (f a) = map_out f (table_two_pairs uA a).
  Proof using Hu.
    unfold table_two_pairs, for_const_combos. match goal with |- context [(f a, ?x)] => change (f a, x) with (f1 (a, x)) end.
    apply close_hom, map_out_for. intros p x. cbv beta.
    destruct (index x 0) as [p1| |]; cbn [bind map_out]; auto.
    destruct (index x 1) as [p2| |]; cbn [bind map_out]; auto.
    apply map_out_foldM. leaf.
  Qed.
  Lemma pairs_hom a : table_pairs uB (f a) = map_out f (table_pairs uA a).
  Proof using Hu.
    unfold table_pairs. match goal with |- context [(f a, ?x)] => change (f a, x) with (f1 (a, x)) end.
    apply close_hom, map_out_foldM. intros p x. cbv zeta. apply map_out_for. leaf.
  Qed.

  Lemma bind_hom (oB : outcome B) (oA : outcome A) kB kA : oB = map_out f oA ->
    (forall a, kB (f a) = map_out f (kA a)) -> bind oB kB = map_out f (bind oA kA).
  Proof. intros -> H. destruct oA; cbn [map_out bind]; [apply H|reflexivity|reflexivity]. Qed.

  Theorem build_hom a : build fB uB (f a) = map_out f (build fA uA a).
  Proof using Hf Hu.
    unfold build, multiples.
    apply bind_hom; [apply flushes_hom|]. intros a1.
    apply bind_hom; [apply quads_hom|]. intros a2.
    apply bind_hom; [apply full_houses_hom|]. intros a3.
    apply bind_hom; [apply trips_hom|]. intros a4.
    apply bind_hom; [apply two_pairs_hom|]. intros a5.
    apply pairs_hom.
  Qed.
End hom.

(** ** The log of insertions *)
Definition from_log (lg : list insertion) : lookup_table :=
  fold_right (fun i t =>
    if ins_flush i then insert_flush (ins_key i) (ins_meta i) t
    else insert_unsuited (ins_key i) (ins_meta i) t)
    (mk_lookup_table map_empty map_empty) lg.

Local Transparent lookup_table_new.
Lemma log_replays : lookup_table_new = map_out from_log insertions.
Proof.
  unfold lookup_table_new, insertions.
  exact (build_hom log_flush log_unsuited insert_flush insert_unsuited from_log
           (fun _ _ _ => eq_refl) (fun _ _ _ => eq_refl) []).
Qed.

Global Opaque lookup_table_new.

Definition log_lengths (o : outcome (list insertion)) : option (Z * Z) :=
  match o with
  | Ret lg => Some (Z.of_nat (length (filter ins_flush lg)),
                    Z.of_nat (length (filter (fun i => negb (ins_flush i)) lg)))
  | _ => None
  end.
Lemma log_counts : log_lengths insertions = Some (1287, 6175)%Z.
Proof. vm_compute. reflexivity. Qed.
Global Opaque insertions.

(** Inserting under different keys only, a map grows by one each time. *)
Definition map_of (l : list insertion) : map_i32 meta :=
  fold_right (fun i m => map_insert (ins_key i) (ins_meta i) m) map_empty l.

Lemma from_log_flush lg : flush_lookup (from_log lg) = map_of (filter ins_flush lg).
Proof.
  induction lg as [|i lg IH]; [reflexivity|]. cbn [from_log fold_right filter].
  fold (from_log lg). destruct (ins_flush i); cbn [insert_flush insert_unsuited flush_lookup]; [|exact IH].
  rewrite IH. reflexivity.
Qed.
Lemma from_log_unsuited lg :
  unsuited_lookup (from_log lg) = map_of (filter (fun i => negb (ins_flush i)) lg).
Proof.
  induction lg as [|i lg IH]; [reflexivity|]. cbn [from_log fold_right filter].
  fold (from_log lg). destruct (ins_flush i); cbn [insert_flush insert_unsuited unsuited_lookup negb]; [exact IH|].
  rewrite IH. reflexivity.
Qed.

Lemma map_of_keys l : incl (map_keys (map_of l)) (map zkey (map ins_key l)).
Proof.
  intros p Hp. destruct (zkey_surj p) as [k <-]. apply map_keys_in in Hp. apply in_map.
  induction l as [|i l IH]; cbn [map_of fold_right] in Hp; [rewrite map_get_empty in Hp; congruence|].
  fold (map_of l) in Hp. destruct (Z.eq_dec (ins_key i) k) as [E|N]; [left; exact E|].
  rewrite map_get_insert_other in Hp by exact N. right. apply IH. exact Hp.
Qed.

Lemma map_of_full l : map_len (map_of l) = length l -> NoDup (map ins_key l).
Proof.
  intros E. apply (NoDup_map_inv zkey). refine (NoDup_incl_NoDup (map_keys_NoDup (map_of l)) _ _).
  - rewrite map_keys_length, E, !map_length. lia.
  - apply map_of_keys.
Qed.

Lemma pairs_NoDup (l : list insertion) :
  NoDup (map ins_key (filter ins_flush l)) ->
  NoDup (map ins_key (filter (fun i => negb (ins_flush i)) l)) ->
  NoDup (map (fun i => (ins_flush i, ins_key i)) l).
Proof.
  induction l as [|i l IH]; intros N1 N2; [constructor|]. cbn [map].
  assert (H : ~ In (ins_flush i, ins_key i) (map (fun i => (ins_flush i, ins_key i)) l)
              /\ NoDup (map ins_key (filter ins_flush l))
              /\ NoDup (map ins_key (filter (fun i => negb (ins_flush i)) l))).
  { cbn [filter] in N1, N2. destruct (ins_flush i) eqn:Ei; cbn [negb map] in N1, N2.
    - inversion_clear N1 as [|? ? H1 H2]. repeat split; auto. intros H. apply H1.
      apply in_map_iff in H. destruct H as (j & E & Hj). injection E as E1 E2.
      rewrite <- E2. apply in_map. apply filter_In. auto.
    - inversion_clear N2 as [|? ? H1 H2]. repeat split; auto. intros H. apply H1.
      apply in_map_iff in H. destruct H as (j & E & Hj). injection E as E1 E2.
      rewrite <- E2. apply in_map. apply filter_In. split; [exact Hj|]. rewrite E1. reflexivity. }
  destruct H as (H1 & H2 & H3). constructor; auto.
Qed.

(** ** Keys are exact products: no multiplication wraps *)
Lemma keys_ok : forallb (fun c => match canon_key c with
                                  | Ret k => (k =? product (snd c))%Z
                                  | _ => false end) canons = true.
Proof. vm_compute. reflexivity. Qed.

Lemma product_perm a b : Permutation a b -> product a = product b.
Proof.
  unfold product. induction 1; cbn [map fold_right]; try congruence. rewrite !Z.mul_assoc. f_equal. apply Z.mul_comm.
Qed.

Local Transparent canons.
Lemma canons_suited_inv rs : In (true, rs) canons -> five_different rs.
Proof.
  intros H. apply in_app_or in H. destruct H as [H|H]; apply in_map_iff in H.
  - destruct H as (m & E & H). injection E as ->. clear -H.
    assert (G : forall n (l : list rank) m, NoDup l -> In m (combs n l) -> NoDup m /\ incl m l /\ length m = n).
    { clear. intros n l. revert n. induction l as [|x l IH]; intros [|n] m N H; cbn [combs] in H.
      - destruct H as [<-|[]]. repeat split; [constructor|intros ? []].
      - destruct H.
      - destruct H as [<-|[]]. repeat split; [constructor|intros ? []].
      - inversion_clear N as [|? ? N1 N2]. apply in_app_or in H. destruct H as [H|H].
        + apply in_map_iff in H. destruct H as (m' & <- & H).
          destruct (IH n m' N2 H) as (A & B & C). repeat split.
          * constructor; [|exact A]. intros X. apply N1. apply B. exact X.
          * intros y [<-|Y]; [left; reflexivity|right; apply B; exact Y].
          * simpl. lia.
        + destruct (IH (S n) m N2 H) as (A & B & C). repeat split; auto.
          intros y Y. right. apply B. exact Y. }
    destruct (G 5 high_to_low rs) as (A & _ & B); [|exact H|split; assumption].
    repeat constructor; simpl; intuition discriminate.
  - destruct H as (m & E & _). discriminate E.
Qed.
Lemma canons_unsuited_inv rs : In (false, rs) canons -> five_dealable rs.
Proof.
  intros H. apply in_app_or in H. destruct H as [H|H]; apply in_map_iff in H.
  - destruct H as (m & E & _). discriminate E.
  - destruct H as (m & E & H). injection E as ->. apply filter_In in H. destruct H as [H Q].
    split.
    + assert (G : forall (l : list rank) n m, In m (multisets l n) -> length m = n).
      { clear. induction l as [|x l IH]; intros n.
        - destruct n as [|n]; intros m H; cbn in H; [destruct H as [<-|[]]; reflexivity|destruct H].
        - induction n as [|n IHn]; intros m H; cbn in H; [destruct H as [<-|[]]; reflexivity|].
          apply in_app_or in H. destruct H as [H|H]; [|apply IH; exact H].
          apply in_map_iff in H. destruct H as (m' & <- & H). simpl. f_equal. apply IHn. exact H. }
      apply (G _ _ _ H).
    + intros r. destruct (in_dec rank_dec r rs) as [I|I].
      * unfold at_most_four in Q. rewrite forallb_forall in Q. apply Nat.leb_le. apply Q. exact I.
      * apply (count_occ_not_In rank_dec) in I. rewrite I. lia.
Qed.
Global Opaque canons.

Section table.
  Context (t : lookup_table) (Ht : lookup_table_new = Ret t).

  Lemma table_sizes :
    Z.of_nat (map_len (flush_lookup t)) = 1287%Z /\ Z.of_nat (map_len (unsuited_lookup t)) = 6175%Z.
  Proof using Ht.
    pose proof (extra_t t Ht) as H. unfold extra in H. cbv zeta in H.
    apply andb_true_iff in H. destruct H as [H H2]. apply andb_true_iff in H. destruct H as [_ H1]. apply Z.eqb_eq in H1, H2. auto.
  Qed.

  Theorem no_overwrite : exists lg, insertions = Ret lg /\ t = from_log lg
    /\ NoDup (map (fun i => (ins_flush i, ins_key i)) lg).
  Proof using Ht.
    pose proof log_replays as R. pose proof log_counts as C. rewrite Ht in R.
    destruct insertions as [lg|p|]; [|discriminate R|discriminate R].
    cbn [map_out] in R. injection R as R. exists lg. split; [reflexivity|]. split; [exact R|].
    destruct table_sizes as [S1 S2]. rewrite R in S1, S2.
    rewrite from_log_flush in S1. rewrite from_log_unsuited in S2.
    unfold log_lengths in C. injection C as C1 C2.
    apply pairs_NoDup; apply map_of_full; lia.
  Qed.

  Lemma key_of c : In c canons -> canon_key c = Ret (product (snd c)).
  Proof.
    clear. intros H. pose proof keys_ok as K. rewrite forallb_forall in K. specialize (K c H).
    destruct (canon_key c) as [k| |]; [|discriminate K|discriminate K].
    apply Z.eqb_eq in K. congruence.
  Qed.

  Lemma entry_canon f k m : entry t f k m <->
    exists c, In c canons /\ fst c = f /\ k = product (snd c) /\ canon_meta t c = Some m.
  Proof using Ht.
    split.
    - intros E. pose proof (extra_t t Ht) as X. unfold extra in X. cbv zeta in X.
      apply andb_true_iff in X. destruct X as [X _]. apply andb_true_iff in X. destruct X as [X _].
      apply andb_true_iff in X. destruct X as [X XU]. apply andb_true_iff in X. destruct X as [_ XF].
      rewrite forallb_forall in XU, XF.
      assert (C : check_entry (unrank_map t) f (zkey k, m) = true).
      { unfold entry, map_get in E. destruct f.
        - apply XF. apply PositiveMap.elements_correct. exact E.
        - apply XU. apply PositiveMap.elements_correct. exact E. }
      clear XU XF. unfold check_entry in C. cbn [fst snd] in C.
      destruct (PositiveMap.find _ (unrank_map t)) as [c|] eqn:F; [|discriminate C].
      apply andb_true_iff in C. destruct C as [C1 C2]. apply Bool.eqb_prop in C1.
      destruct (unrank_inv _ _ _ F) as (Hc & m' & Hm' & Hk).
      rewrite (key_of c Hc) in C2. apply Pos.eqb_eq in C2. apply zkey_inj in C2.
      exists c. split; [exact Hc|]. split; [exact C1|]. split; [symmetry; exact C2|].
      unfold canon_meta. rewrite (key_of c Hc), C1, C2. exact E.
    - intros (c & Hc & <- & -> & M). unfold canon_meta in M. rewrite (key_of c Hc) in M. exact M.
  Qed.

  Lemma suited_entries k : (exists m, entry t true k m) <-> exists rs, five_different rs /\ k = product rs.
  Proof using Ht.
    split.
    - intros [m E]. apply entry_canon in E. destruct E as ([f rs] & Hc & F & K & _).
      cbn [fst snd] in *. subst f. exists rs. split; [|exact K].
      apply canons_suited_inv in Hc. exact Hc.
    - intros (rs & [N L] & ->).
      destruct (combs_complete rank_dec high_to_low 5 rs N (fun r _ => in_high_to_low r) L) as (m & Hm & P).
      destruct (canon_found t Ht (true, m) (in_canons_suited m Hm)) as (x & X & _).
      exists x. apply entry_canon. exists (true, m). split; [apply in_canons_suited; exact Hm|].
      split; [reflexivity|]. split; [apply product_perm; exact P|exact X].
  Qed.

  Lemma unsuited_entries k : (exists m, entry t false k m) <-> exists rs, five_dealable rs /\ k = product rs.
  Proof using Ht.
    split.
    - intros [m E]. apply entry_canon in E. destruct E as ([f rs] & Hc & F & K & _).
      cbn [fst snd] in *. subst f. exists rs. split; [|exact K].
      apply canons_unsuited_inv in Hc. exact Hc.
    - intros (rs & [L Q] & ->).
      destruct (multisets_complete high_to_low 5 rs (fun r _ => in_high_to_low r) L) as (m & Hm & P).
      assert (A : at_most_four m = true).
      { apply forallb_forall. intros r _. apply Nat.leb_le.
        rewrite <- (proj1 (Permutation_count_occ rank_dec rs m) P). apply Q. }
      destruct (canon_found t Ht (false, m) (in_canons_unsuited m Hm A)) as (x & X & _).
      exists x. apply entry_canon. exists (false, m). split; [apply in_canons_unsuited; assumption|].
      split; [reflexivity|]. split; [apply product_perm; exact P|exact X].
  Qed.

  Lemma entry_interval f k m : entry t f k m ->
    (fst (rank_interval (meta_class m)) <= phr (meta_hand_rank m) <= snd (rank_interval (meta_class m)))%Z.
  Proof using Ht.
    intros E. apply entry_canon in E. destruct E as (c & Hc & _ & _ & M).
    pose proof (extra_t t Ht) as X. unfold extra in X. cbv zeta in X.
    apply andb_true_iff in X. destruct X as [X _]. apply andb_true_iff in X. destruct X as [X _].
    apply andb_true_iff in X. destruct X as [X _]. apply andb_true_iff in X. destruct X as [X _].
    apply andb_true_iff in X. destruct X as [_ X].
    rewrite forallb_forall in X. specialize (X c Hc). rewrite M in X.
    apply andb_true_iff in X. destruct X as [X _]. unfold check_range in X.
    destruct (meta_class m); cbn [category category_range nth rank_interval fst snd] in *;
      apply andb_true_iff in X; destruct X as [X1 X2]; apply Z.leb_le in X1, X2; auto.
  Qed.

  Lemma entry_attained z : (1 <= z <= 7462)%Z -> exists f k m, entry t f k m /\ phr (meta_hand_rank m) = z.
  Proof using Ht.
    intros Hz. destruct (canon_rank_attained t Ht z Hz) as (c & m & Hc & M & R).
    exists (fst c), (product (snd c)), m. split; [|exact R]. apply entry_canon. exists c. auto.
  Qed.

  Lemma entry_unique f k m f' k' m' : entry t f k m -> entry t f' k' m' ->
    phr (meta_hand_rank m) = phr (meta_hand_rank m') -> f = f' /\ k = k' /\ m = m'.
  Proof using Ht.
    intros E E' R. apply entry_canon in E. apply entry_canon in E'.
    destruct E as (c & Hc & <- & -> & M), E' as (c' & Hc' & <- & -> & M').
    assert (X := canon_rank_inj t Ht c c' m m' Hc Hc' M M' R). subst c'.
    rewrite M in M'. injection M' as <-. auto.
  Qed.
End table.

Theorem table_contents : exists t, lookup_table_new = Ret t
  /\ (forall k, (exists m, entry t true k m) <-> exists rs, five_different rs /\ k = product rs)
  /\ (forall k, (exists m, entry t false k m) <-> exists rs, five_dealable rs /\ k = product rs)
  /\ Z.of_nat (map_len (flush_lookup t)) = 1287%Z
  /\ Z.of_nat (map_len (unsuited_lookup t)) = 6175%Z.
Proof.
  destruct table_new_ret as [t Ht]. exists t. split; [exact Ht|].
  split; [exact (suited_entries t Ht)|]. split; [exact (unsuited_entries t Ht)|].
  exact (table_sizes t Ht).
Qed.

Theorem table_ranks t : lookup_table_new = Ret t ->
  (forall f k m, entry t f k m ->
     (fst (rank_interval (meta_class m)) <= phr (meta_hand_rank m)
      <= snd (rank_interval (meta_class m)))%Z)
  /\ (forall z, (1 <= z <= 7462)%Z -> exists f k m, entry t f k m /\ phr (meta_hand_rank m) = z)
  /\ (forall f k m f' k' m', entry t f k m -> entry t f' k' m' ->
       phr (meta_hand_rank m) = phr (meta_hand_rank m') -> f = f' /\ k = k' /\ m = m').
Proof.
  intros Ht. split; [exact (entry_interval t Ht)|]. split; [exact (entry_attained t Ht)|].
  exact (entry_unique t Ht).
Qed.

Lemma no_overwriting t : lookup_table_new = Ret t ->
  exists lg, insertions = Ret lg
    /\ NoDup (map (fun i => (ins_flush i, ins_key i)) lg)
    /\ (forall f k m, entry t f k m <-> In (mk_insertion f k m) lg).
Proof.
  intros Ht. destruct (no_overwrite t Ht) as (lg & L & E & N). exists lg.
  split; [exact L|]. split; [exact N|]. intros f k m. rewrite E. clear E L Ht t. unfold entry.
  rewrite from_log_flush, from_log_unsuited.
  transitivity (In (mk_insertion f k m)
    (filter (fun i => Bool.eqb (ins_flush i) f) lg)).
  2:{ rewrite filter_In. cbn [ins_flush]. rewrite Bool.eqb_reflx. tauto. }
  assert (S : forall l, (forall i, In i l -> ins_flush i = f) -> NoDup (map ins_key l) ->
    map_get (map_of l) k = Some m <-> In (mk_insertion f k m) l).
  { induction l as [|i l IH]; intros F ND; cbn [map_of fold_right].
    - rewrite map_get_empty. split; [discriminate|intros []].
    - fold (map_of l). inversion_clear ND as [|? ? H1 H2].
      destruct (Z.eq_dec (ins_key i) k) as [K|K].
      + subst k. rewrite map_get_insert_same. split.
        * intros X. injection X as <-. left. rewrite <- (F i (or_introl eq_refl)).
          destruct i; reflexivity.
        * intros [X|X]; [rewrite X; reflexivity|]. exfalso. apply H1.
          change (ins_key i) with (ins_key (mk_insertion f (ins_key i) m)). apply in_map. exact X.
      + rewrite map_get_insert_other by exact K. rewrite IH; [|intros; apply F; right; assumption|exact H2].
        split; [intros X; right; exact X|]. intros [X|X]; [rewrite X in K; contradiction K; reflexivity|exact X]. }
  assert (ND : forall b, NoDup (map ins_key (filter (fun i => Bool.eqb (ins_flush i) b) lg))).
  { intros b. clear S. induction lg as [|i lg IH]; [constructor|]. cbn [map] in N.
    inversion_clear N as [|? ? H1 H2]. cbn [filter]. destruct (Bool.eqb (ins_flush i) b) eqn:B; [|auto].
    cbn [map]. constructor; [|auto]. intros H. apply H1. apply in_map_iff in H.
    destruct H as (j & K & Hj). apply filter_In in Hj. destruct Hj as [Hj Fj].
    apply Bool.eqb_prop in B, Fj. apply in_map_iff. exists j. split; [congruence|exact Hj]. }
  rewrite <- (S (filter (fun i => Bool.eqb (ins_flush i) f) lg)).
  - assert (E : (if f then map_of (filter ins_flush lg) else map_of (filter (fun i => negb (ins_flush i)) lg))
               = map_of (filter (fun i => Bool.eqb (ins_flush i) f) lg)).
    { destruct f; f_equal; apply filter_ext; intros i; destruct (ins_flush i); reflexivity. }
    rewrite <- E. reflexivity.
  - intros i Hi. apply filter_In in Hi. apply Bool.eqb_prop. apply Hi.
  - apply ND.
Qed.

(** Unique factorisation, as far as hands need it. *)
Theorem product_inj rs rs' : five_dealable rs -> five_dealable rs' -> product rs = product rs' ->
  Permutation rs rs'.
Proof.
  intros [L Q] [L' Q'] E. destruct table_new_ret as [t Ht].
  assert (A : forall x, (forall r, count_occ rank_dec x r <= 4) -> length x = 5 ->
     exists m, Permutation x m /\ In (false, m) canons).
  { intros x Qx Lx.
    destruct (multisets_complete high_to_low 5 x (fun r _ => in_high_to_low r) Lx) as (m & Hm & P).
    exists m. split; [exact P|]. apply in_canons_unsuited; [exact Hm|].
    apply forallb_forall. intros r _. apply Nat.leb_le.
    rewrite <- (proj1 (Permutation_count_occ rank_dec x m) P). apply Qx. }
  destruct (A rs Q L) as (m & P & C), (A rs' Q' L') as (m' & P' & C').
  destruct (canon_found t Ht _ C) as (x & X & _), (canon_found t Ht _ C') as (x' & X' & _).
  assert (x = x').
  { assert (E1 : entry t false (product m) x) by (apply entry_canon; [exact Ht|]; exists (false, m); auto).
    assert (E2 : entry t false (product m') x') by (apply entry_canon; [exact Ht|]; exists (false, m'); auto).
    rewrite <- (product_perm _ _ P) in E1. rewrite <- (product_perm _ _ P'), <- E in E2.
    unfold entry in *. congruence. }
  subst x'. assert (K := canon_rank_inj t Ht _ _ _ _ C C' X X' eq_refl). injection K as <-.
  rewrite P, P'. reflexivity.
Qed.
