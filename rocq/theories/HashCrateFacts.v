(** HashCrateFacts.v: the hash maps and hash sets of the crate (C83). *)
From Coq Require Import Lia List Arith Bool Permutation ZArith.
From Verif Require Import Base BaseFacts ModelCard ModelEval ModelTable ModelEvaluation ModelExamples ModelDebug ModelHash.
From Verif Require Import Spec SpecApi SpecTable SpecHash.
From Verif Require Import HashFacts HandFacts TableFacts.
From Verif Require EvaluateFacts CardFacts TextFacts LawFacts OrderFacts WorthFacts EqFacts.
From Verif Require Import SpecBest.
Import ListNotations.
Local Open Scope list_scope.

(** ** The key types *)
Lemma decides_equivalence {K} (eqb : K -> K -> bool) : (forall a b, eqb a b = true <-> a = b) -> equivalence eqb.
Proof.
  intros E a b c. split; [apply E; reflexivity|]. split.
  - apply Bool.eq_iff_eq_true. rewrite !E. split; congruence.
  - rewrite !E. congruence.
Qed.
Lemma suit_eqb_eq a b : suit_eqb a b = true <-> a = b.
Proof. exact (proj2 TextFacts.variants_eqb a b). Qed.
Lemma rank_eqb_eq a b : rank_eqb a b = true <-> a = b.
Proof. exact (proj1 TextFacts.variants_eqb a b). Qed.
Lemma eval_equivalence : equivalence eval_eqb.
Proof.
  intros a b c. split; [apply eqb_rk; reflexivity|]. split.
  - apply Bool.eq_iff_eq_true. rewrite !eqb_rk. split; congruence.
  - rewrite !eqb_rk. congruence.
Qed.

Theorem keys : forall H (new : H) finish write,
  (equivalence card_eqb /\ forall a b, card_eqb a b = true -> hash_one new finish (card_hash write) a = hash_one new finish (card_hash write) b)
  /\ (equivalence eval_eqb /\ forall a b, eval_eqb a b = true -> hash_one new finish (eval_hash write) a = hash_one new finish (eval_hash write) b)
  /\ (equivalence rank_eqb /\ forall a b, rank_eqb a b = true -> hash_one new finish (rank_hash write) a = hash_one new finish (rank_hash write) b)
  /\ (equivalence suit_eqb /\ forall a b, suit_eqb a b = true -> hash_one new finish (suit_hash write) a = hash_one new finish (suit_hash write) b)
  /\ (equivalence Z.eqb /\ forall a b, Z.eqb a b = true -> hash_one new finish (int_hash write) a = hash_one new finish (int_hash write) b).
Proof.
  intros H new finish write. split; [|split; [|split; [|split]]].
  - split; [exact (decides_equivalence _ CardFacts.card_eqb_eq)|]. intros a b E. apply CardFacts.card_eqb_eq in E as ->. reflexivity.
  - split; [exact eval_equivalence|]. intros a b E. unfold hash_one, eval_hash, meta_hash.
    apply eqb_rk in E. unfold EvaluateFacts.rk, eval_hand_rank in E. rewrite E. reflexivity.
  - split; [exact (decides_equivalence _ rank_eqb_eq)|]. intros a b E. apply rank_eqb_eq in E as ->. reflexivity.
  - split; [exact (decides_equivalence _ suit_eqb_eq)|]. intros a b E. apply suit_eqb_eq in E as ->. reflexivity.
  - split; [exact (decides_equivalence _ Z.eqb_eq)|]. intros a b E. apply Z.eqb_eq in E as ->. reflexivity.
Qed.

(** ** The tables *)
Section Tables.
  Context {H : Type} (new : H) (finish : H -> Z) (write : H -> Z -> H) (lay : layout) (Hl : complete lay).
  Let KH := key_hash new finish write.
  Let Ke : equivalence Z.eqb := decides_equivalence _ Z.eqb_eq.
  Lemma key_compat a b : Z.eqb a b = true -> KH a = KH b.
  Proof. intros E. apply Z.eqb_eq in E as ->. reflexivity. Qed.

  Definition hashed_log (lg : list insertion) : hashed_tables :=
    fold_right (fun i t =>
      if ins_flush i then hashed_insert_flush new finish write lay (ins_key i) (ins_meta i) t
      else hashed_insert_unsuited new finish write lay (ins_key i) (ins_meta i) t)
      (repeat Empty (initial lay 6175), repeat Empty (initial lay 1287)) lg.
  Local Transparent insertions.
  Lemma hashed_replays : hashed_table_new new finish write lay = map_out hashed_log insertions.
  Proof.
    unfold hashed_table_new, insertions.
    exact (build_hom log_flush log_unsuited (hashed_insert_flush new finish write lay) (hashed_insert_unsuited new finish write lay) hashed_log
             (fun _ _ _ => eq_refl) (fun _ _ _ => eq_refl) []).
  Qed.
  Local Opaque insertions.

  Definition paper_of (f : bool) (lg : list insertion) : list (Z * meta) :=
    fold_right (fun i d => if Bool.eqb (ins_flush i) f then change Z.eqb d (ins_key i) (fun _ => ins_meta i) else d) [] lg.
  Lemma log_stands lg : stands lay Z.eqb KH (fst (hashed_log lg)) (paper_of true lg)
    /\ stands lay Z.eqb KH (snd (hashed_log lg)) (paper_of false lg).
  Proof using Hl.
    induction lg as [|i lg (A & B)]; cbn [hashed_log paper_of fold_right].
    - split; apply empty_stands.
    - fold (hashed_log lg) (paper_of true lg) (paper_of false lg).
      destruct (ins_flush i); cbn [Bool.eqb hashed_insert_flush hashed_insert_unsuited fst snd hash_insert];
        (split; [|]); try assumption; apply update_stands; try assumption; exact key_compat.
  Qed.
  Lemma look_change {V} (d : list (Z * V)) k f k' :
    look Z.eqb (change Z.eqb d k f) k' = if Z.eqb k' k then Some (f (look Z.eqb d k)) else look Z.eqb d k'.
  Proof.
    induction d as [|[k1 v1] d IH]; cbn [change look]; [reflexivity|].
    destruct (Z.eqb_spec k k1) as [->|N]; cbn [look]; [destruct (Z.eqb k' k1); reflexivity|].
    rewrite IH. destruct (Z.eqb_spec k' k1) as [->|N']; [|reflexivity].
    destruct (Z.eqb_spec k1 k) as [->|_]; [contradiction|reflexivity].
  Qed.
  Lemma look_paper f lg k : look Z.eqb (paper_of f lg) k
    = map_get (if f then flush_lookup (from_log lg) else unsuited_lookup (from_log lg)) k.
  Proof.
    induction lg as [|i lg IH]; cbn [paper_of from_log fold_right].
    - destruct f; symmetry; apply map_get_empty.
    - fold (paper_of f lg) (from_log lg). destruct (Bool.eqb (ins_flush i) f) eqn:E.
      + apply Bool.eqb_prop in E. rewrite look_change, E, IH.
        destruct f; cbn [insert_flush insert_unsuited flush_lookup unsuited_lookup];
          (destruct (Z.eqb_spec k (ins_key i)) as [->|N]; [symmetry; apply map_get_insert_same|symmetry; apply map_get_insert_other; congruence]).
      + rewrite IH. destruct (ins_flush i), f; try discriminate E; reflexivity.
  Qed.
  Lemma paper_length f lg : NoDup (map (fun i => (ins_flush i, ins_key i)) lg) ->
    length (paper_of f lg) = length (filter (fun i => Bool.eqb (ins_flush i) f) lg)
    /\ forall k, In k (map fst (paper_of f lg)) -> In (f, k) (map (fun i => (ins_flush i, ins_key i)) lg).
  Proof.
    induction lg as [|i lg IH]; cbn [paper_of fold_right map filter]; intros N; [split; [reflexivity|intros k []]|].
    fold (paper_of f lg). inversion_clear N as [|? ? A B]. destruct (IH B) as (L & I).
    destruct (Bool.eqb (ins_flush i) f) eqn:E.
    - apply Bool.eqb_prop in E. rewrite change_none.
      + split.
        * rewrite app_length, L. cbn [length]. lia.
        * intros k J. rewrite map_app in J. apply in_app_or in J as [J|J]; [right; exact (I k J)|].
          destruct J as [<-|[]]. left. rewrite E. reflexivity.
      + intros x J. apply Z.eqb_neq. intros Q. apply A. rewrite E, Q. apply I, in_map, J.
    - split; [exact L|]. intros k J. right. exact (I k J).
  Qed.
  Lemma log_lengths_inv lg : insertions = Ret lg -> 
    Z.of_nat (length (filter (fun i => Bool.eqb (ins_flush i) true) lg)) = 1287%Z
    /\ Z.of_nat (length (filter (fun i => Bool.eqb (ins_flush i) false) lg)) = 6175%Z.
  Proof.
    intros E. pose proof log_counts as C. rewrite E in C. unfold log_lengths in C. injection C as C1 C2.
    rewrite (filter_ext (fun i => Bool.eqb (ins_flush i) true) ins_flush) by (intros i; destruct (ins_flush i); reflexivity).
    rewrite (filter_ext (fun i => Bool.eqb (ins_flush i) false) (fun i => negb (ins_flush i))) by (intros i; destruct (ins_flush i); reflexivity).
    split; assumption.
  Qed.

  Theorem tables ev : new_evaluator ev -> exists t, hashed_table_new new finish write lay = Ret t
    /\ (forall k, hash_get lay Z.eqb KH (fst t) k = map_get (flush_lookup (evaluator_table ev)) k)
    /\ (forall k, hash_get lay Z.eqb KH (snd t) k = map_get (unsuited_lookup (evaluator_table ev)) k)
    /\ Z.of_nat (hash_len (fst t)) = 1287%Z /\ Z.of_nat (hash_len (snd t)) = 6175%Z
    /\ forall h, hashed_evaluate new finish write lay t h = evaluate ev h.
  Proof using Hl.
    intros Hev. destruct (evaluator_new_inv ev Hev) as (t0 & Ht & ->). cbn [evaluator_table].
    destruct (no_overwrite t0 Ht) as (lg & L & E & N). exists (hashed_log lg).
    split; [rewrite hashed_replays, L; reflexivity|]. destruct (log_stands lg) as (A & B).
    assert (F : forall k, hash_get lay Z.eqb KH (fst (hashed_log lg)) k = map_get (flush_lookup t0) k).
    { intros k. rewrite (get_looks lay Z.eqb KH Ke key_compat Hl _ _ k A), E. exact (look_paper true lg k). }
    assert (U : forall k, hash_get lay Z.eqb KH (snd (hashed_log lg)) k = map_get (unsuited_lookup t0) k).
    { intros k. rewrite (get_looks lay Z.eqb KH Ke key_compat Hl _ _ k B), E. exact (look_paper false lg k). }
    split; [exact F|]. split; [exact U|].
    destruct (log_lengths_inv lg L) as (L1 & L2).
    split; [rewrite (stands_len _ _ _ _ _ A), (proj1 (paper_length true lg N)); exact L1|].
    split; [rewrite (stands_len _ _ _ _ _ B), (proj1 (paper_length false lg N)); exact L2|].
    intros h. clear - F U. unfold hashed_evaluate, evaluate. fold KH.
    assert (Q := LawFacts.evaluate_rel eq (fun a b H => f_equal (fun m => phr (meta_hand_rank m)) H) eq_refl
      (mk_evaluation (hash_get lay Z.eqb KH (fst (hashed_log lg))) (hash_get lay Z.eqb KH (snd (hashed_log lg))))
      (evaluator_evaluation (Evaluator t0))).
    specialize (Q (fun k => ltac:(cbn [ev_flush_lookup evaluator_evaluation evaluator_table]; rewrite F; destruct (map_get _ k); simpl; auto))).
    specialize (Q (fun k => ltac:(cbn [ev_unsuited_lookup evaluator_evaluation evaluator_table]; rewrite U; destruct (map_get _ k); simpl; auto))).
    specialize (Q h). destruct (evaluate_with _ h) as [[[a]|a]|a|], (evaluate_with _ h) as [[[b]|b]|b|];
      simpl in Q; try contradiction; unfold LawFacts.rel_eval in Q; simpl in Q; congruence.
  Qed.
End Tables.

(** ** Counting and sets *)
Section Keys.
  Context {H K : Type} (new : H) (finish : H -> Z) (lay : layout) (Hl : complete lay).
  Context (eqb : K -> K -> bool) (hash : K -> H -> H) (He : equivalence eqb).
  Context (Hh : forall a b, eqb a b = true -> hash_one new finish hash a = hash_one new finish hash b).

  Lemma counts_change c m : counts_add eqb c m = change eqb m c (fun n => match n with Some n => S n | None => 1 end).
  Proof. induction m as [|[d n] m IH]; cbn; [reflexivity|]. rewrite IH. reflexivity. Qed.
  Theorem counts_perm l : Permutation (hash_iter (hashed_counts new finish lay eqb hash l)) (counts eqb l).
  Proof using Hl He Hh.
    unfold hashed_counts, counts.
    assert (G : forall s d, stands lay eqb (hash_one new finish hash) s d ->
      stands lay eqb (hash_one new finish hash)
        (fold_left (fun m k => hash_update lay eqb (hash_one new finish hash) m k (fun n => match n with Some n => S n | None => 1 end)) l s)
        (fold_left (fun m c => counts_add eqb c m) l d)).
    { induction l as [|x l IH]; intros s d St; cbn [fold_left]; [exact St|]. apply IH. rewrite counts_change.
      apply update_stands; assumption. }
    exact (proj1 (G [] [] (empty_stands lay eqb _ 0))).
  Qed.

  Lemma distinct_keys (d : list (K * unit)) : distinct eqb d -> NoDup (map fst d).
  Proof using He.
    induction d as [|e d IH]; intros D; cbn [map]; constructor.
    - intros I. apply in_map_iff in I as (x & E & I). apply distinct_tail in D as (_ & N). specialize (N x I).
      rewrite E, (same_refl eqb He) in N. discriminate N.
    - apply IH. exact (proj1 (distinct_tail eqb e d D)).
  Qed.
  Lemma change_keys (d : list (K * unit)) k : map fst (change eqb d k (fun _ => tt)) = map fst d /\ (exists y, In y (map fst d) /\ eqb k y = true)
    \/ map fst (change eqb d k (fun _ => tt)) = map fst d ++ [k] /\ forall y, In y (map fst d) -> eqb k y = false.
  Proof.
    induction d as [|[k' v] d IH]; cbn [change map fst app]; [right; split; [reflexivity|intros y []]|].
    destruct (eqb k k') eqn:E; cbn [map fst].
    - left. split; [reflexivity|]. exists k'. split; [left; reflexivity|exact E].
    - destruct IH as [(-> & y & I & Y)|(-> & N)].
      + left. split; [reflexivity|]. exists y. split; [right; exact I|exact Y].
      + right. split; [reflexivity|]. intros y [<-|I]; [exact E|exact (N y I)].
  Qed.
  Definition paper_set (l : list K) : list (K * unit) := fold_left (fun d k => change eqb d k (fun _ => tt)) l [].
  Lemma paper_set_snoc l x : paper_set (l ++ [x]) = change eqb (paper_set l) x (fun _ => tt).
  Proof. unfold paper_set. rewrite fold_left_app. reflexivity. Qed.
  Lemma paper_set_keys l : incl (map fst (paper_set l)) l
    /\ forall x, In x l -> exists y, In y (map fst (paper_set l)) /\ eqb x y = true.
  Proof using He.
    induction l as [|x l (I & J)] using rev_ind; [split; [intros x []|intros x []]|]. rewrite paper_set_snoc.
    destruct (change_keys (paper_set l) x) as [(-> & y & Y & E)|(-> & N)].
    - split; [apply incl_appl, I|]. intros z Z. apply in_app_or in Z as [Z|[<-|[]]]; [exact (J z Z)|eauto].
    - split; [apply incl_app; [apply incl_appl, I|apply incl_appr, incl_refl]|].
      intros z Z. apply in_app_or in Z as [Z|[<-|[]]].
      + destruct (J z Z) as (y & Y & E). exists y. split; [apply in_or_app; left; exact Y|exact E].
      + exists x. split; [apply in_or_app; right; left; reflexivity|apply same_refl, He].
  Qed.
  Lemma set_stands l : stands lay eqb (hash_one new finish hash) (hashed_set new finish lay eqb hash l) (paper_set l).
  Proof using Hl He Hh.
    unfold hashed_set, paper_set.
    assert (G : forall s d, stands lay eqb (hash_one new finish hash) s d ->
      stands lay eqb (hash_one new finish hash)
        (fold_left (fun s k => snd (hash_insert lay eqb (hash_one new finish hash) s k tt)) l s)
        (fold_left (fun d k => change eqb d k (fun _ => tt)) l d)).
    { induction l as [|x l IH]; intros s d St; cbn [fold_left]; [exact St|]. apply IH. cbn [hash_insert snd].
      apply update_stands; assumption. }
    exact (G [] [] (empty_stands lay eqb _ 0)).
  Qed.
  Lemma look_found (d : list (K * unit)) k : (match look eqb d k with Some _ => true | None => false end) = true
    <-> exists y, In y (map fst d) /\ eqb k y = true.
  Proof.
    induction d as [|[k' v] d IH]; cbn [look map fst]; [split; [discriminate|intros (y & [] & _)]|].
    destruct (eqb k k') eqn:E.
    - split; [|reflexivity]. intros _. exists k'. split; [left; reflexivity|exact E].
    - rewrite IH. split; intros (y & I & Y).
      + exists y. split; [right; exact I|exact Y].
      + exists y. destruct I as [<-|I]; [congruence|]. auto.
  Qed.

  (** One of each group of equal keys, and [contains] by [==] *)
  Theorem set_of l (s := hashed_set new finish lay eqb hash l) :
    NoDup (map fst (hash_iter s)) /\ incl (map fst (hash_iter s)) l
    /\ (forall x, In x l -> exists y, In y (map fst (hash_iter s)) /\ eqb x y = true)
    /\ (forall x, set_contains new finish lay eqb hash s x = true <-> exists y, In y l /\ eqb x y = true).
  Proof using Hl He Hh.
    destruct (set_stands l) as (P & D & R). fold s in P, R. destruct (paper_set_keys l) as (I & J).
    pose proof (Permutation_map fst P) as Q. split; [|split; [|split]].
    - apply (Permutation_NoDup (Permutation_sym Q)), distinct_keys, D.
    - intros x X. apply I, (Permutation_in _ Q X).
    - intros x X. destruct (J x X) as (y & Y & E). exists y. split; [exact (Permutation_in _ (Permutation_sym Q) Y)|exact E].
    - intros x. unfold set_contains. rewrite (get_looks lay eqb _ He Hh Hl s (paper_set l) x (set_stands l)), look_found. split.
      + intros (y & Y & E). exists y. split; [exact (I y Y)|exact E].
      + intros (y & Y & E). destruct (J y Y) as (z & Z & F). exists z. split; [exact Z|exact (same_trans eqb He x y z E F)].
  Qed.
  (** If [==] tells apart what is different, the set has the elements of the list. *)
  Theorem set_exact l (s := hashed_set new finish lay eqb hash l) : (forall x y, In x l -> In y l -> eqb x y = true -> x = y) ->
    NoDup (map fst (hash_iter s)) /\ (forall x, In x (map fst (hash_iter s)) <-> In x l)
    /\ (hash_len s = length l <-> NoDup l).
  Proof using Hl He Hh.
    intros E. destruct (set_of l) as (N & I & J & _). fold s in N, I, J. split; [exact N|].
    assert (M : forall x, In x (map fst (hash_iter s)) <-> In x l).
    { intros x. split; [apply I|]. intros X. destruct (J x X) as (y & Y & F). rewrite (E x y X (I y Y) F). exact Y. }
    split; [exact M|]. unfold hash_len. rewrite <- (map_length fst). split; intros L.
    - apply (NoDup_incl_NoDup N); [lia|]. intros x X. apply M, X.
    - apply Nat.le_antisymm; apply NoDup_incl_length; try assumption; intros x X; apply M, X.
  Qed.
End Keys.

Theorem duplicates : forall H (new : H) finish write lay, complete lay ->
  (forall cards, Permutation (hash_iter (hashed_counts new finish lay card_eqb (card_hash write) cards)) (counts card_eqb cards))
  /\ (forall swaps, Permutation (hash_iter (hashed_counts new finish lay Z.eqb (int_hash write) swaps)) (counts Z.eqb swaps)).
Proof.
  intros H new finish write lay Hl. destruct (keys H new finish write) as ((E1 & H1) & _ & _ & _ & E5 & H5).
  split; intros l; apply counts_perm; assumption.
Qed.

Theorem card_sets : forall H (new : H) finish write lay h, complete lay ->
  let s := hashed_set new finish lay card_eqb (card_hash write) h in
  NoDup (map fst (hash_iter s)) /\ (forall c, In c (map fst (hash_iter s)) <-> In c h)
  /\ (forall c, set_contains new finish lay card_eqb (card_hash write) s c = true <-> In c h)
  /\ (hash_len s = length h <-> NoDup h).
Proof.
  intros H new finish write lay h Hl s. destruct (keys H new finish write) as ((E & Hh) & _).
  destruct (set_exact new finish lay Hl card_eqb (card_hash write) E Hh h) as (A & B & C).
  { intros x y _ _. apply CardFacts.card_eqb_eq. }
  destruct (set_of new finish lay Hl card_eqb (card_hash write) E Hh h) as (_ & _ & _ & D).
  split; [exact A|]. split; [exact B|]. split; [|exact C]. intros c. unfold s. rewrite (D c). split.
  - intros (y & Y & F). apply CardFacts.card_eqb_eq in F as ->. exact Y.
  - intros I. exists c. split; [exact I|]. apply CardFacts.card_eqb_eq. reflexivity.
Qed.

Lemma eqb_cmp a b : eval_eqb a b = true <-> eval_cmp a b = Eq.
Proof. rewrite eqb_rk, cmp_Eq. reflexivity. Qed.
Lemma results_forall ev hs es : Forall all_cards hs -> Forall2 (evaluates ev) hs es ->
  forall e, In e es -> exists h, In h hs /\ all_cards h /\ evaluates ev h e.
Proof.
  intros A F. induction F as [|h e hs es E F IH]; intros x I; [destruct I|]. inversion_clear A as [|? ? A1 A2].
  destruct I as [<-|I]; [exists h; split; [left; reflexivity|auto]|].
  destruct (IH A2 x I) as (g & G & R). exists g. split; [right; exact G|exact R].
Qed.
Lemma results_back ev hs es : Forall2 (evaluates ev) hs es -> forall h, In h hs -> exists e, In e es /\ evaluates ev h e.
Proof.
  intros F. induction F as [|h e hs es E F IH]; intros x I; [destruct I|].
  destruct I as [<-|I]; [exists e; split; [left; reflexivity|exact E]|].
  destruct (IH x I) as (y & Y & R). exists y. split; [right; exact Y|exact R].
Qed.

Theorem result_sets : forall H (new : H) finish write lay ev hs es, complete lay -> new_evaluator ev ->
  Forall all_cards hs -> Forall2 (evaluates ev) hs es ->
  let s := hashed_set new finish lay eval_eqb (eval_hash write) es in
  NoDup (map fst (hash_iter s)) /\ (forall e, In e (map fst (hash_iter s)) <-> In e es)
  /\ (forall h e, all_cards h -> evaluates ev h e ->
       (set_contains new finish lay eval_eqb (eval_hash write) s e = true
        <-> exists h', In h' hs /\ best (faces h') = best (faces h)))
  /\ (hash_len s = length hs <-> NoDup (map (fun h => best (faces h)) hs))
  /\ (Z.of_nat (hash_len s) <= 7462)%Z.
Proof.
  intros H new finish write lay ev hs es Hl Hev A F s. destruct (keys H new finish write) as (_ & (E & Hh) & _).
  pose proof (results_forall ev hs es A F) as R.
  assert (X : forall x y, In x es -> In y es -> eval_eqb x y = true -> x = y).
  { intros x y Hx Hy Q. destruct (R x Hx) as (h & _ & Ah & Eh). destruct (R y Hy) as (g & _ & Ag & Eg).
    apply (OrderFacts.results_apart ev x y Hev); [exists h; auto|exists g; auto|]. apply eqb_cmp, Q. }
  destruct (set_exact new finish lay Hl eval_eqb (eval_hash write) E Hh es X) as (N & M & L).
  destruct (set_of new finish lay Hl eval_eqb (eval_hash write) E Hh es) as (_ & _ & _ & D).
  split; [exact N|]. split; [exact M|]. split; [|split].
  - intros h e Ah Eh. unfold s. rewrite (D e). split.
    + intros (y & Y & Q). destruct (R y Y) as (g & G & Ag & Eg). exists g. split; [exact G|]. symmetry.
      apply (WorthFacts.worth_compare ev h g e y Hev Ah Ag Eh Eg). apply eqb_cmp, Q.
    + intros (g & G & Q). destruct (results_back ev hs es F g G) as (y & Y & Eg). exists y. split; [exact Y|].
      apply eqb_cmp. apply (WorthFacts.worth_compare ev h g e y Hev Ah); [|exact Eh|exact Eg|symmetry; exact Q].
      rewrite Forall_forall in A. exact (A g G).
  - fold s in L. assert (Len : length es = length hs) by (clear -F; induction F; cbn; congruence).
    rewrite <- Len, L. clear - A F Hev X R. induction F as [|h e hs es Eh F IH]; cbn [map]; [split; constructor|].
    inversion_clear A as [|? ? Ah A2].
    assert (IH' := IH A2 (fun e I => results_forall ev hs es A2 F e I) (fun x y I J => X x y (or_intror I) (or_intror J))).
    assert (Q : In e es <-> In (best (faces h)) (map (fun h => best (faces h)) hs)).
    { rewrite in_map_iff. split.
      - intros I. destruct (results_forall ev hs es A2 F e I) as (g & G & Ag & Eg). exists g. split; [|exact G].
        apply (WorthFacts.worth_compare ev g h e e Hev Ag Ah Eg Eh). apply (OrderFacts.o_refl eval_cmp OrderFacts.eval_total).
      - intros (g & B & G). destruct (results_back ev hs es F g G) as (y & Y & Eg).
        assert (e = y) as ->; [|exact Y]. apply (OrderFacts.results_apart ev e y Hev); [exists h; auto| |].
        + destruct (results_forall ev hs es A2 F y Y) as (g' & _ & Ag' & Eg'). exists g'. auto.
        + apply (WorthFacts.worth_compare ev h g e y Hev Ah); [|exact Eh|exact Eg|symmetry; exact B].
          rewrite Forall_forall in A2. exact (A2 g G). }
    split; intros ND; inversion_clear ND as [|? ? P1 P2]; constructor.
    + rewrite <- Q. exact P1.
    + apply IH', P2.
    + rewrite Q. exact P1.
    + apply IH', P2.
  - destruct (all_values ev Hev) as (l & Len & _ & _ & V).
    unfold hash_len. rewrite <- (map_length fst). apply Z.le_trans with (Z.of_nat (length l)); [|lia].
    apply inj_le. apply NoDup_incl_length; [exact N|]. intros e He. apply M in He. destruct (R e He) as (h & _ & Ah & Eh).
    apply V. exists h. split; [eapply evaluates_legal; eassumption|exact Eh].
Qed.

(** [duplicates.insert(x)] of the example game *)
Theorem all_distinct : forall H (new : H) finish write lay n l, complete lay ->
  hashed_all_inserted new finish write lay (repeat Empty n) l = all_inserted [] l
  /\ (all_inserted [] l = true <-> NoDup l).
Proof.
  intros H new finish write lay n l Hl.
  pose proof (decides_equivalence _ Z.eqb_eq) as E. pose proof (key_compat new finish write) as Hh. split.
  - assert (G : forall l s d seen, stands lay Z.eqb (key_hash new finish write) s d -> (forall x, In x (map fst d) <-> In x seen) ->
      hashed_all_inserted new finish write lay s l = all_inserted seen l).
    { clear l. induction l as [|x l IH]; intros s d seen St M; cbn [hashed_all_inserted all_inserted]; [reflexivity|].
      cbn [hash_insert]. pose proof (get_looks lay Z.eqb _ E Hh Hl s d x St) as Q.
      pose proof (look_found Z.eqb d x) as LF.
      assert (B : existsb (Z.eqb x) seen = match look Z.eqb d x with Some _ => true | None => false end).
      { apply Bool.eq_iff_eq_true. rewrite LF, existsb_exists. split; intros (y & Y & Z); exists y; (split; [apply M, Y|exact Z]). }
      rewrite Q, B. destruct (look Z.eqb d x) as [u|] eqn:K; [reflexivity|].
      apply (IH _ (change Z.eqb d x (fun _ => tt))); [apply update_stands; assumption|].
      intros y. destruct (change_keys Z.eqb d x) as [(-> & z & Zi & Ze)|(-> & N)].
      - exfalso. assert (false = true) as X; [|discriminate X]. apply LF. exists z. auto.
      - rewrite in_app_iff, M. cbn. tauto. }
    apply (G l (repeat Empty n) [] []); [apply empty_stands|]. intros x. reflexivity.
  - assert (G : forall seen, all_inserted seen l = true <-> NoDup l /\ forall x, In x l -> ~ In x seen).
    { induction l as [|x l IH]; intros seen; cbn [all_inserted].
      - split; [intros _; split; [constructor|intros x []]|reflexivity].
      - destruct (existsb (Z.eqb x) seen) eqn:B.
        + split; [discriminate|]. intros (_ & N). exfalso. apply existsb_exists in B as (y & Y & Q). apply Z.eqb_eq in Q as <-.
          exact (N x (or_introl eq_refl) Y).
        + rewrite IH. split.
          * intros (N & M). split.
            -- constructor; [|exact N]. intros I. apply (M x I). left. reflexivity.
            -- intros y [<-|I] J; [|exact (M y I (or_intror J))]. 
               assert (existsb (Z.eqb x) seen = true) as X by (apply existsb_exists; exists x; split; [exact J|apply Z.eqb_refl]). congruence.
          * intros (N & M). inversion_clear N as [|? ? P Q]. split; [exact Q|]. intros y I [<-|J]; [exact (P I)|].
            exact (M y (or_intror I) J). }
    rewrite G. split; [intros (N & _); exact N|]. intros N. split; [exact N|]. intros x _ [].
Qed.

(** A layout: one slot after the other, from the hash value on *)
Definition linear (n : nat) (w : Z) : list nat := let k := Nat.min n (Z.to_nat (w mod Z.of_nat n)) in seq k (n - k) ++ seq 0 k.
Lemma linear_complete n w : Permutation (seq 0 n) (linear n w).
Proof.
  unfold linear. set (k := Nat.min n _). assert (L : k <= n) by apply Nat.le_min_l. clearbody k.
  rewrite <- (Nat.sub_add k n L) at 1. rewrite Nat.add_comm, seq_app. apply Permutation_app_comm.
Qed.
(** A tag of the last bits, and twice as many slots when half of them are full *)
Definition plain_layout : layout := mk_layout linear (fun w => (w mod 128)%Z) (fun n m => Nat.leb n (2 * m)) (fun n => n) (fun n => 2 * n).
Lemma plain_complete : complete plain_layout.
Proof. intros n w. exact (linear_complete n w). Qed.
(** A layout that looks at the first slot only *)
Definition first_layout : layout := mk_layout (fun n _ => firstn 1 (seq 0 n)) (fun w => w) (fun _ _ => false) (fun n => n) (fun n => n).
