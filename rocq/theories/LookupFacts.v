(** LookupFacts.v: what [evaluate] answers, whatever the tables hold. *)
From Coq Require Import ListDec Lia List Arith Bool Permutation ZArith.
From Verif Require Import Base BaseFacts ModelCard ModelEval ModelTable ModelEvaluation.
From Verif Require Import Spec SpecApi SpecTable SpecLookup CardFacts Sweep SweepFacts SpecFacts EvalFacts FiveFacts.
From Verif Require Import CombosFacts EvaluateFacts HandFacts TableFacts ReadFacts LawFacts.
Import ListNotations.

Lemma finds_some F U x : exists m, finds F U x m.
Proof.
  destruct (suited_dec (faces x)) as [S1|S1].
  - exists (map_get F (product (ranks (faces x)))). split; [reflexivity|contradiction].
  - exists (map_get U (product (ranks (faces x)))). split; [contradiction|reflexivity].
Qed.
Lemma finds_fun F U x m m' : finds F U x m -> finds F U x m' -> m = m'.
Proof. intros [A B] [A' B']. destruct (suited_dec (faces x)) as [S1|S1]; [rewrite <- (A S1)|rewrite <- (B S1)]; auto. Qed.

Lemma faces_perm x y : Permutation x y -> Permutation (faces x) (faces y).
Proof. apply Permutation_map. Qed.
Lemma suited_perm a b : Permutation a b -> suited a -> suited b.
Proof. intros P [s H]. exists s. rewrite <- P. exact H. Qed.
Lemma finds_perm F U x y m : Permutation x y -> finds F U x m -> finds F U y m.
Proof.
  intros P [A B]. pose proof (faces_perm x y P) as Q.
  assert (R : product (ranks (faces x)) = product (ranks (faces y))) by (apply product_perm, Permutation_map, Q).
  split; intros S1; rewrite <- R.
  - apply A. apply (suited_perm (faces y)); [apply Permutation_sym, Q|exact S1].
  - apply B. intros C. apply S1. exact (suited_perm _ _ Q C).
Qed.

Definition tables (F U : map_i32 meta) : evaluation := mk_evaluation (map_get F) (map_get U).
Definition answer (m : option meta) : outcome eval :=
  match m with Some m => Ret (MkEval m) | None => Panic MissingKey end.

Lemma five_answer F U h m : hand5 h -> finds F U h m -> five (tables F U) h = answer m.
Proof.
  intros H. pose proof (hand5_faces h H) as H5. destruct H as (A & N & L).
  destruct (canon_exists _ H5) as (c & Hc & P & Sf). pose proof (key_of c Hc) as K.
  pose proof (product_perm _ _ P) as Q.
  assert (NE : h <> []) by (intros ->; discriminate L).
  pose proof (detect_flush_spec h A NE) as D. intros [HF HU]. unfold five. cbv zeta.
  destruct (negb (Z.eqb (fold_left Z.land (map unique_integer h) 61440%Z) 0)).
  - assert (S1 : suited (faces h)) by (apply D; reflexivity).
    assert (T : fst c = true) by (apply Sf, S1). unfold canon_key in K. rewrite T in K.
    rewrite (shifted_bits h A), (lor_perm _ _ 0%Z (Permutation_map (fun r => Z.shiftl 1 (rank_as_i32 r)) P)).
    rewrite K. cbn [bind]. unfold index_key. cbn [ev_flush_lookup tables]. rewrite <- Q, (HF S1).
    destruct m; reflexivity.
  - assert (S1 : ~ suited (faces h)) by (intros C; apply D in C; discriminate C).
    assert (T : fst c = false).
    { destruct (fst c); [|reflexivity]. exfalso. apply S1, Sf. reflexivity. }
    unfold canon_key in K. rewrite T in K. injection K as K.
    rewrite (hand_product h A), (mul_perm _ _ 1%Z
        (Permutation_map (fun r => Z.land (unique_integer (card_new r Clubs)) 255) P)), K, <- Q.
    unfold index_key. cbn [ev_unsuited_lookup tables]. rewrite (HU S1). destruct m; reflexivity.
Qed.

Lemma in_five_of h x : all_cards h -> NoDup h -> In x (combs 5 h) -> five_of h x.
Proof. intros A N I. destruct (combs_hand5 h x A N I) as [H5 Q]. split; assumption. Qed.
Lemma five_of_comb h x : five_of h x -> exists y, In y (combs 5 h) /\ Permutation x y.
Proof.
  intros [(A & N & L) I]. exact (combs_complete card_dec h 5 x N I L).
Qed.

(** The calls without an answer from the tables. *)
Lemma any_rejected F U h : all_cards h ->
  (~ NoDup h -> static_evaluate F U h = Ret (Err (CardsNotUnique h)))
  /\ (NoDup h -> length h < 5 -> static_evaluate F U h = Ret (Err (InvalidHandSize (length h)))).
Proof.
  intros A. pose (ev := Evaluator (mk_lookup_table F U)). split.
  - intros N. exact (evaluate_dup ev h A N).
  - intros N L. exact (evaluate_small ev h A N L).
Qed.

Lemma five_result F U h m : hand5 h -> finds F U h m ->
  static_evaluate F U h = (let! e := answer m in Ret (Ok e)).
Proof.
  intros H5 Hm. pose proof (five_answer F U h m H5 Hm) as V. destruct H5 as (A & N & L).
  unfold static_evaluate, evaluate_with. fold (tables F U).
  rewrite (all_unique_NoDup h A N). cbn [bind]. rewrite L. cbn [Nat.ltb Nat.leb Nat.eqb].
  destruct (length5 h L) as (c0 & c1 & c2 & c3 & c4 & ->).
  cbn [index nth_error bind]. rewrite V. reflexivity.
Qed.

Definition step (F U : map_i32 meta) (cur : eval) (x : list card) : outcome eval :=
  let! score := five (tables F U) x in
  if op_gt (eval_partial_cmp score cur) then Ret score else Ret cur.
Lemma more_result F U h : legal h -> 5 < length h ->
  static_evaluate F U h = (let! e := foldM (step F U) (combs 5 h) EVAL_WORST in Ret (Ok e)).
Proof.
  intros (A & N & _) G. unfold static_evaluate, evaluate_with. fold (tables F U).
  rewrite (all_unique_NoDup h A N). cbn [bind].
  destruct (Nat.ltb_spec (length h) 5); [lia|]. destruct (Nat.eqb_spec (length h) 5); [lia|].
  unfold six_plus. destruct (Nat.ltb_spec 5 (length h)); [|lia]. cbn [negb].
  rewrite for_const_combos_spec by lia. reflexivity.
Qed.

Lemma foldM_app {S1 A} (f : S1 -> A -> outcome S1) l1 l2 s :
  foldM f (l1 ++ l2) s = (let! s' := foldM f l1 s in foldM f l2 s').
Proof.
  revert s. induction l1 as [|x l1 IH]; intros s; [reflexivity|]. cbn [app foldM].
  destruct (f s x) as [s'|p|]; cbn [bind]; [apply IH|reflexivity|reflexivity].
Qed.

(** Some five cards are not in the tables. *)
Lemma step_missing F U l : (forall x, In x l -> hand5 x) -> (exists x, In x l /\ finds F U x None) ->
  forall s, foldM (step F U) l s = Panic MissingKey.
Proof.
  induction l as [|x l IH]; intros H5 (y & Hy & Hn) s; [destruct Hy|]. cbn [foldM]. unfold step at 1.
  destruct (finds_some F U x) as [m Hm]. rewrite (five_answer F U x m (H5 x (or_introl eq_refl)) Hm).
  destruct m as [m|]; cbn [answer bind]; [|reflexivity].
  assert (J : exists z, In z l /\ finds F U z None).
  { destruct Hy as [<-|Hy]; [|exists y; auto]. pose proof (finds_fun F U x _ _ Hm Hn). discriminate. }
  destruct (op_gt _); cbn [bind]; apply IH; auto; intros z Hz; apply H5; right; exact Hz.
Qed.

Theorem any_missing F U h x : legal h -> five_of h x -> finds F U x None ->
  static_evaluate F U h = Panic MissingKey.
Proof.
  intros Lh Fx Hx. destruct (five_of_comb h x Fx) as (y & Hy & P).
  pose proof (finds_perm F U x y None P Hx) as Hn.
  pose proof Lh as (A & N & L). destruct (Nat.eq_dec (length h) 5) as [E|E].
  - assert (y = h). { rewrite (combs_all h 5 E) in Hy. destruct Hy as [<-|[]]. reflexivity. } subst y.
    rewrite (five_result F U h None); [reflexivity|split; auto|exact Hn].
  - rewrite (more_result F U h Lh) by lia.
    rewrite step_missing; [reflexivity| |exists y; auto].
    intros z Hz. apply (in_five_of h z A N Hz).
Qed.

(** All are. *)
Definition held (F U : map_i32 meta) (x : list card) : eval :=
  match five (tables F U) x with Ret e => e | _ => EVAL_WORST end.
Theorem any_found F U h : legal h -> (forall x, five_of h x -> ~ finds F U x None) ->
  exists e, static_evaluate F U h = Ret (Ok e)
    /\ (length h = 5 -> finds F U h (Some (eval_meta e)))
    /\ (5 < length h ->
         (forall x m, five_of h x -> finds F U x (Some m) -> (number e <= entry_number m)%Z)
         /\ (number e <= 7462)%Z
         /\ (e = EVAL_WORST \/ exists x, five_of h x /\ finds F U x (Some (eval_meta e)))).
Proof.
  intros Lh Full. pose proof Lh as (A & N & L).
  assert (V : forall x, five_of h x -> exists m, finds F U x (Some m) /\ five (tables F U) x = Ret (MkEval m)).
  { intros x Hx. destruct (finds_some F U x) as [[m|] Hm]; [|exfalso; exact (Full x Hx Hm)].
    exists m. split; [exact Hm|]. rewrite (five_answer F U x _ (proj1 Hx) Hm). reflexivity. }
  destruct (Nat.eq_dec (length h) 5) as [E|E].
  - assert (H5 : hand5 h) by (split; auto).
    destruct (V h (conj H5 (incl_refl h))) as (m & Hm & _).
    exists (MkEval m). split; [|split].
    + rewrite (five_result F U h _ H5 Hm). reflexivity.
    + intros _. exact Hm.
    + lia.
  - rewrite (more_result F U h Lh) by lia.
    rewrite (foldM_ret _ (fun cur x => if (rk (held F U x) <? rk cur)%Z then held F U x else cur)).
    2:{ intros s x Hx. destruct (V x (in_five_of h x A N Hx)) as (m & _ & Hv). unfold step, held. rewrite Hv.
        cbn [bind]. rewrite op_gt_eval. destruct (_ <? _)%Z; reflexivity. }
    cbn [bind]. destruct (fold_best (held F U) (combs 5 h) EVAL_WORST) as (H1 & H2 & H3).
    cbv zeta in *. set (best := fold_left _ _ _) in *. clearbody best. exists best.
    split; [reflexivity|]. split; [lia|]. intros _. split; [|split].
    + intros x m Hx Hm. destruct (five_of_comb h x Hx) as (y & Hy & P).
      pose proof (finds_perm F U x y _ P Hm) as Hm'. specialize (H3 y Hy). unfold held in H3.
      rewrite (five_answer F U y _ (proj1 (in_five_of h y A N Hy)) Hm') in H3. exact H3.
    + exact H2.
    + destruct H1 as [->|(x & Hx & ->)]; [left; reflexivity|right]. exists x.
      pose proof (in_five_of h x A N Hx) as Fx. split; [exact Fx|].
      destruct (V x Fx) as (m & Hm & Hv). unfold held. rewrite Hv. exact Hm.
Qed.

(** Empty tables, as on docs.rs. *)
Theorem empty_panics h : legal h -> static_evaluate map_empty map_empty h = Panic MissingKey.
Proof. exact (default_panics h). Qed.

(** ** Which tables agree with those of [Evaluator::new] *)
Lemma table_evaluates ev h : evaluate ev h
  = static_evaluate (flush_lookup (evaluator_table ev)) (unsuited_lookup (evaluator_table ev)) h.
Proof. reflexivity. Qed.

Lemma agree_five F U F' U' x :
  (forall rs, five_different rs -> map_get F (product rs) = map_get F' (product rs)) ->
  (forall rs, five_dealable rs -> map_get U (product rs) = map_get U' (product rs)) ->
  hand5 x -> five (tables F U) x = five (tables F' U') x.
Proof.
  intros HF HU H5. destruct (finds_some F U x) as [m Hm]. rewrite (five_answer F U x m H5 Hm).
  symmetry. apply five_answer; [exact H5|]. destruct Hm as [A B].
  destruct (canon_exists _ (hand5_faces x H5)) as (c & Hc & P & Sf).
  split; intros S1.
  - rewrite <- (A S1). symmetry. apply HF. destruct c as [f rs]. cbn [fst snd] in *.
    rewrite (proj1 Sf S1) in Hc. apply canons_suited_inv in Hc. destruct Hc as [N L]. split.
    + exact (Permutation_NoDup (Permutation_sym P) N).
    + rewrite (Permutation_length P). exact L.
  - rewrite <- (B S1). symmetry. apply HU. destruct c as [f rs]. cbn [fst snd] in *.
    assert (f = false) by (destruct f; [exfalso; apply S1, Sf; reflexivity|reflexivity]). subst f.
    apply canons_unsuited_inv in Hc. destruct Hc as [L Q]. split.
    + rewrite (Permutation_length P). exact L.
    + intros r. rewrite (proj1 (Permutation_count_occ rank_dec _ _) P). apply Q.
Qed.

Lemma foldM_ext_in {S1 A} (f g : S1 -> A -> outcome S1) l : (forall s x, In x l -> f s x = g s x) ->
  forall s, foldM f l s = foldM g l s.
Proof.
  intros H. induction l as [|x l IH]; intros s; [reflexivity|]. cbn [foldM].
  rewrite (H s x (or_introl eq_refl)). destruct (g s x); cbn [bind]; try reflexivity.
  apply IH. intros s' y Hy. apply H. right. exact Hy.
Qed.

Lemma agree_all F U F' U' :
  (forall rs, five_different rs -> map_get F (product rs) = map_get F' (product rs)) ->
  (forall rs, five_dealable rs -> map_get U (product rs) = map_get U' (product rs)) ->
  forall h, all_cards h -> static_evaluate F U h = static_evaluate F' U' h.
Proof.
  intros HF HU h A. destruct (ListDec.NoDup_dec card_dec h) as [N|N].
  2:{ rewrite !(proj1 (any_rejected _ _ h A) N). reflexivity. }
  destruct (lt_dec (length h) 5) as [G|G].
  { rewrite !(proj2 (any_rejected _ _ h A) N G). reflexivity. }
  destruct (Nat.eq_dec (length h) 5) as [E|E].
  - assert (H5 : hand5 h) by (split; auto).
    destruct (finds_some F U h) as [m Hm], (finds_some F' U' h) as [m' Hm'].
    pose proof (agree_five F U F' U' h HF HU H5) as Q.
    rewrite (five_answer F U h m H5 Hm), (five_answer F' U' h m' H5 Hm') in Q.
    rewrite (five_result F U h m H5 Hm), (five_result F' U' h m' H5 Hm'), Q. reflexivity.
  - assert (Lh : legal h) by (split; [exact A|split; [exact N|lia]]).
    rewrite !(more_result _ _ h Lh) by lia. f_equal. apply foldM_ext_in. intros s x Hx.
    unfold step. rewrite (agree_five F U F' U' x HF HU (proj1 (in_five_of h x A N Hx))). reflexivity.
Qed.

Lemma answer_inj a b : (let! e := answer a in Ret (Ok e)) = (let! e := answer b in Ret (Ok e) : outcome (result eval eval_error)) -> a = b.
Proof. destruct a, b; cbn [answer bind]; congruence. Qed.

Lemma finds_inj F U F' U' x : hand5 x -> static_evaluate F U x = static_evaluate F' U' x ->
  forall m, finds F U x m -> finds F' U' x m.
Proof.
  intros H5 E m Hm. destruct (finds_some F' U' x) as [m' Hm'].
  rewrite (five_result F U x m H5 Hm), (five_result F' U' x m' H5 Hm') in E.
  apply answer_inj in E. subst m'. exact Hm'.
Qed.

Theorem agreement F U F' U' :
  (forall h, all_cards h -> static_evaluate F U h = static_evaluate F' U' h)
  <-> (forall rs, five_different rs -> map_get F (product rs) = map_get F' (product rs))
      /\ (forall rs, five_dealable rs -> map_get U (product rs) = map_get U' (product rs)).
Proof.
  split; [|intros [HF HU]; exact (agree_all F U F' U' HF HU)].
  intros E. split.
  - intros rs [N L].
    destruct (combs_complete rank_dec high_to_low 5 rs N (fun r _ => in_high_to_low r) L) as (c & Hm & P).
    destruct (deal_spec (true, c) (in_canons_suited c Hm)) as (H5 & R & Sf). cbn [fst snd] in *.
    assert (S1 := proj2 Sf eq_refl). set (x := hand_of (true, c)) in *. clearbody x.
    rewrite (product_perm _ _ P), <- R. symmetry.
    apply (finds_inj F U F' U' x H5 (E x (proj1 H5)) (map_get F (product (ranks (faces x))))); [|exact S1].
    split; [reflexivity|contradiction].
  - intros rs [L Q].
    destruct (multisets_complete high_to_low 5 rs (fun r _ => in_high_to_low r) L) as (c & Hm & P).
    assert (A : at_most_four c = true).
    { apply forallb_forall. intros r _. apply Nat.leb_le.
      rewrite <- (proj1 (Permutation_count_occ rank_dec rs c) P). apply Q. }
    destruct (deal_spec (false, c) (in_canons_unsuited c Hm A)) as (H5 & R & Sf). cbn [fst snd] in *.
    assert (S1 : ~ suited (faces (hand_of (false, c)))) by (intros C; apply Sf in C; discriminate C).
    set (x := hand_of (false, c)) in *. clearbody x.
    rewrite (product_perm _ _ P), <- R. symmetry.
    apply (finds_inj F U F' U' x H5 (E x (proj1 H5)) (map_get U (product (ranks (faces x))))); [|exact S1].
    split; [contradiction|reflexivity].
Qed.
Theorem agrees_with_new ev F U :
  (forall h, all_cards h -> static_evaluate F U h = evaluate ev h)
  <-> (forall rs, five_different rs -> map_get F (product rs) = map_get (flush_lookup (evaluator_table ev)) (product rs))
      /\ (forall rs, five_dealable rs -> map_get U (product rs) = map_get (unsuited_lookup (evaluator_table ev)) (product rs)).
Proof. exact (agreement F U _ _). Qed.

(** An entry at a number that is no product of five primes changes nothing. *)
Lemma product_positive rs : (0 < product rs)%Z.
Proof.
  induction rs as [|r rs IH]; [reflexivity|]. cbn [product map fold_right]. fold (product rs).
  apply Z.mul_pos_pos; [|exact IH]. destruct r; reflexivity.
Qed.
Lemma extra_ignored F U m h : all_cards h ->
  static_evaluate (map_insert 0%Z m F) (map_insert 0%Z m U) h = static_evaluate F U h.
Proof.
  revert h. apply agreement. split; intros rs _; apply map_get_insert_other;
    intros E; pose proof (product_positive rs) as P; rewrite <- E in P; discriminate P.
Qed.

Lemma royal_case x : five_of hearts_royal x -> ~ finds royal_only map_empty x None.
Proof.
  intros [(A & N & L) I] H.
  assert (P : Permutation x hearts_royal) by (apply NoDup_Permutation_bis; [exact N|rewrite L; apply le_n|exact I]).
  assert (R : finds royal_only map_empty hearts_royal None) by exact (finds_perm _ _ x hearts_royal None P H).
  assert (S1 : suited (faces hearts_royal)) by (exists Hearts; repeat constructor).
  pose proof (proj1 R S1) as C. vm_compute in C. discriminate C.
Qed.
