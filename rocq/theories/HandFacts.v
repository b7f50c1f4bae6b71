(** HandFacts.v: [Evaluator::evaluate] against the rules of poker, for hands of any size. *)
From Coq Require Import Lia List Arith Bool Permutation.
From Verif Require Import Base BaseFacts ModelCard ModelEval ModelTable ModelEvaluation.
From Verif Require Import Spec CardFacts Sweep SweepFacts SpecFacts EvalFacts FiveFacts
  CombosFacts EvaluateFacts.
Import ListNotations.

Lemma evaluator_new_inv ev : new_evaluator ev ->
  exists t, lookup_table_new = Ret t /\ ev = Evaluator t.
Proof.
  unfold new_evaluator, evaluator_new. intros H. apply bind_ret in H.
  destruct H as (t & Ht & E). exists t. split; [exact Ht|]. congruence.
Qed.

Lemma evaluator_new_ret : exists ev, new_evaluator ev.
Proof.
  destruct table_new_ret as [t Ht]. exists (Evaluator t).
  unfold new_evaluator, evaluator_new. rewrite Ht. reflexivity.
Qed.

Lemma hand5_legal h : hand5 h -> legal h.
Proof. intros (A & N & L). split; [exact A|]. split; [exact N|]. lia. Qed.

Lemma NoDup_card_dec (h : list card) : {NoDup h} + {~ NoDup h}.
Proof. apply ListDec.NoDup_dec. apply card_dec. Qed.

(** ** Totality *)
Lemma evaluate_dup ev h : all_cards h -> ~ NoDup h ->
  evaluate ev h = Ret (Err (CardsNotUnique h)).
Proof.
  intros A N. unfold evaluate, evaluate_with.
  destruct (all_unique_spec h A) as (b & Hb & Hs). rewrite Hb. cbn [bind].
  destruct b; [exfalso; apply N, Hs; reflexivity|reflexivity].
Qed.

Lemma evaluate_small ev h : all_cards h -> NoDup h -> length h < 5 ->
  evaluate ev h = Ret (Err (InvalidHandSize (length h))).
Proof.
  intros A N L. unfold evaluate, evaluate_with.
  destruct (all_unique_spec h A) as (b & Hb & Hs). rewrite Hb. cbn [bind].
  rewrite (proj2 Hs N). destruct (Nat.ltb_spec (length h) 5); [reflexivity|lia].
Qed.

Lemma evaluate_five t h : lookup_table_new = Ret t -> hand5 h ->
  evaluates (Evaluator t) h (score t h).
Proof.
  intros Ht (A & N & L). destruct (evaluate_best t h Ht A N) as (x & Hx & E & _); [lia|].
  assert (C : combs 5 h = [h]).
  { destruct (length5 h L) as (a & b' & c & d & e & ->). reflexivity. }
  rewrite C in Hx. destruct Hx as [<-|[]]. exact E.
Qed.

Lemma score_perm t x y : lookup_table_new = Ret t -> hand5 x -> Permutation x y ->
  score t x = score t y.
Proof.
  intros Ht Hx P.
  assert (Hy : hand5 y).
  { destruct Hx as (A & N & L). split; [|split].
    - unfold all_cards. rewrite <- P. exact A.
    - rewrite <- P. exact N.
    - rewrite <- P. exact L. }
  destruct (five_score t x Ht Hx) as (Vx & _). destruct (five_score t y Ht Hy) as (Vy & _).
  destruct (five_same_rank t x y _ _ Ht Hx Hy Vx Vy) as [[_ H] Q]. apply Q, H.
  assert (PF : Permutation (faces x) (faces y)) by (apply Permutation_map; exact P).
  split; [apply Permutation_map; exact PF|].
  unfold suited. split; intros [s Hs]; exists s; [rewrite <- PF|rewrite PF]; exact Hs.
Qed.

(** The best five, with sub-hands given by inclusion. *)
Lemma evaluate_spec ev h : new_evaluator ev -> legal h ->
  exists e, evaluates ev h e
    /\ (exists x, hand5 x /\ incl x h /\ evaluates ev x e)
    /\ forall x, hand5 x -> incl x h ->
         exists e', evaluates ev x e' /\ (rk e <= rk e')%Z.
Proof.
  intros Hev (A & N & L). destruct (evaluator_new_inv ev Hev) as (t & Ht & ->).
  destruct (evaluate_best t h Ht A N L) as (x & Hx & E & B).
  exists (score t x). split; [exact E|]. split.
  - destruct (combs_hand5 h x A N Hx) as [H5 I]. exists x. split; [exact H5|].
    split; [exact I|]. apply evaluate_five; assumption.
  - intros y Hy I. exists (score t y). split; [apply evaluate_five; assumption|].
    destruct Hy as (Ay & Ny & Ly).
    destruct (combs_complete card_dec h 5 y Ny I Ly) as (z & Hz & P).
    rewrite (score_perm t y z Ht); [apply B; exact Hz|split; auto|exact P].
Qed.

Lemma evaluates_fun ev h e1 e2 : evaluates ev h e1 -> evaluates ev h e2 -> e1 = e2.
Proof. unfold evaluates. intros H1 H2. congruence. Qed.

Lemma evaluates_legal ev h e : all_cards h -> evaluates ev h e -> legal h.
Proof.
  intros A E. split; [exact A|]. destruct (NoDup_card_dec h) as [N|N].
  - split; [exact N|]. destruct (le_lt_dec 5 (length h)) as [L|L]; [exact L|].
    unfold evaluates in E. rewrite (evaluate_small ev h A N L) in E. discriminate E.
  - unfold evaluates in E. rewrite (evaluate_dup ev h A N) in E. discriminate E.
Qed.

Theorem evaluate_total ev h : new_evaluator ev -> all_cards h ->
  exists r, evaluate ev h = Ret r
    /\ (~ NoDup h -> r = Err (CardsNotUnique h))
    /\ (NoDup h -> length h < 5 -> r = Err (InvalidHandSize (length h)))
    /\ (NoDup h -> 5 <= length h -> exists e, r = Ok e).
Proof.
  intros Hev A. destruct (NoDup_card_dec h) as [N|N].
  - destruct (le_lt_dec 5 (length h)) as [L|L].
    + destruct (evaluate_spec ev h Hev) as (e & E & _); [split; auto|].
      exists (Ok e). split; [exact E|]. split; [tauto|]. split; [lia|]. intros _ _.
      exists e. reflexivity.
    + exists (Err (InvalidHandSize (length h))). split; [apply evaluate_small; auto|].
      split; [tauto|]. split; [auto|]. lia.
  - exists (Err (CardsNotUnique h)). split; [apply evaluate_dup; auto|].
    split; [auto|]. split; tauto.
Qed.

(** ** Five cards *)
Lemma five_eval ev h e : new_evaluator ev -> hand5 h -> evaluates ev h e ->
  exists t, lookup_table_new = Ret t /\ ev = Evaluator t /\ five (ev_of t) h = Ret e
    /\ classify (faces h) (eval_class_of e) /\ (1 <= rk e <= 7462)%Z.
Proof.
  intros Hev H E. destruct (evaluator_new_inv ev Hev) as (t & Ht & ->).
  assert (e = score t h) by (eapply evaluates_fun; [exact E|apply evaluate_five; auto]).
  subst e. exists t. destruct (five_score t h Ht H) as (V & R & C). auto.
Qed.

Theorem class_correct ev h e : new_evaluator ev -> hand5 h -> evaluates ev h e ->
  forall c, classify (faces h) c <-> eval_class_of e = c.
Proof.
  intros Hev H E c. destruct (five_eval ev h e Hev H E) as (t & _ & _ & _ & C & _).
  split; [|intros <-; exact C]. intros C'.
  eapply classify_unique; eauto. apply hand5_faces. exact H.
Qed.

Lemma cmp_Gt e1 e2 : eval_cmp e1 e2 = Gt <-> (rk e1 < rk e2)%Z.
Proof. rewrite eval_cmp_spec. apply Z.compare_gt_iff. Qed.
Lemma cmp_Eq e1 e2 : eval_cmp e1 e2 = Eq <-> rk e1 = rk e2.
Proof. rewrite eval_cmp_spec, Z.compare_eq_iff. unfold rk. split; congruence. Qed.
Lemma cmp_Lt e1 e2 : eval_cmp e1 e2 = Lt <-> (rk e2 < rk e1)%Z.
Proof. rewrite eval_cmp_spec. apply Z.compare_lt_iff. Qed.
Lemma cmp_not_Lt e1 e2 : eval_cmp e1 e2 <> Lt <-> (rk e1 <= rk e2)%Z.
Proof. rewrite cmp_Lt. lia. Qed.
Lemma eqb_rk e1 e2 : eval_eqb e1 e2 = true <-> rk e1 = rk e2.
Proof. apply Z.eqb_eq. Qed.

Theorem comparison_correct ev h1 h2 e1 e2 : new_evaluator ev -> hand5 h1 -> hand5 h2 ->
  evaluates ev h1 e1 -> evaluates ev h2 e2 ->
  (eval_cmp e1 e2 = Gt <-> beats (faces h1) (faces h2))
  /\ (eval_cmp e1 e2 = Eq <-> ties (faces h1) (faces h2))
  /\ (eval_cmp e1 e2 = Lt <-> beats (faces h2) (faces h1)).
Proof.
  intros Hev H1 H2 E1 E2.
  destruct (five_eval ev h1 e1 Hev H1 E1) as (t & Ht & -> & V1 & _).
  destruct (five_eval _ h2 e2 Hev H2 E2) as (t' & Ht' & Et & V2 & _).
  injection Et as <-. rewrite cmp_Gt, cmp_Eq, cmp_Lt. split; [|split].
  - apply (five_beats t); assumption.
  - apply (five_ties t); assumption.
  - apply (five_beats t); assumption.
Qed.

Theorem ties_ranks_flush h1 h2 : five_card_hand h1 -> five_card_hand h2 ->
  (ties h1 h2 <-> Permutation (ranks h1) (ranks h2) /\ (suited h1 <-> suited h2)).
Proof.
  intros F1 F2.
  assert (Q : forall h, five_card_hand h -> exists c, hand5 c /\ faces c = h).
  { intros h [N L]. exists (map (fun f => card_new (fst f) (snd f)) h).
    assert (E : faces (map (fun f => card_new (fst f) (snd f)) h) = h).
    { unfold faces. rewrite map_map. rewrite <- (map_id h) at 2. apply map_ext.
      intros [r s]. unfold face_of. rewrite card_rank_new, card_suit_new. reflexivity. }
    split; [|exact E].
    assert (A : all_cards (map (fun f => card_new (fst f) (snd f)) h)).
    { unfold all_cards. rewrite Forall_forall. intros c Hc. apply in_map_iff in Hc.
      destruct Hc as (f & <- & _). apply a_card_new. }
    split; [exact A|]. split.
    - apply NoDup_faces; [exact A|]. rewrite E. exact N.
    - rewrite map_length. exact L. }
  destruct (Q h1 F1) as (c1 & H1 & <-). destruct (Q h2 F2) as (c2 & H2 & <-).
  destruct table_new_ret as [t Ht].
  destruct (five_score t c1 Ht H1) as (V1 & _). destruct (five_score t c2 Ht H2) as (V2 & _).
  rewrite <- (five_ties t c1 c2 _ _ Ht H1 H2 V1 V2).
  apply (five_same_rank t c1 c2 _ _ Ht H1 H2 V1 V2).
Qed.

(** Results with equal rank numbers are the same value. *)
Lemma same_value ev h1 h2 e1 e2 : new_evaluator ev -> legal h1 -> legal h2 ->
  evaluates ev h1 e1 -> evaluates ev h2 e2 -> rk e1 = rk e2 -> e1 = e2.
Proof.
  intros Hev L1 L2 E1 E2 R.
  destruct (evaluate_spec ev h1 Hev L1) as (e1' & E1' & (x1 & X1 & _ & V1) & _).
  destruct (evaluate_spec ev h2 Hev L2) as (e2' & E2' & (x2 & X2 & _ & V2) & _).
  assert (e1' = e1) by exact (evaluates_fun _ _ _ _ E1' E1).
  assert (e2' = e2) by exact (evaluates_fun _ _ _ _ E2' E2). subst e1' e2'.
  destruct (five_eval ev x1 e1 Hev X1 V1) as (t & Ht & -> & W1 & _).
  destruct (five_eval _ x2 e2 Hev X2 V2) as (t' & _ & Et & W2 & _). injection Et as <-.
  apply (five_same_rank t x1 x2 e1 e2 Ht X1 X2 W1 W2). exact R.
Qed.

(** ** Monotonicity *)
Theorem more_cards ev h h' e e' : new_evaluator ev -> all_cards h' -> incl h h' ->
  evaluates ev h e -> evaluates ev h' e' -> eval_cmp e' e <> Lt.
Proof.
  intros Hev A' I E E'. rewrite cmp_not_Lt.
  pose proof (evaluates_legal ev h e (all_cards_incl h h' I A') E) as Lh.
  pose proof (evaluates_legal ev h' e' A' E') as Lh'.
  destruct (evaluate_spec ev h Hev Lh) as (e1 & E1 & (x & Hx & Ix & Vx) & _).
  destruct (evaluate_spec ev h' Hev Lh') as (e1' & E1' & _ & B).
  assert (e1 = e) by exact (evaluates_fun _ _ _ _ E1 E).
  assert (e1' = e') by exact (evaluates_fun _ _ _ _ E1' E'). subst e1 e1'.
  destruct (B x Hx (incl_tran Ix I)) as (e2 & V2 & R).
  assert (e2 = e) by exact (evaluates_fun _ _ _ _ V2 Vx). subst e2. exact R.
Qed.

Theorem same_cards ev h h' e : new_evaluator ev -> all_cards h ->
  (forall c, In c h <-> In c h') -> NoDup h' -> evaluates ev h e -> evaluates ev h' e.
Proof.
  intros Hev A I N' E.
  pose proof (evaluates_legal ev h e A E) as (A0 & N & L).
  assert (A' : all_cards h') by (apply (all_cards_incl h' h); [intros c; apply I|exact A]).
  assert (L' : legal h').
  { split; [exact A'|]. split; [exact N'|].
    rewrite <- (Permutation_length (NoDup_Permutation N N' I)). exact L. }
  destruct (evaluate_spec ev h' Hev L') as (e' & E' & _).
  assert (R1 : eval_cmp e' e <> Lt)
    by (apply (more_cards ev h h'); auto; intros c; apply I).
  assert (R2 : eval_cmp e e' <> Lt)
    by (apply (more_cards ev h' h); auto; intros c; apply I).
  rewrite cmp_not_Lt in R1, R2.
  assert (e = e') by (apply (same_value ev h h'); auto; [split; auto|lia]). subst e'. exact E'.
Qed.

(** ** Permutations *)
Theorem permutation_ok ev h h' : new_evaluator ev -> all_cards h -> Permutation h h' ->
  (forall e, evaluate ev h = Ret (Ok e) <-> evaluate ev h' = Ret (Ok e))
  /\ (evaluate ev h = Ret (Err (CardsNotUnique h)) <->
      evaluate ev h' = Ret (Err (CardsNotUnique h')))
  /\ (forall n, evaluate ev h = Ret (Err (InvalidHandSize n)) <->
      evaluate ev h' = Ret (Err (InvalidHandSize n))).
Proof.
  intros Hev A P.
  assert (A' : all_cards h') by (unfold all_cards; rewrite <- P; exact A).
  assert (NN : NoDup h <-> NoDup h') by (split; apply Permutation_NoDup; [|symmetry]; exact P).
  assert (II : forall c, In c h <-> In c h').
  { intros c. split; apply Permutation_in; [|symmetry]; exact P. }
  split.
  - intros e. split; intros E.
    + apply (same_cards ev h h' e); auto. apply NN. eapply evaluates_legal; eassumption.
    + apply (same_cards ev h' h e); auto; [intros c; symmetry; apply II|].
      apply NN. eapply evaluates_legal; eassumption.
  - destruct (NoDup_card_dec h) as [N|N].
    + assert (N' : NoDup h') by tauto. pose proof (Permutation_length P) as PL.
      destruct (le_lt_dec 5 (length h)) as [L|L].
      * destruct (evaluate_spec ev h Hev) as (e & E & _); [split; auto|].
        assert (E' : evaluates ev h' e) by (apply (same_cards ev h h' e); auto).
        unfold evaluates in *. rewrite E, E'. split; [|intros n]; split; intros X; discriminate X.
      * rewrite (evaluate_small ev h A N L), (evaluate_small ev h' A' N') by lia.
        rewrite PL. split; [|intros n; tauto]. split; intros X; discriminate X.
    + assert (N' : ~ NoDup h') by tauto.
      rewrite (evaluate_dup ev h A N), (evaluate_dup ev h' A' N').
      split; [split; reflexivity|]. intros n. split; intros X; discriminate X.
Qed.

(** ** Suits *)
Lemma recolour_face f h : faces (map (recolour f) h) = map (fun x => (fst x, f (snd x))) (faces h).
Proof.
  unfold faces. rewrite !map_map. apply map_ext. intros c. unfold face_of, recolour.
  rewrite card_rank_new, card_suit_new. reflexivity.
Qed.

Lemma all_cards_recolour f h : all_cards (map (recolour f) h).
Proof.
  unfold all_cards. rewrite Forall_forall. intros c Hc. apply in_map_iff in Hc.
  destruct Hc as (d & <- & _). apply a_card_new.
Qed.

Lemma recolour_inj f c d : (forall a b, f a = f b -> a = b) -> a_card c -> a_card d ->
  recolour f c = recolour f d -> c = d.
Proof.
  intros Hf Hc Hd E. apply face_of_inj; auto. unfold recolour in E.
  pose proof (f_equal card_rank E) as E1. pose proof (f_equal card_suit E) as E2.
  rewrite !card_rank_new in E1. rewrite !card_suit_new in E2. apply Hf in E2.
  unfold face_of. congruence.
Qed.

Lemma recolour_NoDup f h : (forall a b, f a = f b -> a = b) -> all_cards h -> NoDup h ->
  NoDup (map (recolour f) h).
Proof.
  intros Hf A N. induction N as [|c h Hc Hh IH]; simpl; [constructor|].
  inversion A as [|? ? Ac Ah]; subst. constructor; [|apply IH; exact Ah].
  intros Hin. apply in_map_iff in Hin. destruct Hin as (d & E & Hd). apply Hc.
  unfold all_cards in Ah. rewrite Forall_forall in Ah.
  apply recolour_inj in E; auto. subst. exact Hd.
Qed.

Lemma recolour_hand5 f h : (forall a b, f a = f b -> a = b) -> hand5 h -> hand5 (map (recolour f) h).
Proof.
  intros Hf (A & N & L). split; [apply all_cards_recolour|].
  split; [apply recolour_NoDup; auto|]. rewrite map_length. exact L.
Qed.

Lemma score_recolour t f x : (forall a b, f a = f b -> a = b) ->
  lookup_table_new = Ret t -> hand5 x -> score t (map (recolour f) x) = score t x.
Proof.
  intros Hf Ht Hx. pose proof (recolour_hand5 f x Hf Hx) as Hy.
  destruct (five_score t _ Ht Hx) as (Vx & _). destruct (five_score t _ Ht Hy) as (Vy & _).
  destruct (five_same_rank t _ _ _ _ Ht Hy Hx Vy Vx) as [[_ H] Q]. apply Q, H.
  rewrite recolour_face. split.
  - unfold ranks. rewrite map_map. reflexivity.
  - split; intros [s Hs].
    + destruct Hx as (A & N & L). destruct x as [|c x]; [discriminate L|].
      exists (card_suit c). rewrite Forall_forall in *. intros g Hg.
      apply Hf. transitivity s; [|symmetry].
      * apply (Hs (fst g, f (snd g))). apply (in_map (fun x => (fst x, f (snd x)))). exact Hg.
      * apply (Hs (fst (face_of c), f (snd (face_of c)))). left. reflexivity.
    + exists (f s). rewrite Forall_forall in *. intros g Hg. apply in_map_iff in Hg.
      destruct Hg as (k & <- & Hk). simpl. f_equal. apply Hs. exact Hk.
Qed.

Theorem suits_interchangeable ev f h e : (forall a b, f a = f b -> a = b) ->
  new_evaluator ev -> all_cards h -> evaluates ev h e -> evaluates ev (map (recolour f) h) e.
Proof.
  intros Hf Hev A E. pose proof (evaluates_legal ev h e A E) as Lh.
  destruct (evaluator_new_inv ev Hev) as (t & Ht & ->).
  destruct Lh as (_ & N & L).
  destruct (evaluate_best t h Ht A N L) as (x & Hx & Ex & Bx).
  destruct (evaluate_best t (map (recolour f) h) Ht) as (y & Hy & Ey & By).
  { apply all_cards_recolour. }
  { apply recolour_NoDup; auto. }
  { rewrite map_length. exact L. }
  assert (e = score t x) by (unfold evaluates in E; congruence). subst e.
  unfold evaluates. rewrite Ey. f_equal. f_equal.
  rewrite combs_map in Hy. apply in_map_iff in Hy. destruct Hy as (y' & <- & Hy').
  destruct (combs_hand5 h x A N Hx) as [X5 _]. destruct (combs_hand5 h y' A N Hy') as [Y5 _].
  rewrite (score_recolour t f y' Hf Ht Y5).
  specialize (By (map (recolour f) x)). rewrite combs_map in By.
  specialize (By (in_map _ _ _ Hx)). rewrite !score_recolour in By by auto.
  specialize (Bx y' Hy').
  apply (same_value (Evaluator t) y' x); auto using hand5_legal, evaluate_five. lia.
Qed.

(** ** All values *)
Definition hand_of (c : canon) : list card := map (fun f => card_new (fst f) (snd f)) (deal c).

Lemma face_eqb_eq a b : face_eqb a b = true <-> a = b.
Proof.
  unfold face_eqb. rewrite andb_true_iff, rank_eqb_eq. destruct a as [r s], b as [r' s']; simpl.
  split.
  - intros [-> H]. f_equal. destruct s, s'; simpl in H; congruence.
  - intros H. injection H as -> ->. split; [reflexivity|]. destruct s'; reflexivity.
Qed.

Lemma nodupb_NoDup l : nodupb l = true -> NoDup l.
Proof.
  induction l as [|x l IH]; simpl; intros H; [constructor|].
  apply andb_true_iff in H. destruct H as [H1 H2]. constructor; [|auto].
  intros Hin. apply negb_true_iff in H1.
  assert (existsb (face_eqb x) l = true).
  { apply existsb_exists. exists x. split; [exact Hin|]. apply face_eqb_eq. reflexivity. }
  congruence.
Qed.

Lemma faces_hand_of c : faces (hand_of c) = deal c.
Proof.
  unfold faces, hand_of. rewrite map_map. rewrite <- (map_id (deal c)) at 2.
  apply map_ext. intros [r s].
  unfold face_of. rewrite card_rank_new, card_suit_new. reflexivity.
Qed.

Lemma deal_spec c : In c canons ->
  hand5 (hand_of c) /\ ranks (faces (hand_of c)) = snd c
  /\ (suited (faces (hand_of c)) <-> fst c = true).
Proof.
  intros Hc. pose proof deal_ok as D. rewrite forallb_forall in D. specialize (D c Hc).
  apply andb_true_iff in D. destruct D as [D1 D2]. apply nodupb_NoDup in D1.
  apply Nat.eqb_eq in D2. destruct c as [f m]. simpl in D2.
  destruct (length5 m D2) as (r1 & r2 & r3 & r4 & r5 & ->).
  rewrite faces_hand_of. split; [|split].
  - assert (A : all_cards (hand_of (f, [r1; r2; r3; r4; r5]))).
    { unfold all_cards. rewrite Forall_forall. intros c Hin. apply in_map_iff in Hin.
      destruct Hin as (g & <- & _). apply a_card_new. }
    split; [exact A|]. split.
    + apply NoDup_faces; [exact A|]. rewrite faces_hand_of. exact D1.
    + destruct f; reflexivity.
  - destruct f; reflexivity.
  - destruct f; simpl; (split; [intros [s Hs]|intros Hf]).
    + reflexivity.
    + exists Clubs. repeat constructor.
    + inversion Hs as [|? ? E1 F1]; subst. inversion F1 as [|? ? E2 F2]; subst.
      simpl in E2. discriminate E2.
    + discriminate Hf.
Qed.

Lemma rank_attained ev z : new_evaluator ev -> (1 <= z <= 7462)%Z ->
  exists h e, hand5 h /\ evaluates ev h e /\ rk e = z.
Proof.
  intros Hev Hz. destruct (evaluator_new_inv ev Hev) as (t & Ht & ->).
  destruct (canon_rank_attained t Ht z Hz) as (c & m & Hc & Hm & Hr).
  destruct (deal_spec c Hc) as (H5 & R & Sf).
  exists (hand_of c), (MkEval m). split; [exact H5|]. split; [|exact Hr].
  assert (V : five (ev_of t) (hand_of c) = Ret (MkEval m)).
  { apply (five_canon t (hand_of c) c); auto.
    - apply H5.
    - intros E. destruct H5 as (_ & _ & L). rewrite E in L. discriminate L.
    - rewrite R. reflexivity. }
  pose proof (evaluate_five t _ Ht H5) as E. unfold score in E. rewrite V in E. exact E.
Qed.

Lemma rank_range ev h e : new_evaluator ev -> all_cards h -> evaluates ev h e ->
  (1 <= rk e <= 7462)%Z.
Proof.
  intros Hev A E. pose proof (evaluates_legal ev h e A E) as Lh.
  destruct (evaluate_spec ev h Hev Lh) as (e1 & E1 & (x & Hx & _ & Vx) & _).
  assert (e1 = e) by exact (evaluates_fun _ _ _ _ E1 E). subst e1.
  destruct (five_eval ev x e Hev Hx Vx) as (t & _ & _ & _ & _ & R). exact R.
Qed.

Lemma best_five ev h e : new_evaluator ev -> all_cards h -> evaluates ev h e ->
  exists x, hand5 x /\ incl x h /\ evaluates ev x e.
Proof.
  intros Hev A E. pose proof (evaluates_legal ev h e A E) as Lh.
  destruct (evaluate_spec ev h Hev Lh) as (e1 & E1 & X & _).
  assert (e1 = e) by exact (evaluates_fun _ _ _ _ E1 E). subst e1. exact X.
Qed.

(** A strictly descending list of exactly the 7462 values. *)
Lemma all_values ev : new_evaluator ev ->
  exists l, Z.of_nat (length l) = 7462%Z /\ descending l
    /\ (forall e, In e l <-> exists h, hand5 h /\ evaluates ev h e)
    /\ (forall e, In e l <-> exists h, legal h /\ evaluates ev h e).
Proof.
  intros Hev.
  assert (Q : forall n, (Z.of_nat n <= 7462)%Z ->
    exists l, length l = n /\ descending l
      /\ (forall e, In e l <-> (exists h, hand5 h /\ evaluates ev h e)
            /\ (7462 - Z.of_nat n < rk e)%Z)).
  { induction n as [|n IH]; intros Hn.
    - exists []. split; [reflexivity|]. split; [exact I|]. intros e. simpl. split; [tauto|].
      intros [(h & H5 & E) R]. destruct H5 as (A & _).
      pose proof (rank_range ev h e Hev A E). lia.
    - destruct IH as (l & L & D & M); [lia|].
      destruct (rank_attained ev (7462 - Z.of_nat n) Hev) as (h & e & H5 & E & R); [lia|].
      exists (e :: l). split; [simpl; lia|]. split; [split; [|exact D]|].
      + intros e' He'. apply M in He'. rewrite cmp_Gt. lia.
      + intros e'. cbn [In]. rewrite M. split.
        * intros [<-|[X Y]]; [split; [exists h; auto|lia]|split; [exact X|lia]].
        * intros [X Y]. destruct (Z.eq_dec (rk e') (7462 - Z.of_nat n)) as [EZ|EZ].
          -- left. destruct X as (h' & H5' & E').
             apply (same_value ev h h'); auto using hand5_legal. lia.
          -- right. split; [exact X|lia]. }
  destruct (Q (Z.to_nat 7462)) as (l & L & D & M); [lia|].
  exists l. split; [lia|]. split; [exact D|]. split.
  - intros e. rewrite M. split; [tauto|]. intros (h & H5 & E). split; [exists h; auto|].
    pose proof (rank_range ev h e Hev (proj1 H5) E). lia.
  - intros e. rewrite M. split.
    + intros [(h & H5 & E) _]. exists h. split; [apply hand5_legal; exact H5|exact E].
    + intros (h & Lh & E). destruct (best_five ev h e Hev (proj1 Lh) E) as (x & Hx & _ & Vx).
      split; [exists x; auto|]. pose proof (rank_range ev x e Hev (proj1 Hx) Vx). lia.
Qed.

(** ** Extremes *)
Lemma in_canons_best : In (true, [Ace; King; Queen; Jack; Ten]) canons.
Proof. apply in_canons_suited. left. reflexivity. Qed.

Lemma best_attained ev : new_evaluator ev ->
  evaluates ev (hand_of (true, [Ace; King; Queen; Jack; Ten])) EVAL_BEST
  /\ evaluates ev (hand_of (false, [Seven; Five; Four; Three; Two])) EVAL_WORST.
Proof.
  intros Hev. destruct (evaluator_new_inv ev Hev) as (t & Ht & ->).
  destruct (canon_meta_worst t Ht) as [W B].
  assert (K : forall c m, In c canons -> canon_meta t c = Some m ->
                evaluates (Evaluator t) (hand_of c) (MkEval m)).
  { intros c m Hc Hm. destruct (deal_spec c Hc) as (H5 & R & Sf).
    assert (V : five (ev_of t) (hand_of c) = Ret (MkEval m)).
    { apply (five_canon t (hand_of c) c); auto.
      - apply H5.
      - intros E. destruct H5 as (_ & _ & L). rewrite E in L. discriminate L.
      - rewrite R. reflexivity. }
    pose proof (evaluate_five t _ Ht H5) as E. unfold score in E. rewrite V in E. exact E. }
  split; apply K; auto using in_canons_best, in_canons_worst.
Qed.

Lemma extremes ev h e : new_evaluator ev -> all_cards h -> evaluates ev h e ->
  eval_cmp e EVAL_WORST <> Lt /\ eval_cmp EVAL_BEST e <> Lt.
Proof.
  intros Hev A E. rewrite !cmp_not_Lt. pose proof (rank_range ev h e Hev A E).
  change (rk EVAL_WORST) with 7462%Z. change (rk EVAL_BEST) with 1%Z. lia.
Qed.

(** Five cards: royal flush. *)
Lemma in_sequence_ace h : length h = 5 ->
  (in_sequence h Ace <-> Permutation (ranks h) [Ten; Jack; Queen; King; Ace]).
Proof.
  intros L. unfold in_sequence. simpl pips. cbn [Nat.sub]. split.
  - intros [P|[E _]]; [|discriminate E].
    assert (Q : map pips [Ten; Jack; Queen; King; Ace] = [10; 11; 12; 13; 14]) by reflexivity.
    symmetry. apply NoDup_Permutation_bis.
    + repeat constructor; simpl; intuition congruence.
    + rewrite (ranks_length h L). simpl. lia.
    + intros r Hr. apply (in_map pips) in Hr. rewrite Q in Hr.
      apply (Permutation_in _ (Permutation_sym P)) in Hr. apply in_map_iff in Hr.
      destruct Hr as (r' & E & Hr'). apply pips_inj in E. subst r'. exact Hr'.
  - intros P. left. apply (Permutation_map pips) in P. exact P.
Qed.

Lemma royal_hand5 s : hand5 (royal s).
Proof.
  split; [|split; [|reflexivity]].
  - unfold royal, all_cards. rewrite Forall_forall. intros c Hc. apply in_map_iff in Hc.
    destruct Hc as (r & <- & _). apply a_card_new.
  - destruct s; vm_compute; repeat constructor; simpl; intuition congruence.
Qed.

Lemma royal_class s : classify (faces (royal s)) (StraightFlush Ace).
Proof.
  split.
  - exists s. unfold royal, faces. rewrite map_map. rewrite Forall_forall. intros f Hf.
    apply in_map_iff in Hf. destruct Hf as (r & <- & _). simpl. apply card_suit_new.
  - apply in_sequence_ace; [reflexivity|]. unfold royal, ranks, faces. rewrite !map_map.
    rewrite (map_ext _ (fun r => r)); [rewrite map_id; reflexivity|].
    intros r. apply card_rank_new.
Qed.

Lemma best_iff_rank ev h e : new_evaluator ev -> all_cards h -> evaluates ev h e ->
  rk e = 1%Z -> e = EVAL_BEST.
Proof.
  intros Hev A E R. destruct (best_attained ev Hev) as [B _].
  destruct (deal_spec _ in_canons_best) as (H5 & _).
  eapply (same_value ev h _ e EVAL_BEST Hev); [eapply evaluates_legal; eassumption| |exact E|exact B|exact R].
  apply hand5_legal. exact H5.
Qed.

Lemma straight_flush_ace ev h e : new_evaluator ev -> hand5 h -> evaluates ev h e ->
  (eval_class_of e = StraightFlush Ace <-> e = EVAL_BEST).
Proof.
  intros Hev H5 E. split; [|intros ->; reflexivity]. intros C.
  destruct (best_attained ev Hev) as [B _]. destruct (deal_spec _ in_canons_best) as (B5 & _).
  assert (T : ties (faces h) (faces (hand_of (true, [Ace; King; Queen; Jack; Ten])))).
  { exists (StraightFlush Ace), (StraightFlush Ace). split; [|split; [|split; reflexivity]].
    - apply (class_correct ev h e Hev H5 E). exact C.
    - apply (class_correct ev _ _ Hev B5 B). reflexivity. }
  destruct (comparison_correct ev _ _ _ _ Hev H5 B5 E B) as (_ & K & _).
  apply K in T. rewrite cmp_Eq in T.
  apply (best_iff_rank ev h e Hev (proj1 H5) E). rewrite T. reflexivity.
Qed.

Lemma class_royal_best ev h e : new_evaluator ev -> all_cards h -> evaluates ev h e ->
  (eval_class_of e = StraightFlush Ace <-> e = EVAL_BEST).
Proof.
  intros Hev A E. destruct (best_five ev h e Hev A E) as (x & Hx & _ & Vx).
  apply (straight_flush_ace ev x e Hev Hx Vx).
Qed.

Lemma is_royal_best ev h e : new_evaluator ev -> all_cards h -> evaluates ev h e ->
  (eval_is_royal_flush e = true <-> e = EVAL_BEST).
Proof.
  intros Hev A E. split; [|intros ->; reflexivity]. intros R.
  apply (best_iff_rank ev h e Hev A E).
  unfold eval_is_royal_flush, meta_is_royal_flush in R. unfold rk, eval_hand_rank.
  destruct (eval_meta e); try discriminate R. apply Z.eqb_eq in R. exact R.
Qed.

Lemma holds_royal ev h e : new_evaluator ev -> all_cards h -> evaluates ev h e ->
  ((exists s, incl (royal s) h) <-> e = EVAL_BEST).
Proof.
  intros Hev A E. split.
  - intros [s I].
    destruct (evaluate_spec ev (royal s) Hev (hand5_legal _ (royal_hand5 s))) as (e' & E' & _).
    assert (C : eval_class_of e' = StraightFlush Ace).
    { apply (class_correct ev (royal s) e' Hev (royal_hand5 s) E'), royal_class. }
    apply (straight_flush_ace ev (royal s) e' Hev (royal_hand5 s) E') in C. subst e'.
    pose proof (more_cards ev (royal s) h _ _ Hev A I E' E) as M. rewrite cmp_not_Lt in M.
    change (rk EVAL_BEST) with 1%Z in M. pose proof (rank_range ev h e Hev A E).
    apply (best_iff_rank ev h e Hev A E). lia.
  - intros ->. destruct (best_five ev h _ Hev A E) as (x & Hx & I & Vx).
    assert (C : classify (faces x) (StraightFlush Ace))
      by (apply (class_correct ev x _ Hev Hx Vx); reflexivity).
    destruct C as [[s Hs] Sq]. exists s.
    apply in_sequence_ace in Sq; [|unfold faces; rewrite map_length; apply Hx].
    intros c Hc. apply I. unfold royal in Hc. apply in_map_iff in Hc.
    destruct Hc as (r & <- & Hr). apply (Permutation_in _ (Permutation_sym Sq)) in Hr.
    unfold ranks, faces in Hr. rewrite map_map in Hr. apply in_map_iff in Hr.
    destruct Hr as (c & E1 & Hc). simpl in E1. subst r.
    rewrite Forall_forall in Hs. specialize (Hs (face_of c) (in_map _ _ _ Hc)). simpl in Hs.
    destruct Hx as (Ax & _). unfold all_cards in Ax. rewrite Forall_forall in Ax.
    subst s. rewrite <- a_card_eta; auto.
Qed.
