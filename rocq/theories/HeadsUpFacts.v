(** HeadsUpFacts.v: how many hands of another player tie with a five-card hand (C85). *)
From Coq Require Import Lia List Arith Bool Permutation ZArith Sorted Factorial.
From Verif Require Import Base BaseFacts ModelCard ModelEval ModelTable ModelEvaluation.
From Verif Require Import Spec SpecApi SpecMore SpecShowdown CardFacts Sweep SweepFacts SpecFacts FiveFacts CombosFacts.
From Verif Require Import EvaluateFacts HandFacts DeckFacts LawFacts OddsFacts AlikeFacts ShuffleFacts UniformFacts DrawFacts SeatFacts.
From Verif Require Import SpecBest SpecHeadsUp.
From Verif Require GainFacts.
Import ListNotations.

(** ** Choices from what is left of the deck *)
Lemma combs_filter {T} (P : T -> bool) (l : list T) : forall n, filter (forallb P) (combs n l) = combs n (filter P l).
Proof.
  induction l as [|a l IH]; intros [|n]; cbn [combs filter]; try reflexivity.
  - destruct (P a); [reflexivity|]. destruct (filter P l); reflexivity.
  - rewrite filter_app, IH.
    assert (M : forall L, filter (forallb P) (map (cons a) L) = if P a then map (cons a) (filter (forallb P) L) else []).
    { clear. induction L as [|h L IHL]; cbn [map filter forallb]; [destruct (P a); reflexivity|].
      rewrite IHL. destruct (P a); cbn [andb]; [|reflexivity]. destruct (forallb P h); reflexivity. }
    rewrite M, IH. destruct (P a); reflexivity.
Qed.

Section weights.
  Context {X K : Type} (key : X -> K) (kdec : forall a b : K, {a = b} + {a <> b}) (n : K -> nat).
  (** As [weight], with blocks of different sizes. *)
  Fixpoint weights (rs m : list K) : option Z :=
    match rs with
    | [] => match m with [] => Some 1%Z | _ => None end
    | r :: rs' =>
        let (k, rest) := OddsFacts.run kdec r m in
        if in_dec kdec r rest then None
        else match weights rs' rest with
             | Some w => Some (Z.of_nat (binom (n r) k) * w)%Z
             | None => None
             end
    end.
  Lemma weights_spec (block : K -> list X) rs : NoDup rs ->
    (forall r, length (block r) = n r /\ Forall (fun x => key x = r) (block r)) ->
    forall m w, weights rs m = Some w -> Z.of_nat (cnt key kdec (flat_map block rs) m) = w.
  Proof.
    intros N B. induction N as [|r rs Hr N IH]; intros m w H; cbn [weights] in H.
    - destruct m; [|discriminate H]. injection H as <-. reflexivity.
    - pose proof (run_spec kdec r m) as R. destruct (OddsFacts.run kdec r m) as [k rest]. cbn [fst snd] in R.
      destruct (in_dec kdec r rest) as [_|Hn]; [discriminate H|].
      destruct (weights rs rest) as [w'|] eqn:W; [|discriminate H]. injection H as <-.
      cbn [flat_map]. rewrite R. rewrite (cnt_block key kdec r).
      + rewrite Nat2Z.inj_mul, (IH _ _ W). f_equal. rewrite (proj1 (B r)). reflexivity.
      + apply B.
      + intros I. apply in_map_iff in I. destruct I as (x & E & I). apply in_flat_map in I.
        destruct I as (r' & Hr' & Hx). destruct (B r') as [_ F]. rewrite Forall_forall in F.
        rewrite (F x Hx) in E. subst r'. contradiction.
      + exact Hn.
  Qed.
End weights.

Definition face_dec (a b : face) : {a = b} + {a <> b}.
Proof. decide equality; [apply suit_dec|apply rank_dec]. Defined.
Definition keepb (F : list face) (f : face) : bool := if in_dec face_dec f F then false else true.
Lemma keepb_spec F f : keepb F f = true <-> ~ In f F.
Proof. unfold keepb. destruct (in_dec face_dec f F); split; intros H; try congruence; tauto. Qed.
Definition opp (c : canon) (F : list face) : list (list face) :=
  filter (fun x => is_canon c x && forallb (keepb F) x) choices.

Lemma filter_both {A} (P Q : A -> bool) l : filter (fun x => P x && Q x) l = filter P (filter Q l).
Proof.
  induction l as [|a l IH]; cbn [filter]; [reflexivity|]. destruct (Q a); cbn [filter]; destruct (P a); cbn [andb]; rewrite ?IH; reflexivity.
Qed.
Local Transparent choices.
Lemma choices_all : choices = combs 5 all_faces.
Proof. exact eq_refl. Qed.
Global Opaque choices.
Lemma opp_rest c F : opp c F = filter (is_canon c) (combs 5 (filter (keepb F) all_faces)).
Proof. unfold opp. rewrite filter_both, choices_all, combs_filter. reflexivity. Qed.

Lemma rest_blocks F : filter (keepb F) all_faces
  = flat_map (fun r => filter (keepb F) (map (pair r) SUIT_ALL_VARIANTS)) RANK_ALL_VARIANTS.
Proof. change all_faces with (flat_map (fun r => map (pair r) SUIT_ALL_VARIANTS) RANK_ALL_VARIANTS). apply GainFacts.filter_flat_map. Qed.

Lemma block_left F r : NoDup F ->
  length (filter (keepb F) (map (pair r) SUIT_ALL_VARIANTS)) = 4 - count_occ rank_dec (ranks F) r
  /\ Forall (fun f => fst f = r) (filter (keepb F) (map (pair r) SUIT_ALL_VARIANTS)).
Proof.
  intros N. split.
  - assert (P : Permutation (filter (fun f => negb (keepb F f)) (map (pair r) SUIT_ALL_VARIANTS))
                            (filter (fun f => if rank_dec (fst f) r then true else false) F)).
    { apply NoDup_Permutation.
      - apply NoDup_filter. apply FinFun.Injective_map_NoDup; [intros a b E; congruence|].
        repeat constructor; simpl; intuition discriminate.
      - apply NoDup_filter, N.
      - intros [r' s]. rewrite !filter_In, negb_true_iff, in_map_iff. unfold keepb. destruct (in_dec face_dec (r', s) F) as [I|I].
        + cbn [fst]. split.
          * intros ((s' & E & _) & _). injection E as <- <-. destruct (rank_dec r r) as [_|X]; [auto|contradiction X; reflexivity].
          * intros [_ E]. destruct (rank_dec r' r) as [->|]; [|discriminate E]. split; [|reflexivity]. exists s.
            split; [reflexivity|apply in_all_suits].
        + split; [intros [_ E]; discriminate E|intros [E _]; contradiction]. }
    apply Permutation_length in P.
    assert (C : length (filter (fun f => if rank_dec (fst f) r then true else false) F) = count_occ rank_dec (ranks F) r).
    { clear. induction F as [|f F IH]; [reflexivity|]. cbn [filter ranks map count_occ]. destruct (rank_dec (fst f) r); cbn [length]; unfold ranks in *; lia. }
    pose proof (Permutation_length (GainFacts.filter_parts (keepb F) (map (pair r) SUIT_ALL_VARIANTS))) as T.
    rewrite app_length in T. change (length (map (pair r) SUIT_ALL_VARIANTS)) with 4 in T. unfold face in *. lia.
  - apply Forall_forall. intros f I. apply filter_In in I. destruct I as [I _]. apply in_map_iff in I. destruct I as (s & <- & _). reflexivity.
Qed.

Definition left_weight (m : list rank) : option Z :=
  weights rank_dec (fun r => 4 - count_occ rank_dec m r) RANK_ALL_VARIANTS (rev m).
Definition base_rivals (c : canon) : Z :=
  if nodupr (snd c) then 243%Z else match category (canon_class c) with 1 => 27%Z | 2 => 3%Z | _ => 0%Z end.
Lemma left_weights : forallb (fun c => match left_weight (snd c) with Some w => (w =? base_rivals c)%Z | None => false end
  && (if fst c then nodupr (snd c) && ((category (canon_class c) =? 5) || (category (canon_class c) =? 8))
      else if nodupr (snd c) then (category (canon_class c) =? 0) || (category (canon_class c) =? 4)
      else negb (existsb (Nat.eqb (category (canon_class c))) [0; 4; 5; 8]))) canons = true.
Proof. vm_compute. reflexivity. Qed.

(** ** Suited hands of the other player *)
Definition no_suit_of (F : list face) (s : suit) : bool := if in_dec suit_dec s (map snd F) then false else true.
Lemma missing_suits F : length (filter (no_suit_of F) SUIT_ALL_VARIANTS) = 4 - suits_of F.
Proof.
  assert (P : Permutation (filter (fun s => negb (no_suit_of F s)) SUIT_ALL_VARIANTS) (nodup suit_dec (map snd F))).
  { apply NoDup_Permutation; [apply NoDup_filter; repeat constructor; simpl; intuition discriminate|apply NoDup_nodup|].
    intros s. rewrite filter_In, nodup_In. unfold no_suit_of. destruct (in_dec suit_dec s (map snd F)) as [I|I]; cbn [negb].
    - split; [tauto|]. intros _. split; [apply in_all_suits|reflexivity].
    - split; [intros [_ X]; discriminate X|contradiction]. }
  apply Permutation_length in P. fold (suits_of F) in P.
  pose proof (Permutation_length (GainFacts.filter_parts (no_suit_of F) SUIT_ALL_VARIANTS)) as T.
  rewrite app_length, P in T. change (length SUIT_ALL_VARIANTS) with 4 in T. lia.
Qed.
Lemma suits_at_most F : suits_of F <= 4.
Proof.
  unfold suits_of. transitivity (length SUIT_ALL_VARIANTS); [|reflexivity]. apply NoDup_incl_length; [apply NoDup_nodup|].
  intros s _. apply in_all_suits.
Qed.

Lemma suited_left m F : NoDup m -> sublist m high_to_low -> length m = 5 -> Permutation (ranks F) m ->
  length (filter (suited_with m) (combs 5 (filter (keepb F) all_faces))) = 4 - suits_of F.
Proof.
  intros N Sb L P. rewrite <- missing_suits, <- combs_filter, <- choices_all.
  rewrite <- (map_length (fun s => map (fun r => (r, s)) (rev m)) (filter (no_suit_of F) SUIT_ALL_VARIANTS)).
  apply Permutation_length. apply NoDup_Permutation.
  - apply NoDup_filter, NoDup_filter, choices_NoDup.
  - apply FinFun.Injective_map_NoDup.
    + intros s s' E. destruct (rev m) as [|r k] eqn:R.
      * apply (f_equal (@length rank)) in R. rewrite rev_length, L in R. discriminate R.
      * cbn [map] in E. injection E as E _. exact E.
    + apply NoDup_filter. repeat constructor; simpl; intuition discriminate.
  - intros h. rewrite !filter_In, in_map_iff. unfold suited_with. rewrite andb_true_iff, suitedb_spec, forallb_forall. split.
    + intros ((Hh & K) & [s Hs] & R). destruct (list_eq_dec rank_dec (ranks h) (rev m)) as [R'|]; [|discriminate R].
      assert (E : map (fun r => (r, s)) (rev m) = h).
      { rewrite <- R'. unfold ranks. rewrite map_map.
        rewrite <- map_id. apply map_ext_in. intros [r s'] Hf. rewrite Forall_forall in Hs.
        specialize (Hs _ Hf). cbn [fst snd] in *. congruence. }
      exists s. split; [exact E|]. apply filter_In. split; [apply in_all_suits|]. unfold no_suit_of.
      destruct (in_dec suit_dec s (map snd F)) as [I|_]; [|reflexivity]. exfalso.
      apply in_map_iff in I. destruct I as ([r s'] & Es & I). cbn [snd] in Es. subst s'.
      assert (J : In (r, s) h).
      { rewrite <- E. apply in_map_iff. exists r. split; [reflexivity|]. apply -> in_rev. apply (Permutation_in _ P).
        exact (in_map fst _ _ I). }
      apply K, keepb_spec in J. contradiction.
    + intros (s & <- & Hs). apply filter_In in Hs. destruct Hs as [_ Hs]. split; [split|split].
      * rewrite choices_all. apply combs_sublist. split; [|rewrite map_length, rev_length; exact L].
        apply suited_sublist. change RANK_ALL_VARIANTS with (rev high_to_low). apply sublist_rev. exact Sb.
      * intros f Hf. apply in_map_iff in Hf. destruct Hf as (r & <- & _). apply keepb_spec. intros I.
        unfold no_suit_of in Hs. destruct (in_dec suit_dec s (map snd F)) as [_|X]; [discriminate Hs|].
        apply X. exact (in_map snd _ _ I).
      * exists s. apply Forall_forall. intros f Hf. apply in_map_iff in Hf. destruct Hf as (r & <- & _). reflexivity.
      * assert (R : ranks (map (fun r => (r, s)) (rev m)) = rev m).
        { unfold ranks. rewrite map_map. cbn [fst]. apply map_id. }
        rewrite R. destruct (list_eq_dec rank_dec (rev m) (rev m)) as [_|X]; [reflexivity|contradiction X; reflexivity].
Qed.
Lemma suited_one F : suited F -> F <> [] -> suits_of F = 1.
Proof.
  intros [s Hs] N. unfold suits_of.
  assert (P : Permutation (nodup suit_dec (map snd F)) [s]).
  { apply NoDup_Permutation; [apply NoDup_nodup|repeat constructor; simpl; tauto|]. intros x. rewrite nodup_In. rewrite Forall_forall in Hs. split.
    - intros I. apply in_map_iff in I. destruct I as (f & <- & I). left. symmetry. apply Hs, I.
    - intros [<-|[]]. destruct F as [|f F]; [contradiction N; reflexivity|]. rewrite <- (Hs f (or_introl eq_refl)). left. reflexivity. }
  apply Permutation_length in P. exact P.
Qed.

(** ** All of them *)
Theorem opp_count c F : In c canons -> five_card_hand F -> Permutation (ranks F) (snd c) -> (suited F <-> fst c = true) ->
  Z.of_nat (length (opp c F)) = rivals F (category (canon_class c)).
Proof.
  intros Hc [NF LF] P Su. rewrite opp_rest.
  pose proof canons_sorted as K. rewrite forallb_forall in K. specialize (K _ Hc).
  pose proof left_weights as W. rewrite forallb_forall in W. specialize (W _ Hc). apply andb_true_iff in W. destruct W as [W Cat].
  destruct c as [f m]. cbn [fst snd] in *.
  assert (L : length m = 5) by (rewrite <- (Permutation_length P); unfold ranks; rewrite map_length; exact LF).
  pose proof (suits_at_most F) as S4.
  destruct f.
  - apply andb_true_iff in Cat. destruct Cat as [D Cat]. apply nodupr_spec in D.
    rewrite (filter_ext _ _ (is_canon_true m)), (suited_left m F D (five_different_sub m D K) L P).
    rewrite (suited_one F); [|apply Su; reflexivity|intros ->; discriminate LF].
    apply orb_true_iff in Cat. destruct Cat as [Cat|Cat]; apply Nat.eqb_eq in Cat; rewrite Cat; reflexivity.
  - destruct (left_weight m) as [w|] eqn:V; [|discriminate W]. apply Z.eqb_eq in W. subst w.
    unfold left_weight in V.
    apply (weights_spec fst rank_dec (fun r => 4 - count_occ rank_dec m r) (fun r => filter (keepb F) (map (pair r) SUIT_ALL_VARIANTS))) in V;
      [|repeat constructor; simpl; intuition discriminate|].
    2:{ intros r. rewrite <- (proj1 (Permutation_count_occ rank_dec _ _) P r).
        apply block_left, NF. }
    rewrite <- rest_blocks in V. unfold cnt in V. rewrite rev_length, L in V.
    rewrite (filter_split _ suitedb) in V. rewrite (filter_ext _ _ (is_canon_false m)).
    assert (T : forall h, suitedb h && keys_are fst rank_dec (rev m) h = suited_with m h) by reflexivity.
    rewrite (filter_ext _ _ T) in V. unfold base_rivals in V. cbn [snd] in V.
    destruct (nodupr m) eqn:D.
    + apply nodupr_spec in D. pose proof (suited_left m F D (five_different_sub m D K) L P) as Q. unfold face in *. rewrite Q in V.
      apply orb_true_iff in Cat. destruct Cat as [Cat|Cat]; apply Nat.eqb_eq in Cat; rewrite Cat; cbn [rivals]; lia.
    + assert (Z0 : length (filter (suited_with m) (combs 5 (filter (keepb F) all_faces))) = 0).
      { destruct (filter (suited_with m) _) as [|h l] eqn:E; [reflexivity|]. exfalso.
        assert (I : In h (filter (suited_with m) (combs 5 (filter (keepb F) all_faces)))) by (unfold face in *; rewrite E; left; reflexivity).
        apply filter_In in I. destruct I as [I S]. unfold suited_with in S.
        rewrite <- combs_filter, <- choices_all in I. apply filter_In in I. destruct I as [I _].
        apply andb_true_iff in S. destruct S as [S R]. apply suitedb_spec in S.
        destruct (list_eq_dec rank_dec (ranks h) (rev m)) as [R'|]; [|discriminate R].
        pose proof (suited_NoDup h (proj1 (proj2 (choices_hand h I))) S) as N.
        rewrite R' in N. apply NoDup_rev in N. rewrite rev_involutive in N.
        apply nodupr_spec in N. congruence. }
      unfold face in *. rewrite Z0 in V. cbn [Nat.add] in V. rewrite V.
      destruct (category (canon_class (false, m))) as [|[|[|[|[|[|[|[|[|k]]]]]]]]]; try discriminate Cat; reflexivity.
Qed.

(** ** The hands on the table *)
Lemma same_value ev h e c : new_evaluator ev -> hand5 h -> evaluates ev h e -> In c canons ->
  Permutation (ranks (faces h)) (snd c) -> (suited (faces h) <-> fst c = true) ->
  forall x, In x choices -> (is_canon c x = true <-> exists e', evaluates ev (map card_of x) e' /\ eval_eqb e' e = true).
Proof.
  intros Hev F E Hc P S0 x Hx.
  destruct (evaluate_spec ev _ Hev (hand5_legal _ (choices_hand5 x Hx))) as (e' & E' & _).
  pose proof (equal_results ev _ _ e' e Hev (choices_hand5 x Hx) F E' E) as Q. rewrite faces_card_of in Q.
  rewrite <- (canon_of_alike c x (faces h) Hc Hx P S0) in Q. unfold is_canon. destruct (canon_dec _ _) as [X|X].
  - split; [|reflexivity]. intros _. exists e'. split; [exact E'|apply Q, X].
  - split; [discriminate|]. intros (e'' & E'' & B). exfalso. apply X, Q.
    assert (e'' = e') as <-; [|exact B]. unfold evaluates in E', E''. congruence.
Qed.
Lemma in_faces h f : all_cards h -> (In (card_of f) h <-> In f (faces h)).
Proof.
  intros A. unfold faces. rewrite in_map_iff. split.
  - intros I. exists (card_of f). split; [apply face_card_of|exact I].
  - intros (c & <- & I). unfold all_cards in A. rewrite Forall_forall in A. destruct (A c I) as (r & s & ->).
    change (card_new r s) with (card_of (r, s)) in *. rewrite face_card_of. exact I.
Qed.
Lemma class_of_canon ev h e c : new_evaluator ev -> hand5 h -> evaluates ev h e -> In c canons ->
  Permutation (ranks (faces h)) (snd c) -> (suited (faces h) <-> fst c = true) -> eval_class_of e = canon_class c.
Proof.
  intros Hev F E Hc P S0. apply (class_correct ev h e Hev F E).
  pose proof canon_class_ok as K. rewrite forallb_forall in K. specialize (K c Hc).
  refine (proj1 (classifyb_spec (faces h) (fst c) (snd c) _ _ _ (canon_class c)) K); [|exact P|exact S0].
  unfold faces. rewrite map_length. apply F.
Qed.
Lemma in_opp ev h e c : new_evaluator ev -> hand5 h -> evaluates ev h e -> In c canons ->
  Permutation (ranks (faces h)) (snd c) -> (suited (faces h) <-> fst c = true) -> forall g,
  In g (map (map card_of) (opp c (faces h))) <->
  sublist g deck_generate /\ length g = 5 /\ (forall x, In x g -> ~ In x h)
  /\ exists e', evaluates ev g e' /\ eval_eqb e' e = true.
Proof.
  intros Hev F E Hc P S0 g.
  assert (D : forall x, forallb (keepb (faces h)) x = true <-> forall y, In y (map card_of x) -> ~ In y h).
  { intros x. rewrite forallb_forall. split.
    - intros H y I. apply in_map_iff in I. destruct I as (f & <- & I). rewrite in_faces by apply F. apply keepb_spec, H, I.
    - intros H f I. apply keepb_spec. rewrite <- in_faces by apply F. apply H, in_map, I. }
  split.
  - intros H. apply in_map_iff in H. destruct H as (x & <- & H). apply filter_In in H. destruct H as [Hx H].
    apply andb_true_iff in H. destruct H as [H1 H2].
    assert (I : In (map card_of x) five_card_choices) by (rewrite five_card_choices_map; apply in_map, Hx).
    apply (combs_sublist deck_generate 5) in I. destruct I as [I L]. split; [exact I|]. split; [exact L|].
    split; [apply D, H2|]. apply (same_value ev h e c); assumption.
  - intros (Sb & L & Dj & H). assert (I : In g five_card_choices) by (apply (combs_sublist deck_generate 5); auto).
    rewrite five_card_choices_map in I. apply in_map_iff in I. destruct I as (x & <- & Hx).
    apply in_map, filter_In. split; [exact Hx|]. apply andb_true_iff. split; [|apply D, Dj].
    apply (same_value ev h e c); assumption.
Qed.
Lemma map_card_of_inj : FinFun.Injective (map card_of).
Proof. intros a b X. rewrite <- (faces_card_of a), <- (faces_card_of b), X. reflexivity. Qed.

Theorem rivals_count ev h e : new_evaluator ev -> hand5 h -> evaluates ev h e -> exists L, NoDup L
  /\ (forall g, In g L <-> sublist g deck_generate /\ length g = 5 /\ (forall c, In c g -> ~ In c h)
                           /\ exists e', evaluates ev g e' /\ eval_eqb e' e = true)
  /\ Z.of_nat (length L) = rivals (faces h) (category (eval_class_of e)).
Proof.
  intros Hev F E.
  assert (F5 : five_card_hand (faces h)).
  { destruct F as (A & N & L). split; [apply NoDup_faces; assumption|]. unfold faces. rewrite map_length. exact L. }
  destruct (canon_exists (faces h) F5) as (c & Hc & P & S0).
  exists (map (map card_of) (opp c (faces h))). split; [|split].
  - apply FinFun.Injective_map_NoDup; [exact map_card_of_inj|apply NoDup_filter, choices_NoDup].
  - apply (in_opp ev h e c); assumption.
  - rewrite map_length, (opp_count c (faces h) Hc F5 P S0), (class_of_canon ev h e c Hev F E Hc P S0). reflexivity.
Qed.
(** The hands the other player may hold. *)
Fixpoint pascal (n : nat) : Z * Z * Z * Z * Z * Z :=
  match n with
  | O => (1, 0, 0, 0, 0, 0)
  | S n' => let '(a, b, c, d, e, f) := pascal n' in (a, a + b, b + c, c + d, d + e, e + f)
  end%Z.
Lemma pascal_binom n : pascal n = (Z.of_nat (binom n 0), Z.of_nat (binom n 1), Z.of_nat (binom n 2),
                                   Z.of_nat (binom n 3), Z.of_nat (binom n 4), Z.of_nat (binom n 5)).
Proof.
  induction n as [|n IH]; [reflexivity|]. cbn [pascal]. rewrite IH. cbn [binom]. rewrite !Nat2Z.inj_add.
  destruct n; reflexivity.
Qed.
Theorem others_count h : hand5 h -> exists L, NoDup L
  /\ (forall g, In g L <-> sublist g deck_generate /\ length g = 5 /\ (forall c, In c g -> ~ In c h))
  /\ Z.of_nat (length L) = 1533939%Z.
Proof.
  intros (A & N & L). pose proof (GainFacts.rest_perm h N A) as Pr.
  exists (combs 5 (filter (GainFacts.keep_out h) deck_generate)). split; [|split].
  - apply combs_NoDup, NoDup_filter, deck_NoDup.
  - intros g. rewrite <- combs_filter, filter_In, combs_sublist, forallb_forall. split.
    + intros ((S1 & S2) & D). repeat split; try assumption. intros c I. apply GainFacts.keep_out_spec, D, I.
    + intros (S1 & S2 & D). repeat split; try assumption. intros c I. apply GainFacts.keep_out_spec, D, I.
  - rewrite combs_binom. apply Permutation_length in Pr. rewrite app_length, deck_length, L in Pr.
    assert (E : length (filter (GainFacts.keep_out h) deck_generate) = 47) by lia. rewrite E.
    exact (eq_sym (f_equal snd (pascal_binom 47))).
Qed.

(** ** The sum over all hands *)
Section sums.
Import GainFacts.
Lemma zsum_pick {C} (cdec : forall a b : C, {a = b} + {a <> b}) (g : C -> Z) v c0 Cs : NoDup Cs -> In c0 Cs ->
  zsum (map (fun c => (if cdec c0 c then v else 0) + g c)%Z Cs) = (v + zsum (map g Cs))%Z.
Proof.
  assert (O : forall Cs, ~ In c0 Cs -> zsum (map (fun c => (if cdec c0 c then v else 0) + g c)%Z Cs) = zsum (map g Cs)).
  { clear. intros Cs H. apply zsum_ext. intros c I. destruct (cdec c0 c) as [<-|]; [contradiction|reflexivity]. }
  induction 1 as [|c Cs Hc N IH]; intros I; [destruct I|]. cbn [map]. rewrite !zsum_cons. destruct (cdec c0 c) as [<-|D].
  - rewrite (O Cs Hc). lia.
  - destruct I as [I|I]; [congruence|]. rewrite (IH I). lia.
Qed.
Lemma zsum_group {A C} (cdec : forall a b : C, {a = b} + {a <> b}) (kap : A -> C) (f : A -> Z) Cs L : NoDup Cs ->
  (forall a, In a L -> In (kap a) Cs) ->
  zsum (map f L) = zsum (map (fun c => zsum (map f (filter (fun a => if cdec (kap a) c then true else false) L))) Cs).
Proof.
  intros N. induction L as [|a L IH]; intros H.
  - cbn [filter map]. clear. induction Cs as [|c Cs IH]; [reflexivity|]. cbn [map]. rewrite zsum_cons, <- IH. reflexivity.
  - cbn [map]. rewrite zsum_cons, IH by (intros; apply H; right; assumption).
    rewrite <- (zsum_pick cdec _ (f a) (kap a) Cs N (H a (or_introl eq_refl))). apply zsum_ext. intros c _.
    cbn [filter]. destruct (cdec (kap a) c); [cbn [map]; rewrite zsum_cons; reflexivity|reflexivity].
Qed.
Lemma zsum_const {A} (f : A -> Z) k L : (forall a, In a L -> f a = k) -> zsum (map f L) = (k * Z.of_nat (length L))%Z.
Proof.
  induction L as [|a L IH]; intros H; [cbn; lia|]. cbn [map length]. rewrite zsum_cons, (H a (or_introl eq_refl)), IH; [lia|].
  intros b I. apply H. right. exact I.
Qed.
Lemma zsum_perm a b : Permutation a b -> zsum a = zsum b.
Proof. induction 1; rewrite ?zsum_cons; lia. Qed.

Fixpoint tuples (n : nat) : list (list suit) :=
  match n with O => [[]] | S n' => flat_map (fun s => map (cons s) (tuples n')) SUIT_ALL_VARIANTS end.
Lemma tuples_spec n : forall t, In t (tuples n) <-> length t = n.
Proof.
  induction n as [|n IH]; intros t; cbn [tuples].
  - split; [intros [<-|[]]; reflexivity|]. destruct t; [left; reflexivity|discriminate].
  - rewrite in_flat_map. split.
    + intros (s & _ & I). apply in_map_iff in I. destruct I as (t' & <- & I). apply IH in I. cbn. congruence.
    + destruct t as [|s t]; [discriminate|]. intros L. injection L as L. exists s. split; [apply in_all_suits|].
      apply in_map, IH, L.
Qed.
Definition mixed (t : list suit) : bool := negb (forallb (fun s => if suit_dec s (hd Clubs t) then true else false) t).
Lemma tuples_NoDup : NoDup (tuples 5).
Proof.
  assert (D : forall n, NoDup (tuples n)).
  { induction n as [|n IH]; cbn [tuples]; [repeat constructor; simpl; tauto|].
    assert (G : forall ss, NoDup ss -> NoDup (flat_map (fun s => map (cons s) (tuples n)) ss)).
    { induction 1 as [|s ss Hs N IHs]; cbn [flat_map]; [constructor|]. apply SizeFacts.NoDup_app_disj.
      - apply FinFun.Injective_map_NoDup; [intros a b E; congruence|exact IH].
      - exact IHs.
      - intros t I J. apply in_map_iff in I. destruct I as (t1 & <- & _). apply in_flat_map in J. destruct J as (s' & Hs' & J).
        apply in_map_iff in J. destruct J as (t2 & E & _). injection E as -> _. contradiction. }
    apply G. repeat constructor; simpl; intuition discriminate. }
  apply D.
Qed.
Lemma mixed_sum : zsum (map (fun t => 239 + Z.of_nat (length (nodup suit_dec t)))%Z (filter mixed (tuples 5))) = 246900%Z.
Proof. vm_compute. reflexivity. Qed.

Lemma combine_sublist (a rs : list rank) : sublist a rs -> forall ss, length ss = length a ->
  sublist (combine a ss) (list_prod rs SUIT_ALL_VARIANTS).
Proof.
  assert (App : forall (a b l m : list face), sublist a l -> sublist b m -> sublist (a ++ b) (l ++ m)).
  { clear. intros a b l m H. induction H; cbn [app]; intros G; [exact G|constructor; auto|constructor; auto]. }
  induction 1 as [|r a rs H IH|r a rs H IH]; intros ss L; cbn [combine list_prod].
  - constructor.
  - destruct ss as [|s ss]; [discriminate L|]. injection L as L. cbn [combine].
    apply (App [(r, s)]); [|exact (IH ss L)]. clear. destruct s; cbn [SUIT_ALL_VARIANTS map]; repeat constructor.
  - apply (App []); [|exact (IH ss L)]. apply sublist_nil_l.
Qed.
Lemma combine_fst {A B} (a : list A) : forall b : list B, length b = length a -> map fst (combine a b) = a.
Proof. induction a as [|x a IH]; intros [|y b] L; try discriminate L; [reflexivity|]. cbn [combine map fst]. rewrite IH; [reflexivity|cbn in L; lia]. Qed.
Lemma combine_snd {A B} (a : list A) : forall b : list B, length b = length a -> map snd (combine a b) = b.
Proof. induction a as [|x a IH]; intros [|y b] L; try discriminate L; [reflexivity|]. cbn [combine map snd]. rewrite IH; [reflexivity|cbn in L; lia]. Qed.
Lemma combine_self {A B} (l : list (A * B)) : combine (map fst l) (map snd l) = l.
Proof. induction l as [|[x y] l IH]; [reflexivity|]. cbn [map combine fst snd]. rewrite IH. reflexivity. Qed.
Lemma mixed_spec h : h <> [] -> (mixed (map snd h) = true <-> suitedb h = false).
Proof.
  intros N. rewrite <- not_true_iff_false, suitedb_spec. unfold mixed. rewrite negb_true_iff, <- not_true_iff_false, forallb_forall.
  apply not_iff_compat. destruct h as [|f h]; [contradiction N; reflexivity|]. cbn [map hd]. split.
  - intros H. exists (snd f). apply Forall_forall. intros g I. specialize (H (snd g) (in_map snd _ _ I)).
    destruct (suit_dec (snd g) (snd f)) as [E|]; [exact E|discriminate H].
  - intros [s Hs] x I. rewrite Forall_forall in Hs. change (In x (map snd (f :: h))) in I. apply in_map_iff in I. destruct I as (g & <- & I).
    rewrite (Hs g I), (Hs f (or_introl eq_refl)). destruct (suit_dec s s) as [_|X]; [reflexivity|contradiction X; reflexivity].
Qed.
Lemma mixed_hands m : NoDup m -> descb m = true -> length m = 5 ->
  Permutation (filter (is_canon (false, m)) choices) (map (combine (rev m)) (filter mixed (tuples 5))).
Proof.
  intros N D L. pose proof (five_different_sub m N D) as Sb. assert (Lr : length (rev m) = 5) by (rewrite rev_length; exact L).
  apply NoDup_Permutation.
  - apply NoDup_filter, choices_NoDup.
  - assert (G : forall T : list (list suit), (forall t, In t T -> length t = 5) -> NoDup T -> NoDup (map (combine (rev m)) T)).
    { clear -Lr. induction T as [|t T IH]; intros H ND; cbn [map]; [constructor|]. inversion_clear ND as [|? ? Nt NT]. constructor.
      - intros I. apply in_map_iff in I. destruct I as (t' & E & I). apply Nt.
        rewrite <- (combine_snd (rev m) t), <- E, combine_snd; [exact I| |]; rewrite Lr; apply H; [right; exact I|left; reflexivity].
      - apply IH; [intros x I; apply H; right; exact I|exact NT]. }
    apply G; [|apply NoDup_filter, tuples_NoDup]. intros t I. apply filter_In in I. apply (tuples_spec 5), I.
  - intros h. rewrite filter_In, in_map_iff, is_canon_false. split.
    + intros (Hh & E). apply andb_true_iff in E. destruct E as [E1 E2]. apply negb_true_iff in E1. unfold keys_are in E2.
      destruct (list_eq_dec rank_dec (map fst h) (rev m)) as [R|]; [|discriminate E2].
      destruct (choices_hand h Hh) as (_ & _ & Lh).
      exists (map snd h). split; [rewrite <- R; apply combine_self|]. apply filter_In. split.
      * apply tuples_spec. rewrite map_length. exact Lh.
      * apply mixed_spec; [intros ->; discriminate Lh|exact E1].
    + intros (t & <- & I). apply filter_In in I. destruct I as [I M]. apply tuples_spec in I. 
      assert (Lt : length t = length (rev m)) by congruence. split.
      * rewrite choices_all. apply combs_sublist. split; [|refine (eq_trans (combine_length (rev m) t) _); rewrite Lr, I; reflexivity].
        apply combine_sublist; [|exact Lt]. change RANK_ALL_VARIANTS with (rev high_to_low). apply sublist_rev, Sb.
      * apply andb_true_iff. split.
        -- apply negb_true_iff. apply mixed_spec; [|rewrite combine_snd by exact Lt; exact M].
           intros E. pose proof (combine_length (rev m) t) as CL. rewrite E, Lr, I in CL. discriminate CL.
        -- unfold keys_are. rewrite combine_fst by exact Lt. destruct (list_eq_dec rank_dec (rev m) (rev m)) as [_|X]; [reflexivity|contradiction X; reflexivity].
Qed.

Definition worth (x : list face) : Z := rivals x (category (canon_class (canon_of x))).
Definition canon_sum (c : canon) : Z :=
  if fst c then 12%Z else if nodupr (snd c) then 246900%Z
  else match canon_weight c with Some w => (base_rivals c * w)%Z | None => 0%Z end.
Lemma canon_sums : zsum (map canon_sum canons) = tied
  /\ forallb (fun c => match canon_weight c with Some _ => true | None => false end) canons = true.
Proof. split; vm_compute; reflexivity. Qed.
Lemma canon_sum_ok c : In c canons -> zsum (map worth (filter (is_canon c) choices)) = canon_sum c.
Proof.
  intros Hc. pose proof (proj2 canon_sums) as CW. rewrite forallb_forall in CW. specialize (CW c Hc).
  destruct (canon_weight c) as [w|] eqn:Ew; [|discriminate CW]. clear CW.
  pose proof (canon_weight_spec c w Hc Ew) as Lw.
  assert (CO : forall x, In x (filter (is_canon c) choices) -> canon_of x = c).
  { intros x I. apply filter_In in I. destruct I as [_ I]. unfold is_canon in I. destruct (canon_dec (canon_of x) c) as [E|]; [exact E|discriminate I]. }
  pose proof left_weights as W. rewrite forallb_forall in W. specialize (W _ Hc). apply andb_true_iff in W. destruct W as [_ Cat].
  unfold canon_sum. rewrite Ew. destruct (fst c) eqn:Fc.
  - apply andb_true_iff in Cat. destruct Cat as [_ Cat]. rewrite (zsum_const worth 3).
    + rewrite Lw. unfold canon_weight in Ew. rewrite Fc in Ew. injection Ew as <-. reflexivity.
    + intros x I. unfold worth. rewrite (CO x I). apply orb_true_iff in Cat. destruct Cat as [Cat|Cat]; apply Nat.eqb_eq in Cat; rewrite Cat; reflexivity.
  - destruct (nodupr (snd c)) eqn:D.
    + destruct c as [f m]. cbn [fst snd] in *. subst f. apply nodupr_spec in D.
      pose proof canons_sorted as K. rewrite forallb_forall in K. specialize (K _ Hc). cbn [snd] in K.
      assert (L : length m = 5).
      { destruct (deal_spec (false, m) Hc) as ((_ & _ & L) & R & _). cbn [snd] in R.
        rewrite <- R. unfold ranks, faces. rewrite !map_length. exact L. }
      transitivity (zsum (map (fun x => 239 + Z.of_nat (suits_of x))%Z (filter (is_canon (false, m)) choices))).
      { apply zsum_ext. intros x I. unfold worth. rewrite (CO x I).
        apply orb_true_iff in Cat. destruct Cat as [Cat|Cat]; apply Nat.eqb_eq in Cat; rewrite Cat; reflexivity. }
      rewrite (zsum_perm _ _ (Permutation_map _ (mixed_hands m D K L))), map_map, <- mixed_sum. apply zsum_ext.
      intros t I. apply filter_In in I. destruct I as [I _]. apply tuples_spec in I. unfold suits_of.
      rewrite combine_snd; [reflexivity|]. rewrite rev_length. congruence.
    + rewrite (zsum_const worth (base_rivals c)); [rewrite Lw; reflexivity|].
      intros x I. unfold worth, base_rivals. rewrite (CO x I), D.
      destruct (category (canon_class c)) as [|[|[|[|[|[|[|[|[|k]]]]]]]]]; try discriminate Cat; reflexivity.
Qed.
Theorem worth_sum : zsum (map worth choices) = tied.
Proof.
  rewrite (zsum_group canon_dec canon_of worth canons choices canons_NoDup canon_of_in), <- (proj1 canon_sums).
  apply zsum_ext. intros c Hc. exact (canon_sum_ok c Hc).
Qed.
End sums.

(** ** Pairs of hands *)
Definition tied_faces : list (list card * list card) :=
  flat_map (fun x => map (fun y => (map card_of x, map card_of y)) (opp (canon_of x) x)) choices.
Lemma tied_faces_length : Z.of_nat (length tied_faces) = tied.
Proof.
  rewrite <- worth_sum. unfold tied_faces.
  assert (G : forall L, incl L choices ->
    Z.of_nat (length (flat_map (fun x => map (fun y => (map card_of x, map card_of y)) (opp (canon_of x) x)) L))
    = GainFacts.zsum (map worth L)).
  { induction L as [|x L IH]; intros I; [reflexivity|]. cbn [flat_map map].
    rewrite app_length, Nat2Z.inj_add, IH by (intros y J; apply I; right; exact J). rewrite GainFacts.zsum_cons, map_length.
    f_equal. pose proof (I x (or_introl eq_refl)) as Hx. apply opp_count.
    - apply canon_of_in, Hx.
    - apply choices_hand, Hx.
    - apply Permutation_rev.
    - cbn [fst canon_of]. rewrite suitedb_spec. reflexivity. }
  apply G, incl_refl.
Qed.
Lemma NoDup_flat_pairs {A B} (f : A -> list B) L : NoDup L -> (forall a, In a L -> NoDup (f a)) ->
  NoDup (flat_map (fun a => map (pair a) (f a)) L).
Proof.
  induction 1 as [|a L Ha N IH]; intros H; cbn [flat_map]; [constructor|]. apply SizeFacts.NoDup_app_disj.
  - apply FinFun.Injective_map_NoDup; [intros x y E; congruence|apply H; left; reflexivity].
  - apply IH. intros b I. apply H. right. exact I.
  - intros p I J. apply in_map_iff in I. destruct I as (x & <- & _). apply in_flat_map in J. destruct J as (b & Hb & J).
    apply in_map_iff in J. destruct J as (y & E & _). injection E as -> _. contradiction.
Qed.
Lemma tied_faces_NoDup : NoDup tied_faces.
Proof.
  assert (E : tied_faces = map (fun p => (map card_of (fst p), map card_of (snd p)))
                             (flat_map (fun x => map (pair x) (opp (canon_of x) x)) choices)).
  { unfold tied_faces. generalize choices. intros L. induction L as [|x L IH]; [reflexivity|]. cbn [flat_map].
    rewrite map_app, <- IH, map_map. reflexivity. }
  rewrite E. apply FinFun.Injective_map_NoDup.
  - intros [a b] [a' b'] X. injection X as X Y. apply map_card_of_inj in X, Y. congruence.
  - apply NoDup_flat_pairs; [apply choices_NoDup|]. intros x _. apply NoDup_filter, choices_NoDup.
Qed.
Lemma in_tied_faces ev g h : new_evaluator ev -> (In (g, h) tied_faces <->
  hands g h /\ exists e e', evaluates ev g e /\ evaluates ev h e' /\ eval_eqb e e' = true).
Proof.
  intros Hev. unfold tied_faces. rewrite in_flat_map.
  assert (X : forall x, In x choices -> exists e, evaluates ev (map card_of x) e
    /\ forall h, In h (map (map card_of) (opp (canon_of x) x)) <->
       sublist h deck_generate /\ length h = 5 /\ (forall c, In c h -> ~ In c (map card_of x))
       /\ exists e', evaluates ev h e' /\ eval_eqb e' e = true).
  { intros x Hx. pose proof (choices_hand5 x Hx) as F. destruct (evaluate_spec ev _ Hev (hand5_legal _ F)) as (e & E & _).
    exists e. split; [exact E|]. intros h'.
    pose proof (in_opp ev (map card_of x) e (canon_of x) Hev F E (canon_of_in x Hx)) as Q. rewrite faces_card_of in Q. apply Q.
    - apply Permutation_rev.
    - cbn [fst canon_of]. rewrite suitedb_spec. reflexivity. }
  assert (Sy : forall a b : eval, eval_eqb a b = eval_eqb b a) by (intros a b; unfold eval_eqb; apply Z.eqb_sym).
  assert (Un : forall h (e e' : eval), evaluates ev h e -> evaluates ev h e' -> e = e') by (intros ? e e'; unfold evaluates; congruence).
  split.
  - intros (x & Hx & I). apply in_map_iff in I. destruct I as (y & E & Hy). injection E as <- <-.
    destruct (X x Hx) as (e & E & Q). destruct (proj1 (Q (map card_of y)) (in_map _ _ _ Hy)) as (S1 & L1 & D & e' & E' & B).
    assert (I : In (map card_of x) five_card_choices) by (rewrite five_card_choices_map; apply in_map, Hx).
    apply (combs_sublist deck_generate 5) in I. destruct I as [I L]. split.
    + repeat split; try assumption. intros c Hc J. exact (D c J Hc).
    + exists e, e'. split; [exact E|]. split; [exact E'|]. rewrite Sy. exact B.
  - intros ((S1 & S2 & L1 & L2 & D) & e & e' & E & E' & B).
    assert (I : In g five_card_choices) by (apply (combs_sublist deck_generate 5); auto).
    rewrite five_card_choices_map in I. apply in_map_iff in I. destruct I as (x & <- & Hx).
    exists x. split; [exact Hx|]. destruct (X x Hx) as (e0 & E0 & Q). rewrite (Un _ _ _ E0 E) in *.
    assert (J : In h (map (map card_of) (opp (canon_of x) x))).
    { apply Q. split; [exact S2|]. split; [exact L2|]. split; [intros c Hc J; exact (D c J Hc)|].
      exists e'. split; [exact E'|]. rewrite Sy. exact B. }
    apply in_map_iff in J. destruct J as (y & <- & Hy). apply in_map_iff. exists y. auto.
Qed.
Theorem tied_pairs ev : new_evaluator ev -> exists L : list (list card * list card), NoDup L
  /\ (forall g h, In (g, h) L <-> hands g h /\ exists e e', evaluates ev g e /\ evaluates ev h e' /\ eval_eqb e e' = true)
  /\ Z.of_nat (length L) = tied.
Proof.
  intros Hev. exists tied_faces. split; [exact tied_faces_NoDup|]. split; [|exact tied_faces_length].
  intros g h. apply in_tied_faces, Hev.
Qed.

(** ** Hands dealt from a shuffled deck *)
Lemma NoDup_flat_map {A B} (f : A -> list B) L : NoDup L -> (forall a, In a L -> NoDup (f a)) ->
  (forall a a' b, In a L -> In a' L -> In b (f a) -> In b (f a') -> a = a') -> NoDup (flat_map f L).
Proof.
  induction 1 as [|a L Ha N IH]; intros H D; cbn [flat_map]; [constructor|]. apply SizeFacts.NoDup_app_disj.
  - apply H. left. reflexivity.
  - apply IH; [intros x I; apply H; right; exact I|]. intros x y b I J. apply D; right; assumption.
  - intros b I J. apply in_flat_map in J. destruct J as (x & Hx & J).
    rewrite (D a x b (or_introl eq_refl) (or_intror Hx) I J) in Ha. contradiction.
Qed.
Lemma flat_map_const {A B} (f : A -> list B) k L : (forall a, In a L -> length (f a) = k) -> length (flat_map f L) = length L * k.
Proof.
  induction L as [|a L IH]; intros H; [reflexivity|]. cbn [flat_map length]. rewrite app_length, (H a (or_introl eq_refl)), IH; [lia|].
  intros x I. apply H. right. exact I.
Qed.
Lemma prefix_orders {A} (l : list A) k ps : NoDup l -> NoDup ps -> (forall p, In p ps -> NoDup p /\ incl p l /\ length p = k) ->
  exists D, NoDup D /\ length D = length ps * fact (length l - k)
    /\ forall d, In d D <-> Permutation l d /\ In (firstn k d) ps.
Proof.
  intros Nl. induction 1 as [|p ps Np N IH]; intros H.
  - exists []. split; [constructor|]. split; [reflexivity|]. intros d. split; [intros []|intros (_ & [])].
  - destruct IH as (D & ND & LD & HD); [intros q Hq; apply H; right; exact Hq|].
    destruct (H p (or_introl eq_refl)) as (P1 & P2 & P3).
    destruct (any_prefix_orders l p Nl P1 P2) as (D' & ND' & LD' & HD'). rewrite P3 in LD', HD'.
    exists (D' ++ D). split; [|split].
    + apply SizeFacts.NoDup_app_disj; [exact ND'|exact ND|]. intros d J K. apply HD' in J. apply HD in K.
      destruct J as (_ & J), K as (_ & K). rewrite J in K. contradiction.
    + rewrite app_length, LD, LD'. cbn [length]. lia.
    + intros d. rewrite in_app_iff, HD, HD'. cbn [In]. split.
      * intros [(P & E)|(P & E)]; split; auto.
      * intros (P & [E|E]); [left|right]; auto.
Qed.
Lemma same_members {A} (a b : list A) : NoDup a -> NoDup b -> (forall x, In x a <-> In x b) -> length a = length b.
Proof. intros Na Nb H. apply Permutation_length, NoDup_Permutation; assumption. Qed.
Lemma picks_first {d : list card} n : n <= length d -> picks d (seq 0 n) = firstn n d.
Proof.
  intros L. rewrite picks_take. pose proof (take_seq d 0 (length d) eq_refl) as T. cbn [skipn] in T.
  replace (length d) with (n + (length d - n)) in T by lia. rewrite seq_app, take_app in T. cbn [Nat.add] in T.
  pose proof (f_equal (firstn n) T) as E. rewrite firstn_app in E.
  assert (Lt : length (take_at d (seq 0 n)) = n).
  { rewrite take_length; [apply seq_length|]. apply Forall_forall. intros i I. apply in_seq in I. lia. }
  rewrite Lt, Nat.sub_diag, firstn_O, app_nil_r, firstn_all2 in E by lia. exact E.
Qed.

Definition ten_cards (p : list card) : Prop := NoDup p /\ all_cards p /\ length p = 10.
Definition outcomes (ev : evaluator) (R : eval -> eval -> bool) (p : list card) : Prop :=
  exists e e', evaluates ev (firstn 5 p) e /\ evaluates ev (skipn 5 p) e' /\ R e e' = true.
Lemma ten_hands p : ten_cards p -> hand5 (firstn 5 p) /\ hand5 (skipn 5 p) /\ (forall c, In c (firstn 5 p) -> ~ In c (skipn 5 p)).
Proof.
  intros (N & A & L). rewrite <- (firstn_skipn 5 p) in N, A. pose proof (NoDup_parts _ _ N) as (N1 & N2).
  apply Forall_app in A. destruct A as [A1 A2].
  split; [split; [exact A1|split; [exact N1|rewrite firstn_length, L; reflexivity]]|].
  split; [split; [exact A2|split; [exact N2|rewrite skipn_length, L; reflexivity]]|].
  clear -N. induction (firstn 5 p) as [|x f IH]; intros c I J; [exact I|]. cbn [app] in N. inversion_clear N as [|? ? Nx Nf].
  destruct I as [<-|I]; [apply Nx, in_app_iff; right; exact J|exact (IH Nf c I J)].
Qed.
Lemma outcomes_dec ev R p : new_evaluator ev -> ten_cards p -> outcomes ev R p \/ ~ outcomes ev R p.
Proof.
  intros Hev T. destruct (ten_hands p T) as (F1 & F2 & _).
  destruct (evaluate_spec ev _ Hev (hand5_legal _ F1)) as (e & E & _). destruct (evaluate_spec ev _ Hev (hand5_legal _ F2)) as (e' & E' & _).
  destruct (R e e') eqn:B; [left; exists e, e'; auto|right]. intros (x & x' & X & X' & B').
  unfold evaluates in *. assert (x = e) by congruence. assert (x' = e') by congruence. congruence.
Qed.

Definition tied_tens : list (list card) :=
  flat_map (fun p => flat_map (fun x => map (app x) (perms (snd p))) (perms (fst p))) tied_faces.
Lemma in_tens p : In p tied_tens <-> exists g h x y, In (g, h) tied_faces /\ Permutation g x /\ Permutation h y /\ p = x ++ y.
Proof.
  unfold tied_tens. rewrite in_flat_map. split.
  - intros ((g & h) & I & J). apply in_flat_map in J. destruct J as (x & Hx & J). apply in_map_iff in J. destruct J as (y & <- & Hy).
    cbn [fst snd] in *. apply in_perms in Hx, Hy. exists g, h, x, y. auto.
  - intros (g & h & x & y & I & Px & Py & ->). exists (g, h). split; [exact I|]. cbn [fst snd]. apply in_flat_map.
    exists x. split; [apply in_perms, Px|]. apply in_map, in_perms, Py.
Qed.
Lemma tied_parts ev g h : new_evaluator ev -> In (g, h) tied_faces -> hands g h.
Proof. intros Hev I. apply (in_tied_faces ev g h Hev), I. Qed.
Lemma halves {A} n (x y x' y' : list A) : length x = n -> length x' = n -> x ++ y = x' ++ y' -> x = x' /\ y = y'.
Proof.
  revert x x'. induction n as [|n IH]; intros [|a x] [|a' x'] L L' E; try discriminate L; try discriminate L'.
  - split; [reflexivity|exact E].
  - injection E as -> E. injection L as L. injection L' as L'. destruct (IH x x' L L' E) as [-> ->]. auto.
Qed.
Lemma tied_tens_NoDup ev : new_evaluator ev -> NoDup tied_tens.
Proof.
  intros Hev. apply NoDup_flat_map; [exact tied_faces_NoDup| |].
  - intros (g & h) I. destruct (tied_parts ev g h Hev I) as (S1 & S2 & L1 & L2 & _). cbn [fst snd].
    pose proof (sublist_NoDup _ _ S1 deck_NoDup) as N1. pose proof (sublist_NoDup _ _ S2 deck_NoDup) as N2.
    apply NoDup_flat_map; [apply perms_NoDup, N1| |].
    + intros x _. apply FinFun.Injective_map_NoDup; [intros u v E; apply app_inv_head in E; exact E|apply perms_NoDup, N2].
    + intros x x' p Hx Hx' J J'. apply in_map_iff in J, J'. destruct J as (y & <- & _), J' as (y' & E & _).
      apply in_perms, Permutation_length in Hx, Hx'. symmetry in E. exact (proj1 (halves 5 x y x' y' ltac:(lia) ltac:(lia) E)).
  - intros (g & h) (g' & h') p I I' J J'. destruct (tied_parts ev g h Hev I) as (S1 & S2 & L1 & L2 & _).
    destruct (tied_parts ev g' h' Hev I') as (S1' & S2' & L1' & L2' & _). cbn [fst snd] in *.
    apply in_flat_map in J, J'. destruct J as (x & Hx & J), J' as (x' & Hx' & J').
    apply in_map_iff in J, J'. destruct J as (y & <- & Hy), J' as (y' & E & Hy'). apply in_perms in Hx, Hx', Hy, Hy'.
    symmetry in E. pose proof (Permutation_length Hx) as K. pose proof (Permutation_length Hx') as K'.
    destruct (halves 5 x y x' y' ltac:(lia) ltac:(lia) E) as [-> ->].
    f_equal; apply (sublist_perm_eq deck_generate deck_NoDup); try assumption;
      [exact (Permutation_trans Hx (Permutation_sym Hx'))|exact (Permutation_trans Hy (Permutation_sym Hy'))].
Qed.
Lemma tied_tens_length ev : new_evaluator ev -> length tied_tens = length tied_faces * (fact 5 * fact 5).
Proof.
  intros Hev. apply flat_map_const. intros (g & h) I. destruct (tied_parts ev g h Hev I) as (_ & _ & L1 & L2 & _). cbn [fst snd].
  rewrite (flat_map_const _ (fact 5)); [rewrite perms_length, L1; reflexivity|]. intros x _. rewrite map_length, perms_length, L2. reflexivity.
Qed.
Lemma tied_tens_spec ev p : new_evaluator ev -> ten_cards p -> (In p tied_tens <-> outcomes ev eval_eqb p).
Proof.
  intros Hev T. destruct (ten_hands p T) as (F1 & F2 & D). rewrite in_tens. split.
  - intros (g & h & x & y & I & Px & Py & ->). apply (in_tied_faces ev g h Hev) in I.
    destruct I as ((_ & _ & L1 & L2 & _) & e & e' & E & E' & B). exists e, e'.
    pose proof (Permutation_length Px) as Kx.
    assert (X1 : firstn 5 (x ++ y) = x) by (rewrite firstn_app, firstn_all2 by lia; replace (5 - length x) with 0 by lia; cbn; apply app_nil_r).
    assert (X2 : skipn 5 (x ++ y) = y) by (rewrite skipn_app, skipn_all2 by lia; replace (5 - length x) with 0 by lia; reflexivity).
    rewrite X1, X2 in *. split; [|split; [|exact B]].
    + refine (proj1 (proj1 (permutation_ok ev g x Hev _ Px) e) E). exact (Permutation_Forall (Permutation_sym Px) (proj1 F1)).
    + refine (proj1 (proj1 (permutation_ok ev h y Hev _ Py) e') E'). exact (Permutation_Forall (Permutation_sym Py) (proj1 F2)).
  - intros (e & e' & E & E' & B).
    assert (S : forall h, hand5 h -> exists g, sublist g deck_generate /\ length g = 5 /\ Permutation h g).
    { intros h (A & N & L). destruct (combs_complete card_dec deck_generate 5 h N) as (g & Hg & P); [|exact L|].
      - intros c I. apply in_deck. unfold all_cards in A. rewrite Forall_forall in A. apply A, I.
      - apply combs_sublist in Hg. exists g. tauto. }
    destruct (S _ F1) as (g & S1 & L1 & P1). destruct (S _ F2) as (h & S2 & L2 & P2).
    exists g, h, (firstn 5 p), (skipn 5 p). split; [|split; [symmetry; exact P1|split; [symmetry; exact P2|symmetry; apply firstn_skipn]]].
    apply (in_tied_faces ev g h Hev). split.
    + repeat split; try assumption. intros c I J. apply (D c); [exact (Permutation_in _ (Permutation_sym P1) I)|exact (Permutation_in _ (Permutation_sym P2) J)].
    + exists e, e'. split; [|split; [|exact B]].
      * exact (proj1 (proj1 (permutation_ok ev _ g Hev (proj1 F1) P1) e) E).
      * exact (proj1 (proj1 (permutation_ok ev _ h Hev (proj1 F2) P2) e') E').
Qed.

Lemma shuffled_tens d : Permutation deck_generate d -> forall is, NoDup is -> length is = 10 -> Forall (fun i => i < 52) is -> ten_cards (picks d is).
Proof.
  intros P is N L F. rewrite picks_take. pose proof (Permutation_length P) as Ld. rewrite deck_length in Ld. split; [|split].
  - apply take_NoDup; [apply (Permutation_NoDup P deck_NoDup)|exact N].
  - apply Forall_forall. intros c Hc. apply take_incl in Hc. apply (Permutation_in _ (Permutation_sym P)) in Hc. apply in_deck, Hc.
  - rewrite take_length; [exact L|]. rewrite <- Ld. exact F.
Qed.
Definition led (Q : list card -> Prop) (L : list (list nat)) : Prop :=
  NoDup L /\ forall js, In js L <-> answers 52 js /\ exists d, shuffled_with script js = Ret (d, []) /\ Q d.
Lemma apart_swap a b : apart a b -> apart b a.
Proof.
  intros (N & F & L1 & L2). split; [exact (Permutation_NoDup (Permutation_app_comm a b) N)|].
  split; [exact (Permutation_Forall (Permutation_app_comm a b) F)|]. auto.
Qed.
Lemma outcomes_picks ev R a b d : apart a b -> Permutation deck_generate d -> (outcomes ev R (picks d (a ++ b)) <->
  exists e e', evaluates ev (picks d a) e /\ evaluates ev (picks d b) e' /\ R e e' = true).
Proof.
  intros (N & F & L1 & L2) P. rewrite !picks_take, take_app.
  assert (La : length (take_at d a) = 5).
  { rewrite take_length; [exact L1|]. apply Forall_app in F. rewrite <- (Permutation_length P), deck_length. apply F. }
  unfold outcomes.
  assert (X1 : firstn 5 (take_at d a ++ take_at d b) = take_at d a) by (rewrite firstn_app, firstn_all2 by lia; rewrite La; cbn; apply app_nil_r).
  assert (X2 : skipn 5 (take_at d a ++ take_at d b) = take_at d b) by (rewrite skipn_app, skipn_all2 by lia; rewrite La; reflexivity).
  rewrite X1, X2. reflexivity.
Qed.
Lemma dealt_outcomes ev R a b L : apart a b -> led (fun d => outcomes ev R (picks d (a ++ b))) L ->
  led (fun d => exists e e', evaluates ev (picks d a) e /\ evaluates ev (picks d b) e' /\ R e e' = true) L.
Proof.
  intros A (N & H). split; [exact N|]. intros js. rewrite H. split; intros (V & d & E & Q); (split; [exact V|]); exists d; (split; [exact E|]);
    destruct (shuffle_scripted js V) as (d' & E' & P); rewrite E in E'; injection E' as <-; apply (outcomes_picks ev R a b d A P), Q.
Qed.
Theorem dealt_ties ev a b : new_evaluator ev -> apart a b -> exists L,
  led (fun d => exists e e', evaluates ev (picks d a) e /\ evaluates ev (picks d b) e' /\ eval_eqb e e' = true) L
  /\ Z.of_nat (length L) = (tied * Z.of_nat (fact 5 * fact 5 * fact 42))%Z.
Proof.
  intros Hev A. pose proof A as (N & F & L1 & L2).
  destruct (prefix_orders deck_generate 10 tied_tens deck_NoDup (tied_tens_NoDup ev Hev)) as (D & ND & LD & HD).
  { intros p I. apply in_tens in I. destruct I as (g & h & x & y & I & Px & Py & ->).
    destruct (tied_parts ev g h Hev I) as (S1 & S2 & K1 & K2 & Dj). split; [|split].
    - apply SizeFacts.NoDup_app_disj.
      + exact (Permutation_NoDup Px (sublist_NoDup _ _ S1 deck_NoDup)).
      + exact (Permutation_NoDup Py (sublist_NoDup _ _ S2 deck_NoDup)).
      + intros c I1 I2. exact (Dj c (Permutation_in _ (Permutation_sym Px) I1) (Permutation_in _ (Permutation_sym Py) I2)).
    - intros c J. apply in_app_iff in J. destruct J as [J|J].
      + exact (sublist_incl _ _ S1 c (Permutation_in _ (Permutation_sym Px) J)).
      + exact (sublist_incl _ _ S2 c (Permutation_in _ (Permutation_sym Py) J)).
    - rewrite app_length, <- (Permutation_length Px), <- (Permutation_length Py). lia. }
  assert (N10 : NoDup (seq 0 10)) by apply seq_NoDup.
  assert (F10 : Forall (fun i => i < 52) (seq 0 10)) by (apply Forall_forall; intros i I; apply in_seq in I; lia).
  destruct (scripts_with (fun d => outcomes ev eval_eqb (picks d (seq 0 10))) D ND) as (L0 & NL0 & LL0 & HL0).
  { intros d. rewrite HD. split; intros (P & I); (split; [exact P|]);
      pose proof (shuffled_tens d P (seq 0 10) N10 (seq_length 10 0) F10) as T;
      (rewrite picks_first in * by (rewrite <- (Permutation_length P), deck_length; lia)); apply (tied_tens_spec ev _ Hev T), I. }
  destruct (positions_alike (seq 0 10) (a ++ b) (outcomes ev eval_eqb) N10 N) as (La & Lb & NLa & NLb & E & HLa & HLb); [| | | |].
  - rewrite app_length, L1, L2. reflexivity.
  - exact F10.
  - exact F.
  - intros p Np Ap Lp. apply outcomes_dec; [exact Hev|]. rewrite seq_length in Lp. exact (conj Np (conj Ap Lp)).
  - exists Lb. split; [apply (dealt_outcomes ev eval_eqb a b Lb A); split; assumption|].
    rewrite <- E, (same_members La L0 NLa NL0); [|intros js; rewrite HLa, HL0; reflexivity].
    rewrite LL0, LD, (tied_tens_length ev Hev), deck_length. change (52 - 10) with 42.
    rewrite <- tied_faces_length. generalize (fact 42) (fact 5 * fact 5) (length tied_faces). intros p q r.
    rewrite !Nat2Z.inj_mul. ring.
Qed.
Lemma eqb_sym_eval (a b : eval) : eval_eqb a b = eval_eqb b a.
Proof. unfold eval_eqb. apply Z.eqb_sym. Qed.
Lemma better_not_equal a b : eval_is_better_than a b = true -> eval_eqb b a = true -> False.
Proof.
  rewrite eqb_sym_eval. intros B E. apply (eval_methods a b) in B. apply (eval_order a b a) in E. congruence.
Qed.
Lemma better_not_better a b : eval_is_better_than a b = true -> eval_is_better_than b a = true -> False.
Proof.
  intros B C. apply (eval_methods a b) in B. apply (eval_methods b a) in C.
  pose proof (proj1 (proj2 (eval_order a b a))) as T. rewrite B, C in T. discriminate T.
Qed.
Lemma three_ways a b : eval_is_better_than a b = true \/ eval_is_better_than b a = true \/ eval_eqb a b = true.
Proof.
  pose proof (proj1 (proj2 (eval_order a b a))) as T. destruct (eval_cmp a b) eqn:C.
  - right. right. apply (eval_order a b a), C.
  - right. left. apply (eval_methods b a). exact T.
  - left. apply (eval_methods a b), C.
Qed.
Lemma led_all : exists L, led (fun _ => True) L /\ length L = fact 52.
Proof.
  destruct (scripts_with (fun _ => True) (perms deck_generate) (perms_NoDup _ deck_NoDup)) as (L & NL & LL & HL).
  - intros d. rewrite in_perms. tauto.
  - exists L. split; [split; assumption|]. rewrite LL, perms_length, deck_length. reflexivity.
Qed.
Theorem dealt_wins_count ev a b : new_evaluator ev -> apart a b -> exists L,
  led (fun d => exists e e', evaluates ev (picks d a) e /\ evaluates ev (picks d b) e' /\ eval_is_better_than e e' = true) L
  /\ (2 * Z.of_nat (length L) + tied * Z.of_nat (fact 5 * fact 5 * fact 42) = Z.of_nat (fact 52))%Z.
Proof.
  intros Hev A. pose proof (apart_swap a b A) as B. pose proof A as (Na & Fa & La & Lb). pose proof B as (Nb & Fb & _ & _).
  destruct (dealt_ties ev a b Hev A) as (LT & (NT & HT) & CT). rewrite <- CT.
  assert (L10 : length (a ++ b) = 10) by (rewrite app_length, La, Lb; reflexivity).
  destruct (positions_alike (a ++ b) (b ++ a) (outcomes ev eval_is_better_than) Na Nb) as (WA & WB & NA & NB & E & HA & HB); [| | | |].
  - rewrite !app_length. lia.
  - exact Fa.
  - exact Fb.
  - intros p Np Ap Lp. apply outcomes_dec; [exact Hev|]. rewrite L10 in Lp. exact (conj Np (conj Ap Lp)).
  - destruct (dealt_outcomes ev eval_is_better_than a b WA A (conj NA HA)) as [_ HA'].
    destruct (dealt_outcomes ev eval_is_better_than b a WB B (conj NB HB)) as [_ HB'].
    exists WA. split; [split; assumption|].
    destruct led_all as (All & (NAll & HAll) & CAll). rewrite <- CAll.
    assert (Sp : length All = length (WA ++ WB ++ LT)).
    { apply same_members; [exact NAll| |].
      - assert (Un : forall js d d', shuffled_with script js = Ret (d, []) -> shuffled_with script js = Ret (d', []) -> d = d') by (intros; congruence).
        assert (Ue : forall h (e e' : eval), evaluates ev h e -> evaluates ev h e' -> e = e') by (intros ? e e'; unfold evaluates; congruence).
        apply SizeFacts.NoDup_app_disj; [exact NA|apply SizeFacts.NoDup_app_disj; [exact NB|exact NT|]|].
        + intros js I J. apply HB' in I. apply HT in J. destruct I as (_ & d & Ed & e & e' & E1 & E2 & R), J as (_ & d' & Ed' & x & x' & X1 & X2 & R').
          rewrite (Un _ _ _ Ed' Ed) in *. rewrite (Ue _ _ _ X1 E2), (Ue _ _ _ X2 E1) in R'. exact (better_not_equal _ _ R R').
        + intros js I J. apply HA' in I. destruct I as (_ & d & Ed & e & e' & E1 & E2 & R).
          apply in_app_iff in J. destruct J as [J|J].
          * apply HB' in J. destruct J as (_ & d' & Ed' & x & x' & X1 & X2 & R'). rewrite (Un _ _ _ Ed' Ed) in *.
            rewrite (Ue _ _ _ X1 E2), (Ue _ _ _ X2 E1) in R'. exact (better_not_better _ _ R R').
          * apply HT in J. destruct J as (_ & d' & Ed' & x & x' & X1 & X2 & R'). rewrite (Un _ _ _ Ed' Ed) in *.
            rewrite (Ue _ _ _ X1 E1), (Ue _ _ _ X2 E2) in R'. apply (better_not_equal _ _ R). rewrite eqb_sym_eval. exact R'.
      - intros js. rewrite !in_app_iff, HAll, HA', HB', HT. split.
        + intros (V & d & Ed & _). destruct (shuffle_scripted js V) as (d' & Ed' & P). assert (d' = d) by congruence. subst d'.
          pose proof (shuffled_tens d P (a ++ b) Na L10 Fa) as T. destruct (ten_hands _ T) as (F1 & F2 & _).
          destruct (evaluate_spec ev _ Hev (hand5_legal _ F1)) as (e & E1 & _). destruct (evaluate_spec ev _ Hev (hand5_legal _ F2)) as (e' & E2 & _).
          assert (O : forall R : eval -> eval -> bool, R e e' = true -> exists x x', evaluates ev (picks d a) x /\ evaluates ev (picks d b) x' /\ R x x' = true).
          { intros R H. apply (outcomes_picks ev R a b d A P). exists e, e'. auto. }
          destruct (three_ways e e') as [H|[H|H]].
          * left. split; [exact V|]. exists d. split; [exact Ed|]. exact (O eval_is_better_than H).
          * right. left. split; [exact V|]. exists d. split; [exact Ed|].
            destruct (O (fun x y => eval_is_better_than y x) H) as (x & x' & X1 & X2 & R). exists x', x. auto.
          * right. right. split; [exact V|]. exists d. split; [exact Ed|]. exact (O eval_eqb H).
        + intros [(V & d & Ed & _)|[(V & d & Ed & _)|(V & d & Ed & _)]]; (split; [exact V|]); exists d; auto. }
    rewrite Sp, !app_length, <- E. rewrite !Nat2Z.inj_add. generalize (Z.of_nat (length WA)) (Z.of_nat (length LT)). intros u v. ring.
Qed.
