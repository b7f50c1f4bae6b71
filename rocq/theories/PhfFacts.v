(** PhfFacts.v: the perfect hash maps of the feature static_lookup (C84). *)
From Coq Require Import String List ZArith NArith Lia Bool Permutation.
From Verif Require Import Base BaseFacts ModelCard ModelEval ModelTable ModelEvaluation ModelExamples ModelTests ModelDebugTree ModelPhf.
From Verif Require Import Spec SpecApi SpecPhf CardFacts Sweep SweepFacts SpecFacts EvalFacts FiveFacts CombosFacts EvaluateFacts HandFacts DeckFacts LawFacts TestFacts.
From Verif Require LookupFacts DebugTreeFacts TableFacts.
Import ListNotations.
Local Open Scope list_scope.

Section Any.
  Context (hash : Z -> Z -> phf_hashes).

  (** What is found is an entry. *)
  Lemma get_in {V} (m : phf_map V) k v : phf_get hash m k = Some v -> In (k, v) (phf_entries m).
  Proof.
    unfold phf_get. destruct (phf_disps m) as [|d ds]; [discriminate|]. destruct (get_index _ _ _) as [i|]; [|discriminate].
    destruct (nth_error (phf_entries m) i) as [[k' v']|] eqn:N; [|discriminate].
    destruct (Z.eqb_spec k' k) as [->|_]; [|discriminate]. intros E. injection E as <-. exact (nth_error_In _ _ N).
  Qed.
  (** Of entries that stand where they belong each is found. *)
  Lemma leads_index {V} (m : phf_map V) k i : (0 < Z.of_nat (length (phf_disps m)) < 2 ^ 32)%Z ->
    (0 < Z.of_nat (length (phf_entries m)) < 2 ^ 32)%Z -> leads_to hash m k i ->
    get_index (hash (phf_seed m) k) (phf_disps m) (length (phf_entries m)) = Some i.
  Proof.
    intros D E (d1 & d2 & N & I). unfold get_index, displace, as_u32. change (2 ^ 32)%Z with 4294967296%Z in *.
    rewrite (Z.mod_small (Z.of_nat (length (phf_disps m)))), (Z.mod_small (Z.of_nat (length (phf_entries m)))) by lia.
    rewrite N. destruct (Z.eqb_spec (Z.of_nat (length (phf_disps m))) 0) as [Q|_]; [lia|].
    destruct (Z.eqb_spec (Z.of_nat (length (phf_entries m))) 0) as [Q|_]; [lia|]. rewrite <- I, Nat2Z.id. reflexivity.
  Qed.
  Lemma get_placed {V} (m : phf_map V) : well_placed hash m -> forall k v, phf_get hash m k = Some v <-> In (k, v) (phf_entries m).
  Proof.
    intros (D & E & _ & P) k v. split; [apply get_in|]. intros I. destruct (P k v I) as (i & G & N).
    assert (L : length (phf_entries m) <> 0) by (destruct (phf_entries m); [destruct I|discriminate]).
    apply leads_index in G; [|exact D|lia].
    unfold phf_get. destruct (phf_disps m) as [|d ds] eqn:Q; [cbn in D; lia|]. rewrite G, N, Z.eqb_refl. reflexivity.
  Qed.
  Lemma get_new {V} k : phf_get hash (@phf_new V) k = None.
  Proof. reflexivity. Qed.

  (** ** The order of the cards does not matter, whatever the tables are. *)
  Lemma fold_perm {A} (f : A -> A -> A) : (forall a x y, f (f a x) y = f (f a y) x) ->
    forall l l', Permutation l l' -> forall a, fold_left f l a = fold_left f l' a.
  Proof.
    intros C l l' P. induction P as [|x l l' P IH|x y l|l l' l'' P IH Q JH]; intros a; cbn [fold_left].
    - reflexivity.
    - apply IH.
    - rewrite C. reflexivity.
    - rewrite IH. apply JH.
  Qed.
  Lemma wrap_form z : wrap_i32 z = ((z + 2147483648) mod 4294967296 - 2147483648)%Z.
  Proof.
    unfold wrap_i32, in_i32. destruct (_ && _) eqn:E; [|reflexivity]. apply andb_prop in E as (A & B).
    apply Z.leb_le in A. apply Z.ltb_lt in B. rewrite Z.mod_small; lia.
  Qed.
  Lemma wrap_off z : exists q, wrap_i32 z = (z + q * 4294967296)%Z.
  Proof.
    exists (- ((z + 2147483648) / 4294967296))%Z. rewrite wrap_form.
    pose proof (Z.div_mod (z + 2147483648) 4294967296). lia.
  Qed.
  Lemma wrap_same a b q : a = (b + q * 4294967296)%Z -> wrap_i32 a = wrap_i32 b.
  Proof.
    intros ->. rewrite !wrap_form. replace (b + q * 4294967296 + 2147483648)%Z with (b + 2147483648 + q * 4294967296)%Z by lia.
    rewrite Z_mod_plus_full. reflexivity.
  Qed.
  Lemma wrapping_swap a x y : wrapping_mul_i32 (wrapping_mul_i32 a x) y = wrapping_mul_i32 (wrapping_mul_i32 a y) x.
  Proof.
    unfold wrapping_mul_i32. destruct (wrap_off (a * x)) as (p & ->). destruct (wrap_off (a * y)) as (q & ->).
    apply (wrap_same _ _ (p * y - q * x)). lia.
  Qed.
  Lemma five_perm E h h' : Permutation h h' -> five E h = five E h'.
  Proof.
    intros P. pose proof (Permutation_map unique_integer P) as Q.
    pose proof (Permutation_map (fun c => Z.land (unique_integer c) 255) P) as R.
    unfold five. cbv zeta. unfold prime_product_from_hand.
    rewrite (fold_perm Z.land) with (l' := map unique_integer h') by
      (solve [exact Q | intros a x y; rewrite <- !Z.land_assoc, (Z.land_comm x y); reflexivity]).
    rewrite (fold_perm Z.lor) with (l' := map unique_integer h') by
      (solve [exact Q | intros a x y; rewrite <- !Z.lor_assoc, (Z.lor_comm x y); reflexivity]).
    rewrite (fold_perm (fun acc x => wrapping_mul_i32 acc x)) with (l' := map (fun c => Z.land (unique_integer c) 255) h') by
      (solve [exact R | exact wrapping_swap]).
    reflexivity.
  Qed.
  Lemma evaluate_hand5 E h : hand5 h -> evaluate_with E h = (let! e := five E h in Ret (Ok e)).
  Proof.
    intros (A & N & L). unfold evaluate_with. destruct (all_unique_spec h A) as (b & Hb & Hs). rewrite Hb. cbn [bind].
    rewrite (proj2 Hs N), L. cbn [Nat.ltb Nat.leb Nat.eqb]. destruct (length5 h L) as (c0 & c1 & c2 & c3 & c4 & ->). reflexivity.
  Qed.
  (** Two tables that agree about every five cards agree about every hand. *)
  Lemma evaluate_ext E1 E2 : (forall x, hand5 x -> five E1 x = five E2 x) ->
    forall h, all_cards h -> evaluate_with E1 h = evaluate_with E2 h.
  Proof.
    intros X h A. unfold evaluate_with. destruct (all_unique_spec h A) as (b & Hb & Hs). rewrite Hb. cbn [bind].
    destruct b; [|reflexivity]. pose proof (proj1 Hs eq_refl) as N.
    destruct (Nat.ltb_spec (length h) 5) as [|L]; [reflexivity|]. destruct (Nat.eqb_spec (length h) 5) as [L5|L5].
    - assert (H5 : hand5 h) by (split; auto). specialize (X h H5).
      destruct (length5 h L5) as (c0 & c1 & c2 & c3 & c4 & ->). cbn [index nth_error bind]. rewrite X. reflexivity.
    - unfold six_plus. destruct (Nat.ltb_spec 5 (length h)) as [_|]; [|lia]. cbn [negb].
      rewrite !for_const_combos_spec by lia.
      rewrite (LookupFacts.foldM_ext_in _ (fun current_max combo =>
        let! score := five E2 combo in
        if op_gt (eval_partial_cmp score current_max) then Ret score else Ret current_max)); [reflexivity|].
      intros s x I. destruct (combs_hand5 h x A N I) as (H5 & _). rewrite (X x H5). reflexivity.
  Qed.

  (** ** What the tests find out *)
  Lemma foldM_each {St A} (f : St -> A -> outcome St) l : forall s r, foldM f l s = Ret r ->
    forall x, In x l -> exists s1 s2, f s1 x = Ret s2.
  Proof.
    induction l as [|y l IH]; intros s r E x I; [destruct I|]. cbn [foldM] in E.
    destruct (f s y) as [s'|p|] eqn:F; cbn [bind] in E; try discriminate E.
    destruct I as [<-|I]; [exists s, s'; exact F|exact (IH s' r E x I)].
  Qed.
  Lemma combos_each f : all_five_card_combos f = Ret tt -> forall x, In x (combs 5 deck_generate) -> exists e, f x = Ret (Ok e).
  Proof.
    unfold all_five_card_combos. rewrite for_const_combos_spec by (rewrite deck_length; lia). intros E x I.
    match type of E with bind ?o _ = _ => destruct o as [evals|p|] eqn:Q; cbn [bind] in E; try discriminate E end.
    destruct (foldM_each _ _ _ _ Q x I) as (s1 & s2 & F). unfold evaluated in F.
    destruct (f x) as [[e|r]|p|]; cbn [bind unwrap] in F; try discriminate F. exists e. reflexivity.
  Qed.
  Lemma hand5_comb h : hand5 h -> exists m, In m (combs 5 deck_generate) /\ Permutation h m.
  Proof.
    intros (A & N & L). destruct (combs_complete card_dec deck_generate 5 h N) as (m & Hm & P); [|exact L|eauto].
    intros c Hc. apply in_deck. exact (proj1 (Forall_forall _ _) A c Hc).
  Qed.
  Lemma identical_entries dyn l n : (let! _ := foldM (fun _ (p : Z * meta) =>
     let! v := index_key (map_get dyn) (fst p) in assert (meta_eqb v (snd p))) l tt in
     assert (Nat.eqb (map_len dyn) n)) = Ret tt <->
    (forall k v, In (k, v) l -> exists w, map_get dyn k = Some w /\ meta_eqb w v = true) /\ map_len dyn = n.
  Proof.
    assert (X : foldM (fun _ (p : Z * meta) =>
       let! v := index_key (map_get dyn) (fst p) in assert (meta_eqb v (snd p))) l tt = Ret tt
       <-> forall k v, In (k, v) l -> exists w, map_get dyn k = Some w /\ meta_eqb w v = true).
    { induction l as [|[k v] l IH]; cbn [foldM].
      - split; [intros _ k v []|reflexivity].
      - cbn [fst snd]. unfold index_key at 1. destruct (map_get dyn k) as [w|] eqn:G; cbn [bind].
        + destruct (meta_eqb w v) eqn:M; cbn [assert bind].
          * rewrite IH. split.
            -- intros H k' v' [E|I]; [injection E as <- <-; exists w; auto|exact (H k' v' I)].
            -- intros H k' v' I. apply H. right. exact I.
          * split; [discriminate|]. intros H. destruct (H k v (or_introl eq_refl)) as (w' & G' & M'). congruence.
        + split; [discriminate|]. intros H. destruct (H k v (or_introl eq_refl)) as (w' & G' & M'). congruence. }
    rewrite <- X. set (o := foldM _ l tt) in *. clearbody o. destruct o as [[]|p|]; cbn [bind].
    - destruct (Nat.eqb_spec (map_len dyn) n) as [E|E]; cbn [assert]; split.
      + auto. + reflexivity. + discriminate. + intros [_ C]. contradiction.
    - split; [discriminate|intros [C _]; discriminate C].
    - split; [discriminate|intros [C _]; discriminate C].
  Qed.
  (** [ensure_identical_tables] *)
  Theorem ensure_spec ev F U : new_evaluator ev ->
    (phf_ensure_identical F U = Ret tt <->
     ((forall k v, In (k, v) (phf_entries F) -> exists w, map_get (flush_lookup (evaluator_table ev)) k = Some w /\ meta_eqb w v = true)
      /\ map_len (flush_lookup (evaluator_table ev)) = length (phf_entries F))
     /\ (forall k v, In (k, v) (phf_entries U) -> exists w, map_get (unsuited_lookup (evaluator_table ev)) k = Some w /\ meta_eqb w v = true)
      /\ map_len (unsuited_lookup (evaluator_table ev)) = length (phf_entries U)).
  Proof.
    intros Hev. unfold phf_ensure_identical.
    match goal with |- bind evaluator_new ?f = _ <-> _ => rewrite (with_evaluator ev f Hev) end. cbv beta zeta.
    rewrite <- (identical_entries _ (phf_entries F)), <- (identical_entries _ (phf_entries U)).
    match goal with |- bind ?a (fun _ => ?b) = _ <-> _ => set (x := a); set (y := b); clearbody x y end.
    destruct x as [[]|p|]; cbn [bind]; intuition congruence.
  Qed.

  Definition filled (m : phf_map meta) (dyn : map_i32 meta) (k : Z) : option meta :=
    match phf_get hash m k with Some v => Some v | None => map_get dyn k end.
  Lemma filled_five F U dF dU x e :
    five (mk_evaluation (phf_get hash F) (phf_get hash U)) x = Ret e ->
    five (mk_evaluation (filled F dF) (filled U dU)) x = Ret e.
  Proof.
    unfold five. cbv zeta. destruct (negb _).
    - destruct (prime_product_from_rank_bits _) as [p|p|]; cbn [bind]; try (intros E; exact E).
      unfold index_key, filled. cbn [ev_flush_lookup]. destruct (phf_get hash F p); [auto|]. cbn [bind]. discriminate.
    - unfold index_key, filled. cbn [ev_unsuited_lookup]. destruct (phf_get hash U _); [auto|]. cbn [bind]. discriminate.
  Qed.

  (** Both tests together leave nothing to chance but the class. *)
  Theorem both_tests ev F U : new_evaluator ev ->
    phf_ensure_identical F U = Ret tt -> all_five_card_combos (phf_evaluate hash F U) = Ret tt ->
    forall h, all_cards h -> same_verdict (phf_evaluate hash F U h) (evaluate ev h).
  Proof.
    intros Hev T1 T2 h A. apply (ensure_spec ev F U Hev) in T1 as ((EF & _) & EU & _).
    set (dF := flush_lookup (evaluator_table ev)) in *. set (dU := unsuited_lookup (evaluator_table ev)) in *.
    assert (X : forall x, hand5 x -> five (mk_evaluation (phf_get hash F) (phf_get hash U)) x
                                     = five (mk_evaluation (filled F dF) (filled U dU)) x).
    { intros x H5. destruct (hand5_comb x H5) as (m & I & P). destruct (combos_each _ T2 m I) as (e & E).
      unfold phf_evaluate in E. rewrite evaluate_hand5 in E by exact (in_combs_deck m I).
      rewrite !(five_perm _ x m P).
      destruct (five (mk_evaluation (phf_get hash F) (phf_get hash U)) m) as [e'|p|] eqn:V; cbn [bind] in E; try discriminate E.
      symmetry. apply filled_five. exact V. }
    unfold phf_evaluate. rewrite (evaluate_ext _ _ X h A). unfold evaluate.
    assert (RF : forall k, match filled F dF k, map_get dF k with
                           | Some a, Some b => meta_eqb a b = true | None, None => True | _, _ => False end).
    { intros k. unfold filled. destruct (phf_get hash F k) as [v|] eqn:G.
      - destruct (EF k v (get_in F k v G)) as (w & W & Q). rewrite W. apply Z.eqb_eq in Q. apply Z.eqb_eq. congruence.
      - destruct (map_get dF k); [apply Z.eqb_refl|exact Logic.I]. }
    assert (RU : forall k, match filled U dU k, map_get dU k with
                           | Some a, Some b => meta_eqb a b = true | None, None => True | _, _ => False end).
    { intros k. unfold filled. destruct (phf_get hash U k) as [v|] eqn:G.
      - destruct (EU k v (get_in U k v G)) as (w & W & Q). rewrite W. apply Z.eqb_eq in Q. apply Z.eqb_eq. congruence.
      - destruct (map_get dU k); [apply Z.eqb_refl|exact Logic.I]. }
    assert (Q := LawFacts.evaluate_rel (fun a b => meta_eqb a b = true)
      (fun a b H => proj1 (Z.eqb_eq _ _) H) eq_refl
      (mk_evaluation (filled F dF) (filled U dU)) (evaluator_evaluation ev) RF RU h).
    destruct (evaluate_with _ h) as [[a|a]|a|], (evaluate_with _ h) as [[b|b]|b|];
      simpl in Q; try contradiction; unfold same_verdict; try congruence. exact Q.
  Qed.

  (** Well placed entries of the right tables *)
  Theorem placed_same ev F U : new_evaluator ev -> well_placed hash F -> well_placed hash U ->
    (forall k v, In (k, v) (phf_entries F) <-> map_get (flush_lookup (evaluator_table ev)) k = Some v) ->
    (forall k v, In (k, v) (phf_entries U) <-> map_get (unsuited_lookup (evaluator_table ev)) k = Some v) ->
    (forall h, phf_evaluate hash F U h = evaluate ev h)
    /\ phf_ensure_identical F U = Ret tt /\ all_five_card_combos (phf_evaluate hash F U) = Ret tt.
  Proof.
    intros Hev PF PU EF EU.
    assert (QF : forall k, phf_get hash F k = map_get (flush_lookup (evaluator_table ev)) k).
    { intros k. pose proof (get_placed F PF k) as G. destruct (map_get (flush_lookup (evaluator_table ev)) k) as [v|] eqn:M.
      - apply G, EF. exact M.
      - destruct (phf_get hash F k) as [v|]; [|reflexivity]. rewrite <- M. symmetry. apply EF, G. reflexivity. }
    assert (QU : forall k, phf_get hash U k = map_get (unsuited_lookup (evaluator_table ev)) k).
    { intros k. pose proof (get_placed U PU k) as G. destruct (map_get (unsuited_lookup (evaluator_table ev)) k) as [v|] eqn:M.
      - apply G, EU. exact M.
      - destruct (phf_get hash U k) as [v|]; [|reflexivity]. rewrite <- M. symmetry. apply EU, G. reflexivity. }
    assert (S1 : forall h, phf_evaluate hash F U h = evaluate ev h).
    { intros h. unfold phf_evaluate, evaluate.
      assert (Q := evaluate_rel eq (fun a b H => f_equal (fun m => phr (meta_hand_rank m)) H) eq_refl
        (mk_evaluation (phf_get hash F) (phf_get hash U)) (evaluator_evaluation ev)).
      specialize (Q (fun k => ltac:(cbn [ev_flush_lookup evaluator_evaluation]; rewrite QF; destruct (map_get _ k); simpl; auto))).
      specialize (Q (fun k => ltac:(cbn [ev_unsuited_lookup evaluator_evaluation]; rewrite QU; destruct (map_get _ k); simpl; auto))).
      specialize (Q h). destruct (evaluate_with _ h) as [[[a]|a]|a|], (evaluate_with _ h) as [[[b]|b]|b|];
        simpl in Q; try contradiction; unfold rel_eval in Q; simpl in Q; congruence. }
    split; [exact S1|]. split.
    - apply (ensure_spec ev F U Hev).
      assert (L : forall (m : phf_map meta) (d : map_i32 meta), NoDup (map fst (phf_entries m)) ->
        (forall k v, In (k, v) (phf_entries m) <-> map_get d k = Some v) -> map_len d = length (phf_entries m)).
      { intros m d N E. rewrite <- DebugTreeFacts.contents_length.
        apply Permutation_length. apply NoDup_Permutation; [exact (NoDup_map_inv fst _ (DebugTreeFacts.contents_NoDup d))|exact (NoDup_map_inv fst _ N)|].
        intros [k v]. rewrite DebugTreeFacts.contents_in. symmetry. apply E. }
      split; (split; [|apply L; [apply PF || apply PU|assumption]]).
      + intros k v I. exists v. split; [apply EF; exact I|apply Z.eqb_refl].
      + intros k v I. exists v. split; [apply EU; exact I|apply Z.eqb_refl].
    - apply all_five_passes.
      + intros h H5. rewrite S1. apply evaluate_fine; assumption.
      + intros z Hz. destruct (evaluate_onto ev Hev z Hz) as (h & e & X). exists h, e. rewrite S1. exact X.
  Qed.
End Any.

(** ** Each test alone lets wrong tables pass *)
Definition royal_clubs : list card := map (fun r => card_new r Clubs) [Ten; Jack; Queen; King; Ace].
Definition wheel_clubs : list card := map (fun r => card_new r Clubs) [Ace; Two; Three; Four; Five].
Definition aces_full : list card :=
  [card_new Ace Clubs; card_new Ace Hearts; card_new Ace Spades; card_new King Clubs; card_new King Hearts].
Lemma royal_five E : five E royal_clubs = (let! m := index_key (ev_flush_lookup E) 31367009 in Ret (MkEval m)).
Proof. vm_compute. reflexivity. Qed.
Lemma wheel_five E : five E wheel_clubs = (let! m := index_key (ev_flush_lookup E) 8610 in Ret (MkEval m)).
Proof. vm_compute. reflexivity. Qed.
Lemma aces_five E : five E aces_full = (let! m := index_key (ev_unsuited_lookup E) 94352849 in Ret (MkEval m)).
Proof. vm_compute. reflexivity. Qed.
Ltac five_cards := split; [repeat constructor; eexists; eexists; reflexivity|]; split; [|reflexivity];
  repeat (constructor; [cbn; intuition discriminate|]); constructor.
Lemma royal_hand : hand5 royal_clubs. Proof. five_cards. Qed.
Lemma wheel_hand : hand5 wheel_clubs. Proof. five_cards. Qed.
Lemma aces_hand : hand5 aces_full. Proof. five_cards. Qed.

Lemma repeated_missing hash s d (v : meta) n k k' : k <> k' -> phf_get hash (mk_phf s d (repeat (k', v) n)) k = None.
Proof.
  intros N. destruct (phf_get hash _ k) as [w|] eqn:G; [|reflexivity]. apply get_in in G. cbn [phf_entries] in G.
  apply repeat_spec in G. injection G as G _. contradiction.
Qed.
Theorem ensure_alone hash s1 d1 s2 d2 ev : new_evaluator ev ->
  exists F U h, phf_seed F = s1 /\ phf_disps F = d1 /\ phf_seed U = s2 /\ phf_disps U = d2
    /\ phf_ensure_identical F U = Ret tt /\ hand5 h /\ phf_evaluate hash F U h = Panic MissingKey.
Proof.
  intros Hev.
  destruct (evaluate_fine ev Hev royal_clubs royal_hand) as (e & E & _). unfold evaluate in E.
  rewrite (evaluate_hand5 _ _ royal_hand), royal_five in E. unfold index_key in E. cbn [ev_flush_lookup evaluator_evaluation] in E.
  destruct (map_get (flush_lookup (evaluator_table ev)) 31367009) as [v|] eqn:GF; [|discriminate E]. clear e E.
  destruct (evaluate_fine ev Hev aces_full aces_hand) as (e & E & _). unfold evaluate in E.
  rewrite (evaluate_hand5 _ _ aces_hand), aces_five in E. unfold index_key in E. cbn [ev_unsuited_lookup evaluator_evaluation] in E.
  destruct (map_get (unsuited_lookup (evaluator_table ev)) 94352849) as [w|] eqn:GU; [|discriminate E]. clear e E.
  exists (mk_phf s1 d1 (repeat (31367009%Z, v) (map_len (flush_lookup (evaluator_table ev))))),
         (mk_phf s2 d2 (repeat (94352849%Z, w) (map_len (unsuited_lookup (evaluator_table ev))))), wheel_clubs.
  cbn [phf_seed phf_disps]. do 4 (split; [reflexivity|]). split; [|split; [exact wheel_hand|]].
  - apply (ensure_spec ev _ _ Hev). cbn [phf_entries]. rewrite !repeat_length.
    split; (split; [|reflexivity]); intros k x I; apply repeat_spec in I; injection I as -> ->.
    + exists v. split; [exact GF|apply Z.eqb_refl].
    + exists w. split; [exact GU|apply Z.eqb_refl].
  - unfold phf_evaluate. rewrite (evaluate_hand5 _ _ wheel_hand), wheel_five. unfold index_key. cbn [ev_flush_lookup].
    rewrite repeated_missing by discriminate. reflexivity.
Qed.

(** Some hash function puts any two lists of entries in their places. *)
Fixpoint position (k : Z) (l : list Z) : nat := match l with [] => 0 | x :: l' => if Z.eqb x k then 0 else S (position k l') end.
Lemma position_entry {V} (l : list (Z * V)) k v : NoDup (map fst l) -> In (k, v) l ->
  nth_error l (position k (map fst l)) = Some (k, v) /\ position k (map fst l) < length l.
Proof.
  induction l as [|[k' v'] l IH]; cbn [map fst position In length]; intros N I; [destruct I|].
  inversion_clear N as [|? ? A B]. destruct (Z.eqb_spec k' k) as [->|Q].
  - destruct I as [I|I]; [injection I as ->; split; [reflexivity|lia]|]. exfalso. apply A. exact (in_map fst l (k, v) I).
  - destruct I as [I|I]; [injection I as -> ->; contradiction|]. destruct (IH B I) as (X & Y). split; [exact X|lia].
Qed.
Definition placing {V} (lF lU : list (Z * V)) (s k : Z) : phf_hashes :=
  mk_hashes 0 0 (Z.of_nat (position k (map fst (if Z.eqb s 0 then lF else lU)))).
Lemma placing_placed {V} (lF lU l : list (Z * V)) s : l = (if Z.eqb s 0 then lF else lU) -> NoDup (map fst l) ->
  (Z.of_nat (length l) < 4294967296)%Z -> well_placed (placing lF lU) (mk_phf s [(0, 0)%Z] l).
Proof.
  intros E N L. split; [cbn; lia|]. split; [exact L|]. split; [exact N|]. intros k v I. cbn [phf_entries] in I.
  destruct (position_entry l k v N I) as (X & Y). exists (position k (map fst l)). split; [|exact X].
  exists 0%Z, 0%Z. unfold placing. cbn [phf_disps phf_seed phf_entries hash_g hash_f1 hash_f2 length]. rewrite <- E.
  set (p := position k (map fst l)) in *. change (2 ^ 32)%Z with 4294967296%Z.
  split; [reflexivity|]. cbn [Z.mul Z.add]. rewrite !Z.mod_small; lia.
Qed.

(** Every rank number counted from the other end *)
Definition turn_rank (r : poker_hand_rank) : poker_hand_rank := PokerHandRank (7463 - phr r).
Definition turn (m : meta) : meta :=
  match m with
  | MHighCard r a => MHighCard (turn_rank r) a
  | MPair r a => MPair (turn_rank r) a
  | MTwoPair r a b => MTwoPair (turn_rank r) a b
  | MThreeOfAKind r a => MThreeOfAKind (turn_rank r) a
  | MStraight r a => MStraight (turn_rank r) a
  | MFlush r a => MFlush (turn_rank r) a
  | MFullHouse r a b => MFullHouse (turn_rank r) a b
  | MFourOfAKind r a => MFourOfAKind (turn_rank r) a
  | MStraightFlush r a => MStraightFlush (turn_rank r) a
  end.
Lemma turn_meta m : phr (meta_hand_rank (turn m)) = (7463 - phr (meta_hand_rank m))%Z.
Proof. destruct m; reflexivity. Qed.
Lemma turn_class m : eval_class_of (MkEval (turn m)) = eval_class_of (MkEval m).
Proof. destruct m; reflexivity. Qed.

Definition turned (d : map_i32 meta) : list (Z * meta) := map (fun p => (fst p, turn (snd p))) (map_contents d).
Lemma turned_keys d : map fst (turned d) = map fst (map_contents d).
Proof. unfold turned. rewrite map_map. reflexivity. Qed.
Lemma turned_get hash s ds d k v : well_placed hash (mk_phf s ds (turned d)) -> map_get d k = Some v ->
  phf_get hash (mk_phf s ds (turned d)) k = Some (turn v).
Proof.
  intros W G. apply (get_placed hash _ W). cbn [phf_entries]. unfold turned. apply in_map_iff. exists (k, v).
  split; [reflexivity|]. apply DebugTreeFacts.contents_in. exact G.
Qed.

Lemma table_lens ev : new_evaluator ev ->
  Z.of_nat (map_len (flush_lookup (evaluator_table ev))) = 1287%Z /\ Z.of_nat (map_len (unsuited_lookup (evaluator_table ev))) = 6175%Z.
Proof. intros Hev. destruct (evaluator_new_inv ev Hev) as (t & Ht & ->). exact (TableFacts.table_sizes t Ht). Qed.

Theorem combos_alone ev : new_evaluator ev -> exists hash F U,
  all_five_card_combos (phf_evaluate hash F U) = Ret tt
  /\ forall h1 h2 e1 e2, hand5 h1 -> hand5 h2 -> evaluates ev h1 e1 -> evaluates ev h2 e2 ->
       exists e1' e2', phf_evaluate hash F U h1 = Ret (Ok e1') /\ phf_evaluate hash F U h2 = Ret (Ok e2')
         /\ eval_class_of e1' = eval_class_of e1 /\ eval_cmp e1' e2' = eval_cmp e2 e1.
Proof.
  intros Hev. set (lF := turned (flush_lookup (evaluator_table ev))). set (lU := turned (unsuited_lookup (evaluator_table ev))).
  exists (placing lF lU), (mk_phf 0 [(0, 0)%Z] lF), (mk_phf 1 [(0, 0)%Z] lU).
  destruct (table_lens ev Hev) as (L1 & L2).
  assert (WF : well_placed (placing lF lU) (mk_phf 0 [(0, 0)%Z] lF)).
  { apply placing_placed; [reflexivity|unfold lF; rewrite turned_keys; apply DebugTreeFacts.contents_NoDup|].
    unfold lF, turned. rewrite map_length, DebugTreeFacts.contents_length. lia. }
  assert (WU : well_placed (placing lF lU) (mk_phf 1 [(0, 0)%Z] lU)).
  { apply placing_placed; [reflexivity|unfold lU; rewrite turned_keys; apply DebugTreeFacts.contents_NoDup|].
    unfold lU, turned. rewrite map_length, DebugTreeFacts.contents_length. lia. }
  assert (X : forall h e, hand5 h -> evaluates ev h e ->
    phf_evaluate (placing lF lU) (mk_phf 0 [(0, 0)%Z] lF) (mk_phf 1 [(0, 0)%Z] lU) h = Ret (Ok (MkEval (turn (eval_meta e))))).
  { intros h e H5 E. unfold evaluates, evaluate in E. unfold phf_evaluate. rewrite (evaluate_hand5 _ _ H5) in E. rewrite (evaluate_hand5 _ _ H5).
    unfold five in E |- *. cbv zeta in E |- *. destruct (negb _).
    - destruct (prime_product_from_rank_bits _) as [p|p|]; cbn [bind] in E |- *; try discriminate E.
      unfold index_key in E |- *. cbn [ev_flush_lookup evaluator_evaluation] in E |- *.
      destruct (map_get (flush_lookup (evaluator_table ev)) p) as [v|] eqn:G; cbn [bind] in E; [|discriminate E].
      injection E as <-. pose proof (turned_get _ _ _ (flush_lookup (evaluator_table ev)) _ _ WF G) as T. fold lF in T. rewrite T. reflexivity.
    - unfold index_key in E |- *. cbn [ev_unsuited_lookup evaluator_evaluation] in E |- *.
      destruct (map_get (unsuited_lookup (evaluator_table ev)) _) as [v|] eqn:G; cbn [bind] in E; [|discriminate E].
      injection E as <-. pose proof (turned_get _ _ _ (unsuited_lookup (evaluator_table ev)) _ _ WU G) as T. fold lU in T. rewrite T. reflexivity. }
  assert (Y : forall e, rk (MkEval (turn (eval_meta e))) = (7463 - rk e)%Z).
  { intros e. unfold rk, eval_hand_rank. cbn [eval_meta]. apply turn_meta. }
  split.
  - apply all_five_passes.
    + intros h H5. destruct (evaluate_fine ev Hev h H5) as (e & E & R). eexists. split; [exact (X h e H5 E)|]. rewrite Y. lia.
    + intros z Hz. destruct (evaluate_onto ev Hev (7463 - z)%Z) as (h & e & I & E & R); [lia|].
      exists h. eexists. split; [exact I|]. split; [exact (X h e (in_combs_deck h I) E)|]. rewrite Y. lia.
  - intros h1 h2 e1 e2 H1 H2 E1 E2. eexists. eexists. split; [exact (X h1 e1 H1 E1)|]. split; [exact (X h2 e2 H2 E2)|].
    split; [rewrite turn_class; destruct e1; reflexivity|].
    pose proof (Y e1) as Y1. pose proof (Y e2) as Y2.
    destruct (eval_cmp e2 e1) eqn:C; [apply cmp_Eq in C; apply cmp_Eq|apply cmp_Lt in C; apply cmp_Lt|apply cmp_Gt in C; apply cmp_Gt]; lia.
Qed.

(** Maps that hold nothing: [--cfg docsrs] *)
Theorem docs_panic hash h : legal h -> phf_evaluate hash phf_new phf_new h = Panic MissingKey.
Proof.
  intros L. rewrite <- (default_panics h L). unfold evaluate, phf_evaluate. apply evaluate_ext; [|exact (proj1 L)].
  intros x _. unfold five. cbv zeta. destruct (negb _).
  - destruct (prime_product_from_rank_bits _) as [p|p|]; cbn [bind]; try reflexivity.
    unfold index_key. cbn [ev_flush_lookup evaluator_evaluation evaluator_default evaluator_table lookup_table_default flush_lookup].
    rewrite map_get_empty. reflexivity.
  - unfold index_key. cbn [ev_unsuited_lookup evaluator_evaluation evaluator_default evaluator_table lookup_table_default unsuited_lookup].
    rewrite map_get_empty. reflexivity.
Qed.

(** The tables of an evaluator, placed *)
Lemma placed_exist ev : new_evaluator ev -> exists hash F U, well_placed hash F /\ well_placed hash U
  /\ (forall k v, In (k, v) (phf_entries F) <-> map_get (flush_lookup (evaluator_table ev)) k = Some v)
  /\ (forall k v, In (k, v) (phf_entries U) <-> map_get (unsuited_lookup (evaluator_table ev)) k = Some v).
Proof.
  intros Hev. destruct (table_lens ev Hev) as (L1 & L2).
  set (lF := map_contents (flush_lookup (evaluator_table ev))). set (lU := map_contents (unsuited_lookup (evaluator_table ev))).
  exists (placing lF lU), (mk_phf 0 [(0, 0)%Z] lF), (mk_phf 1 [(0, 0)%Z] lU). split; [|split; [|split]].
  - apply placing_placed; [reflexivity|apply DebugTreeFacts.contents_NoDup|]. unfold lF. rewrite DebugTreeFacts.contents_length. lia.
  - apply placing_placed; [reflexivity|apply DebugTreeFacts.contents_NoDup|]. unfold lU. rewrite DebugTreeFacts.contents_length. lia.
  - intros k v. apply DebugTreeFacts.contents_in.
  - intros k v. apply DebugTreeFacts.contents_in.
Qed.
