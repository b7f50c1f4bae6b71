(** RustTakes.v: what the source text reads from characters and from strings in turn, feeds to a hasher, and makes of the
    answers of a random number generator: from running it (RustStreams.v) and from what is proved of the model. *)
From Coq Require Import String Lia Permutation.
From Verif Require Import Base BaseFacts ModelCard ModelEval ModelTable ModelEvaluation CardFacts Spec SpecApi SpecText.
From Verif Require HandFacts LawFacts TextFacts DeckFacts Samples.
From Verif Require Import RustSyntax RustSemantics RustProgram RustValues RustSteps RustFacts RustFormat RustStreams RustRuns
  RustSays SpecRust.
Local Open Scope string_scope.
Local Open Scope list_scope.

(** ** Reading *)
Lemma run_from_str : forall s, reads rust s (parsed s).
Proof. intros s. apply (returns_at 0 3). intros fuel d. exact (call_card_from_str fuel d s). Qed.
Theorem runs_chars : forall P, load_all texts = Some P -> forall x y,
  (forall v, reads P [x; y] (VCon "Ok" [("0", v)]) -> returns P "Card::try_from_chars" None [VChr x; VChr y] (VCon "Ok" [("0", v)]))
  /\ (~ In x rank_chars -> returns P "Card::try_from_chars" None [VChr x; VChr y]
        (VCon "Err" [("0", VCon "ParseCardError::InvalidRank" [("original_input", VStr [x]); ("incorrect_char", VChr x)])]))
  /\ (In x rank_chars -> ~ In y suit_chars -> returns P "Card::try_from_chars" None [VChr x; VChr y]
        (VCon "Err" [("0", VCon "ParseCardError::InvalidSuit" [("original_input", VStr [y]); ("incorrect_char", VChr y)])])).
Proof.
  intros P H x y. rewrite (loaded P H). clear P H.
  assert (R : returns rust "Card::try_from_chars" None [VChr x; VChr y]
                (result_value card_value parse_error_value (try_from_chars x y))).
  { apply (returns_at 0 3). intros fuel d. exact (call_try_from_chars fuel d x y). }
  destruct (TextFacts.try_from_chars_spec x y) as [Sok Serr]. split; [ | split ].
  - intros v Hv. pose proof (returns_fun _ _ _ _ _ _ Hv (run_from_str [x; y])) as X. unfold parsed in X.
    destruct (card_from_str [x; y]) as [c|e] eqn:E; [ | discriminate X ]. injection X as ->.
    rewrite (proj2 (Sok c) E) in R. exact R.
  - intros Hx. rewrite (proj2 (Serr (InvalidRank [x] x))) in R; [ exact R | ].
    exists (InvalidRank [x; y] x). split; [ | reflexivity ]. apply TextFacts.parse_errors. right; left. eauto.
  - intros Hx Hy. rewrite (proj2 (Serr (InvalidSuit [y] y))) in R; [ exact R | ].
    exists (InvalidSuit [x; y] y). split; [ | reflexivity ]. apply TextFacts.parse_errors. right; right. eauto 6.
Qed.
Lemma iter_serves : forall n rs, length rs = n -> serves rust (iter_value rs) rs.
Proof.
  induction n as [|n IH]; intros rs L; constructor.
  1, 6: apply (returns_at 0 1); intros fuel d; exact (call_iter_len fuel d rs).
  1, 5: apply (returns_at 0 1); intros fuel d; exact (call_iter_size_hint fuel d rs).
  - intros ->. split; apply (mut_at 0 1); intros fuel d; [ exact (call_iter_next_end fuel d) | exact (call_iter_next_back_end fuel d) ].
  - intros r rs' ->. discriminate L.
  - intros rs' r ->. rewrite app_length in L. cbn in L. lia.
  - intros ->. discriminate L.
  - intros r rs' ->. exists (iter_value rs'). injection L as L. split; [ | exact (IH rs' L) ].
    apply (mut_at 0 1). intros fuel d. exact (call_iter_next fuel d r rs').
  - intros rs' r ->. rewrite app_length in L. cbn in L. exists (iter_value rs'). split; [ | apply IH; lia ].
    apply (mut_at 0 1). intros fuel d. exact (call_iter_next_back fuel d r rs').
Qed.
Lemma collected_ok : forall vs rs acc, collected (map (fun v => VCon "Ok" [("0", v)]) vs ++ rs) acc = collected rs (rev vs ++ acc).
Proof.
  induction vs as [|v vs IH]; intros rs acc; [ reflexivity | ]. cbn [map app rev].
  transitivity (collected (map (fun v => VCon "Ok" [("0", v)]) vs ++ rs) (v :: acc)); [ reflexivity | ].
  rewrite IH, <- app_assoc. reflexivity.
Qed.
Theorem runs_strings : forall P, load_all texts = Some P -> forall ss rs, Forall2 (reads P) ss rs ->
  exists it, returns P "Card::parse_to_iter" None [VList (map VStr ss)] it
    /\ serves P it rs
    /\ (forall vs, rs = map (fun v => VCon "Ok" [("0", v)]) vs ->
          returns P "ParseToIter::try_collect" None [it] (VCon "Ok" [("0", VList vs)]))
    /\ (forall vs e rest, rs = map (fun v => VCon "Ok" [("0", v)]) vs ++ VCon "Err" [("0", e)] :: rest ->
          returns P "ParseToIter::try_collect" None [it] (VCon "Err" [("0", e)])).
Proof.
  intros P H ss rs. rewrite (loaded P H). clear P H. intros F.
  assert (E : rs = map parsed ss).
  { induction F as [|s r ss rs Hr _ IH]; [ reflexivity | ]. cbn [map]. f_equal; [ | exact IH ].
    exact (returns_fun _ _ _ _ _ _ Hr (run_from_str s)). }
  exists (iter_value rs). split; [ | split; [ exact (iter_serves _ rs eq_refl) | split ] ].
  - rewrite E. apply (returns_at 0 5). intros fuel d. exact (call_parse_to_iter fuel d ss).
  - intros vs ->. apply (returns_at 0 1). intros fuel d. apply call_try_collect.
    rewrite <- (app_nil_r (map _ vs)), collected_ok, app_nil_r. cbn [collected]. rewrite rev_involutive. reflexivity.
  - intros vs e rest ->. apply (returns_at 0 1). intros fuel d. apply call_try_collect.
    rewrite collected_ok. reflexivity.
Qed.

Lemma fold_folds : forall f rs acc w, folds rust f acc rs w ->
  exists N D, forall fuel depth, N <= fuel -> D <= depth -> fold_values (machine rust fuel depth) f rs acc = Val w.
Proof.
  intros f rs acc w H. induction H as [acc|acc r rs acc' w (N1 & D1 & A) _ (N2 & D2 & IH)].
  - exists 0, 0. reflexivity.
  - exists (Nat.max N1 N2), (Nat.max D1 D2). intros fuel depth HN HD. cbn [fold_values].
    rewrite A by lia. cbn [bnd]. apply IH; lia.
Qed.
Theorem runs_fold : forall P, load_all texts = Some P -> forall ss rs, Forall2 (reads P) ss rs ->
  exists it, returns P "Card::parse_to_iter" None [VList (map VStr ss)] it
    /\ forall f init w, folds P f init rs w -> returns P "ParseToIter::fold" None [it; init; f] w.
Proof.
  intros P H ss rs. rewrite (loaded P H). clear P H. intros F.
  assert (E : rs = map parsed ss).
  { induction F as [|s r ss rs Hr _ IH]; [ reflexivity | ]. cbn [map]. f_equal; [ | exact IH ].
    exact (returns_fun _ _ _ _ _ _ Hr (run_from_str s)). }
  exists (iter_value rs). split.
  - rewrite E. apply (returns_at 0 5). intros fuel d. exact (call_parse_to_iter fuel d ss).
  - intros f init w W. destruct (fold_folds f rs init w W) as (N & D & K). exists N, (S D). intros fuel depth HN HD.
    replace depth with (S (depth - 1)) by lia. apply (call_iter_fold fuel (depth - 1)). apply K; lia.
Qed.
(** Counting with [|n, _| n + 1] *)
Lemma counts_three : exists P it, load_all texts = Some P
  /\ returns P "Card::parse_to_iter" None [VList (map VStr [lit "As"; lit "Kx"; lit "2c"])] it
  /\ returns P "ParseToIter::fold" None
       [it; VInt Usize 0; VClos [PVar "n"; PWild] (EBin Add (EPath ["n"]) (ENum Usize 1)) []] (VInt Usize 3).
Proof.
  destruct readable as (P & H). exists P.
  destruct (runs_fold P H [lit "As"; lit "Kx"; lit "2c"] (map parsed [lit "As"; lit "Kx"; lit "2c"])) as (it & R & F).
  { rewrite (loaded P H). repeat constructor; apply run_from_str. }
  exists it. split; [ exact H | ]. split; [ exact R | ]. apply F. rewrite (loaded P H). clear. cbn [map].
  generalize (parsed (lit "As")) (parsed (lit "Kx")) (parsed (lit "2c")). intros a b c.
  do 3 (econstructor; [ exists 0, 1; intros fuel depth _ HD; replace depth with (S (depth - 1)) by lia; reflexivity | ]).
  constructor.
Qed.

(** ** Hashing *)
Lemma eval_feeds : forall e, feeds rust (eval_value e) (VInt I16 (phr (eval_hand_rank e))).
Proof.
  intros e. exists 0, 2. intros fuel depth st k _ HD. replace depth with (S (S (depth - 2))) by lia.
  pose proof (call_meta_hash fuel (depth - 2) (eval_meta e) st) as C. unfold engine in C.
  unfold eval_value, eval_hand_rank. revert C. generalize (VInt I16 (phr (meta_hand_rank (eval_meta e)))). intros w C.
  assert (O : exists c fs, meta_value (eval_meta e) = VCon c fs /\ owner c = "Meta").
  { destruct (eval_meta e); do 2 eexists; (split; [ reflexivity | vm_compute; reflexivity ]). }
  destruct O as (c & fs & E & O). rewrite E in *. cbn [fed].
  change (owner "Eval" ++ "::hash")%string with "Eval::hash". change (owner "Eval") with "Eval".
  change (assoc "Eval::hash" (heads rust)) with (@None (option nat * bool)). cbv beta iota. cbn [String.eqb Ascii.eqb Bool.eqb].
  rewrite O. change ("Meta" ++ "::hash")%string with "Meta::hash". change (assoc "Meta::hash" (heads rust)) with (Some (Some 1, false)).
  cbv beta iota. rewrite C. reflexivity.
Qed.
Lemma card_feeds : forall c, feeds rust (card_value c) (VInt I32 (unique_integer c)).
Proof. intros c. exists 0, 0. intros fuel depth st k _ _. reflexivity. Qed.
Theorem runs_hash : forall P ev h1 cs1 e1 h2 cs2 e2, load_all texts = Some P -> returns P "Evaluator::new" None [] ev ->
  Forall2 (made P) h1 cs1 -> NoDup h1 -> 5 <= length h1 -> gives P ev cs1 e1 ->
  Forall2 (made P) h2 cs2 -> NoDup h2 -> 5 <= length h2 -> gives P ev cs2 e2 ->
  exists z1 z2 s, feeds P e1 (VInt I16 z1) /\ feeds P e2 (VInt I16 z2) /\ same P e1 e2 s /\ (s = true <-> z1 = z2).
Proof.
  intros P ev h1 cs1 e1 h2 cs2 e2 HP. rewrite (loaded P HP). clear P HP. intros Hev F1 N1 L1 G1 F2 N2 L2 G2.
  destruct (new_inv ev Hev) as (m & Hm & ->).
  destruct (gives_inv m h1 cs1 e1 Hm F1 N1 L1 G1) as (a & _ & ->).
  destruct (gives_inv m h2 cs2 e2 Hm F2 N2 L2 G2) as (b & _ & ->).
  exists (phr (eval_hand_rank a)), (phr (eval_hand_rank b)), (eval_is_equal_to a b).
  split; [ apply eval_feeds | ]. split; [ apply eval_feeds | ]. destruct (run_verdicts a b) as (_ & _ & Rs). split; [ exact Rs | ].
  clear. unfold eval_is_equal_to, eval_eqb, meta_eqb, phr_eqb, eval_hand_rank. apply Z.eqb_eq.
Qed.
Theorem runs_card_hash : forall P, load_all texts = Some P -> forall f v g w, made P f v -> made P g w ->
  exists y z, feeds P v (VInt I32 y) /\ feeds P w (VInt I32 z) /\ (y = z <-> f = g).
Proof.
  intros P H f v g w. rewrite (loaded P H). clear P H. intros Hv Hw. rewrite (made_only _ _ Hv), (made_only _ _ Hw).
  exists (unique_integer (card_new (fst f) (snd f))), (unique_integer (card_new (fst g) (snd g))).
  split; [ apply card_feeds | ]. split; [ apply card_feeds | ]. split; [ | intros ->; reflexivity ].
  intros E. destruct f as [r s], g as [r' s']. cbn [fst snd] in E.
  assert (X : card_new r s = card_new r' s').
  { destruct (card_new r s), (card_new r' s'). cbn in E. rewrite E. reflexivity. }
  pose proof (f_equal card_rank X) as R. pose proof (f_equal card_suit X) as S.
  rewrite !card_rank_new in R. rewrite !card_suit_new in S. congruence.
Qed.

(** ** Shuffling *)
Lemma nth_map_seq : forall (vs : list value), map (fun n => nth n vs VUnit) (seq 0 (length vs)) = vs.
Proof.
  intros vs. apply (nth_ext _ _ VUnit VUnit); [ rewrite map_length, seq_length; reflexivity | ].
  intros n Hn. rewrite map_length, seq_length in Hn. rewrite (nth_indep _ VUnit (nth 0%nat vs VUnit)) by (rewrite map_length, seq_length; exact Hn).
  rewrite (map_nth (fun n => nth n vs VUnit) _ 0%nat). rewrite seq_nth by exact Hn. reflexivity.
Qed.
Definition swapped (i j n : nat) : nat := if Nat.eqb n i then j else if Nat.eqb n j then i else n.
Lemma swapped_twice : forall i j n, swapped i j (swapped i j n) = n.
Proof.
  intros i j n. unfold swapped. destruct (Nat.eqb_spec n i); [ | destruct (Nat.eqb_spec n j) ];
    repeat match goal with |- context [Nat.eqb ?a ?b] => destruct (Nat.eqb_spec a b) end; lia.
Qed.
Lemma swapped_lt : forall i j n l, i < l -> j < l -> n < l -> swapped i j n < l.
Proof. intros i j n l Hi Hj Hn. unfold swapped. repeat match goal with |- context [Nat.eqb ?a ?b] => destruct (Nat.eqb_spec a b) end; lia. Qed.
Lemma exchange_length : forall vs i j, length (exchange vs i j) = length vs.
Proof. intros. unfold exchange. rewrite map_length, seq_length. reflexivity. Qed.
Lemma exchange_nth : forall vs i j n, n < length vs -> nth n (exchange vs i j) VUnit = nth (swapped i j n) vs VUnit.
Proof.
  intros vs i j n Hn. unfold exchange.
  rewrite (nth_indep _ VUnit ((fun n => nth (swapped i j n) vs VUnit) 0%nat)) by (rewrite map_length, seq_length; exact Hn).
  rewrite (map_nth (fun n => nth (swapped i j n) vs VUnit) _ 0%nat). rewrite seq_nth by exact Hn. reflexivity.
Qed.
Lemma exchange_perm : forall vs i j, i < length vs -> j < length vs -> Permutation (exchange vs i j) vs.
Proof.
  intros vs i j Hi Hj. rewrite <- (nth_map_seq vs) at 2. unfold exchange.
  change (fun n => nth (if Nat.eqb n i then j else if Nat.eqb n j then i else n) vs VUnit) with (fun n => nth (swapped i j n) vs VUnit).
  rewrite <- (map_map (swapped i j) (fun n => nth n vs VUnit)). apply Permutation_map.
  apply NoDup_Permutation_bis.
  - apply FinFun.Injective_map_NoDup; [ | apply seq_NoDup ]. intros a b E. rewrite <- (swapped_twice i j a), E. apply swapped_twice.
  - rewrite map_length. constructor.
  - intros n Hn. apply in_map_iff in Hn. destruct Hn as (k & <- & Hk). apply in_seq in Hk. apply in_seq.
    split; [ lia | ]. apply swapped_lt; lia.
Qed.
(** The bounds of the answers for the places below [n] *)
Definition bounded (n : nat) (zs : list Z) : Prop := Forall2 (fun z k => (0 <= z < Z.of_nat k)%Z) zs (rev (seq 2 (n - 1))).
Lemma bounded_step : forall n zs, bounded (S (S n)) zs <-> exists z zs', zs = z :: zs' /\ (0 <= z < Z.of_nat (S (S n)))%Z /\ bounded (S n) zs'.
Proof.
  intros n zs. unfold bounded. replace (S (S n) - 1) with (S n) by lia. replace (S n - 1) with n by lia.
  rewrite seq_S, rev_unit. replace (2 + n) with (S (S n)) by lia. split.
  - intros F. inversion F as [|z k zs' l Hz F']; subst. exists z, zs'. auto.
  - intros (z & zs' & -> & Hz & F). constructor; assumption.
Qed.
Lemma shuffle_step : forall n vs z zs, (0 <= z < Z.of_nat (S (S n)))%Z ->
  shuffle (S (S n)) vs (z :: zs) = shuffle (S n) (exchange vs (S n) (Z.to_nat z)) zs.
Proof.
  intros n vs z zs Hz. cbn [shuffle].
  rewrite (proj2 (Z.leb_le 0 z)), (proj2 (Z.ltb_lt z (Z.of_nat (S (S n))))) by lia. reflexivity.
Qed.
Lemma shuffle_total : forall n vs zs rest, n <= length vs -> bounded n zs ->
  exists ws, shuffle n vs (zs ++ rest) = Some (ws, rest) /\ Permutation ws vs
    /\ forall k, n <= k -> k < length vs -> nth k ws VUnit = nth k vs VUnit.
Proof.
  induction n as [|[|n] IH]; intros vs zs rest L B.
  - inversion B; subst. exists vs. repeat split; auto.
  - inversion B; subst. exists vs. repeat split; auto.
  - apply bounded_step in B. destruct B as (z & zs' & -> & Hz & B). cbn [app]. rewrite shuffle_step by exact Hz.
    destruct (IH (exchange vs (S n) (Z.to_nat z)) zs' rest) as (ws & E & Pm & K); [ rewrite exchange_length; lia | exact B | ].
    exists ws. split; [ exact E | ]. split.
    + etransitivity; [ exact Pm | ]. apply exchange_perm; lia.
    + intros k Hk Hl. rewrite K by (rewrite ?exchange_length; lia). rewrite exchange_nth by exact Hl. f_equal.
      unfold swapped. repeat match goal with |- context [Nat.eqb ?a ?b] => destruct (Nat.eqb_spec a b) end; lia.
Qed.
(** Every order is the outcome of just one list of answers. *)
Lemma nodup_place : forall (vs : list value) i j, NoDup vs -> i < length vs -> j < length vs ->
  nth i vs VUnit = nth j vs VUnit -> i = j.
Proof. intros vs i j N Hi Hj E. exact (proj1 (NoDup_nth vs VUnit) N i j Hi Hj E). Qed.
Lemma shuffle_one : forall n vs ws, n <= length vs -> NoDup vs -> Permutation ws vs ->
  (forall k, n <= k -> k < length vs -> nth k ws VUnit = nth k vs VUnit) ->
  exists zs, bounded n zs /\ shuffle n vs zs = Some (ws, [])
    /\ forall zs', bounded n zs' -> shuffle n vs zs' = Some (ws, []) -> zs' = zs.
Proof.
  induction n as [|[|n] IH]; intros vs ws L N Pm K.
  - assert (E : ws = vs).
    { apply (nth_ext _ _ VUnit VUnit); [ apply Permutation_length, Pm | ]. intros k Hk. rewrite (Permutation_length Pm) in Hk.
      apply K; [ lia | exact Hk ]. }
    subst ws. exists []. split; [ constructor | ]. split; [ reflexivity | ]. intros zs' B _. inversion B. reflexivity.
  - assert (E : ws = vs).
    { pose proof (Permutation_length Pm) as Lp. destruct vs as [|v vs]; [ cbn in L; lia | ]. destruct ws as [|w ws]; [ discriminate Lp | ].
      assert (T : ws = vs).
      { apply (nth_ext _ _ VUnit VUnit); [ injection Lp; auto | ]. intros k Hk. injection Lp as Lp.
        apply (K (S k)); [ lia | cbn; lia ]. }
      subst ws. f_equal.
      assert (I : In w (v :: vs)) by (eapply Permutation_in; [ exact Pm | left; reflexivity ]).
      destruct I as [I|I]; [ symmetry; exact I | exfalso ].
      apply (Permutation_NoDup (Permutation_sym Pm)) in N. inversion N; contradiction. }
    subst ws. exists []. split; [ constructor | ]. split; [ reflexivity | ]. intros zs' B _. inversion B. reflexivity.
  - pose proof (Permutation_length Pm) as Lp.
    assert (Nw : NoDup ws) by (apply (Permutation_NoDup (Permutation_sym Pm)), N).
    assert (I : In (nth (S n) ws VUnit) vs).
    { eapply Permutation_in; [ exact Pm | ]. apply nth_In. lia. }
    apply (In_nth _ _ VUnit) in I. destruct I as (j & Hj & Ej).
    assert (J : j < S (S n)).
    { destruct (Nat.lt_ge_cases j (S (S n))) as [X|X]; [ exact X | exfalso ].
      rewrite <- K in Ej by lia. apply nodup_place in Ej; [ lia | exact Nw | lia | lia ]. }
    assert (Px : Permutation (exchange vs (S n) j) vs) by (apply exchange_perm; lia).
    destruct (IH (exchange vs (S n) j) ws) as (zs & B & E & U).
    + rewrite exchange_length. lia.
    + apply (Permutation_NoDup (Permutation_sym Px)), N.
    + etransitivity; [ exact Pm | symmetry; exact Px ].
    + intros k Hk Hl. rewrite exchange_length in Hl. rewrite exchange_nth by exact Hl. unfold swapped.
      destruct (Nat.eqb_spec k (S n)) as [->|D1]; [ symmetry; exact Ej | ].
      destruct (Nat.eqb_spec k j) as [->|D2]; [ lia | ]. apply K; lia.
    + exists (Z.of_nat j :: zs). assert (Hz : (0 <= Z.of_nat j < Z.of_nat (S (S n)))%Z) by lia. split; [ | split ].
      * apply bounded_step. exists (Z.of_nat j), zs. auto.
      * rewrite shuffle_step by exact Hz. rewrite Nat2Z.id. exact E.
      * intros zs' B' E'. apply bounded_step in B'. destruct B' as (z & zs'' & -> & Hz' & B').
        rewrite shuffle_step in E' by exact Hz'.
        assert (Ez : Z.to_nat z = j).
        { destruct (shuffle_total (S n) (exchange vs (S n) (Z.to_nat z)) zs'' []) as (ws' & X & _ & Kx);
            [ rewrite exchange_length; lia | exact B' | ].
          rewrite app_nil_r, E' in X. injection X as <-. specialize (Kx (S n) ltac:(lia)).
          rewrite exchange_length in Kx. specialize (Kx ltac:(lia)). rewrite exchange_nth in Kx by lia.
          unfold swapped in Kx. rewrite Nat.eqb_refl in Kx. rewrite <- Ej in Kx.
          symmetry. apply (nodup_place vs); [ exact N | lia | lia | exact Kx ]. }
        f_equal; [ lia | ]. apply U; [ exact B' | ]. rewrite <- Ez. exact E'.
Qed.
(** The deck *)
Lemma card_value_inj : forall a b, card_value a = card_value b -> a = b.
Proof. intros [a] [b] E. injection E as <-. reflexivity. Qed.
Lemma deck_values : NoDup (map card_value deck_generate).
Proof. apply FinFun.Injective_map_NoDup; [ exact card_value_inj | exact DeckFacts.deck_NoDup ]. Qed.
Lemma mut_fun : forall P f n args v v' w w', returns_mut P f n args v w -> returns_mut P f n args v' w' -> v = v' /\ w = w'.
Proof.
  intros P f n args v v' w w' (N1 & D1 & H1) (N2 & D2 & H2).
  specialize (H1 (N1 + N2) (D1 + D2) ltac:(lia) ltac:(lia)). specialize (H2 (N1 + N2) (D1 + D2) ltac:(lia) ltac:(lia)).
  rewrite H1 in H2. injection H2 as -> ->. auto.
Qed.
Lemma run_shuffled : forall zs vs rest, shuffle 52 (map card_value deck_generate) zs = Some (vs, rest) ->
  returns_mut rust "shuffled_with" None [VInts Usize zs] (VList vs) (VInts Usize rest).
Proof. intros zs vs rest H. apply (mut_at 0 5). intros fuel d. exact (call_shuffled_with fuel d zs vs rest H). Qed.
Lemma made_map : forall fs, Forall2 (made rust) fs (map card_value (cards_macro_idents fs)).
Proof. intros fs. induction fs as [|[r s] fs IH]; constructor; [ apply made_card | exact IH ]. Qed.
Theorem runs_shuffled : forall P, load_all texts = Some P -> forall zs rest, draws zs ->
  exists fs vs, returns_mut P "shuffled_with" None [VInts Usize (zs ++ rest)] (VList vs) (VInts Usize rest)
    /\ Forall2 (made P) fs vs /\ NoDup fs /\ length fs = 52.
Proof.
  intros P H zs rest D. rewrite (loaded P H). clear P H.
  destruct (shuffle_total 52 (map card_value deck_generate) zs rest) as (vs & E & Pm & _);
    [ rewrite map_length, DeckFacts.deck_length; constructor | exact D | ].
  destruct (Permutation_map_inv _ _ Pm) as (cs & -> & Pc).
  assert (A : all_cards cs).
  { apply Forall_forall. intros c Hc. apply DeckFacts.in_deck. eapply Permutation_in; [ symmetry; exact Pc | exact Hc ]. }
  assert (I : cards_macro_idents (faces cs) = cs).
  { clear - A. induction A as [|c x (r & s & ->) A IH]; [ reflexivity | ].
    unfold cards_macro_idents, faces, face_of in *. cbn [map fst snd]. rewrite IH, card_rank_new, card_suit_new. reflexivity. }
  exists (faces cs), (map card_value cs). split; [ apply run_shuffled, E | ]. split; [ | split ].
  - rewrite <- I at 2. apply made_map.
  - apply idents_nodup. rewrite I. apply (Permutation_NoDup Pc), DeckFacts.deck_NoDup.
  - unfold faces. rewrite map_length, <- (Permutation_length Pc). apply DeckFacts.deck_length.
Qed.
Theorem runs_orders : forall P, load_all texts = Some P -> forall fs vs, Forall2 (made P) fs vs -> NoDup fs -> length fs = 52 ->
  exists zs, draws zs /\ returns_mut P "shuffled_with" None [VInts Usize zs] (VList vs) (VInts Usize [])
    /\ forall zs' w, draws zs' -> returns_mut P "shuffled_with" None [VInts Usize zs'] (VList vs) w -> zs' = zs.
Proof.
  intros P H fs vs. rewrite (loaded P H). clear P H. intros F N L.
  assert (E : vs = map card_value (cards_macro_idents fs)) by (pose proof (made_all fs vs F) as X; injection X as ->; reflexivity).
  assert (Pm : Permutation vs (map card_value deck_generate)).
  { rewrite E. apply Permutation_map. apply NoDup_Permutation_bis.
    - apply idents_nodup, N.
    - rewrite DeckFacts.deck_length, (eq_trans (idents_length fs) L). constructor.
    - intros c Hc. apply DeckFacts.in_deck. exact (proj1 (Forall_forall _ _) (Samples.idents_all_cards fs) c Hc). }
  destruct (shuffle_one 52 (map card_value deck_generate) vs) as (zs & B & S & U).
  - rewrite map_length, DeckFacts.deck_length. constructor.
  - exact deck_values.
  - exact Pm.
  - intros k Hk Hl. rewrite map_length, DeckFacts.deck_length in Hl. lia.
  - exists zs. split; [ exact B | ]. split; [ apply run_shuffled, S | ]. intros zs' w B' R. apply U; [ exact B' | ].
    destruct (shuffle_total 52 (map card_value deck_generate) zs' []) as (vs' & E' & _ & _);
      [ rewrite map_length, DeckFacts.deck_length; constructor | exact B' | ].
    rewrite app_nil_r in E'. destruct (mut_fun _ _ _ _ _ _ _ _ R (run_shuffled _ _ _ E')) as (X & _).
    injection X as ->. exact E'.
Qed.

(** ** For the examples beside the properties *)
Lemma second_is_wrong : exists P it v e, load_all texts = Some P /\ made P (Ace, Spades) v
  /\ returns P "Card::parse_to_iter" None [VList (map VStr [lit "As"; lit "Kx"; lit "2c"])] it
  /\ (exists it', returns_mut P "ParseToIter::next" None [it] (VCon "Some" [("0", VCon "Ok" [("0", v)])]) it')
  /\ returns P "ParseToIter::try_collect" None [it] (VCon "Err" [("0", e)])
  /\ returns_mut P "ParseCardError::fmt" None [e; VStr []] fine
       (VStr (lit "Error parsing input 'Kx' as a Card: Invalid suit character 'x', expected one of [chsd]")).
Proof.
  destruct (runs_strings rust rust_loaded [lit "As"; lit "Kx"; lit "2c"] (map parsed [lit "As"; lit "Kx"; lit "2c"]))
    as (it & R & S & _ & Er).
  { repeat constructor; apply run_from_str. }
  exists rust, it, (card_value (card_new Ace Spades)), (parse_error_value (InvalidSuit (lit "Kx") 120%N)).
  split; [ exact rust_loaded | ]. split; [ apply made_card | ]. split; [ exact R | ]. split; [ | split ].
  - inversion S as [it0 rs _ _ _ Nx _ E1 E2]; subst. destruct (Nx _ _ eq_refl) as (it' & X & _). exists it'. exact X.
  - apply (Er [card_value (card_new Ace Spades)] _ [parsed (lit "2c")]). reflexivity.
  - apply (mut_at 0 1). intros fuel d. exact (call_parse_error_fmt fuel d (InvalidSuit (lit "Kx") 120%N) []).
Qed.
Lemma royal_flushes_feed : exists P ev cs1 cs2 e1 e2 z, load_all texts = Some P /\ returns P "Evaluator::new" None [] ev
  /\ Forall2 (made P) [(Ten, Spades); (Jack, Spades); (Queen, Spades); (King, Spades); (Ace, Spades)] cs1
  /\ Forall2 (made P) [(Ten, Clubs); (Jack, Clubs); (Queen, Clubs); (King, Clubs); (Ace, Clubs)] cs2
  /\ gives P ev cs1 e1 /\ gives P ev cs2 e2
  /\ feeds P e1 (VInt I16 z) /\ feeds P e2 (VInt I16 z).
Proof.
  destruct (runs_evaluator rust rust_loaded) as [ev Hev].
  assert (H : forall s, five_card_hand [(Ten, s); (Jack, s); (Queen, s); (King, s); (Ace, s)]).
  { intros s. split; [ | reflexivity ]. repeat constructor; cbn; intuition discriminate. }
  destruct (made_list rust rust_loaded [(Ten, Spades); (Jack, Spades); (Queen, Spades); (King, Spades); (Ace, Spades)]) as [cs1 F1].
  destruct (made_list rust rust_loaded [(Ten, Clubs); (Jack, Clubs); (Queen, Clubs); (King, Clubs); (Ace, Clubs)]) as [cs2 F2].
  destruct (runs_five rust ev _ cs1 rust_loaded Hev F1 (H Spades)) as (e1 & _ & G1 & _).
  destruct (runs_five rust ev _ cs2 rust_loaded Hev F2 (H Clubs)) as (e2 & _ & G2 & _).
  destruct (runs_versus rust ev _ cs1 e1 _ cs2 e2 rust_loaded Hev F1 (H Spades) G1 F2 (H Clubs) G2) as (_ & _ & s & _ & _ & Ss & _ & _ & T).
  destruct (runs_hash rust ev _ cs1 e1 _ cs2 e2 rust_loaded Hev F1 (proj1 (H Spades)) (le_n 5) G1 F2 (proj1 (H Clubs)) (le_n 5) G2)
    as (z1 & z2 & s' & D1 & D2 & Ss' & Z).
  pose proof (returns_fun _ _ _ _ _ _ Ss Ss') as X. injection X as <-.
  assert (C : forall s, classify [(Ten, s); (Jack, s); (Queen, s); (King, s); (Ace, s)] (StraightFlush Ace)).
  { intros t. split; [ exists t; repeat constructor | left; reflexivity ]. }
  assert (E : z1 = z2).
  { apply Z, T. exists (StraightFlush Ace), (StraightFlush Ace). auto. }
  subst z2.
  exists rust, ev, cs1, cs2, e1, e2, z1. split; [ exact rust_loaded | ]. auto 10.
Qed.
Lemma shuffle_still : forall n vs, n <= length vs -> shuffle n vs (map Z.of_nat (rev (seq 1 (n - 1)))) = Some (vs, []).
Proof.
  induction n as [|[|n] IH]; intros vs L; [ reflexivity | reflexivity | ].
  replace (S (S n) - 1) with (S n) by lia. rewrite seq_S, rev_unit. cbn [map].
  rewrite shuffle_step by lia. rewrite Nat2Z.id. replace (1 + n) with (S n) by lia.
  replace (exchange vs (S n) (S n)) with vs.
  - replace n with (S n - 1) at 2 by lia. apply IH. lia.
  - apply (nth_ext _ _ VUnit VUnit); [ rewrite exchange_length; reflexivity | ]. intros k Hk.
    rewrite exchange_nth by exact Hk. unfold swapped. destruct (Nat.eqb_spec k (S n)) as [->|]; reflexivity.
Qed.
Lemma still_deck : exists P zs vs, load_all texts = Some P /\ draws zs
  /\ returns_mut P "shuffled_with" None [VInts Usize zs] (VList vs) (VInts Usize [])
  /\ returns P "generate" None [] (VList vs).
Proof.
  exists rust, (map Z.of_nat (rev (seq 1 51))), (map card_value deck_generate).
  split; [ exact rust_loaded | ]. split; [ repeat constructor; lia | ]. split.
  - apply run_shuffled. apply (shuffle_still 52). rewrite map_length, DeckFacts.deck_length. constructor.
  - apply (returns_at 0 4). intros fuel d. exact (call_generate fuel d).
Qed.
