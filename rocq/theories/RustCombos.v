(** RustCombos.v: running the text of [Combinations] (src/evaluate/utils.rs:17-54, 85-90) gives what the model
    gives, for every [N] and every slice. *)
From Coq Require Import String Lia.
From Verif Require Import Base BaseFacts ModelCard ModelEval ModelTable ModelEvaluation CardFacts.
From Verif Require Import RustSyntax RustSemantics RustProgram RustValues RustSteps RustFacts RustUtils RustEvaluate.
Local Open Scope string_scope.
Local Open Scope list_scope.
Local Open Scope Z_scope.

Lemma in_usize : forall z, 0 <= z < 18446744073709551616 -> in_ty Usize z = true.
Proof. intros z H. unfold in_ty. apply andb_true_intro. split; [ apply Z.leb_le | apply Z.ltb_lt ]; cbn; lia. Qed.
Lemma not_in_usize : forall z, z < 0 -> in_ty Usize z = false.
Proof. intros z H. unfold in_ty. apply andb_false_intro1. apply Z.leb_gt. cbn. lia. Qed.
Lemma range_nat : forall a b, range (Z.of_nat a) (Z.of_nat b) = map Z.of_nat (seq a (b - a)).
Proof.
  intros a b. unfold range. replace (Z.to_nat (Z.of_nat b - Z.of_nat a)) with (b - a)%nat by lia.
  generalize (b - a)%nat. intros k.
  assert (G : forall k s, map (fun i => Z.of_nat a + Z.of_nat i) (seq s k) = map Z.of_nat (seq (a + s) k)).
  { clear. induction k as [|k IH]; intros s; [ reflexivity | ]. cbn [seq map]. rewrite (IH (S s)).
    replace (a + S s)%nat with (S (a + s)) by lia. f_equal. lia. }
  rewrite G, Nat.add_0_r. reflexivity.
Qed.

(** The numbers behind position [i] start again from its new value. *)
Lemma reset_round : forall fuel d B i rs ds done n pre y after prev,
  B = EBlock [(EAssign (EIndex (EField (EPath ["self"]) "indices") (EPath ["j"])) None
                 (EBin Add (EIndex (EField (EPath ["self"]) "indices") (EBin Sub (EPath ["j"]) (ENum Open 1)))
                    (ENum Open 1)), true)] ->
  Z.of_nat prev + 1 < 18446744073709551616 -> Z.of_nat (length pre) + 1 < 18446744073709551616 ->
  round rust (engine fuel d) (PVar "j") B (VInt Usize (Z.of_nat (length (pre ++ [prev]))))
    [("i", i); ("result", VList rs);
     ("self", VCon "Combinations" [("data", VList ds); ("indices", VInts Usize (map Z.of_nat ((pre ++ [prev]) ++ y :: after)));
                                   ("done", VBool done); ("N", VInt Usize n)]);
     ("N", VInt Usize n); ("Self", VFn "Combinations")]
  = Val (Go VUnit,
    [("i", i); ("result", VList rs);
     ("self", VCon "Combinations" [("data", VList ds); ("indices", VInts Usize (map Z.of_nat ((pre ++ [prev]) ++ S prev :: after)));
                                   ("done", VBool done); ("N", VInt Usize n)]);
     ("N", VInt Usize n); ("Self", VFn "Combinations")]).
Proof.
  intros fuel d B i rs ds done n pre y after prev EB Hp Hl. subst B.
  match goal with |- _ = ?r => remember r as R eqn:ER end.
  assert (L : length (pre ++ [prev]) = S (length pre)) by (rewrite app_length; cbn; lia).
  remember (length (pre ++ [prev])) as j eqn:Ej.
  remember (map Z.of_nat ((pre ++ [prev]) ++ y :: after)) as zs eqn:Ezs.
  assert (Lz : (j < length zs)%nat) by (rewrite Ezs, map_length, app_length, <- Ej; cbn; lia).
  assert (Hn : nth_error zs (Z.to_nat (Z.of_nat j - 1)) = Some (Z.of_nat prev)).
  { replace (Z.to_nat (Z.of_nat j - 1)) with (length pre) by lia.
    rewrite Ezs, nth_error_map, <- app_assoc, nth_error_app2, Nat.sub_diag by lia. reflexivity. }
  one_round. rewrite in_usize by lia. known. rewrite Hn. known. rewrite in_usize by lia. known.
  replace (Z.of_nat j <? Z.of_nat (length zs)) with true by (symmetry; apply Z.ltb_lt; lia). known. over. subst R.
  unfold replace. rewrite Nat2Z.id, Ezs, firstn_map, skipn_map.
  replace (firstn j ((pre ++ [prev]) ++ y :: after)) with (pre ++ [prev])
    by (rewrite Ej, firstn_app, Nat.sub_diag, firstn_all, firstn_O, app_nil_r; reflexivity).
  replace (skipn (S j) ((pre ++ [prev]) ++ y :: after)) with after
    by (rewrite Ej, skipn_app, skipn_all2 by lia; rewrite Nat.sub_succ_l, Nat.sub_diag by lia; reflexivity).
  rewrite (map_app Z.of_nat (pre ++ [prev])). cbn [map]. replace (Z.of_nat (S prev)) with (Z.of_nat prev + 1) by lia. reflexivity.
Qed.
Lemma reset_loop : forall fuel d B i rs ds done n after pre prev,
  B = EBlock [(EAssign (EIndex (EField (EPath ["self"]) "indices") (EPath ["j"])) None
                 (EBin Add (EIndex (EField (EPath ["self"]) "indices") (EBin Sub (EPath ["j"]) (ENum Open 1)))
                    (ENum Open 1)), true)] ->
  Z.of_nat (prev + length after) < 18446744073709551615 ->
  Z.of_nat (length pre + length after) < 18446744073709551615 ->
  each rust (engine fuel d) (PVar "j") B
    (map (VInt Usize) (map Z.of_nat (seq (length (pre ++ [prev])) (length after))))
    [("i", i); ("result", VList rs);
     ("self", VCon "Combinations" [("data", VList ds); ("indices", VInts Usize (map Z.of_nat ((pre ++ [prev]) ++ after)));
                                   ("done", VBool done); ("N", VInt Usize n)]);
     ("N", VInt Usize n); ("Self", VFn "Combinations")]
  = Val (Go VUnit,
    [("i", i); ("result", VList rs);
     ("self", VCon "Combinations" [("data", VList ds); ("indices", VInts Usize (map Z.of_nat ((pre ++ [prev]) ++ reset_after prev after)));
                                   ("done", VBool done); ("N", VInt Usize n)]);
     ("N", VInt Usize n); ("Self", VFn "Combinations")]).
Proof.
  intros fuel d B i rs ds done n after. induction after as [|y after IH]; intros pre prev EB Hp Hl; [ reflexivity | ].
  cbn [length] in Hp, Hl. cbn [length seq]. cbn [map each].
  rewrite reset_round by (try exact EB; lia). cbn [bnd].
  replace (S (length (pre ++ [prev]))) with (length ((pre ++ [prev]) ++ [S prev])) by (rewrite (app_length (pre ++ [prev])); cbn; lia).
  replace ((pre ++ [prev]) ++ S prev :: after) with (((pre ++ [prev]) ++ [S prev]) ++ after) by (rewrite <- app_assoc; reflexivity).
  rewrite IH; [ | exact EB | lia | rewrite app_length; cbn [length]; lia ].
  cbn [reset_after]. rewrite <- (app_assoc (pre ++ [prev])). reflexivity.
Qed.

Lemma length_reset_after : forall after prev, length (reset_after prev after) = length after.
Proof. induction after as [|y after IH]; intros prev; [ reflexivity | ]. cbn. f_equal. apply IH. Qed.
Lemma advance_kept : forall {T} len n k (c c' : combinations T), advance_loop len n k c = Ret c' ->
  cb_data c' = cb_data c /\ length (cb_indices c') = length (cb_indices c).
Proof.
  intros T len n k. induction k as [|i IH]; intros c c' H; [ injection H as <-; split; reflexivity | ].
  cbn [advance_loop] in H. destruct (Nat.ltb len n); [ discriminate | ]. unfold index in H.
  destruct (nth_error (cb_indices c) i) as [x|] eqn:Hx; [ | discriminate ]. cbn [bind] in H.
  assert (Li : (i < length (cb_indices c))%nat) by (apply nth_error_Some; congruence).
  set (c0 := if Nat.eqb i 0 && Nat.eqb x (len - n + i) then mk_combinations (cb_data c) (cb_indices c) true else c) in *.
  assert (K : cb_data c0 = cb_data c /\ cb_indices c0 = cb_indices c)
    by (subst c0; destruct (_ && _); split; reflexivity).
  destruct K as (K1 & K2).
  destruct (Nat.ltb x (len - n + i)).
  - injection H as <-. cbn [cb_data cb_indices]. split; [ exact K1 | ].
    rewrite app_length. cbn [length]. rewrite length_reset_after, firstn_length.
    change (match cb_indices c0 with [] => [] | _ :: l => skipn i l end) with (skipn (S i) (cb_indices c0)).
    rewrite skipn_length, K2. lia.
  - destruct (IH _ _ H) as (A & B). rewrite A, B, K1, K2. split; reflexivity.
Qed.

Lemma call_next : forall {T} (f : T -> value) fuel d (c : combinations T),
  Z.of_nat (length (cb_data c)) < 2 ^ 63 ->
  call (engine fuel (S (S (S (S d))))) "Combinations::next" (Some (VInt Usize (Z.of_nat (length (cb_indices c)))))
    [combinations_value f c]
  = lift (fun p => (option_value (fun l => VList (map f l)) (fst p), combinations_value f (snd p))) (combinations_next c).
Proof.
  intros T f fuel d [data idx done] Hlen. cbn [cb_data cb_indices cb_done] in *.
  match goal with |- _ = ?r => remember r as R eqn:ER end. unfold combinations_value. cbn [cb_data cb_indices cb_done].
  remember (map f data) as ds eqn:Eds.
  remember (map Z.of_nat idx) as zs eqn:Ezs.
  remember (Z.of_nat (length idx)) as n eqn:En.
  code.
  destruct done; known; [ over; subst; reflexivity | ].
  match goal with |- context [map_values ?o ?g ?vs] =>
    assert (A : forall i, apply o g [VInt Usize (Z.of_nat i)] = lift f (index data i));
    [ | assert (M : map_values o g vs = lift (fun l => map f l) (mapM (index data) idx)) ] end.
  { intros i. closure. rewrite Nat2Z.id. unfold index. rewrite Eds at 1. rewrite nth_error_map.
    destruct (nth_error data i); cbn [option_map]; known; over; reflexivity. }
  { unfold ints. rewrite Ezs at 2. rewrite map_map.
    match type of A with context [apply ?o ?g] => generalize dependent g; generalize o end.
    clear. intros o g A. induction idx as [|i idx IH]; [ reflexivity | ].
    cbn [map map_values mapM]. rewrite A, IH. destruct (index data i); cbn [lift bnd bind]; [ | reflexivity | reflexivity ].
    destruct (mapM (index data) idx); reflexivity. }
  eapply to_bnd; [ exact M | ].
  destruct (mapM (index data) idx) as [l|q|] eqn:El; cbn [lift];
    [ | known; over; subst; unfold combinations_next; cbn [cb_data cb_indices cb_done]; rewrite El; reflexivity
      | known; over; subst; unfold combinations_next; cbn [cb_data cb_indices cb_done]; rewrite El; reflexivity ].
  remember (map f l) as rs eqn:Ers.
  known.
  rewrite loop_ints.
  match goal with |- to (bnd (each _ ?o ?P ?B _ _) _) _ =>
    assert (E : forall k idx done, (k <= length idx)%nat -> n = Z.of_nat (length idx) ->
      each rust o P B (map (VInt Usize) (map Z.of_nat (rev (seq 0 k))))
        [("result", VList rs);
         ("self", VCon "Combinations" [("data", VList ds); ("indices", VInts Usize (map Z.of_nat idx));
                                       ("done", VBool done); ("N", VInt Usize n)]);
         ("N", VInt Usize n); ("Self", VFn "Combinations")]
      = lift (fun c => (Go VUnit,
          [("result", VList rs);
           ("self", VCon "Combinations" [("data", VList ds); ("indices", VInts Usize (map Z.of_nat (cb_indices c)));
                                         ("done", VBool (cb_done c)); ("N", VInt Usize n)]);
           ("N", VInt Usize n); ("Self", VFn "Combinations")]))
        (advance_loop (length data) (length idx) k (mk_combinations data idx done)))
  end.
  { clear - Hlen Eds. induction k as [|i IH]; intros idx done Hk En; [ reflexivity | ].
    replace (rev (seq 0 (S i))) with (i :: rev (seq 0 i)) by (rewrite seq_S, rev_app_distr; reflexivity).
    cbn [map each advance_loop cb_indices cb_data cb_done].
    assert (Hi : exists x, nth_error idx i = Some x).
    { destruct (nth_error idx i) as [x|] eqn:E; [ eexists; reflexivity | ]. apply nth_error_None in E. lia. }
    destruct Hi as (x & Hx).
    unfold index. rewrite Hx. cbn [bind].
    match goal with |- context [round ?P ?o ?p ?b ?v ?r] =>
      assert (F : round P o p b v r =
        if (length data <? length idx)%nat then Panics ArithmeticOverflow
        else
          let limit := (length data - length idx + i)%nat in
          let done := if (i =? 0)%nat && (x =? limit)%nat then true else done in
          if (x <? limit)%nat
          then Val (Brk, [("result", VList rs);
                 ("self", VCon "Combinations" [("data", VList ds);
                   ("indices", VInts Usize (map Z.of_nat (firstn i idx ++ S x :: reset_after (S x) (skipn (S i) idx))));
                                         ("done", VBool done); ("N", VInt Usize n)]);
                  ("N", VInt Usize n); ("Self", VFn "Combinations")])
          else Val (Go VUnit, [("result", VList rs);
                 ("self", VCon "Combinations" [("data", VList ds); ("indices", VInts Usize (map Z.of_nat idx));
                                         ("done", VBool done); ("N", VInt Usize n)]);
                  ("N", VInt Usize n); ("Self", VFn "Combinations")])) end.
    { clear IH. remember (map Z.of_nat idx) as zs eqn:Ezs.
      match goal with |- _ = ?r => remember r as R eqn:ER end.
      assert (Ld : length ds = length data) by (rewrite Eds; apply map_length).
      assert (Hz : nth_error zs (Z.to_nat (Z.of_nat i)) = Some (Z.of_nat x))
        by (rewrite Nat2Z.id, Ezs, nth_error_map, Hx; reflexivity).
      assert (Lz : length zs = length idx) by (rewrite Ezs; apply map_length).
      change (2 ^ 63) with 9223372036854775808 in Hlen.
      Ltac go Hz Ld Lz := steps; repeat (first [ rewrite Hz | rewrite Ld | rewrite Lz | rewrite in_usize by lia ]; known).
      one_round. destruct (length data <? length idx)%nat eqn:B.
      { apply Nat.ltb_lt in B. destruct (Z.of_nat i =? 0); go Hz Ld Lz; rewrite not_in_usize by lia; known; over; subst; reflexivity. }
      apply Nat.ltb_ge in B.
      assert (Li : length (firstn i idx) = i) by (rewrite firstn_length; lia).
      assert (HR : replace zs (Z.to_nat (Z.of_nat i)) (Z.of_nat x + 1) = map Z.of_nat ((firstn i idx ++ [S x]) ++ skipn (S i) idx)).
      { unfold replace. rewrite Nat2Z.id, Ezs, firstn_map, skipn_map, <- app_assoc, map_app. cbn [app map].
        replace (Z.of_nat (S x)) with (Z.of_nat x + 1) by lia. reflexivity. }
      assert (HS : range (Z.of_nat i + 1) n = map Z.of_nat (seq (length (firstn i idx ++ [S x])) (length (skipn (S i) idx)))).
      { rewrite app_length, Li, skipn_length, En. replace (Z.of_nat i + 1) with (Z.of_nat (S i)) by lia.
        rewrite range_nat. cbn [length]. rewrite Nat.add_1_r. reflexivity. }
      assert (Lx : length (skipn (S i) idx) = (length idx - S i)%nat) by (apply skipn_length).
      Ltac ends R x data idx i :=
        subst R; cbv zeta;
        let nx := constr:((x <? length data - length idx + i)%nat) in
        let ne := constr:((i =? 0)%nat && (x =? length data - length idx + i)%nat) in
        (first [ replace nx with true by (symmetry; apply Nat.ltb_lt; lia) | replace nx with false by (symmetry; apply Nat.ltb_ge; lia) ]);
        (first [ replace ne with true by (symmetry; apply andb_true_intro; split; apply Nat.eqb_eq; lia)
               | replace ne with false by (symmetry; apply andb_false_intro1; apply Nat.eqb_neq; lia)
               | replace ne with false by (symmetry; apply andb_false_intro2; apply Nat.eqb_neq; lia) ]);
        try rewrite <- app_assoc; reflexivity.
      Ltac rest Hz Ld Lz x data idx n i R HR HS :=
        let Bx := fresh "Bx" in
        go Hz Ld Lz;
        destruct (Z.of_nat x <? Z.of_nat (length data) - n + Z.of_nat i) eqn:Bx; known;
        [ apply Z.ltb_lt in Bx;
          go Hz Ld Lz; (replace (Z.of_nat i <? Z.of_nat (length _)) with true by (symmetry; apply Z.ltb_lt; lia)); known;
          go Hz Ld Lz; rewrite loop_ints;
          eapply to_bnd; [ rewrite HR, HS; apply reset_loop; [ reflexivity | lia | lia ] | ];
          (match goal with |- context [VInts Usize (map Z.of_nat ?l)] => let E := fresh "E" in remember (map Z.of_nat l) as zs' eqn:E; known; over; subst zs' end);
          ends R x data idx i
        | apply Z.ltb_ge in Bx; over; ends R x data idx i ].
      destruct (Z.of_nat i =? 0) eqn:Bi; go Hz Ld Lz.
      { apply Z.eqb_eq in Bi. destruct (Z.of_nat x =? Z.of_nat (length data) - n + Z.of_nat i) eqn:Be; known;
          [ apply Z.eqb_eq in Be | apply Z.eqb_neq in Be ]; rest Hz Ld Lz x data idx n i R HR HS. }
      apply Z.eqb_neq in Bi. rest Hz Ld Lz x data idx n i R HR HS. }
    rewrite F. clear F. destruct (length data <? length idx)%nat; [ reflexivity | ].
    cbv zeta.
    destruct ((i =? 0)%nat && (x =? length data - length idx + i)%nat); cbn [cb_indices cb_done cb_data];
    (destruct (x <? length data - length idx + i)%nat; [ reflexivity | ]);
    cbn [bnd lift]; apply IH; try assumption; lia. }
  assert (Hr : rev (range 0 n) = map Z.of_nat (rev (seq 0 (length idx)))).
  { rewrite En. change 0 with (Z.of_nat 0). rewrite range_nat, Nat.sub_0_r, map_rev. reflexivity. }
  rewrite Hr, Ezs at 1. eapply to_bnd; [ apply (E (length idx) idx false (le_n _) En) | ]. clear E.
  subst R. unfold combinations_next. cbn [cb_data cb_indices cb_done]. rewrite El. cbn [bind].
  destruct (advance_loop (length data) (length idx) (length idx) _) as [c|q|] eqn:Ea; cbn [bind];
    [ | unfold to; reflexivity | unfold to; reflexivity ].
  destruct (advance_kept _ _ _ _ _ Ea) as (Kd & Kl). cbn [cb_data cb_indices] in Kd, Kl.
  cbn [lift fst snd option_value]. unfold combinations_value. rewrite Kd, Kl, <- Eds, <- En.
  remember (map Z.of_nat (cb_indices c)) as zs' eqn:Ezs'.
  rewrite <- Ers. known. over. reflexivity.
Qed.
