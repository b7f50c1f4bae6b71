(** RustHands.v: running the text of [const_combos], [six_plus], [evaluate] and [Evaluator::evaluate] gives what the
    model gives. *)
From Coq Require Import String Lia.
From Verif Require Import Base BaseFacts ModelCard ModelEval ModelTable ModelEvaluation CardFacts SpecApi Sweep CombosFacts.
From Verif Require Import RustSyntax RustSemantics RustProgram RustValues RustSteps RustFacts RustUtils RustEvaluate RustCombos.
Local Open Scope string_scope.
Local Open Scope list_scope.
Local Open Scope Z_scope.

Lemma ints_of_ints : forall t zs, ints_of t (map (VInt t) zs) = Some zs.
Proof.
  intros t zs. induction zs as [|z zs IH]; [ reflexivity | ].
  cbn [map ints_of]. rewrite IH. destruct t; reflexivity.
Qed.
Lemma call_combinations_new : forall fuel d n vs,
  call (engine fuel (S (S d))) "Combinations::new" (Some (VInt Usize (Z.of_nat n))) [VList vs]
  = Val (VCon "Combinations" [("data", VList vs); ("indices", VInts Usize (map Z.of_nat (seq 0 n)));
                              ("done", VBool false); ("N", VInt Usize (Z.of_nat n))], VUnit).
Proof.
  intros. match goal with |- _ = ?r => remember r as R eqn:ER end.
  code.
  match goal with |- context [map_values ?o ?g _] =>
    assert (M : map_values o g (ints Usize (range 0 (Z.of_nat n))) = Val (ints Usize (map Z.of_nat (seq 0 n)))) end.
  { change 0 with (Z.of_nat 0) at 1. rewrite range_nat, Nat.sub_0_r. unfold ints.
    etransitivity; [ apply (map_values_all _ _ (VInt Usize) (VInt Usize)) | reflexivity ].
    intros z _. closure. over. reflexivity. }
  eapply to_bnd; [ exact M | ]. clear M. pose proof (ints_of_ints Usize (map Z.of_nat (seq 0 n))) as Hi.
  fold (ints Usize (map Z.of_nat (seq 0 n))) in Hi.
  remember (map Z.of_nat (seq 0 n)) as zs eqn:Ezs. known. rewrite Hi. known. over. subst. reflexivity.
Qed.
Lemma call_const_combos : forall fuel d n vs,
  call (engine fuel (S (S (S d)))) "const_combos" (Some (VInt Usize (Z.of_nat n))) [VList vs]
  = Val (VCon "Combinations" [("data", VList vs); ("indices", VInts Usize (map Z.of_nat (seq 0 n)));
                              ("done", VBool false); ("N", VInt Usize (Z.of_nat n))], VUnit).
Proof.
  intros. match goal with |- _ = ?r => remember r as R eqn:ER end.
  code. learn call_combinations_new. remember (map Z.of_nat (seq 0 n)) as zs eqn:Ezs. known. over. subst. reflexivity.
Qed.

(** A loop over the combinations, against [for_combinations] *)
Lemma next_kept : forall {T} (c c' : combinations T) x, combinations_next c = Ret (x, c') ->
  cb_data c' = cb_data c /\ length (cb_indices c') = length (cb_indices c).
Proof.
  intros T c c' x H. unfold combinations_next in H. destruct (cb_done c).
  - injection H as _ <-. split; reflexivity.
  - destruct (mapM (index (cb_data c)) (cb_indices c)) as [l|q|]; cbn [bind] in H; [ | discriminate | discriminate ].
    destruct (advance_loop _ _ _ c) as [c1|q|] eqn:E; cbn [bind] in H; [ | discriminate | discriminate ].
    injection H as _ <-. exact (advance_kept _ _ _ _ _ E).
Qed.
Lemma drain_combinations : forall {T S} (f : T -> value) fuel d p b (body : S -> list T -> outcome S) (enc : S -> env) n g c s,
  Z.of_nat (length (cb_data c)) < 2 ^ 63 -> length (cb_indices c) = n ->
  (forall s l, length l = n -> round rust (engine fuel (Datatypes.S (Datatypes.S (Datatypes.S (Datatypes.S d))))) p b (VList (map f l)) (enc s)
             = lift (fun s => (Go VUnit, enc s)) (body s l)) ->
  drain rust (engine fuel (Datatypes.S (Datatypes.S (Datatypes.S (Datatypes.S d))))) g p b "Combinations" (Some (VInt Usize (Z.of_nat n)))
    (combinations_value f c) (enc s)
  = lift (fun s => (Go VUnit, enc s)) (for_combinations g c body s).
Proof.
  intros T S f fuel d p b body enc n g. induction g as [|g IH]; intros c s Hlen Hn HR; [ reflexivity | ].
  cbn [drain for_combinations].
  change ("Combinations" ++ "::next")%string with "Combinations::next".
  rewrite <- Hn at 1. rewrite call_next by exact Hlen.
  destruct (combinations_next c) as [[x c']|q|] eqn:E; cbn [lift bnd bind fst snd]; [ | reflexivity | reflexivity ].
  destruct x as [l|]; cbn [option_value]; [ | reflexivity ].
  change (bnd (round rust (engine fuel (Datatypes.S (Datatypes.S (Datatypes.S (Datatypes.S d))))) p b (VList (map f l)) (enc s))
    (fun y => match y with
              | (Go _, r) => drain rust (engine fuel (Datatypes.S (Datatypes.S (Datatypes.S (Datatypes.S d))))) g p b "Combinations" (Some (VInt Usize (Z.of_nat n))) (combinations_value f c') r
              | (Brk, r) => Val (Go VUnit, r)
              | (Back v, r) => Val (Back v, r)
              end) = lift (fun s => (Go VUnit, enc s)) (let! s' := body s l in for_combinations g c' body s')).
  destruct (next_kept _ _ _ E) as (Kd & Kn).
  assert (Ll : length l = n).
  { unfold combinations_next in E. destruct (cb_done c); [ discriminate | ].
    destruct (mapM (index (cb_data c)) (cb_indices c)) as [l'|q|] eqn:El; cbn [bind] in E; [ | discriminate | discriminate ].
    destruct (advance_loop _ _ _ c) as [c1|q|]; cbn [bind] in E; [ | discriminate | discriminate ].
    injection E as <- _. rewrite <- Hn. clear - El. revert l' El. induction (cb_indices c) as [|i is IHi]; intros l' El.
    - injection El as <-. reflexivity.
    - cbn [mapM] in El. destruct (index (cb_data c) i); cbn [bind] in El; [ | discriminate | discriminate ].
      destruct (mapM (index (cb_data c)) is) as [l1|q|]; cbn [bind] in El; [ | discriminate | discriminate ].
      injection El as <-. cbn. f_equal. apply IHi. reflexivity. }
  rewrite HR by exact Ll. destruct (body s l) as [s'|q|]; cbn [lift bnd bind]; [ | reflexivity | reflexivity ].
  apply IH; [ rewrite Kd; exact Hlen | rewrite Kn; exact Hn | exact HR ].
Qed.

(** [>] on two results *)
Lemma comparison_of_ordering : forall c, comparison_of (ordering c) = Some c.
Proof. intros []; reflexivity. Qed.
Lemma compare_con : forall P o c fs d gs k h,
  assoc (owner c ++ "::partial_cmp") (heads P) = Some h ->
  compare P o (VCon c fs) (VCon d gs) k
  = bnd (call o (owner c ++ "::partial_cmp") None [VCon c fs; VCon d gs]) (fun p =>
      match fst p with
      | VCon s [(_, x)] => if (s =? "Some")%string then some (comparison_of x) k else Stuck
      | _ => Stuck
      end).
Proof. intros P o c fs d gs k h H. cbn [compare]. rewrite H. reflexivity. Qed.
Lemma compare_meta : forall o a b k,
  compare rust o (meta_value a) (meta_value b) k
  = bnd (call o "Meta::partial_cmp" None [meta_value a; meta_value b]) (fun p =>
      match fst p with
      | VCon s [(_, x)] => if (s =? "Some")%string then some (comparison_of x) k else Stuck
      | _ => Stuck
      end).
Proof.
  assert (H : exists h, assoc "Meta::partial_cmp" (heads rust) = Some h) by (eexists; vm_compute; reflexivity).
  destruct H as (h & H). intros o a b k.
  destruct a, b;
  match goal with |- compare _ _ ?v ?w _ = _ =>
    let v' := eval hnf in v in let w' := eval hnf in w in
    lazymatch v' with VCon ?c ?fs => lazymatch w' with VCon ?d ?gs => exact (compare_con rust o c fs d gs k h H) end end
  end.
Qed.
Lemma compare_eval : forall o x y k,
  compare rust o (VCon "Eval" [("0", x)]) (VCon "Eval" [("0", y)]) k
  = compare rust o x y (fun s => match s with Eq => k Eq | s => k s end).
Proof.
  assert (H : assoc "Eval::partial_cmp" (heads rust) = None) by (vm_compute; reflexivity).
  intros o x y k. 
  change (match assoc "Eval::partial_cmp" (heads rust) with
      | Some _ =>
          bnd (call o "Eval::partial_cmp" None [VCon "Eval" [("0", x)]; VCon "Eval" [("0", y)]]) (fun p =>
            match fst p with
            | VCon s [(_, x)] => if (s =? "Some")%string then some (comparison_of x) k else Stuck
            | _ => Stuck
            end)
      | None =>
          match Z.compare (position "Eval" (decls rust)) (position "Eval" (decls rust)) with
          | Eq => compare rust o x y (fun s => match s with Eq => k Eq | s => k s end)
          | s => k s
          end
      end = compare rust o x y (fun s => match s with Eq => k Eq | s => k s end)).
  rewrite H, Z.compare_refl. reflexivity.
Qed.
Lemma greater_eval : forall fuel d a b k,
  binary rust (engine fuel (S (S d))) Greater (eval_value a) (eval_value b) k
  = k (VBool (op_gt (eval_partial_cmp a b))).
Proof.
  intros fuel d a b k.
  change (compare rust (engine fuel (S (S d))) (eval_value a) (eval_value b)
    (fun s => k (VBool (match s with Gt => true | _ => false end))) = k (VBool (op_gt (eval_partial_cmp a b)))).
  unfold eval_value. rewrite compare_eval, compare_meta, call_meta_partial_cmp. unfold eval_partial_cmp.
  assert (H : exists c, meta_partial_cmp (eval_meta a) (eval_meta b) = Some c) by (unfold meta_partial_cmp; repeat (match goal with |- context [if ?b then _ else _] => destruct b end); eexists; reflexivity).
  destruct H as (c & ->). cbn [bnd fst option_value]. unfold some_value.
  match goal with |- _ = ?r => change (some (comparison_of (ordering c)) (fun s => match s with Eq => k (VBool (match Eq with Gt => true | _ => false end)) | s => k (VBool (match s with Gt => true | _ => false end)) end) = r) end.
  rewrite comparison_of_ordering. destruct c; reflexivity.
Qed.

(** With fuel enough the loop visits all combinations, whatever the fuel. *)
Lemma enough_fuel : forall {T St} n (items : list T) (body : St -> list T -> outcome St) s fuel,
  (1 <= n <= length items)%nat -> (binom (length items) n < fuel)%nat ->
  for_combinations fuel (combinations_new n items) body s = for_const_combos n items body s.
Proof.
  intros T St n items body s fuel Hn Hf. unfold for_const_combos.
  destruct items as [|d items']; [ simpl in Hn; lia | ].
  set (items := d :: items') in *.
  pose proof (combs_chain (length items) n 0) as C. simpl Nat.add in C.
  pose proof (combs_head (length items) n 0 (proj2 Hn)) as Hd.
  pose proof (combs_binom (seq 0 (length items)) n) as Hb. rewrite seq_length in Hb.
  pose proof (fun J (HJ : In J (combs n (seq 0 (length items)))) =>
                conj (combs_length_elem _ _ _ HJ) (combs_increasing _ _ _ _ HJ)) as HI.
  unfold combinations_new.
  destruct (combs n (seq 0 (length items))) as [|I L]; [ discriminate | ].
  simpl in Hd. injection Hd as Hd. rewrite <- Hd.
  assert (K : forall J, In J (I :: L) -> J <> [] /\ increasing 0 (length items) J).
  { intros J HJ. destruct (HI J HJ) as [H1 H2]. split; [ | exact H2 ]. intros ->. simpl in H1. lia. }
  change (S (length L) = binom (length items) n) in Hb.
  rewrite (for_combinations_chain items body d L I s fuel C K) by lia.
  rewrite (for_combinations_chain items body d L I s _ C K) by lia. reflexivity.
Qed.

Lemma call_six_plus : forall fuel d e l,
  Z.of_nat (length l) < 2 ^ 63 -> (binom (length l) 5 < fuel)%nat ->
  call (engine fuel (S (S (S (S (S (S d))))))) "six_plus" None [evaluator_value e; cards_value l]
  = lift (fun x => (eval_value x, VUnit)) (six_plus (evaluator_evaluation e) l).
Proof.
  intros fuel d e l Hlen Hf. unfold six_plus, cards_value.
  remember (map card_value l) as vs eqn:Evs.
  assert (Lv : length vs = length l) by (rewrite Evs; apply map_length).
  remember (evaluator_value e) as ve eqn:Eve.
  match goal with |- _ = ?r => remember r as R eqn:ER end.
  code. rewrite Lv. destruct (5 <? Z.of_nat (length l)) eqn:B5; known.
  2:{ over. subst R. replace (5 <? length l)%nat with false; [ reflexivity | ].
      symmetry. apply Nat.ltb_ge. apply Z.ltb_ge in B5. lia. }
  apply Z.ltb_lt in B5. replace (5 <? length l)%nat with true in ER by (symmetry; apply Nat.ltb_lt; lia).
  cbn [negb] in ER.
  learn (call_const_combos fuel (S (S d)) 5).
  change (map Z.of_nat (seq 0 5)) with [0; 1; 2; 3; 4]. change (Z.of_nat 5) with 5. known.
  Ltac to_greater := repeat (lazymatch goal with |- to (binary _ _ Greater _ _ _) _ => fail | _ => step end).
  match goal with |- to (bnd (loop _ ?p ?b _ [?a; _; ?c; ?x; ?y]) _) _ =>
    assert (RD : forall s combo, length combo = 5%nat ->
      round rust (engine fuel (S (S (S (S d))))) p b (VList (map card_value combo)) [a; ("current_max", eval_value s); c; x; y]
      = lift (fun s => (Go VUnit, [a; ("current_max", eval_value s); c; x; y]))
          (let! score := five (evaluator_evaluation e) combo in
           if op_gt (eval_partial_cmp score s) then Ret score else Ret s)) end.
  { clear - Eve. intros s combo Hc.
    remember (eval_value s) as vmax eqn:Emax. remember (map card_value combo) as cs eqn:Ecs.
    match goal with |- _ = ?r => remember r as R eqn:ER end.
    one_round. eapply to_bnd; [ rewrite Eve, Ecs; apply call_five; destruct combo; [ discriminate | congruence ] | ].
    destruct (five (evaluator_evaluation e) combo) as [score|q|]; cbn [lift]; cbn [bind] in ER;
      [ | subst R; known; over; reflexivity | subst R; known; over; reflexivity ].
    remember (eval_value score) as vscore eqn:Escore. cbv beta iota delta [bnd fst snd]. to_greater.
    subst vscore vmax. eapply to_eq; [ apply greater_eval | ].
    remember (eval_value score) as vscore eqn:Escore. remember (eval_value s) as vmax eqn:Emax.
    subst R.
    destruct (op_gt (eval_partial_cmp score s)); known; over; subst; reflexivity. }
  match goal with |- to (bnd (loop _ ?p ?b _ [?a; _; ?c; ?x; ?y]) _) _ =>
    set (enc := fun s => [a; ("current_max", eval_value s); c; x; y]) end.
  pose proof (drain_combinations card_value fuel d _ _
    (fun s combo => let! score := five (evaluator_evaluation e) combo in
                    if op_gt (eval_partial_cmp score s) then Ret score else Ret s)
    enc 5 fuel (combinations_new 5 l) EVAL_WORST Hlen eq_refl RD) as DC.
  eapply to_bnd.
  { etransitivity; [ | exact DC ].
    rewrite loop_S. unfold combinations_value, combinations_new. cbn [cb_data cb_indices cb_done]. rewrite <- Evs. reflexivity. }
  rewrite enough_fuel by lia. subst R.
  destruct (for_const_combos 5 l _ EVAL_WORST) as [r|q|]; cbn [lift]; unfold enc.
  - remember (eval_value r) as vr eqn:Er. known. over. subst. reflexivity.
  - known. over. reflexivity.
  - known. over. reflexivity.
Qed.
Lemma call_evaluate : forall fuel d e l,
  (all_unique l = Ret true -> Z.of_nat (length l) < 2 ^ 63) -> (binom (length l) 5 < fuel)%nat ->
  call (engine fuel (S (S (S (S (S (S (S d)))))))) "evaluate" None [evaluator_value e; cards_value l]
  = lift (fun x => (result_value eval_value eval_error_value x, VUnit)) (evaluate_with (evaluator_evaluation e) l).
Proof.
  intros fuel d e l Hlen Hf. unfold evaluate_with, cards_value.
  remember (map card_value l) as vs eqn:Evs.
  assert (Lv : length vs = length l) by (rewrite Evs; apply map_length).
  remember (evaluator_value e) as ve eqn:Eve.
  match goal with |- _ = ?r => remember r as R eqn:ER end.
  code. eapply to_bnd; [ rewrite Evs; apply call_all_unique | ].
  destruct (all_unique l) as [b|q|] eqn:Eu; cbn [lift]; cbn [bind] in ER; [ | subst R; known; over; reflexivity | subst R; known; over; reflexivity ].
  destruct b; known. 2:{ over. subst. reflexivity. }
  specialize (Hlen eq_refl).
  rewrite Lv. destruct (Z.of_nat (length l) <? 5) eqn:B5; known.
  { over. apply Z.ltb_lt in B5. replace (length l <? 5)%nat with true in ER by (symmetry; apply Nat.ltb_lt; lia).
    subst R. reflexivity. }
  apply Z.ltb_ge in B5. replace (length l <? 5)%nat with false in ER by (symmetry; apply Nat.ltb_ge; lia).
  destruct (Z.of_nat (length l) =? 5) eqn:B6; known.
  - apply Z.eqb_eq in B6. replace (length l =? 5)%nat with true in ER by (symmetry; apply Nat.eqb_eq; lia).
    do 5 (destruct l as [|? l]; [ discriminate B6 | ]). destruct l; [ | cbn [length] in B6; lia ].
    cbn [map] in Evs. cbn [index nth_error bind] in ER.
    repeat match type of Evs with context [card_value ?c] => let v := fresh "v" in let E := fresh "Ev" in remember (card_value c) as v eqn:E in Evs end.
    subst vs. known.
    eapply to_bnd; [ subst; exact (call_five fuel (S (S d)) e [c; c0; c1; c2; c3] ltac:(discriminate)) | ].
    destruct (five (evaluator_evaluation e) _) as [x|q|]; cbn [lift]; cbn [bind lift] in ER; subst R.
    + unfold result_value, ok_value. remember (eval_value x) as vx eqn:Ex. known. over. subst. reflexivity.
    + known. over. reflexivity.
    + known. over. reflexivity.
  - apply Z.eqb_neq in B6. replace (length l =? 5)%nat with false in ER by (symmetry; apply Nat.eqb_neq; lia).
    eapply to_bnd; [ rewrite Eve, Evs; apply call_six_plus; assumption | ].
    destruct (six_plus (evaluator_evaluation e) _) as [x|q|]; cbn [lift]; cbn [bind lift] in ER; subst R.
    + unfold result_value, ok_value. remember (eval_value x) as vx eqn:Ex. known. over. subst. reflexivity.
    + known. over. reflexivity.
    + known. over. reflexivity.
Qed.
Lemma call_evaluator_evaluate : forall fuel d e l,
  (all_unique l = Ret true -> Z.of_nat (length l) < 2 ^ 63) -> (binom (length l) 5 < fuel)%nat ->
  call (engine fuel (S (S (S (S (S (S (S (S d))))))))) "Evaluator::evaluate" None [evaluator_value e; cards_value l]
  = lift (fun x => (result_value eval_value eval_error_value x, VUnit)) (evaluate e l).
Proof.
  intros fuel d e l Hlen Hf. unfold evaluate.
  remember (cards_value l) as vl eqn:El. assert (H : exists vs, vl = VList vs) by (eexists; exact El). destruct H as (vs & Evs).
  remember (evaluator_value e) as ve eqn:Eve.
  match goal with |- _ = ?r => remember r as R eqn:ER end.
  rewrite Evs. code. rewrite Evs in El. 
  eapply to_bnd; [ rewrite Eve, El; apply call_evaluate; assumption | ].
  destruct (evaluate_with (evaluator_evaluation e) l) as [x|q|]; cbn [lift]; cbn [bind lift] in ER; subst R.
  + remember (result_value eval_value eval_error_value x) as vx eqn:Ex. known. over. subst. reflexivity.
  + known. over. reflexivity.
  + known. over. reflexivity.
Qed.
