(** WidthFacts.v: the game on machines with a [usize] of another width. *)
From Coq Require Import Lia List String ZArith NArith Bool Arith Permutation.
From Verif Require Import Base BaseFacts ModelCard ModelEval ModelTable ModelEvaluation ModelExamples ModelWidth.
From Verif Require Import Spec SpecApi SpecText SpecExamples SpecWidth ExamplesFacts.
From Verif Require JacksFacts ReleaseFacts.
Import ListNotations.
Local Open Scope Z_scope.
Local Open Scope list_scope.

(** ** Reading numbers *)
Lemma in_usize_iff b z : in_usize b z = true <-> 0 <= z < 2 ^ b.
Proof. unfold in_usize. rewrite andb_true_iff, Z.leb_le, Z.ltb_lt. reflexivity. Qed.
Lemma in_usize_out b z : in_usize b z = false <-> ~ 0 <= z < 2 ^ b.
Proof. rewrite <- in_usize_iff. destruct (in_usize b z); split; congruence. Qed.
Lemma digits_at_spec b s : forall acc n, 0 <= acc < 2 ^ b ->
  (parse_digits_at b s acc = Some n <-> Forall is_digit s /\ n = digits_value acc s /\ n < 2 ^ b).
Proof.
  induction s as [|c s IH]; intros acc n Ha.
  - cbn [parse_digits_at]. unfold digits_value. cbn [fold_left]. split.
    + intros H. injection H as <-. repeat split; [constructor|lia].
    + intros (_ & -> & _). reflexivity.
  - cbn [parse_digits_at]. destruct (to_digit c) as [x|] eqn:Ed.
    + apply to_digit_spec in Ed. destruct Ed as [Dc ->].
      destruct Dc as (d & Hd & ->).
      assert (Dc : is_digit (48 + d)%N) by (exists d; auto).
      unfold digits_value. cbn [fold_left]. fold (digits_value (acc * 10 + (Z.of_N (48 + d) - 48)) s).
      destruct (in_usize b (acc * 10)) eqn:E1; [destruct (in_usize b (acc * 10 + (Z.of_N (48 + d) - 48))) eqn:E2|].
      * apply in_usize_iff in E2. rewrite (IH _ n E2). split.
        -- intros (F & -> & L). split; [constructor; assumption|]. auto.
        -- intros (F & -> & L). inversion F; subst. auto.
      * split; [discriminate|]. intros (F & -> & L). inversion F as [|? ? _ Fs]; subst.
        pose proof (digits_value_ge s (acc * 10 + (Z.of_N (48 + d) - 48)) ltac:(lia) Fs).
        apply in_usize_out in E2. lia.
      * split; [discriminate|]. intros (F & -> & L). inversion F as [|? ? _ Fs]; subst.
        pose proof (digits_value_ge s (acc * 10 + (Z.of_N (48 + d) - 48)) ltac:(lia) Fs).
        apply in_usize_out in E1. lia.
    + split; [discriminate|]. intros (F & _). inversion F as [|? ? Dc _]; subst.
      assert (to_digit c = Some (Z.of_N c - 48)) by (apply to_digit_spec; auto). congruence.
Qed.
Lemma digits_at_decimal b s n : 0 <= b -> s <> [] -> (parse_digits_at b s 0 = Some n <-> n < 2 ^ b /\ decimal s n).
Proof.
  intros B N. rewrite digits_at_spec, decimal_iff; [tauto|]. pose proof (Z.pow_pos_nonneg 2 b eq_refl B). lia.
Qed.
Lemma typed_head c s n : typed (c :: s) n -> decimal (c :: s) n \/ c = 43%N /\ decimal s n.
Proof. intros [D|(s' & E & D)]; [auto|]. injection E as -> ->. auto. Qed.
Lemma usize_at_plus b (s : rstring) : s <> [] -> parse_usize_at b (43%N :: s) = parse_digits_at b s 0.
Proof. destruct s; [congruence|reflexivity]. Qed.
Lemma usize_at_other b (c : rchar) (s : rstring) : c <> 43%N -> [c] ++ s <> [45%N] ->
  parse_usize_at b (c :: s) = parse_digits_at b (c :: s) 0.
Proof.
  intros N1 N2. unfold parse_usize_at.
  destruct c as [|p]; [reflexivity|].
  do 6 (destruct p as [p|p|]; try reflexivity).
  - congruence.
  - destruct s; [exfalso; apply N2; reflexivity|reflexivity].
Qed.
Theorem read b s n : 0 <= b -> (parse_usize_at b s = Some n <-> n < 2 ^ b /\ typed s n).
Proof.
  intros B. destruct s as [|c s].
  - split; [discriminate|]. intros [_ [D|(s' & E & _)]]; [apply decimal_nil in D; tauto|discriminate E].
  - destruct (N.eq_dec c 43) as [->|N1].
    + destruct s as [|d s].
      * split; [discriminate|]. intros [_ H]. apply typed_head in H.
        destruct H as [D|[_ D]]; [apply decimal_head, plus_not_digit in D; tauto|].
        apply decimal_nil in D. tauto.
      * rewrite usize_at_plus, digits_at_decimal by (try exact B; discriminate). split.
        -- intros [L D]. split; [exact L|]. right. exists (d :: s). auto.
        -- intros [L H]. apply typed_head in H.
           destruct H as [D|[_ D]]; [apply decimal_head, plus_not_digit in D; tauto|]. auto.
    + destruct (list_eq_dec N.eq_dec (c :: s) [45%N]) as [E|N2].
      * injection E as -> ->. split; [discriminate|]. intros [_ H]. apply typed_head in H.
        destruct H as [D|[E D]]; [apply decimal_head, minus_not_digit in D; tauto|].
        discriminate E.
      * rewrite (usize_at_other b c s N1 N2), digits_at_decimal by (try exact B; discriminate). split.
        -- intros [L D]. split; [exact L|]. left. exact D.
        -- intros [L H]. apply typed_head in H. destruct H as [D|[E _]]; [auto|congruence].
Qed.
Lemma typed_nonneg s n : typed s n -> 0 <= n.
Proof. intros [D|(s' & _ & D)]; exact (decimal_nonneg _ _ D). Qed.

Section machines.
Context (b b' : Z).
Hypothesis B12 : 12 <= b.
Hypothesis BB : b <= b'.
Context (all : list rstring).   (* all lines ever typed *)
Lemma pow_b : 4096 <= 2 ^ b.
Proof. change 4096 with (2 ^ 12). apply Z.pow_le_mono_r; lia. Qed.
Lemma pow_bb : 2 ^ b <= 2 ^ b'.
Proof. apply Z.pow_le_mono_r; lia. Qed.

(** A text read by the two machines: the same, or too large for the first *)
Lemma read_both s : (parse_usize_at b s = parse_usize_at b' s)
  \/ (parse_usize_at b s = None /\ exists n, parse_usize_at b' s = Some n /\ typed s n /\ 2 ^ b <= n).
Proof.
  pose proof pow_bb as P. destruct (parse_usize_at b' s) as [n|] eqn:E'.
  - pose proof E' as T. apply read in T; [|lia]. destruct T as [L T].
    destruct (Z.lt_ge_cases n (2 ^ b)) as [H|H].
    + left. apply read; [lia|]. auto.
    + destruct (parse_usize_at b s) as [m|] eqn:E; [|eauto 8]. left.
      apply read in E; [|lia]. destruct E as [Lm Tm].
      assert (parse_usize_at b' s = Some m) as X by (apply read; [lia|]; split; [lia|exact Tm]). congruence.
  - left. destruct (parse_usize_at b s) as [m|] eqn:E; [|reflexivity].
    apply read in E; [|lia]. destruct E as [Lm Tm].
    assert (parse_usize_at b' s = Some m) as X by (apply read; [lia|]; split; [lia|exact Tm]). congruence.
Qed.
Lemma read_all_both ss : (parse_all_at b ss = parse_all_at b' ss)
  \/ (parse_all_at b ss = None /\ exists ns w n, parse_all_at b' ss = Some ns /\ In n ns /\ In w ss /\ typed w n /\ 2 ^ b <= n).
Proof.
  induction ss as [|s ss IH]; [left; reflexivity|]. cbn [parse_all_at].
  destruct (read_both s) as [->|(-> & n & -> & T & L)].
  - destruct (parse_usize_at b' s) as [x|]; [|left; reflexivity].
    destruct IH as [->|(-> & ns & w & n & -> & I1 & I2 & T & L)]; [left; reflexivity|].
    right. split; [reflexivity|]. exists (x :: ns), w, n. cbn [In]. auto 8.
  - destruct (parse_all_at b' ss) as [ns|].
    + right. split; [reflexivity|]. exists (n :: ns), s, n. cbn [In]. auto 8.
    + left. reflexivity.
Qed.

(** ** What the player is asked for *)
Lemma alike_refl out : Forall2 (alike b all) out out.
Proof. induction out; constructor; [apply alike_same|assumption]. Qed.
Lemma alike_snoc out out' x x' : Forall2 (alike b all) out out' -> alike b all x x' -> Forall2 (alike b all) (out ++ [x]) (out' ++ [x']).
Proof. intros F A. apply Forall2_app; [exact F|]. constructor; [exact A|constructor]. Qed.

Lemma incl_tail {A} (x : A) l m : incl (x :: l) m -> In x m /\ incl l m.
Proof. intros I. split; [apply I; left; reflexivity|]. intros y Y. apply I. right. exact Y. Qed.
Lemma wager_both credits lines : incl lines all -> forall out out', Forall2 (alike b all) out out' ->
  exists a rest o o', get_wager_at b credits lines out = (a, rest, o) /\ get_wager_at b' credits lines out' = (a, rest, o')
    /\ Forall2 (alike b all) o o' /\ (forall w, a = Some w -> 1 <= w <= 5 /\ w <= credits /\ (List.length rest < List.length lines)%nat)
    /\ incl rest all.
Proof.
  pose proof pow_b as P.
  induction lines as [|l lines IH]; intros I out out' F; cbn [get_wager_at];
    pose proof (alike_snoc _ _ _ _ F (alike_same b all (wager_message credits))) as F1.
  - do 4 eexists. split; [reflexivity|]. split; [reflexivity|]. split; [exact F1|]. split; [intros w [=]|exact I].
  - apply incl_tail in I. destruct I as [Il I]. specialize (IH I).
    assert (forall out out', Forall2 (alike b all) out out' ->
      exists a rest o o', get_wager_at b credits lines out = (a, rest, o) /\ get_wager_at b' credits lines out' = (a, rest, o')
        /\ Forall2 (alike b all) o o'
        /\ (forall w, a = Some w -> 1 <= w <= 5 /\ w <= credits /\ (List.length rest < List.length (l :: lines))%nat)
        /\ incl rest all) as IH'.
    { intros o1 o1' X. destruct (IH o1 o1' X) as (a & rest & o & o' & H1 & H2 & H3 & H4 & H5).
      exists a, rest, o, o'. repeat (split; [assumption|]). split; [|exact H5]. intros w Hw.
      destruct (H4 w Hw) as (K1 & K2 & K3). cbn [List.length]. split; [exact K1|]. split; [exact K2|]. lia. }
    clear IH. rename IH' into IH.
    destruct (str_eqb l (lit "quit")).
    { do 4 eexists. split; [reflexivity|]. split; [reflexivity|]. split; [exact F1|]. split; [intros w [=]|exact I]. }
    destruct (read_both l) as [->|(-> & n & E' & T & L)].
    + destruct (parse_usize_at b' l) as [x|] eqn:E.
      2:{ apply IH. apply alike_snoc; [exact F1|apply alike_same]. }
      destruct (x =? 0) eqn:E0; [apply IH, alike_snoc; [exact F1|apply alike_same]|].
      destruct (MAX_WAGER <? x) eqn:E5; [apply IH, alike_snoc; [exact F1|apply alike_same]|].
      destruct (credits <? x) eqn:Ec; [apply IH, alike_snoc; [exact F1|apply alike_same]|].
      do 4 eexists. split; [reflexivity|]. split; [reflexivity|]. split; [exact F1|]. split; [|exact I]. intros w [= <-].
      apply read in E; [|lia]. destruct E as [_ T]. apply typed_nonneg in T.
      apply Z.eqb_neq in E0. apply Z.ltb_ge in E5. apply Z.ltb_ge in Ec. unfold MAX_WAGER in E5.
      cbn [List.length]. lia.
    + rewrite E'. replace (n =? 0) with false by (symmetry; apply Z.eqb_neq; lia).
      replace (MAX_WAGER <? n) with true by (symmetry; apply Z.ltb_lt; unfold MAX_WAGER; lia).
      apply IH, alike_snoc; [exact F1|]. exact (alike_wager b all l n Il T L).
Qed.
Lemma below (checks : bool) (k : Z) z : 12 <= k -> 0 <= z < 4096 -> arith checks k z = Ret z.
Proof.
  intros K Hz. assert (4096 <= 2 ^ k) as P by (change 4096 with (2 ^ 12); apply Z.pow_le_mono_r; lia).
  unfold arith. destruct checks.
  - unfold chk. replace (in_usize k z) with true by (symmetry; apply in_usize_iff; lia). reflexivity.
  - rewrite Z.mod_small by lia. reflexivity.
Qed.
Lemma indices_at checks k ns : 12 <= k -> Forall (fun n => 1 <= n <= 5) ns ->
  mapM (fun x => arith checks k (x - 1)) ns = Ret (map (fun n => n - 1) ns).
Proof.
  intros K. induction 1 as [|n ns H _ IH]; [reflexivity|]. cbn [mapM map].
  rewrite below by lia. cbn [bind]. rewrite IH. reflexivity.
Qed.
Lemma swaps_both checks order lines : incl lines all -> forall out out', Forall2 (alike b all) out out' ->
  exists a rest o o', get_swaps_at checks b order lines out = Ret (a, rest, o)
    /\ get_swaps_at checks b' order lines out' = Ret (a, rest, o') /\ Forall2 (alike b all) o o'
    /\ (List.length rest <= List.length lines)%nat /\ incl rest all.
Proof.
  pose proof pow_b as P.
  induction lines as [|l lines IH]; intros I out out' F; cbn [get_swaps_at];
    pose proof (alike_snoc _ _ _ _ F (alike_same b all swaps_message)) as F1.
  - do 4 eexists. split; [reflexivity|]. split; [reflexivity|]. split; [exact F1|]. split; [lia|exact I].
  - apply incl_tail in I. destruct I as [Il I]. specialize (IH I).
    assert (forall out out', Forall2 (alike b all) out out' ->
      exists a rest o o', get_swaps_at checks b order lines out = Ret (a, rest, o)
        /\ get_swaps_at checks b' order lines out' = Ret (a, rest, o') /\ Forall2 (alike b all) o o'
        /\ (List.length rest <= List.length (l :: lines))%nat /\ incl rest all) as IH'.
    { intros o1 o1' X. destruct (IH o1 o1' X) as (a & rest & o & o' & H1 & H2 & H3 & H4 & H5).
      exists a, rest, o, o'. repeat (split; [assumption|]). split; [cbn [List.length]; lia|exact H5]. }
    clear IH. rename IH' into IH.
    destruct (str_eqb l (lit "quit")).
    { do 4 eexists. split; [reflexivity|]. split; [reflexivity|]. split; [exact F1|]. split; [cbn [List.length]; lia|exact I]. }
    destruct (read_all_both (split_whitespace l)) as [->|(-> & ns & w & n & E' & I1 & I2 & T & L)].
    + destruct (parse_all_at b' (split_whitespace l)) as [ns|]; [|apply IH, alike_snoc; [exact F1|apply alike_same]].
      destruct (forallb (fun num => (1 <=? num) && (num <=? 5)) ns) eqn:Ef; cbn [negb];
        [|apply IH, alike_snoc; [exact F1|apply alike_same]].
      destruct (Nat.leb (List.length ns) 5); cbn [negb]; [|apply IH, alike_snoc; [exact F1|apply alike_same]].
      destruct (all_inserted [] ns); cbn [negb]; [|apply IH, alike_snoc; [exact F1|apply alike_same]].
      assert (Forall (fun n => 1 <= n <= 5) ns) as Fn.
      { apply Forall_forall. intros n In. rewrite forallb_forall in Ef. apply Ef in In.
        apply andb_true_iff in In. rewrite !Z.leb_le in In. exact In. }
      rewrite !indices_at by (try exact Fn; lia). cbn [bind].
      do 4 eexists. split; [reflexivity|]. split; [reflexivity|]. split; [exact F1|]. split; [cbn [List.length]; lia|exact I].
    + rewrite E'. replace (forallb (fun num => (1 <=? num) && (num <=? 5)) ns) with false; cbn [negb].
      * apply IH, alike_snoc; [exact F1|]. exact (alike_swaps b all l w n Il I2 T L).
      * symmetry. apply not_true_is_false. rewrite forallb_forall. intros X. apply X in I1.
        apply andb_true_iff in I1. rewrite !Z.leb_le in I1. lia.
Qed.
Lemma payout_range checks k w c : 12 <= k -> 1 <= w <= 5 ->
  exists p, payout_at checks k w c = Ret p /\ 0 <= p <= 4000 /\ payout w c = Ret p.
Proof.
  intros K W. pose proof (JacksFacts.payout_pays w c W) as E. pose proof (JacksFacts.pays_range w c W) as Hp.
  exists (pays w c). split; [|split; [lia|exact E]]. rewrite <- E.
  assert (forall m, 0 <= m <= 250 -> arith checks k (m * w) = chk in_u64 (m * w)) as A.
  { intros m Hm. rewrite below by nia. rewrite JacksFacts.chk_u64 by nia. reflexivity. }
  unfold payout, payout_at.
  destruct c as [r|r|r r'|r|r|r|r r'|r|r]; try reflexivity; try (apply A; lia).
  destruct r; try (apply A; lia). destruct (w =? MAX_WAGER); [reflexivity|apply A; lia].
Qed.

(** ** One turn *)
Section turn.
Context {R : Type}.
Context (c0 : Z) (n0 : nat).   (* credits and number of lines before *)
Definition agree (x x' : outcome (turn * game R)) : Prop :=
  (forall t g', x' = Ret (t, g') -> g_credits g' < 2 ^ b -> exists g, x = Ret (t, g) /\ twins b all g g')
  /\ (forall t g', x' = Ret (t, g') -> 2 ^ b <= g_credits g' -> x = Panic ArithmeticOverflow)
  /\ (forall t g, x = Ret (t, g) -> (exists g', x' = Ret (t, g') /\ twins b all g g')
      /\ 0 <= g_credits g < 2 ^ b /\ g_credits g <= c0 + 4000
      /\ incl (g_lines g) all /\ (t = Again -> (List.length (g_lines g) < n0)%nat)
      /\ (t = Break -> g_credits g <= c0)).
Lemma agree_bind {A} (x : outcome A) f f' : (forall a, agree (f a) (f' a)) -> agree (bind x f) (bind x f').
Proof.
  intros H. destruct x as [a|p|]; cbn [bind]; [apply H| |]; (split; [|split]); intros t g E; discriminate E.
Qed.
Lemma agree_ret t g g' : twins b all g g' -> 0 <= g_credits g < 2 ^ b -> g_credits g <= c0 + 4000 ->
  incl (g_lines g) all -> (t = Again -> (List.length (g_lines g) < n0)%nat) ->
  (t = Break -> g_credits g <= c0) -> agree (Ret (t, g)) (Ret (t, g')).
Proof.
  intros T C C4 I N M. split; [|split].
  - intros t1 g1 [= <- <-] _. eauto.
  - intros t1 g1 [= <- <-] L. destruct T as [_ _ _ Ec _ _]. lia.
  - intros t1 g1 [= <- <-]. split; [eauto|]. auto 6.
Qed.
Lemma agree_overflow x' : (forall t g', x' = Ret (t, g') -> 2 ^ b <= g_credits g') -> agree (Panic ArithmeticOverflow) x'.
Proof.
  intros H. split; [|split].
  - intros t g' E L. apply H in E. lia.
  - reflexivity.
  - intros t g E. discriminate E.
Qed.

End turn.
Context {R : Type} (gen : R -> nat -> nat * R) (order : list (Z * nat) -> list (Z * nat)) (ev : evaluator).
Theorem turn_widths (g g' : game R) : twins b all g g' -> incl (g_lines g) all -> 0 <= g_credits g < 2 ^ b ->
  agree (g_credits g) (List.length (g_lines g)) (game_turn_at true b gen order ev g) (game_turn_at true b' gen order ev g').
Proof.
  pose proof pow_b as P. pose proof pow_bb as PP.
  destruct g as [li ou de ha cr rn]. destruct g' as [li' ou' de' ha' cr' rn'].
  intros [E1 E2 E3 E4 E5 F] I C. cbn [g_lines g_deck g_hand g_credits g_rng g_out] in *. subst li' de' ha' cr' rn'.
  unfold game_turn_at. cbn [g_lines g_deck g_hand g_credits g_rng g_out].
  destruct (wager_both cr li I ou ou' F) as (a & rest & o & o' & -> & -> & F1 & W & I1).
  destruct a as [w|].
  2:{ apply agree_ret; cbn [g_credits g_lines]; [|lia|lia|exact I1|intros [=]|lia].
      constructor; cbn [g_lines g_deck g_hand g_credits g_rng g_out]; try reflexivity; exact F1. }
  destruct (W w eq_refl) as (W5 & Wc & Wl).
  assert (forall k, b <= k -> arith true k (cr - w) = Ret (cr - w)) as A.
  { intros k K. assert (2 ^ b <= 2 ^ k) by (apply Z.pow_le_mono_r; lia). unfold arith, chk.
    replace (in_usize k (cr - w)) with true by (symmetry; apply in_usize_iff; lia). reflexivity. }
  rewrite !A by lia. cbn [bind].
  apply agree_bind. intros [dealt deck]. apply agree_bind. intros r. apply agree_bind. intros e1.
  apply agree_bind. intros text.
  match goal with |- context [get_swaps_at true b order rest ?x] =>
    match goal with |- context [get_swaps_at true b' order rest ?x'] =>
      destruct (swaps_both true order rest I1 x x') as (a & rest' & o2 & o2' & -> & -> & F2 & Sl & I2) end end.
  { apply alike_snoc; [|apply alike_same]. apply alike_snoc; [exact F1|apply alike_same]. }
  cbn [bind]. destruct a as [swaps|].
  2:{ apply agree_ret; cbn [g_credits g_lines]; [|lia|lia|exact I2|intros [=]|lia].
      constructor; cbn [g_lines g_deck g_hand g_credits g_rng g_out]; try reflexivity; exact F2. }
  apply agree_bind. intros [[deck2 h2] rn2]. apply agree_bind. intros r2. apply agree_bind. intros e2.
  apply agree_bind. intros text2.
  pose proof (alike_snoc _ _ _ _ F2 (alike_same b all (Line [] text2))) as F3.
  match goal with |- context [class_cmp ?x ?y] => set (cmp := class_cmp x y) end.
  set (out := match cmp with Eq => o2 ++ [Line [] text2] | Lt => _ | Gt => _ end).
  set (out' := match cmp with Eq => o2' ++ [Line [] text2] | Lt => _ | Gt => _ end).
  assert (Forall2 (alike b all) out out') as F4.
  { unfold out, out'. destruct cmp; [exact F3| |]; (apply alike_snoc; [exact F3|apply alike_same]). }
  clearbody out out'.
  destruct (payout_range true b w (eval_class_of e2) B12 W5) as (p & -> & Hp & Ep).
  destruct (payout_range true b' w (eval_class_of e2) ltac:(lia) W5) as (p' & -> & Hp' & Ep').
  assert (p' = p) as -> by congruence. cbn [bind].
  (* the rest of the turn, once the credits are known *)
  set (rest_of := fun (out : list printed) (x : Z * printed) => let (credits, winnings_string) := x in
     let out := out ++ [winnings_string] in
     if credits =? 0 then
       Ret (Break, mk_game rest' (out ++ [Line [BrightRed; Bold] (lit "Game over!")]) deck2 h2 credits rn2)
     else
       let out := out ++ [Line [] []] in
       let! shuffled := shuffle gen (deck2 ++ h2) rn2 in
       let (deck, rng) := shuffled in Ret (Again, mk_game rest' out deck [] credits rng)).
  assert (forall z s, 0 <= z < 2 ^ b -> z <= cr + 4000 ->
    agree cr (List.length li) (rest_of out (z, s)) (rest_of out' (z, s))) as K.
  { intros z s Hz Hz4. unfold rest_of. cbv zeta. pose proof (alike_snoc _ _ _ _ F4 (alike_same b all s)) as F5.
    destruct (z =? 0) eqn:Ez.
    - apply Z.eqb_eq in Ez. apply agree_ret; [|exact Hz|exact Hz4|exact I2|intros [=]|cbn [g_credits]; lia]. constructor; try reflexivity. apply alike_snoc; [exact F5|apply alike_same].
    - apply agree_bind. intros [d r3]. apply agree_ret; [|exact Hz|exact Hz4|exact I2|intros _; cbn [g_lines]; lia|intros [=]]. constructor; try reflexivity.
      apply alike_snoc; [exact F5|apply alike_same]. }
  assert (forall z s t g', rest_of out' (z, s) = Ret (t, g') -> g_credits g' = z) as K'.
  { intros z s t g'. unfold rest_of. cbv zeta. destruct (z =? 0).
    - intros [= _ <-]. reflexivity.
    - destruct (shuffle gen (deck2 ++ h2) rn2) as [[d r3]|q|]; cbn [bind]; intros E; [|discriminate E|discriminate E].
      injection E as _ <-. reflexivity. }
  change (agree cr (List.length li)
    (bind (if 0 <? p then let! back := arith true b (w + p) in let! credits := arith true b (cr - w + back) in
             Ret (credits, Line [BrightGreen; Bold] (lit "Winnings: " ++ show p))
           else Ret (cr - w, Line [BrightRed; Bold] (lit "Winnings: " ++ show p))) (rest_of out))
    (bind (if 0 <? p then let! back := arith true b' (w + p) in let! credits := arith true b' (cr - w + back) in
             Ret (credits, Line [BrightGreen; Bold] (lit "Winnings: " ++ show p))
           else Ret (cr - w, Line [BrightRed; Bold] (lit "Winnings: " ++ show p))) (rest_of out'))).
  destruct (0 <? p); [|cbn [bind]; apply K; lia].
  rewrite !below by lia. cbn [bind]. unfold arith, chk.
  destruct (in_usize b (cr - w + (w + p))) eqn:E.
  - apply in_usize_iff in E. replace (in_usize b' (cr - w + (w + p))) with true by (symmetry; apply in_usize_iff; lia).
    cbn [bind]. apply K; lia.
  - apply in_usize_out in E. cbn [bind]. apply agree_overflow. intros t g'.
    destruct (in_usize b' (cr - w + (w + p))); cbn [bind]; intros X; [|discriminate X].
    rewrite (K' _ _ _ _ X). lia.
Qed.
End machines.

Theorem turn_two b b' : 12 <= b -> b <= b' ->
  forall lines (R : Type) (gen : R -> nat -> nat * R) order ev (g g' : game R),
  twins b lines g g' -> incl (g_lines g) lines -> 0 <= g_credits g < 2 ^ b ->
  (forall t x', game_turn_at true b' gen order ev g' = Ret (t, x') -> g_credits x' < 2 ^ b ->
     exists x, game_turn_at true b gen order ev g = Ret (t, x) /\ twins b lines x x')
  /\ (forall t x', game_turn_at true b' gen order ev g' = Ret (t, x') -> 2 ^ b <= g_credits x' ->
     game_turn_at true b gen order ev g = Panic ArithmeticOverflow)
  /\ (forall t x, game_turn_at true b gen order ev g = Ret (t, x) ->
     exists x', game_turn_at true b' gen order ev g' = Ret (t, x') /\ twins b lines x x').
Proof.
  intros B BB lines R gen order ev g g' T I C.
  destruct (turn_widths b b' B BB lines gen order ev g g' T I C) as (A1 & A2 & A3).
  split; [exact A1|]. split; [exact A2|]. intros t x E. exact (proj1 (A3 t x E)).
Qed.

(** ** The loop *)
Section loops.
Context (b b' : Z).
Hypothesis B12 : 12 <= b.
Hypothesis BB : b <= b'.
Context (all : list rstring) {R : Type} (gen : R -> nat -> nat * R) (order : list (Z * nat) -> list (Z * nat)) (ev : evaluator).
(** What the narrow machine does, the wide one does too; *)
Lemma loop_back fuel : forall g g' x : game R, twins b all g g' -> incl (g_lines g) all -> 0 <= g_credits g < 2 ^ b ->
  game_loop_at true b gen order ev fuel g = Ret x ->
  exists x', game_loop_at true b' gen order ev fuel g' = Ret x' /\ twins b all x x'.
Proof.
  induction fuel as [|fuel IH]; intros g g' x T I C; cbn [game_loop_at]; [intros E; discriminate E|].
  destruct (turn_widths b b' B12 BB all gen order ev g g' T I C) as (_ & _ & A).
  destruct (game_turn_at true b gen order ev g) as [[t g1]|p|] eqn:E; cbn [bind]; intros X; [|discriminate X|discriminate X].
  destruct (A t g1 eq_refl) as ((g1' & -> & T1) & C1 & _ & I1 & _). cbn [bind]. destruct t.
  - injection X as <-. eauto.
  - exact (IH g1 g1' x T1 I1 C1 X).
Qed.
(** and the other way round while the credits cannot grow too large. *)
Lemma loop_forth fuel : forall g g' x' : game R, twins b all g g' -> incl (g_lines g) all -> 0 <= g_credits g ->
  g_credits g + 4000 * Z.of_nat (List.length (g_lines g)) < 2 ^ b ->
  game_loop_at true b' gen order ev fuel g' = Ret x' ->
  exists x, game_loop_at true b gen order ev fuel g = Ret x /\ twins b all x x'.
Proof.
  induction fuel as [|fuel IH]; intros g g' x' T I C L; cbn [game_loop_at]; [intros E; discriminate E|].
  assert (P : 2 ^ b <= 2 ^ b') by (apply Z.pow_le_mono_r; lia).
  pose proof (turn_widths b b' B12 BB all gen order ev g g' T I ltac:(lia)) as A.
  assert (T' : twins b' all g' g').
  { constructor; try reflexivity. clear. induction (g_out g'); constructor; [apply alike_same|assumption]. }
  assert (I' : incl (g_lines g') all) by (rewrite <- (twin_lines _ _ _ _ T); exact I).
  assert (Ec : g_credits g' = g_credits g) by (symmetry; exact (twin_credits _ _ _ _ T)).
  assert (El : g_lines g' = g_lines g) by (symmetry; exact (twin_lines _ _ _ _ T)).
  destruct (turn_widths b' b' ltac:(lia) ltac:(lia) all gen order ev g' g' T' I' ltac:(lia)) as (_ & _ & S).
  destruct (game_turn_at true b' gen order ev g') as [[t g1']|p|] eqn:E; cbn [bind]; intros X; [|discriminate X|discriminate X].
  destruct (S t g1' eq_refl) as (_ & C1 & C4 & I1 & N1 & M1). rewrite Ec in C4, M1. rewrite El in N1.
  destruct A as (A1 & A2 & _).
  assert (H : g_credits g1' < 2 ^ b).
  { destruct t; [specialize (M1 eq_refl); lia|]. specialize (N1 eq_refl). lia. }
  destruct (A1 t g1' eq_refl H) as (g1 & -> & T1). cbn [bind]. destruct t.
  - injection X as <-. eauto.
  - specialize (N1 eq_refl). pose proof (twin_credits _ _ _ _ T1) as Ec1. pose proof (twin_lines _ _ _ _ T1) as El1.
    apply (IH g1 g1' x' T1); [rewrite El1; exact I1|lia|rewrite Ec1, El1; lia|exact X].
Qed.
End loops.

(** ** The program *)
Lemma twins_refl {R} b all (g : game R) : twins b all g g.
Proof. constructor; try reflexivity. induction (g_out g); constructor; [apply alike_same|assumption]. Qed.
Lemma start_game {R} (gen : R -> nat -> nat * R) lines rng ev g : game_start gen lines rng = Ret (ev, g) ->
  g_lines g = lines /\ g_credits g = 100.
Proof.
  unfold game_start. intros E. apply ReleaseFacts.bind_inv in E. destruct E as (ev' & _ & E).
  apply ReleaseFacts.bind_inv in E. destruct E as ([d r] & _ & E). injection E as _ <-. split; reflexivity.
Qed.
Theorem program_back {R} (gen : R -> nat -> nat * R) order lines rng b b' x : 12 <= b -> b <= b' ->
  jacks_main_at true b gen order lines rng = Ret x ->
  exists x', jacks_main_at true b' gen order lines rng = Ret x' /\ twins b lines x x'.
Proof.
  intros B BB. unfold jacks_main_at. intros E. apply ReleaseFacts.bind_inv in E. destruct E as ([ev g] & Es & E).
  rewrite Es. cbn [bind fst snd] in *. destruct (start_game gen lines rng ev g Es) as [El Ec].
  assert (4096 <= 2 ^ b) by (change 4096 with (2 ^ 12); apply Z.pow_le_mono_r; lia).
  apply (loop_back b b' B BB lines gen order ev _ g g x (twins_refl b lines g)); [rewrite El; apply incl_refl|lia|exact E].
Qed.
Theorem program_forth {R} (gen : R -> nat -> nat * R) order lines rng b b' x' : 12 <= b -> b <= b' ->
  Z.of_nat (List.length lines) < 2 ^ (b - 12) ->
  jacks_main_at true b' gen order lines rng = Ret x' ->
  exists x, jacks_main_at true b gen order lines rng = Ret x /\ twins b lines x x'.
Proof.
  intros B BB L. unfold jacks_main_at. intros E. apply ReleaseFacts.bind_inv in E. destruct E as ([ev g] & Es & E).
  rewrite Es. cbn [bind fst snd] in *. destruct (start_game gen lines rng ev g Es) as [El Ec].
  assert (2 ^ b = 4096 * 2 ^ (b - 12)) by (change 4096 with (2 ^ 12); rewrite <- Z.pow_add_r by lia; f_equal; lia).
  apply (loop_forth b b' B BB lines gen order ev _ g g x' (twins_refl b lines g)); [rewrite El; apply incl_refl|lia|rewrite El, Ec; lia|exact E].
Qed.
Lemma alike_small b lines p p' : Forall (small_numbers b) lines -> alike b lines p p' -> p = p'.
Proof.
  intros F A. rewrite Forall_forall in F. destruct A as [p|s n I T L|s w n I Iw T L]; [reflexivity| |].
  - destruct (F s I) as [S _]. apply S in T. lia.
  - destruct (F s I) as [_ S]. apply (S w n Iw) in T. lia.
Qed.
Theorem twins_small {R} b lines (g g' : game R) : Forall (small_numbers b) lines -> twins b lines g g' -> g = g'.
Proof.
  intros F [E1 E2 E3 E4 E5 A]. destruct g as [li ou de ha cr rn]. destruct g' as [li' ou' de' ha' cr' rn'].
  cbn [g_lines g_deck g_hand g_credits g_rng g_out] in *. subst. f_equal.
  induction A as [|p p' o o' Ap _ IH]; [reflexivity|]. rewrite (alike_small b lines p p' F Ap), IH. reflexivity.
Qed.
Theorem program_64 {R} (gen : R -> nat -> nat * R) order : jacks_main_at true 64 gen order = jacks_main gen order.
Proof. exact eq_refl. Qed.
Theorem program_same {R} (gen : R -> nat -> nat * R) order lines rng b : fair gen -> reorders order -> 12 <= b <= 64 ->
  Z.of_nat (List.length lines) < 2 ^ (b - 12) ->
  exists x x', jacks_main_at true b gen order lines rng = Ret x /\ jacks_main gen order lines rng = Ret x'
  /\ twins b lines x x' /\ (Forall (small_numbers b) lines -> x = x').
Proof.
  intros G O B L. destruct (ReleaseFacts.program_same gen order lines rng G O) as (_ & S & (x' & Ex & _)).
  assert (2 ^ (b - 12) <= 2 ^ 52) by (apply Z.pow_le_mono_r; lia).
  rewrite (S ltac:(lia)) in Ex. clear S.
  destruct (program_forth gen order lines rng b 64 x' ltac:(lia) ltac:(lia) L) as (x & E & T).
  { rewrite program_64. exact Ex. }
  exists x, x'. split; [exact E|]. split; [exact Ex|]. split; [exact T|]. intros F. exact (twins_small b lines x x' F T).
Qed.

(** ** Without overflow checks *)
Definition implies {A} (x y : outcome A) : Prop := forall v, x = Ret v -> y = Ret v.
Lemma implies_refl {A} (x : outcome A) : implies x x.
Proof. intros v H. exact H. Qed.
Lemma implies_bind {A B} (x y : outcome A) (f h : A -> outcome B) : implies x y -> (forall a, implies (f a) (h a)) ->
  implies (bind x f) (bind y h).
Proof.
  intros X H v E. apply ReleaseFacts.bind_inv in E. destruct E as (a & Ea & E). rewrite (X a Ea). cbn [bind].
  exact (H a v E).
Qed.
Lemma implies_arith b z : implies (arith true b z) (arith false b z).
Proof.
  unfold arith, chk. intros v. destruct (in_usize b z) eqn:E; intros H; [|discriminate H]. injection H as <-.
  apply in_usize_iff in E. rewrite Z.mod_small by exact E. reflexivity.
Qed.
Lemma implies_indices b ns :
  implies (mapM (fun x => arith true b (x - 1)) ns) (mapM (fun x => arith false b (x - 1)) ns).
Proof.
  induction ns as [|n ns IH]; [apply implies_refl|]. cbn [mapM]. apply implies_bind; [apply implies_arith|].
  intros a. apply implies_bind; [exact IH|]. intros l. apply implies_refl.
Qed.
Lemma implies_swaps b order lines : forall out,
  implies (get_swaps_at true b order lines out) (get_swaps_at false b order lines out).
Proof.
  induction lines as [|l lines IH]; intros out; cbn [get_swaps_at]; [apply implies_refl|].
  destruct (str_eqb l (lit "quit")); [apply implies_refl|].
  destruct (parse_all_at b (split_whitespace l)) as [ns|]; [|apply IH].
  destruct (forallb (fun num => (1 <=? num) && (num <=? 5)) ns); cbn [negb]; [|apply IH].
  destruct (Nat.leb (List.length ns) 5); cbn [negb]; [|apply IH].
  destruct (all_inserted [] ns); cbn [negb]; [|apply IH].
  apply implies_bind; [apply implies_indices|]. intros a. apply implies_refl.
Qed.
Lemma implies_payout b w c : implies (payout_at true b w c) (payout_at false b w c).
Proof.
  destruct c as [r|r|r r'|r|r|r|r r'|r|r]; cbn [payout_at]; try apply implies_refl; try apply implies_arith.
  destruct r; try apply implies_arith. destruct (w =? MAX_WAGER); [apply implies_refl|apply implies_arith].
Qed.
Theorem turn_unchecked {R} b (gen : R -> nat -> nat * R) order ev (g : game R) :
  implies (game_turn_at true b gen order ev g) (game_turn_at false b gen order ev g).
Proof.
  unfold game_turn_at. destruct (get_wager_at b (g_credits g) (g_lines g) (g_out g)) as [[[w|] lines] out];
    [|apply implies_refl].
  apply implies_bind; [apply implies_arith|]. intros credits.
  apply implies_bind; [apply implies_refl|]. intros [dealt deck].
  apply implies_bind; [apply implies_refl|]. intros r1.
  apply implies_bind; [apply implies_refl|]. intros e1.
  apply implies_bind; [apply implies_refl|]. intros text1.
  apply implies_bind; [apply implies_swaps|]. intros [[[swaps|] lines'] out']; [|apply implies_refl].
  apply implies_bind; [apply implies_refl|]. intros [[deck2 h2] rng2].
  apply implies_bind; [apply implies_refl|]. intros r2.
  apply implies_bind; [apply implies_refl|]. intros e2.
  apply implies_bind; [apply implies_refl|]. intros text2.
  apply implies_bind; [apply implies_payout|]. intros p.
  apply implies_bind; [|intros s; apply implies_refl].
  destruct (0 <? p); [|apply implies_refl].
  apply implies_bind; [apply implies_arith|]. intros back.
  apply implies_bind; [apply implies_arith|]. intros z. apply implies_refl.
Qed.
Lemma loop_unchecked {R} b (gen : R -> nat -> nat * R) order ev fuel : forall g : game R,
  implies (game_loop_at true b gen order ev fuel g) (game_loop_at false b gen order ev fuel g).
Proof.
  induction fuel as [|fuel IH]; intros g; cbn [game_loop_at]; [apply implies_refl|].
  apply implies_bind; [apply turn_unchecked|]. intros [[|] g1]; [apply implies_refl|apply IH].
Qed.
Theorem program_unchecked {R} b (gen : R -> nat -> nat * R) order lines rng x :
  jacks_main_at true b gen order lines rng = Ret x -> jacks_main_at false b gen order lines rng = Ret x.
Proof.
  revert x. change (implies (jacks_main_at true b gen order lines rng) (jacks_main_at false b gen order lines rng)).
  unfold jacks_main_at. apply implies_bind; [apply implies_refl|]. intros s. apply loop_unchecked.
Qed.

(** ** Cases *)
(** A royal flush, the maximal wager and 65000 credits, with 16 bits *)
Definition rich_16 : game unit := mk_game [lit "5"; lit ""] [] ReleaseFacts.royal_deck [] 65000 tt.
Lemma rich_16_wager : get_wager_at 16 65000 [lit "5"; lit ""] [] = (Some 5, [lit ""], [wager_message 65000]).
Proof. vm_compute. reflexivity. Qed.
Lemma rich_16_swaps out : get_swaps_at true 16 ReleaseFacts.as_is [lit ""] out = Ret (Some [], [], out ++ [swaps_message]).
Proof. reflexivity. Qed.
Theorem rich_16_turn ev : new_evaluator ev ->
  game_turn_at true 16 ReleaseFacts.first_of ReleaseFacts.as_is ev rich_16 = Panic ArithmeticOverflow.
Proof.
  intros Hev. pose proof (ReleaseFacts.rich_hand ev Hev) as E. unfold evaluates in E.
  assert (L : List.length (firstn 5 ReleaseFacts.royal_deck) = 5%nat) by (vm_compute; reflexivity).
  unfold game_turn_at, rich_16. cbn [g_lines g_out g_deck g_hand g_credits g_rng].
  rewrite rich_16_wager, ReleaseFacts.rich_drain. change (arith true 16 (65000 - 5)) with (Ret 64995).
  cbn [bind app]. rewrite E. cbn [bind unwrap].
  rewrite (JacksFacts.show_hand_text _ _ L). cbn [bind]. rewrite rich_16_swaps. cbn [bind]. rewrite E. cbn [bind unwrap].
  rewrite (JacksFacts.show_hand_text _ _ L). cbn [bind].
  change (payout_at true 16 5 (eval_class_of EVAL_BEST)) with (Ret 4000). cbn [bind]. reflexivity.
Qed.
Lemma small_case : small_numbers 16 (lit "1 2 5").
Proof.
  assert (D : forall c w n, c <> 43%N -> typed (c :: w) n -> Forall is_digit (c :: w) /\ n = digits_value 0 (c :: w)).
  { intros c w n X T. apply typed_head in T. destruct T as [T|[E _]]; [|contradiction].
    apply decimal_iff in T. tauto. }
  split.
  - intros n T. apply D in T; [|discriminate]. destruct T as [F _]. exfalso. apply Forall_inv_tail, Forall_inv in F.
    destruct F as (d & _ & E). change (32%N = (48 + d)%N) in E. lia.
  - intros w n I T. vm_compute in I.
    destruct I as [<-|[<-|[<-|[]]]]; (apply D in T; [|discriminate]); destruct T as [_ ->]; reflexivity.
Qed.
