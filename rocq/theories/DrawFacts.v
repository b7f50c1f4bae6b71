(** DrawFacts.v: shuffles of any list are fair, and so is the draw of the example game. *)
From Coq Require Import Lia List Arith Permutation Factorial ZArith.
From Verif Require Import Base ModelCard ModelEval ModelTable ModelEvaluation ModelExamples Spec SpecApi SpecExamples.
From Verif Require Import CardFacts DeckFacts ShuffleFacts UniformFacts JacksFacts.
Import ListNotations.
Local Open Scope nat_scope.

Theorem any_shuffle_fair {A} (l d : list A) : NoDup l -> Permutation l d ->
  exists! js, answers (length l) js /\ shuffle script l js = Ret (d, []).
Proof.
  intros N Pm. destruct l as [|x l].
  - apply Permutation_nil in Pm. subst d. exists []. split; [split; reflexivity|].
    intros js (V & _). symmetry. exact V.
  - destruct (script_reaches (length l) (x :: l) d [] eq_refl Pm) as (js & V & E). rewrite !app_nil_r in E.
    unfold shuffle. replace (length (x :: l) - 1) with (length l) by (cbn; lia).
    exists js. split; [split; [exact V|exact E]|].
    intros js' (V' & E'). rewrite <- (app_nil_r (x :: l)) in E, E'.
    exact (script_injective (length l) (x :: l) [] d js js' N eq_refl V V' E E').
Qed.
Theorem any_shuffle_scripted {A} (l : list A) js : answers (length l) js ->
  exists d, shuffle script l js = Ret (d, []) /\ Permutation l d.
Proof.
  intros V. destruct l as [|x l].
  - cbn in V. subst js. exists []. split; [reflexivity|constructor].
  - destruct (script_shuffles (length l) (x :: l) [] js eq_refl V) as (d & E & Pm).
    rewrite !app_nil_r in E. exists d. split; [|exact Pm].
    unfold shuffle. replace (length (x :: l) - 1) with (length l) by (cbn; lia). exact E.
Qed.
Theorem any_shuffle_bounds {A R} (gen : R -> nat -> nat * R) (l : list A) rng :
  (forall rng n, 0 < n -> fst (gen rng n) < n) ->
  exists d rng', shuffle (recording gen) l (rng, []) = Ret (d, (rng', rev (seq 2 (length l - 1)))).
Proof.
  intros G. destruct (shuffle_perm (recording gen) l (rng, [])) as (d & (r' & bs) & E & Pm).
  { intros [r bs] n H. unfold recording. cbn [fst snd]. pose proof (G r n H). destruct (gen r n). exact H0. }
  exists d, r'. rewrite E. unfold shuffle in E. apply bounds_from in E. rewrite E. reflexivity.
Qed.

Lemma any_scripts_for {A} (l : list A) D : NoDup l -> NoDup D -> (forall d, In d D -> Permutation l d) ->
  exists L, NoDup L /\ length L = length D
    /\ forall js, In js L <-> answers (length l) js /\ exists d, In d D /\ shuffle script l js = Ret (d, []).
Proof.
  intros Nl. induction 1 as [|d D Nd N IH]; intros H.
  - exists []. split; [constructor|]. split; [reflexivity|]. intros js. split; [intros []|].
    intros (_ & d & [] & _).
  - destruct IH as (L & NL & EL & HL); [intros x Hx; apply H; right; exact Hx|].
    destruct (any_shuffle_fair l d Nl (H d (or_introl eq_refl))) as (js & (V & E) & U).
    exists (js :: L). split; [|split].
    + constructor; [|exact NL]. intros X. apply HL in X. destruct X as (_ & d' & Hd' & E').
      assert (d = d') by congruence. subst d'. contradiction.
    + cbn. rewrite EL. reflexivity.
    + intros js'. split.
      * intros [<-|X].
        -- split; [exact V|]. exists d. split; [left; reflexivity|exact E].
        -- apply HL in X. destruct X as (V' & d' & Hd' & E'). split; [exact V'|].
           exists d'. split; [right; exact Hd'|exact E'].
      * intros (V' & d' & [<-|Hd'] & E').
        -- left. apply U. auto.
        -- right. apply HL. split; [exact V'|]. exists d'. auto.
Qed.
Lemma any_rest {A} (p : list A) : forall D, NoDup p -> incl p D -> exists rest, Permutation D (p ++ rest).
Proof.
  induction p as [|x p IH]; intros D N I; [exists D; reflexivity|].
  inversion N as [|? ? Nx Np]; subst. assert (Hx : In x D) by (apply I; left; reflexivity).
  apply in_split in Hx. destruct Hx as (a & b & ->).
  destruct (IH (a ++ b) Np) as (rest & P).
  - intros y Hy. assert (H : In y (a ++ x :: b)) by (apply I; right; exact Hy).
    apply in_app_iff in H. apply in_app_iff. destruct H as [H|[H|H]]; [tauto| |tauto].
    subst y. contradiction.
  - exists rest. rewrite <- Permutation_middle. cbn. constructor. exact P.
Qed.
Lemma any_prefix_orders {A} (l p : list A) : NoDup l -> NoDup p -> incl p l -> exists D,
  NoDup D /\ length D = fact (length l - length p)
  /\ forall d, In d D <-> Permutation l d /\ firstn (length p) d = p.
Proof.
  intros Nl N I. destruct (any_rest p l N I) as (rest & P).
  assert (L : length rest = length l - length p).
  { apply Permutation_length in P. rewrite app_length in P. lia. }
  assert (NR : NoDup rest) by (pose proof (Permutation_NoDup P Nl) as X; apply NoDup_parts in X; apply X).
  exists (map (app p) (perms rest)). split; [|split].
  - apply FinFun.Injective_map_NoDup; [intros a b E; apply app_inv_head in E; exact E|].
    apply perms_NoDup, NR.
  - rewrite map_length, perms_length, L. reflexivity.
  - intros d. rewrite in_map_iff. split.
    + intros (s & <- & Hs). apply in_perms in Hs. split.
      * rewrite P. apply Permutation_app_head, Hs.
      * rewrite firstn_app, Nat.sub_diag, firstn_all. cbn. apply app_nil_r.
    + intros (Pd & E). exists (skipn (length p) d). split.
      * rewrite <- E at 1. apply firstn_skipn.
      * apply in_perms. apply (Permutation_app_inv_l p). rewrite <- P, Pd.
        rewrite <- E at 1. rewrite firstn_skipn. reflexivity.
Qed.

Lemma discards_NoDup hand is cs : positions hand is -> at_positions hand is cs -> NoDup hand -> NoDup cs.
Proof.
  intros [N F] A Nh. induction A as [|i c is cs E A IH]; [constructor|].
  inversion N as [|? ? Ni Nis]; subst. inversion F as [|? ? Fi Fis]; subst.
  constructor; [|apply IH; assumption]. intros H.
  destruct (in_positions hand is cs c A H) as (j & Hj & Ej). apply Ni.
  assert (Z.to_nat i = Z.to_nat j).
  { rewrite NoDup_nth_error in Nh. apply Nh; [apply nth_error_Some; congruence|congruence]. }
  rewrite Forall_forall in Fis. specialize (Fis j Hj). simpl in Fis. replace i with j by lia. exact Hj.
Qed.
Lemma at_positions_fun hand is : forall cs cs', at_positions hand is cs -> at_positions hand is cs' -> cs = cs'.
Proof.
  induction is as [|i is IH]; intros cs cs' H H'; inversion H as [|? ? ? ? E1 E2]; inversion H' as [|? ? ? ? E3 E4]; subst; [reflexivity|].
  f_equal; [congruence|apply IH; assumption].
Qed.

(** Each way to deal cards in exchange comes from the same number of answer lists. *)
Theorem draw_uniform is deck hand cs dealt : positions hand is -> at_positions hand is cs ->
  NoDup (hand ++ deck) -> NoDup dealt -> incl dealt (deck ++ cs) -> length dealt = length is -> exists L,
  NoDup L /\ length L = fact (length deck)
  /\ forall js, In js L <-> answers (length deck + length is) js
       /\ exists deck' hand', swap_cards script is deck hand js = Ret (deck', hand', [])
            /\ at_positions hand' is dealt.
Proof.
  intros P A Nhd Nd I Ld. pose proof (at_positions_length hand is cs A) as Lc.
  apply NoDup_parts in Nhd as Nh. destruct Nh as [Nh Ndeck].
  assert (N : NoDup (deck ++ cs)).
  { apply SizeFacts.NoDup_app_disj; [exact Ndeck|exact (discards_NoDup hand is cs P A Nh)|].
    intros c Hc Hc'. destruct (in_positions hand is cs c A Hc') as (i & _ & E). apply nth_error_In in E.
    clear -Nhd Hc E. induction hand as [|x hand IH]; [destruct E|]. cbn in Nhd. inversion Nhd as [|? ? Nx Nr]; subst.
    destruct E as [->|E]; [apply Nx, in_app_iff; right; exact Hc|exact (IH Nr E)]. }
  destruct (any_prefix_orders (deck ++ cs) dealt N Nd I) as (D & ND & LD & HD).
  destruct (any_scripts_for (deck ++ cs) D N ND) as (L & NL & LL & HL); [intros d Hd; apply HD, Hd|].
  assert (LT : length (deck ++ cs) = length deck + length is) by (rewrite app_length, Lc; reflexivity).
  exists L. split; [exact NL|]. split.
  { rewrite LL, LD, LT, Ld. f_equal. lia. }
  intros js. rewrite HL, LT. split.
  - intros (V & d & Hd & E). split; [exact V|]. apply HD in Hd. destruct Hd as [Pm Fd].
    destruct (swap_cards_shuffled script is deck hand js cs d [] P A E Pm) as (hand' & E1 & _ & A1 & _).
    exists (skipn (length is) d), hand'. split; [exact E1|]. rewrite <- Ld, Fd in A1. exact A1.
  - intros (V & deck' & hand' & E1 & A1). split; [exact V|]. rewrite <- LT in V.
    destruct (any_shuffle_scripted (deck ++ cs) js V) as (d & E & Pm).
    destruct (swap_cards_shuffled script is deck hand js cs d [] P A E Pm) as (hand2 & E2 & _ & A2 & _).
    exists d. split; [|exact E]. apply HD. split; [exact Pm|]. rewrite Ld.
    assert (hand2 = hand') as -> by congruence.
    exact (at_positions_fun _ _ _ _ A2 A1).
Qed.
