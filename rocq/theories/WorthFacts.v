(** WorthFacts.v: some five cards of the hand attain what SpecBest.v reads off it, so [evaluate] gives
    every hand exactly that worth. *)
From Coq Require Import Lia List Arith Bool Permutation Sorted ZArith.
From Verif Require Import Base BaseFacts ModelCard ModelEval ModelTable ModelEvaluation.
From Verif Require Import Spec SpecApi CardFacts Sweep SweepFacts SpecFacts EvalFacts FiveFacts
  CombosFacts EvaluateFacts HandFacts ClassFacts SizeFacts CategoryFacts SpecBest BestFacts.
Import ListNotations.
Local Open Scope nat_scope.

(** ** Choosing cards by how many of each rank *)
Definition choose (g : rank -> nat) (H : list face) (l : list rank) : list face :=
  flat_map (fun r => pick r (g r) H) l.
Lemma choose_in g H l f : In f (choose g H l) -> In f H /\ In (fst f) l.
Proof.
  intros I. apply in_flat_map in I. destruct I as (r & Ir & I). apply pick_in in I.
  destruct I as [I <-]. tauto.
Qed.
Lemma choose_NoDup g H l : NoDup H -> NoDup l -> NoDup (choose g H l).
Proof.
  intros N. induction 1 as [|r l Hr Nl IH]; [constructor|]. cbn [choose flat_map].
  apply NoDup_app_disj; [apply pick_NoDup, N|exact IH|]. intros f I J. apply pick_in in I.
  apply choose_in in J. destruct I as [_ <-]. tauto.
Qed.
Lemma choose_count_out g H l r : ~ In r l -> count r (choose g H l) = 0.
Proof.
  intros N. apply count_zero. intros f I <-. apply choose_in in I. tauto.
Qed.
Lemma choose_count g H l r : NoDup l -> In r l -> g r <= count r H -> count r (choose g H l) = g r.
Proof.
  intros N I L. induction N as [|q l Hq Nl IH]; [destruct I|]. cbn [choose flat_map].
  fold (choose g H l). rewrite count_app_face. destruct I as [->|I].
  - rewrite choose_count_out by exact Hq. rewrite pick_count by exact L. lia.
  - rewrite IH by exact I. rewrite pick_other; [reflexivity|]. intros ->. exact (Hq I).
Qed.
Lemma NoDup_high : NoDup high_to_low.
Proof. apply desc_NoDup, desc_high. Qed.

Lemma layout g H : NoDup H -> (forall r, g r <= count r H) ->
  exists F, NoDup F /\ incl F H /\ forall r, count r F = g r.
Proof.
  intros N L. exists (choose g H high_to_low). split; [apply choose_NoDup; [exact N|exact NoDup_high]|].
  split; [intros f I; apply choose_in in I; tauto|]. intros r.
  apply choose_count; [exact NoDup_high|apply in_high_to_low|apply L].
Qed.

(** The hands of the rank-count classes: [n] cards of each rank in [A], [m] of each in [B], one of each
    in [K]. *)
Definition member (r : rank) (l : list rank) : bool := if in_dec rank_dec r l then true else false.
Lemma member_in r l : member r l = true <-> In r l.
Proof. unfold member. destruct (in_dec rank_dec r l); intuition discriminate. Qed.
Definition plan (n m : nat) (A B K : list rank) (r : rank) : nat :=
  if member r A then n else if member r B then m else if member r K then 1 else 0.
Lemma plan_hand n m A B K H : NoDup H -> desc A -> desc B -> desc K ->
  (forall r, In r A -> n <= count r H) -> (forall r, In r B -> ~ In r A /\ m <= count r H) ->
  (forall r, In r K -> ~ In r A /\ ~ In r B /\ 1 <= count r H) -> 1 < m < n -> n <= 4 ->
  n * length A + m * length B + length K = 5 ->
  exists F, five_card_hand F /\ incl F H
    /\ (forall r, In r A -> count r F = n) /\ (forall r, In r B -> count r F = m)
    /\ (forall r, ~ In r A -> ~ In r B -> count r F <= 1)
    /\ exact n F = A /\ exact m F = B /\ exact 1 F = K
    /\ (forall k, k <> n -> k <> m -> 2 <= k -> exact k F = []).
Proof.
  intros N DA DB DK QA QB QK O4 O S. destruct (layout (plan n m A B K) H N) as (F & NF & I & C).
  { intros r. unfold plan. destruct (member r A) eqn:EA; [apply QA, member_in, EA|].
    destruct (member r B) eqn:EB; [apply QB, member_in, EB|].
    destruct (member r K) eqn:EK; [apply QK, member_in, EK|lia]. }
  assert (CA : forall r, In r A -> count r F = n).
  { intros r J. rewrite C. unfold plan. apply member_in in J. rewrite J. reflexivity. }
  assert (CB : forall r, In r B -> count r F = m).
  { intros r J. rewrite C. unfold plan. pose proof (proj1 (QB r J)) as X. apply member_in in J. rewrite J.
    destruct (member r A) eqn:EA; [apply member_in in EA; contradiction|reflexivity]. }
  assert (CK : forall r, In r K -> count r F = 1).
  { intros r J. rewrite C. unfold plan. pose proof (QK r J) as (X & Y & _). apply member_in in J. rewrite J.
    destruct (member r A) eqn:EA; [apply member_in in EA; contradiction|].
    destruct (member r B) eqn:EB; [apply member_in in EB; contradiction|reflexivity]. }
  assert (CC : forall r, (In r A /\ count r F = n) \/ (In r B /\ count r F = m) \/ (In r K /\ count r F = 1) \/ count r F = 0).
  { intros r. specialize (C r). unfold plan in C. destruct (member r A) eqn:EA.
    - apply member_in in EA. left. auto.
    - destruct (member r B) eqn:EB; [apply member_in in EB; right; left; auto|].
      destruct (member r K) eqn:EK; [apply member_in in EK; right; right; left; auto|right; right; right; exact C]. }
  assert (XA : exact n F = A).
  { apply filter_is; [exact DA|]. intros r. rewrite Nat.eqb_eq. split; [apply CA|]. intros E.
    destruct (CC r) as [(J & _)|[(_ & J)|[(_ & J)|J]]]; [exact J|lia|lia|lia]. }
  assert (XB : exact m F = B).
  { apply filter_is; [exact DB|]. intros r. rewrite Nat.eqb_eq. split; [apply CB|]. intros E.
    destruct (CC r) as [(_ & J)|[(J & _)|[(_ & J)|J]]]; [lia|exact J|lia|lia]. }
  assert (XK : exact 1 F = K).
  { apply filter_is; [exact DK|]. intros r. rewrite Nat.eqb_eq. split; [apply CK|]. intros E.
    destruct (CC r) as [(_ & J)|[(_ & J)|[(J & _)|J]]]; [lia|lia|exact J|lia]. }
  assert (XN : forall k, k <> n -> k <> m -> 2 <= k -> exact k F = []).
  { intros k D1 D2 D3. apply exact_nil. intros r. destruct (CC r) as [(_ & J)|[(_ & J)|[(_ & J)|J]]]; lia. }
  exists F. split.
  { split; [exact NF|]. pose proof (sum_exact F NF) as SE. rewrite <- SE, XK.
    assert (NM : (n = 4 /\ m = 3) \/ (n = 4 /\ m = 2) \/ (n = 3 /\ m = 2)) by lia.
    destruct NM as [[-> ->]|[[-> ->]|[-> ->]]]; rewrite XA, XB; [rewrite (XN 2) by lia|rewrite (XN 3) by lia|rewrite (XN 4) by lia]; cbn [length]; lia. }
  split; [exact I|]. split; [exact CA|]. split; [exact CB|]. split; [|tauto].
  intros r J1 J2. destruct (CC r) as [(J & _)|[(J & _)|[(_ & J)|J]]]; try contradiction; lia.
Qed.

(** ** Enough other cards *)
Lemma others H rs a m : NoDup rs -> (forall r, In r rs -> count r H <= a) ->
  (forall r, ~ In r rs -> count r H <= m) ->
  length H <= a * length rs + m * length (without rs (held 1 H)).
Proof.
  intros N A M. rewrite <- sum_counts.
  assert (G : forall l, list_sum (map (fun r => count r H) l)
    <= a * length (filter (fun r => member r rs) l) + m * length (without rs (filter (fun r => 1 <=? count r H) l))).
  { induction l as [|r l IH]; [cbn; lia|]. cbn [map filter].
    change (list_sum (count r H :: map (fun r => count r H) l)) with (count r H + list_sum (map (fun r => count r H) l)).
    revert IH. generalize (filter (fun r => 1 <=? count r H) l) as u. intros u IH.
    assert (WC : without rs (r :: u) = if member r rs then without rs u else r :: without rs u).
    { unfold member. cbn [without filter]. destruct (in_dec rank_dec r rs); reflexivity. }
    destruct (member r rs) eqn:E.
    - apply member_in in E. specialize (A r E). cbn [length].
      destruct (1 <=? count r H); rewrite ?WC; nia.
    - assert (E' : ~ In r rs) by (intros J; apply member_in in J; congruence). specialize (M r E').
      destruct (1 <=? count r H) eqn:Q.
      + rewrite WC. cbn [length]. nia.
      + apply Nat.leb_gt in Q. lia. }
  specialize (G high_to_low). fold (held 1 H) in G.
  assert (length (filter (fun r => member r rs) high_to_low) <= length rs).
  { apply NoDup_incl_length; [apply NoDup_filter, NoDup_high|]. intros r J. apply filter_In in J.
    apply member_in. tauto. }
  nia.
Qed.
Lemma without_none l : without [] l = l.
Proof. unfold without. induction l as [|r l IH]; [reflexivity|]. simpl in *. congruence. Qed.
Lemma held_nil n H r : held n H = [] -> count r H < n.
Proof.
  intros E. destruct (le_lt_dec n (count r H)) as [L|L]; [|exact L]. apply held_in in L. rewrite E in L. destruct L.
Qed.
Lemma without_nil rs n H r : without rs (held n H) = [] -> ~ In r rs -> count r H < n.
Proof.
  intros E D. destruct (le_lt_dec n (count r H)) as [L|L]; [|exact L]. apply held_in in L.
  assert (J : In r (without rs (held n H))) by (apply without_in; tauto). rewrite E in J. destruct J.
Qed.
Lemma head_held n H q m : held n H = q :: m -> n <= count q H.
Proof. intros E. apply held_in. rewrite E. left. reflexivity. Qed.

(** ** Every five cards have a class *)
Lemma class_exists F : five_card_hand F -> exists c, classify F c.
Proof.
  intros (N & L). destruct evaluator_new_ret as (ev & Hev). pose proof (card_at_hand5 F N L) as Hx.
  destruct (evaluate_spec ev _ Hev (hand5_legal _ Hx)) as (e & E & _). exists (eval_class_of e).
  pose proof (proj2 (class_correct ev _ e Hev Hx E _) eq_refl) as K. rewrite faces_card_at in K. exact K.
Qed.

(** Cards with given ranks. *)
Lemma cards_of_ranks H rs : (forall r, In r rs -> 1 <= count r H) -> exists F, ranks F = rs /\ incl F H.
Proof.
  induction rs as [|r rs IH]; intros I; [exists []; split; [reflexivity|intros f []]|].
  destruct IH as (F & R & J); [intros q Hq; apply I; right; exact Hq|].
  destruct (count_in r H (I r (or_introl eq_refl))) as (f & If & E). exists (f :: F). split.
  - cbn. rewrite E, <- R. reflexivity.
  - intros x [<-|Hx]; [exact If|apply J, Hx].
Qed.
Lemma run_NoDup t : NoDup (run t).
Proof. destruct t; cbn; repeat constructor; cbn; intuition discriminate. Qed.
Lemma run_length t : In t tops -> length (run t) = 5.
Proof. destruct t; cbn; intuition discriminate. Qed.
Lemma ranks_five F rs : ranks F = rs -> NoDup rs -> length rs = 5 -> five_card_hand F.
Proof.
  intros <- N L. split; [apply (NoDup_map_inv fst), N|]. unfold ranks in L. rewrite map_length in L. exact L.
Qed.
Lemma distinct_exact F rs : ranks F = rs -> desc rs -> by_multiplicity F = rs.
Proof.
  intros <- D. rewrite by_mult. pose proof (NoDup_ranks_count F (desc_NoDup _ D)) as C.
  rewrite (exact_nil 4), (exact_nil 3), (exact_nil 2) by (intros r; specialize (C r); lia). cbn [app].
  apply filter_is; [exact D|]. intros r. rewrite Nat.eqb_eq. specialize (C r). split.
  - intros I. apply in_count in I. lia.
  - intros E. destruct (count_in r F) as (f & I & <-); [lia|]. apply in_map, I.
Qed.
Lemma desc_highest F t l : ranks F = t :: l -> desc (t :: l) -> highest F t.
Proof.
  intros E D. unfold highest. rewrite E. split; [left; reflexivity|]. intros r [<-|I]; [lia|].
  inversion D as [|? ? _ Q]; subst. rewrite Forall_forall in Q. specialize (Q r I). lia.
Qed.
Lemma suited_map s rs : suited (map (fun r => (r, s)) rs).
Proof. exists s. apply Forall_forall. intros f I. apply in_map_iff in I. destruct I as (r & <- & _). reflexivity. Qed.
Lemma ranks_map (s : suit) rs : ranks (map (fun r => (r, s)) rs) = rs.
Proof. unfold ranks. rewrite map_map. cbn [fst]. apply map_id. Qed.
Lemma incl_only s H rs : (forall r, In r rs -> 1 <= count r (only s H)) -> incl (map (fun r => (r, s)) rs) H.
Proof. intros Q f I. apply in_map_iff in I. destruct I as (r & <- & I). apply count_only, Q, I. Qed.

(** What a rule yields has the rule's category. *)
Lemma rule_category k H x : k <= 8 -> rule k H = Some x -> category (fst x) = k.
Proof.
  intros L. destruct k as [|[|[|[|[|[|[|[|[|k]]]]]]]]]; cbn [rule]; try lia; intros E.
  - destruct (firstn 5 (held 1 H)); [discriminate E|]. injection E as <-. reflexivity.
  - destruct (held 2 H); [discriminate E|]. injection E as <-. reflexivity.
  - destruct (held 2 H) as [|? [|? ?]]; [discriminate E|discriminate E|]. injection E as <-. reflexivity.
  - destruct (held 3 H); [discriminate E|]. injection E as <-. reflexivity.
  - destruct (filter (has_run H) tops); [discriminate E|]. injection E as <-. reflexivity.
  - destruct (fold_right higher [] (map (flush_in H) four_suits)); [discriminate E|]. injection E as <-. reflexivity.
  - destruct (held 3 H) as [|t ?]; [discriminate E|]. destruct (without [t] (held 2 H)); [discriminate E|].
    injection E as <-. reflexivity.
  - destruct (held 4 H); [discriminate E|]. injection E as <-. reflexivity.
  - match type of E with context [filter ?f tops] => destruct (filter f tops) end; [discriminate E|].
    injection E as <-. reflexivity.
Qed.

Lemma first_rule_spec H ks n : ks = rev (seq 0 n) -> n <= 9 -> (exists k x, k < n /\ rule k H = Some x) ->
  exists k, k < n /\ rule k H = Some (first_rule ks H) /\ forall k', k < k' -> k' < n -> rule k' H = None.
Proof.
  revert ks. induction n as [|n IH]; intros ks -> L (k & x & Lk & E); [lia|].
  rewrite seq_S, rev_app_distr. cbn [rev app plus first_rule].
  destruct (rule n H) as [y|] eqn:En.
  - exists n. split; [lia|]. split; [exact En|]. intros k' A B. lia.
  - destruct (IH _ eq_refl) as (k0 & L0 & E0 & M); [lia| |].
    + exists k, x. split; [|exact E]. destruct (Nat.eq_dec k n) as [->|D]; [congruence|lia].
    + exists k0. split; [lia|]. split; [exact E0|]. intros k' A B.
      destruct (Nat.eq_dec k' n) as [->|D]; [exact En|apply M; lia].
Qed.

Lemma firstn_le {A} k (l : list A) : k <= length l -> length (firstn k l) = k.
Proof. intros L. rewrite firstn_length. lia. Qed.

(** ** Attained *)
Theorem rule_attained k H x : NoDup H -> 5 <= length H -> k <= 8 -> rule k H = Some x ->
  (forall k', k < k' -> k' <= 8 -> rule k' H = None) ->
  exists F, five_card_hand F /\ incl F H /\ classify F (fst x) /\ deciders (fst x) F = snd x.
Proof.
  intros N L5 K R M.
  assert (CAP : forall F c, five_card_hand F -> incl F H -> classify F c -> category c <= k).
  { intros F c F5 I C. destruct (rule_covers F H c F5 N I C) as (y & E & _).
    destruct (le_lt_dec (category c) k) as [Q|Q]; [exact Q|].
    rewrite M in E; [discriminate E|exact Q|]. destruct c; cbn; lia. }
  assert (KICK : forall n rs r, In r (firstn n (without rs (held 1 H))) -> ~ In r rs /\ 1 <= count r H).
  { intros n rs r J. apply firstn_in, without_in in J. rewrite held_in in J. tauto. }
  assert (DK : forall n rs, desc (firstn n (without rs (held 1 H)))).
  { intros n rs. apply desc_firstn, desc_without, desc_held. }
  destruct k as [|[|[|[|[|[|[|[|[|k]]]]]]]]]; try lia.
  - (* high card *)
    pose proof (M 1 ltac:(lia) ltac:(lia)) as M1. cbn [rule] in R, M1.
    destruct (held 2 H) eqn:H2; [|discriminate M1].
    pose proof (others H [] 0 1 (NoDup_nil _) (fun r J => match J with end)) as LK.
    rewrite without_none in LK. specialize (LK (fun r _ => ltac:(pose proof (held_nil 2 H r H2); lia))).
    assert (L : length (firstn 5 (held 1 H)) = 5) by (apply firstn_le; lia).
    destruct (firstn 5 (held 1 H)) as [|t l] eqn:E; [discriminate R|]. injection R as <-. cbn [fst snd].
    assert (D : desc (t :: l)) by (rewrite <- E; apply desc_firstn, desc_held).
    destruct (cards_of_ranks H (t :: l)) as (F & RF & I).
    { intros r J. rewrite <- E in J. apply firstn_in, held_in in J. exact J. }
    pose proof (ranks_five F _ RF (desc_NoDup _ D) L) as F5. exists F. split; [exact F5|]. split; [exact I|].
    destruct (class_exists F F5) as (c & C). pose proof (CAP F c F5 I C) as Q. split.
    + cbn [classify]. split; [|split; [|split]].
      * intros S. pose proof (suited_category F c F5 S C). lia.
      * intros r S. pose proof (sequence_up F c r S C). lia.
      * apply NoDup_ranks_count. rewrite RF. apply desc_NoDup, D.
      * exact (desc_highest F t l RF D).
    + cbn [deciders]. exact (distinct_exact F _ RF D).
  - (* pair *)
    pose proof (M 2 ltac:(lia) ltac:(lia)) as M2. pose proof (M 3 ltac:(lia) ltac:(lia)) as M3. cbn [rule] in R, M2, M3.
    destruct (held 3 H) eqn:H3; [|discriminate M3].
    destruct (held 2 H) as [|p [|q m]] eqn:H2; [discriminate R| |discriminate M2]. injection R as <-. cbn [fst snd].
    assert (O : forall r, ~ In r [p] -> count r H <= 1).
    { intros r D. destruct (le_lt_dec 2 (count r H)) as [Q|Q]; [|lia]. apply held_in in Q. rewrite H2 in Q. contradiction. }
    assert (Ep : count p H <= 2) by (pose proof (held_nil 3 H p H3); lia).
    pose proof (others H [p] 2 1 ltac:(repeat constructor; intros []) ltac:(intros r [<-|[]]; exact Ep) O) as LK.
    cbn [length] in LK.
    assert (L : length (firstn 3 (without [p] (held 1 H))) = 3) by (apply firstn_le; lia).
    destruct (plan_hand 3 2 [] [p] (firstn 3 (without [p] (held 1 H))) H N) as (F & F5 & I & CA & CB & CO & _ & X2 & X1 & XN);
      try (repeat constructor; fail); try apply DK; try lia.
    { intros r []. }
    { intros r [<-|[]]. split; [tauto|]. exact (head_held 2 H p _ H2). }
    { intros r J. apply KICK in J. tauto. }
    { cbn [length]. lia. }
    exists F. split; [exact F5|]. split; [exact I|]. split.
    + split; [apply CB; left; reflexivity|]. intros r D. apply CO; [tauto|]. intros [J|[]]. congruence.
    + cbn [deciders]. rewrite by_mult, X1, X2, (XN 4), (exact_nil 3) by (lia || (intros r; destruct (rank_dec r p) as [->|D]; [rewrite (CB p) by (left; reflexivity); lia|assert (count r F <= 1) by (apply CO; [tauto|intros [J|[]]; congruence]); lia])).
      reflexivity.
  - (* two pair *)
    pose proof (M 3 ltac:(lia) ltac:(lia)) as M3. cbn [rule] in R, M3.
    destruct (held 3 H) eqn:H3; [|discriminate M3].
    destruct (held 2 H) as [|p [|q m]] eqn:H2; [discriminate R|discriminate R|]. injection R as <-. cbn [fst snd].
    pose proof (desc_held 2 H) as D2. rewrite H2 in D2.
    assert (O : pips q < pips p) by (inversion D2 as [|? ? _ Q]; subst; inversion Q; assumption).
    assert (Dpq : p <> q) by (intros ->; lia).
    assert (Npq : desc [p; q]) by (repeat constructor; exact O).
    assert (C3 : forall r, count r H <= 2) by (intros r; pose proof (held_nil 3 H r H3); lia).
    pose proof (others H [p; q] 2 2 (desc_NoDup _ Npq) (fun r _ => C3 r) (fun r _ => C3 r)) as LK.
    cbn [length] in LK.
    assert (L : length (firstn 1 (without [p; q] (held 1 H))) = 1) by (apply firstn_le; lia).
    destruct (plan_hand 3 2 [] [p; q] (firstn 1 (without [p; q] (held 1 H))) H N) as (F & F5 & I & CA & CB & CO & X3 & X2 & X1 & XN);
      try exact Npq; try (repeat constructor; fail); try apply DK; try lia.
    { intros r []. }
    { intros r J. split; [tauto|]. apply held_in. rewrite H2. destruct J as [<-|[<-|[]]]; cbn; tauto. }
    { intros r J. apply KICK in J. tauto. }
    { cbn [length]. lia. }
    exists F. split; [exact F5|]. split; [exact I|]. split.
    + split; [apply CB; left; reflexivity|]. split; [apply CB; right; left; reflexivity|exact O].
    + cbn [deciders]. rewrite by_mult, X1, X2, X3, (XN 4) by lia. reflexivity.
  - (* three of a kind *)
    pose proof (M 6 ltac:(lia) ltac:(lia)) as M6. pose proof (M 7 ltac:(lia) ltac:(lia)) as M7. cbn [rule] in R, M6, M7.
    destruct (held 4 H) eqn:H4; [|discriminate M7].
    destruct (held 3 H) as [|t m] eqn:H3; [discriminate R|]. injection R as <-. cbn [fst snd].
    destruct (without [t] (held 2 H)) eqn:W2; [|discriminate M6].
    assert (O : forall r, ~ In r [t] -> count r H <= 1).
    { intros r D. pose proof (without_nil [t] 2 H r W2 D). lia. }
    assert (Et : count t H <= 3) by (pose proof (held_nil 4 H t H4); lia).
    pose proof (others H [t] 3 1 ltac:(repeat constructor; intros []) ltac:(intros r [<-|[]]; exact Et) O) as LK.
    cbn [length] in LK.
    assert (L : length (firstn 2 (without [t] (held 1 H))) = 2) by (apply firstn_le; lia).
    destruct (plan_hand 3 2 [t] [] (firstn 2 (without [t] (held 1 H))) H N) as (F & F5 & I & CA & CB & CO & X3 & X2 & X1 & XN);
      try (repeat constructor; fail); try apply DK; try lia.
    { intros r [<-|[]]. exact (head_held 3 H t _ H3). }
    { intros r []. }
    { intros r J. apply KICK in J. tauto. }
    { cbn [length]. lia. }
    exists F. split; [exact F5|]. split; [exact I|]. split.
    + split; [apply CA; left; reflexivity|]. intros r Q. assert (J : In r (exact 2 F)) by (apply exact_in, Q).
      rewrite X2 in J. destruct J.
    + cbn [deciders]. rewrite by_mult, X1, X2, X3, (XN 4) by lia. reflexivity.
  - (* straight *)
    cbn [rule] in R. destruct (filter (has_run H) tops) as [|t m] eqn:E; [discriminate R|]. injection R as <-. cbn [fst snd].
    destruct (filter_head _ _ _ _ desc_tops E) as (Ht & It & _).
    destruct (cards_of_ranks H (run t)) as (F & RF & I); [apply has_run_spec, Ht|].
    pose proof (ranks_five F _ RF (run_NoDup t) (run_length t It)) as F5. pose proof (run_sequence F t It RF) as S.
    exists F. split; [exact F5|]. split; [exact I|]. split; [|reflexivity]. split; [|exact S].
    intros Q. pose proof (CAP F (StraightFlush t) F5 I (conj Q S)) as B. cbn in B. lia.
  - (* flush *)
    cbn [rule] in R. destruct (highest_in (map (flush_in H) four_suits)) as [E|J].
    { rewrite E in R. discriminate R. }
    destruct (fold_right higher [] (map (flush_in H) four_suits)) as [|t l]; [discriminate R|]. injection R as <-. cbn [fst snd].
    apply in_map_iff in J. destruct J as (s & E & _). unfold flush_in in E.
    destruct (5 <=? length (only s H)) eqn:Q; [|discriminate E]. apply Nat.leb_le in Q.
    pose proof (flush_length s H N Q) as L. rewrite E in L.
    assert (D : desc (t :: l)) by (rewrite <- E; apply desc_firstn, desc_held).
    set (F := map (fun r => (r, s)) (t :: l)).
    assert (RF : ranks F = t :: l) by apply ranks_map.
    assert (I : incl F H).
    { apply incl_only. intros r J. rewrite <- E in J. apply firstn_in, held_in in J. exact J. }
    pose proof (ranks_five F _ RF (desc_NoDup _ D) L) as F5. exists F. split; [exact F5|]. split; [exact I|]. split.
    + split; [apply suited_map|]. split; [|exact (desc_highest F t l RF D)]. intros r S.
      pose proof (CAP F (StraightFlush r) F5 I (conj (suited_map _ _) S)) as B. cbn in B. lia.
    + cbn [deciders]. exact (distinct_exact F _ RF D).
  - (* full house *)
    cbn [rule] in R. destruct (held 3 H) as [|t m] eqn:H3; [discriminate R|].
    destruct (without [t] (held 2 H)) as [|p m'] eqn:W2; [discriminate R|]. injection R as <-. cbn [fst snd].
    assert (J : In p (without [t] (held 2 H))) by (rewrite W2; left; reflexivity).
    apply without_in in J. rewrite held_in in J. destruct J as (Cp & D).
    destruct (plan_hand 3 2 [t] [p] [] H N) as (F & F5 & I & CA & CB & CO & X3 & X2 & X1 & XN);
      try (repeat constructor; fail); try lia.
    { intros r [<-|[]]. exact (head_held 3 H t _ H3). }
    { intros r [<-|[]]. tauto. }
    { intros r []. }
    exists F. split; [exact F5|]. split; [exact I|]. split.
    + split; [apply CA|apply CB]; left; reflexivity.
    + cbn [deciders]. rewrite by_mult, X1, X2, X3, (XN 4) by lia. reflexivity.
  - (* four of a kind *)
    cbn [rule] in R. destruct (held 4 H) as [|q m] eqn:H4; [discriminate R|]. injection R as <-. cbn [fst snd].
    pose proof (fun r => count_le4 r H N) as C4.
    pose proof (others H [q] 4 4 ltac:(repeat constructor; intros []) (fun r _ => C4 r) (fun r _ => C4 r)) as LK.
    cbn [length] in LK.
    assert (L : length (firstn 1 (without [q] (held 1 H))) = 1) by (apply firstn_le; lia).
    destruct (plan_hand 4 2 [q] [] (firstn 1 (without [q] (held 1 H))) H N) as (F & F5 & I & CA & CB & CO & X4 & X2 & X1 & XN);
      try (repeat constructor; fail); try apply DK; try lia.
    { intros r [<-|[]]. exact (head_held 4 H q _ H4). }
    { intros r []. }
    { intros r J. apply KICK in J. tauto. }
    { cbn [length]. lia. }
    exists F. split; [exact F5|]. split; [exact I|]. split.
    + apply CA. left. reflexivity.
    + cbn [deciders]. rewrite by_mult, X1, X2, X4, (XN 3) by lia. reflexivity.
  - (* straight flush *)
    cbn [rule] in R. match type of R with context [filter ?f tops] => destruct (filter f tops) as [|t m] eqn:E end; [discriminate R|].
    injection R as <-. cbn [fst snd]. destruct (filter_head _ _ _ _ desc_tops E) as (Ht & It & _).
    apply existsb_exists in Ht. destruct Ht as (s & _ & Ht).
    set (F := map (fun r => (r, s)) (run t)).
    assert (RF : ranks F = run t) by apply ranks_map.
    assert (I : incl F H) by (apply incl_only, has_run_spec, Ht).
    exists F. split; [exact (ranks_five F _ RF (run_NoDup t) (run_length t It))|]. split; [exact I|].
    split; [|reflexivity]. split; [apply suited_map|exact (run_sequence F t It RF)].
Qed.

Theorem best_attained H : NoDup H -> 5 <= length H ->
  (exists F, five_card_hand F /\ incl F H /\ classify F (fst (best H)) /\ deciders (fst (best H)) F = snd (best H))
  /\ forall F c, five_card_hand F -> incl F H -> classify F c ->
       category c < category (fst (best H))
       \/ (category c = category (fst (best H)) /\ lex_ge (snd (best H)) (deciders c F)).
Proof.
  intros N L.
  assert (X : exists k x, k < 9 /\ rule k H = Some x).
  { destruct (complete [] H (NoDup_nil _) N) as (G & NG & LG & IG); [intros f []|cbn; lia|exact L|].
    cbn [app] in *. destruct (class_exists G (conj NG LG)) as (c & C).
    destruct (rule_covers G H c (conj NG LG) N IG C) as (x & E & _). exists (category c), x.
    split; [destruct c; cbn; lia|exact E]. }
  destruct (first_rule_spec H [8; 7; 6; 5; 4; 3; 2; 1; 0] 9 eq_refl (le_n 9) X) as (k & Lk & E & M).
  fold (best H) in E. pose proof (rule_category k H (best H) ltac:(lia) E) as Ck. split.
  - apply (rule_attained k); try assumption; try lia. intros k' A B. apply M; lia.
  - intros F c F5 I C. destruct (rule_covers F H c F5 N I C) as (x & Ex & G).
    assert (category c < 9) by (destruct c; cbn; lia).
    destruct (Nat.lt_trichotomy (category c) k) as [Q|[Q|Q]]; [left; lia|right|rewrite M in Ex by assumption; discriminate Ex].
    rewrite Q, E in Ex. injection Ex as <-. split; [lia|exact G].
Qed.

Theorem worth ev h e : new_evaluator ev -> all_cards h -> evaluates ev h e ->
  eval_class_of e = fst (best (faces h))
  /\ exists x, hand5 x /\ incl x h /\ evaluates ev x e
       /\ classify (faces x) (fst (best (faces h))) /\ deciders (fst (best (faces h))) (faces x) = snd (best (faces h)).
Proof.
  intros Hev A E. destruct (evaluates_legal ev h e A E) as (_ & N & L).
  pose proof (SizeFacts.NH ev h e A E) as NF.
  assert (LF : 5 <= length (faces h)) by (unfold faces; rewrite map_length; exact L).
  destruct (best_attained (faces h) NF LF) as ((F & (NF1 & LF1) & I & C & D) & T).
  set (b := best (faces h)) in *.
  pose proof (card_at_hand5 F NF1 LF1) as Hx.
  destruct (evaluate_spec ev _ Hev (hand5_legal _ Hx)) as (e1 & E1 & _).
  assert (Ix : incl (map card_at F) h).
  { intros c Hc. apply in_map_iff in Hc. destruct Hc as (f & <- & Hf). apply card_at_in; [exact A|]. apply I, Hf. }
  destruct (best_five ev h e Hev A E) as (y & Hy & Iy & Vy).
  pose proof (more_cards ev _ h e1 e Hev A Ix E1 E) as NL.
  destruct (comparison_correct ev y (map card_at F) e e1 Hev Hy Hx Vy E1) as (_ & TI & LT).
  pose proof (proj2 (class_correct ev y e Hev Hy Vy _) eq_refl) as Cy.
  rewrite faces_card_at in TI, LT.
  assert (EQ : eval_cmp e e1 = Eq).
  { apply TI. exists (eval_class_of e), (fst b). split; [exact Cy|]. split; [exact C|].
    destruct (T (faces y) _ (hand5_faces y Hy) (incl_map face_of Iy) Cy) as [Q|(Q & G)].
    - exfalso. apply NL, LT. exists (fst b), (eval_class_of e). split; [exact C|]. split; [exact Cy|]. left. exact Q.
    - split; [exact Q|]. destruct G as [G|G]; [congruence|]. exfalso. apply NL, LT.
      exists (fst b), (eval_class_of e). split; [exact C|]. split; [exact Cy|]. right. split; [congruence|].
      rewrite D. exact G. }
  assert (e1 = e) as ->.
  { apply (same_value ev (map card_at F) h e1 e Hev (hand5_legal _ Hx) (evaluates_legal ev h e A E) E1 E).
    symmetry. apply cmp_Eq, EQ. }
  split.
  - apply (class_correct ev (map card_at F) e Hev Hx E1). rewrite faces_card_at. exact C.
  - exists (map card_at F). rewrite faces_card_at. tauto.
Qed.

Theorem worth_compare ev h1 h2 e1 e2 : new_evaluator ev -> all_cards h1 -> all_cards h2 ->
  evaluates ev h1 e1 -> evaluates ev h2 e2 ->
  (eval_cmp e1 e2 = Gt <-> worth_more (best (faces h1)) (best (faces h2)))
  /\ (eval_cmp e1 e2 = Eq <-> best (faces h1) = best (faces h2))
  /\ (eval_cmp e1 e2 = Lt <-> worth_more (best (faces h2)) (best (faces h1))).
Proof.
  intros Hev A1 A2 E1 E2.
  destruct (worth ev h1 e1 Hev A1 E1) as (B1 & x1 & H1 & _ & V1 & C1 & D1).
  destruct (worth ev h2 e2 Hev A2 E2) as (B2 & x2 & H2 & _ & V2 & C2 & D2).
  assert (W : forall x y a b, hand5 x -> hand5 y -> classify (faces x) (fst a) -> classify (faces y) (fst b) ->
      deciders (fst a) (faces x) = snd a -> deciders (fst b) (faces y) = snd b ->
      (beats (faces x) (faces y) <-> worth_more a b)).
  { intros x y a b Hx Hy Ca Cb Da Db. split.
    - intros (c & d & Cc & Cd & Q). rewrite (classify_unique _ c (fst a) (hand5_faces x Hx) Cc Ca) in Q.
      rewrite (classify_unique _ d (fst b) (hand5_faces y Hy) Cd Cb) in Q. rewrite Da, Db in Q. exact Q.
    - intros Q. exists (fst a), (fst b). rewrite Da, Db. split; [exact Ca|]. split; [exact Cb|exact Q]. }
  destruct (comparison_correct ev x1 x2 e1 e2 Hev H1 H2 V1 V2) as (G & T & S).
  split; [rewrite G; apply W; assumption|]. split; [|rewrite S; apply W; assumption].
  rewrite T. split.
  - intros Q. assert (e1 = e2).
    { apply (same_value ev x1 x2 e1 e2 Hev (hand5_legal _ H1) (hand5_legal _ H2) V1 V2). apply cmp_Eq, T, Q. }
    destruct Q as (c & d & Cc & Cd & _ & Q). rewrite (classify_unique _ c _ (hand5_faces x1 H1) Cc C1) in Q.
    rewrite (classify_unique _ d _ (hand5_faces x2 H2) Cd C2) in Q. rewrite D1, D2 in Q.
    destruct (best (faces h1)) as [c1 l1], (best (faces h2)) as [c2 l2]. cbn [fst snd] in *. congruence.
  - intros Q. exists (fst (best (faces h1))), (fst (best (faces h2))). split; [exact C1|]. split; [exact C2|].
    rewrite D1, D2, Q. split; reflexivity.
Qed.

Lemma class_best ev h e : new_evaluator ev -> all_cards h -> evaluates ev h e ->
  eval_class_of e = fst (best (faces h)).
Proof. intros Hev A E. apply (worth ev h e Hev A E). Qed.
