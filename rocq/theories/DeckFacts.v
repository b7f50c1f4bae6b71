(** DeckFacts.v: src/deck.rs and [box_cards!]. *)
From Coq Require Import Lia List Arith Bool Permutation.
From Verif Require Import Base BaseFacts ModelCard ModelEval ModelTable ModelEvaluation.
From Verif Require Import Spec CardFacts HandFacts TextFacts.
Import ListNotations.

(** ** The deck *)
Lemma deck_length : length deck_generate = 52.
Proof. reflexivity. Qed.

Lemma in_deck c : In c deck_generate <-> a_card c.
Proof.
  unfold deck_generate. rewrite in_map_iff. split.
  - intros ([r s] & <- & _). apply a_card_new.
  - intros (r & s & ->). exists (r, s). split; [reflexivity|].
    apply in_prod; [apply in_all_ranks|apply in_all_suits].
Qed.

Lemma deck_all_cards : all_cards deck_generate.
Proof. apply Forall_forall. intros c. apply in_deck. Qed.

Lemma NoDup_faces_deck : NoDup (faces deck_generate).
Proof.
  assert (E : faces deck_generate = list_prod RANK_ALL_VARIANTS SUIT_ALL_VARIANTS)
    by reflexivity.
  rewrite E. apply nodupb_NoDup. reflexivity.
Qed.

Lemma deck_NoDup : NoDup deck_generate.
Proof. apply NoDup_faces; [apply deck_all_cards|apply NoDup_faces_deck]. Qed.

Lemma deck_position r s i j :
  nth_error [Two; Three; Four; Five; Six; Seven; Eight; Nine; Ten; Jack; Queen; King; Ace] i = Some r ->
  nth_error [Clubs; Hearts; Spades; Diamonds] j = Some s ->
  nth_error deck_generate (4 * i + j) = Some (card_new r s).
Proof.
  intros Hi Hj.
  pose proof (proj1 (nth_error_Some _ i) ltac:(rewrite Hi; discriminate)) as Li. simpl in Li.
  pose proof (proj1 (nth_error_Some _ j) ltac:(rewrite Hj; discriminate)) as Lj. simpl in Lj.
  do 13 (destruct i as [|i];
    [do 4 (destruct j as [|j]; [injection Hi as <-; injection Hj as <-; reflexivity|]); lia|]).
  lia.
Qed.

(** ** Shuffling *)
Lemma set_nth_split {A} (l1 : list A) x y l2 :
  set_nth (l1 ++ x :: l2) (length l1) y = l1 ++ y :: l2.
Proof.
  unfold set_nth. rewrite firstn_app, Nat.sub_diag, firstn_all, firstn_O, app_nil_r.
  rewrite skipn_app, skipn_all, Nat.sub_diag. reflexivity.
Qed.

(** [swap] of two positions [i <= j] of a split list. *)
Lemma swap_same {A} (l1 : list A) x l2 :
  swap (l1 ++ x :: l2) (length l1) (length l1) = Ret (l1 ++ x :: l2).
Proof.
  unfold swap. rewrite nth_error_app2, Nat.sub_diag by lia. cbn [nth_error].
  rewrite !set_nth_split. reflexivity.
Qed.
Lemma swap_split {A} (l1 : list A) x l2 y l3 :
  swap (l1 ++ x :: l2 ++ y :: l3) (length l1 + S (length l2)) (length l1)
  = Ret (l1 ++ y :: l2 ++ x :: l3).
Proof.
  unfold swap.
  rewrite (nth_error_app2 l1) by lia.
  replace (length l1 + S (length l2) - length l1) with (S (length l2)) by lia.
  cbn [nth_error]. rewrite (nth_error_app2 l2), Nat.sub_diag by lia. cbn [nth_error].
  rewrite (nth_error_app2 l1), Nat.sub_diag by lia. cbn [nth_error].
  assert (E : length l1 + S (length l2) = length (l1 ++ x :: l2)) by (rewrite app_length; reflexivity).
  assert (E2 : l1 ++ x :: l2 ++ y :: l3 = (l1 ++ x :: l2) ++ y :: l3) by (rewrite <- app_assoc; reflexivity).
  rewrite E, E2, set_nth_split.
  rewrite <- app_assoc. cbn [app]. rewrite set_nth_split. reflexivity.
Qed.

Lemma nth_split_last {A} (P : list A) i j : length P = S i -> j <= i ->
  (j = i /\ exists P1 x, P = P1 ++ [x] /\ length P1 = i)
  \/ (exists l1 x l2 y, P = l1 ++ x :: l2 ++ [y] /\ length l1 = j /\ i = length l1 + S (length l2)).
Proof.
  intros L H. destruct (exists_last (l := P)) as (Q & y & ->); [intros ->; discriminate L|].
  rewrite app_length in L. simpl in L. destruct (Nat.eq_dec j i) as [->|N].
  - left. split; [reflexivity|]. exists Q, y. split; [reflexivity|lia].
  - right. destruct (nth_error Q j) as [x|] eqn:E; [|apply nth_error_None in E; lia].
    apply nth_error_split in E. destruct E as (l1 & l2 & -> & L1).
    exists l1, x, l2, y. rewrite <- app_assoc. split; [reflexivity|]. split; [exact L1|].
    rewrite app_length in L. simpl in L. lia.
Qed.

Lemma shuffle_from_perm {A R} (gen : R -> nat -> nat * R) :
  (forall rng n, 0 < n -> fst (gen rng n) < n) ->
  forall i (P Q : list A) rng, (P = [] /\ i = 0 \/ length P = S i) ->
  exists P' rng', shuffle_from gen i (P ++ Q) rng = Ret (P' ++ Q, rng') /\ Permutation P P'.
Proof.
  intros G. induction i as [|i IH]; intros P Q rng HP.
  - exists P, rng. split; [reflexivity|apply Permutation_refl].
  - destruct HP as [[-> H]|HP]; [discriminate H|]. cbn [shuffle_from].
    pose proof (G rng (S (S i))) as Gj. destruct (gen rng (S (S i))) as [j rng'].
    simpl in Gj. assert (Hj : j <= S i) by (specialize (Gj ltac:(lia)); lia). clear Gj.
    destruct (nth_split_last P (S i) j HP Hj) as [(-> & P1 & x & -> & L1)|(l1 & x & l2 & y & -> & L1 & E)].
    + rewrite <- app_assoc. cbn [app]. rewrite <- L1, swap_same. cbn [bind].
      destruct (IH P1 (x :: Q) rng') as (P' & rng2 & E2 & Pm); [right; exact L1|].
      rewrite E2. exists (P' ++ [x]), rng2. rewrite <- app_assoc. split; [reflexivity|].
      apply Permutation_app_tail. exact Pm.
    + rewrite E, <- L1. rewrite <- app_assoc. cbn [app]. rewrite <- app_assoc. cbn [app].
      rewrite swap_split. cbn [bind].
      destruct (IH (l1 ++ y :: l2) (x :: Q) rng') as (P' & rng2 & E2 & Pm).
      { right. rewrite app_length. simpl. lia. }
      rewrite <- app_assoc in E2. cbn [app] in E2. rewrite E2.
      exists (P' ++ [x]), rng2. rewrite <- app_assoc. split; [reflexivity|].
      rewrite <- Pm. rewrite <- app_assoc. apply Permutation_app_head. cbn [app].
      change (x :: l2 ++ [y]) with ((x :: l2) ++ [y]). change (y :: l2 ++ [x]) with ((y :: l2) ++ [x]).
      rewrite <- (Permutation_cons_append (x :: l2) y), <- (Permutation_cons_append (y :: l2) x).
      apply perm_swap.
Qed.

Lemma shuffle_perm {A R} (gen : R -> nat -> nat * R) (l : list A) rng :
  (forall rng n, 0 < n -> fst (gen rng n) < n) ->
  exists l' rng', shuffle gen l rng = Ret (l', rng') /\ Permutation l l'.
Proof.
  intros G. unfold shuffle.
  destruct (shuffle_from_perm gen G (length l - 1) l [] rng) as (P' & rng' & E & Pm).
  - destruct l; [left; auto|right; simpl; lia].
  - rewrite !app_nil_r in E. exists P', rng'. auto.
Qed.

(** Reachability: the generator that replays a list of indices. *)
Definition replay (js : list nat) (n : nat) : nat * list nat :=
  match js with
  | j :: js' => (if j <? n then j else 0, js')
  | [] => (0, [])
  end.
Lemma replay_range js n : 0 < n -> fst (replay js n) < n.
Proof.
  intros H. destruct js as [|j js]; simpl; [exact H|]. destruct (Nat.ltb_spec j n); simpl; lia.
Qed.

Lemma shuffle_from_reach {A} : forall i (P P' Q : list A), length P = S i -> Permutation P P' ->
  exists js, shuffle_from replay i (P ++ Q) js = Ret (P' ++ Q, []).
Proof.
  induction i as [|i IH]; intros P P' Q L Pm.
  - exists []. destruct P as [|x [|y P]]; try discriminate L.
    apply Permutation_length_1_inv in Pm. subst P'. reflexivity.
  - destruct (exists_last (l := P')) as (P2 & x & ->).
    { intros ->. apply Permutation_sym, Permutation_nil in Pm. subst P. discriminate L. }
    assert (Hx : In x P).
    { eapply Permutation_in; [symmetry; exact Pm|]. apply in_app_iff. right. left. reflexivity. }
    apply In_nth_error in Hx. destruct Hx as [j Hj].
    assert (Hji : j <= S i).
    { assert (j < length P) by (apply nth_error_Some; congruence). lia. }
    destruct (nth_split_last P (S i) j L Hji) as [(-> & P1 & x' & -> & L1)|(l1 & x' & l2 & y & -> & L1 & E)].
    + rewrite nth_error_app2, L1, Nat.sub_diag in Hj by lia. injection Hj as ->.
      apply Permutation_app_inv_r in Pm.
      destruct (IH P1 P2 (x :: Q) L1 Pm) as [js Ejs].
      exists (S i :: js). cbn [shuffle_from replay].
      destruct (Nat.ltb_spec (S i) (S (S i))); [|lia].
      rewrite <- app_assoc. cbn [app]. rewrite <- L1 at 1 2. rewrite swap_same. cbn [bind].
      rewrite Ejs, <- app_assoc. reflexivity.
    + rewrite nth_error_app2, L1, Nat.sub_diag in Hj by lia. injection Hj as ->.
      assert (Pm' : Permutation (l1 ++ y :: l2) P2).
      { apply (Permutation_app_inv_r [x]). rewrite <- Pm. rewrite <- app_assoc.
        apply Permutation_app_head. cbn [app].
        change (x :: l2 ++ [y]) with ((x :: l2) ++ [y]). change (y :: l2 ++ [x]) with ((y :: l2) ++ [x]).
        rewrite <- (Permutation_cons_append (x :: l2) y), <- (Permutation_cons_append (y :: l2) x).
        apply perm_swap. }
      destruct (IH (l1 ++ y :: l2) P2 (x :: Q)) as [js Ejs]; [|exact Pm'|].
      { rewrite app_length. simpl. lia. }
      exists (j :: js). cbn [shuffle_from replay].
      destruct (Nat.ltb_spec j (S (S i))); [|lia].
      rewrite E, <- L1. rewrite <- app_assoc. cbn [app]. rewrite <- app_assoc. cbn [app].
      rewrite swap_split. cbn [bind]. rewrite <- app_assoc in Ejs. cbn [app] in Ejs.
      rewrite Ejs, <- app_assoc. reflexivity.
Qed.

Lemma shuffle_reach {A} (l l' : list A) : Permutation l l' ->
  exists js, shuffle replay l js = Ret (l', []).
Proof.
  intros Pm. unfold shuffle. destruct l as [|a l].
  - apply Permutation_nil in Pm. subst l'. exists []. reflexivity.
  - destruct (shuffle_from_reach (length l) (a :: l) l' [] eq_refl Pm) as [js E].
    exists js. rewrite !app_nil_r in E. replace (length (a :: l) - 1) with (length l) by (simpl; lia). exact E.
Qed.

Lemma sublist_of_perm (d h : list card) : Permutation deck_generate d ->
  sublist h d -> all_cards h /\ NoDup h.
Proof.
  intros Pm S. split.
  - apply Forall_forall. intros c Hc. apply in_deck. eapply Permutation_in; [symmetry; exact Pm|].
    eapply CombosFacts.sublist_incl; eassumption.
  - eapply CombosFacts.sublist_NoDup; [exact S|]. rewrite <- Pm. apply deck_NoDup.
Qed.

Theorem shuffled_correct {R} (gen : R -> nat -> nat * R) rng :
  (forall rng n, 0 < n -> fst (gen rng n) < n) ->
  exists d rng', shuffled_with gen rng = Ret (d, rng') /\ Permutation deck_generate d.
Proof. intros G. unfold shuffled_with. apply shuffle_perm. exact G. Qed.

Theorem dealt_evaluates ev d h : new_evaluator ev -> Permutation deck_generate d ->
  sublist h d -> NoDup h /\ (5 <= length h -> exists e, evaluates ev h e).
Proof.
  intros Hev Pm S. destruct (sublist_of_perm d h Pm S) as [A N]. split; [exact N|].
  intros L. destruct (evaluate_total ev h Hev A) as (r & Er & _ & _ & H).
  destruct (H N L) as [e ->]. exists e. exact Er.
Qed.

(** ** [box_cards!] *)
Theorem box_cards_commute ev a b e : new_evaluator ev -> all_cards a -> all_cards b ->
  (evaluates ev (box_cards a [b]) e <-> evaluates ev (box_cards b [a]) e).
Proof.
  intros Hev Ha Hb. unfold box_cards. cbn [fold_left]. unfold evaluates.
  apply (permutation_ok ev (a ++ b) (b ++ a) Hev).
  - apply Forall_app. split; assumption.
  - apply Permutation_app_comm.
Qed.

Lemma deck_spec : List.length deck_generate = 52 /\ NoDup deck_generate
  /\ (forall c, In c deck_generate <-> a_card c)
  /\ (forall r s i j,
       nth_error [Two; Three; Four; Five; Six; Seven; Eight; Nine; Ten; Jack; Queen; King; Ace] i
         = Some r ->
       nth_error [Clubs; Hearts; Spades; Diamonds] j = Some s ->
       nth_error deck_generate (4 * i + j) = Some (card_new r s)).
Proof.
  split; [apply deck_length|]. split; [apply deck_NoDup|]. split; [apply in_deck|].
  apply deck_position.
Qed.

Lemma shuffled_reach d : Permutation deck_generate d ->
  exists (R : Type) (gen : R -> nat -> nat * R) (rng rng' : R),
    (forall rng n, 0 < n -> fst (gen rng n) < n) /\ shuffled_with gen rng = Ret (d, rng').
Proof.
  intros P. destruct (shuffle_reach deck_generate d P) as [js E].
  exists (list nat), replay, js, []. split; [apply replay_range|exact E].
Qed.
