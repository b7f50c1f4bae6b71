(** ValuesFacts.v: the values that six and seven cards can have (C62). *)
From Coq Require Import Lia List Arith Bool Permutation Sorted ZArith.
From Verif Require Import Base BaseFacts ModelCard ModelEval ModelTable ModelEvaluation.
From Verif Require Import Spec SpecApi CardFacts Sweep SweepFacts SpecFacts EvalFacts FiveFacts
  CombosFacts EvaluateFacts HandFacts ClassFacts SizeFacts CategoryFacts SpecBest BestFacts WorthFacts.
Import ListNotations.
Local Open Scope nat_scope.

(** ** The list of values, for hands of [5 + m] cards, best first *)
Definition mem (r : rank) (l : list rank) : bool := existsb (rank_eqb r) l.
Definition no_run (l : list rank) : bool := forallb (fun t => negb (forallb (fun r => mem r l) (run t))) tops.
Definition below (k : rank) (l : list rank) : list rank := filter (fun r => pips r <? pips k) l.
Definition apart (rs : list rank) : list rank := filter (fun r => negb (mem r rs)) high_to_low.

(** Further ranks for a hand: [m] of them from [pool], making no straight with [used]. *)
Definition spare (m : nat) (pool used : list rank) : option (list rank) :=
  find (fun x => no_run (used ++ x)) (combs m pool).
(** For two pairs, [b] of the further ranks may be held twice. *)
Definition spare_pairs (m : nat) (p q k : rank) : option (nat * list rank) :=
  find (fun y => (fst y <=? length (below q (k :: snd y))) && no_run (p :: q :: k :: snd y))
    (flat_map (fun b => map (pair b) (combs (m - b) (below k (apart [p; q])))) (seq 0 (S m))).

Definition some {A} (o : option A) : bool := match o with Some _ => true | None => false end.
Definition vals (m k : nat) : list (eval_class * list rank) :=
  match k with
  | 8 => map (fun t => (StraightFlush t, [t])) tops
  | 7 => flat_map (fun q => map (fun k => (FourOfAKind q, [q; k])) (apart [q])) high_to_low
  | 6 => flat_map (fun t => map (fun p => (FullHouse t p, [t; p])) (apart [t])) high_to_low
  | 5 => map (fun l => (Flush (hd Two l), l)) (filter no_run (combs 5 high_to_low))
  | 4 => map (fun t => (Straight t, [t])) tops
  | 3 => flat_map (fun t => map (fun l => (ThreeOfAKind t, t :: l))
           (filter (fun l => some (spare m (below (last l Two) (apart [t])) (t :: l))) (combs 2 (apart [t])))) high_to_low
  | 2 => flat_map (fun l => let p := hd Two l in let q := last l Two in
           map (fun k => (TwoPair p q, [p; q; k])) (filter (fun k => some (spare_pairs m p q k)) (apart [p; q])))
           (combs 2 high_to_low)
  | 1 => flat_map (fun p => map (fun l => (Pair p, p :: l))
           (filter (fun l => some (spare m (below (last l Two) (apart [p])) (p :: l))) (combs 3 (apart [p])))) high_to_low
  | _ => map (fun l => (HighCard (hd Two l), l))
           (filter (fun l => some (spare m (below (last l Two) high_to_low) l)) (combs 5 high_to_low))
  end.
Definition values (m : nat) : list (eval_class * list rank) := flat_map (vals m) [8; 7; 6; 5; 4; 3; 2; 1; 0].

(** A hand for each value.  Where suits do not matter they go round. *)
Fixpoint dress (ss : list suit) (l : list rank) : list face :=
  match l, ss with
  | r :: l', s :: ss' => (r, s) :: dress ss' l'
  | _, _ => []
  end.
Definition round : list suit := four_suits ++ four_suits.
Definition off (m : nat) (t : rank) : list face := map (pair t) (firstn m [Hearts; Spades]).
Definition got {A} (d : A) (o : option A) : A := match o with Some x => x | None => d end.
Definition hand_for (m : nat) (v : eval_class * list rank) : list face :=
  match v with
  | (StraightFlush t, _) => map (fun r => (r, Clubs)) (run t) ++ off m t
  | (FourOfAKind q, [_; k]) => dress round (repeat q 4 ++ repeat k (S m))
  | (FullHouse t p, _) => dress round (repeat t 3 ++ repeat p 2 ++ firstn m (apart [t; p]))
  | (Flush t, l) => map (fun r => (r, Clubs)) l ++ off m t
  | (Straight t, _) => dress round (repeat t m ++ run t)
  | (ThreeOfAKind t, _ :: l) => dress round (repeat t 3 ++ l ++ got [] (spare m (below (last l Two) (apart [t])) (t :: l)))
  | (TwoPair p q, [_; _; k]) =>
      let y := got (0, []) (spare_pairs m p q k) in
      let l := k :: snd y in
      dress round (repeat p 2 ++ repeat q 2 ++ firstn (length l - fst y) l
                   ++ flat_map (fun r => [r; r]) (skipn (length l - fst y) l))
  | (Pair p, _ :: l) => dress round (repeat p 2 ++ l ++ got [] (spare m (below (last l Two) (apart [p])) (p :: l)))
  | (HighCard _, l) => dress round (l ++ got [] (spare m (below (last l Two) high_to_low) l))
  | _ => []
  end.

Fixpoint higherb (a b : list rank) : bool :=
  match a, b with
  | x :: a', y :: b' => (pips y <? pips x) || ((pips x =? pips y) && higherb a' b')
  | _, _ => false
  end.
Definition moreb (x y : eval_class * list rank) : bool :=
  (category (fst y) <? category (fst x)) || ((category (fst x) =? category (fst y)) && higherb (snd x) (snd y)).
Fixpoint falling (l : list (eval_class * list rank)) : bool :=
  match l with
  | x :: ((y :: _) as l') => moreb x y && falling l'
  | _ => true
  end.
Definition value_dec (x y : eval_class * list rank) : {x = y} + {x <> y}.
Proof. repeat decide equality. Defined.
Definition hand_ok (m : nat) (v : eval_class * list rank) : bool :=
  let h := hand_for m v in
  nodupb h && (length h =? 5 + m) && (if value_dec (best h) v then true else false).
Definition values_ok (m : nat) (n : Z) : bool :=
  let V := values m in falling V && forallb (hand_ok m) V && (Z.of_nat (length V) =? n)%Z.
Lemma six_ok : values_ok 1 6075 = true.
Proof. vm_compute. reflexivity. Qed.
Lemma seven_ok : values_ok 2 4824 = true.
Proof. vm_compute. reflexivity. Qed.
Lemma in_values m k v : k <= 8 -> In v (vals m k) -> In v (values m).
Proof.
  intros L I. unfold values. apply in_flat_map. exists k. split; [|exact I].
  destruct k as [|[|[|[|[|[|[|[|[|k]]]]]]]]]; cbn; tauto || lia.
Qed.
Global Opaque values.

(** ** The list is in order *)
Lemma higherb_spec a : forall b, higherb a b = true -> lex_gt a b.
Proof.
  induction a as [|x a IH]; intros [|y b] H; try discriminate H. cbn [higherb] in H. cbn [lex_gt].
  apply orb_true_iff in H. destruct H as [H|H]; [left; apply Nat.ltb_lt, H|]. apply andb_true_iff in H. destruct H as [E H].
  right. split; [|exact (IH b H)]. apply Nat.eqb_eq in E. apply pips_inj. exact E.
Qed.
Lemma moreb_spec x y : moreb x y = true -> worth_more x y.
Proof.
  unfold moreb, worth_more. rewrite orb_true_iff, andb_true_iff, Nat.ltb_lt, Nat.eqb_eq.
  intros [H|[E H]]; [left; exact H|right]. split; [exact E|apply higherb_spec, H].
Qed.
Lemma worth_more_trans x y z : worth_more x y -> worth_more y z -> worth_more x z.
Proof.
  intros [A|[A A']] [B|[B B']]; [left; lia|left; lia|left; lia|right]. split; [congruence|].
  exact (lex_gt_trans _ _ _ A' B').
Qed.
Lemma falling_sorted l : falling l = true -> StronglySorted worth_more l.
Proof.
  intros H. apply Sorted_StronglySorted; [intros x y z; apply worth_more_trans|].
  induction l as [|x [|y l] IH]; [constructor|repeat constructor|]. change (moreb x y && falling (y :: l) = true) in H.
  apply andb_true_iff in H. destruct H as [A B]. constructor; [exact (IH B)|]. constructor. apply moreb_spec, A.
Qed.

(** ** Every hand has a value of the list *)
Lemma mem_in r l : mem r l = true <-> In r l.
Proof.
  unfold mem. rewrite existsb_exists. split.
  - intros (x & H & E). apply rank_eqb_eq in E. subst x. exact H.
  - intros H. exists r. split; [exact H|apply rank_eqb_eq; reflexivity].
Qed.
Lemma apart_in rs r : In r (apart rs) <-> ~ In r rs.
Proof.
  unfold apart. rewrite filter_In, negb_true_iff, <- not_true_iff_false, mem_in. pose proof (in_high_to_low r). tauto.
Qed.
Lemma below_in k l r : In r (below k l) <-> In r l /\ pips r < pips k.
Proof. unfold below. rewrite filter_In, Nat.ltb_lt. reflexivity. Qed.
Lemma desc_apart rs : desc (apart rs).
Proof. apply desc_filter, desc_high. Qed.
Lemma desc_below k l : desc l -> desc (below k l).
Proof. apply desc_filter. Qed.
Lemma desc_sublist a : forall l, desc a -> desc l -> incl a l -> sublist a l.
Proof.
  intros l Da Dl. revert a Da. induction l as [|y l IH]; intros a Da I.
  - destruct a as [|x a]; [constructor|]. destruct (I x (or_introl eq_refl)).
  - inversion Dl as [|? ? Dl' Fl]; subst. destruct a as [|x a]; [constructor; apply IH; [exact Dl'|constructor|intros z []]|].
    inversion Da as [|? ? Da' Fa]; subst. rewrite Forall_forall in Fl, Fa.
    destruct (rank_dec x y) as [->|D].
    + constructor. apply IH; [exact Dl'|exact Da'|]. intros z Hz. destruct (I z (or_intror Hz)) as [<-|H]; [|exact H].
      specialize (Fa y Hz). lia.
    + constructor. apply IH; [exact Dl'|exact Da|]. intros z Hz. destruct (I z Hz) as [<-|H]; [|exact H].
      exfalso. destruct Hz as [->|Hz]; [apply D; reflexivity|].
      destruct (I x (or_introl eq_refl)) as [->|Hx]; [apply D; reflexivity|].
      specialize (Fa y Hz). specialize (Fl x Hx). lia.
Qed.
Lemma desc_combs a l : desc a -> desc l -> incl a l -> In a (combs (length a) l).
Proof. intros Da Dl I. apply combs_sublist. split; [exact (desc_sublist a l Da Dl I)|reflexivity]. Qed.
Lemma no_run_held H l : filter (has_run H) tops = [] -> (forall r, In r l -> 1 <= count r H) -> no_run l = true.
Proof.
  intros E I. apply forallb_forall. intros t Ht. apply negb_true_iff, not_true_iff_false. intros X.
  assert (In t (filter (has_run H) tops)) as Q; [|rewrite E in Q; destruct Q].
  apply filter_In. split; [exact Ht|]. apply has_run_spec. intros r Hr. rewrite forallb_forall in X.
  apply I, mem_in, X, Hr.
Qed.
Lemma find_some {A} (f : A -> bool) l x : In x l -> f x = true -> some (find f l) = true.
Proof.
  intros I F. destruct (find f l) eqn:E; [reflexivity|]. rewrite (find_none f l E x I) in F. discriminate F.
Qed.
Lemma desc_split a b : desc (a ++ b) -> desc a /\ desc b /\ forall x y, In x a -> In y b -> pips y < pips x.
Proof.
  induction a as [|z a IH]; cbn [app]; intros D; [split; [constructor|]; split; [exact D|intros x y []]|].
  inversion D as [|? ? D' F]; subst. destruct (IH D') as (A & B & C). rewrite Forall_forall in F. split; [|split].
  - constructor; [exact A|]. apply Forall_forall. intros x Hx. apply F, in_or_app. left. exact Hx.
  - exact B.
  - intros x y [<-|Hx] Hy; [apply F, in_or_app; right; exact Hy|exact (C x y Hx Hy)].
Qed.
Lemma last_in {A} (l : list A) d : l <> [] -> In (last l d) l.
Proof.
  induction l as [|x [|y l] IH]; intros H; [contradiction|left; reflexivity|]. right. apply IH. discriminate.
Qed.
Lemma spare_held m k H used l x : filter (has_run H) tops = [] -> (forall r, In r used -> 1 <= count r H) ->
  (forall r, In r (l ++ x) -> 1 <= count r H) -> desc (l ++ x) -> l <> [] -> length x = m ->
  (forall r, In r x -> ~ In r k) -> some (spare m (below (last l Two) (apart k)) (used ++ l)) = true.
Proof.
  intros NR U I D L <- K. destruct (desc_split l x D) as (_ & Dx & Lx). unfold spare. apply (find_some _ _ x).
  - apply desc_combs; [exact Dx|apply desc_below, desc_apart|]. intros r Hr. apply below_in.
    split; [apply apart_in, K, Hr|]. apply Lx; [apply last_in, L|exact Hr].
  - apply (no_run_held H); [exact NR|]. intros r Hr. apply in_app_or in Hr. destruct Hr as [Hr|Hr].
    + apply in_app_or in Hr. destruct Hr as [Hr|Hr]; [apply U, Hr|apply I, in_or_app; left; exact Hr].
    + apply I, in_or_app. right. exact Hr.
Qed.
