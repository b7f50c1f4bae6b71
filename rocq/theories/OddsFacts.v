(** OddsFacts.v: how many of the five-card choices from the deck belong to each category (C36).

    Choices are counted by canonical hand (Sweep.v): a multiset of ranks with multiplicities
    k1, k2, ... is chosen in (4 over k1) * (4 over k2) * ... ways, four of them suited when all
    ranks differ. *)
From Coq Require Import Lia List Arith Bool Permutation ZArith Sorted.
From Verif Require Import Base BaseFacts ModelCard ModelEval ModelTable ModelEvaluation.
From Verif Require Import Spec SpecApi CardFacts Sweep SweepFacts SpecFacts FiveFacts CombosFacts.
From Verif Require Import EvaluateFacts HandFacts DeckFacts.
Import ListNotations.

(** ** Counting choices with prescribed keys *)
Section count.
  Context {X K : Type} (key : X -> K) (kdec : forall a b : K, {a = b} + {a <> b}).

  Definition keys_are (m : list K) (h : list X) : bool :=
    if list_eq_dec kdec (map key h) m then true else false.
  Definition cnt (l : list X) (m : list K) : nat :=
    length (filter (keys_are m) (combs (length m) l)).

  Lemma cnt_nil l : cnt l [] = 1.
  Proof. unfold cnt. destruct l; reflexivity. Qed.

  Lemma keys_are_cons r m x h : keys_are (r :: m) (x :: h) =
    if kdec (key x) r then keys_are m h else false.
  Proof.
    unfold keys_are. cbn [map]. destruct (kdec (key x) r) as [->|N].
    - destruct (list_eq_dec kdec (map key h) m) as [->|N].
      + destruct (list_eq_dec kdec (r :: m) (r :: m)) as [_|F]; [reflexivity|contradiction F; reflexivity].
      + destruct (list_eq_dec kdec (r :: map key h) (r :: m)) as [F|_]; [|reflexivity].
        injection F as F. contradiction.
    - destruct (list_eq_dec kdec (key x :: map key h) (r :: m)) as [F|_]; [|reflexivity].
      injection F as F _. contradiction.
  Qed.

  Lemma filter_map_len (P : list X -> bool) Q x (L : list (list X)) :
    (forall h, P (x :: h) = Q h) -> length (filter P (map (cons x) L)) = length (filter Q L).
  Proof.
    intros H. induction L as [|h L IH]; cbn [map filter]; [reflexivity|]. rewrite H.
    destruct (Q h); cbn [length]; rewrite IH; reflexivity.
  Qed.

  Lemma filter_none {A} (P : A -> bool) L : (forall a, P a = false) -> filter P L = [].
  Proof. intros H. induction L as [|a L IH]; cbn [filter]; [reflexivity|]. rewrite H. exact IH. Qed.

  Lemma cnt_cons x l r m :
    cnt (x :: l) (r :: m) = (if kdec (key x) r then cnt l m else 0) + cnt l (r :: m).
  Proof.
    unfold cnt. cbn [length combs]. rewrite filter_app, app_length. f_equal.
    destruct (kdec (key x) r) as [E|N].
    - apply filter_map_len. intros h. rewrite keys_are_cons.
      destruct (kdec (key x) r); [reflexivity|contradiction].
    - rewrite (filter_map_len _ (fun _ => false)).
      + rewrite filter_none by reflexivity. reflexivity.
      + intros h. rewrite keys_are_cons. destruct (kdec (key x) r); [contradiction|reflexivity].
  Qed.

  Lemma cnt_absent l r m : ~ In r (map key l) -> cnt l (r :: m) = 0.
  Proof.
    induction l as [|x l IH]; intros H; [reflexivity|]. rewrite cnt_cons.
    destruct (kdec (key x) r) as [E|_]; [exfalso; apply H; left; exact E|].
    apply IH. intros I. apply H. right. exact I.
  Qed.

  Lemma cnt_block r b l m : Forall (fun x => key x = r) b -> ~ In r (map key l) -> ~ In r m ->
    forall k, cnt (b ++ l) (repeat r k ++ m) = binom (length b) k * cnt l m.
  Proof.
    intros Hb Hl Hm. induction Hb as [|x b Hx Hb IH]; intros k; cbn [app length].
    - destruct k as [|k]; cbn [repeat app binom].
      + lia.
      + rewrite cnt_absent by exact Hl. reflexivity.
    - destruct k as [|k]; cbn [repeat app binom].
      + specialize (IH 0). cbn [repeat app] in IH.
        destruct m as [|r' m]; [rewrite !cnt_nil; reflexivity|].
        rewrite cnt_cons, IH. destruct (kdec (key x) r') as [E|_].
        * exfalso. apply Hm. left. congruence.
        * destruct (length b); reflexivity.
      + rewrite cnt_cons. destruct (kdec (key x) r) as [_|N]; [|contradiction].
        rewrite (IH k). specialize (IH (S k)). cbn [repeat app] in IH. rewrite IH.
        ring.
  Qed.

  (** Peeling off the leading run of [r]. *)
  Fixpoint run (r : K) (m : list K) : nat * list K :=
    match m with
    | [] => (0, [])
    | x :: m' => if kdec x r then let (k, rest) := run r m' in (S k, rest) else (0, m)
    end.
  Lemma run_spec r m : m = repeat r (fst (run r m)) ++ snd (run r m).
  Proof.
    induction m as [|x m IH]; cbn [run]; [reflexivity|].
    destruct (kdec x r) as [->|N]; [|reflexivity].
    destruct (run r m) as [k rest]. cbn [fst snd repeat app] in *. congruence.
  Qed.

  (** The product of binomials; [None] if the ranks of [m] are not in the order of [rs]. *)
  Fixpoint weight (j : nat) (rs m : list K) : option Z :=
    match rs with
    | [] => match m with [] => Some 1%Z | _ => None end
    | r :: rs' =>
        let (k, rest) := run r m in
        if in_dec kdec r rest then None
        else match weight j rs' rest with
             | Some w => Some (Z.of_nat (binom j k) * w)%Z
             | None => None
             end
    end.

  Lemma weight_spec j (block : K -> list X) rs : NoDup rs ->
    (forall r, length (block r) = j /\ Forall (fun x => key x = r) (block r)) ->
    forall m w, weight j rs m = Some w -> Z.of_nat (cnt (flat_map block rs) m) = w.
  Proof.
    intros N B. induction N as [|r rs Hr N IH]; intros m w H; cbn [weight] in H.
    - destruct m; [|discriminate H]. injection H as <-. reflexivity.
    - pose proof (run_spec r m) as R. destruct (run r m) as [k rest]. cbn [fst snd] in R.
      destruct (in_dec kdec r rest) as [_|Hn]; [discriminate H|].
      destruct (weight j rs rest) as [w'|] eqn:W; [|discriminate H]. injection H as <-.
      cbn [flat_map]. rewrite R. rewrite (cnt_block r).
      + rewrite Nat2Z.inj_mul, (IH _ _ W). f_equal. rewrite (proj1 (B r)). reflexivity.
      + apply B.
      + intros I. apply in_map_iff in I. destruct I as (x & E & I). apply in_flat_map in I.
        destruct I as (r' & Hr' & Hx). destruct (B r') as [_ F]. rewrite Forall_forall in F.
        rewrite (F x Hx) in E. subst r'. contradiction.
      + exact Hn.
  Qed.
End count.

(** ** Splitting a count by key *)
Lemma count_by_key {A C} (cdec : forall a b : C, {a = b} + {a <> b}) (kap : A -> C) (P : C -> bool)
    (Cs : list C) (L : list A) : NoDup Cs -> (forall a, In a L -> In (kap a) Cs) ->
  length (filter (fun a => P (kap a)) L)
  = fold_right (fun c n => (if P c then length (filter (fun a => if cdec (kap a) c then true else false) L) else 0) + n)
      0 Cs.
Proof.
  intros N. induction L as [|a L IH]; intros H.
  - cbn [filter length]. clear. induction Cs as [|c Cs IH]; cbn [fold_right]; [reflexivity|].
    rewrite <- IH. destruct (P c); reflexivity.
  - assert (E : forall Ds, NoDup Ds ->
      fold_right (fun c n => (if P c then length (filter (fun a => if cdec (kap a) c then true else false) (a :: L)) else 0) + n) 0 Ds
      = (if in_dec cdec (kap a) Ds then if P (kap a) then 1 else 0 else 0)
        + fold_right (fun c n => (if P c then length (filter (fun a => if cdec (kap a) c then true else false) L) else 0) + n) 0 Ds).
    { clear. induction 1 as [|c Ds Hc ND IHd]; [reflexivity|]. cbn [fold_right]. rewrite IHd. clear IHd.
      cbn [filter]. destruct (cdec (kap a) c) as [E|E].
      - subst c. destruct (in_dec cdec (kap a) Ds) as [F|_]; [contradiction|].
        destruct (in_dec cdec (kap a) (kap a :: Ds)) as [_|F]; [|exfalso; apply F; left; reflexivity].
        destruct (P (kap a)); cbn [length]; lia.
      - destruct (in_dec cdec (kap a) Ds) as [I|I], (in_dec cdec (kap a) (c :: Ds)) as [J|J];
          try lia.
        + exfalso. apply J. right. exact I.
        + exfalso. destruct J as [J|J]; [apply E; symmetry; exact J|contradiction]. }
    rewrite (E Cs N). rewrite <- IH by (intros; apply H; right; assumption).
    destruct (in_dec cdec (kap a) Cs) as [_|F]; [|exfalso; apply F, H; left; reflexivity].
    cbn [filter]. destruct (P (kap a)); reflexivity.
Qed.

(** ** The deck as faces *)
Definition all_faces : list face := list_prod RANK_ALL_VARIANTS SUIT_ALL_VARIANTS.
Definition card_of (f : face) : card := card_new (fst f) (snd f).
Definition choices : list (list face) := combs 5 all_faces.

Lemma deck_faces : deck_generate = map card_of all_faces.
Proof. reflexivity. Qed.
Lemma face_card_of f : face_of (card_of f) = f.
Proof. destruct f as [r s]. unfold face_of, card_of. cbn [fst snd]. rewrite card_rank_new, card_suit_new. reflexivity. Qed.
Lemma faces_card_of h : faces (map card_of h) = h.
Proof. unfold faces. rewrite map_map. rewrite <- map_id. apply map_ext. apply face_card_of. Qed.
Lemma all_cards_card_of h : all_cards (map card_of h).
Proof. apply Forall_forall. intros c H. apply in_map_iff in H. destruct H as (f & <- & _). apply a_card_new. Qed.
Lemma all_faces_NoDup : NoDup all_faces.
Proof. apply nodupb_NoDup. reflexivity. Qed.

Lemma combs_NoDup {T} (l : list T) : NoDup l -> forall n, NoDup (combs n l).
Proof.
  induction 1 as [|x l Hx N IH]; intros [|n]; cbn [combs]; try (repeat constructor; intros []).
  assert (A : NoDup (map (cons x) (combs n l))).
  { apply FinFun.Injective_map_NoDup; [|apply IH]. intros a b E. injection E as E. exact E. }
  assert (B : NoDup (combs (S n) l)) by apply IH.
  assert (C : forall a, In a (map (cons x) (combs n l)) -> ~ In a (combs (S n) l)).
  { intros a Ha Hb. apply in_map_iff in Ha. destruct Ha as (a' & <- & _).
    apply combs_sublist in Hb. apply Hx. apply (sublist_incl _ _ (proj1 Hb)). left. reflexivity. }
  revert A C. generalize (map (cons x) (combs n l)). intros P A C.
  induction A as [|y P Hy A IHA]; [exact B|]. cbn [app]. constructor.
  - intros I. apply in_app_or in I. destruct I as [I|I]; [contradiction|].
    apply (C y); [left; reflexivity|exact I].
  - apply IHA. intros a Ha. apply C. right. exact Ha.
Qed.

Lemma choices_NoDup : NoDup choices.
Proof. apply combs_NoDup, all_faces_NoDup. Qed.
Lemma choices_hand h : In h choices -> sublist h all_faces /\ five_card_hand h.
Proof.
  intros H. apply combs_sublist in H. destruct H as [H L]. split; [exact H|].
  split; [|exact L]. apply (sublist_NoDup _ _ H all_faces_NoDup).
Qed.
Lemma choices_hand5 h : In h choices -> hand5 (map card_of h).
Proof.
  intros H. destruct (choices_hand h H) as [_ [N L]]. split; [apply all_cards_card_of|].
  split; [|rewrite map_length; exact L].
  apply NoDup_faces; [apply all_cards_card_of|]. rewrite faces_card_of. exact N.
Qed.

(** ** The canonical hand of a choice *)
Definition suitedb (h : list face) : bool := if suited_dec h then true else false.
Lemma suitedb_spec h : suitedb h = true <-> suited h.
Proof. unfold suitedb. destruct (suited_dec h); split; congruence || contradiction || auto. Qed.
Definition canon_of (h : list face) : canon := (suitedb h, rev (ranks h)).
Definition canon_dec (a b : canon) : {a = b} + {a <> b}.
Proof. decide equality; [apply (list_eq_dec rank_dec)|apply Bool.bool_dec]. Defined.

(** Sorted lists with the same elements are equal. *)
Definition geq (a b : rank) : Prop := pips b <= pips a.
Lemma sorted_perm_eq a : forall b, StronglySorted geq a -> StronglySorted geq b -> Permutation a b -> a = b.
Proof.
  induction a as [|x a IH]; intros b Sa Sb P.
  - apply Permutation_nil in P. congruence.
  - destruct b as [|y b]; [symmetry in P; apply Permutation_nil in P; discriminate|].
    inversion_clear Sa as [|? ? Sa' Fa]. inversion_clear Sb as [|? ? Sb' Fb].
    rewrite Forall_forall in Fa, Fb.
    assert (x = y).
    { assert (Hx : In x (y :: b)) by (apply (Permutation_in _ P); left; reflexivity).
      assert (Hy : In y (x :: a)) by (apply (Permutation_in _ (Permutation_sym P)); left; reflexivity).
      destruct Hx as [Hx|Hx]; [congruence|]. destruct Hy as [Hy|Hy]; [congruence|].
      apply pips_inj. specialize (Fa _ Hy). specialize (Fb _ Hx). unfold geq in *. lia. }
    subst y. f_equal. apply IH; auto. apply (Permutation_cons_inv P).
Qed.

Fixpoint descb (m : list rank) : bool :=
  match m with [] => true | x :: m' => forallb (fun y => pips y <=? pips x) m' && descb m' end.
Lemma descb_spec m : descb m = true -> StronglySorted geq m.
Proof.
  induction m as [|x m IH]; intros H; [constructor|]. cbn [descb] in H. apply andb_true_iff in H.
  destruct H as [H1 H2]. constructor; [auto|]. apply Forall_forall. intros y Hy.
  rewrite forallb_forall in H1. apply Nat.leb_le. apply H1. exact Hy.
Qed.

Lemma sorted_snoc m x : StronglySorted geq m -> Forall (fun y => geq y x) m -> StronglySorted geq (m ++ [x]).
Proof.
  induction 1 as [|y m S IH F]; intros G; cbn [app]; [repeat constructor|].
  inversion_clear G as [|? ? G1 G2]. constructor; [auto|]. apply Forall_app. auto.
Qed.
Lemma sublist_sorted {T} (key : T -> rank) (l : list T) h :
  sublist h l -> StronglySorted geq (rev (map key l)) -> StronglySorted geq (rev (map key h)).
Proof.
  assert (U : forall m x, StronglySorted geq (m ++ [x]) ->
            StronglySorted geq m /\ Forall (fun y => geq y x) m).
  { clear. induction m as [|y m IH]; intros x S; cbn [app] in S; [repeat constructor|].
    inversion_clear S as [|? ? S' F]. destruct (IH _ S') as [A B].
    apply Forall_app in F. destruct F as [F1 F2]. inversion_clear F2. repeat constructor; auto. }
  induction 1 as [|x h l H IH|x h l H IH]; cbn [map rev]; intros S; [constructor| |].
  - apply U in S. destruct S as [S F]. apply sorted_snoc; [auto|].
    rewrite Forall_forall in *. intros y Hy. apply F. apply in_rev in Hy. apply -> in_rev.
    apply in_map_iff in Hy. destruct Hy as (z & <- & Hz). apply in_map. apply (sublist_incl _ _ H). exact Hz.
  - apply U in S. destruct S as [S _]. auto.
Qed.

Lemma canons_sorted : forallb (fun c => descb (snd c)) canons = true.
Proof. vm_compute. reflexivity. Qed.

Lemma canon_of_in h : In h choices -> In (canon_of h) canons.
Proof.
  intros H. destruct (choices_hand h H) as [Sb F].
  destruct (canon_exists h F) as ([f m] & Hc & P & Sf). cbn [fst snd] in *.
  replace (canon_of h) with (f, m); [exact Hc|]. unfold canon_of. f_equal.
  - rewrite <- suitedb_spec in Sf. destruct f, (suitedb h); intuition congruence.
  - symmetry. apply sorted_perm_eq.
    + apply (sublist_sorted fst all_faces h Sb). apply descb_spec. reflexivity.
    + apply descb_spec. pose proof canons_sorted as K. rewrite forallb_forall in K. apply (K _ Hc).
    + rewrite <- P. symmetry. apply Permutation_rev.
Qed.

(** ** How many choices have a given canonical hand *)
Definition nodupr (m : list rank) : bool := forallb (fun r => count_occ rank_dec m r =? 1) m.
Definition canon_weight (c : canon) : option Z :=
  if fst c then Some 4%Z
  else match weight rank_dec 4 RANK_ALL_VARIANTS (rev (snd c)) with
       | Some w => Some (if nodupr (snd c) then w - 4 else w)%Z
       | None => None
       end.

Lemma nodupr_spec m : nodupr m = true <-> NoDup m.
Proof.
  unfold nodupr. rewrite (NoDup_count_occ' rank_dec), forallb_forall.
  split; intros H r Hr; specialize (H r Hr); [apply Nat.eqb_eq|apply Nat.eqb_eq]; exact H.
Qed.

Definition is_canon (c : canon) (h : list face) : bool := if canon_dec (canon_of h) c then true else false.

Lemma sublist_rev {T} (a l : list T) : sublist a l -> sublist (rev a) (rev l).
Proof.
  assert (App : forall a b l m : list T, sublist a l -> sublist b m -> sublist (a ++ b) (l ++ m)).
  { clear. intros a b l m H. induction H; cbn [app]; intros G; [exact G|constructor; auto|constructor; auto]. }
  induction 1; cbn [rev]; [constructor| |].
  - apply App; [assumption|]. constructor. constructor.
  - rewrite <- (app_nil_r (rev a)). apply App; [assumption|]. constructor. constructor.
Qed.

Lemma suited_sublist (s : suit) (a rs : list rank) : sublist a rs ->
  sublist (map (fun r => (r, s)) a) (list_prod rs SUIT_ALL_VARIANTS).
Proof.
  assert (App : forall (a b l m : list face), sublist a l -> sublist b m -> sublist (a ++ b) (l ++ m)).
  { clear. intros a b l m H. induction H; cbn [app]; intros G; [exact G|constructor; auto|constructor; auto]. }
  induction 1 as [|r a rs H IH|r a rs H IH]; cbn [map list_prod]; [constructor| |].
  - apply (App [(r, s)]); [|exact IH]. clear. destruct s; cbn [SUIT_ALL_VARIANTS map]; repeat constructor.
  - apply (App []); [|exact IH]. apply sublist_nil_l.
Qed.

Local Transparent canons.
Lemma canons_suited_sub m : In (true, m) canons -> sublist m high_to_low /\ length m = 5.
Proof.
  intros H. apply in_app_or in H. destruct H as [H|H]; apply in_map_iff in H; destruct H as (x & E & H).
  - injection E as ->. apply combs_sublist in H. exact H.
  - discriminate E.
Qed.
Global Opaque canons.

(** The suited choices with five given ranks: one per suit. *)
Definition suited_with (m : list rank) (h : list face) : bool :=
  suitedb h && (if list_eq_dec rank_dec (ranks h) (rev m) then true else false).

Lemma suited_with_count m : NoDup m -> sublist m high_to_low -> length m = 5 ->
  length (filter (suited_with m) choices) = 4.
Proof.
  intros N Sb L.
  transitivity (length (map (fun s => map (fun r => (r, s)) (rev m)) SUIT_ALL_VARIANTS)); [|reflexivity].
  apply Permutation_length. apply NoDup_Permutation.
  - apply NoDup_filter, choices_NoDup.
  - apply FinFun.Injective_map_NoDup.
    + intros s s' E. destruct (rev m) as [|r k] eqn:R.
      * apply (f_equal (@length rank)) in R. rewrite rev_length, L in R. discriminate R.
      * cbn [map] in E. injection E as E _. exact E.
    + repeat constructor; simpl; intuition discriminate.
  - intros h. rewrite filter_In, in_map_iff. unfold suited_with. rewrite andb_true_iff, suitedb_spec. split.
    + intros (Hh & [s Hs] & R). destruct (list_eq_dec rank_dec (ranks h) (rev m)) as [R'|]; [|discriminate R].
      exists s. split; [|apply in_all_suits]. rewrite <- R'. unfold ranks. rewrite map_map.
      rewrite <- map_id. apply map_ext_in. intros [r s'] Hf. rewrite Forall_forall in Hs.
      specialize (Hs _ Hf). cbn [fst snd] in *. congruence.
    + intros (s & <- & _). split; [|split].
      * apply combs_sublist. split; [|rewrite map_length, rev_length; exact L].
        apply suited_sublist. change RANK_ALL_VARIANTS with (rev high_to_low). apply sublist_rev. exact Sb.
      * exists s. apply Forall_forall. intros f Hf. apply in_map_iff in Hf. destruct Hf as (r & <- & _). reflexivity.
      * assert (R : ranks (map (fun r => (r, s)) (rev m)) = rev m).
        { unfold ranks. rewrite map_map. cbn [fst]. apply map_id. }
        rewrite R. destruct (list_eq_dec rank_dec (rev m) (rev m)) as [_|F]; [reflexivity|contradiction F; reflexivity].
Qed.

Lemma filter_split {A} (P Q : A -> bool) l :
  length (filter P l) = length (filter (fun a => Q a && P a) l) + length (filter (fun a => negb (Q a) && P a) l).
Proof.
  induction l as [|a l IH]; [reflexivity|]. cbn [filter]. destruct (P a), (Q a); cbn [andb negb length]; lia.
Qed.

Lemma rank_blocks r : length (map (pair r) SUIT_ALL_VARIANTS) = 4
  /\ Forall (fun f : face => fst f = r) (map (pair r) SUIT_ALL_VARIANTS).
Proof. split; [reflexivity|]. repeat constructor. Qed.

Lemma weight_ranks m w : length m = 5 -> weight rank_dec 4 RANK_ALL_VARIANTS m = Some w ->
  Z.of_nat (length (filter (keys_are fst rank_dec m) choices)) = w.
Proof.
  intros L W.
  rewrite <- (weight_spec fst rank_dec 4 (fun r => map (pair r) SUIT_ALL_VARIANTS)
                RANK_ALL_VARIANTS ltac:(repeat constructor; simpl; intuition discriminate)
                rank_blocks m w W).
  unfold cnt. rewrite L. reflexivity.
Qed.

Lemma five_different_sub m : NoDup m -> descb m = true -> sublist m high_to_low.
Proof.
  intros N D.
  assert (G : forall rs, descb rs = true -> NoDup rs -> incl m rs -> sublist m rs).
  { intros rs. revert m N D. induction rs as [|r rs IH]; intros m N D Dr Nr I.
    - destruct m as [|x m]; [constructor|]. exfalso. apply (I x). left. reflexivity.
    - cbn [descb] in Dr. apply andb_true_iff in Dr. destruct Dr as [Dr1 Dr2].
      rewrite forallb_forall in Dr1. inversion_clear Nr as [|? ? Nr1 Nr2].
      destruct m as [|x m]; [apply sublist_nil_l|].
      inversion_clear N as [|? ? N1 N2]. cbn [descb] in D. apply andb_true_iff in D.
      destruct D as [D1 D2]. rewrite forallb_forall in D1.
      destruct (rank_dec x r) as [->|Nx].
      + constructor. apply IH; auto. intros y Hy. destruct (I y (or_intror Hy)) as [<-|H]; [contradiction|exact H].
      + constructor. apply IH; auto.
        * constructor; assumption.
        * cbn [descb]. apply andb_true_iff. split; [apply forallb_forall; exact D1|exact D2].
        * intros y Hy. destruct (I y Hy) as [<-|H]; [|exact H]. exfalso.
          destruct Hy as [Hy|Hy]; [contradiction|]. specialize (D1 _ Hy). apply Nat.leb_le in D1.
          destruct (I x (or_introl eq_refl)) as [E|E]; [congruence|].
          specialize (Dr1 _ E). apply Nat.leb_le in Dr1. apply Nx. apply pips_inj. lia. }
  apply G; [reflexivity|repeat constructor; simpl; intuition discriminate|]. intros r _. apply in_high_to_low.
Qed.

Lemma is_canon_true m h : is_canon (true, m) h = suited_with m h.
Proof.
  unfold is_canon, suited_with, canon_of. destruct (canon_dec _ _) as [E|N].
  - injection E as E1 E2. rewrite E1. cbn [andb].
    destruct (list_eq_dec rank_dec (ranks h) (rev m)) as [_|F]; [reflexivity|].
    exfalso. apply F. rewrite <- E2, rev_involutive. reflexivity.
  - destruct (suitedb h); [|reflexivity]. cbn [andb].
    destruct (list_eq_dec rank_dec (ranks h) (rev m)) as [F|_]; [|reflexivity].
    exfalso. apply N. f_equal. rewrite F, rev_involutive. reflexivity.
Qed.
Lemma is_canon_false m h : is_canon (false, m) h = negb (suitedb h) && keys_are fst rank_dec (rev m) h.
Proof.
  unfold is_canon, keys_are, canon_of. fold (ranks h). destruct (canon_dec _ _) as [E|N].
  - injection E as E1 E2. rewrite E1. cbn [andb negb].
    destruct (list_eq_dec rank_dec (ranks h) (rev m)) as [_|F]; [reflexivity|].
    exfalso. apply F. rewrite <- E2, rev_involutive. reflexivity.
  - destruct (suitedb h); [reflexivity|]. cbn [andb negb].
    destruct (list_eq_dec rank_dec (ranks h) (rev m)) as [F|_]; [|reflexivity].
    exfalso. apply N. f_equal. rewrite F, rev_involutive. reflexivity.
Qed.

Theorem canon_weight_spec c w : In c canons -> canon_weight c = Some w ->
  Z.of_nat (length (filter (is_canon c) choices)) = w.
Proof.
  intros Hc W. destruct c as [f m]. unfold canon_weight in W. cbn [fst snd] in W.
  pose proof canons_sorted as K. rewrite forallb_forall in K. specialize (K _ Hc). cbn [snd] in K.
  destruct f.
  - injection W as <-. destruct (canons_suited_sub m Hc) as [Sb L].
    rewrite (filter_ext _ _ (is_canon_true m)). rewrite suited_with_count; auto.
    apply (sublist_NoDup _ _ Sb). repeat constructor; simpl; intuition discriminate.
  - assert (L : length m = 5).
    { destruct (deal_spec (false, m) Hc) as ((_ & _ & L) & R & _). cbn [snd] in R.
      rewrite <- R. unfold ranks, faces. rewrite !map_length. exact L. }
    destruct (weight rank_dec 4 RANK_ALL_VARIANTS (rev m)) as [v|] eqn:V; [|discriminate W].
    apply weight_ranks in V; [|rewrite rev_length; exact L].
    rewrite (filter_split _ suitedb) in V. rewrite (filter_ext _ _ (is_canon_false m)).
    assert (T : forall h, suitedb h && keys_are fst rank_dec (rev m) h = suited_with m h) by reflexivity.
    rewrite (filter_ext _ _ T) in V. injection W as <-.
    destruct (nodupr m) eqn:D.
    + apply nodupr_spec in D. rewrite suited_with_count in V; auto; [lia|]. apply five_different_sub; auto.
    + assert (Z0 : length (filter (suited_with m) choices) = 0).
      { destruct (filter (suited_with m) choices) as [|h l] eqn:E; [reflexivity|]. exfalso.
        assert (I : In h (filter (suited_with m) choices)) by (rewrite E; left; reflexivity).
        apply filter_In in I. destruct I as [I S]. unfold suited_with in S.
        apply andb_true_iff in S. destruct S as [S R]. apply suitedb_spec in S.
        destruct (list_eq_dec rank_dec (ranks h) (rev m)) as [R'|]; [|discriminate R].
        pose proof (suited_NoDup h (proj1 (proj2 (choices_hand h I))) S) as N.
        rewrite R' in N. apply NoDup_rev in N. rewrite rev_involutive in N.
        apply nodupr_spec in N. congruence. }
      lia.
Qed.

(** ** The class of a canonical hand, and the totals *)
Definition top_of_sequence (m : list rank) : option rank := find (sequenceb m) high_to_low.
Definition canon_class (c : canon) : eval_class :=
  let m := snd c in
  match by_mult m with
  | [q; _] => if count_occ rank_dec m q =? 4 then FourOfAKind q
              else match by_mult m with [t; p] => FullHouse t p | _ => HighCard q end
  | [a; b; _] => if count_occ rank_dec m a =? 3 then ThreeOfAKind a else TwoPair a b
  | [p; _; _; _] => Pair p
  | hi :: _ => match fst c, top_of_sequence m with
               | true, Some top => StraightFlush top
               | true, None => Flush hi
               | false, Some top => Straight top
               | false, None => HighCard hi
               end
  | [] => HighCard Two
  end.

Lemma canon_class_ok : forallb (fun c => classifyb (fst c) (snd c) (canon_class c)) canons = true.
Proof. vm_compute. reflexivity. Qed.

Lemma choice_class ev h e : new_evaluator ev -> In h choices -> evaluates ev (map card_of h) e ->
  eval_class_of e = canon_class (canon_of h).
Proof.
  intros Hev Hh E. apply (class_correct ev _ e Hev (choices_hand5 h Hh) E).
  rewrite faces_card_of. pose proof canon_class_ok as K. rewrite forallb_forall in K.
  specialize (K _ (canon_of_in h Hh)).
  refine (proj1 (classifyb_spec h (suitedb h) (rev (ranks h)) _ _ _ (canon_class (canon_of h))) K).
  - apply (proj2 (choices_hand h Hh)).
  - apply Permutation_rev.
  - rewrite suitedb_spec. reflexivity.
Qed.

Lemma canons_NoDup : NoDup canons.
Proof.
  destruct table_new_ret as [t Ht].
  apply (NoDup_map_inv (fun c => match canon_meta t c with Some m => phr (meta_hand_rank m) | None => 0%Z end)).
  refine (NoDup_incl_NoDup (l := map Z.of_nat (seq 1 (length canons))) _ _ _).
  - apply FinFun.Injective_map_NoDup; [|apply seq_NoDup]. intros a b E. lia.
  - rewrite !map_length, seq_length. lia.
  - intros z Hz. apply in_map_iff in Hz. destruct Hz as (n & <- & Hn). apply in_seq in Hn.
    pose proof canons_length as CL.
    destruct (canon_rank_attained t Ht (Z.of_nat n)) as (c & m & Hc & M & R); [lia|].
    apply in_map_iff. exists c. split; [|exact Hc]. rewrite M. exact R.
Qed.

Definition class_weights : list (eval_class * option Z) :=
  map (fun c => (canon_class c, canon_weight c)) canons.
Definition total (P : eval_class -> bool) (l : list (eval_class * option Z)) : option Z :=
  fold_right (fun p acc => if P (fst p) then match snd p, acc with
                                             | Some w, Some a => Some (w + a)%Z
                                             | _, _ => None
                                             end else acc) (Some 0%Z) l.
Definition total_is (l : list (eval_class * option Z)) (P : eval_class -> bool) (z : Z) : bool :=
  match total P l with Some a => (a =? z)%Z | None => false end.

Definition of_category (n : nat) (c : eval_class) : bool := category c =? n.
Definition royal_class (c : eval_class) : bool :=
  match c with StraightFlush Ace => true | _ => false end.

Lemma totals_ok :
  (let l := class_weights in
   total_is l (of_category 8) 40 && total_is l (of_category 7) 624
   && total_is l (of_category 6) 3744 && total_is l (of_category 5) 5108
   && total_is l (of_category 4) 10200 && total_is l (of_category 3) 54912
   && total_is l (of_category 2) 123552 && total_is l (of_category 1) 1098240
   && total_is l (of_category 0) 1302540 && total_is l royal_class 4
   && total_is l (fun _ => true) 2598960)%Z = true.
Proof. vm_compute. reflexivity. Qed.

Lemma total_count P z : total_is class_weights P z = true ->
  Z.of_nat (length (filter (fun h => P (canon_class (canon_of h))) choices)) = z.
Proof.
  intros H. unfold total_is in H. destruct (total P class_weights) as [a|] eqn:T; [|discriminate H].
  apply Z.eqb_eq in H. subst a.
  rewrite (count_by_key canon_dec canon_of (fun c => P (canon_class c)) canons choices
             canons_NoDup canon_of_in).
  revert T. unfold class_weights.
  assert (G : forall Cs, incl Cs canons -> forall z, total P (map (fun c => (canon_class c, canon_weight c)) Cs) = Some z ->
    Z.of_nat (fold_right (fun c n => (if P (canon_class c)
       then length (filter (fun a => if canon_dec (canon_of a) c then true else false) choices) else 0) + n) 0 Cs) = z).
  { clear z. induction Cs as [|c Cs IH]; intros I z T; cbn [map total fold_right fst snd] in *.
    - injection T as <-. reflexivity.
    - fold (total P (map (fun c => (canon_class c, canon_weight c)) Cs)) in T.
      destruct (P (canon_class c)).
      + destruct (canon_weight c) as [w|] eqn:W; [|discriminate T].
        destruct (total P _) as [a|] eqn:A; [|discriminate T]. injection T as <-.
        rewrite Nat2Z.inj_add. f_equal.
        * apply (canon_weight_spec c w); [|exact W]. apply I. left. reflexivity.
        * apply IH; [|reflexivity]. intros x Hx. apply I. right. exact Hx.
      + cbn [Nat.add]. apply IH; [|exact T]. intros x Hx. apply I. right. exact Hx. }
  intros T. apply (G canons (incl_refl _) z T).
Qed.

(** ** For the hands themselves *)
Definition five_card_choices : list (list card) := combs 5 deck_generate.

Lemma five_card_choices_map : five_card_choices = map (map card_of) choices.
Proof. exact (combs_map card_of all_faces 5). Qed.

Global Opaque choices class_weights five_card_choices.

Lemma results_exist ev L : (forall h, In h L -> exists e, evaluates ev h e) ->
  exists es, Forall2 (evaluates ev) L es.
Proof.
  induction L as [|h L IH]; intros H; [exists []; constructor|].
  destruct (H h (or_introl eq_refl)) as [e E]. destruct IH as [es F]; [intros; apply H; right; assumption|].
  exists (e :: es). constructor; assumption.
Qed.

Lemma results_count ev L es (p : eval -> bool) (P : eval_class -> bool) : new_evaluator ev ->
  Forall2 (evaluates ev) (map (map card_of) L) es -> (forall h, In h L -> In h choices) ->
  (forall h e, In h L -> evaluates ev (map card_of h) e -> p e = P (eval_class_of e)) ->
  length (filter p es) = length (filter (fun h => P (canon_class (canon_of h))) L).
Proof.
  intros Hev. revert es. induction L as [|h L IH]; intros es F I Q; cbn [map] in F; inversion F as [|? e ? es' E F']; subst.
  - reflexivity.
  - cbn [filter]. rewrite (Q h e (or_introl eq_refl) E).
    rewrite (choice_class ev h e Hev (I h (or_introl eq_refl)) E).
    specialize (IH es' F' (fun x Hx => I x (or_intror Hx)) (fun x y Hx => Q x y (or_intror Hx))).
    destruct (P _); cbn [length]; rewrite IH; reflexivity.
Qed.

Lemma filter_all {A} (P : A -> bool) L : (forall a, P a = true) -> filter P L = L.
Proof. intros H. induction L as [|a L IH]; cbn [filter]; [reflexivity|]. rewrite H, IH. reflexivity. Qed.

Theorem odds ev : new_evaluator ev -> exists L es,
  NoDup L
  /\ (forall h, In h L <-> sublist h deck_generate /\ length h = 5)
  /\ Forall2 (evaluates ev) L es
  /\ Z.of_nat (length L) = 2598960%Z
  /\ Z.of_nat (length (filter eval_is_royal_flush es)) = 4%Z
  /\ Z.of_nat (length (filter eval_is_straight_flush es)) = 40%Z
  /\ Z.of_nat (length (filter eval_is_four_of_a_kind es)) = 624%Z
  /\ Z.of_nat (length (filter eval_is_full_house es)) = 3744%Z
  /\ Z.of_nat (length (filter eval_is_flush es)) = 5108%Z
  /\ Z.of_nat (length (filter eval_is_straight es)) = 10200%Z
  /\ Z.of_nat (length (filter eval_is_three_of_a_kind es)) = 54912%Z
  /\ Z.of_nat (length (filter eval_is_two_pair es)) = 123552%Z
  /\ Z.of_nat (length (filter eval_is_pair es)) = 1098240%Z
  /\ Z.of_nat (length (filter eval_is_high_card es)) = 1302540%Z.
Proof.
  intros Hev.
  destruct (results_exist ev five_card_choices) as [es F].
  { intros h H. rewrite five_card_choices_map in H. apply in_map_iff in H. destruct H as (x & <- & H).
    destruct (evaluate_spec ev (map card_of x) Hev (hand5_legal _ (choices_hand5 x H))) as (e & E & _).
    exists e. exact E. }
  pose proof F as F'. rewrite five_card_choices_map in F'.
  exists five_card_choices, es.
  split; [exact (combs_NoDup _ deck_NoDup 5)|]. split; [exact (combs_sublist deck_generate 5)|]. split; [exact F|].
  pose proof totals_ok as T. cbv zeta in T.
  apply andb_true_iff in T. destruct T as [T A11]. apply andb_true_iff in T. destruct T as [T A10].
  apply andb_true_iff in T. destruct T as [T A9]. apply andb_true_iff in T. destruct T as [T A8].
  apply andb_true_iff in T. destruct T as [T A7]. apply andb_true_iff in T. destruct T as [T A6].
  apply andb_true_iff in T. destruct T as [T A5]. apply andb_true_iff in T. destruct T as [T A4].
  apply andb_true_iff in T. destruct T as [T A3]. apply andb_true_iff in T. destruct T as [A1 A2].
  assert (R : forall p n z, total_is class_weights (of_category n) z = true ->
    (forall e, p e = of_category n (eval_class_of e)) -> Z.of_nat (length (filter p es)) = z).
  { intros p n z B H. rewrite (results_count ev choices es p (of_category n) Hev F' (fun _ H => H)
      (fun _ e _ _ => H e)). apply total_count. exact B. }
  split.
  { rewrite five_card_choices_map, map_length. pose proof (total_count _ _ A11) as C. clear -C.
    rewrite filter_all in C by reflexivity. exact C. }
  split.
  { rewrite (results_count ev choices es _ royal_class Hev F' (fun _ H => H)); [apply total_count; exact A10|].
    intros h e Hh E. pose proof (choices_hand5 h Hh) as (A & _ & _).
    pose proof (is_royal_best ev _ e Hev A E) as X. pose proof (class_royal_best ev _ e Hev A E) as Y.
    destruct (eval_is_royal_flush e).
    - rewrite (proj2 Y (proj1 X eq_refl)). reflexivity.
    - destruct (royal_class (eval_class_of e)) eqn:C; [|reflexivity]. exfalso.
      assert (Q : eval_class_of e = StraightFlush Ace)
        by (destruct (eval_class_of e) as [| | | | | | | |r]; try discriminate C; destruct r; try discriminate C; reflexivity).
      apply Y in Q. apply X in Q. discriminate Q. }
  split; [apply (R _ 8); [assumption|]; intros [[]]; reflexivity|].
  split; [apply (R _ 7); [assumption|]; intros [[]]; reflexivity|].
  split; [apply (R _ 6); [assumption|]; intros [[]]; reflexivity|].
  split; [apply (R _ 5); [assumption|]; intros [[]]; reflexivity|].
  split; [apply (R _ 4); [assumption|]; intros [[]]; reflexivity|].
  split; [apply (R _ 3); [assumption|]; intros [[]]; reflexivity|].
  split; [apply (R _ 2); [assumption|]; intros [[]]; reflexivity|].
  split; [apply (R _ 1); [assumption|]; intros [[]]; reflexivity|].
  apply (R _ 0); [assumption|]. intros [[]]; reflexivity.
Qed.
