(** SeatFacts.v: it does not matter which positions of a shuffled deck cards are taken from. *)
From Coq Require Import Lia List Arith Bool Permutation.
From Verif Require Import Base BaseFacts ModelCard ModelEval ModelTable ModelEvaluation.
From Verif Require Import Spec SpecApi CardFacts DeckFacts ShuffleFacts UniformFacts HandFacts LawFacts SizeFacts SpecShowdown ShowdownFacts.
Import ListNotations.
Local Open Scope nat_scope.

(** ** Counting *)
Lemma image {A B} (R : A -> B -> Prop) (X : list A) : (forall a, In a X -> exists b, R a b) ->
  exists Y, Forall2 R X Y.
Proof.
  induction X as [|a X IH]; intros H; [exists []; constructor|].
  destruct (H a (or_introl eq_refl)) as (b & Rb). destruct IH as (Y & F); [intros x I; apply H; right; exact I|].
  exists (b :: Y). constructor; assumption.
Qed.
Lemma image_NoDup {A B} (R : A -> B -> Prop) X Y : Forall2 R X Y -> NoDup X ->
  (forall a a' b, In a X -> In a' X -> R a b -> R a' b -> a = a') -> NoDup Y.
Proof.
  induction 1 as [|a b X Y Rb F IH]; intros N I; [constructor|]. inversion N as [|? ? Na NX]; subst.
  constructor; [|apply IH; [exact NX|intros x x' y Hx Hx'; apply I; right; assumption]].
  intros Hb. assert (exists a', In a' X /\ R a' b) as (a' & Ia & Ra).
  { clear - F Hb. induction F as [|x y X Y Rx F IH]; [destruct Hb|]. destruct Hb as [<-|Hb].
    - exists x. split; [left; reflexivity|exact Rx].
    - destruct (IH Hb) as (a' & I & Q). exists a'. split; [right; exact I|exact Q]. }
  apply Na. rewrite (I a a' b (or_introl eq_refl) (or_intror Ia) Rb Ra). exact Ia.
Qed.
Lemma Forall2_len {A B} (R : A -> B -> Prop) X Y : Forall2 R X Y -> length X = length Y.
Proof. induction 1 as [|x y X Y _ _ IH]; [reflexivity|]. cbn. congruence. Qed.
Lemma Forall2_right {A B} (R : A -> B -> Prop) X Y y : Forall2 R X Y -> In y Y -> exists x, In x X /\ R x y.
Proof.
  induction 1 as [|a b X Y Rab _ IH]; intros []; [subst; exists a; split; [left; reflexivity|exact Rab]|].
  destruct (IH H) as (x & I & Q). exists x. split; [right; exact I|exact Q].
Qed.
(** The elements of [X] with a property that each of them has or has not. *)
Lemma select {A} (P : A -> Prop) (X : list A) : NoDup X -> (forall a, In a X -> P a \/ ~ P a) ->
  exists Y, NoDup Y /\ forall a, In a Y <-> In a X /\ P a.
Proof.
  induction 1 as [|a X Na N IH]; intros D; [exists []; split; [constructor|]; cbn; tauto|].
  destruct IH as (Y & NY & HY); [intros x I; apply D; right; exact I|].
  destruct (D a (or_introl eq_refl)) as [p|p].
  - exists (a :: Y). split; [constructor; [|exact NY]; intros I; apply Na, HY, I|].
    intros x. cbn. rewrite HY. split; [intros [<-|[I Q]]; auto|intros [[<-|I] Q]; auto].
  - exists Y. split; [exact NY|]. intros x. rewrite HY. cbn. split; [tauto|]. intros [[<-|I] Q]; [contradiction|auto].
Qed.
(** Each is injected into the other. *)
Lemma injected {A} (P Q : A -> Prop) (R : A -> A -> Prop) (X : list A) Y Z : NoDup Y -> NoDup Z ->
  (forall a, In a Y <-> In a X /\ P a) -> (forall a, In a Z <-> In a X /\ Q a) ->
  (forall a, In a X -> P a -> exists b, In b X /\ Q b /\ R a b) ->
  (forall a a' b, In a X -> In a' X -> R a b -> R a' b -> a = a') -> length Y <= length Z.
Proof.
  intros NY NZ HY HZ F I. destruct (image (fun a b => In b X /\ Q b /\ R a b) Y) as (W & FW).
  { intros a Ha. apply HY in Ha. apply F; apply Ha. }
  rewrite (Forall2_len _ _ _ FW). apply NoDup_incl_length.
  - apply (image_NoDup _ _ _ FW NY). intros a a' b Ha Ha' (_ & _ & Rb) (_ & _ & Rb').
    apply (I a a' b); [apply HY, Ha|apply HY, Ha'|exact Rb|exact Rb'].
  - intros b Hb. destruct (Forall2_right _ _ _ _ FW Hb) as (a & _ & Xb & Qb & _). apply HZ. split; assumption.
Qed.

(** ** Positions *)
Section Deck.
Context {A : Type}.
Definition take_at (d : list A) (is : list nat) : list A :=
  flat_map (fun i => match nth_error d i with Some c => [c] | None => [] end) is.
Lemma take_app d a b : take_at d (a ++ b) = take_at d a ++ take_at d b.
Proof. apply flat_map_app. Qed.
Lemma take_seq d : forall k n, k + n = length d -> take_at d (seq k n) = skipn k d.
Proof.
  intros k n. revert k. induction n as [|n IH]; intros k E.
  - cbn. rewrite skipn_all2 by lia. reflexivity.
  - cbn [seq take_at flat_map]. fold (take_at d (seq (S k) n)). rewrite IH by lia.
    destruct (nth_error d k) as [c|] eqn:Q; [|apply nth_error_None in Q; lia].
    cbn [app]. clear IH E. revert k Q. induction d as [|x d IHd]; intros [|k] Q; try discriminate Q.
    + injection Q as ->. reflexivity.
    + cbn [skipn]. apply IHd. exact Q.
Qed.
Lemma take_length d is : Forall (fun i => i < length d) is -> length (take_at d is) = length is.
Proof.
  induction 1 as [|i is H _ IH]; [reflexivity|]. cbn [take_at flat_map]. rewrite app_length.
  fold (take_at d is). rewrite IH. destruct (nth_error d i) as [c|] eqn:Q; [reflexivity|]. apply nth_error_None in Q. lia.
Qed.
Lemma take_nth d is k i : Forall (fun i => i < length d) is -> nth_error is k = Some i ->
  nth_error (take_at d is) k = nth_error d i.
Proof.
  intros F. revert k. induction F as [|j is H _ IH]; intros [|k] Q; try discriminate Q.
  - injection Q as ->. cbn [take_at flat_map]. destruct (nth_error d i) as [c|] eqn:E; [reflexivity|]. apply nth_error_None in E. lia.
  - cbn [take_at flat_map]. destruct (nth_error d j) as [c|] eqn:E; [|apply nth_error_None in E; lia]. cbn. apply IH, Q.
Qed.
Lemma take_perm d is js : Permutation is js -> Permutation (take_at d is) (take_at d js).
Proof. intros P. apply Permutation_flat_map, P. Qed.
Lemma take_incl d is : incl (take_at d is) d.
Proof.
  intros c H. apply in_flat_map in H. destruct H as (i & _ & H). destruct (nth_error d i) as [x|] eqn:Q; [|destruct H].
  destruct H as [<-|[]]. apply (nth_error_In _ _ Q).
Qed.
Lemma take_ext d d' is : (forall i, In i is -> nth_error d i = nth_error d' i) -> take_at d is = take_at d' is.
Proof.
  induction is as [|i is IH]; intros H; [reflexivity|]. cbn [take_at flat_map]. rewrite (H i (or_introl eq_refl)).
  f_equal. apply IH. intros j I. apply H. right. exact I.
Qed.
Lemma take_NoDup d is : NoDup d -> NoDup is -> NoDup (take_at d is).
Proof.
  intros Nd. induction 1 as [|i is Ni N IH]; [constructor|]. cbn [take_at flat_map]. fold (take_at d is).
  destruct (nth_error d i) as [c|] eqn:Q; [|exact IH]. cbn [app]. constructor; [|exact IH]. intros H.
  apply in_flat_map in H. destruct H as (j & Ij & H). destruct (nth_error d j) as [x|] eqn:E; [|destruct H].
  destruct H as [->|[]]. apply Ni. replace i with j; [exact Ij|].
  symmetry. apply (proj1 (NoDup_nth_error d) Nd); [|congruence]. apply nth_error_Some. congruence.
Qed.

(** All positions, beginning with the given ones. *)
Lemma complete n is : NoDup is -> Forall (fun i => i < n) is -> exists rest, Permutation (is ++ rest) (seq 0 n).
Proof.
  intros N F. exists (filter (fun i => negb (existsb (Nat.eqb i) is)) (seq 0 n)). apply NoDup_Permutation.
  - apply NoDup_app_disj; [exact N| |].
    + apply NoDup_filter, seq_NoDup.
    + intros x H H'. apply filter_In in H'. destruct H' as (_ & H'). apply negb_true_iff in H'.
      assert (existsb (Nat.eqb x) is = true) by (apply existsb_exists; exists x; split; [exact H|apply Nat.eqb_refl]). congruence.
  - apply seq_NoDup.
  - intros x. rewrite in_app_iff, filter_In, in_seq. rewrite Forall_forall in F. split.
    + intros [H|H]; [specialize (F x H); lia|tauto].
    + intros H. destruct (existsb (Nat.eqb x) is) eqn:E; [left|right; split; [exact H|reflexivity]].
      apply existsb_exists in E. destruct E as (y & I & E). apply Nat.eqb_eq in E. subst y. exact I.
Qed.

(** The place of a position in a list of positions. *)
Fixpoint place (x : nat) (l : list nat) : nat :=
  match l with [] => 0 | y :: l' => if Nat.eqb x y then 0 else S (place x l') end.
Lemma place_nth l : NoDup l -> forall k x, nth_error l k = Some x -> place x l = k.
Proof.
  induction 1 as [|y l Ny N IH]; intros [|k] x Q; try discriminate Q; cbn [place].
  - injection Q as ->. rewrite Nat.eqb_refl. reflexivity.
  - cbn in Q. destruct (Nat.eqb_spec x y) as [->|D]; [exfalso; apply Ny, (nth_error_In _ _ Q)|]. f_equal. apply IH, Q.
Qed.
Lemma place_in x l : In x l -> nth_error l (place x l) = Some x.
Proof.
  induction l as [|y l IH]; intros H; [destruct H|]. cbn [place]. destruct (Nat.eqb_spec x y) as [->|D]; [reflexivity|].
  destruct H as [->|H]; [congruence|]. cbn. apply IH, H.
Qed.
Lemma same_at (d e : list A) : (forall i, nth_error d i = nth_error e i) -> d = e.
Proof.
  revert e. induction d as [|x d IH]; intros [|y e] H; [reflexivity|discriminate (H 0)|discriminate (H 0)|].
  pose proof (H 0) as H0. injection H0 as ->. f_equal. apply IH. intros i. exact (H (S i)).
Qed.
Lemma below_all n b : Permutation b (seq 0 n) -> Forall (fun i => i < n) b.
Proof. intros P. apply Forall_forall. intros x H. apply (Permutation_in _ P), in_seq in H. lia. Qed.
Lemma take_perm_all n b d : Permutation b (seq 0 n) -> length d = n -> Permutation (take_at d b) d.
Proof.
  intros P L. rewrite (take_perm d _ _ P), take_seq by (rewrite L; reflexivity). reflexivity.
Qed.
Lemma take_inj n b d e : Permutation b (seq 0 n) -> length d = n -> length e = n -> take_at d b = take_at e b -> d = e.
Proof.
  intros P Ld Le E. pose proof (below_all n b P) as F. apply same_at. intros i. destruct (Nat.lt_ge_cases i n) as [K|K].
  - assert (I : In i b) by (apply (Permutation_in _ (Permutation_sym P)), in_seq; lia). apply place_in in I.
    assert (Fd : Forall (fun i => i < length d) b) by (rewrite Ld; exact F).
    assert (Fe : Forall (fun i => i < length e) b) by (rewrite Le; exact F).
    rewrite <- (take_nth d b _ i Fd I), <- (take_nth e b _ i Fe I), E. reflexivity.
  - rewrite !(proj2 (nth_error_None _ _)) by lia. reflexivity.
Qed.
Lemma take_onto n b t : Permutation b (seq 0 n) -> length t = n -> exists d, length d = n /\ take_at d b = t.
Proof.
  intros P L. pose proof (Permutation_length P) as Lb. rewrite seq_length in Lb.
  assert (N : NoDup b) by (apply (Permutation_NoDup (Permutation_sym P)), seq_NoDup).
  assert (F : Forall (fun i => i < length t) (map (fun x => place x b) (seq 0 n))).
  { apply Forall_forall. intros j H. apply in_map_iff in H. destruct H as (x & <- & H).
    apply (Permutation_in _ (Permutation_sym P)) in H. apply place_in in H. rewrite L, <- Lb. apply nth_error_Some. congruence. }
  set (d := take_at t (map (fun x => place x b) (seq 0 n))).
  assert (Ld : length d = n) by (unfold d; rewrite (take_length _ _ F), map_length, seq_length; reflexivity).
  exists d. split; [exact Ld|].
  assert (Fb : Forall (fun i => i < length d) b) by (rewrite Ld; apply below_all, P).
  apply same_at. intros k. destruct (nth_error b k) as [x|] eqn:Q.
  - rewrite (take_nth d b k x Fb Q). unfold d.
    assert (X : x < n) by (rewrite Forall_forall in Fb; rewrite <- Ld; apply Fb, (nth_error_In _ _ Q)).
    rewrite (take_nth t _ x (place x b) F); [rewrite (place_nth b N k x Q); reflexivity|].
    rewrite nth_error_map. rewrite (nth_error_nth' (seq 0 n) 0) by (rewrite seq_length; exact X).
    rewrite seq_nth by exact X. reflexivity.
  - apply nth_error_None in Q. rewrite !(proj2 (nth_error_None _ _)); [reflexivity|lia|rewrite (take_length d b Fb); lia].
Qed.

(** Cards taken at some positions are as likely at others: the orders of [D] with a property [P] of
    the cards at [a] are as many as those with [P] of the cards at [b]. *)
Lemma as_many_one (D : list A) (P : list A -> Prop) a b Ya Yb : NoDup D -> NoDup a -> NoDup b -> length a = length b ->
  Forall (fun i => i < length D) a -> Forall (fun i => i < length D) b -> NoDup Ya -> NoDup Yb ->
  (forall d, In d Ya <-> In d (perms D) /\ P (take_at d a)) -> (forall d, In d Yb <-> In d (perms D) /\ P (take_at d b)) ->
  length Ya <= length Yb.
Proof.
  intros ND Na Nb L Fa Fb NYa NYb Ha Hb. set (n := length D) in *.
  destruct (complete n a Na Fa) as (a' & Pa). destruct (complete n b Nb Fb) as (b' & Pb).
  assert (LD : forall d, In d (perms D) -> length d = n).
  { intros d H. apply in_perms in H. symmetry. apply (Permutation_length H). }
  apply (injected (fun d => P (take_at d a)) (fun d => P (take_at d b))
           (fun d e => length e = n /\ take_at e (b ++ b') = take_at d (a ++ a')) (perms D) Ya Yb NYa NYb Ha Hb).
  - intros d I Q. pose proof (LD d I) as Ld.
    destruct (take_onto n (b ++ b') (take_at d (a ++ a')) Pb) as (e & Le & E).
    { rewrite take_length; [|rewrite Ld; apply below_all, Pa]. rewrite (Permutation_length Pa). apply seq_length. }
    exists e. assert (S : take_at e b = take_at d a).
    { rewrite !take_app in E. apply app_eq_app in E. revert E. rewrite <- Ld in Fa. rewrite <- Le in Fb.
      pose proof (take_length d a Fa) as X. pose proof (take_length e b Fb) as Y.
      intros (m & [[E _]|[E _]]); apply (f_equal (@length A)) in E as El; rewrite app_length in El;
        assert (length m = 0) as M by lia; destruct m; try discriminate M; rewrite app_nil_r in E; congruence. }
    split; [|split; [rewrite S; exact Q|split; [exact Le|exact E]]].
    apply in_perms. apply in_perms in I. rewrite I. rewrite <- (take_perm_all n _ d Pa Ld), <- (take_perm_all n _ e Pb Le), E. reflexivity.
  - intros d d' e I I' (_ & E) (_ & E'). apply (take_inj n (a ++ a') d d' Pa (LD d I) (LD d' I')). congruence.
Qed.
End Deck.

(** ** A shuffled deck *)
Lemma orders : exists X, NoDup X /\ forall d, In d X <-> Permutation deck_generate d.
Proof. exists (perms deck_generate). split; [apply perms_NoDup, deck_NoDup|]. intros d. apply in_perms. Qed.
Lemma scripts_with (Q : list card -> Prop) Y : NoDup Y -> (forall d, In d Y <-> Permutation deck_generate d /\ Q d) ->
  exists L, NoDup L /\ length L = length Y
    /\ forall js, In js L <-> answers 52 js /\ exists d, shuffled_with script js = Ret (d, []) /\ Q d.
Proof.
  intros N H. destruct (scripts_for Y N) as (L & NL & LL & HL); [intros d I; apply H, I|]. exists L.
  split; [exact NL|]. split; [exact LL|]. intros js. rewrite HL. split.
  - intros (V & d & I & E). split; [exact V|]. exists d. split; [exact E|]. apply H, I.
  - intros (V & d & E & q). split; [exact V|]. exists d. split; [|exact E]. apply H. split; [|exact q].
    destruct (shuffle_scripted js V) as (d' & E' & P). rewrite E in E'. injection E' as ->. exact P.
Qed.
Lemma picks_take d is : picks d is = take_at d is.
Proof. reflexivity. Qed.
Theorem positions_alike a b (P : list card -> Prop) : NoDup a -> NoDup b -> length a = length b ->
  Forall (fun i => i < 52) a -> Forall (fun i => i < 52) b ->
  (forall p, NoDup p -> all_cards p -> length p = length a -> P p \/ ~ P p) ->
  exists La Lb, NoDup La /\ NoDup Lb /\ length La = length Lb
  /\ (forall js, In js La <-> answers 52 js /\ exists d, shuffled_with script js = Ret (d, []) /\ P (picks d a))
  /\ (forall js, In js Lb <-> answers 52 js /\ exists d, shuffled_with script js = Ret (d, []) /\ P (picks d b)).
Proof.
  intros Na Nb L Fa Fb Dec. pose proof deck_NoDup as ND. pose proof deck_length as LD.
  assert (G : forall is, NoDup is -> Forall (fun i => i < 52) is -> length is = length a ->
    exists Y, NoDup Y /\ forall d, In d Y <-> In d (perms deck_generate) /\ P (picks d is)).
  { intros is Ni Fi Li. apply select; [apply perms_NoDup, ND|]. intros d I. apply in_perms in I. apply Dec.
    - apply take_NoDup; [apply (Permutation_NoDup I ND)|exact Ni].
    - apply Forall_forall. intros c Hc. apply take_incl in Hc. apply (Permutation_in _ (Permutation_sym I)) in Hc.
      apply in_deck, Hc.
    - rewrite picks_take, take_length; [exact Li|]. rewrite <- (Permutation_length I), LD. exact Fi. }
  destruct (G a Na Fa eq_refl) as (Ya & NYa & HYa). destruct (G b Nb Fb (eq_sym L)) as (Yb & NYb & HYb).
  rewrite <- LD in Fa, Fb.
  pose proof (as_many_one deck_generate P a b Ya Yb ND Na Nb L Fa Fb NYa NYb HYa HYb) as X.
  pose proof (as_many_one deck_generate P b a Yb Ya ND Nb Na (eq_sym L) Fb Fa NYb NYa HYb HYa) as Y.
  destruct (scripts_with (fun d => P (picks d a)) Ya NYa) as (La & NLa & LLa & HLa).
  { intros d. rewrite HYa, in_perms. reflexivity. }
  destruct (scripts_with (fun d => P (picks d b)) Yb NYb) as (Lb & NLb & LLb & HLb).
  { intros d. rewrite HYb, in_perms. reflexivity. }
  exists La, Lb. split; [exact NLa|]. split; [exact NLb|]. split; [lia|]. split; assumption.
Qed.

(** ** Showdowns *)
Fixpoint chunks {A} (lens : list nat) (l : list A) : list (list A) :=
  match lens with [] => [] | n :: lens' => firstn n l :: chunks lens' (skipn n l) end.
Lemma chunks_length {A} lens : forall l : list A, length (chunks lens l) = length lens.
Proof. induction lens as [|n lens IH]; intros l; [reflexivity|]. cbn. rewrite IH. reflexivity. Qed.
Lemma chunks_concat {A} lens : forall l : list A, length l = list_sum lens -> concat (chunks lens l) = l.
Proof.
  induction lens as [|n lens IH]; intros l L; [destruct l; [reflexivity|discriminate L]|]. cbn [chunks concat].
  rewrite IH; [apply firstn_skipn|]. rewrite skipn_length, L. change (list_sum (n :: lens)) with (n + list_sum lens). lia.
Qed.
Lemma chunks_lens {A} lens : forall l : list A, length l = list_sum lens -> map (@length A) (chunks lens l) = lens.
Proof.
  induction lens as [|n lens IH]; intros l L; [reflexivity|]. change (list_sum (n :: lens)) with (n + list_sum lens) in L.
  cbn [chunks map]. rewrite firstn_length, IH by (rewrite skipn_length; lia). f_equal. lia.
Qed.
Lemma concat_length {A} (l : list (list A)) : length (concat l) = list_sum (map (@length A) l).
Proof.
  induction l as [|x l IH]; [reflexivity|]. cbn [concat map]. rewrite app_length, IH. reflexivity.
Qed.
Lemma chunks_picks d own : Forall (fun i => i < length d) (concat own) ->
  chunks (map (@length nat) own) (picks d (concat own)) = map (picks d) own.
Proof.
  induction own as [|o own IH]; intros F; [reflexivity|]. cbn [concat map chunks] in *. apply Forall_app in F. destruct F as (Fo & F).
  rewrite !picks_take, take_app. pose proof (take_length d o Fo) as L.
  rewrite <- L, firstn_app, Nat.sub_diag, firstn_all, firstn_O, app_nil_r.
  rewrite skipn_app, skipn_all, Nat.sub_diag, skipn_O. cbn [app]. f_equal. apply (IH F).
Qed.

Lemma wins_dec ev board own i : new_evaluator ev -> all_cards (board ++ concat own) -> NoDup (board ++ concat own) ->
  Forall (fun h => 5 <= length board + length h) own ->
  wins (seats (faces board) (map faces own)) i \/ ~ wins (seats (faces board) (map faces own)) i.
Proof.
  intros Hev A N L. destruct (showdown ev board own Hev A N L) as (es & F & W).
  destruct (nth_error es i) as [e|] eqn:Q.
  - specialize (W i e Q). destruct (forallb (fun e' => negb (eval_is_worse_than e e')) es) eqn:B.
    + left. apply W. intros e' I. rewrite forallb_forall in B. apply negb_true_iff, B, I.
    + right. intros X. assert (forallb (fun e' => negb (eval_is_worse_than e e')) es = true); [|congruence].
      apply forallb_forall. intros e' I. apply negb_true_iff. apply (proj2 W X e' I).
  - right. intros (s & G & Hs & _). apply nth_error_None in Q. rewrite <- (Forall2_len _ _ _ F) in Q.
    assert (K : nth_error (seats (faces board) (map faces own)) i <> None) by congruence.
    apply nth_error_Some in K. unfold seats in K. rewrite !map_length in K. lia.
Qed.

Theorem dealings_alike board own board' own' i : dealing board own -> dealing board' own' ->
  length board = length board' -> map (@length nat) own = map (@length nat) own' ->
  exists L L', NoDup L /\ NoDup L' /\ length L = length L'
  /\ (forall js, In js L <-> answers 52 js /\ exists d, shuffled_with script js = Ret (d, []) /\ dealt_wins board own i d)
  /\ (forall js, In js L' <-> answers 52 js /\ exists d, shuffled_with script js = Ret (d, []) /\ dealt_wins board' own' i d).
Proof.
  intros (N & F & S) (N' & F' & S') LB LO. destruct HandFacts.evaluator_new_ret as [ev Hev].
  set (b := length board) in *. set (lens := map (@length nat) own) in *.
  set (P := fun p : list card => wins (seats (faces (firstn b p)) (map faces (chunks lens (skipn b p)))) i).
  assert (Q : forall bd ow d, length d = 52 -> Forall (fun i => i < 52) (bd ++ concat ow) -> b = length bd ->
    lens = map (@length nat) ow -> (P (picks d (bd ++ concat ow)) <-> dealt_wins bd ow i d)).
  { intros bd ow d Ld Fd Lb Ll. unfold P, dealt_wins. rewrite <- Ld in Fd. apply Forall_app in Fd. destruct Fd as (Fb & Fo).
    rewrite (picks_take d (bd ++ concat ow)), take_app. pose proof (take_length d bd Fb) as X.
    rewrite Lb, <- X, firstn_app, Nat.sub_diag, firstn_all, firstn_O, app_nil_r.
    rewrite skipn_app, skipn_all, Nat.sub_diag, skipn_O. cbn [app]. rewrite Ll.
    change (take_at d (concat ow)) with (picks d (concat ow)). rewrite (chunks_picks d ow Fo), map_map. reflexivity. }
  assert (LL : length (board ++ concat own) = length (board' ++ concat own')).
  { rewrite !app_length, !concat_length. fold lens. rewrite <- LO. unfold lens. fold b. rewrite LB. reflexivity. }
  destruct (positions_alike (board ++ concat own) (board' ++ concat own') P N N' LL F F') as (La & Lb & NLa & NLb & E & Ha & Hb).
  { intros p Np Ap Lp. unfold P. rewrite app_length, concat_length in Lp. fold b in Lp. fold lens in Lp.
    assert (Lf : length (firstn b p) = b) by (rewrite firstn_length; lia).
    assert (Ls : length (skipn b p) = list_sum lens) by (rewrite skipn_length; lia).
    apply (wins_dec ev); [exact Hev| | |].
    - rewrite (chunks_concat lens _ Ls), firstn_skipn. exact Ap.
    - rewrite (chunks_concat lens _ Ls), firstn_skipn. exact Np.
    - rewrite Lf. apply Forall_forall. intros h Ih. apply (in_map (@length card)) in Ih. rewrite (chunks_lens lens _ Ls) in Ih.
      unfold lens in Ih. apply in_map_iff in Ih. destruct Ih as (o & <- & Io). rewrite Forall_forall in S. apply S, Io. }
  assert (LD : forall js d, answers 52 js -> shuffled_with script js = Ret (d, []) -> length d = 52).
  { intros js d V Sh. destruct (shuffle_scripted js V) as (d' & E' & Pd). rewrite Sh in E'. injection E' as ->.
    rewrite <- (Permutation_length Pd). apply deck_length. }
  exists La, Lb. split; [exact NLa|]. split; [exact NLb|]. split; [exact E|]. split.
  - intros js. rewrite Ha. split; intros (V & d & Sh & W); (split; [exact V|]); exists d; (split; [exact Sh|]);
      apply (Q board own d (LD js d V Sh) F eq_refl eq_refl), W.
  - intros js. rewrite Hb. split; intros (V & d & Sh & W); (split; [exact V|]); exists d; (split; [exact Sh|]);
      apply (Q board' own' d (LD js d V Sh) F' LB LO), W.
Qed.

Lemma wins_same all all' i j : nth_error all i = nth_error all' j -> (forall s, In s all <-> In s all') ->
  (wins all i <-> wins all' j).
Proof.
  intros E I. unfold wins. rewrite E. split; intros (s & F & Hs & F5 & IF & B); exists s, F;
    (split; [exact Hs|]); (split; [exact F5|]); (split; [exact IF|]); intros o G Io; apply B, I, Io.
Qed.
Lemma exchanged {A} (l : list A) i j x y : i < j -> nth_error l i = Some x -> nth_error l j = Some y ->
  exists l', Permutation l l' /\ nth_error l' i = Some y /\ nth_error l' j = Some x /\
    forall k, k <> i -> k <> j -> nth_error l' k = nth_error l k.
Proof.
  intros K Hi Hj. destruct (nth_error_split l i Hi) as (l1 & r & -> & L1). subst i.
  rewrite nth_error_app2 in Hj by lia. destruct (j - length l1) as [|m] eqn:M; [lia|]. cbn in Hj.
  destruct (nth_error_split r m Hj) as (l2 & l3 & -> & L2). subst m.
  exists (l1 ++ y :: l2 ++ x :: l3). split; [|split; [|split]].
  - apply Permutation_app_head. rewrite <- !Permutation_middle. apply perm_swap.
  - rewrite nth_error_app2, Nat.sub_diag by lia. reflexivity.
  - rewrite nth_error_app2, M by lia. cbn. rewrite nth_error_app2, Nat.sub_diag by lia. reflexivity.
  - intros k D1 D2. destruct (Nat.lt_ge_cases k (length l1)) as [Q|Q]; [rewrite !nth_error_app1 by exact Q; reflexivity|].
    rewrite !nth_error_app2 by exact Q. destruct (k - length l1) as [|q] eqn:Z; [lia|]. cbn.
    destruct (Nat.lt_ge_cases q (length l2)) as [T|T]; [rewrite !nth_error_app1 by exact T; reflexivity|].
    rewrite !nth_error_app2 by exact T. destruct (q - length l2) as [|t] eqn:Y; [lia|]. reflexivity.
Qed.
Lemma concat_perm {A} (l l' : list (list A)) : Permutation l l' -> Permutation (concat l) (concat l').
Proof.
  induction 1 as [|x l l' P IH|x y l|l l' l'' P IH P' IH']; [reflexivity|apply Permutation_app_head, IH| |rewrite IH; exact IH'].
  cbn. rewrite !app_assoc. apply Permutation_app_tail, Permutation_app_comm.
Qed.

Definition counted (Q : list card -> Prop) (L : list (list nat)) : Prop :=
  NoDup L /\ forall js, In js L <-> answers 52 js /\ exists d, shuffled_with script js = Ret (d, []) /\ Q d.
Lemma seats_alike_lt board own i j x y : dealing board own -> i < j -> nth_error own i = Some x -> nth_error own j = Some y ->
  length x = length y -> exists Li Lj, length Li = length Lj /\ counted (dealt_wins board own i) Li /\ counted (dealt_wins board own j) Lj.
Proof.
  intros (N & F & S) K Hi Hj L. destruct (exchanged own i j x y K Hi Hj) as (own' & P & Hi' & Hj' & R).
  assert (PC : Permutation (board ++ concat own) (board ++ concat own')) by (apply Permutation_app_head, concat_perm, P).
  assert (LO : map (@length nat) own = map (@length nat) own').
  { apply same_at. intros k. rewrite !nth_error_map. destruct (Nat.eq_dec k i) as [->|Di]; [rewrite Hi, Hi'; cbn; congruence|].
    destruct (Nat.eq_dec k j) as [->|Dj]; [rewrite Hj, Hj'; cbn; congruence|]. rewrite (R k Di Dj). reflexivity. }
  destruct (dealings_alike board own board own' i) as (La & Lb & NLa & NLb & E & Ha & Hb).
  - split; [exact N|]. split; assumption.
  - split; [apply (Permutation_NoDup PC N)|]. split; [apply (Permutation_Forall PC F)|apply (Permutation_Forall P S)].
  - reflexivity.
  - exact LO.
  - exists La, Lb. split; [exact E|]. split; [split; [exact NLa|exact Ha]|]. split; [exact NLb|].
    assert (W : forall d, dealt_wins board own' i d <-> dealt_wins board own j d).
    { intros d. apply wins_same.
      - unfold seats. rewrite !nth_error_map, Hi', Hj. reflexivity.
      - intros s. unfold seats. rewrite !map_map, !in_map_iff. split; intros (o & Q & I); exists o; (split; [exact Q|]);
          [apply (Permutation_in _ (Permutation_sym P) I)|apply (Permutation_in _ P I)]. }
    intros js. rewrite Hb. split; intros (V & d & Sh & Q); (split; [exact V|]); exists d; (split; [exact Sh|apply W, Q]).
Qed.
Theorem seats_alike board own i j x y : dealing board own -> nth_error own i = Some x -> nth_error own j = Some y ->
  length x = length y -> exists Li Lj, NoDup Li /\ NoDup Lj /\ length Li = length Lj
  /\ (forall js, In js Li <-> answers 52 js /\ exists d, shuffled_with script js = Ret (d, []) /\ dealt_wins board own i d)
  /\ (forall js, In js Lj <-> answers 52 js /\ exists d, shuffled_with script js = Ret (d, []) /\ dealt_wins board own j d).
Proof.
  intros D Hi Hj L. destruct (Nat.lt_trichotomy i j) as [K|[<-|K]].
  - destruct (seats_alike_lt board own i j x y D K Hi Hj L) as (Li & Lj & E & (Ni & Ci) & (Nj & Cj)).
    exists Li, Lj. auto.
  - destruct (dealings_alike board own board own i D D eq_refl eq_refl) as (Li & Lj & R). exists Li, Lj. exact R.
  - destruct (seats_alike_lt board own j i y x D K Hj Hi (eq_sym L)) as (Lj & Li & E & (Nj & Cj) & (Ni & Ci)).
    exists Li, Lj. auto.
Qed.
Theorem positions_alike_bool a b (P : list card -> bool) : NoDup a -> NoDup b -> length a = length b ->
  Forall (fun i => i < 52) a -> Forall (fun i => i < 52) b ->
  exists La Lb, NoDup La /\ NoDup Lb /\ length La = length Lb
  /\ (forall js, In js La <-> answers 52 js /\ exists d, shuffled_with script js = Ret (d, []) /\ P (picks d a) = true)
  /\ (forall js, In js Lb <-> answers 52 js /\ exists d, shuffled_with script js = Ret (d, []) /\ P (picks d b) = true).
Proof.
  intros Na Nb L Fa Fb. apply (positions_alike a b (fun p => P p = true) Na Nb L Fa Fb).
  intros p _ _ _. destruct (P p); [left; reflexivity|right; discriminate].
Qed.
