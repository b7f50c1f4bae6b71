(** DeckIterFacts.v: the iterator of [deck::generate] yields the deck. *)
From Coq Require Import Lia List Arith.
From Verif Require Import Base ModelCard ModelDeck Spec SpecApi DeckFacts SpecDeck.
Import ListNotations.

(** What is left, and the states that occur *)
Definition left_in {A B} (p : product A B) : list (A * B) :=
  match p_cur p with
  | None => list_prod (p_a p) (p_b_orig p)
  | Some None => []
  | Some (Some x) => map (pair x) (p_b p) ++ list_prod (p_a p) (p_b_orig p)
  end.
Definition sound {A B} (p : product A B) : Prop :=
  match p_cur p with None => p_b p = p_b_orig p | Some None => p_a p = [] | Some (Some _) => True end.
Lemma list_prod_nil {A B} (a : list A) : list_prod a (@nil B) = [].
Proof. induction a as [|x a IH]; [reflexivity|]. exact IH. Qed.
Lemma product_next_spec {A B} (p : product A B) : sound p -> exists p', sound p'
  /\ product_next p = Ret (hd_error (left_in p), p') /\ left_in p' = tl (left_in p).
Proof.
  destruct p as [a cur b orig]. unfold sound, left_in, product_next. cbn [p_a p_cur p_b p_b_orig].
  intros H. destruct b as [|y b]; cbn [slice_next].
  - destruct orig as [|z orig]; cbn [slice_next].
    + eexists. split; [|split; [|]]; cbn [p_a p_cur p_b p_b_orig].
      2:{ destruct cur as [[x|]|]; rewrite ?list_prod_nil; reflexivity. }
      * destruct cur as [[x|]|]; auto.
      * cbn [p_a p_cur p_b p_b_orig]. destruct cur as [[x|]|]; rewrite ?list_prod_nil; reflexivity.
    + destruct cur as [[x|]|].
      * destruct a as [|x' a]; cbn [slice_next p_cur]; (eexists; split; [|split; [reflexivity|]]; cbn; auto).
      * subst a. cbn [slice_next p_cur]. eexists. split; [|split; [reflexivity|]]; cbn; auto.
      * discriminate H.
  - destruct cur as [[x|]|]; cbn [p_cur].
    + eexists. split; [|split; [reflexivity|]]; cbn; auto.
    + eexists. split; [|split; [reflexivity|]]; cbn; auto.
    + subst orig. destruct a as [|x' a]; cbn [slice_next p_cur]; (eexists; split; [|split; [reflexivity|]]; cbn; auto).
Qed.
Lemma product_size_spec {A B} (p : product A B) : sound p ->
  product_size_hint p = (length (left_in p), Some (length (left_in p))).
Proof.
  destruct p as [a cur b orig]. unfold sound, left_in, product_size_hint. cbn [p_a p_cur p_b p_b_orig]. intros H.
  destruct cur as [[x|]|].
  - rewrite app_length, map_length, prod_length. rewrite Nat.add_comm. reflexivity.
  - subst a. reflexivity.
  - rewrite prod_length, Nat.add_0_r. reflexivity.
Qed.
Lemma fold_rows {A B S} (f : S -> A * B -> S) (b : list B) : forall a init,
  fold_left (fun acc x => fold_left (fun acc elt => f acc (x, elt)) b acc) a init = fold_left f (list_prod a b) init.
Proof.
  assert (R : forall x acc, fold_left (fun acc elt => f acc (x, elt)) b acc = fold_left f (map (fun y => (x, y)) b) acc).
  { intros x. induction b as [|y b' IH]; intros acc; [reflexivity|]. cbn. apply IH. }
  induction a as [|x a IH]; intros init; [reflexivity|]. cbn [fold_left list_prod]. rewrite fold_left_app, R. apply IH.
Qed.
Lemma product_fold_spec {A B S} (p : product A B) (init : S) f : sound p ->
  product_fold p init f = fold_left f (left_in p) init.
Proof.
  destruct p as [a cur b orig]. unfold sound, left_in, product_fold. cbn [p_a p_cur p_b p_b_orig]. intros H.
  assert (R : forall x acc (b : list B), fold_left (fun acc elt => f acc (x, elt)) b acc = fold_left f (map (pair x) b) acc).
  { intros x acc b0. revert acc. induction b0 as [|y b' IH]; intros acc; [reflexivity|]. cbn. apply IH. }
  destruct cur as [[x|]|].
  - rewrite fold_rows, fold_left_app, R. reflexivity.
  - reflexivity.
  - subst b. destruct a as [|x a]; [reflexivity|]. cbn [slice_next list_prod]. rewrite fold_rows, fold_left_app, R. reflexivity.
Qed.

(** ** The deck *)
Definition cards_left (it : deck_iter) : list card := map (fun p => card_new (fst p) (snd p)) (left_in it).
Lemma cards_left_generate : sound generate /\ cards_left generate = deck_generate.
Proof. split; reflexivity. Qed.
Lemma deck_next_spec it : sound it -> exists it', sound it'
  /\ deck_next it = Ret (hd_error (cards_left it), it') /\ cards_left it' = tl (cards_left it).
Proof.
  intros H. destruct (product_next_spec it H) as (it' & H' & E & L). exists it'. split; [exact H'|].
  unfold deck_next. rewrite E. cbn [bind]. unfold cards_left. rewrite L. destruct (left_in it) as [|[r s] l]; split; reflexivity.
Qed.
Lemma deck_size_spec it : sound it -> deck_size_hint it = (length (cards_left it), Some (length (cards_left it))).
Proof. intros H. unfold deck_size_hint, cards_left. rewrite map_length. apply product_size_spec, H. Qed.
Lemma deck_fold_spec {S} it (init : S) f : sound it -> deck_fold it init f = fold_left f (cards_left it) init.
Proof.
  intros H. unfold deck_fold, cards_left. rewrite product_fold_spec by exact H. generalize (left_in it). intros l. revert init.
  induction l as [|p l IH]; intros init; [reflexivity|]. cbn. apply IH.
Qed.
Lemma deck_count_spec it : sound it -> deck_count it = length (cards_left it).
Proof.
  intros H. unfold deck_count. rewrite deck_fold_spec by exact H.
  enough (X : forall l n, fold_left (fun n (_ : card) => S n) l n = n + length l) by (rewrite X; reflexivity).
  induction l as [|c l IH]; intros n; cbn; [lia|]. rewrite IH. lia.
Qed.
Lemma hd_error_skipn {A} n (l : list A) : hd_error (skipn n l) = nth_error l n.
Proof. revert l. induction n as [|n IH]; intros [|x l]; try reflexivity. apply IH. Qed.
Lemma tl_skipn {A} n (l : list A) : tl (skipn n l) = skipn (S n) l.
Proof. revert l. induction n as [|n IH]; intros [|x l]; try reflexivity. exact (IH l). Qed.
Lemma deck_nth_spec n : forall it, sound it -> exists it', sound it'
  /\ deck_nth n it = Ret (nth_error (cards_left it) n, it') /\ cards_left it' = skipn (S n) (cards_left it).
Proof.
  induction n as [|n IH]; intros it H; destruct (deck_next_spec it H) as (it1 & H1 & E1 & L1).
  - exists it1. split; [exact H1|]. cbn [deck_nth]. rewrite E1, L1. destruct (cards_left it); split; reflexivity.
  - cbn [deck_nth]. rewrite E1. cbn [bind]. destruct (cards_left it) as [|c l] eqn:El; cbn [hd_error tl nth_error skipn] in *.
    + exists it1. split; [exact H1|]. split; [reflexivity|exact L1].
    + destruct (IH it1 H1) as (it2 & H2 & E2 & L2). exists it2. split; [exact H2|]. rewrite E2, L2, L1. split; reflexivity.
Qed.
Lemma deck_take_spec n : forall it, sound it -> exists it', sound it'
  /\ deck_take n it = Ret (firstn n (cards_left it), it') /\ cards_left it' = skipn n (cards_left it).
Proof.
  induction n as [|n IH]; intros it H.
  - exists it. split; [exact H|]. split; reflexivity.
  - destruct (deck_next_spec it H) as (it1 & H1 & E1 & L1). cbn [deck_take]. rewrite E1. cbn [bind].
    destruct (cards_left it) as [|c l] eqn:El; cbn [hd_error tl] in *.
    + exists it1. split; [exact H1|]. split; [reflexivity|exact L1].
    + destruct (IH it1 H1) as (it2 & H2 & E2 & L2). exists it2. split; [exact H2|]. rewrite E2, L2, L1. split; reflexivity.
Qed.
Lemma deck_collect_spec it : sound it -> deck_collect it = Ret (cards_left it).
Proof.
  intros H. unfold deck_collect. rewrite (deck_size_spec it H). cbn [fst].
  destruct (deck_take_spec (S (length (cards_left it))) it H) as (it' & _ & E & _). rewrite E. cbn [bind fst].
  rewrite firstn_all2 by lia. reflexivity.
Qed.

(** ** Any questions *)
Lemma ask_spec q it : sound it -> exists it', sound it'
  /\ ask q it = Ret (reply q (cards_left it), it') /\ cards_left it' = skipn (used q) (cards_left it).
Proof.
  intros H. destruct q as [|n|n|]; cbn [ask reply used].
  - destruct (deck_next_spec it H) as (it' & H' & E & L). exists it'. rewrite E, L. split; [exact H'|].
    destruct (cards_left it); split; reflexivity.
  - destruct (deck_nth_spec n it H) as (it' & H' & E & L). exists it'. rewrite E, L. repeat split; exact H'.
  - destruct (deck_take_spec n it H) as (it' & H' & E & L). exists it'. rewrite E, L. repeat split; exact H'.
  - exists it. rewrite (deck_size_spec it H). repeat split; exact H.
Qed.
Lemma skipn_twice {A} a b (l : list A) : skipn a (skipn b l) = skipn (b + a) l.
Proof. revert l. induction b as [|b IH]; intros l; [reflexivity|]. destruct l; [destruct a; reflexivity|]. apply IH. Qed.
Lemma interview_spec qs : forall it, sound it -> exists it', sound it'
  /\ interview qs it = Ret (replies qs (cards_left it), it') /\ cards_left it' = skipn (taken qs) (cards_left it).
Proof.
  induction qs as [|q qs IH]; intros it H.
  - exists it. repeat split; exact H.
  - destruct (ask_spec q it H) as (it1 & H1 & E1 & L1). destruct (IH it1 H1) as (it2 & H2 & E2 & L2).
    exists it2. split; [exact H2|]. cbn [interview replies taken fold_right]. rewrite E1. cbn [bind snd fst].
    rewrite E2. cbn [bind snd fst]. rewrite L2, L1, skipn_twice. split; reflexivity.
Qed.
Theorem interviewed : forall qs, exists it, interview qs generate = Ret (replies qs deck_generate, it)
  /\ deck_collect it = Ret (skipn (taken qs) deck_generate)
  /\ deck_count it = 52 - taken qs
  /\ (forall S (init : S) f, deck_fold it init f = fold_left f (skipn (taken qs) deck_generate) init).
Proof.
  intros qs. destruct cards_left_generate as [H L]. destruct (interview_spec qs generate H) as (it & Hi & E & Li).
  exists it. rewrite L in E, Li. split; [exact E|]. rewrite deck_collect_spec, Li by exact Hi. split; [reflexivity|].
  rewrite deck_count_spec, Li, skipn_length by exact Hi. split; [reflexivity|].
  intros S init f. rewrite deck_fold_spec, Li by exact Hi. reflexivity.
Qed.
Lemma replies_next n m : forall l, replies (repeat AskNext n ++ m) l = map (fun k => ACard (nth_error l k)) (seq 0 n) ++ replies m (skipn n l).
Proof.
  induction n as [|n IH]; intros l; [reflexivity|]. cbn [repeat app replies reply used seq map]. rewrite IH.
  f_equal. rewrite <- seq_shift, map_map. rewrite skipn_twice. cbn [plus]. f_equal.
  apply map_ext. intros k. destruct l; [destruct k; reflexivity|reflexivity].
Qed.
(** [next] again and again *)
Theorem nexts : forall n, exists it, interview (repeat AskNext n) generate = Ret (map (fun k => ACard (nth_error deck_generate k)) (seq 0 n), it)
  /\ deck_size_hint it = (52 - n, Some (52 - n)).
Proof.
  intros n. destruct cards_left_generate as [H L]. destruct (interview_spec (repeat AskNext n) generate H) as (it & Hi & E & Li).
  exists it. rewrite L in E, Li. rewrite E. rewrite <- (app_nil_r (repeat AskNext n)), replies_next. cbn [replies]. rewrite app_nil_r.
  split; [reflexivity|]. rewrite deck_size_spec, Li, skipn_length by exact Hi.
  replace (taken (repeat AskNext n)) with n; [reflexivity|]. induction n as [|n IH]; [reflexivity|]. cbn. f_equal. clear - n.
  induction n as [|n IH]; [reflexivity|]. cbn. f_equal. exact IH.
Qed.
(** The whole deck, in every way of asking for it *)
Theorem whole_deck : deck_collect generate = Ret deck_generate /\ deck_count generate = 52
  /\ deck_size_hint generate = (52, Some 52) /\ deck_fold generate [] (fun l c => l ++ [c]) = deck_generate.
Proof. repeat split; reflexivity. Qed.
