(** WalkFacts.v: counting the subsets of a deck with a machine that reads them rank by rank. *)
From Coq Require Import Lia List Arith Bool Permutation ZArith PArith.
From Verif Require Import Base ModelCard ModelEval Spec Sweep SizeFacts.
Import ListNotations.
Local Open Scope Z_scope.

(** ** Subsets *)
Fixpoint subs {T} (l : list T) : list (list T) :=
  match l with
  | [] => [[]]
  | x :: l' => map (cons x) (subs l') ++ subs l'
  end.
Definition number {T} (P : list T -> bool) (l : list T) : Z := Z.of_nat (length (filter P (subs l))).

Lemma filter_map_length {A B} (f : A -> B) P l :
  length (filter P (map f l)) = length (filter (fun a => P (f a)) l).
Proof. induction l as [|a l IH]; [reflexivity|]. cbn [map filter]. destruct (P (f a)); cbn [length]; congruence. Qed.
Lemma number_cons {T} P (x : T) l : number P (x :: l) = number (fun h => P (x :: h)) l + number P l.
Proof.
  unfold number. cbn [subs]. rewrite filter_app, app_length, filter_map_length. apply Nat2Z.inj_add.
Qed.
Lemma number_nil {T} (P : list T -> bool) : number P [] = if P [] then 1 else 0.
Proof. unfold number. simpl. destruct (P []); reflexivity. Qed.
Lemma filter_ext_in' {A} (P Q : A -> bool) l : (forall a, In a l -> P a = Q a) -> filter P l = filter Q l.
Proof.
  induction l as [|a l IH]; intros H; [reflexivity|]. cbn [filter]. rewrite (H a (or_introl eq_refl)).
  rewrite IH; [reflexivity|]. intros b I. apply H. right. exact I.
Qed.
Lemma number_ext {T} (P Q : list T -> bool) l : (forall h, In h (subs l) -> P h = Q h) -> number P l = number Q l.
Proof. intros H. unfold number. rewrite (filter_ext_in' P Q _ H). reflexivity. Qed.
Lemma number_false {T} (l : list T) : number (fun _ => false) l = 0.
Proof.
  unfold number. replace (filter _ _) with (@nil (list T)); [reflexivity|].
  induction (subs l) as [|h L IH]; [reflexivity|exact IH].
Qed.
Lemma number_split {T} (P Q : list T -> bool) l :
  number P l = number (fun h => P h && Q h) l + number (fun h => P h && negb (Q h)) l.
Proof.
  unfold number. rewrite <- Nat2Z.inj_add. f_equal.
  induction (subs l) as [|h L IH]; [reflexivity|]. cbn [filter].
  destruct (P h), (Q h); cbn [andb negb length]; lia.
Qed.
Lemma subs_incl {T} (l : list T) : forall h, In h (subs l) -> incl h l.
Proof.
  induction l as [|x l IH]; intros h H; cbn [subs] in H.
  - destruct H as [<-|[]]. intros y [].
  - apply in_app_iff in H. destruct H as [H|H].
    + apply in_map_iff in H. destruct H as (k & <- & H). intros y [<-|I]; [left; reflexivity|].
      right. apply (IH k H), I.
    + intros y I. right. apply (IH h H), I.
Qed.
Lemma subs_NoDup {T} (l : list T) : NoDup l -> forall h, In h (subs l) -> NoDup h.
Proof.
  induction 1 as [|x l Hx N IH]; intros h H; cbn [subs] in H.
  - destruct H as [<-|[]]. constructor.
  - apply in_app_iff in H. destruct H as [H|H]; [|apply IH, H].
    apply in_map_iff in H. destruct H as (k & <- & H). constructor; [|apply IH, H].
    intros I. apply Hx, (subs_incl l k H), I.
Qed.

(** The order of the deck does not matter to predicates that ignore order. *)
Lemma number_perm {T} (l l' : list T) : Permutation l l' -> forall P,
  (forall h h', Permutation h h' -> P h = P h') -> number P l = number P l'.
Proof.
  induction 1 as [|x l l' E IH|x y l|l1 l2 l3 E1 IH1 E2 IH2]; intros P Inv.
  - reflexivity.
  - rewrite !number_cons. rewrite (IH P Inv). rewrite IH; [reflexivity|].
    intros h h' Q. apply Inv. constructor. exact Q.
  - rewrite !number_cons. enough (number (fun h => P (y :: x :: h)) l = number (fun h => P (x :: y :: h)) l) by lia.
    apply number_ext. intros h _. apply Inv. constructor.
  - rewrite (IH1 P Inv). apply (IH2 P Inv).
Qed.

Lemma combs_subs {T} (P : list T -> bool) (l : list T) : forall n,
  Z.of_nat (length (filter P (combs n l))) = number (fun h => Nat.eqb (length h) n && P h) l.
Proof.
  revert P. induction l as [|x l IH]; intros P [|n].
  - rewrite number_nil. cbn. destruct (P []); reflexivity.
  - rewrite number_nil. reflexivity.
  - rewrite number_cons. rewrite <- IH. cbn [length Nat.eqb andb].
    rewrite number_false. destruct l; reflexivity.
  - rewrite number_cons. cbn [length Nat.eqb combs]. rewrite filter_app, app_length, filter_map_length, Nat2Z.inj_add.
    rewrite (IH (fun h => P (x :: h)) n), (IH P (S n)). reflexivity.
Qed.

(** ** Blocks of four cards of one rank *)
Definition others (s : suit) : list suit := filter (fun t => negb (suit_eqb t s)) SUIT_ALL_VARIANTS.
Definition block (s : suit) (r : rank) : list face := (r, s) :: map (pair r) (others s).
Definition deck_by (s : suit) (rs : list rank) : list face := flat_map (block s) rs.
Lemma others_three s : exists t1 t2 t3, others s = [t1; t2; t3] /\ t1 <> s /\ t2 <> s /\ t3 <> s.
Proof. destruct s; eexists _, _, _; (split; [reflexivity|]); repeat split; discriminate. Qed.

Section walk.
  Context (s : suit).

  (** Of rank [r], does [h] hold the card of suit [s], and how many others? *)
  Definition own (r : rank) (h : list face) : bool := face_in h (r, s).
  Definition rest (r : rank) (h : list face) : nat :=
    length (filter (fun f => of_rank r f && negb (of_suit s f)) h).

  Context {St : Type} (step : rank -> bool -> nat -> St -> option St).
  Fixpoint walk (rs : list rank) (h : list face) (x : option St) : option St :=
    match rs, x with
    | r :: rs', Some y => walk rs' h (step r (own r h) (rest r h) y)
    | _, _ => x
    end.

  Lemma own_app r a b : own r (a ++ b) = own r a || own r b.
  Proof. apply existsb_app. Qed.
  Lemma rest_app r a b : rest r (a ++ b) = (rest r a + rest r b)%nat.
  Proof. unfold rest. rewrite filter_app. apply app_length. Qed.
  Lemma own_other r h : (forall f, In f h -> fst f <> r) -> own r h = false.
  Proof.
    intros H. unfold own, face_in. cbn [fst snd]. induction h as [|f h IH]; [reflexivity|]. cbn [existsb].
    rewrite IH by (intros g I; apply H; right; exact I). rewrite orb_false_r.
    destruct (of_rank r f) eqn:E; [|reflexivity]. exfalso. apply of_rank_eq in E.
    exact (H f (or_introl eq_refl) E).
  Qed.
  Lemma rest_other r h : (forall f, In f h -> fst f <> r) -> rest r h = 0%nat.
  Proof.
    intros H. unfold rest. induction h as [|f h IH]; [reflexivity|]. cbn [filter].
    destruct (of_rank r f) eqn:E.
    - exfalso. apply of_rank_eq in E. exact (H f (or_introl eq_refl) E).
    - apply IH. intros g I. apply H. right. exact I.
  Qed.
  Lemma walk_skip rs : forall x a h, (forall f, In f a -> ~ In (fst f) rs) ->
    walk rs (a ++ h) x = walk rs h x.
  Proof.
    induction rs as [|r rs IH]; intros x a h H; [reflexivity|]. destruct x as [y|]; [|reflexivity].
    assert (A : forall f, In f a -> fst f <> r) by (intros f I E; apply (H f I); left; congruence).
    cbn [walk]. rewrite own_app, rest_app, (own_other r a A), (rest_other r a A).
    apply IH. intros f I J. apply (H f I). right. exact J.
  Qed.
  Lemma deck_by_rank rs f : In f (deck_by s rs) -> In (fst f) rs.
  Proof.
    intros I. apply in_flat_map in I. destruct I as (r & Ir & I). destruct I as [<-|I]; [exact Ir|].
    apply in_map_iff in I. destruct I as (t & <- & _). exact Ir.
  Qed.

  Definition symbols : list (bool * nat * Z) :=
    [(false, 0%nat, 1); (false, 1%nat, 3); (false, 2%nat, 3); (false, 3%nat, 1);
     (true, 0%nat, 1); (true, 1%nat, 3); (true, 2%nat, 3); (true, 3%nat, 1)].
  Definition sum {A} (f : A -> Z) (l : list A) : Z := fold_right (fun a z => f a + z) 0 l.

  Lemma number_block (f : option St -> bool) r rs y : ~ In r rs ->
    number (fun h => f (walk (r :: rs) h (Some y))) (block s r ++ deck_by s rs) =
    sum (fun p => snd p * number (fun h => f (walk rs h (step r (fst (fst p)) (snd (fst p)) y))) (deck_by s rs))
      symbols.
  Proof.
    intros Hr.
    set (N := fun a : list face => number (fun h => f (walk (r :: rs) (a ++ h) (Some y))) (deck_by s rs)).
    assert (K : forall (a : list face) b m, (forall g : face, In g a -> fst g = r) -> own r a = b -> rest r a = m ->
      N a = number (fun h => f (walk rs h (step r b m y))) (deck_by s rs)).
    { intros a b m A <- <-. unfold N. apply number_ext. intros h H. f_equal. cbn [walk].
      assert (B : forall g, In g h -> fst g <> r).
      { intros g I E. apply Hr. rewrite <- E. apply deck_by_rank. apply (subs_incl _ _ H), I. }
      rewrite own_app, rest_app, (own_other r h B), (rest_other r h B), orb_false_r, Nat.add_0_r.
      apply walk_skip. intros g I. rewrite (A g I). exact Hr. }
    destruct (others_three s) as (t1 & t2 & t3 & O & D1 & D2 & D3).
    assert (Os : of_suit s (r, s) = true) by (apply of_suit_eq; reflexivity).
    assert (Or : forall t, of_rank r (r, t) = true) by (intros; apply of_rank_eq; reflexivity).
    assert (X : forall t, t <> s -> of_suit s (r, t) = false).
    { intros t D. destruct (of_suit s (r, t)) eqn:E; [|reflexivity]. apply of_suit_eq in E. contradiction. }
    assert (Y : forall a : list face, (forall g : face, In g a -> fst g = r) ->
      forall (t : suit) (g : face), In g ((r, t) :: a) -> fst g = r).
    { intros a A t g [<-|I]; [reflexivity|apply A, I]. }
    assert (Z0 : forall g : face, In g [] -> fst g = r) by (intros g []).
    transitivity (((((N [(r, s); (r, t1); (r, t2); (r, t3)] + N [(r, s); (r, t1); (r, t2)]) +
      (N [(r, s); (r, t1); (r, t3)] + N [(r, s); (r, t1)])) +
      ((N [(r, s); (r, t2); (r, t3)] + N [(r, s); (r, t2)]) +
      (N [(r, s); (r, t3)] + N [(r, s)]))) +
      (((N [(r, t1); (r, t2); (r, t3)] + N [(r, t1); (r, t2)]) +
      (N [(r, t1); (r, t3)] + N [(r, t1)])) +
      ((N [(r, t2); (r, t3)] + N [(r, t2)]) +
      (N [(r, t3)] + N []))))).
    { unfold block. rewrite O. cbn [map app]. rewrite !number_cons. reflexivity. }
    clearbody N.
    rewrite (K [(r, s); (r, t1); (r, t2); (r, t3)] true 3%nat),
      (K [(r, s); (r, t1); (r, t2)] true 2%nat), (K [(r, s); (r, t1); (r, t3)] true 2%nat),
      (K [(r, s); (r, t2); (r, t3)] true 2%nat), (K [(r, s); (r, t1)] true 1%nat),
      (K [(r, s); (r, t2)] true 1%nat), (K [(r, s); (r, t3)] true 1%nat), (K [(r, s)] true 0%nat),
      (K [(r, t1); (r, t2); (r, t3)] false 3%nat), (K [(r, t1); (r, t2)] false 2%nat),
      (K [(r, t1); (r, t3)] false 2%nat), (K [(r, t2); (r, t3)] false 2%nat),
      (K [(r, t1)] false 1%nat), (K [(r, t2)] false 1%nat), (K [(r, t3)] false 1%nat), (K [] false 0%nat);
      try (repeat (apply Y); exact Z0);
      try (unfold own, face_in; cbn [existsb fst snd]; rewrite ?Or, ?Os, ?(X t1 D1), ?(X t2 D2), ?(X t3 D3); reflexivity);
      try (unfold rest; cbn [filter]; rewrite ?Or, ?Os, ?(X t1 D1), ?(X t2 D2), ?(X t3 D3); reflexivity).
    unfold symbols, sum. cbn [fold_right fst snd]. ring.
  Qed.
End walk.

(** ** Summing over states, equal states merged *)
Section merge.
  Context {St : Type} (code : St -> positive) (eqb : St -> St -> bool).
  Context (eqb_eq : forall a b, eqb a b = true -> a = b).
  Inductive trie := Empty | Node (l : trie) (v : list (St * Z)) (r : trie).
  Fixpoint put (st : St) (w : Z) (v : list (St * Z)) : list (St * Z) :=
    match v with
    | [] => [(st, w)]
    | (st', w') :: v' => if eqb st st' then (st', w + w') :: v' else (st', w') :: put st w v'
    end.
  Fixpoint ins (p : positive) (st : St) (w : Z) (t : trie) : trie :=
    match p, t with
    | xH, Empty => Node Empty [(st, w)] Empty
    | xH, Node l v r => Node l (put st w v) r
    | xO p', Empty => Node (ins p' st w Empty) [] Empty
    | xO p', Node l v r => Node (ins p' st w l) v r
    | xI p', Empty => Node Empty [] (ins p' st w Empty)
    | xI p', Node l v r => Node l v (ins p' st w r)
    end.
  Fixpoint flat (t : trie) (acc : list (St * Z)) : list (St * Z) :=
    match t with
    | Empty => acc
    | Node l v r => flat l (v ++ flat r acc)
    end.
  Definition merge (l : list (St * Z)) : list (St * Z) :=
    flat (fold_left (fun t p => ins (code (fst p)) (fst p) (snd p) t) l Empty) [].

  Context (g : St -> Z).
  Definition total (l : list (St * Z)) : Z := sum (fun p => snd p * g (fst p)) l.
  Fixpoint ttotal (t : trie) : Z :=
    match t with Empty => 0 | Node l v r => ttotal l + total v + ttotal r end.

  Lemma total_app a b : total (a ++ b) = total a + total b.
  Proof. unfold total. induction a as [|p a IH]; [reflexivity|]. cbn [app sum fold_right]. unfold sum in *. lia. Qed.
  Lemma put_total st w v : total (put st w v) = w * g st + total v.
  Proof.
    unfold total. induction v as [|[st' w'] v IH]; [reflexivity|]. cbn [put].
    destruct (eqb st st') eqn:E; unfold sum in *; cbn [fold_right fst snd] in *.
    - apply eqb_eq in E. subst st'. lia.
    - lia.
  Qed.
  Lemma ins_total p st w : forall t, ttotal (ins p st w t) = w * g st + ttotal t.
  Proof.
    induction p as [p IH|p IH|]; intros [|l v r]; cbn [ins ttotal]; rewrite ?IH, ?put_total; cbn [ttotal];
      unfold total, sum; cbn [fold_right fst snd]; lia.
  Qed.
  Lemma flat_total t : forall acc, total (flat t acc) = ttotal t + total acc.
  Proof.
    induction t as [|l IHl v r IHr]; intros acc; cbn [flat ttotal]; [lia|].
    rewrite IHl, total_app, IHr. lia.
  Qed.
  Lemma merge_total l : total (merge l) = total l.
  Proof.
    unfold merge. rewrite flat_total. cut (forall t, ttotal
      (fold_left (fun t p => ins (code (fst p)) (fst p) (snd p) t) l t) = ttotal t + total l).
    { intros H. rewrite H. cbn [ttotal]. unfold total, sum. cbn [fold_right]. lia. }
    induction l as [|p l IH]; intros t; cbn [fold_left].
    - unfold total, sum. cbn [fold_right]. lia.
    - rewrite IH, ins_total. unfold total, sum. cbn [fold_right]. lia.
  Qed.
End merge.
Arguments total {St} g l.

Section count.
  Context {St : Type} (code : St -> positive) (eqb : St -> St -> bool).
  Context (eqb_eq : forall a b, eqb a b = true -> a = b).
  Context (step : rank -> bool -> nat -> St -> option St).

  Definition advance (r : rank) (l : list (St * Z)) : list (St * Z) :=
    merge code eqb (flat_map (fun p => flat_map (fun q =>
      match step r (fst (fst q)) (snd (fst q)) (fst p) with
      | Some y => [(y, snd p * snd q)]
      | None => []
      end) symbols) l).
  Definition states (rs : list rank) (x : St) : list (St * Z) :=
    fold_left (fun l r => advance r l) rs [(x, 1)].
  Definition tally (f : St -> bool) (l : list (St * Z)) : Z :=
    total (fun x => if f x then 1 else 0) l.

  Context (s : suit).
  Context (f : St -> bool).
  Definition accept (x : option St) : bool := match x with Some y => f y | None => false end.
  Definition ahead (rs : list rank) (y : St) : Z :=
    number (fun h => accept (walk s step rs h (Some y))) (deck_by s rs).

  Lemma walk_none rs h : walk s step rs h None = None.
  Proof. destruct rs; reflexivity. Qed.
  Lemma ahead_step r rs y : ~ In r rs -> ahead (r :: rs) y =
    sum (fun q => snd q * match step r (fst (fst q)) (snd (fst q)) y with
                          | Some z => ahead rs z | None => 0 end) symbols.
  Proof.
    intros N. unfold ahead. change (deck_by s (r :: rs)) with (block s r ++ deck_by s rs).
    rewrite (number_block s step accept r rs y N). unfold symbols, sum. cbn [fold_right fst snd].
    repeat match goal with |- context [match ?o with Some z => number _ _ | None => 0 end] =>
      let E := fresh "E" in destruct o eqn:E end;
    rewrite ?(number_ext (fun h => accept (walk s step rs h None)) (fun _ => false) (deck_by s rs)
      (fun h _ => f_equal accept (walk_none rs h))), ?number_false; reflexivity.
  Qed.
  Lemma advance_total r rs l : ~ In r rs ->
    total (ahead rs) (advance r l) = total (ahead (r :: rs)) l.
  Proof.
    intros N. unfold advance. rewrite (merge_total code eqb eqb_eq).
    induction l as [|[x w] l IH]; [reflexivity|]. cbn [flat_map].
    rewrite total_app, IH. change (total (ahead (r :: rs)) ((x, w) :: l))
      with (w * ahead (r :: rs) x + total (ahead (r :: rs)) l).
    f_equal. rewrite (ahead_step r rs x N). cbn [fst snd].
    generalize symbols. intros qs. induction qs as [|q qs IHq]; [unfold total, sum; cbn; lia|].
    cbn [flat_map]. rewrite total_app, IHq.
    match goal with |- _ = w * sum ?F _ => change (sum F (q :: qs)) with (F q + sum F qs) end.
    cbv beta. destruct (step r (fst (fst q)) (snd (fst q)) x); unfold total, sum; cbn [fold_right fst snd]; lia.
  Qed.
  Lemma states_total rs : NoDup rs -> forall l,
    tally f (fold_left (fun l r => advance r l) rs l) = total (ahead rs) l.
  Proof.
    induction 1 as [|r rs N D IH]; intros l; cbn [fold_left].
    - unfold tally, total. induction l as [|p l IHl]; [reflexivity|].
      unfold sum in *. cbn [fold_right]. rewrite IHl. f_equal. f_equal.
      unfold ahead. cbn [deck_by flat_map walk]. rewrite number_nil. reflexivity.
    - rewrite IH. apply advance_total, N.
  Qed.
  Theorem count_walks rs x : NoDup rs ->
    number (fun h => accept (walk s step rs h (Some x))) (deck_by s rs) = tally f (states rs x).
  Proof.
    intros D. unfold states. rewrite (states_total rs D). unfold total, sum. cbn [fold_right fst snd].
    unfold ahead. lia.
  Qed.
End count.
