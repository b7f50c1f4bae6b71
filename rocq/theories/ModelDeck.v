(** ModelDeck.v: the iterator [deck::generate] returns, as the state it keeps.

    ModelCard.v has the list of the cards it yields; here is how it yields them: [Product] of itertools
    0.14 (a dependency, not in /repo; from memory) over two slice iterators, under a [Map].
    Simplified: the numbers of [size_hint] are unbounded, where itertools saturates; here they are at
    most 52. *)
From Verif Require Import Base ModelCard.

(** [std::slice::Iter] as what is left of the slice *)
Definition slice_next {A} (l : list A) : option A * list A :=
  match l with [] => (None, []) | x :: l' => (Some x, l') end.

(** itertools [Product].  [a_cur]: [None] before anything was taken out of [a], [Some (Some x)] while
    [x] is being paired, [Some None] when [a] is used up. *)
Record product (A B : Type) := mk_product {
  p_a : list A;
  p_cur : option (option A);
  p_b : list B;
  p_b_orig : list B
}.
Arguments mk_product {A B}. Arguments p_a {A B}. Arguments p_cur {A B}. Arguments p_b {A B}. Arguments p_b_orig {A B}.
Definition cartesian_product {A B} (a : list A) (b : list B) : product A B := mk_product a None b b.
(** [next]; the [unwrap] of [a_cur] is written out *)
Definition product_next {A B} (p : product A B) : outcome (option (A * B) * product A B) :=
  let pair_with (elt : B) (p : product A B) :=
    match p_cur p with
    | None => Panic UnwrapFailed
    | Some None => Ret (None, p)
    | Some (Some x) => Ret (Some (x, elt), p)
    end in
  match slice_next (p_b p) with
  | (None, _) =>
      match slice_next (p_b_orig p) with
      | (None, b) => Ret (None, mk_product (p_a p) (p_cur p) b (p_b_orig p))
      | (Some elt, b) =>
          let (cur, a) := slice_next (p_a p) in
          pair_with elt (mk_product a (Some cur) b (p_b_orig p))
      end
  | (Some elt, b) =>
      match p_cur p with
      | None =>
          let (cur, a) := slice_next (p_a p) in
          pair_with elt (mk_product a (Some cur) b (p_b_orig p))
      | Some _ => pair_with elt (mk_product (p_a p) (p_cur p) b (p_b_orig p))
      end
  end.
(** [size_hint]: lower and upper bound *)
Definition product_size_hint {A B} (p : product A B) : nat * option nat :=
  let size := length (p_a p) * length (p_b_orig p)
              + match p_cur p with Some (Some _) => length (p_b p) | _ => 0 end in
  (size, Some size).
(** [fold]: what is left of [b] for the current element, then all of [b] for each further one *)
Definition product_fold {A B S} (p : product A B) (init : S) (f : S -> A * B -> S) : S :=
  let row (acc : S) (x : A) (b : list B) := fold_left (fun acc elt => f acc (x, elt)) b acc in
  let (cur, a) := match p_cur p with None => slice_next (p_a p) | Some cur => (cur, p_a p) end in
  match cur with
  | None => init
  | Some x => fold_left (fun acc x => row acc x (p_b_orig p)) a (row init x (p_b p))
  end.

(** src/deck.rs:26-31 [generate] and the methods of the iterator it returns *)
Definition deck_iter : Type := product rank suit.
Definition generate : deck_iter := cartesian_product RANK_ALL_VARIANTS SUIT_ALL_VARIANTS.
Definition deck_next (it : deck_iter) : outcome (option card * deck_iter) :=
  let! r := product_next it in
  let (item, it) := r in
  Ret (match item with None => None | Some (r, s) => Some (card_new r s) end, it).
Definition deck_size_hint (it : deck_iter) : nat * option nat := product_size_hint it.
Definition deck_fold {S} (it : deck_iter) (init : S) (f : S -> card -> S) : S :=
  product_fold it init (fun acc p => f acc (card_new (fst p) (snd p))).
(** [Iterator::count] and [Iterator::for_each] go through [fold] *)
Definition deck_count (it : deck_iter) : nat := deck_fold it 0 (fun n _ => S n).
(** [Iterator::nth]: drops [n] items, stopping early at the end *)
Fixpoint deck_nth (n : nat) (it : deck_iter) : outcome (option card * deck_iter) :=
  match n with
  | O => deck_next it
  | S n' =>
      let! r := deck_next it in
      match r with
      | (None, it) => Ret (None, it)
      | (Some _, it) => deck_nth n' it
      end
  end.
(** [by_ref().take(n).collect()]: asks at most [n] times and not again after the end *)
Fixpoint deck_take (n : nat) (it : deck_iter) : outcome (list card * deck_iter) :=
  match n with
  | O => Ret ([], it)
  | S n' =>
      let! r := deck_next it in
      match r with
      | (None, it) => Ret ([], it)
      | (Some c, it) =>
          let! rest := deck_take n' it in
          Ret (c :: fst rest, snd rest)
      end
  end.
(** [collect::<Vec<_>>()]: asks until the end; the fuel is one more than [size_hint] announces *)
Definition deck_collect (it : deck_iter) : outcome (list card) :=
  let! r := deck_take (S (fst (deck_size_hint it))) it in
  Ret (fst r).
