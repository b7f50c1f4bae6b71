(** SpecDeck.v: a caller who asks the iterator of [deck::generate], and the answers of a pile of cards. *)
From Coq Require Import List.
From Verif Require Import Base ModelCard ModelDeck.
Import ListNotations.

(** What can be asked: [next()], [nth(n)], [by_ref().take(n).collect()], [size_hint()]. *)
Inductive question := AskNext | AskNth (n : nat) | AskTake (n : nat) | AskSize.
Inductive answer := ACard (c : option card) | ACards (l : list card) | ASize (low : nat) (high : option nat).

(** The caller asks one question after the other. *)
Definition ask (q : question) (it : deck_iter) : outcome (answer * deck_iter) :=
  match q with
  | AskNext => let! r := deck_next it in Ret (ACard (fst r), snd r)
  | AskNth n => let! r := deck_nth n it in Ret (ACard (fst r), snd r)
  | AskTake n => let! r := deck_take n it in Ret (ACards (fst r), snd r)
  | AskSize => Ret (ASize (fst (deck_size_hint it)) (snd (deck_size_hint it)), it)
  end.
Fixpoint interview (qs : list question) (it : deck_iter) : outcome (list answer * deck_iter) :=
  match qs with
  | [] => Ret ([], it)
  | q :: qs =>
      let! r := ask q it in
      let! rest := interview qs (snd r) in
      Ret (fst r :: fst rest, snd rest)
  end.

(** A pile of which cards are taken from the top *)
Definition reply (q : question) (pile : list card) : answer :=
  match q with
  | AskNext => ACard (nth_error pile 0)
  | AskNth n => ACard (nth_error pile n)
  | AskTake n => ACards (firstn n pile)
  | AskSize => ASize (length pile) (Some (length pile))
  end.
Definition used (q : question) : nat :=
  match q with AskNext => 1 | AskNth n => S n | AskTake n => n | AskSize => 0 end.
Fixpoint replies (qs : list question) (pile : list card) : list answer :=
  match qs with [] => [] | q :: qs => reply q pile :: replies qs (skipn (used q) pile) end.
Definition taken (qs : list question) : nat := fold_right (fun q n => used q + n) 0 qs.
