(** PropertiesDeck.v: C82.  Each theorem is closed by a lemma of the proof files. *)
From Coq Require Import List Arith.
From Verif Require Import Base ModelCard ModelDeck SpecDeck.
From Verif Require DeckIterFacts.
Import ListNotations.

(** C82: the iterator of [deck::generate] answers like a pile of the 52 cards, whatever the caller asks and in
    whatever order: no call panics, [size_hint] is exact at any time, and [collect], [count] and [fold] go
    through the cards that are left. *)
Theorem C82_any_questions : forall qs, exists it, interview qs generate = Ret (replies qs deck_generate, it)
  /\ deck_collect it = Ret (skipn (taken qs) deck_generate)
  /\ deck_count it = 52 - taken qs
  /\ (forall S (init : S) f, deck_fold it init f = fold_left f (skipn (taken qs) deck_generate) init).
Proof. exact DeckIterFacts.interviewed. Qed.
Print Assumptions C82_any_questions.
(** [next] yields the cards in turn and then [None] for ever. *)
Theorem C82_next : forall n, exists it,
  interview (repeat AskNext n) generate = Ret (map (fun k => ACard (nth_error deck_generate k)) (seq 0 n), it)
  /\ deck_size_hint it = (52 - n, Some (52 - n)).
Proof. exact DeckIterFacts.nexts. Qed.
Print Assumptions C82_next.
Theorem C82_whole_deck : deck_collect generate = Ret deck_generate /\ deck_count generate = 52
  /\ deck_size_hint generate = (52, Some 52) /\ deck_fold generate [] (fun l c => l ++ [c]) = deck_generate.
Proof. exact DeckIterFacts.whole_deck. Qed.
Print Assumptions C82_whole_deck.
(** The fifth card is the first of the second rank; after 51 cards one is left; the end stays the end. *)
Example C82_case : exists it, interview [AskTake 4; AskNext; AskNth 45; AskSize; AskNext; AskNext; AskNext; AskSize] generate
  = Ret ([ACards (map (fun s => card_new Two s) SUIT_ALL_VARIANTS); ACard (Some (card_new Three Clubs));
          ACard (Some (card_new Ace Spades)); ASize 1 (Some 1); ACard (Some (card_new Ace Diamonds));
          ACard None; ACard None; ASize 0 (Some 0)], it).
Proof. eexists. vm_compute. reflexivity. Qed.
