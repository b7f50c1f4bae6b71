(** PropertiesShowdown.v: C67 (several players and a common board). *)
From Coq Require Import Lia List Arith Bool Permutation.
From Verif Require Import Base ModelCard ModelEval ModelTable ModelEvaluation.
From Verif Require Import Spec SpecApi SpecShowdown SpecBest.
From Verif Require CardFacts HandFacts Samples ShowdownFacts.
Import ListNotations.

(** C67: every player's cards are evaluated together with the board, whichever comes first, and a
    result is worse than nobody's exactly if the player can lay down five cards nobody can beat. *)
Theorem C67_winners : forall ev board own, new_evaluator ev -> all_cards (board ++ concat own) ->
  NoDup (board ++ concat own) -> Forall (fun h => 5 <= length board + length h) own ->
  exists es, Forall2 (fun h e => evaluates ev (box_cards board [h]) e /\ evaluates ev (box_cards h [board]) e) own es
    /\ forall i e, nth_error es i = Some e ->
         ((forall e', In e' es -> eval_is_worse_than e e' = false) <-> wins (seats (faces board) (map faces own)) i).
Proof. exact ShowdownFacts.showdown. Qed.
Print Assumptions C67_winners.
(** The winners can be read off what everybody holds (C50). *)
Theorem C67_winners_read_off : forall ev board own i h, new_evaluator ev -> all_cards (board ++ concat own) ->
  NoDup (board ++ concat own) -> Forall (fun h => 5 <= length board + length h) own -> nth_error own i = Some h ->
  (wins (seats (faces board) (map faces own)) i
   <-> forall k, In k own -> ~ worth_more (best (faces board ++ faces k)) (best (faces board ++ faces h))).
Proof. exact ShowdownFacts.winners_read_off. Qed.
Print Assumptions C67_winners_read_off.
(** There is always a winner, *)
Theorem C67_somebody_wins : forall ev board own, new_evaluator ev -> all_cards (board ++ concat own) ->
  NoDup (board ++ concat own) -> Forall (fun h => 5 <= length board + length h) own -> own <> [] ->
  exists i, i < length own /\ wins (seats (faces board) (map faces own)) i.
Proof. exact ShowdownFacts.somebody_wins. Qed.
Print Assumptions C67_somebody_wins.
(** and if there are several, their results are the same. *)
Theorem C67_winners_tie : forall ev board own i j h k ei ej, new_evaluator ev -> all_cards (board ++ concat own) ->
  NoDup (board ++ concat own) -> Forall (fun h => 5 <= length board + length h) own ->
  wins (seats (faces board) (map faces own)) i -> wins (seats (faces board) (map faces own)) j ->
  nth_error own i = Some h -> nth_error own j = Some k ->
  evaluates ev (box_cards board [h]) ei -> evaluates ev (box_cards board [k]) ej -> ei = ej.
Proof. exact ShowdownFacts.winners_tie. Qed.
Print Assumptions C67_winners_tie.
(** If the board leaves no room for a flush, players who hold the same ranks tie. *)
Theorem C67_same_ranks_tie : forall ev board h k eh ek, new_evaluator ev -> all_cards (board ++ h ++ k) ->
  evaluates ev (box_cards board [h]) eh -> evaluates ev (box_cards board [k]) ek ->
  (forall s, length (only s (faces board)) + length h < 5) ->
  Permutation (ranks (faces h)) (ranks (faces k)) -> eh = ek.
Proof. exact ShowdownFacts.same_ranks_tie. Qed.
Print Assumptions C67_same_ranks_tie.
(** Nobody is below the board. *)
Theorem C67_not_below_board : forall ev board h eb e, new_evaluator ev -> all_cards (board ++ h) ->
  evaluates ev board eb -> evaluates ev (box_cards board [h]) e -> eval_is_worse_than e eb = false.
Proof. exact ShowdownFacts.not_below_board. Qed.
Print Assumptions C67_not_below_board.
(** Two players with an ace and a king share the pot, the third loses. *)
Example C67_case :
  let board := [(King, Spades); (Nine, Hearts); (Four, Clubs); (Four, Diamonds); (Two, Spades)] in
  let own := [[(Ace, Spades); (King, Hearts)]; [(King, Diamonds); (Ace, Clubs)]; [(Nine, Clubs); (Ace, Hearts)]] in
  let cards := map cards_macro_idents own in
  all_cards (cards_macro_idents board ++ concat cards) /\ NoDup (cards_macro_idents board ++ concat cards)
  /\ Forall (fun h => 5 <= length (cards_macro_idents board) + length h) cards
  /\ (forall s, length (only s (faces (cards_macro_idents board))) + 2 < 5)
  /\ wins (seats board own) 0 /\ wins (seats board own) 1 /\ ~ wins (seats board own) 2.
Proof.
  intros board own cards.
  assert (Q : cards_macro_idents board ++ concat cards = cards_macro_idents (board ++ concat own)).
  { unfold cards, cards_macro_idents. rewrite map_app, concat_map. reflexivity. }
  assert (A : all_cards (cards_macro_idents board ++ concat cards)) by (rewrite Q; apply Samples.idents_all_cards).
  assert (N : NoDup (cards_macro_idents board ++ concat cards)) by (rewrite Q; apply Samples.idents_NoDup; reflexivity).
  assert (L : Forall (fun h => 5 <= length (cards_macro_idents board) + length h) cards).
  { repeat constructor; unfold board, cards_macro_idents; cbn [map length]; lia. }
  destruct HandFacts.evaluator_new_ret as [ev Hev].
  assert (FO : map faces cards = own).
  { unfold cards. rewrite map_map. rewrite <- (map_id own) at 2. apply map_ext. exact Samples.idents_faces. }
  assert (W := fun i h => ShowdownFacts.winners_read_off ev (cards_macro_idents board) cards i h Hev A N L).
  rewrite FO, Samples.idents_faces in W.
  split; [exact A|]. split; [exact N|]. split; [exact L|].
  split; [rewrite Samples.idents_faces; intros []; unfold board, only; cbn; lia|].
  assert (B : forall k, In k cards -> In (faces k) own) by (intros k I; rewrite <- FO; apply in_map, I).
  split; [|split].
  - apply (W 0 _ eq_refl). intros k I. specialize (B k I). rewrite Samples.idents_faces.
    destruct B as [<-|[<-|[<-|[]]]]; unfold worth_more, board; cbn; lia.
  - apply (W 1 _ eq_refl). intros k I. specialize (B k I). rewrite Samples.idents_faces.
    destruct B as [<-|[<-|[<-|[]]]]; unfold worth_more, board; cbn; lia.
  - intros X. apply (proj1 (W 2 _ eq_refl) X (cards_macro_idents [(Ace, Spades); (King, Hearts)])); [left; reflexivity|].
    rewrite !Samples.idents_faces. unfold worth_more, board. cbn. lia.
Qed.
