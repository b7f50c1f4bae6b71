(** PropertiesLookup.v: evaluation with any tables (C71). *)
From Coq Require Import List ZArith.
From Verif Require Import Base ModelCard ModelEval ModelTable ModelEvaluation Spec SpecApi SpecTable SpecLookup.
From Verif Require LookupFacts.
Import ListNotations.

(** C71: what [evaluate] answers, whatever the tables built in hold. *)
(** The calls it turns away do not depend on the tables. *)
Theorem C71_turned_away : forall F U h, all_cards h ->
  (~ NoDup h -> static_evaluate F U h = Ret (Err (CardsNotUnique h)))
  /\ (NoDup h -> length h < 5 -> static_evaluate F U h = Ret (Err (InvalidHandSize (length h)))).
Proof. exact LookupFacts.any_rejected. Qed.
Print Assumptions C71_turned_away.
(** It panics if the tables lack an entry for some five of the cards. *)
Theorem C71_missing : forall F U h five, legal h -> five_of h five -> finds F U five None ->
  static_evaluate F U h = Panic MissingKey.
Proof. exact LookupFacts.any_missing. Qed.
Print Assumptions C71_missing.
(** Otherwise it answers: of five cards their entry, of more cards the entry with the lowest number, but never
    a number above 7462. *)
Theorem C71_found : forall F U h, legal h -> (forall five, five_of h five -> ~ finds F U five None) ->
  exists e, static_evaluate F U h = Ret (Ok e)
    /\ (length h = 5 -> finds F U h (Some (eval_meta e)))
    /\ (5 < length h ->
         (forall five m, five_of h five -> finds F U five (Some m) -> (number e <= entry_number m)%Z)
         /\ (number e <= 7462)%Z
         /\ (e = EVAL_WORST \/ exists five, five_of h five /\ finds F U five (Some (eval_meta e)))).
Proof. exact LookupFacts.any_found. Qed.
Print Assumptions C71_found.
(** Two pairs of tables give the same answers exactly if they agree at the 1287 and 6175 numbers asked for. *)
Theorem C71_agreement : forall F U F' U',
  (forall h, all_cards h -> static_evaluate F U h = static_evaluate F' U' h)
  <-> (forall rs, five_different rs -> map_get F (product rs) = map_get F' (product rs))
      /\ (forall rs, five_dealable rs -> map_get U (product rs) = map_get U' (product rs)).
Proof. exact LookupFacts.agreement. Qed.
Print Assumptions C71_agreement.
(** So tables answer like those of [Evaluator::new] exactly if they hold what those hold. *)
Theorem C71_agreement_with_new : forall ev F U,
  (forall h, all_cards h -> static_evaluate F U h = evaluate ev h)
  <-> (forall rs, five_different rs ->
         map_get F (product rs) = map_get (flush_lookup (evaluator_table ev)) (product rs))
      /\ (forall rs, five_dealable rs ->
         map_get U (product rs) = map_get (unsuited_lookup (evaluator_table ev)) (product rs)).
Proof. exact LookupFacts.agrees_with_new. Qed.
Print Assumptions C71_agreement_with_new.

(** One entry, for the royal flush: its five cards, a sixth, the wrong table; an entry nobody asks for. *)
Example C71_case :
  static_evaluate royal_only map_empty hearts_royal = Ret (Ok (MkEval (MHighCard (PokerHandRank 9999%Z) Two)))
  /\ static_evaluate royal_only map_empty (hearts_royal ++ [card_new Two Clubs]) = Panic MissingKey
  /\ static_evaluate map_empty royal_only hearts_royal = Panic MissingKey
  /\ (forall five, five_of hearts_royal five -> ~ finds royal_only map_empty five None)
  /\ (forall F U m h, all_cards h ->
       static_evaluate (map_insert 0%Z m F) (map_insert 0%Z m U) h = static_evaluate F U h).
Proof.
  split; [vm_compute; reflexivity|]. split; [vm_compute; reflexivity|]. split; [vm_compute; reflexivity|].
  split; [exact LookupFacts.royal_case|exact LookupFacts.extra_ignored].
Qed.
