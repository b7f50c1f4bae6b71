(** PropertiesSource.v: [Card::parse_to_iter] over any iterator of strings (C72). *)
From Coq Require Import List NArith String.
From Verif Require Import Base ModelCard ModelSource SpecApi SpecText SpecSource.
From Verif Require SourceFacts.
Import ListNotations.

Local Open Scope string_scope.

(** C72: parsing an iterator of strings, which may be endless or go on after its end. *)
(** Each call of [next] takes one string and gives what [parse] makes of it, or [None] when there is none. *)
Theorem C72_next : forall S (next : S -> option rstring * S) s,
  (forall r s', parsed_next next s = (Some r, s') <-> exists t, next s = (Some t, s') /\ r = card_from_str t)
  /\ (forall s', parsed_next next s = (None, s') <-> next s = (None, s')).
Proof. exact SourceFacts.item_end. Qed.
Print Assumptions C72_next.
Theorem C72_lazy : forall S (next : S -> option rstring * S) s l s',
  gives (parsed_next next) s l s' <-> exists ts, gives next s ts s' /\ l = map card_from_str ts.
Proof. exact @SourceFacts.gives_parsed. Qed.
Print Assumptions C72_lazy.
(** [fold] returns exactly if the strings end. *)
Theorem C72_fold : forall S (next : S -> option rstring * S) B (f : B -> result card parse_card_error -> B) init s r s',
  (exists fuel, parsed_fold next fuel s init f = Ret (r, s')) <->
  exists ts s1, gives next s ts s1 /\ next s1 = (None, s') /\ r = fold_left f (map card_from_str ts) init.
Proof. exact SourceFacts.fold_any. Qed.
Print Assumptions C72_fold.
(** [try_collect] gives a [Vec] of cards exactly if their texts come and then the end. *)
Theorem C72_vec : forall S (next : S -> option rstring * S) s cs s',
  (exists fuel, try_collect_vec next fuel s = Ret (Ok cs, s')) <->
  all_cards cs /\ exists s1, gives next s (map card_text cs) s1 /\ next s1 = (None, s').
Proof. exact @SourceFacts.vec_ok. Qed.
Print Assumptions C72_vec.
(** It fails exactly if texts of cards come and then a text that is none; it asks for nothing after that text. *)
Theorem C72_vec_fails : forall S (next : S -> option rstring * S) s e s',
  (exists fuel, try_collect_vec next fuel s = Ret (Err e, s')) <->
  exists cs s1 t, all_cards cs /\ gives next s (map card_text cs) s1
    /\ next s1 = (Some t, s') /\ card_from_str t = Err e.
Proof. exact @SourceFacts.vec_err. Qed.
Print Assumptions C72_vec_fails.
(** Of cards without end it makes nothing. *)
Theorem C72_endless : forall S (next : S -> option rstring * S) s,
  (forall n, exists cs s', List.length cs = n /\ all_cards cs /\ gives next s (map card_text cs) s') ->
  forall fuel, try_collect_vec next fuel s = OutOfFuel.
Proof. exact @SourceFacts.vec_endless. Qed.
Print Assumptions C72_endless.
(** Any collection that takes [None] for the end, also one that has enough before. *)
Theorem C72_any_collection : forall S (next : S -> option rstring * S) A C (made : A -> option C) feed a s x s',
  stops made feed ->
  (exists fuel, collect_with next made feed fuel a s None = Ret (Ok x, s')) <->
  exists cs b s1, all_cards cs /\ gives next s (map card_text cs) s1 /\ fed made feed a cs b
    /\ ((made b = Some x /\ s' = s1) \/ (made b = None /\ next s1 = (None, s') /\ made (feed b None) = Some x)).
Proof. exact SourceFacts.collection_ok. Qed.
Print Assumptions C72_any_collection.
Theorem C72_any_collection_fails : forall S (next : S -> option rstring * S) A C (made : A -> option C) feed a s e s',
  stops made feed ->
  (exists fuel, collect_with next made feed fuel a s None = Ret (Err e, s')) <->
  exists cs b s1 t, all_cards cs /\ gives next s (map card_text cs) s1 /\ fed made feed a cs b /\ made b = None
    /\ next s1 = (Some t, s') /\ card_from_str t = Err e.
Proof. exact SourceFacts.collection_err. Qed.
Print Assumptions C72_any_collection_fails.
(** Whatever collection: it is told of each card, and [None] for the end as for a text that is no card.  The last
    error met is the result. *)
Theorem C72_whatever_collection : forall S (next : S -> option rstring * S) A C (made : A -> option C) feed a s r s',
  (exists fuel, collect_with next made feed fuel a s None = Ret (r, s')) <->
  exists ts b x, asked next s ts s' /\ told made feed a (map card_or_none ts) b /\ made b = Some x
    /\ r = last (map Err (errors_in ts)) (Ok x).
Proof. exact @SourceFacts.whatever. Qed.
Print Assumptions C72_whatever_collection.
(** Over a list it is the [try_collect] of C17. *)
Theorem C72_list : forall ss r,
  (exists fuel rest, try_collect_vec list_next fuel ss = Ret (r, rest)) <-> try_collect (parse_to_iter ss) = r.
Proof. exact SourceFacts.list_agrees. Qed.
Print Assumptions C72_list.

(** Endless strings, of which only the third and the fourth are no cards: the first of them is reported, and the
    fourth is still to come; from the fifth on nothing is made; one card can be had; a collection that does not
    take [None] for the end gets the last error. *)
Example C72_case :
  try_collect_vec numbered 10 0 = Ret (Err (InvalidRank (lit "Zs") 90%N), 3)
  /\ (forall n, exists cs s', List.length cs = n /\ all_cards cs /\ gives numbered 4 (map card_text cs) s')
  /\ stops (@one_made card) one_feed
  /\ collect_with numbered one_made one_feed 1 None 0 None = Ret (Ok (Some (card_new Ace Spades)), 1)
  /\ collect_with numbered four_made four_feed 4 [] 0 None = Ret (Err (InvalidSuit (lit "Ax") 120%N), 4)
  /\ try_collect_vec list_next 3 [lit "As"; lit "Td"] = Ret (Ok [card_new Ace Spades; card_new Ten Diamonds], []).
Proof.
  split; [vm_compute; reflexivity|]. split; [exact (SourceFacts.numbered_endless 4 (le_n 4))|].
  split; [exact (SourceFacts.one_stops card)|]. split; [vm_compute; reflexivity|]. split; vm_compute; reflexivity.
Qed.
