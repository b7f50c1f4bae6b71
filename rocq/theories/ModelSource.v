(** ModelSource.v: [Card::parse_to_iter] over any iterator of strings (src/card/mod.rs:270-278, 337-381).
    ModelCard.v has the special case of a finite list.

    An iterator is a state machine: [next] gives an item or [None], and the state after the call.  It may be
    endless, and after [None] it may go on with further items. *)
From Verif Require Import Base ModelCard.

Section source.
Context {S : Type} (next : S -> option rstring * S).

(** src/card/mod.rs:277 the closure given to [map], src/card/mod.rs:344 [next] *)
Definition parsed_next (s : S) : option (result card parse_card_error) * S :=
  let (text, s') := next s in
  (match text with Some t => Some (card_from_str t) | None => None end, s').

(** src/card/mod.rs:348-354 [fold]: the standard library's loop, [next] until [None].  [fuel] bounds the calls
    of [next]; an endless source needs more than any. *)
Fixpoint parsed_fold {B} (fuel : nat) (s : S) (init : B) (f : B -> result card parse_card_error -> B) :
    outcome (B * S) :=
  match fuel with
  | O => OutOfFuel
  | Datatypes.S fuel' =>
      match parsed_next s with
      | (Some x, s') => parsed_fold fuel' s' (f init x) f
      | (None, s') => Ret (init, s')
      end
  end.

(** A collection being made ([C: FromIterator<Card>]): what it has so far is in [a]; [made a] is the finished
    collection, or [None] if it asks for another card; [feed a x] takes the answer. *)
Context {A C : Type} (made : A -> option C) (feed : A -> option card -> A).

(** src/card/mod.rs:380 [try_collect], i.e. [collect::<Result<C, E>>()].  The standard library puts an adaptor
    between the iterator and the collection that keeps an error as the [residual] and says [None] in its place;
    at the end the residual, if any, is the result.  The adaptor does not stop a collection from asking again
    after [None].  (Written from memory of [core::iter::try_process] and [GenericShunt].) *)
Fixpoint collect_with (fuel : nat) (a : A) (s : S) (residual : option parse_card_error) :
    outcome (result C parse_card_error * S) :=
  match made a with
  | Some c => Ret (match residual with Some e => Err e | None => Ok c end, s)
  | None =>
      match fuel with
      | O => OutOfFuel
      | Datatypes.S fuel' =>
          match parsed_next s with
          | (Some (Ok c), s') => collect_with fuel' (feed a (Some c)) s' residual
          | (Some (Err e), s') => collect_with fuel' (feed a None) s' (Some e)
          | (None, s') => collect_with fuel' (feed a None) s' residual
          end
      end
  end.
End source.

(** [Vec<Card>]: takes cards until it is told [None]. *)
Definition vec_made (a : list card * bool) : option (list card) := if snd a then Some (fst a) else None.
Definition vec_feed (a : list card * bool) (x : option card) : list card * bool :=
  match x with Some c => (fst a ++ [c], snd a) | None => (fst a, true) end.
Definition try_collect_vec {S} (next : S -> option rstring * S) (fuel : nat) (s : S) :
    outcome (result (list card) parse_card_error * S) :=
  collect_with next vec_made vec_feed fuel ([], false) s None.

(** The iterator over a list of strings. *)
Definition list_next (l : list rstring) : option rstring * list rstring :=
  match l with [] => (None, []) | t :: l' => (Some t, l') end.
