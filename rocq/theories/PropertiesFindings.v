(** PropertiesFindings.v: the claims of C22, C23 and C25 that are false of the model are false of the source text itself,
    read and run as in PropertiesRust.v. *)
From Coq Require Import String List FSets.FMapPositive.
From Verif Require Import Base ModelCard Spec RustSyntax RustSemantics RustProgram RustValues SpecRust.
From Verif Require RustFindings.
Import ListNotations.
Local Open Scope string_scope.
Local Open Scope list_scope.

(** C22: two different cards compare as equal. *)
Theorem C22_text_refuted : forall P, load_all texts = Some P ->
  exists v w, made P (Ace, Spades) v /\ made P (Ace, Hearts) w /\ v <> w
    /\ returns P "Card::cmp" None [v; w] (VCon "Ordering::Equal" []).
Proof. exact RustFindings.equal_aces. Qed.
Print Assumptions C22_text_refuted.
(** C23: the message about a string of one character (U+00E9) says that it has the expected length. *)
Theorem C23_text_refuted : forall P, load_all texts = Some P ->
  exists e, reads P [233%N] (VCon "Err" [("0", e)])
    /\ forall acc, returns_mut P "ParseCardError::fmt" None [e; VStr acc] fine
         (VStr (acc ++ lit "Error parsing input '" ++ [233%N] ++ lit "' as a Card: Found input of length 2, expected 2")).
Proof. exact RustFindings.one_character_of_two_bytes. Qed.
Print Assumptions C23_text_refuted.
(** C25: with the empty tables that the derived [default()] leaves, every hand panics. *)
Theorem C25_text_refuted : forall P h cs, load_all texts = Some P -> Forall2 (made P) h cs -> NoDup h -> 5 <= length h ->
  panics P "Evaluator::evaluate" None
    [VCon "Evaluator" [("0", VCon "LookupTable" [("flush_lookup", VMap (PositiveMap.empty _));
                                                 ("unsuited_lookup", VMap (PositiveMap.empty _))])]; VList cs].
Proof. exact RustFindings.default_panics. Qed.
Print Assumptions C25_text_refuted.
(** The text can be read, and a royal flush made. *)
Example C25_text_case : exists P cs, load_all texts = Some P
  /\ Forall2 (made P) [(Ten, Hearts); (Jack, Hearts); (Queen, Hearts); (King, Hearts); (Ace, Hearts)] cs.
Proof. exact RustFindings.five_made. Qed.
