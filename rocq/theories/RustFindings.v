(** RustFindings.v: what is false of the model (C22, C23, C25) is false of the source text too. *)
From Coq Require Import String Lia FSets.FMapPositive.
From Verif Require Import Base BaseFacts ModelCard ModelEval ModelTable ModelEvaluation CardFacts Spec SpecApi.
From Verif Require HandFacts Samples.
From Verif Require Import RustSyntax RustSemantics RustProgram RustValues RustSteps RustRuns RustAgrees SpecRust.
Local Open Scope string_scope.
Local Open Scope list_scope.

Theorem equal_aces : forall P, load_all texts = Some P ->
  exists v w, made P (Ace, Spades) v /\ made P (Ace, Hearts) w /\ v <> w
    /\ returns P "Card::cmp" None [v; w] (VCon "Ordering::Equal" []).
Proof.
  intros P H. pose proof (agrees_cards P H) as (_ & _ & _ & _ & _ & _ & _ & _ & _ & _ & _ & _ & C & _).
  rewrite (loaded P H) in *. exists (card_value (card_new Ace Spades)), (card_value (card_new Ace Hearts)).
  split; [ apply made_card | ]. split; [ apply made_card | ]. split; [ vm_compute; discriminate | ].
  exact (C (card_new Ace Spades) (card_new Ace Hearts)).
Qed.

Theorem one_character_of_two_bytes : forall P, load_all texts = Some P ->
  exists e, reads P [233%N] (VCon "Err" [("0", e)])
    /\ forall acc, returns_mut P "ParseCardError::fmt" None [e; VStr acc] fine
         (VStr (acc ++ lit "Error parsing input '" ++ [233%N] ++ lit "' as a Card: Found input of length 2, expected 2")).
Proof.
  intros P H. pose proof (agrees_cards P H) as (_ & _ & _ & _ & _ & _ & _ & F & _). pose proof (agrees_written P H) as W.
  exists (parse_error_value (InvalidLength [233%N])). split; [ exact (F [233%N]) | ].
  intros acc. exact (proj1 (proj2 (proj2 (proj2 (proj2 (proj2 (W acc)))))) (InvalidLength [233%N])).
Qed.

Theorem default_panics : forall P h cs, load_all texts = Some P -> Forall2 (made P) h cs -> NoDup h -> 5 <= length h ->
  panics P "Evaluator::evaluate" None
    [VCon "Evaluator" [("0", VCon "LookupTable" [("flush_lookup", VMap (PositiveMap.empty _));
                                                 ("unsuited_lookup", VMap (PositiveMap.empty _))])]; VList cs].
Proof.
  intros P h cs H. pose proof (agrees_evaluate P H) as (_ & _ & D). rewrite (loaded P H) in *. intros F N L.
  rewrite (made_all h cs F). apply (D (cards_macro_idents h)).
  split; [ apply Samples.idents_all_cards | ]. split; [ apply idents_nodup, N | ]. rewrite idents_length. exact L.
Qed.

(** For the examples beside the properties *)
Lemma five_made : exists P cs, load_all texts = Some P
  /\ Forall2 (made P) [(Ten, Hearts); (Jack, Hearts); (Queen, Hearts); (King, Hearts); (Ace, Hearts)] cs.
Proof. destruct readable as (P & H). destruct (made_list P H [(Ten, Hearts); (Jack, Hearts); (Queen, Hearts); (King, Hearts); (Ace, Hearts)]) as (cs & F). exists P, cs. split; assumption. Qed.
