(** SpecOdds.v: vocabulary of the statements that count what the source text answers.  Definitions only. *)
From Coq Require Import String List ZArith Bool.
From Verif Require Import RustSyntax RustSemantics SpecRust.
Import ListNotations.

(** [n] of the results [es] answer [true] to the question [f]. *)
Definition counted (P : program) (es : list value) (f : string) (n : Z) : Prop :=
  exists bs, Forall2 (fun e b => returns P f None [e] (VBool b)) es bs /\ Z.of_nat (count_occ bool_dec bs true) = n.
(** Each result is better than all that follow. *)
Definition best_first (P : program) (es : list value) : Prop := ForallOrdPairs (fun a b => better P a b true) es.
