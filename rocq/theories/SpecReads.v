(** SpecReads.v: vocabulary for C51, the table reads of a call.  Definitions only. *)
From Coq Require Import List ZArith.
From Verif Require Import Base ModelCard ModelEval ModelTable ModelEvaluation ModelThreads Spec SpecApi SpecTable.
Import ListNotations.

(** A call run alone: the table reads it makes, in order, and what it returns. *)
Fixpoint call {A} (e : evaluator) (p : proc A) : list (table_id * Z) * outcome A :=
  match p with
  | Done o => ([], o)
  | Read t key k => let r := call e (k (read_table e t key)) in ((t, key) :: fst r, snd r)
  end.

(** The read that five cards [F] call for: the flush table if they are suited and the other one if
    not, at the product of the primes of their ranks. *)
Definition read_for (F : list card) (r : table_id * Z) : Prop :=
  (fst r = FlushTable <-> suited (faces F)) /\ snd r = product (ranks (faces F)).
