(** RustTable.v: running the text of [LookupTable::new] (src/evaluate/lookup_table.rs:27-327) builds the table of the
    model, with any fuel and depth beyond what it needs. *)
From Coq Require Import String.
From Verif Require Import Base ModelCard ModelEval ModelTable ModelEvaluation.
From Verif Require Import RustSyntax RustSemantics RustProgram RustValues RustSteps.
Local Open Scope string_scope.
Local Open Scope list_scope.

Lemma call_lookup_table_new : forall fuel d,
  call (engine (S (Nat.add 220 fuel)) (S (S (S (S (S (S (S d)))))))) "LookupTable::new" None []
  = lift (fun t => (table_value t, VUnit)) lookup_table_new.
Proof. intros fuel d. match goal with |- _ = ?r => vm_cast_no_check (@eq_refl _ r) end. Qed.
