(** RustProgram.v: the program that the texts of RustText.v are. *)
From Coq Require Import String.
From Verif Require Import Base RustText RustSyntax RustSemantics.
Local Open Scope string_scope.
Local Open Scope list_scope.

(** The files in an order in which every constant comes after those it needs. *)
Definition texts : list string :=
  [src_constants; src_error; src_card_rank; src_card_suit; src_card_mod; src_deck; src_evaluate_lookup_table;
   src_evaluate_hand_rank; src_evaluate_class; src_evaluate_meta; src_evaluate_eval; src_evaluate_utils;
   src_evaluate_evaluation; src_evaluate_mod].
Fixpoint read_all (l : list string) : option (list item) :=
  match l with
  | [] => Some []
  | s :: l' =>
      match read_items s, read_all l' with
      | Some a, Some b => Some (a ++ b)
      | _, _ => None
      end
  end.
Definition load_all (l : list string) : option program :=
  match read_all l with Some is => load is | None => None end.
Definition no_program : program := mk_program [] [] [] [].
Definition or_none (o : option program) : program := match o with Some p => p | None => no_program end.
Definition rust : program := Eval vm_compute in or_none (load_all texts).
Lemma rust_loaded : load_all texts = Some rust.
Proof. vm_cast_no_check (@eq_refl (option program) (Some rust)). Qed.
