(** SpecBuild.v: vocabulary for C54.  Definitions only. *)
From Coq Require Import List String.
From Verif Require Import Base ModelCard ModelBuild.
Import ListNotations.
Local Open Scope string_scope.

Definition rstring_dec (a b : rstring) : {a = b} + {a <> b} := list_eq_dec N.eq_dec a b.

(** What a file holds ([None]: it does not exist) after some actions, if it held [old] before. *)
Fixpoint content (acts : list action) (path : rstring) (old : option (list N)) : option (list N) :=
  match acts with
  | [] => old
  | Create p :: acts' => content acts' path (if rstring_dec p path then Some [] else old)
  | Write p b :: acts' =>
      content acts' path
        (if rstring_dec p path then option_map (fun o => (o ++ b)%list) old else old)
  | Get _ :: acts' => content acts' path old
  end.

(** The requests made. *)
Definition requests (acts : list action) : list rstring :=
  flat_map (fun a => match a with Get u => [u] | _ => [] end) acts.

(** Where the tables are published: a file at one commit of the repository poker-lookup-table. *)
Definition published : rstring :=
  lit "https://raw.githubusercontent.com/deus-x-mackina/poker-lookup-table/8e22032a6280eb790a13cc16b26efe4e16d1f43a/codegen.txt".

(** The generated file: [codegen.rs] in a directory ([""] is the current one). *)
Definition codegen (dir : rstring) : rstring :=
  (dir ++ (if N.eqb (last dir 47%N) 47 then [] else lit "/") ++ lit "codegen.rs")%list.

(** The script has work to do. *)
Definition wanted (w : environment) : Prop := static_lookup w = true /\ docs_rs w <> Some (lit "1").

(** The same world, except that the web answers with another HTTP status. *)
Definition with_status (status : Z) (w : environment) : environment :=
  mk_environment (static_lookup w) (docs_rs w) (out_dir w) (can_create w)
    (fun u => match web w u with Response _ b => Response status b | NoResponse => NoResponse end)
    (written w).
