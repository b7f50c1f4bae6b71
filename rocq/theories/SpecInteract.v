(** SpecInteract.v: vocabulary of the statements about runs at a terminal.  Definitions only. *)
From Coq Require Import List String.
From Verif Require Import Base ModelCard ModelExamples ModelInteract.
Import ListNotations.
Local Open Scope list_scope.

(** What happens during a run, in this order: something is printed, standard output refuses something,
    or a line (or the end of input) is read. *)
Inductive event := Said (p : printed) | Failed (p : printed) | Heard (l : option rstring).
(** A world that also writes down what happens. *)
Definition recording {W} (o : world W) : world (W * list event) :=
  mk_world
    (fun s => let (l, w) := w_read o (fst s) in (l, (w, snd s ++ [Heard l])))
    (fun s p => let (ok, w) := w_print o (fst s) p in (ok, (w, snd s ++ [if ok then Said p else Failed p]))).
(** The lines read and the things printed *)
Definition heard (tr : list event) : list rstring :=
  flat_map (fun e => match e with Heard (Some l) => [l] | _ => [] end) tr.
Definition said (tr : list event) : list printed :=
  flat_map (fun e => match e with Said p => [p] | _ => [] end) tr.

(** The world of a fixed list of lines, whose output goes to a list *)
Definition piped : world (list rstring * list printed) :=
  mk_world
    (fun s => match fst s with [] => (None, s) | l :: lines => (Some l, (lines, snd s)) end)
    (fun s p => (true, (fst s, snd s ++ [p]))).

(** A conversation with poker-repl after its welcome: each line is answered before the next is read, until
    the end of input, "quit", or an answer that cannot be printed. *)
Inductive dialogue (answer : rstring -> printed) : list event -> ended unit -> Prop :=
| dialogue_end : dialogue answer [Heard None] (Finished tt)
| dialogue_quit : dialogue answer [Heard (Some (lit "quit"))] (Finished tt)
| dialogue_going : dialogue answer [] Going
| dialogue_broken l : l <> lit "quit" -> dialogue answer [Heard (Some l); Failed (answer l)] Broken
| dialogue_answer l tr e : l <> lit "quit" -> dialogue answer tr e ->
    dialogue answer (Heard (Some l) :: Said (answer l) :: tr) e.
