(** PropertiesTerminal.v: C65. *)
From Coq Require Import String List NArith.
From Verif Require Import Base ModelCard ModelExamples ModelTerminal SpecTerminal.
From Verif Require HandFacts TerminalFacts.
Import ListNotations.
Local Open Scope list_scope.

(** C65: whatever is printed, if the texts contain no escape character, a terminal shows exactly the
    texts, each in its style, and erases the screen exactly where it is cleared; afterwards no style and no
    unfinished sequence is left over. *)
Theorem C65_shows : forall colours ps, Forall harmless_line ps ->
  terminal Ground plain (flat_map (render colours) ps) = (Ground, plain, flat_map (seen colours) ps).
Proof. exact TerminalFacts.shows. Qed.
Print Assumptions C65_shows.
(** That is so for whole runs of both programs on input without escape characters. *)
Theorem C65_jacks : forall colours (R : Type) (gen : R -> nat -> nat * R) order lines rng g,
  Forall harmless lines -> jacks_main gen order lines rng = Ret g ->
  terminal Ground plain (flat_map (render colours) (g_out g)) = (Ground, plain, flat_map (seen colours) (g_out g)).
Proof.
  exact (fun colours R gen order lines rng g H E =>
           TerminalFacts.shows colours (g_out g) (TerminalFacts.jacks_harmless gen order lines rng g H E)).
Qed.
Print Assumptions C65_jacks.
Theorem C65_repl : forall colours (H : Type) (history : H -> rstring -> result H unit) order lines h out,
  Forall harmless lines -> repl_main history order lines h = Ret out ->
  terminal Ground plain (flat_map (render colours) out) = (Ground, plain, flat_map (seen colours) out).
Proof.
  exact (fun colours H history order lines h out K E =>
           TerminalFacts.shows colours out (TerminalFacts.repl_harmless history order lines h out K E)).
Qed.
Print Assumptions C65_repl.
(** The prompt is its text in bright green (if there are colours), taking no more room than the text. *)
Theorem C65_prompt : forall colours s, harmless s ->
  terminal Ground plain (highlight_prompt colours s true)
  = (Ground, plain, map (fun c => Shown c (pen_for colours [BrightGreen])) s)
  /\ highlight_prompt colours s false = s.
Proof. exact (fun colours s H => conj (TerminalFacts.prompt_shown colours s H) eq_refl). Qed.
Print Assumptions C65_prompt.
(** The prompts of the two programs, one after the other: these characters, all in that style. *)
Theorem C65_both_prompts : forall colours,
  (forall c, In c (snd (terminal Ground plain (highlight_prompt colours JACKS_PROMPT true ++ highlight_prompt colours REPL_PROMPT true)))
             -> exists x, c = Shown x (mk_pen false false false (if colours then Some Green else None)))
  /\ flat_map (fun e => match e with Shown x _ => [x] | _ => [] end)
       (snd (terminal Ground plain (highlight_prompt colours JACKS_PROMPT true ++ highlight_prompt colours REPL_PROMPT true)))
     = lit ">>> poker> ".
Proof. exact TerminalFacts.both_prompts. Qed.
Print Assumptions C65_both_prompts.
(** Without the hypothesis on the input it is false: the REPL quotes its input as it is, so a line with an
    escape sequence in it erases the screen. *)
Theorem C65_any_input_refuted : forall order colours, exists line out,
  repl_main (fun h _ => Ok h) order [line] tt = Ret out
  /\ ~ In Clear out /\ In Erased (snd (terminal Ground plain (flat_map (render colours) out))).
Proof. exact (fun order colours => ex_intro _ TerminalFacts.erasing_line (TerminalFacts.echo_erases order colours)). Qed.
Print Assumptions C65_any_input_refuted.
(** A bold green line after a cleared screen, with and without colours; the two prompts. *)
Example C65_case :
  let green := mk_pen true false false (Some Green) in
  let ps := [Clear; Line [BrightGreen; Bold] (lit "Hi"); Line [] (lit "x")] in
  Forall harmless_line ps
  /\ flat_map (seen true) ps
     = [Erased; Home; Shown 72 green; Shown 105 green; Shown 10 plain; Shown 120 plain; Shown 10 plain]%N
  /\ flat_map (render true) ps
     = ([27; 91; 50; 74; 27; 91; 49; 59; 49; 72;
         27; 91; 49; 59; 57; 50; 109; 72; 105; 27; 91; 48; 109; 10; 120; 10])%N
  /\ flat_map (render false) ps = ([27; 91; 50; 74; 27; 91; 49; 59; 49; 72; 72; 105; 10; 120; 10])%N
  /\ harmless JACKS_PROMPT /\ harmless REPL_PROMPT.
Proof.
  repeat split; repeat constructor; try (apply TerminalFacts.harmless_forallb; reflexivity).
Qed.
Example C65_repl_case : exists out,
  Forall harmless [lit "help"; lit "2x"] /\ repl_main (fun h _ => Ok h) (fun l => l) [lit "help"; lit "2x"] tt = Ret out.
Proof.
  destruct HandFacts.evaluator_new_ret as [ev E]. unfold repl_main. rewrite E. cbn [bind].
  eexists. split; [repeat constructor; apply TerminalFacts.harmless_forallb; reflexivity|reflexivity].
Qed.
