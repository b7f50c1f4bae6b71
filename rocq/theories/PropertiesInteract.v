(** PropertiesInteract.v: C77 (the example programs at a terminal). *)
From Coq Require Import List String ZArith.
From Verif Require Import Base ModelCard ModelEval ModelTable ModelEvaluation ModelExamples ModelInteract.
From Verif Require Import Spec SpecApi SpecText SpecExamples SpecInteract.
From Verif Require InteractFacts ReleaseFacts HandFacts.
Import ListNotations.
Local Open Scope Z_scope.

(** C77: whoever answers, and whatever their answers depend on, the game ends as the game that is given the same
    lines beforehand; if standard output fails, the program panics right there, having printed what that
    game begins with. *)
Theorem C77_game : forall (R : Type) (gen : R -> nat -> nat * R) order rng fuel (W : Type) (o : world W) w w' tr e,
  exec (recording o) (play fuel gen order rng) (w, []) = ((w', tr), e) ->
  match e with
  | Finished t => jacks_main gen order (heard tr) rng
                  = Ret (mk_game [] (said tr) (t_deck t) (t_hand t) (t_credits t) (t_rng t))
  | Panicked p => jacks_main gen order (heard tr) rng = Panic p
  | Broken => exists before p, tr = before ++ [Failed p]
      /\ forall g, jacks_main gen order (heard tr) rng = Ret g -> exists more, g_out g = said tr ++ p :: more
  | Going => forall g, jacks_main gen order (heard tr) rng = Ret g -> exists more, g_out g = said tr ++ more
  end.
Proof. exact @InteractFacts.played. Qed.
Print Assumptions C77_game.
(** Whenever a line is read, all that the lines before it cause has been printed, and last of all the question
    that the line answers: the wager, with the credits there are, or the cards to swap, with five cards
    in the hand.  The end of input ends the game there and then. *)
Theorem C77_asked : forall (R : Type) (gen : R -> nat -> nat * R) order rng fuel (W : Type) (o : world W) w w' tr e tr1 l tr2,
  exec (recording o) (play fuel gen order rng) (w, []) = ((w', tr), e) -> tr = tr1 ++ Heard l :: tr2 ->
  exists g before q, jacks_main gen order (heard tr1) rng = Ret g /\ g_out g = said tr1 /\ tr1 = before ++ [Said q]
    /\ ((g_hand g = [] /\ q = wager_message (g_credits g)) \/ (List.length (g_hand g) = 5%nat /\ q = swaps_message))
    /\ (l = None -> tr2 = [] /\ e = Finished (mk_table (g_deck g) (g_hand g) (g_credits g) (g_rng g))).
Proof. exact @InteractFacts.asked_first. Qed.
Print Assumptions C77_asked.
(** The game never hangs: if [fuel] turns of its loops did not end it, it has read so many lines. *)
Theorem C77_going : forall (R : Type) (gen : R -> nat -> nat * R) order rng fuel (W : Type) (o : world W) w w' tr,
  fair gen -> reorders order ->
  exec (recording o) (play fuel gen order rng) (w, []) = ((w', tr), Going) -> (fuel <= List.length (heard tr))%nat.
Proof. exact @InteractFacts.keeps_asking. Qed.
Print Assumptions C77_going.
(** Nobody can make it panic within 2^52 lines, but for a standard output that fails. *)
Theorem C77_no_panic : forall (R : Type) (gen : R -> nat -> nat * R) order rng fuel (W : Type) (o : world W) w w' tr p,
  fair gen -> reorders order -> Z.of_nat (List.length (heard tr)) < 2 ^ 52 ->
  exec (recording o) (play fuel gen order rng) (w, []) <> ((w', tr), Panicked p).
Proof. exact @InteractFacts.no_panic. Qed.
Print Assumptions C77_no_panic.
(** And the game given its lines beforehand is one such game. *)
Theorem C77_piped : forall (R : Type) (gen : R -> nat -> nat * R) order rng lines g,
  jacks_main gen order lines rng = Ret g ->
  exec piped (play (S (List.length lines)) gen order rng) (lines, [])
  = ((g_lines g, g_out g), Finished (mk_table (g_deck g) (g_hand g) (g_credits g) (g_rng g))).
Proof. exact @InteractFacts.piped_game. Qed.
Print Assumptions C77_piped.
(** poker-repl: welcome, then for each line its answer before the next line is read. *)
Theorem C77_repl : forall (H : Type) (history : H -> rstring -> result H unit) order,
  (forall h l, exists h', history h l = Ok h') -> reorders order ->
  exists ev answer, new_evaluator ev /\ (forall l, replies ev l (answer l))
  /\ forall h fuel (W : Type) (o : world W) w w' tr e,
     exec (recording o) (repl fuel history order h) (w, []) = ((w', tr), e) ->
     (tr = [Failed (Line [BrightGreen; Bold] repl_welcome)] /\ e = Broken)
     \/ exists tr', tr = Said (Line [BrightGreen; Bold] repl_welcome) :: tr' /\ dialogue answer tr' e
        /\ (e = Going -> List.length (heard tr) = fuel).
Proof. exact @InteractFacts.conversation. Qed.
Print Assumptions C77_repl.
(** Whatever becomes of the history, it ends as poker-repl given its lines beforehand. *)
Theorem C77_repl_lines : forall (H : Type) (history : H -> rstring -> result H unit) order h fuel
    (W : Type) (o : world W) w w' tr e,
  exec (recording o) (repl fuel history order h) (w, []) = ((w', tr), e) ->
  match e with
  | Finished _ => repl_main history order (heard tr) h = Ret (said tr)
  | Panicked p => repl_main history order (heard tr) h = Panic p
  | Broken => exists before p, tr = before ++ [Failed p]
      /\ forall out, repl_main history order (heard tr) h = Ret out -> exists more, out = said tr ++ p :: more
  | Going => forall out, repl_main history order (heard tr) h = Ret out -> exists more, out = said tr ++ more
  end.
Proof. exact @InteractFacts.served. Qed.
Print Assumptions C77_repl_lines.
Theorem C77_repl_answered : forall (H : Type) (history : H -> rstring -> result H unit) order h fuel
    (W : Type) (o : world W) w w' tr e tr1 l tr2,
  exec (recording o) (repl fuel history order h) (w, []) = ((w', tr), e) -> tr = tr1 ++ Heard l :: tr2 ->
  repl_main history order (heard tr1) h = Ret (said tr1) /\ (l = None -> tr2 = [] /\ e = Finished tt).
Proof. exact @InteractFacts.answered_first. Qed.
Print Assumptions C77_repl_answered.

(** A player who bets five more than the number of things on the screen goes on for ever, *)
Example C77_case_going : exists w tr,
  exec (recording InteractFacts.counting) (play 3 ReleaseFacts.first_of ReleaseFacts.as_is tt) (O, []) = ((w, tr), Going)
  /\ heard tr = [lit "8"; lit "10"; lit "12"].
Proof. exact InteractFacts.counting_case. Qed.
(** one who runs out of screen after two things sees the program panic, *)
Example C77_case_broken :
  exec (recording InteractFacts.small_screen) (play 9 ReleaseFacts.first_of ReleaseFacts.as_is tt) (O, [])
  = ((3%nat, [Said Clear; Said (Line [BrightGreen; Bold] jacks_welcome); Failed (wager_message 100)]), Broken).
Proof. exact InteractFacts.small_case. Qed.
(** and one who has nothing to say ends it. *)
Example C77_case_end : exists t,
  exec (recording InteractFacts.speechless) (play 9 ReleaseFacts.first_of ReleaseFacts.as_is tt) (tt, [])
  = ((tt, [Said Clear; Said (Line [BrightGreen; Bold] jacks_welcome); Said (wager_message 100); Heard None]), Finished t)
  /\ t_credits t = 100.
Proof. exact InteractFacts.speechless_case. Qed.
(** The same at the prompt of poker-repl *)
Example C77_case_repl :
  exec (recording InteractFacts.counting) (repl 1 (fun (h : unit) _ => Ok h) (fun l => l) tt) (O, [])
  = ((2%nat, [Said (Line [BrightGreen; Bold] repl_welcome); Heard (Some (lit "6"));
              Said (Line [] (parse_card_error_display (InvalidLength (lit "6"))))]), Going).
Proof. exact InteractFacts.repl_case. Qed.
