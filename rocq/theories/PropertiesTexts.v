(** PropertiesTexts.v: C63, C64. *)
From Coq Require Import String List ZArith.
From Verif Require Import Base ModelCard ModelDebugText ModelMacros SpecDebug SpecDebugText SpecMacros
  DebugTextFacts MacroFacts.
Import ListNotations.
Local Open Scope string_scope.
Local Open Scope list_scope.

(** C63: the [Debug] text of a parse error is the error as Rust source, whichever characters the
    Unicode tables call printable; [{:?}] and [{:#?}]. *)
Theorem C63_text : forall plain e,
  error_source e (parse_card_error_debug plain e) /\ error_source_pretty e (parse_card_error_debug_pretty plain e).
Proof. exact (fun plain e => conj (debug_source plain e) (debug_source_pretty plain e)). Qed.
Print Assumptions C63_text.
(** Source stands for one error, so the texts tell errors apart. *)
Theorem C63_reads : forall a b t, error_source a t -> error_source b t -> a = b.
Proof. exact error_source_reads. Qed.
Print Assumptions C63_reads.
Theorem C63_apart : forall plain a b,
  (parse_card_error_debug plain a = parse_card_error_debug plain b <-> a = b)
  /\ (parse_card_error_debug_pretty plain a = parse_card_error_debug_pretty plain b <-> a = b).
Proof. exact debug_apart. Qed.
Print Assumptions C63_apart.
(** The text of [{:?}] is one line, without tabs or null characters, whatever the input was. *)
Theorem C63_one_line : forall plain e,
  Forall (fun c => c <> 0 /\ c <> 9 /\ c <> 10 /\ c <> 13)%N (parse_card_error_debug plain e).
Proof. exact debug_one_line. Qed.
Print Assumptions C63_one_line.
(** Printable input other than quotes and backslashes is shown as it is. *)
Theorem C63_plain : forall plain s, Forall (fun c => plain c = true /\ never_escaped c) s ->
  parse_card_error_debug plain (InvalidLength s)
  = lit "InvalidLength { original_input: """ ++ s ++ lit """ }".
Proof. exact plain_length_text. Qed.
Print Assumptions C63_plain.
(** Tab, bell and e-acute, with a table that prints ASCII only. *)
Example C63_case :
  parse_card_error_debug (fun c => (32 <=? c) && (c <? 127))%N (InvalidRank [9; 7; 233; 34; 39]%N 39%N)
  = lit "InvalidRank { original_input: ""\t\u{7}\u{e9}\""'"", incorrect_char: '\'' }".
Proof. reflexivity. Qed.
Example C63_plain_case : Forall (fun c => (32 <=? c)%N = true /\ never_escaped c) (lit "10c").
Proof. repeat constructor; discriminate. Qed.

(** C64: the macros accept these forms of invocation and no other.  The limit is the compiler's on
    nested expansions, 128 by default. *)
Theorem C64_card : forall limit env ts v, 2 <= limit -> (card_macro limit env ts = Some v <-> card_form env ts v).
Proof. exact card_macro_forms. Qed.
Print Assumptions C64_card.
Theorem C64_cards : forall limit env ts v, 3 <= limit -> (cards_macro limit env ts = Some v <-> cards_form env ts v).
Proof. exact cards_macro_forms. Qed.
Print Assumptions C64_cards.
Theorem C64_box_cards : forall slices ts l, box_cards_macro slices ts = Some l <-> box_form slices ts l.
Proof. exact box_cards_macro_forms. Qed.
Print Assumptions C64_box_cards.
(** Two variables are never taken for two texts, though a trailing comma makes them so. *)
Theorem C64_two_variables : forall limit env x y s t, 3 <= limit -> env (Ident x) = Some s -> env (Ident y) = Some t ->
  (forall it, cards_macro limit env [Ident x; Comma; Ident y] <> Some (VIter it))
  /\ cards_macro limit env [Ident x; Comma; Ident y; Comma] = Some (VIter (parse_to_iter [s; t])).
Proof. exact two_variables. Qed.
Print Assumptions C64_two_variables.
(** One text may not have a trailing comma, and there must be something. *)
Theorem C64_no_form : forall limit env e, 3 <= limit ->
  cards_macro limit env [e; Comma] = None /\ cards_macro limit env [] = None.
Proof. exact no_form. Qed.
Print Assumptions C64_no_form.
(** [cards!(King of Hearts, Queen of Hearts,)], [cards!(King, Hearts; Queen, Hearts;)], [cards!("Kh", "Qh")]
    and [cards!("Kh Qh")], with no variables in scope. *)
Example C64_case :
  let env := fun _ => None in
  let two := VArray [card_new King Hearts; card_new Queen Hearts] in
  cards_form env [Ident "King"; Ident "of"; Ident "Hearts"; Comma; Ident "Queen"; Ident "of"; Ident "Hearts"; Comma] two
  /\ cards_form env [Ident "King"; Comma; Ident "Hearts"; Semi; Ident "Queen"; Comma; Ident "Hearts"; Semi] two
  /\ cards_form env [Text (lit "Kh"); Comma; Text (lit "Qh")] (VIter (parse_to_iter [lit "Kh"; lit "Qh"]))
  /\ cards_form env [Text (lit "Kh Qh")] (VIter (parse_to_iter [lit "Kh"; lit "Qh"]))
  /\ cards_macro 128 env [Ident "Kong"; Ident "of"; Ident "Hearts"] = None.
Proof.
  repeat split; try (apply (cards_macro_forms 128); [repeat constructor|reflexivity]).
Qed.
Example C64_box_case : box_form (fun e => match e with Other n => Some (repeat (card_new King Hearts) n) | _ => None end)
  [Other 1; Comma; Other 2; Comma] (repeat (card_new King Hearts) 3).
Proof. apply box_cards_macro_forms. reflexivity. Qed.
