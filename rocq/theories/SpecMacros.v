(** SpecMacros.v: vocabulary of the statements about the macros: the forms of an invocation and what
    each stands for.  Definitions only. *)
From Coq Require Import String List.
From Verif Require Import Base ModelCard ModelMacros Spec SpecApi SpecText SpecDebug.
Import ListNotations.
Local Open Scope string_scope.
Local Open Scope list_scope.

Definition rank_token (r : rank) : token := Ident (Rank_ r).
Definition suit_token (s : suit) : token := Ident (Suit_ s).
(** [Ace, Spades] and [Ace of Spades] *)
Definition plain_card (p : rank * suit) : list token := [rank_token (fst p); Comma; suit_token (snd p)].
Definition of_card (p : rank * suit) : list token := [rank_token (fst p); Ident "of"; suit_token (snd p)].

(** [separated sep items ts]: the items, at least one, with [sep] between them and perhaps after the
    last one. *)
Inductive separated (sep : token) : list (list token) -> list token -> Prop :=
| separated_last i : separated sep [i] i
| separated_trailing i : separated sep [i] (i ++ [sep])
| separated_more i l ts : separated sep l ts -> separated sep (i :: l) (i ++ sep :: ts).

(** [stands env e s]: the expression [e] is the text [s]. *)
Inductive stands (env : token -> option rstring) : token -> rstring -> Prop :=
| stands_literal s : stands env (Text s) s
| stands_name x s : env (Ident x) = Some s -> stands env (Ident x) s
| stands_other n s : env (Other n) = Some s -> stands env (Other n) s.

(** [card!] *)
Inductive card_form (env : token -> option rstring) : list token -> macro_value -> Prop :=
| form_plain p : card_form env (plain_card p) (VCard (card_new (fst p) (snd p)))
| form_of p : card_form env (of_card p) (VCard (card_new (fst p) (snd p)))
| form_text e s : stands env e s -> card_form env [e] (VResult (card_from_str s)).

(** [cards!].  Two names with one comma between them are a rank and a suit, whatever they are. *)
Definition two_names (ts : list token) : Prop := exists x y, ts = [Ident x; Comma; Ident y].
Inductive cards_form (env : token -> option rstring) : list token -> macro_value -> Prop :=
| form_plains l ts : separated Semi (map plain_card l) ts ->
    cards_form env ts (VArray (map (fun p => card_new (fst p) (snd p)) l))
| form_ofs l ts : separated Comma (map of_card l) ts ->
    cards_form env ts (VArray (map (fun p => card_new (fst p) (snd p)) l))
| form_texts es l ts : separated Comma (map (fun e => [e]) es) ts -> Forall2 (stands env) es l ->
    2 <= length l -> ~ two_names ts -> cards_form env ts (VIter (parse_to_iter l))
| form_words e s words : stands env e s -> splits s words -> cards_form env [e] (VIter (parse_to_iter words)).

(** [box_cards!] *)
Inductive box_form (slices : token -> option (list card)) : list token -> list card -> Prop :=
| form_box es l ts : separated Comma (map (fun e => [e]) es) ts ->
    Forall2 (fun e cards => e <> Comma /\ e <> Semi /\ slices e = Some cards) es l ->
    2 <= length l -> box_form slices ts (concat l).
