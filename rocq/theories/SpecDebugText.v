(** SpecDebugText.v: vocabulary of the statements about the [Debug] text of a parse error: what
    Rust's string and character literals stand for.  Definitions only. *)
From Coq Require Import List String ZArith.
From Verif Require Import Base ModelCard.
Import ListNotations.
Local Open Scope N_scope.

(** [hex s n]: [s] is [n] in hexadecimal, in lower case. *)
Definition hex_digit (d : N) : rchar := if d <? 10 then 48 + d else 87 + d.
Inductive hex : rstring -> N -> Prop :=
| hex_one d : d < 16 -> hex [hex_digit d] d
| hex_more s n d : hex s n -> d < 16 -> hex (s ++ [hex_digit d])%list (16 * n + d).

(** [spells q body text]: between two quotes [q], the Rust source [body] stands for [text]. *)
Inductive spells (q : rchar) : rstring -> rstring -> Prop :=
| spells_end : spells q [] []
| spells_plain c b t : c <> q -> c <> 92 -> spells q b t -> spells q (c :: b) (c :: t)
| spells_null b t : spells q b t -> spells q (lit "\0" ++ b)%list (0 :: t)
| spells_tab b t : spells q b t -> spells q (lit "\t" ++ b)%list (9 :: t)
| spells_line_feed b t : spells q b t -> spells q (lit "\n" ++ b)%list (10 :: t)
| spells_return b t : spells q b t -> spells q (lit "\r" ++ b)%list (13 :: t)
| spells_backslash b t : spells q b t -> spells q (lit "\\" ++ b)%list (92 :: t)
| spells_single b t : spells q b t -> spells q (lit "\'" ++ b)%list (39 :: t)
| spells_double b t : spells q b t -> spells q (92 :: 34 :: b) (34 :: t)
| spells_code s n b t : hex s n -> spells q b t -> spells q (lit "\u{" ++ s ++ lit "}" ++ b)%list (n :: t).
(** The source of a literal, quotes included. *)
Definition literal (q : rchar) (source text : rstring) : Prop :=
  exists body, source = (q :: body ++ [q])%list /\ spells q body text.

(** A value of the error type as one writes it in Rust (with [.into()] left out). *)
Inductive error_source : parse_card_error -> rstring -> Prop :=
| source_length s t : literal 34 t s ->
    error_source (InvalidLength s) (lit "InvalidLength { original_input: " ++ t ++ lit " }")%list
| source_rank s c t u : literal 34 t s -> literal 39 u [c] ->
    error_source (InvalidRank s c)
      (lit "InvalidRank { original_input: " ++ t ++ lit ", incorrect_char: " ++ u ++ lit " }")%list
| source_suit s c t u : literal 34 t s -> literal 39 u [c] ->
    error_source (InvalidSuit s c)
      (lit "InvalidSuit { original_input: " ++ t ++ lit ", incorrect_char: " ++ u ++ lit " }")%list.
(** The same over several lines. *)
Inductive error_source_pretty : parse_card_error -> rstring -> Prop :=
| pretty_length s t : literal 34 t s ->
    error_source_pretty (InvalidLength s)
      (lit "InvalidLength {" ++ [10] ++ lit "    original_input: " ++ t ++ lit "," ++ [10] ++ lit "}")%list
| pretty_rank s c t u : literal 34 t s -> literal 39 u [c] ->
    error_source_pretty (InvalidRank s c)
      (lit "InvalidRank {" ++ [10] ++ lit "    original_input: " ++ t ++ lit "," ++ [10]
       ++ lit "    incorrect_char: " ++ u ++ lit "," ++ [10] ++ lit "}")%list
| pretty_suit s c t u : literal 34 t s -> literal 39 u [c] ->
    error_source_pretty (InvalidSuit s c)
      (lit "InvalidSuit {" ++ [10] ++ lit "    original_input: " ++ t ++ lit "," ++ [10]
       ++ lit "    incorrect_char: " ++ u ++ lit "," ++ [10] ++ lit "}")%list.
(** A character the standard library never escapes in a text. *)
Definition never_escaped (c : rchar) : Prop := c <> 0 /\ c <> 9 /\ c <> 10 /\ c <> 13 /\ c <> 34 /\ c <> 92.
