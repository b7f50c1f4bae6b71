(** ModelDebugText.v: the [Debug] ([{:?}]) text of [ParseCardError].

    The standard library escapes texts and characters by tables of the Unicode standard (which
    characters are printable, which extend the one before).  They are not modelled: [plain c] stands
    for "the tables let [c] be printed as it is", and is arbitrary.  Everything else of
    [char::escape_debug_ext] is written out, from memory of the standard library (not in /repo). *)
From Coq Require Import String HexadecimalString.
From Verif Require Import Base ModelCard ModelDebug.
Local Open Scope string_scope.
Local Open Scope list_scope.

(** [{:x}] of a number: lower-case hexadecimal without leading zeros (standard library) *)
Definition hex_text (n : N) : rstring := lit (NilZero.string_of_uint (N.to_hex_uint n)).

(** [core::char::methods::escape_debug_ext]: [quote] is the kind of quote that is escaped, [""""] in
    texts and ['] in characters; the other kind is not. *)
Definition escape_debug (plain : rchar -> bool) (quote : rchar) (c : rchar) : rstring :=
  (if c =? 0 then lit "\0"
   else if c =? 9 then lit "\t"
   else if c =? 13 then lit "\r"
   else if c =? 10 then lit "\n"
   else if c =? 92 then lit "\\"
   else if c =? quote then [92; quote]
   else if (c =? 34) || (c =? 39) then [c]
   else if plain c then [c]
   else lit "\u{" ++ hex_text c ++ lit "}")%N.

(** [Debug for str] (and [String]) and [Debug for char] of the standard library *)
Definition str_debug (plain : rchar -> bool) (s : rstring) : rstring :=
  [34%N] ++ flat_map (escape_debug plain 34%N) s ++ [34%N].
Definition char_debug (plain : rchar -> bool) (c : rchar) : rstring :=
  [39%N] ++ escape_debug plain 39%N c ++ [39%N].

(** src/error.rs:65 derived [Debug] of [ParseCardError] (variants and fields at lines 66-98) *)
Definition parse_card_error_fields (plain : rchar -> bool) (e : parse_card_error)
  : rstring * list (rstring * rstring) :=
  match e with
  | InvalidLength input => (lit "InvalidLength", [(lit "original_input", str_debug plain input)])
  | InvalidRank input c => (lit "InvalidRank",
      [(lit "original_input", str_debug plain input); (lit "incorrect_char", char_debug plain c)])
  | InvalidSuit input c => (lit "InvalidSuit",
      [(lit "original_input", str_debug plain input); (lit "incorrect_char", char_debug plain c)])
  end.
Definition parse_card_error_debug (plain : rchar -> bool) (e : parse_card_error) : rstring :=
  let (name, fields) := parse_card_error_fields plain e in debug_struct name fields.
(** [{:#?}]; the fields' own texts are single lines, because line feeds are escaped. *)
Definition parse_card_error_debug_pretty (plain : rchar -> bool) (e : parse_card_error) : rstring :=
  let (name, fields) := parse_card_error_fields plain e in debug_struct_pretty name fields.
