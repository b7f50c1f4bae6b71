(** PropertiesFormat.v: C75 (format options and failing writers). *)
From Coq Require Import List String NArith ZArith Bool Arith.
From Verif Require Import Base ModelCard ModelEval ModelDebug ModelDebugText ModelDebugTree ModelFormat SpecFormat.
From Verif Require FormatFacts NumeralFacts.
Import ListNotations.
Local Open Scope string_scope.
Local Open Scope list_scope.

(** C75: whatever the options ([{:>20}], [{:.3}], ...), [Display] of every public type hands the writer
    the text of [{}], nothing cut off and nothing filled in; it stops at the writer's first failure
    and reports it. *)
Theorem C75_display : forall f,
  (forall r, writes (fun W wr => rank_fmt wr f r) (rank_display r))
  /\ (forall s, writes (fun W wr => suit_fmt wr f s) (suit_display s))
  /\ (forall c, writes (fun W wr => card_fmt wr f c) (card_display c))
  /\ (forall c, writes (fun W wr => class_fmt wr f c) (class_display c))
  /\ (forall e, writes (fun W wr => eval_fmt wr f e) (eval_display e))
  /\ (forall e, writes (fun W wr => parse_card_error_fmt wr f e) (parse_card_error_display e))
  /\ (forall order e, writes (fun W wr => eval_error_fmt wr order f e) (eval_error_display order e)).
Proof. exact FormatFacts.displays. Qed.
Print Assumptions C75_display.
(** So [to_string] gives that text and never panics. *)
Theorem C75_to_string :
  (forall r, to_string (fun wr f => rank_fmt wr f r) = Ret (rank_display r))
  /\ (forall s, to_string (fun wr f => suit_fmt wr f s) = Ret (suit_display s))
  /\ (forall c, to_string (fun wr f => card_fmt wr f c) = Ret (card_display c))
  /\ (forall c, to_string (fun wr f => class_fmt wr f c) = Ret (class_display c))
  /\ (forall e, to_string (fun wr f => eval_fmt wr f e) = Ret (eval_display e))
  /\ (forall e, to_string (fun wr f => parse_card_error_fmt wr f e) = Ret (parse_card_error_display e))
  /\ (forall order e, to_string (fun wr f => eval_error_fmt wr order f e) = Ret (eval_error_display order e)).
Proof. exact FormatFacts.to_strings. Qed.
Print Assumptions C75_to_string.
(** [Debug] of any value hands over the text with its numbers written as the options want, and nothing
    else changed but for [#], which is that of C68. *)
Theorem C75_debug : forall f t, writes (fun W wr => debug_fmt f t W wr) (shown f t).
Proof. exact FormatFacts.debug_writes. Qed.
Print Assumptions C75_debug.
Theorem C75_debug_default : forall f t, f_width f = None -> f_plus f = false -> f_radix f = Decimal ->
  shown f t = if f_alternate f then pretty t else compact t.
Proof. exact FormatFacts.default_shown. Qed.
Print Assumptions C75_debug_default.
(** Ranks, suits, classes and parse errors hold no numbers, and no other option than [#] matters. *)
Theorem C75_debug_without_numbers : forall plain f,
  (forall r, shown f (rank_tree r) = rank_debug r) /\ (forall s, shown f (suit_tree s) = suit_debug s)
  /\ (forall c, shown f (class_tree c) = if f_alternate f then pretty (class_tree c) else compact (class_tree c))
  /\ (forall e, shown f (parse_card_error_tree plain e)
               = if f_alternate f then pretty (parse_card_error_tree plain e) else compact (parse_card_error_tree plain e)).
Proof. exact FormatFacts.without_numbers. Qed.
Print Assumptions C75_debug_without_numbers.
(** The numbers of cards, results and errors are filled up to the width one by one. *)
Theorem C75_debug_numbers : forall f, f_alternate f = false ->
  (forall c, shown f (card_tree c) = lit "Card { unique_integer: " ++ number_text f 32 (unique_integer c) ++ lit ", rank: "
                                     ++ rank_debug (card_rank c) ++ lit ", suit: " ++ suit_debug (card_suit c) ++ lit " }")
  /\ (forall n, shown f (eval_error_tree (InvalidHandSize n)) = lit "InvalidHandSize(" ++ number_text f 64 (Z.of_nat n) ++ lit ")")
  /\ (forall p, shown f (phr_tree p) = lit "PokerHandRank(" ++ number_text f 16 (phr p) ++ lit ")").
Proof. exact FormatFacts.with_numbers. Qed.
Print Assumptions C75_debug_numbers.
Theorem C75_width : forall f bits z n, f_width f = Some n -> n <= List.length (number_text f bits z).
Proof. exact FormatFacts.number_length. Qed.
Print Assumptions C75_width.
(** Its digits are those of the number in decimal, and of its two's complement in hexadecimal; there is
    but one such text. *)
Theorem C75_digits : forall bits z,
  numeral (lit "0123456789") (digits Decimal bits z) (Z.to_N (Z.abs z))
  /\ numeral (lit "0123456789abcdef") (digits LowerHex bits z) (Z.to_N (z mod 2 ^ bits))
  /\ numeral (lit "0123456789ABCDEF") (digits UpperHex bits z) (Z.to_N (z mod 2 ^ bits)).
Proof. exact NumeralFacts.digits_numeral. Qed.
Print Assumptions C75_digits.
Theorem C75_one_numeral : forall y s n, numeral y s n -> forall t, numeral y t n -> s = t.
Proof. exact NumeralFacts.numeral_unique. Qed.
Print Assumptions C75_one_numeral.
(** What writes a text fills a buffer that is too small with the beginning of the text and says so; *)
Theorem C75_full_buffer : forall a text n, writes a text ->
  a rstring (buffer n) [] = (firstn n text, Nat.leb (List.length text) n).
Proof. exact FormatFacts.full_buffer. Qed.
Print Assumptions C75_full_buffer.
(** whatever the writer, what it has accepted is a beginning of the text, and all of it if no failure is
    reported. *)
Theorem C75_nothing_lost : forall a text W (wr : writer W) w, writes a text ->
  exists log rest, a _ (recording wr) (w, []) = ((fst (a W wr w), log), snd (a W wr w))
  /\ log ++ rest = text /\ (snd (a W wr w) = true -> rest = []).
Proof. exact FormatFacts.nothing_lost. Qed.
Print Assumptions C75_nothing_lost.

(** [{:>20}], [{:*^8}], [{:#010x?}] *)
Definition right_20 : format := mk_format 32%N (Some AlignRight) false false false (Some 20) None Decimal.
Definition stars_8 : format := mk_format 42%N (Some AlignCenter) false false false (Some 8) None Decimal.
Definition hex_10 : format := mk_format 32%N None false true true (Some 10) None LowerHex.
Example C75_case :
  card_fmt string_writer right_20 (card_new Ten Clubs) [] = (card_display (card_new Ten Clubs), true)
  /\ str_fmt string_writer right_20 (lit "ten") [] = (lit "                 ten", true)
  /\ eval_fmt (buffer 5) right_20 EVAL_BEST [] = (lit "Royal", false)
  /\ debug_fmt stars_8 (eval_error_tree (InvalidHandSize 4)) _ string_writer [] = (lit "InvalidHandSize(***4****)", true)
  /\ debug_fmt hex_10 (phr_tree (PokerHandRank 7462)) _ string_writer []
     = (lit "PokerHandRank(" ++ [10%N] ++ lit "    0x00001d26," ++ [10%N] ++ lit ")", true)
  /\ digits UpperHex 32 (-2) = lit "FFFFFFFE" /\ number_text default_format 16 (-5) = lit "-5" /\ number_text hex_10 16 (-5) = lit "0x0000fffb".
Proof. repeat split; vm_compute; reflexivity. Qed.
