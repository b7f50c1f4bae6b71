(** ModelFormat.v: formatting as it runs: the [fmt] functions with the options of the format string
    ([{:>10}], [{:#06x?}], ...) and a writer that may fail.

    ModelCard.v, ModelEval.v, ModelDebug.v and ModelDebugTree.v give the texts of [{}] and [{:?}]; here
    are the calls that produce them.  [core::fmt] is not in /repo and is written from memory of the
    standard library. *)
From Coq Require Import String HexadecimalString.
From Verif Require Import Base ModelCard ModelEval ModelDebug ModelDebugText ModelDebugTree.
Local Open Scope string_scope.
Local Open Scope list_scope.

(** ** Writers *)
(** One call of [fmt::Write]: [write_str] or [write_char]. *)
Inductive chunk := Str (s : rstring) | Chr (c : rchar).
(** A writer: what a call does to its state, and whether it returns [Ok]. *)
Definition writer (W : Type) := W -> chunk -> W * bool.
(** Something that writes, ending in [Ok(())] ([true]) or [Err(fmt::Error)]. *)
Definition attempt (W : Type) := W -> W * bool.
Definition done {W} : attempt W := fun w => (w, true).
(** [a?; b], and [result.and_then(..)] *)
Definition and_then {W} (a b : attempt W) : attempt W :=
  fun w => let (w', ok) := a w in if ok then b w' else (w', false).
Fixpoint in_turn {W} (l : list (attempt W)) : attempt W :=
  match l with [] => done | a :: l' => and_then a (in_turn l') end.
Definition put {W} (wr : writer W) (c : chunk) : attempt W := fun w => wr w c.

(** ** [core::fmt::Formatter] *)
Inductive alignment := AlignLeft | AlignCenter | AlignRight.
Inductive radix := Decimal | LowerHex | UpperHex.
(** The options between [:] and the closing brace, but for [?]; [f_radix] is [x] or [X] before [?]. *)
Record format := mk_format {
  f_fill : rchar;
  f_align : option alignment;
  f_plus : bool;
  f_alternate : bool;
  f_zero : bool;
  f_width : option nat;
  f_precision : option nat;
  f_radix : radix
}.
(** [{}] *)
Definition default_format : format := mk_format 32%N None false false false None None Decimal.

(** [Formatter::padding]: how many fill characters come before and how many behind *)
Definition padding (f : format) (n : nat) (default : alignment) : nat * nat :=
  match match f_align f with Some a => a | None => default end with
  | AlignLeft => (0, n)
  | AlignRight => (n, 0)
  | AlignCenter => (Nat.div n 2, Nat.div (n + 1) 2)
  end.
Definition fills {W} (wr : writer W) (fill : rchar) (n : nat) : attempt W :=
  in_turn (repeat (put wr (Chr fill)) n).

(** [Formatter::pad], which is [Display for str] and [String] *)
Definition str_fmt {W} (wr : writer W) (f : format) (s : rstring) : attempt W :=
  match f_width f, f_precision f with
  | None, None => put wr (Str s)
  | width, precision =>
      let s := match precision with Some max => firstn max s | None => s end in
      match width with
      | None => put wr (Str s)
      | Some width =>
          if Nat.leb width (List.length s) then put wr (Str s)
          else
            let (pre, post) := padding f (width - List.length s) AlignLeft in
            and_then (fills wr (f_fill f) pre) (and_then (put wr (Str s)) (fills wr (f_fill f) post))
      end
  end.
(** [Display for char] *)
Definition char_fmt {W} (wr : writer W) (f : format) (c : rchar) : attempt W :=
  match f_width f, f_precision f with
  | None, None => put wr (Chr c)
  | _, _ => str_fmt wr f [c]
  end.

(** [Formatter::pad_integral]; [digits]: those of the number without its sign *)
Definition pad_integral {W} (wr : writer W) (f : format) (negative : bool) (prefix digits : rstring) : attempt W :=
  let sign := if negative then Some 45%N else if f_plus f then Some 43%N else None in
  let write_prefix :=
    and_then (match sign with Some c => put wr (Chr c) | None => done end)
             (if f_alternate f then put wr (Str prefix) else done) in
  let width :=
    List.length digits + (match sign with Some _ => 1 | None => 0 end)
    + (if f_alternate f then List.length prefix else 0) in
  match f_width f with
  | None => and_then write_prefix (put wr (Str digits))
  | Some min =>
      if Nat.leb min width then and_then write_prefix (put wr (Str digits))
      else if f_zero f then
        and_then write_prefix (and_then (fills wr 48%N (min - width)) (put wr (Str digits)))
      else
        let (pre, post) := padding f (min - width) AlignRight in
        and_then (fills wr (f_fill f) pre)
          (and_then write_prefix (and_then (put wr (Str digits)) (fills wr (f_fill f) post)))
  end.
(** Upper-case hexadecimal digits *)
Definition upper (c : rchar) : rchar := if (97 <=? c)%N then (c - 32)%N else c.
(** [LowerHex] and [UpperHex] of the integer types show the bits, of a negative number too. *)
Definition bits_of (bits : Z) (z : Z) : N := Z.to_N (z mod 2 ^ bits)%Z.
(** [Display] of the integer types *)
Definition int_fmt {W} (wr : writer W) (f : format) (z : Z) : attempt W :=
  pad_integral wr f (z <? 0)%Z [] (dec (Z.to_N (Z.abs z))).
(** [Debug] of the integer types *)
Definition int_debug_fmt {W} (wr : writer W) (f : format) (bits z : Z) : attempt W :=
  match f_radix f with
  | Decimal => int_fmt wr f z
  | LowerHex => pad_integral wr f false (lit "0x") (hex_text (bits_of bits z))
  | UpperHex => pad_integral wr f false (lit "0x") (map upper (hex_text (bits_of bits z)))
  end.

(** [write!(f, "..{}..{}..", ..)], that is [Formatter::write_fmt]: the pieces of the format string, the
    empty ones left out, and the arguments, each with the options of its own placeholder, here always
    [{}].  The options of [f] itself are not used. *)
Inductive piece (W : Type) := Literal (s : rstring) | Argument (a : format -> attempt W).
Arguments Literal {W}. Arguments Argument {W}.
Definition write_fmt {W} (wr : writer W) (pieces : list (piece W)) : attempt W :=
  in_turn (map (fun p => match p with
                         | Literal [] => done
                         | Literal s => put wr (Str s)
                         | Argument a => a default_format
                         end) pieces).

(** ** [Display] *)
(** src/card/rank.rs:198-200 *)
Definition rank_fmt {W} (wr : writer W) (f : format) (r : rank) : attempt W := put wr (Chr (rank_as_char r)).
(** src/card/suit.rs:112-114 *)
Definition suit_fmt {W} (wr : writer W) (f : format) (s : suit) : attempt W := put wr (Chr (suit_as_pretty_char s)).
(** src/card/mod.rs:327-331 *)
Definition card_fmt {W} (wr : writer W) (f : format) (c : card) : attempt W :=
  write_fmt wr [Literal (lit "[ "); Argument (fun f => rank_fmt wr f (card_rank c));
                Argument (fun f => suit_fmt wr f (card_suit c)); Literal (lit " ]")].
(** src/evaluate/class.rs:83-120 *)
Definition class_fmt {W} (wr : writer W) (f : format) (c : eval_class) : attempt W :=
  let text s : piece W := Argument (fun f => str_fmt wr f s) in
  match c with
  | HighCard high_rank => write_fmt wr [Literal (lit "High card, "); text (rank_as_str_name high_rank)]
  | Pair r => write_fmt wr [Literal (lit "Pair, "); text (rank_as_str_name_plural r)]
  | TwoPair high_pair low_pair =>
      write_fmt wr [Literal (lit "Two pair, "); text (rank_as_str_name_plural high_pair); Literal (lit " and ");
                    text (rank_as_str_name_plural low_pair)]
  | ThreeOfAKind trips => write_fmt wr [Literal (lit "Three of a kind, "); text (rank_as_str_name_plural trips)]
  | Straight high_rank =>
      write_fmt wr [Literal (lit "Straight, "); text (rank_as_str_name high_rank); Literal (lit "-high")]
  | Flush high_rank =>
      write_fmt wr [Literal (lit "Flush, "); text (rank_as_str_name high_rank); Literal (lit "-high")]
  | FullHouse trips r =>
      write_fmt wr [Literal (lit "Full house, "); text (rank_as_str_name_plural trips); Literal (lit " over ");
                    text (rank_as_str_name_plural r)]
  | FourOfAKind quads => write_fmt wr [Literal (lit "Four of a kind, "); text (rank_as_str_name_plural quads)]
  | StraightFlush high_rank =>
      match high_rank with
      | Ace => write_fmt wr [Literal (lit "Royal flush")]
      | high_rank =>
          write_fmt wr [Literal (lit "Straight flush, "); text (rank_as_str_name high_rank); Literal (lit "-high")]
      end
  end.
(** src/evaluate/meta.rs:168-170 and src/evaluate/eval.rs:126-128 hand the formatter on *)
Definition meta_fmt {W} (wr : writer W) (f : format) (m : meta) : attempt W := class_fmt wr f (meta_class m).
Definition eval_fmt {W} (wr : writer W) (f : format) (e : eval) : attempt W := meta_fmt wr f (eval_meta e).
(** src/error.rs:100-129 *)
Definition parse_card_error_fmt {W} (wr : writer W) (f : format) (e : parse_card_error) : attempt W :=
  match e with
  | InvalidLength input =>
      write_fmt wr [Literal (lit "Error parsing input '"); Argument (fun f => str_fmt wr f input);
                    Literal (lit "' as a Card: Found input of length ");
                    Argument (fun f => int_fmt wr f (Z.of_N (str_len input))); Literal (lit ", expected 2")]
  | InvalidRank input c =>
      write_fmt wr [Literal (lit "Error parsing input '"); Argument (fun f => str_fmt wr f input);
                    Literal (lit "' as a Card: Invalid rank character '"); Argument (fun f => char_fmt wr f c);
                    Literal (lit "', expected one of [23456789TJQKA]")]
  | InvalidSuit input c =>
      write_fmt wr [Literal (lit "Error parsing input '"); Argument (fun f => str_fmt wr f input);
                    Literal (lit "' as a Card: Invalid suit character '"); Argument (fun f => char_fmt wr f c);
                    Literal (lit "', expected one of [chsd]")]
  end.
(** src/error.rs:187-219 *)
Definition eval_error_fmt {W} (wr : writer W) (iter_order : list (card * nat) -> list (card * nat)) (f : format)
    (e : eval_error) : attempt W :=
  match e with
  | CardsNotUnique cards =>
      let dups :=
        join (lit " ")
          (flat_map (fun p => if Nat.ltb 1 (snd p) then [rank_suit_string (fst p)] else [])
             (iter_order (counts card_eqb cards))) in
      write_fmt wr
        [Literal (lit "Cannot evaluate a poker hand with a set of cards that are not unique. Cards duplicated at least once: ");
         Argument (fun f => str_fmt wr f dups)]
  | InvalidHandSize size =>
      write_fmt wr
        [Literal (lit "Cannot evaluate a poker hand with a set of less than 5 cards. Number of cards received: ");
         Argument (fun f => int_fmt wr f (Z.of_nat size))]
  end.

(** [String] as a writer: it takes everything. *)
Definition chunk_text (c : chunk) : rstring := match c with Str s => s | Chr c => [c] end.
Definition string_writer : writer rstring := fun w c => (w ++ chunk_text c, true).
(** [ToString::to_string]: panics if [fmt] returns [Err] *)
Definition to_string (a : writer rstring -> format -> attempt rstring) : outcome rstring :=
  let (buf, ok) := a string_writer default_format [] in
  if ok then Ret buf else Panic UnwrapFailed.

(** ** [Debug] *)
(** [PadAdapter] around a writer; the flag is [on_newline].  [write_str] splits behind line feeds. *)
Fixpoint line_pieces (s : rstring) : list rstring :=
  match s with
  | [] => []
  | c :: s' =>
      if (c =? 10)%N then [c] :: line_pieces s'
      else match line_pieces s' with [] => [[c]] | l :: ls => (c :: l) :: ls end
  end.
Definition ends_with_newline (s : rstring) : bool := match rev s with c :: _ => (c =? 10)%N | [] => false end.
Definition pad_adapter {W} (wr : writer W) : writer (W * bool) :=
  let one (s : chunk) (wb : W * bool) : (W * bool) * bool :=
    let (w, on_newline) := wb in
    let (w, ok) := if on_newline then wr w (Str (lit "    ")) else (w, true) in
    if ok then let (w, ok) := wr w s in ((w, ends_with_newline (chunk_text s)), ok)
    else ((w, on_newline), false) in
  fun wb c =>
    match c with
    | Str s => in_turn (map (fun l => one (Str l)) (line_pieces s)) wb
    | Chr c => one (Chr c) wb
    end.
(** Writing through a new [PadAdapter], which is then dropped *)
Definition padded {W} (a : attempt (W * bool)) : attempt W :=
  fun w => let '((w, _), ok) := a (w, true) in (w, ok).

(** The builders ([core::fmt::builders]).  [g first x] writes the part [x],
    the first one or a later one. *)
Section Parts.
  Context {A B : Type} (g : bool -> A -> B).
  Fixpoint parts (first : bool) (l : list A) : list B :=
    match l with [] => [] | x :: l' => g first x :: parts false l' end.
End Parts.
(** Simplified: a leaf ([Text]: the name of a variant, a quoted text or character) is handed over in one
    piece; the standard library hands quoted texts over in several. *)
Fixpoint debug_fmt (f : format) (t : tree) : forall W, writer W -> attempt W :=
  match t with
  | Text s => fun W wr => put wr (Str s)
  | Number bits z => fun W wr => int_debug_fmt wr f bits z
  | Struct name fields => fun W wr =>
      and_then (put wr (Str name))
        (and_then
           (in_turn
              (parts (fun first p =>
                 if f_alternate f then
                   and_then (if first then put wr (Str (lit " {" ++ [10%N])) else done)
                     (padded
                        (and_then (put (pad_adapter wr) (Str (fst p)))
                           (and_then (put (pad_adapter wr) (Str (lit ": ")))
                              (and_then (debug_fmt f (snd p) _ (pad_adapter wr))
                                 (put (pad_adapter wr) (Str (lit "," ++ [10%N])))))))
                 else
                   and_then (put wr (Str (if first then lit " { " else lit ", ")))
                     (and_then (put wr (Str (fst p)))
                        (and_then (put wr (Str (lit ": "))) (debug_fmt f (snd p) _ wr)))) true fields))
           (match fields with
            | [] => done
            | _ => put wr (Str (if f_alternate f then lit "}" else lit " }"))
            end))
  | Tuple name items => fun W wr =>
      and_then (put wr (Str name))
        (and_then
           (in_turn
              (parts (fun first x =>
                 if f_alternate f then
                   and_then (if first then put wr (Str (lit "(" ++ [10%N])) else done)
                     (padded
                        (and_then (debug_fmt f x _ (pad_adapter wr))
                           (put (pad_adapter wr) (Str (lit "," ++ [10%N])))))
                 else and_then (put wr (Str (if first then lit "(" else lit ", "))) (debug_fmt f x _ wr)) true items))
           (match items with [] => done | _ => put wr (Str (lit ")")) end))
  | Items items => fun W wr =>
      and_then (put wr (Str (lit "[")))
        (and_then
           (in_turn
              (parts (fun first x =>
                 if f_alternate f then
                   and_then (if first then put wr (Str [10%N]) else done)
                     (padded
                        (and_then (debug_fmt f x _ (pad_adapter wr))
                           (put (pad_adapter wr) (Str (lit "," ++ [10%N])))))
                 else and_then (if first then done else put wr (Str (lit ", "))) (debug_fmt f x _ wr)) true items))
           (put wr (Str (lit "]"))))
  | Entries entries => fun W wr =>
      and_then (put wr (Str (lit "{")))
        (and_then
           (in_turn
              (parts (fun first p =>
                 if f_alternate f then
                   and_then (if first then put wr (Str [10%N]) else done)
                     (padded
                        (and_then (debug_fmt f (fst p) _ (pad_adapter wr))
                           (and_then (put (pad_adapter wr) (Str (lit ": ")))
                              (and_then (debug_fmt f (snd p) _ (pad_adapter wr))
                                 (put (pad_adapter wr) (Str (lit "," ++ [10%N])))))))
                 else
                   and_then (if first then done else put wr (Str (lit ", ")))
                     (and_then (debug_fmt f (fst p) _ wr)
                        (and_then (put wr (Str (lit ": "))) (debug_fmt f (snd p) _ wr)))) true entries))
           (put wr (Str (lit "}"))))
  end.
