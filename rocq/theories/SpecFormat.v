(** SpecFormat.v: vocabulary of the statements about formatting.  Definitions only. *)
From Coq Require Import List String NArith ZArith Bool Arith.
From Verif Require Import Base ModelCard ModelEval ModelDebugTree ModelFormat.
Import ListNotations.
Local Open Scope list_scope.

(** A text in pieces. *)
Fixpoint said (cs : list chunk) : rstring :=
  match cs with [] => [] | Str s :: cs' => s ++ said cs' | Chr c :: cs' => c :: said cs' end.
(** The pieces handed to a writer in turn until it reports a failure; is there one? *)
Fixpoint feed {W} (wr : writer W) (cs : list chunk) (w : W) : W * bool :=
  match cs with
  | [] => (w, true)
  | c :: cs' => match wr w c with (w', true) => feed wr cs' w' | (w', false) => (w', false) end
  end.
(** Something writes a text: whatever the writer, it hands over the same pieces of that text, in order,
    stops at the first failure and reports it. *)
Definition writes (a : forall W, writer W -> attempt W) (text : rstring) : Prop :=
  exists cs, said cs = text /\ forall W (wr : writer W) w, a W wr w = feed wr cs w.

(** A buffer with room for [n] characters: it takes what fits, and fails if that was not all. *)
Definition buffer (n : nat) : writer rstring :=
  fun w c => let s := w ++ match c with Str s => s | Chr c => [c] end in
             if List.length s <=? n then (s, true) else (firstn n s, false).
(** Any writer, with a record of what it has accepted. *)
Definition recording {W} (wr : writer W) : writer (W * rstring) :=
  fun wl c => match wr (fst wl) c with
              | (w', true) => ((w', snd wl ++ match c with Str s => s | Chr c => [c] end), true)
              | (w', false) => ((w', snd wl), false)
              end.

(** A number as the options want it: sign, [0x] for [#] with [x] or [X], digits; filled up to the width,
    with zeros behind the sign for [0], and else with the fill character on the side away from which the
    text is aligned (on the left if nothing is said), on both sides if centred. *)
Definition digits (r : radix) (bits z : Z) : rstring :=
  match r with
  | Decimal => dec (Z.to_N (Z.abs z))
  | LowerHex => ModelDebugText.hex_text (Z.to_N (z mod 2 ^ bits))
  | UpperHex => map upper (ModelDebugText.hex_text (Z.to_N (z mod 2 ^ bits)))
  end.
Definition sign (f : format) (z : Z) : rstring :=
  if (match f_radix f with Decimal => z <? 0 | _ => false end)%Z then lit "-" else if f_plus f then lit "+" else [].
Definition radix_prefix (f : format) : rstring :=
  match f_alternate f, f_radix f with true, LowerHex | true, UpperHex => lit "0x" | _, _ => [] end.
Definition number_text (f : format) (bits z : Z) : rstring :=
  let head := sign f z ++ radix_prefix f in
  let body := digits (f_radix f) bits z in
  let missing := match f_width f with Some n => n - (List.length head + List.length body) | None => 0 end in
  if f_zero f then head ++ repeat 48%N missing ++ body
  else
    match f_align f with
    | Some AlignLeft => (head ++ body) ++ repeat (f_fill f) missing
    | Some AlignCenter =>
        repeat (f_fill f) (missing / 2) ++ (head ++ body) ++ repeat (f_fill f) (missing - missing / 2)
    | Some AlignRight | None => repeat (f_fill f) missing ++ (head ++ body)
    end.
(** A text is a number in the notation with these digits, without leading zeros. *)
Inductive numeral (symbols : rstring) : rstring -> N -> Prop :=
| numeral_digit d c : nth_error symbols d = Some c -> numeral symbols [c] (N.of_nat d)
| numeral_more s n d c : numeral symbols s n -> n <> 0%N -> nth_error symbols d = Some c ->
    numeral symbols (s ++ [c]) (N.of_nat (List.length symbols) * n + N.of_nat d).

(** A value with its numbers written like that, and everything else as it is. *)
Fixpoint numbers (f : format) (t : tree) : tree :=
  match t with
  | Text s => Text s
  | Number bits z => Text (number_text f bits z)
  | Struct name fields => Struct name (map (fun p => (fst p, numbers f (snd p))) fields)
  | Tuple name items => Tuple name (map (numbers f) items)
  | Items items => Items (map (numbers f) items)
  | Entries entries => Entries (map (fun p => (numbers f (fst p), numbers f (snd p))) entries)
  end.
Definition shown (f : format) (t : tree) : rstring :=
  if f_alternate f then pretty (numbers f t) else compact (numbers f t).
