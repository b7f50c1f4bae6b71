(** SpecTerminal.v: vocabulary of C65: a terminal, and what it should show. *)
From Coq Require Import List NArith Bool String.
From Verif Require Import Base ModelCard ModelExamples.
Import ListNotations.
Local Open Scope N_scope.
Local Open Scope list_scope.

(** ** A terminal (ECMA-48, as far as needed) *)
Inductive colour := Red | Green | Yellow | Blue | Magenta | Cyan | White.
(** How the next character will look: the colours are the bright ones. *)
Record pen := mk_pen { bold : bool; italic : bool; underlined : bool; ink : option colour }.
Definition plain : pen := mk_pen false false false None.

(** What happens on the screen. *)
Inductive event := Shown (c : N) (p : pen) | Erased | Home.

(** "Select graphic rendition" *)
Definition sgr (p : pen) (n : N) : pen :=
  match n with
  | 0 => plain
  | 1 => mk_pen true (italic p) (underlined p) (ink p)
  | 3 => mk_pen (bold p) true (underlined p) (ink p)
  | 4 => mk_pen (bold p) (italic p) true (ink p)
  | 91 => mk_pen (bold p) (italic p) (underlined p) (Some Red)
  | 92 => mk_pen (bold p) (italic p) (underlined p) (Some Green)
  | 93 => mk_pen (bold p) (italic p) (underlined p) (Some Yellow)
  | 94 => mk_pen (bold p) (italic p) (underlined p) (Some Blue)
  | 95 => mk_pen (bold p) (italic p) (underlined p) (Some Magenta)
  | 96 => mk_pen (bold p) (italic p) (underlined p) (Some Cyan)
  | 97 => mk_pen (bold p) (italic p) (underlined p) (Some White)
  | _ => p
  end.

(** Between characters: nothing special, behind an escape character, or inside a control sequence with
    the parameters before the last semicolon and the digits behind it. *)
Inductive mode := Ground | Escape | Control (before : list N) (current : N).

(** One character. *)
Definition key (m : mode) (p : pen) (c : N) : mode * pen * list event :=
  match m with
  | Ground => if c =? 27 then (Escape, p, []) else (Ground, p, [Shown c p])
  | Escape => if c =? 91 then (Control [] 0, p, []) else (Ground, p, [])
  | Control before n =>
      if (48 <=? c) && (c <=? 57) then (Control before (10 * n + (c - 48)), p, [])
      else if c =? 59 then (Control (before ++ [n]) 0, p, [])
      else if c =? 109 then (Ground, fold_left sgr (before ++ [n]) p, [])
      else (Ground, p,
            match before, n with
            | [], 2 => if c =? 74 then [Erased] else []
            | [1], 1 => if c =? 72 then [Home] else []
            | _, _ => []
            end)
  end.
(** A text. *)
Fixpoint terminal (m : mode) (p : pen) (s : rstring) : mode * pen * list event :=
  match s with
  | [] => (m, p, [])
  | c :: s' =>
      let '(m1, p1, e1) := key m p c in
      let '(m2, p2, e2) := terminal m1 p1 s' in
      (m2, p2, e1 ++ e2)
  end.

(** ** What should be seen *)
Definition with_style (p : pen) (s : style) : pen :=
  match s with
  | Bold => mk_pen true (italic p) (underlined p) (ink p)
  | Italic => mk_pen (bold p) true (underlined p) (ink p)
  | Underline => mk_pen (bold p) (italic p) true (ink p)
  | BrightRed => mk_pen (bold p) (italic p) (underlined p) (Some Red)
  | BrightGreen => mk_pen (bold p) (italic p) (underlined p) (Some Green)
  | BrightYellow => mk_pen (bold p) (italic p) (underlined p) (Some Yellow)
  | BrightBlue => mk_pen (bold p) (italic p) (underlined p) (Some Blue)
  | BrightMagenta => mk_pen (bold p) (italic p) (underlined p) (Some Magenta)
  | BrightCyan => mk_pen (bold p) (italic p) (underlined p) (Some Cyan)
  | BrightWhite => mk_pen (bold p) (italic p) (underlined p) (Some White)
  end.
Definition pen_for (colours : bool) (st : list style) : pen :=
  if colours then fold_left with_style st plain else plain.
(** A cleared screen is erased with the cursor at the top left; a line is its characters in its style,
    then a line feed in none. *)
Definition seen (colours : bool) (p : printed) : list event :=
  match p with
  | Clear => [Erased; Home]
  | Line st s => map (fun c => Shown c (pen_for colours st)) s ++ [Shown 10 plain]
  end.

(** No escape character. *)
Definition harmless (s : rstring) : Prop := ~ In 27 s.
Definition harmless_line (p : printed) : Prop :=
  match p with Clear => True | Line _ s => harmless s end.
