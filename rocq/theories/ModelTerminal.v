(** ModelTerminal.v: from what the examples print (ModelExamples.v) to the characters that reach
    standard output: the [colored] texts, [clear_terminal!] and the coloured prompt
    (examples/common/mod.rs).

    [colored] 2 is a dependency and not in /repo; [compute_style], [escape_inner_reset_sequences] and
    its [Display] are written from memory of the published version.  Whether it colours at all depends
    on the environment (NO_COLOR, CLICOLOR, ...): [colours], arbitrary, the same for the whole run. *)
From Coq Require Import String.
From Verif Require Import Base ModelCard ModelEval ModelExamples.
Local Open Scope string_scope.
Local Open Scope list_scope.

(** [Color::to_fg_str] and [Style::to_str] of the values used *)
Definition style_code (s : style) : rstring :=
  lit match s with
  | BrightRed => "91" | BrightGreen => "92" | BrightYellow => "93" | BrightBlue => "94"
  | BrightMagenta => "95" | BrightCyan => "96" | BrightWhite => "97"
  | Bold => "1" | Italic => "3" | Underline => "4"
  end.
Definition is_attribute (s : style) : bool :=
  match s with Bold | Italic | Underline => true | _ => false end.

(** [\x1B[] *)
Definition csi : rstring := 27%N :: lit "[".
(** [ColoredString::compute_style]: the attributes, then the colour set last.  (The programs set at most
    one attribute, so in which order [Style::to_str] lists several does not matter.) *)
Definition last_colour (st : list style) : list style :=
  match rev (filter (fun s => negb (is_attribute s)) st) with [] => [] | c :: _ => [c] end.
Definition compute_style (st : list style) : rstring :=
  csi ++ join (lit ";") (map style_code (filter is_attribute st ++ last_colour st)) ++ lit "m".
(** [\x1B[0m] *)
Definition reset : rstring := csi ++ lit "0m".
(** [str::starts_with], giving what follows *)
Fixpoint strip_prefix (p s : rstring) : option rstring :=
  match p, s with
  | [], _ => Some s
  | x :: p', y :: s' => if N.eqb x y then strip_prefix p' s' else None
  | _ :: _, [] => None
  end.
(** [ColoredString::escape_inner_reset_sequences]: the style again behind every reset in the text *)
Fixpoint escape_resets (fuel : nat) (again : rstring) (s : rstring) : rstring :=
  match fuel, s with
  | O, _ => s
  | _, [] => []
  | S fuel', c :: s' =>
      match strip_prefix reset s with
      | Some rest => reset ++ again ++ escape_resets fuel' again rest
      | None => c :: escape_resets fuel' again s'
      end
  end.
(** [Display for ColoredString] *)
Definition colored_display (colours : bool) (st : list style) (text : rstring) : rstring :=
  match st with
  | [] => text
  | _ =>
      if colours then
        compute_style st ++ escape_resets (List.length text) (compute_style st) text ++ reset
      else text
  end.

(** examples/common/mod.rs:37-41 [clear_terminal!] *)
Definition clear_terminal : rstring := csi ++ lit "2J" ++ csi ++ lit "1;1H".

(** [print!("\x1B[2J\x1B[1;1H")] and [println!("{}", ..)] *)
Definition render (colours : bool) (p : printed) : rstring :=
  match p with
  | Clear => clear_terminal
  | Line st text => colored_display colours st text ++ newline
  end.

(** examples/common/mod.rs:15-25 [Highlighter::highlight_prompt] *)
Definition highlight_prompt (colours : bool) (prompt : rstring) (default : bool) : rstring :=
  if default then colored_display colours [BrightGreen] prompt else prompt.
(** examples/jacks-or-better.rs:14 and examples/poker-repl.rs:47 [PROMPT] *)
Definition JACKS_PROMPT : rstring := lit ">>> ".
Definition REPL_PROMPT : rstring := lit "poker> ".
