(** ModelMacros.v: the macros of src/card/macros.rs, as functions from the tokens between the
    parentheses.  [None] is a compile error.

    Simplified: an expression is one token (an identifier, a string literal, or [Other n] for any
    other expression, which the reader of the invocation is taken to have grouped already); keywords
    are not identifiers; the types of the expressions are not checked beyond their being texts (or,
    for [box_cards!], slices of cards).  Matching follows macro_rules: the arms are tried from the
    first to the last, an arm matches if it matches all the tokens, and an optional trailing
    separator is told from a separator by what follows it. *)
From Coq Require Import String List.
From Verif Require Import Base ModelCard.
Import ListNotations.
Local Open Scope string_scope.
Local Open Scope list_scope.

Inductive token := Ident (name : string) | Text (s : rstring) | Other (n : nat) | Comma | Semi.
(** [$e:expr] *)
Definition is_expr (t : token) : bool :=
  match t with Ident _ | Text _ | Other _ => true | Comma | Semi => false end.

(** What an invocation stands for. *)
Inductive macro_value :=
| VCard (c : card)
| VResult (r : result card parse_card_error)
| VArray (l : list card)
| VIter (it : parse_iter).

(** The variants of [Rank] and [Suit] by name: src/card/rank.rs:12-39, src/card/suit.rs:8-17 *)
Definition rank_names : list (string * rank) :=
  [("Two", Two); ("Three", Three); ("Four", Four); ("Five", Five); ("Six", Six); ("Seven", Seven);
   ("Eight", Eight); ("Nine", Nine); ("Ten", Ten); ("Jack", Jack); ("Queen", Queen); ("King", King);
   ("Ace", Ace)].
Definition suit_names : list (string * suit) :=
  [("Clubs", Clubs); ("Hearts", Hearts); ("Spades", Spades); ("Diamonds", Diamonds)].
Definition named {A} (names : list (string * A)) (name : string) : option A :=
  option_map snd (find (fun p => String.eqb name (fst p)) names).

(** The value of an expression that is a text: that of a literal is itself, the others' is up to the
    surrounding program. *)
Definition text_of (env : token -> option rstring) (e : token) : option rstring :=
  match e with Text s => Some s | _ => env e end.

(** The arms' patterns *)
(** src/card/macros.rs:42 [$rank:ident of $suit:ident] *)
Definition match_of (ts : list token) : option (string * string) :=
  match ts with
  | [Ident r; Ident o; Ident s] => if String.eqb o "of" then Some (r, s) else None
  | _ => None
  end.
(** src/card/macros.rs:144 [$($rank:ident, $suit:ident);+ $(;)?] *)
Fixpoint match_semis (ts : list token) : option (list (string * string)) :=
  match ts with
  | Ident r :: Comma :: Ident s :: rest =>
      match rest with
      | [] | [Semi] => Some [(r, s)]
      | Semi :: rest' => option_map (cons (r, s)) (match_semis rest')
      | _ => None
      end
  | _ => None
  end.
(** src/card/macros.rs:147 [$($rank:ident of $suit:ident),+ $(,)?] *)
Fixpoint match_ofs (ts : list token) : option (list (string * string)) :=
  match ts with
  | Ident r :: Ident o :: Ident s :: rest =>
      if String.eqb o "of" then
        match rest with
        | [] | [Comma] => Some [(r, s)]
        | Comma :: rest' => option_map (cons (r, s)) (match_ofs rest')
        | _ => None
        end
      else None
  | _ => None
  end.
(** [$($e:expr),+ $(,)?] *)
Fixpoint match_exprs (ts : list token) : option (list token) :=
  match ts with
  | e :: rest =>
      if is_expr e then
        match rest with
        | [] | [Comma] => Some [e]
        | Comma :: rest' => option_map (cons e) (match_exprs rest')
        | _ => None
        end
      else None
  | [] => None
  end.
(** src/card/macros.rs:150 and 165 [$first:expr, $($others:expr),+ $(,)?] *)
Definition match_two_or_more (ts : list token) : option (token * list token) :=
  match ts with
  | e :: Comma :: rest => if is_expr e then option_map (pair e) (match_exprs rest) else None
  | _ => None
  end.
(** src/card/macros.rs:45 and 153 [$e:expr] *)
Definition match_expr (ts : list token) : option token :=
  match ts with [e] => if is_expr e then Some e else None | _ => None end.

(** All of a list, or nothing. *)
Fixpoint all_some {A} (l : list (option A)) : option (list A) :=
  match l with
  | [] => Some []
  | Some x :: l' => option_map (cons x) (all_some l')
  | None :: _ => None
  end.

(** src/card/macros.rs:39-41: the expansion of the first arm of [card!] *)
Definition new_of_names (r s : string) : option card :=
  match named rank_names r, named suit_names s with
  | Some r, Some s => Some (card_new r s)
  | _, _ => None
  end.
(** src/card/macros.rs:38-48 [card!].  [limit]: how many more nested expansions the compiler allows. *)
Fixpoint card_macro (limit : nat) (env : token -> option rstring) (ts : list token) : option macro_value :=
  match limit with
  | O => None
  | S limit' =>
      match ts with
      | [Ident r; Comma; Ident s] => option_map VCard (new_of_names r s)
      | _ =>
          match match_of ts with
          | Some (r, s) => card_macro limit' env [Ident r; Comma; Ident s]
          | None =>
              match match_expr ts with
              | Some e => option_map (fun s => VResult (card_from_str s)) (text_of env e)
              | None => None
              end
          end
      end
  end.
(** src/card/macros.rs:145 [$crate::card!($rank, $suit)], as an element of an array of cards *)
Definition element (limit : nat) (env : token -> option rstring) (p : string * string) : option card :=
  match card_macro limit env [Ident (fst p); Comma; Ident (snd p)] with
  | Some (VCard c) => Some c
  | _ => None
  end.
(** src/card/macros.rs:148 [$($rank, $suit);+] *)
Fixpoint semis (l : list (string * string)) : list token :=
  match l with
  | [] => []
  | [(r, s)] => [Ident r; Comma; Ident s]
  | (r, s) :: l' => Ident r :: Comma :: Ident s :: Semi :: semis l'
  end.
(** src/card/macros.rs:143-156 [cards!] *)
Fixpoint cards_macro (limit : nat) (env : token -> option rstring) (ts : list token) : option macro_value :=
  match limit with
  | O => None
  | S limit' =>
      match match_semis ts with
      | Some l => option_map VArray (all_some (map (element limit' env) l))
      | None =>
          match match_ofs ts with
          | Some l => cards_macro limit' env (semis l)
          | None =>
              match match_two_or_more ts with
              | Some (e, l) =>
                  option_map (fun l => VIter (cards_macro_strings l)) (all_some (map (text_of env) (e :: l)))
              | None =>
                  match match_expr ts with
                  | Some e => option_map (fun s => VIter (cards_macro_text s)) (text_of env e)
                  | None => None
                  end
              end
          end
      end
  end.
(** src/card/macros.rs:164-172 [box_cards!]; [slices]: the cards an expression gives *)
Definition box_cards_macro (slices : token -> option (list card)) (ts : list token) : option (list card) :=
  match match_two_or_more ts with
  | Some (e, l) =>
      match slices e, all_some (map slices l) with
      | Some first, Some others => Some (box_cards first others)
      | _, _ => None
      end
  | None => None
  end.
