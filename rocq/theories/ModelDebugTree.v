(** ModelDebugTree.v: [{:?}] and [{:#?}] of every public type, by way of a tree of what the (derived or
    written) [fmt] functions hand to the standard library's builders.

    ModelDebug.v and ModelDebugText.v write the texts of [{:?}] down directly; here are the pretty
    texts of nested values too, and [Evaluator].  [ParseToIter] also derives [Debug], but only for an
    inner iterator that has it, and [parse_to_iter] hides its iterator behind [impl Iterator]
    (src/card/mod.rs:270-278), so no caller can print one. *)
From Coq Require Import String FMapPositive.
From Verif Require Import Base ModelCard ModelEval ModelTable ModelEvaluation ModelDebug ModelDebugText.
Local Open Scope string_scope.
Local Open Scope list_scope.

(** ** The standard library's builders, [core::fmt::builders] (from memory, not in /repo) *)
Inductive tree :=
| Text (text : rstring)                                (* a text without parts *)
| Number (bits z : Z)                                  (* an integer of a type of that many bits *)
| Struct (name : rstring) (fields : list (rstring * tree))  (* [debug_struct] *)
| Tuple (name : rstring) (items : list tree)           (* [debug_tuple] *)
| Items (items : list tree)                            (* [debug_list] *)
| Entries (entries : list (tree * tree)).              (* [debug_map] *)

(** [{:?}] *)
Fixpoint compact (t : tree) : rstring :=
  match t with
  | Text s => s
  | Number _ z => debug_int z
  | Struct name [] => name
  | Struct name fields =>
      name ++ lit " { " ++ join (lit ", ") (map (fun p => fst p ++ lit ": " ++ compact (snd p)) fields) ++ lit " }"
  | Tuple name [] => name
  | Tuple name items => name ++ lit "(" ++ join (lit ", ") (map compact items) ++ lit ")"
  | Items items => lit "[" ++ join (lit ", ") (map compact items) ++ lit "]"
  | Entries entries =>
      lit "{" ++ join (lit ", ") (map (fun p => compact (fst p) ++ lit ": " ++ compact (snd p)) entries) ++ lit "}"
  end.

(** [PadAdapter]: four blanks before the first character of each line; [fresh]: a line begins here *)
Fixpoint pad (fresh : bool) (s : rstring) : rstring :=
  match s with
  | [] => []
  | c :: s' => (if fresh then lit "    " else []) ++ c :: pad (c =? 10)%N s'
  end.

(** [{:#?}]: every part goes through a [PadAdapter] of its own, together with its name and its comma *)
Fixpoint pretty (t : tree) : rstring :=
  match t with
  | Text s => s
  | Number _ z => debug_int z
  | Struct name [] => name
  | Struct name fields =>
      name ++ lit " {" ++ [10%N]
      ++ flat_map (fun p => pad true (fst p ++ lit ": " ++ pretty (snd p) ++ lit "," ++ [10%N])) fields ++ lit "}"
  | Tuple name [] => name
  | Tuple name items =>
      name ++ lit "(" ++ [10%N] ++ flat_map (fun x => pad true (pretty x ++ lit "," ++ [10%N])) items ++ lit ")"
  | Items [] => lit "[]"
  | Items items => lit "[" ++ [10%N] ++ flat_map (fun x => pad true (pretty x ++ lit "," ++ [10%N])) items ++ lit "]"
  | Entries [] => lit "{}"
  | Entries entries =>
      lit "{" ++ [10%N]
      ++ flat_map (fun p => pad true (pretty (fst p) ++ lit ": " ++ pretty (snd p) ++ lit "," ++ [10%N])) entries
      ++ lit "}"
  end.

(** ** The types *)
(** src/card/rank.rs:6, src/card/suit.rs:7: variants without fields *)
Definition rank_tree (r : rank) : tree := Text (rank_debug r).
Definition suit_tree (s : suit) : tree := Text (suit_debug s).
Definition i32_tree (z : Z) : tree := Number 32 z.
(** src/card/mod.rs:317-325 *)
Definition card_tree (c : card) : tree :=
  Struct (lit "Card") [(lit "unique_integer", i32_tree (unique_integer c)); (lit "rank", rank_tree (card_rank c));
                       (lit "suit", suit_tree (card_suit c))].
(** src/evaluate/class.rs:28-77 *)
Definition class_tree (c : eval_class) : tree :=
  match c with
  | HighCard r => Struct (lit "HighCard") [(lit "high_rank", rank_tree r)]
  | Pair r => Struct (lit "Pair") [(lit "pair", rank_tree r)]
  | TwoPair a b => Struct (lit "TwoPair") [(lit "first_pair", rank_tree a); (lit "second_pair", rank_tree b)]
  | ThreeOfAKind r => Struct (lit "ThreeOfAKind") [(lit "trips", rank_tree r)]
  | Straight r => Struct (lit "Straight") [(lit "high_rank", rank_tree r)]
  | Flush r => Struct (lit "Flush") [(lit "high_rank", rank_tree r)]
  | FullHouse a b => Struct (lit "FullHouse") [(lit "trips", rank_tree a); (lit "pair", rank_tree b)]
  | FourOfAKind r => Struct (lit "FourOfAKind") [(lit "quads", rank_tree r)]
  | StraightFlush r => Struct (lit "StraightFlush") [(lit "high_rank", rank_tree r)]
  end.
(** src/evaluate/hand_rank.rs:7-8 *)
Definition phr_tree (p : poker_hand_rank) : tree := Tuple (lit "PokerHandRank") [Number 16 (phr p)].
(** src/evaluate/meta.rs:11-51 *)
Definition meta_tree (m : meta) : tree :=
  match m with
  | MHighCard p r => Struct (lit "HighCard") [(lit "hand_rank", phr_tree p); (lit "high_rank", rank_tree r)]
  | MPair p r => Struct (lit "Pair") [(lit "hand_rank", phr_tree p); (lit "pair", rank_tree r)]
  | MTwoPair p a b => Struct (lit "TwoPair")
      [(lit "hand_rank", phr_tree p); (lit "high_pair", rank_tree a); (lit "low_pair", rank_tree b)]
  | MThreeOfAKind p r => Struct (lit "ThreeOfAKind") [(lit "hand_rank", phr_tree p); (lit "trips", rank_tree r)]
  | MStraight p r => Struct (lit "Straight") [(lit "hand_rank", phr_tree p); (lit "high_rank", rank_tree r)]
  | MFlush p r => Struct (lit "Flush") [(lit "hand_rank", phr_tree p); (lit "high_rank", rank_tree r)]
  | MFullHouse p a b => Struct (lit "FullHouse")
      [(lit "hand_rank", phr_tree p); (lit "trips", rank_tree a); (lit "pair", rank_tree b)]
  | MFourOfAKind p r => Struct (lit "FourOfAKind") [(lit "hand_rank", phr_tree p); (lit "quads", rank_tree r)]
  | MStraightFlush p r => Struct (lit "StraightFlush")
      [(lit "hand_rank", phr_tree p); (lit "high_rank", rank_tree r)]
  end.
(** src/evaluate/eval.rs:58-59 *)
Definition eval_tree (e : eval) : tree := Tuple (lit "Eval") [meta_tree (eval_meta e)].
(** src/error.rs:177-185 *)
Definition eval_error_tree (e : eval_error) : tree :=
  match e with
  | CardsNotUnique cards => Tuple (lit "CardsNotUnique") [Items (map card_tree cards)]
  | InvalidHandSize size => Tuple (lit "InvalidHandSize") [Number 64 (Z.of_nat size)]
  end.
(** src/error.rs:65-98 *)
Definition parse_card_error_tree (plain : rchar -> bool) (e : parse_card_error) : tree :=
  match e with
  | InvalidLength input => Struct (lit "InvalidLength") [(lit "original_input", Text (str_debug plain input))]
  | InvalidRank input c => Struct (lit "InvalidRank")
      [(lit "original_input", Text (str_debug plain input)); (lit "incorrect_char", Text (char_debug plain c))]
  | InvalidSuit input c => Struct (lit "InvalidSuit")
      [(lit "original_input", Text (str_debug plain input)); (lit "incorrect_char", Text (char_debug plain c))]
  end.
(** What [evaluate] returns, printed whole: [Result] of the standard library *)
Definition result_tree (r : result eval eval_error) : tree :=
  match r with Ok e => Tuple (lit "Ok") [eval_tree e] | Err e => Tuple (lit "Err") [eval_error_tree e] end.

(** The key and value pairs of a hash map.  [iter_order] below is the unspecified order in which one
    iterates over them. *)
Definition key_z (p : positive) : Z := match p with xH => 0 | xO q => Zpos q | xI q => Zneg q end.
Definition map_contents {V} (m : map_i32 V) : list (Z * V) :=
  map (fun p => (key_z (fst p), snd p)) (PositiveMap.elements m).
Definition map_tree (iter_order : list (Z * meta) -> list (Z * meta)) (m : map_i32 meta) : tree :=
  Entries (map (fun p => (i32_tree (fst p), meta_tree (snd p))) (iter_order (map_contents m))).
(** src/evaluate/lookup_table.rs:21-25 *)
Definition lookup_table_tree iter_order (t : lookup_table) : tree :=
  Struct (lit "LookupTable") [(lit "flush_lookup", map_tree iter_order (flush_lookup t));
                              (lit "unsuited_lookup", map_tree iter_order (unsuited_lookup t))].
(** src/evaluate/mod.rs:76-77 *)
Definition evaluator_tree iter_order (ev : evaluator) : tree :=
  Tuple (lit "Evaluator") [lookup_table_tree iter_order (evaluator_table ev)].
