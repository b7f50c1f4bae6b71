(** PropertiesCards.v: C13-C24, C38 (cards, text, deck). *)
From Coq Require Import Lia List Arith Bool Permutation String.
From Verif Require Import Base ModelCard ModelEval ModelTable ModelEvaluation.
From Verif Require Import Spec SpecApi SpecText.
From Verif Require CardFacts HandFacts TextFacts DeckFacts.
From Verif Require Import Samples.
Import ListNotations.

(** C13: [Card::new] never panics, [rank]/[suit] give back its arguments, and every bit of the
    integer is the documented one. *)
Theorem C13_layout : forall r s, exists c, card_new_chk r s = Ret c
  /\ card_rank c = r /\ card_suit c = s
  /\ forall n, (0 <= n)%Z -> Z.testbit (unique_integer c) n = layout r s n.
Proof. exact TextFacts.card_new_parts. Qed.
Print Assumptions C13_layout.
Theorem C13_identity : forall a b, a_card a -> a_card b ->
  (a = b <-> card_rank a = card_rank b /\ card_suit a = card_suit b)
  /\ (a = b <-> unique_integer a = unique_integer b)
  /\ (card_eqb a b = true <-> a = b).
Proof. exact TextFacts.card_identity. Qed.
Print Assumptions C13_identity.
(** The layout of the king of diamonds, as in the documentation of [Card]. *)
Example C13_case : a_card (card_new King Diamonds)
  /\ unique_integer (card_new King Diamonds) = 134236965%Z
  /\ filter (layout King Diamonds) (map Z.of_nat (seq 0 32)) = [0; 2; 5; 8; 9; 11; 14; 27]%Z.
Proof. split; [exists King, Diamonds; reflexivity|]. split; reflexivity. Qed.

(** C14: parsing inverts printing and accepts nothing else. *)
Theorem C14_accepted : forall s, (exists c, card_from_str s = Ok c) <->
  exists x y, s = [x; y] /\ In x rank_chars /\ In y suit_chars.
Proof. exact TextFacts.parse_accepts. Qed.
Print Assumptions C14_accepted.
Theorem C14_parse_print : forall c, a_card c -> card_from_str (rank_suit_string c) = Ok c.
Proof. exact TextFacts.parse_print. Qed.
Print Assumptions C14_parse_print.
Theorem C14_print_parse : forall s c, card_from_str s = Ok c -> a_card c /\ rank_suit_string c = s.
Proof. exact TextFacts.parse_ok_inv. Qed.
Print Assumptions C14_print_parse.
Theorem C14_text : forall c, rank_suit_string c = card_text c.
Proof. exact TextFacts.rank_suit_string_text. Qed.
Print Assumptions C14_text.
Example C14_case : card_from_str (lit "Td") = Ok (card_new Ten Diamonds)
  /\ (exists e, card_from_str (lit "tD") = Err e).
Proof. split; [reflexivity|]. eexists. reflexivity. Qed.

(** C15: which error. *)
Theorem C15_parse_errors : forall s e, card_from_str s = Err e <->
  (List.length s <> 2 /\ e = InvalidLength s)
  \/ (exists x y, s = [x; y] /\ ~ In x rank_chars /\ e = InvalidRank s x)
  \/ (exists x y, s = [x; y] /\ In x rank_chars /\ ~ In y suit_chars /\ e = InvalidSuit s y).
Proof. exact TextFacts.parse_errors. Qed.
Print Assumptions C15_parse_errors.
Theorem C15_message : forall s e, card_from_str s = Err e ->
  card_complaint s (parse_card_error_display e).
Proof. exact TextFacts.error_message. Qed.
Print Assumptions C15_message.
Example C15_case :
  card_from_str (lit "Ax") = Err (InvalidSuit (lit "Ax") 120%N)
  /\ card_from_str (lit "xx") = Err (InvalidRank (lit "xx") 120%N)
  /\ card_from_str (lit "10s") = Err (InvalidLength (lit "10s")).
Proof. repeat split. Qed.

(** C16: [try_from_chars]. *)
Theorem C16_try_from_chars : forall x y,
  (forall c, try_from_chars x y = Ok c <-> card_from_str [x; y] = Ok c)
  /\ (forall e, try_from_chars x y = Err e <->
        exists e', card_from_str [x; y] = Err e' /\ e = blame x y e').
Proof. exact TextFacts.try_from_chars_spec. Qed.
Print Assumptions C16_try_from_chars.
Example C16_case : try_from_chars 65%N 120%N = Err (InvalidSuit [120%N] 120%N)
  /\ try_from_chars 65%N 115%N = Ok (card_new Ace Spades).
Proof. split; reflexivity. Qed.

(** C17: [parse_to_iter] and [try_collect]. *)
Theorem C17_one_result_per_string : forall ss l,
  yields (parse_to_iter ss) l <-> l = map card_from_str ss.
Proof. exact TextFacts.yields_spec. Qed.
Print Assumptions C17_one_result_per_string.
Theorem C17_collect_ok : forall ss cs,
  try_collect (parse_to_iter ss) = Ok cs <-> map card_from_str ss = map Ok cs.
Proof. exact TextFacts.try_collect_ok. Qed.
Print Assumptions C17_collect_ok.
Theorem C17_collect_first_error : forall ss e,
  try_collect (parse_to_iter ss) = Err e <->
  exists pre s post cs, ss = pre ++ s :: post /\ map card_from_str pre = map Ok cs
    /\ card_from_str s = Err e.
Proof. exact TextFacts.try_collect_err. Qed.
Print Assumptions C17_collect_first_error.
Theorem C17_other_methods_agree : forall ss,
  (forall B (f : B -> result card parse_card_error -> B) init,
      pi_fold (parse_to_iter ss) init f = fold_left f (map card_from_str ss) init)
  /\ pi_len (parse_to_iter ss) = List.length ss
  /\ pi_size_hint (parse_to_iter ss) = (List.length ss, Some (List.length ss))
  /\ pi_next_back (parse_to_iter []) = (None, parse_to_iter [])
  /\ forall s, pi_next_back (parse_to_iter (ss ++ [s])) = (Some (card_from_str s), parse_to_iter ss).
Proof. exact TextFacts.iter_agrees. Qed.
Print Assumptions C17_other_methods_agree.
Example C17_case :
  try_collect (parse_to_iter [lit "As"; lit "Kx"; lit "zz"]) = Err (InvalidSuit (lit "Kx") 120%N)
  /\ try_collect (parse_to_iter [lit "As"; lit "As"]) = Ok [card_new Ace Spades; card_new Ace Spades].
Proof. split; reflexivity. Qed.

(** C18: [cards!("...")]. *)
Theorem C18_words : forall s l, pi_rest (cards_macro_text s) = l <-> splits s l.
Proof. exact TextFacts.words_of_text. Qed.
Print Assumptions C18_words.
Theorem C18_words_are_words : forall s l, splits s l -> Forall word l.
Proof. exact TextFacts.splits_words. Qed.
Print Assumptions C18_words_are_words.
Theorem C18_any_layout : forall cs s, all_cards cs -> written cs s ->
  try_collect (cards_macro_text s) = Ok cs.
Proof. exact TextFacts.written_collect. Qed.
Print Assumptions C18_any_layout.
Theorem C18_idents : forall l, all_cards (cards_macro_idents l) /\ faces (cards_macro_idents l) = l.
Proof. exact (fun l => conj (idents_all_cards l) (idents_faces l)). Qed.
Print Assumptions C18_idents.
(** "  As<tab>Kd<ideographic space>" *)
Example C18_case : written [card_new Ace Spades; card_new King Diamonds]
  [32; 32; 65; 115; 9; 75; 100; 12288]%N.
Proof.
  apply (written_card [32; 32]%N (card_new Ace Spades) 9%N [card_new King Diamonds]
           [75; 100; 12288]%N).
  - repeat constructor; simpl; tauto.
  - simpl. tauto.
  - apply (written_card [] (card_new King Diamonds) 12288%N [] []).
    + constructor.
    + cbn. tauto.
    + apply written_end. constructor.
Qed.

(** C19: the deck. *)
Theorem C19_deck : List.length deck_generate = 52 /\ NoDup deck_generate
  /\ (forall c, In c deck_generate <-> a_card c)
  /\ (forall r s i j,
       nth_error [Two; Three; Four; Five; Six; Seven; Eight; Nine; Ten; Jack; Queen; King; Ace] i
         = Some r ->
       nth_error [Clubs; Hearts; Spades; Diamonds] j = Some s ->
       nth_error deck_generate (4 * i + j) = Some (card_new r s)).
Proof. exact DeckFacts.deck_spec. Qed.
Print Assumptions C19_deck.
Example C19_case : nth_error deck_generate 51 = Some (card_new Ace Diamonds).
Proof. reflexivity. Qed.

(** C20: shuffling. *)
Theorem C20_shuffled : forall R (gen : R -> nat -> nat * R) rng,
  (forall rng n, 0 < n -> fst (gen rng n) < n) ->
  exists d rng', shuffled_with gen rng = Ret (d, rng') /\ Permutation deck_generate d.
Proof. exact @DeckFacts.shuffled_correct. Qed.
Print Assumptions C20_shuffled.
Theorem C20_dealt_cards_evaluate : forall ev d h, new_evaluator ev -> Permutation deck_generate d ->
  sublist h d -> NoDup h /\ (5 <= List.length h -> exists e, evaluates ev h e).
Proof. exact DeckFacts.dealt_evaluates. Qed.
Print Assumptions C20_dealt_cards_evaluate.
Theorem C20_every_order_reachable : forall d, Permutation deck_generate d ->
  exists (R : Type) (gen : R -> nat -> nat * R) (rng rng' : R),
    (forall rng n, 0 < n -> fst (gen rng n) < n) /\ shuffled_with gen rng = Ret (d, rng').
Proof. exact DeckFacts.shuffled_reach. Qed.
Print Assumptions C20_every_order_reachable.
Example C20_case : exists (gen : nat -> nat -> nat * nat),
  (forall rng n, 0 < n -> fst (gen rng n) < n)
  /\ match shuffled_with gen 0 with Ret (d, _) => d <> deck_generate | _ => False end.
Proof.
  exists (fun rng n => (rng mod n, S rng)). split.
  - intros rng n H. simpl. apply Nat.mod_upper_bound. lia.
  - vm_compute. discriminate.
Qed.

(** C21: [box_cards!]. *)
Theorem C21_concatenates : forall first others,
  box_cards first others = concat (first :: others).
Proof. exact TextFacts.box_cards_concat. Qed.
Print Assumptions C21_concatenates.
Theorem C21_hand_and_board_commute : forall ev a b e,
  new_evaluator ev -> all_cards a -> all_cards b ->
  (evaluates ev (box_cards a [b]) e <-> evaluates ev (box_cards b [a]) e).
Proof. exact DeckFacts.box_cards_commute. Qed.
Print Assumptions C21_hand_and_board_commute.
Example C21_case : exists ev e, new_evaluator ev
  /\ evaluates ev (box_cards (cards_macro_idents (firstn 5 holdem)) [cards_macro_idents (skipn 5 holdem)]) e.
Proof.
  destruct (legal_evaluates (cards_macro_idents holdem)) as (ev & e & Hev & E).
  { apply idents_legal; [reflexivity|simpl; lia]. }
  exists ev, e. split; [exact Hev|exact E].
Qed.

(** C22: the order of cards.  The full claim has the clause "Equal iff ==", which fails. *)
Theorem C22_order_laws_partial : forall a b c,
  card_cmp a b = Nat.compare (pips (card_rank a)) (pips (card_rank b))
  /\ card_partial_cmp a b = Some (card_cmp a b)
  /\ card_cmp a a = Eq
  /\ card_cmp b a = CompOpp (card_cmp a b)
  /\ (card_cmp a b <> Gt -> card_cmp b c <> Gt -> card_cmp a c <> Gt)
  /\ (a = b -> card_cmp a b = Eq).
Proof. exact TextFacts.card_order. Qed.
Print Assumptions C22_order_laws_partial.
Theorem C22_equal_iff_eq_refuted : exists a b, a_card a /\ a_card b
  /\ card_cmp a b = Eq /\ card_eqb a b = false.
Proof. exact TextFacts.card_order_refuted. Qed.
Print Assumptions C22_equal_iff_eq_refuted.
Example C22_case : card_cmp (card_new Ace Clubs) (card_new King Spades) = Gt.
Proof. reflexivity. Qed.

(** C23: the length in the message.  The full claim (characters, never 2) fails for non-ASCII. *)
Theorem C23_reports_characters_refuted : exists s, List.length s <> 2
  /\ parse_card_error_display (InvalidLength s)
     = lit "Error parsing input '" ++ s
       ++ lit "' as a Card: Found input of length 2, expected 2".
Proof. exact TextFacts.invalid_length_refuted. Qed.
Print Assumptions C23_reports_characters_refuted.
(** What holds: inputs of ASCII characters only. *)
Theorem C23_reports_characters_partial : forall s, ascii_text s -> List.length s <> 2 ->
  parse_card_error_display (InvalidLength s)
  = lit "Error parsing input '" ++ s ++ lit "' as a Card: Found input of length "
    ++ dec (N.of_nat (List.length s)) ++ lit ", expected 2"
  /\ dec (N.of_nat (List.length s)) <> lit "2".
Proof. exact TextFacts.invalid_length_ascii. Qed.
Print Assumptions C23_reports_characters_partial.
(** In general: the number is that of the bytes, which is that of the characters for ASCII only; it is
    the misleading 2 exactly for one character of two bytes. *)
Theorem C23_reports_bytes : forall s,
  parse_card_error_display (InvalidLength s)
  = lit "Error parsing input '" ++ s ++ lit "' as a Card: Found input of length "
    ++ dec (N.of_nat (List.length (utf8 s))) ++ lit ", expected 2".
Proof. exact TextFacts.invalid_length_bytes. Qed.
Print Assumptions C23_reports_bytes.
Theorem C23_bytes_are_characters : forall s, List.length s <= List.length (utf8 s)
  /\ (List.length (utf8 s) = List.length s <-> ascii_text s).
Proof. exact TextFacts.utf8_length. Qed.
Print Assumptions C23_bytes_are_characters.
Theorem C23_misleading : forall s, List.length s <> 2 ->
  (List.length (utf8 s) = 2 <-> exists c, s = [c] /\ (128 <= c < 2048)%N).
Proof. exact TextFacts.utf8_two. Qed.
Print Assumptions C23_misleading.
Example C23_case : ascii_text (lit "10s") /\ List.length (lit "10s") = 3 /\ dec 3 = lit "3".
Proof. split; [repeat constructor|split; reflexivity]. Qed.

(** C24: the duplicates in the message, whatever order the hash map is iterated in. *)
Theorem C24_lists_duplicates : forall order cards, (forall l, Permutation (order l) l) ->
  exists dups, NoDup dups
    /\ (forall c, In c dups <-> 2 <= count_occ CardFacts.card_dec cards c)
    /\ eval_error_display order (CardsNotUnique cards)
       = lit "Cannot evaluate a poker hand with a set of cards that are not unique. Cards duplicated at least once: "
         ++ spaced (map card_text dups).
Proof. exact TextFacts.not_unique_display. Qed.
Print Assumptions C24_lists_duplicates.
Example C24_case :
  eval_error_display (@rev _) (CardsNotUnique (cards_macro_idents
    [(Ace, Spades); (Two, Clubs); (Ace, Spades); (Three, Hearts); (Two, Clubs); (Ace, Spades)]))
  = lit "Cannot evaluate a poker hand with a set of cards that are not unique. Cards duplicated at least once: 2c As"
  /\ forall l : list (card * nat), Permutation (rev l) l.
Proof. split; [reflexivity|]. intros l. symmetry. apply Permutation_rev. Qed.

(** C38: characters and display. *)
Theorem C38_rank_chars : forall c,
  (forall r, rank_try_from c = Ok r <-> c = rank_as_char r)
  /\ (forall x, rank_try_from c = Err x <-> x = c /\ ~ In c rank_chars)
  /\ (In c rank_chars <-> exists r, c = rank_as_char r).
Proof. exact TextFacts.rank_chars_round. Qed.
Print Assumptions C38_rank_chars.
Theorem C38_suit_chars : forall c,
  (forall s, suit_try_from c = Ok s <-> c = suit_as_char s)
  /\ (forall x, suit_try_from c = Err x <-> x = c /\ ~ In c suit_chars)
  /\ (In c suit_chars <-> exists s, c = suit_as_char s).
Proof. exact TextFacts.suit_chars_round. Qed.
Print Assumptions C38_suit_chars.
Theorem C38_display : 
  (forall r, rank_display r = [rank_as_char r])
  /\ (forall s, suit_display s = [suit_as_pretty_char s])
  /\ (forall a b, suit_as_pretty_char a = suit_as_pretty_char b -> a = b)
  /\ (forall r s, card_display (card_new r s)
        = lit "[ " ++ rank_display r ++ suit_display s ++ lit " ]")
  /\ (forall a b, a_card a -> a_card b -> card_display a = card_display b -> a = b).
Proof. exact TextFacts.displays. Qed.
Print Assumptions C38_display.
(** [==] of ranks and of suits *)
Theorem C38_equality : (forall a b, rank_eqb a b = true <-> a = b) /\ (forall a b, suit_eqb a b = true <-> a = b).
Proof. exact TextFacts.variants_eqb. Qed.
Print Assumptions C38_equality.
Example C38_case : rank_try_from 84%N = Ok Ten /\ rank_try_from 116%N = Err 116%N
  /\ map rank_as_char RANK_ALL_VARIANTS = rank_chars.
Proof. repeat split. Qed.
