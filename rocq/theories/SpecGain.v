(** SpecGain.v: what a player of examples/jacks-or-better.rs gains on average. *)
From Coq Require Import List ZArith QArith.
From Verif Require Import Base ModelCard ModelEval ModelTable ModelEvaluation ModelExamples Spec SpecApi SpecExamples.
Import ListNotations.
Local Open Scope Q_scope.

(** [q] is the average, over the finitely many [x] with [P x], of the numbers [F] gives to them. *)
Definition qsum (l : list Q) : Q := fold_right Qplus 0 l.
Definition average {X} (P : X -> Prop) (F : X -> Q -> Prop) (q : Q) : Prop :=
  exists L qs, NoDup L /\ L <> [] /\ (forall x, In x L <-> P x) /\ Forall2 F L qs
    /\ q == qsum qs / inject_Z (Z.of_nat (length L)).

(** [k] different cards out of [l]. *)
Definition some_of (l : list card) (k : nat) (h : list card) : Prop := sublist h l /\ length h = k.

(** What a hand brings to a player who has wagered [w]: the wager is lost if the hand pays nothing
    and given back otherwise. *)
Definition gain (ev : evaluator) (w : Z) (hand : list card) (q : Q) : Prop :=
  exists e p, evaluates ev hand e /\ payout w (eval_class_of e) = Ret p
    /\ q == inject_Z (if p =? 0 then - w else p)%Z.

(** The average, over the answers of the random generator, of what [F] gives to them and to the hand and
    the deck after the exchange of the cards at the positions [is].  The program does not shuffle if nothing is
    exchanged. *)
Definition exchanged (is : list Z) (hand deck : list card) (F : list nat -> list card -> list card -> Q -> Prop) (q : Q) : Prop :=
  match is with
  | [] => F [] hand deck q
  | _ => average (answers (length deck + length is))
           (fun js g => exists deck' hand', swap_cards script is deck hand js = Ret (deck', hand', [])
              /\ F js hand' deck' g) q
  end.
(** What the exchange brings on average. *)
Definition drawn (ev : evaluator) (w : Z) (is : list Z) (hand deck : list card) (q : Q) : Prop :=
  exchanged is hand deck (fun _ hand' _ => gain ev w hand') q.

(** What a round brings on average, shuffle included, to a player who decides by [plan] what to
    exchange; [l] are the cards before the shuffle. *)
Definition round_gain (ev : evaluator) (w : Z) (plan : list card -> eval_class -> list Z) (l : list card)
    (q : Q) : Prop :=
  average (answers (length l))
    (fun js g => exists hand deck e, shuffle script l js = Ret (hand ++ deck, []) /\ length hand = 5%nat
       /\ evaluates ev hand e /\ drawn ev w (plan hand (eval_class_of e)) hand deck g) q.

(** Three plans: never exchange, exchange all, and: keep what pays, exchange the other three cards of
    a pair that does not pay, and everything of a hand without a pair. *)
Definition stand (_ : list card) (_ : eval_class) : list Z := [].
Definition renew (_ : list card) (_ : eval_class) : list Z := [0; 1; 2; 3; 4]%Z.
Definition others (r : rank) (hand : list card) : list Z :=
  map snd (filter (fun p => if rank_dec (card_rank (fst p)) r then false else true)
             (combine hand [0; 1; 2; 3; 4]%Z)).
Definition sensible (hand : list card) (c : eval_class) : list Z :=
  match c with
  | HighCard _ => renew hand c
  | Pair Jack | Pair Queen | Pair King | Pair Ace => []
  | Pair r => others r hand
  | _ => []
  end.

(** A plan that names cards of the hand, and a way of typing the wager [w] and such cards that the program
    understands; [aloud] is one. *)
Definition playable (plan : list card -> eval_class -> list Z) : Prop :=
  forall hand c, length hand = 5%nat -> positions hand (plan hand c).
Definition understood (w : Z) (bet : rstring) (say : list Z -> rstring) : Prop :=
  number bet w /\ forall hand is, length hand = 5%nat -> positions hand is -> swaps_ok (say is) is.
Definition aloud (is : list Z) : rstring := flat_map (fun i => show (i + 1) ++ [32%N]) is.

(** The credits with which the program ends, on average, if the player decides by [plan] and leaves after
    [n] more rounds.  The player wagers by typing [bet] and names what to exchange by typing [say] of the
    positions.  [l] are the cards before the shuffle, [js] and [lines] what the random generator has
    answered and the player has typed so far.  When all rounds are played the program is run on these;
    its last shuffle, whose outcome nobody sees, is left to [script]. *)
Fixpoint fortune (order : list (Z * nat) -> list (Z * nat)) (ev : evaluator) (bet : rstring) (say : list Z -> rstring)
    (plan : list card -> eval_class -> list Z) (n : nat) (l : list card) (js : list nat) (lines : list rstring)
    (q : Q) : Prop :=
  match n with
  | O => exists g, jacks_main script order lines js = Ret g /\ q == inject_Z (g_credits g)
  | S n' =>
      average (answers (length l))
        (fun js1 g => exists hand deck e, shuffle script l js1 = Ret (hand ++ deck, []) /\ length hand = 5%nat
           /\ evaluates ev hand e
           /\ let is := plan hand (eval_class_of e) in
              exchanged is hand deck
                (fun js2 hand' deck' => fortune order ev bet say plan n' (deck' ++ hand') (js ++ js1 ++ js2)
                                          (lines ++ [bet; say is])) g) q
  end.
