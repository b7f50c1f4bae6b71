(** SpecTable.v: vocabulary for the internals properties C35-C37.  Definitions only. *)
From Coq Require Import List ZArith.
From Verif Require Import Base ModelCard ModelEval ModelTable Spec SpecText.
Import ListNotations.

(** Product of the primes of some ranks, in unbounded integers. *)
Definition product (rs : list rank) : Z := fold_right Z.mul 1%Z (map nth_prime rs).

(** Five different ranks; five ranks none of which occurs five times. *)
Definition five_different (rs : list rank) : Prop := NoDup rs /\ length rs = 5.
Definition five_dealable (rs : list rank) : Prop :=
  length rs = 5 /\ forall r, count_occ rank_dec rs r <= 4.

(** Entry of one of the two tables ([true] the flush table). *)
Definition entry (t : lookup_table) (suited : bool) (k : Z) (m : meta) : Prop :=
  map_get (if suited then flush_lookup t else unsuited_lookup t) k = Some m.

(** The documented interval of rank numbers of each class
    (src/evaluate/lookup_table.rs:333-341 and hand_rank.rs). *)
Definition rank_interval (c : eval_class) : Z * Z :=
  (match c with
   | StraightFlush _ => (1, 10)
   | FourOfAKind _ => (11, 166)
   | FullHouse _ _ => (167, 322)
   | Flush _ => (323, 1599)
   | Straight _ => (1600, 1609)
   | ThreeOfAKind _ => (1610, 2467)
   | TwoPair _ _ => (2468, 3325)
   | Pair _ => (3326, 6185)
   | HighCard _ => (6186, 7462)
   end)%Z.

(** The insertions [LookupTable::new] performs, latest first. *)
Record insertion := mk_insertion { ins_flush : bool; ins_key : Z; ins_meta : meta }.
Definition log_flush (k : Z) (m : meta) (l : list insertion) := mk_insertion true k m :: l.
Definition log_unsuited (k : Z) (m : meta) (l : list insertion) := mk_insertion false k m :: l.
Definition insertions : outcome (list insertion) := build log_flush log_unsuited [].

(** Number of one bits. *)
Fixpoint ones_pos (p : positive) : nat :=
  match p with xH => 1 | xO q => ones_pos q | xI q => S (ones_pos q) end.
Definition ones (z : Z) : nat := match z with Zpos p => ones_pos p | _ => 0 end.

(** [v] is the least number above [b] with as many one bits. *)
Definition next_pattern (b v : Z) : Prop :=
  (b < v)%Z /\ ones v = ones b /\ forall c, (b < c < v)%Z -> ones c <> ones b.

(** The values of [n] successive calls of [get_next]. *)
Fixpoint patterns (n : nat) (g : bit_sequence) : outcome (list Z) :=
  match n with
  | O => Ret []
  | S n' =>
      let! p := get_next g in
      let! rest := patterns n' (snd p) in
      Ret (fst p :: rest)
  end.
