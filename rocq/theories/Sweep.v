(** Sweep.v: the finite part of the correctness proof of the lookup tables.

    A five-card hand matters to the code only through (suited?, multiset of ranks): 1287 suited
    and 6175 unsuited cases ("canonical hands").  [sweep t] checks, for a given table [t], that
    every canonical hand is found, classified as the rules demand, and that rank numbers are a
    strictly decreasing enumeration of the hands by strength.  [sweep_ok] lets the kernel
    evaluate it on the table the code builds. *)
From Coq Require Import List Arith Bool.
From Verif Require Import Base ModelCard ModelEval ModelTable Spec.
Import ListNotations.

(** All [k]-element multisets over [rs], as sorted lists. *)
Fixpoint multisets (rs : list rank) : nat -> list (list rank) :=
  match rs with
  | [] => fun k => match k with O => [[]] | S _ => [] end
  | r :: rs' =>
      fix go k := match k with
                  | O => [[]]
                  | S k' => map (cons r) (go k') ++ multisets rs' (S k')
                  end
  end.

(** All [n]-element sub-selections of a list, in lexicographic position order. *)
Fixpoint combs {T} (n : nat) (l : list T) : list (list T) :=
  match n, l with
  | O, _ => [[]]
  | S _, [] => []
  | S n', x :: l' => map (cons x) (combs n' l') ++ combs n l'
  end.

Definition canon := (bool * list rank)%type.

Definition at_most_four (m : list rank) : bool :=
  forallb (fun r => count_occ rank_dec m r <=? 4) m.

Definition canons : list canon :=
  map (pair true) (combs 5 high_to_low)
  ++ map (pair false) (filter at_most_four (multisets high_to_low 5)).

(** ** What the code looks up for a canonical hand *)
Definition canon_key (c : canon) : outcome Z :=
  if fst c then
    prime_product_from_rank_bits
      (wrap_i16 (fold_left Z.lor (map (fun r => Z.shiftl 1 (rank_as_i32 r)) (snd c)) 0%Z))
  else
    Ret (fold_left wrapping_mul_i32
           (map (fun r => Z.land (unique_integer (card_new r Clubs)) 255) (snd c)) 1%Z).
Definition canon_meta (t : lookup_table) (c : canon) : option meta :=
  match canon_key c with
  | Ret k => map_get (if fst c then flush_lookup t else unsuited_lookup t) k
  | _ => None
  end.

(** ** The specification, decided on a canonical hand *)
Definition sequenceb (m : list rank) (top : rank) : bool :=
  let p := pips top in
  forallb (fun i => existsb (fun r => pips r =? i) m) [p - 4; p - 3; p - 2; p - 1; p]
  || (rank_eqb top Five
      && forallb (fun i => existsb (rank_eqb i) m) [Ace; Two; Three; Four; Five]).
Definition highestb (m : list rank) (r : rank) : bool :=
  existsb (rank_eqb r) m && forallb (fun r' => pips r' <=? pips r) m.
Definition no_sequenceb (m : list rank) : bool :=
  forallb (fun r => negb (sequenceb m r)) high_to_low.
Definition classifyb (f : bool) (m : list rank) (c : eval_class) : bool :=
  let cnt := count_occ rank_dec m in
  match c with
  | StraightFlush top => f && sequenceb m top
  | FourOfAKind q => cnt q =? 4
  | FullHouse t p => (cnt t =? 3) && (cnt p =? 2)
  | Flush top => f && no_sequenceb m && highestb m top
  | Straight top => negb f && sequenceb m top
  | ThreeOfAKind t => (cnt t =? 3) && forallb (fun r => negb (cnt r =? 2)) high_to_low
  | TwoPair hi lo => (cnt hi =? 2) && (cnt lo =? 2) && (pips lo <? pips hi)
  | Pair p =>
      (cnt p =? 2) && forallb (fun r => if rank_dec r p then true else cnt r <=? 1) high_to_low
  | HighCard top =>
      negb f && no_sequenceb m && forallb (fun r => cnt r <=? 1) high_to_low && highestb m top
  end.

Definition by_mult (m : list rank) : list rank :=
  flat_map (fun n => filter (fun r => count_occ rank_dec m r =? n) high_to_low) [4; 3; 2; 1].
Definition decidersb (c : eval_class) (m : list rank) : list rank :=
  match c with Straight top | StraightFlush top => [top] | _ => by_mult m end.

(** Strength of a hand whose class is [c]: category, then the pips of the deciding ranks. *)
Definition strength (c : eval_class) (m : list rank) : list nat :=
  category c :: map pips (decidersb c m).
Fixpoint lexgtb (a b : list nat) : bool :=
  match a, b with
  | x :: a', y :: b' => (y <? x) || ((x =? y) && lexgtb a' b')
  | _, _ => false
  end.

(** ** The inverse of ranking *)
Definition rank_key (z : Z) : positive := Z.to_pos z.
Definition unrank_map (t : lookup_table) : PositiveMap.t canon :=
  fold_left (fun u c =>
    match canon_meta t c with
    | Some m => PositiveMap.add (rank_key (phr (meta_hand_rank m))) c u
    | None => u
    end) canons (PositiveMap.empty canon).

Definition canon_eqb (a b : canon) : bool :=
  Bool.eqb (fst a) (fst b) && (if list_eq_dec rank_dec (snd a) (snd b) then true else false).

(** Every canonical hand is found, classified right, and recovered from its rank number. *)
Definition check_canon (t : lookup_table) (u : PositiveMap.t canon) (c : canon) : bool :=
  match canon_meta t c with
  | None => false
  | Some m =>
      classifyb (fst c) (snd c) (meta_class m)
      && (1 <=? phr (meta_hand_rank m))%Z && (phr (meta_hand_rank m) <=? 7462)%Z
      && match PositiveMap.find (rank_key (phr (meta_hand_rank m))) u with
         | Some c' => canon_eqb c c'
         | None => false
         end
  end.

(** Walking the rank numbers upwards from [i], as many as [l] has elements: each is attained and
    strength strictly decreases. *)
Fixpoint check_descending (t : lookup_table) (u : PositiveMap.t canon) (l : list canon)
    (i : positive) (prev : list nat) : bool :=
  match l with
  | [] => true
  | _ :: l' =>
      match PositiveMap.find i u with
      | None => false
      | Some c =>
          match canon_meta t c with
          | None => false
          | Some m =>
              let s := strength (meta_class m) (snd c) in
              lexgtb prev s && check_descending t u l' (Pos.succ i) s
          end
      end
  end.

Definition sweep (t : lookup_table) : bool :=
  let u := unrank_map t in
  forallb (check_canon t u) canons && check_descending t u canons 1 [9].

(** ** Further checks of the same table *)
Definition class_eqb (a b : eval_class) : bool :=
  match class_cmp a b with Eq => true | _ => false end.
Definition meta_same (a b : meta) : bool :=
  class_eqb (meta_class a) (meta_class b)
  && (phr (meta_hand_rank a) =? phr (meta_hand_rank b))%Z.
Definition meta_at (t : lookup_table) (c : canon) (m : meta) : bool :=
  match canon_meta t c with Some m' => meta_same m m' | None => false end.

(** The interval of rank numbers of each category. *)
Definition category_range (n : nat) : Z * Z :=
  nth n [(6186, 7462); (3326, 6185); (2468, 3325); (1610, 2467); (1600, 1609); (323, 1599);
         (167, 322); (11, 166); (1, 10)]%Z (0, 0)%Z.
Definition check_range (m : meta) : bool :=
  let (lo, hi) := category_range (category (meta_class m)) in
  ((lo <=? phr (meta_hand_rank m)) && (phr (meta_hand_rank m) <=? hi))%Z.

(** Every entry of a map is the entry of a canonical hand. *)
Definition check_entry (u : PositiveMap.t canon) (f : bool) (e : positive * meta) : bool :=
  match PositiveMap.find (rank_key (phr (meta_hand_rank (snd e)))) u with
  | Some c =>
      Bool.eqb (fst c) f
      && match canon_key c with Ret k => Pos.eqb (zkey k) (fst e) | _ => false end
  | None => false
  end.

(** The ranks shown by the class are the first of the deciding ranks. *)
Fixpoint prefixb (a b : list rank) : bool :=
  match a, b with
  | [], _ => true
  | x :: a', y :: b' => rank_eqb x y && prefixb a' b'
  | _ :: _, [] => false
  end.
Definition check_prefix (c : canon) (m : meta) : bool :=
  prefixb (class_fields (meta_class m)) (decidersb (meta_class m) (snd c)).

Definition extra (t : lookup_table) : bool :=
  let u := unrank_map t in
  meta_at t (true, [Ace; King; Queen; Jack; Ten]) META_BEST
  && meta_at t (false, [Seven; Five; Four; Three; Two]) META_WORST
  && forallb (fun c => match canon_meta t c with
                       | Some m => check_range m && check_prefix c m
                       | None => false
                       end) canons
  && forallb (check_entry u true) (PositiveMap.elements (flush_lookup t))
  && forallb (check_entry u false) (PositiveMap.elements (unsuited_lookup t))
  && (Z.of_nat (map_len (flush_lookup t)) =? 1287)%Z
  && (Z.of_nat (map_len (unsuited_lookup t)) =? 6175)%Z.

Lemma sweep_ok :
  match lookup_table_new with Ret t => sweep t && extra t | _ => false end = true.
Proof. vm_compute. reflexivity. Qed.

(** ** Every canonical hand can be dealt *)
Definition deal (c : canon) : list face :=
  combine (snd c)
    (if fst c then [Clubs; Clubs; Clubs; Clubs; Clubs] else [Clubs; Hearts; Spades; Diamonds; Clubs]).
Definition face_eqb (a b : face) : bool := rank_eqb (fst a) (fst b) && suit_eqb (snd a) (snd b).
Fixpoint nodupb (l : list face) : bool :=
  match l with [] => true | x :: l' => negb (existsb (face_eqb x) l') && nodupb l' end.

Lemma deal_ok : forallb (fun c => nodupb (deal c) && (length (snd c) =? 5)) canons = true.
Proof. vm_compute. reflexivity. Qed.

Lemma canons_length : Z.of_nat (length canons) = 7462%Z.
Proof. vm_compute. reflexivity. Qed.
