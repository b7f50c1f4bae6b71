(** ModelHash.v: hash maps and hash sets, as the standard library and rustc-hash make them out of [Hash] and [==].

    Elsewhere in the model a hash map is a finite map, or a list of entries (Base.v, [counts] in ModelEval.v,
    [all_inserted] in ModelExamples.v).  Here it is a table of slots that is searched from a place the hash
    value decides on; PropertiesHash.v shows that the former is all that can be seen of the latter.  The code of the
    library (hashbrown) is not in the repository and was modelled from memory: slots that are empty, deleted or
    full, a tag made of the hash value that is compared before the keys are, a sequence of slots to look at for
    each hash value, and moving to more slots.  When it moves, how many slots it makes and in which sequence it
    looks at them are left open.  It looks at one slot after the other, not at sixteen at a time. *)
From Coq Require Import List ZArith.
From Verif Require Import Base ModelCard ModelEval ModelTable ModelEvaluation.
Import ListNotations.
Local Open Scope list_scope.

(** ** Which values are fed to the hasher *)

(** src/card/rank.rs:6 and src/card/suit.rs:7 derived [Hash] of an enum without fields: its discriminant,
    as an isize.  [Card]'s is in ModelDebug.v, [Eval]'s in ModelEval.v. *)
Definition rank_hash {H} (write_isize : H -> Z -> H) (r : rank) (state : H) : H := write_isize state (rank_discr r).
Definition suit_discr (s : suit) : Z :=
  match s with Clubs => 0 | Hearts => 1 | Spades => 2 | Diamonds => 3 end%Z.
Definition suit_hash {H} (write_isize : H -> Z -> H) (s : suit) (state : H) : H := write_isize state (suit_discr s).
(** [Hash for i32], the keys of src/evaluate/lookup_table.rs:23-24 and of examples/jacks-or-better.rs:193 *)
Definition int_hash {H} (write_int : H -> Z -> H) (k : Z) (state : H) : H := write_int state k.
(** [BuildHasher::hash_one]: a new hasher is fed the key and asked for its value. *)
Definition hash_one {H K} (new : H) (finish : H -> Z) (hash : K -> H -> H) (k : K) : Z := finish (hash k new).

(** ** The table *)

(** What the library is free to choose: the slots looked at, in order, for [n] slots and a hash value; the tag;
    when to move to more slots (from the number of slots and of entries), and to how many more; the number of
    slots to begin with ([with_capacity]). *)
Record layout := mk_layout {
  probe : nat -> Z -> list nat;
  tag : Z -> Z;
  crowded : nat -> nat -> bool;
  extra : nat -> nat;
  initial : nat -> nat
}.
Inductive slot (K V : Type) := Empty | Deleted | Full (t : Z) (k : K) (v : V).
Arguments Empty {K V}.
Arguments Deleted {K V}.
Arguments Full {K V} t k v.

Section Table.
  Context {K V : Type} (lay : layout) (eqb : K -> K -> bool) (hash : K -> Z).

  (** [==] is asked only about keys with the same tag. *)
  Definition matches (k : K) (t : Z) (k' : K) : bool := (t =? tag lay (hash k))%Z && eqb k k'.
  (** The search for a key ends at a slot that holds it or that was never used. *)
  Fixpoint find_slot (k : K) (slots : list (slot K V)) (ps : list nat) : option nat :=
    match ps with
    | [] => None
    | p :: ps' =>
        match nth p slots Empty with
        | Empty => None
        | Deleted => find_slot k slots ps'
        | Full t k' _ => if matches k t k' then Some p else find_slot k slots ps'
        end
    end.
  Definition looked_at (slots : list (slot K V)) (k : K) : list nat := probe lay (length slots) (hash k).
  (** [HashMap::get] *)
  Definition hash_get (slots : list (slot K V)) (k : K) : option V :=
    match find_slot k slots (looked_at slots k) with
    | Some p => match nth p slots Empty with Full _ _ v => Some v | _ => None end
    | None => None
    end.

  (** The slot for a new key: the first that is not full *)
  Fixpoint find_vacant (slots : list (slot K V)) (ps : list nat) : option nat :=
    match ps with
    | [] => None
    | p :: ps' => match nth p slots Empty with Full _ _ _ => find_vacant slots ps' | _ => Some p end
    end.
  Fixpoint put_at (p : nat) (s : slot K V) (slots : list (slot K V)) : list (slot K V) :=
    match slots with
    | [] => []
    | x :: l => match p with O => s :: l | S p' => x :: put_at p' s l end
    end.
  (** Putting a key where there was none *)
  Definition place (slots : list (slot K V)) (kv : K * V) : list (slot K V) :=
    match find_vacant slots (looked_at slots (fst kv)) with
    | Some p => put_at p (Full (tag lay (hash (fst kv))) (fst kv) (snd kv)) slots
    | None => slots
    end.

  (** [HashMap::iter]: the full slots in order *)
  Definition hash_iter (slots : list (slot K V)) : list (K * V) :=
    flat_map (fun s => match s with Full _ k v => [(k, v)] | _ => [] end) slots.
  Definition hash_len (slots : list (slot K V)) : nat := length (hash_iter slots).
  (** Moving all entries to [n] new slots *)
  Definition rehash (n : nat) (slots : list (slot K V)) : list (slot K V) :=
    fold_left place (hash_iter slots) (repeat Empty n).
  (** [reserve(1)], which every insertion of a new key begins with *)
  Definition reserve (slots : list (slot K V)) : list (slot K V) :=
    if crowded lay (length slots) (hash_len slots) || negb (Nat.ltb (hash_len slots) (length slots))
    then rehash (length slots + 1 + extra lay (length slots)) slots
    else slots.

  (** [HashMap::entry]: a new value for a key, made from the old one if there is any.  A key that is [==] one in
      the map does not replace it. *)
  Definition hash_update (slots : list (slot K V)) (k : K) (f : option V -> V) : list (slot K V) :=
    match find_slot k slots (looked_at slots k) with
    | Some p =>
        match nth p slots Empty with
        | Full t k' v => put_at p (Full t k' (f (Some v))) slots
        | _ => slots
        end
    | None => place (reserve slots) (k, f None)
    end.
  (** [HashMap::insert], which returns the value it replaces ([HashSet::insert] returns whether there was none) *)
  Definition hash_insert (slots : list (slot K V)) (k : K) (v : V) : option V * list (slot K V) :=
    (hash_get slots k, hash_update slots k (fun _ => v)).
  (** [HashMap::remove] leaves a mark, so that searches go on behind the slot. *)
  Definition hash_remove (slots : list (slot K V)) (k : K) : option V * list (slot K V) :=
    (hash_get slots k,
     match find_slot k slots (looked_at slots k) with Some p => put_at p Deleted slots | None => slots end).
End Table.

(** ** What the crate makes of it *)
Section Crate.
  Context {H : Type} (new : H) (finish : H -> Z) (write : H -> Z -> H) (lay : layout).

  (** src/evaluate/lookup_table.rs:21-36 [LookupTable] and [LookupTable::new] with the two maps as tables of
      slots.  (The map made for 6175 entries is the one that gets 1287, and the other way round.) *)
  Definition hashed_tables : Type := list (slot Z meta) * list (slot Z meta).
  Definition key_hash : Z -> Z := hash_one new finish (int_hash write).
  Definition hashed_insert_flush (k : Z) (m : meta) (t : hashed_tables) : hashed_tables :=
    (snd (hash_insert lay Z.eqb key_hash (fst t) k m), snd t).
  Definition hashed_insert_unsuited (k : Z) (m : meta) (t : hashed_tables) : hashed_tables :=
    (fst t, snd (hash_insert lay Z.eqb key_hash (snd t) k m)).
  Definition hashed_table_new : outcome hashed_tables :=
    build hashed_insert_flush hashed_insert_unsuited
      (repeat Empty (initial lay 6175), repeat Empty (initial lay 1287)).
  (** src/evaluate/mod.rs:148-151 and src/evaluate/evaluation.rs:16-22 *)
  Definition hashed_evaluate (t : hashed_tables) (cards : list card) : outcome (result eval eval_error) :=
    evaluate_with (mk_evaluation (hash_get lay Z.eqb key_hash (fst t)) (hash_get lay Z.eqb key_hash (snd t))) cards.

  (** [Itertools::counts] of src/error.rs:191-194 and examples/jacks-or-better.rs:209-211 *)
  Definition hashed_counts {K} (eqb : K -> K -> bool) (hash : K -> H -> H) (l : list K) : list (slot K nat) :=
    fold_left (fun m k => hash_update lay eqb (hash_one new finish hash) m k
                            (fun n => match n with Some n => S n | None => 1 end)) l [].
  (** [collect::<HashSet<_>>()] of whatever is [Hash] and [Eq] *)
  Definition hashed_set {K} (eqb : K -> K -> bool) (hash : K -> H -> H) (l : list K) : list (slot K unit) :=
    fold_left (fun s k => snd (hash_insert lay eqb (hash_one new finish hash) s k tt)) l [].
  (** [s.contains(&k)] *)
  Definition set_contains {K} (eqb : K -> K -> bool) (hash : K -> H -> H) (s : list (slot K unit)) (k : K) : bool :=
    match hash_get lay eqb (hash_one new finish hash) s k with Some _ => true | None => false end.
  (** examples/jacks-or-better.rs:208 [swaps.iter().all(move |x| duplicates.insert(x))] *)
  Fixpoint hashed_all_inserted (duplicates : list (slot Z unit)) (l : list Z) : bool :=
    match l with
    | [] => true
    | x :: l' =>
        match hash_insert lay Z.eqb key_hash duplicates x tt with
        | (Some _, _) => false
        | (None, d) => hashed_all_inserted d l'
        end
    end.
End Crate.
