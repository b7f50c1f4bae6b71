(** SpecHash.v: vocabulary for C83, dictionaries.  Definitions only. *)
From Coq Require Import List ZArith Permutation.
From Verif Require Import ModelHash.
Import ListNotations.

(** [same] is a reflexive, symmetric and transitive test. *)
Definition equivalence {K} (same : K -> K -> bool) : Prop := forall a b c,
  same a a = true /\ same a b = same b a /\ (same a b = true -> same b c = true -> same a c = true).
(** Every slot is looked at once, for every hash value. *)
Definition complete (lay : layout) : Prop := forall n w, Permutation (seq 0 n) (probe lay n w).

(** A dictionary on paper: a list of entries that is read from the top. *)
Section Paper.
  Context {K V : Type} (same : K -> K -> bool).

  Fixpoint look (d : list (K * V)) (k : K) : option V :=
    match d with
    | [] => None
    | (k', v) :: d' => if same k k' then Some v else look d' k
    end.
  Fixpoint change (d : list (K * V)) (k : K) (f : option V -> V) : list (K * V) :=
    match d with
    | [] => [(k, f None)]
    | (k', v) :: d' => if same k k' then (k', f (Some v)) :: d' else (k', v) :: change d' k f
    end.
  Definition strike (d : list (K * V)) (k : K) : list (K * V) := filter (fun e => negb (same k (fst e))) d.
End Paper.

(** What can be asked of a map, and what it answers. *)
Inductive map_call (K V : Type) :=
| Get (k : K) | Insert (k : K) (v : V) | Update (k : K) (f : option V -> V) | Remove (k : K) | Len.
Arguments Get {K V} k.
Arguments Insert {K V} k v.
Arguments Update {K V} k f.
Arguments Remove {K V} k.
Arguments Len {K V}.
Inductive map_reply (V : Type) := Value (v : option V) | Number (n : nat) | Nothing.
Arguments Value {V} v.
Arguments Number {V} n.
Arguments Nothing {V}.

Section Calls.
  Context {K V : Type}.
  (** On paper *)
  Definition on_paper (same : K -> K -> bool) (d : list (K * V)) (c : map_call K V) : map_reply V * list (K * V) :=
    match c with
    | Get k => (Value (look same d k), d)
    | Insert k v => (Value (look same d k), change same d k (fun _ => v))
    | Update k f => (Nothing, change same d k f)
    | Remove k => (Value (look same d k), strike same d k)
    | Len => (Number (length d), d)
    end.
  (** By the hash map *)
  Definition by_hash (lay : layout) (eqb : K -> K -> bool) (hash : K -> Z) (m : list (slot K V)) (c : map_call K V)
    : map_reply V * list (slot K V) :=
    match c with
    | Get k => (Value (hash_get lay eqb hash m k), m)
    | Insert k v => let (old, m') := hash_insert lay eqb hash m k v in (Value old, m')
    | Update k f => (Nothing, hash_update lay eqb hash m k f)
    | Remove k => let (old, m') := hash_remove lay eqb hash m k in (Value old, m')
    | Len => (Number (hash_len m), m)
    end.
  (** One call after the other *)
  Fixpoint calls {S} (serve : S -> map_call K V -> map_reply V * S) (s : S) (l : list (map_call K V))
    : list (map_reply V) * S :=
    match l with
    | [] => ([], s)
    | c :: l' => let (r, s1) := serve s c in let (rs, s2) := calls serve s1 l' in (r :: rs, s2)
    end.
End Calls.
