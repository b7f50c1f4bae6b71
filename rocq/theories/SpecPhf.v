(** SpecPhf.v: vocabulary for C84.  Definitions only. *)
From Coq Require Import List ZArith.
From Verif Require Import Base ModelEval ModelPhf.
Import ListNotations.
Local Open Scope Z_scope.

(** The place to which a key leads: one of its three numbers chooses a displacement, the other two are moved by it. *)
Definition leads_to {V} (hash : Z -> Z -> phf_hashes) (m : phf_map V) (k : Z) (i : nat) : Prop :=
  let h := hash (phf_seed m) k in
  exists d1 d2, nth_error (phf_disps m) (Z.to_nat (hash_g h mod Z.of_nat (length (phf_disps m)))) = Some (d1, d2)
    /\ Z.of_nat i = ((d2 + hash_f1 h * d1 + hash_f2 h) mod 2 ^ 32) mod Z.of_nat (length (phf_entries m)).
(** Every entry stands where its key leads, as phf's generator puts it. *)
Definition well_placed {V} (hash : Z -> Z -> phf_hashes) (m : phf_map V) : Prop :=
  0 < Z.of_nat (length (phf_disps m)) < 2 ^ 32 /\ Z.of_nat (length (phf_entries m)) < 2 ^ 32
  /\ NoDup (map fst (phf_entries m))
  /\ forall k v, In (k, v) (phf_entries m) -> exists i, leads_to hash m k i /\ nth_error (phf_entries m) i = Some (k, v).
