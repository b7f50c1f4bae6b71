(** ModelPhf.v: the tables of the feature static_lookup as they are compiled in, perfect hash maps.

    Elsewhere ([static_evaluate], [ensure_identical_tables]) a [phf::Map] is a finite map.  Here it is what its
    fields are: a seed, displacements, and entries in the order of the downloaded file.  The code of phf 0.11
    is not in the repository and was modelled from memory. *)
From Coq Require Import List ZArith.
From Verif Require Import Base ModelCard ModelEval ModelTable ModelEvaluation ModelTests.
Import ListNotations.
Local Open Scope list_scope.
Local Open Scope Z_scope.

(** [phf::Map], src/evaluate/static_lookup.rs:25-32; all fields are public, so a file can hold any *)
Record phf_map (V : Type) := mk_phf {
  phf_seed : Z;                  (* [key: u64] *)
  phf_disps : list (Z * Z);      (* [disps: &'static [(u32, u32)]] *)
  phf_entries : list (Z * V)     (* [entries: &'static [(K, V)]] *)
}.
Arguments mk_phf {V}.
Arguments phf_seed {V}.
Arguments phf_disps {V}.
Arguments phf_entries {V}.
(** src/evaluate/static_lookup.rs:28,31 [phf::Map::new()] *)
Definition phf_new {V} : phf_map V := mk_phf 0 [] [].

(** [phf_shared::Hashes], three numbers that SipHash makes of a seed and a key.  Which is left open. *)
Record phf_hashes := mk_hashes { hash_g : Z; hash_f1 : Z; hash_f2 : Z }.
Definition as_u32 (z : Z) : Z := z mod 4294967296.
(** [phf_shared::displace]: wrapping arithmetic *)
Definition displace (f1 f2 d1 d2 : Z) : Z := as_u32 (d2 + f1 * d1 + f2).
(** [phf_shared::get_index].  [None] where it panics, on a remainder of a division by 0: the lengths are taken as
    u32. *)
Definition get_index (h : phf_hashes) (disps : list (Z * Z)) (len : nat) : option nat :=
  let n := as_u32 (Z.of_nat (length disps)) in
  if n =? 0 then None
  else match nth_error disps (Z.to_nat (hash_g h mod n)) with
       | None => None
       | Some (d1, d2) =>
           let m := as_u32 (Z.of_nat len) in
           if m =? 0 then None else Some (Z.to_nat (displace (hash_f1 h) (hash_f2 h) d1 d2 mod m))
       end.

Section Phf.
  Context (hash : Z -> Z -> phf_hashes).

  (** [phf::Map::get].  It compares the key with that of the only entry it looks at.  A map without displacements
      has nothing.  (If [get_index] panics, nothing is found, so that [Index] panics anyway.) *)
  Definition phf_get {V} (m : phf_map V) (k : Z) : option V :=
    match phf_disps m with
    | [] => None
    | _ => match get_index (hash (phf_seed m) k) (phf_disps m) (length (phf_entries m)) with
           | None => None
           | Some i => match nth_error (phf_entries m) i with
                       | Some (k', v) => if k' =? k then Some v else None
                       | None => None
                       end
           end
    end.

  (** src/evaluate/static_lookup.rs:37-43, 102-105 *)
  Definition phf_evaluate (FLUSH_LOOKUP UNSUITED_LOOKUP : phf_map meta) (cards : list card)
    : outcome (result eval eval_error) :=
    evaluate_with (mk_evaluation (phf_get FLUSH_LOOKUP) (phf_get UNSUITED_LOOKUP)) cards.
End Phf.

(** src/evaluate/static_lookup.rs:171-193 [ensure_identical_tables]: goes through the entries as they stand and
    never looks one up *)
Definition phf_ensure_identical (FLUSH_LOOKUP UNSUITED_LOOKUP : phf_map meta) : outcome unit :=
  let! EVALUATOR := evaluator_new in
  let identical (dyn : map_i32 meta) (stat : phf_map meta) :=
    let! _ := foldM (fun _ (p : Z * meta) =>
      let! v := index_key (map_get dyn) (fst p) in assert (meta_eqb v (snd p))) (phf_entries stat) tt in
    assert (Nat.eqb (map_len dyn) (length (phf_entries stat))) in
  let! _ := identical (flush_lookup (evaluator_table EVALUATOR)) FLUSH_LOOKUP in
  identical (unsuited_lookup (evaluator_table EVALUATOR)) UNSUITED_LOOKUP.
