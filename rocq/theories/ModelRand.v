(** ModelRand.v: how rand 0.8.5 (the version in Cargo.lock:1114-1117; a dependency, not in /repo)
    turns random words into the indices that [shuffle] asks for.  The source of rand is not available
    here: this is written from memory of the published 0.8.5 and has not been compared with it. *)
From Coq Require Import ZArith List.
From Verif Require Import Base ModelCard.
Import ListNotations.
Local Open Scope Z_scope.

(** [uN::leading_zeros] of a non-zero [W]-bit number *)
Definition leading_zeros (W r : Z) : Z := W - 1 - Z.log2 r.

(** rand src/distributions/uniform.rs [UniformInt::sample_single_inclusive]:
    [let zone = (range << range.leading_zeros()).wrapping_sub(1);], and one turn of the loop
    [let v = rng.gen(); let (hi, lo) = v.wmul(range); if lo <= zone { return low.wrapping_add(hi) }]
    with [low = 0].  ([range == 0] is for the full range of the type and does not arise.) *)
Definition zone (W range : Z) : Z :=
  (Z.shiftl range (leading_zeros W range) mod 2 ^ W - 1) mod 2 ^ W.
Definition sample (W range v : Z) : option Z :=
  let wide := v * range in
  if wide mod 2 ^ W <=? zone W range then Some (wide / 2 ^ W) else None.

(** The whole loop.  [next W rng] is the next [W]-bit word of the generator. *)
Fixpoint sample_loop {R} (fuel : nat) (next : Z -> R -> Z * R) (W range : Z) (rng : R) :
    outcome (Z * R) :=
  match fuel with
  | O => OutOfFuel
  | S fuel' =>
      let (v, rng') := next W rng in
      match sample W range v with
      | Some hi => Ret (hi, rng')
      | None => sample_loop fuel' next W range rng'
      end
  end.
(** rand src/seq/mod.rs [gen_index]: 32-bit words if the bound fits in them *)
Definition gen_index {R} (fuel : nat) (next : Z -> R -> Z * R) (rng : R) (ubound : Z) :
    outcome (Z * R) :=
  sample_loop fuel next (if ubound <=? 2 ^ 32 - 1 then 32 else 64) ubound rng.

(** [SliceRandom::shuffle] (ModelCard.v), over words. *)
Fixpoint word_shuffle_from {A R} (fuel : nat) (next : Z -> R -> Z * R) (i : nat) (l : list A) (rng : R) :
    outcome (list A * R) :=
  match i with
  | O => Ret (l, rng)
  | S i' =>
      let! p := gen_index fuel next rng (Z.of_nat (S i)) in
      let! l' := swap l i (Z.to_nat (fst p)) in
      word_shuffle_from fuel next i' l' (snd p)
  end.
Definition word_shuffle {A R} (fuel : nat) (next : Z -> R -> Z * R) (l : list A) (rng : R) :
    outcome (list A * R) :=
  word_shuffle_from fuel next (length l - 1) l rng.
