(** SpecRand.v: vocabulary of the statements about random words.  Definitions only. *)
From Coq Require Import ZArith List.
From Verif Require Import Base ModelRand.
Import ListNotations.
Local Open Scope Z_scope.

(** A [W]-bit word. *)
Definition word_of (W v : Z) : Prop := 0 <= v < 2 ^ W.

(** A generator that gives prepared words. *)
Definition prepared (W : Z) (ws : list Z) : Z * list Z :=
  match ws with v :: ws' => (v, ws') | [] => (0, []) end.

(** The largest power of two that can be multiplied with [r] without exceeding [W] bits. *)
Definition copies (W r c : Z) : Prop := exists k, 0 <= k /\ c = 2 ^ k /\ 2 ^ W / 2 <= r * c < 2 ^ W.

(** [weight n c]: [c] is the product of the copies of [2] ... [n] in 32 bits. *)
Inductive weight : nat -> Z -> Prop :=
| weight_none n : (n <= 1)%nat -> weight n 1
| weight_more n c d : (1 <= n)%nat -> weight n d -> copies 32 (Z.of_nat (S n)) c -> weight (S n) (c * d).
