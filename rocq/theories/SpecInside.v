(** SpecInside.v: what C101 and C103 add to the other specifications. *)
From Coq Require Import String List ZArith.
From Verif Require Import Base ModelCard Spec RustSyntax RustSemantics RustValues SpecRust.
Import ListNotations.
Local Open Scope string_scope.
Local Open Scope list_scope.

(** One bit for each rank, that of a two the lowest; for ranks that are all different. *)
Definition rank_bit (r : rank) : Z :=
  (match r with
   | Two => 1 | Three => 2 | Four => 4 | Five => 8 | Six => 16 | Seven => 32 | Eight => 64 | Nine => 128
   | Ten => 256 | Jack => 512 | Queen => 1024 | King => 2048 | Ace => 4096
   end)%Z.
Definition rank_bits (rs : list rank) : Z := fold_right Z.add 0%Z (map rank_bit rs).
(** A field of a struct. *)
Definition field (v : value) (name : string) : option value :=
  match v with
  | VCon _ fs => match find (fun f => String.eqb (fst f) name) fs with Some f => Some (snd f) | None => None end
  | _ => None
  end.
(** The number an entry of a table carries. *)
Definition number_is (v : value) (z : Z) : Prop :=
  exists w, field v "hand_rank" = Some w /\ field w "0" = Some (VInt I16 z).
(** The tables that [LookupTable::new] returns. *)
Definition tables (flush other : map_i32 value) : value :=
  VCon "LookupTable" [("flush_lookup", VMap flush); ("unsuited_lookup", VMap other)].
(** The entry of one of them ([true] the flush table) at a key. *)
Definition held (flush other : map_i32 value) (f : bool) (k : Z) (v : value) : Prop :=
  map_get (if f then flush else other) k = Some v.
(** With some two cards beside those on the table the result has a category among [ks]. *)
Definition lets (P : program) (ev : value) (table : list face) (ks : list nat) : Prop :=
  exists own cs e c, length own = 2 /\ NoDup (table ++ own) /\ Forall2 (made P) (table ++ own) cs /\ gives P ev cs e
    /\ returns P "Eval::class" None [e] (class_value c) /\ In (category c) ks.
