(** SpecOrder.v: orders, and what it means to choose, sort and collect by one.  Definitions only. *)
From Coq Require Import List Sorted Permutation.
Import ListNotations.

Section Order.
  Context {A : Type} (cmp : A -> A -> comparison).

  (** Reflexive, antisymmetric in the sense of [Ord], transitive *)
  Definition total_order : Prop := forall a b c,
    cmp a a = Eq /\ cmp b a = CompOpp (cmp a b) /\ (cmp a b <> Gt -> cmp b c <> Gt -> cmp a c <> Gt).

  (** The last of the greatest elements of a list, and the first of the least *)
  Definition last_greatest (l : list A) (m : A) : Prop := exists a b,
    l = a ++ m :: b /\ (forall x, In x a -> cmp x m <> Gt) /\ (forall x, In x b -> cmp x m = Lt).
  Definition first_least (l : list A) (m : A) : Prop := exists a b,
    l = a ++ m :: b /\ (forall x, In x a -> cmp x m = Gt) /\ (forall x, In x b -> cmp x m <> Lt).

  (** [l'] is [l] put in order, and elements that compare equal stay in the order they had *)
  Definition in_order (l l' : list A) : Prop :=
    Permutation l l' /\ StronglySorted (fun a b => cmp a b <> Gt) l'.
  Definition level (x y : A) : bool := match cmp x y with Eq => true | _ => false end.
  Definition stable (l l' : list A) : Prop := forall x, filter (level x) l' = filter (level x) l.

  (** [s] has exactly one of those elements of [l] that compare equal, in order *)
  Definition one_of_each (l s : list A) : Prop :=
    StronglySorted (fun a b => cmp a b = Lt) s /\ incl s l
    /\ forall x, In x l -> exists y, In y s /\ cmp x y = Eq.
End Order.
