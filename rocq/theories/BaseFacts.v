(** BaseFacts.v: lemmas about Base.v. *)
From Coq Require Import Lia ZifyBool.
From Verif Require Import Base.
Local Open Scope Z_scope.
Ltac Zify.zify_post_hook ::= Z.div_mod_to_equations.

(** The wrapping functions are the usual two's-complement residues. *)
Lemma wrap_i32_spec z : wrap_i32 z = (z + 2147483648) mod 4294967296 - 2147483648.
Proof. unfold wrap_i32, in_i32. destruct (_ && _) eqn:E; [lia | reflexivity]. Qed.
Lemma wrap_i16_spec z : wrap_i16 z = (z + 32768) mod 65536 - 32768.
Proof. unfold wrap_i16, in_i16. destruct (_ && _) eqn:E; [lia | reflexivity]. Qed.
Lemma wrap_i32_id z : -2147483648 <= z < 2147483648 -> wrap_i32 z = z.
Proof. intros H. rewrite wrap_i32_spec. lia. Qed.
Lemma wrap_i16_id z : -32768 <= z < 32768 -> wrap_i16 z = z.
Proof. intros H. rewrite wrap_i16_spec. lia. Qed.
Lemma wrap_i32_cong z : exists k, wrap_i32 z = z + k * 4294967296.
Proof.
  rewrite wrap_i32_spec. exists (- ((z + 2147483648) / 4294967296)).
  pose proof (Z.div_mod (z + 2147483648) 4294967296). lia.
Qed.
Lemma wrap_i32_mul_l a b : wrap_i32 (wrap_i32 a * b) = wrap_i32 (a * b).
Proof.
  destruct (wrap_i32_cong a) as [k Hk]. rewrite Hk, !wrap_i32_spec.
  replace ((a + k * 4294967296) * b + 2147483648)
    with ((a * b + 2147483648) + (k * b) * 4294967296) by ring.
  rewrite Z_mod_plus_full. reflexivity.
Qed.

Lemma zkey_inj a b : zkey a = zkey b -> a = b.
Proof. destruct a, b; simpl; congruence. Qed.

Lemma map_get_empty {V} k : map_get (@map_empty V) k = None.
Proof. unfold map_get, map_empty. apply PositiveMap.gempty. Qed.
Lemma map_get_insert_same {V} k (v : V) m : map_get (map_insert k v m) k = Some v.
Proof. unfold map_get, map_insert. apply PositiveMap.gss. Qed.
Lemma map_get_insert_other {V} k k' (v : V) m :
  k <> k' -> map_get (map_insert k v m) k' = map_get m k'.
Proof.
  intros H. unfold map_get, map_insert. apply PositiveMap.gso.
  intros E. apply H. symmetry. apply zkey_inj. exact E.
Qed.

Lemma bind_ret {A B} (m : outcome A) (k : A -> outcome B) b :
  bind m k = Ret b -> exists a, m = Ret a /\ k a = Ret b.
Proof. destruct m; simpl; intros H; [exists a; auto | discriminate | discriminate]. Qed.

Lemma bind_assoc {A B C} (m : outcome A) (k : A -> outcome B) (l : B -> outcome C) :
  bind (bind m k) l = bind m (fun a => bind (k a) l).
Proof. destruct m; reflexivity. Qed.

Lemma foldM_app {S A} (f : S -> A -> outcome S) l1 l2 s :
  foldM f (l1 ++ l2) s = bind (foldM f l1 s) (foldM f l2).
Proof.
  revert s. induction l1 as [|x l1 IH]; intros s; simpl; [reflexivity|].
  destruct (f s x); simpl; auto.
Qed.

Lemma mapM_ret {A B} (f : A -> outcome B) (g : A -> B) l :
  (forall x, In x l -> f x = Ret (g x)) -> mapM f l = Ret (map g l).
Proof.
  induction l as [|x l IH]; intros H; simpl; [reflexivity|].
  rewrite H by (left; reflexivity). simpl. rewrite IH; [reflexivity|].
  intros y Hy. apply H. right. exact Hy.
Qed.

Lemma foldM_ret {S A} (f : S -> A -> outcome S) (g : S -> A -> S) l s :
  (forall s x, In x l -> f s x = Ret (g s x)) -> foldM f l s = Ret (fold_left g l s).
Proof.
  revert s. induction l as [|x l IH]; intros s H; simpl; [reflexivity|].
  rewrite H by (left; reflexivity). simpl. apply IH. intros s' y Hy. apply H. right. exact Hy.
Qed.
