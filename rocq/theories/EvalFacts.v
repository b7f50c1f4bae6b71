(** EvalFacts.v: lemmas about ModelEval.v. *)
From Coq Require Import Lia List Arith Bool.
From Verif Require Import Base BaseFacts ModelCard ModelEval Spec CardFacts.
Import ListNotations.
Local Open Scope Z_scope.

Lemma rank_cmp_eq a b : rank_cmp a b = Eq <-> a = b.
Proof.
  unfold rank_cmp. rewrite Z.compare_eq_iff. split; [apply rank_discr_inj|congruence].
Qed.

Lemma fields_cmp_eq a b : fields_cmp a b = Eq <-> a = b.
Proof.
  revert b. induction a as [|x a IH]; intros [|y b]; simpl; try (split; congruence).
  destruct (rank_cmp x y) eqn:E.
  - apply rank_cmp_eq in E. rewrite IH. split; congruence.
  - split; [discriminate|]. intros H. injection H as -> ->.
    rewrite (proj2 (rank_cmp_eq y y) eq_refl) in E. discriminate.
  - split; [discriminate|]. intros H. injection H as -> ->.
    rewrite (proj2 (rank_cmp_eq y y) eq_refl) in E. discriminate.
Qed.

Lemma class_discr_fields a b :
  class_discr a = class_discr b -> class_fields a = class_fields b -> a = b.
Proof. destruct a, b; simpl; intros H1 H2; congruence. Qed.

Lemma class_cmp_eq a b : class_cmp a b = Eq <-> a = b.
Proof.
  unfold class_cmp. destruct (Z.compare_spec (class_discr a) (class_discr b)) as [E|L|L].
  - rewrite fields_cmp_eq. split; [apply class_discr_fields; exact E|congruence].
  - split; [discriminate|]. intros ->. lia.
  - split; [discriminate|]. intros ->. lia.
Qed.

Lemma meta_ext a b : meta_class a = meta_class b ->
  phr (meta_hand_rank a) = phr (meta_hand_rank b) -> a = b.
Proof.
  destruct a as [[]|[]|[]|[]|[]|[]|[]|[]|[]], b as [[]|[]|[]|[]|[]|[]|[]|[]|[]]; simpl;
    intros H1 H2; congruence.
Qed.

(** Comparison of results is comparison of rank numbers, lower being better. *)
Lemma eval_cmp_spec a b :
  eval_cmp a b = Z.compare (phr (eval_hand_rank b)) (phr (eval_hand_rank a)).
Proof.
  unfold eval_cmp, meta_cmp, phr_is_better_than, phr_eqb, eval_hand_rank.
  destruct (Z.ltb_spec (phr (meta_hand_rank (eval_meta a))) (phr (meta_hand_rank (eval_meta b)))).
  - symmetry. apply Z.compare_gt_iff. assumption.
  - destruct (Z.eqb_spec (phr (meta_hand_rank (eval_meta a))) (phr (meta_hand_rank (eval_meta b)))).
    + symmetry. apply Z.compare_eq_iff. congruence.
    + symmetry. apply Z.compare_lt_iff. lia.
Qed.

Lemma eval_partial_cmp_spec a b : eval_partial_cmp a b = Some (eval_cmp a b).
Proof.
  unfold eval_partial_cmp, eval_cmp, meta_partial_cmp, meta_cmp.
  destruct (phr_is_better_than _ _); [reflexivity|]. destruct (phr_eqb _ _); reflexivity.
Qed.
