(** NumberFacts.v: numbers are printed in decimal, and read back. *)
From Coq Require Import Lia List String ZArith Decimal DecimalString DecimalN DecimalFacts.
From Verif Require Import Base ModelCard ModelEval ModelExamples Spec SpecApi SpecExamples TextFacts ExamplesFacts.
Import ListNotations.
Local Open Scope Z_scope.

Lemma snoc_digit s n (d : N) c z : decimal s n -> (d < 10)%N -> c = (48 + d)%N -> z = 10 * n + Z.of_N d ->
  decimal (s ++ [c])%list z.
Proof. intros H D -> ->. exact (decimal_more s n d H D). Qed.
Ltac next_digit IH k H :=
  match goal with |- decimal (?s ++ lit (String ?a ?t)) _ =>
    change (lit (String a t)) with ([(48 + k)%N] ++ lit t)%list; rewrite app_assoc; apply IH;
    eapply (snoc_digit _ _ k); [exact H|reflexivity|reflexivity|try reflexivity; try lia] end.
Lemma digits_acc : forall d s a, decimal s (Z.pos a) ->
  decimal (s ++ lit (NilEmpty.string_of_uint d)) (Z.pos (Pos.of_uint_acc d a)).
Proof.
  induction d; intros s a H; cbn [NilEmpty.string_of_uint Pos.of_uint_acc].
  - cbn [lit]. rewrite app_nil_r. exact H.
  - next_digit IHd 0%N H.
  - next_digit IHd 1%N H.
  - next_digit IHd 2%N H.
  - next_digit IHd 3%N H.
  - next_digit IHd 4%N H.
  - next_digit IHd 5%N H.
  - next_digit IHd 6%N H.
  - next_digit IHd 7%N H.
  - next_digit IHd 8%N H.
  - next_digit IHd 9%N H.
Qed.
Lemma one_digit (k : N) : (k < 10)%N -> decimal [(48 + k)%N] (Z.of_N k).
Proof. intros H. exact (decimal_digit k H). Qed.
Lemma no_leading_zero n d : N.to_uint n = D0 d -> d = Nil /\ n = 0%N.
Proof.
  intros E. pose proof (DecimalN.Unsigned.to_of (N.to_uint n)) as U. rewrite DecimalN.Unsigned.of_to in U.
  rewrite E in U. unfold unorm in U. pose proof (nzhead_nonzero (D0 d)) as Z0.
  destruct (nzhead (D0 d)) eqn:Q; try discriminate U.
  - injection U as ->. split; [reflexivity|]. rewrite <- (DecimalN.Unsigned.of_to n), E. reflexivity.
  - exfalso. exact (Z0 _ eq_refl).
Qed.
Theorem dec_decimal n : decimal (dec n) (Z.of_N n) /\ (hd 0%N (dec n) = 48%N -> n = 0%N).
Proof.
  unfold dec. destruct (N.to_uint n) as [|d|d|d|d|d|d|d|d|d|d] eqn:E.
  - exfalso. destruct n; [discriminate E|]. exact (DecimalPos.Unsigned.to_uint_nonnil _ E).
  - destruct (no_leading_zero n d E) as [-> ->]. split; [exact (one_digit 0 eq_refl)|reflexivity].
  - split; [|discriminate]. rewrite <- (DecimalN.Unsigned.of_to n), E. exact (digits_acc d [49%N] 1 (one_digit 1 eq_refl)).
  - split; [|discriminate]. rewrite <- (DecimalN.Unsigned.of_to n), E. exact (digits_acc d [50%N] 2 (one_digit 2 eq_refl)).
  - split; [|discriminate]. rewrite <- (DecimalN.Unsigned.of_to n), E. exact (digits_acc d [51%N] 3 (one_digit 3 eq_refl)).
  - split; [|discriminate]. rewrite <- (DecimalN.Unsigned.of_to n), E. exact (digits_acc d [52%N] 4 (one_digit 4 eq_refl)).
  - split; [|discriminate]. rewrite <- (DecimalN.Unsigned.of_to n), E. exact (digits_acc d [53%N] 5 (one_digit 5 eq_refl)).
  - split; [|discriminate]. rewrite <- (DecimalN.Unsigned.of_to n), E. exact (digits_acc d [54%N] 6 (one_digit 6 eq_refl)).
  - split; [|discriminate]. rewrite <- (DecimalN.Unsigned.of_to n), E. exact (digits_acc d [55%N] 7 (one_digit 7 eq_refl)).
  - split; [|discriminate]. rewrite <- (DecimalN.Unsigned.of_to n), E. exact (digits_acc d [56%N] 8 (one_digit 8 eq_refl)).
  - split; [|discriminate]. rewrite <- (DecimalN.Unsigned.of_to n), E. exact (digits_acc d [57%N] 9 (one_digit 9 eq_refl)).
Qed.
Theorem show_decimal z : 0 <= z -> decimal (show z) z /\ (hd 0%N (show z) = 48%N -> z = 0).
Proof.
  intros H. unfold show. destruct (dec_decimal (Z.to_N z)) as [D L]. rewrite Z2N.id in D by exact H.
  split; [exact D|]. intros X. apply L in X. lia.
Qed.
Theorem show_read z : 0 <= z < 2 ^ 64 -> parse_usize (show z) = Some z.
Proof.
  intros H. apply parse_usize_spec. split; [apply H|]. left. apply show_decimal. lia.
Qed.
