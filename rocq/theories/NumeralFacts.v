(** NumeralFacts.v: the digits of numbers, in decimal and hexadecimal. *)
From Coq Require Import Lia List String ZArith NArith Bool Arith.
From Verif Require Import Base ModelCard ModelEval ModelDebugText SpecDebugText ModelFormat SpecFormat SpecExamples.
From Verif Require DebugTextFacts NumberFacts.
Import ListNotations.
Local Open Scope string_scope.
Local Open Scope list_scope.

(** ** Hexadecimal *)
Lemma hex_nonempty s n : hex s n -> s <> [].
Proof. destruct 1; [discriminate|]. destruct s; discriminate. Qed.
Lemma hd_app (s t : rstring) : s <> [] -> hd 0%N (s ++ t) = hd 0%N s.
Proof. destruct s; [congruence|reflexivity]. Qed.
Lemma hex_zero s n : hex s n -> n = 0%N -> hd 0%N s = 48%N.
Proof.
  induction 1 as [d H|s n d H IH D]; intros E.
  - subst. reflexivity.
  - rewrite hd_app by exact (hex_nonempty s n H). apply IH. lia.
Qed.
Lemma hex_symbol d : (d < 16)%N -> nth_error (lit "0123456789abcdef") (N.to_nat d) = Some (hex_digit d).
Proof.
  intros H. assert (d = 0 \/ d = 1 \/ d = 2 \/ d = 3 \/ d = 4 \/ d = 5 \/ d = 6 \/ d = 7 \/ d = 8 \/ d = 9 \/ d = 10
    \/ d = 11 \/ d = 12 \/ d = 13 \/ d = 14 \/ d = 15)%N as Q by lia.
  repeat (destruct Q as [->|Q]; [reflexivity|]). subst. reflexivity.
Qed.
Lemma hex_numeral s n : hex s n -> (hd 0%N s = 48%N -> s = [48%N]) -> numeral (lit "0123456789abcdef") s n.
Proof.
  induction 1 as [d D|s n d H IH D]; intros L.
  - rewrite <- (N2Nat.id d) at 2. apply numeral_digit, hex_symbol, D.
  - pose proof (hex_nonempty s n H) as E. rewrite hd_app in L by exact E.
    assert (hd 0%N s <> 48%N) as L'.
    { intros X. specialize (L X). destruct s as [|a [|b s]]; [congruence|discriminate L|discriminate L]. }
    rewrite <- (N2Nat.id d) at 2. apply (numeral_more (lit "0123456789abcdef") s n).
    + apply IH. intros X. contradiction.
    + intros Z0. apply L', (hex_zero s n H Z0).
    + apply hex_symbol, D.
Qed.
Lemma hex_text_zero n : hd 0%N (hex_text n) = 48%N -> hex_text n = [48%N].
Proof.
  unfold hex_text. intros X.
  destruct (N.to_hex_uint n) as [|d|d|d|d|d|d|d|d|d|d|d|d|d|d|d|d] eqn:E; try (exfalso; discriminate X).
  - reflexivity.
  - destruct (DebugTextFacts.hex_leading_zero n d E) as [-> _]. reflexivity.
Qed.
Theorem hex_text_numeral n : numeral (lit "0123456789abcdef") (hex_text n) n.
Proof. exact (hex_numeral _ _ (DebugTextFacts.hex_text_hex n) (hex_text_zero n)). Qed.
Lemma upper_symbol d c : nth_error (lit "0123456789abcdef") d = Some c ->
  nth_error (lit "0123456789ABCDEF") d = Some (upper c).
Proof. do 16 (destruct d as [|d]; [intros [= <-]; reflexivity|]). destruct d; discriminate. Qed.
Theorem upper_numeral s n : numeral (lit "0123456789abcdef") s n -> numeral (lit "0123456789ABCDEF") (map upper s) n.
Proof.
  induction 1 as [d c H|s n d c H IH N0 D].
  - apply (numeral_digit (lit "0123456789ABCDEF")), upper_symbol, H.
  - rewrite map_app. apply (numeral_more (lit "0123456789ABCDEF") _ n _ _ IH N0), upper_symbol, D.
Qed.

(** ** Decimal *)
Lemma decimal_nonempty s n : decimal s n -> s <> [].
Proof. destruct 1; [discriminate|]. destruct s; discriminate. Qed.
Lemma decimal_nonneg s n : decimal s n -> (0 <= n)%Z.
Proof. induction 1; lia. Qed.
Lemma decimal_zero s n : decimal s n -> n = 0%Z -> hd 0%N s = 48%N.
Proof.
  induction 1 as [d H|s n d H IH D]; intros E.
  - assert (d = 0%N) as -> by lia. reflexivity.
  - rewrite hd_app by exact (decimal_nonempty s n H). apply IH. pose proof (decimal_nonneg s n H). lia.
Qed.
Lemma decimal_symbol d : (d < 10)%N -> nth_error (lit "0123456789") (N.to_nat d) = Some (48 + d)%N.
Proof.
  intros H. assert (d = 0 \/ d = 1 \/ d = 2 \/ d = 3 \/ d = 4 \/ d = 5 \/ d = 6 \/ d = 7 \/ d = 8 \/ d = 9)%N as Q by lia.
  repeat (destruct Q as [->|Q]; [reflexivity|]). subst. reflexivity.
Qed.
Lemma decimal_numeral s n : decimal s n -> (hd 0%N s = 48%N -> s = [48%N]) -> numeral (lit "0123456789") s (Z.to_N n).
Proof.
  induction 1 as [d D|s n d H IH D]; intros L.
  - rewrite N2Z.id. rewrite <- (N2Nat.id d) at 2. apply numeral_digit, decimal_symbol, D.
  - pose proof (decimal_nonempty s n H) as E. pose proof (decimal_nonneg s n H) as P. rewrite hd_app in L by exact E.
    assert (hd 0%N s <> 48%N) as L'.
    { intros X. specialize (L X). destruct s as [|a [|b s]]; [congruence|discriminate L|discriminate L]. }
    replace (Z.to_N (10 * n + Z.of_N d)) with (N.of_nat (List.length (lit "0123456789")) * Z.to_N n + N.of_nat (N.to_nat d))%N
      by (cbn [lit List.length]; lia).
    apply numeral_more.
    + apply IH. intros X. contradiction.
    + intros Z0. apply L', (decimal_zero s n H). lia.
    + apply decimal_symbol, D.
Qed.
Theorem dec_numeral n : numeral (lit "0123456789") (dec n) n.
Proof.
  destruct (NumberFacts.dec_decimal n) as [D L]. rewrite <- (N2Z.id n) at 2. apply (decimal_numeral _ _ D).
  intros X. rewrite (L X). reflexivity.
Qed.

Theorem digits_numeral bits z :
  numeral (lit "0123456789") (digits Decimal bits z) (Z.to_N (Z.abs z))
  /\ numeral (lit "0123456789abcdef") (digits LowerHex bits z) (Z.to_N (z mod 2 ^ bits))
  /\ numeral (lit "0123456789ABCDEF") (digits UpperHex bits z) (Z.to_N (z mod 2 ^ bits)).
Proof.
  split; [|split].
  - apply dec_numeral.
  - apply hex_text_numeral.
  - apply upper_numeral, hex_text_numeral.
Qed.

(** One text for one number *)
Lemma split_unique l a b d e : d < l -> e < l ->
  (N.of_nat l * a + N.of_nat d = N.of_nat l * b + N.of_nat e)%N -> a = b /\ d = e.
Proof.
  intros D E Q. assert (a = b) as ->.
  { rewrite (N.div_unique (N.of_nat l * a + N.of_nat d) (N.of_nat l) a (N.of_nat d)) by lia.
    rewrite Q. symmetry. apply (N.div_unique _ _ _ (N.of_nat e)); lia. }
  split; [reflexivity|lia].
Qed.
Theorem numeral_unique y s n : numeral y s n -> forall t, numeral y t n -> s = t.
Proof.
  assert (forall d (c : rchar), nth_error y d = Some c -> d < List.length y) as B.
  { intros d c H. apply nth_error_Some. rewrite H. discriminate. }
  induction 1 as [d c H|s n d c H IH N0 D]; intros t T.
  - inversion T as [e c' H' E1 E2|t' n' e c' T' N' D' E1 E2].
    + assert (e = d) as -> by lia. congruence.
    + exfalso. pose proof (B _ _ H). nia.
  - inversion T as [e c' H' E1 E2|t' n' e c' T' N' D' E1 E2].
    + exfalso. pose proof (B _ _ H'). nia.
    + destruct (split_unique _ _ _ _ _ (B _ _ D') (B _ _ D) E2) as [-> ->]. rewrite (IH t' T'). congruence.
Qed.
