(** RustUtils.v: running the text of src/evaluate/utils.rs gives what the model gives. *)
From Coq Require Import String Lia.
From Verif Require Import Base BaseFacts ModelCard ModelEval ModelTable ModelEvaluation CardFacts.
From Verif Require Import RustSyntax RustSemantics RustProgram RustValues RustSteps RustFacts.
Local Open Scope string_scope.
Local Open Scope list_scope.
Local Open Scope Z_scope.

(** ** src/evaluate/utils.rs *)
Lemma call_bit_sequence_new : forall fuel d z,
  call (engine fuel (S d)) "BitSequence::new" None [VInt I16 z] = Val (bit_sequence_value (bit_sequence_new z), VUnit).
Proof. code. over. reflexivity. Qed.
Lemma trailing_zeros_pos : forall p, 0 <= pos_trailing_zeros p <= Zpos p.
Proof. induction p; cbn [pos_trailing_zeros]; lia. Qed.
Lemma trailing_zeros_bound : forall z, in_i16 z = true -> 0 <= trailing_zeros_i16 z <= 65536.
Proof.
  intros z H. unfold in_i16 in H. apply andb_prop in H. destruct H as [H1 H2].
  apply Z.leb_le in H1. apply Z.ltb_lt in H2.
  destruct z as [|p|p]; cbn [trailing_zeros_i16]; [ lia | | ]; pose proof (trailing_zeros_pos p); lia.
Qed.
Lemma call_get_next : forall fuel d b, in_i16 (bs_bits b) = true ->
  call (engine fuel (S d)) "BitSequence::get_next" None [bit_sequence_value b]
  = lift (fun p => (VInt I16 (fst p), bit_sequence_value (snd p))) (get_next b).
Proof.
  intros fuel d b Hb.
  assert (Ht : (trailing_zeros I16 (bs_bits b) + 1) mod 4294967296 = trailing_zeros_i16 (bs_bits b) + 1).
  { change (trailing_zeros I16 (bs_bits b)) with (trailing_zeros_i16 (bs_bits b)).
    apply Z.mod_small. pose proof (trailing_zeros_bound _ Hb). lia. }
  code. rewrite Ht. unfold get_next, shr_i16, in_width, wrapping_sub_i16, wrapping_add_i16, wrapping_neg_i16.
  change (bits I16) with 16. cases; follow; reflexivity.
Qed.
Ltac all_suits := match goal with |- context [suit_value ?s] => destruct s end; cbv beta iota delta [suit_value].
Ltac all_ranks := match goal with |- context [rank_value ?r] => destruct r end; cbv beta iota delta [rank_value].
Lemma call_card_to_index : forall fuel d c,
  call (engine fuel (S (S (S d)))) "card_to_index" None [card_value c]
  = lift (fun z => (VInt U8 z, VUnit)) (card_to_index c).
Proof.
  code. unfold card_to_index. learn call_card_suit. all_suits; known.
  all: learn call_card_rank. all: all_ranks; known.
  all: over. all: reflexivity.
Qed.
Lemma int_ranks_small : forall i, In i INT_RANKS -> 0 <= i <= 12.
Proof. intros i H. cbn [INT_RANKS In] in H. lia. Qed.
Lemma rank_shift : forall i, In i INT_RANKS ->
  in_width Open i = true /\ in_ty I16 (Z.shiftl 1 i) = true /\ i mod 18446744073709551616 = i
  /\ shl_i16 1 i = Ret (Z.shiftl 1 i).
Proof.
  intros i H. cbn [INT_RANKS In] in H.
  repeat (destruct H as [H|H]; [ subst i; vm_compute; repeat split; reflexivity | ]). destruct H.
Qed.
Lemma call_prime_product_from_rank_bits : forall fuel d z,
  call (engine fuel (S (S d))) "prime_product_from_rank_bits" None [VInt I16 z]
  = lift (fun p => (VInt I32 p, VUnit)) (prime_product_from_rank_bits z).
Proof.
  code. rewrite loop_ints. unfold prime_product_from_rank_bits.
  change [0; 1; 2; 3; 4; 5; 6; 7; 8; 9; 10; 11; 12] with INT_RANKS.
  match goal with |- context [foldM ?F _ _] => set (f := F) end.
  learn (fun p b => each_fold (engine fuel d) p b (VInt I16) f
           (fun p => [("product", VInt I32 p); ("rank_bits", VInt I16 z); ("Self", VFn "")])).
  { intros p i Hi. destruct (rank_shift i Hi) as (H1 & H2 & H3 & H4).
    one_round. rewrite H1. steps. rewrite H2. steps. subst f. cbv beta. rewrite H4. cbn [bind].
    destruct (negb (Z.land z (Z.shiftl 1 i) =? 0)) eqn:B.
    - steps. rewrite H3. change [2; 3; 5; 7; 11; 13; 17; 19; 23; 29; 31; 37; 41] with PRIMES. unfold index.
      destruct (nth_error PRIMES (Z.to_nat i)) as [q|]; known; over; reflexivity.
    - known. over. reflexivity. }
  destruct (foldM f INT_RANKS 1) as [p|p|]; cbn [lift]; known; [ | reflexivity | reflexivity ].
  over. reflexivity.
Qed.

Lemma high_rank_loop_cons : forall z i l, In i INT_RANKS ->
  high_rank_loop z (i :: l)
  = if negb (Z.land z (Z.shiftl 1 i) =? 0) then index RANK_ALL_VARIANTS (Z.to_nat i) else high_rank_loop z l.
Proof. intros z i l Hi. cbn [high_rank_loop]. rewrite (proj2 (proj2 (proj2 (rank_shift i Hi)))). reflexivity. Qed.
Lemma all_ranks_at : forall i, In i INT_RANKS ->
  exists r, nth_error RANK_ALL_VARIANTS (Z.to_nat i) = Some r
    /\ nth_error [VCon "Rank::Two" []; VCon "Rank::Three" []; VCon "Rank::Four" []; VCon "Rank::Five" [];
                  VCon "Rank::Six" []; VCon "Rank::Seven" []; VCon "Rank::Eight" []; VCon "Rank::Nine" [];
                  VCon "Rank::Ten" []; VCon "Rank::Jack" []; VCon "Rank::Queen" []; VCon "Rank::King" [];
                  VCon "Rank::Ace" []] (Z.to_nat i) = Some (rank_value r).
Proof.
  intros i H. cbn [INT_RANKS In] in H.
  repeat (destruct H as [H|H]; [ subst i; eexists; vm_compute; split; reflexivity | ]). destruct H.
Qed.
Lemma call_high_rank_from_rank_bits : forall fuel d z,
  call (engine fuel (S (S d))) "high_rank_from_rank_bits" None [VInt I16 z]
  = lift (fun r => (rank_value r, VUnit)) (high_rank_from_rank_bits z).
Proof.
  intros fuel d z. code. unfold high_rank_from_rank_bits. change (index STRAIGHTS 9) with (Ret 4111). cbn [bind].
  destruct (z =? 4111) eqn:B.
  { steps. over. reflexivity. }
  steps. rewrite loop_ints.
  change (rev [0; 1; 2; 3; 4; 5; 6; 7; 8; 9; 10; 11; 12]) with (rev INT_RANKS).
  match goal with |- to (bnd (each _ _ ?P ?B _ ?R) _) _ =>
    assert (E : forall l, (forall i, In i l -> In i INT_RANKS) ->
      each rust (engine fuel d) P B (map (VInt I16) l) R
      = match high_rank_loop z l with Ret r => Val (Back (rank_value r), R) | _ => Val (Go VUnit, R) end
      /\ (forall p, high_rank_loop z l = Panic p -> p = UnreachableReached) /\ high_rank_loop z l <> OutOfFuel)
  end.
  { induction l as [|i l IH]; intros Hl.
    - split; [ reflexivity | ]. split; [ | discriminate ]. intros p H. injection H as <-. reflexivity.
    - rewrite high_rank_loop_cons by (apply Hl; left; reflexivity).
      destruct (rank_shift i (Hl i (or_introl eq_refl))) as (H1 & H2 & H3 & H4).
      destruct (all_ranks_at i (Hl i (or_introl eq_refl))) as (r & R1 & R2).
      cbn [map each].
      destruct (IH (fun j Hj => Hl j (or_intror Hj))) as (IH1 & IH2).
      destruct (negb (Z.land z (Z.shiftl 1 i) =? 0)) eqn:C.
      + unfold index. rewrite R1. split; [ | split; discriminate ].
        match goal with |- bnd ?m _ = _ => assert (F : m = Val (Back (rank_value r), [("rank_bits", VInt I16 z); ("Self", VFn "")])) end.
        { one_round. rewrite H1. steps. rewrite H2. steps. rewrite C. steps. rewrite H3, R2. steps. over. reflexivity. }
        rewrite F. reflexivity.
      + split; [ | exact IH2 ].
        match goal with |- bnd ?m _ = _ => assert (F : m = Val (Go VUnit, [("rank_bits", VInt I16 z); ("Self", VFn "")])) end.
        { one_round. rewrite H1. steps. rewrite H2. steps. rewrite C. steps. over. reflexivity. }
        rewrite F. exact IH1. }
  destruct (E (rev INT_RANKS)) as (E1 & E2 & E3).
  { intros i Hi. apply in_rev in Hi. exact Hi. }
  eapply to_bnd; [ exact E1 | ].
  destruct (high_rank_loop z (rev INT_RANKS)) as [r|p|]; known.
  - over. reflexivity.
  - rewrite (E2 p eq_refl). over. reflexivity.
  - destruct (E3 eq_refl).
Qed.
