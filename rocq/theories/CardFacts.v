(** CardFacts.v: lemmas about ModelCard.v. *)
From Coq Require Import Lia.
From Verif Require Import Base BaseFacts ModelCard Spec.
From Verif Require Export SpecApi.
Local Open Scope Z_scope.

(** [Card::new] never panics. *)
Lemma card_new_chk_ret r s : card_new_chk r s = Ret (card_new r s).
Proof. destruct r, s; reflexivity. Qed.

Lemma card_rank_new r s : card_rank (card_new r s) = r.
Proof. destruct r, s; reflexivity. Qed.
Lemma card_suit_new r s : card_suit (card_new r s) = s.
Proof. destruct r, s; reflexivity. Qed.

Lemma a_card_new r s : a_card (card_new r s).
Proof. exists r, s. reflexivity. Qed.

Lemma a_card_eta c : a_card c -> c = card_new (card_rank c) (card_suit c).
Proof. intros (r & s & ->). rewrite card_rank_new, card_suit_new. reflexivity. Qed.

Lemma face_of_inj a b : a_card a -> a_card b -> face_of a = face_of b -> a = b.
Proof.
  intros Ha Hb E. rewrite (a_card_eta a Ha), (a_card_eta b Hb).
  unfold face_of in E. congruence.
Qed.

Lemma card_eqb_eq a b : card_eqb a b = true <-> a = b.
Proof.
  unfold card_eqb. rewrite Z.eqb_eq. destruct a, b; simpl. split; congruence.
Qed.

Lemma rank_discr_inj a b : rank_discr a = rank_discr b -> a = b.
Proof. destruct a, b; simpl; congruence. Qed.
Lemma rank_discr_pips r : rank_discr r = Z.of_nat (pips r) - 2.
Proof. destruct r; reflexivity. Qed.
Lemma pips_inj a b : pips a = pips b -> a = b.
Proof. destruct a, b; simpl; congruence. Qed.
Lemma pips_range r : (2 <= pips r <= 14)%nat.
Proof. destruct r; simpl; lia. Qed.

Definition suit_dec (a b : suit) : {a = b} + {a <> b}.
Proof. decide equality. Defined.
Definition face_dec (a b : face) : {a = b} + {a <> b}.
Proof. decide equality; [apply suit_dec | apply rank_dec]. Defined.
Definition card_dec (a b : card) : {a = b} + {a <> b}.
Proof. decide equality. apply Z.eq_dec. Defined.

Lemma in_high_to_low r : In r high_to_low.
Proof. destruct r; simpl; tauto. Qed.
Lemma in_all_ranks r : In r RANK_ALL_VARIANTS.
Proof. destruct r; simpl; tauto. Qed.
Lemma in_all_suits s : In s SUIT_ALL_VARIANTS.
Proof. destruct s; simpl; tauto. Qed.

Lemma faces_inj h1 h2 : all_cards h1 -> all_cards h2 -> faces h1 = faces h2 -> h1 = h2.
Proof.
  intros H1. revert h2. induction H1 as [|c h Hc Hh IH]; intros [|d h2] H2 E; simpl in E;
    try discriminate; [reflexivity|].
  inversion H2 as [|x y Hd Hh2]; subst. injection E as Er Es Et.
  f_equal; [apply face_of_inj; auto; unfold face_of; congruence | apply IH; auto].
Qed.

Lemma NoDup_faces h : all_cards h -> (NoDup (faces h) <-> NoDup h).
Proof.
  intros H. split; intros N.
  - unfold faces in N. eapply NoDup_map_inv; exact N.
  - induction H as [|c h Hc Hh IH]; simpl; [constructor|].
    inversion N as [|x l Hx Hl]; subst. constructor; [|apply IH; exact Hl].
    intros Hin. apply Hx. unfold faces in Hin. apply in_map_iff in Hin.
    destruct Hin as (d & E & Hd). rewrite Forall_forall in Hh.
    apply face_of_inj in E; [subst; exact Hd | apply Hh; exact Hd | exact Hc].
Qed.
