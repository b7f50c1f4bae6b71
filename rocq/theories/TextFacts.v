(** TextFacts.v: cards as integers and as text (src/card, src/error.rs). *)
From Coq Require Import Lia List Arith Bool Permutation String DecimalString DecimalPos DecimalN.
From Verif Require CountFacts.
From Verif Require Import Base BaseFacts ModelCard ModelEval Spec CardFacts.
From Verif Require Export SpecText.
Import ListNotations.
Local Open Scope nat_scope.

(** ** Bits of [Card] *)
Definition layout_check (r : rank) (s : suit) : bool :=
  forallb (fun k => Bool.eqb (Z.testbit (unique_integer (card_new r s)) (Z.of_nat k))
                             (layout r s (Z.of_nat k))) (seq 0 32).
Lemma layout_sweep r s : layout_check r s = true.
Proof. destruct r, s; vm_compute; reflexivity. Qed.

Lemma card_small r s : (0 <= unique_integer (card_new r s) < 2 ^ 29)%Z.
Proof. destruct r, s; vm_compute; split; congruence. Qed.

Lemma card_layout r s n : (0 <= n)%Z ->
  Z.testbit (unique_integer (card_new r s)) n = layout r s n.
Proof.
  intros Hn. destruct (Z.lt_ge_cases n 32) as [L|L].
  - pose proof (layout_sweep r s) as H. unfold layout_check in H. rewrite forallb_forall in H.
    specialize (H (Z.to_nat n)). rewrite Z2Nat.id in H by lia.
    apply Bool.eqb_prop, H, in_seq. lia.
  - pose proof (card_small r s) as [H1 H2].
    rewrite <- (Z.mod_small (unique_integer (card_new r s)) (2 ^ 29)) by (split; assumption).
    rewrite Z.mod_pow2_bits_high by lia. symmetry. unfold layout.
    pose proof (pips_range r) as P. assert (0 <= suit_bit s <= 3)%Z by (destruct s; simpl; lia).
    replace (n =? _)%Z with false by (symmetry; apply Z.eqb_neq; lia).
    replace (n =? _)%Z with false by (symmetry; apply Z.eqb_neq; lia).
    replace (n <? 12)%Z with false by (symmetry; apply Z.ltb_ge; lia).
    replace (n <? 8)%Z with false by (symmetry; apply Z.ltb_ge; lia).
    rewrite !andb_false_r. reflexivity.
Qed.

Lemma card_identity a b : a_card a -> a_card b ->
  (a = b <-> card_rank a = card_rank b /\ card_suit a = card_suit b)
  /\ (a = b <-> unique_integer a = unique_integer b)
  /\ (card_eqb a b = true <-> a = b).
Proof.
  intros Ha Hb. split; [|split].
  - split; [intros ->; auto|]. intros [H1 H2]. apply face_of_inj; auto.
    unfold face_of. congruence.
  - split; [congruence|]. destruct a, b. simpl. congruence.
  - apply card_eqb_eq.
Qed.

(** ** Characters *)
Lemma rank_try_from_char r : rank_try_from (rank_as_char r) = Ok r.
Proof. destruct r; reflexivity. Qed.
Lemma suit_try_from_char s : suit_try_from (suit_as_char s) = Ok s.
Proof. destruct s; reflexivity. Qed.

Lemma rank_try_from_inv c :
  match rank_try_from c with Ok r => c = rank_as_char r | Err x => x = c end.
Proof.
  unfold rank_try_from. destruct c as [|p]; [reflexivity|].
  do 7 (destruct p as [p|p|]; try reflexivity).
Qed.
Lemma suit_try_from_inv c :
  match suit_try_from c with Ok s => c = suit_as_char s | Err x => x = c end.
Proof.
  unfold suit_try_from. destruct c as [|p]; [reflexivity|].
  do 7 (destruct p as [p|p|]; try reflexivity).
Qed.

Lemma rank_chars_spec c : In c rank_chars <-> exists r, c = rank_as_char r.
Proof.
  split.
  - simpl. intros H.
    repeat match goal with
           | H : _ \/ _ |- _ => destruct H as [<-|H]
           end; try contradiction;
      [exists Two|exists Three|exists Four|exists Five|exists Six|exists Seven|exists Eight
      |exists Nine|exists Ten|exists Jack|exists Queen|exists King|exists Ace]; reflexivity.
  - intros [r ->]. destruct r; simpl; tauto.
Qed.
Lemma suit_chars_spec c : In c suit_chars <-> exists s, c = suit_as_char s.
Proof.
  split.
  - simpl. intros H.
    repeat match goal with
           | H : _ \/ _ |- _ => destruct H as [<-|H]
           end; try contradiction;
      [exists Clubs|exists Hearts|exists Spades|exists Diamonds]; reflexivity.
  - intros [s ->]. destruct s; simpl; tauto.
Qed.

Lemma rank_as_char_inj a b : rank_as_char a = rank_as_char b -> a = b.
Proof.
  intros H. pose proof (rank_try_from_char a) as Ha. rewrite H, rank_try_from_char in Ha.
  congruence.
Qed.
Lemma suit_as_char_inj a b : suit_as_char a = suit_as_char b -> a = b.
Proof.
  intros H. pose proof (suit_try_from_char a) as Ha. rewrite H, suit_try_from_char in Ha.
  congruence.
Qed.

Lemma rank_char_round c r : rank_try_from c = Ok r <-> c = rank_as_char r.
Proof.
  split; [|intros ->; apply rank_try_from_char]. intros H.
  pose proof (rank_try_from_inv c) as I. rewrite H in I. exact I.
Qed.
Lemma suit_char_round c s : suit_try_from c = Ok s <-> c = suit_as_char s.
Proof.
  split; [|intros ->; apply suit_try_from_char]. intros H.
  pose proof (suit_try_from_inv c) as I. rewrite H in I. exact I.
Qed.
Lemma rank_char_err c x : rank_try_from c = Err x <-> x = c /\ ~ In c rank_chars.
Proof.
  rewrite rank_chars_spec. split.
  - intros H. pose proof (rank_try_from_inv c) as I. rewrite H in I. split; [exact I|].
    intros [r Hr]. apply rank_char_round in Hr. congruence.
  - intros [-> N]. destruct (rank_try_from c) as [r|y] eqn:E.
    + exfalso. apply N. exists r. apply rank_char_round. exact E.
    + pose proof (rank_try_from_inv c) as I. rewrite E in I. congruence.
Qed.
Lemma suit_char_err c x : suit_try_from c = Err x <-> x = c /\ ~ In c suit_chars.
Proof.
  rewrite suit_chars_spec. split.
  - intros H. pose proof (suit_try_from_inv c) as I. rewrite H in I. split; [exact I|].
    intros [r Hr]. apply suit_char_round in Hr. congruence.
  - intros [-> N]. destruct (suit_try_from c) as [r|y] eqn:E.
    + exfalso. apply N. exists r. apply suit_char_round. exact E.
    + pose proof (suit_try_from_inv c) as I. rewrite E in I. congruence.
Qed.

(** ** Parsing *)
Lemma rank_suit_string_text c : rank_suit_string c = card_text c.
Proof. unfold rank_suit_string, card_text. destruct (card_rank c), (card_suit c); reflexivity. Qed.
Lemma rank_suit_string_new r s : rank_suit_string (card_new r s) = [rank_as_char r; suit_as_char s].
Proof. unfold rank_suit_string. rewrite card_rank_new, card_suit_new. reflexivity. Qed.

Lemma parse_print c : a_card c -> card_from_str (rank_suit_string c) = Ok c.
Proof.
  intros (r & s & ->). rewrite rank_suit_string_new. simpl.
  rewrite rank_try_from_char, suit_try_from_char. reflexivity.
Qed.

Lemma parse_ok_inv s c : card_from_str s = Ok c -> a_card c /\ rank_suit_string c = s.
Proof.
  unfold card_from_str. destruct s as [|x [|y [|z s]]]; try discriminate.
  destruct (rank_try_from x) as [r|] eqn:Er; [|discriminate].
  destruct (suit_try_from y) as [st|] eqn:Es; [|discriminate].
  intros H. injection H as <-. split; [apply a_card_new|].
  rewrite rank_suit_string_new. apply rank_char_round in Er. apply suit_char_round in Es. congruence.
Qed.

Lemma parse_accepts s : (exists c, card_from_str s = Ok c) <->
  exists x y, s = [x; y] /\ In x rank_chars /\ In y suit_chars.
Proof.
  split.
  - intros [c H]. apply parse_ok_inv in H. destruct H as [(r & st & ->) <-].
    rewrite rank_suit_string_new. exists (rank_as_char r), (suit_as_char st).
    split; [reflexivity|]. rewrite rank_chars_spec, suit_chars_spec. eauto.
  - intros (x & y & -> & Hx & Hy). apply rank_chars_spec in Hx. apply suit_chars_spec in Hy.
    destruct Hx as [r ->], Hy as [st ->]. exists (card_new r st).
    rewrite <- rank_suit_string_new. apply parse_print. apply a_card_new.
Qed.

Lemma parse_errors s e : card_from_str s = Err e <->
  (List.length s <> 2 /\ e = InvalidLength s)
  \/ (exists x y, s = [x; y] /\ ~ In x rank_chars /\ e = InvalidRank s x)
  \/ (exists x y, s = [x; y] /\ In x rank_chars /\ ~ In y suit_chars /\ e = InvalidSuit s y).
Proof.
  split.
  - unfold card_from_str. destruct s as [|x [|y [|z s]]];
      try (intros H; injection H as <-; left; split; [simpl; lia|reflexivity]).
    destruct (rank_try_from x) as [r|x'] eqn:Er.
    + destruct (suit_try_from y) as [st|y'] eqn:Es; [discriminate|].
      intros H. injection H as <-. right. right. exists x, y. split; [reflexivity|].
      apply suit_char_err in Es. destruct Es as [-> Ny].
      split; [apply rank_chars_spec; exists r; apply rank_char_round; exact Er|].
      split; [exact Ny|reflexivity].
    + intros H. injection H as <-. right. left. exists x, y. split; [reflexivity|].
      apply rank_char_err in Er. destruct Er as [-> Nx]. auto.
  - intros [[N ->]|[(x & y & -> & N & ->)|(x & y & -> & I & N & ->)]].
    + destruct s as [|x [|y [|z s]]]; try reflexivity. simpl in N. lia.
    + simpl. rewrite (proj2 (rank_char_err x x)); auto.
    + simpl. apply rank_chars_spec in I. destruct I as [r ->]. rewrite rank_try_from_char.
      rewrite (proj2 (suit_char_err y y)); auto.
Qed.

Lemma try_from_chars_parse x y :
  try_from_chars x y =
  match card_from_str [x; y] with Ok c => Ok c | Err e => Err (blame x y e) end.
Proof.
  unfold try_from_chars, card_from_str.
  destruct (rank_try_from x); [|reflexivity]. destruct (suit_try_from y); reflexivity.
Qed.

(** ** [ParseToIter] *)
Lemma yields_spec ss l : yields (parse_to_iter ss) l <-> l = map card_from_str ss.
Proof.
  split.
  - revert l. induction ss as [|s ss IH]; intros l H; inversion H as [? ? E|? ? ? ? E Y]; subst;
      unfold pi_next in E; simpl in E; try discriminate E; [reflexivity|].
    injection E as <- <-. simpl. f_equal. apply IH. exact Y.
  - intros ->. induction ss as [|s ss IH]; simpl.
    + eapply yields_end. reflexivity.
    + eapply yields_item; [reflexivity|exact IH].
Qed.

Lemma try_collect_from_acc ss : forall acc,
  try_collect_from ss acc =
  match try_collect_from ss [] with Ok l => Ok (acc ++ l) | Err e => Err e end.
Proof.
  induction ss as [|s ss IH]; intros acc; simpl; [rewrite app_nil_r; reflexivity|].
  destruct (card_from_str s) as [c|e]; [|reflexivity].
  rewrite IH, (IH [c]). destruct (try_collect_from ss []); [|reflexivity].
  rewrite <- app_assoc. reflexivity.
Qed.

Lemma try_collect_ok ss cs :
  try_collect (parse_to_iter ss) = Ok cs <-> map card_from_str ss = map Ok cs.
Proof.
  unfold try_collect, parse_to_iter. cbn [pi_rest]. revert cs.
  induction ss as [|s ss IH]; intros cs; simpl.
  - split; [intros H; injection H as <-; reflexivity|].
    destruct cs; [reflexivity|discriminate].
  - destruct (card_from_str s) as [c|e].
    + rewrite try_collect_from_acc. specialize (IH (tl cs)).
      destruct (try_collect_from ss []) as [l|e]; simpl.
      * split; intros H.
        -- injection H as <-. simpl in *. f_equal. apply IH. reflexivity.
        -- destruct cs as [|c' cs]; [discriminate H|]. simpl in H. injection H as <- H.
           simpl in IH. apply IH in H. congruence.
      * split; [discriminate|]. intros H. destruct cs as [|c' cs]; [discriminate H|].
        simpl in H. injection H as <- H. simpl in IH. apply IH in H. discriminate H.
    + split; [discriminate|]. destruct cs; discriminate.
Qed.

Lemma try_collect_err ss e :
  try_collect (parse_to_iter ss) = Err e <->
  exists pre s post cs, ss = pre ++ s :: post /\ map card_from_str pre = map Ok cs
    /\ card_from_str s = Err e.
Proof.
  unfold try_collect, parse_to_iter. cbn [pi_rest]. induction ss as [|s ss IH]; simpl.
  - split; [discriminate|]. intros ([|] & s & post & cs & E & _); discriminate E.
  - destruct (card_from_str s) as [c|e'] eqn:Ec.
    + rewrite try_collect_from_acc. split.
      * intros H. destruct (try_collect_from ss []) as [l|e1]; [discriminate H|].
        injection H as <-. destruct (proj1 IH eq_refl) as (pre & s' & post & cs & -> & M & E).
        exists (s :: pre), s', post, (c :: cs). split; [reflexivity|]. split; [|exact E].
        simpl. congruence.
      * intros (pre & s' & post & cs & E & M & F). destruct pre as [|s0 pre].
        -- simpl in E. injection E as <- <-. congruence.
        -- simpl in E. injection E as <- ->. destruct cs as [|c' cs]; [discriminate M|].
           simpl in M. injection M as M1 M2.
           rewrite (proj2 IH); [reflexivity|]. exists pre, s', post, cs. auto.
    + split.
      * intros H. injection H as <-. exists [], s, ss, []. auto.
      * intros (pre & s' & post & cs & E & M & F). destruct pre as [|s0 pre].
        -- simpl in E. injection E as <- <-. congruence.
        -- simpl in E. injection E as <- ->. destruct cs as [|c' cs]; [discriminate M|].
           simpl in M. injection M as M1 M2. congruence.
Qed.

Lemma next_back_spec ss s : pi_next_back (parse_to_iter (ss ++ [s]))
  = (Some (card_from_str s), parse_to_iter ss).
Proof.
  unfold pi_next_back, parse_to_iter. cbn [pi_rest]. rewrite rev_app_distr. simpl.
  rewrite rev_involutive. reflexivity.
Qed.
Lemma next_back_end : pi_next_back (parse_to_iter []) = (None, parse_to_iter []).
Proof. reflexivity. Qed.

(** ** Whitespace *)
Lemma is_whitespace_spec c : is_whitespace c = true <-> In c white_space.
Proof.
  unfold is_whitespace. rewrite !orb_true_iff, !andb_true_iff, !N.leb_le, !N.eqb_eq.
  unfold white_space. cbn [In]. lia.
Qed.
Lemma not_whitespace_spec c : is_whitespace c = false <-> ~ In c white_space.
Proof.
  rewrite <- is_whitespace_spec. destruct (is_whitespace c); split; congruence.
Qed.

Lemma split_blank ws rest : blank ws ->
  split_whitespace_from [] (ws ++ rest) = split_whitespace_from [] rest.
Proof.
  intros B. induction B as [|c ws Hc B IH]; simpl; [reflexivity|].
  apply is_whitespace_spec in Hc. rewrite Hc. exact IH.
Qed.

Lemma split_run w : forall cur rest, Forall (fun c => ~ In c white_space) w ->
  split_whitespace_from cur (w ++ rest) = split_whitespace_from (rev w ++ cur) rest.
Proof.
  induction w as [|c w IH]; intros cur rest H; [reflexivity|].
  inversion H as [|? ? Hc Hw]; subst. cbn [app split_whitespace_from].
  apply not_whitespace_spec in Hc. rewrite Hc.
  rewrite (IH (c :: cur) rest Hw). simpl. rewrite <- app_assoc. reflexivity.
Qed.

Lemma flush_word w l : w <> [] -> flush_piece (rev w) l = w :: l.
Proof.
  intros N. unfold flush_piece. destruct (rev w) eqn:E.
  - exfalso. apply N. rewrite <- (rev_involutive w), E. reflexivity.
  - rewrite <- E, rev_involutive. reflexivity.
Qed.

Lemma splits_complete s l : splits s l -> split_whitespace s = l.
Proof.
  unfold split_whitespace. induction 1 as [ws B|ws w B [Ne W]|ws w c rest l B [Ne W] Hc S IH].
  - rewrite <- (app_nil_r ws), split_blank by exact B. reflexivity.
  - rewrite split_blank by exact B. rewrite <- (app_nil_r w) at 1.
    rewrite split_run by exact W. rewrite app_nil_r. simpl. apply flush_word. exact Ne.
  - rewrite split_blank by exact B. rewrite split_run by exact W. rewrite app_nil_r.
    cbn [split_whitespace_from]. apply is_whitespace_spec in Hc. rewrite Hc, IH. apply flush_word. exact Ne.
Qed.

Lemma splits_cons_blank c s l : In c white_space -> splits s l -> splits (c :: s) l.
Proof.
  intros Hc S. inversion S as [ws B|ws w B W|ws w d rest l' B W Hd S']; subst.
  - apply splits_end. constructor; assumption.
  - apply (splits_last (c :: ws) w); [constructor; assumption|exact W].
  - apply (splits_word (c :: ws) w d rest l'); auto. constructor; assumption.
Qed.

Lemma splits_exists s : exists l, splits s l.
Proof.
  induction s as [|c s [l S]].
  - exists []. apply splits_end. constructor.
  - destruct (in_dec N.eq_dec c white_space) as [Hc|Hc].
    + exists l. apply splits_cons_blank; assumption.
    + inversion S as [ws B|ws w B W|ws w d rest l' B W Hd S']; subst.
      * destruct s as [|d s].
        -- exists [[c]]. apply (splits_last [] [c]); [constructor|].
           split; [congruence|]. constructor; [exact Hc|constructor].
        -- exists [[c]]. inversion B; subst.
           apply (splits_word [] [c] d s []); auto; [constructor| |apply splits_end; assumption].
           split; [congruence|]. constructor; [exact Hc|constructor].
      * destruct ws as [|d ws].
        -- exists [c :: w]. apply (splits_last [] (c :: w)); [constructor|].
           split; [congruence|]. constructor; [exact Hc|apply W].
        -- inversion B; subst. exists [[c]; w].
           apply (splits_word [] [c] d (ws ++ w) [w]); auto; [constructor| |].
           ++ split; [congruence|]. constructor; [exact Hc|constructor].
           ++ apply splits_last; assumption.
      * destruct ws as [|d' ws].
        -- exists ((c :: w) :: l'). apply (splits_word [] (c :: w) d rest l'); auto.
           split; [congruence|]. constructor; [exact Hc|apply W].
        -- inversion B; subst. exists ([c] :: w :: l').
           apply (splits_word [] [c] d' (ws ++ w ++ d :: rest) (w :: l')); auto; [constructor| |].
           ++ split; [congruence|]. constructor; [exact Hc|constructor].
           ++ apply splits_word; assumption.
Qed.

Lemma split_whitespace_spec s l : split_whitespace s = l <-> splits s l.
Proof.
  split; [|apply splits_complete]. intros <-. destruct (splits_exists s) as [l S].
  rewrite (splits_complete s l S). exact S.
Qed.

Lemma parse_text c : a_card c -> card_from_str (card_text c) = Ok c.
Proof. rewrite <- rank_suit_string_text. apply parse_print. Qed.
Lemma parse_ok_text s c : card_from_str s = Ok c -> a_card c /\ card_text c = s.
Proof. rewrite <- rank_suit_string_text. apply parse_ok_inv. Qed.
Lemma card_word c : a_card c -> word (card_text c).
Proof.
  intros (r & s & ->). rewrite <- rank_suit_string_text, rank_suit_string_new. split; [congruence|].
  destruct r, s; repeat (apply Forall_cons || apply Forall_nil);
    apply not_whitespace_spec; reflexivity.
Qed.

Lemma written_splits cs s : all_cards cs -> written cs s -> splits s (map card_text cs).
Proof.
  intros A W. induction W as [ws B|ws c B|ws c d cs rest B Hd W IH]; cbn [map].
  - apply splits_end. exact B.
  - inversion A; subst. apply splits_last; [exact B|apply card_word; assumption].
  - inversion A; subst. apply splits_word; auto. apply card_word; assumption.
Qed.

Lemma written_collect cs s : all_cards cs -> written cs s ->
  try_collect (cards_macro_text s) = Ok cs.
Proof.
  intros A W. unfold cards_macro_text. rewrite (splits_complete _ _ (written_splits cs s A W)).
  apply try_collect_ok. rewrite map_map. clear W. induction A as [|c cs Hc A IH]; cbn [map]; [reflexivity|].
  rewrite parse_text by exact Hc. congruence.
Qed.

(** ** Order of cards *)
Lemma card_cmp_pips a b : card_cmp a b = Nat.compare (pips (card_rank a)) (pips (card_rank b)).
Proof. unfold card_cmp, rank_cmp. destruct (card_rank a), (card_rank b); reflexivity. Qed.

(** ** Decimal text *)
Lemma lit_inj a b : lit a = lit b -> a = b.
Proof.
  revert b. induction a as [|x a IH]; intros [|y b] H; simpl in H; try discriminate; [reflexivity|].
  injection H as H1 H2. apply IH in H2. subst b. f_equal.
  rewrite <- (Ascii.ascii_N_embedding x), <- (Ascii.ascii_N_embedding y), H1. reflexivity.
Qed.

Lemma dec_inj a b : dec a = dec b -> a = b.
Proof.
  unfold dec. intros H. apply lit_inj in H.
  assert (N : forall n, N.to_uint n <> Decimal.Nil).
  { intros [|p]; [discriminate|]. apply DecimalPos.Unsigned.to_uint_nonnil. }
  pose proof (NilZero.usu _ (N a)) as Ha. pose proof (NilZero.usu _ (N b)) as Hb.
  rewrite H, Hb in Ha. injection Ha as Ha.
  rewrite <- (DecimalN.Unsigned.of_to a), <- (DecimalN.Unsigned.of_to b), Ha. reflexivity.
Qed.

Lemma ascii_str_len s : ascii_text s -> str_len s = N.of_nat (List.length s).
Proof.
  intros A. induction A as [|c s Hc A IH]; [reflexivity|].
  unfold str_len in *. cbn [fold_right List.length]. rewrite IH.
  unfold len_utf8. replace (c <? 128)%N with true by (symmetry; apply N.ltb_lt; exact Hc). lia.
Qed.

(** ** Duplicates *)
Lemma join_spaced l : join (lit " ") l = spaced l.
Proof.
  unfold spaced. destruct l as [|w l]; [reflexivity|]. cbn [flat_map tl app]. revert w.
  induction l as [|v l IH]; intros w; [cbn [flat_map join]; rewrite app_nil_r; reflexivity|].
  change (join (lit " ") (w :: v :: l)) with (w ++ lit " " ++ join (lit " ") (v :: l)). rewrite IH. reflexivity.
Qed.
Lemma not_unique_display order cards : (forall l, Permutation (order l) l) ->
  exists dups, NoDup dups
    /\ (forall c, In c dups <-> 2 <= count_occ card_dec cards c)
    /\ eval_error_display order (CardsNotUnique cards)
       = lit "Cannot evaluate a poker hand with a set of cards that are not unique. Cards duplicated at least once: "
         ++ spaced (map card_text dups).
Proof.
  intros O.
  destruct (CountFacts.duplicates_spec card_eqb card_eqb_eq card_dec rank_suit_string order cards O)
    as (dups & N & D & E).
  exists dups. split; [exact N|]. split; [exact D|]. unfold eval_error_display. rewrite E.
  rewrite join_spaced. do 2 f_equal. apply map_ext, rank_suit_string_text.
Qed.

(** ** [box_cards!] *)
Lemma box_cards_concat first others : box_cards first others = concat (first :: others).
Proof.
  unfold box_cards. revert first. induction others as [|s others IH]; intros first; simpl.
  - rewrite app_nil_r. reflexivity.
  - rewrite IH. simpl. rewrite app_assoc. reflexivity.
Qed.

(** ** Display of cards *)
Lemma suit_pretty_inj a b : suit_as_pretty_char a = suit_as_pretty_char b -> a = b.
Proof. destruct a, b; simpl; congruence. Qed.
Lemma card_display_inj a b : a_card a -> a_card b -> card_display a = card_display b -> a = b.
Proof.
  intros (r & s & ->) (r' & s' & ->). unfold card_display, rank_display, suit_display.
  rewrite !card_rank_new, !card_suit_new. simpl. intros H. injection H as H1 H2.
  apply rank_as_char_inj in H1. apply suit_pretty_inj in H2. congruence.
Qed.

(** ** In the form the properties state them *)
Lemma card_new_parts r s : exists c, card_new_chk r s = Ret c
  /\ card_rank c = r /\ card_suit c = s
  /\ forall n, (0 <= n)%Z -> Z.testbit (unique_integer c) n = layout r s n.
Proof.
  exists (card_new r s). split; [apply card_new_chk_ret|]. split; [apply card_rank_new|].
  split; [apply card_suit_new|]. apply card_layout.
Qed.

Lemma try_from_chars_spec x y :
  (forall c, try_from_chars x y = Ok c <-> card_from_str [x; y] = Ok c)
  /\ (forall e, try_from_chars x y = Err e <->
        exists e', card_from_str [x; y] = Err e' /\ e = blame x y e').
Proof.
  rewrite try_from_chars_parse. destruct (card_from_str [x; y]) as [c|e]; split.
  - intros c'. reflexivity.
  - intros e'. split; [discriminate|]. intros (e2 & H & _). discriminate H.
  - intros c'. split; discriminate.
  - intros e'. split.
    + intros H. injection H as <-. exists e. auto.
    + intros (e2 & H & ->). injection H as ->. reflexivity.
Qed.

Lemma iter_agrees ss :
  (forall B (f : B -> result card parse_card_error -> B) init,
      pi_fold (parse_to_iter ss) init f = fold_left f (map card_from_str ss) init)
  /\ pi_len (parse_to_iter ss) = List.length ss
  /\ pi_size_hint (parse_to_iter ss) = (List.length ss, Some (List.length ss))
  /\ pi_next_back (parse_to_iter []) = (None, parse_to_iter [])
  /\ forall s, pi_next_back (parse_to_iter (ss ++ [s])) = (Some (card_from_str s), parse_to_iter ss).
Proof.
  split; [reflexivity|]. split; [reflexivity|]. split; [reflexivity|].
  split; [apply next_back_end|]. intros s. apply next_back_spec.
Qed.

Lemma words_of_text s l : pi_rest (cards_macro_text s) = l <-> splits s l.
Proof. exact (split_whitespace_spec s l). Qed.

Lemma splits_words s l : splits s l -> Forall word l.
Proof.
  induction 1 as [ws _|ws w _ Hw|ws w c rest l _ Hw _ _ IH].
  - apply Forall_nil.
  - apply Forall_cons; [exact Hw|apply Forall_nil].
  - apply Forall_cons; [exact Hw|exact IH].
Qed.

Lemma card_order a b c :
  card_cmp a b = Nat.compare (pips (card_rank a)) (pips (card_rank b))
  /\ card_partial_cmp a b = Some (card_cmp a b)
  /\ card_cmp a a = Eq
  /\ card_cmp b a = CompOpp (card_cmp a b)
  /\ (card_cmp a b <> Gt -> card_cmp b c <> Gt -> card_cmp a c <> Gt)
  /\ (a = b -> card_cmp a b = Eq).
Proof.
  rewrite !card_cmp_pips. split; [reflexivity|]. split; [unfold card_partial_cmp, rank_partial_cmp;
    f_equal; apply card_cmp_pips|].
  split; [apply Nat.compare_refl|]. split; [apply Nat.compare_antisym|]. split.
  - rewrite !Nat.compare_gt_iff. lia.
  - intros ->. apply Nat.compare_refl.
Qed.

Lemma invalid_length_ascii s : ascii_text s -> List.length s <> 2 ->
  parse_card_error_display (InvalidLength s)
  = lit "Error parsing input '" ++ s ++ lit "' as a Card: Found input of length "
    ++ dec (N.of_nat (List.length s)) ++ lit ", expected 2"
  /\ dec (N.of_nat (List.length s)) <> lit "2".
Proof.
  intros A L. split.
  - unfold parse_card_error_display. rewrite ascii_str_len by exact A. reflexivity.
  - change (lit "2") with (dec 2). intros H. apply dec_inj in H. lia.
Qed.

Lemma str_len_utf8 s : str_len s = N.of_nat (List.length (utf8 s)).
Proof.
  induction s as [|c s IH]; [reflexivity|]. unfold str_len in *. unfold utf8 in *.
  cbn [fold_right flat_map]. rewrite IH, app_length. unfold len_utf8, utf8_char.
  destruct (c <? 128)%N; [cbn [List.length]; lia|]. destruct (c <? 2048)%N; [cbn [List.length]; lia|].
  destruct (c <? 65536)%N; cbn [List.length]; lia.
Qed.
Lemma invalid_length_bytes s :
  parse_card_error_display (InvalidLength s)
  = lit "Error parsing input '" ++ s ++ lit "' as a Card: Found input of length "
    ++ dec (N.of_nat (List.length (utf8 s))) ++ lit ", expected 2".
Proof. rewrite <- str_len_utf8. reflexivity. Qed.
Lemma utf8_char_length c : 1 <= List.length (utf8_char c)
  /\ (List.length (utf8_char c) = 1 <-> (c < 128)%N)
  /\ (List.length (utf8_char c) = 2 <-> (128 <= c < 2048)%N).
Proof.
  unfold utf8_char. destruct (N.ltb_spec c 128); [cbn; lia|]. destruct (N.ltb_spec c 2048); [cbn; lia|].
  destruct (N.ltb_spec c 65536); cbn; lia.
Qed.
Lemma utf8_length s : List.length s <= List.length (utf8 s)
  /\ (List.length (utf8 s) = List.length s <-> ascii_text s).
Proof.
  induction s as [|c s [IH1 IH2]]; [cbn; split; [lia|split; [constructor|reflexivity]]|].
  unfold utf8 in *. cbn [flat_map]. rewrite app_length. cbn [List.length].
  destruct (utf8_char_length c) as (A & B & _). split; [lia|]. split.
  - intros E. constructor; [apply B; lia|apply IH2; lia].
  - intros X. inversion X as [|? ? X1 X2]; subst. apply IH2 in X2. apply B in X1. lia.
Qed.
Lemma utf8_two s : List.length s <> 2 ->
  (List.length (utf8 s) = 2 <-> exists c, s = [c] /\ (128 <= c < 2048)%N).
Proof.
  intros L. split.
  - intros E. pose proof (proj1 (utf8_length s)) as X. destruct s as [|c [|d s]]; [discriminate E| |cbn in *; lia].
    exists c. split; [reflexivity|]. unfold utf8 in E. cbn [flat_map] in E. rewrite app_nil_r in E.
    apply utf8_char_length, E.
  - intros (c & -> & C). unfold utf8. cbn [flat_map]. rewrite app_nil_r. apply utf8_char_length, C.
Qed.

Lemma card_order_refuted : exists a b, a_card a /\ a_card b
  /\ card_cmp a b = Eq /\ card_eqb a b = false.
Proof.
  exists (card_new Ace Spades), (card_new Ace Hearts).
  split; [apply a_card_new|]. split; [apply a_card_new|]. split; reflexivity.
Qed.

(** The witness is the one-character string U+00E9, two bytes long in UTF-8. *)
Lemma invalid_length_refuted : exists s, List.length s <> 2
  /\ parse_card_error_display (InvalidLength s)
     = lit "Error parsing input '" ++ s
       ++ lit "' as a Card: Found input of length 2, expected 2".
Proof. exists [233%N]. split; [discriminate|reflexivity]. Qed.

Lemma rank_chars_round c :
  (forall r, rank_try_from c = Ok r <-> c = rank_as_char r)
  /\ (forall x, rank_try_from c = Err x <-> x = c /\ ~ In c rank_chars)
  /\ (In c rank_chars <-> exists r, c = rank_as_char r).
Proof.
  split; [intros r; apply rank_char_round|]. split; [intros x; apply rank_char_err|].
  apply rank_chars_spec.
Qed.
Lemma suit_chars_round c :
  (forall s, suit_try_from c = Ok s <-> c = suit_as_char s)
  /\ (forall x, suit_try_from c = Err x <-> x = c /\ ~ In c suit_chars)
  /\ (In c suit_chars <-> exists s, c = suit_as_char s).
Proof.
  split; [intros r; apply suit_char_round|]. split; [intros x; apply suit_char_err|].
  apply suit_chars_spec.
Qed.
Lemma displays :
  (forall r, rank_display r = [rank_as_char r])
  /\ (forall s, suit_display s = [suit_as_pretty_char s])
  /\ (forall a b, suit_as_pretty_char a = suit_as_pretty_char b -> a = b)
  /\ (forall r s, card_display (card_new r s)
        = lit "[ " ++ rank_display r ++ suit_display s ++ lit " ]")
  /\ (forall a b, a_card a -> a_card b -> card_display a = card_display b -> a = b).
Proof.
  split; [reflexivity|]. split; [reflexivity|]. split; [exact suit_pretty_inj|].
  split; [|exact card_display_inj]. intros r s. unfold card_display.
  rewrite card_rank_new, card_suit_new. reflexivity.
Qed.

(** ** Messages of parse errors *)
Lemma error_message s e : card_from_str s = Err e -> card_complaint s (parse_card_error_display e).
Proof.
  intros H. apply parse_errors in H.
  destruct H as [[L ->]|[(x & y & -> & X & ->)|(x & y & -> & X & Y & ->)]].
  - rewrite invalid_length_bytes.
    replace (lit "Error parsing input '" ++ s ++ lit "' as a Card: Found input of length "
             ++ dec (N.of_nat (List.length (utf8 s))) ++ lit ", expected 2") with
      (about s ++ lit "Found input of length " ++ dec (N.of_nat (List.length (utf8 s))) ++ lit ", expected 2").
    + apply not_two. exact L.
    + unfold about. rewrite <- !app_assoc. reflexivity.
  - exact (not_a_rank [x; y] x y eq_refl X).
  - exact (not_a_suit [x; y] x y eq_refl X Y).
Qed.

Lemma variants_eqb : (forall a b, rank_eqb a b = true <-> a = b) /\ (forall a b, suit_eqb a b = true <-> a = b).
Proof. split; intros a b; destruct a, b; vm_compute; split; congruence. Qed.
