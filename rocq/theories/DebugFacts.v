(** DebugFacts.v: the [Debug] texts tell values apart. *)
From Coq Require Import Lia List String ZArith Bool Arith.
From Verif Require Import Base ModelCard ModelEval ModelDebug Spec SpecApi SpecText SpecDebug CardFacts TextFacts.
Import ListNotations.
Local Open Scope string_scope.
Local Open Scope list_scope.

(** ** Cutting a text at the first occurrence of a character *)
Lemma cut (c : rchar) (a b x y : rstring) : ~ In c a -> ~ In c b -> a ++ c :: x = b ++ c :: y -> a = b /\ x = y.
Proof.
  revert b. induction a as [|u a IH]; intros [|v b] Na Nb H; cbn in H.
  - injection H as H. auto.
  - injection H as <- _. exfalso. apply Nb. left. reflexivity.
  - injection H as -> _. exfalso. apply Na. left. reflexivity.
  - injection H as -> H. destruct (IH b) as [-> ->]; [intros X; apply Na; right; exact X|
      intros X; apply Nb; right; exact X|exact H|]. auto.
Qed.

Lemma digit_chars (d : Decimal.uint) c : In c (lit (DecimalString.NilZero.string_of_uint d)) -> (48 <= c <= 57)%N.
Proof.
  assert (X : forall d, In c (lit (DecimalString.NilEmpty.string_of_uint d)) -> (48 <= c <= 57)%N).
  { clear d. induction d; cbn; [intros []| | | | | | | | | |]; (intros [<-|H]; [cbv; split; discriminate|auto]). }
  destruct d; cbn; [intros [<-|[]]; cbv; split; discriminate| | | | | | | | | |];
    (intros [<-|H]; [cbv; split; discriminate|exact (X _ H)]).
Qed.
Lemma dec_chars n c : In c (dec n) -> (48 <= c <= 57)%N.
Proof. unfold dec. apply digit_chars. Qed.
Lemma dec_nonempty n : exists c l, dec n = c :: l.
Proof.
  unfold dec. destruct (N.to_uint n) as [|u|u|u|u|u|u|u|u|u|u]; cbn; eauto.
Qed.
Lemma debug_int_chars z c : In c (debug_int z) -> (c = 45 \/ 48 <= c <= 57)%N.
Proof.
  unfold debug_int. destruct (z <? 0)%Z; [|intros H; right; exact (dec_chars _ _ H)].
  cbn. intros [<-|H]; [left; reflexivity|right; exact (dec_chars _ _ H)].
Qed.
Lemma debug_int_inj a b : debug_int a = debug_int b -> a = b.
Proof.
  assert (M : forall n l, dec n <> 45%N :: l).
  { intros n l E. pose proof (dec_chars n 45%N) as X. rewrite E in X. specialize (X (or_introl eq_refl)). lia. }
  unfold debug_int. destruct (Z.ltb_spec a 0), (Z.ltb_spec b 0); intros E.
  - cbn in E. injection E as E. apply dec_inj in E. lia.
  - symmetry in E. exfalso. exact (M _ _ E).
  - exfalso. exact (M _ _ E).
  - apply dec_inj in E. lia.
Qed.
Lemma rank_debug_inj a b : rank_debug a = rank_debug b -> a = b.
Proof. destruct a, b; intros H; try reflexivity; discriminate H. Qed.
Lemma rank_debug_chars r c : In c (rank_debug r) -> c <> 32%N /\ c <> 44%N.
Proof. destruct r; cbn; intros H; repeat (destruct H as [<-|H]; [split; discriminate|]); destruct H. Qed.

(** ** Cards *)
Lemma a_card_debug r s : In (card_debug (card_new r s))
  (map (fun p => card_debug (card_new (fst p) (snd p))) (list_prod RANK_ALL_VARIANTS SUIT_ALL_VARIANTS)).
Proof.
  apply (in_map (fun p => card_debug (card_new (fst p) (snd p))) _ (r, s)).
  apply in_prod; [destruct r|destruct s]; cbn; tauto.
Qed.
Theorem card_debug_inj a b : card_debug a = card_debug b -> a = b.
Proof.
  unfold card_debug, debug_struct, card_debug_fields. cbn [map join fst snd]. intros H.
  apply app_inv_head, app_inv_head in H. rewrite <- !app_assoc in H. apply app_inv_head, app_inv_head in H.
  apply (cut 44%N) in H.
  - destruct H as [H _]. apply debug_int_inj in H. destruct a, b. cbn in H. congruence.
  - intros X. apply debug_int_chars in X. destruct X as [X|X]; [discriminate X|lia].
  - intros X. apply debug_int_chars in X. destruct X as [X|X]; [discriminate X|lia].
Qed.
Theorem card_debug_pretty_inj a b : card_debug_pretty a = card_debug_pretty b -> a = b.
Proof.
  unfold card_debug_pretty, debug_struct_pretty, card_debug_fields. cbn [flat_map fst snd]. intros H.
  apply app_inv_head, app_inv_head in H. rewrite <- !app_assoc in H. apply app_inv_head, app_inv_head, app_inv_head, app_inv_head in H.
  apply (cut 44%N) in H.
  - destruct H as [H _]. apply debug_int_inj in H. destruct a, b. cbn in H. congruence.
  - intros X. apply debug_int_chars in X. destruct X as [X|X]; [discriminate X|lia].
  - intros X. apply debug_int_chars in X. destruct X as [X|X]; [discriminate X|lia].
Qed.

(** ** Classes and results *)
Lemma one_field n n' f f' r r' : ~ In 32%N n -> ~ In 32%N n' ->
  debug_struct n [(f, rank_debug r)] = debug_struct n' [(f', rank_debug r')] -> n = n'.
Proof. intros N N' H. unfold debug_struct in H. apply (cut 32%N) in H; tauto. Qed.
Lemma struct_name n n' fs fs' : ~ In 32%N n -> ~ In 32%N n' -> debug_struct n fs = debug_struct n' fs' ->
  n = n' /\ join (lit ", ") (map (fun p => fst p ++ lit ": " ++ snd p) fs) ++ lit " }"
         = join (lit ", ") (map (fun p => fst p ++ lit ": " ++ snd p) fs') ++ lit " }".
Proof.
  intros N N' H. unfold debug_struct in H. cbn [lit app] in H. apply (cut 32%N) in H; [|assumption|assumption].
  destruct H as [-> H]. injection H as H. auto.
Qed.
Ltac no_char := cbn; intros X; repeat (destruct X as [X|X]; [discriminate X|]); destruct X.
Lemma last_field f r r' : f ++ lit ": " ++ rank_debug r ++ lit " }" = f ++ lit ": " ++ rank_debug r' ++ lit " }" -> r = r'.
Proof.
  intros H. apply app_inv_head, app_inv_head in H. apply (cut 32%N) in H.
  - apply rank_debug_inj, H.
  - intros X. apply rank_debug_chars in X. tauto.
  - intros X. apply rank_debug_chars in X. tauto.
Qed.
Lemma two_fields f r r' g q q' :
  f ++ lit ": " ++ rank_debug r ++ lit ", " ++ g ++ lit ": " ++ rank_debug q ++ lit " }"
  = f ++ lit ": " ++ rank_debug r' ++ lit ", " ++ g ++ lit ": " ++ rank_debug q' ++ lit " }" -> r = r' /\ q = q'.
Proof.
  intros H. apply app_inv_head, app_inv_head in H. apply (cut 44%N) in H.
  - destruct H as [H1 H2]. injection H2 as H2. split; [apply rank_debug_inj, H1|exact (last_field g q q' H2)].
  - intros X. apply rank_debug_chars in X. tauto.
  - intros X. apply rank_debug_chars in X. tauto.
Qed.
Theorem class_debug_inj a b : class_debug a = class_debug b -> a = b.
Proof.
  destruct a, b; cbn [class_debug]; intros H; apply struct_name in H; try no_char; destruct H as [N H];
    try discriminate N; clear N; cbn [map join fst snd] in H; repeat rewrite <- app_assoc in H.
  all: try (apply last_field in H; congruence).
  all: apply two_fields in H; destruct H; congruence.
Qed.
Lemma phr_debug_cut p p' x y : phr_debug p ++ x = phr_debug p' ++ y -> p = p' /\ x = y.
Proof.
  unfold phr_debug, debug_tuple. rewrite <- !app_assoc. intros H. apply app_inv_head, app_inv_head in H.
  apply (cut 41%N) in H.
  - destruct H as [H ->]. split; [|reflexivity]. apply debug_int_inj in H. destruct p, p'. cbn in H. congruence.
  - intros X. apply debug_int_chars in X. destruct X as [X|X]; [discriminate X|lia].
  - intros X. apply debug_int_chars in X. destruct X as [X|X]; [discriminate X|lia].
Qed.
Theorem meta_debug_inj a b : meta_debug a = meta_debug b -> a = b.
Proof.
  destruct a, b; cbn [meta_debug]; intros H; apply struct_name in H; try no_char; destruct H as [N H];
    try discriminate N; clear N; cbn [map join fst snd] in H; repeat rewrite <- app_assoc in H;
    apply app_inv_head, app_inv_head, phr_debug_cut in H; destruct H as [-> H]; apply app_inv_head in H.
  all: try (apply last_field in H; congruence).
  all: apply two_fields in H; destruct H; congruence.
Qed.
Theorem eval_debug_inj a b : eval_debug a = eval_debug b -> a = b.
Proof.
  unfold eval_debug, debug_tuple. intros H. apply app_inv_head, app_inv_head, app_inv_tail in H.
  apply meta_debug_inj in H. destruct a, b. cbn in H. congruence.
Qed.

(** ** Errors *)
Lemma card_debug_cut a b x y : card_debug a ++ x = card_debug b ++ y -> a_card a -> a_card b -> a = b /\ x = y.
Proof.
  assert (S : forall c, a_card c -> exists t, card_debug c = t ++ [125%N] /\ ~ In 125%N t).
  { intros c (r & s & ->). exists (removelast (card_debug (card_new r s))).
    destruct r, s; (split; [vm_compute; reflexivity|vm_compute; intros X; repeat (destruct X as [X|X]; [discriminate X|]); destruct X]). }
  intros H A B. destruct (S a A) as (t & E & N), (S b B) as (u & E' & N').
  rewrite E, E', <- !app_assoc in H. apply (cut 125%N) in H; [|assumption|assumption].
  destruct H as [-> ->]. split; [|reflexivity]. apply card_debug_inj. congruence.
Qed.
Lemma cards_debug_inj l : forall l' x y, all_cards l -> all_cards l' ->
  join (lit ", ") (map card_debug l) ++ 93%N :: x = join (lit ", ") (map card_debug l') ++ 93%N :: y -> l = l'.
Proof.
  assert (C : forall c, exists t, card_debug c = 67%N :: t) by (intros c; eexists; reflexivity).
  assert (J : forall c k, join (lit ", ") (map card_debug (c :: k))
    = card_debug c ++ match k with [] => [] | _ => lit ", " ++ join (lit ", ") (map card_debug k) end).
  { intros c [|d k]; [symmetry; apply app_nil_r|reflexivity]. }
  induction l as [|c l IH]; intros [|c' l'] x y A A' H; try reflexivity.
  - exfalso. rewrite J in H. destruct (C c') as (t & E). rewrite E in H. discriminate H.
  - exfalso. rewrite J in H. destruct (C c) as (t & E). rewrite E in H. discriminate H.
  - rewrite !J, <- !app_assoc in H. inversion A as [|? ? Ac Al]; subst. inversion A' as [|? ? Ac' Al']; subst.
    apply card_debug_cut in H; [|assumption|assumption]. destruct H as [-> H]. f_equal.
    destruct l as [|d l], l' as [|d' l']; try reflexivity; try discriminate H.
    rewrite <- !app_assoc in H. apply app_inv_head in H. exact (IH _ x y Al Al' H).
Qed.
Theorem eval_error_debug_inj a b :
  (forall h, a = CardsNotUnique h -> all_cards h) -> (forall h, b = CardsNotUnique h -> all_cards h) ->
  eval_error_debug a = eval_error_debug b -> a = b.
Proof.
  intros A B. destruct a as [l|n], b as [l'|n']; cbn [eval_error_debug]; unfold debug_tuple, debug_list; intros H;
    try discriminate H.
  - f_equal. apply app_inv_head, app_inv_head in H. rewrite <- !app_assoc in H. apply app_inv_head in H.
    exact (cards_debug_inj l l' _ _ (A l eq_refl) (B l' eq_refl) H).
  - f_equal. apply app_inv_head, app_inv_head, app_inv_tail, dec_inj in H. lia.
Qed.

(** ** Hash *)
Theorem card_hash_eq {H} (write : H -> Z -> H) a b state : card_eqb a b = true -> card_hash write a state = card_hash write b state.
Proof. unfold card_eqb, card_hash. intros E. apply Z.eqb_eq in E. rewrite E. reflexivity. Qed.
Theorem card_hash_separates a b state :
  card_hash (fun l z => z :: l) a state = card_hash (fun l z => z :: l) b state -> a = b.
Proof. unfold card_hash. intros E. injection E as E. destruct a, b. cbn in E. congruence. Qed.

Theorem card_debug_iff a b : (card_debug a = card_debug b <-> a = b)
  /\ (card_debug_pretty a = card_debug_pretty b <-> a = b).
Proof.
  split; split; [apply card_debug_inj|congruence|apply card_debug_pretty_inj|congruence].
Qed.
Theorem class_debug_iff a b : class_debug a = class_debug b <-> a = b.
Proof. split; [apply class_debug_inj|congruence]. Qed.
Theorem eval_debug_iff a b : eval_debug a = eval_debug b <-> a = b.
Proof. split; [apply eval_debug_inj|congruence]. Qed.

(** ** The texts themselves *)
Lemma rank_debug_text r : rank_debug r = lit (Rank_ r).
Proof. destruct r; reflexivity. Qed.
Lemma suit_debug_text s : suit_debug s = lit (Suit_ s).
Proof. destruct s; reflexivity. Qed.
Lemma card_parts r s : card_rank (card_new r s) = r /\ card_suit (card_new r s) = s /\ (unique_integer (card_new r s) <? 0)%Z = false.
Proof. destruct r, s; repeat split; reflexivity. Qed.
Theorem card_debug_text r s :
  let number := dec (Z.to_N (unique_integer (card_new r s))) in
  card_debug (card_new r s)
  = lit "Card { unique_integer: " ++ number ++ lit ", rank: " ++ lit (Rank_ r) ++ lit ", suit: " ++ lit (Suit_ s) ++ lit " }"
  /\ card_debug_pretty (card_new r s)
  = lit "Card {" ++ [10%N] ++ lit "    unique_integer: " ++ number ++ lit "," ++ [10%N]
    ++ lit "    rank: " ++ lit (Rank_ r) ++ lit "," ++ [10%N] ++ lit "    suit: " ++ lit (Suit_ s) ++ lit "," ++ [10%N] ++ lit "}".
Proof.
  cbv zeta. destruct (card_parts r s) as (R & S0 & P). unfold card_debug, card_debug_pretty, debug_struct, debug_struct_pretty, card_debug_fields, debug_int.
  rewrite R, S0, P, rank_debug_text, suit_debug_text. generalize (dec (Z.to_N (unique_integer (card_new r s)))) as n.
  intros n. cbn [map join flat_map fst snd]. rewrite <- !app_assoc. split; reflexivity.
Qed.
Lemma lit_app a b : lit (a ++ b)%string = (lit a ++ lit b)%list.
Proof. induction a as [|x a IH]; [reflexivity|]. cbn. rewrite IH. reflexivity. Qed.
Theorem class_debug_text c : class_debug c = lit (class_source c).
Proof.
  destruct c; unfold class_debug, class_source, debug_struct, fields, variant; rewrite !rank_debug_text;
    cbn [map join fst snd category]; rewrite !lit_app, <- ?app_assoc; reflexivity.
Qed.
Theorem eval_debug_text e : (0 <= phr (eval_hand_rank e))%Z -> eval_debug e
  = lit "Eval(" ++ lit (variant (eval_class_of e)) ++ lit " { hand_rank: PokerHandRank("
    ++ dec (Z.to_N (phr (eval_hand_rank e))) ++ lit "), " ++ lit (fields "high_pair" "low_pair" (eval_class_of e)) ++ lit " })".
Proof.
  destruct e as [m]. unfold eval_debug, eval_hand_rank, eval_class_of. cbn [eval_meta]. intros P.
  assert (D : debug_int (phr (meta_hand_rank m)) = dec (Z.to_N (phr (meta_hand_rank m)))).
  { unfold debug_int. destruct (Z.ltb_spec (phr (meta_hand_rank m)) 0); [lia|reflexivity]. }
  revert D. destruct m; cbn [meta_debug meta_class meta_hand_rank category]; unfold debug_tuple, debug_struct, phr_debug, debug_tuple, variant, fields;
    intros ->; rewrite !rank_debug_text; cbn [map join fst snd category]; rewrite ?lit_app, <- ?app_assoc; reflexivity.
Qed.
Theorem eval_error_debug_text :
  (forall n, eval_error_debug (InvalidHandSize n) = lit "InvalidHandSize(" ++ dec (N.of_nat n) ++ lit ")")
  /\ forall h text, listed (map card_debug h) text ->
       eval_error_debug (CardsNotUnique h) = lit "CardsNotUnique([" ++ text ++ lit "])".
Proof.
  split; [reflexivity|]. intros h text L. cbn [eval_error_debug]. unfold debug_tuple, debug_list.
  assert (E : join (lit ", ") (map card_debug h) = text); [|rewrite E, <- !app_assoc; reflexivity].
  induction L as [| |t u l text L IH]; [reflexivity|reflexivity|]. rewrite <- IH. reflexivity.
Qed.
Lemma listed_exists l : exists text, listed l text.
Proof.
  induction l as [|t [|u l] IH]; [eexists; constructor|eexists; constructor|]. destruct IH as [text IH].
  eexists. constructor. exact IH.
Qed.
