(** DebugTextFacts.v: the [Debug] text of a parse error is the error written as Rust source. *)
From Coq Require Import Lia List String ZArith Hexadecimal HexadecimalString HexadecimalN HexadecimalFacts.
From Verif Require Import Base ModelCard ModelEval ModelDebug ModelDebugText SpecDebugText.
Import ListNotations.
Local Open Scope N_scope.

(** ** Hexadecimal numbers *)
Lemma snoc_hex s n (d : N) c z : hex s n -> d < 16 -> c = hex_digit d -> z = 16 * n + d -> hex (s ++ [c])%list z.
Proof. intros H D -> ->. exact (hex_more s n d H D). Qed.
Ltac next_hex IH k H :=
  match goal with |- hex (?s ++ lit (String ?a ?t)) _ =>
    change (lit (String a t)) with ([hex_digit k] ++ lit t)%list; rewrite app_assoc; apply IH;
    eapply (snoc_hex _ _ k); [exact H|reflexivity|reflexivity|try reflexivity; try lia] end.
Lemma hex_acc : forall d s a, hex s (N.pos a) ->
  hex (s ++ lit (NilEmpty.string_of_uint d)) (N.pos (Pos.of_hex_uint_acc d a)).
Proof.
  induction d; intros s a H; cbn [NilEmpty.string_of_uint Pos.of_hex_uint_acc].
  - cbn [lit]. rewrite app_nil_r. exact H.
  - next_hex IHd 0 H.
  - next_hex IHd 1 H.
  - next_hex IHd 2 H.
  - next_hex IHd 3 H.
  - next_hex IHd 4 H.
  - next_hex IHd 5 H.
  - next_hex IHd 6 H.
  - next_hex IHd 7 H.
  - next_hex IHd 8 H.
  - next_hex IHd 9 H.
  - next_hex IHd 10 H.
  - next_hex IHd 11 H.
  - next_hex IHd 12 H.
  - next_hex IHd 13 H.
  - next_hex IHd 14 H.
  - next_hex IHd 15 H.
Qed.
Lemma hex_leading_zero n d : N.to_hex_uint n = D0 d -> d = Nil /\ n = 0.
Proof.
  intros E. pose proof (HexadecimalN.Unsigned.to_of (N.to_hex_uint n)) as U. rewrite HexadecimalN.Unsigned.of_to in U.
  rewrite E in U. unfold unorm in U. pose proof (nzhead_nonzero (D0 d)) as Z0.
  destruct (nzhead (D0 d)) eqn:Q; try discriminate U.
  - injection U as ->. split; [reflexivity|]. rewrite <- (HexadecimalN.Unsigned.of_to n), E. reflexivity.
  - exfalso. exact (Z0 _ eq_refl).
Qed.
Lemma hex_text_hex n : hex (hex_text n) n.
Proof.
  unfold hex_text.
  destruct (N.to_hex_uint n) as [|d|d|d|d|d|d|d|d|d|d|d|d|d|d|d|d] eqn:E.
  - exfalso. destruct n; [discriminate E|]. exact (HexadecimalPos.Unsigned.to_uint_nonnil _ E).
  - destruct (hex_leading_zero n d E) as [-> ->]. exact (hex_one 0 eq_refl).
  - rewrite <- (HexadecimalN.Unsigned.of_to n), E. exact (hex_acc d [49] 1 (hex_one 1 eq_refl)).
  - rewrite <- (HexadecimalN.Unsigned.of_to n), E. exact (hex_acc d [50] 2 (hex_one 2 eq_refl)).
  - rewrite <- (HexadecimalN.Unsigned.of_to n), E. exact (hex_acc d [51] 3 (hex_one 3 eq_refl)).
  - rewrite <- (HexadecimalN.Unsigned.of_to n), E. exact (hex_acc d [52] 4 (hex_one 4 eq_refl)).
  - rewrite <- (HexadecimalN.Unsigned.of_to n), E. exact (hex_acc d [53] 5 (hex_one 5 eq_refl)).
  - rewrite <- (HexadecimalN.Unsigned.of_to n), E. exact (hex_acc d [54] 6 (hex_one 6 eq_refl)).
  - rewrite <- (HexadecimalN.Unsigned.of_to n), E. exact (hex_acc d [55] 7 (hex_one 7 eq_refl)).
  - rewrite <- (HexadecimalN.Unsigned.of_to n), E. exact (hex_acc d [56] 8 (hex_one 8 eq_refl)).
  - rewrite <- (HexadecimalN.Unsigned.of_to n), E. exact (hex_acc d [57] 9 (hex_one 9 eq_refl)).
  - rewrite <- (HexadecimalN.Unsigned.of_to n), E. exact (hex_acc d [97] 10 (hex_one 10 eq_refl)).
  - rewrite <- (HexadecimalN.Unsigned.of_to n), E. exact (hex_acc d [98] 11 (hex_one 11 eq_refl)).
  - rewrite <- (HexadecimalN.Unsigned.of_to n), E. exact (hex_acc d [99] 12 (hex_one 12 eq_refl)).
  - rewrite <- (HexadecimalN.Unsigned.of_to n), E. exact (hex_acc d [100] 13 (hex_one 13 eq_refl)).
  - rewrite <- (HexadecimalN.Unsigned.of_to n), E. exact (hex_acc d [101] 14 (hex_one 14 eq_refl)).
  - rewrite <- (HexadecimalN.Unsigned.of_to n), E. exact (hex_acc d [102] 15 (hex_one 15 eq_refl)).
Qed.
Lemma hex_digit_range d : d < 16 -> 48 <= hex_digit d < 103.
Proof. intros H. unfold hex_digit. destruct (N.ltb_spec d 10); lia. Qed.
Lemma hex_digit_inj a b : a < 16 -> b < 16 -> hex_digit a = hex_digit b -> a = b.
Proof. unfold hex_digit. intros A B. destruct (N.ltb_spec a 10), (N.ltb_spec b 10); lia. Qed.
Lemma hex_range s n : hex s n -> Forall (fun c => 48 <= c < 103) s.
Proof.
  induction 1 as [d D|s n d H IH D].
  - constructor; [exact (hex_digit_range d D)|constructor].
  - apply Forall_app. split; [exact IH|]. constructor; [exact (hex_digit_range d D)|constructor].
Qed.
Lemma hex_not_nil s n : hex s n -> s <> [].
Proof. intros H. destruct H as [|s n d H D]; [discriminate|]. destruct s; discriminate. Qed.
Lemma hex_same : forall s n, hex s n -> forall m, hex s m -> n = m.
Proof.
  induction 1 as [d D|s n d H IH D]; intros m M; inversion M as [d' D' E|s' n' d' H' D' E]; subst.
  - apply hex_digit_inj; [exact D|exact D'|]. congruence.
  - exfalso. apply (hex_not_nil _ _ H'). destruct s' as [|x [|]]; [reflexivity|discriminate E|discriminate E].
  - exfalso. apply (hex_not_nil _ _ H). destruct s as [|x [|]]; [reflexivity|discriminate E|discriminate E].
  - apply app_inj_tail in E. destruct E as [-> E]. apply hex_digit_inj in E; [|exact D'|exact D].
    rewrite (IH n' H'). subst. reflexivity.
Qed.

(** ** Reading literals *)
Lemma until_stop (x : N) : forall a b r s, ~ In x a -> ~ In x b -> (a ++ x :: r = b ++ x :: s)%list -> a = b /\ r = s.
Proof.
  induction a as [|c a IH]; intros [|d b] r s A B E.
  - injection E as ->. split; reflexivity.
  - exfalso. injection E as <- _. apply B. left. reflexivity.
  - exfalso. injection E as -> _. apply A. left. reflexivity.
  - injection E as <- E. destruct (IH b r s) as [-> ->]; [..|split; reflexivity].
    + intros X. apply A. right. exact X.
    + intros X. apply B. right. exact X.
    + exact E.
Qed.
Lemma hex_no_brace s n : hex s n -> ~ In 125 s.
Proof. intros H X. pose proof (proj1 (Forall_forall _ _) (hex_range s n H) _ X) as R. cbv beta in R. lia. Qed.

(** One character of a literal. *)
Inductive piece (q : rchar) : rstring -> rchar -> Prop :=
| piece_plain c : c <> q -> c <> 92 -> piece q [c] c
| piece_short e c : In (e, c) [(48, 0); (116, 9); (110, 10); (114, 13); (92, 92); (39, 39); (34, 34)] ->
    piece q [92; e] c
| piece_code s n : hex s n -> piece q ([92; 117; 123] ++ s ++ [125])%list n.
Inductive pieces (q : rchar) : rstring -> rstring -> Prop :=
| pieces_end : pieces q [] []
| pieces_more p c b t : piece q p c -> pieces q b t -> pieces q (p ++ b)%list (c :: t).
Lemma spells_pieces q b t : spells q b t -> pieces q b t.
Proof.
  induction 1 as [|c b t A B _ IH|b t _ IH|b t _ IH|b t _ IH|b t _ IH|b t _ IH|b t _ IH|b t _ IH|s n b t H _ IH].
  - constructor.
  - exact (pieces_more q [c] c b t (piece_plain q c A B) IH).
  - exact (pieces_more q _ _ b t (piece_short q 48 0 ltac:(cbn; tauto)) IH).
  - exact (pieces_more q _ _ b t (piece_short q 116 9 ltac:(cbn; tauto)) IH).
  - exact (pieces_more q _ _ b t (piece_short q 110 10 ltac:(cbn; tauto)) IH).
  - exact (pieces_more q _ _ b t (piece_short q 114 13 ltac:(cbn; tauto)) IH).
  - exact (pieces_more q _ _ b t (piece_short q 92 92 ltac:(cbn; tauto)) IH).
  - exact (pieces_more q _ _ b t (piece_short q 39 39 ltac:(cbn; tauto)) IH).
  - exact (pieces_more q _ _ b t (piece_short q 34 34 ltac:(cbn; tauto)) IH).
  - pose proof (pieces_more q _ _ b t (piece_code q s n H) IH) as P.
    change (lit "\u{") with [92; 117; 123]. change (lit "}") with [125].
    rewrite <- !app_assoc in P. exact P.
Qed.
Lemma piece_unique q p c p' c' r r' : piece q p c -> piece q p' c' -> (p ++ r = p' ++ r')%list ->
  p = p' /\ c = c' /\ r = r'.
Proof.
  intros P P' E. destruct P as [c A B|e c I|s n H]; destruct P' as [d A' B'|e' d I'|s' m H'];
    cbn [app] in E.
  - injection E as -> ->. auto.
  - exfalso. injection E as E _. exact (B E).
  - exfalso. injection E as E _. exact (B E).
  - exfalso. injection E as E _. exact (B' (eq_sym E)).
  - injection E as -> ->. split; [reflexivity|]. split; [|reflexivity].
    cbn [In] in I, I'.
    destruct I as [I|[I|[I|[I|[I|[I|[I|[]]]]]]]]; injection I as <- <-;
      destruct I' as [I'|[I'|[I'|[I'|[I'|[I'|[I'|[]]]]]]]]; congruence.
  - exfalso. injection E as E _. subst e. cbn [In] in I.
    destruct I as [I|[I|[I|[I|[I|[I|[I|[]]]]]]]]; discriminate I.
  - exfalso. injection E as E _. exact (B' (eq_sym E)).
  - exfalso. injection E as E _. subst e'. cbn [In] in I'.
    destruct I' as [I'|[I'|[I'|[I'|[I'|[I'|[I'|[]]]]]]]]; discriminate I'.
  - injection E as E. rewrite <- !app_assoc in E. cbn [app] in E.
    apply until_stop in E; [|exact (hex_no_brace _ _ H)|exact (hex_no_brace _ _ H')].
    destruct E as [-> ->]. rewrite (hex_same _ _ H _ H'). auto.
Qed.
Lemma piece_quote q p c r r' : piece q p c -> q <> 92 -> (p ++ r)%list <> q :: r'.
Proof. intros P Q E. destruct P as [c A B|e c I|s n H]; cbn [app] in E; injection E as E _; congruence. Qed.
Lemma pieces_unique q : q <> 92 -> forall b t, pieces q b t -> forall b' t' r r', pieces q b' t' ->
  (b ++ q :: r = b' ++ q :: r')%list -> b = b' /\ t = t' /\ r = r'.
Proof.
  intros Q. induction 1 as [|p c b t P _ IH]; intros b' t' r r' H' E; destruct H' as [|p' c' b' t' P' H'].
  - injection E as ->. auto.
  - exfalso. rewrite <- app_assoc in E. exact (piece_quote q p' c' _ _ P' Q (eq_sym E)).
  - exfalso. rewrite <- app_assoc in E. exact (piece_quote q p c _ _ P Q E).
  - rewrite <- !app_assoc in E. destruct (piece_unique q p c p' c' _ _ P P' E) as [-> [-> E']].
    destruct (IH b' t' r r' H' E') as [-> [-> ->]]. auto.
Qed.
Lemma literal_unique q s t s' t' r r' : q <> 92 -> literal q s t -> literal q s' t' -> (s ++ r = s' ++ r')%list ->
  s = s' /\ t = t' /\ r = r'.
Proof.
  intros Q [b [-> H]] [b' [-> H']] E. cbn [app] in E. injection E as E. rewrite <- !app_assoc in E. cbn [app] in E.
  destruct (pieces_unique q Q b t (spells_pieces _ _ _ H) b' t' r r' (spells_pieces _ _ _ H') E) as [-> [-> ->]]. auto.
Qed.
Theorem literal_reads q s t t' : q <> 92 -> literal q s t -> literal q s t' -> t = t'.
Proof. intros Q H H'. exact (proj1 (proj2 (literal_unique q s t s t' [] [] Q H H' eq_refl))). Qed.

(** ** Sources of errors *)
Lemma app_inv (a b c : rstring) : (a ++ b = a ++ c)%list -> b = c.
Proof. apply app_inv_head. Qed.
Ltac part H :=
  match type of H with (?s ++ _ = ?s' ++ _)%list =>
    match goal with A : literal ?q s _, B : literal ?q s' _ |- _ =>
      let Q := fresh in assert (Q : q <> 92) by discriminate;
      let X := fresh in let Y := fresh in let Z := fresh in
      destruct (literal_unique q _ _ _ _ _ _ Q A B H) as [X [Y Z]]; clear H; rename Z into H
    end end.
Theorem error_source_reads e e' t : error_source e t -> error_source e' t -> e = e'.
Proof.
  intros H H'. inversion H as [s x A E1 E2|s c x y A B E1 E2|s c x y A B E1 E2]; subst e;
    inversion H' as [s' x' A' E1' E3|s' c' x' y' A' B' E1' E3|s' c' x' y' A' B' E1' E3]; subst e';
    rewrite <- E2 in E3; symmetry in E3; try discriminate E3; apply app_inv in E3; part E3.
  - subst. reflexivity.
  - apply app_inv in E3. part E3. congruence.
  - apply app_inv in E3. part E3. congruence.
Qed.
Theorem error_source_pretty_reads e e' t : error_source_pretty e t -> error_source_pretty e' t -> e = e'.
Proof.
  intros H H'. inversion H as [s x A E1 E2|s c x y A B E1 E2|s c x y A B E1 E2]; subst e;
    inversion H' as [s' x' A' E1' E3|s' c' x' y' A' B' E1' E3|s' c' x' y' A' B' E1' E3]; subst e';
    rewrite <- E2 in E3; symmetry in E3; try discriminate E3;
    rewrite ?(app_assoc _ [10]), ?(app_assoc _ (lit "    original_input: ")) in E3; apply app_inv in E3;
    rewrite <- ?app_assoc in E3; part E3.
  - subst. reflexivity.
  - rewrite ?(app_assoc _ [10]), ?(app_assoc _ (lit "    incorrect_char: ")) in E3. apply app_inv in E3.
    rewrite <- ?app_assoc in E3. part E3. congruence.
  - rewrite ?(app_assoc _ [10]), ?(app_assoc _ (lit "    incorrect_char: ")) in E3. apply app_inv in E3.
    rewrite <- ?app_assoc in E3. part E3. congruence.
Qed.

(** ** The model's texts *)
Section Texts.
Variable plain : rchar -> bool.
Lemma escape_spells q c b t : q = 34 \/ q = 39 -> spells q b t -> spells q (escape_debug plain q c ++ b)%list (c :: t).
Proof.
  intros Q H. unfold escape_debug.
  destruct (N.eqb_spec c 0) as [->|]; [exact (spells_null q b t H)|].
  destruct (N.eqb_spec c 9) as [->|]; [exact (spells_tab q b t H)|].
  destruct (N.eqb_spec c 13) as [->|]; [exact (spells_return q b t H)|].
  destruct (N.eqb_spec c 10) as [->|]; [exact (spells_line_feed q b t H)|].
  destruct (N.eqb_spec c 92) as [->|]; [exact (spells_backslash q b t H)|].
  destruct (N.eqb_spec c q) as [->|].
  - destruct Q as [-> | ->]; [exact (spells_double 34 b t H)|exact (spells_single 39 b t H)].
  - destruct ((c =? 34) || (c =? 39))%bool; [cbn [app]; apply spells_plain; assumption|].
    destruct (plain c); [cbn [app]; apply spells_plain; assumption|].
    rewrite <- !app_assoc. exact (spells_code q (hex_text c) c b t (hex_text_hex c) H).
Qed.
Lemma str_debug_literal s : literal 34 (str_debug plain s) s.
Proof.
  exists (flat_map (escape_debug plain 34) s). split; [reflexivity|].
  induction s as [|c s IH]; cbn [flat_map]; [constructor|]. apply escape_spells; [left; reflexivity|exact IH].
Qed.
Lemma char_debug_literal c : literal 39 (char_debug plain c) [c].
Proof.
  exists (escape_debug plain 39 c). split; [reflexivity|].
  rewrite <- (app_nil_r (escape_debug plain 39 c)). apply escape_spells; [right; reflexivity|constructor].
Qed.
Theorem debug_source e : error_source e (parse_card_error_debug plain e).
Proof.
  destruct e as [s|s c|s c]; unfold parse_card_error_debug, parse_card_error_fields, debug_struct, join;
    cbn [map fst snd]; rewrite <- ?app_assoc.
  - apply (source_length s _ (str_debug_literal s)).
  - apply (source_rank s c _ _ (str_debug_literal s) (char_debug_literal c)).
  - apply (source_suit s c _ _ (str_debug_literal s) (char_debug_literal c)).
Qed.
Theorem debug_source_pretty e : error_source_pretty e (parse_card_error_debug_pretty plain e).
Proof.
  destruct e as [s|s c|s c]; unfold parse_card_error_debug_pretty, parse_card_error_fields, debug_struct_pretty;
    cbn [flat_map map fst snd]; rewrite <- ?app_assoc, ?app_nil_r.
  - apply (pretty_length s _ (str_debug_literal s)).
  - apply (pretty_rank s c _ _ (str_debug_literal s) (char_debug_literal c)).
  - apply (pretty_suit s c _ _ (str_debug_literal s) (char_debug_literal c)).
Qed.
Theorem debug_apart e e' :
  (parse_card_error_debug plain e = parse_card_error_debug plain e' <-> e = e')
  /\ (parse_card_error_debug_pretty plain e = parse_card_error_debug_pretty plain e' <-> e = e').
Proof.
  split; (split; [|congruence]); intros E.
  - apply (error_source_reads e e' (parse_card_error_debug plain e)); [apply debug_source|rewrite E; apply debug_source].
  - apply (error_source_pretty_reads e e' (parse_card_error_debug_pretty plain e));
      [apply debug_source_pretty|rewrite E; apply debug_source_pretty].
Qed.
(** Line feeds, carriage returns, tabs and null characters never appear. *)
Definition tame (c : rchar) : Prop := c <> 0 /\ c <> 9 /\ c <> 10 /\ c <> 13.
Lemma tame_lit s : forallb (fun c => negb (c =? 0) && negb (c =? 9) && negb (c =? 10) && negb (c =? 13))%bool s = true ->
  Forall tame s.
Proof.
  intros H. apply Forall_forall. intros c I. apply (proj1 (forallb_forall _ _) H) in I.
  destruct (N.eqb_spec c 0), (N.eqb_spec c 9), (N.eqb_spec c 10), (N.eqb_spec c 13); try discriminate I.
  repeat split; assumption.
Qed.
Lemma escape_tame q c : q = 34 \/ q = 39 -> Forall tame (escape_debug plain q c).
Proof.
  intros Q. unfold escape_debug.
  destruct (N.eqb_spec c 0) as [->|]; [apply tame_lit; reflexivity|].
  destruct (N.eqb_spec c 9) as [->|]; [apply tame_lit; reflexivity|].
  destruct (N.eqb_spec c 13) as [->|]; [apply tame_lit; reflexivity|].
  destruct (N.eqb_spec c 10) as [->|]; [apply tame_lit; reflexivity|].
  destruct (N.eqb_spec c 92) as [->|]; [apply tame_lit; reflexivity|].
  assert (T : Forall tame [c]) by (repeat constructor; assumption).
  destruct (N.eqb_spec c q) as [->|].
  - destruct Q as [-> | ->]; apply tame_lit; reflexivity.
  - destruct ((c =? 34) || (c =? 39))%bool; [exact T|]. destruct (plain c); [exact T|].
    apply Forall_app. split; [apply tame_lit; reflexivity|]. apply Forall_app.
    split; [|apply tame_lit; reflexivity]. eapply Forall_impl; [|exact (hex_range _ _ (hex_text_hex c))].
    cbv beta. intros x X. repeat split; lia.
Qed.
Lemma str_debug_tame s : Forall tame (str_debug plain s).
Proof.
  unfold str_debug. apply Forall_app. split; [apply tame_lit; reflexivity|]. apply Forall_app.
  split; [|apply tame_lit; reflexivity]. apply Forall_flat_map. apply Forall_forall. intros c _.
  apply escape_tame. left. reflexivity.
Qed.
Lemma char_debug_tame c : Forall tame (char_debug plain c).
Proof.
  unfold char_debug. apply Forall_app. split; [apply tame_lit; reflexivity|]. apply Forall_app.
  split; [|apply tame_lit; reflexivity]. apply escape_tame. right. reflexivity.
Qed.
Theorem debug_one_line e : Forall tame (parse_card_error_debug plain e).
Proof.
  destruct e as [s|s c|s c]; unfold parse_card_error_debug, parse_card_error_fields, debug_struct, join;
    cbn [map fst snd];
    repeat first [exact (str_debug_tame s)|exact (char_debug_tame c)|apply Forall_app; split];
    apply tame_lit; reflexivity.
Qed.
(** Ordinary characters appear as they are. *)
Theorem str_debug_plain s : Forall (fun c => plain c = true /\ never_escaped c) s -> str_debug plain s = (34 :: s ++ [34])%list.
Proof.
  intros H. unfold str_debug. cbn [app]. f_equal. f_equal.
  induction H as [|c s [P [A0 [A9 [A10 [A13 [A34 A92]]]]]] _ IH]; [reflexivity|]. cbn [flat_map]. rewrite IH.
  unfold escape_debug. rewrite !(proj2 (N.eqb_neq c _)) by assumption. rewrite P.
  destruct (c =? 39); reflexivity.
Qed.
Theorem plain_length_text s : Forall (fun c => plain c = true /\ never_escaped c) s ->
  parse_card_error_debug plain (InvalidLength s)
  = (lit "InvalidLength { original_input: """ ++ s ++ lit """ }")%list.
Proof.
  intros H. unfold parse_card_error_debug, parse_card_error_fields, debug_struct, join. cbn [map fst snd].
  rewrite (str_debug_plain s H). cbn [lit app]. rewrite <- !app_assoc. reflexivity.
Qed.
End Texts.
