(** TerminalFacts.v: proofs of C65. *)
From Coq Require Import List NArith ZArith Bool String Lia.
From Verif Require Import Base ModelCard ModelEval ModelTable ModelEvaluation ModelExamples ModelTerminal SpecTerminal
  DebugFacts HandFacts.
Import ListNotations.
Local Open Scope list_scope.

(** ** The terminal *)
Lemma terminal_app m p s t :
  terminal m p (s ++ t)
  = let '(m1, p1, e1) := terminal m p s in
    let '(m2, p2, e2) := terminal m1 p1 t in (m2, p2, e1 ++ e2).
Proof.
  revert m p. induction s as [|c s IH]; intros m p; cbn [terminal app].
  - destruct (terminal m p t) as [[m2 p2] e2]. reflexivity.
  - destruct (key m p c) as [[m1 p1] e1]. rewrite IH.
    destruct (terminal m1 p1 s) as [[m2 p2] e2]. destruct (terminal m2 p2 t) as [[m3 p3] e3].
    now rewrite app_assoc.
Qed.
Lemma terminal_text p s : harmless s -> terminal Ground p s = (Ground, p, map (fun c => Shown c p) s).
Proof.
  induction s as [|c s IH]; intros H; [reflexivity|]. cbn [terminal key map].
  destruct (N.eqb_spec c 27) as [->|_]; [destruct H; now left|].
  rewrite IH; [reflexivity|]. intros K. apply H. now right.
Qed.

(** ** Texts without an escape character *)
Lemma harmless_app a b : harmless (a ++ b) <-> harmless a /\ harmless b.
Proof. unfold harmless. rewrite in_app_iff. tauto. Qed.
Lemma harmless_cons c s : harmless (c :: s) <-> c <> 27%N /\ harmless s.
Proof. unfold harmless. cbn [In]. intuition. Qed.
Lemma harmless_nil : harmless [].
Proof. intros []. Qed.
Lemma harmless_dec n : harmless (dec n).
Proof. intros H. apply dec_chars in H. lia. Qed.
Lemma harmless_forallb s : forallb (fun c => negb (c =? 27)%N) s = true -> harmless s.
Proof. intros H K. rewrite forallb_forall in H. specialize (H _ K). discriminate H. Qed.

(** ** [colored] *)
Lemma escape_resets_id : forall fuel again s, harmless s -> escape_resets fuel again s = s.
Proof.
  induction fuel as [|fuel IH]; intros again s H; [reflexivity|]. destruct s as [|c s]; [reflexivity|].
  cbn [escape_resets]. apply harmless_cons in H. destruct H as [Hc H].
  assert (strip_prefix reset (c :: s) = None) as ->.
  { change reset with (27%N :: 91%N :: lit "0m"). cbn [strip_prefix].
    destruct (N.eqb_spec 27 c) as [<-|_]; [now destruct Hc|reflexivity]. }
  now rewrite IH.
Qed.
Lemma reset_plain m_p : terminal Ground m_p reset = (Ground, plain, []).
Proof. reflexivity. Qed.

Lemma style_codes : forall l before p, l <> [] ->
  terminal (Control before 0) p (join (lit ";") (map style_code l) ++ lit "m")
  = (Ground, fold_left with_style l (fold_left sgr before p), []).
Proof.
  induction l as [|s l IH]; intros before p H; [now destruct H|]. destruct l as [|s' l'].
  - cbn [map join fold_left]. rewrite terminal_app.
    assert (forall n, fold_left sgr (before ++ [n]) p = sgr (fold_left sgr before p) n) as E
      by (intros n; now rewrite fold_left_app).
    destruct s; cbn [style_code terminal key]; vm_compute (lit _); cbn; rewrite E; reflexivity.
  - change (join (lit ";") (map style_code (s :: s' :: l')))
      with (style_code s ++ lit ";" ++ join (lit ";") (map style_code (s' :: l'))).
    rewrite <- !app_assoc. rewrite terminal_app.
    assert (exists n, terminal (Control before 0) p (style_code s) = (Control before n, p, [])
              /\ sgr (fold_left sgr before p) n = with_style (fold_left sgr before p) s) as [n [-> E]]
      by (destruct s; eexists; (split; [vm_compute; reflexivity|reflexivity])).
    rewrite terminal_app.
    change (terminal (Control before n) p (lit ";")) with (Control (before ++ [n]) 0, p, @nil event).
    cbn iota beta. rewrite IH by discriminate.
    rewrite fold_left_app. cbn [fold_left app]. now rewrite E.
Qed.

(** The attributes and the last colour make the style. *)
Lemma style_commutes p s c : is_attribute s = true -> is_attribute c = false ->
  with_style (with_style p c) s = with_style (with_style p s) c.
Proof. now destruct s; destruct c. Qed.
Lemma colour_last p c s : is_attribute c = false -> is_attribute s = false ->
  with_style (with_style p c) s = with_style p s.
Proof. now destruct s; destruct c. Qed.
Lemma last_colour_cases st :
  last_colour st = [] \/ exists c, last_colour st = [c] /\ is_attribute c = false.
Proof.
  unfold last_colour. destruct (rev (filter (fun s => negb (is_attribute s)) st)) as [|c l] eqn:E; [now left|].
  right. exists c. split; [reflexivity|].
  assert (In c (filter (fun s => negb (is_attribute s)) st)) as H by (rewrite in_rev, E; now left).
  apply filter_In in H. now apply negb_true_iff.
Qed.
Lemma style_sum st : forall p,
  fold_left with_style (filter is_attribute st ++ last_colour st) p = fold_left with_style st p.
Proof.
  induction st as [|s st IH] using rev_ind; intros p; [reflexivity|].
  rewrite (fold_left_app _ st), <- IH. cbn [fold_left].
  unfold last_colour at 1. rewrite !filter_app, rev_app_distr. cbn [filter].
  destruct (is_attribute s) eqn:A; cbn [negb rev app].
  - fold (last_colour st). rewrite <- app_assoc. rewrite !fold_left_app. cbn [fold_left app].
    destruct (last_colour_cases st) as [->|[c [-> Hc]]]; cbn [fold_left app]; [reflexivity|].
    symmetry. now apply style_commutes.
  - rewrite app_nil_r, !fold_left_app. cbn [fold_left].
    destruct (last_colour_cases st) as [->|[c [-> Hc]]]; cbn [fold_left]; [reflexivity|].
    symmetry. now apply colour_last.
Qed.
Lemma some_style st : st <> [] -> filter is_attribute st ++ last_colour st <> [].
Proof.
  intros H E. apply app_eq_nil in E. destruct E as [A L]. destruct st as [|s st]; [now destruct H|].
  destruct (is_attribute s) eqn:B; [cbn [filter] in A; rewrite B in A; discriminate A|].
  unfold last_colour in L. cbn [filter] in L. rewrite B in L. cbn [negb rev] in L.
  destruct (rev (filter _ st) ++ [s]) eqn:F; [now destruct (rev (filter (fun s => negb (is_attribute s)) st))|discriminate L].
Qed.
Lemma compute_style_pen st p : st <> [] ->
  terminal Ground p (compute_style st) = (Ground, fold_left with_style st p, []).
Proof.
  intros H. unfold compute_style. rewrite terminal_app.
  change (terminal Ground p csi) with (Control [] 0, p, @nil event). cbn iota beta.
  rewrite style_codes by now apply some_style. cbn [fold_left app]. now rewrite style_sum.
Qed.

Lemma display_shown colours st s : harmless s ->
  terminal Ground plain (colored_display colours st s)
  = (Ground, plain, map (fun c => Shown c (pen_for colours st)) s).
Proof.
  intros H. unfold colored_display, pen_for. destruct st as [|s0 st].
  - cbn [fold_left]. replace (if colours then plain else plain) with plain by now destruct colours.
    now apply terminal_text.
  - destruct colours; [|now apply terminal_text].
    rewrite escape_resets_id by assumption. rewrite terminal_app, compute_style_pen by discriminate.
    rewrite terminal_app, terminal_text by assumption. rewrite reset_plain. cbn [app]. now rewrite app_nil_r.
Qed.
Theorem shows colours ps : Forall harmless_line ps ->
  terminal Ground plain (flat_map (render colours) ps) = (Ground, plain, flat_map (seen colours) ps).
Proof.
  induction 1 as [|p ps H _ IH]; [reflexivity|]. cbn [flat_map]. rewrite terminal_app.
  assert (terminal Ground plain (render colours p) = (Ground, plain, seen colours p)) as ->; [|now rewrite IH].
  destruct p as [|st s]; [reflexivity|]. cbn [render seen]. rewrite terminal_app, display_shown by assumption.
  reflexivity.
Qed.
Theorem prompt_shown colours s : harmless s ->
  terminal Ground plain (highlight_prompt colours s true)
  = (Ground, plain, map (fun c => Shown c (pen_for colours [BrightGreen])) s).
Proof. intros H. now apply display_shown. Qed.

(** ** Sessions *)
Ltac lit_harmless := apply harmless_forallb; vm_compute; reflexivity.
Ltac harmless_parts :=
  repeat first
    [ assumption
    | apply harmless_dec
    | match goal with |- harmless (_ ++ _) => apply harmless_app; split end
    | match goal with |- harmless (show _) => apply harmless_dec end
    | lit_harmless ].
Lemma rank_name_harmless r : harmless (rank_as_str_name r) /\ harmless (rank_as_str_name_plural r).
Proof. destruct r; split; lit_harmless. Qed.
Lemma class_harmless c : harmless (class_display c).
Proof.
  destruct c; cbn [class_display];
    try (destruct high_rank); repeat (apply harmless_app; split); try apply rank_name_harmless; lit_harmless.
Qed.
Lemma eval_harmless e : harmless (eval_display e).
Proof. apply class_harmless. Qed.
Lemma card_harmless c : harmless (card_display c).
Proof.
  unfold card_display, rank_display, suit_display.
  repeat (apply harmless_app; split); [lit_harmless|destruct (card_rank c); lit_harmless
    |destruct (card_suit c); lit_harmless|lit_harmless].
Qed.
Lemma join_harmless sep l : harmless sep -> Forall harmless l -> harmless (join sep l).
Proof.
  intros Hs. induction 1 as [|x l Hx Hl IH]; [apply harmless_nil|]. cbn [join]. destruct l as [|y l]; [assumption|].
  repeat (apply harmless_app; split); assumption.
Qed.
Lemma flat_map_Forall {A B} (P : B -> Prop) (f : A -> list B) l : (forall a, Forall P (f a)) -> Forall P (flat_map f l).
Proof. intros H. induction l; cbn; [constructor|]. apply Forall_app. auto. Qed.

(** Appending a harmless line. *)
Lemma more out p : Forall harmless_line out -> harmless_line p -> Forall harmless_line (out ++ [p]).
Proof. intros H K. apply Forall_app. split; [assumption|now constructor]. Qed.

Lemma wager_harmless credits : forall lines out r lines' out', Forall harmless lines -> Forall harmless_line out ->
  get_wager credits lines out = (r, lines', out') -> Forall harmless_line out' /\ Forall harmless lines'.
Proof.
  induction lines as [|l lines IH]; intros out r lines' out' Hl Ho E.
  - cbn [get_wager] in E. injection E as _ <- <-. split; [|constructor]. apply more; [assumption|].
    cbn [harmless_line wager_message]. harmless_parts.
  - cbn [get_wager] in E. inversion Hl as [|? ? H1 H2]; subst. clear Hl.
    assert (Forall harmless_line (out ++ [wager_message credits])) as Hm
      by (apply more; [assumption|cbn [harmless_line wager_message]; harmless_parts]).
    destruct (str_eqb l (lit "quit")); [injection E as _ <- <-; now split|].
    destruct (parse_usize l) as [x|]; [|eapply IH in E; eauto; apply more; [assumption|cbn [harmless_line]; harmless_parts]].
    destruct (x =? 0)%Z; [eapply IH in E; eauto; apply more; [assumption|cbn [harmless_line]; harmless_parts]|].
    destruct (MAX_WAGER <? x)%Z; [eapply IH in E; eauto; apply more; [assumption|cbn [harmless_line]; harmless_parts]|].
    destruct (credits <? x)%Z; [eapply IH in E; eauto; apply more; [assumption|cbn [harmless_line]; harmless_parts]|].
    injection E as _ <- <-. now split.
Qed.
Lemma swaps_harmless iter_order : forall lines out r lines' out', Forall harmless lines -> Forall harmless_line out ->
  get_swaps iter_order lines out = Ret (r, lines', out') -> Forall harmless_line out' /\ Forall harmless lines'.
Proof.
  induction lines as [|l lines IH]; intros out r lines' out' Hl Ho E.
  - cbn [get_swaps] in E. injection E as _ <- <-. split; [|constructor]. apply more; [assumption|].
    cbn [harmless_line swaps_message]. harmless_parts.
  - cbn [get_swaps] in E. inversion Hl as [|? ? H1 H2]; subst. clear Hl.
    assert (Forall harmless_line (out ++ [swaps_message])) as Hm
      by (apply more; [assumption|cbn [harmless_line swaps_message]; harmless_parts]).
    destruct (str_eqb l (lit "quit")); [injection E as _ <- <-; now split|].
    destruct (parse_all (split_whitespace l)) as [swaps|];
      [|eapply IH in E; eauto; apply more; [assumption|cbn [harmless_line]; harmless_parts]].
    destruct (negb (forallb _ swaps)); [eapply IH in E; eauto; apply more; [assumption|cbn [harmless_line]; harmless_parts]|].
    destruct (negb (Nat.leb _ _)); [eapply IH in E; eauto; apply more; [assumption|cbn [harmless_line]; harmless_parts]|].
    destruct (negb (all_inserted [] swaps)).
    + eapply IH in E; eauto; apply more; [assumption|]. cbn [harmless_line]. harmless_parts.
      apply join_harmless; [lit_harmless|]. apply flat_map_Forall. intros [z n]. cbn [fst snd].
      destruct (Nat.ltb 1 n); repeat constructor. apply harmless_dec.
    + destruct (mapM _ swaps) as [idx| |]; cbn [bind] in E; [|discriminate E..].
      injection E as _ <- <-. now split.
Qed.
Lemma ret_inj {A} (a b : A) : Ret a = Ret b -> a = b.
Proof. now injection 1. Qed.
Lemma ret_snd {A B} (a c : A) (b d : B) : Ret (a, b) = Ret (c, d) -> d = b.
Proof. now injection 1. Qed.
Lemma hand_harmless hand e text : show_hand hand e = Ret text -> harmless text.
Proof.
  unfold show_hand. intros H.
  destruct (index hand 0) as [c0| |]; cbn [bind] in H; [|discriminate H..].
  destruct (index hand 1) as [c1| |]; cbn [bind] in H; [|discriminate H..].
  destruct (index hand 2) as [c2| |]; cbn [bind] in H; [|discriminate H..].
  destruct (index hand 3) as [c3| |]; cbn [bind] in H; [|discriminate H..].
  destruct (index hand 4) as [c4| |]; cbn [bind] in H; [|discriminate H..].
  apply ret_inj in H. subst text.
  repeat match goal with |- harmless (_ ++ _) => apply harmless_app; split end;
    first [apply card_harmless | apply eval_harmless | lit_harmless].
Qed.

Lemma bind_ret {A B} (m : outcome A) (k : A -> outcome B) b : bind m k = Ret b -> exists a, m = Ret a /\ k a = Ret b.
Proof. destruct m; cbn [bind]; intros H; [eauto|discriminate H..]. Qed.

Lemma turn_harmless {R} gen iter_order ev (g : game R) t g' :
  Forall harmless (g_lines g) -> Forall harmless_line (g_out g) ->
  game_turn gen iter_order ev g = Ret (t, g') -> Forall harmless_line (g_out g') /\ Forall harmless (g_lines g').
Proof.
  intros Hl Ho E. unfold game_turn in E.
  destruct (get_wager (g_credits g) (g_lines g) (g_out g)) as [[w lines] out] eqn:W.
  apply wager_harmless in W; [|assumption..]. destruct W as [Wo Wl].
  destruct w as [wager|]; [|apply ret_snd in E; subst g'; now split].
  apply bind_ret in E. destruct E as [credits [_ E]].
  apply bind_ret in E. destruct E as [[dealt deck] [_ E]].
  apply bind_ret in E. destruct E as [r1 [_ E]].
  apply bind_ret in E. destruct E as [e1 [_ E]].
  apply bind_ret in E. destruct E as [text [Ht E]]. apply hand_harmless in Ht.
  apply bind_ret in E. destruct E as [[[a lines2] out2] [Hs E]].
  apply swaps_harmless in Hs;
    [|assumption|apply more; [apply more; [assumption|exact I]|cbn [harmless_line]; harmless_parts]].
  destruct Hs as [So Sl].
  destruct a as [swaps|]; [|apply ret_snd in E; subst g'; now split].
  apply bind_ret in E. destruct E as [[[deck2 hand2] rng2] [_ E]].
  apply bind_ret in E. destruct E as [r2 [_ E]].
  apply bind_ret in E. destruct E as [e2 [_ E]].
  apply bind_ret in E. destruct E as [text2 [Ht2 E]]. apply hand_harmless in Ht2.
  cbv zeta in E.
  apply bind_ret in E. destruct E as [winnings [_ E]].
  apply bind_ret in E. destruct E as [[credits2 ws] [Hw E]].
  assert (harmless_line ws) as Hws.
  { destruct (0 <? winnings)%Z.
    - apply bind_ret in Hw. destruct Hw as [b [_ Hw]]. apply bind_ret in Hw. destruct Hw as [c [_ Hw]].
      apply ret_snd in Hw. subst ws. cbn [harmless_line]. harmless_parts.
    - apply ret_snd in Hw. subst ws. cbn [harmless_line]. harmless_parts. }
  match type of E with context [match class_cmp ?a ?b with Eq => ?x | Lt => ?y | Gt => ?z end] =>
    assert (Forall harmless_line (match class_cmp a b with Eq => x | Lt => y | Gt => z end)) as Hc
      by (destruct (class_cmp a b); repeat (apply more; [|cbn [harmless_line]; harmless_parts]); assumption);
    set (out3 := match class_cmp a b with Eq => x | Lt => y | Gt => z end) in *
  end.
  destruct (credits2 =? 0)%Z.
  - apply ret_snd in E. subst g'. split; [|assumption]. cbn [g_out].
    apply more; [now apply more|cbn [harmless_line]; harmless_parts].
  - apply bind_ret in E. destruct E as [[deck3 rng3] [_ E]]. apply ret_snd in E. subst g'. split; [|assumption].
    cbn [g_out]. apply more; [now apply more|exact harmless_nil].
Qed.
Lemma loop_harmless {R} gen iter_order ev : forall fuel (g g' : game R),
  Forall harmless (g_lines g) -> Forall harmless_line (g_out g) ->
  game_loop gen iter_order ev fuel g = Ret g' -> Forall harmless_line (g_out g').
Proof.
  induction fuel as [|fuel IH]; intros g g' Hl Ho E; [discriminate E|]. cbn [game_loop] in E.
  apply bind_ret in E. destruct E as [[t g1] [T E]]. apply turn_harmless in T; [|assumption..].
  destruct T as [To Tl]. destruct t; [injection E as <-; assumption|]. eapply IH; eassumption.
Qed.
Theorem jacks_harmless {R} gen iter_order lines (rng : R) g : Forall harmless lines ->
  jacks_main gen iter_order lines rng = Ret g -> Forall harmless_line (g_out g).
Proof.
  intros Hl E. unfold jacks_main in E. apply bind_ret in E. destruct E as [[ev g0] [G E]].
  unfold game_start in G. apply bind_ret in G. destruct G as [ev' [_ G]].
  apply bind_ret in G. destruct G as [[deck rng'] [_ G]]. injection G as -> <-.
  eapply loop_harmless; [| |exact E]; cbn [snd g_lines g_out]; [assumption|].
  constructor; [exact I|]. constructor; [|constructor]. cbn [harmless_line]. lit_harmless.
Qed.

(** The words of a line and the error about one of them *)
Lemma pieces_harmless : forall s cur, harmless s -> harmless cur -> Forall harmless (split_whitespace_from cur s).
Proof.
  assert (forall cur rest, harmless cur -> Forall harmless rest -> Forall harmless (flush_piece cur rest)) as F.
  { intros cur rest H K. destruct cur as [|c cur]; [assumption|]. cbn [flush_piece]. constructor; [|assumption].
    intros I. apply H. now apply in_rev. }
  induction s as [|c s IH]; intros cur Hs Hc; cbn [split_whitespace_from]; [apply F; [assumption|constructor]|].
  apply harmless_cons in Hs. destruct Hs as [H1 H2].
  destruct (is_whitespace c); [apply F; [assumption|apply IH; [assumption|apply harmless_nil]]|].
  apply IH; [assumption|]. now apply harmless_cons.
Qed.
Lemma parse_error_harmless s e : harmless s -> card_from_str s = Err e -> harmless (parse_card_error_display e).
Proof.
  intros H E. unfold card_from_str in E.
  assert (e = InvalidLength s \/ exists c, In c s /\ (e = InvalidRank s c \/ e = InvalidSuit s c)) as K.
  { assert (forall c x, rank_try_from c = Err x -> x = c) as RT.
    { intros c x R. unfold rank_try_from in R.
      repeat (match type of R with context [match ?y with _ => _ end] => destruct y end;
              try discriminate R; try (now injection R)). }
    assert (forall c x, suit_try_from c = Err x -> x = c) as ST.
    { intros c x R. unfold suit_try_from in R.
      repeat (match type of R with context [match ?y with _ => _ end] => destruct y end;
              try discriminate R; try (now injection R)). }
    destruct s as [|a [|b [|c s]]]; try (left; now injection E).
    destruct (rank_try_from a) as [r|x] eqn:Ra.
    - destruct (suit_try_from b) as [u|x] eqn:Sb; [discriminate E|]. apply ST in Sb. subst x.
      injection E as <-. right. exists b. split; [right; now left|now right].
    - apply RT in Ra. subst x. injection E as <-. right. exists a. split; [now left|now left]. }
  destruct K as [->|[c [Ic [->| ->]]]]; cbn [parse_card_error_display];
    repeat match goal with |- harmless (_ ++ _) => apply harmless_app; split end;
    first [assumption | apply harmless_dec | lit_harmless | intros [->|[]]; now apply H].
Qed.
Lemma collect_harmless : forall rest acc e, Forall harmless rest ->
  try_collect_from rest acc = Err e -> harmless (parse_card_error_display e).
Proof.
  induction rest as [|s rest IH]; intros acc e H E; [discriminate E|]. cbn [try_collect_from] in E.
  inversion H; subst. destruct (card_from_str s) as [c|x] eqn:P; [eapply IH; eassumption|].
  injection E as <-. eapply parse_error_harmless; eassumption.
Qed.
Lemma eval_error_harmless iter_order e : harmless (eval_error_display iter_order e).
Proof.
  destruct e as [cards|n]; cbn [eval_error_display]; harmless_parts.
  apply join_harmless; [lit_harmless|]. apply flat_map_Forall. intros [c n]. cbn [fst snd].
  destruct (Nat.ltb 1 n); repeat constructor. unfold rank_suit_string.
  destruct (card_rank c), (card_suit c); lit_harmless.
Qed.
Lemma repl_loop_harmless {H} history iter_order ev : forall lines (h : H) out out',
  Forall harmless lines -> Forall harmless_line out ->
  repl_loop history iter_order ev lines h out = Ret out' -> Forall harmless_line out'.
Proof.
  induction lines as [|l lines IH]; intros h out out' Hl Ho E; [injection E as <-; assumption|].
  cbn [repl_loop] in E. inversion Hl as [|? ? H1 H2]; subst. clear Hl.
  apply bind_ret in E. destruct E as [h' [_ E]].
  destruct (str_eqb l (lit "help")).
  - eapply IH; [exact H2| |exact E]. apply more; [assumption|]. cbn [harmless_line]. lit_harmless.
  - destruct (str_eqb l (lit "quit")); [injection E as <-; assumption|].
    destruct (try_collect (cards_macro_text l)) as [cards|e] eqn:C.
    + apply bind_ret in E. destruct E as [r [_ E]].
      destruct r as [res|err]; (eapply IH; [exact H2| |exact E]); apply more; try assumption; cbn [harmless_line].
      * apply eval_harmless.
      * apply eval_error_harmless.
    + eapply IH; [exact H2| |exact E]. apply more; [assumption|]. cbn [harmless_line].
      eapply collect_harmless; [|exact C]. apply pieces_harmless; [assumption|apply harmless_nil].
Qed.
Theorem repl_harmless {H} history iter_order lines (h : H) out : Forall harmless lines ->
  repl_main history iter_order lines h = Ret out -> Forall harmless_line out.
Proof.
  intros Hl E. unfold repl_main in E. apply bind_ret in E. destruct E as [ev [_ E]].
  eapply repl_loop_harmless; [exact Hl| |exact E].
  constructor; [|constructor]. cbn [harmless_line]. lit_harmless.
Qed.

(** An escape sequence in the input comes back in the complaint about it. *)
Definition erasing_line : rstring := 27%N :: lit "[2J".
Theorem echo_erases iter_order colours : exists out,
  repl_main (fun h _ => Ok h) iter_order [erasing_line] tt = Ret out
  /\ ~ In Clear out /\ In Erased (snd (terminal Ground plain (flat_map (render colours) out))).
Proof.
  destruct evaluator_new_ret as [ev E]. unfold repl_main. rewrite E. cbn [bind].
  eexists. split; [reflexivity|]. split.
  - cbn. intros [K|[K|[]]]; discriminate K.
  - destruct colours; vm_compute; repeat (try (left; reflexivity); right); left; reflexivity.
Qed.

Lemma both_prompts colours :
  (forall c, In c (snd (terminal Ground plain (highlight_prompt colours JACKS_PROMPT true ++ highlight_prompt colours REPL_PROMPT true)))
             -> exists x, c = Shown x (mk_pen false false false (if colours then Some Green else None)))
  /\ flat_map (fun e => match e with Shown x _ => [x] | _ => [] end)
       (snd (terminal Ground plain (highlight_prompt colours JACKS_PROMPT true ++ highlight_prompt colours REPL_PROMPT true)))
     = lit ">>> poker> ".
Proof.
  destruct colours; (split; [|vm_compute; reflexivity]); intros c H; vm_compute in H;
    repeat (destruct H as [<-|H]; [eexists; reflexivity|]); destruct H.
Qed.
