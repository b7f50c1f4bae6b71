(** MacroFacts.v: the macros accept the documented forms and nothing else. *)
From Coq Require Import Lia String List Arith.
From Verif Require Import Base ModelCard ModelMacros Spec SpecApi SpecText SpecDebug SpecMacros TextFacts.
Import ListNotations.
Local Open Scope string_scope.
Local Open Scope list_scope.

(** ** Names *)
Lemma rank_named x r : named rank_names x = Some r <-> x = Rank_ r.
Proof.
  split.
  - unfold named. intros H. destruct (find _ rank_names) as [[n r']|] eqn:E; [|discriminate H].
    injection H as ->. apply find_some in E. destruct E as [I E]. apply String.eqb_eq in E. cbn [fst] in E. subst n.
    cbn [rank_names In] in I.
    repeat (destruct I as [I|I]; [injection I as <- <-; reflexivity|]). contradiction I.
  - intros ->. destruct r; reflexivity.
Qed.
Lemma suit_named x s : named suit_names x = Some s <-> x = Suit_ s.
Proof.
  split.
  - unfold named. intros H. destruct (find _ suit_names) as [[n s']|] eqn:E; [|discriminate H].
    injection H as ->. apply find_some in E. destruct E as [I E]. apply String.eqb_eq in E. cbn [fst] in E. subst n.
    cbn [suit_names In] in I.
    repeat (destruct I as [I|I]; [injection I as <- <-; reflexivity|]). contradiction I.
  - intros ->. destruct s; reflexivity.
Qed.
Lemma new_named x y c : new_of_names x y = Some c <-> exists r s, x = Rank_ r /\ y = Suit_ s /\ c = card_new r s.
Proof.
  unfold new_of_names. split.
  - destruct (named rank_names x) as [r|] eqn:R; [|discriminate].
    destruct (named suit_names y) as [s|] eqn:S0; [|discriminate]. intros H. injection H as <-.
    exists r, s. split; [exact (proj1 (rank_named x r) R)|]. split; [exact (proj1 (suit_named y s) S0)|reflexivity].
  - intros [r [s [-> [-> ->]]]]. rewrite (proj2 (rank_named _ r) eq_refl), (proj2 (suit_named _ s) eq_refl). reflexivity.
Qed.
Lemma text_stands env e s : is_expr e = true -> (text_of env e = Some s <-> stands env e s).
Proof.
  intros X. destruct e as [x|t|n| |]; try discriminate X; cbn [text_of]; split; intros H.
  - constructor. exact H.
  - inversion H. assumption.
  - injection H as ->. constructor.
  - inversion H. reflexivity.
  - constructor. exact H.
  - inversion H. assumption.
Qed.
Lemma stands_expr env e s : stands env e s -> is_expr e = true.
Proof. intros H. destruct H; reflexivity. Qed.
Lemma all_some_spec {A B} (f : A -> option B) : forall l m, all_some (map f l) = Some m <-> Forall2 (fun x y => f x = Some y) l m.
Proof.
  induction l as [|x l IH]; intros m; cbn [map all_some].
  - split; [intros H; injection H as <-; constructor|intros H; inversion H; reflexivity].
  - split.
    + destruct (f x) as [y|] eqn:E; [|discriminate]. destruct (all_some (map f l)) as [m'|] eqn:E'; [|discriminate].
      intros H. injection H as <-. constructor; [exact E|]. apply IH. reflexivity.
    + intros H. inversion H as [|x' y l' m' E H']; subst. rewrite E, (proj2 (IH m') H'). reflexivity.
Qed.

(** ** Patterns *)
Definition semi_item (p : string * string) : list token := [Ident (fst p); Comma; Ident (snd p)].
Definition of_item (p : string * string) : list token := [Ident (fst p); Ident "of"; Ident (snd p)].
Definition expr_item (e : token) : list token := [e].
Lemma semis_spec : forall n ts, length ts <= n -> forall l, match_semis ts = Some l -> separated Semi (map semi_item l) ts.
Proof.
  induction n as [|n IH]; intros ts L l H.
  - destruct ts; [discriminate H|]. cbn in L. lia.
  - destruct ts as [|[r| | | |] [|[| | | |] [|[s| | | |] rest]]]; try discriminate H. cbn [match_semis] in H.
    destruct rest as [|[| | | |] [|t rest]]; try discriminate H.
    + injection H as <-. apply (separated_last Semi (semi_item (r, s))).
    + injection H as <-. apply (separated_trailing Semi (semi_item (r, s))).
    + destruct (match_semis (t :: rest)) as [l'|] eqn:E; [|discriminate H]. injection H as <-.
      apply (separated_more Semi (semi_item (r, s)) (map semi_item l') (t :: rest)). apply IH; [|exact E].
      cbn [length] in L |- *. lia.
Qed.
Lemma ofs_spec : forall n ts, length ts <= n -> forall l, match_ofs ts = Some l -> separated Comma (map of_item l) ts.
Proof.
  induction n as [|n IH]; intros ts L l H.
  - destruct ts; [discriminate H|]. cbn in L. lia.
  - destruct ts as [|[r| | | |] [|[o| | | |] [|[s| | | |] rest]]]; try discriminate H. cbn [match_ofs] in H.
    destruct (String.eqb_spec o "of") as [->|]; [|discriminate H].
    destruct rest as [|[| | | |] [|t rest]]; try discriminate H.
    + injection H as <-. apply (separated_last Comma (of_item (r, s))).
    + injection H as <-. apply (separated_trailing Comma (of_item (r, s))).
    + destruct (match_ofs (t :: rest)) as [l'|] eqn:E; [|discriminate H]. injection H as <-.
      apply (separated_more Comma (of_item (r, s)) (map of_item l') (t :: rest)). apply IH; [|exact E].
      cbn [length] in L |- *. lia.
Qed.
Lemma exprs_spec : forall n ts, length ts <= n -> forall l, match_exprs ts = Some l ->
  separated Comma (map expr_item l) ts /\ Forall (fun e => is_expr e = true) l.
Proof.
  induction n as [|n IH]; intros ts L l H.
  - destruct ts; [discriminate H|]. cbn in L. lia.
  - destruct ts as [|e rest]; [discriminate H|]. cbn [match_exprs] in H. destruct (is_expr e) eqn:X; [|discriminate H].
    destruct rest as [|[| | | |] [|t rest]]; try discriminate H.
    + injection H as <-. split; [apply (separated_last Comma (expr_item e))|repeat constructor; exact X].
    + injection H as <-. split; [apply (separated_trailing Comma (expr_item e))|repeat constructor; exact X].
    + destruct (match_exprs (t :: rest)) as [l'|] eqn:E; [|discriminate H]. injection H as <-.
      destruct (IH (t :: rest)) with (l := l') as [S0 F]; [cbn [length] in L |- *; lia|exact E|].
      split; [|constructor; [exact X|exact F]].
      apply (separated_more Comma (expr_item e) (map expr_item l') (t :: rest)). exact S0.
Qed.
Lemma separated_not_nil sep items ts : separated sep items ts -> Forall (fun i => i <> []) items -> ts <> [].
Proof.
  intros H F. destruct H as [i|i|i l ts H].
  - inversion F. assumption.
  - destruct i; discriminate.
  - destruct i; discriminate.
Qed.
Lemma separated_items sep items ts : separated sep items ts -> items <> [].
Proof. intros H. destruct H; discriminate. Qed.
Lemma semis_found : forall l ts, separated Semi (map semi_item l) ts -> match_semis ts = Some l.
Proof.
  induction l as [|[r s] l IH]; intros ts H; [exfalso; exact (separated_items _ _ _ H eq_refl)|].
  cbn [map] in H. inversion H as [i E1 E2|i E1 E2|i l' ts' H' E1 E2].
  - destruct l; [|discriminate]. reflexivity.
  - destruct l; [|discriminate]. reflexivity.
  - subst i l'. cbn [semi_item fst snd app match_semis]. rewrite (IH ts' H').
    destruct ts' as [|t ts']; [|reflexivity]. exfalso.
    apply (separated_not_nil _ _ _ H'); [|reflexivity]. apply Forall_forall. intros i I. apply in_map_iff in I.
    destruct I as [p [<- _]]. discriminate.
Qed.
Lemma ofs_found : forall l ts, separated Comma (map of_item l) ts -> match_ofs ts = Some l.
Proof.
  induction l as [|[r s] l IH]; intros ts H; [exfalso; exact (separated_items _ _ _ H eq_refl)|].
  cbn [map] in H. inversion H as [i E1 E2|i E1 E2|i l' ts' H' E1 E2].
  - destruct l; [|discriminate]. reflexivity.
  - destruct l; [|discriminate]. reflexivity.
  - subst i l'. cbn [of_item fst snd app match_ofs]. rewrite (IH ts' H').
    destruct ts' as [|t ts']; [|reflexivity]. exfalso.
    apply (separated_not_nil _ _ _ H'); [|reflexivity]. apply Forall_forall. intros i I. apply in_map_iff in I.
    destruct I as [p [<- _]]. discriminate.
Qed.
Lemma exprs_found : forall l ts, separated Comma (map expr_item l) ts -> Forall (fun e => is_expr e = true) l ->
  match_exprs ts = Some l.
Proof.
  induction l as [|e l IH]; intros ts H F; [exfalso; exact (separated_items _ _ _ H eq_refl)|].
  apply Forall_cons_iff in F. destruct F as [X F].
  cbn [map] in H. inversion H as [i E1 E2|i E1 E2|i l' ts' H' E1 E2].
  - destruct l; [|discriminate]. cbn [expr_item match_exprs]. rewrite X. reflexivity.
  - destruct l; [|discriminate]. cbn [expr_item app match_exprs]. rewrite X. reflexivity.
  - subst i l'. cbn [expr_item app match_exprs]. rewrite X, (IH ts' H' F).
    destruct ts' as [|t ts']; [|reflexivity]. exfalso.
    apply (separated_not_nil _ _ _ H'); [|reflexivity]. apply Forall_forall. intros i I. apply in_map_iff in I.
    destruct I as [p [<- _]]. discriminate.
Qed.
Lemma two_found e l ts : match_two_or_more ts = Some (e, l) <->
  separated Comma (map expr_item (e :: l)) ts /\ Forall (fun e => is_expr e = true) (e :: l) /\ l <> [].
Proof.
  split.
  - intros H. destruct ts as [|e' [|[| | | |] rest]]; try discriminate H. cbn [match_two_or_more] in H.
    destruct (is_expr e') eqn:X; [|discriminate H]. destruct (match_exprs rest) as [l'|] eqn:E; [|discriminate H].
    injection H as -> ->. destruct (exprs_spec (length rest) rest (le_n _) l E) as [S0 F].
    split; [apply (separated_more Comma (expr_item e)); exact S0|]. split; [constructor; assumption|].
    intros ->. exact (separated_items _ _ _ S0 eq_refl).
  - intros [H [F N0]]. apply Forall_cons_iff in F. destruct F as [X F].
    cbn [map] in H. inversion H as [i E1 E2|i E1 E2|i l' ts' H' E1 E2].
    + destruct l; [contradiction (N0 eq_refl)|discriminate].
    + destruct l; [contradiction (N0 eq_refl)|discriminate].
    + subst i l'. cbn [expr_item app match_two_or_more]. rewrite X, (exprs_found l ts' H' F). reflexivity.
Qed.
Lemma semis_separated l : l <> [] -> separated Semi (map semi_item l) (semis l).
Proof.
  induction l as [|[r s] l IH]; intros N0; [contradiction (N0 eq_refl)|].
  destruct l as [|p l]; [exact (separated_last Semi (semi_item (r, s)))|].
  apply (separated_more Semi (semi_item (r, s)) _ _). apply IH. discriminate.
Qed.

(** ** [card!] *)
Lemma card_plain limit env r s : card_macro (S limit) env [Ident r; Comma; Ident s] = option_map VCard (new_of_names r s).
Proof. reflexivity. Qed.
Theorem card_macro_forms limit env ts v : 2 <= limit -> (card_macro limit env ts = Some v <-> card_form env ts v).
Proof.
  intros L. destruct limit as [|[|limit]]; [lia|lia|]. split.
  - intros H.
    assert (P : forall r s, option_map VCard (new_of_names r s) = Some v ->
              exists p, Ident r = rank_token (fst p) /\ Ident s = suit_token (snd p) /\ v = VCard (card_new (fst p) (snd p))).
    { intros r s E. destruct (new_of_names r s) as [c|] eqn:Q; [|discriminate E]. injection E as <-.
      apply new_named in Q. destruct Q as [a [b [-> [-> ->]]]]. exists (a, b). repeat split. }
    assert (Q : match_of ts = None -> (forall r s, ts <> [Ident r; Comma; Ident s]) ->
              match match_expr ts with Some e => option_map (fun s => VResult (card_from_str s)) (text_of env e) | None => None end = Some v ->
              card_form env ts v).
    { intros _ _ E. destruct ts as [|e [|]]; try discriminate E. cbn [match_expr] in E.
      destruct (is_expr e) eqn:X; [|discriminate E]. destruct (text_of env e) as [s|] eqn:T; [|discriminate E].
      injection E as <-. apply form_text. exact (proj1 (text_stands env e s X) T). }
    destruct ts as [|a [|b [|c [|d ts]]]].
    + discriminate H.
    + apply Q; [destruct a; reflexivity|discriminate|]. destruct a; exact H.
    + destruct a; try discriminate H; destruct b; discriminate H.
    + destruct a as [r| | | |]; try discriminate H. destruct b as [o| | | |]; try discriminate H.
      * destruct c as [s| | | |]; try discriminate H. cbn [card_macro match_of] in H.
        destruct (String.eqb_spec o "of") as [->|]; [|discriminate H].
        destruct (P r s H) as [p [-> [-> ->]]]. apply (form_of env p).
      * destruct c as [s| | | |]; try discriminate H. rewrite card_plain in H.
        destruct (P r s H) as [p [-> [-> ->]]]. apply (form_plain env p).
    + destruct a as [r| | | |]; try discriminate H; destruct b as [o| | | |]; try discriminate H;
        destruct c; discriminate H.
  - intros H. destruct H as [[r s]|[r s]|e t H].
    + unfold plain_card, rank_token, suit_token. cbn [fst snd]. rewrite card_plain.
      rewrite (proj2 (new_named _ _ (card_new r s))); [reflexivity|]. exists r, s. auto.
    + unfold of_card, rank_token, suit_token. cbn [fst snd].
      change (card_macro (S (S limit)) env [Ident (Rank_ r); Ident "of"; Ident (Suit_ s)])
        with (option_map VCard (new_of_names (Rank_ r) (Suit_ s))).
      rewrite (proj2 (new_named _ _ (card_new r s))); [reflexivity|]. exists r, s. auto.
    + pose proof (stands_expr env e t H) as X.
      assert (E : card_macro (S (S limit)) env [e] = option_map (fun s => VResult (card_from_str s)) (text_of env e))
        by (destruct e; try discriminate X; reflexivity).
      rewrite E, (proj2 (text_stands env e t X) H). reflexivity.
Qed.

(** ** [cards!] *)
Definition names_of (p : rank * suit) : string * string := (Rank_ (fst p), Suit_ (snd p)).
Lemma element_spec limit env p c : element (S limit) env p = Some c <->
  exists q, p = names_of q /\ c = card_new (fst q) (snd q).
Proof.
  unfold element. rewrite card_plain. destruct p as [x y]. cbn [fst snd]. split.
  - destruct (new_of_names x y) as [d|] eqn:E; [|discriminate]. cbn [option_map]. intros H. injection H as <-.
    apply new_named in E. destruct E as [r [s [-> [-> ->]]]]. exists (r, s). split; reflexivity.
  - intros [[r s] [E ->]]. injection E as -> ->. cbn [fst snd].
    rewrite (proj2 (new_named _ _ (card_new r s))); [reflexivity|]. exists r, s. auto.
Qed.
Lemma elements_spec limit env l cards : all_some (map (element (S limit) env) l) = Some cards <->
  exists q, l = map names_of q /\ cards = map (fun p => card_new (fst p) (snd p)) q.
Proof.
  rewrite all_some_spec. split.
  - induction 1 as [|p c l cards E _ [q [-> ->]]]; [exists []; split; reflexivity|].
    apply element_spec in E. destruct E as [p' [-> ->]]. exists (p' :: q). split; reflexivity.
  - intros [q [-> ->]]. induction q as [|p q IH]; [constructor|]. cbn [map]. constructor; [|exact IH].
    apply element_spec. exists p. split; reflexivity.
Qed.
Lemma array_semis limit env ts v : match_semis ts <> None ->
  (cards_macro (S (S limit)) env ts = Some v <->
   exists q, separated Semi (map plain_card q) ts /\ v = VArray (map (fun p => card_new (fst p) (snd p)) q)).
Proof.
  intros N0. destruct (match_semis ts) as [l|] eqn:E; [clear N0|contradiction (N0 eq_refl)].
  assert (R : cards_macro (S (S limit)) env ts = option_map VArray (all_some (map (element (S limit) env) l)))
    by (cbn [cards_macro]; rewrite E; reflexivity).
  rewrite R. split.
  - destruct (all_some _) as [cards|] eqn:A; [|discriminate]. intros H. injection H as <-.
    apply elements_spec in A. destruct A as [q [-> ->]]. exists q. split; [|reflexivity].
    pose proof (semis_spec (length ts) ts (le_n _) _ E) as S0. rewrite map_map in S0. exact S0.
  - intros [q [S0 ->]]. assert (M : match_semis ts = Some (map names_of q)).
    { apply semis_found. rewrite map_map. exact S0. }
    rewrite M in E. injection E as <-.
    rewrite (proj2 (elements_spec limit env (map names_of q) (map (fun p => card_new (fst p) (snd p)) q))); [reflexivity|]. exists q. split; reflexivity.
Qed.
Lemma map_plain q : map semi_item (map names_of q) = map plain_card q.
Proof. rewrite map_map. reflexivity. Qed.
Lemma map_of q : map of_item (map names_of q) = map of_card q.
Proof. rewrite map_map. reflexivity. Qed.
(** A list of expressions is a list of ranks and suits only in one case. *)
Lemma exprs_semis es ts l : separated Comma (map expr_item es) ts -> Forall (fun e => is_expr e = true) es ->
  match_semis ts = Some l -> two_names ts.
Proof.
  intros H F E. pose proof (semis_spec (length ts) ts (le_n _) l E) as S0. clear E.
  destruct l as [|[r s] l]; [exfalso; exact (separated_items _ _ _ S0 eq_refl)|].
  assert (B : ~ In Semi ts).
  { clear S0. remember (map expr_item es) as items eqn:I. revert es F I. induction H as [i|i|i l' ts H IH]; intros es F I.
    - destruct es as [|e [|]]; try discriminate I. injection I as ->. apply Forall_cons_iff in F. destruct F as [X _].
      intros [Y|[]]. subst e. discriminate X.
    - destruct es as [|e [|]]; try discriminate I. injection I as ->. apply Forall_cons_iff in F. destruct F as [X _].
      intros [Y|[Y|[]]]; [subst e; discriminate X|discriminate Y].
    - destruct es as [|e es]; try discriminate I. injection I as -> I. apply Forall_cons_iff in F. destruct F as [X F].
      intros [Y|[Y|Y]]; [subst e; discriminate X|discriminate Y|exact (IH es F I Y)]. }
  cbn [map] in S0. inversion S0 as [i E1 E2|i E1 E2|i l' ts' H' E1 E2].
  - exists r, s. reflexivity.
  - exfalso. apply B. rewrite <- E2. apply in_or_app. right. left. reflexivity.
  - exfalso. apply B. rewrite <- E2. apply in_or_app. right. left. reflexivity.
Qed.
Lemma exprs_ofs es ts : separated Comma (map expr_item es) ts -> match_ofs ts = None.
Proof.
  intros H. destruct es as [|e es]; [exfalso; exact (separated_items _ _ _ H eq_refl)|].
  cbn [map] in H. inversion H as [i E1 E2|i E1 E2|i l' ts' H' E1 E2]; cbn [expr_item app];
    destruct e; reflexivity.
Qed.
Lemma Forall2_stands env es l : Forall (fun e => is_expr e = true) es ->
  (Forall2 (fun e s => text_of env e = Some s) es l <-> Forall2 (stands env) es l).
Proof.
  intros F. split; intros H.
  - induction H as [|e s es l E _ IH]; [constructor|]. apply Forall_cons_iff in F. destruct F as [X F].
    constructor; [exact (proj1 (text_stands env e s X) E)|exact (IH F)].
  - induction H as [|e s es l E _ IH]; [constructor|]. apply Forall_cons_iff in F. destruct F as [X F].
    constructor; [exact (proj2 (text_stands env e s X) E)|exact (IH F)].
Qed.
Lemma stands_exprs env es l : Forall2 (stands env) es l -> Forall (fun e => is_expr e = true) es.
Proof. induction 1 as [|e s es l E _ IH]; constructor; [exact (stands_expr _ _ _ E)|exact IH]. Qed.
Lemma same_length {A B} (R : A -> B -> Prop) l m : Forall2 R l m -> length l = length m.
Proof. induction 1; cbn [length]; congruence. Qed.
Theorem cards_macro_forms limit env ts v : 3 <= limit -> (cards_macro limit env ts = Some v <-> cards_form env ts v).
Proof.
  intros L. destruct limit as [|[|[|limit]]]; [lia|lia|lia|].
  destruct (match_semis ts) as [l|] eqn:E1.
  { rewrite array_semis by (rewrite E1; discriminate). split.
    - intros [q [S0 ->]]. exact (form_plains env q ts S0).
    - intros H. destruct H as [q ts S0|q ts S0|es t ts S0 T N0 X|e s words T W].
      + exists q. split; [exact S0|reflexivity].
      + exfalso. destruct q as [|[r s] q]; [exact (separated_items _ _ _ S0 eq_refl)|].
        cbn [map] in S0. inversion S0 as [i Y1 Y2|i Y1 Y2|i l' ts' H' Y1 Y2]; subst ts; discriminate E1.
      + exfalso. exact (X (exprs_semis es ts l S0 (stands_exprs _ _ _ T) E1)).
      + destruct e; discriminate E1. }
  destruct (match_ofs ts) as [l|] eqn:E2.
  { assert (R : cards_macro (S (S (S limit))) env ts = cards_macro (S (S limit)) env (semis l)).
    { change (cards_macro (S (S (S limit))) env ts) with
        (match match_semis ts with
         | Some l => option_map VArray (all_some (map (element (S (S limit)) env) l))
         | None => match match_ofs ts with
           | Some l => cards_macro (S (S limit)) env (semis l)
           | None => match match_two_or_more ts with
             | Some (e, l) => option_map (fun l => VIter (cards_macro_strings l)) (all_some (map (text_of env) (e :: l)))
             | None => match match_expr ts with
               | Some e => option_map (fun s => VIter (cards_macro_text s)) (text_of env e)
               | None => None end end end end).
      rewrite E1, E2. reflexivity. }
    pose proof (ofs_spec (length ts) ts (le_n _) l E2) as S0.
    assert (N0 : l <> []) by (intros ->; exact (separated_items _ _ _ S0 eq_refl)).
    pose proof (semis_found l (semis l) (semis_separated l N0)) as M.
    rewrite R, array_semis by (rewrite M; discriminate). split.
    - intros [q [Q ->]]. rewrite <- map_plain in Q. apply semis_found in Q. rewrite M in Q. injection Q as ->.
      rewrite map_of in S0. exact (form_ofs env q ts S0).
    - intros H. destruct H as [q ts Q|q ts Q|es t ts Q T X Y|e s words T W].
      + exfalso. rewrite <- map_plain in Q. rewrite (semis_found _ _ Q) in E1. discriminate E1.
      + exists q. split; [|reflexivity]. rewrite <- map_of in Q. rewrite (ofs_found _ _ Q) in E2. injection E2 as <-.
        rewrite <- map_plain. apply semis_separated. exact N0.
      + exfalso. rewrite (exprs_ofs es ts Q) in E2. discriminate E2.
      + destruct e; discriminate E2. }
  assert (R : cards_macro (S (S (S limit))) env ts =
    match match_two_or_more ts with
    | Some (e, l) => option_map (fun l => VIter (cards_macro_strings l)) (all_some (map (text_of env) (e :: l)))
    | None => match match_expr ts with
      | Some e => option_map (fun s => VIter (cards_macro_text s)) (text_of env e)
      | None => None end end).
  { cbn [cards_macro]. rewrite E1, E2. reflexivity. }
  rewrite R. clear R. split.
  - destruct (match_two_or_more ts) as [[e l]|] eqn:E3.
    + apply two_found in E3. destruct E3 as [S0 [F N0]].
      destruct (all_some _) as [t|] eqn:A; [|discriminate]. intros H. injection H as <-.
      apply all_some_spec in A. pose proof (same_length _ _ _ A) as Len. apply (Forall2_stands env _ _ F) in A.
      apply (form_texts env (e :: l) t ts S0 A).
      * rewrite <- Len. destruct l; [contradiction (N0 eq_refl)|]. cbn [length]. lia.
      * intros [x [y ->]]. discriminate E1.
    + destruct ts as [|e [|]]; try discriminate. cbn [match_expr]. destruct (is_expr e) eqn:X; [|discriminate].
      destruct (text_of env e) as [s|] eqn:T; [|discriminate]. intros H. injection H as <-.
      apply (form_words env e s); [exact (proj1 (text_stands env e s X) T)|]. apply split_whitespace_spec. reflexivity.
  - intros H. destruct H as [q ts Q|q ts Q|es t ts Q T X Y|e s words T W].
    + exfalso. rewrite <- map_plain in Q. rewrite (semis_found _ _ Q) in E1. discriminate E1.
    + exfalso. rewrite <- map_of in Q. rewrite (ofs_found _ _ Q) in E2. discriminate E2.
    + pose proof (stands_exprs _ _ _ T) as F. pose proof (same_length _ _ _ T) as Len.
      destruct es as [|e [|e' es]]; [cbn in Len; lia|cbn in Len; lia|].
      rewrite (proj2 (two_found e (e' :: es) ts)) by (split; [exact Q|]; split; [exact F|discriminate]).
      rewrite (proj2 (all_some_spec (text_of env) _ t)); [reflexivity|]. apply (Forall2_stands env _ _ F). exact T.
    + pose proof (stands_expr _ _ _ T) as X. cbn [match_two_or_more match_expr]. rewrite X.
      rewrite (proj2 (text_stands env e s X) T). apply split_whitespace_spec in W. rewrite <- W. reflexivity.
Qed.

(** ** [box_cards!] *)
Theorem box_cards_macro_forms slices ts l : box_cards_macro slices ts = Some l <-> box_form slices ts l.
Proof.
  unfold box_cards_macro. split.
  - destruct (match_two_or_more ts) as [[e es]|] eqn:E; [|discriminate]. apply two_found in E. destruct E as [S0 [F N0]].
    destruct (slices e) as [first|] eqn:A; [|discriminate]. destruct (all_some (map slices es)) as [others|] eqn:B; [|discriminate].
    intros H. injection H as <-. apply all_some_spec in B. rewrite box_cards_concat.
    apply (form_box slices (e :: es) (first :: others) ts S0).
    + apply Forall_cons_iff in F. destruct F as [X F]. constructor; [destruct e; try discriminate X; repeat split; try discriminate; exact A|].
      clear - B F. induction B as [|x y es others E _ IH]; [constructor|]. apply Forall_cons_iff in F. destruct F as [X F].
      constructor; [destruct x; try discriminate X; repeat split; try discriminate; exact E|exact (IH F)].
    + apply same_length in B. destruct es; [contradiction (N0 eq_refl)|]. cbn [length] in B |- *. lia.
  - intros H. destruct H as [es m ts S0 F L].
    destruct F as [|e first es others [X1 [X2 E]] F]; [cbn in L; lia|].
    assert (X : is_expr e = true) by (destruct e; try reflexivity; congruence).
    assert (G : Forall (fun e => is_expr e = true) es /\ Forall2 (fun x y => slices x = Some y) es others).
    { clear - F. induction F as [|x y es others [X1 [X2 E]] _ [G1 G2]]; split; constructor; try assumption.
      destruct x; try reflexivity; congruence. }
    destruct G as [G1 G2].
    rewrite (proj2 (two_found e es ts)).
    + rewrite E, (proj2 (all_some_spec slices es others) G2), box_cards_concat. reflexivity.
    + split; [exact S0|]. split; [constructor; assumption|].
      intros ->. inversion G2. subst. cbn in L. lia.
Qed.

(** ** Two quirks of [cards!] *)
Theorem two_variables limit env x y s t : 3 <= limit -> env (Ident x) = Some s -> env (Ident y) = Some t ->
  (forall it, cards_macro limit env [Ident x; Comma; Ident y] <> Some (VIter it))
  /\ cards_macro limit env [Ident x; Comma; Ident y; Comma] = Some (VIter (parse_to_iter [s; t])).
Proof.
  intros L X Y. split.
  - intros it H. apply (cards_macro_forms limit env _ _ L) in H. inversion H; subst.
    match goal with N0 : ~ two_names _ |- _ => apply N0 end. exists x, y. reflexivity.
  - apply (cards_macro_forms limit env _ _ L). apply (form_texts env [Ident x; Ident y]).
    + exact (separated_more Comma [Ident x] [[Ident y]] _ (separated_trailing Comma [Ident y])).
    + repeat constructor; assumption.
    + repeat constructor.
    + intros [a [b E]]. discriminate E.
Qed.
Theorem no_form limit env e : 3 <= limit -> cards_macro limit env [e; Comma] = None /\ cards_macro limit env [] = None.
Proof.
  intros L. destruct limit as [|limit]; [lia|]. split; [|reflexivity]. destruct e; reflexivity.
Qed.
