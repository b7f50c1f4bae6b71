(** ReplFacts.v: examples/poker-repl.rs. *)
From Coq Require Import ListDec Lia List Arith Bool Permutation String ZArith.
From Verif Require Import Base BaseFacts ModelCard ModelEval ModelTable ModelEvaluation ModelExamples.
From Verif Require Import Spec SpecApi SpecText SpecExamples CardFacts ExamplesFacts.
From Verif Require HandFacts TextFacts DeckFacts ClassFacts LawFacts.
Import ListNotations.

(** The answer to a line. *)
Definition repl_answer (order : list (card * nat) -> list (card * nat)) (ev : evaluator)
    (line : rstring) : printed :=
  if str_eqb line (lit "help") then Line [BrightGreen; Bold] HELP
  else
    match try_collect (cards_macro_text line) with
    | Err e => Line [] (parse_card_error_display e)
    | Ok cards =>
        match evaluate ev cards with
        | Ret (Ok r) => Line (repl_style (eval_class_of r)) (eval_display r)
        | Ret (Err e) => Line [] (eval_error_display order e)
        | _ => Clear
        end
    end.

Lemma all_parsed words cs : map card_from_str words = map Ok cs ->
  all_cards cs /\ words = map card_text cs.
Proof.
  revert cs. induction words as [|w words IH]; intros [|c cs] E; try discriminate E.
  - split; [constructor|reflexivity].
  - cbn [map] in E. injection E as E1 E2. apply TextFacts.parse_ok_text in E1. destruct E1 as [A <-].
    destruct (IH cs E2) as [As ->]. split; [constructor; assumption|reflexivity].
Qed.

Lemma count_map_inj {A B} (f : A -> B) (da : forall a b : A, {a = b} + {a <> b})
    (db : forall a b : B, {a = b} + {a <> b}) l x :
  (forall y, In y l -> f y = f x -> y = x) ->
  count_occ db (map f l) (f x) = count_occ da l x.
Proof.
  induction l as [|y l IH]; intros H; [reflexivity|]. cbn [map count_occ].
  rewrite IH by (intros z Hz; apply H; right; exact Hz).
  destruct (da y x) as [D|D], (db (f y) (f x)) as [E|E]; try congruence.
  exfalso. apply D, (H y); [left; reflexivity|exact E].
Qed.

Lemma string_inj a b : a_card a -> a_card b -> card_text a = card_text b -> a = b.
Proof.
  intros Ha Hb E. pose proof (TextFacts.parse_text a Ha) as Pa.
  rewrite E, (TextFacts.parse_text b Hb) in Pa. congruence.
Qed.

Lemma repl_answer_correct order ev line : new_evaluator ev -> reorders order ->
  replies ev line (repl_answer order ev line).
Proof.
  intros Hev O. unfold repl_answer. destruct (str_eqb line (lit "help")) eqn:Eh.
  - apply str_eqb_eq in Eh. apply reply_help. exact Eh.
  - apply str_eqb_neq in Eh. unfold cards_macro_text.
    destruct (TextFacts.splits_exists line) as [words S].
    rewrite (TextFacts.splits_complete line words S).
    destruct (try_collect (parse_to_iter words)) as [cs|e] eqn:Ec.
    + apply TextFacts.try_collect_ok, all_parsed in Ec. destruct Ec as [A Ew].
      destruct (HandFacts.evaluate_total ev cs Hev A) as (r & Er & H1 & H2 & H3).
      rewrite Er. destruct (ListDec.NoDup_dec card_dec cs) as [N|N].
      * destruct (Nat.lt_ge_cases (List.length cs) 5) as [L|L].
        -- rewrite (H2 N L). eapply reply_few; eassumption.
        -- destruct (H3 N L) as [e He]. rewrite He in Er |- *.
           rewrite (LawFacts.eval_display_spec e).
           replace (repl_style (eval_class_of e)) with (look (category (eval_class_of e)))
             by (destruct (eval_class_of e); reflexivity).
           eapply reply_hand; [exact Eh|exact S|exact Ew| |exact Er]. split; [exact A|auto].
      * rewrite (H1 N).
        destruct (TextFacts.not_unique_display order cs O) as (dups & Nd & D & Et).
        rewrite Et. eapply (reply_repeated ev line words cs (map card_text dups));
          [exact Eh|exact S|exact Ew|exact A|exact N| |].
        -- assert (Ad : all_cards dups).
           { apply Forall_forall. intros c Hc. apply D in Hc. unfold all_cards in A.
             rewrite Forall_forall in A. apply A.
             apply (proj2 (count_occ_In card_dec cs c)). lia. }
           clear -Nd Ad. induction Nd as [|c dups Hc Nd IH]; [constructor|].
           inversion Ad as [|? ? Hca Had]; subst. cbn [map]. constructor; [|apply IH; exact Had].
           rewrite in_map_iff. intros (d & E & Hd). apply Hc.
           rewrite <- (string_inj d c); [exact Hd| |exact Hca|exact E].
           unfold all_cards in Had. rewrite Forall_forall in Had. apply Had. exact Hd.
        -- unfold all_cards in A. rewrite Forall_forall in A.
           assert (K : forall c, a_card c -> count_occ (list_eq_dec N.eq_dec) words (card_text c)
                                 = count_occ card_dec cs c).
           { intros c Hc. rewrite Ew. apply count_map_inj. intros y Hy E.
             apply string_inj; [apply A; exact Hy|exact Hc|exact E]. }
           intros w. rewrite in_map_iff. split.
           ++ intros (c & <- & Hc). apply D in Hc. rewrite K; [exact Hc|]. apply A.
              apply (proj2 (count_occ_In card_dec cs c)). lia.
           ++ intros Hw. assert (Iw : In w words).
              { apply (proj2 (count_occ_In (list_eq_dec N.eq_dec) words w)). lia. }
              rewrite Ew in Iw. apply in_map_iff in Iw. destruct Iw as (c & <- & Hc).
              exists c. split; [reflexivity|]. apply D. rewrite <- K; [exact Hw|]. apply A. exact Hc.
    + apply TextFacts.try_collect_err in Ec.
      destruct Ec as (pre & w & post & cs & -> & Ep & Ew). apply all_parsed in Ep.
      destruct Ep as [A ->]. eapply reply_not_a_card; [exact Eh|exact S|exact A|].
      apply TextFacts.error_message. exact Ew.
Qed.

Lemma repl_loop_correct {H} (history : H -> rstring -> result H unit) order ev :
  (forall h l, exists h', history h l = Ok h') -> new_evaluator ev ->
  forall lines h out, exists ls, until_quit lines ls
    /\ repl_loop history order ev lines h out = Ret (out ++ map (repl_answer order ev) ls).
Proof.
  intros Hh Hev. induction lines as [|l lines IH]; intros h out; cbn [repl_loop].
  - exists []. split; [constructor|]. rewrite app_nil_r. reflexivity.
  - destruct (Hh h l) as [h' Eh]. rewrite Eh. cbn [unwrap bind].
    destruct (str_eqb l (lit "help")) eqn:E1.
    + pose proof E1 as E1'. apply str_eqb_eq in E1'.
      destruct (IH h' (out ++ [Line [BrightGreen; Bold] HELP])) as (ls & U & E).
      exists (l :: ls). split; [apply until_line; [rewrite E1'; discriminate|exact U]|].
      assert (P : Line [BrightGreen; Bold] HELP = repl_answer order ev l)
        by (unfold repl_answer; rewrite E1; reflexivity).
      rewrite E, <- app_assoc, P. reflexivity.
    + destruct (str_eqb l (lit "quit")) eqn:E2.
      * apply str_eqb_eq in E2. subst l. exists []. split; [constructor|]. rewrite app_nil_r. reflexivity.
      * pose proof E2 as E2'. apply str_eqb_neq in E2'.
        assert (Go : forall p, p = repl_answer order ev l -> exists ls, until_quit (l :: lines) ls /\
            repl_loop history order ev lines h' (out ++ [p]) = Ret (out ++ map (repl_answer order ev) ls)).
        { intros p ->. destruct (IH h' (out ++ [repl_answer order ev l])) as (ls & U & E).
          exists (l :: ls). split; [apply until_line; assumption|].
          rewrite E, <- app_assoc. reflexivity. }
        unfold repl_answer in Go. rewrite E1 in Go. fold (repl_answer order ev) in Go.
        unfold cards_macro_text in *.
        destruct (try_collect (parse_to_iter (split_whitespace l))) as [cs|e] eqn:Ec.
        -- apply TextFacts.try_collect_ok, all_parsed in Ec. destruct Ec as [A _].
           destruct (HandFacts.evaluate_total ev cs Hev A) as (r & Er & _).
           rewrite Er in Go |- *. cbn [bind]. destruct r as [e|e]; apply Go; reflexivity.
        -- apply Go. reflexivity.
Qed.

Theorem repl_correct {H} (history : H -> rstring -> result H unit) order :
  (forall h l, exists h', history h l = Ok h') -> reorders order ->
  exists ev answer, new_evaluator ev /\ (forall l, replies ev l (answer l))
    /\ forall lines h, exists ls, until_quit lines ls
       /\ repl_main history order lines h
          = Ret (Line [BrightGreen; Bold] repl_welcome :: map answer ls).
Proof.
  intros Hh O. destruct HandFacts.evaluator_new_ret as [ev Hev].
  exists ev, (repl_answer order ev). split; [exact Hev|].
  split; [intros l; apply repl_answer_correct; assumption|]. intros lines h.
  destruct (repl_loop_correct history order ev Hh Hev lines h [Line [BrightGreen; Bold] repl_welcome])
    as (ls & U & E).
  exists ls. split; [exact U|]. unfold repl_main. unfold new_evaluator in Hev. rewrite Hev.
  cbn [bind]. exact E.
Qed.
