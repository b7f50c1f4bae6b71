(** FormatFacts.v: formatting with options and failing writers. *)
From Coq Require Import Lia List String ZArith NArith Bool Arith.
From Verif Require Import Base BaseFacts ModelCard ModelEval ModelDebug ModelDebugText ModelDebugTree ModelFormat SpecFormat.
From Verif Require DebugTreeFacts.
Import ListNotations.
Local Open Scope string_scope.
Local Open Scope list_scope.

(** ** Feeding a writer *)
Lemma feed_app {W} (wr : writer W) a b w : feed wr (a ++ b) w = and_then (feed wr a) (feed wr b) w.
Proof.
  revert w. induction a as [|c a IH]; intros w; [reflexivity|]. cbn [app feed]. unfold and_then. cbn [feed].
  destruct (wr w c) as [w' [|]]; [|reflexivity]. rewrite IH. reflexivity.
Qed.
Lemma said_app a b : said (a ++ b) = said a ++ said b.
Proof. induction a as [|[s|c] a IH]; [reflexivity| |]; cbn [app said]; rewrite IH, ?app_assoc; reflexivity. Qed.
Lemma said_one c : said [c] = chunk_text c.
Proof. destruct c; cbn [said chunk_text]; rewrite ?app_nil_r; reflexivity. Qed.

(** What is handed over, as a list of pieces. *)
Definition hands (a : forall W, writer W -> attempt W) (cs : list chunk) : Prop :=
  forall W (wr : writer W) w, a W wr w = feed wr cs w.
Lemma hands_writes a cs text : hands a cs -> said cs = text -> writes a text.
Proof. intros H E. exists cs. split; [exact E|exact H]. Qed.
Lemma writes_ext a b text : (forall W (wr : writer W) w, a W wr w = b W wr w) -> writes a text -> writes b text.
Proof. intros E (cs & S & H). exists cs. split; [exact S|]. intros W wr w. rewrite <- E. apply H. Qed.
Lemma writes_done : writes (fun W wr => done) [].
Proof. exists []. split; [reflexivity|]. reflexivity. Qed.
Lemma writes_put c : writes (fun W wr => put wr c) (chunk_text c).
Proof.
  exists [c]. split; [apply said_one|]. intros W wr w. unfold put. cbn [feed]. destruct (wr w c) as [w' [|]]; reflexivity.
Qed.
Lemma and_then_ext {W} (a b c d : attempt W) w : (forall w, a w = b w) -> (forall w, c w = d w) -> and_then a c w = and_then b d w.
Proof. intros E F. unfold and_then. rewrite E. destruct (b w) as [w' [|]]; [apply F|reflexivity]. Qed.
Lemma writes_and a b s t : writes a s -> writes b t -> writes (fun W wr => and_then (a W wr) (b W wr)) (s ++ t).
Proof.
  intros (cs & S & H) (ds & T & K). exists (cs ++ ds). split; [rewrite said_app, S, T; reflexivity|].
  intros W wr w. rewrite feed_app. apply and_then_ext; [apply H|apply K].
Qed.
Lemma writes_fills c n : writes (fun W wr => fills wr c n) (repeat c n).
Proof.
  induction n as [|n IH]; [exact writes_done|]. change (repeat c (S n)) with ([c] ++ repeat c n).
  exact (writes_and _ _ _ _ (writes_put (Chr c)) IH).
Qed.

(** ** Numbers and texts *)
Lemma writes_eq a s t : writes a s -> s = t -> writes a t.
Proof. intros H <-. exact H. Qed.
Lemma number_writes f bits z : writes (fun W wr => int_debug_fmt wr f bits z) (number_text f bits z).
Proof.
  set (neg := match f_radix f with Decimal => (z <? 0)%Z | _ => false end).
  set (prefix := match f_radix f with Decimal => [] | _ => lit "0x" end).
  apply (writes_ext (fun W wr => pad_integral wr f neg prefix (digits (f_radix f) bits z))).
  { intros W wr w. unfold int_debug_fmt, neg, prefix, digits, int_fmt. destruct (f_radix f); reflexivity. }
  set (wp := fun W (wr : writer W) => and_then (match (if neg then Some 45%N else if f_plus f then Some 43%N else None) with Some c => put wr (Chr c) | None => done end)
               (if f_alternate f then put wr (Str prefix) else done)).
  assert (Hw : writes wp (sign f z ++ radix_prefix f)).
  { apply writes_and.
    - unfold sign. fold neg. destruct neg; [exact (writes_put (Chr 45%N))|]. destruct (f_plus f); [exact (writes_put (Chr 43%N))|exact writes_done].
    - unfold radix_prefix, prefix. destruct (f_alternate f); [|exact writes_done].
      destruct (f_radix f); [exact (writes_put (Str []))|exact (writes_put (Str (lit "0x")))|exact (writes_put (Str (lit "0x")))]. }
  set (body := digits (f_radix f) bits z). set (head := sign f z ++ radix_prefix f) in *.
  set (width := List.length body + (match (if neg then Some 45%N else if f_plus f then Some 43%N else None) with Some _ => 1 | None => 0 end)
                + (if f_alternate f then List.length prefix else 0)).
  assert (EW : width = List.length head + List.length body).
  { unfold width, head, sign, radix_prefix, prefix. fold neg. rewrite app_length. destruct neg, (f_plus f), (f_alternate f), (f_radix f); cbn [List.length lit]; cbn; lia. }
  assert (Hb : writes (fun W wr => put wr (Str body)) body) by exact (writes_put (Str body)).
  assert (H0 : writes (fun W wr => and_then (wp W wr) (put wr (Str body))) (head ++ body)) by (apply writes_and; assumption).
  unfold number_text. fold head body. rewrite <- EW.
  assert (FIT : forall m, m = 0 ->
     (if f_zero f then head ++ repeat 48%N m ++ body
      else match f_align f with
           | Some AlignLeft => (head ++ body) ++ repeat (f_fill f) m
           | Some AlignCenter => repeat (f_fill f) (m / 2) ++ (head ++ body) ++ repeat (f_fill f) (m - m / 2)
           | Some AlignRight | None => repeat (f_fill f) m ++ head ++ body
           end) = head ++ body).
  { intros m ->. cbn. destruct (f_zero f); [reflexivity|]. destruct (f_align f) as [[]|]; rewrite ?app_nil_r; reflexivity. }
  unfold pad_integral. fold width. destruct (f_width f) as [min|].
  - destruct (Nat.leb_spec min width) as [L|L].
    + rewrite FIT by lia. exact H0.
    + destruct (f_zero f).
      * exact (writes_and _ _ _ _ Hw (writes_and _ _ _ _ (writes_fills 48%N (min - width)) Hb)).
      * unfold padding. remember (min - width) as m. destruct (f_align f) as [[]|]; cbn [fst snd].
        -- eapply writes_eq; [exact (writes_and _ _ _ _ (writes_fills (f_fill f) 0) (writes_and _ _ _ _ Hw (writes_and _ _ _ _ Hb (writes_fills (f_fill f) m))))|].
           cbn [repeat app]. rewrite <- !app_assoc. reflexivity.
        -- eapply writes_eq; [exact (writes_and _ _ _ _ (writes_fills (f_fill f) (m / 2)) (writes_and _ _ _ _ Hw (writes_and _ _ _ _ Hb (writes_fills (f_fill f) ((m + 1) / 2)))))|].
           rewrite <- !app_assoc. do 4 f_equal. pose proof (Nat.div_mod m 2). pose proof (Nat.div_mod (m + 1) 2).
           pose proof (Nat.mod_upper_bound m 2). pose proof (Nat.mod_upper_bound (m + 1) 2). lia.
        -- eapply writes_eq; [exact (writes_and _ _ _ _ (writes_fills (f_fill f) m) (writes_and _ _ _ _ Hw (writes_and _ _ _ _ Hb (writes_fills (f_fill f) 0))))|].
           cbn [repeat app]. rewrite app_nil_r. reflexivity.
        -- eapply writes_eq; [exact (writes_and _ _ _ _ (writes_fills (f_fill f) m) (writes_and _ _ _ _ Hw (writes_and _ _ _ _ Hb (writes_fills (f_fill f) 0))))|].
           cbn [repeat app]. rewrite app_nil_r. reflexivity.
  - rewrite FIT by reflexivity. exact H0.
Qed.

Lemma int_fmt_writes z : (0 <= z)%Z -> writes (fun W wr => int_fmt wr default_format z) (dec (Z.to_N z)).
Proof.
  intros P. apply (writes_ext (fun W wr => int_debug_fmt wr default_format 64 z)); [reflexivity|].
  eapply writes_eq; [apply number_writes|]. unfold number_text, sign, radix_prefix, digits. cbn [f_radix f_plus f_zero f_align f_width f_alternate default_format app repeat].
  destruct (Z.ltb_spec z 0); [lia|]. rewrite Z.abs_eq by exact P. reflexivity.
Qed.

(** ** [Display] *)
Lemma write_fmt_cons {W} (wr : writer W) p l : write_fmt wr (p :: l)
  = and_then (match p with Literal [] => done | Literal s => put wr (Str s) | Argument a => a default_format end) (write_fmt wr l).
Proof. reflexivity. Qed.
Lemma writes_literal s l t : writes (fun W wr => write_fmt wr (l W wr)) t -> writes (fun W wr => write_fmt wr (Literal s :: l W wr)) (s ++ t).
Proof.
  intros H. destruct s as [|c s].
  - apply (writes_and (fun W wr => done) _ [] t); [exact writes_done|exact H].
  - apply (writes_and (fun W wr => put wr (Str (c :: s))) _ (c :: s) t); [apply (writes_put (Str _))|exact H].
Qed.
Lemma writes_argument (a : forall W, writer W -> format -> attempt W) l s t :
  writes (fun W wr => a W wr default_format) s -> writes (fun W wr => write_fmt wr (l W wr)) t ->
  writes (fun W wr => write_fmt wr (Argument (a W wr) :: l W wr)) (s ++ t).
Proof. intros A H. exact (writes_and _ _ _ _ A H). Qed.
Lemma writes_nothing : writes (fun W wr => write_fmt wr []) [].
Proof. exact writes_done. Qed.
Lemma str_fmt_writes s : writes (fun W wr => str_fmt wr default_format s) s.
Proof. exact (writes_put (Str s)). Qed.
Lemma char_fmt_writes c : writes (fun W wr => char_fmt wr default_format c) [c].
Proof. exact (writes_put (Chr c)). Qed.

Ltac pieces :=
  repeat lazymatch goal with
  | |- writes (fun W wr => write_fmt wr (Literal ?s :: @?l W wr)) _ => apply (writes_literal s l)
  | |- writes (fun W wr => write_fmt wr (Argument (@?a W wr) :: @?l W wr)) _ => eapply (writes_argument a l); cbv beta
  | |- writes (fun W wr => write_fmt wr []) _ => apply writes_nothing
  end;
  try solve [apply str_fmt_writes | apply char_fmt_writes].

Lemma rank_writes f r : writes (fun W wr => rank_fmt wr f r) (rank_display r).
Proof. exact (writes_put (Chr (rank_as_char r))). Qed.
Lemma suit_writes f s : writes (fun W wr => suit_fmt wr f s) (suit_display s).
Proof. exact (writes_put (Chr (suit_as_pretty_char s))). Qed.
Lemma card_writes f c : writes (fun W wr => card_fmt wr f c) (card_display c).
Proof.
  unfold card_fmt. eapply writes_eq; [pieces|]. unfold card_display. rewrite app_nil_r. reflexivity.
Qed.
Lemma class_writes f c : writes (fun W wr => class_fmt wr f c) (class_display c).
Proof.
  destruct c as [r|r|a b|r|r|r|a b|r|r]; cbn [class_fmt class_display]; cbv zeta; try (eapply writes_eq; [pieces|rewrite ?app_nil_r; reflexivity]).
  destruct r; eapply writes_eq; try (pieces; fail); try (rewrite ?app_nil_r; reflexivity).
Qed.
Lemma eval_writes f e : writes (fun W wr => eval_fmt wr f e) (eval_display e).
Proof. exact (class_writes f (meta_class (eval_meta e))). Qed.
Lemma parse_error_writes f e : writes (fun W wr => parse_card_error_fmt wr f e) (parse_card_error_display e).
Proof.
  destruct e as [s|s c|s c]; cbn [parse_card_error_fmt parse_card_error_display]; (eapply writes_eq; [pieces|]).
  - apply int_fmt_writes. lia.
  - rewrite N2Z.id, app_nil_r. reflexivity.
  - rewrite app_nil_r. reflexivity.
  - rewrite app_nil_r. reflexivity.
Qed.
Lemma eval_error_writes iter_order f e : writes (fun W wr => eval_error_fmt wr iter_order f e) (eval_error_display iter_order e).
Proof.
  destruct e as [h|n]; cbn [eval_error_fmt eval_error_display]; cbv zeta; (eapply writes_eq; [pieces|]).
  - rewrite app_nil_r. reflexivity.
  - apply int_fmt_writes. lia.
  - rewrite app_nil_r. do 2 f_equal. lia.
Qed.

(** ** [Debug] *)
Definition after (b : bool) (s : rstring) : bool := match rev s with [] => b | c :: _ => (c =? 10)%N end.
Lemma after_cons b c s : after b (c :: s) = after (c =? 10)%N s.
Proof. unfold after. cbn [rev]. destruct (rev s) as [|d l] eqn:E; reflexivity. Qed.
Lemma after_app b s t : after b (s ++ t) = after (after b s) t.
Proof. revert b. induction s as [|c s IH]; intros b; [reflexivity|]. cbn [app]. rewrite !after_cons. apply IH. Qed.
Lemma pad_app b s t : pad b (s ++ t) = pad b s ++ pad (after b s) t.
Proof.
  revert b. induction s as [|c s IH]; intros b; [reflexivity|]. cbn [app pad]. rewrite IH, after_cons.
  destruct b; reflexivity.
Qed.
(** Lines: line feeds only at the end, none empty. *)
Lemma pieces_said s : List.concat (line_pieces s) = s.
Proof.
  induction s as [|c s IH]; [reflexivity|]. cbn [line_pieces]. destruct (c =? 10)%N; [cbn [List.concat app]; rewrite IH; reflexivity|].
  destruct (line_pieces s) as [|l ls]; cbn [List.concat app] in *; rewrite <- IH; reflexivity.
Qed.
Definition a_line (l : rstring) : Prop := exists i c, l = i ++ [c] /\ ~ In 10%N i.
Lemma pieces_lines s : Forall a_line (line_pieces s).
Proof.
  induction s as [|c s IH]; [constructor|]. cbn [line_pieces]. destruct (N.eqb_spec c 10) as [->|N].
  - constructor; [|exact IH]. exists [], 10%N. split; [reflexivity|intros []].
  - destruct (line_pieces s) as [|l ls]; [constructor; [|constructor]; exists [], c; split; [reflexivity|intros []]|].
    apply Forall_cons_iff in IH. destruct IH as ((i & d & -> & Hi) & IH). constructor; [|exact IH].
    exists (c :: i), d. split; [reflexivity|]. intros [E|E]; [congruence|exact (Hi E)].
Qed.
Lemma pad_line l b : a_line l -> pad b l = (if b then lit "    " else []) ++ l /\ after b l = ends_with_newline l.
Proof.
  intros (i & c & -> & Hi). split.
  - assert (P : pad false (i ++ [c]) = i ++ [c]).
    { clear b. induction i as [|d i IH]; [reflexivity|]. cbn [app pad]. destruct (N.eqb_spec d 10) as [->|N]; [exfalso; apply Hi; left; reflexivity|].
      rewrite IH; [reflexivity|]. intros H. apply Hi. right. exact H. }
    destruct b; [|exact P]. destruct i as [|d i]; [reflexivity|]. exact (f_equal (app (lit "    ")) P).
  - unfold after, ends_with_newline. rewrite rev_app_distr. reflexivity.
Qed.

(** What an adapter in a given state hands on for a piece. *)
Definition hand_on (b : bool) (c : chunk) : list chunk := (if b then [Str (lit "    ")] else []) ++ [c].
Fixpoint hand_on_lines (b : bool) (ls : list rstring) : list chunk :=
  match ls with [] => [] | l :: ls' => hand_on b (Str l) ++ hand_on_lines (ends_with_newline l) ls' end.
Definition adapted (b : bool) (c : chunk) : list chunk :=
  match c with Str s => hand_on_lines b (line_pieces s) | Chr c => hand_on b (Chr c) end.
Fixpoint adapt (b : bool) (cs : list chunk) : list chunk :=
  match cs with [] => [] | c :: cs' => adapted b c ++ adapt (after b (chunk_text c)) cs' end.

Lemma adapted_said b c : said (adapted b c) = pad b (chunk_text c).
Proof.
  destruct c as [s|c]; cbn [adapted chunk_text].
  - rewrite <- (pieces_said s) at 2. pose proof (pieces_lines s) as L. revert b. induction L as [|l ls Hl _ IH]; intros b; [reflexivity|].
    cbn [hand_on_lines List.concat]. rewrite said_app, IH, pad_app. destruct (pad_line l b Hl) as (-> & ->). apply f_equal2; [|reflexivity].
    destruct b; unfold hand_on; cbn [app said]; rewrite ?app_nil_r; reflexivity.
  - destruct b; reflexivity.
Qed.
Lemma said_text c cs : said (c :: cs) = chunk_text c ++ said cs.
Proof. destruct c; reflexivity. Qed.
Lemma adapt_said b cs : said (adapt b cs) = pad b (said cs).
Proof.
  revert b. induction cs as [|c cs IH]; intros b; [reflexivity|]. cbn [adapt]. rewrite said_app, adapted_said, IH, said_text, pad_app. reflexivity.
Qed.

Definition agrees {W} (x : (W * bool) * bool) (y : W * bool) (b : bool) : Prop :=
  fst (fst x) = fst y /\ snd x = snd y /\ (snd y = true -> snd (fst x) = b).
Lemma agrees_then {W} (a : attempt (W * bool)) x (k : attempt (W * bool)) y (l : attempt W) b b' :
  agrees (a x) y b -> (forall w, agrees (k (w, b)) (l w) b') ->
  agrees (and_then a k x) (let (w, ok) := y in if ok then l w else (w, false)) b'.
Proof.
  intros A K. unfold and_then. destruct (a x) as [[w c] ok], y as [w' ok']. destruct A as (E & F & G). cbn [fst snd] in *. subst w' ok'.
  destruct ok; [rewrite G by reflexivity; apply K|]. split; [reflexivity|]. split; [reflexivity|discriminate].
Qed.
Lemma one_step {W} (wr : writer W) s (b : bool) w :
  agrees (let (w, ok) := if b then wr w (Str (lit "    ")) else (w, true) in
          if ok then let (w, ok) := wr w s in ((w, ends_with_newline (chunk_text s)), ok) else ((w, b), false))
         (feed wr (hand_on b s) w) (ends_with_newline (chunk_text s)).
Proof.
  assert (E : forall w, agrees (let (w, ok) := wr w s in ((w, ends_with_newline (chunk_text s)), ok)) (feed wr [s] w) (ends_with_newline (chunk_text s))).
  { intros v. cbn [feed]. destruct (wr v s) as [v' [|]]; (split; [reflexivity|]); (split; [reflexivity|]); reflexivity. }
  destruct b; cbn [hand_on app]; [|apply E]. cbn [feed]. destruct (wr w (Str (lit "    "))) as [w' [|]]; [apply E|].
  split; [reflexivity|]. split; [reflexivity|discriminate].
Qed.
Lemma adapter_step {W} (wr : writer W) c b w : agrees (pad_adapter wr (w, b) c) (feed wr (adapted b c) w) (after b (chunk_text c)).
Proof.
  destruct c as [s|c].
  - cbn [adapted chunk_text]. replace (after b s) with (after b (List.concat (line_pieces s))) by (rewrite pieces_said; reflexivity). unfold pad_adapter. pose proof (pieces_lines s) as L. revert b w.
    induction L as [|l ls Hl _ IH]; intros b w.
    + split; [reflexivity|]. split; reflexivity.
    + cbn [map in_turn hand_on_lines List.concat]. rewrite feed_app, after_app. unfold and_then at 2.
      rewrite (proj2 (pad_line l b Hl)). eapply agrees_then; [|intros v; apply IH]. exact (one_step wr (Str l) b w).
  - exact (one_step wr (Chr c) b w).
Qed.
Lemma adapter_feed {W} (wr : writer W) cs b w :
  let '((w', _), ok) := feed (pad_adapter wr) cs (w, b) in (w', ok) = feed wr (adapt b cs) w.
Proof.
  revert b w. induction cs as [|c cs IH]; intros b w; [reflexivity|]. cbn [feed adapt]. rewrite feed_app. unfold and_then.
  pose proof (adapter_step wr c b w) as A. destruct (pad_adapter wr (w, b) c) as [[w' b'] ok], (feed wr (adapted b c) w) as [w2 ok2].
  destruct A as (E & F & G). cbn [fst snd] in *. subst w2 ok2. destruct ok; [|reflexivity]. rewrite G by reflexivity. apply IH.
Qed.
Lemma writes_padded a s : writes a s -> writes (fun W wr => padded (a _ (pad_adapter wr))) (pad true s).
Proof.
  intros (cs & S & H). exists (adapt true cs). split; [rewrite adapt_said, S; reflexivity|].
  intros W wr w. unfold padded. rewrite H. pose proof (adapter_feed wr cs true w) as A.
  destruct (feed (pad_adapter wr) cs (w, true)) as [[w' b] ok]. exact A.
Qed.

Lemma writes_parts {A} (g : forall W, writer W -> bool -> A -> attempt W) (text : bool -> A -> rstring) l : forall first,
  Forall (fun x => forall b, writes (fun W wr => g W wr b x) (text b x)) l ->
  writes (fun W wr => in_turn (parts (g W wr) first l)) (List.concat (parts text first l)).
Proof.
  induction l as [|x l IH]; intros first H; [exact writes_done|]. apply Forall_cons_iff in H. destruct H as (Hx & H).
  cbn [parts List.concat]. exact (writes_and _ _ _ _ (Hx first) (IH false H)).
Qed.
(** The first part is preceded by [open], the others by [sep]. *)
Lemma parts_join {A} (opening sep : rstring) (text : A -> rstring) l : l <> [] ->
  List.concat (parts (fun (b : bool) x => (if b then opening else sep) ++ text x) true l) = opening ++ join sep (map text l).
Proof.
  intros N. destruct l as [|x l]; [congruence|]. clear N. cbn [parts List.concat map]. rewrite <- app_assoc. f_equal.
  revert x. induction l as [|y l IH]; intros x; [cbn; rewrite app_nil_r; reflexivity|]. cbn [parts List.concat map].
  change (join sep (text x :: text y :: map text l)) with (text x ++ sep ++ join sep (text y :: map text l)). rewrite <- IH, <- !app_assoc. reflexivity.
Qed.
Lemma parts_flat {A} (opening : rstring) (text : A -> rstring) l : l <> [] ->
  List.concat (parts (fun (b : bool) x => (if b then opening else []) ++ text x) true l) = opening ++ flat_map text l.
Proof.
  intros N. destruct l as [|x l]; [congruence|]. cbn [parts List.concat flat_map]. rewrite <- app_assoc. do 2 f_equal.
  clear N. induction l as [|y l IH]; [reflexivity|]. cbn [parts List.concat flat_map app]. rewrite IH. reflexivity.
Qed.

Lemma parts_eq {A B} (g h : bool -> A -> B) l b : (forall b x, g b x = h b x) -> parts g b l = parts h b l.
Proof. intros E. revert b. induction l as [|x l IH]; intros b; [reflexivity|]. cbn [parts]. rewrite E, IH. reflexivity. Qed.
Lemma writes_first (b : bool) c : writes (fun W wr => if b then put wr (Str c) else done) (if b then c else []).
Proof. destruct b; [exact (writes_put (Str c))|exact writes_done]. Qed.
Lemma writes_later (b : bool) c : writes (fun W wr => if b then done else put wr (Str c)) (if b then [] else c).
Proof. destruct b; [exact writes_done|exact (writes_put (Str c))]. Qed.
Lemma writes_either (b : bool) c d : writes (fun W wr => put wr (Str (if b then c else d))) (if b then c else d).
Proof. exact (writes_put (Str _)). Qed.
Notation P s := (writes_put (Str s)).

Theorem debug_writes f t : writes (fun W wr => debug_fmt f t W wr) (shown f t).
Proof.
  unfold shown. induction t as [s|bits z|name fields IH|name items IH|items IH|entries IH] using DebugTreeFacts.tree_rec'.
  - cbn [numbers pretty compact debug_fmt]. destruct (f_alternate f); exact (P s).
  - cbn [numbers pretty compact debug_fmt]. destruct (f_alternate f); exact (number_writes f bits z).
  - destruct fields as [|p fields].
    { cbn [numbers map pretty compact]. eapply writes_eq; [exact (writes_and _ _ _ _ (P name) (writes_and _ _ _ _ writes_done writes_done))|].
      rewrite app_nil_r. destruct (f_alternate f); reflexivity. }
    remember (p :: fields) as m eqn:Em. assert (N : m <> []) by (subst m; discriminate).
    cbn [numbers]. assert (N' : map (fun p => (fst p, numbers f (snd p))) m <> []) by (subst m; discriminate).
    destruct (f_alternate f) eqn:EA.
    + eapply writes_eq.
      * cbn [debug_fmt]. rewrite EA. eapply writes_and; [exact (P name)|]. eapply writes_and.
        -- eapply (writes_parts (fun W wr b p => _) (fun b p => (if b then lit " {" ++ [10%N] else []) ++ pad true (fst p ++ lit ": " ++ pretty (numbers f (snd p)) ++ lit "," ++ [10%N]))).
           revert IH. apply Forall_impl. intros q Hq b. apply writes_and; [apply writes_first|].
           apply (writes_padded (fun V vr => and_then (put vr (Str (fst q))) (and_then (put vr (Str (lit ": "))) (and_then (debug_fmt f (snd q) V vr) (put vr (Str (lit "," ++ [10%N]))))))).
           exact (writes_and _ _ _ _ (P _) (writes_and _ _ _ _ (P _) (writes_and _ _ _ _ Hq (P _)))).
        -- instantiate (1 := lit "}"). subst m. exact (P (lit "}")).
      * rewrite parts_flat by exact N. destruct m as [|q m]; [congruence|]. cbn [map]. cbn [pretty]. change (lit " {" ++ [10%N]) with (lit " {" ++ [10%N]).
        rewrite <- !app_assoc. do 3 f_equal.
        change ((fst q, numbers f (snd q)) :: map (fun p0 => (fst p0, numbers f (snd p0))) m) with (map (fun p0 => (fst p0, numbers f (snd p0))) (q :: m)).
        rewrite DebugTreeFacts.flat_map_map'. reflexivity.
    + eapply writes_eq.
      * cbn [debug_fmt]. rewrite EA. eapply writes_and; [exact (P name)|]. eapply writes_and.
        -- eapply (writes_parts (fun W wr b p => _) (fun b p => (if b then lit " { " else lit ", ") ++ (fst p ++ lit ": " ++ compact (numbers f (snd p))))).
           revert IH. apply Forall_impl. intros q Hq b. apply writes_and; [apply writes_either|].
           exact (writes_and _ _ _ _ (P _) (writes_and _ _ _ _ (P _) Hq)).
        -- instantiate (1 := lit " }"). subst m. exact (P (lit " }")).
      * rewrite parts_join by exact N. destruct m as [|q m]; [congruence|]. cbn [map]. cbn [compact]. rewrite <- !app_assoc. do 2 f_equal.
        apply f_equal2; [|reflexivity]. cbn [map fst snd]. rewrite map_map. reflexivity.
  - destruct items as [|p items].
    { cbn [numbers map pretty compact]. eapply writes_eq; [exact (writes_and _ _ _ _ (P name) (writes_and _ _ _ _ writes_done writes_done))|].
      rewrite app_nil_r. destruct (f_alternate f); reflexivity. }
    remember (p :: items) as m eqn:Em. assert (N : m <> []) by (subst m; discriminate). cbn [numbers].
    destruct (f_alternate f) eqn:EA.
    + eapply writes_eq.
      * cbn [debug_fmt]. rewrite EA. eapply writes_and; [exact (P name)|]. eapply writes_and.
        -- eapply (writes_parts (fun W wr b p => _) (fun b x => (if b then lit "(" ++ [10%N] else []) ++ pad true (pretty (numbers f x) ++ lit "," ++ [10%N]))).
           revert IH. apply Forall_impl. intros q Hq b. apply writes_and; [apply writes_first|].
           apply (writes_padded (fun V vr => and_then (debug_fmt f q V vr) (put vr (Str (lit "," ++ [10%N]))))).
           exact (writes_and _ _ _ _ Hq (P _)).
        -- instantiate (1 := lit ")"). subst m. exact (P (lit ")")).
      * rewrite parts_flat by exact N. destruct m as [|q m]; [congruence|]. cbn [map]. cbn [pretty]. rewrite <- !app_assoc. do 3 f_equal.
        change (numbers f q :: map (numbers f) m) with (map (numbers f) (q :: m)). rewrite DebugTreeFacts.flat_map_map'. reflexivity.
    + eapply writes_eq.
      * cbn [debug_fmt]. rewrite EA. eapply writes_and; [exact (P name)|]. eapply writes_and.
        -- eapply (writes_parts (fun W wr b p => _) (fun b x => (if b then lit "(" else lit ", ") ++ compact (numbers f x))).
           revert IH. apply Forall_impl. intros q Hq b. apply writes_and; [apply writes_either|exact Hq].
        -- instantiate (1 := lit ")"). subst m. exact (P (lit ")")).
      * rewrite parts_join by exact N. destruct m as [|q m]; [congruence|]. cbn [map]. cbn [compact]. rewrite <- !app_assoc. do 2 f_equal.
        apply f_equal2; [|reflexivity]. cbn [map]. rewrite map_map. reflexivity.
  - destruct items as [|p items].
    { cbn [numbers map pretty compact]. eapply writes_eq; [exact (writes_and _ _ _ _ (P (lit "[")) (writes_and _ _ _ _ writes_done (P (lit "]"))))|].
      destruct (f_alternate f); reflexivity. }
    remember (p :: items) as m eqn:Em. assert (N : m <> []) by (subst m; discriminate). cbn [numbers].
    destruct (f_alternate f) eqn:EA.
    + eapply writes_eq.
      * cbn [debug_fmt]. rewrite EA. eapply writes_and; [exact (P (lit "["))|]. eapply writes_and; [|exact (P (lit "]"))].
        eapply (writes_parts (fun W wr b p => _) (fun b x => (if b then [10%N] else []) ++ pad true (pretty (numbers f x) ++ lit "," ++ [10%N]))).
        revert IH. apply Forall_impl. intros q Hq b. apply writes_and; [apply writes_first|].
        apply (writes_padded (fun V vr => and_then (debug_fmt f q V vr) (put vr (Str (lit "," ++ [10%N]))))).
        exact (writes_and _ _ _ _ Hq (P _)).
      * rewrite parts_flat by exact N. destruct m as [|q m]; [congruence|]. cbn [map]. cbn [pretty]. cbn [chunk_text]. rewrite <- !app_assoc. do 3 f_equal.
        change (numbers f q :: map (numbers f) m) with (map (numbers f) (q :: m)). rewrite DebugTreeFacts.flat_map_map'. reflexivity.
    + eapply writes_eq.
      * cbn [debug_fmt]. rewrite EA. eapply writes_and; [exact (P (lit "["))|]. eapply writes_and; [|exact (P (lit "]"))].
        eapply (writes_parts (fun W wr b p => _) (fun b x => (if b then [] else lit ", ") ++ compact (numbers f x))).
        revert IH. apply Forall_impl. intros q Hq b. apply writes_and; [apply writes_later|exact Hq].
      * rewrite parts_join by exact N. cbn [compact app chunk_text]. rewrite map_map. reflexivity.
  - destruct entries as [|p entries].
    { cbn [numbers map pretty compact]. eapply writes_eq; [exact (writes_and _ _ _ _ (P (lit "{")) (writes_and _ _ _ _ writes_done (P (lit "}"))))|].
      destruct (f_alternate f); reflexivity. }
    remember (p :: entries) as m eqn:Em. assert (N : m <> []) by (subst m; discriminate). cbn [numbers].
    destruct (f_alternate f) eqn:EA.
    + eapply writes_eq.
      * cbn [debug_fmt]. rewrite EA. eapply writes_and; [exact (P (lit "{"))|]. eapply writes_and; [|exact (P (lit "}"))].
        eapply (writes_parts (fun W wr b p => _) (fun b p => (if b then [10%N] else []) ++ pad true (pretty (numbers f (fst p)) ++ lit ": " ++ pretty (numbers f (snd p)) ++ lit "," ++ [10%N]))).
        revert IH. apply Forall_impl. intros q (Hk & Hq) b. apply writes_and; [apply writes_first|].
        apply (writes_padded (fun V vr => and_then (debug_fmt f (fst q) V vr) (and_then (put vr (Str (lit ": "))) (and_then (debug_fmt f (snd q) V vr) (put vr (Str (lit "," ++ [10%N]))))))).
        exact (writes_and _ _ _ _ Hk (writes_and _ _ _ _ (P _) (writes_and _ _ _ _ Hq (P _)))).
      * rewrite parts_flat by exact N. destruct m as [|q m]; [congruence|]. cbn [map]. cbn [pretty]. cbn [chunk_text]. rewrite <- !app_assoc. do 3 f_equal.
        change ((numbers f (fst q), numbers f (snd q)) :: map (fun p0 => (numbers f (fst p0), numbers f (snd p0))) m) with (map (fun p0 => (numbers f (fst p0), numbers f (snd p0))) (q :: m)).
        rewrite DebugTreeFacts.flat_map_map'. reflexivity.
    + eapply writes_eq.
      * cbn [debug_fmt]. rewrite EA. eapply writes_and; [exact (P (lit "{"))|]. eapply writes_and; [|exact (P (lit "}"))].
        eapply (writes_parts (fun W wr b p => _) (fun b p => (if b then [] else lit ", ") ++ (compact (numbers f (fst p)) ++ lit ": " ++ compact (numbers f (snd p))))).
        revert IH. apply Forall_impl. intros q (Hk & Hq) b. apply writes_and; [apply writes_later|].
        exact (writes_and _ _ _ _ Hk (writes_and _ _ _ _ (P _) Hq)).
      * rewrite parts_join by exact N. cbn [compact app chunk_text]. rewrite map_map. reflexivity.
Qed.

(** ** Consequences *)
Theorem whole_string a text w : writes a text -> a rstring string_writer w = (w ++ text, true).
Proof.
  intros (cs & <- & H). rewrite H. clear H a. revert w. induction cs as [|c cs IH]; intros w; [cbn; rewrite app_nil_r; reflexivity|].
  cbn [feed]. unfold string_writer at 1. rewrite IH, said_text, app_assoc. reflexivity.
Qed.
Lemma buffer_step n w c : buffer n w c
  = if Nat.leb (List.length (w ++ chunk_text c)) n then (w ++ chunk_text c, true) else (firstn n (w ++ chunk_text c), false).
Proof. destruct c; reflexivity. Qed.
Lemma recording_step {W} (wr : writer W) wl c : recording wr wl c
  = match wr (fst wl) c with (w', true) => ((w', snd wl ++ chunk_text c), true) | (w', false) => ((w', snd wl), false) end.
Proof. destruct c; reflexivity. Qed.
Theorem full_buffer a text n : writes a text -> a rstring (buffer n) [] = (firstn n text, Nat.leb (List.length text) n).
Proof.
  intros (cs & <- & H). rewrite H. clear H a.
  enough (G : forall w, List.length w <= n -> feed (buffer n) cs w = (firstn n (w ++ said cs), Nat.leb (List.length (w ++ said cs)) n))
    by (apply (G []); cbn; lia).
  induction cs as [|c cs IH]; intros w L0.
  - cbn [feed said]. rewrite app_nil_r, firstn_all2 by exact L0. destruct (Nat.leb_spec (List.length w) n); [reflexivity|lia].
  - cbn [feed]. rewrite buffer_step, said_text, app_assoc.
    destruct (Nat.leb_spec (List.length (w ++ chunk_text c)) n) as [L|L]; [apply IH, L|].
    rewrite (firstn_app n (w ++ chunk_text c) (said cs)). replace (n - List.length (w ++ chunk_text c)) with 0 by lia. rewrite firstn_O, app_nil_r. f_equal.
    symmetry. apply Nat.leb_gt. rewrite app_length. lia.
Qed.
Theorem nothing_lost a text W (wr : writer W) w : writes a text ->
  exists log rest, a _ (recording wr) (w, []) = ((fst (a W wr w), log), snd (a W wr w))
  /\ log ++ rest = text /\ (snd (a W wr w) = true -> rest = []).
Proof.
  intros (cs & <- & H). rewrite !H. clear H a.
  assert (G : forall l w, exists log rest, feed (recording wr) cs (w, l) = ((fst (feed wr cs w), l ++ log), snd (feed wr cs w))
              /\ log ++ rest = said cs /\ (snd (feed wr cs w) = true -> rest = [])).
  { clear w. induction cs as [|c cs IH]; intros l w.
    - exists [], []. cbn. rewrite app_nil_r. auto.
    - cbn [feed]. rewrite recording_step. cbn [fst snd]. destruct (wr w c) as [w' [|]] eqn:E.
      + destruct (IH (l ++ chunk_text c) w') as (log & rest & F & S & R). exists (chunk_text c ++ log), rest.
        split; [rewrite app_assoc; exact F|]. split; [rewrite said_text, <- S, app_assoc; reflexivity|exact R].
      + exists [], (said (c :: cs)). cbn [fst snd]. rewrite app_nil_r. split; [reflexivity|]. split; [reflexivity|discriminate]. }
  exact (G [] w).
Qed.
Theorem to_string_ret (a : forall W, writer W -> format -> attempt W) text :
  writes (fun W wr => a W wr default_format) text -> to_string (a rstring) = Ret text.
Proof. intros H. unfold to_string. rewrite (whole_string (fun W wr => a W wr default_format) text [] H). reflexivity. Qed.

Lemma number_default f bits z : f_width f = None -> f_plus f = false -> f_radix f = Decimal -> number_text f bits z = debug_int z.
Proof.
  intros W0 P0 R0. unfold number_text, sign, radix_prefix, debug_int. rewrite W0, P0, R0. cbn [digits].
  assert (E : (if (z <? 0)%Z then lit "-" else []) ++ dec (Z.to_N (Z.abs z)) = if (z <? 0)%Z then lit "-" ++ dec (Z.to_N (- z)) else dec (Z.to_N z)).
  { destruct (Z.ltb_spec z 0); [rewrite Z.abs_neq by lia|rewrite Z.abs_eq by lia]; reflexivity. }
  destruct (f_alternate f); rewrite ?app_nil_r; cbn [repeat app Nat.div Nat.sub]; (destruct (f_zero f); [|destruct (f_align f) as [[]|]]); cbn; rewrite ?app_nil_r; exact E.
Qed.
Lemma numbers_same f t : f_width f = None -> f_plus f = false -> f_radix f = Decimal ->
  compact (numbers f t) = compact t /\ pretty (numbers f t) = pretty t.
Proof.
  intros W0 P0 R0. induction t as [s|bits z|name fields IH|name items IH|items IH|entries IH] using DebugTreeFacts.tree_rec'.
  - split; reflexivity.
  - cbn [numbers compact pretty]. rewrite number_default by assumption. split; reflexivity.
  - destruct fields as [|p fields]; [split; reflexivity|]. remember (p :: fields) as m eqn:Em. rewrite Forall_forall in IH.
    cbn [numbers]. split.
    + assert (E : map (fun p => fst p ++ lit ": " ++ compact (snd p)) (map (fun p => (fst p, numbers f (snd p))) m) = map (fun p => fst p ++ lit ": " ++ compact (snd p)) m).
      { rewrite map_map. apply map_ext_in. intros q Hq. cbn [fst snd]. rewrite (proj1 (IH q Hq)). reflexivity. }
      subst m. exact (f_equal (fun l => name ++ lit " { " ++ join (lit ", ") l ++ lit " }") E).
    + assert (E : flat_map (fun p => pad true (fst p ++ lit ": " ++ pretty (snd p) ++ lit "," ++ [10%N])) (map (fun p => (fst p, numbers f (snd p))) m)
                  = flat_map (fun p => pad true (fst p ++ lit ": " ++ pretty (snd p) ++ lit "," ++ [10%N])) m).
      { rewrite DebugTreeFacts.flat_map_map'. apply DebugTreeFacts.flat_map_eq, Forall_forall. intros q Hq. cbn [fst snd]. rewrite (proj2 (IH q Hq)). reflexivity. }
      subst m. exact (f_equal (fun l => name ++ lit " {" ++ [10%N] ++ l ++ lit "}") E).
  - destruct items as [|p items]; [split; reflexivity|]. remember (p :: items) as m eqn:Em. rewrite Forall_forall in IH.
    cbn [numbers]. split.
    + assert (E : map compact (map (numbers f) m) = map compact m).
      { rewrite map_map. apply map_ext_in. intros q Hq. exact (proj1 (IH q Hq)). }
      subst m. exact (f_equal (fun l => name ++ lit "(" ++ join (lit ", ") l ++ lit ")") E).
    + assert (E : flat_map (fun x => pad true (pretty x ++ lit "," ++ [10%N])) (map (numbers f) m) = flat_map (fun x => pad true (pretty x ++ lit "," ++ [10%N])) m).
      { rewrite DebugTreeFacts.flat_map_map'. apply DebugTreeFacts.flat_map_eq, Forall_forall. intros q Hq. rewrite (proj2 (IH q Hq)). reflexivity. }
      subst m. exact (f_equal (fun l => name ++ lit "(" ++ [10%N] ++ l ++ lit ")") E).
  - destruct items as [|p items]; [split; reflexivity|]. remember (p :: items) as m eqn:Em. rewrite Forall_forall in IH.
    cbn [numbers]. split.
    + assert (E : map compact (map (numbers f) m) = map compact m).
      { rewrite map_map. apply map_ext_in. intros q Hq. exact (proj1 (IH q Hq)). }
      cbn [compact]. rewrite E. reflexivity.
    + assert (E : flat_map (fun x => pad true (pretty x ++ lit "," ++ [10%N])) (map (numbers f) m) = flat_map (fun x => pad true (pretty x ++ lit "," ++ [10%N])) m).
      { rewrite DebugTreeFacts.flat_map_map'. apply DebugTreeFacts.flat_map_eq, Forall_forall. intros q Hq. rewrite (proj2 (IH q Hq)). reflexivity. }
      subst m. exact (f_equal (fun l => lit "[" ++ [10%N] ++ l ++ lit "]") E).
  - destruct entries as [|p entries]; [split; reflexivity|]. remember (p :: entries) as m eqn:Em. rewrite Forall_forall in IH.
    cbn [numbers]. split.
    + assert (E : map (fun p => compact (fst p) ++ lit ": " ++ compact (snd p)) (map (fun p => (numbers f (fst p), numbers f (snd p))) m) = map (fun p => compact (fst p) ++ lit ": " ++ compact (snd p)) m).
      { rewrite map_map. apply map_ext_in. intros q Hq. cbn [fst snd]. destruct (IH q Hq) as ((-> & _) & (-> & _)). reflexivity. }
      cbn [compact]. rewrite E. reflexivity.
    + assert (E : flat_map (fun p => pad true (pretty (fst p) ++ lit ": " ++ pretty (snd p) ++ lit "," ++ [10%N])) (map (fun p => (numbers f (fst p), numbers f (snd p))) m)
                  = flat_map (fun p => pad true (pretty (fst p) ++ lit ": " ++ pretty (snd p) ++ lit "," ++ [10%N])) m).
      { rewrite DebugTreeFacts.flat_map_map'. apply DebugTreeFacts.flat_map_eq, Forall_forall. intros q Hq. cbn [fst snd]. destruct (IH q Hq) as ((_ & ->) & (_ & ->)). reflexivity. }
      subst m. exact (f_equal (fun l => lit "{" ++ [10%N] ++ l ++ lit "}") E).
Qed.

Lemma number_length f bits z n : f_width f = Some n ->
  n <= List.length (number_text f bits z).
Proof.
  intros E. unfold number_text. rewrite E. set (h := sign f z ++ radix_prefix f). set (b := digits (f_radix f) bits z).
  remember (n - (List.length h + List.length b)) as m eqn:Em. clearbody h b. assert (m / 2 <= m) by (apply Nat.div_le_upper_bound; lia).
  destruct (f_zero f); [|destruct (f_align f) as [[]|]]; rewrite !app_length, ?repeat_length; unfold rstring, rchar in *; lia.
Qed.
(** Nothing but the numbers changes. *)
Theorem without_numbers plain f :
  (forall r, shown f (rank_tree r) = rank_debug r) /\ (forall s, shown f (suit_tree s) = suit_debug s)
  /\ (forall c, shown f (class_tree c) = if f_alternate f then pretty (class_tree c) else compact (class_tree c))
  /\ (forall e, shown f (parse_card_error_tree plain e)
               = if f_alternate f then pretty (parse_card_error_tree plain e) else compact (parse_card_error_tree plain e)).
Proof.
  unfold shown. repeat split; intros x; [destruct (f_alternate f); reflexivity..| |];
  destruct x; reflexivity.
Qed.
Theorem with_numbers f :
  f_alternate f = false ->
  (forall c, shown f (card_tree c) = lit "Card { unique_integer: " ++ number_text f 32 (unique_integer c) ++ lit ", rank: "
                                     ++ rank_debug (card_rank c) ++ lit ", suit: " ++ suit_debug (card_suit c) ++ lit " }")
  /\ (forall n, shown f (eval_error_tree (InvalidHandSize n)) = lit "InvalidHandSize(" ++ number_text f 64 (Z.of_nat n) ++ lit ")")
  /\ (forall p, shown f (phr_tree p) = lit "PokerHandRank(" ++ number_text f 16 (phr p) ++ lit ")").
Proof.
  intros EA. unfold shown. rewrite EA. split; [|split]; intros x; [|reflexivity..].
  unfold card_tree, i32_tree, rank_tree, suit_tree. cbn [numbers compact map fst snd join].
  generalize (number_text f 32 (unique_integer x)) (rank_debug (card_rank x)) (suit_debug (card_suit x)). intros d r s.
  unfold rstring, rchar in *. cbn. repeat (rewrite <- app_assoc; cbn [app]). reflexivity.
Qed.
Theorem default_shown f t : f_width f = None -> f_plus f = false -> f_radix f = Decimal ->
  shown f t = if f_alternate f then pretty t else compact t.
Proof. intros W0 P0 R0. unfold shown. destruct (numbers_same f t W0 P0 R0) as (-> & ->). reflexivity. Qed.
Theorem displays f :
  (forall r, writes (fun W wr => rank_fmt wr f r) (rank_display r))
  /\ (forall s, writes (fun W wr => suit_fmt wr f s) (suit_display s))
  /\ (forall c, writes (fun W wr => card_fmt wr f c) (card_display c))
  /\ (forall c, writes (fun W wr => class_fmt wr f c) (class_display c))
  /\ (forall e, writes (fun W wr => eval_fmt wr f e) (eval_display e))
  /\ (forall e, writes (fun W wr => parse_card_error_fmt wr f e) (parse_card_error_display e))
  /\ (forall order e, writes (fun W wr => eval_error_fmt wr order f e) (eval_error_display order e)).
Proof.
  exact (conj (rank_writes f) (conj (suit_writes f) (conj (card_writes f) (conj (class_writes f) (conj (eval_writes f)
    (conj (parse_error_writes f) (fun o => eval_error_writes o f))))))).
Qed.
Theorem to_strings :
  (forall r, to_string (fun wr f => rank_fmt wr f r) = Ret (rank_display r))
  /\ (forall s, to_string (fun wr f => suit_fmt wr f s) = Ret (suit_display s))
  /\ (forall c, to_string (fun wr f => card_fmt wr f c) = Ret (card_display c))
  /\ (forall c, to_string (fun wr f => class_fmt wr f c) = Ret (class_display c))
  /\ (forall e, to_string (fun wr f => eval_fmt wr f e) = Ret (eval_display e))
  /\ (forall e, to_string (fun wr f => parse_card_error_fmt wr f e) = Ret (parse_card_error_display e))
  /\ (forall order e, to_string (fun wr f => eval_error_fmt wr order f e) = Ret (eval_error_display order e)).
Proof.
  destruct (displays default_format) as (R & S & C & K & E & P & V).
  split; [intros r; exact (to_string_ret (fun W wr f => rank_fmt wr f r) _ (R r))|].
  split; [intros r; exact (to_string_ret (fun W wr f => suit_fmt wr f r) _ (S r))|].
  split; [intros r; exact (to_string_ret (fun W wr f => card_fmt wr f r) _ (C r))|].
  split; [intros r; exact (to_string_ret (fun W wr f => class_fmt wr f r) _ (K r))|].
  split; [intros r; exact (to_string_ret (fun W wr f => eval_fmt wr f r) _ (E r))|].
  split; [intros r; exact (to_string_ret (fun W wr f => parse_card_error_fmt wr f r) _ (P r))|].
  intros o r; exact (to_string_ret (fun W wr f => eval_error_fmt wr o f r) _ (V o r)).
Qed.
