(** InteractFacts.v: the example programs at a terminal. *)
From Coq Require Import Lia List Arith Bool String ZArith.
From Verif Require Import Base BaseFacts ModelCard ModelEval ModelTable ModelEvaluation ModelExamples ModelInteract.
From Verif Require Import Spec SpecApi SpecText SpecExamples SpecInteract.
From Verif Require HandFacts ReplFacts JacksFacts ExamplesFacts TextFacts ReleaseFacts.
Import ListNotations.

(** ** Programs in general *)
(** One path through a program. *)
Inductive runs {A} : prog A -> list event -> ended A -> Prop :=
| runs_return a : runs (Return a) [] (Finished a)
| runs_panic e : runs (Panics e) [] (Panicked e)
| runs_unfinished : runs Unfinished [] Going
| runs_read k l tr e : runs (k l) tr e -> runs (Read k) (Heard l :: tr) e
| runs_print x k tr e : runs k tr e -> runs (Print x k) (Said x :: tr) e
| runs_fail x k : runs (Print x k) [Failed x] Broken.
Lemma exec_runs {W A} (o : world W) (p : prog A) : forall w tr0 w' tr e,
  exec (recording o) p (w, tr0) = ((w', tr), e) -> exists tr1, tr = tr0 ++ tr1 /\ runs p tr1 e.
Proof.
  induction p as [a|x| |k IH|x k IH]; intros w tr0 w' tr e E; cbn [exec] in E.
  - injection E as <- <- <-. exists []. rewrite app_nil_r. split; [reflexivity|constructor].
  - injection E as <- <- <-. exists []. rewrite app_nil_r. split; [reflexivity|constructor].
  - injection E as <- <- <-. exists []. rewrite app_nil_r. split; [reflexivity|constructor].
  - cbn [w_read recording fst snd] in E. destruct (w_read o w) as [l w1].
    destruct (IH l _ _ _ _ _ E) as (tr1 & -> & R). exists (Heard l :: tr1). rewrite <- app_assoc.
    split; [reflexivity|constructor; exact R].
  - cbn [w_print recording fst snd] in E. destruct (w_print o w x) as [[|] w1].
    + destruct (IH _ _ _ _ _ E) as (tr1 & -> & R). exists (Said x :: tr1). rewrite <- app_assoc.
      split; [reflexivity|constructor; exact R].
    + injection E as <- <- <-. exists [Failed x]. split; [reflexivity|constructor].
Qed.

(** What remains of a program after some events *)
Inductive leads {A} : prog A -> list event -> prog A -> Prop :=
| leads_here p : leads p [] p
| leads_read k l tr q : leads (k l) tr q -> leads (Read k) (Heard l :: tr) q
| leads_print x k tr q : leads k tr q -> leads (Print x k) (Said x :: tr) q.
Lemma runs_leads {A} (p : prog A) tr e : runs p tr e ->
  match e with
  | Finished a => leads p tr (Return a)
  | Panicked x => leads p tr (Panics x)
  | Going => leads p tr Unfinished
  | Broken => exists tr0 x k, tr = tr0 ++ [Failed x] /\ leads p tr0 (Print x k)
  end.
Proof.
  induction 1 as [a|x| |k l tr e R IH|x k tr e R IH|x k]; try constructor.
  - destruct e; try (constructor; exact IH). destruct IH as (tr0 & x & k' & -> & E).
    exists (Heard l :: tr0), x, k'. split; [reflexivity|constructor; exact E].
  - destruct e; try (constructor; exact IH). destruct IH as (tr0 & y & k' & -> & E).
    exists (Said x :: tr0), y, k'. split; [reflexivity|constructor; exact E].
  - exists [], x, k. split; [reflexivity|constructor].
Qed.
Lemma runs_reads {A} (p : prog A) tr e : runs p tr e -> forall tr1 l tr2, tr = tr1 ++ Heard l :: tr2 ->
  exists k, leads p tr1 (Read k) /\ runs (k l) tr2 e.
Proof.
  induction 1 as [a|x| |k l tr e R IH|x k tr e R IH|x k]; intros tr1 y tr2 E.
  1-3: destruct tr1; discriminate E.
  - destruct tr1 as [|h tr1]; injection E as E1 E2.
    + subst y tr2. exists k. split; [constructor|exact R].
    + subst h. destruct (IH _ _ _ E2) as (k' & L & R'). exists k'. split; [constructor; exact L|exact R'].
  - destruct tr1 as [|h tr1]; [discriminate E|]. injection E as <- E.
    destruct (IH _ _ _ E) as (k' & L & R'). exists k'. split; [constructor; exact L|exact R'].
  - destruct tr1 as [|h tr1]; [discriminate E|]. injection E as <- E. destruct tr1; discriminate E.
Qed.

(** A program with less fuel than another *)
Inductive cut {A} : prog A -> prog A -> Prop :=
| cut_here q : cut Unfinished q
| cut_return a : cut (Return a) (Return a)
| cut_panics e : cut (Panics e) (Panics e)
| cut_read k k' : (forall l, cut (k l) (k' l)) -> cut (Read k) (Read k')
| cut_print x k k' : cut k k' -> cut (Print x k) (Print x k').
Lemma cut_same {A} (p : prog A) : cut p p.
Proof. induction p; constructor; auto. Qed.
Lemma cut_next {A B} (p q : prog A) (f g : A -> prog B) : cut p q -> (forall a, cut (f a) (g a)) ->
  cut (and_next p f) (and_next q g).
Proof. intros C H. induction C; cbn [and_next]; try constructor; auto. Qed.
Lemma cut_leads {A} (p q : prog A) tr p' : cut p q -> leads p tr p' -> exists q', leads q tr q' /\ cut p' q'.
Proof.
  intros C L. revert q C. induction L as [p|k l tr p' L IH|x k tr p' L IH]; intros q C.
  - exists q. split; [constructor|exact C].
  - inversion C as [| | |k1 k2 H|]; subst. destruct (IH _ (H l)) as (q' & L' & C').
    exists q'. split; [constructor; exact L'|exact C'].
  - inversion C as [| | | |x1 k1 k2 H]; subst. destruct (IH _ H) as (q' & L' & C').
    exists q'. split; [constructor; exact L'|exact C'].
Qed.

(** The program that is given lines beforehand *)
Fixpoint on_lines {A} (p : prog A) (lines : list rstring) (out : list printed) :
    outcome (A * list rstring * list printed) :=
  match p with
  | Return a => Ret (a, lines, out)
  | Panics e => Panic e
  | Unfinished => OutOfFuel
  | Read k => match lines with [] => on_lines (k None) [] out | l :: lines => on_lines (k (Some l)) lines out end
  | Print x k => on_lines k lines (out ++ [x])
  end.
Lemma on_lines_next {A B} (p : prog A) (f : A -> prog B) lines out :
  on_lines (and_next p f) lines out
  = let! r := on_lines p lines out in let '(a, lines, out) := r in on_lines (f a) lines out.
Proof.
  revert lines out. induction p as [a|x| |k IH|x k IH]; intros lines out; cbn [and_next on_lines bind]; try reflexivity.
  - destruct lines as [|l lines]; apply IH.
  - apply IH.
Qed.
Lemma on_lines_shrinks {A} (p : prog A) : forall lines out a lines' out',
  on_lines p lines out = Ret (a, lines', out') -> (List.length lines' <= List.length lines)%nat.
Proof.
  induction p as [a|x| |k IH|x k IH]; intros lines out b lines' out' E; cbn [on_lines] in E; try discriminate E.
  - injection E as <- <- <-. reflexivity.
  - destruct lines as [|l lines]; apply IH in E; cbn [List.length] in *; lia.
  - exact (IH _ _ _ _ _ E).
Qed.
Lemma on_lines_extends {A} (p : prog A) : forall lines out a lines' out',
  on_lines p lines out = Ret (a, lines', out') -> exists more, out' = out ++ more.
Proof.
  induction p as [a|x| |k IH|x k IH]; intros lines out b lines' out' E; cbn [on_lines] in E; try discriminate E.
  - injection E as <- <- <-. exists []. rewrite app_nil_r. reflexivity.
  - destruct lines as [|l lines]; exact (IH _ _ _ _ _ _ E).
  - destruct (IH _ _ _ _ _ E) as [more ->]. exists (x :: more). rewrite <- app_assoc. reflexivity.
Qed.
Lemma exec_on_lines {A} (p : prog A) : forall lines out,
  on_lines p lines out
  = match exec piped p (lines, out) with
    | ((l, o), Finished a) => Ret (a, l, o)
    | (_, Panicked e) => Panic e
    | _ => OutOfFuel
    end.
Proof.
  induction p as [a|x| |k IH|x k IH]; intros lines out; cbn [on_lines exec]; try reflexivity.
  - cbn [w_read piped fst snd]. destruct lines as [|l lines]; apply IH.
  - cbn [w_print piped fst snd]. apply IH.
Qed.
Lemma exec_not_broken {A} (p : prog A) : forall s, snd (exec piped p s) <> Broken.
Proof.
  induction p as [a|x| |k IH|x k IH]; intros [lines out]; cbn [exec snd]; try discriminate.
  - cbn [w_read piped fst snd]. destruct lines; apply IH.
  - cbn [w_print piped fst snd]. apply IH.
Qed.

(** The end of input ends the program there and then. *)
Fixpoint stops {A} (p : prog A) (N : A -> Prop) : Prop :=
  match p with
  | Read k => (exists a, k None = Return a /\ N a) /\ forall l, stops (k (Some l)) N
  | Print _ k => stops k N
  | _ => True
  end.
Lemma stops_next {A B} (p : prog A) (f : A -> prog B) N N' : stops p N ->
  (forall a, N a -> exists b, f a = Return b /\ N' b) -> (forall a, stops (f a) N') -> stops (and_next p f) N'.
Proof.
  intros H Hn Hf. induction p as [a|x| |k IH|x k IH]; cbn [and_next stops] in *; auto.
  destruct H as [(a & E & Na) H]. split; [|intros l; apply IH, H].
  rewrite E. cbn [and_next]. apply Hn. exact Na.
Qed.
Lemma stops_pure {A B} (x : outcome A) (f : A -> prog B) N : (forall a, x = Ret a -> stops (f a) N) ->
  stops (and_next (pure x) f) N.
Proof. intros H. destruct x; cbn; auto. Qed.
Lemma on_lines_leads {A} (q : prog A) tr q' : leads q tr q' -> forall N, stops q N -> forall out,
  on_lines q (heard tr) out = on_lines q' [] (out ++ said tr).
Proof.
  induction 1 as [q|k l tr q' L IH|x k tr q' L IH]; intros N H out; cbn [heard said flat_map].
  - rewrite app_nil_r. reflexivity.
  - cbn [stops] in H. destruct H as [(a & Ea & Na) H]. destruct l as [l|].
    + cbn [app on_lines]. exact (IH N (H l) out).
    + rewrite Ea in L. inversion L; subst. cbn [flat_map app on_lines]. rewrite Ea, app_nil_r. reflexivity.
  - cbn [on_lines stops app] in *. rewrite (IH N H). rewrite <- app_assoc. reflexivity.
Qed.
Lemma stops_here {A} (q : prog A) tr q' : leads q tr q' -> forall N, stops q N -> stops q' N.
Proof.
  induction 1 as [q|k l tr q' L IH|x k tr q' L IH]; intros N H; [exact H| |exact (IH N H)].
  destruct H as [(a & Ea & Na) H]. destruct l as [l|]; [exact (IH N (H l))|]. apply IH. rewrite Ea. exact I.
Qed.

(** Each line is asked for by what is printed right before it is read. *)
Fixpoint asks {A} (p : prog A) (N : printed -> A -> Prop) : Prop :=
  match p with
  | Read _ => False
  | Print x k =>
      match k with
      | Read k' => (exists a, k' None = Return a /\ N x a) /\ forall l, asks (k' (Some l)) N
      | _ => asks k N
      end
  | _ => True
  end.
Lemma asks_print {A} x (k : prog A) N : asks k N -> asks (Print x k) N.
Proof. destruct k; cbn; tauto. Qed.
Lemma asks_stops {A} (p : prog A) N : asks p N -> stops p (fun a => exists x, N x a).
Proof.
  enough (H : (asks p N -> stops p (fun a => exists x, N x a))
              /\ match p with Read k => forall l, asks (k (Some l)) N -> stops (k (Some l)) (fun a => exists x, N x a)
                 | _ => True end) by exact (proj1 H).
  induction p as [a|x| |k IH|x k IH]; split; try exact I; cbn [asks stops]; try tauto.
  - intros l. apply IH.
  - destruct IH as [IH1 IH2]. destruct k as [a|e| |k|y k]; cbn [stops] in *; try tauto.
    intros [(a & E & H) K]. split; [exists a; split; [exact E|exists x; exact H]|]. intros l. apply IH2, K.
Qed.
(** What a program may return *)
Fixpoint gives {A} (p : prog A) (P : A -> Prop) : Prop :=
  match p with
  | Return a => P a
  | Read k => forall l, gives (k l) P
  | Print _ k => gives k P
  | _ => True
  end.
Lemma gives_next {A B} (p : prog A) (f : A -> prog B) (P : A -> Prop) P' : gives p P -> (forall a, P a -> gives (f a) P') ->
  gives (and_next p f) P'.
Proof. intros H Hf. induction p as [a|x| |k IH|x k IH]; cbn [and_next gives] in *; auto. Qed.
Lemma gives_any {A} (p : prog A) (P : A -> Prop) : (forall a, P a) -> gives p P.
Proof. intros H. induction p as [a|x| |k IH|x k IH]; cbn [gives]; auto. Qed.
Lemma asks_gives {A B} (p : prog A) (f : A -> prog B) N N' P : asks p N -> gives p P ->
  (forall a x, N x a -> exists b, f a = Return b /\ N' x b) -> (forall a, P a -> asks (f a) N') -> asks (and_next p f) N'.
Proof.
  intros H G Hn Hf. revert H.
  enough (H : (asks p N -> asks (and_next p f) N')
              /\ match p with Read k => forall l, asks (k (Some l)) N -> asks (and_next (k (Some l)) f) N' | _ => True end)
    by exact (proj1 H).
  induction p as [a|x| |k IH|x k IH]; split; try exact I; cbn [and_next gives] in *.
  - intros _. apply Hf, G.
  - intros H; exact H.
  - intros H; exact H.
  - intros H; contradiction H.
  - intros l. apply IH, G.
  - destruct (IH G) as [IH1 IH2]. destruct k as [a|e| |k|y k].
    + intros _. apply asks_print, Hf, G.
    + intros _. exact I.
    + intros _. exact I.
    + cbn [asks and_next]. intros [(a & E & H) K]. split.
      * rewrite E. cbn [and_next]. apply Hn. exact H.
      * intros l. apply IH2, K.
    + intros H. apply asks_print, IH1. exact H.
Qed.
Lemma asks_next {A B} (p : prog A) (f : A -> prog B) N N' : asks p N ->
  (forall a x, N x a -> exists b, f a = Return b /\ N' x b) -> (forall a, asks (f a) N') -> asks (and_next p f) N'.
Proof. intros H Hn Hf. apply (asks_gives p f N N' (fun _ => True)); auto. apply gives_any. auto. Qed.
Lemma asks_pure {A B} (x : outcome A) (f : A -> prog B) N : (forall a, x = Ret a -> asks (f a) N) ->
  asks (and_next (pure x) f) N.
Proof. intros H. destruct x; cbn; auto. Qed.
Lemma asks_leads {A} (q : prog A) tr q' : leads q tr q' -> forall N k, asks q N -> q' = Read k ->
  exists tr0 x a, tr = tr0 ++ [Said x] /\ k None = Return a /\ N x a.
Proof.
  intros L.
  enough (G : forall N k, q' = Read k ->
    (asks q N -> exists tr0 x a, tr = tr0 ++ [Said x] /\ k None = Return a /\ N x a)
    /\ (forall x, asks (Print x q) N ->
          exists tr0 y a, Said x :: tr = tr0 ++ [Said y] /\ k None = Return a /\ N y a))
    by (intros N k H E; exact (proj1 (G N k E) H)).
  induction L as [q|k' l tr q' L IH|x k' tr q' L IH]; intros N k E.
  - subst q. split; [intros H; contradiction H|]. intros x [(a & Ea & Ha) H].
    exists [], x, a. repeat split; assumption.
  - split; [intros H; contradiction H|]. intros x [(a & Ea & Ha) H]. destruct l as [l|].
    + destruct (proj1 (IH N k E) (H l)) as (tr0 & y & b & -> & R).
      exists (Said x :: Heard (Some l) :: tr0), y, b. split; [reflexivity|exact R].
    + rewrite Ea in L. inversion L; subst; discriminate.
  - split.
    + intros H. exact (proj2 (IH N k E) x H).
    + intros y H. cbn [asks] in H. destruct (proj2 (IH N k E) x H) as (tr0 & z & b & -> & R).
      exists (Said y :: tr0), z, b. split; [reflexivity|exact R].
Qed.

(** ** From runs to the run on the lines that were read *)
Theorem interactive {A} (p q : prog A) N tr e : cut p q -> stops q N -> runs p tr e ->
  match e with
  | Finished a => on_lines q (heard tr) [] = Ret (a, [], said tr)
  | Panicked x => on_lines q (heard tr) [] = Panic x
  | Broken => exists tr0 x, tr = tr0 ++ [Failed x]
      /\ forall a lines out, on_lines q (heard tr) [] = Ret (a, lines, out) -> exists more, out = said tr ++ x :: more
  | Going => forall a lines out, on_lines q (heard tr) [] = Ret (a, lines, out) -> exists more, out = said tr ++ more
  end.
Proof.
  intros C H R. apply runs_leads in R. destruct e as [a|x| |].
  - destruct (cut_leads _ _ _ _ C R) as (q' & L & C'). inversion C'; subst. exact (on_lines_leads _ _ _ L N H []).
  - destruct (cut_leads _ _ _ _ C R) as (q' & L & C'). inversion C'; subst. exact (on_lines_leads _ _ _ L N H []).
  - destruct R as (tr0 & x & k & -> & R). exists tr0, x. split; [reflexivity|].
    destruct (cut_leads _ _ _ _ C R) as (q' & L & C'). inversion C' as [| | | |x1 k1 k2 C2]; subst.
    intros a lines out E. unfold heard, said in *. rewrite flat_map_app in *. cbn [flat_map] in *. rewrite app_nil_r in *.
    pose proof (on_lines_leads _ _ _ L N H []) as G. unfold heard, said in G. rewrite G in E. cbn [on_lines app] in E.
    destruct (on_lines_extends _ _ _ _ _ _ E) as [more ->]. exists more. rewrite <- app_assoc. reflexivity.
  - destruct (cut_leads _ _ _ _ C R) as (q' & L & C'). intros a lines out E.
    rewrite (on_lines_leads _ _ _ L N H []) in E. exact (on_lines_extends _ _ _ _ _ _ E).
Qed.
(** At each reading: what the run on the lines read so far does. *)
Theorem so_far {A} (p q : prog A) N tr e tr1 l tr2 : cut p q -> stops p N -> stops q N -> runs p tr e ->
  tr = tr1 ++ Heard l :: tr2 ->
  exists a, on_lines q (heard tr1) [] = Ret (a, [], said tr1) /\ (l = None -> tr2 = [] /\ e = Finished a).
Proof.
  intros C Hp H R E. destruct (runs_reads _ _ _ R _ _ _ E) as (k & L & R2).
  destruct (cut_leads _ _ _ _ C L) as (q' & L' & C'). inversion C' as [| | |k1 k2 C2|]; subst.
  pose proof (stops_here _ _ _ L' N H) as [(a & Ea & Na) _].
  pose proof (stops_here _ _ _ L N Hp) as [(b & Eb & Nb) _]. exists a. split.
  - rewrite (on_lines_leads _ _ _ L' N H []). cbn [on_lines app]. rewrite Ea. reflexivity.
  - intros ->. rewrite Eb in R2. specialize (C2 None). rewrite Ea, Eb in C2. inversion C2; subst.
    inversion R2; subst. split; reflexivity.
Qed.
Theorem asked {A} (p q : prog A) N tr e tr1 l tr2 : cut p q -> asks q N -> runs p tr e ->
  tr = tr1 ++ Heard l :: tr2 ->
  exists a before x, on_lines q (heard tr1) [] = Ret (a, [], said tr1) /\ tr1 = before ++ [Said x] /\ N x a.
Proof.
  intros C H R E. destruct (runs_reads _ _ _ R _ _ _ E) as (k & L & R2).
  destruct (cut_leads _ _ _ _ C L) as (q' & L' & C'). inversion C' as [| | |k1 k2 C2|]; subst.
  destruct (asks_leads _ _ _ L' N _ H eq_refl) as (tr0 & x & a & -> & Ea & Na). exists a, tr0, x.
  repeat split; [|exact Na]. rewrite (on_lines_leads _ _ _ L' _ (asks_stops _ _ H) []). cbn [on_lines app].
  rewrite Ea. reflexivity.
Qed.

(** ** jacks-or-better *)
Lemma wager_lines credits : forall fuel lines out, (List.length lines < fuel)%nat ->
  on_lines (ask_wager fuel credits) lines out = Ret (get_wager credits lines out).
Proof.
  induction fuel as [|fuel IH]; intros lines out L; [lia|]. cbn [ask_wager on_lines].
  destruct lines as [|input lines]; cbn [on_lines get_wager]; [reflexivity|]. cbn [List.length] in L.
  destruct (str_eqb input (lit "quit")); [reflexivity|].
  destruct (parse_usize input) as [x|]; [|cbn [on_lines]; apply IH; lia].
  destruct (x =? 0)%Z; [cbn [on_lines]; apply IH; lia|].
  destruct (MAX_WAGER <? x)%Z; [cbn [on_lines]; apply IH; lia|].
  destruct (credits <? x)%Z; [cbn [on_lines]; apply IH; lia|]. reflexivity.
Qed.
Lemma on_lines_pure {A B} (x : outcome A) (f : A -> prog B) lines out :
  on_lines (and_next (pure x) f) lines out = let! a := x in on_lines (f a) lines out.
Proof. destruct x; reflexivity. Qed.
Lemma swaps_lines order : forall fuel lines out, (List.length lines < fuel)%nat ->
  on_lines (ask_swaps fuel order) lines out = get_swaps order lines out.
Proof.
  induction fuel as [|fuel IH]; intros lines out L; [lia|]. cbn [ask_swaps on_lines].
  destruct lines as [|input lines]; cbn [on_lines get_swaps]; [reflexivity|]. cbn [List.length] in L.
  destruct (str_eqb input (lit "quit")); [reflexivity|].
  destruct (parse_all (split_whitespace input)) as [swaps|]; [|cbn [on_lines]; apply IH; lia].
  destruct (negb (forallb _ swaps)); [cbn [on_lines]; apply IH; lia|].
  destruct (negb (Nat.leb _ _)); [cbn [on_lines]; apply IH; lia|].
  destruct (negb (all_inserted _ _)); [cbn [on_lines]; apply IH; lia|].
  rewrite on_lines_pure. reflexivity.
Qed.
Lemma wager_less credits : forall lines out w lines' out', get_wager credits lines out = (Some w, lines', out') ->
  (List.length lines' < List.length lines)%nat.
Proof.
  induction lines as [|input lines IH]; intros out w lines' out' E; cbn [get_wager] in E; [discriminate E|].
  cbn [List.length]. destruct (str_eqb input (lit "quit")); [discriminate E|].
  destruct (parse_usize input) as [x|]; [|apply IH in E; lia].
  destruct (x =? 0)%Z; [apply IH in E; lia|]. destruct (MAX_WAGER <? x)%Z; [apply IH in E; lia|].
  destruct (credits <? x)%Z; [apply IH in E; lia|]. injection E as <- <- <-. lia.
Qed.
Lemma swaps_less order : forall lines out a lines' out', get_swaps order lines out = Ret (a, lines', out') ->
  (List.length lines' <= List.length lines)%nat.
Proof.
  intros lines out a lines' out' E. rewrite <- (swaps_lines order (S (List.length lines))) in E by lia.
  exact (on_lines_shrinks _ _ _ _ _ _ E).
Qed.

Definition table_of {R} (g : game R) : table R := mk_table (g_deck g) (g_hand g) (g_credits g) (g_rng g).
Definition game_of {R} (lines : list rstring) (out : list printed) (t : table R) : game R :=
  mk_game lines out (t_deck t) (t_hand t) (t_credits t) (t_rng t).
Lemma game_of_table {R} (g : game R) : game_of (g_lines g) (g_out g) (table_of g) = g.
Proof. destruct g; reflexivity. Qed.
Lemma bind_assoc {A B C} (m : outcome A) (f : A -> outcome B) (g : B -> outcome C) :
  bind (bind m f) g = bind m (fun a => bind (f a) g).
Proof. destruct m; reflexivity. Qed.
Lemma bind_ext {A B} (m : outcome A) (k k' : A -> outcome B) : (forall x, m = Ret x -> k x = k' x) -> bind m k = bind m k'.
Proof. intros H. destruct m; cbn [bind]; auto. Qed.
Lemma turn_lines {R} gen order ev fuel (t : table R) lines out : (List.length lines < fuel)%nat ->
  on_lines (play_turn fuel gen order ev t) lines out
  = let! p := game_turn gen order ev (game_of lines out t) in
    Ret (fst p, table_of (snd p), g_lines (snd p), g_out (snd p)).
Proof.
  intros L. unfold play_turn, game_turn. rewrite on_lines_next, wager_lines by exact L. cbn [bind].
  cbn [game_of g_lines g_out g_deck g_hand g_credits g_rng].
  destruct (get_wager (t_credits t) lines out) as [[[wager|] lines1] out1] eqn:Ew; [|destruct t; reflexivity].
  apply wager_less in Ew.
  rewrite on_lines_pure, bind_assoc. apply bind_ext. intros credits _.
  rewrite on_lines_pure, bind_assoc. apply bind_ext. intros [dealt deck] _.
  rewrite on_lines_pure, bind_assoc. apply bind_ext. intros r _.
  rewrite on_lines_pure, bind_assoc. apply bind_ext. intros first _. cbn [on_lines].
  rewrite on_lines_pure, bind_assoc. apply bind_ext. intros text _. cbn [on_lines].
  rewrite on_lines_next, swaps_lines by lia. rewrite bind_assoc. apply bind_ext.
  intros [[[swaps|] lines2] out2] Es; [|reflexivity]. rewrite on_lines_pure, bind_assoc. apply bind_ext.
  intros [[deck2 hand2] rng2] _.
  rewrite on_lines_pure, bind_assoc. apply bind_ext. intros r2 _.
  rewrite on_lines_pure, bind_assoc. apply bind_ext. intros second _.
  rewrite on_lines_pure, bind_assoc. apply bind_ext. intros text2 _. cbn [on_lines].
  rewrite on_lines_next.
  destruct (class_cmp (eval_class_of second) (eval_class_of first)); cbn [on_lines bind];
  (rewrite on_lines_pure, bind_assoc; apply bind_ext; intros winnings _;
   rewrite on_lines_pure, bind_assoc; apply bind_ext; intros [credits3 line] _; cbn [on_lines];
   destruct (credits3 =? 0)%Z; [reflexivity|]; cbn [on_lines];
   rewrite on_lines_pure, bind_assoc; apply bind_ext; intros [deck4 rng4] _; reflexivity).
Qed.
Lemma bind_ret {A B} (m : outcome A) (k : A -> outcome B) r : bind m k = Ret r -> exists x, m = Ret x /\ k x = Ret r.
Proof. destruct m as [x| |]; intros H; [|discriminate H..]. exists x. split; [reflexivity|exact H]. Qed.
Lemma turn_less {R} gen order ev (g g' : game R) : game_turn gen order ev g = Ret (Again, g') ->
  (List.length (g_lines g') < List.length (g_lines g))%nat.
Proof.
  unfold game_turn. destruct (get_wager (g_credits g) (g_lines g) (g_out g)) as [[[wager|] lines1] out1] eqn:Ew;
    [|intros E; discriminate E].
  apply wager_less in Ew. intros E.
  apply bind_ret in E. destruct E as (credits & _ & E).
  apply bind_ret in E. destruct E as ([dealt deck] & _ & E).
  apply bind_ret in E. destruct E as (r & _ & E).
  apply bind_ret in E. destruct E as (first & _ & E).
  apply bind_ret in E. destruct E as (text & _ & E).
  apply bind_ret in E. destruct E as ([[[swaps|] lines2] out2] & Es & E); [|discriminate E].
  apply swaps_less in Es.
  apply bind_ret in E. destruct E as ([[deck2 hand2] rng2] & _ & E).
  apply bind_ret in E. destruct E as (r2 & _ & E).
  apply bind_ret in E. destruct E as (second & _ & E).
  apply bind_ret in E. destruct E as (text2 & _ & E).
  apply bind_ret in E. destruct E as (winnings & _ & E).
  apply bind_ret in E. destruct E as ([credits3 line] & _ & E).
  destruct (credits3 =? 0)%Z; [discriminate E|].
  apply bind_ret in E. destruct E as ([deck4 rng4] & _ & E). injection E as <-. cbn [g_lines]. lia.
Qed.
Lemma loop_lines {R} gen order ev : forall fuel fuel' (t : table R) lines out,
  (List.length lines < fuel)%nat -> (List.length lines < fuel')%nat ->
  on_lines (play_loop fuel gen order ev t) lines out
  = let! g := game_loop gen order ev fuel' (game_of lines out t) in Ret (table_of g, g_lines g, g_out g).
Proof.
  induction fuel as [|fuel IH]; intros [|fuel'] t lines out L L'; try lia. cbn [play_loop game_loop].
  rewrite on_lines_next, turn_lines by exact L. rewrite !bind_assoc. apply bind_ext. intros [[|] g] E; cbn [bind fst snd].
  - reflexivity.
  - apply turn_less in E. cbn [game_of g_lines] in E. rewrite (IH fuel') by lia. rewrite game_of_table. reflexivity.
Qed.
Theorem play_lines {R} gen order (rng : R) fuel lines : (List.length lines < fuel)%nat ->
  on_lines (play fuel gen order rng) lines []
  = let! g := jacks_main gen order lines rng in Ret (table_of g, g_lines g, g_out g).
Proof.
  intros L. unfold play, jacks_main, game_start. cbn [on_lines app]. rewrite on_lines_pure, !bind_assoc. apply bind_ext.
  intros ev _. cbn [on_lines app]. rewrite on_lines_pure, !bind_assoc. apply bind_ext. intros [deck rng'] _.
  rewrite (loop_lines gen order ev fuel (S (List.length lines))) by lia. reflexivity.
Qed.

Lemma cut_wager credits : forall n m, (n <= m)%nat -> cut (ask_wager n credits) (ask_wager m credits).
Proof.
  induction n as [|n IH]; intros m L; [constructor|]. destruct m as [|m]; [lia|]. cbn [ask_wager].
  apply cut_print, cut_read. intros [input|]; [|constructor]. destruct (str_eqb input _); [constructor|].
  assert (H := IH m ltac:(lia)). destruct (parse_usize input) as [x|]; [|constructor; exact H].
  destruct (x =? 0)%Z; [constructor; exact H|]. destruct (MAX_WAGER <? x)%Z; [constructor; exact H|].
  destruct (credits <? x)%Z; constructor; exact H.
Qed.
Lemma cut_swaps order : forall n m, (n <= m)%nat -> cut (ask_swaps n order) (ask_swaps m order).
Proof.
  induction n as [|n IH]; intros m L; [constructor|]. destruct m as [|m]; [lia|]. cbn [ask_swaps].
  apply cut_print, cut_read. intros [input|]; [|constructor]. destruct (str_eqb input _); [constructor|].
  assert (H := IH m ltac:(lia)). destruct (parse_all _) as [swaps|]; [|constructor; exact H].
  destruct (negb (forallb _ swaps)); [constructor; exact H|].
  destruct (negb (Nat.leb _ _)); [constructor; exact H|].
  destruct (negb (all_inserted _ _)); [constructor; exact H|]. apply cut_same.
Qed.
Lemma cut_pure {A B} (x : outcome A) (f g : A -> prog B) : (forall a, cut (f a) (g a)) ->
  cut (and_next (pure x) f) (and_next (pure x) g).
Proof. intros H. apply cut_next; [apply cut_same|exact H]. Qed.
Lemma cut_turn {R} gen order ev n m (t : table R) : (n <= m)%nat ->
  cut (play_turn n gen order ev t) (play_turn m gen order ev t).
Proof.
  intros L. unfold play_turn. apply cut_next; [apply cut_wager; exact L|]. intros [wager|]; [|constructor].
  apply cut_pure. intros credits. apply cut_pure. intros [dealt deck]. apply cut_pure. intros r.
  apply cut_pure. intros first. apply cut_print, cut_pure. intros text. apply cut_print, cut_next; [apply cut_swaps; exact L|].
  intros a. apply cut_same.
Qed.
Lemma cut_loop {R} gen order ev : forall n m (t : table R), (n <= m)%nat ->
  cut (play_loop n gen order ev t) (play_loop m gen order ev t).
Proof.
  induction n as [|n IH]; intros m t L; [constructor|]. destruct m as [|m]; [lia|]. cbn [play_loop].
  apply cut_next; [apply cut_turn; exact L|]. intros [[|] t']; [constructor|]. apply IH. lia.
Qed.
Lemma cut_play {R} gen order (rng : R) n m : (n <= m)%nat -> cut (play n gen order rng) (play m gen order rng).
Proof.
  intros L. unfold play. apply cut_print, cut_pure. intros ev. apply cut_print, cut_pure. intros [deck rng'].
  apply cut_loop. exact L.
Qed.

(** The question that is open when a line is read *)
Definition question {R} (x : printed) (t : table R) : Prop :=
  (t_hand t = [] /\ x = wager_message (t_credits t)) \/ (List.length (t_hand t) = 5%nat /\ x = swaps_message).
Lemma asks_wager credits fuel : asks (ask_wager fuel credits) (fun x a => a = None /\ x = wager_message credits).
Proof.
  induction fuel as [|fuel IH]; [exact I|]. cbn [ask_wager asks]. split.
  - exists None. repeat split.
  - intros input. destruct (str_eqb input _); [exact I|]. destruct (parse_usize input) as [x|]; [|apply asks_print, IH].
    destruct (x =? 0)%Z; [apply asks_print, IH|]. destruct (MAX_WAGER <? x)%Z; [apply asks_print, IH|].
    destruct (credits <? x)%Z; [apply asks_print, IH|exact I].
Qed.
Lemma asks_swaps order fuel : asks (ask_swaps fuel order) (fun x a => a = None /\ x = swaps_message).
Proof.
  induction fuel as [|fuel IH]; [exact I|]. cbn [ask_swaps asks]. split.
  - exists None. repeat split.
  - intros input. destruct (str_eqb input _); [exact I|]. destruct (parse_all _) as [swaps|]; [|apply asks_print, IH].
    destruct (negb (forallb _ swaps)); [apply asks_print, IH|].
    destruct (negb (Nat.leb _ _)); [apply asks_print, IH|].
    destruct (negb (all_inserted _ _)); [apply asks_print, IH|]. apply asks_pure. intros a _. exact I.
Qed.
Lemma asks_turn {R} gen order ev fuel (t : table R) : t_hand t = [] ->
  asks (play_turn fuel gen order ev t) (fun x p => fst p = Break /\ question x (snd p)).
Proof.
  intros Ht. unfold play_turn. eapply asks_next; [apply asks_wager| |].
  - intros a x [-> ->]. eexists. split; [reflexivity|]. split; [reflexivity|]. left. split; [exact Ht|reflexivity].
  - intros [wager|]; [|exact I]. apply asks_pure. intros credits _. apply asks_pure. intros [dealt deck] Ed.
    rewrite Ht. cbn [app]. apply asks_pure. intros r _. apply asks_pure. intros first _. apply asks_print.
    apply asks_pure. intros text _. apply asks_print. eapply asks_next; [apply asks_swaps| |].
    + intros a x [-> ->]. eexists. split; [reflexivity|]. split; [reflexivity|]. right. split; [|reflexivity].
      cbn [snd t_hand]. unfold drain_front in Ed. destruct (Nat.leb_spec 5 (List.length (t_deck t))) as [H|H]; [|discriminate Ed].
      assert (D : dealt = firstn 5 (t_deck t)) by congruence. rewrite D, firstn_length. lia.
    + intros [swaps|]; [|exact I]. apply asks_pure. intros [[deck2 hand2] rng2] _. apply asks_pure. intros r2 _.
      apply asks_pure. intros second _. apply asks_pure. intros text2 _. apply asks_print.
      eapply (asks_next _ _ (fun _ _ => False)); [destruct (class_cmp _ _); exact I|intros ? ? []|]. intros _.
      apply asks_pure. intros winnings _. apply asks_pure. intros [credits3 line] _. apply asks_print.
      destruct (credits3 =? 0)%Z; [exact I|]. apply asks_print, asks_pure. intros [deck4 rng4] _. exact I.
Qed.
Lemma gives_pure {A B} (x : outcome A) (f : A -> prog B) P : (forall a, x = Ret a -> gives (f a) P) ->
  gives (and_next (pure x) f) P.
Proof. intros H. destruct x; cbn; auto. Qed.
Lemma gives_turn {R} gen order ev fuel (t : table R) :
  gives (play_turn fuel gen order ev t) (fun p => fst p = Again -> t_hand (snd p) = []).
Proof.
  unfold play_turn. eapply gives_next; [apply (gives_any _ (fun _ => True)); auto|]. intros [wager|] _; [|discriminate].
  apply gives_pure. intros credits _. apply gives_pure. intros [dealt deck] _. apply gives_pure. intros r _.
  apply gives_pure. intros first _. cbn [gives]. apply gives_pure. intros text _. cbn [gives].
  eapply gives_next; [apply (gives_any _ (fun _ => True)); auto|]. intros [swaps|] _; [|discriminate].
  apply gives_pure. intros [[deck2 hand2] rng2] _. apply gives_pure. intros r2 _.
  apply gives_pure. intros second _. apply gives_pure. intros text2 _. cbn [gives].
  eapply gives_next; [apply (gives_any _ (fun _ => True)); auto|]. intros _ _.
  apply gives_pure. intros winnings _. apply gives_pure. intros [credits3 line] _. cbn [gives].
  destruct (credits3 =? 0)%Z; [discriminate|]. cbn [gives]. apply gives_pure. intros [deck4 rng4] _ _. reflexivity.
Qed.
Lemma asks_loop {R} gen order ev : forall fuel (t : table R), t_hand t = [] -> asks (play_loop fuel gen order ev t) question.
Proof.
  induction fuel as [|fuel IH]; intros t Ht; [exact I|]. cbn [play_loop].
  eapply asks_gives; [apply asks_turn; exact Ht|apply gives_turn| |].
  - intros [[|] t'] x [E Q]; [|discriminate E]. exists t'. split; [reflexivity|exact Q].
  - intros [[|] t'] G; [exact I|]. apply IH, G. reflexivity.
Qed.
Lemma asks_play {R} gen order (rng : R) fuel : asks (play fuel gen order rng) question.
Proof.
  unfold play. apply asks_print, asks_pure. intros ev _. apply asks_print, asks_pure. intros [deck rng'] _.
  apply asks_loop. reflexivity.
Qed.


(** What [jacks_main] does with the lines read *)
Definition as_game {R} (g : game R) : table R * list rstring * list printed := (table_of g, g_lines g, g_out g).
Lemma as_game_of {R} (m : outcome (game R)) t lines out : (let! g := m in Ret (as_game g)) = Ret (t, lines, out) ->
  m = Ret (game_of lines out t).
Proof.
  intros E. apply bind_ret in E. destruct E as (g & -> & E). injection E as <- <- <-. rewrite game_of_table. reflexivity.
Qed.
Lemma enough_fuel {R} gen order (rng : R) fuel lines : exists m, (fuel <= m)%nat
  /\ on_lines (play m gen order rng) lines [] = let! g := jacks_main gen order lines rng in Ret (as_game g).
Proof. exists (fuel + S (List.length lines))%nat. split; [lia|]. apply play_lines. lia. Qed.
Lemma stops_play {R} gen order (rng : R) fuel : stops (play fuel gen order rng) (fun t => exists x, question x t).
Proof. apply asks_stops, asks_play. Qed.

Theorem played {R} (gen : R -> nat -> nat * R) order rng fuel W (o : world W) w w' tr e :
  exec (recording o) (play fuel gen order rng) (w, []) = ((w', tr), e) ->
  match e with
  | Finished t => jacks_main gen order (heard tr) rng
                  = Ret (mk_game [] (said tr) (t_deck t) (t_hand t) (t_credits t) (t_rng t))
  | Panicked p => jacks_main gen order (heard tr) rng = Panic p
  | Broken => exists before p, tr = before ++ [Failed p]
      /\ forall g, jacks_main gen order (heard tr) rng = Ret g -> exists more, g_out g = said tr ++ p :: more
  | Going => forall g, jacks_main gen order (heard tr) rng = Ret g -> exists more, g_out g = said tr ++ more
  end.
Proof.
  intros E. destruct (exec_runs _ _ _ _ _ _ _ E) as (tr1 & -> & Rn). cbn [app]. clear E.
  destruct (enough_fuel gen order rng fuel (heard tr1)) as (m & L & E).
  pose proof (interactive _ _ _ _ _ (cut_play gen order rng fuel m L) (stops_play gen order rng m) Rn) as H.
  destruct e as [t|p| |].
  - rewrite H in E. symmetry in E. exact (as_game_of _ _ _ _ E).
  - rewrite H in E. destruct (jacks_main gen order (heard tr1) rng) as [g|x|]; cbn [bind] in E; congruence.
  - destruct H as (before & p & Et & H). exists before, p. split; [exact Et|]. intros g Eg. rewrite Eg in E.
    exact (H _ _ _ E).
  - intros g Eg. rewrite Eg in E. exact (H _ _ _ E).
Qed.

Theorem asked_first {R} (gen : R -> nat -> nat * R) order rng fuel W (o : world W) w w' tr e tr1 l tr2 :
  exec (recording o) (play fuel gen order rng) (w, []) = ((w', tr), e) -> tr = tr1 ++ Heard l :: tr2 ->
  exists g before q, jacks_main gen order (heard tr1) rng = Ret g /\ g_out g = said tr1 /\ tr1 = before ++ [Said q]
    /\ ((g_hand g = [] /\ q = wager_message (g_credits g)) \/ (List.length (g_hand g) = 5%nat /\ q = swaps_message))
    /\ (l = None -> tr2 = [] /\ e = Finished (mk_table (g_deck g) (g_hand g) (g_credits g) (g_rng g))).
Proof.
  intros E Et. destruct (exec_runs _ _ _ _ _ _ _ E) as (tr' & E' & Rn). cbn [app] in E'. subst tr'. clear E.
  destruct (enough_fuel gen order rng fuel (heard tr1)) as (m & L & E).
  pose proof (cut_play gen order rng fuel m L) as C.
  destruct (asked _ _ _ _ _ _ _ _ C (asks_play gen order rng m) Rn Et) as (t & before & x & H1 & H2 & H3).
  destruct (so_far _ _ _ _ _ _ _ _ C (stops_play gen order rng fuel) (stops_play gen order rng m) Rn Et) as (t' & H4 & H5).
  rewrite H1 in H4. injection H4 as <-. rewrite H1 in E. symmetry in E. apply as_game_of in E.
  exists (game_of [] (said tr1) t), before, x. split; [exact E|]. split; [reflexivity|]. split; [exact H2|].
  split; [exact H3|]. destruct t; exact H5.
Qed.

Theorem keeps_asking {R} (gen : R -> nat -> nat * R) order rng fuel W (o : world W) w w' tr :
  fair gen -> reorders order ->
  exec (recording o) (play fuel gen order rng) (w, []) = ((w', tr), Going) -> (fuel <= List.length (heard tr))%nat.
Proof.
  intros F O E. destruct (exec_runs _ _ _ _ _ _ _ E) as (tr' & E' & Rn). cbn [app] in E'. subst tr'. clear E.
  apply runs_leads in Rn. destruct (Nat.le_gt_cases fuel (List.length (heard tr))) as [H|H]; [exact H|exfalso].
  pose proof (on_lines_leads _ _ _ Rn _ (stops_play gen order rng fuel) []) as E. rewrite play_lines in E by exact H.
  destruct (JacksFacts.jacks_total gen order (heard tr) rng F O) as (ev & g0 & _ & _ & _ & _ & _ & _ & [(l & g & J & _)|(l & g & c & x & J & _)]);
    rewrite J in E; cbn [bind on_lines] in E; discriminate E.
Qed.
Theorem no_panic {R} (gen : R -> nat -> nat * R) order rng fuel W (o : world W) w w' tr p :
  fair gen -> reorders order -> (Z.of_nat (List.length (heard tr)) < 2 ^ 52)%Z ->
  exec (recording o) (play fuel gen order rng) (w, []) <> ((w', tr), Panicked p).
Proof.
  intros F O L E. apply played in E. cbn beta iota in E.
  destruct (JacksFacts.jacks_total gen order (heard tr) rng F O) as (ev & g0 & _ & _ & _ & _ & _ & _ & [(l & g & J & _)|(l & g & c & x & J & H)]).
  - rewrite J in E. discriminate E.
  - destruct H as (_ & _ & _ & _ & H). lia.
Qed.
Theorem piped_game {R} (gen : R -> nat -> nat * R) order rng lines g : jacks_main gen order lines rng = Ret g ->
  exec piped (play (S (List.length lines)) gen order rng) (lines, [])
  = ((g_lines g, g_out g), Finished (mk_table (g_deck g) (g_hand g) (g_credits g) (g_rng g))).
Proof.
  intros E. pose proof (play_lines gen order rng (S (List.length lines)) lines ltac:(lia)) as H. rewrite E in H. cbn [bind] in H.
  rewrite exec_on_lines in H. destruct (exec piped _ _) as [[l out] [t|p| |]]; try discriminate H.
  injection H as -> -> ->. reflexivity.
Qed.

(** ** poker-repl *)
Lemma serve_lines {H} (history : H -> rstring -> result H unit) order ev : forall fuel lines h out,
  (List.length lines < fuel)%nat ->
  (let! r := on_lines (serve fuel history order ev h) lines out in Ret (snd r))
  = repl_loop history order ev lines h out.
Proof.
  induction fuel as [|fuel IH]; intros lines h out L; [lia|]. cbn [serve on_lines].
  destruct lines as [|l lines]; [reflexivity|]. cbn [List.length] in L. cbn [repl_loop].
  rewrite on_lines_pure, bind_assoc. apply bind_ext. intros h' _.
  destruct (str_eqb l (lit "help")); [cbn [on_lines]; apply IH; lia|].
  destruct (str_eqb l (lit "quit")); [reflexivity|].
  destruct (try_collect (cards_macro_text l)) as [cards|e]; [|cbn [on_lines]; apply IH; lia].
  rewrite on_lines_pure, bind_assoc. apply bind_ext. intros [r|e] _; cbn [on_lines]; apply IH; lia.
Qed.
Lemma repl_lines {H} (history : H -> rstring -> result H unit) order fuel lines h : (List.length lines < fuel)%nat ->
  (let! r := on_lines (repl fuel history order h) lines [] in Ret (snd r)) = repl_main history order lines h.
Proof.
  intros L. unfold repl, repl_main. rewrite on_lines_pure, bind_assoc. apply bind_ext. intros ev _.
  cbn [on_lines app]. apply serve_lines. exact L.
Qed.
Lemma cut_serve {H} (history : H -> rstring -> result H unit) order ev : forall n m h, (n <= m)%nat ->
  cut (serve n history order ev h) (serve m history order ev h).
Proof.
  induction n as [|n IH]; intros m h L; [constructor|]. destruct m as [|m]; [lia|]. cbn [serve].
  apply cut_read. intros [l|]; [|constructor]. apply cut_pure. intros h'. assert (C := IH m h' ltac:(lia)).
  destruct (str_eqb l (lit "help")); [constructor; exact C|].
  destruct (str_eqb l (lit "quit")); [constructor|].
  destruct (try_collect (cards_macro_text l)) as [cards|e]; [|constructor; exact C].
  apply cut_pure. intros [r|e]; constructor; exact C.
Qed.
Lemma cut_repl {H} (history : H -> rstring -> result H unit) order n m h : (n <= m)%nat ->
  cut (repl n history order h) (repl m history order h).
Proof. intros L. unfold repl. apply cut_pure. intros ev. apply cut_print, cut_serve, L. Qed.
Lemma stops_serve {H} (history : H -> rstring -> result H unit) order ev : forall n h,
  stops (serve n history order ev h) (fun _ => True).
Proof.
  induction n as [|n IH]; intros h; [exact I|]. cbn [serve stops]. split; [exists tt; split; [reflexivity|exact I]|].
  intros l. apply stops_pure. intros h' _. assert (C := IH h').
  destruct (str_eqb l (lit "help")); [exact C|]. destruct (str_eqb l (lit "quit")); [exact I|].
  destruct (try_collect (cards_macro_text l)) as [cards|e]; [|exact C].
  apply stops_pure. intros [r|e] _; exact C.
Qed.
Lemma stops_repl {H} (history : H -> rstring -> result H unit) order n h :
  stops (repl n history order h) (fun _ => True).
Proof. unfold repl. apply stops_pure. intros ev _. cbn [stops]. apply stops_serve. Qed.

Theorem served {H} (history : H -> rstring -> result H unit) order h fuel W (o : world W) w w' tr e :
  exec (recording o) (repl fuel history order h) (w, []) = ((w', tr), e) ->
  match e with
  | Finished _ => repl_main history order (heard tr) h = Ret (said tr)
  | Panicked p => repl_main history order (heard tr) h = Panic p
  | Broken => exists before p, tr = before ++ [Failed p]
      /\ forall out, repl_main history order (heard tr) h = Ret out -> exists more, out = said tr ++ p :: more
  | Going => forall out, repl_main history order (heard tr) h = Ret out -> exists more, out = said tr ++ more
  end.
Proof.
  intros E. destruct (exec_runs _ _ _ _ _ _ _ E) as (tr1 & -> & Rn). cbn [app]. clear E.
  pose proof (repl_lines history order (fuel + S (List.length (heard tr1))) (heard tr1) h ltac:(lia)) as E.
  pose proof (interactive _ _ _ _ _ (cut_repl history order fuel (fuel + S (List.length (heard tr1))) h ltac:(lia))
                (stops_repl history order _ h) Rn) as G.
  destruct e as [t|p| |].
  - rewrite G in E. symmetry in E. exact E.
  - rewrite G in E. symmetry in E. exact E.
  - destruct G as (before & p & Et & G). exists before, p. split; [exact Et|]. intros out Eo. rewrite <- E in Eo.
    apply bind_ret in Eo. destruct Eo as ([[a l] o'] & Ea & Eo). injection Eo as <-. exact (G _ _ _ Ea).
  - intros out Eo. rewrite <- E in Eo.
    apply bind_ret in Eo. destruct Eo as ([[a l] o'] & Ea & Eo). injection Eo as <-. exact (G _ _ _ Ea).
Qed.
Theorem answered_first {H} (history : H -> rstring -> result H unit) order h fuel W (o : world W) w w' tr e tr1 l tr2 :
  exec (recording o) (repl fuel history order h) (w, []) = ((w', tr), e) -> tr = tr1 ++ Heard l :: tr2 ->
  repl_main history order (heard tr1) h = Ret (said tr1) /\ (l = None -> tr2 = [] /\ e = Finished tt).
Proof.
  intros E Et. destruct (exec_runs _ _ _ _ _ _ _ E) as (tr' & E' & Rn). cbn [app] in E'. subst tr'. clear E.
  pose proof (repl_lines history order (fuel + S (List.length (heard tr1))) (heard tr1) h ltac:(lia)) as E.
  destruct (so_far _ _ _ _ _ _ _ _ (cut_repl history order fuel (fuel + S (List.length (heard tr1))) h ltac:(lia))
              (stops_repl history order _ h) (stops_repl history order _ h) Rn Et) as ([] & H4 & H5).
  rewrite H4 in E. split; [symmetry; exact E|exact H5].
Qed.

Lemma runs_read_inv {A} (k : option rstring -> prog A) tr e : runs (Read k) tr e ->
  exists l tr', tr = Heard l :: tr' /\ runs (k l) tr' e.
Proof. intros R. inversion R; subst. eauto. Qed.
Lemma serve_dialogue {H} (history : H -> rstring -> result H unit) order ev :
  (forall h l, exists h', history h l = Ok h') -> new_evaluator ev ->
  forall fuel h tr e, runs (serve fuel history order ev h) tr e ->
  dialogue (ReplFacts.repl_answer order ev) tr e /\ (e = Going -> List.length (heard tr) = fuel).
Proof.
  intros Hh Hev. induction fuel as [|fuel IH]; intros h tr e R; cbn [serve] in R.
  - inversion R; subst. split; [constructor|reflexivity].
  - apply runs_read_inv in R. destruct R as ([l|] & tr' & -> & R').
    2: { inversion R'; subst. split; [constructor|discriminate]. }
    destruct (Hh h l) as [h' Eh]. rewrite Eh in R'. cbn [unwrap pure and_next] in R'.
    assert (Go : forall p, p = ReplFacts.repl_answer order ev l -> l <> lit "quit" ->
              runs (Print p (serve fuel history order ev h')) tr' e ->
              dialogue (ReplFacts.repl_answer order ev) (Heard (Some l) :: tr') e
              /\ (e = Going -> List.length (heard (Heard (Some l) :: tr')) = S fuel)).
    { intros p -> Hq R. inversion R as [| | | |x k tr2 e2 R2|x k]; subst.
      - destruct (IH _ _ _ R2) as [D G]. split; [constructor; assumption|]. intros Ee. cbn. f_equal. exact (G Ee).
      - split; [constructor; assumption|discriminate]. }
    unfold ReplFacts.repl_answer in Go. fold (ReplFacts.repl_answer order ev) in Go.
    destruct (str_eqb l (lit "help")) eqn:E1.
    + apply ExamplesFacts.str_eqb_eq in E1. apply (Go _ eq_refl); [rewrite E1; discriminate|exact R'].
    + destruct (str_eqb l (lit "quit")) eqn:E2.
      * apply ExamplesFacts.str_eqb_eq in E2. subst l. inversion R'; subst. split; [constructor|discriminate].
      * apply ExamplesFacts.str_eqb_neq in E2. unfold cards_macro_text in *.
        destruct (try_collect (parse_to_iter (split_whitespace l))) as [cs|x] eqn:Ec.
        -- apply TextFacts.try_collect_ok, ReplFacts.all_parsed in Ec. destruct Ec as [A _].
           destruct (HandFacts.evaluate_total ev cs Hev A) as (r & Er & _).
           rewrite Er in Go, R'. cbn [pure and_next] in R'. destruct r as [r|x]; exact (Go _ eq_refl E2 R').
        -- exact (Go _ eq_refl E2 R').
Qed.
Theorem conversation {H} (history : H -> rstring -> result H unit) order :
  (forall h l, exists h', history h l = Ok h') -> reorders order ->
  exists ev answer, new_evaluator ev /\ (forall l, replies ev l (answer l))
  /\ forall h fuel W (o : world W) w w' tr e,
     exec (recording o) (repl fuel history order h) (w, []) = ((w', tr), e) ->
     (tr = [Failed (Line [BrightGreen; Bold] repl_welcome)] /\ e = Broken)
     \/ exists tr', tr = Said (Line [BrightGreen; Bold] repl_welcome) :: tr' /\ dialogue answer tr' e
        /\ (e = Going -> List.length (heard tr) = fuel).
Proof.
  intros Hh O. destruct HandFacts.evaluator_new_ret as [ev Hev]. exists ev, (ReplFacts.repl_answer order ev).
  split; [exact Hev|]. split; [intros l; apply ReplFacts.repl_answer_correct; assumption|].
  intros h fuel W o w w' tr e E. destruct (exec_runs _ _ _ _ _ _ _ E) as (tr' & E' & Rn). cbn [app] in E'. subst tr'. clear E.
  unfold repl in Rn. unfold new_evaluator in Hev. rewrite Hev in Rn. cbn [pure and_next] in Rn.
  inversion Rn as [| | | |x k tr2 e2 R2|x k]; subst.
  - right. destruct (serve_dialogue history order ev Hh Hev _ _ _ _ R2) as [D G].
    exists tr2. split; [reflexivity|]. split; [exact D|exact G].
  - left. split; reflexivity.
Qed.

(** ** Cases *)
(** A player who bets five more than the number of things printed *)
Definition counting : world nat :=
  mk_world (fun n => (Some (show (Z.of_nat (n + 5))), n)) (fun n _ => (true, S n)).
(** A screen that takes two things, with nobody at it *)
Definition small_screen : world nat := mk_world (fun n => (None, n)) (fun n _ => (Nat.ltb n 2, S n)).
(** A player with nothing to say *)
Definition speechless : world unit := mk_world (fun s => (None, s)) (fun s _ => (true, s)).
Lemma first_deal : exists deck, shuffled_with ReleaseFacts.first_of tt = Ret (deck, tt).
Proof. eexists. vm_compute. reflexivity. Qed.
Lemma started ev deck fuel : evaluator_new = Ret ev -> shuffled_with ReleaseFacts.first_of tt = Ret (deck, tt) ->
  play fuel ReleaseFacts.first_of ReleaseFacts.as_is tt
  = Print Clear (Print (Line [BrightGreen; Bold] JACKS_WELCOME)
      (play_loop fuel ReleaseFacts.first_of ReleaseFacts.as_is ev (mk_table deck [] STARTING_CREDITS tt))).
Proof. intros E D. unfold play. rewrite E, D. reflexivity. Qed.
Lemma counting_case : exists w tr,
  exec (recording counting) (play 3 ReleaseFacts.first_of ReleaseFacts.as_is tt) (O, []) = ((w, tr), Going)
  /\ heard tr = [lit "8"; lit "10"; lit "12"].
Proof.
  destruct HandFacts.evaluator_new_ret as [ev Hev]. destruct first_deal as [deck D].
  rewrite (started ev deck 3 Hev D). clear. do 2 eexists. split; vm_compute; reflexivity.
Qed.
Lemma small_case :
  exec (recording small_screen) (play 9 ReleaseFacts.first_of ReleaseFacts.as_is tt) (O, [])
  = ((3%nat, [Said Clear; Said (Line [BrightGreen; Bold] jacks_welcome); Failed (wager_message 100)]), Broken).
Proof.
  destruct HandFacts.evaluator_new_ret as [ev Hev]. destruct first_deal as [deck D].
  rewrite (started ev deck 9 Hev D). clear. vm_compute. reflexivity.
Qed.
Lemma speechless_case : exists t,
  exec (recording speechless) (play 9 ReleaseFacts.first_of ReleaseFacts.as_is tt) (tt, [])
  = ((tt, [Said Clear; Said (Line [BrightGreen; Bold] jacks_welcome); Said (wager_message 100); Heard None]), Finished t)
  /\ t_credits t = 100%Z.
Proof.
  destruct HandFacts.evaluator_new_ret as [ev Hev]. destruct first_deal as [deck D].
  rewrite (started ev deck 9 Hev D). clear. eexists. split; vm_compute; reflexivity.
Qed.
Lemma repl_case :
  exec (recording counting) (repl 1 (fun (h : unit) _ => Ok h) (fun l => l) tt) (O, [])
  = ((2%nat, [Said (Line [BrightGreen; Bold] repl_welcome); Heard (Some (lit "6"));
              Said (Line [] (parse_card_error_display (InvalidLength (lit "6"))))]), Going).
Proof.
  destruct HandFacts.evaluator_new_ret as [ev Hev]. unfold repl. unfold new_evaluator in Hev. rewrite Hev. clear.
  vm_compute. reflexivity.
Qed.
