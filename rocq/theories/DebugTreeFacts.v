(** DebugTreeFacts.v: the pretty [Debug] texts. *)
From Coq Require Import Lia List String ZArith NArith Bool Arith Permutation FMapPositive.
From Verif Require Import Base BaseFacts ModelCard ModelEval ModelTable ModelEvaluation ModelDebug ModelDebugText ModelDebugTree
  Spec SpecApi SpecText SpecTable SpecDebug SpecDebugText SpecDebugTree CardFacts TextFacts DebugFacts.
From Verif Require EvalFacts HandFacts LawFacts TableFacts DebugTextFacts.
Import ListNotations.
Local Open Scope string_scope.
Local Open Scope list_scope.

(** ** Induction over trees *)
Section TreeInd.
  Variable P : tree -> Prop.
  Hypothesis HT : forall s, P (Text s).
  Hypothesis HN : forall b z, P (Number b z).
  Hypothesis HS : forall n fs, Forall (fun p => P (snd p)) fs -> P (Struct n fs).
  Hypothesis HU : forall n l, Forall P l -> P (Tuple n l).
  Hypothesis HI : forall l, Forall P l -> P (Items l).
  Hypothesis HE : forall l, Forall (fun p => P (fst p) /\ P (snd p)) l -> P (Entries l).
  Fixpoint tree_rec' (t : tree) : P t :=
    match t with
    | Text s => HT s
    | Number b z => HN b z
    | Struct n fs => HS n fs ((fix go l : Forall (fun p => P (snd p)) l :=
        match l with [] => Forall_nil _ | p :: l' => Forall_cons p (tree_rec' (snd p)) (go l') end) fs)
    | Tuple n l => HU n l ((fix go l : Forall P l :=
        match l with [] => Forall_nil _ | x :: l' => Forall_cons x (tree_rec' x) (go l') end) l)
    | Items l => HI l ((fix go l : Forall P l :=
        match l with [] => Forall_nil _ | x :: l' => Forall_cons x (tree_rec' x) (go l') end) l)
    | Entries l => HE l ((fix go l : Forall (fun p => P (fst p) /\ P (snd p)) l :=
        match l with [] => Forall_nil _ | p :: l' => Forall_cons p (conj (tree_rec' (fst p)) (tree_rec' (snd p))) (go l') end) l)
    end.
End TreeInd.

(** ** The characters that matter are the same *)
Lemma squeezed_app a b : squeezed (a ++ b) = squeezed a ++ squeezed b.
Proof. apply filter_app. Qed.
Lemma squeezed_pad b s : squeezed (pad b s) = squeezed s.
Proof.
  revert b. induction s as [|c s IH]; intros b; [reflexivity|]. cbn [pad]. rewrite squeezed_app.
  transitivity (squeezed (c :: pad (c =? 10)%N s)); [destruct b; reflexivity|].
  unfold squeezed in *. cbn [filter]. rewrite IH. reflexivity.
Qed.
Lemma squeezed_join l : squeezed (join (lit ", ") l) = flat_map squeezed l.
Proof.
  induction l as [|a l IH]; [reflexivity|]. destruct l as [|b l].
  - cbn [join flat_map]. rewrite app_nil_r. reflexivity.
  - change (join (lit ", ") (a :: b :: l)) with (a ++ lit ", " ++ join (lit ", ") (b :: l)).
    rewrite !squeezed_app, IH. reflexivity.
Qed.
Lemma squeezed_flat {A} (f : A -> rstring) l : squeezed (flat_map f l) = flat_map (fun x => squeezed (f x)) l.
Proof. induction l as [|a l IH]; [reflexivity|]. cbn [flat_map]. rewrite squeezed_app, IH. reflexivity. Qed.
Lemma flat_map_map' {A B C} (f : B -> list C) (g : A -> B) l : flat_map f (map g l) = flat_map (fun x => f (g x)) l.
Proof. induction l as [|a l IH]; [reflexivity|]. cbn [map flat_map]. rewrite IH. reflexivity. Qed.
Lemma flat_map_eq {A B} (f g : A -> list B) l : Forall (fun x => f x = g x) l -> flat_map f l = flat_map g l.
Proof. induction 1 as [|a l E _ IH]; [reflexivity|]. cbn [flat_map]. rewrite E, IH. reflexivity. Qed.

Theorem same_characters t : squeezed (pretty t) = squeezed (compact t).
Proof.
  induction t as [s|b z|n fs IH|n l IH|l IH|l IH] using tree_rec'.
  - reflexivity.
  - reflexivity.
  - destruct fs as [|p fs]; [reflexivity|]. cbn [pretty compact]. remember (p :: fs) as m.
    rewrite !squeezed_app, squeezed_join, squeezed_flat, flat_map_map'.
    erewrite (flat_map_eq _ _ m); [reflexivity|]. revert IH. apply Forall_impl. intros [f t] Q. cbn [fst snd] in *.
    rewrite squeezed_pad, !squeezed_app, Q. rewrite app_nil_r. reflexivity.
  - destruct l as [|x l]; [reflexivity|]. cbn [pretty compact]. remember (x :: l) as m.
    rewrite !squeezed_app, squeezed_join, squeezed_flat, flat_map_map'.
    erewrite (flat_map_eq _ _ m); [reflexivity|]. revert IH. apply Forall_impl. intros q Q.
    rewrite squeezed_pad, !squeezed_app, Q. rewrite app_nil_r. reflexivity.
  - destruct l as [|x l]; [reflexivity|]. cbn [pretty compact]. remember (x :: l) as m.
    rewrite !squeezed_app, squeezed_join, squeezed_flat, flat_map_map'.
    erewrite (flat_map_eq _ _ m); [reflexivity|]. revert IH. apply Forall_impl. intros q Q.
    rewrite squeezed_pad, !squeezed_app, Q. rewrite app_nil_r. reflexivity.
  - destruct l as [|x l]; [reflexivity|]. cbn [pretty compact]. remember (x :: l) as m.
    rewrite !squeezed_app, squeezed_join, squeezed_flat, flat_map_map'.
    erewrite (flat_map_eq _ _ m); [reflexivity|]. revert IH. apply Forall_impl. intros [f t] [Q1 Q2]. cbn [fst snd] in *.
    rewrite squeezed_pad, !squeezed_app, Q1, Q2. rewrite app_nil_r. reflexivity.
Qed.

(** ** Lines *)
Definition no_lf (s : rstring) : Prop := ~ In 10%N s.
Definition ends (ls : list (nat * rstring)) : rstring := flat_map (fun l => indented l ++ [10%N]) ls.
Definition on_first (pre : rstring) (ls : list (nat * rstring)) : list (nat * rstring) :=
  match ls with [] => [] | (d, s) :: r => (d, pre ++ s) :: r end.
Fixpoint on_last (suf : rstring) (ls : list (nat * rstring)) : list (nat * rstring) :=
  match ls with [] => [] | [(d, s)] => [(d, s ++ suf)] | l :: r => l :: on_last suf r end.
Definition deeper (ls : list (nat * rstring)) : list (nat * rstring) := map (fun l => (S (fst l), snd l)) ls.
Definition part (pre : rstring) (ls : list (nat * rstring)) : list (nat * rstring) :=
  deeper (on_last (lit ",") (on_first pre ls)).
Definition starts (ls : list (nat * rstring)) : Prop := match ls with (0, _) :: _ => True | _ => False end.
Definition clean (ls : list (nat * rstring)) : Prop := Forall (fun l => no_lf (snd l)) ls.

Lemma block_ends ls : ls <> [] -> block ls ++ [10%N] = ends ls.
Proof.
  induction ls as [|l ls IH]; [congruence|]. intros _. destruct ls as [|m ls].
  - cbn. rewrite app_nil_r. reflexivity.
  - change (block (l :: m :: ls)) with (indented l ++ 10%N :: block (m :: ls)).
    change (ends (l :: m :: ls)) with ((indented l ++ [10%N]) ++ ends (m :: ls)).
    rewrite <- IH by discriminate. rewrite <- !app_assoc. reflexivity.
Qed.
Lemma block_wrap a X z : block (a :: X ++ [z]) = indented a ++ [10%N] ++ ends X ++ indented z.
Proof.
  revert a. induction X as [|x X IH]; intros a.
  - reflexivity.
  - change (block (a :: (x :: X) ++ [z])) with (indented a ++ 10%N :: block (x :: X ++ [z])). rewrite IH.
    cbn [ends flat_map]. fold (ends X). rewrite <- !app_assoc. reflexivity.
Qed.
Lemma block_first pre ls : starts ls -> block (on_first pre ls) = pre ++ block ls.
Proof.
  destruct ls as [|[[|d] s] r]; intros []. cbn [on_first]. destruct r as [|l r]; [reflexivity|].
  change (indented (0, pre ++ s) ++ 10%N :: block (l :: r) = pre ++ indented (0, s) ++ 10%N :: block (l :: r)).
  unfold indented. cbn [fst snd repeat List.concat app]. rewrite <- app_assoc. reflexivity.
Qed.
Lemma block_last suf ls : ls <> [] -> block (on_last suf ls) = block ls ++ suf.
Proof.
  induction ls as [|[d s] ls IH]; [congruence|]. intros _. destruct ls as [|m ls].
  - cbn [on_last block]. unfold indented. cbn [fst snd]. rewrite <- app_assoc. reflexivity.
  - assert (E : on_last suf ((d, s) :: m :: ls) = (d, s) :: on_last suf (m :: ls)) by reflexivity. rewrite E.
    assert (N : exists y ys, on_last suf (m :: ls) = y :: ys).
    { destruct m, ls; cbn; eauto. }
    destruct N as (y & ys & N). rewrite N.
    change (indented (d, s) ++ 10%N :: block (y :: ys) = (indented (d, s) ++ 10%N :: block (m :: ls)) ++ suf).
    rewrite <- N, IH by discriminate. rewrite <- app_assoc. reflexivity.
Qed.
Lemma pad_false x y : no_lf x -> pad false (x ++ 10%N :: y) = x ++ 10%N :: pad true y.
Proof.
  induction x as [|c x IH]; intros N; [reflexivity|]. cbn [app pad].
  destruct (N.eqb_spec c 10) as [->|_]; [exfalso; apply N; left; reflexivity|].
  cbn [app]. rewrite IH; [reflexivity|]. intros I. apply N. right. exact I.
Qed.
Lemma pad_line x y : no_lf x -> pad true (x ++ 10%N :: y) = lit "    " ++ x ++ 10%N :: pad true y.
Proof.
  destruct x as [|c x]; intros N; [reflexivity|]. cbn [app pad].
  destruct (N.eqb_spec c 10) as [->|_]; [exfalso; apply N; left; reflexivity|].
  rewrite pad_false; [reflexivity|]. intros I. apply N. right. exact I.
Qed.
Lemma no_lf_app a b : no_lf (a ++ b) <-> no_lf a /\ no_lf b.
Proof. unfold no_lf. rewrite in_app_iff. tauto. Qed.
Lemma no_lf_blanks d : no_lf (List.concat (repeat (lit "    ") d)).
Proof. induction d as [|d IH]; [intros []|]. cbn [repeat List.concat]. apply no_lf_app. split; [cbn; intros H; repeat (destruct H as [H|H]; [discriminate H|]); exact H|exact IH]. Qed.
Lemma pad_ends ls : clean ls -> pad true (ends ls) = ends (deeper ls).
Proof.
  induction 1 as [|[d s] ls N _ IH]; [reflexivity|]. cbn [ends flat_map deeper map fst snd]. fold (ends ls). fold (ends (deeper ls)).
  rewrite <- app_assoc. cbn [app]. rewrite pad_line.
  - rewrite IH. unfold indented. cbn [fst snd repeat List.concat]. rewrite <- !app_assoc. reflexivity.
  - unfold indented. apply no_lf_app. split; [apply no_lf_blanks|exact N].
Qed.
Lemma clean_first pre ls : no_lf pre -> clean ls -> clean (on_first pre ls).
Proof.
  intros N C. destruct ls as [|[d s] r]; [exact C|]. apply Forall_cons_iff in C. destruct C as (Cs & C).
  constructor; [|exact C]. cbn [snd] in *. apply no_lf_app. split; assumption.
Qed.
Lemma clean_last suf ls : no_lf suf -> clean ls -> clean (on_last suf ls).
Proof.
  intros N C. induction C as [|[d s] ls Cs C IH]; [constructor|]. destruct ls as [|m ls].
  - constructor; [|constructor]. cbn [snd] in *. apply no_lf_app. split; assumption.
  - change (clean ((d, s) :: on_last suf (m :: ls))). constructor; assumption.
Qed.
Lemma first_nonempty pre ls : ls <> [] -> on_first pre ls <> [].
Proof. destruct ls as [|[d s] r]; [congruence|discriminate]. Qed.
Lemma last_nonempty suf ls : ls <> [] -> on_last suf ls <> [].
Proof. destruct ls as [|[d s] [|m r]]; [congruence|discriminate|discriminate]. Qed.
Lemma starts_nonempty ls : starts ls -> ls <> [].
Proof. destruct ls; [intros []|discriminate]. Qed.

Lemma pad_part pre ls : starts ls -> clean ls -> no_lf pre ->
  pad true (pre ++ block ls ++ lit "," ++ [10%N]) = ends (part pre ls).
Proof.
  intros S C N. unfold part. rewrite <- pad_ends.
  - f_equal. rewrite <- block_ends by (apply last_nonempty, first_nonempty, starts_nonempty, S).
    rewrite block_last by (apply first_nonempty, starts_nonempty, S). rewrite block_first by exact S.
    rewrite <- !app_assoc. reflexivity.
  - apply clean_last; [intros [H|[]]; discriminate H|]. apply clean_first; assumption.
Qed.

(** The lines of a tree (the keys of maps are single texts). *)
Fixpoint layout (t : tree) : list (nat * rstring) :=
  match t with
  | Text s => [(0, s)]
  | Number _ z => [(0, debug_int z)]
  | Struct n [] => [(0, n)]
  | Struct n fs => (0, n ++ lit " {") :: flat_map (fun p => part (fst p ++ lit ": ") (layout (snd p))) fs ++ [(0, lit "}")]
  | Tuple n [] => [(0, n)]
  | Tuple n l => (0, n ++ lit "(") :: flat_map (fun x => part [] (layout x)) l ++ [(0, lit ")")]
  | Items [] => [(0, lit "[]")]
  | Items l => (0, lit "[") :: flat_map (fun x => part [] (layout x)) l ++ [(0, lit "]")]
  | Entries [] => [(0, lit "{}")]
  | Entries l => (0, lit "{") :: flat_map (fun p => part (compact (fst p) ++ lit ": ") (layout (snd p))) l ++ [(0, lit "}")]
  end.
Fixpoint simple (t : tree) : Prop :=
  match t with
  | Text s => no_lf s
  | Number _ _ => True
  | Struct n fs => no_lf n /\ (fix go l := match l with [] => True | p :: l' => no_lf (fst p) /\ simple (snd p) /\ go l' end) fs
  | Tuple n l => no_lf n /\ (fix go l := match l with [] => True | x :: l' => simple x /\ go l' end) l
  | Items l => (fix go l := match l with [] => True | x :: l' => simple x /\ go l' end) l
  | Entries l => (fix go l := match l with [] => True | p :: l' =>
      (exists b z, fst p = Number b z) /\ simple (snd p) /\ go l' end) l
  end.
Lemma simple_struct n fs : simple (Struct n fs) <-> no_lf n /\ Forall (fun p => no_lf (fst p) /\ simple (snd p)) fs.
Proof.
  cbn [simple]. apply and_iff_compat_l. induction fs as [|p fs IH]; [split; constructor|]. rewrite Forall_cons_iff, IH. tauto.
Qed.
Lemma simple_tuple n l : simple (Tuple n l) <-> no_lf n /\ Forall simple l.
Proof.
  cbn [simple]. apply and_iff_compat_l. induction l as [|p l IH]; [split; constructor|]. rewrite Forall_cons_iff, IH. tauto.
Qed.
Lemma simple_items l : simple (Items l) <-> Forall simple l.
Proof. cbn [simple]. induction l as [|p l IH]; [split; constructor|]. rewrite Forall_cons_iff, IH. tauto. Qed.
Lemma simple_entries l : simple (Entries l) <-> Forall (fun p => (exists b z, fst p = Number b z) /\ simple (snd p)) l.
Proof. cbn [simple]. induction l as [|p l IH]; [split; constructor|]. rewrite Forall_cons_iff, IH. tauto. Qed.

Lemma clean_part pre ls : no_lf pre -> clean ls -> clean (part pre ls).
Proof.
  intros N C. unfold part, deeper, clean. rewrite Forall_map. cbn [snd].
  apply clean_last; [intros [H|[]]; discriminate H|]. apply clean_first; assumption.
Qed.
Lemma clean_flat {A} (f : A -> list (nat * rstring)) l : Forall (fun x => clean (f x)) l -> clean (flat_map f l).
Proof. induction 1 as [|x l C _ IH]; [constructor|]. cbn [flat_map]. apply Forall_app. split; assumption. Qed.
Lemma clean_wrap a X z : no_lf a -> no_lf z -> clean X -> clean ((0, a) :: X ++ [(0, z)]).
Proof. intros A Z C. constructor; [exact A|]. apply Forall_app. split; [exact C|]. constructor; [exact Z|constructor]. Qed.
Ltac nolf := cbn; intros H; repeat (destruct H as [H|H]; [discriminate H|]); exact H.

Lemma no_lf_int z : no_lf (debug_int z).
Proof. intros H. apply debug_int_chars in H. lia. Qed.

Lemma pretty_block t : simple t -> pretty t = block (layout t) /\ starts (layout t) /\ clean (layout t).
Proof.
  assert (FL : forall A (f : A -> rstring) (g : A -> list (nat * rstring)) l, Forall (fun x => f x = ends (g x)) l ->
             flat_map f l = ends (flat_map g l)).
  { intros A f g l. induction 1 as [|x l E _ IH]; [reflexivity|]. cbn [flat_map]. unfold ends. rewrite flat_map_app.
    fold (ends (g x)). fold (ends (flat_map g l)). rewrite E, IH. reflexivity. }
  induction t as [s|b z|n fs IH|n l IH|l IH|l IH] using tree_rec'; intros S.
  - split; [reflexivity|]. split; [exact I|]. constructor; [exact S|constructor].
  - split; [reflexivity|]. split; [exact I|]. constructor; [apply no_lf_int|constructor].
  - apply simple_struct in S. destruct S as (Nn & S). destruct fs as [|p fs].
    { split; [reflexivity|]. split; [exact I|]. constructor; [exact Nn|constructor]. }
    cbn [pretty layout]. remember (p :: fs) as m. rewrite Forall_forall in IH, S. split; [|split; [exact I|]].
    + rewrite block_wrap. unfold indented at 1 2. cbn [fst snd repeat List.concat app]. rewrite <- !app_assoc. do 3 f_equal.
      apply f_equal2; [|reflexivity]. apply FL, Forall_forall. intros q Hq. destruct (S q Hq) as (Nq & Sq).
      pose proof (IH q Hq Sq) as X. destruct q as [f t]. cbn [fst snd] in *. destruct X as (-> & St & C). rewrite <- pad_part; [rewrite <- app_assoc; reflexivity|exact St|exact C|].
      apply no_lf_app. split; [exact Nq|nolf].
    + apply clean_wrap; [apply no_lf_app; split; [exact Nn|nolf]|nolf|]. apply clean_flat, Forall_forall. intros q Hq.
      destruct (S q Hq) as (Nq & Sq). apply clean_part; [apply no_lf_app; split; [exact Nq|nolf]|apply IH; assumption].
  - apply simple_tuple in S. destruct S as (Nn & S). destruct l as [|p l].
    { split; [reflexivity|]. split; [exact I|]. constructor; [exact Nn|constructor]. }
    cbn [pretty layout]. remember (p :: l) as m. rewrite Forall_forall in IH, S. split; [|split; [exact I|]].
    + rewrite block_wrap. unfold indented at 1 2. cbn [fst snd repeat List.concat app]. rewrite <- !app_assoc. do 2 f_equal.
      cbn [app]. f_equal. apply f_equal2; [|reflexivity]. apply FL, Forall_forall. intros q Hq.
      destruct (IH q Hq (S q Hq)) as (-> & St & C). rewrite <- pad_part; [reflexivity|exact St|exact C|nolf].
    + apply clean_wrap; [apply no_lf_app; split; [exact Nn|nolf]|nolf|]. apply clean_flat, Forall_forall. intros q Hq.
      apply clean_part; [nolf|apply IH; [exact Hq|apply S, Hq]].
  - apply simple_items in S. destruct l as [|p l].
    { split; [reflexivity|]. split; [exact I|]. constructor; [nolf|constructor]. }
    cbn [pretty layout]. remember (p :: l) as m. rewrite Forall_forall in IH, S. split; [|split; [exact I|]].
    + rewrite block_wrap. unfold indented at 1 2. cbn [fst snd repeat List.concat app]. do 2 f_equal.
      apply f_equal2; [|reflexivity]. apply FL, Forall_forall. intros q Hq.
      destruct (IH q Hq (S q Hq)) as (-> & St & C). rewrite <- pad_part; [reflexivity|exact St|exact C|nolf].
    + apply clean_wrap; [nolf|nolf|]. apply clean_flat, Forall_forall. intros q Hq.
      apply clean_part; [nolf|apply IH; [exact Hq|apply S, Hq]].
  - apply simple_entries in S. destruct l as [|p l].
    { split; [reflexivity|]. split; [exact I|]. constructor; [nolf|constructor]. }
    cbn [pretty layout]. remember (p :: l) as m. rewrite Forall_forall in IH, S. split; [|split; [exact I|]].
    + rewrite block_wrap. unfold indented at 1 2. cbn [fst snd repeat List.concat app]. do 2 f_equal.
      apply f_equal2; [|reflexivity]. apply FL, Forall_forall. intros q Hq. destruct (S q Hq) as ((b & z & Es) & Sq).
      pose proof (proj2 (IH q Hq) Sq) as X. destruct q as [f t]. cbn [fst snd] in *. destruct X as (-> & St & C). rewrite Es. cbn [pretty compact].
      rewrite <- pad_part; [rewrite <- app_assoc; reflexivity|exact St|exact C|apply no_lf_app; split; [apply no_lf_int|nolf]].
    + apply clean_wrap; [nolf|nolf|]. apply clean_flat, Forall_forall. intros q Hq.
      destruct (S q Hq) as ((b & z & Es) & Sq). rewrite Es. cbn [compact].
      apply clean_part; [apply no_lf_app; split; [apply no_lf_int|nolf]|apply (proj2 (IH q Hq)), Sq].
Qed.

(** ** The trees of the types *)
Lemma no_lf_dec n : no_lf (dec n).
Proof. intros H. apply dec_chars in H. lia. Qed.
Lemma no_lf_rank r : no_lf (rank_debug r).
Proof. destruct r; nolf. Qed.
Lemma no_lf_suit s : no_lf (suit_debug s).
Proof. destruct s; nolf. Qed.
Lemma simple_phr p : simple (phr_tree p).
Proof. apply simple_tuple. split; [nolf|]. constructor; [exact I|constructor]. Qed.
Ltac fields_simple :=
  apply simple_struct; split; [nolf|];
  repeat (apply Forall_cons; [split; [nolf|first [exact I | apply simple_phr | apply no_lf_rank | apply no_lf_suit]]|]);
  apply Forall_nil.
Lemma simple_card c : simple (card_tree c).
Proof. fields_simple. Qed.
Lemma simple_class c : simple (class_tree c).
Proof. destruct c; cbn [class_tree]; fields_simple. Qed.
Lemma simple_meta m : simple (meta_tree m).
Proof. destruct m; cbn [meta_tree]; fields_simple. Qed.
Lemma simple_eval e : simple (eval_tree e).
Proof. apply simple_tuple. split; [nolf|]. constructor; [apply simple_meta|constructor]. Qed.
Lemma simple_eval_error e : simple (eval_error_tree e).
Proof.
  destruct e as [h|n]; apply simple_tuple; (split; [nolf|]); constructor; try constructor.
  apply simple_items. apply Forall_map, Forall_forall. intros c _. apply simple_card.
Qed.

Lemma debug_int_nat n : debug_int (Z.of_nat n) = dec (N.of_nat n).
Proof.
  unfold debug_int. destruct (Z.ltb_spec (Z.of_nat n) 0) as [H|_]; [lia|]. f_equal. lia.
Qed.
Lemma compact_card c : compact (card_tree c) = card_debug c.
Proof. reflexivity. Qed.
Lemma compact_meta m : compact (meta_tree m) = meta_debug m.
Proof. destruct m; reflexivity. Qed.
Theorem compact_texts plain :
  (forall c, compact (card_tree c) = card_debug c) /\ (forall c, pretty (card_tree c) = card_debug_pretty c)
  /\ (forall c, compact (class_tree c) = class_debug c) /\ (forall e, compact (eval_tree e) = eval_debug e)
  /\ (forall e, compact (eval_error_tree e) = eval_error_debug e)
  /\ (forall e, compact (parse_card_error_tree plain e) = parse_card_error_debug plain e)
  /\ (forall e, pretty (parse_card_error_tree plain e) = parse_card_error_debug_pretty plain e)
  /\ (forall e, compact (result_tree (Ok e)) = lit "Ok(" ++ eval_debug e ++ lit ")")
  /\ (forall e, compact (result_tree (Err e)) = lit "Err(" ++ eval_error_debug e ++ lit ")").
Proof.
  assert (L : forall n x y, no_lf x -> no_lf n -> pad true (n ++ lit ": " ++ x ++ lit "," ++ 10%N :: y) = lit "    " ++ n ++ lit ": " ++ x ++ lit "," ++ 10%N :: pad true y).
  { intros n x y Nx Nn. replace (n ++ lit ": " ++ x ++ lit "," ++ 10%N :: y) with ((n ++ lit ": " ++ x ++ lit ",") ++ 10%N :: y) by (rewrite <- !app_assoc; reflexivity).
    rewrite pad_line; [rewrite <- !app_assoc; reflexivity|]. rewrite !no_lf_app. repeat split; [exact Nn|nolf|exact Nx|nolf]. }
  assert (LS : forall n s y, no_lf n -> pad true (n ++ lit ": " ++ str_debug plain s ++ lit "," ++ 10%N :: y)
            = lit "    " ++ n ++ lit ": " ++ str_debug plain s ++ lit "," ++ 10%N :: pad true y).
  { intros n s y Nn. apply L; [|exact Nn]. intros H. pose proof (DebugTextFacts.str_debug_tame plain s) as T.
    rewrite Forall_forall in T. apply T in H. destruct H as (_ & _ & H & _). apply H. reflexivity. }
  assert (LC : forall n c y, no_lf n -> pad true (n ++ lit ": " ++ char_debug plain c ++ lit "," ++ 10%N :: y)
            = lit "    " ++ n ++ lit ": " ++ char_debug plain c ++ lit "," ++ 10%N :: pad true y).
  { intros n c y Nn. apply L; [|exact Nn]. intros H. pose proof (DebugTextFacts.char_debug_tame plain c) as T.
    rewrite Forall_forall in T. apply T in H. destruct H as (_ & _ & H & _). apply H. reflexivity. }
  split; [exact compact_card|]. split.
  { intros c. unfold card_tree, card_debug_pretty, card_debug_fields, debug_struct_pretty. cbn [pretty flat_map fst snd i32_tree rank_tree suit_tree].
    rewrite !L; try nolf; [reflexivity|apply no_lf_suit|apply no_lf_rank|apply no_lf_int]. }
  split; [intros []; reflexivity|]. split; [intros [m]; unfold eval_tree, eval_debug, debug_tuple; cbn [compact map join eval_meta]; rewrite compact_meta; reflexivity|].
  assert (EE : forall e, compact (eval_error_tree e) = eval_error_debug e).
  { intros [h|n]; [|cbn [eval_error_tree eval_error_debug compact map join]; rewrite debug_int_nat; reflexivity]. cbn [eval_error_tree eval_error_debug compact map join]. unfold debug_tuple, debug_list.
    rewrite map_map. reflexivity. }
  split; [exact EE|]. split; [intros []; reflexivity|]. split; [|split; [|intros e; cbn [result_tree compact map join]; rewrite EE; reflexivity]].
  - intros [s|s c|s c]; unfold parse_card_error_debug_pretty, parse_card_error_fields, debug_struct_pretty;
      cbn [parse_card_error_tree pretty flat_map fst snd]; rewrite ?LS, ?LC by nolf; reflexivity.
  - intros [m]. cbn [result_tree compact map join]. unfold eval_tree. cbn [compact map join eval_meta]. rewrite compact_meta. reflexivity.
Qed.

(** ** The pretty texts *)
Theorem class_pretty c : pretty (class_tree c) = block (class_lines c).
Proof. destruct c as [r|r|r q|r|r|r|r q|r|r]; destruct r; try destruct q; vm_compute; reflexivity. Qed.

Definition number_tree (z : Z) (c : eval_class) : tree :=
  Tuple (lit "Eval") [Struct (lit (variant c))
    ((lit "hand_rank", Tuple (lit "PokerHandRank") [Number 16 z])
     :: match c with
        | HighCard r | Straight r | Flush r | StraightFlush r => [(lit "high_rank", rank_tree r)]
        | Pair r => [(lit "pair", rank_tree r)]
        | TwoPair a b => [(lit "high_pair", rank_tree a); (lit "low_pair", rank_tree b)]
        | ThreeOfAKind r => [(lit "trips", rank_tree r)]
        | FullHouse a b => [(lit "trips", rank_tree a); (lit "pair", rank_tree b)]
        | FourOfAKind r => [(lit "quads", rank_tree r)]
        end)].
Lemma eval_number e : eval_tree e = number_tree (phr (eval_hand_rank e)) (eval_class_of e).
Proof. destruct e as [[]]; reflexivity. Qed.
Lemma number_layout z c : layout (number_tree z c) = result_lines (debug_int z) c.
Proof. destruct c as [r|r|r q|r|r|r|r q|r|r]; destruct r; try destruct q; reflexivity. Qed.
Lemma result_pretty_any e : pretty (eval_tree e) = block (result_lines (debug_int (phr (eval_hand_rank e))) (eval_class_of e)).
Proof. rewrite (proj1 (pretty_block _ (simple_eval e))), eval_number, number_layout. reflexivity. Qed.
Theorem result_pretty e : (0 <= phr (eval_hand_rank e))%Z ->
  pretty (eval_tree e) = block (result_lines (dec (Z.to_N (phr (eval_hand_rank e)))) (eval_class_of e)).
Proof.
  intros P. rewrite result_pretty_any. unfold debug_int at 1. destruct (Z.ltb_spec (phr (eval_hand_rank e)) 0); [lia|reflexivity].
Qed.

Definition card_lines' (c : card) : list (nat * rstring) :=
  [(2, lit "Card {"); (3, lit "unique_integer: " ++ debug_int (unique_integer c) ++ lit ",");
   (3, lit "rank: " ++ rank_debug (card_rank c) ++ lit ","); (3, lit "suit: " ++ suit_debug (card_suit c) ++ lit ",");
   (2, lit "},")].
Lemma card_lines_same c : a_card c -> card_lines' c = card_lines c.
Proof.
  intros (r & s & ->). destruct (card_parts r s) as (R & S & N). unfold card_lines', card_lines. rewrite R, S.
  unfold debug_int. rewrite N. rewrite rank_debug_text, suit_debug_text, !lit_app. reflexivity.
Qed.
Lemma map_flat {A B C} (f : B -> C) (g : A -> list B) l : map f (flat_map g l) = flat_map (fun x => map f (g x)) l.
Proof. induction l as [|a l IH]; [reflexivity|]. cbn [flat_map]. rewrite map_app, IH. reflexivity. Qed.
Lemma part_wrap pre d a X z : part pre ((d, a) :: X ++ [(0, z)]) = (S d, pre ++ a) :: deeper X ++ [(1, z ++ lit ",")].
Proof.
  unfold part. cbn [on_first].
  assert (E : forall l, on_last (lit ",") (l :: X ++ [(0, z)]) = l :: X ++ [(0, z ++ lit ",")]).
  { induction X as [|x X IH]; intros [i s]; [reflexivity|]. cbn [app]. change (on_last (lit ",") ((i, s) :: x :: X ++ [(0, z)])) with ((i, s) :: on_last (lit ",") (x :: X ++ [(0, z)])).
    rewrite IH. reflexivity. }
  rewrite E. unfold deeper. cbn [map fst snd]. rewrite map_app. reflexivity.
Qed.
Lemma cards_layout h : h <> [] -> layout (eval_error_tree (CardsNotUnique h))
  = [(0, lit "CardsNotUnique("); (1, lit "[")] ++ flat_map card_lines' h ++ [(1, lit "],"); (0, lit ")")].
Proof.
  intros N. destruct h as [|c h]; [congruence|]. cbn [eval_error_tree layout map flat_map app]. fold (map card_tree h).
  change (part [] (layout (card_tree c)) ++ flat_map (fun x => part [] (layout x)) (map card_tree h))
    with (flat_map (fun x => part [] (layout x)) (map card_tree (c :: h))).
  rewrite flat_map_map', app_nil_r.
  rewrite part_wrap. cbn [app]. do 2 f_equal. rewrite <- app_assoc. cbn [app]. f_equal.
  unfold deeper. rewrite map_flat. apply (flat_map_ext _ _ (fun x => eq_refl) (c :: h)).
Qed.
Theorem error_pretty :
  (forall n, pretty (eval_error_tree (InvalidHandSize n))
             = block [(0, lit "InvalidHandSize("); (1, dec (N.of_nat n) ++ lit ","); (0, lit ")")])
  /\ (pretty (eval_error_tree (CardsNotUnique [])) = block [(0, lit "CardsNotUnique("); (1, lit "[],"); (0, lit ")")])
  /\ forall h, all_cards h -> h <> [] -> pretty (eval_error_tree (CardsNotUnique h))
       = block ([(0, lit "CardsNotUnique("); (1, lit "[")] ++ flat_map card_lines h ++ [(1, lit "],"); (0, lit ")")]).
Proof.
  split; [|split; [reflexivity|]].
  - intros n. rewrite (proj1 (pretty_block _ (simple_eval_error _))), <- debug_int_nat. reflexivity.
  - intros h A N. rewrite (proj1 (pretty_block _ (simple_eval_error _))), (cards_layout h N).
    rewrite (flat_map_eq card_lines' card_lines); [reflexivity|]. revert A. apply Forall_impl. exact card_lines_same.
Qed.

(** ** Telling values apart *)
Lemma block_inj l m : clean l -> clean m -> l <> [] -> m <> [] -> block l = block m -> map indented l = map indented m.
Proof.
  intros Cl Cm Nl Nm E. apply (f_equal (fun s => s ++ [10%N])) in E. rewrite !block_ends in E by assumption.
  clear Nl Nm. revert m Cm E. induction Cl as [|[d s] l Ns Cl IH]; intros m Cm E.
  - destruct m as [|k m]; [reflexivity|exfalso]. cbn [ends flat_map] in E. fold (ends m) in E. rewrite <- app_assoc in E.
    destruct (indented k); discriminate E.
  - destruct m as [|[d' s'] m].
    { exfalso. cbn [ends flat_map] in E. fold (ends l) in E. rewrite <- app_assoc in E. destruct (indented (d, s)); discriminate E. }
    apply Forall_cons_iff in Cm. destruct Cm as (Ns' & Cm).
    cbn [ends flat_map] in E. fold (ends l) (ends m) in E. rewrite <- !app_assoc in E. cbn [app] in E.
    apply cut in E; [|apply no_lf_app; split; [apply no_lf_blanks|exact Ns]|apply no_lf_app; split; [apply no_lf_blanks|exact Ns']].
    destruct E as (E1 & E2). cbn [map]. rewrite E1, (IH m Cm E2). reflexivity.
Qed.
Lemma pretty_inj t u : simple t -> simple u -> pretty t = pretty u -> map indented (layout t) = map indented (layout u).
Proof.
  intros S U E. destruct (pretty_block t S) as (Et & St & Ct). destruct (pretty_block u U) as (Eu & Su & Cu).
  rewrite Et, Eu in E. exact (block_inj _ _ Ct Cu (starts_nonempty _ St) (starts_nonempty _ Su) E).
Qed.
Lemma lit_inj a b : lit a = lit b -> a = b.
Proof.
  revert b. induction a as [|x a IH]; intros [|y b] E; try reflexivity; try discriminate E.
  cbn in E. injection E as E1 E2. f_equal; [|exact (IH b E2)].
  rewrite <- (Ascii.ascii_N_embedding x), <- (Ascii.ascii_N_embedding y), E1. reflexivity.
Qed.
Lemma field_lines_inj d x : forall y, map indented (field_lines d x) = map indented (field_lines d y) -> x = y.
Proof.
  induction x as [|a x IH]; intros [|b y] E; try reflexivity; try discriminate E.
  unfold field_lines in E. cbn [map] in E. apply (f_equal (fun l => (hd [] l, tl l))) in E. cbn [hd tl] in E.
  apply pair_equal_spec in E. destruct E as (E1 & E2). f_equal; [|exact (IH y E2)].
  unfold indented in E1. cbn [fst snd] in E1. apply app_inv_head in E1. rewrite !lit_app in E1. apply app_inv_tail, lit_inj in E1. exact E1.
Qed.
Lemma append_head (p a b : string) : (p ++ a)%string = (p ++ b)%string -> a = b.
Proof. induction p as [|c p IH]; [exact (fun H => H)|]. intros E. cbn in E. injection E as E. exact (IH E). Qed.
Lemma Rank_inj r r' : Rank_ r = Rank_ r' -> r = r'.
Proof. destruct r, r'; intros E; try reflexivity; discriminate E. Qed.
Lemma field_one p r r' : [(p ++ Rank_ r)%string] = [(p ++ Rank_ r')%string] -> r = r'.
Proof. intros E. apply (f_equal (hd "")) in E. cbn [hd] in E. exact (Rank_inj _ _ (append_head _ _ _ E)). Qed.
Lemma field_two p q r r' s s' : [(p ++ Rank_ r)%string; (q ++ Rank_ s)%string] = [(p ++ Rank_ r')%string; (q ++ Rank_ s')%string] -> r = r' /\ s = s'.
Proof.
  intros E. split; [apply (f_equal (hd "")) in E; cbn [hd] in E; exact (Rank_inj _ _ (append_head _ _ _ E))|].
  apply (f_equal (fun l => hd "" (tl l))) in E. cbn [hd tl] in E. exact (Rank_inj _ _ (append_head _ _ _ E)).
Qed.
Lemma append_assoc (a b c : string) : (a ++ b ++ c)%string = ((a ++ b) ++ c)%string.
Proof. induction a as [|x a IH]; [reflexivity|]. exact (f_equal (String x) IH). Qed.
Lemma class_of_texts h l c c' : variant c = variant c' -> field_texts h l c = field_texts h l c' -> c = c'.
Proof.
  destruct c, c'; intros V; try discriminate V; clear V; cbn [field_texts]; intros E;
    first [apply field_one in E; congruence | rewrite ?append_assoc in E; apply field_two in E; destruct E; congruence].
Qed.
Lemma variant_inj c c' : lit (variant c ++ " {") = lit (variant c' ++ " {") -> variant c = variant c'.
Proof. destruct c, c'; intros E; try reflexivity; discriminate E. Qed.
Lemma class_layout c : layout (class_tree c) = class_lines c.
Proof. destruct c as [r|r|r q|r|r|r|r q|r|r]; destruct r; try destruct q; reflexivity. Qed.
Lemma lines_fields d x y z : map indented (field_lines d x ++ z) = map indented (field_lines d y ++ z) -> x = y.
Proof. rewrite !map_app. intros E. apply app_inv_tail in E. exact (field_lines_inj d x y E). Qed.
Lemma cons_eq {A} (a b : A) l m : a :: l = b :: m -> a = b /\ l = m.
Proof. intros E. split; congruence. Qed.
Theorem class_apart a b : pretty (class_tree a) = pretty (class_tree b) <-> a = b.
Proof.
  split; [|congruence]. intros E. apply (pretty_inj _ _ (simple_class a) (simple_class b)) in E. rewrite !class_layout in E.
  unfold class_lines in E. cbn [app map] in E. apply cons_eq in E. destruct E as (V & E). apply variant_inj in V.
  exact (class_of_texts _ _ a b V (lines_fields _ _ _ _ E)).
Qed.
Lemma phr_ext p q : phr p = phr q -> p = q.
Proof. destruct p as [p], q as [q]. cbn. intros ->. reflexivity. Qed.
Lemma eval_parts a b : phr (eval_hand_rank a) = phr (eval_hand_rank b) -> eval_class_of a = eval_class_of b -> a = b.
Proof.
  intros P. apply phr_ext in P. revert P.
  destruct a as [m], b as [m']. unfold eval_hand_rank, eval_class_of. cbn [eval_meta].
  destruct m, m'; cbn [meta_hand_rank meta_class]; intros P C; try discriminate C; congruence.
Qed.
Theorem result_apart a b : pretty (eval_tree a) = pretty (eval_tree b) <-> a = b.
Proof.
  split; [|congruence]. intros E. apply (pretty_inj _ _ (simple_eval a) (simple_eval b)) in E. rewrite !eval_number, !number_layout in E.
  unfold result_lines in E. cbn [app map] in E.
  apply cons_eq in E. destruct E as (_ & E). apply cons_eq in E. destruct E as (V & E).
  apply cons_eq in E. destruct E as (_ & E). apply cons_eq in E. destruct E as (D & E). apply cons_eq in E. destruct E as (_ & E).
  unfold indented in V, D. cbn [fst snd] in V, D. apply app_inv_head, variant_inj in V. apply app_inv_head, app_inv_tail, debug_int_inj in D.
  exact (eval_parts a b D (class_of_texts _ _ _ _ V (lines_fields _ _ _ _ E))).
Qed.
Theorem error_apart a b : pretty (eval_error_tree a) = pretty (eval_error_tree b) <-> a = b.
Proof.
  split; [|congruence]. intros E. apply (pretty_inj _ _ (simple_eval_error a) (simple_eval_error b)) in E.
  destruct a as [h|n], b as [k|m].
  - destruct h as [|c h], k as [|d k]; [reflexivity| | |].
    + rewrite (cards_layout (d :: k)) in E by discriminate. discriminate E.
    + rewrite (cards_layout (c :: h)) in E by discriminate. discriminate E.
    + rewrite !cards_layout in E by discriminate. cbn [app map] in E.
      do 2 (apply cons_eq in E; destruct E as (_ & E)). rewrite !map_app in E. apply app_inv_tail in E.
      change (card_lines' c ++ flat_map card_lines' h) with (flat_map card_lines' (c :: h)) in E.
      f_equal. revert E. generalize (c :: h) as x, (d :: k) as y. clear.
      induction x as [|[u] x IH]; intros [|[v] y] E; try reflexivity; try discriminate E.
      cbn [flat_map card_lines' app map] in E. apply cons_eq in E. destruct E as (_ & E). apply cons_eq in E. destruct E as (U & E).
      do 3 (apply cons_eq in E; destruct E as (_ & E)). rewrite (IH y E). do 2 f_equal.
      unfold indented in U. cbn [fst snd unique_integer] in U. apply app_inv_head, app_inv_head, app_inv_tail, debug_int_inj in U. exact U.
  - exfalso. destruct h as [|c h]; [discriminate E|]. rewrite cards_layout in E by discriminate. discriminate E.
  - exfalso. destruct k as [|c k]; [discriminate E|]. rewrite (cards_layout (c :: k)) in E by discriminate. discriminate E.
  - cbn [eval_error_tree layout flat_map app map] in E. apply cons_eq in E. destruct E as (_ & E).
    apply cons_eq in E. destruct E as (E & _). unfold indented in E. cbn [fst snd] in E. apply app_inv_head, app_inv_tail in E. cbn [app] in E. rewrite !debug_int_nat in E. apply dec_inj in E.
    f_equal. lia.
Qed.

(** ** The evaluator *)
Lemma key_z_zkey p : zkey (key_z p) = p.
Proof. destruct p; reflexivity. Qed.
Lemma zkey_key_z k : key_z (zkey k) = k.
Proof. destruct k; reflexivity. Qed.
Lemma contents_in {V} (m : map_i32 V) k v : In (k, v) (map_contents m) <-> map_get m k = Some v.
Proof.
  unfold map_contents, map_get. rewrite in_map_iff. split.
  - intros ([p w] & E & I). cbn [fst snd] in E. injection E as <- <-. rewrite key_z_zkey. apply PositiveMap.elements_complete, I.
  - intros E. exists (zkey k, v). cbn [fst snd]. rewrite zkey_key_z. split; [reflexivity|]. apply PositiveMap.elements_correct, E.
Qed.
Lemma contents_NoDup {V} (m : map_i32 V) : NoDup (map fst (map_contents m)).
Proof.
  unfold map_contents. rewrite map_map. cbn [fst].
  pose proof (LawFacts.map_keys_NoDup m) as N. unfold LawFacts.map_keys in N.
  rewrite <- (map_map fst key_z). apply FinFun.Injective_map_NoDup; [|exact N].
  intros p q E. rewrite <- (key_z_zkey p), <- (key_z_zkey q), E. reflexivity.
Qed.
Lemma contents_length {V} (m : map_i32 V) : List.length (map_contents m) = map_len m.
Proof. unfold map_contents, map_len. rewrite map_length, PositiveMap.cardinal_1. reflexivity. Qed.
Lemma listed_join l : listed l (join (lit ", ") l).
Proof.
  induction l as [|t l IH]; [constructor|]. destruct l as [|u l]; [constructor|].
  change (join (lit ", ") (t :: u :: l)) with (t ++ lit ", " ++ join (lit ", ") (u :: l)). constructor. exact IH.
Qed.

Lemma entry_positive t k m suited : lookup_table_new = Ret t -> entry t suited k m -> (0 <= k)%Z /\ (0 <= phr (meta_hand_rank m))%Z.
Proof.
  intros Ht E. destruct (TableFacts.table_ranks t Ht) as (R & _). destruct (R suited k m E) as (R1 & R2).
  destruct TableFacts.table_contents as (t' & Ht' & F & U & _). rewrite Ht in Ht'. injection Ht' as <-.
  assert (K : exists rs, k = product rs).
  { destruct suited; [destruct (proj1 (F k)) as (rs & _ & ->)|destruct (proj1 (U k)) as (rs & _ & ->)]; eauto. }
  split; [|clear - R1 R2; unfold rank_interval in *; destruct (meta_class m); cbn [fst snd] in *; lia].
  destruct K as (rs & ->). clear. induction rs as [|r rs IH]; [discriminate|].
  change (product (r :: rs)) with (nth_prime r * product rs)%Z. apply Z.mul_nonneg_nonneg; [destruct r; discriminate|exact IH].
Qed.
Lemma printed k m : (0 <= k)%Z -> (0 <= phr (meta_hand_rank m))%Z ->
  debug_int k ++ lit ": " ++ meta_debug m = entry_text k (phr (meta_hand_rank m)) (meta_class m).
Proof.
  intros K P. assert (D : forall z, (0 <= z)%Z -> debug_int z = dec (Z.to_N z)).
  { intros z Z. unfold debug_int. destruct (Z.ltb_spec z 0); [lia|reflexivity]. }
  rewrite (D k K). unfold entry_text. do 2 f_equal.
  pose proof (eval_debug_text (MkEval m) P) as E. unfold eval_debug, debug_tuple, eval_class_of, eval_hand_rank in E. cbn [eval_meta] in E.
  change (lit "Eval(") with (lit "Eval" ++ lit "(") in E. rewrite <- !app_assoc in E.
  apply app_inv_head, app_inv_head in E. rewrite !app_assoc in E. change (lit " })") with (lit " }" ++ lit ")") in E. rewrite app_assoc in E.
  apply app_inv_tail in E. rewrite E, <- !app_assoc. reflexivity.
Qed.
Theorem evaluator_text iter_order ev : new_evaluator ev -> (forall l, Permutation l (iter_order l)) ->
  exists F U f u, compact (evaluator_tree iter_order ev)
      = lit "Evaluator(LookupTable { flush_lookup: {" ++ f ++ lit "}, unsuited_lookup: {" ++ u ++ lit "} })"
  /\ listed (map (fun p => entry_text (fst p) (phr (meta_hand_rank (snd p))) (meta_class (snd p))) F) f
  /\ listed (map (fun p => entry_text (fst p) (phr (meta_hand_rank (snd p))) (meta_class (snd p))) U) u
  /\ NoDup (map fst F) /\ NoDup (map fst U)
  /\ Z.of_nat (List.length F) = 1287%Z /\ Z.of_nat (List.length U) = 6175%Z
  /\ (forall k m, In (k, m) F <-> entry (evaluator_table ev) true k m)
  /\ (forall k m, In (k, m) U <-> entry (evaluator_table ev) false k m).
Proof.
  intros Hev P. destruct TableFacts.table_contents as (t & Ht & _ & _ & LF & LU).
  assert (ET : evaluator_table ev = t).
  { unfold new_evaluator, evaluator_new in Hev. rewrite Ht in Hev. cbn [bind] in Hev. injection Hev as <-. reflexivity. }
  pose proof (fun k m suited => entry_positive t k m suited Ht) as POS.
  clear Ht Hev. destruct ev as [t']. cbn [evaluator_table] in *. subst t'.
  assert (PF := P (map_contents (flush_lookup t))). assert (PU := P (map_contents (unsuited_lookup t))).
  assert (IF : forall k m, In (k, m) (iter_order (map_contents (flush_lookup t))) <-> entry t true k m).
  { intros k m. unfold entry. rewrite <- contents_in. split; intros I; [exact (Permutation_in _ (Permutation_sym PF) I)|exact (Permutation_in _ PF I)]. }
  assert (IU : forall k m, In (k, m) (iter_order (map_contents (unsuited_lookup t))) <-> entry t false k m).
  { intros k m. unfold entry. rewrite <- contents_in. split; intros I; [exact (Permutation_in _ (Permutation_sym PU) I)|exact (Permutation_in _ PU I)]. }
  exists (iter_order (map_contents (flush_lookup t))), (iter_order (map_contents (unsuited_lookup t))).
  exists (join (lit ", ") (map (fun p => debug_int (fst p) ++ lit ": " ++ meta_debug (snd p)) (iter_order (map_contents (flush_lookup t))))),
         (join (lit ", ") (map (fun p => debug_int (fst p) ++ lit ": " ++ meta_debug (snd p)) (iter_order (map_contents (unsuited_lookup t))))).
  assert (MT : forall m, compact (map_tree iter_order m)
            = lit "{" ++ join (lit ", ") (map (fun p => debug_int (fst p) ++ lit ": " ++ meta_debug (snd p)) (iter_order (map_contents m))) ++ lit "}").
  { intros m. unfold map_tree. cbn [compact]. rewrite map_map. do 3 f_equal. apply map_ext. intros p. cbn [fst snd compact i32_tree].
    rewrite compact_meta. reflexivity. }
  split.
  { unfold evaluator_tree, lookup_table_tree. cbn [compact map join fst snd]. rewrite !MT. cbn [evaluator_table]. rewrite <- !app_assoc. reflexivity. }
  split; [|split].
  - rewrite (map_ext_in (fun p => debug_int (fst p) ++ lit ": " ++ meta_debug (snd p))
      (fun p => entry_text (fst p) (phr (meta_hand_rank (snd p))) (meta_class (snd p)))); [apply listed_join|].
    intros [k m] I. cbn [fst snd]. apply IF, POS in I. apply printed; apply I.
  - rewrite (map_ext_in (fun p => debug_int (fst p) ++ lit ": " ++ meta_debug (snd p))
      (fun p => entry_text (fst p) (phr (meta_hand_rank (snd p))) (meta_class (snd p)))); [apply listed_join|].
    intros [k m] I. cbn [fst snd]. apply IU, POS in I. apply printed; apply I.
  - split; [exact (Permutation_NoDup (Permutation_map fst PF) (contents_NoDup _))|].
    split; [exact (Permutation_NoDup (Permutation_map fst PU) (contents_NoDup _))|].
    split; [rewrite <- (Permutation_length PF), contents_length; exact LF|].
    split; [rewrite <- (Permutation_length PU), contents_length; exact LU|].
    split; [exact IF|exact IU].
Qed.
