(** RustEvaluate.v: running the text of src/evaluate/utils.rs (hands) and src/evaluate/evaluation.rs gives what
    the model gives. *)
From Coq Require Import String Lia.
From Verif Require Import Base BaseFacts ModelCard ModelEval ModelTable ModelEvaluation CardFacts.
From Verif Require Import RustSyntax RustSemantics RustProgram RustValues RustSteps RustFacts RustUtils.
Local Open Scope string_scope.
Local Open Scope list_scope.
Local Open Scope Z_scope.

(** ** Closures over lists *)
Lemma map_values_all : forall {A} o f (g : A -> value) (h : A -> value) l,
  (forall a, In a l -> apply o f [g a] = Val (h a)) -> map_values o f (map g l) = Val (map h l).
Proof.
  intros A o f g h l. induction l as [|a l IH]; intros H; [ reflexivity | ].
  cbn [map map_values]. rewrite (H a (or_introl eq_refl)). cbn [bnd].
  rewrite IH by (intros b Hb; apply H; right; exact Hb). reflexivity.
Qed.
Lemma fold_values_all : forall {A S} o f (g : A -> value) (enc : S -> value) (h : S -> A -> S) l s,
  (forall s a, In a l -> apply o f [enc s; g a] = Val (enc (h s a))) ->
  fold_values o f (map g l) (enc s) = Val (enc (fold_left h l s)).
Proof.
  intros A S o f g enc h l. induction l as [|a l IH]; intros s H; [ reflexivity | ].
  cbn [map fold_values fold_left]. rewrite (H s a (or_introl eq_refl)). cbn [bnd].
  apply IH. intros t b Hb. apply H. right. exact Hb.
Qed.

Lemma card_to_index_ret : forall c, exists i, card_to_index c = Ret i /\ 0 <= i < 52.
Proof.
  intros c. unfold card_to_index.
  destruct (card_suit c), (card_rank c); eexists; (split; [ vm_compute; reflexivity | lia ]).
Qed.
Lemma call_all_unique : forall fuel d l,
  call (engine fuel (S (S (S (S (S d)))))) "all_unique" None [cards_value l]
  = lift (fun b => (VBool b, VUnit)) (all_unique l).
Proof.
  intros fuel d l. unfold all_unique, cards_value. remember (map card_value l) as vs eqn:Evs.
  code. rewrite loop_list.
  match goal with |- to (bnd (each _ _ ?P ?B _ (("card_flags", _) :: ?R)) _) _ =>
    assert (E : forall l n, exists b m,
      all_unique_from n l = Ret b
      /\ each rust (engine fuel (S (S (S d)))) P B (map card_value l) (("card_flags", VInt U64 n) :: R)
         = Val (if b then Go VUnit else Back (VBool false), ("card_flags", VInt U64 m) :: R))
  end.
  { clear. induction l as [|c l IH]; intros n; [ exists true, n; split; reflexivity | ].
    cbn [map each all_unique_from].
    destruct (card_to_index_ret c) as (i & Hi & Bi).
    assert (W : in_width U64 i = true).
    { unfold in_width. change (bits U64) with 64. apply andb_true_intro. split; [ apply Z.leb_le | apply Z.ltb_lt ]; lia. }
    assert (Hs : shl_u64 1 i = Ret (Z.shiftl 1 i mod 18446744073709551616)).
    { unfold shl_u64. unfold in_width in W. change (bits U64) with 64 in W. rewrite W. reflexivity. }
    rewrite Hi. cbn [bind]. rewrite Hs. cbn [bind].
    set (f := Z.shiftl 1 i mod 18446744073709551616) in *.
    match goal with |- context [round ?P ?o ?p ?b ?v ?r] =>
      assert (F : round P o p b v r =
        if negb (Z.land n f =? 0) then Val (Back (VBool false), ("card_flags", VInt U64 n) :: tl r)
        else Val (Go VUnit, ("card_flags", VInt U64 (Z.lor n f)) :: tl r)) end.
    { one_round. learn call_card_to_index. rewrite Hi. cbn [lift]. known. rewrite W. subst f.
      destruct (negb (Z.land n (Z.shiftl 1 i mod 18446744073709551616) =? 0)) eqn:B; steps; rewrite B; steps; over; reflexivity. }
    rewrite F. destruct (negb (Z.land n f =? 0)).
    - exists false, n. split; reflexivity.
    - destruct (IH (Z.lor n f)) as (b & m & H1 & H2). exists b, m. split; [ exact H1 | ]. exact H2. }
  destruct (E l 0) as (b & m & H1 & H2). rewrite H1. rewrite <- Evs in H2. eapply to_bnd; [ exact H2 | ].
  destruct b; known; over; reflexivity.
Qed.
(** A fold whose first value is a literal of no type yet *)
Lemma fold_open : forall {A} o f (g : A -> value) t a (h : Z -> A -> Z) l,
  (forall x, In x l -> apply o f [VInt Open a; g x] = Val (VInt t (h a x))) ->
  (forall s x, In x l -> apply o f [VInt t s; g x] = Val (VInt t (h s x))) ->
  fold_values o f (map g l) (VInt Open a)
  = Val (VInt (match l with [] => Open | _ => t end) (fold_left h l a)).
Proof.
  intros A o f g t a h l H0 H. destruct l as [|x l]; [ reflexivity | ].
  cbn [map fold_values fold_left]. rewrite (H0 x (or_introl eq_refl)). cbn [bnd].
  rewrite (fold_values_all o f g (VInt t) h l (h a x)); [ reflexivity | ].
  intros s y Hy. apply H. right. exact Hy.
Qed.
Lemma call_prime_product_from_hand : forall fuel d l,
  call (engine fuel (S (S (S d)))) "prime_product_from_hand" None [cards_value l]
  = Val (VInt I32 (prime_product_from_hand l), VUnit).
Proof.
  intros fuel d l. unfold prime_product_from_hand, cards_value. remember (map card_value l) as vs eqn:Evs.
  code.
  match goal with |- context [map_values ?o ?f vs] =>
    assert (M : map_values o f vs = Val (map (VInt I32) (map (fun c => Z.land (unique_integer c) 255) l))) end.
  { rewrite Evs, map_map. apply (map_values_all _ _ card_value (fun c => VInt I32 (Z.land (unique_integer c) 255))).
    intros c _. closure. knowing call_unique_integer. over. reflexivity. }
  remember (map (fun c => Z.land (unique_integer c) 255) l) as us eqn:Eus. clear Eus.
  remember (map (VInt I32) us) as ws eqn:Ews.
  eapply to_bnd; [ exact M | ]. known.
  match goal with |- context [fold_values ?o ?f ws _] =>
    assert (F : fold_values o f ws (VInt Open 1)
      = Val (VInt (match us with [] => Open | _ => I32 end) (fold_left (fun acc x => wrapping_mul_i32 acc x) us 1))) end.
  { rewrite Ews. apply fold_open; intros; closure; over; reflexivity. }
  eapply to_bnd; [ exact F | ]. known. over. destruct us; reflexivity.
Qed.

(** ** src/evaluate/evaluation.rs *)
Lemma find_map : forall (m : PositiveMap.t meta) k,
  PositiveMap.find k (PositiveMap.map meta_value m) = option_map meta_value (PositiveMap.find k m).
Proof. intros m k. unfold PositiveMap.map. rewrite PositiveMap.gmapi. destruct (PositiveMap.find k m); reflexivity. Qed.
Lemma call_flush_lookup : forall fuel d fl ul,
  call (engine fuel (S d)) "Evaluator::flush_lookup" None
    [VCon "Evaluator" [("0", VCon "LookupTable" [("flush_lookup", VMap fl); ("unsuited_lookup", VMap ul)])]]
  = Val (VMap fl, VUnit).
Proof. code. over. reflexivity. Qed.
Lemma call_unsuited_lookup : forall fuel d fl ul,
  call (engine fuel (S d)) "Evaluator::unsuited_lookup" None
    [VCon "Evaluator" [("0", VCon "LookupTable" [("flush_lookup", VMap fl); ("unsuited_lookup", VMap ul)])]]
  = Val (VMap ul, VUnit).
Proof. code. over. reflexivity. Qed.
Lemma call_five : forall fuel d e l, l <> [] ->
  call (engine fuel (S (S (S (S d))))) "five" None [evaluator_value e; cards_value l]
  = lift (fun x => (eval_value x, VUnit)) (five (evaluator_evaluation e) l).
Proof.
  intros fuel d e l Hl. unfold five, evaluator_evaluation, ev_flush_lookup, ev_unsuited_lookup, evaluator_value, table_value.
  generalize (flush_lookup (evaluator_table e)) (unsuited_lookup (evaluator_table e)). intros mf mu.
  pose proof (find_map mf) as Ff. pose proof (find_map mu) as Fu.
  remember (PositiveMap.map meta_value mf) as fl eqn:Efl. remember (PositiveMap.map meta_value mu) as ul eqn:Eul.
  remember (map unique_integer l) as us eqn:Eus.
  assert (Hu : match us with [] => Open | _ => I32 end = I32) by (subst us; destruct l; [ congruence | reflexivity ]).
  unfold cards_value. remember (map card_value l) as vs eqn:Evs.
  code.
  match goal with |- context [map_values ?o ?f vs] =>
    assert (M : map_values o f vs = Val (map (VInt I32) us)) end.
  { rewrite Evs, Eus, map_map. apply (map_values_all _ _ card_value (fun c => VInt I32 (unique_integer c))).
    intros c _. rewrite apply_fn, call_unique_integer. reflexivity. }
  remember (map (VInt I32) us) as ws eqn:Ews.
  eapply to_bnd; [ exact M | ]. known.
  match goal with |- context [fold_values ?o ?f ws (VInt Open 61440)] =>
    assert (F : fold_values o f ws (VInt Open 61440) = Val (VInt I32 (fold_left Z.land us 61440))) end.
  { etransitivity; [ rewrite Ews; apply (fold_open _ _ (VInt I32) I32 _ Z.land us); intros; closure; over; reflexivity | rewrite Hu; reflexivity ]. }
  remember (fold_left Z.land us 61440) as flush eqn:Eflush. clear Eflush.
  eapply to_bnd; [ exact F | ]. clear F. known.
  destruct (negb (flush =? 0)); known.
  - match goal with |- context [fold_values ?o ?f ws (VInt Open 0)] =>
      assert (F : fold_values o f ws (VInt Open 0) = Val (VInt I32 (fold_left Z.lor us 0))) end.
    { etransitivity; [ rewrite Ews; apply (fold_open _ _ (VInt I32) I32 _ Z.lor us); intros; closure; over; reflexivity | rewrite Hu; reflexivity ]. }
    remember (fold_left Z.lor us 0) as ranks eqn:Eranks. clear Eranks.
    eapply to_bnd; [ exact F | ]. clear F. known.
    learn call_prime_product_from_rank_bits.
    unfold wrap. 
    destruct (prime_product_from_rank_bits _) as [p|q|]; cbn [lift]; known; [ | over; reflexivity | over; reflexivity ].
    knowing call_flush_lookup. rewrite Ff. cbn [bind]. unfold index_key, map_get.
    destruct (PositiveMap.find (zkey p) mf) as [m|]; cbn [option_map]; known; over; reflexivity.
  - eapply to_bnd; [ rewrite Evs; exact (call_prime_product_from_hand fuel d l) | ].
    generalize (prime_product_from_hand l). intros p. known.
    knowing call_unsuited_lookup.
    rewrite Fu. unfold index_key, map_get.
    destruct (PositiveMap.find _ mu) as [m|]; cbn [option_map]; known; over; reflexivity.
Qed.
