(** CombosFacts.v: the [Combinations] iterator (src/evaluate/utils.rs:10-54) for every [N] and
    every slice. *)
From Coq Require Import Lia List Arith Bool Permutation Sorted.
From Verif Require Import Base BaseFacts ModelCard ModelTable SpecApi Sweep.
Import ListNotations.

(** ** Successor of an index list, from the front *)
Fixpoint succ_idx (len : nat) (I : list nat) : option (list nat) :=
  match I with
  | [] => None
  | x :: J =>
      match succ_idx len J with
      | Some J' => Some (x :: J')
      | None => if x + 1 + length J <? len then Some (seq (S x) (S (length J))) else None
      end
  end.

Lemma reset_after_seq prev l : reset_after prev l = seq (S prev) (length l).
Proof. revert prev. induction l as [|x l IH]; intros p; simpl; [reflexivity|]. rewrite IH. reflexivity. Qed.

Lemma succ_app len P I I' : succ_idx len I = Some I' -> succ_idx len (P ++ I) = Some (P ++ I').
Proof. intros H. induction P as [|x P IH]; simpl; [exact H|]. rewrite IH. reflexivity. Qed.

(** Indices in increasing order and in range. *)
Fixpoint increasing (lo len : nat) (I : list nat) : Prop :=
  match I with
  | [] => True
  | x :: J => lo <= x /\ x + length J < len /\ increasing (S x) len J
  end.

(** The loop, run on a prefix [P] whose right part [Q] is exhausted. *)
Lemma advance_loop_succ {T} (data : list T) len n : forall P Q,
  n = length P + length Q -> n <= len -> succ_idx len Q = None -> 0 < length P ->
  (forall x R, P ++ Q = x :: R -> x + length R < len) ->
  advance_loop len n (length P) (mk_combinations data (P ++ Q) false)
  = Ret (match succ_idx len (P ++ Q) with
         | Some I' => mk_combinations data I' false
         | None => mk_combinations data (P ++ Q) true
         end).
Proof.
  induction P as [|x P IH] using rev_ind; intros Q Hn Hlen HQ HP Hrange; [simpl in HP; lia|].
  rewrite app_length in *. simpl length in *. rewrite Nat.add_1_r in *. cbn [advance_loop].
  destruct (Nat.ltb_spec len n) as [|_]; [lia|]. cbn [cb_indices cb_data cb_done].
  rewrite <- app_assoc. cbn [app].
  assert (Eidx : index (P ++ x :: Q) (length P) = Ret x).
  { unfold index. rewrite nth_error_app2, Nat.sub_diag by lia. reflexivity. }
  rewrite Eidx. cbn [bind].
  assert (Elim : len - n + length P = len - 1 - length Q) by lia. rewrite Elim.
  destruct (Nat.ltb_spec x (len - 1 - length Q)) as [Hlt|Hge].
  - replace (Nat.eqb (length P) 0 && Nat.eqb x (len - 1 - length Q)) with false
      by (symmetry; apply andb_false_intro2, Nat.eqb_neq; lia).
    cbn [cb_indices cb_data cb_done].
    assert (Es : succ_idx len (x :: Q) = Some (seq (S x) (S (length Q)))).
    { simpl. rewrite HQ. destruct (Nat.ltb_spec (x + 1 + length Q) len); [reflexivity|lia]. }
    rewrite (succ_app _ P _ _ Es).
    rewrite firstn_app, Nat.sub_diag, firstn_all, app_nil_r.
    replace (skipn (S (length P)) (P ++ x :: Q)) with Q.
    2:{ change (x :: Q) with ([x] ++ Q). rewrite app_assoc.
        replace (S (length P)) with (length (P ++ [x])) by (rewrite app_length; simpl; lia).
        rewrite skipn_app, skipn_all, Nat.sub_diag. reflexivity. }
    rewrite reset_after_seq. reflexivity.
  - assert (Es : succ_idx len (x :: Q) = None).
    { simpl. rewrite HQ. destruct (Nat.ltb_spec (x + 1 + length Q) len); [lia|reflexivity]. }
    destruct P as [|y P].
    + simpl in *. rewrite HQ in *. destruct (Nat.ltb_spec (x + 1 + length Q) len); [discriminate|].
      specialize (Hrange x Q eq_refl).
      destruct (Nat.eqb_spec x (len - 1 - length Q)); [reflexivity|lia].
    + cbn [length Nat.eqb andb].
      change (S (length P)) with (length (y :: P)). rewrite <- app_assoc in Hrange. cbn [app] in Hrange.
      rewrite (IH (x :: Q)); auto; cbn [length] in *; lia.
Qed.

Lemma increasing_head_range lo len I : increasing lo len I -> forall x R, I = x :: R -> x + length R < len.
Proof. intros H x R ->. simpl in H. tauto. Qed.

Lemma increasing_le lo len I : increasing lo len I -> I <> [] -> lo + length I <= len.
Proof. destruct I; simpl; [congruence|]. intros H _. lia. Qed.

Lemma advance_succ {T} (data : list T) len I : I <> [] -> increasing 0 len I ->
  advance_loop len (length I) (length I) (mk_combinations data I false)
  = Ret (match succ_idx len I with
         | Some I' => mk_combinations data I' false
         | None => mk_combinations data I true
         end).
Proof.
  intros NE H. pose proof (advance_loop_succ data len (length I) I []) as A.
  rewrite app_nil_r in A. apply A; auto.
  - pose proof (increasing_le _ _ _ H NE). lia.
  - destruct I; simpl; [congruence|lia].
  - eapply increasing_head_range. exact H.
Qed.

(** ** The lists of indices in lexicographic order are a chain of successors *)
Fixpoint chain (len : nat) (L : list (list nat)) : Prop :=
  match L with
  | [] => True
  | J :: L' => succ_idx len J = hd_error L' /\ chain len L'
  end.

Lemma chain_join len x A B : A <> [] ->
  chain len A -> chain len B ->
  (forall I, In I A -> succ_idx len I = None ->
     (if x + 1 + length I <? len then Some (seq (S x) (S (length I))) else None) = hd_error B) ->
  chain len (map (cons x) A ++ B).
Proof.
  intros NE CA CB HJ. induction A as [|I A IH]; [congruence|].
  cbn [map app chain] in *. destruct CA as [C1 C2]. destruct A as [|I2 A].
  - cbn [map app hd_error] in *. split; [|exact CB]. cbn [succ_idx]. rewrite C1.
    apply HJ; [left; reflexivity|exact C1].
  - split.
    + cbn [succ_idx map app hd_error] in *. rewrite C1. reflexivity.
    + apply IH; [congruence|exact C2|]. intros J HJ2. apply HJ. right. exact HJ2.
Qed.

Lemma combs_length_elem {T} (l : list T) : forall n x, In x (combs n l) -> length x = n.
Proof.
  induction l as [|a l IH]; intros [|n] x H; simpl in H.
  - destruct H as [<-|[]]. reflexivity.
  - destruct H.
  - destruct H as [<-|[]]. reflexivity.
  - apply in_app_or in H. destruct H as [H|H].
    + apply in_map_iff in H. destruct H as (y & <- & Hy). simpl. f_equal. apply IH. exact Hy.
    + apply IH. exact H.
Qed.

Lemma combs_empty {T} (l : list T) : forall n, length l < n -> combs n l = [].
Proof.
  induction l as [|a l IH]; intros [|n] H; simpl in *; try lia; [reflexivity|].
  rewrite IH, (IH (S n)) by lia. reflexivity.
Qed.

Lemma combs_head m : forall n a, n <= m -> hd_error (combs n (seq a m)) = Some (seq a n).
Proof.
  induction m as [|m IH]; intros [|n] a H; simpl; try reflexivity; [lia|].
  specialize (IH n (S a)). destruct (combs n (seq (S a) m)) as [|I L]; [|].
  - simpl in IH. assert (Some (seq (S a) n) = None) by (symmetry; apply IH; lia). discriminate.
  - simpl in *. assert (Some I = Some (seq (S a) n)) by (apply IH; lia). congruence.
Qed.

Lemma combs_chain m : forall n a, chain (a + m) (combs n (seq a m)).
Proof.
  induction m as [|m IH]; intros [|n] a; simpl; auto.
  destruct (le_lt_dec n m) as [Hle|Hgt].
  - replace (a + S m) with (S a + m) by lia. apply chain_join.
    + intros E. pose proof (combs_head m n (S a) Hle) as H. rewrite E in H. discriminate.
    + apply IH.
    + apply IH.
    + intros I HI HN. rewrite (combs_length_elem _ _ _ HI).
      destruct (Nat.ltb_spec (a + 1 + n) (S a + m)).
      * symmetry. apply combs_head. lia.
      * rewrite combs_empty by (rewrite seq_length; lia). reflexivity.
  - rewrite combs_empty by (rewrite seq_length; lia).
    rewrite combs_empty by (rewrite seq_length; lia). exact I.
Qed.

Lemma combs_increasing m : forall n a I, In I (combs n (seq a m)) -> increasing a (a + m) I.
Proof.
  induction m as [|m IH]; intros [|n] a I H; simpl in H.
  - destruct H as [<-|[]]. exact Logic.I.
  - destruct H.
  - destruct H as [<-|[]]. exact Logic.I.
  - apply in_app_or in H. destruct H as [H|H].
    + apply in_map_iff in H. destruct H as (J & <- & HJ). simpl.
      pose proof (combs_length_elem _ _ _ HJ) as L.
      assert (n <= m).
      { destruct (le_lt_dec n m); [assumption|].
        rewrite combs_empty in HJ by (rewrite seq_length; lia). destruct HJ. }
      repeat split; [lia|lia|]. replace (a + S m) with (S a + m) by lia. eapply IH. exact HJ.
    + replace (a + S m) with (S a + m) by lia.
      apply IH in H. destruct I as [|x J]; [exact Logic.I|].
      simpl in *. destruct H as (H1 & H2 & H3). repeat split; auto; lia.
Qed.

(** ** From indices to items *)
Lemma combs_map {A B} (f : A -> B) l : forall n, combs n (map f l) = map (map f) (combs n l).
Proof.
  induction l as [|a l IH]; intros [|n]; simpl; try reflexivity.
  rewrite !IH, map_app, !map_map. reflexivity.
Qed.

Lemma increasing_index {T} (data : list T) I : forall lo d,
  increasing lo (length data) I ->
  mapM (index data) I = Ret (map (fun i => nth i data d) I).
Proof.
  intros lo d H. apply mapM_ret. revert lo H. induction I as [|x J IH]; intros lo H i Hi; [destruct Hi|].
  simpl in H. destruct H as (H1 & H2 & H3). destruct Hi as [<-|Hi].
  - unfold index. rewrite (nth_error_nth' data d) by lia. reflexivity.
  - eapply IH; eassumption.
Qed.

Lemma map_nth_seq {T} (data : list T) d : map (fun i => nth i data d) (seq 0 (length data)) = data.
Proof.
  induction data as [|x data IH]; [reflexivity|]. simpl. f_equal.
  rewrite <- seq_shift, map_map. exact IH.
Qed.

(** Driving the iterator from a chain of index lists. *)
Lemma for_combinations_chain {T St} (data : list T) (body : St -> list T -> outcome St) d L :
  forall I s fuel,
  chain (length data) (I :: L) ->
  (forall J, In J (I :: L) -> J <> [] /\ increasing 0 (length data) J) ->
  S (length L) < fuel ->
  for_combinations fuel (mk_combinations data I false) body s
  = foldM body (map (map (fun i => nth i data d)) (I :: L)) s.
Proof.
  induction L as [|I2 L IH]; intros I s fuel [C1 C2] HI Hf.
  - destruct fuel as [|[|fuel]]; simpl length in Hf; try lia.
    destruct (HI I (or_introl eq_refl)) as [NE Inc].
    cbn [for_combinations]. unfold combinations_next at 1. cbn [cb_done cb_data cb_indices].
    rewrite (increasing_index data I 0 d Inc). cbn [bind].
    rewrite (advance_succ data _ I NE Inc), C1. cbn [hd_error bind map foldM].
    destruct (body s _); cbn [bind]; reflexivity.
  - destruct fuel as [|fuel]; [lia|].
    destruct (HI I (or_introl eq_refl)) as [NE Inc].
    cbn [for_combinations]. unfold combinations_next at 1. cbn [cb_done cb_data cb_indices].
    rewrite (increasing_index data I 0 d Inc). cbn [bind].
    rewrite (advance_succ data _ I NE Inc), C1. cbn [hd_error bind map foldM].
    destruct (body s _); cbn [bind]; try reflexivity.
    rewrite (IH I2 a fuel); [reflexivity|exact C2| |simpl in *; lia].
    intros J HJ. apply HI. right. exact HJ.
Qed.

Lemma combs_binom {T} (l : list T) : forall n, length (combs n l) = binom (length l) n.
Proof.
  induction l as [|a l IH]; intros [|n]; simpl; try reflexivity.
  rewrite app_length, map_length, !IH. reflexivity.
Qed.

(** The [for] loop over [const_combos::<_, N>(items)] visits exactly the sub-selections listed
    by [combs], in that order, and terminates. *)
Theorem for_const_combos_spec {T St} n (items : list T) (body : St -> list T -> outcome St) s :
  1 <= n <= length items ->
  for_const_combos n items body s = foldM body (combs n items) s.
Proof.
  intros Hn. destruct items as [|d items']; [simpl in Hn; lia|].
  set (items := d :: items') in *.
  pose proof (combs_chain (length items) n 0) as C. simpl Nat.add in C.
  pose proof (combs_head (length items) n 0 (proj2 Hn)) as Hd.
  pose proof (combs_binom (seq 0 (length items)) n) as Hb. rewrite seq_length in Hb.
  pose proof (fun J (HJ : In J (combs n (seq 0 (length items)))) =>
                conj (combs_length_elem _ _ _ HJ) (combs_increasing _ _ _ _ HJ)) as HI.
  assert (E : combs n items = map (map (fun i => nth i items d)) (combs n (seq 0 (length items)))).
  { rewrite <- combs_map, map_nth_seq. reflexivity. }
  rewrite E. unfold for_const_combos, combinations_new.
  destruct (combs n (seq 0 (length items))) as [|I L]; [discriminate|].
  simpl in Hd. injection Hd as Hd. rewrite <- Hd.
  apply for_combinations_chain; [exact C| |].
  - intros J HJ. destruct (HI J HJ) as [H1 H2]. split; [|exact H2].
    intros ->. simpl in H1. lia.
  - rewrite <- Hb. simpl. lia.
Qed.

(** Fewer items than [N]: the first [next] indexes out of range and panics. *)
Lemma mapM_index_panic {T} (data : list T) I x :
  In x I -> length data <= x -> exists p, mapM (index data) I = Panic p.
Proof.
  intros Hin Hx. induction I as [|i I IH]; [destruct Hin|]. simpl.
  unfold index at 1. destruct (nth_error data i) as [a|] eqn:E; [|eexists; reflexivity].
  simpl. destruct Hin as [->|Hin].
  - apply nth_error_None in Hx. congruence.
  - destruct (IH Hin) as [p ->]. eexists. reflexivity.
Qed.

Lemma combinations_short {T} n (items : list T) : length items < n ->
  exists p, combinations_next (combinations_new n items) = Panic p.
Proof.
  intros H. unfold combinations_next, combinations_new. cbn [cb_done cb_data cb_indices].
  destruct (mapM_index_panic items (seq 0 n) (length items)) as [p Hp].
  - apply in_seq. lia.
  - lia.
  - rewrite Hp. exists p. reflexivity.
Qed.

(** [N = 0]: the iterator never ends (and always yields the empty selection). *)
Lemma combinations_zero {T} (items : list T) :
  combinations_next (combinations_new 0 items) = Ret (Some [], combinations_new 0 items).
Proof. reflexivity. Qed.

(** ** What [combs] lists *)
Lemma sublist_nil_l {T} (l : list T) : sublist [] l.
Proof. induction l; constructor; auto. Qed.

Lemma combs_sublist {T} (l : list T) : forall n x,
  In x (combs n l) <-> sublist x l /\ length x = n.
Proof.
  induction l as [|a l IH]; intros n x.
  - destruct n; simpl; split.
    + intros [<-|[]]. split; constructor.
    + intros [_ H]. destruct x; [auto|discriminate].
    + intros [].
    + intros [H L]. inversion H; subst. discriminate.
  - destruct n as [|n].
    + simpl. split.
      * intros [<-|[]]. split; [apply sublist_nil_l|reflexivity].
      * intros [_ H]. destruct x; [auto|discriminate].
    + cbn [combs]. rewrite in_app_iff, in_map_iff, IH. split.
      * intros [(y & <- & Hy)|[H L]].
        -- apply IH in Hy. destruct Hy. split; [constructor; assumption|simpl; auto].
        -- split; [constructor; assumption|assumption].
      * intros [H L]. inversion H; subst.
        -- left. exists a0. split; [reflexivity|]. apply IH. split; [assumption|].
           simpl in L. lia.
        -- right. auto.
Qed.

Lemma sublist_incl {T} (a l : list T) : sublist a l -> incl a l.
Proof.
  induction 1; intros y Hy; simpl in *; [exact Hy| |]; intuition.
Qed.

Lemma sublist_NoDup {T} (a l : list T) : sublist a l -> NoDup l -> NoDup a.
Proof.
  induction 1; intros N; [constructor| |]; inversion N; subst; auto.
  constructor; auto. intros Hin. apply H2. eapply sublist_incl; eauto.
Qed.

(** ** The iterator itself, and the positions it visits *)
Lemma iterates_chain {T} (data : list T) d L : forall I,
  chain (length data) (I :: L) ->
  (forall J, In J (I :: L) -> J <> [] /\ increasing 0 (length data) J) ->
  iterates (mk_combinations data I false) (map (map (fun i => nth i data d)) (I :: L)).
Proof.
  induction L as [|I2 L IH]; intros I [C1 C2] HI;
    destruct (HI I (or_introl eq_refl)) as [NE Inc]; cbn [map]; eapply iterates_item.
  - unfold combinations_next. cbn [cb_done cb_data cb_indices].
    rewrite (increasing_index data I 0 d Inc). cbn [bind].
    rewrite (advance_succ data _ I NE Inc), C1. reflexivity.
  - eapply iterates_end. reflexivity.
  - unfold combinations_next. cbn [cb_done cb_data cb_indices].
    rewrite (increasing_index data I 0 d Inc). cbn [bind].
    rewrite (advance_succ data _ I NE Inc), C1. reflexivity.
  - apply (IH I2 C2). intros J HJ. apply HI. right. exact HJ.
Qed.

Lemma iterates_fun {T} (c : combinations T) l1 : iterates c l1 -> forall l2, iterates c l2 -> l1 = l2.
Proof.
  induction 1 as [c c' H|c x c' l H _ IH]; intros l2 H2;
    inversion H2 as [? ? E|? ? ? ? E R]; subst; rewrite H in E; try discriminate E; [reflexivity|].
  injection E as <- <-. f_equal. apply IH. exact R.
Qed.

Lemma combs_choice m : forall n a I,
  In I (combs n (seq a m)) <->
  length I = n /\ StronglySorted lt I /\ Forall (fun i => a <= i < a + m) I.
Proof.
  induction m as [|m IH]; intros n a I.
  - destruct n as [|n]; simpl.
    + split.
      * intros [<-|[]]. repeat split; constructor.
      * intros (L & _ & _). left. symmetry. apply length_zero_iff_nil. exact L.
    + split; [tauto|]. intros (L & _ & F). destruct I as [|x I]; [discriminate L|].
      inversion F; lia.
  - destruct n as [|n]; cbn [seq combs].
    + split.
      * intros [<-|[]]. repeat split; constructor.
      * intros (L & _ & _). left. symmetry. apply length_zero_iff_nil. exact L.
    + rewrite in_app_iff, in_map_iff. split.
      * intros [(J & <- & HJ)|HJ]; apply IH in HJ; destruct HJ as (L & S & F).
        -- split; [simpl; congruence|]. split.
           ++ constructor; [exact S|]. eapply Forall_impl; [|exact F]. simpl. lia.
           ++ constructor; [lia|]. eapply Forall_impl; [|exact F]. simpl. lia.
        -- split; [exact L|]. split; [exact S|]. eapply Forall_impl; [|exact F]. simpl. lia.
      * intros (L & S & F). destruct I as [|x I]; [discriminate L|].
        inversion S as [|? ? S' Fx]; subst. inversion F as [|? ? Hx F']; subst.
        destruct (Nat.eq_dec x a) as [->|Nx].
        -- left. exists I. split; [reflexivity|]. apply IH. split; [simpl in L; lia|].
           split; [exact S'|]. rewrite Forall_forall in *. intros i Hi.
           specialize (Fx i Hi). specialize (F' i Hi). lia.
        -- right. apply IH. split; [exact L|]. split; [exact S|].
           rewrite Forall_forall in *. intros i Hi. specialize (F i Hi).
           destruct Hi as [->|Hi]; [lia|]. specialize (Fx i Hi). lia.
Qed.

Lemma sorted_app {A} (R : A -> A -> Prop) l1 l2 :
  StronglySorted R l1 -> StronglySorted R l2 -> (forall x y, In x l1 -> In y l2 -> R x y) ->
  StronglySorted R (l1 ++ l2).
Proof.
  intros S1 S2 H. induction S1 as [|x l1 S1 IH F]; [exact S2|]. simpl. constructor.
  - apply IH. intros a b Ha Hb. apply H; [right|]; assumption.
  - rewrite Forall_forall in *. intros y Hy. apply in_app_iff in Hy.
    destruct Hy as [Hy|Hy]; [auto|]. apply H; [left; reflexivity|exact Hy].
Qed.

Lemma combs_sorted m : forall n a, StronglySorted lex_lt (combs n (seq a m)).
Proof.
  induction m as [|m IH]; intros [|n] a; cbn [seq combs]; try (repeat constructor).
  apply sorted_app; [|apply IH|].
  - specialize (IH n (S a)). induction IH as [|J L S IHL F]; cbn [map]; constructor; [exact IHL|].
    rewrite Forall_forall in *. intros K HK. apply in_map_iff in HK.
    destruct HK as (J' & <- & HJ'). right. auto.
  - intros I J HI HJ. apply in_map_iff in HI. destruct HI as (I' & <- & _).
    apply combs_choice in HJ. destruct HJ as (L & _ & F). destruct J as [|y J]; [discriminate L|].
    inversion F. left. lia.
Qed.

Lemma combos_iterate {T} n (items : list T) d : 1 <= n <= length items ->
  exists Is, (forall I, In I Is <-> choice n (length items) I)
    /\ StronglySorted lex_lt Is
    /\ iterates (combinations_new n items) (map (map (fun i => nth i items d)) Is)
    /\ (forall St (body : St -> list T -> outcome St) s,
          for_const_combos n items body s = foldM body (map (map (fun i => nth i items d)) Is) s).
Proof.
  intros [Hn Hl]. exists (combs n (seq 0 (length items))). split; [|split; [|split]].
  - intros I. rewrite combs_choice. unfold choice. split; intros (L & S & F);
      (split; [exact L|]; split; [exact S|]); (eapply Forall_impl; [|exact F]); simpl; lia.
  - apply combs_sorted.
  - pose proof (combs_head (length items) n 0 Hl) as Hh.
    pose proof (combs_chain (length items) n 0) as Hc.
    pose proof (combs_increasing (length items) n 0) as Hi.
    pose proof (combs_length_elem (seq 0 (length items)) n) as Hle.
    destruct (combs n (seq 0 (length items))) as [|I L]; [discriminate Hh|].
    injection Hh as ->. unfold combinations_new. apply iterates_chain; [exact Hc|].
    intros J HJ. split; [|apply Hi; exact HJ]. intros ->. apply Hle in HJ. simpl in HJ. lia.
  - intros St body s. rewrite for_const_combos_spec by lia.
    rewrite <- combs_map, map_nth_seq. reflexivity.
Qed.
