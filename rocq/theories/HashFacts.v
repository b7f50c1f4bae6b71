(** HashFacts.v: a table of slots is a dictionary (C83). *)
From Coq Require Import Lia List Arith Bool Permutation ZArith.
From Verif Require Import Base ModelCard ModelEval ModelTable ModelEvaluation ModelDebug ModelHash SpecHash.
Import ListNotations.
Local Open Scope list_scope.

(** ** Slots *)
Section Slots.
  Context {K V : Type}.
  Implicit Types (s : slot K V) (slots : list (slot K V)).

  Lemma put_at_split p s slots : p < length slots -> exists a b,
    slots = a ++ nth p slots Empty :: b /\ put_at p s slots = a ++ s :: b /\ length a = p.
  Proof.
    revert p. induction slots as [|x l IH]; intros p L; [cbn in L; lia|]. destruct p as [|p].
    - exists [], l. repeat split.
    - cbn in L. destruct (IH p ltac:(lia)) as (a & b & E & F & G). exists (x :: a), b.
      cbn. rewrite <- E, F, G. repeat split.
  Qed.
  Lemma put_at_length p s slots : length (put_at p s slots) = length slots.
  Proof. revert p. induction slots as [|x l IH]; intros [|p]; cbn; auto. Qed.
  Lemma put_at_same p s slots : p < length slots -> nth p (put_at p s slots) Empty = s.
  Proof. revert p. induction slots as [|x l IH]; intros [|p] L; cbn in *; try lia; auto. apply IH. lia. Qed.
  Lemma put_at_other p q s slots : p <> q -> nth q (put_at p s slots) Empty = nth q slots Empty.
  Proof.
    revert p q. induction slots as [|x l IH]; intros [|p] [|q] N; cbn; auto; try lia.
  Qed.

  Lemma iter_app a b : hash_iter (a ++ b) = hash_iter (K:=K) (V:=V) a ++ hash_iter b.
  Proof. apply flat_map_app. Qed.
  Lemma iter_empty n : hash_iter (repeat (@Empty K V) n) = [].
  Proof. induction n; cbn; auto. Qed.
  Lemma iter_full slots : (forall p, p < length slots -> exists t k v, nth p slots Empty = Full t k v) ->
    hash_len slots = length slots.
  Proof.
    unfold hash_len. induction slots as [|x l IH]; intros A; [reflexivity|].
    destruct (A 0 ltac:(cbn; lia)) as (t & k & v & E). cbn in E. subst x.
    change (hash_iter (Full t k v :: l)) with ((k, v) :: hash_iter l). cbn [length]. f_equal.
    apply IH. intros p L. apply (A (S p)). cbn. lia.
  Qed.
  Lemma iter_in slots k v : In (k, v) (hash_iter slots) <->
    exists p t, p < length slots /\ nth p slots Empty = Full t k v.
  Proof.
    unfold hash_iter. rewrite in_flat_map. split.
    - intros (x & I & J). destruct x as [| |t k' v']; cbn in J; try tauto.
      destruct J as [J|[]]. injection J as -> ->. destruct (In_nth slots _ Empty I) as (p & L & E). eauto.
    - intros (p & t & L & E). exists (Full t k v). split; [|left; reflexivity]. rewrite <- E. apply nth_In, L.
  Qed.
End Slots.

(** ** Dictionaries on paper *)
Section Paper.
  Context {K V : Type} (same : K -> K -> bool) (Hs : equivalence same).
  Implicit Types (d : list (K * V)).

  Lemma same_refl a : same a a = true. Proof using Hs. exact (proj1 (Hs a a a)). Qed.
  Lemma same_sym a b : same a b = same b a. Proof using Hs. exact (proj1 (proj2 (Hs a b a))). Qed.
  Lemma same_trans a b c : same a b = true -> same b c = true -> same a c = true.
  Proof using Hs. exact (proj2 (proj2 (Hs a b c))). Qed.

  (** No two entries for the same key *)
  Definition distinct d : Prop := forall a e b, d = a ++ e :: b -> forall x, In x (a ++ b) -> same (fst e) (fst x) = false.

  Lemma distinct_perm d d' : Permutation d d' -> distinct d -> distinct d'.
  Proof.
    intros P D a e b -> x I. assert (J : In e d) by (apply (Permutation_in _ (Permutation_sym P)); apply in_elt).
    apply in_split in J as (a' & b' & ->). apply (D a' e b' eq_refl).
    apply (Permutation_in x (Permutation_sym (Permutation_app_inv _ _ _ _ _ P)) I).
  Qed.
  Lemma distinct_nil : distinct [].
  Proof. intros a e b E. destruct a; discriminate E. Qed.
  Lemma distinct_cons k v d : (forall x, In x d -> same k (fst x) = false) -> distinct d -> distinct ((k, v) :: d).
  Proof using Hs.
    intros N D a e b E x I. destruct a as [|y a]; cbn in E; injection E as E F.
    - subst. apply N, I.
    - subst y. subst d. cbn in I. destruct I as [<-|I].
      + cbn. rewrite same_sym. apply N, in_elt.
      + exact (D a e b eq_refl x I).
  Qed.
  Lemma distinct_tail e d : distinct (e :: d) -> distinct d /\ forall x, In x d -> same (fst e) (fst x) = false.
  Proof.
    intros D. split.
    - intros a f b -> x I. apply (D (e :: a) f b eq_refl). right. exact I.
    - exact (D [] e d eq_refl).
  Qed.
  Lemma distinct_split a k v b : distinct (a ++ (k, v) :: b) ->
    forall x, In x (a ++ b) -> same k (fst x) = false.
  Proof. intros D. exact (D a (k, v) b eq_refl). Qed.
  (** The same keys with other values *)
  Lemma distinct_value a k v v' b : distinct (a ++ (k, v) :: b) -> distinct (a ++ (k, v') :: b).
  Proof using Hs.
    intros D. assert (P : Permutation ((k, v) :: a ++ b) (a ++ (k, v) :: b)) by apply Permutation_middle.
    assert (Q : Permutation ((k, v') :: a ++ b) (a ++ (k, v') :: b)) by apply Permutation_middle.
    apply (distinct_perm _ _ Q). apply (distinct_perm _ _ (Permutation_sym P)) in D.
    apply distinct_tail in D as (D & N). exact (distinct_cons k v' _ N D).
  Qed.

  Lemma look_none d k : (forall x, In x d -> same k (fst x) = false) -> look same d k = None.
  Proof.
    induction d as [|[k' v] d IH]; intros N; cbn; [reflexivity|].
    rewrite (N (k', v) (or_introl eq_refl) : same k k' = false). apply IH. intros x I. apply N. right. exact I.
  Qed.
  Lemma change_none d k f : (forall x, In x d -> same k (fst x) = false) -> change same d k f = d ++ [(k, f None)].
  Proof.
    induction d as [|[k' v] d IH]; intros N; cbn; [reflexivity|].
    rewrite (N (k', v) (or_introl eq_refl) : same k k' = false). f_equal. apply IH. intros x I. apply N. right. exact I.
  Qed.
  Lemma strike_none d k : (forall x, In x d -> same k (fst x) = false) -> strike same d k = d.
  Proof.
    unfold strike. induction d as [|e d IH]; intros N; cbn; [reflexivity|].
    rewrite (N e (or_introl eq_refl)). cbn. f_equal. apply IH. intros x I. apply N. right. exact I.
  Qed.
  Lemma others a k' v b k : distinct (a ++ (k', v) :: b) -> same k k' = true ->
    forall x, In x (a ++ b) -> same k (fst x) = false.
  Proof using Hs.
    intros D S x I. destruct (same k (fst x)) eqn:E; [|reflexivity].
    rewrite <- (distinct_split a k' v b D x I). symmetry. apply same_trans with k; [rewrite same_sym; exact S|exact E].
  Qed.
  Lemma look_some a k' v b k : distinct (a ++ (k', v) :: b) -> same k k' = true ->
    look same (a ++ (k', v) :: b) k = Some v.
  Proof using Hs.
    intros D S. pose proof (others a k' v b k D S) as O. clear D. induction a as [|[k1 v1] a IH]; cbn.
    - rewrite S. reflexivity.
    - rewrite (O (k1, v1) (or_introl eq_refl) : same k k1 = false). apply IH. intros x I. apply O. right. exact I.
  Qed.
  Lemma change_some a k' v b k f : distinct (a ++ (k', v) :: b) -> same k k' = true ->
    change same (a ++ (k', v) :: b) k f = a ++ (k', f (Some v)) :: b.
  Proof using Hs.
    intros D S. pose proof (others a k' v b k D S) as O. clear D. induction a as [|[k1 v1] a IH]; cbn.
    - rewrite S. reflexivity.
    - rewrite (O (k1, v1) (or_introl eq_refl) : same k k1 = false). f_equal. apply IH. intros x I. apply O. right. exact I.
  Qed.
  Lemma strike_some a k' v b k : distinct (a ++ (k', v) :: b) -> same k k' = true ->
    strike same (a ++ (k', v) :: b) k = a ++ b.
  Proof using Hs.
    intros D S. pose proof (others a k' v b k D S) as O. clear D. unfold strike. rewrite filter_app. cbn. rewrite S. cbn.
    rewrite <- filter_app. exact (strike_none _ k O).
  Qed.
End Paper.

(** ** A table of slots that holds a dictionary *)
Section Table.
  Context {K V : Type} (lay : layout) (eqb : K -> K -> bool) (hash : K -> Z).
  Context (Hs : equivalence eqb) (Hh : forall a b, eqb a b = true -> hash a = hash b) (Hl : complete lay).
  Implicit Types (slots : list (slot K V)) (d : list (K * V)).

  (** A key's slot is found before any slot that was never used. *)
  Definition reachable slots : Prop := forall p t k v, p < length slots -> nth p slots Empty = Full t k v ->
    t = tag lay (hash k) /\ exists a b, looked_at lay hash slots k = a ++ p :: b /\ forall q, In q a -> nth q slots Empty <> Empty.
  Definition stands slots d : Prop := Permutation (hash_iter slots) d /\ distinct eqb d /\ reachable slots.

  Lemma in_range slots k p : In p (looked_at lay hash slots k) <-> p < length slots.
  Proof using Hl.
    unfold looked_at. split; intros H.
    - apply (Permutation_in _ (Permutation_sym (Hl _ _))), in_seq in H. lia.
    - apply (Permutation_in _ (Hl _ _)), in_seq. lia.
  Qed.

  Lemma find_some k slots ps p : find_slot lay eqb hash k slots ps = Some p ->
    In p ps /\ exists t k' v, nth p slots Empty = Full t k' v /\ eqb k k' = true.
  Proof.
    induction ps as [|q ps IH]; cbn [find_slot]; intros H; [discriminate H|].
    destruct (nth q slots Empty) as [| |t k' v] eqn:E; [discriminate H| |].
    - destruct (IH H) as (I & R). split; [right; exact I|exact R].
    - destruct (matches lay eqb hash k t k') eqn:M.
      + injection H as <-. split; [left; reflexivity|]. exists t, k', v. split; [exact E|].
        unfold matches in M. apply andb_true_iff in M as [_ M]. exact M.
      + destruct (IH H) as (I & R). split; [right; exact I|exact R].
  Qed.
  Lemma find_here k slots a p b t k' v : (forall q, In q a -> nth q slots Empty <> Empty) ->
    nth p slots Empty = Full t k' v -> matches lay eqb hash k t k' = true ->
    find_slot lay eqb hash k slots (a ++ p :: b) <> None.
  Proof.
    intros N E M. induction a as [|q a IH]; cbn [find_slot app].
    - rewrite E, M. discriminate.
    - destruct (nth q slots Empty) as [| |t1 k1 v1] eqn:Q.
      + exfalso. exact (N q (or_introl eq_refl) Q).
      + apply IH. intros r I. apply N. right. exact I.
      + destruct (matches lay eqb hash k t1 k1); [discriminate|]. apply IH. intros r I. apply N. right. exact I.
  Qed.
  Lemma looked_same slots k k' : eqb k k' = true -> looked_at lay hash slots k = looked_at lay hash slots k'.
  Proof using Hh. intros S. unfold looked_at. rewrite (Hh _ _ S). reflexivity. Qed.

  (** The two outcomes of a search *)
  Lemma search slots d k : stands slots d ->
    (find_slot lay eqb hash k slots (looked_at lay hash slots k) = None /\ forall x, In x d -> eqb k (fst x) = false)
    \/ exists p t k' v, find_slot lay eqb hash k slots (looked_at lay hash slots k) = Some p
         /\ p < length slots /\ nth p slots Empty = Full t k' v /\ eqb k k' = true.
  Proof using Hl Hh.
    intros (P & D & R). destruct (find_slot _ _ _ k slots _) as [p|] eqn:F.
    - right. destruct (find_some _ _ _ _ F) as (I & t & k' & v & E & S). apply in_range in I. exists p, t, k', v. auto.
    - left. split; [reflexivity|]. intros [k' v] I. cbn. destruct (eqb k k') eqn:S; [|reflexivity]. exfalso.
      apply (Permutation_in _ (Permutation_sym P)), iter_in in I as (p & t & L & E).
      destruct (R p t k' v L E) as (T & a & b & A & N). rewrite (looked_same slots k k' S), A in F.
      refine (find_here k slots a p b t k' v N E _ F). unfold matches. rewrite T, <- (Hh _ _ S), S, Z.eqb_refl. reflexivity.
  Qed.

  Lemma get_looks slots d k : stands slots d -> hash_get lay eqb hash slots k = look eqb d k.
  Proof using Hl Hh Hs.
    intros St. unfold hash_get. destruct (search slots d k St) as [(-> & N)|(p & t & k' & v & -> & L & E & S)].
    - symmetry. apply look_none, N.
    - rewrite E. destruct St as (P & D & _).
      assert (I : In (k', v) d) by (apply (Permutation_in _ P), iter_in; eauto).
      apply in_split in I as (a & b & ->). symmetry. apply look_some; assumption.
  Qed.

  (** Changing what a full slot holds, but not whether it was used *)
  Lemma reachable_put slots p s : reachable slots -> p < length slots -> s <> Empty ->
    (forall t k v, s = Full t k v -> t = tag lay (hash k)
       /\ exists a b, looked_at lay hash slots k = a ++ p :: b /\ forall q, In q a -> nth q slots Empty <> Empty) ->
    reachable (put_at p s slots).
  Proof.
    intros R L N F q t k v Lq E. rewrite put_at_length in Lq. unfold looked_at. rewrite put_at_length. fold (looked_at lay hash slots k).
    assert (Z : t = tag lay (hash k) /\ exists a b, looked_at lay hash slots k = a ++ q :: b /\ forall r, In r a -> nth r slots Empty <> Empty).
    { destruct (Nat.eq_dec p q) as [->|D].
      - rewrite put_at_same in E by exact L. exact (F t k v E).
      - rewrite put_at_other in E by exact D. exact (R q t k v Lq E). }
    destruct Z as (T & a & b & A & M). split; [exact T|]. exists a, b. split; [exact A|]. intros r I.
    destruct (Nat.eq_dec p r) as [->|D].
    - rewrite put_at_same by exact L. exact N.
    - rewrite put_at_other by exact D. exact (M r I).
  Qed.

  (** Taking an entry out of the middle of both *)
  Lemma taken_out slots d p t k' v : Permutation (hash_iter slots) d -> p < length slots -> nth p slots Empty = Full t k' v ->
    exists a b x y, d = x ++ (k', v) :: y /\ Permutation (hash_iter a ++ hash_iter b) (x ++ y)
      /\ forall s, put_at p s slots = a ++ s :: b.
  Proof.
    intros P L E. destruct (put_at_split p Deleted slots L) as (a & b & A & _ & La). rewrite E in A.
    assert (I : In (k', v) d) by (apply (Permutation_in _ P), iter_in; eauto).
    apply in_split in I as (x & y & ->). exists a, b, x, y. split; [reflexivity|]. split.
    - rewrite A, iter_app in P. change (hash_iter (Full t k' v :: b)) with ((k', v) :: hash_iter b) in P.
      exact (Permutation_app_inv _ _ _ _ _ P).
    - intros s. subst p. clear -A. rewrite A. clear A. induction a as [|z a IH]; cbn; [reflexivity|]. f_equal. exact IH.
  Qed.

  Lemma vacant_some slots ps p : find_vacant (K:=K) (V:=V) slots ps = Some p ->
    (forall t k v, nth p slots Empty <> Full t k v)
    /\ exists a b, ps = a ++ p :: b /\ forall q, In q a -> exists t k v, nth q slots Empty = Full t k v.
  Proof.
    induction ps as [|q ps IH]; cbn [find_vacant]; intros H; [discriminate H|].
    destruct (nth q slots Empty) as [| |t k v] eqn:E.
    - injection H as <-. split; [intros; rewrite E; discriminate|]. exists [], ps. split; [reflexivity|]. intros r [].
    - injection H as <-. split; [intros; rewrite E; discriminate|]. exists [], ps. split; [reflexivity|]. intros r [].
    - destruct (IH H) as (N & a & b & -> & F). split; [exact N|]. exists (q :: a), b. split; [reflexivity|].
      intros r [<-|I]; [eauto|exact (F r I)].
  Qed.
  Lemma vacant_none slots ps : find_vacant (K:=K) (V:=V) slots ps = None ->
    forall q, In q ps -> exists t k v, nth q slots Empty = Full t k v.
  Proof.
    induction ps as [|q ps IH]; cbn [find_vacant]; intros H r I; [destruct I|].
    destruct (nth q slots Empty) as [| |t k v] eqn:E; [discriminate H|discriminate H|].
    destruct I as [<-|I]; [eauto|exact (IH H r I)].
  Qed.

  Lemma place_length slots e : length (place lay hash slots e) = length slots.
  Proof. unfold place. destruct (find_vacant _ _); [apply put_at_length|reflexivity]. Qed.
  Lemma place_stands slots d k v : stands slots d -> hash_len slots < length slots ->
    (forall x, In x d -> eqb k (fst x) = false) -> stands (place lay hash slots (k, v)) (d ++ [(k, v)]).
  Proof using Hl Hs.
    intros (P & D & R) L N. unfold place. cbn [fst snd].
    destruct (find_vacant slots (looked_at lay hash slots k)) as [p|] eqn:F.
    - destruct (vacant_some slots _ p F) as (NF & a & b & A & Q).
      assert (Lp : p < length slots) by (apply (in_range slots k); rewrite A; apply in_elt).
      destruct (put_at_split p (Full (tag lay (hash k)) k v) slots Lp) as (x & y & X & Y & _).
      split; [|split].
      + rewrite Y, iter_app. change (hash_iter (Full ?t k v :: y)) with ((k, v) :: hash_iter y).
        apply Permutation_trans with ((k, v) :: hash_iter x ++ hash_iter y); [symmetry; apply Permutation_middle|].
        apply Permutation_trans with ((k, v) :: d); [|apply Permutation_cons_append]. constructor.
        replace (hash_iter x ++ hash_iter y) with (hash_iter slots); [exact P|].
        destruct (nth p slots Empty) as [| |t1 k1 v1] eqn:E;
          [rewrite X, iter_app; reflexivity|rewrite X, iter_app; reflexivity|exfalso; exact (NF t1 k1 v1 eq_refl)].
      + apply (distinct_perm eqb _ _ (Permutation_cons_append d (k, v))). apply distinct_cons; [exact Hs|exact N|exact D].
      + apply reachable_put; [exact R|exact Lp|discriminate|]. intros t k1 v1 E. injection E as <- <- <-.
        split; [reflexivity|]. exists a, b. split; [exact A|]. intros q I. destruct (Q q I) as (t & k1 & v1 & ->). discriminate.
    - exfalso. pose proof (iter_full slots) as Z. rewrite Z in L; [lia|]. intros p Lp.
      apply (vacant_none slots _ F p). apply in_range, Lp.
  Qed.

  Lemma empty_stands n : stands (repeat Empty n) [].
  Proof.
    split; [rewrite iter_empty; constructor|]. split; [apply distinct_nil|]. intros p t k v L E. exfalso.
    rewrite nth_repeat in E. discriminate E.
  Qed.
  Lemma stands_len slots d : stands slots d -> hash_len slots = length d.
  Proof. intros (P & _). unfold hash_len. apply Permutation_length, P. Qed.

  Lemma places es : forall slots d, stands slots d -> distinct eqb (d ++ es) -> length (d ++ es) <= length slots ->
    stands (fold_left (place lay hash) es slots) (d ++ es)
    /\ length (fold_left (place lay hash) es slots) = length slots.
  Proof using Hl Hs.
    induction es as [|[k v] es IH]; intros slots d St D L; cbn [fold_left].
    - rewrite app_nil_r. auto.
    - change (d ++ (k, v) :: es) with (d ++ [(k, v)] ++ es) in *. rewrite app_assoc in *.
      destruct (IH (place lay hash slots (k, v)) (d ++ [(k, v)])) as (A & B).
      + apply place_stands; [exact St| |].
        * rewrite (stands_len slots d St). rewrite !app_length in L. cbn in L. lia.
        * intros x I. rewrite <- app_assoc in D. apply (distinct_split eqb d k v es D). apply in_or_app. left. exact I.
      + exact D.
      + rewrite place_length. exact L.
      + split; [exact A|]. rewrite B. apply place_length.
  Qed.

  Lemma perm_stands slots d d' : Permutation d d' -> stands slots d -> stands slots d'.
  Proof using Hs.
    intros P (A & D & R). split; [exact (Permutation_trans A P)|]. split; [exact (distinct_perm eqb _ _ P D)|exact R].
  Qed.
  Lemma reserve_stands slots d : stands slots d ->
    stands (reserve lay hash slots) d /\ hash_len (reserve lay hash slots) < length (reserve lay hash slots).
  Proof using Hl Hs.
    intros St. unfold reserve. destruct (crowded lay _ _ || negb _) eqn:C.
    - destruct St as (P & D & R). unfold rehash.
      assert (L : length (hash_iter slots) <= length slots).
      { clear. unfold hash_iter. induction slots as [|[| |t k v] l IH]; cbn; lia. }
      destruct (places (hash_iter slots) (repeat Empty (length slots + 1 + extra lay (length slots))) [] (empty_stands _)) as (A & B).
      + exact (distinct_perm eqb _ _ (Permutation_sym P) D).
      + cbn [app]. rewrite repeat_length. lia.
      + cbn [app] in A. split; [exact (perm_stands _ _ _ P A)|]. rewrite (stands_len _ _ A), B, repeat_length. lia.
    - split; [exact St|]. apply orb_false_iff in C as [_ C]. apply negb_false_iff, Nat.ltb_lt in C. exact C.
  Qed.

  Lemma update_stands slots d k f : stands slots d -> stands (hash_update lay eqb hash slots k f) (change eqb d k f).
  Proof using Hl Hh Hs.
    intros St. unfold hash_update. destruct (search slots d k St) as [(-> & N)|(p & t & k' & v & -> & L & E & S)].
    - rewrite (change_none eqb d k f N). destruct (reserve_stands slots d St) as (A & B).
      exact (place_stands _ d k (f None) A B N).
    - rewrite E. destruct St as (P & D & R). destruct (taken_out slots d p t k' v P L E) as (a & b & x & y & -> & Q & F).
      rewrite (change_some eqb Hs x k' v y k f D S). split; [|split].
      + rewrite F, iter_app. change (hash_iter (Full t k' ?w :: b)) with ((k', w) :: hash_iter b).
        apply Permutation_elt. exact Q.
      + exact (distinct_value eqb Hs _ _ _ _ _ D).
      + apply reachable_put; [exact R|exact L|discriminate|]. intros t1 k1 v1 G. injection G as <- <- <-.
        exact (R p t k' v L E).
  Qed.
  Lemma remove_stands slots d k : stands slots d -> stands (snd (hash_remove lay eqb hash slots k)) (strike eqb d k).
  Proof using Hl Hh Hs.
    intros St. unfold hash_remove. cbn [snd]. destruct (search slots d k St) as [(-> & N)|(p & t & k' & v & -> & L & E & S)].
    - rewrite (strike_none eqb d k N). exact St.
    - destruct St as (P & D & R). destruct (taken_out slots d p t k' v P L E) as (a & b & x & y & -> & Q & F).
      rewrite (strike_some eqb Hs x k' v y k D S). split; [|split].
      + rewrite F, iter_app. exact Q.
      + apply (distinct_perm eqb _ _ (Permutation_sym (Permutation_middle x y (k', v)))) in D.
        exact (proj1 (distinct_tail eqb _ _ D)).
      + apply reachable_put; [exact R|exact L|discriminate|]. intros t1 k1 v1 G. discriminate G.
  Qed.

  Lemma call_stands slots d c : stands slots d ->
    fst (by_hash lay eqb hash slots c) = fst (on_paper eqb d c)
    /\ stands (snd (by_hash lay eqb hash slots c)) (snd (on_paper eqb d c)).
  Proof using Hl Hh Hs.
    intros St. destruct c as [k|k v|k f|k|]; cbn [by_hash on_paper hash_insert fst snd].
    - rewrite (get_looks slots d k St). auto.
    - rewrite (get_looks slots d k St). split; [reflexivity|]. apply update_stands, St.
    - split; [reflexivity|]. apply update_stands, St.
    - split; [|exact (remove_stands slots d k St)]. cbn. rewrite (get_looks slots d k St). reflexivity.
    - rewrite (stands_len slots d St). auto.
  Qed.
  Lemma calls_stand l : forall slots d, stands slots d ->
    fst (calls (by_hash lay eqb hash) slots l) = fst (calls (on_paper eqb) d l)
    /\ stands (snd (calls (by_hash lay eqb hash) slots l)) (snd (calls (on_paper eqb) d l)).
  Proof using Hl Hh Hs.
    induction l as [|c l IH]; intros slots d St; cbn [calls]; [auto|].
    destruct (call_stands slots d c St) as (A & B).
    destruct (by_hash lay eqb hash slots c) as [r s1]. destruct (on_paper eqb d c) as [r' d1]. cbn [fst snd] in *. subst r'.
    destruct (IH s1 d1 B) as (C & D).
    destruct (calls (by_hash lay eqb hash) s1 l) as [rs s2]. destruct (calls (on_paper eqb) d1 l) as [rs' d2].
    cbn [fst snd] in *. subst rs'. auto.
  Qed.

  Theorem dictionary n l : exists rs slots d,
    calls (by_hash lay eqb hash) (repeat Empty n) l = (rs, slots)
    /\ calls (on_paper eqb) [] l = (rs, d) /\ Permutation (hash_iter slots) d.
  Proof using Hl Hh Hs.
    destruct (calls_stand l (repeat Empty n) [] (empty_stands n)) as (A & B).
    destruct (calls (by_hash lay eqb hash) (repeat Empty n) l) as [rs slots]. destruct (calls (on_paper eqb) [] l) as [rs' d].
    cbn [fst snd] in *. subst rs'. exists rs, slots, d. split; [reflexivity|]. split; [reflexivity|]. exact (proj1 B).
  Qed.
End Table.
