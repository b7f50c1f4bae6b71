(** SourceFacts.v: parsing iterators over any source. *)
From Coq Require Import Lia List Arith.
From Verif Require Import Base ModelCard ModelSource SpecApi SpecText SpecSource.
From Verif Require TextFacts.
Import ListNotations.

Section source.
Context {S : Type} (next : S -> option rstring * S).

Lemma parsed_item s r s' : parsed_next next s = (Some r, s') <-> exists t, next s = (Some t, s') /\ r = card_from_str t.
Proof.
  unfold parsed_next. destruct (next s) as [[t|] s1]; split.
  - intros H. injection H as <- <-. exists t. auto.
  - intros (t' & H & ->). injection H as <- <-. reflexivity.
  - discriminate.
  - intros (t' & H & _). discriminate.
Qed.
Lemma parsed_end s s' : parsed_next next s = (None, s') <-> next s = (None, s').
Proof.
  unfold parsed_next. destruct (next s) as [[t|] s1]; split; try discriminate; intros H; injection H as <-; reflexivity.
Qed.

Lemma gives_parsed s l s' : gives (parsed_next next) s l s' <-> exists ts, gives next s ts s' /\ l = map card_from_str ts.
Proof.
  split.
  - induction 1 as [s|s x s1 l s2 H _ (ts & IH & ->)]; [exists []; split; [constructor|reflexivity]|].
    apply parsed_item in H. destruct H as (t & H & ->). exists (t :: ts).
    split; [exact (gives_more next s t s1 ts s2 H IH)|reflexivity].
  - intros (ts & G & ->). induction G as [s|s x s1 l s2 H _ IH]; [constructor|].
    cbn [map]. apply (gives_more _ s (card_from_str x) s1); [|exact IH]. apply parsed_item. exists x. auto.
Qed.

Lemma fold_spec B (f : B -> result card parse_card_error -> B) s ts s1 s2 : gives next s ts s1 -> next s1 = (None, s2) ->
  forall init, parsed_fold next (Datatypes.S (length ts)) s init f = Ret (fold_left f (map card_from_str ts) init, s2).
Proof.
  intros G E. induction G as [s|s x s1 l s3 H G IH]; intros init.
  - cbn [length parsed_fold map fold_left]. rewrite (proj2 (parsed_end _ _) E). reflexivity.
  - cbn [length map fold_left]. rewrite <- (IH E (f init (card_from_str x))).
    set (n := length l). cbn [parsed_fold]. 
    rewrite (proj2 (parsed_item s (card_from_str x) s1)); [reflexivity|]. exists x. auto.
Qed.

Section collection.
Context {A C : Type} (made : A -> option C) (feed : A -> option card -> A).
Notation collect := (collect_with next made feed).

(** One text that is read. *)
Lemma collect_card fuel a s t c s' residual : made a = None -> next s = (Some t, s') -> card_from_str t = Ok c ->
  collect (Datatypes.S fuel) a s residual = collect fuel (feed a (Some c)) s' residual.
Proof.
  intros M H E. cbn [collect_with]. rewrite M, (proj2 (parsed_item s (Ok c) s')); [reflexivity|]. exists t. auto.
Qed.
Lemma collect_cards a cs b : fed made feed a cs b -> forall s s1, gives next s (map card_text cs) s1 -> all_cards cs ->
  forall fuel residual, collect (length cs + fuel) a s residual = collect fuel b s1 residual.
Proof.
  induction 1 as [a|a x l b M F IH]; intros s s1 G Ac fuel residual.
  - inversion G; subst. reflexivity.
  - cbn [map] in G. inversion G as [|? ? s2 ? ? H G']; subst. inversion Ac as [|? ? Ax Al]; subst.
    cbn [length Nat.add]. rewrite (collect_card _ a s _ x s2 residual M H (TextFacts.parse_text x Ax)).
    apply IH; assumption.
Qed.

(** What a collection that stops at [None] gets. *)
Definition outcome_of (a : A) (s : S) (r : result C parse_card_error) (s' : S) : Prop :=
  exists cs b s1, fed made feed a cs b /\ all_cards cs /\ gives next s (map card_text cs) s1
    /\ ( (made b <> None /\ s' = s1 /\ exists c, made b = Some c /\ r = Ok c)
      \/ (made b = None /\ next s1 = (None, s') /\ exists c, made (feed b None) = Some c /\ r = Ok c)
      \/ (made b = None /\ exists t e, next s1 = (Some t, s') /\ card_from_str t = Err e /\ r = Err e)).

Lemma collect_inv (St : stops made feed) fuel : forall a s r s',
  collect fuel a s None = Ret (r, s') -> outcome_of a s r s'.
Proof.
  induction fuel as [|fuel IH]; intros a s r s' H; cbn [collect_with] in H; destruct (made a) as [c|] eqn:M; try discriminate.
  - injection H as <- <-. exists [], a, s. split; [constructor|]. split; [constructor|]. split; [constructor|].
    left. rewrite M. split; [discriminate|]. split; [reflexivity|]. exists c. auto.
  - injection H as <- <-. exists [], a, s. split; [constructor|]. split; [constructor|]. split; [constructor|].
    left. rewrite M. split; [discriminate|]. split; [reflexivity|]. exists c. auto.
  - destruct (parsed_next next s) as [[[c|e]|] s2] eqn:P.
    + apply parsed_item in P. destruct P as (t & P & E). symmetry in E.
      destruct (IH _ _ _ _ H) as (cs & b & s1 & F & Ac & G & K).
      destruct (TextFacts.parse_ok_text t c E) as [Cc <-].
      exists (c :: cs), b, s1. split; [exact (fed_more _ _ a c cs b M F)|]. split; [constructor; assumption|].
      split; [exact (gives_more next s _ s2 _ s1 P G)|exact K].
    + apply parsed_item in P. destruct P as (t & P & E). symmetry in E.
      specialize (St a M). assert (K : r = Err e /\ s' = s2).
      { destruct fuel; cbn [collect_with] in H; destruct (made (feed a None)); try congruence;
          injection H as <- <-; auto. }
      destruct K as [-> ->]. exists [], a, s. split; [constructor|]. split; [constructor|]. split; [constructor|].
      right. right. split; [exact M|]. exists t, e. auto.
    + apply (proj1 (parsed_end _ _)) in P. specialize (St a M).
      destruct (made (feed a None)) as [c|] eqn:M2; [|congruence].
      assert (K : r = Ok c /\ s' = s2).
      { destruct fuel; cbn [collect_with] in H; rewrite M2 in H; injection H as <- <-; auto. }
      destruct K as [-> ->]. exists [], a, s. split; [constructor|]. split; [constructor|]. split; [constructor|].
      right. left. split; [exact M|]. split; [exact P|]. exists c. auto.
Qed.
Lemma collect_made fuel a s residual c : made a = Some c ->
  collect fuel a s residual = Ret (match residual with Some e => Err e | None => Ok c end, s).
Proof. intros M. destruct fuel; cbn [collect_with]; rewrite M; reflexivity. Qed.
Lemma collect_ret (St : stops made feed) a s r s' : outcome_of a s r s' -> exists fuel, collect fuel a s None = Ret (r, s').
Proof.
  intros (cs & b & s1 & F & Ac & G & K). exists (length cs + 1). rewrite (collect_cards a cs b F s s1 G Ac).
  destruct K as [(_ & -> & c & M & ->)|[(M & E & c & M2 & ->)|(M & t & e & E & X & ->)]].
  - rewrite (collect_made _ b s1 None c M). reflexivity.
  - cbn [collect_with]. rewrite M, (proj2 (parsed_end _ _) E), M2. reflexivity.
  - cbn [collect_with]. rewrite M, (proj2 (parsed_item s1 (Err e) s')) by (exists t; auto).
    specialize (St b M). destruct (made (feed b None)); [reflexivity|congruence].
Qed.
Theorem collection (St : stops made feed) a s r s' :
  (exists fuel, collect fuel a s None = Ret (r, s')) <-> outcome_of a s r s'.
Proof. split; [intros [fuel H]; exact (collect_inv St fuel a s r s' H)|exact (collect_ret St a s r s')]. Qed.
End collection.

(** ** [Vec] *)
Lemma vec_stops : stops vec_made vec_feed.
Proof. intros [l b] _. discriminate. Qed.
Lemma vec_fed_inv a cs b : fed vec_made vec_feed a cs b -> b = (fst a ++ cs, snd a).
Proof.
  induction 1 as [[l x]|[l x] c cs b M F ->]; cbn [fst snd vec_feed] in *.
  - rewrite app_nil_r. reflexivity.
  - rewrite <- app_assoc. reflexivity.
Qed.
Lemma vec_fed cs : forall l, fed vec_made vec_feed (l, false) cs (l ++ cs, false).
Proof.
  induction cs as [|c cs IH]; intros l; [rewrite app_nil_r; constructor|]. constructor; [reflexivity|].
  cbn [vec_feed fst snd]. specialize (IH (l ++ [c])). rewrite <- app_assoc in IH. exact IH.
Qed.

Theorem vec_ok s cs s' : (exists fuel, try_collect_vec next fuel s = Ret (Ok cs, s')) <->
  all_cards cs /\ exists s1, gives next s (map card_text cs) s1 /\ next s1 = (None, s').
Proof.
  unfold try_collect_vec. rewrite (collection vec_made vec_feed vec_stops). split.
  - intros (l & b & s1 & F & Ac & G & K). apply vec_fed_inv in F. cbn [fst snd app] in F. subst b.
    destruct K as [(N & _)|[(_ & E & c & M & H)|(_ & t & e & _ & _ & H)]].
    + exfalso. apply N. reflexivity.
    + cbn in M. injection M as <-. injection H as <-. split; [exact Ac|]. exists s1. auto.
    + discriminate.
  - intros (Ac & s1 & G & E). exists cs, (cs, false), s1. split; [exact (vec_fed cs [])|]. split; [exact Ac|].
    split; [exact G|]. right. left. split; [reflexivity|]. split; [exact E|]. exists cs. auto.
Qed.
Theorem vec_err s e s' : (exists fuel, try_collect_vec next fuel s = Ret (Err e, s')) <->
  exists cs s1 t, all_cards cs /\ gives next s (map card_text cs) s1
    /\ next s1 = (Some t, s') /\ card_from_str t = Err e.
Proof.
  unfold try_collect_vec. rewrite (collection vec_made vec_feed vec_stops). split.
  - intros (l & b & s1 & F & Ac & G & K). apply vec_fed_inv in F. cbn [fst snd app] in F. subst b.
    destruct K as [(N & _)|[(_ & E & c & M & H)|(_ & t & x & E & X & H)]].
    + exfalso. apply N. reflexivity.
    + discriminate.
    + injection H as <-. exists l, s1, t. auto.
  - intros (cs & s1 & t & Ac & G & E & X). exists cs, (cs, false), s1. split; [exact (vec_fed cs [])|]. split; [exact Ac|].
    split; [exact G|]. right. right. split; [reflexivity|]. exists t, e. auto.
Qed.
Theorem vec_endless s : (forall n, exists cs s', length cs = n /\ all_cards cs /\ gives next s (map card_text cs) s') ->
  forall fuel, try_collect_vec next fuel s = OutOfFuel.
Proof.
  intros H fuel. destruct (H fuel) as (cs & s' & L & Ac & G). unfold try_collect_vec.
  rewrite <- (Nat.add_0_r fuel), <- L, (collect_cards vec_made vec_feed _ _ _ (vec_fed cs []) s s' G Ac). reflexivity.
Qed.
End source.

(** ** A list of strings *)
Lemma list_gives ts : forall rest, gives list_next (ts ++ rest) ts rest.
Proof. induction ts as [|t ts IH]; intros rest; [constructor|]. apply (gives_more _ _ t (ts ++ rest)); [reflexivity|apply IH]. Qed.
Lemma list_gives_inv ss ts rest : gives list_next ss ts rest -> ss = ts ++ rest.
Proof.
  induction 1 as [s|s x s1 l s2 H _ IH]; [reflexivity|]. destruct s as [|t s]; [discriminate|]. injection H as <- <-. rewrite IH. reflexivity.
Qed.
Theorem list_agrees ss r : (exists fuel rest, try_collect_vec list_next fuel ss = Ret (r, rest))
  <-> try_collect (parse_to_iter ss) = r.
Proof.
  assert (D : exists r rest, (exists fuel, try_collect_vec list_next fuel ss = Ret (r, rest)) /\ try_collect (parse_to_iter ss) = r).
  { destruct (try_collect (parse_to_iter ss)) as [cs|e] eqn:E.
    - exists (Ok cs), []. split; [|reflexivity]. apply vec_ok. apply TextFacts.try_collect_ok in E.
      assert (Q : all_cards cs /\ ss = map card_text cs).
      { clear - E. revert ss E. induction cs as [|c cs IH]; intros [|t ss] E; try discriminate; [split; [constructor|reflexivity]|].
        cbn [map] in E. injection E as E1 E2. destruct (IH ss E2) as [Ac ->].
        destruct (TextFacts.parse_ok_text t c E1) as [Cc <-]. split; [constructor; assumption|reflexivity]. }
      destruct Q as [Ac ->]. split; [exact Ac|]. exists []. split; [|reflexivity].
      rewrite <- (app_nil_r (map card_text cs)) at 1. apply list_gives.
    - apply TextFacts.try_collect_err in E. destruct E as (pre & t & post & cs & -> & E & X).
      exists (Err e), post. split; [|reflexivity]. apply vec_err.
      assert (Q : all_cards cs /\ pre = map card_text cs).
      { clear - E. revert pre E. induction cs as [|c cs IH]; intros [|u pre] E; try discriminate; [split; [constructor|reflexivity]|].
        cbn [map] in E. injection E as E1 E2. destruct (IH pre E2) as [Ac ->].
        destruct (TextFacts.parse_ok_text u c E1) as [Cc <-]. split; [constructor; assumption|reflexivity]. }
      destruct Q as [Ac ->]. exists cs, (t :: post), t. split; [exact Ac|]. split; [apply list_gives|]. auto. }
  destruct D as (r0 & rest0 & [f0 H0] & T). rewrite T. split.
  - intros (fuel & rest & H).
    assert (M : forall f1 f2 x y, try_collect_vec list_next f1 ss = Ret x -> try_collect_vec list_next f2 ss = Ret y -> x = y).
    { unfold try_collect_vec. generalize (@nil card, false) as a. generalize (@None parse_card_error) as q.
      generalize ss. intros s0 q a f1. revert s0 q a. induction f1 as [|f1 IH]; intros s0 q a f2 x y;
        destruct f2 as [|f2]; cbn [collect_with]; destruct (vec_made a); try congruence; try discriminate.
      destruct (parsed_next list_next s0) as [[[c|e]|] s2]; apply IH. }
    pose proof (M _ _ _ _ H0 H) as E. congruence.
  - intros <-. exists f0, rest0. exact H0.
Qed.

(** ** The two cases of [collection], and the examples *)
Theorem collection_ok S (next : S -> option rstring * S) A C (made : A -> option C) (feed : A -> option card -> A)
    a s x s' : stops made feed ->
  (exists fuel, collect_with next made feed fuel a s None = Ret (Ok x, s')) <->
  exists cs b s1, all_cards cs /\ gives next s (map card_text cs) s1 /\ fed made feed a cs b
    /\ ((made b = Some x /\ s' = s1) \/ (made b = None /\ next s1 = (None, s') /\ made (feed b None) = Some x)).
Proof.
  intros St. rewrite (collection next made feed St). split.
  - intros (cs & b & s1 & F & Ac & G & K). exists cs, b, s1. split; [exact Ac|]. split; [exact G|]. split; [exact F|].
    destruct K as [(_ & -> & c & M & H)|[(M & E & c & M2 & H)|(_ & t & e & _ & _ & H)]].
    + injection H as <-. auto.
    + injection H as <-. auto.
    + discriminate.
  - intros (cs & b & s1 & Ac & G & F & K). exists cs, b, s1. split; [exact F|]. split; [exact Ac|]. split; [exact G|].
    destruct K as [(M & ->)|(M & E & M2)].
    + left. split; [congruence|]. split; [reflexivity|]. exists x. auto.
    + right. left. split; [exact M|]. split; [exact E|]. exists x. auto.
Qed.
Theorem collection_err S (next : S -> option rstring * S) A C (made : A -> option C) (feed : A -> option card -> A)
    a s e s' : stops made feed ->
  (exists fuel, collect_with next made feed fuel a s None = Ret (Err e, s')) <->
  exists cs b s1 t, all_cards cs /\ gives next s (map card_text cs) s1 /\ fed made feed a cs b /\ made b = None
    /\ next s1 = (Some t, s') /\ card_from_str t = Err e.
Proof.
  intros St. rewrite (collection next made feed St). split.
  - intros (cs & b & s1 & F & Ac & G & K).
    destruct K as [(_ & _ & c & _ & H)|[(_ & _ & c & _ & H)|(M & t & x & E & X & H)]]; try discriminate.
    injection H as <-. exists cs, b, s1, t. auto 10.
  - intros (cs & b & s1 & t & Ac & G & F & M & E & X). exists cs, b, s1. split; [exact F|]. split; [exact Ac|].
    split; [exact G|]. right. right. split; [exact M|]. exists t, e. auto.
Qed.

Theorem fold_any S (next : S -> option rstring * S) B (f : B -> result card parse_card_error -> B) init s r s' :
  (exists fuel, parsed_fold next fuel s init f = Ret (r, s')) <->
  exists ts s1, gives next s ts s1 /\ next s1 = (None, s') /\ r = fold_left f (map card_from_str ts) init.
Proof.
  split.
  - intros [fuel H]. revert s init H. induction fuel as [|fuel IH]; intros s init H; [discriminate|].
    cbn [parsed_fold] in H. destruct (parsed_next next s) as [[x|] s2] eqn:P.
    + apply parsed_item in P. destruct P as (t & P & ->). destruct (IH _ _ H) as (ts & s1 & G & E & ->).
      exists (t :: ts), s1. split; [exact (gives_more next s t s2 ts s1 P G)|]. auto.
    + apply (proj1 (parsed_end next _ _)) in P. injection H as <- <-. exists [], s. split; [constructor|]. auto.
  - intros (ts & s1 & G & E & ->). exists (Datatypes.S (length ts)). exact (fold_spec next B f s ts s1 s' G E init).
Qed.

Theorem item_end S (next : S -> option rstring * S) s :
  (forall r s', parsed_next next s = (Some r, s') <-> exists t, next s = (Some t, s') /\ r = card_from_str t)
  /\ (forall s', parsed_next next s = (None, s') <-> next s = (None, s')).
Proof. split; [exact (parsed_item next s)|exact (parsed_end next s)]. Qed.

Lemma numbered_endless n : 4 <= n -> forall k, exists cs s', length cs = k /\ all_cards cs /\ gives numbered n (map card_text cs) s'.
Proof.
  intros Hn k. revert n Hn. induction k as [|k IH]; intros n Hn; [exists [], n; split; [|split]; try constructor; reflexivity|].
  destruct (IH (Datatypes.S n) ltac:(lia)) as (cs & s' & L & Ac & G). exists (card_new Ace Spades :: cs), s'.
  split; [cbn [length]; rewrite L; reflexivity|]. split; [constructor; [exists Ace, Spades; reflexivity|exact Ac]|].
  cbn [map]. apply (gives_more _ _ _ (Datatypes.S n)); [|exact G]. unfold numbered.
  destruct (Nat.eqb_spec n 2); [lia|]. destruct (Nat.eqb_spec n 3); [lia|]. vm_compute. reflexivity.
Qed.
Lemma one_stops T : stops (@one_made T) one_feed.
Proof. intros a _. discriminate. Qed.

(** ** A collection that may go on after [None] *)
Section any.
Context {S : Type} (next : S -> option rstring * S) {A C : Type} (made : A -> option C) (feed : A -> option card -> A).
Notation collect := (collect_with next made feed).
Definition with_residual (residual : option parse_card_error) (es : list parse_card_error) (x : C) : result C parse_card_error :=
  last (map Err es) (match residual with Some e => Err e | None => Ok x end).
Lemma last_shift {T} (l : list T) : forall x d, last (x :: l) d = last l x.
Proof. induction l as [|y l IH]; intros x d; [reflexivity|]. change (last (x :: y :: l) d) with (last (y :: l) d). rewrite IH. symmetry. apply IH. Qed.
Lemma whatever_inv fuel : forall a s residual r s', collect fuel a s residual = Ret (r, s') ->
  exists ts b x, asked next s ts s' /\ told made feed a (map card_or_none ts) b /\ made b = Some x
    /\ r = with_residual residual (errors_in ts) x.
Proof.
  induction fuel as [|fuel IH]; intros a s residual r s' H; cbn [collect_with] in H;
    destruct (made a) as [x|] eqn:M; try discriminate.
  1,2: injection H as <- <-; exists [], a, x; split; [constructor|]; split; [constructor|]; split; [exact M|reflexivity].
  unfold parsed_next in H. destruct (next s) as [[t|] s2] eqn:N.
  - destruct (card_from_str t) as [c|e] eqn:E.
    + destruct (IH _ _ _ _ _ H) as (ts & b & x & K & T & Mb & ->). exists (Some t :: ts), b, x.
      split; [exact (asked_more next s (Some t) s2 ts s' N K)|]. split; [|split; [exact Mb|]].
      * cbn [map card_or_none]. rewrite E. constructor; assumption.
      * cbn [errors_in flat_map]. rewrite E. reflexivity.
    + destruct (IH _ _ _ _ _ H) as (ts & b & x & K & T & Mb & ->). exists (Some t :: ts), b, x.
      split; [exact (asked_more next s (Some t) s2 ts s' N K)|]. split; [|split; [exact Mb|]].
      * cbn [map card_or_none]. rewrite E. constructor; assumption.
      * cbn [errors_in flat_map]. rewrite E. cbn [app]. unfold with_residual. cbn [map]. rewrite last_shift. reflexivity.
  - destruct (IH _ _ _ _ _ H) as (ts & b & x & K & T & Mb & ->). exists (None :: ts), b, x.
    split; [exact (asked_more next s None s2 ts s' N K)|]. split; [|split; [exact Mb|reflexivity]].
    cbn [map card_or_none]. constructor; assumption.
Qed.
Lemma whatever_ret s ts s' : asked next s ts s' -> forall a b x residual, told made feed a (map card_or_none ts) b -> made b = Some x ->
  collect (length ts) a s residual = Ret (with_residual residual (errors_in ts) x, s').
Proof.
  induction 1 as [s|s t s1 ts s2 N K IH]; intros a b x residual T Mb; cbn [map] in T; inversion T as [|? ? ? ? Ma T']; subst.
  - cbn [length collect_with]. rewrite Mb. reflexivity.
  - cbn [length collect_with]. rewrite Ma. unfold parsed_next. rewrite N. destruct t as [t|].
    + cbn [card_or_none] in T'. cbn [errors_in flat_map]. destruct (card_from_str t) as [c|e].
      * exact (IH _ b x residual T' Mb).
      * cbn [app]. rewrite (IH _ b x (Some e) T' Mb). unfold with_residual. cbn [map]. rewrite last_shift. reflexivity.
    + exact (IH _ b x residual T' Mb).
Qed.
Theorem whatever a s r s' : (exists fuel, collect fuel a s None = Ret (r, s')) <->
  exists ts b x, asked next s ts s' /\ told made feed a (map card_or_none ts) b /\ made b = Some x
    /\ r = last (map Err (errors_in ts)) (Ok x).
Proof.
  split.
  - intros [fuel H]. exact (whatever_inv fuel a s None r s' H).
  - intros (ts & b & x & K & T & Mb & ->). exists (length ts). exact (whatever_ret s ts s' K a b x None T Mb).
Qed.
End any.
