(** UniformFacts.v: how many lists of random answers deal given cards from the top of the deck. *)
From Coq Require Import Lia List Arith Permutation Factorial.
From Verif Require Import Base ModelCard ModelEval ModelTable ModelEvaluation Spec SpecApi CardFacts DeckFacts ShuffleFacts.
From Verif Require Import CombosFacts Sweep FiveFacts HandFacts OddsFacts SizeFacts.
Import ListNotations.

(** ** The orders of a list *)
Fixpoint inserts {A} (x : A) (l : list A) : list (list A) :=
  match l with
  | [] => [[x]]
  | y :: l' => (x :: y :: l') :: map (cons y) (inserts x l')
  end.
Fixpoint perms {A} (l : list A) : list (list A) :=
  match l with
  | [] => [[]]
  | x :: l' => flat_map (inserts x) (perms l')
  end.

Lemma in_inserts {A} (x : A) l s : In s (inserts x l) <-> exists a b, l = a ++ b /\ s = a ++ x :: b.
Proof.
  revert s. induction l as [|y l IH]; intros s; cbn [inserts].
  - split.
    + intros [<-|[]]. exists [], []. auto.
    + intros (a & b & E & ->). symmetry in E. apply app_eq_nil in E. destruct E as [-> ->]. left. reflexivity.
  - split.
    + intros [<-|H]; [exists [], (y :: l); auto|]. apply in_map_iff in H. destruct H as (u & <- & H).
      apply IH in H. destruct H as (a & b & -> & ->). exists (y :: a), b. auto.
    + intros ([|z a] & b & E & ->); cbn in E.
      * subst b. left. reflexivity.
      * injection E as <- ->. right. cbn. apply in_map, IH. exists a, b. auto.
Qed.
Lemma inserts_length {A} (x : A) l : length (inserts x l) = S (length l).
Proof. induction l as [|y l IH]; [reflexivity|]. cbn [inserts length]. rewrite map_length, IH. reflexivity. Qed.
Lemma inserts_NoDup {A} (x : A) l : ~ In x l -> NoDup (inserts x l).
Proof.
  induction l as [|y l IH]; intros N; cbn [inserts].
  - constructor; [intros []|constructor].
  - constructor.
    + intros H. apply in_map_iff in H. destruct H as (u & E & _). injection E as E _.
      apply N. left. exact E.
    + apply FinFun.Injective_map_NoDup; [intros a b E; injection E as E; exact E|].
      apply IH. intros H. apply N. right. exact H.
Qed.

Lemma in_perms {A} (l : list A) : forall s, In s (perms l) <-> Permutation l s.
Proof.
  induction l as [|x l IH]; intros s; cbn [perms].
  - split.
    + intros [<-|[]]. constructor.
    + intros P. apply Permutation_nil in P. subst s. left. reflexivity.
  - rewrite in_flat_map. split.
    + intros (u & Hu & Hs). apply IH in Hu. apply in_inserts in Hs. destruct Hs as (a & b & -> & ->).
      rewrite <- Permutation_middle. constructor. exact Hu.
    + intros P. assert (Hx : In x s) by (apply (Permutation_in _ P); left; reflexivity).
      apply in_split in Hx. destruct Hx as (a & b & ->).
      exists (a ++ b). split.
      * apply IH. apply (Permutation_cons_inv (a := x)). rewrite P. symmetry. apply Permutation_middle.
      * apply in_inserts. exists a, b. auto.
Qed.
Lemma length_flat_map {A B} (f : A -> list B) n l : (forall a, In a l -> length (f a) = n) ->
  length (flat_map f l) = length l * n.
Proof.
  induction l as [|a l IH]; intros H; [reflexivity|]. cbn [flat_map length].
  rewrite app_length, (H a (or_introl eq_refl)), IH; [lia|]. intros b Hb. apply H. right. exact Hb.
Qed.
Lemma NoDup_flat {A B} (f : A -> list B) l : NoDup l -> (forall a, In a l -> NoDup (f a)) ->
  (forall a b x, In a l -> In b l -> In x (f a) -> In x (f b) -> a = b) -> NoDup (flat_map f l).
Proof.
  induction 1 as [|a l Na N IH]; intros H D; [constructor|]. cbn [flat_map]. apply NoDup_app_disj.
  - apply H. left. reflexivity.
  - apply IH.
    + intros b Hb. apply H. right. exact Hb.
    + intros b c x Hb Hc. apply D; right; assumption.
  - intros x Hx Hy. apply in_flat_map in Hy. destruct Hy as (b & Hb & Hy).
    apply Na. rewrite (D a b x (or_introl eq_refl) (or_intror Hb) Hx Hy). exact Hb.
Qed.
Lemma middle_inj {A} (x : A) a b a' b' : ~ In x (a ++ b) -> ~ In x (a' ++ b') ->
  a ++ x :: b = a' ++ x :: b' -> a ++ b = a' ++ b'.
Proof.
  revert a'. induction a as [|y a IH]; intros [|y' a'] N N' E; cbn in *.
  - congruence.
  - injection E as -> ->. exfalso. apply N'. left. reflexivity.
  - injection E as -> _. exfalso. apply N. left. reflexivity.
  - injection E as -> E. f_equal. apply IH; [tauto|tauto|exact E].
Qed.
Lemma perms_NoDup {A} (l : list A) : NoDup l -> NoDup (perms l).
Proof.
  induction 1 as [|x l Nx N IH]; cbn [perms]; [constructor; [intros []|constructor]|].
  assert (X : forall u, In u (perms l) -> ~ In x u).
  { intros u Hu Hx. apply in_perms in Hu. apply Nx. apply (Permutation_in _ (Permutation_sym Hu) Hx). }
  apply NoDup_flat; [exact IH| |].
  - intros u Hu. apply inserts_NoDup, X, Hu.
  - intros u v s Hu Hv Hs Hs'. apply in_inserts in Hs. apply in_inserts in Hs'.
    destruct Hs as (a & b & -> & ->), Hs' as (a' & b' & -> & E).
    apply (middle_inj x); [apply X, Hu|apply X, Hv|exact E].
Qed.
Lemma perms_length {A} (l : list A) : length (perms l) = fact (length l).
Proof.
  induction l as [|x l IH]; [reflexivity|]. cbn [perms].
  rewrite (length_flat_map _ (S (length l))).
  - rewrite IH. cbn [length]. change (fact (S (length l))) with (S (length l) * fact (length l)). lia.
  - intros u Hu. apply in_perms in Hu. rewrite inserts_length, (Permutation_length Hu). reflexivity.
Qed.

(** ** Answer lists for a list of orders *)
Lemma scripts_for D : NoDup D -> (forall d, In d D -> Permutation deck_generate d) ->
  exists L, NoDup L /\ length L = length D
    /\ forall js, In js L <-> answers 52 js /\ exists d, In d D /\ shuffled_with script js = Ret (d, []).
Proof.
  induction 1 as [|d D Nd N IH]; intros H.
  - exists []. split; [constructor|]. split; [reflexivity|]. intros js. split; [intros []|].
    intros (_ & d & [] & _).
  - destruct IH as (L & NL & EL & HL); [intros x Hx; apply H; right; exact Hx|].
    destruct (shuffle_fair d (H d (or_introl eq_refl))) as (js & (V & E) & U).
    exists (js :: L). split; [|split].
    + constructor; [|exact NL]. intros X. apply HL in X. destruct X as (_ & d' & Hd' & E').
      assert (d = d') by congruence. subst d'. contradiction.
    + cbn. rewrite EL. reflexivity.
    + intros js'. split.
      * intros [<-|X].
        -- split; [exact V|]. exists d. split; [left; reflexivity|exact E].
        -- apply HL in X. destruct X as (V' & d' & Hd' & E'). split; [exact V'|].
           exists d'. split; [right; exact Hd'|exact E'].
      * intros (V' & d' & [<-|Hd'] & E').
        -- left. apply U. auto.
        -- right. apply HL. split; [exact V'|]. exists d'. auto.
Qed.

(** ** Dealing from the top *)
Lemma NoDup_parts {A} (a b : list A) : NoDup (a ++ b) -> NoDup a /\ NoDup b.
Proof.
  induction a as [|x a IH]; cbn; intros H; [split; [constructor|exact H]|].
  inversion H as [|? ? Nx N]; subst. destruct (IH N) as [Na Nb]. split; [|exact Nb].
  constructor; [|exact Na]. intros X. apply Nx, in_app_iff. left. exact X.
Qed.
Lemma sublist_perm_eq {A} (D : list A) : NoDup D -> forall a b, sublist a D -> sublist b D ->
  Permutation a b -> a = b.
Proof.
  induction 1 as [|x D Nx N IH]; intros a b Sa Sb P.
  - inversion Sa. inversion Sb. reflexivity.
  - inversion Sa as [|? a' ? Sa'|? ? ? Sa']; subst; inversion Sb as [|? b' ? Sb'|? ? ? Sb']; subst.
    + f_equal. apply IH; [exact Sa'|exact Sb'|]. apply Permutation_cons_inv in P. exact P.
    + exfalso. apply Nx, (sublist_incl _ _ Sb'). apply (Permutation_in _ P). left. reflexivity.
    + exfalso. apply Nx, (sublist_incl _ _ Sa'). apply (Permutation_in _ (Permutation_sym P)). left. reflexivity.
    + apply IH; assumption.
Qed.
Lemma sublist_of_deck h : NoDup h -> all_cards h -> exists h', sublist h' deck_generate /\ Permutation h h'.
Proof.
  intros N A. destruct (combs_complete card_dec deck_generate (length h) h N) as (m & Hm & P);
    [|reflexivity|].
  - intros c Hc. apply in_deck. unfold all_cards in A. rewrite Forall_forall in A. apply A, Hc.
  - exists m. split; [|exact P]. apply combs_sublist in Hm. apply Hm.
Qed.
Lemma rest_of p : NoDup p -> all_cards p -> exists rest, Permutation deck_generate (p ++ rest)
  /\ length rest = 52 - length p.
Proof.
  intros N A.
  assert (I : incl p deck_generate).
  { intros c Hc. apply in_deck. unfold all_cards in A. rewrite Forall_forall in A. apply A, Hc. }
  clear A. revert N I. generalize deck_generate deck_NoDup deck_length. intros D ND LD N I.
  assert (Q : exists rest, Permutation D (p ++ rest)).
  { clear LD. revert D ND I. induction p as [|x p IH]; intros D ND I; [exists D; reflexivity|].
    inversion N as [|? ? Nx Np]; subst. assert (Hx : In x D) by (apply I; left; reflexivity).
    apply in_split in Hx. destruct Hx as (a & b & ->).
    destruct (IH Np (a ++ b)) as (rest & P).
    - apply NoDup_remove_1 in ND. exact ND.
    - intros y Hy. assert (In y (a ++ x :: b)) by (apply I; right; exact Hy).
      apply in_app_iff in H. apply in_app_iff. destruct H as [H|[H|H]]; [tauto| |tauto].
      subst y. contradiction.
    - exists rest. rewrite <- Permutation_middle. cbn. constructor. exact P. }
  destruct Q as (rest & P). exists rest. split; [exact P|].
  apply Permutation_length in P. rewrite app_length, LD in P. lia.
Qed.
Lemma prefix_orders p : NoDup p -> all_cards p -> exists D,
  NoDup D /\ length D = fact (52 - length p)
  /\ forall d, In d D <-> Permutation deck_generate d /\ firstn (length p) d = p.
Proof.
  intros N A. destruct (rest_of p N A) as (rest & P & L).
  assert (NR : NoDup rest).
  { pose proof (Permutation_NoDup P deck_NoDup) as X. apply NoDup_parts in X. apply X. }
  exists (map (app p) (perms rest)). split; [|split].
  - apply FinFun.Injective_map_NoDup; [intros a b E; apply app_inv_head in E; exact E|].
    apply perms_NoDup, NR.
  - rewrite map_length, perms_length, L. reflexivity.
  - intros d. rewrite in_map_iff. split.
    + intros (s & <- & Hs). apply in_perms in Hs. split.
      * rewrite P. apply Permutation_app_head, Hs.
      * rewrite firstn_app, Nat.sub_diag, firstn_all. cbn. apply app_nil_r.
    + intros (Pd & E). exists (skipn (length p) d). split.
      * rewrite <- E at 1. apply firstn_skipn.
      * apply in_perms. apply (Permutation_app_inv_l p). rewrite <- P, Pd.
        rewrite <- E at 1. rewrite firstn_skipn. reflexivity.
Qed.

(** Each way to deal given cards from the top comes from the same number of answer lists. *)
Theorem deals_uniform p : NoDup p -> all_cards p -> exists L,
  NoDup L /\ length L = fact (52 - length p)
  /\ forall js, In js L <-> answers 52 js
       /\ exists d, shuffled_with script js = Ret (d, []) /\ firstn (length p) d = p.
Proof.
  intros N A. destruct (prefix_orders p N A) as (D & ND & LD & HD).
  destruct (scripts_for D ND) as (L & NL & LL & HL); [intros d Hd; apply HD, Hd|].
  exists L. split; [exact NL|]. split; [congruence|]. intros js. rewrite HL. split.
  - intros (V & d & Hd & E). split; [exact V|]. exists d. split; [exact E|]. apply HD, Hd.
  - intros (V & d & E & F). split; [exact V|]. exists d. split; [|exact E]. apply HD. split; [|exact F].
    destruct (shuffle_scripted js V) as (d' & E' & P). congruence.
Qed.

(** ** Dealing a hand *)
Lemma hand_orders k HS : NoDup HS -> (forall h, In h HS -> sublist h deck_generate /\ length h = k) ->
  exists D, NoDup D /\ length D = length HS * (fact k * fact (52 - k))
    /\ forall d, In d D <-> Permutation deck_generate d /\ exists h, In h HS /\ Permutation h (firstn k d).
Proof.
  intros NH HH.
  assert (Q : forall p, In p (flat_map perms HS) -> NoDup p /\ all_cards p /\ length p = k).
  { intros p Hp. apply in_flat_map in Hp. destruct Hp as (h & Hh & Hp). apply in_perms in Hp.
    destruct (HH h Hh) as (S & L). split; [|split].
    - apply (Permutation_NoDup Hp). exact (sublist_NoDup _ _ S deck_NoDup).
    - unfold all_cards. apply Forall_forall. intros c Hc. apply in_deck.
      apply (sublist_incl _ _ S). apply (Permutation_in _ (Permutation_sym Hp) Hc).
    - rewrite <- (Permutation_length Hp). exact L. }
  assert (NP : NoDup (flat_map perms HS)).
  { apply NoDup_flat; [exact NH| |].
    - intros h Hh. apply perms_NoDup. exact (sublist_NoDup _ _ (proj1 (HH h Hh)) deck_NoDup).
    - intros a b x Ha Hb Hx Hy. apply in_perms in Hx. apply in_perms in Hy.
      apply (sublist_perm_eq deck_generate deck_NoDup); [apply HH, Ha|apply HH, Hb|].
      rewrite Hx. symmetry. exact Hy. }
  assert (LP : length (flat_map perms HS) = length HS * fact k).
  { apply length_flat_map. intros h Hh. rewrite perms_length, (proj2 (HH h Hh)). reflexivity. }
  assert (X : forall ps, NoDup ps -> (forall p, In p ps -> NoDup p /\ all_cards p /\ length p = k) ->
    exists D, NoDup D /\ length D = length ps * fact (52 - k)
      /\ forall d, In d D <-> Permutation deck_generate d /\ In (firstn k d) ps).
  { clear. induction 1 as [|p ps Np N IH]; intros H.
    - exists []. split; [constructor|]. split; [reflexivity|]. intros d. split; [intros []|intros (_ & [])].
    - destruct IH as (D & ND & LD & HD); [intros q Hq; apply H; right; exact Hq|].
      destruct (H p (or_introl eq_refl)) as (A & B & C).
      destruct (prefix_orders p A B) as (D' & ND' & LD' & HD'). rewrite C in LD', HD'.
      exists (D' ++ D). split; [|split].
      + apply NoDup_app_disj; [exact ND'|exact ND|]. intros d I J. apply HD' in I. apply HD in J.
        destruct I as (_ & I), J as (_ & J). rewrite I in J. contradiction.
      + rewrite app_length, LD, LD'. cbn [length]. lia.
      + intros d. rewrite in_app_iff, HD, HD'. cbn [In]. split.
        * intros [(P & E)|(P & E)]; split; auto.
        * intros (P & [E|E]); [left|right]; auto. }
  destruct (X _ NP Q) as (D & ND & LD & HD). exists D. split; [exact ND|]. split; [rewrite LD, LP; lia|].
  intros d. rewrite HD, in_flat_map. split; intros (P & h & Hh & E); split; try exact P; exists h; split;
    try exact Hh; apply in_perms; exact E.
Qed.

Theorem hands_uniform h : NoDup h -> all_cards h -> exists L,
  NoDup L /\ length L = fact (length h) * fact (52 - length h)
  /\ forall js, In js L <-> answers 52 js
       /\ exists d, shuffled_with script js = Ret (d, []) /\ Permutation h (firstn (length h) d).
Proof.
  intros N A. destruct (sublist_of_deck h N A) as (h' & S & P).
  destruct (hand_orders (length h) [h']) as (D & ND & LD & HD).
  - constructor; [intros []|constructor].
  - intros x [<-|[]]. split; [exact S|]. symmetry. apply Permutation_length, P.
  - destruct (scripts_for D ND) as (L & NL & LL & HL); [intros d Hd; apply HD, Hd|].
    exists L. split; [exact NL|]. split; [rewrite LL, LD; cbn [length]; lia|]. intros js. rewrite HL. split.
    + intros (V & d & Hd & E). split; [exact V|]. exists d. split; [exact E|]. apply HD in Hd.
      destruct Hd as (_ & x & [<-|[]] & Px). exact (Permutation_trans P Px).
    + intros (V & d & E & F). split; [exact V|]. exists d. split; [|exact E]. apply HD. split.
      * destruct (shuffle_scripted js V) as (d' & E' & Pd). congruence.
      * exists h'. split; [left; reflexivity|]. exact (Permutation_trans (Permutation_sym P) F).
Qed.

(** The share of shuffles whose first [k] cards evaluate to something with a property is the share of
    [k]-card hands that do. *)
Theorem dealt_odds ev k HS es (P : eval -> bool) : new_evaluator ev -> 5 <= k <= 52 ->
  NoDup HS -> (forall h, In h HS <-> sublist h deck_generate /\ length h = k) -> Forall2 (evaluates ev) HS es ->
  exists L, NoDup L /\ length L = length (filter P es) * (fact k * fact (52 - k))
    /\ forall js, In js L <-> answers 52 js
         /\ exists d e, shuffled_with script js = Ret (d, []) /\ evaluates ev (firstn k d) e /\ P e = true.
Proof.
  intros Hev K NH HH F2.
  assert (W : exists HP, NoDup HP /\ length HP = length (filter P es)
    /\ (forall h, In h HP <-> In h HS /\ exists e, evaluates ev h e /\ P e = true)).
  { clear HH. revert NH. induction F2 as [|h e HS es E F2 IH]; intros NH.
    - exists []. split; [constructor|]. split; [reflexivity|]. intros h. split; [intros []|intros ([] & _)].
    - inversion NH as [|? ? Nh NH']; subst. destruct (IH NH') as (HP & NP & LP & IP). cbn [filter].
      destruct (P e) eqn:Pe.
      + exists (h :: HP). split; [|split].
        * constructor; [|exact NP]. intros I. apply IP in I. tauto.
        * cbn. congruence.
        * intros x. cbn [In]. rewrite IP. split.
          -- intros [<-|(I & X)]; [split; [left; reflexivity|exists e; auto]|split; [right; exact I|exact X]].
          -- intros ([<-|I] & X); [left; reflexivity|right; split; assumption].
      + exists HP. split; [exact NP|]. split; [exact LP|]. intros x. rewrite IP. cbn [In]. split.
        * intros (I & X). split; [right; exact I|exact X].
        * intros ([<-|I] & X); [|split; assumption]. destruct X as (e' & E' & Pe').
          rewrite (evaluates_fun ev h e' e E' E) in Pe'. congruence. }
  destruct W as (HP & NP & LP & IP).
  destruct (hand_orders k HP NP) as (D & ND & LD & HD).
  { intros h Hh. apply IP in Hh. apply HH, Hh. }
  destruct (scripts_for D ND) as (L & NL & LL & HL); [intros d Hd; apply HD, Hd|].
  exists L. split; [exact NL|]. split; [rewrite LL, LD, LP; reflexivity|].
  assert (PE : forall h x e, legal h -> Permutation h x -> evaluates ev h e -> evaluates ev x e).
  { intros h x e Lg Px E. exact (proj1 (proj1 (permutation_ok ev h x Hev (proj1 Lg) Px) e) E). }
  intros js. rewrite HL. split.
  - intros (V & d & Hd & E). split; [exact V|]. apply HD in Hd. destruct Hd as (Pd & h & Hh & Px).
    apply IP in Hh. destruct Hh as (Hh & e & Ee & Pe). exists d, e. split; [exact E|]. split; [|exact Pe].
    apply (PE h); [|exact Px|exact Ee]. apply HH in Hh. destruct Hh as (S & Lh). split; [|split].
    + unfold all_cards. apply Forall_forall. intros c Hc. apply in_deck. apply (sublist_incl _ _ S c Hc).
    + exact (sublist_NoDup _ _ S deck_NoDup).
    + lia.
  - intros (V & d & e & E & Ee & Pe). split; [exact V|]. exists d. split; [|exact E].
    destruct (shuffle_scripted js V) as (d' & E' & Pd). assert (d' = d) by congruence. subst d'.
    apply HD. split; [exact Pd|].
    assert (A : all_cards (firstn k d)).
    { unfold all_cards. apply Forall_forall. intros c Hc. apply in_deck.
      apply (Permutation_in _ (Permutation_sym Pd)). rewrite <- (firstn_skipn k d). apply in_app_iff. auto. }
    assert (N : NoDup (firstn k d)).
    { pose proof (Permutation_NoDup Pd deck_NoDup) as N. rewrite <- (firstn_skipn k d) in N.
      apply NoDup_parts in N. apply N. }
    destruct (sublist_of_deck _ N A) as (h & S & Px). exists h.
    split; [|symmetry; exact Px]. apply IP.
    assert (Eh : evaluates ev h e) by (apply (PE (firstn k d)); [exact (evaluates_legal ev _ e A Ee)|exact Px|exact Ee]).
    split; [|exists e; auto]. apply HH. split; [exact S|].
    rewrite <- (Permutation_length Px). apply firstn_length_le.
    rewrite <- (Permutation_length Pd), deck_length. apply K.
Qed.
