(** MachineFacts.v: the machines that read a hand rank by rank, and what they find. *)
From Coq Require Import Lia List Arith Bool Permutation ZArith PArith.
From Verif Require Import Base BaseFacts ModelCard ModelEval Spec SpecApi Sweep SpecFacts SizeFacts
  CategoryFacts WalkFacts.
Import ListNotations.
Local Open Scope nat_scope.

Record st := St {
  s_n : nat;       (* cards read *)
  s_o : nat;       (* cards of other suits, where they are counted *)
  s_g2 : nat; s_g3 : nat; s_g4 : nat;   (* ranks held at least 2, 3, 4 times *)
  s_run : nat;     (* how many of the last ranks were there without a gap, up to five *)
  s_found : bool;  (* five in sequence were there *)
  s_wheel : bool   (* two to five were there *)
}.

(** [N]: the most cards to read.  [one]: count the cards of other suits and stop at three.
    [pure]: sequences of the suit itself, and no pairs.  [top]: only the sequence up to the ace. *)
Record mode := Mode { m_N : nat; m_one : bool; m_pure : bool; m_top : bool }.

Definition b2n (b : bool) : nat := if b then 1 else 0.
Definition is_ace (r : rank) : bool := match r with Ace => true | _ => false end.
Definition is_five (r : rank) : bool := match r with Five => true | _ => false end.

(** The run part: [p] says whether rank [r] is there. *)
Definition run_step (top : bool) (r : rank) (p : bool) (x : nat * bool * bool) : nat * bool * bool :=
  let '(run, found, wheel) := x in
  let run' := if p then Nat.min 5 (S run) else 0 in
  (run',
   found || (if top then is_ace r && Nat.leb 5 run'
             else Nat.leb 5 run' || (is_ace r && p && wheel)),
   wheel || (is_five r && Nat.leb 4 run')).

Definition free (m : mode) (r : rank) (b : bool) (k : nat) (x : st) : st :=
  let j := b2n b + k in
  let g := fun i => b2n (negb (m_pure m) && Nat.leb i j) in
  let '(run, found, wheel) :=
    run_step (m_top m) r (if m_pure m then b else Nat.leb 1 j) (s_run x, s_found x, s_wheel x) in
  St (s_n x + j) (s_o x + if m_one m then k else 0)
     (s_g2 x + g 2) (s_g3 x + g 3) (s_g4 x + g 4) run found wheel.
Definition within (m : mode) (x : st) : bool := Nat.leb (s_n x) (m_N m) && Nat.leb (s_o x) 2.
Definition step (m : mode) (r : rank) (b : bool) (k : nat) (x : st) : option st :=
  let y := free m r b k x in if within m y then Some y else None.
Definition start : st := St 0 0 0 0 0 0 false false.

Definition st_eqb (a b : st) : bool :=
  Nat.eqb (s_n a) (s_n b) && Nat.eqb (s_o a) (s_o b) && Nat.eqb (s_g2 a) (s_g2 b)
  && Nat.eqb (s_g3 a) (s_g3 b) && Nat.eqb (s_g4 a) (s_g4 b) && Nat.eqb (s_run a) (s_run b)
  && Bool.eqb (s_found a) (s_found b) && Bool.eqb (s_wheel a) (s_wheel b).
Lemma st_eqb_eq a b : st_eqb a b = true -> a = b.
Proof.
  unfold st_eqb. rewrite !andb_true_iff, !Nat.eqb_eq, !Bool.eqb_true_iff. destruct a, b; simpl.
  intuition congruence.
Qed.
Fixpoint ones (n : nat) (p : positive) : positive := match n with O => xO p | S n' => xI (ones n' p) end.
Definition bit (b : bool) (p : positive) : positive := if b then xI p else xO p.
Definition code (x : st) : positive :=
  ones (s_n x) (ones (s_o x) (ones (s_g2 x) (ones (s_g3 x) (ones (s_g4 x) (ones (s_run x)
    (bit (s_found x) (bit (s_wheel x) xH))))))).

Definition machine (m : mode) : list (st * Z) := states code st_eqb (step m) RANK_ALL_VARIANTS start.

(** The category by ranks alone. *)
Definition by_ranks (x : st) : nat :=
  if Nat.leb 1 (s_g4 x) then 7
  else if Nat.leb 1 (s_g3 x) && Nat.leb 2 (s_g2 x) then 6
  else if s_found x then 4
  else if Nat.leb 1 (s_g3 x) then 3
  else if Nat.leb 2 (s_g2 x) then 2
  else if Nat.leb 1 (s_g2 x) then 1
  else 0.

(** ** What the machine has read *)
Section read.
  Context (m : mode) (s : suit) (h : list face).
  Definition ffold (rs : list rank) (x : st) : st :=
    fold_left (fun x r => free m r (own s r h) (rest s r h) x) rs x.

  Lemma free_fields r b k x : let y := free m r b k x in
    s_n y = s_n x + (b2n b + k) /\ s_o y = s_o x + (if m_one m then k else 0)
    /\ s_g2 y = s_g2 x + b2n (negb (m_pure m) && Nat.leb 2 (b2n b + k))
    /\ s_g3 y = s_g3 x + b2n (negb (m_pure m) && Nat.leb 3 (b2n b + k))
    /\ s_g4 y = s_g4 x + b2n (negb (m_pure m) && Nat.leb 4 (b2n b + k))
    /\ (s_run y, s_found y, s_wheel y) =
       run_step (m_top m) r (if m_pure m then b else Nat.leb 1 (b2n b + k)) (s_run x, s_found x, s_wheel x).
  Proof.
    unfold free. cbv zeta.
    destruct (run_step _ _ _ _) as [[run found] wheel]. cbn. repeat split; reflexivity.
  Qed.
  Lemma ffold_fields rs : forall x, let y := ffold rs x in
    let t := fun r => b2n (own s r h) + rest s r h in
    s_n y = s_n x + list_sum (map t rs)
    /\ s_o y = s_o x + (if m_one m then list_sum (map (fun r => rest s r h) rs) else 0)
    /\ s_g2 y = s_g2 x + (if m_pure m then 0 else length (filter (fun r => Nat.leb 2 (t r)) rs))
    /\ s_g3 y = s_g3 x + (if m_pure m then 0 else length (filter (fun r => Nat.leb 3 (t r)) rs))
    /\ s_g4 y = s_g4 x + (if m_pure m then 0 else length (filter (fun r => Nat.leb 4 (t r)) rs))
    /\ (s_run y, s_found y, s_wheel y) =
       fold_left (fun z r => run_step (m_top m) r (if m_pure m then own s r h else Nat.leb 1 (t r)) z) rs
         (s_run x, s_found x, s_wheel x).
  Proof.
    induction rs as [|r rs IH]; intros x; cbv zeta.
    - cbn. destruct (m_one m), (m_pure m); repeat split; lia.
    - unfold ffold. cbn [fold_left]. fold (ffold rs (free m r (own s r h) (rest s r h) x)).
      destruct (IH (free m r (own s r h) (rest s r h) x)) as (A1 & A2 & A3 & A4 & A5 & A6).
      destruct (free_fields r (own s r h) (rest s r h) x) as (B1 & B2 & B3 & B4 & B5 & B6).
      rewrite A1, A2, A3, A4, A5, A6, B1, B2, B3, B4, B5, B6. cbn [map filter fold_left].
      change (list_sum (?a :: ?b)) with (a + list_sum b).
      repeat split; try (destruct (m_one m), (m_pure m); cbn [negb andb b2n]; lia);
        (destruct (m_pure m); cbn [negb andb]; [cbn [b2n]; lia|]);
        match goal with |- context [b2n ?c] => destruct c end; cbn [b2n length]; lia.
  Qed.
  Lemma ffold_mono rs : forall x, s_n x <= s_n (ffold rs x) /\ s_o x <= s_o (ffold rs x).
  Proof. intros x. destruct (ffold_fields rs x) as (A & B & _). rewrite A, B. lia. Qed.

  Lemma walk_read rs : forall x, within m x = true ->
    walk s (step m) rs h (Some x) = if within m (ffold rs x) then Some (ffold rs x) else None.
  Proof.
    induction rs as [|r rs IH]; intros x W; cbn [walk]; [unfold ffold; cbn [fold_left]; rewrite W; reflexivity|].
    unfold ffold. cbn [fold_left]. set (y := free m r (own s r h) (rest s r h) x).
    fold (ffold rs y). unfold step. fold y. destruct (within m y) eqn:Wy; [apply IH, Wy|].
    assert (V : within m (ffold rs y) = false).
    { destruct (within m (ffold rs y)) eqn:V; [|reflexivity]. rewrite <- Wy. symmetry.
      unfold within in *. rewrite andb_true_iff, !Nat.leb_le in *. pose proof (ffold_mono rs y). lia. }
    rewrite V. destruct rs; reflexivity.
  Qed.
End read.

(** ** Five in sequence *)
Definition seqb (p : rank -> bool) : bool := existsb (fun w => forallb p w) windows.
Definition topb (p : rank -> bool) : bool := forallb p [Ten; Jack; Queen; King; Ace].
Definition runs (top : bool) (p : rank -> bool) : bool :=
  snd (fst (fold_left (fun z r => run_step top r (p r) z) RANK_ALL_VARIANTS (0, false, false))).

Fixpoint bools (n : nat) : list (list bool) :=
  match n with O => [[]] | S n' => map (cons true) (bools n') ++ map (cons false) (bools n') end.
Lemma in_bools l : In l (bools (length l)).
Proof.
  induction l as [|b l IH]; [left; reflexivity|]. cbn [length bools]. apply in_or_app.
  destruct b; [left|right]; apply in_map, IH.
Qed.
Definition read (v : list bool) (r : rank) : bool :=
  match v with
  | [b2; b3; b4; b5; b6; b7; b8; b9; bT; bJ; bQ; bK; bA] =>
      match r with Two => b2 | Three => b3 | Four => b4 | Five => b5 | Six => b6 | Seven => b7
      | Eight => b8 | Nine => b9 | Ten => bT | Jack => bJ | Queen => bQ | King => bK | Ace => bA end
  | _ => false
  end.
Lemma runs_sweep : forallb (fun v =>
  Bool.eqb (runs false (read v)) (seqb (read v)) && Bool.eqb (runs true (read v)) (topb (read v))) (bools 13) = true.
Proof. vm_compute. reflexivity. Qed.
Lemma forallb_ext' {A} (p q : A -> bool) l : (forall a, p a = q a) -> forallb p l = forallb q l.
Proof. intros H. induction l as [|a l IH]; [reflexivity|]. cbn [forallb]. rewrite H, IH. reflexivity. Qed.
Lemma seqb_ext p q : (forall r, p r = q r) -> seqb p = seqb q.
Proof.
  intros H. unfold seqb. induction windows as [|w l IH]; [reflexivity|]. cbn [existsb].
  rewrite IH, (forallb_ext' p q w H). reflexivity.
Qed.
Lemma runs_ext top p q : (forall r, p r = q r) -> runs top p = runs top q.
Proof.
  intros H. unfold runs. do 2 f_equal. generalize (0, false, false). 
  induction RANK_ALL_VARIANTS as [|r l IH]; intros z; [reflexivity|]. cbn [fold_left]. rewrite H. apply IH.
Qed.
Lemma runs_spec p : runs false p = seqb p /\ runs true p = topb p.
Proof.
  set (v := map p RANK_ALL_VARIANTS).
  assert (Q : forall r, p r = read v r) by (intros []; reflexivity).
  assert (I : In v (bools 13)) by (change 13 with (length v); apply in_bools).
  pose proof runs_sweep as K. rewrite forallb_forall in K. specialize (K v I).
  apply andb_true_iff in K. destruct K as [K1 K2]. apply Bool.eqb_prop in K1. apply Bool.eqb_prop in K2.
  rewrite (runs_ext _ p _ Q), (runs_ext true p _ Q), (seqb_ext p _ Q), K1, K2.
  split; [reflexivity|]. symmetry. apply forallb_ext', Q.
Qed.

(** ** Counts *)
Lemma own_in s r h : own s r h = true <-> In (r, s) h.
Proof.
  unfold own, face_in. cbn [fst snd]. rewrite existsb_exists. split.
  - intros ([q t] & I & E). apply andb_true_iff in E. rewrite of_rank_eq, of_suit_eq in E.
    cbn [fst snd] in E. destruct E; subst. exact I.
  - intros I. exists (r, s). split; [exact I|]. apply andb_true_iff. rewrite of_rank_eq, of_suit_eq. auto.
Qed.
Lemma count_own s r h : NoDup h -> b2n (own s r h) + rest s r h = count r h.
Proof.
  induction 1 as [|f h Nf N IH]; [reflexivity|].
  change (f :: h) with ([f] ++ h). rewrite own_app, rest_app, count_app_face.
  assert (X : own s r [f] = of_rank r f && of_suit s f)
    by (unfold own, face_in; cbn [existsb fst snd]; apply orb_false_r).
  assert (Y : rest s r [f] = b2n (of_rank r f && negb (of_suit s f)))
    by (unfold rest; cbn [filter]; destruct (of_rank r f && negb (of_suit s f)); reflexivity).
  assert (Z : count r [f] = b2n (of_rank r f))
    by (unfold count, of_rank; cbn [ranks map count_occ]; destruct (rank_dec (fst f) r); reflexivity).
  rewrite X, Y, Z. destruct (of_rank r f) eqn:R, (of_suit s f) eqn:S; cbn [andb negb b2n orb]; try lia.
  apply of_rank_eq in R. apply of_suit_eq in S. destruct f as [q t]. cbn [fst snd] in R, S. subst.
  assert (O : own s r h = false).
  { destruct (own s r h) eqn:O; [|reflexivity]. apply own_in in O. contradiction. }
  rewrite O in *. cbn [b2n] in *. lia.
Qed.
Lemma sum_ranks (h : list face) (P : face -> bool) :
  list_sum (map (fun r => length (filter (fun f => of_rank r f && P f) h)) RANK_ALL_VARIANTS)
  = length (filter P h).
Proof.
  induction h as [|f h IH]; [reflexivity|]. cbn [filter].
  assert (E : forall r, length (if of_rank r f && P f then f :: filter (fun f => of_rank r f && P f) h
      else filter (fun f => of_rank r f && P f) h) =
    b2n (of_rank r f && P f) + length (filter (fun f => of_rank r f && P f) h))
    by (intros r; destruct (of_rank r f && P f); reflexivity).
  rewrite (map_ext _ _ E). destruct (P f); cbn [length].
  - rewrite <- IH. cbn [RANK_ALL_VARIANTS map list_sum fold_right]. unfold of_rank.
    destruct (fst f); cbn [andb]; cbn; lia.
  - rewrite <- IH. cbn [RANK_ALL_VARIANTS map list_sum fold_right]. rewrite !andb_false_r. cbn [b2n]. lia.
Qed.
Lemma sum_all_counts h : list_sum (map (fun r => count r h) RANK_ALL_VARIANTS) = length h.
Proof.
  rewrite (map_ext _ (fun r => length (filter (fun f => of_rank r f && true) h))).
  - rewrite sum_ranks. f_equal. induction h as [|f h IH]; [reflexivity|]. cbn [filter]. congruence.
  - intros r. rewrite count_filter. f_equal. apply filter_ext. intros f. symmetry. apply andb_true_r.
Qed.
Lemma sum_rest s h : list_sum (map (fun r => rest s r h) RANK_ALL_VARIANTS) + scount s h = length h.
Proof.
  unfold rest. rewrite sum_ranks. unfold scount.
  induction h as [|f h IH]; [reflexivity|]. cbn [filter length]. destruct (of_suit s f); cbn [negb length]; lia.
Qed.

(** ** The category, computed *)
Definition held (i : nat) (h : list face) : nat :=
  length (filter (fun r => Nat.leb i (count r h)) RANK_ALL_VARIANTS).
Definition rank_cat (h : list face) : nat :=
  if Nat.leb 1 (held 4 h) then 7
  else if Nat.leb 1 (held 3 h) && Nat.leb 2 (held 2 h) then 6
  else if seqb (fun r => Nat.leb 1 (count r h)) then 4
  else if Nat.leb 1 (held 3 h) then 3
  else if Nat.leb 2 (held 2 h) then 2
  else if Nat.leb 1 (held 2 h) then 1
  else 0.
Definition flushb (s : suit) (h : list face) : bool := Nat.leb 5 (scount s h).
Definition suited_seq (s : suit) (h : list face) : bool := seqb (fun r => own s r h).
Definition royalb (s : suit) (h : list face) : bool := topb (fun r => own s r h).
Definition any (P : suit -> bool) : bool := existsb P SUIT_ALL_VARIANTS.
Definition cat_of (h : list face) : nat :=
  if any (fun s => suited_seq s h) then 8
  else if Nat.leb 6 (rank_cat h) then rank_cat h
  else if any (fun s => flushb s h) then 5
  else rank_cat h.
