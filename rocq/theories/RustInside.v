(** RustInside.v: the internal functions of the source text: the test for duplicates, the keys of the tables, the
    tables and the bit patterns they are built from. *)
From Coq Require Import String Lia Permutation FMapPositive.
From Verif Require Import Base BaseFacts ModelCard ModelEval ModelTable ModelEvaluation CardFacts Spec SpecApi SpecTable.
From Verif Require SpecText Samples Sweep FiveFacts EvaluateFacts ReadFacts TableFacts BitsFacts.
From Verif Require Import RustSyntax RustSemantics RustProgram RustValues RustSteps RustFacts RustUtils RustEvaluate RustTable RustRuns RustBounds.
From Verif Require Import SpecRust SpecInside.
Local Open Scope string_scope.
Local Open Scope list_scope.

Theorem runs_all_unique : forall P h cs, load_all texts = Some P -> Forall2 (made P) h cs ->
  exists b, returns P "all_unique" None [VList cs] (VBool b) /\ (b = true <-> NoDup h).
Proof.
  intros P h cs HP. rewrite (loaded P HP) in *. clear P HP. intros F. rewrite (made_all h cs F).
  destruct (EvaluateFacts.all_unique_spec _ (Samples.idents_all_cards h)) as (b & E & Hb).
  exists b. split; [ | rewrite Hb; symmetry; apply idents_nodup ].
  apply (returns_at 0 5). intros fuel d. etransitivity; [ exact (call_all_unique fuel d _) | ]. rewrite E. reflexivity.
Qed.

Lemma index_at : forall r s, returns rust "card_to_index" None [card_value (card_new r s)] (VInt U8 (EvaluateFacts.card_idx r s)).
Proof.
  intros r s. apply (returns_at 0 3). intros fuel d. etransitivity; [ exact (call_card_to_index fuel d _) | ].
  rewrite EvaluateFacts.card_to_index_new. reflexivity.
Qed.
Theorem runs_card_to_index : forall P f v, load_all texts = Some P -> made P f v ->
  exists z, returns P "card_to_index" None [v] (VInt U8 z) /\ (0 <= z < 52)%Z.
Proof.
  intros P [r s] v HP. rewrite (loaded P HP) in *. clear P HP. intros M. rewrite (made_only _ _ M).
  exists (EvaluateFacts.card_idx r s). split; [ apply index_at | apply EvaluateFacts.card_idx_range ].
Qed.
Theorem runs_index_apart : forall P f g v w i, load_all texts = Some P -> made P f v -> made P g w ->
  returns P "card_to_index" None [v] i -> returns P "card_to_index" None [w] i -> f = g.
Proof.
  intros P [r s] [r' s'] v w i HP. rewrite (loaded P HP) in *. clear P HP. intros M M'.
  rewrite (made_only _ _ M), (made_only _ _ M'). cbn [fst snd]. intros R R'.
  pose proof (returns_fun _ _ _ _ _ _ R (index_at r s)) as E. pose proof (returns_fun _ _ _ _ _ _ R' (index_at r' s')) as E'.
  subst i. injection E' as E'. destruct (EvaluateFacts.card_idx_inj _ _ _ _ E') as (-> & ->). reflexivity.
Qed.

Lemma prime_small : forall r, (1 <= SpecText.nth_prime r <= 41)%Z.
Proof. intros []; cbn; lia. Qed.
Lemma prime_byte : forall r, Z.land (unique_integer (card_new r Clubs)) 255 = SpecText.nth_prime r.
Proof. intros []; reflexivity. Qed.
Lemma product_cons : forall r rs, product (r :: rs) = (SpecText.nth_prime r * product rs)%Z.
Proof. reflexivity. Qed.
Lemma product_small : forall rs, (1 <= product rs <= 41 ^ Z.of_nat (length rs))%Z.
Proof.
  intros rs. induction rs as [|r rs IH]; [ cbn; lia | ]. rewrite product_cons. pose proof (prime_small r) as Pr.
  cbn [length]. rewrite Nat2Z.inj_succ, Z.pow_succ_r by lia. nia.
Qed.
Lemma wrapped_product : forall rs a, (0 < a)%Z -> (a * product rs < 2147483648)%Z ->
  fold_left wrapping_mul_i32 (map (fun r => Z.land (unique_integer (card_new r Clubs)) 255) rs) a = (a * product rs)%Z.
Proof.
  intros rs. induction rs as [|r rs IH]; intros a A B; [ cbn; lia | ].
  cbn [map fold_left]. rewrite prime_byte, product_cons in *. pose proof (prime_small r) as Pr. pose proof (product_small rs) as Ps.
  unfold wrapping_mul_i32 at 2. rewrite wrap_i32_id by nia. rewrite IH by nia. lia.
Qed.
Theorem runs_hand_product : forall P h cs, load_all texts = Some P -> Forall2 (made P) h cs -> length h = 5 ->
  returns P "prime_product_from_hand" None [VList cs] (VInt I32 (product (map fst h))).
Proof.
  intros P h cs HP. rewrite (loaded P HP) in *. clear P HP. intros F L. rewrite (made_all h cs F).
  apply (returns_at 0 3). intros fuel d. etransitivity; [ exact (call_prime_product_from_hand fuel d _) | ].
  rewrite (ReadFacts.hand_product _ (Samples.idents_all_cards h)), Samples.idents_faces.
  pose proof (product_small (map fst h)) as S. 
  assert (E5 : length (map fst h) = 5) by (etransitivity; [ apply map_length | exact L ]). rewrite E5 in S. change (41 ^ Z.of_nat 5)%Z with 115856201%Z in S.
  change (ranks h) with (map fst h). rewrite wrapped_product by lia. rewrite Z.mul_1_l. reflexivity.
Qed.

Definition bits_ok (rs : list rank) : bool :=
  match prime_product_from_rank_bits (rank_bits rs) with Ret z => Z.eqb z (product rs) | _ => false end.
Lemma bits_swept : forallb bits_ok (Sweep.combs 5 high_to_low) = true.
Proof. vm_compute. reflexivity. Qed.
Lemma bits_perm : forall a b, Permutation a b -> rank_bits a = rank_bits b.
Proof. unfold rank_bits. induction 1; cbn [map fold_right]; lia. Qed.
Theorem runs_bits_product : forall P rs, load_all texts = Some P -> five_different rs ->
  returns P "prime_product_from_rank_bits" None [VInt I16 (rank_bits rs)] (VInt I32 (product rs)).
Proof.
  intros P rs HP. rewrite (loaded P HP) in *. clear P HP. intros (N & L).
  destruct (FiveFacts.combs_complete rank_dec high_to_low 5 rs N (fun r _ => in_high_to_low r) L) as (m & Hm & Q).
  pose proof (proj1 (forallb_forall _ _) bits_swept m Hm) as B. unfold bits_ok in B.
  rewrite (bits_perm _ _ Q), (TableFacts.product_perm _ _ Q).
  destruct (prime_product_from_rank_bits (rank_bits m)) as [z|z|] eqn:E; [ | discriminate B | discriminate B ].
  apply Z.eqb_eq in B. subst z. apply (returns_at 0 2). intros fuel d.
  etransitivity; [ exact (call_prime_product_from_rank_bits fuel d _) | ]. rewrite E. reflexivity.
Qed.

Lemma get_values : forall m k, map_get (PositiveMap.map meta_value m) k = option_map meta_value (map_get m k).
Proof. intros m k. unfold map_get, PositiveMap.map. rewrite PositiveMap.gmapi. destruct (PositiveMap.find _ m); reflexivity. Qed.
Lemma len_xmapi : forall (A B : Type) (m : PositiveMap.t A) (f : positive -> A -> B) i,
  PositiveMap.cardinal (PositiveMap.xmapi f m i) = PositiveMap.cardinal m.
Proof.
  intros A B m. induction m as [|l IHl o r IHr]; intros f i; [ reflexivity | ].
  cbn [PositiveMap.xmapi PositiveMap.cardinal]. destruct o; cbn [option_map PositiveMap.cardinal]; rewrite IHl, IHr; reflexivity.
Qed.
Lemma len_values : forall m, map_len (PositiveMap.map meta_value m) = map_len m.
Proof. intros m. apply len_xmapi. Qed.
Lemma has_values : forall m k, (exists v, map_get (PositiveMap.map meta_value m) k = Some v) <-> exists x, map_get m k = Some x.
Proof.
  intros m k. rewrite get_values. destruct (map_get m k) as [x|]; cbn [option_map].
  - split; intros _; eexists; reflexivity.
  - split; intros (v & V); discriminate V.
Qed.
Theorem runs_tables : forall P, load_all texts = Some P -> exists flush other,
  returns P "LookupTable::new" None [] (tables flush other)
  /\ (forall k, (exists v, map_get flush k = Some v) <-> exists rs, five_different rs /\ k = product rs)
  /\ (forall k, (exists v, map_get other k = Some v) <-> exists rs, five_dealable rs /\ k = product rs)
  /\ Z.of_nat (map_len flush) = 1287%Z /\ Z.of_nat (map_len other) = 6175%Z.
Proof.
  intros P HP. rewrite (loaded P HP) in *. clear P HP.
  destruct TableFacts.table_contents as (t & Ht & F & U & NF & NU).
  exists (PositiveMap.map meta_value (flush_lookup t)), (PositiveMap.map meta_value (unsuited_lookup t)). split.
  - apply (returns_at 221 7). intros fuel d. etransitivity; [ exact (call_lookup_table_new fuel d) | ]. rewrite Ht. reflexivity.
  - clear Ht. split; [ intros k; rewrite has_values; apply F | ]. split; [ intros k; rewrite has_values; apply U | ].
    rewrite !len_values. split; assumption.
Qed.

Theorem runs_get_next : forall P b t n, load_all texts = Some P -> (0 < b)%Z ->
  (exists c, (b < c < 32768)%Z /\ ones c = ones b) ->
  exists v self, returns_mut P "BitSequence::get_next" None
      [VCon "BitSequence" [("bits", VInt I16 b); ("t", VInt I16 t); ("next_bits", VInt I16 n)]] (VInt I16 v) self
    /\ field self "bits" = Some (VInt I16 v) /\ (v < 32768)%Z /\ next_pattern b v.
Proof.
  intros P b t n HP. rewrite (loaded P HP) in *. clear P HP. intros B C.
  destruct (BitsFacts.get_next_correct (mk_bit_sequence b t n) B C) as (v & g & E & G & V & X). cbn [bs_bits] in X.
  exists v, (bit_sequence_value g). split; [ | split; [ | split; [ exact V | exact X ] ] ].
  - apply (mut_at 0 1). intros fuel d. etransitivity; [ apply (call_get_next fuel d (mk_bit_sequence b t n)) | rewrite E; reflexivity ].
    cbn [bs_bits]. destruct C as (c & C & _). unfold in_i16. apply andb_true_intro. split; [ apply Z.leb_le | apply Z.ltb_lt ]; lia.
  - unfold bit_sequence_value. rewrite G. reflexivity.
Qed.

Definition wheel : list rank := [Ace; Five; Four; Three; Two].
Definition high_ok (rs : list rank) : bool :=
  match high_rank_from_rank_bits (rank_bits rs) with
  | Ret r => if list_eq_dec rank_dec rs wheel then if rank_dec r Five then true else false
             else negb (Z.eqb (rank_bits rs) (rank_bits wheel)) && existsb (fun q => if rank_dec r q then true else false) rs
                  && forallb (fun q => Nat.leb (pips q) (pips r)) rs
  | _ => false
  end.
Lemma high_swept : forallb high_ok (Sweep.combs 5 high_to_low) = true.
Proof. vm_compute. reflexivity. Qed.
Theorem runs_high_rank : forall P rs, load_all texts = Some P -> five_different rs ->
  exists r, returns P "high_rank_from_rank_bits" None [VInt I16 (rank_bits rs)] (rank_value r)
    /\ (Permutation rs [Ace; Five; Four; Three; Two] -> r = Five)
    /\ (~ Permutation rs [Ace; Five; Four; Three; Two] -> In r rs /\ forall q, In q rs -> pips q <= pips r).
Proof.
  intros P rs HP. rewrite (loaded P HP) in *. clear P HP. intros (N & L). change [Ace; Five; Four; Three; Two] with wheel.
  destruct (FiveFacts.combs_complete rank_dec high_to_low 5 rs N (fun r _ => in_high_to_low r) L) as (m & Hm & Q).
  pose proof (proj1 (forallb_forall _ _) high_swept m Hm) as B. unfold high_ok in B. rewrite (bits_perm _ _ Q).
  destruct (high_rank_from_rank_bits (rank_bits m)) as [r|z|] eqn:E; [ | discriminate B | discriminate B ].
  exists r. split.
  - apply (returns_at 0 2). intros fuel d. etransitivity; [ exact (call_high_rank_from_rank_bits fuel d _) | ]. rewrite E. reflexivity.
  - destruct (list_eq_dec rank_dec m wheel) as [M|M].
    + destruct (rank_dec r Five) as [R|R]; [ | discriminate B ]. split; [ intros _; exact R | ].
      intros X. exfalso. apply X. rewrite <- M. exact Q.
    + apply andb_true_iff in B. destruct B as (B & T). apply andb_true_iff in B. destruct B as (B & I). split.
      * intros X. exfalso. apply Bool.negb_true_iff in B. apply Z.eqb_neq in B. apply B.
        rewrite <- (bits_perm _ _ Q). apply bits_perm. exact X.
      * intros _. apply existsb_exists in I. destruct I as (q & Iq & Eq). destruct (rank_dec r q) as [->|]; [ | discriminate Eq ].
        split; [ exact (Permutation_in _ (Permutation_sym Q) Iq) | ]. intros x Ix.
        apply Nat.leb_le. exact (proj1 (forallb_forall _ _) T x (Permutation_in _ Q Ix)).
Qed.

Lemma meta_numbered : forall m, number_is (meta_value m) (phr (meta_hand_rank m)).
Proof. intros m. exists (hand_rank_value (meta_hand_rank m)). split; [ destruct m; reflexivity | reflexivity ]. Qed.
Lemma numbered_fun : forall v y z, number_is v y -> number_is v z -> y = z.
Proof. intros v y z (w & A & B) (w' & A' & B'). rewrite A in A'. injection A' as <-. rewrite B in B'. injection B' as ->. reflexivity. Qed.
Theorem runs_numbers : forall P flush other, load_all texts = Some P ->
  returns P "LookupTable::new" None [] (tables flush other) ->
  (forall f k v, held flush other f k v -> exists c z,
     returns P "Meta::class" None [v] (class_value c) /\ number_is v z
     /\ (fst (rank_interval c) <= z <= snd (rank_interval c))%Z)
  /\ (forall z, (1 <= z <= 7462)%Z -> exists f k v,
       held flush other f k v /\ number_is v z)
  /\ (forall f k v f' k' v' z, held flush other f k v ->
       held flush other f' k' v' -> number_is v z -> number_is v' z -> f = f' /\ k = k').
Proof.
  intros P flush other HP. rewrite (loaded P HP) in *. clear P HP. intros R.
  destruct TableFacts.table_contents as (t & Ht & _). pose proof (TableFacts.table_ranks t Ht) as (I & A & U).
  assert (R' : returns rust "LookupTable::new" None [] (table_value t)).
  { apply (returns_at 221 7). intros fuel d. etransitivity; [ exact (call_lookup_table_new fuel d) | ]. rewrite Ht. reflexivity. }
  clear Ht. pose proof (returns_fun _ _ _ _ _ _ R R') as E. clear R R'. unfold tables, table_value in E. injection E as Ef Eu. subst flush other.
  assert (G : forall f k v, held (PositiveMap.map meta_value (flush_lookup t)) (PositiveMap.map meta_value (unsuited_lookup t)) f k v ->
    exists m, v = meta_value m /\ SpecTable.entry t f k m).
  { intros f k v. unfold SpecTable.entry, held. destruct f; rewrite get_values; destruct (map_get _ k) as [m|]; intros X; cbn [option_map] in X;
      try discriminate X; injection X as <-; exists m; split; reflexivity. }
  split; [ | split ].
  - intros f k v H. destruct (G f k v H) as (m & -> & Em). exists (meta_class m), (phr (meta_hand_rank m)).
    split; [ | split; [ apply meta_numbered | exact (I f k m Em) ] ].
    apply (returns_at 0 1). intros fuel d. exact (call_meta_class fuel d m).
  - intros z Hz. destruct (A z Hz) as (f & k & m & Em & <-). exists f, k, (meta_value m). split; [ | apply meta_numbered ].
    unfold SpecTable.entry in Em. unfold held. destruct f; rewrite get_values, Em; reflexivity.
  - intros f k v f' k' v' z H H' N N'. destruct (G f k v H) as (m & -> & Em). destruct (G f' k' v' H') as (m' & -> & Em').
    rewrite (numbered_fun _ _ _ N (meta_numbered m)) in N'. pose proof (numbered_fun _ _ _ N' (meta_numbered m')) as Q.
    destruct (U f k m f' k' m' Em Em' Q) as (Uf & Uk & _). split; assumption.
Qed.
