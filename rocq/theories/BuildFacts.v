(** BuildFacts.v: the build script (ModelBuild.v). *)
From Coq Require Import List String ZArith Bool.
From Verif Require Import Base ModelCard ModelExamples ModelBuild SpecBuild.
Import ListNotations.
Local Open Scope string_scope.

Lemma str_eqb_spec a : forall b, str_eqb a b = true <-> a = b.
Proof.
  induction a as [|x a IH]; intros [|y b]; cbn; try (split; congruence).
  rewrite andb_true_iff, N.eqb_eq, IH. split; [intros [-> ->]; reflexivity|intros H; injection H as -> ->; auto].
Qed.

Theorem skipped w : static_lookup w = false \/ docs_rs w = Some (lit "1") -> build_main w = ([], BuildOk).
Proof.
  unfold build_main. intros [-> | ->]; [reflexivity|]. destruct (static_lookup w); [|reflexivity].
  cbn [negb]. rewrite (proj2 (str_eqb_spec (lit "1") (lit "1")) eq_refl). reflexivity.
Qed.

Lemma path_join_codegen dir : path_join dir (lit "codegen.rs") = codegen dir.
Proof.
  unfold path_join, codegen. destruct dir as [|x l] using rev_ind; [reflexivity|].
  rewrite rev_app_distr, last_last. cbn [rev app].
  destruct (N.eqb_spec x 47) as [->|N]; [reflexivity|]. destruct x as [|p]; [reflexivity|].
  repeat (destruct p as [p|p|]; try reflexivity). contradiction (N eq_refl).
Qed.
Lemma wanted_main w : wanted w -> build_main w =
  match out_dir w with
  | None => ([], BuildErr)
  | Some dir =>
      if can_create w (codegen dir) then
        match web w URL with
        | NoResponse => ([Create (codegen dir); Get URL], BuildPanic)
        | Response _ None => ([Create (codegen dir); Get URL], BuildErr)
        | Response _ (Some bytes) =>
            match written w bytes with
            | None => ([Create (codegen dir); Get URL; Write (codegen dir) bytes], BuildOk)
            | Some part => ([Create (codegen dir); Get URL; Write (codegen dir) part], BuildErr)
            end
        end
      else ([], BuildErr)
  end.
Proof.
  intros [S D]. unfold build_main. rewrite S. cbn [negb].
  destruct (str_eqb (match docs_rs w with Some v => v | None => [] end) (lit "1")) eqn:E;
    [|destruct (out_dir w) as [dir|]; [rewrite path_join_codegen|]; reflexivity].
  exfalso. apply str_eqb_spec in E. destruct (docs_rs w) as [v|]; [subst v; contradiction|discriminate E].
Qed.

(** Success means that the file is what the web answered. *)
Theorem ok_iff w acts e old : wanted w -> build_main w = (acts, e) ->
  (e = BuildOk <-> exists dir status bytes, out_dir w = Some dir /\ can_create w (codegen dir) = true
     /\ web w URL = Response status (Some bytes) /\ written w bytes = None)
  /\ (e = BuildOk -> exists dir status bytes, out_dir w = Some dir /\ web w URL = Response status (Some bytes)
       /\ content acts (codegen dir) old = Some bytes).
Proof.
  intros W H. rewrite (wanted_main w W) in H.
  destruct (out_dir w) as [dir|]; [|injection H as <- <-; split; [split; [discriminate|]|discriminate];
    intros (d & s & b & X & _); discriminate X].
  destruct (can_create w (codegen dir)) eqn:C; [|injection H as <- <-; split; [split; [discriminate|]|discriminate];
    intros (d & s & b & X & Y & _); injection X as <-; rewrite C in Y; discriminate Y].
  destruct (web w URL) as [|s [bytes|]].
  - injection H as <- <-. split; [split; [discriminate|]|discriminate]. intros (d & s & b & _ & _ & X & _). discriminate X.
  - destruct (written w bytes) as [part|] eqn:R; injection H as <- <-.
    + split; [split; [discriminate|]|discriminate]. intros (d & s' & b & _ & _ & X & Y). injection X as <- <-.
      rewrite R in Y. discriminate Y.
    + split; [split; [|reflexivity]|]; intros _; exists dir, s, bytes; repeat split; auto.
      cbn [content]. destruct (rstring_dec (codegen dir) (codegen dir)) as [_|N]; [reflexivity|contradiction].
  - injection H as <- <-. split; [split; [discriminate|]|discriminate]. intros (d & s' & b & _ & _ & X & _). discriminate X.
Qed.

(** What the script touches at all. *)
Theorem footprint w acts e : build_main w = (acts, e) ->
  (requests acts = [] \/ requests acts = [URL])
  /\ (forall p old, (forall dir, out_dir w = Some dir -> p <> codegen dir) -> content acts p old = old)
  /\ (requests acts <> [] -> wanted w /\ exists dir, out_dir w = Some dir /\ hd_error acts = Some (Create (codegen dir))).
Proof.
  intros H.
  destruct (static_lookup w) eqn:S.
  2:{ rewrite (skipped w (or_introl S)) in H. injection H as <- <-. split; [left; reflexivity|]. split; [reflexivity|].
      intros X. contradiction. }
  destruct (match docs_rs w with Some v => str_eqb v (lit "1") | None => false end) eqn:D.
  { assert (docs_rs w = Some (lit "1")) as D'.
    { destruct (docs_rs w); [|discriminate D]. apply str_eqb_spec in D. congruence. }
    rewrite (skipped w (or_intror D')) in H. injection H as <- <-. split; [left; reflexivity|]. split; [reflexivity|].
    intros X. contradiction. }
  assert (W : wanted w).
  { split; [exact S|]. intros X. rewrite X in D. rewrite (proj2 (str_eqb_spec _ _) eq_refl) in D. discriminate D. }
  rewrite (wanted_main w W) in H.
  assert (E : forall dir p old, out_dir w = Some dir -> (forall dir, out_dir w = Some dir -> p <> codegen dir) ->
    forall b, content [Create (codegen dir); Get URL] p old = old
      /\ content [Create (codegen dir); Get URL; Write (codegen dir) b] p old = old).
  { intros dir p old O N b. cbn [content]. destruct (rstring_dec (codegen dir) p) as [X|_]; [|split; reflexivity].
    exfalso. symmetry in X. exact (N dir O X). }
  destruct (out_dir w) as [dir|].
  - destruct (can_create w (codegen dir)).
    + assert (K : forall acts, (acts = [Create (codegen dir); Get URL]
          \/ exists b, acts = [Create (codegen dir); Get URL; Write (codegen dir) b]) ->
        (requests acts = [] \/ requests acts = [URL])
        /\ (forall p old, (forall dir0, Some dir = Some dir0 -> p <> codegen dir0) -> content acts p old = old)
        /\ (requests acts <> [] -> wanted w /\ exists dir0, Some dir = Some dir0 /\ hd_error acts = Some (Create (codegen dir0)))).
      { intros a [-> | (b & ->)]; (split; [right; reflexivity|]; split;
          [intros p old N; apply (E dir p old eq_refl N []) || apply (E dir p old eq_refl N b)
          |intros _; split; [exact W|]; exists dir; split; reflexivity]). }
      destruct (web w URL) as [|s [bytes|]]; [|destruct (written w bytes)|]; injection H as <- <-; apply K; eauto.
    + injection H as <- <-. split; [left; reflexivity|]. split; [reflexivity|]. intros X. contradiction.
  - injection H as <- <-. split; [left; reflexivity|]. split; [reflexivity|]. intros X. contradiction.
Qed.

(** Without a response the build stops, but an empty file stays. *)
Theorem offline w dir old : wanted w -> out_dir w = Some dir -> can_create w (codegen dir) = true ->
  web w URL = NoResponse ->
  snd (build_main w) = BuildPanic /\ content (fst (build_main w)) (codegen dir) old = Some [].
Proof.
  intros W O C R. rewrite (wanted_main w W), O, C, R. split; [reflexivity|]. cbn.
  destruct (rstring_dec _ _); [reflexivity|contradiction].
Qed.

(** The HTTP status is not looked at. *)
Theorem status_ignored status w : build_main (with_status status w) = build_main w.
Proof.
  unfold build_main, with_status. cbn [static_lookup docs_rs out_dir can_create web written].
  destruct (static_lookup w); [|reflexivity]. cbn [negb]. destruct (str_eqb _ _); [reflexivity|].
  destruct (out_dir w); [|reflexivity]. destruct (can_create _ _); [|reflexivity].
  destruct (web w URL) as [|s [b|]]; reflexivity.
Qed.
