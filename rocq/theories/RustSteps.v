(** RustSteps.v: the interpreter one construct at a time, as equations, and the tactics that run a body
    symbolically with them.  Nothing here models a particular function of /repo. *)
From Coq Require Import String.
From Verif Require Import Base ModelCard ModelEval ModelTable RustSyntax RustSemantics RustProgram RustValues.
Import RustSemantics.
Local Open Scope string_scope.
Local Open Scope list_scope.

Section Equations.
Variable P : program.
Variable o : outside.
Notation ev := (eval P o).

Definition eargs := fix eargs (es : list expr) (r : env) (k : list value -> env -> ans) : ans :=
  match es with
  | [] => k [] r
  | e :: es' => ev e r (fun v r => eargs es' r (fun vs r => k (v :: vs) r))
  end.
Definition egiven := fix egiven (fs : list (string * expr)) (r : env) (k : list (string * value) -> env -> ans) : ans :=
  match fs with
  | [] => k [] r
  | (f, e) :: fs' => ev e r (fun v r => egiven fs' r (fun l r => k ((f, v) :: l) r))
  end.
Definition earms (v : value) (r : env) (k : value -> env -> ans) := fix earms (arms : list (pat * option expr * expr)) : ans :=
  match arms with
  | [] => Stuck
  | (p, g, e) :: arms' =>
      matching P o p v r (fun r' =>
        match g with
        | None => ev e r' (fun w s => k w (leave r s))
        | Some g =>
            ev g r' (fun x r' => bool_of x (fun x =>
              if x then ev e r' (fun w s => k w (leave r s)) else earms arms'))
        end) (fun _ => earms arms')
  end.
Definition eblock (r : env) (k : value -> env -> ans) := fix eblock (ss : list (expr * bool)) (s : env) : ans :=
  match ss with
  | [] => k VUnit (leave r s)
  | (e, semi) :: ss' =>
      match semi, ss' with
      | false, [] => ev e s (fun v s => k v (leave r s))
      | _, _ => ev e s (fun _ s => eblock ss' s)
      end
  end.

Lemma ev_eargs_nil : forall r k, eargs [] r k = k [] r.
Proof. reflexivity. Qed.
Lemma ev_eargs_cons : forall e es r k,
  eargs (e :: es) r k = ev e r (fun v r => eargs es r (fun vs r => k (v :: vs) r)).
Proof. reflexivity. Qed.
Lemma ev_egiven_nil : forall r k, egiven [] r k = k [] r.
Proof. reflexivity. Qed.
Lemma ev_egiven_cons : forall f e fs r k,
  egiven ((f, e) :: fs) r k = ev e r (fun v r => egiven fs r (fun l r => k ((f, v) :: l) r)).
Proof. reflexivity. Qed.
Lemma ev_arm : forall v r k p e arms,
  earms v r k ((p, None, e) :: arms)
  = matching P o p v r (fun r' => ev e r' (fun w s => k w (leave r s))) (fun _ => earms v r k arms).
Proof. reflexivity. Qed.
Lemma ev_arm_if : forall v r k p g e arms,
  earms v r k ((p, Some g, e) :: arms)
  = matching P o p v r (fun r' => ev g r' (fun x r' => bool_of x (fun x =>
      if x then ev e r' (fun w s => k w (leave r s)) else earms v r k arms))) (fun _ => earms v r k arms).
Proof. reflexivity. Qed.
Lemma ev_block_nil : forall r k s, eblock r k [] s = k VUnit (leave r s).
Proof. reflexivity. Qed.
Lemma ev_block_last : forall r k e s, eblock r k [(e, false)] s = ev e s (fun v s => k v (leave r s)).
Proof. reflexivity. Qed.
Lemma ev_block_semi : forall r k e ss s, eblock r k ((e, true) :: ss) s = ev e s (fun _ s => eblock r k ss s).
Proof. reflexivity. Qed.
Lemma ev_block_stmt : forall r k e x ss s,
  eblock r k ((e, false) :: x :: ss) s = ev e s (fun _ s => eblock r k (x :: ss) s).
Proof. reflexivity. Qed.

Lemma ev_tup : forall e es r k, ev (ETup (e :: es)) r k = eargs (e :: es) r (fun vs r => k (VList vs) r).
Proof. reflexivity. Qed.
Lemma ev_arr : forall es r k, ev (EArr es) r k = eargs es r (fun vs r => k (VList vs) r).
Proof. reflexivity. Qed.
Lemma ev_not : forall e r k, ev (ENot e) r k = ev e r (fun v r =>
  match v with
  | VBool b => k (VBool (negb b)) r
  | VInt t z => if signed t then k (VInt t (Z.lnot z)) r else Stuck
  | _ => Stuck
  end).
Proof. reflexivity. Qed.
Lemma ev_bin : forall op a b r k,
  ev (EBin op a b) r k = ev a r (fun v r => ev b r (fun w r => binary P o op v w (fun x => k x r))).
Proof. reflexivity. Qed.
Lemma ev_and : forall a b r k,
  ev (EAnd a b) r k = ev a r (fun v r => bool_of v (fun x => if x then ev b r k else k (VBool false) r)).
Proof. reflexivity. Qed.
Lemma ev_or : forall a b r k,
  ev (EOr a b) r k = ev a r (fun v r => bool_of v (fun x => if x then k (VBool true) r else ev b r k)).
Proof. reflexivity. Qed.
Lemma ev_range : forall a b r k,
  ev (ERange a b) r k =
  ev a r (fun v r => ev b r (fun w r =>
    match v, w with
    | VInt t x, VInt u y => agree t x u y (fun t => k (VInts t (range x y)) r)
    | _, _ => Stuck
    end)).
Proof. reflexivity. Qed.
Lemma ev_cast : forall e t r k,
  ev (ECast e t) r k =
  ev e r (fun v r =>
    match v with
    | VInt Open z => if in_ty t z then k (VInt t z) r else Stuck
    | VInt _ z => k (VInt t (wrap t z)) r
    | _ => Stuck
    end).
Proof. reflexivity. Qed.
Lemma ev_fn : forall p targs es r k,
  ev (EFn p targs es) r k =
  eargs es r (fun vs r =>
    invoke P o (name_of P p r) (match targs with [z] => Some (VInt Usize z) | _ => None end) vs r (fun v s =>
      match s with Some _ => Stuck | None => k v r end)).
Proof. reflexivity. Qed.
(** A method: the type's own or one of the standard library *)
Definition receiver (h : option nat * bool) (e : expr) (es : list expr) : expr :=
  match fst h with Some (S i) => nth i es e | _ => e end.
Definition method (e : expr) (m : string) (es : list expr) (v : value) (vs : list value) (r : env) (k : value -> env -> ans) : ans :=
  let after p w s := match s with Some x => put p x r (fun r => k w r) | None => k w r end in
  match v with
  | VCon c fs =>
      match assoc (owner c ++ "::" ++ m) (heads P) with
      | Some h => invoke P o (owner c ++ "::" ++ m) (lookup "N" fs) (v :: vs) r (after (receiver h e es))
      | None => builtin P o m v vs (after (if m =? "hash" then nth 0 es e else e))
      end
  | VList ws =>
      if m =? "shuffle" then
        match vs with
        | [VInts Usize zs] =>
            some (shuffle (length ws) ws zs) (fun x =>
              put e (VList (fst x)) r (fun r => put (nth 0 es e) (VInts Usize (snd x)) r (fun r => k VUnit r)))
        | _ => Stuck
        end
      else builtin P o m v vs (after e)
  | _ => builtin P o m v vs (after e)
  end.
Lemma ev_meth : forall e m es r k,
  ev (EMeth e m es) r k = ev e r (fun v r => eargs es r (fun vs r => method e m es v vs r k)).
Proof. reflexivity. Qed.
Lemma ev_field : forall e f r k,
  ev (EField e f) r k
  = ev e r (fun v r => match v with VCon _ fs => some (lookup f fs) (fun w => k w r) | _ => Stuck end).
Proof. reflexivity. Qed.
Lemma ev_index : forall e i r k,
  ev (EIndex e i) r k = ev e r (fun v r => ev i r (fun j r => element v j (fun w => k w r))).
Proof. reflexivity. Qed.
Lemma ev_rec : forall p fs r k,
  ev (ERec p fs) r k = egiven fs r (fun l r => construct P (name_of P p r) l r (fun v => k v r)).
Proof. reflexivity. Qed.
Lemma ev_if : forall c a b r k,
  ev (EIf c a b) r k = ev c r (fun v r => bool_of v (fun x => if x then ev a r k else ev b r k)).
Proof. reflexivity. Qed.
Lemma ev_iflet : forall p e a b r k,
  ev (EIfLet p e a b) r k
  = ev e r (fun v r => matching P o p v r (fun r' => ev a r' (fun w s => k w (leave r s))) (fun _ => ev b r k)).
Proof. reflexivity. Qed.
Lemma ev_match : forall e arms r k, ev (EMatch e arms) r k = ev e r (fun v r => earms v r k arms).
Proof. reflexivity. Qed.
Lemma ev_matches : forall e p r k,
  ev (EMatches e p) r k
  = ev e r (fun v r => matching P o p v r (fun _ => k (VBool true) r) (fun _ => k (VBool false) r)).
Proof. reflexivity. Qed.
Lemma ev_block : forall ss r k, ev (EBlock ss) r k = eblock r k ss r.
Proof. reflexivity. Qed.
Lemma ev_let : forall p t e r k,
  ev (ELet p t (Some e)) r k
  = ev e r (fun v r => coerce t v (fun v => matching P o p v r (fun r => k VUnit r) (fun _ => Stuck))).
Proof. destruct p; reflexivity. Qed.
Definition write (l : expr) (v : value) (r : env) (k : value -> env -> ans) : ans :=
  match l with
  | EIndex b i =>
      ev b r (fun a r => ev i r (fun j r => put_list a j v (fun a => put b a r (fun r => k VUnit r))))
  | _ => put l v r (fun r => k VUnit r)
  end.
Lemma ev_assign : forall l e r k, ev (EAssign l None e) r k = ev e r (fun v r => write l v r k).
Proof. reflexivity. Qed.
Lemma ev_update : forall l op e r k,
  ev (EAssign l (Some op) e) r k
  = ev e r (fun v r => ev l r (fun old r => binary P o op old v (fun v => write l v r k))).
Proof. reflexivity. Qed.
Lemma ev_write_index : forall b i v r k,
  write (EIndex b i) v r k
  = ev b r (fun a r => ev i r (fun j r => put_list a j v (fun a => put b a r (fun r => k VUnit r)))).
Proof. reflexivity. Qed.
Definition after_loop (x : flow * env) (k : value -> env -> ans) : ans :=
  match x with
  | (Go _, r) => k VUnit r
  | (Brk, _) => Stuck
  | (Back v, r) => Val (Back v, r)
  end.
Lemma ev_for : forall p e b r k,
  ev (EFor p e b) r k = ev e r (fun v r => bnd (loop o p b v r) (fun x => after_loop x k)).
Proof. reflexivity. Qed.
Lemma ev_return : forall e r k, ev (EReturn e) r k = ev e r (fun v r => Val (Back v, r)).
Proof. reflexivity. Qed.
Lemma ev_try : forall e r k,
  ev (ETry e) r k
  = ev e r (fun v r =>
      match v with
      | VCon c [(_, x)] => if c =? "Ok" then k x r else if c =? "Err" then Val (Back v, r) else Stuck
      | _ => Stuck
      end).
Proof. reflexivity. Qed.
Lemma ev_assert : forall es r k,
  ev (EMac "debug_assert" es) r k
  = eargs es r (fun vs r =>
      match vs with
      | [VBool b] => if b then k VUnit r else Panics AssertFailed
      | _ => Stuck
      end).
Proof. reflexivity. Qed.
Lemma ev_write : forall f s es r k ps, pieces s = Some ps ->
  ev (EMac "write" (f :: EStr s :: es)) r k
  = ev f r (fun v r => eargs es r (fun vs r =>
      match v with
      | VStr acc => written o ps vs acc (fun acc => put f (VStr acc) r (fun r => k (VCon "Ok" [("0", VUnit)]) r))
      | _ => Stuck
      end)).
Proof. intros f s es r k ps H. change (some (pieces s)) with (some (pieces s)). cbn -[pieces]. rewrite H. reflexivity. Qed.
Lemma ev_written_end : forall p acc k, written o [p] [] acc k = k (acc ++ p).
Proof. reflexivity. Qed.
Lemma ev_written : forall p ps v vs acc k,
  written o (p :: ps) (v :: vs) acc k = shown o v (acc ++ p) (fun acc => written o ps vs acc k).
Proof. intros. destruct ps; reflexivity. Qed.
End Equations.

(** ** The machine that runs the program read from /repo *)
Definition engine (fuel depth : nat) : outside := machine rust fuel depth.
Lemma call_S : forall fuel d, call (engine fuel (S d)) = run_call rust (engine fuel d).
Proof. reflexivity. Qed.
Lemma apply_S : forall fuel d, apply (engine fuel (S d)) = run_apply rust (engine fuel d).
Proof. reflexivity. Qed.
Lemma loop_S : forall fuel d, loop (engine fuel (S d)) = run_loop rust (engine fuel d) fuel.
Proof. reflexivity. Qed.

Lemma method_con : forall P o e m es vs r k h c fs,
  assoc (owner c ++ "::" ++ m) (heads P) = Some h ->
  method P o e m es (VCon c fs) vs r k
  = invoke P o (owner c ++ "::" ++ m) (lookup "N" fs) (VCon c fs :: vs) r (fun w s =>
      match s with Some x => put (receiver h e es) x r (fun r => k w r) | None => k w r end).
Proof. intros. unfold method. rewrite H. reflexivity. Qed.
(** A method of a type of several variants *)
Lemma method_rank : forall o e m es a vs r k h,
  assoc ("Rank::" ++ m) (heads rust) = Some h ->
  method rust o e m es (rank_value a) vs r k
  = invoke rust o ("Rank::" ++ m) None (rank_value a :: vs) r (fun w s =>
      match s with Some x => put (receiver h e es) x r (fun r => k w r) | None => k w r end).
Proof. intros o e m es a vs r k h H. destruct a; match goal with |- method _ _ _ _ _ ?v _ _ _ = _ => let w := eval hnf in v in match w with VCon ?c ?fs => exact (method_con rust o e m es vs r k h c fs H) end end. Qed.
Lemma method_suit : forall o e m es a vs r k h,
  assoc ("Suit::" ++ m) (heads rust) = Some h ->
  method rust o e m es (suit_value a) vs r k
  = invoke rust o ("Suit::" ++ m) None (suit_value a :: vs) r (fun w s =>
      match s with Some x => put (receiver h e es) x r (fun r => k w r) | None => k w r end).
Proof. intros o e m es a vs r k h H. destruct a; match goal with |- method _ _ _ _ _ ?v _ _ _ = _ => let w := eval hnf in v in match w with VCon ?c ?fs => exact (method_con rust o e m es vs r k h c fs H) end end. Qed.
Lemma method_meta : forall o e m es a vs r k h,
  assoc ("Meta::" ++ m) (heads rust) = Some h ->
  method rust o e m es (meta_value a) vs r k
  = invoke rust o ("Meta::" ++ m) None (meta_value a :: vs) r (fun w s =>
      match s with Some x => put (receiver h e es) x r (fun r => k w r) | None => k w r end).
Proof. intros o e m es a vs r k h H. destruct a; match goal with |- method _ _ _ _ _ ?v _ _ _ = _ => let w := eval hnf in v in match w with VCon ?c ?fs => exact (method_con rust o e m es vs r k h c fs H) end end. Qed.

Lemma method_class : forall o e m es a vs r k h,
  assoc ("EvalClass::" ++ m) (heads rust) = Some h ->
  method rust o e m es (class_value a) vs r k
  = invoke rust o ("EvalClass::" ++ m) None (class_value a :: vs) r (fun w s =>
      match s with Some x => put (receiver h e es) x r (fun r => k w r) | None => k w r end).
Proof. intros o e m es a vs r k h H. destruct a; match goal with |- method _ _ _ _ _ ?v _ _ _ = _ => let w := eval hnf in v in match w with VCon ?c ?fs => exact (method_con rust o e m es vs r k h c fs H) end end. Qed.
(** Writing a value of a type of several variants *)
Lemma shown_rank : forall o a acc k,
  shown o (rank_value a) acc k
  = bnd (call o "Rank::fmt" None [rank_value a; VStr acc]) (fun p => match snd p with VStr acc' => k acc' | _ => Stuck end).
Proof. intros o a acc k. destruct a; reflexivity. Qed.
Lemma shown_suit : forall o a acc k,
  shown o (suit_value a) acc k
  = bnd (call o "Suit::fmt" None [suit_value a; VStr acc]) (fun p => match snd p with VStr acc' => k acc' | _ => Stuck end).
Proof. intros o a acc k. destruct a; reflexivity. Qed.

(** ** Tactics *)
(** A goal about what a piece of code gives *)
Definition to (a : ans) (G : ans -> Prop) : Prop := G a.
Lemma to_eq : forall a b G, a = b -> to b G -> to a G.
Proof. intros a b G ->. auto. Qed.
(** Compute with everything but the arithmetic, so that symbolic integers stay readable. *)
Ltac crunch :=
  lazy -[to Z.add Z.sub Z.mul Z.opp Z.land Z.lor Z.lxor Z.lnot Z.shiftl Z.shiftr Z.eqb Z.ltb Z.leb Z.of_nat Z.to_nat
         Z.modulo wrap_i16 wrap_i32 in_ty in_width trailing_zeros nth_error length rev app filter range replace ints_of
         ints engine machine call apply loop map_values filter_ints fold_values wrapping_pow PositiveMap.add PositiveMap.find
         negb N.eqb rank_value suit_value meta_value class_value cards_value unique_integer phr card_rank card_suit card_new
         rank_from_i32 suit_from_i32 rank_as_char suit_as_char rank_try_from suit_try_from meta_hand_rank meta_class
         card_to_index bs_bits bs_t bs_next_bits cb_data cb_indices cb_done each round drain run_loop run_call run_apply bnd zkey lit str_len decimal shuffle collected filter_map_values count_all joined].
(** Compute with the continuations and the rest of the goal kept aside. *)
Ltac hide k K := let E := fresh "E" in remember k as K eqn:E in |- *.
Ltac leaf k :=
  let K := fresh "K" in let R := fresh "R" in
  hide k K; lazymatch goal with |- to _ ?G => hide G R end; crunch; subst R; subst K; cbv beta.
Ltac leaf2 k j :=
  let K := fresh "K" in let J := fresh "J" in let R := fresh "R" in
  hide k K; hide j J; lazymatch goal with |- to _ ?G => hide G R end; crunch; subst R; subst K; subst J; cbv beta.
Ltac by_eq L := eapply to_eq; [ apply L | ]; cbv beta.

Ltac by_method L :=
  eapply to_eq; [ eapply L; vm_compute; reflexivity | ]; cbv beta.

Ltac step :=
  lazymatch goal with
  | |- to (eval _ _ ?e ?r ?k) _ =>
      lazymatch e with
      | ETup (_ :: _) => by_eq ev_tup
      | EArr _ => by_eq ev_arr
      | ENot _ => by_eq ev_not
      | EBin _ _ _ => by_eq ev_bin
      | EAnd _ _ => by_eq ev_and
      | EOr _ _ => by_eq ev_or
      | ERange _ _ => by_eq ev_range
      | ECast _ _ => by_eq ev_cast
      | EFn _ _ _ => by_eq ev_fn
      | EMeth _ _ _ => by_eq ev_meth
      | EField _ _ => by_eq ev_field
      | EIndex _ _ => by_eq ev_index
      | ERec _ _ => by_eq ev_rec
      | EIf _ _ _ => by_eq ev_if
      | EIfLet _ _ _ _ => by_eq ev_iflet
      | EMatch _ _ => by_eq ev_match
      | EMatches _ _ => by_eq ev_matches
      | EBlock _ => by_eq ev_block
      | ELet _ _ (Some _) => by_eq ev_let
      | EAssign _ None _ => by_eq ev_assign
      | EAssign _ (Some _) _ => by_eq ev_update
      | EFor _ _ _ => by_eq ev_for
      | EReturn _ => by_eq ev_return
      | ETry _ => by_eq ev_try
      | EMac "debug_assert" _ => by_eq ev_assert
      | EMac "write" _ => by_method ev_write
      | _ => leaf k
      end
  | |- to (eargs _ _ [] _ _) _ => by_eq ev_eargs_nil
  | |- to (eargs _ _ (_ :: _) _ _) _ => by_eq ev_eargs_cons
  | |- to (egiven _ _ [] _ _) _ => by_eq ev_egiven_nil
  | |- to (egiven _ _ (_ :: _) _ _) _ => by_eq ev_egiven_cons
  | |- to (earms _ _ _ _ _ ((_, None, _) :: _)) _ => by_eq ev_arm
  | |- to (earms _ _ _ _ _ ((_, Some _, _) :: _)) _ => by_eq ev_arm_if
  | |- to (eblock _ _ _ _ [] _) _ => by_eq ev_block_nil
  | |- to (eblock _ _ _ _ [(_, false)] _) _ => by_eq ev_block_last
  | |- to (eblock _ _ _ _ ((_, true) :: _) _) _ => by_eq ev_block_semi
  | |- to (eblock _ _ _ _ ((_, false) :: _) _) _ => by_eq ev_block_stmt
  | |- to (write _ _ (EIndex _ _) _ _ _) _ => by_eq ev_write_index
  | |- to (write _ _ _ _ _ ?k) _ => leaf k
  | |- to (binary _ _ _ _ _ ?k) _ => leaf k
  | |- to (coerce _ _ ?k) _ => leaf k
  | |- to (matching _ _ _ _ _ ?k ?j) _ => leaf2 k j
  | |- to (method _ _ _ _ _ (rank_value _) _ _ _) _ => by_method method_rank
  | |- to (method _ _ _ _ _ (suit_value _) _ _ _) _ => by_method method_suit
  | |- to (method _ _ _ _ _ (meta_value _) _ _ _) _ => by_method method_meta
  | |- to (method _ _ _ _ _ (class_value _) _ _ _) _ => by_method method_class
  | |- to (method _ _ _ _ _ _ _ _ ?k) _ => leaf k
  | |- to (written _ [_] [] _ _) _ => by_eq ev_written_end
  | |- to (written _ (_ :: _) (_ :: _) _ _) _ => by_eq ev_written
  | |- to (shown _ (rank_value _) _ _) _ => by_eq shown_rank
  | |- to (shown _ (suit_value _) _ _) _ => by_eq shown_suit
  | |- to (shown _ _ _ ?k) _ => leaf k
  | |- to (invoke _ _ _ _ _ _ ?k) _ => leaf k
  | |- to (construct _ _ _ _ ?k) _ => leaf k
  | |- to (element _ _ ?k) _ => leaf k
  | |- to (some _ ?k) _ => leaf k
  | |- to (put_list _ _ _ ?k) _ => leaf k
  | |- to (put _ _ _ ?k) _ => leaf k
  | |- to (agree _ _ _ _ ?k) _ => leaf k
  | |- to (bool_of (VBool ?b) ?k) _ => unfold bool_of; cbv beta
  | |- to (bnd (Val _) _) _ => cbn [bnd fst snd]
  | |- to (after_loop _ ?k) _ => leaf k
  | |- to (let _ := _ in _) _ => cbv zeta
  | |- to (match nth_error ?l ?n with _ => _ end) _ =>
      let v := eval hnf in (nth_error l n) in
      lazymatch v with Some _ => change (nth_error l n) with v | None => change (nth_error l n) with v end; cbv beta iota
  | |- to (if ?b then _ else _) _ =>
      let v := eval hnf in b in
      lazymatch v with true => change b with true | false => change b with false end; cbv iota
  end.
Ltac steps := repeat step.

(** Entering a body *)
Lemma enter_body : forall P o f n args (d : fundef) R,
  assoc f (bodies P) = Some d ->
  bind_params (fn_params d) args
    (match n with Some v => [("N", v); ("Self", VFn (fn_type d))] | None => [("Self", VFn (fn_type d))] end)
    (fun r => finished (eval P o (fn_body d) r (fun v s => Val (Go v, s))) (fun v s =>
      coerce (fn_result d) v (fun v =>
        Val (v, match fn_out d with
                | Some i => match lookup (fst (nth i (fn_params d) ("", TyOther))) (leave r s) with Some w => w | None => VUnit end
                | None => VUnit
                end)))) = R ->
  run_call P o f n args = R.
Proof. intros P o f n args d R Hf H. unfold run_call. rewrite Hf. exact H. Qed.
Lemma enter_finished : forall a (k : value -> env -> res (value * value)) R,
  to a (fun x => finished x k = R) -> finished a k = R.
Proof. auto. Qed.
Lemma enter_value : forall a (k : value -> env -> res value) R,
  to a (fun x => finished x k = R) -> finished a k = R.
Proof. auto. Qed.
Lemma enter_round : forall P o p b v r R,
  to (matching P o p v r (fun s => eval P o b s (fun _ s => Val (Go VUnit, s))) (fun _ => Stuck))
     (fun a => bnd a (fun x => Val (fst x, leave r (snd x))) = R) ->
  round P o p b v r = R.
Proof. auto. Qed.
Ltac enter :=
  lazymatch goal with
  | |- run_call ?P ?o ?f ?n ?args = _ =>
      let d := eval vm_compute in (assoc f (bodies P)) in
      lazymatch d with
      | Some ?d => refine (enter_body P o f n args d _ _ _); [ vm_cast_no_check (@eq_refl _ (Some d)) | ]
      end;
      cbn [fn_params fn_type fn_body fn_result fn_out bind_params coerce ity_eqb]
  end.
(** At the end of the code *)
Ltac over :=
  lazymatch goal with |- to (Val _) _ => idtac | |- to (Panics _) _ => idtac | |- to NoFuel _ => idtac end;
  unfold to; crunch; cbv beta iota delta [bnd].
Ltac cases :=
  repeat (steps; try lazymatch goal with |- to (if ?b then _ else _) _ => let E := fresh "B" in destruct b eqn:E end);
  try over.
(** The result of a call, or of any other computation, is known. *)
Ltac known := cbv beta iota delta [bnd fst snd]; steps.
Lemma to_bnd : forall {A} (m m' : res A) (k : A -> ans) G, m = m' -> to (bnd m' k) G -> to (bnd m k) G.
Proof. intros A m m' k G ->. auto. Qed.
Lemma apply_fn : forall fuel d g vs, apply (engine fuel (S d)) (VFn g) vs = bnd (call (engine fuel d) g None vs) (fun x => Val (fst x)).
Proof. reflexivity. Qed.
Lemma apply_clos : forall fuel d x e r v,
  apply (engine fuel (S d)) (VClos [PVar x] e r) [v]
  = finished (eval rust (engine fuel d) e ((x, v) :: ("|", VUnit) :: r) (fun v s => Val (Go v, s))) (fun v _ => Val v).
Proof. reflexivity. Qed.
Lemma apply_clos2 : forall fuel d x y e r v w,
  apply (engine fuel (S d)) (VClos [PVar x; PVar y] e r) [v; w]
  = finished (eval rust (engine fuel d) e ((y, w) :: (x, v) :: ("|", VUnit) :: r) (fun v s => Val (Go v, s))) (fun v _ => Val v).
Proof. reflexivity. Qed.
Ltac learn L := eapply to_bnd; [ eapply L | ].
Ltac closure := first [ rewrite apply_clos | rewrite apply_clos2 ]; apply enter_value; steps.
Ltac knowing L := eapply to_bnd; [ eapply L | ]; known.
Ltac code := intros; rewrite call_S; enter; apply enter_finished; steps.

(** ** Loops *)
Lemma each_fold : forall {A S} o p b (g : A -> value) (f : S -> A -> outcome S) (enc : S -> env) l s,
  (forall s a, In a l -> round rust o p b (g a) (enc s) = lift (fun s => (Go VUnit, enc s)) (f s a)) ->
  each rust o p b (map g l) (enc s) = lift (fun s => (Go VUnit, enc s)) (foldM f l s).
Proof.
  intros A S o p b g f enc l. induction l as [|a l IH]; intros s H; [ reflexivity | ].
  cbn [map each foldM]. rewrite (H s a (or_introl eq_refl)).
  destruct (f s a) as [s'|q|]; cbn [lift bnd bind]; [ | reflexivity | reflexivity ].
  apply IH. intros t x Hx. apply H. right. exact Hx.
Qed.
Lemma loop_ints : forall fuel d p b t zs r, loop (engine fuel (S d)) p b (VInts t zs) r = each rust (engine fuel d) p b (map (VInt t) zs) r.
Proof. reflexivity. Qed.
Lemma loop_list : forall fuel d p b vs r, loop (engine fuel (S d)) p b (VList vs) r = each rust (engine fuel d) p b vs r.
Proof. reflexivity. Qed.
Ltac one_round := apply enter_round; steps.
