(** Evaluation of scripts: scopes, laziness, termination, independence of the number
    of steps, and equality. *)
From Verif Require Import Base VlqModel IntBytes GroupModel SigmaModel BigIntModel TypeModel
  MethodModel IrModel SerModel ChainModel HeaderModel TxModel EqModel PrintModel EvalModel ProverProofs TypeProofs EqProofs
  EvalProofs EvalScope EvalSame EvalTerm EvalEq EvalCollProps.
Local Open Scope string_scope.
Local Open Scope list_scope.
Local Open Scope Z_scope.

Section Eval.
Context {G : group}.
Variables H sha : bytes -> bytes.
Variable fits : Z -> bool.
Variable avlv : avl_verifier.
Notation value := (value G).
Notation env := (env G).
Notation expr := (expr G).
Notation ctx := (context G (chain_state G)).
Notation eval c := (eval H sha fits avlv c).
Notation reduce c := (reduce_to_crypto H sha fits avlv c).

Definition int (z : Z) : expr := EConst (MkConst SInt (LInt z)).
Definition boolean (b : bool) : expr := EConst (MkConst SBoolean (LBool b)).

(** ** C55: scopes *)

(** Within any scope that has a binding, evaluation leaves every binding as it was:
    nothing defined inside is visible after, nothing visible before is changed.
    Missing: the outermost scope, where there is no binding yet, and blocks or
    functions that bind an identifier twice; see the refutations below. *)
Theorem c55_bindings_unchanged_partial : forall (c : ctx) n x (e : env) v e',
  scripts_tidy c -> all_sub tidy x -> eall tidy_fun e -> (exists i v, env_get e i = Some v) ->
  eval c n x e = Ok (v, e') -> forall i, env_get e' i = env_get e i.
Proof.
  intros c n x e v e' S T E B Q i. pose proof (eval_good H sha fits avlv c S n x e T E B) as K.
  rewrite Q in K. destruct K as (_ & _ & K). symmetry. apply K.
Qed.
(** The value of an expression depends on the bindings only, not on their order or on
    how they came about. *)
Theorem c55_value_depends_on_bindings : forall (c : ctx) n x (e f : env),
  (forall i, env_get e i = env_get f i) ->
  match eval c n x e, eval c n x f with
  | Ok (v, e'), Ok (w, f') => v = w /\ forall i, env_get e' i = env_get f' i
  | Err s, Err t => s = t
  | Panic, Panic => True
  | _, _ => False
  end.
Proof.
  intros c n x e f S. pose proof (eval_same H sha fits avlv c n x e f S) as K. unfold rsim in K.
  destruct (eval c n x e) as [[v e']|s|], (eval c n x f) as [[w f']|t|]; auto.
Qed.
(** Operands do not see each other's definitions: the items of a tuple evaluate as
    each of them does alone. *)
Theorem c55_operands_do_not_interfere_partial : forall (c : ctx) n x y (e : env) a b e',
  scripts_tidy c -> all_sub tidy x -> eall tidy_fun e -> (exists i v, env_get e i = Some v) ->
  eval c (S n) (ESeq QTuple [x; y]) e = Ok (VTup [a; b], e') ->
  (exists e1, eval c n x e = Ok (a, e1)) /\ (exists e2, eval c n y e = Ok (b, e2)).
Proof.
  intros c n x y e a b e' S T E B Q. cbn [EvalModel.eval eval_step eval_list] in Q.
  destruct (eval c n x e) as [[v e1]|s|] eqn:X; cbn in Q; try discriminate.
  destruct (eval c n y e1) as [[w e2]|s|] eqn:Y; cbn in Q; try discriminate.
  injection Q as <- <- <-. split; [eauto|].
  assert (M : forall i, env_get e1 i = env_get e i) by (eapply c55_bindings_unchanged_partial; eauto).
  pose proof (c55_value_depends_on_bindings c n y e e1 (fun i => eq_sym (M i))) as K. rewrite Y in K.
  destruct (eval c n y e) as [[w' f']|s|]; try contradiction. destruct K as [-> _]. eauto.
Qed.
(** In the outermost scope the definitions of a block stay visible after it. *)
Theorem c55_top_level_refuted : exists x y : expr, forall c : ctx,
  (forall n v e', eval c n y [] <> Ok (v, e')) /\
  exists e', eval c 4 (ESeq QTuple [x; y]) [] = Ok (VTup [VInt 5; VInt 5], e').
Proof.
  exists (EBlock [EValDef 1 (int 5)] (EValUse 1 SInt)), (EValUse 1 SInt). intros c. split.
  - intros [|n] v e'; discriminate.
  - eexists. reflexivity.
Qed.
(** A block that defines an identifier twice leaves its first definition behind, in
    the place of the binding of the surrounding code. *)
Theorem c55_defined_twice_refuted : exists b : expr, forall c : ctx,
  (exists e', eval c 5 (EBlock [EValDef 1 (int 5); EValDef 2 (int 0)] (EValUse 1 SInt)) [] = Ok (VInt 5, e')) /\
  (exists e', eval c 5 b [] = Ok (VInt 0, e')) /\
  exists e', eval c 5 (EBlock [EValDef 1 (int 5); EValDef 2 b] (EValUse 1 SInt)) [] = Ok (VInt 6, e').
Proof.
  exists (EBlock [EValDef 1 (int 6); EValDef 1 (int 7)] (int 0)). intros c.
  split; [eexists; reflexivity|]. split; eexists; reflexivity.
Qed.
(** A function is run with the bindings of its caller, not those of its definition:
    the same function on the same argument gives another result. *)
Theorem c55_functions_see_the_caller_refuted : exists f call : expr, forall c : ctx,
  exists e1 e2,
  eval c 7 (EBlock [EValDef 1 (int 5); EValDef 2 f] call) [] = Ok (VInt 5, e1) /\
  eval c 7 (EBlock [EValDef 1 (int 5); EValDef 2 f] (EBlock [EValDef 1 (int 100)] call)) [] = Ok (VInt 100, e2).
Proof.
  exists (EFunc [(3, SInt)] (EBin BPlus (EValUse 1 SInt) (EValUse 3 SInt))), (EApply (EValUse 2 (SFunc [SInt] SInt)) [int 0]).
  intros c. eexists. eexists. split; reflexivity.
Qed.

(** ** C56: laziness *)

(** The branch that is not taken is not evaluated. *)
Theorem c56_if : forall (c : ctx) n p b t f d (e e1 : env) v,
  eval c n b e = Ok (VBool v, e1) ->
  eval c (S n) (EOp OIf p [b; t; f] d) e = if v then eval c n t e1 else eval c n f e1.
Proof.
  intros c n p b t f d e e1 v E. cbn [EvalModel.eval eval_step eval_op]. destruct p; unfold eval_if; rewrite E; reflexivity.
Qed.
Theorem c56_untaken_branch_is_ignored : forall (c : ctx) n p b t t' f f' d (e e1 : env) v,
  eval c n b e = Ok (VBool v, e1) -> (if v then t = t' else f = f') ->
  eval c (S n) (EOp OIf p [b; t; f] d) e = eval c (S n) (EOp OIf p [b; t'; f'] d) e.
Proof. intros c n p b t t' f f' d e e1 v E Q. rewrite !(c56_if _ _ _ _ _ _ _ _ _ _ E). destruct v; now subst. Qed.
(** The right operand of && and || is not evaluated when the left one decides. *)
Theorem c56_and_or_decided : forall (c : ctx) n l (e e1 : env),
  (eval c n l e = Ok (VBool false, e1) -> forall r, eval c (S n) (EBin BAnd l r) e = Ok (VBool false, e1)) /\
  (eval c n l e = Ok (VBool true, e1) -> forall r, eval c (S n) (EBin BOr l r) e = Ok (VBool true, e1)).
Proof. intros c n l e e1. split; intros E r; cbn [EvalModel.eval eval_step]; unfold eval_bin; rewrite E; reflexivity. Qed.
(** Otherwise the result is that of the right operand. *)
Theorem c56_and_or_undecided : forall (c : ctx) n l r (e e1 e2 : env) b,
  eval c n r e1 = Ok (VBool b, e2) ->
  (eval c n l e = Ok (VBool true, e1) -> eval c (S n) (EBin BAnd l r) e = Ok (VBool b, e2)) /\
  (eval c n l e = Ok (VBool false, e1) -> eval c (S n) (EBin BOr l r) e = Ok (VBool b, e2)).
Proof. intros c n l r e e1 e2 b R. split; intros E; cbn [EvalModel.eval eval_step]; unfold eval_bin; rewrite E; cbn; rewrite R; reflexivity. Qed.
(** The default of getOrElse and of a collection's getOrElse is always evaluated: it
    can fail a script that does not need it. *)
Theorem c56_defaults_refuted : exists o d a i : expr, forall c : ctx,
  (exists v e, eval c 3 (EOp OOptionGet PNone [o] None) [] = Ok (v, e)) /\
  (forall n v e, eval c n (EOp OOptionGetOrElse PNone [o; d] None) [] <> Ok (v, e)) /\
  (exists v e, eval c 3 (EOp OByIndex PNone [a; i] None) [] = Ok (v, e)) /\
  (forall n v e, eval c n (EOp OByIndex PNone [a; i] (Some d)) [] <> Ok (v, e)).
Proof.
  exists (EConst (MkConst (SOption SInt) (LOpt (Some (LInt 4))))), (EBin BDivide (int 1) (int 0)),
    (EConst (MkConst (SColl SInt) (LColl SInt [LInt 3]))), (int 0).
  intros c. split; [eexists; eexists; reflexivity|]. split.
  - intros [|[|[|n]]] v e; cbn; discriminate.
  - split; [eexists; eexists; reflexivity|]. intros [|[|[|n]]] v e; cbn; discriminate.
Qed.

(** ** C77: the result does not depend on the number of steps *)
Theorem c77_more_steps : forall (c : ctx) n m x (e : env), (n <= m)%nat ->
  eval c n x e <> Err fuel_err -> eval c m x e = eval c n x e.
Proof. intros c n m x e L N. destruct (eval_more H sha fits avlv c n m L x e); congruence. Qed.
Theorem c77_one_result : forall (c : ctx) n m x (e : env),
  eval c n x e <> Err fuel_err -> eval c m x e <> Err fuel_err -> eval c n x e = eval c m x e.
Proof.
  intros c n m x e N M. destruct (Nat.le_gt_cases n m) as [L|L].
  - symmetry. now apply c77_more_steps.
  - apply c77_more_steps; [lia|assumption].
Qed.
Theorem c77_one_reduction : forall (c : ctx) n m x,
  reduce c n x <> Err fuel_err -> reduce c m x <> Err fuel_err -> pretty_print x = Ok tt ->
  reduce c n x = reduce c m x.
Proof.
  intros c n m x N M P. unfold reduce_to_crypto in *. rewrite P in *. cbn [bind] in *.
  rewrite (c77_one_result c n m x []); [reflexivity| |]; intros Q; rewrite Q in *; congruence.
Qed.

(** ** C76: termination *)

(** A script that deserializes itself from the context extension never ends. *)
Definition itself : expr := EOp ODeserializeContext (PTypeU8 SSigmaProp 0) [] None.
Definition itself_bytes : list Z := [-44; 8; 0].
Definition with_ext (c : ctx) (x : ext G) : ctx :=
  MkContext (c_height c) (c_self c) (c_outputs c) (c_data c) (c_inputs c) (c_state c) x.
Theorem c76_terminates_refuted : exists (x : expr) (ext : ext G), forall (c : ctx) n,
  eval (with_ext c ext) n x [] = Err fuel_err.
Proof.
  exists itself, [(0, MkConst cbyte (LCollBytes itself_bytes))]. intros c n. induction n as [|n IH]; [reflexivity|].
  change (eval (with_ext c [(0, MkConst cbyte (LCollBytes itself_bytes))]) (S n) itself [])
    with (x <- from_bytes (@parse_expr G) (as_u8s itself_bytes) ;;
          if stype_eqb (tpe x) SSigmaProp then eval (with_ext c [(0, MkConst cbyte (LCollBytes itself_bytes))]) n x [] else Err "unexpected type").
  replace (from_bytes (@parse_expr G) (as_u8s itself_bytes)) with (Ok itself) by (vm_compute; reflexivity).
  exact IH.
Qed.

(** Without deserialization, and when every call goes to a function written in place
    or to a function bound to an identifier from which the function itself cannot be
    reached, a number of steps suffices: with that many, what lies beyond them does
    not matter. [fine F L x] says so; [F] tells the identifiers of functions and [L]
    bounds those that [x] calls.  Missing: functions passed as arguments or returned. *)
Theorem c76_terminates_partial : forall (c : ctx) (F : Z -> bool) L x, fine F L x ->
  exists n r, forall m beyond, (n <= m)%nat -> upto H sha fits avlv c m beyond x [] = r.
Proof.
  intros c F L x Fx. destruct (fine_settles H sha fits avlv c F _ L x [] eq_refl Fx (inv_nil F)) as (n & r & E & _).
  exists n, r. intros m b M. exact (E (m, b) M).
Qed.
Theorem c76_steps_suffice_partial : forall (c : ctx) (F : Z -> bool) L x, fine F L x ->
  exists n, forall m, (n <= m)%nat -> eval c m x [] = eval c n x [] /\ upto H sha fits avlv c n (fun _ _ => Panic) x [] = eval c n x [].
Proof.
  intros c F L x Fx. destruct (c76_terminates_partial c F L x Fx) as (n & r & E). exists n. intros m M.
  rewrite !eval_upto. rewrite !E by lia. auto.
Qed.
End Eval.

(** ** The hypotheses are met *)
Section Met.
Context {G : group}.
Variables H sha : bytes -> bytes.
Variable fits : Z -> bool.
Variable avlv : avl_verifier.
Variable st : chain_state G.
Notation eval := (eval H sha fits avlv (plain_ctx st)).

(** { val y = 7; y + x } in a scope that binds x. *)
Definition inner : expr G := EBlock [EValDef 2 (int 7)] (EBin BPlus (EValUse 2 SInt) (EValUse 1 SInt)).
Example c55_hyps_met : exists e', eval 5 inner [(1, VInt 3)] = Ok (VInt 10, e') /\
  forall i, env_get e' i = env_get [(1, VInt 3)] i.
Proof.
  eexists. split; [reflexivity|].
  eapply (c55_bindings_unchanged_partial H sha fits avlv (plain_ctx st) 5 inner [(1, VInt 3)] (VInt 10)); [apply (plain_ctx_tidy H sha fits)| | | |reflexivity].
  - cbn. repeat split; repeat constructor; intros [].
  - constructor; [exact I|constructor].
  - exists 1, (VInt 3). reflexivity.
Qed.
Example c55_operands_hyps_met : exists e1, eval 5 (EValUse 1 SInt) [(1, VInt 3)] = Ok (VInt 3, e1).
Proof.
  eapply (c55_operands_do_not_interfere_partial H sha fits avlv (plain_ctx st) 5 inner (EValUse 1 SInt) [(1, VInt 3)]);
    [apply (plain_ctx_tidy H sha fits)| | | |reflexivity].
  - cbn. repeat split; repeat constructor; intros [].
  - constructor; [exact I|constructor].
  - exists 1, (VInt 3). reflexivity.
Qed.
Definition fails : expr G := EBin BDivide (int 1) (int 0).
Example c56_hyps_met : eval 3 (EOp OIf PNone [boolean true; int 1; fails] None) [] = Ok (VInt 1, []) /\
  eval 3 (EBin BAnd (boolean false) fails) [] = Ok (VBool false, []).
Proof.
  split.
  - rewrite (c56_if H sha fits avlv (plain_ctx st) 2 PNone (boolean true) (int 1) fails None [] [] true eq_refl). reflexivity.
  - apply (proj1 (c56_and_or_decided H sha fits avlv (plain_ctx st) 2 (boolean false) [] []) eq_refl).
Qed.
(** { def f(x) = x + 1; [1, 2].map(x => f(f(x))) } *)
Definition twice : expr G :=
  EBlock [EValDef 1 (EFunc [(2, SInt)] (EBin BPlus (EValUse 2 SInt) (int 1)))]
    (EOp OMap PNone [ints [1; 2]; EFunc [(3, SInt)] (EApply (EValUse 1 (SFunc [SInt] SInt)) [EApply (EValUse 1 (SFunc [SInt] SInt)) [EValUse 3 SInt]])] None).
Definition functions (i : Z) : bool := i =? 1.
Example c76_hyps_met : fine functions 2 twice /\ exists e', eval 9 twice [] = Ok (VColl SInt [VInt 3; VInt 4], e').
Proof. split; [cbn; repeat split; try lia; repeat constructor|]. eexists. reflexivity. Qed.
Example c77_hyps_met : eval 9 twice [] <> Err fuel_err /\ eval 9 twice [] = eval 90 twice [].
Proof.
  assert (N : eval 9 twice [] <> Err fuel_err) by discriminate. split; [exact N|].
  symmetry. apply (c77_more_steps H sha fits avlv (plain_ctx st) 9 90); [lia|exact N].
Qed.
End Met.
Print Assumptions c55_bindings_unchanged_partial.
Print Assumptions c55_value_depends_on_bindings.
Print Assumptions c55_operands_do_not_interfere_partial.
Print Assumptions c55_top_level_refuted.
Print Assumptions c55_defined_twice_refuted.
Print Assumptions c55_functions_see_the_caller_refuted.
Print Assumptions c56_if.
Print Assumptions c56_untaken_branch_is_ignored.
Print Assumptions c56_and_or_decided.
Print Assumptions c56_and_or_undecided.
Print Assumptions c56_defaults_refuted.
Print Assumptions c77_more_steps.
Print Assumptions c77_one_result.
Print Assumptions c77_one_reduction.
Print Assumptions c76_terminates_refuted.
Print Assumptions c76_terminates_partial.
Print Assumptions c76_steps_suffice_partial.
