(** C76: short scripts without deserialization whose evaluation never ends. *)
From Verif Require Import Base VlqModel IntBytes GroupModel SigmaModel BigIntModel TypeModel
  MethodModel IrModel SerModel ChainModel HeaderModel TxModel EqModel PrintModel EvalModel TypeProofs EvalProofs EvalScope EvalProps.
Local Open Scope string_scope.
Local Open Scope list_scope.
Local Open Scope Z_scope.

(** ** Specification *)

(** No part of the script deserializes anything. *)
Definition self_contained {G : group} (x : expr G) : Prop :=
  all_sub (fun y => match y with EOp ODeserializeContext _ _ _ | EOp ODeserializeRegister _ _ _ => False | _ => True end) x.
(** The identifiers a script binds, with repetitions. *)
Fixpoint binders {G : group} (x : expr G) : list Z :=
  let each := fix go l := match l with [] => [] | y :: l' => binders y ++ go l' end in
  match x with
  | EConst _ | EPlaceholder _ _ | EBools _ | EValUse _ _ => []
  | EOp _ _ l d => each l ++ match d with Some y => binders y | None => [] end
  | EBin _ a b => binders a ++ binders b
  | ESeq _ l => each l
  | EFunc args b => map fst args ++ binders b
  | EValDef i r => i :: binders r
  | EBlock l r => each l ++ binders r
  | EApply f l => binders f ++ each l
  | EMethod _ o l => binders o ++ each l
  | EProp _ o => binders o
  end.

Section Loop.
Context {G : group}.
Variables H sha : bytes -> bytes.
Variable fits : Z -> bool.
Variable avlv : avl_verifier.
Notation ctx := (context G (chain_state G)).
Notation eval c := (eval H sha fits avlv c).

(** { def f(x : Int) = sigmaProp(true); def f(x : Int) = f(x); f(5) }: the reader takes the
    type of the inner call from the first definition, the evaluator runs the second. *)
Definition fty : stype := SFunc [SInt] SSigmaProp.
Definition loop_body : expr G := EApply (EValUse 1 fty) [EValUse 2 SInt].
Definition loop : expr G :=
  EBlock [EValDef 1 (EFunc [(2, SInt)] (EOp OBoolToSigmaProp PNone [boolean true] None)); EValDef 1 (EFunc [(2, SInt)] loop_body)]
    (EApply (EValUse 1 fty) [int 5]).
Definition loop_bytes : bytes :=
  [0; 216; 2; 214; 1; 217; 1; 2; 4; 209; 1; 1; 214; 1; 217; 1; 2; 4; 218; 114; 1; 1; 114; 2; 218; 114; 1; 1; 4; 10].

Lemma loop_runs : forall (c : ctx) n (e : env G) v, env_get e 1 = Some (VLambda [(2, SInt)] loop_body) -> env_get e 2 = Some v -> eval c n loop_body e = Err fuel_err.
Proof.
  intros c. induction n as [|n IH]; intros e v E1 E2; [reflexivity|]. unfold loop_body at 1. cbn [EvalModel.eval eval_step]. unfold eval_apply.
  destruct n as [|n]; [reflexivity|].
  replace (eval c (S n) (EValUse 1 fty) e) with (Ok (VLambda [(2, SInt)] loop_body, e)) by (cbn [EvalModel.eval eval_step]; rewrite E1; reflexivity).
  cbn [bind eval_list].
  replace (eval c (S n) (EValUse 2 SInt) e) with (Ok (v, e)) by (cbn [EvalModel.eval eval_step]; rewrite E2; reflexivity).
  cbn [bind eval_list map fst snd combine fold_left]. unfold bind_var. rewrite E2.
  rewrite (IH (env_insert e 2 v) v); [reflexivity| |]; rewrite get_insert; [exact E1|reflexivity].
Qed.
(** Thirty bytes are read as a script that deserializes nothing and whose evaluation ends
    in no context after any number of steps. *)
Theorem c76_redefined_refuted : exists bs (x : expr G), Zlen bs = 30 /\ tree_of_bytes bs = Ok (Parsed (th_v0 false) [] x) /\ self_contained x /\
  forall (c : ctx) n, eval c n x [] = Err fuel_err.
Proof.
  exists loop_bytes, loop. split; [reflexivity|]. split; [vm_compute; reflexivity|]. split; [cbn; tauto|].
  intros c n. destruct n as [|n]; [reflexivity|]. unfold loop. cbn [EvalModel.eval eval_step]. unfold eval_block. cbn [env_is_empty block_top].
  destruct n as [|n]; [reflexivity|].
  repeat match goal with |- context [eval c (S n) (EFunc ?a ?b) ?e] => change (eval c (S n) (EFunc a b) e) with (Ok (VLambda a b, e)); cbn [bind block_top] end.
  set (e := env_insert _ 1 _). assert (E1 : env_get e 1 = Some (VLambda [(2, SInt)] loop_body)) by (unfold e; rewrite get_insert; reflexivity).
  cbn [EvalModel.eval eval_step]. unfold eval_apply. destruct n as [|n]; [reflexivity|].
  replace (eval c (S n) (EValUse 1 fty) e) with (Ok (VLambda [(2, SInt)] loop_body, e)) by (cbn [EvalModel.eval eval_step]; rewrite E1; reflexivity).
  cbn [bind eval_list]. change (eval c (S n) (int 5) e) with (Ok (@VInt G 5, e)). cbn [bind eval_list map fst snd combine fold_left]. unfold bind_var.
  replace (env_get e 2) with (None (A := value G)) by reflexivity.
  rewrite (loop_runs c (S n) (env_insert e 2 (VInt 5)) (VInt 5)); [reflexivity| |]; rewrite get_insert; [exact E1|reflexivity].
Qed.

(** (x => x(x))(x => x(x)): a conditional has the type of its first branch, whatever the
    other is.  Every identifier is bound once. *)
Definition self_call (i j : Z) : expr G :=
  EFunc [(i, SBoolean)] (EApply (EOp OIf PNone [boolean false; EFunc [(j, SBoolean)] (EValUse j SBoolean); EValUse i SBoolean] None) [EValUse i SBoolean]).
Definition omega : expr G := EApply (self_call 1 2) [EOp OIf PNone [boolean false; boolean true; self_call 3 4] None].
Definition omega_bytes : bytes :=
  [0; 209; 218; 217; 1; 1; 1; 218; 149; 1; 0; 217; 1; 2; 1; 114; 2; 114; 1; 1; 114; 1; 1;
   149; 1; 0; 1; 1; 217; 1; 3; 1; 218; 149; 1; 0; 217; 1; 4; 1; 114; 4; 114; 3; 1; 114; 3].
Definition self_body (i j : Z) : expr G :=
  EApply (EOp OIf PNone [boolean false; EFunc [(j, SBoolean)] (EValUse j SBoolean); EValUse i SBoolean] None) [EValUse i SBoolean].
(** One round: the function is called with what its argument holds. *)
Lemma self_step : forall (c : ctx) n (e : env G) i j i' t b, env_get e i = Some (VLambda [(i', t)] b) ->
  (forall m e', (m <= n)%nat -> env_get e' i' = Some (VLambda [(i', t)] b) -> eval c m b e' = Err fuel_err) ->
  eval c (S n) (self_body i j) e = Err fuel_err.
Proof.
  intros c n e i j i' t b E R. unfold self_body. cbn [EvalModel.eval eval_step]. unfold eval_apply. destruct n as [|n]; [reflexivity|].
  assert (U : forall k, eval c (S k) (EValUse i SBoolean) e = Ok (VLambda [(i', t)] b, e)) by (intros k; cbn [EvalModel.eval eval_step]; rewrite E; reflexivity).
  destruct n as [|n]; [reflexivity|].
  assert (I : eval c (S (S n)) (EOp OIf PNone [boolean false; EFunc [(j, SBoolean)] (EValUse j SBoolean); EValUse i SBoolean] None) e = Ok (VLambda [(i', t)] b, e)).
  { rewrite <- (U n). reflexivity. }
  rewrite I. cbn [bind eval_list]. rewrite U. cbn [bind eval_list map fst snd combine fold_left].
  destruct (bind_var i' (VLambda [(i', t)] b) (e, [], [])) as [[e' fr] sv] eqn:B.
  assert (E' : env_get e' i' = Some (VLambda [(i', t)] b)).
  { unfold bind_var in B. destruct (env_get e i'); injection B as <- <- <-; rewrite get_insert, Z.eqb_refl; reflexivity. }
  rewrite (R (S (S n)) e'); [reflexivity|lia|exact E'].
Qed.
Lemma self_runs : forall (c : ctx) n (e : env G) i j, env_get e i = Some (VLambda [(i, SBoolean)] (self_body i j)) -> eval c n (self_body i j) e = Err fuel_err.
Proof.
  intros c n e i j. revert e. induction n as [n IH] using lt_wf_ind. intros e E. destruct n as [|n]; [reflexivity|].
  apply (self_step c n e i j i SBoolean (self_body i j) E). intros m e' L E'. apply IH; [lia|exact E'].
Qed.
Theorem c76_bound_once_refuted : exists bs (x : expr G), Zlen bs = 47 /\ tree_of_bytes bs = Ok (Parsed (th_v0 false) [] x) /\ self_contained x /\ NoDup (binders x) /\
  forall (c : ctx) n, eval c n x [] = Err fuel_err.
Proof.
  exists omega_bytes, (EOp OBoolToSigmaProp PNone [omega] None). split; [reflexivity|]. split; [vm_compute; reflexivity|]. split; [cbn; tauto|].
  split; [cbn; repeat constructor; cbn; intuition lia|].
  intros c n. destruct n as [|n]; [reflexivity|].
  assert (K : eval c n omega [] = Err fuel_err); [|cbn [EvalModel.eval eval_step eval_op]; rewrite K; reflexivity].
  destruct n as [|n]; [reflexivity|]. unfold omega. cbn [EvalModel.eval eval_step]. unfold eval_apply. destruct n as [|n]; [reflexivity|].
  change (eval c (S n) (self_call 1 2) []) with (Ok (VLambda [(1, SBoolean)] (self_body 1 2), [] : env G)). cbn [bind eval_list].
  destruct n as [|n]; [reflexivity|].
  change (eval c (S (S n)) (EOp OIf PNone [boolean false; boolean true; self_call 3 4] None) []) with (Ok (VLambda [(3, SBoolean)] (self_body 3 4), [] : env G)).
  cbn [bind eval_list map fst snd combine fold_left]. unfold bind_var. cbn [env_get].
  rewrite (self_step c (S n) (env_insert [] 1 (VLambda [(3, SBoolean)] (self_body 3 4))) 1 2 3 SBoolean (self_body 3 4)); [reflexivity|reflexivity|].
  intros m e' _ E'. apply self_runs. exact E'.
Qed.
End Loop.
Print Assumptions c76_redefined_refuted.
Print Assumptions c76_bound_once_refuted.
