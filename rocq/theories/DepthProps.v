(** How deep the readers and the evaluator recurse.  The code recurses on the call stack
    (ergotree-ir/src/serialization/expr.rs 87-205 and 302-305, types.rs 551-555,
    ergotree-interpreter/src/eval.rs, eval/expr.rs) and keeps no count of the depth; a thread
    whose stack is exhausted is aborted, not unwound.  [parse_expr_f d], [parse_type_f d] and
    [eval .. d] are the same readers and evaluator with room for [d] nested calls. *)
From Verif Require Import Base VlqModel IntBytes GroupModel SigmaModel TypeModel MethodModel IrModel SerModel
  ChainModel HeaderModel TxModel EqModel PrintModel EvalModel TypeProofs SerLocal.
Local Open Scope string_scope.
Local Open Scope list_scope.
Local Open Scope Z_scope.

(** ** Specification: nesting *)
(** [n] negations around an expression, and their encoding *)
Fixpoint nots {G} (n : nat) (e : expr G) : expr G := match n with O => e | S n => EOp OLogicalNot PNone [nots n e] None end.
Definition yes {G} : expr G := EConst (MkConst SBoolean (LBool true)).
Definition deep (n : nat) : bytes := repeat 239 n ++ [1; 1].
(** The number of negations an expression starts with *)
Fixpoint nesting {G} (e : expr G) : nat := match e with EOp OLogicalNot _ [a] _ => S (nesting a) | _ => O end.
(** Nested collections *)
Fixpoint colls (n : nat) (t : stype) : stype := match n with O => t | S n => SColl (colls n t) end.
Fixpoint type_nesting (t : stype) : nat := match t with SColl t => S (type_nesting t) | _ => O end.

Section Depth.
Context {G : group}.

Lemma tpe_nots : forall n, tpe (nots n (@yes G)) = SBoolean.
Proof. induction n as [|n IH]; [reflexivity|]. cbn [nots]. cbn [tpe map]. rewrite IH. reflexivity. Qed.

Lemma parse_not : forall (r : P (expr G)) st bs, step r st (239 :: bs) = parse_op r OLogicalNot st bs.
Proof. reflexivity. Qed.
Lemma parse_op_not : forall (r : P (expr G)) st bs, parse_op r OLogicalNot st bs =
  '(e, st', bs') <- r st bs ;; _ <- op_ty OLogicalNot PNone [tpe e] None ;; Ok (EOp OLogicalNot PNone [e] None, st', bs').
Proof.
  intros r st bs. unfold parse_op, op_arity. cbn [pread_n op_pay op_has_opt]. unfold pbind, pret, lift, of_res.
  destruct (r st bs) as [[[e st'] bs']| |]; cbn [bind parse_payload map otpe]; try reflexivity.
  destruct (op_ty OLogicalNot PNone [tpe e] None); reflexivity.
Qed.
Lemma limited : forall d n st r, (d <= n)%nat -> parse_expr_f (G := G) d st (deep n ++ r) = Err "fuel".
Proof.
  induction d as [|d IH]; intros n st r L; [reflexivity|]. destruct n as [|n]; [lia|].
  unfold deep. cbn [repeat app parse_expr_f]. rewrite parse_not, parse_op_not.
  change (repeat 239 n ++ [1; 1]) with (deep n). rewrite IH by lia. reflexivity.
Qed.
Lemma read_deep : forall n st r, parse_expr (G := G) st (deep n ++ r) = Ok (nots n yes, st, r).
Proof.
  induction n as [|n IH]; intros st r; rewrite parse_expr_eq.
  - unfold deep. cbn [repeat app]. unfold step, pbind, lift. cbn [get_u8 bind]. reflexivity.
  - unfold deep. cbn [repeat app]. change (repeat 239 n ++ [1; 1]) with (deep n). rewrite parse_not, parse_op_not, IH. cbn [bind].
    rewrite tpe_nots. reflexivity.
Qed.
Lemma nesting_nots : forall n, nesting (nots n (@yes G)) = n.
Proof. induction n as [|n IH]; [reflexivity|]. cbn [nots nesting]. rewrite IH. reflexivity. Qed.

(** ** C101: nesting *)

(** There is no limit on the nesting: for every depth there are bytes, two more
    than the depth, which are read, which hold that many nested
    expressions, and for which the reader needs more nested calls than that depth. *)
Theorem c101_limited_refuted : forall d : nat, exists (bs : bytes) (e : expr G),
  bytes_ok bs /\ Zlen bs = Z.of_nat d + 2 /\ parse_expr fresh bs = Ok (e, fresh, []) /\ nesting e = d /\
  forall d', (d' <= d)%nat -> parse_expr_f (G := G) d' fresh bs = Err "fuel".
Proof.
  intros d. exists (deep d), (nots d yes). repeat split.
  - unfold deep. apply Forall_app. split; [apply Forall_forall; intros x Hx; apply repeat_spec in Hx; subst; unfold byte; lia|].
    repeat constructor; unfold byte; lia.
  - unfold deep, Zlen. rewrite app_length, repeat_length. cbn [length]. lia.
  - rewrite <- (app_nil_r (deep d)). apply read_deep.
  - apply nesting_nots.
  - intros d' L. rewrite <- (app_nil_r (deep d)). apply limited, L.
Qed.

(** The same for whole scripts: a script with such a root is accepted as parsed. *)
Theorem c101_scripts_refuted : forall d : nat, exists (bs : bytes) (h : theader) (e : expr G),
  bytes_ok bs /\ Zlen bs = Z.of_nat d + 4 /\ tree_of_bytes bs = Ok (Parsed h [] (EOp OBoolToSigmaProp PNone [e] None)) /\ nesting e = d.
Proof.
  intros d. exists (0 :: 209 :: deep d). eexists. exists (nots d yes). repeat split.
  - constructor; [unfold byte; lia|]. constructor; [unfold byte; lia|]. unfold deep. apply Forall_app.
    split; [apply Forall_forall; intros x Hx; apply repeat_spec in Hx; subst; unfold byte; lia|].
    repeat constructor; unfold byte; lia.
  - unfold deep, Zlen. cbn [length]. rewrite app_length, repeat_length. cbn [length]. lia.
  - unfold tree_of_bytes. cbn [parse_header get_u8 bind]. change (th_new 0) with (Ok (MkTh 0 false false)) || idtac.
    unfold th_new. cbn. unfold parse_body. cbn [th_seg]. unfold pbind, pret, pstate, pset. cbn [bind].
    rewrite parse_expr_eq. unfold step, pbind, lift. cbn [get_u8 bind].
    change (parse_tag parse_expr 209) with (parse_op (@parse_expr G) OBoolToSigmaProp).
    unfold parse_op, op_arity. cbn [pread_n op_pay op_has_opt]. unfold pbind, pret, lift, of_res.
    rewrite <- (app_nil_r (deep d)), read_deep. cbn [bind parse_payload map otpe]. rewrite tpe_nots. reflexivity.
  - apply nesting_nots.
Qed.

(** Types, which are read by the same kind of recursion *)
Theorem c101_types_refuted : forall d : nat, exists (bs : bytes) (t : stype),
  bytes_ok bs /\ Zlen bs = Z.of_nat d + 1 /\ parse_type bs = Ok (t, []) /\ type_nesting t = d /\
  forall d', (d' <= d)%nat -> parse_type_f d' bs = Err "fuel".
Proof.
  assert (S1 : forall f r, parse_tc_with f 12 r = '(t, r') <- f r ;; Ok (SColl t, r')) by (intros; reflexivity).
  assert (L : forall d n, (d <= n)%nat -> parse_type_f d (repeat 12 n ++ [100]) = Err "fuel").
  { induction d as [|d IH]; intros n L; [reflexivity|]. destruct n as [|n]; [lia|]. cbn [repeat app parse_type_f get_u8 bind].
    rewrite S1, IH by lia. reflexivity. }
  assert (R : forall n f, (n < f)%nat -> parse_type_f f (repeat 12 n ++ [100]) = Ok (colls n SAvlTree, [])).
  { induction n as [|n IH]; intros f F; (destruct f as [|f]; [lia|]); cbn [repeat app parse_type_f get_u8 bind].
    - reflexivity.
    - rewrite S1, IH by lia. reflexivity. }
  assert (T : forall n, type_nesting (colls n SAvlTree) = n) by (induction n as [|n IH]; [reflexivity|]; cbn; rewrite IH; reflexivity).
  intros d. exists (repeat 12 d ++ [100]), (colls d SAvlTree). repeat split.
  - apply Forall_app. split; [apply Forall_forall; intros x Hx; apply repeat_spec in Hx; subst; unfold byte; lia|].
    repeat constructor; unfold byte; lia.
  - unfold Zlen. rewrite app_length, repeat_length. cbn [length]. lia.
  - unfold parse_type. apply R. rewrite app_length, repeat_length. lia.
  - apply T.
  - intros d' H. apply L, H.
Qed.

(** What does hold: the nesting is bounded by the number of bytes, so that a caller who limits
    the number of bytes limits the depth.  Missing: a limit that does not depend on the bytes. *)
Theorem c101_bytes_partial : forall (bs : bytes) d st, (List.length bs < d)%nat ->
  parse_expr_f (G := G) d st bs = parse_expr st bs /\ parse_type_f d bs = parse_type bs.
Proof.
  intros bs d st L. split.
  - apply (agree_expr (List.length bs) d L st bs). lia.
  - apply parse_type_total_fuel, L.
Qed.

(** Evaluation recurses as deep as the expression is nested. *)
Section Eval.
Variables (H sha : bytes -> bytes) (fits : Z -> bool) (avlv : avl_verifier).
Theorem c101_eval_refuted : forall (c : context G (chain_state G)) (d : nat), exists (bs : bytes) (e : expr G) (b : bool),
  Zlen bs = Z.of_nat d + 2 /\ parse_expr fresh bs = Ok (e, fresh, []) /\
  (forall d', (d' <= d)%nat -> eval H sha fits avlv c d' e [] = Err fuel_err) /\
  forall d', (d < d')%nat -> eval H sha fits avlv c d' e [] = Ok (VBool b, []).
Proof.
  intros c.
  assert (St : forall f n e, eval H sha fits avlv c (S f) (nots (S n) (@yes G)) e =
    '(v, e') <- eval H sha fits avlv c f (nots n yes) e ;; b <- get_bool v ;; Ok (VBool (negb b), e')).
  { intros f n e. cbn [nots eval eval_step eval_op]. destruct (eval H sha fits avlv c f (nots n yes) e) as [[v e']| |]; cbn [bind]; try reflexivity.
    destruct v; reflexivity. }
  assert (L : forall d n e, (d <= n)%nat -> eval H sha fits avlv c d (nots n (@yes G)) e = Err fuel_err).
  { induction d as [|d IH]; intros n e L; [reflexivity|]. destruct n as [|n]; [lia|]. rewrite St, IH by lia. reflexivity. }
  assert (R : forall n d, (n < d)%nat -> eval H sha fits avlv c d (nots n (@yes G)) [] = Ok (VBool (Nat.even n), [])).
  { induction n as [|n IH]; intros d F; (destruct d as [|d]; [lia|]).
    - reflexivity.
    - rewrite St, IH by lia. cbn [bind get_bool]. rewrite Nat.even_succ, <- Nat.negb_even. reflexivity. }
  intros d. exists (deep d), (nots d yes), (Nat.even d). repeat split.
  - unfold deep, Zlen. rewrite app_length, repeat_length. cbn [length]. lia.
  - rewrite <- (app_nil_r (deep d)). apply read_deep.
  - intros d' H0. apply L, H0.
  - intros d' H0. apply R, H0.
Qed.
End Eval.
End Depth.

(** Three negations of `true` in five bytes *)
Example c101_hyps_met : forall G : group,
  parse_expr (G := G) fresh [239; 239; 239; 1; 1] = Ok (nots 3 yes, fresh, []) /\ nesting (nots 3 (@yes G)) = 3%nat /\
  parse_expr_f (G := G) 3 fresh [239; 239; 239; 1; 1] = Err "fuel".
Proof. intros G. repeat split; reflexivity. Qed.

Print Assumptions c101_limited_refuted.
Print Assumptions c101_scripts_refuted.
Print Assumptions c101_types_refuted.
Print Assumptions c101_bytes_partial.
Print Assumptions c101_eval_refuted.
