(** Single operations of scripts against their mathematical meaning: connectives,
    options and tuples, group elements and hashes, application of functions,
    substitution of constants and variables of the context. *)
From Verif Require Import Base VlqModel VlqProofs IntBytes GroupModel GroupProofs SigmaModel SigmaSpec BigIntModel TypeModel
  MethodModel IrModel SerModel SerSpec SerProps ChainModel HeaderModel TxModel EqModel PrintModel EvalModel ProverProofs SbProofs
  TypeProofs EqProofs EvalProofs EvalScope EvalSame EvalEq EvalCollProps EvalDataProps.
Local Open Scope string_scope.
Local Open Scope list_scope.
Local Open Scope Z_scope.

Lemma u8s_i8s b : bytes_ok b -> as_u8s (as_i8s b) = b.
Proof.
  intros O. unfold as_u8s, as_i8s. rewrite map_map. induction O as [|x l Ob _ IH]; cbn [map]; [reflexivity|].
  rewrite IH, wrapu_wraps by lia. f_equal. apply wrapu_id. exact Ob.
Qed.

Section Ops.
Context {G : group}.
Variables H sha : bytes -> bytes.
Variable fits : Z -> bool.
Variable avlv : avl_verifier.
Variable c : context G (chain_state G).
Notation value := (value G).
Notation env := (env G).
Notation expr := (expr G).
Notation sbool := (sbool G).
Notation eval := (eval H sha fits avlv c).

(** The expressions evaluate one after the other to these values. *)
Inductive evals (n : nat) : list expr -> env -> list value -> env -> Prop :=
| evals_nil e : evals n [] e [] e
| evals_cons x xs e v e1 vs e2 : eval n x e = Ok (v, e1) -> evals n xs e1 vs e2 -> evals n (x :: xs) e (v :: vs) e2.
Lemma evals_list n xs e vs e' : evals n xs e vs e' <-> eval_list (eval n) xs e = Ok (vs, e').
Proof.
  split.
  - induction 1 as [|x xs e v e1 vs e2 Hx _ IH]; cbn [eval_list]; [reflexivity|]. rewrite Hx. cbn [bind]. rewrite IH. reflexivity.
  - revert e vs. induction xs as [|x xs IH]; intros e vs E; cbn [eval_list] in E.
    + injection E as <- <-. constructor.
    + inv_bind E. destruct b as [v e1]. cbv beta iota in E. inv_bind E. destruct b as [ws e2]. cbv beta iota in E.
      injection E as <- <-. econstructor; eauto.
Qed.

(** ** C84: connectives *)

Definition odd_count (l : list bool) : bool := Nat.odd (count_occ Bool.bool_dec l true).
Lemma xor_odd l : forall b, fold_left xorb l b = xorb b (odd_count l).
Proof.
  unfold odd_count. induction l as [|x l IH]; intros b; cbn [fold_left]; [cbn; now destruct b|]. rewrite IH.
  destruct x; cbn [count_occ].
  - destruct (Bool.bool_dec true true) as [_|N]; [|congruence]. rewrite Nat.odd_succ, <- Nat.negb_odd.
    destruct b; destruct (Nat.odd _); reflexivity.
  - destruct (Bool.bool_dec false true) as [N|_]; [congruence|]. now destruct b.
Qed.
Theorem c84_booleans : forall n e e1 x t l, eval n x e = Ok (VColl t (map VBool l), e1) ->
  (exists r, eval (S n) (node OAnd [x]) e = Ok (VBool r, e1) /\ (r = true <-> forall b, In b l -> b = true)) /\
  (exists r, eval (S n) (node OOr [x]) e = Ok (VBool r, e1) /\ (r = true <-> In true l)) /\
  eval (S n) (node OXorOf [x]) e = Ok (VBool (odd_count l), e1).
Proof.
  intros n e e1 x t l E. unfold node. cbn [EvalModel.eval eval_step eval_op]. rewrite E. cbn [bind op1 get_vec].
  assert (A : get_all get_bool (map (@VBool G) l) = Ok l).
  { clear. induction l as [|b l IH]; cbn [map get_all]; [reflexivity|]. cbn [get_bool bind]. rewrite IH. reflexivity. }
  rewrite A. cbn [bind]. repeat split.
  - eexists. split; [reflexivity|]. rewrite forallb_forall. reflexivity.
  - eexists. split; [reflexivity|]. rewrite existsb_exists. split; [intros (b & I & ->); exact I|intros I; eauto].
  - rewrite xor_odd, Bool.xorb_false_l. reflexivity.
Qed.
Theorem c84_negation : forall n e e1 x b, eval n x e = Ok (VBool b, e1) ->
  eval (S n) (node OLogicalNot [x]) e = Ok (VBool (if b then false else true), e1).
Proof. intros n e e1 x b E. unfold node. cbn [EvalModel.eval eval_step eval_op]. rewrite E. reflexivity. Qed.
(** The binary forms, when both operands have values. *)
Theorem c84_binary : forall n e e1 e2 x y a b, eval n x e = Ok (VBool a, e1) -> eval n y e1 = Ok (VBool b, e2) ->
  gives (eval (S n) (EBin BAnd x y) e) (if a then e2 else e1) (fun v => v = VBool (if a then b else false)) /\
  gives (eval (S n) (EBin BOr x y) e) (if a then e1 else e2) (fun v => v = VBool (if a then true else b)) /\
  gives (eval (S n) (EBin BXor x y) e) e2 (fun v => v = VBool (if a then (if b then false else true) else b)).
Proof.
  intros n e e1 e2 x y a b E1 E2. unfold gives. cbn [EvalModel.eval eval_step]. unfold eval_bin. rewrite E1. cbn [bind get_bool].
  repeat split; destruct a; cbn [bind]; rewrite ?E2; cbn [bind get_bool]; eexists; (split; [reflexivity|]); try reflexivity; now destruct b.
Qed.

(** Propositions: the result can be proven, by whoever can prove the leaves in [K],
    exactly when all, one, or enough of the operands can. *)
Theorem c84_sigma_and : forall n e e1 xs ss, evals n xs e (map VSigma ss) e1 -> Zlen ss <= 255 ->
  gives (eval (S n) (ESeq QSigmaAnd xs) e) e1 (fun v => exists s, v = VSigma s /\
    forall K, provable K s <-> Forall (provable K) ss).
Proof.
  intros n e e1 xs ss E L. unfold gives. cbn [EvalModel.eval eval_step]. apply evals_list in E. rewrite E. cbn [bind seq_value].
  assert (A : get_all get_sigma (map (@VSigma G) ss) = Ok ss).
  { clear. induction ss as [|b l IH]; cbn [map get_all]; [reflexivity|]. cbn [get_sigma bind]. rewrite IH. reflexivity. }
  rewrite A. cbn [bind]. destruct (cand_normalized_spec ss L) as (s & -> & _ & P). cbn [bind]. eauto.
Qed.
Theorem c84_sigma_or : forall n e e1 xs ss, evals n xs e (map VSigma ss) e1 -> Zlen ss <= 255 ->
  gives (eval (S n) (ESeq QSigmaOr xs) e) e1 (fun v => exists s, v = VSigma s /\
    forall K, provable K s <-> Exists (provable K) ss).
Proof.
  intros n e e1 xs ss E L. unfold gives. cbn [EvalModel.eval eval_step]. apply evals_list in E. rewrite E. cbn [bind seq_value].
  assert (A : get_all get_sigma (map (@VSigma G) ss) = Ok ss).
  { clear. induction ss as [|b l IH]; cbn [map get_all]; [reflexivity|]. cbn [get_sigma bind]. rewrite IH. reflexivity. }
  rewrite A. cbn [bind]. destruct (cor_normalized_spec ss L) as (s & -> & _ & P). cbn [bind]. eauto.
Qed.
Theorem c84_at_least_partial : forall n e e1 e2 x y k t ss, eval n x e = Ok (VInt k, e1) ->
  eval n y e1 = Ok (VColl t (map VSigma ss), e2) -> 2 <= Zlen ss <= 255 -> 0 <= k <= Zlen ss ->
  gives (eval (S n) (node OAtleast [x; y]) e) e2 (fun v => exists s, v = VSigma s /\
    forall K, provable K s <-> at_least (Z.to_nat k) (map (provable K) ss)).
Proof.
  intros n e e1 e2 x y k t ss E1 E2 L B. unfold gives, node. cbn [EvalModel.eval eval_step eval_op is_lambda_op]. rewrite E1. cbn [bind].
  rewrite E2. cbn [bind op2]. unfold atleast. cbn [get_coll coll_items of_option bind get_int].
  assert (A : get_all get_sigma (map (@VSigma G) ss) = Ok ss).
  { clear. induction ss as [|b l IH]; cbn [map get_all]; [reflexivity|]. cbn [get_sigma bind]. rewrite IH. reflexivity. }
  rewrite A. cbn [bind]. replace ((k <? 0) || (255 <? k)) with false by lia. rewrite wraps_id by lia.
  replace (Zlen ss <? k) with false by lia. unfold bounded. replace ((2 <=? Zlen ss) && (Zlen ss <=? 255)) with true by lia. cbn [bind].
  destruct (cthreshold_reduce_spec k ss) as (s & -> & _ & P); [unfold u8; lia|exact L|]. cbn [bind]. eauto.
Qed.
Theorem c84_bool_to_sigma : forall n e e1 x b, eval n x e = Ok (VBool b, e1) ->
  gives (eval (S n) (node OBoolToSigmaProp [x]) e) e1 (fun v => exists s, v = VSigma s /\ forall K, provable K s <-> b = true).
Proof.
  intros n e e1 x b E. unfold gives, node. cbn [EvalModel.eval eval_step eval_op]. rewrite E. cbn [bind op1 get_bool].
  eexists. split; [reflexivity|]. eexists. split; [reflexivity|]. reflexivity.
Qed.
(** A threshold outside the possible ones, and a threshold over a single proposition,
    are errors, although their meaning is clear. *)
Theorem c84_at_least_refuted : forall p : sbool,
  let ask k l := eval 4 (node OAtleast [EConst (MkConst SInt (LInt k)); EConst (MkConst (SColl SSigmaProp) (LColl SSigmaProp (map LSigma l)))]) [] in
  is_ok (ask 1 [p]) = false /\ is_ok (ask 3 [p; p]) = false /\ is_ok (ask (-1) [p; p]) = false /\
  forall K : leaf G -> Prop, (at_least 1 (map (provable K) [p]) <-> provable K p) /\ (at_least 3 (map (provable K) [p; p]) <-> False).
Proof.
  intros p ask. repeat split; try reflexivity; cbn; tauto.
Qed.

(** ** C85: options and tuples *)

Theorem c85_option : forall n e e1 x o, eval n x e = Ok (VOpt o, e1) ->
  (forall v, o = Some v -> eval (S n) (node OOptionGet [x]) e = Ok (v, e1)) /\
  (o = None -> is_ok (eval (S n) (node OOptionGet [x]) e) = false) /\
  (exists b, eval (S n) (node OOptionIsDefined [x]) e = Ok (VBool b, e1) /\ (b = true <-> o <> None)) /\
  (forall y d e2, eval n y e1 = Ok (d, e2) -> eval (S n) (node OOptionGetOrElse [x; y]) e = Ok (match o with Some v => v | None => d end, e2)).
Proof.
  intros n e e1 x o E. unfold node. cbn [EvalModel.eval eval_step eval_op is_lambda_op]. rewrite E. cbn [bind op1]. repeat split.
  - intros v ->. reflexivity.
  - intros ->. reflexivity.
  - destruct o; eexists; (split; [reflexivity|]); split; congruence.
  - intros y d e2 ->. cbn [bind op2]. destruct o; reflexivity.
Qed.
Section Option_.
Variables (n : nat) (e e1 e2 : env) (x f : expr) (o : option value) (i : Z) (t : stype) (body : expr).
Hypothesis Ex : eval n x e = Ok (VOpt o, e1).
Hypothesis Ef : eval n f e1 = Ok (VLambda [(i, t)] body, e2).
(** No block or function in reach binds an identifier twice. *)
Hypothesis Sc : scripts_tidy c.
Hypothesis Tb : all_sub tidy body.
Hypothesis Te : eall tidy_fun e2.
Hypothesis To : match o with Some v => vall tidy_fun v | None => True end.
Lemma call_env v r e3 : o = Some v -> eval n body (env_insert e2 i v) = Ok (r, e3) ->
  exists e4, call1 (eval n) (VLambda [(i, t)] body) v e2 = Ok (r, e4) /\ same e2 e4.
Proof.
  intros Q R. rewrite Q in To.
  assert (Vf : vall tidy_fun (VLambda [(i, t)] body)) by (split; [constructor; [intros []|constructor]|exact Tb]).
  pose proof (call1_good (eval n) (fun x e => eval_good H sha fits avlv c Sc n x e) (VLambda [(i, t)] body) v e2 Vf To Te) as K.
  unfold call1 in *. rewrite R in *. cbn [bind] in *. destruct K as (_ & _ & K3). eexists. split; [reflexivity|exact K3].
Qed.
(** The function is applied to the value, if there is one. *)
Theorem c85_option_map : forall m, sm_code m = 36 -> sm_id m = 7 ->
  (forall v r e3, o = Some v -> eval n body (env_insert e2 i v) = Ok (r, e3) ->
     exists e4, eval (S n) (EMethod m x [f]) e = Ok (VOpt (Some r), e4) /\ forall j, env_get e4 j = env_get e2 j) /\
  (o = None -> eval (S n) (EMethod m x [f]) e = Ok (VOpt None, e2)).
Proof.
  intros m C I. cbn [EvalModel.eval eval_step eval_list]. rewrite Ex. cbn [bind]. rewrite Ef. cbn [bind]. unfold eval_method. rewrite C, I.
  cbn [Z.eqb Pos.eqb andb]. unfold option_map_m. cbn [arg nth_error of_option bind]. split.
  - intros v r e3 Q R. destruct (call_env v r e3 Q R) as (e4 & E4 & S4). rewrite Q, E4. cbn [bind]. exists e4. split; [reflexivity|].
    intros j. symmetry. apply S4.
  - intros ->. reflexivity.
Qed.
(** The value is kept if the function says so. *)
Theorem c85_option_filter : forall m, sm_code m = 36 -> sm_id m = 8 ->
  (forall v b e3, o = Some v -> eval n body (env_insert e2 i v) = Ok (VBool b, e3) ->
     exists e4, eval (S n) (EMethod m x [f]) e = Ok (VOpt (if b then Some v else None), e4) /\ forall j, env_get e4 j = env_get e2 j) /\
  (o = None -> eval (S n) (EMethod m x [f]) e = Ok (VOpt None, e2)).
Proof.
  intros m C I. cbn [EvalModel.eval eval_step eval_list]. rewrite Ex. cbn [bind]. rewrite Ef. cbn [bind]. unfold eval_method. rewrite C, I.
  cbn [Z.eqb Pos.eqb andb]. unfold option_filter_m. cbn [arg nth_error of_option bind]. split.
  - intros v b e3 Q R. destruct (call_env v _ e3 Q R) as (e4 & E4 & S4). rewrite Q, E4. cbn [bind get_bool]. exists e4. split; [reflexivity|].
    intros j. symmetry. apply S4.
  - intros ->. reflexivity.
Qed.
End Option_.
(** A tuple is its components; component [i] is counted from one. *)
Theorem c85_tuple : forall n e e1 xs vs, evals n xs e vs e1 -> eval (S n) (ESeq QTuple xs) e = Ok (VTup vs, e1).
Proof. intros n e e1 xs vs E. cbn [EvalModel.eval eval_step]. apply evals_list in E. rewrite E. reflexivity. Qed.
Theorem c85_select : forall n e e1 x vs i, eval n x e = Ok (VTup vs, e1) ->
  (forall v, at_ vs (i - 1) = Some v -> eval (S n) (EOp OSelectField (PIndex i) [x] None) e = Ok (v, e1)) /\
  (~ 1 <= i <= Zlen vs -> is_ok (eval (S n) (EOp OSelectField (PIndex i) [x] None) e) = false).
Proof.
  intros n e e1 x vs i E. cbn [EvalModel.eval eval_step eval_op]. rewrite E. cbn [bind op1]. rewrite znth_at. split.
  - intros v ->. reflexivity.
  - intros B. rewrite at_out by lia. reflexivity.
Qed.

(** ** C86: group elements, hashes and propositions *)

Theorem c86_exponentiate : group_ok G -> forall n e e1 e2 x y p k, eval n x e = Ok (VGroup p, e1) -> eval n y e1 = Ok (VBigInt k, e2) ->
  (0 <= k < gord G -> eval (S n) (node OExponentiate [x; y]) e = Ok (VGroup (gpow p k), e2)) /\
  (~ 0 <= k < gord G -> is_ok (eval (S n) (node OExponentiate [x; y]) e) = false).
Proof.
  intros HG n e e1 e2 x y p k E1 E2. unfold node. cbn [EvalModel.eval eval_step eval_op is_lambda_op]. rewrite E1. cbn [bind]. rewrite E2. cbn [bind op2].
  unfold exponentiate_v. split; intros B.
  - replace ((0 <=? k) && (k <? gord G)) with true by lia. rewrite (exponentiate_pow HG). reflexivity.
  - replace ((0 <=? k) && (k <? gord G)) with false by lia. reflexivity.
Qed.
Theorem c86_multiply : forall n e e1 e2 x y p q, eval n x e = Ok (VGroup p, e1) -> eval n y e1 = Ok (VGroup q, e2) ->
  eval (S n) (node OMultiplyGroup [x; y]) e = Ok (VGroup (gop p q), e2).
Proof. intros n e e1 e2 x y p q E1 E2. unfold node. cbn [EvalModel.eval eval_step eval_op is_lambda_op]. rewrite E1. cbn [bind]. rewrite E2. reflexivity. Qed.
Theorem c86_generator : forall n e,
  eval (S n) (node OGroupGenerator []) e = Ok (VGroup ggen, e) /\
  (forall m e1 x, eval n x e = Ok (VGlobal, e1) -> sm_code m = 106 -> sm_id m = 1 -> eval (S n) (EProp m x) e = Ok (VGroup ggen, e1)).
Proof.
  intros n e. split; [reflexivity|]. intros m e1 x E C I. rewrite (prop_step H sha fits avlv c n e e1 x m _ E) by lia.
  unfold method_value. rewrite C, I. reflexivity.
Qed.
(** Negation is the inverse. *)
Theorem c86_negate : group_ok G -> forall n e e1 x p m, eval n x e = Ok (VGroup p, e1) -> sm_code m = 7 -> sm_id m = 5 ->
  exists q, eval (S n) (EProp m x) e = Ok (VGroup q, e1) /\ gop q p = gid.
Proof.
  intros HG n e e1 x p m E C I. rewrite (prop_step H sha fits avlv c n e e1 x m _ E) by lia.
  unfold method_value. rewrite C, I. eexists. split; [reflexivity|]. apply (g_inv _ HG).
Qed.
(** The encoding has 33 bytes and decodes to the same element. *)
Theorem c86_encode_decode : group_ok G -> forall n e e1 x p m, eval n x e = Ok (VGroup p, e1) -> sm_code m = 7 -> sm_id m = 2 ->
  (exists l, eval (S n) (EProp m x) e = Ok (VBytes l, e1) /\ Zlen l = 33) /\
  eval (S (S n)) (node ODecodePoint [EProp m x]) e = Ok (VGroup p, e1).
Proof.
  intros HG n e e1 x p m E C I.
  assert (Q : eval (S n) (EProp m x) e = Ok (vbytes (ec_bytes p), e1)).
  { rewrite (prop_step H sha fits avlv c n e e1 x m _ E) by lia. unfold method_value. rewrite C, I.
    cbn [Z.eqb Pos.eqb group_method get_group bind]. rewrite ec_write_ok. reflexivity. }
  split.
  - rewrite Q. eexists. split; [reflexivity|]. unfold as_i8s, Zlen. rewrite map_length, (ec_bytes_len HG). reflexivity.
  - unfold node. remember (S n) as k. cbn [EvalModel.eval eval_step eval_op]. rewrite Q. cbn [bind op1 vbytes get_u8s get_i8s].
    assert (B : as_u8s (as_i8s (ec_bytes p)) = ec_bytes p).
    { apply u8s_i8s, (ec_bytes_ok HG). }
    rewrite B. rewrite <- (app_nil_r (ec_bytes p)), (ec_read_bytes HG). reflexivity.
Qed.
(** Hashes are those of the bytes. *)
Theorem c86_hashes : forall n e e1 x b l, eval n x e = Ok (VBytes l, e1) -> Forall u8 b -> Forall2 (signed 8) b l ->
  gives (eval (S n) (node OCalcBlake2b256 [x]) e) e1 (holds (H b)) /\
  gives (eval (S n) (node OCalcSha256 [x]) e) e1 (holds (sha b)).
Proof.
  intros n e e1 x b l E U F.
  assert (B : as_u8s l = b).
  { unfold as_u8s. clear - U F. induction F as [|a z b l [Ra [k ->]] _ IH]; cbn [map]; [reflexivity|].
    inversion U as [|? ? U1 U2]; subst. rewrite IH by exact U2. f_equal. unfold wrapu, u8 in *. rewrite Z.mod_add by lia. apply Z.mod_small. lia. }
  unfold gives, node. cbn [EvalModel.eval eval_step eval_op]. rewrite E. cbn [bind op1 get_u8s get_i8s]. rewrite B.
  split; eexists; (split; [reflexivity|]); apply holds_vbytes.
Qed.
(** Propositions about group elements: what proves them is a discrete logarithm. *)
Theorem c86_prove_dlog : forall n e e1 x p, eval n x e = Ok (VGroup p, e1) ->
  gives (eval (S n) (node OCreateProveDlog [x]) e) e1 (fun v => exists q, v = VSigma (SLeaf q) /\
    forall w, witness q w <-> p = gpow ggen w).
Proof.
  intros n e e1 x p E. unfold gives, node. cbn [EvalModel.eval eval_step eval_op]. rewrite E. cbn [bind op1 get_group].
  eexists. split; [reflexivity|]. eexists. split; [reflexivity|]. intros w. reflexivity.
Qed.
Theorem c86_prove_dh_tuple : forall n e e1 xg xh xu xv g h u v, evals n [xg; xh; xu; xv] e [VGroup g; VGroup h; VGroup u; VGroup v] e1 ->
  gives (eval (S n) (node OCreateProveDhTuple [xg; xh; xu; xv]) e) e1 (fun r => exists q, r = VSigma (SLeaf q) /\
    forall w, witness q w <-> u = gpow g w /\ v = gpow h w).
Proof.
  intros n e e1 xg xh xu xv g h u v E. repeat match goal with Q : evals _ _ _ _ _ |- _ => inversion Q; subst; clear Q end.
  unfold gives, node. cbn [EvalModel.eval eval_step eval_op]. unfold eval_dh_tuple, eval_as.
  repeat match goal with Q : EvalModel.eval _ _ _ _ _ _ _ _ = _ |- _ => rewrite Q; clear Q; cbn [bind get_group] end.
  eexists. split; [reflexivity|]. eexists. split; [reflexivity|]. intros w. reflexivity.
Qed.
(** Exclusive or of byte arrays: as long as the first, and equal to it beyond the end
    of the second. *)
Definition xored (a b r : list Z) : Prop := Zlen r = Zlen a /\ forall i x, at_ a i = Some x ->
  at_ r i = Some (match at_ b i with Some y => Z.lxor x y | None => x end).
Lemma helper_xored a : forall b, xored a b (helper_xor a b).
Proof.
  induction a as [|x a IH]; intros b.
  - split; [reflexivity|]. intros i y Q. rewrite at_nil in Q. discriminate.
  - destruct b as [|y b]; cbn [helper_xor].
    + split; [reflexivity|]. intros i z Q. rewrite at_nil. exact Q.
    + destruct (IH b) as [L A]. split; [rewrite !Zlen_cons; lia|]. intros i z Q. rewrite at_cons in Q |- *. rewrite at_cons.
      destruct (i =? 0); [injection Q as <-; reflexivity|]. apply A, Q.
Qed.
Theorem c86_xor : forall n e e1 e2 x y a b, eval n x e = Ok (VBytes a, e1) -> eval n y e1 = Ok (VBytes b, e2) ->
  gives (eval (S n) (node OXor [x; y]) e) e2 (fun v => exists r, v = VBytes r /\ xored a b r).
Proof.
  intros n e e1 e2 x y a b E1 E2. unfold gives, node. cbn [EvalModel.eval eval_step eval_op is_lambda_op]. rewrite E1. cbn [bind]. rewrite E2.
  eexists. split; [reflexivity|]. eexists. split; [reflexivity|apply helper_xored].
Qed.
(** The method of the global object has its operands the other way round. *)
Theorem c86_global_xor : forall n e e1 e2 e3 x y z a b m, eval n x e = Ok (VGlobal, e1) -> eval n y e1 = Ok (VBytes a, e2) ->
  eval n z e2 = Ok (VBytes b, e3) -> sm_code m = 106 -> sm_id m = 2 ->
  gives (eval (S n) (EMethod m x [y; z]) e) e3 (fun v => exists r, v = VBytes r /\ xored b a r).
Proof.
  intros n e e1 e2 e3 x y z a b m E1 E2 E3 C I. unfold gives. cbn [EvalModel.eval eval_step eval_list]. rewrite E1. cbn [bind]. rewrite E2. cbn [bind].
  rewrite E3. cbn [bind]. unfold eval_method, method_value. rewrite C, I. cbn. eexists. split; [reflexivity|].
  eexists. split; [reflexivity|apply helper_xored].
Qed.
(** So the order of the operands matters when their lengths differ. *)
Theorem c86_xor_symmetric_refuted :
  let lit l := EConst (MkConst (SColl SByte) (LCollBytes l)) : expr in
  eval 3 (node OXor [lit [1; 2]; lit [4]]) [] = Ok (VBytes [5; 2], []) /\
  eval 3 (node OXor [lit [4]; lit [1; 2]]) [] = Ok (VBytes [5], []).
Proof. split; reflexivity. Qed.
(** Bytes after a point are ignored, so decoding and encoding again is not the identity. *)
Theorem c86_decode_refuted : group_ok G -> forall p : G,
  let lit l := EConst (MkConst (SColl SByte) (LCollBytes l)) : expr in
  eval 3 (node ODecodePoint [lit (as_i8s (ec_bytes p ++ [7]))]) [] = eval 3 (node ODecodePoint [lit (as_i8s (ec_bytes p))]) [] /\
  eval 3 (node ODecodePoint [lit (as_i8s (ec_bytes p ++ [7]))]) [] = Ok (VGroup p, []).
Proof.
  intros HG p lit.
  assert (B : forall l, bytes_ok l -> as_u8s (as_i8s l) = l).
  { exact u8s_i8s. }
  unfold lit, node. cbn [EvalModel.eval eval_step eval_op c_val value_of_lit bind op1 get_u8s get_i8s].
  rewrite !B; [|apply (ec_bytes_ok HG)|unfold bytes_ok; apply Forall_app; split; [apply (ec_bytes_ok HG)|constructor; [unfold byte; lia|constructor]]].
  rewrite (ec_read_bytes HG). rewrite <- (app_nil_r (ec_bytes p)) at 1. rewrite (ec_read_bytes HG). split; reflexivity.
Qed.

(** ** C87: definitions and application of functions *)

(** [e'] is [e] with one binding replaced or added. *)
Definition binds (e : env) (i : Z) (v : value) (e' : env) : Prop :=
  forall j, env_get e' j = if j =? i then Some v else env_get e j.
(** The definitions of a block, one after the other. *)
Inductive defines (n : nat) : list expr -> env -> env -> Prop :=
| defines_nil e : defines n [] e e
| defines_cons i x xs e v e1 e2 e3 : eval n x e = Ok (v, e1) -> binds e1 i v e2 -> defines n xs e2 e3 -> defines n (EValDef i x :: xs) e e3.
Theorem c87_variable : forall n i t e v, env_get e i = Some v -> eval (S n) (EValUse i t) e = Ok (v, e).
Proof. intros n i t e v E. cbn [EvalModel.eval eval_step]. rewrite E. reflexivity. Qed.
Theorem c87_undefined : forall n i t e, env_get e i = None -> is_ok (eval n (EValUse i t) e) = false.
Proof. intros [|n] i t e E; [reflexivity|]. cbn [EvalModel.eval eval_step]. rewrite E. reflexivity. Qed.
Lemma binds_same e i v e2 f : binds e i v e2 -> same e f -> same e2 (env_insert f i v).
Proof. intros B S j. rewrite B, get_insert, Z.eqb_sym, S. reflexivity. Qed.
Lemma defines_same n xs e e3 : defines n xs e e3 -> forall f, same e f ->
  (exists f3, block_top (eval n) xs f = Ok f3 /\ same e3 f3) /\
  (forall fresh saved, exists f3 fresh' saved', block_nested (eval n) xs (f, fresh, saved) = Ok (f3, fresh', saved') /\ same e3 f3).
Proof.
  induction 1 as [e|i x xs e v e1 e2 e3 Ex B _ IH]; intros f S.
  - cbn [block_top block_nested]. split; eauto.
  - pose proof (eval_same H sha fits avlv c n x e f S) as Q. rewrite Ex in Q. cbn [block_top block_nested].
    destruct (eval n x f) as [[w f1]| |]; try contradiction. destruct Q as [<- S1]. cbn [bind].
    pose proof (binds_same _ _ _ _ _ B S1) as S2. destruct (IH _ S2) as [I1 I2]. split; [exact I1|]. intros fresh saved.
    unfold bind_var. destruct (env_get f1 i); apply I2.
Qed.
(** The result of a block is that of its last expression, where every definition is
    bound to the value of its right side. *)
Theorem c87_block : forall n xs r e e1 v e2, defines n xs e e1 -> eval n r e1 = Ok (v, e2) ->
  exists e3, eval (S n) (EBlock xs r) e = Ok (v, e3).
Proof.
  intros n xs r e e1 v e2 D R. destruct (defines_same n xs e e1 D e (same_refl e)) as [(f & E1 & S1) K].
  destruct (K [] []) as (f' & fr & sv & E2 & S2). cbn [EvalModel.eval eval_step]. unfold eval_block. destruct (env_is_empty e).
  - rewrite E1. cbn [bind]. pose proof (eval_same H sha fits avlv c n r _ _ S1) as Q. rewrite R in Q.
    destruct (eval n r f) as [[w f1]| |]; try contradiction. destruct Q as [<- _]. eauto.
  - match goal with |- context [block_nested ?r ?l ?q] => change (block_nested r l q) with (block_nested (eval n) xs (e, [], [] : env)) end.
    rewrite E2. cbn [bind]. pose proof (eval_same H sha fits avlv c n r _ _ S2) as Q. rewrite R in Q.
    destruct (eval n r f') as [[w f1]| |]; try contradiction. destruct Q as [<- _]. cbn [bind]. eauto.
Qed.

Definition call_env_is (params : list (Z * stype)) (vs : list value) (e2 e3 : env) : Prop :=
  (forall k i t v, nth_error params k = Some (i, t) -> nth_error vs k = Some v -> env_get e3 i = Some v) /\
  (forall i, ~ In i (map fst params) -> env_get e3 i = env_get e2 i).
Lemma bind_all params : forall vs e0 s B, NoDup (map fst params) -> List.length params = List.length vs ->
  (forall i, In i B -> ~ In i (map fst params)) -> frame e0 B s ->
  let s' := fold_left (fun s p => bind_var (fst p) (snd p) s) (combine (map fst params) vs) s in
  (exists B', frame e0 B' s' /\ forall i, In i B' <-> In i B \/ In i (map fst params)) /\
  call_env_is params vs (fst (fst s)) (fst (fst s')).
Proof.
  induction params as [|[i t] params IH]; intros [|v vs] e0 s B ND L D F; try discriminate; cbn [map combine fold_left fst snd] in *.
  - split; [exists B; split; [exact F|cbn; tauto]|]. split; [intros [|k] ? ? ? Q; discriminate|reflexivity].
  - inversion ND as [|? ? Ni ND']; subst. injection L as L.
    assert (Fr : frame e0 (i :: B) (bind_var i v s)) by (apply (frame_bind H sha fits); [intros I; exact (D i I (or_introl eq_refl))|exact F]).
    assert (D' : forall j, In j (i :: B) -> ~ In j (map fst params)).
    { intros j [->|I] Q; [tauto|]. exact (D j I (or_intror Q)). }
    destruct (IH vs e0 (bind_var i v s) (i :: B) ND' L D' Fr) as [(B' & F' & M) [C1 C2]].
    assert (E1 : fst (fst (bind_var i v s)) = env_insert (fst (fst s)) i v).
    { destruct s as [[e fr] sv]. unfold bind_var. destruct (env_get e i); reflexivity. }
    split; [exists B'; split; [exact F'|intros j; rewrite M; cbn; tauto]|]. split.
    + intros [|k] j u w Q1 Q2; cbn [nth_error] in *; [|eapply C1; eauto]. injection Q1 as <- <-. injection Q2 as <-.
      rewrite C2 by exact Ni. rewrite E1, get_insert, Z.eqb_refl. reflexivity.
    + intros j J. rewrite C2 by (intros Q; apply J; now right). rewrite E1, get_insert. destruct (Z.eqb_spec i j); [|reflexivity]. exfalso. apply J. now left.
Qed.
(** The body of the function is evaluated where the parameters are bound to the
    arguments and everything else is as at the call; afterwards the parameters have
    their former values. *)
Theorem c87_apply : forall n f args params body vs e e1 e2 e3,
  eval n f e = Ok (VLambda params body, e1) -> evals n args e1 vs e2 -> NoDup (map fst params) -> List.length params = List.length vs ->
  call_env_is params vs e2 e3 ->
  (forall v e4, eval n body e3 = Ok (v, e4) -> exists e5, eval (S n) (EApply f args) e = Ok (v, e5) /\
     (forall i, In i (map fst params) -> env_get e5 i = env_get e2 i) /\ (forall i, ~ In i (map fst params) -> env_get e5 i = env_get e4 i)) /\
  (is_ok (eval n body e3) = false -> is_ok (eval (S n) (EApply f args) e) = false).
Proof.
  intros n f args params body vs e e1 e2 e3 Ef Ea ND L C. apply evals_list in Ea.
  destruct (bind_all params vs e2 (e2, [], []) [] ND L (fun i I => match I with end) (frame_start e2)) as [(B & F & M) C'].
  cbn [EvalModel.eval eval_step]. unfold eval_apply. rewrite Ef. cbn [bind]. rewrite Ea. cbn [bind].
  destruct (fold_left _ _ _) as [[f3 fresh] saved] eqn:Es. cbn [fst] in C', F.
  assert (S3 : same e3 f3).
  { intros i. destruct C as [P1 P2], C' as [Q1 Q2]. destruct (in_dec Z.eq_dec i (map fst params)) as [I|I]; [|now rewrite P2, Q2].
    apply In_nth_error in I as [k K]. rewrite nth_error_map in K. destruct (nth_error params k) as [[j t]|] eqn:N; [|discriminate].
    injection K as ->. destruct (nth_error vs k) as [v|] eqn:V.
    - rewrite (P1 _ _ _ _ N V), (Q1 _ _ _ _ N V). reflexivity.
    - apply nth_error_None in V. assert (k < List.length params)%nat by (apply nth_error_Some; congruence). lia. }
  pose proof (eval_same H sha fits avlv c n body e3 f3 S3) as Q. split.
  - intros v e4 R. rewrite R in Q. destruct (eval n body f3) as [[w f4]| |]; try contradiction. destruct Q as [<- S4]. cbn [bind].
    eexists. split; [reflexivity|]. destruct F as [F1 F2]. split; intros i I; rewrite get_restore.
    + assert (IB : In i B) by (apply M; now right). destruct (F2 i IB) as [-> W]. destruct (env_get e2 i); [reflexivity|].
      assert (existsb (Z.eqb i) fresh = true) as ->; [|reflexivity]. apply existsb_exists. exists i. split; [auto|apply Z.eqb_refl].
    + assert (IB : ~ In i B) by (intros IB; apply M in IB; cbn in IB; tauto). destruct (F1 i IB) as (_ & -> & W).
      assert (existsb (Z.eqb i) fresh = false) as ->; [|symmetry; apply S4].
      apply not_true_is_false. intros X. apply existsb_exists in X as (k & K & X). apply Z.eqb_eq in X. now subst k.
  - intros R. destruct (eval n body e3) as [[v e4]| |]; [discriminate| |]; destruct (eval n body f3) as [[w f4]| |]; try contradiction; reflexivity.
Qed.
(** The number of arguments is not checked: a call with too few of them succeeds if
    the others are not used. *)
Theorem c87_arity_refuted : exists f : expr, tpe f = SFunc [SInt; SInt] SInt /\
  eval 3 (EApply f [EConst (MkConst SInt (LInt 4))]) [] = Ok (VInt 4, []).
Proof. exists (EFunc [(1, SInt); (2, SInt)] (EValUse 1 SInt)). split; reflexivity. Qed.

(** ** C88: substitution of constants *)

(** Every box in the value has the identifier of its bytes. *)
Fixpoint real_boxes (v : value) : Prop :=
  match v with
  | VBox (i, b) => box_id H b = Ok i
  | VColl _ l | VTup l => (fix go l := match l with [] => True | x :: l' => real_boxes x /\ go l' end) l
  | VOpt (Some x) => real_boxes x
  | _ => True
  end.
Lemma consts_of_values l : Forall (fun v => forall t k, typed_lit v = Ok (t, k) -> real_boxes v -> value_of_lit H k = v) l ->
  forall r, EvalModel.consts_of typed_lit l = Ok r ->
  (fix go l := match l with [] => True | x :: l' => real_boxes x /\ go l' end) l -> map (value_of_lit H) (map snd r) = l.
Proof.
  induction 1 as [|x l Px _ IH]; intros r E R; cbn in E.
  - injection E as <-. reflexivity.
  - inv_bind E. inv_bind E. injection E as <-. cbn [map]. destruct R as [R1 R2]. destruct b as [t k]. cbn [snd].
    rewrite (Px _ _ Eb R1), (IH _ Eb0 R2). reflexivity.
Qed.
Lemma const_value v t k : typed_lit v = Ok (t, k) -> real_boxes v -> value_of_lit H k = v.
Proof.
  revert t k. induction v as [u l IH|l IH|o IH|v N1 N2 N3] using value_ind'; intros t k E R.
  - cbn [typed_lit] in E. inv_bind E. injection E as <- <-. cbn [value_of_lit]. f_equal. eapply consts_of_values; eauto.
  - cbn [typed_lit] in E. inv_bind E. injection E as <- <-. cbn [value_of_lit]. f_equal. eapply consts_of_values; eauto.
  - destruct o as [x|]; cbn [typed_lit] in E; [|discriminate]. inv_bind E. destruct b as [u m]. injection E as <- <-.
    cbn [value_of_lit]. do 2 f_equal. eapply IH; eauto.
  - destruct v; try (exfalso; eapply N1; reflexivity); try (exfalso; eapply N2; reflexivity); try (exfalso; eapply N3; reflexivity);
      cbn [typed_lit] in E; try discriminate; injection E as <- <-; try reflexivity.
    destruct b as [i b]. cbn in R |- *. rewrite R. reflexivity.
Qed.

(** The last entry for a position. *)
Fixpoint latest {A} (l : list (Z * A)) (i : Z) : option A :=
  match l with
  | [] => None
  | (p, k) :: l' => match latest l' i with Some k' => Some k' | None => if p =? i then Some k else None end
  end.
Lemma at_list_set {A} (l : list A) : forall i x j, at_ (list_set l i x) j = if j =? Z.of_nat i then option_map (fun _ => x) (at_ l j) else at_ l j.
Proof.
  induction l as [|y l IH]; intros i x j.
  - destruct i; cbn [list_set]; rewrite !at_nil; now destruct (_ =? _).
  - destruct i as [|i]; cbn [list_set]; rewrite !at_cons.
    + change (Z.of_nat 0) with 0. destruct (j =? 0); reflexivity.
    + rewrite IH. destruct (Z.eqb_spec j 0) as [->|N].
      * destruct (Z.eqb_spec 0 (Z.of_nat (S i))); [lia|reflexivity].
      * destruct (Z.eqb_spec (j - 1) (Z.of_nat i)); destruct (Z.eqb_spec j (Z.of_nat (S i))); try lia; reflexivity.
Qed.
Lemma set_types (cs : list (const G)) : forall i k old, nth_error cs i = Some old -> c_tpe k = c_tpe old ->
  map c_tpe (list_set cs i k) = map c_tpe cs.
Proof.
  induction cs as [|y cs IH]; intros [|i] k old E T; try discriminate; cbn [list_set map nth_error] in *.
  - injection E as ->. now rewrite T.
  - f_equal. eapply IH; eauto.
Qed.
Lemma subst_all_ok l : forall h (cs : list (const G)) root t', Forall (fun p => 0 <= fst p) l ->
  subst_all (Parsed h cs root) (Zlen cs) l = Ok t' ->
  exists cs', t' = Parsed h cs' root /\ map c_tpe cs' = map c_tpe cs /\
    (forall p k, In (p, k) l -> p < Zlen cs /\ option_map c_tpe (at_ cs p) = Some (c_tpe k)) /\
    forall i, at_ cs' i = match at_ cs i, latest l i with Some _, Some k => Some k | o, _ => o end.
Proof.
  induction l as [|[p k] l IH]; intros h cs root t' P E; cbn [subst_all] in E.
  - injection E as <-. exists cs. split; [reflexivity|]. split; [reflexivity|]. split; [intros ? ? []|]. intros i. cbn [latest]. now destruct (at_ cs i).
  - inversion P as [|? ? P1 P2]; subst. cbn [fst] in P1. destruct (Z.ltb_spec p (Zlen cs)) as [B|]; [|discriminate]. inv_bind E.
    unfold with_constant in Eb. destruct (nth_error cs (Z.to_nat p)) as [old|] eqn:En; [|discriminate].
    destruct (stype_eqb (c_tpe k) (c_tpe old)) eqn:Et; [|discriminate]. injection Eb as <-. apply stype_eqb_eq in Et.
    pose proof (set_types _ _ k _ En Et) as Ts.
    assert (Ls : Zlen (list_set cs (Z.to_nat p) k) = Zlen cs).
    { apply (f_equal (@List.length _)) in Ts. rewrite !map_length in Ts. unfold Zlen. now rewrite Ts. }
    rewrite <- Ls in E. destruct (IH _ _ _ _ P2 E) as (cs' & -> & T' & In' & At').
    assert (At : at_ cs p = Some old) by (unfold at_; destruct (Z.ltb_spec p 0); [lia|exact En]).
    exists cs'. split; [reflexivity|]. split; [congruence|]. split.
    + intros q m [Q|Q]; [injection Q as <- <-; rewrite At; split; [exact B|cbn; congruence]|].
      destruct (In' q m Q) as [B' O]. rewrite Ls in B'. split; [exact B'|]. rewrite <- at_map in O |- *. now rewrite Ts in O.
    + intros i. rewrite At'. cbn [latest]. rewrite at_list_set. rewrite Z2Nat.id by lia.
      destruct (Z.eqb_spec i p) as [->|N].
      * rewrite At. cbn [option_map]. rewrite Z.eqb_refl. destruct (latest l p); reflexivity.
      * destruct (Z.eqb_spec p i); [congruence|]. destruct (at_ cs i); [|reflexivity]. destruct (latest l i); reflexivity.
Qed.
Lemma latest_in {A} (l : list (Z * A)) i k : latest l i = Some k -> In (i, k) l.
Proof.
  induction l as [|[p m] l IH]; cbn [latest]; [discriminate|]. destruct (latest l i); [intros E; right; apply IH; congruence|].
  destruct (Z.eqb_spec p i); [|discriminate]. intros [= ->]. subst. now left.
Qed.
Lemma subst_all_fails l : forall (t : tree G) n, (exists p k, In (p, k) l /\ n <= p) -> is_ok (subst_all t n l) = false.
Proof.
  induction l as [|[q m] l IH]; intros t n (p & k & I & B); [destruct I|]. cbn [subst_all]. destruct (Z.ltb_spec q n); [|reflexivity].
  destruct (with_constant t (Z.to_nat q) m); cbn [bind]; try reflexivity. apply IH. destruct I as [[= -> ->]|I]; [lia|eauto].
Qed.
Lemma forall2_length {A B} (R : A -> B -> Prop) l m : Forall2 R l m -> List.length l = List.length m.
Proof. induction 1; cbn; congruence. Qed.
Lemma get_ints t ps : get_vec get_int (VColl t (map (@VInt G) ps)) = Ok ps.
Proof. cbn [get_vec]. induction ps as [|p ps IH]; cbn [map get_all]; [reflexivity|]. cbn [get_int bind]. rewrite IH. reflexivity. Qed.
Lemma get_all_2 {A} (f : value -> res A) l : forall r, get_all f l = Ok r -> Forall2 (fun v k => f v = Ok k) l r.
Proof.
  induction l as [|x l IH]; intros r E; cbn [get_all] in E; [injection E as <-; constructor|]. inv_bind E. inv_bind E. injection E as <-. constructor; auto.
Qed.
Lemma latest_last {A} (ps : list Z) : forall (ks : list A) j p, at_ ps j = Some p -> (forall j', j < j' -> at_ ps j' <> Some p) ->
  forall k, at_ ks j = Some k -> latest (combine ps ks) p = Some k.
Proof.
  induction ps as [|q ps IH]; intros ks j p Aj L k K; [rewrite at_nil in Aj; discriminate|].
  destruct ks as [|k0 ks]; [rewrite at_nil in K; discriminate|]. cbn [combine latest]. rewrite at_cons in Aj. rewrite at_cons in K.
  destruct (Z.eqb_spec j 0) as [->|N].
  - injection Aj as ->. injection K as ->. destruct (latest (combine ps ks) p) as [k'|] eqn:Lt; [|now rewrite Z.eqb_refl].
    apply latest_in, in_combine_l, In_nth_error in Lt as [n Q]. exfalso. apply (L (Z.of_nat n + 1)); [lia|].
    rewrite at_cons. replace (Z.of_nat n + 1 =? 0) with false by lia. unfold at_. replace (Z.of_nat n + 1 - 1 <? 0) with false by lia.
    replace (Z.to_nat (Z.of_nat n + 1 - 1)) with n by lia. exact Q.
  - rewrite (IH ks (j - 1) p Aj) with (k := k); [reflexivity| |exact K]. intros j' J Q. apply (L (j' + 1)); [lia|].
    assert (j' <> -1) by (intros ->; discriminate Q).
    rewrite at_cons. destruct (Z.eqb_spec (j' + 1) 0); [lia|]. replace (j' + 1 - 1) with j' by lia. exact Q.
Qed.

Section Subst.
Variables (n : nat) (e e1 e2 e3 : env) (xs xp xv : expr) (b : bytes) (h : theader) (cs : list (const G)) (root : expr) (ps : list Z) (vs : list value) (t u : stype).
Hypothesis Es : eval n xs e = Ok (vbytes b, e1).
Hypothesis Bb : bytes_ok b.
Hypothesis Ep : eval n xp e1 = Ok (VColl t (map VInt ps), e2).
Hypothesis Ev : eval n xv e2 = Ok (VColl u vs, e3).
Hypothesis Eb : tree_of_bytes b = Ok (Parsed h cs root).
Hypothesis Ip : Forall (fun p => - 2 ^ 31 <= p < 2 ^ 31) ps.
Hypothesis Lc : Zlen cs < 2 ^ 31.
Notation result := (eval (S n) (node OSubstConstants [xs; xp; xv]) e).
Lemma subst_step : result = (ks <- get_all const_of_value vs ;;
  if negb (Zlen ks =? Zlen ps) then Err "lengths differ"
  else t <- subst_all (Parsed h cs root) (Zlen cs) (combine (map as_usize ps) ks) ;; s <- ser_tree t ;; Ok (vbytes s, e3)).
Proof.
  unfold node. cbn [EvalModel.eval eval_step eval_op is_lambda_op]. rewrite Es. cbn [bind]. rewrite Ep. cbn [bind]. rewrite Ev. cbn [bind op3].
  unfold subst_constants. rewrite get_ints. cbn [bind]. destruct (get_all const_of_value vs) as [ks| |]; cbn [bind]; try reflexivity.
  replace (Zlen (map as_usize ps)) with (Zlen ps) by (unfold Zlen; now rewrite map_length).
  destruct (negb (Zlen ks =? Zlen ps)); [reflexivity|]. unfold vbytes at 1. cbv iota beta. rewrite u8s_i8s by exact Bb. rewrite Eb. cbn [bind get_constants].
  destruct (subst_all _ _ _) as [t'| |]; cbn [bind]; try reflexivity. destruct (ser_tree t'); reflexivity.
Qed.
(** What a successful substitution returns: the bytes of the script that differs in
    the constants at the given positions, which are the given values; header, root
    and the types of the constants are the same. *)
Theorem c88_substitute : forall r e4, result = Ok (r, e4) ->
  e4 = e3 /\ Zlen vs = Zlen ps /\ exists cs' s, holds s r /\ ser_tree (Parsed h cs' root) = Ok s /\
    map c_tpe cs' = map c_tpe cs /\
    (forall i, ~ In i ps -> at_ cs' i = at_ cs i) /\
    (forall j p v, at_ ps j = Some p -> (forall j', j < j' -> at_ ps j' <> Some p) -> at_ vs j = Some v ->
       exists k, at_ cs' p = Some k /\ (real_boxes v -> forall m e', eval (S m) (EConst k) e' = Ok (v, e'))) /\
    (forall st', group_ok G -> ok_tree fresh (Parsed h cs' root) st' -> tree_of_bytes s = Ok (Parsed h cs' root)).
Proof.
  intros r e4 E. rewrite subst_step in E. inv_bind E. rename b0 into ks. rename Eb0 into Ek.
  destruct (Z.eqb_spec (Zlen ks) (Zlen ps)) as [L|]; [|discriminate]. cbn [negb] in E. inv_bind E. inv_bind E. injection E as <- <-.
  apply get_all_2 in Ek. assert (Lk : Zlen vs = Zlen ks) by (unfold Zlen; f_equal; eapply forall2_length; eauto).
  split; [reflexivity|]. split; [lia|].
  apply subst_all_ok in Eb0.
  2: { apply Forall_forall. intros [p k] I. apply in_combine_l, in_map_iff in I as (q & <- & _). cbn [fst]. unfold as_usize, wrapu. apply Z.mod_pos_bound. lia. }
  destruct Eb0 as (cs' & -> & T & Inn & At). exists cs'. eexists. split; [apply holds_vbytes|]. split; [exact Eb1|]. split; [exact T|].
  assert (Pos : forall p, In p ps -> as_usize p < Zlen cs -> as_usize p = p).
  { intros p I B. rewrite Forall_forall in Ip. pose proof (Ip p I). destruct (Z_lt_le_dec p 0); [|apply as_usize_pos; lia].
    pose proof (as_usize_neg p). lia. }
  assert (Full : map as_usize ps = ps).
  { assert (A : forall p, In p ps -> as_usize p < Zlen cs).
    { intros p I. apply In_nth_error in I as [j J].
      destruct (nth_error ks j) as [k|] eqn:K.
      - apply (Inn (as_usize p) k). clear - J K. revert ps ks J K. induction j as [|j IH]; intros [|q ps] [|m ks] J K; try discriminate; cbn [nth_error map combine] in *.
        + injection J as ->. injection K as ->. now left.
        + right. auto.
      - apply nth_error_None in K. assert (j < List.length ps)%nat by (apply nth_error_Some; congruence). unfold Zlen in L. lia. }
    rewrite <- (map_id ps) at 2. apply map_ext_in. intros p I. auto. }
  rewrite Full in At, Inn. split; [|split].
  - intros i I. rewrite At. destruct (at_ cs i); [|reflexivity]. destruct (latest (combine ps ks) i) eqn:Q; [|reflexivity].
    apply latest_in, in_combine_l in Q. tauto.
  - intros j p v J La V. assert (exists k, at_ ks j = Some k /\ const_of_value v = Ok k) as (k & K & Kv).
    { clear - V Ek. unfold at_ in *. destruct (j <? 0); [discriminate|]. revert V. generalize (Z.to_nat j). induction Ek as [|x y l l' Q _ IH]; intros [|m] V; try discriminate; cbn [nth_error] in *; [|eauto].
      injection V as ->. eauto. }
    pose proof (latest_last ps ks j p J La k K) as Q. destruct (Inn p k (latest_in _ _ _ Q)) as [_ O].
    exists k. split.
    + rewrite At, Q. destruct (at_ cs p); [reflexivity|discriminate].
    + intros R m e'. unfold const_of_value in Kv. destruct (typed_lit v) as [[w q]| |] eqn:Ew; try discriminate. cbn [bind] in Kv. injection Kv as <-. cbn [EvalModel.eval eval_step c_val].
      rewrite (const_value v w q Ew R). reflexivity.
  - intros st' HG O. destruct (c25_written_partial G HG _ _ O) as (s' & W & R & _). rewrite Eb1 in W. injection W as <-. exact R.
Qed.
(** Positions that do not exist and values of another type are refused. *)
Theorem c88_refused :
  (Zlen vs <> Zlen ps -> is_ok result = false) /\
  ((exists p, In p ps /\ ~ 0 <= p < Zlen cs) -> is_ok result = false) /\
  (forall j p v k, at_ ps j = Some p -> at_ vs j = Some v -> const_of_value v = Ok k ->
    option_map c_tpe (at_ cs p) <> Some (c_tpe k) -> is_ok result = false).
Proof.
  assert (K : forall r e4, result = Ok (r, e4) -> exists ks cs', Forall2 (fun v k => const_of_value v = Ok k) vs ks /\ Zlen ks = Zlen ps /\
     subst_all (Parsed h cs root) (Zlen cs) (combine (map as_usize ps) ks) = Ok cs').
  { intros r e4 E. rewrite subst_step in E. inv_bind E. destruct (Z.eqb_spec (Zlen b0) (Zlen ps)); [|discriminate]. cbn [negb] in E. inv_bind E.
    exists b0. eexists. split; [now apply get_all_2|]. eauto. }
  assert (W : forall j p (ks : list (const G)), Zlen ks = Zlen ps -> at_ ps j = Some p -> exists k, at_ ks j = Some k /\ In (as_usize p, k) (combine (map as_usize ps) ks)).
  { clear. intros j p ks L J. unfold at_ in *. destruct (j <? 0); [discriminate|]. unfold Zlen in L. revert ps ks L J. generalize (Z.to_nat j).
    induction n as [|m IH]; intros [|q ps] [|k ks] L J; try discriminate; try (cbn in L; lia); cbn [nth_error map combine] in *.
    - injection J as ->. exists k. split; [reflexivity|now left].
    - destruct (IH ps ks) as (k' & A & B); [cbn in L; lia|exact J|]. exists k'. split; [exact A|now right]. }
  assert (P0 : forall ks : list (const G), Forall (fun p => 0 <= fst p) (combine (map as_usize ps) ks)).
  { intros ks. apply Forall_forall. intros [p k] I. apply in_combine_l, in_map_iff in I as (q & <- & _). cbn [fst]. unfold as_usize, wrapu. apply Z.mod_pos_bound. lia. }
  split; [|split].
  - intros N. destruct result as [[r e4]| |] eqn:E; try reflexivity. destruct (K r e4 eq_refl) as (ks & cs' & F & L & _). exfalso. apply N.
    rewrite <- L. unfold Zlen. f_equal. eapply forall2_length; eauto.
  - intros (p & I & B). destruct result as [[r e4]| |] eqn:E; try reflexivity. destruct (K r e4 eq_refl) as (ks & cs' & F & L & Q).
    apply In_nth_error in I as [j J]. destruct (W (Z.of_nat j) p ks L) as (k & _ & Ik).
    { unfold at_. replace (Z.of_nat j <? 0) with false by lia. rewrite Nat2Z.id. exact J. }
    apply nth_error_In in J. rewrite Forall_forall in Ip. pose proof (Ip p J) as Rp.
    assert (is_ok (subst_all (Parsed h cs root) (Zlen cs) (combine (map as_usize ps) ks)) = false).
    { apply subst_all_fails. exists (as_usize p), k. split; [exact Ik|]. destruct (Z_lt_le_dec p 0); [pose proof (as_usize_neg p); lia|]. rewrite as_usize_pos by lia. lia. }
    rewrite Q in H0. discriminate.
  - intros j p v k J V Kv N. destruct result as [[r e4]| |] eqn:E; try reflexivity. destruct (K r e4 eq_refl) as (ks & cs' & F & L & Q).
    destruct (W j p ks L J) as (k' & Kj & Ik).
    assert (k' = k) as ->.
    { unfold at_ in *. destruct (j <? 0); [discriminate|]. clear - F V Kj Kv. revert V Kj. generalize (Z.to_nat j). induction F as [|x y l l' Q _ IH]; intros [|m] V Kj; try discriminate; cbn [nth_error] in *; [|eauto]. congruence. }
    destruct (subst_all_ok _ _ _ _ _ (P0 ks) Q) as (cs2 & _ & _ & Inn & _). destruct (Inn _ _ Ik) as [B O]. exfalso. apply N.
    assert (Ij : In p ps) by (unfold at_ in J; destruct (j <? 0); [discriminate|]; eapply nth_error_In; eauto).
    rewrite Forall_forall in Ip. pose proof (Ip p Ij). destruct (Z_lt_le_dec p 0) as [Q0|Q0]; [pose proof (as_usize_neg p); lia|]. now rewrite as_usize_pos in O by lia.
Qed.
End Subst.

(** ** C89: variables of the context *)

(** A variable read with its own type is the constant; with another type the script
    fails; a missing variable is no value. *)
Theorem c89_get_var : forall n e id t,
  (forall k, ext_get (c_ext c) id = Some k -> c_tpe k = t -> exists v, eval (S n) (EOp OGetVar (PU8Type id t) [] None) e = Ok (VOpt (Some v), e) /\
     forall m e', eval (S m) (EConst k) e' = Ok (v, e')) /\
  (forall k, ext_get (c_ext c) id = Some k -> c_tpe k <> t -> is_ok (eval n (EOp OGetVar (PU8Type id t) [] None) e) = false) /\
  (ext_get (c_ext c) id = None -> eval (S n) (EOp OGetVar (PU8Type id t) [] None) e = Ok (VOpt None, e)).
Proof.
  intros n e id t. repeat split.
  - intros k K T. cbn [EvalModel.eval eval_step eval_op op0]. rewrite K. rewrite (proj2 (stype_eqb_eq _ _) T). cbn [bind].
    eexists. split; [reflexivity|]. reflexivity.
  - intros k K T. destruct n as [|n]; [reflexivity|]. cbn [EvalModel.eval eval_step eval_op op0]. rewrite K.
    destruct (stype_eqb (c_tpe k) t) eqn:Q; [apply stype_eqb_eq in Q; contradiction|reflexivity].
  - intros K. cbn [EvalModel.eval eval_step eval_op op0]. rewrite K. reflexivity.
Qed.
(** The script stored in a variable or register, as bytes: it is evaluated in place if
    it has the declared type, and nothing else is ever evaluated. *)
Definition stored (k : const G) (b : bytes) : Prop :=
  c_tpe k = SColl SByte /\ exists l, c_val k = LCollBytes l /\ Forall2 (signed 8) b l /\ bytes_ok b.
Lemma stored_script k b : stored k b -> script_const k = Ok b.
Proof.
  intros (T & l & V & F & U). unfold script_const. rewrite T, V. cbn [stype_eqb cbyte]. replace (stype_eqb (SColl SByte) cbyte) with true by reflexivity. f_equal.
  unfold as_u8s. clear - F U. induction F as [|a z b l [Ra [q ->]] _ IH]; cbn [map]; [reflexivity|].
  inversion U as [|? ? U1 U2]; subst. rewrite IH by exact U2. f_equal. unfold wrapu, byte in *. rewrite Z.mod_add by lia. apply Z.mod_small. lia.
Qed.
Theorem c89_execute_var : forall n e id t k b, ext_get (c_ext c) id = Some k -> stored k b ->
  (forall x : expr, from_bytes parse_expr b = Ok x -> tpe x = t -> eval (S n) (EOp ODeserializeContext (PTypeU8 t id) [] None) e = eval n x e) /\
  (forall x : expr, from_bytes parse_expr b = Ok x -> tpe x <> t -> is_ok (eval n (EOp ODeserializeContext (PTypeU8 t id) [] None) e) = false) /\
  (is_ok (from_bytes (@parse_expr G) b) = false -> is_ok (eval n (EOp ODeserializeContext (PTypeU8 t id) [] None) e) = false).
Proof.
  intros n e id t k b K S. apply stored_script in S. repeat split.
  - intros x P T. cbn [EvalModel.eval eval_step eval_op]. unfold eval_deser_context. rewrite K, S. cbn [bind]. rewrite P. cbn [bind].
    rewrite (proj2 (stype_eqb_eq _ _) T). reflexivity.
  - intros x P T. destruct n as [|n]; [reflexivity|]. cbn [EvalModel.eval eval_step eval_op]. unfold eval_deser_context. rewrite K, S. cbn [bind]. rewrite P. cbn [bind].
    destruct (stype_eqb (tpe x) t) eqn:Q; [apply stype_eqb_eq in Q; contradiction|reflexivity].
  - intros P. destruct n as [|n]; [reflexivity|]. cbn [EvalModel.eval eval_step eval_op]. unfold eval_deser_context. rewrite K, S. cbn [bind].
    destruct (from_bytes (@parse_expr G) b); [discriminate|reflexivity|reflexivity].
Qed.
Theorem c89_execute_register : forall n e id t d k b, 0 <= id <= 9 -> get_register (snd (c_self c)) id = Ok (Some k) -> stored k b ->
  (forall x : expr, from_bytes parse_expr b = Ok x -> tpe x = t -> eval (S n) (EOp ODeserializeRegister (PU8Type id t) [] d) e = eval n x e) /\
  (forall x : expr, from_bytes parse_expr b = Ok x -> tpe x <> t -> is_ok (eval n (EOp ODeserializeRegister (PU8Type id t) [] d) e) = false) /\
  (is_ok (from_bytes (@parse_expr G) b) = false -> is_ok (eval n (EOp ODeserializeRegister (PU8Type id t) [] d) e) = false).
Proof.
  intros n e id t d k b B K S. apply stored_script in S.
  assert (I : reg_id_of_u8 id = Ok id).
  { unfold reg_id_of_u8, reg_id_of_i8. rewrite wraps_id by lia. replace ((0 <=? id) && (id <=? 9)) with true by lia. reflexivity. }
  repeat split.
  - intros x P T. cbn [EvalModel.eval eval_step eval_op]. unfold eval_deser_register. rewrite I. cbn [bind]. rewrite K, S. cbn [bind]. rewrite P. cbn [bind].
    rewrite (proj2 (stype_eqb_eq _ _) T). reflexivity.
  - intros x P T. destruct n as [|n]; [reflexivity|]. cbn [EvalModel.eval eval_step eval_op]. unfold eval_deser_register. rewrite I. cbn [bind]. rewrite K, S. cbn [bind]. rewrite P. cbn [bind].
    destruct (stype_eqb (tpe x) t) eqn:Q; [apply stype_eqb_eq in Q; contradiction|]. destruct (pretty_print x); reflexivity.
  - intros P. destruct n as [|n]; [reflexivity|]. cbn [EvalModel.eval eval_step eval_op]. unfold eval_deser_register. rewrite I. cbn [bind]. rewrite K, S. cbn [bind].
    destruct (from_bytes (@parse_expr G) b); [discriminate|reflexivity|reflexivity].
Qed.
(** Without a value the default, if there is one of the declared type, is evaluated. *)
Theorem c89_register_default : forall n e id t d, 0 <= id <= 9 -> get_register (snd (c_self c)) id = Ok None ->
  (forall x, d = Some x -> tpe x = t -> eval (S n) (EOp ODeserializeRegister (PU8Type id t) [] d) e = eval n x e) /\
  (d = None -> is_ok (eval n (EOp ODeserializeRegister (PU8Type id t) [] d) e) = false).
Proof.
  intros n e id t d B K.
  assert (I : reg_id_of_u8 id = Ok id).
  { unfold reg_id_of_u8, reg_id_of_i8. rewrite wraps_id by lia. replace ((0 <=? id) && (id <=? 9)) with true by lia. reflexivity. }
  split.
  - intros x -> T. cbn [EvalModel.eval eval_step eval_op]. unfold eval_deser_register. rewrite I. cbn [bind]. rewrite K. unfold eval_default.
    rewrite (proj2 (stype_eqb_eq _ _) T). reflexivity.
  - intros ->. destruct n as [|n]; [reflexivity|]. cbn [EvalModel.eval eval_step eval_op]. unfold eval_deser_register. rewrite I. cbn [bind]. rewrite K. reflexivity.
Qed.
(** So a script written to bytes and stored in a variable gives what the script itself
    gives. *)
Theorem c89_written_script : group_ok G -> forall n e id x st', ok_expr false fresh x st' ->
  exists b, ser_expr_bytes x = Ok b /\ forall k, ext_get (c_ext c) id = Some k -> stored k b ->
    eval (S n) (EOp ODeserializeContext (PTypeU8 (tpe x) id) [] None) e = eval n x e.
Proof.
  intros HG n e id x st' O. destruct (c22_expr_roundtrip G HG fresh x st' O) as (b & W & _ & R). exists b. split; [exact W|].
  intros k K S. apply (c89_execute_var n e id (tpe x) k b K S); [|reflexivity]. unfold from_bytes. specialize (R []). rewrite app_nil_r in R. rewrite R. reflexivity.
Qed.
End Ops.
Print Assumptions c84_booleans.
Print Assumptions c84_negation.
Print Assumptions c84_binary.
Print Assumptions c84_sigma_and.
Print Assumptions c84_sigma_or.
Print Assumptions c84_at_least_partial.
Print Assumptions c84_bool_to_sigma.
Print Assumptions c84_at_least_refuted.
Print Assumptions c85_option.
Print Assumptions c85_option_map.
Print Assumptions c85_option_filter.
Print Assumptions c85_tuple.
Print Assumptions c85_select.
Print Assumptions c86_exponentiate.
Print Assumptions c86_multiply.
Print Assumptions c86_generator.
Print Assumptions c86_negate.
Print Assumptions c86_encode_decode.
Print Assumptions c86_hashes.
Print Assumptions c86_prove_dlog.
Print Assumptions c86_prove_dh_tuple.
Print Assumptions c86_xor.
Print Assumptions c86_global_xor.
Print Assumptions c86_xor_symmetric_refuted.
Print Assumptions c86_decode_refuted.
Print Assumptions c87_variable.
Print Assumptions c87_undefined.
Print Assumptions c87_block.
Print Assumptions c87_apply.
Print Assumptions c87_arity_refuted.
Print Assumptions c88_substitute.
Print Assumptions c88_refused.
Print Assumptions c89_get_var.
Print Assumptions c89_execute_var.
Print Assumptions c89_execute_register.
Print Assumptions c89_register_default.
Print Assumptions c89_written_script.

(** ** The hypotheses are met; what does not hold *)
Section Met.
Context {G : group}.
Variables H sha : bytes -> bytes.
Variable fits : Z -> bool.
Variable avlv : avl_verifier.
Variable c : context G (chain_state G).
Notation expr := (expr G).
Notation eval := (eval H sha fits avlv c).
Definition int_ (z : Z) : expr := EConst (MkConst SInt (LInt z)).
Definition sig_ (s : sbool G) : expr := EConst (MkConst SSigmaProp (LSigma s)).

Example c84_hyps_met : forall p q r : leaf G, exists s,
  eval 4 (node OAtleast [int_ 2; ESeq (QColl SSigmaProp) [sig_ (SLeaf p); sig_ (SLeaf q); ESeq QSigmaOr [sig_ (SLeaf p); sig_ (SLeaf r)]]]) [] = Ok (VSigma s, []) /\
  forall K, provable K s <-> at_least 2 [K p; K q; K p \/ K r \/ False].
Proof.
  intros p q r.
  destruct (c84_at_least_partial H sha fits avlv c 3 [] [] [] (int_ 2) (ESeq (QColl SSigmaProp) [sig_ (SLeaf p); sig_ (SLeaf q); ESeq QSigmaOr [sig_ (SLeaf p); sig_ (SLeaf r)]])
    2 SSigmaProp [SLeaf p; SLeaf q; SConj Or [SLeaf p; SLeaf r]] eq_refl eq_refl ltac:(cbn; lia) ltac:(cbn; lia)) as (v & E & s & -> & P).
  exists s. split; [exact E|exact P].
Qed.
Example c85_hyps_met : forall m, sm_code m = 36 -> sm_id m = 8 -> scripts_tidy c ->
  exists e4, eval 4 (EMethod m (EConst (MkConst (SOption SInt) (LOpt (Some (LInt 7))))) [EFunc [(1, SInt)] (EBin BGt (EValUse 1 SInt) (int_ 9))]) [] = Ok (VOpt None, e4).
Proof.
  intros m C I Sc. destruct (c85_option_filter H sha fits avlv c 3 [] [] [] (EConst (MkConst (SOption SInt) (LOpt (Some (LInt 7)))))
    (EFunc [(1, SInt)] (EBin BGt (EValUse 1 SInt) (int_ 9))) (Some (VInt 7)) 1 SInt _ eq_refl eq_refl Sc) with (m := m) as [K _]; auto; try (cbn; tauto).
  - constructor.
  - destruct (K (VInt 7) false _ eq_refl eq_refl) as (e4 & E & _). eauto.
Qed.
Example c86_hyps_met : group_ok G -> forall m, sm_code m = 7 -> sm_id m = 2 ->
  eval 3 (node ODecodePoint [EProp m (node OGroupGenerator [])]) [] = Ok (VGroup ggen, []).
Proof. intros HG m C I. exact (proj2 (c86_encode_decode H sha fits avlv c HG 1 [] [] (node OGroupGenerator []) ggen m eq_refl C I)). Qed.
Example c87_hyps_met : exists e5,
  eval 4 (EApply (EFunc [(1, SInt); (2, SInt)] (EBin BMinus (EValUse 2 SInt) (EValUse 1 SInt))) [EValUse 2 SInt; int_ 9]) [(2, VInt 4)] = Ok (VInt 5, e5) /\
  env_get e5 2 = Some (VInt 4).
Proof.
  destruct (c87_apply H sha fits avlv c 3 (EFunc [(1, SInt); (2, SInt)] (EBin BMinus (EValUse 2 SInt) (EValUse 1 SInt))) [EValUse 2 SInt; int_ 9]
    [(1, SInt); (2, SInt)] (EBin BMinus (EValUse 2 SInt) (EValUse 1 SInt)) [VInt 4; VInt 9] [(2, VInt 4)] [(2, VInt 4)] [(2, VInt 4)] [(1, VInt 4); (2, VInt 9)]) as [K _].
  - reflexivity.
  - repeat (econstructor; [reflexivity|]). constructor.
  - cbn. constructor; [cbn; lia|]. constructor; [cbn; tauto|constructor].
  - reflexivity.
  - split.
    + intros [|[|[|k]]] i t v Q R; cbn in Q, R; try discriminate; injection Q as <- <-; injection R as <-; reflexivity.
    + intros i I. cbn [env_get map fst In] in I |- *. destruct (1 =? i) eqn:A; [lia|]. destruct (2 =? i) eqn:B; [lia|reflexivity].
  - destruct (K (VInt 5) _ eq_refl) as (e5 & E & L & _). exists e5. split; [exact E|]. apply (L 2). cbn. tauto.
Qed.

(** A script with one constant of type Int, in bytes: version zero with segregated
    constants, [1 == p0]. *)
Definition seg_script : bytes := [16; 1; 4; 4; 147; 115; 0; 115; 0].
Definition seg_tree (z : Z) : tree G := Parsed (THeader 0 true false) [MkConst SInt (LInt z)] (EBin BEq (EPlaceholder 0 SInt) (EPlaceholder 0 SInt)).
Definition bytes_ (b : bytes) : expr := EConst (MkConst (SColl SByte) (LCollBytes (as_i8s b))).
Definition ints_ (l : list Z) : expr := EConst (MkConst (SColl SInt) (LColl SInt (map LInt l))).
Example c88_hyps_met : tree_of_bytes seg_script = Ok (seg_tree 2) /\
  (exists l, eval 3 (node OSubstConstants [bytes_ seg_script; ints_ [0]; ints_ [5]]) [] = Ok (VBytes l, []) /\
     tree_of_bytes (as_u8s l) = Ok (seg_tree 5)) /\
  is_ok (eval 3 (node OSubstConstants [bytes_ seg_script; ints_ [1]; ints_ [5]]) []) = false.
Proof.
  split; [vm_compute; reflexivity|]. split.
  - exists [16; 1; 4; 10; -109; 115; 0; 115; 0]. split; [vm_compute; reflexivity|]. vm_compute. reflexivity.
  - assert (E : tree_of_bytes seg_script = Ok (seg_tree 2)) by (vm_compute; reflexivity).
    refine (proj1 (proj2 (c88_refused H sha fits avlv c 2 [] [] [] [] (bytes_ seg_script) (ints_ [1]) (ints_ [5]) seg_script (THeader 0 true false) [MkConst SInt (LInt 2)]
      (EBin BEq (EPlaceholder 0 SInt) (EPlaceholder 0 SInt)) [1] [VInt 5] SInt SInt eq_refl _ eq_refl eq_refl E _ _)) _).
    + repeat constructor; unfold byte; lia.
    + repeat constructor; lia.
    + cbn. lia.
    + exists 1. split; [now left|]. cbn. lia.
Qed.
(** Constants of type Byte can never be replaced: a collection of bytes is not the kind
    of collection the operation looks into. *)
Theorem c88_bytes_refuted : exists b (k : const G), tree_of_bytes b = Ok (Parsed (THeader 0 true false) [k] (EBin BEq (EPlaceholder 0 SByte) (EPlaceholder 0 SByte))) /\
  c_tpe k = SByte /\ forall n z e r, eval n (node OSubstConstants [bytes_ b; ints_ [0]; bytes_ [z]]) e <> Ok r.
Proof.
  exists [16; 1; 2; 2; 147; 115; 0; 115; 0], (MkConst SByte (LByte 2)). split; [vm_compute; reflexivity|]. split; [reflexivity|].
  intros [|[|n]] z e r; discriminate.
Qed.
Example c89_hyps_met : forall self : bytes * box G, forall st : chain_state G,
  let c := MkContext 0 self [] None [] st [(7, MkConst (SColl SByte) (LCollBytes [4; 10]))] in
  EvalModel.eval H sha fits avlv c 3 (EOp ODeserializeContext (PTypeU8 SInt 7) [] None) [] = Ok (VInt 5, []).
Proof.
  intros self st c0. rewrite (proj1 (c89_execute_var H sha fits avlv c0 2 [] 7 SInt (MkConst (SColl SByte) (LCollBytes [4; 10])) [4; 10] eq_refl
    ltac:(split; [reflexivity|]; exists [4; 10]; split; [reflexivity|]; split; repeat constructor; unfold byte; try lia; exists 0; lia)) (int_ 5));
    [reflexivity|vm_compute; reflexivity|reflexivity].
Qed.
End Met.
Print Assumptions c88_bytes_refuted.
