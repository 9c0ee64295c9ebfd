(** Numbers in scripts: arithmetic, comparisons, casts and the conversion between
    numbers and byte arrays. *)
From Verif Require Import Base VlqModel VlqProofs IntBytes GroupModel SigmaModel BigIntModel TypeModel
  MethodModel IrModel SerModel ChainModel HeaderModel TxModel EqModel PrintModel EvalModel TypeProofs.
Local Open Scope list_scope.
Local Open Scope Z_scope.

(** ** Specification *)

(** Numbers of [n] bits in two's complement, for every numeric type. *)
Definition holds (k : nkind) (z : Z) : Prop :=
  match k with
  | NByte => -128 <= z <= 127
  | NShort => -32768 <= z <= 32767
  | NInt => -2147483648 <= z <= 2147483647
  | NLong => -9223372036854775808 <= z <= 9223372036854775807
  | NBig => - 2 ^ 255 <= z < 2 ^ 255
  end.
(** The arithmetic operators and their mathematical result, if there is one. *)
Definition is_arith (op : bink) : Prop :=
  op = BPlus \/ op = BMinus \/ op = BMultiply \/ op = BDivide \/ op = BModulo \/ op = BMax \/ op = BMin.
Definition result (op : bink) (a b z : Z) : Prop :=
  match op with
  | BPlus => z = a + b
  | BMinus => z = a - b
  | BMultiply => z = a * b
  | BDivide => b <> 0 /\ exists r, a = b * z + r /\ Z.abs r < Z.abs b /\ 0 <= a * r
  | BModulo => b <> 0 /\ exists q, a = b * q + z /\ Z.abs z < Z.abs b /\ 0 <= a * z
  | BMax => (z = a \/ z = b) /\ a <= z /\ b <= z
  | BMin => (z = a \/ z = b) /\ z <= a /\ z <= b
  | _ => False
  end.
(** A remainder, without saying of which sign. *)
Definition remainder (a b z : Z) : Prop := b <> 0 /\ exists q, a = b * q + z /\ Z.abs z < Z.abs b.

Lemma holds_chk k z : k <> NBig -> (holds k z <-> prim_chk k z = Some z).
Proof.
  intros K. unfold prim_chk, holds, kind_bits.
  destruct k; try congruence; cbn -[Z.leb Z.ltb]; match goal with |- context [if ?b then _ else _] => destruct b eqn:E end;
    split; intros; try lia; try congruence; try reflexivity; apply andb_false_iff in E; lia.
Qed.
Lemma chk_inv k z w : k <> NBig -> prim_chk k z = Some w -> w = z /\ holds k z.
Proof.
  intros K E. assert (w = z) as -> by (unfold prim_chk in E; destruct (_ && _) in E; congruence).
  split; [reflexivity|]. now apply holds_chk.
Qed.
Lemma chk_none k z : k <> NBig -> prim_chk k z = None -> ~ holds k z.
Proof. intros K E Q. apply holds_chk in Q; [congruence|assumption]. Qed.

Lemma quot_result a b : b <> 0 -> result BDivide a b (Z.quot a b).
Proof.
  intros B. split; [assumption|]. exists (Z.rem a b).
  split; [apply Z.quot_rem'|]. split; [now apply Z.rem_bound_abs|].
  rewrite Z.mul_comm. now apply Z.rem_sign_mul.
Qed.
Lemma rem_result a b : b <> 0 -> result BModulo a b (Z.rem a b).
Proof.
  intros B. split; [assumption|]. exists (Z.quot a b).
  split; [apply Z.quot_rem'|]. split; [now apply Z.rem_bound_abs|].
  rewrite Z.mul_comm. now apply Z.rem_sign_mul.
Qed.
Lemma mul_same_sign a r : 0 <= a * r -> (0 <= a /\ 0 <= r) \/ (a <= 0 /\ r <= 0).
Proof. nia. Qed.
Lemma div_fun a b z r w s : b <> 0 -> a = b * z + r -> Z.abs r < Z.abs b -> 0 <= a * r ->
  a = b * w + s -> Z.abs s < Z.abs b -> 0 <= a * s -> z = w /\ r = s.
Proof.
  intros B R Rb Rs S Sb Ss.
  assert (D : Z.abs (r - s) < Z.abs b).
  { destruct (Z.eq_dec a 0) as [->|N].
    - assert (r = 0) by (assert (z = 0 \/ z <> 0) as [->|] by lia; nia).
      assert (s = 0) by (assert (w = 0 \/ w <> 0) as [->|] by lia; nia). lia.
    - apply mul_same_sign in Rs, Ss. lia. }
  assert (r - s = b * (w - z)) by lia.
  assert (w - z = 0) by nia. nia.
Qed.
Lemma result_fun op a b z w : result op a b z -> result op a b w -> z = w.
Proof.
  destruct op; cbn; try tauto; try lia.
  - intros [B (r & R & Rb & Rs)] [_ (s & S & Sb & Ss)]. now destruct (div_fun a b z r w s).
  - intros [B (r & R & Rb & Rs)] [_ (s & S & Sb & Ss)]. now destruct (div_fun a b r z s w).
Qed.

Section Arithmetic.
Variable fits : Z -> bool.
Hypothesis Fits : fits_ok fits.

Lemma fits_holds z : fits z = true -> holds NBig z.
Proof.
  intros F. cbn. destruct Fits as [_ F2].
  destruct (Z_lt_ge_dec z (- 2 ^ 255)); [rewrite F2 in F; [discriminate|auto]|].
  destruct (Z_lt_ge_dec z (2 ^ 255)); [lia|]. rewrite F2 in F; [discriminate|lia].
Qed.
Lemma rem_holds k a b : k <> NBig -> holds k a -> b <> 0 -> holds k (Z.rem a b).
Proof.
  intros K A B. pose proof (rem_result a b B) as [_ (q & Q & Qb & Qs)].
  assert (Z.abs (Z.rem a b) <= Z.abs a).
  { destruct (Z.eq_dec q 0) as [->|]; nia. }
  apply mul_same_sign in Qs. destruct k; cbn in *; try congruence; lia.
Qed.

Lemma chk_sound z w : chk fits z = Some w -> w = z /\ holds NBig z.
Proof. unfold chk. destruct (fits z) eqn:F; intros [= <-]. split; [reflexivity|]. now apply fits_holds. Qed.

Lemma arith_sound op k a b z : is_arith op -> holds k a -> holds k b -> arith fits op k a b = Some z ->
  holds k z /\ (op <> BModulo \/ k <> NBig -> result op a b z) /\ (op = BModulo -> remainder a b z).
Proof.
  intros O A B E.
  assert (NB : k = NBig \/ k <> NBig) by (destruct k; auto; right; congruence).
  destruct NB as [->|NB].
  - destruct O as [->|[->|[->|[->|[->|[->| ->]]]]]]; cbn [arith] in E.
    + apply chk_sound in E as [-> F]. split; [exact F|]. split; [reflexivity|discriminate].
    + apply chk_sound in E as [-> F]. split; [exact F|]. split; [reflexivity|discriminate].
    + apply chk_sound in E as [-> F]. split; [exact F|]. split; [reflexivity|discriminate].
    + unfold b256_div in E. destruct (b =? 0) eqn:Q; [discriminate|]. apply chk_sound in E as [-> F].
      split; [exact F|]. split; [|discriminate]. intros _. apply quot_result. lia.
    + unfold b256_rem in E. destruct (b <=? 0) eqn:Q; [discriminate|]. injection E as <-.
      pose proof (Z.mod_pos_bound a b ltac:(lia)) as M.
      split; [|split].
      * cbn in *. lia.
      * intros [|]; congruence.
      * intros _. split; [lia|]. exists (a / b). split; [apply Z.div_mod; lia|lia].
    + injection E as <-. split; [cbn in *; lia|]. split; [cbn; lia|discriminate].
    + injection E as <-. split; [cbn in *; lia|]. split; [cbn; lia|discriminate].
  - assert (T : forall (A : Type) (x y : A), match k with NBig => x | _ => y end = y) by (destruct k; congruence).
    destruct O as [->|[->|[->|[->|[->|[->| ->]]]]]]; cbn [arith] in E; rewrite ?T in E.
    + apply chk_inv in E as [-> F]; [|assumption]. split; [exact F|]. split; [reflexivity|discriminate].
    + apply chk_inv in E as [-> F]; [|assumption]. split; [exact F|]. split; [reflexivity|discriminate].
    + apply chk_inv in E as [-> F]; [|assumption]. split; [exact F|]. split; [reflexivity|discriminate].
    + destruct (b =? 0) eqn:Q; [discriminate|]. apply chk_inv in E as [-> F]; [|assumption].
      split; [exact F|]. split; [|discriminate]. intros _. apply quot_result. lia.
    + destruct (b =? 0) eqn:Q; [discriminate|]. destruct_if E; [discriminate|]. injection E as <-.
      assert (b <> 0) by lia. pose proof (rem_result a b ltac:(assumption)) as R.
      split; [now apply rem_holds|]. split; [auto|].
      intros _. destruct R as [R1 (q & R2 & R3 & _)]. split; [exact R1|]. now exists q.
    + injection E as <-. split; [destruct k; cbn in *; lia|]. split; [cbn; lia|discriminate].
    + injection E as <-. split; [destruct k; cbn in *; lia|]. split; [cbn; lia|discriminate].
Qed.

(** The results that are representable and not returned. *)
Definition missing (op : bink) (k : nkind) (a b z : Z) : Prop :=
  match op, k with
  | BModulo, NBig => a < 0 \/ b < 0
  | BModulo, NByte => a = -128 /\ b = -1
  | BModulo, NShort => a = -32768 /\ b = -1
  | BModulo, NInt => a = -2147483648 /\ b = -1
  | BModulo, NLong => a = -9223372036854775808 /\ b = -1
  | (BPlus | BMinus | BMultiply | BDivide), NBig => z = - 2 ^ 255
  | _, _ => False
  end.

Lemma chk_complete z : holds NBig z -> z <> - 2 ^ 255 -> chk fits z = Some z.
Proof. intros Q N. unfold chk. destruct Fits as [F _]. rewrite F; [reflexivity|]. cbn in Q. lia. Qed.

Lemma arith_complete op k a b z : is_arith op -> holds k a -> holds k b -> result op a b z -> holds k z ->
  ~ missing op k a b z -> arith fits op k a b = Some z.
Proof.
  intros O A B R Z M.
  assert (NB : k = NBig \/ k <> NBig) by (destruct k; auto; right; congruence).
  destruct NB as [->|NB].
  - destruct O as [->|[->|[->|[->|[->|[->| ->]]]]]]; cbn [arith missing] in *.
    + cbn in R. subst. now apply chk_complete.
    + cbn in R. subst. now apply chk_complete.
    + cbn in R. subst. now apply chk_complete.
    + pose proof (proj1 R) as N. unfold b256_div. destruct (b =? 0) eqn:Q; [lia|].
      assert (z = Z.quot a b) as -> by (apply (result_fun BDivide a b); [assumption|now apply quot_result]).
      now apply chk_complete.
    + destruct R as [N (q & Q & Qb & Qs)]. unfold b256_rem. destruct (b <=? 0) eqn:T; [apply Z.leb_le in T; lia|]. apply Z.leb_gt in T. f_equal.
      assert (0 <= z). { apply mul_same_sign in Qs. destruct (Z.eq_dec a 0) as [A0|A0]; [subst a; assert (q = 0 \/ q <= -1 \/ 1 <= q) as [Q0|[Q0|Q0]] by lia; nia|lia]. }
      symmetry. apply (Z.mod_unique a b q z); [left; lia|exact Q].
    + f_equal. cbn in R. lia.
    + f_equal. cbn in R. lia.
  - assert (T : forall (A : Type) (x y : A), match k with NBig => x | _ => y end = y) by (destruct k; congruence).
    destruct O as [->|[->|[->|[->|[->|[->| ->]]]]]]; cbn [arith]; rewrite ?T.
    + cbn in R. subst. now apply holds_chk.
    + cbn in R. subst. now apply holds_chk.
    + cbn in R. subst. now apply holds_chk.
    + pose proof (proj1 R) as N. destruct (b =? 0) eqn:Q; [lia|].
      assert (z = Z.quot a b) as -> by (apply (result_fun BDivide a b); [assumption|now apply quot_result]).
      now apply holds_chk.
    + pose proof (proj1 R) as N. destruct (b =? 0) eqn:Q; [lia|].
      assert (z = Z.rem a b) as -> by (apply (result_fun BModulo a b); [assumption|now apply rem_result]).
      destruct (_ && _) eqn:U; [exfalso|reflexivity]. apply M.
      apply andb_true_iff in U as [U V]. destruct k; cbn -[Z.eqb] in U |- *; try congruence; lia.
    + f_equal. cbn in R. lia.
    + f_equal. cbn in R. lia.
Qed.
End Arithmetic.

(** ** C51 *)

Section C51.
Context {G : group}.
Variables H sha : bytes -> bytes.
Variable fits : Z -> bool.
Variable avlv : avl_verifier.
Variable c : context G (chain_state G).
Notation eval := (eval H sha fits avlv c).
Hypothesis Fits : fits_ok fits.

(** An operation on operands of one type returns the mathematical result (for the
    remainder of big integers: a remainder), or an error; it never returns another
    number, one of another type or one out of range, and never panics. *)
Theorem c51_result_is_exact_or_error : forall n op k l r e e1 e2 a b,
  is_arith op ->
  eval n l e = Ok (mk_num k a, e1) -> eval n r e1 = Ok (mk_num k b, e2) -> holds k a -> holds k b ->
  (exists err, eval (S n) (EBin op l r) e = Err err) \/
  (exists z, eval (S n) (EBin op l r) e = Ok (mk_num k z, e2) /\ holds k z /\
    (op <> BModulo \/ k <> NBig -> result op a b z) /\ (op = BModulo -> remainder a b z)).
Proof.
  intros n op k l r e e1 e2 a b O L R A B.
  assert (E : eval (S n) (EBin op l r) e =
              (z <- of_option "ArithmeticException" (arith fits op k a b) ;; Ok (mk_num k z, e2))).
  { cbn [EvalModel.eval eval_step eval_bin]. unfold eval_bin. rewrite L. cbn [bind].
    assert (num_of (mk_num (G:=G) k a) = Some (k, a)) as -> by now destruct k.
    cbn [of_option bind]. rewrite R. cbn [bind].
    assert (get_num (G:=G) k (mk_num k b) = Ok b) as -> by now destruct k.
    destruct O as [->|[->|[->|[->|[->|[->| ->]]]]]]; reflexivity. }
  rewrite E. destruct (arith fits op k a b) as [z|] eqn:Q; cbn [of_option bind]; [right|left; eauto].
  exists z. split; [reflexivity|]. now apply (arith_sound fits Fits).
Qed.

(** When the mathematical result is representable it is returned, except for the
    cases of [missing], where an error is. *)
Theorem c51_representable_result_is_returned_partial : forall n op k l r e e1 e2 a b z,
  is_arith op ->
  eval n l e = Ok (mk_num k a, e1) -> eval n r e1 = Ok (mk_num k b, e2) -> holds k a -> holds k b ->
  result op a b z -> holds k z -> ~ missing op k a b z ->
  eval (S n) (EBin op l r) e = Ok (mk_num k z, e2).
Proof.
  intros n op k l r e e1 e2 a b z O L R A B Z Hz M.
  cbn [EvalModel.eval eval_step eval_bin]. unfold eval_bin. rewrite L. cbn [bind].
  assert (num_of (mk_num (G:=G) k a) = Some (k, a)) as -> by now destruct k.
  cbn [of_option bind]. rewrite R. cbn [bind].
  assert (get_num (G:=G) k (mk_num k b) = Ok b) as -> by now destruct k.
  pose proof (arith_complete fits Fits op k a b z O A B Z Hz M) as Q.
  destruct O as [->|[->|[->|[->|[->|[->| ->]]]]]]; cbn [bind]; rewrite Q; reflexivity.
Qed.

(** Comparisons of numbers of one type. *)
Theorem c51_comparisons : forall n op k l r e e1 e2 a b,
  eval n l e = Ok (mk_num k a, e1) -> eval n r e1 = Ok (mk_num k b, e2) ->
  op = BGe \/ op = BGt \/ op = BLe \/ op = BLt ->
  exists t, eval (S n) (EBin op l r) e = Ok (VBool t, e2) /\
    (t = true <-> match op with BGe => a >= b | BGt => a > b | BLe => a <= b | _ => a < b end).
Proof.
  intros n op k l r e e1 e2 a b L R O.
  exists (compare_op op a b). split.
  - cbn [EvalModel.eval eval_step eval_bin]. unfold eval_bin. rewrite L. cbn [bind]. rewrite R. cbn [bind].
    assert (num_of (mk_num (G:=G) k a) = Some (k, a)) as -> by now destruct k.
    cbn [of_option bind].
    assert (get_num (G:=G) k (mk_num k b) = Ok b) as -> by now destruct k.
    destruct O as [->|[->|[->| ->]]]; reflexivity.
  - destruct O as [->|[->|[->| ->]]]; cbn -[Z.leb Z.ltb]; lia.
Qed.

(** Negation. *)
Theorem c51_negation : forall n k x e e1 a,
  eval n x e = Ok (mk_num k a, e1) -> holds k a ->
  (holds k (- a) -> eval (S n) (EOp ONegation PNone [x] None) e = Ok (mk_num k (- a), e1)) /\
  (~ holds k (- a) -> exists err, eval (S n) (EOp ONegation PNone [x] None) e = Err err).
Proof.
  intros n k x e e1 a X A.
  assert (E : eval (S n) (EOp ONegation PNone [x] None) e =
              (z <- of_option "overflow" (arith_neg k a) ;; Ok (mk_num k z, e1))).
  { cbn [EvalModel.eval eval_step eval_op]. rewrite X. cbn [bind op1]. unfold negation.
    assert (num_of (mk_num (G:=G) k a) = Some (k, a)) as -> by now destruct k.
    cbn [of_option bind]. destruct (arith_neg k a); reflexivity. }
  rewrite E.
  assert (NB : k = NBig \/ k <> NBig) by (destruct k; auto; right; congruence).
  destruct NB as [->|NB].
  - cbn [arith_neg holds] in *. unfold b256_neg, b256_min. destruct (a =? - 2 ^ 255) eqn:Q.
    + apply Z.eqb_eq in Q. split; [lia|]. eexists. reflexivity.
    + split; [reflexivity|]. intros N. exfalso. apply N. lia.
  - assert (arith_neg k a = prim_chk k (- a)) as -> by now destruct k.
    split; intros Q.
    + apply holds_chk in Q; [|assumption]. now rewrite Q.
    + destruct (prim_chk k (- a)) as [w|] eqn:W; [|eexists; reflexivity].
      apply chk_inv in W; tauto.
Qed.

(** The remainder of the smallest number by minus one is zero, but an error is
    returned; so is one for the remainder of a big integer by a negative one. *)
Theorem c51_remainder_refuted : exists (l r : expr G) (a b z : Z),
  result BModulo a b z /\ holds NLong a /\ holds NLong b /\ holds NLong z /\
  eval 1 l [] = Ok (VLong a, []) /\ eval 1 r [] = Ok (VLong b, []) /\
  exists err, eval 2 (EBin BModulo l r) [] = Err err.
Proof.
  exists (EConst (MkConst SLong (LLong (-9223372036854775808)))), (EConst (MkConst SLong (LLong (-1)))),
    (-9223372036854775808), (-1), 0.
  split. { split; [lia|]. exists 9223372036854775808. cbn; lia. }
  do 3 (split; [cbn; lia|]). do 2 (split; [reflexivity|]). eexists. vm_compute. reflexivity.
Qed.
Theorem c51_big_remainder_refuted : exists (l r : expr G) (a b z w : Z),
  result BModulo a b z /\ holds NBig a /\ holds NBig b /\ holds NBig z /\ z <> w /\
  eval 1 l [] = Ok (VBigInt a, []) /\ eval 1 r [] = Ok (VBigInt b, []) /\
  eval 2 (EBin BModulo l r) [] = Ok (VBigInt w, []) /\
  exists err, eval 2 (EBin BModulo r l) [] = Err err.
Proof.
  exists (EConst (MkConst SBigInt (LBigInt (-7)))), (EConst (MkConst SBigInt (LBigInt 3))), (-7), 3, (-1), 2.
  split. { split; [lia|]. exists (-2). cbn; lia. }
  do 3 (split; [cbn; lia|]). split; [lia|]. do 3 (split; [reflexivity|]). eexists. vm_compute. reflexivity.
Qed.

(** The hypotheses are met: an addition that overflows, one that does not. *)
Example c51_hyps_met :
  let big : expr G := EConst (MkConst SInt (LInt 2147483647)) in
  let one : expr G := EConst (MkConst SInt (LInt 1)) in
  is_arith BPlus /\ eval 1 big [] = Ok (mk_num NInt 2147483647, []) /\ eval 1 one [] = Ok (mk_num NInt 1, []) /\
  holds NInt 2147483647 /\ holds NInt 1 /\
  (exists err, eval 2 (EBin BPlus big one) [] = Err err) /\
  eval 2 (EBin BMinus big one) [] = Ok (VInt 2147483646, []).
Proof.
  cbv zeta. split; [left; reflexivity|]. do 2 (split; [reflexivity|]). do 2 (split; [cbn; lia|]).
  split; [eexists|]; vm_compute; reflexivity.
Qed.
End C51.
Example c51_fits_met : fits_ok (fun z => (- 2 ^ 255 <=? z) && (z <? 2 ^ 255)).
Proof. split; intros z Q; cbv beta; lia. Qed.

Print Assumptions c51_result_is_exact_or_error.
Print Assumptions c51_representable_result_is_returned_partial.
Print Assumptions c51_comparisons.
Print Assumptions c51_negation.
Print Assumptions c51_remainder_refuted.
Print Assumptions c51_big_remainder_refuted.

(** ** C52 *)

Definition kind_of (t : stype) : option nkind :=
  match t with
  | SByte => Some NByte | SShort => Some NShort | SInt => Some NInt | SLong => Some NLong | SBigInt => Some NBig
  | _ => None
  end.
(** Every number of type [k] is one of type [k']. *)
Definition wider (k k' : nkind) : Prop := forall z, holds k z -> holds k' z.

Lemma wider_dec k k' : wider k k' <-> (kind_bits k <= kind_bits k')%Z.
Proof.
  split.
  - intros W. destruct (Z_le_gt_dec (kind_bits k) (kind_bits k')); [assumption|exfalso].
    destruct k, k'; cbn in *; try lia.
    + specialize (W 200); cbn in W; lia.
    + specialize (W 200); cbn in W; lia.
    + specialize (W 40000); cbn in W; lia.
    + specialize (W 200); cbn in W; lia.
    + specialize (W 40000); cbn in W; lia.
    + specialize (W 3000000000); cbn in W; lia.
    + specialize (W 200); cbn in W; lia.
    + specialize (W 40000); cbn in W; lia.
    + specialize (W 3000000000); cbn in W; lia.
    + specialize (W (2 ^ 100)); cbn in W; lia.
  - intros L z. destruct k, k'; cbn in *; lia.
Qed.

Section C52.
Context {G : group}.
Variables H sha : bytes -> bytes.
Variable fits : Z -> bool.
Variable avlv : avl_verifier.
Variable c : context G (chain_state G).
Notation eval := (eval H sha fits avlv c).
Notation upcast_to t x := (EOp OUpcast (PType t) [x] None).
Notation downcast_to t x := (EOp ODowncast (PType t) [x] None).

(** An upcast succeeds exactly for the types at least as wide, and keeps the number. *)
Theorem c52_upcast_keeps_the_number : forall n x e e1 k z t,
  eval n x e = Ok (mk_num k z, e1) ->
  (forall k', kind_of t = Some k' -> wider k k' ->
     eval (S n) (upcast_to t x) e = Ok (mk_num k' z, e1)) /\
  (forall r, eval (S n) (upcast_to t x) e = r ->
     (exists err, r = Err err) \/ (exists k', kind_of t = Some k' /\ wider k k' /\ r = Ok (mk_num k' z, e1))).
Proof.
  intros n x e e1 k z t X. cbn [EvalModel.eval eval_step eval_op]. rewrite X. cbn [bind op1]. split.
  - intros k' K W. apply wider_dec in W.
    destruct t; try discriminate K; injection K as <-; destruct k; cbn in *; try lia; reflexivity.
  - intros r <-. destruct t; destruct k; cbn [upcast mk_num bind]; try (left; eexists; reflexivity); right;
      (eexists; split; [reflexivity|]; split; [|reflexivity]); apply wider_dec; cbn; lia.
Qed.

(** A downcast keeps the number, which the target type then holds, or fails. *)
Theorem c52_downcast_keeps_the_number_or_fails : forall n x e e1 k z t r,
  eval n x e = Ok (mk_num k z, e1) -> holds k z ->
  eval (S n) (downcast_to t x) e = r ->
  (exists err, r = Err err) \/ (exists k', kind_of t = Some k' /\ holds k' z /\ r = Ok (mk_num k' z, e1)).
Proof.
  intros n x e e1 k z t r X Z <-. cbn [EvalModel.eval eval_step eval_op]. rewrite X. cbn [bind op1].
  destruct t; destruct k; cbn [downcast mk_num bind]; try (left; eexists; reflexivity);
    try (right; eexists; split; [reflexivity|]; split; [|reflexivity]; cbn in *; lia);
    unfold narrow; match goal with |- context [prim_chk ?k z] => destruct (prim_chk k z) as [w|] eqn:W end;
    cbn [of_option bind]; try (left; eexists; reflexivity);
    (apply chk_inv in W as [-> W]; [|congruence]); right; eexists; (split; [reflexivity|]); (split; [exact W|reflexivity]).
Qed.

(** A downcast to a narrower type succeeds when the number fits, except from big
    integers. *)
Theorem c52_downcast_that_fits_succeeds_partial : forall n x e e1 k z t k',
  eval n x e = Ok (mk_num k z, e1) -> kind_of t = Some k' -> wider k' k -> k <> NBig -> holds k' z ->
  eval (S n) (downcast_to t x) e = Ok (mk_num k' z, e1).
Proof.
  intros n x e e1 k z t k' X K W N Q. apply wider_dec in W. cbn [EvalModel.eval eval_step eval_op].
  rewrite X. cbn [bind op1].
  destruct t; try discriminate K; injection K as <-; destruct k; cbn [kind_bits] in W; try lia; try congruence;
    cbn [downcast mk_num]; unfold narrow; try reflexivity;
    apply holds_chk in Q; try congruence; rewrite Q; reflexivity.
Qed.

(** Downcast after upcast is the identity, unless the upcast was to a big integer. *)
Theorem c52_downcast_after_upcast_partial : forall n x e e1 k z t u k',
  eval n x e = Ok (mk_num k z, e1) -> holds k z -> kind_of u = Some k ->
  kind_of t = Some k' -> wider k k' -> k' <> NBig ->
  eval (S (S n)) (downcast_to u (upcast_to t x)) e = Ok (mk_num k z, e1).
Proof.
  intros n x e e1 k z t u k' X Z U T W N.
  pose proof (proj1 (c52_upcast_keeps_the_number n x e e1 k z t X) k' T W) as E.
  apply (c52_downcast_that_fits_succeeds_partial _ _ _ _ _ _ _ _ E U W N Z).
Qed.
(** A big integer is never cast down, even if it fits or the type is the same. *)
Theorem c52_downcast_after_upcast_refuted : exists x : expr G,
  eval 1 x [] = Ok (VInt 5, []) /\
  eval 2 (upcast_to SBigInt x) [] = Ok (VBigInt 5, []) /\
  (exists err, eval 3 (downcast_to SInt (upcast_to SBigInt x)) [] = Err err) /\
  (exists err, eval 3 (downcast_to SBigInt (upcast_to SBigInt x)) [] = Err err) /\
  (exists err, eval 3 (downcast_to SLong (upcast_to SBigInt x)) [] = Err err).
Proof.
  exists (EConst (MkConst SInt (LInt 5))). do 2 (split; [reflexivity|]).
  split; [|split]; eexists; reflexivity.
Qed.

Example c52_hyps_met :
  let x : expr G := EConst (MkConst SShort (LShort 200)) in
  eval 1 x [] = Ok (mk_num NShort 200, []) /\ holds NShort 200 /\ wider NShort NLong /\
  eval 3 (downcast_to SShort (upcast_to SLong x)) [] = Ok (VShort 200, []) /\
  exists err, eval 2 (downcast_to SByte x) [] = Err err.
Proof.
  cbv zeta. split; [reflexivity|]. split; [cbn; lia|]. split; [apply wider_dec; cbn; lia|].
  split; [reflexivity|]. eexists. reflexivity.
Qed.
End C52.

Print Assumptions c52_upcast_keeps_the_number.
Print Assumptions c52_downcast_keeps_the_number_or_fails.
Print Assumptions c52_downcast_that_fits_succeeds_partial.
Print Assumptions c52_downcast_after_upcast_partial.
Print Assumptions c52_downcast_after_upcast_refuted.

(** ** C54 *)

(** The big-endian two's complement value of signed bytes. *)
Fixpoint uvalue (l : list Z) : Z :=
  match l with [] => 0 | b :: r => (b mod 256) * 256 ^ Zlen r + uvalue r end.
Definition twos_value (l : list Z) : Z :=
  match l with [] => 0 | b :: r => b * 256 ^ Zlen r + uvalue r end.
(** Sign extension does no harm: what precedes a negative byte is all ones. *)
Definition sign_ok (l : list Z) : Prop :=
  forall i j x, (i < j)%nat -> nth_error l j = Some x -> x < 0 -> nth_error l i = Some (-1).

(** The disjunction of the sign-extended, shifted bytes. *)
Fixpoint orv (l : list Z) : Z :=
  match l with [] => 0 | b :: r => Z.lor (Z.shiftl b (8 * Zlen r)) (orv r) end.

Lemma pow256 n : 0 <= n -> 2 ^ (8 * n) = 256 ^ n.
Proof. intros N. change 256 with (2 ^ 8). rewrite <- Z.pow_mul_r by lia. reflexivity. Qed.
Lemma pow256_pos (l : list Z) : 0 < 256 ^ Zlen l.
Proof. apply Z.pow_pos_nonneg; [lia|apply Zlen_nonneg]. Qed.
Lemma pow256_cons {A} (b : A) l : 256 ^ Zlen (b :: l) = 256 * 256 ^ Zlen l.
Proof. rewrite Zlen_cons. rewrite Z.pow_add_r by (pose proof (Zlen_nonneg A l); lia). cbn. lia. Qed.
Lemma lor_shift x y n : 0 <= n -> - 2 ^ n <= y < 2 ^ n ->
  Z.lor (Z.shiftl x n) y = if y <? 0 then y else x * 2 ^ n + y.
Proof.
  intros N Y. destruct (y <? 0) eqn:S.
  - apply Z.bits_inj'. intros i I. rewrite Z.lor_spec.
    destruct (Z_lt_ge_dec i n).
    + rewrite Z.shiftl_spec_low by lia. reflexivity.
    + assert (Z.testbit y i = true) as ->; [|apply orb_true_r].
      rewrite <- (Z.lnot_involutive y), Z.lnot_spec by lia. apply negb_true_iff.
      assert (0 <= Z.lnot y < 2 ^ n) as B by (unfold Z.lnot; lia).
      destruct (Z.eq_dec (Z.lnot y) 0) as [->|]; [apply Z.bits_0|].
      apply Z.bits_above_log2; [lia|]. apply Z.lt_le_trans with n; [apply Z.log2_lt_pow2; lia|lia].
  - rewrite Z.shiftl_mul_pow2 by lia.
    assert (A : Z.land (x * 2 ^ n) y = 0).
    { apply Z.bits_inj'. intros i I. rewrite Z.land_spec, Z.bits_0.
      destruct (Z_lt_ge_dec i n).
      - rewrite Z.mul_pow2_bits_low by lia. reflexivity.
      - assert (Z.testbit y i = false) as ->; [|apply andb_false_r].
        destruct (Z.eq_dec y 0) as [->|]; [apply Z.bits_0|].
        apply Z.bits_above_log2; [lia|]. apply Z.lt_le_trans with n; [apply Z.log2_lt_pow2; lia|lia]. }
    rewrite Z.add_nocarry_lxor by assumption. symmetry. now apply Z.lxor_lor.
Qed.

Definition i8s (l : list Z) : Prop := Forall (fun b => -128 <= b <= 127) l.

Lemma orv_bound l : i8s l -> - 256 ^ Zlen l <= 2 * orv l < 256 ^ Zlen l.
Proof.
  induction 1 as [|b r B R IH]; [cbn; lia|].
  cbn [orv]. pose proof (pow256_pos r) as P. rewrite pow256_cons.
  pose proof (Zlen_nonneg Z r). rewrite lor_shift, pow256 by (rewrite ?pow256; lia).
  destruct (_ <? 0) eqn:S; nia.
Qed.
Lemma orv_cons b r : i8s r -> orv (b :: r) = if orv r <? 0 then orv r else b * 256 ^ Zlen r + orv r.
Proof.
  intros R. cbn [orv]. pose proof (orv_bound r R). pose proof (pow256_pos r). pose proof (Zlen_nonneg Z r).
  rewrite lor_shift, pow256 by (rewrite ?pow256; lia). reflexivity.
Qed.
Lemma uvalue_bound l : 0 <= uvalue l < 256 ^ Zlen l.
Proof.
  induction l as [|b r IH]; [cbn; lia|]. cbn [uvalue]. rewrite pow256_cons. pose proof (pow256_pos r).
  pose proof (Z.mod_pos_bound b 256 ltac:(lia)). nia.
Qed.
Lemma orv_nonneg l : i8s l -> Forall (fun b => 0 <= b) l -> orv l = uvalue l.
Proof.
  induction 1 as [|b r B R IH]; [reflexivity|]. intros N. inversion N; subst.
  rewrite orv_cons by assumption. rewrite IH by assumption. pose proof (uvalue_bound r).
  destruct (_ <? 0) eqn:S; [lia|]. cbn [uvalue]. rewrite Z.mod_small by lia. reflexivity.
Qed.
Lemma orv_neg l : i8s l -> Exists (fun b => b < 0) l -> orv l < 0.
Proof.
  induction 1 as [|b r B R IH]; [intros N; inversion N|]. intros N.
  rewrite orv_cons by assumption. destruct (_ <? 0) eqn:S; [lia|].
  inversion N as [? ? Q|? ? Q]; subst; [|specialize (IH Q); lia].
  pose proof (orv_bound r R). pose proof (pow256_pos r). nia.
Qed.
Lemma nonneg_dec l : Forall (fun b => 0 <= b) l \/ Exists (fun b => b < 0) l.
Proof.
  induction l as [|b r [IH|IH]]; [left; constructor| |right; now apply Exists_cons_tl].
  destruct (Z_lt_ge_dec b 0); [right; now apply Exists_cons_hd|left; constructor; [lia|assumption]].
Qed.
Lemma sign_ok_cons b r : sign_ok (b :: r) <-> (Exists (fun x => x < 0) r -> b = -1) /\ sign_ok r.
Proof.
  split.
  - intros S. split.
    + intros E. apply Exists_exists in E as (x & I & X). apply In_nth_error in I as [j J].
      specialize (S O (Datatypes.S j) x ltac:(lia) J X). cbn in S. now injection S.
    + intros i j x L J X. exact (S (Datatypes.S i) (Datatypes.S j) x ltac:(lia) J X).
  - intros [B S] i j x L J X. destruct j as [|j]; [lia|]. cbn in J. destruct i as [|i].
    + cbn. f_equal. apply B. apply Exists_exists. exists x. split; [now apply nth_error_In in J|assumption].
    + cbn. apply (S i j x); [lia|assumption|assumption].
Qed.
Lemma sign_ok_nonneg l : Forall (fun b => 0 <= b) l -> sign_ok l.
Proof.
  intros F i j x L J X. apply nth_error_In in J. rewrite Forall_forall in F. specialize (F x J). cbv beta in F. lia.
Qed.

Lemma orv_exact l : i8s l -> (orv l = twos_value l <-> sign_ok l).
Proof.
  induction 1 as [|b r B R IH].
  { split; [|reflexivity]. intros _ i j x L J. destruct j; discriminate J. }
  rewrite orv_cons by assumption. rewrite sign_ok_cons. cbn [twos_value].
  pose proof (uvalue_bound r) as U. pose proof (pow256_pos r) as P. pose proof (orv_bound r R) as Q.
  destruct (nonneg_dec r) as [N|N].
  - rewrite (orv_nonneg r R N). destruct (_ <? 0) eqn:S; [lia|]. split; [|reflexivity]. intros _.
    split; [|now apply sign_ok_nonneg]. intros E. apply Exists_exists in E as (x & I & X).
    rewrite Forall_forall in N. specialize (N x I). cbv beta in N. lia.
  - pose proof (orv_neg r R N) as Ng. destruct (_ <? 0) eqn:S; [|lia].
    destruct r as [|c r]; [inversion N|]. inversion R as [|? ? C R']; subst.
    rewrite pow256_cons in *. pose proof (pow256_pos r) as P'. cbn [twos_value] in IH. cbn [uvalue] in U |- *.
    pose proof (uvalue_bound r) as U'.
    destruct (Z_lt_ge_dec c 0).
    + assert (CM : c mod 256 = c + 256) by (symmetry; apply (Z.mod_unique c 256 (-1)); lia). rewrite CM in *.
      split.
      * intros E. assert (b = -1) by nia. subst b. split; [reflexivity|]. apply IH. lia.
      * intros [Eb Sg]. rewrite (Eb N). apply IH in Sg. lia.
    + rewrite (Z.mod_small c 256) in * by lia.
      assert (Nr : Exists (fun x => x < 0) r) by (inversion N; [lia|assumption]).
      assert (O : orv (c :: r) = orv r).
      { rewrite orv_cons by assumption. pose proof (orv_neg r R' Nr). destruct (orv r <? 0) eqn:S'; [reflexivity|lia]. }
      pose proof (orv_bound r R'). rewrite O in *. split.
      * intros E. exfalso. assert (b = -1) by nia. subst b. nia.
      * intros [_ Sg]. apply sign_ok_cons in Sg as [Sg _]. specialize (Sg Nr). lia.
Qed.

Lemma wraps64_shift b n : -128 <= b <= 127 -> 0 <= n <= 56 -> wraps 64 (Z.shiftl b n) = Z.shiftl b n.
Proof.
  intros B N. apply wraps_id; [lia|]. rewrite Z.shiftl_mul_pow2 by lia.
  assert (1 <= 2 ^ n <= 2 ^ 56) by (split; [apply (Z.pow_le_mono_r 2 0 n); lia|apply Z.pow_le_mono_r; lia]).
  cbn [Z.sub]. change (2 ^ (64 - 1)) with (128 * 2 ^ 56). nia.
Qed.
Lemma byte_array_to_long_orv l : i8s l -> (8 <= length l)%nat -> byte_array_to_long l = Ok (orv (firstn 8 l)).
Proof.
  intros F L. do 8 (destruct l as [|? l]; [cbn in L; lia|]).
  do 8 (inversion F as [|? ? ? F']; clear F; rename F' into F; subst).
  cbn [firstn orv byte_array_to_long]. cbv zeta. rewrite !wraps64_shift by lia.
  repeat f_equal. cbn [Zlen length]. rewrite Z.lor_0_r. reflexivity.
Qed.

Section C54.
Context {G : group}.
Variables H sha : bytes -> bytes.
Variable fits : Z -> bool.
Variable avlv : avl_verifier.
Variable c : context G (chain_state G).
Notation eval := (eval H sha fits avlv c).
Notation long_of x := (EOp OByteArrayToLong PNone [x] None).
Notation bytes_of x := (EOp OLongToByteArray PNone [x] None).

(** A long becomes its eight bytes in big-endian two's complement. *)
Theorem c54_long_to_bytes : forall n x e e1 z,
  eval n x e = Ok (VLong z, e1) -> i64 z ->
  exists l, eval (S n) (bytes_of x) e = Ok (VBytes l, e1) /\ length l = 8%nat /\ i8s l /\ twos_value l = z.
Proof.
  intros n x e e1 z X Z. exists (long_to_byte_array z).
  cbn [EvalModel.eval eval_step eval_op]. rewrite X. cbn [bind op1 get_long].
  split; [reflexivity|]. unfold long_to_byte_array. split; [reflexivity|].
  set (n8 := 8%nat).
  assert (W : forall v, wraps 8 (Z.land v 255) = wraps 8 v).
  { intros v. unfold wraps. change 255 with (Z.ones 8). rewrite Z.land_ones by lia.
    f_equal. rewrite Z.add_mod_idemp_l by lia. reflexivity. }
  assert (WB : forall v, -128 <= wraps 8 v <= 127).
  { intros v. unfold wraps. pose proof (Z.mod_pos_bound (v + 2 ^ (8 - 1)) (2 ^ 8) ltac:(lia)). cbn in *. lia. }
  assert (WM : forall v, wraps 8 v mod 256 = v mod 256).
  { intros v. unfold wraps. change (2 ^ 8) with 256. change (2 ^ (8 - 1)) with 128.
    rewrite Zminus_mod_idemp_l. f_equal. lia. }
  assert (L : forall n v acc, i8s acc -> i8s (long_bytes_loop n v acc) /\
              uvalue (long_bytes_loop n v acc) =
              (v mod 256 ^ Z.of_nat n) * 256 ^ Zlen acc + uvalue acc /\
              Zlen (long_bytes_loop n v acc) = Z.of_nat n + Zlen acc).
  { clear Z. intros m. induction m as [|m IH]; intros v acc A.
    - cbn [long_bytes_loop]. change (256 ^ Z.of_nat 0) with 1. rewrite Z.mod_1_r. split; [assumption|]. lia.
    - cbn [long_bytes_loop]. destruct (IH (Z.shiftr v 8) (wraps 8 (Z.land v 255) :: acc)) as (I1 & I2 & I3).
      { constructor; [apply WB|assumption]. }
      split; [assumption|]. rewrite I2, I3. cbn [uvalue]. rewrite pow256_cons, W, WM, Zlen_cons.
      split; [|lia].
      rewrite Z.shiftr_div_pow2 by lia. change (2 ^ 8) with 256.
      replace (Z.of_nat (S m)) with (1 + Z.of_nat m) by lia. rewrite Z.pow_add_r by lia. change (256 ^ 1) with 256.
      rewrite Z.rem_mul_r by (try apply Z.pow_nonzero; try apply Z.pow_pos_nonneg; lia). nia. }
  destruct (L n8 z [] (Forall_nil _)) as (L1 & L2 & L3). split; [exact L1|].
  change (256 ^ Zlen []) with 1 in L2. cbn [uvalue] in L2. rewrite Z.add_0_r, Z.mul_1_r in L2.
  destruct (long_bytes_loop n8 z []) as [|b r] eqn:E; [discriminate E|].
  cbn [twos_value uvalue] in *. rewrite Zlen_cons in L3. change (Zlen (@nil BinNums.Z)) with 0 in L3.
  assert (R : Zlen r = 7) by (unfold n8 in L3; lia). rewrite R in *.
  pose proof (uvalue_bound r) as U. rewrite R in U. inversion L1 as [|? ? B _]; subst.
  unfold n8 in L2. change (256 ^ Z.of_nat 8) with (2 ^ 64) in L2. unfold i64 in Z.
  clear - L2 U B Z. change (256 ^ 7) with 72057594037927936 in *. change (2 ^ 64) with 18446744073709551616 in *.
  change (2 ^ 63) with 9223372036854775808 in *. lia.
Qed.

(** Reading gives the two's complement value of the first eight bytes exactly when
    every negative byte among them is preceded by bytes of ones only; shorter
    arrays are an error. *)
Theorem c54_bytes_to_long_partial : forall n x e e1 l,
  eval n x e = Ok (VBytes l, e1) -> i8s l ->
  ((length l < 8)%nat -> exists err, eval (S n) (long_of x) e = Err err) /\
  ((8 <= length l)%nat ->
   (eval (S n) (long_of x) e = Ok (VLong (twos_value (firstn 8 l)), e1) <-> sign_ok (firstn 8 l))).
Proof.
  intros n x e e1 l X F.
  assert (F8 : i8s (firstn 8 l)).
  { unfold i8s in *. rewrite <- (firstn_skipn 8 l) in F. now apply Forall_app in F. }
  pose proof (orv_exact _ F8) as OE. pose proof (byte_array_to_long_orv l F) as BO.
  remember (firstn 8 l) as m eqn:M. clear M.
  cbn [EvalModel.eval eval_step eval_op]. rewrite X. cbn [bind op1 get_i8s]. split.
  - intros L. do 8 (destruct l as [|? l]; [eexists; reflexivity|]). cbn in L. lia.
  - intros L. rewrite (BO L). cbn [bind].
    rewrite <- OE. split; [intros Q; now injection Q|intros ->; reflexivity].
Qed.

(** The round trip, under the same condition. *)
Theorem c54_roundtrip_partial : forall n x e e1 z l,
  eval n x e = Ok (VLong z, e1) -> i64 z ->
  eval (S n) (bytes_of x) e = Ok (VBytes l, e1) -> sign_ok l ->
  eval (S (S n)) (long_of (bytes_of x)) e = Ok (VLong z, e1).
Proof.
  intros n x e e1 z l X Z B S. destruct (c54_long_to_bytes n x e e1 z X Z) as (l' & L1 & L2 & L3 & L4).
  rewrite B in L1. injection L1 as <-.
  destruct (c54_bytes_to_long_partial (Datatypes.S n) (bytes_of x) e e1 l B L3) as [_ R].
  rewrite firstn_all2 in R by lia. rewrite L4 in R. apply R; [lia|assumption].
Qed.

(** 128 is turned into -128. *)
Theorem c54_roundtrip_refuted : exists (x : expr G) z w,
  eval 1 x [] = Ok (VLong z, []) /\ i64 z /\ z <> w /\
  eval 3 (long_of (bytes_of x)) [] = Ok (VLong w, []).
Proof.
  exists (EConst (MkConst SLong (LLong 128))), 128, (-128).
  split; [reflexivity|]. split; [unfold i64; lia|]. split; [lia|]. vm_compute. reflexivity.
Qed.

Example c54_hyps_met :
  let x : expr G := EConst (MkConst SLong (LLong (-2))) in
  eval 1 x [] = Ok (VLong (-2), []) /\ i64 (-2) /\
  eval 2 (bytes_of x) [] = Ok (VBytes [-1; -1; -1; -1; -1; -1; -1; -2], []) /\
  sign_ok [-1; -1; -1; -1; -1; -1; -1; -2].
Proof.
  cbv zeta. split; [reflexivity|]. split; [unfold i64; lia|]. split; [vm_compute; reflexivity|].
  apply orv_exact; [|reflexivity]. repeat (apply Forall_cons; [lia|]). constructor.
Qed.
End C54.

Print Assumptions c54_long_to_bytes.
Print Assumptions c54_bytes_to_long_partial.
Print Assumptions c54_roundtrip_partial.
Print Assumptions c54_roundtrip_refuted.
