(** What a script sees of its transaction: the context, boxes and headers. *)
From Verif Require Import Base VlqModel VlqProofs IntBytes GroupModel SigmaModel BigIntModel TypeModel
  MethodModel IrModel SerModel ChainModel HeaderModel TxModel TxProps EqModel PrintModel EvalModel ProverProofs TypeProofs EqProofs
  EvalProofs EvalScope EvalEq EvalCollProps.
Local Open Scope string_scope.
Local Open Scope list_scope.
Local Open Scope Z_scope.

(** ** Specification *)

(** [z] is the signed number with the same [n] low bits as [a]; it is [a] itself when
    [a] is in the signed range. *)
Definition signed (n a z : Z) : Prop := - 2 ^ (n - 1) <= z < 2 ^ (n - 1) /\ exists k, z = a + k * 2 ^ n.
Lemma signed_same n a z : 0 < n -> - 2 ^ (n - 1) <= a < 2 ^ (n - 1) -> signed n a z -> z = a.
Proof.
  intros N A [R [k ->]]. replace (2 ^ n) with (2 * 2 ^ (n - 1)) in * by (rewrite <- Z.pow_succ_r by lia; f_equal; lia).
  assert (k = 0) by nia. lia.
Qed.
Lemma wraps_signed n a : 0 < n -> signed n a (wraps n a).
Proof.
  intros N. split; [apply wraps_range; exact N|]. unfold wraps.
  exists (- ((a + 2 ^ (n - 1)) / 2 ^ n)). pose proof (Z.div_mod (a + 2 ^ (n - 1)) (2 ^ n)) as D.
  assert (2 ^ n <> 0) by (apply Z.pow_nonzero; lia). specialize (D H). lia.
Qed.

Section Data.
Context {G : group}.
Notation value := (value G).
(** The value holds these bytes, as signed ones. *)
Definition holds (b : bytes) (v : value) : Prop := exists l, v = VBytes l /\ Forall2 (signed 8) b l.
Lemma i8s_signed b : Forall2 (signed 8) b (as_i8s b).
Proof. unfold as_i8s. induction b as [|x b IH]; cbn [map]; constructor; [apply wraps_signed; lia|exact IH]. Qed.
Lemma holds_vbytes b : holds b (vbytes b).
Proof. exists (as_i8s b). split; [reflexivity|apply i8s_signed]. Qed.
Lemma holds_i8s b : holds b (VBytes (as_i8s b)).
Proof. apply holds_vbytes. Qed.
(** The value is the number, as a signed one of [n] bits. *)
Definition int_is (a : Z) (v : value) : Prop := exists z, v = VInt z /\ signed 32 a z.
Definition long_is (a : Z) (v : value) : Prop := exists z, v = VLong z /\ signed 64 a z.
Definition byte_is (a : Z) (v : value) : Prop := exists z, v = VByte z /\ signed 8 a z.
Variables H sha : bytes -> bytes.
Variable fits : Z -> bool.
Variable avlv : avl_verifier.
Variable c : context G (chain_state G).
Notation env := (env G).
Notation expr := (expr G).
Notation eval := (eval H sha fits avlv c).

(** The value is a collection of exactly these boxes, in this order. *)
Definition boxes_are (l : list (@ebox G)) (v : value) : Prop := coll SBox (map VBox l) v.
(** The result satisfies the description. *)
Definition gives (r : res (value * env)) (e : env) (Q : value -> Prop) : Prop := exists v, r = Ok (v, e) /\ Q v.

(** A node without payload. *)
Definition node (k : opk) (args : list expr) : expr := EOp k PNone args None.
Definition property (code id : Z) (x : expr) : expr := EProp (SMethod code id [] SAny) x.

(** ** C83 *)

(** The height, the spent box, the inputs, the outputs and the miner's key. *)
Theorem c83_context : forall n e,
  gives (eval (S n) (node OHeight []) e) e (int_is (c_height c)) /\
  gives (eval (S n) (node OSelfBox []) e) e (fun v => v = VBox (c_self c)) /\
  gives (eval (S n) (node OInputs []) e) e (boxes_are (c_inputs c)) /\
  gives (eval (S n) (node OOutputs []) e) e (boxes_are (c_outputs c)) /\
  (forall b, ec_write (ph_miner_pk (fst (c_state c))) = Ok b -> gives (eval (S n) (node OMinerPubKey []) e) e (holds b)).
Proof.
  intros n e. unfold gives, node. cbn [EvalModel.eval eval_step eval_op op0 bind]. repeat split.
  - eexists. split; [reflexivity|]. eexists. split; [reflexivity|apply wraps_signed; lia].
  - eauto.
  - eexists. split; [reflexivity|]. cbn. split; [discriminate|auto].
  - eexists. split; [reflexivity|]. cbn. split; [discriminate|auto].
  - intros b ->. cbn [bind]. eexists. split; [reflexivity|apply holds_vbytes].
Qed.

(** A property of the context object, or of a value of another type.  [ms] is any
    method descriptor with the type and the number of the property. *)
Section Prop_.
Variables (n : nat) (e e1 : env) (x : expr) (m : smethod).
Notation prop := (eval (S n) (EProp m x) e).
Lemma prop_step v : eval n x e = Ok (v, e1) -> sm_code m <> 12 -> sm_code m <> 36 ->
  prop = (r <- method_value H avlv c m v [] ;; Ok (r, e1)).
Proof.
  intros E N1 N2. cbn [EvalModel.eval eval_step]. rewrite E. cbn [bind]. unfold eval_method.
  replace (sm_code m =? 12) with false by lia. replace (sm_code m =? 36) with false by lia. reflexivity.
Qed.
Ltac prop_go E C I := rewrite (prop_step _ E) by (rewrite C; lia); unfold method_value; rewrite C, I; cbn [Z.eqb Pos.eqb].

Theorem c83_context_properties : eval n x e = Ok (VContext, e1) -> sm_code m = 101 ->
  (sm_id m = 1 -> gives prop e1 (boxes_are (match c_data c with Some l => l | None => [] end))) /\
  (sm_id m = 2 -> gives prop e1 (coll SHeader (map VHeader (snd (c_state c))))) /\
  (sm_id m = 3 -> gives prop e1 (fun v => v = VPreHeader (fst (c_state c)))) /\
  (forall h hs, sm_id m = 9 -> snd (c_state c) = h :: hs -> gives prop e1 (fun v => v = VAvl (Avl (h_state_root h) 7 32 None))).
Proof.
  intros E C. repeat split.
  - intros I. prop_go E C I. cbn. eexists. split; [reflexivity|]. cbn. split; [discriminate|auto].
  - intros I. prop_go E C I. cbn. eexists. split; [reflexivity|]. cbn. split; [discriminate|auto].
  - intros I. prop_go E C I. cbn. eexists. split; reflexivity.
  - intros h hs I S. prop_go E C I. cbn. rewrite S. eexists. split; reflexivity.
Qed.

(** The position of the spent box among the inputs: the first input equal to it. *)
Lemma position_first (HG : group_ok G) b : forall (l : list (@ebox G)), match box_position b l with
  | Some i => 0 <= i < Zlen l /\ at_ l i = Some b /\ forall j, j < i -> at_ l j <> Some b
  | None => ~ In b l
  end.
Proof.
  induction l as [|y l IH]; cbn [box_position]; [tauto|]. pose proof (Zlen_nonneg _ l). rewrite Zlen_cons.
  destruct (ebox_eqb y b) eqn:Q.
  - apply (deq_ebox HG y b) in Q. subst y. split; [lia|]. split; [rewrite at_cons; reflexivity|]. intros j J. rewrite at_out by lia. discriminate.
  - assert (N : y <> b) by (intros ->; pose proof (proj2 (deq_ebox HG b b) eq_refl); congruence).
    destruct (box_position b l) as [i|].
    + destruct IH as (B & A & F). split; [lia|]. split.
      * rewrite at_cons. replace (i + 1 =? 0) with false by lia. replace (i + 1 - 1) with i by lia. exact A.
      * intros j J. rewrite at_cons. destruct (j =? 0) eqn:J0; [congruence|]. apply F. lia.
    + intros [I|I]; tauto.
Qed.
Theorem c83_self_index : group_ok G -> eval n x e = Ok (VContext, e1) -> sm_code m = 101 -> sm_id m = 8 -> Zlen (c_inputs c) < 2 ^ 31 ->
  (forall i, at_ (c_inputs c) i = Some (c_self c) -> (forall j, j < i -> at_ (c_inputs c) j <> Some (c_self c)) -> prop = Ok (VInt i, e1)) /\
  (~ In (c_self c) (c_inputs c) -> is_ok prop = false).
Proof.
  intros HG E C I L. prop_go E C I. cbn [context_method Z.eqb Pos.eqb]. pose proof (position_first HG (c_self c) (c_inputs c)) as P.
  destruct (box_position (c_self c) (c_inputs c)) as [i|]; cbn [of_option bind].
  - destruct P as (B & A & F). rewrite wraps_id by lia. split.
    + intros k K Fk. f_equal. f_equal. f_equal. destruct (Z.lt_trichotomy i k) as [Q|[Q|Q]]; [|exact Q|]; exfalso.
      * exact (Fk i Q A).
      * exact (F k Q K).
    + intros N. exfalso. apply N. unfold at_ in A. destruct (i <? 0); [discriminate|]. apply nth_error_In in A. exact A.
  - split; [|reflexivity]. intros k K _. exfalso. apply P. unfold at_ in K. destruct (k <? 0); [discriminate|]. apply nth_error_In in K. exact K.
Qed.

(** The fields of a header. *)
Theorem c83_header : forall h, eval n x e = Ok (VHeader h, e1) -> sm_code m = 104 ->
  (sm_id m = 1 -> gives prop e1 (holds (h_id h))) /\
  (sm_id m = 2 -> gives prop e1 (byte_is (h_version h))) /\
  (sm_id m = 3 -> gives prop e1 (holds (h_parent_id h))) /\
  (sm_id m = 4 -> gives prop e1 (holds (h_ad_proofs_root h))) /\
  (sm_id m = 6 -> gives prop e1 (holds (h_transaction_root h))) /\
  (sm_id m = 7 -> gives prop e1 (long_is (h_timestamp h))) /\
  (sm_id m = 8 -> gives prop e1 (long_is (h_n_bits h))) /\
  (sm_id m = 9 -> gives prop e1 (int_is (h_height h))) /\
  (sm_id m = 10 -> gives prop e1 (holds (h_extension_root h))) /\
  (sm_id m = 11 -> gives prop e1 (fun v => v = VGroup (miner_pk (h_solution h)))) /\
  (forall p, sm_id m = 12 -> pow_onetime_pk (h_solution h) = Some p -> gives prop e1 (fun v => v = VGroup p)) /\
  (sm_id m = 13 -> gives prop e1 (holds (nonce (h_solution h)))) /\
  (forall d, sm_id m = 14 -> pow_distance (h_solution h) = Some d -> b256 d -> gives prop e1 (fun v => v = VBigInt d)) /\
  (sm_id m = 15 -> gives prop e1 (holds (h_votes h))).
Proof.
  intros h E C. repeat split;
    try (intros I; prop_go E C I; cbn; eexists; (split; [reflexivity|]); first
      [apply holds_vbytes | (eexists; split; [reflexivity|apply wraps_signed; lia]) | reflexivity]).
  - intros p I P. prop_go E C I. cbn. rewrite P. eexists. split; reflexivity.
  - intros d I P D. prop_go E C I. cbn [header_method get_header bind Z.eqb Pos.eqb]. rewrite P.
    assert (b256_of_bigint d = Some d) as ->.
    { unfold b256_of_bigint, b256 in *. destruct (Z.ltb_spec d b256_min); [lia|]. destruct (Z.ltb_spec b256_max d); [lia|reflexivity]. }
    cbn. eexists. split; reflexivity.
Qed.
(** The fields of the pre-header. *)
Theorem c83_pre_header : forall h, eval n x e = Ok (VPreHeader h, e1) -> sm_code m = 105 ->
  (sm_id m = 1 -> gives prop e1 (byte_is (ph_version h))) /\
  (sm_id m = 2 -> gives prop e1 (holds (ph_parent_id h))) /\
  (sm_id m = 3 -> gives prop e1 (long_is (ph_timestamp h))) /\
  (sm_id m = 4 -> gives prop e1 (long_is (ph_n_bits h))) /\
  (sm_id m = 5 -> gives prop e1 (int_is (ph_height h))) /\
  (sm_id m = 6 -> gives prop e1 (fun v => v = VGroup (ph_miner_pk h))) /\
  (sm_id m = 7 -> gives prop e1 (holds (ph_votes h))).
Proof.
  intros h E C. repeat split;
    (intros I; prop_go E C I; cbn; eexists; (split; [reflexivity|]); first
      [apply holds_vbytes | (eexists; split; [reflexivity|apply wraps_signed; lia]) | reflexivity]).
Qed.
(** The tokens of a box: their identifiers and amounts, in order. *)
Theorem c83_box_properties : forall id b, eval n x e = Ok (VBox (id, b), e1) -> sm_code m = 99 ->
  (sm_id m = 1 -> gives prop e1 (long_is (cd_value (b_cand b)))) /\
  (sm_id m = 8 -> gives prop e1 (fun v => exists l, coll (STuple [SColl SByte; SLong]) l v /\
     Forall2 (fun t w => exists i, holds (fst t) i /\ w = VTup [i; VLong (snd t)]) (cd_tokens (b_cand b)) l)).
Proof.
  intros id b E C. split; intros I; prop_go E C I; cbn; eexists; (split; [reflexivity|]).
  - eexists. split; [reflexivity|apply wraps_signed; lia].
  - eexists. split; [cbn; split; [discriminate|]; split; [reflexivity|reflexivity]|].
    rewrite map_map. induction (cd_tokens (b_cand b)) as [|t l IH]; cbn [map]; constructor; [|exact IH].
    cbn. eexists. split; [apply holds_i8s|reflexivity].
Qed.
End Prop_.

(** The parts of a box. *)
Theorem c83_box : forall n e e1 x id b, eval n x e = Ok (VBox (id, b), e1) ->
  gives (eval (S n) (node OExtractAmount [x]) e) e1 (long_is (cd_value (b_cand b))) /\
  gives (eval (S n) (node OExtractId [x]) e) e1 (holds id) /\
  (forall s, ser_box b = Ok s -> gives (eval (S n) (node OExtractBytes [x]) e) e1 (holds s)) /\
  (forall s, ser_cand None (b_cand b) = Ok s -> gives (eval (S n) (node OExtractBytesWithNoRef [x]) e) e1 (holds s)) /\
  (forall s, ser_tree (cd_tree (b_cand b)) = Ok s -> gives (eval (S n) (node OExtractScriptBytes [x]) e) e1 (holds s)) /\
  gives (eval (S n) (node OExtractCreationInfo [x]) e) e1 (fun v => exists h r, v = VTup [h; r] /\
    int_is (cd_height (b_cand b)) h /\ holds (b_txid b ++ [b_index b / 256 mod 256; b_index b mod 256]) r).
Proof.
  intros n e e1 x id b E. unfold gives, node. cbn [EvalModel.eval eval_step eval_op]. rewrite E. cbn [bind op1 get_box].
  repeat split.
  - eexists. split; [reflexivity|]. eexists. split; [reflexivity|apply wraps_signed; lia].
  - eexists. split; [reflexivity|apply holds_vbytes].
  - intros s Q. cbn [snd]. rewrite Q. cbn [bind]. eexists. split; [reflexivity|apply holds_vbytes].
  - intros s Q. unfold bytes_without_ref. cbn [snd]. rewrite Q. cbn [bind]. eexists. split; [reflexivity|apply holds_i8s].
  - intros s Q. unfold script_bytes. cbn [snd]. rewrite Q. cbn [bind]. eexists. split; [reflexivity|apply holds_i8s].
  - cbn [snd creation_info]. eexists. split; [reflexivity|]. eexists _, _. split; [reflexivity|]. split.
    + eexists. split; [reflexivity|apply wraps_signed; lia].
    + replace (be_bytes 2 (b_index b)) with [b_index b / 256 mod 256; b_index b mod 256] by reflexivity. apply holds_i8s.
Qed.

(** A register read in a script, by its number; [r] is the result. *)
Definition register_is (b : box G) (k : Z) (r : res (value * env)) (e : env) : Prop :=
  (k = 0 -> 0 <= cd_value (b_cand b) < 2 ^ 63 -> gives r e (fun v => v = VOpt (Some (VLong (cd_value (b_cand b)))))) /\
  (forall s, k = 1 -> ser_tree (cd_tree (b_cand b)) = Ok s -> gives r e (fun v => exists w, v = VOpt (Some w) /\ holds s w)) /\
  (k = 2 -> gives r e (fun v => exists w l, v = VOpt (Some w) /\ coll (STuple [SColl SByte; SLong]) l w /\
     Forall2 (fun t w => exists i, holds (fst t) i /\ w = VTup [i; VLong (snd t)]) (cd_tokens (b_cand b)) l)) /\
  (k = 3 -> gives r e (fun v => exists h i, v = VOpt (Some (VTup [h; i])) /\
    int_is (cd_height (b_cand b)) h /\ holds (b_txid b ++ [b_index b / 256 mod 256; b_index b mod 256]) i)) /\
  (forall q, 4 <= k <= 9 -> at_ (cd_regs (b_cand b)) (k - 4) = Some (RParsed q) ->
     gives r e (fun v => exists w, v = VOpt (Some w) /\ forall n e', eval (S n) (EConst q) e' = Ok (w, e'))) /\
  (4 <= k <= 9 -> Zlen (cd_regs (b_cand b)) <= k - 4 -> gives r e (fun v => v = VOpt None)) /\
  (forall s, 4 <= k <= 9 -> at_ (cd_regs (b_cand b)) (k - 4) = Some (RInvalid s) -> is_ok r = false) /\
  (~ 0 <= k <= 9 -> is_ok r = false).
Lemma register_value b k e : register_is b k (id <- reg_id_of_i8 k ;; v <- reg_value H b id ;; Ok (v, e)) e.
Proof.
  unfold register_is, reg_id_of_i8.
  assert (D : k = 0 \/ k = 1 \/ k = 2 \/ k = 3 \/ 4 <= k <= 9 \/ ~ 0 <= k <= 9) by lia.
  destruct D as [->|[->|[->|[->|[D|D]]]]]; cbn [Z.leb Z.compare Pos.compare Pos.compare_cont andb bind];
    (repeat match goal with |- _ /\ _ => split end); try (intros; lia); try (intros ? ? ?; lia); intros.
  - eexists. split; reflexivity.
  - unfold reg_value, get_register, script_bytes. match goal with Q : ser_tree _ = _ |- _ => rewrite Q end. cbn [bind].
    eexists. split; [reflexivity|]. eexists. split; [reflexivity|apply holds_i8s].
  - eexists. split; [reflexivity|]. eexists _, _. split; [reflexivity|]. split; [cbn; split; [discriminate|]; split; reflexivity|].
    rewrite map_map. induction (cd_tokens (b_cand b)) as [|t l IH]; cbn [map]; constructor; [|exact IH].
    cbn. eexists. split; [apply holds_i8s|reflexivity].
  - eexists. split; [reflexivity|]. eexists _, _. split; [reflexivity|]. split.
    + eexists. split; [reflexivity|apply wraps_signed; lia].
    + replace [b_index b / 256 mod 256; b_index b mod 256] with (be_bytes 2 (b_index b)) by reflexivity. apply holds_i8s.
  - replace ((0 <=? k) && (k <=? 9)) with true by lia. cbn [bind]. unfold reg_value.
    assert (R : get_register b k = regs_get_constant (cd_regs (b_cand b)) k) by (destruct k as [|[[]|[]|]|]; try lia; reflexivity).
    rewrite R. unfold regs_get_constant. match goal with Q : at_ _ _ = _ |- _ => unfold at_ in Q; replace (k - 4 <? 0) with false in Q by lia; rewrite Q end.
    cbn [reg_constant bind]. eexists. split; [reflexivity|]. eexists. split; [reflexivity|]. reflexivity.
  - replace ((0 <=? k) && (k <=? 9)) with true by lia. cbn [bind]. unfold reg_value.
    assert (R : get_register b k = regs_get_constant (cd_regs (b_cand b)) k) by (destruct k as [|[[]|[]|]|]; try lia; reflexivity).
    rewrite R. unfold regs_get_constant. replace (nth_error (cd_regs (b_cand b)) (Z.to_nat (k - 4))) with (@None (regval G)).
    2: { symmetry. apply nth_error_None. unfold Zlen in *. lia. }
    eexists. split; reflexivity.
  - replace ((0 <=? k) && (k <=? 9)) with true by lia. cbn [bind]. unfold reg_value.
    assert (R : get_register b k = regs_get_constant (cd_regs (b_cand b)) k) by (destruct k as [|[[]|[]|]|]; try lia; reflexivity).
    rewrite R. unfold regs_get_constant. match goal with Q : at_ _ _ = _ |- _ => unfold at_ in Q; replace (k - 4 <? 0) with false in Q by lia; rewrite Q end.
    reflexivity.
  - replace ((0 <=? k) && (k <=? 9)) with false by lia. reflexivity.
Qed.
Theorem c83_register : forall n e e1 x id b k, eval n x e = Ok (VBox (id, b), e1) ->
  (forall t, register_is b k (eval (S n) (EOp OExtractRegisterAs (PI8Type k t) [x] None) e) e1) /\
  (forall m y e2, sm_code m = 99 -> sm_id m = 7 -> eval n y e1 = Ok (VByte k, e2) ->
    register_is b k (eval (S n) (EMethod m x [y]) e) e2).
Proof.
  intros n e e1 x id b k E. split.
  - intros t. cbn [EvalModel.eval eval_step eval_op]. rewrite E. cbn [bind op1 get_box snd].
    pose proof (register_value b k e1) as R. destruct (reg_id_of_i8 k); exact R.
  - intros m y e2 C I Y. cbn [EvalModel.eval eval_step]. rewrite E. cbn [bind eval_list]. rewrite Y. cbn [bind].
    unfold eval_method. rewrite C, I. cbn [Z.eqb Pos.eqb andb]. unfold method_value. rewrite C, I. cbn [Z.eqb Pos.eqb].
    unfold box_method. cbn [Z.eqb Pos.eqb arg nth_error of_option bind get_byte get_box snd].
    pose proof (register_value b k e2) as R. destruct (reg_id_of_i8 k); exact R.
Qed.
End Data.
Print Assumptions c83_context.
Print Assumptions c83_context_properties.
Print Assumptions c83_self_index.
Print Assumptions c83_header.
Print Assumptions c83_pre_header.
Print Assumptions c83_box.
Print Assumptions c83_box_properties.
Print Assumptions c83_register.

(** In the context made for input [i] of a transaction whose inputs are distinct, the
    position of the spent box is [i]. *)
Theorem c83_self_index_of_input : forall (G : group) H sha fits avlv T (E : etx G T) (height : chain_state G -> Z) st t boxes dboxes x i outs,
  group_ok G ->
  txctx_new E t boxes dboxes = Ok x -> e_outputs E t = Ok outs ->
  (forall k, (k < List.length (e_inputs E t))%nat -> e_ext E t k <> None) ->
  NoDup (e_inputs E t) -> (i < List.length (e_inputs E t))%nat -> Zlen (e_inputs E t) < 2 ^ 31 ->
  exists c, make_context E height st x i = Ok c /\ forall n m e, sm_code m = 101 -> sm_id m = 8 ->
    eval H sha fits avlv c (S (S n)) (EProp m (node OContext [])) e = Ok (VInt (Z.of_nat i), e).
Proof.
  intros G H sha fits avlv T E height st t boxes dboxes x i outs HG X Ho Hx ND Hi L.
  destruct (c61_make_context G _ T E height st t boxes dboxes x i outs X Ho Hx Hi) as (c & C & Ci & Cn & Cm & _).
  exists c. split; [exact C|]. intros n m e Mc Mi.
  assert (Ln : Zlen (c_inputs c) = Zlen (e_inputs E t)) by (rewrite <- Cm; unfold Zlen; rewrite map_length; reflexivity).
  apply (c83_self_index H sha fits avlv c (S n) e e (node OContext []) m HG eq_refl Mc Mi); [lia| |].
  - unfold at_. replace (Z.of_nat i <? 0) with false by lia. rewrite Nat2Z.id. exact Cn.
  - intros j J A. unfold at_ in A. destruct (Z.ltb_spec j 0); [discriminate|].
    assert (Q : nth_error (e_inputs E t) (Z.to_nat j) = nth_error (e_inputs E t) i).
    { rewrite Ci, <- Cm. exact (map_nth_error fst _ _ A). }
    rewrite NoDup_nth_error in ND. apply ND in Q; [lia|].
    rewrite <- Cm, map_length. apply nth_error_Some. unfold ebox in *. intros Q2. rewrite Q2 in A. discriminate.
Qed.
Print Assumptions c83_self_index_of_input.

(** ** What does not hold *)
Section Refuted.
Context {G : group}.
Variables H sha : bytes -> bytes.
Variable fits : Z -> bool.
Variable avlv : avl_verifier.
Variable c : context G (chain_state G).
Notation eval := (eval H sha fits avlv c).

(** Reading a register as a value of a type it does not have succeeds: the register
    holds an Int, the script asks for a Long and gets the Int; addition of a Long
    literal then fails, while the equality with that literal is false. *)
Definition box_r4 : box G := MkBox (MkCand 1000000 (Unparsed []) [] [RParsed (MkConst SInt (LInt 5))] 0) (repeat 0 32) 0.
Theorem c83_register_type_refuted : exists x : expr G, tpe x = SOption SLong /\
  eval 3 x [] = Ok (VOpt (Some (VInt 5)), []) /\
  forall n r, eval n (EBin BPlus (EOp OOptionGet PNone [x] None) (EConst (MkConst SLong (LLong 1)))) [] <> Ok r.
Proof.
  exists (EOp OExtractRegisterAs (PI8Type 4 SLong) [EConst (MkConst SBox (LBox box_r4))] None).
  split; [reflexivity|]. split; [reflexivity|]. intros [|[|[|[|n]]]] r; discriminate.
Qed.
(** The state root of a header is declared to be an authenticated tree; it is bytes. *)
Theorem c83_state_root_refuted : exists m (x : expr G), from_ids 104 5 = Ok m /\ tpe (EProp m x) = SAvlTree /\
  forall h hs, snd (c_state c) = h :: hs -> forall n, eval (S (S (S (S n)))) (EProp m x) [] = Ok (vbytes (h_state_root h), []).
Proof.
  exists (SMethod 104 5 [SHeader] SAvlTree).
  exists (EOp OByIndex PNone [EProp (SMethod 101 2 [SContext] (SColl SHeader)) (node OContext []); EConst (MkConst SInt (LInt 0))] None).
  split; [reflexivity|]. split; [reflexivity|]. intros h hs E n. cbn. rewrite E. reflexivity.
Qed.
(** Five properties of the context are accepted when a script is read but can never
    be evaluated: OUTPUTS, INPUTS, HEIGHT, SELF and minerPubKey as properties. *)
Theorem c83_context_property_refuted : Forall (fun id => exists m, from_ids 101 id = Ok m /\
  forall (x : expr G) n e r, eval n (EProp m x) e <> Ok r) [4; 5; 6; 7; 10].
Proof.
  repeat constructor; (eexists; split; [reflexivity|]); intros x [|n] e r; try discriminate; cbn [EvalModel.eval eval_step];
    destruct (EvalModel.eval H sha fits avlv c n x e) as [[v e']| |]; cbn [bind]; try discriminate;
    cbn; unfold context_method; destruct v; discriminate.
Qed.
End Refuted.
Print Assumptions c83_register_type_refuted.
Print Assumptions c83_state_root_refuted.
Print Assumptions c83_context_property_refuted.

(** A box at the first and at the third place of the inputs: it sees its own index, its
    own value, its register and the data of the context. *)
Example c83_hyps_met : forall (G : group) (HG : group_ok G) (H sha : bytes -> bytes) fits avlv (st : chain_state G) (id : bytes),
  let other : ebox G := ([], MkBox (MkCand 1 (Unparsed []) [] [] 0) [] 0) in
  let c := MkContext (2 ^ 31 + 5) (id, box_r4) [other] None [other; (id, box_r4); other] st [] in
  let m := SMethod 101 8 [SContext] SInt in
  EvalModel.eval H sha fits avlv c 2 (EProp m (node OContext [])) [] = Ok (VInt 1, []) /\
  register_is H sha fits avlv c box_r4 4 (EvalModel.eval H sha fits avlv c 2 (EOp OExtractRegisterAs (PI8Type 4 SInt) [node OSelfBox []] None) []) [] /\
  gives (EvalModel.eval H sha fits avlv c 1 (node OHeight []) []) [] (fun v => v = VInt (- 2 ^ 31 + 5)).
Proof.
  intros G HG H sha fits avlv st id other c m. split; [|split].
  - refine (proj1 (c83_self_index H sha fits avlv c 1 [] [] (node OContext []) m HG eq_refl eq_refl eq_refl _) 1 _ _); [cbn; lia|reflexivity|].
    intros j J. unfold at_. destruct (j <? 0) eqn:Q; [discriminate|]. replace j with 0 by lia. cbn. intros E. injection E as _ E. discriminate.
  - exact (proj1 (c83_register H sha fits avlv c 1 [] [] (node OSelfBox []) id box_r4 4 eq_refl) SInt).
  - eexists. split; reflexivity.
Qed.
