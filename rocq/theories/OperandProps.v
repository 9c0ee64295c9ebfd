(** The operands of scripts that were read have the types the operations take:
    C113. *)
From Verif Require Import Base VlqModel VlqProofs GroupModel GroupProofs SigmaModel SigmaProofs.
From Verif Require Import TypeModel MethodModel IrModel SerModel SerLocal SerSpec SerProofs SerProps ChainModel ChainProps
  HeaderModel TxModel TxProps ReadProofs ParseProofs ParseProps EqModel PrintModel EvalModel EvalProofs EvalScope PrintProofs
  EvalPanic TypeProofs EqProofs SerSegSpec SerSeg EvalPanicProps TypeSound GroupInstance.
Local Open Scope string_scope.
Local Open Scope list_scope.
Local Open Scope Z_scope.

(** ** The typing rules of the language *)
Definition number (t : stype) : Prop := In t [SByte; SShort; SInt; SLong; SBigInt].
Notation octets := (SColl SByte).
(** [rule k p ts d t]: the operation [k] with the parameters [p] takes operands of
    the types [ts] and a default of the type in [d], and gives a [t]. *)
Inductive rule : opk -> payload -> list stype -> option stype -> stype -> Prop :=
| r_height : rule OHeight PNone [] None SInt
| r_inputs : rule OInputs PNone [] None (SColl SBox)
| r_outputs : rule OOutputs PNone [] None (SColl SBox)
| r_self : rule OSelfBox PNone [] None SBox
| r_miner : rule OMinerPubKey PNone [] None octets
| r_generator : rule OGroupGenerator PNone [] None SGroupElement
| r_global : rule OGlobal PNone [] None SGlobal
| r_context : rule OContext PNone [] None SContext
| r_bit_inversion t : number t -> rule OBitInversion PNone [t] None t
| r_negation t : number t -> rule ONegation PNone [t] None t
| r_bool_to_sigma : rule OBoolToSigmaProp PNone [SBoolean] None SSigmaProp
| r_to_bigint : rule OByteArrayToBigInt PNone [octets] None SBigInt
| r_to_long : rule OByteArrayToLong PNone [octets] None SLong
| r_blake : rule OCalcBlake2b256 PNone [octets] None octets
| r_sha : rule OCalcSha256 PNone [octets] None octets
| r_point : rule ODecodePoint PNone [octets] None SGroupElement
| r_size t : rule OSizeOf PNone [SColl t] None SInt
| r_dlog : rule OCreateProveDlog PNone [SGroupElement] None SSigmaProp
| r_amount : rule OExtractAmount PNone [SBox] None SLong
| r_bytes : rule OExtractBytes PNone [SBox] None octets
| r_bytes_no_ref : rule OExtractBytesWithNoRef PNone [SBox] None octets
| r_id : rule OExtractId PNone [SBox] None octets
| r_script : rule OExtractScriptBytes PNone [SBox] None octets
| r_creation : rule OExtractCreationInfo PNone [SBox] None (STuple [SInt; octets])
| r_not : rule OLogicalNot PNone [SBoolean] None SBoolean
| r_of_long : rule OLongToByteArray PNone [SLong] None octets
| r_get t : rule OOptionGet PNone [SOption t] None t
| r_defined t : rule OOptionIsDefined PNone [SOption t] None SBoolean
| r_prop_bytes : rule OSigmaPropBytes PNone [SSigmaProp] None octets
| r_and : rule OAnd PNone [SColl SBoolean] None SBoolean
| r_or : rule OOr PNone [SColl SBoolean] None SBoolean
| r_xor_of : rule OXorOf PNone [SColl SBoolean] None SBoolean
| r_atleast : rule OAtleast PNone [SInt; SColl SSigmaProp] None SSigmaProp
| r_append t : rule OAppend PNone [SColl t; SColl t] None (SColl t)
| r_exists t : rule OExists PNone [SColl t; SFunc [t] SBoolean] None SBoolean
| r_forall t : rule OForAll PNone [SColl t; SFunc [t] SBoolean] None SBoolean
| r_filter t : rule OFilter PNone [SColl t; SFunc [t] SBoolean] None (SColl t)
| r_map t u : rule OMap PNone [SColl t; SFunc [t] u] None (SColl u)
| r_get_or_else t : rule OOptionGetOrElse PNone [SOption t; t] None t
| r_xor : rule OXor PNone [octets; octets] None octets
| r_exp : rule OExponentiate PNone [SGroupElement; SBigInt] None SGroupElement
| r_mul : rule OMultiplyGroup PNone [SGroupElement; SGroupElement] None SGroupElement
| r_fold t z : rule OFold PNone [SColl t; z; SFunc [STuple [z; t]] z] None z
| r_if t : rule OIf PNone [SBoolean; t; t] None t
| r_slice t : rule OSlice PNone [SColl t; SInt; SInt] None (SColl t)
| r_subst t : rule OSubstConstants PNone [octets; SColl SInt; SColl t] None octets
| r_lookup : rule OTreeLookup PNone [SAvlTree; octets; octets] None (SOption octets)
| r_dh : rule OCreateProveDhTuple PNone [SGroupElement; SGroupElement; SGroupElement; SGroupElement] None SSigmaProp
| r_avl d : d = None \/ d = Some SInt -> rule OCreateAvlTree PNone [SByte; octets; SInt] d SAvlTree
| r_by_index t d : d = None \/ d = Some t -> rule OByIndex PNone [SColl t; SInt] d t
| r_reg_script r t d : d = None \/ d = Some t -> rule ODeserializeRegister (PU8Type r t) [] d t
| r_ctx_script r t : rule ODeserializeContext (PTypeU8 t r) [] None t
| r_var r t : rule OGetVar (PU8Type r t) [] None (SOption t)
| r_reg r t : rule OExtractRegisterAs (PI8Type r t) [SBox] None (SOption t)
| r_upcast t u : number t -> number u -> rule OUpcast (PType u) [t] None u
| r_downcast t u : number t -> number u -> rule ODowncast (PType u) [t] None u
| r_field i l t : 1 <= i -> nth_error l (Z.to_nat (i - 1)) = Some t -> rule OSelectField (PIndex i) [STuple l] None t.
Inductive bin_rule : bink -> stype -> stype -> Prop :=
| br_arith k t : In k [BPlus; BMinus; BMultiply; BDivide; BMax; BMin; BModulo; BGe; BGt; BLe; BLt; BBitOr; BBitAnd; BBitXor] ->
    number t -> bin_rule k t t
| br_eq k t : In k [BEq; BNEq] -> bin_rule k t t
| br_logic k : In k [BAnd; BOr; BXor] -> bin_rule k SBoolean SBoolean.

(** The operations whose operands the reader does not look at. *)
Definition unchecked (k : opk) : bool :=
  match k with
  | OAnd | OOr | OXorOf | OExponentiate | OMultiplyGroup | OFold | OIf | OTreeLookup | OCreateProveDhTuple
  | OUpcast | ODowncast | ODeserializeRegister => true
  | _ => false
  end.
(** An expression of type [t] is taken for one of type [u]: it has the type, or it
    is a function with such results. *)
Definition taken_for (t u : stype) : Prop := t = u \/ exists d, t = SFunc d u.
Definition opt_rel (R : stype -> stype -> Prop) (a b : option stype) : Prop :=
  match a, b with Some x, Some y => R x y | None, None => True | _, _ => False end.

Lemma pe_taken t : taken_for t (pe t).
Proof. destruct t; cbn [pe]; try (left; reflexivity). right. eexists. reflexivity. Qed.
Lemma need_ok b t u : need b t = Ok u -> b = true /\ u = t.
Proof. unfold need. destruct b; [|discriminate]. intros E. injection E as <-. auto. Qed.
Lemma numeric_number t : is_numeric t = true -> number t.
Proof. destruct t; cbn; intros E; try discriminate; unfold number; cbn; tauto. Qed.
Lemma coll_is t : is_coll t = true -> exists u, t = SColl u.
Proof. destruct t; cbn; try discriminate. eauto. Qed.

Section Ops.
Lemma ty_eq t u : stype_eqb t u = true -> t = u.
Proof. apply stype_eqb_eq. Qed.
Lemma tys_eq l m : leqb stype_eqb l m = true -> l = m.
Proof. apply deq_types. Qed.
(** Name what each operand is taken for. *)
Ltac operands E := repeat match type of E with context [pe ?x] =>
  let q := fresh "q" in let T := fresh "T" in
  pose proof (pe_taken x) as T; revert T E; generalize (pe x); intros q T E end.
Ltac facts := repeat match goal with
  | X : need _ _ = Ok _ |- _ => apply need_ok in X; destruct X
  | X : (_ && _)%bool = true |- _ => apply andb_true_iff in X; destruct X
  | X : stype_eqb _ _ = true |- _ => apply ty_eq in X; subst
  | X : leqb stype_eqb _ _ = true |- _ => apply tys_eq in X; subst
  | X : is_numeric _ = true |- _ => apply numeric_number in X
  | X : is_coll _ = true |- _ => apply coll_is in X; destruct X; subst
  | X : Ok _ = Ok _ |- _ => injection X as <-
  end.
Ltac rest := eexists; split; [repeat (apply Forall2_cons; [eassumption || (left; reflexivity)|]); apply Forall2_nil|];
  split; [first [exact Logic.I|eassumption]|]; split; [first [eassumption|left; reflexivity]|]; constructor; auto; fail.
Ltac conclude := eexists; first [exists None; rest|eexists (Some _); rest].
Lemma checked_rule k p ts d t : unchecked k = false -> payload_ok p -> op_ty k p ts d = Ok t ->
  exists ts' d' t', Forall2 taken_for ts ts' /\ opt_rel taken_for d d' /\ taken_for t t' /\ rule k p ts' d' t'.
Proof.
  intros U P E. destruct k; try discriminate U; clear U; destruct p; try discriminate E;
    destruct ts as [|a [|b [|c [|e ts]]]]; try discriminate E; try (destruct d as [d|]; try discriminate E);
    cbn [op_ty] in E; operands E;
    repeat match type of E with context [match ?x with _ => _ end] => is_var x; destruct x; try discriminate E end;
    facts; try subst t; try conclude.
  cbn [payload_ok] in P. destruct (nth_error items (Z.to_nat (i - 1))) as [u|] eqn:N; [|discriminate E]. injection E as <-.
  exists [STuple items], None, u. split; [repeat constructor|]. split; [exact Logic.I|]. split; [now left|]. now constructor.
Qed.
(** What follows the rules is accepted, unless the result is a function. *)
Lemma number_numeric t : number t -> is_numeric t = true /\ pe t = t.
Proof. unfold number. cbn. intuition (subst; auto). Qed.
Lemma rule_accepted k p ts d t : (forall x y, t <> SFunc x y) -> rule k p ts d t -> op_ty k p ts d = Ok t.
Proof.
  assert (PE : forall u, (forall x y, u <> SFunc x y) -> pe u = u) by (intros u N; destruct u; auto; exfalso; eapply N; reflexivity).
  intros N R. destruct R; cbn [op_ty pe]; rewrite ?stype_eqb_refl, ?leqb_refl; try reflexivity;
    repeat match goal with X : number _ |- _ => apply number_numeric in X as [? ?] end;
    repeat match goal with X : pe _ = _ |- _ => rewrite X end; repeat match goal with X : is_numeric _ = true |- _ => rewrite X end;
    try reflexivity.
  - rewrite (PE t N), stype_eqb_refl. reflexivity.
  - destruct H as [->| ->]; reflexivity.
  - destruct H as [->| ->]; [reflexivity|]. rewrite (PE t N), stype_eqb_refl. reflexivity.
  - rewrite H0. reflexivity.
Qed.
End Ops.

Section Read.
Context {G : group}.
(** The node follows the rules. *)
Definition obeys (x : expr G) : Prop :=
  match x with
  | EOp k p args d => unchecked k = false -> exists ts d' t, Forall2 taken_for (map tpe args) ts /\
      opt_rel taken_for (option_map tpe d) d' /\ taken_for (tpe x) t /\ rule k p ts d' t
  | ESeq QSigmaAnd l | ESeq QSigmaOr l => Forall (fun y => taken_for (tpe y) SSigmaProp) l /\ tpe x = SSigmaProp
  | EApply f l => tpe f = SFunc (map tpe l) (tpe x)
  | EMethod m o l => sm_dom m = tpe o :: map tpe l /\ tpe x = sm_range m
  | EProp m o => sm_dom m = [tpe o] /\ tpe x = sm_range m
  | _ => True
  end.
Lemma seq_obeys (l : list (expr G)) t : need (forallb (fun u => stype_eqb (pe u) SSigmaProp) (map tpe l)) SSigmaProp = Ok t ->
  Forall (fun y => taken_for (tpe y) SSigmaProp) l.
Proof.
  intros E. apply need_ok in E as [E _]. rewrite forallb_forall in E. apply Forall_forall. intros y I.
  specialize (E (tpe y) (in_map tpe l y I)). apply ty_eq in E. rewrite <- E. apply pe_taken.
Qed.
Lemma ok_obeys :
  (forall st t v st', ok_lit (G := G) st t v st' -> True) /\
  (forall st t l st', ok_lits (G := G) st t l st' -> True) /\
  (forall st ts l st', ok_items (G := G) st ts l st' -> True) /\
  (forall st c st', ok_const (G := G) st c st' -> True) /\
  (forall st l st', ok_consts (G := G) st l st' -> True) /\
  (forall m st e st', ok_expr (G := G) m st e st' -> every obeys e) /\
  (forall m st l st', ok_exprs (G := G) m st l st' -> Forall (every obeys) l) /\
  (forall m st d st', ok_opt (G := G) m st d st' -> match d with Some y => every obeys y | None => True end) /\
  (forall st t st', ok_tree (G := G) st t st' -> forall h cs x, t = Parsed h cs x -> every obeys x) /\
  (forall h st cs st', ok_seg (G := G) h st cs st' -> True) /\
  (forall st r st', ok_reg (G := G) st r st' -> match r with RTuple l => Forall (every obeys) l | _ => True end) /\
  (forall st l st', ok_regs (G := G) st l st' -> True) /\
  (forall st c st', ok_cand (G := G) st c st' -> True) /\
  (forall st b st', ok_box (G := G) st b st' -> True).
Proof.
  apply ok_mutind; intros; try exact Logic.I; try discriminate; subst; cbn [every]; rewrite ?each_Forall;
    try match goal with X : Parsed _ _ _ = Parsed _ _ _ |- _ => injection X as <- <- <- end; auto.
  all: try (split; [exact Logic.I|]; auto; fail).
  - split; [|auto]. intros U. destruct (checked_rule _ _ _ _ _ U H0 H3) as (ts & d' & t' & A & B & C & R).
    exists ts, d', t'. do 2 (split; [assumption|]). split; [|assumption]. cbn [tpe].
    replace (match d with Some x => Some (tpe x) | None => None end) with (option_map tpe d) by (destruct d; reflexivity).
    rewrite H3. exact C.
  - repeat split.
  - split; [|assumption]. destruct q; try exact Logic.I; cbn [obeys seq_ty tpe] in *;
      (split; [eapply seq_obeys; eassumption|]); apply need_ok in H0 as [-> _]; reflexivity.
  - split; [|auto]. cbn [obeys tpe]. unfold apply_ty in *. destruct (tpe f); try discriminate H0.
    pose proof H0 as E. apply need_ok in E as [E ->]. rewrite H0. apply tys_eq in E. now subst.
  - cbn [obeys tpe]. auto.
  - cbn [obeys tpe]. auto.
Qed.
End Read.

(** ** Reading *)
Section Props.
Context {G : group} (HG : group_ok G).
(** Every node of a script that was read follows the rules, apart from the
    operations of [unchecked], and up to functions being taken for their results. *)
Theorem c113_read_partial : forall bs h cs (root : expr G), input_ok bs -> tree_of_bytes bs = Ok (Parsed h cs root) ->
  every obeys root.
Proof.
  intros bs h cs root Hi E. destruct (tree_parsed _ _ _ _ _ E) as [st Es].
  pose proof (sat_out _ parse_script QTr fresh bs (fun k Hk st0 => sat_tree k Hk (sat_expr HG k Hk) st0) eq_refl Hi) as X.
  rewrite Es in X. destruct X as (u & _ & (H1 & _)).
  destruct (@ok_obeys G) as (_ & _ & _ & _ & _ & _ & _ & _ & T & _). apply (T _ _ _ H1 _ _ _ eq_refl).
Qed.
(** So do the scripts that are read while others are evaluated. *)
Theorem c113_read_expr_partial : forall bs (x : expr G), input_ok bs -> from_bytes parse_expr bs = Ok x -> every obeys x.
Proof.
  intros bs x Hi E. pose proof (sat_out _ _ _ fresh bs (sat_expr HG) eq_refl Hi) as X. unfold from_bytes in E.
  destruct (parse_expr fresh bs) as [[[y st] r]| |]; try discriminate. injection E as <-.
  destruct X as (u & _ & (H1 & _)). destruct (@ok_obeys G) as (_ & _ & _ & _ & _ & T & _). now apply (T _ _ _ _ H1).
Qed.
End Props.
(** The constructors take whatever follows the rules, if it does not give a
    function, and say what it gives. *)
Theorem c113_accepted_partial : forall k p ts d t, (forall x y, t <> SFunc x y) -> rule k p ts d t -> op_ty k p ts d = Ok t.
Proof. exact rule_accepted. Qed.
(** A property of the context has the type of the operation with its name. *)
Theorem c113_context : forall G : group, Forall (fun p => exists m, from_ids 101 (fst p) = Ok m /\
    sm_dom m = [tpe (EOp (G := G) OContext PNone [] None)] /\ sm_range m = tpe (EOp (G := G) (snd p) PNone [] None))
  [(4, OInputs); (5, OOutputs); (6, OHeight); (7, OSelfBox); (10, OMinerPubKey)].
Proof. intros G. repeat (apply Forall_cons; [eexists; split; [reflexivity|split; reflexivity]|]). apply Forall_nil. Qed.

(** ** Scripts that do not follow the rules *)
Section Refuted.
Variable G : group.
Let bytes_of (x : expr G) : bytes := match ser_tree (Parsed (th_v0 false) [] x) with Ok b => b | _ => [] end.
Ltac reads := split; [split; [unfold bytes_ok; repeat (apply Forall_cons; [split; lia|]); apply Forall_nil|reflexivity]|];
  split; [vm_compute; reflexivity|].
Notation i := (int (G := G) 1).
Definition wrong (k : opk) : expr G :=
  match k with
  | OAnd | OOr | OXorOf => EOp k PNone [i] None
  | OExponentiate | OMultiplyGroup => EOp k PNone [i; i] None
  | OFold | OIf | OTreeLookup => EOp k PNone [i; i; i] None
  | OCreateProveDhTuple => EOp k PNone [i; i; i; i] None
  | OUpcast | ODowncast => EOp k (PType SInt) [boolean true] None
  | ODeserializeRegister => EOp k (PU8Type 4 SInt) [] (Some (boolean true))
  | _ => i
  end.
Lemma taken_simple t u : (forall d r, t <> SFunc d r) -> taken_for t u -> u = t.
Proof. intros N [E|[d E]]; [auto|]. now destruct (N d u). Qed.
(** The operations of [unchecked] are read with operands of any type. *)
Theorem c113_unchecked_refuted : forall k, unchecked k = true -> exists bs p args d, input_ok bs /\
  tree_of_bytes (G := G) bs = Ok (Parsed (th_v0 false) [] (EOp k p args d)) /\
  forall ts d' t, Forall2 taken_for (map tpe args) ts -> opt_rel taken_for (option_map tpe d) d' -> ~ rule k p ts d' t.
Proof.
  intros k U. destruct k; try discriminate U; clear U;
    match goal with |- exists _ _ _ _, _ /\ tree_of_bytes _ = Ok (Parsed _ _ (EOp ?k _ _ _)) /\ _ =>
      let b := eval vm_compute in (bytes_of (wrong k)) in
      let x := eval cbv [wrong] in (wrong k) in
      match x with EOp _ ?p ?l ?d => exists b, p, l, d end end; reads;
    intros ts d' t F D R; inversion R; subst; cbn [map tpe int boolean c_tpe option_map opt_rel] in *;
    repeat match goal with X : Forall2 _ (_ :: _) _ |- _ => inversion X; subst; clear X | X : Forall2 _ [] _ |- _ => inversion X; subst; clear X end;
    repeat match goal with X : taken_for _ _ |- _ => apply taken_simple in X; [|discriminate] end; subst; try discriminate.
  all: try (match goal with X : number _ |- _ => unfold number in X; cbn in X; intuition discriminate end).
  all: try (match goal with X : _ \/ _ |- _ => destruct X; subst; cbn [opt_rel] in *; try contradiction end).
  all: try (match goal with X : taken_for _ _ |- _ => apply taken_simple in X; [|discriminate]; discriminate X end).
Qed.
(** So are all operations of two operands that have a sign of their own. *)
Theorem c113_binary_refuted : forall k, exists bs l r, input_ok bs /\
  tree_of_bytes (G := G) bs = Ok (Parsed (th_v0 false) [] (EBin k l r)) /\
  forall t u, taken_for (tpe l) t -> taken_for (tpe r) u -> ~ bin_rule k t u.
Proof.
  intros k. destruct k;
    match goal with |- exists _ _ _, _ /\ tree_of_bytes _ = Ok (Parsed _ _ (EBin ?k _ _)) /\ _ =>
      let b := eval vm_compute in (bytes_of (EBin k i (boolean true))) in exists b, i, (boolean true) end; reads;
    intros t u A B; (apply taken_simple in A; [|discriminate]); (apply taken_simple in B; [|discriminate]); subst;
    intros R; inversion R.
Qed.
(** A function is read where its result is wanted. *)
Definition negated_function : expr G := EOp ONegation PNone [EFunc [(1, SInt)] (EValUse 1 SInt)] None.
Theorem c113_function_refuted : exists bs, input_ok bs /\
  tree_of_bytes bs = Ok (Parsed (th_v0 false) [] negated_function) /\
  forall t, ~ rule ONegation PNone [SFunc [SInt] SInt] None t.
Proof.
  let b := eval vm_compute in (bytes_of negated_function) in exists b. reads.
  intros t R. inversion R; subst. match goal with X : number _ |- _ => unfold number in X; cbn in X; intuition discriminate end.
Qed.
(** A function is not taken as the default of a collection of functions: with it
    the script is kept as bytes. *)
Definition same : expr G := EFunc [(1, SInt)] (EValUse 1 SInt).
Definition functions : expr G := EOp OMap PNone [EConst (MkConst (SColl SInt) (LColl SInt [LInt 1])); EFunc [(2, SInt)] same] None.
Theorem c113_function_default_refuted :
  rule OByIndex PNone (map tpe [functions; i]) (option_map tpe (Some same)) (tpe same) /\
  exists b1 b2, ser_tree (Parsed (th_v0 false) [] (EOp OByIndex PNone [functions; i] None)) = Ok b1 /\
    tree_of_bytes b1 = Ok (Parsed (th_v0 false) [] (EOp OByIndex PNone [functions; i] None)) /\
    ser_tree (Parsed (th_v0 false) [] (EOp OByIndex PNone [functions; i] (Some same))) = Ok b2 /\
    tree_of_bytes (G := G) b2 = Ok (Unparsed b2).
Proof.
  split; [constructor; right; reflexivity|].
  let b := eval vm_compute in (bytes_of (EOp OByIndex PNone [functions; i] None)) in exists b.
  let b := eval vm_compute in (bytes_of (EOp OByIndex PNone [functions; i] (Some same))) in exists b.
  split; [vm_compute; reflexivity|]. split; [vm_compute; reflexivity|]. split; [vm_compute; reflexivity|].
  vm_compute. reflexivity.
Qed.
End Refuted.

(** The hypotheses hold of a script that checks a signature when a condition
    holds. *)
Definition gated (G : group) : expr G :=
  ESeq QSigmaAnd [EOp OBoolToSigmaProp PNone [EBin BGt (EOp OHeight PNone [] None) (EConst (MkConst SInt (LInt 5)))] None;
    EOp OCreateProveDlog PNone [EOp OGroupGenerator PNone [] None] None].
Example c113_hyps_met : forall G : group, exists bs, input_ok bs /\ tree_of_bytes bs = Ok (Parsed (th_v0 false) [] (gated G)) /\
  tpe (gated G) = SSigmaProp /\ rule OBoolToSigmaProp PNone [SBoolean] None SSigmaProp.
Proof.
  intros G.
  let b := eval vm_compute in (match ser_tree (Parsed (th_v0 false) [] (gated G)) with Ok b => b | _ => [] end) in exists b.
  split; [split; [unfold bytes_ok; repeat (apply Forall_cons; [split; lia|]); apply Forall_nil|reflexivity]|].
  split; [vm_compute; reflexivity|]. split; [reflexivity|constructor].
Qed.
Example c113_group_met : exists G, group_ok G.
Proof. exists toyG. exact toyG_ok. Qed.

Print Assumptions c113_read_partial.
Print Assumptions c113_read_expr_partial.
Print Assumptions c113_accepted_partial.
Print Assumptions c113_context.
Print Assumptions c113_unchecked_refuted.
Print Assumptions c113_binary_refuted.
Print Assumptions c113_function_refuted.
Print Assumptions c113_function_default_refuted.
