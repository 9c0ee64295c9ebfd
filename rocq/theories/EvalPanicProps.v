(** Panics of the evaluator: C75. *)
From Verif Require Import Base VlqModel VlqProofs GroupModel GroupProofs SigmaModel SigmaProofs.
From Verif Require Import TypeModel MethodModel IrModel SerModel SerLocal SerSpec SerProofs SerProps ChainModel ChainProps
  HeaderModel TxModel TxProps ReadProofs ParseProofs ParseProps EqModel PrintModel EvalModel EvalProofs PrintProofs EvalPanic TypeProofs.
Local Open Scope string_scope.
Local Open Scope list_scope.
Local Open Scope Z_scope.

Section Spec.
Context {G : group}.
(** A constant that some reader may produce, a box that some reader may
    produce. *)
Definition read_const (c : const G) : Prop := exists st st', ok_const st c st'.
Definition read_box (b : box G) : Prop := exists st st', ok_box st b st'.
(** What a node carries comes from a reader: constants, and at most 255 items
    in a conjunction or a disjunction of propositions. *)
Definition node_read (x : expr G) : Prop :=
  match x with
  | EConst c => read_const c
  | ESeq QSigmaAnd l | ESeq QSigmaOr l => Zlen l <= 255
  | _ => True
  end.
(** The node whose evaluation writes a script. *)
Definition no_subst (x : expr G) : Prop :=
  match x with EOp OSubstConstants _ _ _ => False | _ => True end.
(** The byte strings that deserialization nodes may read as scripts: context
    variables, and registers of the box that is spent. *)
Definition var_script (c : context G (chain_state G)) (b : bytes) : Prop :=
  exists i k, ext_get (c_ext c) i = Some k /\ script_const k = Ok b.
Definition reg_script (c : context G (chain_state G)) (b : bytes) : Prop :=
  exists i k, get_register (snd (c_self c)) i = Ok (Some k) /\ script_const k = Ok b.
Definition print_fits (x : expr G) : Prop := every printable x /\ 6 * nodes x < 2 ^ 63.
(** A context whose boxes and variables come from readers and that has some
    headers (there are always ten in the code).  Scripts held in variables and
    registers fit into memory and do not write scripts; those in registers can be
    printed. *)
Definition read_ctx (c : context G (chain_state G)) : Prop :=
  read_box (snd (c_self c)) /\
  Forall (fun b => read_box (snd b)) (c_inputs c) /\
  Forall (fun b => read_box (snd b)) (c_outputs c) /\
  (forall l, c_data c = Some l -> Forall (fun b => read_box (snd b)) l) /\
  (forall i k, ext_get (c_ext c) i = Some k -> read_const k) /\
  snd (c_state c) <> [] /\
  (forall b, var_script c b -> Zlen b < 2 ^ 31 /\ forall x, from_bytes parse_expr b = Ok x -> every no_subst x) /\
  (forall b, reg_script c b -> Zlen b < 2 ^ 31 /\ forall x, from_bytes parse_expr b = Ok x -> every no_subst x /\ print_fits x).
(** What the reducer accepts as the value of a script. *)
Definition is_prop (v : value G) : Prop := match v with VBool _ | VSigma _ => True | _ => False end.

Lemma each_Forall (P : expr G -> Prop) l :
  (fix go (l : list (expr G)) := match l with [] => True | y :: l' => P y /\ go l' end) l <-> Forall P l.
Proof.
  induction l as [|x l IH]; [split; [constructor|trivial]|]. rewrite IH. split.
  - intros [A B]. now constructor.
  - intros Q. inversion Q. auto.
Qed.
Lemma every_good x : every node_read x -> every no_subst x -> egood x.
Proof.
  assert (FF : forall l : list (expr G), Forall (fun y => every node_read y -> every no_subst y -> egood y) l ->
    Forall (every node_read) l -> Forall (every no_subst) l -> Forall egood l).
  { induction 1 as [|y l Y F IH]; intros A B; [constructor|]. inversion_clear A; inversion_clear B. constructor; auto. }
  induction x using SerSeg.expr_ind'; cbn [every egood]; rewrite ?each_Forall, ?each_egood; try tauto.
  - intros [(st & st' & A) _] _. eapply ok_const_lgood, A.
  - intros (A1 & A2 & A3) (B1 & B2 & B3). split; [destruct k; exact B1|]. split; [auto|]. destruct d; auto.
  - intros (A1 & A2) (B1 & B2). split; [destruct q; exact A1|auto].
  - intuition auto.
  - intuition auto.
  - intuition auto.
Qed.
Lemma ok_node_read :
  (forall st t v st', ok_lit (G := G) st t v st' -> True) /\
  (forall st t l st', ok_lits (G := G) st t l st' -> True) /\
  (forall st ts l st', ok_items (G := G) st ts l st' -> True) /\
  (forall st c st', ok_const (G := G) st c st' -> read_const c) /\
  (forall st l st', ok_consts (G := G) st l st' -> Forall read_const l) /\
  (forall m st e st', ok_expr (G := G) m st e st' -> m = false -> every node_read e) /\
  (forall m st l st', ok_exprs (G := G) m st l st' -> m = false -> Forall (every node_read) l) /\
  (forall m st d st', ok_opt (G := G) m st d st' -> m = false -> match d with Some y => every node_read y | None => True end) /\
  (forall st t st', ok_tree (G := G) st t st' -> forall h cs x, t = Parsed h cs x -> Forall read_const cs /\ every node_read x) /\
  (forall h st cs st', ok_seg (G := G) h st cs st' -> Forall read_const cs) /\
  (forall st r st', ok_reg (G := G) st r st' -> True) /\
  (forall st l st', ok_regs (G := G) st l st' -> True) /\
  (forall st c st', ok_cand (G := G) st c st' -> True) /\
  (forall st b st', ok_box (G := G) st b st' -> True).
Proof.
  apply ok_mutind; intros; try exact I; try discriminate; subst; cbn [every]; rewrite ?each_Forall;
    repeat match goal with X : false = false -> _ |- _ => specialize (X eq_refl) end;
    try match goal with X : Parsed _ _ _ = Parsed _ _ _ |- _ => injection X as <- <- <- end; auto.
  all: try (split; [try exact I|]; auto; fail).
  - exists st, st'. now constructor.
  - repeat split; exists fresh, fresh; constructor; try apply ok_bool; vm_compute; tauto.
  - split; [|assumption]. destruct q; cbn [node_read]; trivial; unfold seq_ok in H; lia.
Qed.
End Spec.

(** ** The evaluator *)
Section Props.
Context {G : group} (HG : group_ok G).
Lemma script_ok (k : const G) b : script_const k = Ok b -> bytes_ok b.
Proof.
  unfold script_const. destruct (stype_eqb _ _); [|discriminate]. destruct (c_val k); try discriminate.
  intros E. injection E as <-. unfold as_u8s, bytes_ok. apply Forall_map. apply Forall_forall. intros z _.
  unfold wrapu. apply Z.mod_pos_bound. reflexivity.
Qed.
Lemma parsed_read b (x : expr G) : input_ok b -> from_bytes parse_expr b = Ok x -> every node_read x.
Proof.
  intros Hi E. pose proof (sat_out _ _ _ fresh b (sat_expr HG) eq_refl Hi) as X. unfold from_bytes in E.
  destruct (parse_expr fresh b) as [[[y st] r]| |]; try discriminate. injection E as <-.
  destruct X as (u & _ & (H1 & _)). destruct (@ok_node_read G) as (_ & _ & _ & _ & _ & T & _). now apply (T _ _ _ _ H1).
Qed.
Lemma read_ctx_good (c : context G (chain_state G)) : read_ctx c -> ctx_good c.
Proof.
  intros (A & B & D & E & F & I & V & R).
  assert (NP : forall b, input_ok b -> from_bytes (@parse_expr G) b <> Panic).
  { intros b Hi Q. pose proof (c82_expression G HG fresh b Hi eq_refl) as P. unfold from_bytes in Q.
    destruct (parse_expr fresh b) as [[[y st] r]| |]; [discriminate|discriminate|contradiction]. }
  unfold ctx_good. split; [exact A|]. split; [exact B|]. split; [exact D|].
  split; [destruct (c_data c); auto|].
  split; [intros i k L; destruct (F i k L) as (st & st' & O); eapply ok_const_lgood, O|]. split; [exact I|].
  split; intros i k b L S; pose proof (script_ok k b S) as Bo.
  - destruct (V b) as [Lb T]; [now exists i, k|]. assert (Hi : input_ok b) by now split.
    pose proof (NP b Hi) as N. destruct (from_bytes parse_expr b) as [x|e|] eqn:Q; [|exact Logic.I|contradiction].
    cbn [np]. apply every_good; [now apply (parsed_read b)|now apply T].
  - destruct (R b) as [Lb T]; [now exists i, k|]. assert (Hi : input_ok b) by now split.
    pose proof (NP b Hi) as N. destruct (from_bytes parse_expr b) as [x|e|] eqn:Q; [|exact Logic.I|contradiction].
    destruct (T x eq_refl) as (T1 & T2 & T3). cbn [np]. split; [apply every_good; [now apply (parsed_read b)|exact T1]|].
    rewrite pretty_print_ok; [discriminate|assumption|assumption].
Qed.
Variables H sha : bytes -> bytes.
Variable fits : Z -> bool.
Variable avlv : avl_verifier.
Implicit Types c : context G (chain_state G).

(** What is missing: scripts with nodes that replace constants of other scripts
    (refuted below), and reading scripts of another type that cannot be printed
    from registers. *)
Theorem c75_eval_partial : forall c fuel x, read_ctx c -> every node_read x -> every no_subst x ->
  eval H sha fits avlv c fuel x [] <> Panic.
Proof.
  intros c fuel x C R N E. pose proof (eval_good HG H sha fits avlv c (read_ctx_good c C) fuel x []
    (every_good x R N) (Forall_nil _)) as P. rewrite E in P. exact P.
Qed.

(** The reducer in addition prints the script when the result is false or an
    error.  It panics only for results that are not propositions, given that the
    script can be printed. *)
Theorem c75_reduce_partial : forall c fuel x, read_ctx c -> every node_read x -> every no_subst x ->
  every printable x -> 6 * nodes x < 2 ^ 63 ->
  (reduce_to_crypto H sha fits avlv c fuel x = Panic <->
   exists v e, eval H sha fits avlv c fuel x [] = Ok (v, e) /\ ~ is_prop v).
Proof.
  intros c fuel x C R N P S. pose proof (c75_eval_partial c fuel x C R N) as NP.
  pose proof (pretty_print_ok x P S) as PP. unfold reduce_to_crypto. split.
  - destruct (eval H sha fits avlv c fuel x []) as [[v e]|er|]; [|rewrite PP; discriminate|contradiction].
    intros Q. exists v, e. split; [reflexivity|]. intros I.
    destruct v; try contradiction I.
    + match type of Q with (if ?b then _ else _) = _ => destruct b end; [discriminate|]. rewrite PP in Q. discriminate.
    + match type of Q with match ?b with _ => _ end = _ => destruct b as [[]| |] end; try discriminate.
      rewrite PP in Q. discriminate.
  - intros (v & e & -> & I). destruct v; try reflexivity; destruct (I Logic.I).
Qed.

(** Every script without constant store that was read from bytes meets the
    first hypothesis. *)
Theorem c75_read_script_partial : forall bs h (x : expr G), input_ok bs -> tree_of_bytes bs = Ok (Parsed h [] x) ->
  every no_subst x -> forall c fuel, read_ctx c -> eval H sha fits avlv c fuel x [] <> Panic.
Proof.
  intros bs h x Hi E N c fuel C. apply c75_eval_partial; auto.
  destruct (tree_parsed _ _ _ _ _ E) as [st Es].
  pose proof (sat_out _ parse_script QTr fresh bs (fun k Hk st0 => sat_tree k Hk (sat_expr HG k Hk) st0) eq_refl Hi) as X.
  rewrite Es in X. destruct X as (u & _ & (H1 & _)).
  destruct (@ok_node_read G) as (_ & _ & _ & _ & _ & _ & _ & _ & T & _).
  apply (T _ _ _ H1 _ _ _ eq_refl).
Qed.

(** ** Scripts that panic

    The statement without the extra hypotheses is that no script read from
    bytes makes evaluation or reduction panic.  It fails in four ways, each in
    every context. *)
Lemma panic_later : forall c k x, eval H sha fits avlv c k x [] <> Err fuel_err ->
  reduce_to_crypto H sha fits avlv c k x = Panic ->
  forall n, (k <= n)%nat -> reduce_to_crypto H sha fits avlv c n x = Panic.
Proof.
  intros c k x E P n L. unfold reduce_to_crypto in *.
  destruct (eval_more H sha fits avlv c k n L x []) as [Q|Q]; [contradiction|]. rewrite <- Q. exact P.
Qed.

Definition int (z : Z) : expr G := EConst (MkConst SInt (LInt z)).
Definition boolean (b : bool) : expr G := EConst (MkConst SBoolean (LBool b)).
Lemma int_read z : i32 z -> read_const (MkConst (G := G) SInt (LInt z)).
Proof. intros I. exists fresh, fresh. constructor; [vm_compute; tauto|now apply ok_int]. Qed.
Lemma boolean_read b : read_const (MkConst (G := G) SBoolean (LBool b)).
Proof. exists fresh, fresh. constructor; [vm_compute; tauto|apply ok_bool]. Qed.

(** The branches of a conditional are not compared: the script says it is a
    proposition and evaluates to a number. *)
Definition not_a_prop_bytes : bytes := [0; 149; 1; 0; 8; 211; 4; 10].
Definition not_a_prop : expr G :=
  EOp OIf PNone [boolean false; EConst (MkConst SSigmaProp (LSigma (Triv true))); int 5] None.
Theorem c75_result_type_refuted : exists bs h x, input_ok bs /\ tree_of_bytes (G := G) bs = Ok (Parsed h [] x) /\
  tpe x = SSigmaProp /\ every no_subst x /\ every printable x /\ 6 * nodes x < 2 ^ 63 /\
  forall c n, (2 <= n)%nat -> reduce_to_crypto H sha fits avlv c n x = Panic.
Proof.
  exists not_a_prop_bytes, (th_v0 false), not_a_prop.
  split; [split; [unfold bytes_ok; repeat (apply Forall_cons; [split; lia|]); apply Forall_nil|reflexivity]|].
  split; [vm_compute; reflexivity|]. split; [reflexivity|]. split; [cbn; tauto|].
  split; [unfold not_a_prop, int, boolean; cbn; unfold printable; cbn; tauto|]. split; [reflexivity|].
  intros c. apply panic_later; [discriminate|reflexivity].
Qed.

(** The type of an operand of [Upcast] is not looked at.  The operand is never
    evaluated and the result is [false]; printing the script panics. *)
Definition unprintable_bytes : bytes := [0; 209; 237; 1; 0; 147; 126; 1; 1; 4; 4; 10].
Definition unprintable : expr G :=
  EOp OBoolToSigmaProp PNone [EBin BAnd (boolean false)
    (EBin BEq (EOp OUpcast (PType SInt) [boolean true] None) (int 5))] None.
Theorem c75_print_rebuild_refuted : exists bs h x, input_ok bs /\ tree_of_bytes (G := G) bs = Ok (Parsed h [] x) /\
  tpe x = SSigmaProp /\ every no_subst x /\
  forall c, (exists e, forall n, (3 <= n)%nat -> eval H sha fits avlv c n x [] = Ok (VSigma (Triv false), e)) /\
    forall n, (3 <= n)%nat -> reduce_to_crypto H sha fits avlv c n x = Panic.
Proof.
  exists unprintable_bytes, (th_v0 false), unprintable.
  split; [split; [unfold bytes_ok; repeat (apply Forall_cons; [split; lia|]); apply Forall_nil|reflexivity]|].
  split; [vm_compute; reflexivity|]. split; [reflexivity|]. split; [cbn; tauto|].
  intros c. split.
  - exists []. intros n L. now apply (eval_ok_more H sha fits avlv c 3 n).
  - apply panic_later; [discriminate|reflexivity].
Qed.

(** Nor are the items of a collection compared with its type. *)
Definition mixed_bytes : bytes := [0; 209; 237; 1; 0; 147; 131; 1; 4; 1; 1; 131; 1; 4; 1; 1].
Definition mixed : expr G := ESeq (QColl SInt) [boolean true].
Theorem c75_print_items_refuted : exists bs h x, input_ok bs /\ tree_of_bytes (G := G) bs = Ok (Parsed h [] x) /\
  tpe x = SSigmaProp /\ every no_subst x /\
  forall c, (exists e, forall n, (3 <= n)%nat -> eval H sha fits avlv c n x [] = Ok (VSigma (Triv false), e)) /\
    forall n, (3 <= n)%nat -> reduce_to_crypto H sha fits avlv c n x = Panic.
Proof.
  exists mixed_bytes, (th_v0 false), (EOp OBoolToSigmaProp PNone [EBin BAnd (boolean false) (EBin BEq mixed mixed)] None).
  split; [split; [unfold bytes_ok; repeat (apply Forall_cons; [split; lia|]); apply Forall_nil|reflexivity]|].
  split; [vm_compute; reflexivity|]. split; [reflexivity|]. split; [cbn; tauto|].
  intros c. split.
  - exists []. intros n L. now apply (eval_ok_more H sha fits avlv c 3 n).
  - apply panic_later; [discriminate|reflexivity].
Qed.

(** A folding function that is not written in place makes the printer reduce
    its indentation below zero.  Nothing is wrong with the types here. *)
Definition indent_bytes : bytes := [0; 216; 1; 214; 1; 217; 1; 2; 88; 140; 114; 2; 1; 209; 145; 176;
  16; 2; 2; 4; 4; 0; 114; 1; 176; 16; 2; 2; 4; 4; 0; 114; 1].
Definition two_ints : stype := STuple [SInt; SInt].
Definition fold_named : expr G := EOp OFold PNone
  [EConst (MkConst (SColl SInt) (LColl SInt [LInt 1; LInt 2])); int 0; EValUse 1 (SFunc [two_ints] SInt)] None.
Definition indent : expr G := EBlock
  [EValDef 1 (EFunc [(2, two_ints)] (EOp OSelectField (PIndex 1) [EValUse 2 two_ints] None))]
  (EOp OBoolToSigmaProp PNone [EBin BGt fold_named fold_named] None).
Theorem c75_print_indent_refuted : exists bs h x, input_ok bs /\ tree_of_bytes (G := G) bs = Ok (Parsed h [] x) /\
  tpe x = SSigmaProp /\ every no_subst x /\ every (fun y => rebuilds y = true) x /\
  forall c, (exists e, forall n, (8 <= n)%nat -> eval H sha fits avlv c n x [] = Ok (VSigma (Triv false), e)) /\
    forall n, (8 <= n)%nat -> reduce_to_crypto H sha fits avlv c n x = Panic.
Proof.
  exists indent_bytes, (th_v0 false), indent.
  split; [split; [unfold bytes_ok; repeat (apply Forall_cons; [split; lia|]); apply Forall_nil|reflexivity]|].
  split; [vm_compute; reflexivity|]. split; [reflexivity|]. split; [cbn; tauto|]. split; [cbn; tauto|].
  intros c. split.
  - eexists. intros n L. apply (eval_ok_more H sha fits avlv c 8 n); [exact L|]. reflexivity.
  - apply panic_later; [discriminate|reflexivity].
Qed.

(** Replacing a constant by a collection that is too long to be written panics
    in the middle of evaluation. *)
Definition cbytes (l : list Z) : expr G := EConst (MkConst (SColl SByte) (LCollBytes l)).
Definition too_long (l : list Z) : expr G :=
  EOp OBoolToSigmaProp PNone [EBin BEq (EOp OSubstConstants PNone
    [cbytes [16; 1; 14; 0; 115; 0]; EConst (MkConst (SColl SInt) (LColl SInt [LInt 0]));
     ESeq (QColl (SColl SByte)) [EOp OAppend PNone [cbytes l; cbytes l] None]] None) (cbytes [])] None.
Lemma get_all_bytes (l : list Z) : get_all (@get_byte G) (map VByte l) = Ok l.
Proof. induction l as [|z l IH]; [reflexivity|]. cbn. cbn in IH. rewrite IH. reflexivity. Qed.
Lemma append_bytes (l : list Z) : append (G := G) (VBytes l) (VBytes l) = Ok (VBytes (l ++ l)).
Proof.
  unfold append, get_coll. cbn [coll_items of_option bind stype_eqb]. unfold from_vec.
  rewrite <- map_app, get_all_bytes. reflexivity.
Qed.
Lemma subst_long (l : list Z) : 2 ^ 16 <= Zlen l ->
  subst_constants (G := G) (VBytes [16; 1; 14; 0; 115; 0]) (VColl SInt [VInt 0]) (VColl (SColl SByte) [VBytes l]) = Panic.
Proof.
  intros L. assert (P : put_usize_as_u16_unwrapped (Zlen l) = Panic).
  { unfold put_usize_as_u16_unwrapped. replace (Zlen l <? 2 ^ 16) with false by lia. reflexivity. }
  unfold subst_constants. cbn -[tree_of_bytes].
  replace (tree_of_bytes (G := G) [16; 1; 14; 0; 115; 0]) with
    (Ok (Parsed (G := G) (th_v0 true) [MkConst (SColl SByte) (LCollBytes [])] (EPlaceholder 0 (SColl SByte)))) by (vm_compute; reflexivity).
  cbn -[put_usize_as_u16_unwrapped]. rewrite P. reflexivity.
Qed.
Lemma some_bytes n : 0 <= n -> exists l, Zlen l = n /\ Forall i8 l.
Proof.
  revert n. apply natlike_ind.
  - exists []. split; [reflexivity|constructor].
  - intros n N (l & L & F). exists (0 :: l). rewrite Zlen_cons. split; [lia|]. constructor; [unfold i8; lia|exact F].
Qed.
Theorem c75_subst_constants_refuted : exists bs h x, ser_tree (Parsed h [] x) = Ok bs /\
  tree_of_bytes (G := G) bs = Ok (Parsed h [] x) /\ tpe x = SSigmaProp /\ every printable x /\
  forall c n, (7 <= n)%nat -> eval H sha fits avlv c n x [] = Panic.
Proof.
  destruct (some_bytes 32768 ltac:(lia)) as (l & LL & LI).
  assert (K : forall m, Forall i8 m -> Zlen m < 2 ^ 16 -> ok_expr (G := G) false fresh (cbytes m) fresh).
  { intros m M1 M2. apply ok_inline. constructor; [vm_compute; tauto|]. now apply ok_bytes_coll. }
  assert (T : ok_tree (G := G) fresh (Parsed (th_v0 false) [] (too_long l)) fresh).
  { eapply ok_unsized; [left; reflexivity|reflexivity|apply ok_seg_no; reflexivity|]. unfold too_long.
    eapply ok_op; [reflexivity|exact I|reflexivity|reflexivity|reflexivity| |apply ok_none].
    eapply ok_exprs_cons; [|apply ok_exprs_nil].
    eapply ok_bin; [intros [[] _]|intros []| |apply K; [constructor|reflexivity]].
    eapply ok_op; [reflexivity|exact I|reflexivity|reflexivity|reflexivity| |apply ok_none].
    eapply ok_exprs_cons; [apply K; [repeat constructor; unfold i8; lia|reflexivity]|].
    eapply ok_exprs_cons.
    { apply ok_inline. constructor; [vm_compute; tauto|]. apply ok_coll; [discriminate|reflexivity|].
      eapply ok_lits_cons; [apply ok_int; unfold i32; lia|apply ok_lits_nil]. }
    eapply ok_exprs_cons; [|apply ok_exprs_nil].
    eapply ok_seq; [split; [reflexivity|vm_compute; tauto]|reflexivity|].
    eapply ok_exprs_cons; [|apply ok_exprs_nil].
    eapply ok_op; [reflexivity|exact I|reflexivity|reflexivity|reflexivity| |apply ok_none].
    eapply ok_exprs_cons; [apply K; [exact LI|lia]|].
    eapply ok_exprs_cons; [apply K; [exact LI|lia]|apply ok_exprs_nil]. }
  destruct (c25_written_partial G HG _ _ T) as (bs & S & R & _).
  exists bs, (th_v0 false), (too_long l). split; [exact S|]. split; [exact R|]. split; [reflexivity|].
  split; [unfold too_long, cbytes; cbn; unfold printable; cbn; tauto|].
  assert (X : forall c, eval H sha fits avlv c 7 (too_long l) [] = Panic).
  { intros c. unfold too_long, cbytes. cbn -[append subst_constants]. unfold eval_bin. cbn -[append subst_constants]. rewrite append_bytes. cbn -[subst_constants].
    rewrite subst_long; [reflexivity|]. rewrite Zlen_app. lia. }
  intros c n L. destruct (eval_more H sha fits avlv c 7 n L (too_long l) []) as [Q|Q]; rewrite X in Q; [discriminate|congruence].
Qed.

(** ** The hypotheses are met *)
Definition sum_script : expr G := EOp OBoolToSigmaProp PNone
  [EBin BGt (EOp OFold PNone [EConst (MkConst (SColl SInt) (LColl SInt [LInt 1; LInt 2])); int 0;
     EFunc [(1, two_ints)] (EBin BPlus (EOp OSelectField (PIndex 1) [EValUse 1 two_ints] None)
       (EOp OSelectField (PIndex 2) [EValUse 1 two_ints] None))] None) (int 2)] None.
Definition sum_bytes : bytes := Eval vm_compute in
  match ser_tree (Parsed (th_v0 false) [] sum_script) with Ok b => b | _ => [] end.
Example c75_hyps_met : forall p (hd : header G),
  let c := MkContext 0 ([], demo_box) [([], demo_box)] None [([], demo_box)] (p, [hd]) [(3, MkConst SInt (LInt 7))] in
  read_ctx c /\ input_ok sum_bytes /\ tree_of_bytes sum_bytes = Ok (Parsed (th_v0 false) [] sum_script) /\
  every node_read sum_script /\ every no_subst sum_script /\ every printable sum_script /\
  6 * nodes sum_script < 2 ^ 63 /\
  reduce_to_crypto H sha fits avlv c 9 sum_script = Ok (Triv true).
Proof.
  intros p hd c. assert (B : read_box (@demo_box G)) by (exists fresh, fresh; apply c27_hyps_met).
  split.
  { unfold read_ctx, c. cbn [c_self c_inputs c_outputs c_data c_ext c_state snd].
    split; [exact B|]. split; [repeat constructor; exact B|]. split; [repeat constructor; exact B|].
    split; [discriminate|].
    assert (VS : forall i k, ext_get [(3, MkConst SInt (LInt 7))] i = Some k -> k = MkConst (G := G) SInt (LInt 7)).
    { intros i k E. cbn [ext_get] in E. destruct (_ =? _) in E; [|discriminate]. now injection E as <-. }
    split; [intros i k E; rewrite (VS i k E); apply int_read; unfold i32; lia|]. split; [discriminate|].
    split; intros b (i & k & E & S).
    - rewrite (VS i k E) in S. discriminate.
    - assert (W : b = [0; 8; 211]).
      { cbn [c_self snd c] in E.
        assert (D : i = 0 \/ i = 1 \/ i = 2 \/ i = 3 \/ (i <> 0 /\ i <> 1 /\ i <> 2 /\ i <> 3)) by lia.
        destruct D as [->|[->|[->|[->|D]]]]; cbn in E; try (injection E as <-; cbn in S; try discriminate).
        - now injection S as <-.
        - unfold get_register in E. assert (Q : regs_get_constant (cd_regs (b_cand (@demo_box G))) i = Ok (Some k)).
          { destruct i as [|[[]|[]|]|]; try lia; try exact E. }
          unfold regs_get_constant in Q. destruct (Z.to_nat _) as [|[|n]]; cbn in Q.
          + injection Q as <-. discriminate.
          + injection Q as <-. discriminate.
          + destruct n; discriminate. }
      subst b. split; [reflexivity|]. intros x X. vm_compute in X. discriminate. }
  split; [split; [unfold bytes_ok, sum_bytes; repeat (apply Forall_cons; [split; lia|]); apply Forall_nil|reflexivity]|].
  split; [vm_compute; reflexivity|].
  split. { cbn. repeat split; try apply int_read; unfold i32; try lia.
    exists fresh, fresh. constructor; [vm_compute; tauto|]. apply ok_coll; [discriminate|reflexivity|].
    eapply ok_lits_cons; [apply ok_int; unfold i32; lia|]. eapply ok_lits_cons; [apply ok_int; unfold i32; lia|]. apply ok_lits_nil. }
  split; [cbn; tauto|].
  split. { cbn. unfold printable. cbn. repeat split; unfold in_place. eexists [_; _]; eexists; eexists; reflexivity. }
  split; [reflexivity|]. reflexivity.
Qed.
End Props.
Print Assumptions c75_eval_partial.
Print Assumptions c75_reduce_partial.
Print Assumptions c75_read_script_partial.
Print Assumptions c75_result_type_refuted.
Print Assumptions c75_print_rebuild_refuted.
Print Assumptions c75_print_items_refuted.
Print Assumptions c75_print_indent_refuted.
Print Assumptions c75_subst_constants_refuted.
