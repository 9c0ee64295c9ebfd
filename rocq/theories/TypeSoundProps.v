(** A script has the type it says it has: C79. *)
From Verif Require Import Base VlqModel VlqProofs GroupModel GroupProofs SigmaModel SigmaProofs.
From Verif Require Import TypeModel MethodModel IrModel SerModel SerLocal SerSpec SerProofs SerProps ChainModel ChainProps
  HeaderModel TxModel TxProps ReadProofs ParseProofs ParseProps EqModel PrintModel EvalModel EvalProofs EvalScope PrintProofs
  EvalPanic TypeProofs EqProofs SerSegSpec SerSeg EvalPanicProps TypeSound TypeRead.
Local Open Scope string_scope.
Local Open Scope list_scope.
Local Open Scope Z_scope.

Section Props.
Context {G : group}.
Hypothesis HG : group_ok G.
Variables H sha : bytes -> bytes.
Variable fits : Z -> bool.
Variable avlv : avl_verifier.
Variable Gam : Z -> stype.
Variable asks : Z -> stype -> Prop.
Variable good : box G -> Prop.
Implicit Types c : context G (chain_state G).

(** The surroundings of a script: registers hold what is asked of them, the
    variables of the context have the types they are stored with, and so do the
    scripts found in variables and registers. *)
Definition surroundings c : Prop :=
  regs_typed asks good /\ ctx_typed good c /\ scripts_typed Gam asks good c.

(** An expression whose nodes are as their constructors require and that keeps
    clear of the nodes listed in [node_extra] has values of its type only. *)
Theorem c79_eval_partial : forall c fuel x v e, surroundings c -> all_sub (node_ok Gam asks good) x ->
  eval H sha fits avlv c fuel x [] = Ok (v, e) -> vtyped Gam asks good v (tpe x).
Proof.
  intros c fuel x v e (R & C & S) O E.
  pose proof (eval_typed Gam asks good H sha avlv R c C fits S fuel x [] O (Forall_nil _)) as P.
  rewrite E in P. apply P.
Qed.

(** A script that was read: the checks of the reader are the premises of
    [node_ok], for constants and for uses of identifiers as well, and filling in
    the constants of the store keeps them. *)
Lemma fill_nil (x : expr G) : fill [] x = x.
Proof.
  assert (N : forall id : Z, nth_error (@nil (const G)) (Z.to_nat id) = None) by (intros; destruct (Z.to_nat _); reflexivity).
  assert (M : forall l : list (expr G), Forall (fun y => fill [] y = y) l -> map (fill []) l = l).
  { induction 1 as [|y l Y F IH]; [reflexivity|]. cbn [map]. now rewrite Y, IH. }
  induction x using SerSeg.expr_ind'; cbn [fill]; rewrite ?N, ?M by assumption; try congruence.
  - destruct d; cbn in *; congruence.
  - destruct (bool_pair _ _); congruence.
Qed.
Theorem c79_read_partial : forall bs h cs root x, input_ok bs -> tree_of_bytes bs = Ok (Parsed h cs root) ->
  Forall (fun k => box_free (c_val k)) cs -> (th_seg h = true -> no_inline root) ->
  proposition (Parsed h cs root) = Ok x -> all_sub (read_extra Gam asks good) x ->
  tpe x = tpe root /\ forall c fuel v e, surroundings c ->
  eval H sha fits avlv c fuel x [] = Ok (v, e) -> vtyped Gam asks good v (tpe x).
Proof.
  intros bs h cs root x Hi E BF NI P X.
  assert (O : exists st1 st2, ok_seg h fresh cs st1 /\ ok_expr false (set_store cs st1) root st2).
  { destruct (tree_parsed _ _ _ _ _ E) as [st Es].
    pose proof (sat_out _ parse_script QTr fresh bs (fun k Hk st0 => sat_tree k Hk (sat_expr HG k Hk) st0) eq_refl Hi) as Y.
    rewrite Es in Y. destruct Y as (u & _ & (H1 & _)). inversion H1; subst; eauto. }
  destruct O as (st1 & st2 & O1 & O2).
  destruct (read_typed (G := G) Gam asks good) as (_ & _ & _ & _ & _ & RE & _ & _ & _ & RS & _).
  destruct (RS _ _ _ _ O1 BF) as [-> CT].
  assert (FX : x = fill cs root).
  { unfold proposition in P. destruct (th_seg h) eqn:Sg.
    - rewrite (fill_proposition cs cs root st2 O2 (NI eq_refl) eq_refl) in P. now injection P.
    - injection P as <-. inversion O1; subst; [congruence|]. symmetry. apply fill_nil. }
  subst x. destruct (RE _ _ _ _ O2 eq_refl cs eq_refl) as (A & T & _).
  - clear - CT. induction CT; constructor; auto. intros _. assumption.
  - intros i t Q. discriminate Q.
  - exact X.
  - split; [exact T|]. intros c fuel v e S Ev. eapply c79_eval_partial; eauto.
Qed.

(** In particular a script that says it is a proposition evaluates to one, and
    the reducer does not panic. *)
Lemma prop_value v t : t = SBoolean \/ t = SSigmaProp -> vtyped Gam asks good v t -> is_prop v.
Proof.
  intros T V. destruct v; try exact I; cbn in V; destruct T as [->| ->]; try discriminate V; try contradiction V; destruct V; discriminate.
Qed.
Theorem c79_proposition_partial : forall c fuel x v e, surroundings c -> all_sub (node_ok Gam asks good) x ->
  tpe x = SBoolean \/ tpe x = SSigmaProp -> eval H sha fits avlv c fuel x [] = Ok (v, e) -> is_prop v.
Proof. intros c fuel x v e S O T E. eapply prop_value; [exact T|]. eapply c79_eval_partial; eauto. Qed.
Theorem c79_reduce_partial : forall c fuel x, surroundings c -> all_sub (node_ok Gam asks good) x ->
  tpe x = SBoolean \/ tpe x = SSigmaProp ->
  read_ctx c -> every node_read x -> every no_subst x -> every printable x -> 6 * nodes x < 2 ^ 63 ->
  reduce_to_crypto H sha fits avlv c fuel x <> Panic.
Proof.
  intros c fuel x S O T C R N P L E. apply (c75_reduce_partial HG H sha fits avlv c fuel x C R N P L) in E as (v & e & E & I).
  apply I. eapply c79_proposition_partial; eauto.
Qed.
End Props.

(** ** Scripts that do not have their type

    Without [node_extra] the statement fails: each of these scripts is read
    without complaint and evaluates to a value of another type. *)
Section Refuted.
Variable G : group.
Variables H sha : bytes -> bytes.
Variable fits : Z -> bool.
Variable avlv : avl_verifier.
Implicit Types c : context G (chain_state G).
Definition mistyped (x : expr G) c : Prop :=
  exists v e k, (forall n, (k <= n)%nat -> eval H sha fits avlv c n x [] = Ok (v, e)) /\
    forall Gam asks good, ~ vtyped Gam asks good v (tpe x).
Lemma mistyped_by (x : expr G) c k v e : eval H sha fits avlv c k x [] = Ok (v, e) ->
  (forall Gam asks good, ~ vtyped Gam asks good v (tpe x)) -> mistyped x c.
Proof. intros E N. exists v, e, k. split; [|exact N]. intros n L. now apply (eval_ok_more H sha fits avlv c k n). Qed.
Definition bytes_of (x : expr G) : bytes := match ser_tree (Parsed (th_v0 false) [] x) with Ok b => b | _ => [] end.
Definition ints (l : list Z) : expr G := EConst (MkConst (SColl SInt) (LColl SInt (map LInt l))).
Ltac readable := split; [split; [unfold bytes_ok; repeat (apply Forall_cons; [split; lia|]); apply Forall_nil|reflexivity]|];
  split; [vm_compute; reflexivity|].

(** The branches of a conditional are not compared. *)
Theorem c79_if_refuted : exists bs h x, input_ok bs /\ tree_of_bytes (G := G) bs = Ok (Parsed h [] x) /\
  tpe x = SSigmaProp /\ forall c, mistyped x c.
Proof.
  exists not_a_prop_bytes, (th_v0 false), not_a_prop. readable. split; [reflexivity|].
  intros c. eapply (mistyped_by _ _ 2%nat); [reflexivity|]. discriminate.
Qed.
(** Nor is the function of a fold. *)
Definition odd_fold : expr G := EOp OFold PNone [ints [1]; int 0; EFunc [(1, two_ints)] (boolean true)] None.
Definition odd_fold_bytes : bytes := Eval vm_compute in bytes_of odd_fold.
Theorem c79_fold_refuted : exists bs h x, input_ok bs /\ tree_of_bytes (G := G) bs = Ok (Parsed h [] x) /\
  tpe x = SInt /\ forall c, mistyped x c.
Proof.
  exists odd_fold_bytes, (th_v0 false), odd_fold. readable. split; [reflexivity|].
  intros c. eapply (mistyped_by _ _ 4%nat); [reflexivity|]. discriminate.
Qed.
(** The items of a collection do not have to have its element type. *)
Definition odd_items : expr G := ESeq (QColl SInt) [boolean true].
Definition odd_items_bytes : bytes := Eval vm_compute in bytes_of odd_items.
Theorem c79_items_refuted : exists bs h x, input_ok bs /\ tree_of_bytes (G := G) bs = Ok (Parsed h [] x) /\
  tpe x = SColl SInt /\ forall c, mistyped x c.
Proof.
  exists odd_items_bytes, (th_v0 false), odd_items. readable. split; [reflexivity|].
  intros c. eapply (mistyped_by _ _ 4%nat); [reflexivity|]. intros Gam asks good [_ [E _]]. discriminate E.
Qed.
(** A default value may be a function with the right result. *)
Definition odd_default : expr G := EOp OByIndex PNone [ints [1]; int 5] (Some (EFunc [(1, SInt)] (int 7))).
Definition odd_default_bytes : bytes := Eval vm_compute in bytes_of odd_default.
Theorem c79_default_refuted : exists bs h x, input_ok bs /\ tree_of_bytes (G := G) bs = Ok (Parsed h [] x) /\
  tpe x = SInt /\ forall c, mistyped x c.
Proof.
  exists odd_default_bytes, (th_v0 false), odd_default. readable. split; [reflexivity|].
  intros c. eapply (mistyped_by _ _ 4%nat); [reflexivity|]. intros Gam asks good [E _]. discriminate E.
Qed.
(** A register is handed out at whatever type is asked: the value of a box, a
    [Long], is asked for as an [Int]. *)
Definition odd_reg : expr G := EOp OOptionGet PNone [EOp OExtractRegisterAs (PI8Type 0 SInt) [EOp OSelfBox PNone [] None] None] None.
Definition odd_reg_bytes : bytes := Eval vm_compute in bytes_of odd_reg.
Theorem c79_register_refuted : exists bs h x, input_ok bs /\ tree_of_bytes (G := G) bs = Ok (Parsed h [] x) /\
  tpe x = SInt /\ forall c, mistyped x c.
Proof.
  exists odd_reg_bytes, (th_v0 false), odd_reg. readable. split; [reflexivity|].
  intros c. eapply (mistyped_by _ _ 4%nat); [reflexivity|]. discriminate.
Qed.
(** The type of an identifier is the one it was given last, also when that was
    in a function that has been left. *)
Definition odd_id : expr G := EBlock [EValDef 1 (int 5); EValDef 2 (EFunc [(1, SBoolean)] (EValUse 1 SBoolean))] (EValUse 1 SBoolean).
Definition odd_id_bytes : bytes := Eval vm_compute in bytes_of odd_id.
Theorem c79_identifier_refuted : exists bs h x, input_ok bs /\ tree_of_bytes (G := G) bs = Ok (Parsed h [] x) /\
  tpe x = SBoolean /\ forall c, mistyped x c.
Proof.
  exists odd_id_bytes, (th_v0 false), odd_id. readable. split; [reflexivity|].
  intros c. eapply (mistyped_by _ _ 4%nat); [reflexivity|]. discriminate.
Qed.
(** [flatMap] makes a collection of collections, though it concatenates. *)
Definition odd_flat : expr G := EMethod (SMethod 12 15 [SColl SSigmaProp; SFunc [SSigmaProp] cbyte] cbyte)
  (EConst (MkConst (SColl SSigmaProp) (LColl SSigmaProp [])))
  [EFunc [(1, SSigmaProp)] (EOp OSigmaPropBytes PNone [EValUse 1 SSigmaProp] None)].
Definition odd_flat_bytes : bytes := Eval vm_compute in bytes_of odd_flat.
Theorem c79_flat_map_refuted : exists bs h x, input_ok bs /\ tree_of_bytes (G := G) bs = Ok (Parsed h [] x) /\
  tpe x = SColl SByte /\ forall c, mistyped x c.
Proof.
  exists odd_flat_bytes, (th_v0 false), odd_flat. readable. split; [reflexivity|].
  intros c. eapply (mistyped_by _ _ 4%nat); [reflexivity|]. intros Gam asks good [E _]. discriminate E.
Qed.
(** The state root of a header is declared as a tree and handed out as bytes. *)
Definition odd_root : expr G := EProp (SMethod 104 5 [SHeader] SAvlTree)
  (EOp OByIndex PNone [EProp (SMethod 101 2 [SContext] (SColl SHeader)) (EOp OContext PNone [] None); int 0] None).
Definition odd_root_bytes : bytes := Eval vm_compute in bytes_of odd_root.
Theorem c79_state_root_refuted : exists bs h x, input_ok bs /\ tree_of_bytes (G := G) bs = Ok (Parsed h [] x) /\
  tpe x = SAvlTree /\ forall c, snd (c_state c) <> [] -> mistyped x c.
Proof.
  exists odd_root_bytes, (th_v0 false), odd_root. readable. split; [reflexivity|].
  intros c N. destruct c as [hh self ins data outs [p hs] ext]. cbn [c_state snd] in N. destruct hs as [|hd hs]; [now destruct N|].
  eapply (mistyped_by _ _ 5%nat); [reflexivity|]. discriminate.
Qed.
End Refuted.

(** ** The hypotheses are met *)
Section Met.
Variable G : group.
Variables H sha : bytes -> bytes.
Variable fits : Z -> bool.
Variable avlv : avl_verifier.
Definition typed_script : expr G := EBlock
  [EValDef 1 (EOp OOptionGet PNone [EOp OExtractRegisterAs (PI8Type 4 SInt) [EOp OSelfBox PNone [] None] None] None)]
  (EOp OBoolToSigmaProp PNone [EBin BGt (EOp OFold PNone [ints G [1; 2]; int 0;
     EFunc [(2, two_ints)] (EBin BPlus (EOp OSelectField (PIndex 1) [EValUse 2 two_ints] None)
       (EOp OSelectField (PIndex 2) [EValUse 2 two_ints] None))] None) (EValUse 1 SInt)] None).
Definition typed_bytes : bytes := Eval vm_compute in bytes_of G typed_script.
Definition typed_gam (i : Z) : stype := if i =? 1 then SInt else two_ints.
Example c79_hyps_met : forall p (hd : header G),
  let c := MkContext 0 ([], demo_box) [([], demo_box)] None [([], demo_box)] (p, [hd]) [(3, MkConst SInt (LInt 7))] in
  let asks := fun id t => id = 4 /\ t = SInt in let good := fun b => b = demo_box in
  surroundings typed_gam asks good c /\ input_ok typed_bytes /\
  tree_of_bytes typed_bytes = Ok (Parsed (th_v0 false) [] typed_script) /\
  proposition (Parsed (th_v0 false) [] typed_script) = Ok typed_script /\
  all_sub (read_extra typed_gam asks good) typed_script /\ all_sub (node_ok typed_gam asks good) typed_script /\
  tpe typed_script = SSigmaProp /\
  exists e, eval H sha fits avlv c 9 typed_script [] = Ok (VSigma (Triv true), e).
Proof.
  intros p hd c asks good. split.
  { split; [intros b id t k -> [-> ->] E; cbn in E; injection E as <-; reflexivity|].
    assert (VS : forall i k, ext_get [(3, MkConst SInt (LInt 7))] i = Some k -> k = MkConst (G := G) SInt (LInt 7)).
    { intros i k E. cbn [ext_get] in E. destruct (_ =? _) in E; [|discriminate]. now injection E as <-. }
    split.
    - unfold ctx_typed, c. cbn [c_self c_inputs c_outputs c_data c_ext c_state snd].
      split; [reflexivity|]. split; [repeat constructor|]. split; [repeat constructor|]. split; [discriminate|].
      intros id k E. rewrite (VS id k E). reflexivity.
    - split; intros i k b x E S X.
      + cbn [c_ext c] in E. rewrite (VS i k E) in S. discriminate.
      + assert (W : b = [0; 8; 211]).
        { cbn [c_self snd c] in E.
          assert (D : i = 0 \/ i = 1 \/ i = 2 \/ i = 3 \/ (i <> 0 /\ i <> 1 /\ i <> 2 /\ i <> 3)) by lia.
          destruct D as [->|[->|[->|[->|D]]]]; cbn in E; try (injection E as <-; cbn in S; try discriminate).
          - now injection S as <-.
          - unfold get_register in E. assert (Q : regs_get_constant (cd_regs (b_cand (@demo_box G))) i = Ok (Some k)).
            { destruct i as [|[[]|[]|]|]; try lia; try exact E. }
            unfold regs_get_constant in Q. destruct (Z.to_nat _) as [|[|n]]; cbn in Q.
            + injection Q as <-. discriminate.
            + injection Q as <-. discriminate.
            + destruct n; discriminate. }
        subst b. vm_compute in X. discriminate X. }
  split; [split; [unfold bytes_ok; repeat (apply Forall_cons; [split; lia|]); apply Forall_nil|reflexivity]|].
  split; [vm_compute; reflexivity|]. split; [reflexivity|].
  assert (RI : forall id, reg_id_of_i8 4 = Ok id -> id = 4 /\ SInt = SInt) by (intros id Q; injection Q as <-; auto).
  assert (FT : exists t, SColl SInt = SColl t /\ SFunc [two_ints] SInt = SFunc [STuple [SInt; t]] SInt) by (exists SInt; auto).
  split. { cbn. repeat match goal with |- _ /\ _ => split end; first [exact I|exact RI|exact FT|reflexivity|repeat constructor]. }
  split. { cbn. repeat match goal with |- _ /\ _ => split | |- TypeSound.node_ok _ _ _ _ => split end;
    first [exact I|exact RI|exact FT|reflexivity|eexists; reflexivity|repeat constructor]. }
  split; [reflexivity|]. eexists. reflexivity.
Qed.
End Met.

Print Assumptions c79_eval_partial.
Print Assumptions c79_read_partial.
Print Assumptions c79_proposition_partial.
Print Assumptions c79_reduce_partial.
Print Assumptions c79_if_refuted.
Print Assumptions c79_fold_refuted.
Print Assumptions c79_items_refuted.
Print Assumptions c79_default_refuted.
Print Assumptions c79_register_refuted.
Print Assumptions c79_identifier_refuted.
Print Assumptions c79_flat_map_refuted.
Print Assumptions c79_state_root_refuted.
Print Assumptions c79_hyps_met.
