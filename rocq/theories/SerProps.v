(** Properties of constants, expressions and scripts: C21-C25, C69. *)
From Verif Require Import Base VlqModel VlqProofs GroupModel GroupProofs SigmaModel.
From Verif Require Import TypeModel TypeProofs MethodModel IrModel SerModel SerLocal SerSpec SerProofs SerSegSpec SerSeg.
Local Open Scope string_scope.
Local Open Scope list_scope.
Local Open Scope Z_scope.

(** ** A script to apply the statements to *)

(** [{ val x = OUTPUTS(0).value; sigmaProp(HEIGHT > 100 && x >= 5L) }] *)
Definition op0 {G : group} (k : opk) : expr G := EOp k PNone [] None.
Definition demo_expr {G : group} (a b c : const G) : expr G :=
  EBlock [EValDef 1 (EOp OExtractAmount PNone [EOp OByIndex PNone [op0 OOutputs; EConst a] None] None)]
    (EOp OBoolToSigmaProp PNone
       [EBin BAnd (EBin BGt (op0 OHeight) (EConst b)) (EBin BGe (EValUse 1 SLong) (EConst c))] None).
Definition c_int {G : group} z : const G := MkConst SInt (LInt z).
Definition c_long {G : group} z : const G := MkConst SLong (LLong z).
Definition demo {G : group} : expr G := demo_expr (c_int 0) (c_int 100) (c_long 5).

Ltac demo_ok :=
  repeat (first
    [ progress cbn [Datatypes.length map option_map tpe fst snd]
    | match goal with
      | |- ok_expr true _ (EConst _) _ => apply ok_segregated
      | |- ok_expr false _ (EConst _) _ => apply ok_inline; constructor
      | |- ok_expr _ _ (EOp _ _ _ _) _ => eapply ok_op; [reflexivity|exact I|reflexivity|intros; reflexivity|vm_compute; reflexivity| |]
      | |- ok_expr _ _ (EBin _ _ _) _ => eapply ok_bin; [cbn; tauto|cbn; tauto| |]
      | |- ok_expr _ _ (EBlock _ _) _ => eapply ok_block; [reflexivity| |]
      | |- ok_expr _ _ (EValDef _ _) _ => eapply ok_val_def; [unfold u32; lia|]
      | |- ok_expr _ _ (EValUse _ _) _ => eapply ok_val_use; [unfold u32; lia|vm_compute; reflexivity]
      | |- ok_expr _ _ (op0 _) _ => unfold op0
      | |- ok_exprs _ _ [] _ => apply ok_exprs_nil
      | |- ok_exprs _ _ (_ :: _) _ => eapply ok_exprs_cons
      | |- ok_opt _ _ None _ => apply ok_none
      | |- ty_ok _ => vm_compute; tauto
      | |- ok_lit _ SInt (LInt _) _ => apply ok_int; unfold i32; lia
      | |- ok_lit _ SLong (LLong _) _ => apply ok_long; unfold i64; lia
      end ]).

Lemma demo_inline : forall G : group, exists st', ok_expr false (@fresh G) demo st'.
Proof. intros G. eexists. unfold demo, demo_expr. demo_ok. Qed.
Lemma demo_seg : forall G : group, forall a b c : const G, c_tpe a = SInt -> c_tpe b = SInt -> c_tpe c = SLong ->
  exists st', ok_expr true (@fresh G) (demo_expr a b c) st'.
Proof.
  intros G [ta va] [tb vb] [tc vc] Ha Hb Hc. cbn [c_tpe] in *. subst. eexists. unfold demo_expr. demo_ok.
Qed.

(** ** C21: constants *)
(** A well-formed constant is written, and read back with its type from its bytes
    followed by anything, whatever constants and variables the reader has seen. *)
Theorem c21_constant_roundtrip : forall G, group_ok G -> forall st (c : const G) st', ok_const st c st' ->
  exists bs, ser_const c = Ok bs /\ forall rest, parse_const st (bs ++ rest) = Ok (c, st', rest).
Proof.
  intros G HG st c st' H. destruct (ok_roundtrip HG) as (_ & _ & _ & R & _).
  apply (const_rt _ _ _ (R _ _ _ H)).
Qed.
Print Assumptions c21_constant_roundtrip.

(** Two different constants never share an encoding, even with different types. *)
Theorem c21_encoding_injective : forall G, group_ok G -> forall st (c d : const G) s1 s2 bs,
  ok_const st c s1 -> ok_const st d s2 -> ser_const c = Ok bs -> ser_const d = Ok bs -> c = d.
Proof.
  intros G HG st c d s1 s2 bs H1 H2 E1 E2.
  destruct (c21_constant_roundtrip G HG _ _ _ H1) as (b1 & F1 & R1).
  destruct (c21_constant_roundtrip G HG _ _ _ H2) as (b2 & F2 & R2).
  rewrite E1 in F1. injection F1 as <-. rewrite E2 in F2. injection F2 as <-.
  pose proof (R1 []) as X. rewrite R2 in X. injection X as -> _. reflexivity.
Qed.
Print Assumptions c21_encoding_injective.

(** A nested collection and a pair, in the empty reader state. *)
Example c21_hyps_met : forall G : group,
  ok_const (@fresh G) (MkConst (STuple [SColl (SColl SLong); SBoolean])
    (LTup [LColl (SColl SLong) [LColl SLong [LLong (-5); LLong 7]; LColl SLong []]; LBool true])) fresh.
Proof.
  intros G. constructor; [vm_compute; repeat split; discriminate|].
  apply ok_tup; [vm_compute; split; discriminate|].
  eapply ok_items_cons; [|eapply ok_items_cons; [apply ok_bool|apply ok_items_nil]].
  apply ok_coll; [discriminate|reflexivity|].
  eapply ok_lits_cons; [|eapply ok_lits_cons; [|apply ok_lits_nil]];
    (apply ok_coll; [discriminate|reflexivity|]).
  - eapply ok_lits_cons; [apply ok_long; unfold i64; lia|].
    eapply ok_lits_cons; [apply ok_long; unfold i64; lia|apply ok_lits_nil].
  - apply ok_lits_nil.
Qed.

(** ** C22: expressions *)
(** A well-formed expression is written, and read back from its bytes followed by
    anything. *)
Theorem c22_expr_roundtrip : forall G, group_ok G -> forall st (e : expr G) st', ok_expr false st e st' ->
  exists bs, ser_expr_bytes e = Ok bs /\ bs <> [] /\
    forall rest, parse_expr st (bs ++ rest) = Ok (e, st', rest).
Proof.
  intros G HG st e st' H. destruct (ok_roundtrip HG) as (_ & _ & _ & _ & _ & R & _).
  destruct (expr_rt _ _ _ (R _ _ _ _ H)) as (bs & E & N & P). exists bs.
  split; [unfold ser_expr_bytes, wrun; rewrite E; reflexivity|]. split; assumption.
Qed.
Print Assumptions c22_expr_roundtrip.

Theorem c22_encoding_injective : forall G, group_ok G -> forall st (d e : expr G) s1 s2 bs,
  ok_expr false st d s1 -> ok_expr false st e s2 ->
  ser_expr_bytes d = Ok bs -> ser_expr_bytes e = Ok bs -> d = e.
Proof.
  intros G HG st d e s1 s2 bs H1 H2 E1 E2.
  destruct (c22_expr_roundtrip G HG _ _ _ H1) as (b1 & F1 & _ & R1).
  destruct (c22_expr_roundtrip G HG _ _ _ H2) as (b2 & F2 & _ & R2).
  rewrite E1 in F1. injection F1 as <-. rewrite E2 in F2. injection F2 as <-.
  pose proof (R1 []) as X. rewrite R2 in X. injection X as -> _. reflexivity.
Qed.
Print Assumptions c22_encoding_injective.

Example c22_hyps_met : forall G : group, exists st', ok_expr false (@fresh G) demo st'.
Proof. apply demo_inline. Qed.

(** The literal claim, for everything that can be serialised, is false: a binary
    operation whose left operand is a collection of Boolean constants is read back
    as an operation on two Booleans. *)
Theorem c22_bools_operand_refuted : forall G : group, exists (e e' : expr G) bs,
  tpe e = SBoolean /\ ser_expr_bytes e = Ok bs /\
  parse_expr fresh bs = Ok (e', fresh, [3; 133; 2; 3]) /\ e <> e'.
Proof.
  intros G. exists (EBin BEq (EBools [true; true]) (EBools [true; true])),
    (EBin BEq (bool_const false) (bool_const true)), [147; 133; 2; 3; 133; 2; 3].
  split; [reflexivity|]. split; [vm_compute; reflexivity|]. split; [vm_compute; reflexivity|discriminate].
Qed.
Print Assumptions c22_bools_operand_refuted.

(** ** C23: building a script *)

(** Every well-formed expression survives being built into a script, with or
    without constant segregation; with it, the constants of the script are those of
    the expression from left to right. *)
Theorem c23_proposition_of_new : forall G, group_ok G -> forall h (e : expr G) st',
  ok_expr true fresh e st' -> Zlen (consts_of e) < 2 ^ 32 ->
  exists t, tree_new h e = Ok t /\ proposition t = Ok e /\
    get_constants t = Ok (if th_seg h then consts_of e else []).
Proof.
  intros G HG h e st' H HL. unfold tree_new. destruct (th_seg h) eqn:Eh.
  2:{ eexists. split; [reflexivity|]. cbn [proposition get_constants]. rewrite Eh. split; reflexivity. }
  destruct (new_segregated HG e st' H HL) as (bs & E & P & _ & O & N & F).
  rewrite E. cbn [bind]. rewrite P. cbn [bind]. eexists. split; [reflexivity|].
  split; [|reflexivity]. cbn [proposition]. rewrite Eh.
  rewrite (fill_proposition (consts_of e) (consts_of e) _ _ O N eq_refl). rewrite F. reflexivity.
Qed.
Print Assumptions c23_proposition_of_new.

(** The template bytes depend on the expression only up to the values of its
    constants. *)
Theorem c23_template_independent : forall G, group_ok G -> forall h (e e' : expr G) st1 st2,
  th_seg h = true ->
  ok_expr true fresh e st1 -> Zlen (consts_of e) < 2 ^ 32 ->
  ok_expr true fresh e' st2 -> Zlen (consts_of e') < 2 ^ 32 ->
  erase e = erase e' ->
  exists t t' bs, tree_new h e = Ok t /\ tree_new h e' = Ok t' /\
    template_bytes t = Ok bs /\ template_bytes t' = Ok bs.
Proof.
  intros G HG h e e' st1 st2 Eh H1 L1 H2 L2 He. unfold tree_new. rewrite Eh.
  destruct (new_segregated HG e st1 H1 L1) as (bs & E & P & D & _).
  destruct (new_segregated HG e' st2 H2 L2) as (bs' & E' & P' & D' & _).
  rewrite E. cbn [bind]. rewrite P. cbn [bind]. rewrite E'. cbn [bind]. rewrite P'. cbn [bind].
  assert (A : abs 0 e = abs 0 e') by (rewrite <- (abs_erase e), <- (abs_erase e'), He; reflexivity).
  do 2 eexists. exists bs'. split; [reflexivity|]. split; [reflexivity|]. cbn [template_bytes].
  unfold ser_expr_bytes, wrun. rewrite A, D'. split; reflexivity.
Qed.
Print Assumptions c23_template_independent.

Example c23_hyps_met : forall G : group, exists st1 st2,
  let e := demo in let e' := demo_expr (c_int 3) (c_int 77) (c_long (-9)) in
  ok_expr true (@fresh G) e st1 /\ ok_expr true (@fresh G) e' st2 /\
  Zlen (consts_of (G := G) e) = 3 /\ Zlen (consts_of (G := G) e') = 3 /\ erase (G := G) e = erase e' /\ e <> e'.
Proof.
  intros G. destruct (demo_seg G (c_int 0) (c_int 100) (c_long 5) eq_refl eq_refl eq_refl) as [s1 H1].
  destruct (demo_seg G (c_int 3) (c_int 77) (c_long (-9)) eq_refl eq_refl eq_refl) as [s2 H2].
  exists s1, s2. cbv zeta. repeat split; try assumption; try reflexivity. discriminate.
Qed.

(** ** C24: replacing a constant *)

(** Success exactly for an index in range with a constant of the same type; then
    that constant is the new one and all else is as before. *)
Theorem c24_with_constant : forall G (t : tree G) cs i c, get_constants t = Ok cs ->
  ((exists t', with_constant t i c = Ok t') <->
   (exists old, nth_error cs i = Some old /\ c_tpe old = c_tpe c)) /\
  forall t', with_constant t i c = Ok t' ->
    exists cs', get_constants t' = Ok cs' /\ List.length cs' = List.length cs /\
      nth_error cs' i = Some c /\
      (forall j, j <> i -> nth_error cs' j = nth_error cs j) /\
      map c_tpe cs' = map c_tpe cs /\
      template_bytes t' = template_bytes t.
Proof.
  intros G t cs i c Hc. destruct t as [b|h cs0 root]; [discriminate|]. injection Hc as ->.
  cbn [with_constant]. destruct (nth_error cs i) as [old|] eqn:E.
  2:{ split; [|discriminate]. split; [intros [? X]; discriminate|intros (? & X & _); discriminate]. }
  destruct (stype_eqb (c_tpe c) (c_tpe old)) eqn:Et.
  - apply stype_eqb_eq in Et. split.
    + split; [intros _; eauto|eauto].
    + intros t' X. injection X as <-. exists (list_set cs i c). split; [reflexivity|].
      split; [apply list_set_length|]. split; [eapply list_set_same; eassumption|].
      split; [intros j Hj; apply list_set_other; exact Hj|].
      split; [eapply list_set_map; [exact E|exact Et]|reflexivity].
  - split; [|discriminate]. split; [intros [? X]; discriminate|].
    intros (o & X & Y). injection X as <-. rewrite Y in Et. rewrite stype_eqb_refl in Et. discriminate.
Qed.
Print Assumptions c24_with_constant.

(** A script kept as unparsed bytes has no constants to replace. *)
Theorem c24_unparsed : forall G bs i (c : const G), exists e, with_constant (Unparsed bs) i c = Err e.
Proof. intros. eexists. reflexivity. Qed.
Print Assumptions c24_unparsed.

(** After replacing, the proposition is the original expression with that constant,
    and no other, changed. *)
Theorem c24_proposition : forall G, group_ok G -> forall h (e : expr G) st' t i c t',
  th_seg h = true -> ok_expr true fresh e st' -> Zlen (consts_of e) < 2 ^ 32 ->
  tree_new h e = Ok t -> with_constant t i c = Ok t' ->
  exists e', proposition t' = Ok e' /\ erase e' = erase e /\ consts_of e' = list_set (consts_of e) i c.
Proof.
  intros G HG h e st' t i c t' Eh H HL Ht Hw. unfold tree_new in Ht. rewrite Eh in Ht.
  destruct (new_segregated HG e st' H HL) as (bs & E & P & _ & O & N & F).
  rewrite E in Ht. cbn [bind] in Ht. rewrite P in Ht. cbn [bind] in Ht. injection Ht as <-.
  destruct (c24_with_constant _ (Parsed h (consts_of e) (abs 0 e)) (consts_of e) i c eq_refl) as [_ W].
  destruct (W _ Hw) as (cs' & Hc & Hl & _ & _ & Hm & _).
  cbn [with_constant] in Hw. destruct (nth_error _ i) as [old|] eqn:En; [|discriminate].
  destruct (stype_eqb _ _); [|discriminate]. injection Hw as <-. injection Hc as <-.
  eexists. split.
  { cbn [proposition]. rewrite Eh. apply (fill_proposition (consts_of e) (list_set (consts_of e) i c) _ _ O N Hm). }
  apply (fill_shape e st' _ H HL Hm).
Qed.
Print Assumptions c24_proposition.

Example c24_hyps_met : forall G : group, group_ok G -> exists t t' : tree G,
  tree_new (THeader 0 true false) demo = Ok t /\ with_constant t 1 (c_int 250) = Ok t' /\
  proposition t' = Ok (demo_expr (c_int 0) (c_int 250) (c_long 5)).
Proof.
  intros G _. do 2 eexists. split; [vm_compute; reflexivity|]. split; [vm_compute; reflexivity|].
  vm_compute. reflexivity.
Qed.

(** ** C25: script bytes *)

(** A script not understood is kept as the bytes it was read from. *)
Theorem c25_unparsed_partial : forall G bs b, tree_of_bytes bs = Ok (@Unparsed G b) -> ser_tree (@Unparsed G b) = Ok bs.
Proof.
  intros G bs b H. assert (b = bs); [|subst; reflexivity]. unfold tree_of_bytes in H.
  destruct (parse_header bs) as [[h r]|e|]; [|congruence|discriminate].
  destruct (th_size h).
  - destruct (get_u32 r) as [[n r1]|e|]; cbn [bind] in H; try discriminate.
    destruct (read_exact (Z.to_nat n) r1) as [[buf r2]|e|]; cbn [bind] in H; try discriminate.
    destruct (parse_body parse_expr h fresh buf) as [[[t st] r3]|e|] eqn:E; cbn [bind] in H; try discriminate.
    + destruct r2; [|congruence]. injection H as ->. apply parse_body_parsed in E. destruct E as (? & ? & ?). discriminate.
    + destruct r2; congruence.
  - destruct (parse_body parse_expr h fresh r) as [[[t st] r3]|e|] eqn:E; try discriminate; [|congruence].
    destruct r3; [|congruence]. injection H as ->. apply parse_body_parsed in E. destruct E as (? & ? & ?). discriminate.
Qed.
Print Assumptions c25_unparsed_partial.

(** Bytes written by the library for a well-formed script are preserved, whether
    the script stands alone or is followed by other data. *)
Theorem c25_written_partial : forall G, group_ok G -> forall (t : tree G) st', ok_tree fresh t st' ->
  exists bs, ser_tree t = Ok bs /\ tree_of_bytes bs = Ok t /\
    forall rest, parse_script fresh (bs ++ rest) = Ok (t, st', rest).
Proof.
  intros G HG t st' H. destruct (ok_roundtrip HG) as (_ & _ & _ & _ & _ & _ & _ & _ & R & _).
  destruct (R _ _ _ H) as (bs & E & P). exists bs. split; [exact E|]. split; [|exact P].
  specialize (P []). rewrite app_nil_r in P. unfold parse_tree, pbind, lift in P. unfold tree_of_bytes.
  destruct (parse_header bs) as [[h r]|e|]; cbn [bind] in P; try discriminate.
  destruct (th_size h).
  - destruct (get_u32 r) as [[n r1]|e|]; cbn [bind] in *; try discriminate.
    destruct (read_exact (Z.to_nat n) r1) as [[buf r2]|e|]; cbn [bind] in *; try discriminate.
    destruct (parse_body parse_expr h fresh buf) as [[[t0 st] r3]|e|] eqn:Eb; cbn [bind]; try discriminate P.
    + injection P as -> _ ->. reflexivity.
    + unfold of_res in P. destruct (put_u32 n) as [nb|e'|]; cbn [bind] in P; try discriminate P.
      injection P as <- _ ->. cbn [ser_tree] in E. injection E as ->. reflexivity.
  - destruct (parse_body parse_expr h fresh r) as [[[t0 st] r3]|e|]; try discriminate P.
    injection P as -> _ ->. reflexivity.
Qed.
Print Assumptions c25_written_partial.

Example c25_hyps_met : forall G : group, exists st',
  ok_tree fresh (Parsed (THeader 0 true false) [@c_int G 0; c_int 100; c_long 5] (abs 0 demo)) st'.
Proof.
  intros G. destruct (demo_seg G (c_int 0) (c_int 100) (c_long 5) eq_refl eq_refl eq_refl) as [s1 H1].
  destruct (new_segregated_ok demo s1 [] H1 eq_refl) as [O _]. eexists. eapply ok_unsized.
  - left; reflexivity.
  - reflexivity.
  - apply ok_seg_yes; [reflexivity|vm_compute; discriminate|].
    repeat (eapply ok_consts_cons; [constructor; [vm_compute; tauto|first [apply ok_int; unfold i32; lia|apply ok_long; unfold i64; lia]]|]).
    apply ok_consts_nil.
  - exact O.
Qed.

(** The literal claim is false.  Header bits 5-7 are dropped: *)
Theorem c25_header_bits_refuted : forall G : group, exists bs (t : tree G) bs',
  tree_of_bytes bs = Ok t /\ ser_tree t = Ok bs' /\ bs <> bs'.
Proof.
  intros G. exists [32; 1; 1]. do 2 eexists. split; [vm_compute; reflexivity|].
  split; [vm_compute; reflexivity|discriminate].
Qed.
Print Assumptions c25_header_bits_refuted.
(** ... and so are bytes left over inside the declared size: *)
Theorem c25_leftover_refuted : forall G : group, exists bs (t : tree G) bs',
  tree_of_bytes bs = Ok t /\ ser_tree t = Ok bs' /\ bs <> bs'.
Proof.
  intros G. exists [8; 5; 1; 1; 77; 77; 77]. do 2 eexists. split; [vm_compute; reflexivity|].
  split; [vm_compute; reflexivity|discriminate].
Qed.
Print Assumptions c25_leftover_refuted.
(** ... and inside a box even a script that is not understood may change, when its
    size is written with a superfluous byte: *)
Theorem c25_embedded_refuted : forall G : group, exists bs b st (r : bytes) (e : bytes),
  parse_script (@fresh G) bs = Ok (Unparsed b, st, r) /\ r = [] /\
  ser_tree (@Unparsed G b) = Ok e /\ e <> bs.
Proof.
  intros G. exists [8; 129; 0; 255]. do 4 eexists. split; [vm_compute; reflexivity|].
  split; [reflexivity|]. split; [reflexivity|discriminate].
Qed.
Print Assumptions c25_embedded_refuted.

(** ** C69: the proposition of a script that was read *)

(** For a script with segregated constants whose root keeps no constant in place,
    the proposition is the root with every placeholder replaced. *)
Theorem c69_proposition_partial : forall G, group_ok G -> forall h cs (root : expr G) st',
  th_seg h = true -> ok_expr false (RSt cs false []) root st' -> no_inline root ->
  proposition (Parsed h cs root) = Ok (fill cs root).
Proof.
  intros G HG h cs root st' Eh O N. cbn [proposition]. rewrite Eh.
  apply (fill_proposition cs cs _ _ O N eq_refl).
Qed.
Print Assumptions c69_proposition_partial.
(** Without segregation it is the root itself. *)
Theorem c69_proposition_inline : forall G h cs (root : expr G), th_seg h = false ->
  proposition (Parsed h cs root) = Ok root.
Proof. intros G h cs root E. cbn [proposition]. rewrite E. reflexivity. Qed.
Print Assumptions c69_proposition_inline.
Example c69_hyps_met : forall G : group, exists st',
  ok_expr false (RSt [@c_int G 0; c_int 100; c_long 5] false []) (abs 0 demo) st' /\
  no_inline (G := G) (abs 0 demo).
Proof.
  intros G. destruct (demo_seg G (c_int 0) (c_int 100) (c_long 5) eq_refl eq_refl eq_refl) as [s1 H1].
  destruct (new_segregated_ok demo s1 [] H1 eq_refl) as [O N]. eexists. split; [exact O|exact N].
Qed.
(** A root which does keep a constant in place is changed: the bytes below are the
    script [1 == 2], its second operand in the constant table.  Its proposition is
    [2 == 2]. *)
Theorem c69_inline_refuted : forall G : group, exists bs (t : tree G),
  tree_of_bytes bs = Ok t /\
  t = Parsed (THeader 0 true false) [c_int 2] (EBin BEq (EConst (c_int 1)) (EPlaceholder 0 SInt)) /\
  proposition t = Ok (EBin BEq (EConst (c_int 2)) (EConst (c_int 2))).
Proof.
  intros G. exists [16; 1; 4; 4; 147; 4; 2; 115; 0]. eexists.
  split; [vm_compute; reflexivity|]. split; [reflexivity|]. vm_compute. reflexivity.
Qed.
Print Assumptions c69_inline_refuted.
