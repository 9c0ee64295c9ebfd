(** What was read has the types that were computed: the conditions of TypeSound.v
    that reading establishes. *)
From Verif Require Import Base VlqModel VlqProofs GroupModel GroupProofs SigmaModel SigmaProofs.
From Verif Require Import TypeModel MethodModel IrModel SerModel SerLocal SerSpec SerProofs SerProps ChainModel ChainProps
  HeaderModel TxModel TxProps ReadProofs ParseProofs ParseProps EqModel PrintModel EvalModel EvalProofs EvalScope TypeProofs EqProofs
  SerSegSpec SerSeg TypeSound.
Local Open Scope string_scope.
Local Open Scope list_scope.
Local Open Scope Z_scope.

Section Read.
Context {G : group}.
Variable Gam : Z -> stype.
Variable asks : Z -> stype -> Prop.
Variable good : box G -> Prop.
Notation ltyped := (ltyped good).
Notation node_ok := (node_ok Gam asks good).

(** No box inside a constant. *)
Fixpoint box_free (l : lit G) : Prop :=
  match l with
  | LBox _ => False
  | LColl _ items | LTup items => (fix go l := match l with [] => True | x :: l' => box_free x /\ go l' end) items
  | LOpt (Some x) => box_free x
  | _ => True
  end.
(** What is asked of a script that was read: nothing of the uses of identifiers. *)
Definition read_extra (x : expr G) : Prop :=
  match x with
  | EConst k => box_free (c_val k)
  | EValUse _ _ => True
  | _ => node_extra Gam asks good x
  end.
Definition const_fine (k : const G) : Prop := box_free (c_val k) -> ltyped (c_val k) (c_tpe k).
(** The types of the reader agree with [Gam]. *)
Definition fits_types (st : @rst G) : Prop := forall i t, ty_lookup (rs_types st) i = Some t -> t = Gam i.

Lemma fits_insert i t st : fits_types st -> t = Gam i -> fits_types (insert_type i t st).
Proof.
  intros F E j u. cbn [insert_type rs_types ty_lookup]. destruct (i =? j) eqn:Q; [|apply F].
  apply Z.eqb_eq in Q. subst j. intros X. now injection X as <-.
Qed.
Lemma fits_args args : Forall (fun a => snd a = Gam (fst a)) args -> forall st, fits_types st -> fits_types (insert_args args st).
Proof.
  induction 1 as [|a l A F IH]; intros st S; [exact S|]. unfold insert_args. cbn [fold_left]. apply IH. now apply fits_insert.
Qed.
Lemma store_args (args : list (Z * stype)) : forall st : @rst G, rs_store (insert_args args st) = rs_store st.
Proof. induction args as [|a l IH]; intros st; [reflexivity|]. unfold insert_args. cbn [fold_left]. apply (IH (insert_type (fst a) (snd a) st)). Qed.

Definition ED m st (x : expr G) st' : Prop := m = false -> forall cs, rs_store st = cs -> Forall const_fine cs ->
  fits_types st -> all_sub read_extra (fill cs x) ->
  all_sub node_ok (fill cs x) /\ tpe (fill cs x) = tpe x /\ fits_types st' /\ rs_store st' = cs.
Definition EDs m st (l : list (expr G)) st' : Prop := m = false -> forall cs, rs_store st = cs -> Forall const_fine cs ->
  fits_types st -> Forall (fun x => all_sub read_extra (fill cs x)) l ->
  Forall (all_sub node_ok) (map (fill cs) l) /\ map tpe (map (fill cs) l) = map tpe l /\ fits_types st' /\ rs_store st' = cs.
Definition EDo m st (d : option (expr G)) st' : Prop := m = false -> forall cs, rs_store st = cs -> Forall const_fine cs ->
  fits_types st -> oall (fun x => all_sub read_extra (fill cs x)) d ->
  oall (all_sub node_ok) (fill_opt cs d) /\ option_map tpe (fill_opt cs d) = option_map tpe d /\ fits_types st' /\ rs_store st' = cs.

Lemma at_node (Q : expr G -> Prop) x : all_sub Q x -> Q x.
Proof. destruct x; intros A; apply A. Qed.
Lemma all_op (Q : expr G -> Prop) k p l d : Q (EOp k p l d) -> Forall (all_sub Q) l -> oall (all_sub Q) d -> all_sub Q (EOp k p l d).
Proof. intros A B D. split; [exact A|]. split; [now apply each_sub|]. destruct d; auto. Qed.


Lemma Forall_fill (Q : expr G -> Prop) cs l : Forall (all_sub Q) (map (fill cs) l) -> Forall (fun x => all_sub Q (fill cs x)) l.
Proof. induction l as [|x l IH]; cbn [map]; intros F; inversion F; auto. Qed.
Lemma omap (d : option (expr G)) : match d with Some x => Some (tpe x) | None => None end = option_map tpe d.
Proof. destruct d; reflexivity. Qed.

Lemma r_const st c st' : (box_free (c_val c) -> st' = st /\ ltyped (c_val c) (c_tpe c)) -> ED false st (EConst c) st'.
Proof.
  intros T _ cs S C F X. cbn [fill] in *. destruct X as [X _]. cbn [read_extra] in X. destruct (T X) as [-> L].
  split; [cbn [all_sub]; split; [split; [exact I|exact L]|exact I]|]. auto.
Qed.
Lemma r_placeholder st id (c : const G) : nth_error (rs_store st) (Z.to_nat id) = Some c -> ED false st (EPlaceholder id (c_tpe c)) st.
Proof.
  intros N _ cs S C F X. cbn [fill] in *. subst cs. rewrite N in *. destruct X as [X _]. cbn [read_extra] in X.
  split; [cbn [all_sub]; split; [split; [exact I|]|exact I]|auto].
  rewrite Forall_forall in C. apply (C c); [eapply nth_error_In; eauto|exact X].
Qed.
Lemma r_op m st k p args d st1 st2 t : op_ty k p (map tpe args) (option_map tpe d) = Ok t ->
  EDs m st args st1 -> EDo m st1 d st2 -> ED m st (EOp k p args d) st2.
Proof.
  intros T A D M cs S C F X. cbn [fill] in *. fold (fill_opt cs d) in *. pose proof (at_node _ _ X) as X0.
  apply sub_op in X as [X1 X2]. destruct (A M cs S C F) as (A1 & A2 & A3 & A4); [now apply Forall_fill|].
  destruct (D M cs A4 C A3) as (D1 & D2 & D3 & D4); [destruct d; exact X2|].
  split; [|split; [cbn [tpe]; rewrite !omap, A2, D2; reflexivity|auto]].
  apply all_op; [split; [exists t; now rewrite A2, D2|exact X0]|exact A1|exact D1].
Qed.
Lemma r_bin_bools m st k x y : ED m st (EBin k (bool_const x) (bool_const y)) st.
Proof.
  intros M cs S C F X. cbn [fill bool_const bool_pair] in *. split; [|auto].
  cbn [all_sub]. repeat split; auto.
Qed.
Lemma r_bin m st k l r st1 st2 : ~ (is_bool_const l /\ is_bool_const r) -> ED m st l st1 -> ED m st1 r st2 -> ED m st (EBin k l r) st2.
Proof.
  intros N A D M cs S C F X. cbn [fill] in *. rewrite bool_pair_false in * by exact N. destruct X as [X0 [X1 X2]].
  destruct (A M cs S C F X1) as (A1 & A2 & A3 & A4). destruct (D M cs A4 C A3 X2) as (D1 & D2 & D3 & D4).
  split; [cbn [all_sub]; split; [split; exact I|auto]|]. split; [cbn [tpe]; now rewrite A2|auto].
Qed.
Lemma r_bools m st l : ED m st (EBools l) st.
Proof. intros M cs S C F X. cbn [fill] in *. split; [split; [split; exact I|exact I]|auto]. Qed.
Lemma r_seq m st q l st' t : seq_ty q (map tpe l) = Ok t -> EDs m st l st' -> ED m st (ESeq q l) st'.
Proof.
  intros T A M cs S C F X. cbn [fill] in *. pose proof (at_node _ _ X) as X0. apply sub_seq in X.
  destruct (A M cs S C F) as (A1 & A2 & A3 & A4); [now apply Forall_fill|].
  split; [|split; [cbn [tpe]; now rewrite A2|auto]].
  cbn [all_sub]. rewrite each_sub. split; [split; [exists t; now rewrite A2|exact X0]|exact A1].
Qed.
Lemma r_func m st args b st' : ED m (insert_args args st) b st' -> ED m st (EFunc args b) st'.
Proof.
  intros A M cs S C F X. cbn [fill] in *. destruct X as [X0 X]. cbn [read_extra node_extra] in X0.
  destruct (A M cs) as (A1 & A2 & A3 & A4); [now rewrite store_args|exact C|now apply fits_args|exact X|].
  split; [cbn [all_sub]; split; [split; [exact I|exact X0]|exact A1]|]. split; [cbn [tpe]; now rewrite A2|auto].
Qed.
Lemma r_def m st id r st' : ED m st r st' -> ED m st (EValDef id r) (insert_type id (tpe r) st').
Proof.
  intros A M cs S C F X. cbn [fill] in *. destruct X as [X0 X]. cbn [read_extra node_extra] in X0.
  destruct (A M cs S C F X) as (A1 & A2 & A3 & A4).
  split; [cbn [all_sub]; split; [split; [exact I|exact X0]|exact A1]|]. split; [exact A2|]. split; [|exact A4].
  apply fits_insert; [exact A3|congruence].
Qed.
Lemma r_use m st id t : ty_lookup (rs_types st) id = Some t -> ED m st (EValUse id t) st.
Proof.
  intros T M cs S C F X. cbn [fill] in *. split; [split; [split; [exact I|exact (F _ _ T)]|exact I]|auto].
Qed.
Lemma r_block m st l r st1 st2 : EDs m st l st1 -> ED m st1 r st2 -> ED m st (EBlock l r) st2.
Proof.
  intros A D M cs S C F X. cbn [fill] in *. apply sub_block in X as [X1 X2].
  destruct (A M cs S C F) as (A1 & A2 & A3 & A4); [now apply Forall_fill|].
  destruct (D M cs A4 C A3 X2) as (D1 & D2 & D3 & D4).
  split; [|split; [exact D2|auto]]. cbn [all_sub]. rewrite each_sub. split; [split; exact I|auto].
Qed.
Lemma r_apply m st f l st1 st2 t : apply_ty (tpe f) (map tpe l) = Ok t -> ED m st f st1 -> EDs m st1 l st2 -> ED m st (EApply f l) st2.
Proof.
  intros T A D M cs S C F X. cbn [fill] in *. apply sub_apply in X as [X1 X2].
  destruct (A M cs S C F X1) as (A1 & A2 & A3 & A4).
  destruct (D M cs A4 C A3) as (D1 & D2 & D3 & D4); [now apply Forall_fill|].
  split; [|split; [cbn [tpe]; now rewrite A2, D2|auto]].
  cbn [all_sub]. rewrite each_sub. split; [split; [exists t; now rewrite A2, D2|exact I]|auto].
Qed.
Lemma r_method m st g g0 o l st1 st2 : from_ids (sm_code g) (sm_id g) = Ok g0 -> specialize_for g0 (tpe o) (map tpe l) = Ok g ->
  sm_dom g = tpe o :: map tpe l -> ED m st o st1 -> EDs m st1 l st2 -> ED m st (EMethod g o l) st2.
Proof.
  intros T1 T2 T3 A D M cs S C F X. cbn [fill] in *. pose proof (at_node _ _ X) as X0. apply sub_method in X as [X1 X2].
  destruct (A M cs S C F X1) as (A1 & A2 & A3 & A4).
  destruct (D M cs A4 C A3) as (D1 & D2 & D3 & D4); [now apply Forall_fill|].
  split; [|split; [reflexivity|auto]].
  cbn [all_sub]. rewrite each_sub. split; [split; [|exact X0]|auto].
  unfold specialize_for in T2. inv_bind T2. injection T2 as E2. exists g0, b. rewrite A2, D2. split; [exact T1|]. split; [now symmetry|exact T3].
Qed.
Lemma r_prop m st g g0 o st1 : from_ids (sm_code g) (sm_id g) = Ok g0 -> specialize_for g0 (tpe o) [] = Ok g ->
  sm_dom g = [tpe o] -> ED m st o st1 -> ED m st (EProp g o) st1.
Proof.
  intros T1 T2 T3 A M cs S C F X. cbn [fill] in *. destruct X as [X0 X1].
  destruct (A M cs S C F X1) as (A1 & A2 & A3 & A4).
  split; [|split; [reflexivity|auto]].
  cbn [all_sub]. split; [split; [|exact X0]|exact A1].
  unfold specialize_for in T2. inv_bind T2. injection T2 as E2. exists g0, b. rewrite A2. split; [exact T1|]. split; [now symmetry|exact T3].
Qed.
Lemma r_cons m st e l st1 st2 : ED m st e st1 -> EDs m st1 l st2 -> EDs m st (e :: l) st2.
Proof.
  intros A D M cs S C F X. inversion X as [|? ? X1 X2]; subst.
  destruct (A eq_refl _ eq_refl C F X1) as (A1 & A2 & A3 & A4).
  destruct (D eq_refl _ A4 C A3 X2) as (D1 & D2 & D3 & D4).
  cbn [map]. rewrite A2, D2. auto.
Qed.
Lemma r_nil m st : EDs m st [] st.
Proof. intros M cs S C F X. cbn. auto. Qed.
Lemma r_none m st : EDo m st None st.
Proof. intros M cs S C F X. cbn. auto. Qed.
Lemma r_some m st e st' : ED m st e st' -> EDo m st (Some e) st'.
Proof.
  intros A M cs S C F X. destruct (A M cs S C F X) as (A1 & A2 & A3 & A4). cbn [fill_opt option_map oall]. rewrite A2. auto.
Qed.

Lemma read_typed :
  (forall st t v st', ok_lit (G := G) st t v st' -> box_free v -> st' = st /\ ltyped v t) /\
  (forall st t l st', ok_lits (G := G) st t l st' -> Forall box_free l -> st' = st /\ Forall (fun v => ltyped v t) l) /\
  (forall st ts l st', ok_items (G := G) st ts l st' -> Forall box_free l -> st' = st /\ Forall2 ltyped l ts) /\
  (forall st c st', ok_const (G := G) st c st' -> box_free (c_val c) -> st' = st /\ ltyped (c_val c) (c_tpe c)) /\
  (forall st l st', ok_consts (G := G) st l st' -> Forall (fun c => box_free (c_val c)) l -> st' = st /\ Forall (fun c => ltyped (c_val c) (c_tpe c)) l) /\
  (forall m st e st', ok_expr (G := G) m st e st' -> ED m st e st') /\
  (forall m st l st', ok_exprs (G := G) m st l st' -> EDs m st l st') /\
  (forall m st d st', ok_opt (G := G) m st d st' -> EDo m st d st') /\
  (forall st t st', ok_tree (G := G) st t st' -> True) /\
  (forall h st cs st', ok_seg (G := G) h st cs st' -> Forall (fun c => box_free (c_val c)) cs -> st' = st /\ Forall (fun c => ltyped (c_val c) (c_tpe c)) cs) /\
  (forall st r st', ok_reg (G := G) st r st' -> True) /\
  (forall st l st', ok_regs (G := G) st l st' -> True) /\
  (forall st c st', ok_cand (G := G) st c st' -> True) /\
  (forall st b st', ok_box (G := G) st b st' -> True).
Proof.
  assert (BF : forall l, (fix go (l : list (lit G)) := match l with [] => True | x :: l' => box_free x /\ go l' end) l <-> Forall box_free l).
  { induction l as [|x l IH]; [split; auto|]. rewrite IH. split; [intros [A B]; auto|intros F; inversion F; auto]. }
  assert (LC : forall t l, Forall (fun v => ltyped v t) l -> ltyped (LColl t l) (SColl t)).
  { intros t l F. split; [reflexivity|]. induction F; auto. }
  assert (LT : forall ts l, Forall2 ltyped l ts -> ltyped (LTup l) (STuple ts)).
  { intros ts l F. cbn. induction F; auto. }
  apply ok_mutind; intros; try exact I; subst.
  all: try (cbn; auto; fail).
  - contradiction.
  - cbn [box_free] in *. rewrite BF in *. destruct H2 as [-> F]; auto.
  - cbn [box_free] in *. rewrite BF in *. destruct H1 as [-> F]; auto.
  - match goal with X : Forall _ (_ :: _) |- _ => inversion X; subst end. destruct H0 as [-> ?]; auto. destruct H2 as [-> ?]; auto.
  - match goal with X : Forall _ (_ :: _) |- _ => inversion X; subst end. destruct H0 as [-> ?]; auto. destruct H2 as [-> ?]; auto.
  - match goal with X : Forall _ (_ :: _) |- _ => inversion X; subst end. destruct H0 as [-> ?]; auto. destruct H2 as [-> ?]; auto.
  - now apply r_const.
  - intros M; discriminate M.
  - now apply r_placeholder.
  - eapply r_op; eauto.
  - apply r_bin_bools.
  - eapply r_bin; eauto.
  - apply r_bools.
  - eapply r_seq; eauto.
  - now apply r_func.
  - now apply r_def.
  - now apply r_use.
  - eapply r_block; eauto.
  - eapply r_apply; eauto.
  - eapply r_method; eauto.
  - eapply r_prop; eauto.
  - apply r_nil.
  - eapply r_cons; eauto.
  - apply r_none.
  - now apply r_some.
Qed.
End Read.
