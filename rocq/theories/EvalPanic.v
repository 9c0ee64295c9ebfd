(** Evaluation does not panic on well-formed scripts: the invariant and its
    preservation by every operation. *)
From Verif Require Import Base VlqModel VlqProofs IntBytes GroupModel GroupProofs SigmaModel SigmaProofs BigIntModel TypeModel
  MethodModel IrModel SerModel SerLocal SerSpec SerProofs SbProofs ChainModel HeaderModel TxModel EqModel PrintModel EvalModel SerSeg EqProofs EvalEq EvalProofs TypeProofs.
Local Open Scope string_scope.
Local Open Scope list_scope.
Local Open Scope Z_scope.

(** No panic, and values that satisfy [Q]. *)
Definition np {A} (Q : A -> Prop) (r : res A) : Prop :=
  match r with Ok a => Q a | Err _ => True | Panic => False end.
Lemma np_bind {A B} (P : A -> Prop) (Q : B -> Prop) (r : res A) (f : A -> res B) :
  np P r -> (forall a, P a -> np Q (f a)) -> np Q (bind r f).
Proof. destruct r; cbn; auto. Qed.
Lemma np_any {A B} (Q : B -> Prop) (r : res A) (f : A -> res B) :
  r <> Panic -> (forall a, r = Ok a -> np Q (f a)) -> np Q (bind r f).
Proof. destruct r; cbn; auto. Qed.
Lemma np_of {A} (Q : A -> Prop) (r : res A) : r <> Panic -> (forall a, r = Ok a -> Q a) -> np Q r.
Proof. destruct r; cbn; auto. Qed.
Lemma np_impl {A} (P Q : A -> Prop) (r : res A) : np P r -> (forall a, P a -> Q a) -> np Q r.
Proof. destruct r; cbn; auto. Qed.
Lemma np_panic {A} (Q : A -> Prop) (r : res A) : np Q r -> r <> Panic.
Proof. intros N ->. exact N. Qed.
Lemma np_hok {A} (Q : A -> Prop) (r : res A) : r <> Panic -> hok Q r -> np Q r.
Proof. destruct r; cbn; auto. Qed.

Section Good.
Context {G : group} (HG : group_ok G).
Notation value := (value G).
Notation env := (env G).
Notation expr := (expr G).

(** A box that can be written and read. *)
Definition bgood (b : box G) : Prop := exists st st', ok_box st b st'.

Fixpoint lgood (l : lit G) : Prop :=
  match l with
  | LSigma s => sb_wf s
  | LBox b => bgood b
  | LColl _ l | LTup l => (fix go l := match l with [] => True | x :: l' => lgood x /\ go l' end) l
  | LOpt (Some x) => lgood x
  | _ => True
  end.
Lemma lgood_list l :
  (fix go (l : list (lit G)) := match l with [] => True | x :: l' => lgood x /\ go l' end) l <-> Forall lgood l.
Proof.
  induction l as [|x l IH]; [split; [constructor|trivial]|]. rewrite IH. split.
  - intros [A B]. now constructor.
  - intros F. inversion F. auto.
Qed.
Lemma lgood_coll t l : lgood (LColl t l) <-> Forall lgood l. Proof. apply lgood_list. Qed.
Lemma lgood_tup l : lgood (LTup l) <-> Forall lgood l. Proof. apply lgood_list. Qed.

(** Scripts: well-formed constants, conjunctions of bounded length, and none of the
    operations that read scripts at run time. *)
Definition op_good (k : opk) : Prop :=
  match k with OSubstConstants => False | _ => True end.
Definition seq_good (q : seqk) (n : Z) : Prop :=
  match q with QSigmaAnd | QSigmaOr => n <= 255 | _ => True end.
Fixpoint egood (x : expr) : Prop :=
  let each := fix go l := match l with [] => True | y :: l' => egood y /\ go l' end in
  match x with
  | EConst k => lgood (c_val k)
  | EPlaceholder _ _ | EBools _ | EValUse _ _ => True
  | EOp k _ l d => op_good k /\ each l /\ match d with Some y => egood y | None => True end
  | EBin _ a b => egood a /\ egood b
  | ESeq q l => seq_good q (Zlen l) /\ each l
  | EFunc _ b => egood b
  | EValDef _ r => egood r
  | EBlock l r => each l /\ egood r
  | EApply f l => egood f /\ each l
  | EMethod _ o l => egood o /\ each l
  | EProp _ o => egood o
  end.
Lemma each_egood l :
  (fix go (l : list expr) := match l with [] => True | y :: l' => egood y /\ go l' end) l <-> Forall egood l.
Proof.
  induction l as [|x l IH]; [split; [constructor|trivial]|]. rewrite IH. split.
  - intros [A B]. now constructor.
  - intros Q. inversion Q. auto.
Qed.

(** Values. *)
Fixpoint vgood (v : value) : Prop :=
  match v with
  | VSigma s => sb_wf s
  | VBox b => bgood (snd b)
  | VColl _ l | VTup l => (fix go l := match l with [] => True | x :: l' => vgood x /\ go l' end) l
  | VOpt (Some x) => vgood x
  | VLambda _ b => egood b
  | _ => True
  end.
Lemma vgood_list l :
  (fix go (l : list value) := match l with [] => True | x :: l' => vgood x /\ go l' end) l <-> Forall vgood l.
Proof.
  induction l as [|x l IH]; [split; [constructor|trivial]|]. rewrite IH. split.
  - intros [A B]. now constructor.
  - intros F. inversion F. auto.
Qed.
Lemma vgood_coll t l : vgood (VColl t l) <-> Forall vgood l. Proof. apply vgood_list. Qed.
Lemma vgood_tup l : vgood (VTup l) <-> Forall vgood l. Proof. apply vgood_list. Qed.
Definition env_good (e : env) : Prop := Forall (fun p => vgood (snd p)) e.

(** ** Constants *)
Definition cv_good (e : expr) : Prop := forall l, const_value e = Some l -> lgood l.
Definition rg_good (r : regval G) : Prop := forall c, reg_constant r = Ok c -> lgood (c_val c).
Lemma opt_list_good l : Forall cv_good l -> forall r, opt_list const_value l = Some r -> Forall lgood r.
Proof.
  induction 1 as [|x l X F IH]; cbn [opt_list]; intros r E; [injection E as <-; constructor|].
  destruct (const_value x) eqn:V; [|discriminate]. fold (@opt_list expr (lit G) const_value) in E.
  destruct (opt_list const_value l) eqn:L; [|discriminate]. injection E as <-. constructor; auto.
Qed.
Lemma ok_good :
  (forall st t v st', ok_lit st t v st' -> lgood v) /\
  (forall st t l st', ok_lits st t l st' -> Forall lgood l) /\
  (forall st ts l st', ok_items st ts l st' -> Forall lgood l) /\
  (forall st c st', ok_const st c st' -> lgood (c_val c)) /\
  (forall st l st', ok_consts (G := G) st l st' -> True) /\
  (forall m st e st', ok_expr m st e st' -> m = false -> cv_good e) /\
  (forall m st l st', ok_exprs m st l st' -> m = false -> Forall cv_good l) /\
  (forall m st d st', ok_opt (G := G) m st d st' -> True) /\
  (forall st t st', ok_tree (G := G) st t st' -> True) /\
  (forall h st cs st', ok_seg (G := G) h st cs st' -> True) /\
  (forall st r st', ok_reg st r st' -> rg_good r) /\
  (forall st l st', ok_regs st l st' -> Forall rg_good l) /\
  (forall st c st', ok_cand st c st' -> Forall rg_good (cd_regs c)) /\
  (forall st b st', ok_box st b st' -> Forall rg_good (cd_regs (b_cand b))).
Proof.
  apply ok_mutind; intros; auto; try exact I; try (intros v E; discriminate E);
    try (apply lgood_coll; assumption); try (apply lgood_tup; assumption).
  - cbn [lgood]. eexists; eexists; eassumption.
  - intros v E. cbn in E. injection E as <-. assumption.
  - discriminate.
  - intros v E. destruct q; try discriminate E. cbn [const_value] in E.
    destruct (opt_list const_value l) eqn:L; [|discriminate]. injection E as <-.
    apply lgood_tup. eapply opt_list_good; [|exact L]. auto.
  - intros k E. cbn in E. injection E as <-. assumption.
  - intros k E. cbn in E. unfold tuple_to_constant in E.
    destruct (opt_list const_value l) eqn:L; [|discriminate]. injection E as <-. cbn [c_val].
    apply lgood_tup. eapply opt_list_good; [|exact L]. auto.
Qed.
Lemma ok_const_lgood st c st' : ok_const st c st' -> lgood (c_val c).
Proof. destruct ok_good as (_ & _ & _ & R & _). apply R. Qed.

(** ** Boxes *)
Lemma bgood_bytes b : bgood b -> exists s, ser_box b = Ok s.
Proof.
  intros (st & st' & O). destruct (ok_roundtrip HG) as (_ & _ & _ & _ & _ & _ & _ & _ & _ & _ & _ & _ & _ & R).
  destruct (R _ _ _ O) as (bs & E & _). eauto.
Qed.
Lemma bgood_cand b : bgood b -> exists s, ser_cand None (b_cand b) = Ok s.
Proof.
  intros (st & st' & O). inversion O; subst. destruct (ok_roundtrip HG) as (_ & _ & _ & _ & _ & _ & _ & _ & _ & _ & _ & _ & R & _).
  match goal with C : ok_cand _ _ _ |- _ => destruct (R _ _ _ C None I) as (bs & E & _) end. eauto.
Qed.
Lemma bgood_tree b : bgood b -> exists s, ser_tree (cd_tree (b_cand b)) = Ok s.
Proof.
  intros (st & st' & O). inversion O; subst. match goal with C : ok_cand _ _ _ |- _ => inversion C; subst end.
  destruct (ok_roundtrip HG) as (_ & _ & _ & _ & _ & _ & _ & _ & R & _).
  match goal with C : ok_tree _ _ _ |- _ => destruct (R _ _ _ C) as (bs & E & _) end. eauto.
Qed.
Lemma bgood_register b id : bgood b ->
  np (fun o => match o with Some c => lgood (c_val c) | None => True end) (get_register b id).
Proof.
  intros B. assert (T : lgood (c_val (tokens_const (G := G) (cd_tokens (b_cand b))))).
  { unfold tokens_const. cbn [c_val]. apply lgood_coll. apply Forall_map. apply Forall_forall. intros x _. cbn. auto. }
  assert (R : np (fun o => match o with Some c => lgood (c_val c) | None => True end) (regs_get_constant (cd_regs (b_cand b)) id)).
  { unfold regs_get_constant. destruct (nth_error _ _) eqn:E; [|exact I]. apply nth_error_In in E.
    destruct B as (st & st' & O). destruct ok_good as (_ & _ & _ & _ & _ & _ & _ & _ & _ & _ & _ & _ & _ & R).
    specialize (R _ _ _ O). rewrite Forall_forall in R. specialize (R _ E). unfold rg_good in R.
    destruct (reg_constant r) as [k| |] eqn:K; cbn; [apply R; reflexivity|exact I|].
    destruct r; cbn in K; try discriminate. destruct (tuple_to_constant items); discriminate. }
  unfold get_register. destruct id as [|[[p|p|]|[p|p|]|]|p]; try exact R; try exact I; try exact T.
  - destruct (creation_info b). cbn. auto.
  - unfold script_bytes. destruct (bgood_tree b B) as [s ->]. exact I.
Qed.

(** ** Propositions *)
Lemma conj_wf_all c l : conj_wf c -> items_len_ok l -> Forall (@sb_wf G) l -> sb_wf (SConj c l).
Proof. intros C L F. cbn [sb_wf]. split; [exact C|]. split; [exact L|]. apply fold_and_Forall. exact F. Qed.
Lemma strip_incl b (l r : list (sbool G)) : Forall sb_wf l -> strip b l = Some r -> Forall sb_wf r.
Proof.
  intros F E. apply strip_shape in E as (_ & _ & I). rewrite Forall_forall in *. auto.
Qed.
Lemma conj_good c b (l : list (sbool G)) : conj_wf c -> Zlen l <= 255 -> Forall sb_wf l -> np sb_wf (conj_of_stripped c b (strip b l)).
Proof.
  intros C L F. destruct (strip b l) as [r|] eqn:E; [|exact I]. cbn [conj_of_stripped].
  pose proof (strip_incl _ _ _ F E) as Fr. apply strip_shape in E as (Lr & _).
  destruct r as [|x [|y r]]; [exact I|inversion Fr; assumption|].
  assert (B : 2 <= Zlen (x :: y :: r) <= 255).
  { rewrite !Zlen_cons. pose proof (Zlen_nonneg _ r). unfold Zlen in *. cbn [List.length] in Lr. lia. }
  rewrite bounded_unwrap_ok by exact B. cbn [bind np]. now apply conj_wf_all.
Qed.
Lemma cand_good (l : list (sbool G)) : Zlen l <= 255 -> Forall sb_wf l -> np sb_wf (cand_normalized l).
Proof. intros. now apply conj_good. Qed.
Lemma cor_good (l : list (sbool G)) : Zlen l <= 255 -> Forall sb_wf l -> np sb_wf (cor_normalized l).
Proof. intros. now apply conj_good. Qed.
Lemma reduce_loop_wf (l : list (sbool G)) : forall k rem acc s, 1 <= k <= 255 -> Forall sb_wf acc -> Forall sb_wf l ->
  match reduce_loop l k rem acc with
  | inr r => r
  | inl (k, rem, acc) =>
      sigmas <- bounded_unwrap acc ;;
      if k =? 1 then cor_normalized sigmas
      else if k =? rem then cand_normalized sigmas
      else Ok (SConj (Thr k) sigmas)
  end = Ok s -> sb_wf s.
Proof.
  assert (U : forall (acc : list (sbool G)) f s, Forall sb_wf acc ->
    (forall l : list (sbool G), items_len_ok l -> Forall sb_wf l -> np sb_wf (f l)) -> (r <- bounded_unwrap acc ;; f r) = Ok s -> @sb_wf G s).
  { intros acc f s F K E. unfold bounded_unwrap, bounded in E. destruct (_ && _) eqn:B; [|discriminate]. cbn [bind] in E.
    assert (L : items_len_ok acc) by (unfold items_len_ok; lia). specialize (K acc L F). rewrite E in K. exact K. }
  induction l as [|x l IH]; intros k rem acc s K A F E; cbn [reduce_loop] in E.
  - revert E. apply U; [exact A|]. intros r L Fr. unfold items_len_ok in L.
    destruct (k =? 1); [apply cor_good; [lia|exact Fr]|]. destruct (k =? rem); [apply cand_good; [lia|exact Fr]|].
    cbn [np]. apply conj_wf_all; [cbn; unfold u8; lia|exact L|exact Fr].
  - pose proof F as F0. inversion F; subst. destruct (k =? 1) eqn:K1.
    { revert E. apply U; [now apply Forall_app|]. intros r L Fr. unfold items_len_ok in L. apply cor_good; [lia|exact Fr]. }
    destruct (k =? rem).
    { revert E. apply U; [now apply Forall_app|]. intros r L Fr. unfold items_len_ok in L. apply cand_good; [lia|exact Fr]. }
    destruct x as [[|]| |]; revert E; apply IH; try lia; try assumption; apply Forall_app; auto.
Qed.
Lemma threshold_good k (l : list (sbool G)) : u8 k -> items_len_ok l -> Forall sb_wf l -> np sb_wf (cthreshold_reduce k l).
Proof.
  intros K L F. apply np_of.
  - destruct (cthreshold_reduce_spec k l K L) as (s & E & _). rewrite E. discriminate.
  - intros s E. unfold cthreshold_reduce in E. destruct (k =? 0) eqn:K0; [injection E as <-; exact I|].
    destruct (_ <? k); [injection E as <-; exact I|]. eapply reduce_loop_wf; [| |exact F|exact E]; [unfold u8 in K; lia|constructor].
Qed.
Lemma prop_good (s : sbool G) : sb_wf s -> exists b, prop_bytes s = Ok b.
Proof.
  intros W. unfold prop_bytes, tree_of_expr. change (tree_new (th_v0 false) ?e) with (Ok (Parsed (G := G) (th_v0 false) [] e)).
  cbn [bind].
  assert (O : ok_tree fresh (Parsed (th_v0 false) [] (EConst (MkConst SSigmaProp (LSigma s)))) fresh).
  { eapply ok_unsized; [left; reflexivity|reflexivity|apply ok_seg_no; reflexivity|].
    apply ok_inline. apply ok_constant; [split; cbn; auto|]. now apply ok_sigma. }
  destruct (ok_roundtrip HG) as (_ & _ & _ & _ & _ & _ & _ & _ & R & _).
  destruct (R _ _ _ O) as (bs & E & _). eauto.
Qed.

(** ** Parts that cannot panic *)
Lemma of_option_np {A} e (o : option A) : of_option e o <> Panic. Proof. destruct o; discriminate. Qed.
Lemma get_bool_np (v : value) : get_bool v <> Panic. Proof. destruct v; discriminate. Qed.
Lemma get_byte_np (v : value) : get_byte v <> Panic. Proof. destruct v; discriminate. Qed.
Lemma get_int_np (v : value) : get_int v <> Panic. Proof. destruct v; discriminate. Qed.
Lemma get_long_np (v : value) : get_long v <> Panic. Proof. destruct v; discriminate. Qed.
Lemma get_i8s_np (v : value) : get_i8s v <> Panic. Proof. destruct v; discriminate. Qed.
Lemma get_u8s_np (v : value) : get_u8s v <> Panic. Proof. destruct v; discriminate. Qed.
Lemma get_group_np (v : value) : get_group v <> Panic. Proof. destruct v; discriminate. Qed.
Lemma get_sigma_np (v : value) : get_sigma v <> Panic. Proof. destruct v; discriminate. Qed.
Lemma get_box_np (v : value) : get_box v <> Panic. Proof. destruct v; discriminate. Qed.
Lemma get_avl_np (v : value) : get_avl v <> Panic. Proof. destruct v; discriminate. Qed.
Lemma get_header_np (v : value) : get_header v <> Panic. Proof. destruct v; discriminate. Qed.
Lemma get_preheader_np (v : value) : get_preheader v <> Panic. Proof. destruct v; discriminate. Qed.
Lemma get_coll_np (v : value) : get_coll v <> Panic. Proof. destruct v; discriminate. Qed.
Lemma get_num_np k (v : value) : get_num k v <> Panic. Proof. destruct k, v; discriminate. Qed.
Lemma bind_np {A B} (r : res A) (f : A -> res B) : r <> Panic -> (forall a, f a <> Panic) -> bind r f <> Panic.
Proof. destruct r; cbn; auto; discriminate. Qed.
Lemma get_all_np {A} (f : value -> res A) l : (forall v, f v <> Panic) -> get_all f l <> Panic.
Proof.
  intros F. induction l as [|x l IH]; cbn [get_all]; [discriminate|]. apply bind_np; [apply F|]. intros a.
  apply bind_np; [exact IH|discriminate].
Qed.
Lemma get_vec_np {A} (f : value -> res A) v : (forall v, f v <> Panic) -> get_vec f v <> Panic.
Proof. intros F. destruct v; try discriminate. now apply get_all_np. Qed.
Lemma get_pair_np {A B} (f : value -> res A) (g : value -> res B) v : (forall v, f v <> Panic) -> (forall v, g v <> Panic) ->
  get_pair f g v <> Panic.
Proof.
  intros F K. destruct v; try discriminate. destruct items as [|x [|y l]]; try discriminate. cbn [get_pair].
  apply bind_np; [apply F|]. intros a. apply bind_np; [apply K|discriminate].
Qed.
Lemma arg_np (args : list value) n : arg args n <> Panic. Proof. apply of_option_np. Qed.
Lemma reg_id_np i : reg_id_of_i8 i <> Panic. Proof. unfold reg_id_of_i8. destruct (_ && _); discriminate. Qed.
Lemma read_exact_np n bs : read_exact n bs <> Panic. Proof. unfold read_exact. destruct (Nat.leb _ _); discriminate. Qed.
Lemma ec_read_np bs : @ec_read G bs <> Panic.
Proof.
  unfold ec_read. apply bind_np; [apply read_exact_np|]. intros [a b]. destruct (negb _); [|discriminate].
  apply bind_np; [apply of_option_np|discriminate].
Qed.
Lemma long_np l : byte_array_to_long l <> Panic.
Proof. do 8 (destruct l as [|? l]; [discriminate|]). discriminate. Qed.
Lemma digest33_np b : digest33 b <> Panic. Proof. unfold digest33. destruct (_ =? _); discriminate. Qed.

Lemma avl_run_np av (ops : list avl_op) : forall s, avl_run av s ops <> Panic.
Proof.
  induction ops as [|o ops IH]; intros s; cbn [avl_run]; [discriminate|]. apply bind_np; [apply of_option_np|]. intros [r s'].
  apply bind_np; [apply IH|]. intros [rs s'']. discriminate.
Qed.
Lemma avl_lookup1_np av a k p : avl_lookup1 av a k p <> Panic.
Proof.
  unfold avl_lookup1, avl_start. apply bind_np; [apply of_option_np|]. intros s. apply bind_np; [apply of_option_np|]. intros [r s']. discriminate.
Qed.
Lemma avl_lookup_np av a k p : avl_lookup av a k p <> Panic.
Proof.
  unfold avl_lookup, avl_start. apply bind_np; [apply of_option_np|]. intros s. apply bind_np; [apply avl_run_np|]. intros [r s']. discriminate.
Qed.
Lemma avl_start_np av a p : avl_start av a p <> Panic. Proof. apply of_option_np. Qed.
Lemma ec_write_np (p : G) : ec_write p <> Panic. Proof. unfold ec_write. destruct (is_identity p); discriminate. Qed.
End Good.

Create HintDb npdb discriminated.
#[export] Hint Resolve of_option_np get_bool_np get_byte_np get_int_np get_long_np get_i8s_np get_u8s_np get_group_np get_sigma_np
  get_box_np get_avl_np get_header_np get_preheader_np get_coll_np get_num_np get_all_np get_vec_np get_pair_np arg_np reg_id_np
  read_exact_np ec_read_np long_np digest33_np avl_run_np avl_lookup1_np avl_lookup_np avl_start_np ec_write_np : npdb.

(** Results that contain nothing of interest. *)
Ltac npg :=
  repeat (cbv beta iota;
    first
    [ exact I
    | match goal with
      | |- np _ (Ok _) => cbn [np]
      | |- np _ (Err _) => exact I
      | |- np _ (bind _ _) => simple apply np_any; [solve [auto with npdb]|intros ? ?]
      | |- np _ (match ?x with _ => _ end) => destruct x
      end ]).

Section Ops.
Context {G : group} (HG : group_ok G).
Variables H sha : bytes -> bytes.
Variable fits : Z -> bool.
Variable avlv : avl_verifier.
Notation value := (value G).
Notation env := (env G).
Notation expr := (expr G).

Notation lgood := (@lgood G).
Notation vgood := (@vgood G).
Notation egood := (@egood G).
Notation bgood := (@bgood G).
Notation sb_wf := (@sb_wf G).
Notation env_good := (@env_good G).
Lemma lit_vgood l : lgood l -> vgood (value_of_lit H l).
Proof.
  assert (K : (forall l : lit G, lgood l -> vgood (value_of_lit H l)) /\ (forall k : const G, True) /\ (forall x : expr, True) /\
              (forall t : tree G, True) /\ (forall r : regval G, True) /\ (forall d : cand G, True) /\ (forall b : box G, True)).
  { apply ir_ind; intros; try exact I; try (cbn in *; assumption).
    - cbn [value_of_lit]. apply vgood_coll. apply lgood_coll in H1. apply Forall_map. rewrite Forall_forall in *. auto.
    - cbn [value_of_lit]. destruct o as [x|]; [|exact I]. apply H0. exact H1.
    - cbn [value_of_lit]. apply vgood_tup. apply lgood_tup in H1. apply Forall_map. rewrite Forall_forall in *. auto. }
  apply K.
Qed.
Lemma get_coll_good v : vgood v -> np (fun p => Forall vgood (snd p)) (get_coll v).
Proof.
  intros V. destruct v; cbn; try exact I.
  - apply Forall_map. apply Forall_forall. intros; exact I.
  - now apply vgood_coll in V.
Qed.
Lemma from_vec_good t l : Forall vgood l -> np vgood (from_vec t l).
Proof. intros F. unfold from_vec. destruct t; cbn [np]; try (now apply vgood_coll). npg. Qed.
Lemma get_all_id (l : list value) : get_all (fun v => Ok v) l = Ok l.
Proof. induction l as [|x l IH]; cbn; [reflexivity|now rewrite IH]. Qed.
Lemma get_all_good l : Forall vgood l -> np (Forall (Forall vgood)) (get_all (get_vec (fun v => Ok v)) l).
Proof.
  induction 1 as [|v l V F IH]; cbn [get_all]; [constructor|].
  apply (np_bind (Forall vgood)).
  - destruct v; cbn [get_vec]; try exact I. rewrite get_all_id. now apply vgood_coll in V.
  - intros a A. apply (np_bind (Forall (Forall vgood))); [exact IH|]. intros r R. cbn. now constructor.
Qed.
Lemma from_vec_vec_good t l : Forall vgood l -> np vgood (from_vec_vec t l).
Proof.
  intros F. unfold from_vec_vec.
  destruct t; try (apply (np_bind (Forall (Forall vgood)));
    [now apply get_all_good|intros a A; cbn [np]; apply vgood_coll; now apply Forall_concat]).
  npg.
Qed.
Lemma arg_good args n : Forall vgood args -> np vgood (arg args n).
Proof.
  intros F. unfold arg. destruct (nth_error args n) eqn:E; cbn; [|exact I].
  rewrite Forall_forall in F. apply F. now apply nth_error_In in E.
Qed.
Lemma get_sigmas_good l : Forall vgood l -> np (fun r => Forall sb_wf r /\ Zlen r = Zlen l) (get_all get_sigma l).
Proof.
  induction 1 as [|v l V F IH]; cbn [get_all]; [split; [constructor|reflexivity]|].
  apply (np_bind sb_wf); [destruct v; try exact I; exact V|]. intros s S.
  apply (np_bind _ _ _ _ IH). intros r [R L]. cbn [np]. rewrite !Zlen_cons, L. split; [now constructor|reflexivity].
Qed.
Lemma get_box_good v : vgood v -> np (fun b => bgood (snd b)) (get_box v).
Proof. intros V. destruct v; try exact I. exact V. Qed.
Lemma reg_value_good b id : bgood b -> np vgood (reg_value H b id).
Proof.
  intros B. unfold reg_value. apply (np_bind _ _ _ _ (bgood_register HG b id B)). intros [k|] K; cbn [np vgood]; [|exact I].
  now apply lit_vgood.
Qed.

Lemma op1_good k p v : vgood v -> np vgood (op1 H sha k p v).
Proof.
  intros V. destruct k; try (cbn [op1]; npg; fail); cbn [op1].
  all: try (apply (np_bind _ _ _ _ (get_box_good v V)); intros b B).
  - unfold bit_inversion. apply np_any; [apply of_option_np|]. intros [k z] _. destruct k; exact I.
  - unfold negation. apply np_any; [apply of_option_np|]. intros [k z] _. apply np_any; [apply of_option_np|].
    intros w _. destruct k; exact I.
  - destruct (bgood_bytes HG _ B) as [s ->]. exact I.
  - unfold bytes_without_ref. destruct (bgood_cand HG _ B) as [s ->]. exact I.
  - unfold script_bytes. destruct (bgood_tree HG _ B) as [s ->]. exact I.
  - destruct (creation_info (snd b)). cbn. auto.
  - destruct v; try exact I. destruct o; [exact V|exact I].
  - destruct v; try exact I. cbn [get_sigma bind]. destruct (prop_good HG _ V) as [b ->]. exact I.
  - destruct p; try exact I. apply (np_bind _ _ _ _ (get_box_good v V)). intros b B.
    apply np_any; [apply reg_id_np|]. intros id _. now apply reg_value_good.
  - destruct p; try exact I. unfold upcast. npg.
  - destruct p; try exact I. unfold downcast, narrow. npg.
  - destruct p; try exact I. destruct v; try exact I. apply vgood_tup in V.
    destruct (znth items (i - 1)) eqn:E; cbn; [|exact I]. apply znth_in in E. rewrite Forall_forall in V. auto.
Qed.
Lemma append_good a b : vgood a -> vgood b -> np vgood (append a b).
Proof.
  intros A B. unfold append. apply (np_bind _ _ _ _ (get_coll_good a A)). intros [t x] X.
  apply (np_bind _ _ _ _ (get_coll_good b B)). intros [u y] Y. destruct (stype_eqb t u); [|exact I].
  apply from_vec_good. now apply Forall_app.
Qed.
Lemma atleast_good a b : vgood b -> np vgood (atleast a b).
Proof.
  intros B. unfold atleast. apply (np_bind _ _ _ _ (get_coll_good b B)). intros [t l] L. cbn [snd] in L.
  apply np_any; [apply get_int_np|]. intros k _. apply (np_bind _ _ _ _ (get_sigmas_good l L)). intros ss [S Ls].
  destruct ((k <? 0) || (255 <? k)) eqn:K; [exact I|]. destruct (wraps 32 (Zlen ss) <? k); [exact I|].
  unfold bounded. destruct (_ && _) eqn:Bd; [|exact I]. cbn [bind].
  apply (np_bind sb_wf); [|intros s W; exact W]. apply threshold_good; [unfold u8; lia|unfold items_len_ok; lia|exact S].
Qed.
Lemma op2_good k a b : vgood a -> vgood b -> np vgood (op2 k a b).
Proof.
  intros A B. destruct k; try exact I; cbn [op2].
  - now apply atleast_good.
  - now apply append_good.
  - destruct a; try exact I. destruct o; [exact A|exact B].
  - npg.
  - unfold exponentiate_v. npg.
  - npg.
Qed.
Lemma slice_good v f u : vgood v -> np vgood (slice v f u).
Proof.
  intros V. unfold slice. apply (np_bind _ _ _ _ (get_coll_good v V)). intros [t l] L.
  destruct (_ && _); apply from_vec_good; [|constructor]. now apply ztake_forall, zskip_forall.
Qed.
Lemma op3_good k a b x : op_good k -> vgood a -> np vgood (op3 k a b x).
Proof.
  intros K A. destruct k; try exact I; try contradiction; cbn [op3].
  apply np_any; [apply get_coll_np|]. intros q _. apply np_any; [apply get_int_np|]. intros f _.
  apply np_any; [apply get_int_np|]. intros u _. now apply slice_good.
Qed.
Lemma update_all_good us n : Forall (fun p => vgood (snd p)) us -> forall l, Forall vgood l -> np (Forall vgood) (update_all l n us).
Proof.
  induction 1 as [|[i v] us V F IH]; intros l L; cbn [update_all]; [exact L|].
  destruct (n <=? i); [exact I|]. destruct (zset l i v) eqn:E; [|exact I]. apply IH.
  eapply zset_forall; eauto.
Qed.
Lemma indices_good l : forall i, np (Forall vgood) (indices_from i l).
Proof.
  induction l as [|x l IH]; intros i; cbn [indices_from]; [constructor|]. destruct (_ <? _); [|exact I].
  apply (np_bind _ _ _ _ (IH (i + 1))). intros r R. cbn. constructor; [exact I|exact R].
Qed.

Variable c : context G (chain_state G).
(** Contexts: every box can be written, every context variable is well formed,
    there is a last header, and the scripts that can be read from variables and
    registers are well formed.  Those from registers can also be printed. *)
Definition ctx_good : Prop :=
  bgood (snd (c_self c)) /\ Forall (fun b => bgood (snd b)) (c_inputs c) /\ Forall (fun b => bgood (snd b)) (c_outputs c) /\
  match c_data c with Some l => Forall (fun b => bgood (snd b)) l | None => True end /\
  (forall i k, ext_get (c_ext c) i = Some k -> lgood (c_val k)) /\ snd (c_state c) <> [] /\
  (forall i k b, ext_get (c_ext c) i = Some k -> script_const k = Ok b -> np egood (from_bytes parse_expr b)) /\
  (forall i k b, get_register (snd (c_self c)) i = Ok (Some k) -> script_const k = Ok b ->
     np (fun x => egood x /\ pretty_print x <> Panic) (from_bytes parse_expr b)).
Hypothesis C : ctx_good.

Lemma script_const_np (k : const G) : script_const k <> Panic.
Proof. unfold script_const. destruct (stype_eqb _ _); [|discriminate]. destruct (c_val k); discriminate. Qed.
Lemma boxes_good l : Forall (fun b => bgood (snd b)) l -> vgood (boxes_value l).
Proof. intros F. apply vgood_coll. apply Forall_map. exact F. Qed.
Lemma avl_modify_good a allowed ops args : ops <> Panic -> np vgood (avl_modify avlv a allowed ops args).
Proof.
  intros O. unfold avl_modify. destruct (negb allowed); [exact I|]. apply np_any; [exact O|]. intros o _. npg.
Qed.
Lemma entries_np mk (args : list value) : avl_entries mk args <> Panic.
Proof.
  unfold avl_entries. apply bind_np; [apply arg_np|]. intros l. apply bind_np; [auto with npdb|discriminate].
Qed.
Lemma keys_np mk (args : list value) : avl_keys mk args <> Panic.
Proof.
  unfold avl_keys. apply bind_np; [apply arg_np|]. intros l. apply bind_np; [auto with npdb|discriminate].
Qed.
Lemma method_value_good m o args : vgood o -> Forall vgood args -> np vgood (method_value H avlv c m o args).
Proof.
  intros O F. destruct C as (Cs & Ci & Co & Cd & Ce & Ch & _). unfold method_value.
  repeat match goal with |- np _ (if ?b then _ else _) => destruct b end; try exact I.
  - unfold avl_method, opt_bytes. apply np_any; [apply get_avl_np|]. intros a _.
    repeat match goal with |- np _ (if ?b then _ else _) => destruct b; [try (npg; fail)|] end;
      try exact I; try (apply avl_modify_good; first [apply entries_np|apply keys_np]); npg;
      try match goal with |- vgood (VOpt (match ?x with _ => _ end)) => destruct x; exact I end.
    apply vgood_coll. apply Forall_map. apply Forall_forall. intros [y|] _; exact I.
  - unfold context_method. destruct o; try exact I.
    repeat match goal with |- np _ (if ?b then _ else _) => destruct b; [try (npg; fail)|] end; try exact I.
    + cbn [np]. apply boxes_good. destruct (c_data c); [exact Cd|constructor].
    + cbn [np]. apply vgood_coll; apply Forall_map; apply Forall_forall; intros; exact I.
    + destruct (snd (c_state c)); [now destruct Ch|exact I].
  - unfold box_method.
    repeat match goal with |- np _ (if ?b then _ else _) => destruct b end; try (npg; fail).
    + apply np_any; [apply arg_np|]. intros r _. apply np_any; [apply get_byte_np|]. intros i _.
      apply np_any; [apply reg_id_np|]. intros id _. apply (np_bind _ _ _ _ (get_box_good o O)). intros b B.
      now apply reg_value_good.
    + apply (np_bind _ _ _ _ (get_box_good o O)). intros b _. cbn [np]. apply lit_vgood. unfold tokens_const. cbn [c_val].
      apply lgood_coll. apply Forall_map. apply Forall_forall. intros x _. cbn. auto.
  - unfold index_of. npg.
  - unfold zip_coll. apply (np_bind _ _ _ _ (get_coll_good o O)). intros [t x] X.
    apply (np_bind _ _ _ _ (arg_good args 0 F)). intros b B.
    apply (np_bind _ _ _ _ (get_coll_good b B)). intros [u y] Y. apply from_vec_good.
    apply Forall_map. eapply Forall_impl; [|exact (combine_forall _ _ _ X Y)].
    intros [p q] [Q1 Q2]. cbn in *. auto.
  - unfold indices. apply np_any; [apply get_coll_np|]. intros [t l] _.
    apply (np_bind _ _ _ _ (indices_good l 0)). intros r R. now apply from_vec_good.
  - unfold patch. apply (np_bind _ _ _ _ (get_coll_good o O)). intros [t l] L.
    apply np_any; [apply arg_np|]. intros f _. apply (np_bind _ _ _ _ (arg_good args 1 F)). intros p Pp.
    apply np_any; [apply arg_np|]. intros r _. apply np_any; [apply get_int_np|]. intros f' _.
    apply np_any; [apply get_int_np|]. intros r' _.
    apply (np_bind _ _ _ _ (get_coll_good p Pp)). intros [u q] Q. cbv zeta. apply from_vec_good.
    apply Forall_app. split; [now apply ztake_forall|]. apply Forall_app. split; [exact Q|now apply zskip_forall].
  - unfold updated. apply (np_bind _ _ _ _ (get_coll_good o O)). intros [t l] L.
    apply np_any; [apply arg_np|]. intros i _. apply (np_bind _ _ _ _ (arg_good args 1 F)). intros v V.
    apply np_any; [apply get_int_np|]. intros i' _. destruct (zset l _ v) eqn:E; [|exact I]. apply from_vec_good.
    eapply zset_forall; eauto.
  - unfold update_many. apply (np_bind _ _ _ _ (get_coll_good o O)). intros [t l] L.
    apply np_any; [apply arg_np|]. intros is _. apply (np_bind _ _ _ _ (arg_good args 1 F)). intros us U.
    apply (np_bind _ _ _ _ (get_coll_good us U)). intros [u us'] U'. apply np_any; [auto with npdb|]. intros is' _. cbv zeta.
    destruct (negb _); [exact I|]. destruct (negb _); [exact I|].
    eapply np_bind; [apply update_all_good; [|exact L]|intros r R; now apply from_vec_good].
    now apply combine_snd.
  - unfold group_method. npg.
  - unfold header_method. npg.
  - unfold preheader_method. npg.
  - unfold global_method. npg.
Qed.
Lemma op0_good k p : np vgood (op0 H c k p).
Proof.
  destruct C as (Cs & Ci & Co & Cd & Ce & Ch & _). destruct k; try exact I; cbn [op0]; try (apply boxes_good; assumption); try (npg; fail).
  - exact Cs.
  - destruct p; try exact I. destruct (ext_get (c_ext c) r) eqn:E; [|exact I]. destruct (stype_eqb _ _); [|exact I].
    cbn [np vgood]. apply lit_vgood. eauto.
Qed.

(** ** Environments *)
Lemma env_get_good e i v : env_good e -> env_get e i = Some v -> vgood v.
Proof.
  induction 1 as [|[j w] e W F IH]; cbn; [discriminate|]. destruct (j =? i); [intros [= <-]; exact W|exact IH].
Qed.
Lemma env_remove_good e i : env_good e -> env_good (env_remove e i).
Proof.
  unfold env_good, env_remove. rewrite !Forall_forall. intros F x X. apply filter_In in X. apply F, X.
Qed.
Lemma env_insert_good e i v : env_good e -> vgood v -> env_good (env_insert e i v).
Proof. intros E V. constructor; [exact V|now apply env_remove_good]. Qed.
Lemma remove_all_good l : forall e, env_good e -> env_good (fold_left env_remove l e).
Proof. induction l; cbn; intros e E; [exact E|]. apply IHl. now apply env_remove_good. Qed.
Lemma restore_good e fresh saved : env_good e -> env_good saved -> env_good (restore e fresh saved).
Proof.
  intros E S. unfold restore. induction S as [|[i v] s V S IH]; cbn [fold_right fst snd]; [now apply remove_all_good|].
  now apply env_insert_good.
Qed.
Definition st_good (s : env * list Z * env) : Prop := env_good (fst (fst s)) /\ env_good (snd s).
Lemma bind_var_good i v s : st_good s -> vgood v -> st_good (bind_var i v s).
Proof.
  destruct s as [[e fr] sv]. intros [E S] V. cbn [fst snd] in *. unfold bind_var. destruct (env_get e i) eqn:Q.
  - split; cbn [fst snd]; apply env_insert_good; auto. exact (env_get_good e i _ E Q).
  - split; cbn [fst snd]; [apply env_insert_good|]; auto.
Qed.

(** ** Evaluation *)
Section Step.
Variable rec : expr -> env -> res (value * env).
Definition out {A} (Q : A -> Prop) : A * env -> Prop := fun p => Q (fst p) /\ env_good (snd p).
Hypothesis R : forall x e, egood x -> env_good e -> np (out vgood) (rec x e).

Ltac ev x := eapply np_bind; [eapply R; eassumption|]; intros [? ?] [? ?]; cbn [fst snd] in *; cbv beta iota.
Lemma eval_list_good l : Forall egood l -> forall e, env_good e -> np (out (fun vs => Forall vgood vs /\ Zlen vs = Zlen l)) (eval_list rec l e).
Proof.
  induction 1 as [|x l X F IH]; intros e E; cbn [eval_list]; [split; [split; [constructor|reflexivity]|exact E]|].
  ev x. eapply np_bind; [apply IH; assumption|]. intros [vs e2] [[V L] E2]. cbn [fst snd np] in *. cbv beta iota.
  split; cbn [fst snd]; [|exact E2]. rewrite !Zlen_cons, L. split; [now constructor|reflexivity].
Qed.
Lemma call1_good f v e : vgood f -> vgood v -> env_good e -> np (out vgood) (call1 rec f v e).
Proof.
  intros Hf V E. destruct f; try exact I. destruct args as [|[i t] args]; [exact I|]. cbn [call1].
  eapply np_bind; [apply R; [exact Hf|now apply env_insert_good]|]. intros [r e'] [Vr E']. cbn [fst snd np] in *. cbv beta iota.
  split; cbn [fst snd]; [exact Vr|]. destruct (env_get e i) eqn:Q; [|now apply env_remove_good].
  apply env_insert_good; [exact E'|]. exact (env_get_good e i _ E Q).
Qed.
Ltac call := eapply np_bind; [apply call1_good; eassumption|]; intros [? ?] [? ?]; cbn [fst snd] in *; cbv beta iota.
Lemma map_loop_good f l : vgood f -> Forall vgood l -> forall e, env_good e -> np (out (Forall vgood)) (map_loop rec f l e).
Proof.
  intros Hf. induction 1 as [|x l X F IH]; intros e E; cbn [map_loop]; [split; [constructor|exact E]|]. call.
  eapply np_bind; [apply IH; assumption|]. intros [vs e2] [V E2]. cbn [fst snd np] in *. split; cbn [fst snd]; auto.
Qed.
Lemma filter_loop_good f l : vgood f -> Forall vgood l -> forall e, env_good e -> np (out (Forall vgood)) (filter_loop rec f l e).
Proof.
  intros Hf. induction 1 as [|x l X F IH]; intros e E; cbn [filter_loop]; [split; [constructor|exact E]|]. call.
  apply np_any; [apply get_bool_np|]. intros b _.
  eapply np_bind; [apply IH; assumption|]. intros [vs e2] [V E2]. cbn [fst snd np] in *. split; cbn [fst snd]; [destruct b|]; auto.
Qed.
Lemma exists_loop_good f l : vgood f -> Forall vgood l -> forall e, env_good e -> np (out (fun _ => True)) (exists_loop rec f l e).
Proof.
  intros Hf. induction 1 as [|x l X F IH]; intros e E; cbn [exists_loop]; [split; [exact I|exact E]|]. call.
  apply np_any; [apply get_bool_np|]. intros [|] _; [split; [exact I|assumption]|]. now apply IH.
Qed.
Lemma forall_loop_good f l : vgood f -> Forall vgood l -> forall e, env_good e -> np (out (fun _ => True)) (forall_loop rec f l e).
Proof.
  intros Hf. induction 1 as [|x l X F IH]; intros e E; cbn [forall_loop]; [split; [exact I|exact E]|]. call.
  apply np_any; [apply get_bool_np|]. intros [|] _; [|split; [exact I|assumption]]. now apply IH.
Qed.
Lemma fold_loop_good f l : vgood f -> Forall vgood l -> forall acc e, vgood acc -> env_good e -> np (out vgood) (fold_loop rec f acc l e).
Proof.
  intros Hf. induction 1 as [|x l X F IH]; intros acc e A E; cbn [fold_loop]; [split; assumption|].
  eapply np_bind; [apply call1_good; [exact Hf|apply vgood_tup; auto|exact E]|]. intros [v e2] [V E2]. now apply IH.
Qed.
Lemma typed_items_good t v : vgood v -> np (Forall vgood) (typed_items t v).
Proof.
  intros V. unfold typed_items. apply (np_bind _ _ _ _ (get_coll_good v V)). intros [u l] L. destruct (stype_eqb u t); [exact L|exact I].
Qed.
Lemma elem_type_np t : elem_type t <> Panic. Proof. unfold elem_type. destruct (pe t); discriminate. Qed.
Lemma with_env {A} (Q : A -> Prop) (P : value -> Prop) (r : res (A * env)) (f : A -> res value) :
  np (out Q) r -> (forall a, Q a -> np P (f a)) -> np (out P) ('(a, e) <- r ;; v <- f a ;; Ok (v, e)).
Proof.
  intros N K. eapply np_bind; [exact N|]. intros [a e] [A0 E]. cbn [fst snd] in *. cbv beta iota.
  eapply np_bind; [apply K, A0|]. intros v V. split; assumption.
Qed.
Lemma eval_lambda_op_good k a f e : egood a -> egood f -> env_good e -> np (out vgood) (eval_lambda_op rec k a f e).
Proof.
  intros A F E. unfold eval_lambda_op. ev a. ev f. destruct k; try exact I;
    try (apply np_any; [apply elem_type_np|]; intros t _; eapply np_bind; [apply typed_items_good; eassumption|]; intros l L).
  all: try (eapply np_bind; [apply exists_loop_good; eassumption|]; intros [b e2] [_ E2]; split; [exact I|exact E2]).
  all: try (eapply np_bind; [apply forall_loop_good; eassumption|]; intros [b e2] [_ E2]; split; [exact I|exact E2]).
  all: try (eapply with_env; [apply filter_loop_good; eassumption|]; intros vs V; now apply from_vec_good).
  destruct (tpe f); try exact I. destruct dom; try exact I. eapply np_bind; [apply typed_items_good; eassumption|]. intros l L.
  eapply with_env; [apply map_loop_good; eassumption|]. intros vs V. now apply from_vec_good.
Qed.
Lemma eval_fold_good a z f e : egood a -> egood z -> egood f -> env_good e -> np (out vgood) (eval_fold rec a z f e).
Proof.
  intros A Z F E. unfold eval_fold. ev a. ev z. ev f. eapply np_bind; [apply get_coll_good; eassumption|]. intros [t l] L.
  now apply fold_loop_good.
Qed.
Lemma flat_map_good o args e : vgood o -> Forall vgood args -> env_good e -> np (out vgood) (flat_map rec o args e).
Proof.
  intros O F E. unfold flat_map. apply (np_bind _ _ _ _ (arg_good args 0 F)). intros f Hf. destruct f; try exact I.
  destruct (_ <? _); [exact I|]. destruct (negb _); [exact I|]. destruct args0 as [|[i t] ps]; [exact I|].
  eapply np_bind; [apply typed_items_good; eassumption|]. intros l L.
  eapply with_env; [apply map_loop_good; [exact Hf|exact L|exact E]|]. intros vs V. now apply from_vec_vec_good.
Qed.
Lemma eval_method_good m o args e : vgood o -> Forall vgood args -> env_good e -> np (out vgood) (eval_method H avlv c rec m o args e).
Proof.
  intros O F E. unfold eval_method.
  destruct (_ && _); [now apply flat_map_good|]. destruct (_ && _).
  { unfold option_map_m. apply (np_bind _ _ _ _ (arg_good args 0 F)). intros f Hf. destruct f; try exact I.
    destruct o; try exact I. destruct o as [x|]; [|split; [exact I|exact E]].
    eapply np_bind; [apply call1_good; [exact Hf|exact O|exact E]|]. intros [v e2] [V E2]. split; assumption. }
  destruct (_ && _).
  { unfold option_filter_m. apply (np_bind _ _ _ _ (arg_good args 0 F)). intros f Hf. destruct f; try exact I.
    destruct o; try exact I. destruct o as [x|]; [|split; [exact I|exact E]].
    eapply np_bind; [apply call1_good; [exact Hf|exact O|exact E]|]. intros [v e2] [V E2]. cbn [fst snd] in *. cbv beta iota.
    apply np_any; [apply get_bool_np|]. intros [|] _; split; try assumption; exact I. }
  eapply np_bind; [apply method_value_good; assumption|]. intros v V. split; assumption.
Qed.
Lemma mk_num_good k z : vgood (mk_num k z). Proof. destruct k; exact I. Qed.
Lemma eval_bin_good k l r e : egood l -> egood r -> env_good e -> np (out vgood) (eval_bin fits rec k l r e).
Proof.
  intros L Rr E. unfold eval_bin. ev l.
  destruct k; try (apply np_any; [apply of_option_np|]; intros [n a] _; cbv beta iota; ev r;
    apply np_any; [apply get_num_np|]; intros b _; apply np_any; [apply of_option_np|]; intros z _; split; [apply mk_num_good|assumption]);
    try (ev r; apply np_any; [apply of_option_np|]; intros [n a] _; cbv beta iota;
         apply np_any; [apply get_num_np|]; intros b _; split; [exact I|assumption]);
    try (ev r; split; [exact I|assumption]).
  all: apply np_any; [apply get_bool_np|]; intros b _; try destruct b.
  all: try (split; [exact I|assumption]).
  all: ev r; apply np_any; [apply get_bool_np|intros b' _; split; [exact I|assumption]].
Qed.
Lemma block_top_good items : Forall egood items -> forall e, env_good e -> np env_good (block_top rec items e).
Proof.
  induction 1 as [|x l X F IH]; intros e E; cbn [block_top]; [exact E|]. destruct x; try exact I.
  cbn in X. ev x. apply IH. now apply env_insert_good.
Qed.
Lemma block_nested_good items : Forall egood items -> forall s, st_good s -> np st_good (block_nested rec items s).
Proof.
  induction 1 as [|x l X F IH]; intros s S; cbn [block_nested]; [exact S|]. destruct x; try exact I.
  cbn in X. destruct s as [[e fr] sv]. destruct S as [E S]. cbn [fst snd] in *. ev x. apply IH. apply bind_var_good; [split; assumption|assumption].
Qed.
Lemma eval_block_good items r e : Forall egood items -> egood r -> env_good e -> np (out vgood) (eval_block rec items r e).
Proof.
  intros L Hr E. unfold eval_block. destruct (env_is_empty e).
  - eapply np_bind; [apply block_top_good; assumption|]. intros e2 E2. now apply R.
  - eapply np_bind; [apply block_nested_good; [exact L|split; [exact E|constructor]]|]. intros [[e2 fr] sv] [E2 S]. cbn [fst snd] in *.
    cbv beta iota. ev r. split; cbn [fst snd]; [assumption|]. now apply restore_good.
Qed.
Lemma bind_args_good vs : forall params s, Forall vgood vs -> st_good s ->
  st_good (fold_left (fun s (p : Z * value) => bind_var (fst p) (snd p) s) (combine params vs) s).
Proof.
  induction vs as [|v vs IH]; intros [|i params] s F S; cbn [combine fold_left]; try exact S.
  inversion F; subst. apply IH; [assumption|]. now apply bind_var_good.
Qed.
Lemma eval_apply_good f args e : egood f -> Forall egood args -> env_good e -> np (out vgood) (eval_apply rec f args e).
Proof.
  intros Hf A E. unfold eval_apply. ev f. eapply np_bind; [apply eval_list_good; eassumption|].
  intros [vs e2] [[V _] E2]. cbn [fst snd] in *. cbv beta iota. destruct v; try exact I.
  pose proof (bind_args_good vs (map fst args0) (e2, [], []) V) as B.
  destruct (fold_left _ _ _) as [[e3 fr] sv]. destruct B as [B1 B2]; [split; [exact E2|constructor]|]. cbn [fst snd] in *.
  eapply np_bind; [apply R; [match goal with X : vgood (VLambda _ _) |- _ => exact X end|exact B1]|]. intros [w e4] [W E4].
  cbn [fst snd] in *. split; cbn [fst snd]; [exact W|]. now apply restore_good.
Qed.
Lemma eval_as_good {A} (g : value -> res A) x e : (forall v, g v <> Panic) -> egood x -> env_good e ->
  np (out (fun _ => True)) (eval_as rec g x e).
Proof.
  intros K X E. unfold eval_as. ev x. apply np_any; [apply K|]. intros a _. split; [exact I|assumption].
Qed.
Ltac as_ := eapply np_bind; [apply eval_as_good; [auto with npdb|eassumption|eassumption]|]; intros [? ?] [_ ?]; cbn [fst snd] in *; cbv beta iota.
Definition shape_good (s : shape expr) : Prop :=
  match s with Sh3 k _ _ _ => op_good k | _ => True end.
Lemma shape_of_good k p l d : op_good k -> shape_good (shape_of k p l d).
Proof.
  destruct l as [|x1 l]; [|destruct l as [|x2 l]; [|destruct l as [|x3 l]; [|destruct l as [|x4 l]; [|destruct l]]]];
    destruct k; cbn; try tauto; destruct p; cbn; tauto.
Qed.
Lemma eval_shape_good s : shape_good s -> shape_all egood s -> forall e, env_good e -> np (out vgood) (eval_shape H sha avlv c rec s e).
Proof.
  intros S F e E. destruct s; cbn [shape_all shape_good] in *; try contradiction; cbn [eval_shape];
    repeat match goal with X : _ /\ _ |- _ => destruct X end.
  - unfold eval_deser_context. destruct C as (_ & _ & _ & _ & _ & _ & Cx & _).
    destruct (ext_get (c_ext c) id) as [k|] eqn:Q; [|exact I].
    destruct (script_const k) as [b| |] eqn:B; [|exact I|now apply script_const_np in B].
    cbn [bind]. eapply np_bind; [exact (Cx _ _ _ Q B)|]. intros x X. destruct (stype_eqb _ _); [|exact I]. now apply R.
  - unfold eval_deser_register. destruct C as (Cs & _ & _ & _ & _ & _ & _ & Cr).
    apply np_any; [apply reg_id_np|]. intros id _.
    pose proof (bgood_register HG _ id Cs) as BR.
    assert (D : np (out vgood) (eval_default rec t d e)).
    { unfold eval_default. destruct d as [y|]; [|exact I]. destruct (stype_eqb _ _); [|exact I]. now apply R. }
    destruct (get_register (snd (c_self c)) id) as [[k|]| |] eqn:Q; [|exact D|exact D|exact BR].
    destruct (script_const k) as [b| |] eqn:B; [|exact I|now apply script_const_np in B].
    cbn [bind]. eapply np_bind; [exact (Cr _ _ _ Q B)|]. intros x [X P]. destruct (stype_eqb _ _); [now apply R|].
    apply np_any; [exact P|]. intros; exact I.
  - unfold eval_if. ev b. apply np_any; [apply get_bool_np|]. intros [|] _; now apply R.
  - now apply eval_fold_good.
  - unfold eval_by_index. ev a. ev i. eapply np_bind; [apply get_coll_good; eassumption|]. intros [t l] L.
    eapply (np_bind (out (fun o => match o with Some v => vgood v | None => True end))).
    + destruct d as [y|]; [|split; [exact I|assumption]]. cbn [oall] in *. ev y. split; assumption.
    + intros [o e3] [O E3]. cbn [fst snd] in *. cbv beta iota. apply np_any; [apply get_int_np|]. intros n _.
      unfold by_index. destruct (znth l _) eqn:Q; [|destruct o; [|exact I]]; cbn [bind np]; (split; [cbn [fst]|exact E3]); [|exact O].
      cbn [snd] in L. rewrite Forall_forall in L. apply L. now apply znth_in in Q.
  - unfold eval_tree_lookup. as_. as_. as_. apply np_any; [apply avl_lookup1_np|]. intros [r|] _; (split; [exact I|assumption]).
  - unfold eval_create_avl. as_. as_. as_. eapply (np_bind (out (fun _ => True))).
    + destruct d as [y|]; [|split; [exact I|assumption]]. cbn [oall] in *. as_. split; [exact I|assumption].
    + intros [o e4] [_ E4]. cbn [fst snd] in *. cbv beta iota. apply np_any; [apply digest33_np|]. intros dg _. split; [exact I|assumption].
  - unfold eval_dh_tuple. as_. as_. as_. as_. split; [exact I|assumption].
  - now apply eval_lambda_op_good.
  - eapply np_bind; [apply op0_good|]. intros v V. split; assumption.
  - ev a. eapply np_bind; [apply op1_good; eassumption|]. intros w W. split; assumption.
  - ev a. ev b. eapply np_bind; [apply op2_good; eassumption|]. intros w W. split; assumption.
  - ev a. ev b. ev x. eapply np_bind; [apply op3_good; eassumption|]. intros w W. split; assumption.
  - exact I.
Qed.
Lemma seq_value_good q vs : Forall vgood vs -> seq_good q (Zlen vs) -> np vgood (seq_value q vs).
Proof.
  intros V S. destruct q; cbn [seq_value seq_good] in *.
  - now apply vgood_tup.
  - apply (np_bind _ _ _ _ (get_sigmas_good vs V)). intros ss [W L]. apply (np_bind sb_wf); [|intros s X; exact X].
    apply cand_good; [lia|exact W].
  - apply (np_bind _ _ _ _ (get_sigmas_good vs V)). intros ss [W L]. apply (np_bind sb_wf); [|intros s X; exact X].
    apply cor_good; [lia|exact W].
  - now apply from_vec_good.
Qed.
Lemma eval_step_good x e : egood x -> env_good e -> np (out vgood) (eval_step H sha fits avlv c rec x e).
Proof.
  intros X E. destruct x; cbn [eval_step]; try exact I.
  - split; [apply lit_vgood; exact X|exact E].
  - destruct X as (K & L & D). apply each_egood in L. rewrite eval_op_shape. apply eval_shape_good; [now apply shape_of_good| |exact E].
    apply shape_of_all; [exact L|]. destruct d; [exact D|exact I].
  - destruct X as [L Rr]. now apply eval_bin_good.
  - split; [|exact E]. cbn [fst]. apply vgood_coll. apply Forall_map. apply Forall_forall. intros; exact I.
  - destruct X as [S L]. apply each_egood in L. eapply np_bind; [apply eval_list_good; eassumption|].
    intros [vs e2] [[V Lv] E2]. cbn [fst snd] in *. cbv beta iota. eapply np_bind; [apply seq_value_good; [exact V|rewrite Lv; exact S]|].
    intros v Vv. split; assumption.
  - split; [exact X|exact E].
  - destruct (env_get e id) eqn:Q; [|exact I]. split; [|exact E]. exact (env_get_good e id _ E Q).
  - destruct X as [L Rr]. apply each_egood in L. now apply eval_block_good.
  - destruct X as [Hf L]. apply each_egood in L. now apply eval_apply_good.
  - destruct X as [O L]. apply each_egood in L. ev obj. eapply np_bind; [apply eval_list_good; eassumption|].
    intros [vs e2] [[V Lv] E2]. cbn [fst snd] in *. cbv beta iota. now apply eval_method_good.
  - cbn in X. ev obj. apply eval_method_good; auto.
Qed.
End Step.

Theorem eval_good fuel : forall x e, egood x -> env_good e -> np (out vgood) (eval H sha fits avlv c fuel x e).
Proof.
  induction fuel as [|n IH]; intros x e X E; [exact I|]. cbn [eval]. now apply eval_step_good.
Qed.
End Ops.
