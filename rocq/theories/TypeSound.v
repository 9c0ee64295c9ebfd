(** Types of values and of expressions: what it takes for a value to have the type
    that was computed for the expression. *)
From Verif Require Import Base VlqModel IntBytes GroupModel SigmaModel BigIntModel TypeModel
  MethodModel IrModel SerModel ChainModel HeaderModel TxModel EqModel PrintModel EvalModel TypeProofs EqProofs EvalProofs EvalScope.
Local Open Scope string_scope.
Local Open Scope list_scope.
Local Open Scope Z_scope.

Section Spec.
Context {G : group}.
Notation value := (value G).
Notation env := (env G).
Notation expr := (expr G).
Notation lit := (lit G).

(** [Gam] gives every identifier one type, [good] is a set of boxes and [asks]
    tells the types at which registers are read. *)
Variable Gam : Z -> stype.
Variable asks : Z -> stype -> Prop.
Variable good : box G -> Prop.

(** The literal has the type; the boxes in it are among the good ones. *)
Fixpoint ltyped (l : lit) (t : stype) {struct l} : Prop :=
  match l with
  | LUnit => t = SUnit
  | LBool _ => t = SBoolean
  | LByte _ => t = SByte
  | LShort _ => t = SShort
  | LInt _ => t = SInt
  | LLong _ => t = SLong
  | LBigInt _ => t = SBigInt
  | LSigma _ => t = SSigmaProp
  | LGroup _ => t = SGroupElement
  | LAvl _ => t = SAvlTree
  | LBox b => t = SBox /\ good b
  | LCollBytes _ => t = SColl SByte
  | LColl u items =>
      t = SColl u /\ (fix go l := match l with [] => True | x :: l' => ltyped x u /\ go l' end) items
  | LOpt o =>
      match t with
      | SOption u => match o with Some x => ltyped x u | None => True end
      | _ => False
      end
  | LTup items =>
      match t with
      | STuple ts =>
          (fix go l ts := match l, ts with
                          | [], [] => True
                          | x :: l', u :: ts' => ltyped x u /\ go l' ts'
                          | _, _ => False
                          end) items ts
      | _ => False
      end
  end.

(** What evaluation relies on at each node beyond what the reader checks. *)
Definition op_extra (k : opk) (p : payload) (args : list expr) (d : option expr) : Prop :=
  match k, p, args with
  | OIf, _, [_; t; f] => tpe t = tpe f
  | OFold, _, [a; z; f] => exists t, tpe a = SColl t /\ tpe f = SFunc [STuple [tpe z; t]] (tpe z)
  | OOptionGetOrElse, _, [_; b] => pe (tpe b) = tpe b
  | OByIndex, _, _ => match d with Some y => pe (tpe y) = tpe y | None => True end
  | OExtractRegisterAs, PI8Type r t, _ => forall id, reg_id_of_i8 r = Ok id -> asks id t
  | _, _, _ => True
  end.
(** The methods whose result does not have the type that is declared. *)
Definition untyped_method (m : smethod) : bool :=
  ((sm_code m =? 12) && (sm_id m =? 15)) || ((sm_code m =? 99) && (sm_id m =? 7)) ||
  ((sm_code m =? 104) && (sm_id m =? 5)).
Definition node_extra (x : expr) : Prop :=
  match x with
  | EConst k => ltyped (c_val k) (c_tpe k)
  | EOp k p args d => op_extra k p args d
  | ESeq (QColl t) items => Forall (fun y => tpe y = t) items
  | EFunc args _ => Forall (fun a => snd a = Gam (fst a)) args
  | EValDef i rhs => tpe rhs = Gam i
  | EValUse i t => t = Gam i
  | EMethod m _ _ | EProp m _ => untyped_method m = false
  | _ => True
  end.
(** What the reader checks when it builds a node. *)
Definition declared (m : smethod) (obj : expr) (args : list expr) : Prop :=
  exists m0 s, from_ids (sm_code m) (sm_id m) = Ok m0 /\ m = with_concrete_types m0 s /\
    sm_dom m = tpe obj :: map tpe args.
Definition node_checked (x : expr) : Prop :=
  match x with
  | EOp k p args d => exists t, op_ty k p (map tpe args) (option_map tpe d) = Ok t
  | ESeq q items => exists t, seq_ty q (map tpe items) = Ok t
  | EApply f args => exists t, apply_ty (tpe f) (map tpe args) = Ok t
  | EMethod m obj args => declared m obj args
  | EProp m obj => declared m obj []
  | _ => True
  end.
Definition node_ok (x : expr) : Prop := node_checked x /\ node_extra x.

(** The value has the type. *)
Fixpoint vtyped (v : value) (t : stype) {struct v} : Prop :=
  match v with
  | VUnit => t = SUnit
  | VBool _ => t = SBoolean
  | VByte _ => t = SByte
  | VShort _ => t = SShort
  | VInt _ => t = SInt
  | VLong _ => t = SLong
  | VBigInt _ => t = SBigInt
  | VGroup _ => t = SGroupElement
  | VSigma _ => t = SSigmaProp
  | VBox b => t = SBox /\ good (snd b)
  | VAvl _ => t = SAvlTree
  | VBytes _ => t = SColl SByte
  | VColl u items =>
      t = SColl u /\ (fix go l := match l with [] => True | x :: l' => vtyped x u /\ go l' end) items
  | VTup items =>
      match t with
      | STuple ts =>
          (fix go l ts := match l, ts with
                          | [], [] => True
                          | x :: l', u :: ts' => vtyped x u /\ go l' ts'
                          | _, _ => False
                          end) items ts
      | _ => False
      end
  | VOpt o =>
      match t with
      | SOption u => match o with Some x => vtyped x u | None => True end
      | _ => False
      end
  | VLambda args body =>
      t = SFunc (map snd args) (tpe body) /\ Forall (fun a => snd a = Gam (fst a)) args /\ all_sub node_ok body
  | VContext => t = SContext
  | VHeader _ => t = SHeader
  | VPreHeader _ => t = SPreHeader
  | VGlobal => t = SGlobal
  end.
Definition env_typed (e : env) : Prop := Forall (fun p => vtyped (snd p) (Gam (fst p))) e.

(** Registers of good boxes hold what is asked for. *)
Definition regs_typed : Prop :=
  forall b id t k, good b -> asks id t -> get_register b id = Ok (Some k) -> ltyped (c_val k) t.
(** The context: its boxes are good, its variables have their types, and the
    scripts that deserialization nodes can read are as the script itself. *)
Definition ctx_typed (c : context G (chain_state G)) : Prop :=
  good (snd (c_self c)) /\
  Forall (fun b => good (snd b)) (c_inputs c) /\
  Forall (fun b => good (snd b)) (c_outputs c) /\
  (forall l, c_data c = Some l -> Forall (fun b => good (snd b)) l) /\
  (forall id k, ext_get (c_ext c) id = Some k -> ltyped (c_val k) (c_tpe k)).
Definition scripts_typed (c : context G (chain_state G)) : Prop :=
  (forall id k b x, ext_get (c_ext c) id = Some k -> script_const k = Ok b -> from_bytes parse_expr b = Ok x ->
     all_sub node_ok x) /\
  (forall id k b x, get_register (snd (c_self c)) id = Ok (Some k) -> script_const k = Ok b ->
     from_bytes parse_expr b = Ok x -> all_sub node_ok x).

Lemma vtyped_coll u l t : vtyped (VColl u l) t <-> t = SColl u /\ Forall (fun x => vtyped x u) l.
Proof.
  cbn [vtyped]. assert ((fix go (l : list value) := match l with [] => True | x :: l' => vtyped x u /\ go l' end) l <->
    Forall (fun x => vtyped x u) l) as E; [|now rewrite E].
  induction l as [|x l IH]; [split; auto|]. rewrite IH. split; [intros [A B]; auto|intros F; inversion F; auto].
Qed.
Lemma vtyped_tup l ts : vtyped (VTup l) (STuple ts) <-> Forall2 vtyped l ts.
Proof.
  cbn [vtyped]. revert ts. induction l as [|x l IH]; intros [|u ts]; try (split; [now intros []|intros F; inversion F]).
  - split; auto.
  - rewrite IH. split; [intros [A B]; auto|intros F; inversion F; auto].
Qed.
End Spec.

Section Values.
Context {G : group}.
Variable Gam : Z -> stype.
Variable asks : Z -> stype -> Prop.
Variable good : box G -> Prop.
Variables H sha : bytes -> bytes.
Variable avlv : avl_verifier.
Notation vtyped := (vtyped Gam asks good).
Notation ltyped := (ltyped good).
Notation env_typed := (env_typed Gam asks good).
Notation node_ok := (node_ok Gam asks good).

Lemma lit_typed : forall (l : lit G) t, ltyped l t -> vtyped (value_of_lit H l) t.
Proof.
  fix IH 1. intros l t. destruct l; cbn [value_of_lit]; try (intros E; exact E).
  - intros [-> F]. apply vtyped_coll. split; [reflexivity|].
    induction items as [|x items IHi]; [constructor|]. destruct F as [F1 F2]. constructor; auto.
  - destruct t; try (intros []). cbn. destruct o; [apply IH|auto].
  - destruct t; try (intros []). intros F. apply vtyped_tup. cbn in F. revert items0 F.
    induction items as [|x items IHi]; intros [|u ts] F; try destruct F; constructor; auto.
Qed.

Lemma coll_typed v t : vtyped v (SColl t) -> exists l, coll_items v = Some (t, l) /\ Forall (fun x => vtyped x t) l.
Proof.
  destruct v; intros E; try discriminate E; try (destruct E; discriminate); try contradiction E.
  - injection E as ->. eexists. split; [reflexivity|]. apply Forall_map, Forall_forall. reflexivity.
  - apply vtyped_coll in E as [E F]. injection E as ->. exists items. auto.
Qed.
Lemma get_coll_typed v t : vtyped v (SColl t) ->
  hok (fun p => fst p = t /\ Forall (fun x => vtyped x t) (snd p)) (get_coll v).
Proof. intros V. destruct (coll_typed v t V) as (l & E & F). unfold get_coll. rewrite E. cbn. auto. Qed.
(** Whatever is taken for a collection has a collection type. *)
Lemma get_coll_any v t : vtyped v t -> hok (fun p => t = SColl (fst p) /\ Forall (fun x => vtyped x (fst p)) (snd p)) (get_coll v).
Proof.
  intros V. destruct v; try exact I; cbn [get_coll coll_items of_option hok fst snd].
  - split; [exact V|]. apply Forall_map, Forall_forall. reflexivity.
  - now apply vtyped_coll in V.
Qed.
Lemma from_vec_typed t l : Forall (fun x => vtyped x t) l -> hok (fun v => vtyped v (SColl t)) (from_vec t l).
Proof.
  intros F. destruct t; try (cbn [from_vec hok]; apply vtyped_coll; auto).
  cbn [from_vec]. apply hok_any. reflexivity.
Qed.
Lemma typed_items_typed t v u : vtyped v u -> hok (Forall (fun x => vtyped x t)) (typed_items t v).
Proof.
  intros V. unfold typed_items. apply (hok_bind _ _ _ _ (get_coll_any v u V)). intros [w l] [_ F]. cbn [fst snd] in F.
  destruct (stype_eqb w t) eqn:E; [|exact I]. apply stype_eqb_eq in E. now subst w.
Qed.
Lemma numk v n z t : num_of v = Some (n, z) -> vtyped v t -> forall z', vtyped (mk_num n z') t.
Proof. destruct v; try discriminate; intros E V z'; injection E as <- <-; exact V. Qed.
Lemma num_typed v n z t z' : num_of v = Some (n, z) -> vtyped v t -> vtyped (mk_num n z') t.
Proof. intros E V. eapply numk; eauto. Qed.
Lemma prim_pe t u : stype_eqb (pe t) u = true -> pe t = u.
Proof. apply stype_eqb_eq. Qed.
Lemma lambda_or v t : vtyped v t -> (exists a b, v = VLambda a b) \/ pe t = t.
Proof.
  intros V. destruct v; try (right; cbn in V; subst t; reflexivity); try (right; destruct V as [-> _]; reflexivity).
  - right. destruct t; try contradiction V. reflexivity.
  - right. destruct t; try contradiction V. reflexivity.
  - left. eauto.
Qed.

(** [Forall2] and positions. *)
Lemma znth_typed l ts : Forall2 vtyped l ts -> forall i v t, znth l i = Some v ->
  nth_error ts (Z.to_nat i) = Some t -> vtyped v t.
Proof.
  induction 1 as [|x u l ts X F IH]; intros i v t E N; [discriminate E|]. cbn [znth] in E.
  destruct (i =? 0) eqn:Q.
  - apply Z.eqb_eq in Q. subst i. injection E as <-. cbn in N. now injection N as <-.
  - apply Z.eqb_neq in Q. destruct (Z.ltb_spec i 0) as [L|L].
    + exfalso. clear - E L. revert i L E. induction l as [|y l IHl]; intros i L E; [discriminate E|].
      cbn [znth] in E. destruct (i - 1 =? 0) eqn:Q; [lia|]. apply (IHl (i - 1)); [lia|exact E].
    + replace (Z.to_nat i) with (S (Z.to_nat (i - 1))) in N by lia. cbn in N. now apply (IH (i - 1)).
Qed.
Lemma znth_Forall {A} (P : A -> Prop) l : Forall P l -> forall i v, znth l i = Some v -> P v.
Proof.
  induction 1 as [|x l X F IH]; intros i v E; [discriminate E|]. cbn [znth] in E.
  destruct (i =? 0); [now injection E as <-|now apply (IH (i - 1))].
Qed.
Lemma zset_Forall {A} (P : A -> Prop) l : Forall P l -> forall i v r, P v -> zset l i v = Some r -> Forall P r.
Proof.
  induction 1 as [|x l X F IH]; intros i v r Pv E; [discriminate E|]. cbn [zset] in E.
  destruct (i =? 0); [injection E as <-; auto|]. destruct (zset l (i - 1) v) eqn:Q; [|discriminate E].
  injection E as <-. constructor; [exact X|eauto].
Qed.
Lemma ztake_Forall {A} (P : A -> Prop) l : Forall P l -> forall n, Forall P (ztake n l).
Proof. induction 1 as [|x l X F IH]; intros n; cbn [ztake]; [auto|]. destruct (n <=? 0); auto. Qed.
Lemma zskip_Forall {A} (P : A -> Prop) l : Forall P l -> forall n, Forall P (zskip n l).
Proof. induction 1 as [|x l X F IH]; intros n; cbn [zskip]; [auto|]. destruct (n <=? 0); auto. Qed.

(** A value of a known type. *)
Ltac known V :=
  match type of V with
  | vtyped ?v _ => destruct v; try discriminate V; try (destruct V; discriminate); try contradiction V
  end.
Ltac anys := repeat (apply hok_any; intros ?).

Lemma upcast_typed t v : hok (fun r => vtyped r t) (upcast t v).
Proof. destruct t; try exact I; destruct v; try exact I; reflexivity. Qed.
Lemma narrow_typed k z : hok (fun r => vtyped r (match k with NByte => SByte | NShort => SShort | NInt => SInt | NLong => SLong | NBig => SBigInt end)) (narrow k z).
Proof. unfold narrow. apply hok_any. intros y. destruct k; reflexivity. Qed.
Lemma downcast_typed t v : hok (fun r => vtyped r t) (downcast t v).
Proof.
  destruct t; try exact I; destruct v; try exact I; try reflexivity; cbn [downcast].
  all: first [apply (narrow_typed NByte)|apply (narrow_typed NShort)|apply (narrow_typed NInt)].
Qed.
Hypothesis Regs : regs_typed asks good.
Lemma reg_typed b id t : good b -> asks id t -> hok (fun r => vtyped r (SOption t)) (reg_value H b id).
Proof.
  intros B A. unfold reg_value. destruct (get_register b id) as [[k|]| |] eqn:E; try exact I.
  cbn. apply lit_typed. eapply Regs; eauto.
Qed.

Ltac use_need E :=
  match type of E with need ?b _ = Ok _ => destruct b eqn:?; [cbn [need] in E; injection E as <-|discriminate E] end.
Lemma op1_typed k p v ta t (a : expr G) : vtyped v ta -> op_ty k p [ta] None = Ok t ->
  op_extra asks k p [a] None -> hok (fun r => vtyped r t) (op1 H sha k p v).
Proof.
  intros V E X. destruct (lambda_or v ta V) as [(x & y & ->)|PE].
  { destruct k; try exact I; destruct p; try exact I; try discriminate E; cbn [op_ty] in E; injection E as <-;
      [apply upcast_typed|apply downcast_typed]. }
  destruct k; try discriminate E; destruct p; try discriminate E; cbn [op_ty] in E; try rewrite PE in E;
    try use_need E; try (injection E as <-);
    repeat match goal with Q : stype_eqb _ _ = true |- _ => apply stype_eqb_eq in Q; subst ta end;
    cbn [op1].
  all: try (anys; reflexivity).
  - unfold bit_inversion. destruct (num_of v) as [[n z]|] eqn:N; [|exact I]. cbn. eapply num_typed; eauto.
  - unfold negation. destruct (num_of v) as [[n z]|] eqn:N; [|exact I]. cbn [bind of_option].
    apply hok_any. intros z'. cbn. eapply num_typed; eauto.
  - anys. match goal with |- hok _ (match ?b with _ => _ end) => destruct b end; [exact I|]. anys. reflexivity.
  - anys. match goal with |- hok _ (let '(_, _) := ?b in _) => destruct b end. reflexivity.
  - anys. match goal with |- hok _ (let '(_, _) := ?b in _) => destruct b end. reflexivity.
  - anys. match goal with |- hok _ (let '(_, _) := ?b in _) => destruct b end. cbn. auto.
  - destruct ta; try discriminate E. injection E as <-. destruct v as [| | | | | | | | | | | | | |[x|]| | | | |]; try exact I.
    exact V.
  - destruct ta; try discriminate E. injection E as <-. destruct v as [| | | | | | | | | | | | | |[x|]| | | | |]; try exact I; reflexivity.
  - known V. destruct V as [_ V]. cbn [get_box bind]. destruct (reg_id_of_i8 r) as [id| |] eqn:R; try exact I. cbn [bind].
    apply reg_typed; [exact V|]. now apply X.
  - apply upcast_typed.
  - apply downcast_typed.
  - destruct ta; try discriminate E. destruct v; try exact I. apply vtyped_tup in V.
    destruct (znth _ _) eqn:Z; [|exact I]. cbn. destruct (nth_error _ _) eqn:N; [|discriminate E]. injection E as <-.
    eapply znth_typed; eauto.
Qed.

Lemma append_typed v w ta tb : vtyped v ta -> vtyped w tb -> hok (fun r => vtyped r ta) (append v w).
Proof.
  intros V W. unfold append. apply (hok_bind _ _ _ _ (get_coll_any v ta V)). intros [t x] [-> Fx]. cbn [fst snd] in *.
  apply (hok_bind _ _ _ _ (get_coll_any w tb W)). intros [u y] [-> Fy]. cbn [fst snd] in *.
  destruct (stype_eqb t u) eqn:E; [|exact I]. apply stype_eqb_eq in E. subst u. apply from_vec_typed, Forall_app. auto.
Qed.
Lemma op2_typed k p v w ta tb t (a b : expr G) : vtyped v ta -> vtyped w tb -> tpe a = ta -> tpe b = tb ->
  op_ty k p [ta; tb] None = Ok t -> op_extra asks k p [a; b] None -> hok (fun r => vtyped r t) (op2 k v w).
Proof.
  intros V W A B E X. destruct k; try exact I; destruct p; try discriminate E; cbn [op_ty] in E; cbn [op2].
  - unfold atleast. use_need E. apply hok_any. intros [? l]. anys. repeat (match goal with |- hok _ (if ?q then _ else _) => destruct q; [exact I|] end).
    anys. reflexivity.
  - destruct (pe ta); try discriminate E. destruct (pe tb); try discriminate E. use_need E. eapply append_typed; eauto.
  - destruct (lambda_or v ta V) as [(x & y & ->)|PE]; [exact I|]. rewrite PE in E.
    destruct ta; try discriminate E. use_need E. cbn [op_extra] in X. rewrite B in X.
    match goal with Q : stype_eqb _ _ = true |- _ => apply stype_eqb_eq in Q; rewrite X in Q; rewrite Q in W end.
    destruct v as [| | | | | | | | | | | | | |[x|]| | | | |]; try exact I; [exact V|exact W].
  - use_need E. destruct v; try exact I. destruct w; try exact I. reflexivity.
  - injection E as <-. destruct v; try exact I. destruct w; try exact I.
    unfold exponentiate_v. destruct (_ && _); [exact V|exact I].
  - injection E as <-. destruct v; try exact I. destruct w; try exact I. exact V.
Qed.
Lemma op3_typed k p v w y ta tb tx t : vtyped v ta -> op_ty k p [ta; tb; tx] None = Ok t ->
  hok (fun r => vtyped r t) (op3 k v w y).
Proof.
  intros V E. destruct k; try exact I; destruct p; try discriminate E; cbn [op_ty] in E; cbn [op3]; use_need E.
  - do 3 (apply hok_any; intros ?). unfold slice. apply (hok_bind _ _ _ _ (get_coll_any v ta V)). intros [u l] [-> F]. cbn [fst snd] in *.
    cbv zeta. match goal with |- hok _ (if ?q then _ else _) => destruct q end; apply from_vec_typed; auto. now apply ztake_Forall, zskip_Forall.
  - unfold subst_constants. anys. destruct (negb _); [exact I|]. destruct v; try exact I. anys. reflexivity.
Qed.

(** ** Methods *)
Variable c : context G (chain_state G).
Hypothesis Ctx : ctx_typed good c.
Lemma boxes_typed l : Forall (fun b => good (snd b)) l -> vtyped (boxes_value l) (SColl SBox).
Proof.
  intros F. apply vtyped_coll. split; [reflexivity|]. apply Forall_map. apply (Forall_impl _ (fun b g => conj eq_refl g) F).
Qed.
Lemma tokens_typed l : vtyped (value_of_lit H (c_val (tokens_const (G := G) l))) (SColl (STuple [cbyte; SLong])).
Proof.
  apply lit_typed. cbn [tokens_const c_val TypeSound.ltyped]. split; [reflexivity|].
  induction l as [|x l IH]; cbn [map]; [exact I|]. split; [|exact IH]. repeat split.
Qed.
Lemma opt_bytes_typed o : vtyped (opt_bytes (G := G) o) (SOption cbyte).
Proof. destruct o; [reflexivity|exact I]. Qed.
Lemma arg_typed args ts n t : Forall2 vtyped args ts -> nth_error ts n = Some t ->
  hok (fun v => vtyped v t) (arg args n).
Proof.
  intros F N. unfold arg. destruct (nth_error args n) as [v|] eqn:E; [|exact I]. cbn.
  revert n E N. induction F as [|x u l ts X F IH]; intros [|n] E N; try discriminate; cbn in *.
  - injection E as <-. now injection N as <-.
  - eauto.
Qed.
Lemma indices_from_typed l : forall i, hok (Forall (fun x => vtyped x SInt)) (indices_from (G := G) i l).
Proof.
  induction l as [|x l IH]; intros i; cbn [indices_from]; [constructor|].
  destruct (_ <? _); [|exact I]. apply (hok_bind _ _ _ _ (IH (i + 1))). intros r R. cbn. constructor; [reflexivity|exact R].
Qed.
Lemma update_all_typed (P : value G -> Prop) us : Forall (fun u => P (snd u)) us -> forall l n, Forall P l ->
  hok (Forall P) (update_all l n us).
Proof.
  induction 1 as [|[i v] us U F IH]; intros l n L; cbn [update_all]; [exact L|].
  destruct (n <=? i); [exact I|]. destruct (zset l i v) as [r|] eqn:Z; [|exact I]. apply IH. eapply zset_Forall; eauto.
Qed.

Lemma index_of_typed o args : hok (fun r => vtyped r SInt) (index_of o args).
Proof. unfold index_of. apply hok_any. intros [? l]. anys. reflexivity. Qed.
Lemma indices_typed o : hok (fun r => vtyped r (SColl SInt)) (indices o).
Proof.
  unfold indices. apply hok_any. intros [? l]. apply (hok_bind _ _ _ _ (indices_from_typed l 0)). intros r R.
  exact (from_vec_typed SInt r R).
Qed.
Lemma zip_typed o args t u : vtyped o (SColl t) -> Forall2 vtyped args [SColl u] ->
  hok (fun r => vtyped r (SColl (STuple [t; u]))) (zip_coll o args).
Proof.
  intros V A. unfold zip_coll. apply (hok_bind _ _ _ _ (get_coll_typed o t V)). intros [t' x] [Et Fx]. cbn [fst snd] in Et, Fx. subst t'.
  apply (hok_bind _ _ _ _ (arg_typed args _ 0 (SColl u) A eq_refl)). intros b B.
  apply (hok_bind _ _ _ _ (get_coll_typed b u B)). intros [u' y] [Eu Fy]. cbn [fst snd] in *. subst u'.
  apply from_vec_typed. apply Forall_map, Forall_forall. intros [p q] I. cbn [fst snd].
  rewrite Forall_forall in Fx, Fy. apply vtyped_tup. repeat constructor.
  - apply Fx. eapply in_combine_l, I.
  - apply Fy. eapply in_combine_r, I.
Qed.
Lemma patch_typed o args t : vtyped o (SColl t) -> Forall2 vtyped args [SInt; SColl t; SInt] ->
  hok (fun r => vtyped r (SColl t)) (patch o args).
Proof.
  intros V A. unfold patch. apply (hok_bind _ _ _ _ (get_coll_typed o t V)). intros [t' x] [Et Fx]. cbn [fst snd] in Et, Fx. subst t'.
  apply hok_any. intros f. apply (hok_bind _ _ _ _ (arg_typed args _ 1 (SColl t) A eq_refl)). intros b B.
  do 3 (apply hok_any; intros ?).
  apply (hok_bind _ _ _ _ (get_coll_typed b t B)). intros [u' y] [Eu Fy]. cbn [fst snd] in *. subst u'. cbv zeta.
  apply from_vec_typed. apply Forall_app. split; [now apply ztake_Forall|]. apply Forall_app. split; [exact Fy|now apply zskip_Forall].
Qed.
Lemma updated_typed o args t : vtyped o (SColl t) -> Forall2 vtyped args [SInt; t] ->
  hok (fun r => vtyped r (SColl t)) (updated o args).
Proof.
  intros V A. unfold updated. apply (hok_bind _ _ _ _ (get_coll_typed o t V)). intros [t' x] [Et Fx]. cbn [fst snd] in Et, Fx. subst t'.
  apply hok_any. intros f. apply (hok_bind _ _ _ _ (arg_typed args _ 1 t A eq_refl)). intros b B.
  apply hok_any. intros i. destruct (zset x (as_usize i) b) eqn:Z; [|exact I].
  apply from_vec_typed. eapply zset_Forall; eauto.
Qed.
Lemma update_many_typed o args t : vtyped o (SColl t) -> Forall2 vtyped args [SColl SInt; SColl t] ->
  hok (fun r => vtyped r (SColl t)) (update_many o args).
Proof.
  intros V A. unfold update_many. apply (hok_bind _ _ _ _ (get_coll_typed o t V)). intros [t' x] [Et Fx]. cbn [fst snd] in Et, Fx. subst t'.
  apply hok_any. intros f. apply (hok_bind _ _ _ _ (arg_typed args _ 1 (SColl t) A eq_refl)). intros b B.
  apply (hok_bind _ _ _ _ (get_coll_typed b t B)). intros [u' y] [Eu Fy]. cbn [fst snd] in *. subst u'.
  apply hok_any. intros is. cbv zeta. do 2 (match goal with |- hok _ (if ?q then _ else _) => destruct q; [exact I|] end).
  eapply hok_bind; [|intros r R; apply (from_vec_typed t r R)].
  apply update_all_typed; [|exact Fx]. apply Forall_forall. intros [i v] J. cbn. rewrite Forall_forall in Fy. apply Fy.
  eapply in_combine_r, J.
Qed.
Lemma avl_modify_typed a al ops args : hok (fun r => vtyped r (SOption SAvlTree)) (avl_modify (G := G) avlv a al ops args).
Proof.
  unfold avl_modify. destruct (negb al); [exact I|]. do 4 (apply hok_any; intros ?). apply hok_any. intros [? ?].
  apply hok_any. intros ?. apply hok_any. intros [? ?]. reflexivity.
Qed.

(** The method gives a value of the declared type, for every object and all
    arguments of the declared types. *)
Definition gives (m0 : smethod) : Prop := forall s o args t ts,
  let m := with_concrete_types m0 s in
  untyped_method m = false -> sm_dom m = t :: ts -> vtyped o t -> Forall2 vtyped args ts ->
  sm_code m0 <> 36 ->
  hok (fun r => vtyped r (sm_range m)) (method_value H avlv c m o args).
Lemma method_table_gives : Forall gives method_table.
Proof.
  unfold method_table. repeat (apply Forall_cons; [|]); [..|apply Forall_nil].
  all: intros s o args t ts m U D V A N; subst m; cbn [with_concrete_types sm_dom sm_range sm_code sm_id map] in *;
    try discriminate U; try (elim N; reflexivity); cbn [with_subst map] in *; injection D as <- <-;
    unfold method_value; cbn [with_concrete_types sm_code sm_id Z.eqb Pos.eqb];
    unfold avl_method, context_method, box_method, group_method, header_method, preheader_method, global_method;
    cbn [Z.eqb Pos.eqb];
    first [apply index_of_typed|apply indices_typed|apply zip_typed; assumption|apply patch_typed; assumption
          |apply updated_typed; assumption|apply update_many_typed; assumption|known V];
    cbn [get_avl get_box get_header get_preheader get_group bind];
    try reflexivity; try exact I; try (anys; reflexivity); try (anys; apply avl_modify_typed).
  all: try match goal with |- context [match ?b with [] => Panic | _ => _ end] => destruct b; [exact I|reflexivity] end.
  - destruct Ctx as (_ & _ & _ & D & _). destruct (c_data c); [apply boxes_typed, D; reflexivity|apply boxes_typed; constructor].
  - apply vtyped_coll. split; [reflexivity|]. apply Forall_map, Forall_forall. reflexivity.
  - apply tokens_typed.
  - apply hok_any. intros r. apply hok_any. intros l. destruct l; try exact I. destruct r; try exact I. reflexivity.
  - destruct (av_val_len a); [reflexivity|exact I].
  - anys. apply (opt_bytes_typed _).
  - anys. apply vtyped_coll. split; [reflexivity|]. apply Forall_map, Forall_forall. intros o _. apply opt_bytes_typed.
  all: apply avl_modify_typed.
Qed.

(** ** Environments *)
Lemma env_get_typed e i v : env_typed e -> env_get e i = Some v -> vtyped v (Gam i).
Proof.
  induction 1 as [|[j w] e X F IH]; cbn [env_get]; [discriminate|]. destruct (j =? i) eqn:E; [|exact IH].
  apply Z.eqb_eq in E. subst j. intros Q. injection Q as <-. exact X.
Qed.
Lemma env_remove_typed e i : env_typed e -> env_typed (env_remove e i).
Proof. intros E. unfold env_remove, TypeSound.env_typed. apply incl_Forall with (2 := E). apply incl_filter. Qed.
Lemma env_insert_typed e i v : env_typed e -> vtyped v (Gam i) -> env_typed (env_insert e i v).
Proof. intros E V. constructor; [exact V|now apply env_remove_typed]. Qed.
Lemma restore_typed e fresh saved : env_typed e -> env_typed saved -> env_typed (restore e fresh saved).
Proof.
  intros E S. unfold restore. induction S as [|[i v] s X F IH]; cbn [fold_right].
  - revert e E. induction fresh as [|i l IH]; intros e E; cbn [fold_left]; [exact E|]. apply IH. now apply env_remove_typed.
  - now apply env_insert_typed.
Qed.
Definition state_typed (s : env G * list Z * env G) : Prop := env_typed (fst (fst s)) /\ env_typed (snd s).
Lemma bind_var_typed i v s : state_typed s -> vtyped v (Gam i) -> state_typed (bind_var i v s).
Proof.
  destruct s as [[e fresh] saved]. intros [E S] V. cbn [fst snd] in *. unfold bind_var.
  destruct (env_get e i) as [old|] eqn:O; split; cbn [fst snd]; try (now apply env_insert_typed); try exact S.
  exact (env_insert_typed _ _ _ S (env_get_typed _ _ _ E O)).
Qed.

(** ** Evaluation *)
Variable fits : Z -> bool.
Hypothesis Scripts : scripts_typed Gam asks good c.
Definition tgood {A} (R : A -> Prop) (p : A * env G) : Prop := R (fst p) /\ env_typed (snd p).
Notation ok := (all_sub node_ok).
Notation at_ t := (tgood (fun v => vtyped v t)).

Section Step.
Variable rec : expr G -> env G -> res (value G * env G).
Hypothesis Rec : forall x e, ok x -> env_typed e -> hok (at_ (tpe x)) (rec x e).

Lemma step_bind {A B} (R : A -> Prop) (T : B -> Prop) r (k : A * env G -> res (B * env G)) :
  hok (tgood R) r -> (forall a e', R a -> env_typed e' -> hok (tgood T) (k (a, e'))) -> hok (tgood T) (bind r k).
Proof. intros Hr K. apply (hok_bind _ _ _ _ Hr). intros [a e'] [X Y]. now apply K. Qed.
Lemma step_ret {A} (R : A -> Prop) e (r : res A) : env_typed e -> hok R r -> hok (tgood R) (v <- r ;; Ok (v, e)).
Proof. intros E Hr. apply (hok_bind _ _ _ _ Hr). intros a Ra. now split. Qed.
Lemma ret {A} (R : A -> Prop) e (a : A) : env_typed e -> R a -> hok (tgood R) (Ok (a, e)).
Proof. intros E Ra. now split. Qed.

Lemma eval_list_typed l : Forall ok l -> forall e, env_typed e ->
  hok (tgood (fun vs => Forall2 vtyped vs (map tpe l))) (eval_list rec l e).
Proof.
  induction 1 as [|x l X F IH]; intros e E; cbn [eval_list map]; [apply ret; auto|].
  eapply step_bind; [apply Rec; auto|]. intros v e1 V E1. cbv beta iota.
  eapply step_bind; [apply IH; auto|]. intros vs e2 VS E2. cbv beta iota. apply ret; auto.
Qed.
Lemma call1_typed f v e t d r : vtyped f (SFunc (t :: d) r) -> vtyped v t -> env_typed e ->
  hok (at_ r) (call1 rec f v e).
Proof.
  intros F V E. unfold call1. destruct f; try exact I. destruct args as [|[i u] args]; [exact I|].
  destruct F as (EF & A & Sb). cbn [map snd] in EF. injection EF as -> -> ->.
  inversion A as [|? ? A1 A2]; subst. cbn [fst snd] in A1. subst u.
  apply (hok_bind _ _ _ _ (Rec body _ Sb (env_insert_typed e i v E V))). intros [r e'] [X Y]. cbn [fst snd hok] in *.
  split; [exact X|]. cbn [snd]. destruct (env_get e i) as [old|] eqn:O; [|now apply env_remove_typed].
  exact (env_insert_typed _ _ _ Y (env_get_typed _ _ _ E O)).
Qed.
Ltac call := eapply step_bind; [eapply call1_typed; eassumption|]; intros ? ? ? ?; cbv beta iota.
Lemma map_loop_typed f t d r l : vtyped f (SFunc (t :: d) r) -> Forall (fun x => vtyped x t) l -> forall e, env_typed e ->
  hok (tgood (Forall (fun x => vtyped x r))) (map_loop rec f l e).
Proof.
  intros F. induction 1 as [|x l X L IH]; intros e E; cbn [map_loop]; [apply ret; auto|].
  call. eapply step_bind; [apply IH; auto|]. intros vs e2 VS E2. cbv beta iota. apply ret; auto.
Qed.
Lemma filter_loop_typed f t d r l : vtyped f (SFunc (t :: d) r) -> Forall (fun x => vtyped x t) l -> forall e, env_typed e ->
  hok (tgood (Forall (fun x => vtyped x t))) (filter_loop rec f l e).
Proof.
  intros F. induction 1 as [|x l X L IH]; intros e E; cbn [filter_loop]; [apply ret; auto|].
  call. apply hok_any. intros b.
  eapply step_bind; [apply IH; auto|]. intros vs e2 VS E2. cbv beta iota. apply ret; [exact E2|]. destruct b; auto.
Qed.
Lemma exists_loop_typed f t d r l : vtyped f (SFunc (t :: d) r) -> Forall (fun x => vtyped x t) l -> forall e, env_typed e ->
  hok (tgood (fun _ => True)) (exists_loop rec f l e).
Proof.
  intros F. induction 1 as [|x l X L IH]; intros e E; cbn [exists_loop]; [apply ret; auto|].
  call. apply hok_any. intros b. destruct b; [apply ret; auto|apply IH; auto].
Qed.
Lemma forall_loop_typed f t d r l : vtyped f (SFunc (t :: d) r) -> Forall (fun x => vtyped x t) l -> forall e, env_typed e ->
  hok (tgood (fun _ => True)) (forall_loop rec f l e).
Proof.
  intros F. induction 1 as [|x l X L IH]; intros e E; cbn [forall_loop]; [apply ret; auto|].
  call. apply hok_any. intros b. destruct b; [apply IH; auto|apply ret; auto].
Qed.
Lemma fold_loop_typed f t z l : vtyped f (SFunc [STuple [z; t]] z) -> Forall (fun x => vtyped x t) l ->
  forall acc e, vtyped acc z -> env_typed e -> hok (at_ z) (fold_loop rec f acc l e).
Proof.
  intros F. induction 1 as [|x l X L IH]; intros acc e A E; cbn [fold_loop]; [apply ret; auto|].
  eapply step_bind; [eapply call1_typed; [exact F| |exact E]|].
  - apply vtyped_tup. repeat constructor; auto.
  - intros v e1 V E1. cbv beta iota. apply IH; auto.
Qed.
Ltac ev := eapply step_bind; [apply Rec; assumption|]; intros ? ? ? ?; cbv beta iota.

Lemma eval_lambda_op_typed k p a f e t : ok a -> ok f -> env_typed e -> is_lambda_op k = true ->
  op_ty k p [tpe a; tpe f] None = Ok t -> hok (at_ t) (eval_lambda_op rec k a f e).
Proof.
  intros A F E K T. unfold eval_lambda_op. eapply step_bind; [apply Rec; assumption|]. intros av e1 AV E1. cbv beta iota.
  eapply step_bind; [apply Rec; assumption|]. intros fv e2 FV E2. cbv beta iota.
  destruct (lambda_or av _ AV) as [(x & y & ->)|PE].
  { destruct k; try discriminate K; try (apply hok_any; intros ?; exact I). destruct (tpe f) as [| | | | | | | | | | | | | | | |[|? ?] ?| | | |]; exact I. }
  destruct k; try discriminate K; destruct p; try discriminate T; cbn [op_ty] in T; unfold elem_type; rewrite PE in *;
    destruct (tpe a) as [| | | | | | | | | | | | | |u| | | | | |]; try discriminate T; cbn [bind].
  - use_need T. match goal with Q : stype_eqb _ _ = true |- _ => apply stype_eqb_eq in Q; rewrite Q in FV end.
    apply (hok_bind _ _ _ _ (typed_items_typed u av _ AV)). intros l L.
    eapply step_bind; [eapply exists_loop_typed; eassumption|]. intros b e3 _ E3. cbv beta iota. now apply ret.
  - use_need T. match goal with Q : stype_eqb _ _ = true |- _ => apply stype_eqb_eq in Q; rewrite Q in FV end.
    apply (hok_bind _ _ _ _ (typed_items_typed u av _ AV)). intros l L.
    eapply step_bind; [eapply forall_loop_typed; eassumption|]. intros b e3 _ E3. cbv beta iota. now apply ret.
  - use_need T. match goal with Q : stype_eqb _ _ = true |- _ => apply stype_eqb_eq in Q; rewrite Q in FV end.
    apply (hok_bind _ _ _ _ (typed_items_typed u av _ AV)). intros l L.
    eapply step_bind; [eapply filter_loop_typed; eassumption|]. intros vs e3 VS E3. cbv beta iota.
    apply step_ret; [exact E3|now apply from_vec_typed].
  - destruct (tpe f) as [| | | | | | | | | | | | | | | |d r| | | |]; try discriminate T. use_need T.
    destruct d as [|w d]; [exact I|].
    apply (hok_bind _ _ _ _ (typed_items_typed w av _ AV)). intros l L.
    eapply step_bind; [eapply map_loop_typed; eassumption|]. intros vs e3 VS E3. cbv beta iota.
    apply step_ret; [exact E3|now apply from_vec_typed].
Qed.

Lemma option_methods : Forall (fun m => sm_code m = 36 -> sm_id m = 7 \/ sm_id m = 8) method_table.
Proof.
  unfold method_table. repeat (apply Forall_cons; [cbn; first [discriminate|intros _; auto]|]). apply Forall_nil.
Qed.
Lemma eval_method_typed m (obj : expr G) args o vs e : declared m obj args -> untyped_method m = false ->
  vtyped o (tpe obj) -> Forall2 vtyped vs (map tpe args) -> env_typed e ->
  hok (at_ (sm_range m)) (eval_method H avlv c rec m o vs e).
Proof.
  intros (m0 & s & Ef & Em & D) U O A E. unfold eval_method.
  destruct ((sm_code m =? 12) && (sm_id m =? 15)) eqn:Q1.
  { unfold untyped_method in U. rewrite Q1 in U. discriminate U. }
  assert (M : In m0 method_table /\ sm_code m0 = sm_code m /\ sm_id m0 = sm_id m).
  { unfold from_ids in Ef. destruct (existsb _ _); [|discriminate Ef]. destruct (find _ _) as [z|] eqn:F; [|discriminate Ef].
    injection Ef as ->. apply find_some in F as [F1 F2]. apply andb_prop in F2 as [F2 F3].
    apply Z.eqb_eq in F2, F3. auto. }
  destruct M as (M & C & Id).
  destruct ((sm_code m =? 36) && (sm_id m =? 7)) eqn:Q2.
  { apply andb_prop in Q2 as [K1 K2]. apply Z.eqb_eq in K1, K2.
    rewrite K1, K2 in Ef. cbn in Ef. injection Ef as <-. subst m. cbn [with_concrete_types sm_dom sm_range map] in *.
    change (with_subst s (SOption tv_iv)) with (SOption (with_subst s tv_iv)) in D.
    change (with_subst s (SFunc [tv_iv] tv_ov)) with (SFunc [with_subst s tv_iv] (with_subst s tv_ov)) in D.
    change (with_subst s (SOption tv_ov)) with (SOption (with_subst s tv_ov)).
    injection D as D1 D2. rewrite <- D1 in O. rewrite <- D2 in A. unfold option_map_m.
    apply (hok_bind _ _ _ _ (arg_typed vs _ 0 _ A eq_refl)). intros f F.
    destruct f; try exact I. destruct o as [| | | | | | | | | | | | | |[x|]| | | | |]; try exact I.
    - call. now apply ret.
    - now apply ret. }
  destruct ((sm_code m =? 36) && (sm_id m =? 8)) eqn:Q3.
  { apply andb_prop in Q3 as [K1 K2]. apply Z.eqb_eq in K1, K2.
    rewrite K1, K2 in Ef. cbn in Ef. injection Ef as <-. subst m. cbn [with_concrete_types sm_dom sm_range map] in *.
    change (with_subst s (SOption tv_iv)) with (SOption (with_subst s tv_iv)) in *.
    change (with_subst s (SFunc [tv_iv] SBoolean)) with (SFunc [with_subst s tv_iv] SBoolean) in D.
    injection D as D1 D2. rewrite <- D1 in O. rewrite <- D2 in A. unfold option_filter_m.
    apply (hok_bind _ _ _ _ (arg_typed vs _ 0 _ A eq_refl)). intros f F.
    destruct f; try exact I. destruct o as [| | | | | | | | | | | | | |[x|]| | | | |]; try exact I.
    - cbn [TypeSound.vtyped] in O. call. apply hok_any. intros b. apply ret; [assumption|]. destruct b; [exact O|exact I].
    - now apply ret. }
  apply step_ret; [exact E|]. subst m. pose proof method_table_gives as G0. rewrite Forall_forall in G0.
  eapply (G0 m0 M s); eauto. cbn [with_concrete_types sm_code sm_id] in *. intros K. rewrite K in Q2, Q3. cbn [Z.eqb Pos.eqb andb] in Q2, Q3.
  pose proof option_methods as OM. rewrite Forall_forall in OM. apply Z.eqb_neq in Q2, Q3. destruct (OM m0 M K); contradiction.
Qed.
Lemma eval_bin_typed k l r e : ok l -> ok r -> env_typed e ->
  hok (at_ (tpe (EBin k l r))) (eval_bin fits rec k l r e).
Proof.
  intros L R E. unfold eval_bin. eapply step_bind; [apply Rec; assumption|]. intros lv e1 LV E1. cbv beta iota. cbn [tpe].
  assert (AR : hok (at_ (tpe l))
    ('(n, a) <- of_option "numeric" (num_of lv) ;; '(rv, e1) <- rec r e1 ;; b <- get_num n rv ;;
     z <- of_option "ArithmeticException" (arith fits k n a b) ;; Ok (mk_num n z, e1))).
  { destruct (num_of lv) as [[n a]|] eqn:N; [|exact I]. cbn [of_option bind]. ev. do 2 (apply hok_any; intros ?).
    apply ret; [assumption|]. eapply num_typed; eauto. }
  assert (CR : forall g : Z -> Z -> bool, hok (at_ SBoolean)
    ('(rv, e1) <- rec r e1 ;; '(n, a) <- of_option "numeric" (num_of lv) ;; b <- get_num n rv ;;
     Ok (VBool (g a b), e1))).
  { intros g. ev. apply hok_any. intros [n a']. apply hok_any. intros ?. now apply ret. }
  destruct k; cbn [bin_is_bool]; try exact AR; try apply (CR (compare_op _)).
  - ev. now apply ret.
  - ev. now apply ret.
  - apply hok_any. intros [|]; [ev; apply hok_any; intros ?; now apply ret|now apply ret].
  - apply hok_any. intros [|]; [now apply ret|ev; apply hok_any; intros ?; now apply ret].
  - apply hok_any. intros a. ev. apply hok_any. intros ?. now apply ret.
Qed.
Lemma block_top_typed items : Forall ok items -> forall e, env_typed e -> hok env_typed (block_top rec items e).
Proof.
  induction 1 as [|x items X F IH]; intros e E; cbn [block_top]; [exact E|].
  destruct x as [| | | | | | |i rhs| | | | |]; try exact I. destruct X as [[_ T] XR]. cbn [node_extra] in T.
  apply (hok_bind _ _ _ _ (Rec rhs e XR E)). intros [v e'] [V E']. cbn [fst snd] in *. apply IH.
  apply env_insert_typed; [exact E'|]. now rewrite <- T.
Qed.
Lemma block_nested_typed items : Forall ok items -> forall s, state_typed s -> hok state_typed (block_nested rec items s).
Proof.
  induction 1 as [|x items X F IH]; intros s Hs; cbn [block_nested]; [exact Hs|].
  destruct x as [| | | | | | |i rhs| | | | |]; try exact I. destruct X as [[_ T] XR]. cbn [node_extra] in T.
  destruct s as [[e fresh] saved]. destruct Hs as [E Sv]. cbn [fst snd] in *.
  apply (hok_bind _ _ _ _ (Rec rhs e XR E)). intros [v e'] [V E']. cbn [fst snd] in *. apply IH.
  apply bind_var_typed; [now split|]. now rewrite <- T.
Qed.
Lemma eval_block_typed items r e : Forall ok items -> ok r -> env_typed e -> hok (at_ (tpe r)) (eval_block rec items r e).
Proof.
  intros F R E. unfold eval_block. destruct (env_is_empty e).
  - apply (hok_bind _ _ _ _ (block_top_typed items F e E)). intros e1 E1. now apply Rec.
  - eapply hok_bind; [apply (block_nested_typed items F (e, [], [])); split; [exact E|constructor]|].
    intros [[e1 fresh] saved] [E1 Sv]. cbn [fst snd] in *. ev. apply ret; [|assumption]. now apply restore_typed.
Qed.
Lemma bind_args_typed params : Forall (fun a => snd a = Gam (fst a)) params ->
  forall vs, Forall2 vtyped vs (map snd params) -> forall s, state_typed s ->
  state_typed (fold_left (fun s p => bind_var (fst p) (snd p) s) (combine (map fst params) vs) s).
Proof.
  induction 1 as [|[i t] params X F IH]; intros vs A s Hs; inversion A; subst; cbn [map combine fold_left]; [exact Hs|].
  apply IH; [assumption|]. cbn [fst snd] in *. apply bind_var_typed; [exact Hs|]. now rewrite <- X.
Qed.
Lemma types_eqb l l' : leqb stype_eqb l l' = true -> l = l'.
Proof.
  revert l'. induction l as [|x l IH]; intros [|y l'] Q; cbn [leqb] in Q; try discriminate Q; [reflexivity|].
  apply andb_prop in Q as [Q1 Q2]. apply stype_eqb_eq in Q1. apply IH in Q2. congruence.
Qed.
Lemma eval_apply_typed f args e t : ok f -> Forall ok args -> env_typed e -> apply_ty (tpe f) (map tpe args) = Ok t ->
  hok (at_ t) (eval_apply rec f args e).
Proof.
  intros F A E T. unfold eval_apply. eapply step_bind; [apply Rec; assumption|]. intros fv e1 FV E1. cbv beta iota.
  eapply step_bind; [apply eval_list_typed; assumption|]. intros vs e2 VS E2. cbv beta iota.
  destruct fv; try exact I. destruct FV as (EF & P & B). rewrite EF in T. cbn [apply_ty] in T. use_need T.
  match goal with Q : leqb _ _ _ = true |- _ => apply types_eqb in Q; rewrite <- Q in VS end.
  pose proof (bind_args_typed _ P vs VS (e2, [], []) (conj E2 (Forall_nil _))) as St.
  destruct (fold_left _ _ _) as [[e3 fresh] saved]. destruct St as [E3 Sv]. cbn [fst snd] in *. ev.
  apply ret; [|assumption]. now apply restore_typed.
Qed.
Lemma eval_default_typed t d e : oall ok d -> env_typed e -> hok (at_ t) (eval_default rec t d e).
Proof.
  intros D E. destruct d as [x|]; [|exact I]. cbn [eval_default]. destruct (stype_eqb (tpe x) t) eqn:Q; [|exact I].
  apply stype_eqb_eq in Q. subst t. now apply Rec.
Qed.
Lemma deser_context_typed t id e : env_typed e -> hok (at_ t) (eval_deser_context c rec t id e).
Proof.
  intros E. unfold eval_deser_context. destruct (ext_get (c_ext c) id) as [k|] eqn:K; [|exact I].
  destruct (script_const k) as [b| |] eqn:B; try exact I. cbn [bind].
  destruct (from_bytes parse_expr b) as [x| |] eqn:X; try exact I. cbn [bind].
  destruct (stype_eqb (tpe x) t) eqn:Q; [|exact I]. apply stype_eqb_eq in Q. subst t. apply Rec; [|exact E].
  eapply (proj1 Scripts); eauto.
Qed.
Lemma deser_register_typed r t d e : oall ok d -> env_typed e -> hok (at_ t) (eval_deser_register c rec r t d e).
Proof.
  intros D E. unfold eval_deser_register. apply hok_any. intros id.
  destruct (get_register (snd (c_self c)) id) as [[k|]| |] eqn:K; try exact I; try now apply eval_default_typed.
  destruct (script_const k) as [b| |] eqn:B; try exact I. cbn [bind].
  destruct (from_bytes parse_expr b) as [x| |] eqn:X; try exact I. cbn [bind].
  destruct (stype_eqb (tpe x) t) eqn:Q; [|apply hok_any; intros; exact I]. apply stype_eqb_eq in Q. subst t. apply Rec; [|exact E].
  eapply (proj2 Scripts); eauto.
Qed.
Lemma op0_typed k p t d : op_ty k p [] d = Ok t -> hok (fun v => vtyped v t) (op0 H c k p).
Proof.
  destruct Ctx as (Cs & Ci & Co & _ & Cx).
  intros T. destruct k; try exact I; destruct p; try discriminate T; destruct d; try discriminate T; cbn [op_ty] in T;
    injection T as <-; cbn [op0]; try reflexivity; try (anys; reflexivity).
  - now apply boxes_typed.
  - now apply boxes_typed.
  - now split.
  - destruct (ext_get (c_ext c) r) as [k|] eqn:K; [|exact I]. destruct (stype_eqb (c_tpe k) t0) eqn:Q; [|exact I].
    apply stype_eqb_eq in Q. subst t0. apply lit_typed. eapply Cx, K.
Qed.

Lemma eval_as_any {A} (f : value G -> res A) x e : ok x -> env_typed e -> hok (tgood (fun _ => True)) (eval_as rec f x e).
Proof. intros X E. unfold eval_as. ev. apply hok_any. intros a'. now apply ret. Qed.
Ltac eas := eapply step_bind; [apply eval_as_any; assumption|]; intros ? ? _ ?; cbv beta iota.
Lemma create_avl_typed f g kl d e : ok f -> ok g -> ok kl -> oall ok d -> env_typed e ->
  hok (at_ SAvlTree) (eval_create_avl rec f g kl d e).
Proof.
  intros F D K V E. unfold eval_create_avl. eas. eas. eas.
  eapply (step_bind (fun _ => True)).
  - destruct d as [x|]; [eas|]; now apply ret.
  - intros o e9 _ E9. cbv beta iota. apply hok_any. intros d'. now apply ret.
Qed.
Lemma tree_lookup_typed t k p e : ok t -> ok k -> ok p -> env_typed e ->
  hok (at_ (SOption cbyte)) (eval_tree_lookup avlv rec t k p e).
Proof.
  intros T K P E. unfold eval_tree_lookup. eas. eas. eas. apply hok_any. intros r. apply ret; [assumption|].
  apply opt_bytes_typed.
Qed.
Lemma dh_tuple_typed g h u v e : ok g -> ok h -> ok u -> ok v -> env_typed e ->
  hok (at_ SSigmaProp) (eval_dh_tuple rec g h u v e).
Proof. intros A B D F E. unfold eval_dh_tuple. eas. eas. eas. eas. now apply ret. Qed.
Lemma by_index_typed p a i d e t : ok a -> ok i -> oall ok d -> env_typed e ->
  op_ty OByIndex p [tpe a; tpe i] (option_map tpe d) = Ok t -> op_extra asks OByIndex p [a; i] d ->
  hok (at_ t) (eval_by_index rec a i d e).
Proof.
  intros A J D E T X. unfold eval_by_index.
  eapply step_bind; [apply Rec; assumption|]. intros av e1 AV E1. cbv beta iota.
  eapply step_bind; [apply Rec; assumption|]. intros iv e2 _ E2. cbv beta iota.
  destruct (lambda_or av _ AV) as [(x & y & ->)|PE]; [exact I|].
  destruct p; try discriminate T. cbn [op_ty] in T. rewrite PE in T. destruct (tpe a) eqn:TA; try discriminate T.
  apply (hok_bind _ _ _ _ (get_coll_typed av _ AV)). intros [u l] [_ F]. cbn [fst snd] in F.
  eapply (step_bind (fun o => match o with Some v => vtyped v t | None => True end)).
  - destruct d as [x|]; [|now apply ret]. eapply step_bind; [apply Rec; assumption|]. intros v e3 V E3. cbv beta iota.
    apply ret; [exact E3|]. cbn [option_map] in T. use_need T. cbn [op_extra] in X. rewrite X in *.
    match goal with Q : _ && _ = true |- _ => apply andb_prop in Q as [_ Q]; apply stype_eqb_eq in Q; now rewrite Q in V end.
  - intros o e3 O E3. cbv beta iota. apply hok_any. intros n. apply step_ret; [exact E3|]. unfold by_index.
    use_need T. destruct (znth l (as_usize n)) as [v|] eqn:Z; [exact (znth_Forall _ _ F _ _ Z)|].
    destruct o; [exact O|exact I].
Qed.
Lemma eval_if_typed p b t f e : ok b -> ok t -> ok f -> env_typed e -> op_extra asks OIf p [b; t; f] None ->
  hok (at_ (tpe t)) (eval_if rec b t f e).
Proof.
  intros B T F E X. cbn [op_extra] in X. unfold eval_if. ev. apply hok_any. intros [|]; [now apply Rec|].
  rewrite X. now apply Rec.
Qed.
Lemma eval_fold_typed p a z f e : ok a -> ok z -> ok f -> env_typed e -> op_extra asks OFold p [a; z; f] None ->
  hok (at_ (tpe z)) (eval_fold rec a z f e).
Proof.
  intros A Z F E X. cbn [op_extra] in X. destruct X as (t & TA & TF). unfold eval_fold.
  eapply step_bind; [apply Rec; assumption|]. intros av e1 AV E1. cbv beta iota.
  eapply step_bind; [apply Rec; assumption|]. intros zv e2 ZV E2. cbv beta iota.
  eapply step_bind; [apply Rec; assumption|]. intros fv e3 FV E3. cbv beta iota.
  rewrite TA in AV. rewrite TF in FV. apply (hok_bind _ _ _ _ (get_coll_typed av _ AV)). intros [u l] [_ L]. cbn [fst snd] in L.
  eapply fold_loop_typed; eauto.
Qed.
Lemma op_ty_none k p ts d t : op_ty k p ts d = Ok t -> op_has_opt k = false -> d = None.
Proof. intros T N. destruct d; [|reflexivity]. destruct k; try discriminate N; destruct p; try discriminate T;
  destruct ts as [|? [|? [|? [|? [|? ?]]]]]; discriminate T. Qed.
Lemma eval_op_typed k p args d e t : Forall ok args -> oall ok d -> env_typed e ->
  op_ty k p (map tpe args) (option_map tpe d) = Ok t -> op_extra asks k p args d ->
  hok (at_ t) (eval_op H sha avlv c rec k p args d e).
Proof.
  intros A D E T X. rewrite eval_op_shape.
  pose proof (shape_of_all ok k p args d A D) as Sh.
  assert (ND : op_has_opt k = false -> d = None).
  { intros N. pose proof (op_ty_none _ _ _ _ _ T N) as Q. now destruct d. }
  destruct args as [|a1 args]; [|destruct args as [|a2 args]; [|destruct args as [|a3 args];
    [|destruct args as [|a4 args]; [|destruct args as [|a5 args]]]]]; cbn [map] in T.
  - destruct k; try (cbn [eval_shape shape_of]; apply step_ret; [exact E|eapply op0_typed, T]).
    + destruct p; try discriminate T. cbn [op_ty] in T. injection T as <-. cbn [eval_shape shape_of].
      apply deser_register_typed; assumption.
    + destruct p; try discriminate T. rewrite (ND eq_refl) in T. cbn [op_ty option_map] in T. injection T as <-.
      cbn [eval_shape shape_of]. now apply deser_context_typed.
  - cbn [shape_of shape_all] in Sh. cbn [eval_shape shape_of].
    eapply step_bind; [apply Rec; assumption|]. intros v e1 V E1. cbv beta iota. apply step_ret; [exact E1|].
    assert (N : op_has_opt k = false) by (destruct k; try reflexivity; destruct p; discriminate T).
    rewrite (ND N) in *. apply (op1_typed k p v (tpe a1) t a1); auto.
  - destruct (op_has_opt k) eqn:N.
    { destruct k; try discriminate N; try (destruct p; discriminate T). cbn [shape_of shape_all eval_shape] in *.
      destruct Sh as (S1 & S2 & S3). eapply by_index_typed; eauto. }
    rewrite (ND eq_refl) in *. cbn [option_map] in T.
    destruct (is_lambda_op k) eqn:K.
    { assert (shape_of k p [a1; a2] (@None (expr G)) = ShLambda k a1 a2) as Q by (destruct k; try discriminate K; reflexivity).
      rewrite Q in *. cbn [shape_all eval_shape] in *. destruct Sh. eapply eval_lambda_op_typed; eauto. }
    assert (shape_of k p [a1; a2] (@None (expr G)) = Sh2 k a1 a2) as Q by (destruct k; try discriminate K; try discriminate N; reflexivity).
    rewrite Q in *. cbn [shape_all eval_shape] in *. destruct Sh as [S1 S2].
    eapply step_bind; [apply Rec; assumption|]. intros v e1 V E1. cbv beta iota.
    eapply step_bind; [apply Rec; assumption|]. intros w e2 W E2. cbv beta iota. apply step_ret; [exact E2|].
    apply (op2_typed k p v w (tpe a1) (tpe a2) t a1 a2); auto.
  - destruct k; try (destruct p; discriminate T); cbn [shape_of shape_all eval_shape] in *; destruct p; try discriminate T;
      try (rewrite (ND eq_refl) in * ); cbn [option_map] in T.
    all: destruct Sh as (S1 & S2 & S3).
    + cbn [op_ty] in T. injection T as <-. now apply (eval_fold_typed PNone).
    + cbn [op_ty] in T. injection T as <-. now apply (eval_if_typed PNone).
    + eapply step_bind; [apply Rec; assumption|]; intros v e1 V E1; cbv beta iota;
      eapply step_bind; [apply Rec; assumption|]; intros w e2 W E2; cbv beta iota;
      eapply step_bind; [apply Rec; assumption|]; intros y e3 Y E3; cbv beta iota; apply step_ret; [exact E3|].
      exact (op3_typed OSlice PNone v w y _ _ _ t V T).
    + eapply step_bind; [apply Rec; assumption|]; intros v e1 V E1; cbv beta iota;
      eapply step_bind; [apply Rec; assumption|]; intros w e2 W E2; cbv beta iota;
      eapply step_bind; [apply Rec; assumption|]; intros y e3 Y E3; cbv beta iota; apply step_ret; [exact E3|].
      exact (op3_typed OSubstConstants PNone v w y _ _ _ t V T).
    + cbn [op_ty] in T. injection T as <-. now apply tree_lookup_typed.
    + destruct S3 as [S3 S4]. cbn [op_ty] in T. use_need T. now apply create_avl_typed.
  - destruct k; try (destruct p; discriminate T). destruct p; try discriminate T. rewrite (ND eq_refl) in T.
    cbn [op_ty option_map] in T. injection T as <-. cbn [shape_of shape_all eval_shape] in *.
    destruct Sh as (S1 & S2 & S3 & S4). now apply dh_tuple_typed.
  - destruct k; destruct p; discriminate T.
Qed.
Lemma get_all_any {A B} (Q : B -> Prop) (f : value G -> res A) l (k : list A -> res B) :
  (forall x, hok Q (k x)) -> hok Q (bind (get_all f l) k).
Proof. intros K. apply hok_any. exact K. Qed.
Lemma seq_value_typed q items vs t : Forall2 vtyped vs (map tpe items) -> seq_ty q (map tpe items) = Ok t ->
  node_extra Gam asks good (ESeq q items) -> hok (fun v => vtyped v t) (seq_value q vs).
Proof.
  intros V T X. destruct q; cbn [seq_ty] in T; cbn [seq_value].
  - injection T as <-. cbn [hok]. now apply vtyped_tup.
  - use_need T. anys. reflexivity.
  - use_need T. anys. reflexivity.
  - injection T as <-. apply from_vec_typed. cbn [node_extra] in X. clear - V X. revert vs V.
    induction X as [|x l Hx F IH]; intros vs V; inversion V; subst; constructor; auto.
Qed.
Lemma eval_step_typed x e : ok x -> env_typed e -> hok (at_ (tpe x)) (eval_step H sha fits avlv c rec x e).
Proof.
  intros O E. assert (node_ok x) as [Nc Nx] by (destruct x; apply O). destruct x; cbn [eval_step tpe].
  - apply ret; [exact E|]. now apply lit_typed.
  - exact I.
  - destruct Nc as [t T]. destruct (sub_op _ _ _ _ _ O) as [A D].
    assert (op_ty k p (map tpe args) (match d with Some x => Some (tpe x) | None => None end) = Ok t) as -> by exact T.
    cbn [ty_or_any]. now apply eval_op_typed.
  - destruct O as (_ & O1 & O2). apply (eval_bin_typed k x1 x2 e O1 O2 E).
  - apply ret; [exact E|]. apply vtyped_coll. split; [reflexivity|]. apply Forall_map, Forall_forall. reflexivity.
  - destruct Nc as [t T]. rewrite T. cbn [ty_or_any]. apply sub_seq in O.
    eapply step_bind; [apply eval_list_typed; assumption|]. intros vs e1 V E1. cbv beta iota.
    apply step_ret; [exact E1|]. apply (seq_value_typed q items vs t V T Nx).
  - apply ret; [exact E|]. cbn [TypeSound.vtyped]. split; [reflexivity|]. split; [exact Nx|apply O].
  - exact I.
  - destruct (env_get e id) as [v|] eqn:V; [|exact I]. cbn [of_option bind]. apply ret; [exact E|].
    cbn [node_extra] in Nx. subst t. eapply env_get_typed; eauto.
  - apply sub_block in O as [O1 O2]. now apply eval_block_typed.
  - destruct Nc as [t T]. rewrite T. cbn [ty_or_any]. apply sub_apply in O as [O1 O2]. now apply eval_apply_typed.
  - apply sub_method in O as [O1 O2]. eapply step_bind; [apply Rec; assumption|]. intros o e1 V E1. cbv beta iota.
    eapply step_bind; [apply eval_list_typed; assumption|]. intros vs e2 VS E2. cbv beta iota.
    apply (eval_method_typed m x args o vs e2); auto.
  - destruct O as [_ O]. eapply step_bind; [apply Rec; assumption|]. intros o e1 V E1. cbv beta iota.
    apply (eval_method_typed m x []); auto. constructor.
Qed.
End Step.
Lemma eval_typed fuel : forall x e, ok x -> env_typed e -> hok (at_ (tpe x)) (eval H sha fits avlv c fuel x e).
Proof.
  induction fuel as [|n IH]; intros x e O E; [exact I|]. cbn [eval]. apply eval_step_typed; assumption.
Qed.
End Values.
