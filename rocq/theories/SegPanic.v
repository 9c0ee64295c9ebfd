(** Reading the template of a script with its constants put back cannot panic, and
    gives nodes as a reader gives them: proofs for C75 and C95.

    The difference to [SerSeg]: constants that were left in place are also moved to a
    store, so that what is read need not be what was written. *)
From Verif Require Import Base VlqModel VlqProofs GroupModel GroupProofs SigmaModel.
From Verif Require Import TypeModel TypeProofs MethodModel IrModel SerModel SerLocal SerSpec SerProofs SerSeg
  ReadProofs ParseProofs PrintProofs EvalPanicProps.
Local Open Scope string_scope.
Local Open Scope list_scope.
Local Open Scope Z_scope.

Section Proofs.
Context {G : group} (HG : group_ok G).
Notation P := (@P G).
Notation PX := (@parse_expr G).
Notation expr := (expr G).
Notation const := (const G).
Notation rst := (@rst G).

(** The outcome of a reader that substitutes the constants [cs]. *)
Definition safe {A} (cs : list const) (rest : bytes) (Q : A -> Prop) (r : res (A * rst * bytes)) : Prop :=
  match r with
  | Panic => False
  | Err _ => True
  | Ok (a, st, rest') => rest' = rest /\ rs_store st = cs /\ rs_subst st = true /\ Q a
  end.

Lemma safe_bind : forall A B cs mid rest (Q : A -> Prop) (R : B -> Prop) (p : P A) (f : A -> P B) st bs,
  safe cs mid Q (p st bs) ->
  (forall a ts, Q a -> safe cs rest R (f a (RSt cs true ts) mid)) ->
  safe cs rest R (pbind p f st bs).
Proof.
  intros A B cs mid rest Q R p f st bs H K. unfold pbind. destruct (p st bs) as [[[a st'] r]| |]; cbn [safe] in *; auto.
  destruct H as (-> & H1 & H2 & H3). destruct st' as [s u t]. cbn [rs_store rs_subst] in *. subst. apply K, H3.
Qed.
Lemma safe_ret : forall A cs rest (Q : A -> Prop) a ts, Q a -> safe cs rest Q (pret a (RSt cs true ts) rest).
Proof. intros. cbn. auto. Qed.
Lemma safe_res : forall A B cs rest (Q : B -> Prop) (r : res A) (f : A -> P B) ts, r <> Panic ->
  (forall a, r = Ok a -> safe cs rest Q (f a (RSt cs true ts) rest)) ->
  safe cs rest Q (pbind (of_res r) f (RSt cs true ts) rest).
Proof. intros A B cs rest Q r f ts N K. unfold pbind, of_res. destruct r as [a| |]; [apply K; reflexivity|exact I|contradiction]. Qed.
Lemma safe_conseq : forall A cs rest (Q R : A -> Prop) r, safe cs rest Q r -> (forall a, Q a -> R a) -> safe cs rest R r.
Proof. intros A cs rest Q R [[[a st] r]| |] H K; cbn [safe] in *; auto. destruct H as (? & ? & ? & ?). auto. Qed.

(** Nodes as a reader gives them, as many, without new script writers. *)
Definition like (e e' : expr) : Prop := every node_read e' /\ (every no_subst e -> every no_subst e') /\ nodes e' = nodes e.
Definition likes (l l' : list expr) : Prop :=
  Forall (every node_read) l' /\ (Forall (every no_subst) l -> Forall (every no_subst) l') /\ total nodes l' = total nodes l.
Definition likeo (d d' : option expr) : Prop :=
  match d, d' with
  | Some e, Some e' => like e e'
  | None, None => True
  | _, _ => False
  end.

Definition U_expr (m : bool) (st : rst) (e : expr) (st' : rst) : Prop :=
  forall s, Zlen s + nodes e <= 2 ^ 32 - 1 ->
  exists hd bs s', ser_expr e (Some s) = Ok (hd :: bs, Some s') /\ Zlen s' <= Zlen s + nodes e /\
    (hd = code_bools -> is_bools e) /\
    forall cs ts rest, Forall read_const cs -> safe cs rest (like e) (parse_tag PX hd (RSt cs true ts) (bs ++ rest)).
Definition U_exprs (m : bool) (st : rst) (l : list expr) (st' : rst) : Prop :=
  forall s, Zlen s + total nodes l <= 2 ^ 32 - 1 ->
  exists bs s', wall ser_expr l (Some s) = Ok (bs, Some s') /\ Zlen s' <= Zlen s + total nodes l /\
    forall cs ts rest, Forall read_const cs ->
      safe cs rest (fun l' => likes l l' /\ Zlen l' = Zlen l) (pread_n (List.length l) PX (RSt cs true ts) (bs ++ rest)).
Definition onodes (d : option expr) : Z := match d with Some y => nodes y | None => 0 end.
Definition U_opt (m : bool) (st : rst) (d : option expr) (st' : rst) : Prop :=
  forall s, Zlen s + onodes d <= 2 ^ 32 - 1 ->
  exists bs s', opt_w d (Some s) = Ok (bs, Some s') /\ Zlen s' <= Zlen s + onodes d /\
    forall cs ts rest, Forall read_const cs -> safe cs rest (likeo d) (popt PX (RSt cs true ts) (bs ++ rest)).

Lemma u_expr : forall m st e st', U_expr m st e st' -> forall s, Zlen s + nodes e <= 2 ^ 32 - 1 ->
  exists bs s', ser_expr e (Some s) = Ok (bs, Some s') /\ Zlen s' <= Zlen s + nodes e /\
    forall cs ts rest, Forall read_const cs -> safe cs rest (like e) (PX (RSt cs true ts) (bs ++ rest)).
Proof.
  intros m st e st' H s Hs. destruct (H s Hs) as (hd & bs & s' & E & L & _ & R).
  exists (hd :: bs), s'. split; [exact E|]. split; [exact L|]. intros cs ts rest Hc.
  rewrite parse_expr_eq. unfold step, pbind, lift. rewrite <- app_comm_cons. cbn [get_u8 bind]. apply R, Hc.
Qed.

Lemma wcat_hd_some : forall hd (b : @W G) y s s', b s = Ok (y, s') -> wcat (wret [hd]) b s = Ok (hd :: y, s').
Proof. intros hd b y s s' H. apply (wcat_step (wret [hd]) b s [hd] s y s'); [reflexivity|exact H]. Qed.

Lemma u_const : forall m st c st', U_expr m st (EConst c) st'.
Proof.
  intros m st c st' s Hs. cbn [nodes] in *. pose proof (Zlen_nonneg _ s).
  destruct (get_put_u32 (Zlen s)) as (b & E & R); [unfold u32; lia|].
  exists code_placeholder, b, (s ++ [c]). split.
  { cbn [ser_expr]. unfold put_const. replace (Zlen s + 1 <=? 2 ^ 32 - 1) with true by (symmetry; apply Z.leb_le; lia).
    rewrite E. reflexivity. }
  split; [rewrite Zlen_app, Zlen_cons, Zlen_nil; lia|]. split; [discriminate|]. intros cs ts rest Hc.
  change (parse_tag PX code_placeholder) with (@parse_placeholder G). unfold parse_placeholder. pstep R.
  unfold pbind, pstate. cbn [rs_store rs_subst]. destruct (nth_error cs (Z.to_nat (Zlen s))) as [k|] eqn:En; [|exact I].
  cbn. repeat split; auto. rewrite Forall_forall in Hc. apply Hc. eapply nth_error_In, En.
Qed.

Lemma u_placeholder : forall st id c, u32 id -> rs_subst st = false ->
  nth_error (rs_store st) (Z.to_nat id) = Some c -> U_expr false st (EPlaceholder id (c_tpe c)) st.
Proof.
  intros st id c Hid _ _ s Hs. cbn [nodes] in *. destruct (get_put_u32 id Hid) as (b & E & R).
  exists code_placeholder, b, s. split; [cbn [ser_expr]; apply wcat_hd_some, wput_any, E|]. split; [lia|].
  split; [discriminate|]. intros cs ts rest Hc.
  change (parse_tag PX code_placeholder) with (@parse_placeholder G). unfold parse_placeholder. pstep R.
  unfold pbind, pstate. cbn [rs_store rs_subst]. destruct (nth_error cs (Z.to_nat id)) as [k|] eqn:En; [|exact I].
  cbn. repeat split; auto. rewrite Forall_forall in Hc. apply Hc. eapply nth_error_In, En.
Qed.

Lemma u_exprs_nil : forall m st, U_exprs m st [] st.
Proof.
  intros m st s Hs. exists [], s. split; [reflexivity|]. split; [cbn; lia|]. intros cs ts rest _. cbn. repeat split; auto.
Qed.
Lemma total_cons : forall (e : expr) l, total nodes (e :: l) = nodes e + total nodes l.
Proof. reflexivity. Qed.
Lemma u_exprs_cons : forall m st e l st1 st2, U_expr m st e st1 -> U_exprs m st1 l st2 -> U_exprs m st (e :: l) st2.
Proof.
  intros m st e l st1 st2 H1 H2 s Hs. rewrite total_cons in *. pose proof (total_nonneg l). pose proof (nodes_pos e).
  destruct (u_expr _ _ _ _ H1 s) as (b1 & s1 & E1 & L1 & R1); [lia|].
  destruct (H2 s1) as (b2 & s2 & E2 & L2 & R2); [lia|].
  exists (b1 ++ b2), s2. split; [rewrite wall_cons; eapply wcat_step; eassumption|]. split; [lia|].
  intros cs ts rest Hc. cbn [List.length pread_n]. rewrite <- app_assoc.
  eapply safe_bind; [apply R1, Hc|]. intros a ts1 (A1 & A2 & A0). eapply safe_bind; [apply R2, Hc|].
  intros l' ts2 [(B1 & B2 & B0) B3]. apply safe_ret. rewrite !Zlen_cons, B3. split; [|reflexivity].
  split; [constructor; auto|]. split; [intros F; inversion_clear F; constructor; auto|]. rewrite !total_cons, A0, B0. reflexivity.
Qed.
Lemma u_none : forall m st, U_opt m st None st.
Proof. intros m st s Hs. exists [0], s. split; [reflexivity|]. split; [cbn; lia|]. intros cs ts rest _. cbn. auto. Qed.
Lemma u_some : forall m st e st', U_expr m st e st' -> U_opt m st (Some e) st'.
Proof.
  intros m st e st' H s Hs. cbn [onodes] in *. destruct (u_expr _ _ _ _ H s Hs) as (b & s' & E & L & R).
  exists (1 :: b), s'. split; [apply wcat_hd_some, E|]. split; [exact L|]. intros cs ts rest Hc.
  unfold popt. rewrite <- app_comm_cons. pstep (get_u8_cons 1 (b ++ rest)). change (1 =? 0) with false. cbv iota.
  eapply safe_bind; [apply R, Hc|]. intros e' ts' L'. apply safe_ret. exact L'.
Qed.

Lemma each_l : forall (Q : expr -> Prop) l,
  (fix go (l : list expr) := match l with [] => True | y :: l' => every Q y /\ go l' end) l <-> Forall (every Q) l.
Proof. apply each_every. Qed.

Lemma u_op : forall m st k p args d st1 st2 t,
  pay_kind p = op_pay k -> payload_ok p -> List.length args = op_arity k ->
  (op_has_opt k = false -> d = None) ->
  op_ty k p (map tpe args) (option_map tpe d) = Ok t ->
  U_exprs m st args st1 -> U_opt m st1 d st2 -> U_expr m st (EOp k p args d) st2.
Proof.
  intros m st k p args d st1 st2 t Hk Hp Ha Hd Ht H1 H2 s Hs.
  assert (N : nodes (EOp k p args d) = 1 + (total nodes args + onodes d)) by reflexivity. rewrite N in Hs |- *.
  pose proof (total_nonneg args).
  assert (0 <= onodes d) by (destruct d as [y|]; cbn [onodes]; [pose proof (nodes_pos y); lia|lia]).
  destruct (H1 s) as (b1 & s1 & E1 & L1 & R1); [lia|].
  destruct (payload_rt _ _ Hk Hp) as (b2 & E2 & R2). destruct (H2 s1) as (b3 & s2 & E3 & L3 & R3); [lia|].
  set (ob := if op_has_opt k then b3 else []). set (s' := if op_has_opt k then s2 else s1).
  exists (op_code k), (b1 ++ b2 ++ ob), s'. split.
  { rewrite se_op. apply wcat_hd_some. eapply wcat_step; [exact E1|]. eapply wcat_step; [apply wput_any, E2|].
    subst ob s'. destruct (op_has_opt k); [exact E3|reflexivity]. }
  split; [subst s'; destruct (op_has_opt k); lia|].
  split; [intros X; destruct (op_code_not_bools _ X)|]. intros cs ts rest Hc. rewrite parse_tag_op. unfold parse_op.
  rewrite <- !app_assoc. rewrite <- Ha. eapply safe_bind; [apply R1, Hc|]. intros args' ts1 [(A1 & A2 & A0) _]. pstep R2.
  assert (RO : forall ts rest, safe cs rest (likeo d) ((if op_has_opt k then popt PX else pret None) (RSt cs true ts) (ob ++ rest))).
  { subst ob. intros ts' rest'. destruct (op_has_opt k); [apply R3, Hc|]. rewrite (Hd eq_refl). apply safe_ret. exact I. }
  eapply safe_bind; [apply RO|]. intros d' ts2 D. apply safe_res; [apply op_ty_no_panic|]. intros ty _. apply safe_ret.
  split.
  - cbn [every]. rewrite each_l. split; [exact I|]. split; [exact A1|]. destruct d as [y|], d' as [y'|]; try contradiction; auto. apply D.
  - split.
    + cbn [every]. rewrite !each_l. intros (Q1 & Q2 & Q3). split; [exact Q1|]. split; [auto|].
      destruct d as [y|], d' as [y'|]; try contradiction; auto. apply D, Q3.
    + rewrite N. change (nodes (EOp k p args' d')) with (1 + (total nodes args' + onodes d')). rewrite A0.
      destruct d as [y|], d' as [y'|]; try contradiction; [|reflexivity]. cbn [onodes]. destruct D as (_ & _ & ->). reflexivity.
Qed.

Lemma bool_read : forall b, read_const (MkConst (G := G) SBoolean (LBool b)).
Proof. intros b. exists fresh, fresh. constructor; [vm_compute; tauto|apply ok_bool]. Qed.

Lemma u_bin_bools : forall m st k x y, U_expr m st (EBin k (bool_const x) (bool_const y)) st.
Proof.
  intros m st k x y s Hs. destruct (get_put_bits [x; y]) as (b & E & R).
  exists (bin_code k), (code_bools :: b), s. split.
  { rewrite se_bin. cbn [bool_const bool_consts lit_bool]. apply wcat_hd_some. apply wput_any. rewrite E. reflexivity. }
  split; [cbn [nodes bool_const]; lia|]. split; [intros X; destruct (bin_code_not_bools _ X)|]. intros cs ts rest _.
  rewrite parse_tag_bin. rewrite <- app_comm_cons. unfold parse_bin. rewrite Z.eqb_refl. pstep R. apply safe_ret.
  split; [cbn [every]; repeat split; apply bool_read|]. split; [trivial|reflexivity].
Qed.

Lemma u_bin : forall m st k l r st1 st2,
  ~ (is_bool_const l /\ is_bool_const r) -> ~ is_bools l ->
  U_expr m st l st1 -> U_expr m st1 r st2 -> U_expr m st (EBin k l r) st2.
Proof.
  intros m st k l r st1 st2 H0 Hl H1 H2 s Hs. assert (N : nodes (EBin k l r) = 1 + (nodes l + nodes r)) by reflexivity.
  rewrite N in Hs |- *. pose proof (nodes_pos l). pose proof (nodes_pos r).
  destruct (H1 s) as (c & b1 & s1 & E1 & L1 & Hc & _); [lia|].
  destruct (u_expr _ _ _ _ H1 s) as (b1' & s1' & E1' & L1' & R1); [lia|].
  rewrite E1 in E1'. injection E1' as <- <-.
  destruct (u_expr _ _ _ _ H2 s1) as (b2 & s2 & E2 & L2 & R2); [lia|].
  exists (bin_code k), ((c :: b1) ++ b2), s2. split.
  { rewrite se_bin. rewrite SerProofs.bool_consts_none by exact H0. apply wcat_hd_some. eapply wcat_step; eassumption. }
  split; [lia|]. split; [intros X; destruct (bin_code_not_bools _ X)|]. intros cs ts rest Hcs.
  rewrite parse_tag_bin. rewrite <- app_assoc. unfold parse_bin. rewrite <- app_comm_cons.
  replace (c =? code_bools) with false by (symmetry; apply Z.eqb_neq; intros X; auto).
  rewrite app_comm_cons. eapply safe_bind; [apply R1, Hcs|]. intros l' ts1 (A1 & A2 & A0).
  eapply safe_bind; [apply R2, Hcs|]. intros r' ts2 (B1 & B2 & B0). apply safe_ret.
  split; cbn [every nodes]; [split; [exact I|split; assumption]|]. split; [intros (_ & Q1 & Q2); split; [exact I|split; auto]|]. congruence.
Qed.

Lemma u_bools : forall m st l, Zlen l < 2 ^ 16 -> U_expr m st (EBools l) st.
Proof.
  intros m st l Hl s Hs. pose proof (Zlen_nonneg _ l).
  destruct (get_put_u16 (Zlen l)) as (nb & En & Rn); [unfold u16; lia|].
  destruct (get_put_bits l) as (b & E & R). exists code_bools, (nb ++ b), s. split.
  { cbn [ser_expr]. apply wput_step. rewrite wrapu_id by lia. rewrite En. cbn [bind]. rewrite E. reflexivity. }
  split; [cbn [nodes]; lia|]. split; [intros _; exact I|]. intros cs ts rest _.
  change (parse_tag PX code_bools) with (@parse_bools G).
  unfold parse_bools. papp. pstep Rn. rewrite Zlen_nat. pstep R. apply safe_ret. repeat split.
Qed.

Lemma u_vec : forall m st l st', Zlen l < 2 ^ 32 -> U_exprs m st l st' -> forall s, Zlen s + total nodes l <= 2 ^ 32 - 1 ->
  exists nb bs s', put_u32 (wrapu 32 (Zlen l)) = Ok nb /\ wall ser_expr l (Some s) = Ok (bs, Some s') /\
    Zlen s' <= Zlen s + total nodes l /\
    forall cs ts rest, Forall read_const cs ->
      safe cs rest (fun l' => likes l l' /\ Zlen l' = Zlen l) (pvec PX (RSt cs true ts) (nb ++ bs ++ rest)).
Proof.
  intros m st l st' Hl H s Hs. pose proof (Zlen_nonneg _ l). destruct (H s Hs) as (bs & s' & E & L & R).
  destruct (get_put_u32 (Zlen l)) as (nb & En & Rn); [unfold u32; lia|].
  exists nb, bs, s'. rewrite wrapu_id by lia. split; [exact En|]. split; [exact E|]. split; [exact L|]. intros cs ts rest Hc.
  unfold pvec. pstep Rn. rewrite Zlen_nat. apply R, Hc.
Qed.

Lemma safe_bounded : forall A (l : list A) cs rest (Q : list A -> Prop) ts, 2 <= Zlen l <= 255 -> Q l ->
  safe cs rest Q (pbounded l (RSt cs true ts) rest).
Proof. intros A l cs rest Q ts Hl Hq. unfold pbounded. rewrite bounded_ok by exact Hl. cbn. auto. Qed.

Lemma u_seq : forall m st q l st' t, seq_ok q (Zlen l) -> seq_ty q (map tpe l) = Ok t ->
  U_exprs m st l st' -> U_expr m st (ESeq q l) st'.
Proof.
  intros m st q l st' t Hq Ht H s Hs. pose proof (Zlen_nonneg _ l) as Hp.
  assert (N : nodes (ESeq q l) = 1 + total nodes l) by reflexivity. rewrite N in Hs |- *.
  assert (LK : forall l', likes l l' -> Zlen l' = Zlen l -> like (ESeq q l) (ESeq q l')).
  { intros l' (A1 & A2 & A0) A3. split; [|split; [|cbn [nodes]; congruence]]; cbn [every]; rewrite !each_l.
    - split; [|exact A1]. cbn [node_read]. destruct q; trivial; cbn [seq_ok] in Hq; lia.
    - intros [_ Q]. split; [exact I|auto]. }
  destruct q as [| | |u]; cbn [seq_ok] in Hq.
  - destruct (H s) as (bs & s' & E & L & R); [lia|]. destruct (get_put_u8 (Zlen l)) as (nb & En & Rn).
    exists code_tuple, (nb ++ bs), s'. split.
    { rewrite se_seq. cbn [seq_prefix]. rewrite wrapu_id by (change (2 ^ 8) with 256; lia). rewrite En. cbn [bind].
      apply (wcat_step _ _ _ (code_tuple :: nb) (Some s) bs); [reflexivity|exact E]. }
    split; [lia|]. split; [discriminate|]. intros cs ts rest Hc. change (parse_tag PX code_tuple) with (parse_tuple PX).
    unfold parse_tuple. papp. pstep Rn. rewrite Zlen_nat. eapply safe_bind; [apply R, Hc|]. intros l' ts1 [A B].
    eapply safe_bind; [apply (safe_bounded _ l' cs rest (fun x => x = l')); [rewrite B; exact Hq|reflexivity]|].
    intros l2 ts2 ->. apply safe_ret. auto.
  - destruct (u_vec m st l st') with (s := s) as (nb & bs & s' & En & E & L & R); [change (2 ^ 32) with 4294967296; lia|exact H|lia|].
    exists code_sigma_and, (nb ++ bs), s'. split.
    { rewrite se_seq. cbn [seq_prefix]. rewrite En. cbn [bind].
      apply (wcat_step _ _ _ (code_sigma_and :: nb) (Some s) bs); [reflexivity|exact E]. }
    split; [lia|]. split; [discriminate|]. intros cs ts rest Hc. change (parse_tag PX code_sigma_and) with (parse_sigma_seq PX QSigmaAnd).
    unfold parse_sigma_seq. papp. eapply safe_bind; [apply R, Hc|]. intros l' ts1 [A B].
    apply safe_res; [apply seq_ty_no_panic|]. intros ty _.
    eapply safe_bind; [apply (safe_bounded _ l' cs rest (fun x => x = l')); [rewrite B; exact Hq|reflexivity]|].
    intros l2 ts2 ->. apply safe_ret. auto.
  - destruct (u_vec m st l st') with (s := s) as (nb & bs & s' & En & E & L & R); [change (2 ^ 32) with 4294967296; lia|exact H|lia|].
    exists code_sigma_or, (nb ++ bs), s'. split.
    { rewrite se_seq. cbn [seq_prefix]. rewrite En. cbn [bind].
      apply (wcat_step _ _ _ (code_sigma_or :: nb) (Some s) bs); [reflexivity|exact E]. }
    split; [lia|]. split; [discriminate|]. intros cs ts rest Hc. change (parse_tag PX code_sigma_or) with (parse_sigma_seq PX QSigmaOr).
    unfold parse_sigma_seq. papp. eapply safe_bind; [apply R, Hc|]. intros l' ts1 [A B].
    apply safe_res; [apply seq_ty_no_panic|]. intros ty _.
    eapply safe_bind; [apply (safe_bounded _ l' cs rest (fun x => x = l')); [rewrite B; exact Hq|reflexivity]|].
    intros l2 ts2 ->. apply safe_ret. auto.
  - destruct Hq as [Hn' Hu]. destruct (H s) as (bs & s' & E & L & R); [lia|].
    destruct (get_put_u16 (Zlen l)) as (nb & En & Rn); [unfold u16; lia|]. destruct (type_rt u Hu) as (tb & Et & Rt).
    exists code_coll, (nb ++ tb ++ bs), s'. split.
    { rewrite se_seq. cbn [seq_prefix]. rewrite wrapu_id by lia. rewrite En. cbn [bind]. rewrite Et. cbn [bind].
      rewrite app_assoc. apply (wcat_step _ _ _ (code_coll :: nb ++ tb) (Some s) bs); [reflexivity|exact E]. }
    split; [lia|]. split; [discriminate|]. intros cs ts rest Hc. change (parse_tag PX code_coll) with (parse_coll PX).
    unfold parse_coll. papp. pstep Rn. pstep Rt. rewrite Zlen_nat. eapply safe_bind; [apply R, Hc|].
    intros l' ts1 [A B]. apply safe_ret. auto.
Qed.

Lemma insert_args_as : forall args (cs : list const) ts, exists ts', insert_args args (RSt cs true ts) = RSt cs true ts'.
Proof.
  intros args cs ts. exists (rs_types (insert_args args (RSt cs true ts))).
  apply (insert_args_types args (RSt cs true ts) cs true).
Qed.

Lemma u_func : forall m st args body st', Forall arg_ok args -> Zlen args < 2 ^ 32 ->
  U_expr m (insert_args args st) body st' -> U_expr m st (EFunc args body) st'.
Proof.
  intros m st args body st' Ha Hn H s Hs. assert (N : nodes (EFunc args body) = 1 + nodes body) by reflexivity. rewrite N in Hs |- *.
  destruct (args_rt args Ha Hn) as (ab & Ea & Ra). destruct (u_expr _ _ _ _ H s) as (b & s' & E & L & R); [lia|].
  exists code_func, (ab ++ b), s'. split.
  { rewrite se_func. apply wcat_hd_some. eapply wcat_step; [apply wput_any, Ea|exact E]. }
  split; [lia|]. split; [discriminate|]. intros cs ts rest Hc. change (parse_tag PX code_func) with (parse_func PX).
  unfold parse_func. papp. pstep Ra. erewrite pbind_step; [|reflexivity]. erewrite pbind_step; [|reflexivity].
  destruct (insert_args_as args cs ts) as [ts' ->]. eapply safe_bind; [apply R, Hc|]. intros b' ts1 (A1 & A2 & A0). apply safe_ret.
  split; cbn [every nodes]; [split; [exact I|assumption]|]. split; [intros [_ Q]; split; [exact I|auto]|]. congruence.
Qed.

Lemma u_val_def : forall m st id rhs st', u32 id -> U_expr m st rhs st' ->
  U_expr m st (EValDef id rhs) (insert_type id (tpe rhs) st').
Proof.
  intros m st id rhs st' Hid H s Hs. assert (N : nodes (EValDef id rhs) = 1 + nodes rhs) by reflexivity. rewrite N in Hs |- *.
  destruct (get_put_u32 id Hid) as (ib & Ei & Ri). destruct (u_expr _ _ _ _ H s) as (b & s' & E & L & R); [lia|].
  exists code_val_def, (ib ++ b), s'. split.
  { rewrite se_val_def. apply wcat_hd_some. eapply wcat_step; [apply wput_any, Ei|exact E]. }
  split; [lia|]. split; [discriminate|]. intros cs ts rest Hc. change (parse_tag PX code_val_def) with (parse_val_def PX).
  unfold parse_val_def. papp. pstep Ri. eapply safe_bind; [apply R, Hc|]. intros b' ts1 (A1 & A2 & A0).
  split; [reflexivity|]. split; [reflexivity|]. split; [reflexivity|].
  split; cbn [every nodes]; [split; [exact I|assumption]|]. split; [intros [_ Q]; split; [exact I|auto]|]. congruence.
Qed.

Lemma u_val_use : forall m (st : rst) id t, u32 id -> ty_lookup (rs_types st) id = Some t -> U_expr m st (EValUse id t) st.
Proof.
  intros m st id t Hid _ s Hs. destruct (get_put_u32 id Hid) as (b & E & R).
  exists code_val_use, b, s. split; [cbn [ser_expr]; apply wcat_hd_some, wput_any, E|].
  split; [cbn [nodes]; lia|]. split; [discriminate|]. intros cs ts rest _.
  change (parse_tag PX code_val_use) with (@parse_val_use G). unfold parse_val_use. pstep R.
  unfold pbind, pstate. cbn [rs_types]. destruct (ty_lookup ts id); [|exact I]. repeat split.
Qed.

Lemma u_block : forall m st items r st1 st2, Zlen items < 2 ^ 32 ->
  U_exprs m st items st1 -> U_expr m st1 r st2 -> U_expr m st (EBlock items r) st2.
Proof.
  intros m st items r st1 st2 Hn H1 H2 s Hs. assert (N : nodes (EBlock items r) = 1 + (total nodes items + nodes r)) by reflexivity.
  rewrite N in Hs |- *. pose proof (total_nonneg items). pose proof (nodes_pos r).
  destruct (u_vec _ _ _ _ Hn H1 s) as (nb & bs & s1 & En & E & L & R); [lia|].
  destruct (u_expr _ _ _ _ H2 s1) as (b & s2 & Eb & Lb & Rb); [lia|]. exists code_block, (nb ++ bs ++ b), s2. split.
  { rewrite se_block. apply wcat_hd_some. eapply wcat_step; [apply wput_any, En|]. eapply wcat_step; eassumption. }
  split; [lia|]. split; [discriminate|]. intros cs ts rest Hc. change (parse_tag PX code_block) with (parse_block PX).
  unfold parse_block. papp. eapply safe_bind; [apply R, Hc|]. intros l' ts1 [(A1 & A2 & A0) _].
  eapply safe_bind; [apply Rb, Hc|]. intros r' ts2 (B1 & B2 & B0). apply safe_ret.
  split; cbn [every nodes]; rewrite ?each_l; [split; [exact I|split; assumption]|]. split; [intros (_ & Q1 & Q2); split; [exact I|split; auto]|]. congruence.
Qed.

Lemma u_apply : forall m st f args st1 st2 t, Zlen args < 2 ^ 32 ->
  apply_ty (tpe f) (map tpe args) = Ok t ->
  U_expr m st f st1 -> U_exprs m st1 args st2 -> U_expr m st (EApply f args) st2.
Proof.
  intros m st f args st1 st2 t Hn Ht H1 H2 s Hs. assert (N : nodes (EApply f args) = 1 + (nodes f + total nodes args)) by reflexivity.
  rewrite N in Hs |- *. pose proof (total_nonneg args). pose proof (nodes_pos f).
  destruct (u_expr _ _ _ _ H1 s) as (b & s1 & Eb & Lb & Rb); [lia|].
  destruct (u_vec _ _ _ _ Hn H2 s1) as (nb & bs & s2 & En & E & L & R); [lia|]. exists code_apply, (b ++ nb ++ bs), s2. split.
  { rewrite se_apply. apply wcat_hd_some. eapply wcat_step; [exact Eb|]. eapply wcat_step; [apply wput_any, En|exact E]. }
  split; [lia|]. split; [discriminate|]. intros cs ts rest Hc. change (parse_tag PX code_apply) with (parse_apply PX).
  unfold parse_apply. papp. eapply safe_bind; [apply Rb, Hc|]. intros f' ts1 (B1 & B2 & B0).
  eapply safe_bind; [apply R, Hc|]. intros l' ts2 [(A1 & A2 & A0) _]. apply safe_res; [apply apply_ty_no_panic|]. intros ty _.
  apply safe_ret. split; cbn [every nodes]; rewrite ?each_l; [split; [exact I|split; assumption]|]. split; [intros (_ & Q1 & Q2); split; [exact I|split; auto]|]. congruence.
Qed.

Lemma u_method : forall m st g g0 obj args st1 st2, Zlen args < 2 ^ 32 ->
  from_ids (sm_code g) (sm_id g) = Ok g0 ->
  U_expr m st obj st1 -> U_exprs m st1 args st2 -> U_expr m st (EMethod g obj args) st2.
Proof.
  intros m st g g0 obj args st1 st2 Hn Hg H1 H2 s Hs.
  assert (N : nodes (EMethod g obj args) = 1 + (nodes obj + total nodes args)) by reflexivity.
  rewrite N in Hs |- *. pose proof (total_nonneg args). pose proof (nodes_pos obj).
  destruct (u_expr _ _ _ _ H1 s) as (b & s1 & Eb & Lb & Rb); [lia|].
  destruct (u_vec _ _ _ _ Hn H2 s1) as (nb & bs & s2 & En & E & L & R); [lia|].
  exists code_method, ([sm_code g; sm_id g] ++ b ++ nb ++ bs), s2. split.
  { rewrite se_method. apply (wcat_step _ _ _ [code_method; sm_code g; sm_id g] (Some s) (b ++ nb ++ bs)); [reflexivity|].
    eapply wcat_step; [exact Eb|]. eapply wcat_step; [apply wput_any, En|exact E]. }
  split; [lia|]. split; [discriminate|]. intros cs ts rest Hc. change (parse_tag PX code_method) with (parse_method PX).
  unfold parse_method. papp. cbn [app]. papp. destruct (from_ids_codes _ _ _ Hg) as [Hcd _].
  pstep (type_code_step _ (sm_id g :: b ++ nb ++ bs ++ rest) Hcd).
  pstep (get_u8_cons (sm_id g) (b ++ nb ++ bs ++ rest)).
  eapply safe_bind; [apply Rb, Hc|]. intros o' ts1 (B1 & B2 & B0).
  eapply safe_bind; [apply R, Hc|]. intros l' ts2 [(A1 & A2 & A0) _].
  apply safe_res; [apply method_of_no_panic|]. intros g' _. destruct (method_types_match g' (tpe o') (map tpe l')); [|exact I].
  apply safe_ret. split; cbn [every nodes]; rewrite ?each_l; [split; [exact I|split; assumption]|]. split; [intros (_ & Q1 & Q2); split; [exact I|split; auto]|]. congruence.
Qed.

Lemma u_prop : forall m st g g0 obj st',
  from_ids (sm_code g) (sm_id g) = Ok g0 -> U_expr m st obj st' -> U_expr m st (EProp g obj) st'.
Proof.
  intros m st g g0 obj st' Hg H1 s Hs. assert (N : nodes (EProp g obj) = 1 + nodes obj) by reflexivity. rewrite N in Hs |- *.
  destruct (u_expr _ _ _ _ H1 s) as (b & s1 & Eb & Lb & Rb); [lia|].
  exists code_prop, ([sm_code g; sm_id g] ++ b), s1. split.
  { rewrite se_prop. apply (wcat_step _ _ _ [code_prop; sm_code g; sm_id g] (Some s) b); [reflexivity|exact Eb]. }
  split; [lia|]. split; [discriminate|]. intros cs ts rest Hc. change (parse_tag PX code_prop) with (parse_prop PX).
  unfold parse_prop. papp. cbn [app]. destruct (from_ids_codes _ _ _ Hg) as [Hcd _].
  pstep (type_code_step _ (sm_id g :: b ++ rest) Hcd). pstep (get_u8_cons (sm_id g) (b ++ rest)).
  eapply safe_bind; [apply Rb, Hc|]. intros o' ts1 (B1 & B2 & B0).
  apply safe_res; [apply method_of_no_panic|]. intros g' _. destruct (method_types_match g' (tpe o') []); [|exact I].
  apply safe_ret. split; cbn [every nodes]; [split; [exact I|assumption]|]. split; [intros [_ Q]; split; [exact I|auto]|]. congruence.
Qed.

Lemma template_safe :
  (forall st t (v : lit G) st', ok_lit st t v st' -> True) /\
  (forall st t (l : list (lit G)) st', ok_lits st t l st' -> True) /\
  (forall st ts (l : list (lit G)) st', ok_items st ts l st' -> True) /\
  (forall st (c : const) st', ok_const st c st' -> True) /\
  (forall st (l : list const) st', ok_consts st l st' -> True) /\
  (forall m st e st', ok_expr m st e st' -> U_expr m st e st') /\
  (forall m st l st', ok_exprs m st l st' -> U_exprs m st l st') /\
  (forall m st d st', ok_opt m st d st' -> U_opt m st d st') /\
  (forall st (t : tree G) st', ok_tree st t st' -> True) /\
  (forall h st (cs : list const) st', ok_seg h st cs st' -> True) /\
  (forall st (r : regval G) st', ok_reg st r st' -> True) /\
  (forall st (l : list (regval G)) st', ok_regs st l st' -> True) /\
  (forall st (c : cand G) st', ok_cand st c st' -> True) /\
  (forall st (b : box G) st', ok_box st b st' -> True).
Proof.
  apply ok_mutind; intros; try exact I;
    eauto using u_const, u_placeholder, u_exprs_nil, u_exprs_cons, u_none, u_some, u_op, u_bin_bools, u_bin, u_bools,
      u_seq, u_func, u_val_def, u_val_use, u_block, u_apply, u_method, u_prop.
Qed.

(** ** As many bytes as nodes *)
Definition atl (w : @W G) (n : Z) : Prop := forall y t, w None = Ok (y, t) -> t = None /\ n <= Zlen y.
Lemma atl_ret : forall b, atl (wret b) (Zlen b).
Proof. intros b y t E. injection E as <- <-. split; [reflexivity|lia]. Qed.
Lemma atl_put : forall r n, (forall b, r = Ok b -> n <= Zlen b) -> atl (wput r) n.
Proof. intros r n H y t E. unfold wput in E. destruct r as [b| |]; try discriminate. injection E as <- <-. auto. Qed.
Lemma atl_put0 : forall r, atl (wput r) 0.
Proof. intros r. apply atl_put. intros b _. apply Zlen_nonneg. Qed.
Lemma atl_cat : forall a b n m, atl a n -> atl b m -> atl (wcat a b) (n + m).
Proof.
  intros a b n m Ha Hb y t E. unfold wcat in E. destruct (a None) as [[x s]| |] eqn:Ea; try discriminate. cbn [bind] in E.
  destruct (Ha _ _ Ea) as [-> L1]. destruct (b None) as [[y' s2]| |] eqn:Eb; try discriminate. cbn [bind] in E.
  destruct (Hb _ _ Eb) as [-> L2]. injection E as <- <-. rewrite Zlen_app. split; [reflexivity|lia].
Qed.
Lemma atl_le : forall w n m, atl w n -> m <= n -> atl w m.
Proof. intros w n m H L y t E. destruct (H _ _ E). split; [assumption|lia]. Qed.


Lemma enough_bytes :
  (forall st t (v : lit G) st', ok_lit st t v st' -> True) /\
  (forall st t (l : list (lit G)) st', ok_lits st t l st' -> True) /\
  (forall st ts (l : list (lit G)) st', ok_items st ts l st' -> True) /\
  (forall st (c : const) st', ok_const st c st' -> True) /\
  (forall st (l : list const) st', ok_consts st l st' -> True) /\
  (forall m st e st', ok_expr (G := G) m st e st' -> atl (ser_expr e) (nodes e)) /\
  (forall m st l st', ok_exprs (G := G) m st l st' -> atl (wall ser_expr l) (total nodes l)) /\
  (forall m st d st', ok_opt (G := G) m st d st' -> atl (opt_w d) (onodes d)) /\
  (forall st (t : tree G) st', ok_tree st t st' -> True) /\
  (forall h st (cs : list const) st', ok_seg h st cs st' -> True) /\
  (forall st (r : regval G) st', ok_reg st r st' -> True) /\
  (forall st (l : list (regval G)) st', ok_regs st l st' -> True) /\
  (forall st (c : cand G) st', ok_cand st c st' -> True) /\
  (forall st (b : box G) st', ok_box st b st' -> True).
Proof.
  assert (KC : forall c : const, atl (ser_expr (EConst c)) 1).
  { intros [t v] y s E.
    change (ser_expr (EConst (MkConst t v)) None) with (x <- (a <- ser_type t ;; b <- ser_lit v ;; Ok (a ++ b)) ;; Ok (x, @None (list const))) in E.
    destruct (ser_type t) as [a| |] eqn:Et; try discriminate. destruct (ser_lit v) as [b| |]; try discriminate.
    cbn [bind] in E. injection E as <- <-. split; [reflexivity|].
    apply ser_type_nonempty in Et. rewrite Zlen_app. pose proof (Zlen_nonneg _ b). unfold Zlen in *. lia. }
  apply ok_mutind; intros; try exact I.
  - apply KC.
  - apply KC.
  - cbn [ser_expr nodes]. eapply atl_le; [apply atl_cat; [apply atl_ret|apply atl_put0]|]. rewrite Zlen_cons, Zlen_nil. lia.
  - rewrite se_op. change (nodes (EOp k p args d)) with (1 + (total nodes args + onodes d)).
    eapply atl_le; [apply atl_cat; [apply atl_ret|apply atl_cat; [eassumption|apply atl_cat; [apply atl_put0|]]]|].
    + instantiate (1 := onodes d). destruct (op_has_opt k); [assumption|]. rewrite H2 by reflexivity. apply (atl_ret []).
    + rewrite Zlen_cons, Zlen_nil. lia.
  - rewrite se_bin. cbn [bool_const bool_consts lit_bool nodes].
    eapply atl_le; [apply atl_cat; [apply atl_ret|apply (atl_put _ 2)]|rewrite Zlen_cons, Zlen_nil; lia].
    intros b E. destruct x, y; vm_compute in E; injection E as <-; vm_compute; discriminate.
  - rewrite se_bin. rewrite SerProofs.bool_consts_none by assumption. cbn [nodes].
    eapply atl_le; [apply atl_cat; [apply atl_ret|apply atl_cat; eassumption]|]. rewrite Zlen_cons, Zlen_nil. lia.
  - cbn [ser_expr nodes]. apply atl_put. intros b E.
    destruct (put_u16 (wrapu 16 (Zlen l))) as [n| |]; try discriminate. cbn [bind] in E.
    destruct (put_bits l) as [x| |]; try discriminate. cbn [bind] in E. injection E as <-.
    rewrite Zlen_cons. pose proof (Zlen_nonneg _ (n ++ x)). lia.
  - rewrite se_seq. cbn [nodes].
    apply atl_cat; [apply (atl_put _ 1)|eassumption].
    intros b E. destruct q; cbn [seq_prefix] in E.
    all: repeat match type of E with bind ?r _ = _ => destruct r; try discriminate; cbn [bind] in E end.
    all: injection E as <-; rewrite Zlen_cons; match goal with |- _ <= 1 + Zlen ?l => pose proof (Zlen_nonneg _ l) end; lia.
  - rewrite se_func. cbn [nodes].
    eapply atl_le; [apply atl_cat; [apply atl_ret|apply atl_cat; [apply atl_put0|eassumption]]|]. rewrite Zlen_cons, Zlen_nil. lia.
  - rewrite se_val_def. cbn [nodes].
    eapply atl_le; [apply atl_cat; [apply atl_ret|apply atl_cat; [apply atl_put0|eassumption]]|]. rewrite Zlen_cons, Zlen_nil. lia.
  - cbn [ser_expr nodes]. eapply atl_le; [apply atl_cat; [apply atl_ret|apply atl_put0]|]. rewrite Zlen_cons, Zlen_nil. lia.
  - rewrite se_block. cbn [nodes].
    eapply atl_le; [apply atl_cat; [apply atl_ret|apply atl_cat; [apply atl_put0|apply atl_cat; eassumption]]|]. rewrite Zlen_cons, Zlen_nil. lia.
  - rewrite se_apply. cbn [nodes].
    eapply atl_le; [apply atl_cat; [apply atl_ret|apply atl_cat; [eassumption|apply atl_cat; [apply atl_put0|eassumption]]]|]. rewrite Zlen_cons, Zlen_nil. lia.
  - rewrite se_method. cbn [nodes].
    eapply atl_le; [apply atl_cat; [apply atl_ret|apply atl_cat; [eassumption|apply atl_cat; [apply atl_put0|eassumption]]]|]. rewrite !Zlen_cons, Zlen_nil. lia.
  - rewrite se_prop. cbn [nodes].
    eapply atl_le; [apply atl_cat; [apply atl_ret|eassumption]|]. rewrite !Zlen_cons, Zlen_nil. lia.
  - apply (atl_ret []).
  - rewrite wall_cons, total_cons. apply atl_cat; assumption.
  - eapply atl_le; [apply atl_ret|]. cbn [onodes]. apply Zlen_nonneg.
  - cbn [opt_w onodes]. eapply atl_le; [apply atl_cat; [apply atl_ret|eassumption]|]. rewrite !Zlen_cons, Zlen_nil. lia.
Qed.

(** ** The proposition of a script that was read *)
Lemma proposition_safe : forall h cs (root : expr) st st' y,
  ok_expr false st root st' -> ser_expr root None = Ok (y, None) -> Zlen y <= 2 ^ 32 - 1 ->
  Forall read_const cs -> every node_read root ->
  proposition (Parsed h cs root) <> Panic /\
  (forall e, proposition (Parsed h cs root) = Ok e -> every node_read e /\ (every no_subst root -> every no_subst e) /\ nodes e = nodes root).
Proof.
  intros h cs root st st' y O E L Hc Hr. cbn [proposition].
  destruct (th_seg h); [|split; [discriminate|intros e X; injection X as <-; auto]].
  destruct enough_bytes as (_ & _ & _ & _ & _ & NB & _). pose proof (NB _ _ _ _ O _ _ E) as [_ Ln].
  destruct template_safe as (_ & _ & _ & _ & _ & TS & _).
  destruct (u_expr _ _ _ _ (TS _ _ _ _ O) []) as (bs & s' & Es & _ & R); [rewrite Zlen_nil; lia|].
  rewrite Es. cbn [bind]. specialize (R cs [] [] Hc). rewrite app_nil_r in R.
  destruct (parse_expr (RSt cs true []) bs) as [[[e st2] r]| |]; cbn [bind safe] in *.
  - split; [discriminate|]. intros e' X. injection X as <-. apply R.
  - split; discriminate.
  - contradiction.
Qed.
End Proofs.
