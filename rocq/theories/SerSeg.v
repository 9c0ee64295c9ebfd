(** Constant segregation: proofs. *)
From Verif Require Import Base VlqModel VlqProofs GroupModel GroupProofs SigmaModel.
From Verif Require Import TypeModel TypeProofs MethodModel IrModel SerModel SerLocal SerSpec SerProofs SerSegSpec.
Local Open Scope string_scope.
Local Open Scope list_scope.
Local Open Scope Z_scope.

Section Proofs.
Context {G : group} (HG : group_ok G).
Notation P := (@P G).
Notation PX := (@parse_expr G).
Notation expr := (expr G).
Notation const := (const G).
Notation rst := (@rst G).

Lemma wcat_any : forall (a b : @W G) x y, (forall s, a s = Ok (x, s)) -> (forall s, b s = Ok (y, s)) ->
  forall s, wcat a b s = Ok (x ++ y, s).
Proof. intros a b x y H1 H2 s. eapply wcat_step; auto. Qed.
Lemma wcat_hd : forall hd (b : @W G) y, (forall s, b s = Ok (y, s)) ->
  forall s, wcat (wret [hd]) b s = Ok (hd :: y, s).
Proof. intros hd b y H s. apply (wcat_any (wret [hd]) b [hd] y); [reflexivity|exact H]. Qed.
Lemma wput_any : forall (r : res bytes) x, r = Ok x -> forall s : @wst G, wput r s = Ok (x, s).
Proof. intros; subst; reflexivity. Qed.

Lemma bool_pair_spec : forall l r : expr, bool_pair l r = true <-> is_bool_const l /\ is_bool_const r.
Proof.
  intros l r. destruct l as [[t v]| | | | | | | | | | | |]; cbn; try tauto; try (split; [discriminate|tauto]).
  destruct t; cbn; try (split; [discriminate|tauto]).
  destruct r as [[t w]| | | | | | | | | | | |]; cbn; try (split; [discriminate|tauto]).
  destruct t; cbn; try tauto; try (split; [discriminate|tauto]).
Qed.
Lemma bool_pair_false : forall l r : expr, ~ (is_bool_const l /\ is_bool_const r) -> bool_pair l r = false.
Proof. intros l r H. destruct (bool_pair l r) eqn:E; [|reflexivity]. apply bool_pair_spec in E. tauto. Qed.

(** ** Scripts whose constants are all placeholders *)
Definition alike (cs cs' : list const) : Prop := map c_tpe cs' = map c_tpe cs.

Definition T_expr (m : bool) (st : rst) (e : expr) (st' : rst) : Prop :=
  m = false -> no_inline e -> rs_store st' = rs_store st /\
  exists hd bs, (forall s, ser_expr e s = Ok (hd :: bs, s)) /\ (hd = code_bools -> is_bools e) /\
    forall cs', alike (rs_store st) cs' -> tpe (fill cs' e) = tpe e /\
      forall rest, parse_tag PX hd (RSt cs' true (rs_types st)) (bs ++ rest) =
        Ok (fill cs' e, RSt cs' true (rs_types st'), rest).
Definition T_exprs (m : bool) (st : rst) (l : list expr) (st' : rst) : Prop :=
  m = false -> flat_map consts_of l = [] -> rs_store st' = rs_store st /\
  exists bs, (forall s, wall ser_expr l s = Ok (bs, s)) /\
    forall cs', alike (rs_store st) cs' -> map tpe (map (fill cs') l) = map tpe l /\
      forall rest, pread_n (List.length l) PX (RSt cs' true (rs_types st)) (bs ++ rest) =
        Ok (map (fill cs') l, RSt cs' true (rs_types st'), rest).
Definition fill_opt (cs : list const) (d : option expr) : option expr :=
  match d with Some x => Some (fill cs x) | None => None end.
Definition T_opt (m : bool) (st : rst) (d : option expr) (st' : rst) : Prop :=
  m = false -> match d with Some x => consts_of x | None => [] end = [] -> rs_store st' = rs_store st /\
  exists bs, (forall s, match d with Some x => wcat (wret [1]) (ser_expr x) | None => wret [0] end s = Ok (bs, s)) /\
    forall cs', alike (rs_store st) cs' -> option_map tpe (fill_opt cs' d) = option_map tpe d /\
      forall rest, popt PX (RSt cs' true (rs_types st)) (bs ++ rest) =
        Ok (fill_opt cs' d, RSt cs' true (rs_types st'), rest).

(** The whole-expression form. *)
Lemma t_expr : forall st e st', T_expr false st e st' -> no_inline e -> rs_store st' = rs_store st /\
  exists bs, (forall s, ser_expr e s = Ok (bs, s)) /\
    forall cs', alike (rs_store st) cs' -> tpe (fill cs' e) = tpe e /\
      forall rest, PX (RSt cs' true (rs_types st)) (bs ++ rest) =
        Ok (fill cs' e, RSt cs' true (rs_types st'), rest).
Proof.
  intros st e st' H Hn. destruct (H eq_refl Hn) as (Hs & hd & bs & E & _ & R). split; [exact Hs|].
  exists (hd :: bs). split; [exact E|]. intros cs' Hc. destruct (R cs' Hc) as [Ht Rp]. split; [exact Ht|].
  intros rest. rewrite parse_expr_eq. unfold step, pbind, lift. rewrite <- app_comm_cons. cbn [get_u8 bind]. apply Rp.
Qed.

Lemma alike_eq : forall s s' cs', s' = s -> alike s cs' -> alike s' cs'.
Proof. intros; subst; assumption. Qed.

Lemma alike_nth : forall (cs cs' : list const) i c, alike cs cs' -> nth_error cs i = Some c ->
  exists c', nth_error cs' i = Some c' /\ c_tpe c' = c_tpe c.
Proof.
  intros cs cs' i c H Hn. pose proof (map_nth_error c_tpe i cs Hn) as M. rewrite <- H in M.
  rewrite nth_error_map in M. destruct (nth_error cs' i) as [c'|]; [|discriminate]. injection M as M. eauto.
Qed.

Lemma t_placeholder : forall (st : rst) id c, u32 id -> rs_subst st = false ->
  nth_error (rs_store st) (Z.to_nat id) = Some c -> T_expr false st (EPlaceholder id (c_tpe c)) st.
Proof.
  intros st id c Hid _ Hc _ _. split; [reflexivity|]. destruct (get_put_u32 id Hid) as (b & E & R).
  exists code_placeholder, b. split; [apply wcat_hd, wput_any, E|]. split; [discriminate|].
  intros cs' Ha. destruct (alike_nth _ _ _ _ Ha Hc) as (c' & Hc' & Ht). cbn [fill]. rewrite Hc'. split; [exact Ht|].
  intros rest. change (parse_tag PX code_placeholder) with (@parse_placeholder G).
  unfold parse_placeholder. pstep R. unfold pbind, pstate. cbn [rs_store rs_subst]. rewrite Hc'. reflexivity.
Qed.

Lemma t_exprs_nil : forall m st, T_exprs m st [] st.
Proof.
  intros m st _ _. split; [reflexivity|]. exists []. split; [reflexivity|]. intros cs' _. split; reflexivity.
Qed.
Lemma t_exprs_cons : forall m st e l st1 st2, T_expr m st e st1 -> T_exprs m st1 l st2 -> T_exprs m st (e :: l) st2.
Proof.
  intros m st e l st1 st2 H1 H2 -> Hn. cbn [flat_map] in Hn. apply app_eq_nil in Hn. destruct Hn as [N1 N2].
  destruct (t_expr _ _ _ H1 N1) as (S1 & b1 & E1 & R1). destruct (H2 eq_refl N2) as (S2 & b2 & E2 & R2).
  split; [congruence|]. exists (b1 ++ b2). split; [rewrite wall_cons; apply wcat_any; assumption|].
  intros cs' Ha. destruct (R1 cs' Ha) as [T1 P1]. destruct (R2 cs' (alike_eq _ _ _ S1 Ha)) as [T2 P2].
  split; [cbn [map]; rewrite T1, T2; reflexivity|]. intros rest. cbn [List.length pread_n map]. papp.
  erewrite pbind_step; [|apply P1]. erewrite pbind_step; [|apply P2]. reflexivity.
Qed.
Lemma t_none : forall m st, T_opt m st None st.
Proof. intros m st _ _. split; [reflexivity|]. exists [0]. split; [reflexivity|]. intros cs' _. split; reflexivity. Qed.
Lemma t_some : forall m st e st', T_expr m st e st' -> T_opt m st (Some e) st'.
Proof.
  intros m st e st' H -> Hn. destruct (t_expr _ _ _ H Hn) as (S1 & b & E & R). split; [exact S1|].
  exists (1 :: b). split; [apply wcat_hd, E|]. intros cs' Ha. destruct (R cs' Ha) as [T1 P1].
  split; [cbn; rewrite T1; reflexivity|]. intros rest. unfold popt. rewrite <- app_comm_cons.
  pstep (get_u8_cons 1 (b ++ rest)). change (1 =? 0) with false. cbv iota. erewrite pbind_step; [|apply P1]. reflexivity.
Qed.

Lemma t_op : forall m st k p args d st1 st2 t,
  pay_kind p = op_pay k -> payload_ok p -> List.length args = op_arity k ->
  (op_has_opt k = false -> d = None) ->
  op_ty k p (map tpe args) (option_map tpe d) = Ok t ->
  T_exprs m st args st1 -> ok_opt m st1 d st2 -> T_opt m st1 d st2 -> T_expr m st (EOp k p args d) st2.
Proof.
  intros m st k p args d st1 st2 t Hk Hp Ha Hd Ht H1 Hok H2 -> Hn. unfold no_inline in Hn. cbn [consts_of] in Hn.
  apply app_eq_nil in Hn. destruct Hn as [N1 N2]. destruct (H1 eq_refl N1) as (S1 & b1 & E1 & R1).
  destruct (payload_rt _ _ Hk Hp) as (b2 & E2 & R2). destruct (H2 eq_refl N2) as (S2 & b3 & E3 & R3).
  split; [congruence|]. set (ob := if op_has_opt k then b3 else []).
  exists (op_code k), (b1 ++ b2 ++ ob). split.
  { intros s. rewrite se_op. apply wcat_hd. apply wcat_any; [exact E1|]. apply wcat_any; [apply wput_any, E2|].
    subst ob. destruct (op_has_opt k); [exact E3|reflexivity]. }
  split; [intros X; destruct (op_code_not_bools _ X)|]. intros cs' Hc.
  destruct (R1 cs' Hc) as [T1 P1]. destruct (R3 cs' (alike_eq _ _ _ S1 Hc)) as [T3 P3].
  assert (Ht' : op_ty k p (map tpe (map (fill cs') args)) (option_map tpe (fill_opt cs' d)) = Ok t)
    by (rewrite T1, T3; exact Ht).
  split.
  { cbn [fill tpe]. fold (fill_opt cs' d). fold (otpe (fill_opt cs' d)). fold (otpe d). rewrite !otpe_map, Ht', Ht. reflexivity. }
  intros rest. rewrite parse_tag_op. unfold parse_op.
  papp. rewrite <- Ha. erewrite pbind_step; [|apply P1]. pstep R2.
  assert (RO : forall rest, (if op_has_opt k then popt PX else pret None) (RSt cs' true (rs_types st1)) (ob ++ rest) =
     Ok (fill_opt cs' d, RSt cs' true (rs_types st2), rest)).
  { subst ob. intros rest'. destruct (op_has_opt k); [apply P3|].
    rewrite (Hd eq_refl) in *. inversion Hok; subst. reflexivity. }
  erewrite pbind_step; [|apply RO].
  erewrite pbind_step; [|apply of_res_step; rewrite otpe_map; exact Ht']. reflexivity.
Qed.

Lemma t_bin_bools : forall m st k x y, T_expr m st (EBin k (bool_const x) (bool_const y)) st.
Proof.
  intros m st k x y _ _. split; [reflexivity|]. destruct (get_put_bits [x; y]) as (b & E & R).
  exists (bin_code k), (code_bools :: b). split.
  { intros s. rewrite se_bin. cbn [bool_const bool_consts lit_bool]. apply wcat_hd. apply wput_any. rewrite E. reflexivity. }
  split; [intros X; destruct (bin_code_not_bools _ X)|]. intros cs' _. cbn [fill bool_const bool_pair].
  split; [reflexivity|]. intros rest. rewrite parse_tag_bin. rewrite <- app_comm_cons.
  unfold parse_bin. rewrite Z.eqb_refl. pstep R. reflexivity.
Qed.

Lemma t_bin : forall m st k l r st1 st2,
  ~ (is_bool_const l /\ is_bool_const r) -> ~ is_bools l ->
  T_expr m st l st1 -> T_expr m st1 r st2 -> T_expr m st (EBin k l r) st2.
Proof.
  intros m st k l r st1 st2 H0 Hl H1 H2 -> Hn. unfold no_inline in Hn. cbn [consts_of] in Hn.
  rewrite bool_pair_false in Hn by exact H0. apply app_eq_nil in Hn. destruct Hn as [N1 N2].
  destruct (H1 eq_refl N1) as (_ & c & b1 & E1 & Hc & _).
  destruct (t_expr _ _ _ H1 N1) as (S1 & b1' & E1' & R1).
  pose proof (E1' None) as X. rewrite E1 in X. injection X as <-.
  destruct (t_expr _ _ _ H2 N2) as (S2 & b2 & E2 & R2). split; [congruence|].
  exists (bin_code k), ((c :: b1) ++ b2). split.
  { intros s. rewrite se_bin. rewrite bool_consts_none by exact H0. apply wcat_hd. apply wcat_any; assumption. }
  split; [intros X; destruct (bin_code_not_bools _ X)|]. intros cs' Ha.
  destruct (R1 cs' Ha) as [T1 P1]. destruct (R2 cs' (alike_eq _ _ _ S1 Ha)) as [T2 P2].
  cbn [fill]. rewrite bool_pair_false by exact H0. split; [cbn [tpe]; rewrite T1; reflexivity|].
  intros rest. rewrite parse_tag_bin. papp.
  unfold parse_bin. replace (c =? code_bools) with false by (symmetry; apply Z.eqb_neq; intros X; auto).
  erewrite pbind_step; [|apply P1]. erewrite pbind_step; [|apply P2]. reflexivity.
Qed.

Lemma t_bools : forall m st l, Zlen l < 2 ^ 16 -> T_expr m st (EBools l) st.
Proof.
  intros m st l Hl _ _. split; [reflexivity|]. pose proof (Zlen_nonneg _ l).
  destruct (get_put_u16 (Zlen l)) as (nb & En & Rn); [unfold u16; lia|].
  destruct (get_put_bits l) as (b & E & R). exists code_bools, (nb ++ b). split.
  { intros s. cbn [ser_expr]. apply wput_step. rewrite wrapu_id by lia. rewrite En. cbn [bind]. rewrite E. reflexivity. }
  split; [intros _; exact I|]. intros cs' _. split; [reflexivity|].
  intros rest. change (parse_tag PX code_bools) with (@parse_bools G).
  unfold parse_bools. papp. pstep Rn. rewrite Zlen_nat. pstep R. reflexivity.
Qed.

Lemma t_vec : forall st l st', Zlen l < 2 ^ 32 -> T_exprs false st l st' -> flat_map consts_of l = [] ->
  rs_store st' = rs_store st /\
  exists nb bs, put_u32 (wrapu 32 (Zlen l)) = Ok nb /\ (forall s, wall ser_expr l s = Ok (bs, s)) /\
    forall cs', alike (rs_store st) cs' -> map tpe (map (fill cs') l) = map tpe l /\
      forall rest, pvec PX (RSt cs' true (rs_types st)) (nb ++ bs ++ rest) =
        Ok (map (fill cs') l, RSt cs' true (rs_types st'), rest).
Proof.
  intros st l st' Hl H Hn. pose proof (Zlen_nonneg _ l). destruct (H eq_refl Hn) as (S1 & bs & E & R).
  split; [exact S1|]. destruct (get_put_u32 (Zlen l)) as (nb & En & Rn); [unfold u32; lia|].
  exists nb, bs. rewrite wrapu_id by lia. split; [exact En|]. split; [exact E|]. intros cs' Ha.
  destruct (R cs' Ha) as [T1 P1]. split; [exact T1|]. intros rest. unfold pvec. pstep Rn. rewrite Zlen_nat. apply P1.
Qed.

Lemma t_seq : forall m st q l st' t, seq_ok q (Zlen l) -> seq_ty q (map tpe l) = Ok t ->
  T_exprs m st l st' -> T_expr m st (ESeq q l) st'.
Proof.
  intros m st q l st' t Hq Ht H -> Hn. unfold no_inline in Hn. cbn [consts_of] in Hn. pose proof (Zlen_nonneg _ l) as Hp.
  destruct (H eq_refl Hn) as (S1 & bs & E & R). split; [exact S1|].
  assert (TY : forall cs', alike (rs_store st) cs' -> seq_ty q (map tpe (map (fill cs') l)) = Ok t).
  { intros cs' Ha. destruct (R cs' Ha) as [T1 _]. rewrite T1. exact Ht. }
  assert (LN : forall cs', Zlen (map (fill cs') l) = Zlen l) by (intros; unfold Zlen; rewrite map_length; reflexivity).
  destruct q as [| | |u]; cbn [seq_ok] in Hq.
  - destruct (get_put_u8 (Zlen l)) as (nb & En & Rn).
    exists code_tuple, (nb ++ bs). split.
    { intros s. rewrite se_seq. cbn [seq_prefix]. rewrite wrapu_id by (change (2 ^ 8) with 256; lia). rewrite En. cbn [bind].
      apply (wcat_any _ _ (code_tuple :: nb) bs); [reflexivity|exact E]. }
    split; [discriminate|]. intros cs' Ha. split; [cbn [fill tpe]; rewrite (TY cs' Ha), Ht; reflexivity|].
    destruct (R cs' Ha) as [_ P1]. intros rest. change (parse_tag PX code_tuple) with (parse_tuple PX).
    unfold parse_tuple. papp. pstep Rn. rewrite Zlen_nat. erewrite pbind_step; [|apply P1].
    unfold pbounded. rewrite bounded_ok by (rewrite LN; exact Hq). reflexivity.
  - destruct (t_vec st l st') as (_ & nb & bs' & En & E' & R'); [change (2 ^ 32) with 4294967296; lia|exact H|exact Hn|].
    exists code_sigma_and, (nb ++ bs'). split.
    { intros s. rewrite se_seq. cbn [seq_prefix]. rewrite En. cbn [bind].
      apply (wcat_any _ _ (code_sigma_and :: nb) bs'); [reflexivity|exact E']. }
    split; [discriminate|]. intros cs' Ha. split; [cbn [fill tpe]; rewrite (TY cs' Ha), Ht; reflexivity|].
    destruct (R' cs' Ha) as [_ P1]. intros rest. change (parse_tag PX code_sigma_and) with (parse_sigma_seq PX QSigmaAnd).
    unfold parse_sigma_seq. papp. erewrite pbind_step; [|apply P1].
    erewrite pbind_step; [|apply of_res_step; apply (TY cs' Ha)].
    unfold pbounded. rewrite bounded_ok by (rewrite LN; exact Hq). reflexivity.
  - destruct (t_vec st l st') as (_ & nb & bs' & En & E' & R'); [change (2 ^ 32) with 4294967296; lia|exact H|exact Hn|].
    exists code_sigma_or, (nb ++ bs'). split.
    { intros s. rewrite se_seq. cbn [seq_prefix]. rewrite En. cbn [bind].
      apply (wcat_any _ _ (code_sigma_or :: nb) bs'); [reflexivity|exact E']. }
    split; [discriminate|]. intros cs' Ha. split; [cbn [fill tpe]; rewrite (TY cs' Ha), Ht; reflexivity|].
    destruct (R' cs' Ha) as [_ P1]. intros rest. change (parse_tag PX code_sigma_or) with (parse_sigma_seq PX QSigmaOr).
    unfold parse_sigma_seq. papp. erewrite pbind_step; [|apply P1].
    erewrite pbind_step; [|apply of_res_step; apply (TY cs' Ha)].
    unfold pbounded. rewrite bounded_ok by (rewrite LN; exact Hq). reflexivity.
  - destruct Hq as [Hn' Hu].
    destruct (get_put_u16 (Zlen l)) as (nb & En & Rn); [unfold u16; lia|]. destruct (type_rt u Hu) as (tb & Et & Rt).
    exists code_coll, (nb ++ tb ++ bs). split.
    { intros s. rewrite se_seq. cbn [seq_prefix]. rewrite wrapu_id by lia. rewrite En. cbn [bind]. rewrite Et. cbn [bind].
      rewrite app_assoc. apply (wcat_any _ _ (code_coll :: nb ++ tb) bs); [reflexivity|exact E]. }
    split; [discriminate|]. intros cs' Ha. split; [cbn [fill tpe]; rewrite (TY cs' Ha), Ht; reflexivity|].
    destruct (R cs' Ha) as [_ P1]. intros rest. change (parse_tag PX code_coll) with (parse_coll PX).
    unfold parse_coll. papp. pstep Rn. pstep Rt. rewrite Zlen_nat. erewrite pbind_step; [|apply P1]. reflexivity.
Qed.

Lemma insert_args_fields : forall args (st : rst),
  rs_store (insert_args args st) = rs_store st /\ rs_subst (insert_args args st) = rs_subst st.
Proof. induction args as [|a l IH]; intros st; [auto|]. cbn [insert_args fold_left]. apply (IH (insert_type (fst a) (snd a) st)). Qed.
Lemma insert_args_types : forall args (st : rst) (cs : list const) b,
  insert_args args (RSt cs b (rs_types st)) = RSt cs b (rs_types (insert_args args st)).
Proof.
  induction args as [|a l IH]; intros st cs b; [reflexivity|].
  change (insert_args (a :: l) ?s) with (insert_args l (insert_type (fst a) (snd a) s)).
  apply (IH (insert_type (fst a) (snd a) st)).
Qed.

Lemma t_func : forall m st args body st', Forall arg_ok args -> Zlen args < 2 ^ 32 ->
  T_expr m (insert_args args st) body st' -> T_expr m st (EFunc args body) st'.
Proof.
  intros m st args body st' Ha Hn H -> N. destruct (args_rt args Ha Hn) as (ab & Ea & Ra).
  destruct (t_expr _ _ _ H N) as (S1 & b & E & R). destruct (insert_args_fields args st) as [F1 _].
  rewrite F1 in *. split; [exact S1|]. exists code_func, (ab ++ b). split.
  { intros s. rewrite se_func. apply wcat_hd. apply wcat_any; [apply wput_any, Ea|exact E]. }
  split; [discriminate|]. intros cs' Hc. destruct (R cs' Hc) as [T1 P1].
  split; [cbn [fill tpe]; rewrite T1; reflexivity|].
  intros rest. change (parse_tag PX code_func) with (parse_func PX).
  unfold parse_func. papp. pstep Ra. erewrite pbind_step; [|reflexivity]. erewrite pbind_step; [|reflexivity].
  rewrite insert_args_types. erewrite pbind_step; [|apply P1]. reflexivity.
Qed.

Lemma t_val_def : forall m st id rhs st', u32 id -> T_expr m st rhs st' ->
  T_expr m st (EValDef id rhs) (insert_type id (tpe rhs) st').
Proof.
  intros m st id rhs st' Hid H -> N. destruct (get_put_u32 id Hid) as (ib & Ei & Ri).
  destruct (t_expr _ _ _ H N) as (S1 & b & E & R). split; [exact S1|]. exists code_val_def, (ib ++ b). split.
  { intros s. rewrite se_val_def. apply wcat_hd. apply wcat_any; [apply wput_any, Ei|exact E]. }
  split; [discriminate|]. intros cs' Hc. destruct (R cs' Hc) as [T1 P1]. split; [exact T1|].
  intros rest. change (parse_tag PX code_val_def) with (parse_val_def PX).
  unfold parse_val_def. papp. pstep Ri. erewrite pbind_step; [|apply P1]. erewrite pbind_step; [|reflexivity].
  rewrite T1. reflexivity.
Qed.

Lemma t_val_use : forall m (st : rst) id t, u32 id -> ty_lookup (rs_types st) id = Some t -> T_expr m st (EValUse id t) st.
Proof.
  intros m st id t Hid Ht _ _. split; [reflexivity|]. destruct (get_put_u32 id Hid) as (b & E & R).
  exists code_val_use, b. split.
  { intros s. cbn [ser_expr]. apply wcat_hd, wput_any, E. }
  split; [discriminate|]. intros cs' _. split; [reflexivity|].
  intros rest. change (parse_tag PX code_val_use) with (@parse_val_use G).
  unfold parse_val_use. pstep R. unfold pbind, pstate. cbn [rs_types]. rewrite Ht. reflexivity.
Qed.

Lemma t_block : forall m st items r st1 st2, Zlen items < 2 ^ 32 ->
  T_exprs m st items st1 -> T_expr m st1 r st2 -> T_expr m st (EBlock items r) st2.
Proof.
  intros m st items r st1 st2 Hn H1 H2 -> N. unfold no_inline in N. cbn [consts_of] in N.
  apply app_eq_nil in N. destruct N as [N1 N2]. destruct (t_vec _ _ _ Hn H1 N1) as (S1 & nb & bs & En & E & R).
  destruct (t_expr _ _ _ H2 N2) as (S2 & b & Eb & Rb). split; [congruence|]. exists code_block, (nb ++ bs ++ b). split.
  { intros s. rewrite se_block. apply wcat_hd. apply wcat_any; [apply wput_any, En|]. apply wcat_any; assumption. }
  split; [discriminate|]. intros cs' Hc. destruct (R cs' Hc) as [T1 P1].
  destruct (Rb cs' (alike_eq _ _ _ S1 Hc)) as [T2 P2]. split; [exact T2|].
  intros rest. change (parse_tag PX code_block) with (parse_block PX).
  unfold parse_block. papp. erewrite pbind_step; [|apply P1]. erewrite pbind_step; [|apply P2]. reflexivity.
Qed.

Lemma t_apply : forall m st f args st1 st2 t, Zlen args < 2 ^ 32 ->
  apply_ty (tpe f) (map tpe args) = Ok t ->
  T_expr m st f st1 -> T_exprs m st1 args st2 -> T_expr m st (EApply f args) st2.
Proof.
  intros m st f args st1 st2 t Hn Ht H1 H2 -> N. unfold no_inline in N. cbn [consts_of] in N.
  apply app_eq_nil in N. destruct N as [N1 N2]. destruct (t_vec _ _ _ Hn H2 N2) as (S2 & nb & bs & En & E & R).
  destruct (t_expr _ _ _ H1 N1) as (S1 & b & Eb & Rb). split; [congruence|]. exists code_apply, (b ++ nb ++ bs). split.
  { intros s. rewrite se_apply. apply wcat_hd. apply wcat_any; [exact Eb|]. apply wcat_any; [apply wput_any, En|exact E]. }
  split; [discriminate|]. intros cs' Hc. destruct (Rb cs' Hc) as [T1 P1].
  destruct (R cs' (alike_eq _ _ _ S1 Hc)) as [T2 P2]. split; [cbn [fill tpe]; rewrite T1, T2; reflexivity|].
  intros rest. change (parse_tag PX code_apply) with (parse_apply PX).
  unfold parse_apply. papp. erewrite pbind_step; [|apply P1]. erewrite pbind_step; [|apply P2].
  erewrite pbind_step; [|apply of_res_step; rewrite T1, T2; exact Ht]. reflexivity.
Qed.

Lemma t_method : forall m st g g0 obj args st1 st2, Zlen args < 2 ^ 32 ->
  from_ids (sm_code g) (sm_id g) = Ok g0 ->
  specialize_for g0 (tpe obj) (map tpe args) = Ok g ->
  sm_dom g = tpe obj :: map tpe args ->
  T_expr m st obj st1 -> T_exprs m st1 args st2 -> T_expr m st (EMethod g obj args) st2.
Proof.
  intros m st g g0 obj args st1 st2 Hn Hg Hs Hd H1 H2 -> N. unfold no_inline in N. cbn [consts_of] in N.
  apply app_eq_nil in N. destruct N as [N1 N2]. destruct (t_vec _ _ _ Hn H2 N2) as (S2 & nb & bs & En & E & R).
  destruct (t_expr _ _ _ H1 N1) as (S1 & b & Eb & Rb). split; [congruence|].
  exists code_method, ([sm_code g; sm_id g] ++ b ++ nb ++ bs). split.
  { intros s. rewrite se_method. apply (wcat_any _ _ [code_method; sm_code g; sm_id g] (b ++ nb ++ bs)); [reflexivity|].
    apply wcat_any; [exact Eb|]. apply wcat_any; [apply wput_any, En|exact E]. }
  split; [discriminate|]. intros cs' Hc. destruct (Rb cs' Hc) as [T1 P1].
  destruct (R cs' (alike_eq _ _ _ S1 Hc)) as [T2 P2]. split; [reflexivity|].
  intros rest. change (parse_tag PX code_method) with (parse_method PX).
  unfold parse_method. papp. cbn [app]. papp. destruct (from_ids_codes _ _ _ Hg) as [Hcd _].
  pstep (type_code_step _ (sm_id g :: b ++ nb ++ bs ++ rest) Hcd).
  pstep (get_u8_cons (sm_id g) (b ++ nb ++ bs ++ rest)).
  erewrite pbind_step; [|apply P1]. erewrite pbind_step; [|apply P2].
  erewrite pbind_step; [|apply of_res_step; rewrite Hg, T1, T2; exact Hs].
  unfold method_types_match. rewrite T1, T2, Hd, leqb_refl. reflexivity.
Qed.

Lemma t_prop : forall m st g g0 obj st',
  from_ids (sm_code g) (sm_id g) = Ok g0 ->
  specialize_for g0 (tpe obj) [] = Ok g ->
  sm_dom g = [tpe obj] ->
  T_expr m st obj st' -> T_expr m st (EProp g obj) st'.
Proof.
  intros m st g g0 obj st' Hg Hs Hd H1 -> N. destruct (t_expr _ _ _ H1 N) as (S1 & b & Eb & Rb). split; [exact S1|].
  exists code_prop, ([sm_code g; sm_id g] ++ b). split.
  { intros s. rewrite se_prop. apply (wcat_any _ _ [code_prop; sm_code g; sm_id g] b); [reflexivity|exact Eb]. }
  split; [discriminate|]. intros cs' Hc. destruct (Rb cs' Hc) as [T1 P1]. split; [reflexivity|].
  intros rest. change (parse_tag PX code_prop) with (parse_prop PX).
  unfold parse_prop. papp. cbn [app]. destruct (from_ids_codes _ _ _ Hg) as [Hcd _].
  pstep (type_code_step _ (sm_id g :: b ++ rest) Hcd). pstep (get_u8_cons (sm_id g) (b ++ rest)).
  erewrite pbind_step; [|apply P1].
  erewrite pbind_step; [|apply of_res_step; rewrite Hg, T1; exact Hs].
  unfold method_types_match. rewrite T1, Hd, leqb_refl. reflexivity.
Qed.

Lemma t_inline : forall st c st', T_expr false st (EConst c) st'.
Proof. intros st c st' _ H. discriminate H. Qed.

Theorem template_parse :
  (forall st t (v : lit G) st', ok_lit st t v st' -> True) /\
  (forall st t (l : list (lit G)) st', ok_lits st t l st' -> True) /\
  (forall st ts (l : list (lit G)) st', ok_items st ts l st' -> True) /\
  (forall st (c : const) st', ok_const st c st' -> True) /\
  (forall st (l : list const) st', ok_consts st l st' -> True) /\
  (forall m st e st', ok_expr m st e st' -> T_expr m st e st') /\
  (forall m st l st', ok_exprs m st l st' -> T_exprs m st l st') /\
  (forall m st d st', ok_opt m st d st' -> T_opt m st d st') /\
  (forall st (t : tree G) st', ok_tree st t st' -> True) /\
  (forall h st (cs : list const) st', ok_seg h st cs st' -> True) /\
  (forall st (r : regval G) st', ok_reg st r st' -> True) /\
  (forall st (l : list (regval G)) st', ok_regs st l st' -> True) /\
  (forall st (c : cand G) st', ok_cand st c st' -> True) /\
  (forall st (b : box G) st', ok_box st b st' -> True).
Proof.
  apply ok_mutind; intros; try exact I;
    eauto using t_placeholder, t_exprs_nil, t_exprs_cons, t_none, t_some, t_op, t_bin_bools, t_bin, t_bools,
      t_seq, t_func, t_val_def, t_val_use, t_block, t_apply, t_method, t_prop, t_inline.
  intros X. discriminate X.
Qed.
(** ** Moving the constants of an expression to a store *)

(** The store [S] holds [l] right after [cs0]. *)
Definition holds (S cs0 l : list const) : Prop := exists tl, S = cs0 ++ l ++ tl.

Lemma holds_app : forall S cs0 a b, holds S cs0 (a ++ b) -> holds S cs0 a /\ holds S (cs0 ++ a) b.
Proof.
  intros S cs0 a b [tl ->]. split; [exists (b ++ tl)|exists tl]; rewrite <- ?app_assoc; reflexivity.
Qed.

Definition S_expr (m : bool) (st : rst) (e : expr) (st' : rst) : Prop :=
  m = true -> forall S cs0, holds S cs0 (consts_of e) -> Zlen S < 2 ^ 32 ->
  let e' := abs (Zlen cs0) e in
  (exists bs, ser_expr e (Some cs0) = Ok (bs, Some (cs0 ++ consts_of e)) /\
              forall s, ser_expr e' s = Ok (bs, s)) /\
  tpe e' = tpe e /\
  ok_expr false (RSt S false (rs_types st)) e' (RSt S false (rs_types st')) /\
  no_inline e' /\ fill S e' = e.
Definition S_exprs (m : bool) (st : rst) (l : list expr) (st' : rst) : Prop :=
  m = true -> forall S cs0, holds S cs0 (flat_map consts_of l) -> Zlen S < 2 ^ 32 ->
  let l' := abs_list abs (Zlen cs0) l in
  (exists bs, wall ser_expr l (Some cs0) = Ok (bs, Some (cs0 ++ flat_map consts_of l)) /\
              forall s, wall ser_expr l' s = Ok (bs, s)) /\
  map tpe l' = map tpe l /\
  ok_exprs false (RSt S false (rs_types st)) l' (RSt S false (rs_types st')) /\
  flat_map consts_of l' = [] /\ map (fill S) l' = l.
Definition opt_consts (d : option expr) : list const := match d with Some x => consts_of x | None => [] end.
Definition abs_opt (n : Z) (d : option expr) : option expr :=
  match d with Some x => Some (abs n x) | None => None end.
Definition opt_w (d : option expr) : @W G :=
  match d with Some x => wcat (wret [1]) (ser_expr x) | None => wret [0] end.
Definition S_opt (m : bool) (st : rst) (d : option expr) (st' : rst) : Prop :=
  m = true -> forall S cs0, holds S cs0 (opt_consts d) -> Zlen S < 2 ^ 32 ->
  let d' := abs_opt (Zlen cs0) d in
  (exists bs, opt_w d (Some cs0) = Ok (bs, Some (cs0 ++ opt_consts d)) /\
              forall s, opt_w d' s = Ok (bs, s)) /\
  option_map tpe d' = option_map tpe d /\
  ok_opt false (RSt S false (rs_types st)) d' (RSt S false (rs_types st')) /\
  opt_consts d' = [] /\ fill_opt S d' = d.

Lemma abs_list_length : forall (l : list expr) n, List.length (abs_list abs n l) = List.length l.
Proof. induction l as [|x l IH]; intros n; [reflexivity|]. cbn [abs_list List.length]. f_equal. apply IH. Qed.
Lemma abs_list_Zlen : forall (l : list expr) n, Zlen (abs_list abs n l) = Zlen l.
Proof. intros. unfold Zlen. rewrite abs_list_length. reflexivity. Qed.

Lemma abs_not_bools : forall n (e : expr), ~ is_bools e -> ~ is_bools (abs n e).
Proof.
  intros n e H. destruct e; cbn; try tauto; try (intros []).
  cbn in H. destruct (bool_pair _ _); cbn; tauto.
Qed.
Lemma abs_not_const : forall n (e : expr), ~ is_bool_const (abs n e).
Proof. intros n e H. destruct e; cbn in H; try contradiction. destruct (bool_pair _ _); contradiction. Qed.
Lemma abs_bool_pair : forall n (e r : expr), bool_pair (abs n e) r = false.
Proof. intros. apply bool_pair_false. intros [H _]. exact (abs_not_const _ _ H). Qed.
Lemma abs_bool_consts : forall n (e r : expr), bool_consts (abs n e) r = None.
Proof. intros. apply bool_consts_none. intros [H _]. exact (abs_not_const _ _ H). Qed.

Lemma nil_holds : forall (cs0 : list const), cs0 ++ [] = cs0.
Proof. intros. apply app_nil_r. Qed.

Lemma s_segregated : forall st c, S_expr true st (EConst c) st.
Proof.
  intros st c _ S cs0 [tl ->] HS. cbn [abs consts_of] in *. pose proof (Zlen_nonneg _ cs0) as H0.
  pose proof (Zlen_nonneg _ tl) as H1. rewrite !Zlen_app, Zlen_cons, Zlen_nil in HS.
  destruct (get_put_u32 (Zlen cs0)) as (b & E & _); [unfold u32; lia|].
  split; [exists (code_placeholder :: b); split|].
  - rewrite se_const. unfold put_const. replace (Zlen cs0 + 1 <=? 2 ^ 32 - 1) with true by lia. rewrite E. reflexivity.
  - apply wcat_hd, wput_any, E.
  - assert (N : nth_error (cs0 ++ [c] ++ tl) (Z.to_nat (Zlen cs0)) = Some c).
    { rewrite Zlen_nat, nth_error_app2, Nat.sub_diag by lia. reflexivity. }
    split; [reflexivity|]. split; [|split; [reflexivity|cbn [fill]; rewrite N; reflexivity]].
    apply (ok_placeholder _ (Zlen cs0) c); [unfold u32; lia|reflexivity|exact N].
Qed.

Lemma s_nil : forall m st, S_exprs m st [] st.
Proof.
  intros m st -> S cs0 _ _. cbn. split; [exists []; rewrite app_nil_r; split; reflexivity|].
  split; [reflexivity|]. split; [constructor|]. split; reflexivity.
Qed.
Lemma s_cons : forall m st e l st1 st2, S_expr m st e st1 -> S_exprs m st1 l st2 -> S_exprs m st (e :: l) st2.
Proof.
  intros m st e l st1 st2 H1 H2 -> S cs0 Hh HS. cbn [flat_map abs_list] in *. apply holds_app in Hh. destruct Hh as [Ha Hb].
  destruct (H1 eq_refl S _ Ha HS) as ((b1 & E1 & F1) & T1 & O1 & N1 & L1).
  destruct (H2 eq_refl S _ Hb HS) as ((b2 & E2 & F2) & T2 & O2 & N2 & L2).
  rewrite Zlen_app in *. fold (@abs_list G abs).
  split; [exists (b1 ++ b2); split|].
  - rewrite wall_cons. rewrite app_assoc. eapply wcat_step; eassumption.
  - rewrite wall_cons. apply wcat_any; assumption.
  - split; [cbn [map]; rewrite T1, T2; reflexivity|]. split; [econstructor; eassumption|].
    split; [cbn [flat_map]; rewrite N1, N2; reflexivity|]. cbn [map]. rewrite L1, L2. reflexivity.
Qed.
Lemma s_none : forall m st, S_opt m st None st.
Proof.
  intros m st -> S cs0 _ _. cbn. split; [exists [0]; rewrite app_nil_r; split; reflexivity|].
  split; [reflexivity|]. split; [constructor|]. split; reflexivity.
Qed.
Lemma s_some : forall m st e st', S_expr m st e st' -> S_opt m st (Some e) st'.
Proof.
  intros m st e st' H -> S cs0 Hh HS. cbn [opt_consts abs_opt] in *.
  destruct (H eq_refl S _ Hh HS) as ((b1 & E1 & F1) & T1 & O1 & N1 & L1).
  split; [exists (1 :: b1); split|].
  - apply (wcat_step _ _ (Some cs0) [1] (Some cs0) b1); [reflexivity|exact E1].
  - apply wcat_hd, F1.
  - split; [cbn; rewrite T1; reflexivity|]. split; [econstructor; eassumption|].
    split; [exact N1|]. cbn. rewrite L1. reflexivity.
Qed.

Lemma s_op : forall m st k p args d st1 st2 t,
  pay_kind p = op_pay k -> payload_ok p -> List.length args = op_arity k ->
  (op_has_opt k = false -> d = None) ->
  op_ty k p (map tpe args) (option_map tpe d) = Ok t ->
  S_exprs m st args st1 -> S_opt m st1 d st2 -> S_expr m st (EOp k p args d) st2.
Proof.
  intros m st k p args d st1 st2 t Hk Hp Ha Hd Ht H1 H2 -> S cs0 Hh HS. cbn [consts_of abs] in *.
  fold (opt_consts d) in *. fold (abs_opt (Zlen cs0 + Zlen (flat_map consts_of args)) d).
  apply holds_app in Hh. destruct Hh as [Hx Hy].
  destruct (H1 eq_refl S _ Hx HS) as ((b1 & E1 & F1) & T1 & O1 & N1 & L1).
  destruct (H2 eq_refl S _ Hy HS) as ((b2 & E2 & F2) & T2 & O2 & N2 & L2).
  rewrite Zlen_app in *. destruct (payload_rt _ _ Hk Hp) as (pb & Ep & _).
  set (ob := if op_has_opt k then b2 else []).
  split; [exists (op_code k :: b1 ++ pb ++ ob); split|].
  - rewrite se_op. apply (wcat_step _ _ (Some cs0) [op_code k] (Some cs0) (b1 ++ pb ++ ob)); [reflexivity|].
    eapply wcat_step; [exact E1|]. eapply wcat_step; [apply wput_any, Ep|].
    fold (opt_w d). subst ob. rewrite app_assoc. destruct (op_has_opt k); [exact E2|].
    rewrite (Hd eq_refl). cbn [opt_consts]. rewrite app_nil_r. reflexivity.
  - intros s. rewrite se_op. apply wcat_hd. apply wcat_any; [exact F1|]. apply wcat_any; [apply wput_any, Ep|].
    subst ob. destruct (op_has_opt k); [exact F2|]. reflexivity.
  - split.
    { cbn [tpe]. fold (otpe d). fold (otpe (abs_opt (Zlen cs0 + Zlen (flat_map consts_of args)) d)).
      rewrite !otpe_map, T1, T2. reflexivity. }
    split.
    { eapply ok_op; [exact Hk|exact Hp|rewrite abs_list_length; exact Ha| |rewrite T1, T2; exact Ht|exact O1|exact O2].
      intros X. rewrite (Hd X). reflexivity. }
    split; [unfold no_inline; cbn [consts_of]; rewrite N1; exact N2|].
    cbn [fill]. rewrite L1. f_equal. exact L2.
Qed.

Lemma s_bin_bools : forall m st k x y, S_expr m st (EBin k (bool_const x) (bool_const y)) st.
Proof.
  intros m st k x y -> S cs0 _ _. cbn [consts_of abs bool_const bool_pair]. rewrite app_nil_r.
  destruct (get_put_bits [x; y]) as (b & E & _).
  assert (F : forall s : @wst G, ser_expr (EBin k (bool_const x) (bool_const y)) s = Ok (bin_code k :: code_bools :: b, s)).
  { intros s. rewrite se_bin. cbn [bool_const bool_consts lit_bool]. apply wcat_hd. apply wput_any. rewrite E. reflexivity. }
  split; [exists (bin_code k :: code_bools :: b); split; [apply F|exact F]|].
  split; [reflexivity|]. split; [apply ok_bin_bools|]. split; reflexivity.
Qed.

Lemma s_bin : forall m st k l r st1 st2,
  ~ (is_bool_const l /\ is_bool_const r) -> ~ is_bools l ->
  S_expr m st l st1 -> S_expr m st1 r st2 -> S_expr m st (EBin k l r) st2.
Proof.
  intros m st k l r st1 st2 H0 Hl H1 H2 -> S cs0 Hh HS. cbn [consts_of abs] in *.
  rewrite bool_pair_false in * by exact H0. apply holds_app in Hh. destruct Hh as [Hx Hy].
  destruct (H1 eq_refl S _ Hx HS) as ((b1 & E1 & F1) & T1 & O1 & N1 & L1).
  destruct (H2 eq_refl S _ Hy HS) as ((b2 & E2 & F2) & T2 & O2 & N2 & L2).
  rewrite Zlen_app in *.
  split; [exists (bin_code k :: b1 ++ b2); split|].
  - rewrite se_bin. rewrite bool_consts_none by exact H0.
    apply (wcat_step _ _ (Some cs0) [bin_code k] (Some cs0) (b1 ++ b2)); [reflexivity|].
    rewrite app_assoc. eapply wcat_step; eassumption.
  - intros s. rewrite se_bin. rewrite abs_bool_consts. apply wcat_hd. apply wcat_any; assumption.
  - split; [cbn [tpe]; rewrite T1; reflexivity|].
    split; [eapply ok_bin; [intros [X _]; exact (abs_not_const _ _ X)|apply abs_not_bools, Hl|exact O1|exact O2]|].
    split; [unfold no_inline; cbn [consts_of]; rewrite abs_bool_pair, N1, N2; reflexivity|].
    cbn [fill]. rewrite abs_bool_pair, L1, L2. reflexivity.
Qed.

Lemma s_bools : forall m st l, Zlen l < 2 ^ 16 -> S_expr m st (EBools l) st.
Proof.
  intros m st l Hl -> S cs0 _ _. cbn [consts_of abs]. rewrite app_nil_r. pose proof (Zlen_nonneg _ l).
  destruct (get_put_u16 (Zlen l)) as (nb & En & Rn); [unfold u16; lia|].
  destruct (get_put_bits l) as (b & E & R).
  assert (F : forall s : @wst G, ser_expr (EBools l) s = Ok (code_bools :: nb ++ b, s)).
  { intros s. cbn [ser_expr]. apply wput_step. rewrite wrapu_id by lia. rewrite En. cbn [bind]. rewrite E. reflexivity. }
  split; [exists (code_bools :: nb ++ b); split; [apply F|exact F]|].
  split; [reflexivity|]. split; [apply ok_bools, Hl|]. split; reflexivity.
Qed.

Lemma seq_prefix_ok : forall q n, 0 <= n -> seq_ok q n -> exists b, seq_prefix q n = Ok b.
Proof.
  intros q n Hn Hq. destruct q as [| | |u]; cbn [seq_ok seq_prefix] in *.
  - eexists. reflexivity.
  - destruct (get_put_u32 (wrapu 32 n)) as (b & E & _); [unfold wrapu, u32; apply Z.mod_pos_bound; reflexivity|].
    rewrite E. eexists. reflexivity.
  - destruct (get_put_u32 (wrapu 32 n)) as (b & E & _); [unfold wrapu, u32; apply Z.mod_pos_bound; reflexivity|].
    rewrite E. eexists. reflexivity.
  - destruct Hq as [Hl Hu]. destruct (get_put_u16 n) as (b & E & _); [unfold u16; lia|].
    destruct (type_rt u Hu) as (tb & Et & _). rewrite wrapu_id by lia. rewrite E, Et. eexists. reflexivity.
Qed.

Lemma s_seq : forall m st q l st' t, seq_ok q (Zlen l) -> seq_ty q (map tpe l) = Ok t ->
  S_exprs m st l st' -> S_expr m st (ESeq q l) st'.
Proof.
  intros m st q l st' t Hq Ht H -> S cs0 Hh HS. cbn [consts_of abs] in *.
  destruct (H eq_refl S _ Hh HS) as ((b1 & E1 & F1) & T1 & O1 & N1 & L1).
  destruct (seq_prefix_ok q (Zlen l) (Zlen_nonneg _ l) Hq) as (pb & Ep).
  split; [exists (pb ++ b1); split|].
  - rewrite se_seq, Ep. eapply wcat_step; [apply wput_any; reflexivity|exact E1].
  - intros s. rewrite se_seq, abs_list_Zlen, Ep. apply wcat_any; [apply wput_any; reflexivity|exact F1].
  - split; [cbn [tpe]; rewrite T1; reflexivity|].
    split; [eapply ok_seq; [rewrite abs_list_Zlen; exact Hq|rewrite T1; exact Ht|exact O1]|].
    split; [exact N1|]. cbn [fill]. rewrite L1. reflexivity.
Qed.

Lemma s_func : forall m st args body st', Forall arg_ok args -> Zlen args < 2 ^ 32 ->
  S_expr m (insert_args args st) body st' -> S_expr m st (EFunc args body) st'.
Proof.
  intros m st args body st' Ha Hn H -> S cs0 Hh HS. cbn [consts_of abs] in *.
  destruct (H eq_refl S _ Hh HS) as ((b1 & E1 & F1) & T1 & O1 & N1 & L1).
  destruct (args_rt args Ha Hn) as (ab & Ea & _).
  split; [exists (code_func :: ab ++ b1); split|].
  - rewrite se_func. apply (wcat_step _ _ (Some cs0) [code_func] (Some cs0) (ab ++ b1)); [reflexivity|].
    eapply wcat_step; [apply wput_any, Ea|exact E1].
  - intros s. rewrite se_func. apply wcat_hd. apply wcat_any; [apply wput_any, Ea|exact F1].
  - split; [cbn [tpe]; rewrite T1; reflexivity|].
    split; [eapply ok_func; [exact Ha|exact Hn|rewrite insert_args_types; exact O1]|].
    split; [exact N1|]. cbn [fill]. rewrite L1. reflexivity.
Qed.

Lemma s_val_def : forall m st id rhs st', u32 id -> S_expr m st rhs st' ->
  S_expr m st (EValDef id rhs) (insert_type id (tpe rhs) st').
Proof.
  intros m st id rhs st' Hid H -> S cs0 Hh HS. cbn [consts_of abs] in *.
  destruct (H eq_refl S _ Hh HS) as ((b1 & E1 & F1) & T1 & O1 & N1 & L1).
  destruct (get_put_u32 id Hid) as (ib & Ei & _).
  split; [exists (code_val_def :: ib ++ b1); split|].
  - rewrite se_val_def. apply (wcat_step _ _ (Some cs0) [code_val_def] (Some cs0) (ib ++ b1)); [reflexivity|].
    eapply wcat_step; [apply wput_any, Ei|exact E1].
  - intros s. rewrite se_val_def. apply wcat_hd. apply wcat_any; [apply wput_any, Ei|exact F1].
  - split; [exact T1|].
    split; [|split; [exact N1|cbn [fill]; rewrite L1; reflexivity]].
    rewrite <- T1. exact (ok_val_def false _ id _ _ Hid O1).
Qed.

Lemma s_val_use : forall m (st : rst) id t, u32 id -> ty_lookup (rs_types st) id = Some t -> S_expr m st (EValUse id t) st.
Proof.
  intros m st id t Hid Ht -> S cs0 _ _. cbn [consts_of abs]. rewrite app_nil_r.
  destruct (get_put_u32 id Hid) as (b & E & _).
  assert (F : forall s : @wst G, ser_expr (EValUse id t) s = Ok (code_val_use :: b, s)).
  { intros s. cbn [ser_expr]. apply wcat_hd, wput_any, E. }
  split; [exists (code_val_use :: b); split; [apply F|exact F]|].
  split; [reflexivity|]. split; [apply ok_val_use; assumption|]. split; reflexivity.
Qed.

Lemma s_block : forall m st items r st1 st2, Zlen items < 2 ^ 32 ->
  S_exprs m st items st1 -> S_expr m st1 r st2 -> S_expr m st (EBlock items r) st2.
Proof.
  intros m st items r st1 st2 Hn H1 H2 -> S cs0 Hh HS. cbn [consts_of abs] in *.
  apply holds_app in Hh. destruct Hh as [Hx Hy].
  destruct (H1 eq_refl S _ Hx HS) as ((b1 & E1 & F1) & T1 & O1 & N1 & L1).
  destruct (H2 eq_refl S _ Hy HS) as ((b2 & E2 & F2) & T2 & O2 & N2 & L2).
  rewrite Zlen_app in *. pose proof (Zlen_nonneg _ items).
  destruct (get_put_u32 (Zlen items)) as (nb & En & _); [unfold u32; lia|].
  split; [exists (code_block :: nb ++ b1 ++ b2); split|].
  - rewrite se_block. rewrite wrapu_id by lia.
    apply (wcat_step _ _ (Some cs0) [code_block] (Some cs0) (nb ++ b1 ++ b2)); [reflexivity|].
    eapply wcat_step; [apply wput_any, En|]. rewrite (app_assoc cs0). eapply wcat_step; eassumption.
  - intros s. rewrite se_block, abs_list_Zlen. rewrite wrapu_id by lia. apply wcat_hd. apply wcat_any; [apply wput_any, En|].
    apply wcat_any; assumption.
  - split; [exact T2|]. split; [eapply ok_block; [rewrite abs_list_Zlen; exact Hn|exact O1|exact O2]|].
    split; [unfold no_inline; cbn [consts_of]; rewrite N1, N2; reflexivity|]. cbn [fill]. rewrite L1, L2. reflexivity.
Qed.

Lemma s_apply : forall m st f args st1 st2 t, Zlen args < 2 ^ 32 ->
  apply_ty (tpe f) (map tpe args) = Ok t ->
  S_expr m st f st1 -> S_exprs m st1 args st2 -> S_expr m st (EApply f args) st2.
Proof.
  intros m st f args st1 st2 t Hn Ht H1 H2 -> S cs0 Hh HS. cbn [consts_of abs] in *.
  apply holds_app in Hh. destruct Hh as [Hx Hy].
  destruct (H1 eq_refl S _ Hx HS) as ((b1 & E1 & F1) & T1 & O1 & N1 & L1).
  destruct (H2 eq_refl S _ Hy HS) as ((b2 & E2 & F2) & T2 & O2 & N2 & L2).
  rewrite Zlen_app in *. pose proof (Zlen_nonneg _ args).
  destruct (get_put_u32 (Zlen args)) as (nb & En & _); [unfold u32; lia|].
  split; [exists (code_apply :: b1 ++ nb ++ b2); split|].
  - rewrite se_apply. rewrite wrapu_id by lia.
    apply (wcat_step _ _ (Some cs0) [code_apply] (Some cs0) (b1 ++ nb ++ b2)); [reflexivity|].
    rewrite (app_assoc cs0). eapply wcat_step; [exact E1|]. eapply wcat_step; [apply wput_any, En|exact E2].
  - intros s. rewrite se_apply, abs_list_Zlen. rewrite wrapu_id by lia. apply wcat_hd. apply wcat_any; [exact F1|].
    apply wcat_any; [apply wput_any, En|exact F2].
  - split; [cbn [tpe]; rewrite T1, T2; reflexivity|].
    split; [eapply ok_apply; [rewrite abs_list_Zlen; exact Hn|rewrite T1, T2; exact Ht|exact O1|exact O2]|].
    split; [unfold no_inline; cbn [consts_of]; rewrite N1, N2; reflexivity|]. cbn [fill]. rewrite L1, L2. reflexivity.
Qed.

Lemma s_method : forall m st g g0 obj args st1 st2, Zlen args < 2 ^ 32 ->
  from_ids (sm_code g) (sm_id g) = Ok g0 ->
  specialize_for g0 (tpe obj) (map tpe args) = Ok g ->
  sm_dom g = tpe obj :: map tpe args ->
  S_expr m st obj st1 -> S_exprs m st1 args st2 -> S_expr m st (EMethod g obj args) st2.
Proof.
  intros m st g g0 obj args st1 st2 Hn Hg Hs Hd H1 H2 -> S cs0 Hh HS. cbn [consts_of abs] in *.
  apply holds_app in Hh. destruct Hh as [Hx Hy].
  destruct (H1 eq_refl S _ Hx HS) as ((b1 & E1 & F1) & T1 & O1 & N1 & L1).
  destruct (H2 eq_refl S _ Hy HS) as ((b2 & E2 & F2) & T2 & O2 & N2 & L2).
  rewrite Zlen_app in *. pose proof (Zlen_nonneg _ args).
  destruct (get_put_u32 (Zlen args)) as (nb & En & _); [unfold u32; lia|].
  split; [exists ([code_method; sm_code g; sm_id g] ++ b1 ++ nb ++ b2); split|].
  - rewrite se_method. rewrite wrapu_id by lia.
    eapply wcat_step; [reflexivity|].
    rewrite (app_assoc cs0). eapply wcat_step; [exact E1|]. eapply wcat_step; [apply wput_any, En|exact E2].
  - intros s. rewrite se_method, abs_list_Zlen. rewrite wrapu_id by lia. apply wcat_any; [reflexivity|].
    apply wcat_any; [exact F1|]. apply wcat_any; [apply wput_any, En|exact F2].
  - split; [reflexivity|].
    split; [eapply ok_method; [rewrite abs_list_Zlen; exact Hn|exact Hg|rewrite T1, T2; exact Hs|rewrite T1, T2; exact Hd|exact O1|exact O2]|].
    split; [unfold no_inline; cbn [consts_of]; rewrite N1, N2; reflexivity|]. cbn [fill]. rewrite L1, L2. reflexivity.
Qed.

Lemma s_prop : forall m st g g0 obj st',
  from_ids (sm_code g) (sm_id g) = Ok g0 ->
  specialize_for g0 (tpe obj) [] = Ok g ->
  sm_dom g = [tpe obj] ->
  S_expr m st obj st' -> S_expr m st (EProp g obj) st'.
Proof.
  intros m st g g0 obj st' Hg Hs Hd H -> S cs0 Hh HS. cbn [consts_of abs] in *.
  destruct (H eq_refl S _ Hh HS) as ((b1 & E1 & F1) & T1 & O1 & N1 & L1).
  split; [exists ([code_prop; sm_code g; sm_id g] ++ b1); split|].
  - rewrite se_prop. eapply wcat_step; [reflexivity|exact E1].
  - intros s. rewrite se_prop. apply wcat_any; [reflexivity|exact F1].
  - split; [reflexivity|].
    split; [eapply ok_prop; [exact Hg|rewrite T1; exact Hs|rewrite T1; exact Hd|exact O1]|].
    split; [exact N1|]. cbn [fill]. rewrite L1. reflexivity.
Qed.

Theorem segregate :
  (forall st t (v : lit G) st', ok_lit st t v st' -> True) /\
  (forall st t (l : list (lit G)) st', ok_lits st t l st' -> True) /\
  (forall st ts (l : list (lit G)) st', ok_items st ts l st' -> True) /\
  (forall st (c : const) st', ok_const st c st' -> True) /\
  (forall st (l : list const) st', ok_consts st l st' -> True) /\
  (forall m st e st', ok_expr m st e st' -> S_expr m st e st') /\
  (forall m st l st', ok_exprs m st l st' -> S_exprs m st l st') /\
  (forall m st d st', ok_opt m st d st' -> S_opt m st d st') /\
  (forall st (t : tree G) st', ok_tree st t st' -> True) /\
  (forall h st (cs : list const) st', ok_seg h st cs st' -> True) /\
  (forall st (r : regval G) st', ok_reg st r st' -> True) /\
  (forall st (l : list (regval G)) st', ok_regs st l st' -> True) /\
  (forall st (c : cand G) st', ok_cand st c st' -> True) /\
  (forall st (b : box G) st', ok_box st b st' -> True).
Proof.
  apply ok_mutind; intros; try exact I; try (intros X; discriminate X);
    eauto using s_segregated, s_nil, s_cons, s_none, s_some, s_op, s_bin_bools, s_bin, s_bools,
      s_seq, s_func, s_val_def, s_val_use, s_block, s_apply, s_method, s_prop.
Qed.

(** The root built for an expression, and its use. *)
Lemma new_segregated_ok : forall (e : expr) st' tl, ok_expr true fresh e st' -> Zlen (consts_of e ++ tl) < 2 ^ 32 ->
  ok_expr false (RSt (consts_of e ++ tl) false []) (abs 0 e) (RSt (consts_of e ++ tl) false (rs_types st')) /\
  no_inline (abs 0 e).
Proof.
  intros e st' tl H HL. destruct segregate as (_ & _ & _ & _ & _ & R & _).
  destruct (R _ _ _ _ H eq_refl (consts_of e ++ tl) []) as (_ & _ & O & N & _).
  - exists tl. reflexivity.
  - exact HL.
  - split; assumption.
Qed.

Lemma new_segregated : forall (e : expr) st', ok_expr true fresh e st' -> Zlen (consts_of e) < 2 ^ 32 ->
  exists bs, ser_expr e (Some []) = Ok (bs, Some (consts_of e)) /\
    parse_expr (RSt (consts_of e) false []) bs = Ok (abs 0 e, RSt (consts_of e) false (rs_types st'), []) /\
    (forall s, ser_expr (abs 0 e) s = Ok (bs, s)) /\
    ok_expr false (RSt (consts_of e) false []) (abs 0 e) (RSt (consts_of e) false (rs_types st')) /\
    no_inline (abs 0 e) /\ fill (consts_of e) (abs 0 e) = e.
Proof.
  intros e st' H HL. destruct segregate as (_ & _ & _ & _ & _ & R & _).
  destruct (R _ _ _ _ H eq_refl (consts_of e) []) as ((bs & E & F) & _ & O & N & L).
  - exists []. rewrite app_nil_r. reflexivity.
  - exact HL.
  - cbn [app] in *. change (Zlen []) with 0 in *. exists bs. split; [exact E|]. split; [|auto].
    destruct (ok_roundtrip HG) as (_ & _ & _ & _ & _ & Q & _).
    destruct (expr_rt _ _ _ (Q _ _ _ _ O)) as (bs' & E' & _ & P'). rewrite F in E'. injection E' as <-.
    specialize (P' []). rewrite app_nil_r in P'. exact P'.
Qed.

Lemma fill_proposition : forall cs cs' (root : expr) st', ok_expr false (RSt cs false []) root st' ->
  no_inline root -> map c_tpe cs' = map c_tpe cs ->
  ('(data, _) <- ser_expr root (Some []) ;; '(e, _, _) <- parse_expr (RSt cs' true []) data ;; Ok e) = Ok (fill cs' root).
Proof.
  intros cs cs' root st' O N Hm. destruct template_parse as (_ & _ & _ & _ & _ & T & _).
  destruct (t_expr _ _ _ (T _ _ _ _ O) N) as (_ & bs & E & R). rewrite E. cbn [bind].
  destruct (R cs' Hm) as [_ P]. specialize (P []). rewrite app_nil_r in P. cbn [rs_types] in P. rewrite P. reflexivity.
Qed.
End Proofs.

Section Shape.
Context {G : group}.
Notation expr := (expr G).
Notation const := (const G).

Lemma expr_ind' (P : expr -> Prop)
  (HC : forall c, P (EConst c)) (HP : forall i t, P (EPlaceholder i t))
  (HO : forall k p args d, Forall P args -> (match d with Some x => P x | None => True end) -> P (EOp k p args d))
  (HB : forall k l r, P l -> P r -> P (EBin k l r)) (HBs : forall l, P (EBools l))
  (HS : forall q l, Forall P l -> P (ESeq q l)) (HF : forall a b, P b -> P (EFunc a b))
  (HV : forall i e, P e -> P (EValDef i e)) (HU : forall i t, P (EValUse i t))
  (HBl : forall l r, Forall P l -> P r -> P (EBlock l r))
  (HA : forall f l, P f -> Forall P l -> P (EApply f l))
  (HM : forall m o l, P o -> Forall P l -> P (EMethod m o l))
  (HPr : forall m o, P o -> P (EProp m o)) : forall e, P e.
Proof.
  fix IH 1. intros e.
  assert (IHl : forall l : list expr, Forall P l -> Forall P l) by auto.
  destruct e.
  - apply HC.
  - apply HP.
  - apply HO; [|destruct d; [apply IH|exact I]].
    revert args. fix go 1. intros [|x l]; constructor; [apply IH|apply go].
  - apply HB; apply IH.
  - apply HBs.
  - apply HS. revert items. fix go 1. intros [|x l]; constructor; [apply IH|apply go].
  - apply HF; apply IH.
  - apply HV; apply IH.
  - apply HU.
  - apply HBl; [|apply IH]. revert items. fix go 1. intros [|x l]; constructor; [apply IH|apply go].
  - apply HA; [apply IH|]. revert args. fix go 1. intros [|x l]; constructor; [apply IH|apply go].
  - apply HM; [apply IH|]. revert args. fix go 1. intros [|x l]; constructor; [apply IH|apply go].
  - apply HPr; apply IH.
Qed.

Lemma bool_pair_erase : forall l r : expr, bool_pair (erase l) (erase r) = bool_pair l r.
Proof.
  assert (K : forall e : expr, is_bool_const (erase e) <-> is_bool_const e).
  { intros e. destruct e as [[t v]| | | | | | | | | | | |]; try (cbn; tauto).
    cbn [erase]. destruct (bool_pair _ _); cbn; tauto. }
  intros l r. apply Bool.eq_true_iff_eq. rewrite !bool_pair_spec, !K. tauto.
Qed.

Lemma erase_counts : forall e : expr, Zlen (consts_of (erase e)) = Zlen (consts_of e).
Proof.
  assert (FM : forall l : list expr, Forall (fun e => Zlen (consts_of (erase e)) = Zlen (consts_of e)) l ->
    Zlen (flat_map consts_of (map erase l)) = Zlen (flat_map consts_of l)).
  { intros l H. induction H; [reflexivity|]. cbn [map flat_map]. rewrite !Zlen_app. congruence. }
  apply expr_ind'; intros; cbn [erase consts_of]; try reflexivity;
    rewrite ?Zlen_app, ?FM by assumption; try congruence.
  - destruct c. reflexivity.
  - destruct d; congruence.
  - destruct (bool_pair l r) eqn:E; cbn [consts_of].
    + rewrite E. reflexivity.
    + rewrite bool_pair_erase, E, !Zlen_app. congruence.
Qed.

Lemma abs_erase : forall (e : expr) n, abs n (erase e) = abs n e.
Proof.
  assert (FM : forall l : list expr, Zlen (flat_map consts_of (map erase l)) = Zlen (flat_map consts_of l)).
  { induction l; [reflexivity|]. cbn [map flat_map]. rewrite !Zlen_app, erase_counts. congruence. }
  assert (AL : forall l : list expr, Forall (fun e => forall n, abs n (erase e) = abs n e) l ->
    forall n, abs_list abs n (map erase l) = abs_list abs n l).
  { intros l H. induction H as [|x l Hx Hl IH]; intros n; [reflexivity|]. cbn [map abs_list].
    rewrite Hx, erase_counts. f_equal. apply IH. }
  induction e using expr_ind'; intros n; cbn [erase abs]; try reflexivity;
    rewrite ?FM, ?AL by assumption; rewrite ?erase_counts; try congruence.
  - destruct c. reflexivity.
  - destruct d; congruence.
  - destruct (bool_pair e1 e2) eqn:E; cbn [abs].
    + rewrite E. reflexivity.
    + rewrite bool_pair_erase, E, erase_counts. congruence.
Qed.

(** Filling the template of an expression with other constants of the same types. *)
Notation rst := (@rst G).
Definition F_expr (m : bool) (st : rst) (e : expr) (st' : rst) : Prop :=
  m = true -> forall S cs0 l, holds S cs0 l -> map c_tpe l = map c_tpe (consts_of e) ->
  let e' := fill S (abs (Zlen cs0) e) in consts_of e' = l /\ erase e' = erase e.
Definition F_exprs (m : bool) (st : rst) (es : list expr) (st' : rst) : Prop :=
  m = true -> forall S cs0 l, holds S cs0 l -> map c_tpe l = map c_tpe (flat_map consts_of es) ->
  let es' := map (fill S) (abs_list abs (Zlen cs0) es) in flat_map consts_of es' = l /\ map erase es' = map erase es.
Definition F_opt (m : bool) (st : rst) (d : option expr) (st' : rst) : Prop :=
  m = true -> forall S cs0 l, holds S cs0 l -> map c_tpe l = map c_tpe (opt_consts d) ->
  let d' := fill_opt S (abs_opt (Zlen cs0) d) in opt_consts d' = l /\ option_map erase d' = option_map erase d.

Lemma split_types : forall (l a b : list const), map c_tpe l = map c_tpe (a ++ b) ->
  exists l1 l2, l = l1 ++ l2 /\ map c_tpe l1 = map c_tpe a /\ map c_tpe l2 = map c_tpe b.
Proof.
  intros l a. revert l. induction a as [|x a IH]; intros l b H.
  - exists [], l. split; [reflexivity|]. split; [reflexivity|exact H].
  - destruct l as [|y l]; [discriminate|]. cbn [app map] in H. injection H as H0 H.
    destruct (IH l b H) as (l1 & l2 & -> & M1 & M2). exists (y :: l1), l2.
    split; [reflexivity|]. split; [cbn [map]; congruence|exact M2].
Qed.
Lemma types_Zlen : forall l a : list const, map c_tpe l = map c_tpe a -> Zlen l = Zlen a.
Proof. intros l a H. unfold Zlen. rewrite <- (map_length c_tpe l), H, map_length. reflexivity. Qed.
Lemma types_nil : forall l : list const, map c_tpe l = [] -> l = [].
Proof. intros [|] H; [reflexivity|discriminate]. Qed.

Lemma f_pair : forall (S cs0 l a b : list const), holds S cs0 l -> map c_tpe l = map c_tpe (a ++ b) ->
  exists l1 l2, l = l1 ++ l2 /\ holds S cs0 l1 /\ map c_tpe l1 = map c_tpe a /\
    holds S (cs0 ++ l1) l2 /\ map c_tpe l2 = map c_tpe b /\ Zlen (cs0 ++ l1) = Zlen cs0 + Zlen a.
Proof.
  intros S cs0 l a b Hh Hm. destruct (split_types _ _ _ Hm) as (l1 & l2 & -> & M1 & M2).
  apply holds_app in Hh. destruct Hh as [H1 H2]. exists l1, l2. rewrite Zlen_app, (types_Zlen _ _ M1). auto 8.
Qed.

Lemma f_const : forall st c, F_expr true st (EConst c) st.
Proof.
  intros st c _ S cs0 l [tl ->] Hm. cbn [consts_of map] in Hm. destruct l as [|c' [|? ?]]; try discriminate.
  injection Hm as Hm. cbn [abs fill].
  rewrite Zlen_nat, nth_error_app2, Nat.sub_diag by lia. cbn. split; [reflexivity|].
  destruct c, c'. cbn in Hm. congruence.
Qed.

Theorem refill :
  (forall st t (v : lit G) st', ok_lit st t v st' -> True) /\
  (forall st t (l : list (lit G)) st', ok_lits st t l st' -> True) /\
  (forall st ts (l : list (lit G)) st', ok_items st ts l st' -> True) /\
  (forall st (c : const) st', ok_const st c st' -> True) /\
  (forall st (l : list const) st', ok_consts st l st' -> True) /\
  (forall m st e st', ok_expr m st e st' -> F_expr m st e st') /\
  (forall m st l st', ok_exprs m st l st' -> F_exprs m st l st') /\
  (forall m st d st', ok_opt m st d st' -> F_opt m st d st') /\
  (forall st (t : tree G) st', ok_tree st t st' -> True) /\
  (forall h st (cs : list const) st', ok_seg h st cs st' -> True) /\
  (forall st (r : regval G) st', ok_reg st r st' -> True) /\
  (forall st (l : list (regval G)) st', ok_regs st l st' -> True) /\
  (forall st (c : cand G) st', ok_cand st c st' -> True) /\
  (forall st (b : box G) st', ok_box st b st' -> True).
Proof.
  apply ok_mutind; intros; try exact I; try (intros X; discriminate X); try apply f_const;
    intros -> S cs0 ls Hh Hm; cbn [consts_of abs flat_map abs_list opt_consts abs_opt] in *;
    try (apply types_nil in Hm; subst ls; split; reflexivity).
  - (* op *) fold (opt_consts d) in Hm. destruct (f_pair _ _ _ _ _ Hh Hm) as (l1 & l2 & -> & A1 & M1 & A2 & M2 & Z).
    destruct (H5 eq_refl _ _ _ A1 M1) as [C1 E1]. destruct (H7 eq_refl _ _ _ A2 M2) as [C2 E2]. rewrite Z in *.
    fold (abs_opt (Zlen cs0 + Zlen (flat_map consts_of args)) d). cbn [fill consts_of erase].
    fold (fill_opt S (abs_opt (Zlen cs0 + Zlen (flat_map consts_of args)) d)).
    fold (opt_consts (fill_opt S (abs_opt (Zlen cs0 + Zlen (flat_map consts_of args)) d))).
    fold (option_map erase (fill_opt S (abs_opt (Zlen cs0 + Zlen (flat_map consts_of args)) d))).
    fold (option_map erase d). rewrite C1, C2, E1, E2. split; reflexivity.
  - (* bin *) rewrite bool_pair_false in * by assumption.
    destruct (f_pair _ _ _ _ _ Hh Hm) as (l1 & l2 & -> & A1 & M1 & A2 & M2 & Z).
    destruct (H2 eq_refl _ _ _ A1 M1) as [C1 E1]. destruct (H4 eq_refl _ _ _ A2 M2) as [C2 E2]. rewrite Z in *.
    cbn [fill]. rewrite abs_bool_pair.
    set (x := fill S (abs (Zlen cs0) l)) in *. set (y := fill S (abs (Zlen cs0 + Zlen (consts_of l)) r)) in *.
    assert (B : bool_pair x y = false).
    { rewrite <- bool_pair_erase, E1, E2, bool_pair_erase. apply bool_pair_false. assumption. }
    cbn [consts_of erase]. rewrite B, C1, C2, E1, E2. rewrite (bool_pair_false l r) by assumption. split; reflexivity.
  - (* seq *) destruct (H2 eq_refl _ _ _ Hh Hm) as [C1 E1]. cbn [fill consts_of erase]. rewrite C1, E1. split; reflexivity.
  - destruct (H2 eq_refl _ _ _ Hh Hm) as [C1 E1]. cbn [fill consts_of erase]. rewrite C1, E1. split; reflexivity.
  - destruct (H1 eq_refl _ _ _ Hh Hm) as [C1 E1]. cbn [fill consts_of erase]. rewrite C1, E1. split; reflexivity.
  - destruct (f_pair _ _ _ _ _ Hh Hm) as (l1 & l2 & -> & A1 & M1 & A2 & M2 & Z).
    destruct (H1 eq_refl _ _ _ A1 M1) as [C1 E1]. destruct (H3 eq_refl _ _ _ A2 M2) as [C2 E2]. rewrite Z in *.
    cbn [fill consts_of erase]. rewrite C1, C2, E1, E2. split; reflexivity.
  - destruct (f_pair _ _ _ _ _ Hh Hm) as (l1 & l2 & -> & A1 & M1 & A2 & M2 & Z).
    destruct (H2 eq_refl _ _ _ A1 M1) as [C1 E1]. destruct (H4 eq_refl _ _ _ A2 M2) as [C2 E2]. rewrite Z in *.
    cbn [fill consts_of erase]. rewrite C1, C2, E1, E2. split; reflexivity.
  - destruct (f_pair _ _ _ _ _ Hh Hm) as (l1 & l2 & -> & A1 & M1 & A2 & M2 & Z).
    destruct (H4 eq_refl _ _ _ A1 M1) as [C1 E1]. destruct (H6 eq_refl _ _ _ A2 M2) as [C2 E2]. rewrite Z in *.
    cbn [fill consts_of erase]. rewrite C1, C2, E1, E2. split; reflexivity.
  - destruct (H3 eq_refl _ _ _ Hh Hm) as [C1 E1]. cbn [fill consts_of erase]. rewrite C1, E1. split; reflexivity.
  - destruct (f_pair _ _ _ _ _ Hh Hm) as (l1 & l2 & -> & A1 & M1 & A2 & M2 & Z).
    destruct (H0 eq_refl _ _ _ A1 M1) as [C1 E1]. destruct (H2 eq_refl _ _ _ A2 M2) as [C2 E2]. rewrite Z in *.
    fold (@abs_list G abs). cbn [map flat_map]. rewrite C1, C2, E1, E2. split; reflexivity.
  - destruct (H0 eq_refl _ _ _ Hh Hm) as [C1 E1]. cbn [fill_opt option_map]. rewrite E1. split; [exact C1|reflexivity].
Qed.

Lemma fill_shape : forall (e : expr) st' cs', ok_expr true fresh e st' -> Zlen (consts_of e) < 2 ^ 32 ->
  map c_tpe cs' = map c_tpe (consts_of e) ->
  erase (fill cs' (abs 0 e)) = erase e /\ consts_of (fill cs' (abs 0 e)) = cs'.
Proof.
  intros e st' cs' H _ Hm. destruct refill as (_ & _ & _ & _ & _ & R & _).
  destruct (R _ _ _ _ H eq_refl cs' [] cs') as [C E].
  - exists []. rewrite app_nil_r. reflexivity.
  - exact Hm.
  - change (Zlen []) with 0 in *. split; assumption.
Qed.

Lemma list_set_length : forall A (l : list A) i x, List.length (list_set l i x) = List.length l.
Proof. induction l as [|y l IH]; intros [|i] x; cbn; auto. Qed.
Lemma list_set_same : forall A (l : list A) i x y, nth_error l i = Some y -> nth_error (list_set l i x) i = Some x.
Proof. induction l as [|z l IH]; intros [|i] x y H; cbn in *; try discriminate; eauto. Qed.
Lemma list_set_other : forall A (l : list A) i x j, j <> i -> nth_error (list_set l i x) j = nth_error l j.
Proof. induction l as [|z l IH]; intros [|i] x [|j] H; cbn; try congruence; auto. Qed.
Lemma list_set_map : forall A B (f : A -> B) (l : list A) i x y, nth_error l i = Some y -> f x = f y ->
  map f (list_set l i x) = map f l.
Proof.
  induction l as [|z l IH]; intros [|i] x y H E; cbn in *; try discriminate; [congruence|].
  f_equal. eauto.
Qed.
Lemma parse_body_parsed : forall (p : @P G expr) h st bs t st' r, parse_body p h st bs = Ok (t, st', r) ->
  exists cs root, t = Parsed h cs root.
Proof.
  intros p h st bs t st' r H. unfold parse_body in H.
  repeat match goal with H : pbind _ _ _ _ = Ok _ |- _ => apply pbind_ok in H; destruct H as (? & ? & ? & ? & H) end.
  unfold pret in H. injection H as <- _ _. eauto.
Qed.
End Shape.
