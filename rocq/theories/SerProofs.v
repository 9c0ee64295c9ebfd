(** Round trip of values, expressions, scripts and boxes. *)
From Verif Require Import Base VlqModel VlqProofs IntBytes GroupModel GroupProofs SigmaModel SigmaSpec SbProofs.
From Verif Require Import TypeModel TypeProofs MethodModel BigIntModel BigIntProps IrModel SerModel SerLocal SerSpec.
Local Open Scope string_scope.
Local Open Scope list_scope.
Local Open Scope Z_scope.

(** ** Small facts *)
Lemma type_code_of_parse : forall rec c bs r, parse_tc_with rec c bs = Ok r -> is_type_code c = true.
Proof.
  intros rec c bs r E. unfold parse_tc_with in E. destruct (emb_type c) eqn:Ee.
  - apply emb_type_code in Ee. unfold is_type_code. lia.
  - repeat match type of E with
    | (if ?b then _ else _) = _ => let H := fresh in destruct b eqn:H; [unfold is_type_code; lia|clear H]
    end. discriminate.
Qed.

Lemma type_prefix : forall t, ty_ok t -> exists c bs, ser_type t = Ok (c :: bs) /\
  is_type_code c = true /\ forall rest, parse_with_type_code c (bs ++ rest) = Ok (t, rest).
Proof.
  intros t [W F]. destruct (ser_type_ok t F) as [bs E]. pose proof (ser_type_nonempty _ _ E) as N.
  destruct bs as [|c bs]; [cbn in N; lia|]. exists c, bs. split; [exact E|].
  assert (R : forall rest, parse_with_type_code c (bs ++ rest) = Ok (t, rest)).
  { intros rest. unfold parse_with_type_code.
    pose proof (parse_ser_type t _ W E (S (S (List.length (bs ++ rest)))) rest) as X.
    rewrite <- app_comm_cons in X. cbn [parse_type_f get_u8 bind] in X. apply X.
    cbn. rewrite app_length. lia. }
  split; [|exact R]. specialize (R []). unfold parse_with_type_code in R.
  eapply type_code_of_parse; eauto.
Qed.

Lemma type_code_range : forall c, is_type_code c = true -> 1 <= c <= 106.
Proof. intros c. unfold is_type_code. lia. Qed.

Lemma type_rt : forall t, ty_ok t -> roundtrip ser_type parse_type t.
Proof.
  intros t [W F]. destruct (ser_type_ok t F) as [bs E]. exists bs. split; [exact E|]. intro rest.
  unfold parse_type. apply (parse_ser_type t bs W E). rewrite app_length. lia.
Qed.

Lemma put_usize_u16_rt : forall n, 0 <= n < 2 ^ 16 -> roundtrip put_usize_as_u16_unwrapped get_u16 n.
Proof.
  intros n Hn. destruct (get_put_u16 n) as (bs & E1 & E2); [exact Hn|]. exists bs. split; [|exact E2].
  unfold put_usize_as_u16_unwrapped. replace (n <? 2 ^ 16) with true by lia. exact E1.
Qed.
Lemma put_usize_u32_rt : forall n, 0 <= n < 2 ^ 32 -> roundtrip put_usize_as_u32_unwrapped get_u32 n.
Proof.
  intros n Hn. destruct (get_put_u32 n) as (bs & E1 & E2); [exact Hn|]. exists bs. split; [|exact E2].
  unfold put_usize_as_u32_unwrapped. replace (n <? 2 ^ 32) with true by lia. exact E1.
Qed.

Lemma Zlen_nat : forall A (l : list A), Z.to_nat (Zlen l) = List.length l.
Proof. intros. unfold Zlen. lia. Qed.

Lemma write_list_cons : forall A (w : A -> res bytes) a l,
  write_list w (a :: l) = (b1 <- w a ;; b2 <- write_list w l ;; Ok (b1 ++ b2)).
Proof. reflexivity. Qed.
Lemma wall_cons : forall G A (w : A -> @W G) a l, wall w (a :: l) = wcat (w a) (wall w l).
Proof. reflexivity. Qed.

Section Steps.
Context {G : group}.
Notation P := (@P G).

Lemma pbind_step : forall A B (p : P A) (f : A -> P B) st bs a st1 r1,
  p st bs = Ok (a, st1, r1) -> pbind p f st bs = f a st1 r1.
Proof. intros. unfold pbind. rewrite H. reflexivity. Qed.
Lemma lift_step : forall A (r : reader A) (st : @rst G) bs a r1,
  r bs = Ok (a, r1) -> lift r st bs = Ok (a, st, r1).
Proof. intros. unfold lift. rewrite H. reflexivity. Qed.
Lemma of_res_step : forall A (r : res A) a (st : @rst G) bs, r = Ok a -> of_res r st bs = Ok (a, st, bs).
Proof. intros. subst. reflexivity. Qed.
Lemma wcat_step : forall (a b : @W G) s x s1 y s2,
  a s = Ok (x, s1) -> b s1 = Ok (y, s2) -> wcat a b s = Ok (x ++ y, s2).
Proof. intros. unfold wcat. rewrite H. cbn [bind]. rewrite H0. reflexivity. Qed.
Lemma wput_step : forall (r : res bytes) x (s : @wst G), r = Ok x -> wput r s = Ok (x, s).
Proof. intros. subst. reflexivity. Qed.

Lemma rmap_step : forall A B (f : A -> B) (r : reader A) bs a r1,
  r bs = Ok (a, r1) -> rmap_reader f r bs = Ok (f a, r1).
Proof. intros. unfold rmap_reader. rewrite H. reflexivity. Qed.

Lemma parse_tag_op : forall rec k, @parse_tag G rec (op_code k) = parse_op rec k.
Proof. intros rec k; destruct k; reflexivity. Qed.
Lemma parse_tag_bin : forall rec k, @parse_tag G rec (bin_code k) = parse_bin rec k.
Proof. intros rec k; destruct k; reflexivity. Qed.
Lemma parse_tag_const : forall rec c, c <= last_constant_code -> @parse_tag G rec c = parse_const_tag rec c.
Proof. intros rec c Hc. unfold parse_tag. replace (c <=? last_constant_code) with true by lia. reflexivity. Qed.

(** Unfolding equations of the writers. *)
Lemma se_const : forall c : const G, ser_expr (EConst c) = put_const c (ser_const c).
Proof. reflexivity. Qed.
Lemma se_op : forall k p (args : list (expr G)) d, ser_expr (EOp k p args d) =
  wcat (wret [op_code k]) (wcat (wall ser_expr args) (wcat (wput (ser_payload p))
    (if op_has_opt k then match d with Some x => wcat (wret [1]) (ser_expr x) | None => wret [0] end
     else wret []))).
Proof. reflexivity. Qed.
Lemma se_bin : forall k (l r : expr G), ser_expr (EBin k l r) =
  wcat (wret [bin_code k])
    match bool_consts l r with
    | Some (a, b) =>
        wput (match lit_bool a, lit_bool b with
              | Some x, Some y => bs <- put_bits [x; y] ;; Ok (code_bools :: bs)
              | _, _ => Err "TryExtractFrom"
              end)
    | None => wcat (ser_expr l) (ser_expr r)
    end.
Proof. reflexivity. Qed.
Lemma se_seq : forall q (l : list (expr G)),
  ser_expr (ESeq q l) = wcat (wput (seq_prefix q (Zlen l))) (wall ser_expr l).
Proof. reflexivity. Qed.
Lemma se_func : forall args (b : expr G),
  ser_expr (EFunc args b) = wcat (wret [code_func]) (wcat (wput (ser_args args)) (ser_expr b)).
Proof. reflexivity. Qed.
Lemma se_val_def : forall id (e : expr G),
  ser_expr (EValDef id e) = wcat (wret [code_val_def]) (wcat (wput (put_u32 id)) (ser_expr e)).
Proof. reflexivity. Qed.
Lemma se_block : forall items (r : expr G), ser_expr (EBlock items r) =
  wcat (wret [code_block]) (wcat (wput (put_u32 (wrapu 32 (Zlen items)))) (wcat (wall ser_expr items) (ser_expr r))).
Proof. reflexivity. Qed.
Lemma se_apply : forall (f : expr G) args, ser_expr (EApply f args) =
  wcat (wret [code_apply]) (wcat (ser_expr f) (wcat (wput (put_u32 (wrapu 32 (Zlen args)))) (wall ser_expr args))).
Proof. reflexivity. Qed.
Lemma se_method : forall m (o : expr G) args, ser_expr (EMethod m o args) =
  wcat (wret [code_method; sm_code m; sm_id m])
    (wcat (ser_expr o) (wcat (wput (put_u32 (wrapu 32 (Zlen args)))) (wall ser_expr args))).
Proof. reflexivity. Qed.
Lemma se_prop : forall m (o : expr G),
  ser_expr (EProp m o) = wcat (wret [code_prop; sm_code m; sm_id m]) (ser_expr o).
Proof. reflexivity. Qed.
Definition ser_seg (h : theader) (cs : list (const G)) : res bytes :=
  if th_seg h then n <- put_usize_as_u32_unwrapped (Zlen cs) ;; b <- write_list ser_const cs ;; Ok (n ++ b)
  else Ok [].
Lemma st_parsed : forall h cs (root : expr G), ser_tree (Parsed h cs root) =
  (c <- ser_seg h cs ;; r <- wrun (ser_expr root) ;;
   n <- (if th_size h then put_usize_as_u32_unwrapped (Zlen (c ++ r)) else Ok []) ;;
   Ok (th_serialized h :: n ++ c ++ r)).
Proof. reflexivity. Qed.
Lemma sr_tuple : forall items : list (expr G), ser_reg (RTuple items) =
  (a <- seq_prefix QTuple (Zlen items) ;; b <- wrun (wall ser_expr items) ;; Ok (a ++ b)).
Proof. reflexivity. Qed.
Lemma sc_cand : forall ids v (t : tree G) tk rg h, ser_cand ids (MkCand v t tk rg h) =
  (tb <- ser_tree t ;; v <- put_u64 v ;; h <- put_u32 h ;;
   n <- (if Zlen tk <=? 255 then put_u8 (Zlen tk) else Panic) ;;
   tk <- write_list (ser_token ids) tk ;;
   m <- put_u8 (wrapu 8 (Zlen rg)) ;;
   rg <- write_list ser_reg rg ;;
   Ok (v ++ tb ++ h ++ n ++ tk ++ m ++ rg)).
Proof. reflexivity. Qed.
Lemma sb_box : forall (c : cand G) txid i, ser_box (MkBox c txid i) =
  (x <- ser_cand None c ;; i <- put_u16 i ;; Ok (x ++ txid ++ i)).
Proof. reflexivity. Qed.
End Steps.

(** Evaluate the next reader of a parser with the equation [E]. *)
Ltac pstep E := erewrite pbind_step; [|apply lift_step; apply E].
Ltac papp := rewrite <- ?app_assoc, <- ?app_comm_cons, <- ?app_assoc.

Section Proofs.
Context {G : group} (HG : group_ok G).
Notation P := (@P G).
Notation PX := (@parse_expr G).
Notation PB := (parse_box (@parse_expr G)).
Notation PL := (parse_lit (parse_box (@parse_expr G))).

Lemma sb_write_depth : forall (s : sbool G) bs, sb_write s = Ok bs -> (depth s <= List.length bs)%nat.
Proof.
  apply (SigmaProofs.sbool_ind' (fun s => forall bs, sb_write s = Ok bs -> (depth s <= List.length bs)%nat)).
  - intros b bs E. injection E as <-. cbn. lia.
  - intros p bs E. cbn [sb_write] in E. inv_bind E. injection E as <-. cbn. lia.
  - intros c l IH bs E. cbn [sb_write] in E. inv_bind E. inv_bind E. inv_bind E. injection E as <-.
    cbn [depth List.length]. rewrite !app_length.
    enough ((fold_right Nat.max 0 (map depth l) <= List.length b1)%nat) by lia.
    clear Eb Eb0 b b0. revert b1 Eb1. induction l as [|x l IHl]; intros b1 E1; [cbn; lia|].
    inversion IH as [|? ? Hx Hl]; subst. cbn [write_each] in E1.
    destruct (sb_write x) as [bx|e|] eqn:Ex; try discriminate. cbn [bind] in E1.
    match type of E1 with bind ?r _ = _ => destruct r as [bl|e|] eqn:El; try discriminate end.
    cbn [bind] in E1. injection E1 as <-. specialize (Hx _ eq_refl). specialize (IHl Hl _ eq_refl).
    cbn [map fold_right]. rewrite app_length. lia.
Qed.

Lemma sb_rt : forall s : sbool G, sb_wf s -> roundtrip sb_write sb_parse s.
Proof.
  intros s Hs. destruct (sb_roundtrip HG s Hs (depth s) (le_n _)) as (bs & E & _). exists bs.
  split; [exact E|]. intros rest. unfold sb_parse.
  destruct (sb_roundtrip HG s Hs (S (List.length (bs ++ rest)))) as (bs' & E' & R).
  { apply sb_write_depth in E. rewrite app_length. lia. }
  rewrite E in E'. injection E' as <-. apply R.
Qed.

Lemma avl_rt : forall a, avl_ok a -> roundtrip ser_avl parse_avl a.
Proof.
  intros [d f k v] (Hd & Hf & Hk & Hv). cbn [av_digest av_flags av_key_len av_val_len] in *.
  destruct (get_put_u32 k Hk) as (kb & Ek & Rk).
  assert (Hff : Z.land f 7 = f).
  { change 7 with (Z.ones 3). rewrite Z.land_ones by lia. apply Z.mod_small. change (2 ^ 3) with 8. lia. }
  unfold roundtrip, ser_avl. cbn [av_digest av_flags av_key_len av_val_len]. rewrite Ek. cbn [bind].
  destruct v as [n|].
  - destruct (get_put_u32 n Hv) as (nb & En & Rn). rewrite En. cbn [bind]. eexists. split; [reflexivity|].
    intros rest. unfold parse_avl. papp. rewrite read_exact_app by exact Hd. cbn [bind].
    cbn [app]. rewrite get_u8_cons. cbn [bind]. papp. rewrite Rk. cbn [bind app]. rewrite get_u8_cons. cbn [bind].
    change (1 =? 0) with false. cbv iota. rewrite Rn. cbn [bind]. rewrite Hff. reflexivity.
  - cbn [bind]. eexists. split; [reflexivity|].
    intros rest. unfold parse_avl. papp. rewrite read_exact_app by exact Hd. cbn [bind].
    cbn [app]. rewrite get_u8_cons. cbn [bind]. papp. rewrite Rk. cbn [bind app]. rewrite get_u8_cons. cbn [bind].
    change (0 =? 0) with true. cbv iota. cbn [bind]. rewrite Hff. reflexivity.
Qed.

Lemma bigint_rt : forall z, - 2 ^ 255 <= z < 2 ^ 255 ->
  exists bs, @ser_lit G (LBigInt z) = Ok bs /\ forall rest, parse_bigint (bs ++ rest) = Ok (@LBigInt G z, rest).
Proof.
  intros z Hz. cbn [ser_lit]. cbv zeta. destruct (c57_bytes_roundtrip z) as [E1 E2]; [set (m := 2 ^ 255) in *; clearbody m; lia|].
  unfold b256_to_bytes in *. set (b := to_signed_bytes_be z) in *. clearbody b.
  assert (Hn : 0 <= Zlen b < 2 ^ 16).
  { pose proof (Zlen_nonneg _ b). change (2 ^ 16) with 65536. lia. }
  rewrite wrapu_id by exact Hn.
  destruct (get_put_u16 (Zlen b) Hn) as (nb & En & Rn). rewrite En. cbn [bind]. eexists. split; [reflexivity|].
  intros rest. unfold parse_bigint. papp. rewrite Rn. cbn [bind]. replace (32 <? Zlen b) with false by lia.
  rewrite Zlen_nat, read_exact_app by reflexivity. cbn [bind]. rewrite E1. reflexivity.
Qed.

Lemma map_wraps_wrapu : forall l, Forall i8 l -> map (wraps 8) (map (wrapu 8) l) = l.
Proof.
  intros l Hl. rewrite map_map. rewrite <- (map_id l) at 2. apply map_ext_in. intros z Hz.
  rewrite Forall_forall in Hl. specialize (Hl z Hz). unfold wraps, wrapu, i8 in *.
  change (2 ^ (8 - 1)) with 128. change (2 ^ 8) with 256 in *. change (2 ^ 7) with 128 in *. lia.
Qed.

(** The statements proved by induction. *)
Definition rt {A} (w : res bytes) (p : P A) (st : rst) (a : A) (st' : rst) : Prop :=
  exists bs, w = Ok bs /\ forall rest, p st (bs ++ rest) = Ok (a, st', rest).

Definition Q_lit st t v st' := rt (ser_lit v) (PL t) st v st'.
Definition Q_lits st t l st' := rt (write_list ser_lit l) (pread_n (List.length l) (PL t)) st l st'.
Definition Q_items st ts l st' := rt (write_list ser_lit l) (peach PL ts) st l st'.
Definition Q_const st c st' := exists hd bs, ser_const c = Ok (hd :: bs) /\ is_type_code hd = true /\
  forall rest, parse_const_tag PX hd st (bs ++ rest) = Ok (EConst c, st', rest).
Definition Q_consts st l st' := rt (write_list ser_const l) (pread_n (List.length l) parse_const) st l st'.
Definition Q_expr m st e st' := m = false -> exists hd bs, ser_expr e None = Ok (hd :: bs, None) /\
  (hd = code_bools -> is_bools e) /\
  forall rest, parse_tag PX hd st (bs ++ rest) = Ok (e, st', rest).
Definition Q_exprs m st l st' := m = false -> exists bs, wall ser_expr l None = Ok (bs, None) /\
  forall rest, pread_n (List.length l) PX st (bs ++ rest) = Ok (l, st', rest).
Definition Q_opt m st d st' := m = false -> exists bs,
  match d with Some x => wcat (wret [1]) (ser_expr x) | None => wret [0] end None = Ok (bs, None) /\
  forall rest, popt PX st (bs ++ rest) = Ok (d, st', rest).
Definition Q_tree st t st' := rt (ser_tree t) (parse_tree PX) st t st'.
Definition Q_seg h st cs st' :=
  rt (ser_seg h cs) (if th_seg h then parse_constants PX else pret []) st cs st'.
Definition Q_reg st r st' := rt (ser_reg r) (parse_reg PX) st r st'.
Definition Q_regs st l st' := rt (write_list ser_reg l) (pread_n (List.length l) (parse_reg PX)) st l st'.
(** Token identifiers written as positions in a table must be in it. *)
Definition ids_cover (ids : option (list bytes)) (c : cand G) : Prop :=
  match ids with
  | None => True
  | Some l => let '(MkCand _ _ tk _ _) := c in
              Zlen l <= 2 ^ 32 /\ Forall (fun t => In (fst t) l) tk
  end.
Definition Q_cand st c st' := forall ids, ids_cover ids c -> rt (ser_cand ids c) (parse_cand PX ids) st c st'.
Definition Q_box st b st' := rt (ser_box b) PB st b st'.

Lemma expr_rt : forall st e st', Q_expr false st e st' ->
  exists bs, ser_expr e None = Ok (bs, None) /\ bs <> [] /\ forall rest, PX st (bs ++ rest) = Ok (e, st', rest).
Proof.
  intros st e st' H. destruct (H eq_refl) as (hd & bs & E & _ & R). exists (hd :: bs). split; [exact E|].
  split; [discriminate|]. intros rest. rewrite parse_expr_eq. unfold step, pbind, lift.
  rewrite <- app_comm_cons. cbn [get_u8 bind]. apply R.
Qed.

Lemma const_rt : forall st c st', Q_const st c st' -> rt (ser_const c) parse_const st c st'.
Proof.
  intros st c st' (hd & bs & E & T & R). exists (hd :: bs). split; [exact E|]. intros rest.
  unfold parse_const, const_of. rewrite <- app_comm_cons. rewrite T. rewrite parse_expr_eq.
  unfold step, pbind, lift. cbn [get_u8 bind]. apply type_code_range in T.
  rewrite parse_tag_const by (unfold last_constant_code; lia). rewrite R. reflexivity.
Qed.

Lemma rt_nil : forall A B (w : A -> res bytes) (p : P B) st, rt (write_list w []) (pread_n 0 p) st [] st.
Proof. intros. exists []. split; reflexivity. Qed.
Lemma rt_cons : forall A (w : A -> res bytes) (p : P A) st a l st1 st2,
  rt (w a) p st a st1 -> rt (write_list w l) (pread_n (List.length l) p) st1 l st2 ->
  rt (write_list w (a :: l)) (pread_n (List.length (a :: l)) p) st (a :: l) st2.
Proof.
  intros A w p st a l st1 st2 (b1 & E1 & R1) (b2 & E2 & R2). exists (b1 ++ b2).
  rewrite write_list_cons, E1. cbn [bind]. rewrite E2. split; [reflexivity|]. intros rest.
  cbn [List.length pread_n]. papp. erewrite pbind_step; [|apply R1]. erewrite pbind_step; [|apply R2]. reflexivity.
Qed.

(** *** Literals *)
Ltac simple_lit L := destruct L as (bs & E & R); exists bs; split; [exact E|]; intros rest;
  cbn [parse_lit]; apply lift_step; apply rmap_step; apply R.

Lemma q_unit : forall st, Q_lit st SUnit LUnit st.
Proof. intros. exists []. split; reflexivity. Qed.
Lemma q_bool : forall st b, Q_lit st SBoolean (LBool b) st.
Proof. intros st b. exists [if b then 1 else 0]. split; [reflexivity|]. intros rest. destruct b; reflexivity. Qed.
Lemma q_byte : forall st z, i8 z -> Q_lit st SByte (LByte z) st.
Proof. intros st z Hz. simple_lit (get_put_i8 z Hz). Qed.
Lemma q_short : forall st z, i16 z -> Q_lit st SShort (LShort z) st.
Proof. intros st z Hz. simple_lit (get_put_i16 z Hz). Qed.
Lemma q_int : forall st z, i32 z -> Q_lit st SInt (LInt z) st.
Proof. intros st z Hz. simple_lit (get_put_i32 z Hz). Qed.
Lemma q_long : forall st z, i64 z -> Q_lit st SLong (LLong z) st.
Proof. intros st z Hz. simple_lit (get_put_i64 z Hz). Qed.
Lemma q_bigint : forall st z, - 2 ^ 255 <= z < 2 ^ 255 -> Q_lit st SBigInt (LBigInt z) st.
Proof.
  intros st z Hz. destruct (bigint_rt z Hz) as (bs & E & R). exists bs. split; [exact E|]. intros rest.
  cbn [parse_lit]. apply lift_step. apply R.
Qed.
Lemma q_group : forall st p, Q_lit st SGroupElement (LGroup p) st.
Proof. intros st p. simple_lit (ec_roundtrip HG p). Qed.
Lemma q_sigma : forall st s, sb_wf s -> Q_lit st SSigmaProp (LSigma s) st.
Proof. intros st s Hs. simple_lit (sb_rt s Hs). Qed.
Lemma q_avl : forall st a, avl_ok a -> Q_lit st SAvlTree (LAvl a) st.
Proof. intros st a Ha. simple_lit (avl_rt a Ha). Qed.
Lemma q_lbox : forall st b st', Q_box st b st' -> Q_lit st SBox (LBox b) st'.
Proof.
  intros st b st' (bs & E & R). exists bs. split; [exact E|]. intros rest. cbn [parse_lit].
  erewrite pbind_step; [|apply R]. reflexivity.
Qed.
Lemma q_bytes : forall st l, Forall i8 l -> Zlen l < 2 ^ 16 -> Q_lit st (SColl SByte) (LCollBytes l) st.
Proof.
  intros st l Hl Hn. pose proof (Zlen_nonneg _ l). destruct (put_usize_u16_rt (Zlen l)) as (nb & En & Rn); [lia|].
  unfold Q_lit, rt. cbn [ser_lit]. rewrite En. cbn [bind]. eexists. split; [reflexivity|]. intros rest.
  cbn [parse_lit]. apply lift_step. unfold parse_coll_bytes. papp. rewrite Rn. cbn [bind]. rewrite Zlen_nat.
  rewrite read_exact_app by apply map_length. cbn [bind]. rewrite map_wraps_wrapu by exact Hl. reflexivity.
Qed.

Lemma bools_of_lits : forall st t l st', ok_lits st t l st' -> t = SBoolean ->
  exists bools, l = map (@LBool G) bools /\ st' = st.
Proof.
  intros st t l st' H. induction H as [st t|st t v l st1 st2 Hv Hl IH]; intros ->.
  - exists []. auto.
  - destruct (IH eq_refl) as (bools & -> & ->). inversion Hv; subst. exists (b :: bools). auto.
Qed.
Lemma opt_list_bools : forall bools, opt_list (@lit_bool G) (map LBool bools) = Some bools.
Proof. induction bools as [|b l IH]; [reflexivity|]. cbn [map opt_list lit_bool]. cbn [map opt_list lit_bool] in IH. rewrite IH. reflexivity. Qed.

Lemma ser_lit_coll : forall t l, t <> SBoolean ->
  @ser_lit G (LColl t l) = (n <- put_usize_as_u16_unwrapped (Zlen l) ;; b <- write_list ser_lit l ;; Ok (n ++ b)).
Proof. intros t l H. destruct t; try reflexivity. congruence. Qed.
Lemma parse_lit_coll : forall t, t <> SBoolean -> t <> SByte ->
  PL (SColl t) = pbind (lift get_u16) (fun n => pbind (pread_n (Z.to_nat n) (PL t)) (fun l => pret (LColl t l))).
Proof. intros t H1 H2. destruct t; try reflexivity; congruence. Qed.

Lemma q_coll : forall st t l st', t <> SByte -> Zlen l < 2 ^ 16 -> ok_lits st t l st' -> Q_lits st t l st' ->
  Q_lit st (SColl t) (LColl t l) st'.
Proof.
  intros st t l st' Ht Hn Hok (bs & E & R). pose proof (Zlen_nonneg _ l) as Hp.
  destruct (put_usize_u16_rt (Zlen l)) as (nb & En & Rn); [lia|].
  destruct (stype_eq_dec t SBoolean) as [->|Hb].
  - destruct (bools_of_lits _ _ _ _ Hok eq_refl) as (bools & -> & ->).
    unfold Q_lit, rt. cbn [ser_lit]. rewrite En. cbn [bind]. rewrite opt_list_bools. cbn [of_option bind].
    destruct (get_put_bits bools) as (bb & Eb & Rb). rewrite Eb. cbn [bind]. eexists. split; [reflexivity|].
    intros rest. cbn [parse_lit]. apply lift_step. unfold parse_coll_bools. papp. rewrite Rn. cbn [bind].
    rewrite Zlen_nat, map_length. rewrite Rb. reflexivity.
  - unfold Q_lit, rt. rewrite ser_lit_coll by exact Hb. rewrite En. cbn [bind]. rewrite E. cbn [bind].
    eexists. split; [reflexivity|]. intros rest. rewrite parse_lit_coll by assumption. papp.
    pstep Rn. rewrite Zlen_nat. erewrite pbind_step; [|apply R]. reflexivity.
Qed.

Lemma bounded_ok : forall A (l : list A), 2 <= Zlen l <= 255 -> bounded l = Ok l.
Proof. intros A l H. unfold bounded. replace ((2 <=? Zlen l) && (Zlen l <=? 255)) with true by lia. reflexivity. Qed.

Lemma q_tup : forall st ts l st', 2 <= Zlen l <= 255 -> Q_items st ts l st' -> Q_lit st (STuple ts) (LTup l) st'.
Proof.
  intros st ts l st' Hl (bs & E & R). exists bs. split; [exact E|]. intros rest. cbn [parse_lit].
  erewrite pbind_step; [|apply R]. unfold pbounded. rewrite bounded_ok by exact Hl. reflexivity.
Qed.
Lemma q_items_nil : forall st, Q_items st [] [] st.
Proof. intros st. exists []. split; reflexivity. Qed.
Lemma q_items_cons : forall st t ts v l st1 st2, Q_lit st t v st1 -> Q_items st1 ts l st2 ->
  Q_items st (t :: ts) (v :: l) st2.
Proof.
  intros st t ts v l st1 st2 (b1 & E1 & R1) (b2 & E2 & R2). exists (b1 ++ b2).
  rewrite write_list_cons, E1. cbn [bind]. rewrite E2. split; [reflexivity|]. intros rest.
  cbn [peach]. papp. erewrite pbind_step; [|apply R1].
  erewrite pbind_step; [|apply R2]. reflexivity.
Qed.

(** *** Constants *)
Lemma ser_const_eq : forall t (v : lit G),
  ser_const (MkConst t v) = (a <- ser_type t ;; b <- ser_lit v ;; Ok (a ++ b)).
Proof. reflexivity. Qed.
Lemma q_const : forall st t v st', ty_ok t -> Q_lit st t v st' -> Q_const st (MkConst t v) st'.
Proof.
  intros st t v st' Ht (bs & E & R). destruct (type_prefix t Ht) as (c & tb & Et & Hc & Rt).
  exists c, (tb ++ bs). rewrite ser_const_eq, Et. cbn [bind]. rewrite E. split; [reflexivity|].
  split; [exact Hc|]. intros rest. unfold parse_const_tag. papp. pstep Rt.
  erewrite pbind_step; [|apply R]. reflexivity.
Qed.

(** *** Expressions *)
Lemma q_inline : forall st c st', Q_const st c st' -> Q_expr false st (EConst c) st'.
Proof.
  intros st c st' (hd & bs & E & T & R) _. exists hd, bs. rewrite se_const. cbn [put_const]. rewrite E.
  split; [reflexivity|]. apply type_code_range in T. split; [intros ->; unfold code_bools in T; lia|].
  intros rest. rewrite parse_tag_const by (unfold last_constant_code; lia). apply R.
Qed.
Lemma q_placeholder : forall (st : rst) id c, u32 id -> rs_subst st = false ->
  nth_error (rs_store st) (Z.to_nat id) = Some c -> Q_expr false st (EPlaceholder id (c_tpe c)) st.
Proof.
  intros st id c Hid Hs Hc _. destruct (get_put_u32 id Hid) as (b & E & R). exists code_placeholder, b.
  cbn [ser_expr]. split; [apply (wcat_step _ _ None [code_placeholder] None b); [reflexivity|apply wput_step, E]|].
  split; [discriminate|]. intros rest. change (parse_tag PX code_placeholder) with (@parse_placeholder G).
  unfold parse_placeholder. pstep R. unfold pbind, pstate. rewrite Hc, Hs. reflexivity.
Qed.

Lemma q_exprs_nil : forall m st, Q_exprs m st [] st.
Proof. intros m st _. exists []. split; reflexivity. Qed.
Lemma q_exprs_cons : forall m st e l st1 st2, Q_expr m st e st1 -> Q_exprs m st1 l st2 -> Q_exprs m st (e :: l) st2.
Proof.
  intros m st e l st1 st2 H1 H2 ->. destruct (expr_rt _ _ _ H1) as (b1 & E1 & _ & R1).
  destruct (H2 eq_refl) as (b2 & E2 & R2). exists (b1 ++ b2). rewrite wall_cons.
  split; [eapply wcat_step; eassumption|]. intros rest. cbn [List.length pread_n]. papp.
  erewrite pbind_step; [|apply R1]. erewrite pbind_step; [|apply R2]. reflexivity.
Qed.
Lemma q_none : forall m st, Q_opt m st None st.
Proof. intros m st _. exists [0]. split; reflexivity. Qed.
Lemma q_some : forall m st e st', Q_expr m st e st' -> Q_opt m st (Some e) st'.
Proof.
  intros m st e st' H ->. destruct (expr_rt _ _ _ H) as (b & E & _ & R). exists (1 :: b).
  split; [apply (wcat_step _ _ None [1] _ b _ eq_refl E)|]. intros rest. unfold popt. rewrite <- app_comm_cons.
  pstep (get_u8_cons 1 (b ++ rest)). change (1 =? 0) with false. cbv iota. erewrite pbind_step; [|apply R]. reflexivity.
Qed.

Lemma payload_rt : forall k p, pay_kind p = k -> payload_ok p ->
  exists bs, ser_payload p = Ok bs /\ forall rest, parse_payload k (bs ++ rest) = Ok (p, rest).
Proof.
  intros k p <- Hp. destruct p as [|t|r t|r t|t r|i]; cbn [payload_ok pay_kind ser_payload parse_payload] in *.
  - exists []. split; reflexivity.
  - destruct (type_rt t Hp) as (b & E & R). exists b. split; [exact E|]. intros rest. rewrite R. reflexivity.
  - destruct Hp as [Hr Ht]. destruct (get_put_i8 r Hr) as (b1 & E1 & R1). destruct (type_rt t Ht) as (b & E & R).
    rewrite E1. cbn [bind]. rewrite E. eexists. split; [reflexivity|]. intros rest. papp. rewrite R1. cbn [bind].
    rewrite R. reflexivity.
  - destruct Hp as [Hr Ht]. destruct (get_put_u8 r) as (b1 & E1 & R1). destruct (type_rt t Ht) as (b & E & R).
    rewrite E1. cbn [bind]. rewrite E. eexists. split; [reflexivity|]. intros rest. papp. rewrite R1. cbn [bind].
    rewrite R. reflexivity.
  - destruct Hp as [Hr Ht]. destruct (get_put_u8 r) as (b1 & E1 & R1). destruct (type_rt t Ht) as (b & E & R).
    rewrite E. cbn [bind]. rewrite E1. eexists. split; [reflexivity|]. intros rest. papp. rewrite R. cbn [bind].
    rewrite R1. reflexivity.
  - destruct (get_put_u8 i) as (b1 & E1 & R1). exists b1. split; [exact E1|]. intros rest. rewrite R1. cbn [bind].
    replace (i =? 0) with false by lia. reflexivity.
Qed.

Lemma op_code_not_bools : forall k, op_code k <> code_bools.
Proof. intros k; destruct k; discriminate. Qed.
Lemma bin_code_not_bools : forall k, bin_code k <> code_bools.
Proof. intros k; destruct k; discriminate. Qed.

Lemma otpe_map : forall d : option (expr G), otpe d = option_map tpe d.
Proof. intros [|]; reflexivity. Qed.

Lemma q_op : forall m st k p args d st1 st2 t,
  pay_kind p = op_pay k -> payload_ok p -> List.length args = op_arity k ->
  (op_has_opt k = false -> d = None) ->
  op_ty k p (map tpe args) (option_map tpe d) = Ok t ->
  Q_exprs m st args st1 -> ok_opt m st1 d st2 -> Q_opt m st1 d st2 -> Q_expr m st (EOp k p args d) st2.
Proof.
  intros m st k p args d st1 st2 t Hk Hp Ha Hd Ht H1 Hok H2 ->.
  destruct (H1 eq_refl) as (b1 & E1 & R1). destruct (payload_rt _ _ Hk Hp) as (b2 & E2 & R2).
  destruct (H2 eq_refl) as (b3 & E3 & R3).
  set (ob := if op_has_opt k then b3 else []).
  assert (EO : (if op_has_opt k then match d with Some x => wcat (wret [1]) (ser_expr x) | None => wret [0] end
                else wret []) None = Ok (ob, None)).
  { subst ob. destruct (op_has_opt k); [exact E3|reflexivity]. }
  assert (RO : forall rest, (if op_has_opt k then popt PX else pret None) st1 (ob ++ rest) = Ok (d, st2, rest)).
  { subst ob. intros rest. destruct (op_has_opt k); [apply R3|].
    rewrite (Hd eq_refl) in *. inversion Hok; subst. reflexivity. }
  exists (op_code k), (b1 ++ b2 ++ ob). split.
  { rewrite se_op. apply (wcat_step _ _ None [op_code k] None (b1 ++ b2 ++ ob)); [reflexivity|].
    eapply wcat_step; [exact E1|]. eapply wcat_step; [apply wput_step, E2|exact EO]. }
  split; [intros X; destruct (op_code_not_bools _ X)|]. intros rest. rewrite parse_tag_op. unfold parse_op.
  papp. rewrite <- Ha. erewrite pbind_step; [|apply R1]. pstep R2. erewrite pbind_step; [|apply RO].
  erewrite pbind_step; [|apply of_res_step; rewrite otpe_map; exact Ht]. reflexivity.
Qed.

Lemma q_bin_bools : forall m st k x y, Q_expr m st (EBin k (bool_const x) (bool_const y)) st.
Proof.
  intros m st k x y _. destruct (get_put_bits [x; y]) as (b & E & R). exists (bin_code k), (code_bools :: b).
  split.
  { rewrite se_bin. cbn [bool_const bool_consts lit_bool]. apply (wcat_step _ _ None [bin_code k] None (code_bools :: b)); [reflexivity|].
    apply wput_step. rewrite E. reflexivity. }
  split; [intros X; destruct (bin_code_not_bools _ X)|]. intros rest. rewrite parse_tag_bin. rewrite <- app_comm_cons.
  unfold parse_bin. rewrite Z.eqb_refl. pstep R. reflexivity.
Qed.

Lemma bool_consts_none : forall l r : expr G, ~ (is_bool_const l /\ is_bool_const r) -> bool_consts l r = None.
Proof.
  intros l r H. destruct l as [[t v]| | | | | | | | | | | |]; try reflexivity. destruct t; try reflexivity.
  destruct r as [[t w]| | | | | | | | | | | |]; try reflexivity. destruct t; try reflexivity.
  exfalso. apply H. split; exact I.
Qed.

Lemma q_bin : forall m st k l r st1 st2,
  ~ (is_bool_const l /\ is_bool_const r) -> ~ is_bools l ->
  Q_expr m st l st1 -> Q_expr m st1 r st2 -> Q_expr m st (EBin k l r) st2.
Proof.
  intros m st k l r st1 st2 H0 Hl H1 H2 ->. destruct (H1 eq_refl) as (c & b1 & E1 & Hc & _).
  destruct (expr_rt _ _ _ H1) as (b1' & E1' & _ & R1). rewrite E1 in E1'. injection E1' as <-.
  destruct (expr_rt _ _ _ H2) as (b2 & E2 & _ & R2).
  exists (bin_code k), ((c :: b1) ++ b2). split.
  { rewrite se_bin. rewrite bool_consts_none by exact H0.
    apply (wcat_step _ _ None [bin_code k] None ((c :: b1) ++ b2)); [reflexivity|]. eapply wcat_step; eassumption. }
  split; [intros X; destruct (bin_code_not_bools _ X)|]. intros rest. rewrite parse_tag_bin. papp.
  unfold parse_bin. replace (c =? code_bools) with false by (symmetry; apply Z.eqb_neq; intros X; auto).
  erewrite pbind_step; [|apply R1]. erewrite pbind_step; [|apply R2]. reflexivity.
Qed.

Lemma q_bools : forall m st l, Zlen l < 2 ^ 16 -> Q_expr m st (EBools l) st.
Proof.
  intros m st l Hl _. pose proof (Zlen_nonneg _ l). destruct (get_put_u16 (Zlen l)) as (nb & En & Rn); [unfold u16; lia|].
  destruct (get_put_bits l) as (b & E & R). exists code_bools, (nb ++ b). split.
  { cbn [ser_expr]. apply wput_step. rewrite wrapu_id by lia. rewrite En. cbn [bind]. rewrite E. reflexivity. }
  split; [intros _; exact I|]. intros rest. change (parse_tag PX code_bools) with (@parse_bools G).
  unfold parse_bools. papp. pstep Rn. rewrite Zlen_nat. pstep R. reflexivity.
Qed.

Lemma vec_rt : forall st l st', Zlen l < 2 ^ 32 -> Q_exprs false st l st' ->
  exists nb bs, put_u32 (wrapu 32 (Zlen l)) = Ok nb /\ wall ser_expr l None = Ok (bs, None) /\
    forall rest, pvec PX st (nb ++ bs ++ rest) = Ok (l, st', rest).
Proof.
  intros st l st' Hl H. pose proof (Zlen_nonneg _ l).
  destruct (get_put_u32 (Zlen l)) as (nb & En & Rn); [unfold u32; lia|].
  destruct (H eq_refl) as (bs & E & R). exists nb, bs. rewrite wrapu_id by lia. split; [exact En|].
  split; [exact E|]. intros rest. unfold pvec. pstep Rn. rewrite Zlen_nat. apply R.
Qed.

Lemma q_seq : forall m st q l st' t, seq_ok q (Zlen l) -> seq_ty q (map tpe l) = Ok t ->
  Q_exprs m st l st' -> Q_expr m st (ESeq q l) st'.
Proof.
  intros m st q l st' t Hq Ht H ->. pose proof (Zlen_nonneg _ l) as Hp. destruct q as [| | |u]; cbn [seq_ok] in Hq.
  - destruct (H eq_refl) as (bs & E & R). destruct (get_put_u8 (Zlen l)) as (nb & En & Rn).
    exists code_tuple, (nb ++ bs). split.
    { rewrite se_seq. cbn [seq_prefix]. rewrite wrapu_id by (change (2 ^ 8) with 256; lia). rewrite En. cbn [bind].
      apply (wcat_step _ _ None (code_tuple :: nb) None bs); [reflexivity|exact E]. }
    split; [discriminate|]. intros rest. change (parse_tag PX code_tuple) with (parse_tuple PX).
    unfold parse_tuple. papp. pstep Rn. rewrite Zlen_nat. erewrite pbind_step; [|apply R].
    unfold pbounded. rewrite bounded_ok by exact Hq. reflexivity.
  - destruct (vec_rt st l st') as (nb & bs & En & E & R); [change (2 ^ 32) with 4294967296; lia|exact H|].
    exists code_sigma_and, (nb ++ bs). split.
    { rewrite se_seq. cbn [seq_prefix]. rewrite En. cbn [bind].
      apply (wcat_step _ _ None (code_sigma_and :: nb) None bs); [reflexivity|exact E]. }
    split; [discriminate|]. intros rest. change (parse_tag PX code_sigma_and) with (parse_sigma_seq PX QSigmaAnd).
    unfold parse_sigma_seq. papp. erewrite pbind_step; [|apply R].
    erewrite pbind_step; [|apply of_res_step; exact Ht].
    unfold pbounded. rewrite bounded_ok by exact Hq. reflexivity.
  - destruct (vec_rt st l st') as (nb & bs & En & E & R); [change (2 ^ 32) with 4294967296; lia|exact H|].
    exists code_sigma_or, (nb ++ bs). split.
    { rewrite se_seq. cbn [seq_prefix]. rewrite En. cbn [bind].
      apply (wcat_step _ _ None (code_sigma_or :: nb) None bs); [reflexivity|exact E]. }
    split; [discriminate|]. intros rest. change (parse_tag PX code_sigma_or) with (parse_sigma_seq PX QSigmaOr).
    unfold parse_sigma_seq. papp. erewrite pbind_step; [|apply R].
    erewrite pbind_step; [|apply of_res_step; exact Ht].
    unfold pbounded. rewrite bounded_ok by exact Hq. reflexivity.
  - destruct Hq as [Hn Hu]. destruct (H eq_refl) as (bs & E & R).
    destruct (get_put_u16 (Zlen l)) as (nb & En & Rn); [unfold u16; lia|]. destruct (type_rt u Hu) as (tb & Et & Rt).
    exists code_coll, (nb ++ tb ++ bs). split.
    { rewrite se_seq. cbn [seq_prefix]. rewrite wrapu_id by lia. rewrite En. cbn [bind]. rewrite Et. cbn [bind].
      rewrite app_assoc. apply (wcat_step _ _ None (code_coll :: nb ++ tb) None bs); [reflexivity|exact E]. }
    split; [discriminate|]. intros rest. change (parse_tag PX code_coll) with (parse_coll PX).
    unfold parse_coll. papp. pstep Rn. pstep Rt. rewrite Zlen_nat. erewrite pbind_step; [|apply R]. reflexivity.
Qed.

Lemma args_rt : forall args, Forall arg_ok args -> Zlen args < 2 ^ 32 -> roundtrip ser_args parse_args args.
Proof.
  intros args Ha Hn. pose proof (Zlen_nonneg _ args).
  destruct (get_put_u32 (Zlen args)) as (nb & En & Rn); [unfold u32; lia|].
  assert (RT : forall a, In a args -> roundtrip ser_arg parse_arg a).
  { intros [i t] Hin. rewrite Forall_forall in Ha. destruct (Ha _ Hin) as [Hi Ht]. cbn [fst snd] in *.
    destruct (get_put_u32 i Hi) as (b1 & E1 & R1). destruct (type_rt t Ht) as (b2 & E2 & R2).
    unfold roundtrip, ser_arg. cbn [fst snd]. rewrite E1. cbn [bind]. rewrite E2. eexists. split; [reflexivity|].
    intros rest. unfold parse_arg. papp. rewrite R1. cbn [bind]. rewrite R2. reflexivity. }
  destruct (write_list_ok ser_arg args) as [bs E].
  { intros a Hin. destruct (RT a Hin) as (b & Eb & _). eauto. }
  exists (nb ++ bs). unfold ser_args. rewrite wrapu_id by lia. rewrite En. cbn [bind]. rewrite E.
  split; [reflexivity|]. intros rest. unfold parse_args. papp. rewrite Rn. cbn [bind]. rewrite Zlen_nat.
  apply write_list_read_n with (w := ser_arg); [exact E|]. intros a b rest' Hin Eb _.
  destruct (RT a Hin) as (b' & Eb' & Rb). rewrite Eb in Eb'. injection Eb' as <-. apply Rb.
Qed.

Lemma q_func : forall m st args body st', Forall arg_ok args -> Zlen args < 2 ^ 32 ->
  Q_expr m (insert_args args st) body st' -> Q_expr m st (EFunc args body) st'.
Proof.
  intros m st args body st' Ha Hn H ->. destruct (args_rt args Ha Hn) as (ab & Ea & Ra).
  destruct (expr_rt _ _ _ H) as (b & E & _ & R). exists code_func, (ab ++ b). split.
  { rewrite se_func. apply (wcat_step _ _ None [code_func] None (ab ++ b)); [reflexivity|].
    eapply wcat_step; [apply wput_step, Ea|exact E]. }
  split; [discriminate|]. intros rest. change (parse_tag PX code_func) with (parse_func PX).
  unfold parse_func. papp. pstep Ra. erewrite pbind_step; [|reflexivity]. erewrite pbind_step; [|reflexivity].
  erewrite pbind_step; [|apply R]. reflexivity.
Qed.

Lemma q_val_def : forall m st id rhs st', u32 id -> Q_expr m st rhs st' ->
  Q_expr m st (EValDef id rhs) (insert_type id (tpe rhs) st').
Proof.
  intros m st id rhs st' Hid H ->. destruct (get_put_u32 id Hid) as (ib & Ei & Ri).
  destruct (expr_rt _ _ _ H) as (b & E & _ & R). exists code_val_def, (ib ++ b). split.
  { rewrite se_val_def. apply (wcat_step _ _ None [code_val_def] None (ib ++ b)); [reflexivity|].
    eapply wcat_step; [apply wput_step, Ei|exact E]. }
  split; [discriminate|]. intros rest. change (parse_tag PX code_val_def) with (parse_val_def PX).
  unfold parse_val_def. papp. pstep Ri. erewrite pbind_step; [|apply R]. reflexivity.
Qed.

Lemma q_val_use : forall m (st : @rst G) id t, u32 id -> ty_lookup (rs_types st) id = Some t -> Q_expr m st (EValUse id t) st.
Proof.
  intros m st id t Hid Ht _. destruct (get_put_u32 id Hid) as (b & E & R). exists code_val_use, b. split.
  { cbn [ser_expr]. apply (wcat_step _ _ None [code_val_use] None b); [reflexivity|apply wput_step, E]. }
  split; [discriminate|]. intros rest. change (parse_tag PX code_val_use) with (@parse_val_use G).
  unfold parse_val_use. pstep R. unfold pbind, pstate. rewrite Ht. reflexivity.
Qed.

Lemma q_block : forall m st items r st1 st2, Zlen items < 2 ^ 32 ->
  Q_exprs m st items st1 -> Q_expr m st1 r st2 -> Q_expr m st (EBlock items r) st2.
Proof.
  intros m st items r st1 st2 Hn H1 H2 ->. destruct (vec_rt _ _ _ Hn H1) as (nb & bs & En & E & R).
  destruct (expr_rt _ _ _ H2) as (b & Eb & _ & Rb). exists code_block, (nb ++ bs ++ b). split.
  { rewrite se_block. apply (wcat_step _ _ None [code_block] None (nb ++ bs ++ b)); [reflexivity|].
    eapply wcat_step; [apply wput_step, En|]. eapply wcat_step; eassumption. }
  split; [discriminate|]. intros rest. change (parse_tag PX code_block) with (parse_block PX).
  unfold parse_block. papp. erewrite pbind_step; [|apply R]. erewrite pbind_step; [|apply Rb]. reflexivity.
Qed.

Lemma q_apply : forall m st f args st1 st2 t, Zlen args < 2 ^ 32 ->
  apply_ty (tpe f) (map tpe args) = Ok t ->
  Q_expr m st f st1 -> Q_exprs m st1 args st2 -> Q_expr m st (EApply f args) st2.
Proof.
  intros m st f args st1 st2 t Hn Ht H1 H2 ->. destruct (vec_rt _ _ _ Hn H2) as (nb & bs & En & E & R).
  destruct (expr_rt _ _ _ H1) as (b & Eb & _ & Rb). exists code_apply, (b ++ nb ++ bs). split.
  { rewrite se_apply. apply (wcat_step _ _ None [code_apply] None (b ++ nb ++ bs)); [reflexivity|].
    eapply wcat_step; [exact Eb|]. eapply wcat_step; [apply wput_step, En|exact E]. }
  split; [discriminate|]. intros rest. change (parse_tag PX code_apply) with (parse_apply PX).
  unfold parse_apply. papp. erewrite pbind_step; [|apply Rb]. erewrite pbind_step; [|apply R].
  erewrite pbind_step; [|apply of_res_step; exact Ht]. reflexivity.
Qed.

Lemma leqb_refl : forall l, leqb stype_eqb l l = true.
Proof.
  intros l. apply list_eqb_spec; [|reflexivity]. apply Forall_forall. intros a _ b. apply stype_eqb_eq.
Qed.

Lemma from_ids_codes : forall c i g, from_ids c i = Ok g -> is_type_code c = true /\ c <> 0.
Proof.
  intros c i g E. unfold from_ids in E. destruct (existsb (Z.eqb c) companion_codes) eqn:Ec; [|discriminate].
  apply existsb_exists in Ec. destruct Ec as (x & Hx & Ex). apply Z.eqb_eq in Ex. subst x.
  assert (F : forallb is_type_code companion_codes = true) by reflexivity.
  rewrite forallb_forall in F. apply F in Hx. split; [exact Hx|]. apply type_code_range in Hx. lia.
Qed.

Lemma type_code_step : forall c bs, is_type_code c = true -> parse_type_code (c :: bs) = Ok (c, bs).
Proof. intros c bs H. unfold parse_type_code. cbn [get_u8 bind]. rewrite H. reflexivity. Qed.

Lemma q_method : forall m st g g0 obj args st1 st2, Zlen args < 2 ^ 32 ->
  from_ids (sm_code g) (sm_id g) = Ok g0 ->
  specialize_for g0 (tpe obj) (map tpe args) = Ok g ->
  sm_dom g = tpe obj :: map tpe args ->
  Q_expr m st obj st1 -> Q_exprs m st1 args st2 -> Q_expr m st (EMethod g obj args) st2.
Proof.
  intros m st g g0 obj args st1 st2 Hn Hg Hs Hd H1 H2 ->. destruct (vec_rt _ _ _ Hn H2) as (nb & bs & En & E & R).
  destruct (expr_rt _ _ _ H1) as (b & Eb & _ & Rb).
  exists code_method, ([sm_code g; sm_id g] ++ b ++ nb ++ bs). split.
  { rewrite se_method.
    apply (wcat_step _ _ None [code_method; sm_code g; sm_id g] None (b ++ nb ++ bs)); [reflexivity|].
    eapply wcat_step; [exact Eb|]. eapply wcat_step; [apply wput_step, En|exact E]. }
  split; [discriminate|]. intros rest. change (parse_tag PX code_method) with (parse_method PX).
  unfold parse_method. papp. cbn [app]. papp. destruct (from_ids_codes _ _ _ Hg) as [Hc _].
  pstep (type_code_step _ (sm_id g :: b ++ nb ++ bs ++ rest) Hc).
  pstep (get_u8_cons (sm_id g) (b ++ nb ++ bs ++ rest)).
  erewrite pbind_step; [|apply Rb]. erewrite pbind_step; [|apply R].
  erewrite pbind_step; [|apply of_res_step; rewrite Hg; exact Hs].
  unfold method_types_match. rewrite Hd, leqb_refl. reflexivity.
Qed.

Lemma q_prop : forall m st g g0 obj st',
  from_ids (sm_code g) (sm_id g) = Ok g0 ->
  specialize_for g0 (tpe obj) [] = Ok g ->
  sm_dom g = [tpe obj] ->
  Q_expr m st obj st' -> Q_expr m st (EProp g obj) st'.
Proof.
  intros m st g g0 obj st' Hg Hs Hd H1 ->.
  destruct (expr_rt _ _ _ H1) as (b & Eb & _ & Rb).
  exists code_prop, ([sm_code g; sm_id g] ++ b). split.
  { rewrite se_prop.
    apply (wcat_step _ _ None [code_prop; sm_code g; sm_id g] None b); [reflexivity|exact Eb]. }
  split; [discriminate|]. intros rest. change (parse_tag PX code_prop) with (parse_prop PX).
  unfold parse_prop. papp. cbn [app]. destruct (from_ids_codes _ _ _ Hg) as [Hc _].
  pstep (type_code_step _ (sm_id g :: b ++ rest) Hc). pstep (get_u8_cons (sm_id g) (b ++ rest)).
  erewrite pbind_step; [|apply Rb].
  erewrite pbind_step; [|apply of_res_step; rewrite Hg; exact Hs].
  unfold method_types_match. rewrite Hd, leqb_refl. reflexivity.
Qed.

(** *** Scripts *)
Lemma header_rt : forall h, header_ok h -> forall rest, parse_header (th_serialized h :: rest) = Ok (h, rest).
Proof. intros [v [] []] [Hv|Hv] rest; cbn [th_version] in Hv; subst v; reflexivity. Qed.

Lemma ser_tree_parsed : forall h (cs : list (const G)) root c r,
  ser_seg h cs = Ok c -> ser_expr root None = Ok (r, None) ->
  ser_tree (Parsed h cs root) =
    (n <- (if th_size h then put_usize_as_u32_unwrapped (Zlen (c ++ r)) else Ok []) ;;
     Ok (th_serialized h :: n ++ c ++ r)).
Proof. intros h cs root c r Ec Er. rewrite st_parsed, Ec. cbn [bind]. unfold wrun. rewrite Er. reflexivity. Qed.

Lemma body_rt : forall h st cs st1 root st2, Q_seg h st cs st1 -> Q_expr false (set_store cs st1) root st2 ->
  exists c r, ser_seg h cs = Ok c /\ ser_expr root None = Ok (r, None) /\
    forall rest, parse_body PX h st (c ++ r ++ rest) = Ok (Parsed h cs root, st2, rest).
Proof.
  intros h st cs st1 root st2 (c & Ec & Rc) H. destruct (expr_rt _ _ _ H) as (r & Er & _ & Rr).
  exists c, r. split; [exact Ec|]. split; [exact Er|]. intros rest. unfold parse_body.
  erewrite pbind_step; [|apply Rc]. erewrite pbind_step; [|reflexivity]. erewrite pbind_step; [|reflexivity].
  erewrite pbind_step; [|apply Rr]. reflexivity.
Qed.

Lemma q_seg_yes : forall h st cs st', th_seg h = true -> Zlen cs <= max_constants -> Q_consts st cs st' -> Q_seg h st cs st'.
Proof.
  intros h st cs st' Hh Hn (bs & E & R). pose proof (Zlen_nonneg _ cs). unfold max_constants in Hn.
  destruct (put_usize_u32_rt (Zlen cs)) as (nb & En & Rn); [change (2 ^ 32) with 4294967296; lia|].
  unfold Q_seg, rt, ser_seg. rewrite Hh, En. cbn [bind]. rewrite E. eexists. split; [reflexivity|]. intros rest.
  unfold parse_constants. papp. pstep Rn. unfold max_constants. replace (4096 <? Zlen cs) with false by lia.
  rewrite Zlen_nat. apply R.
Qed.
Lemma q_seg_no : forall h st, th_seg h = false -> Q_seg h st [] st.
Proof. intros h st Hh. unfold Q_seg, rt, ser_seg. rewrite Hh. exists []. split; reflexivity. Qed.

Lemma q_sized : forall st h cs root st1 st2, header_ok h -> th_size h = true ->
  Q_seg h fresh cs st1 -> Q_expr false (set_store cs st1) root st2 ->
  (forall bs, ser_tree (Parsed (THeader (th_version h) (th_seg h) false) cs root) = Ok bs -> Zlen bs <= 2 ^ 32) ->
  Q_tree st (Parsed h cs root) st.
Proof.
  intros st h cs root st1 st2 Hh Hs H1 H2 Hsz. destruct (body_rt _ _ _ _ _ _ H1 H2) as (c & r & Ec & Er & R).
  assert (HL : Zlen (c ++ r) < 2 ^ 32).
  { specialize (Hsz _ (ser_tree_parsed (THeader (th_version h) (th_seg h) false) cs root c r Ec Er)).
    cbn [th_size bind app] in Hsz. rewrite Zlen_cons in Hsz. lia. }
  pose proof (Zlen_nonneg _ (c ++ r)).
  destruct (put_usize_u32_rt (Zlen (c ++ r))) as (nb & En & Rn); [lia|].
  exists (th_serialized h :: nb ++ c ++ r). rewrite (ser_tree_parsed _ _ _ _ _ Ec Er), Hs, En.
  split; [reflexivity|]. intros rest. unfold parse_tree. rewrite <- app_comm_cons. papp. pstep (header_rt h Hh).
  rewrite Hs. pstep Rn. rewrite Zlen_nat. rewrite app_assoc.
  erewrite pbind_step; [|apply lift_step, read_exact_app; reflexivity].
  specialize (R []). rewrite app_nil_r in R. rewrite R. reflexivity.
Qed.

Lemma q_unsized : forall st h cs root st1 st2, header_ok h -> th_size h = false ->
  Q_seg h st cs st1 -> Q_expr false (set_store cs st1) root st2 -> Q_tree st (Parsed h cs root) st2.
Proof.
  intros st h cs root st1 st2 Hh Hs H1 H2. destruct (body_rt _ _ _ _ _ _ H1 H2) as (c & r & Ec & Er & R).
  exists (th_serialized h :: c ++ r). rewrite (ser_tree_parsed _ _ _ _ _ Ec Er), Hs. cbn [bind app].
  split; [reflexivity|]. intros rest. unfold parse_tree. cbn [app]. papp. pstep (header_rt h Hh). rewrite Hs. apply R.
Qed.

Lemma q_unparsed : forall st h n nb buf e, header_ok h -> th_size h = true ->
  n = Zlen buf -> u32 n -> put_u32 n = Ok nb ->
  parse_body (@parse_expr G) h fresh buf = Err e ->
  Q_tree st (Unparsed (th_serialized h :: nb ++ buf)) st.
Proof.
  intros st h n nb buf e Hh Hs -> Hn En Hp. destruct (get_put_u32 _ Hn) as (nb' & En' & Rn).
  rewrite En in En'. injection En' as <-. exists (th_serialized h :: nb ++ buf). split; [reflexivity|].
  intros rest. unfold parse_tree. rewrite <- app_comm_cons. papp. pstep (header_rt h Hh).
  rewrite Hs. pstep Rn. rewrite Zlen_nat.
  erewrite pbind_step; [|apply lift_step, read_exact_app; reflexivity]. rewrite Hp.
  erewrite pbind_step; [|apply of_res_step, En]. reflexivity.
Qed.

(** *** Registers and boxes *)
Lemma q_reg_const : forall st c st', Q_const st c st' -> Q_reg st (RParsed c) st'.
Proof.
  intros st c st' H. pose proof (q_inline _ _ _ H) as H'. destruct (expr_rt _ _ _ H') as (bs & E & _ & R).
  destruct H as (hd & bs' & E' & _). rewrite se_const in E. cbn [put_const] in E. rewrite E' in E. injection E as <-.
  exists (hd :: bs'). split; [exact E'|]. intros rest. unfold parse_reg. erewrite pbind_step; [|apply R]. reflexivity.
Qed.
Lemma q_reg_tuple : forall st l st' c, 2 <= Zlen l <= 255 -> tuple_to_constant l = Some c ->
  Q_exprs false st l st' -> Q_reg st (RTuple l) st'.
Proof.
  intros st l st' c Hl Hc H. pose proof (q_seq false st QTuple l st' _ Hl eq_refl H) as H'.
  destruct (expr_rt _ _ _ H') as (bs & E & _ & R). exists bs. split.
  - rewrite sr_tuple. rewrite se_seq in E. unfold wcat, wput in E. inv_bind E. destruct b as [a s]. inv_bind E.
    destruct b as [b s']. injection E as <- ->. inv_bind Eb. injection Eb as -> <-. rewrite Eb1. cbn [bind].
    unfold wrun. rewrite Eb0. reflexivity.
  - intros rest. unfold parse_reg. erewrite pbind_step; [|apply R]. apply of_res_step. cbn [reg_of]. rewrite Hc. reflexivity.
Qed.

Lemma leqb_Z : forall a b : bytes, leqb Z.eqb a b = true <-> a = b.
Proof. intros a b. apply list_eqb_spec. apply Forall_forall. intros x _ y. apply Z.eqb_eq. Qed.

Lemma index_of_in : forall l id, In id l ->
  exists i, index_of l id = Some i /\ 0 <= i < Zlen l /\ nth_error l (Z.to_nat i) = Some id.
Proof.
  induction l as [|x l IH]; intros id H; [destruct H|]. cbn [index_of]. rewrite Zlen_cons. pose proof (Zlen_nonneg _ l).
  destruct (leqb Z.eqb x id) eqn:E.
  - apply leqb_Z in E. subst x. exists 0. repeat split; try lia. 
  - destruct H as [->|H]; [rewrite (proj2 (leqb_Z _ _) eq_refl) in E; discriminate|].
    destruct (IH id H) as (i & Ei & Hi & Hn). rewrite Ei. exists (i + 1). split; [reflexivity|]. split; [lia|].
    replace (Z.to_nat (i + 1)) with (S (Z.to_nat i)) by lia. exact Hn.
Qed.

Lemma token_rt : forall ids t, token_ok t ->
  match ids with None => True | Some l => Zlen l <= 2 ^ 32 /\ In (fst t) l end ->
  roundtrip (ser_token ids) (parse_token ids) t.
Proof.
  intros ids [id a] [Hid Ha] Hc. cbn [fst snd] in *.
  destruct (get_put_u64 a) as (ab & Ea & Ra).
  { unfold u64. change (2 ^ 63) with 9223372036854775808 in Ha. change (2 ^ 64) with 18446744073709551616. lia. }
  assert (HT : token_amount_of a = Ok a).
  { unfold token_amount_of, i64_max. change (2 ^ 63) with 9223372036854775808 in *.
    replace ((1 <=? a) && (a <=? 9223372036854775808 - 1)) with true by lia. reflexivity. }
  unfold roundtrip, ser_token. cbn [fst snd]. destruct ids as [l|].
  - destruct Hc as [Hl Hin]. destruct (index_of_in l id Hin) as (i & Ei & Hi & Hn). rewrite Ei.
    destruct (get_put_u32 i) as (ib & Eib & Rib); [unfold u32; lia|].
    replace (i <? 2 ^ 32) with true by lia. rewrite Eib. cbn [bind]. rewrite Ea. eexists. split; [reflexivity|].
    intros rest. unfold parse_token. papp. rewrite Rib. cbn [bind]. rewrite Hn. cbn [of_option bind].
    rewrite Ra. cbn [bind]. rewrite HT. reflexivity.
  - cbn [bind]. rewrite Ea. eexists. split; [reflexivity|]. intros rest. unfold parse_token. papp.
    rewrite read_exact_app by exact Hid. cbn [bind]. rewrite Ra. cbn [bind]. rewrite HT. reflexivity.
Qed.

Lemma q_cand : forall st v t tk rg h st1 st2,
  box_value_min <= v <= 2 ^ 63 - 1 -> u32 h -> Forall token_ok tk -> Zlen tk <= max_tokens ->
  Zlen rg <= max_regs -> Q_tree st t st1 -> Q_regs st1 rg st2 -> Q_cand st (MkCand v t tk rg h) st2.
Proof.
  intros st v t tk rg h st1 st2 Hv Hh Htk Hnt Hnr (tb & Et & Rt) (rb & Er & Rr) ids Hids.
  pose proof (Zlen_nonneg _ tk). pose proof (Zlen_nonneg _ rg). unfold max_tokens, max_regs in *.
  destruct (get_put_u64 v) as (vb & Ev & Rv).
  { unfold u64, box_value_min in *. change (2 ^ 63) with 9223372036854775808 in Hv. change (2 ^ 64) with 18446744073709551616. lia. }
  assert (HV : box_value_of v = Ok v).
  { unfold box_value_of, i64_max. change (2 ^ 63) with 9223372036854775808 in *.
    replace ((box_value_min <=? v) && (v <=? 9223372036854775808 - 1)) with true by lia. reflexivity. }
  destruct (get_put_u32 h Hh) as (hb & Eh & Rh).
  assert (RT : forall x, In x tk -> roundtrip (ser_token ids) (parse_token ids) x).
  { intros x Hx. rewrite Forall_forall in Htk. apply token_rt; [auto|]. destruct ids as [l|]; [|exact I].
    destruct Hids as [H1 H2]. rewrite Forall_forall in H2. auto. }
  destruct (write_list_ok (ser_token ids) tk) as [kb Ek].
  { intros a Hin. destruct (RT a Hin) as (b & Eb & _). eauto. }
  assert (Rk : forall rest, read_n (List.length tk) (parse_token ids) (kb ++ rest) = Ok (tk, rest)).
  { intros rest. apply write_list_read_n with (w := ser_token ids); [exact Ek|]. intros a b rest' Hin Eb _.
    destruct (RT a Hin) as (b' & Eb' & Rb). rewrite Eb in Eb'. injection Eb' as <-. apply Rb. }
  exists (vb ++ tb ++ hb ++ [Zlen tk] ++ kb ++ [Zlen rg] ++ rb). split.
  { rewrite sc_cand. rewrite Et. cbn [bind]. rewrite Ev. cbn [bind]. rewrite Eh. cbn [bind].
    replace (Zlen tk <=? 255) with true by lia. cbn [put_u8 bind]. rewrite Ek. cbn [bind].
    rewrite wrapu_id by (change (2 ^ 8) with 256; lia). cbn [put_u8 bind]. rewrite Er. reflexivity. }
  intros rest. unfold parse_cand. papp.
  erewrite pbind_step; [|apply lift_step; unfold parse_value; rewrite Rv; cbn [bind]; rewrite HV; reflexivity].
  erewrite pbind_step; [|apply Rt]. pstep Rh.
  erewrite pbind_step; [|apply lift_step; unfold parse_tokens; cbn [app get_u8 bind]; rewrite Zlen_nat, Rk; cbn [bind];
    unfold max_tokens; replace (Zlen tk <=? 122) with true by lia; reflexivity].
  unfold parse_regs. cbn [app].
  erewrite pbind_step; [reflexivity|]. erewrite pbind_step; [|apply lift_step; reflexivity].
  rewrite Zlen_nat. erewrite pbind_step; [|apply Rr]. unfold max_regs.
  replace (Zlen rg <=? 6) with true by lia. reflexivity.
Qed.

Lemma q_box : forall st c txid i st', List.length txid = 32%nat -> u16 i -> Q_cand st c st' -> Q_box st (MkBox c txid i) st'.
Proof.
  intros st c txid i st' Ht Hi H. destruct (H None I) as (cb & Ec & Rc). destruct (get_put_u16 i Hi) as (ib & Ei & Ri).
  assert (E : ser_box (MkBox c txid i) = Ok (cb ++ txid ++ ib)).
  { rewrite sb_box. rewrite Ec. cbn [bind]. rewrite Ei. reflexivity. }
  exists (cb ++ txid ++ ib). split; [exact E|]. intros rest. unfold parse_box. papp.
  erewrite pbind_step; [|apply Rc]. erewrite pbind_step; [|apply lift_step, read_exact_app; exact Ht].
  pstep Ri. erewrite pbind_step; [|apply of_res_step; exact E]. reflexivity.
Qed.

(** ** The round trip *)
Theorem ok_roundtrip :
  (forall st t v st', ok_lit st t v st' -> Q_lit st t v st') /\
  (forall st t l st', ok_lits st t l st' -> Q_lits st t l st') /\
  (forall st ts l st', ok_items st ts l st' -> Q_items st ts l st') /\
  (forall st c st', ok_const st c st' -> Q_const st c st') /\
  (forall st l st', ok_consts st l st' -> Q_consts st l st') /\
  (forall m st e st', ok_expr m st e st' -> Q_expr m st e st') /\
  (forall m st l st', ok_exprs m st l st' -> Q_exprs m st l st') /\
  (forall m st d st', ok_opt m st d st' -> Q_opt m st d st') /\
  (forall st t st', ok_tree st t st' -> Q_tree st t st') /\
  (forall h st cs st', ok_seg h st cs st' -> Q_seg h st cs st') /\
  (forall st r st', ok_reg st r st' -> Q_reg st r st') /\
  (forall st l st', ok_regs st l st' -> Q_regs st l st') /\
  (forall st c st', ok_cand st c st' -> Q_cand st c st') /\
  (forall st b st', ok_box st b st' -> Q_box st b st').
Proof.
  apply ok_mutind; intros;
    eauto using q_unit, q_bool, q_byte, q_short, q_int, q_long, q_bigint, q_group, q_sigma, q_avl, q_lbox,
      q_bytes, q_tup, q_items_nil, q_items_cons, q_const, q_inline, q_placeholder, q_exprs_nil, q_exprs_cons,
      q_bin_bools, q_bin, q_bools, q_seq, q_func, q_val_def, q_val_use, q_block, q_apply,
      q_method, q_prop, q_seg_yes, q_seg_no, q_sized, q_unsized, q_unparsed, q_reg_const, q_reg_tuple,
      q_cand, q_box, q_coll, q_op, q_none, q_some, const_rt.
  - apply rt_nil.
  - eapply rt_cons; eassumption.
  - apply rt_nil.
  - eapply rt_cons; [apply const_rt|]; eassumption.
  - intros X. discriminate X.
  - apply rt_nil.
  - eapply rt_cons; eassumption.
Qed.
End Proofs.
