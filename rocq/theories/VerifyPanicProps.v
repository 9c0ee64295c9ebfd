(** C95: reading and checking what was received from somebody else. *)
From Verif Require Import Base VlqModel VlqProofs GfModel GroupModel GroupProofs SigmaModel SigmaSpec ProverModel SigmaProofs VerifierProofs.
From Verif Require Import TypeModel TypeProofs MethodModel IrModel SerModel SerLocal SerSpec SerProofs SerSeg SerProps ChainModel ChainProps
  HeaderModel TxModel TxProps SignModel ReadProofs ParseProofs ParseProps EqModel PrintModel EvalModel EvalProofs PrintProofs EvalPanic
  EvalPanicProps SegPanic SpendProps SigmaProps.
Local Open Scope string_scope.
Local Open Scope list_scope.
Local Open Scope Z_scope.

(** ** What was received *)
Section Spec.
Context {G : group}.
(** A box that was read from bytes. *)
Definition fetched (b : box G) : Prop :=
  exists bs st rest, bytes_ok bs /\ Zlen bs < 2 ^ 30 /\ parse_box parse_expr fresh bs = Ok (b, st, rest).
(** No script that the context holds in a variable, or in a register of the box to
    spend, writes scripts; those in registers can be printed. *)
Definition quiet_ctx (c : context G (chain_state G)) : Prop :=
  (forall b (x : expr G), var_script c b -> from_bytes parse_expr b = Ok x -> every no_subst x) /\
  (forall b (x : expr G), reg_script c b -> from_bytes parse_expr b = Ok x -> every no_subst x /\ every printable x).
(** The same for the script of a box. *)
Definition quiet_script (t : tree G) : Prop :=
  (forall h cs root, t = Parsed h cs root -> every no_subst root) /\
  (forall x, proposition t = Ok x -> every printable x).
End Spec.

(** ** Proofs *)
Section Proofs.
Context {G : group} (HG : group_ok G).

Lemma read_bytes_short : forall (k : const G) b, read_const k -> script_const k = Ok b -> Zlen b < 2 ^ 16.
Proof.
  intros k b (st & st' & O) E. unfold script_const in E. destruct (stype_eqb (c_tpe k) cbyte) eqn:Et; [|discriminate].
  inversion O as [s t v s' Ht Ol]; subst. cbn [c_tpe c_val] in *. apply stype_eqb_eq in Et. subst t.
  destruct v; try discriminate. injection E as <-. inversion Ol; subst. unfold as_u8s, Zlen in *. rewrite map_length. assumption.
Qed.

Lemma reg_in : forall st l st', ok_regs (G := G) st l st' -> forall c, In (RParsed c) l -> read_const c.
Proof.
  intros st l st' O. induction O as [st|st r l st1 st2 R O IH]; intros c [].
  - subst r. inversion R; subst. exists st, st1. assumption.
  - auto.
Qed.
Lemma no_invalid : forall st l st', ok_regs (G := G) st l st' -> forall b, ~ In (RInvalid b) l.
Proof. intros st l st' O. induction O as [st|st r l st1 st2 R O IH]; intros b []; [subst r; inversion R|exact (IH b H)]. Qed.

Lemma fetched_ok : forall b : box G, fetched b -> exists st s, ok_box fresh b st /\ ser_box b = Ok s /\ Zlen s < 2 ^ 31.
Proof.
  intros b (bs & st & rest & Bb & Lb & E).
  assert (Hi : input_ok bs) by (split; [exact Bb|lia]).
  pose proof (sat_out _ (parse_box parse_expr) QB fresh bs (fun k Hk st0 => sat_box k Hk (sat_expr HG k Hk) st0) eq_refl Hi) as X.
  rewrite E in X. destruct X as (u & -> & (H1 & (x & Ex & Lx & _))). exists st, x. rewrite Zlen_app in Lb.
  pose proof (Zlen_nonneg _ rest). repeat split; [exact H1|exact Ex|lia].
Qed.
Lemma fetched_read : forall b : box G, fetched b -> read_box b.
Proof. intros b F. destruct (fetched_ok b F) as (st & s & O & _). exists fresh, st. exact O. Qed.

Lemma tree_in_box : forall (b : box G) s, ser_box b = Ok s -> exists t, ser_tree (cd_tree (b_cand b)) = Ok t /\ Zlen t <= Zlen s.
Proof.
  intros [[v t tk rg h] txid i] s E. rewrite sb_box, sc_cand in E. cbn [b_cand cd_tree].
  destruct (ser_tree t) as [tb| |]; try discriminate. cbn [bind] in E. exists tb. split; [reflexivity|].
  repeat match type of E with
  | bind (bind _ _) _ = _ => apply bind_ok in E; destruct E as (? & Ea & E)
  | bind _ _ = _ => apply bind_ok in E; destruct E as (? & ? & E)
  end. injection E as <-.
  repeat match type of Ea with bind _ _ = _ => apply bind_ok in Ea; destruct Ea as (? & ? & Ea) end. injection Ea as <-.
  rewrite !Zlen_app.
  repeat match goal with |- context [Zlen ?l] => lazymatch goal with _ : 0 <= Zlen l |- _ => fail | _ => pose proof (Zlen_nonneg _ l) end end. lia.
Qed.
Lemma root_in_tree : forall h cs (root : expr G) t, ser_tree (Parsed h cs root) = Ok t ->
  exists y s, ser_expr root None = Ok (y, s) /\ Zlen y + 1 <= Zlen t.
Proof.
  intros h cs root t E. rewrite st_parsed in E. apply bind_ok in E. destruct E as (c & _ & E).
  apply bind_ok in E. destruct E as (r & Er & E). apply bind_ok in E. destruct E as (n & _ & E). injection E as <-.
  unfold wrun in Er. destruct (ser_expr root None) as [[y s]| |]; try discriminate. injection Er as <-. exists y, s.
  split; [reflexivity|]. rewrite Zlen_cons, !Zlen_app. pose proof (Zlen_nonneg _ n). pose proof (Zlen_nonneg _ c). lia.
Qed.

(** A script inside something that was read has a proposition made of nodes that
    a reader makes, or none. *)
Lemma tree_safe : forall st h cs (root : expr G) st' s, ok_tree st (Parsed h cs root) st' -> ser_tree (Parsed h cs root) = Ok s -> Zlen s <= 2 ^ 32 ->
  proposition (Parsed h cs root) <> Panic /\
  (forall e, proposition (Parsed h cs root) = Ok e -> every node_read e /\ (every no_subst root -> every no_subst e) /\ nodes e < 2 ^ 32).
Proof.
  intros st h cs root st' s O E L. destruct (root_in_tree _ _ _ _ E) as (y & s0 & Ey & Ly).
  destruct (@ok_node_read G) as (_ & _ & _ & _ & _ & _ & _ & _ & T & _). destruct (T _ _ _ O _ _ _ eq_refl) as [Rc Rr].
  assert (X : exists st0 st1, ok_expr false st0 root st1) by (inversion O; subst; eauto). destruct X as (st0 & st1 & Oe).
  destruct (@enough_bytes G) as (_ & _ & _ & _ & _ & NB & _). destruct (NB _ _ _ _ Oe _ _ Ey) as [-> Ln].
  destruct (proposition_safe h cs root st0 st1 y Oe Ey) as [A B]; [lia|exact Rc|exact Rr|].
  split; [exact A|]. intros e Ee. destruct (B e Ee) as (B1 & B2 & B3). repeat split; auto. lia.
Qed.

Lemma expr_nodes : forall bs (x : expr G) st rest, input_ok bs -> parse_expr fresh bs = Ok (x, st, rest) -> nodes x < 2 ^ 32.
Proof.
  intros bs x st rest Hi E. pose proof (sat_out _ _ _ fresh bs (sat_expr HG) eq_refl Hi) as X. rewrite E in X.
  destruct X as (u & -> & (H1 & (y & Ey & Ly & _) & _)). destruct (@enough_bytes G) as (_ & _ & _ & _ & _ & NB & _).
  destruct (NB _ _ _ _ H1 _ _ Ey) as [_ Ln]. destruct Hi as [_ Hl]. rewrite Zlen_app in Hl. pose proof (Zlen_nonneg _ rest). lia.
Qed.

Lemma register_short : forall (b : box G) i k s, fetched b -> get_register b i = Ok (Some k) -> script_const k = Ok s -> Zlen s < 2 ^ 31.
Proof.
  intros b i k s F E S. destruct (fetched_ok b F) as (st & sb & O & Es & Ls). destruct (tree_in_box b sb Es) as (t & Et & Lt).
  assert (R : regs_get_constant (cd_regs (b_cand b)) i = Ok (Some k) -> Zlen s < 2 ^ 31).
  { intros Q. unfold regs_get_constant in Q. destruct (nth_error (cd_regs (b_cand b)) (Z.to_nat (i - 4))) as [r|] eqn:En; [|discriminate].
    apply nth_error_In in En. inversion O as [s0 c tx ix s1 _ _ Oc]; subst. inversion Oc; subst. cbn [b_cand cd_regs] in *.
    destruct r as [c|l|bb]; cbn [reg_constant bind] in Q.
    - injection Q as <-. pose proof (read_bytes_short c s ltac:(eapply reg_in; eassumption) S). lia.
    - unfold tuple_to_constant in Q. destruct (opt_list const_value l); [|discriminate]. cbn [of_option bind] in Q. injection Q as <-. discriminate S.
    - discriminate. }
  unfold get_register in E. destruct i as [|[p|[p|p|]|]|p]; auto.
  - injection E as <-. discriminate S.
  - destruct p; auto. destruct (creation_info b) as [h s0]. injection E as <-. discriminate S.
  - injection E as <-. discriminate S.
  - unfold script_bytes in E. rewrite Et in E. cbn [bind] in E. injection E as <-. cbn in S. injection S as <-.
    unfold as_u8s, as_i8s, Zlen in *. rewrite !map_length. lia.
Qed.

Lemma find_box_in : forall (l : list (ebox G)) id b, find_box l id = Some b -> In b l.
Proof. intros l id b E. apply find_some in E. apply E. Qed.
Lemma find_all_in : forall (l : list (ebox G)) ids e r, find_all l ids e = Ok r -> forall b, In b r -> In b l.
Proof.
  intros l ids e. induction ids as [|id ids IH]; cbn [find_all]; intros r E b Hb; [injection E as <-; destruct Hb|].
  destruct (find_box l id) as [b0|] eqn:F; [|discriminate]. cbn [of_option bind] in E. apply bind_ok in E.
  destruct E as (r' & Er & E). injection E as <-. destruct Hb as [<-|Hb]; [eapply find_box_in, F|eauto].
Qed.
Lemma find_all_no_panic : forall (l : list (ebox G)) ids e, find_all l ids e <> Panic.
Proof.
  intros l ids e. induction ids as [|id ids IH]; cbn [find_all]; [discriminate|].
  apply bind_no_panic; [destruct (find_box l id); discriminate|]. intros b. apply bind_no_panic; [exact IH|]. intros r. discriminate.
Qed.

(** ** Every script that was read (C69, C75) *)
Lemma read_tree : forall bs (t : tree G), input_ok bs -> tree_of_bytes bs = Ok t ->
  proposition t <> Panic /\
  forall h cs root x, t = Parsed h cs root -> proposition t = Ok x ->
    every node_read x /\ (every no_subst root -> every no_subst x) /\ nodes x < 2 ^ 32.
Proof.
  intros bs t Hi E. destruct t as [b|h cs root]; [split; [discriminate|intros; discriminate]|].
  destruct (tree_parsed _ _ _ _ _ E) as [st Es].
  pose proof (sat_out _ parse_script QTr fresh bs (fun k Hk st0 => sat_tree k Hk (sat_expr HG k Hk) st0) eq_refl Hi) as X.
  rewrite Es in X. destruct X as (u & -> & (H1 & (y & Ey & Ly & _))). destruct Hi as [_ Hl]. rewrite Zlen_app in Hl.
  pose proof (Zlen_nonneg _ (@nil Z)).
  destruct (tree_safe _ _ _ _ _ y H1 Ey) as [A B]; [lia|].
  split; [exact A|]. intros h' cs' root' x [= <- <- <-] Ex. apply B, Ex.
Qed.

(** Looking at the script of a box or address never panics. *)
Theorem c69_no_panic : forall bs (t : tree G), input_ok bs -> tree_of_bytes bs = Ok t -> proposition t <> Panic.
Proof. intros bs t Hi E. apply (read_tree bs t Hi E). Qed.

Section Run.
Variable H : bytes -> bytes.
Notation state := (chain_state G).

Lemma outputs_read : forall txid cs st st', length txid = 32%nat -> ok_cands (G := G) st cs st' -> forall i l,
  mk_outputs H txid i cs = Ok l -> Forall (fun b => read_box (snd b)) l.
Proof.
  intros txid cs st st' Ht O. induction O as [st|st c l st1 st2 Oc O IH]; intros i r E; cbn [mk_outputs] in E; [injection E as <-; constructor|].
  apply bind_ok in E. destruct E as (id & _ & E). apply bind_ok in E. destruct E as (l' & El & E). injection E as <-.
  constructor; [|eauto]. exists st, st1. constructor; [exact Ht| |exact Oc]. unfold u16, wrapu. apply Z.mod_pos_bound. lia.
Qed.

Lemma input_in : forall st (l : list (input G)) st', QIns st l st' -> forall i, In i l ->
  Forall read_const (map snd (in_ext i)) /\ bytes_ok (proof_bytes (in_proof i)) /\ proof_ok (in_proof i).
Proof.
  intros st l st' Q. induction Q as [st|st j st1 l st2 QJ Q IH]; intros i []; [|auto].
  subst j. destruct QJ as (_ & P & _ & F & _ & B). split; [|split; [exact B|exact P]].
  eapply Forall_impl; [|exact F]. intros c [_ R]. exact R.
Qed.
Lemma ext_get_in : forall (m : ext G) i k, ext_get m i = Some k -> In k (map snd m).
Proof.
  intros m i k. unfold ext_get. induction m as [|[j d] m IH]; cbn; [discriminate|].
  destruct (_ =? _); [intros [= <-]; auto|auto].
Qed.

(** The transaction that was read, with its parts. *)
Lemma tx_parts : (forall b, length (H b) = 32%nat) -> forall bs (t : tx G) st rest, input_ok bs -> parse_tx H fresh bs = Ok (t, st, rest) ->
  Forall (fun b => read_box (snd b)) (t_outputs t) /\ (exists m, bytes_to_sign t = Ok m) /\
  (forall i, In i (t_inputs t) -> Forall read_const (map snd (in_ext i)) /\ bytes_ok (proof_bytes (in_proof i)) /\ proof_ok (in_proof i)).
Proof.
  intros HH bs t st rest Hi E.
  pose proof (sat_out _ (parse_tx H) (fun s t s' _ => QTx H s t s') fresh bs (fun k Hk st0 => sat_tx HG k Hk H st0) eq_refl Hi) as X.
  rewrite E in X. destruct X as (u & _ & (ins & st1 & d & cs & Et & Ci & Hd & Cc & Qi & Oc)).
  destruct (tx_new_inv _ _ _ _ _ Et) as (m & outs & Em & _ & Eo & ->). cbn [t_outputs t_inputs].
  split; [eapply outputs_read; [apply HH|exact Oc|exact Eo]|]. split; [exists m; exact Em|].
  intros i Hin. eapply input_in; eassumption.
Qed.

Lemma ctx_read : (forall b, length (H b) = 32%nat) -> forall bs (t : tx G) st0 rest (x : txctx G (tx G)) (st : state) i c,
  input_ok bs -> parse_tx H fresh bs = Ok (t, st0, rest) -> x_tx x = t ->
  Forall (fun b => fetched (snd b)) (x_boxes x) -> (forall l, x_data x = Some l -> Forall (fun b => fetched (snd b)) l) ->
  snd st <> [] -> make_context signed_etx state_height st x i = Ok c -> quiet_ctx c ->
  read_ctx c /\ fetched (snd (c_self c)).
Proof.
  intros HH bs t st0 rest x st i c Hi Et Ex Fb Fd Hs Ec [Q1 Q2].
  destruct (tx_parts HH bs t st0 rest Hi Et) as (Po & _ & Pi).
  unfold make_context in Ec. apply bind_ok in Ec. destruct Ec as (id & _ & Ec). apply bind_ok in Ec. destruct Ec as (self & Es & Ec).
  apply bind_ok in Ec. destruct Ec as (outs & Eo & Ec). apply bind_ok in Ec. destruct Ec as (d & Ed & Ec).
  apply bind_ok in Ec. destruct Ec as (ins & Ei & Ec). apply bind_ok in Ec. destruct Ec as (ex & Ee & Ec). injection Ec as <-.
  cbn [signed_etx e_outputs e_data e_ext] in *. rewrite Ex in *. injection Eo as <-.
  rewrite Forall_forall in Fb.
  assert (SF : fetched (snd self)). { apply Fb. destruct (find_box (x_boxes x) id) eqn:F; [|discriminate]. injection Es as <-. eapply find_box_in, F. }
  assert (ER : forall j k, ext_get ex j = Some k -> read_const k).
  { intros j k G1. destruct (nth_error (t_inputs t) i) as [inp|] eqn:N; [|discriminate]. cbn in Ee. injection Ee as <-.
    destruct (Pi inp) as [R _]; [eapply nth_error_In, N|]. rewrite Forall_forall in R. apply R. eapply ext_get_in, G1. }
  cbn [c_self]. split; [|exact SF].
  unfold read_ctx. cbn [c_self c_inputs c_outputs c_data c_ext c_state].
  split; [apply fetched_read, SF|].
  split; [apply Forall_forall; intros b Hb; apply fetched_read, Fb; eapply find_all_in; eassumption|]. split; [exact Po|].
  split.
  { intros l ->. apply Forall_forall. intros b Hb. apply fetched_read.
    destruct (t_data t) as [ids|]; [|discriminate]. destruct (x_data x) as [dl|] eqn:Ed'.
    - apply bind_ok in Ed. destruct Ed as (r & Er & Ed). injection Ed as <-. pose proof (Fd dl eq_refl) as F. rewrite Forall_forall in F.
      apply F. eapply find_all_in; eassumption.
    - destruct ids; [injection Ed as <-; destruct Hb|discriminate]. }
  split; [exact ER|]. split; [exact Hs|]. split.
  - intros b V. split; [|intros y Ey; eapply Q1; eassumption].
    destruct V as (j & k & V1 & V2). pose proof (read_bytes_short k b (ER j k V1) V2). lia.
  - intros b V. pose proof V as V'. destruct V' as (j & k & V1 & V2).
    assert (L : Zlen b < 2 ^ 31) by (eapply register_short; [exact SF|exact V1|exact V2]).
    split; [exact L|]. intros y Ey. destruct (Q2 b y V Ey) as [N1 N2]. split; [exact N1|]. split; [exact N2|].
    unfold from_bytes in Ey. destruct (parse_expr fresh b) as [[[z sz] rz]| |] eqn:Pz; try discriminate. injection Ey as ->.
    assert (nodes y < 2 ^ 32). { eapply expr_nodes; [|exact Pz]. split; [|exact L]. eapply script_ok, V2. }
    change (2 ^ 63) with 9223372036854775808. change (2 ^ 32) with 4294967296 in *. lia.
Qed.

Variable sha : bytes -> bytes.
Variable fits : Z -> bool.
Variable avlv : avl_verifier.
Notation verify_in n := (verify_input H (reducer H sha fits avlv n) state_height).
Notation eval c := (EvalModel.eval H sha fits avlv c).

(** Every script that was read, with a constant store or without. *)
Theorem c75_any_script_partial : forall bs h cs root (x : expr G), input_ok bs -> tree_of_bytes bs = Ok (Parsed h cs root) ->
  proposition (Parsed h cs root) = Ok x -> every no_subst root -> forall c fuel, read_ctx c -> eval c fuel x [] <> Panic.
Proof.
  intros bs h cs root x Hi E Ex N c fuel C. destruct (read_tree bs _ Hi E) as [_ B].
  destruct (B _ _ _ _ eq_refl Ex) as (B1 & B2 & _). apply (c75_eval_partial HG); auto.
Qed.


(** ** C95 *)
Theorem c95_verify_partial : (forall b, length (H b) = 32%nat) ->
  forall bs (t : tx G) st0 rest (x : txctx G (tx G)) (st : state) i n,
  input_ok bs -> parse_tx H fresh bs = Ok (t, st0, rest) -> x_tx x = t ->
  Forall (fun b => fetched (snd b)) (x_boxes x) -> (forall l, x_data x = Some l -> Forall (fun b => fetched (snd b)) l) ->
  snd st <> [] ->
  (forall c, make_context signed_etx state_height st x i = Ok c ->
    quiet_ctx c /\ quiet_script (box_tree (c_self c)) /\
    forall p v e, proposition (box_tree (c_self c)) = Ok p -> eval c n p [] = Ok (v, e) -> exists s, as_prop v = Some s /\ thr_ok s) ->
  verify_in n st x i <> Panic.
Proof.
  intros HH bs t st0 rest x st i n Hi Et Ex Fb Fd Hs Hc. unfold verify_input.
  destruct (nth_error (t_inputs (x_tx x)) i) as [inp|] eqn:Ni; [|discriminate]. cbn [of_option bind].
  destruct (find_box (x_boxes x) (in_box inp)) as [b|] eqn:Fi; [|discriminate]. cbn [of_option bind].
  destruct (tx_parts HH bs t st0 rest Hi Et) as (_ & (m & Em) & Pi).
  assert (Hm : make_context signed_etx state_height st x i <> Panic).
  { unfold make_context. cbn [signed_etx e_outputs e_data e_inputs e_ext]. apply bind_no_panic; [destruct (nth_error (map in_box _) i); discriminate|].
    intros id. apply bind_no_panic; [destruct (find_box (x_boxes x) id); discriminate|]. intros self. cbn [bind].
    apply bind_no_panic; [|intros d; apply bind_no_panic; [apply find_all_no_panic|intros r; rewrite Ni; discriminate]].
    destruct (t_data (x_tx x)) as [ids|]; [|discriminate]. destruct (x_data x); [|destruct ids; discriminate].
    apply bind_no_panic; [apply find_all_no_panic|intros r; discriminate]. }
  destruct (make_context signed_etx state_height st x i) as [c|er|] eqn:Ec; [|discriminate|contradiction]. cbn [bind].
  destruct (Hc c eq_refl) as (Qc & (Qs1 & Qs2) & Qv). clear Hc.
  destruct (ctx_read HH bs t st0 rest x st i c Hi Et Ex Fb Fd Hs Ec Qc) as [Rc Fs].
  assert (Sb : c_self c = b).
  { clear - Ec Ni Fi. unfold make_context in Ec. cbn [signed_etx e_outputs e_data e_inputs e_ext] in Ec.
    rewrite nth_error_map, Ni in Ec. cbn [option_map of_option bind] in Ec. rewrite Fi in Ec. cbn [of_option bind] in Ec.
    repeat (apply bind_ok in Ec; destruct Ec as (? & _ & Ec)). injection Ec as <-. reflexivity. }
  rewrite Sb in *. rewrite Ex, Em. cbn [bind].
  destruct (fetched_ok _ Fs) as (sx & sb & Ob & Es & Ls). destruct (tree_in_box _ sb Es) as (tb & Etb & Ltb).
  fold (box_tree b) in *. unfold verify, reduce_script.
  destruct (box_tree b) as [ub|h cs root] eqn:Eb; [discriminate|].
  assert (Ot : exists s0 s1, ok_tree s0 (Parsed h cs root) s1).
  { rewrite <- Eb. unfold box_tree. inversion Ob as [? ? ? ? ? ? ? Oc]. inversion Oc. cbn [b_cand cd_tree]. eauto. }
  destruct Ot as (s0 & s1 & Ot). destruct (tree_safe _ _ _ _ _ tb Ot Etb) as [A B]; [lia|].
  destruct (proposition (Parsed h cs root)) as [p|er|] eqn:Ep; [|discriminate|contradiction]. cbn [bind].
  destruct (B p eq_refl) as (B1 & B2 & B3). pose proof (B2 (Qs1 _ _ _ eq_refl)) as B4. pose proof (Qs2 p eq_refl) as B5.
  assert (R : reducer H sha fits avlv n p c <> Panic).
  { intros R. apply (c75_reduce_partial HG) in R; auto; [|change (2 ^ 63) with 9223372036854775808; change (2 ^ 32) with 4294967296 in *; lia].
    destruct R as (v & e & Ev & Nv). destruct (Qv p v e eq_refl Ev) as (s & Es' & _). apply Nv. destruct v; try discriminate; exact I. }
  destruct (reducer H sha fits avlv n p c) as [s|er|] eqn:Er; [|discriminate|contradiction]. cbn [bind].
  destruct (c94_reduction _ _ _ _ _ _ _ _ Er) as (v & e & Ev & Es'). destruct (Qv p v e eq_refl Ev) as (s' & Es'' & Ht).
  rewrite Es' in Es''. injection Es'' as <-.
  assert (Ws : sb_wf s).
  { pose proof (eval_good HG H sha fits avlv c (read_ctx_good HG c Rc) n p [] (every_good p B1 B4) (Forall_nil _)) as V.
    rewrite Ev in V. destruct V as [V _]. destruct v; try discriminate; injection Es' as <-; [exact I|exact V]. }
  destruct (Pi inp) as (_ & Bp & Op); [rewrite <- Ex; eapply nth_error_In, Ni|].
  destruct (in_proof inp) as [|pb]; [destruct s; discriminate|]. cbn [proof_ok proof_bytes] in *.
  pose proof (verify_no_panic HG H s m pb Ws Ht Bp) as V. destruct pb as [|y pb]; [rewrite Zlen_nil in Op; lia|]. destruct s; try discriminate; exact V.
Qed.
End Run.
End Proofs.

(** ** A box that nobody can look at

    Its script is a constant; the threshold it asks for is above the number of
    those asked. *)
Definition const_script {G : group} (s : sbool G) : expr G := EConst (MkConst SSigmaProp (LSigma s)).
Definition trap {G : group} : sbool G := SConj (Thr 3) [Triv true; Triv true].
Definition fair {G : group} : sbool G := SConj (Thr 1) [Triv true; Triv true].
Definition prop_box_bytes (k : Z) : bytes :=
  [192; 132; 61; 0; 8; 152; k; 2; 211; 211; 160; 194; 30; 0; 0] ++ repeat 9 32 ++ [3].
Lemma trap_fetched : forall G : group, fetched (locked_box (G:=G) (const_script trap)).
Proof.
  intros G. exists (prop_box_bytes 3), fresh, []. split; [unfold bytes_ok; repeat (apply Forall_cons; [split; lia|]); apply Forall_nil|].
  split; [reflexivity|]. vm_compute. reflexivity.
Qed.
Lemma fair_fetched : forall G : group, fetched (locked_box (G:=G) (const_script fair)).
Proof.
  intros G. exists (prop_box_bytes 1), fresh, []. split; [unfold bytes_ok; repeat (apply Forall_cons; [split; lia|]); apply Forall_nil|].
  split; [reflexivity|]. vm_compute. reflexivity.
Qed.

(** A transaction that spends one box and shows 24 zero bytes as its proof. *)
Definition zero_proof : proof := PSome (repeat 0 24).
Definition spend_input {G : group} (id : bytes) : input G := MkInput id zero_proof [].
Lemma spend_read : forall (G : group), group_ok G -> forall (H : bytes -> bytes) id, length id = 32%nat -> bytes_ok id ->
  exists bs t, input_ok bs /\ parse_tx (G:=G) H fresh bs = Ok (t, fresh, []) /\ t_inputs t = [spend_input id] /\ t_data t = None.
Proof.
  intros G HG H id L B.
  assert (O : ok_tx (@fresh G) [spend_input id] None [b_cand demo_box] fresh).
  { exists fresh. unfold count_ok. rewrite !Zlen_cons, !Zlen_nil. split; [lia|]. split; [exact I|]. split; [lia|]. split.
    - eapply ok_inputs_cons; [exact L|cbn; lia| |apply ok_consts_nil|apply ok_inputs_nil].
      split; [constructor|]. split; [constructor|rewrite Zlen_nil; lia].
    - eapply ok_cands_cons; [apply demo_cand_ok|apply ok_cands_nil]. }
  destruct (c28_tx_roundtrip G HG H _ _ _ _ _ O) as (t & bs & Et & E1 & E2 & E3 & Eb & R).
  exists bs, t. specialize (R []). rewrite app_nil_r in R. split; [|auto].
  unfold ser_tx in Eb. rewrite E1, E2, E3 in Eb.
  assert (Q : exists a tl, ser_tx_parts (G:=G) [spend_input id] None [b_cand demo_box] = Ok ([1] ++ ((id ++ a) ++ []) ++ tl) /\
    (bytes_ok a /\ bytes_ok tl) /\ Zlen a + Zlen tl < 1000).
  { eexists. eexists. split; [vm_compute; reflexivity|]. split; [|reflexivity].
    split; unfold bytes_ok; repeat (apply Forall_cons; [split; lia|]); apply Forall_nil. }
  destruct Q as (a & tl & Q & (Ba & Bt) & Lt). rewrite Q in Eb. injection Eb as <-. split.
  - constructor; [split; lia|]. rewrite app_nil_r. apply Forall_app. split; [apply Forall_app; split; [exact B|exact Ba]|exact Bt].
  - rewrite Zlen_cons, app_nil_r, !Zlen_app. unfold Zlen at 1. rewrite L. change (2 ^ 31) with 2147483648. lia.
Qed.

Section Traps.
Context {G : group} (HG : group_ok G).
Variables H sha : bytes -> bytes.
Variable fits : Z -> bool.
Variable avlv : avl_verifier.
Notation state := (chain_state G).
Notation verify_in n := (verify_input H (reducer H sha fits avlv n) state_height).
Notation eval c := (EvalModel.eval H sha fits avlv c).

(** Somebody receives the transaction and the box, in a chain state. *)
Lemma spend_setup : (forall b, length (H b) = 32%nat /\ bytes_ok (H b)) -> forall s : sbool G, fetched (locked_box (const_script s)) ->
  exists bs t x id, input_ok bs /\ parse_tx (G:=G) H fresh bs = Ok (t, fresh, []) /\ box_id H (locked_box (const_script s)) = Ok id /\
    txctx_new signed_etx t [(id, locked_box (const_script s))] [] = Ok x /\ x_tx x = t /\ x_boxes x = [(id, locked_box (const_script s))] /\
    x_data x = None /\ t_inputs t = [spend_input id] /\ (exists m, bytes_to_sign t = Ok m) /\
    forall st : state, exists c, make_context signed_etx state_height st x 0 = Ok c /\ c_self c = (id, locked_box (const_script s)) /\ c_ext c = [].
Proof.
  intros HH s F. destruct (fetched_ok HG _ F) as (st1 & sb & _ & Es & _).
  set (id := H sb). destruct (spend_read G HG H id (proj1 (HH sb)) (proj2 (HH sb))) as (bs & t & Hi & Ep & E1 & E2).
  exists bs, t. eexists. exists id. split; [exact Hi|]. split; [exact Ep|]. split; [unfold box_id; rewrite Es; reflexivity|].
  split.
  { unfold txctx_new. cbn [signed_etx e_inputs e_data]. rewrite E1, E2. cbn [map in_box spend_input forallb has_box existsb fst].
    rewrite (proj2 (TxProps.bytes_eqb_iff id id) eq_refl). cbn. reflexivity. }
  cbn [x_tx x_boxes x_data]. do 4 (split; [first [reflexivity|exact E1]|]).
  split; [destruct (tx_parts HG H (fun b => proj1 (HH b)) bs t fresh [] Hi Ep) as (_ & M & _); exact M|].
  intros st. eexists. unfold make_context. cbn [signed_etx e_inputs e_data e_outputs e_ext x_tx x_boxes x_data]. rewrite E1, E2.
  cbn [map nth_error of_option bind in_box spend_input find_all find_box find fst].
  rewrite (proj2 (TxProps.bytes_eqb_iff id id) eq_refl). cbn [of_option bind option_map in_ext spend_input]. split; [reflexivity|]. split; reflexivity.
Qed.
Lemma const_value : forall (c : context G state) n s, (1 <= n)%nat -> eval c n (const_script s) [] = Ok (VSigma s, []).
Proof. intros c [|n] s L; [lia|]. reflexivity. Qed.
Lemma const_script_quiet : forall (c : context G state) s id, c_self c = (id, locked_box (const_script s)) -> c_ext c = [] ->
  (forall tb (x : expr G), ser_tree (Parsed (THeader 0 false false) [] (const_script s)) = Ok tb -> from_bytes parse_expr (as_u8s (as_i8s tb)) <> Ok x) ->
  quiet_ctx c /\ quiet_script (box_tree (c_self c)).
Proof.
  intros c s id Es Ee Hr. split; [split|split].
  - intros b x (j & k & V & _). rewrite Ee in V. discriminate.
  - intros b x (j & k & V & S) E. exfalso. rewrite Es in V. cbn [snd] in V.
    assert (R : regs_get_constant (cd_regs (b_cand (locked_box (const_script s)))) j = Ok (Some k) -> False).
    { unfold regs_get_constant. cbn [locked_box b_cand cd_regs]. destruct (Z.to_nat (j - 4)); discriminate. }
    unfold get_register in V. destruct j as [|[[|p|]|[p|p|]|]|p]; auto.
    + injection V as <-. discriminate S.
    + injection V as <-. discriminate S.
    + injection V as <-. discriminate S.
    + unfold script_bytes in V. cbn [locked_box b_cand cd_tree] in V.
      destruct (ser_tree (Parsed (THeader 0 false false) [] (const_script s))) as [tb| |] eqn:Et; try discriminate. cbn [bind] in V.
      injection V as <-. cbn in S. injection S as <-. exact (Hr tb x eq_refl E).
  - intros h cs root E. rewrite Es in E. injection E as <- <- <-. cbn. tauto.
  - intros x E. rewrite Es in E. injection E as <-. cbn. unfold printable. cbn. tauto.
Qed.
Lemma trap_quiet : forall (c : context G state) id, c_self c = (id, locked_box (const_script trap)) -> c_ext c = [] ->
  quiet_ctx c /\ quiet_script (box_tree (c_self c)).
Proof.
  intros c id Es Ee. apply (const_script_quiet c trap id Es Ee). intros tb x E.
  assert (tb = [0; 8; 152; 3; 2; 211; 211]) as -> by (vm_compute in E; congruence). vm_compute. discriminate.
Qed.
Lemma fair_quiet : forall (c : context G state) id, c_self c = (id, locked_box (const_script fair)) -> c_ext c = [] ->
  quiet_ctx c /\ quiet_script (box_tree (c_self c)).
Proof.
  intros c id Es Ee. apply (const_script_quiet c fair id Es Ee). intros tb x E.
  assert (tb = [0; 8; 152; 1; 2; 211; 211]) as -> by (vm_compute in E; congruence). vm_compute. discriminate.
Qed.

(** Whoever checks the transaction stops, in any state of the chain. *)
Theorem c95_threshold_refuted : (forall b, length (H b) = 32%nat /\ bytes_ok (H b)) ->
  exists bs t b id x, input_ok bs /\ parse_tx (G:=G) H fresh bs = Ok (t, fresh, []) /\ fetched b /\ box_id H b = Ok id /\
    txctx_new signed_etx t [(id, b)] [] = Ok x /\
    forall (st : state) n, (1 <= n)%nat ->
      (exists c, make_context signed_etx state_height st x 0 = Ok c /\ quiet_ctx c /\ quiet_script (box_tree (c_self c))) /\
      verify_in n st x 0 = Panic.
Proof.
  intros HH. destruct (spend_setup HH trap (trap_fetched G)) as (bs & t & x & id & Hi & Ep & Ei & Ex & Et & Eb & _ & En & (m & Em) & Hc).
  exists bs, t, (locked_box (const_script trap)), id, x. split; [exact Hi|]. split; [exact Ep|]. split; [apply trap_fetched|].
  split; [exact Ei|]. split; [exact Ex|]. intros st n L. destruct (Hc st) as (c & Ec & Es & Ee).
  split; [exists c; split; [exact Ec|]; apply (trap_quiet c id Es Ee)|].
  unfold verify_input. rewrite Et, En. cbn [nth_error of_option bind]. rewrite Eb. cbn [spend_input in_box find_box find fst].
  rewrite (proj2 (TxProps.bytes_eqb_iff id id) eq_refl). cbn [of_option bind]. rewrite Ec. cbn [bind]. rewrite Em. cbn [bind]. unfold verify, reduce_script.
  change (proposition (box_tree (id, locked_box (const_script trap)))) with (Ok (const_script (G:=G) trap)). cbn [bind].
  rewrite (c94_reduces H sha fits avlv c n (const_script trap) _ _ _ (const_value c n trap L) eq_refl) by (left; discriminate). cbn [bind].
  change (verify_signature H (SConj (Thr 3) [Triv true; Triv true] : sbool G) m (repeat 0 24) = Panic).
  apply c12_threshold_above_children_panics; [rewrite !Zlen_cons, Zlen_nil; lia|cbn; lia].
Qed.


(** With a threshold that can be met the same transaction and box meet the hypotheses
    of [c95_verify_partial]. *)
Example c95_hyps_met : (forall b, length (H b) = 32%nat /\ bytes_ok (H b)) ->
  exists bs t x, input_ok bs /\ parse_tx (G:=G) H fresh bs = Ok (t, fresh, []) /\ x_tx x = t /\
    Forall (fun b => fetched (snd b)) (x_boxes x) /\ x_boxes x <> [] /\ x_data x = None /\
    forall (st : state) n, (1 <= n)%nat -> exists c, make_context signed_etx state_height st x 0 = Ok c /\
      quiet_ctx c /\ quiet_script (box_tree (c_self c)) /\
      exists p, proposition (box_tree (c_self c)) = Ok p /\ eval c n p [] = Ok (VSigma fair, []) /\ thr_ok (fair (G:=G)).
Proof.
  intros HH. destruct (spend_setup HH fair (fair_fetched G)) as (bs & t & x & id & Hi & Ep & Ei & Ex & Et & Eb & Ed & En & _ & Hc).
  exists bs, t, x. split; [exact Hi|]. split; [exact Ep|]. split; [exact Et|]. rewrite Eb. split; [constructor; [apply fair_fetched|constructor]|].
  split; [discriminate|]. split; [exact Ed|]. intros st n L. destruct (Hc st) as (c & Ec & Es & Ee). exists c. split; [exact Ec|].
  destruct (fair_quiet c id Es Ee) as [Q1 Q2]. split; [exact Q1|]. split; [exact Q2|]. rewrite Es. exists (const_script fair).
  split; [reflexivity|]. split; [apply const_value, L|]. cbn. unfold Zlen. cbn. repeat split; lia.
Qed.
End Traps.
Print Assumptions c69_no_panic.
Print Assumptions c75_any_script_partial.
Print Assumptions c95_verify_partial.
Print Assumptions c95_threshold_refuted.
