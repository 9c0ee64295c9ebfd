(** C115: EIP-12 documents. *)
From Verif Require Import Base VlqModel VlqProofs GfModel GroupModel SigmaModel ProverModel TypeModel MethodModel IrModel SerModel ChainModel
  WalletModel TxModel SignModel HeaderModel MerkleModel JsonModel Eip12Model SigmaSpec SerSpec SerLocal SerProofs SerProps ReadProofs ParseProofs TxProps ParseProps
  ChainProps WalletProps DeriveProps PowProps GroupProofs SbProofs SigmaProofs VerifierProofs EncodingProofs TypeProofs JsonProofs JsonProps Eip12Proofs.
From Coq Require Import Permutation Sorted.
Import SigmaModel SigmaProofs JsonModel TypeProofs.
Local Open Scope string_scope.
Local Open Scope list_scope.
Local Open Scope Z_scope.

(** ** What is written is read back by [from_json] *)
Theorem c115_token : forall t, idb (fst t) -> u64 (snd t) -> token_of_json (eip12_token t) = Ok t.
Proof. intros t H1 H2. apply token12_rt. split; assumption. Qed.
Theorem c115_candidate : forall G ord, any_order ord -> forall c : cand G, cand_json_ok c ->
  exists j, eip12_cand ord c = Ok j /\ cand_of_json j = Ok c.
Proof. intros G ord Ho c H. exact (cand12_rt ord Ho c H). Qed.
Theorem c115_box : forall G ord, any_order ord -> forall H, hash32 H -> forall id (b : box G),
  cand_json_ok (b_cand b) -> idb (b_txid b) -> u16 (b_index b) -> box_id H b = Ok id ->
  exists j, eip12_box ord (id, b) = Ok j /\ box_of_json H j = Ok (id, b).
Proof. intros G ord Ho H HH id b H1 H2 H3 H4. exact (box12_rt ord Ho H id b HH H1 H2 H3 H4). Qed.
Theorem c115_unsigned_transaction : forall G ord, any_order ord -> forall H (u : utx G), utx_json_ok H u ->
  exists j, eip12_utx ord u = Ok j /\ utx_of_json H j = Ok u.
Proof.
  intros G ord Ho H u (Ci & Fi & Hd & Cc & Fc & E). destruct (utx12_parts ord Ho u Fi Fc) as (ji & jc & _ & _ & Rc & Ri & Eu).
  eexists. split; [exact Eu|]. rewrite (utx_read H ji jc _ _ _ Ri Hd Rc Ci Cc). exact E.
Qed.
Theorem c115_transaction : forall G ord, any_order ord -> forall H, hash32 H -> forall t : tx G, tx_json_ok H t ->
  exists j, eip12_tx ord t = Ok j /\ tx_of_json H j = Ok t.
Proof.
  intros G ord Ho H HH t Ht. destruct (tx12_parts ord Ho H t HH Ht) as (Hid & ji & jo & _ & _ & Ro & M & Ri & Eu).
  destruct Ht as (Ci & Fi & Hd & Cc & Fc & E).
  eexists. split; [exact Eu|]. rewrite (tx_read H _ ji jo _ _ _ _ Hid Ri Hd Ro M Ci Cc), E. cbn [bind].
  replace (bytes_eqb (t_id t) (t_id t)) with true by (symmetry; apply bytes_eqb_spec; reflexivity). reflexivity.
Qed.

(** ** A dApp hands the document back

    Whatever JavaScript does with numbers beyond 2^54, the document of a box comes back
    unchanged, so it is read as the same box. *)
Theorem c115_js_candidate : forall G ord, any_order ord -> forall far (c : cand G) j, cand_json_ok c ->
  eip12_cand ord c = Ok j -> js_pass far j = j /\ cand_of_json (js_pass far j) = Ok c.
Proof.
  intros G ord Ho far c j Hc E. pose proof (js_cand far ord Ho c j Hc E) as K. split; [exact K|]. rewrite K.
  destruct (cand12_rt ord Ho c Hc) as (j' & E1 & E2). congruence.
Qed.
Theorem c115_js_box : forall G ord, any_order ord -> forall H, hash32 H -> forall far id (b : box G) j,
  cand_json_ok (b_cand b) -> idb (b_txid b) -> u16 (b_index b) -> box_id H b = Ok id ->
  eip12_box ord (id, b) = Ok j -> js_pass far j = j /\ box_of_json H (js_pass far j) = Ok (id, b).
Proof.
  intros G ord Ho H HH far id b j H1 H2 H3 H4 E. pose proof (js_box far ord Ho id b j H1 H3 E) as K. split; [exact K|]. rewrite K.
  destruct (box12_rt ord Ho H id b HH H1 H2 H3 H4) as (j' & E1 & E2). congruence.
Qed.
(** A transaction comes back with the variables of each input in ascending order of their
    numbers, whatever their order was. *)
Theorem c115_js_unsigned_transaction : forall G ord, any_order ord -> forall H far (u : utx G) ins', utx_json_ok H u ->
  Forall2 (fun i i' => ui_box i = ui_box i' /\ ascending (ui_ext i) (ui_ext i')) (u_inputs u) ins' ->
  exists j, eip12_utx ord u = Ok j /\ utx_of_json H (js_pass far j) = utx_new H ins' (u_data u) (u_cands u).
Proof.
  intros G ord Ho H far u ins' (Ci & Fi & Hd & Cc & Fc & E) A. destruct (utx12_parts ord Ho u Fi Fc) as (ji & jc & Ei & Ec & Rc & Ri & Eu).
  eexists. split; [exact Eu|]. rewrite js_obj by reflexivity. cbn [map fst snd js_pass].
  pose proof (js_uinputs far _ _ _ Fi A Ei) as Ri'. rewrite js_data. rewrite (js_list far _ _ _ _ Ec).
  - apply utx_read; auto. unfold count_ok in *. unfold Zlen in *. rewrite <- (Forall2_length' _ _ _ _ _ A). exact Ci.
  - intros c j Hc Ej. apply (js_cand far ord Ho c); [|exact Ej]. rewrite Forall_forall in Fc. apply Fc. exact Hc.
Qed.
Theorem c115_js_transaction : forall G ord, any_order ord -> forall H, hash32 H -> forall far (t : tx G) ins', tx_json_ok H t ->
  Forall2 (fun i i' => in_box i = in_box i' /\ in_proof i = in_proof i' /\ ascending (in_ext i) (in_ext i')) (t_inputs t) ins' ->
  exists j, eip12_tx ord t = Ok j /\
    tx_of_json H (js_pass far j) =
    (t' <- tx_new H ins' (t_data t) (t_cands t) ;; if bytes_eqb (t_id t') (t_id t) then Ok t' else Err "InvalidTxId").
Proof.
  intros G ord Ho H HH far t ins' Ht A. destruct (tx12_parts ord Ho H t HH Ht) as (Hid & ji & jo & Ei & Eo & Ro & M & Ri & Eu).
  destruct Ht as (Ci & Fi & Hd & Cc & Fc & E).
  eexists. split; [exact Eu|]. rewrite js_obj by reflexivity. cbn [map fst snd js_pass].
  pose proof (js_inputs far _ _ _ Fi A Ei) as Ri'. rewrite js_data, js_hex. rewrite (js_list far _ _ _ _ Eo).
  - apply tx_read with (outs := t_outputs t); auto. unfold count_ok in *. unfold Zlen in *. rewrite <- (Forall2_length' _ _ _ _ _ A). exact Ci.
  - pose proof (tx_new_inv _ _ _ _ _ E) as (m & outs & _ & _ & Eo' & Et).
    assert (Fo : Forall (fun b : ebox G => cand_json_ok (b_cand (snd b)) /\ u16 (b_index (snd b))) (t_outputs t)).
    { rewrite Et. cbn [t_outputs]. clear - Eo' Fc. revert Eo'. generalize 0, (H m). revert outs.
      induction Fc as [|c cs Hc _ IH]; intros outs i x Eo; cbn [mk_outputs] in Eo; [injection Eo as <-; constructor|].
      cbv zeta in Eo. inv_bind Eo. inv_bind Eo. injection Eo as <-. constructor; [|exact (IH _ _ _ Eb0)]. cbn [snd b_cand b_index].
      split; [exact Hc|]. unfold u16, wrapu. apply Z.mod_pos_bound. reflexivity. }
    intros [id b] j Hb Ej. rewrite Forall_forall in Fo. destruct (Fo _ Hb) as [F1 F2]. exact (js_box far ord Ho id b j F1 F2 Ej).
Qed.
(** So a transaction whose variables are in ascending order already comes back as it is. *)
Theorem c115_js_ordered : forall G ord, any_order ord -> forall H, hash32 H -> forall far,
  (forall u : utx G, utx_json_ok H u -> Forall (fun i => StronglySorted Z.lt (map fst (ui_ext i))) (u_inputs u) ->
     exists j, eip12_utx ord u = Ok j /\ utx_of_json H (js_pass far j) = Ok u) /\
  (forall t : tx G, tx_json_ok H t -> Forall (fun i => StronglySorted Z.lt (map fst (in_ext i))) (t_inputs t) ->
     exists j, eip12_tx ord t = Ok j /\ tx_of_json H (js_pass far j) = Ok t).
Proof.
  intros G ord Ho H HH far. split.
  - intros u Hu S. destruct (c115_js_unsigned_transaction G ord Ho H far u (u_inputs u) Hu) as (j & E1 & E2).
    { clear - S. induction S; constructor; auto. split; [reflexivity|]. split; [apply Permutation_refl|assumption]. }
    exists j. split; [exact E1|]. rewrite E2. apply Hu.
  - intros t Ht S. destruct (c115_js_transaction G ord Ho H HH far t (t_inputs t) Ht) as (j & E1 & E2).
    { clear - S. induction S; constructor; auto. split; [reflexivity|]. split; [reflexivity|]. split; [apply Permutation_refl|assumption]. }
    exists j. split; [exact E1|]. rewrite E2. destruct Ht as (_ & _ & _ & _ & _ & ->). cbn [bind].
    replace (bytes_eqb (t_id t) (t_id t)) with true by (symmetry; apply bytes_eqb_spec; reflexivity). reflexivity.
Qed.

(** ** What does not come back *)
Section Witness.
Context {G : group}.
Definition unordered : ext G := [(3, MkConst SInt (LInt 5)); (1, MkConst SInt (LInt 6))].
Definition ordered : ext G := [(1, MkConst SInt (LInt 6)); (3, MkConst SInt (LInt 5))].
Definition witness_msg (e : ext G) : bytes :=
  match tx_message [MkInput (repeat 1 32) PEmpty e] None [b_cand (@demo_box G)] with Ok b => b | _ => [] end.
Definition msg_unordered : bytes := Eval vm_compute in witness_msg unordered.
Definition msg_ordered : bytes := Eval vm_compute in witness_msg ordered.
Lemma msg_eq : tx_message [MkInput (repeat 1 32) PEmpty unordered] None [b_cand (@demo_box G)] = Ok msg_unordered /\
  tx_message [MkInput (repeat 1 32) PEmpty ordered] None [b_cand (@demo_box G)] = Ok msg_ordered.
Proof. split; vm_compute; reflexivity. Qed.
Lemma msg_differ : msg_unordered <> msg_ordered.
Proof. intros X. apply (f_equal (fun l => nth 35 l 0)) in X. vm_compute in X. discriminate X. Qed.
Lemma ext_ascending : ascending unordered ordered.
Proof. split; [apply perm_swap|]. cbn [ordered map fst]. repeat constructor. Qed.
Lemma unordered_ok : ext_json_ok unordered.
Proof.
  split; [cbn [unordered map fst]; repeat constructor; cbn [In]; intuition lia|]. unfold unordered. constructor; [|constructor; [|constructor]]; (split; [unfold u8; cbn [fst]; lia|]); cbn [snd].
  - exists [4; 10]. split; [reflexivity|]. split; [repeat constructor; lia|vm_compute; reflexivity].
  - exists [4; 12]. split; [reflexivity|]. split; [repeat constructor; lia|vm_compute; reflexivity].
Qed.
Lemma new_of_message : forall H (e : ext G) m, tx_message [MkInput (repeat 1 32) PEmpty e] None [b_cand (@demo_box G)] = Ok m ->
  exists t, tx_new H [MkInput (repeat 1 32) PEmpty e] None [b_cand (@demo_box G)] = Ok t /\ t_id t = H m /\ bytes_to_sign t = Ok m /\
    t_inputs t = [MkInput (repeat 1 32) PEmpty e] /\ t_data t = None /\ t_cands t = [b_cand (@demo_box G)].
Proof.
  intros H e m E. destruct (tx_new H [MkInput (repeat 1 32) PEmpty e] None [b_cand (@demo_box G)]) as [t|x|] eqn:T.
  - exists t. split; [reflexivity|]. destruct (tx_new_inv _ _ _ _ _ T) as (m' & o & Em & _ & _ & ->).
    assert (m' = m) by congruence. subst m'. repeat split. exact E.
  - exfalso. unfold tx_new in T. rewrite E in T. cbn [bind mk_outputs] in T. vm_compute in T. discriminate T.
  - exfalso. unfold tx_new in T. rewrite E in T. cbn [bind mk_outputs] in T. vm_compute in T. discriminate T.
Qed.
End Witness.

(** An unsigned transaction with variables in another order comes back as a transaction
    with another message to sign. *)
Theorem c115_js_order_refuted : forall G ord, any_order ord -> forall H far, exists (u u' : utx G) j m m',
  utx_json_ok H u /\ eip12_utx ord u = Ok j /\ utx_of_json H (js_pass far j) = Ok u' /\
  utx_bytes_to_sign H u = Ok m /\ utx_bytes_to_sign H u' = Ok m' /\ m <> m'.
Proof.
  intros G ord Ho H far.
  destruct (@msg_eq G) as [M1 M2].
  destruct (new_of_message H _ _ M1) as (t1 & T1 & _ & B1 & _). destruct (new_of_message H _ _ M2) as (t2 & T2 & _ & B2 & _).
  set (u := MkUtx (H msg_unordered) [MkUInput (repeat 1 32) (@unordered G)] None [b_cand demo_box]).
  set (u' := MkUtx (H msg_ordered) [MkUInput (repeat 1 32) (@ordered G)] None [b_cand demo_box]).
  assert (Hu : utx_json_ok H u).
  { unfold utx_json_ok, u. cbn [u_inputs u_data u_cands]. unfold count_ok. rewrite !Zlen_cons, !Zlen_nil. split; [lia|]. split; [|split; [exact Logic.I|split; [lia|split]]].
    - constructor; [|constructor]. split; [|exact unordered_ok]. split; [|reflexivity]. apply Forall_forall. intros y Hy. apply repeat_spec in Hy. subst. unfold byte. lia.
    - constructor; [apply demo_json_ok|constructor].
    - unfold utx_new, utx_message. cbn [map]. unfold ui_to_sign. cbn [ui_box ui_ext]. rewrite T1. cbn [bind]. rewrite B1. reflexivity. }
  destruct (c115_js_unsigned_transaction G ord Ho H far u (u_inputs u') Hu) as (j & Ej & Rj).
  { constructor; [|constructor]. split; [reflexivity|exact ext_ascending]. }
  exists u, u', j, msg_unordered, msg_ordered. split; [exact Hu|]. split; [exact Ej|]. split.
  { rewrite Rj. unfold utx_new, utx_message, u'. cbn [u_inputs u_data u_cands u map]. unfold ui_to_sign. cbn [ui_box ui_ext]. rewrite T2. cbn [bind]. rewrite B2. reflexivity. }
  unfold utx_bytes_to_sign, utx_message, u, u'. cbn [u_inputs u_data u_cands map]. unfold ui_to_sign. cbn [ui_box ui_ext]. rewrite T1, T2. cbn [bind].
  split; [exact B1|]. split; [exact B2|exact msg_differ].
Qed.
(** A signed one is refused (unless the hash collides). *)
Theorem c115_js_refused_refuted : forall G ord, any_order ord -> forall H, hash32 H -> forall far, exists (t : tx G) j,
  tx_json_ok H t /\ eip12_tx ord t = Ok j /\
  (@tx_of_json G H (js_pass far j) = Err "InvalidTxId" \/ exists m m', m <> m' /\ H m = H m').
Proof.
  intros G ord Ho H HH far. destruct (@msg_eq G) as [M1 M2].
  destruct (new_of_message H _ _ M1) as (t1 & T1 & I1 & B1 & P1 & P2 & P3). destruct (new_of_message H _ _ M2) as (t2 & T2 & I2 & _).
  assert (Ht : tx_json_ok H t1).
  { unfold tx_json_ok. rewrite P1, P2, P3. unfold count_ok. rewrite !Zlen_cons, !Zlen_nil. split; [lia|]. split; [|split; [exact Logic.I|split; [lia|split]]].
    - constructor; [|constructor]. split; [|split; [exact Logic.I|exact unordered_ok]]. split; [|reflexivity]. apply Forall_forall. intros y Hy. apply repeat_spec in Hy. subst. unfold byte. lia.
    - constructor; [apply demo_json_ok|constructor].
    - exact T1. }
  destruct (c115_js_transaction G ord Ho H HH far t1 [MkInput (repeat 1 32) PEmpty ordered] Ht) as (j & Ej & Rj).
  { rewrite P1. constructor; [|constructor]. split; [reflexivity|]. split; [reflexivity|exact ext_ascending]. }
  exists t1, j. split; [exact Ht|]. split; [exact Ej|]. rewrite Rj, P2, P3, T2. cbn [bind]. destruct (bytes_eqb (t_id t2) (t_id t1)) eqn:Q; [|left; reflexivity].
  right. exists msg_unordered, msg_ordered. split; [exact msg_differ|]. apply bytes_eqb_spec in Q. congruence.
Qed.
(** A document of [to_json], where amounts are numbers, comes back with another value. *)
Theorem c115_plain_refuted : forall G ord, any_order ord -> forall far, exists (c c' : cand G) j,
  cand_json_ok c /\ json_of_cand ord c = Ok j /\ cand_of_json (js_pass far j) = Ok c' /\ cd_value c' = cd_value c - 1.
Proof.
  intros G ord Ho far.
  set (mk := fun v => MkCand v (cd_tree (b_cand (@demo_box G))) [] [] 7).
  assert (K : forall v, u64 v -> cand_json_ok (mk v)).
  { intros v Hv. destruct (demo_json_ok G) as (_ & Ht & _). unfold mk, cand_json_ok. cbn [cd_value cd_tree cd_tokens cd_regs cd_height].
    split; [exact Hv|]. split; [exact Ht|]. repeat split; try constructor; try (rewrite Zlen_nil; unfold max_tokens; lia); lia. }
  assert (U : u64 (2 ^ 53 + 1) /\ u64 (2 ^ 53)) by (unfold u64; lia). destruct U as [U1 U2].
  destruct (cand_members_rt ord Ho _ (K _ U1)) as (t & r & Et & Er & E & _). destruct (cand_rt ord Ho _ (K _ U2)) as (j2 & E2 & R2).
  exists (mk (2 ^ 53 + 1)), (mk (2 ^ 53)). eexists. split; [exact (K _ U1)|]. split; [unfold json_of_cand; rewrite E; reflexivity|]. split; [|reflexivity].
  rewrite <- R2. f_equal. unfold json_of_cand, cand_members in E2. cbn [mk cd_value cd_tree cd_tokens cd_regs cd_height] in *. rewrite Et, Er in E2. cbn [bind] in E2. injection E2 as <-.
  rewrite js_obj by reflexivity. cbn [map fst snd]. rewrite (js_regs far ord Ho [] r) by (exact Er || (rewrite Zlen_nil; lia)).
  unfold json_of_tree in Et. inv_bind Et. injection Et as <-. rewrite js_hex. rewrite (js_small far 7) by lia. reflexivity.
Qed.

Example c115_hyps_met : forall (G : group) H, any_order (@rev (bytes * json)) /\
  (exists id, cand_json_ok (b_cand (@demo_box G)) /\ idb (b_txid (@demo_box G)) /\ u16 (b_index (@demo_box G)) /\ box_id H (@demo_box G) = Ok id) /\
  (exists t : tx G, t_cands t = [b_cand demo_box; b_cand demo_box] /\ tx_json_ok H t) /\
  ascending (@unordered G) ordered /\ js_pass (fun z => z) (JObj [(txt "3", JNum 1); (txt "x", JNum (2 ^ 53 + 1)); (txt "1", JNum 2)]) =
    JObj [(txt "1", JNum 2); (txt "3", JNum 1); (txt "x", JNum (2 ^ 53))].
Proof.
  intros G H. split; [intros l; apply Permutation_rev|]. split; [|split; [apply c90_transaction_hyps_met|split; [exact ext_ascending|vm_compute; reflexivity]]].
  destruct (c90_hyps_met G H) as (id & H1 & H2 & H3 & H4 & _). exists id. auto.
Qed.

Print Assumptions c115_token.
Print Assumptions c115_candidate.
Print Assumptions c115_box.
Print Assumptions c115_unsigned_transaction.
Print Assumptions c115_transaction.
Print Assumptions c115_js_candidate.
Print Assumptions c115_js_box.
Print Assumptions c115_js_unsigned_transaction.
Print Assumptions c115_js_transaction.
Print Assumptions c115_js_ordered.
Print Assumptions c115_js_order_refuted.
Print Assumptions c115_js_refused_refuted.
Print Assumptions c115_plain_refuted.
