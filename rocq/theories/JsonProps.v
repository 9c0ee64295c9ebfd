(** C90-C93: the JSON encoding of boxes, transactions, propositions, secrets, hints,
    headers and Merkle proofs. *)
From Verif Require Import Base VlqModel VlqProofs GfModel GroupModel SigmaModel ProverModel TypeModel MethodModel IrModel SerModel ChainModel
  WalletModel TxModel SignModel HeaderModel MerkleModel JsonModel SigmaSpec SerSpec SerLocal SerProofs SerProps ReadProofs ParseProofs TxProps ParseProps
  ChainProps WalletProps DeriveProps PowProps GroupProofs SbProofs SigmaProofs VerifierProofs EncodingProofs TypeProofs JsonProofs JsonHintProofs.
From Coq Require Import Permutation.
Import SigmaModel SigmaProofs JsonModel TypeProofs.
Local Open Scope string_scope.
Local Open Scope list_scope.
Local Open Scope Z_scope.

(** A map is written in any order. *)
Definition any_order (ord : members -> members) : Prop := forall l, Permutation l (ord l).

(** ** C90: what is written is read back *)
Theorem c90_token : forall t, idb (fst t) -> u64 (snd t) -> token_of_json (json_of_token t) = Ok t.
Proof. intros t H1 H2. apply token_rt. split; assumption. Qed.
Print Assumptions c90_token.
Theorem c90_candidate : forall G ord, any_order ord -> forall c : cand G, cand_json_ok c ->
  exists j, json_of_cand ord c = Ok j /\ cand_of_json j = Ok c.
Proof. intros G ord Ho c H. exact (cand_rt ord Ho c H). Qed.
Print Assumptions c90_candidate.
Theorem c90_box : forall G ord, any_order ord -> forall H, hash32 H -> forall id (b : box G),
  cand_json_ok (b_cand b) -> idb (b_txid b) -> u16 (b_index b) -> box_id H b = Ok id ->
  exists j, json_of_box ord (id, b) = Ok j /\ box_of_json H j = Ok (id, b).
Proof. intros G ord Ho H HH id b H1 H2 H3 H4. exact (box_rt ord Ho H id b HH H1 H2 H3 H4). Qed.
Print Assumptions c90_box.
Theorem c90_input : forall G (i : input G), input_json_ok i -> exists j, json_of_input i = Ok j /\ input_of_json j = Ok i.
Proof. intros G i H. exact (input_rt i H). Qed.
Print Assumptions c90_input.
Theorem c90_unsigned_transaction : forall G ord, any_order ord -> forall H (u : utx G), utx_json_ok H u ->
  exists j, json_of_utx ord u = Ok j /\ utx_of_json H j = Ok u.
Proof. intros G ord Ho H u (H1 & H2 & H3 & H4 & H5 & H6). exact (utx_rt ord Ho H u H1 H2 H3 H4 H5 H6). Qed.
Print Assumptions c90_unsigned_transaction.
Theorem c90_transaction : forall G ord, any_order ord -> forall H, hash32 H -> forall t : tx G, tx_json_ok H t ->
  exists j, json_of_tx ord t = Ok j /\ tx_of_json H j = Ok t.
Proof. intros G ord Ho H HH t (H1 & H2 & H3 & H4 & H5 & H6). exact (tx_rt ord Ho H t HH H1 H2 H3 H4 H5 H6). Qed.
Print Assumptions c90_transaction.

(** The order of the members and members nobody asks for do not matter. *)
Definition box_names : list string :=
  ["boxId"; "id"; "value"; "ergoTree"; "assets"; "additionalRegisters"; "creationHeight"; "transactionId"; "txId"; "index"].
Lemma cand_members_perm : forall G m m', Permutation m m' -> @cand_of_members G m = cand_of_members m'.
Proof.
  intros G m m' P. unfold cand_of_members. rewrite (field_perm _ ["value"] _ m m' P), (field_perm _ ["ergoTree"] _ m m' P), (field_perm _ ["assets"] _ m m' P),
    (field_perm _ ["additionalRegisters"] _ m m' P), (field_perm _ ["creationHeight"] _ m m' P). reflexivity.
Qed.
Theorem c90_member_order : forall G H m m', Permutation m m' ->
  @box_of_json G H (JObj m) = box_of_json H (JObj m') /\ @cand_of_json G (JObj m) = cand_of_json (JObj m') /\
  @input_of_json G (JObj m) = input_of_json (JObj m') /\ @tx_of_json G H (JObj m) = tx_of_json H (JObj m') /\
  @utx_of_json G H (JObj m) = utx_of_json H (JObj m').
Proof.
  intros G H m m' P. repeat split.
  - unfold box_of_json. cbn [as_fields bind]. rewrite (opt_field_perm _ ["boxId"; "id"] _ m m' P), (cand_members_perm G m m' P),
      (field_perm _ ["transactionId"; "txId"] _ m m' P), (field_perm _ ["index"] _ m m' P). reflexivity.
  - unfold cand_of_json. cbn [as_fields bind]. apply cand_members_perm. exact P.
  - unfold input_of_json. cbn [as_fields bind]. rewrite (field_perm _ ["boxId"; "id"] _ m m' P), (field_perm _ ["spendingProof"] _ m m' P). reflexivity.
  - unfold tx_of_json. cbn [as_fields bind]. rewrite (field_perm _ ["id"] _ m m' P), (field_perm _ ["inputs"] _ m m' P), (field_perm _ ["dataInputs"] _ m m' P),
      (field_perm _ ["outputs"] _ m m' P). reflexivity.
  - unfold utx_of_json. cbn [as_fields bind]. rewrite (field_perm _ ["inputs"] _ m m' P), (field_perm _ ["dataInputs"] _ m m' P),
      (field_perm _ ["outputs"] _ m m' P). reflexivity.
Qed.
Print Assumptions c90_member_order.
Lemma lookup_unknown : forall names k j m, ~ In k (map txt names) -> lookup names ((k, j) :: m) = lookup names m.
Proof.
  intros names k j m H. unfold lookup. cbn [filter fst]. replace (key_in names k) with false; [reflexivity|]. symmetry. unfold key_in.
  destruct (existsb _ names) eqn:E; [|reflexivity]. apply existsb_exists in E. destruct E as (n & Hn & En). apply bytes_eqb_spec in En. subst k.
  exfalso. apply H. apply in_map. exact Hn.
Qed.
Theorem c90_unknown_members : forall G H k x m, ~ In k (map txt box_names) -> @box_of_json G H (JObj ((k, x) :: m)) = box_of_json H (JObj m).
Proof.
  intros G H k x m N.
  assert (L : forall names, incl names box_names -> lookup names ((k, x) :: m) = lookup names m).
  { intros names I. apply lookup_unknown. intros X. apply N. apply in_map_iff in X. destruct X as (n & <- & Hn). apply in_map. apply I. exact Hn. }
  unfold box_of_json, cand_of_members, field, opt_field. cbn [as_fields bind].
  rewrite (L ["boxId"; "id"]), (L ["value"]), (L ["ergoTree"]), (L ["assets"]), (L ["additionalRegisters"]), (L ["creationHeight"]), (L ["transactionId"; "txId"]), (L ["index"]);
    [reflexivity|..]; unfold box_names, incl; cbn [In]; tauto.
Qed.
Print Assumptions c90_unknown_members.

(** Scripts and register values in order: those written by the library (C25) are. *)
Theorem c90_scripts : forall G, group_ok G -> forall bs (t : tree G), input_ok bs -> tree_of_bytes bs = Ok t -> tree_stable t.
Proof. intros G HG bs t Hb E. exact (c81_tree G HG bs t Hb E). Qed.
Print Assumptions c90_scripts.
Theorem c90_registers : forall G, group_ok G -> forall bs (r : regval G), input_ok bs -> reg_of_bytes bs = Ok r -> reg_stable r.
Proof. intros G HG bs r Hb E. exact (reg_read_stable HG bs r Hb E). Qed.
Print Assumptions c90_registers.
Theorem c90_constants : forall G, group_ok G -> forall bs (c : const G), input_ok bs -> SerModel.from_bytes parse_const bs = Ok c -> const_stable c.
Proof. intros G HG bs c Hb E. exact (from_bytes_const HG bs c Hb E). Qed.
Print Assumptions c90_constants.

Lemma demo_json_ok : forall G : group, cand_json_ok (b_cand (@demo_box G)).
Proof.
  intros G. unfold cand_json_ok, demo_box. cbn [b_cand cd_value cd_tree cd_tokens cd_regs cd_height].
  split; [unfold u64; lia|]. split.
  { exists [0; 8; 211]. split; [reflexivity|]. split; [repeat constructor; lia|vm_compute; reflexivity]. }
  assert (R : forall x, 0 <= x < 256 -> bytes_ok (repeat x 32)). { intros x Hx. apply Forall_forall. intros y Hy. apply repeat_spec in Hy. subst. exact Hx. }
  split. { repeat constructor; try (apply R; lia); cbn [snd]; lia. }
  split; [rewrite !Zlen_cons, Zlen_nil; unfold max_tokens; lia|]. split.
  { constructor; [|constructor; [|constructor]].
    - exists [4; 5]. split; [reflexivity|]. split; [repeat constructor; lia|vm_compute; reflexivity].
    - exists [134; 2; 4; 2; 1; 1]. split; [vm_compute; reflexivity|]. split; [repeat constructor; lia|vm_compute; reflexivity]. }
  split; [rewrite !Zlen_cons, Zlen_nil; lia|unfold u32; lia].
Qed.
Example c90_hyps_met : forall (G : group) H, exists id, cand_json_ok (b_cand (@demo_box G)) /\ idb (b_txid (@demo_box G)) /\
  u16 (b_index (@demo_box G)) /\ box_id H (@demo_box G) = Ok id /\ any_order (@rev (bytes * json)) /\
  input_json_ok (MkInput (repeat 1 32) (PSome [1; 2]) [(3, MkConst SInt (LInt 5) : const G)]).
Proof.
  intros G H. eexists. split; [apply demo_json_ok|]. split; [split; [apply Forall_forall; intros y Hy; apply repeat_spec in Hy; subst; unfold byte; lia|reflexivity]|].
  split; [unfold u16; cbn; lia|]. split; [reflexivity|]. split; [intros l; apply Permutation_rev|].
  split; [split; [apply Forall_forall; intros y Hy; apply repeat_spec in Hy; subst; unfold byte; lia|reflexivity]|].
  split; [split; [repeat constructor; lia|discriminate]|]. cbn [in_ext]. split; [cbn [map fst]; constructor; [intros []|constructor]|].
  constructor; [|constructor]. split; [unfold u8; cbn; lia|]. exists [4; 10]. split; [reflexivity|]. split; [repeat constructor; lia|vm_compute; reflexivity].
Qed.
Example c90_transaction_hyps_met : forall (G : group) H, exists t : tx G, t_cands t = [b_cand demo_box; b_cand demo_box] /\ tx_json_ok H t.
Proof.
  intros G H. set (i := MkInput (repeat 1 32) (PSome [1; 2]) [(3, MkConst SInt (LInt 5) : const G)]).
  destruct (tx_new H [i] (Some [repeat 3 32]) [b_cand (@demo_box G); b_cand demo_box]) as [t| |] eqn:E; [|vm_compute in E; discriminate|vm_compute in E; discriminate].
  exists t. destruct (tx_new_inv _ _ _ _ _ E) as (m & o & _ & _ & _ & ->). split; [reflexivity|].
  assert (R : forall x, 0 <= x < 256 -> idb (repeat x 32)).
  { intros x Hx. split; [|reflexivity]. apply Forall_forall. intros y Hy. apply repeat_spec in Hy. subst. exact Hx. }
  unfold tx_json_ok. cbn [t_inputs t_data t_cands]. unfold count_ok. rewrite !Zlen_cons, !Zlen_nil. split; [lia|]. split; [|split; [|split; [lia|split; [|exact E]]]].
  - constructor; [|constructor]. destruct (c90_hyps_met G H) as (_ & _ & _ & _ & _ & _ & Hi). exact Hi.
  - cbn [data_json_ok]. rewrite Zlen_cons, Zlen_nil. split; [lia|]. constructor; [apply R; lia|constructor].
  - constructor; [apply demo_json_ok|constructor; [apply demo_json_ok|constructor]].
Qed.

(** ** C91: what is accepted is in order *)
Theorem c91_box : forall G, group_ok G -> forall ord, any_order ord -> forall H, hash32 H -> forall j id (b : box G), tidy false j ->
  box_of_json H j = Ok (id, b) ->
  box_id H b = Ok id /\ exists j', json_of_box ord (id, b) = Ok j' /\ box_of_json H j' = Ok (id, b).
Proof.
  intros G HG ord Ho H HH j id b Hj E. pose proof (good_box HG false H j Hj) as X. rewrite E in X. destruct X as (H1 & H2 & H3 & H4). cbn [fst snd] in *.
  split; [exact H4|]. apply c90_box; assumption.
Qed.
Print Assumptions c91_box.
(** A document that names an identifier is accepted only if it is the right one. *)
Theorem c91_box_identifier : forall G H m id (b : box G) given, box_of_json H (JObj m) = Ok (id, b) ->
  lookup ["boxId"; "id"] m = Ok (Some (JStr given)) -> unhex given = Some id /\ box_id H b = Ok id.
Proof.
  intros G H m id b given E L. unfold box_of_json in E. cbn [as_fields bind] in E. inv_bind E. inv_bind E. inv_bind E. inv_bind E. cbv zeta in E. inv_bind E.
  unfold opt_field in Eb. rewrite L in Eb. cbn [bind] in Eb. inv_bind Eb. injection Eb as <-. destruct (bytes_eqb b4 b5) eqn:Q; [|discriminate].
  apply bytes_eqb_spec in Q. subst b5. injection E as -> <-. split; [|exact Eb3].
  unfold digest, of_hex in Eb4. cbn [as_str bind] in Eb4. destruct (unhex given) as [x|]; [|discriminate]. cbn [of_option bind] in Eb4.
  destruct (Zlen x =? 32); [|discriminate]. injection Eb4 as ->. reflexivity.
Qed.
Print Assumptions c91_box_identifier.
Theorem c91_candidate : forall G, group_ok G -> forall ord, any_order ord -> forall j (c : cand G), tidy false j -> cand_of_json j = Ok c ->
  exists j', json_of_cand ord c = Ok j' /\ cand_of_json j' = Ok c.
Proof.
  intros G HG ord Ho j c Hj E. pose proof (good_cand HG false j Hj) as X. rewrite E in X. apply c90_candidate; assumption.
Qed.
Print Assumptions c91_candidate.
Theorem c91_input : forall G, group_ok G -> forall j (i : input G), tidy false j -> input_of_json j = Ok i ->
  exists j', json_of_input i = Ok j' /\ input_of_json j' = Ok i.
Proof. intros G HG j i Hj E. pose proof (good_input HG false j Hj) as X. rewrite E in X. apply c90_input. exact X. Qed.
Print Assumptions c91_input.
(** The identifier of an accepted transaction is the hash of what it signs and is the
    one the document gives; the outputs are the document's candidates with this
    identifier and their positions. *)
Theorem c91_transaction : forall G, group_ok G -> forall ord, any_order ord -> forall H, hash32 H -> forall j (t : tx G), tidy false j ->
  tx_of_json H j = Ok t ->
  (exists m, bytes_to_sign t = Ok m /\ t_id t = H m) /\
  mk_outputs H (t_id t) 0 (t_cands t) = Ok (t_outputs t) /\
  (forall m given, j = JObj m -> lookup ["id"] m = Ok (Some (JStr given)) -> unhex given = Some (t_id t)) /\
  exists j', json_of_tx ord t = Ok j' /\ tx_of_json H j' = Ok t.
Proof.
  intros G HG ord Ho H HH j t Hj E. pose proof (good_tx HG false H j Hj) as X. rewrite E in X. cbn [good] in X.
  pose proof X as (_ & _ & _ & _ & _ & En). destruct (tx_new_inv _ _ _ _ _ En) as (m & o & Em & _ & Eo & Et).
  split; [exists m; split; [exact Em|rewrite Et; reflexivity]|]. split.
  { replace (t_id t) with (H m) by (rewrite Et; reflexivity). replace (t_outputs t) with o by (rewrite Et; reflexivity). exact Eo. }
  split; [|apply c90_transaction; assumption].
  intros mm given -> L. unfold tx_of_json in E. cbn [as_fields bind] in E. rewrite (field_of _ _ _ _ _ L) in E. inv_bind E.
  do 3 (apply bind_ok in E; destruct E as (? & _ & E)). inv_bind E. destruct (bytes_eqb (t_id b0) b) eqn:Q; [|discriminate]. injection E as ->.
  apply bytes_eqb_spec in Q. subst b. unfold digest, of_hex in Eb. cbn [as_str bind] in Eb. destruct (unhex given) as [gv|]; [|discriminate].
  cbn [of_option bind] in Eb. destruct (Zlen gv =? 32); [|discriminate]. injection Eb as ->. reflexivity.
Qed.
Print Assumptions c91_transaction.
Theorem c91_unsigned_transaction : forall G, group_ok G -> forall ord, any_order ord -> forall H j (u : utx G), tidy false j -> utx_of_json H j = Ok u ->
  exists j', json_of_utx ord u = Ok j' /\ utx_of_json H j' = Ok u.
Proof.
  intros G HG ord Ho H j u Hj E. pose proof (good_utx HG false H j Hj) as X. rewrite E in X. apply c90_unsigned_transaction; assumption.
Qed.
Print Assumptions c91_unsigned_transaction.

(** The place the outputs of a document claim for themselves is not compared with the
    transaction: any is accepted. *)
Lemma outputs_elsewhere : forall G ord, any_order ord -> forall H, hash32 H -> forall x i (cs : list (cand G)), idb x -> u16 i -> Forall cand_json_ok cs ->
  Forall (fun c => box_id H (MkBox c x i) <> Panic /\ is_ok (box_id H (MkBox c x i)) = true) cs ->
  exists (os : list (bytes * box G)) js, Forall (fun o => b_txid (snd o) = x /\ b_index (snd o) = i) os /\ traverse (json_of_box ord) os = Ok js /\ traverse (box_of_json H) js = Ok os /\
    map (fun o => b_cand (snd o)) os = cs.
Proof.
  intros G ord Ho H HH x i cs Hx Hi F B. induction F as [|c cs Hc _ IH]; [exists [], []; repeat split; constructor|]. inversion B as [|? ? [_ Bc] Bs]; subst.
  destruct (IH Bs) as (os & js & P1 & P2 & P3 & P4). destruct (box_id H (MkBox c x i)) as [id| |] eqn:E; try discriminate Bc.
  destruct (c90_box G ord Ho H HH id (MkBox c x i) Hc Hx Hi E) as (j & J1 & J2). exists ((id, MkBox c x i) :: os), (j :: js).
  split; [constructor; [split; reflexivity|exact P1]|]. cbn [traverse map snd b_cand]. rewrite J1, P2, J2, P3, P4. repeat split.
Qed.
Theorem c91_output_place_refuted : forall G ord, any_order ord -> forall H, hash32 H -> forall t : tx G, tx_json_ok H t -> forall x i, idb x -> u16 i ->
  exists m (os : list (bytes * box G)) js, Forall (fun o => b_txid (snd o) = x /\ b_index (snd o) = i) os /\ traverse (json_of_box ord) os = Ok js /\
    lookup ["outputs"] m = Ok (Some (JArr js)) /\ tx_of_json H (JObj m) = Ok t.
Proof.
  intros G ord Ho H HH t Ht x i Hx Hi. pose proof Ht as (H1 & H2 & H3 & H4 & H5 & H6).
  assert (Hid : idb (t_id t)).
  { destruct (tx_new_inv _ _ _ _ _ H6) as (m & o & _ & _ & _ & Et). rewrite Et. cbn [t_id]. destruct (HH m) as [L B]. split; [exact B|unfold Zlen; rewrite L; reflexivity]. }
  destruct (outputs_elsewhere G ord Ho H HH x i (t_cands t) Hx Hi H5) as (os & js & P1 & P2 & P3 & P4).
  { (* the encodings exist because those of the transaction's own outputs do *)
    destruct (tx_new_inv _ _ _ _ _ H6) as (m & o & _ & _ & Eo & _). apply Forall_forall. intros c Hc. split.
    - apply box_id_nopanic; [|exact Hi]. rewrite Forall_forall in H5. auto.
    - assert (K : forall cs k l, mk_outputs H (H m) k cs = Ok l -> In c cs -> exists z, ser_cand None c = Ok z).
      { clear. induction cs as [|c' cs IH]; intros k l E Hi; [destruct Hi|]. cbn [mk_outputs] in E. cbv zeta in E. inv_bind E. inv_bind E.
        destruct Hi as [->|Hi]; [|eapply IH; eassumption]. unfold box_id in Eb. inv_bind Eb.
        change (ser_box (MkBox c (H m) (wrapu 16 k))) with (y <- ser_cand None c ;; z <- put_u16 (wrapu 16 k) ;; Ok (y ++ H m ++ z)) in Eb1.
        inv_bind Eb1. eauto. }
      destruct (K _ _ _ Eo Hc) as (z & Ez). unfold box_id. change (ser_box (MkBox c x i)) with (y <- ser_cand None c ;; w <- put_u16 i ;; Ok (y ++ x ++ w)).
      rewrite Ez. cbn [bind]. unfold put_u16. destruct (put_u64_nopanic i) as (w & ->); [unfold u16, u64 in *; lia|]. reflexivity. }
  destruct (traverse_rt _ _ input_of_json json_of_input (t_inputs t)) as (ji & Ei & Ri); [eapply Forall_impl; [|exact H2]; apply input_rt|].
  destruct (opt_vec_rt _ H3) as [Ev Fv].
  exists [(txt "id", to_hex (t_id t)); (txt "inputs", JArr ji); (txt "dataInputs", JArr (map json_of_data (data_or_empty (t_data t)))); (txt "outputs", JArr js)], os, js.
  split; [exact P1|]. split; [exact P2|]. split; [look|]. unfold tx_of_json. cbn [as_fields bind]. fld. rewrite digest_rt by apply Hid. cbn [bind].
  fld. cbn [list_of]. rewrite Ri. cbn [bind]. fld. cbn [list_of]. rewrite traverse_map by (eapply Forall_impl; [|exact Fv]; apply data_rt). cbn [bind].
  fld. cbn [list_of]. rewrite P3. cbn [bind]. rewrite P4. unfold tx_of_vecs, txio_ok, count_ok in *.
  replace ((1 <=? Zlen (t_inputs t)) && (Zlen (t_inputs t) <=? 65535)) with true by lia. cbn [negb]. rewrite Ev. cbn [bind].
  replace ((1 <=? Zlen (t_cands t)) && (Zlen (t_cands t) <=? 65535)) with true by lia. cbn [negb]. rewrite H6. cbn [bind].
  replace (bytes_eqb (t_id t) (t_id t)) with true by (symmetry; apply bytes_eqb_spec; reflexivity). reflexivity.
Qed.
Print Assumptions c91_output_place_refuted.

(** A document that meets the hypotheses. *)
Example c91_hyps_met : forall G, group_ok G -> forall H, hash32 H -> exists j id, tidy false j /\ box_of_json H j = Ok (id, @demo_box G).
Proof.
  intros G HG H HH. destruct (c90_hyps_met G H) as (id & H1 & H2 & H3 & H4 & _).
  assert (Ho : any_order (fun l => l)) by (intros l; apply Permutation_refl).
  destruct (c90_box G (fun l => l) Ho H HH id demo_box H1 H2 H3 H4) as (j & J1 & J2). exists j, id. split; [|exact J2].
  assert (L : Zlen id = 32). { unfold box_id in H4. inv_bind H4. injection H4 as <-. destruct (HH b) as [L _]. unfold Zlen. rewrite L. reflexivity. }
  unfold json_of_box, cand_members in J1.
  match type of J1 with context [json_of_tree ?t] => assert (Et : json_of_tree t = Ok (to_hex [0; 8; 211])) by reflexivity; rewrite Et in J1 end. cbn [bind] in J1.
  match type of J1 with context [json_of_regs ?o ?r] => assert (Er : json_of_regs o r = Ok (JObj [(reg_id_text 4, to_hex [4; 5]); (reg_id_text 5, to_hex [134; 2; 4; 2; 1; 1])])) by (vm_compute; reflexivity); rewrite Er in J1 end.
  cbn [bind app fst snd] in J1. injection J1 as <-. cbn [tidy fold_right fst snd to_hex map demo_box b_cand b_txid b_index cd_value cd_tokens cd_height].
  assert (Lh : forall b, Zlen (hex b) = 2 * Zlen b). { clear. intros b. induction b as [|x b IH]; [reflexivity|]. unfold hex in *. cbn [flat_map app]. rewrite !Zlen_cons. lia. }
  rewrite !Lh, L. repeat split; try discriminate; try exact I; vm_compute; reflexivity.
Qed.
