(** Properties of transactions: C28, C29, C61, C63, C71, C72. *)
From Coq Require Import Permutation.
From Verif Require Import Base VlqModel VlqProofs GroupModel GroupProofs SigmaModel SigmaProofs.
From Verif Require Import TypeModel TypeProofs MethodModel IrModel SerModel SerLocal SerSpec SerProofs ChainModel ChainProps TxModel.
Local Open Scope string_scope.
Local Open Scope list_scope.
Local Open Scope Z_scope.

(** ** What a well-formed transaction is *)
Definition proof_ok (p : proof) : Prop :=
  match p with PEmpty => True | PSome b => 1 <= Zlen b <= 65535 end.
Definition ext_ok {G : group} (m : ext G) : Prop :=
  NoDup (map fst m) /\ Forall u8 (map fst m) /\ Zlen m <= 255.
Definition id32 (b : bytes) : Prop := List.length b = 32%nat.
Definition data_ok (d : option (list bytes)) : Prop :=
  match d with None => True | Some l => 1 <= Zlen l <= 65535 /\ Forall id32 l end.
Definition count_ok {A} (l : list A) : Prop := 1 <= Zlen l <= 65535.

Section Spec.
Context {G : group}.
(** The values of the extension and the output boxes are read one after the other by
    one reader, whose state goes from the first to the second argument. *)
Inductive ok_inputs : @rst G -> list (input G) -> @rst G -> Prop :=
| ok_inputs_nil : forall st, ok_inputs st [] st
| ok_inputs_cons : forall st b p m l st1 st2,
    id32 b -> proof_ok p -> ext_ok m -> ok_consts st (map snd m) st1 ->
    ok_inputs st1 l st2 -> ok_inputs st (MkInput b p m :: l) st2.
Inductive ok_cands : @rst G -> list (cand G) -> @rst G -> Prop :=
| ok_cands_nil : forall st, ok_cands st [] st
| ok_cands_cons : forall st c l st1 st2, ok_cand st c st1 -> ok_cands st1 l st2 -> ok_cands st (c :: l) st2.
Definition ok_tx (st : @rst G) (ins : list (input G)) (d : option (list bytes)) (cs : list (cand G)) (st' : @rst G) : Prop :=
  exists st1, count_ok ins /\ data_ok d /\ count_ok cs /\ ok_inputs st ins st1 /\ ok_cands st1 cs st'.
End Spec.

(** ** C63 *)
Theorem c63_proof_roundtrip : forall p, proof_ok p -> roundtrip ser_proof parse_proof p.
Proof.
  intros [|b] H; cbn [proof_ok] in H.
  - destruct (get_put_u16 0) as (n & E & R); [unfold u16; lia|]. exists n. split; [exact E|].
    intros rest. unfold parse_proof. rewrite R. reflexivity.
  - destruct (get_put_u16 (Zlen b)) as (n & E & R); [unfold u16; change (2 ^ 16) with 65536; lia|].
    exists (n ++ b). cbn [ser_proof]. rewrite wrapu_id by (change (2 ^ 16) with 65536; lia). rewrite E. split; [reflexivity|].
    intros rest. unfold parse_proof. rewrite <- app_assoc, R. cbn [bind]. replace (Zlen b =? 0) with false by lia.
    rewrite read_exact_app by (rewrite Zlen_nat; reflexivity). reflexivity.
Qed.
Print Assumptions c63_proof_roundtrip.

Section Ext.
Context {G : group} (HG : group_ok G).

Lemma ext_insert_new : forall (m : ext G) k c, ~ In k (map fst m) -> ext_insert k c m = m ++ [(k, c)].
Proof.
  induction m as [|[k' c'] m IH]; intros k c H; [reflexivity|]. cbn [ext_insert map fst In app] in *.
  destruct (Z.eqb_spec k' k); [tauto|]. rewrite IH by tauto. reflexivity.
Qed.
Lemma ext_fold : forall (l m : ext G), NoDup (map fst (m ++ l)) ->
  fold_left (fun m e => ext_insert (fst e) (snd e) m) l m = m ++ l.
Proof.
  induction l as [|[k c] l IH]; intros m H; cbn [fold_left fst snd]; [symmetry; apply app_nil_r|].
  rewrite ext_insert_new.
  - rewrite IH; rewrite <- app_assoc; [reflexivity|exact H].
  - rewrite map_app in H. cbn [map fst] in H. apply NoDup_remove_2 in H.
    intros X. apply H. apply in_or_app. left. exact X.
Qed.

Lemma entries_rt : forall (m : ext G) st st', Forall u8 (map fst m) -> ok_consts st (map snd m) st' ->
  rt (write_list ser_entry m) (pread_n (List.length m) parse_entry) st m st'.
Proof.
  destruct (ok_roundtrip HG) as (_ & _ & _ & RC & _).
  induction m as [|[k c] m IH]; intros st st' Hk Hc.
  - cbn [map snd] in Hc. inversion Hc; subst. apply rt_nil.
  - cbn [map fst snd] in *. inversion Hk; subst. inversion Hc; subst.
    match goal with H : ok_const _ _ ?s |- _ => apply rt_cons with (st1 := s); [|auto]; apply RC, const_rt in H; destruct H as (b & E & R) end.
    exists ([k] ++ b). unfold ser_entry. cbn [fst snd put_u8 bind]. rewrite E. split; [reflexivity|].
    intros rest. unfold parse_entry. papp. cbn [app].
    erewrite pbind_step; [|apply lift_step; cbn [get_u8]; reflexivity].
    erewrite pbind_step; [|apply R]. reflexivity.
Qed.

Lemma ext_rt : forall (m : ext G) st st', ext_ok m -> ok_consts st (map snd m) st' ->
  rt (ser_ext m) parse_ext st m st'.
Proof.
  intros m st st' (Hn & Hk & Hl) Hc. destruct (entries_rt m st st' Hk Hc) as (b & E & R).
  pose proof (Zlen_nonneg _ m).
  exists ([Zlen m] ++ b). unfold ser_ext. rewrite wrapu_id by (change (2 ^ 8) with 256; lia).
  cbn [put_u8 bind]. rewrite E. split; [reflexivity|]. intros rest. unfold parse_ext. papp. cbn [app].
  erewrite pbind_step; [|apply lift_step; cbn [get_u8]; reflexivity].
  rewrite Zlen_nat. erewrite pbind_step; [|apply R]. rewrite ext_fold by exact Hn. reflexivity.
Qed.

Lemma input_rt : forall b p (m : ext G) st st', id32 b -> proof_ok p -> ext_ok m -> ok_consts st (map snd m) st' ->
  rt (ser_input (MkInput b p m)) parse_input st (MkInput b p m) st'.
Proof.
  intros b p m st st' Hb Hp Hm Hc. destruct (c63_proof_roundtrip p Hp) as (pb & Ep & Rp).
  destruct (ext_rt m st st' Hm Hc) as (eb & Ee & Re).
  exists (b ++ pb ++ eb). unfold ser_input. cbn [in_box in_proof in_ext]. rewrite Ep. cbn [bind]. rewrite Ee.
  split; [reflexivity|]. intros rest. unfold parse_input. papp.
  erewrite pbind_step; [|apply lift_step, read_exact_app; exact Hb]. pstep Rp.
  erewrite pbind_step; [|apply Re]. reflexivity.
Qed.
End Ext.

Theorem c63_extension_roundtrip : forall G, group_ok G -> forall (m : ext G) st st',
  ext_ok m -> ok_consts st (map snd m) st' ->
  exists bs, ser_ext m = Ok bs /\ forall rest, parse_ext st (bs ++ rest) = Ok (m, st', rest).
Proof. intros G HG m st st' Hm Hc. exact (ext_rt HG m st st' Hm Hc). Qed.
Print Assumptions c63_extension_roundtrip.

Example c63_hyps_met : forall G : group,
  proof_ok (PSome [1; 2; 3]) /\
  let m : ext G := [(7, MkConst SInt (LInt 5)); (0, MkConst SBoolean (LBool true))] in
  ext_ok m /\ ok_consts fresh (map snd m) fresh.
Proof.
  intros G. split; [cbn [proof_ok]; rewrite !Zlen_cons, Zlen_nil; lia|]. intros m. split; [split; [|split]|].
  - cbn. repeat constructor; cbn [In]; lia.
  - cbn. repeat constructor; lia.
  - subst m. rewrite !Zlen_cons, Zlen_nil. lia.
  - cbn [map snd]. eapply ok_consts_cons; [constructor; [vm_compute; tauto|apply ok_int; unfold i32; lia]|].
    eapply ok_consts_cons; [constructor; [vm_compute; tauto|apply ok_bool]|apply ok_consts_nil].
Qed.

(** Outside these bounds the encodings lose information: a present but empty proof
    becomes an absent one, a proof of 65536 bytes is announced as empty, and an
    extension with all 256 variables is announced as having none. *)
Theorem c63_empty_proof_refuted : exists p bs, ser_proof p = Ok bs /\ parse_proof bs = Ok (PEmpty, []) /\ p <> PEmpty.
Proof. exists (PSome []), [0]. split; [reflexivity|]. split; [reflexivity|discriminate]. Qed.
Print Assumptions c63_empty_proof_refuted.
Theorem c63_long_proof_refuted : exists b, Zlen b = 65536 /\ ser_proof (PSome b) = Ok (0 :: b).
Proof.
  exists (repeat 1 (Z.to_nat 65536)). assert (L : Zlen (repeat 1 (Z.to_nat 65536)) = 65536).
  { unfold Zlen. rewrite repeat_length. lia. }
  split; [exact L|]. cbn [ser_proof]. rewrite L. reflexivity.
Qed.
Print Assumptions c63_long_proof_refuted.
Theorem c63_full_extension_refuted : forall G : group, exists (m : ext G) bs,
  NoDup (map fst m) /\ Forall u8 (map fst m) /\ Zlen m = 256 /\
  ser_ext m = Ok (0 :: bs) /\ parse_ext (@fresh G) (0 :: bs) = Ok ([], fresh, bs).
Proof.
  intros G. set (m := map (fun i => (Z.of_nat i, MkConst SBoolean (LBool true) : const G)) (seq 0 256)).
  assert (F : map fst m = map Z.of_nat (seq 0 256)) by (subst m; rewrite map_map; reflexivity).
  assert (L : Zlen m = 256) by reflexivity.
  destruct (write_list ser_entry m) as [b|e|] eqn:E; [|exfalso; vm_compute in E; discriminate|exfalso; vm_compute in E; discriminate].
  exists m, b. split; [|split; [|split; [exact L|split; [|reflexivity]]]].
  - rewrite F. apply FinFun.Injective_map_NoDup; [intros x y; lia|apply seq_NoDup].
  - rewrite F. apply Forall_forall. intros x Hx. apply in_map_iff in Hx. destruct Hx as (i & <- & Hi). apply in_seq in Hi.
    unfold u8. lia.
  - unfold ser_ext. rewrite L. change (put_u8 (wrapu 8 256)) with (Ok [0] : res bytes). cbn [bind]. rewrite E. reflexivity.
Qed.
Print Assumptions c63_full_extension_refuted.

(** ** C28: transactions *)
Section Rt.
Context {G : group} (HG : group_ok G).
Implicit Types (cs : list (cand G)) (ins : list (input G)).

Lemma inputs_rt : forall st ins st', ok_inputs st ins st' ->
  rt (write_list ser_input ins) (pread_n (List.length ins) parse_input) st ins st'.
Proof. intros st ins st' H. induction H; [apply rt_nil|]. eapply rt_cons; [apply input_rt; eassumption|assumption]. Qed.

Lemma bytes_eqb_iff : forall a b, bytes_eqb a b = true <-> a = b.
Proof. exact bytes_eqb_spec. Qed.
Lemma mem_iff : forall l x, existsb (bytes_eqb x) l = true <-> In x l.
Proof.
  intros l x. rewrite existsb_exists. split.
  - intros (y & H & E). apply bytes_eqb_iff in E. subst. exact H.
  - intros H. exists x. split; [exact H|apply bytes_eqb_iff; reflexivity].
Qed.
Lemma set_insert_spec : forall l x, NoDup l ->
  NoDup (set_insert l x) /\ forall y, In y (set_insert l x) <-> In y l \/ y = x.
Proof.
  intros l x Hn. unfold set_insert. destruct (existsb (bytes_eqb x) l) eqn:E.
  - apply mem_iff in E. split; [exact Hn|]. intros y. split; [auto|]. intros [H| ->]; assumption.
  - assert (~ In x l) by (rewrite <- mem_iff, E; discriminate). split.
    + apply (Permutation_NoDup (l := x :: l)); [apply Permutation_cons_append|]. constructor; assumption.
    + intros y. rewrite in_app_iff. cbn [In]. intuition congruence.
Qed.
Lemma set_fold_spec : forall l acc, NoDup acc ->
  NoDup (fold_left set_insert l acc) /\ forall y, In y (fold_left set_insert l acc) <-> In y acc \/ In y l.
Proof.
  induction l as [|x l IH]; intros acc H; cbn [fold_left]; [split; [exact H|]; intros y; cbn [In]; tauto|].
  destruct (set_insert_spec acc x H) as [N I]. destruct (IH _ N) as [N' I']. split; [exact N'|].
  intros y. rewrite I', I. cbn [In]. intuition.
Qed.
Lemma index_set_spec : forall l, NoDup (index_set l) /\ forall y, In y (index_set l) <-> In y l.
Proof.
  intros l. destruct (set_fold_spec l [] (NoDup_nil _)) as [N I]. split; [exact N|]. intros y. rewrite (I y). cbn [In]. tauto.
Qed.
Lemma set_fold_nodup : forall l acc, NoDup (acc ++ l) -> fold_left set_insert l acc = acc ++ l.
Proof.
  induction l as [|x l IH]; intros acc H; cbn [fold_left]; [symmetry; apply app_nil_r|].
  assert (E : set_insert acc x = acc ++ [x]).
  { unfold set_insert. destruct (existsb (bytes_eqb x) acc) eqn:E; [|reflexivity]. apply mem_iff in E.
    apply NoDup_remove_2 in H. destruct H. apply in_or_app. left. exact E. }
  rewrite E, IH; rewrite <- app_assoc; [reflexivity|exact H].
Qed.
Lemma index_set_id : forall l, NoDup l -> index_set l = l.
Proof. intros l H. apply (set_fold_nodup l []). exact H. Qed.
Lemma set_fold_len : forall l acc, Zlen (fold_left set_insert l acc) <= Zlen acc + Zlen l.
Proof.
  induction l as [|x l IH]; intros acc; cbn [fold_left]; [rewrite Zlen_nil; lia|].
  specialize (IH (set_insert acc x)). rewrite Zlen_cons. unfold set_insert in *.
  destruct (existsb _ _); [lia|]. rewrite Zlen_app, Zlen_cons, Zlen_nil in IH. lia.
Qed.

Lemma ok_cand_inv : forall st (c : cand G) st', ok_cand st c st' ->
  Forall token_ok (cd_tokens c) /\ Zlen (cd_tokens c) <= max_tokens.
Proof. intros st c st' H. inversion H; subst. cbn [cd_tokens]. auto. Qed.

Lemma ids_of_cands : forall st cs st', ok_cands st cs st' ->
  Forall id32 (distinct_token_ids cs) /\ Zlen (distinct_token_ids cs) <= max_tokens * Zlen cs /\
  Forall (fun c => Forall (fun t => In (fst t) (distinct_token_ids cs)) (cd_tokens c)) cs.
Proof.
  intros st cs st' H. unfold distinct_token_ids.
  assert (A : Forall id32 (flat_map (fun c => map fst (cd_tokens c)) cs) /\
    Zlen (flat_map (fun c => map fst (cd_tokens c)) cs) <= max_tokens * Zlen cs).
  { induction H as [st|st c l st1 st2 Hc Hl [IH1 IH2]]; cbn [flat_map]; [split; [constructor|rewrite !Zlen_nil; lia]|].
    apply ok_cand_inv in Hc. destruct Hc as [Ht Hn]. split.
    - apply Forall_app. split; [|exact IH1]. rewrite Forall_map. eapply Forall_impl; [|exact Ht]. intros t [X _]. exact X.
    - rewrite Zlen_app, Zlen_cons. replace (Zlen (map fst (cd_tokens c))) with (Zlen (cd_tokens c)) by (unfold Zlen; rewrite map_length; reflexivity). lia. }
  destruct A as [A B]. set (l := flat_map _ cs) in *. destruct (index_set_spec l) as [N I]. split; [|split].
  - rewrite Forall_forall in *. intros x Hx. apply A, I, Hx.
  - pose proof (set_fold_len l []) as X. rewrite Zlen_nil in X. unfold index_set. lia.
  - rewrite Forall_forall. intros c Hc. rewrite Forall_forall. intros t Ht. apply I. subst l. apply in_flat_map.
    exists c. split; [exact Hc|]. apply in_map, Ht.
Qed.

Lemma cands_rt : forall ids st cs st', ok_cands st cs st' -> Zlen ids <= 2 ^ 32 ->
  Forall (fun c => Forall (fun t => In (fst t) ids) (cd_tokens c)) cs ->
  rt (write_list (ser_cand (Some ids)) cs) (pread_n (List.length cs) (parse_cand parse_expr (Some ids))) st cs st'.
Proof.
  intros ids st cs st' H Hl. destruct (ok_roundtrip HG) as (_ & _ & _ & _ & _ & _ & _ & _ & _ & _ & _ & _ & R & _).
  induction H as [st|st c l st1 st2 Hc H IH]; intros F; [apply rt_nil|]. inversion_clear F.
  eapply rt_cons; [|auto]. apply (R _ _ _ Hc). destruct c. cbn [ids_cover cd_tokens] in *. auto.
Qed.

Lemma ids_read : forall l rest, Forall id32 l ->
  read_n (List.length l) (read_exact 32) (List.concat l ++ rest) = Ok (l, rest).
Proof.
  induction l as [|x l IH]; intros rest H; [reflexivity|]. inversion_clear H. cbn [List.length read_n List.concat].
  rewrite <- app_assoc, read_exact_app by assumption. cbn [bind]. rewrite IH by assumption. reflexivity.
Qed.

Lemma ser_cand_ok : forall st (c : cand G) st', ok_cand st c st' -> exists bs, ser_cand None c = Ok bs.
Proof. intros st c st' H. destruct (c27_candidate_roundtrip G HG st c st' H None I) as (bs & E & _). eauto. Qed.
Lemma mk_outputs_ok : forall H txid cs st st' i, ok_cands st cs st' -> exists l, mk_outputs H txid i cs = Ok l.
Proof.
  intros H txid cs st st' i O. revert i. induction O as [st|st c l st1 st2 Hc O IH]; intros i; cbn [mk_outputs]; [eauto|].
  destruct (ser_cand_ok _ _ _ Hc) as [b E]. unfold box_id. rewrite sb_box, E. cbn [bind].
  destruct (get_put_u16 (wrapu 16 i)) as (ib & Ei & _).
  { unfold u16, wrapu. apply Z.mod_pos_bound. reflexivity. }
  rewrite Ei. cbn [bind]. destruct (IH (i + 1)) as [r ->]. cbn [bind]. eauto.
Qed.

Lemma parts_rt : forall st ins d cs st', ok_tx st ins d cs st' ->
  exists bs, ser_tx_parts ins d cs = Ok bs /\ forall H t rest, tx_new H ins d cs = Ok t ->
    parse_tx H st (bs ++ rest) = Ok (t, st', rest).
Proof.
  intros st ins d cs st' (st1 & Ni & Hd & Nc & Oi & Oc).
  destruct (inputs_rt _ _ _ Oi) as (ib & Ei & Ri). destruct (ids_of_cands _ _ _ Oc) as (H32 & Hlen & Hcov).
  unfold count_ok, max_tokens in *. set (ids := distinct_token_ids cs) in *.
  assert (Hids : 0 <= Zlen ids < 2 ^ 32) by (pose proof (Zlen_nonneg _ ids); change (2 ^ 32) with 4294967296; lia).
  assert (Hids' : Zlen ids <= 2 ^ 32) by lia.
  destruct (cands_rt ids _ _ _ Oc Hids' Hcov) as (cb & Ec & Rc).
  destruct (put_usize_u16_rt (Zlen ins)) as (nb & En & Rn); [change (2 ^ 16) with 65536; lia|].
  destruct (put_usize_u16_rt (Zlen cs)) as (ob & Eo & Ro); [change (2 ^ 16) with 65536; lia|].
  destruct (put_usize_u32_rt (Zlen ids) Hids) as (kb & Ek & Rk).
  set (dl := match d with Some l => l | None => [] end).
  assert (D : exists m, match d with
       | Some l => m <- put_usize_as_u16_unwrapped (Zlen l) ;; Ok (m ++ List.concat l)
       | None => put_u16 0
       end = Ok (m ++ List.concat dl) /\ (forall rest, get_u16 (m ++ rest) = Ok (Zlen dl, rest)) /\
       Forall id32 dl /\ opt_vec dl = Ok d).
  { destruct d as [l|].
    - destruct Hd as [Hd1 Hd2]. destruct (put_usize_u16_rt (Zlen l)) as (m & E & R); [change (2 ^ 16) with 65536; lia|].
      exists m. rewrite E. split; [reflexivity|]. split; [exact R|]. split; [exact Hd2|].
      subst dl. unfold opt_vec, txio_ok. destruct l as [|x l]; [rewrite Zlen_nil in Hd1; lia|].
      replace (_ && _) with true by lia. reflexivity.
    - destruct (get_put_u16 0) as (m & E & R); [unfold u16; lia|]. exists m. rewrite E. subst dl. cbn [List.concat].
      rewrite app_nil_r. split; [reflexivity|]. split; [exact R|]. split; [constructor|reflexivity]. }
  destruct D as (db & Ed & Rd & D32 & Dopt).
  exists (nb ++ ib ++ (db ++ List.concat dl) ++ kb ++ List.concat ids ++ ob ++ cb). split.
  { unfold ser_tx_parts. rewrite En. cbn [bind]. rewrite Ei. cbn [bind]. rewrite Ed. cbn [bind]. cbv zeta. fold ids.
    rewrite Ek. cbn [bind]. rewrite Eo. cbn [bind]. rewrite Ec. reflexivity. }
  intros H t rest Ht. unfold parse_tx. papp. pstep Rn. rewrite Zlen_nat. erewrite pbind_step; [|apply Ri].
  pstep Rd. rewrite Zlen_nat. erewrite pbind_step; [|apply lift_step, ids_read; exact D32].
  pstep Rk. unfold max_tx_tokens, max_tokens.
  replace (65535 * 122 <? Zlen ids) with false by lia. rewrite Zlen_nat.
  erewrite pbind_step; [|apply lift_step, ids_read; exact H32]. cbv zeta.
  rewrite index_set_id by apply index_set_spec. pstep Ro. rewrite Zlen_nat. erewrite pbind_step; [|apply Rc].
  apply of_res_step. unfold tx_of_vecs, txio_ok.
  replace ((1 <=? Zlen ins) && (Zlen ins <=? 65535)) with true by lia.
  replace ((1 <=? Zlen cs) && (Zlen cs <=? 65535)) with true by lia. cbn [negb]. rewrite Dopt. exact Ht.
Qed.

(** Erasing proofs keeps a transaction well formed. *)
Lemma ok_inputs_to_sign : forall st ins st', ok_inputs st ins st' -> ok_inputs st (map in_to_sign ins) st'.
Proof. intros st ins st' H. induction H; cbn [map]; [constructor|]. econstructor; eauto; exact I. Qed.
Lemma ok_tx_to_sign : forall st ins d cs st', ok_tx st ins d cs st' -> ok_tx st (map in_to_sign ins) d cs st'.
Proof.
  intros st ins d cs st' (st1 & A & B & C & D & E). exists st1. split; [unfold count_ok, Zlen in *; rewrite map_length; exact A|].
  split; [exact B|]. split; [exact C|]. split; [apply ok_inputs_to_sign, D|exact E].
Qed.
Lemma tx_new_ok : forall H st ins d cs st', ok_tx st ins d cs st' -> exists t, tx_new H ins d cs = Ok t.
Proof.
  intros H st ins d cs st' O. destruct (parts_rt _ _ _ _ _ (ok_tx_to_sign _ _ _ _ _ O)) as (m & Em & _).
  destruct O as (st1 & _ & _ & _ & _ & Oc). unfold tx_new.
  destruct (mk_outputs_ok H zero_id cs _ _ 0 Oc) as [l ->]. cbn [bind].
  unfold tx_message. rewrite Em. cbn [bind]. destruct (mk_outputs_ok H (H m) cs _ _ 0 Oc) as [l' ->]. cbn [bind]. eauto.
Qed.
Lemma tx_new_inv : forall H ins d cs t, tx_new H ins d cs = Ok t -> exists m outs,
  tx_message ins d cs = Ok m /\ is_ok (mk_outputs H zero_id 0 cs) = true /\ mk_outputs H (H m) 0 cs = Ok outs /\
  t = MkTx (H m) ins d cs outs.
Proof.
  intros H ins d cs t E. unfold tx_new in E. inv_bind E. inv_bind E. inv_bind E. injection E as <-.
  do 2 eexists. repeat split; try eassumption. match goal with X : mk_outputs _ zero_id _ _ = _ |- _ => rewrite X end. reflexivity.
Qed.
End Rt.

(** A well-formed transaction can be created, and its encoding is read back as the
    same transaction (identifier and outputs with their identifiers included),
    whatever follows. *)
Theorem c28_tx_roundtrip : forall G, group_ok G -> forall (H : bytes -> bytes) st (ins : list (input G)) d cs st',
  ok_tx st ins d cs st' ->
  exists t bs, tx_new H ins d cs = Ok t /\ t_inputs t = ins /\ t_data t = d /\ t_cands t = cs /\
    ser_tx t = Ok bs /\ forall rest, parse_tx H st (bs ++ rest) = Ok (t, st', rest).
Proof.
  intros G HG H st ins d cs st' O. destruct (tx_new_ok HG H _ _ _ _ _ O) as [t Et].
  destruct (parts_rt HG _ _ _ _ _ O) as (bs & Eb & R). exists t, bs. pose proof Et as Et'.
  apply tx_new_inv in Et'. destruct Et' as (m & outs & _ & _ & _ & ->).
  cbn [t_inputs t_data t_cands]. repeat split; auto.
Qed.
Print Assumptions c28_tx_roundtrip.

(** No two transactions share an encoding. *)
Theorem c28_encoding_injective : forall G, group_ok G -> forall (ins ins' : list (input G)) d d' cs cs' s s' bs,
  ok_tx fresh ins d cs s -> ok_tx fresh ins' d' cs' s' ->
  ser_tx_parts ins d cs = Ok bs -> ser_tx_parts ins' d' cs' = Ok bs -> ins = ins' /\ d = d' /\ cs = cs'.
Proof.
  intros G HG ins ins' d d' cs cs' s s' bs O O' E E'. set (H := fun b : bytes => b).
  destruct (c28_tx_roundtrip G HG H _ _ _ _ _ O) as (t & b & T & T1 & T2 & T3 & Eb & R).
  destruct (c28_tx_roundtrip G HG H _ _ _ _ _ O') as (t' & b' & T' & T1' & T2' & T3' & Eb' & R').
  unfold ser_tx in *. rewrite T1, T2, T3 in Eb. rewrite T1', T2', T3' in Eb'.
  assert (b = bs) by congruence. assert (b' = bs) by congruence. subst b b'.
  pose proof (R []) as X. rewrite (R' []) in X. injection X as -> _. split; [congruence|]. split; congruence.
Qed.
Print Assumptions c28_encoding_injective.

Example c28_hyps_met : forall G : group,
  ok_tx (@fresh G)
    [MkInput (repeat 1 32) (PSome [1; 2]) [(3, MkConst SInt (LInt 5))]; MkInput (repeat 2 32) PEmpty []]
    (Some [repeat 3 32]) [b_cand demo_box; b_cand demo_box] fresh.
Proof.
  intros G. exists fresh. unfold count_ok. rewrite !Zlen_cons, !Zlen_nil. split; [lia|].
  split; [cbn [data_ok]; rewrite Zlen_cons, Zlen_nil; split; [lia|repeat constructor]|]. split; [lia|]. split.
  - eapply ok_inputs_cons; [reflexivity|cbn [proof_ok]; rewrite !Zlen_cons, Zlen_nil; lia| | |].
    + split; [cbn [map fst]; constructor; [intros []|constructor]|].
      split; [cbn [map fst]; constructor; [unfold u8; lia|constructor]|rewrite Zlen_cons, Zlen_nil; lia].
    + cbn [map snd]. eapply ok_consts_cons; [constructor; [vm_compute; tauto|apply ok_int; unfold i32; lia]|apply ok_consts_nil].
    + eapply ok_inputs_cons; [reflexivity|exact I| |apply ok_consts_nil|apply ok_inputs_nil].
      split; [constructor|]. split; [constructor|rewrite Zlen_nil; lia].
  - eapply ok_cands_cons; [apply demo_cand_ok|]. eapply ok_cands_cons; [apply demo_cand_ok|apply ok_cands_nil].
Qed.

(** ** C29: the identifier *)

(** Two inputs that differ at most in the proof. *)
Definition same_but_proof {G : group} (a b : input G) : Prop := in_box a = in_box b /\ in_ext a = in_ext b.

Section Id.
Context {G : group}.

Lemma message_same : forall (ins ins' : list (input G)) d cs, Forall2 same_but_proof ins ins' ->
  tx_message ins d cs = tx_message ins' d cs.
Proof.
  intros ins ins' d cs F. unfold tx_message. f_equal. induction F as [|a b l l' [E1 E2] F IH]; [reflexivity|].
  cbn [map]. rewrite IH. unfold in_to_sign. rewrite E1, E2. reflexivity.
Qed.

Lemma attach_spec : forall (ins : list (uinput G)) ps l, attach ins ps = Ok l ->
  Forall2 same_but_proof l (map ui_to_sign ins) /\ map in_proof l = firstn (List.length ins) ps.
Proof.
  induction ins as [|i ins IH]; intros ps l E; cbn [attach] in E.
  - injection E as <-. split; [constructor|reflexivity].
  - destruct ps as [|p ps]; [discriminate|]. inv_bind E. injection E as <-. apply IH in Eb. destruct Eb as [F M].
    cbn [map List.length firstn]. rewrite M. split; [|reflexivity]. constructor; [split; reflexivity|exact F].
Qed.
Lemma attach_ok : forall (ins : list (uinput G)) ps, (List.length ins <= List.length ps)%nat -> exists l, attach ins ps = Ok l.
Proof.
  induction ins as [|i ins IH]; intros ps H; cbn [attach]; [eauto|]. destruct ps as [|p ps]; [inversion H|].
  cbn [List.length] in H. destruct (IH ps) as [l ->]; [lia|]. cbn [bind]. eauto.
Qed.
Lemma mk_outputs_spec : forall H txid (cs : list (cand G)) i l, mk_outputs H txid i cs = Ok l ->
  List.length l = List.length cs /\
  forall k c, nth_error cs k = Some c ->
    exists id, nth_error l k = Some (id, MkBox c txid (wrapu 16 (i + Z.of_nat k))) /\
      box_id H (MkBox c txid (wrapu 16 (i + Z.of_nat k))) = Ok id.
Proof.
  intros H txid cs. induction cs as [|c cs IH]; intros i l E; cbn [mk_outputs] in E.
  - injection E as <-. split; [reflexivity|]. intros [|k] c X; discriminate.
  - cbv zeta in E. inv_bind E. inv_bind E. injection E as <-. apply IH in Eb0. destruct Eb0 as [L N]. cbn [List.length].
    split; [congruence|]. intros [|k] c' X; cbn [nth_error] in *.
    + injection X as <-. rewrite Z.add_0_r. eauto.
    + destruct (N _ _ X) as (id & A & B). replace (i + Z.of_nat (S k)) with (i + 1 + Z.of_nat k) by lia. eauto.
Qed.
End Id.

(** A signed transaction made from an unsigned one: same identifier, same boxes and
    extensions, same data inputs and outputs, and the proofs in order. *)
Theorem c29_signed_id : forall (G : group) H (ins : list (uinput G)) d cs u ps t,
  utx_new H ins d cs = Ok u -> tx_of_unsigned H u ps = Ok t ->
  t_id t = u_id u /\ bytes_to_sign t = utx_bytes_to_sign H u /\
  map in_box (t_inputs t) = map ui_box ins /\ map in_ext (t_inputs t) = map ui_ext ins /\
  map in_proof (t_inputs t) = firstn (List.length ins) ps /\ t_data t = d /\ t_cands t = cs.
Proof.
  intros G H ins d cs u ps t U T. unfold utx_new in U. inv_bind U. injection U as <-.
  unfold tx_of_unsigned in T. cbn [u_inputs u_data u_cands u_id] in T. inv_bind T. apply attach_spec in Eb0.
  destruct Eb0 as [F M]. apply tx_new_inv in T. destruct T as (m & outs & Em & _ & _ & ->).
  unfold utx_bytes_to_sign. cbn [u_inputs u_data u_cands u_id]. pose proof Eb as Eb'.
  unfold utx_message in Eb. inv_bind Eb. apply tx_new_inv in Eb0. destruct Eb0 as (m' & outs' & Em' & _ & _ & ->).
  unfold bytes_to_sign in *. cbn [t_inputs t_data t_cands t_id] in *. rewrite (message_same _ _ d cs F), Em' in Em.
  injection Em as ->. rewrite Em' in Eb. injection Eb as ->.
  split; [reflexivity|]. split; [rewrite (message_same _ _ d cs F), Em', Eb'; reflexivity|]. split; [|split; [|auto]].
  - clear - F. revert b0 F. induction ins as [|i ins IH]; intros l F; inversion F; subst; [reflexivity|]. cbn [map].
    destruct H2 as [X _]. rewrite X. f_equal. apply IH. assumption.
  - clear - F. revert b0 F. induction ins as [|i ins IH]; intros l F; inversion F; subst; [reflexivity|]. cbn [map].
    destruct H2 as [_ X]. rewrite X. f_equal. apply IH. assumption.
Qed.
Print Assumptions c29_signed_id.

(** It can be made from any list of proofs that is long enough. *)
Theorem c29_signed_exists : forall (G : group) H (ins : list (uinput G)) d cs u ps,
  utx_new H ins d cs = Ok u ->
  (exists t, tx_of_unsigned H u ps = Ok t) <-> (List.length ins <= List.length ps)%nat.
Proof.
  intros G H ins d cs u ps U. pose proof U as U'. unfold utx_new in U. inv_bind U. injection U as <-.
  unfold tx_of_unsigned. cbn [u_inputs u_data u_cands]. split.
  - intros [t T]. inv_bind T. clear - Eb0. revert ps b0 Eb0. induction ins as [|i ins IH]; intros ps l E; cbn [attach List.length] in *; [lia|].
    destruct ps as [|p ps]; [discriminate|]. inv_bind E. cbn [List.length]. apply IH in Eb. lia.
  - intros L. destruct (attach_ok ins ps L) as [l El]. rewrite El. cbn [bind]. apply attach_spec in El. destruct El as [F _].
    unfold utx_message in Eb. inv_bind Eb. apply tx_new_inv in Eb0. destruct Eb0 as (m & outs & Em & Z0 & Eo & ->).
    unfold tx_new. destruct (mk_outputs H zero_id 0 cs); try discriminate. cbn [bind].
    rewrite (message_same _ _ d cs F), Em. cbn [bind]. rewrite Eo. cbn [bind]. eauto.
Qed.
Print Assumptions c29_signed_exists.

(** Replacing proofs changes neither the identifier nor the outputs. *)
Theorem c29_proofs_irrelevant : forall (G : group) H (ins ins' : list (input G)) d cs t,
  Forall2 same_but_proof ins ins' -> tx_new H ins d cs = Ok t ->
  exists t', tx_new H ins' d cs = Ok t' /\ t_id t' = t_id t /\ t_outputs t' = t_outputs t /\ bytes_to_sign t' = bytes_to_sign t.
Proof.
  intros G H ins ins' d cs t F T. apply tx_new_inv in T. destruct T as (m & outs & Em & Z0 & Eo & ->).
  unfold tx_new. destruct (mk_outputs H zero_id 0 cs); try discriminate. cbn [bind].
  rewrite <- (message_same _ _ d cs F), Em. cbn [bind]. rewrite Eo. cbn [bind]. eexists. split; [reflexivity|].
  unfold bytes_to_sign. cbn [t_id t_outputs t_inputs t_data t_cands]. rewrite (message_same _ _ d cs F). auto.
Qed.
Print Assumptions c29_proofs_irrelevant.

(** Output number [k] is the candidate number [k] with the transaction's identifier
    and the position [k], and its identifier is the hash of its encoding. *)
Theorem c29_outputs : forall (G : group) H (ins : list (input G)) d cs t,
  tx_new H ins d cs = Ok t -> Zlen cs <= 65535 ->
  List.length (t_outputs t) = List.length cs /\
  forall k c, nth_error cs k = Some c ->
    exists bs, ser_box (MkBox c (t_id t) (Z.of_nat k)) = Ok bs /\
      nth_error (t_outputs t) k = Some (H bs, MkBox c (t_id t) (Z.of_nat k)).
Proof.
  intros G H ins d cs t T L. apply tx_new_inv in T. destruct T as (m & outs & _ & _ & Eo & ->). cbn [t_outputs t_id].
  apply mk_outputs_spec in Eo. destruct Eo as [E N]. split; [exact E|]. intros k c Hk. destruct (N _ _ Hk) as (id & A & B).
  assert (k < List.length cs)%nat by (apply nth_error_Some; congruence).
  rewrite Z.add_0_l in *. rewrite wrapu_id in A, B by (change (2 ^ 16) with 65536; unfold Zlen in L; lia).
  unfold box_id in B. inv_bind B. injection B as <-. eauto.
Qed.
Print Assumptions c29_outputs.

(** The identifier commits to everything but the proofs: equal identifiers mean equal
    inputs up to proofs, equal data inputs and equal outputs, or a collision of the
    hash function. *)
Theorem c29_id_identifies : forall G, group_ok G -> forall H (ins ins' : list (input G)) d d' cs cs' s s' t t',
  ok_tx fresh ins d cs s -> ok_tx fresh ins' d' cs' s' ->
  tx_new H ins d cs = Ok t -> tx_new H ins' d' cs' = Ok t' -> t_id t = t_id t' ->
  (Forall2 same_but_proof ins ins' /\ d = d' /\ cs = cs') \/
  exists x y, x <> y /\ bytes_to_sign t = Ok x /\ bytes_to_sign t' = Ok y /\ H x = H y.
Proof.
  intros G HG H ins ins' d d' cs cs' s s' t t' O O' T T' E.
  apply tx_new_inv in T. destruct T as (m & outs & Em & _ & _ & ->).
  apply tx_new_inv in T'. destruct T' as (m' & outs' & Em' & _ & _ & ->). cbn [t_id] in E.
  destruct (list_eq_dec Z.eq_dec m m') as [->|N].
  - left. destruct (c28_encoding_injective G HG _ _ _ _ _ _ _ _ _ (ok_tx_to_sign _ _ _ _ _ O) (ok_tx_to_sign _ _ _ _ _ O') Em Em') as (A & B & C).
    split; [|auto]. clear - A. revert ins' A. induction ins as [|i ins IH]; intros [|i' ins'] A; try discriminate; constructor.
    + cbn [map] in A. injection A as A1 A2. intros. split; assumption.
    + apply IH. cbn [map] in A. congruence.
  - right. exists m, m'. unfold bytes_to_sign. cbn [t_inputs t_data t_cands]. auto.
Qed.
Print Assumptions c29_id_identifies.

Example c29_hyps_met : forall (G : group) (H : bytes -> bytes), exists u t,
  utx_new H [MkUInput (repeat 1 32) [(3, MkConst SInt (LInt 5) : const G)]] None [b_cand demo_box] = Ok u /\
  tx_of_unsigned H u [PSome [1; 2; 3]] = Ok t.
Proof. intros G H. eexists. eexists. split; [vm_compute; reflexivity|vm_compute; reflexivity]. Qed.

(** ** C71: reduced transactions *)
Definition rinput_ok {G : group} (i : rinput G) : Prop := sb_wf (ri_prop i) /\ u64 (ri_cost i).

Section Reduced.
Context {G : group} (HG : group_ok G).
Lemma rinputs_rt : forall (ins : list (input G)) (ris : list (rinput G)),
  Forall rinput_ok ris -> map ri_ext ris = map in_ext ins ->
  exists bs, write_list ser_rinput ris = Ok bs /\ forall rest, parse_rinputs ins (bs ++ rest) = Ok (ris, rest).
Proof.
  induction ins as [|i ins IH]; intros [|r ris] F E; try discriminate E.
  - exists []. split; reflexivity.
  - inversion_clear F as [|? ? [Hw Hc] F']. cbn [map] in E. injection E as E1 E2.
    destruct (sb_rt HG (ri_prop r) Hw) as (sb & Es & Rs).
    destruct (get_put_u64 (ri_cost r) Hc) as (cb & Ec & Rc). destruct (IH ris F' E2) as (b & Eb & Rb).
    exists ((sb ++ cb) ++ b). rewrite write_list_cons. unfold ser_rinput at 1. rewrite Es. cbn [bind]. rewrite Ec. cbn [bind].
    rewrite Eb. split; [reflexivity|]. intros rest. cbn [parse_rinputs]. rewrite <- !app_assoc. rewrite Rs. cbn [bind].
    rewrite Rc. cbn [bind]. rewrite Rb. cbn [bind]. rewrite <- E1. destruct r. reflexivity.
Qed.
End Reduced.

(** The encoding of a reduced transaction is read back as the same reduced
    transaction. *)
Theorem c71_reduced_roundtrip : forall G, group_ok G -> forall H (u : utx G) ris cost s ins d cs,
  utx_new H ins d cs = Ok u -> ok_tx fresh (map ui_to_sign ins) d cs s ->
  Forall rinput_ok ris -> map ri_ext ris = map ui_ext ins -> u32 cost ->
  (forall m, utx_bytes_to_sign H u = Ok m -> Zlen m < 2 ^ 32) ->
  roundtrip (ser_rtx H) (parse_rtx H) (MkRtx u cost ris).
Proof.
  intros G HG H u ris cost s ins d cs U O F E Hc Hm.
  pose proof U as U'. unfold utx_new in U. inv_bind U. injection U as <-.
  unfold utx_bytes_to_sign in Hm. cbn [u_inputs u_data u_cands] in Hm. specialize (Hm _ Eb). pose proof Eb as Em.
  unfold utx_message in Eb. inv_bind Eb. pose proof Eb0 as T. apply tx_new_inv in Eb0. destruct Eb0 as (m' & outs & Em' & _ & _ & ->).
  unfold bytes_to_sign in Eb. cbn [t_inputs t_data t_cands] in Eb. rewrite Em' in Eb. injection Eb as ->.
  assert (ES : map in_to_sign (map ui_to_sign ins) = map ui_to_sign ins) by (rewrite map_map; reflexivity).
  unfold tx_message in Em'. rewrite ES in Em'.
  destruct (parts_rt HG _ _ _ _ _ O) as (b' & Eb' & R). rewrite Em' in Eb'. injection Eb' as <-.
  destruct (put_usize_u32_rt (Zlen b)) as (nb & En & Rn); [pose proof (Zlen_nonneg _ b); lia|].
  destruct (rinputs_rt HG (map ui_to_sign ins) ris F) as (ib & Ei & Ri); [rewrite E, map_map; reflexivity|].
  destruct (get_put_u32 cost Hc) as (cb & Ec & Rc).
  exists (nb ++ b ++ ib ++ cb). unfold ser_rtx, utx_bytes_to_sign. cbn [r_tx r_inputs r_cost u_inputs u_data u_cands].
  rewrite Em. cbn [bind]. rewrite En. cbn [bind]. rewrite Ei. cbn [bind]. rewrite Ec. split; [reflexivity|].
  intros rest. unfold parse_rtx. rewrite <- !app_assoc, Rn. cbn [bind]. rewrite read_exact_app by (rewrite Zlen_nat; reflexivity).
  cbn [bind]. unfold from_bytes. pose proof (R _ _ [] T) as RR. rewrite app_nil_r in RR. rewrite RR. cbn [bind t_inputs t_data t_cands].
  rewrite Ri. cbn [bind].
  replace (map (fun i : input G => MkUInput (in_box i) (in_ext i)) (map ui_to_sign ins)) with ins
    by (rewrite map_map; symmetry; clear; induction ins as [|[? ?] ? IH]; cbn [map]; [reflexivity|rewrite IH; reflexivity]).
  rewrite U'. cbn [bind]. rewrite Rc. reflexivity.
Qed.
Print Assumptions c71_reduced_roundtrip.

Example c71_hyps_met : forall (G : group) (H : bytes -> bytes),
  let ins := [MkUInput (repeat 1 32) [(3, MkConst SInt (LInt 5) : const G)]] in
  let cs := [b_cand demo_box] in
  let ris := [MkRInput (SConj (Thr 1) [SLeaf (Dlog ggen); Triv true]) 7 [(3, MkConst SInt (LInt 5))]] in
  exists u, utx_new H ins None cs = Ok u /\ ok_tx fresh (map ui_to_sign ins) None cs fresh /\
  Forall rinput_ok ris /\ map ri_ext ris = map ui_ext ins /\
  (forall m, utx_bytes_to_sign H u = Ok m -> Zlen m < 2 ^ 32).
Proof.
  intros G H ins cs ris. eexists. split; [vm_compute; reflexivity|]. split; [|split; [|split; [reflexivity|]]].
  - exists fresh. unfold count_ok. subst ins cs ris. unfold ui_to_sign. cbn [map in_ext ui_ext in_box ui_box in_proof]. rewrite !Zlen_cons, !Zlen_nil. split; [lia|].
    split; [exact I|]. split; [lia|]. split.
    + eapply ok_inputs_cons; [reflexivity|exact I| | |apply ok_inputs_nil].
      * split; [cbn [in_ext map fst]; constructor; [intros []|constructor]|].
        split; [cbn [in_ext map fst]; constructor; [unfold u8; lia|constructor]|cbn [in_ext]; rewrite Zlen_cons, Zlen_nil; lia].
      * cbn [in_ext map snd]. eapply ok_consts_cons; [constructor; [vm_compute; tauto|apply ok_int; unfold i32; lia]|apply ok_consts_nil].
    + eapply ok_cands_cons; [apply demo_cand_ok|apply ok_cands_nil].
  - constructor; [|constructor]. split; [|cbn [ri_cost]; unfold u64; lia]. cbn [ri_prop sb_wf conj_wf fold_right]. unfold items_len_ok, u8. rewrite !Zlen_cons, Zlen_nil. repeat split; auto; lia.
  - intros m E. vm_compute in E. injection E as <-. vm_compute. reflexivity.
Qed.

(** ** C72: token identifiers in received transactions *)

(** An output of a transaction names its tokens by their position in a table that
    precedes the outputs.  When the table of received bytes has the same identifier
    twice, the library shortens it before looking positions up, so positions after
    the repetition name other tokens than the bytes say, or none. *)
Theorem c72_token_table_refuted : exists (l : list bytes) (i : nat) x y,
  Forall id32 l /\ nth_error l i = Some x /\ nth_error (index_set l) i = Some y /\ x <> y.
Proof.
  exists [repeat 1 32; repeat 1 32; repeat 2 32; repeat 3 32], 2%nat, (repeat 2 32), (repeat 3 32).
  split; [repeat constructor|]. split; [reflexivity|]. split; [reflexivity|discriminate].
Qed.
Print Assumptions c72_token_table_refuted.

(** For tables without repetition every position names the token the bytes say. *)
Theorem c72_token_table : forall l, NoDup l -> forall i, nth_error (index_set l) i = nth_error l i.
Proof. intros l H i. rewrite index_set_id by exact H. reflexivity. Qed.
Print Assumptions c72_token_table.

(** ** C61: transaction context *)

(** The boxes carry the hash of their encoding as identifier. *)
Definition real_box {G : group} (H : bytes -> bytes) (b : ebox G) : Prop := box_id H (snd b) = Ok (fst b).

Section Ctx.
Context {G : group}.
Lemma has_box_iff : forall (l : list (ebox G)) id, has_box l id = true <-> In id (map fst l).
Proof.
  intros l id. unfold has_box. rewrite existsb_exists. rewrite in_map_iff. split.
  - intros (b & Hb & E). apply bytes_eqb_iff in E. exists b. auto.
  - intros (b & E & Hb). exists b. split; [exact Hb|]. apply bytes_eqb_iff. auto.
Qed.
Lemma find_box_in : forall (l : list (ebox G)) id, In id (map fst l) -> exists b, find_box l id = Some b /\ In b l /\ fst b = id.
Proof.
  intros l id H. destruct (find_box l id) as [b|] eqn:E; unfold find_box in E.
  - apply find_some in E. destruct E as [E1 E2]. apply bytes_eqb_iff in E2. exists b. auto.
  - apply in_map_iff in H. destruct H as (b & <- & Hb). pose proof (find_none _ _ E b Hb) as X. cbv beta in X.
    rewrite (proj2 (bytes_eqb_iff _ _) eq_refl) in X. discriminate.
Qed.
Lemma find_box_some : forall (l : list (ebox G)) id b, find_box l id = Some b -> In b l /\ fst b = id.
Proof. intros l id b E. apply find_some in E. destruct E as [E1 E2]. apply bytes_eqb_iff in E2. auto. Qed.
Lemma find_all_ok : forall (l : list (ebox G)) ids e, (forall id, In id ids -> In id (map fst l)) ->
  exists r, find_all l ids e = Ok r.
Proof.
  intros l ids e. induction ids as [|id ids IH]; intros H; cbn [find_all]; [eauto|].
  destruct (find_box_in l id) as (b & -> & _); [apply H; left; reflexivity|]. cbn [of_option bind].
  destruct IH as [r ->]; [intros x Hx; apply H; right; exact Hx|]. cbn [bind]. eauto.
Qed.
Lemma find_all_spec : forall (l : list (ebox G)) ids e r, find_all l ids e = Ok r ->
  map fst r = ids /\ Forall (fun b => In b l) r.
Proof.
  intros l ids e. induction ids as [|id ids IH]; intros r E; cbn [find_all] in E; [injection E as <-; split; [reflexivity|constructor]|].
  inv_bind E. inv_bind E. injection E as <-. apply IH in Eb0. destruct Eb0 as [A B].
  destruct (find_box l id) eqn:X; [|discriminate]. injection Eb as ->. apply find_box_some in X. destruct X as [X1 X2].
  cbn [map]. split; [congruence|constructor; assumption].
Qed.
End Ctx.

(** A context exists exactly when there is at least one and at most 65535 boxes to
    spend, at most 65535 data boxes, and every input and data input has its box. *)
Theorem c61_context_complete : forall (G : group) T (E : etx G T) (t : T) (boxes dboxes : list (ebox G)),
  match e_data E t with Some [] => False | _ => True end ->
  (exists x, txctx_new E t boxes dboxes = Ok x) <->
  (1 <= Zlen boxes <= 65535 /\ Zlen dboxes <= 65535 /\
   (forall id, In id (e_inputs E t) -> In id (map fst boxes)) /\
   forall l id, e_data E t = Some l -> In id l -> In id (map fst dboxes)).
Proof.
  intros G T E t boxes dboxes Hne. unfold txctx_new. pose proof (Zlen_nonneg _ boxes). pose proof (Zlen_nonneg _ dboxes).
  assert (FB : forall (l : list (ebox G)) ids, forallb (has_box l) ids = true <-> forall id, In id ids -> In id (map fst l)).
  { intros l ids. rewrite forallb_forall. split; intros X id Hid; apply has_box_iff; apply X; exact Hid. }
  split.
  - intros [x X]. destruct (Zlen boxes <? 1) eqn:E1; [discriminate|]. destruct (65535 <? Zlen boxes) eqn:E2; [discriminate|].
    destruct (forallb (has_box boxes) (e_inputs E t)) eqn:E3; [|discriminate]. cbn [negb] in X. inv_bind X. inv_bind X.
    split; [lia|]. split.
    { destruct dboxes as [|b1 dboxes]; [rewrite Zlen_nil; lia|]. destruct (65535 <? Zlen (b1 :: dboxes)) eqn:E4; [discriminate|lia]. }
    split; [apply FB, E3|]. intros l id El Hid. rewrite El in Eb0. destruct b as [l'|]; [|discriminate].
    destruct (forallb (has_box l') l) eqn:E5; [|discriminate]. destruct dboxes as [|b1 dboxes]; [discriminate|].
    destruct (65535 <? Zlen (b1 :: dboxes)); [discriminate|]. injection Eb as <-. exact (proj1 (FB _ _) E5 id Hid).
  - intros (A & B & C & D). replace (Zlen boxes <? 1) with false by lia. replace (65535 <? Zlen boxes) with false by lia.
    rewrite (proj2 (FB _ _) C). cbn [negb]. destruct dboxes as [|b0 dboxes].
    + cbn [bind]. destruct (e_data E t) as [[|id l]|] eqn:ED; [destruct Hne| |cbn [bind]; eauto].
      exfalso. exact (D _ id eq_refl (or_introl eq_refl)).
    + replace (65535 <? Zlen (b0 :: dboxes)) with false by lia. cbn [bind].
      destruct (e_data E t) as [l|]; [|cbn [bind]; eauto]. rewrite (proj2 (FB _ _)); [cbn [bind]; eauto|].
      intros id Hid. exact (D _ _ eq_refl Hid).
Qed.
Print Assumptions c61_context_complete.

(** A box handed out for an input has the identifier the input names, and when the
    boxes were created by the library that is the hash of the box itself. *)
Theorem c61_input_box : forall (G : group) H T (E : etx G T) t boxes dboxes x i id,
  txctx_new E t boxes dboxes = Ok x -> nth_error (e_inputs E t) i = Some id ->
  exists b, find_box (x_boxes x) id = Some b /\ In b boxes /\ fst b = id /\
    (Forall (real_box H) boxes -> box_id H (snd b) = Ok id).
Proof.
  intros G H T E t boxes dboxes x i id X Hi. unfold txctx_new in X.
  destruct (Zlen boxes <? 1); [discriminate|]. destruct (65535 <? Zlen boxes); [discriminate|].
  destruct (forallb (has_box boxes) (e_inputs E t)) eqn:E3; [|discriminate]. cbn [negb] in X. inv_bind X. inv_bind X.
  injection X as <-. cbn [x_boxes]. rewrite forallb_forall in E3. apply nth_error_In, E3, has_box_iff in Hi.
  destruct (find_box_in _ _ Hi) as (b2 & F & I1 & I2). exists b2. split; [exact F|]. split; [exact I1|]. split; [exact I2|].
  intros R. rewrite Forall_forall in R. rewrite <- I2. apply R, I1.
Qed.
Print Assumptions c61_input_box.

(** The context handed to the script of input [i] of a complete transaction context
    always exists, and its boxes are the ones the transaction names, in order. *)
Theorem c61_make_context : forall (G : group) S T (E : etx G T) (height : S -> Z) st t boxes dboxes x i outs,
  txctx_new E t boxes dboxes = Ok x -> e_outputs E t = Ok outs ->
  (forall k, (k < List.length (e_inputs E t))%nat -> e_ext E t k <> None) ->
  (i < List.length (e_inputs E t))%nat ->
  exists c, make_context E height st x i = Ok c /\
    nth_error (e_inputs E t) i = Some (fst (c_self c)) /\ nth_error (c_inputs c) i = Some (c_self c) /\
    map fst (c_inputs c) = e_inputs E t /\ Forall (fun b => In b boxes) (c_inputs c) /\
    option_map (map fst) (c_data c) = e_data E t /\
    c_outputs c = outs /\ Some (c_ext c) = e_ext E t i /\ c_height c = height st /\ c_state c = st.
Proof.
  intros G S T E height st t boxes dboxes x i outs X Ho Hx Hi.
  destruct (nth_error (e_inputs E t) i) as [id|] eqn:Ni; [|apply nth_error_None in Ni; lia].
  destruct (c61_input_box G (fun b => b) T E t boxes dboxes x i id X Ni) as (b & Fb & Ib & Eb & _).
  unfold txctx_new in X. destruct (Zlen boxes <? 1); [discriminate|]. destruct (65535 <? Zlen boxes); [discriminate|].
  destruct (forallb (has_box boxes) (e_inputs E t)) eqn:E3; [|discriminate]. cbn [negb] in X. inv_bind X. inv_bind X.
  injection X as <-. cbn [x_boxes] in Fb. unfold make_context. cbn [x_tx x_boxes x_data].
  rewrite Ni. cbn [of_option bind]. rewrite Fb. cbn [of_option bind]. rewrite Ho. cbn [bind].
  rewrite forallb_forall in E3.
  destruct (find_all_ok boxes (e_inputs E t) "InputBoxNotFound") as [r Er]; [intros y Hy; apply has_box_iff, E3, Hy|].
  rewrite Er. destruct (e_ext E t i) as [ex|] eqn:Ex; [|destruct (Hx i Hi Ex)]. cbn [of_option bind].
  assert (Rn : nth_error r i = Some b).
  { clear - Er Ni Fb. revert i Ni. revert r Er. generalize (e_inputs E t). intros ids. induction ids as [|y ids IH]; intros r Er i Ni; [destruct i; discriminate|].
    cbn [find_all] in Er. inv_bind Er. inv_bind Er. injection Er as <-. destruct i as [|i]; cbn [nth_error] in *.
    - injection Ni as ->. rewrite Fb in Eb. cbn in Eb. congruence.
    - eapply IH; eassumption. }
  pose proof (find_all_spec _ _ _ _ Er) as [R1 R2].
  assert (D : exists dd, match e_data E t with
       | None => Ok None
       | Some ids =>
           match b0 with
           | Some l => r <- find_all l ids "DataInputBoxNotFound" ;; Ok (Some r)
           | None => match ids with [] => Ok (Some []) | _ => Err "DataInputBoxNotFound" end
           end
       end = Ok dd /\ option_map (map fst) dd = e_data E t).
  { destruct (e_data E t) as [ids|]; [|exists None; split; reflexivity].
    destruct b0 as [l|]; [|discriminate]. destruct (forallb (has_box l) ids) eqn:E5; [|discriminate].
    rewrite forallb_forall in E5.
    destruct (find_all_ok l ids "DataInputBoxNotFound") as [rd Ed]; [intros y Hy; apply has_box_iff, E5, Hy|].
    rewrite Ed. cbn [bind]. exists (Some rd). split; [reflexivity|]. apply find_all_spec in Ed. cbn [option_map]. destruct Ed. congruence. }
  destruct D as (dd & -> & Hd). cbn [bind]. eexists. split; [reflexivity|].
  cbn [c_self c_inputs c_data c_outputs c_ext c_height c_state]. rewrite Eb. repeat split; auto.
Qed.
Print Assumptions c61_make_context.

(** The context used for signing an input is the one used for verifying it. *)
Theorem c61_same_context : forall (G : group) H S (height : S -> Z) st (ins : list (uinput G)) d cs u ps t boxes dboxes x i c,
  utx_new H ins d cs = Ok u -> tx_of_unsigned H u ps = Ok t ->
  txctx_new (unsigned_etx H) u boxes dboxes = Ok x ->
  make_context (unsigned_etx H) height st x i = Ok c ->
  exists x', txctx_new signed_etx t boxes dboxes = Ok x' /\ make_context signed_etx height st x' i = Ok c.
Proof.
  intros G H S height st ins d cs u ps t boxes dboxes x i c U T X C.
  destruct (c29_signed_id G H ins d cs u ps t U T) as (I1 & I2 & I3 & I4 & I5 & I6 & I7).
  assert (U2 : u_inputs u = ins /\ u_data u = d /\ u_cands u = cs).
  { unfold utx_new in U. inv_bind U. injection U as <-. auto. }
  destruct U2 as (U2 & U3 & U4).
  assert (Outs : e_outputs (unsigned_etx H) u = Ok (t_outputs t)).
  { cbn [e_outputs unsigned_etx]. rewrite U4, <- I1. unfold tx_of_unsigned in T. inv_bind T. apply tx_new_inv in T.
    destruct T as (m & outs & _ & _ & Eo & ->). cbn [t_outputs t_id]. rewrite U4 in Eo. rewrite Eo. reflexivity. }
  assert (Ins : e_inputs (unsigned_etx H) u = e_inputs signed_etx t).
  { cbn [e_inputs unsigned_etx signed_etx]. rewrite U2. auto. }
  assert (Dat : e_data (unsigned_etx H) u = e_data signed_etx t).
  { cbn [e_data unsigned_etx signed_etx]. rewrite U3. auto. }
  assert (Ext : e_ext (unsigned_etx H) u i = e_ext signed_etx t i).
  { cbn [e_ext unsigned_etx signed_etx]. rewrite U2. rewrite <- (nth_error_map ui_ext), <- (nth_error_map in_ext). rewrite I4. reflexivity. }
  unfold txctx_new in *. rewrite Ins, Dat in X.
  destruct (Zlen boxes <? 1); [discriminate|]. destruct (65535 <? Zlen boxes); [discriminate|].
  destruct (forallb (has_box boxes) (e_inputs signed_etx t)); [|discriminate]. cbn [negb] in *. inv_bind X.
  rewrite Eb. cbn [bind]. inv_bind X. rewrite Eb0. cbn [bind]. eexists. split; [reflexivity|]. injection X as <-.
  unfold make_context in *. cbn [x_tx x_boxes x_data] in *. rewrite Ins, Dat, Ext, Outs in C.
  exact C.
Qed.
Print Assumptions c61_same_context.

Example c61_hyps_met : forall (G : group) (H : bytes -> bytes), exists u x,
  utx_new H [MkUInput (repeat 1 32) []] None [b_cand demo_box] = Ok u /\
  txctx_new (unsigned_etx H) u [(repeat 1 32, demo_box : box G)] [] = Ok x.
Proof. intros G H. eexists. eexists. split; [vm_compute; reflexivity|reflexivity]. Qed.
