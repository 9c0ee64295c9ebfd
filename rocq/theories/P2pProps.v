(** Properties C58 (peer data survives serialization) and C68 (the peer database). *)
From Verif Require Import Base VlqModel VlqProofs MerkleModel MerkleProofs P2pModel.
Local Open Scope list_scope.
Local Open Scope Z_scope.

Definition addr_ok (a : peer_addr) : Prop :=
  u16 (pa_port a) /\ exists o, pa_ip a = V4 o /\ List.length o = 4%nat.

Definition spec_ok (s : peer_spec) : Prop :=
  ps_agent s <> [] /\ utf8_valid (ps_agent s) = true /\ Zlen (ps_agent s) <= 255 /\
  utf8_valid (ps_node s) = true /\ Zlen (ps_node s) <= 255 /\
  (forall a, ps_declared s = Some a -> addr_ok a) /\
  (forall fs, ps_features s = Some fs -> 1 <= Zlen fs <= 255 /\ Forall (fun f => match f with LocalAddress a => addr_ok a end) fs).

Lemma addr_roundtrip : forall a, addr_ok a ->
  exists bs, addr_serialize a = Ok bs /\ Zlen bs < 2 ^ 16 /\ forall rest, addr_parse (bs ++ rest) = Ok (a, rest).
Proof.
  intros [i p] [Hp [o [Hi Hl]]]. cbn [pa_ip pa_port] in *. subst i.
  assert (U : u32 p) by (unfold u16, u32 in *; lia).
  destruct (get_put_u32 _ U) as (b & W & R). unfold addr_serialize. cbn [pa_ip pa_port]. rewrite W. cbn [bind].
  eexists. split; [reflexivity|]. split.
  - unfold put_u32 in W. destruct (put_u64_spec p) as (b' & W' & Hb'); [unfold u16, u64 in *; lia|].
    assert (b' = b) by congruence. subst b'. decompose [and] Hb'. rewrite Zlen_app. unfold Zlen. rewrite Hl. lia.
  - intros rest. unfold addr_parse. rewrite <- app_assoc, read_exact_app by exact Hl. cbn [bind]. rewrite R. cbn [bind].
    replace (p <? 2 ^ 16) with true by (unfold u16 in Hp; lia). reflexivity.
Qed.

Lemma feature_roundtrip : forall f, match f with LocalAddress a => addr_ok a end ->
  roundtrip feature_serialize feature_parse f.
Proof.
  intros [a] Ha. destruct (addr_roundtrip a Ha) as (b & W & Hl & R).
  assert (U : u16 (Zlen b)) by (pose proof (Zlen_nonneg _ b); unfold u16; lia).
  destruct (get_put_u16 _ U) as (n & Wn & Rn).
  unfold roundtrip, feature_serialize, feature_id, put_u8. cbn [bind]. rewrite W. cbn [bind].
  replace (Zlen b <? 2 ^ 16) with true by lia. rewrite Wn. cbn [bind]. eexists. split; [reflexivity|].
  intros rest. unfold feature_parse. rewrite <- !app_assoc. cbn [app get_u8 bind]. rewrite Rn. cbn [bind].
  rewrite read_exact_app by (unfold Zlen; lia). cbn [bind]. change (2 =? 2) with true. cbv iota.
  rewrite <- (app_nil_r b), R. reflexivity.
Qed.

(** ** C58 *)
Theorem c58_peer_addr_roundtrip : forall a, addr_ok a -> roundtrip addr_serialize addr_parse a.
Proof. intros a Ha. destruct (addr_roundtrip a Ha) as (b & W & _ & R). exists b. auto. Qed.
Print Assumptions c58_peer_addr_roundtrip.

Theorem c58_peer_feature_roundtrip : forall f, match f with LocalAddress a => addr_ok a end ->
  roundtrip feature_serialize feature_parse f.
Proof. exact feature_roundtrip. Qed.
Print Assumptions c58_peer_feature_roundtrip.

(** A feature of another kind than a local address (number 2) is refused, whatever it
    holds; so is a list with one in it. *)
Theorem c58_unknown_feature : forall i bs, i <> 2 -> forall x, feature_parse (i :: bs) <> Ok x.
Proof.
  intros i bs N [f r] E. unfold feature_parse in E. cbn [get_u8 bind] in E. destruct (get_u16 bs) as [[n r1]| |]; [|discriminate|discriminate].
  cbn [bind] in E. destruct (read_exact (Z.to_nat n) r1) as [[b r2]| |]; [|discriminate|discriminate]. cbn [bind] in E.
  destruct (Z.eqb_spec i 2); [contradiction|discriminate].
Qed.
Print Assumptions c58_unknown_feature.

Theorem c58_protocol_version_roundtrip : forall v, u8 (pv_major v) -> u8 (pv_minor v) -> u8 (pv_patch v) ->
  roundtrip version_serialize version_parse v.
Proof. intros [a b c] _ _ _. unfold roundtrip, version_serialize, put_u8. cbn [bind]. eexists. split; reflexivity. Qed.
Print Assumptions c58_protocol_version_roundtrip.

(** Reading behaves like [get_option] where the address can be read. *)
Lemma declared_option : forall bs x rest, get_option (fun bs => '(_, r) <- get_u8 bs ;; addr_parse r) bs = Ok (x, rest) ->
  declared_parse bs = Ok (x, rest).
Proof.
  intros bs x rest E. unfold get_option, declared_parse in *. destruct (get_u8 bs) as [[b r]| |]; try exact E.
  destruct b as [|[p|p|]|p]; try exact E. destruct (get_u8 r) as [[z r']| |]; cbn [bind] in *; try discriminate.
  unfold addr_parse in E. destruct (read_exact 4 r') as [[o r'']| |]; cbn [bind] in *; try discriminate.
  unfold get_u32 in E. destruct (get_u64 r'') as [[q r3]| |]; cbn [bind] in *; try discriminate.
  destruct (q <? 2 ^ 32) eqn:A; cbn [bind] in *; [|discriminate]. destruct (q <? 2 ^ 16) eqn:B; cbn [bind] in *; [|discriminate].
  exact E.
Qed.
Theorem c58_peer_spec_roundtrip : forall s, spec_ok s -> roundtrip spec_serialize spec_parse s.
Proof.
  intros [a v n d f] (Ha & Ua & La & Un & Ln & Hd & Hf). cbn [ps_agent ps_node ps_declared ps_features] in *.
  destruct (get_put_short_string _ Ua La) as (ba & Wa & Ra).
  destruct (get_put_short_string _ Un Ln) as (bn & Wn & Rn).
  destruct (get_put_option _ (fun x => z <- put_u8 (wrapu 8 (ip_size x)) ;; b <- addr_serialize x ;; Ok (z ++ b))
     (fun bs => '(_, r) <- get_u8 bs ;; addr_parse r) d) as (bd & Wd & Rd).
  { intros x Hx. destruct (addr_roundtrip x (Hd x Hx)) as (b & W & _ & R). unfold roundtrip, put_u8. cbn [bind].
    rewrite W. cbn [bind]. eexists. split; [reflexivity|]. intros rest. cbn [app get_u8 bind]. apply R. }
  assert (HF : exists bf, match f with
       | Some fs => c <- put_u8 (wrapu 8 (Zlen fs)) ;; b <- write_all feature_serialize fs ;; Ok (c ++ b)
       | None => put_u8 0
       end = Ok bf /\ forall rest, ('(c, r) <- get_u8 (bf ++ rest) ;;
        if c =? 0 then Ok (PeerSpec a v n d None, r)
        else '(fs, r) <- read_n (Z.to_nat c) feature_parse r ;; Ok (PeerSpec a v n d (Some fs), r))
        = Ok (PeerSpec a v n d f, rest)).
  { destruct f as [fs|]; [|eexists; split; [reflexivity|reflexivity]].
    destruct (Hf fs eq_refl) as [Hl HF]. rewrite Forall_forall in HF.
    assert (Hw : wrapu 8 (Zlen fs) = Zlen fs) by (unfold wrapu; apply Z.mod_small; lia).
    rewrite Hw. unfold put_u8. cbn [bind].
    destruct (write_all_ok _ feature_serialize fs) as [b W].
    { intros x Hx. destruct (feature_roundtrip x (HF x Hx)) as (b & E & _). eauto. }
    rewrite W. cbn [bind]. eexists. split; [reflexivity|]. intros rest. cbn [app get_u8 bind].
    replace (Zlen fs =? 0) with false by lia.
    replace (Z.to_nat (Zlen fs)) with (List.length fs) by (unfold Zlen; lia).
    rewrite (read_n_write_all _ feature_serialize feature_parse fs) with (bs := b).
    - reflexivity.
    - intros x Hx. apply roundtrip_if_of. apply feature_roundtrip. apply HF. exact Hx.
    - exact W. }
  destruct HF as (bf & Wf & Rf).
  unfold roundtrip, spec_serialize. cbn [ps_agent ps_version ps_node ps_declared ps_features].
  rewrite Wa, Wn, Wd, Wf. cbn [bind]. destruct v as [v1 v2 v3]. unfold version_serialize, put_u8. cbn [bind].
  eexists. split; [reflexivity|]. intros rest. unfold spec_parse. rewrite <- !app_assoc. rewrite Ra. cbn [bind].
  destruct a as [|a0 a]; [congruence|]. unfold version_parse. cbn [pv_major pv_minor pv_patch app get_u8 bind].
  rewrite Rn. cbn [bind]. rewrite (declared_option _ _ _ (Rd _)). cbn [bind]. apply Rf.
Qed.
Print Assumptions c58_peer_spec_roundtrip.

Example c58_hyps_met : spec_ok (PeerSpec [65; 66] (Version 5 0 3) [] (Some (PeerAddr (V4 [127; 0; 0; 1]) 9030))
  (Some [LocalAddress (PeerAddr (V4 [10; 0; 0; 1]) 65535)])).
Proof.
  unfold spec_ok. cbn [ps_agent ps_node ps_declared ps_features].
  split; [discriminate|]. split; [reflexivity|]. split; [discriminate|]. split; [reflexivity|]. split; [discriminate|]. split.
  - intros a E. injection E as <-. split; [unfold u16; cbn; lia|]. eexists. split; reflexivity.
  - intros fs E. injection E as <-. split; [vm_compute; split; discriminate|]. constructor; [|constructor].
    split; [unfold u16; cbn; lia|]. eexists. split; reflexivity.
Qed.

(** An empty agent name is written but cannot be read back. *)
Theorem c58_empty_agent_refuted : exists s bs, spec_serialize s = Ok bs /\ exists e, spec_parse bs = Err e.
Proof.
  exists (PeerSpec [] (Version 5 0 3) [65] None None). eexists. split; [vm_compute; reflexivity|].
  eexists. vm_compute. reflexivity.
Qed.
Print Assumptions c58_empty_agent_refuted.

(** A declared address with a port that is too large is silently dropped: the bytes are
    read as a peer without an address, and written back as other bytes. *)
Theorem c58_port_dropped_refuted : exists bs s bs', spec_parse bs = Ok (s, []) /\ ps_declared s = None /\
  spec_serialize s = Ok bs' /\ bs' <> bs.
Proof.
  exists [1; 65; 5; 0; 3; 1; 66; 1; 4; 127; 0; 0; 1; 128; 128; 4; 0].
  exists (PeerSpec [65] (Version 5 0 3) [66] None None). eexists. split; [vm_compute; reflexivity|].
  split; [reflexivity|]. split; [vm_compute; reflexivity|discriminate].
Qed.
Print Assumptions c58_port_dropped_refuted.

(** ** C68: the database is a map from addresses to the last peer stored there. *)
Lemma addr_eqb_spec : forall a b, addr_eqb a b = true <-> a = b.
Proof.
  intros [i p] [j q]. unfold addr_eqb. cbn [pa_ip pa_port]. rewrite andb_true_iff, Z.eqb_eq.
  destruct i as [x|x], j as [y|y]; rewrite ?bytes_eqb_spec; split; intros E;
    try (destruct E as [? ?]; subst; reflexivity); try (destruct E; discriminate); try discriminate;
    injection E as -> ->; auto.
Qed.

Lemma get_remove : forall db a b, get_peer_by_addr (map_remove db a) b =
  if addr_eqb a b then None else get_peer_by_addr db b.
Proof.
  intros db a b. unfold get_peer_by_addr, map_remove. induction db as [|[k i] db IH]; cbn [filter find fst].
  - destruct (addr_eqb a b); reflexivity.
  - destruct (addr_eqb k a) eqn:E1; cbn [negb].
    + apply addr_eqb_spec in E1. subst k. rewrite IH. destruct (addr_eqb a b); reflexivity.
    + cbn [find fst]. destruct (addr_eqb k b) eqn:E2; [|exact IH].
      apply addr_eqb_spec in E2. subst b. destruct (addr_eqb a k) eqn:E3; [|reflexivity].
      apply addr_eqb_spec in E3. subst a. rewrite (proj2 (addr_eqb_spec k k) eq_refl) in E1. discriminate.
Qed.

(** The operations a client can issue, and the abstract map they should implement. *)
Inductive db_op : Type := OpAdd (i : peer_info) | OpRemove (a : peer_addr).
Definition db_run (db : peer_db) (o : db_op) : peer_db :=
  match o with
  | OpAdd i => match add_or_update_peer db i with Ok (_, db') => db' | _ => db end
  | OpRemove a => match remove_peer db a with Ok db' => db' | _ => db end
  end.
Definition touches (a : peer_addr) (o : db_op) : option (option peer_info) :=
  match o with
  | OpAdd i => match spec_addr (pi_spec i) with
               | Some b => if addr_eqb b a then Some (Some i) else None
               | None => None
               end
  | OpRemove b => if addr_eqb b a then Some None else None
  end.
(** What the last operation on address [a] left there. *)
Fixpoint last_touch (a : peer_addr) (history : list db_op) : option peer_info :=
  match history with
  | [] => None
  | o :: earlier => match touches a o with Some r => r | None => last_touch a earlier end
  end.

(** After any history (newest operation first), a lookup gives what the last operation
    on that address left there. *)
Theorem c68_lookup_after_history : forall history a,
  get_peer_by_addr (fold_right (fun o db => db_run db o) [] history) a = last_touch a history.
Proof.
  induction history as [|o h IH]; intros a; [reflexivity|]. cbn [fold_right last_touch].
  set (db := fold_right (fun o db => db_run db o) [] h) in *. destruct o as [i|b]; cbn [db_run touches].
  - unfold add_or_update_peer. destruct (spec_addr (pi_spec i)) as [b|]; [|apply IH].
    unfold get_peer_by_addr at 1. cbn [find fst]. destruct (addr_eqb b a) eqn:E; [reflexivity|].
    fold (get_peer_by_addr (map_remove db b) a). rewrite get_remove, E. apply IH.
  - unfold remove_peer. destruct (get_peer_by_addr db b) eqn:Eb.
    + rewrite get_remove. destruct (addr_eqb b a); [reflexivity|apply IH].
    + destruct (addr_eqb b a) eqn:E; [|apply IH]. apply addr_eqb_spec in E. subst b. exact Eb.
Qed.
Print Assumptions c68_lookup_after_history.

(** An add reports the peer it replaced, and fails exactly for unreachable peers; a
    removal fails exactly if there is nothing to remove. *)
Theorem c68_results : forall db i a,
  (match add_or_update_peer db i with
   | Ok (old, _) => exists b, spec_addr (pi_spec i) = Some b /\ old = get_peer_by_addr db b
   | Err _ => reachable_peer (pi_spec i) = false
   | Panic => False
   end) /\
  ((exists db', remove_peer db a = Ok db') <-> get_peer_by_addr db a <> None).
Proof.
  intros db i a. split.
  - unfold add_or_update_peer, reachable_peer. destruct (spec_addr (pi_spec i)); [eauto|reflexivity].
  - unfold remove_peer. destruct (get_peer_by_addr db a); split; try congruence.
    + intros _. eauto.
    + intros [db' E]. discriminate.
Qed.
Print Assumptions c68_results.

Example c68_hyps_met : exists i a, get_peer_by_addr (fold_right (fun o db => db_run db o) [] [OpAdd i; OpRemove a; OpAdd i]) a = Some i.
Proof.
  exists (PeerInfo (PeerSpec [65] (Version 5 0 3) [] (Some (PeerAddr (V4 [127; 0; 0; 1]) 9030)) None) 0 None),
    (PeerAddr (V4 [127; 0; 0; 1]) 9030). reflexivity.
Qed.
