(** Property C67: NIPoPoW proofs survive serialization. *)
From Verif Require Import Base VlqModel VlqProofs GroupModel GroupInstance MerkleModel MerkleProps HeaderModel HeaderProps
  NipopowModel NipopowProps NipopowSerModel.
Local Open Scope list_scope.
Local Open Scope Z_scope.

(** A header that carries its own hash, as every header made by the parser does. *)
Definition header_honest {G} (H : bytes -> bytes) (h : header G) : Prop :=
  header_wf h /\ exists bs, header_serialize h = Ok bs /\ Zlen bs < 2 ^ 32 /\ h_id h = H bs.

Definition popow_ok {G} H (p : popow_header G) : Prop :=
  header_honest H (ph_header p) /\ Zlen (ph_interlinks p) < 2 ^ 32 /\ Forall id32 (ph_interlinks p) /\
  batch_ok (ph_proof p) /\ (exists bs, batch_serialize (ph_proof p) = Ok bs /\ Zlen bs < 2 ^ 32).

Definition nproof_ok {G} H (p : nproof G) : Prop :=
  u32 (np_m p) /\ u32 (np_k p) /\ Zlen (np_prefix p) < 2 ^ 32 /\ Zlen (np_tail p) < 2 ^ 32 /\
  Forall (popow_ok H) (np_head p :: np_prefix p) /\ Forall (header_honest H) (np_tail p).

Lemma wrap_len : forall A (l : list A), Zlen l < 2 ^ 32 -> wrapu 32 (Zlen l) = Zlen l /\ u32 (Zlen l).
Proof.
  intros A l Hl. pose proof (Zlen_nonneg _ l). unfold wrapu, u32. split; [apply Z.mod_small|]; lia.
Qed.

Lemma elem_roundtrip : forall A (w : A -> res bytes) rd x, roundtrip w rd x -> roundtrip (write_elem w) (read_elem rd) x.
Proof.
  intros A w rd x (bs & Ew & Rw). unfold roundtrip, write_elem, read_elem. rewrite Ew. cbn [bind].
  assert (U : u32 (wrapu 32 (Zlen bs))) by (unfold wrapu, u32; pose proof (Z.mod_pos_bound (Zlen bs) (2 ^ 32) ltac:(lia)); lia).
  destruct (get_put_u32 _ U) as (bn & Wn & Rn). rewrite Wn. cbn [bind]. eexists. split; [reflexivity|].
  intros rest. rewrite <- app_assoc, Rn. cbn [bind]. apply Rw.
Qed.

Lemma list_roundtrip : forall A (w : A -> res bytes) rd l, (forall x, In x l -> roundtrip w rd x) ->
  exists bs, write_all w l = Ok bs /\ forall rest, read_n (List.length l) rd (bs ++ rest) = Ok (l, rest).
Proof.
  intros A w rd l Hl. destruct (write_all_ok _ w l) as [bs W].
  { intros x Hx. destruct (Hl x Hx) as (b & E & _). eauto. }
  exists bs. split; [exact W|]. intros rest. apply (read_n_write_all _ w rd l) with (bs := bs); [|exact W].
  intros x Hx. apply roundtrip_if_of. apply Hl. exact Hx.
Qed.

Section Proofs.
Context {G : group} (HG : group_ok G) (H : bytes -> bytes).

Lemma sized_roundtrip : forall bs, Zlen bs < 2 ^ 32 -> roundtrip write_sized read_sized bs.
Proof.
  intros bs Hl. destruct (wrap_len _ bs Hl) as [E U]. unfold roundtrip, write_sized, read_sized. rewrite E.
  destruct (get_put_u32 _ U) as (bn & Wn & Rn). rewrite Wn. cbn [bind]. eexists. split; [reflexivity|].
  intros rest. rewrite <- app_assoc, Rn. cbn [bind]. apply read_exact_app. unfold Zlen. lia.
Qed.

Lemma honest_roundtrip : forall h : header G, header_honest H h -> roundtrip header_serialize (header_parse H) h.
Proof.
  intros h [Hwf [bs [Eb [_ Ei]]]]. destruct (c50_header_roundtrip G H HG h Hwf) as (bs' & Eb' & R).
  assert (bs' = bs) by congruence. subst bs'. exists bs. split; [exact Eb|]. intros rest. rewrite R, <- Ei.
  destruct h. reflexivity.
Qed.

Lemma popow_roundtrip : forall p : popow_header G, popow_ok H p -> roundtrip popow_serialize (popow_parse H) p.
Proof.
  intros p (Hh & Hll & Hid & Hb & pb & Epb & Hpb).
  destruct (honest_roundtrip _ Hh) as (hb & Ehb & Rhb).
  assert (Hhl : Zlen hb < 2 ^ 32) by (destruct Hh as [_ (b & Eb & Hl & _)]; congruence).
  destruct (sized_roundtrip hb Hhl) as (b1 & W1 & R1).
  destruct (wrap_len _ _ Hll) as [EL UL]. destruct (get_put_u32 _ UL) as (b2 & W2 & R2).
  destruct (write_all_ok _ (fun i : bytes => Ok i) (ph_interlinks p)) as [b3 W3]; [intros; eauto|].
  destruct (sized_roundtrip pb Hpb) as (b4 & W4 & R4).
  destruct (c44_batch_proof_roundtrip _ Hb) as (pb' & Epb' & Rpb).
  assert (pb' = pb) by congruence. subst pb'.
  unfold roundtrip, popow_serialize. rewrite Ehb. cbn [bind]. rewrite W1. cbn [bind]. rewrite EL, W2. cbn [bind].
  rewrite W3. cbn [bind]. rewrite Epb. cbn [bind]. rewrite W4. cbn [bind].
  eexists. split; [reflexivity|]. intros rest. unfold popow_parse. rewrite <- !app_assoc. rewrite R1. cbn [bind].
  rewrite <- (app_nil_r hb), Rhb. cbn [bind]. rewrite R2. cbn [bind].
  replace (Z.to_nat (Zlen (ph_interlinks p))) with (List.length (ph_interlinks p)) by (unfold Zlen; lia).
  rewrite (read_n_write_all _ (fun i => Ok i) (read_exact 32) (ph_interlinks p)) with (bs := b3).
  - cbn [bind]. rewrite R4. cbn [bind]. rewrite <- (app_nil_r pb), Rpb. cbn [bind]. destruct p. reflexivity.
  - intros x Hx bs E r. injection E as <-. apply read_exact_app. rewrite Forall_forall in Hid. apply Hid. exact Hx.
  - exact W3.
Qed.

End Proofs.

(** Superblock headers round-trip. *)
Theorem c67_popow_header_roundtrip : forall G H, group_ok G -> forall p : popow_header G, popow_ok H p ->
  roundtrip popow_serialize (popow_parse H) p.
Proof. intros G H HG p Hp. exact (popow_roundtrip HG H p Hp). Qed.
Print Assumptions c67_popow_header_roundtrip.

(** Whole proofs round-trip. *)
Theorem c67_nipopow_proof_roundtrip : forall G H, group_ok G -> forall p : nproof G, nproof_ok H p ->
  roundtrip nproof_serialize (nproof_parse H) p.
Proof.
  intros G H HG p (Um & Uk & Lp & Lt & Hpp & Ht). inversion Hpp as [|? ? Hhd Hpf]; subst.
  destruct (get_put_u32 _ Um) as (b1 & W1 & R1). destruct (get_put_u32 _ Uk) as (b2 & W2 & R2).
  destruct (wrap_len _ _ Lp) as [EP UP]. destruct (get_put_u32 _ UP) as (b3 & W3 & R3).
  destruct (wrap_len _ _ Lt) as [ET UT]. destruct (get_put_u32 _ UT) as (b6 & W6 & R6).
  destruct (list_roundtrip _ (write_elem popow_serialize) (read_elem (popow_parse H)) (np_prefix p)) as (b4 & W4 & R4).
  { intros x Hx. rewrite Forall_forall in Hpf. exact (elem_roundtrip _ _ _ _ (popow_roundtrip HG H _ (Hpf x Hx))). }
  destruct (elem_roundtrip _ _ _ _ (popow_roundtrip HG H _ Hhd)) as (b5 & W5 & R5).
  destruct (list_roundtrip _ (write_elem header_serialize) (read_elem (header_parse H)) (np_tail p)) as (b7 & W7 & R7).
  { intros x Hx. rewrite Forall_forall in Ht. exact (elem_roundtrip _ _ _ _ (honest_roundtrip HG H _ (Ht x Hx))). }
  unfold roundtrip, nproof_serialize. rewrite W1, W2, EP, W3, W4, W5, ET, W6, W7. cbn [bind].
  eexists. split; [reflexivity|]. intros rest. unfold nproof_parse. rewrite <- !app_assoc.
  rewrite R1. cbn [bind]. rewrite R2. cbn [bind]. rewrite R3. cbn [bind].
  replace (Z.to_nat (Zlen (np_prefix p))) with (List.length (np_prefix p)) by (unfold Zlen; lia).
  rewrite R4. cbn [bind]. rewrite R5. cbn [bind]. rewrite R6. cbn [bind].
  replace (Z.to_nat (Zlen (np_tail p))) with (List.length (np_tail p)) by (unfold Zlen; lia).
  rewrite R7. cbn [bind]. destruct p. reflexivity.
Qed.
Print Assumptions c67_nipopow_proof_roundtrip.

Definition self_id (H : bytes -> bytes) (h : header toyG) : header toyG :=
  match header_serialize h with Ok bs => with_id h (H bs) | _ => h end.
Definition toy_sb : popow_header toyG :=
  PoPow (self_id toyH toy_header_v1) [bid 11; bid 12]
    {| indices := [{| bi_index := 0; bi_hash := repeat 1 32 |}];
       proofs := [{| ln_hash := Some (repeat 2 32); ln_side := SLeft |}] |}.

Lemma self_id_honest : forall H h bs, header_wf h -> header_serialize h = Ok bs -> Zlen bs < 2 ^ 32 ->
  header_honest H (self_id H h).
Proof.
  intros H h bs Hwf E Hl. unfold self_id. rewrite E. split.
  - destruct Hwf. constructor; assumption.
  - exists bs. split; [exact E|]. split; [exact Hl|reflexivity].
Qed.

Example c67_hyps_met : nproof_ok toyH (NProof 6 10 [toy_sb] toy_sb [self_id toyH toy_header_v1]).
Proof.
  assert (HB : exists bs, header_serialize toy_header_v1 = Ok bs /\ Zlen bs < 2 ^ 32).
  { eexists. split; [vm_compute; reflexivity|vm_compute; reflexivity]. }
  destruct HB as (bs & Eb & Hl).
  assert (HH : header_honest toyH (self_id toyH toy_header_v1)).
  { eapply self_id_honest; [|exact Eb|exact Hl]. apply c50_hyps_met. }
  assert (HS : popow_ok toyH toy_sb).
  { split; [exact HH|]. split; [reflexivity|]. split; [repeat constructor|]. split.
    - split; [reflexivity|]. split; [reflexivity|]. split.
      + intros x [<-|[]]. split; [reflexivity|]. split; [reflexivity|]. apply Forall_forall.
        intros b Hb. apply repeat_spec in Hb. subst. unfold byte. lia.
      + intros n h [<-|[]] E; inversion E. split; [reflexivity|]. split; [|discriminate].
        apply Forall_forall. intros b Hb. apply (repeat_spec 32 2) in Hb. subst. unfold byte. lia.
    - eexists. split; [vm_compute; reflexivity|vm_compute; reflexivity]. }
  unfold nproof_ok. cbn [np_m np_k np_prefix np_head np_tail]. unfold u32.
  split; [lia|]. split; [lia|]. split; [reflexivity|]. split; [reflexivity|].
  split; [constructor; [exact HS|constructor; [exact HS|constructor]]|constructor; [exact HH|constructor]].
Qed.
