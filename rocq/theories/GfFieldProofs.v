(** Frobenius powers, Fermat's theorem, inversion. *)
From Coq Require Import NArith List Lia Bool.
From Verif Require Import Base GfTables GfCert GfModel Clmul GfProofs GfInvProofs.
Import ListNotations.
Open Scope N_scope.
#[local] Opaque vt0 vt1 vt2 vt3 vt4 vt5 vt6 artin_cert pow_table_0 pow_table_1 pow_table_2.

(** *** Powers in GF(2)[x] *)
Fixpoint ppow (a : N) (p : positive) : N :=
  match p with
  | xH => a
  | xO p' => let r := ppow a p' in clmul r r
  | xI p' => let r := ppow a p' in clmul a (clmul r r)
  end.
Definition cpow (a n : N) : N := match n with N0 => 1 | Npos p => ppow a p end.

Lemma ppow_succ : forall a p, ppow a (Pos.succ p) = clmul a (ppow a p).
Proof.
  intros a. induction p; simpl; auto.
  rewrite IHp. rewrite !clmul_assoc. f_equal. rewrite <- !clmul_assoc. f_equal. apply clmul_comm.
Qed.
Lemma cpow_succ : forall a n, cpow a (N.succ n) = clmul a (cpow a n).
Proof. intros a [|p]; [reflexivity|apply ppow_succ]. Qed.
Lemma cpow_0 : forall a, cpow a 0 = 1. Proof. reflexivity. Qed.
Lemma cpow_1 : forall a, cpow a 1 = a. Proof. reflexivity. Qed.

Lemma cpow_add : forall a m n, cpow a (m + n) = clmul (cpow a m) (cpow a n).
Proof.
  intros a m n. induction m using N.peano_ind.
  - rewrite cpow_0, clmul_1_l. reflexivity.
  - rewrite N.add_succ_l, !cpow_succ, IHm, clmul_assoc. reflexivity.
Qed.
Lemma cpow_mul : forall a m n, cpow a (m * n) = cpow (cpow a m) n.
Proof.
  intros a m n. induction n using N.peano_ind.
  - rewrite N.mul_0_r. reflexivity.
  - rewrite N.mul_succ_r, cpow_add, IHn, cpow_succ. apply clmul_comm.
Qed.
Lemma cong_cpow : forall p a b n, cong p a b -> cong p (cpow a n) (cpow b n).
Proof.
  intros p a b n H. induction n using N.peano_ind.
  - apply cong_refl.
  - rewrite !cpow_succ. apply cong_clmul; auto.
Qed.

(** *** Frobenius *)
Lemma sq_additive : forall a b,
  clmul (N.lxor a b) (N.lxor a b) = N.lxor (clmul a a) (clmul b b).
Proof.
  intros. rewrite clmul_lxor_l, !clmul_lxor_r. rewrite (clmul_comm b a).
  rewrite (N.lxor_comm (clmul a b) (clmul b b)), lxor_acac, N.lxor_nilpotent, N.lxor_0_r.
  reflexivity.
Qed.

Lemma ent_eq : forall k, (k < 7)%nat -> ent k = nth k [vt0; vt1; vt2; vt3; vt4; vt5; vt6] [].
Proof.
  intros k Hk.
  destruct k as [|k]; [exact ent_vt0|]. destruct k as [|k]; [exact ent_vt1|].
  destruct k as [|k]; [exact ent_vt2|]. destruct k as [|k]; [exact ent_vt3|].
  destruct k as [|k]; [exact ent_vt4|]. destruct k as [|k]; [exact ent_vt5|].
  destruct k as [|k]; [exact ent_vt6|]. lia.
Qed.

Lemma tables_wf : forall k, (k < 7)%nat ->
  length (nth k pow_table_0 []) = 192%nat /\ length (nth k pow_table_1 []) = 192%nat /\
  length (nth k pow_table_2 []) = 192%nat /\ Forall wf (tab k).
Proof.
  intros k Hk. pose proof tables_ok_true as H. unfold tables_ok in H.
  rewrite forallb_forall in H. specialize (H k).
  rewrite in_seq in H. specialize (H ltac:(lia)).
  apply andb_true_iff in H. destruct H as [H H4].
  apply andb_true_iff in H. destruct H as [H H3].
  apply andb_true_iff in H. destruct H as [H1 H2].
  apply Nat.eqb_eq in H1, H2, H3. repeat split; auto.
  apply Forall_forall. intros g Hg. apply gf_wfb_spec. rewrite forallb_forall in H4. auto.
Qed.

Lemma ent_length : forall k, (k < 7)%nat -> length (ent k) = 192%nat.
Proof.
  intros k Hk. destruct (tables_wf k Hk) as (L0 & L1 & L2 & _). unfold ent, tab.
  rewrite map_length.
  assert (Hg : forall r0 r1 r2, length r0 = length r1 -> length r1 = length r2 ->
    length (zip3 r0 r1 r2) = length r0).
  { induction r0; intros [|] [|]; simpl; intros; try lia. f_equal. apply IHr0; lia. }
  rewrite Hg; lia.
Qed.

Lemma ent_lt : forall k, (k < 7)%nat -> Forall (fun e => e < 2 ^ 192) (ent k).
Proof.
  intros k Hk. destruct (tables_wf k Hk) as (_ & _ & _ & Hw). unfold ent.
  apply Forall_map. eapply Forall_impl; [|exact Hw]. apply val_lt.
Qed.

Lemma vt0_entry : forall i, (i < 192)%nat -> cong PP (nth i vt0 0) (2 ^ (2 * N.of_nat i)).
Proof.
  pose proof vt0_chain as H. apply andb_true_iff in H. destruct H as [Hh Ht].
  apply N.eqb_eq in Hh.
  assert (Hlen : length vt0 = 192%nat).
  { rewrite <- (ent_length 0) by lia. rewrite (ent_eq 0) by lia. reflexivity. }
  destruct vt0 as [|e es]; [discriminate|]. simpl in Hh, Ht, Hlen. subst e.
  assert (Hg : forall es prev j, sq_chain prev es = true ->
     cong PP prev (2 ^ (2 * N.of_nat j)) ->
     forall i, (i < length es)%nat -> cong PP (nth i es 0) (2 ^ (2 * N.of_nat (S j + i)))).
  { clear. induction es as [|x es IH]; intros prev j Hc Hp i Hi; simpl in Hi; [lia|].
    simpl in Hc. apply andb_true_iff in Hc. destruct Hc as [Hx Hc]. apply N.eqb_eq in Hx.
    assert (Hcx : cong PP x (2 ^ (2 * N.of_nat (S j)))).
    { subst x. eapply cong_trans; [apply xtime_cong|].
      eapply cong_trans; [apply cong_shiftl, xtime_cong|].
      eapply cong_trans; [apply cong_shiftl, cong_shiftl, Hp|].
      rewrite N.shiftl_shiftl, N.shiftl_mul_pow2, <- N.pow_add_r.
      replace (2 * N.of_nat j + (1 + 1)) with (2 * N.of_nat (S j)) by lia. apply cong_refl. }
    destruct i as [|i].
    - rewrite Nat.add_0_r. exact Hcx.
    - simpl nth. replace (S j + S i)%nat with (S (S j) + i)%nat by lia.
      apply (IH x (S j)); auto. lia. }
  intros [|i] Hi.
  - apply cong_refl.
  - simpl nth. apply (Hg es 1 0%nat Ht); [apply cong_refl|]. lia.
Qed.

Lemma vt_eq0 : ent 0 = vt0. Proof. exact (ent_eq 0 ltac:(lia)). Qed.

Definition S_ (k : nat) (z : N) : N := linsum (ent k) z.

Lemma S_lt : forall k z, (k < 7)%nat -> S_ k z < 2 ^ 192.
Proof. intros. apply linsum_lt, ent_lt; auto. Qed.

Lemma S0_spec : forall z, z < 2 ^ 192 -> cong PP (S_ 0 z) (clmul z z).
Proof.
  intros z Hz.
  apply (additive_ext (cong PP) (S_ 0) (fun z => clmul z z) 192); auto.
  - intros; apply cong_lxor; auto.
  - intros; apply linsum_lxor.
  - intros; apply sq_additive.
  - unfold S_. rewrite linsum_0. apply cong_refl.
  - intros i Hi. unfold S_. rewrite linsum_unit by (rewrite ent_length; lia).
    rewrite vt_eq0, clmul_pow2_r, N.shiftl_mul_pow2, <- N.pow_add_r.
    replace (N.of_nat i + N.of_nat i) with (2 * N.of_nat i) by lia.
    apply vt0_entry; auto.
Qed.

Lemma ent_sq : forall k, (k < 6)%nat -> ent (S k) = map (S_ k) (ent k).
Proof.
  intros k Hk. unfold S_.
  destruct k as [|k]; [rewrite !ent_eq by lia; apply list_eqb_eq, vt1_sq|].
  destruct k as [|k]; [rewrite !ent_eq by lia; apply list_eqb_eq, vt2_sq|].
  destruct k as [|k]; [rewrite !ent_eq by lia; apply list_eqb_eq, vt3_sq|].
  destruct k as [|k]; [rewrite !ent_eq by lia; apply list_eqb_eq, vt4_sq|].
  destruct k as [|k]; [rewrite !ent_eq by lia; apply list_eqb_eq, vt5_sq|].
  destruct k as [|k]; [rewrite !ent_eq by lia; apply list_eqb_eq, vt6_sq|].
  lia.
Qed.

Lemma S_lxor : forall k a b, S_ k (N.lxor a b) = N.lxor (S_ k a) (S_ k b).
Proof. intros; apply linsum_lxor. Qed.
Lemma S_zero : forall k, S_ k 0 = 0.
Proof. intros; apply linsum_0. Qed.

Lemma S_succ : forall k z, (k < 6)%nat -> z < 2 ^ 192 -> S_ (S k) z = S_ k (S_ k z).
Proof.
  intros k z Hk Hz.
  apply (additive_eq (S_ (S k)) (fun z => S_ k (S_ k z)) 192); auto.
  - intros; apply S_lxor.
  - intros; rewrite !S_lxor; reflexivity.
  - intros i Hi. unfold S_ at 1. rewrite linsum_unit by (rewrite ent_length; lia).
    rewrite ent_sq by auto.
    assert (Hl : (i < length (ent k))%nat) by (rewrite ent_length; lia).
    transitivity (S_ k (nth i (ent k) 0)).
    + rewrite <- (map_nth (S_ k)). rewrite S_zero. reflexivity.
    + f_equal. unfold S_. rewrite linsum_unit by auto. reflexivity.
Qed.

Lemma S6_cube : forall z, z < 2 ^ 192 -> S_ 6 (S_ 6 (S_ 6 z)) = z.
Proof.
  intros z Hz.
  apply (additive_eq (fun z => S_ 6 (S_ 6 (S_ 6 z))) (fun z => z) 192); auto.
  - intros; rewrite !S_lxor; reflexivity.
  - intros i Hi. unfold S_ at 3. rewrite linsum_unit by (rewrite ent_length; lia).
    pose proof (list_eqb_eq _ _ vt6_cube) as H.
    assert (He : ent 6 = vt6) by (exact (ent_eq 6 ltac:(lia))).
    rewrite <- He in H.
    assert (Hl : (i < length (ent 6))%nat) by (rewrite ent_length; lia).
    apply (f_equal (fun l => nth i l 0)) in H.
    change (fun e => linsum (ent 6) (linsum (ent 6) e)) with (fun e => S_ 6 (S_ 6 e)) in H.
    rewrite (nth_indep _ 0 (S_ 6 (S_ 6 0))) in H by (rewrite map_length; auto).
    rewrite (map_nth (fun e => S_ 6 (S_ 6 e))) in H. rewrite H.
    rewrite (nth_indep _ 0 (2 ^ N.of_nat 0)) by (rewrite map_length, seq_length; auto).
    rewrite (map_nth (fun i => 2 ^ N.of_nat i)). rewrite seq_nth by auto. reflexivity.
Qed.

(** S_k raises to the power 2^(2^k). *)
Lemma S_pow : forall k z, (k < 7)%nat -> z < 2 ^ 192 ->
  cong PP (S_ k z) (cpow z (2 ^ (2 ^ N.of_nat k))).
Proof.
  induction k as [|k IH]; intros z Hk Hz.
  - apply S0_spec; auto.
  - rewrite S_succ by (auto; lia).
    eapply cong_trans; [apply IH; [lia|apply S_lt; lia]|].
    eapply cong_trans; [apply cong_cpow, IH; auto; lia|].
    rewrite <- cpow_mul, <- N.pow_add_r.
    replace (2 ^ N.of_nat k + 2 ^ N.of_nat k) with (2 ^ N.of_nat (S k)).
    + apply cong_refl.
    + rewrite Nat2N.inj_succ, N.pow_succ_r'. lia.
Qed.

Lemma fermat : forall z, z < 2 ^ 192 -> cong PP (cpow z (2 ^ 192)) z.
Proof.
  intros z Hz. apply cong_sym. rewrite <- (S6_cube z) at 1 by auto.
  eapply cong_trans; [apply S_pow; [lia|apply S_lt; lia]|].
  eapply cong_trans; [apply cong_cpow, S_pow; [lia|apply S_lt; lia]|].
  eapply cong_trans; [apply cong_cpow, cong_cpow, S_pow; [lia|auto]|].
  rewrite <- !cpow_mul. apply cong_refl.
Qed.

(** Artin-Schreier: the only fixed points of squaring are 0 and 1. *)
Lemma fixed_points : forall z, z < 2 ^ 192 -> S_ 0 z = z -> z = 0 \/ z = 1.
Proof.
  intros z Hz Hfix.
  set (L := linsum artin_cert).
  set (clr := fun z => N.shiftl (N.shiftr z 1) 1).
  assert (HL : forall z, z < 2 ^ 192 -> L (N.lxor (S_ 0 z) z) = clr z).
  { intros y Hy.
    apply (additive_eq (fun z => L (N.lxor (S_ 0 z) z)) clr 192); auto.
    - intros a b. rewrite S_lxor, lxor_acac. unfold L. apply linsum_lxor.
    - intros a b. unfold clr. rewrite N.shiftr_lxor, N.shiftl_lxor. reflexivity.
    - intros i Hi. unfold S_. rewrite linsum_unit by (rewrite ent_length; lia).
      pose proof (list_eqb_eq _ _ artin_ok) as H. rewrite <- vt_eq0 in H.
      apply (f_equal (fun l => nth i l 0)) in H.
      set (F := fun i : nat => linsum artin_cert (N.lxor (nth i (ent 0) 0) (2 ^ N.of_nat i))) in H.
      rewrite (nth_indep (map F (seq 0 192)) 0 (F 0%nat)) in H
        by (rewrite map_length, seq_length; auto).
      rewrite (map_nth F) in H. rewrite seq_nth in H by auto. simpl plus in H.
      unfold F in H. unfold L. rewrite H. unfold clr.
      destruct i as [|i].
      + reflexivity.
      + cbn [nth].
        rewrite (nth_indep _ 0 (2 ^ N.of_nat 0)) by (rewrite map_length, seq_length; lia).
        rewrite (map_nth (fun i => 2 ^ N.of_nat i)). rewrite seq_nth by lia.
        change (1 + i)%nat with (S i). rewrite Nat2N.inj_succ, N.pow_succ_r'.
        rewrite N.shiftl_mul_pow2, N.shiftr_div_pow2. change (2 ^ 1) with 2.
        rewrite (N.mul_comm 2), N.div_mul by lia. reflexivity. }
  specialize (HL z Hz). rewrite Hfix, N.lxor_nilpotent in HL.
  unfold L in HL. rewrite linsum_0 in HL. unfold clr in HL.
  rewrite N.shiftl_mul_pow2, N.shiftr_div_pow2 in HL. change (2 ^ 1) with 2 in HL.
  pose proof (N.div_mod' z 2). pose proof (N.mod_lt z 2). lia.
Qed.

(** *** The Rust functions *)
Lemma pow_small_spec : forall z k, (k < 7)%nat -> wf z ->
  wf (pow_small z k) /\ val (pow_small z k) = S_ k (val z).
Proof.
  intros z k Hk Hz. destruct (tables_wf k Hk) as (L0 & L1 & L2 & Hw).
  unfold pow_small. apply lin_apply_spec; auto.
Qed.

Lemma pow_small_cong : forall z k, (k < 7)%nat -> wf z ->
  cong PP (val (pow_small z k)) (cpow (val z) (2 ^ (2 ^ N.of_nat k))).
Proof.
  intros z k Hk Hz. destruct (pow_small_spec z k Hk Hz) as [_ ->].
  apply S_pow; auto. apply val_lt; auto.
Qed.

Lemma p22k_small : forall z k, (k < 7)%nat -> power_2_to_2_to_k z k = pow_small z k.
Proof.
  intros z k Hk. unfold power_2_to_2_to_k.
  replace (7 <=? k)%nat with false; auto. symmetry. apply Nat.leb_gt. auto.
Qed.

(** Iterated squaring. *)
Definition sq_iter (n : N) (z : gf) : gf := N.iter n (fun x => gf_mul x x) z.

Lemma sq_iter_spec : forall n z, wf z ->
  wf (sq_iter n z) /\ cong PP (val (sq_iter n z)) (cpow (val z) (2 ^ n)).
Proof.
  intros n z Hz. induction n using N.peano_ind.
  - simpl. split; auto. apply cong_refl.
  - unfold sq_iter in *. rewrite N.iter_succ. destruct IHn as [Hw Hc].
    split; [apply wf_mul; auto|].
    eapply cong_trans; [apply cong_mul; auto|].
    rewrite N.pow_succ_r', N.mul_comm, cpow_mul.
    eapply cong_trans; [apply cong_clmul; exact Hc|].
    simpl. apply cong_refl.
Qed.

Lemma pow192_period : forall z m, z < 2 ^ 192 ->
  cong PP (cpow z (2 ^ m)) (cpow z (2 ^ (m mod 192))).
Proof.
  intros z m Hz. pose proof (N.div_mod' m 192) as Hd.
  rewrite Hd at 1. generalize (m mod 192) (m / 192). clear Hd m. intros r q.
  induction q using N.peano_ind.
  - rewrite N.mul_0_r, N.add_0_l. apply cong_refl.
  - replace (192 * N.succ q + r) with (192 + (192 * q + r)) by lia.
    rewrite N.pow_add_r, cpow_mul.
    eapply cong_trans; [apply cong_cpow, fermat; auto|]. exact IHq.
Qed.

Lemma pow2_mod192 : forall k, (7 <= k)%nat ->
  (2 ^ N.of_nat k) mod 192 = if Nat.eqb (k mod 2) 1 then 128 else 64.
Proof.
  intros k Hk. replace k with (6 + (k - 6))%nat at 1 by lia.
  set (j := (k - 6)%nat). rewrite Nat2N.inj_add, N.pow_add_r.
  change (2 ^ N.of_nat 6) with 64.
  assert (Hk2 : Nat.modulo k 2 = Nat.modulo j 2).
  { replace k with (j + 3 * 2)%nat by lia. apply Nat.mod_add. lia. }
  rewrite Hk2. clear Hk2.
  assert (Hj : forall j,
    (64 * 2 ^ N.of_nat j) mod 192 = (if Nat.eqb (j mod 2) 1 then 128 else 64) /\
    (64 * 2 ^ N.of_nat (S j)) mod 192 = (if Nat.eqb (S j mod 2) 1 then 128 else 64)).
  { clear. induction j as [|j [IH1 IH2]]; [split; reflexivity|].
    split; auto.
    rewrite !Nat2N.inj_succ, !N.pow_succ_r'.
    replace (64 * (2 * (2 * 2 ^ N.of_nat j))) with (64 * 2 ^ N.of_nat j + 2 ^ N.of_nat j * 192) by lia.
    rewrite N.mod_add by lia. rewrite IH1.
    replace (S (S j)) with (j + 1 * 2)%nat by lia. rewrite Nat.mod_add by lia. reflexivity. }
  apply (Hj j).
Qed.

Theorem power_2_to_2_to_k_spec : forall z k, wf z ->
  power_2_to_2_to_k z k = sq_iter (2 ^ N.of_nat k) z.
Proof.
  intros z k Hz.
  destruct (sq_iter_spec (2 ^ N.of_nat k) z Hz) as [Hw Hc].
  destruct (Nat.le_gt_cases 7 k) as [Hk|Hk].
  - destruct (pow_small_spec z 6 ltac:(lia) Hz) as [Hw1 _].
    pose proof (pow_small_cong z 6 ltac:(lia) Hz) as Hc1.
    destruct (pow_small_spec (pow_small z 6) 6 ltac:(lia) Hw1) as [Hw2 _].
    pose proof (pow_small_cong (pow_small z 6) 6 ltac:(lia) Hw1) as Hc2.
    change (2 ^ (2 ^ N.of_nat 6)) with (2 ^ 64) in *.
    pose proof (pow192_period (val z) (2 ^ N.of_nat k) (val_lt z Hz)) as Hp.
    rewrite pow2_mod192 in Hp by auto.
    unfold power_2_to_2_to_k. replace (7 <=? k)%nat with true by (symmetry; apply Nat.leb_le; auto).
    destruct (Nat.eqb (k mod 2) 1).
    + apply gf_ext; auto. apply cong_sym. eapply cong_trans; [exact Hc|].
      eapply cong_trans; [exact Hp|]. apply cong_sym. eapply cong_trans; [exact Hc2|].
      eapply cong_trans; [apply cong_cpow, Hc1|]. rewrite <- cpow_mul. apply cong_refl.
    + apply gf_ext; auto. apply cong_sym. eapply cong_trans; [exact Hc|].
      eapply cong_trans; [exact Hp|]. apply cong_sym. exact Hc1.
  - rewrite p22k_small by auto.
    destruct (pow_small_spec z k Hk Hz) as [Hw1 _].
    apply gf_ext; auto. eapply cong_trans; [apply pow_small_cong; auto|]. apply cong_sym; auto.
Qed.

Definition powr (v : N) (g : gf) (e : N) : Prop := wf g /\ cong PP (val g) (cpow v e).

Lemma powr_mul : forall v g h m n, powr v g m -> powr v h n -> powr v (gf_mul g h) (m + n).
Proof.
  intros v g h m n [Hg Hm] [Hh Hn]. split; [apply wf_mul; auto|].
  eapply cong_trans; [apply cong_mul; auto|]. rewrite cpow_add. apply cong_clmul; auto.
Qed.
Lemma powr_p22k : forall v g m k, (k < 7)%nat -> powr v g m ->
  powr v (power_2_to_2_to_k g k) (m * 2 ^ (2 ^ N.of_nat k)).
Proof.
  intros v g m k Hk [Hg Hm]. rewrite p22k_small by auto.
  split; [apply pow_small_spec; auto|].
  eapply cong_trans; [apply pow_small_cong; auto|]. rewrite cpow_mul. apply cong_cpow; auto.
Qed.

Lemma inv_step_spec : forall v s t r es et er k, (k < 7)%nat ->
  powr v s es -> powr v t et -> powr v r er ->
  let '(s', t', r') := inv_step (s, t, r) k in
  powr v s' (et + es) /\ powr v t' ((et + es) * 2 ^ (2 ^ N.of_nat k)) /\
  powr v r' (er + (et + es) * 2 ^ (2 ^ N.of_nat k)).
Proof.
  intros v s t r es et er k Hk Hs Ht Hr. cbn [inv_step].
  pose proof (powr_mul _ _ _ _ _ Ht Hs) as H1.
  pose proof (powr_p22k _ _ _ k Hk H1) as H2.
  pose proof (powr_mul _ _ _ _ _ Hr H2) as H3. auto.
Qed.

Lemma gf_invert_pow : forall z, wf z -> powr (val z) (gf_invert z) (2 ^ 192 - 2).
Proof.
  intros z Hz. unfold gf_invert.
  assert (Hz1 : powr (val z) z 1) by (split; auto; rewrite cpow_1; apply cong_refl).
  pose proof (powr_mul _ _ _ _ _ Hz1 Hz1) as Hr. change (1 + 1) with 2 in Hr.
  remember (gf_mul z z) as r eqn:Er. clear Er.
  cbn [fold_left].
  pose proof (inv_step_spec _ z r r _ _ _ 1 ltac:(lia) Hz1 Hr Hr) as I1.
  destruct (inv_step (z, r, r) 1) as [[s1 t1] r1]. destruct I1 as (S1 & T1 & R1).
  pose proof (inv_step_spec _ s1 t1 r1 _ _ _ 2 ltac:(lia) S1 T1 R1) as I2.
  destruct (inv_step (s1, t1, r1) 2) as [[s2 t2] r2]. destruct I2 as (S2 & T2 & R2).
  pose proof (inv_step_spec _ s2 t2 r2 _ _ _ 3 ltac:(lia) S2 T2 R2) as I3.
  destruct (inv_step (s2, t2, r2) 3) as [[s3 t3] r3]. destruct I3 as (S3 & T3 & R3).
  pose proof (inv_step_spec _ s3 t3 r3 _ _ _ 4 ltac:(lia) S3 T3 R3) as I4.
  destruct (inv_step (s3, t3, r3) 4) as [[s4 t4] r4]. destruct I4 as (S4 & T4 & R4).
  pose proof (inv_step_spec _ s4 t4 r4 _ _ _ 5 ltac:(lia) S4 T4 R4) as I5.
  destruct (inv_step (s4, t4, r4) 5) as [[s5 t5] r5]. destruct I5 as (S5 & T5 & R5).
  pose proof (inv_step_spec _ s5 t5 r5 _ _ _ 6 ltac:(lia) S5 T5 R5) as I6.
  destruct (inv_step (s5, t5, r5) 6) as [[s6 t6] r6]. destruct I6 as (S6 & T6 & R6).
  pose proof (powr_p22k _ _ _ 6 ltac:(lia) T6) as T7.
  pose proof (powr_mul _ _ _ _ _ R6 T7) as R7.
  match type of R7 with powr _ _ ?e =>
    assert (He : e = 2 ^ 192 - 2) by (vm_compute; reflexivity); rewrite He in R7 end.
  exact R7.
Qed.

Theorem gf_invert_wf : forall z, wf z -> wf (gf_invert z).
Proof. intros z Hz. apply (gf_invert_pow z Hz). Qed.

Lemma val_zero_iff : forall z, val z = 0 -> z = gf_zero.
Proof.
  intros [a b c] H. unfold val in H. cbn [w0 w1 w2] in H.
  assert (a = 0 /\ b = 0 /\ c = 0) as (-> & -> & ->) by lia. reflexivity.
Qed.

Theorem gf_invert_spec : forall z, wf z -> z <> gf_zero -> gf_mul z (gf_invert z) = gf_one.
Proof.
  intros z Hz Hnz.
  destruct (gf_invert_pow z Hz) as [Hwi Hci].
  set (e := gf_mul z (gf_invert z)).
  assert (Hwe : wf e) by (apply wf_mul; auto).
  assert (Hce : cong PP (val e) (cpow (val z) (2 ^ 192 - 1))).
  { eapply cong_trans; [apply cong_mul; auto|].
    eapply cong_trans; [apply cong_clmul; [apply cong_refl|exact Hci]|].
    rewrite <- cpow_succ. apply cong_refl. }
  pose proof (fermat (val z) (val_lt z Hz)) as Hf.
  (* e * e = e *)
  assert (Hidem : cong PP (clmul (val e) (val e)) (val e)).
  { eapply cong_trans; [apply cong_clmul; exact Hce|].
    rewrite <- cpow_add.
    replace (2 ^ 192 - 1 + (2 ^ 192 - 1)) with (2 ^ 192 + (2 ^ 192 - 2)) by reflexivity.
    rewrite cpow_add.
    eapply cong_trans; [apply cong_clmul; [exact Hf|apply cong_refl]|].
    rewrite <- cpow_succ. apply cong_sym. exact Hce. }
  assert (Hfix : S_ 0 (val e) = val e).
  { apply (cong_unique PP 192); auto using PP_top, PP_lt, val_lt.
    - apply S_lt. lia.
    - eapply cong_trans; [apply S0_spec, val_lt; auto|]. exact Hidem. }
  destruct (fixed_points (val e) (val_lt e Hwe) Hfix) as [H0|H1].
  - exfalso. apply Hnz. apply val_zero_iff.
    apply (cong_unique PP 192); auto using PP_top, PP_lt, val_lt.
    apply cong_trans with (cpow (val z) (2 ^ 192)); [apply cong_sym; exact Hf|].
    change (2 ^ 192) with (N.succ (2 ^ 192 - 1)). rewrite cpow_succ.
    apply cong_trans with (clmul (val z) (val e)).
    + apply cong_clmul; [apply cong_refl|apply cong_sym; exact Hce].
    + rewrite H0, clmul_0_r. apply cong_refl.
  - apply val_inj; auto using wf_one.
Qed.

Theorem gf_no_zero_divisors : forall a b, wf a -> wf b ->
  gf_mul a b = gf_zero -> a = gf_zero \/ b = gf_zero.
Proof.
  intros a b Ha Hb H.
  destruct (N.eq_dec (val a) 0) as [H0|Hne]; [left; apply val_zero_iff; auto|]. right.
  assert (Hnz : a <> gf_zero) by (intros ->; apply Hne; reflexivity).
  rewrite <- (gf_mul_1_l b Hb), <- (gf_invert_spec a Ha Hnz).
  rewrite (gf_mul_comm a (gf_invert a)) by auto using gf_invert_wf.
  rewrite <- gf_mul_assoc by auto using gf_invert_wf. rewrite H.
  rewrite gf_mul_comm by auto using wf_zero, gf_invert_wf.
  apply gf_mul_0_l. apply gf_invert_wf; auto.
Qed.
