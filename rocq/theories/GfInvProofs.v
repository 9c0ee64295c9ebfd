(** Frobenius tables, Fermat's theorem and inversion in GF(2^192). *)
From Coq Require Import NArith List Lia Bool.
From Verif Require Import Base GfTables GfCert GfModel Clmul GfProofs.
Import ListNotations.
Open Scope N_scope.

(** *** Linear maps given by the images of unit vectors *)
Fixpoint linsum (es : list N) (z : N) : N :=
  match es with
  | [] => 0
  | e :: es' => N.lxor (if N.odd z then e else 0) (linsum es' (N.div2 z))
  end.

Lemma linsum_lxor : forall es a b,
  linsum es (N.lxor a b) = N.lxor (linsum es a) (linsum es b).
Proof.
  induction es as [|e es IH]; intros a b; simpl; [reflexivity|].
  rewrite !N.div2_spec, N.shiftr_lxor, <- !N.div2_spec, IH.
  rewrite lxor_acac. f_equal.
  rewrite <- !N.bit0_odd, N.lxor_spec.
  destruct (N.testbit a 0), (N.testbit b 0); simpl;
    rewrite ?N.lxor_nilpotent, ?N.lxor_0_l, ?N.lxor_0_r; reflexivity.
Qed.

Lemma linsum_0 : forall es, linsum es 0 = 0.
Proof. induction es; simpl; auto. Qed.

Lemma linsum_unit : forall es i, (i < length es)%nat ->
  linsum es (2 ^ N.of_nat i) = nth i es 0.
Proof.
  induction es as [|e es IH]; intros i Hi; simpl in Hi; [lia|].
  destruct i as [|i].
  - simpl. rewrite linsum_0, N.lxor_0_r. reflexivity.
  - rewrite Nat2N.inj_succ, N.pow_succ_r'. cbn [linsum nth].
    rewrite N.odd_mul. simpl N.odd. cbn [andb]. rewrite N.lxor_0_l.
    rewrite N.div2_double. apply IH. lia.
Qed.

Lemma linsum_lt : forall n es z, Forall (fun e => e < 2 ^ n) es -> linsum es z < 2 ^ n.
Proof.
  intros n. induction es as [|e es IH]; intros z H; simpl.
  - apply N.neq_0_lt_0, N.pow_nonzero. lia.
  - inversion H; subst. apply lxor_lt_pow2; auto. destruct (N.odd z); auto.
    apply N.neq_0_lt_0, N.pow_nonzero. lia.
Qed.

(** Two additive maps agreeing (up to congruence) on unit vectors agree. *)
Lemma additive_ext : forall (P : N -> N -> Prop) (f g : N -> N) (n : nat),
  (forall a a' b b', P a a' -> P b b' -> P (N.lxor a b) (N.lxor a' b')) ->
  (forall a b, f (N.lxor a b) = N.lxor (f a) (f b)) ->
  (forall a b, g (N.lxor a b) = N.lxor (g a) (g b)) ->
  P (f 0) (g 0) ->
  (forall i, (i < n)%nat -> P (f (2 ^ N.of_nat i)) (g (2 ^ N.of_nat i))) ->
  forall z, z < 2 ^ N.of_nat n -> P (f z) (g z).
Proof.
  intros P f g n HP Hf Hg H0. induction n as [|n IH]; intros Hu z Hz.
  - change (2 ^ N.of_nat 0) with 1 in Hz. replace z with 0 by lia. exact H0.
  - destruct (N.testbit z (N.of_nat n)) eqn:Eb.
    + replace z with (N.lxor (N.lxor z (2 ^ N.of_nat n)) (2 ^ N.of_nat n)).
      2: { rewrite N.lxor_assoc, N.lxor_nilpotent, N.lxor_0_r. reflexivity. }
      rewrite Hf, Hg. apply HP; [|apply Hu; lia]. apply IH; [intros; apply Hu; lia|].
      apply lt_pow2_bits. intros i Hi. rewrite N.lxor_spec.
      destruct (N.eq_dec i (N.of_nat n)) as [->|Hne].
      * rewrite Eb, N.pow2_bits_true. reflexivity.
      * rewrite N.pow2_bits_false by auto. rewrite xorb_false_r.
        apply (hi_bits z (N.of_nat (S n))); auto. lia.
    + apply IH; [intros; apply Hu; lia|]. apply lt_pow2_bits. intros i Hi.
      destruct (N.eq_dec i (N.of_nat n)) as [->|Hne]; auto.
      apply (hi_bits z (N.of_nat (S n))); auto. lia.
Qed.

Lemma additive_eq : forall (f g : N -> N) (n : nat),
  (forall a b, f (N.lxor a b) = N.lxor (f a) (f b)) ->
  (forall a b, g (N.lxor a b) = N.lxor (g a) (g b)) ->
  (forall i, (i < n)%nat -> f (2 ^ N.of_nat i) = g (2 ^ N.of_nat i)) ->
  forall z, z < 2 ^ N.of_nat n -> f z = g z.
Proof.
  intros f g n Hf Hg Hu z Hz.
  assert (Hz0 : forall h : N -> N, (forall a b, h (N.lxor a b) = N.lxor (h a) (h b)) -> h 0 = 0).
  { intros h Hh. pose proof (Hh 0 0) as H. rewrite N.lxor_nilpotent in H.
    rewrite N.lxor_nilpotent in H. exact H. }
  apply (additive_ext eq f g n); auto.
  - intros; subst; reflexivity.
  - rewrite (Hz0 f Hf), (Hz0 g Hg). reflexivity.
Qed.

(** *** The code's table loop computes [linsum] *)
Fixpoint zip3 (r0 r1 r2 : list N) : list gf :=
  match r0, r1, r2 with
  | a :: r0', b :: r1', c :: r2' => Gf a b c :: zip3 r0' r1' r2'
  | _, _, _ => []
  end.

Lemma lin_word_spec : forall cnt r0 r1 r2 w t, 
  (length r0 >= cnt)%nat -> (length r1 >= cnt)%nat -> (length r2 >= cnt)%nat ->
  Forall wf (zip3 r0 r1 r2) -> wf t ->
  wf (lin_word cnt r0 r1 r2 w t) /\
  val (lin_word cnt r0 r1 r2 w t) =
  N.lxor (val t) (linsum (firstn cnt (map val (zip3 r0 r1 r2))) w).
Proof.
  induction cnt as [|cnt IH]; intros r0 r1 r2 w t L0 L1 L2 Hw Ht.
  - simpl. rewrite N.lxor_0_r. auto.
  - destruct r0 as [|a r0]; [simpl in L0; lia|].
    destruct r1 as [|b r1]; [simpl in L1; lia|].
    destruct r2 as [|c r2]; [simpl in L2; lia|].
    simpl in L0, L1, L2. cbn [zip3] in Hw. inversion Hw as [|? ? Hg Hw']; subst.
    cbn [lin_word tl hd zip3 map firstn linsum].
    set (m := N.land w 1).
    assert (Hm : m = if N.odd w then 1 else 0).
    { unfold m. change 1 with (N.ones 1) at 1. rewrite N.land_ones. change (2 ^ 1) with 2.
      rewrite <- N.bit0_mod, N.bit0_odd. destruct (N.odd w); reflexivity. }
    set (t' := Gf (N.lxor (w0 t) (a * m)) (N.lxor (w1 t) (b * m)) (N.lxor (w2 t) (c * m))).
    assert (Ht' : t' = gf_add t (if N.odd w then Gf a b c else gf_zero)).
    { unfold t'. rewrite Hm. destruct (N.odd w); unfold gf_add, gf_zero; cbn [w0 w1 w2];
        rewrite ?N.mul_1_r, ?N.mul_0_r; reflexivity. }
    assert (Hwt' : wf t').
    { rewrite Ht'. apply wf_add; auto. destruct (N.odd w); auto using wf_zero. }
    destruct (IH r0 r1 r2 (lrs w 1) t') as [IH1 IH2]; auto; try lia.
    split; auto. rewrite IH2, Ht', val_add by (auto; destruct (N.odd w); auto using wf_zero).
    rewrite N.lxor_assoc. f_equal. unfold lrs. rewrite <- N.div2_spec. f_equal.
    destruct (N.odd w); reflexivity.
Qed.

Lemma zip3_skipn : forall n r0 r1 r2, zip3 (skipn n r0) (skipn n r1) (skipn n r2)
  = skipn n (zip3 r0 r1 r2).
Proof.
  induction n as [|n IH]; intros r0 r1 r2; [reflexivity|].
  destruct r0 as [|a r0]; [reflexivity|].
  destruct r1 as [|b r1]; [simpl; destruct (skipn n r0); reflexivity|].
  destruct r2 as [|c r2].
  - simpl. destruct (skipn n r0); [reflexivity|]. destruct (skipn n r1); reflexivity.
  - simpl. apply IH.
Qed.

Lemma Forall_skipn : forall A (P : A -> Prop) n l, Forall P l -> Forall P (skipn n l).
Proof.
  intros A P n l H. rewrite <- (firstn_skipn n l) in H. apply Forall_app in H. tauto.
Qed.

Lemma skipn_add : forall A m n (l : list A), skipn m (skipn n l) = skipn (n + m) l.
Proof.
  intros A m n. induction n as [|n IH]; intros l; [reflexivity|].
  destruct l as [|x l]; [destruct m; reflexivity|]. simpl. apply IH.
Qed.

Lemma linsum_app : forall e1 e2 z,
  linsum (e1 ++ e2) z = N.lxor (linsum e1 z) (linsum e2 (N.shiftr z (N.of_nat (length e1)))).
Proof.
  induction e1 as [|e e1 IH]; intros e2 z.
  - simpl. rewrite N.shiftr_0_r, N.lxor_0_l. reflexivity.
  - cbn [app linsum length]. rewrite IH, N.lxor_assoc. do 3 f_equal.
    rewrite N.div2_spec, N.shiftr_shiftr. f_equal. lia.
Qed.

(** [linsum] only looks at as many bits as there are rows. *)
Lemma linsum_low : forall es a b n, (length es <= N.to_nat n)%nat ->
  (forall i, i < n -> N.testbit a i = N.testbit b i) -> linsum es a = linsum es b.
Proof.
  induction es as [|e es IH]; intros a b n Hn Hb; simpl; [reflexivity|].
  simpl in Hn. f_equal.
  - rewrite <- !N.bit0_odd, Hb by lia. reflexivity.
  - apply (IH _ _ (n - 1)); [lia|]. intros i Hi.
    rewrite !N.div2_spec, !N.shiftr_spec'. apply Hb. lia.
Qed.

Lemma lin_apply_spec : forall r0 r1 r2 z,
  length r0 = 192%nat -> length r1 = 192%nat -> length r2 = 192%nat ->
  Forall wf (zip3 r0 r1 r2) -> wf z ->
  wf (lin_apply r0 r1 r2 z) /\
  val (lin_apply r0 r1 r2 z) = linsum (map val (zip3 r0 r1 r2)) (val z).
Proof.
  intros r0 r1 r2 z L0 L1 L2 Hw Hz. unfold lin_apply.
  set (es := map val (zip3 r0 r1 r2)).
  assert (Hlen : length es = 192%nat).
  { unfold es. rewrite map_length. clear - L0 L1 L2.
    assert (Hg : forall r0 r1 r2, length r0 = length r1 -> length r1 = length r2 ->
      length (zip3 r0 r1 r2) = length r0).
    { induction r3; intros [|] [|]; simpl; intros; try lia. f_equal. apply IHr3; lia. }
    rewrite Hg; lia. }
  destruct (lin_word_spec 64 r0 r1 r2 (w0 z) gf_zero) as [A1 A2]; auto using wf_zero; try lia.
  set (t1 := lin_word 64 r0 r1 r2 (w0 z) gf_zero) in *.
  destruct (lin_word_spec 64 (skipn 64 r0) (skipn 64 r1) (skipn 64 r2) (w1 z) t1) as [B1 B2]; auto;
    try (rewrite skipn_length; lia).
  { rewrite zip3_skipn. apply Forall_skipn; auto. }
  set (t2 := lin_word 64 (skipn 64 r0) (skipn 64 r1) (skipn 64 r2) (w1 z) t1) in *.
  destruct (lin_word_spec 64 (skipn 128 r0) (skipn 128 r1) (skipn 128 r2) (w2 z) t2) as [C1 C2]; auto;
    try (rewrite skipn_length; lia).
  { rewrite zip3_skipn. apply Forall_skipn; auto. }
  split; auto. rewrite C2, B2, A2. change (val gf_zero) with 0. rewrite N.lxor_0_l.
  rewrite !zip3_skipn, <- !skipn_map. fold es.
  assert (Hes : es = firstn 64 es ++ firstn 64 (skipn 64 es) ++ firstn 64 (skipn 128 es)).
  { rewrite <- (firstn_skipn 64 es) at 1. f_equal.
    rewrite <- (firstn_skipn 64 (skipn 64 es)) at 1. f_equal.
    rewrite skipn_add. change (64 + 64)%nat with 128%nat.
    symmetry. apply firstn_all2. rewrite skipn_length. lia. }
  rewrite Hes at 4. rewrite !linsum_app.
  assert (Hl1 : length (firstn 64 es) = 64%nat) by (rewrite firstn_length; lia).
  assert (Hl2 : length (firstn 64 (skipn 64 es)) = 64%nat)
    by (rewrite firstn_length, skipn_length; lia).
  rewrite Hl1, Hl2. rewrite N.shiftr_shiftr. change (N.of_nat 64) with 64.
  change (64 + 64) with 128.
  rewrite N.lxor_assoc. f_equal; [|f_equal].
  - apply (linsum_low _ _ _ 64); [rewrite Hl1; reflexivity|].
    intros i Hi. rewrite val_bits by auto. nbool. reflexivity.
  - apply (linsum_low _ _ _ 64); [rewrite Hl2; reflexivity|].
    intros i Hi. rewrite N.shiftr_spec', val_bits by auto. nbool. f_equal. lia.
  - apply (linsum_low _ _ _ 64). { rewrite firstn_length. lia. }
    intros i Hi. rewrite N.shiftr_spec', val_bits by auto. nbool. f_equal. lia.
Qed.

(** *** Contents of the tables *)
Definition tab (k : nat) : list gf :=
  zip3 (nth k pow_table_0 []) (nth k pow_table_1 []) (nth k pow_table_2 []).
Definition ent (k : nat) : list N := map val (tab k).

Definition gf_wfb (g : gf) : bool := (w0 g <? 2 ^ 64) && (w1 g <? 2 ^ 64) && (w2 g <? 2 ^ 64).
Lemma gf_wfb_spec : forall g, gf_wfb g = true -> wf g.
Proof.
  intros g H. unfold gf_wfb in H. apply andb_true_iff in H. destruct H as [H H2].
  apply andb_true_iff in H. destruct H as [H0 H1]. repeat split; apply N.ltb_lt; auto.
Qed.

Definition tables_ok : bool :=
  forallb (fun k =>
    Nat.eqb (length (nth k pow_table_0 [])) 192 && Nat.eqb (length (nth k pow_table_1 [])) 192
    && Nat.eqb (length (nth k pow_table_2 [])) 192 && forallb gf_wfb (tab k))%bool
    (seq 0 7).
Lemma tables_ok_true : tables_ok = true.
Proof. vm_compute. reflexivity. Qed.

(** Materialised tables of values, so that the checks below work on plain numbers. *)
Definition vt0 := Eval vm_compute in ent 0.
Definition vt1 := Eval vm_compute in ent 1.
Definition vt2 := Eval vm_compute in ent 2.
Definition vt3 := Eval vm_compute in ent 3.
Definition vt4 := Eval vm_compute in ent 4.
Definition vt5 := Eval vm_compute in ent 5.
Definition vt6 := Eval vm_compute in ent 6.

Definition list_eqb (a b : list N) : bool :=
  (Nat.eqb (length a) (length b) && forallb (fun p => N.eqb (fst p) (snd p)) (combine a b))%bool.
Lemma list_eqb_eq : forall a b, list_eqb a b = true -> a = b.
Proof.
  intros a b H. unfold list_eqb in H. apply andb_true_iff in H. destruct H as [Hl H].
  apply Nat.eqb_eq in Hl. revert b Hl H.
  induction a as [|x a IH]; intros [|y b] Hl H; simpl in *; try lia; auto.
  apply andb_true_iff in H. destruct H as [H1 H2]. apply N.eqb_eq in H1. f_equal; auto.
Qed.

(** x * a reduced. *)
Definition xtime (a : N) : N :=
  let d := N.double a in if N.testbit d 192 then N.lxor d PP else d.
Lemma xtime_cong : forall a, cong PP (xtime a) (N.shiftl a 1).
Proof.
  intros a. unfold xtime. rewrite double_shiftl. destruct (N.testbit _ 192).
  - exists 1. rewrite clmul_1_r, N.lxor_comm, lxor_cancel. reflexivity.
  - apply cong_refl.
Qed.

Fixpoint sq_chain (prev : N) (l : list N) : bool :=
  match l with
  | [] => true
  | x :: l' => N.eqb x (xtime (xtime prev)) && sq_chain x l'
  end.

Lemma vt0_chain : (N.eqb (hd 0 vt0) 1 && sq_chain 1 (tl vt0))%bool = true.
Proof. vm_compute. reflexivity. Qed.
Lemma vt1_sq : list_eqb vt1 (map (linsum vt0) vt0) = true.
Proof. vm_compute. reflexivity. Qed.
Lemma vt2_sq : list_eqb vt2 (map (linsum vt1) vt1) = true.
Proof. vm_compute. reflexivity. Qed.
Lemma vt3_sq : list_eqb vt3 (map (linsum vt2) vt2) = true.
Proof. vm_compute. reflexivity. Qed.
Lemma vt4_sq : list_eqb vt4 (map (linsum vt3) vt3) = true.
Proof. vm_compute. reflexivity. Qed.
Lemma vt5_sq : list_eqb vt5 (map (linsum vt4) vt4) = true.
Proof. vm_compute. reflexivity. Qed.
Lemma vt6_sq : list_eqb vt6 (map (linsum vt5) vt5) = true.
Proof. vm_compute. reflexivity. Qed.
Lemma vt6_cube : list_eqb (map (fun e => linsum vt6 (linsum vt6 e)) vt6)
                          (map (fun i => 2 ^ N.of_nat i) (seq 0 192)) = true.
Proof. vm_compute. reflexivity. Qed.
Lemma artin_ok :
  list_eqb (map (fun i => linsum artin_cert (N.lxor (nth i vt0 0) (2 ^ N.of_nat i))) (seq 0 192))
           (0 :: map (fun i => 2 ^ N.of_nat i) (seq 1 191)) = true.
Proof. vm_compute. reflexivity. Qed.
Lemma ent_vt0 : ent 0 = vt0.
Proof. vm_compute. reflexivity. Qed.
Lemma ent_vt1 : ent 1 = vt1.
Proof. vm_compute. reflexivity. Qed.
Lemma ent_vt2 : ent 2 = vt2.
Proof. vm_compute. reflexivity. Qed.
Lemma ent_vt3 : ent 3 = vt3.
Proof. vm_compute. reflexivity. Qed.
Lemma ent_vt4 : ent 4 = vt4.
Proof. vm_compute. reflexivity. Qed.
Lemma ent_vt5 : ent 5 = vt5.
Proof. vm_compute. reflexivity. Qed.
Lemma ent_vt6 : ent 6 = vt6.
Proof. vm_compute. reflexivity. Qed.
