(** Correctness of the GF(2^192) arithmetic against GF(2)[x] modulo the pentanomial. *)
From Coq Require Import NArith List Lia Bool Ring.
From Verif Require Import Base GfTables GfCert GfModel Clmul.
Import ListNotations.
Open Scope N_scope.

Arguments N.add : simpl never.
Arguments N.mul : simpl never.
Arguments N.pow : simpl never.
Arguments N.shiftl : simpl never.
Arguments N.shiftr : simpl never.
Arguments N.lxor : simpl never.
Arguments N.land : simpl never.
Arguments N.lor : simpl never.
Arguments N.ones : simpl never.

(** The irreducible pentanomial x^192 + x^7 + x^2 + x + 1. *)
Definition PP : N := 2 ^ 192 + 2 ^ 7 + 2 ^ 2 + 2 ^ 1 + 1.

(** Bit polynomial represented by an element (word 0 is least significant). *)
Definition val (g : gf) : N := w0 g + 2 ^ 64 * (w1 g + 2 ^ 64 * w2 g).
Definition wf (g : gf) : Prop := w0 g < 2 ^ 64 /\ w1 g < 2 ^ 64 /\ w2 g < 2 ^ 64.

Lemma PP_top : N.testbit PP 192 = true.
Proof. reflexivity. Qed.
Lemma PP_lt : PP < 2 ^ (N.succ 192).
Proof. reflexivity. Qed.
Lemma PP_split : PP = N.lxor (2 ^ 192) 135.
Proof. reflexivity. Qed.

(** *** Bits of sums of disjoint words *)
Lemma testbit_cat : forall n a b i, a < 2 ^ n ->
  N.testbit (a + 2 ^ n * b) i = if i <? n then N.testbit a i else N.testbit b (i - n).
Proof.
  intros n a b i Ha.
  assert (Hp : 2 ^ n <> 0) by (apply N.pow_nonzero; lia).
  destruct (i <? n) eqn:E.
  - apply N.ltb_lt in E.
    rewrite <- (N.mod_pow2_bits_low (a + 2 ^ n * b) n i) by auto.
    rewrite N.mul_comm, N.mod_add, N.mod_small by auto. reflexivity.
  - apply N.ltb_ge in E.
    replace i with (i - n + n) at 1 by lia.
    rewrite <- N.div_pow2_bits.
    rewrite N.mul_comm, N.div_add, N.div_small by auto. reflexivity.
Qed.

Lemma val_bits : forall g i, wf g ->
  N.testbit (val g) i =
  if i <? 64 then N.testbit (w0 g) i
  else if i <? 128 then N.testbit (w1 g) (i - 64) else N.testbit (w2 g) (i - 128).
Proof.
  intros g i (H0 & H1 & H2). unfold val. rewrite testbit_cat by auto.
  destruct (i <? 64) eqn:E; auto. rewrite testbit_cat by auto.
  apply N.ltb_ge in E.
  destruct (i - 64 <? 64) eqn:E1, (i <? 128) eqn:E2; auto;
    try apply N.ltb_lt in E1; try apply N.ltb_ge in E1;
    try apply N.ltb_lt in E2; try apply N.ltb_ge in E2; try lia.
  f_equal. lia.
Qed.

Lemma val_lt : forall g, wf g -> val g < 2 ^ 192.
Proof.
  intros g (H0 & H1 & H2). unfold val.
  change (2 ^ 192) with (2 ^ 64 * (2 ^ 64 * 2 ^ 64)). nia.
Qed.

Lemma val_inj : forall a b, wf a -> wf b -> val a = val b -> a = b.
Proof.
  intros [a0 a1 a2] [b0 b1 b2] (Ha0 & Ha1 & Ha2) (Hb0 & Hb1 & Hb2) H.
  unfold val in H. simpl in *.
  assert (a0 = b0 /\ a1 + 2 ^ 64 * a2 = b1 + 2 ^ 64 * b2) as [-> H'] by nia.
  assert (a1 = b1 /\ a2 = b2) as [-> ->] by nia.
  reflexivity.
Qed.

Lemma gf_ext : forall a b, wf a -> wf b -> cong PP (val a) (val b) -> a = b.
Proof.
  intros a b Ha Hb H. apply val_inj; auto.
  apply (cong_unique PP 192); auto using PP_top, PP_lt, val_lt.
Qed.

(** *** Addition *)
Lemma wf_zero : wf gf_zero. Proof. repeat split; reflexivity. Qed.
Lemma wf_one : wf gf_one. Proof. repeat split; reflexivity. Qed.

Lemma wf_add : forall a b, wf a -> wf b -> wf (gf_add a b).
Proof.
  intros a b (Ha0 & Ha1 & Ha2) (Hb0 & Hb1 & Hb2). repeat split; apply lxor_lt_pow2; auto.
Qed.

Lemma val_add : forall a b, wf a -> wf b -> val (gf_add a b) = N.lxor (val a) (val b).
Proof.
  intros a b Ha Hb. apply N.bits_inj. intros i.
  rewrite N.lxor_spec, !val_bits by auto using wf_add.
  unfold gf_add; cbn [w0 w1 w2].
  destruct (i <? 64); [apply N.lxor_spec|]. destruct (i <? 128); apply N.lxor_spec.
Qed.

(** *** Shifts across the three words *)
Definition shift_words (k : N) (w : gf) : gf :=
  Gf (shl (w0 w) k) (N.lor (shl (w1 w) k) (lrs (w0 w) (64 - k)))
     (N.lor (shl (w2 w) k) (lrs (w1 w) (64 - k))).

Lemma shl_bits : forall w k i,
  N.testbit (shl w k) i = ((k <=? i) && (i <? 64) && N.testbit w (i - k))%bool.
Proof.
  intros w k i. unfold shl. rewrite N.land_spec.
  destruct (k <=? i) eqn:E.
  - apply N.leb_le in E. rewrite N.shiftl_spec_high' by auto.
    destruct (i <? 64) eqn:E1.
    + apply N.ltb_lt in E1. rewrite N.ones_spec_low by auto. rewrite ?andb_true_r, ?xorb_false_l. reflexivity.
    + apply N.ltb_ge in E1. rewrite N.ones_spec_high by auto. apply andb_false_r.
  - apply N.leb_gt in E. rewrite N.shiftl_spec_low by auto. reflexivity.
Qed.

Lemma lrs_bits : forall w k i, N.testbit (lrs w k) i = N.testbit w (i + k).
Proof. intros. unfold lrs. apply N.shiftr_spec'. Qed.

Lemma hi_bits : forall w n i, w < 2 ^ n -> n <= i -> N.testbit w i = false.
Proof. intros w n i H. apply (proj1 (lt_pow2_bits w n) H). Qed.

Lemma shl_lt : forall w k, shl w k < 2 ^ 64.
Proof.
  intros. apply lt_pow2_bits. intros i Hi. rewrite shl_bits.
  replace (i <? 64) with false by (symmetry; apply N.ltb_ge; auto).
  rewrite andb_false_r. reflexivity.
Qed.

Lemma lor_lt_pow2 : forall a b n, a < 2 ^ n -> b < 2 ^ n -> N.lor a b < 2 ^ n.
Proof.
  intros a b n Ha Hb. rewrite lt_pow2_bits in *. intros i Hi.
  rewrite N.lor_spec, Ha, Hb by auto. reflexivity.
Qed.

Lemma lrs_lt : forall w k n, w < 2 ^ (n + k) -> lrs w k < 2 ^ n.
Proof.
  intros w k n H. apply lt_pow2_bits. intros i Hi. rewrite lrs_bits.
  apply (hi_bits w (n + k)); auto. lia.
Qed.

Lemma lrs_lt64 : forall w k, w < 2 ^ 64 -> lrs w k < 2 ^ 64.
Proof.
  intros w k H. apply lrs_lt. eapply N.lt_le_trans; [exact H|]. apply N.pow_le_mono_r; lia.
Qed.

Lemma wf_shift_words : forall k w, wf w -> wf (shift_words k w).
Proof.
  intros k w (H0 & H1 & H2). repeat split; cbn [w0 w1 w2 shift_words].
  - apply shl_lt.
  - apply lor_lt_pow2; [apply shl_lt|apply lrs_lt64; auto].
  - apply lor_lt_pow2; [apply shl_lt|apply lrs_lt64; auto].
Qed.

Ltac nbool :=
  repeat match goal with
  | |- context [?a <? ?b] => let E := fresh "E" in destruct (N.ltb_spec a b) as [E|E]
  | |- context [?a <=? ?b] => let E := fresh "E" in destruct (N.leb_spec a b) as [E|E]
  end; try lia.

Lemma shift_words_val : forall k w, 0 < k -> k < 64 -> wf w ->
  N.shiftl (val w) k =
  N.lxor (val (shift_words k w)) (N.shiftl (lrs (w2 w) (64 - k)) 192).
Proof.
  intros k w Hk0 Hk Hw. apply N.bits_inj. intros i.
  rewrite N.lxor_spec, val_bits by (apply wf_shift_words; auto).
  cbn [shift_words w0 w1 w2].
  destruct Hw as (H0 & H1 & H2).
  assert (Hw : wf w) by (repeat split; auto).
  assert (Hl : N.testbit (N.shiftl (val w) k) i = ((k <=? i) && N.testbit (val w) (i - k))%bool).
  { destruct (N.leb_spec k i).
    - rewrite N.shiftl_spec_high' by auto. reflexivity.
    - rewrite N.shiftl_spec_low by auto. reflexivity. }
  rewrite Hl. clear Hl.
  assert (Hh : N.testbit (N.shiftl (lrs (w2 w) (64 - k)) 192) i =
               ((192 <=? i) && N.testbit (w2 w) (i - 192 + (64 - k)))%bool).
  { destruct (N.leb_spec 192 i).
    - rewrite N.shiftl_spec_high', lrs_bits by auto. reflexivity.
    - rewrite N.shiftl_spec_low by auto. reflexivity. }
  rewrite Hh. clear Hh.
  rewrite val_bits by auto. rewrite !N.lor_spec, !shl_bits, !lrs_bits.
  destruct (N.ltb_spec i 64).
  - replace (192 <=? i) with false by (symmetry; apply N.leb_gt; lia).
    replace (i - k <? 64) with true by (symmetry; apply N.ltb_lt; lia).
    rewrite xorb_false_r, andb_true_r. reflexivity.
  - replace (k <=? i) with true by (symmetry; apply N.leb_le; lia).
    destruct (N.ltb_spec i 128).
    + replace (192 <=? i) with false by (symmetry; apply N.leb_gt; lia).
      replace (i - 64 <? 64) with true by (symmetry; apply N.ltb_lt; lia).
      rewrite xorb_false_r, !andb_true_r. cbn [andb].
      destruct (N.leb_spec k (i - 64)).
      * replace (i - k <? 64) with false by (symmetry; apply N.ltb_ge; lia).
        replace (i - k <? 128) with true by (symmetry; apply N.ltb_lt; lia).
        rewrite (hi_bits (w0 w) 64) by (auto; lia). rewrite orb_false_r. cbn [andb].
        f_equal. lia.
      * replace (i - k <? 64) with true by (symmetry; apply N.ltb_lt; lia).
        cbn [andb orb]. f_equal. lia.
    + destruct (N.leb_spec 192 i).
      * replace (i - 128 <? 64) with false by (symmetry; apply N.ltb_ge; lia).
        replace (i - k <? 64) with false by (symmetry; apply N.ltb_ge; lia).
        replace (i - k <? 128) with false by (symmetry; apply N.ltb_ge; lia).
        rewrite andb_false_r. cbn [andb orb].
        rewrite (hi_bits (w1 w) 64) by (auto; lia). rewrite xorb_false_l.
        f_equal. lia.
      * replace (i - 128 <? 64) with true by (symmetry; apply N.ltb_lt; lia).
        replace (i - k <? 64) with false by (symmetry; apply N.ltb_ge; lia).
        rewrite !andb_true_r. cbn [andb]. rewrite xorb_false_r.
        destruct (N.leb_spec k (i - 128)).
        -- replace (i - k <? 128) with false by (symmetry; apply N.ltb_ge; lia).
           rewrite (hi_bits (w1 w) 64) by (auto; lia). rewrite orb_false_r. cbn [andb].
           f_equal. lia.
        -- replace (i - k <? 128) with true by (symmetry; apply N.ltb_lt; lia).
           cbn [andb orb]. f_equal. lia.
Qed.

Lemma cong_hi : forall h, cong PP (N.shiftl h 192) (clmul 135 h).
Proof.
  intros h. exists h. rewrite PP_split, clmul_lxor_l.
  f_equal. rewrite clmul_comm, clmul_pow2_r. reflexivity.
Qed.

Lemma irred_muls_spec : forall h, h < 16 -> nth (N.to_nat h) irred_muls 0 = clmul 135 h.
Proof.
  intros h Hh.
  assert (Hall : forallb (fun i => N.eqb (nth i irred_muls 0) (clmul 135 (N.of_nat i)))
                   (seq 0 16) = true) by reflexivity.
  rewrite forallb_forall in Hall. specialize (Hall (N.to_nat h)).
  rewrite N2Nat.id in Hall. apply N.eqb_eq. apply Hall. apply in_seq. lia.
Qed.

Lemma clmul135_lt : forall h, h < 16 -> clmul 135 h < 2 ^ 64.
Proof.
  intros h Hh. rewrite <- irred_muls_spec by auto.
  assert (Hall : forallb (fun x => N.ltb x (2 ^ 64)) irred_muls = true) by reflexivity.
  rewrite forallb_forall in Hall. apply N.ltb_lt. apply Hall. apply nth_In.
  change (length irred_muls) with 16%nat. lia.
Qed.

Lemma gf_eta : forall g, Gf (w0 g) (w1 g) (w2 g) = g.
Proof. intros []; reflexivity. Qed.

Lemma gf_add_low : forall g x, gf_add g (Gf x 0 0) = Gf (N.lxor (w0 g) x) (w1 g) (w2 g).
Proof. intros. unfold gf_add. cbn [w0 w1 w2]. rewrite !N.lxor_0_r. reflexivity. Qed.

Lemma wf_low : forall x, x < 2 ^ 64 -> wf (Gf x 0 0).
Proof. intros. repeat split; auto; reflexivity. Qed.
Lemma val_low : forall x, val (Gf x 0 0) = x.
Proof. intros. unfold val. cbn [w0 w1 w2]. lia. Qed.

(** Multiplication by x^k with reduction. *)
Lemma shift_reduce : forall k w, 0 < k -> k <= 4 -> wf w ->
  let r := gf_add (shift_words k w) (Gf (clmul 135 (lrs (w2 w) (64 - k))) 0 0) in
  wf r /\ cong PP (val r) (N.shiftl (val w) k).
Proof.
  intros k w Hk0 Hk Hw r.
  assert (Hh : lrs (w2 w) (64 - k) < 16).
  { change 16 with (2 ^ 4). apply lrs_lt.
    destruct Hw as (_ & _ & H2). eapply N.lt_le_trans; [exact H2|].
    apply N.pow_le_mono_r; lia. }
  assert (Hwr : wf (shift_words k w)) by (apply wf_shift_words; auto).
  assert (Hwl : wf (Gf (clmul 135 (lrs (w2 w) (64 - k))) 0 0))
    by (apply wf_low, clmul135_lt; auto).
  split; [apply wf_add; auto|].
  unfold r. rewrite val_add, val_low by auto.
  rewrite (shift_words_val k w) by (auto; lia).
  apply cong_lxor; [apply cong_refl|]. apply cong_sym, cong_hi.
Qed.

Lemma times_x_spec : forall w, wf w ->
  wf (times_x w) /\ cong PP (val (times_x w)) (N.shiftl (val w) 1).
Proof.
  intros w Hw. pose proof (shift_reduce 1 w eq_refl (fun H => ltac:(discriminate H)) Hw) as H.
  cbv zeta in H. rewrite gf_add_low in H. cbn [shift_words w0 w1 w2] in H.
  change (64 - 1) with 63 in H. unfold times_x.
  rewrite irred_muls_spec; auto.
  change 16 with (2 ^ 4). apply lrs_lt. destruct Hw as (_ & _ & H2).
  eapply N.lt_le_trans; [exact H2|]. apply N.pow_le_mono_r; lia.
Qed.

Lemma times_x4_spec : forall w, wf w ->
  wf (times_x4 w) /\ cong PP (val (times_x4 w)) (N.shiftl (val w) 4).
Proof.
  intros w Hw. pose proof (shift_reduce 4 w eq_refl (fun H => ltac:(discriminate H)) Hw) as H.
  cbv zeta in H. rewrite gf_add_low in H. cbn [shift_words w0 w1 w2] in H.
  change (64 - 4) with 60 in H. unfold times_x4.
  rewrite irred_muls_spec; auto.
  change 16 with (2 ^ 4). apply lrs_lt. destruct Hw as (_ & _ & H2).
  eapply N.lt_le_trans; [exact H2|]. apply N.pow_le_mono_r; lia.
Qed.

(** *** The table of multiples *)
Definition repr (a : N) (g : gf) (m : N) : Prop := wf g /\ cong PP (val g) (clmul a m).

Lemma repr_add : forall a g h m n, repr a g m -> repr a h n ->
  repr a (gf_add g h) (N.lxor m n).
Proof.
  intros a g h m n [Hg Hm] [Hh Hn]. split; [apply wf_add; auto|].
  rewrite val_add, clmul_lxor_r by auto. apply cong_lxor; auto.
Qed.

Lemma repr_times_x : forall a g m, repr a g m -> repr a (times_x g) (N.shiftl m 1).
Proof.
  intros a g m [Hg Hm]. destruct (times_x_spec g Hg) as [H1 H2]. split; auto.
  rewrite clmul_shiftl_r. eapply cong_trans; [exact H2|]. apply cong_shiftl; auto.
Qed.

Lemma mul_table_spec : forall a n, wf a -> n < 16 ->
  repr (val a) (nth (N.to_nat n) (mul_table a) gf_zero) n.
Proof.
  intros a n Ha Hn.
  assert (R0 : repr (val a) gf_zero 0).
  { split; [apply wf_zero|]. change (val gf_zero) with 0. apply cong_refl. }
  assert (R1 : repr (val a) a 1).
  { split; auto. rewrite clmul_1_r. apply cong_refl. }
  pose proof (repr_times_x _ _ _ R1) as R2. change (N.shiftl 1 1) with 2 in R2.
  pose proof (repr_times_x _ _ _ R2) as R4. change (N.shiftl 2 1) with 4 in R4.
  pose proof (repr_times_x _ _ _ R4) as R8. change (N.shiftl 4 1) with 8 in R8.
  pose proof (repr_add _ _ _ _ _ R1 R2) as R3. change (N.lxor 1 2) with 3 in R3.
  pose proof (repr_add _ _ _ _ _ R4 R1) as R5. change (N.lxor 4 1) with 5 in R5.
  pose proof (repr_add _ _ _ _ _ R4 R2) as R6. change (N.lxor 4 2) with 6 in R6.
  pose proof (repr_add _ _ _ _ _ R4 R3) as R7. change (N.lxor 4 3) with 7 in R7.
  pose proof (repr_add _ _ _ _ _ R8 R1) as R9. change (N.lxor 8 1) with 9 in R9.
  pose proof (repr_add _ _ _ _ _ R8 R2) as R10. change (N.lxor 8 2) with 10 in R10.
  pose proof (repr_add _ _ _ _ _ R8 R3) as R11. change (N.lxor 8 3) with 11 in R11.
  pose proof (repr_add _ _ _ _ _ R8 R4) as R12. change (N.lxor 8 4) with 12 in R12.
  pose proof (repr_add _ _ _ _ _ R8 R5) as R13. change (N.lxor 8 5) with 13 in R13.
  pose proof (repr_add _ _ _ _ _ R8 R6) as R14. change (N.lxor 8 6) with 14 in R14.
  pose proof (repr_add _ _ _ _ _ R8 R7) as R15. change (N.lxor 8 7) with 15 in R15.
  assert (Hcases : n = 0 \/ n = 1 \/ n = 2 \/ n = 3 \/ n = 4 \/ n = 5 \/ n = 6 \/ n = 7 \/
    n = 8 \/ n = 9 \/ n = 10 \/ n = 11 \/ n = 12 \/ n = 13 \/ n = 14 \/ n = 15) by lia.
  destruct Hcases as
    [->|[->|[->|[->|[->|[->|[->|[->|[->|[->|[->|[->|[->|[->|[->| ->]]]]]]]]]]]]]]]; assumption.
Qed.

(** *** The main loop *)
Lemma nib_step : forall v s,
  N.lxor (N.shiftl (N.shiftr v (s + 4)) 4) (N.land (N.shiftr v s) 15) = N.shiftr v s.
Proof.
  intros v s. apply N.bits_inj. intros i. rewrite N.lxor_spec, N.land_spec.
  change 15 with (N.ones 4). rewrite !N.shiftr_spec'.
  destruct (N.lt_ge_cases i 4).
  - rewrite N.shiftl_spec_low, N.ones_spec_low by auto. rewrite ?andb_true_r, ?xorb_false_l. reflexivity.
  - rewrite N.shiftl_spec_high', N.ones_spec_high by auto.
    rewrite andb_false_r, xorb_false_r, N.shiftr_spec'. f_equal. lia.
Qed.

(** Nibbles of a word are nibbles of the whole value. *)
Lemma nib_of_val : forall g j w i, wf g ->
  (j = 0 /\ w = w0 g \/ j = 64 /\ w = w1 g \/ j = 128 /\ w = w2 g) -> i <= 60 ->
  N.land (lrs w i) 15 = N.land (N.shiftr (val g) (j + i)) 15.
Proof.
  intros g j w i Hg Hj Hi. apply N.bits_inj. intros b.
  rewrite !N.land_spec, lrs_bits, N.shiftr_spec'. change 15 with (N.ones 4).
  destruct (N.lt_ge_cases b 4).
  - f_equal. rewrite val_bits by auto.
    destruct Hj as [[-> ->]|[[-> ->]|[-> ->]]]; nbool; f_equal; lia.
  - rewrite N.ones_spec_high by auto. rewrite !andb_false_r. reflexivity.
Qed.

Lemma mul_step_spec : forall a b j m i acc, wf a -> wf b ->
  (j = 0 /\ m = w0 b \/ j = 64 /\ m = w1 b \/ j = 128 /\ m = w2 b) -> i <= 60 ->
  repr (val a) acc (N.shiftr (val b) (j + i + 4)) ->
  repr (val a) (mul_step (mul_table a) m acc i) (N.shiftr (val b) (j + i)).
Proof.
  intros a b j m i acc Ha Hb Hj Hi [Hw Hc]. unfold mul_step.
  rewrite (nib_of_val b j m i Hb Hj Hi).
  set (n := N.land (N.shiftr (val b) (j + i)) 15).
  assert (Hn : n < 16).
  { unfold n. change 15 with (N.ones 4). rewrite N.land_ones. apply N.mod_lt. discriminate. }
  destruct (times_x4_spec acc Hw) as [H1 H2].
  pose proof (mul_table_spec a n Ha Hn) as Ht.
  assert (Hr : repr (val a) (times_x4 acc) (N.shiftl (N.shiftr (val b) (j + i + 4)) 4)).
  { split; auto. rewrite clmul_shiftl_r. eapply cong_trans; [exact H2|]. apply cong_shiftl; auto. }
  pose proof (repr_add _ _ _ _ _ Hr Ht) as R.
  unfold n in R. rewrite nib_step in R. exact R.
Qed.

Lemma mul_word_spec : forall a b j m acc, wf a -> wf b ->
  (j = 0 /\ m = w0 b \/ j = 64 /\ m = w1 b \/ j = 128 /\ m = w2 b) ->
  repr (val a) acc (N.shiftr (val b) (j + 64)) ->
  repr (val a) (mul_word (mul_table a) m acc) (N.shiftr (val b) j).
Proof.
  intros a b j m acc Ha Hb Hj Hr. unfold mul_word, nibble_shifts.
  set (t := mul_table a). cbn [fold_left]. unfold t. clear t.
  assert (Hstep : forall i i' acc, i' = i + 4 -> i <= 60 ->
    repr (val a) acc (N.shiftr (val b) (j + i')) ->
    repr (val a) (mul_step (mul_table a) m acc i) (N.shiftr (val b) (j + i))).
  { intros i i' acc' -> Hi H. apply mul_step_spec; auto.
    replace (j + i + 4) with (j + (i + 4)) by lia. exact H. }
  replace (N.shiftr (val b) j) with (N.shiftr (val b) (j + 0)) by (f_equal; lia).
  apply (Hstep 0 4); [reflexivity|lia|].
  apply (Hstep 4 8); [reflexivity|lia|].
  apply (Hstep 8 12); [reflexivity|lia|].
  apply (Hstep 12 16); [reflexivity|lia|].
  apply (Hstep 16 20); [reflexivity|lia|].
  apply (Hstep 20 24); [reflexivity|lia|].
  apply (Hstep 24 28); [reflexivity|lia|].
  apply (Hstep 28 32); [reflexivity|lia|].
  apply (Hstep 32 36); [reflexivity|lia|].
  apply (Hstep 36 40); [reflexivity|lia|].
  apply (Hstep 40 44); [reflexivity|lia|].
  apply (Hstep 44 48); [reflexivity|lia|].
  apply (Hstep 48 52); [reflexivity|lia|].
  apply (Hstep 52 56); [reflexivity|lia|].
  apply (Hstep 56 60); [reflexivity|lia|].
  apply (Hstep 60 64); [reflexivity|lia|].
  exact Hr.
Qed.

Lemma shiftr_big : forall v n, v < 2 ^ n -> N.shiftr v n = 0.
Proof. intros. rewrite N.shiftr_div_pow2. apply N.div_small. auto. Qed.

Theorem gf_mul_spec : forall a b, wf a -> wf b ->
  wf (gf_mul a b) /\ cong PP (val (gf_mul a b)) (clmul (val a) (val b)).
Proof.
  intros a b Ha Hb. unfold gf_mul.
  change (repr (val a)
    (mul_word (mul_table a) (w0 b) (mul_word (mul_table a) (w1 b)
       (mul_word (mul_table a) (w2 b) gf_zero))) (val b)).
  rewrite <- (N.shiftr_0_r (val b)).
  apply mul_word_spec; auto.
  apply (mul_word_spec a b 64); auto.
  apply (mul_word_spec a b 128); auto.
  change (128 + 64) with 192. rewrite shiftr_big by (apply val_lt; auto).
  split; [apply wf_zero|]. rewrite clmul_0_r. apply cong_refl.
Qed.

(** *** mul_by_i8 *)
Lemma lxor_mul01 : forall a t, t < 2 -> a * t = if N.eqb t 0 then 0 else a.
Proof. intros a t Ht. destruct (N.eqb_spec t 0); [subst; lia|]. replace t with 1 by lia. lia. Qed.

Lemma mul_i8_step_spec : forall a b i acc, wf a -> i <= 7 ->
  repr (val a) acc (N.shiftr b (i + 1)) ->
  repr (val a) (mul_i8_step a b acc i) (N.shiftr b i).
Proof.
  intros a b i acc Ha Hi [Hw Hc].
  set (t := N.land (lrs b i) 1).
  assert (Ht : t < 2).
  { unfold t. change 1 with (N.ones 1). rewrite N.land_ones. apply N.mod_lt. discriminate. }
  assert (Hh : lrs (w2 acc) 63 < 2).
  { change 2 with (2 ^ 1). apply lrs_lt. destruct Hw as (_ & _ & H2).
    eapply N.lt_le_trans; [exact H2|]. apply N.pow_le_mono_r; lia. }
  assert (Heq : mul_i8_step a b acc i =
    gf_add (times_x acc) (if N.eqb t 0 then gf_zero else a)).
  { unfold mul_i8_step, times_x, gf_add. cbn [w0 w1 w2]. fold t.
    rewrite irred_muls_spec by lia.
    assert (Hp : irred_pentanomial * lrs (w2 acc) 63 = clmul 135 (lrs (w2 acc) 63)).
    { assert (Hc2 : lrs (w2 acc) 63 = 0 \/ lrs (w2 acc) 63 = 1) by lia.
      destruct Hc2 as [-> | ->]; reflexivity. }
    rewrite Hp, !(lxor_mul01 _ t Ht).
    destruct (N.eqb t 0); cbn [w0 w1 w2 gf_zero].
    - rewrite N.lxor_0_l, !N.lxor_0_r. reflexivity.
    - f_equal. rewrite N.lxor_assoc. f_equal. apply N.lxor_comm. }
  rewrite Heq.
  destruct (times_x_spec acc Hw) as [H1 H2].
  assert (Hr : repr (val a) (times_x acc) (N.shiftl (N.shiftr b (i + 1)) 1)).
  { split; auto. rewrite clmul_shiftl_r. eapply cong_trans; [exact H2|]. apply cong_shiftl; auto. }
  assert (Hr2 : repr (val a) (if N.eqb t 0 then gf_zero else a) t).
  { destruct (N.eqb_spec t 0) as [->|Hne].
    - split; [apply wf_zero|apply cong_refl].
    - replace t with 1 by lia. split; auto. rewrite clmul_1_r. apply cong_refl. }
  pose proof (repr_add _ _ _ _ _ Hr Hr2) as R.
  replace (N.shiftr b i) with (N.lxor (N.shiftl (N.shiftr b (i + 1)) 1) t); auto.
  unfold t, lrs. apply N.bits_inj. intros n. rewrite N.lxor_spec, N.land_spec.
  change 1 with (N.ones 1) at 3. rewrite !N.shiftr_spec'.
  destruct (N.lt_ge_cases n 1).
  - rewrite N.shiftl_spec_low, N.ones_spec_low by auto. rewrite ?andb_true_r, ?xorb_false_l. reflexivity.
  - rewrite N.shiftl_spec_high', N.ones_spec_high by auto.
    rewrite andb_false_r, xorb_false_r, N.shiftr_spec'. f_equal. lia.
Qed.

Theorem gf_mul_by_i8_spec : forall a b, wf a -> b < 256 ->
  wf (gf_mul_by_i8 a b) /\ cong PP (val (gf_mul_by_i8 a b)) (clmul (val a) b).
Proof.
  intros a b Ha Hb. unfold gf_mul_by_i8. cbn [fold_left].
  match goal with |- wf ?g /\ _ => change (repr (val a) g b) end.
  rewrite <- (N.shiftr_0_r b) at 9.
  apply mul_i8_step_spec; [auto|lia|].
  apply (mul_i8_step_spec a b 1); [auto|lia|].
  apply (mul_i8_step_spec a b 2); [auto|lia|].
  apply (mul_i8_step_spec a b 3); [auto|lia|].
  apply (mul_i8_step_spec a b 4); [auto|lia|].
  apply (mul_i8_step_spec a b 5); [auto|lia|].
  apply (mul_i8_step_spec a b 6); [auto|lia|].
  apply (mul_i8_step_spec a b 7); [auto|lia|].
  change (7 + 1) with 8. rewrite shiftr_big by exact Hb.
  split; [apply wf_zero|]. rewrite clmul_0_r. apply cong_refl.
Qed.

Lemma wf_mul : forall a b, wf a -> wf b -> wf (gf_mul a b).
Proof. intros a b Ha Hb. apply gf_mul_spec; auto. Qed.
Lemma cong_mul : forall a b, wf a -> wf b -> cong PP (val (gf_mul a b)) (clmul (val a) (val b)).
Proof. intros a b Ha Hb. apply gf_mul_spec; auto. Qed.

(** *** Ring laws on elements *)
Lemma gf_add_comm : forall a b, gf_add a b = gf_add b a.
Proof. intros. unfold gf_add. f_equal; apply N.lxor_comm. Qed.
Lemma gf_add_assoc : forall a b c, gf_add a (gf_add b c) = gf_add (gf_add a b) c.
Proof. intros. unfold gf_add. cbn [w0 w1 w2]. f_equal; symmetry; apply N.lxor_assoc. Qed.
Lemma gf_add_0_l : forall a, gf_add gf_zero a = a.
Proof. intros. unfold gf_add, gf_zero. cbn [w0 w1 w2]. rewrite !N.lxor_0_l. apply gf_eta. Qed.
Lemma gf_add_self : forall a, gf_add a a = gf_zero.
Proof. intros. unfold gf_add. rewrite !N.lxor_nilpotent. reflexivity. Qed.

Lemma gf_mul_comm : forall a b, wf a -> wf b -> gf_mul a b = gf_mul b a.
Proof.
  intros a b Ha Hb. apply gf_ext; auto using wf_mul.
  eapply cong_trans; [apply cong_mul; auto|]. rewrite clmul_comm. apply cong_sym, cong_mul; auto.
Qed.
Lemma gf_mul_assoc : forall a b c, wf a -> wf b -> wf c ->
  gf_mul a (gf_mul b c) = gf_mul (gf_mul a b) c.
Proof.
  intros a b c Ha Hb Hc. apply gf_ext; auto using wf_mul.
  eapply cong_trans; [apply cong_mul; auto using wf_mul|].
  eapply cong_trans; [apply cong_clmul; [apply cong_refl|apply cong_mul; auto]|].
  rewrite clmul_assoc. apply cong_sym.
  eapply cong_trans; [apply cong_mul; auto using wf_mul|].
  apply cong_clmul; [apply cong_mul; auto|apply cong_refl].
Qed.
Lemma gf_mul_1_l : forall a, wf a -> gf_mul gf_one a = a.
Proof.
  intros a Ha. apply gf_ext; auto using wf_mul, wf_one.
  eapply cong_trans; [apply cong_mul; auto using wf_one|].
  change (val gf_one) with 1. rewrite clmul_1_l. apply cong_refl.
Qed.
Lemma gf_mul_0_l : forall a, wf a -> gf_mul gf_zero a = gf_zero.
Proof.
  intros a Ha. apply gf_ext; auto using wf_mul, wf_zero.
  eapply cong_trans; [apply cong_mul; auto using wf_zero|].
  change (val gf_zero) with 0. rewrite clmul_0_l. apply cong_refl.
Qed.
Lemma gf_distr : forall a b c, wf a -> wf b -> wf c ->
  gf_mul (gf_add a b) c = gf_add (gf_mul a c) (gf_mul b c).
Proof.
  intros a b c Ha Hb Hc. apply gf_ext; auto using wf_mul, wf_add.
  eapply cong_trans; [apply cong_mul; auto using wf_add|].
  rewrite !val_add, clmul_lxor_l by auto using wf_mul.
  apply cong_lxor; apply cong_sym, cong_mul; auto.
Qed.
