(** Polynomials over GF(2), represented by the natural number whose bits are the
    coefficients: addition is [N.lxor], multiplication is the schoolbook
    (carry-less) product [clmul].  This is the specification side of GF(2^192). *)
From Coq Require Import NArith Lia Bool.
Open Scope N_scope.

Fixpoint pclmul (a : N) (b : positive) : N :=
  match b with
  | xH => a
  | xO b' => N.double (pclmul a b')
  | xI b' => N.lxor a (N.double (pclmul a b'))
  end.
Definition clmul (a b : N) : N :=
  match b with N0 => 0 | Npos p => pclmul a p end.

Lemma clmul_0_r : forall a, clmul a 0 = 0.
Proof. reflexivity. Qed.
Lemma clmul_1_r : forall a, clmul a 1 = a.
Proof. reflexivity. Qed.
Lemma clmul_double_r : forall a b, clmul a (N.double b) = N.double (clmul a b).
Proof. intros a [|p]; reflexivity. Qed.
Lemma clmul_succ_double_r : forall a b,
  clmul a (N.succ_double b) = N.lxor a (N.double (clmul a b)).
Proof. intros a [|p]; simpl; auto. rewrite N.lxor_0_r. reflexivity. Qed.

Lemma double_lxor : forall a b, N.double (N.lxor a b) = N.lxor (N.double a) (N.double b).
Proof. intros [|p] [|q]; simpl; auto. Qed.
Lemma succ_double_lxor : forall b, N.succ_double b = N.lxor 1 (N.double b).
Proof. intros [|p]; reflexivity. Qed.

Lemma N_bin_ind : forall P : N -> Prop,
  P 0 -> (forall n, P n -> P (N.double n)) -> (forall n, P n -> P (N.succ_double n)) ->
  forall n, P n.
Proof. intros P H0 H2 H21 n. apply N.binary_ind; auto. Qed.

(** lxor normalisation *)
Lemma lxor_acac : forall a b c d,
  N.lxor (N.lxor a b) (N.lxor c d) = N.lxor (N.lxor a c) (N.lxor b d).
Proof.
  intros. rewrite !N.lxor_assoc. f_equal. rewrite <- !N.lxor_assoc. f_equal. apply N.lxor_comm.
Qed.
Lemma lxor_cancel : forall a b, N.lxor a (N.lxor a b) = b.
Proof. intros. rewrite <- N.lxor_assoc, N.lxor_nilpotent, N.lxor_0_l. reflexivity. Qed.

Lemma clmul_lxor_l : forall b a1 a2, clmul (N.lxor a1 a2) b = N.lxor (clmul a1 b) (clmul a2 b).
Proof.
  induction b using N_bin_ind; intros a1 a2.
  - reflexivity.
  - rewrite !clmul_double_r, IHb, double_lxor. reflexivity.
  - rewrite !clmul_succ_double_r, IHb, double_lxor. apply lxor_acac.
Qed.

Lemma lxor_double_succ : forall a b,
  N.lxor (N.double a) (N.succ_double b) = N.succ_double (N.lxor a b).
Proof. intros [|p] [|q]; simpl; auto. Qed.
Lemma lxor_succ_double : forall a b,
  N.lxor (N.succ_double a) (N.double b) = N.succ_double (N.lxor a b).
Proof. intros [|p] [|q]; simpl; auto. Qed.
Lemma lxor_succ_succ : forall a b,
  N.lxor (N.succ_double a) (N.succ_double b) = N.double (N.lxor a b).
Proof. intros [|p] [|q]; simpl; auto. Qed.

Lemma clmul_lxor_r : forall a b c, clmul a (N.lxor b c) = N.lxor (clmul a b) (clmul a c).
Proof.
  intros a b. induction b using N_bin_ind; intros c.
  - rewrite !N.lxor_0_l. reflexivity.
  - destruct c using N_bin_ind.
    + rewrite !N.lxor_0_r. reflexivity.
    + rewrite <- double_lxor, !clmul_double_r, IHb, double_lxor. reflexivity.
    + rewrite lxor_double_succ, clmul_double_r, !clmul_succ_double_r, IHb, double_lxor.
      rewrite <- !N.lxor_assoc. f_equal. apply N.lxor_comm.
  - destruct c using N_bin_ind.
    + rewrite !N.lxor_0_r. reflexivity.
    + rewrite lxor_succ_double, clmul_double_r, !clmul_succ_double_r, IHb, double_lxor.
      apply eq_sym, N.lxor_assoc.
    + rewrite lxor_succ_succ, clmul_double_r, !clmul_succ_double_r, IHb, double_lxor.
      rewrite lxor_acac, N.lxor_nilpotent, N.lxor_0_l. reflexivity.
Qed.

Lemma clmul_0_l : forall b, clmul 0 b = 0.
Proof.
  induction b using N_bin_ind; auto.
  - rewrite clmul_double_r, IHb. reflexivity.
  - rewrite clmul_succ_double_r, IHb. reflexivity.
Qed.
Lemma clmul_1_l : forall b, clmul 1 b = b.
Proof.
  induction b using N_bin_ind; auto.
  - rewrite clmul_double_r, IHb. reflexivity.
  - rewrite clmul_succ_double_r, IHb. symmetry. apply succ_double_lxor.
Qed.
Lemma clmul_double_l : forall b a, clmul (N.double a) b = N.double (clmul a b).
Proof.
  induction b using N_bin_ind; intros a; auto.
  - rewrite !clmul_double_r, IHb. reflexivity.
  - rewrite !clmul_succ_double_r, IHb, double_lxor. reflexivity.
Qed.

Theorem clmul_comm : forall a b, clmul a b = clmul b a.
Proof.
  intros a b. revert a. induction b using N_bin_ind; intros a.
  - rewrite clmul_0_l. reflexivity.
  - rewrite clmul_double_r, clmul_double_l, IHb. reflexivity.
  - rewrite clmul_succ_double_r, succ_double_lxor, clmul_lxor_l, clmul_1_l, clmul_double_l, IHb.
    reflexivity.
Qed.

Theorem clmul_assoc : forall a b c, clmul a (clmul b c) = clmul (clmul a b) c.
Proof.
  intros a b c. induction c using N_bin_ind.
  - reflexivity.
  - rewrite !clmul_double_r, IHc. reflexivity.
  - rewrite !clmul_succ_double_r, clmul_lxor_r, clmul_double_r, IHc. reflexivity.
Qed.

Lemma double_shiftl : forall a, N.double a = N.shiftl a 1.
Proof. intros. rewrite N.shiftl_mul_pow2, N.double_spec. change (2 ^ 1) with 2. lia. Qed.

Lemma shiftl_double : forall n a, N.shiftl (N.double a) n = N.double (N.shiftl a n).
Proof. intros. rewrite !double_shiftl, !N.shiftl_shiftl. f_equal. lia. Qed.

Lemma shiftl_lxor : forall n a b, N.shiftl (N.lxor a b) n = N.lxor (N.shiftl a n) (N.shiftl b n).
Proof. intros. apply N.shiftl_lxor. Qed.

Lemma clmul_shiftl_r : forall n a b, clmul a (N.shiftl b n) = N.shiftl (clmul a b) n.
Proof.
  intros n a. induction n using N.peano_ind; intros b.
  - rewrite !N.shiftl_0_r. reflexivity.
  - replace (N.succ n) with (n + 1) by lia.
    rewrite <- !N.shiftl_shiftl, <- !double_shiftl, clmul_double_r, IHn. reflexivity.
Qed.

Lemma clmul_shiftl_l : forall n a b, clmul (N.shiftl a n) b = N.shiftl (clmul a b) n.
Proof. intros. rewrite clmul_comm, clmul_shiftl_r, clmul_comm. reflexivity. Qed.

Lemma clmul_pow2_r : forall n a, clmul a (2 ^ n) = N.shiftl a n.
Proof.
  intros. replace (2 ^ n) with (N.shiftl 1 n).
  - rewrite clmul_shiftl_r, clmul_1_r. reflexivity.
  - rewrite N.shiftl_1_l. reflexivity.
Qed.

(** Degree: the product of a polynomial with at least one bit at position [n] or
    above with a polynomial whose top bit is [n] has a bit at position [n] or above. *)
Lemma lt_pow2_bits : forall a n, a < 2 ^ n <-> (forall i, n <= i -> N.testbit a i = false).
Proof.
  intros a n. split.
  - intros H i Hi. destruct (N.eq_dec a 0) as [->|Hne]; [apply N.bits_0|].
    apply N.bits_above_log2. apply N.log2_lt_pow2; [lia|].
    eapply N.lt_le_trans; [exact H|]. apply N.pow_le_mono_r; lia.
  - intros H. destruct (N.eq_dec a 0) as [->|Hne].
    + apply N.neq_0_lt_0. apply N.pow_nonzero. lia.
    + apply N.log2_lt_pow2; [lia|]. destruct (N.lt_ge_cases (N.log2 a) n) as [|Hge]; auto.
      specialize (H _ Hge). rewrite N.bit_log2 in H by auto. discriminate.
Qed.

Lemma lxor_lt_pow2 : forall a b n, a < 2 ^ n -> b < 2 ^ n -> N.lxor a b < 2 ^ n.
Proof.
  intros a b n Ha Hb. rewrite lt_pow2_bits in *. intros i Hi.
  rewrite N.lxor_spec, Ha, Hb by auto. reflexivity.
Qed.

Lemma double_lt_pow2 : forall a n, a < 2 ^ n -> N.double a < 2 ^ (N.succ n).
Proof. intros a n H. rewrite N.double_spec, N.pow_succ_r'. lia. Qed.

(** Leading coefficient of a product with a polynomial of exact degree n. *)
Lemma clmul_top : forall p n q, N.testbit p n = true -> p < 2 ^ (N.succ n) -> q <> 0 ->
  N.testbit (clmul p q) (n + N.log2 q) = true /\ clmul p q < 2 ^ (N.succ (n + N.log2 q)).
Proof.
  intros p n q Hp Hlt. induction q using N_bin_ind; intros Hq.
  - congruence.
  - assert (Hq0 : q <> 0) by (intros ->; apply Hq; reflexivity).
    destruct (IHq Hq0) as [IH1 IH2].
    rewrite clmul_double_r. replace (N.log2 (N.double q)) with (N.succ (N.log2 q)).
    2: { rewrite N.double_spec, N.log2_double; lia. }
    rewrite N.add_succ_r. split.
    + rewrite N.double_spec, N.double_bits_succ. exact IH1.
    + apply double_lt_pow2. exact IH2.
  - rewrite clmul_succ_double_r.
    destruct (N.eq_dec q 0) as [->|Hq0].
    + rewrite clmul_0_r. simpl N.double. rewrite N.lxor_0_r.
      change (N.log2 (N.succ_double 0)) with 0. rewrite N.add_0_r. auto.
    + destruct (IHq Hq0) as [IH1 IH2].
      replace (N.log2 (N.succ_double q)) with (N.succ (N.log2 q)).
      2: { rewrite N.succ_double_spec, N.log2_succ_double; lia. }
      rewrite N.add_succ_r.
      assert (Hp2 : p < 2 ^ (N.succ (n + N.log2 q))).
      { eapply N.lt_le_trans; [exact Hlt|]. apply N.pow_le_mono_r; lia. }
      split.
      * rewrite N.lxor_spec, N.double_spec, N.double_bits_succ, IH1.
        rewrite lt_pow2_bits in Hp2. rewrite Hp2 by lia. reflexivity.
      * apply lxor_lt_pow2.
        -- eapply N.lt_le_trans; [exact Hp2|]. apply N.pow_le_mono_r; lia.
        -- apply double_lt_pow2. exact IH2.
Qed.

Lemma clmul_integral : forall p q, p <> 0 -> q <> 0 -> clmul p q <> 0.
Proof.
  intros p q Hp Hq H.
  destruct (clmul_top p (N.log2 p) q) as [Ht _]; auto.
  - apply N.bit_log2; auto.
  - apply N.log2_lt_cancel. rewrite N.log2_pow2; lia.
  - rewrite H, N.bits_0 in Ht. discriminate.
Qed.

(** ** Congruence modulo a polynomial *)
Definition cong (p a b : N) : Prop := exists q, N.lxor a b = clmul p q.

Lemma cong_refl : forall p a, cong p a a.
Proof. intros. exists 0. rewrite N.lxor_nilpotent. reflexivity. Qed.
Lemma cong_sym : forall p a b, cong p a b -> cong p b a.
Proof. intros p a b [q H]. exists q. rewrite N.lxor_comm. exact H. Qed.
Lemma cong_trans : forall p a b c, cong p a b -> cong p b c -> cong p a c.
Proof.
  intros p a b c [q H] [r H']. exists (N.lxor q r). rewrite clmul_lxor_r, <- H, <- H'.
  rewrite N.lxor_assoc, lxor_cancel. reflexivity.
Qed.
Lemma cong_lxor : forall p a a' b b', cong p a a' -> cong p b b' ->
  cong p (N.lxor a b) (N.lxor a' b').
Proof.
  intros p a a' b b' [q H] [r H']. exists (N.lxor q r).
  rewrite clmul_lxor_r, <- H, <- H'. apply lxor_acac.
Qed.
Lemma cong_clmul_l : forall p a a' b, cong p a a' -> cong p (clmul a b) (clmul a' b).
Proof.
  intros p a a' b [q H]. exists (clmul q b).
  rewrite <- clmul_lxor_l, H, clmul_assoc. reflexivity.
Qed.
Lemma cong_clmul : forall p a a' b b', cong p a a' -> cong p b b' ->
  cong p (clmul a b) (clmul a' b').
Proof.
  intros p a a' b b' H H'. apply cong_trans with (clmul a' b).
  - apply cong_clmul_l; auto.
  - rewrite !(clmul_comm a'). apply cong_clmul_l; auto.
Qed.
Lemma cong_shiftl : forall p n a a', cong p a a' -> cong p (N.shiftl a n) (N.shiftl a' n).
Proof.
  intros. rewrite <- !clmul_pow2_r. apply cong_clmul; auto. apply cong_refl.
Qed.

(** Residues below the degree are unique. *)
Lemma cong_unique : forall p n a b, N.testbit p n = true -> p < 2 ^ (N.succ n) ->
  a < 2 ^ n -> b < 2 ^ n -> cong p a b -> a = b.
Proof.
  intros p n a b Hp Hlt Ha Hb [q H].
  destruct (N.eq_dec q 0) as [->|Hq].
  - rewrite clmul_0_r in H. apply N.lxor_eq. exact H.
  - exfalso. destruct (clmul_top p n q Hp Hlt Hq) as [Ht _].
    assert (Hl : clmul p q < 2 ^ n) by (rewrite <- H; apply lxor_lt_pow2; auto).
    rewrite lt_pow2_bits in Hl. rewrite Hl in Ht by lia. discriminate.
Qed.
