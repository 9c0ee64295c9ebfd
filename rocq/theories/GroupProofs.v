(** Laws of exponentiation in a group satisfying [group_ok]. *)
From Verif Require Import Base GroupModel.
From Coq Require Import Znumtheory.

Section Laws.
Context {G : group} (HG : group_ok G).
Implicit Types x y z : G.

Lemma g_id_r : forall x, gop x gid = x.
Proof. intros. rewrite (g_comm _ HG). apply (g_id _ HG). Qed.
Lemma g_inv_r : forall x, gop x (ginv x) = gid.
Proof. intros. rewrite (g_comm _ HG). apply (g_inv _ HG). Qed.

Lemma g_cancel_l : forall x y z, gop x y = gop x z -> y = z.
Proof.
  intros x y z H. apply (f_equal (gop (ginv x))) in H.
  rewrite !(g_assoc _ HG), !(g_inv _ HG), !(g_id _ HG) in H. exact H.
Qed.
Lemma g_cancel_r : forall x y z, gop y x = gop z x -> y = z.
Proof. intros x y z. rewrite !(g_comm _ HG _ x). apply g_cancel_l. Qed.

Lemma g_inv_uniq : forall x y, gop x y = gid -> y = ginv x.
Proof. intros x y H. apply (g_cancel_l x). rewrite H. symmetry. apply g_inv_r. Qed.

Lemma ginv_id : ginv (@gid G) = gid.
Proof. symmetry. apply g_inv_uniq. apply (g_id _ HG). Qed.
Lemma ginv_inv : forall x, ginv (ginv x) = x.
Proof. intros. symmetry. apply g_inv_uniq. apply (g_inv _ HG). Qed.
Lemma ginv_op : forall x y, ginv (gop x y) = gop (ginv x) (ginv y).
Proof.
  intros. symmetry. apply g_inv_uniq.
  rewrite (g_comm _ HG (ginv x)), (g_assoc _ HG), <- (g_assoc _ HG x), g_inv_r, g_id_r.
  apply g_inv_r.
Qed.

Lemma gpow_0 : forall x, gpow x 0 = gid.
Proof. reflexivity. Qed.
Lemma gpow_1 : forall x, gpow x 1 = x.
Proof. reflexivity. Qed.

Lemma gpow_neg : forall x n, gpow x (- n) = ginv (gpow x n).
Proof.
  intros x [|p|p]; simpl; auto.
  - symmetry. apply ginv_id.
  - symmetry. apply ginv_inv.
Qed.

Lemma gpow_succ_pos : forall x p, gpow x (Zpos (Pos.succ p)) = gop x (gpow x (Zpos p)).
Proof. intros. simpl. apply Pos.iter_op_succ. apply (g_assoc _ HG). Qed.

Lemma gpow_succ : forall x n, gpow x (Z.succ n) = gop x (gpow x n).
Proof.
  intros x n. destruct n as [|p|p].
  - simpl. symmetry. apply g_id_r.
  - rewrite <- gpow_succ_pos. f_equal. lia.
  - destruct (Pos.eq_dec p 1) as [->|Hp].
    + simpl. symmetry. apply g_inv_r.
    + destruct (Pos.succ_pred p Hp) as [].
      replace (Z.succ (Z.neg (Pos.succ (Pos.pred p)))) with (- Z.pos (Pos.pred p)) by lia.
      rewrite gpow_neg.
      change (Z.neg (Pos.succ (Pos.pred p))) with (- Z.pos (Pos.succ (Pos.pred p))).
      rewrite gpow_neg, gpow_succ_pos, ginv_op, (g_assoc _ HG), g_inv_r, (g_id _ HG).
      reflexivity.
Qed.

Lemma gpow_pred : forall x n, gpow x (Z.pred n) = gop (ginv x) (gpow x n).
Proof.
  intros. rewrite <- (Z.succ_pred n) at 2. rewrite gpow_succ, (g_assoc _ HG), (g_inv _ HG).
  symmetry. apply (g_id _ HG).
Qed.

Lemma gpow_add : forall x m n, gpow x (m + n) = gop (gpow x m) (gpow x n).
Proof.
  intros x m n. revert m.
  apply Z.bi_induction.
  - intros a b Hab. unfold Z.eq in Hab. subst. tauto.
  - simpl Z.add. rewrite gpow_0, (g_id _ HG). reflexivity.
  - intros m. split; intros IH.
    + rewrite Z.add_succ_l, !gpow_succ, IH, (g_assoc _ HG). reflexivity.
    + rewrite Z.add_succ_l, !gpow_succ, <- (g_assoc _ HG) in IH.
      apply g_cancel_l in IH. exact IH.
Qed.

Lemma gpow_op : forall x y n, gpow (gop x y) n = gop (gpow x n) (gpow y n).
Proof.
  intros x y. apply Z.bi_induction.
  - intros a b Hab. unfold Z.eq in Hab. subst. tauto.
  - rewrite !gpow_0, (g_id _ HG). reflexivity.
  - intros n.
    assert (E : gop (gpow x (Z.succ n)) (gpow y (Z.succ n))
                = gop (gop x y) (gop (gpow x n) (gpow y n))).
    { rewrite !gpow_succ, !(g_assoc _ HG). f_equal.
      rewrite <- !(g_assoc _ HG). f_equal. apply (g_comm _ HG). }
    split; intros IH.
    + rewrite gpow_succ, IH. symmetry. exact E.
    + rewrite E, gpow_succ in IH. apply g_cancel_l in IH. exact IH.
Qed.

Lemma gpow_id : forall n, gpow (@gid G) n = gid.
Proof.
  apply Z.bi_induction.
  - intros a b Hab. unfold Z.eq in Hab. subst. tauto.
  - reflexivity.
  - intros n. rewrite gpow_succ, (g_id _ HG). reflexivity.
Qed.

Lemma gpow_inv : forall x n, gpow (ginv x) n = ginv (gpow x n).
Proof.
  intros. apply g_inv_uniq. rewrite <- gpow_op, g_inv_r. apply gpow_id.
Qed.

Lemma gpow_mul : forall x m n, gpow x (m * n) = gpow (gpow x m) n.
Proof.
  intros x m. apply Z.bi_induction.
  - intros a b Hab. unfold Z.eq in Hab. subst. tauto.
  - rewrite Z.mul_0_r. reflexivity.
  - intros n. rewrite Z.mul_succ_r, gpow_add, gpow_succ, (g_comm _ HG).
    split; intros IH; [rewrite IH; reflexivity|].
    apply g_cancel_l in IH. exact IH.
Qed.

Lemma gpow_mod : forall x n, gpow x (n mod gord G) = gpow x n.
Proof.
  intros x n. pose proof (prime_ge_2 _ (g_prime _ HG)) as Hq.
  rewrite (Z.div_mod n (gord G)) at 2 by lia.
  rewrite gpow_add, gpow_mul, (g_ord _ HG), gpow_id, (g_id _ HG). reflexivity.
Qed.

Lemma gpow_sub : forall x m n, gpow x (m - n) = gop (gpow x m) (ginv (gpow x n)).
Proof. intros. unfold Z.sub. rewrite gpow_add, gpow_neg. reflexivity. Qed.

Lemma is_identity_spec : forall x, is_identity x = true <-> x = gid.
Proof. intros. apply (g_eqb _ HG). Qed.

Lemma exponentiate_pow : forall x n, exponentiate x n = gpow x n.
Proof.
  intros. unfold exponentiate. destruct (is_identity x) eqn:E; simpl; auto.
  apply is_identity_spec in E. subst. symmetry. apply gpow_id.
Qed.

Lemma geqb_refl : forall x, geqb x x = true.
Proof. intros. apply (g_eqb _ HG). reflexivity. Qed.

(** The 33-byte encoding round-trips. *)
Lemma ec_roundtrip : forall x, roundtrip ec_write ec_read x.
Proof.
  intros x. unfold roundtrip, ec_write. destruct (is_identity x) eqn:E.
  - apply is_identity_spec in E. subst. exists (repeat 0 33). split; [reflexivity|].
    intros rest. unfold ec_read. rewrite read_exact_app by reflexivity. reflexivity.
  - assert (Hx : x <> gid).
    { intros H. apply is_identity_spec in H. congruence. }
    exists (genc x). split; [reflexivity|]. intros rest. unfold ec_read.
    rewrite read_exact_app by (apply (g_enc_len _ HG); auto). cbn [bind].
    pose proof (g_enc_hd _ HG x Hx).
    destruct (hd 0 (genc x) =? 0) eqn:E0; [lia|]. simpl negb. cbv iota.
    rewrite (g_dec_enc _ HG) by auto. reflexivity.
Qed.

Definition ec_bytes x : bytes := if is_identity x then repeat 0 33 else genc x.
Lemma ec_write_ok : forall x, ec_write x = Ok (ec_bytes x).
Proof. intros. unfold ec_write, ec_bytes. destruct (is_identity x); auto. Qed.
Lemma ec_bytes_len : forall x, length (ec_bytes x) = 33%nat.
Proof.
  intros. unfold ec_bytes. destruct (is_identity x) eqn:E; auto.
  apply (g_enc_len _ HG). intros H. apply is_identity_spec in H. congruence.
Qed.
Lemma ec_bytes_ok : forall x, bytes_ok (ec_bytes x).
Proof.
  intros. unfold ec_bytes. destruct (is_identity x) eqn:E.
  - unfold bytes_ok. apply Forall_forall. intros b Hb. apply repeat_spec in Hb. subst. split; lia.
  - apply (g_enc_ok _ HG). intros H. apply is_identity_spec in H. congruence.
Qed.
Lemma ec_read_bytes : forall x rest, ec_read (ec_bytes x ++ rest) = Ok (x, rest).
Proof.
  intros. destruct (ec_roundtrip x) as [bs [Hw Hr]]. rewrite ec_write_ok in Hw.
  injection Hw as ->. apply Hr.
Qed.
Lemma ec_bytes_inj : forall x y, ec_bytes x = ec_bytes y -> x = y.
Proof.
  intros x y H. pose proof (ec_read_bytes x []) as H1. rewrite H, ec_read_bytes in H1.
  congruence.
Qed.
End Laws.
