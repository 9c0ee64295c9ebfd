(** Proofs about challenges, the proof encoding and the verifier. *)
From Verif Require Import Base VlqModel VlqProofs GfModel GfProofs GfBytesProofs PolyProofs GfProps.
From Verif Require Import GroupModel GroupProofs SigmaModel SigmaSpec.
From Coq Require Import Znumtheory.
Local Open Scope Z_scope.
#[local] Opaque gf_mul gf_add evaluate gf_to_bytes gf_from_bytes24.

(** ** Lists *)
Lemma all2_Forall2 : forall A B (P : A -> B -> Prop) l1 l2, all2 P l1 l2 <-> Forall2 P l1 l2.
Proof.
  induction l1 as [|x l1 IH]; intros [|y l2]; simpl; split; intros H; auto; try tauto;
    try solve [inversion H].
  - destruct H. constructor; auto. apply IH. auto.
  - inversion H; subst. split; auto. apply IH. auto.
Qed.

Lemma Forall2_length' : forall A B (P : A -> B -> Prop) l1 l2, Forall2 P l1 l2 -> length l1 = length l2.
Proof. induction 1; simpl; auto. Qed.

Lemma fold_and_Forall : forall A (P : A -> Prop) l, fold_right (fun x Q => P x /\ Q) True l <-> Forall P l.
Proof.
  induction l as [|x l IH]; simpl; split; intros H; auto.
  - destruct H. constructor; auto. apply IH; auto.
  - inversion H; subst. split; auto. apply IH; auto.
Qed.

Lemma bytes_ok_app : forall a b, bytes_ok (a ++ b) <-> bytes_ok a /\ bytes_ok b.
Proof. intros. apply Forall_app. Qed.

Lemma list_eqb_spec : forall A (f : A -> A -> bool) l1 l2,
  (forall x y, In x l1 -> (f x y = true <-> x = y)) -> (list_eqb f l1 l2 = true <-> l1 = l2).
Proof.
  induction l1 as [|x l1 IH]; intros [|y l2] Hf; simpl; split; intros H; auto; try discriminate.
  - apply andb_true_iff in H. destruct H as [H1 H2]. apply Hf in H1; [|left; auto].
    apply IH in H2; [|intros; apply Hf; right; auto]. congruence.
  - injection H as -> ->. apply andb_true_iff. split.
    + apply Hf; [left|]; auto.
    + apply IH; auto. intros; apply Hf; right; auto.
Qed.

Lemma bytes_eqb_spec : forall a b, bytes_eqb a b = true <-> a = b.
Proof. intros. apply list_eqb_spec. intros. apply Z.eqb_eq. Qed.

(** ** Challenges *)
Lemma lxor_byte : forall a b, byte a -> byte b -> byte (Z.lxor a b).
Proof.
  unfold byte. intros a b Ha Hb.
  assert (H0 : 0 <= Z.lxor a b) by (apply Z.lxor_nonneg; lia).
  split; [exact H0|].
  destruct (Z.eq_dec (Z.lxor a b) 0) as [->|Hn]; [lia|].
  assert (L : forall x, 0 <= x < 256 -> Z.log2 x < 8).
  { intros x Hx. destruct (Z.eq_dec x 0) as [->|]; [simpl; lia|].
    apply Z.log2_lt_pow2; change (2^8) with 256; lia. }
  assert (Z.log2 (Z.lxor a b) < 8).
  { apply Z.le_lt_trans with (Z.max (Z.log2 a) (Z.log2 b)); [apply Z.log2_lxor; lia|].
    apply Z.max_lub_lt; apply L; lia. }
  apply Z.log2_lt_pow2 in H; [|lia]. exact H.
Qed.

Lemma chal_xor_ok : forall a b, chal_ok a -> chal_ok b -> chal_ok (chal_xor a b).
Proof.
  intros a b [La Ba] [Lb Bb]. split; unfold chal_xor.
  - rewrite map_length, combine_length, La, Lb. reflexivity.
  - clear La Lb. revert b Bb. induction Ba as [|x a Hx Ba IH]; intros b Bb; simpl; [constructor|].
    destruct Bb as [|y b Hy Bb]; simpl; constructor; [apply lxor_byte; auto|].
    apply IH; auto.
Qed.

Lemma chal_xor_comm : forall a b, chal_xor a b = chal_xor b a.
Proof.
  unfold chal_xor. induction a as [|x a IH]; intros [|y b]; simpl; auto.
  f_equal; [apply Z.lxor_comm|apply IH].
Qed.
Lemma chal_xor_assoc : forall a b c, chal_xor a (chal_xor b c) = chal_xor (chal_xor a b) c.
Proof.
  unfold chal_xor. induction a as [|x a IH]; intros [|y b] [|z c]; simpl; auto.
  f_equal; [symmetry; apply Z.lxor_assoc|apply IH].
Qed.
Lemma chal_xor_nilpotent : forall a, chal_xor a a = repeat 0 (length a).
Proof.
  unfold chal_xor. induction a as [|x a IH]; simpl; auto. rewrite Z.lxor_nilpotent, IH. reflexivity.
Qed.
Lemma chal_xor_zeros : forall a n, (length a <= n)%nat -> chal_xor (repeat 0 n) a = a.
Proof.
  unfold chal_xor. induction a as [|x a IH]; intros n Hn; destruct n; simpl in *; auto; try lia.
  rewrite IH by lia. reflexivity.
Qed.
Lemma chal_xor_0_l : forall a, chal_ok a -> chal_xor zero_chal a = a.
Proof. intros a [L _]. apply chal_xor_zeros. lia. Qed.
Lemma chal_xor_0_r : forall a, chal_ok a -> chal_xor a zero_chal = a.
Proof. intros. rewrite chal_xor_comm. apply chal_xor_0_l; auto. Qed.
Lemma chal_xor_self : forall a, chal_ok a -> chal_xor a a = zero_chal.
Proof. intros a [L _]. rewrite chal_xor_nilpotent, L. reflexivity. Qed.
Lemma zero_chal_ok : chal_ok zero_chal.
Proof.
  split; [reflexivity|]. apply Forall_forall. intros x Hx. apply repeat_spec in Hx. subst.
  split; lia.
Qed.
Lemma chal_xor_cancel : forall a b, chal_ok a -> chal_ok b -> chal_xor a (chal_xor a b) = b.
Proof. intros. rewrite chal_xor_assoc, chal_xor_self, chal_xor_0_l; auto. Qed.

Definition xor_all (es : list challenge) : challenge := fold_right chal_xor zero_chal es.
Lemma xor_all_ok : forall es, Forall chal_ok es -> chal_ok (xor_all es).
Proof. induction 1; simpl; [apply zero_chal_ok|apply chal_xor_ok; auto]. Qed.
Lemma xor_fold_left : forall es e, chal_ok e -> Forall chal_ok es ->
  fold_left chal_xor es e = chal_xor e (xor_all es).
Proof.
  induction es as [|x es IH]; intros e He Hes; simpl.
  - symmetry. apply chal_xor_0_r; auto.
  - inversion Hes; subst. rewrite IH; auto; [|apply chal_xor_ok; auto].
    rewrite <- chal_xor_assoc. reflexivity.
Qed.

Lemma chal_gf_wf : forall e, chal_ok e -> wf (chal_gf e).
Proof. intros e [L B]. apply gf_to_from_bytes; auto. Qed.

Lemma be_value_zeros : forall n l, be_value (repeat 0 n ++ l) = be_value l.
Proof.
  induction n as [|n IH]; intros l; simpl; auto. rewrite be_value_cons, IH. lia.
Qed.

(** ** Polynomials over challenges *)
Lemma gf_powers_sum_wf : forall cs x, wf x -> Forall wf cs -> wf (gf_powers_sum cs x).
Proof.
  induction 2; cbn [gf_powers_sum]; [apply wf_zero|].
  apply wf_add; auto. apply wf_mul; auto.
Qed.
Lemma point_wf : forall x : N, (x < 256)%N -> wf (Gf x 0 0).
Proof. intros x H. apply wf_low. eapply N.lt_trans; [exact H|reflexivity]. Qed.

Lemma poly_eval : forall c cs x, wf c -> Forall wf cs -> (x < 256)%N ->
  evaluate (Poly (c :: cs) (length cs)) x = gf_powers_sum (c :: cs) (Gf x 0 0).
Proof.
  intros. rewrite c08_evaluate_is_polynomial_value; auto.
  constructor; auto.
Qed.

Lemma poly_of_chal_spec : forall e cb n, chal_ok e -> bytes_ok cb -> length cb = (n * 24)%nat ->
  exists cs, poly_of_chal e cb = Ok (Poly (chal_gf e :: cs) n) /\ length cs = n /\
    Forall wf cs /\ flat_map gf_to_bytes cs = cb.
Proof.
  intros e cb n He Hb Hl. unfold poly_of_chal, poly_from_bytes.
  rewrite Hl, Nat.div_mul by lia.
  destruct (poly_read_total n cb Hb ltac:(lia)) as (l & H1 & H2 & H3 & H4).
  rewrite H1. cbn [bind]. exists l.
  rewrite gf_from_to_bytes by (apply chal_gf_wf; auto).
  repeat apply conj; auto. rewrite H4, firstn_all2 by lia. reflexivity.
Qed.

Lemma poly_of_chal_flat : forall e cs, chal_ok e -> Forall wf cs ->
  poly_of_chal e (flat_map gf_to_bytes cs) = Ok (Poly (chal_gf e :: cs) (length cs)).
Proof.
  intros e cs He Hc. unfold poly_of_chal, poly_from_bytes.
  rewrite flat_bytes_length, Nat.div_mul by lia.
  rewrite <- (app_nil_r (flat_map gf_to_bytes cs)), poly_read_bytes by auto. cbn [bind].
  rewrite gf_from_to_bytes by (apply chal_gf_wf; auto). reflexivity.
Qed.

Lemma flat_bytes_ok : forall l, bytes_ok (flat_map gf_to_bytes l).
Proof.
  induction l; simpl; [constructor|]. apply bytes_ok_app. split; auto. apply gf_to_bytes_ok.
Qed.
Lemma flat_bytes_inj : forall a b, Forall wf a -> Forall wf b ->
  flat_map gf_to_bytes a = flat_map gf_to_bytes b -> a = b.
Proof.
  induction a as [|x a IH]; intros b Ha Hb H.
  - destruct b; auto. apply (f_equal (@length Z)) in H.
    rewrite !flat_bytes_length in H. simpl in H. lia.
  - destruct b as [|y b].
    + apply (f_equal (@length Z)) in H. rewrite !flat_bytes_length in H. simpl in H. lia.
    + inversion Ha; inversion Hb; subst. simpl in H.
      assert (E : x = y).
      { rewrite <- (gf_from_to_bytes_app x (flat_map gf_to_bytes a)) by auto.
        rewrite H. apply gf_from_to_bytes_app; auto. }
      subst y. f_equal. apply app_inv_head in H. auto.
Qed.

Lemma one_based_val : forall i, Z.of_nat i + 1 < 256 -> one_based i = N.of_nat (S i).
Proof.
  intros. unfold one_based, wrapu. rewrite Z.mod_small by (change (2^8) with 256; lia). lia.
Qed.

Lemma gf_chal_ok : forall x, wf x -> chal_ok (gf_chal x).
Proof. intros. split; [apply gf_to_bytes_length|apply gf_to_bytes_ok]. Qed.
Lemma chal_gf_chal : forall x, wf x -> chal_gf (gf_chal x) = x.
Proof. intros. apply gf_from_to_bytes; auto. Qed.
Lemma gf_chal_gf : forall e, chal_ok e -> gf_chal (chal_gf e) = e.
Proof. intros e [L B]. apply gf_to_from_bytes; auto. Qed.
Lemma chal_gf_inj : forall a b, chal_ok a -> chal_ok b -> chal_gf a = chal_gf b -> a = b.
Proof. intros a b Ha Hb H. rewrite <- (gf_chal_gf a), <- (gf_chal_gf b), H; auto. Qed.

Section Verifier.
Context {G : group} (HG : group_ok G).
Notation leaf := (leaf G). Notation sbool := (sbool G). Notation fmsg := (fmsg G).
Notation utree := (utree G). Notation transcript := (transcript G).

(** ** Induction principles *)
Lemma sbool_ind' : forall P : sbool -> Prop,
  (forall b, P (Triv b)) -> (forall p, P (SLeaf p)) ->
  (forall c l, Forall P l -> P (SConj c l)) -> forall s, P s.
Proof.
  intros P H1 H2 H3. fix IH 1. intros [b|p|c l]; [apply H1|apply H2|].
  apply H3. induction l; constructor; [apply IH|assumption].
Qed.
Lemma utree_ind' : forall P : utree -> Prop,
  (forall p cm e z, P (ULeaf p cm e z)) ->
  (forall c e l, Forall P l -> P (UConj c e l)) -> forall s, P s.
Proof.
  intros P H1 H2. fix IH 1. intros [p cm e z|c e l]; [apply H1|].
  apply H2. induction l; constructor; [apply IH|assumption].
Qed.
Lemma transcript_ind' : forall P : transcript -> Prop,
  (forall m e z, P (TLeaf m e z)) ->
  (forall e cs l, Forall P l -> P (TConj e cs l)) -> forall s, P s.
Proof.
  intros P H1 H2. fix IH 1. intros [m e z|e cs l]; [apply H1|].
  apply H2. induction l; constructor; [apply IH|assumption].
Qed.

(** ** Leaf equations *)
Lemma q_pos : 0 < gord G.
Proof. pose proof (prime_ge_2 _ (g_prime _ HG)). lia. Qed.

Lemma chal_scalar_pow : forall (x : G) e, gpow x (@chal_scalar G e) = gpow x (be_value e).
Proof. intros. unfold chal_scalar. rewrite (gpow_mod HG), be_value_zeros. reflexivity. Qed.

Lemma commit_eq : forall (a b c : G), a = gop b (ginv c) <-> b = gop a c.
Proof.
  intros. split; intros ->.
  - rewrite <- (g_assoc _ HG), (g_inv _ HG). symmetry. apply (g_id_r HG).
  - rewrite <- (g_assoc _ HG), (g_inv_r HG). symmetry. apply (g_id_r HG).
Qed.

Lemma leaf_accepts_iff : forall (p : leaf) m e z,
  leaf_accepts p m e z <-> m = compute_commitment p e z.
Proof.
  intros [h|g h u v] m e z; unfold compute_commitment, leaf_accepts;
    rewrite !(exponentiate_pow HG), !chal_scalar_pow; destruct m as [a|a b].
  - rewrite <- commit_eq. split; [intros ->; auto|intros H; injection H; auto].
  - split; [tauto|discriminate].
  - split; [tauto|discriminate].
  - split.
    + intros [H1 H2]. apply commit_eq in H1. apply commit_eq in H2. congruence.
    + intros H. injection H as H1 H2. split; apply commit_eq; auto.
Qed.

Lemma simulate_accepts : forall (p : leaf) e z, simulate p e z = compute_commitment p e z.
Proof.
  intros [h|g h u v] e z; unfold simulate, compute_commitment;
    rewrite !(exponentiate_pow HG), !(gpow_mod HG), !(gpow_neg HG); reflexivity.
Qed.

Lemma second_message_ok : forall w r e, @scalar_ok G (@second_message G w r e).
Proof. intros. unfold second_message, scalar_ok. apply Z.mod_pos_bound. apply q_pos. Qed.

Lemma second_message_accepts : forall (p : leaf) w r e, witness p w ->
  leaf_accepts p (first_message p r) e (@second_message G w r e).
Proof.
  intros p w r e Hw.
  assert (E : forall x : G, gpow x (@second_message G w r e) =
              gop (gpow x r) (gpow (gpow x w) (be_value e))).
  { intros x. unfold second_message. rewrite (gpow_mod HG), (gpow_add HG), (gpow_mod HG).
    rewrite Z.mul_comm, (gpow_mul HG), chal_scalar_pow. reflexivity. }
  destruct p as [h|g h u v]; simpl in *.
  - subst h. rewrite (exponentiate_pow HG). apply E.
  - destruct Hw as [-> ->]. rewrite !(exponentiate_pow HG). split; apply E.
Qed.
End Verifier.
