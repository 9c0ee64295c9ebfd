(** C05-C09: the gf2_192 crate.

    Specification side: a field element is read as the polynomial over GF(2) whose
    coefficients are the bits of [val g], least significant first ([GfProofs.val]).
    Polynomials over GF(2) are natural numbers, their sum is exclusive or and their
    product is [Clmul.clmul] (shift and exclusive or). *)
From Coq Require Import NArith List Lia.
From Verif Require Import Base GfModel Clmul GfProofs GfInvProofs GfFieldProofs PolyProofs GfBytesProofs.
Import ListNotations.
Open Scope N_scope.

Definition sample : gf := Gf 81985529216486895 18364758544493064720 9223372036854775809.

(** C05 *)
Theorem c05_gf_ring_laws : forall a b c, wf a -> wf b -> wf c ->
  wf (gf_add a b) /\ wf (gf_mul a b) /\
  gf_add a b = gf_add b a /\ gf_add a (gf_add b c) = gf_add (gf_add a b) c /\
  gf_add gf_zero a = a /\ gf_add a a = gf_zero /\
  gf_mul a b = gf_mul b a /\ gf_mul a (gf_mul b c) = gf_mul (gf_mul a b) c /\
  gf_mul gf_one a = a /\ gf_mul gf_zero a = gf_zero /\
  gf_mul a (gf_add b c) = gf_add (gf_mul a b) (gf_mul a c).
Proof.
  intros a b c Ha Hb Hc.
  split; [apply wf_add; assumption|]. split; [apply wf_mul; assumption|].
  split; [apply gf_add_comm|]. split; [apply gf_add_assoc|].
  split; [apply gf_add_0_l|]. split; [apply gf_add_self|].
  split; [apply gf_mul_comm; assumption|]. split; [apply gf_mul_assoc; assumption|].
  split; [apply gf_mul_1_l; assumption|]. split; [apply gf_mul_0_l; assumption|].
  rewrite (gf_mul_comm a (gf_add b c)), (gf_mul_comm a b), (gf_mul_comm a c)
    by (try apply wf_add; assumption).
  apply gf_distr; assumption.
Qed.
Print Assumptions c05_gf_ring_laws.

Theorem c05_gf_tests : forall a, wf a ->
  (gf_is_zero a = true <-> a = gf_zero) /\ (gf_is_one a = true <-> a = gf_one).
Proof.
  intros [a b c] _. unfold gf_is_zero, gf_is_one. cbn [w0 w1 w2].
  rewrite !Bool.andb_true_iff, !N.eqb_eq. split; split.
  - intros [[-> ->] ->]. reflexivity.
  - intros H. injection H as -> -> ->. auto.
  - intros [[-> ->] ->]. reflexivity.
  - intros H. injection H as -> -> ->. auto.
Qed.
Print Assumptions c05_gf_tests.

Theorem c05_gf_no_zero_divisors : forall a b, wf a -> wf b ->
  gf_mul a b = gf_zero -> a = gf_zero \/ b = gf_zero.
Proof. exact gf_no_zero_divisors. Qed.
Print Assumptions c05_gf_no_zero_divisors.

Example c05_hyps_met : wf sample /\ sample <> gf_zero /\
  gf_mul sample sample <> gf_zero.
Proof. split; [repeat split; reflexivity|]. split; vm_compute; discriminate. Qed.

(** C06: the product is the remainder of the polynomial product modulo
    x^192 + x^7 + x^2 + x + 1. *)
Theorem c06_gf_mul_is_polynomial_product : forall a b, wf a -> wf b ->
  val (gf_mul a b) < 2 ^ 192 /\
  exists q, clmul (val a) (val b) =
            N.lxor (clmul (2 ^ 192 + 2 ^ 7 + 2 ^ 2 + 2 ^ 1 + 1) q) (val (gf_mul a b)).
Proof.
  intros a b Ha Hb. split; [apply val_lt, wf_mul; auto|].
  destruct (cong_mul a b Ha Hb) as [q Hq]. exists q. change (2 ^ 192 + 2 ^ 7 + 2 ^ 2 + 2 ^ 1 + 1) with PP.
  rewrite <- Hq. rewrite (N.lxor_comm (N.lxor _ _)). symmetry. apply lxor_cancel.
Qed.
Print Assumptions c06_gf_mul_is_polynomial_product.

Theorem c06_gf_mul_by_i8_is_polynomial_product : forall a b, wf a -> b < 256 ->
  wf (gf_mul_by_i8 a b) /\ val (gf_mul_by_i8 a b) < 2 ^ 192 /\
  (exists q, clmul (val a) b =
            N.lxor (clmul (2 ^ 192 + 2 ^ 7 + 2 ^ 2 + 2 ^ 1 + 1) q) (val (gf_mul_by_i8 a b))) /\
  gf_mul_by_i8 a b = gf_mul a (Gf b 0 0).
Proof.
  intros a b Ha Hb. destruct (gf_mul_by_i8_spec a b Ha Hb) as [H1 H2].
  split; auto. split; [apply val_lt; auto|]. split.
  - destruct H2 as [q Hq]. exists q. change (2 ^ 192 + 2 ^ 7 + 2 ^ 2 + 2 ^ 1 + 1) with PP.
    rewrite <- Hq. rewrite (N.lxor_comm (N.lxor _ _)). symmetry. apply lxor_cancel.
  - assert (Hw : wf (Gf b 0 0)).
    { apply wf_low. eapply N.lt_trans; [exact Hb|reflexivity]. }
    apply gf_ext; auto using wf_mul.
    eapply cong_trans; [exact H2|]. apply cong_sym. eapply cong_trans; [apply cong_mul; auto|].
    rewrite val_low. apply cong_refl.
Qed.
Print Assumptions c06_gf_mul_by_i8_is_polynomial_product.

(** The remainder is unique, so the two theorems above determine the results. *)
Theorem c06_remainder_unique : forall r1 r2 q1 q2, r1 < 2 ^ 192 -> r2 < 2 ^ 192 ->
  N.lxor (clmul PP q1) r1 = N.lxor (clmul PP q2) r2 -> r1 = r2.
Proof.
  intros r1 r2 q1 q2 H1 H2 H. apply (cong_unique PP 192); auto using PP_top, PP_lt.
  exists (N.lxor q1 q2). rewrite clmul_lxor_r.
  rewrite <- (lxor_cancel (clmul PP q1) r1), H.
  rewrite <- (lxor_cancel (clmul PP q2) r2) at 2.
  rewrite (N.lxor_comm (clmul PP q2) (N.lxor (clmul PP q2) r2)).
  rewrite (N.lxor_comm (clmul PP q2) r2).
  apply N.bits_inj. intros i. rewrite !N.lxor_spec.
  destruct (N.testbit (clmul PP q1) i), (N.testbit (clmul PP q2) i), (N.testbit r2 i); reflexivity.
Qed.
Print Assumptions c06_remainder_unique.

Example c06_hyps_met : wf sample /\ 255 < 256 /\
  gf_mul sample (Gf 2 0 0) = Gf 163971058432973657 (18282773015276577824) 3.
Proof. split; [repeat split; reflexivity|]. split; vm_compute; reflexivity. Qed.

(** C07 *)
Theorem c07_gf_invert : forall z, wf z -> z <> gf_zero ->
  wf (gf_invert z) /\ gf_mul z (gf_invert z) = gf_one.
Proof. intros z Hz Hn. split; [apply gf_invert_wf; auto|apply gf_invert_spec; auto]. Qed.
Print Assumptions c07_gf_invert.

(** The table driven power is the 2^k-fold iteration of squaring by multiplication. *)
Theorem c07_table_power_is_repeated_squaring : forall z k, wf z ->
  power_2_to_2_to_k z k = N.iter (2 ^ N.of_nat k) (fun x => gf_mul x x) z.
Proof. intros z k Hz. exact (power_2_to_2_to_k_spec z k Hz). Qed.
Print Assumptions c07_table_power_is_repeated_squaring.

Example c07_hyps_met : wf sample /\ sample <> gf_zero /\ gf_invert sample <> sample /\
  gf_invert gf_zero = gf_zero.
Proof. split; [repeat split; reflexivity|]. repeat apply conj; vm_compute; try discriminate; reflexivity. Qed.

(** C08 *)
Theorem c08_interpolation : forall points values z,
  length points = length values ->
  Forall (fun p => 0 < p < 256) points -> NoDup points -> Forall wf values -> wf z ->
  exists f, interpolate points values z = Ok f /\
    degree f = length points /\ length (coefficients f) = S (length points) /\
    Forall wf (coefficients f) /\
    nth 0 (coefficients f) gf_zero = z /\ evaluate f 0 = z /\
    forall i, (i < length points)%nat ->
      evaluate f (nth i points 0) = nth i values gf_zero.
Proof. exact interpolate_spec. Qed.
Print Assumptions c08_interpolation.

(** Evaluation is the value of the polynomial: sum of c_i x^i in the field. *)
Fixpoint gf_powers_sum (cs : list gf) (x : gf) : gf :=
  match cs with
  | [] => gf_zero
  | c :: cs' => gf_add c (gf_mul x (gf_powers_sum cs' x))
  end.
Theorem c08_evaluate_is_polynomial_value : forall p x, x < 256 ->
  Forall wf (coefficients p) -> length (coefficients p) = S (degree p) ->
  evaluate p x = gf_powers_sum (coefficients p) (Gf x 0 0).
Proof.
  intros p x Hx Hw Hl.
  assert (Hwx : wf (Gf x 0 0)) by (apply wf_low; eapply N.lt_trans; [exact Hx|reflexivity]).
  assert (H : forall cs, Forall wf cs -> wf (gf_powers_sum cs (Gf x 0 0)) /\
     feq (val (gf_powers_sum cs (Gf x 0 0))) (psum (length cs) (cf cs) x)).
  { induction cs as [|c cs IH]; intros Hc.
    - split; [apply wf_zero|reflexivity].
    - inversion Hc; subst. destruct (IH H2) as [I1 I2]. cbn [gf_powers_sum length psum].
      assert (Hm : wf (gf_mul (Gf x 0 0) (gf_powers_sum cs (Gf x 0 0)))) by (apply wf_mul; auto).
      split; [apply wf_add; auto|].
      rewrite val_add by auto. rewrite val_mul by auto. rewrite I2, val_low. reflexivity. }
  destruct (evaluate_spec p x Hx) as [E1 E2]; [split; [auto|lia]|].
  destruct (H _ Hw) as [P1 P2]. apply gf_ext; auto.
  fold (feq (val (evaluate p x)) (val (gf_powers_sum (coefficients p) (Gf x 0 0)))).
  rewrite E2, P2, Hl. reflexivity.
Qed.
Print Assumptions c08_evaluate_is_polynomial_value.

(** At most one polynomial with [n] coefficients takes given values at [n] distinct
    byte points. *)
Theorem c08_interpolation_unique : forall f g (xs : list N),
  Forall wf (coefficients f) -> Forall wf (coefficients g) ->
  length (coefficients f) = S (degree f) -> length (coefficients g) = S (degree g) ->
  degree f = degree g -> length xs = S (degree f) ->
  Forall (fun x => x < 256) xs -> NoDup xs ->
  (forall x, In x xs -> evaluate f x = evaluate g x) -> f = g.
Proof.
  intros f g xs Hf Hg Lf Lg Hd Lx Hx Hnd He.
  set (n := degree f) in *.
  set (c := fun j => N.lxor (cf (coefficients f) j) (cf (coefficients g) j)).
  assert (Hz : forall j, (j < S n)%nat -> feq (c j) 0).
  { apply (roots_zero (S n) c xs); auto.
    - intros i j Hij E. rewrite Forall_forall in Hx.
      assert (nth i xs 0 = nth j xs 0) by (apply byte_point_feq; auto; apply Hx, nth_In; lia).
      assert (i = j) by (apply (proj1 (NoDup_nth xs 0) Hnd); auto; lia). lia.
    - intros x Hin. rewrite Forall_forall in Hx. specialize (Hx x Hin). specialize (He x Hin).
      unfold c. rewrite psum_add.
      destruct (evaluate_spec f x Hx) as [_ E1]; [split; [auto|lia]|].
      destruct (evaluate_spec g x Hx) as [_ E2]; [split; [auto|lia]|].
      rewrite <- Hd in E2. fold n in E1, E2. rewrite <- E1, <- E2, He, N.lxor_nilpotent. reflexivity. }
  destruct f as [cf_ df], g as [cg dg]. cbn [coefficients degree] in *. subst dg. f_equal.
  apply nth_ext with (d := gf_zero) (d' := gf_zero); [lia|].
  intros j Hj. apply gf_ext; [apply nth_wf; auto|apply nth_wf; auto|].
  specialize (Hz j ltac:(lia)). unfold c, cf in Hz. destruct Hz as [q Hq].
  rewrite N.lxor_0_r in Hq. exists q. exact Hq.
Qed.
Print Assumptions c08_interpolation_unique.

Theorem c08_interpolation_length_mismatch : forall points values z,
  length points <> length values -> exists e, interpolate points values z = Err e.
Proof.
  intros points values z H. unfold interpolate.
  destruct (Nat.eqb_spec (length points) (length values)); [contradiction|]. eauto.
Qed.
Print Assumptions c08_interpolation_length_mismatch.

Example c08_hyps_met :
  length [1; 200; 7] = length [sample; gf_one; gf_zero] /\
  Forall (fun p => 0 < p < 256) [1; 200; 7] /\ NoDup [1; 200; 7] /\
  Forall wf [sample; gf_one; gf_zero] /\ wf sample.
Proof.
  split; [reflexivity|]. split; [repeat constructor; reflexivity|].
  split; [repeat constructor; simpl; intuition discriminate|].
  split; [repeat constructor; reflexivity|repeat split; reflexivity].
Qed.

(** C09 *)
Theorem c09_gf_bytes_roundtrip : forall g, wf g ->
  length (gf_to_bytes g) = 24%nat /\ bytes_ok (gf_to_bytes g) /\
  gf_from_bytes24 (gf_to_bytes g) = g /\ gf_try_from_bytes (gf_to_bytes g) = Ok g.
Proof.
  intros g H. split; [apply gf_to_bytes_length|]. split; [apply gf_to_bytes_ok|].
  split; [apply gf_from_to_bytes; auto|].
  unfold gf_try_from_bytes. rewrite gf_to_bytes_length. simpl. f_equal. apply gf_from_to_bytes; auto.
Qed.
Print Assumptions c09_gf_bytes_roundtrip.

Theorem c09_bytes_gf_roundtrip : forall bs, bytes_ok bs -> length bs = 24%nat ->
  wf (gf_from_bytes24 bs) /\ gf_to_bytes (gf_from_bytes24 bs) = bs.
Proof. exact gf_to_from_bytes. Qed.
Print Assumptions c09_bytes_gf_roundtrip.

(** Little endian: byte i holds bits 8i..8i+7 of the polynomial. *)
Theorem c09_bytes_are_little_endian : forall bs, bytes_ok bs -> length bs = 24%nat ->
  val (gf_from_bytes24 bs) = le_val bs.
Proof.
  intros bs Hb Hl. unfold gf_from_bytes24, val. cbn [w0 w1 w2].
  rewrite !word_of_bytes_val by
    (auto using bytes_ok_firstn, bytes_ok_skipn; rewrite firstn_length, ?skipn_length; lia).
  do 24 (destruct bs as [|? bs]; [discriminate|]). destruct bs; [|discriminate].
  cbn [firstn skipn le_val].
  change (2 ^ 64) with (256 * (256 * (256 * (256 * (256 * (256 * (256 * 256))))))). lia.
Qed.
Print Assumptions c09_bytes_are_little_endian.

Theorem c09_short_bytes_refused : forall bs, (length bs < 24)%nat ->
  exists e, gf_try_from_bytes bs = Err e.
Proof.
  intros bs H. unfold gf_try_from_bytes. apply Nat.ltb_lt in H. rewrite H. eauto.
Qed.
Print Assumptions c09_short_bytes_refused.

Theorem c09_poly_bytes_roundtrip : forall p,
  Forall wf (coefficients p) -> length (coefficients p) = S (degree p) ->
  length (poly_to_bytes p) = (degree p * 24)%nat /\
  poly_from_bytes (gf_to_bytes (coeff p 0)) (poly_to_bytes p) = Ok p.
Proof. intros p H1 H2. apply poly_roundtrip; auto. split; auto. lia. Qed.
Print Assumptions c09_poly_bytes_roundtrip.

Theorem c09_bytes_poly_roundtrip : forall c0 more n, bytes_ok c0 -> length c0 = 24%nat ->
  bytes_ok more -> length more = (n * 24)%nat ->
  exists p, poly_from_bytes c0 more = Ok p /\ degree p = n /\
    length (coefficients p) = S n /\ Forall wf (coefficients p) /\
    gf_to_bytes (coeff p 0) = c0 /\ poly_to_bytes p = more.
Proof.
  intros c0 more n H1 H2 H3 H4.
  destruct (poly_bytes_roundtrip c0 more n H1 H2 H3 H4) as (p & A & B & C & [D _] & E).
  exists p. auto.
Qed.
Print Assumptions c09_bytes_poly_roundtrip.

Example c09_hyps_met : wf sample /\
  gf_to_bytes sample =
   [239; 205; 171; 137; 103; 69; 35; 1; 16; 50; 84; 118; 152; 186; 220; 254;
    1; 0; 0; 0; 0; 0; 0; 128]%Z.
Proof. split; [repeat split; reflexivity|vm_compute; reflexivity]. Qed.
