(** C57: 256-bit integers stay in range and arithmetic is exact. *)
From Verif Require Import Base VlqModel VlqProofs IntBytes BigIntModel.
Local Open Scope string_scope.
Local Open Scope list_scope.
Local Open Scope Z_scope.

Notation in_range z := (- 2 ^ 255 <= z <= 2 ^ 255 - 1).

(** Construction accepts exactly the integers in range and keeps their value. *)
Theorem c57_construction : forall z,
  (forall y, b256_of_bigint z = Some y -> y = z /\ in_range y) /\
  (in_range z -> b256_of_bigint z = Some z) /\
  (0 <= z -> b256_of_biguint z = b256_of_bigint z).
Proof.
  intro z. unfold b256_of_bigint, b256_of_biguint, b256_min, b256_max.
  assert (0 < 2 ^ 255) by reflexivity. set (m := 2 ^ 255) in *. clearbody m.
  destruct (Z.ltb_spec z (- m)); destruct (Z.ltb_spec (m - 1) z); repeat split; try lia; try congruence;
    match goal with E : Some _ = Some _ |- _ => injection E as <-; lia | _ => discriminate end.
Qed.
Print Assumptions c57_construction.

(** Checked arithmetic: a result is the mathematical one and in range; an exact
    result strictly inside the range is always delivered; failure therefore means
    division by zero or a result outside (-2^255, 2^255).  Truncated division. *)
Theorem c57_checked_arithmetic : forall fits a b r,
  fits_ok fits -> in_range a -> in_range b ->
  (b256_add fits a b = Some r -> r = a + b /\ in_range r) /\
  (b256_sub fits a b = Some r -> r = a - b /\ in_range r) /\
  (b256_mul fits a b = Some r -> r = a * b /\ in_range r) /\
  (b256_div fits a b = Some r -> b <> 0 /\ r = Z.quot a b /\ in_range r) /\
  (b256_add fits a b = None -> ~ (- 2 ^ 255 < a + b < 2 ^ 255)) /\
  (b256_sub fits a b = None -> ~ (- 2 ^ 255 < a - b < 2 ^ 255)) /\
  (b256_mul fits a b = None -> ~ (- 2 ^ 255 < a * b < 2 ^ 255)) /\
  (b256_div fits a b = None -> b = 0 \/ ~ (- 2 ^ 255 < Z.quot a b < 2 ^ 255)).
Proof.
  intros fits a b r [F1 F2] Ha Hb.
  assert (S : forall z, chk fits z = Some r -> r = z /\ in_range r).
  { intros z. unfold chk. destruct (fits z) eqn:E; [|discriminate]. intro H; injection H as <-.
    split; [reflexivity|]. destruct (Z_lt_ge_dec z (- 2 ^ 255)); [rewrite F2 in E by auto; discriminate|].
    destruct (Z_le_gt_dec (2 ^ 255) z); [rewrite F2 in E by auto; discriminate|]. lia. }
  assert (N : forall z, chk fits z = None -> ~ (- 2 ^ 255 < z < 2 ^ 255)).
  { intros z. unfold chk. destruct (fits z) eqn:E; [discriminate|]. intros _ H. rewrite F1 in E by exact H. discriminate. }
  unfold b256_add, b256_sub, b256_mul, b256_div.
  repeat match goal with |- _ /\ _ => split end; try (apply S); try (apply N).
  - destruct (Z.eqb_spec b 0); [discriminate|]. intro E. split; [assumption | apply S; exact E].
  - destruct (Z.eqb_spec b 0); [auto|]. intro E. right. apply N; exact E.
Qed.
Print Assumptions c57_checked_arithmetic.

Example c57_hyps_met :
  fits_ok (fun z => (- 2 ^ 255 <=? z) && (z <? 2 ^ 255)) /\
  in_range (2 ^ 255 - 1) /\ in_range (- 2 ^ 255) /\
  b256_mul (fun z => (- 2 ^ 255 <=? z) && (z <? 2 ^ 255)) (2 ^ 200) (- 2 ^ 55) = Some (- 2 ^ 255) /\
  b256_div (fun z => (- 2 ^ 255 <=? z) && (z <? 2 ^ 255)) (- 2 ^ 255) (-1) = None.
Proof.
  split; [|split; [split; discriminate|split; [split; discriminate|split; reflexivity]]].
  split; intros z H; [apply andb_true_iff | apply andb_false_iff]; lia.
Qed.

(** Remainder and negation. *)
Theorem c57_remainder_and_negation : forall a b r,
  in_range a -> in_range b ->
  (b256_rem a b = Some r -> 0 < b /\ 0 <= r < b /\ (exists q, a = b * q + r) /\ in_range r) /\
  (b256_rem a b = None <-> b <= 0) /\
  (b256_neg a = Some r -> r = - a /\ in_range r) /\
  (b256_neg a = None <-> a = - 2 ^ 255).
Proof.
  intros a b r Ha Hb. unfold b256_rem, b256_neg, b256_min.
  assert (0 < 2 ^ 255) by reflexivity. set (m := 2 ^ 255) in *. clearbody m.
  repeat match goal with |- _ /\ _ => split end.
  - destruct (Z.leb_spec b 0); [discriminate|]. intro E; injection E as <-.
    pose proof (Z.mod_pos_bound a b ltac:(lia)). pose proof (Z.div_mod a b ltac:(lia)).
    split; [lia|]. split; [lia|]. split; [exists (a / b); assumption | lia].
  - destruct (Z.leb_spec b 0); split; try discriminate; try lia. reflexivity.
  - destruct (Z.eqb_spec a (- m)); [discriminate|].
    intro E; injection E as <-. lia.
  - destruct (Z.eqb_spec a (- m)); split; congruence.
Qed.
Print Assumptions c57_remainder_and_negation.

(** In range = all bits from 255 up are copies of the sign. *)
Lemma in_range_bits : forall z, in_range z <-> (forall i, 255 <= i -> Z.testbit z i = Z.testbit z 255).
Proof.
  intro z.
  assert (D : in_range z <-> (Z.shiftr z 255 = 0 \/ Z.shiftr z 255 = -1)).
  { rewrite Z.shiftr_div_pow2 by lia. set (m := 2 ^ 255) in *. assert (0 < m) by reflexivity.
    clearbody m. split; intros Hz.
    - destruct (Z_lt_ge_dec z 0).
      + right. symmetry. apply (Z.div_unique z m (-1) (z + m)); lia.
      + left. apply Z.div_small. lia.
    - pose proof (Z.div_mod z m ltac:(lia)). pose proof (Z.mod_pos_bound z m ltac:(lia)). destruct Hz as [Hz|Hz]; rewrite Hz in *; lia. }
  rewrite D. split.
  - intros [E|E] i Hi; replace i with ((i - 255) + 255) by lia;
      rewrite <- Z.shiftr_spec, E by lia; change (Z.testbit z 255) with (Z.testbit z (0 + 255));
      rewrite <- Z.shiftr_spec, E by lia; rewrite ?Z.testbit_0_l, ?Z.bits_m1 by lia; reflexivity.
  - intro H. destruct (Z.testbit z 255) eqn:E.
    + right. apply Z.bits_inj_iff'. intros n Hn. rewrite Z.shiftr_spec, Z.bits_m1 by lia. rewrite H by lia. reflexivity.
    + left. apply Z.bits_inj_iff'. intros n Hn. rewrite Z.shiftr_spec, Z.testbit_0_l by lia. rewrite H by lia. reflexivity.
Qed.

(** Bit operations act bit by bit on the (sign-extended) two's complement and stay
    in range. *)
Theorem c57_bit_operations : forall a b,
  in_range a -> in_range b ->
  (in_range (b256_not a) /\ in_range (b256_and a b) /\ in_range (b256_or a b) /\ in_range (b256_xor a b)) /\
  forall i, 0 <= i ->
    Z.testbit (b256_not a) i = negb (Z.testbit a i) /\
    Z.testbit (b256_and a b) i = Z.testbit a i && Z.testbit b i /\
    Z.testbit (b256_or a b) i = Z.testbit a i || Z.testbit b i /\
    Z.testbit (b256_xor a b) i = xorb (Z.testbit a i) (Z.testbit b i).
Proof.
  intros a b Ha Hb. unfold b256_not, b256_and, b256_or, b256_xor. split.
  - rewrite in_range_bits in Ha, Hb. repeat match goal with |- _ /\ _ => split end.
    + unfold Z.lnot. change (Z.pred (- a)) with (- a - 1).
      assert (in_range a) by (apply in_range_bits; exact Ha). unfold Z.pred. lia.
    + unfold Z.lnot. assert (in_range a) by (apply in_range_bits; exact Ha). unfold Z.pred. lia.
    + apply in_range_bits. intros i Hi. rewrite !Z.land_spec, (Ha i Hi), (Hb i Hi). reflexivity.
    + apply in_range_bits. intros i Hi. rewrite !Z.land_spec, (Ha i Hi), (Hb i Hi). reflexivity.
    + apply in_range_bits. intros i Hi. rewrite !Z.lor_spec, (Ha i Hi), (Hb i Hi). reflexivity.
    + apply in_range_bits. intros i Hi. rewrite !Z.lor_spec, (Ha i Hi), (Hb i Hi). reflexivity.
    + apply in_range_bits. intros i Hi. rewrite !Z.lxor_spec, (Ha i Hi), (Hb i Hi). reflexivity.
    + apply in_range_bits. intros i Hi. rewrite !Z.lxor_spec, (Ha i Hi), (Hb i Hi). reflexivity.
  - intros i Hi. repeat split.
    + apply Z.lnot_spec; exact Hi.
    + apply Z.land_spec.
    + apply Z.lor_spec.
    + apply Z.lxor_spec.
Qed.
Print Assumptions c57_bit_operations.

(** Byte conversion: at most 32 bytes, and they decode to the same number; any
    string of at most 32 bytes decodes to a number in range. *)
Theorem c57_bytes_roundtrip : forall a,
  in_range a ->
  b256_of_bytes (b256_to_bytes a) = Some a /\ Zlen (b256_to_bytes a) <= 32.
Proof.
  intros a Ha. split.
  - unfold b256_of_bytes, b256_to_bytes. rewrite from_to_signed. apply c57_construction. exact Ha.
  - unfold b256_to_bytes, Zlen. rewrite to_signed_length.
    assert (M : (signed_len a <= 32)%nat); [|lia].
    destruct (Nat.leb_spec (signed_len a) 32) as [|L]; [assumption|]. exfalso.
    pose proof (signed_len_minimal a 32%nat ltac:(lia)) as Hm.
    change (256 ^ Z.of_nat 32 / 2) with (2 ^ 255) in Hm.
    assert (signed_len a <= 32)%nat; [apply Hm; lia | lia].
Qed.
Print Assumptions c57_bytes_roundtrip.

Theorem c57_bytes_in_range : forall bs r,
  bytes_ok bs -> b256_of_bytes bs = Some r -> in_range r /\ r = from_signed_bytes_be bs.
Proof.
  intros bs r _ E. apply c57_construction in E. destruct E as [-> R]. split; [exact R | reflexivity].
Qed.
Print Assumptions c57_bytes_in_range.

Theorem c57_short_bytes_accepted : forall bs,
  bytes_ok bs -> Zlen bs <= 32 -> b256_of_bytes bs = Some (from_signed_bytes_be bs).
Proof.
  intros bs Hb Hl. apply c57_construction.
  destruct (from_signed_range bs Hb) as [R | ->]; [|cbn; split; discriminate].
  assert (P : 256 ^ Zlen bs <= 256 ^ 32) by (apply Z.pow_le_mono_r; lia).
  assert (256 ^ Zlen bs / 2 <= 256 ^ 32 / 2) by (apply Z.div_le_mono; lia).
  change (256 ^ 32 / 2) with (2 ^ 255) in *. set (m := 2 ^ 255) in *. clearbody m. clear P Hl. lia.
Qed.
Print Assumptions c57_short_bytes_accepted.
