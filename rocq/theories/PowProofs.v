(** Facts about the Autolykos helpers and compact difficulties. *)
From Verif Require Import Base VlqModel VlqProofs IntBytes GroupModel MerkleModel HeaderModel PowModel.

Lemma be_value_zeros : forall n l, be_value (repeat 0 n ++ l) = be_value l.
Proof. induction n as [|n IH]; intros l; [reflexivity|]. simpl repeat. rewrite <- app_comm_cons, be_value_cons, IH. lia. Qed.

Lemma be_bytes_of_value : forall n l, bytes_ok l -> List.length l = n -> be_bytes n (be_value l) = l.
Proof. intros n l Hok <-. apply be_bytes_value. exact Hok. Qed.

Lemma repeat0_ok : forall n, bytes_ok (repeat 0 n).
Proof. induction n; simpl; constructor; auto. unfold byte. lia. Qed.

Lemma half_pow : forall n, (1 <= n)%nat -> 256 ^ Z.of_nat n / 2 = 128 * 256 ^ (Z.of_nat n - 1).
Proof.
  intros n Hn. replace (Z.of_nat n) with (1 + (Z.of_nat n - 1)) at 1 by lia.
  rewrite Z.pow_add_r by lia. change (256 ^ 1) with 256.
  replace (256 * 256 ^ (Z.of_nat n - 1)) with (128 * 256 ^ (Z.of_nat n - 1) * 2) by lia.
  apply Z.div_mul. lia.
Qed.

(** Length of the signed form of a non-negative number, from both sides. *)
Lemma signed_len_bounds : forall z, 0 <= z ->
  z < 128 * 256 ^ (Z.of_nat (signed_len z) - 1) /\
  ((1 < signed_len z)%nat -> 128 * 256 ^ (Z.of_nat (signed_len z) - 2) <= z).
Proof.
  intros z Hz. pose proof (signed_len_pos z) as HP. pose proof (signed_len_fits z) as [_ HF].
  rewrite half_pow in HF by exact HP. split; [exact HF|].
  intros H1. destruct (Z.le_gt_cases (128 * 256 ^ (Z.of_nat (signed_len z) - 2)) z) as [?|Hgt]; auto.
  exfalso. assert (signed_len z <= signed_len z - 1)%nat; [|lia].
  apply signed_len_minimal; [lia|]. rewrite half_pow by lia.
  replace (Z.of_nat (signed_len z - 1) - 1) with (Z.of_nat (signed_len z) - 2) by lia.
  lia.
Qed.

Lemma be_value_to_signed : forall z, 0 <= z -> be_value (to_signed_bytes_be z) = z.
Proof.
  intros z Hz. unfold to_signed_bytes_be. rewrite be_value_bytes, Z.mod_mod by (apply Z.pow_nonzero; lia).
  apply Z.mod_small. pose proof (signed_len_fits z) as [_ HF].
  pose proof (signed_len_pos z). pose proof (Z.pow_pos_nonneg 256 (Z.of_nat (signed_len z))). lia.
Qed.

Lemma as_unsigned_spec : forall n z, 0 <= z ->
  as_unsigned_byte_array n z =
  if z <? 256 ^ Z.of_nat n then Ok (be_bytes n z) else Err "BigIntToFixedByteArrayError".
Proof.
  intros n z Hz. unfold as_unsigned_byte_array.
  pose proof (be_value_to_signed z Hz) as HV. pose proof (to_signed_ok z) as HO.
  pose proof (to_signed_length z) as HL. pose proof (signed_len_bounds z Hz) as [HB1 HB2].
  pose proof (signed_len_pos z) as HP.
  set (bs := to_signed_bytes_be z) in *. set (L := signed_len z) in *. clearbody bs L.
  rewrite HL. destruct (Nat.eqb L n) eqn:EL.
  - apply Nat.eqb_eq in EL. subst n.
    replace (z <? 256 ^ Z.of_nat L) with true.
    + rewrite <- HV. rewrite be_bytes_of_value; auto.
    + symmetry. apply Z.ltb_lt.
      replace (Z.of_nat L) with (1 + (Z.of_nat L - 1)) by lia. rewrite Z.pow_add_r by lia.
      pose proof (Z.pow_pos_nonneg 256 (Z.of_nat L - 1)). lia.
  - apply Nat.eqb_neq in EL. destruct bs as [|b bs]; [simpl in HL; lia|].
    simpl in HL. cbn [hd]. inversion HO as [|? ? Hb HO']; subst.
    rewrite be_value_cons in *. pose proof (be_value_bound bs HO') as HVB.
    unfold byte in Hb.
    assert (HbsL : Zlen bs = Z.of_nat (Datatypes.length bs)) by reflexivity.
    destruct (b =? 0) eqn:Eb.
    + apply Z.eqb_eq in Eb. subst b. simpl skipn.
      replace (S (Datatypes.length bs) - 1)%nat with (Datatypes.length bs) by lia.
      destruct (Nat.ltb n (Datatypes.length bs)) eqn:El.
      * apply Nat.ltb_lt in El.
        replace (_ <? _) with false; auto. symmetry. apply Z.ltb_ge.
        specialize (HB2 ltac:(lia)).
        assert (256 ^ Z.of_nat n <= 256 ^ (Z.of_nat (S (Datatypes.length bs)) - 2)) by (apply Z.pow_le_mono_r; lia).
        lia.
      * apply Nat.ltb_ge in El.
        assert (Hlt : be_value bs < 256 ^ Z.of_nat n).
        { assert (256 ^ Zlen bs <= 256 ^ Z.of_nat n) by (apply Z.pow_le_mono_r; lia). lia. }
        replace (_ <? _) with true by (symmetry; apply Z.ltb_lt; lia).
        f_equal. rewrite <- (be_bytes_of_value n (repeat 0 (n - Datatypes.length bs) ++ bs)).
        -- rewrite be_value_zeros. f_equal; lia.
        -- apply Forall_app. split; [apply repeat0_ok|exact HO'].
        -- rewrite app_length, repeat_length. lia.
    + apply Z.eqb_neq in Eb. simpl skipn. rewrite Nat.sub_0_r.
      destruct (Nat.ltb n (S (Datatypes.length bs))) eqn:El.
      * apply Nat.ltb_lt in El.
        replace (_ <? _) with false; auto. symmetry. apply Z.ltb_ge.
        assert (256 ^ Z.of_nat n <= 256 ^ Zlen bs) by (apply Z.pow_le_mono_r; lia). nia.
      * apply Nat.ltb_ge in El.
        assert (Hlt : b * 256 ^ Zlen bs + be_value bs < 256 ^ Z.of_nat n).
        { assert (256 ^ (1 + Zlen bs) <= 256 ^ Z.of_nat n) by (apply Z.pow_le_mono_r; lia).
          rewrite Z.pow_add_r in * by lia. nia. }
        replace (_ <? _) with true by (symmetry; apply Z.ltb_lt; lia).
        f_equal. rewrite <- (be_bytes_of_value n (repeat 0 (n - S (Datatypes.length bs)) ++ b :: bs)).
        -- rewrite be_value_zeros, be_value_cons. f_equal; lia.
        -- apply Forall_app. split; [apply repeat0_ok|exact HO].
        -- rewrite app_length, repeat_length. simpl. lia.
Qed.

(** *** Table size *)
Lemma grow_ge : forall a, 2100 <= a -> a <= grow a.
Proof. intros a Ha. unfold grow. lia. Qed.
Lemma grow_mono : forall a b, a <= b -> grow a <= grow b.
Proof. intros a b Hab. unfold grow. lia. Qed.
Lemma iter_grow_ge : forall n a, 2100 <= a -> a <= Nat.iter n grow a.
Proof.
  induction n as [|n IH]; intros a Ha; simpl; [lia|]. pose proof (IH a Ha).
  pose proof (grow_ge (Nat.iter n grow a)). lia.
Qed.
Lemma iter_grow_mono : forall n m a, 2100 <= a -> (n <= m)%nat -> Nat.iter n grow a <= Nat.iter m grow a.
Proof.
  intros n m a Ha Hle. induction Hle as [|m Hle IH]; [lia|].
  simpl. pose proof (iter_grow_ge m a Ha). pose proof (grow_ge (Nat.iter m grow a)). lia.
Qed.

(** *** Compact difficulties *)
Lemma land255 : forall a, Z.land a 255 = a mod 256.
Proof. intros. change 255 with (Z.ones 8). rewrite Z.land_ones by lia. reflexivity. Qed.
Lemma wraps_mod : forall n k z, 0 < n -> 0 <= k <= n -> (wraps n z) mod 2 ^ k = z mod 2 ^ k.
Proof.
  intros n k z Hn Hk. unfold wraps.
  assert (HD : forall x, (x mod 2 ^ n) mod 2 ^ k = x mod 2 ^ k).
  { intros x. symmetry. apply Znumtheory.Zmod_div_mod; try (apply Z.pow_pos_nonneg; lia).
    exists (2 ^ (n - k)). rewrite <- Z.pow_add_r by lia. f_equal. lia. }
  rewrite Zminus_mod, HD, <- Zminus_mod. f_equal. lia.
Qed.
Lemma wraps_shift_land : forall z s, 0 <= s -> s + 8 <= 64 ->
  Z.land (Z.shiftr (wraps 64 z) s) 255 = (z / 2 ^ s) mod 256.
Proof.
  intros z s Hs H8. rewrite land255, Z.shiftr_div_pow2 by lia.
  assert (HE : forall x, (x / 2 ^ s) mod 256 = (x mod 2 ^ (s + 8)) / 2 ^ s).
  { intros x. rewrite Z.pow_add_r by lia. change (2 ^ 8) with 256.
    rewrite Z.rem_mul_r by (try apply Z.pow_nonzero; lia).
    rewrite (Z.mul_comm (2 ^ s)), Z.div_add by (apply Z.pow_nonzero; lia).
    rewrite (Z.div_small (x mod 2 ^ s)) by (apply Z.mod_pos_bound, Z.pow_pos_nonneg; lia). lia. }
  rewrite !HE, wraps_mod by lia. reflexivity.
Qed.

Lemma from_signed_small : forall b l, 0 <= b < 128 -> from_signed_bytes_be (b :: l) = be_value (b :: l).
Proof. intros b l Hb. unfold from_signed_bytes_be. replace (b <? 128) with true by lia. reflexivity. Qed.

Lemma be_value_zeros_r : forall n l, be_value (l ++ repeat 0 n) = be_value l * 256 ^ Z.of_nat n.
Proof.
  induction n as [|n IH]; intros l.
  - rewrite app_nil_r. simpl. lia.
  - change (repeat 0 (S n)) with ([0] ++ repeat 0 n). rewrite app_assoc, IH, be_value_snoc.
    rewrite Nat2Z.inj_succ, Z.pow_succ_r by lia. lia.
Qed.

(** The encoding's definition: a sign bit, a 23-bit mantissa, a byte count. *)
Definition compact_value (n : Z) : Z :=
  let size := (n / 2 ^ 24) mod 256 in
  let mantissa := n mod 2 ^ 23 in
  let magnitude := if size <? 3 then mantissa / 256 ^ (3 - size) else mantissa * 256 ^ (size - 3) in
  if Z.testbit n 23 then - magnitude else magnitude.

Lemma mantissa_split : forall n, n mod 2 ^ 24 =
  (n / 2 ^ 16) mod 256 * 65536 + (n / 2 ^ 8) mod 256 * 256 + n mod 256.
Proof. intros. change (2 ^ 24) with 16777216. change (2 ^ 16) with 65536. change (2 ^ 8) with 256. lia. Qed.

Lemma testbit23 : forall n, Z.testbit n 23 = (128 <=? (n / 2 ^ 16) mod 256).
Proof.
  intros n. replace (Z.testbit n 23) with (Z.testbit ((n / 2 ^ 16) mod 2 ^ 8) 7).
  2: { rewrite Z.mod_pow2_bits_low by lia. rewrite Z.div_pow2_bits by lia. reflexivity. }
  change (2 ^ 8) with 256. set (b := (n / 2 ^ 16) mod 256).
  assert (Hb : 0 <= b < 256) by (apply Z.mod_pos_bound; lia). clearbody b.
  pose proof (Z.testbit_spec' b 7 ltac:(lia)) as HT. change (2 ^ 7) with 128 in HT.
  destruct (Z.testbit b 7); cbn [Z.b2z] in HT; lia.
Qed.

Lemma land128' : forall b, 0 <= b < 256 -> (Z.land b 128 =? 128) = (128 <=? b).
Proof.
  intros b Hb. pose proof (land128 b Hb) as HL.
  assert (HC : Z.land b 128 = 0 \/ Z.land b 128 = 128).
  { change 128 with (2 ^ 7). 
    destruct (Z.testbit b 7) eqn:E.
    - right. apply Z.bits_inj'. intros i Hi. rewrite Z.land_spec, Z.pow2_bits_eqb by lia.
      destruct (Z.eqb_spec 7 i); [subst; rewrite E; reflexivity|rewrite andb_false_r; reflexivity].
    - left. apply Z.bits_inj'. intros i Hi. rewrite Z.land_spec, Z.pow2_bits_eqb, Z.bits_0 by lia.
      destruct (Z.eqb_spec 7 i); [subst; rewrite E; reflexivity|apply andb_false_r]. }
  destruct HC as [HC|HC]; rewrite HC in *; lia.
Qed.

Lemma compact_spec : forall n, decode_compact_bits n = compact_value n.
Proof.
  intros n. unfold decode_compact_bits, compact_value.
  assert (HS : Z.land (wraps 32 (Z.shiftr (wraps 64 n) 24)) 255 = (n / 2 ^ 24) mod 256).
  { rewrite land255. change 256 with (2 ^ 8) at 1. rewrite wraps_mod by lia. change (2 ^ 8) with 256.
    rewrite <- land255. apply wraps_shift_land; lia. }
  rewrite HS. unfold compact_buf.
  rewrite !wraps_shift_land by lia.
  assert (HM : Z.land (wraps 64 n) 255 = n mod 256).
  { rewrite land255. change 256 with (2 ^ 8). apply wraps_mod; lia. }
  rewrite HM, testbit23.
  pose proof (mantissa_split n) as HMs.
  assert (H23 : n mod 2 ^ 23 = (n mod 2 ^ 24) mod 2 ^ 23).
  { apply Znumtheory.Zmod_div_mod; try reflexivity. exists 2. reflexivity. }
  rewrite H23, HMs. clear H23 HMs HM HS.
  set (size := (n / 2 ^ 24) mod 256). set (b0 := (n / 2 ^ 16) mod 256).
  set (b1 := (n / 2 ^ 8) mod 256). set (b2 := n mod 256).
  assert (Hs : 0 <= size < 256) by (apply Z.mod_pos_bound; lia).
  assert (H0 : 0 <= b0 < 256) by (apply Z.mod_pos_bound; lia).
  assert (H1 : 0 <= b1 < 256) by (apply Z.mod_pos_bound; lia).
  assert (H2 : 0 <= b2 < 256) by (apply Z.mod_pos_bound; lia).
  clearbody size b0 b1 b2.
  assert (HB : exists l, firstn (Z.to_nat size) ([b0; b1; b2] ++ repeat 0 (Z.to_nat (size - 3))) = l /\
    (size = 0 \/ exists t, l = b0 :: t /\ forall c, 0 <= c < 128 ->
       be_value (c :: t) = if size <? 3 then (c * 65536 + b1 * 256 + b2) / 256 ^ (3 - size)
                           else (c * 65536 + b1 * 256 + b2) * 256 ^ (size - 3))).
  { eexists. split; [reflexivity|].
    destruct (Z.eq_dec size 0) as [->|Hn0]; [left; auto|right].
    destruct (Z.eq_dec size 1) as [->|Hn1].
    { exists []. split; [reflexivity|]. intros c Hc. cbn [Z.ltb Z.compare Pos.compare Pos.compare_cont].
      unfold be_value. cbn [fold_left]. change (256 ^ (3 - 1)) with 65536. lia. }
    destruct (Z.eq_dec size 2) as [->|Hn2].
    { exists [b1]. split; [reflexivity|]. intros c Hc. unfold be_value. cbn [fold_left].
      change (2 <? 3) with true. cbv iota. change (256 ^ (3 - 2)) with 256. lia. }
    exists ([b1; b2] ++ repeat 0 (Z.to_nat (size - 3))). split.
    - rewrite firstn_all2; [reflexivity|]. rewrite app_length, repeat_length. simpl List.length. lia.
    - intros c Hc. change (c :: [b1; b2] ++ repeat 0 (Z.to_nat (size - 3)))
        with ([c; b1; b2] ++ repeat 0 (Z.to_nat (size - 3))).
      rewrite be_value_zeros_r. replace (size <? 3) with false by lia.
      rewrite Z2Nat.id by lia. f_equal. unfold be_value. cbn [fold_left]. lia. }
  destruct HB as [l [El HB]]. rewrite El. clear El.
  destruct (size =? 0) eqn:E0.
  { apply Z.eqb_eq in E0. subst size. change (0 <? 3) with true. cbv iota.
    change (256 ^ (3 - 0)) with 16777216. change (2 ^ 23) with 8388608.
    destruct (128 <=? b0); lia. }
  apply Z.eqb_neq in E0. destruct HB as [HB|[t [-> Ht]]]; [congruence|].
  rewrite land128' by lia.
  assert (Hmod : (b0 * 65536 + b1 * 256 + b2) mod 2 ^ 23 = (b0 mod 128) * 65536 + b1 * 256 + b2).
  { change (2 ^ 23) with 8388608. lia. }
  rewrite Hmod. destruct (128 <=? b0) eqn:Eb.
  - rewrite land127, from_signed_small by lia. rewrite Ht by lia. reflexivity.
  - rewrite from_signed_small by lia. rewrite Ht by lia. rewrite (Z.mod_small b0) by lia. reflexivity.
Qed.
