(** Proofs about the VLQ / ZigZag model. *)
From Verif Require Import Base VlqModel.

Lemma land_disjoint : forall a b s, 0 <= s -> 0 <= a < 2 ^ s -> Z.land a (b * 2 ^ s) = 0.
Proof.
  intros a b s Hs Ha. apply Z.bits_inj'. intros i Hi.
  rewrite Z.land_spec, Z.bits_0.
  destruct (Z.lt_ge_cases i s) as [Hlt|Hge].
  - rewrite Z.mul_pow2_bits_low by lia. apply andb_false_r.
  - replace (Z.testbit a i) with false; [reflexivity|].
    symmetry. destruct (Z.eq_dec a 0) as [->|Hne]. { apply Z.bits_0. }
    apply Z.bits_above_log2; try lia.
    apply Z.log2_lt_pow2; try lia.
    apply Z.lt_le_trans with (2 ^ s); try lia. apply Z.pow_le_mono_r; lia.
Qed.

Lemma lor_add : forall a b s, 0 <= s -> 0 <= a < 2 ^ s ->
  Z.lor a (b * 2 ^ s) = a + b * 2 ^ s.
Proof.
  intros. rewrite <- Z.lxor_lor by (apply land_disjoint; auto).
  symmetry. apply Z.add_nocarry_lxor. apply land_disjoint; auto.
Qed.

Lemma land127 : forall a, Z.land a 127 = a mod 128.
Proof. intros. change 127 with (Z.ones 7). rewrite Z.land_ones by lia. reflexivity. Qed.

Lemma land_not127 : forall v, 0 <= v -> (Z.land v (Z.lnot 127) =? 0) = (v <? 128).
Proof.
  intros v Hv. rewrite <- Z.ldiff_land. change 127 with (Z.ones 7).
  rewrite Z.ldiff_ones_r by lia. rewrite Z.shiftl_mul_pow2, Z.shiftr_div_pow2 by lia.
  change (2 ^ 7) with 128. lia.
Qed.

Lemma put_byte_cont : forall v, 0 <= v ->
  wrapu 8 (Z.lor (Z.land (wraps 32 v) 127) 128) = v mod 128 + 128.
Proof.
  intros v Hv. rewrite land127. change 128 with (1 * 2 ^ 7) at 2.
  rewrite lor_add; [| lia | change (2 ^ 7) with 128; lia].
  unfold wrapu, wraps. change (2 ^ 8) with 256.
  change (2 ^ (32 - 1)) with 2147483648. change (2 ^ 32) with 4294967296.
  change (1 * 2 ^ 7) with 128. lia.
Qed.

(** *** Reference encoding: little-endian base 128, continuation bit on all bytes but
    the last. *)
Fixpoint vlq_value (bs : bytes) : Z :=
  match bs with
  | [] => 0
  | b :: l => b mod 128 + 128 * vlq_value l
  end.

(** All bytes but the last have the continuation bit. *)
Fixpoint vlq_shape (bs : bytes) : Prop :=
  match bs with
  | [] => False
  | [b] => 0 <= b < 128
  | b :: l => 128 <= b < 256 /\ vlq_shape l
  end.

Lemma put_u64_loop_spec : forall fuel v,
  0 <= v < 128 ^ Z.of_nat fuel -> (0 < fuel)%nat ->
  exists bs, put_u64_loop fuel v = Ok bs /\ vlq_shape bs /\ vlq_value bs = v /\
    (1 <= List.length bs <= fuel)%nat /\
    (List.length bs = 1%nat \/ 128 ^ (Zlen bs - 1) <= v).
Proof.
  induction fuel as [|fuel IH]; intros v Hv Hf; [lia|].
  simpl put_u64_loop. rewrite land_not127 by lia.
  destruct (v <? 128) eqn:E.
  - apply Z.ltb_lt in E. eexists. split; [reflexivity|]. unfold wrapu.
    change (2 ^ 8) with 256. simpl. rewrite !Z.mod_small by lia. repeat split; lia.
  - apply Z.ltb_ge in E. rewrite Z.shiftr_div_pow2 by lia. change (2 ^ 7) with 128.
    rewrite Nat2Z.inj_succ, Z.pow_succ_r in Hv by lia.
    assert (Hpos : (0 < fuel)%nat).
    { destruct fuel; [|lia]. simpl in Hv. lia. }
    destruct (IH (v / 128)) as (bs & H1 & H2 & H3 & H4 & H5); [|auto|].
    { split; [apply Z.div_pos; lia|]. apply Z.div_lt_upper_bound; lia. }
    rewrite H1. cbn [bind]. rewrite put_byte_cont by lia.
    eexists. split; [reflexivity|].
    destruct bs as [|b0 bs0]; [destruct H2|].
    split; [|split; [|split]].
    + cbn [vlq_shape]. split; [lia|exact H2].
    + cbn [vlq_value] in *. rewrite H3. lia.
    + cbn [List.length] in *. lia.
    + right. rewrite Zlen_cons. replace (1 + Zlen (b0 :: bs0) - 1) with (Zlen (b0 :: bs0)) by lia.
      assert (Hl : Zlen (b0 :: bs0) = Zlen bs0 + 1) by (rewrite Zlen_cons; lia).
      pose proof (Zlen_nonneg _ bs0).
      destruct H5 as [H5|H5].
      * assert (Zlen bs0 = 0) by (unfold Zlen; cbn [List.length] in H5; lia).
        rewrite Hl, H0. change (128 ^ (0 + 1)) with 128. lia.
      * rewrite Hl in *. replace (Zlen bs0 + 1 - 1) with (Zlen bs0) in H5 by lia.
        rewrite Z.pow_add_r by lia. change (128 ^ 1) with 128. lia.
Qed.

Lemma put_u64_spec : forall v, u64 v ->
  exists bs, put_u64 v = Ok bs /\ vlq_shape bs /\ vlq_value bs = v /\
    (1 <= List.length bs <= 10)%nat /\ (List.length bs = 1%nat \/ 128 ^ (Zlen bs - 1) <= v).
Proof.
  intros v [H1 H2]. apply put_u64_loop_spec; [|lia].
  split; auto. eapply Z.lt_trans; [exact H2|]. reflexivity.
Qed.

(** *** Reader *)

Lemma wrapu_land : forall n a, 0 <= n -> wrapu n a = Z.land a (Z.ones n).
Proof. intros. unfold wrapu. rewrite Z.land_ones; auto. Qed.

Lemma wrapu_wraps : forall n a, 0 < n -> wrapu n (wraps n a) = wrapu n a.
Proof.
  intros n a Hn. unfold wrapu, wraps. rewrite Zminus_mod_idemp_l.
  f_equal. lia.
Qed.

Lemma wrapu_lor : forall n a b, 0 <= n ->
  wrapu n (Z.lor a b) = Z.lor (wrapu n a) (wrapu n b).
Proof. intros. rewrite !wrapu_land by auto. apply Z.land_lor_distr_l. Qed.

Lemma land128 : forall b, 0 <= b < 256 -> (Z.land b 128 =? 0) = (b <? 128).
Proof.
  intros b Hb.
  destruct (b <? 128) eqn:E.
  - apply Z.ltb_lt in E. change 128 with (1 * 2 ^ 7).
    rewrite land_disjoint; auto; lia.
  - apply Z.ltb_ge in E. apply Z.eqb_neq. intros H0.
    assert (Ht : Z.testbit b 7 = true).
    { apply Z.testbit_true; [lia|]. change (2 ^ 7) with 128. lia. }
    assert (Z.testbit (Z.land b 128) 7 = true).
    { rewrite Z.land_spec, Ht. reflexivity. }
    rewrite H0, Z.bits_0 in H. discriminate.
Qed.

(** The accumulator of the loop, as an unsigned number. *)
Lemma get_u64_loop_step : forall fuel shift result b bs,
  0 <= b < 256 -> 0 <= shift ->
  get_u64_loop (S fuel) shift result (b :: bs) =
  let result' := Z.lor result (wraps 64 (Z.shiftl (Z.land b 127) shift)) in
  if b <? 128 then Ok (wrapu 64 result', bs) else get_u64_loop fuel (shift + 7) result' bs.
Proof. intros. simpl. rewrite land128 by auto. reflexivity. Qed.

Lemma get_acc : forall shift result b, 0 <= shift ->
  0 <= wrapu 64 result < 2 ^ shift ->
  wrapu 64 (Z.lor result (wraps 64 (Z.shiftl (Z.land b 127) shift))) =
  wrapu 64 (wrapu 64 result + (b mod 128) * 2 ^ shift).
Proof.
  intros shift result b Hs Hr.
  rewrite wrapu_lor by lia. rewrite wrapu_wraps by lia.
  rewrite land127, Z.shiftl_mul_pow2 by lia.
  rewrite <- lor_add by lia. rewrite (wrapu_lor 64 (wrapu 64 result)) by lia.
  f_equal. unfold wrapu. rewrite Z.mod_mod by lia. reflexivity.
Qed.

Lemma get_u64_loop_spec : forall bs fuel shift result rest,
  vlq_shape bs -> (List.length bs <= fuel)%nat -> 0 <= shift -> shift + 7 * Zlen bs <= 70 ->
  0 <= wrapu 64 result < 2 ^ shift ->
  get_u64_loop fuel shift result (bs ++ rest) =
  Ok (wrapu 64 (wrapu 64 result + vlq_value bs * 2 ^ shift), rest).
Proof.
  induction bs as [|b bs IH]; intros fuel shift result rest Hsh Hlen Hs Hb Hr.
  - destruct Hsh.
  - destruct fuel as [|fuel]; [simpl in Hlen; lia|].
    assert (Hb256 : 0 <= b < 256).
    { destruct bs; cbn [vlq_shape] in Hsh; lia. }
    rewrite <- app_comm_cons, get_u64_loop_step by auto. cbv zeta.
    destruct bs as [|b1 bs].
    + cbn [vlq_shape] in Hsh. replace (b <? 128) with true by lia.
      rewrite get_acc by auto. cbn [vlq_value app]. rewrite Z.mul_0_r, Z.add_0_r. reflexivity.
    + cbn [vlq_shape] in Hsh. destruct Hsh as [Hb2 Hsh].
      replace (b <? 128) with false by lia.
      rewrite Zlen_cons in Hb.
      assert (Hpl := Zlen_nonneg _ (b1 :: bs)).
      assert (Hp1 : 0 < Zlen (b1 :: bs)) by (rewrite Zlen_cons; pose proof (Zlen_nonneg _ bs); lia).
      pose proof (get_acc shift result b Hs Hr) as Hacc.
      assert (Hpow : 2 ^ (shift + 7) = 128 * 2 ^ shift).
      { rewrite Z.pow_add_r by lia. change (2 ^ 7) with 128. lia. }
      assert (Hm : b mod 128 <= 127) by lia.
      assert (Hm0 : 0 <= b mod 128) by lia.
      assert (Hbound : 0 <= wrapu 64 result + b mod 128 * 2 ^ shift < 2 ^ (shift + 7)).
      { rewrite Hpow. nia. }
      assert (Hmono : 2 ^ (shift + 7) <= 2 ^ 64 \/ 63 < shift + 7) by
        (destruct (Z.le_gt_cases (shift + 7) 64); [left; apply Z.pow_le_mono_r; lia | right; lia]).
      assert (Hsmall : 2 ^ (shift + 7) <= 2 ^ 63).
      { apply Z.pow_le_mono_r; lia. }
      assert (Hsm : wrapu 64 (wrapu 64 result + b mod 128 * 2 ^ shift)
                    = wrapu 64 result + b mod 128 * 2 ^ shift).
      { unfold wrapu at 1. apply Z.mod_small.
        change (2 ^ 64) with (2 * 2 ^ 63). lia. }
      rewrite Hsm in Hacc.
      rewrite IH; auto.
      * rewrite Hacc. f_equal. f_equal. f_equal. rewrite Hpow. cbn [vlq_value]. ring.
      * cbn [List.length] in *. lia.
      * lia.
      * lia.
      * rewrite Hacc. exact Hbound.
Qed.

Lemma get_u64_spec : forall bs rest, vlq_shape bs -> (List.length bs <= 10)%nat ->
  get_u64 (bs ++ rest) = Ok (wrapu 64 (vlq_value bs), rest).
Proof.
  intros. unfold get_u64. rewrite get_u64_loop_spec; auto; try lia.
  - change (2 ^ 0) with 1. rewrite Z.mul_1_r. reflexivity.
  - unfold Zlen. lia.
  - unfold wrapu. simpl. lia.
Qed.

Lemma get_put_u64 : forall v, u64 v -> roundtrip put_u64 get_u64 v.
Proof.
  intros v Hv. destruct (put_u64_spec v Hv) as (bs & H1 & H2 & H3 & H4 & _).
  exists bs. split; auto. intros rest. rewrite get_u64_spec by (auto; lia).
  rewrite H3. unfold wrapu. unfold u64 in Hv. rewrite Z.mod_small by lia. reflexivity.
Qed.

Lemma get_put_u32 : forall v, u32 v -> roundtrip put_u32 get_u32 v.
Proof.
  intros v Hv. destruct (get_put_u64 v) as (bs & H1 & H2).
  { unfold u32, u64 in *. assert (2 ^ 32 < 2 ^ 64) by reflexivity. lia. }
  exists bs. split; auto. intros rest. unfold get_u32. rewrite H2. cbn [bind].
  unfold u32 in Hv. replace (v <? 2 ^ 32) with true by lia. reflexivity.
Qed.

Lemma get_put_u16 : forall v, u16 v -> roundtrip put_u16 get_u16 v.
Proof.
  intros v Hv. destruct (get_put_u64 v) as (bs & H1 & H2).
  { unfold u16, u64 in *. assert (2 ^ 16 < 2 ^ 64) by reflexivity. lia. }
  exists bs. split; auto. intros rest. unfold get_u16. rewrite H2. cbn [bind].
  unfold u16 in Hv. replace (v <? 2 ^ 16) with true by lia. reflexivity.
Qed.

Lemma get_put_u8 : forall v, roundtrip put_u8 get_u8 v.
Proof. intros v. exists [v]. split; reflexivity. Qed.

Lemma get_put_i8 : forall v, i8 v -> roundtrip put_i8 get_i8 v.
Proof.
  intros v Hv. eexists. split; [reflexivity|]. intros rest. cbn.
  f_equal. f_equal. unfold wraps, wrapu, i8 in *.
  change (2 ^ (8 - 1)) with 128. change (2 ^ 8) with 256 in *. change (2 ^ 7) with 128 in *. lia.
Qed.

(** *** ZigZag *)

Lemma lxor_m1 : forall a, Z.lxor a (-1) = - a - 1.
Proof. intros. rewrite Z.lxor_m1_r. unfold Z.lnot. lia. Qed.

Lemma shiftr_sign : forall v n, 0 < n -> - 2 ^ n <= v < 2 ^ n ->
  Z.shiftr v n = if v <? 0 then -1 else 0.
Proof.
  intros v n Hn Hv. rewrite Z.shiftr_div_pow2 by lia.
  assert (0 < 2 ^ n) by (apply Z.pow_pos_nonneg; lia).
  destruct (v <? 0) eqn:E.
  - apply Z.ltb_lt in E. symmetry. apply Z.div_unique with (v + 2 ^ n); lia.
  - apply Z.ltb_ge in E. apply Z.div_small. lia.
Qed.

(** ZigZag of a 32-bit number, as a mathematical function. *)
Definition zz (v : Z) : Z := if v <? 0 then - 2 * v - 1 else 2 * v.

Lemma encode_i32_wrap : forall v, i32 v -> wrapu 32 (encode_i32 v) = zz v.
Proof.
  unfold i32, encode_i32, zz. intros v Hv.
  rewrite (shiftr_sign v 31) by lia. rewrite Z.shiftl_mul_pow2 by lia.
  unfold wrapu, wraps. change (2 ^ 1) with 2. change (2 ^ (32 - 1)) with 2147483648.
  change (2 ^ 32) with 4294967296. change (2 ^ 64) with 18446744073709551616.
  change (2 ^ 31) with 2147483648 in Hv.
  destruct (v <? 0) eqn:E.
  - rewrite lxor_m1. lia.
  - rewrite Z.lxor_0_r. lia.
Qed.

Lemma decode_u32_zz : forall w v, i32 v -> wrapu 32 w = zz v -> decode_u32 w = v.
Proof.
  unfold i32, decode_u32. intros w v Hv Hw. rewrite Hw.
  rewrite Z.shiftr_div_pow2 by lia. change 1 with (Z.ones 1) at 2.
  rewrite Z.land_ones by lia. change (2 ^ 1) with 2.
  assert (Hpar : wraps 32 w mod 2 = zz v mod 2).
  { rewrite <- Hw. unfold wraps, wrapu. change (2 ^ (32 - 1)) with 2147483648.
    change (2 ^ 32) with 4294967296. lia. }
  rewrite Hpar. unfold zz, wraps.
  change (2 ^ (32 - 1)) with 2147483648. change (2 ^ 32) with 4294967296.
  change (2 ^ 31) with 2147483648 in Hv.
  destruct (v <? 0) eqn:E.
  - replace ((-2 * v - 1) mod 2) with 1 by lia. change (- (1)) with (-1).
    rewrite lxor_m1. lia.
  - replace ((2 * v) mod 2) with 0 by lia. change (- 0) with 0. rewrite Z.lxor_0_r. lia.
Qed.

Lemma encode_i64_eq : forall v, i64 v -> encode_i64 v = zz v.
Proof.
  unfold i64, encode_i64, zz. intros v Hv.
  rewrite (shiftr_sign v 63) by lia. rewrite Z.shiftl_mul_pow2 by lia.
  unfold wrapu, wraps. change (2 ^ 1) with 2. change (2 ^ (64 - 1)) with 9223372036854775808.
  change (2 ^ 64) with 18446744073709551616.
  change (2 ^ 63) with 9223372036854775808 in Hv.
  destruct (v <? 0) eqn:E.
  - rewrite lxor_m1. lia.
  - rewrite Z.lxor_0_r. lia.
Qed.

Lemma decode_u64_zz : forall v, i64 v -> decode_u64 (zz v) = v.
Proof.
  unfold i64, decode_u64. intros v Hv.
  rewrite Z.shiftr_div_pow2 by lia. change 1 with (Z.ones 1) at 2.
  rewrite Z.land_ones by lia. change (2 ^ 1) with 2. unfold zz.
  change (2 ^ 63) with 9223372036854775808 in Hv.
  destruct (v <? 0) eqn:E.
  - replace ((-2 * v - 1) mod 2) with 1 by lia. change (- (1)) with (-1).
    replace ((-2 * v - 1) / 2) with (- v - 1) by lia.
    assert (Hx : Z.lxor (- v - 1) (wrapu 64 (-1)) = v + 2 ^ 64).
    { unfold wrapu. change (-1 mod 2 ^ 64) with (Z.ones 64).
      assert (Hl : Z.lxor (- v - 1) (Z.ones 64) = Z.ones 64 - (- v - 1)).
      { apply Z.bits_inj'. intros n Hn. rewrite Z.lxor_spec.
        rewrite (Z.sub_nocarry_ldiff (Z.ones 64) (- v - 1)).
        - rewrite Z.ldiff_spec. rewrite Z.testbit_ones by lia.
          destruct (Z.lt_ge_cases n 64).
          + replace (0 <=? n) with true by lia. replace (n <? 64) with true by lia.
            simpl. rewrite xorb_true_r. reflexivity.
          + replace (n <? 64) with false by lia. rewrite andb_false_r. simpl.
            rewrite xorb_false_r. destruct (Z.eq_dec (- v - 1) 0) as [->|Hne]; [apply Z.bits_0|].
            apply Z.bits_above_log2; [lia|]. apply Z.log2_lt_pow2; [lia|].
            apply Z.lt_le_trans with (2 ^ 64); [lia|]. apply Z.pow_le_mono_r; lia.
        - apply Z.bits_inj'. intros m Hm. rewrite Z.ldiff_spec, Z.bits_0.
          rewrite Z.testbit_ones by lia.
          destruct (Z.lt_ge_cases m 64).
          + replace (0 <=? m) with true by lia. replace (m <? 64) with true by lia.
            simpl. apply andb_false_r.
          + replace (Z.testbit (- v - 1) m) with false; [reflexivity|]. symmetry.
            destruct (Z.eq_dec (- v - 1) 0) as [->|Hne]; [apply Z.bits_0|].
            apply Z.bits_above_log2; [lia|]. apply Z.log2_lt_pow2; [lia|].
            apply Z.lt_le_trans with (2 ^ 64); [lia|]. apply Z.pow_le_mono_r; lia. }
      rewrite Hl. change (Z.ones 64) with 18446744073709551615.
      change (2 ^ 64) with 18446744073709551616. lia. }
    rewrite Hx. unfold wraps. change (2 ^ (64 - 1)) with 9223372036854775808.
    change (2 ^ 64) with 18446744073709551616. lia.
  - replace ((2 * v) mod 2) with 0 by lia. change (wrapu 64 (- 0)) with 0. rewrite Z.lxor_0_r.
    unfold wraps. change (2 ^ (64 - 1)) with 9223372036854775808.
    change (2 ^ 64) with 18446744073709551616. lia.
Qed.

Lemma zz_range : forall n v, 0 < n -> - 2 ^ (n - 1) <= v < 2 ^ (n - 1) -> 0 <= zz v < 2 ^ n.
Proof.
  intros n v Hn Hv. replace n with (Z.succ (n - 1)) by lia.
  rewrite Z.pow_succ_r by lia. unfold zz. destruct (v <? 0) eqn:E; lia.
Qed.

Lemma get_put_i64 : forall v, i64 v -> roundtrip put_i64 get_i64 v.
Proof.
  intros v Hv. destruct (get_put_u64 (zz v)) as (bs & H1 & H2).
  { apply (zz_range 64); [lia|exact Hv]. }
  exists bs. unfold put_i64. rewrite encode_i64_eq by auto. split; auto.
  intros rest. unfold get_i64. rewrite H2. cbn [bind]. rewrite decode_u64_zz; auto.
Qed.

Lemma get_put_i32 : forall v, i32 v -> roundtrip put_i32 get_i32 v.
Proof.
  intros v Hv. destruct (get_put_u64 (encode_i32 v)) as (bs & H1 & H2).
  { unfold encode_i32, u64, wrapu. apply Z.mod_pos_bound. reflexivity. }
  exists bs. split; auto. intros rest. unfold get_i32. rewrite H2. cbn [bind].
  rewrite (decode_u32_zz _ v); auto. apply encode_i32_wrap; auto.
Qed.

Lemma get_put_i16 : forall v, i16 v -> roundtrip put_i16 get_i16 v.
Proof.
  intros v Hv.
  assert (H32 : i32 v).
  { unfold i16, i32 in *. change (2 ^ 15) with 32768 in *. change (2 ^ 31) with 2147483648. lia. }
  destruct (get_put_u64 (zz v)) as (bs & H1 & H2).
  { apply (zz_range 64); [lia|]. unfold i16 in Hv. change (2 ^ (64 - 1)) with 9223372036854775808.
    change (2 ^ 15) with 32768 in Hv. lia. }
  exists bs. unfold put_i16, put_u32. rewrite encode_i32_wrap by auto. split; auto.
  intros rest. unfold get_i16. rewrite H2. cbn [bind].
  rewrite (decode_u32_zz _ v); auto.
  - unfold i16 in Hv. replace ((- 2 ^ 15 <=? v) && (v <? 2 ^ 15)) with true by lia. reflexivity.
  - unfold wrapu. apply Z.mod_small. apply (zz_range 32); [lia|]. exact H32.
Qed.

(** *** The reader on arbitrary input *)

Lemma get_u64_loop_inv : forall fuel shift result bs v rest,
  bytes_ok bs -> 0 <= shift ->
  get_u64_loop fuel shift result bs = Ok (v, rest) ->
  exists used, bs = used ++ rest /\ vlq_shape used /\ (List.length used <= fuel)%nat.
Proof.
  induction fuel as [|fuel IH]; intros shift result bs v rest Hok Hs H.
  - discriminate.
  - destruct bs as [|b bs]; [discriminate|].
    inversion Hok as [|? ? Hb Hok']; subst.
    rewrite get_u64_loop_step in H by auto. cbv zeta in H.
    destruct (b <? 128) eqn:E.
    + injection H as <- <-. exists [b]. cbn [vlq_shape app List.length]. unfold byte in Hb.
      repeat split; lia.
    + apply IH in H; auto; [|lia]. destruct H as (used & -> & Hsh & Hl).
      exists (b :: used). split; auto.
      destruct used as [|u0 used]; [destruct Hsh|]. cbn [vlq_shape List.length] in *.
      unfold byte in Hb. repeat split; auto; lia.
Qed.

Lemma get_u64_inv : forall bs v rest, bytes_ok bs -> get_u64 bs = Ok (v, rest) ->
  exists used, bs = used ++ rest /\ vlq_shape used /\ (1 <= List.length used <= 10)%nat /\
    v = vlq_value used mod 2 ^ 64.
Proof.
  intros bs v rest Hok H. unfold get_u64 in H.
  pose proof H as H'. apply get_u64_loop_inv in H; auto; [|lia].
  destruct H as (used & -> & Hsh & Hl). exists used. repeat split; auto.
  - destruct used; [destruct Hsh|simpl; lia].
  - assert (Hg := get_u64_spec used rest Hsh Hl). unfold get_u64 in Hg.
    rewrite Hg in H'. injection H' as <-. reflexivity.
Qed.

Lemma get_u64_complete : forall bs, bytes_ok bs -> 
  (forall v rest, get_u64 bs <> Ok (v, rest)) ->
  ~ exists used rest, bs = used ++ rest /\ vlq_shape used /\ (List.length used <= 10)%nat.
Proof.
  intros bs Hok Hno (used & rest & -> & Hsh & Hl).
  apply (Hno _ _ (get_u64_spec used rest Hsh Hl)).
Qed.

Lemma get_u64_loop_no_panic : forall fuel shift r bs, get_u64_loop fuel shift r bs <> Panic.
Proof.
  induction fuel as [|f IH]; intros shift r bs; simpl; [discriminate|].
  destruct bs as [|b bs]; simpl; [discriminate|].
  destruct (Z.land b 128 =? 0); [discriminate|apply IH].
Qed.

Lemma vlq_value_bound : forall bs, 0 <= vlq_value bs < 128 ^ Zlen bs.
Proof.
  induction bs as [|b bs IH]; [cbn; lia|].
  rewrite Zlen_cons, Z.pow_add_r by (try lia; apply Zlen_nonneg).
  change (128 ^ 1) with 128. cbn [vlq_value]. lia.
Qed.

(** The writer's encoding is the shortest chain for the number. *)
Lemma put_u64_minimal : forall v bs used, u64 v -> put_u64 v = Ok bs ->
  vlq_shape used -> vlq_value used = v -> (List.length bs <= List.length used)%nat.
Proof.
  intros v bs used Hv Hp Hsh Hval.
  destruct (put_u64_spec v Hv) as (bs' & H1 & _ & _ & H4 & H5).
  rewrite Hp in H1. injection H1 as <-.
  destruct H5 as [H5|H5].
  - destruct used; [destruct Hsh|simpl; lia].
  - pose proof (vlq_value_bound used) as Hb. rewrite Hval in Hb.
    assert (128 ^ (Zlen bs - 1) < 128 ^ Zlen used) by lia.
    apply Z.pow_lt_mono_r_iff in H; unfold Zlen in *; lia.
Qed.

(** *** Big-endian helpers *)
Lemma be_bytes_length : forall n v, List.length (be_bytes n v) = n.
Proof.
  induction n; intros; simpl; auto. rewrite app_length, IHn. simpl. lia.
Qed.

Lemma be_bytes_ok : forall n v, bytes_ok (be_bytes n v).
Proof.
  induction n; intros; simpl; [constructor|]. apply Forall_app. split; [apply IHn|].
  constructor; [unfold byte; lia|constructor].
Qed.

Lemma be_value_snoc : forall l b, be_value (l ++ [b]) = be_value l * 256 + b.
Proof. intros. unfold be_value. rewrite fold_left_app. reflexivity. Qed.

Lemma be_value_bytes : forall n v, be_value (be_bytes n v) = v mod 256 ^ Z.of_nat n.
Proof.
  induction n; intros v.
  - simpl. rewrite Z.mod_1_r. reflexivity.
  - cbn [be_bytes]. rewrite be_value_snoc, IHn.
    rewrite Nat2Z.inj_succ, Z.pow_succ_r by lia.
    assert (0 < 256 ^ Z.of_nat n) by (apply Z.pow_pos_nonneg; lia).
    rewrite (Z.rem_mul_r v 256) by lia. lia.
Qed.

Lemma be_value_cons : forall b l, be_value (b :: l) = b * 256 ^ Zlen l + be_value l.
Proof.
  intros b l. revert b. induction l as [|x l IH] using rev_ind; intros b.
  - unfold be_value. simpl. lia.
  - rewrite app_comm_cons, !be_value_snoc, IH.
    replace (Zlen (l ++ [x])) with (Zlen l + 1) by (rewrite Zlen_app; reflexivity).
    rewrite Z.pow_add_r by (try lia; apply Zlen_nonneg). ring.
Qed.

Lemma be_value_bound : forall l, bytes_ok l -> 0 <= be_value l < 256 ^ Zlen l.
Proof.
  induction l as [|b l IH]; intros H.
  - cbn. lia.
  - inversion H as [|? ? Hb Hl]; subst. specialize (IH Hl). rewrite be_value_cons, Zlen_cons.
    rewrite Z.pow_add_r by (try lia; apply Zlen_nonneg). change (256 ^ 1) with 256.
    unfold byte in Hb. nia.
Qed.

Lemma be_bytes_value : forall l, bytes_ok l -> be_bytes (List.length l) (be_value l) = l.
Proof.
  induction l as [|b l IH] using rev_ind; intros H; [reflexivity|].
  apply Forall_app in H. destruct H as [Hl Hb]. inversion Hb; subst. unfold byte in *.
  rewrite app_length. simpl. rewrite Nat.add_1_r. cbn [be_bytes].
  rewrite be_value_snoc. f_equal.
  - replace ((be_value l * 256 + b) / 256) with (be_value l) by lia. apply IH; auto.
  - f_equal. lia.
Qed.

Lemma be_bytes_inj : forall n a b, 0 <= a < 256 ^ Z.of_nat n -> 0 <= b < 256 ^ Z.of_nat n ->
  be_bytes n a = be_bytes n b -> a = b.
Proof.
  intros n a b Ha Hb H. apply (f_equal be_value) in H.
  rewrite !be_value_bytes, !Z.mod_small in H by auto. exact H.
Qed.

(** *** Bits *)
Lemma bits_value_range : forall l, 0 <= bits_value l < 2 ^ Zlen l.
Proof.
  induction l as [|b l IH]; [cbn; lia|].
  rewrite Zlen_cons, Z.pow_add_r by (try lia; apply Zlen_nonneg). cbn [bits_value].
  change (2 ^ 1) with 2. destruct b; lia.
Qed.

Lemma testbit_bits_value : forall l i, Z.testbit (bits_value l) (Z.of_nat i) = nth i l false.
Proof.
  induction l as [|b l IH]; intros i.
  - simpl. rewrite Z.bits_0. destruct i; reflexivity.
  - cbn [bits_value].
    assert (Hb : bits_value (b :: l) = 2 * bits_value l + Z.b2z b)
      by (cbn [bits_value]; destruct b; cbn [Z.b2z]; lia).
    cbn [bits_value] in Hb. rewrite Hb.
    destruct i as [|i].
    + simpl. apply Z.testbit_0_r.
    + rewrite Nat2Z.inj_succ. rewrite Z.testbit_succ_r by lia. simpl. apply IH.
Qed.

Lemma byte_bits_value : forall l, (List.length l <= 8)%nat ->
  byte_bits (bits_value l) = l ++ repeat false (8 - List.length l).
Proof.
  intros l Hl. unfold byte_bits.
  pose proof (testbit_bits_value l) as H.
  pose proof (H 0%nat) as H0. pose proof (H 1%nat) as H1. pose proof (H 2%nat) as H2.
  pose proof (H 3%nat) as H3. pose proof (H 4%nat) as H4. pose proof (H 5%nat) as H5.
  pose proof (H 6%nat) as H6. pose proof (H 7%nat) as H7. clear H.
  simpl Z.of_nat in *. rewrite H0, H1, H2, H3, H4, H5, H6, H7.
  do 9 (destruct l as [|? l]; [reflexivity|simpl in Hl; try lia]).
Qed.

Lemma get_bits_put : forall bits rest fuel, (List.length bits <= fuel)%nat ->
  List.length (put_bits_bytes fuel bits) = ((List.length bits + 7) / 8)%nat /\
  firstn (List.length bits) (flat_map byte_bits (put_bits_bytes fuel bits) ++ rest) = bits.
Proof.
  intros bits rest fuel. revert bits rest.
  induction fuel as [|fuel IH]; intros bits rest Hf.
  - destruct bits; [|simpl in Hf; lia]. simpl. auto.
  - destruct bits as [|b0 bits0] eqn:Eb; [simpl; auto|].
    assert (Hne : (0 < List.length bits)%nat) by (rewrite Eb; simpl; lia).
    rewrite <- Eb in *. clear b0 bits0 Eb.
    assert (Hsimp : put_bits_bytes (S fuel) bits =
                    bits_value (firstn 8 bits) :: put_bits_bytes fuel (skipn 8 bits)).
    { destruct bits; [simpl in Hne; lia|reflexivity]. }
    rewrite Hsimp.
    assert (Hls : List.length (skipn 8 bits) = (List.length bits - 8)%nat) by apply skipn_length.
    destruct (IH (skipn 8 bits) rest) as [IHl IHf]; [lia|].
    split.
    + cbn [List.length]. rewrite IHl, Hls. 
      destruct (Nat.le_gt_cases (List.length bits) 8) as [Hle|Hgt].
      * replace (List.length bits - 8 + 7)%nat with 7%nat by lia. change (7 / 8)%nat with 0%nat.
        apply (Nat.div_unique _ _ _ (List.length bits - 1)); lia.
      * replace (List.length bits + 7)%nat with (List.length bits - 8 + 7 + 1 * 8)%nat by lia.
        rewrite Nat.div_add by lia. lia.
    + cbn [flat_map]. rewrite byte_bits_value by (rewrite firstn_length; lia).
      destruct (Nat.le_gt_cases (List.length bits) 8) as [Hle|Hgt].
      * rewrite (firstn_all2 bits) by lia.
        rewrite <- !app_assoc, firstn_app, firstn_all, Nat.sub_diag, firstn_O, app_nil_r. reflexivity.
      * replace (8 - List.length (firstn 8 bits))%nat with 0%nat by (rewrite firstn_length; lia).
        cbn [repeat]. rewrite app_nil_r, <- app_assoc, firstn_app.
        rewrite (firstn_all2 (firstn 8 bits)) by (rewrite firstn_length; lia).
        rewrite firstn_length. replace (Nat.min 8 (List.length bits)) with 8%nat by lia.
        rewrite Hls in IHf. rewrite IHf. apply firstn_skipn.
Qed.

Lemma get_put_bits : forall bits, roundtrip put_bits (get_bits (List.length bits)) bits.
Proof.
  intros bits. unfold roundtrip, put_bits. eexists. split; [reflexivity|]. intros rest.
  destruct (get_bits_put bits [] (List.length bits) (le_n _)) as [Hl Hf].
  unfold get_bits. rewrite read_exact_app by exact Hl. cbn [bind].
  rewrite app_nil_r in Hf. rewrite Hf. reflexivity.
Qed.

Lemma put_bits_padding : forall bits bs, put_bits bits = Ok bs ->
  List.length bs = ((List.length bits + 7) / 8)%nat.
Proof.
  intros bits bs H. injection H as <-.
  apply (get_bits_put bits [] _ (le_n _)).
Qed.

(** *** Short strings and options *)
Lemma get_put_short_string : forall s, utf8_valid s = true -> Zlen s <= 255 ->
  roundtrip put_short_string get_short_string s.
Proof.
  intros s Hu Hl. unfold put_short_string, roundtrip.
  replace (Zlen s >? 255) with false by lia.
  eexists. split; [reflexivity|]. intros rest. unfold get_short_string. cbn [get_u8 bind app].
  assert (Hw : Z.to_nat (wrapu 8 (Zlen s)) = List.length s).
  { unfold wrapu, Zlen in *. change (2 ^ 8) with 256. rewrite Z.mod_small by lia. lia. }
  rewrite read_exact_app by auto. cbn [bind]. rewrite Hu. reflexivity.
Qed.

Lemma put_short_string_long : forall s, Zlen s > 255 -> exists e, put_short_string s = Err e.
Proof.
  intros s H. unfold put_short_string. replace (Zlen s >? 255) with true by lia. eauto.
Qed.

Lemma get_put_option : forall A (w : A -> res bytes) (r : reader A) (o : option A),
  (forall a, o = Some a -> roundtrip w r a) ->
  roundtrip (put_option w) (get_option r) o.
Proof.
  intros A w r [a|] H; unfold roundtrip.
  - destruct (H a eq_refl) as (bs & H1 & H2). exists (1 :: bs). simpl. rewrite H1. split; auto.
    intros rest. cbn. rewrite H2. reflexivity.
  - exists [0]. split; reflexivity.
Qed.

(** *** Ranges of the narrow readers *)
Lemma lxor_range : forall n a b, 0 <= n -> - 2 ^ n <= a < 2 ^ n -> (b = 0 \/ b = -1) ->
  - 2 ^ n <= Z.lxor a b < 2 ^ n.
Proof.
  intros n a b Hn Ha [->| ->].
  - rewrite Z.lxor_0_r. auto.
  - rewrite lxor_m1. lia.
Qed.

Lemma wraps_range : forall n a, 0 < n -> - 2 ^ (n - 1) <= wraps n a < 2 ^ (n - 1).
Proof.
  intros n a Hn. unfold wraps.
  assert (0 < 2 ^ (n - 1)) by (apply Z.pow_pos_nonneg; lia).
  assert (2 ^ n = 2 * 2 ^ (n - 1)).
  { rewrite <- Z.pow_succ_r by lia. f_equal. lia. }
  pose proof (Z.mod_pos_bound (a + 2 ^ (n - 1)) (2 ^ n)). lia.
Qed.

Lemma wraps_id : forall n a, 0 < n -> - 2 ^ (n - 1) <= a < 2 ^ (n - 1) -> wraps n a = a.
Proof.
  intros n a Hn Ha. unfold wraps.
  assert (2 ^ n = 2 * 2 ^ (n - 1)).
  { rewrite <- Z.pow_succ_r by lia. f_equal. lia. }
  rewrite Z.mod_small by lia. lia.
Qed.

Lemma land1_cases : forall a, - Z.land a 1 = 0 \/ - Z.land a 1 = -1.
Proof. intros. change 1 with (Z.ones 1). rewrite Z.land_ones by lia. change (2 ^ 1) with 2. lia. Qed.

Lemma decode_u32_range : forall v, i32 (decode_u32 v).
Proof.
  intros v. unfold decode_u32, i32. apply lxor_range; [lia| |apply land1_cases].
  apply (wraps_range 32). lia.
Qed.

Lemma narrow_readers_in_range : forall bs v rest, bytes_ok bs ->
  (get_u16 bs = Ok (v, rest) -> u16 v) /\
  (get_u32 bs = Ok (v, rest) -> u32 v) /\
  (get_i16 bs = Ok (v, rest) -> i16 v) /\
  (get_i32 bs = Ok (v, rest) -> i32 v) /\
  (get_i64 bs = Ok (v, rest) -> i64 v).
Proof.
  intros bs v rest Hok.
  assert (Hnn : forall w r, get_u64 bs = Ok (w, r) -> 0 <= w).
  { intros w r H. destruct (get_u64_inv bs w r Hok H) as (u & _ & _ & _ & ->).
    apply Z.mod_pos_bound. reflexivity. }
  unfold get_u16, get_u32, get_i16, get_i32, get_i64.
  destruct (get_u64 bs) as [[w r]|e|]; cbn [bind];
    [|repeat split; discriminate|repeat split; discriminate].
  specialize (Hnn w r eq_refl).
  split; [|split; [|split; [|split]]].
  - destruct (w <? 2 ^ 16) eqn:E; intros H; [|discriminate]. injection H as <- <-. unfold u16. lia.
  - destruct (w <? 2 ^ 32) eqn:E; intros H; [|discriminate]. injection H as <- <-. unfold u32. lia.
  - destruct ((- 2 ^ 15 <=? decode_u32 w) && (decode_u32 w <? 2 ^ 15)) eqn:E; intros H; [|discriminate].
    injection H as <- <-. unfold i16. lia.
  - intros H. injection H as <- <-. apply decode_u32_range.
  - intros H. injection H as <- <-. unfold decode_u64. apply (wraps_range 64). lia.
Qed.
