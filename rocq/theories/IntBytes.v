(** Two's-complement big-endian byte strings of integers, as produced and read by
    the [num-bigint] crate ([BigInt::to_signed_bytes_be], [from_signed_bytes_be],
    [from_bytes_be(Sign::Plus, ..)]). *)
From Verif Require Import Base VlqModel VlqProofs.

(** Number of significant bits of a non-negative integer. *)
Definition nbits (m : Z) : Z := if m =? 0 then 0 else Z.log2 m + 1.

(** Shortest number of bytes holding [z] in two's complement. *)
Definition signed_len (z : Z) : nat :=
  Z.to_nat (nbits (if z <? 0 then - z - 1 else z) / 8 + 1).

(** num-bigint [BigInt::to_signed_bytes_be]: shortest two's complement form; zero is
    one zero byte. *)
Definition to_signed_bytes_be (z : Z) : bytes :=
  be_bytes (signed_len z) (z mod 256 ^ Z.of_nat (signed_len z)).

(** num-bigint [BigInt::from_signed_bytes_be]; the empty string is zero. *)
Definition from_signed_bytes_be (bs : bytes) : Z :=
  match bs with
  | [] => 0
  | b :: _ => if b <? 128 then be_value bs else be_value bs - 256 ^ Zlen bs
  end.

Lemma nbits_bound : forall m, 0 <= m -> 0 <= nbits m /\ m < 2 ^ nbits m /\ (0 < nbits m -> 2 ^ (nbits m - 1) <= m).
Proof.
  intros m Hm. unfold nbits. destruct (m =? 0) eqn:E.
  - apply Z.eqb_eq in E. subst. simpl. lia.
  - pose proof (Z.log2_spec m ltac:(lia)) as [H1 H2]. pose proof (Z.log2_nonneg m).
    replace (Z.log2 m + 1 - 1) with (Z.log2 m) by lia.
    change (Z.log2 m + 1) with (Z.succ (Z.log2 m)) at 2. lia.
Qed.

Lemma signed_len_pos : forall z, (1 <= signed_len z)%nat.
Proof.
  intros. unfold signed_len.
  pose proof (nbits_bound (if z <? 0 then - z - 1 else z) ltac:(destruct (z <? 0) eqn:E; lia)).
  lia.
Qed.

Lemma pow256 : forall n, 0 <= n -> 256 ^ n = 2 ^ (8 * n).
Proof. intros. change 256 with (2 ^ 8). rewrite <- Z.pow_mul_r by lia. reflexivity. Qed.

(** The two's complement range of the chosen length contains the number... *)
Lemma signed_len_fits : forall z, - (256 ^ Z.of_nat (signed_len z) / 2) <= z < 256 ^ Z.of_nat (signed_len z) / 2.
Proof.
  intros z. set (m := if z <? 0 then - z - 1 else z).
  assert (Hm : 0 <= m) by (unfold m; destruct (z <? 0) eqn:E; lia).
  pose proof (nbits_bound m Hm) as [Hb [Hlt _]].
  assert (Hn : Z.of_nat (signed_len z) = nbits m / 8 + 1) by (unfold signed_len; fold m; lia).
  rewrite Hn, pow256 by lia.
  replace (8 * (nbits m / 8 + 1)) with (1 + (8 * (nbits m / 8) + 7)) by lia.
  rewrite Z.pow_add_r by lia. change (2 ^ 1) with 2.
  rewrite (Z.mul_comm 2), Z.div_mul by lia.
  assert (2 ^ nbits m <= 2 ^ (8 * (nbits m / 8) + 7)) by (apply Z.pow_le_mono_r; lia).
  unfold m in *. clear Hn. destruct (z <? 0) eqn:E; lia.
Qed.

(** ...and no shorter length does. *)
Lemma signed_len_minimal : forall z k, (1 <= k)%nat ->
  - (256 ^ Z.of_nat k / 2) <= z < 256 ^ Z.of_nat k / 2 -> (signed_len z <= k)%nat.
Proof.
  intros z k Hk Hr. set (m := if z <? 0 then - z - 1 else z).
  assert (Hm : 0 <= m) by (unfold m; destruct (z <? 0) eqn:E; lia).
  pose proof (nbits_bound m Hm) as [Hb [_ Hge]].
  assert (Hn : Z.of_nat (signed_len z) = nbits m / 8 + 1) by (unfold signed_len; fold m; lia).
  rewrite pow256 in Hr by lia.
  replace (8 * Z.of_nat k) with (1 + (8 * Z.of_nat k - 1)) in Hr by lia.
  rewrite Z.pow_add_r in Hr by lia. change (2 ^ 1) with 2 in Hr.
  rewrite (Z.mul_comm 2), Z.div_mul in Hr by lia.
  assert (Hm2 : m < 2 ^ (8 * Z.of_nat k - 1)) by (unfold m; destruct (z <? 0) eqn:E; lia).
  destruct (Z.le_gt_cases (nbits m) (8 * Z.of_nat k - 1)) as [Hle|Hgt]; [lia|].
  exfalso. assert (2 ^ (8 * Z.of_nat k - 1) <= 2 ^ (nbits m - 1)) by (apply Z.pow_le_mono_r; lia). lia.
Qed.

Lemma to_signed_length : forall z, List.length (to_signed_bytes_be z) = signed_len z.
Proof. intros. apply be_bytes_length. Qed.

Lemma to_signed_ok : forall z, bytes_ok (to_signed_bytes_be z).
Proof. intros. apply be_bytes_ok. Qed.

(** Reading a non-empty string as two's complement. *)
Lemma from_signed_value : forall bs, bytes_ok bs -> bs <> [] ->
  from_signed_bytes_be bs =
    (if be_value bs <? 256 ^ Zlen bs / 2 then be_value bs else be_value bs - 256 ^ Zlen bs).
Proof.
  intros [|b bs] Hok Hne; [congruence|]. unfold from_signed_bytes_be.
  inversion Hok as [|? ? Hb Hok']; subst. unfold byte in Hb.
  pose proof (be_value_bound bs Hok'). rewrite be_value_cons, Zlen_cons.
  pose proof (Zlen_nonneg _ bs). rewrite Z.pow_add_r by lia. change (256 ^ 1) with 256.
  replace (256 * 256 ^ Zlen bs / 2) with (128 * 256 ^ Zlen bs).
  2: { replace (256 * 256 ^ Zlen bs) with (128 * 256 ^ Zlen bs * 2) by lia. rewrite Z.div_mul; lia. }
  assert (0 < 256 ^ Zlen bs) by (apply Z.pow_pos_nonneg; lia).
  destruct (b <? 128) eqn:E.
  - replace (_ <? _) with true; auto. symmetry. apply Z.ltb_lt. nia.
  - replace (_ <? _) with false; auto. symmetry. apply Z.ltb_ge. nia.
Qed.

Lemma from_to_signed : forall z, from_signed_bytes_be (to_signed_bytes_be z) = z.
Proof.
  intros z. pose proof (signed_len_pos z). pose proof (signed_len_fits z) as Hf.
  rewrite from_signed_value.
  - unfold Zlen. rewrite to_signed_length. unfold to_signed_bytes_be. rewrite be_value_bytes.
    set (M := 256 ^ Z.of_nat (signed_len z)) in *.
    assert (HM : M = 2 * (M / 2)).
    { subst M. rewrite pow256 by lia.
      replace (8 * Z.of_nat (signed_len z)) with (1 + (8 * Z.of_nat (signed_len z) - 1)) by lia.
      rewrite Z.pow_add_r by lia. change (2 ^ 1) with 2.
      rewrite (Z.mul_comm 2), Z.div_mul by lia. lia. }
    assert (HP : 0 < M) by (subst M; apply Z.pow_pos_nonneg; lia).
    rewrite Z.mod_mod by lia. set (h := M / 2) in *. clearbody h M.
    destruct (Z.lt_ge_cases z 0).
    + replace (z mod M) with (z + M).
      * replace (z + M <? h) with false by lia. lia.
      * apply Z.mod_unique_pos with (q := -1); lia.
    + rewrite Z.mod_small by lia. replace (z <? h) with true by lia. reflexivity.
  - apply to_signed_ok.
  - intros E. pose proof (to_signed_length z). rewrite E in H0. simpl in H0. lia.
Qed.

Lemma from_signed_range : forall bs, bytes_ok bs ->
  - (256 ^ Zlen bs / 2) <= from_signed_bytes_be bs < 256 ^ Zlen bs / 2 \/ bs = [].
Proof.
  intros bs Hok. destruct bs as [|b bs]; [auto|]. left.
  rewrite from_signed_value by (auto; discriminate).
  pose proof (be_value_bound (b :: bs) Hok).
  assert (HE : exists h, 256 ^ Zlen (b :: bs) = 2 * h).
  { exists (128 * 256 ^ Zlen bs). rewrite Zlen_cons. pose proof (Zlen_nonneg _ bs).
    rewrite Z.pow_add_r by lia. lia. }
  destruct HE as [h Eh]. rewrite Eh in *. replace (2 * h / 2) with h by lia.
  destruct (_ <? h) eqn:E; lia.
Qed.

(** A string no longer than necessary is the one the writer produces. *)
Lemma to_from_signed : forall bs, bytes_ok bs ->
  signed_len (from_signed_bytes_be bs) = List.length bs ->
  to_signed_bytes_be (from_signed_bytes_be bs) = bs.
Proof.
  intros bs Hok HL. unfold to_signed_bytes_be. rewrite HL.
  assert (Hne : bs <> []).
  { intros ->. pose proof (signed_len_pos (from_signed_bytes_be [])). simpl in *. lia. }
  rewrite from_signed_value by auto. fold (Zlen bs).
  pose proof (be_value_bound bs Hok). 
  assert (HE : (if be_value bs <? 256 ^ Zlen bs / 2 then be_value bs else be_value bs - 256 ^ Zlen bs)
    mod 256 ^ Zlen bs = be_value bs).
  { destruct (_ <? _).
    - apply Z.mod_small. lia.
    - symmetry. apply Z.mod_unique_pos with (q := -1); lia. }
  rewrite HE. apply be_bytes_value. exact Hok.
Qed.
