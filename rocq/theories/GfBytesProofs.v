(** Byte conversions of field elements and polynomials. *)
From Coq Require Import NArith List Lia Bool.
From Verif Require Import Base GfModel Clmul GfProofs GfInvProofs GfFieldProofs PolyProofs.
Import ListNotations.
Open Scope N_scope.

Fixpoint le_val (bs : bytes) : N :=
  match bs with [] => 0 | b :: r => Z.to_N b + 256 * le_val r end.

Lemma lor_disjoint_add : forall a b n, a < 2 ^ n -> N.lor a (N.shiftl b n) = a + b * 2 ^ n.
Proof.
  intros a b n Ha. rewrite <- N.shiftl_mul_pow2.
  assert (H : N.land a (N.shiftl b n) = 0).
  { apply N.bits_inj_0. intros i. rewrite N.land_spec.
    destruct (N.lt_ge_cases i n).
    - rewrite N.shiftl_spec_low by auto. apply andb_false_r.
    - rewrite (proj1 (lt_pow2_bits a n) Ha i) by auto. reflexivity. }
  rewrite <- N.lxor_lor by auto. symmetry. apply N.add_nocarry_lxor. auto.
Qed.

Lemma fold_word : forall bs k acc,
  bytes_ok bs -> acc < 2 ^ (8 * N.of_nat k) ->
  fold_left (fun acc ib => N.lor acc (N.shiftl (N.land (Z.to_N (snd ib)) 255) (8 * fst ib)))
    (combine (map N.of_nat (seq k (length bs))) bs) acc
  = acc + le_val bs * 2 ^ (8 * N.of_nat k).
Proof.
  induction bs as [|b bs IH]; intros k acc Hb Ha.
  - simpl. lia.
  - cbn [length seq map combine fold_left fst snd].
    inversion Hb as [|? ? Hb0 Hbs]; subst. red in Hb0.
    assert (Hl : N.land (Z.to_N b) 255 = Z.to_N b).
    { change 255 with (N.ones 8). rewrite N.land_ones. apply N.mod_small.
      change (2 ^ 8) with 256. lia. }
    rewrite Hl, lor_disjoint_add by auto.
    rewrite IH; auto.
    + cbn [le_val]. replace (8 * N.of_nat (S k)) with (8 * N.of_nat k + 8) by lia.
      rewrite N.pow_add_r. change (2 ^ 8) with 256. lia.
    + replace (8 * N.of_nat (S k)) with (8 * N.of_nat k + 8) by lia.
      rewrite N.pow_add_r. change (2 ^ 8) with 256.
      assert (Z.to_N b < 256) by lia. nia.
Qed.

Lemma word_of_bytes_val : forall bs, bytes_ok bs -> length bs = 8%nat ->
  word_of_bytes bs = le_val bs.
Proof.
  intros bs Hb Hl. unfold word_of_bytes.
  change [0; 1; 2; 3; 4; 5; 6; 7] with (map N.of_nat (seq 0 8)).
  rewrite <- Hl. rewrite (fold_word bs 0 0) by (auto; reflexivity).
  change (2 ^ (8 * N.of_nat 0)) with 1. lia.
Qed.

Lemma word_of_bytes_lt : forall bs, bytes_ok bs -> length bs = 8%nat ->
  word_of_bytes bs < 2 ^ 64.
Proof.
  intros bs Hb Hl. rewrite word_of_bytes_val by auto.
  replace 64 with (8 * N.of_nat (length bs)) by (rewrite Hl; reflexivity). clear Hl.
  induction Hb as [|b bs Hb0 Hbs IH]; [reflexivity|].
  cbn [le_val length]. replace (8 * N.of_nat (S (length bs))) with (8 + 8 * N.of_nat (length bs)) by lia.
  rewrite N.pow_add_r. change (2 ^ 8) with 256. red in Hb0. assert (Z.to_N b < 256) by lia. nia.
Qed.

Lemma byte_of_word_le : forall bs (i : nat), bytes_ok bs -> (i < length bs)%nat ->
  byte_of_word (le_val bs) (N.of_nat i) = nth i bs 0%Z.
Proof.
  intros bs i Hb. revert i. induction Hb as [|b bs Hb0 Hbs IH]; intros i Hi; [simpl in Hi; lia|].
  red in Hb0. unfold byte_of_word in *. change 255 with (N.ones 8) in *.
  rewrite N.land_ones. change (2 ^ 8) with 256. cbn [le_val].
  destruct i as [|i].
  - change (8 * N.of_nat 0) with 0. rewrite N.shiftr_0_r. cbn [nth].
    replace (Z.to_N b + 256 * le_val bs) with (Z.to_N b + le_val bs * 256) by lia.
    rewrite N.mod_add by discriminate. rewrite N.mod_small by lia. lia.
  - cbn [nth]. rewrite <- IH by (simpl in Hi; lia). rewrite N.land_ones. change (2 ^ 8) with 256.
    replace (8 * N.of_nat (S i)) with (8 + 8 * N.of_nat i) by lia.
    rewrite <- N.shiftr_shiftr. do 3 f_equal.
    rewrite N.shiftr_div_pow2. change (2 ^ 8) with 256.
    replace (Z.to_N b + 256 * le_val bs) with (Z.to_N b + le_val bs * 256) by lia.
    rewrite N.div_add by discriminate. rewrite N.div_small by lia. lia.
Qed.

Lemma word_bytes_of : forall bs, bytes_ok bs -> length bs = 8%nat ->
  word_bytes (word_of_bytes bs) = bs.
Proof.
  intros bs Hb Hl. rewrite word_of_bytes_val by auto. unfold word_bytes.
  change [0; 1; 2; 3; 4; 5; 6; 7] with (map N.of_nat (seq 0 8)).
  rewrite map_map. rewrite <- Hl.
  apply nth_ext with (d := byte_of_word (le_val bs) (N.of_nat 0)) (d' := 0%Z).
  - rewrite map_length, seq_length. reflexivity.
  - intros i Hi. rewrite map_length, seq_length in Hi.
    rewrite (map_nth (fun x => byte_of_word (le_val bs) (N.of_nat x)) (seq 0 (length bs)) 0%nat).
    rewrite seq_nth by auto. simpl. apply byte_of_word_le; auto.
Qed.

Lemma byte_of_word_ok : forall w i, byte (byte_of_word w i).
Proof.
  intros w i. unfold byte, byte_of_word. change 255 with (N.ones 8). rewrite N.land_ones.
  pose proof (N.mod_lt (N.shiftr w (8 * i)) (2 ^ 8) ltac:(discriminate)).
  change (2 ^ 8) with 256 in *. lia.
Qed.
Lemma word_bytes_ok : forall w, bytes_ok (word_bytes w).
Proof. intros w. unfold word_bytes. repeat constructor; apply byte_of_word_ok. Qed.

Lemma le_val_bytes : forall n (k : nat) w, w < 2 ^ (8 * N.of_nat (k + n)) ->
  le_val (map (fun i => byte_of_word w (N.of_nat i)) (seq k n)) = N.shiftr w (8 * N.of_nat k).
Proof.
  induction n as [|n IH]; intros k w Hw.
  - cbn [seq map le_val]. symmetry. rewrite N.shiftr_div_pow2. apply N.div_small.
    replace (k + 0)%nat with k in Hw by lia. exact Hw.
  - cbn [seq map le_val]. rewrite IH by (replace (S k + n)%nat with (k + S n)%nat by lia; exact Hw).
    unfold byte_of_word. rewrite N2Z.id. change 255 with (N.ones 8). rewrite N.land_ones.
    replace (8 * N.of_nat (S k)) with (8 * N.of_nat k + 8) by lia.
    rewrite <- N.shiftr_shiftr. rewrite (N.shiftr_div_pow2 (N.shiftr w (8 * N.of_nat k)) 8).
    change (2 ^ 8) with 256. set (x := N.shiftr w (8 * N.of_nat k)).
    pose proof (N.div_mod x 256 ltac:(discriminate)). lia.
Qed.

Lemma word_of_word_bytes : forall w, w < 2 ^ 64 -> word_of_bytes (word_bytes w) = w.
Proof.
  intros w Hw. rewrite word_of_bytes_val by (auto using word_bytes_ok).
  change (word_bytes w) with (map (fun i => byte_of_word w (N.of_nat i)) (seq 0 8)).
  rewrite le_val_bytes by exact Hw. apply N.shiftr_0_r.
Qed.

Lemma gf_to_bytes_length : forall g, length (gf_to_bytes g) = 24%nat.
Proof. reflexivity. Qed.
Lemma gf_to_bytes_ok : forall g, bytes_ok (gf_to_bytes g).
Proof.
  intros g. unfold gf_to_bytes. apply Forall_app. split; [apply word_bytes_ok|].
  apply Forall_app. split; apply word_bytes_ok.
Qed.

Lemma gf_from_to_bytes_app : forall g rest, wf g -> gf_from_bytes24 (gf_to_bytes g ++ rest) = g.
Proof.
  intros [a b c] rest (Ha & Hb & Hc). cbn [w0 w1 w2] in *.
  unfold gf_from_bytes24, gf_to_bytes. cbn [w0 w1 w2]. rewrite <- !app_assoc.
  change (skipn 8 (word_bytes a ++ word_bytes b ++ word_bytes c ++ rest))
    with (word_bytes b ++ word_bytes c ++ rest).
  change (skipn 16 (word_bytes a ++ word_bytes b ++ word_bytes c ++ rest))
    with (word_bytes c ++ rest).
  change (firstn 8 (word_bytes a ++ word_bytes b ++ word_bytes c ++ rest)) with (word_bytes a).
  change (firstn 8 (word_bytes b ++ word_bytes c ++ rest)) with (word_bytes b).
  change (firstn 8 (word_bytes c ++ rest)) with (word_bytes c).
  rewrite !word_of_word_bytes by auto. reflexivity.
Qed.
Lemma gf_from_to_bytes : forall g, wf g -> gf_from_bytes24 (gf_to_bytes g) = g.
Proof. intros g H. rewrite <- (app_nil_r (gf_to_bytes g)). apply gf_from_to_bytes_app; auto. Qed.

Lemma bytes_ok_firstn : forall n bs, bytes_ok bs -> bytes_ok (firstn n bs).
Proof.
  intros n bs H. rewrite <- (firstn_skipn n bs) in H. apply Forall_app in H. apply H.
Qed.
Lemma bytes_ok_skipn : forall n bs, bytes_ok bs -> bytes_ok (skipn n bs).
Proof.
  intros n bs H. rewrite <- (firstn_skipn n bs) in H. apply Forall_app in H. apply H.
Qed.

Lemma gf_to_from_bytes : forall bs, bytes_ok bs -> length bs = 24%nat ->
  wf (gf_from_bytes24 bs) /\ gf_to_bytes (gf_from_bytes24 bs) = bs.
Proof.
  intros bs Hb Hl. unfold gf_from_bytes24, gf_to_bytes. cbn [w0 w1 w2].
  assert (H1 : length (firstn 8 bs) = 8%nat) by (rewrite firstn_length; lia).
  assert (H2 : length (firstn 8 (skipn 8 bs)) = 8%nat) by (rewrite firstn_length, skipn_length; lia).
  assert (H3 : length (firstn 8 (skipn 16 bs)) = 8%nat) by (rewrite firstn_length, skipn_length; lia).
  assert (B1 : bytes_ok (firstn 8 bs)) by (apply bytes_ok_firstn; auto).
  assert (B2 : bytes_ok (firstn 8 (skipn 8 bs))) by (apply bytes_ok_firstn, bytes_ok_skipn; auto).
  assert (B3 : bytes_ok (firstn 8 (skipn 16 bs))) by (apply bytes_ok_firstn, bytes_ok_skipn; auto).
  split.
  - repeat split; apply word_of_bytes_lt; auto.
  - rewrite !word_bytes_of by auto.
    rewrite (firstn_all2 (skipn 16 bs)) by (rewrite skipn_length; lia).
    replace (skipn 16 bs) with (skipn 8 (skipn 8 bs)) by (rewrite skipn_add; reflexivity).
    rewrite !firstn_skipn. reflexivity.
Qed.

(** *** Polynomials *)
Lemma poly_read_bytes : forall l rest, Forall wf l ->
  poly_read (length l) (flat_map gf_to_bytes l ++ rest) = Ok l.
Proof.
  induction l as [|g l IH]; intros rest H; [reflexivity|].
  inversion H; subst. cbn [length poly_read flat_map]. rewrite <- app_assoc.
  unfold gf_try_from_bytes. rewrite app_length, gf_to_bytes_length.
  replace (Nat.ltb (24 + length (flat_map gf_to_bytes l ++ rest)) 24) with false
    by (symmetry; apply Nat.ltb_ge; lia).
  cbn [bind]. rewrite gf_from_to_bytes_app by auto.
  replace (skipn 24 (gf_to_bytes g ++ flat_map gf_to_bytes l ++ rest))
    with (flat_map gf_to_bytes l ++ rest).
  - rewrite IH by auto. reflexivity.
  - rewrite skipn_app, (skipn_all2 (gf_to_bytes g)) by (rewrite gf_to_bytes_length; lia).
    rewrite gf_to_bytes_length. reflexivity.
Qed.

Lemma poly_to_bytes_tail : forall c l, poly_to_bytes (Poly (c :: l) (length l)) = flat_map gf_to_bytes l.
Proof.
  intros c l. unfold poly_to_bytes, coeff. cbn [coefficients degree].
  rewrite <- seq_shift, flat_map_concat_map, map_map. cbn [nth].
  rewrite flat_map_concat_map. f_equal.
  apply nth_ext with (d := gf_to_bytes (nth 0 l gf_zero)) (d' := gf_to_bytes gf_zero).
  - rewrite !map_length, seq_length. reflexivity.
  - intros i Hi. rewrite map_length, seq_length in Hi.
    rewrite (map_nth (fun x => gf_to_bytes (nth x l gf_zero)) (seq 0 (length l)) 0%nat).
    rewrite map_nth, seq_nth by auto. reflexivity.
Qed.

Lemma flat_bytes_length : forall l, length (flat_map gf_to_bytes l) = (length l * 24)%nat.
Proof.
  induction l as [|g l IH]; [reflexivity|]. cbn [flat_map length]. rewrite app_length, IH, gf_to_bytes_length. lia.
Qed.

Theorem poly_roundtrip : forall p, pwf p -> length (coefficients p) = S (degree p) ->
  length (poly_to_bytes p) = (degree p * 24)%nat /\
  poly_from_bytes (gf_to_bytes (coeff p 0)) (poly_to_bytes p) = Ok p.
Proof.
  intros [cs d] [Hw _] Hl. cbn [coefficients degree] in *.
  destruct cs as [|c l]; [discriminate|]. simpl in Hl. injection Hl as <-.
  inversion Hw; subst.
  rewrite poly_to_bytes_tail. split; [apply flat_bytes_length|].
  unfold poly_from_bytes. rewrite flat_bytes_length, Nat.div_mul by discriminate.
  rewrite <- (app_nil_r (flat_map gf_to_bytes l)), poly_read_bytes by auto. cbn [bind].
  unfold coeff. cbn [coefficients nth]. rewrite gf_from_to_bytes by auto. reflexivity.
Qed.

Lemma poly_read_total : forall n bs, bytes_ok bs -> (n * 24 <= length bs)%nat ->
  exists l, poly_read n bs = Ok l /\ length l = n /\ Forall wf l /\
    flat_map gf_to_bytes l = firstn (n * 24) bs.
Proof.
  induction n as [|n IH]; intros bs Hb Hl.
  - exists []. repeat split; auto.
  - cbn [poly_read]. unfold gf_try_from_bytes.
    replace (Nat.ltb (length bs) 24) with false by (symmetry; apply Nat.ltb_ge; lia).
    cbn [bind]. destruct (IH (skipn 24 bs)) as (l & H1 & H2 & H3 & H4).
    + apply bytes_ok_skipn; auto.
    + rewrite skipn_length. lia.
    + rewrite H1. cbn [bind].
      assert (E : gf_from_bytes24 bs = gf_from_bytes24 (firstn 24 bs)).
      { unfold gf_from_bytes24. rewrite !skipn_firstn_comm, !firstn_firstn. reflexivity. }
      assert (L : length (firstn 24 bs) = 24%nat) by (rewrite firstn_length; lia).
      destruct (gf_to_from_bytes (firstn 24 bs) (bytes_ok_firstn 24 bs Hb) L) as [W1 W2].
      exists (gf_from_bytes24 bs :: l). split; [reflexivity|]. split; [simpl; lia|].
      rewrite E. split; [constructor; auto|]. cbn [flat_map]. rewrite W2, H4.
      replace (S n * 24)%nat with (24 + n * 24)%nat by lia.
      rewrite <- (firstn_skipn 24 bs) at 3. rewrite firstn_app.
      rewrite firstn_firstn, L. replace (Nat.min (24 + n * 24) 24) with 24%nat by lia.
      replace (24 + n * 24 - 24)%nat with (n * 24)%nat by lia. reflexivity.
Qed.

Theorem poly_bytes_roundtrip : forall c0 more n, bytes_ok c0 -> length c0 = 24%nat ->
  bytes_ok more -> length more = (n * 24)%nat ->
  exists p, poly_from_bytes c0 more = Ok p /\ degree p = n /\
    length (coefficients p) = S n /\ pwf p /\
    gf_to_bytes (coeff p 0) = c0 /\ poly_to_bytes p = more.
Proof.
  intros c0 more n Hc Hcl Hm Hml. unfold poly_from_bytes.
  rewrite Hml, Nat.div_mul by discriminate.
  destruct (poly_read_total n more Hm) as (l & H1 & H2 & H3 & H4); [lia|].
  rewrite H1. cbn [bind].
  destruct (gf_to_from_bytes c0 Hc Hcl) as [W1 W2].
  eexists. split; [reflexivity|]. cbn [degree coefficients length]. split; auto.
  split; [lia|]. split.
  - split; cbn [coefficients degree]; [constructor; auto|simpl; lia].
  - unfold coeff. cbn [coefficients nth]. split; [exact W2|].
    rewrite <- H2, poly_to_bytes_tail, H4. rewrite firstn_all2; auto. lia.
Qed.
