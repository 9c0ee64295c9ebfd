(** Properties C48 and C49: compact difficulties and Autolykos helpers. *)
From Verif Require Import Base VlqModel VlqProofs IntBytes GroupModel GroupInstance MerkleModel HeaderModel
  HeaderProps PowModel PowProofs.
Local Open Scope string_scope.
Local Open Scope list_scope.
Local Open Scope Z_scope.

(** ** C48 *)

(** Every compact value decodes to the number its definition gives ([compact_value],
    PowProofs.v): sign bit 23, mantissa in the low 23 bits, exponent in bits 24-31. *)
Theorem c48_compact_bits : forall n_bits, u64 n_bits -> decode_compact_bits n_bits = compact_value n_bits.
Proof. intros. apply compact_spec. Qed.
Print Assumptions c48_compact_bits.

(** For difficulties in use (size at least three, sign clear) this is
    [mantissa * 256^(size-3)]. *)
Theorem c48_normal_form : forall size mantissa,
  3 <= size < 256 -> 0 <= mantissa < 2 ^ 23 ->
  decode_compact_bits (size * 2 ^ 24 + mantissa) = mantissa * 256 ^ (size - 3).
Proof.
  intros size m Hs Hm. rewrite compact_spec. unfold compact_value.
  change (2 ^ 24) with 16777216 in *. change (2 ^ 23) with 8388608 in *.
  replace ((size * 16777216 + m) / 16777216) with size by lia.
  rewrite (Z.mod_small size) by lia. replace (size <? 3) with false by lia.
  rewrite testbit23. change (2 ^ 16) with 65536.
  replace (128 <=? ((size * 16777216 + m) / 65536) mod 256) with false.
  - f_equal. replace (size * 16777216 + m) with (m + (2 * size) * 8388608) by lia.
    rewrite Z_mod_plus_full. apply Z.mod_small. lia.
  - symmetry. apply Z.leb_gt.
    replace ((size * 16777216 + m) / 65536) with (m / 65536 + size * 256) by lia.
    rewrite Z_mod_plus_full. lia.
Qed.
Print Assumptions c48_normal_form.

Example c48_hyps_met :
  decode_compact_bits 117501863 = 61351 * 256 ^ 4 /\
  decode_compact_bits 0x05c0de00 = - 0x40de000000 /\ decode_compact_bits 0x01123456 = 0x12.
Proof. vm_compute. repeat split; reflexivity. Qed.

(** ** C49 *)

(** Fixed-length conversion: the big-endian digits, or an error exactly when they do not fit. *)
Theorem c49_fixed_length_bytes : forall n z, 0 <= z ->
  (z < 256 ^ Z.of_nat n -> exists bs, as_unsigned_byte_array n z = Ok bs /\
     List.length bs = n /\ bytes_ok bs /\ be_value bs = z) /\
  (256 ^ Z.of_nat n <= z -> exists e, as_unsigned_byte_array n z = Err e).
Proof.
  intros n z Hz. rewrite as_unsigned_spec by exact Hz. split; intros Hlt.
  - replace (z <? 256 ^ Z.of_nat n) with true by lia. exists (be_bytes n z).
    split; [reflexivity|]. split; [apply be_bytes_length|]. split; [apply be_bytes_ok|].
    rewrite be_value_bytes. apply Z.mod_small. lia.
  - replace (z <? 256 ^ Z.of_nat n) with false by lia. eexists. reflexivity.
Qed.
Print Assumptions c49_fixed_length_bytes.

(** The table size never decreases with height, starts at 2^26 and stays below 2^31. *)
Theorem c49_table_size : forall v h1 h2, 0 <= h1 <= h2 ->
  2 ^ 26 <= calc_big_n v h1 <= calc_big_n v h2 /\ calc_big_n v h2 <= 2143944600.
Proof.
  intros v h1 h2 Hle. unfold calc_big_n. change (2 ^ n_param) with 67108864. change (2 ^ 26) with 67108864.
  destruct (v =? 1); [lia|].
  set (a1 := Z.min 4198400 h1). set (a2 := Z.min 4198400 h2). assert (Ha : 0 <= a1 <= a2 /\ a2 <= 4198400) by lia.
  clearbody a1 a2. change (600 * 1024) with 614400. change (50 * 1024) with 51200.
  assert (HB : forall a, 614400 <= a <= 4198400 ->
     Nat.iter (Z.to_nat ((a - 614400) / 51200 + 1)) grow 67108864 <= 2143944600).
  { intros a Ha'. transitivity (Nat.iter 71 grow 67108864); [|vm_compute; discriminate].
    apply iter_grow_mono; lia. }
  destruct (a1 <? 614400) eqn:E1; destruct (a2 <? 614400) eqn:E2; try lia.
  - split; [|apply HB; lia]. split; [lia|]. apply iter_grow_ge. lia.
  - split; [|apply HB; lia]. split; [apply iter_grow_ge; lia|].
    apply iter_grow_mono; [lia|]. apply Z2Nat.inj_le; lia.
Qed.
Print Assumptions c49_table_size.

(** The table size at every height: 2^26 before height 614400 (and always for version
    1), then one step of growth, [N] to [floor (N / 100) * 105], every 51200 blocks, up to
    height 4198400 where it stops. *)
Theorem c49_table_size_steps : forall v h,
  (v = 1 \/ h < 614400 -> calc_big_n v h = 2 ^ 26) /\
  (v <> 1 -> 563200 <= h -> h + 51200 <= 4198400 ->
     calc_big_n v (h + 51200) = calc_big_n v h / 100 * 105) /\
  (v <> 1 -> 4198400 <= h -> calc_big_n v h = 2143944600).
Proof.
  intros v h. unfold calc_big_n. change (2 ^ n_param) with 67108864. change (2 ^ 26) with 67108864.
  change (600 * 1024) with 614400. change (50 * 1024) with 51200. cbv zeta.
  split; [|split].
  - intros [->|Hh]; [reflexivity|]. destruct (v =? 1); [reflexivity|].
    replace (Z.min 4198400 h <? 614400) with true by lia. reflexivity.
  - intros Hv H1 H2. replace (v =? 1) with false by lia.
    rewrite (Z.min_r 4198400 h), (Z.min_r 4198400 (h + 51200)) by lia.
    replace (h + 51200 <? 614400) with false by lia.
    destruct (h <? 614400) eqn:E.
    + replace ((h + 51200 - 614400) / 51200) with 0; [reflexivity|].
      symmetry. apply Z.div_small. lia.
    + replace (h + 51200 - 614400) with (h - 614400 + 1 * 51200) by lia.
      rewrite Z.div_add by lia.
      assert (0 <= (h - 614400) / 51200) by (apply Z.div_pos; lia).
      rewrite (Z2Nat.inj_add ((h - 614400) / 51200 + 1) 1) by lia.
      rewrite Nat.add_comm. reflexivity.
  - intros Hv H1. replace (v =? 1) with false by lia. rewrite Z.min_l by lia. vm_compute. reflexivity.
Qed.
Print Assumptions c49_table_size_steps.

Lemma map_r_ok : forall A B (f : A -> res B) l r, map_r f l = Ok r ->
  List.length r = List.length l /\ forall i a, nth_error l i = Some a -> exists b, nth_error r i = Some b /\ f a = Ok b.
Proof.
  induction l as [|a l IH]; intros r E; simpl in E.
  - injection E as <-. split; [reflexivity|]. intros [|i] x; discriminate.
  - apply bind_ok in E. destruct E as [b [Eb E]]. apply bind_ok in E. destruct E as [bs [Ebs E]].
    injection E as <-. destruct (IH bs Ebs) as [HL HN]. split; [simpl; lia|].
    intros [|i] x Hx; simpl in *; [injection Hx as <-; eauto|apply HN; exact Hx].
Qed.
Lemma map_r_total : forall A B (f : A -> res B) l,
  (forall a, In a l -> exists b, f a = Ok b) -> exists r, map_r f l = Ok r.
Proof.
  induction l as [|a l IH]; intros Hf; simpl; [eauto|].
  destruct (Hf a) as [b ->]; [left; reflexivity|]. cbn [bind].
  destruct IH as [r ->]; [intros; apply Hf; right; assumption|]. cbn [bind]. eauto.
Qed.
Lemma map_r_panic_or : forall A B (f : A -> res B) l,
  (forall a, In a l -> f a = Panic \/ exists b, f a = Ok b) ->
  (map_r f l = Panic /\ exists a, In a l /\ f a = Panic) \/ exists r, map_r f l = Ok r.
Proof.
  induction l as [|a l IH]; intros Hf; simpl; [right; eauto|].
  destruct (Hf a) as [E|[b E]]; [left; reflexivity| |]; rewrite E; cbn [bind].
  - left. eauto.
  - destruct IH as [[E2 [x [Hx Ex]]]|[r E2]]; [intros; apply Hf; right; assumption| |]; rewrite E2; cbn [bind].
    + left. eauto.
    + right. eauto.
Qed.

(** The [i]-th index is the [i]-th four-byte window of the seed (wrapped around) modulo [N]. *)
Definition window (seed : bytes) (i : nat) : Z := be_value (firstn 4 (skipn i (seed ++ firstn 3 seed))).

Lemma window_bound : forall seed i, bytes_ok seed -> 0 <= window seed i < 2 ^ 32.
Proof.
  intros seed i Hok. unfold window. set (l := firstn 4 _).
  assert (HF : forall n (l : bytes), bytes_ok l -> bytes_ok (firstn n l)).
  { intros n l0 H0. apply Forall_forall. intros x Hx. apply (Forall_forall byte l0); auto.
    rewrite <- (firstn_skipn n l0). apply in_or_app. auto. }
  assert (HS : forall n (l : bytes), bytes_ok l -> bytes_ok (skipn n l)).
  { intros n l0 H0. apply Forall_forall. intros x Hx. apply (Forall_forall byte l0); auto.
    rewrite <- (firstn_skipn n l0). apply in_or_app. auto. }
  assert (Hl : bytes_ok l).
  { apply HF, HS. apply Forall_app. split; [assumption|apply HF; assumption]. }
  assert (HL : (List.length l <= 4)%nat) by (subst l; rewrite firstn_length; lia).
  clearbody l. pose proof (be_value_bound l Hl) as [H1 H2]. split; [exact H1|].
  eapply Z.lt_le_trans; [exact H2|]. change (2 ^ 32) with (256 ^ 4). apply Z.pow_le_mono_r; unfold Zlen; lia.
Qed.

Lemma gen_indexes_cases : forall seed N, bytes_ok seed -> 0 < N < 2 ^ 32 ->
  (gen_indexes seed N = Panic /\ exists i, (i < 32)%nat /\ window seed i mod N = 0) \/
  (exists l, gen_indexes seed N = Ok l /\ List.length l = 32%nat /\
    forall i, (i < 32)%nat -> nth_error l i = Some (window seed i mod N) /\ window seed i mod N <> 0).
Proof.
  intros seed N Hok HN. unfold gen_indexes.
  assert (HI : forall i, gen_index (seed ++ firstn 3 seed) N i =
     if window seed i mod N =? 0 then Panic else Ok (window seed i mod N)).
  { intros i. unfold gen_index. fold (window seed i). destruct (_ =? 0); auto.
    rewrite (Z.mod_small (_ mod N)); auto. pose proof (Z.mod_pos_bound (window seed i) N). lia. }
  destruct (map_r_panic_or _ _ (gen_index (seed ++ firstn 3 seed) N) (seq 0 k_param)) as [[E [i [Hi Ei]]]|[r E]].
  - intros i _. rewrite HI. destruct (_ =? 0); eauto.
  - left. split; [exact E|]. exists i. apply in_seq in Hi. unfold k_param in Hi. split; [lia|].
    rewrite HI in Ei. destruct (_ =? 0) eqn:E0; [lia|discriminate].
  - right. exists r. split; [exact E|]. apply map_r_ok in E. destruct E as [HL HNth].
    rewrite seq_length in HL. split; [exact HL|]. intros i Hi.
    destruct (HNth i i) as [b [Hb Eb]].
    { rewrite nth_error_nth' with (d := 0%nat) by (rewrite seq_length; exact Hi). rewrite seq_nth by exact Hi. reflexivity. }
    rewrite HI in Eb. destruct (_ =? 0) eqn:E0; [discriminate|]. injection Eb as <-. split; [exact Hb|lia].
Qed.

(** When it returns, index generation gives the 32 windows reduced modulo [N], each
    below [N]; missing: it does not return for every seed, see the next theorem. *)
Theorem c49_indexes_partial : forall seed N, bytes_ok seed -> 0 < N < 2 ^ 32 ->
  (forall i, (i < 32)%nat -> window seed i mod N <> 0) ->
  exists l, gen_indexes seed N = Ok l /\ List.length l = 32%nat /\
    forall i, (i < 32)%nat -> nth_error l i = Some (window seed i mod N) /\ 0 < window seed i mod N < N.
Proof.
  intros seed N Hok HN Hnz. destruct (gen_indexes_cases seed N Hok HN) as [[_ [i [Hi E]]]|[l [E [HL Hl]]]].
  - exfalso. exact (Hnz i Hi E).
  - exists l. split; [exact E|]. split; [exact HL|]. intros i Hi. destruct (Hl i Hi) as [H1 H2].
    split; [exact H1|]. pose proof (Z.mod_pos_bound (window seed i) N). lia.
Qed.
Print Assumptions c49_indexes_partial.

Example c49_indexes_hyps_met : forall i, (i < 32)%nat ->
  window (map Z.of_nat (seq 1 32)) i mod 67108864 <> 0.
Proof.
  intros i Hi. do 32 (destruct i as [|i]; [vm_compute; discriminate|]). lia.
Qed.

(** A seed with four consecutive zero bytes makes it panic, for every table size; so
    does any seed with a window divisible by the table size. *)
Theorem c49_indexes_refuted :
  exists seed, List.length seed = 32%nat /\ bytes_ok seed /\
    (exists h, calc_big_n 2 h = 2 ^ 26 /\ gen_indexes seed (calc_big_n 2 h) = Panic) /\
    exists i, (i < 29)%nat /\ window seed i = 2 ^ 26.
Proof.
  exists ([1; 2; 3; 4; 0; 0; 0] ++ repeat 9 21 ++ [4; 0; 0; 0]). split; [reflexivity|]. split.
  { repeat (constructor; [unfold byte; lia|]). constructor. }
  split; [exists 500000; split; vm_compute; reflexivity|]. exists 28%nat. split; [lia|]. reflexivity.
Qed.
Print Assumptions c49_indexes_refuted.

(** A hash function returns 32 bytes. *)
Definition hash32 (H : bytes -> bytes) : Prop := forall x, List.length (H x) = 32%nat /\ bytes_ok (H x).

Lemma skipn_bytes_ok : forall n l, bytes_ok l -> bytes_ok (skipn n l).
Proof.
  intros n l H0. apply Forall_forall. intros x Hx. apply (Forall_forall byte l); auto.
  rewrite <- (firstn_skipn n l). apply in_or_app. auto.
Qed.

Lemma element_bound : forall H hb i, hash32 H -> 0 <= element H hb i < 256 ^ 31.
Proof.
  intros H hb i HH. unfold element. destruct (HH (be_bytes 4 i ++ hb ++ calc_big_m)) as [HL HO].
  pose proof (be_value_bound _ (skipn_bytes_ok 1 _ HO)) as HB.
  replace (Zlen (skipn 1 _)) with 31 in HB; [exact HB|]. unfold Zlen. rewrite skipn_length, HL. reflexivity.
Qed.

Lemma sum_bound : forall H hb l acc, hash32 H -> 0 <= acc ->
  0 <= fold_left (fun a i => a + element H hb i) l acc <= acc + Zlen l * 256 ^ 31.
Proof.
  induction l as [|i l IH]; intros acc HH Ha; cbn [fold_left].
  - rewrite Zlen_nil. lia.
  - pose proof (element_bound H hb i HH). specialize (IH (acc + element H hb i) HH ltac:(lia)).
    rewrite Zlen_cons. lia.
Qed.

#[local] Opaque calc_big_m be_bytes.

(** The sum of the 32 table elements selected by a seed. *)
Definition element_sum (H : bytes -> bytes) (hb seed : bytes) (N : Z) : Z :=
  fold_right (fun i acc => element H hb (window seed i mod N) + acc) 0 (seq 0 32).

Lemma fold_sum : forall H hb l acc,
  fold_left (fun a i => a + element H hb i) l acc = acc + fold_right (fun i a => element H hb i + a) 0 l.
Proof. induction l as [|i l IH]; intros acc; simpl; [lia|]. rewrite IH. lia. Qed.

Lemma fold_right_map : forall A B (f : B -> Z) (g : A -> B) l,
  fold_right (fun i a => f i + a) 0 (map g l) = fold_right (fun i a => f (g i) + a) 0 l.
Proof. induction l as [|i l IH]; simpl; auto. rewrite IH. reflexivity. Qed.

Lemma nth_error_ext : forall A (l l' : list A), (forall i, nth_error l i = nth_error l' i) -> l = l'.
Proof.
  induction l as [|a l IH]; intros [|b l'] E; auto.
  - specialize (E 0%nat). discriminate.
  - specialize (E 0%nat). discriminate.
  - pose proof (E 0%nat) as E0. injection E0 as ->. f_equal. apply IH. intros i. exact (E (S i)).
Qed.

Lemma list_of_nth : forall A (g : nat -> A) n l, List.length l = n ->
  (forall i, (i < n)%nat -> nth_error l i = Some (g i)) -> l = map g (seq 0 n).
Proof.
  intros A g n l HL Hn. apply nth_error_ext. intros i.
  destruct (Nat.lt_ge_cases i n) as [Hi|Hi].
  - rewrite Hn by exact Hi. symmetry. apply map_nth_error.
    rewrite nth_error_nth' with (d := 0%nat) by (rewrite seq_length; exact Hi). rewrite seq_nth by exact Hi. reflexivity.
  - rewrite !(proj2 (nth_error_None _ _)); auto; [rewrite map_length, seq_length; lia|lia].
Qed.

(** The hit of a version-2 header is the hash of the sum of the elements its seed
    selects, a 256-bit number; the only way the computation fails is an index equal to
    zero.  In particular the conversions inside it ([as_unsigned_byte_array(4, ..)],
    [.unwrap()] of [as_unsigned_byte_array(32, ..)]) never fail.  Missing: totality. *)
Theorem c49_hit_total_partial : forall G H (h : header G), hash32 H ->
  h_version h <> 1 -> u64 (h_timestamp h) -> u32 (h_height h) ->
  let N := calc_big_n (h_version h) (h_height h) in
  let hb := be_bytes 4 (h_height h) in
  exists m seed,
    serialize_without_pow h = Ok m /\
    calc_seed_v2 H N (H m) (nonce (h_solution h)) hb = Ok seed /\
    if existsb (fun i => window seed i mod N =? 0) (seq 0 32)
    then pow_hit H h = Panic
    else exists v, pow_hit H h = Ok v /\ v = be_value (H (be_bytes 32 (element_sum H hb seed N))) /\
                   0 <= element_sum H hb seed N < 2 ^ 256 /\ 0 <= v < 2 ^ 256.
Proof.
  intros G H h HH Hv Hts Hh N hb. unfold pow_hit. replace (h_version h =? 1) with false by lia.
  assert (HS : exists m, serialize_without_pow h = Ok m).
  { unfold serialize_without_pow. destruct (get_put_u64 _ Hts) as (bt & -> & _).
    destruct (get_put_u32 _ Hh) as (bh & -> & _). cbn [bind put_u8].
    destruct (1 <? h_version h); cbn [bind put_i8]; eauto. }
  destruct HS as [m Em]. exists m. rewrite Em. cbn [bind]. fold N. fold hb.
  assert (HN : 0 < N < 2 ^ 32).
  { subst N. pose proof (c49_table_size (h_version h) (h_height h) (h_height h)) as HT.
    unfold u32 in Hh. change (2 ^ 26) with 67108864 in HT. change (2 ^ 32) with 4294967296. lia. }
  clearbody N.
  assert (Hseed : exists seed, calc_seed_v2 H N (H m) (nonce (h_solution h)) hb = Ok seed /\ bytes_ok seed).
  { unfold calc_seed_v2. set (pre := be_value (skipn 24 _)).
    rewrite as_unsigned_spec by (apply Z.mod_pos_bound; lia).
    replace (pre mod N <? 256 ^ Z.of_nat 4) with true.
    2: { symmetry. apply Z.ltb_lt. pose proof (Z.mod_pos_bound pre N). change (256 ^ Z.of_nat 4) with (2 ^ 32). lia. }
    cbn [bind]. eexists. split; [reflexivity|]. apply HH. }
  destruct Hseed as [seed [Es Hseed]]. exists seed. split; [reflexivity|]. split; [exact Es|].
  rewrite Es. cbn [bind].
  destruct (gen_indexes_cases seed N Hseed HN) as [[-> [i [Hi Ei]]]|[l [-> [HL Hl]]]]; cbn [bind].
  - replace (existsb _ _) with true; [reflexivity|]. symmetry. apply existsb_exists.
    exists i. split; [apply in_seq; lia|]. rewrite Ei. reflexivity.
  - replace (existsb _ _) with false.
    2: { symmetry. apply Bool.not_true_is_false. intros HE. apply existsb_exists in HE.
         destruct HE as [i [Hi Ei]]. apply in_seq in Hi. destruct (Hl i ltac:(lia)) as [_ Hne].
         apply Z.eqb_eq in Ei. exact (Hne Ei). }
    pose proof (sum_bound H hb l 0 HH ltac:(lia)) as HB.
    assert (HE : fold_left (fun a i => a + element H hb i) l 0 = element_sum H hb seed N).
    { rewrite fold_sum. unfold element_sum.
      rewrite (list_of_nth _ (fun i => window seed i mod N) 32 l HL (fun i Hi => proj1 (Hl i Hi))).
      rewrite (fold_right_map _ _ (element H hb) (fun i => window seed i mod N)). lia. }
    rewrite HE in *. set (f2 := element_sum H hb seed N) in *. clearbody f2. unfold Zlen in HB. rewrite HL in HB.
    change (0 + Z.of_nat 32 * 256 ^ 31) with (2 ^ 253) in HB.
    assert (Hf2 : 0 <= f2 < 2 ^ 256) by (assert (2 ^ 253 < 2 ^ 256) by reflexivity; lia).
    rewrite as_unsigned_spec by lia.
    replace (f2 <? 256 ^ Z.of_nat 32) with true.
    2: { symmetry. apply Z.ltb_lt. change (256 ^ Z.of_nat 32) with (2 ^ 256). lia. }
    cbn [unwrap_r bind]. eexists. split; [reflexivity|]. split; [reflexivity|]. split; [exact Hf2|].
    destruct (HH (be_bytes 32 f2)) as [HL2 HO2]. pose proof (be_value_bound _ HO2) as HB2.
    unfold Zlen in HB2. rewrite HL2 in HB2. exact HB2.
Qed.
Print Assumptions c49_hit_total_partial.

Example c49_hit_hyps_met : hash32 (fun _ => repeat 1 32) /\ h_version toy_header_v2 <> 1 /\
  u64 (h_timestamp toy_header_v2) /\ u32 (h_height toy_header_v2).
Proof.
  split; [intros x; split; [reflexivity|repeat (constructor; [unfold byte; lia|]); constructor]|].
  split; [discriminate|]. split; [unfold u64|unfold u32]; cbn; lia.
Qed.
