(** The hit of a block compared with Autolykos version 2. *)
From Verif Require Import Base VlqModel IntBytes GroupModel MerkleModel HeaderModel PowModel PowProofs PowProps.
Local Open Scope list_scope.
Local Open Scope Z_scope.

(** ** Specification, from the description of Autolykos version 2 *)

(** Byte [i] from the right of a number. *)
Definition digit (z : Z) (i : Z) : Z := (z / 256 ^ i) mod 256.
Definition be4 (z : Z) : bytes := [digit z 3; digit z 2; digit z 1; digit z 0].
Definition be8 (z : Z) : bytes := map (digit z) [7; 6; 5; 4; 3; 2; 1; 0].

(** The constant M: the numbers from 0 to 1023 with eight bytes each. *)
Definition big_m : bytes := flat_map (fun k => be8 (Z.of_nat k)) (seq 0 1024).

Definition take_right (n : nat) (l : bytes) : bytes := skipn (List.length l - n) l.

Section Spec.
Variable H : bytes -> bytes.
(** An element of the table. *)
Definition table (height idx : Z) : bytes := take_right 31 (H (be4 idx ++ be4 height ++ big_m)).
(** The seed for the indexes: one element, chosen by message and nonce, hashed with
    them. *)
Definition seed_of (N height : Z) (msg non : bytes) : bytes :=
  H (table height (be_value (take_right 8 (H (msg ++ non))) mod N) ++ msg ++ non).
(** The sum of the 32 elements the seed selects, each by four bytes of it, read in a
    circle. *)
Definition index_at (seed : bytes) (i : nat) : Z :=
  be_value (map (fun j => nth ((i + j) mod 32) seed 0) [0; 1; 2; 3]%nat).
Definition sum_of_elements (N height : Z) (seed : bytes) : Z :=
  fold_right Z.add 0 (map (fun i => be_value (table height (index_at seed i mod N))) (seq 0 32)).
End Spec.

(** ** Lemmas *)

Lemma be_bytes_4 z : be_bytes 4 z = be4 z.
Proof.
  unfold be4, digit. cbn [be_bytes app]. rewrite !Z.div_div by lia.
  change (256 * 256) with (256 ^ 2). change (256 ^ 2 * 256) with (256 ^ 3). change (256 * 256 ^ 2) with (256 ^ 3).
  change (256 ^ 0) with 1. change (256 ^ 1) with 256. rewrite Z.div_1_r. reflexivity.
Qed.
Lemma be_bytes_8 z : be_bytes 8 z = be8 z.
Proof.
  unfold be8, digit. cbn [be_bytes app map]. rewrite !Z.div_div by lia.
  change (256 ^ 0) with 1. rewrite Z.div_1_r. reflexivity.
Qed.
Lemma big_m_eq : calc_big_m = big_m.
Proof.
  unfold calc_big_m, big_m. change (2 ^ 10)%nat with 1024%nat. apply flat_map_ext. intros i. apply be_bytes_8.
Qed.
#[local] Opaque calc_big_m big_m.

Lemma take_right_hash H x n : hash32 H -> (n <= 32)%nat -> take_right n (H x) = skipn (32 - n) (H x).
Proof. intros HH L. unfold take_right. rewrite (proj1 (HH x)). reflexivity. Qed.

Lemma window_index seed i : List.length seed = 32%nat -> (i < 32)%nat -> window seed i = index_at seed i.
Proof.
  intros L I. unfold window, index_at. f_equal.
  do 33 (destruct seed as [|? seed]; try discriminate L). clear L.
  do 32 (destruct i as [|i]; [reflexivity|]). lia.
Qed.

Lemma element_table H height idx : hash32 H -> element H (be_bytes 4 height) idx = be_value (table H height idx).
Proof.
  intros HH. unfold element, table. rewrite big_m_eq, !be_bytes_4, take_right_hash by (try exact HH; lia). reflexivity.
Qed.

(** ** The hit *)

(** The hit of a header of version 2 is that of Autolykos version 2, a 256-bit
    number, unless the seed selects the index zero: then the code panics. *)
Theorem c49_hit_autolykos_partial : forall G H (h : header G), hash32 H ->
  h_version h <> 1 -> u64 (h_timestamp h) -> u32 (h_height h) ->
  exists m, serialize_without_pow h = Ok m /\
    let N := calc_big_n (h_version h) (h_height h) in
    let seed := seed_of H N (h_height h) (H m) (nonce (h_solution h)) in
    ((forall i, (i < 32)%nat -> index_at seed i mod N <> 0) ->
       pow_hit H h = Ok (be_value (H (be_bytes 32 (sum_of_elements H N (h_height h) seed))))) /\
    ((exists i, (i < 32)%nat /\ index_at seed i mod N = 0) -> pow_hit H h = Panic).
Proof.
  intros G H h HH V T Hh. pose proof (c49_hit_total_partial G H h HH V T Hh) as P. cbv zeta in P.
  destruct P as (m & seed & Em & Es & P). exists m. split; [exact Em|]. cbv zeta.
  pose proof (c49_table_size (h_version h) (h_height h) (h_height h)) as HT.
  set (N := calc_big_n (h_version h) (h_height h)) in *.
  assert (HN : 0 < N < 2 ^ 32).
  { unfold u32 in Hh. change (2 ^ 26) with 67108864 in HT. change (2 ^ 32) with 4294967296. lia. }
  clearbody N. clear HT.
  assert (S : seed = seed_of H N (h_height h) (H m) (nonce (h_solution h))).
  { unfold calc_seed_v2 in Es. set (pre := be_value (skipn 24 _)) in Es.
    rewrite as_unsigned_spec in Es by (apply Z.mod_pos_bound; lia).
    replace (pre mod N <? 256 ^ Z.of_nat 4) with true in Es.
    2: { symmetry. apply Z.ltb_lt. pose proof (Z.mod_pos_bound pre N). change (256 ^ Z.of_nat 4) with (2 ^ 32). lia. }
    cbn [bind] in Es. apply (f_equal (fun r => match r with Ok x => x | _ => [] end)) in Es. cbv beta iota in Es.
    rewrite <- Es. clear Es. unfold seed_of, table.
    rewrite !take_right_hash by (try exact HH; lia).
    change (32 - 8)%nat with 24%nat. fold pre. rewrite big_m_eq, !be_bytes_4. reflexivity. }
  rewrite <- S. assert (L : List.length seed = 32%nat) by (rewrite S; apply HH).
  split.
  - intros NZ. replace (existsb _ _) with false in P.
    + destruct P as (v & E & -> & _). rewrite E. do 3 f_equal. f_equal.
      unfold element_sum, sum_of_elements.
      assert (X : forall l, (forall i, In i l -> (i < 32)%nat) ->
        fold_right (fun i acc => element H (be_bytes 4 (h_height h)) (window seed i mod N) + acc) 0 l =
        fold_right Z.add 0 (map (fun i => be_value (table H (h_height h) (index_at seed i mod N))) l)).
      { induction l as [|i l IH]; intros B; cbn [fold_right map]; [reflexivity|].
        rewrite element_table by exact HH. rewrite window_index by (try exact L; apply B; left; reflexivity).
        rewrite IH; [reflexivity|]. intros j J. apply B. right. exact J. }
      apply X. intros i I. apply in_seq in I. lia.
    + symmetry. apply Bool.not_true_is_false. intros X. apply existsb_exists in X. destruct X as (i & I & Z0).
      apply in_seq in I. apply Z.eqb_eq in Z0. rewrite window_index in Z0 by (try exact L; lia).
      exact (NZ i ltac:(lia) Z0).
  - intros (i & I & Z0). replace (existsb _ _) with true in P; [exact P|]. symmetry. apply existsb_exists.
    exists i. split; [apply in_seq; lia|]. rewrite window_index by (try exact L; exact I). rewrite Z0. reflexivity.
Qed.
Print Assumptions c49_hit_autolykos_partial.

(** Version 1: the distance in the header. *)
Theorem c49_hit_version1 : forall G H (h : header G), h_version h = 1 ->
  (forall d, pow_distance (h_solution h) = Some d -> pow_hit H h = Ok d) /\
  (pow_distance (h_solution h) = None -> exists e, pow_hit H h = Err e).
Proof.
  intros G H h V. unfold pow_hit. rewrite V. cbn [Z.eqb Pos.eqb]. split.
  - intros d ->. reflexivity.
  - intros ->. cbn [of_option]. eauto.
Qed.
Print Assumptions c49_hit_version1.
