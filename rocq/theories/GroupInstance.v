(** A concrete group meeting [group_ok]: the integers modulo a prime [q] between
    [2^192] and [2^256].  It shows that the hypotheses of the sigma-protocol
    theorems are satisfiable; discrete logarithms in it are of course easy. *)
From Verif Require Import Base VlqModel VlqProofs GroupModel NumberTheory.
From Coq Require Import Znumtheory Zpow_facts Eqdep_dec.
Local Open Scope Z_scope.

Section Modular.
Variable q : Z.
Definition in_range (x : Z) : bool := (0 <=? x) && (x <? q).
Definition zq := { x : Z | in_range x = true }.

Lemma zq_eq : forall a b : zq, proj1_sig a = proj1_sig b -> a = b.
Proof.
  intros [a Ha] [b Hb]. simpl. intros ->. f_equal. apply UIP_dec. apply Bool.bool_dec.
Qed.

Hypothesis Hq : 1 < q.
Lemma mod_range : forall x, in_range (x mod q) = true.
Proof. intros. unfold in_range. pose proof (Z.mod_pos_bound x q). lia. Qed.
Definition of_z (x : Z) : zq := exist _ (x mod q) (mod_range x).
Lemma zq_range : forall a : zq, 0 <= proj1_sig a < q.
Proof. intros [a Ha]. simpl. unfold in_range in Ha. lia. Qed.
Lemma of_z_id : forall a : zq, of_z (proj1_sig a) = a.
Proof. intros a. apply zq_eq. simpl. apply Z.mod_small. apply zq_range. Qed.

Definition zq_group : group := {|
  gel := zq;
  gop := fun a b => of_z (proj1_sig a + proj1_sig b);
  gid := of_z 0;
  ginv := fun a => of_z (- proj1_sig a);
  ggen := of_z 1;
  gord := q;
  geqb := fun a b => proj1_sig a =? proj1_sig b;
  genc := fun a => 2 :: be_bytes 32 (proj1_sig a);
  gdec := fun b => let v := be_value (tl b) in if in_range v then Some (of_z v) else None
|}.

Lemma of_z_add : forall x y, of_z (proj1_sig (of_z x) + proj1_sig (of_z y)) = of_z (x + y).
Proof. intros. apply zq_eq. simpl. symmetry. apply Z.add_mod. lia. Qed.

Lemma iter_op_zq : forall p (x : zq_group), Pos.iter_op gop p x = of_z (Z.pos p * proj1_sig x).
Proof.
  induction p as [|p IHp] using Pos.peano_ind; intros x.
  - cbn [Pos.iter_op]. rewrite Z.mul_1_l, of_z_id. reflexivity.
  - rewrite Pos.iter_op_succ.
    + rewrite IHp. apply zq_eq. cbn [gop zq_group proj1_sig of_z].
      rewrite Z.add_mod_idemp_r by lia. f_equal. lia.
    + intros a b c. apply zq_eq. cbn [gop zq_group proj1_sig of_z].
      rewrite Z.add_mod_idemp_r, Z.add_mod_idemp_l by lia. f_equal. lia.
Qed.

Lemma gpow_zq : forall n (x : zq_group), 0 < n -> gpow x n = of_z (n * proj1_sig x).
Proof. intros [|p|p] x Hn; try lia. apply iter_op_zq. Qed.

Lemma zq_not_id : forall x : zq_group, x <> gid -> proj1_sig x <> 0.
Proof.
  intros x H E. apply H. apply zq_eq. cbn [gid zq_group of_z proj1_sig].
  rewrite E. symmetry. apply Z.mod_0_l. lia.
Qed.

Hypothesis Hprime : prime q.
Hypothesis Hbound : q < 2 ^ 256.

Lemma zq_group_ok : group_ok zq_group.
Proof.
  constructor.
  - intros. apply zq_eq. cbn [gop zq_group proj1_sig of_z].
    rewrite Z.add_mod_idemp_r, Z.add_mod_idemp_l by lia. f_equal. lia.
  - intros. apply zq_eq. cbn [gop zq_group proj1_sig of_z]. f_equal. lia.
  - intros. apply zq_eq. cbn [gop gid zq_group proj1_sig of_z].
    rewrite Z.mod_0_l by lia. rewrite Z.add_0_l. apply Z.mod_small. apply zq_range.
  - intros. apply zq_eq. cbn [gop gid ginv zq_group proj1_sig of_z].
    rewrite Z.add_mod_idemp_l by lia. f_equal. lia.
  - intros x. rewrite gpow_zq by (cbn [gord zq_group]; lia). apply zq_eq.
    cbn [gord gid zq_group proj1_sig of_z]. rewrite Z.mul_comm, Z.mod_mul, Z.mod_0_l by lia. reflexivity.
  - exact Hprime.
  - exact Hbound.
  - intros x y. cbn [geqb zq_group]. rewrite Z.eqb_eq. split; [apply zq_eq|intros ->; auto].
  - intros H. apply (f_equal (@proj1_sig _ _)) in H. cbn [ggen gid zq_group proj1_sig of_z] in H.
    rewrite Z.mod_0_l, Z.mod_small in H by lia. lia.
  - intros x _. cbn [genc zq_group length]. rewrite be_bytes_length. reflexivity.
  - intros x _. cbn [genc zq_group]. constructor; [split; lia|apply be_bytes_ok].
  - intros x _. cbn [genc zq_group hd]. lia.
  - intros x _. cbn [genc gdec zq_group tl].
    pose proof (zq_range x) as R.
    rewrite be_value_bytes. change (256 ^ Z.of_nat 32) with (2 ^ 256).
    rewrite Z.mod_small by lia.
    rewrite (proj2_sig x). rewrite of_z_id. reflexivity.
Qed.
End Modular.

(** [7 * 2^190 + 1] is prime. *)
Definition big_q : Z := 7 * 2 ^ 190 + 1.
Lemma big_q_prime : prime big_q.
Proof.
  apply (proth 7 190 3); [lia|split; [lia|reflexivity]|].
  vm_compute. reflexivity.
Qed.
Lemma big_q_gt_1 : 1 < big_q.
Proof. reflexivity. Qed.

(** Group of order [big_q]. *)
Definition bigG : group := zq_group big_q big_q_gt_1.
Lemma bigG_ok : group_ok bigG.
Proof. apply zq_group_ok; [apply big_q_prime|reflexivity]. Qed.
Lemma bigG_large : 2 ^ 192 < gord bigG.
Proof. reflexivity. Qed.

(** A small group for computed examples. *)
Lemma prime_101 : prime 101.
Proof.
  destruct (prime_dec 101) as [H|H]; [exact H|].
  exfalso. apply not_prime_divide in H; [|lia]. destruct H as (d & Hd & [c Hc]).
  assert (A : forall n, (n < 101)%nat -> (1 < n)%nat -> 101 mod Z.of_nat n <> 0).
  { intros n Hn1 Hn2. do 101 (destruct n as [|n]; [simpl; lia || discriminate|]). lia. }
  apply (A (Z.to_nat d)); [lia|lia|]. rewrite Z2Nat.id by lia. rewrite Hc. apply Z.mod_mul. lia.
Qed.
Lemma gt_1_101 : 1 < 101. Proof. reflexivity. Qed.
Definition toyG : group := zq_group 101 gt_1_101.
Lemma toyG_ok : group_ok toyG.
Proof. apply zq_group_ok; [apply prime_101|reflexivity]. Qed.
