(** Fermat's little theorem and Proth's primality test; used to compute inverses
    modulo a prime and to exhibit a concrete prime-order group. *)
From Verif Require Import Base.
From Coq Require Import Znumtheory Zpow_facts Permutation.
Local Open Scope Z_scope.

Definition prodl (l : list Z) : Z := fold_right Z.mul 1 l.

Lemma prodl_perm : forall l1 l2, Permutation l1 l2 -> prodl l1 = prodl l2.
Proof. induction 1; simpl; try lia. Qed.

Lemma prodl_scale : forall p a l, p <> 0 ->
  prodl (map (fun x => (a * x) mod p) l) mod p = (a ^ Zlen l * prodl l) mod p.
Proof.
  intros p a l Hp. induction l as [|x l IH]; [reflexivity|].
  cbn [map prodl fold_right]. fold (prodl (map (fun x => (a * x) mod p) l)). fold (prodl l).
  replace (Zlen (x :: l)) with (Z.succ (Zlen l)) by (unfold Zlen; simpl; lia).
  rewrite Z.pow_succ_r by (unfold Zlen; lia).
  rewrite Z.mul_mod_idemp_l by lia.
  rewrite <- Z.mul_mod_idemp_r by lia. rewrite IH. rewrite Z.mul_mod_idemp_r by lia.
  f_equal. ring.
Qed.

Definition units (p : Z) : list Z := map Z.of_nat (seq 1 (Z.to_nat (p - 1))).

Lemma units_in : forall p x, 1 < p -> (In x (units p) <-> 0 < x < p).
Proof.
  intros p x Hp. unfold units. rewrite in_map_iff. split.
  - intros (n & <- & H). apply in_seq in H. lia.
  - intros H. exists (Z.to_nat x). split; [lia|]. apply in_seq. lia.
Qed.
Lemma units_nodup : forall p, NoDup (units p).
Proof.
  intros. unfold units. apply FinFun.Injective_map_NoDup; [|apply seq_NoDup].
  intros a b H. lia.
Qed.
Lemma units_len : forall p, 1 < p -> Zlen (units p) = p - 1.
Proof. intros. unfold units, Zlen. rewrite map_length, seq_length. lia. Qed.

Lemma prime_cancel : forall p a x y, prime p -> a mod p <> 0 ->
  (a * x) mod p = (a * y) mod p -> x mod p = y mod p.
Proof.
  intros p a x y Hp Ha H. pose proof (prime_ge_2 _ Hp).
  assert (D : (p | a * (x - y))).
  { apply Z.mod_divide; [lia|]. rewrite Z.mul_sub_distr_l, Zminus_mod, H, Z.sub_diag.
    apply Z.mod_0_l; lia. }
  apply prime_mult in D; auto. destruct D as [D|D].
  - apply Z.mod_divide in D; lia.
  - apply Z.mod_divide in D; [|lia]. rewrite Zminus_mod in D.
    pose proof (Z.mod_pos_bound x p ltac:(lia)). pose proof (Z.mod_pos_bound y p ltac:(lia)).
    destruct (Z.eq_dec (x mod p) (y mod p)) as [E|E]; [exact E|exfalso].
    destruct (Z_lt_le_dec (y mod p) (x mod p)).
    + rewrite Z.mod_small in D; lia.
    + replace (x mod p - y mod p) with ((x mod p - y mod p + p) + (-1) * p) in D by ring.
      rewrite Z.mod_add, Z.mod_small in D; lia.
Qed.

Lemma units_prod_nonzero : forall p, prime p -> prodl (units p) mod p <> 0.
Proof.
  intros p Hp. pose proof (prime_ge_2 _ Hp).
  assert (A : forall l, (forall x, In x l -> 0 < x < p) -> prodl l mod p <> 0).
  { induction l as [|x l IH]; intros Hl.
    - simpl. rewrite Z.mod_small; lia.
    - cbn [prodl fold_right]. fold (prodl l). intros D.
      apply Z.mod_divide in D; [|lia]. apply prime_mult in D; auto. destruct D as [D|D].
      + specialize (Hl x (or_introl eq_refl)). apply Z.divide_pos_le in D; lia.
      + apply Z.mod_divide in D; [|lia]. revert D. apply IH. intros; apply Hl; right; auto. }
  apply A. intros x. apply units_in. lia.
Qed.

Theorem fermat : forall p a, prime p -> a mod p <> 0 -> a ^ (p - 1) mod p = 1.
Proof.
  intros p a Hp Ha. pose proof (prime_ge_2 _ Hp) as H2.
  set (f := fun x => (a * x) mod p).
  assert (P : Permutation (map f (units p)) (units p)).
  { apply NoDup_Permutation_bis.
    - assert (I : forall l, NoDup l -> (forall x, In x l -> 0 < x < p) -> NoDup (map f l)).
      { induction 1 as [|x l Hx Hl IH]; intros Hr; simpl; constructor.
        - rewrite in_map_iff. intros (y & E & Hy). apply Hx.
          apply prime_cancel in E; auto.
          pose proof (Hr x (or_introl eq_refl)). pose proof (Hr y (or_intror Hy)).
          rewrite !Z.mod_small in E by lia. subst; auto.
        - apply IH. intros; apply Hr; right; auto. }
      apply I; [apply units_nodup|]. intros x. apply units_in. lia.
    - rewrite map_length. reflexivity.
    - intros y Hy. apply in_map_iff in Hy. destruct Hy as (x & <- & Hx).
      apply units_in; [lia|]. apply units_in in Hx; [|lia].
      pose proof (Z.mod_pos_bound (a * x) p ltac:(lia)) as B. unfold f.
      assert ((a * x) mod p <> 0); [|lia].
      intros E. apply Z.mod_divide in E; [|lia]. apply prime_mult in E; auto.
      destruct E as [E|E]; [apply Z.mod_divide in E; lia|]. apply Z.divide_pos_le in E; lia. }
  apply prodl_perm in P. apply (f_equal (fun z => z mod p)) in P.
  unfold f in P. rewrite prodl_scale, units_len in P by lia.
  rewrite Z.mul_comm in P.
  replace (prodl (units p)) with (prodl (units p) * 1) in P at 2 by ring.
  apply prime_cancel in P; auto; [|apply units_prod_nonzero; auto].
  rewrite P. apply Z.mod_small. lia.
Qed.

(** Inverse modulo a prime. *)
Theorem inverse_mod : forall p a, prime p -> a mod p <> 0 ->
  (a * Zpow_mod a (p - 2) p) mod p = 1.
Proof.
  intros p a Hp Ha. pose proof (prime_ge_2 _ Hp).
  destruct (Z.eq_dec p 2) as [->|].
  - rewrite Zpow_mod_correct by lia. change (2 - 2) with 0. rewrite Z.pow_0_r.
    change (1 mod 2) with 1. rewrite Z.mul_1_r. pose proof (Z.mod_pos_bound a 2). lia.
  - rewrite Zpow_mod_correct by lia. rewrite Z.mul_mod_idemp_r by lia.
    rewrite <- Z.pow_succ_r by lia. replace (Z.succ (p - 2)) with (p - 1) by lia.
    apply fermat; auto.
Qed.

(** ** Proth's theorem *)
Lemma pow_one_sub : forall p b u v, 1 < p -> 0 <= u <= v ->
  b ^ u mod p = 1 -> b ^ v mod p = 1 -> b ^ (v - u) mod p = 1.
Proof.
  intros p b u v Hp Huv Eu Ev.
  rewrite <- (Z.mul_1_l (b ^ (v - u))), <- Eu, Z.mul_mod_idemp_l by (clear - Hp; lia).
  rewrite <- Z.pow_add_r by (clear - Huv; lia).
  replace (u + (v - u)) with v by (clear; lia). congruence.
Qed.

(** The exponents [n >= 0] with [b^n = 1] are closed under gcd. *)
Lemma pow_one_gcd : forall p b, 1 < p -> forall n x y, 0 <= x -> 0 <= y ->
  (Z.to_nat x + Z.to_nat y <= n)%nat ->
  b ^ x mod p = 1 -> b ^ y mod p = 1 -> b ^ (Z.gcd x y) mod p = 1.
Proof.
  intros p b Hp. induction n as [|n IH]; intros x y Hx Hy Hn E1 E2.
  - assert (x = 0) by (clear - Hx Hn; lia). subst x.
    rewrite Z.gcd_0_l, Z.abs_eq by (clear - Hy; lia). auto.
  - destruct (Z.eq_dec x 0) as [->|Nx]; [rewrite Z.gcd_0_l, Z.abs_eq by (clear - Hy; lia); auto|].
    destruct (Z.eq_dec y 0) as [->|Ny]; [rewrite Z.gcd_0_r, Z.abs_eq by (clear - Hx; lia); auto|].
    destruct (Z_le_gt_dec x y) as [L|L].
    + rewrite <- (Z.gcd_sub_diag_r x y). apply IH; auto;
        [clear - L; lia|clear - L Hn Nx Hx; lia|].
      apply pow_one_sub; auto.
    + rewrite Z.gcd_comm, <- (Z.gcd_sub_diag_r y x). apply IH; auto;
        [clear - L; lia|clear - L Hn Ny Hy; lia|].
      apply pow_one_sub; auto. clear - L Hy. lia.
Qed.

(** A divisor of a power of two is a power of two. *)
Lemma divides_pow2 : forall n g, 0 <= g -> 0 <= n -> (g | 2 ^ n) -> exists j, 0 <= j <= n /\ g = 2 ^ j.
Proof.
  intros n g Hg Hn. revert g Hg. pattern n. apply natlike_ind; auto.
  - intros g Hg Hd'. exists 0. split; [lia|]. apply Z.divide_1_r_nonneg; auto.
  - clear n Hn. intros n Hn IH g Hg Hd'. rewrite Z.pow_succ_r in Hd' by lia.
    destruct (Zdivide_dec 2 g) as [[k ->]|Nd].
    + assert (Hk : (k | 2 ^ n)).
      { rewrite (Z.mul_comm k 2) in Hd'. apply Z.mul_divide_cancel_l in Hd'; [auto|lia]. }
      destruct (IH k ltac:(clear - Hg; lia) Hk) as (j & Hj & ->). exists (Z.succ j).
      split; [clear - Hj; lia|].
      rewrite Z.pow_succ_r by (clear - Hj; lia). apply Z.mul_comm.
    + assert (Hk : (g | 2 ^ n)).
      { apply Gauss with 2; auto. apply rel_prime_sym. apply prime_rel_prime; auto. apply prime_2. }
      destruct (IH g Hg Hk) as (j & Hj & ->). exists j. split; auto. clear - Hj; lia.
Qed.

Lemma pow2_order : forall p b m d, 1 < p -> 0 <= m -> 0 <= d ->
  b ^ (2 ^ (m + 1)) mod p = 1 -> b ^ (2 ^ m) mod p <> 1 -> b ^ d mod p = 1 ->
  (2 ^ (m + 1) | d).
Proof.
  intros p b m d Hp Hm Hd H1 H2 H3.
  pose proof (pow_one_gcd p b Hp _ _ _ (Z.pow_nonneg 2 (m+1) ltac:(clear; lia)) Hd (le_n _) H1 H3) as R.
  destruct (divides_pow2 (m+1) (Z.gcd (2 ^ (m+1)) d) (Z.gcd_nonneg _ _)
    ltac:(clear - Hm; lia) (Z.gcd_divide_l _ _)) as (j & Hj & E).
  destruct (Z.eq_dec j (m + 1)) as [->|Nj].
  - rewrite <- E at 1. apply Z.gcd_divide_r.
  - exfalso. apply H2. rewrite E in R.
    replace (2 ^ m) with (2 ^ j * 2 ^ (m - j))
      by (rewrite <- Z.pow_add_r by (clear - Hj Nj; lia); f_equal; clear; lia).
    rewrite Z.pow_mul_r by (apply Z.pow_nonneg; clear; lia).
    rewrite Zpower_mod, R by (clear - Hp; lia).
    rewrite Z.pow_1_l by (apply Z.pow_nonneg; clear; lia).
    apply Z.mod_small. clear - Hp; lia.
Qed.

Lemma prime_factor : forall n, 1 < n -> exists p, prime p /\ (p | n).
Proof.
  intros n Hn. assert (H0 : 0 <= n) by lia. revert Hn. pattern n. revert n H0. apply Z_lt_induction.
  intros x IH Hx. destruct (prime_dec x) as [Hp|Hp]; [exists x; split; auto; apply Z.divide_refl|].
  apply not_prime_divide in Hp; auto. destruct Hp as (d & Hd & D).
  destruct (IH d ltac:(lia) ltac:(lia)) as (p & Pp & Dp). exists p. split; auto.
  eapply Z.divide_trans; eauto.
Qed.

Theorem proth : forall k m a, 0 < m -> 0 < k < 2 ^ m ->
  let n := k * 2 ^ m + 1 in
  Zpow_mod a (k * 2 ^ (m - 1)) n = n - 1 -> prime n.
Proof.
  intros k m a Hm Hk n Ha.
  assert (E2 : 2 ^ m = 2 * 2 ^ (m - 1)).
  { rewrite <- Z.pow_succ_r by (clear - Hm; lia). f_equal. clear; lia. }
  assert (P1 : 0 < 2 ^ (m - 1)) by (apply Z.pow_pos_nonneg; clear - Hm; lia).
  assert (En : n = k * (2 * 2 ^ (m - 1)) + 1) by (unfold n; rewrite E2; reflexivity).
  rewrite E2 in Hk. remember (2 ^ (m - 1)) as T eqn:ET.
  assert (Hn : 2 < n) by (clear - En Hk P1; nia).
  clearbody n. rewrite Zpow_mod_correct in Ha by (clear - Hn; lia).
  destruct (prime_dec n) as [|Np]; auto. exfalso.
  apply not_prime_divide in Np; [|clear - Hn; lia]. destruct Np as (d & Hd & [c Hc]).
  (* a proper divisor at most the square root *)
  assert (S : exists s, 1 < s /\ (s | n) /\ s * s <= n).
  { clear - Hd Hc Hn. destruct (Z_le_gt_dec d c).
    - exists d. split; [lia|]. split; [exists c; auto|]. nia.
    - exists c. split; [nia|]. split; [exists d; lia|]. nia. }
  destruct S as (s & Hs & Ds & Hss).
  destruct (prime_factor s Hs) as (p & Pp & Dp).
  assert (Dpn : (p | n)) by (eapply Z.divide_trans; eauto).
  pose proof (prime_ge_2 _ Pp) as Hp2.
  assert (Hps : p <= s) by (apply Z.divide_pos_le; auto; clear - Hs; lia).
  clear d c Hd Hc Ds Dp.
  assert (E1 : (a ^ k) ^ T mod p = p - 1).
  { rewrite <- Z.pow_mul_r by (clear - Hk P1; lia).
    assert (X : (p | a ^ (k * T) + 1)).
    { apply Z.divide_trans with n; auto. apply Z.mod_divide; [clear - Hn; lia|].
      rewrite Z.add_mod, Ha by (clear - Hn; lia). rewrite (Z.mod_small 1) by (clear - Hn; lia).
      replace (n - 1 + 1) with n by (clear; lia). apply Z.mod_same. clear - Hn; lia. }
    destruct X as [x X]. remember (a ^ (k * T)) as y. clear Heqy.
    replace y with ((p - 1) + (x - 1) * p) by (clear - X; lia).
    rewrite Z.mod_add by (clear - Hp2; lia). apply Z.mod_small. clear - Hp2; lia. }
  assert (Podd : p <> 2).
  { intros ->.
    assert (E : n mod 2 = 1).
    { rewrite En. replace (k * (2 * T) + 1) with (1 + (k * T) * 2) by ring.
      rewrite Z.mod_add by (clear; lia). reflexivity. }
    apply Z.mod_divide in Dpn; [|clear; lia]. rewrite Dpn in E. discriminate. }
  assert (D : (2 ^ (m - 1 + 1) | p - 1)).
  { apply (pow2_order p (a ^ k)); rewrite <- ?ET.
    - clear - Hp2; lia.
    - clear - Hm; lia.
    - clear - Hp2; lia.
    - replace (2 ^ (m - 1 + 1)) with (T * 2)
        by (rewrite ET, Z.pow_add_r by (clear - Hm; lia); reflexivity).
      rewrite Z.pow_mul_r by (clear - P1; lia). rewrite Zpower_mod, E1 by (clear - Hp2; lia).
      replace ((p - 1) ^ 2) with (1 + (p - 2) * p) by ring.
      rewrite Z.mod_add by (clear - Hp2; lia). apply Z.mod_small. clear - Hp2; lia.
    - rewrite E1. clear - Podd; lia.
    - rewrite <- Z.pow_mul_r by (clear - Hk Hp2; lia).
      rewrite Z.mul_comm, Z.pow_mul_r by (clear - Hk Hp2; lia). rewrite Zpower_mod by (clear - Hp2; lia).
      assert (Fa : a mod p <> 0).
      { intros F. rewrite <- Z.pow_mul_r in E1 by (clear - Hk P1; lia).
        rewrite Zpower_mod, F in E1 by (clear - Hp2; lia).
        rewrite Z.pow_0_l in E1 by (clear - Hk P1; nia).
        rewrite Z.mod_0_l in E1; clear - E1 Hp2; lia. }
      rewrite (fermat p a) by auto. rewrite Z.pow_1_l by (clear - Hk; lia).
      apply Z.mod_small. clear - Hp2; lia. }
  replace (m - 1 + 1) with m in D by (clear; lia). rewrite E2 in D.
  apply Z.divide_pos_le in D; [|clear - Hp2; lia].
  clear - D Hps Hss En Hk. nia.
Qed.
