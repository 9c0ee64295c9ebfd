(** Polynomials over GF(2^192): evaluation, interpolation, uniqueness. *)
From Coq Require Import NArith List Lia Bool Ring Setoid Morphisms.
From Verif Require Import Base GfModel Clmul GfProofs GfInvProofs GfFieldProofs.
Import ListNotations.
Open Scope N_scope.

(** *** Field equality on bit polynomials *)
Definition feq (a b : N) : Prop := cong PP a b.

#[global] Instance feq_equiv : Equivalence feq.
Proof.
  split; [exact (cong_refl PP)|exact (cong_sym PP)|exact (cong_trans PP)].
Qed.
#[global] Instance lxor_feq : Proper (feq ==> feq ==> feq) N.lxor.
Proof. intros a a' Ha b b' Hb. apply cong_lxor; auto. Qed.
#[global] Instance clmul_feq : Proper (feq ==> feq ==> feq) clmul.
Proof. intros a a' Ha b b' Hb. apply cong_clmul; auto. Qed.

Definition fopp (a : N) : N := a.
#[global] Instance fopp_feq : Proper (feq ==> feq) fopp.
Proof. intros a b H. exact H. Qed.

Lemma f_ring_theory : ring_theory 0 1 N.lxor clmul N.lxor fopp feq.
Proof.
  constructor; intros.
  - rewrite N.lxor_0_l. reflexivity.
  - rewrite N.lxor_comm. reflexivity.
  - rewrite N.lxor_assoc. reflexivity.
  - rewrite clmul_1_l. reflexivity.
  - rewrite clmul_comm. reflexivity.
  - rewrite clmul_assoc. reflexivity.
  - rewrite clmul_lxor_l. reflexivity.
  - reflexivity.
  - unfold fopp. rewrite N.lxor_nilpotent. reflexivity.
Qed.

Definition b2f (b : bool) : N := if b then 1 else 0.
Lemma f_ring_morph :
  ring_morph 0 1 N.lxor clmul N.lxor fopp feq
             false true xorb andb xorb (fun b : bool => b) Bool.eqb b2f.
Proof.
  constructor; intros.
  - reflexivity.
  - reflexivity.
  - destruct x, y; reflexivity.
  - destruct x, y; reflexivity.
  - destruct x, y; reflexivity.
  - destruct x; reflexivity.
  - apply eqb_prop in H. subst. reflexivity.
Qed.

Ltac f_cst t := match t with 0%N => constr:(false) | 1%N => constr:(true) | _ => constr:(NotConstant) end.

Lemma f_ext : ring_eq_ext N.lxor clmul fopp feq.
Proof.
  constructor.
  - exact lxor_feq.
  - exact clmul_feq.
  - exact fopp_feq.
Qed.

Add Ring f_ring : f_ring_theory (morphism f_ring_morph, setoid feq_equiv f_ext, constants [f_cst]).

Example f_ring_test : forall a b, feq (clmul (N.lxor a b) (N.lxor a b)) (N.lxor (clmul a a) (clmul b b)).
Proof. intros. ring. Qed.

(** *** Every bit polynomial has a canonical representative *)
Lemma repr_exists : forall n, exists g, wf g /\ feq (val g) n.
Proof.
  induction n using N_bin_ind.
  - exists gf_zero. split; [apply wf_zero|reflexivity].
  - destruct IHn as (g & Hw & Hc). destruct (times_x_spec g Hw) as [H1 H2].
    exists (times_x g). split; auto. unfold feq in *. eapply cong_trans; [exact H2|].
    rewrite double_shiftl. apply cong_shiftl; auto.
  - destruct IHn as (g & Hw & Hc). destruct (times_x_spec g Hw) as [H1 H2].
    exists (gf_add gf_one (times_x g)). split; [apply wf_add; auto using wf_one|].
    rewrite val_add by auto using wf_one. rewrite succ_double_lxor.
    apply lxor_feq; [reflexivity|]. unfold feq in *. eapply cong_trans; [exact H2|].
    rewrite double_shiftl. apply cong_shiftl; auto.
Qed.

Lemma feq_zero_iff : forall g, wf g -> (feq (val g) 0 <-> g = gf_zero).
Proof.
  intros g Hw. split.
  - intros H. apply gf_ext; auto using wf_zero.
  - intros ->. reflexivity.
Qed.

Lemma gf_eq_dec : forall a b : gf, {a = b} + {a <> b}.
Proof. decide equality; apply N.eq_dec. Qed.

Lemma feq_dec0 : forall n, feq n 0 \/ ~ feq n 0.
Proof.
  intros n. destruct (repr_exists n) as (g & Hw & Hc).
  destruct (gf_eq_dec g gf_zero) as [->|Hne].
  - left. rewrite <- Hc. reflexivity.
  - right. intros H. apply Hne. apply feq_zero_iff; auto. rewrite Hc. exact H.
Qed.

Lemma f_integral : forall a b, feq (clmul a b) 0 -> feq a 0 \/ feq b 0.
Proof.
  intros a b H.
  destruct (repr_exists a) as (g & Hg & Hga). destruct (repr_exists b) as (h & Hh & Hhb).
  assert (Hz : gf_mul g h = gf_zero).
  { apply feq_zero_iff; [apply wf_mul; auto|]. unfold feq.
    eapply cong_trans; [apply cong_mul; auto|]. fold (feq (clmul (val g) (val h)) 0).
    rewrite Hga, Hhb. exact H. }
  destruct (gf_no_zero_divisors g h Hg Hh Hz) as [->| ->].
  - left. rewrite <- Hga. reflexivity.
  - right. rewrite <- Hhb. reflexivity.
Qed.

Lemma val_mul : forall a b, wf a -> wf b -> feq (val (gf_mul a b)) (clmul (val a) (val b)).
Proof. exact cong_mul. Qed.
Lemma val_mul8 : forall a b, wf a -> b < 256 -> feq (val (gf_mul_by_i8 a b)) (clmul (val a) b).
Proof. intros a b Ha Hb. apply (gf_mul_by_i8_spec a b Ha Hb). Qed.
Lemma wf_mul8 : forall a b, wf a -> b < 256 -> wf (gf_mul_by_i8 a b).
Proof. intros a b Ha Hb. apply (gf_mul_by_i8_spec a b Ha Hb). Qed.
Lemma val_inv : forall a, wf a -> ~ feq (val a) 0 -> feq (clmul (val a) (val (gf_invert a))) 1.
Proof.
  intros a Ha Hne. rewrite <- val_mul by auto using gf_invert_wf.
  rewrite gf_invert_spec; auto; [reflexivity|]. intros ->. apply Hne. reflexivity.
Qed.

(** *** Polynomial functions: c 0 + x (c 1 + x (c 2 + ...)), [n] coefficients *)
Fixpoint psum (n : nat) (c : nat -> N) (x : N) : N :=
  match n with
  | O => 0
  | S n' => N.lxor (c O) (clmul x (psum n' (fun j => c (S j)) x))
  end.
Fixpoint xp (x : N) (d : nat) : N :=
  match d with O => 1 | S d' => clmul x (xp x d') end.

Lemma psum_ext : forall n c c' x, (forall j, (j < n)%nat -> feq (c j) (c' j)) ->
  feq (psum n c x) (psum n c' x).
Proof.
  induction n as [|n IH]; intros c c' x H; simpl; [reflexivity|].
  rewrite (H O) by lia. rewrite (IH _ (fun j => c' (S j))); [reflexivity|].
  intros j Hj. apply H. lia.
Qed.
Lemma psum_x : forall n c x y, feq x y -> feq (psum n c x) (psum n c y).
Proof.
  induction n as [|n IH]; intros c x y H; simpl; [reflexivity|].
  rewrite (IH _ x y H), H. reflexivity.
Qed.
Lemma psum_add : forall n c c' x,
  feq (psum n (fun j => N.lxor (c j) (c' j)) x) (N.lxor (psum n c x) (psum n c' x)).
Proof.
  induction n as [|n IH]; intros c c' x; simpl; [reflexivity|]. rewrite IH. ring.
Qed.
Lemma psum_scal : forall n c r x,
  feq (psum n (fun j => clmul (c j) r) x) (clmul (psum n c x) r).
Proof.
  induction n as [|n IH]; intros c r x; simpl; [ring|]. rewrite IH. ring.
Qed.
Lemma psum_last : forall n c x,
  feq (psum (S n) c x) (N.lxor (psum n c x) (clmul (xp x n) (c n))).
Proof.
  induction n as [|n IH]; intros c x; [simpl; ring|].
  cbn [psum xp] in *. rewrite (IH (fun j => c (S j))). ring.
Qed.
Lemma psum_trunc : forall n m c x, (n <= m)%nat ->
  (forall j, (n <= j < m)%nat -> feq (c j) 0) -> feq (psum m c x) (psum n c x).
Proof.
  intros n m c x Hle. induction Hle as [|m Hle IH]; intros H; [reflexivity|].
  rewrite psum_last, IH by (intros; apply H; lia). rewrite (H m) by lia. ring.
Qed.
Lemma psum_zero : forall n c x, (forall j, (j < n)%nat -> feq (c j) 0) -> feq (psum n c x) 0.
Proof.
  intros n c x H. rewrite (psum_trunc 0 n); [reflexivity|lia|]. intros; apply H; lia.
Qed.
Lemma psum_at0 : forall n c, feq (psum (S n) c 0) (c O).
Proof. intros. simpl. ring. Qed.

(** *** Roots *)
(** Quotient of c by (x - a): tails of the Horner scheme. *)
Definition quot (n : nat) (c : nat -> N) (a : N) (j : nat) : N :=
  psum (n - j) (fun i => c (S j + i)%nat) a.

Lemma quot_spec : forall n c a x,
  feq (psum (S n) c x)
      (N.lxor (psum (S n) c a) (clmul (N.lxor x a) (psum n (quot n c a) x))).
Proof.
  induction n as [|n IH]; intros c a x.
  - simpl. ring.
  - change (psum (S (S n)) c x) with (N.lxor (c O) (clmul x (psum (S n) (fun j => c (S j)) x))).
    change (psum (S (S n)) c a) with (N.lxor (c O) (clmul a (psum (S n) (fun j => c (S j)) a))).
    rewrite (IH (fun j => c (S j)) a x).
    change (psum (S n) (quot (S n) c a) x) with
      (N.lxor (quot (S n) c a 0) (clmul x (psum n (fun j => quot (S n) c a (S j)) x))).
    assert (Hq0 : quot (S n) c a 0 = psum (S n) (fun j => c (S j)) a).
    { unfold quot. rewrite Nat.sub_0_r. reflexivity. }
    rewrite Hq0.
    assert (Hq : psum n (fun j => quot (S n) c a (S j)) x
                 = psum n (quot n (fun j => c (S j)) a) x) by reflexivity.
    rewrite Hq. ring.
Qed.

Lemma quot_zero : forall n c a, (forall j, (j < n)%nat -> feq (quot n c a j) 0) ->
  forall j, (1 <= j <= n)%nat -> feq (c j) 0.
Proof.
  intros n c a H j Hj.
  (* c j = quot (j-1) - a * quot j *)
  pose proof (H (j - 1)%nat ltac:(lia)) as H1. unfold quot in H1.
  replace (n - (j - 1))%nat with (S (n - j))%nat in H1 by lia. cbn [psum] in H1.
  replace (S (j - 1) + 0)%nat with j in H1 by lia.
  assert (H2 : feq (psum (n - j) (fun i => c (S (j - 1) + S i)%nat) a) 0).
  { destruct (Nat.eq_dec j n) as [->|Hne]; [rewrite Nat.sub_diag; reflexivity|].
    pose proof (H j ltac:(lia)) as H3. unfold quot in H3.
    rewrite <- H3. apply psum_ext. intros i Hi.
    replace (S (j - 1) + S i)%nat with (S j + i)%nat by lia. reflexivity. }
  rewrite H2 in H1. rewrite <- H1. ring.
Qed.

(** A polynomial with [n] coefficients and [n] roots, pairwise different in the
    field, is zero. *)
Lemma roots_zero : forall n c (xs : list N),
  length xs = n ->
  (forall i j, (i < j < n)%nat -> ~ feq (nth i xs 0) (nth j xs 0)) ->
  (forall x, In x xs -> feq (psum n c x) 0) ->
  forall j, (j < n)%nat -> feq (c j) 0.
Proof.
  induction n as [|n IH]; intros c xs Hlen Hd Hr j Hj; [lia|].
  destruct xs as [|a xs]; [discriminate|]. simpl in Hlen. injection Hlen as Hlen.
  assert (Ha : feq (psum (S n) c a) 0) by (apply Hr; left; reflexivity).
  assert (Hq : forall j, (j < n)%nat -> feq (quot n c a j) 0).
  { apply (IH (quot n c a) xs Hlen).
    - intros i k Hik. apply (Hd (S i) (S k)). lia.
    - intros x Hx. pose proof (Hr x (or_intror Hx)) as Hx0.
      rewrite (quot_spec n c a x) in Hx0. rewrite Ha in Hx0.
      assert (Hx1 : feq (clmul (N.lxor x a) (psum n (quot n c a) x)) 0)
        by (rewrite <- Hx0; ring).
      destruct (f_integral _ _ Hx1) as [He|He]; auto. exfalso.
      destruct (In_nth xs x 0 Hx) as (i & Hi & Hn).
      apply (Hd O (S i)); [lia|]. simpl. rewrite Hn.
      assert (Hs : feq (N.lxor (N.lxor x a) x) x) by (rewrite He; ring).
      rewrite <- Hs at 1. ring_simplify. reflexivity. }
  destruct (Nat.eq_dec j 0) as [->|Hne].
  - assert (Hc0 : feq (psum (S n) c a) (c O)).
    { rewrite (psum_trunc 1 (S n)) by (try lia; intros k Hk; apply (quot_zero n c a Hq); lia).
      simpl. ring. }
    rewrite <- Hc0. exact Ha.
  - apply (quot_zero n c a Hq). lia.
Qed.

(** *** Coefficient vectors *)
Definition cf (cs : list gf) (j : nat) : N := val (nth j cs gf_zero).
Definition pwf (p : poly) : Prop := Forall wf (coefficients p) /\ (degree p < length (coefficients p))%nat.

Lemma nth_wf : forall cs j, Forall wf cs -> wf (nth j cs gf_zero).
Proof.
  intros cs j H. destruct (Nat.lt_ge_cases j (length cs)).
  - rewrite Forall_forall in H. apply H. apply nth_In; auto.
  - rewrite nth_overflow by auto. apply wf_zero.
Qed.

Lemma upd_length : forall A i (x : A) l, length (upd i x l) = length l.
Proof. intros A i x l. revert i. induction l; intros [|i]; simpl; auto. Qed.
Lemma upd_nth : forall i (x : gf) l j,
  nth j (upd i x l) gf_zero = if (Nat.eqb i j && (i <? length l)%nat)%bool then x else nth j l gf_zero.
Proof.
  intros i x l. revert i. induction l as [|h l IH]; intros i j.
  - rewrite andb_false_r. destruct i, j; reflexivity.
  - destruct i, j; simpl; auto. rewrite IH. reflexivity.
Qed.
Lemma upd_wf : forall i x l, wf x -> Forall wf l -> Forall wf (upd i x l).
Proof.
  intros i x l Hx H. revert i. induction H as [|h l Hh Hl IH]; intros [|i]; simpl; auto.
Qed.

(** evaluate is the polynomial function. *)
Lemma eval_loop_spec : forall d cs x acc, x < 256 -> Forall wf cs -> wf acc ->
  wf (eval_loop d cs x acc) /\
  feq (val (eval_loop d cs x acc)) (N.lxor (psum d (cf cs) x) (clmul (xp x d) (val acc))).
Proof.
  induction d as [|d IH]; intros cs x acc Hx Hcs Ha.
  - simpl. split; auto. ring.
  - cbn [eval_loop].
    assert (Hw8 : wf (gf_mul_by_i8 acc x)) by (apply wf_mul8; auto).
    assert (Hwn : wf (nth d cs gf_zero)) by (apply nth_wf; auto).
    destruct (IH cs x (gf_add (gf_mul_by_i8 acc x) (nth d cs gf_zero)) Hx Hcs) as [IH1 IH2];
      [apply wf_add; auto|].
    split; auto. rewrite IH2, val_add by auto. rewrite val_mul8 by auto.
    rewrite psum_last. unfold cf at 3. cbn [xp]. ring.
Qed.

Lemma evaluate_spec : forall p x, x < 256 -> pwf p ->
  wf (evaluate p x) /\ feq (val (evaluate p x)) (psum (S (degree p)) (cf (coefficients p)) x).
Proof.
  intros p x Hx [Hw Hd]. unfold evaluate, coeff.
  destruct (eval_loop_spec (degree p) (coefficients p) x (nth (degree p) (coefficients p) gf_zero) Hx Hw)
    as [H1 H2]; [apply nth_wf; auto|].
  split; auto. rewrite H2, psum_last. reflexivity.
Qed.

(** add_monic_times_constant *)
Lemma amc_loop_spec : forall cnt i pcs r cs, Forall wf pcs -> Forall wf cs -> wf r ->
  (i + cnt <= length cs)%nat ->
  Forall wf (amc_loop i cnt pcs r cs) /\ length (amc_loop i cnt pcs r cs) = length cs /\
  forall j, nth j (amc_loop i cnt pcs r cs) gf_zero =
    if ((i <=? j)%nat && (j <? i + cnt)%nat)%bool
    then gf_add (nth j cs gf_zero) (gf_mul (nth j pcs gf_zero) r) else nth j cs gf_zero.
Proof.
  induction cnt as [|cnt IH]; intros i pcs r cs Hp Hc Hr Hl.
  - simpl. repeat split; auto. intros j.
    replace ((i <=? j)%nat && (j <? i + 0)%nat)%bool with false; auto.
    destruct (Nat.leb_spec i j), (Nat.ltb_spec j (i + 0)); simpl; auto; lia.
  - cbn [amc_loop].
    set (cs' := upd i _ cs).
    assert (Hw' : Forall wf cs').
    { apply upd_wf; auto. apply wf_add; [apply nth_wf; auto|].
      apply wf_mul; auto. apply nth_wf; auto. }
    assert (Hl' : length cs' = length cs) by apply upd_length.
    destruct (IH (S i) pcs r cs') as (A & B & C); auto; [lia|].
    split; auto. split; [lia|]. intros j. rewrite C. unfold cs'. rewrite upd_nth.
    destruct (Nat.eqb_spec i j) as [->|Hne].
    + replace (j <? length cs)%nat with true by (symmetry; apply Nat.ltb_lt; lia).
      replace (S j <=? j)%nat with false by (symmetry; apply Nat.leb_gt; lia).
      replace (j <=? j)%nat with true by (symmetry; apply Nat.leb_le; lia).
      replace (j <? j + S cnt)%nat with true by (symmetry; apply Nat.ltb_lt; lia).
      reflexivity.
    + cbn [andb].
      destruct (Nat.leb_spec (S i) j), (Nat.ltb_spec j (S i + cnt)),
        (Nat.leb_spec i j), (Nat.ltb_spec j (i + S cnt)); simpl; auto; lia.
Qed.

(** The invariant kept by the interpolation loop, after [k] points, for vectors of
    length [n+1]. *)
Record interp_inv (n k : nat) (r v : poly) : Prop := {
  ii_len_r : length (coefficients r) = S n;
  ii_len_v : length (coefficients v) = S n;
  ii_wf_r : Forall wf (coefficients r);
  ii_wf_v : Forall wf (coefficients v);
  ii_deg_v : degree v = k;
  ii_deg_r : (degree r <= n)%nat;
  ii_k : (k <= n)%nat;
  ii_top : nth k (coefficients v) gf_zero = gf_one;
  ii_v0 : forall j, (k < j)%nat -> nth j (coefficients v) gf_zero = gf_zero;
  ii_r0 : forall j, (k <= j)%nat -> nth j (coefficients r) gf_zero = gf_zero;
  ii_rd : forall j, (degree r < j)%nat -> nth j (coefficients r) gf_zero = gf_zero }.

Definition pv (n : nat) (p : poly) (x : N) : N := psum (S n) (cf (coefficients p)) x.

Lemma evaluate_pv : forall n p x, x < 256 -> length (coefficients p) = S n ->
  Forall wf (coefficients p) -> (degree p <= n)%nat ->
  (forall j, (degree p < j)%nat -> nth j (coefficients p) gf_zero = gf_zero) ->
  wf (evaluate p x) /\ feq (val (evaluate p x)) (pv n p x).
Proof.
  intros n p x Hx Hl Hw Hd Hz.
  destruct (evaluate_spec p x Hx) as [H1 H2]; [split; auto; lia|].
  split; auto. rewrite H2. unfold pv. symmetry. apply psum_trunc; [lia|].
  intros j Hj. unfold cf. rewrite Hz by lia. reflexivity.
Qed.

Lemma amc_spec : forall n k r v t, interp_inv n k r v -> wf t ->
  let r' := add_monic_times_constant r v t in
  Forall wf (coefficients r') /\ length (coefficients r') = S n /\ degree r' = k /\
  (forall j, (k < j)%nat -> nth j (coefficients r') gf_zero = gf_zero) /\
  forall x, feq (pv n r' x) (N.lxor (pv n r x) (clmul (pv n v x) (val t))).
Proof.
  intros n k r v t I Ht r'. destruct I.
  unfold r', add_monic_times_constant. cbn [coefficients degree]. rewrite ii_deg_v0.
  destruct (amc_loop_spec k 0 (coefficients v) t (coefficients r)) as (A & B & C); auto; [lia|].
  set (cs := amc_loop 0 k (coefficients v) t (coefficients r)) in *.
  assert (Hn : forall j, nth j (upd k t cs) gf_zero =
     if Nat.eqb k j then t else nth j cs gf_zero).
  { intros j. rewrite upd_nth. replace (k <? length cs)%nat with true by (symmetry; apply Nat.ltb_lt; lia).
    rewrite andb_true_r. reflexivity. }
  split; [apply upd_wf; auto|]. split; [rewrite upd_length; lia|]. split; auto.
  split.
  - intros j Hj. rewrite Hn. destruct (Nat.eqb_spec k j); [lia|]. rewrite C.
    destruct (Nat.leb_spec 0 j), (Nat.ltb_spec j (0 + k)); simpl; try lia; apply ii_r1; lia.
  - intros x. unfold pv. cbn [coefficients]. rewrite <- psum_scal, <- psum_add. apply psum_ext. intros j Hj.
    unfold cf. rewrite Hn.
    assert (Hwr : wf (nth j (coefficients r) gf_zero)) by (apply nth_wf; auto).
    assert (Hwv : wf (nth j (coefficients v) gf_zero)) by (apply nth_wf; auto).
    destruct (Nat.eqb_spec k j) as [<-|Hne].
    + rewrite (ii_r1 k) by lia. rewrite ii_top0. change (val gf_zero) with 0. change (val gf_one) with 1. ring.
    + rewrite C. destruct (Nat.leb_spec 0 j), (Nat.ltb_spec j (0 + k)); simpl; try lia.
      * rewrite val_add by auto using wf_mul. rewrite val_mul by auto. reflexivity.
      * rewrite (ii_v1 j) by lia. change (val gf_zero) with 0. ring.
Qed.

(** multiply_by_linear_binomial *)
Lemma lb_loop_spec : forall i r cs, r < 256 -> Forall wf cs -> (i < length cs)%nat ->
  Forall wf (lb_loop i r cs) /\ length (lb_loop i r cs) = length cs /\
  forall j, nth j (lb_loop i r cs) gf_zero =
    if ((1 <=? j)%nat && (j <=? i)%nat)%bool
    then gf_add (gf_mul_by_i8 (nth j cs gf_zero) r) (nth (j - 1) cs gf_zero)
    else nth j cs gf_zero.
Proof.
  induction i as [|i IH]; intros r cs Hr Hc Hl.
  - simpl. repeat split; auto. intros j. destruct j; reflexivity.
  - cbn [lb_loop]. set (cs' := upd (S i) _ cs).
    assert (Hw' : Forall wf cs').
    { apply upd_wf; auto. apply wf_add; [apply wf_mul8; auto; apply nth_wf; auto|apply nth_wf; auto]. }
    assert (Hl' : length cs' = length cs) by apply upd_length.
    destruct (IH r cs') as (A & B & C); auto; [lia|].
    split; auto. split; [lia|]. intros j. rewrite C. unfold cs'. rewrite !upd_nth.
    replace (S i <? length cs)%nat with true by (symmetry; apply Nat.ltb_lt; lia).
    rewrite !andb_true_r.
    destruct (Nat.eqb_spec (S i) j) as [<-|Hne].
    + replace (S i <=? i)%nat with false by (symmetry; apply Nat.leb_gt; lia).
      replace (S i <=? S i)%nat with true by (symmetry; apply Nat.leb_le; lia).
      rewrite andb_false_r. replace (1 <=? S i)%nat with true by (symmetry; apply Nat.leb_le; lia).
      cbn [andb]. replace (S i - 1)%nat with i by lia. reflexivity.
    + destruct (Nat.leb_spec 1 j), (Nat.leb_spec j i), (Nat.leb_spec j (S i)); cbn [andb]; auto; try lia.
      destruct (Nat.eqb_spec (S i) (j - 1)); [lia|]. reflexivity.
Qed.

Lemma mlb_spec : forall n k r0 v pt, interp_inv n k r0 v -> (k < n)%nat -> pt < 256 ->
  let v' := multiply_by_linear_binomial v pt in
  Forall wf (coefficients v') /\ length (coefficients v') = S n /\ degree v' = S k /\
  nth (S k) (coefficients v') gf_zero = gf_one /\
  (forall j, (S k < j)%nat -> nth j (coefficients v') gf_zero = gf_zero) /\
  forall x, feq (pv n v' x) (clmul (N.lxor x pt) (pv n v x)).
Proof.
  intros n k r0 v pt I Hk Hpt v'. destruct I.
  unfold v', multiply_by_linear_binomial. rewrite ii_deg_v0. cbn [coefficients degree].
  replace (S k - 1)%nat with k by lia.
  change (gf_from_i32 1) with gf_one.
  set (cs0 := upd (S k) gf_one (coefficients v)).
  assert (Hw0 : Forall wf cs0) by (apply upd_wf; auto using wf_one).
  assert (Hl0 : length cs0 = S n) by (unfold cs0; rewrite upd_length; auto).
  destruct (lb_loop_spec k pt cs0) as (A & B & C); auto; [lia|].
  set (cs1 := lb_loop k pt cs0) in *.
  assert (Hn0 : forall j, nth j cs0 gf_zero = if Nat.eqb (S k) j then gf_one else nth j (coefficients v) gf_zero).
  { intros j. unfold cs0. rewrite upd_nth.
    replace (S k <? length (coefficients v))%nat with true by (symmetry; apply Nat.ltb_lt; lia).
    rewrite andb_true_r. reflexivity. }
  assert (Hn : forall j, nth j (upd 0 (gf_mul_by_i8 (nth 0 cs1 gf_zero) pt) cs1) gf_zero =
    if Nat.eqb 0 j then gf_mul_by_i8 (nth 0 cs1 gf_zero) pt else nth j cs1 gf_zero).
  { intros j. rewrite upd_nth. replace (0 <? length cs1)%nat with true by (symmetry; apply Nat.ltb_lt; lia).
    rewrite andb_true_r. reflexivity. }
  split; [apply upd_wf; auto; apply wf_mul8; auto; apply nth_wf; auto|].
  split; [rewrite upd_length; lia|]. split; auto.
  split; [|split].
  - rewrite Hn. destruct (Nat.eqb_spec 0 (S k)); [lia|]. rewrite C.
    replace (S k <=? k)%nat with false by (symmetry; apply Nat.leb_gt; lia).
    rewrite andb_false_r, Hn0, Nat.eqb_refl. reflexivity.
  - intros j Hj. rewrite Hn. destruct (Nat.eqb_spec 0 j); [lia|]. rewrite C.
    replace (j <=? k)%nat with false by (symmetry; apply Nat.leb_gt; lia).
    rewrite andb_false_r, Hn0. destruct (Nat.eqb_spec (S k) j); [lia|]. apply ii_v1. lia.
  - intros x. unfold pv. cbn [coefficients].
    set (sh := fun j => match j with O => 0 | S j' => cf (coefficients v) j' end).
    assert (Hsh : feq (psum (S n) sh x) (clmul x (psum (S n) (cf (coefficients v)) x))).
    { change (psum (S n) sh x) with (N.lxor 0 (clmul x (psum n (cf (coefficients v)) x))).
      rewrite (psum_trunc n (S n) (cf (coefficients v))); [ring|lia|].
      intros j Hj. unfold cf. rewrite ii_v1 by lia. reflexivity. }
    transitivity (psum (S n) (fun j => N.lxor (clmul (cf (coefficients v) j) pt) (sh j)) x).
    + apply psum_ext. intros j Hj. unfold cf at 1. rewrite Hn.
      assert (Hwv : forall j, wf (nth j (coefficients v) gf_zero)) by (intros; apply nth_wf; auto).
      destruct j as [|j].
      * simpl Nat.eqb. cbv iota. rewrite C. replace (1 <=? 0)%nat with false by reflexivity.
        cbn [andb]. rewrite Hn0. destruct (Nat.eqb_spec (S k) 0); [lia|].
        rewrite val_mul8 by auto. unfold cf. simpl sh. ring.
      * simpl Nat.eqb. cbv iota. rewrite C. replace (1 <=? S j)%nat with true by reflexivity.
        cbn [andb]. simpl sh.
        destruct (Nat.leb_spec (S j) k).
        -- replace (S j - 1)%nat with j by lia. rewrite !Hn0.
           destruct (Nat.eqb_spec (S k) (S j)); [lia|]. destruct (Nat.eqb_spec (S k) j); [lia|].
           rewrite val_add, val_mul8 by auto using wf_mul8. reflexivity.
        -- rewrite Hn0. destruct (Nat.eqb_spec (S k) (S j)) as [He|He].
           ++ injection He as <-. unfold cf. rewrite (ii_v1 (S k)) by lia. rewrite ii_top0.
              change (val gf_zero) with 0. change (val gf_one) with 1. ring.
           ++ unfold cf. rewrite !ii_v1 by lia. change (val gf_zero) with 0. ring.
    + rewrite psum_add, psum_scal, Hsh. ring.
Qed.

(** Initial state. *)
Lemma nth_repeat_zero : forall n j, nth j (repeat gf_zero n) gf_zero = gf_zero.
Proof. induction n; intros [|j]; simpl; auto. Qed.

Lemma make_constant_nth : forall n c j,
  nth j (coefficients (make_constant n c)) gf_zero = if Nat.eqb 0 j then gf_from_i32 c else gf_zero.
Proof.
  intros n c j. unfold make_constant. cbn [coefficients]. rewrite upd_nth, repeat_length.
  replace (0 <? n + 1)%nat with true by (symmetry; apply Nat.ltb_lt; lia).
  rewrite andb_true_r, nth_repeat_zero. reflexivity.
Qed.

Lemma interp_init : forall n, interp_inv n 0 (make_constant n 0) (make_constant n 1).
Proof.
  intros n.
  assert (Hl : forall c, length (coefficients (make_constant n c)) = S n).
  { intros c. unfold make_constant. cbn [coefficients]. rewrite upd_length, repeat_length. lia. }
  assert (Hw : forall c, wf (gf_from_i32 c) -> Forall wf (coefficients (make_constant n c))).
  { intros c Hc. apply upd_wf; auto. apply Forall_forall. intros x Hx.
    apply repeat_spec in Hx. subst. apply wf_zero. }
  assert (Hz : gf_from_i32 0 = gf_zero) by reflexivity.
  constructor; auto; try lia.
  - apply Hw. apply wf_zero.
  - apply Hw. apply wf_one.
  - simpl. lia.
  - rewrite make_constant_nth. reflexivity.
  - intros j Hj. rewrite make_constant_nth. destruct (Nat.eqb_spec 0 j); [lia|reflexivity].
  - intros j Hj. rewrite make_constant_nth, Hz. destruct (Nat.eqb 0 j); reflexivity.
  - intros j Hj. rewrite make_constant_nth, Hz. destruct (Nat.eqb 0 j); reflexivity.
Qed.

(** Different byte points are different field elements. *)
Lemma byte_point_feq : forall a b, a < 256 -> b < 256 -> feq a b -> a = b.
Proof.
  intros a b Ha Hb H. apply (cong_unique PP 192); auto using PP_top, PP_lt.
  - eapply N.lt_trans; [exact Ha|reflexivity].
  - eapply N.lt_trans; [exact Hb|reflexivity].
Qed.
Lemma byte_point_ne : forall a b, a < 256 -> b < 256 -> a <> b -> ~ feq (N.lxor a b) 0.
Proof.
  intros a b Ha Hb Hne H. apply Hne. apply byte_point_feq; auto.
  assert (H2 : feq (N.lxor (N.lxor a b) b) b) by (rewrite H; ring).
  rewrite <- H2. ring.
Qed.

Lemma interp_alg : forall a b i u, feq (clmul b i) 1 ->
  feq (N.lxor a (clmul b (clmul (N.lxor a u) i))) u.
Proof.
  intros a b i u Hi. transitivity (N.lxor a (clmul (N.lxor a u) (clmul b i))); [ring|].
  rewrite Hi. ring.
Qed.

(** The loop, in terms of what has been interpolated so far. *)
Definition sound_upto (n : nat) (done : list (N * gf)) (r v : poly) : Prop :=
  (forall p u, In (p, u) done -> feq (pv n r p) (val u) /\ feq (pv n v p) 0) /\
  (forall y, y < 256 -> ~ In y (map fst done) -> ~ feq (pv n v y) 0).

#[local] Opaque gf_mul gf_add gf_invert gf_mul_by_i8 evaluate add_monic_times_constant
  multiply_by_linear_binomial.

Lemma interp_step_spec : forall n k done r v p u,
  interp_inv n k r v -> (k < n)%nat -> sound_upto n done r v ->
  Forall (fun q => fst q < 256) done -> p < 256 -> wf u -> ~ In p (map fst done) ->
  let '(r', v') := interp_step (r, v) (p, u) in
  interp_inv n (S k) r' v' /\ sound_upto n (done ++ [(p, u)]) r' v'.
Proof.
  intros n k done r v p u I Hk [Hs1 Hs2] Hdone Hp Hu Hnin. cbn [interp_step].
  pose proof I as I0. destruct I0.
  destruct (evaluate_pv n r p Hp) as [Hwe He]; auto.
  destruct (evaluate_pv n v p Hp) as [Hwv Hv]; auto; try lia.
  { intros j Hj. apply ii_v1. lia. }
  remember (gf_mul (gf_add (evaluate r p) u) (gf_invert (evaluate v p))) as t eqn:Et.
  assert (Hwt : wf t).
  { rewrite Et. apply wf_mul; [apply wf_add; auto|apply gf_invert_wf; auto]. }
  assert (Hvne : ~ feq (val (evaluate v p)) 0).
  { intros H. apply (Hs2 p Hp Hnin). rewrite <- Hv. exact H. }
  destruct (amc_spec n k r v t I Hwt) as (A1 & A2 & A3 & A4 & A5).
  destruct (mlb_spec n k r v p I Hk Hp) as (B1 & B2 & B3 & B4 & B5 & B6).
  split.
  - constructor; auto.
    + rewrite A3. exact ii_k0.
    + intros j Hj. apply A4. rewrite A3 in Hj. exact Hj.
  - split.
    + intros q w Hin. apply in_app_or in Hin. destruct Hin as [Hin|[Heq|[]]].
      * destruct (Hs1 q w Hin) as [H1 H2]. split.
        -- rewrite A5, H1, H2. generalize (val t), (val w). intros. ring.
        -- rewrite B6, H2. ring.
      * injection Heq as <- <-. split.
        -- rewrite A5, Et. rewrite val_mul by auto using wf_add, gf_invert_wf.
           rewrite val_add by auto. rewrite <- Hv, <- He.
           pose proof (val_inv _ Hwv Hvne) as Hi.
           apply interp_alg. exact Hi.
        -- rewrite B6. generalize (pv n v p). intros. ring.
    + intros y Hy Hny. rewrite map_app in Hny. rewrite B6. intros H.
      apply f_integral in H. destruct H as [H|H].
      * apply (byte_point_ne y p); auto. intros ->. apply Hny. apply in_or_app. right. left. reflexivity.
      * apply (Hs2 y Hy); auto. intros Hin. apply Hny. apply in_or_app. auto.
Qed.

Lemma interp_loop_spec : forall todo n done r v k,
  interp_inv n k r v -> sound_upto n done r v -> (k + length todo = n)%nat ->
  Forall (fun q => fst q < 256 /\ wf (snd q)) (done ++ todo) ->
  NoDup (map fst (done ++ todo)) ->
  let '(r', v') := fold_left interp_step todo (r, v) in
  interp_inv n n r' v' /\ sound_upto n (done ++ todo) r' v'.
Proof.
  induction todo as [|[p u] todo IH]; intros n done r v k I Hs Hk HF Hnd.
  - simpl. simpl in Hk. rewrite app_nil_r. replace n with k at 2 by lia. auto.
  - cbn [fold_left].
    assert (Hd : Forall (fun q => fst q < 256) done).
    { apply Forall_app in HF. destruct HF as [HF _]. eapply Forall_impl; [|exact HF].
      intros a [Ha _]; auto. }
    assert (Hpu : p < 256 /\ wf u).
    { apply Forall_app in HF. destruct HF as [_ HF]. inversion HF; subst. auto. }
    assert (Hnin : ~ In p (map fst done)).
    { rewrite map_app in Hnd. simpl in Hnd. apply NoDup_remove in Hnd.
      intros Hin. apply Hnd. apply in_or_app; auto. }
    simpl in Hk.
    pose proof (interp_step_spec n k done r v p u I ltac:(lia) Hs Hd (proj1 Hpu) (proj2 Hpu) Hnin) as Hstep.
    destruct (interp_step (r, v) (p, u)) as [r1 v1]. destruct Hstep as [I1 S1].
    replace (done ++ (p, u) :: todo) with ((done ++ [(p, u)]) ++ todo) in *
      by (rewrite <- app_assoc; reflexivity).
    apply (IH n (done ++ [(p, u)]) r1 v1 (S k)); auto. lia.
Qed.

Theorem interpolate_spec : forall points values z,
  length points = length values ->
  Forall (fun p => 0 < p < 256) points -> NoDup points -> Forall wf values -> wf z ->
  exists f, interpolate points values z = Ok f /\
    degree f = length points /\ length (coefficients f) = S (length points) /\
    Forall wf (coefficients f) /\
    nth 0 (coefficients f) gf_zero = z /\ evaluate f 0 = z /\
    forall i, (i < length points)%nat ->
      evaluate f (nth i points 0) = nth i values gf_zero.
Proof.
  intros points values z Hlen Hpts Hnd Hvals Hz.
  unfold interpolate. rewrite Hlen, Nat.eqb_refl.
  set (n := length values).
  assert (HlenC : length (combine points values) = n) by (rewrite combine_length; lia).
  assert (Hfst : map fst (combine points values) = points).
  { clear - Hlen. revert values Hlen. induction points; intros [|]; simpl; intros; try lia; auto.
    f_equal. apply IHpoints. lia. }
  assert (HF : Forall (fun q : N * gf => fst q < 256 /\ wf (snd q)) (combine points values)).
  { apply Forall_forall. intros [p u] Hin. simpl. rewrite Forall_forall in Hpts, Hvals.
    split; [apply (Hpts p (in_combine_l _ _ _ _ Hin))|apply Hvals, (in_combine_r _ _ _ _ Hin)]. }
  assert (Hs0 : sound_upto n [] (make_constant n 0) (make_constant n 1)).
  { split; [intros p u []|]. intros y Hy _ H.
    unfold pv in H. rewrite (psum_trunc 1 (S n)) in H.
    - cbn [psum] in H. unfold cf in H. rewrite make_constant_nth in H. cbn [Nat.eqb] in H.
      change (val (gf_from_i32 1)) with 1 in H.
      assert (H1 : feq 1 0) by (rewrite <- H; ring).
      apply (byte_point_feq 1 0) in H1; [discriminate|reflexivity|reflexivity].
    - lia.
    - intros j Hj. unfold cf. rewrite make_constant_nth. destruct (Nat.eqb_spec 0 j); [lia|reflexivity]. }
  pose proof (interp_loop_spec (combine points values) n [] _ _ 0 (interp_init n) Hs0) as Hloop.
  simpl app in Hloop. rewrite Hfst in Hloop. specialize (Hloop ltac:(lia) HF Hnd).
  destruct (fold_left interp_step (combine points values) (make_constant n 0, make_constant n 1)) as [r v].
  destruct Hloop as [I [Hs1 Hs2]]. pose proof I as I0. destruct I0.
  assert (Hw0r : wf (coeff r 0)) by (apply nth_wf; auto).
  assert (Hw0v : wf (coeff v 0)) by (apply nth_wf; auto).
  remember (gf_mul (gf_add (coeff r 0) z) (gf_invert (coeff v 0))) as t eqn:Et.
  assert (Hwt : wf t) by (rewrite Et; apply wf_mul; [apply wf_add; auto|apply gf_invert_wf; auto]).
  destruct (amc_spec n n r v t I Hwt) as (A1 & A2 & A3 & A4 & A5).
  set (f := add_monic_times_constant r v t) in *.
  assert (Hv0 : feq (val (coeff v 0)) (pv n v 0)) by (unfold pv; rewrite psum_at0; reflexivity).
  assert (Hr0 : feq (val (coeff r 0)) (pv n r 0)) by (unfold pv; rewrite psum_at0; reflexivity).
  assert (Hvne : ~ feq (val (coeff v 0)) 0).
  { intros H. apply (Hs2 0); [reflexivity| |rewrite <- Hv0; exact H]. rewrite Hfst.
    intros Hin. rewrite Forall_forall in Hpts. specialize (Hpts 0 Hin). lia. }
  assert (Hf0 : feq (pv n f 0) (val z)).
  { rewrite A5, Et. rewrite val_mul by auto using wf_add, gf_invert_wf.
    rewrite val_add by auto. rewrite <- Hv0, <- Hr0. pose proof (val_inv _ Hw0v Hvne) as Hi.
    apply interp_alg. exact Hi. }
  assert (Hev : forall x, x < 256 -> wf (evaluate f x) /\ feq (val (evaluate f x)) (pv n f x)).
  { intros x Hx. apply evaluate_pv; auto; try lia. intros j Hj. apply A4. lia. }
  exists f. split; [reflexivity|].
  split; [lia|]. split; [lia|]. split; auto. split; [|split].
  - apply gf_ext; auto; [apply nth_wf; auto|]. fold (feq (val (nth 0 (coefficients f) gf_zero)) (val z)).
    rewrite <- Hf0. unfold pv. rewrite psum_at0. reflexivity.
  - destruct (Hev 0 ltac:(lia)) as [H1 H2]. apply gf_ext; auto.
    fold (feq (val (evaluate f 0)) (val z)). rewrite H2. exact Hf0.
  - intros i Hi.
    assert (Hin : In (nth i points 0, nth i values gf_zero) (combine points values)).
    { rewrite <- combine_nth by auto. apply nth_In. lia. }
    rewrite Forall_forall in Hpts. specialize (Hpts (nth i points 0) (nth_In points 0 ltac:(rewrite Hlen; exact Hi))).
    destruct (Hev (nth i points 0) ltac:(lia)) as [H1 H2].
    assert (Hwn : wf (nth i values gf_zero)) by (apply nth_wf; auto).
    apply gf_ext; auto. fold (feq (val (evaluate f (nth i points 0))) (val (nth i values gf_zero))).
    rewrite H2, A5. destruct (Hs1 _ _ Hin) as [E1 E2]. rewrite E1, E2.
    generalize (val t), (val (nth i values gf_zero)). intros. ring.
Qed.
