(** Changing the base of a numeral, as the base58 coding does it. *)
From Verif Require Import Base AddressModel.
Local Open Scope Z_scope.

(** The number a list of digits denotes, most significant first; and least
    significant first. *)
Definition value (n : Z) (l : list Z) : Z := fold_left (fun a d => a * n + d) l 0.
Fixpoint lvalue (n : Z) (l : list Z) : Z := match l with [] => 0 | d :: l' => d + n * lvalue n l' end.
Definition digits (n : Z) (l : list Z) : Prop := Forall (fun d => 0 <= d < n) l.

Lemma value_acc : forall n l a, fold_left (fun a d => a * n + d) l a = a * n ^ Zlen l + value n l.
Proof.
  intros n l. unfold value. induction l as [|d l IH]; intros a; cbn [fold_left].
  - rewrite Zlen_nil. cbn. ring.
  - rewrite IH. rewrite (IH (0 * n + d)). rewrite Zlen_cons. rewrite Z.pow_add_r by (try lia; apply Zlen_nonneg). ring.
Qed.
Lemma value_app : forall n a b, value n (a ++ b) = value n a * n ^ Zlen b + value n b.
Proof. intros n a b. unfold value. rewrite fold_left_app. apply value_acc. Qed.
Lemma value_rev : forall n l, value n (rev l) = lvalue n l.
Proof.
  intros n l. induction l as [|d l IH]; [reflexivity|]. cbn [rev lvalue]. rewrite value_app, IH.
  change (Zlen [d]) with 1. unfold value. cbn [fold_left]. ring.
Qed.
Lemma value_zeros : forall n k l, value n (repeat 0 k ++ l) = value n l.
Proof.
  intros n k l. rewrite value_app. assert (E : value n (repeat 0 k) = 0).
  { unfold value. induction k as [|k IH]; [reflexivity|]. cbn [repeat fold_left]. replace (0 * n + 0) with 0 by ring. exact IH. }
  rewrite E. ring.
Qed.

(** No zero digit at the top. *)
Definition canon (l : list Z) : Prop := last l 1 <> 0.

Lemma canon_cons : forall d l, l <> [] -> canon l -> canon (d :: l).
Proof. intros d [|x l] Hl H; [congruence|exact H]. Qed.
Lemma canon_tl : forall d l, canon (d :: l) -> canon l.
Proof. intros d [|x l] H; [discriminate|exact H]. Qed.

Lemma lvalue_nonneg : forall n l, 2 <= n -> digits n l -> 0 <= lvalue n l.
Proof.
  intros n l Hn H. induction H as [|d l Hd _ IH]; cbn [lvalue]; [lia|]. nia.
Qed.
Lemma lvalue_pos : forall n l, 2 <= n -> digits n l -> canon l -> l <> [] -> 0 < lvalue n l.
Proof.
  intros n l Hn H. induction H as [|d l Hd H IH]; intros Hc Hl; [congruence|]. cbn [lvalue].
  destruct l as [|x l].
  - unfold canon in Hc. cbn [last] in Hc. cbn [lvalue]. lia.
  - assert (0 < lvalue n (x :: l)) by (apply IH; [exact Hc|discriminate]). nia.
Qed.
Lemma canon_unique : forall n a b, 2 <= n -> digits n a -> digits n b -> canon a -> canon b ->
  lvalue n a = lvalue n b -> a = b.
Proof.
  intros n a. induction a as [|x a IH]; intros b Hn Ha Hb Ca Cb E.
  - destruct b as [|y b]; [reflexivity|]. pose proof (lvalue_pos n (y :: b) Hn Hb Cb ltac:(discriminate)).
    rewrite <- E in H. cbn in H. lia.
  - destruct b as [|y b].
    + pose proof (lvalue_pos n (x :: a) Hn Ha Ca ltac:(discriminate)). rewrite E in H. cbn in H. lia.
    + inversion Ha; inversion Hb; subst. cbn [lvalue] in E.
      assert (x = y /\ lvalue n a = lvalue n b) as [-> E'].
      { assert (D : n * (lvalue n a - lvalue n b) = y - x) by (rewrite Z.mul_sub_distr_l; lia).
        assert (lvalue n a - lvalue n b = 0) by nia. split; lia. }
      f_equal. apply IH; eauto using canon_tl.
Qed.

(** ** The loops *)
Lemma carry_ok : forall n fuel c, 2 <= n -> 0 <= c < n ^ Z.of_nat fuel ->
  lvalue n (carry_digits fuel n c) = c /\ digits n (carry_digits fuel n c) /\ canon (carry_digits fuel n c) /\
  (carry_digits fuel n c = [] -> c = 0).
Proof.
  intros n fuel. induction fuel as [|fuel IH]; intros c Hn Hc.
  - cbn in Hc. cbn [carry_digits lvalue]. repeat split; [lia|constructor|discriminate|lia].
  - cbn [carry_digits]. destruct (Z.eqb_spec c 0) as [->|Hc0].
    { repeat split; [constructor|discriminate]. }
    rewrite Nat2Z.inj_succ, Z.pow_succ_r in Hc by lia.
    destruct (IH (c / n) Hn) as (V & D & C & N).
    { split; [apply Z.div_pos; lia|apply Z.div_lt_upper_bound; lia]. }
    cbn [lvalue]. rewrite V. repeat split.
    + pose proof (Z.div_mod c n ltac:(lia)). lia.
    + constructor; [apply Z.mod_pos_bound; lia|exact D].
    + destruct (carry_digits fuel n (c / n)) as [|y l] eqn:E.
      * specialize (N eq_refl). unfold canon. cbn [last]. pose proof (Z.div_mod c n ltac:(lia)). nia.
      * apply canon_cons; [discriminate|exact C].
    + discriminate.
Qed.
Lemma mul_add_ok : forall m n ds c, 2 <= m -> 2 <= n -> m <= n ^ 8 -> digits n ds -> canon ds -> 0 <= c < m ->
  lvalue n (mul_add m n ds c) = lvalue n ds * m + c /\ digits n (mul_add m n ds c) /\ canon (mul_add m n ds c) /\
  (mul_add m n ds c = [] -> ds = []).
Proof.
  intros m n ds. induction ds as [|d ds IH]; intros c Hm Hn Hf Hd Hc Hr; cbn [mul_add].
  - destruct (carry_ok n 8 c Hn) as (V & D & C & _); [change (Z.of_nat 8) with 8; lia|].
    rewrite V. cbn [lvalue]. repeat split; auto.
  - inversion Hd; subst. cbv zeta. set (x := c + d * m).
    assert (Hx : 0 <= x < n * m) by (unfold x; nia).
    destruct (IH (x / n) Hm Hn Hf) as (V & D & C & N); auto.
    { eauto using canon_tl. }
    { split; [apply Z.div_pos; lia|apply Z.div_lt_upper_bound; lia]. }
    cbn [lvalue]. rewrite V. pose proof (Z.div_mod x n ltac:(lia)) as DM. repeat split.
    + replace (x mod n + n * (lvalue n ds * m + x / n)) with (x + n * lvalue n ds * m) by lia.
      unfold x. ring.
    + constructor; [apply Z.mod_pos_bound; lia|exact D].
    + destruct (mul_add m n ds (x / n)) as [|y l] eqn:E.
      * specialize (N eq_refl). subst ds. cbn [lvalue] in V. unfold canon in *. cbn [last] in *.
        assert (x / n = 0) by lia. rewrite H in DM. intros Z0. assert (x = 0) by lia. unfold x in *. nia.
      * apply canon_cons; [discriminate|exact C].
    + discriminate.
Qed.
Lemma convert_ok : forall m n l, 2 <= m -> 2 <= n -> m <= n ^ 8 -> digits m l ->
  lvalue n (convert m n l) = value m l /\ digits n (convert m n l) /\ canon (convert m n l).
Proof.
  intros m n l Hm Hn Hf. induction l as [|d l IH] using rev_ind; intros Hd.
  - repeat split; [constructor|discriminate].
  - apply Forall_app in Hd. destruct Hd as [H1 H2]. inversion H2; subst.
    destruct (IH H1) as (V & D & C). unfold convert in *. rewrite fold_left_app. cbn [fold_left].
    destruct (mul_add_ok m n _ d Hm Hn Hf D C) as (V' & D' & C' & _); [assumption|].
    rewrite V', V. rewrite value_app. change (Zlen [d]) with 1. rewrite Z.pow_1_r.
    repeat split; auto.
Qed.

(** ** Leading zeros kept: the whole conversion *)
Definition rebase (m n : Z) (l : list Z) : list Z := repeat 0 (leading 0 l) ++ rev (convert m n l).

Lemma split_leading : forall z l, exists r, l = repeat z (leading z l) ++ r /\ (forall x r', r = x :: r' -> x <> z).
Proof.
  intros z l. induction l as [|x l (r & E & N)]; [exists []; split; [reflexivity|discriminate]|].
  cbn [leading]. destruct (Z.eqb_spec x z) as [->|Hx].
  - exists r. cbn [repeat app]. split; [f_equal; exact E|exact N].
  - exists (x :: l). split; [reflexivity|]. intros y r' Q. injection Q as <- _. exact Hx.
Qed.
Lemma leading_app : forall z k r, (forall x r', r = x :: r' -> x <> z) -> leading z (repeat z k ++ r) = k.
Proof.
  intros z k r N. induction k as [|k IH]; cbn [repeat app leading].
  - destruct r as [|x r]; [reflexivity|]. cbn [leading]. destruct (Z.eqb_spec x z) as [->|]; [|reflexivity].
    exfalso. exact (N z r eq_refl eq_refl).
  - rewrite Z.eqb_refl, IH. reflexivity.
Qed.
Lemma canon_rev : forall l, canon l -> forall x r, rev l = x :: r -> x <> 0.
Proof.
  intros l C x r E. apply (f_equal (@rev Z)) in E. rewrite rev_involutive in E. subst l. cbn [rev] in C.
  unfold canon in C. rewrite last_last in C. exact C.
Qed.
Lemma rev_canon : forall r, (forall x r', r = x :: r' -> x <> 0) -> canon (rev r).
Proof.
  intros [|x r] N; [discriminate|]. cbn [rev]. unfold canon. rewrite last_last. exact (N x r eq_refl).
Qed.
Lemma digits_app : forall n a b, digits n (a ++ b) <-> digits n a /\ digits n b.
Proof. intros. apply Forall_app. Qed.
Lemma digits_zeros : forall n k, 2 <= n -> digits n (repeat 0 k).
Proof. intros n k Hn. induction k; constructor; [lia|assumption]. Qed.

(** A numeral is determined by its number of leading zeros and its value. *)
Lemma numeral_unique : forall n a b, 2 <= n -> digits n a -> digits n b ->
  leading 0 a = leading 0 b -> value n a = value n b -> a = b.
Proof.
  intros n a b Hn Ha Hb L V. destruct (split_leading 0 a) as (ra & Ea & Na). destruct (split_leading 0 b) as (rb & Eb & Nb).
  rewrite <- L in Eb. set (k := leading 0 a) in *. clearbody k. subst a b.
  apply digits_app in Ha. apply digits_app in Hb. rewrite !value_zeros in V. f_equal.
  assert (E : rev ra = rev rb).
  { apply (canon_unique n); auto using rev_canon; try (apply Forall_rev; tauto).
    rewrite <- !value_rev, !rev_involutive. exact V. }
  apply (f_equal (@rev Z)) in E. rewrite !rev_involutive in E. exact E.
Qed.
Lemma rebase_ok : forall m n l, 2 <= m -> 2 <= n -> m <= n ^ 8 -> digits m l ->
  digits n (rebase m n l) /\ leading 0 (rebase m n l) = leading 0 l /\ value n (rebase m n l) = value m l.
Proof.
  intros m n l Hm Hn Hf Hd. destruct (convert_ok m n l Hm Hn Hf Hd) as (V & D & C). unfold rebase. repeat split.
  - apply digits_app. split; [apply digits_zeros; lia|apply Forall_rev; exact D].
  - apply leading_app. apply canon_rev. exact C.
  - rewrite value_zeros, value_rev. exact V.
Qed.
Lemma rebase_back : forall m n l, 2 <= m -> 2 <= n -> m <= n ^ 8 -> n <= m ^ 8 -> digits m l ->
  rebase n m (rebase m n l) = l.
Proof.
  intros m n l Hm Hn F1 F2 Hd. destruct (rebase_ok m n l Hm Hn F1 Hd) as (D & L & V).
  destruct (rebase_ok n m _ Hn Hm F2 D) as (D' & L' & V').
  apply (numeral_unique m); auto; congruence.
Qed.

(** ** The alphabet *)
Lemma index_letter : forall d, 0 <= d < 58 -> index_of alphabet (letter d) = Some d.
Proof.
  intros d Hd. assert (F : forallb (fun i => match index_of alphabet (letter (Z.of_nat i)) with Some j => j =? Z.of_nat i | None => false end) (seq 0 58) = true)
    by (vm_compute; reflexivity).
  rewrite forallb_forall in F. specialize (F (Z.to_nat d)). rewrite in_seq, Z2Nat.id in F by lia.
  specialize (F ltac:(lia)). destruct (index_of alphabet (letter d)) as [j|]; [|discriminate]. apply Z.eqb_eq in F. congruence.
Qed.
Lemma letter_ascii : forall d, 0 <= d < 58 -> 49 <= letter d <= 122.
Proof.
  intros d Hd. assert (F : forallb (fun i => (49 <=? letter (Z.of_nat i)) && (letter (Z.of_nat i) <=? 122)) (seq 0 58) = true)
    by (vm_compute; reflexivity).
  rewrite forallb_forall in F. specialize (F (Z.to_nat d)). rewrite in_seq, Z2Nat.id in F by lia.
  specialize (F ltac:(lia)). lia.
Qed.
Lemma index_of_inv : forall l x i, index_of l x = Some i -> 0 <= i < Zlen l /\ nth (Z.to_nat i) l 0 = x.
Proof.
  intros l x. induction l as [|y l IH]; intros i E; cbn [index_of] in E; [discriminate|].
  rewrite Zlen_cons. pose proof (Zlen_nonneg Z l). destruct (Z.eqb_spec y x) as [->|Hy].
  - injection E as <-. split; [lia|reflexivity].
  - destruct (index_of l x) as [j|]; [|discriminate]. injection E as <-. destruct (IH j eq_refl) as [R N].
    split; [lia|]. replace (Z.to_nat (j + 1)) with (S (Z.to_nat j)) by lia. exact N.
Qed.
Lemma index_inv : forall x i, index_of alphabet x = Some i -> 0 <= i < 58 /\ letter i = x.
Proof. intros x i E. apply index_of_inv in E. exact E. Qed.
Lemma letter_one : forall d, 0 <= d < 58 -> (letter d =? 49) = (d =? 0).
Proof.
  intros d Hd. destruct (Z.eqb_spec d 0) as [->|H0]; [reflexivity|]. apply Z.eqb_neq. intros E.
  pose proof (index_letter d Hd) as I. rewrite E in I. change (index_of alphabet 49) with (Some 0) in I. congruence.
Qed.
Lemma leading_letters : forall l, digits 58 l -> leading 49 (map letter l) = leading 0 l.
Proof.
  intros l H. induction H as [|d l Hd _ IH]; [reflexivity|]. cbn [map leading]. rewrite letter_one by assumption.
  destruct (d =? 0); [rewrite IH|]; reflexivity.
Qed.
Lemma b58_digits_letters : forall l, digits 58 l -> b58_digits (map letter l) = Ok l.
Proof.
  intros l H. induction H as [|d l Hd _ IH]; [reflexivity|]. cbn [map b58_digits].
  pose proof (letter_ascii d Hd). destruct (Z.ltb_spec 127 (letter d)); [lia|].
  rewrite index_letter by assumption. cbn [of_option bind]. rewrite IH. reflexivity.
Qed.
Lemma b58_digits_inv : forall s l, b58_digits s = Ok l -> digits 58 l /\ s = map letter l.
Proof.
  intros s. induction s as [|c s IH]; intros l E; cbn [b58_digits] in E.
  - injection E as <-. split; [constructor|reflexivity].
  - destruct (127 <? c); [discriminate|]. destruct (index_of alphabet c) as [d|] eqn:I; cbn [of_option bind] in E; [|discriminate].
    destruct (b58_digits s) as [l'|e|]; cbn [bind] in E; try discriminate. injection E as <-.
    destruct (IH l' eq_refl) as [D ->]. apply index_inv in I. destruct I as [R <-]. split; [constructor; assumption|reflexivity].
Qed.

Lemma encode_rebase : forall b, b58_encode b = map letter (rebase 256 58 b).
Proof.
  intros b. unfold b58_encode, rebase. rewrite <- map_rev, rev_app_distr. do 2 f_equal.
  induction (leading 0 b) as [|k IH]; [reflexivity|]. cbn [repeat rev]. rewrite IH. symmetry. apply (repeat_cons k 0).
Qed.
Lemma decode_rebase : forall l, digits 58 l -> b58_decode (map letter l) = Ok (rebase 58 256 l).
Proof.
  intros l D. unfold b58_decode. rewrite b58_digits_letters by assumption. cbn [bind]. rewrite leading_letters by assumption.
  unfold rebase. rewrite rev_app_distr. do 2 f_equal.
  induction (leading 0 l) as [|k IH]; [reflexivity|]. cbn [repeat rev]. rewrite IH. symmetry. apply (repeat_cons k 0).
Qed.

Lemma decode_encode : forall b, Forall u8 b -> b58_decode (b58_encode b) = Ok b.
Proof.
  intros b Hb. rewrite encode_rebase.
  assert (D : digits 256 b) by (eapply Forall_impl; [|exact Hb]; intros z Hz; unfold u8 in Hz; lia).
  destruct (rebase_ok 256 58 b) as (D' & _); try lia; auto.
  rewrite decode_rebase by assumption. f_equal. apply rebase_back; try lia; auto.
Qed.
Lemma encode_decode : forall s b, b58_decode s = Ok b -> Forall u8 b /\ b58_encode b = s.
Proof.
  intros s b E. pose proof E as E0. unfold b58_decode in E. destruct (b58_digits s) as [l|e|] eqn:I; cbn [bind] in E; try discriminate.
  apply b58_digits_inv in I. destruct I as [D ->]. rewrite decode_rebase in E0 by assumption. injection E0 as <-.
  destruct (rebase_ok 58 256 l) as (D' & _); try lia; auto. split.
  - eapply Forall_impl; [|exact D']. intros z Hz. cbv beta in Hz. unfold u8. lia.
  - rewrite encode_rebase. f_equal. apply rebase_back; try lia; auto.
Qed.
