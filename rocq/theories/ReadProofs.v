(** What the readers of numbers, points, types and fixed-format values can return
    on arbitrary bytes: never a panic, only values in the range of their type, and
    the canonical encoding of the value is at most twice as long as the bytes
    read. *)
From Verif Require Import Base VlqModel VlqProofs IntBytes GroupModel SigmaModel SigmaProofs SbProofs TypeModel MethodModel BigIntModel BigIntProps IrModel SerModel SerSpec SerLocal SerProofs GroupProofs TypeProofs.
Local Open Scope string_scope.
Local Open Scope list_scope.
Local Open Scope Z_scope.

(** ** Sizes of encodings *)
Definition rsz (r : res bytes) (n : Z) : Prop := exists x, r = Ok x /\ Zlen x <= n /\ bytes_ok x.

Lemma rsz_ok : forall x n, Zlen x <= n -> bytes_ok x -> rsz (Ok x) n.
Proof. intros x n H K. exists x. auto. Qed.
Lemma rsz_le : forall r n m, rsz r n -> n <= m -> rsz r m.
Proof. intros r n m (x & E & L & K) H. exists x. split; [exact E|]. split; [lia|exact K]. Qed.
Lemma rsz_bind : forall r n (k : bytes -> res bytes) m,
  rsz r n -> (forall x, r = Ok x -> Zlen x <= n /\ bytes_ok x -> rsz (k x) m) -> rsz (bind r k) m.
Proof. intros r n k m (x & E & L) H. rewrite E. cbn [bind]. auto. Qed.
Lemma emb_code_range : forall t p, emb_code t = Some p -> 1 <= p <= 9.
Proof. intros t p E. destruct t; try discriminate E; injection E as <-; lia. Qed.
Lemma byte_wrapu : forall x, byte (wrapu 8 x).
Proof. intros x. unfold byte, wrapu. apply Z.mod_pos_bound. reflexivity. Qed.
Lemma bytes_wrapu : forall l, bytes_ok (map (wrapu 8) l).
Proof. intros l. apply Forall_forall. intros x H. apply in_map_iff in H. destruct H as (y & <- & _). apply byte_wrapu. Qed.
Lemma shape_bytes : forall l, vlq_shape l -> bytes_ok l.
Proof.
  induction l as [|b [|c l] IH]; intros H; [constructor|constructor; [cbn in H; unfold byte; lia|constructor]|].
  cbn [vlq_shape] in H. destruct H as [H1 H2]. constructor; [unfold byte; lia|apply IH; exact H2].
Qed.
(** Discharges [bytes_ok] of a concatenation of written pieces. *)
Ltac bts :=
  repeat match goal with H : _ /\ bytes_ok _ |- _ => destruct H end;
  repeat match goal with H : emb_code _ = Some _ |- _ => apply emb_code_range in H end;
  repeat match goal with
  | |- bytes_ok (_ :: _) => apply Forall_cons
  | |- bytes_ok [] => apply Forall_nil
  | |- bytes_ok (_ ++ _) => apply Forall_app; split
  | |- bytes_ok (map (wrapu 8) _) => apply bytes_wrapu
  | |- byte (wrapu 8 _) => apply byte_wrapu
  | |- Forall byte ?l => change (bytes_ok l)
  end; try assumption; try (unfold byte in *; lia);
  try match goal with |- byte _ => vm_compute; split; [discriminate|reflexivity] end.
Ltac rok := apply rsz_ok; [|bts].

(** ** Outcomes of readers *)
Definition out {A} (bs : bytes) (x : res (A * bytes)) (Q : A -> bytes -> Prop) : Prop :=
  match x with
  | Ok (a, rest) => exists u, bs = u ++ rest /\ bytes_ok u /\ bytes_ok rest /\ Q a u
  | Err _ => True
  | Panic => False
  end.
Definition reads {A} (r : reader A) (Q : A -> bytes -> Prop) : Prop :=
  forall bs, bytes_ok bs -> out bs (r bs) Q.

Lemma out_bind : forall A B bs (x : res (A * bytes)) (k : A * bytes -> res (B * bytes)) Q R,
  out bs x Q ->
  (forall a u rest, bytes_ok u -> bytes_ok rest -> Q a u -> out rest (k (a, rest)) (fun b v => R b (u ++ v))) ->
  out bs (bind x k) R.
Proof.
  intros A B bs [[a rest]|e|] k Q R Hx Hk; cbn [out bind] in *; auto.
  destruct Hx as (u & -> & Hu & Hr & HQ). specialize (Hk a u rest Hu Hr HQ).
  destruct (k (a, rest)) as [[b r2]|e|]; cbn [out] in *; auto.
  destruct Hk as (v & -> & Hv & Hr2 & HR). exists (u ++ v). rewrite <- app_assoc. repeat split; auto.
  apply Forall_app. auto.
Qed.
Lemma out_pure : forall A B bs (x : res A) (k : A -> res (B * bytes)) R,
  x <> Panic -> (forall a, x = Ok a -> out bs (k a) R) -> out bs (bind x k) R.
Proof. intros A B bs [a|e|] k R Hp Hk; cbn [bind out]; auto. Qed.
Lemma out_ret : forall A bs (a : A) (Q : A -> bytes -> Prop), bytes_ok bs -> Q a [] -> out bs (Ok (a, bs)) Q.
Proof. intros A bs a Q Hb H. exists []. repeat split; auto. constructor. Qed.
Lemma out_conseq : forall A bs (x : res (A * bytes)) (Q R : A -> bytes -> Prop),
  out bs x Q -> (forall a u, bytes_ok u -> Q a u -> R a u) -> out bs x R.
Proof.
  intros A bs [[a rest]|e|] Q R H K; cbn [out] in *; auto.
  destruct H as (u & E & Hu & Hr & HQ). exists u. auto.
Qed.
Lemma reads_conseq : forall A (r : reader A) (Q R : A -> bytes -> Prop),
  reads r Q -> (forall a u, bytes_ok u -> Q a u -> R a u) -> reads r R.
Proof. intros A r Q R H K bs Hb. eapply out_conseq; [apply H; exact Hb|exact K]. Qed.
Lemma reads_rmap : forall A B (f : A -> B) (r : reader A) (Q : A -> bytes -> Prop) (R : B -> bytes -> Prop),
  reads r Q -> (forall a u, bytes_ok u -> Q a u -> R (f a) u) -> reads (rmap_reader f r) R.
Proof.
  intros A B f r Q R H K bs Hb. unfold rmap_reader. eapply out_bind; [apply H; exact Hb|].
  intros a u rest Hu Hr HQ. cbv beta iota. apply out_ret; [exact Hr|]. rewrite app_nil_r. auto.
Qed.
Lemma reads_n : forall A (r : reader A) (Q : A -> bytes -> Prop) (QL : list A -> bytes -> Prop),
  reads r Q -> QL [] [] ->
  (forall a l u v, Q a u -> QL l v -> QL (a :: l) (u ++ v)) ->
  forall n, reads (read_n n r) (fun l u => List.length l = n /\ QL l u).
Proof.
  intros A r Q QL Hr Hn Hc n. induction n as [|n IH]; intros bs Hb.
  - cbn [read_n]. apply out_ret; auto.
  - rewrite read_n_S. eapply out_bind; [apply Hr; exact Hb|]. intros a u rest Hu Hrest HQ. cbv beta iota.
    eapply out_bind; [apply IH; exact Hrest|]. intros l v rest' Hv Hr' [HL HQL]. cbv beta iota.
    apply out_ret; [exact Hr'|]. rewrite app_nil_r. cbn [List.length]. split; [lia|]. auto.
Qed.

(** ** Numbers *)
Lemma reads_u8 : reads get_u8 (fun b u => byte b /\ u = [b]).
Proof.
  intros [|b bs] Hb; cbn [get_u8 out]; auto. inversion Hb; subst. exists [b].
  split; [reflexivity|]. split; [constructor; [assumption|constructor]|]. auto.
Qed.
Lemma reads_i8 : reads get_i8 (fun v u => i8 v /\ Zlen u = 1).
Proof.
  intros bs Hb. unfold get_i8. eapply out_bind; [apply reads_u8; exact Hb|].
  intros b u rest Hu Hr [HB ->]. cbv beta iota. apply out_ret; [exact Hr|].
  split; [|reflexivity]. unfold i8, wraps. change (2 ^ (8 - 1)) with 128. change (2 ^ 8) with 256. change (2 ^ 7) with 128. lia.
Qed.

Lemma reads_exact : forall n, reads (read_exact n) (fun a u => a = u /\ List.length u = n).
Proof.
  intros n bs Hb. destruct (read_exact n bs) as [[x rest]|e|] eqn:E; cbn [out]; auto.
  - apply read_exact_split in E. destruct E as [-> HL]. apply Forall_app in Hb. destruct Hb.
    exists x. auto.
  - unfold read_exact in E. destruct (Nat.leb n (List.length bs)); discriminate.
Qed.

(** The number read, and the length of its shortest encoding. *)
Definition vsize (v n : Z) : Prop := rsz (put_u64 v) n.

Lemma put_mono : forall v w n, 0 <= w <= v -> u64 v -> vsize v n -> vsize w n.
Proof.
  intros v w n Hw Hv (x & E & L).
  assert (Hw' : u64 w) by (unfold u64 in *; lia).
  destruct (put_u64_spec w Hw') as (y & Ey & Sy & _ & Hl & Hm).
  destruct (put_u64_spec v Hv) as (x' & Ex & _ & Hval & Hlx & _).
  rewrite E in Ex. injection Ex as <-. exists y. split; [exact Ey|]. split; [|apply shape_bytes; exact Sy]. destruct L as [L _].
  destruct Hm as [Hm|Hm]; [unfold Zlen in *; lia|].
  pose proof (vlq_value_bound x) as Hb. rewrite Hval in Hb.
  assert (128 ^ (Zlen y - 1) < 128 ^ Zlen x) by lia.
  apply Z.pow_lt_mono_r_iff in H; [lia|lia|apply Zlen_nonneg].
Qed.

Lemma put_double : forall v w n, 0 <= w <= 2 * v -> u32 v -> vsize v n -> vsize w (2 * n).
Proof.
  intros v w n Hw Hv (x & E & L).
  assert (Hv' : u64 v) by (unfold u64, u32 in *; change (2 ^ 64) with (2 ^ 32 * 2 ^ 32); change (2 ^ 32) with 4294967296 in *; lia).
  assert (Hw' : u64 w) by (unfold u64, u32 in *; change (2 ^ 64) with (2 ^ 32 * 2 ^ 32); change (2 ^ 32) with 4294967296 in *; lia).
  destruct (put_u64_spec w Hw') as (y & Ey & Sy & _ & Hl & Hm).
  destruct (put_u64_spec v Hv') as (x' & Ex & _ & Hval & Hlx & _).
  rewrite E in Ex. injection Ex as <-. exists y. split; [exact Ey|]. split; [|apply shape_bytes; exact Sy]. destruct L as [L _].
  assert (1 <= Zlen x) by (unfold Zlen; lia).
  destruct Hm as [Hm|Hm]; [unfold Zlen in *; lia|].
  pose proof (vlq_value_bound x) as Hb. rewrite Hval in Hb.
  assert (128 ^ (Zlen y - 1) < 128 ^ (Zlen x + 1)).
  { rewrite Z.pow_add_r by lia. change (128 ^ 1) with 128. nia. }
  apply Z.pow_lt_mono_r_iff in H0; lia.
Qed.

Lemma reads_u64 : reads get_u64 (fun v u => u64 v /\ vsize v (Zlen u) /\ 1 <= Zlen u /\ v < 128 ^ Zlen u).
Proof.
  intros bs Hb. destruct (get_u64 bs) as [[v rest]|e|] eqn:E; cbn [out]; auto.
  2: { revert E. unfold get_u64. apply get_u64_loop_no_panic. }
  destruct (get_u64_inv _ _ _ Hb E) as (u & -> & Hsh & Hl & Hv). apply Forall_app in Hb. destruct Hb as [Hu Hr].
  exists u. split; [reflexivity|]. split; [exact Hu|]. split; [exact Hr|].
  pose proof (vlq_value_bound u) as Hvb.
  assert (Hle : v <= vlq_value u).
  { rewrite Hv. apply Z.mod_le; lia. }
  assert (H64 : u64 v) by (unfold u64; rewrite Hv; apply Z.mod_pos_bound; reflexivity).
  split; [exact H64|]. split; [|split; [unfold Zlen; lia|lia]].
  destruct (put_u64_spec v H64) as (y & Ey & Sy & _ & Hly & Hm). exists y. split; [exact Ey|]. split; [|apply shape_bytes; exact Sy].
  destruct Hm as [Hm|Hm]; [unfold Zlen in *; lia|].
  assert (128 ^ (Zlen y - 1) < 128 ^ Zlen u) by lia.
  apply Z.pow_lt_mono_r_iff in H; [lia|lia|apply Zlen_nonneg].
Qed.
Lemma reads_u16 : reads get_u16 (fun v u => u16 v /\ rsz (put_u16 v) (Zlen u) /\ 1 <= Zlen u).
Proof.
  intros bs Hb. unfold get_u16. eapply out_bind; [apply reads_u64; exact Hb|].
  intros v u rest Hu Hr (H1 & H2 & H3 & _). cbv beta iota. destruct (v <? 2 ^ 16) eqn:E; [|exact I].
  apply out_ret; [exact Hr|]. rewrite app_nil_r. unfold u16, u64 in *. repeat split; auto; lia.
Qed.
Lemma reads_u32 : reads get_u32 (fun v u => u32 v /\ rsz (put_u32 v) (Zlen u) /\ 1 <= Zlen u).
Proof.
  intros bs Hb. unfold get_u32. eapply out_bind; [apply reads_u64; exact Hb|].
  intros v u rest Hu Hr (H1 & H2 & H3 & _). cbv beta iota. destruct (v <? 2 ^ 32) eqn:E; [|exact I].
  apply out_ret; [exact Hr|]. rewrite app_nil_r. unfold u32, u64 in *. repeat split; auto; lia.
Qed.

(** Every 32-bit number is a zigzag code, so decoding and encoding again changes at
    most the bits above the 32nd. *)
Lemma zz_surj : forall n w, 0 < n -> 0 <= w < 2 ^ n ->
  exists v, - 2 ^ (n - 1) <= v < 2 ^ (n - 1) /\ zz v = w.
Proof.
  intros n w Hn Hw. assert (E : 2 ^ n = 2 * 2 ^ (n - 1)).
  { replace n with (Z.succ (n - 1)) at 1 by lia. apply Z.pow_succ_r. lia. }
  set (m := 2 ^ (n - 1)) in *. clearbody m. exists (if w mod 2 =? 0 then w / 2 else - (w + 1) / 2).
  unfold zz. destruct (w mod 2 =? 0) eqn:P.
  - replace (w / 2 <? 0) with false by lia. lia.
  - replace (- (w + 1) / 2 <? 0) with true by lia. lia.
Qed.

Lemma decode_u32_inv : forall w, u64 w -> i32 (decode_u32 w) /\ zz (decode_u32 w) = wrapu 32 w.
Proof.
  intros w Hw. assert (B : 0 <= wrapu 32 w < 2 ^ 32) by (unfold wrapu; apply Z.mod_pos_bound; reflexivity).
  destruct (zz_surj 32 (wrapu 32 w)) as (v & Hv & Ez); [lia|exact B|].
  assert (Hv' : i32 v) by exact Hv.
  rewrite (decode_u32_zz w v Hv' (eq_sym Ez)). auto.
Qed.
Lemma decode_u64_inv : forall w, u64 w -> i64 (decode_u64 w) /\ zz (decode_u64 w) = w.
Proof.
  intros w Hw. destruct (zz_surj 64 w) as (v & Hv & Ez); [lia|exact Hw|].
  rewrite <- Ez, decode_u64_zz by exact Hv. split; [exact Hv|reflexivity].
Qed.

Lemma reads_i64 : reads get_i64 (fun v u => i64 v /\ rsz (put_i64 v) (Zlen u)).
Proof.
  intros bs Hb. unfold get_i64. eapply out_bind; [apply reads_u64; exact Hb|].
  intros w u rest Hu Hr (H1 & H2 & H3 & _). cbv beta iota. apply out_ret; [exact Hr|]. rewrite app_nil_r.
  destruct (decode_u64_inv w H1) as [HI HZ]. split; [exact HI|].
  unfold put_i64. rewrite encode_i64_eq, HZ by exact HI. exact H2.
Qed.
Lemma wrapu_le : forall n w, 0 < n -> 0 <= w -> 0 <= wrapu n w <= w.
Proof.
  intros n w Hn Hw. assert (0 < 2 ^ n) by (apply Z.pow_pos_nonneg; lia). unfold wrapu. split.
  - apply Z.mod_pos_bound. lia.
  - apply Z.mod_le; lia.
Qed.
Lemma reads_i32 : reads get_i32 (fun v u => i32 v /\ rsz (put_i32 v) (2 * Zlen u)).
Proof.
  intros bs Hb. unfold get_i32. eapply out_bind; [apply reads_u64; exact Hb|].
  intros w u rest Hu Hr (H1 & H2 & H3 & H4). cbv beta iota. apply out_ret; [exact Hr|]. rewrite app_nil_r.
  destruct (decode_u32_inv w H1) as [HI HZ]. split; [exact HI|].
  unfold put_i32. set (v := decode_u32 w) in *. clearbody v.
  assert (HE : u64 (encode_i32 v)) by (unfold encode_i32, u64, wrapu; apply Z.mod_pos_bound; reflexivity).
  pose proof (wrapu_le 32 w ltac:(lia) ltac:(unfold u64 in H1; lia)) as HW. rewrite <- HZ in HW.
  destruct (Z.lt_ge_cases (zz v) (2 ^ 31)) as [Hlt|Hge].
  - assert (Ev : encode_i32 v = zz v).
    { unfold i32, encode_i32, zz in *. rewrite (shiftr_sign v 31) by lia. rewrite Z.shiftl_mul_pow2 by lia.
      unfold wrapu, wraps. change (2 ^ 1) with 2. change (2 ^ (32 - 1)) with 2147483648.
      change (2 ^ 32) with 4294967296. change (2 ^ 64) with 18446744073709551616.
      change (2 ^ 31) with 2147483648 in *.
      destruct (v <? 0) eqn:E.
      - assert (Hs : (v * 2 + 2147483648) mod 4294967296 - 2147483648 = v * 2) by lia. rewrite Hs, lxor_m1. lia.
      - assert (Hs : (v * 2 + 2147483648) mod 4294967296 - 2147483648 = v * 2) by lia. rewrite Hs, Z.lxor_0_r. lia. }
    rewrite Ev. eapply rsz_le; [apply (put_mono w); [lia|exact H1|exact H2]|]. lia.
  - destruct (put_u64_spec _ HE) as (y & Ey & Sy & _ & Hly & _). exists y. split; [exact Ey|]. split; [|apply shape_bytes; exact Sy].
    assert (5 <= Zlen u).
    { destruct (Z.lt_ge_cases (Zlen u) 5) as [Hc|Hc]; [|exact Hc]. exfalso.
      assert (128 ^ Zlen u <= 128 ^ 4) by (apply Z.pow_le_mono_r; lia).
      change (128 ^ 4) with 268435456 in H. change (2 ^ 31) with 2147483648 in Hge. lia. }
    unfold Zlen in *. lia.
Qed.
Lemma reads_i16 : reads get_i16 (fun v u => i16 v /\ rsz (put_i16 v) (Zlen u)).
Proof.
  intros bs Hb. unfold get_i16. eapply out_bind; [apply reads_u64; exact Hb|].
  intros w u rest Hu Hr (H1 & H2 & H3 & H4). cbv beta iota zeta.
  destruct ((- 2 ^ 15 <=? decode_u32 w) && (decode_u32 w <? 2 ^ 15)) eqn:E; [|exact I].
  apply out_ret; [exact Hr|]. rewrite app_nil_r.
  destruct (decode_u32_inv w H1) as [HI HZ].
  split; [unfold i16; lia|]. unfold put_i16, put_u32. rewrite encode_i32_wrap, HZ by exact HI.
  apply (put_mono w); [apply wrapu_le; unfold u64 in H1; lia|exact H1|exact H2].
Qed.

Lemma byte_bits_len : forall b, List.length (byte_bits b) = 8%nat.
Proof. reflexivity. Qed.
Lemma flat_bits_len : forall l, List.length (flat_map byte_bits l) = (8 * List.length l)%nat.
Proof. induction l as [|b l IH]; [reflexivity|]. cbn [flat_map List.length]. rewrite app_length, IH, byte_bits_len. lia. Qed.
Lemma bits_value_bound : forall l, 0 <= bits_value l < 2 ^ Zlen l.
Proof.
  induction l as [|b l IH]; [cbn; lia|]. cbn [bits_value]. rewrite Zlen_cons, Z.pow_add_r by (pose proof (Zlen_nonneg _ l); lia).
  change (2 ^ 1) with 2. destruct b; lia.
Qed.
Lemma put_bits_bytes_ok : forall fuel l, bytes_ok (put_bits_bytes fuel l).
Proof.
  induction fuel as [|fuel IH]; intros l; [constructor|]. cbn [put_bits_bytes]. destruct l as [|b l]; [constructor|].
  set (f := firstn 8 (b :: l)). constructor; [|apply IH].
  pose proof (bits_value_bound f) as B. unfold byte. assert (Zlen f <= 8).
  { unfold f, Zlen. pose proof (firstn_le_length 8 (b :: l)). lia. }
  assert (2 ^ Zlen f <= 2 ^ 8) by (apply Z.pow_le_mono_r; lia). change (2 ^ 8) with 256 in *. lia.
Qed.
Lemma put_bits_len : forall l, exists x, put_bits l = Ok x /\ List.length x = ((List.length l + 7) / 8)%nat /\ bytes_ok x.
Proof.
  intros l. unfold put_bits. eexists. split; [reflexivity|].
  destruct (get_bits_put l [] (List.length l) (le_n _)) as [Hl _]. split; [exact Hl|apply put_bits_bytes_ok].
Qed.
Lemma reads_bits : forall n, reads (get_bits n) (fun l u => List.length l = n /\ rsz (put_bits l) (Zlen u)).
Proof.
  intros n bs Hb. unfold get_bits. eapply out_bind; [apply reads_exact; exact Hb|].
  intros x u rest Hu Hr [-> HL]. cbv beta iota. apply out_ret; [exact Hr|]. rewrite app_nil_r.
  assert (Hn : List.length (firstn n (flat_map byte_bits u)) = n).
  { apply firstn_length_le. rewrite flat_bits_len, HL.
    pose proof (Nat.div_mod (n + 7) 8 ltac:(lia)) as D. pose proof (Nat.mod_upper_bound (n + 7) 8 ltac:(lia)). lia. }
  split; [exact Hn|]. destruct (put_bits_len (firstn n (flat_map byte_bits u))) as (x & Ex & Lx & Bx).
  exists x. split; [exact Ex|]. split; [|exact Bx]. rewrite Hn in Lx. unfold Zlen. lia.
Qed.

(** ** Types *)
Lemma rsz_cons : forall c r n, byte c -> rsz r n -> rsz (b <- r ;; Ok (c :: b)) (1 + n).
Proof. intros c r n Hc (x & -> & L). cbn [bind]. rok. rewrite Zlen_cons. lia. Qed.
Lemma rsz_app : forall r1 r2 n1 n2, rsz r1 n1 -> rsz r2 n2 -> rsz (a <- r1 ;; b <- r2 ;; Ok (a ++ b)) (n1 + n2).
Proof. intros r1 r2 n1 n2 (x & -> & L) (y & -> & M). cbn [bind]. rok. rewrite Zlen_app. lia. Qed.

Ltac rcons := apply rsz_cons; [bts|].

Lemma write_list_sz : forall A (w : A -> res bytes) l, Forall (fun a => exists n, rsz (w a) n) l -> exists n, rsz (write_list w l) n.
Proof.
  intros A w l H. induction H as [|a l [n Ha] Hl [m IH]]; [exists 0; rok; reflexivity|].
  exists (n + m). cbn [write_list]. fold (write_list w l). apply rsz_app; assumption.
Qed.
Lemma write_list_cons_sz : forall A (w : A -> res bytes) a l n m,
  rsz (w a) n -> rsz (write_list w l) m -> rsz (write_list w (a :: l)) (n + m).
Proof. intros. cbn [write_list]. fold (write_list w l). apply rsz_app; assumption. Qed.

Definition tsz (t : stype) (n : Z) : Prop := rsz (ser_type t) n.

Lemma emb_sz : forall c t, emb_type c = Some t -> tsz t 1.
Proof.
  intros c t E. apply emb_type_code in E. destruct E as [E _]. destruct t; try discriminate E; rok; reflexivity.
Qed.
Lemma emb_code_sz : forall t p, emb_code t = Some p -> tsz t 1.
Proof. intros t p E. destruct t; try discriminate E; rok; reflexivity. Qed.
Lemma tsz_pos : forall t n, tsz t n -> 1 <= n.
Proof. intros t n (x & E & L). apply ser_type_nonempty in E. unfold Zlen in *. lia. Qed.

Lemma coll_sz : forall t n, tsz t n -> tsz (SColl t) (1 + n).
Proof.
  intros t n H. pose proof (tsz_pos _ _ H). unfold tsz in *. cbn [ser_type].
  destruct (emb_code t) eqn:?; [rok; rewrite !Zlen_cons, Zlen_nil; lia|].
  destruct t; try (rcons; assumption).
  destruct (emb_code t) eqn:?; [rok; rewrite !Zlen_cons, Zlen_nil; lia|rcons; assumption].
Qed.
Lemma opt_sz : forall t n, tsz t n -> tsz (SOption t) (1 + n).
Proof.
  intros t n H. pose proof (tsz_pos _ _ H). unfold tsz in *. cbn [ser_type].
  destruct (emb_code t) eqn:?; [rok; rewrite !Zlen_cons, Zlen_nil; lia|].
  destruct t; try (rcons; assumption).
  destruct (emb_code t) eqn:?; [rok; rewrite !Zlen_cons, Zlen_nil; lia|rcons; assumption].
Qed.
Lemma coll_emb_sz : forall c t, emb_type c = Some t -> tsz (SColl t) 1.
Proof. intros c t E. apply emb_type_code in E. destruct E as [E _]. unfold tsz. cbn [ser_type]. rewrite E. rok. reflexivity. Qed.
Lemma opt_emb_sz : forall c t, emb_type c = Some t -> tsz (SOption t) 1.
Proof. intros c t E. apply emb_type_code in E. destruct E as [E _]. unfold tsz. cbn [ser_type]. rewrite E. rok. reflexivity. Qed.
Lemma coll2_emb_sz : forall c t, emb_type c = Some t -> tsz (SColl (SColl t)) 1.
Proof.
  intros c t E. apply emb_type_code in E. destruct E as [E _]. unfold tsz. cbn [ser_type emb_code]. rewrite E.
  rok. reflexivity.
Qed.
Lemma optcoll_emb_sz : forall c t, emb_type c = Some t -> tsz (SOption (SColl t)) 1.
Proof.
  intros c t E. apply emb_type_code in E. destruct E as [E _]. unfold tsz. cbn [ser_type emb_code]. rewrite E.
  rok. reflexivity.
Qed.
Lemma pair_sz : forall t1 t2 n m, tsz t1 n -> tsz t2 m -> tsz (STuple [t1; t2]) (1 + n + m).
Proof.
  intros t1 t2 n m H1 H2. pose proof (tsz_pos _ _ H1). pose proof (tsz_pos _ _ H2). unfold tsz in *. cbn [ser_type].
  destruct (emb_code t1) as [p|] eqn:?, (emb_code t2) as [q|] eqn:?.
  - destruct ((p =? q) && negb (p =? 3)); [rok; rewrite !Zlen_cons, Zlen_nil; lia|].
    eapply rsz_le; [rcons; eassumption|lia].
  - eapply rsz_le; [rcons; eassumption|lia].
  - eapply rsz_le; [rcons; eassumption|lia].
  - destruct H1 as (x & -> & L1), H2 as (y & -> & L2). cbn [bind]. rok. rewrite Zlen_cons, Zlen_app. lia.
Qed.
(** A pair with one embedded component: the other one's code follows, whichever
    way round it is written. *)
Lemma pair1_sz : forall c t1 t2 m, emb_type c = Some t1 -> tsz t2 m -> tsz (STuple [t1; t2]) (1 + m).
Proof.
  intros c t1 t2 m E H2. apply emb_type_code in E. destruct E as [E _]. pose proof (tsz_pos _ _ H2).
  unfold tsz in *. cbn [ser_type]. rewrite E.
  destruct (emb_code t2) as [q|] eqn:?; [destruct ((c =? q) && negb (c =? 3)); [rok; rewrite !Zlen_cons, Zlen_nil; lia|]|];
    rcons; assumption.
Qed.
Lemma pair2_sz : forall c t1 t2 m, emb_type c = Some t2 -> tsz t1 m -> tsz (STuple [t1; t2]) (1 + m).
Proof.
  intros c t1 t2 m E H1. pose proof (emb_sz _ _ E) as HE. apply emb_type_code in E. destruct E as [E _]. pose proof (tsz_pos _ _ H1).
  unfold tsz in *. cbn [ser_type]. rewrite E.
  destruct (emb_code t1) as [q|] eqn:?; [destruct ((q =? c) && negb (q =? 3)); [rok; rewrite !Zlen_cons, Zlen_nil; lia|]|].
  - eapply rsz_le; [rcons; exact HE|lia].
  - rcons; assumption.
Qed.
(** The symmetric pair of shorts is the one type whose encoding grows. *)
Lemma sym_sz : forall c t, emb_type c = Some t -> tsz (STuple [t; t]) 2.
Proof. intros c t E. apply (pair1_sz c t t 1 E). eapply emb_sz; eassumption. Qed.
Lemma triple_sz : forall a b c n m k, tsz a n -> tsz b m -> tsz c k -> tsz (STuple [a; b; c]) (1 + n + m + k).
Proof.
  intros a b c n m k (x & Ex & Lx) (y & Ey & Ly) (z & Ez & Lz). unfold tsz. cbn [ser_type]. rewrite Ex, Ey, Ez. cbn [bind].
  rok. rewrite Zlen_cons, !Zlen_app. lia.
Qed.
Lemma quad_sz : forall a b c d n m k j, tsz a n -> tsz b m -> tsz c k -> tsz d j -> tsz (STuple [a; b; c; d]) (1 + n + m + k + j).
Proof.
  intros a b c d n m k j (x & Ex & Lx) (y & Ey & Ly) (z & Ez & Lz) (w & Ew & Lw). unfold tsz. cbn [ser_type].
  rewrite Ex, Ey, Ez, Ew. cbn [bind]. rok. rewrite Zlen_cons, !Zlen_app. lia.
Qed.
Lemma tuple_sz : forall l n, Zlen l <= 255 -> rsz (write_list ser_type l) n -> tsz (STuple l) (2 + n).
Proof.
  intros l n HL H. unfold tsz.
  assert (G : rsz (b <- write_list ser_type l ;; Ok (96 :: wrapu 8 (Zlen l) :: b)) (2 + n)).
  { destruct H as (x & -> & L). cbn [bind]. rok. rewrite !Zlen_cons. lia. }
  destruct l as [|a [|b [|c [|d [|e l]]]]]; try exact G.
  - cbn [write_list] in H. destruct H as (x & E & L). cbn [bind] in E.
    destruct (ser_type a) as [x1| |] eqn:E1; try discriminate. cbn [bind] in E.
    destruct (ser_type b) as [x2| |] eqn:E2; try discriminate. cbn [bind] in E. injection E as <-.
    rewrite app_nil_r in L. destruct L as [L B]. rewrite Zlen_app in L. unfold bytes_ok in B. rewrite ?Forall_app in B.
    eapply rsz_le; [apply (pair_sz a b (Zlen x1) (Zlen x2)); [exists x1|exists x2]; (split; [assumption|split; [lia|apply B]])|lia].
  - cbn [write_list] in H. destruct H as (x & E & L). cbn [bind] in E.
    destruct (ser_type a) as [x1| |] eqn:E1; try discriminate. cbn [bind] in E.
    destruct (ser_type b) as [x2| |] eqn:E2; try discriminate. cbn [bind] in E.
    destruct (ser_type c) as [x3| |] eqn:E3; try discriminate. cbn [bind] in E. injection E as <-.
    rewrite app_nil_r in L. destruct L as [L B]. rewrite !Zlen_app in L. unfold bytes_ok in B. rewrite ?Forall_app in B.
    eapply rsz_le; [apply (triple_sz a b c (Zlen x1) (Zlen x2) (Zlen x3)); [exists x1|exists x2|exists x3]; (split; [assumption|split; [lia|apply B]])|lia].
  - cbn [write_list] in H. destruct H as (x & E & L). cbn [bind] in E.
    destruct (ser_type a) as [x1| |] eqn:E1; try discriminate. cbn [bind] in E.
    destruct (ser_type b) as [x2| |] eqn:E2; try discriminate. cbn [bind] in E.
    destruct (ser_type c) as [x3| |] eqn:E3; try discriminate. cbn [bind] in E.
    destruct (ser_type d) as [x4| |] eqn:E4; try discriminate. cbn [bind] in E. injection E as <-.
    rewrite app_nil_r in L. destruct L as [L B]. rewrite !Zlen_app in L. unfold bytes_ok in B. rewrite ?Forall_app in B.
    eapply rsz_le; [apply (quad_sz a b c d (Zlen x1) (Zlen x2) (Zlen x3) (Zlen x4)); [exists x1|exists x2|exists x3|exists x4]; (split; [assumption|split; [lia|apply B]])|lia].
Qed.

Definition QT (t : stype) (u : bytes) : Prop := ty_ok t /\ tsz t (2 * Zlen u) /\ 1 <= Zlen u.
Definition QTs (l : list stype) (u : bytes) : Prop :=
  Forall ty_ok l /\ rsz (write_list ser_type l) (2 * Zlen u).
Lemma ty_tuple : forall l, 2 <= Zlen l <= 255 -> Forall ty_ok l -> ty_ok (STuple l).
Proof.
  intros l HL H. split; cbn [wf_type fun_free].
  - split; [exact HL|]. apply fold_and_Forall. eapply Forall_impl; [|exact H]. intros a [? _]. assumption.
  - apply fold_and_Forall. eapply Forall_impl; [|exact H]. intros a [_ ?]. assumption.
Qed.
Lemma ty_emb : forall c t, emb_type c = Some t -> ty_ok t.
Proof. intros c t E. apply emb_wf in E. exact E. Qed.

Ltac ty_pair := apply ty_tuple; [rewrite !Zlen_cons, Zlen_nil; lia|repeat (apply Forall_cons; [eauto using ty_emb|]); apply Forall_nil].

(** The body of a type after its code [c]: the code counts in the size. *)
Lemma reads_tc : forall rec c, reads rec QT ->
  reads (parse_tc_with rec c) (fun t u => ty_ok t /\ tsz t (2 * (1 + Zlen u))).
Proof.
  intros rec c HR bs Hb. unfold parse_tc_with.
  destruct (emb_type c) as [t|] eqn:Ec.
  { apply out_ret; [exact Hb|]. split; [eapply ty_emb; eauto|]. eapply rsz_le; [eapply emb_sz; eauto|rewrite ?Zlen_nil; lia]. }
  repeat match goal with
  | |- out _ (if ?b then _ else _) _ => destruct b eqn:?
  end; try exact I;
  repeat match goal with
  | |- out _ (bind (rec _) _) _ =>
      eapply out_bind; [apply HR; assumption|];
      let a := fresh "t" in let u := fresh "u" in let r := fresh "r" in
      intros a u r ? ? (? & ? & ?); cbv beta iota
  | |- out _ (bind (of_option _ (emb_type ?x)) _) _ =>
      let E := fresh "Em" in
      destruct (emb_type x) eqn:E; cbn [of_option bind]; [|exact I]
  end;
  try (apply out_ret; [assumption|]; rewrite ?app_nil_r, ?Zlen_app).
  - split; [split; cbn; apply H1|]. eapply rsz_le; [apply coll_sz; eassumption|lia].
  - split; [split; cbn; eapply emb_wf; eauto|]. eapply rsz_le; [eapply coll_emb_sz; eassumption|rewrite ?Zlen_nil; lia].
  - split; [split; cbn; eapply emb_wf; eauto|]. eapply rsz_le; [eapply coll2_emb_sz; eassumption|rewrite ?Zlen_nil; lia].
  - split; [split; cbn; apply H1|]. eapply rsz_le; [apply opt_sz; eassumption|lia].
  - split; [split; cbn; eapply emb_wf; eauto|]. eapply rsz_le; [eapply opt_emb_sz; eassumption|rewrite ?Zlen_nil; lia].
  - split; [split; cbn; eapply emb_wf; eauto|]. eapply rsz_le; [eapply optcoll_emb_sz; eassumption|rewrite ?Zlen_nil; lia].
  - split; [ty_pair|]. eapply rsz_le; [eapply pair_sz; eassumption|lia].
  - split; [ty_pair|]. eapply rsz_le; [eapply pair1_sz; eassumption|lia].
  - split; [ty_pair|]. eapply rsz_le; [eapply triple_sz; eassumption|lia].
  - split; [ty_pair|]. eapply rsz_le; [eapply pair2_sz; eassumption|lia].
  - split; [ty_pair|]. eapply rsz_le; [eapply quad_sz; eassumption|lia].
  - split; [ty_pair|]. eapply rsz_le; [eapply sym_sz; eassumption|rewrite ?Zlen_nil; lia].
  - (* tuples of any length *)
    eapply out_bind; [apply reads_u8; exact Hb|]. intros n u r Hu Hr [Hn ->]. cbv beta iota.
    eapply out_bind; [eapply (reads_n _ rec QT QTs); [exact HR| | |exact Hr]|].
    { split; [constructor|]. rok. reflexivity. }
    { intros a l v w (A1 & A2 & A3) (B1 & B2). split; [constructor; assumption|].
      eapply rsz_le; [apply write_list_cons_sz; eassumption|]. rewrite Zlen_app. lia. }
    intros l v r' Hv Hr' [HL [HF HS]]. cbv beta iota.
    destruct ((2 <=? Zlen l) && (Zlen l <=? 255)) eqn:EL; [|exact I].
    apply out_ret; [exact Hr'|]. rewrite app_nil_r. split; [apply ty_tuple; [lia|exact HF]|].
    eapply rsz_le; [apply tuple_sz; [lia|exact HS]|]. rewrite Zlen_app, !Zlen_cons, Zlen_nil. lia.
  - split; [split; exact I|]. rok. rewrite !Zlen_cons, !Zlen_nil. lia.
  - split; [split; exact I|]. rok. rewrite !Zlen_cons, !Zlen_nil. lia.
  - split; [split; exact I|]. rok. rewrite !Zlen_cons, !Zlen_nil. lia.
  - split; [split; exact I|]. rok. rewrite !Zlen_cons, !Zlen_nil. lia.
  - split; [split; exact I|]. rok. rewrite !Zlen_cons, !Zlen_nil. lia.
  - (* type variables *)
    unfold typevar_read. eapply out_bind; [apply reads_u8; exact Hb|]. intros n u r Hu Hr [Hn ->]. cbv beta iota.
    eapply out_bind; [apply reads_exact; exact Hr|]. intros x v r' Hv Hr' [-> HL]. cbv beta iota.
    destruct (negb (utf8_valid v)) eqn:EU; [exact I|].
    destruct ((1 <=? Zlen v) && (Zlen v <=? 254)) eqn:EL; [|exact I].
    apply out_ret; [exact Hr'|]. rewrite app_nil_r, Zlen_app. split.
    { split; [|exact I]. cbn [wf_type]. repeat split; auto; [destruct (utf8_valid v); auto; discriminate|lia|lia]. }
    unfold tsz. cbn [ser_type]. unfold typevar_write. rok. rewrite !Zlen_cons, ?Zlen_nil. lia.
  - split; [split; exact I|]. rok. rewrite !Zlen_cons, !Zlen_nil. lia.
  - split; [split; exact I|]. rok. rewrite !Zlen_cons, !Zlen_nil. lia.
  - split; [split; exact I|]. rok. rewrite !Zlen_cons, !Zlen_nil. lia.
Qed.
Lemma reads_type_f : forall n, reads (parse_type_f n) QT.
Proof.
  induction n as [|n IH]; intros bs Hb; [exact I|]. cbn [parse_type_f].
  eapply out_bind; [apply reads_u8; exact Hb|]. intros c u r Hu Hr [Hc ->]. cbv beta iota.
  eapply out_conseq; [apply reads_tc; assumption|]. intros t v Hv [H1 H2]. unfold QT.
  rewrite Zlen_app. change (Zlen [c]) with 1. pose proof (Zlen_nonneg _ v). split; [exact H1|]. split; [exact H2|lia].
Qed.
Lemma reads_type : reads parse_type QT.
Proof. intros bs Hb. apply reads_type_f. exact Hb. Qed.
Lemma reads_with_type_code : forall c,
  reads (parse_with_type_code c) (fun t u => ty_ok t /\ tsz t (2 * (1 + Zlen u))).
Proof. intros c bs Hb. unfold parse_with_type_code. apply reads_tc; [apply reads_type_f|exact Hb]. Qed.

(** ** Fixed-format values *)
Section Values.
Context {G : group} (HG : group_ok G).

Lemma ec_write_sz : forall p : G, rsz (ec_write p) 33.
Proof.
  intros p. rewrite ec_write_ok. apply rsz_ok; [|apply ec_bytes_ok; exact HG].
  unfold ec_bytes. destruct (is_identity p) eqn:E; [vm_compute; discriminate|].
  unfold Zlen. rewrite (g_enc_len G HG); [lia|]. intros H. apply (is_identity_spec HG) in H. congruence.
Qed.
Lemma reads_ec : reads (@ec_read G) (fun p u => Zlen u = 33).
Proof.
  intros bs Hb. unfold ec_read. eapply out_bind; [apply reads_exact; exact Hb|].
  intros x u r Hu Hr [-> HL]. cbv beta iota.
  assert (Zlen u = 33) by (unfold Zlen; lia).
  destruct (negb (hd 0 u =? 0)).
  - destruct (gdec u); cbn [of_option bind]; [|exact I]. apply out_ret; [exact Hr|]. rewrite app_nil_r. exact H.
  - apply out_ret; [exact Hr|]. rewrite app_nil_r. exact H.
Qed.

Definition QS (s : sbool G) (u : bytes) : Prop := sb_wf s /\ rsz (sb_write s) (Zlen u) /\ 1 <= Zlen u.
Definition QSs (l : list (sbool G)) (u : bytes) : Prop :=
  Forall (@sb_wf G) l /\ rsz (write_each sb_write l) (Zlen u) .
Lemma write_each_cons_sz : forall A (w : A -> res bytes) a l n m,
  rsz (w a) n -> rsz (write_each w l) m -> rsz (write_each w (a :: l)) (n + m).
Proof. intros. cbn [write_each]. fold (write_each w l). apply rsz_app; assumption. Qed.

Lemma reads_sb : forall fuel, reads (@sb_read G fuel) QS.
Proof.
  induction fuel as [|fuel IH]; intros bs Hb; [exact I|]. cbn [sb_read].
  eapply out_bind; [apply reads_u8; exact Hb|]. intros op u0 r0 Hu0 Hr0 [Hop ->]. cbv beta iota zeta.
  assert (CR : forall c kb bs1 n, bytes_ok bs1 -> conj_wf c -> 
    match c with Thr k => put_u16 k | _ => Ok [] end = Ok kb -> Zlen kb <= n /\ bytes_ok kb ->
    out bs1 ('(n, bs) <- get_u16 bs1 ;; '(l, bs) <- read_n (Z.to_nat n) (sb_read fuel) bs ;;
             l <- bounded l ;; Ok (SConj c l, bs))
      (fun s v => @sb_wf G s /\ rsz (sb_write s) (1 + n + Zlen v))).
  { intros c kb bs1 k Hb1 Hc Ek Hk. eapply out_bind; [apply reads_u16; exact Hb1|].
    intros n v r1 Hv Hr1 (Hn & Sn & _). cbv beta iota.
    eapply out_bind; [eapply (reads_n _ (@sb_read G fuel) QS QSs); [exact IH| | |exact Hr1]|].
    { split; [constructor|]. rok. reflexivity. }
    { intros a l w x (A1 & A2 & _) (B1 & B2). split; [constructor; assumption|].
      eapply rsz_le; [apply write_each_cons_sz; eassumption|]. rewrite Zlen_app. lia. }
    intros l w r2 Hw Hr2 [HL [HF HS]]. cbv beta iota.
    unfold bounded. destruct ((2 <=? Zlen l) && (Zlen l <=? 255)) eqn:EL; cbn [bind]; [|exact I].
    apply out_ret; [exact Hr2|]. rewrite app_nil_r, Zlen_app.
    split; [cbn [sb_wf]; split; [exact Hc|]; split; [unfold items_len_ok; lia|apply fold_and_Forall; exact HF]|].
    cbn [sb_write]. rewrite Ek. cbn [bind].
    assert (En : wrapu 16 (Zlen l) = n).
    { rewrite wrapu_id by (change (2 ^ 16) with 65536; lia). unfold Zlen. rewrite HL. unfold u16 in Hn. lia. }
    rewrite En. destruct Sn as (nb & -> & Ln). cbn [bind]. destruct HS as (lb & -> & Ll). cbn [bind].
    rok; [rewrite Zlen_cons, !Zlen_app; lia|..]. all: destruct c; try (vm_compute; split; [discriminate|reflexivity]). }
  assert (F : forall x : res (sbool G * bytes), forall n,
    out r0 x (fun s v => sb_wf s /\ rsz (sb_write s) (1 + Zlen v)) ->
    n = 1 ->
    out r0 x (fun b v => QS b ([op] ++ v))).
  { intros x n H _. eapply out_conseq; [exact H|]. intros s v _ [H1 H2]. unfold QS.
    rewrite Zlen_app. change (Zlen [op]) with 1. pose proof (Zlen_nonneg _ v). repeat split; auto. lia. }
  destruct (op =? op_prove_dlog).
  { apply (F _ 1); [|reflexivity]. unfold dlog_read.
    eapply out_bind with (Q := fun (l : leaf G) v => exists p, l = Dlog p /\ Zlen v = 33).
    { eapply out_bind; [apply reads_ec; exact Hr0|]. intros p u r Hu Hr HL. cbv beta iota.
      apply out_ret; [exact Hr|]. rewrite app_nil_r. eauto. }
    intros p u r Hu Hr (q & -> & HL). cbv beta iota. apply out_ret; [exact Hr|]. rewrite app_nil_r.
    split; [exact I|]. cbn [sb_write leaf_write]. eapply rsz_le; [rcons; apply ec_write_sz|lia]. }
  destruct (op =? op_prove_dht).
  { apply (F _ 1); [|reflexivity]. unfold dht_read.
    eapply out_bind with (Q := fun (l : leaf G) v => exists a b c d, l = Dht a b c d /\ Zlen v = 132).
    { eapply out_bind; [apply reads_ec; exact Hr0|]. intros a u1 r1 Hu1 Hr1 L1. cbv beta iota.
      eapply out_bind; [apply reads_ec; exact Hr1|]. intros b u2 r2 Hu2 Hr2 L2. cbv beta iota.
      eapply out_bind; [apply reads_ec; exact Hr2|]. intros c u3 r3 Hu3 Hr3 L3. cbv beta iota.
      eapply out_bind; [apply reads_ec; exact Hr3|]. intros d u4 r4 Hu4 Hr4 L4. cbv beta iota.
      apply out_ret; [exact Hr4|]. rewrite app_nil_r, !Zlen_app. cbv beta in *. exists a, b, c, d. split; [reflexivity|lia]. }
    intros p u r Hu Hr (a & b & c & d & -> & HL). cbv beta iota. apply out_ret; [exact Hr|]. rewrite app_nil_r.
    split; [exact I|]. cbn [sb_write leaf_write]. rewrite HL.
    destruct (ec_write_sz a) as (xa & -> & La), (ec_write_sz b) as (xb & -> & Lb),
      (ec_write_sz c) as (xc & -> & Lc), (ec_write_sz d) as (xd & -> & Ld). cbn [bind].
    rok. rewrite Zlen_cons, !Zlen_app. lia. }
  destruct (op =? op_and).
  { apply (F _ 1); [|reflexivity]. eapply out_conseq; [apply (CR And [] r0 0); auto; [exact I|split; [reflexivity|constructor]]|].
    intros s v _ [H1 H2]. split; [exact H1|]. eapply rsz_le; [exact H2|lia]. }
  destruct (op =? op_or).
  { apply (F _ 1); [|reflexivity]. eapply out_conseq; [apply (CR Or [] r0 0); auto; [exact I|split; [reflexivity|constructor]]|].
    intros s v _ [H1 H2]. split; [exact H1|]. eapply rsz_le; [exact H2|lia]. }
  destruct (op =? op_atleast).
  { apply (F _ 1); [|reflexivity]. eapply out_bind; [apply reads_u16; exact Hr0|].
    intros k v r1 Hv Hr1 (Hk & Sk & _). cbv beta iota.
    assert (S8 : vsize (wrapu 8 k) (Zlen v)).
    { apply (put_mono k); [apply wrapu_le; unfold u16 in Hk; lia| |exact Sk].
      unfold u16, u64 in *. assert (2 ^ 16 < 2 ^ 64) by reflexivity. lia. }
    destruct S8 as (kb & Ek & Lk).
    eapply out_conseq; [apply (CR (Thr (wrapu 8 k)) kb r1 (Zlen v)); auto|].
    { cbn [conj_wf]. unfold u8, wrapu. apply Z.mod_pos_bound. reflexivity. }
    intros s w _ [H1 H2]. split; [exact H1|]. eapply rsz_le; [exact H2|]. rewrite Zlen_app. lia. }
  destruct (op =? op_triv_true).
  { apply out_ret; [exact Hr0|]. split; [exact I|]. split; [rok; reflexivity|reflexivity||(change (Zlen [op]) with 1; lia)]. }
  destruct (op =? op_triv_false).
  { apply out_ret; [exact Hr0|]. split; [exact I|]. split; [rok; reflexivity|reflexivity||(change (Zlen [op]) with 1; lia)]. }
  exact I.
Qed.
Lemma reads_sb_parse : reads (@sb_parse G) QS.
Proof. intros bs Hb. apply reads_sb. exact Hb. Qed.

Lemma reads_avl : reads parse_avl (fun a u => avl_ok a /\ rsz (ser_avl a) (Zlen u)).
Proof.
  intros bs Hb. unfold parse_avl.
  eapply out_bind; [apply reads_exact; exact Hb|]. intros d u1 r1 Hu1 Hr1 [-> HL]. cbv beta iota.
  eapply out_bind; [apply reads_u8; exact Hr1|]. intros f u2 r2 Hu2 Hr2 [Hf ->]. cbv beta iota.
  eapply out_bind; [apply reads_u32; exact Hr2|]. intros k u3 r3 Hu3 Hr3 (Hk & Sk & _). cbv beta iota.
  eapply out_bind; [apply reads_u8; exact Hr3|]. intros t u4 r4 Hu4 Hr4 [Ht ->]. cbv beta iota.
  eapply out_bind with (Q := fun (o : option Z) v => match o with Some n => u32 n /\ rsz (put_u32 n) (Zlen v) | None => True end).
  { destruct (t =? 0); [apply out_ret; [exact Hr4|exact I]|].
    eapply out_bind; [apply reads_u32; exact Hr4|]. intros n u5 r5 Hu5 Hr5 (Hn & Sn & _). cbv beta iota.
    apply out_ret; [exact Hr5|]. rewrite app_nil_r. auto. }
  intros o u5 r5 Hu5 Hr5 HO. cbv beta iota. apply out_ret; [exact Hr5|]. rewrite app_nil_r.
  split.
  { repeat split; cbn [av_digest av_flags av_key_len av_val_len]; try exact HL; try apply Hk.
    - apply Z.land_nonneg. lia.
    - change 7 with (Z.ones 3) at 1. rewrite Z.land_ones by lia. change (2 ^ 3) with 8. lia.
    - destruct o; [apply HO|exact I]. }
  assert (B7 : byte (Z.land f 7)).
  { unfold byte. split; [apply Z.land_nonneg; lia|]. change 7 with (Z.ones 3). rewrite Z.land_ones by lia. change (2 ^ 3) with 8. lia. }
  unfold ser_avl. cbn [av_digest av_flags av_key_len av_val_len]. destruct Sk as (kb & -> & Lk). cbn [bind].
  destruct o as [n|].
  - destruct HO as [_ (nb & -> & Ln)]. cbn [bind]. rok. rewrite !Zlen_app, !Zlen_cons, Zlen_nil. lia.
  - cbn [bind]. rok. rewrite !Zlen_app, !Zlen_cons, Zlen_nil. pose proof (Zlen_nonneg _ u5). lia.
Qed.

Lemma reads_bigint : reads (@parse_bigint G) (fun v u => exists z, v = LBigInt z /\ - 2 ^ 255 <= z < 2 ^ 255 /\
  rsz (@ser_lit G v) (2 * Zlen u)).
Proof.
  intros bs Hb. unfold parse_bigint.
  eapply out_bind; [apply reads_u16; exact Hb|]. intros n u1 r1 Hu1 Hr1 (Hn & Sn & P1). cbv beta iota.
  destruct (32 <? n) eqn:E32; [exact I|].
  eapply out_bind; [apply reads_exact; exact Hr1|]. intros b u2 r2 Hu2 Hr2 [-> HL]. cbv beta iota.
  destruct (b256_of_bytes u2) as [z|] eqn:Ez; cbn [of_option bind]; [|exact I].
  destruct (c57_bytes_in_range u2 z Hu2 Ez) as [HR HV].
  apply out_ret; [exact Hr2|]. rewrite app_nil_r, Zlen_app. exists z. split; [reflexivity|].
  split; [set (m := 2 ^ 255) in *; clearbody m; lia|].
  cbn [ser_lit]. cbv zeta.
  assert (HS : (signed_len z <= Nat.max 1 (List.length u2))%nat).
  { destruct u2 as [|x u2'].
    - rewrite HV. cbn. lia.
    - apply signed_len_minimal; [lia|]. rewrite HV. destruct (from_signed_range (x :: u2') Hu2) as [R|X]; [|discriminate].
      unfold Zlen in R. rewrite Nat.max_r by (cbn [List.length]; lia). exact R. }
  assert (HZ : Zlen (to_signed_bytes_be z) = Z.of_nat (signed_len z)) by (unfold Zlen; rewrite to_signed_length; reflexivity).
  rewrite wrapu_id by (rewrite HZ; change (2 ^ 16) with 65536; lia).
  assert (Hs : u64 (Zlen (to_signed_bytes_be z))) by (rewrite HZ; unfold u64; change (2 ^ 64) with 18446744073709551616; lia).
  destruct (put_u64_spec _ Hs) as (nb & En & Sb & _ & Hl & Hm). change (put_u16 ?x) with (put_u64 x). rewrite En. cbn [bind].
  apply shape_bytes in Sb. pose proof (to_signed_ok z) as St.
  rok. rewrite Zlen_app, HZ.
  assert (Zlen nb = 1).
  { destruct Hm as [Hm|Hm]; [unfold Zlen; lia|].
    destruct (Z.eq_dec (Zlen nb) 1) as [|Hne]; [assumption|]. exfalso.
    assert (2 <= Zlen nb) by (unfold Zlen in *; lia).
    assert (128 ^ 1 <= 128 ^ (Zlen nb - 1)) by (apply Z.pow_le_mono_r; lia). change (128 ^ 1) with 128 in *. rewrite HZ in Hm. lia. }
  unfold Zlen in *. lia.
Qed.

Lemma reads_coll_bytes : reads (@parse_coll_bytes G) (fun v u => exists l, v = LCollBytes l /\ Forall i8 l /\
  Zlen l < 2 ^ 16 /\ rsz (@ser_lit G v) (Zlen u)).
Proof.
  intros bs Hb. unfold parse_coll_bytes.
  eapply out_bind; [apply reads_u16; exact Hb|]. intros n u1 r1 Hu1 Hr1 (Hn & Sn & P1). cbv beta iota.
  eapply out_bind; [apply reads_exact; exact Hr1|]. intros b u2 r2 Hu2 Hr2 [-> HL]. cbv beta iota.
  apply out_ret; [exact Hr2|]. rewrite app_nil_r, Zlen_app. eexists. split; [reflexivity|].
  assert (HZ : Zlen (map (wraps 8) u2) = n) by (unfold Zlen; rewrite map_length, HL; unfold u16 in Hn; lia).
  split.
  { apply Forall_forall. intros x Hx. apply in_map_iff in Hx. destruct Hx as (y & <- & _).
    unfold i8, wraps. change (2 ^ (8 - 1)) with 128. change (2 ^ 8) with 256. change (2 ^ 7) with 128. lia. }
  rewrite HZ. split; [unfold u16 in Hn; lia|]. cbn [ser_lit]. rewrite HZ. unfold put_usize_as_u16_unwrapped.
  replace (n <? 2 ^ 16) with true by (unfold u16 in Hn; lia).
  destruct Sn as (nb & -> & Ln). cbn [bind]. rok. rewrite Zlen_app.
  assert (Zlen (map (wrapu 8) (map (wraps 8) u2)) = Zlen u2) by (unfold Zlen; rewrite !map_length; reflexivity). lia.
Qed.

Lemma opt_list_bools : forall l, opt_list (@lit_bool G) (map LBool l) = Some l.
Proof. induction l as [|b l IH]; [reflexivity|]. cbn [map opt_list lit_bool]. fold (opt_list (@lit_bool G)). rewrite IH. reflexivity. Qed.

Lemma reads_coll_bools : reads (@parse_coll_bools G) (fun v u => exists l, v = LColl SBoolean (map LBool l) /\
  Zlen l < 2 ^ 16 /\ rsz (@ser_lit G v) (Zlen u)).
Proof.
  intros bs Hb. unfold parse_coll_bools.
  eapply out_bind; [apply reads_u16; exact Hb|]. intros n u1 r1 Hu1 Hr1 (Hn & Sn & P1). cbv beta iota.
  eapply out_bind; [apply reads_bits; exact Hr1|]. intros l u2 r2 Hu2 Hr2 [HL HS]. cbv beta iota.
  apply out_ret; [exact Hr2|]. rewrite app_nil_r, Zlen_app. exists l. split; [reflexivity|].
  assert (HZ : Zlen l = n) by (unfold Zlen; rewrite HL; unfold u16 in Hn; lia).
  assert (HM : Zlen (map (@LBool G) l) = n) by (rewrite <- HZ; unfold Zlen; rewrite map_length; reflexivity).
  split; [rewrite HZ; unfold u16 in Hn; lia|]. cbn [ser_lit]. rewrite HM. unfold put_usize_as_u16_unwrapped.
  replace (n <? 2 ^ 16) with true by (unfold u16 in Hn; lia).
  destruct Sn as (nb & -> & Ln). cbn [bind]. rewrite opt_list_bools. cbn [of_option bind].
  destruct HS as (x & -> & Lx). cbn [bind]. rok. rewrite Zlen_app. lia.
Qed.
End Values.

(** ** Headers, tokens, payloads, arguments *)
Lemma reads_header : reads parse_header (fun h u => header_ok h /\ Zlen u = 1).
Proof.
  intros bs Hb. unfold parse_header. eapply out_bind; [apply reads_u8; exact Hb|].
  intros b u r Hu Hr [HB ->]. cbv beta iota. unfold th_new. cbv zeta.
  destruct (Z.land b 7 <=? 1) eqn:E; cbn [bind]; [|exact I].
  apply out_ret; [exact Hr|]. split; [|reflexivity]. unfold header_ok. cbn [th_version].
  assert (0 <= Z.land b 7) by (apply Z.land_nonneg; lia). lia.
Qed.

Lemma reads_value : reads parse_value (fun v u => box_value_min <= v <= 2 ^ 63 - 1 /\ rsz (put_u64 v) (Zlen u)).
Proof.
  intros bs Hb. unfold parse_value. eapply out_bind; [apply reads_u64; exact Hb|].
  intros v u r Hu Hr (H1 & H2 & _). cbv beta iota. unfold box_value_of.
  destruct ((box_value_min <=? v) && (v <=? i64_max)) eqn:E; cbn [bind]; [|exact I].
  apply out_ret; [exact Hr|]. rewrite app_nil_r. split; [|exact H2]. unfold i64_max in E. lia.
Qed.

Lemma reads_token : reads (parse_token None) (fun t u => token_ok t /\ rsz (ser_token None t) (Zlen u)).
Proof.
  intros bs Hb. unfold parse_token.
  eapply out_bind; [apply reads_exact; exact Hb|]. intros id u r Hu Hr [-> HL]. cbv beta iota.
  eapply out_bind; [apply reads_u64; exact Hr|]. intros v u2 r2 Hu2 Hr2 (H1 & H2 & _). cbv beta iota.
  unfold token_amount_of. destruct ((1 <=? v) && (v <=? i64_max)) eqn:E; cbn [bind]; [|exact I].
  apply out_ret; [exact Hr2|]. rewrite app_nil_r, Zlen_app. split.
  { split; cbn [fst snd]; [exact HL|]. unfold i64_max in E. lia. }
  unfold ser_token. cbn [fst snd bind]. destruct H2 as (x & -> & L). cbn [bind]. rok. rewrite Zlen_app. lia.
Qed.
Lemma reads_tokens : reads (parse_tokens None) (fun l u => Forall token_ok l /\ Zlen l <= max_tokens /\
  rsz (write_list (ser_token None) l) (Zlen u - 1)).
Proof.
  intros bs Hb. unfold parse_tokens.
  eapply out_bind; [apply reads_u8; exact Hb|]. intros n u r Hu Hr [Hn ->]. cbv beta iota.
  eapply out_bind; [eapply (reads_n _ _ _ (fun l v => Forall token_ok l /\ rsz (write_list (ser_token None) l) (Zlen v)));
    [apply reads_token| | |exact Hr]|].
  { split; [constructor|]. rok. reflexivity. }
  { intros a l v w [A1 A2] [B1 B2]. split; [constructor; assumption|]. rewrite Zlen_app.
    apply write_list_cons_sz; assumption. }
  intros l v r2 Hv Hr2 [HL [HF HS]]. cbv beta iota.
  destruct (Zlen l <=? max_tokens) eqn:E; [|exact I]. apply out_ret; [exact Hr2|]. rewrite app_nil_r, Zlen_app.
  split; [exact HF|]. split; [lia|]. eapply rsz_le; [exact HS|]. change (Zlen [n]) with 1. lia.
Qed.

Lemma reads_payload : forall k, reads (parse_payload k) (fun p u => pay_kind p = k /\ payload_ok p /\ rsz (ser_payload p) (2 * Zlen u)).
Proof.
  intros k bs Hb. unfold parse_payload. destruct k.
  - apply out_ret; [exact Hb|]. repeat split. rok. reflexivity.
  - eapply out_bind; [apply reads_type; exact Hb|]. intros t u r Hu Hr (H1 & H2 & _). cbv beta iota.
    apply out_ret; [exact Hr|]. rewrite app_nil_r. repeat split; auto; apply H1.
  - eapply out_bind; [apply reads_i8; exact Hb|]. intros i u r Hu Hr [Hi L]. cbv beta iota.
    eapply out_bind; [apply reads_type; exact Hr|]. intros t u2 r2 Hu2 Hr2 (H1 & H2 & _). cbv beta iota.
    apply out_ret; [exact Hr2|]. rewrite app_nil_r, Zlen_app. split; [reflexivity|]. split; [split; [exact Hi|exact H1]|].
    cbn [ser_payload]. unfold put_i8. cbn [bind]. destruct H2 as (x & -> & Lx). cbn [bind]. rok.
    rewrite Zlen_app, Zlen_cons, Zlen_nil. lia.
  - eapply out_bind; [apply reads_u8; exact Hb|]. intros i u r Hu Hr [Hi ->]. cbv beta iota.
    eapply out_bind; [apply reads_type; exact Hr|]. intros t u2 r2 Hu2 Hr2 (H1 & H2 & _). cbv beta iota.
    apply out_ret; [exact Hr2|]. rewrite app_nil_r, Zlen_app. split; [reflexivity|]. split; [split; [exact Hi|exact H1]|].
    cbn [ser_payload]. unfold put_u8. cbn [bind]. destruct H2 as (x & -> & Lx). cbn [bind]. rok.
    rewrite !Zlen_app, !Zlen_cons, Zlen_nil. lia.
  - eapply out_bind; [apply reads_type; exact Hb|]. intros t u r Hu Hr (H1 & H2 & _). cbv beta iota.
    eapply out_bind; [apply reads_u8; exact Hr|]. intros i u2 r2 Hu2 Hr2 [Hi ->]. cbv beta iota.
    apply out_ret; [exact Hr2|]. rewrite app_nil_r, Zlen_app. split; [reflexivity|]. split; [split; [exact Hi|exact H1]|].
    cbn [ser_payload]. destruct H2 as (x & -> & Lx). unfold put_u8. cbn [bind]. rok.
    rewrite !Zlen_app, !Zlen_cons, Zlen_nil. lia.
  - eapply out_bind; [apply reads_u8; exact Hb|]. intros i u r Hu Hr [Hi ->]. cbv beta iota.
    destruct (i =? 0) eqn:E; [exact I|]. apply out_ret; [exact Hr|]. rewrite app_nil_r. split; [reflexivity|].
    unfold byte in Hi. split; [cbn; lia|]. rok. rewrite !Zlen_cons, Zlen_nil. lia.
Qed.

Lemma reads_arg : reads parse_arg (fun a u => arg_ok a /\ rsz (ser_arg a) (2 * Zlen u)).
Proof.
  intros bs Hb. unfold parse_arg.
  eapply out_bind; [apply reads_u32; exact Hb|]. intros i u r Hu Hr (Hi & Si & _). cbv beta iota.
  eapply out_bind; [apply reads_type; exact Hr|]. intros t u2 r2 Hu2 Hr2 (H1 & H2 & _). cbv beta iota.
  apply out_ret; [exact Hr2|]. rewrite app_nil_r, Zlen_app. split; [split; assumption|].
  unfold ser_arg. cbn [fst snd]. eapply rsz_le; [apply rsz_app; eassumption|]. pose proof (Zlen_nonneg _ u). lia.
Qed.
Lemma reads_args : reads parse_args (fun l u => Forall arg_ok l /\ Zlen l < 2 ^ 32 /\ rsz (ser_args l) (2 * Zlen u)).
Proof.
  intros bs Hb. unfold parse_args.
  eapply out_bind; [apply reads_u32; exact Hb|]. intros n u r Hu Hr (Hn & Sn & _). cbv beta iota.
  eapply out_conseq; [eapply (reads_n _ _ _ (fun l v => Forall arg_ok l /\ rsz (write_list ser_arg l) (2 * Zlen v)));
    [apply reads_arg| | |exact Hr]|].
  { split; [constructor|]. rok. reflexivity. }
  { intros a l v w [A1 A2] [B1 B2]. split; [constructor; assumption|]. rewrite Zlen_app.
    eapply rsz_le; [apply write_list_cons_sz; eassumption|lia]. }
  intros l v Hv [HL [HF HS]].
  assert (HZ : Zlen l = n) by (unfold Zlen; rewrite HL; unfold u32 in Hn; lia).
  split; [exact HF|]. rewrite HZ. split; [unfold u32 in Hn; lia|].
  unfold ser_args. rewrite HZ, wrapu_id by exact Hn. eapply rsz_le; [apply rsz_app; eassumption|].
  rewrite Zlen_app. pose proof (Zlen_nonneg _ u). lia.
Qed.
Lemma reads_type_code : reads parse_type_code (fun c u => is_type_code c = true /\ byte c /\ Zlen u = 1).
Proof.
  intros bs Hb. unfold parse_type_code. eapply out_bind; [apply reads_u8; exact Hb|].
  intros c u r Hu Hr [Hc ->]. cbv beta iota. destruct (is_type_code c) eqn:E; [|exact I].
  apply out_ret; [exact Hr|]. auto.
Qed.
