(** Properties of boxes: C26, C27, C34, C70. *)
From Coq Require Import Permutation.
From Verif Require Import Base VlqModel VlqProofs GroupModel GroupProofs SigmaModel.
From Verif Require Import TypeModel TypeProofs MethodModel IrModel SerModel SerLocal SerSpec SerProofs ChainModel.
Local Open Scope string_scope.
Local Open Scope list_scope.
Local Open Scope Z_scope.

(** ** C26: values and amounts *)

(** The mathematical result [z] when it is between [lo] and [2^63 - 1], an error
    otherwise. *)
Definition exact (lo : Z) (r : res Z) (z : Z) : Prop :=
  (lo <= z <= 2 ^ 63 - 1 -> r = Ok z) /\ (~ lo <= z <= 2 ^ 63 - 1 -> exists e, r = Err e).
Definition nano (v : Z) : Prop := 10800 <= v <= 2 ^ 63 - 1.
Definition amount (v : Z) : Prop := 1 <= v <= 2 ^ 63 - 1.
Definition total (l : list Z) : Z := fold_right Z.add 0 l.

Ltac check_cases :=
  repeat match goal with
  | |- context [if ?c then _ else _] => destruct c eqn:?
  end; cbn [of_option bind]; repeat match goal with
  | |- context [if ?c then _ else _] => destruct c eqn:?
  end.

Lemma i64_max_val : i64_max = 9223372036854775807. Proof. reflexivity. Qed.

Theorem c26_box_value_new : forall v,
  (u64 v -> exact 10800 (bv_new v) v) /\ (i64 v -> exact 10800 (bv_of_i64 v) v).
Proof.
  intros v. unfold exact, bv_new, box_value_of, bv_of_i64, u64, i64, box_value_min. rewrite i64_max_val.
  split; intros Hv; split; intros H; check_cases; eauto; try lia; reflexivity.
Qed.
Print Assumptions c26_box_value_new.

Theorem c26_box_value_ops : forall a b, nano a -> nano b ->
  exact 10800 (bv_add a b) (a + b) /\ exact 10800 (bv_sub a b) (a - b) /\ exact 10800 (bv_mul a b) (a * b).
Proof.
  intros a b Ha Hb. assert (Hm : 0 < a * b) by (unfold nano in *; nia).
  assert (Hmm : 10800 <= a * b) by (unfold nano in *; nia).
  unfold exact, bv_add, bv_sub, bv_mul, u64_checked, upto_max, nano, box_value_min in *. rewrite i64_max_val.
  set (m := a * b) in *. clearbody m.
  split; [|split]; split; intros H; check_cases; eauto; try lia; reflexivity.
Qed.
Print Assumptions c26_box_value_ops.

(** Multiplication by a 32-bit number, unless it is zero. *)
Theorem c26_box_value_mul_u32 : forall a k, nano a -> 1 <= k < 2 ^ 32 -> exact 10800 (bv_mul a k) (a * k).
Proof.
  intros a k Ha Hk. assert (Hmm : 10800 <= a * k) by (unfold nano in *; nia).
  unfold exact, bv_mul, u64_checked, upto_max. rewrite i64_max_val.
  set (m := a * k) in *. clearbody m. split; intros H; check_cases; eauto; try lia; reflexivity.
Qed.
Print Assumptions c26_box_value_mul_u32.

Lemma total_nonneg : forall l, Forall nano l -> 0 <= total l.
Proof. intros l H. unfold total. induction H as [|v l Hv Hl IH]; [reflexivity|]. cbn [fold_right]. unfold nano in Hv. lia. Qed.

Lemma bv_fold_spec : forall l acc, Forall nano l -> 0 <= acc <= 2 ^ 63 - 1 ->
  (acc + total l <= 2 ^ 63 - 1 -> bv_fold acc l = Ok (acc + total l)) /\
  (2 ^ 63 - 1 < acc + total l -> exists e, bv_fold acc l = Err e).
Proof.
  induction l as [|v l IH]; intros acc H Ha.
  - unfold total. cbn [fold_right bv_fold]. rewrite Z.add_0_r. split; [reflexivity|lia].
  - inversion_clear H as [|? ? Hv Hl]. unfold total. cbn [fold_right bv_fold]. fold (total l).
    pose proof (total_nonneg l Hl) as Hp. unfold nano in Hv. unfold bv_add, u64_checked, upto_max. rewrite i64_max_val.
    replace ((0 <=? acc + v) && (acc + v <? 2 ^ 64)) with true by lia. cbn [of_option bind].
    destruct (acc + v <=? 9223372036854775807) eqn:E.
    + assert (R : 0 <= acc + v <= 2 ^ 63 - 1) by lia. specialize (IH (acc + v) Hl R).
      rewrite <- Z.add_assoc in IH. exact IH.
    + cbn [bind]. split; [lia|eauto].
Qed.

(** Summation: the exact total, or an error when the list is empty or the total is
    too large, whatever the order of the items. *)
Theorem c26_box_value_sum : forall l, Forall nano l -> exact 10800 (bv_sum l) (total l).
Proof.
  intros l H. assert (R0 : 0 <= 0 <= 2 ^ 63 - 1) by lia.
  destruct (bv_fold_spec l 0 H R0) as [A B]. rewrite Z.add_0_l in *.
  unfold exact, bv_sum. pose proof (total_nonneg l H) as Hp. split; intros R.
  - rewrite A by lia. cbn [bind]. replace (total l =? 0) with false by lia. reflexivity.
  - destruct (Z.lt_ge_cases (2 ^ 63 - 1) (total l)) as [L|L].
    + destruct (B L) as [e ->]. eexists. reflexivity.
    + rewrite A by lia. cbn [bind].
      assert (total l = 0).
      { destruct H as [|v l Hv Hl]; [reflexivity|]. unfold total in *. cbn [fold_right] in *.
        pose proof (total_nonneg l Hl). unfold total in *. unfold nano in Hv. lia. }
      rewrite H0. eexists. reflexivity.
Qed.
Print Assumptions c26_box_value_sum.

Theorem c26_token_amounts : forall a b, 
  (u64 a -> exact 1 (ta_new a) a) /\
  (amount a -> amount b -> exact 1 (ta_add a b) (a + b) /\ exact 1 (ta_sub a b) (a - b)).
Proof.
  intros a b. unfold exact, ta_new, token_amount_of, ta_add, ta_sub, u64_checked, upto_max, amount, u64. rewrite i64_max_val.
  split; [intros Ha|intros Ha Hb; split]; split; intros H; check_cases; eauto; try lia; reflexivity.
Qed.
Print Assumptions c26_token_amounts.

Example c26_hyps_met : nano 10800 /\ nano (2 ^ 63 - 1) /\ amount 1 /\ u64 (2 ^ 64 - 1) /\
  bv_add 10800 (2 ^ 63 - 1) = Err "OutOfBounds" /\ bv_sum [20000; 30000] = Ok 50000.
Proof. unfold nano, amount, u64. repeat split; try lia; reflexivity. Qed.

(** Two constructors leave the range: multiplication by zero and parsing text. *)
Theorem c26_mul_zero_refuted : exists a, nano a /\ bv_mul a 0 = Ok 0.
Proof. exists 10800. unfold nano. split; [lia|reflexivity]. Qed.
Print Assumptions c26_mul_zero_refuted.
Theorem c26_text_refuted : exists s v, bv_of_text s = Ok v /\ ~ nano v.
Proof. exists [48], 0. unfold nano. split; [reflexivity|lia]. Qed.
Print Assumptions c26_text_refuted.

(** ** C27: boxes *)

Theorem c27_box_roundtrip : forall G, group_ok G -> forall st (b : box G) st', ok_box st b st' ->
  exists bs, ser_box b = Ok bs /\ forall rest, parse_box parse_expr st (bs ++ rest) = Ok (b, st', rest).
Proof.
  intros G HG st b st' H. destruct (ok_roundtrip HG) as (_ & _ & _ & _ & _ & _ & _ & _ & _ & _ & _ & _ & _ & R).
  exact (R _ _ _ H).
Qed.
Print Assumptions c27_box_roundtrip.

(** With token identifiers written as positions in any table that has them, or in
    full. *)
Theorem c27_candidate_roundtrip : forall G, group_ok G -> forall st (c : cand G) st', ok_cand st c st' ->
  forall ids, match ids with
              | None => True
              | Some l => Zlen l <= 2 ^ 32 /\ NoDup l /\ Forall (fun t => In (fst t) l) (cd_tokens c)
              end ->
  exists bs, ser_cand ids c = Ok bs /\ forall rest, parse_cand parse_expr ids st (bs ++ rest) = Ok (c, st', rest).
Proof.
  intros G HG st c st' H ids Hi. destruct (ok_roundtrip HG) as (_ & _ & _ & _ & _ & _ & _ & _ & _ & _ & _ & _ & R & _).
  apply (R _ _ _ H). destruct ids as [l|]; [|exact I]. destruct c. cbn [ids_cover]. cbn [cd_tokens] in Hi. tauto.
Qed.
Print Assumptions c27_candidate_roundtrip.

(** Different boxes have different identifiers, unless a collision of the hash
    function has been found. *)
Theorem c27_id_identifies : forall G, group_ok G -> forall H (b b' : box G) s s' i,
  ok_box fresh b s -> ok_box fresh b' s' -> box_id H b = Ok i -> box_id H b' = Ok i ->
  b = b' \/ exists x y, x <> y /\ ser_box b = Ok x /\ ser_box b' = Ok y /\ H x = H y.
Proof.
  intros G HG H b b' s s' i O O' I1 I2.
  destruct (c27_box_roundtrip G HG _ _ _ O) as (x & E & R). destruct (c27_box_roundtrip G HG _ _ _ O') as (y & E' & R').
  unfold box_id in *. rewrite E in I1. rewrite E' in I2. cbn [bind] in *.
  destruct (list_eq_dec Z.eq_dec x y) as [->|N].
  - left. pose proof (R []) as X. rewrite (R' []) in X. congruence.
  - right. exists x, y. repeat split; congruence.
Qed.
Print Assumptions c27_id_identifies.

(** The identifier of a box that was read is computed from its own encoding; for
    bytes not written by the library this need not be the hash of the bytes read. *)
Theorem c27_received_bytes_refuted : forall G : group, exists bs (b : box G) st bs',
  parse_box parse_expr fresh bs = Ok (b, st, []) /\ ser_box b = Ok bs' /\ bs <> bs'.
Proof.
  intros G. exists ([128; 218; 196; 9] ++ [32; 1; 1] ++ [5] ++ [0] ++ [0] ++ repeat 7 32 ++ [0]).
  do 3 eexists. split; [vm_compute; reflexivity|]. split; [vm_compute; reflexivity|discriminate].
Qed.
Print Assumptions c27_received_bytes_refuted.

Definition demo_box {G : group} : box G :=
  MkBox (MkCand 1000000 (Parsed (THeader 0 false false) [] (EConst (MkConst SSigmaProp (LSigma (Triv true)))))
           [(repeat 1 32, 5); (repeat 2 32, 2 ^ 63 - 1)]
           [RParsed (MkConst SInt (LInt (-3))); RTuple [EConst (MkConst SInt (LInt 1)); EConst (MkConst SBoolean (LBool true))]]
           500000) (repeat 9 32) 3.
Lemma demo_cand_ok : forall G : group, ok_cand (@fresh G) (b_cand demo_box) fresh.
Proof.
  intros G. unfold demo_box, b_cand. eapply ok_candidate.
  - unfold box_value_min. lia.
  - unfold u32. lia.
  - repeat constructor; cbn [fst snd]; try reflexivity; lia.
  - rewrite !Zlen_cons, Zlen_nil. unfold max_tokens. lia.
  - rewrite !Zlen_cons, Zlen_nil. unfold max_regs. lia.
  - eapply ok_unsized; [left; reflexivity|reflexivity|apply ok_seg_no; reflexivity|].
    apply ok_inline. constructor; [vm_compute; tauto|]. apply ok_sigma. exact I.
  - eapply ok_regs_cons; [apply ok_reg_const; constructor; [vm_compute; tauto|apply ok_int; unfold i32; lia]|].
    eapply ok_regs_cons; [|apply ok_regs_nil].
    eapply ok_reg_tuple; [rewrite !Zlen_cons, Zlen_nil; lia|reflexivity|].
    eapply ok_exprs_cons; [apply ok_inline; constructor; [vm_compute; tauto|apply ok_int; unfold i32; lia]|].
    eapply ok_exprs_cons; [apply ok_inline; constructor; [vm_compute; tauto|apply ok_bool]|apply ok_exprs_nil].
Qed.
Example c27_hyps_met : forall G : group, ok_box (@fresh G) demo_box fresh.
Proof.
  intros G. apply ok_ergo_box; [reflexivity|unfold u16; lia|]. apply demo_cand_ok.
Qed.

(** ** C34: registers *)

(** The identifiers used are R4 up to some last one, without gaps. *)
Definition dense {G : group} (m : @reg_map G) : Prop :=
  forall id, In id (map fst m) <-> 4 <= id < 4 + Zlen m.
Definition ids_ok {G : group} (m : @reg_map G) : Prop :=
  NoDup (map fst m) /\ Forall (fun id => 4 <= id <= 9) (map fst m).

Section Regs.
Context {G : group}.
Implicit Types m : @reg_map G.

Lemma map_get_in : forall m id, In id (map fst m) -> exists v, map_get m id = Some v.
Proof.
  induction m as [|[k v] m IH]; intros id H; [destruct H|]. cbn [map_get]. destruct (Z.eqb_spec k id); [eauto|].
  destruct H; [contradiction|auto].
Qed.
Lemma map_get_none : forall m id, ~ In id (map fst m) -> map_get m id = None.
Proof.
  induction m as [|[k v] m IH]; intros id H; [reflexivity|]. cbn [map_get map fst In] in *.
  destruct (Z.eqb_spec k id); [tauto|]. apply IH. tauto.
Qed.
Lemma map_get_perm : forall m m' id, NoDup (map fst m) -> Permutation m m' -> map_get m id = map_get m' id.
Proof.
  intros m m' id Hn Hp. induction Hp as [|[k v] l l' Hp IH|[k1 v1] [k2 v2] l|l1 l2 l3 H1 IH1 H2 IH2].
  - reflexivity.
  - cbn [map_get]. inversion_clear Hn. rewrite IH by assumption. reflexivity.
  - cbn [map_get map fst] in *. inversion_clear Hn as [|? ? X _]. cbn [In] in X.
    destruct (Z.eqb_spec k2 id), (Z.eqb_spec k1 id); subst; try reflexivity. tauto.
  - rewrite IH1 by assumption. apply IH2. eapply Permutation_NoDup; [apply Permutation_map; eassumption|assumption].
Qed.

Lemma collect_spec : forall m ids,
  (Forall (fun id => In id (map fst m)) ids ->
     exists l, regs_collect m ids = Ok l /\ List.length l = List.length ids /\
       forall i id, nth_error ids i = Some id -> nth_error l i = map_get m id) /\
  (~ Forall (fun id => In id (map fst m)) ids -> exists e, regs_collect m ids = Err e).
Proof.
  intros m ids. induction ids as [|id ids [IH1 IH2]]; cbn [regs_collect].
  - split; [intros _; exists []; repeat split; intros [|i] id H; discriminate|].
    intros H. destruct (H (Forall_nil _)).
  - split.
    + intros H. inversion_clear H as [|? ? Hi Hr]. destruct (map_get_in _ _ Hi) as [v Ev]. rewrite Ev.
      destruct (IH1 Hr) as (l & -> & Hl & Hn). cbn [bind]. exists (v :: l). split; [reflexivity|].
      split; [cbn; congruence|]. intros [|i] id' E; cbn [nth_error] in *; [injection E as <-; auto|auto].
    + intros H. destruct (in_dec Z.eq_dec id (map fst m)) as [Hi|Hi].
      * destruct (map_get_in _ _ Hi) as [v Ev]. rewrite Ev. destruct IH2 as [e ->]; [intros X; apply H; constructor; auto|].
        eexists. reflexivity.
      * rewrite map_get_none by exact Hi. eexists. reflexivity.
Qed.

Lemma ids_ok_len : forall m, ids_ok m -> Zlen m <= 6.
Proof.
  intros m [Hn Hf]. assert (H : (List.length (map fst m) <= List.length reg_ids)%nat).
  { apply NoDup_incl_length; [exact Hn|]. intros id Hi. rewrite Forall_forall in Hf. specialize (Hf _ Hi).
    unfold reg_ids. cbn [In]. lia. }
  rewrite map_length in H. unfold Zlen. cbn in H. lia.
Qed.
Lemma nth_firstn : forall A (l : list A) n i, nth_error (firstn n l) i = if (i <? n)%nat then nth_error l i else None.
Proof.
  induction l as [|x l IH]; intros [|n] [|i]; cbn [firstn nth_error]; try reflexivity;
    try (destruct (_ <? _)%nat; reflexivity). change (S i <? S n)%nat with (i <? n)%nat. apply IH.
Qed.
Lemma nodup_firstn : forall A (l : list A) n, NoDup l -> NoDup (firstn n l).
Proof.
  induction l as [|x l IH]; intros [|n] H; cbn [firstn]; try constructor; inversion_clear H.
  - intros X. apply H0. rewrite <- (firstn_skipn n l). apply in_or_app. left. exact X.
  - apply IH. assumption.
Qed.
Lemma firstn_ids : forall n i id, (n <= 6)%nat ->
  nth_error (firstn n reg_ids) i = Some id <-> (i < n)%nat /\ id = 4 + Z.of_nat i.
Proof.
  intros n i id Hn. rewrite nth_firstn. destruct (Nat.ltb_spec i n) as [L|L].
  - assert (L6 : (i < 6)%nat) by lia. clear Hn.
    assert (E : nth_error reg_ids i = Some (4 + Z.of_nat i)).
    { do 6 (destruct i as [|i]; [reflexivity|]). lia. }
    rewrite E. split; [intros X; injection X as <-; auto|intros [_ ->]; reflexivity].
  - split; [discriminate|lia].
Qed.
Lemma firstn_ids_all : forall m, ids_ok m ->
  Forall (fun id => In id (map fst m)) (firstn (List.length m) reg_ids) <-> dense m.
Proof.
  intros m Hok. pose proof (ids_ok_len m Hok) as Hl. destruct Hok as [Hn Hf]. unfold Zlen in Hl.
  assert (Q : forall id, In id (firstn (List.length m) reg_ids) <-> 4 <= id < 4 + Zlen m).
  { intros id. unfold Zlen. split.
    - intros H. apply In_nth_error in H. destruct H as [i H]. apply firstn_ids in H; lia.
    - intros H. apply (nth_error_In _ (Z.to_nat (id - 4))). apply firstn_ids; lia. }
  rewrite Forall_forall. split.
  - intros H id. split; [|intros R; apply H, Q, R].
    (* the identifiers fill the range, so there is no other *)
    intros Hi. apply Q.
    assert (I : incl (map fst m) (firstn (List.length m) reg_ids)).
    { apply NoDup_length_incl; [| |exact H].
      - assert (N : NoDup reg_ids) by (unfold reg_ids; repeat constructor; cbn [In]; lia).
        apply nodup_firstn, N.
      - rewrite map_length, firstn_length. unfold reg_ids. cbn [List.length]. lia. }
    apply I, Hi.
  - intros D id Hi. apply D, Q, Hi.
Qed.
End Regs.

(** Success exactly for consecutive identifiers starting at R4; every register is
    then read back, and absent ones are reported absent. *)
Theorem c34_regs_of_map : forall G (m : @reg_map G), ids_ok m ->
  ((exists l, regs_of_map m = Ok l) <-> dense m) /\
  forall l, regs_of_map m = Ok l -> Zlen l = Zlen m /\
    forall id, 4 <= id <= 9 ->
      regs_get_constant l id =
        match map_get m id with
        | Some r => c <- reg_constant r ;; Ok (Some c)
        | None => Ok None
        end.
Proof.
  intros G m Hok. pose proof (ids_ok_len m Hok) as Hl. unfold regs_of_map.
  replace (max_regs <? Zlen m) with false by (unfold max_regs; lia).
  destruct (collect_spec m (firstn (List.length m) reg_ids)) as [A B].
  pose proof (firstn_ids_all m Hok) as D. unfold Zlen in Hl. split.
  - split.
    + intros [l E]. apply D. destruct (Forall_dec _ (fun id => in_dec Z.eq_dec id (map fst m)) (firstn (List.length m) reg_ids)) as [F|F]; [exact F|].
      destruct (B F) as [e X]. congruence.
    + intros Hd. destruct (A (proj2 D Hd)) as (l & E & _). eauto.
  - intros l E. destruct (Forall_dec _ (fun id => in_dec Z.eq_dec id (map fst m)) (firstn (List.length m) reg_ids)) as [F|F].
    2:{ destruct (B F) as [e X]. congruence. }
    destruct (A F) as (l' & E' & L & N). rewrite E in E'. injection E' as <-.
    assert (LL : List.length l = List.length m) by (rewrite L, firstn_length; unfold reg_ids; cbn [List.length]; lia).
    split; [unfold Zlen; congruence|]. intros id Hid. unfold regs_get_constant.
    destruct (Z.lt_ge_cases (id - 4) (Z.of_nat (List.length m))) as [Lt|Ge].
    + rewrite (N (Z.to_nat (id - 4)) id) by (apply firstn_ids; lia). reflexivity.
    + rewrite map_get_none.
      * replace (nth_error l (Z.to_nat (id - 4))) with (@None (regval G)); [reflexivity|].
        symmetry. apply nth_error_None. lia.
      * intros X. apply D in F. apply F in X. unfold Zlen in X. lia.
Qed.
Print Assumptions c34_regs_of_map.

(** The order in which a map lists its entries has no effect. *)
Theorem c34_order_irrelevant : forall G (m m' : @reg_map G), NoDup (map fst m) -> Permutation m m' ->
  regs_of_map m = regs_of_map m'.
Proof.
  intros G m m' Hn Hp. unfold regs_of_map, Zlen. rewrite (Permutation_length Hp).
  destruct (_ <? _); [reflexivity|]. generalize (firstn (List.length m') reg_ids). intros ids.
  induction ids as [|id ids IH]; [reflexivity|]. cbn [regs_collect]. rewrite (map_get_perm _ _ _ Hn Hp), IH. reflexivity.
Qed.
Print Assumptions c34_order_irrelevant.

(** From registers to a map and back. *)
Theorem c34_map_of_regs : forall G (l : list (regval G)), Zlen l <= 6 ->
  regs_of_map (map_of_regs l) = Ok l /\ ids_ok (map_of_regs l) /\ dense (map_of_regs l).
Proof.
  intros G l H.
  assert (S : ids_ok (map_of_regs l) /\ regs_of_map (map_of_regs l) = Ok l).
  { unfold Zlen in H. do 7 (destruct l as [|? l]; [split; [split; cbn; repeat constructor; cbn [In]; lia|reflexivity]|]).
    cbn [List.length] in H. lia. }
  destruct S as [Ho E]. split; [exact E|]. split; [exact Ho|].
  apply (c34_regs_of_map G _ Ho). eauto.
Qed.
Print Assumptions c34_map_of_regs.

(** The binary encoding of the register set. *)
Theorem c34_regs_roundtrip : forall G, group_ok G -> forall st (l : list (regval G)) st',
  Zlen l <= 6 -> ok_regs st l st' ->
  exists bs, ser_regs l = Ok bs /\ forall rest, parse_regs parse_expr st (bs ++ rest) = Ok (l, st', rest).
Proof.
  intros G HG st l st' Hl H. destruct (ok_roundtrip HG) as (_ & _ & _ & _ & _ & _ & _ & _ & _ & _ & _ & R & _).
  destruct (R _ _ _ H) as (b & E & P). pose proof (Zlen_nonneg _ l).
  destruct (get_put_u8 (Zlen l)) as (nb & En & Rn).
  exists (nb ++ b). unfold ser_regs. rewrite wrapu_id by (change (2 ^ 8) with 256; lia). rewrite En. cbn [bind]. rewrite E.
  split; [reflexivity|]. intros rest. unfold parse_regs. papp. pstep Rn. rewrite Zlen_nat.
  erewrite pbind_step; [|apply P]. replace (Zlen l <=? max_regs) with true by (unfold max_regs; lia). reflexivity.
Qed.
Print Assumptions c34_regs_roundtrip.

Example c34_hyps_met : forall G : group,
  let m : @reg_map G := [(5, RParsed (MkConst SInt (LInt 7))); (4, RParsed (MkConst SBoolean (LBool true)))] in
  ids_ok m /\ dense m.
Proof.
  intros G m. split; [split; cbn; repeat constructor; cbn [In]; lia|].
  intros id. subst m. cbn [map fst In]. rewrite !Zlen_cons, Zlen_nil. lia.
Qed.

(** [NonMandatoryRegisters::get] looks at the wrong place. *)
Theorem c34_get_refuted : forall G : group, exists (m : @reg_map G) l r,
  ids_ok m /\ regs_of_map m = Ok l /\ map_get m 4 = Some r /\ regs_get l 4 = None.
Proof.
  intros G. exists [(4, RParsed (MkConst SBoolean (LBool true)))]. do 2 eexists.
  split; [split; cbn; repeat constructor; cbn [In]; lia|].
  split; [reflexivity|]. split; reflexivity.
Qed.
Print Assumptions c34_get_refuted.

(** ** C70: names of registers *)
Theorem c70_reg_name_roundtrip : forall id, 4 <= id <= 9 -> reg_id_of_text (reg_id_text id) = Ok id.
Proof.
  intros id H. assert (id = 4 \/ id = 5 \/ id = 6 \/ id = 7 \/ id = 8 \/ id = 9) as D by lia.
  destruct D as [->|[->|[->|[->|[->| ->]]]]]; reflexivity.
Qed.
Print Assumptions c70_reg_name_roundtrip.
(** No other text is accepted. *)
Theorem c70_reg_name_exact : forall s id, reg_id_of_text s = Ok id -> s = reg_id_text id /\ 4 <= id <= 9.
Proof.
  intros s id H. destruct s as [|a [|b [|c s]]]; try discriminate. cbn [reg_id_of_text] in H.
  destruct (is_continuation b); [discriminate|]. destruct (Z.eqb_spec a 82) as [->|]; [|discriminate].
  unfold unsigned_of_text, strip_plus in H. destruct (Z.eqb_spec b 43) as [->|Hb]; [discriminate H|].
  cbn [digits_value] in H. destruct ((48 <=? b) && (b <=? 57)) eqn:E; [|discriminate].
  destruct (10 * 0 + (b - 48) <? 2 ^ 64); [|discriminate].
  destruct ((4 <=? 10 * 0 + (b - 48)) && (10 * 0 + (b - 48) <=? 9)) eqn:E2; [|discriminate].
  injection H as <-. unfold reg_id_text. split; [f_equal; f_equal; lia|lia].
Qed.
Print Assumptions c70_reg_name_exact.
(** The two-byte encoding of one character (here e with an acute accent) panics. *)
Theorem c70_reg_name_panics_refuted : exists s, reg_id_of_text s = Panic.
Proof. exists [195; 169]. reflexivity. Qed.
Print Assumptions c70_reg_name_panics_refuted.
