(** C92-C93: the JSON encoding of propositions, secrets, hints, headers and Merkle proofs,
    and what no document does to the reader. *)
From Verif Require Import Base VlqModel VlqProofs GfModel GroupModel SigmaModel ProverModel TypeModel MethodModel IrModel SerModel ChainModel
  WalletModel TxModel SignModel HeaderModel MerkleModel JsonModel SigmaSpec SerSpec SerLocal SerProofs SerProps ReadProofs ParseProofs TxProps ParseProps
  ChainProps WalletProps DeriveProps PowProps GroupProofs SbProofs SigmaProofs VerifierProofs EncodingProofs TypeProofs JsonProofs JsonHintProofs JsonProps.
From Coq Require Import Permutation.
Import SigmaModel SigmaProofs JsonModel TypeProofs.
Local Open Scope string_scope.
Local Open Scope list_scope.
Local Open Scope Z_scope.

(** ** C92: propositions, secrets, hints, headers, Merkle proofs *)
Theorem c92_proposition : forall G, group_ok G -> forall s : sbool G, sb_wf s -> sb_of_json (json_of_sb s) = Ok s.
Proof. intros G HG s W. exact (sb_rt HG s W). Qed.
Print Assumptions c92_proposition.
Theorem c92_proposition_accepted : forall G, group_ok G -> forall j (s : sbool G), tidy false j -> sb_of_json j = Ok s ->
  sb_wf s /\ sb_of_json (json_of_sb s) = Ok s.
Proof. intros G HG j s Hj E. pose proof (@good_sb G false j Hj) as X. rewrite E in X. split; [exact X|]. apply sb_rt; assumption. Qed.
Print Assumptions c92_proposition_accepted.
(** The nesting bound of the model never refuses a document. *)
Theorem c92_nesting : forall G n j, (json_depth j <= n)%nat -> @sb_of_json_f G n j = sb_of_json j.
Proof. intros G n j H. unfold sb_of_json. apply sb_fuel; [exact H|apply le_n]. Qed.
Print Assumptions c92_nesting.
Theorem c92_secret : forall G, group_ok G -> forall s : secret G, secret_ok G s -> secret_of_json (json_of_secret s) = Ok s.
Proof. intros G HG s H. exact (secret_rt HG s H). Qed.
Print Assumptions c92_secret.
Theorem c92_secret_accepted : forall G, group_ok G -> forall j (s : secret G), tidy false j -> secret_of_json j = Ok s ->
  secret_ok G s /\ secret_of_json (json_of_secret s) = Ok s.
Proof. intros G HG j s Hj E. pose proof (@good_secret G HG false j Hj) as X. rewrite E in X. split; [exact X|]. apply c92_secret; assumption. Qed.
Print Assumptions c92_secret_accepted.

(** A proof made by the prover is read back without the commitments, which are not
    written and are recomputed by whoever checks it. *)
Theorem c92_hint : forall G, group_ok G -> forall h : hint G, hint_json_ok h ->
  exists j, json_of_hint h = Ok j /\ hint_of_json j = Ok (hint_forget h).
Proof. intros G HG h H. exact (hint_rt HG h H). Qed.
Print Assumptions c92_hint.
Theorem c92_hint_proofs : forall G, group_ok G -> forall (s : sbool G) u e p, sb_wf s -> consistent s u -> sized 24 e -> position_ok p ->
  hint_json_ok (HRealProof s e u p) /\ hint_json_ok (HSimProof s e u p).
Proof. intros G HG s u e p W C He Hp. split; (split; [exact W|split; [exact He|split; [apply (consistent_stable HG); assumption|exact Hp]]]). Qed.
Print Assumptions c92_hint_proofs.
Theorem c92_hint_accepted : forall G, group_ok G -> forall j (h : hint G), tidy false j -> hint_of_json j = Ok h ->
  exists j', json_of_hint h = Ok j' /\ hint_of_json j' = Ok h.
Proof.
  intros G HG j h Hj E. pose proof (good_hint HG false j Hj) as X. rewrite E in X. cbn [good] in X.
  destruct X as [X1 X2]; [discriminate|]. destruct (hint_rt HG h X1) as (j' & J1 & J2). rewrite X2 in J2. eauto.
Qed.
Print Assumptions c92_hint_accepted.
(** The hints of every input survive, the secret and the public ones apart. *)
Theorem c92_hints_bag : forall G, group_ok G -> forall ord, any_order ord -> forall b : txhints G, hmap_json_ok (th_secret b) -> hmap_json_ok (th_public b) ->
  exists j b', json_of_txhints ord b = Ok j /\ txhints_of_json j = Ok b' /\
    (forall i, hm_get (th_secret b') i = option_map (map hint_forget) (hm_get (th_secret b) i)) /\
    (forall i, hm_get (th_public b') i = option_map (map hint_forget) (hm_get (th_public b) i)).
Proof. intros G HG ord Ho b H1 H2. exact (txhints_rt HG ord Ho b H1 H2). Qed.
Print Assumptions c92_hints_bag.

Theorem c92_header : forall G, group_ok G -> forall h : @header G, header_json_ok h -> pow_distance (h_solution h) <> None ->
  header_of_json (json_of_header h) = Ok h.
Proof. intros G HG h H D. exact (header_rt HG h H D). Qed.
Print Assumptions c92_header.
(** A header without a distance, as every header of version 2 read from bytes is, is
    written as a document that is refused. *)
Theorem c92_header_refuted : forall G, group_ok G -> forall h : @header G, header_json_ok h -> pow_distance (h_solution h) = None ->
  exists e, @header_of_json G (json_of_header h) = Err e.
Proof.
  intros G HG h (H1 & [B2 L2] & [B3 L3] & [B4 L4] & [B5 L5] & [B6 L6] & H7 & H8 & H9 & [B10 L10] & H11 & [B12 L12]) Hd.
  unfold header_of_json, json_of_header. cbn [as_fields bind]. eexists.
  fld. rewrite uint_num by exact H1. cbn [bind]. fld. rewrite digest_rt by assumption. cbn [bind]. fld. rewrite digest_rt by assumption. cbn [bind].
  fld. rewrite digest_rt by assumption. cbn [bind]. fld. rewrite digest_rt by assumption. cbn [bind]. fld. rewrite digest_rt by assumption. cbn [bind].
  fld. rewrite uint_num by exact H7. cbn [bind]. fld. rewrite uint_num by exact H8. cbn [bind]. fld. rewrite uint_num by exact H9. cbn [bind].
  fld. rewrite digest_rt by assumption. cbn [bind]. fld. unfold solution_of_json, json_of_solution. cbn [as_fields bind]. fld. rewrite (point_rt HG). cbn [bind].
  assert (O : forall m, lookup ["w"] m = Ok (Some match pow_onetime_pk (h_solution h) with Some w => json_of_point w | None => JNull end) ->
    opt_field ["w"] (@point_of_json G) m = Ok (pow_onetime_pk (h_solution h))).
  { intros m E. unfold opt_field. rewrite E. cbn [bind]. destruct (pow_onetime_pk (h_solution h)) as [w|]; [|reflexivity].
    pose proof (point_rt HG w) as P. unfold json_of_point, to_hex in *. rewrite P. reflexivity. }
  erewrite O; [|look]. cbn [bind]. fld. rewrite of_to_hex by exact H11. cbn [bind].
  match goal with |- context [lookup ["d"] ?m] => assert (D : lookup ["d"] m = Ok (Some JNull)) by (rewrite Hd; look); rewrite D end.
  cbn [bind distance_of_json]. reflexivity.
Qed.
Print Assumptions c92_header_refuted.
(** Headers read from bytes are in order; those of version 2 have no distance. *)
Lemma reads_ok : forall A (r : reader A) (Q : A -> bytes -> Prop) bs a rest, reads r Q -> bytes_ok bs -> r bs = Ok (a, rest) ->
  bytes_ok rest /\ exists u, bytes_ok u /\ Q a u.
Proof. intros A r Q bs a rest R B E. specialize (R bs B). rewrite E in R. destruct R as (u & _ & Hu & Hr & Hq). eauto. Qed.
Lemma exact_sized : forall n bs a rest, bytes_ok bs -> read_exact n bs = Ok (a, rest) -> bytes_ok rest /\ sized (Z.of_nat n) a.
Proof.
  intros n bs a rest B E. destruct (reads_ok _ _ _ _ _ _ (reads_exact n) B E) as (R & u & Hu & -> & L). split; [exact R|].
  split; [exact Hu|]. unfold Zlen. rewrite L. reflexivity.
Qed.
Lemma be_value_lt : forall l, bytes_ok l -> 0 <= be_value l < 256 ^ Zlen l.
Proof.
  intros l. pattern l. apply rev_ind; [intros _; cbn; lia|]. intros b l' IH B. apply Forall_app in B. destruct B as [B Bb]. inversion Bb as [|x y Hb _]; subst.
  specialize (IH B). rewrite be_value_snoc, Zlen_app, Zlen_cons, Zlen_nil. unfold byte in Hb. rewrite Z.pow_add_r by (pose proof (Zlen_nonneg _ l'); lia). lia.
Qed.
Ltac ex B E := apply bind_ok in E; let a := fresh "a" in let r := fresh "r" in let R := fresh "R" in let B' := fresh "B" in let S' := fresh "Sz" in
  destruct E as [[a r] [R E]]; apply exact_sized in R; [|exact B]; destruct R as [B' S']; clear B; rename B' into B.
Lemma parsed_header_ok : forall G H, hash32 H -> forall bs (h : @header G) rest, bytes_ok bs -> header_parse H bs = Ok (h, rest) ->
  header_json_ok h /\ (h_version h <> 1 -> pow_distance (h_solution h) = None).
Proof.
  intros G H HH bs h rest B E. unfold header_parse in E.
  apply bind_ok in E. destruct E as [[v r0] [R E]]. destruct (reads_ok _ _ _ _ _ _ reads_u8 B R) as (B' & u & _ & Hv & _). clear B R. rename B' into B.
  do 4 ex B E. apply bind_ok in E. destruct E as [[ts r5] [R E]]. destruct (reads_ok _ _ _ _ _ _ reads_u64 B R) as (B' & u5 & _ & Hts & _). clear B R. rename B' into B.
  do 2 ex B E. apply bind_ok in E. destruct E as [[ht r8] [R E]]. destruct (reads_ok _ _ _ _ _ _ reads_u32 B R) as (B' & u8 & _ & Hht & _). clear B R. rename B' into B.
  ex B E. apply bind_ok in E. destruct E as [[[] r10] [R E]].
  assert (B' : bytes_ok r10).
  { unfold skip_new_fields in R. destruct (1 <? v); [|injection R as <-; exact B]. apply bind_ok in R. destruct R as [[n rr] [R1 R]].
    destruct (reads_ok _ _ _ _ _ _ reads_u8 B R1) as (B' & _). destruct (0 <? n); [|injection R as <-; exact B'].
    apply bind_ok in R. destruct R as [[x rr'] [R2 R]]. injection R as <-. destruct (exact_sized _ _ _ _ B' R2) as [X _]. exact X. }
  clear B R. apply bind_ok in E. destruct E as [[sol r11] [R E]].
  assert (K : bytes_ok (nonce sol) /\ (v <> 1 -> pow_distance sol = None)).
  { unfold solution_parse in R. destruct (Z.eqb_spec v 1) as [->|N].
    - apply bind_ok in R. destruct R as [[pk q1] [R1 R]]. destruct (reads_ok _ _ _ _ _ _ (@reads_ec G) B' R1) as (B1 & _).
      apply bind_ok in R. destruct R as [[w q2] [R2 R]]. destruct (reads_ok _ _ _ _ _ _ (@reads_ec G) B1 R2) as (B2 & _).
      apply bind_ok in R. destruct R as [[n q3] [R3 R]]. apply exact_sized in R3; [|exact B2]. destruct R3 as [_ [Bn _]].
      apply bind_ok in R. destruct R as [[dl q4] [_ R]]. apply bind_ok in R. destruct R as [[d q5] [_ R]]. injection R as <- _. split; [exact Bn|congruence].
    - apply bind_ok in R. destruct R as [[pk q1] [R1 R]]. destruct (reads_ok _ _ _ _ _ _ (@reads_ec G) B' R1) as (B1 & _).
      apply bind_ok in R. destruct R as [[n q3] [R3 R]]. apply exact_sized in R3; [|exact B1]. destruct R3 as [_ [Bn _]]. injection R as <- _. split; [exact Bn|reflexivity]. }
  cbv zeta in E. apply bind_ok in E. destruct E as [c1 [_ E]]. apply bind_ok in E. destruct E as [c2 [_ E]].
  apply (f_equal (fun r => match r with Ok (x, _) => Some x | _ => None end)) in E. assert (E' : h = _) by (symmetry; injection E; intros X; exact X). rewrite E'. clear E E'.
  cbn [h_version h_solution]. split; [|apply K]. unfold header_json_ok.
  cbn [h_version h_id h_parent_id h_ad_proofs_root h_state_root h_transaction_root h_timestamp h_n_bits h_height h_extension_root h_solution h_votes].
  cbn [Z.of_nat Pos.of_succ_nat Pos.succ] in *.
  assert (Hid : sized 32 (H (c1 ++ c2))). { destruct (HH (c1 ++ c2)) as [L Bh]. split; [exact Bh|]. unfold Zlen. rewrite L. reflexivity. }
  assert (Hnb : u64 (be_value a4)). { destruct Sz4 as [B4 L4]. pose proof (be_value_lt a4 B4) as X. rewrite L4 in X. unfold u64. change (256 ^ 4) with 4294967296 in X. lia. }
  unfold byte in Hv. repeat split; try assumption; try apply Hv; try apply K; solve [match goal with S : sized _ ?x |- _ => apply S end | apply Hid | apply Hts | apply Hht | apply Hnb | apply Sz | apply Sz0 | apply Sz1 | apply Sz2 | apply Sz3].
Qed.
Theorem c92_header_bytes : forall G, group_ok G -> forall H, hash32 H -> forall bs (h : @header G) rest, bytes_ok bs -> header_parse H bs = Ok (h, rest) ->
  if h_version h =? 1 then header_of_json (json_of_header h) = Ok h else exists e, @header_of_json G (json_of_header h) = Err e.
Proof.
  intros G HG H HH bs h rest B E. destruct (parsed_header_ok G H HH bs h rest B E) as [Hh Hd]. destruct (Z.eqb_spec (h_version h) 1) as [V|V].
  - apply (header_rt HG h Hh). unfold header_parse in E. do 11 (apply bind_ok in E; destruct E as [[? ?] [_ E]]).
    apply bind_ok in E. destruct E as [[sol ?] [R E]]. cbv zeta in E. apply bind_ok in E. destruct E as [c1 [_ E]]. apply bind_ok in E. destruct E as [c2 [_ E]].
    apply (f_equal (fun r => match r with Ok (x, _) => Some x | _ => None end)) in E. assert (E' : h = _) by (symmetry; injection E; intros X; exact X). subst h.
    cbn [h_version h_solution] in *. subst. unfold solution_parse in R. cbn [Z.eqb Pos.eqb] in R. do 5 (apply bind_ok in R; destruct R as [[? ?] [_ R]]). injection R as <- _. discriminate.
  - apply c92_header_refuted; auto.
Qed.
Print Assumptions c92_header_bytes.
(** The identifier of a header is taken from the document, not computed. *)
Theorem c92_header_id_refuted : forall G, group_ok G -> forall h : @header G, header_json_ok h -> pow_distance (h_solution h) <> None -> forall x, sized 32 x ->
  exists j h', header_of_json j = Ok h' /\ h_id h' = x /\ h_parent_id h' = h_parent_id h /\ h_solution h' = h_solution h /\ h_height h' = h_height h.
Proof.
  intros G HG h Hh Hd x Hx.
  pose (h' := Header (h_version h) x (h_parent_id h) (h_ad_proofs_root h) (h_state_root h) (h_transaction_root h) (h_timestamp h) (h_n_bits h) (h_height h)
    (h_extension_root h) (h_solution h) (h_votes h)).
  exists (json_of_header h'), h'. split; [|repeat split]. apply (header_rt HG); [|exact Hd]. unfold header_json_ok in *. cbn. tauto.
Qed.
Print Assumptions c92_header_id_refuted.
(** The operation of a constant proposition is not compared with its value. *)
Theorem c92_constant_refuted : forall G : group, exists j, lookup ["op"] (match j with JObj m => m | _ => [] end) = Ok (Some (JStr (txt "301"))) /\
  @sb_of_json G j = Ok (Triv false) /\ @sb_of_json G (@json_of_sb G (Triv true)) = Ok (Triv true).
Proof. intros G. exists (JObj [(txt "op", JStr (txt "301")); (txt "condition", JBool false)]). repeat split. Qed.
Print Assumptions c92_constant_refuted.
(** A hint at the empty position is written and refused. *)
Theorem c92_position_refuted : position_of_json (json_of_position []) = Err "ParseIntError".
Proof. reflexivity. Qed.
Print Assumptions c92_position_refuted.

Theorem c92_merkle : forall p, bytes_ok (leaf_data p) -> Forall (fun n => hash_ok (ln_hash n)) (levels p) -> merkle_of_json (json_of_merkle p) = Ok p.
Proof. exact merkle_rt. Qed.
Print Assumptions c92_merkle.
Theorem c92_merkle_accepted : forall j p, tidy false j -> merkle_of_json j = Ok p ->
  Forall (fun n => hash_ok (ln_hash n)) (levels p) /\ merkle_of_json (json_of_merkle p) = Ok p.
Proof. intros j p Hj E. pose proof (good_merkle false j Hj) as X. rewrite E in X. destruct X as [X1 X2]. split; [exact X2|]. apply merkle_rt; assumption. Qed.
Print Assumptions c92_merkle_accepted.
Theorem c92_batch : forall p, Forall bidx_ok (indices p) -> Forall (fun n => hash_ok (ln_hash n)) (MerkleModel.proofs p) -> batch_of_json (json_of_batch p) = Ok p.
Proof. exact batch_rt. Qed.
Print Assumptions c92_batch.
Theorem c92_batch_accepted : forall j p, tidy false j -> batch_of_json j = Ok p -> batch_of_json (json_of_batch p) = Ok p.
Proof. intros j p Hj E. pose proof (good_batch false j Hj) as X. rewrite E in X. destruct X as [X1 X2]. apply batch_rt; assumption. Qed.
Print Assumptions c92_batch_accepted.

Definition demo_header (G : group) (x : G) (d : option Z) : @header G :=
  Header 2 (repeat 1 32) (repeat 2 32) (repeat 3 32) (repeat 4 33) (repeat 5 32) 1600000000000 117707779 614400 (repeat 6 32)
    (Solution x None (repeat 7 8) d) [0; 4; 255].
Lemma rep_ok : forall n x, 0 <= x < 256 -> bytes_ok (repeat x n).
Proof. intros n x H. apply Forall_forall. intros y Hy. apply repeat_spec in Hy. subst. exact H. Qed.
Lemma demo_header_ok : forall G x d, header_json_ok (demo_header G x d).
Proof.
  intros G x d. unfold header_json_ok, demo_header. cbn [h_version h_id h_parent_id h_ad_proofs_root h_state_root h_transaction_root h_timestamp h_n_bits h_height h_extension_root h_solution h_votes nonce].
  unfold sized, u64, u32. repeat split; try (apply rep_ok; lia); try lia. repeat constructor; lia.
Qed.
Example c92_hyps_met : forall (G : group) (HG : group_ok G) (x : G), 
  sb_wf (SConj (Thr 2) [SLeaf (Dlog x); SLeaf (Dht x x x x); SConj Or [Triv true; SLeaf (Dlog x)]]) /\
  header_json_ok (demo_header G x (Some 12345678901234567890123)) /\ header_json_ok (demo_header G x None) /\
  hint_json_ok (HRealCommitment (SLeaf (Dlog x)) (FDlog x) [0%nat; 2%nat]) /\
  hmap_json_ok [(0%nat, [HRealCommitment (SLeaf (Dlog x)) (FDlog x) [0%nat; 2%nat]]); (1%nat, [])].
Proof.
  intros G HG x. repeat match goal with |- _ /\ _ => split end; try (apply demo_header_ok); try (cbn; repeat split; lia).
  - cbn [sb_wf fold_right conj_wf]. unfold items_len_ok, Zlen. cbn [List.length]. repeat split; try lia; unfold u8; lia.
  - split; [exact I|]. split; [discriminate|]. repeat constructor.
  - repeat constructor; cbn; try lia; try discriminate.
Qed.

(** ** C93: numbers exact or refused; no panic *)
Theorem c93_amount : forall j v, amount j = Ok v -> 0 <= v < 2 ^ 64 /\
  (j = JNum v \/ exists s, j = JStr s /\ Forall (fun d => 48 <= d <= 57) s /\ number_of s = v /\ (s = [48] \/ hd 48 s <> 48)).
Proof.
  intros j v E. split; [exact (amount_range j v E)|]. destruct j; try discriminate E; cbn [amount] in E.
  - left. destruct ((0 <=? z) && (z <? 2 ^ 64)); [|discriminate]. congruence.
  - right. exists s. split; [reflexivity|].
    assert (D : forall ds acc w, digits_value acc ds = Some w -> Forall (fun d => 48 <= d <= 57) ds /\ w = fold_left (fun n d => 10 * n + (d - 48)) ds acc).
    { clear. induction ds as [|d ds IH]; intros acc w E; cbn [digits_value] in E; [injection E as <-; split; [constructor|reflexivity]|].
      destruct ((48 <=? d) && (d <=? 57)) eqn:Ed; [|discriminate]. destruct (IH _ _ E) as [F V]. split; [constructor; [lia|exact F]|exact V]. }
    assert (K : forall c s', (if (49 <=? c) && (c <=? 57) then
                    match digits_value 0 (c :: s') with
                    | Some v => if v <? 2 ^ 64 then Ok v else Err "can't convert"
                    | None => Err "can't convert"
                    end else Err "can't convert") = Ok v ->
       Forall (fun d => 48 <= d <= 57) (c :: s') /\ number_of (c :: s') = v /\ (c :: s' = [48] \/ hd 48 (c :: s') <> 48)).
    { intros c s' X. destruct ((49 <=? c) && (c <=? 57)) eqn:Ec; [|discriminate]. destruct (digits_value 0 (c :: s')) as [w|] eqn:Ew; [|discriminate].
      destruct (w <? 2 ^ 64) eqn:El; [|discriminate]. injection X as <-. destruct (D _ _ _ Ew) as [F V]. split; [exact F|]. split; [symmetry; exact V|right; cbn [hd]; lia]. }
    destruct s as [|c s']; [discriminate|]. destruct (Z.eq_dec c 48) as [->|Hc].
    + destruct s'; [injection E as <-; repeat split; [constructor; [lia|constructor]|left; reflexivity]|]. apply K. exact E.
    + apply K. revert E. destruct c as [|c|c]; auto. do 6 (destruct c as [c|c|]; auto). destruct s'; auto. congruence.
Qed.
Print Assumptions c93_amount.
(** Integers of the encoding are taken only if they fit. *)
Theorem c93_integer : forall bound j v, uint bound j = Ok v <-> j = JNum v /\ 0 <= v < bound.
Proof.
  intros bound j v. split.
  - intros E. destruct j; try discriminate E. cbn [uint] in E. destruct ((0 <=? z) && (z <? bound)) eqn:El; [|discriminate]. injection E as ->. split; [reflexivity|lia].
  - intros [-> H]. cbn [uint]. replace ((0 <=? v) && (v <? bound)) with true by lia. reflexivity.
Qed.
Print Assumptions c93_integer.
(** Hexadecimal is read exactly: two digits a byte, in either case. *)
Theorem c93_hex : forall s b, unhex s = Some b -> bytes_ok b /\ Zlen s = 2 * Zlen b /\ unhex (hex b) = Some b.
Proof.
  intros s b E. pose proof (unhex_ok s b E) as (B & L). split; [exact B|]. split; [exact L|]. apply unhex_hex. exact B.
Qed.
Print Assumptions c93_hex.
Definition never_panics {A} (r : res A) : Prop := r <> Panic.
Lemma good_never : forall A (P : A -> Prop) r, good true P r -> never_panics r.
Proof. intros A P r H ->. discriminate H. Qed.
Theorem c93_no_panic : forall G, group_ok G -> forall H j, tidy true j ->
  never_panics (@cand_of_json G j) /\ never_panics (@box_of_json G H j) /\ never_panics (@input_of_json G j) /\ never_panics (@uinput_of_json G j) /\
  never_panics (@tx_of_json G H j) /\ never_panics (@utx_of_json G H j) /\ never_panics (@sb_of_json G j) /\ never_panics (@secret_of_json G j) /\
  never_panics (merkle_of_json j) /\ never_panics (batch_of_json j).
Proof.
  intros G HG H j Hj. repeat split; eapply good_never.
  - exact (good_cand HG true j Hj).
  - exact (good_box HG true H j Hj).
  - exact (good_input HG true j Hj).
  - exact (good_uinput HG true j Hj).
  - exact (good_tx HG true H j Hj).
  - exact (good_utx HG true H j Hj).
  - exact (@good_sb G true j Hj).
  - exact (@good_secret G HG true j Hj).
  - exact (good_merkle true j Hj).
  - exact (good_batch true j Hj).
Qed.
Print Assumptions c93_no_panic.
Theorem c93_hint_no_panic : forall G, group_ok G -> forall j, tidy true j ->
  (forall m s, as_tagged "hint" hint_variants j = Ok m -> field ["pubkey"] (@sb_of_json G) m = Ok s -> thr_ok s) -> never_panics (@hint_of_json G j).
Proof. intros G HG j Hj Ht. eapply good_never. apply (good_hint HG true j Hj). intros _. exact Ht. Qed.
Print Assumptions c93_hint_no_panic.

(** A register named by one two-byte character. *)
Theorem c93_register_name_refuted : forall G : group, exists j, @cand_of_json G j = Panic.
Proof.
  intros G. exists (JObj [(txt "value", JNum 1000000); (txt "ergoTree", to_hex [0; 8; 211]); (txt "assets", JArr []);
    (txt "additionalRegisters", JObj [([195; 169], to_hex [4; 5])]); (txt "creationHeight", JNum 1)]).
  assert (E : @tree_of_json G (to_hex [0; 8; 211]) = Ok (Parsed (THeader 0 false false) [] (EConst (MkConst SSigmaProp (LSigma (Triv true)))))) by (vm_compute; reflexivity).
  unfold cand_of_json, cand_of_members. cbn [as_fields bind]. fld. cbn [amount Z.leb Z.ltb Z.compare Z.pow Z.pow_pos Pos.iter Z.mul Pos.mul Pos.compare Pos.compare_cont andb bind].
  fld. rewrite E. cbn [bind]. fld. cbn [list_of traverse bind]. fld. reflexivity.
Qed.
Print Assumptions c93_register_name_refuted.
(** A vote that is not a natural number, and one that does not fit a byte. *)
Definition with_votes {G} (h : @header G) (v : json) : json :=
  match json_of_header h with JObj m => JObj (removelast m ++ [(txt "votes", v)]) | j => j end.
Theorem c93_votes_refuted : forall G, group_ok G -> forall h : @header G, header_json_ok h -> pow_distance (h_solution h) <> None ->
  header_of_json (with_votes h (JArr [JNum (-1); JNum 0; JNum 0])) = @Panic (@header G) /\
  exists h' : @header G, header_of_json (with_votes h (JArr [JNum 256; JNum 1; JNum 2])) = Ok h' /\ h_votes h' = [0; 1; 2].
Proof.
  intros G HG h (H1 & [B2 L2] & [B3 L3] & [B4 L4] & [B5 L5] & [B6 L6] & H7 & H8 & H9 & [B10 L10] & H11 & [B12 L12]) Hd.
  assert (K : forall v, header_of_json (with_votes h v) = (x <- votes_of_json v ;; Ok (Header (h_version h) (h_id h) (h_parent_id h) (h_ad_proofs_root h) (h_state_root h)
    (h_transaction_root h) (h_timestamp h) (h_n_bits h) (h_height h) (h_extension_root h) (h_solution h) x))).
  { intros v. unfold with_votes, json_of_header. cbn [removelast app]. unfold header_of_json. cbn [as_fields bind].
    fld. rewrite uint_num by exact H1. cbn [bind]. fld. rewrite digest_rt by assumption. cbn [bind]. fld. rewrite digest_rt by assumption. cbn [bind].
    fld. rewrite digest_rt by assumption. cbn [bind]. fld. rewrite digest_rt by assumption. cbn [bind]. fld. rewrite digest_rt by assumption. cbn [bind].
    fld. rewrite uint_num by exact H7. cbn [bind]. fld. rewrite uint_num by exact H8. cbn [bind]. fld. rewrite uint_num by exact H9. cbn [bind].
    fld. rewrite digest_rt by assumption. cbn [bind]. fld. rewrite (solution_rt HG) by assumption. cbn [bind]. fld. reflexivity. }
  rewrite !K. split; [reflexivity|]. eexists. split; reflexivity.
Qed.
Print Assumptions c93_votes_refuted.
(** A proof for a threshold above the number of its propositions. *)
Theorem c93_threshold_refuted : forall G : group, exists j, @hint_of_json G j = Panic.
Proof.
  intros G. pose (t := JObj [(txt "op", JStr (txt "301")); (txt "condition", JBool true)]).
  exists (JObj [(txt "hint", JStr (txt "proofReal")); (txt "pubkey", JObj [(txt "op", JStr (txt "152")); (txt "k", JNum 3); (txt "args", JArr [t; t])]);
                (txt "challenge", to_hex (repeat 0 24)); (txt "proof", to_hex (repeat 0 24)); (txt "position", JStr (txt "0"))]).
  vm_compute. reflexivity.
Qed.
Print Assumptions c93_threshold_refuted.
(** An amount outside the bounds of a box value is taken. *)
Theorem c93_value_bounds_refuted : forall G : group, forall v, u64 v -> exists j c, @cand_of_json G j = Ok c /\ cd_value c = v.
Proof.
  intros G v Hv. pose proof (demo_json_ok G) as D. destruct (b_cand (@demo_box G)) as [v0 t k r h]. destruct D as (D1 & D2 & D3 & D4 & D5 & D6 & D7).
  cbn [cd_value cd_tree cd_tokens cd_regs cd_height] in *.
  destruct (c90_candidate G (fun l => l) (fun l => Permutation_refl l) (MkCand v t k r h)) as (j & _ & J); [exact (conj Hv (conj D2 (conj D3 (conj D4 (conj D5 (conj D6 D7))))))|].
  exists j, (MkCand v t k r h). split; [exact J|reflexivity].
Qed.
Print Assumptions c93_value_bounds_refuted.
Example c93_hyps_met : forall (G : group) (x : G), amount (JStr [49; 50]) = Ok 12 /\ header_json_ok (demo_header G x (Some 5)) /\
  tidy true (JObj [(txt "value", JNum 1000000); (txt "ergoTree", JStr [48; 48; 48; 56; 100; 51]); (txt "assets", JArr []);
    (txt "additionalRegisters", JObj [([82; 52], JStr [48; 52; 48; 53])]); (txt "creationHeight", JNum 1)]).
Proof.
  intros G x. split; [reflexivity|]. split; [apply demo_header_ok|]. cbn [tidy fold_right fst snd].
  repeat match goal with |- _ /\ _ => split end; try exact I; try (vm_compute; reflexivity); intros _ a b E; try discriminate E. injection E as <- <-. lia.
Qed.
