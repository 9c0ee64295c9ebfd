(** Value and token conservation, box selection, the box builder and the size
    estimate. *)
From Verif Require Import Base VlqModel GroupModel SigmaModel TypeModel MethodModel IrModel SerModel ChainModel TxModel TypeProofs ChainProps TxProps WalletModel WalletProofs VlqProofs SerProofs.
From Coq Require Import Permutation.
Local Open Scope string_scope.
Local Open Scope list_scope.
Local Open Scope Z_scope.

(** ** C32: box selection

    [order] is how the change tokens come out of their hash map: any order.
    [boxes_ok] and [amounts_ok] are the ranges of the value and amount types.
    [tok_total id l] is the amount of token [id] in [l]. *)
Definition orderly (order : tmap -> list token) : Prop := forall m, Permutation (order m) m.

Lemma select_start : forall target need, tm_ok need -> linv target need [] (Sel [] 0 need false false).
Proof.
  intros target need O. unfold linv. cbn [s_boxes s_value s_left]. split; [exists []; split; [constructor|reflexivity]|].
  split; [reflexivity|]. split; [exact O|]. split; intros id; cbn [btokens flat_map tok_total]; lia.
Qed.

Lemma select_inv : forall order inputs target tokens sn, orderly order -> boxes_ok inputs -> amounts_ok tokens -> 1 <= target <= 2 ^ 63 - 1 ->
  select order inputs target tokens = Ok sn ->
  (exists rest, Permutation (sn_boxes sn ++ rest) inputs) /\
  txio_ok (sn_boxes sn) = true /\
  change_ok (sn_change sn) /\ amounts_ok (all_tokens (sn_change sn)) /\
  (bvalue (sn_boxes sn) < 2 ^ 64 -> bvalue (sn_boxes sn) = target + sumZ (values (sn_change sn))) /\
  bvalue (sn_boxes sn) mod 2 ^ 64 = (target + sumZ (values (sn_change sn))) mod 2 ^ 64 /\
  forall id, tok_total id (btokens (sn_boxes sn)) = tok_total id tokens + tok_total id (all_tokens (sn_change sn)).
Proof.
  intros order inputs target tokens sn Ho Hi Ht Htg E. unfold select in E. apply bind_ok in E. destruct E as (need & En & E).
  apply sum_tokens_spec in En; [|exact Ht]. destruct En as [On An].
  cbv zeta in E. inv_bind E. rename b into s. set (srt := rev (sort_boxes (wanted_count need) inputs)) in *.
  assert (Ps : Permutation srt inputs) by apply sort_boxes_perm.
  assert (Hs : boxes_ok srt) by (apply (boxes_ok_perm inputs); [symmetry; exact Ps|exact Hi]).
  pose proof (loop_inv target need srt [] _ s Hs (select_start target need On) Eb) as ((sk & P & _) & V & O & A & B). cbn [app] in P, A, B.
  destruct (s_value s <? target) eqn:Q1; [discriminate|]. destruct (_ && _) eqn:Q2 in E; [discriminate|].
  apply bind_ok in E. destruct E as (change & Ec & E). apply bind_ok in E. destruct E as ([] & Ep & E).
  destruct (txio_ok (s_boxes s)) eqn:Q3; [|discriminate]. injection E as <-. cbn [sn_boxes sn_change].
  assert (Hsel : boxes_ok (s_boxes s)).
  { assert (X : boxes_ok (s_boxes s ++ sk)) by (apply (boxes_ok_perm srt); [symmetry; exact P|exact Hs]). apply Forall_app in X. apply X. }
  assert (C : change_ok change /\ amounts_ok (all_tokens change)).
  { destruct (negb (s_vchange s) && negb (s_tchange s)); [injection Ec as <-; split; constructor|].
    inv_bind Ec. inv_bind Ec. inv_bind Ec. apply sum_from_boxes_spec in Eb1; [|apply boxes_assets_ok, Hsel]. destruct Eb1 as [O1 A1].
    apply change_tokens_spec in Eb2; [|exact O1|exact Ht]. destruct Eb2 as [O2 A2].
    assert (Rb : 10800 <= b <= 2 ^ 63 - 1).
    { unfold bv_new, box_value_of, box_value_min in Eb0. rewrite i64_max_val in Eb0. destruct (_ && _) eqn:R in Eb0; [|discriminate]. injection Eb0 as <-. lia. }
    destruct (make_change_spec order b b1 change Ho Rb Ec) as (C1 & _ & C3).
    split; [exact C1|]. apply (amounts_perm _ _ C3). apply O2. }
  destruct C as [C1 C2]. unfold check_preservation in Ep. destruct (negb _) eqn:Q4 in Ep; [discriminate|]. apply negb_false_iff, Z.eqb_eq in Q4.
  rewrite !sum_value_spec, values_of in Q4. unfold wrapu in Q4. rewrite Z.add_mod_idemp_l in Q4 by lia. fold (bvalue (s_boxes s)) in Q4.
  inv_bind Ep. inv_bind Ep. inv_bind Ep. inv_bind Ep. destruct (tm_eqb b b2) eqn:Q5; [|discriminate].
  apply sum_from_boxes_spec in Eb0; [|apply boxes_assets_ok, Hsel]. destruct Eb0 as [O1 A1].
  apply sum_from_boxes_spec in Eb1; [|apply amounts_boxes, C2]. destruct Eb1 as [O2 A2].
  apply sum_tokens_spec in Eb2; [|exact Ht]. destruct Eb2 as [O3 A3].
  apply sum_tokens_spec in Eb3; [|apply Forall_app; split; [apply O2|apply O3]]. destruct Eb3 as [O4 A4].
  pose proof (tm_eqb_spec _ _ O1 O4 Q5) as Eq.
  split; [exists sk; rewrite P; exact Ps|]. split; [exact Q3|]. split; [exact C1|]. split; [exact C2|]. split; [|split].
  - intros Hlt. pose proof (bvalue_nonneg _ Hsel) as Nn. rewrite Z.mod_small in V by lia.
    destruct (negb (s_vchange s) && negb (s_tchange s)).
    + injection Ec as <-. cbn [values map sumZ fold_right] in *. rewrite Z.mod_small in Q4 by lia. rewrite Z.mod_small in Q4 by lia. lia.
    + inv_bind Ec. inv_bind Ec. inv_bind Ec. assert (Rb : 10800 <= b3 <= 2 ^ 63 - 1 /\ b3 = s_value s - target).
      { unfold bv_new, box_value_of, box_value_min in Eb0. rewrite i64_max_val in Eb0. destruct (_ && _) eqn:R in Eb0; [|discriminate]. injection Eb0 as <-. lia. }
      destruct Rb as [Rb ->]. destruct (make_change_spec order _ _ change Ho Rb Ec) as (_ & S & _). lia.
  - rewrite Q4. f_equal. lia.
  - intros id. specialize (Eq id). rewrite A1, A4, tok_total_app in Eq. rewrite all_tokens_of in Eq.
    rewrite (tok_total_map b0) in Eq by apply O2. rewrite (tok_total_map b1) in Eq by apply O3. rewrite A2, A3 in Eq. lia.
Qed.

(** The selected boxes are some of those offered, each used at most as often as it
    is offered. *)
Theorem c32_selected : forall order inputs target tokens sn, orderly order -> boxes_ok inputs -> amounts_ok tokens -> 1 <= target <= 2 ^ 63 - 1 ->
  select order inputs target tokens = Ok sn ->
  (exists rest, Permutation (sn_boxes sn ++ rest) inputs) /\ 1 <= Zlen (sn_boxes sn) <= 65535.
Proof.
  intros order inputs target tokens sn Ho Hi Ht Htg E. apply select_inv in E; try assumption. destruct E as (A & B & _).
  split; [exact A|]. unfold txio_ok in B. lia.
Qed.
Print Assumptions c32_selected.

(** Every token of the selected boxes is in the target or in the change, exactly. *)
Theorem c32_tokens : forall order inputs target tokens sn, orderly order -> boxes_ok inputs -> amounts_ok tokens -> 1 <= target <= 2 ^ 63 - 1 ->
  select order inputs target tokens = Ok sn ->
  forall id, tok_total id (btokens (sn_boxes sn)) = tok_total id tokens + tok_total id (all_tokens (sn_change sn)).
Proof. intros order inputs target tokens sn Ho Hi Ht Htg E. apply select_inv in E; try assumption. apply E. Qed.
Print Assumptions c32_tokens.

(** So is the value, as long as the offered boxes hold less than 2^64 nanoERGs. *)
Theorem c32_value_partial : forall order inputs target tokens sn, orderly order -> boxes_ok inputs -> amounts_ok tokens -> 1 <= target <= 2 ^ 63 - 1 ->
  bvalue inputs < 2 ^ 64 ->
  select order inputs target tokens = Ok sn ->
  bvalue (sn_boxes sn) = target + sumZ (values (sn_change sn)).
Proof.
  intros order inputs target tokens sn Ho Hi Ht Htg Hv E. apply select_inv in E; try assumption. destruct E as ((rest & P) & _ & _ & _ & V & _).
  apply V. pose proof (bvalue_perm _ _ P) as X. rewrite bvalue_app in X. assert (0 <= bvalue rest); [|lia].
  apply bvalue_nonneg. apply (boxes_ok_perm inputs (sn_boxes sn ++ rest)) in Hi; [|symmetry; exact P]. apply Forall_app in Hi. apply Hi.
Qed.
Print Assumptions c32_value_partial.

(** Change boxes have admissible values and at most 122 tokens with admissible
    amounts. *)
Theorem c32_change_admissible : forall order inputs target tokens sn, orderly order -> boxes_ok inputs -> amounts_ok tokens -> 1 <= target <= 2 ^ 63 - 1 ->
  select order inputs target tokens = Ok sn ->
  Forall (fun b => 10800 <= fst b <= 2 ^ 63 - 1 /\ Zlen (snd b) <= 122 /\ amounts_ok (snd b)) (sn_change sn).
Proof.
  intros order inputs target tokens sn Ho Hi Ht Htg E. apply select_inv in E; try assumption. destruct E as (_ & _ & A & B & _).
  apply amounts_boxes in B. unfold change_ok in A. rewrite Forall_forall in *. intros x Hx. specialize (A x Hx). specialize (B x Hx). tauto.
Qed.
Print Assumptions c32_change_admissible.

Lemma split_err : forall n v l e, split_change n v l = Err e -> e = "NotEnoughCoinsForChangeBox".
Proof.
  induction n as [|n IH]; intros v l e Ec; [discriminate|]. cbn [split_change] in Ec.
  destruct (is_nil l); [discriminate|]. destruct (Zlen l <=? max_tokens); [discriminate|].
  destruct (bv_mul safe_user_min 2) as [w|e1|]; cbn [bind] in Ec; try discriminate. cbv zeta in Ec.
  destruct (bv_sub v w) as [x|e1|]; cbn [bind] in Ec; try discriminate; [|injection Ec as <-; reflexivity|injection Ec as <-; reflexivity].
  destruct (split_change n _ _) as [y|e1|] eqn:Es in Ec; cbn [bind] in Ec; try discriminate. injection Ec as <-. eauto.
Qed.
Lemma make_change_err : forall order v m e, make_change_boxes order v m = Err e -> e = "NotEnoughCoinsForChangeBox".
Proof.
  intros order v m e Ec. unfold make_change_boxes in Ec. destruct (is_nil m); [discriminate|]. destruct (Zlen m <=? max_tokens); [discriminate|].
  eapply split_err. exact Ec.
Qed.
Lemma change_tokens_err : forall l m e, change_tokens m l = Err e -> tok_err e \/ e = "NotEnoughTokens in change".
Proof.
  induction l as [|[k v] l IH]; intros m e E2; [discriminate|]. cbn [change_tokens] in E2.
  destruct (tm_get m k) as [a|]; [|injection E2 as <-; right; reflexivity]. destruct (a =? v); cbn [bind] in E2; [eauto|].
  destruct (v <? a); [|injection E2 as <-; right; reflexivity].
  destruct (ta_sub a v) eqn:Es; cbn [bind] in E2; [eauto|apply ta_sub_err in Es; injection E2 as <-; left; exact Es|discriminate].
Qed.
Lemma preservation_err : forall l ch target tokens e, check_preservation l ch target tokens = Err e -> tok_err e \/ e = "CheckPreservation".
Proof.
  intros l ch target tokens e E. unfold check_preservation in E. destruct (negb _) in E; [injection E as <-; right; reflexivity|].
  destruct (sum_tokens_from_boxes (map assets_of l)) as [m1|e1|] eqn:E1; cbn [bind] in E; [|apply sum_boxes_err in E1; injection E as <-; left; exact E1|discriminate].
  destruct (sum_tokens_from_boxes ch) as [m2|e1|] eqn:E2; cbn [bind] in E; [|apply sum_boxes_err in E2; injection E as <-; left; exact E2|discriminate].
  destruct (sum_tokens tokens) as [m3|e1|] eqn:E3; cbn [bind] in E; [|apply tm_add_all_err in E3; injection E as <-; left; exact E3|discriminate].
  unfold sum_tokens_from_hashmaps in E.
  destruct (tm_add_all [] (m2 ++ m3)) as [m4|e1|] eqn:E4; cbn [bind] in E; [|apply tm_add_all_err in E4; injection E as <-; left; exact E4|discriminate].
  destruct (tm_eqb m1 m4); [discriminate|injection E as <-; right; reflexivity].
Qed.
(** The errors that can follow the two checks for lack of funds. *)
Lemma finish_err : forall order s target tokens e,
  (change <- (if negb (s_vchange s) && negb (s_tchange s) then Ok []
             else
               v <- match bv_new (s_value s - target) with Ok v => Ok v | _ => Err "NotEnoughCoinsForChangeBox" end ;;
               m <- sum_tokens_from_boxes (map assets_of (s_boxes s)) ;;
               m' <- change_tokens m tokens ;;
               make_change_boxes order v m') ;;
   _ <- check_preservation (s_boxes s) change target tokens ;;
   (if txio_ok (s_boxes s) then Ok (Selection (s_boxes s) change) else Err "SelectedInputsOutOfBounds")) = Err e ->
  tok_err e \/ e = "CheckPreservation" \/ e = "SelectedInputsOutOfBounds" \/ e = "NotEnoughCoinsForChangeBox" \/
  (e = "NotEnoughTokens in change" /\ exists m, sum_tokens_from_boxes (map assets_of (s_boxes s)) = Ok m /\ change_tokens m tokens = Err e).
Proof.
  intros order s target tokens e E.
  match type of E with bind ?x _ = _ => destruct x as [ch|e1|] eqn:Ec end; cbn [bind] in E; [| |discriminate].
  - destruct (check_preservation (s_boxes s) ch target tokens) as [u|e1|] eqn:Ep; cbn [bind] in E; [| |discriminate].
    + destruct (txio_ok (s_boxes s)); [discriminate|]. injection E as <-. auto.
    + injection E as <-. apply preservation_err in Ep. tauto.
  - injection E as <-. destruct (negb (s_vchange s) && negb (s_tchange s)); [discriminate|].
    match type of Ec with bind ?x _ = _ => destruct x as [v|e2|] eqn:Ev end; cbn [bind] in Ec; [| |discriminate].
    + destruct (sum_tokens_from_boxes (map assets_of (s_boxes s))) as [m1|e2|] eqn:E1; cbn [bind] in Ec; [|apply sum_boxes_err in E1; injection Ec as <-; auto|discriminate].
      destruct (change_tokens m1 tokens) as [m2|e2|] eqn:E2; cbn [bind] in Ec; [apply make_change_err in Ec; auto| |discriminate].
      injection Ec as <-. destruct (change_tokens_err _ _ _ E2) as [X|X]; [auto|]. subst. do 4 right. split; [reflexivity|]. exists m1. auto.
    + injection Ec as <-. destruct (bv_new _); [discriminate|injection Ev as <-; auto|injection Ev as <-; auto].
Qed.

(** Failures for lack of funds are real. *)
Ltac other_err E H := injection E as E; subst; destruct H; discriminate.
Theorem c32_not_enough_coins : forall order inputs target tokens, boxes_ok inputs -> amounts_ok tokens -> bvalue inputs < 2 ^ 64 ->
  select order inputs target tokens = Err "NotEnoughCoins" -> bvalue inputs < target.
Proof.
  intros order inputs target tokens Hi Ht Hv E. unfold select in E.
  destruct (sum_tokens tokens) as [need|e|] eqn:En; cbn [bind] in E; [|apply tm_add_all_err in En; other_err E En|discriminate].
  apply sum_tokens_spec in En; [|exact Ht]. destruct En as [On An]. cbv zeta in E.
  set (srt := rev (sort_boxes (wanted_count need) inputs)) in *.
  assert (Ps : Permutation srt inputs) by apply sort_boxes_perm.
  assert (Hs : boxes_ok srt) by (apply (boxes_ok_perm inputs); [symmetry; exact Ps|exact Hi]).
  destruct (select_loop target (Sel [] 0 need false false) srt) as [s|e|] eqn:El; cbn [bind] in E; [|apply loop_err in El; other_err E El|discriminate].
  pose proof (loop_inv target need srt [] _ s Hs (select_start target need On) El) as ((sk & P & Sk) & V & O & A & B). cbn [app] in P, Sk, A, B.
  rewrite (bvalue_perm _ _ Ps) in Sk. destruct (s_value s <? target) eqn:Q1.
  - rewrite (Sk Hv) in P by lia. rewrite app_nil_r in P. rewrite (bvalue_perm _ _ P), (bvalue_perm _ _ Ps) in V.
    pose proof (bvalue_nonneg _ Hi). rewrite Z.mod_small in V by lia. lia.
  - exfalso. destruct (_ && _) in E; [discriminate|]. apply finish_err in E.
    destruct E as [[E|E]|[E|[E|[E|[E _]]]]]; discriminate.
Qed.
Print Assumptions c32_not_enough_coins.

Theorem c32_not_enough_tokens : forall order inputs target tokens, boxes_ok inputs -> amounts_ok tokens ->
  select order inputs target tokens = Err "NotEnoughTokens" ->
  exists id, tok_total id (btokens inputs) < tok_total id tokens.
Proof.
  intros order inputs target tokens Hi Ht E. unfold select in E.
  destruct (sum_tokens tokens) as [need|e|] eqn:En; cbn [bind] in E; [|apply tm_add_all_err in En; other_err E En|discriminate].
  pose proof En as En'. apply sum_tokens_spec in En; [|exact Ht]. destruct En as [On An]. cbv zeta in E.
  set (srt := rev (sort_boxes (wanted_count need) inputs)) in *.
  assert (Ps : Permutation srt inputs) by apply sort_boxes_perm.
  assert (Hs : boxes_ok srt) by (apply (boxes_ok_perm inputs); [symmetry; exact Ps|exact Hi]).
  destruct (select_loop target (Sel [] 0 need false false) srt) as [s|e|] eqn:El; cbn [bind] in E; [|apply loop_err in El; other_err E El|discriminate].
  pose proof (loop_inv target need srt [] _ s Hs (select_start target need On) El) as ((sk & P & Sk) & V & O & A & B). cbn [app] in P, Sk, A, B.
  destruct (s_value s <? target); [discriminate|]. destruct (_ && _) eqn:Q in E.
  - apply andb_true_iff in Q. destruct Q as [_ Q]. destruct (s_left s) as [|[k v] lf] eqn:L; [discriminate|]. exists k.
    assert (G : tm_get (s_left s) k = Some v) by (rewrite L; cbn [tm_get]; rewrite eqb_refl'; reflexivity).
    rewrite <- L in *. specialize (A k). rewrite G in A. specialize (A ltac:(discriminate)). pose proof (ok_get _ _ _ O G) as R.
    unfold amt in A at 1. rewrite G in A. rewrite (An k) in A. rewrite (btotal_perm k _ _ Ps) in A. lia.
  - exfalso. apply finish_err in E. destruct E as [[E|E]|[E|[E|[E|[E _]]]]]; discriminate.
Qed.
Print Assumptions c32_not_enough_tokens.

(** The second place where that error is raised, while the change is computed, is
    never reached. *)
Theorem c32_change_never_short : forall order inputs target tokens, boxes_ok inputs -> amounts_ok tokens ->
  select order inputs target tokens <> Err "NotEnoughTokens in change".
Proof.
  intros order inputs target tokens Hi Ht E. unfold select in E.
  destruct (sum_tokens tokens) as [need|e|] eqn:En; cbn [bind] in E; [|apply tm_add_all_err in En; other_err E En|discriminate].
  pose proof En as En'. apply sum_tokens_spec in En; [|exact Ht]. destruct En as [On An]. cbv zeta in E.
  set (srt := rev (sort_boxes (wanted_count need) inputs)) in *.
  assert (Ps : Permutation srt inputs) by apply sort_boxes_perm.
  assert (Hs : boxes_ok srt) by (apply (boxes_ok_perm inputs); [symmetry; exact Ps|exact Hi]).
  destruct (select_loop target (Sel [] 0 need false false) srt) as [s|e|] eqn:El; cbn [bind] in E; [|apply loop_err in El; other_err E El|discriminate].
  pose proof (loop_inv target need srt [] _ s Hs (select_start target need On) El) as ((sk & P & Sk) & V & O & A & B). cbn [app] in P, Sk, A, B.
  assert (Hsel : boxes_ok (s_boxes s)).
  { assert (X : boxes_ok (s_boxes s ++ sk)) by (apply (boxes_ok_perm srt); [symmetry; exact P|exact Hs]). apply Forall_app in X. apply X. }
  destruct (s_value s <? target); [discriminate|]. destruct (_ && _) eqn:Q in E; [discriminate|].
  apply finish_err in E. destruct E as [[E|E]|[E|[E|[E|[_ (m1 & E1 & E)]]]]]; try discriminate.
  apply sum_from_boxes_spec in E1; [|apply boxes_assets_ok, Hsel]. destruct E1 as [O1 A1].
  destruct (change_tokens_ok tokens m1 O1 Ht) as (m2 & E2); [|rewrite E2 in E; discriminate].
  intros id. rewrite A1, all_tokens_of. specialize (B id). rewrite An in B. apply andb_false_iff in Q. destruct Q as [Q|Q]; apply negb_false_iff in Q.
  - destruct tokens; [|discriminate]. cbn [tok_total]. apply tok_total_nonneg, btokens_ok, Hsel.
  - destruct (s_left s); [|discriminate]. unfold amt in B at 1. cbn [tm_get] in B. lia.
Qed.
Print Assumptions c32_change_never_short.

(** Without the bound on the offered value the change can be short by 2^64. *)
Theorem c32_value_refuted : exists inputs target tokens sn,
  boxes_ok inputs /\ amounts_ok tokens /\ select (fun m => m) inputs target tokens = Ok sn /\
  bvalue (sn_boxes sn) = target + sumZ (values (sn_change sn)) + 2 ^ 64.
Proof.
  exists [ABox [1] (2 ^ 63 - 1) [([9], 1)]; ABox [2] (2 ^ 63 - 1) [([9], 1)]; ABox [3] (2 ^ 63 - 1) [([9], 1)]], 1000000000, [([9], 3)].
  eexists. split; [|split; [|split; [vm_compute; reflexivity|reflexivity]]].
  - repeat (constructor; [cbn [a_value a_tokens]; split; [lia|constructor; [cbn [snd]; lia|constructor]]|]). constructor.
  - constructor; [cbn [snd]; lia|constructor].
Qed.
Print Assumptions c32_value_refuted.

Example c32_hyps_met : orderly (fun m => m) /\
  let inputs := [ABox [1] 5000000 [([9], 4); ([8], 2)]; ABox [2] 7000000 []; ABox [3] 3000000 [([9], 4)]] in
  boxes_ok inputs /\ bvalue inputs < 2 ^ 64 /\
  select (fun m => m) inputs 8000000 [([9], 3); ([9], 2)] =
    Ok (Selection [ABox [3] 3000000 [([9], 4)]; ABox [1] 5000000 [([9], 4); ([8], 2)]; ABox [2] 7000000 []]
          [(7000000, [([9], 3); ([8], 2)])]) /\
  select (fun m => m) inputs 16000000 [] = Err "NotEnoughCoins" /\
  select (fun m => m) inputs 8000000 [([9], 9)] = Err "NotEnoughTokens".
Proof.
  split; [intros m; reflexivity|]. cbv zeta. split; [|split; [reflexivity|split; [vm_compute; reflexivity|split; vm_compute; reflexivity]]].
  repeat (constructor; [cbn [a_value a_tokens]; split; [lia|repeat (constructor; [cbn [snd]; lia|]); constructor]|]). constructor.
Qed.

(** ** C33: the box builder *)
Section Build.
Context {G : group}.
Implicit Types b : builder G.

Lemma creg_get_map : forall (m : list (Z * const G)) id, map_get (map (fun p => (fst p, RParsed (snd p))) m) id = option_map (@RParsed G) (creg_get m id).
Proof. induction m as [|[k c] m IH]; intros id; [reflexivity|]. cbn [map map_get creg_get fst snd]. destruct (k =? id); [reflexivity|apply IH]. Qed.
Lemma creg_get_set : forall (m : list (Z * const G)) id c k, creg_get (creg_set m id c) k = if id =? k then Some c else creg_get m k.
Proof.
  induction m as [|[j w] m IH]; intros id c k; [reflexivity|]. cbn [creg_set]. destruct (j =? id) eqn:E; cbn [creg_get].
  - apply Z.eqb_eq in E. subst. destruct (id =? k); reflexivity.
  - rewrite IH. destruct (id =? k) eqn:F; [|reflexivity]. apply Z.eqb_eq in F. subst. rewrite E. reflexivity.
Qed.
Lemma creg_none : forall (m : list (Z * const G)) id, creg_get m id = None <-> ~ In id (map fst m).
Proof.
  induction m as [|[k w] m IH]; intros id; cbn [creg_get map In fst]; [split; auto|]. destruct (k =? id) eqn:E.
  - split; [discriminate|]. intros X. exfalso. apply X. left. lia.
  - rewrite IH. split; [intros X [Y|Y]; [lia|auto]|auto].
Qed.
Lemma creg_set_new : forall (m : list (Z * const G)) id c, creg_get m id = None -> creg_set m id c = m ++ [(id, c)].
Proof. induction m as [|[k w] m IH]; intros id c E; [reflexivity|]. cbn [creg_get creg_set] in *. destruct (k =? id); [discriminate|]. cbn [app]. rewrite IH by exact E. reflexivity. Qed.
Definition cregs_ok (m : list (Z * const G)) : Prop := NoDup (map fst m) /\ Forall (fun id => 4 <= id <= 9) (map fst m).
Lemma creg_set_ok : forall m id c, cregs_ok m -> 4 <= id <= 9 -> creg_get m id = None -> cregs_ok (creg_set m id c).
Proof.
  intros m id c [N F] Hid E. rewrite creg_set_new by exact E. unfold cregs_ok. rewrite map_app. cbn [map fst]. split.
  - apply (Permutation_NoDup (l := id :: map fst m)); [apply Permutation_cons_append|]. constructor; [apply creg_none; exact E|exact N].
  - apply Forall_app. split; [exact F|constructor; [exact Hid|constructor]].
Qed.
Lemma regs_new_spec : forall (m : list (Z * const G)) l, cregs_ok m -> regs_new m = Ok l ->
  Zlen l = Zlen m /\ forall id, 4 <= id <= 9 -> regs_get_constant l id = Ok (creg_get m id).
Proof.
  intros m l [N F] E. unfold regs_new in E. set (m' := map (fun p => (fst p, RParsed (snd p))) m) in *.
  assert (K : map fst m' = map fst m) by (unfold m'; rewrite map_map; reflexivity).
  assert (I : ids_ok m') by (split; rewrite K; assumption).
  destruct (c34_regs_of_map G m' I) as [_ X]. destruct (X l E) as [L Y]. split; [rewrite L; unfold m', Zlen; rewrite map_length; reflexivity|].
  intros id Hid. rewrite (Y id Hid). unfold m'. rewrite creg_get_map. destruct (creg_get m id); reflexivity.
Qed.
End Build.

(** The value, script, height and tokens are those asked for; the serialized size
    times the value per byte does not exceed the value.  The size is below 2^31 for
    the product not to wrap. *)
Theorem c33_min_value : forall (G : group) (b : builder G) c, u32 (bd_per_byte b) -> build_box b = Ok c ->
  cd_value c = bd_value b /\ cd_tree c = bd_tree b /\ cd_height c = bd_height b /\ Zlen (cd_tokens c) <= 122 /\
  exists s, ser_cand None c = Ok s /\ (Zlen s < 2 ^ 31 -> 10800 <= Zlen s * bd_per_byte b <= cd_value c).
Proof.
  intros G b c Hp E. unfold build_box in E. inv_bind E. inv_bind E. inv_bind E. destruct (b2 <=? bd_value b) eqn:Q; [|discriminate]. injection E as <-.
  unfold build_unchecked in Eb. apply bind_ok in Eb. destruct Eb as ([tk rg] & Et & Eb). inv_bind Eb. destruct (max_tokens <? Zlen tk) eqn:T; [discriminate|]. injection Eb as <-.
  cbn [cd_value cd_tree cd_height cd_tokens]. unfold max_tokens in T. do 3 (split; [reflexivity|]). split; [apply Z.ltb_ge in T; exact T|]. exists b1. split; [exact Eb0|]. intros Hs.
  unfold min_value in Eb1. assert (R : 0 <= Zlen b1 * bd_per_byte b < 2 ^ 63) by (pose proof (Zlen_nonneg _ b1); unfold u32 in Hp; nia).
  assert (W : wraps 64 (Zlen b1 * bd_per_byte b) = Zlen b1 * bd_per_byte b).
  { apply wraps_id; [lia|]. change (2 ^ (64 - 1)) with (2 ^ 63). lia. }
  rewrite W in Eb1. set (z := Zlen b1 * bd_per_byte b) in *. clearbody z. unfold bv_of_i64, box_value_min in Eb1.
  destruct (10800 <=? z) eqn:R2; [|discriminate]. injection Eb1 as <-. lia.
Qed.
Print Assumptions c33_min_value.

(** Without minting: the tokens and registers are those added. *)
Theorem c33_fields : forall (G : group) (b : builder G) c, cregs_ok (bd_regs b) -> bd_mint b = None -> build_box b = Ok c ->
  cd_tokens c = bd_tokens b /\ forall id, 4 <= id <= 9 -> regs_get_constant (cd_regs c) id = Ok (creg_get (bd_regs b) id).
Proof.
  intros G b c Hr Hm E. unfold build_box in E. inv_bind E. inv_bind E. inv_bind E. destruct (b2 <=? bd_value b); [|discriminate]. injection E as <-.
  unfold build_unchecked in Eb. rewrite Hm in Eb. cbn [bind] in Eb. inv_bind Eb. destruct (max_tokens <? Zlen _); [discriminate|]. injection Eb as <-.
  cbn [cd_tokens cd_regs]. split; [reflexivity|]. apply (regs_new_spec _ _ Hr Eb2).
Qed.
Print Assumptions c33_fields.

(** Minting is refused beside other tokens or used registers R4-R6. *)
Theorem c33_mint_refused : forall (G : group) (b : builder G) m, bd_mint b = Some m ->
  bd_tokens b <> [] \/ (exists id c, 4 <= id <= 6 /\ creg_get (bd_regs b) id = Some c) ->
  exists e, build_box b = Err e.
Proof.
  intros G b m Hm H. unfold build_box, build_unchecked. rewrite Hm.
  destruct (bd_tokens b) as [|t l]; cbn [is_nil negb]; [|eexists; reflexivity].
  destruct H as [H|(id & c & Hid & Hc)]; [contradiction|].
  assert (X : id = 4 \/ id = 5 \/ id = 6) by lia.
  destruct (creg_get (bd_regs b) 4) eqn:E4; [eexists; reflexivity|].
  destruct (creg_get (bd_regs b) 5) eqn:E5; [eexists; reflexivity|].
  destruct (creg_get (bd_regs b) 6) eqn:E6; [eexists; reflexivity|].
  destruct X as [->|[->| ->]]; congruence.
Qed.
Print Assumptions c33_mint_refused.

(** The number written by decimal digits. *)
Definition number_of (s : bytes) : Z := fold_left (fun n d => 10 * n + (d - 48)) s 0.
Lemma number_app : forall s d, number_of (s ++ [d]) = 10 * number_of s + (d - 48).
Proof. intros s d. unfold number_of. rewrite fold_left_app. reflexivity. Qed.
Lemma dec_text_spec : forall fuel n, 0 <= n < 10 ^ Z.of_nat fuel -> (0 < fuel)%nat ->
  number_of (dec_text fuel n) = n /\ Forall (fun d => 48 <= d <= 57) (dec_text fuel n) /\ dec_text fuel n <> [].
Proof.
  induction fuel as [|fuel IH]; intros n Hn Hf; [lia|]. cbn [dec_text].
  destruct (n <? 10) eqn:E.
  - cbn [app]. split; [unfold number_of; cbn [fold_left]; lia|]. split; [constructor; [lia|constructor]|discriminate].
  - assert (H1 : 0 <= n / 10 < 10 ^ Z.of_nat fuel).
    { rewrite Nat2Z.inj_succ, Z.pow_succ_r in Hn by lia. split; [apply Z.div_pos; lia|apply Z.div_lt_upper_bound; lia]. }
    assert (H2 : (0 < fuel)%nat). { destruct fuel; [|lia]. change (10 ^ Z.of_nat 1) with 10 in Hn. lia. }
    destruct (IH _ H1 H2) as (A & B & C). rewrite number_app, A. split; [clear - E; lia|]. split; [|intros X; apply app_eq_nil in X; destruct X; discriminate].
    apply Forall_app. split; [exact B|constructor; [clear; lia|constructor]].
Qed.

(** Otherwise the box has exactly the minted token, its name, description and number
    of decimals in R4-R6, and the other registers as set. *)
Theorem c33_mint : forall (G : group) (b : builder G) m c, cregs_ok (bd_regs b) -> bd_mint b = Some m -> 0 <= mt_decimals m < 2 ^ 64 -> build_box b = Ok c ->
  cd_tokens c = [mt_token m] /\
  exists digits, number_of digits = mt_decimals m /\ Forall (fun d => 48 <= d <= 57) digits /\
    regs_get_constant (cd_regs c) 4 = Ok (Some (const_bytes (as_i8s (mt_name m)))) /\
    regs_get_constant (cd_regs c) 5 = Ok (Some (const_bytes (as_i8s (mt_desc m)))) /\
    regs_get_constant (cd_regs c) 6 = Ok (Some (const_bytes (as_i8s digits))) /\
    forall id, 7 <= id <= 9 -> regs_get_constant (cd_regs c) id = Ok (creg_get (bd_regs b) id).
Proof.
  intros G b m c Hr Hm Hd E. unfold build_box in E. inv_bind E. inv_bind E. inv_bind E. destruct (b2 <=? bd_value b); [|discriminate]. injection E as <-.
  unfold build_unchecked in Eb. rewrite Hm in Eb. destruct (bd_tokens b) as [|t l]; cbn [is_nil negb] in Eb; [|discriminate].
  destruct (creg_get (bd_regs b) 4) eqn:E4; [discriminate|]. destruct (creg_get (bd_regs b) 5) eqn:E5; [discriminate|]. destruct (creg_get (bd_regs b) 6) eqn:E6; [discriminate|].
  cbv zeta in Eb. cbn [bind app] in Eb. inv_bind Eb. destruct (max_tokens <? Zlen _); [discriminate|]. injection Eb as <-.
  cbn [cd_tokens cd_regs]. split; [reflexivity|]. exists (dec_text 20 (mt_decimals m)).
  destruct (dec_text_spec 20 (mt_decimals m)) as (D1 & D2 & _); [|lia|].
  { change (Z.of_nat 20) with 20. assert (2 ^ 64 < 10 ^ 20) by reflexivity. lia. }
  split; [exact D1|]. split; [exact D2|].
  assert (K : cregs_ok (creg_set (creg_set (creg_set (bd_regs b) 4 (text_const (mt_name m))) 5 (text_const (mt_desc m))) 6 (text_const (dec_text 20 (mt_decimals m))))).
  { apply creg_set_ok; [|lia|rewrite !creg_get_set; exact E6]. apply creg_set_ok; [|lia|rewrite !creg_get_set; exact E5]. apply creg_set_ok; [exact Hr|lia|exact E4]. }
  destruct (regs_new_spec _ _ K Eb2) as [_ R].
  rewrite !R by lia. rewrite !creg_get_set. cbn [Z.eqb Pos.eqb]. split; [reflexivity|]. split; [reflexivity|]. split; [reflexivity|].
  intros id Hid. rewrite R by lia. rewrite !creg_get_set. replace (6 =? id) with false by lia. replace (5 =? id) with false by lia. replace (4 =? id) with false by lia. reflexivity.
Qed.
Print Assumptions c33_mint.

(** It panics only when the serializer does or the size times the value per byte is
    less than the least box value... *)
Lemma collect_no_panic : forall (G : group) (m : @reg_map G) ids, regs_collect m ids <> Panic.
Proof.
  induction ids as [|id ids IH]; [discriminate|]. cbn [regs_collect]. destruct (map_get m id); [|discriminate].
  destruct (regs_collect m ids); [discriminate|discriminate|contradiction].
Qed.
Theorem c33_panics_partial : forall (G : group) (b : builder G), u32 (bd_per_byte b) -> build_box b = Panic ->
  exists c, build_unchecked b = Ok c /\
    (ser_cand None c = Panic \/ exists s, ser_cand None c = Ok s /\ (Zlen s < 2 ^ 31 -> Zlen s * bd_per_byte b < 10800)).
Proof.
  intros G b Hp E. unfold build_box in E. destruct (build_unchecked b) as [c|e|] eqn:Eu; cbn [bind] in E; [|discriminate|].
  - exists c. split; [reflexivity|]. destruct (ser_cand None c) as [s|e|] eqn:Es; cbn [bind] in E; [|discriminate|left; reflexivity]. right. exists s. split; [reflexivity|].
    intros Hs. unfold min_value in E. assert (R : 0 <= Zlen s * bd_per_byte b < 2 ^ 63) by (pose proof (Zlen_nonneg _ s); unfold u32 in Hp; nia).
    assert (W : wraps 64 (Zlen s * bd_per_byte b) = Zlen s * bd_per_byte b).
    { apply wraps_id; [lia|]. change (2 ^ (64 - 1)) with (2 ^ 63). lia. }
    rewrite W in E. set (z := Zlen s * bd_per_byte b) in *. clearbody z. unfold bv_of_i64, box_value_min in E.
    destruct (10800 <=? z) eqn:R2; cbn [bind] in E; [destruct (z <=? bd_value b); discriminate|]. lia.
  - exfalso. unfold build_unchecked in Eu. match type of Eu with bind ?x _ = _ => assert (X : x <> Panic) end.
    { destruct (bd_mint b); [|discriminate]. destruct (negb _); [discriminate|]. destruct (creg_get (bd_regs b) 4), (creg_get (bd_regs b) 5), (creg_get (bd_regs b) 6); discriminate. }
    match type of Eu with bind ?x _ = _ => destruct x as [[tk rg]|e|] end; cbn [bind] in Eu; [|discriminate|contradiction].
    destruct (regs_new rg) eqn:En; cbn [bind] in Eu; [destruct (_ <? _); discriminate|discriminate|].
    unfold regs_new, regs_of_map in En. destruct (_ <? _); [discriminate|]. apply collect_no_panic in En. exact En.
Qed.
Print Assumptions c33_panics_partial.

(** ...which happens with the default value per byte, for a small script. *)
Theorem c33_no_panic_refuted : forall G : group, exists t : tree G, build_box (builder_new 1000000 t 0) = Panic.
Proof.
  intros G. exists (Parsed (THeader 0 false false) [] (EConst (MkConst SSigmaProp (LSigma (Triv true))))). vm_compute. reflexivity.
Qed.
Print Assumptions c33_no_panic_refuted.

Definition pad_tree {G : group} : tree G :=
  Parsed (THeader 0 false false) [] (EConst (MkConst (SColl SByte) (LCollBytes (repeat 0 40)))).
Example c33_hyps_met : forall G : group,
  (exists c, build_box (Builder 360 1000000 (@pad_tree G) [([1], 5)] [(4, const_bytes [7])] 100 None) = Ok c) /\
  (exists c, build_box (Builder 360 1000000 (@pad_tree G) [] [(7, const_bytes [7])] 100 (Some (Minting ([1], 5) [65] [66] 12))) = Ok c) /\
  (exists e, build_box (Builder 360 12000 (@pad_tree G) [] [] 100 None) = Err e) /\
  cregs_ok [(7, @const_bytes G [7])].
Proof.
  intros G. split; [eexists; vm_compute; reflexivity|]. split; [eexists; vm_compute; reflexivity|]. split; [eexists; vm_compute; reflexivity|].
  split; repeat constructor; cbn; auto; lia.
Qed.

(** ** C30, C31: what a built transaction conserves *)
Section Tx.
Context {G : group}.
Implicit Types b : txb G.

Lemma add_tokens_fold : forall (l : list token) (b : builder G), fold_left bd_add_token l b =
  Builder (bd_per_byte b) (bd_value b) (bd_tree b) (bd_tokens b ++ l) (bd_regs b) (bd_height b) (bd_mint b).
Proof.
  induction l as [|t l IH]; intros b; cbn [fold_left]; [rewrite app_nil_r; destruct b; reflexivity|]. rewrite IH. unfold bd_add_token. cbn. rewrite <- app_assoc. reflexivity.
Qed.
Lemma build_plain : forall (v : Z) (t : tree G) h tk c, build_box (fold_left bd_add_token tk (builder_new v t h)) = Ok c ->
  c = MkCand v t tk [] h.
Proof.
  intros v t h tk c E. rewrite add_tokens_fold in E. unfold build_box, build_unchecked, builder_new in E. cbn [bd_mint bd_tokens bd_regs bd_value bd_tree bd_height bd_per_byte app bind] in E.
  unfold regs_new, regs_of_map in E. cbn [map] in E. change (max_regs <? Zlen []) with false in E. cbn [List.length firstn regs_collect bind] in E.
  destruct (max_tokens <? Zlen tk); [discriminate|]. cbn [bind] in E. inv_bind E. inv_bind E. destruct (_ <=? _); [|discriminate]. injection E as <-. reflexivity.
Qed.
Lemma change_cands_spec : forall t h l r, @change_cands G t h l = Ok r -> r = map (fun a => MkCand (fst a) t (snd a) [] h) l.
Proof.
  induction l as [|a l IH]; intros r E; cbn [change_cands] in E; [injection E as <-; reflexivity|]. inv_bind E. inv_bind E. injection E as <-.
  apply build_plain in Eb. rewrite (IH _ Eb0), Eb. reflexivity.
Qed.
Lemma no_dup_ids_spec : forall l, no_dup_ids l = true -> NoDup l.
Proof.
  induction l as [|x l IH]; intros E; [constructor|]. cbn [no_dup_ids] in E. apply andb_true_iff in E. destruct E as [E1 E2]. constructor; [|auto].
  intros H. apply mem_iff in H. rewrite H in E1. discriminate.
Qed.

Lemma build_tx_inv : forall H fee_tree b u, build_tx H fee_tree b = Ok u ->
  exists first rest ct tin tout burned permits,
    tb_boxes b = first :: rest /\ tb_change_tree b = Ok ct /\ NoDup (map a_id (tb_boxes b)) /\
    u_inputs u = map (fun x => MkUInput (a_id x) (ext_for (tb_exts b) (a_id x))) (tb_boxes b) /\
    u_cands u = tb_outputs b ++ map (fun a => MkCand (fst a) ct (snd a) [] (tb_height b)) (tb_change b) ++ [MkCand (tb_fee b) fee_tree [] [] (tb_height b)] /\
    sum_value (map assets_of (tb_boxes b)) = sum_value (map cand_assets (u_cands u)) /\
    sum_tokens_from_boxes (map assets_of (tb_boxes b)) = Ok tin /\
    sum_tokens_from_boxes (map cand_assets (u_cands u)) = Ok tout /\
    let tout' := filter (fun p => negb (bytes_eqb (fst p) (a_id first))) tout in
    subtract_tokens tin tout' = Ok burned /\ sum_tokens (tb_permit b) = Ok permits /\
    check_enough burned permits = Ok tt /\ check_unused burned permits = Ok tt.
Proof.
  intros H fee_tree b u E. unfold build_tx in E. destruct (tb_boxes b) as [|first rest] eqn:Eboxes; [discriminate|].
  destruct (is_nil (tb_outputs b)); [discriminate|]. destruct_if E; [discriminate|]. destruct (no_dup_ids (map a_id (first :: rest))) eqn:Nd; cbn [negb] in E; [|discriminate].
  destruct_if E; [discriminate|]. apply bind_ok in E. destruct E as (ct & Ect & E). apply bind_ok in E. destruct E as (ch & Ech & E).
  apply bind_ok in E. destruct E as (fee & Efee & E). cbv zeta in E.
  apply change_cands_spec in Ech. apply (build_plain _ _ _ []) in Efee. subst ch fee.
  rewrite <- app_assoc in E.
  destruct_if E; [discriminate|]. destruct_if E; [discriminate|]. destruct_if E; [discriminate|].
  apply bind_ok in E. destruct E as (tin & Etin & E). apply bind_ok in E. destruct E as (tout & Etout & E).
  destruct_if E; [discriminate|]. destruct_if E; [discriminate|].
  apply bind_ok in E. destruct E as (burned & Ebu & E). apply bind_ok in E. destruct E as (permits & Epe & E).
  apply bind_ok in E. destruct E as ([] & Een & E). apply bind_ok in E. destruct E as ([] & Eun & E). inv_bind E.
  unfold utx_new in E. inv_bind E. injection E as <-. cbn [u_inputs u_cands].
  exists first, rest, ct, tin, tout, burned, permits. repeat (split; [first [reflexivity|assumption]|]).
  split; [apply no_dup_ids_spec; exact Nd|]. split; [reflexivity|]. split; [reflexivity|]. split; [lia|].
  split; [exact Etin|]. split; [exact Etout|]. cbv zeta. auto.
Qed.
End Tx.

(** The inputs are the selected boxes, none twice; the outputs are those asked for,
    one per change box with its value and tokens, and one paying exactly the fee to
    the fee script. *)
Theorem c30_structure : forall (G : group) H fee_tree (b : txb G) u, build_tx H fee_tree b = Ok u ->
  map ui_box (u_inputs u) = map a_id (tb_boxes b) /\ NoDup (map ui_box (u_inputs u)) /\
  exists change fee, u_cands u = tb_outputs b ++ change ++ [fee] /\
    map cand_assets change = tb_change b /\ Forall (fun c => tb_change_tree b = Ok (cd_tree c)) change /\
    cd_value fee = tb_fee b /\ cd_tree fee = fee_tree /\ cd_tokens fee = [].
Proof.
  intros G H fee_tree b u E. apply build_tx_inv in E. destruct E as (first & rest & ct & tin & tout & burned & permits & Eb & Ect & Nd & Ei & Eo & _).
  assert (X : map ui_box (u_inputs u) = map a_id (tb_boxes b)) by (rewrite Ei, map_map; reflexivity).
  split; [exact X|]. split; [rewrite X; exact Nd|].
  do 2 eexists. split; [exact Eo|]. cbn [cd_value cd_tree cd_tokens]. split; [|split; [|auto]].
  - rewrite map_map. rewrite <- (map_id (tb_change b)) at 2. apply map_ext. intros [v tk]. reflexivity.
  - apply Forall_forall. intros c Hc. apply in_map_iff in Hc. destruct Hc as (a & <- & _). exact Ect.
Qed.
Print Assumptions c30_structure.

(** Every input carries the variables that were set for its box, and none when none
    were set. *)
Theorem c30_variables : forall (G : group) H fee_tree (b : txb G) u, build_tx H fee_tree b = Ok u -> NoDup (map fst (tb_exts b)) ->
  forall i, In i (u_inputs u) ->
    (forall e, In (ui_box i, e) (tb_exts b) -> ui_ext i = e) /\ (~ In (ui_box i) (map fst (tb_exts b)) -> ui_ext i = []).
Proof.
  intros G H fee_tree b u E N i Hi. apply build_tx_inv in E. destruct E as (first & rest & ct & tin & tout & burned & permits & _ & _ & _ & Ei & _).
  rewrite Ei in Hi. apply in_map_iff in Hi. destruct Hi as (x & <- & _). cbn [ui_box ui_ext]. clear - N.
  induction (tb_exts b) as [|[k e0] m IH]; cbn [ext_for map fst In] in *; [split; [intros e []|reflexivity]|].
  inversion N as [|? ? N1 N2]; subst. destruct (eqb_cases k (a_id x)) as [[-> Q]|[Nq Q]]; rewrite Q.
  - split; [|intros X; exfalso; apply X; auto]. intros e [X|X]; [injection X as ->; reflexivity|].
    exfalso. apply N1. apply in_map_iff. exists (a_id x, e). auto.
  - destruct (IH N2) as [A B]. split; [intros e [X|X]; [injection X as X _; contradiction|auto]|auto].
Qed.
Print Assumptions c30_variables.
(** The data inputs are those given, in their order. *)
Theorem c30_data : forall (G : group) H fee_tree (b : txb G) u, build_tx H fee_tree b = Ok u ->
  u_data u = match tb_data b with [] => None | l => Some l end /\ Zlen (tb_data b) <= 65535.
Proof.
  intros G H fee_tree b u E. unfold build_tx in E. destruct (tb_boxes b) as [|first rest]; [discriminate|].
  destruct (is_nil (tb_outputs b)); [discriminate|]. destruct_if E; [discriminate|]. destruct (no_dup_ids (map a_id (first :: rest))); cbn [negb] in E; [|discriminate].
  destruct_if E; [discriminate|]. do 3 (apply bind_ok in E; destruct E as (? & _ & E)). cbv zeta in E.
  do 3 (destruct_if E; [discriminate|]). do 2 (apply bind_ok in E; destruct E as (? & _ & E)). do 2 (destruct_if E; [discriminate|]).
  do 4 (apply bind_ok in E; destruct E as (? & _ & E)). apply bind_ok in E. destruct E as (d0 & Ed & E).
  unfold utx_new in E. inv_bind E. injection E as <-. cbn [u_data]. unfold opt_vec in Ed. destruct (tb_data b) as [|d l]; [injection Ed as <-; split; [reflexivity|rewrite Zlen_nil; lia]|].
  destruct (txio_ok (d :: l)) eqn:T; [|discriminate]. injection Ed as <-. split; [reflexivity|]. unfold txio_ok in T. lia.
Qed.
Print Assumptions c30_data.

Definition outputs_value {G : group} (l : list (cand G)) : Z := sumZ (map cd_value l).
Definition outputs_tokens {G : group} (l : list (cand G)) : list token := flat_map cd_tokens l.
(** The value of the inputs is the value of the outputs, when both are less than
    2^64. *)
Theorem c30_value_partial : forall (G : group) H fee_tree (b : txb G) u, build_tx H fee_tree b = Ok u ->
  0 <= bvalue (tb_boxes b) < 2 ^ 64 -> 0 <= outputs_value (u_cands u) < 2 ^ 64 ->
  bvalue (tb_boxes b) = outputs_value (u_cands u).
Proof.
  intros G H fee_tree b u E Hi Ho. apply build_tx_inv in E. destruct E as (first & rest & ct & tin & tout & burned & permits & _ & _ & _ & _ & _ & E & _).
  rewrite !sum_value_spec, values_of in E. fold (bvalue (tb_boxes b)) in E.
  assert (X : values (map cand_assets (u_cands u)) = map cd_value (u_cands u)) by (unfold values; rewrite map_map; reflexivity).
  rewrite X in E. fold (outputs_value (u_cands u)) in E. rewrite !Z.mod_small in E by assumption. exact E.
Qed.
Print Assumptions c30_value_partial.

(** Otherwise outputs can hold 2^64 nanoERGs more than the inputs. *)
Theorem c30_value_refuted : forall (G : group) (H : bytes -> bytes), exists (b : txb G) u, build_tx H pad_tree b = Ok u /\
  outputs_value (u_cands u) = bvalue (tb_boxes b) + 2 ^ 64.
Proof.
  intros G H.
  exists (TxB [ABox (repeat 1 32) 10000000000 []] [] [] [MkCand (2 ^ 63 - 1) pad_tree [] [] 1; MkCand (2 ^ 63 - 1) pad_tree [] [] 1; MkCand 9000000000 pad_tree [] [] 1] 1 1000000002 (Ok pad_tree) [] []).
  eexists. split; [vm_compute; reflexivity|reflexivity].
Qed.
Print Assumptions c30_value_refuted.

(** Tokens: of every token except the one minted, the inputs hold what the outputs
    hold and what is permitted to be burned; of a token with the identifier of the
    first input, whatever the inputs held is burned. *)
Theorem c31_tokens : forall (G : group) H fee_tree (b : txb G) u first, build_tx H fee_tree b = Ok u ->
  nth_error (tb_boxes b) 0 = Some first ->
  amounts_ok (btokens (tb_boxes b)) -> amounts_ok (outputs_tokens (u_cands u)) -> amounts_ok (tb_permit b) ->
  forall id, tok_total id (btokens (tb_boxes b)) =
    (if bytes_eqb id (a_id first) then 0 else tok_total id (outputs_tokens (u_cands u))) + tok_total id (tb_permit b).
Proof.
  intros G H fee_tree b u first E Hf Hi Ho Hp id. apply build_tx_inv in E.
  destruct E as (first' & rest & ct & tin & tout & burned & permits & Eb & _ & _ & _ & _ & _ & E1 & E2 & E3 & E4 & E5 & E6).
  rewrite Eb in Hf. injection Hf as ->.
  assert (X : all_tokens (map cand_assets (u_cands u)) = outputs_tokens (u_cands u)).
  { unfold all_tokens, outputs_tokens. generalize (u_cands u). induction l as [|c l IH]; [reflexivity|]. cbn [map flat_map cand_assets snd]. rewrite IH. reflexivity. }
  apply sum_from_boxes_spec in E1; [|apply amounts_boxes; rewrite all_tokens_of; exact Hi]. destruct E1 as [O1 A1].
  apply sum_from_boxes_spec in E2; [|apply amounts_boxes; rewrite X; exact Ho]. destruct E2 as [O2 A2].
  match type of E3 with subtract_tokens _ ?f = _ => set (tout' := f) in * end. assert (O2' : tm_ok tout') by (apply filter_ok, O2).
  apply subtract_spec in E3; [|exact O1|apply O2']. destruct E3 as [O3 A3].
  apply sum_tokens_spec in E4; [|exact Hp]. destruct E4 as [O4 A4].
  assert (T : tok_total id tout' = if bytes_eqb id (a_id first) then 0 else amt tout id).
  { rewrite tok_total_map by apply O2'. unfold tout', amt. clear - id. induction tout as [|[k v] l IH]; [cbn; destruct (bytes_eqb _ _); reflexivity|].
    cbn [filter fst]. destruct (eqb_cases k (a_id first)) as [[-> E]|[N E]]; rewrite E; cbn [negb tm_get].
    - rewrite IH. rewrite (eqb_sym (a_id first) id). destruct (bytes_eqb id (a_id first)); reflexivity.
    - destruct (eqb_cases k id) as [[-> E']|[N' E']]; rewrite E'; [rewrite E; reflexivity|exact IH]. }
  assert (P : amt burned id = amt permits id).
  { unfold check_enough in E5. destruct_if E5; [|discriminate]. unfold check_unused in E6. destruct_if E6; [|discriminate].
    match goal with F : forallb _ burned = true |- _ => rename F into F1 end. match goal with F : forallb _ permits = true |- _ => rename F into F2 end.
    rewrite forallb_forall in F1, F2. unfold amt. destruct (tm_get burned id) as [x|] eqn:Gb.
    - pose proof (F1 _ (get_in _ _ _ Gb)) as Y. cbn [fst snd] in Y. destruct (tm_get permits id) as [y|] eqn:Gp; [|discriminate].
      pose proof (F2 _ (get_in _ _ _ Gp)) as Y2. cbn [fst snd] in Y2. rewrite Gb in Y2. lia.
    - destruct (tm_get permits id) as [y|] eqn:Gp; [|reflexivity]. pose proof (F2 _ (get_in _ _ _ Gp)) as Y2. cbn [fst snd] in Y2. rewrite Gb in Y2. discriminate. }
  rewrite A3, T, A1, all_tokens_of in P. rewrite A4 in P. rewrite A2, X in P. lia.
Qed.
Print Assumptions c31_tokens.

Definition demo_txb {G : group} : txb G :=
  TxB [ABox (repeat 1 32) 5000000 [(repeat 9 32, 10); (repeat 8 32, 3)]; ABox (repeat 2 32) 6000000 [(repeat 9 32, 1)]]
      [(4000000, [(repeat 9 32, 4)])] []
      [MkCand 6000000 pad_tree [(repeat 9 32, 7); (repeat 1 32, 1000)] [] 7] 7 1000000 (Ok pad_tree) [] [(repeat 8 32, 3)].
Example c30_hyps_met : forall (G : group) (H : bytes -> bytes), exists u, build_tx H pad_tree (@demo_txb G) = Ok u /\
  bvalue (tb_boxes (@demo_txb G)) = 11000000 /\ outputs_value (u_cands u) = 11000000.
Proof. intros G H. eexists. split; [vm_compute; reflexivity|split; reflexivity]. Qed.
Example c31_hyps_met : forall (G : group) (H : bytes -> bytes), exists u first, build_tx H pad_tree (@demo_txb G) = Ok u /\
  nth_error (tb_boxes (@demo_txb G)) 0 = Some first /\ a_id first = repeat 1 32 /\
  amounts_ok (btokens (tb_boxes (@demo_txb G))) /\ amounts_ok (outputs_tokens (u_cands u)) /\ amounts_ok (tb_permit (@demo_txb G)).
Proof.
  intros G H. do 2 eexists. split; [vm_compute; reflexivity|]. split; [reflexivity|]. split; [reflexivity|].
  split; [|split]; repeat (constructor; [cbn [snd]; lia|]); constructor.
Qed.

(** ** C64: the estimated size

    The mock proof has 2 bytes where a proof of knowledge of one discrete logarithm
    has 56 (a 24-byte challenge and a 32-byte response). *)
Section Size.
Context {G : group}.
Lemma inputs_len : forall (l : list (uinput G)) q a b, Zlen q = 56 ->
  write_list ser_input (map (fun i => input_of i mock_proof) l) = Ok a ->
  write_list ser_input (map (fun i => input_of i (PSome q)) l) = Ok b ->
  Zlen b = Zlen a + 54 * Zlen l.
Proof.
  intros l q a b Hq. revert a b. induction l as [|i l IH]; intros a b Ea Eb.
  - cbn [map write_list] in *. injection Ea as <-. injection Eb as <-. rewrite !Zlen_nil. lia.
  - cbn [map] in Ea, Eb. rewrite write_list_cons in Ea, Eb. inv_bind Ea. inv_bind Ea. injection Ea as <-. inv_bind Eb. inv_bind Eb. injection Eb as <-.
    unfold ser_input, ser_proof, input_of, mock_proof in Eb0, Eb2. cbn [in_proof in_ext in_box] in Eb0, Eb2.
    rewrite Hq in Eb2. change (put_u16 (wrapu 16 (Zlen [0; 24]))) with (@Ok bytes [2]) in Eb0. change (put_u16 (wrapu 16 56)) with (@Ok bytes [56]) in Eb2.
    cbn [bind] in Eb0, Eb2. destruct (ser_ext (ui_ext i)) as [x| |]; cbn [bind] in Eb0, Eb2; try discriminate. injection Eb0 as <-. injection Eb2 as <-.
    pose proof (IH _ _ Eb1 Eb3) as X. repeat first [rewrite Zlen_app|rewrite Zlen_cons|rewrite Zlen_nil]. rewrite Hq. lia.
Qed.
Lemma wl_map_len : forall (l : list (uinput G)) f, Zlen (map (fun i => input_of i f) l) = Zlen l.
Proof. intros. unfold Zlen. rewrite map_length. reflexivity. Qed.
Lemma signed_size_diff : forall H (u : utx G) q n m, Zlen q = 56 ->
  signed_size H u mock_proof = Ok n -> signed_size H u (PSome q) = Ok m -> m = n + 54 * Zlen (u_inputs u).
Proof.
  intros H u q n m Hq En Em. unfold signed_size in En, Em. inv_bind En. inv_bind En. injection En as <-. inv_bind Em. inv_bind Em. injection Em as <-.
  apply tx_new_inv in Eb, Eb1. destruct Eb as (? & ? & _ & _ & _ & ->). destruct Eb1 as (? & ? & _ & _ & _ & ->).
  unfold ser_tx in Eb0, Eb2. cbn [t_inputs t_data t_cands] in Eb0, Eb2. unfold ser_tx_parts in Eb0, Eb2. rewrite wl_map_len in Eb0, Eb2.
  cbv zeta in Eb0, Eb2.
  repeat (let y := fresh "y" in let Ey := fresh "Ey" in apply bind_ok in Eb0; destruct Eb0 as (y & Ey & Eb0); cbv zeta in Eb0).
  injection Eb0 as <-.
  repeat (let z := fresh "z" in let Ez := fresh "Ez" in apply bind_ok in Eb2; destruct Eb2 as (z & Ez & Eb2); cbv zeta in Eb2).
  injection Eb2 as <-.
  repeat match goal with A : ?e = Ok ?x, B : ?e = Ok ?y |- _ => rewrite A in B; injection B as <- end.
  match goal with A : write_list ser_input (map (fun i => input_of i mock_proof) _) = Ok _, B : write_list ser_input _ = Ok _ |- _ =>
    pose proof (inputs_len _ _ _ _ Hq A B) as L end.
  rewrite !Zlen_app. rewrite L. lia.
Qed.
End Size.

(** The estimate is below the size of the same transaction with such a proof on
    every input, by 54 bytes per input: for every builder. *)
Theorem c64_estimate_refuted : forall (G : group) H fee_tree (b : txb G) u n q m, build_tx H fee_tree b = Ok u ->
  estimate_size H fee_tree b = Ok n -> Zlen q = 56 -> signed_size H u (PSome q) = Ok m ->
  n + 54 * Zlen (tb_boxes b) = m /\ n < m.
Proof.
  intros G H fee_tree b u n q m Eu En Hq Em. unfold estimate_size in En. rewrite Eu in En. cbn [bind] in En.
  pose proof (signed_size_diff _ _ _ _ _ Hq En Em) as X. apply build_tx_inv in Eu.
  destruct Eu as (first & rest & ct & tin & tout & burned & permits & Eb & _ & _ & Ei & _). rewrite Ei in X. unfold Zlen in *. rewrite map_length in X.
  rewrite Eb in *. cbn [List.length] in *. lia.
Qed.
Print Assumptions c64_estimate_refuted.
Example c64_hyps_met : forall (G : group) (H : bytes -> bytes), exists u n m, build_tx H pad_tree (@demo_txb G) = Ok u /\ estimate_size H pad_tree (@demo_txb G) = Ok n /\ signed_size H u (PSome (repeat 1 56)) = Ok m /\ m = n + 108.
Proof. intros G H. do 3 eexists. split; [vm_compute; reflexivity|]. split; [vm_compute; reflexivity|]. split; [vm_compute; reflexivity|reflexivity]. Qed.
