(** C96: box selection succeeds when the funds suffice. *)
From Verif Require Import Base VlqModel GroupModel SigmaModel TypeModel MethodModel IrModel SerModel ChainModel TxModel TypeProofs ChainProps TxProps WalletModel WalletProofs WalletProps VlqProofs SerProofs.
From Coq Require Import Permutation.
Local Open Scope string_scope.
Local Open Scope list_scope.
Local Open Scope Z_scope.

(** ** Maps never overflow below the largest amount *)
Lemma tm_add_ok : forall m t, tm_ok m -> 1 <= snd t <= 2 ^ 63 - 1 -> amt m (fst t) + snd t <= 2 ^ 63 - 1 -> exists m', tm_add m t = Ok m'.
Proof.
  intros m t Hm Ht Hs. unfold tm_add. unfold amt in Hs. destruct (tm_get m (fst t)) as [a|] eqn:E; [|eauto].
  pose proof (ok_get _ _ _ Hm E) as R. rewrite (proj2 (ta_add_spec a (snd t) _ ltac:(lia) ltac:(lia)) (conj eq_refl Hs)). cbn [bind]. eauto.
Qed.
Lemma tm_add_all_ok : forall l m, tm_ok m -> amounts_ok l -> (forall id, amt m id + tok_total id l <= 2 ^ 63 - 1) -> exists m', tm_add_all m l = Ok m'.
Proof.
  induction l as [|[k v] l IH]; intros m Hm Hl Hs; cbn [tm_add_all]; [eauto|]. inversion Hl as [|? ? H1 H2]; subst.
  destruct (tm_add_ok m (k, v) Hm H1) as (m1 & E).
  { specialize (Hs k). cbn [tok_total] in Hs. rewrite eqb_refl' in Hs. pose proof (tok_total_nonneg k l H2). cbn [fst snd]. lia. }
  rewrite E. cbn [bind]. destruct (tm_add_spec _ _ _ Hm H1 E) as [O A]. apply IH; [exact O|exact H2|].
  intros id. rewrite A. specialize (Hs id). cbn [tok_total fst snd] in *. lia.
Qed.
Lemma sum_tokens_ok : forall l, amounts_ok l -> (forall id, tok_total id l <= 2 ^ 63 - 1) -> exists m, sum_tokens l = Ok m.
Proof. intros l Hl Hs. apply tm_add_all_ok; [apply tm_nil_ok|exact Hl|]. intros id. apply Hs. Qed.
Lemma sum_boxes_ok : forall l m, tm_ok m -> Forall (fun b => amounts_ok (snd b)) l -> (forall id, amt m id + tok_total id (all_tokens l) <= 2 ^ 63 - 1) ->
  exists m', sum_boxes_from m l = Ok m'.
Proof.
  induction l as [|b l IH]; intros m Hm Hl Hs; cbn [sum_boxes_from]; [eauto|]. inversion Hl as [|? ? H1 H2]; subst.
  assert (Ha : amounts_ok (all_tokens l)) by (clear - H2; induction H2 as [|x l H1 H2 IH]; [constructor|unfold all_tokens, amounts_ok in *; cbn [flat_map]; apply Forall_app; auto]).
  assert (Hq : forall id, tok_total id (all_tokens (b :: l)) = tok_total id (snd b) + tok_total id (all_tokens l)).
  { intros id. unfold all_tokens. cbn [flat_map]. apply tok_total_app. }
  destruct (tm_add_all_ok (snd b) m Hm H1) as (m1 & E); [intros id; specialize (Hs id); rewrite Hq in Hs; pose proof (tok_total_nonneg id _ Ha); lia|].
  rewrite E. cbn [bind]. destruct (tm_add_all_spec _ _ _ Hm H1 E) as [O A]. apply IH; [exact O|exact H2|].
  intros id. rewrite A. specialize (Hs id). rewrite Hq in Hs. lia.
Qed.

(** ** One box *)
Lemma take_ok : forall l need got, tm_ok need -> tm_ok got -> amounts_ok l -> (forall id, amt got id + amt need id <= 2 ^ 63 - 1) ->
  exists need' got', take_tokens need got l = Ok (need', got') /\ tm_ok got' /\ forall id, amt got' id + amt need' id = amt got id + amt need id.
Proof.
  induction l as [|[k v] l IH]; intros need got Hn Hg Hl Hs; cbn [take_tokens]; [eauto 6|]. inversion Hl as [|? ? Hv Hl']; subst. cbn [snd] in Hv.
  destruct (tm_get need k) as [w|] eqn:W; [|apply IH; assumption]. pose proof (ok_get _ _ _ Hn W) as Rw.
  assert (Ak : amt need k = w) by (unfold amt; rewrite W; reflexivity).
  assert (X : exists need1, (if w <=? v then Ok (tm_remove need k) else s <- ta_sub w v ;; Ok (tm_set need k s)) = Ok need1 /\ tm_ok need1 /\
    forall id, amt need1 id = amt need id - (if bytes_eqb k id then Z.min v w else 0)).
  { destruct (w <=? v) eqn:Q.
    - eexists. split; [reflexivity|]. split; [apply remove_ok, Hn|]. intros id. unfold amt. rewrite get_remove.
      destruct (eqb_cases k id) as [[<- Y]|[N Y]]; rewrite Y; [rewrite W|]; lia.
    - rewrite (proj2 (ta_sub_spec w v (w - v) ltac:(lia) ltac:(lia))) by lia. cbn [bind]. eexists. split; [reflexivity|].
      split; [apply set_ok; [exact Hn|lia]|]. intros id. unfold amt. rewrite get_set.
      destruct (eqb_cases k id) as [[<- Y]|[N Y]]; rewrite Y; [rewrite W|]; lia. }
  destruct X as (need1 & E1 & O1 & A1). rewrite E1. cbn [bind]. cbv zeta.
  assert (X : exists got1, match tm_get got k with Some a => s <- ta_add a (Z.min v w) ;; Ok (tm_set got k s) | None => Ok (tm_set got k (Z.min v w)) end = Ok got1 /\
    tm_ok got1 /\ forall id, amt got1 id = amt got id + (if bytes_eqb k id then Z.min v w else 0)).
  { specialize (Hs k). rewrite Ak in Hs. unfold amt in Hs at 1. destruct (tm_get got k) as [a|] eqn:Ga.
    - pose proof (ok_get _ _ _ Hg Ga) as Ra. rewrite (proj2 (ta_add_spec a (Z.min v w) (a + Z.min v w) ltac:(lia) ltac:(lia))) by lia. cbn [bind].
      eexists. split; [reflexivity|]. split; [apply set_ok; [exact Hg|lia]|]. intros id. unfold amt. rewrite get_set.
      destruct (eqb_cases k id) as [[<- Y]|[N Y]]; rewrite Y; [rewrite Ga|]; lia.
    - eexists. split; [reflexivity|]. split; [apply set_ok; [exact Hg|lia]|]. intros id. unfold amt. rewrite get_set.
      destruct (eqb_cases k id) as [[<- Y]|[N Y]]; rewrite Y; [rewrite Ga|]; lia. }
  destruct X as (got1 & E2 & O2 & A2). rewrite E2. cbn [bind].
  destruct (IH need1 got1 O1 O2 Hl') as (need2 & got2 & E3 & O3 & A3); [intros id; rewrite A1, A2; specialize (Hs id); lia|].
  exists need2, got2. split; [exact E3|]. split; [exact O3|]. intros id. rewrite A3, A1, A2. lia.
Qed.

(** ** The loop: what it may leave out *)
Definition frugal (target : Z) (need : tmap) (don : list abox) (s : sel) : Prop :=
  (exists skipped, Permutation (s_boxes s ++ skipped) don /\
    (skipped = [] \/ target + 10800 <= s_value s \/ (s_vchange s = false /\ s_tchange s = false /\ s_value s = target))) /\
  s_value s = bvalue (s_boxes s) /\
  (s_vchange s = false -> s_value s <= target) /\
  (s_tchange s = false -> forall id, tok_total id (btokens (s_boxes s)) + amt (s_left s) id = amt need id).

Lemma step_frugal : forall target need don b s, boxes_ok (don ++ [b]) -> 10800 <= a_value b -> bvalue (don ++ [b]) < 2 ^ 63 ->
  (forall id, tok_total id (btokens (don ++ [b])) <= 2 ^ 63 - 1) -> 1 <= target ->
  linv target need don s -> frugal target need don s ->
  exists s', select_step target s b = Ok s' /\ frugal target need (don ++ [b]) s'.
Proof.
  intros target need don b s Hok Hmin Hval Htok Htg (_ & _ & O & _ & _) ((sk & P & K) & V & F1 & F2). unfold select_step.
  assert (Hd : boxes_ok don) by (apply Forall_app in Hok; apply Hok).
  assert (Hb : 0 <= a_value b /\ amounts_ok (a_tokens b)).
  { apply Forall_app in Hok. destruct Hok as [_ H]. inversion H. assumption. }
  assert (Ep : bvalue (s_boxes s) + bvalue sk = bvalue don) by (rewrite <- bvalue_app; apply bvalue_perm; exact P).
  assert (Hs : boxes_ok (s_boxes s ++ sk)) by (apply (boxes_ok_perm don); [symmetry; exact P|exact Hd]).
  apply Forall_app in Hs. destruct Hs as [Hs1 Hs2].
  pose proof (bvalue_nonneg _ Hs1) as N1. pose proof (bvalue_nonneg _ Hs2) as N2.
  assert (Eb : bvalue [b] = a_value b) by (unfold bvalue; cbn; lia).
  assert (Et : btokens [b] = a_tokens b) by (unfold btokens; cbn; apply app_nil_r).
  rewrite bvalue_app, Eb in Hval.
  assert (Hw : wrapu 64 (s_value s + a_value b) = s_value s + a_value b) by (unfold wrapu; apply Z.mod_small; lia).
  destruct (wants_box target s b) eqn:W.
  - cbv zeta. destruct (take_ok (a_tokens b) (s_left s) [] O tm_nil_ok (proj2 Hb)) as (n & g & E1 & Og & Ag).
    { intros id. unfold amt at 1. cbn [tm_get]. pose proof (amt_nonneg _ id O). lia. }
    rewrite E1. cbn [bind].
    assert (Hst : forall id, tok_total id (a_tokens b) <= 2 ^ 63 - 1).
    { intros id. specialize (Htok id). rewrite btokens_app, Et, tok_total_app in Htok. pose proof (tok_total_nonneg id _ (btokens_ok _ Hd)). lia. }
    destruct (sum_tokens_ok _ (proj2 Hb) Hst) as (all & Ea). rewrite Ea. cbn [bind].
    apply sum_tokens_spec in Ea; [|apply Hb]. destruct Ea as [Oa Aa].
    eexists. split; [reflexivity|]. rewrite Hw. unfold frugal. cbn [s_boxes s_value s_left s_vchange s_tchange].
    split; [|split; [|split]].
    + exists sk. split.
      * rewrite <- app_assoc. rewrite (Permutation_app_comm [b] sk). rewrite app_assoc. apply Permutation_app_tail. exact P.
      * destruct K as [K|[K|(_ & _ & K)]]; [left; exact K|right; left; lia|right; left; lia].
    + rewrite V, bvalue_app, Eb. reflexivity.
    + intros X. apply orb_false_iff in X. lia.
    + intros X id. apply orb_false_iff in X. destruct X as [X1 X2]. apply negb_false_iff in X2.
      pose proof (tm_eqb_spec _ _ Oa Og X2 id) as Y. rewrite Aa in Y. rewrite btokens_app, Et, tok_total_app.
      specialize (F2 X1 id). specialize (Ag id). unfold amt in Ag at 3. cbn [tm_get] in Ag. lia.
  - exists s. split; [reflexivity|]. unfold wants_box in W. cbv zeta in W. apply orb_false_iff in W. destruct W as [W1 _]. apply orb_false_iff in W1. destruct W1 as [W1 W2].
    split; [|split; [exact V|split; [exact F1|exact F2]]].
    exists (sk ++ [b]). split; [rewrite app_assoc; apply Permutation_app_tail; exact P|]. right.
    rewrite W1 in W2. apply andb_false_iff in W2. destruct W2 as [W2|W2].
    + right. apply orb_false_iff in W2. destruct W2 as [W2 W3]. specialize (F1 W2). split; [exact W2|]. split; [exact W3|lia].
    + left. unfold safe_user_min in W2. lia.
Qed.
Lemma loop_frugal : forall target need l don s, boxes_ok (don ++ l) -> Forall (fun b => 10800 <= a_value b) l -> bvalue (don ++ l) < 2 ^ 63 ->
  (forall id, tok_total id (btokens (don ++ l)) <= 2 ^ 63 - 1) -> 1 <= target ->
  linv target need don s -> frugal target need don s ->
  exists s', select_loop target s l = Ok s' /\ linv target need (don ++ l) s' /\ frugal target need (don ++ l) s'.
Proof.
  induction l as [|b l IH]; intros don s Hok Hmin Hval Htok Htg Hi Hf; cbn [select_loop].
  - exists s. rewrite app_nil_r. auto.
  - inversion Hmin as [|? ? M1 M2]; subst.
    replace (don ++ b :: l) with ((don ++ [b]) ++ l) in * by (rewrite <- app_assoc; reflexivity).
    pose proof Hok as Hok'. apply Forall_app in Hok'. destruct Hok' as [Hok1 Hok2].
    destruct (step_frugal target need don b s) as (s1 & E1 & F1); auto.
    + rewrite bvalue_app in Hval. pose proof (bvalue_nonneg _ Hok2). lia.
    + intros id. specialize (Htok id). rewrite btokens_app, tok_total_app in Htok. pose proof (tok_total_nonneg id _ (btokens_ok _ Hok2)). lia.
    + rewrite E1. cbn [bind]. apply IH; auto. eapply step_inv; eassumption.
Qed.

(** ** C96 *)
(** The identifiers of the tokens in a list of boxes are among at most [n]. *)
Definition kinds_upto (n : nat) (l : list abox) : Prop :=
  exists ids : list bytes, (List.length ids <= n)%nat /\ forall t, In t (btokens l) -> In (fst t) ids.

Lemma total_in : forall id l, tok_total id l <> 0 -> exists t, In t l /\ fst t = id.
Proof.
  intros id l. induction l as [|[k v] l IH]; cbn [tok_total]; [lia|]. intros H.
  destruct (eqb_cases k id) as [[-> E]|[N E]]; rewrite E in H; [exists (id, v); cbn; auto|]. destruct IH as (t & T1 & T2); [lia|]. exists t. cbn. auto.
Qed.

(** Enough value for the target and the smallest change box, enough of every token,
    and not more kinds of tokens than fit a box: a selection is found. *)
Theorem c96_selection_found : forall order inputs target tokens, orderly order -> boxes_ok inputs -> Forall (fun b => 10800 <= a_value b) inputs ->
  amounts_ok tokens -> 1 <= target -> Zlen inputs <= 65535 ->
  target + 10800 <= bvalue inputs < 2 ^ 63 ->
  (forall id, tok_total id tokens <= tok_total id (btokens inputs) <= 2 ^ 63 - 1) ->
  kinds_upto 122 inputs ->
  exists sn, select order inputs target tokens = Ok sn.
Proof.
  intros order inputs target tokens Ho Hi Hmin Ht Htg Hlen Hval Htok (ids & Lids & Hids). unfold select.
  destruct (sum_tokens_ok tokens Ht) as (need & En); [intros id; specialize (Htok id); lia|]. rewrite En. cbn [bind].
  apply sum_tokens_spec in En; [|exact Ht]. destruct En as [On An]. cbv zeta.
  set (srt := rev (sort_boxes (wanted_count need) inputs)).
  assert (Ps : Permutation srt inputs) by apply sort_boxes_perm.
  assert (Hs : boxes_ok srt) by (apply (boxes_ok_perm inputs); [symmetry; exact Ps|exact Hi]).
  assert (Tot : forall id, tok_total id (btokens srt) = tok_total id (btokens inputs)) by (intros id; apply btotal_perm, Ps).
  destruct (loop_frugal target need srt [] (Sel [] 0 need false false)) as (s & Es & ((_ & _ & _) & _ & O & A & B) & ((sk & P & K) & V & F1 & F2)).
  { exact Hs. } { rewrite Forall_forall in *. intros b Hb. apply Hmin. apply (Permutation_in _ Ps Hb). }
  { cbn [app]. rewrite (bvalue_perm _ _ Ps). lia. } { intros id. cbn [app]. rewrite Tot. apply Htok. } { exact Htg. } { apply select_start, On. }
  { split; [exists []; split; [constructor|left; reflexivity]|]. cbn. split; [reflexivity|]. split; [lia|]. intros _ id. lia. }
  cbn [app] in *. rewrite Es. cbn [bind].
  assert (Hsel : boxes_ok (s_boxes s) /\ boxes_ok sk).
  { assert (X : boxes_ok (s_boxes s ++ sk)) by (apply (boxes_ok_perm srt); [symmetry; exact P|exact Hs]). apply Forall_app in X. exact X. }
  destruct Hsel as [Hsel Hsk].
  assert (Tsel : forall id, tok_total id (btokens (s_boxes s)) <= tok_total id (btokens inputs)).
  { intros id. rewrite <- Tot, <- (btotal_perm id _ _ P), btokens_app, tok_total_app. pose proof (tok_total_nonneg id _ (btokens_ok _ Hsk)). lia. }
  assert (Vsel : bvalue (s_boxes s) + bvalue sk = bvalue inputs) by (rewrite <- bvalue_app, (bvalue_perm _ _ P); apply bvalue_perm, Ps).
  pose proof (bvalue_nonneg _ Hsel) as Ns. pose proof (bvalue_nonneg _ Hsk) as Nk.
  assert (Left : s_left s = []).
  { destruct (s_left s) as [|[k v] lf] eqn:L; [reflexivity|exfalso]. rewrite ?L in O.
    assert (Gk : tm_get ((k, v) :: lf) k = Some v) by (cbn [tm_get]; rewrite eqb_refl'; reflexivity).
    pose proof (ok_get _ _ _ O Gk) as Rv. specialize (A k). unfold amt in A at 1. cbn [tm_get] in A.
    rewrite eqb_refl' in A. specialize (A ltac:(discriminate)). rewrite An, Tot in A. specialize (Htok k). lia. }
  assert (Enough : target <= s_value s /\ ((s_vchange s || s_tchange s) = true -> target + 10800 <= s_value s)).
  { destruct K as [->|[K|(K1 & K2 & K3)]].
    - unfold bvalue at 2 in Vsel. cbn in Vsel. lia.
    - lia.
    - rewrite K1, K2. split; [lia|discriminate]. }
  destruct Enough as [En1 En2]. replace (s_value s <? target) with false by lia. rewrite Left. cbn [is_nil negb]. rewrite andb_false_r.
  (* the number of selected boxes *)
  assert (Hio : txio_ok (s_boxes s) = true).
  { unfold txio_ok. assert (Zlen (s_boxes s) <= Zlen inputs).
    { unfold Zlen. rewrite <- (Permutation_length Ps), <- (Permutation_length P), app_length. lia. }
    assert (1 <= Zlen (s_boxes s)). { destruct (s_boxes s) as [|x l]; [unfold bvalue in V; cbn in V; lia|rewrite Zlen_cons; pose proof (Zlen_nonneg _ l); lia]. }
    lia. }
  destruct (sum_boxes_ok (map assets_of (s_boxes s)) [] tm_nil_ok (boxes_assets_ok _ Hsel)) as (m & Em).
  { intros id. rewrite all_tokens_of. cbn. specialize (Tsel id). specialize (Htok id). lia. }
  fold (sum_tokens_from_boxes (map assets_of (s_boxes s))) in Em. pose proof Em as Em'.
  apply sum_from_boxes_spec in Em'; [|apply boxes_assets_ok, Hsel]. destruct Em' as [Om Am]. setoid_rewrite all_tokens_of in Am.
  (* the change *)
  assert (C : exists change, (if negb (s_vchange s) && negb (s_tchange s) then Ok []
             else
               v <- match bv_new (s_value s - target) with Ok v => Ok v | _ => Err "NotEnoughCoinsForChangeBox" end ;;
               m <- sum_tokens_from_boxes (map assets_of (s_boxes s)) ;;
               m' <- change_tokens m tokens ;;
               make_change_boxes order v m') = Ok change /\
      target + sumZ (values change) = s_value s /\ amounts_ok (all_tokens change) /\
      forall id, tok_total id (all_tokens change) = tok_total id (btokens (s_boxes s)) - tok_total id tokens).
  { destruct (negb (s_vchange s) && negb (s_tchange s)) eqn:Q.
    - exists []. apply andb_true_iff in Q. rewrite !negb_true_iff in Q. destruct Q as [Q1 Q2]. split; [reflexivity|].
      specialize (F1 Q1). split; [cbn; lia|]. split; [constructor|]. intros id. specialize (F2 Q2 id). rewrite Left, An in F2. unfold amt in F2. cbn in *. lia.
    - assert (Fl : (s_vchange s || s_tchange s) = true) by (destruct (s_vchange s), (s_tchange s); try discriminate; reflexivity).
      specialize (En2 Fl). unfold bv_new, box_value_of, box_value_min. rewrite i64_max_val. replace ((10800 <=? s_value s - target) && (s_value s - target <=? _)) with true by lia.
      cbn [bind]. rewrite Em. cbn [bind].
      assert (Need : forall id, tok_total id tokens <= amt m id).
      { intros id. rewrite Am. specialize (B id). rewrite An, Left in B. unfold amt in B. cbn [tm_get] in B. lia. }
      destruct (change_tokens_ok tokens m Om Ht Need) as (m' & Em'). rewrite Em'. cbn [bind].
      destruct (change_tokens_spec _ _ _ Om Ht Em') as [Om' Am'].
      assert (Lm : Zlen m' <= 122).
      { assert (X : (List.length (map fst m') <= List.length ids)%nat).
        { apply NoDup_incl_length; [apply Om'|]. intros k Hk.
          assert (amt m' k <> 0). { intros Z0. apply get_some_amt in Z0; [|exact Om']. apply get_none in Z0. contradiction. }
          pose proof (amt_nonneg _ k Om') as Np. pose proof (tok_total_nonneg k tokens Ht) as Nt. rewrite Am' in *. rewrite Am in *.
          destruct (total_in k (btokens inputs)) as (t & T1 & <-); [specialize (Tsel k); lia|]. apply Hids, T1. }
        rewrite map_length in X. unfold Zlen. change 122 with (Z.of_nat 122). apply inj_le. exact (Nat.le_trans _ _ _ X Lids). }
      assert (Mc : exists r, make_change_boxes order (s_value s - target) m' = Ok r).
      { unfold make_change_boxes. destruct (is_nil m'); [eauto|]. unfold max_tokens. replace (Zlen m' <=? 122) with true by lia. eauto. }
      destruct Mc as (r & Er). exists r. split; [exact Er|].
      destruct (make_change_spec order (s_value s - target) m' r Ho) as (_ & S & T); [lia|exact Er|].
      split; [lia|]. split; [apply (amounts_perm _ _ T), Om'|]. intros id. rewrite (tok_total_perm id _ _ T), tok_total_map by apply Om'.
      rewrite Am', Am. lia. }
  destruct C as (change & -> & Cv & Ca & Ct). cbn [bind].
  assert (Pr : check_preservation (s_boxes s) change target tokens = Ok tt).
  { unfold check_preservation. rewrite !sum_value_spec, values_of. fold (bvalue (s_boxes s)). rewrite <- V.
    unfold wrapu. rewrite Z.add_mod_idemp_l by lia. replace (sumZ (values change) + target) with (s_value s) by lia. rewrite Z.eqb_refl. cbn [negb].
    rewrite Em. cbn [bind].
    destruct (sum_boxes_ok change [] tm_nil_ok (amounts_boxes _ Ca)) as (mc & Ec).
    { intros id. rewrite Ct. cbn. specialize (Tsel id). specialize (Htok id). pose proof (tok_total_nonneg id tokens Ht). lia. }
    fold (sum_tokens_from_boxes change) in Ec. rewrite Ec. cbn [bind].
    apply sum_from_boxes_spec in Ec; [|apply amounts_boxes, Ca]. destruct Ec as [Oc Ac].
    destruct (sum_tokens_ok tokens Ht) as (mt & Et); [intros id; specialize (Htok id); lia|]. rewrite Et. cbn [bind].
    apply sum_tokens_spec in Et; [|exact Ht]. destruct Et as [Ot At].
    assert (Ak : amounts_ok (mc ++ mt)) by (apply Forall_app; split; [apply Oc|apply Ot]).
    assert (Tk : forall id, tok_total id (mc ++ mt) = tok_total id (btokens (s_boxes s))).
    { intros id. rewrite tok_total_app, (tok_total_map mc), (tok_total_map mt), Ac, At, Ct by (apply Oc || apply Ot). lia. }
    unfold sum_tokens_from_hashmaps. destruct (sum_tokens_ok (mc ++ mt) Ak) as (md & Ed); [intros id; rewrite Tk; specialize (Tsel id); specialize (Htok id); lia|].
    unfold sum_tokens in Ed. rewrite Ed. cbn [bind]. fold (sum_tokens (mc ++ mt)) in Ed. apply sum_tokens_spec in Ed; [|exact Ak]. destruct Ed as [Od Ad].
    rewrite tm_eqb_complete; [reflexivity|exact Om|exact Od|]. intros id. rewrite Am, Ad, Tk. reflexivity. }
  rewrite Pr. cbn [bind]. rewrite Hio. eauto.
Qed.
Print Assumptions c96_selection_found.

(** The limit on kinds is needed.  The loop stops as soon as the change reaches one
    million, which does not pay for two change boxes: it fails with a thousand times
    as much on offer, and succeeds when the same boxes are offered in another order. *)
Definition many_tokens : list token := map (fun i => (repeat (Z.of_nat i) 32, 1)) (seq 1 123).
Definition poor_box : abox := ABox (repeat 1 32) 2000000 many_tokens.
Definition rich_box : abox := ABox (repeat 2 32) 1000000000 [].
Lemma many_ok : amounts_ok many_tokens.
Proof. unfold amounts_ok, many_tokens. apply Forall_forall. intros t H. apply in_map_iff in H. destruct H as (i & <- & _). cbn [snd]. lia. Qed.
Lemma many_total : forall id l, tok_total id (map (fun i => (repeat (Z.of_nat i) 32, 1)) l) <= Z.of_nat (List.length l).
Proof. intros id l. induction l as [|i l IH]; cbn [map tok_total List.length]; [lia|]. destruct (bytes_eqb _ id); lia. Qed.
Theorem c96_selection_found_refuted : exists inputs target, boxes_ok inputs /\ Forall (fun b => 10800 <= a_value b) inputs /\
  1 <= target /\ Zlen inputs <= 65535 /\ 1000 * target <= bvalue inputs < 2 ^ 63 /\ (forall id, 0 <= tok_total id (btokens inputs) <= 2 ^ 63 - 1) /\
  kinds_upto 123 inputs /\
  (forall order, orderly order -> select order inputs target [] = Err "NotEnoughCoinsForChangeBox") /\
  (forall order, orderly order -> exists sn, select order (rev inputs) target [] = Ok sn).
Proof.
  exists [rich_box; poor_box], 1000000.
  split; [constructor; [split; [cbn; lia|constructor]|constructor; [split; [cbn; lia|exact many_ok]|constructor]]|].
  split; [repeat (constructor; [cbn; lia|]); constructor|]. split; [lia|]. split; [rewrite !Zlen_cons, Zlen_nil; lia|]. split; [split; [cbn; lia|reflexivity]|].
  split.
  { intros id. change (btokens [rich_box; poor_box]) with (many_tokens ++ []). rewrite app_nil_r. split; [apply tok_total_nonneg, many_ok|].
    unfold many_tokens. etransitivity; [apply many_total|]. rewrite seq_length. lia. }
  split; [exists (map fst many_tokens); split; [unfold many_tokens; rewrite !map_length, seq_length; lia|]|].
  { intros t H. change (btokens [rich_box; poor_box]) with (many_tokens ++ []) in H. rewrite app_nil_r in H. apply in_map, H. }
  split.
  - intros order Ho. unfold select. 
    assert (L : select_loop 1000000 (Sel [] 0 [] false false) [poor_box; rich_box] = Ok (Sel [poor_box] 2000000 [] true true)) by (vm_compute; reflexivity).
    cbn [sum_tokens tm_add_all bind]. change (rev (sort_boxes (wanted_count []) [rich_box; poor_box])) with [poor_box; rich_box]. cbv zeta.
    rewrite L. cbn [bind s_value s_left s_vchange s_tchange s_boxes is_nil negb andb].
    change (2000000 <? 1000000) with false. cbv iota. change (bv_new (2000000 - 1000000)) with (Ok 1000000 : res Z). cbn [bind].
    assert (M : exists m, sum_tokens_from_boxes (map assets_of [poor_box]) = Ok m /\ Zlen m = 123) by (eexists; split; [vm_compute; reflexivity|reflexivity]).
    destruct M as (m & -> & Lm). cbn [bind change_tokens]. unfold make_change_boxes. destruct m as [|t m0]; [discriminate|]. cbn [is_nil].
    set (m := t :: m0) in *. rewrite Lm. unfold max_tokens. change (123 <=? 122) with false. cbv iota.
    assert (Lo : Zlen (order m) = 123) by (unfold Zlen in *; rewrite (Permutation_length (Ho m)); exact Lm).
    change (List.length m) with (S (List.length m0)). cbn [split_change]. destruct (order m) as [|u o]; [discriminate|]. cbn [is_nil]. rewrite Lo.
    unfold max_tokens. change (123 <=? 122) with false. cbv iota. reflexivity.
  - intros order Ho. eexists. cbn [rev app]. unfold select. cbn [sum_tokens tm_add_all bind].
    change (rev (sort_boxes (wanted_count []) [poor_box; rich_box])) with [rich_box; poor_box]. cbv zeta.
    assert (L : select_loop 1000000 (Sel [] 0 [] false false) [rich_box; poor_box] = Ok (Sel [rich_box] 1000000000 [] true false)) by (vm_compute; reflexivity).
    rewrite L. vm_compute. reflexivity.
Qed.
Print Assumptions c96_selection_found_refuted.

Example c96_hyps_met : forall order, orderly order -> exists sn,
  select order [ABox (repeat 1 32) 700000 [(repeat 7 32, 5)]; ABox (repeat 2 32) 310800 [(repeat 7 32, 4); (repeat 8 32, 1)]] 1000000 [(repeat 7 32, 6)] = Ok sn.
Proof.
  intros order Ho. apply c96_selection_found.
  - exact Ho.
  - repeat (constructor; [split; [cbn; lia|repeat (constructor; [cbn [snd]; lia|]); constructor]|]). constructor.
  - repeat (constructor; [cbn; lia|]). constructor.
  - constructor; [cbn [snd]; lia|constructor].
  - lia.
  - rewrite !Zlen_cons, Zlen_nil. lia.
  - split; [cbn; lia|reflexivity].
  - intros id. cbn [btokens flat_map a_tokens app tok_total]. destruct (bytes_eqb (repeat 7 32) id), (bytes_eqb (repeat 8 32) id); lia.
  - exists [repeat 7 32; repeat 8 32]. split; [cbn; lia|]. intros t H. cbn in H. destruct H as [<-|[<-|[<-|[]]]]; cbn; tauto.
Qed.
