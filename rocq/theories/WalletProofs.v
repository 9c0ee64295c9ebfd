(** Token maps and sums of wallet assets. *)
From Verif Require Import Base VlqModel GroupModel SigmaModel TypeModel MethodModel IrModel SerModel TypeProofs ChainModel ChainProps TxModel TxProps WalletModel.
From Coq Require Import Permutation.
Local Open Scope string_scope.
Local Open Scope list_scope.
Local Open Scope Z_scope.

(** ** Specification: amounts of one token *)

(** The amount of token [id] in a list of tokens. *)
Fixpoint tok_total (id : bytes) (l : list token) : Z :=
  match l with
  | [] => 0
  | (k, v) :: l' => (if bytes_eqb k id then v else 0) + tok_total id l'
  end.
Definition all_tokens (l : list assets) : list token := flat_map snd l.
Definition sumZ (l : list Z) : Z := fold_right Z.add 0 l.
Definition values (l : list assets) : list Z := map fst l.
(** Token amounts are between 1 and [2 ^ 63 - 1]: the type's range. *)
Definition amounts_ok (l : list token) : Prop := Forall (fun t => 1 <= snd t <= 2 ^ 63 - 1) l.

(** ** Maps *)
Definition amt (m : tmap) (id : bytes) : Z := match tm_get m id with Some v => v | None => 0 end.
Definition tm_ok (m : tmap) : Prop := NoDup (map fst m) /\ amounts_ok m.

Lemma eqb_refl' : forall a, bytes_eqb a a = true.
Proof. intros a. apply bytes_eqb_iff. reflexivity. Qed.
Lemma eqb_neq : forall a b, a <> b -> bytes_eqb a b = false.
Proof. intros a b H. destruct (bytes_eqb a b) eqn:E; [|reflexivity]. apply bytes_eqb_iff in E. contradiction. Qed.
Lemma eqb_cases : forall a b, (a = b /\ bytes_eqb a b = true) \/ (a <> b /\ bytes_eqb a b = false).
Proof.
  intros a b. destruct (bytes_eqb a b) eqn:E; [left|right]; (split; [|reflexivity]).
  - apply bytes_eqb_iff. exact E.
  - intros ->. rewrite eqb_refl' in E. discriminate.
Qed.
Lemma eqb_sym : forall a b, bytes_eqb a b = bytes_eqb b a.
Proof. intros a b. destruct (eqb_cases a b) as [[-> E]|[H E]]; [reflexivity|]. rewrite E. symmetry. apply eqb_neq. auto. Qed.

Lemma get_in : forall m id v, tm_get m id = Some v -> In (id, v) m.
Proof.
  induction m as [|[k w] m IH]; intros id v H; [discriminate|]. cbn [tm_get] in H.
  destruct (eqb_cases k id) as [[-> E]|[N E]]; rewrite E in H; [injection H as ->; left; reflexivity|right; auto].
Qed.
Lemma get_none : forall m id, tm_get m id = None <-> ~ In id (map fst m).
Proof.
  induction m as [|[k w] m IH]; intros id; cbn [tm_get map In fst]; [split; auto|].
  destruct (eqb_cases k id) as [[-> E]|[N E]]; rewrite E; [split; [discriminate|intros X; exfalso; auto]|]. rewrite IH. tauto.
Qed.
Lemma in_get : forall m id v, NoDup (map fst m) -> In (id, v) m -> tm_get m id = Some v.
Proof.
  induction m as [|[k w] m IH]; intros id v N H; [destruct H|]. cbn [tm_get]. cbn [map fst] in N. inversion N as [|? ? N1 N2]; subst.
  destruct H as [H|H]; [injection H as -> ->; rewrite eqb_refl'; reflexivity|].
  rewrite eqb_neq; [auto|]. intros ->. apply N1. apply in_map_iff. exists (id, v). auto.
Qed.
Lemma ok_get : forall m id v, tm_ok m -> tm_get m id = Some v -> 1 <= v <= 2 ^ 63 - 1.
Proof. intros m id v [_ A] H. apply get_in in H. unfold amounts_ok in A. rewrite Forall_forall in A. apply (A _ H). Qed.
Lemma amt_nonneg : forall m id, tm_ok m -> 0 <= amt m id <= 2 ^ 63 - 1.
Proof. intros m id H. unfold amt. destruct (tm_get m id) eqn:E; [apply (ok_get m id) in E; [lia|exact H]|lia]. Qed.
Lemma get_some_amt : forall m id, tm_ok m -> (tm_get m id = None <-> amt m id = 0).
Proof.
  intros m id H. unfold amt. destruct (tm_get m id) eqn:E; [|tauto]. apply (ok_get m id) in E; [|exact H].
  split; [discriminate|lia].
Qed.

Lemma set_keys : forall m id v, map fst (tm_set m id v) = if tm_has m id then map fst m else map fst m ++ [id].
Proof.
  unfold tm_has. induction m as [|[k w] m IH]; intros id v; [reflexivity|]. cbn [tm_set tm_get].
  destruct (bytes_eqb k id); [reflexivity|]. cbn [map fst]. rewrite IH. destruct (tm_get m id); reflexivity.
Qed.
Lemma get_set : forall m id v k, tm_get (tm_set m id v) k = if bytes_eqb id k then Some v else tm_get m k.
Proof.
  induction m as [|[j w] m IH]; intros id v k; [reflexivity|]. cbn [tm_set].
  destruct (eqb_cases j id) as [[-> E]|[N E]]; rewrite E; cbn [tm_get]; [destruct (bytes_eqb id k); reflexivity|].
  rewrite IH. destruct (eqb_cases id k) as [[-> E']|[N' E']]; rewrite E'; [rewrite (eqb_neq j k) by exact N; reflexivity|].
  reflexivity.
Qed.
Lemma set_ok : forall m id v, tm_ok m -> 1 <= v <= 2 ^ 63 - 1 -> tm_ok (tm_set m id v).
Proof.
  intros m id v [N A] Hv. split.
  - rewrite set_keys. unfold tm_has. destruct (tm_get m id) eqn:E; [exact N|]. apply get_none in E.
    apply (Permutation_NoDup (l := id :: map fst m)); [apply Permutation_cons_append|]. constructor; assumption.
  - clear N. induction m as [|[k w] m IH]; cbn [tm_set]; [constructor; [exact Hv|constructor]|].
    inversion A as [|? ? A1 A2]; subst. destruct (bytes_eqb k id); (constructor; [assumption|]); [exact A2|apply IH; exact A2].
Qed.
Lemma get_remove : forall m id k, tm_get (tm_remove m id) k = if bytes_eqb id k then None else tm_get m k.
Proof.
  induction m as [|[j w] m IH]; intros id k; cbn [tm_remove filter tm_get fst]; [destruct (bytes_eqb id k); reflexivity|].
  fold (tm_remove m id). destruct (eqb_cases j id) as [[-> E]|[N E]]; rewrite E; cbn [negb].
  - rewrite IH. destruct (bytes_eqb id k); reflexivity.
  - cbn [tm_get]. rewrite IH. destruct (eqb_cases id k) as [[-> E']|[N' E']]; rewrite E'; [rewrite (eqb_neq j k) by exact N; reflexivity|reflexivity].
Qed.
Lemma filter_ok : forall f m, tm_ok m -> tm_ok (filter f m).
Proof.
  intros f m [N A]. split.
  - clear A. induction m as [|x m IH]; [constructor|]. cbn [map] in N. inversion N as [|? ? N1 N2]; subst. cbn [filter].
    destruct (f x); [|auto]. cbn [map]. constructor; [|auto]. intros H. apply N1. apply in_map_iff in H. destruct H as (y & E & Hy).
    apply filter_In in Hy. apply in_map_iff. exists y. tauto.
  - unfold amounts_ok in *. rewrite Forall_forall in *. intros x Hx. apply filter_In in Hx. apply A, Hx.
Qed.
Lemma remove_ok : forall m id, tm_ok m -> tm_ok (tm_remove m id).
Proof. intros. apply filter_ok. assumption. Qed.
Lemma tm_nil_ok : tm_ok [].
Proof. split; constructor. Qed.

(** ** Amounts under the operations *)
Lemma ta_add_spec : forall a b s, 0 <= a -> 0 <= b -> (ta_add a b = Ok s <-> s = a + b /\ a + b <= 2 ^ 63 - 1).
Proof.
  intros a b s Ha Hb. unfold ta_add, u64_checked, upto_max, i64_max. cbv zeta.
  destruct ((0 <=? a + b) && (a + b <? 2 ^ 64)) eqn:E; cbn [of_option bind].
  - destruct (a + b <=? 2 ^ 63 - 1) eqn:F; [split; [intros X; injection X as <-; lia|intros [-> _]; reflexivity]|split; [discriminate|lia]].
  - split; [discriminate|]. intros [_ X]. lia.
Qed.
Lemma ta_sub_spec : forall a b s, 0 <= a < 2 ^ 64 -> 0 <= b -> (ta_sub a b = Ok s <-> s = a - b /\ 1 <= a - b).
Proof.
  intros a b s Ha Hb. unfold ta_sub, u64_checked.
  destruct ((0 <=? a - b) && (a - b <? 2 ^ 64)) eqn:E; cbn [of_option bind].
  - destruct (1 <=? a - b) eqn:F; [split; [intros X; injection X as <-; lia|intros [-> _]; reflexivity]|split; [discriminate|lia]].
  - split; [discriminate|]. intros [_ X]. lia.
Qed.
Lemma tm_add_spec : forall m t m', tm_ok m -> 1 <= snd t <= 2 ^ 63 - 1 -> tm_add m t = Ok m' ->
  tm_ok m' /\ forall id, amt m' id = amt m id + (if bytes_eqb (fst t) id then snd t else 0).
Proof.
  intros m t m' Hm Ht E. unfold tm_add in E. destruct (tm_get m (fst t)) as [a|] eqn:Ea.
  - pose proof (ok_get _ _ _ Hm Ea) as Ra. inv_bind E. injection E as <-. apply ta_add_spec in Eb; [|lia|lia]. destruct Eb as [-> Hb].
    split; [apply set_ok; [exact Hm|lia]|]. intros id. unfold amt. rewrite get_set.
    destruct (eqb_cases (fst t) id) as [[<- E]|[N E]]; rewrite E; [rewrite Ea; reflexivity|]. lia.
  - injection E as <-. split; [apply set_ok; [exact Hm|lia]|]. intros id. unfold amt. rewrite get_set.
    destruct (eqb_cases (fst t) id) as [[<- E]|[N E]]; rewrite E; [rewrite Ea; reflexivity|]. lia.
Qed.
Lemma tm_add_all_spec : forall l m m', tm_ok m -> amounts_ok l -> tm_add_all m l = Ok m' ->
  tm_ok m' /\ forall id, amt m' id = amt m id + tok_total id l.
Proof.
  induction l as [|[k v] l IH]; intros m m' Hm Hl E; cbn [tm_add_all tok_total] in *.
  - injection E as <-. split; [exact Hm|]. intros id. lia.
  - inversion Hl as [|? ? H1 H2]; subst. inv_bind E. apply tm_add_spec in Eb; [|exact Hm|exact H1]. destruct Eb as [O A].
    apply IH in E; [|exact O|exact H2]. destruct E as [O' A']. split; [exact O'|]. intros id. rewrite A', A. cbn [fst snd]. lia.
Qed.
Lemma sum_tokens_spec : forall l m, amounts_ok l -> sum_tokens l = Ok m -> tm_ok m /\ forall id, amt m id = tok_total id l.
Proof. intros l m Hl E. apply tm_add_all_spec in E; [|apply tm_nil_ok|exact Hl]. destruct E as [O A]. split; [exact O|]. intros id. rewrite A. reflexivity. Qed.
Lemma tok_total_app : forall id a b, tok_total id (a ++ b) = tok_total id a + tok_total id b.
Proof. intros id a b. induction a as [|[k v] a IH]; cbn [app tok_total]; [lia|rewrite IH; lia]. Qed.
Lemma tok_total_nonneg : forall id l, amounts_ok l -> 0 <= tok_total id l.
Proof.
  intros id l H. induction l as [|[k v] l IH]; cbn [tok_total]; [lia|]. inversion H as [|? ? H1 H2]; subst. cbn [snd] in H1.
  specialize (IH H2). destruct (bytes_eqb k id); lia.
Qed.
Lemma sum_boxes_spec : forall l m m', tm_ok m -> Forall (fun b => amounts_ok (snd b)) l -> sum_boxes_from m l = Ok m' ->
  tm_ok m' /\ forall id, amt m' id = amt m id + tok_total id (all_tokens l).
Proof.
  induction l as [|b l IH]; intros m m' Hm Hl E; cbn [sum_boxes_from all_tokens flat_map] in *.
  - injection E as <-. split; [exact Hm|]. intros id. cbn [tok_total]. lia.
  - inversion Hl as [|? ? H1 H2]; subst. inv_bind E. apply tm_add_all_spec in Eb; [|exact Hm|exact H1]. destruct Eb as [O A].
    apply IH in E; [|exact O|exact H2]. destruct E as [O' A']. split; [exact O'|]. intros id. rewrite A', A, tok_total_app. unfold all_tokens. lia.
Qed.
Lemma sum_from_boxes_spec : forall l m, Forall (fun b => amounts_ok (snd b)) l -> sum_tokens_from_boxes l = Ok m ->
  tm_ok m /\ forall id, amt m id = tok_total id (all_tokens l).
Proof. intros l m Hl E. apply sum_boxes_spec in E; [|apply tm_nil_ok|exact Hl]. destruct E as [O A]. split; [exact O|]. intros id. rewrite A. reflexivity. Qed.
Lemma tok_total_map : forall m id, NoDup (map fst m) -> tok_total id m = amt m id.
Proof.
  induction m as [|[k v] m IH]; intros id N; [reflexivity|]. cbn [map fst] in N. inversion N as [|? ? N1 N2]; subst.
  unfold amt. cbn [tok_total tm_get]. rewrite (IH id N2). unfold amt. destruct (eqb_cases k id) as [[-> E]|[X E]]; rewrite E; [|lia].
  apply get_none in N1. rewrite N1. lia.
Qed.

Lemma subtract_spec : forall l m m', tm_ok m -> amounts_ok l -> subtract_tokens m l = Ok m' ->
  tm_ok m' /\ forall id, amt m' id = amt m id - tok_total id l.
Proof.
  induction l as [|[k v] l IH]; intros m m' Hm Hl E; cbn [subtract_tokens tok_total] in *.
  - injection E as <-. split; [exact Hm|]. intros id. lia.
  - inversion Hl as [|? ? H1 H2]; subst. cbn [snd] in H1. inv_bind E. destruct (tm_get m k) as [a|] eqn:Ea; [|discriminate].
    pose proof (ok_get _ _ _ Hm Ea) as Ra.
    assert (X : tm_ok b /\ forall id, amt b id = amt m id - (if bytes_eqb k id then v else 0)).
    { destruct (a =? v) eqn:Q.
      - injection Eb as <-. split; [apply remove_ok, Hm|]. intros id. unfold amt. rewrite get_remove.
        destruct (eqb_cases k id) as [[<- X]|[N X]]; rewrite X; [rewrite Ea; lia|lia].
      - inv_bind Eb. injection Eb as <-. apply ta_sub_spec in Eb0; [|lia|lia]. destruct Eb0 as [-> Hs].
        split; [apply set_ok; [exact Hm|lia]|]. intros id. unfold amt. rewrite get_set.
        destruct (eqb_cases k id) as [[<- X]|[N X]]; rewrite X; [rewrite Ea; lia|lia]. }
    destruct X as [O A]. apply IH in E; [|exact O|exact H2]. destruct E as [O' A']. split; [exact O'|]. intros id. rewrite A', A. lia.
Qed.

Lemma tm_eqb_spec : forall a b, tm_ok a -> tm_ok b -> tm_eqb a b = true -> forall id, amt a id = amt b id.
Proof.
  intros a b Ha Hb E id. unfold tm_eqb in E. apply andb_true_iff in E. destruct E as [L F]. apply Nat.eqb_eq in L.
  rewrite forallb_forall in F. destruct (tm_get a id) as [v|] eqn:G.
  - pose proof (F _ (get_in _ _ _ G)) as X. cbn [fst snd] in X. unfold amt. rewrite G. destruct (tm_get b id); [lia|discriminate].
  - unfold amt. rewrite G. destruct (tm_get b id) as [v|] eqn:Gb; [|reflexivity]. exfalso.
    (* the keys of [a] are all keys of [b], and as many *)
    assert (I : incl (map fst a) (map fst b)).
    { intros k Hk. apply in_map_iff in Hk. destruct Hk as ([k' w] & <- & Hk). specialize (F _ Hk). cbn [fst snd] in *.
      destruct (tm_get b k') eqn:Q; [|discriminate]. apply get_in in Q. apply in_map_iff. exists (k', z). auto. }
    assert (I' : incl (map fst b) (map fst a)) by (apply NoDup_length_incl; [apply Ha|rewrite !map_length; exact (Nat.eq_le_incl _ _ (eq_sym L))|exact I]).
    apply get_none in G. apply G, I'. apply get_in in Gb. apply in_map_iff. exists (id, v). auto.
Qed.
Lemma tm_eqb_complete : forall a b, tm_ok a -> tm_ok b -> (forall id, amt a id = amt b id) -> tm_eqb a b = true.
Proof.
  intros a b Ha Hb E.
  assert (K : forall id, In id (map fst a) <-> In id (map fst b)).
  { intros id. specialize (E id). destruct (tm_get a id) eqn:Ga, (tm_get b id) eqn:Gb.
    - apply get_in in Ga, Gb. split; intros _; apply in_map_iff; eexists; split; [|eassumption| |eassumption]; reflexivity.
    - unfold amt in E. rewrite Ga, Gb in E. apply (ok_get _ _ _ Ha) in Ga. lia.
    - unfold amt in E. rewrite Ga, Gb in E. apply (ok_get _ _ _ Hb) in Gb. lia.
    - apply get_none in Ga, Gb. tauto. }
  unfold tm_eqb. apply andb_true_iff. split.
  - apply Nat.eqb_eq. assert (X : List.length (map fst a) = List.length (map fst b)).
    { apply Nat.le_antisymm; apply NoDup_incl_length; try apply Ha; try apply Hb; intros x Hx; apply K; exact Hx. }
    rewrite !map_length in X. exact X.
  - apply forallb_forall. intros [k v] Hin. cbn [fst snd]. pose proof (in_get _ _ _ (proj1 Ha) Hin) as G. specialize (E k). unfold amt in E. rewrite G in E.
    apply (ok_get _ _ _ Ha) in G. destruct (tm_get b k); [|lia]. apply Z.eqb_eq. lia.
Qed.

(** ** Values *)
Lemma sum_value_spec : forall l, sum_value l = sumZ (values l) mod 2 ^ 64.
Proof.
  intros l. unfold sum_value. assert (G : forall l s, fold_left (fun s b => wrapu 64 (s + fst b)) l (s mod 2 ^ 64) = (s + sumZ (values l)) mod 2 ^ 64).
  { clear l. induction l as [|b l IH]; intros s; cbn [fold_left values map sumZ fold_right]; [rewrite Z.add_0_r; reflexivity|].
    unfold wrapu at 2. rewrite Z.add_mod_idemp_l by lia. rewrite IH. f_equal. unfold sumZ, values. lia. }
  specialize (G l 0). rewrite Z.mod_0_l in G by lia. rewrite G. f_equal.
Qed.
Lemma sumZ_app : forall a b, sumZ (a ++ b) = sumZ a + sumZ b.
Proof. induction a as [|x a IH]; intros b; cbn [app sumZ fold_right]; [reflexivity|]. fold (sumZ (a ++ b)) (sumZ a). rewrite IH. lia. Qed.

(** ** Selection *)
Definition boxes_ok (l : list abox) : Prop := Forall (fun b => 0 <= a_value b /\ amounts_ok (a_tokens b)) l.
Definition btokens (l : list abox) : list token := flat_map a_tokens l.
Definition bvalue (l : list abox) : Z := sumZ (map a_value l).

Lemma all_tokens_of : forall l, all_tokens (map assets_of l) = btokens l.
Proof. induction l as [|b l IH]; [reflexivity|]. unfold all_tokens, btokens in *. cbn [map flat_map assets_of snd]. rewrite IH. reflexivity. Qed.
Lemma values_of : forall l, values (map assets_of l) = map a_value l.
Proof. intros l. unfold values. rewrite map_map. reflexivity. Qed.
Lemma btokens_app : forall a b, btokens (a ++ b) = btokens a ++ btokens b.
Proof. intros. apply flat_map_app. Qed.
Lemma bvalue_app : forall a b, bvalue (a ++ b) = bvalue a + bvalue b.
Proof. intros. unfold bvalue. rewrite map_app. apply sumZ_app. Qed.
Lemma bvalue_nonneg : forall l, boxes_ok l -> 0 <= bvalue l.
Proof. induction 1 as [|b l [H _] Hl IH]; unfold bvalue, sumZ in *; cbn [map fold_right] in *; lia. Qed.
Lemma btokens_ok : forall l, boxes_ok l -> amounts_ok (btokens l).
Proof. induction 1 as [|b l [_ H] Hl IH]; [constructor|]. unfold btokens. cbn [flat_map]. unfold amounts_ok. apply Forall_app. split; assumption. Qed.
Lemma boxes_ok_perm : forall a b, Permutation a b -> boxes_ok a -> boxes_ok b.
Proof. intros a b P H. unfold boxes_ok in *. rewrite Forall_forall in *. intros x Hx. apply H. apply (Permutation_in _ (Permutation_sym P) Hx). Qed.
Lemma bvalue_perm : forall a b, Permutation a b -> bvalue a = bvalue b.
Proof.
  intros a b P. unfold bvalue, sumZ. induction P; cbn [map fold_right]; lia.
Qed.
Lemma btotal_perm : forall id a b, Permutation a b -> tok_total id (btokens a) = tok_total id (btokens b).
Proof. intros id a b P. unfold btokens. induction P; cbn [flat_map]; rewrite ?tok_total_app; lia. Qed.
Lemma tok_total_perm : forall id a b, Permutation a b -> tok_total id a = tok_total id b.
Proof.
  intros id a b P. induction P as [|[k v] a b P IH|[k v] [k' v'] a|a b c P1 IH1 P2 IH2]; cbn [tok_total]; lia.
Qed.

Lemma sort_insert_perm : forall key b l, Permutation (sort_insert key b l) (b :: l).
Proof.
  intros key b l. induction l as [|c l IH]; [reflexivity|]. cbn [sort_insert]. destruct (_ <? _)%nat; [reflexivity|].
  rewrite IH. apply perm_swap.
Qed.
Lemma sort_boxes_perm : forall key l, Permutation (rev (sort_boxes key l)) l.
Proof.
  intros key l. rewrite <- Permutation_rev. unfold sort_boxes.
  assert (H : forall l acc, Permutation (fold_left (fun acc b => sort_insert key b acc) l acc) (acc ++ l)).
  { clear l. induction l as [|b l IH]; intros acc; cbn [fold_left]; [rewrite app_nil_r; reflexivity|].
    rewrite IH, sort_insert_perm. apply Permutation_middle. }
  apply (H l []).
Qed.

(** Errors of token arithmetic. *)
Definition tok_err (e : string) : Prop := e = "Overflow" \/ e = "OutOfBounds".
Lemma ta_add_err : forall a b e, ta_add a b = Err e -> tok_err e.
Proof.
  intros a b e H. unfold ta_add, upto_max in H. destruct (u64_checked (a + b)); cbn [of_option bind] in H; [|injection H as <-; left; reflexivity].
  destruct (z <=? i64_max); [discriminate|injection H as <-; right; reflexivity].
Qed.
Lemma ta_sub_err : forall a b e, ta_sub a b = Err e -> tok_err e.
Proof.
  intros a b e H. unfold ta_sub in H. destruct (u64_checked (a - b)); cbn [of_option bind] in H; [|injection H as <-; left; reflexivity].
  destruct (1 <=? z); [discriminate|injection H as <-; right; reflexivity].
Qed.
Lemma tm_add_all_err : forall l m e, tm_add_all m l = Err e -> tok_err e.
Proof.
  induction l as [|[k v] l IH]; intros m e H; cbn [tm_add_all] in H; [discriminate|].
  unfold tm_add in H. cbn [fst snd] in H. destruct (tm_get m k).
  - destruct (ta_add z v) eqn:E; cbn [bind] in H; [eauto|injection H as <-; eapply ta_add_err; eauto|discriminate].
  - cbn [bind] in H. eauto.
Qed.
Lemma sum_boxes_err : forall l m e, sum_boxes_from m l = Err e -> tok_err e.
Proof.
  induction l as [|b l IH]; intros m e H; cbn [sum_boxes_from] in H; [discriminate|].
  destruct (tm_add_all m (snd b)) eqn:E; cbn [bind] in H; [eauto|injection H as <-; eapply tm_add_all_err; eauto|discriminate].
Qed.
Lemma take_err : forall l need got e, take_tokens need got l = Err e -> tok_err e.
Proof.
  induction l as [|[k v] l IH]; intros need got e H; cbn [take_tokens] in H; [discriminate|].
  destruct (tm_get need k) as [w|]; [|eauto].
  assert (D : forall need', match tm_get got k with
                  | Some a => s <- ta_add a (Z.min v w) ;; Ok (tm_set got k s)
                  | None => Ok (tm_set got k (Z.min v w))
                  end = Err e \/ (exists got', take_tokens need' got' l = Err e) -> tok_err e).
  { intros need' [X|(got' & X)]; [|eauto]. destruct (tm_get got k); [|discriminate].
    destruct (ta_add z (Z.min v w)) eqn:E; cbn [bind] in X; [discriminate|injection X as <-; eapply ta_add_err; eauto|discriminate]. }
  cbv zeta in H.
  assert (C : forall need', bind (match tm_get got k with
                  | Some a => s <- ta_add a (Z.min v w) ;; Ok (tm_set got k s)
                  | None => Ok (tm_set got k (Z.min v w))
                  end) (fun got' => take_tokens need' got' l) = Err e -> tok_err e).
  { intros need' X. apply (D need'). destruct (match tm_get got k with Some _ => _ | None => _ end) as [g|e'|] eqn:E; cbn [bind] in X; [right; eauto|left|discriminate].
    injection X as <-. reflexivity. }
  destruct (w <=? v); cbn [bind] in H; [eauto|].
  destruct (ta_sub w v) eqn:E; cbn [bind] in H; [eauto|injection H as <-; eapply ta_sub_err; eauto|discriminate].
Qed.
Lemma loop_err : forall target l s e, select_loop target s l = Err e -> tok_err e.
Proof.
  induction l as [|b l IH]; intros s e H; cbn [select_loop] in H; [discriminate|].
  destruct (select_step target s b) as [s'|e'|] eqn:E; cbn [bind] in H; [eauto| |discriminate]. injection H as <-.
  unfold select_step in E. destruct (wants_box target s b); [|discriminate]. cbv zeta in E.
  destruct (take_tokens (s_left s) [] (a_tokens b)) as [[n g]|e1|] eqn:E1; cbn [bind] in E; [|injection E as <-; eapply take_err; eauto|discriminate].
  destruct (sum_tokens (a_tokens b)) eqn:E2; cbn [bind] in E; [discriminate|injection E as <-; eapply tm_add_all_err; eauto|discriminate].
Qed.

Lemma take_spec : forall l need got need' got', tm_ok need -> amounts_ok l -> take_tokens need got l = Ok (need', got') ->
  tm_ok need' /\
  (forall id, tm_get need' id <> None -> tm_get need id <> None /\ amt need' id = amt need id - tok_total id l) /\
  (forall id, amt need id <= amt need' id + tok_total id l).
Proof.
  induction l as [|[k v] l IH]; intros need got need' got' Hn Hl E; cbn [take_tokens tok_total] in *.
  - injection E as <- <-. split; [exact Hn|]. split; [intros id H; split; [exact H|lia]|intros id; lia].
  - inversion Hl as [|? ? Hv Hl']; subst. cbn [snd] in Hv. destruct (tm_get need k) as [w|] eqn:W.
    + pose proof (ok_get _ _ _ Hn W) as Rw. inv_bind E. cbv zeta in E. inv_bind E.
      assert (X : tm_ok b /\ (forall id, tm_get b id <> None -> tm_get need id <> None /\ amt b id = amt need id - (if bytes_eqb k id then v else 0)) /\
                  (forall id, amt need id <= amt b id + (if bytes_eqb k id then v else 0))).
      { destruct (w <=? v) eqn:Q.
        - injection Eb as <-. split; [apply remove_ok, Hn|]. unfold amt. split; intros id; rewrite get_remove; destruct (eqb_cases k id) as [[<- Y]|[N Y]]; rewrite Y.
          + intros H. contradiction H. reflexivity.
          + intros H. split; [exact H|lia].
          + rewrite W. lia.
          + lia.
        - inv_bind Eb. injection Eb as <-. apply ta_sub_spec in Eb1; [|lia|lia]. destruct Eb1 as [-> Hs].
          split; [apply set_ok; [exact Hn|lia]|]. unfold amt. split; intros id; rewrite get_set; destruct (eqb_cases k id) as [[<- Y]|[N Y]]; rewrite Y.
          + intros _. rewrite W. split; [discriminate|lia].
          + intros H. split; [exact H|lia].
          + rewrite W. lia.
          + lia. }
      destruct X as (O & A & B). apply IH in E; [|exact O|exact Hl']. destruct E as (O' & A' & B'). split; [exact O'|]. split.
      * intros id H. destruct (A' id H) as [H1 H2]. destruct (A id H1) as [H3 H4]. split; [exact H3|lia].
      * intros id. specialize (B id). specialize (B' id). lia.
    + apply IH in E; [|exact Hn|exact Hl']. destruct E as (O' & A' & B'). split; [exact O'|]. split.
      * intros id H. destruct (A' id H) as [H1 H2]. split; [exact H1|].
        destruct (eqb_cases k id) as [[<- Y]|[N Y]]; rewrite Y; [contradiction|lia].
      * intros id. specialize (B' id). destruct (bytes_eqb k id); lia.
Qed.

Definition linv (target : Z) (need : tmap) (don : list abox) (s : sel) : Prop :=
  (exists skipped, Permutation (s_boxes s ++ skipped) don /\ (bvalue don < 2 ^ 64 -> s_value s < target -> skipped = [])) /\
  s_value s = bvalue (s_boxes s) mod 2 ^ 64 /\
  tm_ok (s_left s) /\
  (forall id, tm_get (s_left s) id <> None -> amt (s_left s) id = amt need id - tok_total id (btokens don)) /\
  (forall id, amt need id <= amt (s_left s) id + tok_total id (btokens (s_boxes s))).

Lemma no_token_total : forall id l, (forall t, In t l -> fst t <> id) -> tok_total id l = 0.
Proof.
  intros id l. induction l as [|[k v] l IH]; intros H; [reflexivity|]. cbn [tok_total]. rewrite IH by (intros t Ht; apply H; right; exact Ht).
  rewrite eqb_neq; [reflexivity|]. apply (H (k, v)). left. reflexivity.
Qed.

Lemma step_inv : forall target need don b s s', boxes_ok (don ++ [b]) -> linv target need don s ->
  select_step target s b = Ok s' -> linv target need (don ++ [b]) s'.
Proof.
  intros target need don b s s' Hok ((sk & P & Sk) & V & O & A & B) E. unfold select_step in E.
  assert (Hd : boxes_ok don) by (apply Forall_app in Hok; apply Hok).
  assert (Hb : 0 <= a_value b /\ amounts_ok (a_tokens b)).
  { apply Forall_app in Hok. destruct Hok as [_ H]. inversion H. assumption. }
  assert (Ep : bvalue (s_boxes s) + bvalue sk = bvalue don) by (rewrite <- bvalue_app; apply bvalue_perm; exact P).
  assert (Hs : boxes_ok (s_boxes s ++ sk)) by (apply (boxes_ok_perm don); [symmetry; exact P|exact Hd]).
  apply Forall_app in Hs. destruct Hs as [Hs1 Hs2].
  pose proof (bvalue_nonneg _ Hs1) as N1. pose proof (bvalue_nonneg _ Hs2) as N2.
  assert (Eb : bvalue [b] = a_value b) by (unfold bvalue; cbn; lia).
  assert (Et : btokens [b] = a_tokens b) by (unfold btokens; cbn; apply app_nil_r).
  destruct (wants_box target s b) eqn:W.
  - cbv zeta in E. apply bind_ok in E. destruct E as ([n g] & E1 & E). inv_bind E. injection E as <-.
    apply take_spec in E1; [|exact O|apply Hb]. destruct E1 as (O' & A' & B'). unfold linv. cbn [s_boxes s_value s_left].
    split; [|split; [|split; [exact O'|split]]].
    + exists sk. split.
      * rewrite <- app_assoc. rewrite (Permutation_app_comm [b] sk). rewrite app_assoc. apply Permutation_app_tail. exact P.
      * rewrite bvalue_app, Eb. intros Hlt Hv. apply Sk; [lia|].
        unfold wrapu in Hv. rewrite V in Hv |- *. rewrite Z.mod_small in Hv |- * by lia. rewrite (Z.mod_small (bvalue (s_boxes s))) in Hv by lia. lia.
    + rewrite V, bvalue_app, Eb. unfold wrapu. rewrite Z.add_mod_idemp_l by lia. reflexivity.
    + intros id H. destruct (A' id H) as [H1 H2]. rewrite H2, (A id H1), btokens_app, Et, tok_total_app. lia.
    + intros id. specialize (B id). specialize (B' id). rewrite btokens_app, Et, tok_total_app. lia.
  - injection E as <-. unfold wants_box in W. cbv zeta in W. apply orb_false_iff in W. destruct W as [W1 W3]. apply orb_false_iff in W1. destruct W1 as [W1 W2].
    unfold linv. split; [|split; [exact V|split; [exact O|split; [|exact B]]]].
    + exists (sk ++ [b]). split; [rewrite app_assoc; apply Permutation_app_tail; exact P|]. intros _ X. exfalso. lia.
    + intros id H. rewrite (A id H), btokens_app, Et, tok_total_app. rewrite (no_token_total id (a_tokens b)); [lia|].
      intros t Ht <-. apply andb_false_iff in W3. destruct W3 as [W3|W3].
      * destruct (s_left s); [apply H; reflexivity|discriminate].
      * assert (X : existsb (fun t => tm_has (s_left s) (fst t)) (a_tokens b) = true).
        { apply existsb_exists. exists t. split; [exact Ht|]. unfold tm_has. destruct (tm_get (s_left s) (fst t)); [reflexivity|contradiction]. }
        rewrite X in W3. discriminate.
Qed.
Lemma loop_inv : forall target need l don s s', boxes_ok (don ++ l) -> linv target need don s ->
  select_loop target s l = Ok s' -> linv target need (don ++ l) s'.
Proof.
  induction l as [|b l IH]; intros don s s' Hok Hi E; cbn [select_loop] in E.
  - injection E as <-. rewrite app_nil_r. exact Hi.
  - inv_bind E. replace (don ++ b :: l) with ((don ++ [b]) ++ l) in * by (rewrite <- app_assoc; reflexivity).
    apply (IH _ b0); [exact Hok| |exact E]. apply (step_inv _ _ _ _ s); [|exact Hi|exact Eb]. apply Forall_app in Hok. apply Hok.
Qed.

Lemma change_tokens_spec : forall l m m', tm_ok m -> amounts_ok l -> change_tokens m l = Ok m' ->
  tm_ok m' /\ forall id, amt m' id = amt m id - tok_total id l.
Proof.
  induction l as [|[k v] l IH]; intros m m' Hm Hl E; cbn [change_tokens tok_total] in *.
  - injection E as <-. split; [exact Hm|]. intros id. lia.
  - inversion Hl as [|? ? H1 H2]; subst. cbn [snd] in H1. inv_bind E. destruct (tm_get m k) as [a|] eqn:Ea; [|discriminate].
    pose proof (ok_get _ _ _ Hm Ea) as Ra.
    assert (X : tm_ok b /\ forall id, amt b id = amt m id - (if bytes_eqb k id then v else 0)).
    { destruct (a =? v) eqn:Q.
      - injection Eb as <-. split; [apply remove_ok, Hm|]. intros id. unfold amt. rewrite get_remove.
        destruct (eqb_cases k id) as [[<- X]|[N X]]; rewrite X; [rewrite Ea; lia|lia].
      - destruct (v <? a) eqn:Q'; [|discriminate]. inv_bind Eb. injection Eb as <-. apply ta_sub_spec in Eb0; [|lia|lia]. destruct Eb0 as [-> Hs].
        split; [apply set_ok; [exact Hm|lia]|]. intros id. unfold amt. rewrite get_set.
        destruct (eqb_cases k id) as [[<- X]|[N X]]; rewrite X; [rewrite Ea; lia|lia]. }
    destruct X as [O A]. apply IH in E; [|exact O|exact H2]. destruct E as [O' A']. split; [exact O'|]. intros id. rewrite A', A. lia.
Qed.
(** It succeeds when there is enough of everything. *)
Lemma change_tokens_ok : forall l m, tm_ok m -> amounts_ok l -> (forall id, tok_total id l <= amt m id) -> exists m', change_tokens m l = Ok m'.
Proof.
  induction l as [|[k v] l IH]; intros m Hm Hl E; cbn [change_tokens tok_total] in *; [eauto|].
  inversion Hl as [|? ? H1 H2]; subst. cbn [snd] in H1. pose proof (E k) as Ek. rewrite eqb_refl' in Ek. pose proof (tok_total_nonneg k l H2) as Np.
  destruct (tm_get m k) as [a|] eqn:Ea; [|unfold amt in Ek; rewrite Ea in Ek; lia].
  pose proof (ok_get _ _ _ Hm Ea) as Ra. assert (Ea' : amt m k = a) by (unfold amt; rewrite Ea; reflexivity).
  destruct (a =? v) eqn:Q; cbn [bind].
  - apply IH; [apply remove_ok, Hm|exact H2|]. intros id. specialize (E id). unfold amt in *. rewrite get_remove.
    destruct (eqb_cases k id) as [[<- X]|[N X]]; rewrite X in *; [rewrite Ea in *; lia|lia].
  - destruct (v <? a) eqn:Q'; [|lia].
    assert (S : ta_sub a v = Ok (a - v)) by (apply ta_sub_spec; lia). rewrite S. cbn [bind].
    apply IH; [apply set_ok; [exact Hm|lia]|exact H2|]. intros id. specialize (E id). unfold amt in *. rewrite get_set.
    destruct (eqb_cases k id) as [[<- X]|[N X]]; rewrite X in *; [rewrite Ea in *; lia|lia].
Qed.

(** Change boxes: exact value, exact tokens, admissible values, at most 122 tokens. *)
Definition change_ok (l : list assets) : Prop := Forall (fun b => 10800 <= fst b <= 2 ^ 63 - 1 /\ Zlen (snd b) <= 122) l.
Lemma split_change_spec : forall fuel value l r, (List.length l <= fuel)%nat -> l <> [] -> 10800 <= value <= 2 ^ 63 - 1 -> split_change fuel value l = Ok r ->
  change_ok r /\ sumZ (values r) = value /\ all_tokens r = l.
Proof.
  induction fuel as [|fuel IH]; intros value l r Hf Hl Hv E; [destruct l; [contradiction|cbn in Hf; lia]|].
  cbn [split_change] in E. destruct l as [|t l0]; [contradiction|]. cbn [is_nil] in E. set (l := t :: l0) in *.
  destruct (Zlen l <=? max_tokens) eqn:Q.
  - injection E as <-. unfold max_tokens in Q. split; [constructor; [cbn [fst snd]; lia|constructor]|].
    split; [cbn; lia|]. unfold all_tokens. cbn [flat_map snd]. apply app_nil_r.
  - change (bv_mul safe_user_min 2) with (@Ok Z 2000000) in E. cbn [bind] in E.
    destruct (bv_sub value 2000000) as [need| |] eqn:S; cbn [bind] in E; try discriminate. cbv zeta in E. inv_bind E. injection E as <-.
    unfold bv_sub, u64_checked, box_value_min in S. destruct ((0 <=? value - 2000000) && (value - 2000000 <? 2 ^ 64)) eqn:F; cbn [of_option bind] in S; [|discriminate].
    destruct (_ <=? _) eqn:F2 in S; [|discriminate]. injection S as <-.
    assert (L : (Z.to_nat max_tokens < List.length l)%nat) by (clear - Q; clearbody l; unfold Zlen, max_tokens in *; lia).
    assert (L1 : (List.length (skipn (Z.to_nat max_tokens) l) <= fuel)%nat).
    { rewrite skipn_length. clearbody l. unfold max_tokens in *. lia. }
    apply IH in Eb; [|exact L1| |lia].
    + destruct Eb as (C & S & T). split; [|split].
      * constructor; [|exact C]. cbn [fst snd]. split; [lia|]. pose proof (firstn_le_length (Z.to_nat max_tokens) l) as X. apply inj_le in X. exact X.
      * cbn [values map sumZ fold_right fst]. unfold values, sumZ in S. rewrite S. lia.
      * change (firstn (Z.to_nat max_tokens) l ++ all_tokens b = l). rewrite T. apply firstn_skipn.
    + intros X. apply (f_equal (@List.length token)) in X. rewrite skipn_length in X. cbn [List.length] in X. lia.
Qed.
Lemma make_change_spec : forall order value m r, (forall m, Permutation (order m) m) -> 10800 <= value <= 2 ^ 63 - 1 ->
  make_change_boxes order value m = Ok r -> change_ok r /\ sumZ (values r) = value /\ Permutation (all_tokens r) m.
Proof.
  intros order value m r Ho Hv E. unfold make_change_boxes in E. destruct m as [|t m0]; cbn [is_nil] in E.
  - injection E as <-. split; [constructor; [cbn; lia|constructor]|]. split; [cbn; lia|reflexivity].
  - set (m := t :: m0) in *. specialize (Ho m). destruct (Zlen m <=? max_tokens) eqn:Q.
    + injection E as <-. assert (L : Zlen (order m) = Zlen m) by (unfold Zlen; rewrite (Permutation_length Ho); reflexivity).
      unfold max_tokens in Q. split; [constructor; [cbn [fst snd]; lia|constructor]|]. split; [cbn; lia|].
      unfold all_tokens. cbn [flat_map snd]. rewrite app_nil_r. exact Ho.
    + apply split_change_spec in E; [|rewrite (Permutation_length Ho); lia| |exact Hv].
      * destruct E as (C & S & T). rewrite T. split; [exact C|]. split; [exact S|exact Ho].
      * intros X. rewrite X in Ho. apply Permutation_nil in Ho. discriminate.
Qed.
Lemma amounts_perm : forall a b, Permutation a b -> amounts_ok b -> amounts_ok a.
Proof. intros a b P H. unfold amounts_ok in *. rewrite Forall_forall in *. intros x Hx. apply H. apply (Permutation_in _ P Hx). Qed.
Lemma amounts_boxes : forall l, amounts_ok (all_tokens l) -> Forall (fun b => amounts_ok (snd b)) l.
Proof.
  induction l as [|b l IH]; intros H; [constructor|]. unfold all_tokens, amounts_ok in H. cbn [flat_map] in H. apply Forall_app in H.
  constructor; [apply H|apply IH; apply H].
Qed.
Lemma boxes_assets_ok : forall l, boxes_ok l -> Forall (fun b => amounts_ok (snd b)) (map assets_of l).
Proof. intros l H. apply amounts_boxes. rewrite all_tokens_of. apply btokens_ok, H. Qed.
