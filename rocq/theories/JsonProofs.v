(** Lemmas about the JSON encoding. *)
From Verif Require Import Base VlqModel VlqProofs GfModel GroupModel SigmaModel ProverModel TypeModel MethodModel IrModel SerModel ChainModel
  WalletModel TxModel SignModel HeaderModel MerkleModel JsonModel SerSpec SerLocal SerProofs SerProps ReadProofs ParseProofs TxProps ParseProps
  ChainProps WalletProps DeriveProps PowProps GroupProofs SbProofs SigmaProofs TypeProofs.
From Coq Require Import Permutation.
Import SigmaModel SigmaProofs JsonModel TypeProofs.
Local Open Scope string_scope.
Local Open Scope list_scope.
Local Open Scope Z_scope.

(** ** Base16 *)
Lemma unhex_hex_digit : forall n, 0 <= n < 16 -> unhex_digit (hex_digit n) = Some n.
Proof.
  intros n H. unfold hex_digit, unhex_digit. destruct (n <? 10) eqn:E.
  - replace ((48 <=? 48 + n) && (48 + n <=? 57)) with true by lia. f_equal. lia.
  - replace ((48 <=? 87 + n) && (87 + n <=? 57)) with false by lia.
    replace ((97 <=? 87 + n) && (87 + n <=? 102)) with true by lia. f_equal. lia.
Qed.
Lemma unhex_hex : forall b, bytes_ok b -> unhex (hex b) = Some b.
Proof.
  intros b H. induction H as [|x b Hx _ IH]; [reflexivity|]. unfold byte in Hx. unfold hex in *. cbn [flat_map app unhex].
  rewrite !unhex_hex_digit by lia. rewrite IH. f_equal. f_equal. lia.
Qed.
Lemma unhex_digit_range : forall c n, unhex_digit c = Some n -> 0 <= n < 16.
Proof.
  intros c n. unfold unhex_digit.
  destruct ((48 <=? c) && (c <=? 57)) eqn:E1; [intros E; injection E as <-; lia|].
  destruct ((97 <=? c) && (c <=? 102)) eqn:E2; [intros E; injection E as <-; lia|].
  destruct ((65 <=? c) && (c <=? 70)) eqn:E3; [intros E; injection E as <-; lia|discriminate].
Qed.
Lemma unhex_inv : forall n s b, (List.length s <= n)%nat -> unhex s = Some b -> bytes_ok b /\ Zlen s = 2 * Zlen b.
Proof.
  induction n as [|n IH]; intros s b L E.
  - destruct s; [|cbn in L; lia]. injection E as <-. split; [constructor|reflexivity].
  - destruct s as [|x [|y s]]; [injection E as <-; split; [constructor|reflexivity]|discriminate|].
    cbn [unhex] in E. destruct (unhex_digit x) as [a|] eqn:Ea; [|discriminate].
    destruct (unhex_digit y) as [c|] eqn:Ec; [|discriminate]. destruct (unhex s) as [r|] eqn:Er; [|discriminate].
    assert (b = 16 * a + c :: r) as -> by congruence. clear E. apply unhex_digit_range in Ea, Ec. cbn [List.length] in L.
    destruct (IH s r ltac:(lia) Er) as [H1 H2]. split; [constructor; [unfold byte; lia|exact H1]|]. rewrite !Zlen_cons. lia.
Qed.
Lemma unhex_ok : forall s b, unhex s = Some b -> bytes_ok b /\ Zlen s = 2 * Zlen b.
Proof. intros s b. apply (unhex_inv (List.length s)). apply le_n. Qed.

Lemma of_to_hex : forall b, bytes_ok b -> of_hex (to_hex b) = Ok b.
Proof. intros b H. unfold of_hex, to_hex. cbn [as_str bind]. rewrite unhex_hex by exact H. reflexivity. Qed.
Lemma digest_rt : forall n b, bytes_ok b -> Zlen b = n -> digest n (to_hex b) = Ok b.
Proof. intros n b H L. unfold digest. rewrite of_to_hex by exact H. cbn [bind]. replace (Zlen b =? n) with true by lia. reflexivity. Qed.
(** An identifier as the types hold it. *)
Definition idb (b : bytes) : Prop := bytes_ok b /\ Zlen b = 32.
Lemma digest_ok : forall n j b, digest n j = Ok b -> bytes_ok b /\ Zlen b = n.
Proof.
  intros n j b E. unfold digest, of_hex in E. inv_bind E. inv_bind Eb. destruct (unhex b1) as [x|] eqn:Ex; [|discriminate].
  cbn in Eb. injection Eb as ->. destruct (Zlen b0 =? n) eqn:El; [|discriminate]. injection E as <-.
  apply unhex_ok in Ex. split; [apply Ex|lia].
Qed.

(** ** Members *)
Lemma field_of : forall A names (p : json -> res A) m j, lookup names m = Ok (Some j) -> field names p m = p j.
Proof. intros A names p m j E. unfold field. rewrite E. reflexivity. Qed.
Lemma field_inv : forall A names (p : json -> res A) m a, field names p m = Ok a -> exists j, lookup names m = Ok (Some j) /\ p j = Ok a.
Proof.
  intros A names p m a E. unfold field in E. inv_bind E. destruct b as [j|]; [|discriminate]. cbn [of_option bind] in E. eauto.
Qed.
Lemma opt_field_of : forall A names (p : json -> res A) m j a, lookup names m = Ok (Some j) -> j <> JNull -> p j = Ok a ->
  opt_field names p m = Ok (Some a).
Proof. intros A names p m j a E N Ep. unfold opt_field. rewrite E. cbn [bind]. rewrite Ep. destruct j; try reflexivity. congruence. Qed.

Lemma look_hit : forall names k j m, key_in names k = true -> forallb (fun e => negb (key_in names (fst e))) m = true ->
  lookup names ((k, j) :: m) = Ok (Some j).
Proof.
  intros names k j m Hk Hm. unfold lookup. cbn [filter fst]. rewrite Hk.
  replace (filter (fun e => key_in names (fst e)) m) with (@nil (bytes * json)); [reflexivity|].
  induction m as [|e m IH]; [reflexivity|]. cbn [forallb filter] in *. apply andb_true_iff in Hm. destruct Hm as [He Hm].
  destruct (key_in names (fst e)); [discriminate|]. apply IH. exact Hm.
Qed.
Lemma look_skip : forall names k j m r, key_in names k = false -> lookup names m = r -> lookup names ((k, j) :: m) = r.
Proof. intros names k j m r Hk Hm. unfold lookup in *. cbn [filter fst]. rewrite Hk. exact Hm. Qed.
Ltac look := first [apply look_hit; [reflexivity|reflexivity] | apply look_skip; [reflexivity|look]].
Ltac fld := erewrite field_of; [|look].
Lemma filter_perm : forall A (f : A -> bool) l l', Permutation l l' -> Permutation (filter f l) (filter f l').
Proof.
  intros A f l l' H. induction H as [|x l l' _ IH|x y l|l l' l'' _ IH1 _ IH2]; cbn [filter].
  - constructor.
  - destruct (f x); [constructor; exact IH|exact IH].
  - destruct (f x), (f y); try apply Permutation_refl. apply perm_swap.
  - eapply Permutation_trans; eassumption.
Qed.
Lemma lookup_perm : forall names m m', Permutation m m' -> lookup names m = lookup names m'.
Proof.
  intros names m m' H. unfold lookup. apply (filter_perm _ (fun e => key_in names (fst e))) in H.
  remember (filter (fun e => key_in names (fst e)) m) as a. remember (filter (fun e => key_in names (fst e)) m') as b. clear Heqa Heqb.
  destruct a as [|x [|y a]].
  - apply Permutation_nil in H. subst. reflexivity.
  - apply Permutation_length_1_inv in H. subst. reflexivity.
  - apply Permutation_length in H. destruct b as [|x' [|y' b]]; cbn [List.length] in H; try lia. reflexivity.
Qed.
Lemma field_perm : forall A names (p : json -> res A) m m', Permutation m m' -> field names p m = field names p m'.
Proof. intros. unfold field. rewrite (lookup_perm names m m') by assumption. reflexivity. Qed.
Lemma opt_field_perm : forall A names (p : json -> res A) m m', Permutation m m' -> opt_field names p m = opt_field names p m'.
Proof. intros. unfold opt_field. rewrite (lookup_perm names m m') by assumption. reflexivity. Qed.

(** ** Lists *)
Lemma traverse_map : forall A B (f : B -> res A) (g : A -> B) l, Forall (fun a => f (g a) = Ok a) l -> traverse f (map g l) = Ok l.
Proof. intros A B f g l H. induction H as [|a l Ha _ IH]; [reflexivity|]. cbn [map traverse]. rewrite Ha. cbn [bind]. rewrite IH. reflexivity. Qed.
Lemma traverse_rt : forall A B (f : B -> res A) (g : A -> res B) l, Forall (fun a => exists b, g a = Ok b /\ f b = Ok a) l ->
  exists bs, traverse g l = Ok bs /\ traverse f bs = Ok l.
Proof.
  intros A B f g l H. induction H as [|a l (b & Eg & Ef) _ (bs & IH1 & IH2)]; [exists []; split; reflexivity|].
  exists (b :: bs). cbn [traverse]. rewrite Eg, IH1, Ef, IH2. split; reflexivity.
Qed.
Lemma traverse_inv : forall A B (f : A -> res B) l bs, traverse f l = Ok bs -> Forall2 (fun a b => f a = Ok b) l bs.
Proof.
  intros A B f. induction l as [|a l IH]; intros bs E; cbn [traverse] in E; [injection E as <-; constructor|].
  inv_bind E. inv_bind E. injection E as <-. constructor; [exact Eb|apply IH; exact Eb0].
Qed.
Lemma traverse_ok : forall A B (f : A -> res B) l bs, Forall2 (fun a b => f a = Ok b) l bs -> traverse f l = Ok bs.
Proof. intros A B f l bs H. induction H as [|a b l bs Ha _ IH]; [reflexivity|]. cbn [traverse]. rewrite Ha, IH. reflexivity. Qed.
Lemma list_of_inv : forall A (p : json -> res A) j l, list_of p j = Ok l -> exists js, j = JArr js /\ Forall2 (fun a b => p a = Ok b) js l.
Proof. intros A p j l E. destruct j; try discriminate E. cbn [list_of] in E. exists l0. split; [reflexivity|apply traverse_inv; exact E]. Qed.
Lemma forall2_perm : forall A B (R : A -> B -> Prop) l l' r, Permutation l l' -> Forall2 R l r -> exists r', Permutation r r' /\ Forall2 R l' r'.
Proof.
  intros A B R l l' r H. revert r. induction H as [|x l l' _ IH|x y l|l l' l'' _ IH1 _ IH2]; intros r F.
  - inversion F; subst. exists []. split; constructor.
  - inversion F; subst. destruct (IH _ H3) as (r' & P & F'). exists (y :: r'). split; constructor; auto.
  - inversion F as [|y' b1 l1 r1 R1 F1]; subst. inversion F1 as [|x' b2 l2 r2 R2 F2]; subst. exists (b2 :: b1 :: r2). split; [apply perm_swap|]. repeat constructor; auto.
  - destruct (IH1 _ F) as (r1 & P1 & F1). destruct (IH2 _ F1) as (r2 & P2 & F2). exists r2. split; [eapply Permutation_trans; eassumption|exact F2].
Qed.

(** ** Numbers *)
Lemma amount_num : forall v, u64 v -> amount (JNum v) = Ok v.
Proof. intros v H. cbn [amount]. replace ((0 <=? v) && (v <? 2 ^ 64)) with true by (unfold u64 in H; lia). reflexivity. Qed.
Lemma uint_num : forall b v, 0 <= v < b -> uint b (JNum v) = Ok v.
Proof. intros b v H. cbn [uint]. replace ((0 <=? v) && (v <? b)) with true by lia. reflexivity. Qed.
Lemma uint_inv : forall b j v, uint b j = Ok v -> j = JNum v /\ 0 <= v < b.
Proof. intros b j v E. destruct j; try discriminate E. cbn [uint] in E. destruct ((0 <=? z) && (z <? b)) eqn:El; [|discriminate]. injection E as <-. split; [reflexivity|lia]. Qed.
Lemma digits_value_acc : forall s a v, 0 <= a -> digits_value a s = Some v -> 0 <= v.
Proof.
  induction s as [|c s IH]; intros a v Ha E; cbn [digits_value] in E; [injection E as <-; exact Ha|].
  destruct ((48 <=? c) && (c <=? 57)) eqn:El; [|discriminate]. eapply IH; [|exact E]. lia.
Qed.
Lemma amount_range : forall j v, amount j = Ok v -> u64 v.
Proof.
  intros j v E. unfold u64. destruct j; try discriminate E; cbn [amount] in E.
  - destruct ((0 <=? z) && (z <? 2 ^ 64)) eqn:El; [|discriminate]. injection E as <-. lia.
  - assert (K : forall c s', (if (49 <=? c) && (c <=? 57) then
                    match digits_value 0 (c :: s') with
                    | Some v => if v <? 2 ^ 64 then Ok v else Err "can't convert"
                    | None => Err "can't convert"
                    end else Err "can't convert") = Ok v -> 0 <= v < 2 ^ 64).
    { intros c s' X. destruct ((49 <=? c) && (c <=? 57)); [|discriminate]. destruct (digits_value 0 (c :: s')) as [w|] eqn:Ew; [|discriminate].
      destruct (w <? 2 ^ 64) eqn:El; [|discriminate]. injection X as <-. apply digits_value_acc in Ew; lia. }
    destruct s as [|c s']; [discriminate|].
    destruct (Z.eq_dec c 48) as [->|Hc].
    + destruct s'; [injection E as <-; lia|discriminate].
    + apply (K c s'). revert E. destruct s' as [|d s'']; [|]; revert Hc; case c; try discriminate; intros p; repeat (destruct p; try discriminate; try (intros _ E; exact E)); intros ? E; exact E || (exfalso; congruence).
Qed.

Lemma dec_parse : forall fuel b n, 0 <= n < b -> b <= 10 ^ Z.of_nat fuel -> (0 < fuel)%nat -> unsigned_of_text b (dec_text fuel n) = Some n.
Proof.
  intros fuel b n H Hb Hf. destruct (dec_text_spec fuel n ltac:(lia) Hf) as (V & F & N).
  rewrite digits_parse by (auto; lia). rewrite V. reflexivity.
Qed.
Lemma dec_inj : forall fuel n m, (0 < fuel)%nat -> 0 <= n < 10 ^ Z.of_nat fuel -> 0 <= m < 10 ^ Z.of_nat fuel -> dec_text fuel n = dec_text fuel m -> n = m.
Proof.
  intros fuel n m Hf Hn Hm E. destruct (dec_text_spec fuel n Hn Hf) as (V & _), (dec_text_spec fuel m Hm Hf) as (W & _). congruence.
Qed.

(** ** Values that survive their binary encoding *)
Section Stable.
Context {G : group}.
Definition tree_stable (t : tree G) : Prop := exists bs, ser_tree t = Ok bs /\ bytes_ok bs /\ tree_of_bytes bs = Ok t.
Definition reg_stable (r : regval G) : Prop := exists bs, reg_to_bytes r = Ok bs /\ bytes_ok bs /\ reg_of_bytes bs = Ok r.
Definition const_stable (c : const G) : Prop := exists bs, ser_const c = Ok bs /\ bytes_ok bs /\ SerModel.from_bytes parse_const bs = Ok c.
Definition token_json_ok (t : bytes * Z) : Prop := idb (fst t) /\ u64 (snd t).
Definition cand_json_ok (c : cand G) : Prop :=
  u64 (cd_value c) /\ tree_stable (cd_tree c) /\ Forall token_json_ok (cd_tokens c) /\ Zlen (cd_tokens c) <= max_tokens /\
  Forall reg_stable (cd_regs c) /\ Zlen (cd_regs c) <= 6 /\ u32 (cd_height c).
Definition ext_json_ok (m : ext G) : Prop := NoDup (map fst m) /\ Forall (fun e => u8 (fst e) /\ const_stable (snd e)) m.
Definition proof_json_ok (p : proof) : Prop := match p with PEmpty => True | PSome b => bytes_ok b /\ b <> [] end.
Definition input_json_ok (i : input G) : Prop := idb (in_box i) /\ proof_json_ok (in_proof i) /\ ext_json_ok (in_ext i).
Definition uinput_json_ok (i : uinput G) : Prop := idb (ui_box i) /\ ext_json_ok (ui_ext i).
Definition data_json_ok (d : option (list bytes)) : Prop :=
  match d with None => True | Some l => 1 <= Zlen l <= 65535 /\ Forall idb l end.
End Stable.

Section Rt.
Context {G : group}.
Variable ord : members -> members.
Hypothesis Hord : forall l, Permutation l (ord l).

Lemma token_rt : forall t, token_json_ok t -> token_of_json (json_of_token t) = Ok t.
Proof.
  intros [id a] [[H1 H2] H3]. cbn [fst snd] in *. unfold token_of_json, json_of_token. cbn [as_fields bind fst snd].
  fld. rewrite digest_rt by assumption. cbn [bind].
  fld. rewrite amount_num by assumption. reflexivity.
Qed.
Lemma tree_rt : forall t : tree G, tree_stable t -> exists j, json_of_tree t = Ok j /\ tree_of_json j = Ok t.
Proof.
  intros t (bs & E & B & R). exists (to_hex bs). unfold json_of_tree, tree_of_json. rewrite E, of_to_hex by exact B. split; [reflexivity|exact R].
Qed.

Lemma map_put_new : forall (m : @reg_map G) k v, ~ In k (map fst m) -> map_put k v m = m ++ [(k, v)].
Proof.
  induction m as [|[k' v'] m IH]; intros k v H; [reflexivity|]. cbn [map_put map fst In app] in *.
  destruct (Z.eqb_spec k' k); [tauto|]. rewrite IH by tauto. reflexivity.
Qed.
Lemma reg_entries_ok : forall l r acc, Forall2 (fun (e : bytes * json) (p : Z * regval G) => reg_id_of_text (fst e) = Ok (fst p) /\ holder_of_json (snd e) = Ok (snd p)) l r ->
  NoDup (map fst (acc ++ r)) -> reg_entries acc l = Ok (acc ++ r).
Proof.
  intros l r acc F. revert acc. induction F as [|[k j] [id v] l r [E1 E2] F IH]; intros acc ND; cbn [reg_entries].
  - rewrite app_nil_r. reflexivity.
  - cbn [fst snd] in *. rewrite E1, E2. cbn [bind]. rewrite map_put_new.
    + rewrite IH; rewrite <- app_assoc; [reflexivity|exact ND].
    + rewrite map_app in ND. cbn [map fst] in ND. apply NoDup_remove_2 in ND. intros X. apply ND. apply in_or_app. left. exact X.
Qed.
Lemma holder_rt : forall b (v : regval G), bytes_ok b -> reg_of_bytes b = Ok v -> holder_of_json (to_hex b) = Ok v.
Proof. intros b v B E. unfold holder_of_json. cbn [to_hex]. fold (to_hex b). rewrite of_to_hex by exact B. exact E. Qed.
Lemma regs_rt : forall l : list (regval G), Forall reg_stable l -> Zlen l <= 6 -> exists j, json_of_regs ord l = Ok j /\ regs_of_json j = Ok l.
Proof.
  intros l F L. destruct (c34_map_of_regs G l L) as (E & [ND HI] & _).
  assert (T : exists m, traverse json_of_reg (map_of_regs l) = Ok m /\
    Forall2 (fun (e : bytes * json) (p : Z * regval G) => reg_id_of_text (fst e) = Ok (fst p) /\ holder_of_json (snd e) = Ok (snd p)) m (map_of_regs l)).
  { assert (FR : Forall (fun p : Z * regval G => 4 <= fst p <= 9 /\ reg_stable (snd p)) (map_of_regs l)).
    { apply Forall_forall. intros [k v] HIn. cbn [fst snd]. split.
      - rewrite Forall_forall in HI. apply HI. apply (in_map fst) in HIn. exact HIn.
      - unfold map_of_regs in HIn. apply in_combine_r in HIn. rewrite Forall_forall in F. auto. }
    clear E ND HI F L. induction FR as [|[k v] r [Hk (b & Eb & Bb & Rb)] _ (m & Em & Fm)]; [exists []; split; [reflexivity|constructor]|].
    cbn [fst snd] in *. exists ((reg_id_text k, to_hex b) :: m). split.
    - cbn [traverse]. unfold json_of_reg at 1. cbn [fst snd]. rewrite Eb. cbn [bind]. rewrite Em. reflexivity.
    - constructor; [|exact Fm]. cbn [fst snd]. split; [apply c70_reg_name_roundtrip; exact Hk|apply holder_rt; assumption]. }
  destruct T as (m & Em & Fm). exists (JObj (ord m)). unfold json_of_regs. rewrite Em. split; [reflexivity|].
  unfold regs_of_json. cbn [as_object bind]. destruct (forall2_perm _ _ _ _ _ _ (Hord m) Fm) as (r & Pr & Fr).
  rewrite (reg_entries_ok _ _ [] Fr); cbn [app bind].
  - rewrite <- (c34_order_irrelevant G _ _ ND Pr). exact E.
  - eapply Permutation_NoDup; [apply Permutation_map; exact Pr|exact ND].
Qed.

Lemma cand_members_rt : forall c : cand G, cand_json_ok c -> exists t r, json_of_tree (cd_tree c) = Ok t /\ json_of_regs ord (cd_regs c) = Ok r /\
  cand_members ord c = Ok [(txt "value", JNum (cd_value c)); (txt "ergoTree", t);
      (txt "assets", JArr (map json_of_token (cd_tokens c)));
      (txt "additionalRegisters", r); (txt "creationHeight", JNum (cd_height c))] /\
  forall m, lookup ["value"] m = Ok (Some (JNum (cd_value c))) -> lookup ["ergoTree"] m = Ok (Some t) ->
    lookup ["assets"] m = Ok (Some (JArr (map json_of_token (cd_tokens c)))) -> lookup ["additionalRegisters"] m = Ok (Some r) ->
    lookup ["creationHeight"] m = Ok (Some (JNum (cd_height c))) -> cand_of_members m = Ok c.
Proof.
  intros [v t k r h] (H1 & H2 & H3 & H4 & H5 & H6 & H7). cbn [cd_value cd_tree cd_tokens cd_regs cd_height] in *.
  destruct (tree_rt t H2) as (jt & Et & Rt). destruct (regs_rt r H5 H6) as (jr & Er & Rr).
  exists jt, jr. split; [exact Et|]. split; [exact Er|]. split; [unfold cand_members; cbn [cd_value cd_tree cd_tokens cd_regs cd_height]; rewrite Et, Er; reflexivity|].
  intros m L1 L2 L3 L4 L5. unfold cand_of_members.
  rewrite (field_of _ _ _ _ _ L1), amount_num by exact H1. cbn [bind].
  rewrite (field_of _ _ _ _ _ L2), Rt. cbn [bind]. rewrite (field_of _ _ _ _ _ L3). cbn [list_of].
  rewrite traverse_map by (eapply Forall_impl; [|exact H3]; apply token_rt). cbn [bind].
  rewrite (field_of _ _ _ _ _ L4), Rr. cbn [bind]. rewrite (field_of _ _ _ _ _ L5), uint_num by exact H7. cbn [bind].
  unfold tokens_bounded. replace (max_tokens <? Zlen k) with false by lia. reflexivity.
Qed.
Lemma cand_rt : forall c : cand G, cand_json_ok c -> exists j, json_of_cand ord c = Ok j /\ cand_of_json j = Ok c.
Proof.
  intros c H. destruct (cand_members_rt c H) as (t & r & _ & _ & E & R). unfold json_of_cand. rewrite E. eexists. split; [reflexivity|].
  unfold cand_of_json. cbn [as_fields bind]. apply R; look.
Qed.
Lemma box_rt : forall H id (b : box G), hash32 H -> cand_json_ok (b_cand b) -> idb (b_txid b) -> u16 (b_index b) -> box_id H b = Ok id ->
  exists j, json_of_box ord (id, b) = Ok j /\ box_of_json H j = Ok (id, b).
Proof.
  intros H id b HH Hc Hx Hi Eid.
  assert (Hid : idb id).
  { unfold box_id in Eid. inv_bind Eid. injection Eid as <-. destruct (HH b0) as [L B]. split; [exact B|unfold Zlen; rewrite L; reflexivity]. }
  destruct b as [c x i]. cbn [b_cand b_txid b_index] in *.
  destruct (cand_members_rt c Hc) as (t & r & _ & _ & E & R). unfold json_of_box. cbn [fst snd b_cand b_txid b_index]. rewrite E. cbn [bind app].
  eexists. split; [reflexivity|]. unfold box_of_json. cbn [as_fields bind].
  erewrite opt_field_of; [|look|discriminate|apply digest_rt; apply Hid]. cbn [bind]. rewrite R by look. cbn [bind].
  fld. rewrite digest_rt by apply Hx. cbn [bind].
  fld. rewrite uint_num by exact Hi. cbn [bind]. cbv zeta. rewrite Eid. cbn [bind].
  replace (bytes_eqb id id) with true by (symmetry; apply bytes_eqb_spec; reflexivity). reflexivity.
Qed.

Lemma smap_put_new : forall m k v, ~ In k (map fst m) -> smap_put k v m = m ++ [(k, v)].
Proof.
  induction m as [|[k' v'] m IH]; intros k v H; [reflexivity|]. cbn [smap_put map fst In app] in *.
  destruct (bytes_eqb k' k) eqn:E; [apply bytes_eqb_spec in E; tauto|]. rewrite IH by tauto. reflexivity.
Qed.
Lemma smap_of_ok : forall l acc, NoDup (map fst (acc ++ l)) ->
  smap_of acc (map (fun e => (fst e, JStr (snd e))) l) = Ok (acc ++ l).
Proof.
  induction l as [|[k s] l IH]; intros acc ND; cbn [map smap_of fst snd]; [rewrite app_nil_r; reflexivity|].
  cbn [as_str bind]. rewrite smap_put_new.
  - rewrite IH; rewrite <- app_assoc; [reflexivity|exact ND].
  - rewrite map_app in ND. cbn [map fst] in ND. apply NoDup_remove_2 in ND. intros X. apply ND. apply in_or_app. left. exact X.
Qed.
Lemma ext_rt : forall m : ext G, ext_json_ok m -> exists j, json_of_ext m = Ok j /\ ext_of_json j = Ok m.
Proof.
  intros m [ND F].
  assert (T : exists l, traverse json_of_entry m = Ok (map (fun e => (fst e, JStr (snd e))) l) /\
    map fst l = map (fun e => dec_text 3 (fst e)) m /\
    forall acc, NoDup (map fst (acc ++ m)) -> ext_of_smap acc l = Ok (acc ++ m)).
  { clear ND. induction F as [|[i c] m [Hi (b & Eb & Bb & Rb)] _ (l & El & Kl & Rl)].
    - exists []. split; [reflexivity|]. split; [reflexivity|]. intros acc _. rewrite app_nil_r. reflexivity.
    - cbn [fst snd] in *. exists ((dec_text 3 i, hex b) :: l). split; [|split].
      + cbn [traverse map fst snd]. unfold json_of_entry at 1. cbn [fst snd]. rewrite Eb. cbn [bind]. rewrite El. reflexivity.
      + cbn [map fst]. rewrite Kl. reflexivity.
      + intros acc ND. cbn [ext_of_smap].
        rewrite dec_parse by (unfold u8 in Hi; change (10 ^ Z.of_nat 3) with 1000; lia). cbn [of_option bind].
        rewrite unhex_hex by exact Bb. cbn [of_option bind]. rewrite Rb. cbn [bind]. rewrite ext_insert_new.
        * rewrite Rl; rewrite <- app_assoc; [reflexivity|exact ND].
        * rewrite map_app in ND. cbn [map fst] in ND. apply NoDup_remove_2 in ND. intros X. apply ND. apply in_or_app. left. exact X. }
  destruct T as (l & El & Kl & Rl). unfold json_of_ext. rewrite El. cbn [bind]. eexists. split; [reflexivity|].
  unfold ext_of_json. cbn [as_object bind]. rewrite smap_of_ok; cbn [app bind]; [apply Rl; exact ND|].
  rewrite Kl. rewrite <- (map_map fst (dec_text 3)).
  assert (K : Forall u8 (map fst m)). { apply Forall_map. eapply Forall_impl; [|exact F]. intros e [He _]. exact He. }
  clear -ND K. induction ND as [|x l HN ND IH]; [constructor|]. inversion K; subst. cbn [map]. constructor; [|apply IH; assumption].
  intros X. apply in_map_iff in X. destruct X as (y & Ey & Hy). apply HN.
  rewrite Forall_forall in H2. specialize (H2 y Hy). unfold u8 in *.
  apply dec_inj in Ey; [subst; exact Hy|lia|change (10 ^ Z.of_nat 3) with 1000; lia|change (10 ^ Z.of_nat 3) with 1000; lia].
Qed.
Lemma proof_rt : forall p (e : ext G), proof_json_ok p -> ext_json_ok e -> exists j, json_of_proof p e = Ok j /\ proof_of_json j = Ok (p, e).
Proof.
  intros p e Hp He. destruct (ext_rt e He) as (je & Ee & Re). unfold json_of_proof. rewrite Ee. cbn [bind]. eexists. split; [reflexivity|].
  unfold proof_of_json. fld.
  assert (B : bytes_ok (proof_bytes p)) by (destruct p; [constructor|apply Hp]). rewrite of_to_hex by exact B. cbn [bind].
  fld. rewrite Re. cbn [bind]. destruct p as [|b]; [reflexivity|]. cbn [proof_bytes].
  destruct Hp as [_ Hn]. destruct b; [congruence|reflexivity].
Qed.
Lemma input_rt : forall i : input G, input_json_ok i -> exists j, json_of_input i = Ok j /\ input_of_json j = Ok i.
Proof.
  intros [b p e] (Hb & Hp & He). cbn [in_box in_proof in_ext] in *. destruct (proof_rt p e Hp He) as (j & E & R).
  unfold json_of_input. cbn [in_box in_proof in_ext]. rewrite E. cbn [bind]. eexists. split; [reflexivity|].
  unfold input_of_json. cbn [as_fields bind]. fld. rewrite digest_rt by apply Hb. cbn [bind].
  fld. rewrite R. reflexivity.
Qed.
Lemma uinput_rt : forall i : uinput G, uinput_json_ok i -> exists j, json_of_uinput i = Ok j /\ uinput_of_json j = Ok i.
Proof.
  intros [b e] (Hb & He). cbn [ui_box ui_ext] in *. destruct (ext_rt e He) as (j & E & R).
  unfold json_of_uinput. cbn [ui_box ui_ext]. rewrite E. cbn [bind]. eexists. split; [reflexivity|].
  unfold uinput_of_json. cbn [as_fields bind]. fld. rewrite digest_rt by apply Hb. cbn [bind].
  fld. rewrite R. reflexivity.
Qed.
Lemma data_rt : forall b, idb b -> data_of_json (json_of_data b) = Ok b.
Proof.
  intros b H. unfold data_of_json, json_of_data. cbn [as_fields bind]. fld. apply digest_rt; apply H.
Qed.
Lemma opt_vec_rt : forall d, data_json_ok d -> opt_vec (data_or_empty d) = Ok d /\ Forall idb (data_or_empty d).
Proof.
  intros [l|] H; [|split; [reflexivity|constructor]]. destruct H as [L F]. split; [|exact F]. cbn [data_or_empty]. unfold opt_vec, txio_ok.
  replace ((1 <=? Zlen l) && (Zlen l <=? 65535)) with true by lia. destruct l; [rewrite Zlen_nil in L; lia|reflexivity].
Qed.

Lemma utx_rt : forall H (u : utx G), count_ok (u_inputs u) -> Forall uinput_json_ok (u_inputs u) -> data_json_ok (u_data u) ->
  count_ok (u_cands u) -> Forall cand_json_ok (u_cands u) -> utx_new H (u_inputs u) (u_data u) (u_cands u) = Ok u ->
  exists j, json_of_utx ord u = Ok j /\ utx_of_json H j = Ok u.
Proof.
  intros H u Ci Fi Hd Cc Fc E.
  destruct (traverse_rt _ _ uinput_of_json json_of_uinput (u_inputs u)) as (ji & Ei & Ri); [eapply Forall_impl; [|exact Fi]; apply uinput_rt|].
  destruct (traverse_rt _ _ cand_of_json (json_of_cand ord) (u_cands u)) as (jc & Ec & Rc); [eapply Forall_impl; [|exact Fc]; apply cand_rt|].
  destruct (opt_vec_rt _ Hd) as [Ev Fv]. unfold json_of_utx. rewrite Ei, Ec. cbn [bind]. eexists. split; [reflexivity|].
  unfold utx_of_json. cbn [as_fields bind]. fld. cbn [list_of]. rewrite Ri. cbn [bind].
  fld. cbn [list_of]. rewrite traverse_map by (eapply Forall_impl; [|exact Fv]; apply data_rt). cbn [bind].
  fld. cbn [list_of]. rewrite Rc. cbn [bind]. unfold utx_of_vecs, txio_ok.
  unfold count_ok in *. replace ((1 <=? Zlen (u_inputs u)) && (Zlen (u_inputs u) <=? 65535)) with true by lia. cbn [negb]. rewrite Ev. cbn [bind].
  replace ((1 <=? Zlen (u_cands u)) && (Zlen (u_cands u) <=? 65535)) with true by lia. cbn [negb]. exact E.
Qed.

Lemma outputs_rt : forall H txid (cs : list (cand G)) i l, hash32 H -> idb txid -> Forall cand_json_ok cs -> mk_outputs H txid i cs = Ok l ->
  map (fun b => b_cand (snd b)) l = cs /\ exists js, traverse (json_of_box ord) l = Ok js /\ traverse (box_of_json H) js = Ok l.
Proof.
  intros H txid cs. induction cs as [|c cs IH]; intros i l HH Hx F E; cbn [mk_outputs] in E.
  - injection E as <-. split; [reflexivity|]. exists []. split; reflexivity.
  - cbv zeta in E. inv_bind E. inv_bind E. injection E as <-. inversion F as [|c' cs' Hc Fc]; subst. destruct (IH _ _ HH Hx Fc Eb0) as (M & js & E1 & E2).
    split; [cbn [map snd b_cand]; rewrite M; reflexivity|].
    destruct (box_rt H b (MkBox c txid (wrapu 16 i))) as (j & Ej & Rj); auto.
    { cbn [b_index]. unfold u16, wrapu. apply Z.mod_pos_bound. reflexivity. }
    exists (j :: js). cbn [traverse]. rewrite Ej, E1. cbn [bind]. split; [reflexivity|]. rewrite Rj, E2. reflexivity.
Qed.
Lemma tx_rt : forall H (t : tx G), hash32 H -> count_ok (t_inputs t) -> Forall input_json_ok (t_inputs t) -> data_json_ok (t_data t) ->
  count_ok (t_cands t) -> Forall cand_json_ok (t_cands t) -> tx_new H (t_inputs t) (t_data t) (t_cands t) = Ok t ->
  exists j, json_of_tx ord t = Ok j /\ tx_of_json H j = Ok t.
Proof.
  intros H t HH Ci Fi Hd Cc Fc E. pose proof (tx_new_inv _ _ _ _ _ E) as (m & outs & _ & _ & Eo & Et).
  assert (Hid : idb (t_id t)).
  { rewrite Et. cbn [t_id]. destruct (HH m) as [L B]. split; [exact B|unfold Zlen; rewrite L; reflexivity]. }
  assert (Eo' : mk_outputs H (t_id t) 0 (t_cands t) = Ok (t_outputs t)). { rewrite Et at 1 3. cbn [t_id t_outputs]. exact Eo. }
  destruct (traverse_rt _ _ input_of_json json_of_input (t_inputs t)) as (ji & Ei & Ri); [eapply Forall_impl; [|exact Fi]; apply input_rt|].
  destruct (outputs_rt _ _ _ _ _ HH Hid Fc Eo') as (M & jo & E1 & E2).
  destruct (opt_vec_rt _ Hd) as [Ev Fv]. unfold json_of_tx. rewrite Ei, E1. cbn [bind]. eexists. split; [reflexivity|].
  unfold tx_of_json. cbn [as_fields bind]. fld. rewrite digest_rt by apply Hid. cbn [bind].
  fld. cbn [list_of]. rewrite Ri. cbn [bind].
  fld. cbn [list_of]. rewrite traverse_map by (eapply Forall_impl; [|exact Fv]; apply data_rt). cbn [bind].
  fld. cbn [list_of]. rewrite E2. cbn [bind]. rewrite M. unfold tx_of_vecs, txio_ok.
  unfold count_ok in *. replace ((1 <=? Zlen (t_inputs t)) && (Zlen (t_inputs t) <=? 65535)) with true by lia. cbn [negb]. rewrite Ev. cbn [bind].
  replace ((1 <=? Zlen (t_cands t)) && (Zlen (t_cands t) <=? 65535)) with true by lia. cbn [negb]. rewrite E. cbn [bind].
  replace (bytes_eqb (t_id t) (t_id t)) with true by (symmetry; apply bytes_eqb_spec; reflexivity). reflexivity.
Qed.
End Rt.

(** ** Documents *)

(** The second byte of a two-byte member name does not continue a character: the
    reader of register names panics otherwise. *)
Definition key_plain (k : bytes) : Prop := forall a b, k = [a; b] -> ~ (128 <= b < 192).
(** A document whose texts are shorter than four gigabytes; with [b], also one in which
    the member names are plain. *)
Fixpoint tidy (b : bool) (j : json) : Prop :=
  match j with
  | JStr s => Zlen s < 2 ^ 32
  | JArr l => fold_right (fun x P => tidy b x /\ P) True l
  | JObj m => fold_right (fun e P => ((b = true -> key_plain (fst e)) /\ tidy b (snd e)) /\ P) True m
  | _ => True
  end.
Definition tidym (b : bool) (m : members) : Prop := Forall (fun e => (b = true -> key_plain (fst e)) /\ tidy b (snd e)) m.
Lemma fold_Forall : forall A (P : A -> Prop) l, fold_right (fun x Q => P x /\ Q) True l <-> Forall P l.
Proof.
  intros A P l. induction l as [|x l IH]; cbn [fold_right]; [split; constructor|]. rewrite IH. split; [intros [H1 H2]; constructor; assumption|].
  intros H. inversion H; subst. split; assumption.
Qed.
Lemma tidy_arr : forall b l, tidy b (JArr l) -> Forall (tidy b) l.
Proof. intros b l H. apply (fold_Forall _ (tidy b)). exact H. Qed.
Lemma tidy_obj : forall b m, tidy b (JObj m) -> tidym b m.
Proof. intros b m H. apply (fold_Forall _ (fun e => (b = true -> key_plain (fst e)) /\ tidy b (snd e))). exact H. Qed.

Definition good {A} (b : bool) (P : A -> Prop) (r : res A) : Prop := match r with Ok a => P a | Err _ => True | Panic => b = false end.
Lemma good_bind : forall A B b (P : A -> Prop) (Q : B -> Prop) r f, good b P r -> (forall a, r = Ok a -> P a -> good b Q (f a)) -> good b Q (bind r f).
Proof. intros A B b P Q [a|e|] f Hr Hf; cbn [bind good] in *; auto. Qed.
Lemma good_imp : forall A b (P Q : A -> Prop) r, good b P r -> (forall a, P a -> Q a) -> good b Q r.
Proof. intros A b P Q [a|e|] H I; cbn [good] in *; auto. Qed.
Lemma good_of_option : forall A b (P : A -> Prop) e o, (forall a, o = Some a -> P a) -> good b P (of_option e o).
Proof. intros A b P e [a|] H; cbn; auto. Qed.
Lemma good_true : forall A b (P : A -> Prop) r, r <> Panic -> (forall a, r = Ok a -> P a) -> good b P r.
Proof. intros A b P [a|e|] H I; cbn [good]; auto. congruence. Qed.

Definition plain_name (k : bytes) : bool := match k with [_; b] => negb (is_continuation b) | _ => true end.
Lemma plain_name_ok : forall k, plain_name k = true -> key_plain k.
Proof. intros k H a b ->. cbn [plain_name] in H. unfold is_continuation in H. lia. Qed.
Lemma combine_tidy : forall b ks l, forallb plain_name ks = true -> Forall (tidy b) l -> tidym b (combine ks l).
Proof.
  intros b ks. induction ks as [|k ks IH]; intros l Hk Hl; [constructor|]. cbn [combine forallb] in *. apply andb_true_iff in Hk. destruct Hk as [Hk Hks].
  destruct Hl as [|x l Hx Hl]; constructor; [|apply IH; assumption]. cbn [fst snd]. split; [intros _; apply plain_name_ok; exact Hk|exact Hx].
Qed.
Lemma good_fields : forall b fields j, forallb plain_name (map first_name fields) = true -> tidy b j -> good b (tidym b) (as_fields fields j).
Proof.
  intros b fields j Hf Hj. destruct j; cbn [as_fields good]; auto.
  - destruct (Nat.eqb _ _); cbn [good]; [|exact I]. apply combine_tidy; [exact Hf|apply tidy_arr; exact Hj].
  - apply tidy_obj. exact Hj.
Qed.
Lemma good_object : forall b j, tidy b j -> good b (tidym b) (as_object j).
Proof. intros b j Hj. destruct j; cbn [as_object good]; auto. apply tidy_obj. exact Hj. Qed.
Lemma lookup_tidy : forall b names m j, tidym b m -> lookup names m = Ok (Some j) -> tidy b j.
Proof.
  intros b names m j Hm E. unfold lookup in E. destruct (filter (fun e => key_in names (fst e)) m) as [|e [|e' l]] eqn:Ef; try discriminate.
  injection E as <-. assert (In e m) as Hi. { apply (filter_In (fun e => key_in names (fst e))). rewrite Ef. left. reflexivity. }
  unfold tidym in Hm. rewrite Forall_forall in Hm. apply Hm in Hi. tauto.
Qed.
Lemma lookup_nopanic : forall names m, lookup names m <> Panic.
Proof. intros names m. unfold lookup. destruct (filter _ m) as [|e [|e' l]]; discriminate. Qed.
Lemma good_lookup : forall b names m, tidym b m -> good b (fun o => match o with Some j => tidy b j | None => True end) (lookup names m).
Proof.
  intros b names m Hm. apply good_true; [apply lookup_nopanic|]. intros [j|] E; [|exact I]. eapply lookup_tidy; eassumption.
Qed.
Lemma good_field : forall A b names (p : json -> res A) P m, tidym b m -> (forall j, tidy b j -> good b P (p j)) -> good b P (field names p m).
Proof.
  intros A b names p P m Hm Hp. unfold field. eapply good_bind; [apply good_lookup; exact Hm|]. intros o _ Ho.
  destruct o as [j|]; cbn [of_option bind]; [apply Hp; exact Ho|exact I].
Qed.
Lemma good_opt_field : forall A b names (p : json -> res A) P m, tidym b m -> (forall j, tidy b j -> good b P (p j)) ->
  good b (fun o => match o with Some a => P a | None => True end) (opt_field names p m).
Proof.
  intros A b names p P m Hm Hp. unfold opt_field. eapply good_bind; [apply good_lookup; exact Hm|]. intros o _ Ho.
  destruct o as [j|]; [|exact I]. specialize (Hp j Ho).
  destruct j; try exact I; (eapply good_bind; [exact Hp|]; intros a _ Ha; exact Ha).
Qed.
Lemma good_traverse : forall A B b (p : A -> res B) P l, Forall (fun a => good b P (p a)) l -> good b (Forall P) (traverse p l).
Proof.
  intros A B b p P l H. induction H as [|a l Ha _ IH]; cbn [traverse]; [constructor|].
  eapply good_bind; [exact Ha|]. intros x _ Hx. eapply good_bind; [exact IH|]. intros y _ Hy. constructor; assumption.
Qed.
Lemma good_list : forall A b (p : json -> res A) P j, tidy b j -> (forall j, tidy b j -> good b P (p j)) -> good b (Forall P) (list_of p j).
Proof.
  intros A b p P j Hj Hp. destruct j; cbn [list_of good]; auto. apply good_traverse. eapply Forall_impl; [exact Hp|apply tidy_arr; exact Hj].
Qed.
Lemma good_hex : forall b j, tidy b j -> good b input_ok (of_hex j).
Proof.
  intros b j Hj. destruct j; cbn [of_hex as_str bind good]; auto. unfold of_hex. cbn [as_str bind]. apply good_of_option. intros x E.
  destruct (unhex_ok _ _ E) as [B L]. split; [exact B|]. cbn [tidy] in Hj. lia.
Qed.
Lemma good_digest : forall b n j, tidy b j -> good b (fun x => bytes_ok x /\ Zlen x = n) (digest n j).
Proof.
  intros b n j Hj. apply good_true; [|intros a E; exact (digest_ok _ _ _ E)]. unfold digest.
  pose proof (good_hex true j) as X. destruct (of_hex j) as [x|e|] eqn:E; cbn [bind]; try discriminate; [destruct (Zlen x =? n); discriminate|].
  unfold of_hex in E. destruct j; try discriminate E. cbn [as_str bind] in E. destruct (unhex s); discriminate E.
Qed.
Lemma good_amount : forall b j, good b u64 (amount j).
Proof.
  intros b j. apply good_true; [|apply amount_range]. destruct j; cbn [amount]; try discriminate; [destruct (_ && _); discriminate|].
  destruct s as [|c s]; [discriminate|]. intros E.
  assert (D : forall x, (if (49 <=? c) && (c <=? 57) then match x with Some v => if v <? 2 ^ 64 then Ok v else Err "can't convert"%string | None => Err "can't convert"%string end
    else Err "can't convert"%string) = (Panic : res Z) -> False).
  { intros x. destruct ((49 <=? c) && (c <=? 57)); [|discriminate]. destruct x as [v|]; [destruct (v <? 2 ^ 64)|]; discriminate. }
  specialize (D (digits_value 0 (c :: s))). destruct c as [|p|p]; try (apply D; exact E).
  do 6 (try (destruct p as [p|p|]; try (apply D; exact E))); destruct s; (discriminate E || (apply D; exact E)).
Qed.
Lemma good_uint : forall b n j, good b (fun v => 0 <= v < n) (uint n j).
Proof. intros b n j. destruct j; cbn [uint good]; auto. destruct ((0 <=? z) && (z <? n)) eqn:E; cbn [good]; [lia|exact I]. Qed.

(** ** What the readers accept *)
Section Accept.
Context {G : group} (HG : group_ok G).

Lemma good_token : forall b j, tidy b j -> good b token_json_ok (token_of_json j).
Proof.
  intros b j Hj. unfold token_of_json. eapply good_bind; [apply good_fields; [reflexivity|exact Hj]|]. intros m _ Hm.
  eapply good_bind; [apply good_field; [exact Hm|apply good_digest]|]. intros id _ Hid.
  eapply good_bind; [apply good_field; [exact Hm|intros x _; apply good_amount]|]. intros a _ Ha. split; assumption.
Qed.
Lemma good_tree : forall b j, tidy b j -> good b (@tree_stable G) (tree_of_json j).
Proof.
  intros b j Hj. unfold tree_of_json. eapply good_bind; [apply good_hex; exact Hj|]. intros x _ Hx.
  apply good_true; [apply (c82_tree G HG x Hx)|]. intros t E. exact (c81_tree G HG x t Hx E).
Qed.
Lemma from_bytes_const : forall x (c : const G), input_ok x -> SerModel.from_bytes parse_const x = Ok c -> const_stable c.
Proof.
  intros x c Hx E. unfold SerModel.from_bytes in E. inv_bind E. destruct b as [[c' st] rest]. injection E as ->.
  destruct (c81_constant G HG fresh x c st rest Hx eq_refl Eb) as (bs & E1 & _ & B & R). exists bs. split; [exact E1|]. split; [exact B|].
  unfold SerModel.from_bytes. specialize (R []). rewrite app_nil_r in R. rewrite R. reflexivity.
Qed.
Lemma reg_read_stable : forall x (r : regval G), input_ok x -> reg_of_bytes x = Ok r -> reg_stable r.
Proof.
  intros x r Hx E.
  assert (INV : @reg_of_bytes G x = Ok (RInvalid x) -> reg_stable (@RInvalid G x)).
  { intros E'. exists x. split; [reflexivity|]. split; [apply Hx|exact E']. }
  unfold reg_of_bytes in E, INV. unfold SerModel.from_bytes in E, INV.
  destruct (parse_expr fresh x) as [[[e st] rest]|er|] eqn:Ep; cbn [bind] in E, INV; [|injection E as <-; apply INV; reflexivity|discriminate].
  destruct (reg_of e) as [r'|er|] eqn:Er; try (injection E as <-; apply INV; reflexivity). injection E as ->. clear INV.
  assert (P : parse_reg parse_expr fresh x = Ok (r, st, rest)).
  { unfold parse_reg, pbind. rewrite Ep. cbn [bind]. unfold of_res. rewrite Er. reflexivity. }
  pose proof (sat_out _ (parse_reg parse_expr) QR fresh x (fun k Hk st0 => sat_reg k (sat_expr HG k Hk) st0) eq_refl Hx) as X.
  rewrite P in X. destruct X as (u & -> & (H1 & (y & Ey & Ly & By))).
  destruct (ok_roundtrip HG) as (_ & _ & _ & _ & _ & _ & _ & _ & _ & _ & R & _).
  destruct (R _ _ _ H1) as (bs & F & Rb). rewrite F in Ey. injection Ey as <-. exists bs.
  assert (NI : reg_to_bytes r = Ok bs). { unfold reg_to_bytes. destruct r; try discriminate F; rewrite F; reflexivity. }
  split; [exact NI|]. split; [exact By|]. specialize (Rb []). rewrite app_nil_r in Rb.
  unfold reg_of_bytes, SerModel.from_bytes. unfold parse_reg, pbind in Rb.
  destruct (parse_expr fresh bs) as [[[e' st1] r1]| |]; try discriminate Rb. cbn [bind]. unfold of_res in Rb. destruct (reg_of e') as [r''| |]; try discriminate Rb. injection Rb as -> _ _. reflexivity.
Qed.
Lemma good_holder : forall b j, tidy b j -> good b (@reg_stable G) (holder_of_json j).
Proof.
  intros b j Hj. unfold holder_of_json. eapply (good_bind _ _ b input_ok).
  - destruct j; try exact I; [apply good_hex; exact Hj|apply good_field; [apply tidy_obj; exact Hj|apply good_hex]].
  - intros x _ Hx. apply good_true; [|intros r E; exact (reg_read_stable x r Hx E)].
    unfold reg_of_bytes, SerModel.from_bytes. pose proof (c82_expression G HG fresh x Hx eq_refl) as N.
    destruct (parse_expr fresh x) as [[[e st] rest]|er|]; cbn [bind]; [|discriminate|congruence]. destruct (reg_of e); discriminate.
Qed.
Lemma map_put_all : forall (P : regval G -> Prop) m k v, P v -> Forall (fun e => P (snd e)) m -> Forall (fun e : Z * regval G => P (snd e)) (map_put k v m).
Proof.
  intros P m k v Hv H. induction H as [|[k' v'] m H1 H2 IH]; cbn [map_put]; [constructor; [exact Hv|constructor]|].
  destruct (k' =? k); constructor; auto.
Qed.
Lemma good_reg_key : forall b k, (b = true -> key_plain k) -> good b (fun _ => True) (reg_id_of_text k).
Proof.
  intros b k H. destruct k as [|x [|y [|z k]]]; cbn [reg_id_of_text good]; auto. destruct (is_continuation y) eqn:E.
  - cbn [good]. destruct b; [|reflexivity]. exfalso. unfold is_continuation in E. apply (H eq_refl x y eq_refl). lia.
  - destruct (x =? 82); [|exact I]. destruct (unsigned_of_text (2 ^ 64) [y]) as [i|]; [|exact I]. destruct ((4 <=? i) && (i <=? 9)); exact I.
Qed.
Lemma good_reg_entries : forall b l acc, tidym b l -> Forall (fun e => reg_stable (snd e)) acc ->
  good b (Forall (fun e : Z * regval G => reg_stable (snd e))) (reg_entries acc l).
Proof.
  intros b l. induction l as [|[k j] l IH]; intros acc Hl Ha; cbn [reg_entries]; [exact Ha|]. inversion Hl as [|x y [H1 H2] H3]; subst. cbn [fst snd] in *.
  eapply good_bind; [apply good_reg_key; exact H1|]. intros id _ _.
  eapply good_bind; [apply good_holder; exact H2|]. intros v _ Hv. apply IH; [exact H3|]. apply map_put_all; assumption.
Qed.
Lemma map_get_in : forall (m : @reg_map G) k v, map_get m k = Some v -> In (k, v) m.
Proof.
  induction m as [|[k' v'] m IH]; intros k v E; [discriminate|]. cbn [map_get] in E. destruct (Z.eqb_spec k' k) as [->|].
  - injection E as ->. left. reflexivity.
  - right. apply IH. exact E.
Qed.
Lemma regs_collect_good : forall (P : regval G -> Prop) m ids, Forall (fun e => P (snd e)) m ->
  match regs_collect m ids with Ok l => Forall P l /\ List.length l = List.length ids | Err _ => True | Panic => False end.
Proof.
  intros P m ids H. induction ids as [|i ids IH]; cbn [regs_collect]; [split; [constructor|reflexivity]|].
  destruct (map_get m i) as [v|] eqn:E; [|exact I]. destruct (regs_collect m ids) as [l| |]; cbn [bind]; auto. destruct IH as [F L].
  split; [|cbn [List.length]; rewrite L; reflexivity]. constructor; [|exact F]. rewrite Forall_forall in H. exact (H _ (map_get_in _ _ _ E)).
Qed.
Lemma good_regs : forall b j, tidy b j -> good b (fun l : list (regval G) => Forall reg_stable l /\ Zlen l <= 6) (regs_of_json j).
Proof.
  intros b j Hj. unfold regs_of_json. eapply good_bind; [apply good_object; exact Hj|]. intros m _ Hm.
  eapply good_bind; [apply good_reg_entries; [exact Hm|constructor]|]. intros r _ Hr. unfold regs_of_map, max_regs.
  destruct (6 <? Zlen r) eqn:E; [exact I|].
  pose proof (regs_collect_good _ r (firstn (List.length r) reg_ids) Hr) as X. destruct (regs_collect r _) as [l| |]; cbn [good]; [|exact I|destruct X].
  destruct X as [F L]. split; [exact F|]. unfold Zlen in *. rewrite L, firstn_length. cbn [reg_ids List.length]. lia.
Qed.
Lemma good_cand_members : forall b m, tidym b m -> good b (@cand_json_ok G) (cand_of_members m).
Proof.
  intros b m Hm. unfold cand_of_members. eapply good_bind; [apply good_field; [exact Hm|intros x _; apply good_amount]|]. intros v _ Hv.
  eapply good_bind; [apply good_field; [exact Hm|apply good_tree]|]. intros t _ Ht.
  eapply good_bind; [apply good_field; [exact Hm|intros x Hx; apply good_list; [exact Hx|apply good_token]]|]. intros k _ Hk.
  eapply good_bind; [apply good_field; [exact Hm|apply good_regs]|]. intros r _ [Hr Lr].
  eapply good_bind; [apply good_field; [exact Hm|intros x _; apply good_uint]|]. intros h _ Hh.
  unfold tokens_bounded. destruct (max_tokens <? Zlen k) eqn:E; [exact I|]. cbn [bind good].
  unfold cand_json_ok. cbn [cd_value cd_tree cd_tokens cd_regs cd_height]. repeat (split; [assumption || lia|]). exact Hh.
Qed.
Lemma good_cand : forall b j, tidy b j -> good b (@cand_json_ok G) (cand_of_json j).
Proof.
  intros b j Hj. unfold cand_of_json. eapply good_bind; [apply good_fields; [reflexivity|exact Hj]|]. intros m _ Hm. apply good_cand_members. exact Hm.
Qed.

(** Writing what was read can fail, but not panic. *)
Lemma put_u64_nopanic : forall v, u64 v -> exists x, put_u64 v = Ok x.
Proof. intros v H. destruct (put_u64_spec v H) as (x & E & _). eauto. Qed.
Lemma write_list_nopanic : forall A (w : A -> res bytes) l, Forall (fun a => w a <> Panic) l -> write_list w l <> Panic.
Proof.
  intros A w l H. induction H as [|a l Ha _ IH]; cbn [write_list]; [discriminate|].
  destruct (w a); cbn [bind]; try discriminate; [|congruence]. destruct (write_list w l); cbn [bind]; try discriminate. congruence.
Qed.
Lemma ser_reg_nopanic : forall r : regval G, reg_stable r -> ser_reg r <> Panic.
Proof.
  intros r (bs & E & _). unfold reg_to_bytes in E. destruct r; [| |discriminate]; match type of E with match ?x with _ => _ end = _ => destruct x end; discriminate.
Qed.
Lemma ser_cand_eq : forall ids v (t : tree G) k r h, ser_cand ids (MkCand v t k r h) =
  (tb <- ser_tree t ;; v <- put_u64 v ;; h <- put_u32 h ;; n <- (if Zlen k <=? 255 then put_u8 (Zlen k) else Panic) ;;
   tk <- write_list (ser_token ids) k ;; m <- put_u8 (wrapu 8 (Zlen r)) ;; rg <- write_list ser_reg r ;; Ok (v ++ tb ++ h ++ n ++ tk ++ m ++ rg)).
Proof. reflexivity. Qed.
Lemma ser_cand_nopanic : forall ids (c : cand G), cand_json_ok c -> Forall (fun t => ser_token ids t <> Panic) (cd_tokens c) -> ser_cand ids c <> Panic.
Proof.
  intros ids [v t k r h] (Hv & (bs & Et & _) & Hk & Lk & Hr & Lr & Hh) Ft. cbn [cd_value cd_tree cd_tokens cd_regs cd_height] in *.
  rewrite ser_cand_eq, Et. cbn [bind]. destruct (put_u64_nopanic v Hv) as (x1 & ->). cbn [bind].
  destruct (put_u64_nopanic h) as (x2 & E2); [unfold u32, u64 in *; lia|]. unfold put_u32. rewrite E2. cbn [bind].
  unfold max_tokens in Lk. replace (Zlen k <=? 255) with true by lia. cbn [put_u8 bind].
  pose proof (write_list_nopanic _ _ _ Ft) as N1. destruct (write_list (ser_token ids) k); cbn [bind]; [|discriminate|congruence].
  assert (N2 : write_list ser_reg r <> Panic). { apply write_list_nopanic. eapply Forall_impl; [|exact Hr]. apply ser_reg_nopanic. }
  destruct (write_list ser_reg r); cbn [bind]; [discriminate|discriminate|congruence].
Qed.
Lemma box_id_nopanic : forall H (c : cand G) x i, cand_json_ok c -> u16 i -> box_id H (MkBox c x i) <> Panic.
Proof.
  intros H c x i Hc Hi. unfold box_id.
  assert (N : ser_cand None c <> Panic).
  { apply ser_cand_nopanic; [exact Hc|]. destruct Hc as (_ & _ & Hk & _). eapply Forall_impl; [|exact Hk]. intros [id a] [_ Ha]. cbn [snd] in Ha.
    unfold ser_token. cbn [fst snd bind]. destruct (put_u64_nopanic a Ha) as (y & ->). discriminate. }
  change (ser_box (MkBox c x i)) with (y <- ser_cand None c ;; z <- put_u16 i ;; Ok (y ++ x ++ z)).
  destruct (ser_cand None c); cbn [bind]; [|discriminate|congruence].
  unfold put_u16. destruct (put_u64_nopanic i) as (y & ->); [unfold u16, u64 in *; lia|]. discriminate.
Qed.
Definition ebox_json_ok (H : bytes -> bytes) (p : ebox G) : Prop :=
  cand_json_ok (b_cand (snd p)) /\ idb (b_txid (snd p)) /\ u16 (b_index (snd p)) /\ box_id H (snd p) = Ok (fst p).
Lemma good_box : forall b H j, tidy b j -> good b (ebox_json_ok H) (box_of_json H j).
Proof.
  intros b H j Hj. unfold box_of_json. eapply good_bind; [apply good_fields; [reflexivity|exact Hj]|]. intros m _ Hm.
  eapply good_bind; [apply good_opt_field; [exact Hm|apply good_digest]|]. intros o _ _.
  eapply good_bind; [apply good_cand_members; exact Hm|]. intros c _ Hc.
  eapply good_bind; [apply good_field; [exact Hm|apply good_digest]|]. intros x _ Hx.
  eapply good_bind; [apply good_field; [exact Hm|intros y _; apply good_uint]|]. intros i _ Hi. cbv zeta.
  eapply (good_bind _ _ b (fun id => box_id H (MkBox c x i) = Ok id)).
  - apply good_true; [apply box_id_nopanic; assumption|auto].
  - intros id _ Eid. destruct o as [g|]; [destruct (bytes_eqb id g); [|exact I]|]; cbn [good]; unfold ebox_json_ok; cbn [fst snd b_cand b_txid b_index]; auto.
Qed.

Lemma smap_put_all : forall (P : bytes -> Prop) m k v, P v -> Forall (fun e => P (snd e)) m -> Forall (fun e : bytes * bytes => P (snd e)) (smap_put k v m).
Proof.
  intros P m k v Hv H. induction H as [|[k' v'] m H1 H2 IH]; cbn [smap_put]; [constructor; [exact Hv|constructor]|].
  destruct (bytes_eqb k' k); constructor; auto.
Qed.
Lemma good_smap : forall b l acc, tidym b l -> Forall (fun e => Zlen (snd e) < 2 ^ 32) acc ->
  good b (Forall (fun e : bytes * bytes => Zlen (snd e) < 2 ^ 32)) (smap_of acc l).
Proof.
  intros b l. induction l as [|[k j] l IH]; intros acc Hl Ha; cbn [smap_of]; [exact Ha|]. inversion Hl as [|x y [_ H2] H3]; subst. cbn [fst snd] in *.
  eapply (good_bind _ _ b (fun s => Zlen s < 2 ^ 32)); [destruct j; cbn [as_str good]; auto|]. intros s _ Hs. apply IH; [exact H3|].
  apply (smap_put_all (fun s => Zlen s < 2 ^ 32)); assumption.
Qed.
Lemma unsigned_range : forall n s v, unsigned_of_text n s = Some v -> 0 <= v < n.
Proof.
  intros n s v E. unfold unsigned_of_text in E. destruct (strip_plus s) as [|d l]; [discriminate|].
  destruct (digits_value 0 (d :: l)) as [w|] eqn:Ev; [|discriminate]. destruct (w <? n) eqn:El; [|discriminate]. injection E as <-.
  apply digits_value_acc in Ev; lia.
Qed.
Lemma ext_insert_keys : forall (m : ext G) k c x, In x (map fst (ext_insert k c m)) -> x = k \/ In x (map fst m).
Proof.
  induction m as [|[k' c'] m IH]; intros k c x; cbn [ext_insert map fst In]; [intros [H|[]]; auto|].
  destruct (Z.eqb_spec k' k); cbn [map fst In]; intros [H|H]; auto. apply IH in H. tauto.
Qed.
Lemma ext_insert_ok : forall (m : ext G) k c, u8 k -> const_stable c -> ext_json_ok m -> ext_json_ok (ext_insert k c m).
Proof.
  intros m k c Hk Hc [ND F]. split.
  - clear F Hk Hc. induction m as [|[k' c'] m IH]; cbn [ext_insert map fst]; [constructor; [intros []|constructor]|].
    cbn [map fst] in ND. inversion ND; subst. destruct (Z.eqb_spec k' k) as [->|Hn]; cbn [map fst]; [constructor; assumption|].
    constructor; [|apply IH; assumption]. intros X. apply ext_insert_keys in X. tauto.
  - clear ND. induction F as [|[k' c'] m H1 H2 IH]; cbn [ext_insert]; [constructor; [split; assumption|constructor]|].
    destruct (k' =? k); constructor; auto.
Qed.
Lemma good_ext : forall b j, tidy b j -> good b (@ext_json_ok G) (ext_of_json j).
Proof.
  intros b j Hj. unfold ext_of_json. eapply good_bind; [apply good_object; exact Hj|]. intros l _ Hl.
  eapply good_bind; [apply good_smap; [exact Hl|constructor]|]. intros m _ Hm.
  assert (A : ext_json_ok (@nil (Z * const G))) by (split; constructor). revert A. generalize (@nil (Z * const G)).
  induction Hm as [|[k s] m Hs _ IH]; intros acc Ha; cbn [ext_of_smap]; [exact Ha|]. cbn [snd] in Hs.
  eapply (good_bind _ _ b u8); [apply good_of_option; intros i Ei; apply (unsigned_range 256) in Ei; exact Ei|]. intros i _ Hi.
  eapply (good_bind _ _ b input_ok).
  - apply good_of_option. intros x Ex. destruct (unhex_ok _ _ Ex) as [B L]. split; [exact B|lia].
  - intros x _ Hx. eapply (good_bind _ _ b const_stable).
    + apply good_true; [|intros c E; exact (from_bytes_const x c Hx E)]. pose proof (c82_constant G HG fresh x Hx eq_refl) as N.
      unfold SerModel.from_bytes. destruct (parse_const fresh x) as [[[e st] rest]|er|]; cbn [bind]; [discriminate|discriminate|congruence].
    + intros c _ Hc. apply IH. apply ext_insert_ok; assumption.
Qed.
Lemma good_proof : forall b j, tidy b j -> good b (fun p : proof * ext G => proof_json_ok (fst p) /\ ext_json_ok (snd p)) (proof_of_json j).
Proof.
  intros b j Hj.
  assert (P : forall x, input_ok x -> proof_json_ok (proof_of_bytes x)).
  { intros [|y x] [B _]; cbn [proof_of_bytes proof_json_ok]; [exact I|]. split; [exact B|discriminate]. }
  destruct j; cbn [proof_of_json]; try exact I.
  - eapply good_bind; [apply good_hex; exact Hj|]. intros x _ Hx. split; cbn [fst snd]; [apply P; exact Hx|split; constructor].
  - apply tidy_obj in Hj. eapply good_bind; [apply good_field; [exact Hj|apply good_hex]|]. intros x _ Hx.
    eapply good_bind; [apply good_field; [exact Hj|apply good_ext]|]. intros e _ He. split; cbn [fst snd]; auto.
Qed.
Lemma good_input : forall b j, tidy b j -> good b (@input_json_ok G) (input_of_json j).
Proof.
  intros b j Hj. unfold input_of_json. eapply good_bind; [apply good_fields; [reflexivity|exact Hj]|]. intros m _ Hm.
  eapply good_bind; [apply good_field; [exact Hm|apply good_digest]|]. intros x _ Hx.
  eapply good_bind; [apply good_field; [exact Hm|apply good_proof]|]. intros [p e] _ [Hp He]. split; [exact Hx|]. split; assumption.
Qed.
Lemma good_uinput : forall b j, tidy b j -> good b (@uinput_json_ok G) (uinput_of_json j).
Proof.
  intros b j Hj. unfold uinput_of_json. eapply good_bind; [apply good_fields; [reflexivity|exact Hj]|]. intros m _ Hm.
  eapply good_bind; [apply good_field; [exact Hm|apply good_digest]|]. intros x _ Hx.
  eapply good_bind; [apply good_field; [exact Hm|apply good_ext]|]. intros e _ He. split; assumption.
Qed.
Lemma good_data : forall b j, tidy b j -> good b idb (data_of_json j).
Proof.
  intros b j Hj. unfold data_of_json. eapply good_bind; [apply good_fields; [reflexivity|exact Hj]|]. intros m _ Hm.
  apply good_field; [exact Hm|apply good_digest].
Qed.

Lemma ser_const_nopanic : forall c : const G, const_stable c -> ser_const c <> Panic.
Proof. intros c (bs & E & _). rewrite E. discriminate. Qed.
Lemma ser_input_nopanic : forall i : input G, ext_json_ok (in_ext i) -> in_proof i = PEmpty -> ser_input i <> Panic.
Proof.
  intros [x p e] [ND F] Hp. cbn [in_ext in_proof] in *. subst p. unfold ser_input. cbn [in_proof in_ext in_box ser_proof].
  destruct (put_u64_nopanic 0) as (y & E); [unfold u64; lia|]. unfold put_u16. rewrite E. cbn [bind]. unfold ser_ext. cbn [put_u8 bind].
  assert (N : write_list ser_entry e <> Panic).
  { apply write_list_nopanic. eapply Forall_impl; [|exact F]. intros [k c] [_ Hc]. unfold ser_entry. cbn [fst snd put_u8 bind] in *.
    pose proof (ser_const_nopanic c Hc). destruct (ser_const c); cbn [bind]; [discriminate|discriminate|congruence]. }
  destruct (write_list ser_entry e); cbn [bind]; [discriminate|discriminate|congruence].
Qed.
Lemma index_set_len : forall l, Zlen (index_set l) <= Zlen l.
Proof.
  intros l. destruct (index_set_spec l) as [N I]. unfold Zlen. apply Nat2Z.inj_le. apply NoDup_incl_length; [exact N|].
  intros x Hx. apply I. exact Hx.
Qed.
Lemma token_ids_len : forall cs : list (cand G), Forall cand_json_ok cs -> Zlen (distinct_token_ids cs) <= max_tokens * Zlen cs.
Proof.
  intros cs F. unfold distinct_token_ids. eapply Z.le_trans; [apply index_set_len|]. induction F as [|c cs (_ & _ & _ & L & _) _ IH]; cbn [flat_map].
  - rewrite !Zlen_nil. lia.
  - rewrite Zlen_app, Zlen_cons. replace (Zlen (map fst (cd_tokens c))) with (Zlen (cd_tokens c)) by (unfold Zlen; rewrite map_length; reflexivity). lia.
Qed.
Lemma tx_message_nopanic : forall (ins : list (input G)) d cs, count_ok ins -> Forall (fun i => ext_json_ok (in_ext i)) ins ->
  data_json_ok d -> count_ok cs -> Forall cand_json_ok cs -> tx_message ins d cs <> Panic.
Proof.
  intros ins d cs Ci Fi Hd Cc Fc. unfold count_ok in *. unfold tx_message, ser_tx_parts.
  replace (Zlen (map in_to_sign ins)) with (Zlen ins) by (unfold Zlen; rewrite map_length; reflexivity).
  unfold put_usize_as_u16_unwrapped. replace (Zlen ins <? 2 ^ 16) with true by lia. unfold put_u16.
  destruct (put_u64_nopanic (Zlen ins)) as (x1 & ->); [unfold u64; lia|]. cbn [bind].
  assert (N1 : write_list ser_input (map in_to_sign ins) <> Panic).
  { apply write_list_nopanic. apply Forall_map. eapply Forall_impl; [|exact Fi]. intros i Hi. apply ser_input_nopanic; [exact Hi|reflexivity]. }
  destruct (write_list ser_input (map in_to_sign ins)); cbn [bind]; [|discriminate|congruence].
  assert (N2 : exists y, match d with Some l => m <- (if Zlen l <? 2 ^ 16 then put_u64 (Zlen l) else Panic) ;; Ok (m ++ List.concat l) | None => put_u64 0 end = Ok y).
  { destruct d as [l|].
    - destruct Hd as [L _]. replace (Zlen l <? 2 ^ 16) with true by lia. destruct (put_u64_nopanic (Zlen l)) as (x & ->); [unfold u64; lia|]. eexists. reflexivity.
    - apply put_u64_nopanic. unfold u64. lia. }
  destruct N2 as (y & ->). cbn [bind]. cbv zeta. pose proof (token_ids_len cs Fc) as L. unfold max_tokens in L.
  pose proof (Zlen_nonneg _ (distinct_token_ids cs)).
  unfold put_usize_as_u32_unwrapped. replace (Zlen (distinct_token_ids cs) <? 2 ^ 32) with true by lia. unfold put_u32 at 1.
  destruct (put_u64_nopanic (Zlen (distinct_token_ids cs))) as (x2 & ->); [unfold u64; lia|]. cbn [bind].
  replace (Zlen cs <? 2 ^ 16) with true by lia. destruct (put_u64_nopanic (Zlen cs)) as (x3 & ->); [unfold u64; lia|]. cbn [bind].
  assert (N3 : write_list (ser_cand (Some (distinct_token_ids cs))) cs <> Panic).
  { apply write_list_nopanic. apply Forall_forall. intros c Hc. rewrite Forall_forall in Fc. pose proof (Fc c Hc) as Hok. apply ser_cand_nopanic; [exact Hok|].
    destruct Hok as (_ & _ & Hk & _). apply Forall_forall. intros t Ht. rewrite Forall_forall in Hk. destruct (Hk t Ht) as [_ Ha].
    unfold ser_token. destruct (index_of_in (distinct_token_ids cs) (fst t)) as (i & -> & Hi & _).
    { apply (index_set_spec (flat_map (fun c => map fst (cd_tokens c)) cs)). apply in_flat_map. exists c. split; [exact Hc|]. apply in_map. exact Ht. }
    replace (i <? 2 ^ 32) with true by lia. unfold put_u32. destruct (put_u64_nopanic i) as (z & ->); [unfold u64; lia|]. cbn [bind].
    destruct (put_u64_nopanic (snd t) Ha) as (w & ->). discriminate. }
  destruct (write_list (ser_cand (Some (distinct_token_ids cs))) cs); cbn [bind]; [discriminate|discriminate|congruence].
Qed.
Lemma mk_outputs_nopanic : forall H x (cs : list (cand G)) i, Forall cand_json_ok cs -> mk_outputs H x i cs <> Panic.
Proof.
  intros H x cs i F. revert i. induction F as [|c cs Hc _ IH]; intros i; cbn [mk_outputs]; [discriminate|]. cbv zeta.
  assert (U : u16 (wrapu 16 i)) by (unfold u16, wrapu; apply Z.mod_pos_bound; reflexivity).
  pose proof (box_id_nopanic H c x (wrapu 16 i) Hc U) as N. destruct (box_id H (MkBox c x (wrapu 16 i))); cbn [bind]; [|discriminate|congruence].
  specialize (IH (i + 1)). destruct (mk_outputs H x (i + 1) cs); cbn [bind]; [discriminate|discriminate|congruence].
Qed.
Lemma tx_new_nopanic : forall H (ins : list (input G)) d cs, count_ok ins -> Forall (fun i => ext_json_ok (in_ext i)) ins ->
  data_json_ok d -> count_ok cs -> Forall cand_json_ok cs -> tx_new H ins d cs <> Panic.
Proof.
  intros H ins d cs Ci Fi Hd Cc Fc. unfold tx_new. pose proof (mk_outputs_nopanic H zero_id cs 0 Fc) as N.
  destruct (mk_outputs H zero_id 0 cs); cbn [bind]; [|discriminate|congruence].
  pose proof (tx_message_nopanic ins d cs Ci Fi Hd Cc Fc) as N2. destruct (tx_message ins d cs) as [m| |]; cbn [bind]; [|discriminate|congruence].
  pose proof (mk_outputs_nopanic H (H m) cs 0 Fc) as N3. destruct (mk_outputs H (H m) 0 cs); cbn [bind]; [discriminate|discriminate|congruence].
Qed.
Lemma opt_vec_good : forall b l, Forall idb l -> good b data_json_ok (opt_vec l).
Proof.
  intros b l F. unfold opt_vec, txio_ok. destruct l as [|x l]; [exact I|]. destruct ((1 <=? Zlen (x :: l)) && (Zlen (x :: l) <=? 65535)) eqn:E; [|exact I].
  cbn [good data_json_ok]. split; [lia|exact F].
Qed.
Definition tx_json_ok (H : bytes -> bytes) (t : tx G) : Prop :=
  count_ok (t_inputs t) /\ Forall input_json_ok (t_inputs t) /\ data_json_ok (t_data t) /\
  count_ok (t_cands t) /\ Forall cand_json_ok (t_cands t) /\ tx_new H (t_inputs t) (t_data t) (t_cands t) = Ok t.
Definition utx_json_ok (H : bytes -> bytes) (u : utx G) : Prop :=
  count_ok (u_inputs u) /\ Forall uinput_json_ok (u_inputs u) /\ data_json_ok (u_data u) /\
  count_ok (u_cands u) /\ Forall cand_json_ok (u_cands u) /\ utx_new H (u_inputs u) (u_data u) (u_cands u) = Ok u.
Lemma good_tx : forall b H j, tidy b j -> good b (tx_json_ok H) (tx_of_json H j).
Proof.
  intros b H j Hj. unfold tx_of_json. eapply good_bind; [apply good_fields; [reflexivity|exact Hj]|]. intros m _ Hm.
  eapply good_bind; [apply good_field; [exact Hm|apply good_digest]|]. intros id _ _.
  eapply good_bind; [apply good_field; [exact Hm|intros x Hx; apply good_list; [exact Hx|apply good_input]]|]. intros ins _ Hi.
  eapply good_bind; [apply good_field; [exact Hm|intros x Hx; apply good_list; [exact Hx|apply good_data]]|]. intros d _ Hd.
  eapply good_bind; [apply good_field; [exact Hm|intros x Hx; apply good_list; [exact Hx|apply (good_box b H)]]|]. intros o _ Ho.
  assert (Fc : Forall cand_json_ok (map (fun b : bytes * box G => b_cand (snd b)) o)).
  { apply Forall_map. eapply Forall_impl; [|exact Ho]. intros p Hp. apply Hp. }
  unfold tx_of_vecs. eapply (good_bind _ _ b (tx_json_ok H)).
  - unfold txio_ok. destruct ((1 <=? Zlen ins) && (Zlen ins <=? 65535)) eqn:E1; [|exact I]. cbn [negb].
    eapply good_bind; [apply opt_vec_good; exact Hd|]. intros dd _ Hdd.
    destruct ((1 <=? Zlen (map (fun b : bytes * box G => b_cand (snd b)) o)) && (Zlen (map (fun b : bytes * box G => b_cand (snd b)) o) <=? 65535)) eqn:E2; [|exact I]. cbn [negb].
    assert (C1 : count_ok ins) by (unfold count_ok; lia).
    assert (C2 : count_ok (map (fun b : bytes * box G => b_cand (snd b)) o)) by (unfold count_ok; lia).
    apply good_true.
    + apply tx_new_nopanic; auto. eapply Forall_impl; [|exact Hi]. intros i Hok. apply Hok.
    + intros t Et. destruct (tx_new_inv _ _ _ _ _ Et) as (? & ? & _ & _ & _ & Eq). unfold tx_json_ok.
      assert (t_inputs t = ins /\ t_data t = dd /\ t_cands t = map (fun b : bytes * box G => b_cand (snd b)) o) as (-> & -> & ->) by (rewrite Eq; repeat split).
      auto 10.
  - intros t _ Ht. destruct (bytes_eqb (t_id t) id); [exact Ht|exact I].
Qed.
Lemma good_utx : forall b H j, tidy b j -> good b (utx_json_ok H) (utx_of_json H j).
Proof.
  intros b H j Hj. unfold utx_of_json. eapply good_bind; [apply good_fields; [reflexivity|exact Hj]|]. intros m _ Hm.
  eapply good_bind; [apply good_field; [exact Hm|intros x Hx; apply good_list; [exact Hx|apply good_uinput]]|]. intros ins _ Hi.
  eapply good_bind; [apply good_field; [exact Hm|intros x Hx; apply good_list; [exact Hx|apply good_data]]|]. intros d _ Hd.
  eapply good_bind; [apply good_field; [exact Hm|intros x Hx; apply good_list; [exact Hx|apply good_cand]]|]. intros cs _ Fc.
  unfold utx_of_vecs, txio_ok. destruct ((1 <=? Zlen ins) && (Zlen ins <=? 65535)) eqn:E1; [|exact I]. cbn [negb].
  eapply good_bind; [apply opt_vec_good; exact Hd|]. intros dd _ Hdd.
  destruct ((1 <=? Zlen cs) && (Zlen cs <=? 65535)) eqn:E2; [|exact I]. cbn [negb].
  assert (C1 : count_ok (map ui_to_sign ins)) by (unfold count_ok, Zlen in *; rewrite map_length; lia).
  assert (C2 : count_ok cs) by (unfold count_ok; lia).
  assert (F1 : Forall (fun i => ext_json_ok (in_ext i)) (map ui_to_sign ins)).
  { apply Forall_map. eapply Forall_impl; [|exact Hi]. intros i Hok. apply Hok. }
  apply good_true.
  - unfold utx_new, utx_message. pose proof (tx_new_nopanic H _ dd cs C1 F1 Hdd C2 Fc) as N. destruct (tx_new H (map ui_to_sign ins) dd cs) as [t| |] eqn:Et; cbn [bind]; [|discriminate|congruence].
    destruct (tx_new_inv _ _ _ _ _ Et) as (mm & ? & Em & _ & _ & Eq). unfold bytes_to_sign. rewrite Eq. cbn [t_inputs t_data t_cands]. rewrite Em. discriminate.
  - intros u Eu. pose proof Eu as Eu'. unfold utx_new in Eu'. inv_bind Eu'. injection Eu' as Eq. rewrite <- Eq in *. cbn [u_inputs u_data u_cands].
    unfold utx_json_ok. cbn [u_inputs u_data u_cands]. repeat (split; [auto; unfold count_ok; lia|]). exact Eu.
Qed.
End Accept.
