(** EIP-12 documents are read back, and what JavaScript does to them. *)
From Verif Require Import Base VlqModel VlqProofs GfModel GroupModel SigmaModel ProverModel TypeModel MethodModel IrModel SerModel ChainModel
  WalletModel TxModel SignModel HeaderModel MerkleModel JsonModel Eip12Model SigmaSpec SerSpec SerLocal SerProofs SerProps ReadProofs ParseProofs TxProps ParseProps
  ChainProps WalletProps DeriveProps PowProps GroupProofs SbProofs SigmaProofs VerifierProofs EncodingProofs TypeProofs JsonProofs JsonProps.
From Coq Require Import Permutation Sorted.
Import SigmaModel SigmaProofs JsonModel TypeProofs.
Local Open Scope string_scope.
Local Open Scope list_scope.
Local Open Scope Z_scope.

(** ** Texts of amounts *)
Lemma dec_head : forall fuel n, 0 < n < 10 ^ Z.of_nat fuel -> exists c l, dec_text fuel n = c :: l /\ 49 <= c <= 57.
Proof.
  induction fuel as [|fuel IH]; intros n H; [cbn in H; lia|]. cbn [dec_text].
  destruct (Z.ltb_spec n 10).
  - exists (48 + n mod 10), []. split; [reflexivity|]. rewrite Z.mod_small by lia. lia.
  - destruct (IH (n / 10)) as (c & l & E & R).
    { rewrite Nat2Z.inj_succ, Z.pow_succ_r in H by lia. split; [apply Z.div_str_pos; lia|apply Z.div_lt_upper_bound; lia]. }
    rewrite E. exists c, (l ++ [48 + n mod 10]). split; [reflexivity|exact R].
Qed.
Lemma amount_text : forall v, u64 v -> amount (u64_text v) = Ok v.
Proof.
  intros v H. unfold u64 in H. destruct (Z.eq_dec v 0) as [->|N]; [reflexivity|].
  assert (B : 2 ^ 64 < 10 ^ Z.of_nat 20) by (vm_compute; reflexivity).
  destruct (dec_head 20 v ltac:(lia)) as (c & l & E & R). destruct (dec_text_spec 20 v ltac:(lia) ltac:(lia)) as (V & F & _).
  unfold u64_text. cbn [amount]. rewrite E in *.
  assert (D : digits_value 0 (c :: l) = Some v) by (rewrite digits_value_spec by exact F; f_equal; exact V).
  assert (K : (if (49 <=? c) && (c <=? 57) then
                    match digits_value 0 (c :: l) with
                    | Some v => if v <? 2 ^ 64 then Ok v else Err "can't convert"
                    | None => Err "can't convert"
                    end else Err "can't convert") = Ok v).
  { replace ((49 <=? c) && (c <=? 57)) with true by lia. rewrite D. replace (v <? 2 ^ 64) with true by lia. reflexivity. }
  rewrite <- K. destruct (Z.eq_dec c 48) as [->|Nc]; [lia|].
  clear - Nc R. assert (C : c = 49 \/ c = 50 \/ c = 51 \/ c = 52 \/ c = 53 \/ c = 54 \/ c = 55 \/ c = 56 \/ c = 57) by lia.
  repeat destruct C as [->|C]; try reflexivity. subst. reflexivity.
Qed.

(** ** What is written is read back *)
Section Rt12.
Context {G : group}.
Variable ord : members -> members.
Hypothesis Hord : forall l, Permutation l (ord l).

Lemma token12_rt : forall t, token_json_ok t -> token_of_json (eip12_token t) = Ok t.
Proof.
  intros [id a] [[H1 H2] H3]. cbn [fst snd] in *. unfold token_of_json, eip12_token. cbn [as_fields bind fst snd].
  fld. rewrite digest_rt by assumption. cbn [bind].
  fld. rewrite amount_text by assumption. reflexivity.
Qed.
Lemma members12_rt : forall c : cand G, cand_json_ok c -> exists t r, json_of_tree (cd_tree c) = Ok t /\ json_of_regs ord (cd_regs c) = Ok r /\
  eip12_members ord c = Ok [(txt "value", u64_text (cd_value c)); (txt "ergoTree", t);
      (txt "assets", JArr (map eip12_token (cd_tokens c)));
      (txt "additionalRegisters", r); (txt "creationHeight", JNum (cd_height c))] /\
  forall m, lookup ["value"] m = Ok (Some (u64_text (cd_value c))) -> lookup ["ergoTree"] m = Ok (Some t) ->
    lookup ["assets"] m = Ok (Some (JArr (map eip12_token (cd_tokens c)))) -> lookup ["additionalRegisters"] m = Ok (Some r) ->
    lookup ["creationHeight"] m = Ok (Some (JNum (cd_height c))) -> cand_of_members m = Ok c.
Proof.
  intros [v t k r h] (H1 & H2 & H3 & H4 & H5 & H6 & H7). cbn [cd_value cd_tree cd_tokens cd_regs cd_height] in *.
  destruct (tree_rt t H2) as (jt & Et & Rt). destruct (regs_rt ord Hord r H5 H6) as (jr & Er & Rr).
  exists jt, jr. split; [exact Et|]. split; [exact Er|]. split; [unfold eip12_members; cbn [cd_value cd_tree cd_tokens cd_regs cd_height]; rewrite Et, Er; reflexivity|].
  intros m L1 L2 L3 L4 L5. unfold cand_of_members.
  rewrite (field_of _ _ _ _ _ L1), amount_text by exact H1. cbn [bind].
  rewrite (field_of _ _ _ _ _ L2), Rt. cbn [bind]. rewrite (field_of _ _ _ _ _ L3). cbn [list_of].
  rewrite traverse_map by (eapply Forall_impl; [|exact H3]; apply token12_rt). cbn [bind].
  rewrite (field_of _ _ _ _ _ L4), Rr. cbn [bind]. rewrite (field_of _ _ _ _ _ L5), uint_num by exact H7. cbn [bind].
  unfold tokens_bounded. replace (max_tokens <? Zlen k) with false by lia. reflexivity.
Qed.
Lemma cand12_rt : forall c : cand G, cand_json_ok c -> exists j, eip12_cand ord c = Ok j /\ cand_of_json j = Ok c.
Proof.
  intros c H. destruct (members12_rt c H) as (t & r & _ & _ & E & R). unfold eip12_cand. rewrite E. eexists. split; [reflexivity|].
  unfold cand_of_json. cbn [as_fields bind]. apply R; look.
Qed.
Lemma box12_rt : forall H id (b : box G), hash32 H -> cand_json_ok (b_cand b) -> idb (b_txid b) -> u16 (b_index b) -> box_id H b = Ok id ->
  exists j, eip12_box ord (id, b) = Ok j /\ box_of_json H j = Ok (id, b).
Proof.
  intros H id b HH Hc Hx Hi Eid.
  assert (Hid : idb id).
  { unfold box_id in Eid. inv_bind Eid. injection Eid as <-. destruct (HH b0) as [L B]. split; [exact B|unfold Zlen; rewrite L; reflexivity]. }
  destruct b as [c x i]. cbn [b_cand b_txid b_index] in *.
  destruct (members12_rt c Hc) as (t & r & _ & _ & E & R). unfold eip12_box. cbn [fst snd b_cand b_txid b_index]. rewrite E. cbn [bind app].
  eexists. split; [reflexivity|]. unfold box_of_json. cbn [as_fields bind].
  erewrite opt_field_of; [|look|discriminate|apply digest_rt; apply Hid]. cbn [bind]. rewrite R by look. cbn [bind].
  fld. rewrite digest_rt by apply Hx. cbn [bind].
  fld. rewrite uint_num by exact Hi. cbn [bind]. cbv zeta. rewrite Eid. cbn [bind].
  replace (bytes_eqb id id) with true by (symmetry; apply bytes_eqb_spec; reflexivity). reflexivity.
Qed.

(** The documents of the parts of a transaction determine how it is read. *)
Lemma utx_read : forall H ji jc (ins : list (uinput G)) d cs, traverse uinput_of_json ji = Ok ins -> data_json_ok d ->
  traverse cand_of_json jc = Ok cs -> count_ok ins -> count_ok cs ->
  utx_of_json H (JObj [(txt "inputs", JArr ji); (txt "dataInputs", JArr (map json_of_data (data_or_empty d))); (txt "outputs", JArr jc)]) =
  utx_new H ins d cs.
Proof.
  intros H ji jc ins d cs Ri Hd Rc Ci Cc. destruct (opt_vec_rt _ Hd) as [Ev Fv].
  unfold utx_of_json. cbn [as_fields bind]. fld. cbn [list_of]. rewrite Ri. cbn [bind].
  fld. cbn [list_of]. rewrite traverse_map by (eapply Forall_impl; [|exact Fv]; apply data_rt). cbn [bind].
  fld. cbn [list_of]. rewrite Rc. cbn [bind]. unfold utx_of_vecs, txio_ok.
  unfold count_ok in *. replace ((1 <=? Zlen ins) && (Zlen ins <=? 65535)) with true by lia. cbn [negb]. rewrite Ev. cbn [bind].
  replace ((1 <=? Zlen cs) && (Zlen cs <=? 65535)) with true by lia. reflexivity.
Qed.
Lemma tx_read : forall H id ji jo (ins : list (input G)) d outs cs, idb id -> traverse input_of_json ji = Ok ins -> data_json_ok d ->
  traverse (box_of_json H) jo = Ok outs -> map (fun b => b_cand (snd b)) outs = cs -> count_ok ins -> count_ok cs ->
  tx_of_json H (JObj [(txt "id", to_hex id); (txt "inputs", JArr ji);
                      (txt "dataInputs", JArr (map json_of_data (data_or_empty d))); (txt "outputs", JArr jo)]) =
  (t <- tx_new H ins d cs ;; if bytes_eqb (t_id t) id then Ok t else Err "InvalidTxId").
Proof.
  intros H id ji jo ins d outs cs Hid Ri Hd Ro M Ci Cc. destruct (opt_vec_rt _ Hd) as [Ev Fv].
  unfold tx_of_json. cbn [as_fields bind]. fld. rewrite digest_rt by apply Hid. cbn [bind].
  fld. cbn [list_of]. rewrite Ri. cbn [bind].
  fld. cbn [list_of]. rewrite traverse_map by (eapply Forall_impl; [|exact Fv]; apply data_rt). cbn [bind].
  fld. cbn [list_of]. rewrite Ro. cbn [bind]. rewrite M. unfold tx_of_vecs, txio_ok.
  unfold count_ok in *. replace ((1 <=? Zlen ins) && (Zlen ins <=? 65535)) with true by lia. cbn [negb]. rewrite Ev. cbn [bind].
  replace ((1 <=? Zlen cs) && (Zlen cs <=? 65535)) with true by lia. reflexivity.
Qed.
Lemma outputs12_rt : forall H txid (cs : list (cand G)) i l, hash32 H -> idb txid -> Forall cand_json_ok cs -> mk_outputs H txid i cs = Ok l ->
  map (fun b => b_cand (snd b)) l = cs /\ exists js, traverse (eip12_box ord) l = Ok js /\ traverse (box_of_json H) js = Ok l.
Proof.
  intros H txid cs. induction cs as [|c cs IH]; intros i l HH Hx F E; cbn [mk_outputs] in E.
  - injection E as <-. split; [reflexivity|]. exists []. split; reflexivity.
  - cbv zeta in E. inv_bind E. inv_bind E. injection E as <-. inversion F as [|c' cs' Hc Fc]; subst. destruct (IH _ _ HH Hx Fc Eb0) as (M & js & E1 & E2).
    split; [cbn [map snd b_cand]; rewrite M; reflexivity|].
    destruct (box12_rt H b (MkBox c txid (wrapu 16 i))) as (j & Ej & Rj); auto.
    { cbn [b_index]. unfold u16, wrapu. apply Z.mod_pos_bound. reflexivity. }
    exists (j :: js). cbn [traverse]. rewrite Ej, E1. cbn [bind]. split; [reflexivity|]. rewrite Rj, E2. reflexivity.
Qed.
Lemma utx12_parts : forall u : utx G, Forall uinput_json_ok (u_inputs u) -> Forall cand_json_ok (u_cands u) ->
  exists ji jc, traverse json_of_uinput (u_inputs u) = Ok ji /\ traverse (eip12_cand ord) (u_cands u) = Ok jc /\ traverse cand_of_json jc = Ok (u_cands u) /\
  traverse uinput_of_json ji = Ok (u_inputs u) /\
  eip12_utx ord u = Ok (JObj [(txt "inputs", JArr ji); (txt "dataInputs", JArr (map json_of_data (data_or_empty (u_data u)))); (txt "outputs", JArr jc)]).
Proof.
  intros u Fi Fc.
  destruct (traverse_rt _ _ uinput_of_json json_of_uinput (u_inputs u)) as (ji & Ei & Ri); [eapply Forall_impl; [|exact Fi]; apply uinput_rt|].
  destruct (traverse_rt _ _ cand_of_json (eip12_cand ord) (u_cands u)) as (jc & Ec & Rc); [eapply Forall_impl; [|exact Fc]; apply cand12_rt|].
  exists ji, jc. repeat (split; [assumption|]). unfold eip12_utx. rewrite Ei, Ec. reflexivity.
Qed.
Lemma tx12_parts : forall H (t : tx G), hash32 H -> tx_json_ok H t -> idb (t_id t) /\
  exists ji jo, traverse json_of_input (t_inputs t) = Ok ji /\ traverse (eip12_box ord) (t_outputs t) = Ok jo /\ traverse (box_of_json H) jo = Ok (t_outputs t) /\
  map (fun b => b_cand (snd b)) (t_outputs t) = t_cands t /\ traverse input_of_json ji = Ok (t_inputs t) /\
  eip12_tx ord t = Ok (JObj [(txt "id", to_hex (t_id t)); (txt "inputs", JArr ji);
                      (txt "dataInputs", JArr (map json_of_data (data_or_empty (t_data t)))); (txt "outputs", JArr jo)]).
Proof.
  intros H t HH (Ci & Fi & Hd & Cc & Fc & E). pose proof (tx_new_inv _ _ _ _ _ E) as (m & outs & _ & _ & Eo & Et).
  assert (Hid : idb (t_id t)).
  { rewrite Et. cbn [t_id]. destruct (HH m) as [L B]. split; [exact B|unfold Zlen; rewrite L; reflexivity]. }
  split; [exact Hid|].
  assert (Eo' : mk_outputs H (t_id t) 0 (t_cands t) = Ok (t_outputs t)). { rewrite Et at 1 3. cbn [t_id t_outputs]. exact Eo. }
  destruct (traverse_rt _ _ input_of_json json_of_input (t_inputs t)) as (ji & Ei & Ri); [eapply Forall_impl; [|exact Fi]; apply input_rt|].
  destruct (outputs12_rt _ _ _ _ _ HH Hid Fc Eo') as (M & jo & E1 & E2).
  exists ji, jo. repeat (split; [assumption|]). unfold eip12_tx. rewrite Ei, E1. reflexivity.
Qed.
End Rt12.

(** ** JavaScript *)
Definition no_index {A} (m : list (bytes * A)) : bool := forallb (fun e => match array_index (fst e) with Some _ => false | None => true end) m.
Lemma js_keys_plain : forall A (m : list (bytes * A)), no_index m = true -> js_keys m = m.
Proof.
  intros A m H. unfold js_keys. assert (F : forall (m : list (bytes * A)) acc, no_index m = true ->
    fold_left (fun l e => match array_index (fst e) with Some v => insert_index v e l | None => l end) m acc = acc).
  { clear. induction m as [|e m IH]; intros acc H; [reflexivity|]. unfold no_index in H. cbn [forallb] in H. apply andb_prop in H. destruct H as [H1 H2].
    cbn [fold_left]. destruct (array_index (fst e)); [discriminate|]. apply IH. exact H2. }
  rewrite (F m [] H). cbn [map app]. clear F. unfold no_index in H. induction m as [|e m IH]; [reflexivity|]. cbn [forallb filter] in *.
  apply andb_prop in H. destruct H as [H1 H2]. destruct (array_index (fst e)); [discriminate|]. rewrite (IH H2). reflexivity.
Qed.

Lemma insert_index_perm : forall A v (e : A) l, Permutation ((v, e) :: l) (insert_index v e l).
Proof.
  intros A v e. induction l as [|[v' e'] l IH]; [apply Permutation_refl|]. cbn [insert_index]. destruct (v <? v'); [apply Permutation_refl|].
  eapply Permutation_trans; [apply perm_swap|]. apply perm_skip. exact IH.
Qed.
Lemma insert_index_sorted : forall A v (e : A) l, StronglySorted Z.le (map fst l) -> StronglySorted Z.le (map fst (insert_index v e l)).
Proof.
  intros A v e. induction l as [|[v' e'] l IH]; intros H; cbn [insert_index]; [repeat constructor|]. cbn [map fst] in H. apply StronglySorted_inv in H. destruct H as [H1 H2].
  destruct (Z.ltb_spec v v').
  - cbn [map fst]. constructor; [constructor; assumption|]. constructor; [lia|]. eapply Forall_impl; [|exact H2]. intros; lia.
  - cbn [map fst]. constructor; [apply IH; exact H1|]. apply Forall_forall. intros x Hx.
    apply (Permutation_in _ (Permutation_sym (Permutation_map fst (insert_index_perm A v e l)))) in Hx. cbn [map fst In] in Hx. destruct Hx as [<-|Hx]; [lia|].
    rewrite Forall_forall in H2. apply H2. exact Hx.
Qed.
(** Members that all have index names come out in the order of their indices. *)
Lemma js_keys_index : forall A (m : list (bytes * A)) f, (forall e, In e m -> array_index (fst e) = Some (f e)) ->
  exists r, js_keys m = r /\ Permutation m r /\ StronglySorted Z.le (map f r).
Proof.
  intros A m f Hf. exists (js_keys m). split; [reflexivity|].
  assert (K : forall m acc, (forall e, In e m -> array_index (fst e) = Some (f e)) -> Forall (fun p => fst p = f (snd p)) acc -> StronglySorted Z.le (map fst acc) ->
    let r := fold_left (fun l (e : bytes * A) => match array_index (fst e) with Some v => insert_index v e l | None => l end) m acc in
    Permutation (m ++ map snd acc) (map snd r) /\ Forall (fun p => fst p = f (snd p)) r /\ StronglySorted Z.le (map fst r)).
  { clear. induction m as [|e m IH]; intros acc Hf Ha Hs; cbv zeta; cbn [fold_left]; [split; [apply Permutation_refl|split; assumption]|].
    rewrite (Hf e) by (left; reflexivity). destruct (IH (insert_index (f e) e acc)) as (P & F & S).
    - intros e' He. apply Hf. right. exact He.
    - apply Forall_forall. intros p Hp. apply (Permutation_in _ (Permutation_sym (insert_index_perm _ (f e) e acc))) in Hp.
      destruct Hp as [<-|Hp]; [reflexivity|]. rewrite Forall_forall in Ha. apply Ha. exact Hp.
    - apply insert_index_sorted. exact Hs.
    - split; [|split; assumption]. eapply Permutation_trans; [|exact P]. cbn [app]. eapply Permutation_trans; [apply Permutation_middle|].
      apply Permutation_app_head. apply (Permutation_map snd (insert_index_perm _ (f e) e acc)). }
  destruct (K m [] Hf (Forall_nil _) (SSorted_nil _)) as (P & F & S). unfold js_keys.
  assert (N : filter (fun e : bytes * A => match array_index (fst e) with Some _ => false | None => true end) m = []).
  { clear - Hf. induction m as [|e m IH]; [reflexivity|]. cbn [filter]. rewrite (Hf e) by (left; reflexivity). apply IH. intros e' He. apply Hf. right. exact He. }
  rewrite N, app_nil_r. cbn [map app] in P. rewrite app_nil_r in P. split; [exact P|].
  set (r := fold_left _ m []) in *. clearbody r. replace (map f (map snd r)) with (map fst r); [exact S|].
  clear - F. induction F as [|p r Hp _ IH]; [reflexivity|]. cbn [map]. rewrite Hp, IH. reflexivity.
Qed.

Lemma index_of_byte : forall i, u8 i -> array_index (dec_text 3 i) = Some i.
Proof.
  intros i H. assert (K : forallb (fun n => match array_index (dec_text 3 (Z.of_nat n)) with Some v => v =? Z.of_nat n | None => false end) (seq 0 256) = true)
    by (vm_compute; reflexivity).
  rewrite forallb_forall in K. specialize (K (Z.to_nat i)). unfold u8 in H. rewrite Z2Nat.id in K by lia.
  assert (I : In (Z.to_nat i) (seq 0 256)) by (apply in_seq; lia). specialize (K I).
  destruct (array_index (dec_text 3 i)); [|discriminate]. apply Z.eqb_eq in K. congruence.
Qed.

(** The variables of an input in ascending order. *)
Definition ascending {G} (m m' : ext G) : Prop := Permutation m m' /\ StronglySorted Z.lt (map fst m').
Lemma sorted_unique : forall A (m m' : list (Z * A)), Permutation m m' -> StronglySorted Z.lt (map fst m) -> StronglySorted Z.lt (map fst m') -> m = m'.
Proof.
  intros A. induction m as [|e m IH]; intros m' P S S'; [apply Permutation_nil in P; auto|].
  destruct m' as [|e' m']; [apply Permutation_sym, Permutation_nil in P; discriminate|]. cbn [map] in *.
  apply StronglySorted_inv in S. destruct S as [S1 S2]. apply StronglySorted_inv in S'. destruct S' as [S1' S2']. rewrite Forall_forall in S2, S2'.
  assert (E : e = e').
  { assert (I1 : In e (e' :: m')) by (apply (Permutation_in _ P); left; reflexivity).
    assert (I2 : In e' (e :: m)) by (apply (Permutation_in _ (Permutation_sym P)); left; reflexivity).
    destruct I1 as [I1|I1]; [auto|]. destruct I2 as [I2|I2]; [auto|].
    apply (in_map fst) in I1, I2. apply S2 in I2. apply S2' in I1. lia. }
  subst e'. f_equal. apply IH; auto. apply Permutation_cons_inv in P. exact P.
Qed.
Lemma le_lt_sorted : forall l, NoDup l -> StronglySorted Z.le l -> StronglySorted Z.lt l.
Proof.
  induction l as [|x l IH]; intros N S; [constructor|]. inversion N; subst. apply StronglySorted_inv in S. destruct S as [S1 S2]. constructor; [apply IH; assumption|].
  apply Forall_forall. intros y Hy. rewrite Forall_forall in S2. specialize (S2 y Hy). assert (x <> y) by congruence. lia.
Qed.

Section Js.
Context {G : group}.
Variable far : Z -> Z.
Notation js := (js_pass far).
Lemma ascending_exists : forall m : ext G, NoDup (map fst m) -> exists m', ascending m m'.
Proof.
  intros m N.
  assert (K : forall l : ext G, exists m', Permutation l m' /\ StronglySorted Z.le (map fst m')).
  { induction l as [|[v e] l (m' & P & S)]; [exists []; split; constructor|]. exists (insert_index v e m'). split.
    - eapply Permutation_trans; [apply perm_skip; exact P|]. apply insert_index_perm.
    - apply insert_index_sorted. exact S. }
  destruct (K m) as (m' & P & S). exists m'. split; [exact P|]. apply le_lt_sorted; [|exact S].
  eapply Permutation_NoDup; [apply Permutation_map; exact P|exact N].
Qed.
Lemma ext_json_perm : forall m m' : ext G, Permutation m m' -> ext_json_ok m -> ext_json_ok m'.
Proof.
  intros m m' P [N F]. split; [eapply Permutation_NoDup; [apply Permutation_map; exact P|exact N]|].
  apply Forall_forall. intros e He. rewrite Forall_forall in F. apply F. apply (Permutation_in _ (Permutation_sym P)). exact He.
Qed.
Lemma js_ext : forall (m m' : ext G) j, ext_json_ok m -> ascending m m' -> json_of_ext m = Ok j -> json_of_ext m' = Ok (js j).
Proof.
  intros m m' j [N F] [P S] E. unfold json_of_ext in E. inv_bind E. injection E as <-. rename b into l.
  pose proof (traverse_inv _ _ _ _ _ Eb) as T.
  assert (R : Forall2 (fun (p : bytes * json) (e : Z * const G) => json_of_entry e = Ok p /\ u8 (fst e) /\ js (snd p) = snd p) l m).
  { clear - T F. induction T as [|e p m l He _ IH]; [constructor|]. inversion F as [|e' m' [Hu (bs & Hb & _)] Hm]; subst. constructor; [|apply IH; exact Hm].
    split; [exact He|]. split; [exact Hu|]. unfold json_of_entry in He. rewrite Hb in He. cbn [bind] in He. injection He as <-. reflexivity. }
  assert (M : map (fun e : bytes * json => (fst e, js (snd e))) l = l).
  { clear - R. induction R as [|p e l m (_ & _ & Hp) _ IH]; [reflexivity|]. cbn [map]. rewrite Hp, IH. destruct p. reflexivity. }
  change (js (JObj l)) with (JObj (js_keys (map (fun e : bytes * json => (fst e, js (snd e))) l))). rewrite M.
  set (f := fun p : bytes * json => match array_index (fst p) with Some v => v | None => 0 end).
  assert (Hf : forall p, In p l -> array_index (fst p) = Some (f p) /\ exists e, In e m /\ json_of_entry e = Ok p /\ f p = fst e).
  { clear - R. induction R as [|p e l m (He & Hu & _) _ IH]; intros q [].
    - subst q. unfold json_of_entry in He. inv_bind He. assert (Ep : p = (dec_text 3 (fst e), to_hex b)) by congruence. subst p. unfold f. cbn [fst]. rewrite index_of_byte by exact Hu.
      split; [reflexivity|]. exists e. split; [left; reflexivity|]. split; [|reflexivity]. unfold json_of_entry. rewrite Eb. reflexivity.
    - destruct (IH q H) as (A & e' & I1 & I2). split; [exact A|]. exists e'. split; [right; exact I1|exact I2]. }
  destruct (js_keys_index _ l f) as (r & -> & Pr & Sr); [intros p Hp; apply Hf; exact Hp|].
  destruct (forall2_perm _ _ _ _ _ _ Pr R) as (m2 & P2 & R2).
  assert (K : map f r = map fst m2).
  { clear - R2. induction R2 as [|p e l m (He & Hu & _) _ IH]; [reflexivity|]. cbn [map]. rewrite IH. f_equal.
    unfold json_of_entry in He. inv_bind He. assert (Ep : p = (dec_text 3 (fst e), to_hex b)) by congruence. subst p. unfold f. cbn [fst]. rewrite index_of_byte by exact Hu. reflexivity. }
  assert (E2 : m2 = m').
  { apply sorted_unique; [|apply le_lt_sorted|exact S].
    - eapply Permutation_trans; [apply Permutation_sym; exact P2|exact P].
    - eapply Permutation_NoDup; [apply Permutation_map; exact P2|exact N].
    - rewrite <- K. exact Sr. }
  subst m2. unfold json_of_ext. erewrite traverse_ok; [reflexivity|].
  clear - R2. induction R2 as [|p e l m (He & _) _ IH]; constructor; auto.
Qed.

Lemma js_obj : forall m, no_index m = true -> js (JObj m) = JObj (map (fun e => (fst e, js (snd e))) m).
Proof.
  intros m H. change (js (JObj m)) with (JObj (js_keys (map (fun e : bytes * json => (fst e, js (snd e))) m))). rewrite js_keys_plain; [reflexivity|].
  unfold no_index in *. clear - H. induction m as [|e m IH]; [reflexivity|]. cbn [map forallb fst] in *. apply andb_prop in H. destruct H as [-> H]. exact (IH H).
Qed.
Lemma js_hex : forall b, js (to_hex b) = to_hex b. Proof. reflexivity. Qed.
Lemma js_small : forall n, 0 <= n < 2 ^ 32 -> js (JNum n) = JNum n.
Proof. intros n H. cbn [js_pass]. unfold js_number. replace (Z.abs n <=? 2 ^ 53) with true by lia. reflexivity. Qed.
Lemma js_token : forall t, js (eip12_token t) = eip12_token t.
Proof. intros t. unfold eip12_token. rewrite js_obj by reflexivity. reflexivity. Qed.
Variable ord : members -> members.
Hypothesis Hord : forall l, Permutation l (ord l).
Lemma reg_key_plain : forall i, 4 <= i <= 9 -> array_index (reg_id_text i) = None.
Proof. intros i H. assert (C : i = 4 \/ i = 5 \/ i = 6 \/ i = 7 \/ i = 8 \/ i = 9) by lia. repeat destruct C as [->|C]; try reflexivity; subst; reflexivity. Qed.
Lemma js_regs : forall (l : list (regval G)) j, Zlen l <= 6 -> json_of_regs ord l = Ok j -> js j = j.
Proof.
  intros l j L E. unfold json_of_regs in E. inv_bind E. injection E as <-. rename b into m.
  assert (K : Forall (fun e : bytes * json => array_index (fst e) = None /\ js (snd e) = snd e) m).
  { destruct (c34_map_of_regs G l L) as (_ & [_ HI] & _). apply traverse_inv in Eb. clear - Eb HI. induction Eb as [|[k v] e r m He _ IH]; [constructor|].
    cbn [map fst] in HI. inversion HI; subst. constructor; [|apply IH; assumption]. unfold json_of_reg in He. cbn [fst snd] in He. inv_bind He. injection He as <-.
    split; [apply reg_key_plain; assumption|reflexivity]. }
  assert (K' : Forall (fun e : bytes * json => array_index (fst e) = None /\ js (snd e) = snd e) (ord m)).
  { apply Forall_forall. intros e He. rewrite Forall_forall in K. apply K. apply (Permutation_in _ (Permutation_sym (Hord m))). exact He. }
  rewrite js_obj.
  - f_equal. clear - K'. induction K' as [|[k v] r [_ He] _ IH]; [reflexivity|]. cbn [map fst snd] in *. rewrite He, IH. reflexivity.
  - clear - K'. unfold no_index. induction K' as [|[k v] r [He _] _ IH]; [reflexivity|]. cbn [forallb]. rewrite He. exact IH.
Qed.
Lemma js_members : forall (c : cand G) m, cand_json_ok c -> eip12_members ord c = Ok m -> map (fun e => (fst e, js (snd e))) m = m /\ no_index m = true.
Proof.
  intros c m Hc E. destruct (members12_rt ord Hord c Hc) as (t & r & Et & Er & E' & _). rewrite E in E'. injection E' as ->.
  destruct Hc as (_ & _ & _ & _ & _ & L & Hh). unfold json_of_tree in Et. inv_bind Et. injection Et as <-. split; [|reflexivity].
  cbn [map fst snd]. rewrite (js_regs _ _ L Er), js_small by (unfold u32 in Hh; lia). rewrite js_hex. unfold u64_text.
  change (js (JArr (map eip12_token (cd_tokens c)))) with (JArr (map js (map eip12_token (cd_tokens c)))). rewrite map_map.
  rewrite (map_ext (fun x => js (eip12_token x)) eip12_token) by apply js_token. reflexivity.
Qed.
Lemma js_cand : forall (c : cand G) j, cand_json_ok c -> eip12_cand ord c = Ok j -> js j = j.
Proof.
  intros c j Hc E. unfold eip12_cand in E. inv_bind E. injection E as <-. destruct (js_members _ _ Hc Eb) as [M N]. rewrite js_obj by exact N. rewrite M. reflexivity.
Qed.
Lemma js_box : forall id (b : box G) j, cand_json_ok (b_cand b) -> u16 (b_index b) -> eip12_box ord (id, b) = Ok j -> js j = j.
Proof.
  intros id b j Hc Hi E. unfold eip12_box in E. cbn [fst snd] in E. inv_bind E. injection E as <-. destruct (js_members _ _ Hc Eb) as [M N]. rewrite js_obj.
  - cbn [map]. rewrite map_app, M. cbn [map fst snd]. rewrite js_small by (unfold u16 in Hi; lia). reflexivity.
  - unfold no_index in *. cbn [forallb]. rewrite forallb_app, N. reflexivity.
Qed.
Lemma js_uinputs : forall (ins ins' : list (uinput G)) ji, Forall uinput_json_ok ins ->
  Forall2 (fun i i' => ui_box i = ui_box i' /\ ascending (ui_ext i) (ui_ext i')) ins ins' -> traverse json_of_uinput ins = Ok ji ->
  traverse uinput_of_json (map js ji) = Ok ins'.
Proof.
  intros ins ins' ji F A E. apply traverse_inv in E. revert ins' A F. induction E as [|i j ins ji Hj _ IH]; intros ins' A F; inversion A as [|x i' y l' [B As] A']; subst; [reflexivity|].
  inversion F as [|x' y' [Hb He] F']; subst. cbn [map traverse]. unfold json_of_uinput in Hj. inv_bind Hj. injection Hj as <-.
  pose proof (js_ext _ _ _ He As Eb) as Ej.
  assert (R : uinput_json_ok i'). { split; [rewrite <- B; exact Hb|]. destruct As as [P _]. eapply ext_json_perm; eassumption. }
  destruct (uinput_rt i' R) as (j' & E1 & E2). unfold json_of_uinput in E1. rewrite Ej in E1. cbn [bind] in E1. injection E1 as <-.
  rewrite js_obj by reflexivity. cbn [map fst snd]. rewrite js_hex, B, E2. cbn [bind]. rewrite (IH _ A' F'). reflexivity.
Qed.
Lemma js_inputs : forall (ins ins' : list (input G)) ji, Forall input_json_ok ins ->
  Forall2 (fun i i' => in_box i = in_box i' /\ in_proof i = in_proof i' /\ ascending (in_ext i) (in_ext i')) ins ins' -> traverse json_of_input ins = Ok ji ->
  traverse input_of_json (map js ji) = Ok ins'.
Proof.
  intros ins ins' ji F A E. apply traverse_inv in E. revert ins' A F. induction E as [|i j ins ji Hj _ IH]; intros ins' A F; inversion A as [|x i' y l' (B & Bp & As) A']; subst; [reflexivity|].
  inversion F as [|x' y' (Hb & Hp & He) F']; subst. cbn [map traverse]. unfold json_of_input, json_of_proof in Hj. inv_bind Hj. injection Hj as <-. inv_bind Eb. injection Eb as <-.
  pose proof (js_ext _ _ _ He As Eb0) as Ej.
  assert (R : input_json_ok i'). { split; [rewrite <- B; exact Hb|]. split; [rewrite <- Bp; exact Hp|]. destruct As as [P _]. eapply ext_json_perm; eassumption. }
  destruct (input_rt i' R) as (j' & E1 & E2). unfold json_of_input, json_of_proof in E1. rewrite Ej in E1. cbn [bind] in E1. injection E1 as <-.
  rewrite js_obj by reflexivity. cbn [map fst snd]. rewrite js_obj by reflexivity. cbn [map fst snd]. rewrite !js_hex, B, Bp, E2. cbn [bind]. rewrite (IH _ A' F'). reflexivity.
Qed.
Lemma js_list : forall A (w : A -> res json) l jl, traverse w l = Ok jl -> (forall a j, In a l -> w a = Ok j -> js j = j) -> map js jl = jl.
Proof.
  intros A w l jl E K. apply traverse_inv in E. induction E as [|a j l jl Hj _ IH]; [reflexivity|]. cbn [map]. rewrite (K a j) by (auto; left; reflexivity).
  rewrite IH; [reflexivity|]. intros b j' Hb. apply K. right. exact Hb.
Qed.
Lemma js_data : forall l, map js (map json_of_data l) = map json_of_data l.
Proof. intros l. rewrite map_map. apply map_ext. intros b. unfold json_of_data. rewrite js_obj by reflexivity. reflexivity. Qed.
End Js.
