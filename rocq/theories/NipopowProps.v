(** Properties C45, C46, C47 and C65: interlinks, the NIPoPoW verifier and proof
    comparison.  Throughout, [fl] stands for the floating-point level computation. *)
From Coq Require Import Sorted.
From Verif Require Import Base VlqModel VlqProofs IntBytes GroupModel GroupInstance MerkleModel MerkleSpec
  MerkleProofs MerkleProps HeaderModel PowModel PowProps NipopowModel NipopowProofs.
Local Open Scope string_scope.
Local Open Scope list_scope.
Local Open Scope Z_scope.

Definition id32 (i : bytes) : Prop := List.length i = 32%nat.

(** ** C45 *)

(** Whatever is packed unpacks to the same vector, also when other extension fields
    (any other key prefix) surround it; and the fields form a valid extension. *)
Theorem c45_pack_unpack : forall ids f before after, Forall id32 ids ->
  pack_interlinks ids = Ok f ->
  Forall (fun kv => hd 0 (fst kv) <> 1) before -> Forall (fun kv => hd 0 (fst kv) <> 1) after ->
  unpack_interlinks (before ++ f ++ after) = Ok ids /\ extension_new f = Ok f.
Proof.
  intros ids f before after HF E HB HA. unfold pack_interlinks in E.
  destruct ids as [|x ids]; [discriminate|]. inversion HF as [|? ? Hx HF']; subst. split.
  - rewrite !unpack_app, (unpack_others before HB), (unpack_others after HA). cbn [bind].
    rewrite (pack_loop_unpack ids x 1 0 f) by (auto; lia). cbn [bind app]. rewrite app_nil_r. reflexivity.
  - destruct (pack_loop_keys ids x 1 0 f ltac:(lia) Hx HF' E) as [_ [Hv _]].
    unfold extension_new. replace (forallb _ f) with true; auto. symmetry. apply forallb_forall.
    intros [k v] Hkv. rewrite Forall_forall in Hv. specialize (Hv _ Hkv). cbn [snd] in Hv. rewrite Hv. reflexivity.
Qed.
Print Assumptions c45_pack_unpack.

(** Packing succeeds for every non-empty vector of at most 255 links. *)
Theorem c45_pack_total_partial : forall ids, ids <> [] -> Zlen ids <= 255 ->
  exists f, pack_interlinks ids = Ok f.
Proof.
  intros [|x ids] Hne HL; [congruence|]. rewrite Zlen_cons in HL. apply pack_loop_total; lia.
Qed.
Print Assumptions c45_pack_total_partial.

Example c45_hyps_met : exists f, Forall id32 [repeat 1 32; repeat 1 32; repeat 2 32] /\
  pack_interlinks [repeat 1 32; repeat 1 32; repeat 2 32] = Ok f /\ List.length f = 2%nat.
Proof. eexists. split; [repeat constructor|]. split; reflexivity. Qed.

(** It does not succeed for every vector: the repetition counter is a byte. *)
Theorem c45_long_run_refuted : exists ids, ids <> [] /\ Forall id32 ids /\ pack_interlinks ids = Panic.
Proof.
  exists (repeat (repeat 7 32) 256). split; [discriminate|]. split.
  - apply Forall_forall. intros x Hx. apply repeat_spec in Hx. subst. reflexivity.
  - vm_compute. reflexivity.
Qed.
Print Assumptions c45_long_run_refuted.

(** *** Interlinks of a growing chain.  [links_after] feeds each new header to
    [update_interlinks], as a node does. *)
Section Links.
Context {G : group} (H : bytes -> bytes) (fl : Z -> Z -> Z).

Fixpoint links_fold (links : list bytes) (hs : list (header G)) : res (list bytes) :=
  match hs with
  | [] => Ok links
  | h :: t => l <- update_interlinks H fl h links ;; links_fold l t
  end.
Definition links_after (g : header G) (hs : list (header G)) : res (list bytes) :=
  l <- update_interlinks H fl g [] ;; links_fold l hs.

(** The most recent header of level at least [mu], and the highest level. *)
Definition latest (lv : header G -> Z) (mu : Z) (hs : list (header G)) : option (header G) :=
  last (map Some (filter (fun h => mu <=? lv h) hs)) None.
Definition top_level (lv : header G -> Z) (hs : list (header G)) : Z :=
  fold_right (fun h m => Z.max (lv h) m) 0 hs.
End Links.

Lemma links_fold_app : forall G H fl a b links,
  @links_fold G H fl links (a ++ b) = (l <- links_fold H fl links a ;; links_fold H fl l b).
Proof.
  induction a as [|h a IH]; intros b links; cbn [links_fold app bind]; auto.
  destruct (update_interlinks H fl h links); cbn [bind]; auto.
Qed.

Lemma last_some_app : forall A (l : list A) x, last (map Some (l ++ [x])) None = Some x.
Proof. intros. rewrite map_app. apply last_last. Qed.

Lemma latest_snoc : forall G lv mu (hs : list (header G)) h,
  latest lv mu (hs ++ [h]) = if mu <=? lv h then Some h else latest lv mu hs.
Proof.
  intros. unfold latest. rewrite filter_app. simpl. destruct (mu <=? lv h).
  - apply last_some_app.
  - rewrite app_nil_r. reflexivity.
Qed.

Lemma top_snoc : forall G lv (hs : list (header G)) h, 0 <= lv h ->
  top_level lv (hs ++ [h]) = Z.max (top_level lv hs) (lv h).
Proof. induction hs as [|x hs IH]; intros h Hh; simpl; [lia|]. rewrite IH by exact Hh. lia. Qed.

Lemma top_nonneg : forall G lv (hs : list (header G)), 0 <= top_level lv hs.
Proof. induction hs; simpl; lia. Qed.

Lemma nth_error_firstn : forall A (l : list A) n i, (i < n)%nat -> nth_error (firstn n l) i = nth_error l i.
Proof.
  induction l as [|a l IH]; intros [|n] [|i] Hi; simpl; auto; try lia. apply IH. lia.
Qed.

(** For every chain: the first link is the genesis block; besides it there is one link
    per level from the highest level seen down to 1, the [mu]-th from the end being the
    most recent block of level at least [mu]. *)
Theorem c45_interlinks_of_chain : forall G H fl (g : header G) hs lv,
  h_height g = 1 ->
  (forall h, In h hs -> h_height h <> 1 /\ max_level_of H fl h = Ok (lv h) /\ 0 <= lv h) ->
  exists links, links_after H fl g hs = Ok links /\
    Zlen links = 1 + top_level lv hs /\ nth_error links 0 = Some (h_id g) /\
    forall mu, 1 <= mu <= top_level lv hs ->
      exists b, latest lv mu hs = Some b /\
        nth_error links (Z.to_nat (Zlen links - mu)) = Some (h_id b).
Proof.
  intros G H fl g hs lv Hg. induction hs as [|h hs IH] using rev_ind; intros Hhs.
  - exists [h_id g]. unfold links_after, update_interlinks. rewrite Hg. change (1 =? 1) with true. cbv iota.
    cbn [bind links_fold]. split; [reflexivity|]. split; [reflexivity|]. split; [reflexivity|].
    intros mu Hmu. simpl in Hmu. lia.
  - destruct IH as (links & E & HL & H0 & Hmu).
    { intros x Hx. apply Hhs. apply in_or_app. left. exact Hx. }
    destruct (Hhs h) as [Hh [Elv Hlv]]; [apply in_or_app; right; left; reflexivity|].
    unfold links_after in *. destruct (update_interlinks H fl g []) as [l0|e|]; cbn [bind] in *; try discriminate.
    rewrite links_fold_app, E. cbn [bind links_fold]. unfold update_interlinks.
    replace (h_height h =? 1) with false by lia.
    destruct links as [|genesis tl]; [discriminate|]. cbn in H0. injection H0 as ->.
    rewrite Elv. cbn [bind]. rewrite top_snoc by exact Hlv. rewrite Zlen_cons in HL.
    pose proof (top_nonneg G lv hs) as Htn.
    set (T := top_level lv hs) in *. set (l := lv h) in *.
    assert (HG2 : exists tl', (if l =? 0 then Ok (h_id g :: tl) else if l <? 0 then Panic
        else if l <? Zlen (h_id g :: tl)
        then Ok (h_id g :: firstn (List.length tl - Z.to_nat l) tl ++ repeat (h_id h) (Z.to_nat l))
        else Ok (h_id g :: repeat (h_id h) (Z.to_nat l))) = Ok (h_id g :: tl') /\
        tl' = firstn (List.length tl - Z.to_nat l) tl ++ repeat (h_id h) (Z.to_nat l)).
    { destruct (l =? 0) eqn:E0.
      - exists tl. split; [reflexivity|]. apply Z.eqb_eq in E0. rewrite E0. simpl.
        rewrite Nat.sub_0_r, firstn_all, app_nil_r. reflexivity.
      - replace (l <? 0) with false by lia. destruct (l <? Zlen (h_id g :: tl)) eqn:E1.
        + eexists. split; reflexivity.
        + eexists. split; [reflexivity|]. rewrite Zlen_cons in E1.
          replace (Datatypes.length tl - Z.to_nat l)%nat with 0%nat by (unfold Zlen in E1; lia). reflexivity. }
    destruct HG2 as [tl' [-> Etl]]. exists (h_id g :: tl'). cbn [bind].
    assert (HTl : Z.of_nat (List.length tl) = T) by (unfold Zlen in HL; lia).
    assert (HTl' : Z.of_nat (List.length tl') = Z.max T l).
    { rewrite Etl, app_length, firstn_length, repeat_length. lia. }
    split; [reflexivity|]. split; [rewrite Zlen_cons; unfold Zlen; lia|]. split; [reflexivity|].
    intros mu Hm. rewrite latest_snoc. fold l. rewrite Zlen_cons. unfold Zlen. rewrite HTl'.
    replace (Z.to_nat (1 + Z.max T l - mu)) with (S (Z.to_nat (Z.max T l - mu))) by lia. cbn [nth_error].
    rewrite Etl. destruct (mu <=? l) eqn:Em.
    + exists h. split; [reflexivity|]. rewrite nth_error_app2 by (rewrite firstn_length; lia).
      rewrite nth_error_repeat; [reflexivity|]. rewrite firstn_length. lia.
    + destruct (Hmu mu ltac:(lia)) as [b [Eb Enb]]. exists b. split; [exact Eb|].
      rewrite Zlen_cons in Enb. unfold Zlen in Enb. rewrite HTl in Enb.
      replace (Z.to_nat (1 + T - mu)) with (S (Z.to_nat (T - mu))) in Enb by lia. cbn [nth_error] in Enb.
      replace (Z.max T l) with T by lia.
      rewrite nth_error_app1 by (rewrite firstn_length; lia).
      rewrite nth_error_firstn by lia. exact Enb.
Qed.
Print Assumptions c45_interlinks_of_chain.

(** A concrete level function and chain: version 1 headers carry their hit. *)
Definition toy_fl (target hit : Z) : Z := Z.log2 target - Z.log2 hit.
Definition toy_block (height : Z) (i par : bytes) (dist : Z) : header toyG :=
  Header 1 i par (repeat 2 32) (repeat 3 33) (repeat 4 32) 1600000000000 0x03010000
    height (repeat 5 32) (@Solution toyG ggen (Some gid) (repeat 7 8) (Some dist)) [0; 0; 0].
Definition bid (i : Z) : bytes := repeat i 32.
Definition toy_chain : list (header toyG) :=
  [toy_block 2 (bid 12) (bid 11) (2 ^ 238); toy_block 3 (bid 13) (bid 12) (2 ^ 239);
   toy_block 4 (bid 14) (bid 13) (2 ^ 237); toy_block 5 (bid 15) (bid 14) (2 ^ 238)].
Definition toy_genesis : header toyG := toy_block 1 (bid 11) (bid 0) 1.

Example c45_chain_hyps_met :
  let lv := fun h => match max_level_of toyH toy_fl h with Ok l => l | _ => 0 end in
  h_height toy_genesis = 1 /\
  (forall h, In h toy_chain -> h_height h <> 1 /\ max_level_of toyH toy_fl h = Ok (lv h) /\ 0 <= lv h) /\
  links_after toyH toy_fl toy_genesis toy_chain = Ok [bid 11; bid 14; bid 15] /\
  top_level lv toy_chain = 2.
Proof.
  cbv zeta. split; [reflexivity|]. split; [|split; vm_compute; reflexivity].
  intros h Hh. repeat (destruct Hh as [<-|Hh];
    [split; [discriminate|]; split; [vm_compute; reflexivity|vm_compute; discriminate]|]). destruct Hh.
Qed.

(** ** C46 *)

(** What the verifier stores after one call: failed calls leave it unchanged. *)
Definition step {G} H fl fuel (genesis : bytes) (best : option (nproof G)) (new : nproof G) : option (nproof G) :=
  match process H fl fuel genesis best new with
  | Ok (Some b) => b
  | _ => best
  end.
Definition run {G} H fl fuel genesis (best : option (nproof G)) (hist : list (nproof G)) : option (nproof G) :=
  fold_left (step H fl fuel genesis) hist best.

Definition anchored {G} (genesis : bytes) (p : nproof G) : Prop :=
  exists h rest, headers_chain p = h :: rest /\ h_id h = genesis.

Lemma step_cases : forall G H fl fuel genesis best (new : nproof G),
  step H fl fuel genesis best new = best \/
  (step H fl fuel genesis best new = Some new /\ anchored genesis new /\
   (best = None \/ exists old, best = Some old /\ is_better_than H fl fuel new old = Ok (Some true))).
Proof.
  intros. unfold step, process. destruct (headers_chain new) as [|h rest] eqn:Eh; [auto|].
  destruct (bytes_eqb (h_id h) genesis) eqn:Eg; [|auto].
  apply bytes_eqb_spec in Eg.
  assert (HA : anchored genesis new) by (exists h, rest; auto).
  destruct best as [old|].
  - destruct (is_better_than H fl fuel new old) as [[[]|]| |] eqn:Eb; cbn [bind]; auto.
    right. split; [reflexivity|]. split; [exact HA|]. right. exists old. auto.
  - right. auto.
Qed.

(** After any history the best proof is one of those received and starts at the
    configured genesis block; before any such proof arrives there is none. *)
Theorem c46_best_was_received : forall G H fl fuel genesis (hist : list (nproof G)) p,
  run H fl fuel genesis None hist = Some p -> In p hist /\ anchored genesis p.
Proof.
  intros G H fl fuel genesis hist p E.
  assert (HI : forall hist best, run H fl fuel genesis best hist = Some p ->
    best = Some p \/ (In p hist /\ anchored genesis p)).
  { clear. induction hist as [|x hist IH]; intros best E; [left; exact E|].
    cbn [run fold_left] in E. apply IH in E. destruct E as [E|[E1 E2]].
    - destruct (step_cases G H fl fuel genesis best x) as [Es|[Es [Ha _]]]; rewrite Es in E.
      + left. exact E.
      + injection E as ->. right. split; [left; reflexivity|exact Ha].
    - right. split; [right; exact E1|exact E2]. }
  destruct (HI hist None E) as [Ec|Ec]; [discriminate|exact Ec].
Qed.
Print Assumptions c46_best_was_received.

(** An anchored proof is always accepted when there is none yet, so the verifier has a
    best proof as soon as it has seen one. *)
Theorem c46_first_anchored_is_kept : forall G H fl fuel genesis (hist : list (nproof G)) p,
  In p hist -> anchored genesis p -> exists q, run H fl fuel genesis None hist = Some q.
Proof.
  intros G H fl fuel genesis hist p Hin [h [rest [Eh Ei]]].
  assert (HS : forall (hist : list (nproof G)) q, exists q', run H fl fuel genesis (Some q) hist = Some q').
  { clear. induction hist as [|x hist IH]; intros q; [exists q; reflexivity|]. cbn [run fold_left].
    destruct (step_cases G H fl fuel genesis (Some q) x) as [->|[-> _]]; apply IH. }
  assert (HN : forall (hist : list (nproof G)) b, In p hist -> exists q, run H fl fuel genesis b hist = Some q).
  { clear - HS Eh Ei. induction hist as [|x hist IH]; intros b Hin; [destruct Hin|].
    cbn [run fold_left]. destruct Hin as [->|Hin]; [|apply IH; exact Hin].
    destruct b as [q|].
    - destruct (step_cases G H fl fuel genesis (Some q) p) as [->|[-> _]]; apply HS.
    - replace (step H fl fuel genesis None p) with (Some p); [apply HS|].
      unfold step, process. rewrite Eh, Ei, bytes_eqb_refl. reflexivity. }
  apply HN. exact Hin.
Qed.
Print Assumptions c46_first_anchored_is_kept.

(** A stored proof is replaced only by the proof just received, and only if the
    comparison reports it to be better. *)
Theorem c46_replaced_only_by_better : forall G H fl fuel genesis (old new : nproof G),
  step H fl fuel genesis (Some old) new <> Some old ->
  step H fl fuel genesis (Some old) new = Some new /\
  is_better_than H fl fuel new old = Ok (Some true).
Proof.
  intros G H fl fuel genesis old new Hne.
  destruct (step_cases G H fl fuel genesis (Some old) new) as [E|[E [_ [Hc|[o [Eo Eb]]]]]].
  - contradiction.
  - discriminate.
  - injection Eo as <-. auto.
Qed.
Print Assumptions c46_replaced_only_by_better.

(** The comparison between a valid and an invalid proof. *)
Lemma better_valid : forall G H fl fuel (p q : nproof G),
  is_better_than H fl fuel p q = Ok (Some true) -> is_valid H p = Ok true.
Proof.
  intros G H fl fuel p q E. unfold is_better_than in E.
  destruct (is_valid H p) as [[]| |] eqn:Ep; cbn [bind rmap] in E; try discriminate. reflexivity.
Qed.
Lemma not_better_valid : forall G H fl fuel (p q : nproof G),
  is_valid H p = Ok true -> is_better_than H fl fuel p q = Ok (Some false) -> is_valid H q = Ok true.
Proof.
  intros G H fl fuel p q Ep E. unfold is_better_than in E. rewrite Ep in E. cbn [bind rmap] in E.
  destruct (is_valid H q) as [[]| |]; cbn [bind] in E; try discriminate. reflexivity.
Qed.

(** Once a valid proof anchored at the genesis block has been processed without a
    failure, the best proof is valid, whatever is received afterwards.  Missing for the
    full claim: the first proof is stored without being validated (next theorem). *)
Theorem c46_valid_once_seen_partial : forall G H fl fuel genesis (hist1 hist2 : list (nproof G)) p b,
  anchored genesis p -> is_valid H p = Ok true ->
  process H fl fuel genesis (run H fl fuel genesis None hist1) p = Ok (Some b) ->
  exists q, run H fl fuel genesis None (hist1 ++ p :: hist2) = Some q /\ is_valid H q = Ok true.
Proof.
  intros G H fl fuel genesis hist1 hist2 p b [h [rest [Eh Ei]]] Ev Ep.
  unfold run. rewrite fold_left_app. fold (run H fl fuel genesis None hist1).
  set (best := run H fl fuel genesis None hist1) in *. clearbody best. cbn [fold_left].
  assert (HP : forall (hist : list (nproof G)) q, is_valid H q = Ok true ->
    exists q', fold_left (step H fl fuel genesis) hist (Some q) = Some q' /\ is_valid H q' = Ok true).
  { clear. induction hist as [|x hist IH]; intros q Hq; [exists q; auto|]. cbn [fold_left].
    destruct (step_cases G H fl fuel genesis (Some q) x) as [->|[-> [_ [Hc|[o [Eo Eb]]]]]].
    - apply IH. exact Hq.
    - discriminate.
    - apply IH. eapply better_valid. exact Eb. }
  unfold step at 2. rewrite Ep.
  unfold process in Ep. rewrite Eh, Ei, bytes_eqb_refl in Ep. destruct best as [old|].
  - apply bind_ok in Ep. destruct Ep as [o [Eo Ep]]. destruct o as [[]|]; try discriminate.
    + injection Ep as <-. apply HP. exact Ev.
    + injection Ep as <-. apply HP. eapply not_better_valid; eassumption.
  - injection Ep as <-. apply HP. exact Ev.
Qed.
Print Assumptions c46_valid_once_seen_partial.

(** Toy proofs: one valid, one with a broken parent link, one whose interlinks proof
    cannot even be checked. *)
Definition no_proof : batch_proof := {| indices := []; proofs := [] |}.
Definition toy_valid : nproof toyG :=
  NProof 1 1 [] (PoPow toy_genesis [] no_proof) [toy_block 2 (bid 12) (bid 11) (2 ^ 238)].
Definition toy_broken : nproof toyG :=
  NProof 1 1 [] (PoPow toy_genesis [] no_proof) [toy_block 2 (bid 12) (bid 99) (2 ^ 238)].
Definition toy_poison : nproof toyG :=
  NProof 1 1 [] (PoPow toy_genesis [] {| indices := [{| bi_index := 0; bi_hash := bid 1 |}]; proofs := [] |}) [].

Lemma step_first : forall fuel p, map (@h_id toyG) (firstn 1 (headers_chain p)) = [bid 11] ->
  step toyH toy_fl fuel (bid 11) None p = Some p.
Proof.
  intros fuel p E. unfold step, process. destruct (headers_chain p) as [|h t]; [discriminate|].
  cbn [firstn map] in E. injection E as E. rewrite E, bytes_eqb_refl. reflexivity.
Qed.

Example c46_hyps_met : anchored (bid 11) toy_valid /\ is_valid toyH toy_valid = Ok true /\
  process toyH toy_fl 10 (bid 11) (run toyH toy_fl 10 (bid 11) None [toy_broken]) toy_valid = Ok (Some (Some toy_valid)).
Proof.
  split; [exists toy_genesis; eexists; split; reflexivity|]. split; [vm_compute; reflexivity|].
  unfold run. cbn [fold_left]. rewrite (step_first 10 toy_broken) by reflexivity.
  unfold process. change (headers_chain toy_valid) with [toy_genesis; toy_block 2 (bid 12) (bid 11) (2 ^ 238)].
  change (bytes_eqb (h_id toy_genesis) (bid 11)) with true. cbv iota.
  replace (is_better_than toyH toy_fl 10 toy_valid toy_broken) with (Ok (Some true)) by (vm_compute; reflexivity).
  reflexivity.
Qed.

(** The first proof is accepted unchecked: the best proof can be invalid. *)
Theorem c46_first_unchecked_refuted : exists (p : nproof toyG) genesis, forall fuel,
  run toyH toy_fl fuel genesis None [p] = Some p /\ is_valid toyH p = Ok false.
Proof. exists toy_broken, (bid 11). intros fuel. split; [apply step_first; reflexivity|vm_compute; reflexivity]. Qed.
Print Assumptions c46_first_unchecked_refuted.

(** Worse, a stored proof with no interlinks but a non-empty interlinks proof makes the
    comparison with every later valid proof panic, so it is never replaced. *)
Theorem c46_poisoned_refuted : exists (bad : nproof toyG) genesis, forall fuel,
  run toyH toy_fl fuel genesis None [bad] = Some bad /\
  forall p, anchored genesis p -> is_valid toyH p = Ok true ->
    process toyH toy_fl fuel genesis (Some bad) p = Panic.
Proof.
  exists toy_poison, (bid 11). intros fuel. split; [apply step_first; reflexivity|].
  intros p [h [rest [Eh Ei]]] Ev. unfold process. rewrite Eh, Ei, bytes_eqb_refl.
  unfold is_better_than. rewrite Ev. cbn [bind].
  replace (is_valid toyH toy_poison) with (@Panic bool) by (vm_compute; reflexivity). reflexivity.
Qed.
Print Assumptions c46_poisoned_refuted.

(** ** C47 *)

Lemma adjacent_sorted : forall A (key : A -> Z) l,
  forallb (fun '(a, b) => key a <? key b) (List.combine l (skipn 1 l)) = true -> sorted_by key l.
Proof.
  induction l as [|a l IH]; intros E; [constructor|].
  destruct l as [|b l]; [constructor; constructor|].
  simpl in E. apply andb_true_iff in E. destruct E as [E1 E2]. specialize (IH E2).
  constructor; [exact IH|]. apply StronglySorted_inv in IH. destruct IH as [_ HF].
  constructor; [lia|]. eapply Forall_impl; [|exact HF]. intros c Hc. cbv beta in *. lia.
Qed.

Lemma valid_sorted : forall G H (p : nproof G), is_valid H p = Ok true -> sorted_by (@h_height G) (headers_chain p).
Proof.
  intros G H p E. unfold is_valid in E. destruct (has_valid_connections p && has_valid_heights p) eqn:E2; [|discriminate].
  apply andb_true_iff in E2. destruct E2 as [_ E2]. unfold has_valid_heights in E2.
  apply adjacent_sorted. exact E2.
Qed.

(** No proof is better than itself. *)
Theorem c47_irreflexive : forall G H fl fuel (p : nproof G) b,
  is_better_than H fl fuel p p = Ok (Some b) -> b = false.
Proof.
  intros G H fl fuel p b E. unfold is_better_than in E.
  destruct (is_valid H p) as [[]| |] eqn:Ep; cbn [bind rmap] in E; try discriminate.
  - destruct (lowest_common_ancestor _ _) as [l|]; [|congruence].
    destruct (best_arg _ _ _ _ _) as [[a|]| |]; cbn [bind] in E; try discriminate.
    injection E as <-. apply Z.ltb_irrefl.
  - congruence.
Qed.
Print Assumptions c47_irreflexive.

(** Two proofs with the same [m] are never each better than the other. *)
Theorem c47_asymmetric : forall G, group_ok G -> forall H fl f1 f2 (p q : nproof G), np_m p = np_m q ->
  is_better_than H fl f1 p q = Ok (Some true) -> is_better_than H fl f2 q p = Ok (Some true) -> False.
Proof.
  intros G HG H fl f1 f2 p q Em E1 E2.
  pose proof (better_valid _ _ _ _ _ _ E1) as Vp. pose proof (better_valid _ _ _ _ _ _ E2) as Vq.
  unfold is_better_than in E1, E2. rewrite Vp, Vq in *. cbn [bind] in E1, E2.
  rewrite (lca_sym HG (headers_chain q) (headers_chain p)) in E2 by (eapply valid_sorted; eassumption).
  destruct (lowest_common_ancestor _ _) as [l|]; [|discriminate].
  rewrite <- Em in E2.
  apply bind_ok in E1. destruct E1 as [o1 [Eo1 E1]]. destruct o1 as [a1|]; [|discriminate].
  apply bind_ok in E1. destruct E1 as [o2 [Eo2 E1]]. destruct o2 as [a2|]; [|discriminate].
  apply bind_ok in E2. destruct E2 as [o3 [Eo3 E2]]. destruct o3 as [a3|]; [|discriminate].
  apply bind_ok in E2. destruct E2 as [o4 [Eo4 E2]]. destruct o4 as [a4|]; [|discriminate].
  assert (a1 = a4) by (eapply best_arg_det; eassumption).
  assert (a2 = a3) by (eapply best_arg_det; eassumption). subst.
  injection E1 as E1. injection E2 as E2. lia.
Qed.
Print Assumptions c47_asymmetric.

(** On valid proofs the reference point is the highest block they share, provided they
    start with the same block. *)
Theorem c47_common_ancestor : forall G, group_ok G -> forall H (p q : nproof G),
  is_valid H p = Ok true -> is_valid H q = Ok true ->
  forall a, lowest_common_ancestor (headers_chain p) (headers_chain q) = Some a <->
    (hd_error (headers_chain p) = hd_error (headers_chain q) /\
     In a (headers_chain p) /\ In a (headers_chain q) /\
     forall b, In b (headers_chain p) -> In b (headers_chain q) -> h_height b <= h_height a).
Proof.
  intros G HG H p q Vp Vq a. apply valid_sorted in Vp. apply valid_sorted in Vq.
  rewrite (lca_spec HG) by assumption.
  assert (Hl : forall l (x : header G), sorted_by (@h_height G) l ->
     last (map Some l) None = Some x <-> In x l /\ forall y, In y l -> h_height y <= h_height x).
  { clear. intros l x Hs. induction l as [|b l IH] using rev_ind; simpl.
    - split; [discriminate|tauto].
    - rewrite last_some_app. 
      assert (Hb : forall y, In y l -> h_height y < h_height b).
      { clear - Hs. induction l as [|c l IH]; intros y Hy; [destruct Hy|].
        simpl in Hs. apply StronglySorted_inv in Hs. destruct Hs as [Hs HF]. destruct Hy as [<-|Hy].
        - rewrite Forall_forall in HF. apply HF. apply in_or_app. right. left. reflexivity.
        - apply IH; assumption. }
      split.
      + intros E. injection E as <-. split; [apply in_or_app; right; left; reflexivity|].
        intros y Hy. apply in_app_or in Hy. destruct Hy as [Hy|[<-|[]]]; [|lia]. specialize (Hb y Hy). lia.
      + intros [Hx Hm]. apply in_app_or in Hx. destruct Hx as [Hx|[->|[]]]; auto.
        specialize (Hb x Hx). specialize (Hm b). rewrite in_app_iff in Hm. specialize (Hm (or_intror (or_introl eq_refl))). lia. }
  pose proof (sorted_by_filter _ _ (in_chain (headers_chain q)) _ Vp) as HS.
  specialize (Hl _ a HS). 
  assert (HF : (In a (filter (in_chain (headers_chain q)) (headers_chain p)) /\
      forall y, In y (filter (in_chain (headers_chain q)) (headers_chain p)) -> h_height y <= h_height a) <->
     (In a (headers_chain p) /\ In a (headers_chain q) /\
      forall b, In b (headers_chain p) -> In b (headers_chain q) -> h_height b <= h_height a)).
  { rewrite filter_In, (in_chain_spec HG). split.
    - intros [[H1 H2] H3]. split; [exact H1|]. split; [exact H2|]. intros b Hb1 Hb2. apply H3.
      apply filter_In. rewrite (in_chain_spec HG). tauto.
    - intros [H1 [H2 H3]]. split; [tauto|]. intros y Hy. apply filter_In in Hy. rewrite (in_chain_spec HG) in Hy. apply H3; tauto. }
  rewrite HF in Hl. clear HF HS.
  destruct (headers_chain p) as [|h1 t1]; [split; [discriminate|intros [_ [[] _]]]|].
  destruct (headers_chain q) as [|h2 t2]; [split; [discriminate|intros [_ [_ [[] _]]]]|].
  cbn [hd_error]. destruct (header_eqb h1 h2) eqn:E.
  - apply (header_eqb_spec G HG) in E. subst h2. rewrite Hl. tauto.
  - split; [discriminate|]. intros [E2 _]. injection E2 as ->.
    rewrite (proj2 (header_eqb_spec G HG h2 h2) eq_refl) in E. discriminate.
Qed.
Print Assumptions c47_common_ancestor.

(** The score of a chain, when every header has a non-negative level below [L]: the
    computation stops within [L] rounds and returns the largest [2^mu * n_mu], where
    [n_mu] counts the headers of level at least [mu], over level zero and the levels
    with at least [m] such headers. *)
Theorem c47_score_partial : forall G H fl fuel (chain : list (header G)) m levels L,
  1 <= m -> map_r (max_level_of H fl) chain = Ok levels ->
  Forall (fun l => 0 <= l < L) levels -> 1 <= L <= 64 -> 2 ^ (L - 1) * Zlen chain < 2 ^ 64 ->
  (Z.to_nat L <= fuel)%nat ->
  exists s, best_arg H fl fuel chain m = Ok (Some s) /\
    (forall mu, 0 <= mu -> mu = 0 \/ m <= count_ge levels mu -> 2 ^ mu * count_ge levels mu <= s) /\
    (exists mu, 0 <= mu /\ (mu = 0 \/ m <= count_ge levels mu) /\ s = 2 ^ mu * count_ge levels mu).
Proof.
  intros G H fl fuel chain m levels L Hm El HF HL Hov Hfuel.
  unfold best_arg. rewrite El. cbn [bind].
  assert (Hlen : Zlen chain = Zlen levels).
  { apply map_r_ok in El. unfold Zlen. lia. }
  destruct (best_loop_spec fuel levels m 1 [(0, Zlen chain)] L HF Hm) as [r [Er Hr]];
    [change (2 ^ 31) with 2147483648; clear - HL; lia|clear - HL; lia|clear - HL Hfuel; lia|].
  rewrite Er. cbn [bind].
  assert (HC : forall mu, 0 <= mu -> 0 <= count_ge levels mu <= Zlen levels).
  { intros mu Hmu. split; [apply Zlen_nonneg|]. rewrite <- (count_zero levels).
    - apply count_anti. exact Hmu.
    - eapply Forall_impl; [|exact HF]. intros a Ha. cbv beta in *. lia. }
  assert (HS : forall mu, 0 <= mu -> mu = 0 \/ m <= count_ge levels mu ->
     score_of (mu, count_ge levels mu) = Ok (2 ^ mu * count_ge levels mu)).
  { intros mu Hmu Hc. unfold score_of. pose proof (HC mu Hmu).
    assert (HmuL : mu <= L - 1).
    { destruct Hc as [->|Hc]; [lia|]. destruct (Z.le_gt_cases mu (L - 1)) as [?|Hgt]; auto. exfalso.
      rewrite count_above in Hc; [lia|]. eapply Forall_impl; [|exact HF]. intros a Ha. cbv beta in *. lia. }
    assert (2 ^ mu <= 2 ^ (L - 1)) by (apply Z.pow_le_mono_r; lia).
    assert (0 < 2 ^ mu) by (apply Z.pow_pos_nonneg; lia).
    replace (2 ^ 64 <=? 2 ^ mu * count_ge levels mu) with false by (symmetry; apply Z.leb_gt; nia).
    replace (64 <=? mu) with false by lia. reflexivity. }
  assert (HE : Forall (fun p => exists mu, 0 <= mu /\ (mu = 0 \/ m <= count_ge levels mu) /\ p = (mu, count_ge levels mu))
                 (r ++ [(0, Zlen chain)])).
  { apply Forall_app. split.
    - apply Forall_forall. intros p Hp. apply Hr in Hp. destruct Hp as [mu [H1 [H2 H3]]]. exists mu. repeat split; auto; lia.
    - constructor; [|constructor]. exists 0. split; [lia|]. split; [auto|]. rewrite count_zero, Hlen; [reflexivity|].
      eapply Forall_impl; [|exact HF]. intros a Ha. cbv beta in *. lia. }
  assert (HM : map_r score_of (r ++ [(0, Zlen chain)]) = Ok (map (fun p => 2 ^ fst p * snd p) (r ++ [(0, Zlen chain)]))).
  { clear Er Hr. induction HE as [|p l Hp HE IH]; [reflexivity|]. cbn [map_r map].
    destruct Hp as [mu [H1 [H2 ->]]]. rewrite HS by assumption. cbn [bind]. rewrite IH. reflexivity. }
  rewrite HM. cbn [bind].
  destruct (r ++ [(0, Zlen chain)]) as [|p0 ps] eqn:Eps; [destruct r; discriminate|].
  cbn [map max_list rmap].
  set (f := fun p : Z * Z => 2 ^ fst p * snd p) in *.
  destruct (fold_max (map f ps) (f p0)) as [M1 [M2 M3]].
  exists (fold_left Z.max (map f ps) (f p0)). split; [reflexivity|].
  set (s := fold_left Z.max (map f ps) (f p0)) in *. clearbody s.
  assert (HIn : forall p, In p (r ++ [(0, Zlen chain)]) -> f p <= s).
  { intros p Hp. rewrite Eps in Hp. destruct Hp as [<-|Hp]; [exact M1|]. apply M2. apply in_map. exact Hp. }
  split.
  - intros mu Hmu Hc. change (2 ^ mu * count_ge levels mu) with (f (mu, count_ge levels mu)). apply HIn.
    destruct (Z.eq_dec mu 0) as [->|Hne].
    + apply in_or_app. right. left. rewrite count_zero, Hlen; [reflexivity|].
      eapply Forall_impl; [|exact HF]. intros a Ha. cbv beta in *. lia.
    + apply in_or_app. left. apply Hr. exists mu. destruct Hc as [Hc|Hc]; [congruence|]. repeat split; auto. lia.
  - assert (HX : exists p, In p (p0 :: ps) /\ s = f p).
    { destruct M3 as [->|M3]; [exists p0; split; [left; reflexivity|reflexivity]|].
      apply in_map_iff in M3. destruct M3 as [p [<- Hp]]. exists p. split; [right; exact Hp|reflexivity]. }
    destruct HX as [p [Hp ->]]. rewrite Forall_forall in HE. specialize (HE p Hp).
    destruct HE as [mu [H1 [H2 ->]]]. exists mu. auto.
Qed.
Print Assumptions c47_score_partial.

Example c47_hyps_met : exists levels, map_r (max_level_of toyH toy_fl) toy_chain = Ok levels /\
  Forall (fun l => 0 <= l < 3) levels /\ best_arg toyH toy_fl 3 toy_chain 2 = Ok (Some 6).
Proof. eexists. split; [vm_compute; reflexivity|]. split; [repeat constructor; lia|vm_compute; reflexivity]. Qed.

(** With [m = 0] the computation never ends, for any chain whose levels can be computed
    (until, after 2^32 rounds, the counter overflows). *)
Theorem c47_zero_m_refuted : forall G H fl (chain : list (header G)) levels,
  map_r (max_level_of H fl) chain = Ok levels ->
  forall fuel, Z.of_nat fuel < 2 ^ 32 - 1 -> best_arg H fl fuel chain 0 = Ok None.
Proof.
  intros G H fl chain levels El fuel Hf. unfold best_arg. rewrite El. cbn [bind].
  assert (HL : forall fuel level acc, 1 <= level -> level + Z.of_nat fuel < 2 ^ 32 ->
     best_loop fuel levels 0 level acc = Ok None).
  { clear. change (2 ^ 32) with 4294967296. induction fuel as [|fuel IH]; intros level acc H1 H2; [reflexivity|].
    cbn [best_loop]. replace (0 <=? at_level levels level) with true by (symmetry; apply Z.leb_le, Zlen_nonneg).
    change (2 ^ 32 - 1) with 4294967295. replace (level =? 4294967295) with false by lia. apply IH; lia. }
  rewrite HL; [reflexivity|lia|]. lia.
Qed.
Print Assumptions c47_zero_m_refuted.

(** A header whose hit exceeds its target has a negative level; cast to [u32] it counts
    at every level up to 2^31 and more.  One such header makes the score of a chain, for
    [m = 1], impossible to compute: no number of rounds yields a result. *)
Theorem c47_negative_level_refuted : forall G H fl (h : header G) l,
  max_level_of H fl h = Ok l -> - 2 ^ 31 <= l < 0 ->
  (forall mu, mu <= 2 ^ 31 -> at_level [l] mu = 1) /\
  (forall fuel, Z.of_nat fuel < 2 ^ 31 -> best_arg H fl fuel [h] 1 = Ok None) /\
  (forall fuel s, best_arg H fl fuel [h] 1 <> Ok (Some s)).
Proof.
  intros G H fl h l El Hl. change (2 ^ 31) with 2147483648 in *.
  assert (HW : wrapu 32 l = l + 4294967296).
  { unfold wrapu. change (2 ^ 32) with 4294967296. symmetry. apply Z.mod_unique_pos with (q := -1); lia. }
  assert (HA : forall mu, mu <= l + 4294967296 -> at_level [l] mu = 1).
  { intros mu Hmu. unfold at_level. simpl filter. rewrite HW. replace (mu <=? l + 4294967296) with true by lia. reflexivity. }
  assert (HA0 : forall mu, l + 4294967296 < mu -> at_level [l] mu = 0).
  { intros mu Hmu. unfold at_level. simpl filter. rewrite HW. replace (mu <=? l + 4294967296) with false by lia. reflexivity. }
  split; [intros mu Hmu; apply HA; lia|].
  assert (HL : forall fuel level acc, 1 <= level -> level + Z.of_nat fuel <= 2147483648 ->
     best_loop fuel [l] 1 level acc = Ok None).
  { induction fuel as [|fuel IH]; intros level acc H1 H2; [reflexivity|].
    cbn [best_loop]. rewrite HA by lia. change (1 <=? 1) with true. cbv iota.
    change (2 ^ 32 - 1) with 4294967295. replace (level =? 4294967295) with false by lia. apply IH; lia. }
  split.
  - intros fuel Hf. unfold best_arg. cbn [map_r]. rewrite El. cbn [bind]. rewrite HL by lia. reflexivity.
  - intros fuel s. unfold best_arg. cbn [map_r]. rewrite El. cbn [bind].
    assert (HR : forall fuel level acc r, 1 <= level <= 2147483648 ->
      best_loop fuel [l] 1 level acc = Ok (Some r) -> exists x, In (x, 1) r /\ 64 <= x).
    { assert (HK : forall fuel level acc r, best_loop fuel [l] 1 level acc = Ok (Some r) -> forall q, In q acc -> In q r).
      { clear. induction fuel as [|fuel IH]; intros level acc r E q Hq; [discriminate|].
        cbn [best_loop] in E. destruct (1 <=? at_level [l] level).
        - destruct (level =? 2 ^ 32 - 1); [discriminate|]. eapply IH; [exact E|]. right. exact Hq.
        - injection E as <-. exact Hq. }
      induction fuel0 as [|f IH]; intros level acc r Hlv E; [discriminate|].
      cbn [best_loop] in E. rewrite HA in E by lia. change (1 <=? 1) with true in E. cbv iota in E.
      change (2 ^ 32 - 1) with 4294967295 in E. replace (level =? 4294967295) with false in E by lia.
      destruct (Z.lt_ge_cases level 64) as [Hlt|Hge].
      - apply (IH (level + 1) _ _ ltac:(lia) E).
      - exists level. split; [|lia]. eapply HK; [exact E|]. left. reflexivity. }
    destruct (best_loop fuel [l] 1 1 _) as [[r|]| |] eqn:E; cbn [bind]; try discriminate.
    apply HR in E; [|lia]. destruct E as [x [Hx H64]].
    assert (HP : map_r score_of r = Panic \/ exists e, map_r score_of r = Err e).
    { clear - Hx H64. induction r as [|p r IH]; [destruct Hx|]. cbn [map_r].
      assert (HS : score_of p = Panic \/ exists v, score_of p = Ok v).
      { unfold score_of. destruct p as [a b]. destruct (2 ^ 64 <=? 2 ^ a * b); auto. destruct (64 <=? a); eauto. }
      destruct HS as [->|[v Ev]]; [left; reflexivity|]. destruct Hx as [->|Hx].
      - exfalso. unfold score_of in Ev. destruct (2 ^ 64 <=? 2 ^ x * 1); [discriminate|].
        replace (64 <=? x) with true in Ev by lia. discriminate.
      - rewrite Ev. cbn [bind]. destruct (IH Hx) as [->|[e ->]]; cbn [bind]; eauto. }
    destruct HP as [->|[e ->]]; cbn [bind]; discriminate.
Qed.
Print Assumptions c47_negative_level_refuted.

Example c47_negative_level_hyps_met :
  max_level_of toyH toy_fl (toy_block 2 (bid 12) (bid 11) (2 ^ 250)) = Ok (-11).
Proof. vm_compute. reflexivity. Qed.

(** A header whose compact difficulty decodes to zero makes the level computation panic. *)
Theorem c47_zero_difficulty_refuted : forall G H fl (h : header G),
  h_height h <> 1 -> decode_compact_bits (h_n_bits h) = 0 -> max_level_of H fl h = Panic.
Proof.
  intros G H fl h Hh Hd. unfold max_level_of. replace (h_height h =? 1) with false by lia.
  rewrite Hd. reflexivity.
Qed.
Print Assumptions c47_zero_difficulty_refuted.

(** ** C65 *)

Definition with_extension_root {G} (h : header G) (root : bytes) : header G :=
  Header (h_version h) (h_id h) (h_parent_id h) (h_ad_proofs_root h) (h_state_root h) (h_transaction_root h)
    (h_timestamp h) (h_n_bits h) (h_height h) root (h_solution h) (h_votes h).

(** The check ignores the header: interlinks and a proof that pass do so under any
    extension root, and there is such a superblock header. *)
Theorem c65_header_ignored_refuted :
  exists (links : list bytes) (pr : batch_proof), links <> [] /\
    forall (h : header toyG) root, check_interlinks_proof toyH (PoPow (with_extension_root h root) links pr) = Ok true.
Proof.
  set (links := [bid 11; bid 14; bid 14]).
  assert (HP : exists f, pack_interlinks links = Ok f) by (eexists; vm_compute; reflexivity).
  destruct HP as [f Ef].
  assert (HQ : exists p, proof_for_interlink_vector toyH f = Ok (Some p)).
  { vm_compute in Ef. injection Ef as <-. eexists. vm_compute. reflexivity. }
  destruct HQ as [p Ep]. exists links, p. split; [discriminate|]. intros h root.
  vm_compute in Ef. injection Ef as <-. vm_compute in Ep. injection Ep as <-.
  unfold check_interlinks_proof. cbn [ph_interlinks ph_proof]. vm_compute. reflexivity.
Qed.
Print Assumptions c65_header_ignored_refuted.

(** Conversely an honest proof, made from an extension that also holds a field of
    another kind and valid for the extension's own root, is rejected. *)
Theorem c65_honest_proof_rejected_refuted :
  exists (fields packed : list (bytes * bytes)) links t pr,
    pack_interlinks links = Ok packed /\ extension_new fields = Ok fields /\
    unpack_interlinks fields = Ok links /\
    extension_merkletree toyH fields = Ok t /\
    proof_for_interlink_vector toyH fields = Ok (Some pr) /\
    batch_valid toyH pr (root_hash t) = true /\
    forall h : header toyG, check_interlinks_proof toyH (PoPow (with_extension_root h (root_hash t)) links pr) = Ok false.
Proof.
  set (links := [bid 11; bid 14; bid 14]).
  assert (HP : exists f, pack_interlinks links = Ok f) by (eexists; vm_compute; reflexivity).
  destruct HP as [f Ef]. set (fields := ([0; 1], [9; 9; 9]) :: f).
  assert (HT : exists t, extension_merkletree toyH fields = Ok t).
  { subst fields. vm_compute in Ef. injection Ef as <-. eexists. vm_compute. reflexivity. }
  destruct HT as [t Et].
  assert (HQ : exists p, proof_for_interlink_vector toyH fields = Ok (Some p)).
  { subst fields. vm_compute in Ef. injection Ef as <-. eexists. vm_compute. reflexivity. }
  destruct HQ as [p Ep]. exists fields, f, links, t, p. subst fields.
  split; [exact Ef|]. vm_compute in Ef. injection Ef as <-.
  split; [reflexivity|]. split; [vm_compute; reflexivity|]. split; [exact Et|]. split; [exact Ep|].
  vm_compute in Ep. injection Ep as <-. vm_compute in Et. injection Et as <-.
  split; [vm_compute; reflexivity|]. intros h. vm_compute. reflexivity.
Qed.
Print Assumptions c65_honest_proof_rejected_refuted.

(** What does hold: for an extension that consists of the packed interlinks alone, the
    proof the library makes passes the check (for every hash function and vector). *)
Theorem c65_interlinks_only_partial : forall G H (h : header G) links f,
  Forall id32 links -> pack_interlinks links = Ok f ->
  exists pr, proof_for_interlink_vector H f = Ok (Some pr) /\
    check_interlinks_proof H (PoPow h links pr) = Ok true.
Proof.
  intros G H h links f HF Ef.
  assert (Hk : map fst f = map (fun i => [1; Z.of_nat i]) (seq 0 (List.length f)) /\ f <> []).
  { unfold pack_interlinks in Ef. destruct links as [|x ids]; [discriminate|].
    inversion HF as [|? ? Hx HF']; subst.
    destruct (pack_loop_keys ids x 1 0 f ltac:(lia) Hx HF' Ef) as [Hk [_ Hne]]. split; [exact Hk|exact Hne]. }
  destruct Hk as [Hk Hne].
  destruct (c40_root_is_textbook_root H (map kv_to_leaf f)) as [t [Et _]].
  assert (Et' : extension_merkletree H f = Ok t).
  { unfold extension_merkletree. unfold tree_of in Et. rewrite map_map in Et. exact Et. }
  set (idx := flat_map (fun k =>
    match find (fun kv => bytes_eqb (fst kv) k) f with
    | None => []
    | Some kv =>
        match index_get (elements_hash_index t) (prefixed_hash H LEAF_PREFIX (kv_to_leaf kv)) with
        | None => []
        | Some i => [i]
        end
    end) (map fst f)).
  assert (HLnil : map kv_to_leaf f <> []) by (destruct f; [congruence|discriminate]).
  destruct (merkle_new_spec H (map kv_to_leaf f) HLnil) as [t' [E' [Hok HI]]].
  assert (t' = t) by (unfold tree_of in Et; congruence). subst t'.
  assert (Hget : forall kv, In kv f -> exists i,
    index_get (elements_hash_index t) (prefixed_hash H LEAF_PREFIX (kv_to_leaf kv)) = Some i /\ (i < List.length f)%nat).
  { intros kv Hkv. rewrite HI, index_fold_find.
    destruct (find _ _) as [[i k]|] eqn:F.
    - exists i. split; [reflexivity|]. apply find_some in F. destruct F as [Fi _]. apply in_rev in Fi.
      apply enumerate_in in Fi. destruct Fi as [_ Fi]. rewrite Nat.sub_0_r in Fi.
      rewrite <- (map_length kv_to_leaf f).
      rewrite nth_error_map in Fi. destruct (nth_error (map kv_to_leaf f) i) eqn:E; [|discriminate].
      apply nth_error_Some. congruence.
    - exfalso. apply In_nth_error in Hkv. destruct Hkv as [j Ej].
      assert (Hin : In (j, prefixed_hash H LEAF_PREFIX (kv_to_leaf kv))
         (enumerate 0 (map (fun x => prefixed_hash H LEAF_PREFIX x) (map kv_to_leaf f)))).
      { apply enumerate_in. split; [lia|]. rewrite Nat.sub_0_r, !nth_error_map, Ej. reflexivity. }
      apply in_rev in Hin.
      pose proof (find_none _ _ F _ Hin) as Hf. cbn [snd] in Hf. rewrite bytes_eqb_refl in Hf. discriminate. }
  assert (Hidx : forall i, In i idx -> (i < List.length (map kv_to_leaf f))%nat).
  { intros i Hi. subst idx. apply in_flat_map in Hi. destruct Hi as [k [_ Hi]].
    destruct (find _ f) as [kv|] eqn:F; [|destruct Hi]. apply find_some in F. destruct F as [Fi _].
    destruct (Hget kv Fi) as [j [Ej Hj]]. rewrite Ej in Hi. destruct Hi as [<-|[]]. rewrite map_length. exact Hj. }
  assert (Hidxne : idx <> []).
  { destruct f as [|kv f']; [congruence|]. subst idx. cbn [map flat_map find].
    rewrite bytes_eqb_refl. destruct (Hget kv (or_introl eq_refl)) as [i [-> _]]. discriminate. }
  destruct (c42_multiproofs_complete H (map kv_to_leaf f) t idx Et Hidxne Hidx) as [pr [Epr [Hv _]]].
  exists pr. split.
  - unfold proof_for_interlink_vector.
    replace (filter (fun k => hd 0 k =? 1) (map fst f)) with (map fst f).
    + destruct (map fst f) as [|k0 ks] eqn:Ek; [destruct f; [congruence|discriminate]|].
      unfold extension_batch_proof_for. rewrite Et'. cbn [bind]. exact Epr.
    + rewrite Hk. clear. induction (seq 0 (List.length f)) as [|i l IH]; simpl; auto. rewrite <- IH. reflexivity.
  - unfold check_interlinks_proof. cbn [ph_interlinks ph_proof].
    destruct links as [|x ids]; [discriminate|]. rewrite Ef. cbn [bind].
    replace (merkle_new H (map (fun kv => from_bytes H (2 :: fst kv ++ snd kv)) f)) with (Ok t) by (symmetry; exact Et').
    cbn [bind]. rewrite Hv. reflexivity.
Qed.
Print Assumptions c65_interlinks_only_partial.
