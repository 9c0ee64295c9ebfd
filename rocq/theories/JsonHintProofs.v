(** Lemmas about the JSON encoding of propositions, secrets, hints, headers and Merkle
    proofs. *)
From Verif Require Import Base VlqModel VlqProofs GfModel GroupModel SigmaModel ProverModel TypeModel MethodModel IrModel SerModel ChainModel
  WalletModel TxModel SignModel HeaderModel MerkleModel JsonModel SigmaSpec SerSpec SerLocal SerProofs SerProps ReadProofs ParseProofs TxProps ParseProps
  ChainProps WalletProps DeriveProps PowProps GroupProofs SbProofs SigmaProofs VerifierProofs EncodingProofs TypeProofs JsonProofs.
From Coq Require Import Permutation.
Import SigmaModel SigmaProofs JsonModel TypeProofs.
Local Open Scope string_scope.
Local Open Scope list_scope.
Local Open Scope Z_scope.

Ltac beq := repeat match goal with |- context [bytes_eqb (txt ?a) (txt ?b)] =>
  let v := eval vm_compute in (bytes_eqb (txt a) (txt b)) in change (bytes_eqb (txt a) (txt b)) with v end; cbn [orb andb]; cbv iota.

(** ** Nesting of documents *)
Definition depthm (m : members) : nat := fold_right Nat.max 0%nat (map (fun e => json_depth (snd e)) m).
Lemma depth_in : forall m e, In e m -> (json_depth (snd e) <= depthm m)%nat.
Proof.
  induction m as [|x m IH]; intros e H; [destruct H|]. unfold depthm in *. cbn [map fold_right]. destruct H as [->|H]; [lia|]. specialize (IH e H). lia.
Qed.
Lemma lookup_depth : forall names m j, lookup names m = Ok (Some j) -> (json_depth j <= depthm m)%nat.
Proof.
  intros names m j E. unfold lookup in E. destruct (filter (fun e => key_in names (fst e)) m) as [|e [|e' l]] eqn:Ef; try discriminate.
  injection E as <-. apply depth_in. apply (filter_In (fun e => key_in names (fst e))). rewrite Ef. left. reflexivity.
Qed.
Lemma depth_arr : forall l j, In j l -> (json_depth j < json_depth (JArr l))%nat.
Proof.
  intros l j H. cbn [json_depth]. induction l as [|x l IH]; [destruct H|]. cbn [map fold_right]. destruct H as [->|H]; [lia|]. specialize (IH H). lia.
Qed.
Lemma combine_depth : forall ks l, (depthm (combine ks l) <= fold_right Nat.max 0 (map json_depth l))%nat.
Proof.
  unfold depthm. induction ks as [|k ks IH]; intros l; [cbn; lia|]. destruct l as [|x l]; [cbn; lia|]. cbn [combine map fold_right snd]. specialize (IH l). lia.
Qed.
Lemma tagged_depth : forall tag vs j m, as_tagged tag vs j = Ok m -> (depthm m < json_depth j)%nat.
Proof.
  intros tag vs j m E. destruct j as [| | | | |l|m']; try discriminate E.
  - destruct l as [|[| | | |v| |] l]; try discriminate E. cbn [as_tagged] in E. destruct (vs v) as [fs|]; [|discriminate]. cbn [of_option bind as_fields] in E.
    destruct (Nat.eqb _ _); [|discriminate]. cbn [bind] in E. injection E as <-. pose proof (combine_depth (map first_name fs) l) as D.
    unfold depthm in *. cbn [map fold_right snd json_depth]. lia.
  - injection E as <-. unfold depthm. cbn [json_depth]. lia.
Qed.
Lemma field_ext : forall A names (p q : json -> res A) m, (forall j, (json_depth j <= depthm m)%nat -> p j = q j) -> field names p m = field names q m.
Proof.
  intros A names p q m H. unfold field. destruct (lookup names m) as [[j|]| |] eqn:E; cbn [of_option bind]; try reflexivity. apply H. eapply lookup_depth; exact E.
Qed.
Lemma traverse_ext : forall A B (p q : A -> res B) l, (forall a, In a l -> p a = q a) -> traverse p l = traverse q l.
Proof.
  intros A B p q l. induction l as [|a l IH]; intros H; [reflexivity|]. cbn [traverse]. rewrite (H a) by (left; reflexivity). rewrite IH; [reflexivity|].
  intros x Hx. apply H. right. exact Hx.
Qed.

Section Hint.
Context {G : group} (HG : group_ok G).

(** ** Points and scalars *)
Lemma point_rt : forall x : G, point_of_json (json_of_point x) = Ok x.
Proof.
  intros x. unfold point_of_json, json_of_point. rewrite (ec_write_ok x). rewrite of_to_hex by apply (ec_bytes_ok HG). cbn [bind].
  pose proof (ec_read_bytes HG x []) as E. rewrite app_nil_r in E. rewrite E. reflexivity.
Qed.
Lemma good_point : forall b j, tidy b j -> good b (fun _ => True) (@point_of_json G j).
Proof.
  intros b j Hj. unfold point_of_json. eapply good_bind; [apply good_hex; exact Hj|]. intros x _ [Hx _].
  pose proof (reads_ec (G := G) x Hx) as R. destruct (ec_read x) as [[y r]|e|]; cbn [bind good out] in *; auto; destruct R.
Qed.
Lemma scalar_rt : forall w, 0 <= w < gord G -> @scalar_of_json G (json_of_scalar w) = Ok w.
Proof.
  intros w H. unfold scalar_of_json, json_of_scalar, scalar_bytes. rewrite digest_rt; [|apply VlqProofs.be_bytes_ok|unfold Zlen; rewrite be_bytes_length; reflexivity].
  cbn [bind]. unfold scalar_of_bytes. f_equal. exact (scalar_bytes_value HG w H).
Qed.
Lemma good_scalar : forall b j, tidy b j -> good b (fun w => 0 <= w < gord G) (@scalar_of_json G j).
Proof.
  intros b j Hj. unfold scalar_of_json. eapply good_bind; [apply good_digest; exact Hj|]. intros x _ _. cbn [good]. unfold scalar_of_bytes.
  apply Z.mod_pos_bound. pose proof (Znumtheory.prime_ge_2 _ (g_prime _ HG)). lia.
Qed.

(** ** Propositions *)
Lemma sb_rt_f : forall s : sbool G, sb_wf s -> forall n, (json_depth (json_of_sb s) <= n)%nat -> sb_of_json_f n (json_of_sb s) = Ok s.
Proof.
  apply (sbool_ind' (fun s : sbool G => sb_wf s -> forall n, (json_depth (json_of_sb s) <= n)%nat -> sb_of_json_f n (json_of_sb s) = Ok s)).
  - intros b _ [|n] L; [cbn in L; lia|]. cbn [sb_of_json_f json_of_sb as_tagged bind]. fld. cbn [as_str bind]. cbv zeta. destruct b; cbn [op_name]; beq; fld; reflexivity.
  - intros p _ [|n] L; [destruct p; cbn in L; lia|]. destruct p as [h|g h u v]; cbn [sb_of_json_f json_of_sb as_tagged bind op_name]; fld; cbn [as_str bind]; cbv zeta; beq.
    + fld. rewrite point_rt. reflexivity.
    + fld. rewrite point_rt. cbn [bind]. fld. rewrite point_rt. cbn [bind]. fld. rewrite point_rt. cbn [bind]. fld. rewrite point_rt. reflexivity.
  - intros c l IH W [|n] L; [cbn in L; lia|]. cbn [sb_wf] in W. destruct W as (Wc & Wl & Wf). apply fold_and_Forall in Wf.
    assert (T : traverse (sb_of_json_f n) (map json_of_sb l) = Ok l).
    { apply traverse_map. apply Forall_forall. intros x Hx. rewrite Forall_forall in IH, Wf. apply IH; auto.
      assert (json_depth (json_of_sb x) < json_depth (JArr (map json_of_sb l)))%nat by (apply depth_arr, in_map; exact Hx).
      cbn [json_of_sb] in L. destruct c; cbn [json_depth map fold_right snd] in L; cbn [json_depth] in H; lia. }
    assert (B : bounded l = Ok l). { unfold bounded. unfold items_len_ok in Wl. replace ((2 <=? Zlen l) && (Zlen l <=? 255)) with true by lia. reflexivity. }
    destruct c as [| |k]; cbn [sb_of_json_f json_of_sb as_tagged bind op_name]; fld; cbn [as_str bind]; cbv zeta; beq.
    + fld. cbn [list_of]. rewrite T. cbn [bind]. rewrite B. reflexivity.
    + fld. cbn [list_of]. rewrite T. cbn [bind]. rewrite B. reflexivity.
    + fld. rewrite uint_num by exact Wc. cbn [bind]. fld. cbn [list_of]. rewrite T. cbn [bind]. rewrite B. reflexivity.
Qed.
Lemma sb_rt : forall s : sbool G, sb_wf s -> sb_of_json (json_of_sb s) = Ok s.
Proof. intros s W. apply sb_rt_f; [exact W|apply le_n]. Qed.
(** The nesting bound of the model is never what refuses a document. *)
Lemma sb_fuel : forall n m j, (json_depth j <= n)%nat -> (json_depth j <= m)%nat -> @sb_of_json_f G n j = sb_of_json_f m j.
Proof.
  induction n as [|n IH]; intros m j Hn Hm; [destruct j; cbn in Hn; lia|]. destruct m as [|m]; [destruct j; cbn in Hm; lia|].
  cbn [sb_of_json_f]. destruct (as_tagged "op" sb_variants j) as [fs|e|] eqn:E; cbn [bind]; try reflexivity. apply tagged_depth in E.
  assert (A : forall names, field names (list_of (@sb_of_json_f G n)) fs = field names (list_of (sb_of_json_f m)) fs).
  { intros names. apply field_ext. intros x Hx. destruct x as [| | | | |l|]; try reflexivity. cbn [list_of]. apply traverse_ext. intros y Hy.
    apply depth_arr in Hy. apply IH; lia. }
  destruct (field ["op"] as_str fs) as [op|e|]; cbn [bind]; try reflexivity. cbv zeta. rewrite !A. reflexivity.
Qed.
Lemma good_tagged : forall b tag vs j, (forall v fs, vs v = Some fs -> forallb plain_name (map first_name fs) = true) -> plain_name (txt tag) = true ->
  tidy b j -> good b (tidym b) (as_tagged tag vs j).
Proof.
  intros b tag vs j Hv Ht Hj. destruct j as [| | | | |l|m]; cbn [as_tagged good]; auto; [|apply tidy_obj; exact Hj].
  destruct l as [|[| | | |v| |] l]; cbn [good]; auto. destruct (vs v) as [fs|] eqn:E; cbn [of_option bind good]; [|exact I].
  apply tidy_arr in Hj. inversion Hj as [|x y H1 H2]; subst.
  eapply good_bind; [apply good_fields; [apply (Hv v); exact E|]|].
  - cbn [tidy]. apply (fold_Forall _ (tidy b)). exact H2.
  - intros m _ Hm. constructor; [|exact Hm]. cbn [fst snd]. split; [intros _; apply plain_name_ok; exact Ht|exact H1].
Qed.
Lemma sb_variants_plain : forall v fs, sb_variants v = Some fs -> forallb plain_name (map first_name fs) = true.
Proof.
  intros v fs E. unfold sb_variants in E.
  repeat match type of E with (if ?c then _ else _) = _ => destruct c; [injection E as <-; reflexivity|] end. discriminate.
Qed.
Lemma good_str : forall b j, tidy b j -> good b (fun s => Zlen s < 2 ^ 32) (as_str j).
Proof. intros b j Hj. destruct j; cbn [as_str good]; auto. Qed.
Lemma good_sb_f : forall b n j, tidy b j -> good b (@sb_wf G) (sb_of_json_f n j).
Proof.
  intros b. induction n as [|n IH]; intros j Hj; cbn [sb_of_json_f]; [exact I|].
  eapply good_bind; [apply good_tagged; [exact sb_variants_plain|reflexivity|exact Hj]|]. intros m _ Hm.
  eapply good_bind; [apply good_field; [exact Hm|apply good_str]|]. intros op _ _. cbv zeta.
  assert (P : forall nm, good b (fun _ => True) (field [nm] (@point_of_json G) m)) by (intros nm; apply good_field; [exact Hm|apply good_point]).
  assert (A : forall c, conj_wf c -> good b (@sb_wf G) (l <- field ["args"] (list_of (sb_of_json_f n)) m ;; l <- bounded l ;; Ok (SConj c l))).
  { intros c Hc. eapply good_bind; [apply good_field; [exact Hm|intros x Hx; apply good_list; [exact Hx|exact IH]]|]. intros l _ Hl.
    unfold bounded. destruct ((2 <=? Zlen l) && (Zlen l <=? 255)) eqn:E; cbn [bind good]; [|exact I]. cbn [sb_wf].
    split; [exact Hc|]. split; [unfold items_len_ok; lia|]. apply fold_and_Forall. exact Hl. }
  destruct (bytes_eqb op (txt "205")). { eapply good_bind; [apply P|]. intros h _ _. exact I. }
  destruct (bytes_eqb op (txt "206")). { do 4 (eapply good_bind; [apply P|]; intros ? _ _). exact I. }
  destruct (bytes_eqb op (txt "300") || bytes_eqb op (txt "301")).
  { eapply (good_bind _ _ b (fun _ => True)); [apply good_field; [exact Hm|intros x _; destruct x; exact I]|]. intros c _ _. exact I. }
  destruct (bytes_eqb op (txt "150")); [apply A; exact I|]. destruct (bytes_eqb op (txt "151")); [apply A; exact I|].
  destruct (bytes_eqb op (txt "152")); [|exact I].
  eapply good_bind; [apply good_field; [exact Hm|intros x _; apply good_uint]|]. intros k _ Hk. apply A. exact Hk.
Qed.
Lemma good_sb : forall b j, tidy b j -> good b (@sb_wf G) (sb_of_json j).
Proof. intros b j Hj. apply good_sb_f. exact Hj. Qed.

(** ** Secrets *)
Lemma secret_rt : forall s : secret G, secret_ok G s -> secret_of_json (json_of_secret s) = Ok s.
Proof.
  intros [w|w g h u v] H.
  - unfold json_of_secret, json_of_scalar, to_hex. cbn [secret_of_json].
    pose proof (scalar_rt w H) as E. unfold json_of_scalar, to_hex in E. rewrite E. reflexivity.
  - cbn [json_of_secret secret_of_json]. fld. rewrite scalar_rt by exact H. cbn [bind].
    fld. rewrite point_rt. cbn [bind]. fld. rewrite point_rt. cbn [bind]. fld. rewrite point_rt. cbn [bind]. fld. rewrite point_rt. reflexivity.
Qed.
Lemma good_secret : forall b j, tidy b j -> good b (secret_ok G) (secret_of_json j).
Proof.
  intros b j Hj. destruct j as [| | | |s|l|m]; try exact I.
  - unfold secret_of_json. eapply good_bind; [apply good_scalar; exact Hj|]. intros w _ Hw. exact Hw.
  - cbn [secret_of_json]. apply tidy_obj in Hj.
    eapply good_bind; [apply good_field; [exact Hj|apply good_scalar]|]. intros w _ Hw.
    do 4 (eapply good_bind; [apply good_field; [exact Hj|apply good_point]|]; intros ? _ _). exact Hw.
Qed.

(** ** Positions *)
Definition position_ok (p : position) : Prop := p <> [] /\ Forall (fun i => Z.of_nat i < 2 ^ 64) p.
Lemma split_nodash : forall x, Forall (fun c => c <> 45) x -> split_dash x = [x].
Proof.
  intros x H. induction H as [|c x Hc _ IH]; [reflexivity|]. cbn [split_dash]. replace (c =? 45) with false by lia. rewrite IH. reflexivity.
Qed.
Lemma split_cons : forall x rest, Forall (fun c => c <> 45) x -> split_dash (x ++ 45 :: rest) = x :: split_dash rest.
Proof.
  intros x rest H. induction H as [|c x Hc _ IH]; [reflexivity|]. cbn [app split_dash]. replace (c =? 45) with false by lia. rewrite IH. reflexivity.
Qed.
Lemma split_join : forall l, l <> [] -> Forall (Forall (fun c => c <> 45)) l -> split_dash (join_dash l) = l.
Proof.
  intros l N F. induction F as [|x l Hx F IH]; [congruence|]. destruct l as [|y l]; [apply split_nodash; exact Hx|].
  change (join_dash (x :: y :: l)) with (x ++ 45 :: join_dash (y :: l)). rewrite split_cons by exact Hx. rewrite IH by discriminate. reflexivity.
Qed.
Lemma index_rt : forall i, Z.of_nat i < 2 ^ 64 -> index_of_text (dec_text 20 (Z.of_nat i)) = Ok i.
Proof.
  intros i H. unfold index_of_text. rewrite dec_parse; [|lia|change (10 ^ Z.of_nat 20) with 100000000000000000000; lia|lia].
  cbn [of_option bind]. rewrite Nat2Z.id. reflexivity.
Qed.
Lemma dec_nodash : forall i, Z.of_nat i < 2 ^ 64 -> Forall (fun c => c <> 45) (dec_text 20 (Z.of_nat i)).
Proof.
  intros i H. destruct (dec_text_spec 20 (Z.of_nat i)) as (_ & F & _); [change (10 ^ Z.of_nat 20) with 100000000000000000000; lia|lia|].
  eapply Forall_impl; [|exact F]. intros c Hc. cbv beta in Hc. lia.
Qed.
Lemma position_rt : forall p, position_ok p -> position_of_json (json_of_position p) = Ok p.
Proof.
  intros p [N F]. unfold position_of_json, json_of_position. cbn [as_str bind]. rewrite split_join.
  - apply traverse_map. eapply Forall_impl; [|exact F]. intros i Hi. apply index_rt. exact Hi.
  - destruct p; [congruence|discriminate].
  - apply Forall_map. eapply Forall_impl; [|exact F]. intros i Hi. apply dec_nodash. exact Hi.
Qed.
Lemma split_nonempty : forall s, split_dash s <> [].
Proof. induction s as [|c s IH]; [discriminate|]. cbn [split_dash]. destruct (c =? 45); [discriminate|]. destruct (split_dash s); discriminate. Qed.
Lemma good_index : forall b s, good b (fun i => Z.of_nat i < 2 ^ 64) (index_of_text s).
Proof.
  intros b s. unfold index_of_text. eapply (good_bind _ _ b (fun v => 0 <= v < 2 ^ 64)); [apply good_of_option; intros v E; eapply unsigned_range; exact E|].
  intros v _ Hv. cbn [good]. lia.
Qed.
Lemma good_position : forall b j, tidy b j -> good b position_ok (position_of_json j).
Proof.
  intros b j Hj. unfold position_of_json. eapply good_bind; [apply good_str; exact Hj|]. intros s _ _.
  pose proof (good_traverse _ _ b index_of_text (fun i => Z.of_nat i < 2 ^ 64) (split_dash s)) as T.
  destruct (traverse index_of_text (split_dash s)) as [l| |] eqn:E; cbn [good] in *; auto.
  - split; [|apply T; apply Forall_forall; intros x _; apply good_index]. apply traverse_inv in E. intros ->. inversion E as [Q|]. symmetry in Q. exact (split_nonempty s Q).
  - apply T. apply Forall_forall. intros x _. apply good_index.
Qed.

(** ** Hints *)
Lemma fmsg_rt : forall (c : fmsg G) m, 
  lookup ["type"] m = Ok (Some (JStr (txt (match c with FDlog _ => "dlog" | FDht _ _ => "dht" end)))) ->
  lookup ["a"] m = Ok (Some (json_of_point (match c with FDlog a => a | FDht a _ => a end))) ->
  match c with FDlog _ => True | FDht _ b => lookup ["b"] m = Ok (Some (json_of_point b)) end -> fmsg_of_members m = Ok c.
Proof.
  intros c m L1 L2 L3. unfold fmsg_of_members. rewrite (field_of _ _ _ _ _ L1). cbn [as_str bind]. destruct c as [a|a b]; beq.
  - rewrite (field_of _ _ _ _ _ L2), point_rt. reflexivity.
  - rewrite (field_of _ _ _ _ _ L2), point_rt. cbn [bind]. rewrite (field_of _ _ _ _ _ L3), point_rt. reflexivity.
Qed.
(** A proof that can be transmitted. *)
Definition sig_stable (s : sbool G) (u : utree G) : Prop :=
  exists bs, serialize_sig u = Ok bs /\ bytes_ok bs /\ parse_sig_compute_challenges s bs = Ok (forget u).
Lemma nonempty_sig : forall (s : sbool G) u rest, parse_sig s None [] <> Ok (u, rest).
Proof. intros s u rest. destruct s as [|[|]|[| |]]; discriminate. Qed.
Lemma consistent_stable : forall (s : sbool G) u, sb_wf s -> consistent s u -> sig_stable s u.
Proof.
  intros s u W C. destruct (sig_roundtrip HG s u W C) as (bs & E & B & R). exists bs. split; [exact E|]. split; [exact B|].
  specialize (R []). rewrite app_nil_r in R. unfold parse_sig_compute_challenges. destruct bs as [|x bs]; [exfalso; exact (nonempty_sig _ _ _ R)|].
  rewrite R. reflexivity.
Qed.
Lemma parsed_stable : forall (s : sbool G) bs u, sb_wf s -> bytes_ok bs -> parse_sig_compute_challenges s bs = Ok u -> sig_stable s u /\ forget u = u.
Proof.
  intros s bs u W B E. unfold parse_sig_compute_challenges in E. destruct bs as [|x bs]; [discriminate|]. inv_bind E. destruct b as [u' rest]. injection E as ->.
  pose proof (parse_forget s _ _ _ _ Eb) as F. split; [|exact F].
  destruct (parse_sound HG s W None (x :: bs) u rest) as (_ & M & A & _); [discriminate|exact B|exact Eb|].
  destruct (sig_write_layout HG s W u M A true) as (bs' & W' & B' & L).
  destruct (parse_complete HG s W (tr u) true bs' [] A L) as (u' & P & T & M'). rewrite app_nil_r in P. cbv iota in P.
  exists bs'. split; [exact W'|]. split; [exact B'|]. unfold parse_sig_compute_challenges. destruct bs' as [|y bs']; [exfalso; exact (nonempty_sig _ _ _ P)|].
  rewrite P. cbn [bind]. rewrite <- (parse_forget s _ _ _ _ P). f_equal. eapply tr_forget_inj; eassumption.
Qed.

Definition hint_forget (h : hint G) : hint G :=
  match h with
  | HRealProof s e u p => HRealProof s e (forget u) p
  | HSimProof s e u p => HSimProof s e (forget u) p
  | _ => h
  end.
Definition hint_json_ok (h : hint G) : Prop :=
  match h with
  | HRealProof s e u p | HSimProof s e u p => sb_wf s /\ (bytes_ok e /\ Zlen e = 24) /\ sig_stable s u /\ position_ok p
  | HOwnCommitment s r _ p => sb_wf s /\ 0 <= r < gord G /\ position_ok p
  | HRealCommitment s _ p | HSimCommitment s _ p => sb_wf s /\ position_ok p
  end.
Lemma hint_rt : forall h, hint_json_ok h -> exists j, json_of_hint h = Ok j /\ hint_of_json j = Ok (hint_forget h).
Proof.
  intros h H. unfold json_of_hint, hint_of_json. destruct h as [s e u p|s e u p|s r c p|s c p|s c p]; cbn [hint_json_ok hint_forget] in *.
  - destruct H as (W & (B & L) & (bs & E & Bs & P) & Hp). unfold proof_members, json_of_utree. rewrite E. cbn [bind]. eexists. split; [reflexivity|].
    cbn [as_tagged bind]. fld. cbn [as_str bind]. beq. unfold proof_hint. fld. rewrite sb_rt by exact W. cbn [bind]. fld. rewrite digest_rt by assumption. cbn [bind].
    fld. rewrite of_to_hex by exact Bs. cbn [bind]. fld. rewrite position_rt by exact Hp. cbn [bind]. rewrite P. reflexivity.
  - destruct H as (W & (B & L) & (bs & E & Bs & P) & Hp). unfold proof_members, json_of_utree. rewrite E. cbn [bind]. eexists. split; [reflexivity|].
    cbn [as_tagged bind]. fld. cbn [as_str bind]. beq. unfold proof_hint. fld. rewrite sb_rt by exact W. cbn [bind]. fld. rewrite digest_rt by assumption. cbn [bind].
    fld. rewrite of_to_hex by exact Bs. cbn [bind]. fld. rewrite position_rt by exact Hp. cbn [bind]. rewrite P. reflexivity.
  - destruct H as (W & Hr & Hp). eexists. split; [reflexivity|]. cbn [as_tagged bind]. destruct c as [a|a b]; cbn [fmsg_members app].
    + fld. cbn [as_str bind]. beq. fld. rewrite sb_rt by exact W. cbn [bind]. fld. rewrite position_rt by exact Hp. cbn [bind].
      rewrite (fmsg_rt (FDlog a)) by (look || exact I). cbn [bind]. fld. rewrite scalar_rt by exact Hr. reflexivity.
    + fld. cbn [as_str bind]. beq. fld. rewrite sb_rt by exact W. cbn [bind]. fld. rewrite position_rt by exact Hp. cbn [bind].
      rewrite (fmsg_rt (FDht a b)) by look. cbn [bind]. fld. rewrite scalar_rt by exact Hr. reflexivity.
  - destruct H as (W & Hp). eexists. split; [reflexivity|]. cbn [as_tagged bind]. destruct c as [a|a b]; cbn [fmsg_members app].
    + fld. cbn [as_str bind]. beq. fld. rewrite sb_rt by exact W. cbn [bind]. fld. rewrite position_rt by exact Hp. cbn [bind].
      rewrite (fmsg_rt (FDlog a)) by (look || exact I). reflexivity.
    + fld. cbn [as_str bind]. beq. fld. rewrite sb_rt by exact W. cbn [bind]. fld. rewrite position_rt by exact Hp. cbn [bind].
      rewrite (fmsg_rt (FDht a b)) by look. reflexivity.
  - destruct H as (W & Hp). eexists. split; [reflexivity|]. cbn [as_tagged bind]. destruct c as [a|a b]; cbn [fmsg_members app].
    + fld. cbn [as_str bind]. beq. fld. rewrite sb_rt by exact W. cbn [bind]. fld. rewrite position_rt by exact Hp. cbn [bind].
      rewrite (fmsg_rt (FDlog a)) by (look || exact I). reflexivity.
    + fld. cbn [as_str bind]. beq. fld. rewrite sb_rt by exact W. cbn [bind]. fld. rewrite position_rt by exact Hp. cbn [bind].
      rewrite (fmsg_rt (FDht a b)) by look. reflexivity.
Qed.
Lemma hint_variants_plain : forall v fs, hint_variants v = Some fs -> forallb plain_name (map first_name fs) = true.
Proof.
  intros v fs E. unfold hint_variants in E. destruct (bytes_eqb v (txt "proofReal") || bytes_eqb v (txt "proofSimulated")); [injection E as <-; reflexivity|discriminate].
Qed.
Lemma good_fmsg : forall b m, tidym b m -> good b (fun _ : fmsg G => True) (fmsg_of_members m).
Proof.
  intros b m Hm. unfold fmsg_of_members. eapply good_bind; [apply good_field; [exact Hm|apply good_str]|]. intros t _ _.
  assert (P : forall nm, good b (fun _ => True) (field [nm] (@point_of_json G) m)) by (intros nm; apply good_field; [exact Hm|apply good_point]).
  destruct (bytes_eqb t (txt "dlog")); [eapply good_bind; [apply P|]; intros ? _ _; exact I|].
  destruct (bytes_eqb t (txt "dht")); [do 2 (eapply good_bind; [apply P|]; intros ? _ _); exact I|exact I].
Qed.
(** Whatever is read is in order and already stripped; reading panics only over a
    proposition in which a threshold exceeds its number of children. *)
Lemma good_hint : forall b j, tidy b j ->
  (b = true -> forall m s, as_tagged "hint" hint_variants j = Ok m -> field ["pubkey"] (@sb_of_json G) m = Ok s -> thr_ok s) ->
  good b (fun h => hint_json_ok h /\ hint_forget h = h) (hint_of_json j).
Proof.
  intros b j Hj Ht. unfold hint_of_json. eapply good_bind; [apply good_tagged; [exact hint_variants_plain|reflexivity|exact Hj]|]. intros m Em Hm.
  eapply good_bind; [apply good_field; [exact Hm|apply good_str]|]. intros t _ _.
  assert (P : good b (fun q : sbool G * challenge * utree G * position => let '(s, e, u, p) := q in
    (sb_wf s /\ (bytes_ok e /\ Zlen e = 24) /\ sig_stable s u /\ position_ok p) /\ forget u = u) (proof_hint m)).
  { unfold proof_hint. eapply good_bind; [apply good_field; [exact Hm|apply good_sb]|]. intros s Es Hs.
    eapply good_bind; [apply good_field; [exact Hm|apply good_digest]|]. intros e _ He.
    eapply good_bind; [apply good_field; [exact Hm|apply good_hex]|]. intros x _ [Hx _].
    eapply good_bind; [apply good_field; [exact Hm|apply good_position]|]. intros p _ Hp.
    eapply (good_bind _ _ b (fun u => sig_stable s u /\ forget u = u)).
    - destruct (parse_sig_compute_challenges s x) as [u|er|] eqn:Eu; cbn [good]; [exact (parsed_stable s x u Hs Hx Eu)|exact I|].
      destruct b; [|reflexivity]. exfalso. specialize (Ht eq_refl m s Em Es). unfold parse_sig_compute_challenges in Eu. destruct x as [|y x]; [discriminate|].
      assert (N : parse_sig s None (y :: x) <> Panic). { apply (parse_no_panic HG s Hs Ht); [discriminate|exact Hx]. }
      destruct (parse_sig s None (y :: x)) as [[u r]| |]; cbn [bind] in Eu; congruence.
    - intros u _ [S F]. cbn [good]. auto. }
  destruct (bytes_eqb t (txt "proofReal")). { eapply good_bind; [exact P|]. intros [[[s e] u] p] _ [H F]. cbn [good hint_json_ok hint_forget]. rewrite F. auto. }
  destruct (bytes_eqb t (txt "proofSimulated")). { eapply good_bind; [exact P|]. intros [[[s e] u] p] _ [H F]. cbn [good hint_json_ok hint_forget]. rewrite F. auto. }
  eapply good_bind; [apply good_field; [exact Hm|apply good_sb]|]. intros s _ Hs.
  eapply good_bind; [apply good_field; [exact Hm|apply good_position]|]. intros p _ Hp.
  eapply good_bind; [apply good_fmsg; exact Hm|]. intros c _ _.
  destruct (bytes_eqb t (txt "cmtWithSecret")).
  { eapply good_bind; [apply good_field; [exact Hm|apply good_scalar]|]. intros r _ Hr. cbn [good hint_json_ok hint_forget]. auto. }
  destruct (bytes_eqb t (txt "cmtReal")); [cbn [good hint_json_ok hint_forget]; auto|].
  destruct (bytes_eqb t (txt "cmtSimulated")); [cbn [good hint_json_ok hint_forget]; auto|exact I].
Qed.

(** ** Hint bags of a transaction *)
Definition hmap_json_ok (m : hmap G) : Prop := Forall (fun e => Z.of_nat (fst e) < 2 ^ 64 /\ Forall hint_json_ok (snd e)) m.
Lemma hm_entries_spec : forall (m : hmap G) seen,
  (forall i, ~ In i seen -> hm_get (hm_entries seen m) i = hm_get m i) /\ NoDup (map fst (hm_entries seen m)) /\
  (forall i, In i (map fst (hm_entries seen m)) -> ~ In i seen) /\ incl (hm_entries seen m) m.
Proof.
  induction m as [|[k l] m IH]; intros seen; cbn [hm_entries].
  - split; [reflexivity|]. split; [constructor|]. split; [intros i []|apply incl_refl].
  - destruct (existsb (Nat.eqb k) seen) eqn:E.
    + destruct (IH seen) as (H1 & H2 & H3 & H4). split; [|split; [exact H2|split; [exact H3|apply incl_tl; exact H4]]].
      intros i Hi. rewrite H1 by exact Hi. cbn [hm_get]. destruct (Nat.eqb_spec k i) as [->|]; [|reflexivity].
      apply existsb_exists in E. destruct E as (y & Hy & Ey). apply Nat.eqb_eq in Ey. subst. tauto.
    + destruct (IH (k :: seen)) as (H1 & H2 & H3 & H4). cbn [map fst]. split; [|split; [|split]].
      * intros i Hi. cbn [hm_get]. destruct (Nat.eqb_spec k i) as [->|Hn]; [reflexivity|]. apply H1. cbn [In]. tauto.
      * constructor; [|exact H2]. intros X. apply H3 in X. apply X. left. reflexivity.
      * intros i [<-|Hi] X.
        -- assert (existsb (Nat.eqb k) seen = true); [|congruence]. apply existsb_exists. exists k. split; [exact X|apply Nat.eqb_refl].
        -- apply H3 in Hi. apply Hi. right. exact X.
      * apply incl_cons; [left; reflexivity|apply incl_tl; exact H4].
Qed.
Lemma hm_get_in : forall (m : hmap G) i l, NoDup (map fst m) -> hm_get m i = Some l <-> In (i, l) m.
Proof.
  induction m as [|[k v] m IH]; intros i l ND; [split; [discriminate|intros []]|]. cbn [map fst] in ND. inversion ND as [|x y H1 H2]; subst. cbn [hm_get].
  destruct (Nat.eqb_spec k i) as [->|Hn].
  - split; [intros E; injection E as ->; left; reflexivity|]. intros [E|E]; [injection E as ->; reflexivity|].
    exfalso. apply H1. apply (in_map fst) in E. exact E.
  - rewrite IH by exact H2. split; [intros E; right; exact E|]. intros [E|E]; [injection E as -> _; congruence|exact E].
Qed.
Lemma hm_get_perm : forall m m' : hmap G, NoDup (map fst m) -> Permutation m m' -> forall i, hm_get m i = hm_get m' i.
Proof.
  intros m m' ND P i. assert (ND' : NoDup (map fst m')) by (eapply Permutation_NoDup; [apply Permutation_map; exact P|exact ND]).
  destruct (hm_get m i) as [l|] eqn:E.
  - apply (hm_get_in m i l ND) in E. symmetry. apply hm_get_in; [exact ND'|]. eapply Permutation_in; eassumption.
  - destruct (hm_get m' i) as [l|] eqn:E'; [|reflexivity]. apply (hm_get_in m' i l ND') in E'.
    assert (In (i, l) m) as X by (eapply Permutation_in; [apply Permutation_sym; exact P|exact E']). apply (hm_get_in m i l ND) in X. congruence.
Qed.
Lemma hmap_members : forall l (r : hmap G) acc, Forall2 (fun (e : bytes * json) p => index_of_text (fst e) = Ok (fst p) /\ list_of hint_of_json (snd e) = Ok (snd p)) l r ->
  hmap_of_members acc l = Ok (rev r ++ acc).
Proof.
  intros l r acc F. revert acc. induction F as [|[k j] [i h] l r [E1 E2] _ IH]; intros acc; [reflexivity|]. cbn [fst snd] in *. cbn [hmap_of_members]. rewrite E1. cbn [bind].
  rewrite E2. cbn [bind]. rewrite IH. cbn [rev]. rewrite <- app_assoc. reflexivity.
Qed.
Variable ord : members -> members.
Hypothesis Hord : forall l, Permutation l (ord l).
Definition hmap_forget (m : hmap G) : hmap G := map (fun e => (fst e, map hint_forget (snd e))) m.
Lemma hm_get_forget : forall m i, hm_get (hmap_forget m) i = option_map (map hint_forget) (hm_get m i).
Proof. intros m i. induction m as [|[k v] m IH]; [reflexivity|]. cbn [hmap_forget map hm_get fst snd]. destruct (Nat.eqb k i); [reflexivity|exact IH]. Qed.
Lemma hmap_rt : forall m, hmap_json_ok m -> exists j m', json_of_hmap ord m = Ok j /\ hmap_of_json j = Ok m' /\
  forall i, hm_get m' i = option_map (map hint_forget) (hm_get m i).
Proof.
  intros m F. destruct (hm_entries_spec m []) as (H1 & H2 & _ & H4).
  assert (F' : Forall (fun e => Z.of_nat (fst e) < 2 ^ 64 /\ Forall hint_json_ok (snd e)) (hm_entries [] m)).
  { unfold hmap_json_ok in F. rewrite Forall_forall in *. intros e He. apply F. apply H4. exact He. }
  assert (T : exists l, traverse json_of_hints (hm_entries [] m) = Ok l /\
    Forall2 (fun (e : bytes * json) p => index_of_text (fst e) = Ok (fst p) /\ list_of hint_of_json (snd e) = Ok (snd p)) l (hmap_forget (hm_entries [] m))).
  { clear -F' HG. induction F' as [|[i hs] r [Hi Hh] _ (l & El & Fl)]; [exists []; split; [reflexivity|constructor]|]. cbn [fst snd] in *.
    assert (S : exists js, traverse json_of_hint hs = Ok js /\ traverse hint_of_json js = Ok (map hint_forget hs)).
    { clear -Hh HG. induction Hh as [|h hs H _ (js & E1 & E2)]; [exists []; split; reflexivity|]. destruct (hint_rt h H) as (j & Ej & Rj).
      exists (j :: js). cbn [traverse map]. rewrite Ej, E1. cbn [bind]. split; [reflexivity|]. rewrite Rj, E2. reflexivity. }
    destruct S as (js & S1 & S2). exists ((dec_text 20 (Z.of_nat i), JArr js) :: l). split.
    - cbn [traverse]. unfold json_of_hints at 1. cbn [fst snd]. rewrite S1. cbn [bind]. rewrite El. reflexivity.
    - cbn [hmap_forget map]. constructor; [|exact Fl]. cbn [fst snd list_of]. split; [apply index_rt; exact Hi|exact S2]. }
  destruct T as (l & El & Fl). destruct (forall2_perm _ _ _ _ _ _ (Hord l) Fl) as (r & Pr & Fr).
  exists (JObj (ord l)), (rev r ++ []). unfold json_of_hmap. rewrite El. split; [reflexivity|]. split.
  - unfold hmap_of_json. cbn [as_object bind]. apply hmap_members. exact Fr.
  - intros i. rewrite app_nil_r. rewrite <- (hm_get_perm (hmap_forget (hm_entries [] m)) (rev r)).
    + rewrite hm_get_forget. rewrite H1 by (intros []). reflexivity.
    + unfold hmap_forget. rewrite map_map. cbn [fst]. exact H2.
    + eapply Permutation_trans; [exact Pr|apply Permutation_rev].
Qed.
Lemma txhints_rt : forall b, hmap_json_ok (th_secret b) -> hmap_json_ok (th_public b) -> exists j b', json_of_txhints ord b = Ok j /\ txhints_of_json j = Ok b' /\
  (forall i, hm_get (th_secret b') i = option_map (map hint_forget) (hm_get (th_secret b) i)) /\
  (forall i, hm_get (th_public b') i = option_map (map hint_forget) (hm_get (th_public b) i)).
Proof.
  intros b Hs Hp. destruct (hmap_rt _ Hs) as (j1 & m1 & E1 & R1 & G1), (hmap_rt _ Hp) as (j2 & m2 & E2 & R2 & G2).
  unfold json_of_txhints. rewrite E1, E2. cbn [bind]. eexists. exists (TxHints m1 m2). split; [reflexivity|]. split; [|split; [exact G1|exact G2]].
  unfold txhints_of_json. cbn [as_fields bind]. fld. rewrite R1. cbn [bind]. fld. rewrite R2. reflexivity.
Qed.
Lemma good_hmap : forall j, tidy false j -> good false (fun m => hmap_json_ok m /\ Forall (fun e => map hint_forget (snd e) = snd e) m) (hmap_of_json j).
Proof.
  intros j Hj. unfold hmap_of_json. eapply good_bind; [apply good_object; exact Hj|]. intros l _ Hl.
  assert (A : hmap_json_ok (@nil (nat * list (hint G))) /\ Forall (fun e : nat * list (hint G) => map hint_forget (snd e) = snd e) []) by (split; constructor).
  revert A. generalize (@nil (nat * list (hint G))). induction Hl as [|[k x] l [_ Hx] _ IH]; intros acc Ha; cbn [hmap_of_members]; [exact Ha|]. cbn [snd] in Hx.
  eapply good_bind; [apply good_index|]. intros i _ Hi.
  eapply good_bind; [apply (good_list _ false hint_of_json (fun h => hint_json_ok h /\ hint_forget h = h)); [exact Hx|intros y Hy; apply good_hint; [exact Hy|discriminate]]|].
  intros hs _ Hs. apply IH. destruct Ha as [A1 A2]. split; constructor; auto; cbn [fst snd].
  - split; [exact Hi|]. eapply Forall_impl; [|exact Hs]. intros h Hh. apply Hh.
  - clear -Hs. induction Hs as [|h hs [_ E] _ IH]; [reflexivity|]. cbn [map]. rewrite E, IH. reflexivity.
Qed.

(** ** Headers *)
Definition sized (n : Z) (b : bytes) : Prop := bytes_ok b /\ Zlen b = n.
Definition header_json_ok (h : @header G) : Prop :=
  0 <= h_version h < 256 /\ sized 32 (h_id h) /\ sized 32 (h_parent_id h) /\ sized 32 (h_ad_proofs_root h) /\ sized 33 (h_state_root h) /\
  sized 32 (h_transaction_root h) /\ u64 (h_timestamp h) /\ u64 (h_n_bits h) /\ u32 (h_height h) /\ sized 32 (h_extension_root h) /\
  bytes_ok (nonce (h_solution h)) /\ sized 3 (h_votes h).
Lemma digits_bound : forall z, 0 <= z -> z < 10 ^ Z.of_nat (S (Z.to_nat (Z.log2 z))).
Proof.
  intros z Hz. assert (E : 2 ^ Z.of_nat (S (Z.to_nat (Z.log2 z))) <= 10 ^ Z.of_nat (S (Z.to_nat (Z.log2 z)))) by (apply Z.pow_le_mono_l; lia).
  assert (z < 2 ^ Z.of_nat (S (Z.to_nat (Z.log2 z)))); [|lia]. rewrite Nat2Z.inj_succ. pose proof (Z.log2_nonneg z). rewrite Z2Nat.id by lia.
  destruct (Z.eq_dec z 0) as [->|]; [reflexivity|]. apply Z.log2_spec. lia.
Qed.
Lemma bigint_digits_ok : forall ds, ds <> [] -> Forall (fun d => 48 <= d <= 57) ds -> bigint_digits ds = Some (number_of ds).
Proof.
  intros ds N F. unfold bigint_digits. assert (E : filter (fun c => negb (c =? 95)) ds = ds).
  { clear N. induction F as [|d ds Hd _ IH]; [reflexivity|]. cbn [filter]. replace (d =? 95) with false by lia. cbn [negb]. rewrite IH. reflexivity. }
  destruct ds as [|d ds]; [congruence|]. inversion F as [|x y Hd _]; subst.
  assert (D : forall (A : Type) (a b : A), match d with 95 => a | _ => b end = b).
  { intros A a b. assert (d <> 95) by lia. destruct d as [|p|p]; try reflexivity. do 7 (destruct p as [p|p|]; try reflexivity). congruence. }
  rewrite D. rewrite E. apply digits_value_spec; assumption.
Qed.
Lemma bigint_rt : forall z, bigint_of_text (bigint_text z) = Some z.
Proof.
  intros z. unfold bigint_text. destruct (dec_text_spec (S (Z.to_nat (Z.log2 (Z.abs z)))) (Z.abs z)) as (V & F & N).
  { split; [lia|]. apply digits_bound. lia. }
  { lia. }
  set (ds := dec_text _ _) in *. clearbody ds. destruct (z <? 0) eqn:E.
  - destruct ds as [|d ds]; [congruence|]. cbn [bigint_of_text]. pose proof (bigint_digits_ok (d :: ds) N F) as B. inversion F as [|x y Hd _]; subst.
    assert (D : match d with 43 => None | _ => option_map Z.opp (bigint_digits (d :: ds)) end = Some z).
    { rewrite B. cbn [option_map]. assert (d <> 43) by lia. replace (Some (- number_of (d :: ds))) with (Some z) by (f_equal; lia).
      destruct d as [|p|p]; try reflexivity. do 6 (destruct p as [p|p|]; try reflexivity). congruence. }
    exact D.
  - destruct ds as [|d ds]; [congruence|]. pose proof (bigint_digits_ok (d :: ds) N F) as B. inversion F as [|x y Hd _]; subst.
    assert (D : bigint_of_text (d :: ds) = bigint_digits (d :: ds)).
    { assert (d <> 43) by lia. assert (d <> 45) by lia. cbn [bigint_of_text].
      destruct d as [|p|p]; try reflexivity. do 6 (destruct p as [p|p|]; try reflexivity); congruence. }
    rewrite D, B. f_equal. lia.
Qed.
Lemma solution_rt : forall s : @solution G, bytes_ok (nonce s) -> pow_distance s <> None -> solution_of_json (json_of_solution s) = Ok s.
Proof.
  intros [pk w n d] Hn Hd. cbn [nonce pow_distance] in *. destruct d as [d|]; [|congruence].
  unfold solution_of_json, json_of_solution. cbn [as_fields bind miner_pk pow_onetime_pk nonce pow_distance].
  fld. rewrite point_rt. cbn [bind].
  assert (O : forall m, lookup ["w"] m = Ok (Some match w with Some w => json_of_point w | None => JNull end) -> opt_field ["w"] (@point_of_json G) m = Ok w).
  { intros m L. unfold opt_field. rewrite L. cbn [bind]. destruct w as [w|]; [|reflexivity]. pose proof (point_rt w) as P.
    unfold json_of_point, to_hex in *. rewrite P. reflexivity. }
  rewrite O by look. cbn [bind]. fld. rewrite of_to_hex by exact Hn. cbn [bind]. 
  match goal with |- context [lookup ["d"] ?m] => assert (L : lookup ["d"] m = Ok (Some (JStr (bigint_text d)))) by look; rewrite L end.
  cbn [bind distance_of_json]. rewrite bigint_rt. reflexivity.
Qed.
Lemma header_rt : forall h : @header G, header_json_ok h -> pow_distance (h_solution h) <> None -> header_of_json (json_of_header h) = Ok h.
Proof.
  intros h (H1 & [B2 L2] & [B3 L3] & [B4 L4] & [B5 L5] & [B6 L6] & H7 & H8 & H9 & [B10 L10] & H11 & [B12 L12]) Hd.
  unfold header_of_json, json_of_header. cbn [as_fields bind].
  fld. rewrite uint_num by exact H1. cbn [bind]. fld. rewrite digest_rt by assumption. cbn [bind]. fld. rewrite digest_rt by assumption. cbn [bind].
  fld. rewrite digest_rt by assumption. cbn [bind]. fld. rewrite digest_rt by assumption. cbn [bind]. fld. rewrite digest_rt by assumption. cbn [bind].
  fld. rewrite uint_num by exact H7. cbn [bind]. fld. rewrite uint_num by exact H8. cbn [bind]. fld. rewrite uint_num by exact H9. cbn [bind].
  fld. rewrite digest_rt by assumption. cbn [bind]. fld. rewrite solution_rt by assumption. cbn [bind]. fld. cbn [votes_of_json to_hex].
  change (JStr (hex (h_votes h))) with (to_hex (h_votes h)). rewrite digest_rt by assumption. cbn [bind]. destruct h; reflexivity.
Qed.
Lemma good_votes : forall j, tidy false j -> good false (sized 3) (votes_of_json j).
Proof.
  intros j Hj. assert (D : good false (sized 3) (digest 3 j)) by (apply (good_digest false 3 j Hj)).
  destruct j as [| | | | |l|]; try exact D. cbn [votes_of_json]. destruct (forallb is_number l); [|exact I].
  eapply (good_bind _ _ false (Forall byte)).
  - apply good_traverse. apply Forall_forall. intros x _. destruct x; cbn [vote_of_json good]; auto. destruct ((0 <=? z) && (z <? 2 ^ 64)); cbn [good]; auto.
    unfold byte, wrapu. apply (Z.mod_pos_bound z (2 ^ 8)). reflexivity.
  - intros v _ Hv. destruct (Zlen v =? 3) eqn:E; [|exact I]. split; [exact Hv|lia].
Qed.
Lemma good_solution : forall b j, tidy b j -> good b (fun s : @solution G => bytes_ok (nonce s)) (solution_of_json j).
Proof.
  intros b j Hj. unfold solution_of_json. eapply good_bind; [apply good_fields; [reflexivity|exact Hj]|]. intros m _ Hm.
  eapply good_bind; [apply good_field; [exact Hm|apply good_point]|]. intros pk _ _.
  eapply good_bind; [apply good_opt_field; [exact Hm|apply good_point]|]. intros w _ _.
  eapply good_bind; [apply good_field; [exact Hm|apply good_hex]|]. intros n _ [Hn _].
  eapply good_bind; [apply good_lookup; exact Hm|]. intros o _ _.
  eapply (good_bind _ _ b (fun _ => True)); [|intros d _ _; exact Hn].
  destruct o as [x|]; [|exact I]. destruct x; cbn [distance_of_json]; try exact I.
  - destruct trunc; exact I.
  - destruct (bigint_of_text s); exact I.
Qed.
Lemma good_header : forall j, tidy false j -> good false header_json_ok (@header_of_json G j).
Proof.
  intros j Hj. unfold header_of_json. eapply good_bind; [apply good_fields; [reflexivity|exact Hj]|]. intros m _ Hm.
  eapply good_bind; [apply good_field; [exact Hm|intros x _; apply good_uint]|]. intros v _ Hv.
  do 5 (eapply good_bind; [apply good_field; [exact Hm|apply good_digest]|]; intros ? _ ?).
  do 3 (eapply good_bind; [apply good_field; [exact Hm|intros x _; apply good_uint]|]; intros ? _ ?).
  eapply good_bind; [apply good_field; [exact Hm|apply good_digest]|]. intros e _ He.
  eapply good_bind; [apply good_field; [exact Hm|apply good_solution]|]. intros s _ Hs.
  eapply good_bind; [apply good_field; [exact Hm|apply good_votes]|]. intros vt _ Hvt.
  unfold header_json_ok. cbn [good h_version h_id h_parent_id h_ad_proofs_root h_state_root h_transaction_root h_timestamp h_n_bits h_height h_extension_root h_solution h_votes].
  repeat (split; [assumption|]). exact Hvt.
Qed.
End Hint.

(** ** Merkle proofs *)
Definition hash_ok (o : option bytes) : Prop := match o with Some h => idb h | None => True end.
Lemma hash_rt : forall o, hash_ok o -> hash_of_json (json_of_hash o) = Ok o.
Proof.
  intros [h|] H; [|reflexivity]. destruct H as [B L]. unfold hash_of_json, json_of_hash. rewrite of_to_hex by exact B. cbn [bind].
  destruct h as [|x h]; [discriminate L|]. rewrite L. reflexivity.
Qed.
Lemma good_hash : forall b j, tidy b j -> good b hash_ok (hash_of_json j).
Proof.
  intros b j Hj. unfold hash_of_json. eapply good_bind; [apply good_hex; exact Hj|]. intros x _ [Hx _]. destruct x as [|y x]; [exact I|].
  destruct (Zlen (y :: x) =? 32) eqn:E; [|exact I]. split; [exact Hx|lia].
Qed.
Lemma side_rt : forall s, side_of_json (JNum (side_code s)) = Ok s.
Proof. intros []; reflexivity. Qed.
Lemma good_side : forall b j, good b (fun _ => True) (side_of_json j).
Proof. intros b j. destruct j; try exact I. destruct z as [|[p|p|]|p]; exact I. Qed.
Lemma level_rt : forall n, hash_ok (ln_hash n) -> level_of_json (json_of_level n) = Ok n.
Proof. intros [h s] H. unfold level_of_json, json_of_level. cbn [ln_hash ln_side] in *. rewrite hash_rt by exact H. cbn [bind]. rewrite side_rt. reflexivity. Qed.
Lemma good_level : forall b j, tidy b j -> good b (fun n => hash_ok (ln_hash n)) (level_of_json j).
Proof.
  intros b j Hj. destruct j as [| | | | |l|]; try exact I. destruct l as [|h [|s [|x l]]]; try exact I. apply tidy_arr in Hj. inversion Hj; subst.
  cbn [level_of_json]. eapply good_bind; [apply good_hash; assumption|]. intros o _ Ho. eapply good_bind; [apply good_side|]. intros sd _ _. exact Ho.
Qed.
Lemma merkle_rt : forall p, bytes_ok (leaf_data p) -> Forall (fun n => hash_ok (ln_hash n)) (levels p) -> merkle_of_json (json_of_merkle p) = Ok p.
Proof.
  intros [d l] B F. cbn [leaf_data levels] in *. unfold merkle_of_json, json_of_merkle. cbn [as_fields bind leaf_data levels]. fld. rewrite of_to_hex by exact B. cbn [bind].
  fld. cbn [list_of]. rewrite traverse_map by (eapply Forall_impl; [|exact F]; apply level_rt). reflexivity.
Qed.
Lemma good_merkle : forall b j, tidy b j -> good b (fun p => bytes_ok (leaf_data p) /\ Forall (fun n => hash_ok (ln_hash n)) (levels p)) (merkle_of_json j).
Proof.
  intros b j Hj. unfold merkle_of_json. eapply good_bind; [apply good_fields; [reflexivity|exact Hj]|]. intros m _ Hm.
  eapply good_bind; [apply good_field; [exact Hm|apply good_hex]|]. intros d _ [Hd _].
  eapply good_bind; [apply good_field; [exact Hm|intros x Hx; apply good_list; [exact Hx|apply good_level]]|]. intros l _ Hl. split; assumption.
Qed.
Definition bidx_ok (x : bidx) : Prop := Z.of_nat (bi_index x) < 2 ^ 64 /\ idb (bi_hash x).
Lemma bidx_rt : forall x, bidx_ok x -> bidx_of_json (json_of_bidx x) = Ok x.
Proof.
  intros [i h] [Hi [B L]]. cbn [bi_index bi_hash] in *. unfold bidx_of_json, json_of_bidx. cbn [as_fields bind bi_index bi_hash].
  fld. rewrite uint_num by lia. cbn [bind]. fld. rewrite digest_rt by assumption. cbn [bind]. rewrite Nat2Z.id. reflexivity.
Qed.
Lemma blevel_rt : forall n, hash_ok (ln_hash n) -> blevel_of_json (json_of_blevel n) = Ok n.
Proof.
  intros [h s] H. unfold blevel_of_json, json_of_blevel. cbn [as_fields bind ln_hash ln_side] in *. fld. rewrite hash_rt by exact H. cbn [bind]. fld. rewrite side_rt. reflexivity.
Qed.
Lemma batch_rt : forall p, Forall bidx_ok (indices p) -> Forall (fun n => hash_ok (ln_hash n)) (MerkleModel.proofs p) -> batch_of_json (json_of_batch p) = Ok p.
Proof.
  intros [i l] F1 F2. cbn [indices MerkleModel.proofs] in *. unfold batch_of_json, json_of_batch. cbn [as_fields bind indices MerkleModel.proofs].
  fld. cbn [list_of]. rewrite traverse_map by (eapply Forall_impl; [|exact F1]; apply bidx_rt). cbn [bind].
  fld. cbn [list_of]. rewrite traverse_map by (eapply Forall_impl; [|exact F2]; apply blevel_rt). reflexivity.
Qed.
Lemma good_batch : forall b j, tidy b j -> good b (fun p => Forall bidx_ok (indices p) /\ Forall (fun n => hash_ok (ln_hash n)) (MerkleModel.proofs p)) (batch_of_json j).
Proof.
  intros b j Hj. unfold batch_of_json. eapply good_bind; [apply good_fields; [reflexivity|exact Hj]|]. intros m _ Hm.
  eapply good_bind; [apply good_field; [exact Hm|intros x Hx; apply (good_list _ b _ bidx_ok); [exact Hx|]]|].
  { intros y Hy. unfold bidx_of_json. eapply good_bind; [apply good_fields; [reflexivity|exact Hy]|]. intros n _ Hn.
    eapply good_bind; [apply good_field; [exact Hn|intros z _; apply good_uint]|]. intros i _ Hi.
    eapply good_bind; [apply good_field; [exact Hn|apply good_digest]|]. intros h _ Hh. split; cbn [bi_index bi_hash]; [cbv beta in Hi; lia|exact Hh]. }
  intros i _ Hi. eapply good_bind; [apply good_field; [exact Hm|intros x Hx; apply (good_list _ b _ (fun n => hash_ok (ln_hash n))); [exact Hx|]]|].
  { intros y Hy. unfold blevel_of_json. eapply good_bind; [apply good_fields; [reflexivity|exact Hy]|]. intros n _ Hn.
    eapply good_bind; [apply good_field; [exact Hn|apply good_hash]|]. intros h _ Hh.
    eapply good_bind; [apply good_field; [exact Hn|intros z _; apply good_side]|]. intros s _ _. exact Hh. }
  intros l _ Hl. split; assumption.
Qed.
