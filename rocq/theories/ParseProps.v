(** Properties of readers applied to arbitrary bytes: C81, C82. *)
From Verif Require Import Base VlqModel VlqProofs GroupModel GroupProofs SigmaModel SigmaProofs.
From Verif Require Import TypeModel MethodModel IrModel SerModel SerLocal SerSpec SerProofs SerProps ChainModel ChainProps TxModel TxProps.
From Verif Require Import ReadProofs ParseProofs TypeProofs.
Local Open Scope string_scope.
Local Open Scope list_scope.
Local Open Scope Z_scope.

(** Byte strings that fit into memory on the platforms of the library. *)
Definition input_ok (bs : bytes) : Prop := bytes_ok bs /\ Zlen bs < 2 ^ 31.
(** A reader that starts without a pending substitution of constants. *)
Definition plain {G : group} (st : @rst G) : Prop := rs_subst st = false.

Section All.
Context {G : group} (HG : group_ok G).
Lemma all_expr : forall k, Z.of_nat k < 2 ^ 31 -> forall st, sat k st (@parse_expr G) (QE st).
Proof. exact (sat_expr HG). Qed.

(** Readers of transactions. *)
Lemma reads_token_ids : forall ids, Forall id32 ids -> reads (parse_token (Some ids)) (fun t u => token_ok t).
Proof.
  intros ids Hi bs Hb. unfold parse_token.
  eapply out_bind with (Q := fun id u => id32 id).
  { eapply out_bind; [apply reads_u32; exact Hb|]. intros i u r Hu Hr _. cbv beta iota.
    destruct (nth_error ids (Z.to_nat i)) as [x|] eqn:E; cbn [of_option bind]; [|exact I].
    apply out_ret; [exact Hr|]. rewrite Forall_forall in Hi. eapply Hi, nth_error_In, E. }
  intros id u r Hu Hr HI. cbv beta iota.
  eapply out_bind; [apply reads_u64; exact Hr|]. intros v u2 r2 Hu2 Hr2 (H1 & H2 & _). cbv beta iota.
  unfold token_amount_of. destruct ((1 <=? v) && (v <=? i64_max)) eqn:E; cbn [bind]; [|exact I].
  apply out_ret; [exact Hr2|]. split; cbn [fst snd]; [exact HI|]. unfold i64_max in E. lia.
Qed.
Lemma reads_tokens_ids : forall ids, Forall id32 ids ->
  reads (parse_tokens (Some ids)) (fun l u => Forall token_ok l /\ Zlen l <= max_tokens).
Proof.
  intros ids Hi bs Hb. unfold parse_tokens.
  eapply out_bind; [apply reads_u8; exact Hb|]. intros n u r Hu Hr [Hn ->]. cbv beta iota.
  eapply out_bind; [eapply (reads_n _ _ _ (fun l v => Forall token_ok l)); [apply reads_token_ids; exact Hi| | |exact Hr]|].
  { constructor. }
  { intros a l v w A1 A2. constructor; assumption. }
  intros l v r2 Hv Hr2 [HL HF]. cbv beta iota.
  destruct (Zlen l <=? max_tokens) eqn:E; [|exact I]. apply out_ret; [exact Hr2|]. split; [exact HF|lia].
Qed.

Lemma reads_proof : reads parse_proof (fun p u => proof_ok p /\ bytes_ok (proof_bytes p)).
Proof.
  intros bs Hb. unfold parse_proof. eapply out_bind; [apply reads_u16; exact Hb|]. intros n u r Hu Hr (Hn & _). cbv beta iota.
  destruct (n =? 0) eqn:E; [apply out_ret; [exact Hr|split; [exact I|constructor]]|].
  eapply out_bind; [apply reads_exact; exact Hr|]. intros b u2 r2 Hu2 Hr2 [-> HL]. cbv beta iota.
  apply out_ret; [exact Hr2|]. split; [|exact Hu2]. cbn [proof_ok]. unfold Zlen. rewrite HL. unfold u16 in Hn. change (2 ^ 16) with 65536 in Hn. lia.
Qed.
Lemma reads_ids : forall n, reads (read_n n (read_exact 32)) (fun l u => List.length l = n /\ Forall id32 l).
Proof.
  intros n. eapply (reads_n _ _ (fun a _ => id32 a) (fun l _ => Forall id32 l)).
  - intros bs Hb. eapply out_conseq; [apply reads_exact; exact Hb|]. intros a u _ [-> H]. exact H.
  - constructor.
  - intros a l u v A1 A2. constructor; assumption.
Qed.

Section Tx.
Variable k : nat.
Hypothesis Hk : Z.of_nat k < 2 ^ 31.

Lemma sat_cand_ids : forall ids, Forall id32 ids -> forall st,
  sat k st (parse_cand parse_expr (Some ids)) (fun c st' _ => ok_cand (G := G) st c st').
Proof.
  intros ids Hi st. unfold parse_cand. eapply sat_bind; [apply sat_lift, reads_value|]. intros v st1 u1 _ _ (-> & Hv & Sv).
  eapply sat_bind; [apply (sat_tree k Hk (all_expr k Hk))|]. intros t st1 u2 _ _ [Ht St].
  eapply sat_bind; [apply sat_lift, reads_u32|]. intros h st2 u3 _ _ (-> & Hh & Sh & _).
  eapply sat_bind; [apply sat_lift, (reads_tokens_ids ids Hi)|]. intros tk st2 u4 _ _ (-> & Htk & Ltk).
  eapply sat_bind; [apply (sat_regs k (all_expr k Hk))|]. intros rg st2 u5 _ _ (Lrg & Hrg & Srg).
  apply sat_ret. eapply ok_candidate; eassumption.
Qed.

Definition const_good (c : const G) : Prop := (exists b, ser_const c = Ok b) /\ exists st st', ok_const st c st'.
Lemma ok_const_good : forall st c st', ok_const st c st' -> const_good c.
Proof.
  intros st c st' H. destruct (ok_roundtrip HG) as (_ & _ & _ & R & _). destruct (const_rt _ _ _ (R _ _ _ H)) as (b & E & _).
  split; [exists b; exact E|exists st, st'; exact H].
Qed.

Lemma insert_in : forall (m : ext G) i c x, In x (map fst (ext_insert i c m)) <-> x = i \/ In x (map fst m).
Proof.
  induction m as [|[i' c'] m IH]; intros i c x; cbn [ext_insert map fst In]; [intuition congruence|].
  destruct (Z.eqb_spec i' i); cbn [map fst In]; [subst; intuition congruence|]. rewrite IH. tauto.
Qed.
Lemma insert_nodup : forall (m : ext G) i c, NoDup (map fst m) -> NoDup (map fst (ext_insert i c m)).
Proof.
  induction m as [|[i' c'] m IH]; intros i c H; cbn [ext_insert map fst] in *.
  - constructor; [intros []|constructor].
  - inversion_clear H. destruct (Z.eqb_spec i' i); cbn [map fst]; [subst; constructor; assumption|].
    constructor; [rewrite insert_in; intuition congruence|auto].
Qed.
Lemma insert_good : forall (m : ext G) i c, const_good c -> Forall const_good (map snd m) -> Forall const_good (map snd (ext_insert i c m)).
Proof.
  induction m as [|[i' c'] m IH]; intros i c Hc H; cbn [ext_insert map snd] in *; [constructor; auto|].
  inversion_clear H. destruct (i' =? i); cbn [map snd]; constructor; auto.
Qed.
Lemma insert_len : forall (m : ext G) i c, Zlen (ext_insert i c m) <= Zlen m + 1.
Proof.
  induction m as [|[i' c'] m IH]; intros i c; cbn [ext_insert]; [reflexivity|].
  destruct (i' =? i); rewrite !Zlen_cons; [lia|]. specialize (IH i c). lia.
Qed.
Lemma insert_not_nil : forall (m : ext G) i c, ext_insert i c m <> [].
Proof. intros [|[i' c'] m] i c; cbn [ext_insert]; [discriminate|]. destruct (i' =? i); discriminate. Qed.
Lemma fold_insert : forall (l m : ext G), NoDup (map fst m) -> Forall u8 (map fst m) -> Forall const_good (map snd m) ->
  Forall (fun e => u8 (fst e) /\ const_good (snd e)) l ->
  let r := fold_left (fun m e => ext_insert (fst e) (snd e) m) l m in
  NoDup (map fst r) /\ Forall u8 (map fst r) /\ Forall const_good (map snd r) /\ Zlen r <= Zlen m + Zlen l /\
  (r = [] -> l = [] /\ m = []).
Proof.
  induction l as [|[i c] l IH]; intros m H1 H2 H3 HF r; subst r; cbn [fold_left].
  { split; [exact H1|]. split; [exact H2|]. split; [exact H3|]. split; [rewrite Zlen_nil; lia|]. auto. }
  inversion_clear HF. destruct H as [Hu Hc]. cbn [fst snd] in *.
  destruct (IH (ext_insert i c m)) as (A & B & C & D & E).
  - apply insert_nodup; exact H1.
  - apply Forall_forall. intros x Hx. apply insert_in in Hx. rewrite Forall_forall in H2. destruct Hx as [->|Hx]; auto.
  - apply insert_good; assumption.
  - assumption.
  - split; [exact A|]. split; [exact B|]. split; [exact C|]. split.
    + rewrite Zlen_cons. pose proof (insert_len m i c). lia.
    + intros X. apply E in X. destruct X as [_ X]. destruct (insert_not_nil _ _ _ X).
Qed.

Definition QI (st : @rst G) (i : input G) (st' : @rst G) : Prop := id32 (in_box i) /\ proof_ok (in_proof i) /\ ext_ok (in_ext i) /\
  Forall const_good (map snd (in_ext i)) /\ (in_ext i = [] -> st' = st) /\ bytes_ok (proof_bytes (in_proof i)).
Inductive QIns : @rst G -> list (input G) -> @rst G -> Prop :=
| QIns_nil : forall st, QIns st [] st
| QIns_cons : forall st i st1 l st2, QI st i st1 -> QIns st1 l st2 -> QIns st (i :: l) st2.

Lemma sat_ext : forall st, sat k st (@parse_ext G) (fun m st' _ => ext_ok m /\ Forall const_good (map snd m) /\ (m = [] -> st' = st)).
Proof.
  intros st. unfold parse_ext. eapply sat_bind; [apply sat_lift, reads_u8|]. intros n st1 u _ _ (-> & Hn & _).
  eapply sat_bind.
  - apply (sat_n _ k _ (fun _ e _ _ => u8 (fst e) /\ const_good (snd e))
      (fun s l s' _ => Forall (fun e => u8 (fst e) /\ const_good (snd e)) l /\ (l = [] -> s' = s))).
    + intros s. unfold parse_entry. eapply sat_bind; [apply sat_lift, reads_u8|]. intros i s1 u0 _ _ (-> & Hi & _).
      eapply sat_bind; [apply (sat_const k (all_expr k Hk))|].
      intros c s1 v _ _ [Hc _]. apply sat_ret. cbn [fst snd]. split; [exact Hi|]. eapply ok_const_good; exact Hc.
    + intros s. split; [constructor|reflexivity].
    + intros s a s1 l s2 v w HA [HB _]. split; [constructor; assumption|discriminate].
  - intros l st1 v _ _ [HL [HF HE]]. apply sat_ret.
    destruct (fold_insert l []) as (A & B & C & D & E); [constructor|constructor|constructor|exact HF|].
    split; [|split].
    + split; [exact A|]. split; [exact B|]. rewrite Zlen_nil in D. unfold Zlen in D at 2. rewrite HL in D.
      unfold byte in Hn. lia.
    + exact C.
    + intros X. apply E in X. apply HE. apply X.
Qed.
Lemma sat_input : forall st, sat k st (@parse_input G) (fun i st' _ => QI st i st').
Proof.
  intros st. unfold parse_input. eapply sat_bind; [apply sat_lift, reads_exact|]. intros b st1 u _ _ (-> & -> & Hb).
  eapply sat_bind; [apply sat_lift, reads_proof|]. intros p st1 v _ _ (-> & Hp & Hpb).
  eapply sat_bind; [apply sat_ext|]. intros m st1 w _ _ (H1 & H2 & H3). apply sat_ret.
  split; [exact Hb|]. split; [exact Hp|]. split; [exact H1|]. split; [exact H2|]. split; [exact H3|exact Hpb].
Qed.

(** What the reader of transactions hands to the constructor. *)
Definition QTx H st t st' : Prop := exists ins st1 d cs,
  tx_new H ins d cs = Ok t /\ count_ok ins /\ data_ok d /\ count_ok cs /\ QIns st ins st1 /\ ok_cands (G := G) st1 cs st'.

Lemma entries_ser : forall m : ext G, Forall const_good (map snd m) -> exists b, write_list ser_entry m = Ok b.
Proof.
  induction m as [|[i c] m IH]; intros H; [eexists; reflexivity|]. cbn [map snd] in H. inversion_clear H.
  destruct H0 as [[b E] _]. destruct (IH H1) as [b' E']. cbn [write_list]. unfold ser_entry at 1. cbn [fst snd put_u8 bind].
  rewrite E. cbn [bind]. rewrite E'. cbn [bind]. eauto.
Qed.
Lemma inputs_ser : forall st ins st', QIns st ins st' -> exists b, write_list ser_input (map in_to_sign ins) = Ok b.
Proof.
  intros st ins st' H. induction H as [st|st i st1 l st2 HI H IH]; [eexists; reflexivity|].
  destruct HI as (_ & _ & _ & HE & _). destruct IH as [b Eb]. destruct (entries_ser _ HE) as [e Ee].
  cbn [map write_list]. unfold ser_input at 1. cbn [in_to_sign in_proof in_ext in_box ser_proof].
  unfold ser_ext. cbn [put_u8 bind]. rewrite Ee. cbn [bind]. rewrite Eb.
  destruct (get_put_u16 0) as (z & -> & _); [unfold u16; lia|]. cbn [bind]. eauto.
Qed.
Lemma bare_inputs : forall st ins st', QIns st ins st' -> forall s,
  ok_inputs (G := G) s (map (fun i => MkInput (in_box i) PEmpty []) ins) s.
Proof.
  intros st ins st' H s. induction H as [st|st i st1 l st2 HI H IH]; cbn [map]; [constructor|].
  destruct HI as (HI & _). econstructor; [exact HI|exact I| |apply ok_consts_nil|exact IH].
  split; [constructor|]. split; [constructor|]. vm_compute. discriminate.
Qed.
Lemma message_ok : forall st ins st1 d cs st', count_ok ins -> data_ok d -> count_ok cs -> QIns st ins st1 -> ok_cands st1 cs st' ->
  exists m, tx_message ins d cs = Ok m.
Proof.
  intros st ins st1 d cs st' Ci Hd Cc Hi Hc.
  assert (O : ok_tx st1 (map (fun i : input G => MkInput (in_box i) PEmpty []) ins) d cs st').
  { exists st1. split; [unfold count_ok, Zlen in *; rewrite map_length; exact Ci|].
    split; [exact Hd|]. split; [exact Cc|]. split; [eapply bare_inputs; exact Hi|exact Hc]. }
  apply (parts_rt HG) in O. destruct O as (bs & E & _). unfold tx_message.
  destruct (inputs_ser _ _ _ Hi) as [ib Ei]. revert E. unfold ser_tx_parts. rewrite Ei.
  replace (Zlen (map in_to_sign ins)) with (Zlen ins) by (unfold Zlen; rewrite map_length; reflexivity).
  replace (Zlen (map (fun i : input G => MkInput (in_box i) PEmpty []) ins)) with (Zlen ins) by (unfold Zlen; rewrite map_length; reflexivity).
  intros E. inv_bind E. inv_bind E. inv_bind E. inv_bind E. inv_bind E. inv_bind E.
  cbn [bind]. match goal with X : match d with _ => _ end = _ |- _ => rewrite X end. cbn [bind].
  repeat match goal with X : _ = Ok _ |- _ => rewrite X; clear X; cbn [bind] end. eauto.
Qed.

Lemma sat_tx : forall H st, sat k st (parse_tx H) (fun t st' _ => QTx H st t st').
Proof.
  intros H st. unfold parse_tx. eapply sat_bind; [apply sat_lift, reads_u16|]. intros n st0 u0 _ _ (-> & Hn & _).
  eapply sat_bind.
  { apply (sat_n _ k _ (fun s i s' _ => QI s i s') (fun s l s' _ => QIns s l s')).
    - apply sat_input.
    - intros s. apply QIns_nil.
    - intros s a s1 l s2 v w HA HB. eapply QIns_cons; eassumption. }
  intros ins st1 u1 _ _ [Li Hi].
  eapply sat_bind; [apply sat_lift, reads_u16|]. intros m st2 u2 _ _ (-> & Hm & _).
  eapply sat_bind; [apply sat_lift, reads_ids|]. intros data st2 u3 _ _ (-> & Ld & Hd).
  eapply sat_bind; [apply sat_lift, reads_u32|]. intros q st2 u4 _ _ (-> & Hq & _).
  destruct (max_tx_tokens <? q); [apply sat_err|].
  eapply sat_bind; [apply sat_lift, reads_ids|]. intros l st2 u5 _ _ (-> & Ll & Hl). cbv zeta.
  assert (HI : Forall id32 (index_set l)).
  { rewrite Forall_forall in *. intros x Hx. apply Hl. apply index_set_spec. exact Hx. }
  eapply sat_bind; [apply sat_lift, reads_u16|]. intros o st2 u6 _ _ (-> & Ho & _).
  eapply sat_bind.
  { apply (sat_n _ k _ (fun s c s' _ => ok_cand s c s') (fun s l s' _ => ok_cands s l s')).
    - apply (sat_cand_ids _ HI).
    - intros s. apply ok_cands_nil.
    - intros s a s1 l0 s2 v w HA HB. eapply ok_cands_cons; eassumption. }
  intros cs st2 u7 _ _ [Lc Hc].
  assert (C : match tx_of_vecs H ins data cs with
              | Panic => False
              | Err _ => True
              | Ok t => QTx H st t st2
              end).
  { unfold tx_of_vecs. destruct (txio_ok ins) eqn:E1; cbn [negb]; [|exact I].
    assert (Ci : count_ok ins) by (unfold txio_ok in E1; unfold count_ok; lia).
    destruct (opt_vec data) as [d|e|] eqn:E2; cbn [bind].
    - destruct (txio_ok cs) eqn:E3; cbn [negb]; [|exact I].
      assert (Cc : count_ok cs) by (unfold txio_ok in E3; unfold count_ok; lia).
      assert (Hdd : data_ok d).
      { destruct data as [|x data]; cbn [opt_vec] in E2; [injection E2 as <-; exact I|].
        destruct (txio_ok (x :: data)) eqn:E4; [|discriminate]. injection E2 as <-. cbn [data_ok].
        unfold txio_ok in E4. split; [lia|exact Hd]. }
      destruct (message_ok _ _ _ _ _ _ Ci Hdd Cc Hi Hc) as [msg Em].
      assert (ET : exists t, tx_new H ins d cs = Ok t).
      { unfold tx_new. destruct (mk_outputs_ok HG H zero_id cs _ _ 0 Hc) as [l1 ->]. cbn [bind]. rewrite Em. cbn [bind].
        destruct (mk_outputs_ok HG H (H msg) cs _ _ 0 Hc) as [l2 ->]. cbn [bind]. eauto. }
      destruct ET as [t Et]. rewrite Et. exists ins, st1, d, cs. repeat (split; [assumption|]). exact Hc.
    - exact I.
    - destruct data as [|x data]; cbn [opt_vec] in E2; [discriminate|]. destruct (txio_ok (x :: data)); discriminate. }
  destruct (tx_of_vecs H ins data cs) as [t|e|] eqn:E.
  - apply sat_res; [discriminate|]. intros a X. injection X as <-. exact C.
  - apply sat_res; [discriminate|]. intros a X. discriminate X.
  - destruct C.
Qed.
End Tx.

Lemma sat_out : forall A (p : @P G A) (Q : @rst G -> A -> @rst G -> bytes -> Prop) st bs,
  (forall k, Z.of_nat k < 2 ^ 31 -> forall st, sat k st p (Q st)) -> plain st -> input_ok bs ->
  match p st bs with
  | Ok (a, st', rest) => exists u, bs = u ++ rest /\ Q st a st' u
  | Err _ => True
  | Panic => False
  end.
Proof.
  intros A p Q st bs H Hs [Hb Hl]. pose proof (H (List.length bs) Hl st Hs bs Hb (le_n _)) as X.
  destruct (p st bs) as [[[a st'] rest]|e|]; cbn [outp] in X; auto.
  destruct X as (_ & u & E & _ & _ & HQ). exists u. auto.
Qed.
End All.

(** ** C81: what is accepted can be written again and read back *)

Theorem c81_expression : forall G, group_ok G -> forall st bs (e : expr G) st' rest, input_ok bs -> plain st ->
  parse_expr st bs = Ok (e, st', rest) ->
  exists bs', ser_expr_bytes e = Ok bs' /\ Zlen bs' <= 2 * (Zlen bs - Zlen rest) /\ bytes_ok bs' /\
    forall r, parse_expr st (bs' ++ r) = Ok (e, st', r).
Proof.
  intros G HG st bs e st' rest Hi Hs E. pose proof (sat_out _ _ _ st bs (sat_expr HG) Hs Hi) as X. rewrite E in X.
  destruct X as (u & -> & (H1 & H2 & _)). destruct (c22_expr_roundtrip G HG _ _ _ H1) as (bs' & F & _ & R).
  exists bs'. split; [exact F|].
  apply wsz_run in H2. destruct H2 as (x & Ex & Lx & Bx). unfold ser_expr_bytes in F. rewrite F in Ex. injection Ex as <-.
  split; [rewrite Zlen_app; lia|]. split; [exact Bx|exact R].
Qed.
Print Assumptions c81_expression.

Theorem c81_constant : forall G, group_ok G -> forall st bs (c : const G) st' rest, input_ok bs -> plain st ->
  parse_const st bs = Ok (c, st', rest) ->
  exists bs', ser_const c = Ok bs' /\ Zlen bs' <= 2 * (Zlen bs - Zlen rest) /\ bytes_ok bs' /\
    forall r, parse_const st (bs' ++ r) = Ok (c, st', r).
Proof.
  intros G HG st bs c st' rest Hi Hs E.
  pose proof (sat_out _ parse_const QK st bs (fun k Hk st0 => sat_const k (sat_expr HG k Hk) st0) Hs Hi) as X.
  rewrite E in X. destruct X as (u & -> & (H1 & (x & Ex & Lx))).
  destruct (c21_constant_roundtrip G HG _ _ _ H1) as (bs' & F & R). rewrite F in Ex. injection Ex as <-.
  exists bs'. split; [exact F|]. split; [rewrite Zlen_app; lia|]. split; [apply Lx|exact R].
Qed.
Print Assumptions c81_constant.

(** A script inside other data, and one that is given alone. *)
Theorem c81_script : forall G, group_ok G -> forall st bs (t : tree G) st' rest, input_ok bs -> plain st ->
  parse_script st bs = Ok (t, st', rest) ->
  exists bs', ser_tree t = Ok bs' /\ Zlen bs' <= 2 * (Zlen bs - Zlen rest) /\ bytes_ok bs' /\
    forall r, parse_script st (bs' ++ r) = Ok (t, st', r).
Proof.
  intros G HG st bs t st' rest Hi Hs E.
  pose proof (sat_out _ parse_script QTr st bs (fun k Hk st0 => sat_tree k Hk (sat_expr HG k Hk) st0) Hs Hi) as X.
  rewrite E in X. destruct X as (u & -> & (H1 & (x & Ex & Lx))).
  destruct (ok_roundtrip HG) as (_ & _ & _ & _ & _ & _ & _ & _ & R & _).
  destruct (R _ _ _ H1) as (bs' & F & P). rewrite F in Ex. injection Ex as <-.
  exists bs'. split; [exact F|]. split; [rewrite Zlen_app; lia|]. split; [apply Lx|exact P].
Qed.
Print Assumptions c81_script.

Lemma tree_parsed : forall G bs h cs (root : expr G), tree_of_bytes bs = Ok (Parsed h cs root) ->
  exists st, parse_script fresh bs = Ok (Parsed h cs root, st, []).
Proof.
  intros G bs h cs root. unfold tree_of_bytes, parse_script, parse_tree, pbind, lift.
  destruct (parse_header bs) as [[h0 r]|e|]; cbn [bind]; try discriminate.
  destruct (th_size h0).
  - destruct (get_u32 r) as [[n r1]|e|]; cbn [bind]; try discriminate.
    destruct (read_exact (Z.to_nat n) r1) as [[buf r2]|e|]; cbn [bind]; try discriminate.
    destruct (parse_body parse_expr h0 fresh buf) as [[[t0 st] r3]|e|] eqn:Eb; cbn [bind]; try discriminate.
    + destruct r2; [|discriminate]. intros E. injection E as ->. eexists. reflexivity.
    + destruct r2; discriminate.
  - destruct (parse_body parse_expr h0 fresh r) as [[[t0 st] r3]|e|]; try discriminate.
    destruct r3; [|discriminate]. intros E. injection E as ->. eexists. reflexivity.
Qed.
Theorem c81_tree : forall G, group_ok G -> forall bs (t : tree G), input_ok bs -> tree_of_bytes bs = Ok t ->
  exists bs', ser_tree t = Ok bs' /\ bytes_ok bs' /\ tree_of_bytes bs' = Ok t.
Proof.
  intros G HG bs t Hi E. destruct t as [b|h cs root].
  - exists bs. pose proof (c25_unparsed_partial G bs b E) as F. split; [exact F|]. split; [apply Hi|exact E].
  - destruct (tree_parsed _ _ _ _ _ E) as [st Es].
    pose proof (sat_out _ parse_script QTr fresh bs (fun k Hk st0 => sat_tree k Hk (sat_expr HG k Hk) st0) eq_refl Hi) as X.
    rewrite Es in X. destruct X as (u & _ & (H1 & (x & Ex & Lx & Bx))).
    destruct (c25_written_partial G HG _ _ H1) as (bs' & F & R & _). rewrite F in Ex. injection Ex as <-. eauto.
Qed.
Print Assumptions c81_tree.

Theorem c81_box : forall G, group_ok G -> forall st bs (b : box G) st' rest, input_ok bs -> plain st ->
  parse_box parse_expr st bs = Ok (b, st', rest) ->
  exists bs', ser_box b = Ok bs' /\ Zlen bs' <= 2 * (Zlen bs - Zlen rest) /\ bytes_ok bs' /\
    forall r, parse_box parse_expr st (bs' ++ r) = Ok (b, st', r).
Proof.
  intros G HG st bs b st' rest Hi Hs E.
  pose proof (sat_out _ (parse_box parse_expr) QB st bs (fun k Hk st0 => sat_box k Hk (sat_expr HG k Hk) st0) Hs Hi) as X.
  rewrite E in X. destruct X as (u & -> & (H1 & (x & Ex & Lx))).
  destruct (c27_box_roundtrip G HG _ _ _ H1) as (bs' & F & R). rewrite F in Ex. injection Ex as <-.
  exists bs'. split; [exact F|]. split; [rewrite Zlen_app; lia|]. split; [apply Lx|exact R].
Qed.
Print Assumptions c81_box.

(** A transaction whose inputs carry no context variables. What is missing for the
    others is that a variable may be given twice in the bytes: see
    [c81_transaction_refuted]. *)
Lemma QIns_bare : forall G st (ins : list (input G)) st', QIns st ins st' -> Forall (fun i => in_ext i = []) ins ->
  ok_inputs st ins st'.
Proof.
  intros G st ins st' H F. induction H as [st|st i st1 l st2 HI H IH]; [constructor|]. inversion_clear F.
  destruct i as [b p m]. cbn [in_ext] in *. subst m. destruct HI as (I1 & I2 & I3 & _ & I5). cbn [in_box in_proof in_ext] in *.
  destruct I5 as [I5 _]. specialize (I5 eq_refl). subst st1. econstructor; eauto. apply ok_consts_nil.
Qed.
Theorem c81_transaction_partial : forall G, group_ok G -> forall H st bs (t : tx G) st' rest, input_ok bs -> plain st ->
  parse_tx H st bs = Ok (t, st', rest) -> Forall (fun i => in_ext i = []) (t_inputs t) ->
  exists bs', ser_tx t = Ok bs' /\ forall r, parse_tx H st (bs' ++ r) = Ok (t, st', r).
Proof.
  intros G HG H st bs t st' rest Hi Hs E F.
  pose proof (sat_out _ (parse_tx H) (fun s t s' _ => QTx H s t s') st bs (fun k Hk st0 => sat_tx HG k Hk H st0) Hs Hi) as X.
  rewrite E in X. destruct X as (u & _ & (ins & st1 & d & cs & Et & Ci & Hd & Cc & Qi & Oc)).
  destruct (tx_new_inv _ _ _ _ _ Et) as (m & outs & _ & _ & _ & ->). cbn [t_inputs] in F.
  assert (O : ok_tx st ins d cs st').
  { exists st1. split; [exact Ci|]. split; [exact Hd|]. split; [exact Cc|]. split; [|exact Oc]. apply QIns_bare; assumption. }
  destruct (c28_tx_roundtrip G HG H _ _ _ _ _ O) as (t' & bs' & Et' & _ & _ & _ & Es & R).
  rewrite Et in Et'. injection Et' as <-. exists bs'. split; [exact Es|exact R].
Qed.
Print Assumptions c81_transaction_partial.

(** In the other case the statement is false: a context variable that is given
    twice is kept once, so that definitions read with its first value are missing
    when the transaction is read again. The transaction below is accepted with its
    identifier and outputs, but what it is written to is refused. *)
Definition leak_tx : bytes :=
  [1] ++ repeat 0 32 ++ [0]
  ++ [2; 0; 99; 128; 128; 64; 0; 216; 1; 214; 1; 8; 211; 114; 1; 0; 0; 0] ++ repeat 0 32 ++ [0]
  ++ [0; 1; 1]
  ++ [0] ++ [0] ++ [1; 128; 128; 64; 0; 114; 1; 0; 0; 0].
Theorem c81_transaction_refuted : forall (G : group) (H : bytes -> bytes), exists (t : tx G) st bs' e,
  parse_tx H fresh leak_tx = Ok (t, st, []) /\ ser_tx t = Ok bs' /\ parse_tx (G := G) H fresh bs' = Err e.
Proof.
  intros G H. destruct (parse_tx (G := G) H fresh leak_tx) as [[[t st] r]|e|] eqn:E; vm_compute in E; try discriminate E.
  injection E as <- <- <-. do 4 eexists. split; [reflexivity|]. split; [vm_compute; reflexivity|vm_compute; reflexivity].
Qed.
Print Assumptions c81_transaction_refuted.

(** ** C82: reading never panics *)
Theorem c82_expression : forall G, group_ok G -> forall st bs, input_ok bs -> plain st -> @parse_expr G st bs <> Panic.
Proof.
  intros G HG st bs Hi Hs E. pose proof (sat_out _ _ _ st bs (sat_expr HG) Hs Hi) as X. rewrite E in X. exact X.
Qed.
Print Assumptions c82_expression.
Theorem c82_constant : forall G, group_ok G -> forall st bs, input_ok bs -> plain st -> @parse_const G st bs <> Panic.
Proof.
  intros G HG st bs Hi Hs E.
  pose proof (sat_out _ parse_const QK st bs (fun k Hk st0 => sat_const k (sat_expr HG k Hk) st0) Hs Hi) as X. rewrite E in X. exact X.
Qed.
Print Assumptions c82_constant.
(** A script that is given alone is never even refused unless its announced length
    is missing or wrong. *)
Theorem c82_tree : forall G, group_ok G -> forall bs, input_ok bs -> @tree_of_bytes G bs <> Panic /\
  forall e, @tree_of_bytes G bs = Err e -> exists h r, parse_header bs = Ok (h, r) /\ th_size h = true /\
    (match get_u32 r with Ok (n, r) => Zlen r < n | Err _ => True | Panic => False end).
Proof.
  intros G HG bs [Hb Hl]. unfold tree_of_bytes.
  pose proof (reads_header bs Hb) as HH. destruct (parse_header bs) as [[h r]|e|]; cbn [out] in HH; [|split; discriminate|destruct HH].
  destruct HH as (u & -> & Hu & Hr & _). rewrite Zlen_app in Hl. pose proof (Zlen_nonneg _ u).
  destruct (th_size h) eqn:Eh.
  - pose proof (reads_u32 r Hr) as HN. destruct (get_u32 r) as [[n r1]|e|] eqn:En; cbn [out bind] in *; [| |destruct HN].
    2: { split; [discriminate|]. intros e' _. exists h, r. rewrite En. auto. }
    destruct HN as (u1 & -> & Hu1 & Hr1 & Hn & _). rewrite Zlen_app in Hl. pose proof (Zlen_nonneg _ u1).
    pose proof (reads_exact (Z.to_nat n) r1 Hr1) as HX.
    destruct (read_exact (Z.to_nat n) r1) as [[buf r2]|e|] eqn:Ex; cbn [out bind] in *; [| |destruct HX].
    + destruct HX as (u2 & -> & Hu2 & Hr2 & -> & _). rewrite Zlen_app in Hl. pose proof (Zlen_nonneg _ r2).
      pose proof (sat_body (List.length u2) (sat_expr HG (List.length u2) ltac:(unfold Zlen in *; lia)) h fresh eq_refl u2 Hu2 (le_n _)) as HB.
      destruct (parse_body parse_expr h fresh u2) as [[[t st] r3]|e|]; cbn [outp bind] in *; [split; discriminate|split; discriminate|destruct HB].
    + split; [discriminate|]. intros e' _. exists h, (u1 ++ r1). rewrite En. split; [reflexivity|]. split; [exact Eh|].
      unfold read_exact in Ex. unfold u32 in Hn.
      destruct (Z.to_nat n <=? List.length r1)%nat eqn:El; [discriminate Ex|]. apply Nat.leb_gt in El. unfold Zlen. lia.
  - pose proof (sat_body (List.length r) (sat_expr HG (List.length r) ltac:(unfold Zlen in *; lia)) h fresh eq_refl r Hr (le_n _)) as HB.
    destruct (parse_body parse_expr h fresh r) as [[[t st] r3]|e|]; cbn [outp] in *; [split; discriminate|split; discriminate|destruct HB].
Qed.
Print Assumptions c82_tree.
Theorem c82_box : forall G, group_ok G -> forall st bs, input_ok bs -> plain st -> @parse_box G parse_expr st bs <> Panic.
Proof.
  intros G HG st bs Hi Hs E.
  pose proof (sat_out _ (parse_box parse_expr) QB st bs (fun k Hk st0 => sat_box k Hk (sat_expr HG k Hk) st0) Hs Hi) as X.
  rewrite E in X. exact X.
Qed.
Print Assumptions c82_box.
Theorem c82_transaction : forall G, group_ok G -> forall H st bs, input_ok bs -> plain st -> @parse_tx G H st bs <> Panic.
Proof.
  intros G HG H st bs Hi Hs E.
  pose proof (sat_out _ (parse_tx H) (fun s t s' _ => QTx H s t s') st bs (fun k Hk st0 => sat_tx HG k Hk H st0) Hs Hi) as X.
  rewrite E in X. exact X.
Qed.
Print Assumptions c82_transaction.

(** Inputs that meet the hypotheses: bytes that no writer produces (an integer in
    three bytes where one is enough, a script with header bits that are dropped)
    are accepted and rewritten. *)
Example c81_hyps_met : forall G : group, input_ok [4; 130; 128; 0] /\ plain (@fresh G) /\
  parse_expr fresh [4; 130; 128; 0] = Ok (@EConst G (MkConst SInt (LInt 1)), fresh, []) /\
  ser_expr_bytes (@EConst G (MkConst SInt (LInt 1))) = Ok [4; 2] /\
  (exists t : tree G, tree_of_bytes [224; 4; 2] = Ok t /\ ser_tree t = Ok [0; 4; 2]) /\
  input_ok leak_tx.
Proof.
  intros G. split; [split; [unfold bytes_ok; repeat (apply Forall_cons; [split; lia|]); apply Forall_nil|reflexivity]|]. split; [reflexivity|]. split; [vm_compute; reflexivity|].
  split; [vm_compute; reflexivity|]. split; [exists (Parsed (THeader 0 false false) [] (EConst (MkConst SInt (LInt 1)))); split; vm_compute; reflexivity|].
  split; [|reflexivity]. unfold leak_tx, bytes_ok. cbn [repeat app]. repeat (apply Forall_cons; [split; lia|]). apply Forall_nil.
Qed.
Example c81_tx_met : forall (G : group) (H : bytes -> bytes), exists (t : tx G) st bs,
  input_ok bs /\ parse_tx H fresh bs = Ok (t, st, []) /\ Forall (fun i => in_ext i = []) (t_inputs t).
Proof.
  intros G H. do 2 eexists. exists ([1] ++ repeat 7 32 ++ [0; 0] ++ [0] ++ [0] ++ [1; 128; 128; 64; 0; 8; 211; 0; 0; 0]).
  split; [split; [unfold bytes_ok; cbn [repeat app]; repeat (apply Forall_cons; [split; lia|]); apply Forall_nil|reflexivity]|].
  split; [vm_compute; reflexivity|]. repeat constructor.
Qed.
