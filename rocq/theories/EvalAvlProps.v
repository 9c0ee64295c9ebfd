(** Authenticated trees in scripts. *)
From Verif Require Import Base VlqModel IntBytes GroupModel SigmaModel BigIntModel TypeModel
  MethodModel IrModel SerModel ChainModel HeaderModel TxModel EqModel PrintModel EvalModel ProverProofs TypeProofs EqProofs
  EvalProofs EvalScope.
Local Open Scope string_scope.
Local Open Scope list_scope.
Local Open Scope Z_scope.

(** ** Specification *)

(** The verifier accepts the operations one after the other, with these results. *)
Inductive accepts (V : avl_verifier) : avv_state V -> list avl_op -> list (option bytes) -> avv_state V -> Prop :=
| accepts_nil s : accepts V s [] [] s
| accepts_cons s s1 s2 o ops r rs : avv_step V s o = Some (r, s1) -> accepts V s1 ops rs s2 ->
    accepts V s (o :: ops) (r :: rs) s2.
(** The proof shows that the tree turns into the one with the new digest when the
    operations are made, or that the lookups give the results. *)
Definition proves (V : avl_verifier) (a : avl) (proof : bytes) (ops : list avl_op) (rs : list (option bytes)) (d : option bytes) : Prop :=
  exists s0 s, avv_new V (av_digest a) proof (av_key_len a) (av_val_len a) = Some s0 /\ accepts V s0 ops rs s /\ avv_digest V s = d.
(** Unsigned bytes held as signed ones. *)
Definition ubytes (l : list Z) : bytes := map (fun z => z mod 256) l.

Section Avl.
Context {G : group}.
Variables H sha : bytes -> bytes.
Variable fits : Z -> bool.
Variable V : avl_verifier.
Variable c : context G (chain_state G).
Notation value := (value G).
Notation env := (env G).
Notation expr := (expr G).
Notation eval := (eval H sha fits V c).

Lemma run_accepts ops : forall s, match avl_run V s ops with
  | Ok (rs, s') => accepts V s ops rs s'
  | _ => forall rs s', ~ accepts V s ops rs s'
  end.
Proof.
  induction ops as [|o ops IH]; intros s; cbn [avl_run]; [constructor|].
  destruct (avv_step V s o) as [[r s1]|] eqn:E; cbn [of_option bind].
  - specialize (IH s1). destruct (avl_run V s1 ops) as [[rs s2]|x|]; cbn [bind].
    + econstructor; eauto.
    + intros rs s' A. inversion A; subst. rewrite E in *. match goal with Q : Some _ = Some _ |- _ => injection Q as -> -> end. eapply IH; eauto.
    + intros rs s' A. inversion A; subst. rewrite E in *. match goal with Q : Some _ = Some _ |- _ => injection Q as -> -> end. eapply IH; eauto.
  - intros rs s' A. inversion A; subst. congruence.
Qed.
Lemma accepts_det s ops rs s' : accepts V s ops rs s' -> avl_run V s ops = Ok (rs, s').
Proof. induction 1 as [|s s1 s2 o ops r rs E A IH]; cbn [avl_run]; [reflexivity|]. rewrite E. cbn [of_option bind]. now rewrite IH. Qed.

(** ** C80 *)
Section Call.
Variables (n : nat) (e e1 e2 : env) (x : expr) (a : avl) (args : list expr) (vs : list value) (m : smethod).
Hypothesis Ex : eval n x e = Ok (VAvl a, e1).
Hypothesis Ea : eval_list (eval n) args e1 = Ok (vs, e2).
Hypothesis Cm : sm_code m = 100.
Notation call := (eval (S n) (EMethod m x args) e).
Lemma avl_step : call = (v <- avl_method V (sm_id m) (VAvl a) vs ;; Ok (v, e2)).
Proof.
  cbn [EvalModel.eval eval_step]. rewrite Ex. cbn [bind]. rewrite Ea. cbn [bind]. unfold eval_method, method_value. rewrite Cm. reflexivity.
Qed.
(** Without the permission the operation fails, whatever the proof says. *)
Theorem c80_not_permitted :
  (sm_id m = 12 /\ Z.testbit (av_flags a) 0 = false) \/ (sm_id m = 13 /\ Z.testbit (av_flags a) 1 = false) \/
  (sm_id m = 14 /\ Z.testbit (av_flags a) 2 = false) -> is_ok call = false.
Proof.
  rewrite avl_step. intros [[-> F]|[[-> F]|[-> F]]]; cbn [avl_method get_avl bind]; unfold avl_modify, flag; cbn [Z.eqb Pos.eqb]; rewrite F; reflexivity.
Qed.
(** With it, the result is the tree with the digest that the proof gives for exactly the
    operations asked for, in their order; everything else about the tree is kept. If
    the proof does not cover them the script fails. *)
Definition changed (ops : list avl_op) (proof : bytes) : Prop :=
  (forall rs d, proves V a proof ops rs (Some d) -> (33 <= List.length d)%nat ->
     call = Ok (VOpt (Some (VAvl (Avl (firstn 33 d) (av_flags a) (av_key_len a) (av_val_len a)))), e2)) /\
  (forall v e', call = Ok (v, e') -> exists rs d, proves V a proof ops rs (Some d) /\ (33 <= List.length d)%nat).
Lemma modify_spec ops proof (pl : list Z) mo : arg vs 1 = Ok (VBytes pl) -> proof = ubytes pl -> mo = Ok ops ->
  avl_method V (sm_id m) (VAvl a) vs = avl_modify V a true mo vs -> changed ops proof.
Proof.
  intros A -> -> M. unfold changed. rewrite avl_step, M. unfold avl_modify. cbn [negb bind]. rewrite A. cbn [bind get_u8s get_i8s].
  change (@as_u8s) with ubytes. unfold avl_start. split.
  - intros rs d (s0 & s & N & Ac & D) L. rewrite N. cbn [of_option bind]. rewrite (accepts_det _ _ _ _ Ac). cbn [bind]. rewrite D. cbn [of_option bind].
    unfold read_exact. rewrite (proj2 (Nat.leb_le 33 (List.length d)) L). reflexivity.
  - intros v e' Q. destruct (avv_new V (av_digest a) (ubytes pl) (av_key_len a) (av_val_len a)) as [s0|] eqn:N; [|discriminate]. cbn [of_option bind] in Q.
    pose proof (run_accepts ops s0) as R. destruct (avl_run V s0 ops) as [[rs s]|z|]; try discriminate. cbn [bind] in Q.
    destruct (avv_digest V s) as [d|] eqn:D; [|discriminate]. cbn [of_option bind] in Q. unfold read_exact in Q.
    destruct (33 <=? List.length d)%nat eqn:L; [|discriminate]. apply Nat.leb_le in L.
    exists rs, d. split; [|exact L]. exists s0, s. auto.
Qed.
Theorem c80_insert_update : forall t kvs pl, vs = [VColl t (map (fun p => VTup [VBytes (fst p); VBytes (snd p)]) kvs); VBytes pl] ->
  (sm_id m = 12 -> Z.testbit (av_flags a) 0 = true -> changed (map (fun p => AvInsert (ubytes (fst p)) (ubytes (snd p))) kvs) (ubytes pl)) /\
  (sm_id m = 13 -> Z.testbit (av_flags a) 1 = true -> changed (map (fun p => AvUpdate (ubytes (fst p)) (ubytes (snd p))) kvs) (ubytes pl)).
Proof.
  intros t kvs pl Vs.
  assert (K : get_all (G := G) (get_pair get_u8s get_u8s) (map (fun p => VTup [VBytes (fst p); VBytes (snd p)]) kvs) =
              Ok (map (fun p => (ubytes (fst p), ubytes (snd p))) kvs)).
  { clear. induction kvs as [|[k v] kvs IH]; [reflexivity|]. cbn [map get_all]. rewrite IH. reflexivity. }
  split; intros I F.
  - apply (modify_spec _ _ pl (avl_entries AvInsert vs)); [rewrite Vs; reflexivity|reflexivity| |].
    + unfold avl_entries. rewrite Vs. cbn [arg nth_error of_option bind get_vec]. rewrite K. cbn [bind]. now rewrite map_map.
    + rewrite I. cbn [avl_method get_avl bind Z.eqb Pos.eqb]. unfold flag. now rewrite F.
  - apply (modify_spec _ _ pl (avl_entries AvUpdate vs)); [rewrite Vs; reflexivity|reflexivity| |].
    + unfold avl_entries. rewrite Vs. cbn [arg nth_error of_option bind get_vec]. rewrite K. cbn [bind]. now rewrite map_map.
    + rewrite I. cbn [avl_method get_avl bind Z.eqb Pos.eqb]. unfold flag. now rewrite F.
Qed.
Theorem c80_remove : forall t ks pl, vs = [VColl t (map VBytes ks); VBytes pl] ->
  sm_id m = 14 -> Z.testbit (av_flags a) 2 = true -> changed (map (fun k => AvRemove (ubytes k)) ks) (ubytes pl).
Proof.
  intros t ks pl Vs I F.
  assert (K : get_all (G := G) get_u8s (map VBytes ks) = Ok (map ubytes ks)).
  { clear. induction ks as [|k ks IH]; [reflexivity|]. cbn [map get_all]. rewrite IH. reflexivity. }
  apply (modify_spec _ _ pl (avl_keys AvRemove vs)); [rewrite Vs; reflexivity|reflexivity| |].
  - unfold avl_keys. rewrite Vs. cbn [arg nth_error of_option bind get_vec]. rewrite K. cbn [bind]. now rewrite map_map.
  - rewrite I. cbn [avl_method get_avl bind Z.eqb Pos.eqb]. unfold flag. now rewrite F.
Qed.
(** The permissions and the digest can be replaced, nothing else. The new permissions
    are the three lowest bits. *)
Theorem c80_update_operations : forall f, sm_id m = 8 -> vs = [VByte f] -> exists b, call = Ok (VAvl b, e2) /\
  av_digest b = av_digest a /\ av_key_len b = av_key_len a /\ av_val_len b = av_val_len a /\
  forall i, Z.testbit (av_flags b) i = if (0 <=? i) && (i <? 3) then Z.testbit f i else false.
Proof.
  intros f I Vs. rewrite avl_step, I, Vs. cbn [avl_method get_avl bind Z.eqb Pos.eqb arg nth_error of_option get_byte].
  eexists. split; [reflexivity|]. cbn [av_digest av_key_len av_val_len av_flags]. repeat split.
  intros i. unfold parse_flags, wrapu. destruct (Z.leb_spec 0 i); cbn [andb]; [|apply Z.testbit_neg_r; lia].
  rewrite Z.land_spec. change 7 with (Z.ones 3). rewrite Z.testbit_ones_nonneg by lia.
  destruct (Z.ltb_spec i 3); [|apply andb_false_r]. rewrite andb_true_r. change (2 ^ 8) with (2 ^ 8). rewrite Z.mod_pow2_bits_low by lia. reflexivity.
Qed.
Theorem c80_update_digest : forall d, sm_id m = 15 -> vs = [VBytes d] ->
  (List.length d = 33%nat -> call = Ok (VAvl (Avl (ubytes d) (av_flags a) (av_key_len a) (av_val_len a)), e2)) /\
  (List.length d <> 33%nat -> is_ok call = false).
Proof.
  intros d I Vs. rewrite avl_step, I, Vs. cbn [avl_method get_avl bind Z.eqb Pos.eqb arg nth_error of_option get_u8s get_i8s]. change (@as_u8s) with ubytes.
  unfold digest33. assert (L : Zlen (ubytes d) = Z.of_nat (List.length d)) by (unfold Zlen, ubytes; now rewrite map_length). rewrite L.
  split; intros N; destruct (Z.eqb_spec (Z.of_nat (List.length d)) 33); try lia; reflexivity.
Qed.
(** contains, get and getMany tell what the proof shows, for exactly the keys asked
    for. *)
Theorem c80_lookups : forall k pl, vs = [VBytes k; VBytes pl] ->
  (sm_id m = 9 -> forall b e', call = Ok (VBool b, e') <-> e' = e2 /\ exists r d, proves V a (ubytes pl) [AvLookup (ubytes k)] [r] d /\ (b = true <-> r <> None)) /\
  (sm_id m = 10 -> forall v e', call = Ok (v, e') <-> e' = e2 /\ exists r d, proves V a (ubytes pl) [AvLookup (ubytes k)] [r] d /\
     v = VOpt (match r with Some b => Some (VBytes (map (wraps 8) b)) | None => None end)).
Proof.
  intros k pl Vs. rewrite avl_step, Vs.
  assert (K : forall r, avl_lookup1 V a (ubytes k) (ubytes pl) = Ok r <-> exists d, proves V a (ubytes pl) [AvLookup (ubytes k)] [r] d).
  { intros r. unfold avl_lookup1, avl_start, proves. destruct (avv_new V (av_digest a) (ubytes pl) (av_key_len a) (av_val_len a)) as [s0|]; cbn [of_option bind].
    - destruct (avv_step V s0 (AvLookup (ubytes k))) as [[r' s1]|] eqn:E; cbn [of_option bind].
      + split.
        * intros [= ->]. exists (avv_digest V s1), s0, s1. split; [reflexivity|]. split; [|reflexivity]. econstructor; [exact E|constructor].
        * intros (d & s & s' & [= <-] & A & _). inversion A; subst. rewrite E in *. congruence.
      + split; [discriminate|]. intros (d & s & s' & [= <-] & A & _). inversion A; subst. congruence.
    - split; [discriminate|]. intros (d & s & s' & N & _). discriminate. }
  assert (D : forall r r', avl_lookup1 V a (ubytes k) (ubytes pl) = Ok r -> avl_lookup1 V a (ubytes k) (ubytes pl) = Ok r' -> r = r') by congruence.
  split; intros I b e'; rewrite I; cbn [avl_method get_avl bind Z.eqb Pos.eqb arg nth_error of_option get_u8s get_i8s]; change (@as_u8s) with ubytes; split.
  - destruct (avl_lookup1 V a (ubytes k) (ubytes pl)) as [r|x0|] eqn:L; cbn [bind]; try discriminate. intros [= <- <-].
    split; [reflexivity|]. destruct (proj1 (K r) eq_refl) as (d & P). exists r, d. split; [exact P|]. destruct r; split; congruence.
  - intros (-> & r & d & P & B). rewrite (proj2 (K r) (ex_intro _ d P)). cbn [bind]. repeat f_equal. destruct r, b; try reflexivity.
    + symmetry. apply B. discriminate.
    + exfalso. now apply (proj1 B).
  - destruct (avl_lookup1 V a (ubytes k) (ubytes pl)) as [r|x0|] eqn:L; cbn [bind]; try discriminate. intros [= <- <-].
    split; [reflexivity|]. destruct (proj1 (K r) eq_refl) as (d & P). exists r, d. split; [exact P|]. destruct r; reflexivity.
  - intros (-> & r & d & P & ->). rewrite (proj2 (K r) (ex_intro _ d P)). cbn [bind]. destruct r; reflexivity.
Qed.
Theorem c80_get_many : forall t ks pl, vs = [VColl t (map VBytes ks); VBytes pl] -> sm_id m = 11 ->
  forall v e', call = Ok (v, e') <-> e' = e2 /\ exists rs d, proves V a (ubytes pl) (map (fun k => AvLookup (ubytes k)) ks) rs d /\
  v = VColl (SOption (SColl SByte)) (map (fun r => VOpt (match r with Some b => Some (VBytes (map (wraps 8) b)) | None => None end)) rs).
Proof.
  intros t ks pl Vs I v e'.
  assert (K : get_all (G := G) get_u8s (map VBytes ks) = Ok (map ubytes ks)).
  { clear. induction ks as [|k ks IH]; [reflexivity|]. cbn [map get_all]. rewrite IH. reflexivity. }
  rewrite avl_step, Vs, I. cbn [avl_method get_avl bind Z.eqb Pos.eqb arg nth_error of_option get_vec]. rewrite K. cbn [bind get_u8s get_i8s]. change (@as_u8s) with ubytes.
  unfold avl_lookup, avl_start. rewrite map_map. unfold proves.
  destruct (avv_new V (av_digest a) (ubytes pl) (av_key_len a) (av_val_len a)) as [s0|]; cbn [of_option bind].
  - pose proof (run_accepts (map (fun k => AvLookup (ubytes k)) ks) s0) as R.
    destruct (avl_run V s0 (map (fun k => AvLookup (ubytes k)) ks)) as [[rs s]|z|]; cbn [bind].
    + split.
      * intros [= <- <-]. split; [reflexivity|]. exists rs, (avv_digest V s). split; [exists s0, s; auto|]. reflexivity.
      * intros (-> & rs' & d & (s' & s1 & [= <-] & A & _) & ->). apply accepts_det in R, A. rewrite A in R. injection R as -> ->.
        reflexivity.
    + split; [discriminate|]. intros (_ & rs' & d & (s' & s1 & [= <-] & A & _) & _). exfalso. eapply R; eauto.
    + split; [discriminate|]. intros (_ & rs' & d & (s' & s1 & [= <-] & A & _) & _). exfalso. eapply R; eauto.
  - split; [discriminate|]. intros (_ & rs' & d & (s' & s1 & N & _) & _). discriminate.
Qed.
(** The permissions are told as they are. *)
Theorem c80_permissions_told :
  (sm_id m = 5 -> call = Ok (VBool (Z.testbit (av_flags a) 0), e2)) /\
  (sm_id m = 6 -> call = Ok (VBool (Z.testbit (av_flags a) 1), e2)) /\
  (sm_id m = 7 -> call = Ok (VBool (Z.testbit (av_flags a) 2), e2)).
Proof. rewrite avl_step. repeat split; intros ->; reflexivity. Qed.
End Call.
End Avl.

(** A verifier whose state is the map itself and whose digest is 33 times its size. *)
Definition map_verifier : avl_verifier := AvlVerifier (list (bytes * bytes))
  (fun _ _ _ _ => Some []) (fun s o => match o with AvInsert k v => Some (None, (k, v) :: s) | _ => None end)
  (fun s => Some (repeat (Zlen s) 33)).
Definition some_tree : avl := Avl (repeat 0 33) 1 1 None.
Example c80_hyps_met : forall (G : group) H sha fits (c : context G (chain_state G)), exists v,
  eval H sha fits map_verifier c 4 (EMethod (SMethod 100 12 [] SAny) (EConst (MkConst SAvlTree (LAvl some_tree)))
    [EConst (MkConst (SColl (STuple [cbyte; cbyte])) (LColl (STuple [cbyte; cbyte]) [LTup [LCollBytes [1]; LCollBytes [2]]])); EConst (MkConst cbyte (LCollBytes []))]) []
  = Ok (v, []) /\ v = VOpt (Some (VAvl (Avl (repeat 1 33) 1 1 None))).
Proof.
  intros G H sha fits c. eexists. split; [|reflexivity].
  edestruct (c80_insert_update (G := G) H sha fits map_verifier c 3 [] [] [] (EConst (MkConst SAvlTree (LAvl some_tree))) some_tree
    [EConst (MkConst (SColl (STuple [cbyte; cbyte])) (LColl (STuple [cbyte; cbyte]) [LTup [LCollBytes [1]; LCollBytes [2]]])); EConst (MkConst cbyte (LCollBytes []))]
    _ (SMethod 100 12 [] SAny) eq_refl eq_refl eq_refl (STuple [cbyte; cbyte]) [([1], [2])] [] eq_refl) as [K _].
  destruct (K eq_refl eq_refl) as [Q _]. apply (Q [None] (repeat 1 33)); [|vm_compute; lia].
  exists [], [([1], [2])]. split; [reflexivity|]. split; [|reflexivity]. econstructor; [reflexivity|constructor].
Qed.
Print Assumptions c80_not_permitted.
Print Assumptions c80_insert_update.
Print Assumptions c80_remove.
Print Assumptions c80_update_operations.
Print Assumptions c80_update_digest.
Print Assumptions c80_lookups.
Print Assumptions c80_get_many.
Print Assumptions c80_permissions_told.
