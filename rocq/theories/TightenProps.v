(** Theorems added after a wrong program went unnoticed (seeded/LOG.jsonl). *)
From Verif Require Import Base VlqModel GroupModel SigmaModel ProverModel TypeModel MethodModel IrModel SerModel ChainModel TxModel
  ChainProps TxProps JsonModel.
Local Open Scope list_scope.
Local Open Scope Z_scope.

(** ** C34: registers from a list.  A list of values becomes registers exactly when it has
    at most six values; the registers are the values in their order, and converting them to
    a map and back gives them again. *)
Theorem c34_regs_of_vec : forall G (l : list (regval G)),
  (regs_of_vec l = Ok l <-> Zlen l <= 6) /\
  (forall l', regs_of_vec l = Ok l' -> l' = l /\ regs_of_map (map_of_regs l) = Ok l) /\
  (Zlen l > 6 -> exists e, regs_of_vec l = Err e).
Proof.
  intros G l. unfold regs_of_vec, max_regs. destruct (6 <? Zlen l) eqn:E.
  - apply Z.ltb_lt in E. split; [split; [discriminate|lia]|]. split; [discriminate|]. intros _. eexists. reflexivity.
  - apply Z.ltb_ge in E. split; [split; [intros _; exact E|reflexivity]|]. split; [|lia].
    intros l' H. injection H as <-. split; [reflexivity|]. exact (proj1 (c34_map_of_regs G l E)).
Qed.

(** ** C91: a document that names a register or a variable more than once *)
Section Last.
Context {G : group}.
Lemma map_put_get : forall (m : @reg_map G) k v id, map_get (map_put k v m) id = if k =? id then Some v else map_get m id.
Proof.
  induction m as [|[k' v'] m IH]; intros k v id; cbn [map_put map_get]; [reflexivity|].
  destruct (Z.eqb_spec k' k) as [->|N]; cbn [map_get].
  - destruct (k =? id); reflexivity.
  - rewrite IH. destruct (Z.eqb_spec k' id), (Z.eqb_spec k id); try reflexivity. subst. congruence.
Qed.
Lemma map_put_nodup : forall (m : @reg_map G) k v, NoDup (map fst m) -> NoDup (map fst (map_put k v m)) /\ forall x, In x (map fst (map_put k v m)) -> x = k \/ In x (map fst m).
Proof.
  induction m as [|[k' v'] m IH]; intros k v N; cbn [map_put].
  - split; [constructor; [intros []|constructor]|]. cbn. intros x [->|[]]. auto.
  - cbn [map fst] in N. inversion N; subst. destruct (Z.eqb_spec k' k) as [->|Nk]; cbn [map fst].
    + split; [constructor; assumption|]. cbn. intros x [->|H]; auto.
    + destruct (IH k v H2) as [A B]. split.
      * constructor; [|exact A]. intros H. destruct (B _ H); [congruence|contradiction].
      * cbn. intros x [->|H]; [auto|]. destruct (B x H); auto.
Qed.
Lemma reg_entries_nodup : forall l (acc m : @reg_map G), NoDup (map fst acc) -> reg_entries acc l = Ok m -> NoDup (map fst m).
Proof.
  induction l as [|[k j] l IH]; intros acc m N E; cbn [reg_entries] in E; [injection E as <-; exact N|].
  apply bind_ok in E. destruct E as (id & _ & E). apply bind_ok in E. destruct E as (v & _ & E).
  apply (IH _ _ (proj1 (map_put_nodup acc id v N)) E).
Qed.
Lemma reg_entries_keep : forall l (acc m : @reg_map G) id, (forall k j, In (k, j) l -> reg_id_of_text k <> Ok id) ->
  reg_entries acc l = Ok m -> map_get m id = map_get acc id.
Proof.
  induction l as [|[k j] l IH]; intros acc m id H E; cbn [reg_entries] in E; [injection E as <-; reflexivity|].
  apply bind_ok in E. destruct E as (i & Ei & E). apply bind_ok in E. destruct E as (v & _ & E).
  rewrite (IH _ _ id (fun k' j' I => H k' j' (or_intror I)) E), map_put_get.
  destruct (Z.eqb_spec i id) as [->|]; [|reflexivity]. destruct (H k j (or_introl eq_refl) Ei).
Qed.
Lemma reg_entries_split : forall l1 k j l2 (acc m : @reg_map G), reg_entries acc (l1 ++ (k, j) :: l2) = Ok m ->
  exists acc' id v, reg_id_of_text k = Ok id /\ holder_of_json j = Ok v /\ reg_entries (map_put id v acc') l2 = Ok m.
Proof.
  induction l1 as [|[k1 j1] l1 IH]; intros k j l2 acc m E; cbn [app reg_entries] in E;
    apply bind_ok in E; destruct E as (i & Ei & E); apply bind_ok in E; destruct E as (v & Ev & E).
  - exists acc, i, v. auto.
  - exact (IH _ _ _ _ _ E).
Qed.

Lemma get_in : forall (m : @reg_map G) id v, map_get m id = Some v -> In id (map fst m).
Proof.
  induction m as [|[k v'] m IH]; intros id v E; cbn [map_get] in E; [discriminate|]. destruct (Z.eqb_spec k id) as [->|]; [left; reflexivity|right; exact (IH id v E)].
Qed.
Lemma collect_nth : forall (m : @reg_map G) ids l, regs_collect m ids = Ok l ->
  (forall n id, nth_error ids n = Some id -> nth_error l n = map_get m id) /\ forall id, In id ids -> In id (map fst m).
Proof.
  induction ids as [|i ids IH]; intros l E; cbn [regs_collect] in E.
  - injection E as <-. split; [intros [|n] id; discriminate|intros id []].
  - destruct (map_get m i) as [v|] eqn:Ev; [|discriminate]. apply bind_ok in E. destruct E as (l' & El & E). injection E as <-.
    destruct (IH l' El) as [A B]. split.
    + intros [|n] id; cbn; intros En; [injection En as <-; symmetry; exact Ev|exact (A n id En)].
    + intros id [<-|I]; [exact (get_in m i v Ev)|exact (B id I)].
Qed.

(** The registers read from a document are those of the last member with each name. *)
Theorem c91_last_register : forall l1 k j l2 id (regs : list (regval G)),
  regs_of_json (JObj (l1 ++ (k, j) :: l2)) = Ok regs -> reg_id_of_text k = Ok id ->
  (forall k' j', In (k', j') l2 -> reg_id_of_text k' <> Ok id) ->
  exists v, holder_of_json j = Ok v /\ nth_error regs (Z.to_nat (id - 4)) = Some v.
Proof.
  intros l1 k j l2 id regs E Ei H. unfold regs_of_json in E. cbn [as_object bind] in E.
  apply bind_ok in E. destruct E as (m & Em & E). pose proof (reg_entries_nodup _ [] m (NoDup_nil _) Em) as Nd.
  destruct (reg_entries_split _ _ _ _ _ _ Em) as (acc' & id' & v & Ek & Ev & Er). rewrite Ei in Ek. injection Ek as <-.
  exists v. split; [exact Ev|].
  pose proof (reg_entries_keep l2 _ m id H Er) as Gm. rewrite map_put_get, Z.eqb_refl in Gm.
  unfold regs_of_map in E. destruct (max_regs <? Zlen m) eqn:L; [discriminate|].
  destruct (collect_nth m _ regs E) as [A B]. rewrite <- Gm. apply A.
  assert (Lr : (length m <= length reg_ids)%nat) by (unfold max_regs, Zlen in L; cbn [length reg_ids]; lia).
  assert (Nf : NoDup (firstn (length m) reg_ids)).
  { pose proof (firstn_skipn (length m) reg_ids) as X. assert (Na : NoDup reg_ids) by (cbv; repeat constructor; cbn; intuition discriminate).
    rewrite <- X in Na. clear - Na. revert Na. generalize (skipn (length m) reg_ids). induction (firstn (length m) reg_ids) as [|a l IH]; intros r N; [constructor|].
    cbn in N. inversion N; subst. constructor; [intros I; apply H1; apply in_app_iff; auto|exact (IH r H2)]. }
  assert (Inc : incl (map fst m) (firstn (length m) reg_ids)).
  { apply NoDup_length_incl; [exact Nf|rewrite map_length, firstn_length; lia|exact B]. }
  pose proof (Inc id (get_in m id v Gm)) as I. apply In_nth_error in I. destruct I as [n Hn].
  assert (n = Z.to_nat (id - 4)) as <-.
  { assert (Hn' : nth_error reg_ids n = Some id).
    { rewrite <- (firstn_skipn (length m) reg_ids). rewrite nth_error_app1; [exact Hn|]. apply nth_error_Some. rewrite Hn. discriminate. }
    clear - Hn'. do 6 (destruct n as [|n]; [cbn in Hn'; injection Hn' as <-; reflexivity|]). cbn in Hn'. destruct n; discriminate. }
  exact Hn.
Qed.

Fixpoint sget (m : list (bytes * bytes)) (k : bytes) : option bytes :=
  match m with [] => None | (k', v) :: m => if bytes_eqb k' k then Some v else sget m k end.
Lemma beqb_refl : forall k, bytes_eqb k k = true. Proof. intros k. apply bytes_eqb_iff. reflexivity. Qed.
Lemma smap_put_get : forall m k v x, sget (smap_put k v m) x = if bytes_eqb k x then Some v else sget m x.
Proof.
  induction m as [|[k' v'] m IH]; intros k v x; cbn [smap_put sget]; [reflexivity|].
  destruct (bytes_eqb k' k) eqn:E; cbn [sget].
  - apply bytes_eqb_iff in E. subst. destruct (bytes_eqb k x); reflexivity.
  - rewrite IH. destruct (bytes_eqb k' x) eqn:A, (bytes_eqb k x) eqn:B; try reflexivity.
    apply bytes_eqb_iff in A. apply bytes_eqb_iff in B. subst. rewrite beqb_refl in E. discriminate.
Qed.
Lemma smap_put_keys : forall m k v x, In x (map fst (smap_put k v m)) -> x = k \/ In x (map fst m).
Proof.
  induction m as [|[k' v'] m IH]; intros k v x H; cbn [smap_put] in H; [cbn in H; destruct H as [<-|[]]; auto|].
  destruct (bytes_eqb k' k) eqn:E; cbn in H |- *; destruct H as [<-|H]; auto.
  destruct (IH k v x H); auto.
Qed.
Lemma smap_put_nodup : forall m k v, NoDup (map fst m) -> NoDup (map fst (smap_put k v m)).
Proof.
  induction m as [|[k' v'] m IH]; intros k v N; cbn [smap_put]; [constructor; [intros []|constructor]|].
  cbn [map fst] in N. inversion N; subst. destruct (bytes_eqb k' k) eqn:E; cbn [map fst].
  - apply bytes_eqb_iff in E. subst. constructor; assumption.
  - constructor; [|apply IH; assumption]. intros H. apply smap_put_keys in H. destruct H as [->|H]; [rewrite beqb_refl in E; discriminate|contradiction].
Qed.
Lemma smap_of_split : forall l1 k j l2 acc m, NoDup (map fst acc) -> smap_of acc (l1 ++ (k, j) :: l2) = Ok m ->
  (forall k' j', In (k', j') l2 -> k' <> k) ->
  exists s, j = JStr s /\ sget m k = Some s /\ NoDup (map fst m) /\ forall x, In x (map fst m) -> In x (map fst acc) \/ In x (map fst (l1 ++ (k, j) :: l2)).
Proof.
  assert (Rest : forall l2 acc m k, smap_of acc l2 = Ok m -> (forall k' j', In (k', j') l2 -> k' <> k) -> NoDup (map fst acc) ->
    sget m k = sget acc k /\ NoDup (map fst m) /\ forall x, In x (map fst m) -> In x (map fst acc) \/ In x (map fst l2)).
  { induction l2 as [|[k' j'] l2 IH]; intros acc m k E H N; cbn [smap_of] in E.
    - injection E as <-. auto.
    - apply bind_ok in E. destruct E as (s & Es & E).
      destruct (IH _ _ k E (fun a b I => H a b (or_intror I)) (smap_put_nodup acc k' s N)) as (A & B & C).
      rewrite smap_put_get in A. destruct (bytes_eqb k' k) eqn:Ek; [apply bytes_eqb_iff in Ek; destruct (H k' j' (or_introl eq_refl) Ek)|].
      split; [exact A|]. split; [exact B|]. intros x Hx. destruct (C x Hx) as [D|D]; [|right; right; exact D].
      apply smap_put_keys in D. destruct D as [->|D]; [right; left; reflexivity|left; exact D]. }
  induction l1 as [|[k1 j1] l1 IH]; intros k j l2 acc m N E H; cbn [app smap_of] in E; apply bind_ok in E; destruct E as (s & Es & E).
  - destruct (Rest l2 _ m k E H (smap_put_nodup acc k s N)) as (A & B & C). exists s.
    destruct j; try discriminate. injection Es as ->. split; [reflexivity|].
    rewrite smap_put_get, beqb_refl in A. split; [exact A|]. split; [exact B|]. intros x Hx. destruct (C x Hx) as [D|D]; [|right; right; exact D].
    apply smap_put_keys in D. destruct D as [->|D]; [right; left; reflexivity|left; exact D].
  - destruct (IH k j l2 _ m (smap_put_nodup acc k1 s N) E H) as (t & A & B & C & D). exists t. split; [exact A|]. split; [exact B|]. split; [exact C|].
    intros x Hx. destruct (D x Hx) as [F|F]; [|right; right; exact F]. apply smap_put_keys in F. destruct F as [->|F]; [right; left; reflexivity|left; exact F].
Qed.
Lemma ext_insert_get : forall (m : ext G) k c i, ext_get (ext_insert k c m) i = if k =? i then Some c else ext_get m i.
Proof.
  induction m as [|[k' v'] m IH]; intros k v id; cbn [ext_insert ext_get]; [reflexivity|].
  destruct (Z.eqb_spec k' k) as [->|N]; cbn [ext_get].
  - destruct (k =? id); reflexivity.
  - rewrite IH. destruct (Z.eqb_spec k' id), (Z.eqb_spec k id); try reflexivity. subst. congruence.
Qed.
Lemma ext_of_get : forall m k s i (acc e : ext G), NoDup (map fst m) -> sget m k = Some s -> unsigned_of_text 256 k = Some i ->
  (forall x, In x (map fst m) -> x <> k -> unsigned_of_text 256 x <> Some i) -> ext_of_smap acc m = Ok e ->
  exists b c, unhex s = Some b /\ SerModel.from_bytes parse_const b = Ok c /\ ext_get e i = Some c.
Proof.
  assert (Rest : forall m i (acc e : ext G), (forall x, In x (map fst m) -> unsigned_of_text 256 x <> Some i) -> ext_of_smap acc m = Ok e -> ext_get e i = ext_get acc i).
  { induction m as [|[k s] m IH]; intros i acc e H E; cbn [ext_of_smap] in E; [injection E as <-; reflexivity|].
    destruct (unsigned_of_text 256 k) as [n|] eqn:Ek; [|discriminate]. cbn [of_option bind] in E.
    apply bind_ok in E. destruct E as (b & _ & E). apply bind_ok in E. destruct E as (c & _ & E).
    rewrite (IH i _ _ (fun x I => H x (or_intror I)) E), ext_insert_get. destruct (Z.eqb_spec n i) as [->|]; [|reflexivity].
    destruct (H k (or_introl eq_refl) Ek). }
  induction m as [|[k' s'] m IH]; intros k s i acc e N Hs Hi H E; cbn [sget ext_of_smap] in *; [discriminate|].
  cbn [map fst] in N. inversion N; subst.
  destruct (unsigned_of_text 256 k') as [n|] eqn:Ek; [|discriminate]. cbn [of_option bind] in E.
  apply bind_ok in E. destruct E as (b & Eb & E). apply bind_ok in E. destruct E as (c & Ec & E).
  destruct (bytes_eqb k' k) eqn:B.
  - apply bytes_eqb_iff in B. subst k'. injection Hs as ->. rewrite Hi in Ek. injection Ek as Ek. subst n.
    exists b, c. destruct (unhex s) as [b'|]; [|discriminate]. injection Eb as Eb. subst b'. split; [reflexivity|]. split; [exact Ec|].
    rewrite (Rest m i (ext_insert i c acc) e); [rewrite ext_insert_get, Z.eqb_refl; reflexivity| |exact E].
    intros x Hx. apply H; [right; exact Hx|]. intros Xk. subst x. contradiction.
  - apply (IH k s i (ext_insert n c acc) e); auto. intros x Hx. apply H. right. exact Hx.
Qed.

(** The variables read from a document are those of the last member with each name, as long
    as no two different names denote the same variable. *)
Theorem c91_last_variable : forall l1 k j l2 i (e : ext G),
  ext_of_json (JObj (l1 ++ (k, j) :: l2)) = Ok e -> unsigned_of_text 256 k = Some i ->
  (forall k' j', In (k', j') l2 -> k' <> k) ->
  (forall k' j', In (k', j') (l1 ++ l2) -> k' <> k -> unsigned_of_text 256 k' <> Some i) ->
  exists s b c, j = JStr s /\ unhex s = Some b /\ SerModel.from_bytes parse_const b = Ok c /\ ext_get e i = Some c.
Proof.
  intros l1 k j l2 i e E Ei Hl Ho. unfold ext_of_json in E. cbn [as_object bind] in E. apply bind_ok in E. destruct E as (m & Em & E).
  destruct (smap_of_split l1 k j l2 [] m (NoDup_nil _) Em Hl) as (s & Ej & Es & Nd & K).
  destruct (ext_of_get m k s i [] e Nd Es Ei) as (b & c & A & B & C); [|exact E|exists s, b, c; auto].
  intros x Hx Nk. destruct (K x Hx) as [[]|I]. apply in_map_iff in I. destruct I as ((x' & jx) & <- & I). cbn [fst] in *.
  rewrite in_app_iff in I. cbn [In] in I. destruct I as [I|[I|I]].
  - apply (Ho x' jx); [apply in_app_iff; auto|exact Nk].
  - injection I as <- <-. congruence.
  - apply (Ho x' jx); [apply in_app_iff; auto|exact Nk].
Qed.
End Last.

(** A document with register R4 twice: the second value counts. *)
Local Open Scope string_scope.
Example c91_last_met : forall G : group,
  regs_of_json (JObj [(txt "R4", JStr (txt "0400")); (txt "R4", JStr (txt "0402"))]) = Ok [@RParsed G (MkConst SInt (LInt 1))] /\
  reg_id_of_text (txt "R4") = Ok 4 /\
  ext_of_json (JObj [(txt "1", JStr (txt "0400")); (txt "1", JStr (txt "0402"))]) = Ok [(1, @MkConst G SInt (LInt 1))].
Proof. intros G. repeat split; vm_compute; reflexivity. Qed.

Print Assumptions c34_regs_of_vec.
Print Assumptions c91_last_register.
Print Assumptions c91_last_variable.
