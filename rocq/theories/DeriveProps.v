(** C38, C39, C73, C74: derivation paths, extended keys and secret keys. *)
From Verif Require Import Base VlqModel VlqProofs GroupModel GroupProofs SigmaModel SigmaProofs ProverModel TypeModel MethodModel IrModel SerModel
  SerSpec SerProofs SerProps ChainModel TxProps WalletModel WalletProps AddressModel DeriveModel.
From Coq Require Import Znumtheory.
Local Open Scope string_scope.
Local Open Scope list_scope.
Local Open Scope Z_scope.

(** ** C38: the text of a derivation path *)

Definition index_ok (c : cindex) : Prop := match c with Hard i | Soft i => 0 <= i < 2 ^ 31 end.
(** What a well-formed component is: decimal digits, then an apostrophe for hardened. *)
Definition component (s : list Z) (c : cindex) : Prop :=
  exists ds, ds <> [] /\ Forall (fun d => 48 <= d <= 57) ds /\ index_ok c /\
    match c with Hard i => number_of ds = i /\ s = ds ++ [39] | Soft i => number_of ds = i /\ s = ds end.

Lemma digits_value_spec : forall ds acc, Forall (fun d => 48 <= d <= 57) ds ->
  digits_value acc ds = Some (fold_left (fun n d => 10 * n + (d - 48)) ds acc).
Proof.
  intros ds. induction ds as [|d ds IH]; intros acc H; [reflexivity|]. inversion H; subst. cbn [digits_value fold_left].
  replace ((48 <=? d) && (d <=? 57)) with true by lia. apply IH. assumption.
Qed.
Lemma digits_parse : forall ds b, ds <> [] -> Forall (fun d => 48 <= d <= 57) ds -> number_of ds < b ->
  unsigned_of_text b ds = Some (number_of ds).
Proof.
  intros ds b N F L. unfold unsigned_of_text. assert (E : strip_plus ds = ds).
  { destruct ds as [|d ds]; [reflexivity|]. inversion F; subst. cbn [strip_plus]. replace (d =? 43) with false by lia. reflexivity. }
  rewrite E. destruct ds as [|d ds]; [congruence|]. rewrite digits_value_spec by assumption.
  change (fold_left (fun n d => 10 * n + (d - 48)) (d :: ds) 0) with (number_of (d :: ds)).
  replace (number_of (d :: ds) <? b) with true by lia. reflexivity.
Qed.
Lemma digits_no39 : forall ds, Forall (fun d => 48 <= d <= 57) ds -> existsb (Z.eqb 39) ds = false /\ filter (fun c => negb (c =? 39)) ds = ds.
Proof.
  intros ds H. induction H as [|d ds Hd _ [I1 I2]]; [split; reflexivity|]. cbn [existsb filter]. rewrite I1, I2.
  replace (39 =? d) with false by lia. replace (d =? 39) with false by lia. split; reflexivity.
Qed.
Lemma component_parse : forall s c, component s c -> cindex_of_text s = Ok c.
Proof.
  intros s c (ds & N & F & O & M). destruct (digits_no39 ds F) as [E1 E2]. unfold cindex_of_text.
  destruct c as [i|i]; destruct M as [M ->]; cbn [index_ok] in O.
  - rewrite existsb_app, E1. cbn [existsb Z.eqb Pos.eqb orb]. rewrite filter_app, E2. cbn [filter Z.eqb Pos.eqb negb]. rewrite app_nil_r.
    rewrite digits_parse by (auto; lia). cbn [of_option bind]. unfold index31. rewrite M. replace (i <? 2 ^ 31) with true by lia. reflexivity.
  - rewrite E1. rewrite digits_parse by (auto; lia). cbn [of_option bind]. unfold index31. rewrite M. replace (i <? 2 ^ 31) with true by lia. reflexivity.
Qed.
Lemma text_component : forall c, index_ok c -> component (cindex_text c) c.
Proof.
  intros c O. assert (K : forall i, 0 <= i < 2 ^ 31 -> 0 <= i < 10 ^ Z.of_nat 10) by (intros i Hi; change (10 ^ Z.of_nat 10) with 10000000000; lia).
  destruct c as [i|i]; cbn [index_ok cindex_text] in *; destruct (dec_text_spec 10 i (K i O) ltac:(lia)) as (V & F & N);
    exists (dec_text 10 i); repeat split; auto; apply O.
Qed.
(** Components hold neither slashes nor spaces. *)
Lemma component_chars : forall s c, component s c -> Forall (fun x => x = 39 \/ 48 <= x <= 57) s.
Proof.
  intros s c (ds & _ & F & _ & M). assert (F' : Forall (fun x => x = 39 \/ 48 <= x <= 57) ds) by (eapply Forall_impl; [|exact F]; intros; right; assumption).
  destruct c; destruct M as [_ ->]; [|exact F']. apply Forall_app. split; [exact F'|]. constructor; [left; reflexivity|constructor].
Qed.

Lemma split_plain : forall s, Forall (fun x => x <> 47) s -> split 47 s = [s].
Proof.
  intros s H. induction H as [|c s Hc _ IH]; [reflexivity|]. cbn [split]. rewrite IH. replace (c =? 47) with false by lia. reflexivity.
Qed.
Lemma split_cons : forall s rest, Forall (fun x => x <> 47) s -> split 47 (s ++ 47 :: rest) = s :: split 47 rest.
Proof.
  intros s rest H. induction H as [|c s Hc _ IH]; [reflexivity|]. cbn [app split]. rewrite IH. replace (c =? 47) with false by lia. reflexivity.
Qed.
Lemma split_all : forall l s, Forall (fun x => x <> 47) s -> Forall (Forall (fun x => x <> 47)) l ->
  split 47 (s ++ flat_map (fun x => 47 :: x) l) = s :: l.
Proof.
  intros l. induction l as [|x l IH]; intros s Hs Hl; cbn [flat_map].
  - rewrite app_nil_r. apply split_plain. exact Hs.
  - inversion Hl; subst. change ((47 :: x) ++ flat_map (fun x => 47 :: x) l) with (47 :: (x ++ flat_map (fun x => 47 :: x) l)).
    rewrite split_cons by exact Hs. f_equal. apply IH; assumption.
Qed.
Lemma filter_none : forall (f : Z -> bool) s, Forall (fun x => f x = true) s -> filter f s = s.
Proof. intros f s H. induction H as [|x s Hx _ IH]; [reflexivity|]. cbn [filter]. rewrite Hx, IH. reflexivity. Qed.
Lemma white_chars : forall x, x = 39 \/ 47 <= x <= 57 \/ x = 109 \/ x = 77 -> is_white x = false.
Proof. intros x H. unfold is_white. lia. Qed.
Lemma join_flat : forall l x, join 47 (x :: l) = x ++ flat_map (fun y => 47 :: y) l.
Proof.
  intros l. induction l as [|y l IH]; intros x; [cbn [join flat_map]; rewrite app_nil_r; reflexivity|].
  change (join 47 (x :: y :: l)) with (x ++ 47 :: join 47 (y :: l)). rewrite IH. reflexivity.
Qed.

(** A text of "m" or "M" and well-formed components, with spaces anywhere, is read as
    the path of those components. *)
Theorem c38_parses : forall text m comps p, m = 109 \/ m = 77 -> Forall2 component comps p ->
  filter (fun c => negb (is_white c)) text = m :: flat_map (fun s => 47 :: s) comps ->
  path_of_text text = Ok p.
Proof.
  intros text m comps p Hm F E. unfold path_of_text. rewrite E.
  change (m :: flat_map (fun s => 47 :: s) comps) with ([m] ++ flat_map (fun s => 47 :: s) comps).
  rewrite split_all.
  - assert (B : bytes_eqb [m] [109] || bytes_eqb [m] [77] = true) by (destruct Hm as [->| ->]; reflexivity). rewrite B.
    f_equal. clear E. induction F as [|s c comps p Hc _ IH]; [reflexivity|]. cbn [components]. rewrite (component_parse s c Hc), IH. reflexivity.
  - constructor; [lia|constructor].
  - clear E. induction F as [|s c comps p Hc _ IH]; [constructor|]. constructor; [|exact IH].
    eapply Forall_impl; [|exact (component_chars s c Hc)]. intros x Hx. cbv beta in Hx. lia.
Qed.
Print Assumptions c38_parses.

(** Printing a path and reading the text gives the path back. *)
Theorem c38_roundtrip : forall p, Forall index_ok p -> path_of_text (path_text p) = Ok p.
Proof.
  intros p H. destruct p as [|c p]; [reflexivity|].
  apply (c38_parses _ 109 (map cindex_text (c :: p))); [left; reflexivity| |].
  - clear -H. induction H as [|x l Hx _ IH]; [constructor|]. constructor; [apply text_component; exact Hx|exact IH].
  - unfold path_text. cbn [map]. rewrite join_flat.
    change ([109; 47] ++ cindex_text c ++ flat_map (fun y => 47 :: y) (map cindex_text p)) with (109 :: flat_map (fun s => 47 :: s) (map cindex_text (c :: p))).
    apply filter_none. apply Forall_cons; [reflexivity|].
    assert (K : forall l, Forall index_ok l -> Forall (fun x => negb (is_white x) = true) (flat_map (fun s => 47 :: s) (map cindex_text l))).
    { clear. intros l H. induction H as [|x l Hx _ IH]; [constructor|]. cbn [map flat_map]. apply Forall_app. split; [|exact IH]. apply Forall_cons; [reflexivity|].
      eapply Forall_impl; [|exact (component_chars _ _ (text_component x Hx))]. intros y Hy. cbv beta in Hy. rewrite white_chars by lia. reflexivity. }
    exact (K (c :: p) H).
Qed.
Print Assumptions c38_roundtrip.
Theorem c38_injective : forall p q, Forall index_ok p -> Forall index_ok q -> path_text p = path_text q -> p = q.
Proof.
  intros p q Hp Hq E. pose proof (c38_roundtrip p Hp) as P. rewrite E, (c38_roundtrip q Hq) in P. congruence.
Qed.
Print Assumptions c38_injective.

(** Every path that is read has 31-bit indices, and its text starts with "m" or "M". *)
Theorem c38_accepted_partial : forall s p, path_of_text s = Ok p -> Forall index_ok p /\
  exists m rest, filter (fun c => negb (is_white c)) s = m :: rest /\ (m = 109 \/ m = 77) /\ (rest = [] \/ exists r, rest = 47 :: r).
Proof.
  intros s p E. unfold path_of_text in E. set (t := filter _ s) in *. clearbody t.
  destruct (split 47 t) as [|m parts] eqn:S; [discriminate|].
  destruct (bytes_eqb m [109] || bytes_eqb m [77]) eqn:B; [|discriminate]. injection E as <-. split.
  - clear S B. induction parts as [|x l IH]; [constructor|]. cbn [components]. destruct (cindex_of_text x) as [c|e|] eqn:C; auto. constructor; [|exact IH].
    assert (U : forall b y v, unsigned_of_text b y = Some v -> 0 <= v).
    { intros b y v U. unfold unsigned_of_text in U. destruct (strip_plus y) as [|d l']; [discriminate|].
      destruct (digits_value 0 (d :: l')) as [w|] eqn:D; [|discriminate]. destruct (w <? b); [|discriminate]. injection U as <-.
      assert (K : forall l a w, 0 <= a -> digits_value a l = Some w -> 0 <= w).
      { clear. induction l as [|d l IH]; intros a w Ha E; cbn [digits_value] in E; [congruence|].
        destruct ((48 <=? d) && (d <=? 57)) eqn:Q; [|discriminate]. eapply IH; [|exact E]. lia. }
      eapply K; [|exact D]. lia. }
    unfold cindex_of_text in C. destruct (existsb (Z.eqb 39) x).
    + match type of C with context [unsigned_of_text ?b ?y] => destruct (unsigned_of_text b y) as [v|] eqn:Q; cbn [of_option bind] in C; [|discriminate]; apply U in Q end.
      unfold index31 in C. destruct (Z.ltb_spec v (2 ^ 31)); cbn [bind] in C; [|discriminate]. injection C as <-. cbn. lia.
    + match type of C with context [unsigned_of_text ?b ?y] => destruct (unsigned_of_text b y) as [v|] eqn:Q; cbn [of_option bind] in C; [|discriminate]; apply U in Q end.
      unfold index31 in C. destruct (Z.ltb_spec v (2 ^ 31)); cbn [bind] in C; [|discriminate]. injection C as <-. cbn. lia.
  - assert (J : forall t m parts, split 47 t = m :: parts -> t = m ++ flat_map (fun x => 47 :: x) parts).
    { clear. induction t as [|c t IH]; intros m parts E; cbn [split] in E; [injection E as <- <-; reflexivity|].
      destruct (Z.eqb_spec c 47) as [->|Hc].
      - injection E as <- <-. destruct (split 47 t) as [|x l] eqn:S.
        + exfalso. clear -S. destruct t as [|a t]; cbn [split] in S; [discriminate|]. destruct (a =? 47); [discriminate|]. destruct (split 47 t); discriminate.
        + cbn [flat_map app]. rewrite (IH x l eq_refl). reflexivity.
      - destruct (split 47 t) as [|x l] eqn:S.
        + exfalso. clear -S. destruct t as [|a t]; cbn [split] in S; [discriminate|]. destruct (a =? 47); [discriminate|]. destruct (split 47 t); discriminate.
        + injection E as <- <-. cbn [app]. rewrite (IH x l eq_refl). reflexivity. }
    apply J in S. assert (M : m = [109] \/ m = [77]).
    { apply orb_prop in B. destruct B as [B|B]; apply bytes_eqb_iff in B; auto. }
    assert (R : forall parts, flat_map (fun x => 47 :: x) parts = [] \/ exists r, flat_map (fun x : list Z => 47 :: x) parts = 47 :: r).
    { intros [|x l]; [left; reflexivity|right; eexists; reflexivity]. }
    destruct M as [-> | ->]; (do 2 eexists; split; [exact S|split; [auto|apply R]]).
Qed.
Print Assumptions c38_accepted_partial.

(** But malformed components are dropped without notice: "m/44'/x/0" is read as the
    path m/44'/0, *)
Theorem c38_malformed_refuted : exists s, s = [109; 47; 52; 52; 39; 47; 120; 47; 48] /\ path_of_text s = Ok [Hard 44; Soft 0] /\
  path_of_text ([109; 47] ++ dec_text 10 (2 ^ 31) ++ [47; 49]) = Ok [Soft 1].
Proof. eexists. split; [reflexivity|]. split; vm_compute; reflexivity. Qed.
Print Assumptions c38_malformed_refuted.
(** and an apostrophe inside a number makes it hardened: "m/4'4". *)
Theorem c38_apostrophe_refuted : path_of_text [109; 47; 52; 39; 52] = Ok [Hard 44] /\ path_of_text [109; 47; 39; 39; 43; 55] = Ok [Hard 7].
Proof. split; vm_compute; reflexivity. Qed.
Print Assumptions c38_apostrophe_refuted.

(** The next path: the last index grows by one; past the last hardened index it fails. *)
Theorem c38_next_partial : forall p c, index_ok c ->
  match c with Hard i => i | Soft i => i end < 2 ^ 31 - 1 ->
  path_next (p ++ [c]) = Ok (p ++ [match c with Hard i => Hard (i + 1) | Soft i => Soft (i + 1) end]).
Proof.
  intros p c O L. unfold path_next. rewrite rev_app_distr. cbn [rev app].
  assert (W : forall i, 0 <= i < 2 ^ 31 - 1 -> wrapu 32 (i + 1) = i + 1) by (intros i Hi; unfold wrapu; apply Z.mod_small; lia).
  destruct c as [i|i]; cbn [index_ok cindex_next] in *; unfold soft_next; rewrite W by lia; unfold index31;
    try replace (i + 1 <? 2 ^ 31) with true by lia; cbn [bind rev]; rewrite rev_involutive; reflexivity.
Qed.
Print Assumptions c38_next_partial.
Theorem c38_next_hardened_end : forall p, path_next (p ++ [Hard (2 ^ 31 - 1)]) = Err "NumberTooLarge" /\ path_next [] = Err "EmptyPath".
Proof. intros p. split; [|reflexivity]. unfold path_next. rewrite rev_app_distr. reflexivity. Qed.
Print Assumptions c38_next_hardened_end.
(** Past the last normal index it silently leaves the range: the new path is that of a
    hardened key in bits, and its text is read as a shorter path. *)
Theorem c38_next_normal_refuted : exists q, path_next [Soft 3; Soft (2 ^ 31 - 1)] = Ok q /\ ~ Forall index_ok q /\
  map to_bits q = map to_bits [Soft 3; Hard 0] /\ path_of_text (path_text q) = Ok [Soft 3].
Proof.
  eexists. split; [vm_compute; reflexivity|]. split.
  - intros F. inversion F as [|x l _ F1]; subst. inversion F1 as [|x l B _]; subst. cbn in B. lia.
  - split; vm_compute; reflexivity.
Qed.
Print Assumptions c38_next_normal_refuted.
Example c38_hyps_met : Forall index_ok (path_new 1 [3; 70000]) /\
  path_text (path_new 1 [3]) = [109; 47; 52; 52; 39; 47; 52; 50; 57; 39; 47; 49; 39; 47; 48; 47; 51].
Proof. split; [|vm_compute; reflexivity]. repeat (constructor; [cbn; lia|]). constructor. Qed.

(** ** C73: the bytes of a path sent to a hardware wallet *)
Theorem c73_ledger_bytes_partial : forall p, Forall index_ok p -> Zlen p < 256 ->
  exists rest, ledger_bytes p = Zlen p :: rest /\ Forall u8 rest /\ List.length rest = (4 * List.length p)%nat /\
  forall n c, nth_error p n = Some c ->
    be_value (firstn 4 (skipn (4 * n) rest)) = match c with Hard i => 2 ^ 31 + i | Soft i => i end.
Proof.
  intros p Hp L. exists (flat_map (fun c => be_bytes 4 (to_bits c)) p). unfold ledger_bytes. pose proof (Zlen_nonneg cindex p).
  split; [f_equal; unfold wrapu; apply Z.mod_small; lia|]. split; [|split].
  - clear. induction p as [|c p IH]; [constructor|]. cbn [flat_map]. apply Forall_app. split; [exact (be_bytes_ok 4 _)|exact IH].
  - clear. induction p as [|c p IH]; [reflexivity|]. cbn [flat_map]. rewrite app_length, IH, be_bytes_length. cbn [List.length]. lia.
  - clear L H. induction Hp as [|c p Hc _ IH]; intros n d E; [destruct n; discriminate|].
    cbn [flat_map]. destruct n as [|n]; cbn [nth_error] in E.
    + injection E as <-. replace (4 * 0)%nat with 0%nat by lia. cbn [skipn]. rewrite firstn_app, be_bytes_length. rewrite firstn_all2 by (rewrite be_bytes_length; lia).
      replace (4 - 4)%nat with 0%nat by lia. cbn [firstn]. rewrite app_nil_r, be_value_bytes. change (256 ^ Z.of_nat 4) with (2 ^ 32).
      destruct c as [i|i]; cbn [index_ok to_bits] in *.
      * replace (Z.lor (2 ^ 31) i) with (2 ^ 31 + i); [apply Z.mod_small; lia|].
        enough (Z.land (2 ^ 31) i = 0) as Q by (rewrite <- Z.lxor_lor by exact Q; rewrite Z.add_nocarry_lxor by exact Q; reflexivity).
        apply Z.bits_inj'. intros k Hk. rewrite Z.land_spec, Z.bits_0. rewrite Z.pow2_bits_eqb by lia.
        destruct (Z.eqb_spec 31 k) as [<-|]; [|reflexivity]. cbn [andb].
        destruct (Z.eq_dec i 0) as [->|]; [apply Z.bits_0|]. apply Z.bits_above_log2; [lia|]. apply Z.log2_lt_pow2; lia.
      * apply Z.mod_small. lia.
    + replace (4 * S n)%nat with (List.length (be_bytes 4 (to_bits c)) + 4 * n)%nat by (rewrite be_bytes_length; lia).
      rewrite skipn_app. rewrite skipn_all2 by lia. cbn [app].
      replace (List.length (be_bytes 4 (to_bits c)) + 4 * n - List.length (be_bytes 4 (to_bits c)))%nat with (4 * n)%nat by lia.
      apply IH. exact E.
Qed.
Print Assumptions c73_ledger_bytes_partial.
(** A path of 256 components is announced as having none. *)
Theorem c73_length_refuted : exists p, Forall index_ok p /\ Zlen p = 256 /\ hd 1 (ledger_bytes p) = 0.
Proof.
  exists (repeat (Soft 1) 256). split; [|split; vm_compute; reflexivity].
  apply Forall_forall. intros c Hc. apply repeat_spec in Hc. subst. cbn. lia.
Qed.
Print Assumptions c73_length_refuted.
Example c73_hyps_met : ledger_bytes (path_new 0 [1]) = [5; 128; 0; 0; 44; 128; 0; 1; 173; 128; 0; 0; 0; 0; 0; 0; 0; 0; 0; 0; 1].
Proof. vm_compute. reflexivity. Qed.

(** ** C39: public and private derivation agree *)
Section C39.
Variable G : group.
Hypothesis HG : group_ok G.
Variable hmac : bytes -> bytes -> bytes.
Hypothesis hmac_ok : forall k m, Forall u8 (hmac k m).
Hypothesis hmac_len : forall k m, List.length (hmac k m) = 64%nat.
Notation ord := (gord G).
Notation sk_public := (@sk_public G).
Notation sk_child := (@sk_child G hmac).
Notation pk_child := (@pk_child G hmac).
Notation sk_walk := (@sk_walk G hmac).
Notation pk_walk := (@pk_walk G hmac).
Notation sk_derive := (@sk_derive G hmac).
Notation pk_derive := (@pk_derive G hmac).
Definition sk_ok (k : ext_sk) : Prop := 0 <= sk_w k < ord.

Lemma ord_pos : 1 < ord.
Proof. pose proof (g_prime _ HG) as P. destruct P. assumption. Qed.
(** A power of the generator is the identity only for a multiple of the order. *)
Lemma gen_pow_id : forall w, gpow (@ggen G) w = gid <-> w mod ord = 0.
Proof.
  intros w. split.
  - intros E. destruct (Z.eq_dec (w mod ord) 0) as [|N]; [assumption|exfalso]. apply (g_gen _ HG).
    pose proof ord_pos as P1. assert (R : rel_prime w ord).
    { apply rel_prime_sym. apply prime_rel_prime; [apply (g_prime _ HG)|]. intros D. apply N. apply Z.mod_divide; [lia|exact D]. }
    destruct (rel_prime_bezout _ _ R) as [u v B].
    rewrite <- (gpow_1 ggen). rewrite <- B, (gpow_add HG), (Z.mul_comm u w), (Z.mul_comm v ord), !(gpow_mul HG), E, (g_ord _ HG), !(gpow_id HG).
    apply (g_id _ HG).
  - intros E. rewrite <- (gpow_mod HG), E. apply (gpow_0).
Qed.
Lemma scalar_roundtrip : forall w, 0 <= w < ord -> scalar_from_bytes (G := G) (scalar_bytes w) = Some w.
Proof.
  intros w Hw. unfold scalar_from_bytes, scalar_bytes. rewrite be_value_bytes. change (256 ^ Z.of_nat 32) with (2 ^ 256).
  pose proof (g_ord_bound _ HG). rewrite Z.mod_small by lia. replace (w <? ord) with true by lia. reflexivity.
Qed.
Lemma sk_public_ok : forall k, sk_public k = Ok (ExtPk (gpow ggen (sk_w k)) (sk_chain k) (sk_path k)).
Proof.
  intros k. unfold DeriveModel.sk_public, sk_image. rewrite ec_write_ok. cbn [bind]. pose proof (ec_read_bytes HG (exponentiate ggen (sk_w k)) []) as R.
  rewrite app_nil_r in R. rewrite R. cbn [bind]. rewrite (exponentiate_pow HG). reflexivity.
Qed.

(** Deriving a normal child and taking its public key is taking the public key and
    deriving the child, for every index and every HMAC, including the indices that are
    skipped. *)
Theorem c39_child : forall fuel k i, sk_ok k -> exists pk, sk_public k = Ok pk /\
  (k' <- sk_child fuel k (Soft i) ;; sk_public k') = pk_child fuel pk i.
Proof.
  intros fuel k i Hk. eexists. split; [apply sk_public_ok|]. revert i.
  induction fuel as [|fuel IH]; intros i; [reflexivity|]. cbn [DeriveModel.sk_child DeriveModel.pk_child pk_point pk_chain pk_path].
  unfold sk_image. rewrite (exponentiate_pow HG), ec_write_ok. cbn [bind]. cbv zeta.
  set (mac := hmac _ _). unfold scalar_from_bytes. destruct (be_value (firstn 32 mac) <? ord).
  2:{ cbn [cindex_next bind]. apply IH. }
  set (w := be_value (firstn 32 mac)). rewrite (exponentiate_pow HG). rewrite <- (gpow_add HG).
  assert (Q : is_identity (gpow (@ggen G) (w + sk_w k)) = ((w + sk_w k) mod ord =? 0)).
  { destruct (is_identity (gpow ggen (w + sk_w k))) eqn:I.
    - apply (is_identity_spec HG) in I. apply gen_pow_id in I. rewrite I. reflexivity.
    - symmetry. apply Z.eqb_neq. intros E. apply gen_pow_id in E. apply (is_identity_spec HG) in E. congruence. }
  rewrite Q. destruct ((w + sk_w k) mod ord =? 0); [cbn [cindex_next bind]; apply IH|].
  unfold sk_new. rewrite scalar_roundtrip by (apply Z.mod_pos_bound; pose proof ord_pos; lia).
  cbn [of_option bind]. rewrite sk_public_ok. cbn [sk_w sk_chain sk_path]. rewrite (gpow_mod HG). reflexivity.
Qed.

Lemma sk_new_some : forall b w ch p, scalar_from_bytes (G := G) b = Some w -> sk_new (G := G) b ch p = Ok (ExtSk w ch p).
Proof. intros b w ch p E. unfold sk_new. rewrite E. reflexivity. Qed.
Lemma sk_new_ok : forall w ch p k', 0 <= w < ord -> sk_new (G := G) (scalar_bytes w) ch p = Ok k' -> sk_ok k'.
Proof.
  intros w ch p k' B E. pose proof (scalar_roundtrip _ B) as R. revert R E. generalize (scalar_bytes w). intros b R E.
  rewrite (sk_new_some b w ch p R) in E. injection E as <-. exact B.
Qed.
Lemma sk_child_step : forall fuel k c, sk_child (S fuel) k c =
  (data <- match c with Hard _ => Ok (0 :: scalar_bytes (sk_w k)) | Soft _ => ec_write (sk_image (G := G) k) end ;;
   match scalar_from_bytes (G := G) (firstn 32 (hmac (sk_chain k) (data ++ be_bytes 4 (to_bits c)))) with
   | Some w =>
       if (w + sk_w k) mod ord =? 0 then i <- cindex_next c ;; sk_child fuel k i
       else sk_new (G := G) (scalar_bytes ((w + sk_w k) mod ord))
              (skipn 32 (hmac (sk_chain k) (data ++ be_bytes 4 (to_bits c)))) (sk_path k ++ [c])
   | None => i <- cindex_next c ;; sk_child fuel k i
   end).
Proof. reflexivity. Qed.
Lemma sk_child_ok : forall fuel k c k', sk_child fuel k c = Ok k' -> sk_ok k'.
Proof.
  intros fuel k. induction fuel as [|fuel IH]; intros c k' E; [discriminate|]. rewrite sk_child_step in E.
  destruct (match c with Hard _ => _ | Soft _ => _ end) as [data|m|]; cbn [bind] in E; [|discriminate E|discriminate E].
  destruct (scalar_from_bytes _) as [w|].
  - destruct (_ =? 0).
    + destruct (cindex_next c) as [i|m|]; cbn [bind] in E; [|discriminate E|discriminate E]. exact (IH _ _ E).
    + refine (sk_new_ok _ _ _ _ _ E). apply Z.mod_pos_bound. pose proof ord_pos. lia.
  - destruct (cindex_next c) as [i|m|]; cbn [bind] in E; [|discriminate E|discriminate E]. exact (IH _ _ E).
Qed.

Lemma sk_walk_public : forall l fuel k, sk_ok k -> Forall (fun c => exists i, c = Soft i) l -> forall pk, sk_public k = Ok pk ->
  (k' <- sk_walk fuel k l ;; sk_public k') = pk_walk fuel pk l.
Proof.
  intros l. induction l as [|c l IH]; intros fuel k Hk Hl pk Hp; cbn [DeriveModel.sk_walk DeriveModel.pk_walk bind]; [exact Hp|].
  inversion Hl as [|x y [i ->] Hl']; subst. destruct (c39_child fuel k i Hk) as (pk' & Ep & E). rewrite Hp in Ep. injection Ep as <-.
  rewrite <- E. destruct (sk_child fuel k (Soft i)) as [k'|m|] eqn:C; cbn [bind]; try reflexivity.
  rewrite (sk_public_ok k'). cbn [bind]. apply IH; [eapply sk_child_ok; exact C|exact Hl'|apply sk_public_ok].
Qed.
(** The same for whole paths: the results are equal, errors included. *)
Theorem c39_derive : forall fuel k up, sk_ok k -> Forall (fun c => exists i, c = Soft i) (skipn (List.length (sk_path k)) up) ->
  exists pk, sk_public k = Ok pk /\
  (k' <- sk_derive fuel k up ;; sk_public k') = pk_derive fuel pk up.
Proof.
  intros fuel k up Hk Hup. eexists. split; [apply sk_public_ok|]. unfold DeriveModel.sk_derive, DeriveModel.pk_derive. cbn [pk_path]. cbv zeta.
  destruct (_ <? _)%nat; [reflexivity|]. destruct (matching up (sk_path k)); [|reflexivity].
  apply sk_walk_public; [exact Hk|exact Hup|apply sk_public_ok].
Qed.
(** A public key gives no hardened child. *)
Theorem c39_hardened : forall fuel pk up i, In (Hard i) (skipn (List.length (pk_path pk)) up) ->
  forall k', pk_derive fuel pk up <> Ok k'.
Proof.
  intros fuel pk up i Hi k' E. unfold DeriveModel.pk_derive in E. cbv zeta in E. destruct (_ <? _)%nat; [discriminate|].
  destruct (matching up (pk_path pk)); [|discriminate]. 
  assert (K : forall l q, In (Hard i) l -> pk_walk fuel q l = Ok k' -> False).
  { clear pk Hi E. induction l as [|c l IH]; intros pk Hi E; [destruct Hi|]. cbn [DeriveModel.pk_walk] in E. destruct c as [j|j]; [discriminate|].
    destruct Hi as [Hi|Hi]; [discriminate|]. destruct (pk_child fuel pk j) as [p'|m|]; cbn [bind] in E; try discriminate. eauto. }
  exact (K _ _ Hi E).
Qed.

(** *** BIP-32 *)
(** The child key of a secret key at an index: invalid when the left half of the MAC
    is not below the order or the sum is zero. *)
Definition bip32_mac (k : ext_sk) (c : cindex) : bytes :=
  hmac (sk_chain k) (match c with
                     | Hard i => 0 :: be_bytes 32 (sk_w k) ++ be_bytes 4 (2 ^ 31 + i)
                     | Soft i => ec_bytes (gpow (@ggen G) (sk_w k)) ++ be_bytes 4 i
                     end).
Definition bip32_valid (k : ext_sk) (c : cindex) : Prop :=
  be_value (firstn 32 (bip32_mac k c)) < ord /\ (be_value (firstn 32 (bip32_mac k c)) + sk_w k) mod ord <> 0.
Definition shift (c : cindex) (n : nat) : cindex :=
  match c with Hard i => Hard (i + Z.of_nat n) | Soft i => Soft (i + Z.of_nat n) end.
Definition index_of_c (c : cindex) : Z := match c with Hard i | Soft i => i end.

Lemma to_bits_hard : forall i, 0 <= i < 2 ^ 31 -> to_bits (Hard i) = 2 ^ 31 + i.
Proof.
  intros i Hi. cbn [to_bits]. enough (Z.land (2 ^ 31) i = 0) as Q by (rewrite <- Z.lxor_lor by exact Q; rewrite Z.add_nocarry_lxor by exact Q; reflexivity).
  apply Z.bits_inj'. intros n Hn. rewrite Z.land_spec, Z.bits_0. rewrite Z.pow2_bits_eqb by lia.
  destruct (Z.eqb_spec 31 n) as [<-|]; [|reflexivity]. cbn [andb].
  destruct (Z.eq_dec i 0) as [->|]; [apply Z.bits_0|]. apply Z.bits_above_log2; [lia|]. apply Z.log2_lt_pow2; lia.
Qed.
Lemma mac_eq : forall k c, index_ok c -> forall data,
  match c with Hard _ => Ok (0 :: scalar_bytes (sk_w k)) | Soft _ => ec_write (sk_image (G := G) k) end = Ok data ->
  hmac (sk_chain k) (data ++ be_bytes 4 (to_bits c)) = bip32_mac k c.
Proof.
  intros k c O data E. unfold bip32_mac. destruct c as [i|i]; cbn [index_ok] in O.
  - injection E as <-. rewrite to_bits_hard by exact O. reflexivity.
  - unfold sk_image in E. rewrite (exponentiate_pow HG), ec_write_ok in E. injection E as <-. reflexivity.
Qed.
(** As long as the index stays in range, [child] returns the child of the first valid
    index at or after the one asked for, with the path extended by that index. *)
Theorem c39_bip32_partial : forall n fuel k c, (n < fuel)%nat -> index_ok c -> index_of_c c + Z.of_nat n < 2 ^ 31 ->
  (forall m, (m < n)%nat -> ~ bip32_valid k (shift c m)) -> bip32_valid k (shift c n) ->
  sk_child fuel k c = Ok (ExtSk ((be_value (firstn 32 (bip32_mac k (shift c n))) + sk_w k) mod ord)
    (skipn 32 (bip32_mac k (shift c n))) (sk_path k ++ [shift c n])).
Proof.
  intros n. induction n as [|n IH]; intros fuel k c Hf O R Hbad Hgood; (destruct fuel as [|fuel]; [lia|]); rewrite sk_child_step;
  match goal with |- bind ?x _ = _ => destruct x as [data|m|] eqn:D end;
  try (exfalso; destruct c; [discriminate|unfold ec_write in D; destruct (is_identity _); discriminate]);
  cbn [bind]; rewrite !(mac_eq k c O data D); unfold scalar_from_bytes at 1.
  - replace (shift c 0) with c in * by (destruct c; cbn [shift]; rewrite Z.add_0_r; reflexivity).
    destruct Hgood as [G1 G2]. replace (be_value (firstn 32 (bip32_mac k c)) <? ord) with true by lia.
    replace ((be_value (firstn 32 (bip32_mac k c)) + sk_w k) mod ord =? 0) with false by lia.
    assert (B : 0 <= (be_value (firstn 32 (bip32_mac k c)) + sk_w k) mod ord < ord) by (apply Z.mod_pos_bound; pose proof ord_pos; lia).
    apply (sk_new_some _ _ _ _ (scalar_roundtrip _ B)).
  - assert (NX : cindex_next c = Ok (shift c 1)).
    { destruct c as [i|i]; cbn [cindex_next shift index_ok index_of_c] in *; unfold soft_next, wrapu; rewrite Z.mod_small by lia; [|reflexivity].
      unfold index31. replace (i + 1 <? 2 ^ 31) with true by lia. reflexivity. }
    assert (SH : forall m, shift (shift c 1) m = shift c (S m)).
    { intros m. destruct c as [i|i]; cbn [shift]; f_equal; lia. }
    assert (T : sk_child fuel k (shift c 1) = Ok (ExtSk ((be_value (firstn 32 (bip32_mac k (shift c (S n)))) + sk_w k) mod ord)
      (skipn 32 (bip32_mac k (shift c (S n)))) (sk_path k ++ [shift c (S n)]))).
    { rewrite <- (SH n). apply IH; [lia| | | |rewrite SH; exact Hgood].
      - destruct c; cbn [index_ok shift index_of_c] in *; lia.
      - destruct c; cbn [index_ok shift index_of_c] in *; lia.
      - intros m Hm. rewrite SH. apply Hbad. lia. }
    assert (B : ~ bip32_valid k c).
    { specialize (Hbad 0%nat ltac:(lia)). replace (shift c 0) with c in Hbad by (destruct c; cbn [shift]; rewrite Z.add_0_r; reflexivity). exact Hbad. }
    unfold bip32_valid in B. destruct (Z.ltb_spec (be_value (firstn 32 (bip32_mac k c))) ord) as [L|L].
    + destruct (Z.eqb_spec ((be_value (firstn 32 (bip32_mac k c)) + sk_w k) mod ord) 0) as [Z0|Z0]; [|exfalso; apply B; split; assumption].
      rewrite NX. cbn [bind]. exact T.
    + rewrite NX. cbn [bind]. exact T.
Qed.

(** Deriving in two steps is deriving in one, when no index was skipped on the way. *)
Lemma sk_walk_app : forall fuel l1 l2 k, sk_walk fuel k (l1 ++ l2) = (k' <- sk_walk fuel k l1 ;; sk_walk fuel k' l2).
Proof.
  intros fuel l1. induction l1 as [|c l1 IH]; intros l2 k; [reflexivity|]. cbn [app DeriveModel.sk_walk].
  destruct (sk_child fuel k c) as [k'|m|]; cbn [bind]; [apply IH|reflexivity|reflexivity].
Qed.
Lemma cindex_eqb_refl : forall c, cindex_eqb c c = true.
Proof. destruct c; cbn; apply Z.eqb_refl. Qed.
Lemma matching_prefix : forall base rest, matching (base ++ rest) base = true.
Proof.
  intros base rest. unfold matching. rewrite firstn_app, Nat.sub_diag, firstn_all. cbn [firstn]. rewrite app_nil_r.
  induction base as [|c base IH]; [reflexivity|]. cbn [combine forallb fst snd]. rewrite cindex_eqb_refl. exact IH.
Qed.
Lemma derive_suffix : forall fuel k rest, sk_derive fuel k (sk_path k ++ rest) = sk_walk fuel k rest.
Proof.
  intros fuel k rest. unfold DeriveModel.sk_derive. cbv zeta. rewrite app_length.
  replace (List.length (sk_path k) + List.length rest <? List.length (sk_path k))%nat with false by (symmetry; apply Nat.ltb_ge; lia).
  rewrite matching_prefix, skipn_app, Nat.sub_diag, skipn_all. reflexivity.
Qed.
Theorem c39_compose : forall fuel k k1 l1 l2, sk_derive fuel k (sk_path k ++ l1) = Ok k1 -> sk_path k1 = sk_path k ++ l1 ->
  sk_derive fuel k (sk_path k ++ l1 ++ l2) = sk_derive fuel k1 (sk_path k ++ l1 ++ l2).
Proof.
  intros fuel k k1 l1 l2 E P. rewrite derive_suffix in E. rewrite derive_suffix, sk_walk_app, E. cbn [bind].
  rewrite app_assoc, <- P. symmetry. apply derive_suffix.
Qed.

Lemma cindex_eqb_eq : forall a b, cindex_eqb a b = true -> a = b.
Proof. intros [i|i] [j|j] E; cbn in E; try discriminate; f_equal; lia. Qed.
(** Keys are derived only below the path of the key; any other path that is at least as
    long is refused. *)
Theorem c39_incompatible_partial : forall fuel k up, (List.length (sk_path k) <= List.length up)%nat ->
  (forall rest, up <> sk_path k ++ rest) -> sk_derive fuel k up = Err "IncompatibleDerivation".
Proof.
  intros fuel k up L N. unfold DeriveModel.sk_derive. cbv zeta. replace (List.length up <? List.length (sk_path k))%nat with false by (symmetry; apply Nat.ltb_ge; lia).
  destruct (matching up (sk_path k)) eqn:M; [exfalso|reflexivity]. unfold matching in M.
  assert (E : firstn (List.length (sk_path k)) up = sk_path k).
  { assert (Lf : List.length (firstn (List.length (sk_path k)) up) = List.length (sk_path k)) by (rewrite firstn_length; lia).
    revert M Lf. generalize (firstn (List.length (sk_path k)) up) as a. generalize (sk_path k) as b. clear.
    induction b as [|y b IH]; intros [|x a] M L; try discriminate; [reflexivity|]. cbn [combine forallb fst snd] in M.
    apply andb_prop in M. destruct M as [M1 M2]. apply cindex_eqb_eq in M1. subst. f_equal. apply IH; [exact M2|]. cbn in L. lia. }
  apply (N (skipn (List.length (sk_path k)) up)). pattern (sk_path k) at 1. rewrite <- E. symmetry. apply firstn_skipn.
Qed.
(** A shorter path is not refused with an error: the code panics. *)
Theorem c39_short_path_refuted : exists k up, sk_derive 1 k up = Panic.
Proof. exists (ExtSk 1 [] [Hard 44]), []. reflexivity. Qed.
End C39.
Print Assumptions c39_child.
Print Assumptions c39_derive.
Print Assumptions c39_hardened.
Print Assumptions c39_bip32_partial.
Print Assumptions c39_compose.
Print Assumptions c39_incompatible_partial.
Print Assumptions c39_short_path_refuted.
(** A MAC for which the first index tried is skipped. *)
Example c39_hyps_met : forall G, group_ok G -> let hmac := fun _ m : bytes => repeat (if last m 0 =? 5 then 255 else 0) 32 ++ repeat 3 32 in
  let k := ExtSk 1 (repeat 1 32) [Hard 44] in sk_ok G k /\ (forall k m, List.length (hmac k m) = 64%nat) /\
  sk_child (G := G) hmac 2 k (Soft 5) = Ok (ExtSk 1 (repeat 3 32) [Hard 44; Soft 6]).
Proof.
  intros G HG hmac k. pose proof (ord_pos G HG) as O1. pose proof (g_ord_bound _ HG) as O2.
  split; [unfold sk_ok; cbn; lia|]. split; [reflexivity|]. unfold k. cbn [sk_child]. unfold sk_image, sk_w. rewrite ec_write_ok. cbn [bind]. cbv zeta.
  assert (L : forall x, last (ec_bytes (exponentiate (@ggen G) 1) ++ be_bytes 4 x) 0 = x mod 256).
  { intros x. change (be_bytes 4 x) with (be_bytes 3 (x / 256) ++ [x mod 256]). rewrite app_assoc. apply last_last. }
  assert (M : forall c x, hmac c (ec_bytes (exponentiate (@ggen G) 1) ++ be_bytes 4 x) = repeat (if x mod 256 =? 5 then 255 else 0) 32 ++ repeat 3 32).
  { intros c x. unfold hmac. rewrite L. reflexivity. }
  rewrite !M. change (to_bits (Soft 5) mod 256 =? 5) with true. cbv iota.
  unfold scalar_from_bytes at 1. change (be_value (firstn 32 (repeat 255 32 ++ repeat 3 32))) with (2 ^ 256 - 1).
  replace (2 ^ 256 - 1 <? gord G) with false by lia. cbn [cindex_next bind]. rewrite M. change (to_bits (Soft (soft_next 5)) mod 256 =? 5) with false. cbv iota.
  unfold scalar_from_bytes at 1. change (be_value (firstn 32 (repeat 0 32 ++ repeat 3 32))) with 0.
  replace (0 <? gord G) with true by lia. rewrite (Z.mod_small (0 + 1)) by lia. change (0 + 1 =? 0) with false. cbv iota. unfold sk_new.
  rewrite (scalar_roundtrip G HG) by lia. reflexivity.
Qed.

(** ** C74: secret keys as bytes, and their addresses *)
Section C74.
Variable G : group.
Hypothesis HG : group_ok G.
Definition secret_ok (s : @secret G) : Prop := 0 <= secret_w s < gord G.

Lemma ec_read_exact : forall x : G, ec_read (ec_bytes x) = Ok (x, []).
Proof. intros x. pose proof (ec_read_bytes HG x []) as R. rewrite app_nil_r in R. exact R. Qed.
Lemma firstn_here : forall (a b : bytes) n, List.length a = n -> firstn n (a ++ b) = a.
Proof. intros a b n <-. rewrite firstn_app, Nat.sub_diag, firstn_all. cbn [firstn]. apply app_nil_r. Qed.
Lemma skipn_here : forall (a b : bytes) n m, List.length a = n -> skipn (n + m) (a ++ b) = skipn m b.
Proof. intros a b n m <-. rewrite skipn_app, skipn_all2 by lia. cbn [app]. f_equal. lia. Qed.

(** The bytes of a secret key are read back as the same key: 32 bytes for a discrete
    logarithm, 164 for a Diffie-Hellman tuple. *)
Theorem c74_roundtrip : forall s, secret_ok s -> exists b, secret_bytes s = Ok b /\ secret_from_bytes b = Ok s /\
  List.length b = match s with SecDlog _ => 32%nat | SecDht _ _ _ _ _ => 164%nat end.
Proof.
  intros s Hs. unfold secret_ok in Hs. destruct s as [w|w g h u v]; cbn [secret_w secret_bytes] in *.
  - exists (scalar_bytes w). assert (L : List.length (scalar_bytes w) = 32%nat) by apply be_bytes_length.
    split; [reflexivity|]. split; [|exact L]. unfold secret_from_bytes, Zlen. rewrite L. change (Z.of_nat 32 =? 32) with true. cbv iota.
    rewrite (scalar_roundtrip G HG) by exact Hs. reflexivity.
  - rewrite !ec_write_ok. cbn [bind]. set (b := scalar_bytes w ++ _). exists b. split; [reflexivity|].
    assert (Lw : List.length (scalar_bytes w) = 32%nat) by apply be_bytes_length.
    pose proof (ec_bytes_len HG g) as Lg. pose proof (ec_bytes_len HG h) as Lh. pose proof (ec_bytes_len HG u) as Lu. pose proof (ec_bytes_len HG v) as Lv.
    assert (L : List.length b = 164%nat) by (unfold b; rewrite !app_length; lia).
    split; [|exact L]. unfold secret_from_bytes, Zlen. rewrite L. change (Z.of_nat 164 =? 32) with false. change (Z.of_nat 164 =? 164) with true. cbv iota.
    assert (S32 : skipn 32 b = ec_bytes g ++ ec_bytes h ++ ec_bytes u ++ ec_bytes v) by (exact (skipn_here _ _ 32 0 Lw)).
    assert (S65 : skipn 65 b = ec_bytes h ++ ec_bytes u ++ ec_bytes v) by (change 65%nat with (32 + 33)%nat; unfold b; rewrite (skipn_here _ _ 32 33 Lw); exact (skipn_here _ _ 33 0 Lg)).
    assert (S98 : skipn 98 b = ec_bytes u ++ ec_bytes v).
    { change 98%nat with (32 + (33 + 33))%nat. unfold b. rewrite (skipn_here _ _ 32 _ Lw), (skipn_here _ _ 33 33 Lg). exact (skipn_here _ _ 33 0 Lh). }
    assert (S131 : skipn 131 b = ec_bytes v).
    { change 131%nat with (32 + (33 + (33 + 33)))%nat. unfold b. rewrite (skipn_here _ _ 32 _ Lw), (skipn_here _ _ 33 _ Lg), (skipn_here _ _ 33 33 Lh). exact (skipn_here _ _ 33 0 Lu). }
    assert (F32 : firstn 32 b = scalar_bytes w) by (exact (firstn_here _ _ 32 Lw)).
    rewrite S32, S65, S98, S131, F32, (firstn_here _ _ 33 Lg), (firstn_here _ _ 33 Lh), (firstn_here _ _ 33 Lu), !ec_read_exact. cbn [bind].
    rewrite (scalar_roundtrip G HG) by exact Hs. reflexivity.
Qed.
(** Bytes read as a discrete-logarithm key are the bytes of that key, and other lengths
    are refused; the exponent is always below the order. *)
Theorem c74_accepted : forall b s, Forall u8 b -> secret_from_bytes b = Ok s -> secret_ok s /\
  match s with SecDlog _ => secret_bytes s = Ok b | SecDht _ _ _ _ _ => List.length b = 164%nat end.
Proof.
  intros b s Ob E. unfold secret_from_bytes in E.
  assert (P : forall x w, Forall u8 x -> scalar_from_bytes (G := G) x = Some w -> 0 <= w < gord G /\ w = be_value x).
  { intros x w Ox Q. unfold scalar_from_bytes in Q. destruct (Z.ltb_spec (be_value x) (gord G)); [|discriminate]. injection Q as <-.
    pose proof (be_value_bound x Ox). split; [lia|reflexivity]. }
  destruct (Z.eqb_spec (Zlen b) 32) as [L|_].
  - destruct (scalar_from_bytes b) as [w|] eqn:Q; cbn [of_option bind] in E; [|discriminate]. injection E as <-.
    destruct (P b w Ob Q) as [R ->]. split; [exact R|]. cbn [secret_bytes]. f_equal. unfold scalar_bytes.
    replace 32%nat with (List.length b) by (unfold Zlen in L; lia). exact (be_bytes_value b Ob).
  - destruct (Z.eqb_spec (Zlen b) 164) as [L|_]; [|discriminate].
    match type of E with match ?x with _ => _ end = _ => destruct x as [s'|m|] eqn:Q; try discriminate end. injection E as <-.
    repeat match type of Q with (bind ?x _) = _ => destruct x as [[? ?]|?|]; cbn [bind] in Q; try discriminate end.
    destruct (scalar_from_bytes (firstn 32 b)) as [w|] eqn:W; cbn [of_option bind] in Q; [|discriminate]. injection Q as <-.
    split; [|unfold Zlen in L; lia]. unfold secret_ok. cbn [secret_w]. apply (P (firstn 32 b)); [|exact W].
    rewrite <- (firstn_skipn 32 b) in Ob. apply Forall_app in Ob. tauto.
Qed.
(** Nothing checks that a Diffie-Hellman tuple belongs to the exponent beside it. *)
Theorem c74_tuple_refuted : exists b (s : @secret G), secret_from_bytes b = Ok s /\
  match s with SecDlog _ => False | SecDht w g h u v => u <> gpow g w end.
Proof.
  pose proof (ord_pos G HG). destruct (c74_roundtrip (SecDht 0 ggen ggen ggen ggen)) as (b & _ & R & _); [unfold secret_ok; cbn; lia|].
  exists b. eexists. split; [exact R|]. cbv beta iota. rewrite gpow_0. apply (g_gen _ HG).
Qed.

(** The address of a secret key is that of a script which, written to bytes and read
    back, demands exactly the proof of that key. *)
Lemma leaf_tree_ok : forall p : leaf G, exists st', ok_tree fresh (Parsed (th_v0 false) [] (EConst (MkConst SSigmaProp (LSigma (SLeaf p))))) st'.
Proof.
  intros p. eexists. eapply ok_unsized; [left; reflexivity|reflexivity|apply ok_seg_no; reflexivity|].
  apply ok_inline, ok_constant; [vm_compute; tauto|]. apply ok_sigma. destruct p; exact I.
Qed.
Theorem c74_address : forall s : @secret G, exists a (t : tree G), secret_address s = Ok a /\ script a = Ok t /\
  proposition t = Ok (EConst (MkConst SSigmaProp (LSigma (SLeaf (public_image s))))) /\
  exists b, ser_tree t = Ok b /\ tree_of_bytes b = Ok t.
Proof.
  intros s. destruct (leaf_tree_ok (public_image s)) as (st' & O). destruct (c25_written_partial G HG _ st' O) as (b & E1 & E2 & _).
  destruct s as [w|w g h u v]; cbn [public_image secret_address] in *.
  - do 2 eexists. split; [reflexivity|]. split; [reflexivity|]. split; [reflexivity|]. exists b. split; [exact E1|exact E2].
  - cbn [tree_of_expr tree_new th_seg th_v0 bind]. rewrite E1. do 2 eexists. split; [reflexivity|]. split; [exact E2|].
    split; [reflexivity|]. exists b. split; [exact E1|exact E2].
Qed.
End C74.
Print Assumptions c74_roundtrip.
Print Assumptions c74_accepted.
Print Assumptions c74_tuple_refuted.
Print Assumptions c74_address.
Example c74_hyps_met : forall G, group_ok G -> secret_ok G (SecDlog 1) /\ Forall u8 (scalar_bytes 1) /\
  secret_from_bytes (G := G) (scalar_bytes 1) = Ok (SecDlog 1) /\ secret_from_bytes (G := G) [1; 2] = Err "InvalidLength".
Proof.
  intros G HG. pose proof (ord_pos G HG). split; [unfold secret_ok; cbn; lia|]. split; [exact (be_bytes_ok 32 1)|]. split; [|reflexivity].
  unfold secret_from_bytes. change (Zlen (scalar_bytes 1) =? 32) with true. cbv iota. rewrite (scalar_roundtrip G HG) by lia. reflexivity.
Qed.
