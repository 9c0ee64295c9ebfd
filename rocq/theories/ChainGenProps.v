(** Property C118: simulated block streams are well-formed, mined chains. *)
From Coq Require Import Sorted.
From Verif Require Import Base VlqModel VlqProofs IntBytes GroupModel GroupProofs GroupInstance MerkleModel MerkleSpec
  MerkleProofs MerkleProps HeaderModel HeaderProps PowModel PowProps NipopowModel NipopowProofs NipopowProps
  NipopowProveProofs NipopowProveProps TypeProofs ChainGenModel.
Local Open Scope list_scope.
Local Open Scope Z_scope.

(** *** Specification *)

(** The numeric hash of the Autolykos paper: hash again until the number is below the
    largest multiple of [q] that fits in 256 bits, then reduce. *)
Inductive reduces (H : bytes -> bytes) (q : Z) : bytes -> Z -> Prop :=
| red_hit : forall c, be_value c < 2 ^ 256 / q * q -> reduces H q c (be_value c mod q)
| red_miss : forall c v, 2 ^ 256 / q * q <= be_value c -> reduces H q (H c) v -> reduces H q c v.

(** A header solves the Autolykos version 1 puzzle of difficulty 1: with the elements
    [f_j] that the seed selects, the one-time key [w] and the miner's key [pk] satisfy
    [w ^ (sum of f_j) = g ^ d * pk] and the distance [d] is at most the group order. *)
Definition autolykos1 {G : group} (H : bytes -> bytes) (h : header G) : Prop :=
  exists m w d pkb wb fs,
    serialize_without_pow h = Ok m /\
    pow_onetime_pk (h_solution h) = Some w /\ pow_distance (h_solution h) = Some d /\
    ec_write (miner_pk (h_solution h)) = Ok pkb /\ ec_write w = Ok wb /\
    0 <= d <= gord G /\
    (let seed := H (H m ++ nonce (h_solution h)) in
     Forall2 (fun i f =>
        let j := be_value (firstn 4 (skipn i (seed ++ firstn 3 seed))) mod 2 ^ 26 in
        j <> 0 /\
        reduces H (gord G) (H (be_bytes 4 j ++ calc_big_m ++ pkb ++ H m ++ wb)) f) (seq 0 32) fs) /\
    gpow w (fold_right Z.add 0 fs) = gop (gpow (@ggen G) d) (miner_pk (h_solution h)).

(** A simulated block: version 1, difficulty 1, mined by [pk], with an identifier that is
    the hash of its bytes, bytes that read back as the header, and roots that commit to
    the transactions and to the extension. *)
Record block_ok {G : group} (H : bytes -> bytes) (pk : G) (txs : list gtx) (b : full_block G) : Prop := {
  bo_version : h_version (fb_header b) = 1;
  bo_bits : h_n_bits (fb_header b) = 16842752;
  bo_miner : miner_pk (h_solution (fb_header b)) = pk;
  bo_bytes : exists bs, header_serialize (fb_header b) = Ok bs /\ h_id (fb_header b) = H bs /\
    forall rest, header_parse H (bs ++ rest) = Ok (fb_header b, rest);
  bo_txs : txs <> [] -> h_transaction_root (fb_header b) = merkle_root H (map (fun t => H (gx_message t)) txs);
  bo_ext : h_extension_root (fb_header b) =
    match fb_extension b with
    | [] => H []
    | e => merkle_root H (map (fun kv => 2 :: fst kv ++ snd kv) e)
    end;
  bo_pow : autolykos1 H (fb_header b) }.

(** *** Proofs *)
Lemma root_special : forall H ls t, merkle_new H (map (from_bytes H) ls) = Ok t ->
  root_hash_special H t = match ls with [] => H [] | _ => merkle_root H ls end.
Proof.
  intros H ls t E. destruct ls as [|x ls].
  - cbv in E. injection E as <-. reflexivity.
  - destruct (merkle_new_spec H (x :: ls) ltac:(discriminate)) as [t' [E' [Hok _]]].
    assert (t' = t) by congruence. subst t'.
    unfold root_hash_special. destruct Hok as [_ [HL [_ Hh]]]. unfold merkle_root.
    assert (0 < List.length (padded H (x :: ls)))%nat.
    { rewrite padded_length. simpl. destruct (Nat.odd _); lia. }
    assert (HS : exists r, troot H (height (List.length (x :: ls))) (x :: ls) = Some r).
    { assert (HT : forall n l, l <> [] -> exists r, troot H n l = Some r).
      { induction n as [|n IH]; intros l Hl; destruct l as [|y l]; try congruence; cbn [troot]; [eauto|].
        destruct (IH (y :: l) Hl) as [r ->]. eauto. }
      apply HT. discriminate. }
    destruct HS as [r Er].
    destruct (nth_error (nodes t) 0) as [n|] eqn:En.
    + rewrite (Hh 0%nat n En), nspec_root, Er. reflexivity.
    + apply nth_error_None in En. lia.
Qed.

Lemma numeric_reduces : forall H q n c v, numeric_hash_loop H n c (2 ^ 256 / q * q) q = Ok v -> reduces H q c v.
Proof.
  induction n as [|n IH]; intros c v E; cbn [numeric_hash_loop] in E; [discriminate|].
  destruct (be_value c <? _) eqn:El.
  - injection E as <-. apply red_hit. lia.
  - apply red_miss; [lia|]. apply IH. exact E.
Qed.

Lemma map_r_forall2 : forall A B (f : A -> res B) l r, map_r f l = Ok r -> Forall2 (fun a b => f a = Ok b) l r.
Proof.
  induction l as [|a l IH]; intros r E; cbn [map_r] in E; [injection E as <-; constructor|].
  inv_bind E. inv_bind E. injection E as <-. constructor; auto.
Qed.

Lemma fold_left_sum : forall l a, fold_left (fun acc e => acc + e) l a = a + fold_right Z.add 0 l.
Proof. induction l as [|x l IH]; intros a; cbn [fold_left fold_right]; [lia|]. rewrite IH. lia. Qed.

Lemma root_special_len : forall H ls t, hash32 H -> merkle_new H (map (from_bytes H) ls) = Ok t ->
  List.length (root_hash_special H t) = 32%nat.
Proof.
  intros H ls t HH E. rewrite (root_special _ _ _ E). destruct ls as [|x ls]; [apply HH|].
  unfold merkle_root. destruct (troot H _ (x :: ls)) as [v|] eqn:Et; [|reflexivity].
  destruct (height (List.length (x :: ls))) as [|n]; cbn [troot] in Et.
  - injection Et as <-. apply HH.
  - destruct (troot H n (x :: ls)); [|discriminate]. injection Et as <-. apply HH.
Qed.

Section Gen.
Context {G : group} (HG : group_ok G) (H : bytes -> bytes) (fl : Z -> Z -> Z) (sk : Z) (fuel nonces : nat).
Hypothesis HH : hash32 H.
Hypothesis HN : (1 <= nonces)%nat.
Notation pk := (exponentiate (@ggen G) sk).

Lemma ord_pos : 0 < gord G.
Proof. pose proof (Znumtheory.prime_ge_2 _ (g_prime _ HG)). lia. Qed.

Lemma mine_first : forall n i msg p1 p2 hb N x o, (1 <= n)%nat ->
  mine (G := G) H sk fuel n i 1 msg p1 p2 hb N x (gord G) = Ok o ->
  exists d, o = Some (be_bytes 8 (wrapu 64 i), d) /\
    try_nonce (G := G) H sk fuel 1 msg p1 p2 hb N x (be_bytes 8 (wrapu 64 i)) = Ok d /\ 0 <= d < gord G.
Proof.
  intros n i msg p1 p2 hb N x o Hn E. destruct n as [|n]; [lia|]. cbn [mine] in E. inv_bind E.
  assert (Hd : 0 <= b < gord G).
  { unfold try_nonce in Eb. change (1 =? 1) with true in Eb. cbv iota in Eb. inv_bind Eb. inv_bind Eb. inv_bind Eb.
    injection Eb as <-. apply Z.mod_pos_bound, ord_pos. }
  replace (b <=? gord G) with true in E by lia. injection E as <-. exists b. auto.
Qed.

Lemma try_nonce_spec : forall msg pkb wb hb x non d,
  try_nonce (G := G) H sk fuel 1 msg pkb wb hb (calc_big_n 1 0) x non = Ok d ->
  exists fs, (let seed := H (msg ++ non) in
     Forall2 (fun i f =>
        let j := be_value (firstn 4 (skipn i (seed ++ firstn 3 seed))) mod 2 ^ 26 in
        j <> 0 /\
        reduces H (gord G) (H (be_bytes 4 j ++ calc_big_m ++ pkb ++ msg ++ wb)) f) (seq 0 32) fs) /\
    d = (x * fold_right Z.add 0 fs - sk) mod gord G.
Proof.
  intros msg pkb wb hb x non d E. unfold try_nonce in E. change (1 =? 1) with true in E. cbv iota in E.
  cbn [bind] in E. inv_bind E. inv_bind E. injection E as <-. exists b0. split.
  2: { rewrite fold_left_sum. reflexivity. }
  cbv zeta. unfold gen_indexes in Eb. apply map_r_forall2 in Eb. apply map_r_forall2 in Eb0.
  change (seq 0 k_param) with (seq 0 32) in Eb.
  revert b0 Eb0. induction Eb as [|i j is js Hij Hrest IH]; intros fs E2; inversion E2 as [|? f ? fs' Hj E3]; subst; constructor; auto.
  unfold gen_index in Hij. change (calc_big_n 1 0) with (2 ^ 26) in Hij.
  set (v := be_value (firstn 4 (skipn i (H (msg ++ non) ++ firstn 3 (H (msg ++ non))))) mod 2 ^ 26) in *.
  assert (Hv : 0 <= v < 2 ^ 26) by (apply Z.mod_pos_bound; reflexivity). clearbody v.
  destruct (v =? 0) eqn:E0; [discriminate|]. injection Hij as <-. rewrite Z.mod_small in Hj.
  2: { change (2 ^ 32) with 4294967296. change (2 ^ 26) with 67108864 in Hv. lia. }
  split; [lia|]. unfold generate_element in Hj. change (1 =? 1) with true in Hj. cbv iota in Hj.
  unfold numeric_hash in Hj. apply numeric_reduces in Hj. exact Hj.
Qed.

Lemma prove_block_spec : forall parent txs ext r b,
  (forall p, parent = Some p -> u32 (h_height p) /\ List.length (h_id p) = 32%nat) ->
  prove_block H sk fuel nonces parent 1 txs 0 ext r = Ok b ->
  fb_extension b = ext /\ block_ok H pk txs b /\ u32 (h_height (fb_header b)) /\
  List.length (h_id (fb_header b)) = 32%nat /\
  match parent with
  | None => h_height (fb_header b) = 1 /\ h_parent_id (fb_header b) = repeat 0 32
  | Some p => h_height (fb_header b) = h_height p + 1 /\ h_parent_id (fb_header b) = h_id p
  end.
Proof.
  intros parent txs ext r b Hp E. unfold prove_block in E.
  inv_bind E. rename b0 into tx_root, Eb into Etx. inv_bind E. destruct b0 as [pid ht]. rename Eb into Eph.
  inv_bind E. rename b0 into tree, Eb into Etree. inv_bind E. rename b0 into m, Eb into Em.
  change (decode_compact_bits 16842752) with 1 in E. change (1 =? 0) with false in E. cbv iota in E. cbn [bind] in E.
  rewrite Z.quot_1_r in E.
  inv_bind E. rename b0 into pkb, Eb into Epk. inv_bind E. rename b0 into wb, Eb into Ew.
  inv_bind E. rename b0 into o, Eb into Eo.
  apply mine_first in Eo; [|exact HN]. destruct Eo as (d & -> & Et & Hd).
  change (calc_big_n 1 ht) with (calc_big_n 1 0) in Et.
  apply try_nonce_spec in Et. destruct Et as (fs & Hfs & Ed).
  set (non := be_bytes 8 (wrapu 64 (- 2 ^ 63))) in *.
  assert (Hnon : List.length non = 8%nat) by apply be_bytes_length. clearbody non.
  inv_bind E. rename b0 into data, Eb into Edata. injection E as <-.
  set (h0 := Header 1 (repeat 0 32) pid (H (dr_ad r)) (repeat 0 33) tx_root 0 16842752 ht
                 (root_hash_special H tree) dummy_solution [0; 0; 0]) in *.
  set (s := Solution pk (Some (exponentiate ggen (dr_x r))) non (Some d)) in *.
  set (h := with_solution h0 (H (m ++ data)) s).
  cbn [fb_header fb_extension].
  assert (Uw : forall A (x : res A) y, unwrap_r x = Ok y -> x = Ok y) by (intros A [x|e|] y Ey; auto; discriminate).
  apply Uw in Em, Epk, Ew, Edata.
  assert (Hph : u32 ht /\ List.length pid = 32%nat /\
    match parent with None => ht = 1 /\ pid = repeat 0 32 | Some p => ht = h_height p + 1 /\ pid = h_id p end).
  { destruct parent as [p|].
    - destruct (Hp p eq_refl) as [P1 P2]. destruct (h_height p =? 2 ^ 32 - 1) eqn:Eh; [discriminate|].
      injection Eph as <- <-. unfold u32 in *. split; [lia|]. auto.
    - injection Eph as <- <-. unfold u32. split; [lia|]. auto. }
  destruct Hph as (Hht & Hpid & Hpar).
  unfold transactions_root in Etx. inv_bind Etx. injection Etx as <-. rename b into txt.
  assert (Etx2 : merkle_new H (map (from_bytes H) (map (fun t => H (gx_message t)) txs)) = Ok txt).
  { rewrite map_map. exact Eb. }
  assert (Eext2 : merkle_new H (map (from_bytes H) (map (fun kv : bytes * bytes => 2 :: fst kv ++ snd kv) ext)) = Ok tree).
  { rewrite map_map. exact Etree. }
  assert (Hserm : serialize_without_pow h = Ok m) by exact Em.
  assert (Hser : header_serialize h = Ok (m ++ data)).
  { unfold header_serialize. rewrite Hserm. cbn [bind]. change (h_version h) with 1. change (h_solution h) with s.
    rewrite Edata. reflexivity. }
  assert (Hdb : Zlen (to_signed_bytes_be d) < 256).
  { unfold Zlen. rewrite to_signed_length.
    assert (signed_len d <= 33)%nat; [|lia]. apply signed_len_minimal; [lia|].
    pose proof (g_ord_bound _ HG). assert (2 ^ 256 < 256 ^ Z.of_nat 33 / 2) by reflexivity. lia. }
  assert (Hwf : header_wf h).
  { constructor; try reflexivity.
    - unfold u8. cbn. lia.
    - exact Hpid.
    - apply HH.
    - exact (root_special_len _ _ _ HH Etx2).
    - unfold u64. cbn. lia.
    - unfold u32. cbn. lia.
    - exact Hht.
    - exact (root_special_len _ _ _ HH Eext2).
    - exact Hnon.
    - change (h_version h =? 1) with true. cbv iota. split; [eexists; reflexivity|]. exists d. auto. }
  split; [reflexivity|]. split; [|split; [exact Hht|split; [apply HH|exact Hpar]]].
  constructor; cbn [fb_header fb_extension]; try reflexivity.
  - exists (m ++ data). split; [exact Hser|]. split; [reflexivity|].
    destruct (c50_header_roundtrip G H HG h Hwf) as (bs & Ebs & R).
    assert (bs = m ++ data) by congruence. subst bs. exact R.
  - intros Hne. change (h_transaction_root h) with (root_hash_special H txt). rewrite (root_special _ _ _ Etx2).
    destruct txs; [congruence|]. reflexivity.
  - change (h_extension_root h) with (root_hash_special H tree). rewrite (root_special _ _ _ Eext2).
    destruct ext; reflexivity.
  - exists m, (exponentiate ggen (dr_x r)), d, pkb, wb, fs.
    split; [exact Hserm|]. split; [reflexivity|]. split; [reflexivity|]. split; [exact Epk|]. split; [exact Ew|].
    split; [lia|]. split; [exact Hfs|].
    match goal with |- _ = gop _ ?z => change z with pk end.
    rewrite !(exponentiate_pow HG), <- (gpow_mul HG), <- (gpow_add HG).
    rewrite <- (gpow_mod HG ggen (dr_x r * _)), <- (gpow_mod HG ggen (d + sk)). f_equal. subst d.
    rewrite Z.add_mod_idemp_l by (pose proof ord_pos; lia). f_equal. lia.
Qed.

(** The level of a block is that of its distance. *)
Definition low (b : full_block G) : Prop :=
  exists d, pow_distance (h_solution (fb_header b)) = Some d /\ 0 <= fl secp_order d <= 253.

Lemma low_level : forall b txs, block_ok H pk txs b -> low b -> h_height (fb_header b) <> 1 ->
  max_level_of H fl (fb_header b) = Ok (lvl H fl (fb_header b)) /\ 0 <= lvl H fl (fb_header b) <= 253.
Proof.
  intros b txs B [d [Ed Hd]] Hh. unfold lvl, max_level_of. replace (h_height (fb_header b) =? 1) with false by lia.
  rewrite (bo_bits _ _ _ _ B). change (decode_compact_bits 16842752) with 1. change (1 =? 0) with false. cbv iota.
  unfold pow_hit. rewrite (bo_version _ _ _ _ B). change (1 =? 1) with true. cbv iota. rewrite Ed.
  cbn [of_option bind]. rewrite Z.quot_1_r. auto.
Qed.

Lemma update_id32 : forall (h : header G) links l, id32 (h_id h) -> Forall id32 links ->
  update_interlinks H fl h links = Ok l -> Forall id32 l.
Proof.
  intros h links l Hh HF E. unfold update_interlinks in E. destruct (h_height h =? 1).
  - injection E as <-. constructor; auto.
  - destruct links as [|gn tl]; [discriminate|]. inv_bind E. inversion HF as [|? ? Hg Ht]; subst.
    assert (HR : forall n, Forall id32 (repeat (h_id h) n)).
    { intros n. apply Forall_forall. intros x Hx. apply repeat_spec in Hx. subst. exact Hh. }
    destruct (b =? 0); [injection E as <-; exact HF|]. destruct (b <? 0); [discriminate|].
    destruct (b <? Zlen (gn :: tl)); injection E as <-; constructor; auto.
    apply Forall_app. split; auto. apply Forall_forall. intros x Hx. rewrite Forall_forall in Ht. apply Ht.
    rewrite <- (firstn_skipn (List.length tl - Z.to_nat b) tl). apply in_or_app. left. exact Hx.
Qed.

(** Blocks that the chain [g], [pre] feeds to the next one. *)
Definition level_ok (h : header G) : Prop :=
  h_height h <> 1 /\ max_level_of H fl h = Ok (lvl H fl h) /\ 0 <= lvl H fl h <= 253.
Record state (g : header G) (pre : list (header G)) (b : full_block G) (L : list bytes) : Prop := {
  st_genesis : h_height g = 1;
  st_links : links_after H fl g pre = Ok L;
  st_next : next_links H fl (Some b) = Ok L;
  st_ids : Forall id32 L;
  st_levels : Forall level_ok pre;
  st_height : h_height (fb_header b) = 1 + Zlen pre;
  st_u32 : u32 (h_height (fb_header b));
  st_id : id32 (h_id (fb_header b)) }.

Lemma links_len : forall g pre L, h_height g = 1 -> links_after H fl g pre = Ok L -> Forall level_ok pre ->
  L <> [] /\ Zlen L <= 254.
Proof.
  intros g pre L Hg E HF.
  destruct (c45_interlinks_of_chain G H fl g pre (lvl H fl) Hg) as (links & El & HL & H0 & _).
  { intros h Hh. rewrite Forall_forall in HF. destruct (HF h Hh) as (A & B & C). split; [exact A|]. split; [exact B|lia]. }
  assert (links = L) by congruence. subst links. split.
  - intros ->. discriminate.
  - assert (HT : top_level (lvl H fl) pre <= 253).
    { clear - HF. induction HF as [|h l (_ & _ & Hh) HF IH]; cbn [top_level fold_right]; [lia|]. unfold top_level in IH. lia. }
    lia.
Qed.

Lemma step_state : forall g pre b L txs r b', state g pre b L ->
  next_block H fl sk fuel nonces (Some b) txs [] 1 r = Ok b' -> low b' ->
  state g (pre ++ [fb_header b']) b' (match links_after H fl g (pre ++ [fb_header b']) with Ok x => x | _ => [] end) /\
  block_ok H pk txs b' /\
  h_height (fb_header b') = h_height (fb_header b) + 1 /\ h_parent_id (fb_header b') = h_id (fb_header b) /\
  exists pr, to_popow H b' = Ok (PoPow (fb_header b') L pr) /\
    check_interlinks_proof H (PoPow (fb_header b') L pr) = Ok true.
Proof.
  intros g pre b L txs r b' ST E HL. destruct ST as [Sg Sl Sn Sid Slv Sh Su Si].
  unfold next_block in E. rewrite Sn in E. cbn [bind] in E.
  destruct (links_len g pre L Sg Sl Slv) as [Hne Hlen].
  destruct (c45_pack_total_partial L Hne ltac:(lia)) as [f Ef].
  destruct L as [|l0 L0]; [congruence|]. rewrite Ef in E. cbn [bind app] in E. set (L := l0 :: L0) in *.
  cbn [option_map] in E.
  destruct (prove_block_spec (Some (fb_header b)) txs f r b') as (Ee & B & Hu & Hi & Hh & Hp).
  { intros p [= <-]. split; [exact Su|exact Si]. }
  { exact E. }
  destruct (c45_pack_unpack L f [] [] Sid Ef (Forall_nil _) (Forall_nil _)) as [Un _].
  cbn [app] in Un. rewrite app_nil_r in Un.
  pose proof (Zlen_nonneg _ pre) as Hpre.
  destruct (low_level b' txs B HL ltac:(lia)) as [Lv1 Lv2].
  assert (Hlv : level_ok (fb_header b')) by (split; [lia|]; split; assumption).
  assert (HF' : Forall level_ok (pre ++ [fb_header b'])) by (apply Forall_app; split; [exact Slv|constructor; [exact Hlv|constructor]]).
  destruct (c45_interlinks_of_chain G H fl g (pre ++ [fb_header b']) (lvl H fl) Sg) as (links & El & _ & _ & _).
  { intros h Hin. rewrite Forall_forall in HF'. destruct (HF' h Hin) as (A1 & A2 & A3). split; [exact A1|]. split; [exact A2|lia]. }
  assert (Eu : update_interlinks H fl (fb_header b') L = Ok links).
  { unfold links_after in El, Sl. destruct (update_interlinks H fl g []) as [x|?|]; cbn [bind] in *; try discriminate.
    rewrite links_fold_app, Sl in El. cbn [bind links_fold] in El.
    destruct (update_interlinks H fl (fb_header b') L); cbn [bind] in El; try discriminate. exact El. }
  split; [|split; [exact B|split; [exact Hh|split; [exact Hp|]]]].
  - rewrite El. constructor; auto.
    + unfold next_links. rewrite Ee, Un, Eu. reflexivity.
    + exact (update_id32 _ _ _ Hi Sid Eu).
    + rewrite Zlen_app, Zlen_cons, Zlen_nil. lia.
  - destruct (c65_interlinks_only_partial G H (fb_header b') L f Sid Ef) as (pr & Epr & Hc).
    exists pr. split; [|exact Hc]. unfold to_popow. rewrite Ee, Epr. cbn [bind]. rewrite Un. reflexivity.
Qed.

Lemma successors_spec : forall txs rs g pre b L bs, state g pre b L ->
  successors H fl sk fuel nonces txs b rs = Ok bs -> Forall low bs ->
  List.length bs = List.length rs /\ Forall (block_ok H pk txs) bs /\
  exists ps, map_r (to_popow H) bs = Ok ps /\ map (@ph_header G) ps = map (@fb_header G) bs /\
    Forall (fun p => check_interlinks_proof H p = Ok true) ps /\
    Forall level_ok (map (@ph_header G) ps) /\
    (forall l1 a c l2, fb_header b :: map (@fb_header G) bs = l1 ++ a :: c :: l2 ->
       h_height c = h_height a + 1 /\ h_parent_id c = h_id a) /\
    (forall l1 p l2, ps = l1 ++ p :: l2 ->
       links_after H fl g (pre ++ map (@ph_header G) l1) = Ok (ph_interlinks p)).
Proof.
  intros txs. induction rs as [|r rs IH]; intros g pre b L bs ST E HL; cbn [successors] in E.
  - injection E as <-. split; [reflexivity|]. split; [constructor|]. exists []. split; [reflexivity|]. split; [reflexivity|].
    split; [constructor|]. split; [constructor|]. split.
    + intros l1 a c l2 E. destruct l1 as [|? [|? ?]]; discriminate.
    + intros l1 p l2 E. destruct l1; discriminate.
  - inv_bind E. inv_bind E. injection E as <-. rename b0 into b', b1 into bs'. inversion HL as [|? ? HL1 HL2]; subst.
    destruct (step_state _ _ _ _ _ _ _ ST Eb HL1) as (ST' & B & Hh & Hp & pr & Ep & Hc).
    destruct (IH _ _ _ _ _ ST' Eb0 HL2) as (Hlen & HB & ps & Eps & Em & HC & HLV & Hadj & Hlk).
    split; [cbn [List.length]; lia|]. split; [constructor; assumption|].
    exists (PoPow (fb_header b') L pr :: ps). cbn [map_r]. rewrite Ep. cbn [bind]. rewrite Eps. cbn [bind].
    split; [reflexivity|]. split; [cbn [map ph_header]; rewrite Em; reflexivity|].
    split; [constructor; assumption|].
    assert (Hlv' : level_ok (fb_header b')).
    { pose proof (st_levels _ _ _ _ ST') as HF. apply Forall_app in HF. destruct HF as [_ HF]. inversion HF; assumption. }
    split; [cbn [map ph_header]; constructor; assumption|]. split.
    + intros l1 a c l2 E. destruct l1 as [|x l1].
      * cbn [map app] in E. injection E as E1 E2 E3. subst a c. auto.
      * cbn [app] in E. injection E as E1 E2. exact (Hadj _ _ _ _ E2).
    + intros l1 p l2 E. destruct l1 as [|x l1].
      * cbn [app] in E. injection E as E1 E2. subst p. cbn [map ph_interlinks]. rewrite app_nil_r.
        exact (st_links _ _ _ _ ST).
      * cbn [app] in E. injection E as E1 E2. subst x. cbn [map ph_header].
        rewrite <- (Hlk _ _ _ E2), <- app_assoc. reflexivity.
Qed.

End Gen.

(** *** The stream *)

(** Every prefix of a simulated stream (whatever is drawn for its blocks) is a well-formed
    chain of mined blocks: heights 1, 2, ..., each block the parent of the next, every
    identifier the hash of the block's bytes, every block a solution of the Autolykos
    puzzle, with roots that commit to its transactions and its extension; and the blocks
    convert to superblock headers whose interlinks are those of the chain, with valid
    proofs.  [low] says that the floating-point level of a block after the first is
    between 0 and 253 (its distance is not astronomically small). *)
Theorem c118_stream_is_a_chain : forall G, group_ok G -> forall H fl sk fuel nonces txs r0 rs (bs : list (full_block G)),
  hash32 H -> (1 <= nonces)%nat ->
  block_stream H fl sk fuel nonces None txs r0 rs = Ok bs -> Forall (low fl) (tl bs) ->
  List.length bs = S (List.length rs) /\
  Forall (block_ok H (gpow ggen sk) txs) bs /\
  exists g ps, map_r (to_popow H) bs = Ok (g :: ps) /\
    map (@ph_header G) (g :: ps) = map (@fb_header G) bs /\ chain_ok H fl g ps.
Proof.
  intros G HG H fl sk fuel nonces txs r0 rs bs HH HN E HL.
  rewrite <- (exponentiate_pow HG). unfold block_stream in E.
  inv_bind E. rename b into b0. inv_bind E. rename b into bs'. injection E as <-. cbn [tl] in HL.
  unfold next_block in Eb. cbn [next_links bind option_map] in Eb.
  destruct (prove_block_spec HG H fl sk fuel nonces HH HN None txs [] r0 b0) as (Ee & B & Hu & Hi & Hh & Hp).
  { intros p; discriminate. }
  { exact Eb. }
  assert (ST : state H fl (fb_header b0) [] b0 [h_id (fb_header b0)]).
  { constructor; auto.
    - unfold links_after, update_interlinks. rewrite Hh. reflexivity.
    - unfold next_links. rewrite Ee. cbn [unpack_interlinks]. unfold update_interlinks. rewrite Hh. reflexivity. }
  destruct (successors_spec HG H fl sk fuel nonces HH HN _ _ _ _ _ _ _ ST Eb0 HL)
    as (Hlen & HB & ps & Eps & Em & HC & HLV & Hadj & Hlk).
  split; [cbn [List.length]; lia|]. split; [constructor; assumption|].
  set (g := PoPow (fb_header b0) [] {| indices := []; proofs := [] |}).
  assert (Eg : to_popow H b0 = Ok g) by (unfold to_popow; rewrite Ee; reflexivity).
  exists g, ps. cbn [map_r]. rewrite Eg. cbn [bind]. rewrite Eps. split; [reflexivity|].
  split; [cbn [map]; rewrite Em; reflexivity|]. constructor.
  - exact Hh.
  - intros l1 a b l2 E. apply (f_equal (map (@ph_header G))) in E.
    rewrite map_app in E. cbn [map] in E. rewrite Em in E. exact (Hadj _ _ _ _ E).
  - intros p Hin. rewrite Forall_forall in HLV. destruct (HLV (ph_header p)) as (_ & E & Hr).
    { apply in_map. exact Hin. }
    exists (lvl H fl (ph_header p)). split; [exact E|]. unfold i32_max. lia.
  - exact Hlk.
  - intros p [<-|Hin]; [reflexivity|]. rewrite Forall_forall in HC. exact (HC p Hin).
Qed.

(** So the prover makes a valid proof of every long enough stream. *)
Theorem c118_stream_is_provable : forall G, group_ok G -> forall H fl sk fuel nonces txs r0 rs (bs : list (full_block G)) k m,
  hash32 H -> (1 <= nonces)%nat ->
  block_stream H fl sk fuel nonces None txs r0 rs = Ok bs -> Forall (low fl) (tl bs) ->
  1 <= k -> 2 <= m -> k + m < 2 ^ 32 -> k + m <= Zlen bs ->
  exists ps p, map_r (to_popow H) bs = Ok ps /\ prove H fl ps k m = Ok p /\ is_valid H p = Ok true /\
    map (@h_id G) (skipn (List.length (np_prefix p)) (headers_chain p)) =
    map (fun b => h_id (fb_header b)) (skipn (List.length bs - Z.to_nat k) bs).
Proof.
  intros G HG H fl sk fuel nonces txs r0 rs bs k m HH HN E HL Hk Hm Hkm Hlen.
  destruct (c118_stream_is_a_chain G HG H fl sk fuel nonces txs r0 rs bs HH HN E HL) as (_ & _ & g & ps & Eps & Em & HC).
  assert (HZ : Zlen (g :: ps) = Zlen bs).
  { unfold Zlen. rewrite <- (map_length (@ph_header G)), Em, map_length. reflexivity. }
  assert (Hg : ph_interlinks g = []).
  { unfold block_stream in E. inv_bind E. inv_bind E. injection E as <-. cbn [map_r] in Eps. inv_bind Eps.
    inv_bind Eps. injection Eps as <- <-. unfold next_block in Eb. cbn [next_links bind option_map] in Eb.
    destruct (prove_block_spec HG H fl sk fuel nonces HH HN None txs [] r0 b) as (Ee & _); [intros p; discriminate|exact Eb|].
    unfold to_popow in Eb1. rewrite Ee in Eb1. cbn in Eb1. injection Eb1 as <-. reflexivity. }
  destruct (c66_prove_valid G HG H fl g ps k m HC Hk ltac:(lia) ltac:(intros ->; lia) Hkm ltac:(lia))
    as (base & suffix & p & Es & Hs & Ep & Hv & _ & _ & Hsuf & _).
  { rewrite Hg. unfold Zlen. cbn. lia. }
  exists (g :: ps), p. split; [exact Eps|]. split; [exact Ep|]. split; [exact Hv|].
  unfold headers_chain. rewrite skipn_app, skipn_all2 by (rewrite map_length; lia). cbn [app].
  rewrite map_length, Nat.sub_diag. cbn [skipn]. rewrite Hsuf.
  replace (map (fun b : full_block G => h_id (fb_header b)) (skipn (List.length bs - Z.to_nat k) bs))
    with (map (@h_id G) (skipn (List.length bs - Z.to_nat k) (map (@fb_header G) bs))).
  2: { rewrite skipn_map, map_map. reflexivity. }
  rewrite <- Em, Es, map_app, skipn_app, skipn_all2.
  - cbn [app]. rewrite map_length. replace (_ - _)%nat with 0%nat; [reflexivity|].
    unfold Zlen in *. apply (f_equal (@List.length _)) in Es. rewrite app_length in Es. lia.
  - rewrite map_length. unfold Zlen in *. apply (f_equal (@List.length _)) in Es. rewrite app_length in Es. lia.
Qed.

Lemma successors_app : forall (G : group) H fl sk fuel nonces txs rs1 rs2 (b : full_block G) bs,
  successors H fl sk fuel nonces txs b (rs1 ++ rs2) = Ok bs ->
  exists l1 l2, bs = l1 ++ l2 /\ successors H fl sk fuel nonces txs b rs1 = Ok l1 /\
    successors H fl sk fuel nonces txs (last l1 b) rs2 = Ok l2.
Proof.
  induction rs1 as [|r rs1 IH]; intros rs2 b bs E.
  - exists [], bs. auto.
  - cbn [app successors] in *. inv_bind E. inv_bind E. injection E as <-.
    destruct (IH _ _ _ Eb0) as (l1 & l2 & -> & E1 & E2).
    exists (b0 :: l1), l2. rewrite Eb. cbn [bind]. rewrite E1. cbn [bind]. split; [reflexivity|]. split; [reflexivity|].
    destruct l1 as [|x l1]; [exact E2|].
    replace (last (b0 :: x :: l1) b) with (last (x :: l1) b0); [exact E2|].
    cbn [last]. clear. revert x. induction l1 as [|y l1 IH]; intros x; [reflexivity|]. exact (IH y).
Qed.

(** A stream started from the last block of another continues it. *)
Theorem c118_stream_resumes : forall G H fl sk fuel nonces txs start r0 r0' rs1 rs2 (bs : list (full_block G)),
  block_stream H fl sk fuel nonces start txs r0 (rs1 ++ rs2) = Ok bs ->
  exists l1 b l2, bs = l1 ++ b :: l2 /\
    block_stream H fl sk fuel nonces start txs r0 rs1 = Ok (l1 ++ [b]) /\
    block_stream H fl sk fuel nonces (Some b) txs r0' rs2 = Ok (b :: l2).
Proof.
  intros G H fl sk fuel nonces txs start r0 r0' rs1 rs2 bs E. unfold block_stream in E.
  inv_bind E. inv_bind E. injection E as <-.
  destruct (successors_app _ _ _ _ _ _ _ _ _ _ _ Eb0) as (l1 & l2 & -> & E1 & E2).
  destruct (exists_last (l := b :: l1)) as [l [x Ex]]; [discriminate|].
  exists l, x, l2. split.
  { change (b :: l1 ++ l2) with ((b :: l1) ++ l2). rewrite Ex, <- app_assoc. reflexivity. }
  assert (Hx : last l1 b = x).
  { apply (f_equal (fun l => last l b)) in Ex. rewrite last_last in Ex. destruct l1; exact Ex. }
  unfold block_stream. rewrite Eb. cbn [bind]. rewrite E1. cbn [bind]. rewrite Ex. split; [reflexivity|].
  rewrite Hx in E2. rewrite E2. reflexivity.
Qed.

(** *** When the stream goes on *)

(** A hash function whose values never select index zero and never need to be hashed
    again (a random 32-byte hash fails the first with probability about 2^-21 and the
    second with a negligible one). *)
Record good_hash (H : bytes -> bytes) (q : Z) : Prop := {
  gh_len : hash32 H;
  gh_index : forall x i, (i < 32)%nat -> window (H x) i mod 2 ^ 26 <> 0;
  gh_range : forall x, be_value (H x) < 2 ^ 256 / q * q }.

Lemma map_r_total : forall A B (f : A -> res B) l, (forall a, exists b, f a = Ok b) -> exists r, map_r f l = Ok r.
Proof.
  intros A B f l Hf. induction l as [|a l [r IH]]; cbn [map_r]; [eauto|].
  destruct (Hf a) as [b ->]. cbn [bind]. rewrite IH. cbn [bind]. eauto.
Qed.

Lemma prove_block_total : forall (G : group) H sk fuel nonces parent txs ext r,
  group_ok G -> good_hash H (gord G) -> (1 <= fuel)%nat -> (1 <= nonces)%nat ->
  (forall p, parent = Some p -> 0 <= h_height p < 2 ^ 32 - 1) ->
  exists b : full_block G, prove_block H sk fuel nonces parent 1 txs 0 ext r = Ok b.
Proof.
  intros G H sk fuel nonces parent txs ext r HG [HH Hi Hr] Hf Hn Hp. unfold prove_block.
  assert (Etx : exists tr, transactions_root H txs 1 = Ok tr).
  { unfold transactions_root. destruct (c40_root_is_textbook_root H (map (tx_leaf H 1) txs)) as [t [Et _]].
    unfold tree_of in Et. rewrite map_map in Et. rewrite Et. cbn [bind]. eauto. }
  destruct Etx as [tr ->]. cbn [bind].
  assert (Eph : exists pid ht, match parent with
        | Some p => if h_height p =? 2 ^ 32 - 1 then Panic else Ok (h_id p, h_height p + 1)
        | None => Ok (repeat 0 32, 1)
        end = Ok (pid, ht) /\ u32 ht).
  { destruct parent as [p|]; [|exists (repeat 0 32), 1; split; [reflexivity|unfold u32; lia]].
    specialize (Hp p eq_refl). replace (h_height p =? 2 ^ 32 - 1) with false by lia.
    eexists; eexists. split; [reflexivity|]. unfold u32. lia. }
  destruct Eph as (pid & ht & -> & Hht). cbn [bind].
  destruct (c40_root_is_textbook_root H (map (fun kv : bytes * bytes => 2 :: fst kv ++ snd kv) ext)) as [t [Et _]].
  unfold tree_of in Et. rewrite map_map in Et. match goal with |- exists b, bind ?x _ = _ => replace x with (Ok t) by (symmetry; exact Et) end. cbn [bind]. clear Et.
  set (h0 := Header 1 (repeat 0 32) pid (H (dr_ad r)) (repeat 0 33) tr 0 16842752 ht
                 (root_hash_special H t) dummy_solution [0; 0; 0]).
  assert (Em : exists m, serialize_without_pow h0 = Ok m).
  { unfold serialize_without_pow. change (h_height h0) with ht. destruct (get_put_u32 _ Hht) as (bh & -> & _).
    change (h_timestamp h0) with 0. destruct (get_put_u64 0 ltac:(unfold u64; lia)) as (bt & -> & _).
    change (1 <? h_version h0) with false. cbn [bind put_u8]. eauto. }
  destruct Em as [m ->]. cbn [unwrap_r bind].
  change (decode_compact_bits 16842752) with 1. change (1 =? 0) with false. cbv iota. cbn [bind]. rewrite Z.quot_1_r.
  assert (Ew : forall x : G, exists b, ec_write x = Ok b) by (intros x; unfold ec_write; destruct (is_identity x); eauto).
  destruct (Ew (exponentiate ggen sk)) as [p1 E1]. destruct (Ew (exponentiate ggen (dr_x r))) as [p2 E2].
  rewrite E1, E2. cbn [unwrap_r bind].
  destruct nonces as [|n]; [lia|]. cbn [mine].
  assert (Etry : forall non, exists d,
    try_nonce (G := G) H sk fuel 1 (H m) p1 p2 (be_bytes 4 ht) (calc_big_n 1 ht) (dr_x r) non = Ok d /\ 0 <= d < gord G).
  { intros non. unfold try_nonce. change (1 =? 1) with true. cbv iota. cbn [bind].
    change (calc_big_n 1 ht) with (2 ^ 26).
    destruct (gen_indexes_cases (H (H m ++ non)) (2 ^ 26) (proj2 (HH _)) ltac:(split; reflexivity))
      as [[_ [i [Hlt Ez]]]|[l [El _]]]; [exfalso; exact (Hi _ _ Hlt Ez)|].
    rewrite El. cbn [bind].
    destruct (map_r_total _ _ (fun ix => generate_element (G := G) H fuel 1 (H m) p1 p2 (be_bytes 4 ix) (be_bytes 4 ht)) l)
      as [es ->].
    { intros ix. unfold generate_element. change (1 =? 1) with true. cbv iota. unfold numeric_hash.
      destruct fuel as [|f]; [lia|]. cbn [numeric_hash_loop].
      set (x := be_bytes 4 ix ++ calc_big_m ++ p1 ++ H m ++ p2). specialize (Hr x).
      replace (be_value (H x) <? 2 ^ 256 / gord G * gord G) with true; [eauto|]. symmetry. apply Z.ltb_lt. exact Hr. }
    cbn [bind]. eexists. split; [reflexivity|]. apply Z.mod_pos_bound.
    pose proof (Znumtheory.prime_ge_2 _ (g_prime _ HG)). lia. }
  destruct (Etry (be_bytes 8 (wrapu 64 (- 2 ^ 63)))) as [d [-> Hd]]. cbn [bind].
  replace (d <=? gord G) with true by lia.
  unfold solution_serialize. change (1 =? 1) with true. cbv iota. cbn [miner_pk pow_onetime_pk pow_distance nonce of_option].
  rewrite E1. cbn [bind of_option]. rewrite E2. cbn [bind unwrap_r of_option put_u8]. eauto.
Qed.

(** For such a hash function the stream goes on up to the largest height.  Missing: it
    does not for every hash function (see below). *)
Theorem c118_stream_goes_on_partial : forall G, group_ok G -> forall H fl sk fuel nonces txs r0 rs,
  good_hash H (gord G) -> (1 <= fuel)%nat -> (1 <= nonces)%nat ->
  (forall d, 0 <= d < gord G -> 0 <= fl secp_order d <= 253) -> Zlen rs < 2 ^ 32 - 1 ->
  exists bs : list (full_block G), block_stream H fl sk fuel nonces None txs r0 rs = Ok bs /\ Forall (low fl) bs.
Proof.
  intros G HG H fl sk fuel nonces txs r0 rs HH Hf HN Hfl Hrs.
  assert (Hdist : forall parent ext r (b : full_block G), prove_block H sk fuel nonces parent 1 txs 0 ext r = Ok b -> low fl b).
  { intros parent ext r b E. unfold prove_block in E. inv_bind E. inv_bind E. destruct b1 as [pid ht].
    inv_bind E. inv_bind E. change (decode_compact_bits 16842752) with 1 in E. change (1 =? 0) with false in E. cbv iota in E.
    cbn [bind] in E. rewrite Z.quot_1_r in E. inv_bind E. inv_bind E. inv_bind E.
    apply (mine_first HG H fl sk fuel nonces HN) in Eb5; [|exact HN]. destruct Eb5 as (d & -> & _ & Hd). inv_bind E. injection E as <-.
    exists d. split; [reflexivity|]. apply Hfl. exact Hd. }
  unfold block_stream, next_block. cbn [next_links bind option_map].
  destruct (prove_block_total G H sk fuel nonces None txs [] r0 HG HH Hf HN) as [b0 E0]; [intros p; discriminate|].
  rewrite E0. cbn [bind].
  pose proof (gh_len _ _ HH) as HH32.
  destruct (prove_block_spec HG H fl sk fuel nonces HH32 HN None txs [] r0 b0) as (Ee & B & Hu & Hid & Hh & Hp).
  { intros p; discriminate. }
  { exact E0. }
  assert (ST : state H fl (fb_header b0) [] b0 [h_id (fb_header b0)]).
  { constructor; auto.
    - unfold links_after, update_interlinks. rewrite Hh. reflexivity.
    - unfold next_links. rewrite Ee. cbn [unpack_interlinks]. unfold update_interlinks. rewrite Hh. reflexivity. }
  assert (HS : forall rs g pre (b : full_block G) L, state H fl g pre b L -> Zlen pre + Zlen rs < 2 ^ 32 - 1 ->
    exists bs, successors H fl sk fuel nonces txs b rs = Ok bs /\ Forall (low fl) bs).
  { clear rs Hrs ST. induction rs as [|r rs IH]; intros g pre b L ST Hl; cbn [successors]; [eauto|].
    rewrite Zlen_cons in Hl. pose proof (Zlen_nonneg _ rs) as Hnr. pose proof (Zlen_nonneg _ pre) as Hnp.
    assert (En : exists b', next_block H fl sk fuel nonces (Some b) txs [] 1 r = Ok b' /\ low fl b').
    { unfold next_block. rewrite (st_next _ _ _ _ _ _ ST). cbn [bind].
      destruct (links_len H fl nonces HN g pre L (st_genesis _ _ _ _ _ _ ST) (st_links _ _ _ _ _ _ ST) (st_levels _ _ _ _ _ _ ST)) as [Hne Hlen].
      destruct (c45_pack_total_partial L Hne ltac:(lia)) as [f Ef].
      destruct L as [|l0 L0]; [congruence|]. rewrite Ef. cbn [bind app option_map].
      destruct (prove_block_total G H sk fuel nonces (Some (fb_header b)) txs f r HG HH Hf HN) as [b' E'].
      { intros p [= <-]. pose proof (st_height _ _ _ _ _ _ ST). lia. }
      exists b'. split; [exact E'|]. exact (Hdist _ _ _ _ E'). }
    destruct En as [b' [E' HL']]. rewrite E'. cbn [bind].
    destruct (step_state HG H fl sk fuel nonces HH32 HN _ _ _ _ _ _ _ ST E' HL') as (ST' & _).
    destruct (IH _ _ _ _ ST') as [bs [Ebs HF]].
    { rewrite Zlen_app, Zlen_cons, Zlen_nil. lia. }
    rewrite Ebs. cbn [bind]. eexists. split; [reflexivity|]. constructor; assumption. }
  destruct (HS rs _ _ _ _ ST) as [bs [-> HF]]; [rewrite Zlen_nil; lia|]. cbn [bind].
  eexists. split; [reflexivity|]. constructor; [|exact HF]. exact (Hdist _ _ _ _ E0).
Qed.

(** The stream does not go on for every hash function: if the first nonce selects the
    table index zero, the miner panics instead of trying the next nonce. *)
Theorem c118_zero_index_refuted : exists H : bytes -> bytes, hash32 H /\
  forall (G : group) fl sk fuel nonces txs r0 rs, group_ok G -> (1 <= nonces)%nat ->
    block_stream (G := G) H fl sk fuel nonces None txs r0 rs = Panic.
Proof.
  exists (fun _ => repeat 0 32). split.
  { intros x. split; [reflexivity|]. apply Forall_forall. intros y Hy. apply repeat_spec in Hy. subst. unfold byte. lia. }
  intros G fl sk fuel nonces txs r0 rs HG HN. set (H := fun _ : bytes => repeat 0 32).
  unfold block_stream, next_block. cbn [next_links bind option_map]. unfold prove_block.
  assert (Etx : exists tr, transactions_root H txs 1 = Ok tr).
  { unfold transactions_root. destruct (c40_root_is_textbook_root H (map (tx_leaf H 1) txs)) as [t [Et _]].
    unfold tree_of in Et. rewrite map_map in Et. rewrite Et. cbn [bind]. eauto. }
  destruct Etx as [tr ->]. cbn [bind map].
  destruct (c40_root_is_textbook_root H []) as [t [Et _]]. unfold tree_of in Et. cbn [map] in Et. rewrite Et. cbn [bind].
  set (h0 := Header 1 _ _ _ _ _ _ _ _ _ _ _).
  assert (Em : exists m, serialize_without_pow h0 = Ok m).
  { unfold serialize_without_pow. subst h0. cbn [h_version h_height h_timestamp].
    destruct (get_put_u32 1 ltac:(unfold u32; lia)) as (bh & -> & _).
    destruct (get_put_u64 0 ltac:(unfold u64; lia)) as (bt & -> & _).
    cbn [bind put_u8 put_i8]. change (1 <? 1) with false. cbn [bind]. eauto. }
  destruct Em as [m ->]. cbn [unwrap_r bind].
  change (decode_compact_bits 16842752) with 1. change (1 =? 0) with false. cbv iota. cbn [bind].
  assert (Ew : forall x : G, exists b, ec_write x = Ok b) by (intros x; unfold ec_write; destruct (is_identity x); eauto).
  destruct (Ew (exponentiate ggen sk)) as [p1 ->]. destruct (Ew (exponentiate ggen (dr_x r0))) as [p2 ->].
  cbn [unwrap_r bind]. destruct nonces as [|n]; [lia|]. cbn [mine]. unfold try_nonce.
  change (1 =? 1) with true. cbv iota. cbn [bind]. change (calc_big_n 1 1) with (2 ^ 26).
  change (gen_indexes (H (H m ++ be_bytes 8 (wrapu 64 (- 2 ^ 63)))) (2 ^ 26)) with (gen_indexes (repeat 0 32) (2 ^ 26)).
  replace (gen_indexes (repeat 0 32) (2 ^ 26)) with (@Panic (list Z)) by (vm_compute; reflexivity). reflexivity.
Qed.

(** *** The hypotheses can be met *)
Definition demo_hash (x : bytes) : bytes :=
  1 :: map (fun b => 1 + b mod 255) (firstn 31 (x ++ repeat 0 31)).

Lemma demo_bytes : forall x, List.length (demo_hash x) = 32%nat /\ Forall (fun b => 1 <= b < 256) (demo_hash x).
Proof.
  intros x. unfold demo_hash. split.
  - cbn [List.length]. rewrite map_length, firstn_length, app_length, repeat_length. lia.
  - constructor; [lia|]. apply Forall_forall. intros b Hb. apply in_map_iff in Hb. destruct Hb as [y [<- _]].
    pose proof (Z.mod_pos_bound y 255). lia.
Qed.

Lemma be_value_cons : forall a l, be_value (a :: l) = a * 256 ^ Zlen l + be_value l.
Proof.
  intros a l. induction l as [|x l IH] using rev_ind; [change (Zlen (@nil Z)) with 0; unfold be_value; cbn [fold_left]; lia|].
  rewrite app_comm_cons, !be_value_snoc, IH, Zlen_app. change (Zlen [x]) with 1.
  rewrite Z.pow_add_r by (try apply Zlen_nonneg; lia). lia.
Qed.

Example c118_hyps_met : group_ok toyG /\ good_hash demo_hash (gord toyG) /\
  (forall d, 0 <= d < gord toyG -> 0 <= (fun _ d => if d <? 5 then 1 else 0) secp_order d <= 253) /\
  exists bs : list (full_block toyG),
    block_stream demo_hash (fun _ d => if d <? 5 then 1 else 0) 3 1 1 None [Gtx [1] [[2]]]
      (Draw [1] 5) [Draw [2] 6; Draw [3] 7; Draw [4] 8] = Ok bs /\
    Forall (low (fun _ d => if d <? 5 then 1 else 0)) (tl bs) /\ Zlen bs = 4.
Proof.
  assert (HGood : good_hash demo_hash (gord toyG)).
  { constructor.
    - intros x. destruct (demo_bytes x) as [HL HF]. split; [exact HL|]. eapply Forall_impl; [|exact HF].
      cbv beta. intros b Hb. unfold byte. lia.
    - intros x i Hi. destruct (demo_bytes x) as [HL HF]. unfold window.
      set (e := demo_hash x ++ firstn 3 (demo_hash x)).
      assert (He : Forall (fun b => 1 <= b < 256) e).
      { apply Forall_app. split; [exact HF|]. apply Forall_forall. intros y Hy. rewrite Forall_forall in HF. apply HF.
        rewrite <- (firstn_skipn 3 (demo_hash x)). apply in_or_app. left. exact Hy. }
      assert (Hl : List.length e = 35%nat) by (unfold e; rewrite app_length, firstn_length, HL; reflexivity).
      assert (Hw : List.length (firstn 4 (skipn i e)) = 4%nat) by (rewrite firstn_length, skipn_length; lia).
      assert (Hwf : Forall (fun b => 1 <= b < 256) (firstn 4 (skipn i e))).
      { apply Forall_forall. intros y Hy. rewrite Forall_forall in He. apply He.
        rewrite <- (firstn_skipn i e). apply in_or_app. right.
        rewrite <- (firstn_skipn 4 (skipn i e)). apply in_or_app. left. exact Hy. }
      destruct (firstn 4 (skipn i e)) as [|b0 [|b1 [|b2 [|b3 [|? ?]]]]]; try discriminate.
      change [b0; b1; b2; b3] with ([b0; b1; b2] ++ [b3]) in *. rewrite be_value_snoc.
      apply Forall_app in Hwf. destruct Hwf as [_ Hwf]. inversion Hwf; subst.
      set (v := be_value [b0; b1; b2]). clearbody v.
      intros E. apply Z.mod_divide in E; [|discriminate]. destruct E as [q E].
      change (2 ^ 26) with (256 * 262144) in E. lia.
    - intros x. destruct (demo_bytes x) as [HL HF]. unfold demo_hash in *.
      set (t := map _ _) in *.
      assert (Ht : bytes_ok t).
      { inversion HF; subst. eapply Forall_impl; [|eassumption]. cbv beta. intros b Hb. unfold byte. lia. }
      assert (Htl : Zlen t = 31) by (unfold Zlen; cbn [List.length] in HL; lia).
      pose proof (be_value_bound t Ht) as HB. rewrite Htl in HB.
      assert (Hv : be_value (1 :: t) = 256 ^ 31 + be_value t).
      { rewrite be_value_cons, Htl. lia. }
      rewrite Hv. assert (2 * 256 ^ 31 <= 2 ^ 256 / gord toyG * gord toyG) by (vm_compute; discriminate). lia. }
  assert (Hfl : forall d, 0 <= d < gord toyG -> 0 <= (fun _ d => if d <? 5 then 1 else 0) secp_order d <= 253).
  { intros d _. cbv beta. destruct (d <? 5); lia. }
  split; [exact toyG_ok|]. split; [exact HGood|]. split; [exact Hfl|].
  destruct (c118_stream_goes_on_partial toyG toyG_ok demo_hash (fun _ d => if d <? 5 then 1 else 0) 3 1 1 [Gtx [1] [[2]]]
      (Draw [1] 5) [Draw [2] 6; Draw [3] 7; Draw [4] 8] HGood ltac:(lia) ltac:(lia) Hfl ltac:(reflexivity)) as [bs [E HF]].
  exists bs. split; [exact E|]. destruct HF as [|b bs Hb HF]; [unfold block_stream in E; inv_bind E; inv_bind E; discriminate|].
  split; [exact HF|].
  destruct (c118_stream_is_a_chain toyG toyG_ok _ _ _ _ 1%nat _ _ _ _ (gh_len _ _ HGood) (le_n 1) E HF) as [HL _].
  unfold Zlen. rewrite HL. reflexivity.
Qed.

Print Assumptions c118_stream_is_a_chain.
Print Assumptions c118_stream_is_provable.
Print Assumptions c118_stream_resumes.
Print Assumptions c118_stream_goes_on_partial.
Print Assumptions c118_zero_index_refuted.
