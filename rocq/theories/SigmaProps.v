(** Properties C12-C19: verifier, soundness, proof encoding, Fiat-Shamir string,
    serialization and normalization of sigma propositions. *)
From Verif Require Import Base VlqModel VlqProofs GfModel GfProofs GfProps.
From Verif Require Import GroupModel GroupProofs GroupInstance SigmaModel SigmaSpec.
From Verif Require Import SigmaProofs VerifierProofs SoundnessProofs EncodingProofs FsProofs SbProofs.
From Coq Require Import Znumtheory.
Local Open Scope Z_scope.

(** C12: a proof is accepted exactly when it starts with the spelling of an
    accepting conversation whose root challenge is the hash of the proposition,
    the first messages and the message. *)
Theorem c12_verifier_accepts_exactly_the_relation :
  forall (G : group), group_ok G ->
  forall (H : bytes -> bytes) (s : sbool G) (message signature : bytes),
  sb_wf s -> nontrivial s -> bytes_ok signature ->
  (verify_signature H s message signature = Ok true <->
   exists t proof rest, accepting s t /\ signature = proof ++ rest /\ layout true s t proof /\
     t_chal t = firstn 24 (H (fs_string s (first_messages t) ++ message))).
Proof. intros G HG. exact (verify_iff HG). Qed.
Print Assumptions c12_verifier_accepts_exactly_the_relation.

(** On the constants the verifier returns the constant. *)
Theorem c12_verifier_on_constants : forall (G : group) H b message signature,
  verify_signature H (@Triv G b) message signature = Ok b.
Proof. reflexivity. Qed.
Print Assumptions c12_verifier_on_constants.

(** No input makes the verifier panic unless a threshold exceeds its children. *)
Theorem c12_verifier_never_panics :
  forall (G : group), group_ok G ->
  forall (H : bytes -> bytes) (s : sbool G) (message signature : bytes),
  sb_wf s -> thr_ok s -> bytes_ok signature ->
  verify_signature H s message signature <> Panic.
Proof. intros G HG. exact (verify_no_panic HG). Qed.
Print Assumptions c12_verifier_never_panics.

(** With such a threshold it does: the side condition is needed. *)
Theorem c12_threshold_above_children_panics : forall (G : group) H k (l : list (sbool G)) message signature,
  Zlen l < k -> (24 <= length signature)%nat ->
  verify_signature H (SConj (Thr k) l) message signature = Panic.
Proof.
  intros G H k l message signature Hk Hlen. unfold verify_signature, parse_sig_compute_challenges.
  destruct signature as [|b0 sg]; [simpl in Hlen; lia|].
  cbn [parse_sig]. unfold read_exact. replace (Nat.leb 24 (length (b0 :: sg))) with true
    by (symmetry; apply Nat.leb_le; auto).
  cbn [bind]. replace (Zlen l <? k) with true by lia. reflexivity.
Qed.
Print Assumptions c12_threshold_above_children_panics.

Definition toy_hash (_ : bytes) : bytes := repeat 0 32.
Definition toy_leaf (x : Z) : sbool toyG := SLeaf (@Dlog toyG (of_z 101 gt_1_101 x)).
Definition toy_tree : sbool toyG := SConj (Thr 2) [toy_leaf 5; SConj Or [toy_leaf 7; toy_leaf 9]; toy_leaf 11].
Definition toy_sig : bytes :=
  repeat 0 24 ++ repeat 0 24 ++ be_bytes 32 3 ++ (repeat 0 24 ++ be_bytes 32 4 ++ be_bytes 32 6) ++ be_bytes 32 8.
Example c12_hyps_met : sb_wf toy_tree /\ nontrivial toy_tree /\ thr_ok toy_tree /\ bytes_ok toy_sig /\
  verify_signature toy_hash toy_tree [1; 2] toy_sig = Ok true /\
  verify_signature (fun _ => repeat 1 32) toy_tree [1; 2] toy_sig = Ok false.
Proof.
  assert (B : bytes_ok toy_sig).
  { apply Forall_forall. intros x Hx.
    assert (E : forallb (fun b => (0 <=? b) && (b <? 256)) toy_sig = true) by (vm_compute; reflexivity).
    rewrite forallb_forall in E. apply E in Hx. unfold byte. lia. }
  repeat split; try exact B; try (vm_compute; reflexivity); vm_compute; discriminate.
Qed.

(** C13: special soundness.  From two accepting conversations with the same first
    messages and different root challenges, the function [extract] computes
    witnesses that suffice for the proposition. *)
Theorem c13_special_soundness :
  forall (G : group), group_ok G -> 2 ^ 192 < gord G ->
  forall (s : sbool G) t1 t2, sb_wf s ->
  accepting s t1 -> accepting s t2 -> first_messages t1 = first_messages t2 ->
  t_chal t1 <> t_chal t2 ->
  provable (fun p => exists w, In (p, w) (extract s t1 t2)) s /\
  (forall p w, In (p, w) (extract s t1 t2) -> witness p w).
Proof.
  intros G HG Hq s t1 t2 Hwf A1 A2 HF HC. split.
  - apply provable_mono with (K := extracted s t1 t2).
    + intros p (w & Hin & _). exists w. exact Hin.
    + apply (special_soundness HG Hq s Hwf); auto.
  - apply (extract_sound HG Hq s t1 t2 A1 A2 HF).
Qed.
Print Assumptions c13_special_soundness.

(** Two conversations about one leaf of a group larger than [2^192], with the
    secret recovered. *)
Definition big_leaf : leaf bigG := Dlog (gpow ggen 5).
Definition big_t (c : Z) : transcript bigG :=
  TLeaf (FDlog (gpow ggen 3)) (repeat 0 23 ++ [c]) (3 + 5 * c).
Example c13_hyps_met :
  group_ok bigG /\ 2 ^ 192 < gord bigG /\ sb_wf (SLeaf big_leaf) /\
  accepting (SLeaf big_leaf) (big_t 1) /\ accepting (SLeaf big_leaf) (big_t 2) /\
  first_messages (big_t 1) = first_messages (big_t 2) /\ t_chal (big_t 1) <> t_chal (big_t 2).
Proof.
  split; [exact bigG_ok|]. split; [exact bigG_large|]. split; [exact I|].
  assert (A : forall c, 1 <= c <= 2 -> accepting (SLeaf big_leaf) (big_t c)).
  { intros c Hc. cbn [accepting big_t]. split.
    - split; [reflexivity|]. apply Forall_app. split.
      + apply Forall_forall. intros x Hx. apply repeat_spec in Hx. subst. split; lia.
      + repeat constructor; lia.
    - split.
      + split; [lia|]. apply Z.lt_trans with 100; [lia|reflexivity].
      + unfold leaf_accepts, big_leaf. rewrite be_value_zeros.
        replace (be_value [c]) with c by (unfold be_value; simpl; lia).
        rewrite (gpow_add bigG_ok), (gpow_mul bigG_ok). reflexivity. }
  split; [apply A; lia|]. split; [apply A; lia|]. split; [reflexivity|discriminate].
Qed.

(** C14: the simulated first message is the one the verifier reconstructs, so the
    simulated conversation is accepting. *)
Theorem c14_simulated_leaf_verifies : forall (G : group), group_ok G ->
  forall (p : leaf G) e z,
  compute_commitment p e z = simulate p e z /\ leaf_accepts p (simulate p e z) e z.
Proof.
  intros G HG p e z. split; [symmetry; apply (simulate_accepts HG)|].
  apply (leaf_accepts_iff HG). apply (simulate_accepts HG).
Qed.
Print Assumptions c14_simulated_leaf_verifies.

(** The simulated conversation for response [z] is the real conversation for
    exactly one choice of the prover's randomness, so for a fixed challenge both
    are uniform over the same set. *)
Theorem c14_simulation_matches_real : forall (G : group), group_ok G ->
  forall (p : leaf G) w e z, witness p w -> @scalar_ok G z ->
  exists r, @scalar_ok G r /\ first_message p r = simulate p e z /\ @second_message G w r e = z /\
    forall r', @scalar_ok G r' -> @second_message G w r' e = z -> r' = r.
Proof.
  intros G HG p w e z Hw Hz. pose proof (q_pos HG) as Hq. unfold scalar_ok in *.
  set (r := (z - (@chal_scalar G e * w) mod gord G) mod gord G).
  assert (Hr : 0 <= r < gord G) by (apply Z.mod_pos_bound; auto).
  assert (Hs : @second_message G w r e = z).
  { unfold second_message, r. rewrite Z.add_mod_idemp_l by lia.
    replace (z - (@chal_scalar G e * w) mod gord G + (@chal_scalar G e * w) mod gord G) with z by lia.
    apply Z.mod_small. auto. }
  exists r. split; [auto|]. split; [|split; [auto|]].
  - pose proof (second_message_accepts HG p w r e Hw) as A. rewrite Hs in A.
    apply (leaf_accepts_iff HG) in A. rewrite A. symmetry. apply (simulate_accepts HG).
  - intros r' Hr' Hs'. unfold second_message in Hs, Hs'. rewrite <- Hs in Hs'.
    assert (E : (r' + (@chal_scalar G e * w) mod gord G - (@chal_scalar G e * w) mod gord G) mod gord G =
                (r + (@chal_scalar G e * w) mod gord G - (@chal_scalar G e * w) mod gord G) mod gord G).
    { rewrite Zminus_mod, Hs', <- Zminus_mod. reflexivity. }
    replace (r' + (@chal_scalar G e * w) mod gord G - (@chal_scalar G e * w) mod gord G) with r' in E by lia.
    replace (r + (@chal_scalar G e * w) mod gord G - (@chal_scalar G e * w) mod gord G) with r in E by lia.
    rewrite !Z.mod_small in E by auto. exact E.
Qed.
Print Assumptions c14_simulation_matches_real.

Example c14_hyps_met : group_ok toyG /\ witness (Dlog (gpow (@ggen toyG) 5)) 5 /\ @scalar_ok toyG 77.
Proof. split; [exact toyG_ok|]. split; [reflexivity|split; [discriminate|reflexivity]]. Qed.

(** C15: the encoding of a proof tree decodes, against the same proposition and
    whatever follows, to the same tree (the commitments are not transmitted). *)
Theorem c15_proof_encoding_roundtrip : forall (G : group), group_ok G ->
  forall (s : sbool G) (u : utree G), sb_wf s -> consistent s u ->
  exists bs, serialize_sig u = Ok bs /\ bytes_ok bs /\
    forall rest, parse_sig s None (bs ++ rest) = Ok (forget u, rest).
Proof. intros G HG. exact (sig_roundtrip HG). Qed.
Print Assumptions c15_proof_encoding_roundtrip.

Definition toy_utree : utree toyG :=
  UConj UAnd (repeat 7 24)
    [ ULeaf (@Dlog toyG (of_z 101 gt_1_101 5)) None (repeat 7 24) 50;
      UConj UOr (repeat 7 24)
        [ ULeaf (@Dlog toyG (of_z 101 gt_1_101 6)) None (repeat 3 24) 1;
          ULeaf (@Dlog toyG (of_z 101 gt_1_101 7)) None (repeat 4 24) 100 ] ].
Example c15_hyps_met :
  sb_wf (SConj And [toy_leaf 5; SConj Or [toy_leaf 6; toy_leaf 7]]) /\
  consistent (SConj And [toy_leaf 5; SConj Or [toy_leaf 6; toy_leaf 7]]) toy_utree.
Proof.
  assert (C : forall b, 0 <= b < 256 -> chal_ok (repeat b 24)).
  { intros b Hb. split; [reflexivity|]. apply Forall_forall. intros x Hx. apply repeat_spec in Hx.
    subst; exact Hb. }
  split; [repeat split; vm_compute; discriminate|].
  cbn [consistent toy_utree toy_leaf all2 map u_chal].
  repeat match goal with
  | |- _ /\ _ => split
  | |- chal_ok _ => apply C; lia
  | |- True => exact I
  | |- _ = _ => reflexivity
  | |- Forall _ _ => repeat constructor
  | |- @scalar_ok _ _ => split; [discriminate|reflexivity]
  end.
Qed.

(** C16: the hashed string followed by the message determines the proposition,
    every first message and the message. *)
Theorem c16_fiat_shamir_injective : forall (G : group), group_ok G ->
  forall (s s' : sbool G) c c' message message',
  sb_wf s -> sb_wf s' -> fits s c -> fits s' c' ->
  fs_string s c ++ message = fs_string s' c' ++ message' ->
  s = s' /\ c = c' /\ message = message'.
Proof. intros G HG. exact (fs_string_inj HG). Qed.
Print Assumptions c16_fiat_shamir_injective.

(** The string the verifier hashes is that string. *)
Theorem c16_verifier_hashes_that_string : forall (G : group), group_ok G ->
  forall (s : sbool G) u, sb_wf s -> consistent s u ->
  exists c, fits s c /\ fs_write_u (compute_commitments u) = Ok (fs_string s c).
Proof.
  intros G HG s u Hwf Hc. destruct (consistent_accepting HG s u Hc) as [HM HA].
  exists (first_messages (tr u)). split; [|apply (fs_tr HG); auto].
  clear - HA. revert HA. generalize (tr u). revert s.
  apply (sbool_ind' (fun s => forall t, accepting s t -> fits s (first_messages t))).
  - intros b t H. destruct t; simpl in H; tauto.
  - intros p [|] H; simpl in *; tauto.
  - intros c l IH [|e cs ts] H; simpl in H; [tauto|]. destruct H as (_ & H & _).
    cbn [fits first_messages]. revert ts H.
    induction l as [|x l IHl]; intros [|t ts] H; simpl in H; try tauto. inversion IH; subst.
    simpl. split; [apply H2; tauto|apply IHl; tauto].
Qed.
Print Assumptions c16_verifier_hashes_that_string.

Example c16_hyps_met : sb_wf toy_tree /\
  fits toy_tree (CNode [CLeaf (FDlog gid); CNode [CLeaf (FDlog gid); CLeaf (FDht ggen gid)]; CLeaf (FDlog ggen)]).
Proof. repeat split; vm_compute; discriminate. Qed.

(** C17 is false: bytes appended to any accepted proof are ignored, *)
Theorem c17_proof_bytes_unique_refuted :
  (forall (G : group), group_ok G -> forall H (s : sbool G) message signature extra,
    sb_wf s -> nontrivial s -> bytes_ok signature -> bytes_ok extra ->
    verify_signature H s message signature = Ok true ->
    verify_signature H s message (signature ++ extra) = Ok true) /\
  (exists (s : sbool toyG) message signature,
    verify_signature toy_hash s message signature = Ok true /\
    verify_signature toy_hash s message (signature ++ [1]) = Ok true).
Proof.
  split.
  - intros G HG H s message signature extra Hwf Hnt Hb He HV.
    apply (verify_iff HG) in HV; auto. destruct HV as (t & b1 & rest & A & -> & L & C).
    apply (verify_iff HG); auto; [apply bytes_ok_app; auto|].
    exists t, b1, (rest ++ extra). rewrite <- app_assoc. auto.
  - exists toy_tree, [1; 2], toy_sig. split; vm_compute; reflexivity.
Qed.
Print Assumptions c17_proof_bytes_unique_refuted.

(** and a response may be replaced by another number congruent modulo the order. *)
Theorem c17_response_representation_refuted :
  exists (s : sbool toyG) message sig1 sig2, length sig1 = length sig2 /\ sig1 <> sig2 /\
    verify_signature toy_hash s message sig1 = Ok true /\
    verify_signature toy_hash s message sig2 = Ok true.
Proof.
  exists (toy_leaf 5), [], (repeat 0 24 ++ be_bytes 32 3), (repeat 0 24 ++ be_bytes 32 104).
  split; [reflexivity|]. split; [vm_compute; discriminate|]. split; vm_compute; reflexivity.
Qed.
Print Assumptions c17_response_representation_refuted.

(** What remains: re-encoding the decoded proof gives a canonical proof, still
    accepted, that decodes to the same tree.  Missing: that the verifier insists on
    the canonical bytes. *)
Theorem c17_canonical_form_partial : forall (G : group), group_ok G ->
  forall H (s : sbool G) message signature,
  sb_wf s -> nontrivial s -> bytes_ok signature ->
  verify_signature H s message signature = Ok true ->
  exists u canonical, parse_sig_compute_challenges s signature = Ok u /\
    serialize_sig u = Ok canonical /\
    verify_signature H s message canonical = Ok true /\
    parse_sig_compute_challenges s canonical = Ok u.
Proof.
  intros G HG H s message signature Hwf Hnt Hb HV.
  apply (verify_iff HG) in HV; auto. destruct HV as (t & b1 & rest & A & -> & L & C).
  destruct (parse_complete HG s Hwf t true b1 rest A L) as (u & HP & HT & HM). cbv iota in HP.
  rewrite <- HT in A. destruct (sig_write_layout HG s Hwf u HM A true) as (cn & W & B & L2).
  exists u, cn.
  assert (NE : b1 <> []) by (rewrite HT in A; eapply layout_nonempty; eauto).
  assert (NE2 : cn <> []) by (eapply layout_nonempty; eauto).
  split.
  { unfold parse_sig_compute_challenges. destruct b1; [congruence|].
    cbn [app] in *. rewrite HP. reflexivity. }
  split; [exact W|]. split.
  { apply (verify_iff HG); auto. exists (tr u), cn, []. rewrite app_nil_r. split; auto. split; auto.
    split; auto. rewrite HT. auto. }
  destruct (parse_complete HG s Hwf (tr u) true cn [] A L2) as (u2 & HP2 & HT2 & HM2).
  cbv iota in HP2. rewrite app_nil_r in HP2.
  assert (E : u2 = u).
  { rewrite <- (parse_forget s _ _ _ _ HP), <- (parse_forget s _ _ _ _ HP2).
    apply tr_forget_inj with s; auto. }
  unfold parse_sig_compute_challenges. destruct cn; [congruence|]. rewrite HP2, E. reflexivity.
Qed.
Print Assumptions c17_canonical_form_partial.

(** C18 *)
Theorem c18_sigma_proposition_roundtrip : forall (G : group), group_ok G ->
  forall (s : sbool G), sb_wf s -> forall fuel, (depth s <= fuel)%nat ->
  roundtrip sb_write (sb_read fuel) s.
Proof. intros G HG. exact (sb_roundtrip HG). Qed.
Print Assumptions c18_sigma_proposition_roundtrip.

(** Whatever bytes are parsed, the result respects the bounds on item counts and
    thresholds, hence round trips. *)
Theorem c18_parsed_is_well_formed : forall (G : group) fuel bs (s : sbool G) rest,
  sb_read fuel bs = Ok (s, rest) -> sb_wf s.
Proof. intros G. exact sb_read_wf. Qed.
Print Assumptions c18_parsed_is_well_formed.

Example c18_hyps_met : sb_wf toy_tree /\ (depth toy_tree <= 3)%nat /\
  exists bs, sb_write toy_tree = Ok bs /\ sb_read 3 (bs ++ [9]) = Ok (toy_tree, [9]).
Proof.
  assert (W : sb_wf toy_tree) by (repeat split; vm_compute; discriminate).
  assert (D : (depth toy_tree <= 3)%nat) by (vm_compute; auto).
  split; [exact W|]. split; [exact D|].
  destruct (sb_roundtrip toyG_ok toy_tree W 3 D) as (bs & H1 & H2). exists bs. auto.
Qed.

(** C19: AND, OR and threshold normalization. *)
Theorem c19_and_or_normalization : forall (G : group) (l : list (sbool G)), items_len_ok l ->
  (exists s', cand_normalized l = Ok s' /\ (Forall normal l -> normal s') /\
     forall K, provable K s' <-> provable K (SConj And l)) /\
  (exists s', cor_normalized l = Ok s' /\ (Forall normal l -> normal s') /\
     forall K, provable K s' <-> provable K (SConj Or l)).
Proof.
  intros G l Hl. unfold items_len_ok in Hl. split.
  - destruct (cand_normalized_spec l) as (s' & E & N & P); [lia|]. exists s'. split; auto. split; auto.
    intros K. rewrite P. cbn [provable]. symmetry. apply fold_and_Forall.
  - destruct (cor_normalized_spec l) as (s' & E & N & P); [lia|]. exists s'. split; auto. split; auto.
    intros K. rewrite P. cbn [provable]. symmetry. apply fold_or_Exists.
Qed.
Print Assumptions c19_and_or_normalization.

Theorem c19_threshold_normalization : forall (G : group) k (l : list (sbool G)), u8 k -> items_len_ok l ->
  exists s', cthreshold_reduce k l = Ok s' /\ (Forall normal l -> normal s') /\
    forall K, provable K s' <-> provable K (SConj (Thr k) l).
Proof. intros G k l Hk Hl. exact (cthreshold_reduce_spec k l Hk Hl). Qed.
Print Assumptions c19_threshold_normalization.

Example c19_hyps_met : u8 2 /\ items_len_ok [toy_leaf 1; Triv true; toy_leaf 2] /\
  cthreshold_reduce 2 [toy_leaf 1; Triv true; toy_leaf 2] = Ok (SConj Or [toy_leaf 1; toy_leaf 2]).
Proof. repeat split; vm_compute; discriminate || reflexivity. Qed.
