(** Properties C40-C44: Merkle trees and their proofs. *)
From Coq Require Import Sorted.
From Verif Require Import Base VlqModel VlqProofs MerkleModel MerkleSpec MerkleProofs BatchProofs.
Local Open Scope nat_scope.

(** A tree built from leaf data, as users build it. *)
Definition tree_of (H : bytes -> bytes) (ls : list bytes) : res mtree :=
  merkle_new H (map (from_bytes H) ls).

(** ** C40 *)

(** The array construction computes the textbook root, for every number of leaves,
    and never reaches its [unreachable!()]. *)
Theorem c40_root_is_textbook_root : forall H ls,
  exists t, tree_of H ls = Ok t /\ root_hash t = merkle_root H ls.
Proof.
  intros H ls. destruct ls as [|x ls].
  - eexists. split; [reflexivity|]. reflexivity.
  - destruct (merkle_new_spec H (x :: ls) ltac:(discriminate)) as [t [E [Hok _]]].
    exists t. split; [exact E|]. apply tree_root; [discriminate|exact Hok].
Qed.
Print Assumptions c40_root_is_textbook_root.

(** Every leaf position yields a proof that carries that leaf's data and validates
    against the root; positions past the end yield none. *)
Theorem c40_proofs_complete : forall H ls t, tree_of H ls = Ok t ->
  forall j,
    match nth_error ls j with
    | Some data =>
        exists p, proof_by_index t j = Ok (Some p) /\ leaf_data p = data /\
                  proof_valid H p (root_hash t) = true
    | None => proof_by_index t j = Ok None
    end.
Proof.
  intros H ls t Et j. destruct ls as [|x0 ls0].
  { unfold tree_of in Et. simpl in Et. injection Et as <-. destruct j; reflexivity. }
  set (ls := x0 :: ls0) in *. assert (Hne : ls <> []) by discriminate. clearbody ls.
  destruct (merkle_new_spec H ls Hne) as [t' [E [Hok _]]].
  unfold tree_of in Et. rewrite E in Et. injection Et as <-.
  rewrite (proof_by_index_spec H ls t' j Hne Hok).
  destruct (nth_error ls j) as [x|] eqn:Ex; [|reflexivity].
  eexists. split; [reflexivity|]. split; [reflexivity|].
  unfold proof_valid. simpl. apply bytes_eqb_spec.
  rewrite fold_level_spec, map_map.
  rewrite (map_ext _ (fun s => s)) by (intros; apply to_of_step). rewrite map_id.
  rewrite (tree_root H ls t' Hne Hok). unfold merkle_root.
  assert (Hj : j < length ls) by (apply nth_error_Some; congruence).
  pose proof (height_bound H ls Hne). rewrite padded_length in H0.
  rewrite (tpath_root H (height (length ls)) j ls x Ex); [reflexivity|].
  destruct (Nat.odd (length ls)); lia.
Qed.
Print Assumptions c40_proofs_complete.

(** Looking up by data: the proof is for a leaf with the same leaf hash. *)
Lemma index_fold_find : forall (l : list (nat * bytes)) acc h,
  index_get (fold_left (fun m '(i, h) => (h, i) :: m) l acc) h =
  match find (fun p => bytes_eqb (snd p) h) (rev l) with
  | Some (i, _) => Some i
  | None => index_get acc h
  end.
Proof.
  induction l as [|[i k] l IH]; intros acc h; simpl; auto.
  rewrite IH. clear IH.
  assert (HF : forall q, find (fun p => bytes_eqb (snd p) h) (q ++ [(i, k)]) =
     match find (fun p => bytes_eqb (snd p) h) q with
     | Some x => Some x | None => if bytes_eqb k h then Some (i, k) else None end).
  { induction q as [|y q IHq]; simpl; auto. destruct (bytes_eqb (snd y) h); auto. }
  rewrite HF. destruct (find _ (rev l)) as [[i' k']|]; auto.
  unfold index_get at 1. simpl. destruct (bytes_eqb k h); auto.
Qed.

Lemma enumerate_in : forall A (l : list A) k i a,
  In (i, a) (enumerate k l) <-> k <= i /\ nth_error l (i - k) = Some a.
Proof.
  induction l as [|b l IH]; intros k i a; simpl.
  - split; [tauto|]. intros [_ E]. destruct (i - k); discriminate.
  - rewrite IH. split.
    + intros [E|[Hle E]].
      * injection E as <- <-. split; [lia|]. rewrite Nat.sub_diag. reflexivity.
      * split; [lia|]. replace (i - k) with (S (i - S k)) by lia. exact E.
    + intros [Hle E]. destruct (i - k) as [|d] eqn:Ed.
      * simpl in E. injection E as <-. left. f_equal. lia.
      * right. split; [lia|]. replace (i - S k) with d by lia. exact E.
Qed.

Theorem c40_lookup_by_data : forall H ls t data, tree_of H ls = Ok t -> In data ls ->
  exists p, proof_by_element H t data = Ok (Some p) /\
    In (leaf_data p) ls /\ H (leaf_string (leaf_data p)) = H (leaf_string data) /\
    proof_valid H p (root_hash t) = true.
Proof.
  intros H ls t data Et Hin.
  assert (Hne : ls <> []) by (intros ->; destruct Hin).
  destruct (merkle_new_spec H ls Hne) as [t' [E [Hok HI]]].
  assert (t' = t) by (unfold tree_of in Et; congruence). subst t'.
  unfold proof_by_element, proof_by_element_hash. rewrite HI, index_fold_find.
  change (prefixed_hash H LEAF_PREFIX data) with (H (leaf_string data)).
  destruct (find _ _) as [[i k]|] eqn:F.
  - apply find_some in F. destruct F as [Hi Hk]. simpl in Hk. apply bytes_eqb_spec in Hk.
    apply in_rev in Hi. apply enumerate_in in Hi. destruct Hi as [_ Hi]. rewrite Nat.sub_0_r in Hi.
    rewrite nth_error_map in Hi. destruct (nth_error ls i) as [x|] eqn:Ex; [|discriminate].
    simpl in Hi. injection Hi as Hi.
    pose proof (c40_proofs_complete H ls t Et i) as HC. rewrite Ex in HC.
    destruct HC as [p [Ep [Hd Hv]]]. exists p. split; auto. rewrite Hd.
    split; [eapply nth_error_In; eauto|]. split; [congruence|auto].
  - exfalso. destruct (In_nth_error _ _ Hin) as [i Ei].
    assert (HE : In (i, H (leaf_string data)) (rev (enumerate 0 (map (fun x => H (leaf_string x)) ls)))).
    { apply in_rev. rewrite rev_involutive. apply enumerate_in. split; [lia|].
      rewrite Nat.sub_0_r. apply map_nth_error with (f := fun x => H (leaf_string x)) in Ei. exact Ei. }
    pose proof (find_none _ _ F _ HE) as HN. simpl in HN. rewrite bytes_eqb_refl in HN. discriminate.
Qed.
Print Assumptions c40_lookup_by_data.

(** A toy hash with 32-byte output, for concrete cases: sums with positional weights. *)
Definition toyH (bs : bytes) : bytes :=
  let s := fold_left (fun a b => (a * 257 + b + 1) mod 1000003)%Z bs 7%Z in
  [s / 65536; (s / 256) mod 256; s mod 256]%Z ++ repeat 5%Z 29.

Example c40_hyps_met : exists t, tree_of toyH [[1%Z]; [2%Z; 3%Z]; []; [4%Z]; [5%Z]] = Ok t /\
  internal_nodes t = 7 /\
  proof_by_index t 4 = Ok (Some {| leaf_data := [5%Z];
     levels := match proof_by_index t 4 with Ok (Some p) => levels p | _ => [] end |}) /\
  match proof_by_index t 4 with
  | Ok (Some p) => map (fun n => match ln_hash n with None => true | _ => false end) (levels p)
  | _ => [] end = [true; true; false].
Proof. eexists. split; [vm_compute; reflexivity|]. vm_compute. repeat split. Qed.

(** ** C41 *)

(** A validating proof is, up to the ignored side of an absent sibling, the one the
    tree itself issues for one of its leaves - provided the hash function does not
    collide on the strings hashed for this tree and this proof. *)
Theorem c41_proofs_sound : forall H ls t p,
  (forall x, length (H x) = 32) ->
  ls <> [] -> tree_of H ls = Ok t ->
  Forall (fun n => forall h, ln_hash n = Some h -> length h = 32) (levels p) ->
  proof_valid H p (root_hash t) = true ->
  no_collision H (tree_strings H ls ++ leaf_string (leaf_data p)
     :: path_strings H (H (leaf_string (leaf_data p))) (map to_step (levels p))) ->
  exists j p', nth_error ls j = Some (leaf_data p) /\
    proof_by_index t j = Ok (Some p') /\
    same_path (map to_step (levels p)) (map to_step (levels p')).
Proof.
  intros H ls t p HL Hne Et Hp Hv Hnc.
  destruct (merkle_new_spec H ls Hne) as [t' [E [Hok _]]].
  assert (t' = t) by (unfold tree_of in Et; congruence). subst t'.
  unfold proof_valid in Hv. apply bytes_eqb_spec in Hv. rewrite fold_level_spec in Hv.
  rewrite (tree_root H ls t Hne Hok) in Hv. unfold merkle_root in Hv.
  destruct (troot H (height (length ls)) ls) as [r|] eqn:Er.
  2: { apply troot_none in Er. congruence. }
  rewrite <- Hv in Er. change (prefixed_hash H 0 (leaf_data p)) with (H (leaf_string (leaf_data p))) in Er.
  destruct (fun a => path_sound H HL _ _ (leaf_data p) (map to_step (levels p)) a Er Hnc)
    as [j [Hj [Hn Hsp]]].
  - apply Forall_map. eapply Forall_impl; [|exact Hp]. intros n Hn. exact Hn.
  - exists j. rewrite (proof_by_index_spec H ls t j Hne Hok), Hn. eexists.
    split; [reflexivity|]. split; [reflexivity|]. simpl. rewrite map_map.
    rewrite (map_ext _ (fun s => s)) by (intros; apply to_of_step). rewrite map_id. exact Hsp.
Qed.
Print Assumptions c41_proofs_sound.

(** The headline form: the data is one of the leaves. *)
Theorem c41_data_is_a_leaf : forall H ls t p,
  (forall x, length (H x) = 32) ->
  ls <> [] -> tree_of H ls = Ok t ->
  Forall (fun n => forall h, ln_hash n = Some h -> length h = 32) (levels p) ->
  proof_valid H p (root_hash t) = true ->
  no_collision H (tree_strings H ls ++ leaf_string (leaf_data p)
     :: path_strings H (H (leaf_string (leaf_data p))) (map to_step (levels p))) ->
  In (leaf_data p) ls.
Proof.
  intros. destruct (c41_proofs_sound H ls t p) as [j [p' [E _]]]; auto.
  eapply nth_error_In; eauto.
Qed.
Print Assumptions c41_data_is_a_leaf.

Example c41_hyps_met :
  let ls := [[1%Z]; [2%Z; 3%Z]; []] in
  exists t p, (forall x, length (toyH x) = 32) /\ tree_of toyH ls = Ok t /\
    Forall (fun n => forall h, ln_hash n = Some h -> length h = 32) (levels p) /\
    proof_valid toyH p (root_hash t) = true /\
    no_collision toyH (tree_strings toyH ls ++ leaf_string (leaf_data p)
     :: path_strings toyH (toyH (leaf_string (leaf_data p))) (map to_step (levels p))).
Proof.
  intros ls.
  assert (HT : exists t, tree_of toyH ls = Ok t) by (eexists; vm_compute; reflexivity).
  destruct HT as [t Et]. exists t.
  pose proof (c40_proofs_complete toyH ls t Et 2) as HC.
  change (nth_error ls 2) with (Some (@nil Z)) in HC. destruct HC as [p [Ep [Hd Hv]]]. exists p.
  split; [intros; reflexivity|]. split; auto.
  vm_compute in Et. injection Et as <-. vm_compute in Ep. injection Ep as <-.
  split; [repeat constructor; intros h Eh; inversion Eh; reflexivity|]. split; auto.
  intros x y Hx Hy. vm_compute in Hx, Hy.
  repeat (destruct Hx as [<-|Hx]); try (destruct Hx);
  repeat (destruct Hy as [<-|Hy]); try (destruct Hy); intros E; try reflexivity; vm_compute in E; discriminate.
Qed.

(** ** C42 *)

Theorem c42_multiproofs_complete : forall H ls t idx, tree_of H ls = Ok t ->
  idx <> [] -> (forall i, In i idx -> i < length ls) ->
  exists p, proof_by_indices t idx = Ok (Some p) /\
    batch_valid H p (root_hash t) = true /\
    (forall i h, In {| bi_index := i; bi_hash := h |} (indices p) <->
       In i idx /\ exists d, nth_error ls i = Some d /\ h = H (leaf_string d)).
Proof.
  intros H ls t idx Et Hidx Hlt.
  assert (Hne : ls <> []).
  { intros ->. destruct idx as [|i idx]; [congruence|]. specialize (Hlt i (or_introl eq_refl)). simpl in Hlt. lia. }
  destruct (merkle_new_spec H ls Hne) as [t' [E [Hok _]]].
  assert (t' = t) by (unfold tree_of in Et; congruence). subst t'.
  pose proof (tree_root H ls t Hne Hok) as Hroot.
  pose proof (height_bound H ls Hne) as Hb. pose proof (height_pos (length ls)) as HD.
  set (D := height (length ls)) in *.
  pose proof Hok as [HI [HL [Hlf Hh]]].
  set (A := set_of idx).
  assert (HA : StronglySorted lt A) by apply set_of_ss.
  assert (HAi : forall i, In i A <-> In i idx) by (intros; apply set_of_in).
  assert (HAne : A <> []).
  { destruct idx as [|i idx]; [congruence|]. intros EA.
    assert (In i A) by (apply HAi; left; auto). rewrite EA in H0. destruct H0. }
  assert (Hleaf : forall i, In i A -> exists d, nth_error ls i = Some d /\
     nth_error (nodes t) (2 ^ D - 1 + i) = Some (from_bytes H d) /\
     val H D ls D i = Some (H (leaf_string d)) /\ i < 2 ^ D).
  { intros i Hi. apply HAi, Hlt in Hi.
    assert (i < 2 ^ D) by (rewrite padded_length in Hb; destruct (Nat.odd (length ls)); lia).
    destruct (nth_error ls i) as [d|] eqn:Ed; [|apply nth_error_None in Ed; lia].
    exists d. split; auto. split.
    - rewrite Hlf, padded_nth, Ed. reflexivity.
    - split; auto. unfold val. rewrite nspec_leaf by auto. rewrite Ed. reflexivity. }
  assert (Hrow : row_ok H D ls D A).
  { split; auto. split; auto. intros q Hq. destruct (Hleaf q Hq) as [d [_ [_ [E1 E2]]]]. eauto. }
  unfold proof_by_indices. fold A. rewrite HI.
  replace (match A with [] => true | _ => false end) with false by (destruct A; congruence).
  replace (existsb _ A) with false.
  2: { symmetry. apply Bool.not_true_is_false. intros Hex. apply existsb_exists in Hex.
       destruct Hex as [i [Hi Hx]]. destruct (Hleaf i Hi) as [d [_ [En _]]]. rewrite En in Hx. discriminate. }
  cbn [orb]. unfold build_multiproof.
  assert (HS : set_of (map (fun i => i + (2 ^ D - 1)) A) = map (fun q => 2 ^ D - 1 + q) A).
  { apply ss_unique; [apply set_of_ss|apply ss_map_add, HA|].
    intros x. rewrite set_of_in, !in_map_iff. split; intros [q [Eq Hq]]; exists q; split; auto; lia. }
  rewrite HS.
  assert (Hfuel : D <= length (nodes t)).
  { rewrite HL. pose proof (Nat.pow_gt_lin_r 2 D ltac:(lia)). lia. }
  rewrite (multiproof_spec H D ls t HD Hok Hb D A (length (nodes t)) ltac:(lia) Hfuel Hrow).
  cbn [bind].
  assert (HM : map_r (fun i => n <- vget (nodes t) (i + (2 ^ D - 1)) ;;
                             Ok (match get_hash n with
                                 | Some h => [{| bi_index := i; bi_hash := h |}]
                                 | None => []
                                 end)) (map (fun i => i) A) = Ok (map (fun i => [entry H D ls D i]) A)).
  { apply map_r_map. intros i Hi. destruct (Hleaf i Hi) as [d [_ [En [Ev _]]]].
    rewrite (Nat.add_comm i). unfold vget. rewrite En. cbn [bind get_hash from_bytes].
    unfold entry. rewrite Ev. reflexivity. }
  rewrite map_id in HM. rewrite HM. cbn [bind].
  assert (HC : concat (map (fun i => [entry H D ls D i]) A) = map (entry H D ls D) A).
  { clear. induction A as [|a A IH]; simpl; auto. f_equal. exact IH. }
  rewrite HC. eexists. split; [reflexivity|]. split.
  - unfold batch_valid. cbn [indices proofs].
    assert (HMI : map bi_index (map (entry H D ls D) A) = A).
    { rewrite map_map. apply map_id. }
    unfold sort_by_index. rewrite sort_sorted by (simpl; rewrite HMI; exact HA).
    cbn [app]. rewrite HMI.
    rewrite (validate_complete H D ls HD Hb D A); auto.
    + apply bytes_eqb_spec. rewrite Hroot. unfold hashv, val, merkle_root.
      change (2 ^ 0 - 1 + 0) with 0. rewrite nspec_root. fold D.
      destruct (troot H D ls) eqn:ET; auto. apply troot_none in ET. congruence.
    + pose proof (fuel_enough H D ls HD Hb D A HAne). lia.
  - intros i h. cbn [indices]. rewrite in_map_iff, <- HAi. split.
    + intros [q [Eq Hq]]. unfold entry in Eq. injection Eq as -> Eh. split; auto.
      destruct (Hleaf i Hq) as [d [Ed [_ [Ev _]]]]. exists d. split; auto. rewrite Ev in Eh. auto.
    + intros [Hi [d [Ed ->]]]. exists i. split; auto. unfold entry.
      destruct (Hleaf i Hi) as [d' [Ed' [_ [Ev _]]]]. rewrite Ev. congruence.
Qed.
Print Assumptions c42_multiproofs_complete.

Example c42_hyps_met : exists t, tree_of toyH [[1%Z]; [2%Z; 3%Z]; []; [4%Z]; [5%Z]] = Ok t /\
  match proof_by_indices t [4; 0; 3; 0] with
  | Ok (Some p) => (map bi_index (indices p), length (proofs p), batch_valid toyH p (root_hash t))
  | _ => ([], 0, false) end = ([0; 3; 4], 4, true).
Proof. eexists. split; [vm_compute; reflexivity|]. vm_compute. reflexivity. Qed.

(** ** C43 *)

(** FALSE as stated, in three ways.  (1) Repeated indices make the verifier drop
    hashes: a batch proof listing an arbitrary hash for index 0 validates. *)
Theorem c43_duplicate_index_refuted : exists ls t p bogus,
  tree_of toyH ls = Ok t /\ batch_valid toyH p (root_hash t) = true /\
  In {| bi_index := 0; bi_hash := bogus |} (indices p) /\
  (forall n, In n (nodes t) -> get_hash n <> Some bogus).
Proof.
  set (ls := [[1%Z]; [2%Z]; [3%Z]; [4%Z]]).
  assert (HT : exists t, tree_of toyH ls = Ok t) by (eexists; vm_compute; reflexivity).
  destruct HT as [t Et].
  exists ls, t.
  set (l0 := toyH (leaf_string [1%Z])). set (l1 := toyH (leaf_string [2%Z])).
  set (n1 := toyH (node_string (toyH (leaf_string [3%Z])) (Some (toyH (leaf_string [4%Z]))))).
  exists {| indices := [{| bi_index := 0; bi_hash := l0 |}; {| bi_index := 0; bi_hash := l1 |};
                        {| bi_index := 0; bi_hash := repeat 9%Z 32 |}];
            proofs := [{| ln_hash := Some (repeat 8%Z 32); ln_side := SLeft |};
                       {| ln_hash := Some n1; ln_side := SRight |}] |}.
  exists (repeat 9%Z 32). split; auto. vm_compute in Et. injection Et as <-.
  split; [vm_compute; reflexivity|]. split; [right; right; left; reflexivity|].
  intros n Hn. simpl in Hn.
  repeat (destruct Hn as [<-|Hn]; [intros Eh; vm_compute in Eh; discriminate|]). destruct Hn.
Qed.
Print Assumptions c43_duplicate_index_refuted.

(** (2) Even with distinct indices the position is not checked: the side of a proof
    node is taken from the proof, not from the index. *)
Theorem c43_position_refuted : exists ls t p h,
  tree_of toyH ls = Ok t /\ batch_valid toyH p (root_hash t) = true /\
  NoDup (map bi_index (indices p)) /\
  In {| bi_index := 0; bi_hash := h |} (indices p) /\
  (forall d, nth_error ls 0 = Some d -> h <> toyH (leaf_string d)).
Proof.
  set (ls := [[1%Z]; [2%Z]]).
  assert (HT : exists t, tree_of toyH ls = Ok t) by (eexists; vm_compute; reflexivity).
  destruct HT as [t Et]. exists ls, t.
  set (l0 := toyH (leaf_string [1%Z])). set (l1 := toyH (leaf_string [2%Z])).
  exists {| indices := [{| bi_index := 0; bi_hash := l1 |}];
            proofs := [{| ln_hash := Some l0; ln_side := SLeft |}] |}, l1.
  split; auto. vm_compute in Et. injection Et as <-.
  split; [vm_compute; reflexivity|].
  split; [constructor; [intros []|constructor]|].
  split; [left; reflexivity|]. intros d Ed. simpl in Ed. injection Ed as <-.
  intros E. vm_compute in E. discriminate.
Qed.
Print Assumptions c43_position_refuted.

(** (3) The listed hash need not be a leaf hash: an internal node passes. *)
Theorem c43_internal_node_refuted : exists ls t p h,
  tree_of toyH ls = Ok t /\ batch_valid toyH p (root_hash t) = true /\
  NoDup (map bi_index (indices p)) /\
  In {| bi_index := 0; bi_hash := h |} (indices p) /\
  (forall d, In d ls -> h <> toyH (leaf_string d)).
Proof.
  set (ls := [[1%Z]; [2%Z]; [3%Z]; [4%Z]]).
  assert (HT : exists t, tree_of toyH ls = Ok t) by (eexists; vm_compute; reflexivity).
  destruct HT as [t Et]. exists ls, t.
  set (n0 := toyH (node_string (toyH (leaf_string [1%Z])) (Some (toyH (leaf_string [2%Z]))))).
  set (n1 := toyH (node_string (toyH (leaf_string [3%Z])) (Some (toyH (leaf_string [4%Z]))))).
  exists {| indices := [{| bi_index := 0; bi_hash := n0 |}];
            proofs := [{| ln_hash := Some n1; ln_side := SRight |}] |}, n0.
  split; auto. vm_compute in Et. injection Et as <-.
  split; [vm_compute; reflexivity|].
  split; [constructor; [intros []|constructor]|].
  split; [left; reflexivity|]. intros d Hd. simpl in Hd.
  repeat (destruct Hd as [<-|Hd]; [intros E; vm_compute in E; discriminate|]). destruct Hd.
Qed.
Print Assumptions c43_internal_node_refuted.

(** What does hold: when the indices are distinct, every listed leaf has an ordinary
    single-leaf proof to the same root.  Missing with respect to C43: the position,
    and proofs with repeated indices. *)
Theorem c43_entries_have_single_proofs_partial : forall H p root x data,
  (forall x, length (H x) = 32) ->
  NoDup (map bi_index (indices p)) ->
  Forall (fun n => forall h, ln_hash n = Some h -> length h = 32) (proofs p) ->
  Forall (fun x => length (bi_hash x) = 32) (indices p) ->
  batch_valid H p root = true ->
  In x (indices p) -> bi_hash x = H (leaf_string data) ->
  exists lv, Forall (fun n => forall h, ln_hash n = Some h -> length h = 32) lv /\
    proof_valid H {| leaf_data := data; levels := lv |} root = true.
Proof.
  intros H p root x data HL Hnd Hm He Hv Hx Ex. unfold batch_valid in Hv.
  destruct (validate _ _ _ _ _) as [[|out [|? ?]]|] eqn:EV; try discriminate.
  apply bytes_eqb_spec in Hv. subst out.
  assert (S1 : StronglySorted lt (map bi_index (sort_by_index (indices p)))).
  { unfold sort_by_index. apply sort_ss; [constructor|]. rewrite app_nil_r. exact Hnd. }
  assert (S2 : Forall entry_ok (sort_by_index (indices p))).
  { apply Forall_forall. intros y Hy. unfold sort_by_index in Hy. apply sort_in in Hy.
    destruct Hy as [Hy|[]]. rewrite Forall_forall in He. apply He. exact Hy. }
  assert (S3 : In x (sort_by_index (indices p))).
  { unfold sort_by_index. apply sort_in. left. exact Hx. }
  destruct (validate_sound H HL _ _ _ _ root S1 Hm S2 EV x S3) as [path [Hp Ef]].
  exists path. split; [exact Hp|]. unfold proof_valid. simpl. apply bytes_eqb_spec.
  rewrite <- Ef, Ex. reflexivity.
Qed.
Print Assumptions c43_entries_have_single_proofs_partial.

(** Combined with C41: every listed leaf belongs to the tree, unless a collision shows
    up among the strings hashed for the tree and for the single proof found above. *)
Theorem c43_listed_data_are_leaves_partial : forall H ls t p,
  (forall x, length (H x) = 32) ->
  ls <> [] -> tree_of H ls = Ok t ->
  NoDup (map bi_index (indices p)) ->
  Forall (fun n => forall h, ln_hash n = Some h -> length h = 32) (proofs p) ->
  Forall (fun x => length (bi_hash x) = 32) (indices p) ->
  batch_valid H p (root_hash t) = true ->
  forall x data, In x (indices p) -> bi_hash x = H (leaf_string data) ->
  exists lv, proof_valid H {| leaf_data := data; levels := lv |} (root_hash t) = true /\
    (no_collision H (tree_strings H ls ++ leaf_string data
       :: path_strings H (H (leaf_string data)) (map to_step lv)) -> In data ls).
Proof.
  intros H ls t p HL Hne Et Hnd Hm He Hv x data Hx Ex.
  destruct (c43_entries_have_single_proofs_partial H p _ x data HL Hnd Hm He Hv Hx Ex) as [lv [Hlv Hpv]].
  exists lv. split; [exact Hpv|]. intros Hnc.
  apply (c41_data_is_a_leaf H ls t {| leaf_data := data; levels := lv |}); auto.
Qed.
Print Assumptions c43_listed_data_are_leaves_partial.

Example c43_hyps_met : exists t p, tree_of toyH [[1%Z]; [2%Z; 3%Z]; []; [4%Z]; [5%Z]] = Ok t /\ NoDup (map bi_index (indices p)) /\ Forall (fun n => forall h, ln_hash n = Some h -> length h = 32) (proofs p) /\ Forall (fun x => length (bi_hash x) = 32) (indices p) /\ batch_valid toyH p (root_hash t) = true /\ exists x, In x (indices p) /\ bi_hash x = toyH (leaf_string [4%Z]).
Proof.
  assert (HT : exists t, tree_of toyH [[1%Z]; [2%Z; 3%Z]; []; [4%Z]; [5%Z]] = Ok t) by (eexists; vm_compute; reflexivity).
  destruct HT as [t Et]. exists t.
  destruct (c42_multiproofs_complete toyH _ t [3; 0] Et) as [p [Ep [Hv Hi]]].
  { discriminate. }
  { intros i [<-|[<-|[]]]; simpl; lia. }
  exists p. split; auto. vm_compute in Et. injection Et as <-. vm_compute in Ep. injection Ep as <-.
  split. { simpl. constructor; [intros [E|[]]; discriminate|]. constructor; [intros []|constructor]. }
  split. { repeat constructor; intros h Eh; inversion Eh; reflexivity. }
  split. { repeat constructor. }
  split; auto. exists {| bi_index := 3; bi_hash := toyH (leaf_string [4%Z]) |}.
  split; [apply Hi; split; [simpl; auto|]; exists [4%Z]; split; reflexivity|reflexivity].
Qed.

(** ** C44 *)

Local Open Scope Z_scope.

(** Hashes are digests, and no sibling hash is the all-zero digest. *)
Definition batch_ok (p : batch_proof) : Prop :=
  Zlen (indices p) < 2 ^ 32 /\ Zlen (proofs p) < 2 ^ 32 /\
  (forall x, In x (indices p) -> Z.of_nat (bi_index x) < 2 ^ 32 /\ length (bi_hash x) = 32%nat /\ bytes_ok (bi_hash x)) /\
  (forall n h, In n (proofs p) -> ln_hash n = Some h -> length h = 32%nat /\ bytes_ok h /\ h <> repeat 0 32).

Lemma u32_try_ok : forall n, Z.of_nat n < 2 ^ 32 -> u32_try n = Ok (Z.of_nat n).
Proof. intros. unfold u32_try. replace (Z.of_nat n <? 2 ^ 32) with true by lia. reflexivity. Qed.

Lemma read_u32_be_ok : forall n rest, Z.of_nat n < 2 ^ 32 ->
  read_u32_be (be_bytes 4 (Z.of_nat n) ++ rest) = Ok (Z.of_nat n, rest).
Proof.
  intros. unfold read_u32_be. rewrite read_exact_app by apply be_bytes_length. cbn [bind].
  rewrite be_value_bytes. do 2 f_equal. apply Z.mod_small. split; [lia|].
  replace (8 * Z.of_nat 4) with 32 by lia. lia.
Qed.

Theorem c44_batch_proof_roundtrip : forall p, batch_ok p -> roundtrip batch_serialize batch_parse p.
Proof.
  intros [idx pr] [H1 [H2 [H3 H4]]]. cbn [indices proofs] in *.
  assert (W1 : forall x, In x idx -> roundtrip write_bidx read_bidx x).
  { intros [i h] Hx. destruct (H3 _ Hx) as [Hi [Hl Hb]]. cbn [bi_index bi_hash] in *.
    unfold roundtrip, write_bidx. cbn [bi_index bi_hash]. rewrite u32_try_ok by auto. cbn [bind].
    unfold put_u32_be_bytes. cbn [bind]. eexists. split; [reflexivity|]. intros rest.
    unfold read_bidx. rewrite <- app_assoc, read_u32_be_ok by auto. cbn [bind].
    rewrite read_exact_app by auto. cbn [bind]. rewrite Nat2Z.id. reflexivity. }
  assert (W2 : forall x, In x pr -> roundtrip write_level read_level x).
  { intros [o s] Hx. unfold roundtrip, write_level, put_u8. cbn [bind ln_hash ln_side].
    eexists. split; [reflexivity|]. intros rest. unfold read_level. rewrite <- app_assoc.
    assert (Hs : side_of_code (side_code s) = Ok s) by (destruct s; reflexivity).
    destruct o as [h|].
    - destruct (H4 _ h Hx eq_refl) as [Hl [Hb Hz]]. rewrite read_exact_app by auto. cbn [bind app get_u8].
      rewrite Hs. cbn [bind].
      replace (forallb (fun b => b =? 0) h) with false; auto.
      symmetry. apply Bool.not_true_is_false. intros Hf. apply Hz.
      rewrite forallb_forall in Hf. rewrite <- Hl. clear - Hf.
      induction h as [|b h IH]; simpl; auto. f_equal.
      + assert (b =? 0 = true) by (apply Hf; left; auto). lia.
      + apply IH. intros; apply Hf; right; auto.
    - rewrite read_exact_app by reflexivity. cbn [bind app get_u8]. rewrite Hs. reflexivity. }
  unfold roundtrip, batch_serialize. cbn [indices proofs].
  rewrite !u32_try_ok by (unfold Zlen in *; lia). unfold put_u32_be_bytes. cbn [bind].
  destruct (write_all_ok _ write_bidx idx) as [b3 E3].
  { intros x Hx. destruct (W1 x Hx) as [b [E _]]. eauto. }
  destruct (write_all_ok _ write_level pr) as [b4 E4].
  { intros x Hx. destruct (W2 x Hx) as [b [E _]]. eauto. }
  rewrite E3, E4. cbn [bind]. eexists. split; [reflexivity|]. intros rest.
  unfold batch_parse. rewrite <- !app_assoc.
  rewrite read_u32_be_ok by (unfold Zlen in *; lia). cbn [bind].
  rewrite read_u32_be_ok by (unfold Zlen in *; lia). cbn [bind]. rewrite !Nat2Z.id.
  rewrite (read_n_write_all _ write_bidx read_bidx idx (fun x h => roundtrip_if_of _ _ _ _ (W1 x h)) b3 E3).
  cbn [bind].
  rewrite (read_n_write_all _ write_level read_level pr (fun x h => roundtrip_if_of _ _ _ _ (W2 x h)) b4 E4).
  reflexivity.
Qed.
Print Assumptions c44_batch_proof_roundtrip.

(** Proofs issued by a tree satisfy the side condition, unless a hash is all zeroes. *)
Example c44_hyps_met : batch_ok
  {| indices := [{| bi_index := 7; bi_hash := repeat 1 32 |}];
     proofs := [{| ln_hash := None; ln_side := SRight |};
                {| ln_hash := Some (repeat 2 32); ln_side := SLeft |}] |}.
Proof.
  split; [reflexivity|]. split; [reflexivity|]. split.
  - intros x [<-|[]]. split; [reflexivity|]. split; [reflexivity|]. apply Forall_forall.
    intros b Hb. apply repeat_spec in Hb. subst. unfold byte. lia.
  - intros n h [<-|[<-|[]]] E; inversion E. split; [reflexivity|]. split; [|discriminate].
    apply Forall_forall. intros b Hb. apply (repeat_spec 32 2) in Hb. subst. unfold byte. lia.
Qed.

(** FALSE without it: a sibling hash of 32 zero bytes is read back as an absent one. *)
Theorem c44_zero_hash_refuted : exists p bs, batch_serialize p = Ok bs /\
  exists q, batch_parse bs = Ok (q, []) /\ q <> p.
Proof.
  exists {| indices := []; proofs := [{| ln_hash := Some (repeat 0 32); ln_side := SLeft |}] |}.
  eexists. split; [vm_compute; reflexivity|]. eexists. split; [vm_compute; reflexivity|]. discriminate.
Qed.
Print Assumptions c44_zero_hash_refuted.
