(** Proofs about Merkle trees and single-leaf proofs. *)
From Verif Require Import Base VlqModel MerkleModel MerkleSpec.
Local Open Scope nat_scope.

Lemma skipn_plus : forall A m n (l : list A), skipn m (skipn n l) = skipn (n + m) l.
Proof.
  intros A m n. revert m. induction n as [|n IH]; intros m l; simpl; auto.
  destruct l as [|a l]; [destruct m; reflexivity|]. apply IH.
Qed.

Lemma bytes_eqb_spec : forall a b, bytes_eqb a b = true <-> a = b.
Proof. intros. unfold bytes_eqb. destruct (list_eq_dec Z.eq_dec a b); split; congruence. Qed.

Lemma bytes_eqb_refl : forall a, bytes_eqb a a = true.
Proof. intros. apply bytes_eqb_spec. reflexivity. Qed.

Lemma vget_ok : forall A (l : list A) i a, vget l i = Ok a <-> nth_error l i = Some a.
Proof. intros. unfold vget. destruct (nth_error l i); split; congruence. Qed.

Lemma vset_spec : forall A (l : list A) i x, i < length l ->
  exists l', vset l i x = Ok l' /\ length l' = length l /\
    forall j, nth_error l' j = if Nat.eqb j i then Some x else nth_error l j.
Proof.
  induction l as [|a l IH]; intros i x Hi; simpl in Hi; [lia|].
  destruct i as [|i].
  - exists (x :: l). split; [reflexivity|]. split; [reflexivity|].
    intros [|j]; reflexivity.
  - destruct (IH i x ltac:(lia)) as [l' [E [HL HN]]].
    exists (a :: l'). simpl. unfold rmap. rewrite E. simpl. split; auto. split; [lia|].
    intros [|j]; simpl; auto.
Qed.

Lemma log2_up_spec' : forall n, n <= 2 ^ Nat.log2_up n.
Proof.
  intros n. destruct n as [|[|n]]; [simpl; lia|simpl; lia|].
  apply Nat.log2_up_spec. lia.
Qed.

Lemma pow2_pos : forall n, 1 <= 2 ^ n.
Proof. intros. assert (2 ^ n <> 0) by (apply Nat.pow_nonzero; lia). lia. Qed.

Lemma get_sibling_odd : forall k, get_sibling (2 * k + 1) = Some (2 * k + 2).
Proof.
  intros. unfold get_sibling, get_parent, get_left, get_right.
  replace (2 * k + 1) with (S (2 * k)) by lia.
  replace (2 * k / 2) with k by lia.
  replace (Nat.eqb (2 * k + 1) (S (2 * k))) with true by (symmetry; apply Nat.eqb_eq; lia).
  f_equal.
Qed.

Lemma get_sibling_even : forall k, get_sibling (2 * k + 2) = Some (2 * k + 1).
Proof.
  intros. unfold get_sibling, get_parent, get_left, get_right.
  replace (2 * k + 2) with (S (2 * k + 1)) by lia.
  replace ((2 * k + 1) / 2) with k by lia.
  replace (Nat.eqb (2 * k + 1) (S (2 * k + 1))) with false; auto.
  symmetry; apply Nat.eqb_neq; lia.
Qed.

Lemma get_parent_odd : forall k, get_parent (2 * k + 1) = Some k.
Proof.
  intros. replace (2 * k + 1) with (S (2 * k)) by lia. cbn [get_parent]. f_equal. lia.
Qed.

Lemma get_parent_even : forall k, get_parent (2 * k + 2) = Some k.
Proof.
  intros. replace (2 * k + 2) with (S (2 * k + 1)) by lia. cbn [get_parent]. f_equal. lia.
Qed.

Lemma pos_cases : forall i, i = 0 \/ (exists k, i = 2 * k + 1) \/ (exists k, i = 2 * k + 2).
Proof.
  intros i. destruct i as [|i]; [auto|]. right.
  destruct (Nat.Even_or_Odd i) as [[k E]|[k E]]; [left|right]; exists k; lia.
Qed.

Section Proofs.
Variable H : bytes -> bytes.

Lemma troot_none : forall t ls, troot H t ls = None <-> ls = [].
Proof.
  induction t as [|t IH]; intros ls; simpl.
  - destruct ls; split; congruence.
  - destruct (troot H t ls) eqn:E.
    + split; [discriminate|]. intros ->. rewrite (proj2 (IH []) eq_refl) in E. discriminate.
    + split; auto. intros _. apply IH. exact E.
Qed.

(** ** The heap: value of every array position *)

(** [nspec D ls i]: what position [i] of the array must hold, for a tree of height
    [D] over [ls]. *)
Definition nspec (D : nat) (ls : list bytes) (i : nat) : option bytes :=
  let l := Nat.log2 (i + 1) in
  troot H (D - l) (skipn ((i + 1) * 2 ^ (D - l) - 2 ^ D) ls).

Definition comb (l r : option bytes) : option bytes :=
  match l with None => None | Some a => Some (H (node_string a r)) end.

Lemma log2_lt_pow : forall D i, i + 1 < 2 ^ D -> Nat.log2 (i + 1) < D.
Proof. intros. apply Nat.log2_lt_pow2; lia. Qed.

Lemma pow_low : forall D i, i + 1 < 2 ^ D -> 2 ^ D <= (i + 1) * 2 ^ (D - Nat.log2 (i + 1)).
Proof.
  intros D i Hi. pose proof (log2_lt_pow D i Hi).
  pose proof (Nat.log2_spec (i + 1) ltac:(lia)) as [Hlo _].
  replace D with (Nat.log2 (i + 1) + (D - Nat.log2 (i + 1))) at 1 by lia.
  rewrite Nat.pow_add_r. apply Nat.mul_le_mono_r. exact Hlo.
Qed.

Lemma nspec_step : forall D ls i, i + 1 < 2 ^ D ->
  nspec D ls i = comb (nspec D ls (2 * i + 1)) (nspec D ls (2 * i + 2)).
Proof.
  intros D ls i Hi. pose proof (log2_lt_pow D i Hi) as Hl. pose proof (pow_low D i Hi) as Hp.
  unfold nspec.
  replace (2 * i + 1 + 1) with (2 * (i + 1)) by lia.
  replace (2 * i + 2 + 1) with (2 * (i + 1) + 1) by lia.
  rewrite Nat.log2_double by lia. rewrite Nat.log2_succ_double by lia.
  set (l := Nat.log2 (i + 1)) in *.
  replace (D - l) with (S (D - S l)) in * by lia.
  set (t := D - S l) in *. clearbody t. cbn [troot].
  rewrite (Nat.pow_succ_r' 2 t) in *.
  replace (2 * (i + 1) * 2 ^ t - 2 ^ D) with ((i + 1) * (2 * 2 ^ t) - 2 ^ D) by lia.
  rewrite skipn_plus.
  replace ((i + 1) * (2 * 2 ^ t) - 2 ^ D + 2 ^ t) with ((2 * (i + 1) + 1) * 2 ^ t - 2 ^ D) by lia.
  unfold comb. destruct (troot H t _); reflexivity.
Qed.

Lemma nspec_leaf : forall D ls j, j < 2 ^ D ->
  nspec D ls (2 ^ D - 1 + j) = match nth_error ls j with Some x => Some (H (leaf_string x)) | None => None end.
Proof.
  intros D ls j Hj. unfold nspec. pose proof (pow2_pos D).
  assert (EL : Nat.log2 (2 ^ D - 1 + j + 1) = D).
  { replace (2 ^ D - 1 + j + 1) with (2 ^ D + j) by lia.
    apply Nat.log2_unique'  with (c := j); lia. }
  rewrite EL, Nat.sub_diag. cbn [troot]. change (2 ^ 0) with 1.
  replace ((2 ^ D - 1 + j + 1) * 1 - 2 ^ D) with j by lia.
  clear. revert ls. induction j as [|j IH]; intros [|x ls]; simpl; auto.
Qed.

Lemma nspec_root : forall D ls, nspec D ls 0 = troot H D ls.
Proof.
  intros. unfold nspec. change (Nat.log2 (0 + 1)) with 0. rewrite Nat.sub_0_r.
  replace ((0 + 1) * 2 ^ D - 2 ^ D) with 0 by lia. reflexivity.
Qed.

(** A present right child has a present left sibling. *)
Lemma nspec_prefix : forall D ls i h, i + 1 < 2 ^ D ->
  nspec D ls (2 * i + 2) = Some h -> exists h', nspec D ls (2 * i + 1) = Some h'.
Proof.
  intros D ls i h Hi E. pose proof (log2_lt_pow D i Hi) as Hl.
  destruct (nspec D ls (2 * i + 1)) as [h'|] eqn:E'; [eauto|]. exfalso.
  unfold nspec in *.
  replace (2 * i + 1 + 1) with (2 * (i + 1)) in * by lia.
  replace (2 * i + 2 + 1) with (2 * (i + 1) + 1) in * by lia.
  rewrite Nat.log2_double in E' by lia. rewrite Nat.log2_succ_double in E by lia.
  set (t := D - S (Nat.log2 (i + 1))) in *.
  apply troot_none in E'.
  replace ((2 * (i + 1) + 1) * 2 ^ t - 2 ^ D) with
    ((2 * (i + 1)) * 2 ^ t - 2 ^ D + 2 ^ t) in E.
  - rewrite <- skipn_plus, E', skipn_nil in E. rewrite (proj2 (troot_none t []) eq_refl) in E. discriminate.
  - pose proof (pow_low D i Hi) as Hp.
    replace (D - Nat.log2 (i + 1)) with (S t) in Hp by lia.
    rewrite Nat.pow_succ_r' in Hp. lia.
Qed.

Lemma comb_nodes : forall D ls i, i + 1 < 2 ^ D ->
  exists n, combine_nodes H (nspec D ls (2 * i + 1)) (nspec D ls (2 * i + 2)) = Ok n /\
    get_hash n = nspec D ls i.
Proof.
  intros D ls i Hi. rewrite (nspec_step D ls i Hi).
  destruct (nspec D ls (2 * i + 1)) as [a|] eqn:E1, (nspec D ls (2 * i + 2)) as [b|] eqn:E2; simpl.
  - eexists. split; [reflexivity|]. reflexivity.
  - eexists. split; [reflexivity|]. simpl. unfold prefixed_hash, node_string. rewrite app_nil_r. reflexivity.
  - destruct (nspec_prefix D ls i b Hi E2) as [h' E]. congruence.
  - eexists. split; reflexivity.
Qed.

(** ** Construction of the tree *)

Definition heap_ok (D : nat) (ls : list bytes) (k : nat) (len : nat) (orig ns : list mnode) : Prop :=
  length ns = len /\
  (forall j, 2 ^ D - 1 <= j -> nth_error ns j = nth_error orig j) /\
  (forall i n, k <= i -> nth_error ns i = Some n -> get_hash n = nspec D ls i).

Lemma build_nodes_spec : forall D ls len orig k ns,
  len <= 2 ^ (S D) - 1 -> 2 * k < len \/ k = 0 ->
  k <= 2 ^ D - 1 ->
  heap_ok D ls k len orig ns ->
  exists ns', build_nodes H (odds k) ns = Ok ns' /\ heap_ok D ls 0 len orig ns'.
Proof.
  intros D ls len orig. induction k as [|k IH]; intros ns Hlen Hk Hk2 Hok.
  - exists ns. split; auto.
  - destruct Hok as [HL [Hleaf Hdone]]. cbn [odds build_nodes].
    assert (Hk3 : 2 * S k < len) by lia.
    rewrite get_sibling_odd, get_parent_odd. cbn [unwrap bind].
    destruct (nth_error ns (2 * k + 1)) as [nl|] eqn:E1.
    2: { apply nth_error_None in E1. lia. }
    destruct (nth_error ns (2 * k + 2)) as [nr|] eqn:E2.
    2: { apply nth_error_None in E2. lia. }
    unfold vget. rewrite E1. cbn [bind]. rewrite E2. cbn [bind].
    rewrite (Hdone (2 * k + 1) nl ltac:(lia) E1), (Hdone (2 * k + 2) nr ltac:(lia) E2).
    destruct (comb_nodes D ls k ltac:(lia)) as [n [En Hn]]. rewrite En. cbn [bind].
    destruct (vset_spec _ ns k n ltac:(lia)) as [ns1 [Es [HL1 HN1]]]. rewrite Es. cbn [bind].
    apply IH; auto; try lia.
    split; [lia|]. split.
    + intros j Hj. rewrite HN1. replace (Nat.eqb j k) with false; auto.
      symmetry. apply Nat.eqb_neq. lia.
    + intros i m Hi Em. rewrite HN1 in Em. destruct (Nat.eqb i k) eqn:Ei.
      * apply Nat.eqb_eq in Ei. subst i. congruence.
      * apply Nat.eqb_neq in Ei. apply (Hdone i m); auto. lia.
Qed.

(** The padded leaf row and the heap it is put into. *)
Definition padded (ls : list bytes) : list mnode :=
  if Nat.odd (length ls) then map (from_bytes H) ls ++ [MEmpty] else map (from_bytes H) ls.

Lemma padded_length : forall ls,
  length (padded ls) = if Nat.odd (length ls) then length ls + 1 else length ls.
Proof.
  intros. unfold padded. destruct (Nat.odd (length ls)).
  - rewrite app_length, map_length. reflexivity.
  - apply map_length.
Qed.

Lemma padded_even : forall ls, exists k, length (padded ls) = 2 * k.
Proof.
  intros. rewrite padded_length. destruct (Nat.odd (length ls)) eqn:E.
  - apply Nat.odd_spec in E. destruct E as [k E]. exists (k + 1). lia.
  - assert (Nat.even (length ls) = true) by (rewrite <- Nat.negb_odd, E; reflexivity).
    apply Nat.even_spec in H0. destruct H0 as [k E']. exists k. lia.
Qed.

Lemma padded_height : forall ls, ls <> [] ->
  Nat.log2_up (length (padded ls)) = height (length ls).
Proof.
  intros ls Hne. rewrite padded_length. unfold height.
  destruct (Nat.odd (length ls)) eqn:E.
  - apply Nat.odd_spec in E. destruct E as [k E]. rewrite E.
    destruct k as [|k]; [reflexivity|].
    assert (Hup : Nat.log2_up (2 * S k + 1 + 1) = Nat.log2_up (2 * S k + 1)).
    { apply Nat.le_antisymm.
      - pose proof (Nat.log2_up_spec (2 * S k + 1) ltac:(lia)) as [_ Hhi].
        set (u := Nat.log2_up (2 * S k + 1)) in *.
        apply Nat.log2_up_le_pow2; [lia|].
        assert (exists v, 2 ^ u = 2 * v) as [v Hv].
        { destruct u as [|u]; [simpl in Hhi; lia|]. exists (2 ^ u). apply Nat.pow_succ_r'. }
        lia.
      - apply Nat.log2_up_le_mono. lia. }
    rewrite Hup. assert (1 <= Nat.log2_up (2 * S k + 1)) by (apply Nat.log2_up_pos; lia). lia.
  - assert (2 <= length ls).
    { destruct ls as [|a [|b ls]]; [congruence|simpl in E; discriminate|simpl; lia]. }
    assert (1 <= Nat.log2_up (length ls)) by (apply Nat.log2_up_pos; lia). lia.
Qed.

Lemma padded_nth : forall ls j,
  nth_error (padded ls) j =
  match nth_error ls j with
  | Some x => Some (from_bytes H x)
  | None => if j <? length (padded ls) then Some MEmpty else None
  end.
Proof.
  intros ls j. destruct (nth_error ls j) as [x|] eqn:E.
  - unfold padded. assert (j < length ls) by (apply nth_error_Some; congruence).
    destruct (Nat.odd (length ls)).
    + rewrite nth_error_app1 by (rewrite map_length; lia).
      apply map_nth_error. exact E.
    + apply map_nth_error. exact E.
  - apply nth_error_None in E. destruct (j <? length (padded ls)) eqn:F.
    + apply Nat.ltb_lt in F. rewrite padded_length in F. unfold padded.
      destruct (Nat.odd (length ls)); [|lia].
      rewrite nth_error_app2 by (rewrite map_length; lia). rewrite map_length.
      replace (j - length ls) with 0 by lia. reflexivity.
    + apply Nat.ltb_ge in F. apply nth_error_None. exact F.
Qed.

(** What [merkle_new] builds. *)
Definition tree_ok (D : nat) (ls : list bytes) (t : mtree) : Prop :=
  internal_nodes t = 2 ^ D - 1 /\
  length (nodes t) = 2 ^ D - 1 + length (padded ls) /\
  (forall j, nth_error (nodes t) (2 ^ D - 1 + j) = nth_error (padded ls) j) /\
  (forall i n, nth_error (nodes t) i = Some n -> get_hash n = nspec D ls i).

Lemma height_bound : forall ls, ls <> [] -> length (padded ls) <= 2 ^ height (length ls).
Proof. intros. rewrite <- (padded_height ls) by auto. apply log2_up_spec'. Qed.

Lemma height_pos : forall n, 1 <= height n.
Proof. intros. unfold height. lia. Qed.

Lemma merkle_new_spec : forall ls, ls <> [] ->
  exists t, merkle_new H (map (from_bytes H) ls) = Ok t /\
    tree_ok (height (length ls)) ls t /\
    elements_hash_index t =
      fold_left (fun m '(i, h) => (h, i) :: m)
        (enumerate 0 (map (fun x => H (leaf_string x)) ls)) [].
Proof.
  intros ls Hne. unfold merkle_new. rewrite map_length.
  fold (padded ls).
  set (D := height (length ls)).
  assert (HP : next_power_of_two (length (padded ls)) = 2 ^ D).
  { unfold next_power_of_two. rewrite padded_height by auto. reflexivity. }
  rewrite HP. pose proof (pow2_pos D) as Hpos. pose proof (height_bound ls Hne) as Hb.
  fold D in Hb. destruct (padded_even ls) as [k Hk].
  assert (Hk1 : 1 <= k).
  { rewrite padded_length in Hk. destruct ls; [congruence|]. simpl length in Hk.
    destruct (Nat.odd _); lia. }
  assert (HD : 2 ^ D = 2 * 2 ^ (D - 1)).
  { rewrite <- Nat.pow_succ_r'. f_equal. pose proof (height_pos (length ls)). fold D in H0. lia. }
  set (full := repeat MEmpty (2 ^ D - 1) ++ padded ls).
  assert (HL : length full = 2 ^ D - 1 + length (padded ls)).
  { unfold full. rewrite app_length, repeat_length. reflexivity. }
  assert (Hfull : forall j, nth_error full (2 ^ D - 1 + j) = nth_error (padded ls) j).
  { intros j. unfold full. rewrite nth_error_app2 by (rewrite repeat_length; lia).
    rewrite repeat_length. f_equal. lia. }
  assert (Hfull2 : forall i, i < 2 ^ D - 1 -> nth_error full i = Some MEmpty).
  { intros i Hi. unfold full. rewrite nth_error_app1 by (rewrite repeat_length; lia).
    apply nth_error_repeat. exact Hi. }
  assert (HK : length full / 2 = 2 ^ (D - 1) + k - 1) by (rewrite HL, Hk, HD; lia).
  rewrite HK.
  destruct (build_nodes_spec D ls (length full) full (2 ^ (D - 1) + k - 1) full)
    as [ns' [E [HL' [Hleaf Hdone]]]].
  - rewrite HL, Nat.pow_succ_r'. lia.
  - left. rewrite HL, Hk. lia.
  - lia.
  - split; [reflexivity|]. split; [reflexivity|].
    intros i n Hi En. destruct (Nat.lt_ge_cases i (2 ^ D - 1)) as [Hlt|Hge].
    + rewrite Hfull2 in En by lia. injection En as <-. simpl. symmetry.
      (* beyond the array: both children would be absent leaves *)
      unfold nspec.
      assert (EL : Nat.log2 (i + 1) = D - 1).
      { apply Nat.log2_unique' with (c := i + 1 - 2 ^ (D - 1)); try lia. }
      pose proof (height_pos (length ls)) as HDp. fold D in HDp.
      rewrite EL. replace (D - (D - 1)) with 1 by lia. change (2 ^ 1) with 2.
      rewrite skipn_all2.
      * apply troot_none. reflexivity.
      * assert (length ls <= 2 * k) by (rewrite <- Hk, padded_length; destruct (Nat.odd _); lia).
        lia.
    + replace i with (2 ^ D - 1 + (i - (2 ^ D - 1))) in En |- * by lia.
      set (j := i - (2 ^ D - 1)) in *. rewrite Hfull in En.
      assert (j < length (padded ls)) by (apply nth_error_Some; congruence).
      rewrite nspec_leaf by lia. rewrite padded_nth in En.
      destruct (nth_error ls j).
      * injection En as <-. reflexivity.
      * destruct (j <? length (padded ls)); [|discriminate]. injection En as <-. reflexivity.
  - rewrite E. cbn [bind]. eexists. split; [reflexivity|]. split.
    + split; [|split; [|split]]; simpl.
      * rewrite HL', HL. lia.
      * rewrite HL', HL. reflexivity.
      * intros j. rewrite Hleaf by lia. apply Hfull.
      * intros i n En. apply Hdone; auto. lia.
    + simpl. f_equal. f_equal. unfold padded, hashes_of.
      assert (HF : flat_map (fun n => match get_hash n with Some h => [h] | None => [] end)
                (map (from_bytes H) ls) = map (fun x => H (leaf_string x)) ls).
      { clear. induction ls; simpl; [reflexivity|]. rewrite IHls. reflexivity. }
      destruct (Nat.odd (length ls)); auto.
      rewrite flat_map_app, HF. simpl. apply app_nil_r.
Qed.

Lemma tree_root : forall ls t, ls <> [] -> tree_ok (height (length ls)) ls t ->
  root_hash t = merkle_root H ls.
Proof.
  intros ls t Hne [_ [HL [_ Hh]]]. unfold root_hash, merkle_root.
  assert (0 < length (padded ls)).
  { rewrite padded_length. destruct ls; [congruence|]. simpl. destruct (Nat.odd _); lia. }
  destruct (nth_error (nodes t) 0) as [n|] eqn:E.
  - rewrite (Hh 0 n E), nspec_root. reflexivity.
  - apply nth_error_None in E. lia.
Qed.

(** ** Proofs by index *)

Definition to_step (n : level_node) : option bytes * bool :=
  (ln_hash n, match ln_side n with SLeft => true | SRight => false end).
Definition of_step (s : option bytes * bool) : level_node :=
  {| ln_hash := fst s; ln_side := if snd s then SLeft else SRight |}.

Lemma to_of_step : forall s, to_step (of_step s) = s.
Proof. intros [o b]. unfold to_step, of_step. simpl. destruct b; reflexivity. Qed.

Lemma level_step_spec : forall p n, level_step H p n = H (step_string p (to_step n)).
Proof.
  intros p [[h|] []]; unfold level_step, to_step, step_string, prefixed_hash, prefixed_hash2, node_string;
  simpl; rewrite ?app_nil_r; reflexivity.
Qed.

Lemma fold_level_spec : forall l p,
  fold_left (level_step H) l p = path_root H p (map to_step l).
Proof.
  induction l as [|n l IH]; intros p; simpl; auto.
  rewrite IH, level_step_spec. reflexivity.
Qed.

(** The path from heap position [i] to the root. *)
Fixpoint hpath (fuel : nat) (D : nat) (ls : list bytes) (i : nat) : list (option bytes * bool) :=
  match fuel, i with
  | S f, S v =>
      (if Nat.even v then (nspec D ls (i + 1), true) else (nspec D ls (i - 1), false))
        :: hpath f D ls (v / 2)
  | _, _ => []
  end.

Lemma hpath_fuel : forall f f' D ls i, i <= f -> i <= f' -> hpath f D ls i = hpath f' D ls i.
Proof.
  induction f as [|f IH]; intros f' D ls i Hi Hi'.
  - replace i with 0 by lia. destruct f'; reflexivity.
  - destruct i as [|v]; [destruct f'; reflexivity|].
    destruct f' as [|f']; [lia|]. cbn [hpath]. f_equal. apply IH; lia.
Qed.

Lemma hpath_odd : forall D ls k,
  hpath (2 * k + 1) D ls (2 * k + 1) = (nspec D ls (2 * k + 2), true) :: hpath k D ls k.
Proof.
  intros. replace (2 * k + 1) with (S (2 * k)) by lia. cbn [hpath].
  replace (Nat.even (2 * k)) with true by (symmetry; apply Nat.even_spec; exists k; lia).
  replace (S (2 * k) + 1) with (2 * k + 2) by lia. f_equal.
  replace (2 * k / 2) with k by lia. apply hpath_fuel; lia.
Qed.

Lemma hpath_even : forall D ls k,
  hpath (2 * k + 2) D ls (2 * k + 2) = (nspec D ls (2 * k + 1), false) :: hpath k D ls k.
Proof.
  intros. replace (2 * k + 2) with (S (2 * k + 1)) by lia. cbn [hpath].
  replace (Nat.even (2 * k + 1)) with false.
  2: { rewrite Nat.even_add, Nat.even_mul. reflexivity. }
  replace (S (2 * k + 1) - 1) with (2 * k + 1) by lia. f_equal.
  replace ((2 * k + 1) / 2) with k by lia. apply hpath_fuel; lia.
Qed.

Lemma proof_loop_spec : forall D ls t, 1 <= D -> tree_ok D ls t ->
  forall f i, i <= f -> i < length (nodes t) ->
  proof_loop f (nodes t) i = Ok (map of_step (hpath i D ls i)).
Proof.
  intros D ls t HD1 [HI [HL [_ Hh]]].
  assert (Hodd : exists k, length (nodes t) = 2 * k + 1 \/ D = 0).
  { destruct (padded_even ls) as [k Hk]. rewrite HL, Hk.
    destruct D as [|D]; [exists 0; auto|]. rewrite Nat.pow_succ_r'.
    pose proof (pow2_pos D). exists (2 ^ D + k - 1). left. lia. }
  induction f as [|f IH]; intros i Hf Hi.
  - replace i with 0 by lia. reflexivity.
  - destruct (pos_cases i) as [->|[[k ->]|[k ->]]].
    + reflexivity.
    + cbn [proof_loop]. rewrite get_sibling_odd, get_parent_odd, hpath_odd.
      replace (Nat.eqb (2 * k + 2) (2 * k + 1 + 1)) with true by (symmetry; apply Nat.eqb_eq; lia).
      destruct (nth_error (nodes t) (2 * k + 2)) as [n|] eqn:E.
      * unfold vget at 1. rewrite E. cbn [bind]. rewrite IH by lia. cbn [bind map].
        rewrite (Hh _ _ E). reflexivity.
      * exfalso. apply nth_error_None in E.
        destruct Hodd as [k' [Hk'|HD]]; [lia|].
        lia.
    + cbn [proof_loop]. rewrite get_sibling_even, get_parent_even, hpath_even.
      replace (Nat.eqb (2 * k + 1) (2 * k + 2 + 1)) with false by (symmetry; apply Nat.eqb_neq; lia).
      destruct (nth_error (nodes t) (2 * k + 1)) as [n|] eqn:E.
      * unfold vget at 1. rewrite E. cbn [bind]. rewrite IH by lia. cbn [bind map].
        rewrite (Hh _ _ E). reflexivity.
      * exfalso. apply nth_error_None in E. lia.
Qed.

(** The heap path of leaf [j] is the textbook path. *)
Lemma hpath_tpath : forall D ls t a j,
  Nat.log2 (a + 1) + t = D -> a + 1 < 2 ^ S D -> j < 2 ^ t ->
  let m := (a + 1) * 2 ^ t + j - 1 in
  hpath m D ls m = tpath H t j (skipn ((a + 1) * 2 ^ t - 2 ^ D) ls) ++ hpath a D ls a.
Proof.
  intros D ls. induction t as [|t IH]; intros a j Hd Ha Hj m.
  - simpl in Hj. subst m. simpl (2 ^ 0). replace ((a + 1) * 1 + j - 1) with a by lia. reflexivity.
  - pose proof (pow2_pos t) as Hp. rewrite Nat.pow_succ_r' in Hj. subst m.
    assert (Ha2 : a + 1 < 2 ^ D).
    { pose proof (Nat.log2_spec (a + 1) ltac:(lia)) as [_ Hhi].
      eapply Nat.lt_le_trans; [exact Hhi|]. apply Nat.pow_le_mono_r; lia. }
    pose proof (pow_low D a Ha2) as Hlow. replace (D - Nat.log2 (a + 1)) with (S t) in Hlow by lia.
    cbn [tpath]. destruct (j <? 2 ^ t) eqn:E.
    + apply Nat.ltb_lt in E.
      specialize (IH (2 * a + 1) j).
      assert (Hl : Nat.log2 (2 * a + 1 + 1) = S (Nat.log2 (a + 1))).
      { replace (2 * a + 1 + 1) with (2 * (a + 1)) by lia. apply Nat.log2_double. lia. }
      specialize (IH ltac:(lia) ltac:(rewrite Nat.pow_succ_r'; lia) E). cbv zeta in IH.
      replace ((a + 1) * 2 ^ S t + j - 1) with ((2 * a + 1 + 1) * 2 ^ t + j - 1)
        by (rewrite Nat.pow_succ_r'; f_equal; f_equal; lia).
      rewrite IH, hpath_odd, <- app_assoc. cbn [app].
      replace ((2 * a + 1 + 1) * 2 ^ t - 2 ^ D) with ((a + 1) * 2 ^ S t - 2 ^ D)
        by (rewrite Nat.pow_succ_r'; f_equal; lia).
      f_equal. f_equal. f_equal. unfold nspec.
      replace (2 * a + 2 + 1) with (2 * (a + 1) + 1) by lia.
      rewrite Nat.log2_succ_double by lia. replace (D - S (Nat.log2 (a + 1))) with t by lia.
      rewrite skipn_plus. f_equal. f_equal. rewrite Nat.pow_succ_r' in *. lia.
    + apply Nat.ltb_ge in E.
      specialize (IH (2 * a + 2) (j - 2 ^ t)).
      assert (Hl : Nat.log2 (2 * a + 2 + 1) = S (Nat.log2 (a + 1))).
      { replace (2 * a + 2 + 1) with (2 * (a + 1) + 1) by lia. apply Nat.log2_succ_double. lia. }
      specialize (IH ltac:(lia) ltac:(rewrite Nat.pow_succ_r'; lia) ltac:(lia)). cbv zeta in IH.
      replace ((a + 1) * 2 ^ S t + j - 1) with ((2 * a + 2 + 1) * 2 ^ t + (j - 2 ^ t) - 1)
        by (rewrite Nat.pow_succ_r'; lia).
      rewrite IH, hpath_even, <- app_assoc. cbn [app].
      rewrite skipn_plus.
      replace ((2 * a + 2 + 1) * 2 ^ t - 2 ^ D) with ((a + 1) * 2 ^ S t - 2 ^ D + 2 ^ t)
        by (rewrite Nat.pow_succ_r' in *; lia).
      f_equal. f_equal. f_equal. unfold nspec.
      replace (2 * a + 1 + 1) with (2 * (a + 1)) by lia.
      rewrite Nat.log2_double by lia. replace (D - S (Nat.log2 (a + 1))) with t by lia.
      f_equal. f_equal. rewrite Nat.pow_succ_r' in *. lia.
Qed.

Lemma proof_by_index_spec : forall ls t j, ls <> [] -> tree_ok (height (length ls)) ls t ->
  proof_by_index t j = Ok (match nth_error ls j with
    | Some x => Some {| leaf_data := x;
                        levels := map of_step (tpath H (height (length ls)) j ls) |}
    | None => None
    end).
Proof.
  intros ls t j Hne Hok. pose proof Hok as [HI [HL [Hlf Hh]]].
  set (D := height (length ls)) in *. unfold proof_by_index, build_proof. rewrite HI.
  rewrite (Nat.add_comm j). rewrite Hlf, padded_nth.
  destruct (nth_error ls j) as [x|] eqn:E.
  - unfold from_bytes. assert (Hj : j < length ls) by (apply nth_error_Some; congruence).
    assert (Hj2 : j < length (padded ls)) by (rewrite padded_length; destruct (Nat.odd _); lia).
    rewrite (proof_loop_spec D ls t (height_pos _) Hok) by lia. cbn [bind]. do 3 f_equal.
    pose proof (height_bound ls Hne) as Hb. fold D in Hb.
    pose proof (hpath_tpath D ls D 0 j) as HT. cbv zeta in HT.
    rewrite Nat.pow_succ_r' in HT. pose proof (height_pos (length ls)). fold D in H0.
    assert (1 < 2 ^ D) by (apply Nat.pow_gt_1; lia).
    specialize (HT eq_refl ltac:(lia) ltac:(lia)).
    replace ((0 + 1) * 2 ^ D + j - 1) with (2 ^ D - 1 + j) in HT by lia.
    rewrite HT. cbn [hpath]. rewrite app_nil_r.
    replace ((0 + 1) * 2 ^ D - 2 ^ D) with 0 by lia. reflexivity.
  - destruct (j <? length (padded ls)); reflexivity.
Qed.

Lemma path_root_app : forall p q r, path_root H p (q ++ r) = path_root H (path_root H p q) r.
Proof. intros. unfold path_root. apply fold_left_app. Qed.

(** Following the textbook path from a leaf gives the textbook root. *)
Lemma tpath_root : forall t j ls x, nth_error ls j = Some x -> j < 2 ^ t ->
  troot H t ls = Some (path_root H (H (leaf_string x)) (tpath H t j ls)).
Proof.
  induction t as [|t IH]; intros j ls x E Hj.
  - simpl in Hj. replace j with 0 in E by lia. destruct ls as [|y ls]; [discriminate|].
    simpl in E. injection E as <-. reflexivity.
  - rewrite Nat.pow_succ_r' in Hj. cbn [tpath troot]. destruct (j <? 2 ^ t) eqn:F.
    + apply Nat.ltb_lt in F. rewrite (IH j ls x E F). rewrite path_root_app. simpl.
      destruct (troot H t (skipn (2 ^ t) ls)); reflexivity.
    + apply Nat.ltb_ge in F.
      assert (E' : nth_error (skipn (2 ^ t) ls) (j - 2 ^ t) = Some x).
      { rewrite <- E. clear - F. replace j with (2 ^ t + (j - 2 ^ t)) at 2 by lia.
        generalize (2 ^ t) (j - 2 ^ t). intros a b. revert ls. induction a as [|a IHa]; intros [|y ls]; simpl; auto.
        destruct b; reflexivity. }
      assert (Hne : ls <> []) by (intros ->; destruct j; discriminate).
      destruct (troot H t ls) as [l|] eqn:El.
      2: { apply troot_none in El. congruence. }
      rewrite (IH _ _ _ E' ltac:(lia)). rewrite path_root_app. simpl. reflexivity.
Qed.

(** ** Soundness *)

Hypothesis H_len : forall x, length (H x) = 32.

Lemma node_string_inj : forall l r l' r', length l = 32 -> length l' = 32 ->
  (forall x, r = Some x -> length x = 32) -> (forall x, r' = Some x -> length x = 32) ->
  node_string l r = node_string l' r' -> l = l' /\ r = r'.
Proof.
  intros l r l' r' HL HL' HR HR' E. unfold node_string in E. injection E as E.
  apply app_eq_app in E. destruct E as [w [[-> E]|[-> E]]]; rewrite app_length in *.
  - assert (w = []) as -> by (destruct w; auto; simpl in *; lia).
    rewrite app_nil_r. split; auto. simpl in E.
    destruct r, r'; try congruence; [specialize (HR _ eq_refl)|specialize (HR' _ eq_refl)]; subst; simpl in *; lia.
  - assert (w = []) as -> by (destruct w; auto; simpl in *; lia).
    rewrite app_nil_r. split; auto. simpl in E.
    destruct r, r'; try congruence; [specialize (HR _ eq_refl)|specialize (HR' _ eq_refl)]; subst; simpl in *; lia.
Qed.

Lemma troot_len : forall t ls h, troot H t ls = Some h -> length h = 32.
Proof.
  intros [|t] ls h E; simpl in E.
  - destruct ls; inversion E. apply H_len.
  - destruct (troot H t ls); inversion E. apply H_len.
Qed.

Definition step_ok (s : option bytes * bool) : Prop := forall h, fst s = Some h -> length h = 32.

Lemma path_strings_app : forall q p r,
  path_strings H p (q ++ r) = path_strings H p q ++ path_strings H (path_root H p q) r.
Proof. induction q as [|s q IH]; intros p r; simpl; auto. f_equal. apply IH. Qed.

Lemma path_root_len : forall q p, length p = 32 -> length (path_root H p q) = 32.
Proof. induction q as [|s q IH]; intros p Hp; simpl; auto. Qed.

Lemma no_collision_incl : forall l l', incl l' l -> no_collision H l -> no_collision H l'.
Proof. intros l l' Hi Hc x y Hx Hy E. apply Hc; auto. Qed.

Lemma path_sound : forall t ls data path,
  Forall step_ok path ->
  troot H t ls = Some (path_root H (H (leaf_string data)) path) ->
  no_collision H (tstrings H t ls ++ leaf_string data :: path_strings H (H (leaf_string data)) path) ->
  exists j, j < 2 ^ t /\ nth_error ls j = Some data /\ same_path path (tpath H t j ls).
Proof.
  induction t as [|t IH]; intros ls data path Hok E Hnc.
  - cbn [troot] in E. destruct ls as [|y ls]; [discriminate|]. injection E as E.
    destruct path as [|s path] using rev_ind.
    + unfold path_root in E. simpl in E. cbn [tstrings] in Hnc.
      apply (Hnc (leaf_string y) (leaf_string data)) in E; simpl; auto.
      exists 0. simpl. unfold leaf_string in E. injection E as ->.
      split; [lia|]. split; auto. constructor.
    + clear IHpath. rewrite path_root_app in E. simpl in E.
      apply Hnc in E.
      * exfalso. unfold leaf_string in E. destruct s as [[h|] []]; simpl in E; discriminate.
      * simpl. auto.
      * cbn [tstrings]. right. right. rewrite path_strings_app. apply in_or_app. right. simpl. auto.
  - cbn [troot tstrings] in *. destruct (troot H t ls) as [l|] eqn:El; [|discriminate].
    injection E as E.
    set (r := troot H t (skipn (2 ^ t) ls)) in *.
    destruct path as [|s path _] using rev_ind.
    + exfalso. unfold path_root in E. simpl in E. apply Hnc in E.
      * unfold leaf_string, node_string in E. discriminate.
      * left. reflexivity.
      * apply in_or_app. right. left. reflexivity.
    + rewrite path_root_app in E. simpl in E.
      apply Forall_app in Hok. destruct Hok as [Hok Hs]. inversion Hs as [|? ? Hs1 _]; subst.
      set (p := path_root H (H (leaf_string data)) path) in *.
      assert (Hp : length p = 32) by (apply path_root_len; apply H_len).
      apply Hnc in E.
      2: { left. reflexivity. }
      2: { apply in_or_app. right. right. rewrite path_strings_app. apply in_or_app. right. left. reflexivity. }
      pose proof (troot_len _ _ _ El) as Hl.
      assert (Hr : forall x, r = Some x -> length x = 32) by (intros; eapply troot_len; eauto).
      (* which way did the path go? *)
      assert (Hcase : (l = p /\ same_step s (r, true)) \/ (r = Some p /\ same_step s (Some l, false))).
      { destruct s as [[h|] []]; cbn [step_string] in E; unfold step_ok in Hs1; simpl in Hs1.
        - apply node_string_inj in E; auto; try (intros ? Hx; inversion Hx; subst; auto; fail).
          destruct E as [-> ->]. left. split; auto. split; auto.
        - apply node_string_inj in E; auto; try (intros ? Hx; inversion Hx; subst; auto; fail).
          destruct E as [-> ->]. right. split; auto. split; auto.
        - apply node_string_inj in E; auto; try (intros; discriminate).
          destruct E as [-> ->]. left. split; auto. split; auto.
        - apply node_string_inj in E; auto; try (intros; discriminate).
          destruct E as [-> ->]. left. split; auto. split; auto. }
      destruct Hcase as [[-> Hss]|[Er Hss]].
      * destruct (IH ls data path Hok El) as [j [Hj [Hn Hsp]]].
        { eapply no_collision_incl; [|exact Hnc].
          intros x Hx. apply in_app_or in Hx. destruct Hx as [Hx|Hx].
          - apply in_or_app. left. right. apply in_or_app. auto.
          - apply in_or_app. right. destruct Hx as [Hx|Hx]; [left; auto|right].
            rewrite path_strings_app. apply in_or_app. auto. }
        exists j. rewrite Nat.pow_succ_r'. split; [lia|]. split; auto.
        cbn [tpath]. replace (j <? 2 ^ t) with true by (symmetry; apply Nat.ltb_lt; auto).
        apply Forall2_app; auto.
      * destruct (IH (skipn (2 ^ t) ls) data path Hok Er) as [j [Hj [Hn Hsp]]].
        { eapply no_collision_incl; [|exact Hnc].
          intros x Hx. apply in_app_or in Hx. destruct Hx as [Hx|Hx].
          - apply in_or_app. left. right. apply in_or_app. auto.
          - apply in_or_app. right. destruct Hx as [Hx|Hx]; [left; auto|right].
            rewrite path_strings_app. apply in_or_app. auto. }
        exists (2 ^ t + j). rewrite Nat.pow_succ_r'. split; [lia|].
        split.
        { rewrite <- Hn. generalize (2 ^ t). intros a. clear. revert ls.
          induction a as [|a IHa]; intros [|y ls]; simpl; auto. destruct j; reflexivity. }
        cbn [tpath]. replace (2 ^ t + j <? 2 ^ t) with false by (symmetry; apply Nat.ltb_ge; lia).
        replace (2 ^ t + j - 2 ^ t) with j by lia. rewrite El.
        apply Forall2_app; auto.
Qed.

End Proofs.
