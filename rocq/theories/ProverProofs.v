(** The prover without hints, stage by stage: marking, polishing, simulating,
    and proving. *)
From Verif Require Import Base VlqModel VlqProofs GfModel GfProofs GfBytesProofs PolyProofs GfProps.
From Verif Require Import GroupModel GroupProofs SigmaModel SigmaSpec SigmaProofs VerifierProofs.
From Verif Require Import SoundnessProofs EncodingProofs SbProofs ProverModel.
Local Open Scope Z_scope.
#[local] Opaque gf_mul gf_add evaluate gf_to_bytes gf_from_bytes24 poly_of_chal be_bytes interpolate.

Section ProverProofs.
Context {G : group} (HG : group_ok G).
Notation leaf := (leaf G). Notation sbool := (sbool G). Notation fmsg := (fmsg G).
Notation ptree := (ptree G). Notation utree := (utree G).
Variable secrets : list (secret G).
Variable rnd : randomness.

(** A secret is a witness of its public image. *)
Definition secret_ok (s : secret G) : Prop := witness (public_image s) (secret_w s).
Definition randomness_ok : Prop :=
  (forall p, chal_ok (r_chal rnd p)) /\
  (forall p n, length (r_poly rnd p n) = n /\ bytes_ok (r_poly rnd p n)) /\
  (forall p, @scalar_ok G (r_scal rnd p)).
(** The leaves one of the secrets is for. *)
Definition has_secret (p : leaf) : Prop := exists s, In s secrets /\ public_image s = p.

(** ** Structural equality *)
Lemma leaf_eqb_spec : forall a b : leaf, leaf_eqb a b = true <-> a = b.
Proof.
  assert (E : forall x y : G, geqb x y = true <-> x = y) by (intros; apply (g_eqb _ HG)).
  intros [h|g h u v] [h'|g' h' u' v']; cbn [leaf_eqb]; split; intros H; try discriminate;
    rewrite ?andb_true_iff, ?E in *.
  - congruence.
  - congruence.
  - destruct H as [[[? ?] ?] ?]. congruence.
  - injection H as -> -> -> ->. auto.
Qed.
Lemma conj_eqb_spec : forall a b, conj_eqb a b = true <-> a = b.
Proof.
  intros [| |k] [| |k']; cbn [conj_eqb]; split; intros H; try discriminate; try congruence.
  - apply Z.eqb_eq in H. congruence.
  - injection H as ->. apply Z.eqb_refl.
Qed.
Lemma sbool_eqb_spec : forall a b : sbool, sbool_eqb a b = true <-> a = b.
Proof.
  apply (sbool_ind' (fun a => forall b, sbool_eqb a b = true <-> a = b)).
  - intros x [y|q|d m]; cbn [sbool_eqb]; split; intros H; try discriminate.
    + apply Bool.eqb_prop in H. congruence.
    + injection H as ->. apply Bool.eqb_reflx.
  - intros p [y|q|d m]; cbn [sbool_eqb]; split; intros H; try discriminate.
    + apply leaf_eqb_spec in H. congruence.
    + injection H as ->. apply leaf_eqb_spec. reflexivity.
  - intros c l IH [y|q|d m]; cbn [sbool_eqb]; split; intros H; try discriminate.
    + apply andb_true_iff in H. destruct H as [H1 H2]. apply conj_eqb_spec in H1.
      apply list_eqb_spec in H2; [congruence|]. intros x y Hx. rewrite Forall_forall in IH. apply IH; auto.
    + injection H as -> ->. apply andb_true_iff. split; [apply conj_eqb_spec; auto|].
      apply list_eqb_spec; auto. intros x y Hx. rewrite Forall_forall in IH. apply IH; auto.
Qed.

(** ** Stage 1: marking *)
Notation known := (secret_known secrets []).
Lemma known_spec : forall p : leaf, known p = true <-> has_secret p.
Proof.
  intros p. unfold secret_known, has_secret. cbn [real_images real_proofs real_commitment_images flat_map map app existsb orb].
  rewrite existsb_exists. split; intros (s & Hin & H); exists s; split; auto; apply leaf_eqb_spec; auto.
Qed.

Fixpoint canb (s : sbool) : bool :=
  match s with
  | Triv _ => true
  | SLeaf p => known p
  | SConj And l => forallb canb l
  | SConj Or l => existsb canb l
  | SConj (Thr k) l => negb (Zlen (filter canb l) <? k)
  end.

Lemma at_least_count : forall A (f : A -> bool) (P : A -> Prop) l n,
  Forall (fun x => f x = true <-> P x) l ->
  (at_least n (map P l) <-> (n <= length (filter f l))%nat).
Proof.
  induction l as [|x l IH]; intros n H.
  - destruct n; cbn; split; intros; auto; try lia; tauto.
  - inversion H; subst. destruct n as [|n]; [rewrite at_least_0; split; auto; lia|].
    cbn [map at_least filter]. rewrite (IH n), (IH (S n)) by auto.
    destruct (f x) eqn:E; cbn [length].
    + assert (P x) by tauto. split; [intros [[_ ?]|?]; lia|]. intros. left. split; auto. lia.
    + assert (~ P x) by (intros HP; apply H2 in HP; congruence). tauto.
Qed.

Lemma canb_spec : forall s, no_const s -> (canb s = true <-> provable has_secret s).
Proof.
  apply (sbool_ind' (fun s => no_const s -> (canb s = true <-> provable has_secret s))).
  - intros b H. simpl in H. tauto.
  - intros p _. apply known_spec.
  - intros c l IH Hn. cbn [no_const] in Hn. apply fold_and_Forall in Hn.
    assert (IH' : Forall (fun x => canb x = true <-> provable has_secret x) l).
    { rewrite Forall_forall in *. intros x Hx. apply IH; auto. }
    clear IH Hn. destruct c as [| |k]; cbn [canb provable].
    + rewrite forallb_forall, fold_and_Forall, Forall_forall. rewrite Forall_forall in IH'.
      split; intros H x Hx; apply IH'; auto.
    + rewrite existsb_exists. rewrite (fold_or_Exists _ (provable has_secret) l), Exists_exists. rewrite Forall_forall in IH'.
      split; intros (x & Hx & H); exists x; split; auto; apply IH'; auto.
    + rewrite (at_least_count _ canb) by exact IH'. unfold Zlen.
      destruct (Z.ltb_spec (Z.of_nat (length (filter canb l))) k); cbn [negb]; split; intros; auto; try discriminate; lia.
Qed.

(** The converted tree and the marked tree. *)
Fixpoint conv (s : sbool) : ptree :=
  match s with
  | Triv _ => PConj PAnd s None false [] []
  | SLeaf p => PLeaf p None None None false crypto_tree_prefix
  | SConj c l => PConj (pconj_of c) s None false crypto_tree_prefix (map conv l)
  end.
Fixpoint mk (s : sbool) : ptree :=
  match s with
  | Triv _ => PConj PAnd s None false [] []
  | SLeaf p => PLeaf p None None None (negb (known p)) crypto_tree_prefix
  | SConj c l => PConj (pconj_of c) s None (negb (canb s)) crypto_tree_prefix (map mk l)
  end.

Lemma map_res_map : forall A B (f : A -> res B) (g : A -> B) l,
  Forall (fun x => f x = Ok (g x)) l -> map_res f l = Ok (map g l).
Proof. induction 1; cbn [map_res map]; auto. rewrite H. cbn [bind]. rewrite IHForall. reflexivity. Qed.
Lemma map_res_map2 : forall A B C (f : B -> res C) (h : A -> B) (g : A -> C) l,
  Forall (fun x => f (h x) = Ok (g x)) l -> map_res f (map h l) = Ok (map g l).
Proof. induction 1; cbn [map_res map]; auto. rewrite H. cbn [bind]. rewrite IHForall. reflexivity. Qed.

Lemma convert_spec : forall s, no_const s -> convert_to_unproven s = Ok (conv s).
Proof.
  apply (sbool_ind' (fun s => no_const s -> convert_to_unproven s = Ok (conv s))).
  - intros b H. simpl in H. tauto.
  - reflexivity.
  - intros c l IH Hn. cbn [no_const] in Hn. apply fold_and_Forall in Hn.
    cbn [convert_to_unproven conv]. rewrite (map_res_map _ _ _ conv); [reflexivity|].
    rewrite Forall_forall in *. auto.
Qed.
Lemma convert_no_panic : forall s : sbool, convert_to_unproven s <> Panic.
Proof.
  apply (sbool_ind' (fun s : sbool => convert_to_unproven s <> Panic)); try discriminate.
  intros c l H. cbn [convert_to_unproven]. apply bind_panic; [|discriminate].
  induction H as [|x l Hx Hl IH]; cbn [map_res]; [discriminate|].
  apply bind_panic; [exact Hx|]. intros t _. apply bind_panic; [exact IH|]. discriminate.
Qed.
(** With a constant inside, conversion fails. *)
Lemma convert_const : forall s : sbool, ~ no_const s -> exists e, convert_to_unproven s = Err e.
Proof.
  apply (sbool_ind' (fun s : sbool => ~ no_const s -> exists e, convert_to_unproven s = Err e)).
  - intros b _. eexists. reflexivity.
  - intros p H. exfalso. apply H. exact I.
  - intros c l IH Hn. cbn [no_const] in Hn. rewrite fold_and_Forall in Hn. cbn [convert_to_unproven].
    assert (E : exists e, map_res convert_to_unproven l = Err e).
    { clear c. induction l as [|x l IHl]; [exfalso; apply Hn; constructor|].
      inversion IH as [|? ? Hx Hl]; subst. cbn [map_res].
      destruct (convert_to_unproven x) as [t|e|] eqn:E.
      - cbn [bind]. destruct IHl as [e He]; [exact Hl| |rewrite He; eexists; reflexivity].
        intros HF. destruct Hx as [e He]; [|congruence].
        intros Hx. apply Hn. constructor; auto.
      - eexists. reflexivity.
      - exfalso. revert E. apply convert_no_panic. }
    destruct E as [e E]. rewrite E. exists e. reflexivity.
Qed.

Lemma simulated_mk : forall s, no_const s -> simulated (mk s) = negb (canb s).
Proof. intros [b|p|c l] H; simpl in *; auto; tauto. Qed.
Lemma unproven_mk : forall s, is_unproven (mk s) = true.
Proof. intros [b|p|c l]; reflexivity. Qed.

Lemma cast_ok : forall l : list ptree, Forall (fun t => is_unproven t = true) l -> cast_to_unp l = Ok l.
Proof.
  intros l H. unfold cast_to_unp. rewrite (map_res_map _ _ _ (fun x => x)); [rewrite map_id; auto|].
  eapply Forall_impl; [|exact H]. intros a Ha. cbv beta in Ha. rewrite Ha. reflexivity.
Qed.
Lemma Forall_map' : forall A B (f : A -> B) (P : B -> Prop) l, Forall P (map f l) <-> Forall (fun x => P (f x)) l.
Proof. intros. apply Forall_map. Qed.

Lemma depth_max : forall (l : list sbool) x, In x l -> (depth x <= fold_right Nat.max 0 (map depth l))%nat.
Proof.
  induction l as [|y l IH]; intros x Hin; [contradiction|]. cbn [map fold_right].
  destruct Hin as [->|Hin]; [lia|]. apply IH in Hin. lia.
Qed.

Lemma mark_sim : forall c l, Forall no_const l ->
  match pconj_of c with
  | PAnd => existsb simulated (map mk l)
  | POr => forallb simulated (map mk l)
  | PThr k _ => count_real (map mk l) <? k
  end = negb (canb (SConj c l)).
Proof.
  intros c l Hn. destruct c as [| |k]; cbn [pconj_of canb].
  - induction l as [|x l IH]; cbn; auto. inversion Hn; subst. rewrite IH, simulated_mk by auto.
    destruct (canb x); reflexivity.
  - induction l as [|x l IH]; cbn; auto. inversion Hn; subst. rewrite IH, simulated_mk by auto.
    destruct (canb x); reflexivity.
  - rewrite negb_involutive. f_equal. unfold count_real, Zlen. f_equal.
    induction l as [|x l IH]; cbn; auto. inversion Hn; subst. unfold is_real at 1. rewrite simulated_mk by auto.
    rewrite negb_involutive. destruct (canb x); cbn; rewrite IH by auto; reflexivity.
Qed.

Lemma mark_spec : forall s, no_const s -> forall fuel, (depth s <= fuel)%nat ->
  rewrite_bu fuel (mark_real_step secrets []) (conv s) = Ok (mk s).
Proof.
  apply (sbool_ind' (fun s => no_const s -> forall fuel, (depth s <= fuel)%nat ->
    rewrite_bu fuel (mark_real_step secrets []) (conv s) = Ok (mk s))).
  - intros b H. simpl in H. tauto.
  - intros p _ [|fuel] Hf; [simpl in Hf; lia|]. reflexivity.
  - intros c l IH Hn [|fuel] Hf; [simpl in Hf; lia|]. cbn [no_const] in Hn. apply fold_and_Forall in Hn.
    cbn [conv rewrite_bu]. rewrite (map_res_map2 _ _ _ _ conv mk).
    2: { rewrite Forall_forall in *. intros x Hx. apply IH; auto. cbn [depth] in Hf.
         pose proof (depth_max l x Hx). lia. }
    cbn [bind mark_real_step]. rewrite cast_ok by (apply Forall_map'; apply Forall_forall; intros; apply unproven_mk).
    cbn [bind]. cbn [mk]. f_equal. f_equal. apply (mark_sim c l Hn).
Qed.

Lemma conv_height : forall s, no_const s -> p_height (conv s) = depth s.
Proof.
  apply (sbool_ind' (fun s => no_const s -> p_height (conv s) = depth s)).
  - intros b H. simpl in H. tauto.
  - reflexivity.
  - intros c l IH Hn. cbn [no_const] in Hn. apply fold_and_Forall in Hn. cbn [conv p_height depth].
    f_equal. unfold max_list. f_equal. rewrite map_map. apply map_ext_in. rewrite Forall_forall in *. auto.
Qed.
Lemma mk_height : forall s, no_const s -> p_height (mk s) = depth s.
Proof.
  apply (sbool_ind' (fun s => no_const s -> p_height (mk s) = depth s)).
  - intros b H. simpl in H. tauto.
  - reflexivity.
  - intros c l IH Hn. cbn [no_const] in Hn. apply fold_and_Forall in Hn. cbn [mk p_height depth].
    f_equal. unfold max_list. f_equal. rewrite map_map. apply map_ext_in. rewrite Forall_forall in *. auto.
Qed.

Theorem mark_real_spec : forall s, no_const s -> mark_real secrets [] (conv s) = Ok (mk s).
Proof.
  intros s H. unfold mark_real. rewrite (conv_height s H), (mark_spec s H) by lia. cbn [bind].
  unfold try_unproven. rewrite unproven_mk. reflexivity.
Qed.

(** ** Stage 2: polishing *)
Definition reals (l : list ptree) : nat := length (filter is_real l).
Fixpoint Pol (s : sbool) (t : ptree) : Prop :=
  match s, t with
  | SLeaf p, PLeaf p' None None None sim _ => p' = p /\ (sim = false -> known p = true)
  | SConj c l, PConj c' prop None sim _ ts =>
      c' = pconj_of c /\ prop = s /\ all2 Pol l ts /\
      if sim then Forall (fun t => simulated t = true) ts
      else match c with
           | And => Forall (fun t => simulated t = false) ts
           | Or => reals ts = 1%nat
           | Thr k => reals ts = Z.to_nat k
           end
  | _, _ => False
  end.

Definition flagged (fx : bool * sbool) : ptree := with_simulated (fst fx) (mk (snd fx)).
Definition allowed (fx : bool * sbool) : Prop := fst fx = false -> canb (snd fx) = true.
Definition polish_at (s : sbool) : Prop :=
  no_const s -> or_distinct s -> sb_wf s -> forall sim pos fuel, (depth s <= fuel)%nat ->
  (sim = false -> canb s = true) ->
  exists t, rewrite_td fuel polish_step (with_position pos (with_simulated sim (mk s))) = Ok t /\
    Pol s t /\ simulated t = sim /\ is_unproven t = true.

Lemma polish_children : forall fl i pos fuel,
  Forall (fun x => forall sim pos, (sim = false -> canb x = true) ->
    exists t, rewrite_td fuel polish_step (with_position pos (with_simulated sim (mk x))) = Ok t /\
      Pol x t /\ simulated t = sim /\ is_unproven t = true) (map snd fl) ->
  Forall allowed fl ->
  exists ts, map_res (rewrite_td fuel polish_step)
      (imap (fun i t => with_position (pos_child pos i) t) i (map flagged fl)) = Ok ts /\
    all2 Pol (map snd fl) ts /\ map simulated ts = map fst fl.
Proof.
  induction fl as [|[f x] fl IH]; intros i pos fuel H1 H2.
  - exists []. cbn. auto.
  - cbn [map snd] in H1. inversion H1; inversion H2; subst.
    destruct (IH (S i) pos fuel) as (ts & E & P & S); auto.
    destruct (H3 f (pos_child pos i)) as (t & Et & Pt & St & _); auto.
    exists (t :: ts). cbn [map imap map_res]. unfold flagged at 1. cbn [fst snd]. rewrite Et. cbn [bind].
    rewrite E. cbn [bind all2 fst snd]. rewrite St, S. auto.
Qed.

Lemma reals_flags : forall ts (fs : list bool), map simulated ts = fs -> reals ts = length (filter negb fs).
Proof.
  intros ts fs <-. unfold reals, is_real. induction ts as [|t ts IH]; cbn; auto.
  destruct (simulated t); cbn; congruence.
Qed.

Lemma flagged_self : forall x, no_const x -> flagged (negb (canb x), x) = mk x.
Proof. intros [b|p|c l] H; simpl in *; try tauto; reflexivity. Qed.
Lemma with_simulated_idem : forall f g (t : ptree), with_simulated f (with_simulated g t) = with_simulated f t.
Proof. intros f g [u|p cm r e s pos|c p e s pos l]; reflexivity. Qed.

Lemma bytes_like_refl : forall A (f : A -> A -> bool) l, (forall x, In x l -> f x x = true) -> list_eqb f l l = true.
Proof. induction l as [|x l IH]; intros H; cbn; auto. rewrite H, IH; auto; [intros; apply H; right; auto|left; auto]. Qed.
Lemma ptree_eqb_mk : forall x y, no_const x -> no_const y -> (ptree_eqb (mk x) (mk y) = true <-> x = y).
Proof.
  assert (R : forall x, no_const x -> ptree_eqb (mk x) (mk x) = true).
  { apply (sbool_ind' (fun x => no_const x -> ptree_eqb (mk x) (mk x) = true)).
    - intros b H. simpl in H. tauto.
    - intros p _. cbn [mk ptree_eqb opt_eqb]. rewrite Bool.eqb_reflx.
      rewrite (proj2 (leaf_eqb_spec p p) eq_refl). reflexivity.
    - intros c l IH Hn. cbn [no_const] in Hn. apply fold_and_Forall in Hn. cbn [mk ptree_eqb opt_eqb].
      rewrite Bool.eqb_reflx, (proj2 (sbool_eqb_spec (SConj c l) (SConj c l)) eq_refl).
      replace (pconj_eqb (pconj_of c) (pconj_of c)) with true
        by (destruct c; cbn; rewrite ?Z.eqb_refl; reflexivity).
      cbn [andb]. rewrite bytes_like_refl; [reflexivity|].
      intros t Ht. apply in_map_iff in Ht. destruct Ht as (x & <- & Hx).
      rewrite Forall_forall in *. auto. }
  intros x y Hx Hy. split; [|intros <-; auto].
  destruct x as [|p|c l], y as [|p'|c' l']; cbn [no_const] in Hx, Hy; try tauto; cbn [mk ptree_eqb]; try discriminate.
  - intros H. rewrite !andb_true_iff in H. destruct H as [[[[[H _] _] _] _] _]. apply leaf_eqb_spec in H. congruence.
  - intros H. rewrite !andb_true_iff in H. destruct H as [[[[[_ H] _] _] _] _]. apply sbool_eqb_spec in H. congruence.
Qed.

Definition single (x : sbool) (y : sbool) : bool := negb (ptree_eqb (mk y) (mk x) && canb y).
Lemma cor_flags : forall l, Forall no_const l -> NoDup l -> existsb canb l = true ->
  exists fl, make_cor_children_simulated (map mk l) = Ok (map flagged fl) /\ map snd fl = l /\
    Forall allowed fl /\ length (filter negb (map fst fl)) = 1%nat.
Proof.
  intros l Hn Hd He.
  assert (Hf : exists l1 x l2, l = l1 ++ x :: l2 /\ canb x = true /\ find is_real (map mk l) = Some (mk x)).
  { clear Hd. induction l as [|x l IH]; [discriminate|]. inversion Hn; subst. cbn [map find].
    unfold is_real at 1. rewrite simulated_mk, negb_involutive by auto. destruct (canb x) eqn:Ex.
    - exists [], x, l. auto.
    - cbn [existsb] in He. rewrite Ex in He. destruct IH as (l1 & y & l2 & E & Hy & F); auto.
      exists (x :: l1), y, l2. rewrite E in *. auto. }
  destruct Hf as (l1 & x & l2 & E & Hx & Hfind).
  exists (map (fun y => (single x y, y)) l).
  assert (Hnx : no_const x) by (rewrite Forall_forall in Hn; apply Hn; rewrite E; apply in_elt).
  split.
  { unfold make_cor_children_simulated. rewrite cast_ok by (apply Forall_map', Forall_forall; intros; apply unproven_mk).
    cbn [bind]. rewrite Hfind. cbn [of_option bind]. f_equal. rewrite !map_map. apply map_ext_in.
    intros y Hy. rewrite Forall_forall in Hn. specialize (Hn y Hy). rewrite simulated_mk by auto.
    unfold flagged, single. cbn [fst snd]. destruct (ptree_eqb (mk y) (mk x)) eqn:Q; cbn [orb andb negb].
    - rewrite <- (flagged_self y Hn) at 1. unfold flagged. cbn [fst snd]. reflexivity.
    - destruct (canb y) eqn:Cy; cbn [negb]; [reflexivity|].
      rewrite <- (flagged_self y Hn) at 1. unfold flagged. cbn [fst snd]. rewrite Cy. reflexivity. }
  split; [rewrite map_map; apply map_id|]. split.
  { apply Forall_map'. apply Forall_forall. intros y _. unfold allowed, single. cbn [fst snd].
    rewrite negb_false_iff, andb_true_iff. tauto. }
  rewrite map_map. cbn [fst].
  assert (Hrest : forall m, (forall y, In y m -> y <> x) -> incl m l -> filter negb (map (single x) m) = []).
  { induction m as [|y m IHm]; intros Hm Hi; auto. cbn [map filter]. unfold single at 1.
    rewrite negb_involutive. destruct (ptree_eqb (mk y) (mk x)) eqn:Q.
    - exfalso. apply (Hm y); [left; auto|]. apply ptree_eqb_mk; auto.
      rewrite Forall_forall in Hn. apply Hn, Hi. left. auto.
    - cbn [andb]. apply IHm; [intros; apply Hm; right; auto|]. intros z Hz. apply Hi. right. auto. }
  rewrite E in *. rewrite map_app. cbn [map]. rewrite filter_app. cbn [filter].
  pose proof (NoDup_remove_2 _ _ _ Hd) as Hnin.
  rewrite !Hrest.
  - unfold single. rewrite (proj2 (ptree_eqb_mk x x Hnx Hnx) eq_refl), Hx. reflexivity.
  - intros y Hy ->. apply Hnin. apply in_or_app. auto.
  - intros y Hy. apply in_or_app. right. right. auto.
  - intros y Hy ->. apply Hnin. apply in_or_app. auto.
  - intros y Hy. apply in_or_app. auto.
Qed.

Lemma keep_flags : forall k l cnt, Forall no_const l -> 0 <= cnt ->
  exists fl, keep_k_real k cnt (map mk l) = map flagged fl /\ map snd fl = l /\ Forall allowed fl /\
    Z.of_nat (length (filter negb (map fst fl))) =
      Z.max 0 (Z.min (k - cnt) (Z.of_nat (length (filter canb l)))).
Proof.
  induction l as [|x l IH]; intros cnt Hn Hc.
  - exists []. cbn. split; auto. split; auto. split; auto. lia.
  - inversion Hn; subst. cbn [map keep_k_real]. unfold is_real. rewrite simulated_mk, negb_involutive by auto.
    cbn [filter]. destruct (canb x) eqn:Cx.
    + destruct (IH (cnt + 1)) as (fl & E1 & E2 & E3 & E4); auto; [lia|].
      exists ((k <? cnt + 1, x) :: fl). cbn [map fst snd filter length]. rewrite E1, E2. split; [|split; [auto|split]].
      * f_equal. destruct (k <? cnt + 1) eqn:Q.
        -- reflexivity.
        -- rewrite <- (flagged_self x) at 1 by auto. rewrite Cx. reflexivity.
      * constructor; auto. intros _. exact Cx.
      * destruct (Z.ltb_spec k (cnt + 1)); cbn [negb length]; lia.
    + destruct (IH cnt) as (fl & E1 & E2 & E3 & E4); auto.
      exists ((true, x) :: fl). cbn [map fst snd filter length negb]. rewrite E1, E2.
      split; [|split; [auto|split]].
      * f_equal. rewrite <- (flagged_self x) at 1 by auto. rewrite Cx. reflexivity.
      * constructor; auto. intros H. discriminate H.
      * exact E4.
Qed.

Lemma set_positions_flagged : forall pos fl,
  set_positions pos (map flagged fl) = Ok (imap (fun i t => with_position (pos_child pos i) t) 0 (map flagged fl)).
Proof.
  intros. unfold set_positions. rewrite cast_ok; [reflexivity|].
  apply Forall_map', Forall_forall. intros [f x] _. destruct x; reflexivity.
Qed.

Lemma polish_spec : forall s, polish_at s.
Proof.
  apply (sbool_ind' polish_at); unfold polish_at.
  - intros b H. simpl in H. tauto.
  - intros p _ _ _ sim pos [|fuel] Hf Hs; [simpl in Hf; lia|].
    eexists. cbn [mk with_simulated with_position rewrite_td polish_step bind].
    split; [reflexivity|]. cbn [Pol simulated is_unproven]. auto.
  - intros c l IH Hn Ho Hwf sim pos [|fuel] Hf Hs; [simpl in Hf; lia|].
    cbn [no_const] in Hn. apply fold_and_Forall in Hn.
    cbn [or_distinct] in Ho. destruct Ho as [Ho Hol]. apply fold_and_Forall in Hol.
    cbn [sb_wf] in Hwf. destruct Hwf as (Hc & Hlen & Hwl). apply fold_and_Forall in Hwl.
    assert (IH' : Forall (fun x => forall sim pos, (sim = false -> canb x = true) ->
      exists t, rewrite_td fuel polish_step (with_position pos (with_simulated sim (mk x))) = Ok t /\
      Pol x t /\ simulated t = sim /\ is_unproven t = true) l).
    { rewrite Forall_forall in *. intros x Hx sim' pos' H'. apply (IH x Hx); auto.
      cbn [depth] in Hf. pose proof (depth_max l x Hx). lia. }
    cbn [mk with_simulated with_position rewrite_td polish_step].
    assert (K : exists fl, (if sim then l' <- cast_to_unp (map mk l) ;; Ok (map (with_simulated true) l')
             else match pconj_of c with
                  | PAnd => Ok (map mk l)
                  | POr => make_cor_children_simulated (map mk l)
                  | PThr k _ => l' <- cast_to_unp (map mk l) ;; Ok (keep_k_real k 0 l')
                  end) = Ok (map flagged fl) /\ map snd fl = l /\ Forall allowed fl /\
          if sim then Forall (fun f => f = true) (map fst fl) else
          match c with
          | And => Forall (fun f => f = false) (map fst fl)
          | Or => length (filter negb (map fst fl)) = 1%nat
          | Thr k => length (filter negb (map fst fl)) = Z.to_nat k
          end).
    { destruct sim.
      - exists (map (fun x => (true, x)) l). rewrite cast_ok by (apply Forall_map', Forall_forall; intros; apply unproven_mk).
        cbn [bind]. split; [rewrite !map_map; reflexivity|]. split; [rewrite map_map; apply map_id|].
        split; [apply Forall_map', Forall_forall; intros x _ H; discriminate H|].
        rewrite map_map. apply Forall_map', Forall_forall. reflexivity.
      - specialize (Hs eq_refl). destruct c as [| |k]; cbn [pconj_of].
        + exists (map (fun x => (negb (canb x), x)) l). cbn [canb] in Hs. rewrite forallb_forall in Hs.
          split; [f_equal; rewrite map_map; apply map_ext_in; intros x Hx; symmetry; apply flagged_self;
            rewrite Forall_forall in Hn; auto|].
          split; [rewrite map_map; apply map_id|].
          split; [apply Forall_map', Forall_forall; intros x Hx _; apply Hs; auto|].
          rewrite map_map. apply Forall_map', Forall_forall. intros x Hx. cbn [fst]. rewrite Hs; auto.
        + cbn [canb] in Hs. apply cor_flags; auto.
        + cbn [canb] in Hs. rewrite cast_ok by (apply Forall_map', Forall_forall; intros; apply unproven_mk).
          cbn [bind]. destruct (keep_flags k l 0 Hn) as (fl & E1 & E2 & E3 & E4); [lia|].
          exists fl. rewrite E1. split; auto. split; auto. split; auto.
          cbn [conj_wf] in Hc. unfold u8, Zlen in *.
          destruct (Z.ltb_spec (Z.of_nat (length (filter canb l))) k); [discriminate|]. lia. }
    destruct K as (fl & E1 & E2 & E3 & E4). rewrite E1. cbn [bind]. rewrite set_positions_flagged. cbn [bind].
    rewrite <- E2 in IH'. destruct (polish_children fl 0%nat pos fuel IH' E3) as (ts & Et & Pt & St).
    rewrite Et. cbn [bind]. eexists. split; [reflexivity|]. split; [|split; reflexivity].
    cbn [Pol]. split; auto. split; auto. split; [rewrite <- E2; exact Pt|].
    rewrite <- St in E4. destruct sim.
    + apply Forall_map' in E4. exact E4.
    + destruct c as [| |k].
      * apply Forall_map' in E4. exact E4.
      * rewrite (reals_flags ts _ eq_refl). exact E4.
      * rewrite (reals_flags ts _ eq_refl). exact E4.
Qed.
End ProverProofs.
