(** Serialization and normalization of sigma propositions. *)
From Verif Require Import Base VlqModel VlqProofs GfModel.
From Verif Require Import GroupModel GroupProofs SigmaModel SigmaSpec SigmaProofs VerifierProofs SoundnessProofs.
From Coq Require Import Znumtheory Permutation.
Local Open Scope Z_scope.
#[local] Opaque be_bytes.

Section Sb.
Context {G : group} (HG : group_ok G).
Notation leaf := (leaf G). Notation sbool := (sbool G).

(** ** C18: round trip *)
Lemma write_each_all : forall A (w : A -> res bytes) l, write_each w l = write_all w l.
Proof. induction l as [|a l IH]; simpl; auto. rewrite <- IH. reflexivity. Qed.

Lemma dlog_read_ok : forall (h : G) rest, dlog_read (point_bytes h ++ rest) = Ok (Dlog h, rest).
Proof.
  intros. unfold dlog_read. change (point_bytes h) with (ec_bytes h).
  rewrite (ec_read_bytes HG). reflexivity.
Qed.
Lemma dht_read_ok : forall (g h u v : G) rest,
  dht_read ((point_bytes g ++ point_bytes h ++ point_bytes u ++ point_bytes v) ++ rest) =
  Ok (Dht g h u v, rest).
Proof.
  intros. unfold dht_read. rewrite <- !app_assoc.
  change (@point_bytes G) with (@ec_bytes G).
  rewrite (ec_read_bytes HG). cbn [bind]. rewrite (ec_read_bytes HG). cbn [bind].
  rewrite (ec_read_bytes HG). cbn [bind]. rewrite (ec_read_bytes HG). reflexivity.
Qed.

Lemma depth_child : forall (l : list sbool) x, In x l ->
  (depth x <= fold_right Nat.max 0%nat (map depth l))%nat.
Proof.
  induction l as [|y l IH]; intros x H; [destruct H|]. simpl.
  destruct H as [->|H]; [lia|]. apply IH in H. lia.
Qed.

Lemma get_u8_cons : forall b rest, get_u8 (b :: rest) = Ok (b, rest).
Proof. reflexivity. Qed.

Theorem sb_roundtrip : forall s, sb_wf s -> forall fuel, (depth s <= fuel)%nat ->
  roundtrip (@sb_write G) (sb_read fuel) s.
Proof.
  apply (sbool_ind' (fun s => sb_wf s -> forall fuel, (depth s <= fuel)%nat ->
    roundtrip (@sb_write G) (sb_read fuel) s)).
  - intros b _ [|fuel] Hf; [simpl in Hf; lia|].
    exists [sb_op (@Triv G b)]. split; [reflexivity|]. intros rest. destruct b; reflexivity.
  - intros p _ [|fuel] Hf; [simpl in Hf; lia|].
    exists (leaf_bytes p). split; [apply leaf_write_bytes|]. intros rest.
    cbn [sb_read]. destruct p as [h|g h u v]; cbn [leaf_bytes].
    + rewrite <- app_comm_cons, get_u8_cons. cbn [bind].
      change (205 =? op_prove_dlog) with true. cbv iota. rewrite dlog_read_ok. reflexivity.
    + rewrite <- app_comm_cons, get_u8_cons. cbn [bind].
      change (206 =? op_prove_dlog) with false. change (206 =? op_prove_dht) with true. cbv iota.
      rewrite dht_read_ok. reflexivity.
  - intros c l IH Hwf [|fuel] Hf; [simpl in Hf; lia|].
    cbn [sb_wf] in Hwf. destruct Hwf as (Hc & Hn & Hl). apply fold_and_Forall in Hl.
    rewrite Forall_forall in IH, Hl. cbn [depth] in Hf.
    assert (RT : forall x, In x l -> roundtrip (@sb_write G) (sb_read fuel) x).
    { intros x Hx. apply IH; auto. pose proof (depth_child l x Hx). lia. }
    destruct (write_all_ok _ (@sb_write G) l) as [lb Hlb].
    { intros x Hx. destruct (RT x Hx) as (bs & W & _). eauto. }
    pose proof (read_n_write_all _ (@sb_write G) (sb_read fuel) l) as RN.
    specialize (RN (fun x Hx => roundtrip_if_of _ _ _ _ (RT x Hx)) lb Hlb).
    unfold items_len_ok in Hn.
    destruct (get_put_u16 (Zlen l)) as (nb & Wn & Rn); [unfold u16; lia|].
    assert (En : wrapu 16 (Zlen l) = Zlen l) by (unfold wrapu; apply Z.mod_small; lia).
    assert (CR : forall (c' : ckind) rest,
      ('(n, bs) <- get_u16 ((nb ++ lb) ++ rest) ;;
       '(l, bs) <- read_n (Z.to_nat n) (sb_read fuel) bs ;;
       l <- bounded l ;; Ok (SConj c' l, bs)) = Ok (SConj c' l, rest)).
    { intros c' rest. rewrite <- app_assoc, Rn. cbn [bind]. unfold Zlen at 1. rewrite Nat2Z.id, RN.
      cbn [bind]. unfold bounded. replace ((2 <=? Zlen l) && (Zlen l <=? 255)) with true by lia.
      reflexivity. }
    destruct c as [| |k].
    + exists (op_and :: nb ++ lb). split.
      { cbn [sb_write bind]. rewrite En, Wn, write_each_all, Hlb. reflexivity. }
      intros rest. cbn [sb_read]. rewrite <- app_comm_cons, get_u8_cons. apply CR.
    + exists (op_or :: nb ++ lb). split.
      { cbn [sb_write bind]. rewrite En, Wn, write_each_all, Hlb. reflexivity. }
      intros rest. cbn [sb_read]. rewrite <- app_comm_cons, get_u8_cons. apply CR.
    + simpl in Hc. unfold u8 in Hc.
      destruct (get_put_u16 k) as (kb & Wk & Rk); [unfold u16; lia|].
      exists (op_atleast :: kb ++ nb ++ lb). split.
      { cbn [sb_write]. rewrite Wk. cbn [bind]. rewrite En, Wn, write_each_all, Hlb. reflexivity. }
      intros rest. cbn [sb_read]. rewrite <- app_comm_cons, get_u8_cons. cbn [bind].
      change (op_atleast =? op_prove_dlog) with false. change (op_atleast =? op_prove_dht) with false.
      change (op_atleast =? op_and) with false. change (op_atleast =? op_or) with false.
      change (op_atleast =? op_atleast) with true. cbv iota.
      rewrite <- app_assoc, Rk. cbn [bind].
      assert (Ek : wrapu 8 k = k) by (unfold wrapu; apply Z.mod_small; lia). rewrite Ek. apply CR.
Qed.

(** Whatever is parsed is well formed: item counts and thresholds in range. *)
Lemma read_n_Forall : forall A (Q : A -> Prop) (r : reader A) n bs l rest,
  (forall bs x rest, r bs = Ok (x, rest) -> Q x) -> read_n n r bs = Ok (l, rest) -> Forall Q l.
Proof.
  induction n as [|n IH]; intros bs l rest Hr H; cbn [read_n] in H.
  - injection H as <- <-. constructor.
  - apply bind_ok in H. destruct H as [[a b1] [H1 H]]. apply bind_ok in H.
    destruct H as [[l' b2] [H2 H]]. injection H as <- <-. constructor; eauto.
Qed.
Theorem sb_read_wf : forall fuel bs s rest, sb_read fuel bs = Ok (s, rest) -> @sb_wf G s.
Proof.
  induction fuel as [|fuel IH]; intros bs s rest H; [discriminate|]. cbn [sb_read] in H.
  apply bind_ok in H. destruct H as [[op b1] [_ H]].
  assert (CR : forall (c' : ckind) bs, conj_wf c' ->
      ('(n, bs) <- get_u16 bs ;;
       '(l, bs) <- read_n (Z.to_nat n) (sb_read fuel) bs ;;
       l <- bounded l ;; Ok (SConj c' l, bs)) = Ok (s, rest) -> sb_wf s).
  { intros c' bs' Hc' H'. apply bind_ok in H'. destruct H' as [[n b2] [_ H']].
    apply bind_ok in H'. destruct H' as [[l b3] [H1 H']].
    apply bind_ok in H'. destruct H' as [l' [H2 H']]. injection H' as <- <-.
    unfold bounded in H2. destruct ((2 <=? Zlen l) && (Zlen l <=? 255)) eqn:E; [|discriminate].
    injection H2 as <-. cbn [sb_wf]. split; auto. split; [unfold items_len_ok; lia|].
    apply fold_and_Forall. eapply read_n_Forall; eauto. }
  repeat match type of H with
  | (if ?b then _ else _) = _ => destruct b eqn:?
  end.
  - apply bind_ok in H. destruct H as [[p b2] [_ H]]. injection H as <- <-. exact I.
  - apply bind_ok in H. destruct H as [[p b2] [_ H]]. injection H as <- <-. exact I.
  - eapply CR; eauto. exact I.
  - eapply CR; eauto. exact I.
  - apply bind_ok in H. destruct H as [[k b2] [_ H]]. eapply CR; eauto. simpl.
    unfold u8, wrapu. apply Z.mod_pos_bound. reflexivity.
  - injection H as <- <-. exact I.
  - injection H as <- <-. exact I.
  - discriminate.
Qed.

(** ** C19: normalization *)
Lemma at_least_weaken : forall l n, at_least (S n) l -> at_least n l.
Proof.
  induction l as [|P l IH]; intros n H; [destruct H|].
  destruct n; [destruct l; exact I|]. cbn [at_least] in *.
  destruct H as [[H1 H2]|H]; [left; auto|right; auto].
Qed.
Lemma at_least_true : forall n (P : Prop) l, P -> (at_least (S n) (P :: l) <-> at_least n l).
Proof.
  intros n P l HP. cbn [at_least]. split; [|tauto]. intros [[_ H]|H]; auto. apply at_least_weaken; auto.
Qed.
Lemma at_least_false : forall n (P : Prop) l, ~ P -> (at_least n (P :: l) <-> at_least n l).
Proof. intros [|n] P l HP; cbn [at_least]; [destruct l; tauto|tauto]. Qed.

Lemma at_least_0 : forall l, at_least 0 l <-> True.
Proof. destruct l; simpl; tauto. Qed.

Lemma at_least_perm : forall l l', Permutation l l' -> forall n, at_least n l <-> at_least n l'.
Proof.
  induction 1 as [|P l l' H IH|P Q l|l l' l'' H1 IH1 H2 IH2]; intros n.
  - tauto.
  - destruct n; [rewrite !at_least_0; tauto|]. cbn [at_least]. rewrite (IH n), (IH (S n)). tauto.
  - destruct n as [|[|n]]; [rewrite !at_least_0; tauto| |]; cbn [at_least].
    + pose proof (at_least_0 l). pose proof (at_least_0 (P :: l)). pose proof (at_least_0 (Q :: l)).
      simpl in *. tauto.
    + tauto.
  - rewrite IH1. apply IH2.
Qed.

Lemma at_least_1 : forall A (P : A -> Prop) l, at_least 1 (map P l) <-> Exists P l.
Proof.
  induction l as [|x l IH]; simpl; split; intros H.
  - destruct H.
  - inversion H.
  - destruct H as [[H _]|H]; [left; auto|right; apply IH; auto].
  - inversion H; subst; [left; split; auto; destruct l; exact I|right; apply IH; auto].
Qed.
Lemma at_least_too_many : forall l n, (length l < n)%nat -> ~ at_least n l.
Proof.
  induction l as [|P l IH]; intros [|n] H; simpl in *; try lia; auto.
  intros [[_ H1]|H1]; revert H1; [apply IH; lia|apply (IH (S n)); lia].
Qed.
Lemma at_least_all : forall A (P : A -> Prop) l, at_least (length l) (map P l) <-> Forall P l.
Proof.
  induction l as [|x l IH]; cbn [length map at_least]; split; intros H; auto.
  - destruct H as [[H1 H2]|H]; [constructor; auto; apply IH; auto|].
    exfalso. revert H. apply at_least_too_many. rewrite map_length. lia.
  - inversion H; subst. left. split; auto. apply IH; auto.
Qed.

Lemma strip_and : forall (K : leaf -> Prop) l,
  match strip true l with
  | Some l' => Forall (provable K) l' <-> Forall (provable K) l
  | None => ~ Forall (provable K) l
  end.
Proof.
  induction l as [|x l IH]; [simpl; tauto|].
  assert (CONS : forall x, match option_map (cons x) (strip true l) with
  | Some l' => Forall (provable K) l' <-> Forall (provable K) (x :: l)
  | None => ~ Forall (provable K) (x :: l)
  end).
  { intros y. destruct (strip true l) as [l'|]; cbn [option_map].
    + split; intros H; inversion H; subst; constructor; auto; apply IH; auto.
    + intros H. apply IH. inversion H; auto. }
  destruct x as [b|p|c items]; [|apply CONS|apply CONS].
  cbn [strip]. destruct b; cbn [Bool.eqb].
  - destruct (strip true l) as [l'|].
    + rewrite IH. split; intros H; [constructor; simpl; auto|inversion H; auto].
    + intros H. apply IH. inversion H; auto.
  - intros H. inversion H; subst. simpl in *. discriminate.
Qed.
Lemma strip_or : forall (K : leaf -> Prop) l,
  match strip false l with
  | Some l' => Exists (provable K) l' <-> Exists (provable K) l
  | None => Exists (provable K) l
  end.
Proof.
  induction l as [|x l IH]; [simpl; tauto|].
  assert (CONS : forall x, match option_map (cons x) (strip false l) with
  | Some l' => Exists (provable K) l' <-> Exists (provable K) (x :: l)
  | None => Exists (provable K) (x :: l)
  end).
  { intros y. destruct (strip false l) as [l'|]; cbn [option_map].
    + split; intros H; inversion H; subst; auto; right; apply IH; auto.
    + right. auto. }
  destruct x as [b|p|c items]; [|apply CONS|apply CONS].
  cbn [strip]. destruct b; cbn [Bool.eqb].
  - left. reflexivity.
  - destruct (strip false l) as [l'|]; [|right; auto].
    rewrite IH. split; intros H; [right; auto|]. inversion H; subst; auto. simpl in *. discriminate.
Qed.
Lemma strip_shape : forall b (l l' : list sbool), strip b l = Some l' ->
  (length l' <= length l)%nat /\ Forall (fun x => nontrivial x) l' /\ incl l' l.
Proof.
  induction l as [|x l IH]; intros l' H.
  - injection H as <-. repeat split; auto. apply incl_refl.
  - assert (CONS : nontrivial x -> option_map (cons x) (strip b l) = Some l' ->
      (length l' <= length (x :: l))%nat /\ Forall (fun x => nontrivial x) l' /\ incl l' (x :: l)).
    { intros Hx H'. destruct (strip b l) as [l1|]; [|discriminate]. injection H' as <-.
      destruct (IH l1 eq_refl) as (L & N & I1). repeat split; [simpl; lia|constructor; auto|].
      intros y [->|Hy]; [left; auto|right; apply I1; auto]. }
    destruct x as [c|p|c items]; [|apply CONS; [exact I|exact H]|apply CONS; [exact I|exact H]].
    cbn [strip] in H. destruct (Bool.eqb b c); [|discriminate].
    destruct (IH l' H) as (L & N & I1). repeat split; [simpl; lia|auto|apply incl_tl; auto].
Qed.

Lemma conj_of_stripped_spec : forall (c : ckind) b (l : list sbool), Zlen l <= 255 ->
  exists s', conj_of_stripped c b (strip b l) = Ok s' /\
    (Forall normal l -> normal s') /\
    match strip b l with
    | None => s' = Triv (negb b)
    | Some [] => s' = Triv b
    | Some [x] => s' = x
    | Some l' => s' = SConj c l'
    end.
Proof.
  intros c b l Hl. destruct (strip b l) as [l'|] eqn:E.
  2: { exists (Triv (negb b)). repeat split. }
  destruct (strip_shape b l l' E) as (L & N & I1).
  destruct l' as [|x [|y l']].
  - exists (Triv b). repeat split.
  - exists x. split; [reflexivity|]. split; [|reflexivity]. intros HF. rewrite Forall_forall in HF.
    apply HF. apply I1. left; auto.
  - cbn [conj_of_stripped]. unfold bounded_unwrap, bounded.
    replace ((2 <=? Zlen (x :: y :: l')) && (Zlen (x :: y :: l') <=? 255)) with true
      by (unfold Zlen in *; simpl in *; lia).
    exists (SConj c (x :: y :: l')). split; [reflexivity|]. split; [|reflexivity].
    intros HF. cbn [normal]. apply fold_and_Forall. rewrite Forall_forall in *.
    intros z Hz. split; [apply N; auto|apply HF; apply I1; auto].
Qed.

Lemma cand_normalized_spec : forall (l : list sbool), Zlen l <= 255 ->
  exists s', cand_normalized l = Ok s' /\ (Forall normal l -> normal s') /\
    forall K, provable K s' <-> Forall (provable K) l.
Proof.
  intros l Hl. unfold cand_normalized.
  destruct (conj_of_stripped_spec And true l Hl) as (s' & E & N & S).
  exists s'. split; auto. split; auto. intros K. pose proof (strip_and K l) as HS.
  destruct (strip true l) as [[|x [|y l']]|]; subst s'; rewrite <- ?HS.
  - simpl. split; auto.
  - split; intros H; [constructor; auto|inversion H; auto].
  - cbn [provable]. apply fold_and_Forall.
  - simpl. split; [discriminate|tauto].
Qed.
Lemma cor_normalized_spec : forall (l : list sbool), Zlen l <= 255 ->
  exists s', cor_normalized l = Ok s' /\ (Forall normal l -> normal s') /\
    forall K, provable K s' <-> Exists (provable K) l.
Proof.
  intros l Hl. unfold cor_normalized.
  destruct (conj_of_stripped_spec Or false l Hl) as (s' & E & N & S).
  exists s'. split; auto. split; auto. intros K. pose proof (strip_or K l) as HS.
  destruct (strip false l) as [[|x [|y l']]|]; subst s'; rewrite <- ?HS.
  - simpl. split; [discriminate|intros H; inversion H].
  - split; intros H; [left; auto|inversion H as [? ? Hx|? ? Hx]; subst; auto; inversion Hx].
  - cbn [provable]. apply fold_or_Exists.
  - simpl. split; auto.
Qed.

(** Threshold: the meaning of the result, and the invariant of the loop. *)
Definition thr_result (k : Z) (l : list sbool) (r : res sbool) : Prop :=
  exists s', r = Ok s' /\ (Forall normal l -> normal s') /\
    forall K, provable K s' <-> at_least (Z.to_nat k) (map (provable K) l).

Lemma bounded_unwrap_ok : forall A (l : list A), 2 <= Zlen l <= 255 -> bounded_unwrap l = Ok l.
Proof.
  intros. unfold bounded_unwrap, bounded.
  replace ((2 <=? Zlen l) && (Zlen l <=? 255)) with true by lia. reflexivity.
Qed.

Lemma thr_or : forall l : list sbool, 2 <= Zlen l <= 255 ->
  thr_result 1 l (r <- bounded_unwrap l ;; cor_normalized r).
Proof.
  intros l Hl. rewrite bounded_unwrap_ok by auto. cbn [bind].
  destruct (cor_normalized_spec l) as (s' & E & N & P); [lia|].
  exists s'. split; auto. split; auto. intros K. rewrite P. symmetry. apply at_least_1.
Qed.
Lemma thr_and : forall l : list sbool, 2 <= Zlen l <= 255 ->
  thr_result (Zlen l) l (r <- bounded_unwrap l ;; cand_normalized r).
Proof.
  intros l Hl. rewrite bounded_unwrap_ok by auto. cbn [bind].
  destruct (cand_normalized_spec l) as (s' & E & N & P); [lia|].
  exists s'. split; auto. split; auto. intros K. rewrite P. unfold Zlen. rewrite Nat2Z.id.
  symmetry. apply at_least_all.
Qed.

Lemma thr_result_ext : forall k k' l l' r,
  (forall K, at_least (Z.to_nat k) (map (provable K) l) <-> at_least (Z.to_nat k') (map (provable K) l')) ->
  incl l l' -> thr_result k l r -> thr_result k' l' r.
Proof.
  intros k k' l l' r HE HI (s' & E & N & P). exists s'. split; auto. split.
  - intros HF. apply N. rewrite Forall_forall in *. auto.
  - intros K. rewrite P. apply HE.
Qed.

Lemma reduce_loop_spec : forall l k rem acc,
  rem = Zlen acc + Zlen l -> 2 <= rem <= 255 -> 1 <= k <= rem -> Forall (fun x => nontrivial x) acc ->
  thr_result k (acc ++ l)
    (match reduce_loop l k rem acc with
     | inr r => r
     | inl (k, rem, acc) =>
         sigmas <- bounded_unwrap acc ;;
         if k =? 1 then cor_normalized sigmas
         else if k =? rem then cand_normalized sigmas
         else Ok (SConj (Thr k) sigmas)
     end).
Proof.
  induction l as [|ch l IH]; intros k rem acc Hrem Hr Hk Hacc.
  - cbn [reduce_loop]. rewrite app_nil_r.
    assert (Hl : Zlen acc = rem) by (unfold Zlen in *; simpl in *; lia).
    destruct (k =? 1) eqn:E1.
    + replace k with 1 by lia. apply thr_or. lia.
    + destruct (k =? rem) eqn:E2.
      * replace k with (Zlen acc) by lia. apply thr_and. lia.
      * rewrite bounded_unwrap_ok by lia. cbn [bind]. exists (SConj (Thr k) acc).
        split; auto. split; [|intros K; reflexivity].
        intros HF. cbn [normal]. apply fold_and_Forall. rewrite Forall_forall in *.
        intros x Hx. split; auto.
  - assert (Hl : Zlen (acc ++ ch :: l) = rem).
    { unfold Zlen in *. rewrite app_length. lia. }
    cbn [reduce_loop]. destruct (k =? 1) eqn:E1.
    { replace k with 1 by lia. apply thr_or. lia. }
    destruct (k =? rem) eqn:E2.
    { replace k with (Zlen (acc ++ ch :: l)) by lia. apply thr_and. lia. }
    assert (Hll : Zlen (ch :: l) = Zlen l + 1) by (unfold Zlen; simpl; lia).
    assert (PM : forall K, Permutation (map (provable K) (acc ++ ch :: l)) (provable K ch :: map (provable K) (acc ++ l))).
    { intros K. rewrite !map_app. simpl. symmetry. apply Permutation_middle. }
    assert (IN : incl (acc ++ l) (acc ++ ch :: l)).
    { intros y Hy. apply in_app_or in Hy. apply in_or_app. simpl. tauto. }
    assert (KEEP : nontrivial ch -> thr_result k (acc ++ ch :: l)
      (match reduce_loop l k rem (acc ++ [ch]) with
     | inr r => r
     | inl (k, rem, acc) =>
         sigmas <- bounded_unwrap acc ;;
         if k =? 1 then cor_normalized sigmas
         else if k =? rem then cand_normalized sigmas
         else Ok (SConj (Thr k) sigmas)
     end)).
    { intros Hch. replace (acc ++ ch :: l) with ((acc ++ [ch]) ++ l) by (rewrite <- app_assoc; reflexivity).
      apply IH; auto.
      - unfold Zlen in *. rewrite app_length. simpl. lia.
      - apply Forall_app. split; auto. }
    destruct ch as [[|]|p|c items]; [| |apply KEEP; exact I|apply KEEP; exact I].
    + apply thr_result_ext with (k := k - 1) (l := acc ++ l); [|exact IN|].
      * intros K. rewrite (at_least_perm _ _ (PM K)).
        replace (Z.to_nat k) with (S (Z.to_nat (k - 1))) by lia.
        rewrite (at_least_true _ (provable K (Triv true))); [reflexivity|reflexivity].
      * apply IH; auto; lia.
    + apply thr_result_ext with (k := k) (l := acc ++ l); [|exact IN|].
      * intros K. rewrite (at_least_perm _ _ (PM K)).
        rewrite (at_least_false _ (provable K (Triv false))); [reflexivity|discriminate].
      * apply IH; auto; lia.
Qed.

Theorem cthreshold_reduce_spec : forall k (l : list sbool), u8 k -> items_len_ok l ->
  thr_result k l (cthreshold_reduce k l).
Proof.
  intros k l Hk Hl. unfold cthreshold_reduce, u8, items_len_ok in *.
  destruct (k =? 0) eqn:E0.
  - replace k with 0 by lia. exists (Triv true). split; auto. split; [simpl; auto|].
    intros K. simpl. destruct (map (provable K) l); simpl; tauto.
  - destruct (Zlen l <? k) eqn:E1.
    + exists (Triv false). split; auto. split; [simpl; auto|]. intros K.
      split; [discriminate|]. intros H. exfalso. revert H. apply at_least_too_many.
      rewrite map_length. unfold Zlen in *. lia.
    + apply (reduce_loop_spec l k (Zlen l) []); auto; try lia.
Qed.
End Sb.
