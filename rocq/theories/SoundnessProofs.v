(** Special soundness: two accepting conversations with the same first messages
    and different challenges yield witnesses that make the proposition true. *)
From Verif Require Import Base VlqModel VlqProofs GfModel GfProofs GfBytesProofs PolyProofs GfProps.
From Verif Require Import GroupModel GroupProofs SigmaModel SigmaSpec SigmaProofs VerifierProofs NumberTheory.
From Coq Require Import Znumtheory.
Local Open Scope Z_scope.
#[local] Opaque gf_mul gf_add evaluate gf_to_bytes gf_from_bytes24 poly_of_chal.

Lemma at_least_filter : forall A (f : A -> bool) (P : A -> Prop) l n,
  (forall x, In x l -> f x = true -> P x) -> (n <= length (filter f l))%nat ->
  at_least n (map P l).
Proof.
  induction l as [|x l IH]; intros n Hf Hn; simpl in *.
  - destruct n; simpl; auto. lia.
  - destruct n as [|n]; [simpl; auto|]. cbn [at_least].
    destruct (f x) eqn:E.
    + simpl in Hn. left. split; [apply Hf; auto|]. apply IH; [auto|lia].
    + right. apply IH; auto.
Qed.

Lemma at_least_mono : forall A (P Q : A -> Prop) l n,
  (forall x, In x l -> P x -> Q x) -> at_least n (map P l) -> at_least n (map Q l).
Proof.
  induction l as [|x l IH]; intros n H; destruct n; cbn [map at_least]; auto.
  intros [[H1 H2]|H1].
  - left. split; [apply H; [left; reflexivity|exact H1]|]. apply IH; auto. intros; apply H; [right|]; auto.
  - right. apply (IH (S n)); auto. intros; apply H; [right|]; auto.
Qed.

Lemma filter_split : forall A (f : A -> bool) l,
  (length (filter f l) + length (filter (fun x => negb (f x)) l) = length l)%nat.
Proof. induction l; simpl; auto. destruct (f a); simpl; lia. Qed.

Lemma map_nth_seq : forall A (l : list A) d, map (fun i => nth i l d) (seq 0 (length l)) = l.
Proof.
  intros. apply nth_ext with (d := d) (d' := d).
  - rewrite map_length, seq_length. auto.
  - intros n Hn. rewrite map_length, seq_length in Hn.
    rewrite nth_indep with (d' := (fun i => nth i l d) 0%nat) by (rewrite map_length, seq_length; auto).
    rewrite (map_nth (fun i => nth i l d)), seq_nth by auto. reflexivity.
Qed.

Lemma fold_or_Exists : forall A (P : A -> Prop) l, fold_right (fun x Q => P x \/ Q) False l <-> Exists P l.
Proof.
  induction l as [|x l IH]; simpl; split; intros H.
  - destruct H.
  - inversion H.
  - destruct H; [left; auto|right; apply IH; auto].
  - inversion H; subst; auto. right. apply IH; auto.
Qed.

Section Soundness.
Context {G : group} (HG : group_ok G).
Notation leaf := (leaf G). Notation sbool := (sbool G). Notation fmsg := (fmsg G).
Notation transcript := (transcript G).

Lemma provable_mono : forall (K K' : leaf -> Prop) s, (forall p, K p -> K' p) ->
  provable K s -> provable K' s.
Proof.
  intros K K' s HK. revert s.
  apply (sbool_ind' (fun s => provable K s -> provable K' s)); simpl; auto.
  intros c l IH. rewrite Forall_forall in IH. destruct c.
  - rewrite !fold_and_Forall, !Forall_forall. auto.
  - rewrite !fold_or_Exists, !Exists_exists. intros (x & Hx & Px). exists x. auto.
  - apply at_least_mono. auto.
Qed.

(** *** Leaves *)
Lemma extract_leaf_witness : forall (p : leaf) m e1 z1 e2 z2,
  2 ^ 192 < gord G -> chal_ok e1 -> chal_ok e2 -> e1 <> e2 ->
  leaf_accepts p m e1 z1 -> leaf_accepts p m e2 z2 ->
  witness p (@extract_leaf G e1 z1 e2 z2).
Proof.
  intros p m e1 z1 e2 z2 Hq [L1 B1] [L2 B2] Hne A1 A2.
  pose proof (be_value_bound _ B1) as R1. pose proof (be_value_bound _ B2) as R2.
  unfold Zlen in R1, R2. rewrite L1 in R1. rewrite L2 in R2.
  change (256 ^ Z.of_nat 24) with (2 ^ 192) in *.
  assert (Hd : be_value e1 <> be_value e2).
  { intros E. apply Hne. rewrite <- (be_bytes_value e1), <- (be_bytes_value e2), L1, L2, E; auto. }
  assert (Hnz : (be_value e1 - be_value e2) mod gord G <> 0).
  { intros E. apply Z.mod_divide in E; [|lia]. destruct E as [c E]. clear - E R1 R2 Hq Hd.
    assert (c = 0 \/ c <= -1 \/ c >= 1) by lia. destruct H as [->|[H|H]]; nia. }
  pose proof (inverse_mod _ _ (g_prime _ HG) Hnz) as Hinv.
  unfold extract_leaf, inv_mod. set (i := Zpow_facts.Zpow_mod _ _ _) in *.
  assert (K : forall (x a h : G), gpow x z1 = gop a (gpow h (be_value e1)) ->
     gpow x z2 = gop a (gpow h (be_value e2)) -> h = gpow x (((z1 - z2) * i) mod gord G)).
  { intros x a h E1 E2. rewrite (gpow_mod HG), (gpow_mul HG).
    assert (E : gpow x (z1 - z2) = gpow h (be_value e1 - be_value e2)).
    { rewrite !(gpow_sub HG), E1, E2, (ginv_op HG).
      rewrite (g_comm _ HG a (gpow h (be_value e1))).
      rewrite <- (g_assoc _ HG). f_equal.
      rewrite (g_assoc _ HG), (g_inv_r HG), (g_id _ HG). reflexivity. }
    rewrite E, <- (gpow_mul HG), <- (gpow_mod HG), Hinv. reflexivity. }
  destruct p as [h|g h u v], m as [a|a b]; simpl in A1, A2; try tauto.
  - simpl. eapply K; eauto.
  - destruct A1 as [A1 A1'], A2 as [A2 A2']. split; eapply K; eauto.
Qed.

(** *** Trees *)
Definition extracted (s : sbool) (t1 t2 : transcript) (p : leaf) : Prop :=
  exists w, In (p, w) (extract s t1 t2) /\ witness p w.

Lemma zip3_in : forall A B C D (f : A -> B -> C -> list D) l1 l2 l3 i a b c d,
  nth_error l1 i = Some a -> nth_error l2 i = Some b -> nth_error l3 i = Some c ->
  In d (f a b c) -> In d (zip3 f l1 l2 l3).
Proof.
  induction l1 as [|x l1 IH]; intros [|y l2] [|z l3] [|i] a b c d H1 H2 H3 Hd;
    simpl in *; try discriminate.
  - injection H1 as ->. injection H2 as ->. injection H3 as ->. apply in_or_app. auto.
  - apply in_or_app. right. eapply IH; eauto.
Qed.

Lemma all2_nth : forall A B (P : A -> B -> Prop) l1 l2 i a, all2 P l1 l2 ->
  nth_error l1 i = Some a -> exists b, nth_error l2 i = Some b /\ P a b.
Proof.
  induction l1 as [|x l1 IH]; intros [|y l2] i a H Hi; simpl in H; try tauto;
    destruct i; simpl in Hi; try discriminate.
  - injection Hi as ->. exists y. split; [reflexivity|tauto].
  - apply (IH l2 i a); tauto.
Qed.

Lemma Exists_diff : forall (es1 es2 : list challenge), length es1 = length es2 ->
  es1 <> es2 -> exists i, (i < length es1)%nat /\ nth i es1 [] <> nth i es2 [].
Proof.
  induction es1 as [|e1 es1 IH]; intros [|e2 es2] HL Hne; simpl in *; try congruence; try lia.
  destruct (bytes_eqb e1 e2) eqn:E.
  - apply bytes_eqb_spec in E. subst e2.
    destruct (IH es2) as (i & Hi & Hn); [lia|congruence|]. exists (S i). split; auto. lia.
  - exists 0%nat. split; [lia|]. simpl. intros ->.
    assert (bytes_eqb e2 e2 = true) by (apply bytes_eqb_spec; auto). congruence.
Qed.

(** Children at which the two challenges differ, for a threshold node. *)
Lemma thr_count : forall k e1 e2 cs1 cs2 es1 es2,
  Zlen es1 <= 255 -> 0 <= k ->
  chal_ok e1 -> chal_ok e2 -> e1 <> e2 -> length es1 = length es2 ->
  chal_rule (Thr k) e1 cs1 es1 -> chal_rule (Thr k) e2 cs2 es2 ->
  (Z.to_nat k <= length (filter (fun i => negb (bytes_eqb (nth i es1 []) (nth i es2 [])))
                          (seq 0 (length es1))))%nat.
Proof.
  intros k e1 e2 cs1 cs2 es1 es2 H255 Hk He1 He2 Hne HL (W1 & L1 & R1) (W2 & L2 & R2).
  set (n := length es1) in *.
  pose proof (filter_split _ (fun i => bytes_eqb (nth i es1 []) (nth i es2 [])) (seq 0 n)) as FS.
  rewrite seq_length in FS.
  set (A := filter (fun i => bytes_eqb (nth i es1 []) (nth i es2 [])) (seq 0 n)) in *.
  destruct (le_lt_dec (length A) (n - Z.to_nat k)) as [HA|HA].
  { unfold Zlen in *. fold n in L1. lia. }
  exfalso. apply Hne.
  assert (Lc : length cs1 = length cs2) by (unfold Zlen in *; lia).
  assert (Lc1 : length cs1 = (n - Z.to_nat k)%nat) by (unfold Zlen in *; fold n in L1; lia).
  set (xs := map (fun i => N.of_nat (S i)) (firstn (S (length cs1)) A)).
  assert (HinA : forall i, In i (firstn (S (length cs1)) A) -> (i < n)%nat /\ nth i es1 [] = nth i es2 []).
  { intros i Hi. assert (Hi' : In i A).
    { rewrite <- (firstn_skipn (S (length cs1)) A). apply in_or_app. auto. }
    apply filter_In in Hi'. destruct Hi' as [Hs Hb]. apply in_seq in Hs.
    split; [lia|]. apply bytes_eqb_spec. auto. }
  assert (E : Poly (chal_gf e1 :: cs1) (length cs1) = Poly (chal_gf e2 :: cs2) (length cs1)).
  { apply c08_interpolation_unique with xs; cbn [coefficients degree].
    - constructor; auto. apply chal_gf_wf; auto.
    - constructor; auto. apply chal_gf_wf; auto.
    - reflexivity.
    - simpl. lia.
    - reflexivity.
    - unfold xs. rewrite map_length, firstn_length. lia.
    - apply Forall_forall. intros x Hx. apply in_map_iff in Hx. destruct Hx as (i & <- & Hi).
      apply HinA in Hi. unfold Zlen in H255. fold n in H255. lia.
    - unfold xs. apply FinFun.Injective_map_NoDup; [intros a b Hab; lia|].
      assert (ND : NoDup A) by (apply NoDup_filter; apply seq_NoDup).
      rewrite <- (firstn_skipn (S (length cs1)) A) in ND.
      clear - ND. remember (firstn (S (length cs1)) A) as l. clear Heql.
      induction l; constructor; simpl in ND; inversion ND; subst; auto.
      intros H. apply H1. apply in_or_app. auto.
    - intros x Hx. apply in_map_iff in Hx. destruct Hx as (i & <- & Hi).
      apply HinA in Hi. destruct Hi as [Hi Ei].
      rewrite Lc at 2. unfold Zlen in H255. fold n in H255.
      rewrite !poly_eval; auto; try lia; try (apply chal_gf_wf; auto).
      rewrite <- (R1 i) by auto. rewrite <- (R2 i) by (rewrite <- HL; auto).
      rewrite Ei. reflexivity. }
  apply (f_equal (fun f => hd gf_zero (coefficients f))) in E. cbn [coefficients hd] in E.
  apply chal_gf_inj; auto.
Qed.

Definition sound_at (s : sbool) : Prop := forall t1 t2 : transcript,
  accepting s t1 -> accepting s t2 -> first_messages t1 = first_messages t2 ->
  t_chal t1 <> t_chal t2 -> provable (extracted s t1 t2) s.

Lemma map_inj_nth : forall A B (f : A -> B) l1 l2 i a b, map f l1 = map f l2 ->
  nth_error l1 i = Some a -> nth_error l2 i = Some b -> f a = f b.
Proof.
  intros A B f l1 l2 i a b H H1 H2.
  apply (map_nth_error f) in H1. apply (map_nth_error f) in H2. congruence.
Qed.

Theorem special_soundness : 2 ^ 192 < gord G -> forall s, sb_wf s -> sound_at s.
Proof.
  intros Hq. apply (sbool_ind' (fun s => sb_wf s -> sound_at s)).
  - intros b _ t1 t2 H. destruct t1; simpl in H; tauto.
  - intros p _ t1 t2 A1 A2 HF HC.
    destruct t1 as [m1 e1 z1|], t2 as [m2 e2 z2|]; simpl in A1, A2; try tauto.
    simpl in HF. injection HF as <-. cbn [t_chal] in HC.
    cbn [provable]. exists (@extract_leaf G e1 z1 e2 z2). split.
    + cbn [extract]. destruct (bytes_eqb e1 e2) eqn:E; [apply bytes_eqb_spec in E; congruence|].
      left. reflexivity.
    + apply extract_leaf_witness with m1; tauto.
  - intros c l IH Hwf. cbn [sb_wf] in Hwf. destruct Hwf as (Hc & Hlen & Hl).
    apply fold_and_Forall in Hl. rewrite Forall_forall in IH, Hl.
    intros t1 t2 A1 A2 HF HC.
    destruct t1 as [|e1 cs1 l1], t2 as [|e2 cs2 l2]; simpl in A1, A2; try tauto.
    destruct A1 as (C1 & A1 & R1), A2 as (C2 & A2 & R2).
    simpl in HF. injection HF as HF. cbn [t_chal] in HC.
    assert (Ln1 : length l1 = length l) by (apply all2_Forall2 in A1; symmetry; eapply Forall2_length'; eauto).
    assert (Ln2 : length l2 = length l) by (apply all2_Forall2 in A2; symmetry; eapply Forall2_length'; eauto).
    (* a child whose challenges differ is provable from the extracted witnesses *)
    assert (CH : forall i x, nth_error l i = Some x ->
       nth i (map t_chal l1) [] <> nth i (map t_chal l2) [] ->
       provable (extracted (SConj c l) (TConj e1 cs1 l1) (TConj e2 cs2 l2)) x).
    { intros i x Hx Hd.
      destruct (all2_nth _ _ _ _ _ _ _ A1 Hx) as (y1 & Hy1 & P1).
      destruct (all2_nth _ _ _ _ _ _ _ A2 Hx) as (y2 & Hy2 & P2).
      apply provable_mono with (K := extracted x y1 y2).
      - intros p (w & Hin & Hw). exists w. split; auto. cbn [extract]. eapply zip3_in; eauto.
      - assert (Hin : In x l) by (eapply nth_error_In; eauto).
        apply IH; auto.
        + eapply map_inj_nth; eauto.
        + intros E. apply Hd.
          apply (map_nth_error t_chal) in Hy1. apply (map_nth_error t_chal) in Hy2.
          apply nth_error_nth with (d := []) in Hy1. apply nth_error_nth with (d := []) in Hy2.
          congruence. }
    destruct c as [| |k].
    + cbn [provable]. apply fold_and_Forall. apply Forall_forall. intros x Hx.
      apply In_nth_error in Hx. destruct Hx as [i Hi]. apply (CH i x Hi).
      simpl in R1, R2. destruct R1 as [_ R1], R2 as [_ R2]. rewrite Forall_forall in R1, R2.
      assert (Hil : (i < length l)%nat) by (apply nth_error_Some; congruence).
      rewrite <- (R1 (nth i (map t_chal l1) [])) by (apply nth_In; rewrite map_length; lia).
      rewrite <- (R2 (nth i (map t_chal l2) [])) by (apply nth_In; rewrite map_length; lia).
      exact HC.
    + cbn [provable]. apply fold_or_Exists. apply Exists_exists.
      simpl in R1, R2. destruct R1 as [_ R1], R2 as [_ R2].
      destruct (Exists_diff (map t_chal l1) (map t_chal l2)) as (i & Hi & Hd).
      { rewrite !map_length. lia. }
      { intros E. rewrite E in R1. congruence. }
      rewrite map_length in Hi.
      destruct (nth_error l i) as [x|] eqn:Ex; [|apply nth_error_None in Ex; lia].
      exists x. split; [eapply nth_error_In; eauto|]. eapply CH; eauto.
    + cbn [provable]. simpl in Hc. unfold u8, items_len_ok, Zlen in *.
      assert (TC := thr_count k e1 e2 cs1 cs2 (map t_chal l1) (map t_chal l2)).
      rewrite !map_length in TC. unfold Zlen in TC. rewrite map_length in TC.
      specialize (TC ltac:(lia) ltac:(lia) C1 C2 HC ltac:(lia) R1 R2).
      set (K := extracted _ _ _) in *. clearbody K.
      rewrite <- (map_nth_seq _ l (Triv true)), map_map.
      apply at_least_filter with (f := fun i => negb (bytes_eqb (nth i (map t_chal l1) []) (nth i (map t_chal l2) []))).
      * intros i Hi Hb. apply in_seq in Hi. apply (CH i).
        { apply nth_error_nth'. lia. }
        { intros E. rewrite E in Hb.
          assert (X : bytes_eqb (nth i (map t_chal l2) []) (nth i (map t_chal l2) []) = true)
            by (apply bytes_eqb_spec; auto). rewrite X in Hb. discriminate. }
      * rewrite <- Ln1. exact TC.
Qed.

(** Every extracted pair is a witness of its leaf, whatever the challenges. *)
Lemma extract_sound : 2 ^ 192 < gord G -> forall s (t1 t2 : transcript), accepting s t1 -> accepting s t2 ->
  first_messages t1 = first_messages t2 ->
  forall p w, In (p, w) (extract s t1 t2) -> witness p w.
Proof.
  intros Hq. apply (sbool_ind' (fun s => forall t1 t2 : transcript, accepting s t1 -> accepting s t2 ->
    first_messages t1 = first_messages t2 -> forall p w, In (p, w) (extract s t1 t2) -> witness p w)).
  - intros b t1 t2 H. destruct t1; simpl in H; tauto.
  - intros p t1 t2 A1 A2 HF p' w Hin.
    destruct t1 as [m1 e1 z1|], t2 as [m2 e2 z2|]; simpl in A1, A2; try tauto.
    simpl in HF. injection HF as <-. cbn [extract] in Hin.
    destruct (bytes_eqb e1 e2) eqn:E; [destruct Hin|].
    destruct Hin as [Hin|[]]. injection Hin as <- <-.
    apply extract_leaf_witness with m1; try tauto.
    intros ->. assert (bytes_eqb e2 e2 = true) by (apply bytes_eqb_spec; auto). congruence.
  - intros c l IH t1 t2 A1 A2 HF p w Hin.
    destruct t1 as [|e1 cs1 l1], t2 as [|e2 cs2 l2]; simpl in A1, A2; try tauto.
    destruct A1 as (_ & A1 & _), A2 as (_ & A2 & _).
    simpl in HF. injection HF as HF. cbn [extract] in Hin. clear c.
    revert l1 l2 A1 A2 HF Hin. induction l as [|x l IHl]; intros [|y1 l1] [|y2 l2] A1 A2 HF Hin;
      simpl in A1, A2, HF, Hin; try tauto; try discriminate.
    inversion IH; subst. injection HF as F1 F2. apply in_app_or in Hin. destruct Hin as [Hin|Hin].
    + eapply (H1 y1 y2); try tauto.
    + eapply (IHl H2 l1 l2); try tauto.
Qed.
End Soundness.
