(** Proof encoding, Fiat-Shamir string, serialization and normalization of
    sigma propositions. *)
From Verif Require Import Base VlqModel VlqProofs GfModel GfProofs GfBytesProofs PolyProofs GfProps.
From Verif Require Import GroupModel GroupProofs SigmaModel SigmaSpec SigmaProofs VerifierProofs SoundnessProofs.
From Coq Require Import Znumtheory Permutation.
Local Open Scope Z_scope.
#[local] Opaque gf_mul gf_add evaluate gf_to_bytes gf_from_bytes24 poly_of_chal be_bytes.

Lemma all2_length : forall A B (P : A -> B -> Prop) l1 l2, all2 P l1 l2 -> length l1 = length l2.
Proof. intros A B P l1 l2 H. apply all2_Forall2 in H. eapply Forall2_length'; eauto. Qed.

Lemma coeffs_bytes : forall c cs,
  poly_to_bytes (Poly (c :: cs) (length cs)) = flat_map gf_to_bytes cs.
Proof.
  intros c cs. unfold poly_to_bytes, coeff. cbn [degree coefficients].
  rewrite !flat_map_concat_map. f_equal.
  rewrite <- (map_map (fun i => nth i (c :: cs) gf_zero) gf_to_bytes). f_equal.
  rewrite <- seq_shift, map_map.
  rewrite <- (map_nth_seq _ cs gf_zero) at 2. reflexivity.
Qed.

Section Encoding.
Context {G : group} (HG : group_ok G).
Notation leaf := (leaf G). Notation sbool := (sbool G). Notation fmsg := (fmsg G).
Notation utree := (utree G). Notation transcript := (transcript G).

(** ** C15 *)
Lemma consistent_accepting : forall s (u : utree), consistent s u ->
  matches s u /\ accepting s (tr u).
Proof.
  apply (sbool_ind' (fun s => forall u : utree, consistent s u -> matches s u /\ accepting s (tr u))).
  - intros b u H. destruct u; simpl in H; tauto.
  - intros p [p' cm e z|] H; simpl in H; [|tauto]. destruct H as (-> & He & Hz).
    split; [reflexivity|]. simpl. split; auto. split; auto. apply (leaf_accepts_iff HG). auto.
  - intros c l IH [|c' e us] H; simpl in H; [tauto|]. destruct H as (He & HA & HR).
    assert (HL : all2 matches l us /\ all2 accepting l (map tr us)).
    { clear HR. revert us HA. induction l as [|x l IHl]; intros [|u us] HA; simpl in HA; try tauto.
      inversion IH; subst. destruct HA as [HA1 HA2]. apply H1 in HA1. apply IHl in HA2; auto.
      simpl. tauto. }
    destruct HL as [HM HAc]. cbn [matches tr accepting].
    rewrite map_t_chal_tr.
    destruct c, c'; simpl in HR; try tauto.
    + simpl. auto 10.
    + simpl. auto 10.
    + destruct HR as (-> & cs & -> & Hcs). cbn [kind_matches uconj_cs coefficients tl chal_rule].
      split; [|auto]. split; auto.
Qed.

Lemma layouts_each : forall (l : list sbool) us,
  Forall (fun x => forall u : utree, matches x u -> accepting x (tr u) -> forall b,
     exists bs, sig_write u b = Ok bs /\ bytes_ok bs /\ layout b x (tr u) bs) l ->
  all2 matches l us -> all2 accepting l (map tr us) ->
  exists bs, write_each (fun x => sig_write x false) us = Ok bs /\ bytes_ok bs /\
    layouts (fun b x t y => layout b x t y) false l (map tr us) bs.
Proof.
  induction l as [|x l IH]; intros [|u us] HF HM HA; simpl in HM, HA; try tauto.
  - exists []. simpl. repeat split; auto. constructor.
  - inversion HF; subst. destruct HM as [M1 M2], HA as [A1 A2].
    destruct (H1 u M1 A1 false) as (b1 & W1 & B1 & L1).
    destruct (IH us H2 M2 A2) as (b2 & W2 & B2 & L2).
    exists (b1 ++ b2). cbn [write_each]. rewrite W1. cbn [bind]. rewrite W2. cbn [bind].
    split; [reflexivity|]. split; [apply bytes_ok_app; auto|].
    cbn [map layouts]. exists b1, b2. split; auto. split; auto. destruct l; auto.
Qed.

Lemma layouts_but_last : forall (l : list sbool) us,
  Forall (fun x => forall u : utree, matches x u -> accepting x (tr u) -> forall b,
     exists bs, sig_write u b = Ok bs /\ bytes_ok bs /\ layout b x (tr u) bs) l ->
  all2 matches l us -> all2 accepting l (map tr us) ->
  exists bs, write_all_but_last sig_write us = Ok bs /\ bytes_ok bs /\
    layouts (fun b x t y => layout b x t y) true l (map tr us) bs.
Proof.
  induction l as [|x l IH]; intros [|u us] HF HM HA; simpl in HM, HA; try tauto.
  - exists []. simpl. repeat split; auto. constructor.
  - inversion HF; subst. destruct HM as [M1 M2], HA as [A1 A2].
    destruct (IH us H2 M2 A2) as (b2 & W2 & B2 & L2).
    destruct l as [|y l], us as [|v us]; try (simpl in M2; tauto).
    + destruct (H1 u M1 A1 false) as (b1 & W1 & B1 & L1).
      exists b1. split; [exact W1|]. split; auto. cbn [map layouts]. exists b1, [].
      rewrite app_nil_r. auto.
    + destruct (H1 u M1 A1 true) as (b1 & W1 & B1 & L1).
      exists (b1 ++ b2).
      assert (E : write_all_but_last sig_write (u :: v :: us) =
        (b1 <- sig_write u true ;; b2 <- write_all_but_last sig_write (v :: us) ;; Ok (b1 ++ b2)))
        by reflexivity.
      rewrite E, W1. cbn [bind]. rewrite W2. cbn [bind]. split; [reflexivity|].
      split; [apply bytes_ok_app; auto|]. exists b1, b2. auto.
Qed.

Lemma scalar_bytes_value : forall z, @scalar_ok G z -> be_value (scalar_bytes z) mod gord G = z.
Proof.
  intros z Hz. unfold scalar_bytes. rewrite be_value_bytes.
  change (256 ^ Z.of_nat 32) with (2 ^ 256). unfold scalar_ok in Hz.
  pose proof (g_ord_bound _ HG). rewrite (Z.mod_small z) by lia. apply Z.mod_small. auto.
Qed.

Lemma sig_write_layout : forall s, sb_wf s -> forall u : utree, matches s u -> accepting s (tr u) -> forall b,
  exists bs, sig_write u b = Ok bs /\ bytes_ok bs /\ layout b s (tr u) bs.
Proof.
  apply (sbool_ind' (fun s => sb_wf s -> forall u : utree, matches s u -> accepting s (tr u) -> forall b,
    exists bs, sig_write u b = Ok bs /\ bytes_ok bs /\ layout b s (tr u) bs)).
  - intros b _ u H. destruct u; simpl in H; tauto.
  - intros p _ [p' cm e z|] HM HA b; simpl in HM; [|tauto]. subst p'.
    cbn [tr accepting] in HA. destruct HA as (He & Hz & _).
    exists ((if b then e else []) ++ scalar_bytes z). split; [reflexivity|].
    split; [apply bytes_ok_app; split; [destruct b; [apply He|constructor]|apply be_bytes_ok]|].
    cbn [tr layout t_chal]. exists (scalar_bytes z). split; [reflexivity|].
    split; [apply be_bytes_length|apply scalar_bytes_value; auto].
  - intros c l IH Hwf [|c' e us] HM HA b; [simpl in HM; tauto|].
    cbn [sb_wf] in Hwf. destruct Hwf as (Hc & Hlen & Hl). apply fold_and_Forall in Hl.
    assert (IH' : Forall (fun x => forall u : utree, matches x u -> accepting x (tr u) -> forall b,
     exists bs, sig_write u b = Ok bs /\ bytes_ok bs /\ layout b x (tr u) bs) l).
    { rewrite Forall_forall in *. intros x Hx. apply IH; auto. }
    clear IH. cbn [matches] in HM. destruct HM as [HK HM].
    pose proof (all2_length _ _ _ _ _ HM) as Lus.
    cbn [tr accepting] in HA. destruct HA as (He & HA & HR).
    assert (Bp : bytes_ok (if b then e else [])) by (destruct b; [apply He|constructor]).
    cbn [tr layout t_chal sig_write u_chal].
    destruct c as [| |k], c' as [| |k' q]; simpl in HK; try tauto.
    + destruct (layouts_each l us IH' HM HA) as (bs & W & B & L).
      rewrite W. cbn [bind]. exists ((if b then e else []) ++ bs). split; [reflexivity|].
      split; [apply bytes_ok_app; auto|].
      exists bs. split; auto. exists bs. split; auto.
    + destruct (layouts_but_last l us IH' HM HA) as (bs & W & B & L).
      rewrite W. cbn [bind]. exists ((if b then e else []) ++ bs). split; [reflexivity|].
      split; [apply bytes_ok_app; auto|].
      exists bs. split; auto. exists bs. split; auto.
    + destruct HK as [<- Eq]. cbn [uconj_cs] in HR.
      destruct (layouts_each l us IH' HM HA) as (bs & W & B & L).
      rewrite Eq. remember (tl (coefficients q)) as cs eqn:Ecs.
      cbn [chal_rule] in HR. destruct HR as (Wcs & Lcs & _).
      rewrite coeffs_bytes. unfold Zlen in *. rewrite !map_length in Lcs. rewrite flat_bytes_length.
      replace (Z.of_nat (length us) <? k) with false by lia.
      replace (Z.of_nat (length cs * 24) =? (Z.of_nat (length us) - k) * 24) with true by lia.
      cbn [negb]. rewrite W. cbn [bind]. eexists. split; [reflexivity|].
      split; [apply bytes_ok_app; split; auto; apply bytes_ok_app; split; auto; apply flat_bytes_ok|].
      eexists. split; [reflexivity|]. cbn [uconj_cs coefficients tl]. exists bs. split; auto.
Qed.

(** The parser never fills in commitments. *)
Lemma rei_all : forall A B (Q : B -> Prop) (f : nat -> A -> reader B) l i bs us rest,
  (forall j x bs u rest, In x l -> f j x bs = Ok (u, rest) -> Q u) ->
  read_each_i f i l bs = Ok (us, rest) -> Forall Q us.
Proof.
  induction l as [|x l IH]; intros i bs us rest Hf H; cbn [read_each_i] in H.
  - injection H as <- <-. constructor.
  - apply bind_ok in H. destruct H as [[u b1] [H1 H]].
    apply bind_ok in H. destruct H as [[ul b2] [H2 H]]. injection H as <- <-.
    constructor; [eapply Hf; eauto; left; auto|].
    eapply IH; [|exact H2]. intros; eapply Hf; eauto. right; auto.
Qed.
Lemma ror_all : forall A (Q : utree -> Prop) (f : A -> option challenge -> reader utree) l acc bs us rest,
  (forall x co bs u rest, In x l -> f x co bs = Ok (u, rest) -> Q u) ->
  read_or f l acc bs = Ok (us, rest) -> Forall Q us.
Proof.
  induction l as [|x l IH]; intros acc bs us rest Hf H.
  - simpl in H. injection H as <- <-. constructor.
  - destruct l as [|y l].
    + cbn [read_or] in H. apply bind_ok in H. destruct H as [[u b1] [H1 H]].
      injection H as <- <-. constructor; [eapply Hf; eauto; left; auto|constructor].
    + remember (y :: l) as l' eqn:El.
      assert (H' : ('(u, bs) <- f x None bs ;;
        '(us, bs) <- read_or f l' (chal_xor acc (u_chal u)) bs ;; Ok (u :: us, bs)) = Ok (us, rest)).
      { rewrite <- H. rewrite El. reflexivity. }
      clear H. apply bind_ok in H'. destruct H' as [[u b1] [H1 H]].
      apply bind_ok in H. destruct H as [[ul b2] [H2 H]]. injection H as <- <-.
      constructor; [eapply Hf; eauto; left; auto|].
      eapply IH; [|exact H2]. intros; eapply Hf; eauto. right; auto.
Qed.

Lemma map_id_Forall : forall A (f : A -> A) l, Forall (fun x => f x = x) l -> map f l = l.
Proof. induction 1; simpl; congruence. Qed.

Lemma parse_forget : forall (s : sbool) co bs u rest, parse_sig s co bs = Ok (u, rest) -> forget u = u.
Proof.
  apply (sbool_ind' (fun s => forall co bs u rest, parse_sig s co bs = Ok (u, rest) -> forget u = u)).
  - intros b co bs u rest H. cbn [parse_sig] in H. apply bind_ok in H.
    destruct H as [[e b1] [_ H]]. discriminate.
  - intros p co bs u rest H. cbn [parse_sig] in H. apply bind_ok in H.
    destruct H as [[e b1] [_ H]]. apply bind_ok in H. destruct H as [[zb b2] [_ H]].
    injection H as <- <-. reflexivity.
  - intros c l IH co bs u rest H. rewrite Forall_forall in IH. cbn [parse_sig] in H. apply bind_ok in H.
    destruct H as [[e b1] [_ H]]. destruct c as [| |k].
    + apply bind_ok in H. destruct H as [[us b2] [H1 H]]. injection H as <- <-.
      rewrite (read_each_is_i _ _ _ l 0) in H1.
      apply (rei_all _ _ (fun u => forget u = u)) in H1.
      * cbn [forget]. rewrite map_id_Forall; auto.
      * intros j x bs' u' rest' Hx. apply IH; auto.
    + apply bind_ok in H. destruct H as [[us b2] [H1 H]]. injection H as <- <-.
      apply (ror_all _ (fun u => forget u = u)) in H1.
      * cbn [forget]. rewrite map_id_Forall; auto.
      * intros x co' bs' u' rest' Hx. apply IH; auto.
    + destruct (Zlen l <? k); [discriminate|].
      apply bind_ok in H. destruct H as [[cb b2] [_ H]].
      apply bind_ok in H. destruct H as [q [_ H]].
      apply bind_ok in H. destruct H as [[us b3] [H1 H]]. injection H as <- <-.
      apply (rei_all _ _ (fun u => forget u = u)) in H1.
      * cbn [forget]. rewrite map_id_Forall; auto.
      * intros j x bs' u' rest' Hx. apply IH; auto.
Qed.

Lemma tr_forget_inj : forall s (u u' : utree), matches s u -> matches s u' -> tr u = tr u' ->
  forget u = forget u'.
Proof.
  apply (sbool_ind' (fun s => forall u u' : utree, matches s u -> matches s u' -> tr u = tr u' ->
    forget u = forget u')).
  - intros b u u' H. destruct u; simpl in H; tauto.
  - intros p [p1 cm1 e1 z1|] [p2 cm2 e2 z2|] H1 H2 HT; simpl in H1, H2; try tauto.
    subst p1 p2. cbn [tr] in HT. injection HT as _ -> ->. reflexivity.
  - intros c l IH [|c1 e1 l1] [|c2 e2 l2] H1 H2 HT; try (simpl in H1, H2; tauto).
    cbn [matches] in H1, H2. destruct H1 as [K1 M1], H2 as [K2 M2].
    cbn [tr] in HT. injection HT as -> Ecs HT. cbn [forget]. f_equal.
    + destruct c, c1, c2; simpl in K1, K2; try tauto.
      destruct K1 as [<- Q1], K2 as [<- Q2]. cbn [uconj_cs] in Ecs. rewrite Q1, Q2, Ecs. reflexivity.
    + clear K1 K2 Ecs. revert l1 l2 M1 M2 HT.
      induction l as [|x l IHl]; intros [|u1 l1] [|u2 l2] M1 M2 HT; simpl in M1, M2; try tauto.
      inversion IH; subst. cbn [map] in *. injection HT as T1 T2. f_equal; [apply H1; tauto|].
      apply IHl; tauto.
Qed.

Theorem sig_roundtrip : forall s (u : utree), sb_wf s -> consistent s u ->
  exists bs, serialize_sig u = Ok bs /\ bytes_ok bs /\
    forall rest, parse_sig s None (bs ++ rest) = Ok (forget u, rest).
Proof.
  intros s u Hwf Hc. destruct (consistent_accepting s u Hc) as [HM HA].
  destruct (sig_write_layout s Hwf u HM HA true) as (bs & W & B & L).
  exists bs. split; auto. split; auto. intros rest.
  destruct (parse_complete HG s Hwf (tr u) true bs rest HA L) as (u' & HP & HT & M').
  cbv iota in HP. rewrite HP. f_equal. f_equal.
  rewrite <- (parse_forget s _ _ _ _ HP).
  apply tr_forget_inj with s; auto.
Qed.
End Encoding.
