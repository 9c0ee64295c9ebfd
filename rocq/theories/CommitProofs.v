(** The prover without hints, continued: simulating, committing and proving. *)
From Verif Require Import Base VlqModel VlqProofs GfModel GfProofs GfBytesProofs PolyProofs GfProps.
From Verif Require Import GroupModel GroupProofs SigmaModel SigmaSpec SigmaProofs VerifierProofs.
From Verif Require Import SoundnessProofs EncodingProofs SbProofs ProverModel ProverProofs.
Local Open Scope Z_scope.
#[local] Opaque gf_mul gf_add evaluate gf_to_bytes gf_from_bytes24 poly_of_chal be_bytes interpolate.

Section CommitProofs.
Context {G : group} (HG : group_ok G).
Notation leaf := (leaf G). Notation sbool := (sbool G). Notation fmsg := (fmsg G).
Notation ptree := (ptree G). Notation utree := (utree G).
Variable secrets : list (secret G).
Variable rnd : randomness.
Hypothesis Hrnd : randomness_ok (G:=G) rnd.
Hypothesis Hsec : Forall secret_ok secrets.
Notation known := (secret_known secrets []).
Notation Pol := (Pol secrets).

(** ** Stage 3: simulating and committing *)
Definition open_ (t : ptree) : bool := match p_chal t with None => true | Some _ => false end.
Definition opens (l : list ptree) : nat := length (filter open_ l).
Definition poly_ok (c : ckind) (c' : pconj) (e : challenge) (cs : list gf) : Prop :=
  match c, c' with
  | And, PAnd => True
  | Or, POr => True
  | Thr k, PThr k' (Some q) => k' = k /\ q = Poly (chal_gf e :: cs) (length cs)
  | _, _ => False
  end.
Fixpoint Com (s : sbool) (t : ptree) : Prop :=
  match s, t with
  | SLeaf p, PLeaf p' (Some m) (Some x) None false _ =>
      p' = p /\ m = first_message p x /\ known p = true
  | SLeaf p, PUnchecked (ULeaf p' (Some m) e z) =>
      p' = p /\ chal_ok e /\ @scalar_ok G z /\ m = simulate p e z
  | SConj c l, PConj c' prop e sim _ ts =>
      prop = s /\ all2 Com l ts /\
      match sim, e with
      | true, Some e0 => chal_ok e0 /\ exists es cs, map p_chal ts = map Some es /\
          poly_ok c c' e0 cs /\ chal_rule c e0 cs es
      | false, None =>
          c' = pconj_of c /\
          match c with
          | And => Forall (fun t => p_chal t = None) ts
          | Or => opens ts = 1%nat
          | Thr k => opens ts = Z.to_nat k
          end
      | _, _ => False
      end
  | _, _ => False
  end.

Definition give (o : option challenge) (t : ptree) : ptree :=
  match o with Some e => with_challenge e t | None => t end.
Definition fit (o : option challenge) (t : ptree) : Prop :=
  match o with Some e => simulated t = true /\ chal_ok e | None => simulated t = false end.
Fixpoint gives (os : list (option challenge)) (ts : list ptree) : list ptree :=
  match os, ts with
  | o :: os', t :: ts' => give o t :: gives os' ts'
  | _, _ => []
  end.
Definition commit_at (fuel : nat) (s : sbool) : Prop :=
  forall t, Pol s t -> forall o, fit o t ->
  exists t', rewrite_td fuel (sim_step [] rnd) (give o t) = Ok t' /\ Com s t' /\ p_chal t' = o.

Lemma commit_children : forall fuel l ts os,
  Forall (commit_at fuel) l -> all2 Pol l ts -> Forall2 fit os ts ->
  exists ts', map_res (rewrite_td fuel (sim_step [] rnd)) (gives os ts) = Ok ts' /\
    all2 Com l ts' /\ map p_chal ts' = os.
Proof.
  induction l as [|x l IH]; intros [|t ts] os HI HP HF; simpl in HP; try tauto.
  - inversion HF; subst. exists []. cbn. auto.
  - inversion HF as [|o ? os' ? F1 F2]; subst. inversion HI; subst. destruct HP as [P1 P2].
    destruct (IH ts os') as (ts' & E & C & M); auto.
    destruct (H1 t P1 o F1) as (t' & Et & Ct & Mt).
    exists (t' :: ts'). cbn [gives map_res]. rewrite Et. cbn [bind]. rewrite E. cbn [bind all2 map].
    rewrite Mt, M. auto.
Qed.

Lemma gives_none : forall ts, gives (map (fun _ => None) ts) ts = ts.
Proof. induction ts as [|t ts IH]; cbn; congruence. Qed.
Lemma gives_map : forall (f : ptree -> option challenge) ts, gives (map f ts) ts = map (fun t => give (f t) t) ts.
Proof. induction ts as [|t ts IH]; cbn; congruence. Qed.
Lemma Forall2_map_l : forall A B (f : B -> A) (R : A -> B -> Prop) l,
  Forall (fun x => R (f x) x) l -> Forall2 R (map f l) l.
Proof. induction 1; cbn; constructor; auto. Qed.
Lemma map_res_eq : forall A B (f : A -> res B) l l', l = l' -> map_res f l = map_res f l'.
Proof. intros; subst; auto. Qed.

Lemma Pol_unproven : forall s t, Pol s t -> is_unproven t = true.
Proof. intros [b|p|c l] [u|p' cm r e sim pos|c' p' e sim pos ts]; simpl; tauto. Qed.
Lemma Pols_unproven : forall l ts, all2 Pol l ts -> Forall (fun t => is_unproven t = true) ts.
Proof.
  induction l as [|x l IH]; intros [|t ts] H; simpl in H; try tauto; constructor.
  - eapply Pol_unproven. apply H.
  - apply IH. tauto.
Qed.
Lemma opens_none : forall ts (os : list (option challenge)), map p_chal ts = os ->
  opens ts = length (filter (fun o => match o with None => true | _ => false end) os).
Proof.
  intros ts os <-. unfold opens, open_. induction ts as [|t ts IH]; cbn; auto.
  destruct (p_chal t); cbn; congruence.
Qed.

Lemma poly_bytes_len : forall e cs, Zlen (poly_to_bytes (Poly (chal_gf e :: cs) (length cs))) = Zlen cs * 24.
Proof.
  intros. rewrite coeffs_bytes. unfold Zlen. rewrite flat_bytes_length. lia.
Qed.

Lemma imap_gives : forall f (ts : list ptree) i,
  imap (fun i t => with_challenge (f i) t) i ts = gives (map (fun j => Some (f j)) (seq i (length ts))) ts.
Proof. induction ts as [|t ts IH]; intros i; cbn; auto. rewrite IH. reflexivity. Qed.
Lemma map_Some_seq : forall (f : nat -> challenge) i n,
  map (fun j => Some (f j)) (seq i n) = map Some (map f (seq i n)).
Proof. intros. rewrite map_map. reflexivity. Qed.

Lemma step4_child_give : forall t : ptree, is_unproven t = true ->
  step4_child [] rnd t = give (if is_real t then None else Some (r_chal rnd (position_of t))) t.
Proof. intros t _. unfold step4_child. destruct (is_real t); reflexivity. Qed.

Lemma commit_spec : forall s, sb_wf s -> thr_ok s -> forall fuel, (depth s <= fuel)%nat -> commit_at fuel s.
Proof.
  pose proof Hrnd as (Hr1 & Hr2 & Hr3).
  apply (sbool_ind' (fun s => sb_wf s -> thr_ok s -> forall fuel, (depth s <= fuel)%nat -> commit_at fuel s)).
  - intros b _ _ fuel _ t HP. destruct t; simpl in HP; tauto.
  - intros p _ _ [|fuel] Hf; [simpl in Hf; lia|]. intros t HP o Ho.
    destruct t as [u|p' cm r e sim pos|c' p' e sim pos ts];
      try (simpl in HP; tauto).
    destruct cm; [simpl in HP; tauto|]. destruct r; [simpl in HP; tauto|].
    destruct e; [simpl in HP; tauto|]. simpl in HP. destruct HP as [-> HK].
    destruct o as [e|]; cbn [fit simulated] in Ho.
    + destruct Ho as [-> He]. eexists. cbn [give with_challenge rewrite_td sim_step step5 find_pos commitments flat_map find option_map of_option bind].
      split; [reflexivity|]. cbn [Com p_chal u_chal]. auto 6.
    + subst sim. eexists. cbn [give rewrite_td sim_step step5 find_pos commitments flat_map find option_map bind].
      split; [reflexivity|]. cbn [Com p_chal]. auto.
  - intros c l IH Hwf Hthr [|fuel] Hf; [simpl in Hf; lia|]. intros t HP o Ho.
    destruct t as [u|p' cm r e sim pos|c' p' e sim pos ts]; [simpl in HP; tauto| |].
    { simpl in HP. tauto. }
    destruct e; [simpl in HP; tauto|]. cbn [ProverProofs.Pol] in HP. destruct HP as (-> & -> & HP & HS).
    cbn [sb_wf] in Hwf. destruct Hwf as (Hc & Hlen & Hwl). apply fold_and_Forall in Hwl.
    cbn [thr_ok] in Hthr. destruct Hthr as [Hk Htl]. apply fold_and_Forall in Htl.
    assert (IH' : Forall (commit_at fuel) l).
    { rewrite Forall_forall in *. intros x Hx. apply IH; auto. cbn [depth] in Hf.
      pose proof (depth_max l x Hx). lia. }
    assert (Hun : Forall (fun t => is_unproven t = true) ts) by (eapply Pols_unproven; eauto).
    assert (Hl : length ts = length l) by (symmetry; eapply all2_length; eauto).
    destruct o as [e0|]; cbn [fit simulated] in Ho.
    + destruct Ho as [-> He0]. cbn [give with_challenge rewrite_td sim_step]. unfold step4.
      cbn [negb of_option bind].
      assert (HSF : forall es, length es = length ts -> Forall chal_ok es -> Forall2 fit (map Some es) ts).
      { clear - HS. intros es Hlen He. revert es Hlen He. induction ts as [|t ts IHt]; intros [|e es] Hlen He; try discriminate; constructor.
        - inversion HS; inversion He; subst. cbn [fit]. auto.
        - inversion HS; inversion He; subst. apply IHt; auto. }
      destruct c as [| |k]; cbn [pconj_of].
      * destruct (commit_children fuel l ts (map (fun _ => Some e0) ts) IH' HP) as (ts' & E & C & M).
        { rewrite <- (map_map (fun _ => e0) Some). apply HSF; [apply map_length|].
          apply Forall_map'. apply Forall_forall. auto. }
        rewrite gives_map in E. cbn [bind]. change (map (fun t : ptree => give (Some e0) t) ts) with (map (with_challenge e0) ts) in E.
        rewrite E. cbn [bind]. eexists. split; [reflexivity|]. split; [|reflexivity].
        cbn [Com]. split; auto. split; auto. split; auto.
        exists (map (fun _ => e0) ts), []. rewrite map_map. split; auto. split; [exact I|].
        cbn [chal_rule]. split; auto. apply Forall_map', Forall_forall. reflexivity.
      * destruct ts as [|t0 ts]; [unfold items_len_ok, Zlen in Hlen; simpl in Hl; lia|].
        rewrite cast_ok by auto. cbn [bind tl].
        set (rs := map (fun t : ptree => r_chal rnd (position_of t)) ts).
        set (x := chal_xor e0 (xor_all rs)).
        assert (Hrs : Forall chal_ok rs) by (unfold rs; apply Forall_map', Forall_forall; auto).
        assert (Hx : chal_ok x) by (unfold x; apply chal_xor_ok; auto; apply xor_all_ok; auto).
        assert (Efold : fold_left (fun acc t => match p_chal t with Some c => chal_xor acc c | None => acc end)
           (map (fun t => with_challenge (r_chal rnd (position_of t)) t) ts) e0 = x).
        { unfold x. rewrite <- xor_fold_left by auto. unfold rs. clear - Hun.
          inversion Hun; subst. clear Hun H1. revert e0 H2. induction ts as [|t ts IHt]; intros e0 Hu; cbn; auto.
          inversion Hu; subst. destruct t as [u| |]; [discriminate| |]; cbn [with_challenge p_chal position_of]; apply IHt; auto. }
        cbv zeta. rewrite Efold.
        destruct (commit_children fuel l (t0 :: ts) (map Some (x :: rs)) IH' HP) as (ts' & E & C & M).
        { apply HSF; [unfold rs; cbn; rewrite map_length; auto|]. constructor; auto. }
        cbn [map gives] in E. unfold rs in E at 1. rewrite map_map, gives_map in E.
        change (map (fun t : ptree => give (Some (r_chal rnd (position_of t))) t) ts) with
          (map (fun t : ptree => with_challenge (r_chal rnd (position_of t)) t) ts) in E.
        cbn [give] in E. cbn [bind]. rewrite E. cbn [bind]. eexists. split; [reflexivity|]. split; [|reflexivity].
        cbn [Com]. split; auto. split; auto. split; auto.
        exists (x :: rs), []. split; auto. split; [exact I|]. cbn [chal_rule]. split; auto.
        change (xor_all (x :: rs) = e0). cbn [xor_all fold_right]. fold (xor_all rs). unfold x.
        rewrite <- chal_xor_assoc, chal_xor_self by (apply xor_all_ok; auto). apply chal_xor_0_r; auto.
      * rewrite cast_ok by auto. cbn [bind].
        assert (HZ : Zlen ts = Zlen l) by (unfold Zlen; congruence). rewrite HZ.
        replace (Zlen l <? k) with false by (symmetry; apply Z.ltb_ge; lia).
        cbn [conj_wf] in Hc. unfold u8 in Hc. unfold items_len_ok in Hlen.
        destruct (poly_of_chal_spec e0 (r_poly rnd pos (Z.to_nat (24 * (Zlen l - k)))) (Z.to_nat (Zlen l - k)))
          as (cs & Eq & Lc & Wc & _); auto; [apply Hr2|rewrite (proj1 (Hr2 _ _)); lia|].
        rewrite Eq. cbn [bind]. rewrite <- Lc. unfold check_poly. cbn [prop_len].
        replace (Zlen l <? k) with false by (symmetry; apply Z.ltb_ge; lia).
        rewrite poly_bytes_len. replace (Zlen cs * 24 =? (Zlen l - k) * 24) with true by (symmetry; apply Z.eqb_eq; unfold Zlen in *; lia).
        cbn [bind].
        set (q := Poly (chal_gf e0 :: cs) (length cs)).
        set (f := fun i => gf_chal (evaluate q (one_based i))).
        assert (Hev : forall i, (i < length ts)%nat ->
           evaluate q (one_based i) = gf_powers_sum (chal_gf e0 :: cs) (Gf (N.of_nat (S i)) 0 0)).
        { intros i Hi. assert (HiZ : Z.of_nat i + 1 < 256) by (unfold Zlen in *; lia).
          rewrite one_based_val by exact HiZ. apply poly_eval; auto; [apply chal_gf_wf; auto|].
          apply (N2Z.inj_lt _ 256). lia. }
        assert (Hwf_ev : forall i, (i < length ts)%nat -> wf (evaluate q (one_based i))).
        { intros i Hi. rewrite Hev by auto. apply gf_powers_sum_wf; [|constructor; auto; apply chal_gf_wf; auto].
          apply point_wf. apply (N2Z.inj_lt _ 256). unfold Zlen in *. lia. }
        destruct (commit_children fuel l ts (map Some (map f (seq 0 (length ts)))) IH' HP) as (ts' & E & C & M).
        { apply HSF; [rewrite map_length, seq_length; auto|]. apply Forall_map', Forall_forall.
          intros i Hi. apply in_seq in Hi. apply gf_chal_ok, Hwf_ev. lia. }
        rewrite <- map_Some_seq, <- imap_gives in E. unfold f in E. rewrite E. cbn [bind].
        eexists. split; [reflexivity|]. split; [|reflexivity].
        cbn [Com]. split; auto. split; auto. split; auto.
        exists (map f (seq 0 (length ts))), cs. split; auto. split; [cbn [poly_ok]; auto|].
        cbn [chal_rule]. split; auto. split.
        { unfold Zlen in *. rewrite map_length, seq_length. lia. }
        intros i Hi. rewrite map_length, seq_length in Hi.
        rewrite (nth_indep _ [] (f 0%nat)) by (rewrite map_length, seq_length; auto).
        rewrite map_nth, seq_nth by auto. unfold f. cbn [Nat.add].
        rewrite chal_gf_chal by auto. apply Hev. auto.
    + subst sim. cbn [give rewrite_td sim_step]. unfold step4. cbn [negb].
      destruct c as [| |k]; cbn [pconj_of].
      * cbn [bind]. destruct (commit_children fuel l ts (map (fun _ => None) ts) IH' HP) as (ts' & E & C & M).
        { apply Forall2_map_l. exact HS. }
        rewrite gives_none in E. rewrite E. cbn [bind]. eexists. split; [reflexivity|]. split; [|reflexivity].
        cbn [Com]. split; auto. split; auto. split; auto.
        clear - M. revert ts M. induction ts' as [|t' ts' IHt]; intros [|t ts] M; try discriminate; constructor.
        { cbn in M. congruence. } { apply (IHt ts). cbn in M. congruence. }
      * rewrite cast_ok by auto. cbn [bind].
        set (g := fun t : ptree => if is_real t then None else Some (r_chal rnd (position_of t))).
        destruct (commit_children fuel l ts (map g ts) IH' HP) as (ts' & E & C & M).
        { apply Forall2_map_l, Forall_forall. intros t _. unfold g, fit, is_real.
          destruct (simulated t) eqn:Q; cbn [negb]; auto. }
        rewrite gives_map in E. change (map (fun t => give (g t) t) ts) with (map (step4_child [] rnd) ts) in E || idtac.
        replace (map (step4_child [] rnd) ts) with (map (fun t => give (g t) t) ts)
          by (apply map_ext_in; intros t Ht; symmetry; apply step4_child_give; rewrite Forall_forall in Hun; auto).
        rewrite E. cbn [bind]. eexists. split; [reflexivity|]. split; [|reflexivity].
        cbn [Com]. split; auto. split; auto. split; auto.
        rewrite (opens_none _ _ M). rewrite <- HS. unfold reals. clear. induction ts as [|t ts IHt]; cbn; auto.
        unfold g at 1. destruct (is_real t); cbn; congruence.
      * rewrite cast_ok by auto. cbn [bind].
        set (g := fun t : ptree => if is_real t then None else Some (r_chal rnd (position_of t))).
        destruct (commit_children fuel l ts (map g ts) IH' HP) as (ts' & E & C & M).
        { apply Forall2_map_l, Forall_forall. intros t _. unfold g, fit, is_real.
          destruct (simulated t) eqn:Q; cbn [negb]; auto. }
        rewrite gives_map in E.
        replace (map (step4_child [] rnd) ts) with (map (fun t => give (g t) t) ts)
          by (apply map_ext_in; intros t Ht; symmetry; apply step4_child_give; rewrite Forall_forall in Hun; auto).
        rewrite E. cbn [bind]. eexists. split; [reflexivity|]. split; [|reflexivity].
        cbn [Com]. split; auto. split; auto. split; auto.
        rewrite (opens_none _ _ M). rewrite <- HS. unfold reals. clear. induction ts as [|t ts IHt]; cbn; auto.
        unfold g at 1. destruct (is_real t); cbn; congruence.
Qed.

(** ** The hashed string of a committed tree *)
Fixpoint pm (t : ptree) : ctree G :=
  match t with
  | PUnchecked (ULeaf _ (Some m) _ _) => CLeaf m
  | PLeaf _ (Some m) _ _ _ _ => CLeaf m
  | PConj _ _ _ _ _ l => CNode (map pm l)
  | _ => CNode []
  end.

Lemma Com_kind : forall c l c' prop e sim pos ts, Com (SConj c l) (PConj c' prop e sim pos ts) ->
  pconj_type c' = match c with And => 0 | Or => 1 | Thr _ => 2 end /\
  pconj_k c' = match c with Thr k => Some k | _ => None end.
Proof.
  intros c l c' prop e sim pos ts H. cbn [Com] in H. destruct H as (_ & _ & H).
  destruct sim, e as [e0|]; try tauto.
  - destruct H as (_ & es & cs & _ & H & _). destruct c, c'; cbn [poly_ok] in H; try tauto; auto.
    destruct q; [|tauto]. destruct H as [-> _]. auto.
  - destruct H as [-> _]. destruct c; auto.
Qed.

Lemma fs_write_spec : forall s t, sb_wf s -> Com s t -> fs_write t = Ok (fs_string s (pm t)).
Proof.
  apply (sbool_ind' (fun s => forall t, sb_wf s -> Com s t -> fs_write t = Ok (fs_string s (pm t)))).
  - intros b t _ H. destruct t; simpl in H; tauto.
  - intros p t _ H. destruct t as [[p' cm e z|]|p' cm r e sim pos|]; try (simpl in H; tauto).
    + destruct cm as [m|]; [|simpl in H; tauto]. simpl in H. destruct H as (-> & _).
      cbn [fs_write fs_write_u pm]. apply (fs_leaf_string HG).
    + destruct cm as [m|]; [|simpl in H; tauto]. destruct r; [|simpl in H; tauto].
      destruct e; [simpl in H; tauto|]. destruct sim; [simpl in H; tauto|]. simpl in H. destruct H as (-> & _).
      cbn [fs_write pm]. apply (fs_leaf_string HG).
  - intros c l IH t Hwf H. destruct t as [u| |c' prop e sim pos ts]; try (simpl in H; tauto).
    pose proof (Com_kind _ _ _ _ _ _ _ _ H) as [K1 K2]. cbn [Com] in H. destruct H as (_ & H & _).
    cbn [sb_wf] in Hwf. destruct Hwf as (_ & Hlen & Hl). apply fold_and_Forall in Hl.
    cbn [fs_write pm]. rewrite K1, K2.
    assert (Hw : write_each fs_write ts = Ok (zip_bytes fs_string l (map pm ts))).
    { clear Hlen K1 K2. revert ts H. induction l as [|x l IHl]; intros [|t ts] H; simpl in H; try tauto.
      inversion IH; inversion Hl; subst. destruct H as [M1 M2].
      cbn [map write_each zip_bytes]. rewrite H2 by auto. cbn [bind].
      rewrite IHl by auto. reflexivity. }
    rewrite Hw. assert (Lts : length ts = length l) by (symmetry; eapply all2_length; eauto).
    unfold fs_node, items_len_ok, Zlen in *. rewrite Lts.
    rewrite i16_small by lia. cbn [bind fs_string].
    destruct c; cbn [app]; rewrite <- ?app_assoc; reflexivity.
Qed.

(** ** Stage 4: answering the challenge *)
Definition fill (e : challenge) (t : ptree) : ptree := if open_ t then with_challenge e t else t.
Fixpoint fills (es : list challenge) (ts : list ptree) : list ptree :=
  match es, ts with
  | e :: es', t :: ts' => fill e t :: fills es' ts'
  | _, _ => []
  end.
Definition agrees (e : challenge) (t : ptree) : Prop := p_chal t = None \/ p_chal t = Some e.
Definition answered (s : sbool) (m : ctree G) (e : challenge) (r : res ptree) : Prop :=
  exists t9 u, r = Ok t9 /\ convert_to_unchecked t9 = Ok u /\ consistent s u /\ u_chal u = e /\
    first_messages (tr u) = m.
Definition answer_at (fuel : nat) (s : sbool) : Prop :=
  forall t e, Com s t -> chal_ok e -> agrees e t ->
  answered s (pm t) e (rewrite_td fuel (prove_step secrets [] rnd) (fill e t)).

Lemma answer_children : forall fuel l ts es,
  Forall (answer_at fuel) l -> all2 Com l ts -> Forall2 agrees es ts -> Forall chal_ok es ->
  exists ts9 us, map_res (rewrite_td fuel (prove_step secrets [] rnd)) (fills es ts) = Ok ts9 /\
    map_res convert_to_unchecked ts9 = Ok us /\ all2 consistent l us /\ map u_chal us = es /\
    map first_messages (map tr us) = map pm ts.
Proof.
  induction l as [|x l IH]; intros [|t ts] es HI HC HA HO; simpl in HC; try tauto.
  - inversion HA; subst. exists [], []. cbn. auto 6.
  - inversion HA as [|e ? es' ? A1 A2]; subst. inversion HI; inversion HO; subst. destruct HC as [C1 C2].
    destruct (IH ts es') as (ts9 & us & E1 & E2 & E3 & E4 & E5); auto.
    destruct (H1 t e C1) as (t9 & u & F1 & F2 & F3 & F4 & F5); auto.
    exists (t9 :: ts9), (u :: us). cbn [fills map_res]. rewrite F1. cbn [bind]. rewrite E1. cbn [bind].
    split; auto. rewrite F2. cbn [bind]. rewrite E2. cbn [bind]. split; auto.
    cbn [all2 map]. rewrite F4, E4, F5, E5. auto.
Qed.

Lemma Com_chal_ok : forall s t e, Com s t -> p_chal t = Some e -> chal_ok e.
Proof.
  intros [b|p|c l] t e H HE; [destruct t; simpl in H; tauto| |].
  - destruct t as [[p' cm e' z|]|p' cm r e' sim pos|]; try (simpl in H; tauto).
    + destruct cm; [|simpl in H; tauto]. simpl in H, HE. injection HE as <-. tauto.
    + destruct cm; [|simpl in H; tauto]. destruct r; [|simpl in H; tauto].
      destruct e'; [simpl in H; tauto|]. discriminate.
  - destruct t as [u| |c' prop e' sim pos ts]; try (simpl in H; tauto). simpl in HE. subst e'.
    cbn [Com] in H. destruct H as (_ & _ & H). destruct sim; [|tauto]. tauto.
Qed.
Lemma Com_real : forall s t, Com s t -> is_unproven t && is_real t = open_ t.
Proof.
  intros [b|p|c l] t H; [destruct t; simpl in H; tauto| |].
  - destruct t as [[p' cm e' z|]|p' cm r e' sim pos|]; try (simpl in H; tauto).
    destruct cm; [|simpl in H; tauto]. destruct r; [|simpl in H; tauto].
    destruct e'; [simpl in H; tauto|]. destruct sim; [simpl in H; tauto|]. reflexivity.
  - destruct t as [u| |c' prop e' sim pos ts]; try (simpl in H; tauto).
    cbn [Com] in H. destruct H as (_ & _ & H). destruct sim, e'; try tauto; reflexivity.
Qed.
Lemma Com_not_uconj : forall s c e l, ~ Com s (PUnchecked (UConj c e l)).
Proof. intros [b|p|c l] c' e l' H; simpl in H; tauto. Qed.

Lemma coms_real_child : forall l ts (f : nat -> challenge) i, all2 Com l ts ->
  imap (fun i t => real_child (f i) t) i ts = fills (map f (seq i (length ts))) ts.
Proof.
  induction l as [|x l IH]; intros [|t ts] f i H; simpl in H; try tauto; auto.
  destruct H as [H1 H2]. cbn [imap length seq map fills]. rewrite IH by auto. f_equal.
  unfold real_child, fill. rewrite (Com_real _ _ H1). reflexivity.
Qed.
Lemma fills_const : forall ts e, map (fill e) ts = fills (map (fun _ => e) ts) ts.
Proof. induction ts as [|t ts IH]; intros e; cbn; [auto|]. rewrite IH. reflexivity. Qed.
(** Filling with [es] only looks at the challenges of open trees. *)
Lemma fills_ext : forall ts es es', length es = length ts -> length es' = length ts ->
  (forall i t, nth_error ts i = Some t -> open_ t = true -> nth i es [] = nth i es' []) ->
  fills es ts = fills es' ts.
Proof.
  induction ts as [|t ts IH]; intros [|e es] [|e' es'] L1 L2 H; try discriminate; auto.
  cbn [fills]. f_equal.
  - unfold fill. destruct (open_ t) eqn:Q; auto. rewrite (H 0%nat t eq_refl Q : e = e'). reflexivity.
  - apply IH; auto. intros i t' Hi Ho. apply (H (S i) t' Hi Ho).
Qed.

(** The challenges after filling open children from [f]. *)
Definition final (f : nat -> challenge) (i : nat) (t : ptree) : challenge :=
  match p_chal t with Some e => e | None => f i end.
Definition finals (f : nat -> challenge) (i : nat) (ts : list ptree) : list challenge := imap (final f) i ts.

Lemma imap_length : forall A B (f : nat -> A -> B) l i, length (imap f i l) = length l.
Proof. induction l as [|x l IH]; intros i; cbn; auto. Qed.
Lemma imap_nth : forall A B (f : nat -> A -> B) l i j d d', (j < length l)%nat ->
  nth j (imap f i l) d = f (i + j)%nat (nth j l d').
Proof.
  induction l as [|x l IH]; intros i j d d' H; [simpl in H; lia|].
  destruct j as [|j]; cbn [imap nth]; [f_equal; lia|]. rewrite (IH (S i) j d d') by (simpl in H; lia). f_equal. lia.
Qed.

Lemma finals_fill : forall ts f i, fills (map f (seq i (length ts))) ts = fills (finals f i ts) ts.
Proof.
  induction ts as [|t ts IH]; intros f i; cbn [length seq map fills finals imap]; auto.
  change (imap (final f) (S i) ts) with (finals f (S i) ts). rewrite <- IH. f_equal.
  unfold fill, final, open_. destruct (p_chal t); reflexivity.
Qed.
Lemma finals_agrees : forall ts f i, Forall2 agrees (finals f i ts) ts.
Proof.
  induction ts as [|t ts IH]; intros f i; cbn; constructor.
  - unfold agrees, final. destruct (p_chal t); auto.
  - apply IH.
Qed.
Lemma finals_ok : forall l ts f i, all2 Com l ts ->
  (forall j, (i <= j < i + length ts)%nat -> chal_ok (f j)) -> Forall chal_ok (finals f i ts).
Proof.
  induction l as [|x l IH]; intros [|t ts] f i H Hf; simpl in H; try tauto; cbn; constructor.
  - unfold final. destruct (p_chal t) eqn:E; [eapply Com_chal_ok; [apply H|auto]|apply Hf; simpl; lia].
  - apply (IH ts f (S i)); [tauto|]. intros j Hj. apply Hf. simpl. lia.
Qed.

(** XOR over the children with a challenge. *)
Lemma or_fold : forall ts e0,
  fold_left (fun acc (t : ptree) => match p_chal t with Some c => chal_xor acc c | None => acc end) ts e0 =
  fold_left chal_xor (flat_map (fun t => match p_chal t with Some c => [c] | None => [] end) ts) e0.
Proof.
  induction ts as [|t ts IH]; intros e0; cbn; auto. destruct (p_chal t); cbn; apply IH.
Qed.
Lemma or_finals : forall l ts x i, all2 Com l ts -> chal_ok x -> opens ts = 1%nat ->
  xor_all (finals (fun _ => x) i ts) =
  chal_xor x (xor_all (flat_map (fun t => match p_chal t with Some c => [c] | None => [] end) ts)).
Proof.
  assert (Hok : forall l ts, all2 Com l ts ->
    Forall chal_ok (flat_map (fun t => match p_chal t with Some c => [c] | None => [] end) ts)).
  { induction l as [|y l IH]; intros [|t ts] H; simpl in H; try tauto; cbn; [constructor|].
    destruct (p_chal t) eqn:E; cbn [app]; [constructor|]; try (apply IH; tauto). eapply Com_chal_ok; [apply H|auto]. }
  assert (Z0 : forall l ts x i, all2 Com l ts -> opens ts = 0%nat ->
    xor_all (finals (fun _ => x) i ts) =
    xor_all (flat_map (fun t => match p_chal t with Some c => [c] | None => [] end) ts)).
  { induction l as [|y l IH]; intros [|t ts] x i H Ho; simpl in H; try tauto.
    cbn [finals imap flat_map]. unfold final at 1. unfold opens in Ho. cbn [filter] in Ho. unfold open_ at 1 in Ho.
    destruct (p_chal t); [|discriminate]. cbn [app]. cbn [xor_all fold_right].
    f_equal. apply (IH ts x (S i)); tauto. }
  induction l as [|y l IH]; intros [|t ts] x i H Hx Ho; simpl in H; try tauto; [discriminate|].
  destruct H as [H1 H2]. cbn [finals imap flat_map]. unfold final at 1. unfold opens in Ho. cbn [filter] in Ho.
  unfold open_ at 1 in Ho. destruct (p_chal t) as [c|] eqn:E; cbn [app xor_all fold_right] in *.
  - change (fold_right chal_xor zero_chal (imap (final (fun _ => x)) (S i) ts)) with (xor_all (finals (fun _ => x) (S i) ts)).
    rewrite (IH ts x (S i)) by auto.
    rewrite chal_xor_assoc, (chal_xor_comm c x), <- chal_xor_assoc. reflexivity.
  - f_equal. apply (Z0 l ts x (S i)); [exact H2|]. unfold opens. cbn [length] in Ho. lia.
Qed.

(** Interpolation points of a real threshold. *)
Lemma thr_points_spec : forall l ts i, all2 Com l ts -> Z.of_nat (i + length ts) < 256 ->
  exists ps vs, thr_points i ts = Ok (ps, vs) /\ length ps = length vs /\
    (length ps + opens ts = length ts)%nat /\ NoDup ps /\ Forall wf vs /\
    Forall (fun p => exists j, (i <= j < i + length ts)%nat /\ p = N.of_nat (S j)) ps /\
    forall j t e, nth_error ts j = Some t -> p_chal t = Some e ->
      exists m, (m < length ps)%nat /\ nth m ps 0%N = N.of_nat (S (i + j)) /\ nth m vs gf_zero = chal_gf e.
Proof.
  induction l as [|x l IH]; intros [|t ts] i H Hi; simpl in H; try tauto.
  - exists [], []. cbn. repeat split; auto; try constructor. intros [|j] t e Hj; discriminate.
  - destruct H as [H1 H2]. cbn [length] in Hi.
    destruct (IH ts (S i) H2) as (ps & vs & E & L & C & ND & W & R & SP); [lia|].
    cbn [thr_points].
    assert (Ee : match t with
           | PUnchecked (UConj _ _ _) => Err "unexpected UncheckedConjecture"
           | PUnchecked (ULeaf _ _ e _) => Ok (Some e)
           | _ => Ok (p_chal t)
           end = Ok (p_chal t)).
    { destruct t as [[p cm e z|]| |]; auto. exfalso. eapply Com_not_uconj; eauto. }
    rewrite Ee. cbn [bind]. rewrite E. cbn [bind].
    assert (R' : forall ps', Forall (fun p => exists j, (S i <= j < S i + length ts)%nat /\ p = N.of_nat (S j)) ps' ->
      Forall (fun p => exists j, (i <= j < i + length (t :: ts))%nat /\ p = N.of_nat (S j)) ps').
    { intros ps' HR. eapply Forall_impl; [|exact HR]. intros p (j & Hj & ->). exists j. split; auto. cbn [length]. lia. }
    destruct (p_chal t) as [e|] eqn:Ep.
    + exists (one_based i :: ps), (chal_gf e :: vs). rewrite one_based_val by lia.
      split; auto. split; [cbn; auto|]. split; [|split; [|split; [|split]]].
      * unfold opens in *. cbn [filter]. unfold open_ at 1. rewrite Ep. cbn [length]. lia.
      * constructor; auto. intros Hin. rewrite Forall_forall in R. apply R in Hin.
        destruct Hin as (j & Hj & Ej). lia.
      * constructor; auto. apply chal_gf_wf. eapply Com_chal_ok; eauto.
      * constructor; [exists i; split; auto; cbn [length]; lia|]. apply R'. auto.
      * intros [|j] t' e' Hj He'.
        -- cbn in Hj. injection Hj as <-. rewrite Ep in He'. injection He' as <-.
           exists 0%nat. cbn [length nth]. split; [lia|]. split; [do 2 f_equal; lia|reflexivity].
        -- destruct (SP j t' e' Hj He') as (m & M1 & M2 & M3). exists (S m). cbn [length nth].
           split; [lia|]. split; [rewrite M2; do 2 f_equal; lia|exact M3].
    + exists ps, vs. split; auto. split; auto. split; [|split; [|split; [|split]]]; auto.
      * unfold opens in *. cbn [filter]. unfold open_ at 1. rewrite Ep. cbn [length]. lia.
      * intros [|j] t' e' Hj He'.
        -- cbn in Hj. injection Hj as <-. congruence.
        -- destruct (SP j t' e' Hj He') as (m & M1 & M2 & M3). exists m.
           split; [lia|]. split; [rewrite M2; do 2 f_equal; lia|exact M3].
Qed.

Lemma answer_conj : forall c (l : list sbool) (us : list utree) e c' cs,
  chal_ok e -> all2 consistent l us -> chal_rule c e cs (map u_chal us) ->
  poly_ok c c' e cs ->
  exists u', (match c' with
            | PAnd => Ok UAnd
            | POr => Ok UOr
            | PThr k q => q <- of_option "no polynomial in CthresholdUnproven" q ;; Ok (UThr k q)
            end) = Ok u' /\ consistent (SConj c l) (UConj u' e us).
Proof.
  intros c l us e c' cs He HC HR HP.
  destruct c, c' as [| |k' [q|]]; cbn [poly_ok] in HP; try tauto.
  - exists UAnd. split; auto. cbn [consistent]. cbn [chal_rule] in HR. tauto.
  - exists UOr. split; auto. cbn [consistent]. cbn [chal_rule] in HR. tauto.
  - destruct HP as [-> ->]. exists (UThr k (Poly (chal_gf e :: cs) (length cs))). split; auto.
    cbn [consistent]. split; auto. split; auto. split; auto. exists cs. auto.
Qed.

Lemma answer_spec : forall s, sb_wf s -> thr_ok s -> forall fuel, (depth s <= fuel)%nat -> answer_at fuel s.
Proof.
  apply (sbool_ind' (fun s => sb_wf s -> thr_ok s -> forall fuel, (depth s <= fuel)%nat -> answer_at fuel s)).
  - intros b _ _ fuel _ t e H. destruct t; simpl in H; tauto.
  - intros p _ _ [|fuel] Hf; [simpl in Hf; lia|]. intros t e H He HA.
    destruct t as [[p' cm e' z|]|p' cm r e' sim pos|]; try (simpl in H; tauto).
    + destruct cm as [m|]; [|simpl in H; tauto]. cbn [Com] in H. destruct H as (-> & He' & Hz & ->).
      unfold agrees in HA. cbn [p_chal u_chal] in HA. destruct HA as [HA|HA]; [discriminate|]. injection HA as ->.
      eexists. exists (ULeaf p (Some (simulate p e z)) e z).
      cbn [fill open_ p_chal rewrite_td prove_step bind]. split; [reflexivity|]. split; [reflexivity|].
      cbn [consistent u_chal tr first_messages pm]. split; auto. split; auto. f_equal. symmetry. apply (simulate_accepts HG).
    + destruct cm as [m|]; [|simpl in H; tauto]. destruct r as [x|]; [|simpl in H; tauto].
      destruct e'; [simpl in H; tauto|]. destruct sim; [simpl in H; tauto|]. cbn [Com] in H.
      destruct H as (-> & -> & HK).
      cbn [fill open_ p_chal with_challenge rewrite_td prove_step negb]. unfold step9_leaf. cbn [of_option bind].
      unfold secret_known in HK. cbn [real_images real_proofs real_commitment_images flat_map map app existsb orb] in HK.
      destruct (find (fun s => leaf_eqb (public_image s) p) secrets) as [s|] eqn:Ef.
      2: { exfalso. apply existsb_exists in HK. destruct HK as (s & Hs & Es).
           apply (find_none _ _ Ef) in Hs. congruence. }
      apply find_some in Ef. destruct Ef as [Hin Es]. apply (leaf_eqb_spec HG) in Es. subst p.
      replace (same_kind (public_image s) (public_image s)) with true by (destruct (public_image s); reflexivity).
      cbn [negb own_commitments flat_map find_pos find option_map of_option bind].
      assert (Hw : witness (public_image s) (secret_w s)).
      { rewrite Forall_forall in Hsec. apply Hsec. auto. }
      pose proof (second_message_ok HG (secret_w s) x e) as Hz.
      pose proof (second_message_accepts HG _ _ x e Hw) as Ha.
      eexists. exists (ULeaf (public_image s) None e (@second_message G (secret_w s) x e)).
      split; [reflexivity|]. split; [reflexivity|]. cbn [consistent u_chal tr first_messages pm].
      split; auto. split; auto. f_equal. symmetry. apply (leaf_accepts_iff HG). exact Ha.
  - intros c l IH Hwf Hthr [|fuel] Hf; [simpl in Hf; lia|]. intros t e H He HA.
    destruct t as [u|p' cm r e' sim pos|c' p' e' sim pos ts]; try (simpl in H; tauto).
    cbn [sb_wf] in Hwf. destruct Hwf as (Hc & Hlen & Hwl). apply fold_and_Forall in Hwl.
    cbn [thr_ok] in Hthr. destruct Hthr as [Hk Htl]. apply fold_and_Forall in Htl.
    assert (IH' : Forall (answer_at fuel) l).
    { rewrite Forall_forall in *. intros x Hx. apply IH; auto. cbn [depth] in Hf.
      pose proof (depth_max l x Hx). lia. }
    cbn [Com] in H. destruct H as (-> & HC & H).
    assert (Hl : length ts = length l) by (symmetry; eapply all2_length; eauto).
    unfold agrees in HA. cbn [p_chal] in HA. destruct sim, e' as [e'|]; try tauto.
    + destruct HA as [HA|HA]; [discriminate|]. injection HA as ->.
      destruct H as (_ & es & cs & HM & HP & HR).
      cbn [fill open_ p_chal rewrite_td prove_step negb bind].
      assert (HF : Forall2 agrees es ts).
      { clear - HM. revert es HM. induction ts as [|t ts IHt]; intros [|e es] HM; try discriminate; constructor.
        - right. cbn in HM. congruence.
        - apply IHt. cbn in HM. congruence. }
      assert (HO : Forall chal_ok es).
      { clear - HM HC. revert l es HM HC. induction ts as [|t ts IHt]; intros l [|e es] HM HC; try discriminate; constructor;
        destruct l as [|x l]; cbn [all2] in HC; try tauto; cbn [map] in HM.
        - eapply Com_chal_ok; [apply HC|]. congruence.
        - apply (IHt l); [congruence|tauto]. }
      destruct (answer_children fuel l ts es IH' HC HF HO) as (ts9 & us & E1 & E2 & E3 & E4 & E5).
      assert (Efill : fills es ts = ts).
      { clear - HM. revert es HM. induction ts as [|t ts IHt]; intros [|e es] HM; try discriminate; auto.
        cbn [fills]. f_equal; [|apply IHt; cbn in HM; congruence].
        unfold fill, open_. cbn in HM. destruct (p_chal t); [reflexivity|discriminate]. }
      rewrite Efill in E1. rewrite E1. cbn [bind]. rewrite <- E4 in HR.
      destruct (answer_conj c l us e c' cs He E3 HR HP) as (u' & EU & CU).
      eexists. exists (UConj u' e us). split; [reflexivity|]. cbn [convert_to_unchecked of_option bind].
      rewrite E2. cbn [bind]. rewrite EU. cbn [bind]. split; auto. split; auto. split; auto.
      cbn [tr first_messages pm]. f_equal. exact E5.
    + destruct H as [-> H]. clear HA.
      cbn [fill open_ p_chal with_challenge rewrite_td prove_step negb]. unfold step9_conj. cbn [of_option bind].
      destruct c as [| |k]; cbn [pconj_of].
      * cbn [bind].
        assert (Ew : map (with_challenge e) ts = fills (map (fun _ => e) ts) ts).
        { rewrite <- fills_const. apply map_ext_in. intros t Ht. rewrite Forall_forall in H.
          unfold fill, open_. rewrite H; auto. }
        destruct (answer_children fuel l ts (map (fun _ => e) ts) IH' HC) as (ts9 & us & E1 & E2 & E3 & E4 & E5).
        { apply Forall2_map_l. eapply Forall_impl; [|exact H]. intros t Ht. left. exact Ht. }
        { apply Forall_map', Forall_forall. auto. }
        rewrite Ew, E1. cbn [bind].
        assert (HR : chal_rule And e [] (map u_chal us)).
        { cbn [chal_rule]. split; auto. rewrite E4. apply Forall_map', Forall_forall. auto. }
        destruct (answer_conj And l us e PAnd [] He E3 HR I) as (u' & EU & CU).
        eexists. exists (UConj u' e us). split; [reflexivity|]. cbn [convert_to_unchecked of_option bind].
        rewrite E2. cbn [bind]. injection EU as <-. split; auto. split; auto. split; auto.
        cbn [tr first_messages pm]. f_equal. exact E5.
      * cbn [bind]. cbv zeta. rewrite or_fold.
        set (ks := flat_map (fun t : ptree => match p_chal t with Some c => [c] | None => [] end) ts).
        assert (Hks : Forall chal_ok ks).
        { unfold ks. clear - HC. revert ts HC. induction l as [|y l IHl]; intros [|t ts] HC; simpl in HC; try tauto; cbn; [constructor|].
          destruct (p_chal t) eqn:E; cbn [app]; [constructor|]; try (apply IHl; tauto). eapply Com_chal_ok; [apply HC|auto]. }
        rewrite xor_fold_left by auto. set (x := chal_xor e (xor_all ks)).
        assert (Hx : chal_ok x) by (apply chal_xor_ok; auto; apply xor_all_ok; auto).
        assert (Ew : map (real_child x) ts = fills (finals (fun _ => x) 0 ts) ts).
        { rewrite <- finals_fill, <- (coms_real_child l) by auto.
          clearbody x. clear. generalize 0%nat. induction ts as [|t ts IHt]; intros n; cbn; auto. f_equal. apply IHt. }
        destruct (answer_children fuel l ts (finals (fun _ => x) 0 ts) IH' HC) as (ts9 & us & E1 & E2 & E3 & E4 & E5).
        { apply finals_agrees. }
        { eapply finals_ok; eauto. }
        rewrite Ew, E1. cbn [bind].
        assert (HR : chal_rule Or e [] (map u_chal us)).
        { cbn [chal_rule]. split; auto. rewrite E4. change (xor_all (finals (fun _ => x) 0 ts) = e).
          rewrite (or_finals l) by auto. fold ks. unfold x.
          rewrite <- chal_xor_assoc, chal_xor_self by (apply xor_all_ok; auto). apply chal_xor_0_r; auto. }
        destruct (answer_conj Or l us e POr [] He E3 HR I) as (u' & EU & CU).
        eexists. exists (UConj u' e us). split; [reflexivity|]. cbn [convert_to_unchecked of_option bind].
        rewrite E2. cbn [bind]. injection EU as <-. split; auto. split; auto. split; auto.
        cbn [tr first_messages pm]. f_equal. exact E5.
      * cbn [conj_wf] in Hc. unfold u8 in Hc. unfold items_len_ok in Hlen.
        assert (Hn : (length ts <= 255)%nat) by (unfold Zlen in Hlen; lia).
        destruct (thr_points_spec l ts 0 HC) as (ps & vs & Ep & Lp & Cp & NDp & Wv & Rp & Sp); [lia|].
        rewrite Ep. cbn [bind].
        destruct (interpolate_spec ps vs (chal_gf e) Lp) as (q & Eq & Dq & Lq & Wq & Q0 & _ & Qi); auto.
        { eapply Forall_impl; [|exact Rp]. intros p (j & Hj & ->). split; [lia|]. apply (N2Z.inj_lt _ 256). lia. }
        { apply chal_gf_wf; auto. }
        rewrite Eq. cbn [bind].
        destruct q as [coefs dq]. cbn [degree coefficients] in *. subst dq.
        destruct coefs as [|c0 cs]; [discriminate|]. cbn [nth] in Q0. subst c0.
        assert (Lcs : length cs = length ps) by (simpl in Lq; lia). rewrite <- Lcs in *.
        unfold check_poly. cbn [prop_len]. replace (Zlen l <? k) with false by (symmetry; apply Z.ltb_ge; lia).
        rewrite poly_bytes_len. replace (Zlen cs * 24 =? (Zlen l - k) * 24) with true
          by (symmetry; apply Z.eqb_eq; unfold Zlen in *; lia).
        cbn [bind]. set (q := Poly (chal_gf e :: cs) (length cs)) in *.
        inversion Wq as [|? ? W0 Wcs]; subst.
        set (f := fun i => gf_chal (evaluate q (one_based i))).
        assert (Hev : forall i, (i < length ts)%nat ->
           evaluate q (one_based i) = gf_powers_sum (chal_gf e :: cs) (Gf (N.of_nat (S i)) 0 0)).
        { intros i Hi. rewrite one_based_val by lia. apply poly_eval; auto. apply (N2Z.inj_lt _ 256). lia. }
        assert (Hwf_ev : forall i, (i < length ts)%nat -> wf (evaluate q (one_based i))).
        { intros i Hi. rewrite Hev by auto. apply gf_powers_sum_wf; auto.
          apply point_wf. apply (N2Z.inj_lt _ 256). lia. }
        change (imap (fun (i : nat) (t : ptree) => real_child (gf_chal (evaluate q (one_based i))) t) 0 ts)
          with (imap (fun (i : nat) (t : ptree) => real_child (f i) t) 0 ts).
        rewrite (coms_real_child l) by auto. rewrite finals_fill.
        destruct (answer_children fuel l ts (finals f 0 ts) IH' HC) as (ts9 & us & E1 & E2 & E3 & E4 & E5).
        { apply finals_agrees. }
        { apply (finals_ok l); auto. intros j Hj. apply gf_chal_ok, Hwf_ev. lia. }
        rewrite E1. cbn [bind].
        assert (HR : chal_rule (Thr k) e cs (map u_chal us)).
        { cbn [chal_rule]. split; auto. rewrite E4. unfold finals. split.
          { unfold Zlen in *. rewrite imap_length. lia. }
          intros i Hi. rewrite imap_length in Hi.
          destruct (nth_error ts i) as [t|] eqn:Et; [|apply nth_error_None in Et; lia].
          rewrite (imap_nth _ _ (final f) ts 0 i [] t) by auto. rewrite (nth_error_nth ts i t Et). cbn [Nat.add].
          unfold final. destruct (p_chal t) as [ei|] eqn:Ei.
          - destruct (Sp i t ei Et Ei) as (m & M1 & M2 & M3). rewrite <- M3, <- Qi by auto. rewrite M2.
            cbn [Nat.add]. rewrite <- (Hev i) by auto. rewrite one_based_val by lia. reflexivity.
          - unfold f. rewrite chal_gf_chal by auto. apply Hev; auto. }
        destruct (answer_conj (Thr k) l us e (PThr k (Some q)) cs He E3 HR) as (u' & EU & CU); [cbn [poly_ok]; auto|].
        eexists. exists (UConj u' e us). split; [reflexivity|]. cbn [convert_to_unchecked of_option bind].
        rewrite E2. cbn [bind]. cbn [of_option bind] in EU. injection EU as <-. split; auto. split; auto. split; auto.
        cbn [tr first_messages pm]. f_equal. exact E5.
Qed.

(** ** Heights *)
Lemma all2_height : forall (R : sbool -> ptree -> Prop) l ts,
  Forall (fun s => forall t, R s t -> p_height t = depth s) l -> all2 R l ts ->
  map p_height ts = map depth l.
Proof.
  induction l as [|x l IH]; intros [|t ts] H HA; simpl in HA; try tauto. inversion H; subst. cbn [map].
  f_equal; [apply H2; tauto|apply IH; tauto].
Qed.
Lemma Pol_height : forall s t, Pol s t -> p_height t = depth s.
Proof.
  apply (sbool_ind' (fun s => forall t, Pol s t -> p_height t = depth s)).
  - intros b t H. destruct t; simpl in H; tauto.
  - intros p t H. destruct t; simpl in H; try tauto.
  - intros c l IH t H. destruct t as [| |c' p' [|] sim pos ts]; try (simpl in H; tauto).
    cbn [ProverProofs.Pol] in H. cbn [p_height depth]. unfold max_list. rewrite (all2_height Pol l ts); auto. tauto.
Qed.
Lemma Com_height : forall s t, Com s t -> p_height t = depth s.
Proof.
  apply (sbool_ind' (fun s => forall t, Com s t -> p_height t = depth s)).
  - intros b t H. destruct t; simpl in H; tauto.
  - intros p t H. destruct t as [[p' [m|] e z|]|p' cm r e sim pos|]; simpl in H; try tauto.
  - intros c l IH t H. destruct t as [[| ]| |c' p' e sim pos ts]; try (simpl in H; tauto).
    cbn [Com] in H. cbn [p_height depth]. unfold max_list. rewrite (all2_height Com l ts); auto. tauto.
Qed.
Lemma with_challenge_height : forall e (t : ptree), p_height (with_challenge e t) = p_height t.
Proof. intros e [[| ]| |]; reflexivity. Qed.

(** ** The whole prover *)
Theorem prove_complete : forall H s message,
  no_const s -> or_distinct s -> sb_wf s -> thr_ok s -> canb secrets s = true ->
  (forall b, (24 <= length (H b))%nat /\ bytes_ok (H b)) ->
  exists u m, prove_to_unchecked secrets [] rnd H (conv s) message = Ok u /\ consistent s u /\
    first_messages (tr u) = m /\ u_chal u = firstn 24 (H (fs_string s m ++ message)).
Proof.
  intros H s message Hn Ho Hwf Hthr Hcan HH. unfold prove_to_unchecked.
  rewrite mark_real_spec by auto. cbn [bind]. unfold is_real at 1. rewrite simulated_mk, negb_involutive, Hcan by auto.
  cbn [negb]. unfold polish_simulated.
  rewrite mk_height by auto.
  destruct (polish_spec HG secrets s Hn Ho Hwf false (position_of (mk secrets s)) (depth s)) as (t3 & E3 & P3 & S3 & U3); auto.
  replace (with_position (position_of (mk secrets s)) (with_simulated false (mk secrets s))) with (mk secrets s) in E3
    by (destruct s; cbn [mk with_simulated with_position position_of]; auto;
        [cbn [canb] in Hcan; rewrite Hcan; reflexivity|rewrite Hcan; reflexivity]).
  rewrite E3. cbn [bind]. unfold try_unproven. rewrite U3. cbn [bind].
  unfold simulate_and_commit. rewrite (Pol_height _ _ P3).
  destruct (commit_spec s Hwf Hthr (depth s) (le_n _) t3 P3 None S3) as (t6 & E6 & C6 & M6).
  cbn [give] in E6. rewrite E6. cbn [bind].
  assert (U6 : is_unproven t6 = true).
  { pose proof (Com_real _ _ C6) as R. unfold open_ in R. rewrite M6 in R. apply andb_true_iff in R. tauto. }
  unfold try_unproven. rewrite U6. cbn [bind].
  rewrite (fs_write_spec s t6) by auto. cbn [bind].
  set (e := fiat_shamir_hash H (fs_string s (pm t6) ++ message)).
  assert (He : chal_ok e).
  { unfold e, fiat_shamir_hash. destruct (HH (fs_string s (pm t6) ++ message)) as [L B]. split.
    - rewrite firstn_length. lia.
    - rewrite <- (firstn_skipn 24 (H _)) in B. apply Forall_app in B. apply B. }
  unfold proving. rewrite with_challenge_height, (Com_height _ _ C6).
  assert (Ef : fill e t6 = with_challenge e t6) by (unfold fill, open_; rewrite M6; reflexivity).
  destruct (answer_spec s Hwf Hthr (depth s) (le_n _) t6 e C6 He) as (t9 & u & F1 & F2 & F3 & F4 & F5).
  { left. exact M6. }
  rewrite Ef in F1. rewrite F1. cbn [bind]. exists u, (pm t6). split; auto.
Qed.
End CommitProofs.
