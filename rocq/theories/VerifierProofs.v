(** The verifier accepts exactly the byte strings that spell an accepting
    transcript whose challenge is the hash of its first messages. *)
From Verif Require Import Base VlqModel VlqProofs GfModel GfProofs GfBytesProofs PolyProofs GfProps.
From Verif Require Import GroupModel GroupProofs SigmaModel SigmaSpec SigmaProofs.
From Coq Require Import Znumtheory.
Local Open Scope Z_scope.
#[local] Opaque gf_mul gf_add evaluate gf_to_bytes gf_from_bytes24 poly_of_chal.

Section Verifier.
Context {G : group} (HG : group_ok G).
Notation leaf := (leaf G). Notation sbool := (sbool G). Notation fmsg := (fmsg G).
Notation utree := (utree G). Notation transcript := (transcript G).

(** The transcript of an unchecked tree, with the commitments the verifier
    recomputes. *)
Definition uconj_cs (c : uconj) : list gf :=
  match c with UThr _ q => tl (coefficients q) | _ => [] end.
Fixpoint tr (u : utree) : transcript :=
  match u with
  | ULeaf p _ e z => TLeaf (compute_commitment p e z) e z
  | UConj c e l => TConj e (uconj_cs c) (map tr l)
  end.

(** The tree has the shape of the proposition. *)
Definition kind_matches (c : ckind) (e : challenge) (u : uconj) : Prop :=
  match c, u with
  | And, UAnd => True
  | Or, UOr => True
  | Thr k, UThr k' q =>
      k = k' /\ q = Poly (chal_gf e :: tl (coefficients q)) (length (tl (coefficients q)))
  | _, _ => False
  end.
Fixpoint matches (s : sbool) (u : utree) : Prop :=
  match s, u with
  | SLeaf p, ULeaf p' _ _ _ => p = p'
  | SConj c l, UConj c' e us => kind_matches c e c' /\ all2 matches l us
  | _, _ => False
  end.

Lemma t_chal_tr : forall u, t_chal (tr u) = u_chal u.
Proof. intros []; reflexivity. Qed.
Lemma map_t_chal_tr : forall us, map t_chal (map tr us) = map u_chal us.
Proof. intros. rewrite map_map. apply map_ext. apply t_chal_tr. Qed.

Lemma read_each_is_i : forall A B (f : A -> reader B) l i,
  read_each f l = read_each_i (fun _ => f) i l.
Proof.
  induction l as [|a l IH]; intros i; simpl; auto. rewrite (IH (S i)). reflexivity.
Qed.

(** ** Parsing produces an accepting transcript *)
Definition parse_ok (s : sbool) : Prop := forall co bs u rest,
  (forall c, co = Some c -> chal_ok c) -> bytes_ok bs ->
  parse_sig s co bs = Ok (u, rest) ->
  bytes_ok rest /\ matches s u /\ accepting s (tr u) /\ chal_ok (u_chal u) /\
  (forall c, co = Some c -> u_chal u = c) /\
  exists b1, bs = b1 ++ rest /\
    layout (match co with None => true | _ => false end) s (tr u) b1.

Lemma rei_sound : forall l i ch bs us rest,
  Forall parse_ok l ->
  (forall j, (i <= j < i + length l)%nat -> chal_ok (ch j)) -> bytes_ok bs ->
  read_each_i (fun j x => parse_sig x (Some (ch j))) i l bs = Ok (us, rest) ->
  bytes_ok rest /\ all2 matches l us /\ all2 accepting l (map tr us) /\
  map u_chal us = map ch (seq i (length l)) /\
  exists b1, bs = b1 ++ rest /\ layouts (fun b x t y => layout b x t y) false l (map tr us) b1.
Proof.
  induction l as [|x l IH]; intros i ch bs us rest HP Hch Hb H.
  - simpl in H. injection H as <- <-. simpl. repeat split; auto. exists []. auto.
  - cbn [read_each_i] in H. apply bind_ok in H. destruct H as [[u b1] [H1 H]].
    apply bind_ok in H. destruct H as [[ul b2] [H2 H]]. injection H as <- <-.
    inversion HP as [|? ? Hx Hl]; subst.
    destruct (Hx (Some (ch i)) bs u b1) as (B1 & M1 & A1 & C1 & E1 & p1 & -> & L1); auto.
    { intros c [= <-]. apply Hch. simpl. lia. }
    fold (@read_each_i sbool utree) in H2.
    destruct (IH (S i) ch b1 ul b2) as (B2 & M2 & A2 & E2 & p2 & -> & L2); auto.
    { intros j Hj. apply Hch. simpl. lia. }
    split; auto. cbn [map all2 seq length]. split; [split; auto|]. split; [split; auto|].
    split; [rewrite (E1 _ eq_refl), E2; reflexivity|].
    exists (p1 ++ p2). split; [apply app_assoc|].
    cbn [layouts]. exists p1, p2. repeat split; auto.
    destruct l; auto.
Qed.

Lemma ror_sound : forall l acc bs us rest,
  Forall parse_ok l -> l <> [] -> chal_ok acc -> bytes_ok bs ->
  read_or parse_sig l acc bs = Ok (us, rest) ->
  bytes_ok rest /\ all2 matches l us /\ all2 accepting l (map tr us) /\
  Forall chal_ok (map u_chal us) /\
  xor_all (map u_chal us) = acc /\
  exists b1, bs = b1 ++ rest /\ layouts (fun b x t y => layout b x t y) true l (map tr us) b1.
Proof.
  induction l as [|x l IH]; intros acc bs us rest HP Hne Hacc Hb H; [congruence|].
  inversion HP as [|? ? Hx Hl]; subst.
  destruct l as [|y l].
  - cbn [read_or] in H. apply bind_ok in H. destruct H as [[u b1] [H1 H]].
    injection H as <- <-.
    destruct (Hx (Some acc) bs u b1) as (B1 & M1 & A1 & C1 & E1 & p1 & -> & L1); auto.
    { intros c [= <-]. auto. }
    split; auto. split; [simpl; auto|]. split; [simpl; auto|].
    split; [constructor; [exact C1|constructor]|].
    split; [simpl; rewrite (E1 _ eq_refl); apply chal_xor_0_r; auto|].
    exists p1. split; auto. cbn [map layouts]. exists p1, []. rewrite app_nil_r. auto.
  - remember (y :: l) as l' eqn:El.
    assert (H' : ('(u, bs) <- parse_sig x None bs ;;
      '(us, bs) <- read_or parse_sig l' (chal_xor acc (u_chal u)) bs ;; Ok (u :: us, bs)) = Ok (us, rest)).
    { rewrite <- H. rewrite El. reflexivity. }
    clear H. apply bind_ok in H'. destruct H' as [[u b1] [H1 H]].
    apply bind_ok in H. destruct H as [[ul b2] [H2 H]]. injection H as <- <-.
    destruct (Hx None bs u b1) as (B1 & M1 & A1 & C1 & E1 & p1 & -> & L1); auto.
    { discriminate. }
    destruct (IH (chal_xor acc (u_chal u)) b1 ul b2) as (B2 & M2 & A2 & C2 & E2 & p2 & -> & L2); auto.
    { rewrite El. discriminate. }
    { apply chal_xor_ok; auto. }
    split; auto. cbn [map all2]. split; [split; auto|]. split; [split; auto|].
    split; [constructor; auto|].
    split.
    { cbn [xor_all fold_right]. fold (xor_all (map u_chal ul)). rewrite E2.
      rewrite (chal_xor_comm acc). apply chal_xor_cancel; auto. }
    exists (p1 ++ p2). split; [apply app_assoc|].
    cbn [layouts]. exists p1, p2. repeat split; auto. rewrite El. auto.
Qed.

Lemma parse_sound : forall s, sb_wf s -> parse_ok s.
Proof.
  apply (sbool_ind' (fun s => sb_wf s -> parse_ok s)).
  - intros b _ co bs u rest Hco Hb H. simpl in H. apply bind_ok in H.
    destruct H as [[e b1] [_ H]]. discriminate.
  - intros p _ co bs u rest Hco Hb H. cbn [parse_sig] in H.
    apply bind_ok in H. destruct H as [[e b1] [He H]].
    apply bind_ok in H. destruct H as [[zb b2] [Hz H]]. injection H as <- <-.
    apply read_exact_inv in Hz. destruct Hz as [-> Lz].
    assert (Hz : @scalar_ok G (@scalar_of_bytes G zb)).
    { apply Z.mod_pos_bound. apply (q_pos HG). }
    destruct co as [c|].
    + injection He as <- E. subst bs. specialize (Hco c eq_refl).
      apply bytes_ok_app in Hb. destruct Hb as [Hb1 Hb2].
      split; auto. split; [simpl; auto|]. cbn [tr accepting].
      split; [repeat split; try apply Hco; try apply Hz; apply leaf_accepts_iff; auto|].
      split; auto. split; [intros c' [= <-]; reflexivity|].
      exists zb. split; auto. exists zb. split; auto.
    + destruct (read_exact 24 bs) as [[e' b']| |] eqn:E; try discriminate. injection He as -> ->.
      apply read_exact_inv in E. destruct E as [-> Le].
      apply bytes_ok_app in Hb. destruct Hb as [Hb1 Hb2].
      apply bytes_ok_app in Hb2. destruct Hb2 as [Hb2 Hb3].
      split; auto. split; [simpl; auto|]. cbn [tr accepting].
      split; [repeat split; auto; try apply Hz; apply leaf_accepts_iff; auto|].
      split; [split; auto|]. split; [discriminate|].
      exists (e ++ zb). split; [rewrite app_assoc; auto|]. exists zb. split; auto.
  - intros c l IH Hwf. cbn [sb_wf] in Hwf. destruct Hwf as (Hc & Hlen & Hl).
    apply fold_and_Forall in Hl.
    assert (HP : Forall parse_ok l).
    { rewrite Forall_forall in *. intros x Hx. apply IH; auto. }
    clear IH. intros co bs u rest Hco Hb H. cbn [parse_sig] in H.
    apply bind_ok in H. destruct H as [[e b1] [He H]].
    assert (Hpre : chal_ok e /\ bytes_ok b1 /\ (forall c, co = Some c -> e = c) /\
       bs = (if match co with None => true | _ => false end then e else []) ++ b1).
    { destruct co as [c0|].
      - injection He as <- <-. repeat split; auto; try apply (Hco c0 eq_refl).
        intros c' [= <-]; auto.
      - destruct (read_exact 24 bs) as [[e' b']| |] eqn:E; try discriminate. injection He as -> ->.
        apply read_exact_inv in E. destruct E as [-> Le].
        apply bytes_ok_app in Hb. destruct Hb. repeat split; auto. discriminate. }
    clear He. destruct Hpre as (Hce & Hb1 & Heq & ->).
    assert (Hne : l <> []). { intros ->. unfold items_len_ok, Zlen in Hlen. simpl in Hlen. lia. }
    destruct c as [| |k].
    + apply bind_ok in H. destruct H as [[us b2] [H1 H]]. injection H as <- <-.
      rewrite (read_each_is_i _ _ _ l 0) in H1.
      apply (rei_sound l 0 (fun _ => e)) in H1; auto.
      destruct H1 as (B & M & A & E & p1 & -> & L).
      split; auto. split; [simpl; auto|]. cbn [tr uconj_cs accepting].
      split.
      { split; auto. split; auto. cbn [chal_rule]. split; auto. rewrite map_t_chal_tr, E.
        apply Forall_forall. intros y Hy. apply in_map_iff in Hy. destruct Hy as [? [? _]]; auto. }
      split; auto. split; [simpl; auto|].
      exists ((if match co with None => true | _ => false end then e else []) ++ p1).
      split; [apply app_assoc|]. cbn [layout t_chal]. exists p1. split; auto.
      exists p1. split; auto.
    + apply bind_ok in H. destruct H as [[us b2] [H1 H]]. injection H as <- <-.
      apply ror_sound in H1; auto.
      destruct H1 as (B & M & A & C & E & p1 & -> & L).
      split; auto. split; [simpl; auto|]. cbn [tr uconj_cs accepting].
      split.
      { split; auto. split; auto. cbn [chal_rule]. split; auto. rewrite map_t_chal_tr. exact E. }
      split; auto. split; [simpl; auto|].
      exists ((if match co with None => true | _ => false end then e else []) ++ p1).
      split; [apply app_assoc|]. cbn [layout t_chal]. exists p1. split; auto.
      exists p1. split; auto.
    + destruct (Zlen l <? k) eqn:Ek; [discriminate|].
      apply bind_ok in H. destruct H as [[cb b2] [H1 H]].
      apply read_exact_inv in H1. destruct H1 as [-> Lcb].
      apply bytes_ok_app in Hb1. destruct Hb1 as [Hcb Hb2].
      cbn [conj_wf] in Hc. unfold items_len_ok in Hlen. unfold u8 in Hc.
      destruct (poly_of_chal_spec e cb (Z.to_nat (Zlen l - k))) as (cs & Hq & Lcs & Wcs & Fcs); auto.
      { rewrite Lcb. rewrite Z2Nat.inj_mul by lia. reflexivity. }
      rewrite Hq in H. cbn [bind] in H.
      assert (Eq : Poly (chal_gf e :: cs) (Z.to_nat (Zlen l - k)) = Poly (chal_gf e :: cs) (length cs))
        by (f_equal; lia).
      rewrite Eq in H.
      apply bind_ok in H. destruct H as [[us b3] [H1 H]]. injection H as <- <-.
      assert (Hev : forall j, (j < length l)%nat ->
         gf_chal (evaluate (Poly (chal_gf e :: cs) (length cs)) (one_based j)) =
         gf_chal (gf_powers_sum (chal_gf e :: cs) (Gf (N.of_nat (S j)) 0 0)) /\
         wf (gf_powers_sum (chal_gf e :: cs) (Gf (N.of_nat (S j)) 0 0))).
      { intros j Hj. unfold Zlen in Hlen. rewrite one_based_val by lia.
        rewrite poly_eval; auto; [|apply chal_gf_wf; auto|lia]. split; auto.
        apply gf_powers_sum_wf; [apply point_wf; lia|]. constructor; auto. apply chal_gf_wf; auto. }
      apply (rei_sound l 0 (fun i => gf_chal (evaluate (Poly (chal_gf e :: cs) (length cs)) (one_based i)))) in H1; auto.
      2: { intros j Hj. destruct (Hev j ltac:(lia)) as [-> Hw]. apply gf_chal_ok; auto. }
      destruct H1 as (B & M & A & E & p1 & -> & L).
      assert (Lus : length us = length l).
      { apply (f_equal (@length challenge)) in E. rewrite !map_length, seq_length in E. auto. }
      split; auto. split; [cbn [matches kind_matches]; simpl; auto|]. cbn [tr uconj_cs accepting].
      cbn [coefficients tl].
      split.
      { split; auto. split; auto. cbn [chal_rule]. split; auto. split.
        - unfold Zlen. rewrite !map_length, Lus, Lcs. unfold Zlen in *. lia.
        - intros i Hi. rewrite map_t_chal_tr in *. rewrite E. rewrite !map_length in Hi.
          rewrite Lus in Hi.
          rewrite nth_indep with (d' := gf_chal (evaluate (Poly (chal_gf e :: cs) (length cs)) (one_based 0)))
            by (rewrite map_length, seq_length; auto).
          change (gf_chal (evaluate (Poly (chal_gf e :: cs) (length cs)) (one_based 0)))
            with ((fun i => gf_chal (evaluate (Poly (chal_gf e :: cs) (length cs)) (one_based i))) 0%nat).
          rewrite map_nth, seq_nth by auto. cbn [Nat.add].
          destruct (Hev i Hi) as [-> Hw]. apply chal_gf_chal; auto. }
      split; auto. split; [simpl; auto|].
      exists ((if match co with None => true | _ => false end then e else []) ++ cb ++ p1).
      split; [rewrite <- !app_assoc; auto|]. cbn [layout t_chal]. exists (cb ++ p1). split; auto.
      exists p1. split; [rewrite Fcs; auto|]. auto.
Qed.

(** ** Every spelled accepting transcript parses *)
Definition parse_complete_at (s : sbool) : Prop := forall t b b1 rest,
  accepting s t -> layout b s t b1 ->
  exists u, parse_sig s (if b then None else Some (t_chal t)) (b1 ++ rest) = Ok (u, rest) /\ tr u = t /\ matches s u.

Lemma rei_complete : forall l ts i ch b1 rest,
  Forall parse_complete_at l -> all2 accepting l ts ->
  layouts (fun b x t y => layout b x t y) false l ts b1 ->
  map t_chal ts = map ch (seq i (length l)) ->
  exists us, read_each_i (fun j x => parse_sig x (Some (ch j))) i l (b1 ++ rest) = Ok (us, rest) /\
    map tr us = ts /\ all2 matches l us.
Proof.
  induction l as [|x l IH]; intros [|t ts] i ch b1 rest HP HA HL HC; simpl in HA; try tauto.
  - simpl in HL. subst b1. exists []. simpl. auto.
  - cbn [layouts] in HL. destruct HL as (p1 & p2 & -> & L1 & L2).
    inversion HP as [|? ? Hx Hl]; subst. destruct HA as [A1 A2].
    cbn [length seq map] in HC. injection HC as C1 C2.
    assert (L1' : layout false x t p1) by (destruct l; auto).
    destruct (Hx t false p1 (p2 ++ rest) A1 L1') as (u & Hu & Tu & Mu).
    destruct (IH ts (S i) ch p2 rest Hl A2 L2 C2) as (us & Hus & Tus & Mus).
    exists (u :: us). rewrite <- app_assoc. cbn [read_each_i]. rewrite <- C1, Hu. cbn [bind].
    fold (@read_each_i sbool utree). rewrite Hus. cbn [bind map]. rewrite Tu, Tus. cbn [all2]. auto.
Qed.

Lemma accepting_chal_ok : forall (s : sbool) t, accepting s t -> chal_ok (t_chal t).
Proof. intros [b|p|c l] [m e z|e cs ts]; simpl; tauto. Qed.
Lemma all2_accepting_chal_ok : forall (l : list sbool) ts, all2 accepting l ts ->
  Forall chal_ok (map t_chal ts).
Proof.
  induction l as [|x l IH]; intros [|t ts] H; simpl in H; try tauto; constructor.
  - eapply accepting_chal_ok; apply H.
  - apply IH; apply H.
Qed.

Lemma ror_complete : forall l ts b1 rest acc,
  Forall parse_complete_at l -> l <> [] -> all2 accepting l ts ->
  layouts (fun b x t y => layout b x t y) true l ts b1 -> chal_ok acc ->
  xor_all (map t_chal ts) = acc ->
  exists us, read_or parse_sig l acc (b1 ++ rest) = Ok (us, rest) /\ map tr us = ts /\ all2 matches l us.
Proof.
  induction l as [|x l IH]; intros [|t ts] b1 rest acc HP Hne HA HL Hacc HC; simpl in HA; try tauto.
  inversion HP as [|? ? Hx Hl]; subst. destruct HA as [A1 A2].
  cbn [layouts] in HL. destruct HL as (p1 & p2 & -> & L1 & L2).
  pose proof (accepting_chal_ok _ _ A1) as Ct. pose proof (all2_accepting_chal_ok _ _ A2) as Cts.
  destruct l as [|y l].
  - destruct ts; simpl in A2; [|tauto]. simpl in L2. subst p2. rewrite app_nil_r.
    cbn [map xor_all fold_right]. rewrite chal_xor_0_r by auto.
    destruct (Hx t false p1 rest A1 L1) as (u & Hu & Tu & Mu).
    exists [u]. cbn [read_or]. rewrite Hu. cbn [bind map]. rewrite Tu. simpl. auto.
  - remember (y :: l) as l' eqn:El.
    assert (L1' : layout true x t p1) by exact L1.
    destruct (Hx t true p1 (p2 ++ rest) A1 L1') as (u & Hu & Tu & Mu).
    assert (Eu : u_chal u = t_chal t) by (rewrite <- Tu; symmetry; apply t_chal_tr).
    destruct (IH ts p2 rest (chal_xor (xor_all (map t_chal (t :: ts))) (u_chal u)))
      as (us & Hus & Tus & Mus); auto.
    { rewrite El; discriminate. }
    { rewrite Eu. apply chal_xor_ok; auto. }
    { cbn [map xor_all fold_right]. fold (xor_all (map t_chal ts)).
      rewrite Eu, (chal_xor_comm _ (t_chal t)), chal_xor_cancel; auto. apply xor_all_ok; auto. }
    exists (u :: us). rewrite <- app_assoc.
    assert (Er : forall bs, read_or parse_sig (x :: l') (xor_all (map t_chal (t :: ts))) bs =
      ('(u, bs) <- parse_sig x None bs ;;
       '(us, bs) <- read_or parse_sig l' (chal_xor (xor_all (map t_chal (t :: ts))) (u_chal u)) bs ;;
       Ok (u :: us, bs))) by (intros; rewrite El; reflexivity).
    rewrite Er. cbv iota in Hu. rewrite Hu. cbn [bind]. rewrite Hus. cbn [bind map]. rewrite Tu, Tus. cbn [all2]. auto.
Qed.

Lemma parse_complete : forall s, sb_wf s -> parse_complete_at s.
Proof.
  apply (sbool_ind' (fun s => sb_wf s -> parse_complete_at s)).
  - intros b _ t b0 b1 rest HA. destruct t; simpl in HA; tauto.
  - intros p _ t b b1 rest HA HL. destruct t as [m e z|]; [|simpl in HA; tauto].
    cbn [layout t_chal] in HL. destruct HL as (body & -> & Lb & Hz).
    cbn [accepting] in HA. destruct HA as (He & Hzo & Hacc). apply (leaf_accepts_iff HG) in Hacc.
    exists (ULeaf p None e z). split; [|cbn [tr matches]; split; congruence].
    cbn [parse_sig]. destruct b.
    + cbn [t_chal]. rewrite <- app_assoc. rewrite read_exact_app by apply He. cbn [bind].
      rewrite read_exact_app by auto. cbn [bind]. unfold scalar_of_bytes. rewrite Hz. reflexivity.
    + cbn [t_chal bind app]. rewrite read_exact_app by auto. cbn [bind].
      unfold scalar_of_bytes. rewrite Hz. reflexivity.
  - intros c l IH Hwf. cbn [sb_wf] in Hwf. destruct Hwf as (Hc & Hlen & Hl).
    apply fold_and_Forall in Hl.
    assert (HP : Forall parse_complete_at l).
    { rewrite Forall_forall in *. intros x Hx. apply IH; auto. }
    clear IH. intros t b b1 rest HA HL. destruct t as [|e cs ts]; [simpl in HA; tauto|].
    cbn [layout t_chal] in HL. destruct HL as (body & -> & body2 & -> & HL).
    cbn [accepting] in HA. destruct HA as (He & HA & HR).
    assert (Hne : l <> []). { intros ->. unfold items_len_ok, Zlen in Hlen. simpl in Hlen. lia. }
    assert (Lts : length ts = length l).
    { apply all2_Forall2 in HA. symmetry. eapply Forall2_length'; eauto. }
    assert (Hpre : forall X (k : challenge * bytes -> res X),
      bind (match (if b then None else Some (t_chal (TConj e cs ts))) with
       | Some c => Ok (c, ((if b then e else []) ++ flat_map gf_to_bytes cs ++ body2) ++ rest)
       | None => match read_exact 24 (((if b then e else []) ++ flat_map gf_to_bytes cs ++ body2) ++ rest) with
                 | Ok r => Ok r | _ => Err "ChallengeRead" end
       end) k = k (e, flat_map gf_to_bytes cs ++ body2 ++ rest)).
    { intros X k. destruct b.
      - rewrite <- !app_assoc. rewrite read_exact_app by apply He. reflexivity.
      - cbn [t_chal app bind]. rewrite <- app_assoc. reflexivity. }
    cbn [parse_sig]. rewrite Hpre. clear Hpre.
    destruct c as [| |k]; cbn [chal_rule] in HR.
    + destruct HR as [-> HE]. cbn [flat_map app].
      destruct (rei_complete l ts 0 (fun _ => e) body2 rest HP HA HL) as (us & Hus & Tus & Mus).
      { rewrite <- Lts. clear - HE. generalize 0%nat. induction ts as [|t ts IH]; intros i; simpl; auto.
        inversion HE; subst. f_equal; auto. }
      exists (UConj UAnd e us). rewrite (read_each_is_i _ _ _ l 0), Hus. cbn [bind tr uconj_cs matches kind_matches].
      rewrite Tus. auto.
    + destruct HR as [-> HE]. cbn [flat_map app].
      destruct (ror_complete l ts body2 rest e HP Hne HA HL He HE) as (us & Hus & Tus & Mus).
      exists (UConj UOr e us). rewrite Hus. cbn [bind tr uconj_cs matches kind_matches]. rewrite Tus. auto.
    + destruct HR as (Wcs & Lcs & HE). cbn [conj_wf] in Hc. unfold u8 in Hc.
      unfold items_len_ok in Hlen.
      assert (Lcs' : Zlen cs = Zlen l - k) by (unfold Zlen in *; rewrite map_length in Lcs; lia).
      destruct (Zlen l <? k) eqn:Ek; [unfold Zlen in *; lia|].
      rewrite read_exact_app by (rewrite flat_bytes_length; unfold Zlen in *; lia).
      cbn [bind]. rewrite poly_of_chal_flat by auto. cbn [bind].
      destruct (rei_complete l ts 0 (fun i => gf_chal (evaluate (Poly (chal_gf e :: cs) (length cs)) (one_based i)))
        body2 rest HP HA HL) as (us & Hus & Tus & Mus).
      { apply nth_ext with (d := []) (d' := gf_chal (evaluate (Poly (chal_gf e :: cs) (length cs)) (one_based 0))).
        - rewrite !map_length, seq_length. auto.
        - intros n Hn. rewrite map_length in Hn. unfold Zlen in Hlen.
          change (gf_chal (evaluate (Poly (chal_gf e :: cs) (length cs)) (one_based 0)))
            with ((fun i => gf_chal (evaluate (Poly (chal_gf e :: cs) (length cs)) (one_based i))) 0%nat).
          rewrite map_nth, seq_nth by lia. cbn [Nat.add].
          rewrite one_based_val by lia.
          rewrite poly_eval; auto; [|apply chal_gf_wf; auto|lia].
          rewrite <- HE by (rewrite map_length; lia). symmetry. apply gf_chal_gf.
          pose proof (all2_accepting_chal_ok _ _ HA) as HF. rewrite Forall_forall in HF.
          apply HF. apply nth_In. rewrite map_length. lia. }
      exists (UConj (UThr k (Poly (chal_gf e :: cs) (length cs))) e us). rewrite Hus.
      cbn [bind tr uconj_cs coefficients tl matches kind_matches]. rewrite Tus. auto.
Qed.

(** ** The Fiat-Shamir string *)
Lemma ec_write_bytes : forall x : G, ec_write x = Ok (point_bytes x).
Proof. intros. apply ec_write_ok. Qed.
Lemma point_bytes_len : forall x : G, length (point_bytes x) = 33%nat.
Proof. intros. apply (ec_bytes_len HG). Qed.
Lemma point_bytes_ok : forall x : G, bytes_ok (point_bytes x).
Proof. intros. apply (ec_bytes_ok HG). Qed.
Lemma point_bytes_inj : forall x y : G, point_bytes x = point_bytes y -> x = y.
Proof. intros x y. apply (ec_bytes_inj HG). Qed.

Lemma i16_small : forall n, 0 <= n < 32768 ->
  put_i16_be_bytes (wraps 16 n) = Ok (be_bytes 2 n).
Proof.
  intros. unfold put_i16_be_bytes. do 2 f_equal. unfold wrapu, wraps.
  change (2^16) with 65536. change (2^(16-1)) with 32768.
  rewrite (Z.mod_small (n + 32768)) by lia.
  rewrite Z.mod_small; lia.
Qed.

Lemma leaf_write_bytes : forall p : leaf, sb_write (SLeaf p) = Ok (leaf_bytes p).
Proof.
  intros [h|g h u v]; cbn [sb_write leaf_write]; rewrite ?ec_write_bytes; reflexivity.
Qed.
Lemma leaf_bytes_len : forall p : leaf,
  length (leaf_bytes p) = match p with Dlog _ => 34%nat | _ => 133%nat end.
Proof. intros [h|g h u v]; simpl; rewrite ?app_length, !point_bytes_len; reflexivity. Qed.
Lemma message_bytes_len : forall m : fmsg,
  length (message_bytes m) = match m with FDlog _ => 33%nat | _ => 66%nat end.
Proof. intros [a|a b]; simpl; rewrite ?app_length, !point_bytes_len; reflexivity. Qed.
Lemma fmsg_write_bytes : forall m : fmsg, fmsg_bytes m = Ok (message_bytes m).
Proof. intros [a|a b]; simpl; rewrite !ec_write_bytes; reflexivity. Qed.

Lemma fs_leaf_string : forall (p : leaf) m, fs_leaf p (Some m) = Ok (fs_string (SLeaf p) (CLeaf m)).
Proof.
  intros. unfold fs_leaf, leaf_prop_bytes. rewrite leaf_write_bytes. cbn [bind of_option].
  rewrite fmsg_write_bytes. cbn [bind].
  rewrite !i16_small; [reflexivity| |];
    unfold Zlen; rewrite ?app_length, ?leaf_bytes_len, ?message_bytes_len; destruct p; destruct m; simpl; lia.
Qed.

Lemma fs_tr : forall s u, sb_wf s -> matches s u ->
  fs_write_u (compute_commitments u) = Ok (fs_string s (first_messages (tr u))).
Proof.
  apply (sbool_ind' (fun s => forall u, sb_wf s -> matches s u ->
    fs_write_u (compute_commitments u) = Ok (fs_string s (first_messages (tr u))))).
  - intros b u _ H. simpl in H. tauto.
  - intros p [p' cm e z|] _ H; simpl in H; [|tauto]. subst p'. apply fs_leaf_string.
  - intros c l IH [|c' e us] Hwf HM; [simpl in HM; tauto|].
    cbn [sb_wf] in Hwf. destruct Hwf as (Hc & Hlen & Hl). apply fold_and_Forall in Hl.
    cbn [matches] in HM. destruct HM as [HK HM].
    cbn [compute_commitments fs_write_u tr first_messages].
    assert (Hw : write_each fs_write_u (map compute_commitments us) =
      Ok (zip_bytes fs_string l (map first_messages (map tr us)))).
    { clear HK Hlen. revert us HM. induction l as [|x l IHl]; intros [|u us] HM; simpl in HM; try tauto.
      inversion IH; inversion Hl; subst. destruct HM as [M1 M2].
      cbn [map write_each zip_bytes]. rewrite H1 by auto. cbn [bind].
      rewrite IHl by auto. reflexivity. }
    rewrite Hw. assert (Lus : length us = length l).
    { apply all2_Forall2 in HM. symmetry. eapply Forall2_length'; eauto. }
    unfold fs_node, items_len_ok, Zlen in *. rewrite map_length, Lus.
    rewrite i16_small by lia. cbn [bind fs_string].
    destruct c, c'; simpl in HK; try tauto; try reflexivity.
    destruct HK as [-> _]. reflexivity.
Qed.

(** ** Acceptance *)

Lemma layout_nonempty : forall (s : sbool) t b1, accepting s t -> layout true s t b1 -> b1 <> [].
Proof.
  intros s t b1 HA HL ->. apply accepting_chal_ok in HA. destruct HA as [L _].
  assert (E : exists body, [] = t_chal t ++ body).
  { destruct s, t; simpl in HL; destruct HL as (body & E & _); exists body; exact E. }
  destruct E as [body E]. symmetry in E. apply app_eq_nil in E. destruct E as [E _].
  rewrite E in L. discriminate.
Qed.

Theorem verify_iff : forall H (s : sbool) message signature,
  sb_wf s -> nontrivial s -> bytes_ok signature ->
  (verify_signature H s message signature = Ok true <->
   exists t b1 rest, accepting s t /\ signature = b1 ++ rest /\ layout true s t b1 /\
     t_chal t = firstn 24 (H (fs_string s (first_messages t) ++ message))).
Proof.
  intros H s message signature Hwf Hnt Hb.
  assert (Hv : verify_signature H s message signature =
    match signature with
    | [] => Ok false
    | _ => t <- parse_sig_compute_challenges s signature ;; check_commitments H t message
    end) by (destruct s; [contradiction|reflexivity|reflexivity]).
  rewrite Hv. clear Hv. split.
  - intros HV. destruct signature as [|b0 sg]; [discriminate|]. remember (b0 :: sg) as sig eqn:Es.
    apply bind_ok in HV. destruct HV as [u [HP HC]].
    assert (HP' : exists rest, parse_sig s None sig = Ok (u, rest)).
    { unfold parse_sig_compute_challenges in HP. rewrite Es in HP. rewrite <- Es in HP.
      apply bind_ok in HP. destruct HP as [[u' rest] [HP E]]. injection E as <-. exists rest. exact HP. }
    destruct HP' as [rest HP'].
    apply (parse_sound s Hwf) in HP'; [|discriminate|auto].
    destruct HP' as (_ & HM & HA & HCh & _ & b1 & E & HL).
    exists (tr u), b1, rest. split; auto. split; auto. split; auto.
    unfold check_commitments in HC. rewrite (fs_tr s) in HC by auto. cbn [bind] in HC.
    injection HC as HC. apply bytes_eqb_spec in HC. rewrite t_chal_tr.
    destruct u; exact HC.
  - intros (t & b1 & rest & HA & -> & HL & HC).
    pose proof (layout_nonempty _ _ _ HA HL) as Hne.
    destruct (parse_complete s Hwf t true b1 rest HA HL) as (u & HP & HT & HM).
    destruct b1 as [|b0 b1]; [congruence|]. cbn [app].
    unfold parse_sig_compute_challenges. change (b0 :: b1 ++ rest) with ((b0 :: b1) ++ rest).
    rewrite HP. cbn [bind app]. unfold check_commitments. rewrite (fs_tr s) by auto. cbn [bind].
    f_equal. apply bytes_eqb_spec. rewrite HT. unfold fiat_shamir_hash. rewrite <- HC, <- HT.
    destruct u; reflexivity.
Qed.

(** ** No panics *)
Lemma bind_panic : forall A B (x : res A) (f : A -> res B),
  x <> Panic -> (forall a, x = Ok a -> f a <> Panic) -> bind x f <> Panic.
Proof. intros A B [a|e|] f H1 H2; cbn [bind]; [apply H2; auto|discriminate|congruence]. Qed.
Lemma read_exact_panic : forall n bs, read_exact n bs <> Panic.
Proof. intros n bs. unfold read_exact. destruct (Nat.leb n (length bs)); discriminate. Qed.

Definition no_panic_at (s : sbool) : Prop := parse_ok s /\ forall co bs,
  (forall c, co = Some c -> chal_ok c) -> bytes_ok bs -> parse_sig s co bs <> Panic.

Lemma rei_panic : forall l i ch bs, Forall no_panic_at l ->
  (forall j, (i <= j < i + length l)%nat -> chal_ok (ch j)) -> bytes_ok bs ->
  read_each_i (fun j x => parse_sig x (Some (ch j))) i l bs <> Panic.
Proof.
  induction l as [|x l IH]; intros i ch bs HP Hch Hb; [discriminate|].
  inversion HP as [|? ? [Hx1 Hx2] Hl]; subst. cbn [read_each_i].
  assert (Hc0 : forall c, Some (ch i) = Some c -> chal_ok c).
  { intros c [= <-]. apply Hch. simpl. lia. }
  apply bind_panic; [apply Hx2; auto|]. intros [u b1] H1.
  destruct (Hx1 _ _ _ _ Hc0 Hb H1) as (B1 & _).
  apply bind_panic; [|intros [? ?] _; discriminate].
  apply (IH (S i) ch b1); auto. intros j Hj. apply Hch. simpl. lia.
Qed.
Lemma ror_panic : forall l acc bs, Forall no_panic_at l -> chal_ok acc -> bytes_ok bs ->
  read_or parse_sig l acc bs <> Panic.
Proof.
  induction l as [|x l IH]; intros acc bs HP Hacc Hb; [discriminate|].
  inversion HP as [|? ? [Hx1 Hx2] Hl]; subst. destruct l as [|y l].
  - cbn [read_or]. apply bind_panic; [apply Hx2; auto; intros c [= <-]; auto|].
    intros [? ?] _. discriminate.
  - remember (y :: l) as l' eqn:El.
    assert (Er : read_or parse_sig (x :: l') acc bs =
      ('(u, bs) <- parse_sig x None bs ;;
       '(us, bs) <- read_or parse_sig l' (chal_xor acc (u_chal u)) bs ;;
       Ok (u :: us, bs))) by (rewrite El; reflexivity).
    rewrite Er. assert (Hn : forall c : challenge, None = Some c -> chal_ok c) by discriminate.
    apply bind_panic; [apply Hx2; auto|]. intros [u b1] H1.
    destruct (Hx1 _ _ _ _ Hn Hb H1) as (B1 & _ & _ & C1 & _).
    apply bind_panic; [|intros [? ?] _; discriminate].
    apply IH; auto. apply chal_xor_ok; auto.
Qed.

Lemma parse_no_panic : forall s, sb_wf s -> thr_ok s -> no_panic_at s.
Proof.
  intros s Hwf Ht. split; [apply parse_sound; auto|]. revert s Hwf Ht.
  apply (sbool_ind' (fun s => sb_wf s -> thr_ok s -> forall co bs,
    (forall c, co = Some c -> chal_ok c) -> bytes_ok bs -> parse_sig s co bs <> Panic)).
  - intros b _ _ co bs Hco Hb. cbn [parse_sig]. apply bind_panic; [|intros [? ?] _; discriminate].
    destruct co; [discriminate|]. destruct (read_exact 24 bs); discriminate.
  - intros p _ _ co bs Hco Hb. cbn [parse_sig]. apply bind_panic.
    { destruct co; [discriminate|]. destruct (read_exact 24 bs); discriminate. }
    intros [e b1] _. apply bind_panic; [apply read_exact_panic|intros [? ?] _; discriminate].
  - intros c l IH Hwf Ht co bs Hco Hb. cbn [sb_wf] in Hwf. destruct Hwf as (Hc & Hlen & Hl).
    cbn [thr_ok] in Ht. destruct Ht as [Hk Ht].
    apply fold_and_Forall in Hl, Ht.
    assert (HP : Forall no_panic_at l).
    { rewrite Forall_forall in *. intros x Hx. split; [apply parse_sound; auto|apply IH; auto]. }
    cbn [parse_sig]. apply bind_panic.
    { destruct co; [discriminate|]. destruct (read_exact 24 bs); discriminate. }
    intros [e b1] He.
    assert (Hpre : chal_ok e /\ bytes_ok b1).
    { destruct co as [c0|]; [injection He as <- <-; auto|].
      destruct (read_exact 24 bs) as [[e' b']| |] eqn:E; try discriminate. injection He as -> ->.
      apply read_exact_inv in E. destruct E as [-> Le].
      apply bytes_ok_app in Hb. destruct Hb. split; [split|]; auto. }
    destruct Hpre as [Hce Hb1]. destruct c as [| |k].
    + apply bind_panic; [|intros [? ?] _; discriminate].
      rewrite (read_each_is_i _ _ _ l 0). apply rei_panic; auto.
    + apply bind_panic; [|intros [? ?] _; discriminate]. apply ror_panic; auto.
    + replace (Zlen l <? k) with false by lia.
      cbn [conj_wf] in Hc. unfold u8 in Hc. unfold items_len_ok in Hlen.
      apply bind_panic; [apply read_exact_panic|]. intros [cb b2] H1.
      apply read_exact_inv in H1. destruct H1 as [-> Lcb].
      apply bytes_ok_app in Hb1. destruct Hb1 as [Hcb Hb2].
      destruct (poly_of_chal_spec e cb (Z.to_nat (Zlen l - k))) as (cs & Hq & Lcs & Wcs & Fcs); auto.
      { rewrite Lcb. rewrite Z2Nat.inj_mul by lia. reflexivity. }
      rewrite Hq. cbn [bind]. rewrite <- Lcs.
      apply bind_panic; [|intros [? ?] _; discriminate].
      apply rei_panic; auto. intros j Hj. unfold Zlen in Hlen.
      rewrite one_based_val by lia. rewrite poly_eval; auto; [|apply chal_gf_wf; auto|lia].
      apply gf_chal_ok. apply gf_powers_sum_wf; [apply point_wf; lia|].
      constructor; auto. apply chal_gf_wf; auto.
Qed.

Theorem verify_no_panic : forall H (s : sbool) message signature,
  sb_wf s -> thr_ok s -> bytes_ok signature -> verify_signature H s message signature <> Panic.
Proof.
  intros H s message signature Hwf Ht Hb.
  destruct (parse_no_panic s Hwf Ht) as [_ HP].
  assert (HC : forall u rest, parse_sig s None signature = Ok (u, rest) -> check_commitments H u message <> Panic).
  { intros u rest E. apply (parse_sound s Hwf) in E; [|discriminate|auto].
    destruct E as (_ & HM & _). unfold check_commitments. rewrite (fs_tr s) by auto. discriminate. }
  assert (Hv : match signature with
    | [] => Ok false
    | _ => t <- parse_sig_compute_challenges s signature ;; check_commitments H t message
    end <> Panic).
  { destruct signature as [|b0 sg]; [discriminate|]. unfold parse_sig_compute_challenges.
    apply bind_panic.
    - apply bind_panic; [apply HP; auto; discriminate|intros [? ?] _; discriminate].
    - intros u Hu. apply bind_ok in Hu. destruct Hu as [[u' rest] [E Hu]]. injection Hu as <-.
      eapply HC; eauto. }
  destruct s; [discriminate|exact Hv|exact Hv].
Qed.
End Verifier.
