(** Distributed signing, continued: the exchange of hints between the parties. *)
From Verif Require Import Base VlqModel VlqProofs GfModel GfProofs GfBytesProofs PolyProofs GfProps.
From Verif Require Import GroupModel GroupProofs SigmaModel SigmaSpec SigmaProofs VerifierProofs.
From Verif Require Import SoundnessProofs EncodingProofs SbProofs ProverModel ProverProofs CommitProofs MultiSigProofs.
From Verif Require Import SignModel.
Local Open Scope Z_scope.
#[local] Opaque gf_mul gf_add evaluate gf_to_bytes gf_from_bytes24 poly_of_chal be_bytes interpolate.

(** ** Lookup by position *)
Lemma pos_eqb_spec : forall a b, pos_eqb a b = true <-> a = b.
Proof. intros a b. unfold pos_eqb. apply list_eqb_spec. intros x y _. apply Nat.eqb_eq. Qed.
Lemma find_pos_all : forall A (l : list (position * A)) q v w,
  (forall x, In (q, x) l -> x = v) -> In (q, w) l -> find_pos q l = Some v.
Proof.
  intros A l q v w H Hin. unfold find_pos. destruct (find (fun x => pos_eqb (fst x) q) l) as [[q' x]|] eqn:E.
  - apply find_some in E. destruct E as [E1 E2]. apply pos_eqb_spec in E2. cbn in E2. subst q'. cbn.
    f_equal. apply H, E1.
  - exfalso. apply (find_none _ _ E) in Hin. cbn in Hin. rewrite (proj2 (pos_eqb_spec q q) eq_refl) in Hin. discriminate.
Qed.
Lemma find_pos_none : forall A (l : list (position * A)) q, (forall x, ~ In (q, x) l) -> find_pos q l = None.
Proof.
  intros A l q H. unfold find_pos. destruct (find (fun x => pos_eqb (fst x) q) l) as [[q' x]|] eqn:E; auto.
  exfalso. apply find_some in E. destruct E as [E1 E2]. apply pos_eqb_spec in E2. cbn in E2. subst q'. eapply H, E1.
Qed.

Section CoSign.
Context {G : group} (HG : group_ok G).
Notation leaf := (leaf G). Notation sbool := (sbool G). Notation fmsg := (fmsg G).
Notation ptree := (ptree G). Notation utree := (utree G). Notation hint := (hint G).

(** ** What is in a bag *)
Lemma in_commitments : forall hs q cm, In (q, cm) (commitments hs) <->
  (exists i r, In (HOwnCommitment (G:=G) i r cm q) hs) \/ (exists i, In (HRealCommitment i cm q) hs) \/
  (exists i, In (HSimCommitment i cm q) hs).
Proof.
  intros hs q cm. unfold commitments. rewrite in_flat_map. split.
  - intros (h & Hin & H). destruct h; cbn in H; try tauto; destruct H as [E|[]]; injection E as -> ->; eauto.
  - intros [(i & r & H)|[(i & H)|(i & H)]]; eexists; (split; [exact H|]); left; reflexivity.
Qed.
Lemma in_proofs : forall hs q e, In (q, e) (proofs hs) <->
  (exists i u, In (HRealProof (G:=G) i e u q) hs) \/ (exists i u, In (HSimProof i e u q) hs).
Proof.
  intros hs q e. unfold proofs. rewrite in_flat_map. split.
  - intros (h & Hin & H). destruct h; cbn in H; try tauto; destruct H as [E|[]]; injection E as -> ->; eauto.
  - intros [(i & u & H)|(i & u & H)]; eexists; (split; [exact H|]); left; reflexivity.
Qed.
Lemma in_own : forall hs q r, In (q, r) (own_commitments hs) <-> exists i cm, In (HOwnCommitment (G:=G) i r cm q) hs.
Proof.
  intros hs q r. unfold own_commitments. rewrite in_flat_map. split.
  - intros (h & Hin & H). destruct h; cbn in H; try tauto; destruct H as [E|[]]; injection E as -> ->; eauto.
  - intros (i & cm & H); eexists; (split; [exact H|]); left; reflexivity.
Qed.
Lemma in_real_proofs : forall hs q u, In (q, u) (map (fun x => (snd (fst x), snd x)) (real_proofs hs)) <->
  exists i e, In (HRealProof (G:=G) i e u q) hs.
Proof.
  intros hs q u. rewrite in_map_iff. unfold real_proofs. split.
  - intros (((i & q') & u') & E & H). cbn in E. injection E as -> ->. apply in_flat_map in H.
    destruct H as (h & Hin & H). destruct h; cbn in H; try tauto; destruct H as [E|[]]; injection E as -> -> ->; eauto.
  - intros (i & e & H). exists (i, q, u). split; auto. apply in_flat_map. eexists. split; [exact H|]. left. reflexivity.
Qed.
Lemma in_sim_proofs : forall hs i u, In (i, u) (simulated_proofs hs) <-> exists e q, In (HSimProof (G:=G) i e u q) hs.
Proof.
  intros hs i u. unfold simulated_proofs. rewrite in_flat_map. split.
  - intros (h & Hin & H). destruct h; cbn in H; try tauto; destruct H as [E|[]]; injection E as -> ->; eauto.
  - intros (e & q & H); eexists; (split; [exact H|]); left; reflexivity.
Qed.
Lemma in_real_images : forall hs i, In i (real_images hs) <->
  (exists e u q, In (HRealProof (G:=G) i e u q) hs) \/ (exists cm q, In (HRealCommitment i cm q) hs).
Proof.
  intros hs i. unfold real_images. rewrite in_app_iff. split.
  - intros [H|H].
    + apply in_map_iff in H. destruct H as (((i' & q) & u) & E & H). cbn in E. subst i'. unfold real_proofs in H.
      apply in_flat_map in H. destruct H as (h & Hin & H).
      destruct h; cbn in H; try tauto; destruct H as [E|[]]; injection E as -> -> ->; eauto.
    + unfold real_commitment_images in H. apply in_flat_map in H. destruct H as (h & Hin & H).
      destruct h; cbn in H; try tauto; destruct H as [E|[]]; subst; eauto.
  - intros [(e & u & q & H)|(cm & q & H)].
    + left. apply in_map_iff. exists (i, q, u). split; auto. unfold real_proofs. apply in_flat_map.
      eexists; (split; [exact H|]); left; reflexivity.
    + right. unfold real_commitment_images. apply in_flat_map. eexists; (split; [exact H|]); left; reflexivity.
Qed.

(** ** The exchange *)
(** A party: the secrets, the scalars drawn for the commitments, and the draws made
    while proving. *)
Record party := Party { pa_secrets : list (secret G); pa_tape : position -> Z; pa_rnd : randomness }.
Definition images (pa : party) : list sbool := map (fun x => SLeaf (public_image x)) (pa_secrets pa).
Definition own_hints (s : sbool) (pa : party) : list hint := generate_commitments_for (pa_tape pa) s (images pa).
Definition is_public (h : hint) : bool := match h with HRealCommitment _ _ _ => true | _ => false end.
(** What a party publishes before signing. *)
Definition public_hints (s : sbool) (pa : party) : list hint := filter is_public (own_hints s pa).
(** The parties sign in turn.  Each uses the hints [prev] extracted from the proof of
    the party before (naming the parties that have signed and the propositions
    [sims] nobody can prove), its own commitments and the published commitments of
    the parties still to sign, in any order. *)
Fixpoint co_sign (H : bytes -> bytes) (arrange : list hint -> list hint) (s : sbool) (sims : list sbool) (msg : bytes)
    (signed : list sbool) (prev : list hint) (todo : list party) : res bytes :=
  match todo with
  | [] => Err "nobody signs"
  | pa :: rest =>
      b <- generate_proof (pa_secrets pa)
             (arrange (prev ++ own_hints s pa ++ flat_map (public_hints s) rest)) (pa_rnd pa) H s msg ;;
      match rest with
      | [] => Ok b
      | _ =>
          prev' <- bag_for_multi_sig s (images pa ++ signed) sims b ;;
          co_sign H arrange s sims msg (images pa ++ signed) prev' rest
      end
  end.

Definition has (pa : party) (p : leaf) : bool := existsb (fun x => leaf_eqb (public_image x) p) (pa_secrets pa).
Definition owned (ps : list party) (p : leaf) : bool := existsb (fun pa => has pa p) ps.

Lemma has_spec : forall pa p, has pa p = true <-> exists x, In x (pa_secrets pa) /\ public_image x = p.
Proof.
  intros pa p. unfold has. rewrite existsb_exists. split; intros (x & Hx & E); exists x; split; auto;
    apply (leaf_eqb_spec HG); auto.
Qed.
Lemma images_spec : forall pa p, existsb (sbool_eqb (SLeaf p)) (images pa) = has pa p.
Proof.
  intros pa p. apply Bool.eq_true_iff_eq. rewrite existsb_exists, has_spec. unfold images. split.
  - intros (i & Hi & E). apply in_map_iff in Hi. destruct Hi as (x & <- & Hx). apply (sbool_eqb_spec HG) in E.
    injection E as ->. eauto.
  - intros (x & Hx & <-). exists (SLeaf (public_image x)). split; [apply in_map_iff; eauto|].
    apply (sbool_eqb_spec HG). reflexivity.
Qed.

(** ** Commitments follow the leaves *)
Lemma gen_locs : forall r wanted s pos, gen_commitments r wanted pos s =
  flat_map (fun x : leaf * position => let '(p, q) := x in
    if existsb (sbool_eqb (SLeaf p)) wanted
    then [HRealCommitment (SLeaf p) (first_message p (r q)) q; HOwnCommitment (SLeaf p) (r q) (first_message p (r q)) q]
    else []) (locs pos s).
Proof.
  intros r wanted.
  apply (sbool_ind' (fun s => forall pos, gen_commitments r wanted pos s = flat_map _ (locs pos s))).
  - reflexivity.
  - intros p pos. cbn [gen_commitments locs flat_map]. rewrite app_nil_r. reflexivity.
  - intros c l IH pos. cbn [gen_commitments locs]. generalize 0%nat.
    induction l as [|x l IHl]; intros i; cbn [imap concat]; auto. inversion IH; subst.
    rewrite flat_map_app. f_equal; auto.
Qed.
Lemma in_own_hints : forall s pa h, In h (own_hints s pa) <->
  exists p q, In (p, q) (locs crypto_tree_prefix s) /\ has pa p = true /\
    (h = HRealCommitment (SLeaf p) (first_message p (pa_tape pa q)) q \/
     h = HOwnCommitment (SLeaf p) (pa_tape pa q) (first_message p (pa_tape pa q)) q).
Proof.
  intros s pa h. unfold own_hints, generate_commitments_for. rewrite gen_locs, in_flat_map. split.
  - intros ((p, q) & Hin & H). rewrite images_spec in H. destruct (has pa p) eqn:E; [|destruct H].
    exists p, q. destruct H as [<-|[<-|[]]]; auto.
  - intros (p & q & Hin & E & H). exists (p, q). split; auto. rewrite images_spec, E. cbn. intuition.
Qed.
Lemma in_public_hints : forall s pa h, In h (public_hints s pa) <->
  exists p q, In (p, q) (locs crypto_tree_prefix s) /\ has pa p = true /\
    h = HRealCommitment (SLeaf p) (first_message p (pa_tape pa q)) q.
Proof.
  intros s pa h. unfold public_hints. rewrite filter_In, in_own_hints. split.
  - intros ((p & q & Hin & E & [-> | ->]) & Hp); [eauto|discriminate].
  - intros (p & q & Hin & E & ->). split; [|reflexivity]. exists p, q. auto.
Qed.

(** ** The reference conversation of the parties *)
Variable parties : list party.
Variable first : party.
Hypothesis Hdisj : ForallOrdPairs (fun a b => forall p, has a p = true -> has b p = false) parties.
Notation kn := (owned parties).
Definition owner (p : leaf) : option party := find (fun pa => has pa p) parties.
Definition wit (p : leaf) : Z :=
  match owner p with
  | Some pa => match find (fun x => leaf_eqb (public_image x) p) (pa_secrets pa) with Some x => secret_w x | None => 0 end
  | None => 0
  end.
Definition tape (p : leaf) (q : position) : Z := match owner p with Some pa => pa_tape pa q | None => 0 end.
Definition SCf (q : position) : challenge := r_chal (pa_rnd first) q.
Definition ZSf (p : leaf) (q : position) : Z := r_scal (pa_rnd first) q.
Definition CMf (p : leaf) (q : position) : fmsg :=
  if kn p then first_message p (tape p q) else simulate p (SCf q) (ZSf p q).
Definition right_answer (p : leaf) (q : position) (e : challenge) : Z := @second_message G (wit p) (tape p q) e.
Definition respf (sg : list party) (rnd : randomness) (p : leaf) (q : position) (e : challenge) : Z :=
  if owned sg p then right_answer p q e else r_resp rnd q.

Lemma owner_find : forall ps, ForallOrdPairs (fun a b => forall p, has a p = true -> has b p = false) ps ->
  forall pa p, In pa ps -> has pa p = true -> find (fun pa => has pa p) ps = Some pa.
Proof.
  intros ps D pa p. induction D as [|x l Hx _ IH]; intros Hin Hp; [destruct Hin|].
  cbn [find]. destruct (has x p) eqn:E.
  - destruct Hin as [->|Hin]; auto. rewrite Forall_forall in Hx. rewrite (Hx pa Hin p E) in Hp. discriminate.
  - destruct Hin as [->|Hin]; [congruence|]. auto.
Qed.
Lemma owner_is : forall pa p, In pa parties -> has pa p = true -> owner p = Some pa.
Proof.
  intros pa p. apply owner_find. exact Hdisj.
Qed.
Lemma owned_in : forall ps p, owned ps p = true <-> exists pa, In pa ps /\ has pa p = true.
Proof. intros. apply existsb_exists. Qed.
Lemma tape_is : forall pa p q, In pa parties -> has pa p = true -> tape p q = pa_tape pa q.
Proof. intros pa p q H1 H2. unfold tape. rewrite (owner_is pa) by auto. reflexivity. Qed.
Lemma kn_in : forall pa p, In pa parties -> has pa p = true -> kn p = true.
Proof. intros pa p H1 H2. apply owned_in. eauto. Qed.

Lemma cm_matches : forall p q, fmsg_matches p (CMf p q) = true.
Proof. intros p q. unfold CMf. destruct (kn p), p; reflexivity. Qed.

Hypothesis Hsec : Forall (fun pa => Forall secret_ok (pa_secrets pa)) parties.
Lemma right_accepts : forall p q e, kn p = true -> compute_commitment p e (right_answer p q e) = CMf p q.
Proof.
  intros p q e Hk. unfold CMf. rewrite Hk. symmetry. apply (leaf_accepts_iff HG). unfold right_answer.
  apply (second_message_accepts HG). apply owned_in in Hk. destruct Hk as (pa & Hin & Hp).
  unfold wit. rewrite (owner_is pa) by auto.
  destruct (find (fun x => leaf_eqb (public_image x) p) (pa_secrets pa)) as [x|] eqn:E.
  - apply find_some in E. destruct E as [E1 E2]. apply (leaf_eqb_spec HG) in E2. subst p.
    rewrite Forall_forall in Hsec. specialize (Hsec pa Hin). rewrite Forall_forall in Hsec. apply Hsec, E1.
  - exfalso. apply has_spec in Hp. destruct Hp as (x & Hx & Ex). apply (find_none _ _ E) in Hx.
    apply (leaf_eqb_spec HG) in Ex. congruence.
Qed.
Lemma sim_accepts : forall p q, kn p = false -> compute_commitment p (SCf q) (ZSf p q) = CMf p q.
Proof. intros p q Hk. unfold CMf. rewrite Hk. symmetry. apply (simulate_accepts HG). Qed.

(** ** The hints of one signer *)
Variable s : sbool.
Variable e0 : challenge.
Notation root := crypto_tree_prefix.
Notation lvs := (leaves kn SCf root e0 s).
Notation lcs := (locs root s).
Hypothesis Hsims : forall p q q', In (p, q) lcs -> In (p, q') lcs -> kn p = false -> q = q'.

Inductive told_by (dn : list party) : hint -> Prop :=
| told_real p q : In (p, q) lcs -> owned dn p = true -> told_by dn (HRealCommitment (SLeaf p) (CMf p q) q)
| told_proof p q e : In (p, q, e) lvs -> owned dn p = true ->
    told_by dn (HRealProof (SLeaf p) e (ULeaf p (Some (CMf p q)) e (right_answer p q e)) q)
| told_simc p q : dn <> [] -> In (p, q) lcs -> kn p = false -> told_by dn (HSimCommitment (SLeaf p) (CMf p q) q)
| told_simp p q : dn <> [] -> In (p, q) lcs -> kn p = false ->
    told_by dn (HSimProof (SLeaf p) (SCf q) (ULeaf p (Some (CMf p q)) (SCf q) (ZSf p q)) q).
Inductive offered (dn : list party) (pa : party) : hint -> Prop :=
| of_real p q : In (p, q) lcs -> kn p = true -> offered dn pa (HRealCommitment (SLeaf p) (CMf p q) q)
| of_own p q : In (p, q) lcs -> has pa p = true ->
    offered dn pa (HOwnCommitment (SLeaf p) (pa_tape pa q) (CMf p q) q)
| of_told h : told_by dn h -> offered dn pa h.

Lemma offered_spec : forall dn pa rest prev h, parties = dn ++ pa :: rest ->
  (forall h, In h prev <-> told_by dn h) ->
  (In h (prev ++ own_hints s pa ++ flat_map (public_hints s) rest) <-> offered dn pa h).
Proof.
  intros dn pa rest prev h EP HP. rewrite !in_app_iff, HP, in_own_hints, in_flat_map.
  assert (Hcm : forall pb p q, In pb parties -> has pb p = true -> first_message p (pa_tape pb q) = CMf p q).
  { intros pb p q H1 H2. unfold CMf. rewrite (kn_in pb) by auto. rewrite (tape_is pb) by auto. reflexivity. }
  assert (Hpa : In pa parties) by (rewrite EP; apply in_elt).
  assert (Hrest : forall pb, In pb rest -> In pb parties)
    by (intros pb Hb; rewrite EP; apply in_or_app; right; right; exact Hb).
  split.
  - intros [H|[(p & q & Hin & Hp & [-> | ->])|(pb & Hb & H)]].
    + apply of_told, H.
    + rewrite Hcm by auto. apply of_real; auto. apply (kn_in pa); auto.
    + rewrite Hcm by auto. apply of_own; auto.
    + apply in_public_hints in H. destruct H as (p & q & Hin & Hp & ->). rewrite Hcm by auto.
      apply of_real; auto. apply (kn_in pb); auto.
  - intros [p q Hin Hk|p q Hin Hp|h' H].
    + apply owned_in in Hk. destruct Hk as (pb & Hb & Hp). rewrite EP in Hb. apply in_app_iff in Hb.
      destruct Hb as [Hb|[<-|Hb]].
      * left. apply told_real; auto. apply owned_in. eauto.
      * right. left. exists p, q. rewrite Hcm by auto. auto.
      * right. right. exists pb. split; auto. apply in_public_hints. exists p, q. rewrite Hcm by auto. auto.
    + right. left. exists p, q. rewrite Hcm by auto. auto.
    + left. exact H.
Qed.

Section Turn.
Variable dn rest : list party.
Variable pa : party.
Variable hints : list hint.
Hypothesis EP : parties = dn ++ pa :: rest.
Hypothesis Hhints : forall h, In h hints <-> offered dn pa h.
Hypothesis Hfirst : dn = [] -> pa = first.

Lemma pa_in : In pa parties.
Proof. rewrite EP. apply in_elt. Qed.
Lemma dn_in : forall pb, In pb dn -> In pb parties.
Proof. intros pb H. rewrite EP. apply in_or_app. auto. Qed.
Lemma dn_kn : forall p, owned dn p = true -> kn p = true.
Proof. intros p H. apply owned_in in H. destruct H as (pb & Hb & Hp). eapply kn_in; eauto. apply dn_in, Hb. Qed.
Lemma dn_not_pa : forall p, has pa p = true -> owned dn p = false.
Proof.
  intros p Hp. destruct (owned dn p) eqn:E; auto. exfalso. apply owned_in in E. destruct E as (pb & Hb & Hpb).
  pose proof Hdisj as D. rewrite EP in D. revert D Hb. generalize dn. intros l. induction l as [|x l IH]; intros D Hb; [destruct Hb|].
  cbn [app] in D. inversion D as [|? ? H1 H2]; subst.
  destruct Hb as [->|Hb]; [|apply IH; auto].
  rewrite Forall_forall in H1. specialize (H1 pa (in_elt pa l rest) p Hpb). congruence.
Qed.

Lemma turn_known : forall p q, In (p, q) lcs -> secret_known (pa_secrets pa) hints p = kn p.
Proof.
  intros p q Hin. apply Bool.eq_true_iff_eq. unfold secret_known. rewrite orb_true_iff. split.
  - intros [H|H].
    + apply existsb_exists in H. destruct H as (i & Hi & E). apply (sbool_eqb_spec HG) in E. subst i.
      apply in_real_images in Hi. destruct Hi as [(e & u & q' & H)|(cm & q' & H)]; apply Hhints in H.
      * inversion H as [| |h Ht E]; subst. inversion Ht; subst. apply dn_kn. auto.
      * inversion H as [| |h Ht E]; subst; auto. inversion Ht; subst. apply dn_kn. auto.
    + eapply kn_in; [apply pa_in|exact H].
  - intros Hk. left. apply existsb_exists. exists (SLeaf p). split; [|apply (sbool_eqb_spec HG); reflexivity].
    apply in_real_images. right. exists (CMf p q), q. apply Hhints, of_real; auto.
Qed.

Definition rrf (q : position) : option Z := None.
Definition slf (p : leaf) (q : position) : ptree :=
  match dn with
  | [] => PUnchecked (ULeaf p (Some (CMf p q)) (SCf q) (ZSf p q))
  | _ => PLeaf p (Some (CMf p q)) None (Some (SCf q)) true q
  end.

Lemma turn_commitments : forall p q cm, In (p, q) lcs -> In (q, cm) (commitments hints) -> cm = CMf p q.
Proof.
  intros p q cm Hin H. apply in_commitments in H.
  assert (K : forall p', In (p', q) lcs -> CMf p' q = CMf p q).
  { intros p' H'. rewrite (locs_fun _ _ _ _ _ Hin H'). reflexivity. }
  destruct H as [(i & r & H)|[(i & H)|(i & H)]]; apply Hhints in H.
  - inversion H as [|p' q' H1 H2 E|h Ht E]; subst; [auto|]. inversion Ht.
  - inversion H as [p' q' H1 H2 E| |h Ht E]; subst; [auto|]. inversion Ht; subst; auto.
  - inversion H as [| |h Ht E]; subst. inversion Ht; subst; auto.
Qed.

Lemma turn_commits : forall p q, In (p, q) lcs ->
  commits kn CMf SCf ZSf hints (pa_rnd pa) rrf slf p q.
Proof.
  intros p q Hin. unfold commits. destruct (kn p) eqn:Hk.
  - unfold step5. rewrite (find_pos_all _ _ _ (CMf p q) (CMf p q)).
    + rewrite cm_matches. reflexivity.
    + intros x Hx. eapply turn_commitments; eauto.
    + apply in_commitments. right. left. exists (SLeaf p). apply Hhints, of_real; auto.
  - assert (D : length dn = 0%nat \/ dn <> []) by (destruct dn; [left; auto|right; discriminate]).
    destruct D as [D|D].
    + assert (N : forall h, told_by dn h -> False).
      { intros h H. inversion H as [? ? _ H1|? ? ? _ H1|? ? H1|? ? H1]; subst h; apply length_zero_iff_nil in D; try contradiction; rewrite D in H1; discriminate. }
      assert (NC : find_pos q (commitments hints) = None).
      { apply find_pos_none. intros cm H. apply in_commitments in H.
        destruct H as [(i & r & H)|[(i & H)|(i & H)]]; apply Hhints in H.
        - inversion H as [|p' q' H1 H2 E|h Ht E]; subst; [|eapply N; eauto].
          rewrite (locs_fun _ _ _ _ _ Hin H1) in Hk. rewrite (kn_in pa _ pa_in H2) in Hk. discriminate.
        - inversion H as [p' q' H1 H2 E| |h Ht E]; subst; [|eapply N; eauto].
          rewrite (locs_fun _ _ _ _ _ Hin H1) in Hk. congruence.
        - inversion H as [| |h Ht E]; subst. eapply N; eauto. }
      assert (NP : find_pos q (proofs hints) = None).
      { apply find_pos_none. intros e H. apply in_proofs in H.
        destruct H as [(i & u & H)|(i & u & H)]; apply Hhints in H; inversion H as [| |h Ht E]; subst; eapply N; eauto. }
      clear N. apply length_zero_iff_nil in D. unfold sim_chal. rewrite NP. split; [unfold SCf; rewrite (Hfirst D); reflexivity|].
      unfold step5. rewrite NC. cbn [of_option bind]. unfold slf. rewrite D. split; [|right; reflexivity].
      unfold CMf. rewrite Hk. unfold ZSf. rewrite (Hfirst D). reflexivity.
    + assert (Esl : slf p q = PLeaf p (Some (CMf p q)) None (Some (SCf q)) true q) by (unfold slf; destruct dn; congruence).
      rewrite Esl. split; [|split; [|left; reflexivity]].
      * unfold sim_chal. rewrite (find_pos_all _ _ _ (SCf q) (SCf q)); auto.
        -- intros e H. apply in_proofs in H. destruct H as [(i & u & H)|(i & u & H)]; apply Hhints in H;
             inversion H as [| |h Ht E]; subst; inversion Ht as [|p' q' e' H1 H2| |p' q' H0 H1 H2]; subst; auto.
           apply leaves_in_locs in H1. rewrite (locs_fun _ _ _ _ _ Hin H1) in Hk. rewrite (dn_kn _ H2) in Hk. discriminate.
        -- apply in_proofs. right. do 2 eexists. apply Hhints, of_told, told_simp; eauto.
      * unfold step5. rewrite (find_pos_all _ _ _ (CMf p q) (CMf p q)).
        -- rewrite cm_matches. reflexivity.
        -- intros x Hx. eapply turn_commitments; eauto.
        -- apply in_commitments. right. right. eexists. apply Hhints, of_told, told_simc; auto.
Qed.

Lemma turn_answers : forall p q e, In (p, q, e) lvs ->
  answers kn CMf SCf ZSf (respf (dn ++ [pa]) (pa_rnd pa)) (pa_secrets pa) hints (pa_rnd pa) rrf slf p q e.
Proof.
  intros p q e Hin. pose proof (leaves_in_locs _ _ _ _ _ _ _ _ Hin) as Hloc. unfold answers. destruct (kn p) eqn:Hk.
  - unfold step9_leaf. cbn [of_option bind].
    destruct (find (fun x => leaf_eqb (public_image x) p) (pa_secrets pa)) as [x|] eqn:Ef.
    + pose proof Ef as Ef'. apply find_some in Ef'. destruct Ef' as [Hx Ex]. apply (leaf_eqb_spec HG) in Ex.
      assert (Hp : has pa p = true) by (apply has_spec; eauto).
      replace (same_kind (public_image x) p) with true by (rewrite Ex; destruct p; reflexivity). cbn [negb].
      rewrite (find_pos_all _ _ _ (pa_tape pa q) (pa_tape pa q)).
      * cbn [bind]. do 4 f_equal. unfold respf, right_answer.
        replace (owned (dn ++ [pa]) p) with true
          by (symmetry; apply owned_in; exists pa; split; auto; apply in_or_app; right; left; reflexivity).
        rewrite (tape_is pa) by (auto; apply pa_in). unfold wit. rewrite (owner_is pa) by (auto; apply pa_in).
        rewrite Ef. reflexivity.
      * intros r H. apply in_own in H. destruct H as (i & cm & H). apply Hhints in H.
        inversion H as [|p' q' H1 H2 E|h Ht E]; subst; auto. inversion Ht.
      * apply in_own. do 2 eexists. apply Hhints, of_own; eauto.
    + assert (Hp : has pa p = false).
      { destruct (has pa p) eqn:E; auto. apply has_spec in E. destruct E as (x & Hx & Ex).
        apply (find_none _ _ Ef) in Hx. apply (leaf_eqb_spec HG) in Ex. congruence. }
      unfold respf. replace (owned (dn ++ [pa]) p) with (owned dn p)
        by (unfold owned; rewrite existsb_app; cbn [existsb]; rewrite Hp, !orb_false_r; reflexivity).
      destruct (owned dn p) eqn:Hd.
      * rewrite (find_pos_all _ _ _ (ULeaf p (Some (CMf p q)) e (right_answer p q e)) (ULeaf p (Some (CMf p q)) e (right_answer p q e))).
        -- replace (same_kind p p) with true by (destruct p; reflexivity). reflexivity.
        -- intros u H. apply in_real_proofs in H. destruct H as (i & e' & H). apply Hhints in H.
           inversion H as [| |h Ht E]; subst. inversion Ht as [|p' q' e'' H1 H2| |]; subst.
           destruct (leaves_fun _ _ _ _ _ _ _ _ _ _ Hin H1) as [-> ->]. reflexivity.
        -- apply in_real_proofs. do 2 eexists. apply Hhints, of_told, told_proof; eauto.
      * rewrite find_pos_none; [reflexivity|]. intros u H. apply in_real_proofs in H. destruct H as (i & e' & H).
        apply Hhints in H. inversion H as [| |h Ht E]; subst. inversion Ht as [|p' q' e'' H1 H2| |]; subst.
        apply leaves_in_locs in H1. rewrite (locs_fun _ _ _ _ _ Hloc H1) in Hd. congruence.
  - assert (D : length dn = 0%nat \/ dn <> []) by (destruct dn; [left; auto|right; discriminate]).
    destruct D as [D|D].
    + apply length_zero_iff_nil in D. unfold slf. rewrite D. reflexivity.
    + assert (Esl : slf p q = PLeaf p (Some (CMf p q)) None (Some (SCf q)) true q) by (unfold slf; destruct dn; congruence).
      rewrite Esl. cbn [prove_step negb].
      set (u0 := ULeaf p (Some (CMf p q)) (SCf q) (ZSf p q)).
      assert (Hu0 : In (SLeaf p, u0) (simulated_proofs hints)).
      { apply in_sim_proofs. do 2 eexists. apply Hhints, of_told, told_simp; eauto. }
      destruct (find (fun x => sbool_eqb (fst x) (SLeaf p)) (simulated_proofs hints)) as [[i u]|] eqn:Ef.
      * apply find_some in Ef. destruct Ef as [H E]. cbn [fst] in E. apply (sbool_eqb_spec HG) in E. subst i.
        apply in_sim_proofs in H. destruct H as (e' & q' & H). apply Hhints in H.
        inversion H as [| |h Ht E]; subst. inversion Ht as [| | |p' q'' H0 H1 H2]; subst.
        unfold u0. rewrite (Hsims _ _ _ Hloc H1 Hk). reflexivity.
      * exfalso. apply (find_none _ _ Ef) in Hu0. cbn [fst] in Hu0.
        rewrite (proj2 (sbool_eqb_spec HG (SLeaf p) (SLeaf p)) eq_refl) in Hu0. discriminate.
Qed.
End Turn.

(** ** Extraction of hints from a proof *)
Definition bag_leaf (real sim : list sbool) (z : leaf * position * challenge -> Z) (x : leaf * position * challenge) : list hint :=
  let '(p, q, e) := x in
  let cm := compute_commitment p e (z x) in
  if existsb (sbool_eqb (SLeaf p)) real then
    [HRealCommitment (SLeaf p) cm q; HRealProof (SLeaf p) e (ULeaf p (Some cm) e (z x)) q]
  else if existsb (sbool_eqb (SLeaf p)) sim then
    [HSimCommitment (SLeaf p) cm q; HSimProof (SLeaf p) e (ULeaf p (Some cm) e (z x)) q]
  else [].
Lemma bag_fin : forall real sim resp x pos e, good kn x = true ->
  bag_traverse real sim pos (compute_commitments (forget (fin kn CMf SCf ZSf resp pos e x))) =
  Ok (flat_map (bag_leaf real sim (zf kn ZSf resp)) (leaves kn SCf pos e x)).
Proof.
  intros real sim resp.
  apply (sbool_ind' (fun x => forall pos e, good kn x = true ->
    bag_traverse real sim pos (compute_commitments (forget (fin kn CMf SCf ZSf resp pos e x))) =
    Ok (flat_map (bag_leaf real sim (zf kn ZSf resp)) (leaves kn SCf pos e x)))).
  - discriminate.
  - intros p pos e _. cbn [fin leaves]. destruct (kn p) eqn:Hk;
      cbn [forget compute_commitments bag_traverse flat_map bag_leaf zf]; rewrite Hk, app_nil_r;
      destruct (existsb (sbool_eqb (SLeaf p)) real); auto; destruct (existsb (sbool_eqb (SLeaf p)) sim); auto.
  - intros c l IH pos e Hg. apply good_cases in Hg. destruct Hg as [Hx|(_ & p & H & _)]; [|discriminate].
    apply exact_conj in Hx. destruct Hx as [Hg _].
    cbn [fin leaves forget compute_commitments bag_traverse]. generalize 0%nat.
    generalize (share c (kids kn SCf pos l) e). intros sh.
    induction l as [|x l IHl]; intros i; cbn [imap map concat]; auto. inversion IH; inversion Hg; subst.
    rewrite H1 by auto. cbn [bind]. rewrite IHl by auto. cbn [bind]. rewrite flat_map_app. reflexivity.
Qed.

Lemma leaves_lone : forall x pos e p q e', In (p, q, e') (leaves kn SCf pos e x) -> kn p = false -> e' = SCf q.
Proof.
  apply (sbool_ind' (fun x => forall pos e p q e', In (p, q, e') (leaves kn SCf pos e x) -> kn p = false -> e' = SCf q)).
  - intros b pos e p q e' [].
  - intros p0 pos e p q e' [E|[]] Hk. injection E as <- <- <-. rewrite Hk. reflexivity.
  - intros c l IH pos e p q e' H Hk. apply in_leaves_conj in H. destruct H as (j & x & Hj & H).
    rewrite Forall_forall in IH. apply nth_error_In in Hj. eapply IH; eauto.
Qed.
Lemma bag_told : forall dn signed sims rnd, dn <> [] ->
  (forall pb, In pb dn -> In pb parties) ->
  (forall p, existsb (sbool_eqb (SLeaf p)) signed = owned dn p) ->
  (forall p q, In (p, q) lcs -> existsb (sbool_eqb (SLeaf p)) sims = negb (kn p)) ->
  forall h, In h (flat_map (bag_leaf signed sims (zf kn ZSf (respf dn rnd))) lvs) <-> told_by dn h.
Proof.
  intros dn signed sims rnd Hne Hdn Hs Hsm h. rewrite in_flat_map.
  assert (Hdk : forall p, owned dn p = true -> kn p = true).
  { intros p H. apply owned_in in H. destruct H as (pb & Hb & Hp). apply (kn_in pb); auto. }
  split.
  - intros (((p & q) & e) & Hin & H). pose proof (leaves_in_locs _ _ _ _ _ _ _ _ Hin) as Hloc.
    unfold bag_leaf in H. rewrite Hs, (Hsm p q Hloc) in H. unfold zf in H.
    destruct (owned dn p) eqn:Hd.
    + rewrite (Hdk p Hd) in H. unfold respf in H. rewrite Hd, right_accepts in H by auto.
      destruct H as [<-|[<-|[]]]; constructor; auto.
    + destruct (kn p) eqn:Hk; [destruct H|]. cbn [negb] in H.
      rewrite (leaves_lone _ _ _ _ _ _ Hin Hk), sim_accepts in H by auto.
      destruct H as [<-|[<-|[]]]; constructor; auto.
  - intros H. inversion H as [p q Hloc Hd|p q e Hin Hd|p q H0 Hloc Hk|p q H0 Hloc Hk]; subst h.
    + destruct (locs_in_leaves kn SCf _ _ e0 _ _ Hloc) as (e & Hin). exists (p, q, e). split; auto.
      unfold bag_leaf. rewrite Hs, Hd. unfold zf. rewrite (Hdk p Hd). unfold respf. rewrite Hd, right_accepts by auto.
      left. reflexivity.
    + exists (p, q, e). split; auto.
      unfold bag_leaf. rewrite Hs, Hd. unfold zf. rewrite (Hdk p Hd). unfold respf. rewrite Hd, right_accepts by auto.
      right. left. reflexivity.
    + destruct (locs_in_leaves kn SCf _ _ e0 _ _ Hloc) as (e & Hin). exists (p, q, e). split; auto.
      pose proof (leaves_lone _ _ _ _ _ _ Hin Hk) as ->.
      unfold bag_leaf. rewrite Hs, (Hsm p q Hloc). unfold zf. rewrite Hk. cbn [negb].
      destruct (owned dn p) eqn:Hd; [rewrite (Hdk p Hd) in Hk; discriminate|]. rewrite sim_accepts by auto. left. reflexivity.
    + destruct (locs_in_leaves kn SCf _ _ e0 _ _ Hloc) as (e & Hin). exists (p, q, e). split; auto.
      pose proof (leaves_lone _ _ _ _ _ _ Hin Hk) as ->.
      unfold bag_leaf. rewrite Hs, (Hsm p q Hloc). unfold zf. rewrite Hk. cbn [negb].
      destruct (owned dn p) eqn:Hd; [rewrite (Hdk p Hd) in Hk; discriminate|]. rewrite sim_accepts by auto. right. left. reflexivity.
Qed.

Theorem co_sign_turns : forall H arrange sims msg,
  (forall l h, In h (arrange l) <-> In h l) ->
  (forall b, (24 <= length (H b))%nat /\ bytes_ok (H b)) ->
  sb_wf s -> thr_ok s -> exactb kn s = true ->
  e0 = fiat_shamir_hash H (fs_string s (cmt CMf root s) ++ msg) ->
  (forall p q, In (p, q) lcs -> existsb (sbool_eqb (SLeaf p)) sims = negb (kn p)) ->
  (forall q, chal_ok (SCf q)) -> (forall p q, @scalar_ok G (ZSf p q)) ->
  (forall pa q, In pa parties -> @scalar_ok G (r_resp (pa_rnd pa) q)) ->
  forall rest dn pa signed prev,
  parties = dn ++ pa :: rest -> (dn = [] -> pa = first) ->
  (forall p, existsb (sbool_eqb (SLeaf p)) signed = owned dn p) ->
  (forall h, In h prev <-> told_by dn h) ->
  exists proof, co_sign H arrange s sims msg signed prev (pa :: rest) = Ok proof /\ bytes_ok proof /\
    verify_signature H s msg proof = Ok true.
Proof.
  intros H arrange sims msg Harr HH Hwf Hthr Hx Ee0 Hsm HSC HZS Hrs.
  assert (Hg : good kn s = true) by (unfold good; rewrite Hx; reflexivity).
  assert (Hnc : no_const s) by (eapply good_no_const; eauto).
  assert (TURN : forall rest dn pa prev, parties = dn ++ pa :: rest -> (dn = [] -> pa = first) ->
    (forall h, In h prev <-> told_by dn h) ->
    let u := fin kn CMf SCf ZSf (respf (dn ++ [pa]) (pa_rnd pa)) root e0 s in
    exists bs, generate_proof (pa_secrets pa) (arrange (prev ++ own_hints s pa ++ flat_map (public_hints s) rest))
        (pa_rnd pa) H s msg = Ok bs /\ bytes_ok bs /\ layout true s (tr u) bs /\
      accepting s (tr u) /\ parse_sig_compute_challenges s bs = Ok (forget u)).
  { intros rest dn pa prev EP Hf Hprev u.
    set (hints := arrange (prev ++ own_hints s pa ++ flat_map (public_hints s) rest)).
    assert (Hh : forall h, In h hints <-> offered dn pa h)
      by (intros h; unfold hints; rewrite Harr; eapply offered_spec; eauto).
    destruct (prove_exact HG kn CMf SCf ZSf (respf (dn ++ [pa]) (pa_rnd pa)) (pa_secrets pa) hints (pa_rnd pa) rrf
        (slf dn) HSC H s msg Hwf Hthr Hx HH) as (He0 & EU);
      [intros; eapply turn_known; eauto|intros; eapply turn_commits; eauto|
       rewrite <- Ee0; intros; eapply turn_answers; eauto|].
    rewrite <- Ee0 in He0, EU. fold u in EU.
    assert (Hpa : In pa parties) by (rewrite EP; apply in_elt).
    assert (HC : consistent s u).
    { unfold u. apply fin_consistent; auto. intros p q e. unfold respf.
      destruct (owned (dn ++ [pa]) p); [apply (second_message_ok HG)|apply Hrs; auto]. }
    destruct (consistent_accepting HG s u HC) as [HM HA].
    destruct (sig_write_layout HG s Hwf u HM HA true) as (bs & W & B & Lay). change (serialize_sig u = Ok bs) in W.
    exists bs. split; [|split; [auto|split; [auto|split; [auto|]]]].
    - unfold generate_proof. rewrite (convert_spec s Hnc). cbn [bind]. rewrite EU. cbn [bind].
      rewrite W. destruct s; [destruct Hnc|reflexivity..].
    - destruct (sig_roundtrip HG s u Hwf HC) as (bs' & W' & _ & HR). rewrite W in W'. injection W' as <-.
      specialize (HR []). rewrite app_nil_r in HR. unfold parse_sig_compute_challenges. rewrite HR.
      destruct bs; [|reflexivity]. exfalso. eapply layout_nonempty; eauto. }
  induction rest as [|pb rest IH]; intros dn pa signed prev EP Hf Hsg Hprev;
    destruct (TURN _ dn pa prev EP Hf Hprev) as (bs & EG & B & Lay & HA & EPS);
    set (u := fin kn CMf SCf ZSf (respf (dn ++ [pa]) (pa_rnd pa)) root e0 s) in *.
  - exists bs. cbn [co_sign]. rewrite EG. cbn [bind]. split; auto. split; auto.
    apply (verify_iff HG); auto; [destruct s; [destruct Hnc|exact I..]|].
    exists (tr u), bs, []. split; auto. split; [symmetry; apply app_nil_r|]. split; auto.
    rewrite t_chal_tr. unfold u. rewrite fin_chal by auto. rewrite Hx.
    rewrite fin_messages; auto.
    intros p q e Hin. unfold zf. destruct (kn p) eqn:Hk.
    + unfold respf. replace (owned (dn ++ [pa]) p) with (kn p) by (rewrite EP; reflexivity).
      rewrite Hk. apply right_accepts. exact Hk.
    + rewrite (leaves_lone _ _ _ _ _ _ Hin Hk). apply sim_accepts. exact Hk.
  - cbn [co_sign]. rewrite EG. cbn [bind].
    assert (EB : bag_for_multi_sig s (images pa ++ signed) sims bs =
      Ok (flat_map (bag_leaf (images pa ++ signed) sims (zf kn ZSf (respf (dn ++ [pa]) (pa_rnd pa)))) lvs)).
    { unfold bag_for_multi_sig. rewrite EPS. cbn [bind].
      unfold u. rewrite bag_fin by auto. destruct s; [destruct Hnc|reflexivity..]. }
    rewrite EB. cbn [bind].
    apply (IH (dn ++ [pa]) pb).
    + rewrite <- app_assoc. exact EP.
    + intros E. apply app_eq_nil in E. destruct E as [_ E]. discriminate.
    + intros p. rewrite existsb_app, images_spec, Hsg. unfold owned. rewrite existsb_app. cbn [existsb].
      rewrite orb_false_r. apply orb_comm.
    + apply bag_told; auto.
      * intros E. apply app_eq_nil in E. destruct E as [_ E]. discriminate.
      * intros pc Hc. rewrite EP. apply in_app_iff in Hc. apply in_or_app. destruct Hc as [Hc|[<-|[]]]; auto.
        right. left. reflexivity.
      * intros p. rewrite existsb_app, images_spec, Hsg. unfold owned. rewrite existsb_app. cbn [existsb].
        rewrite orb_false_r. apply orb_comm.
Qed.
End CoSign.
