(** The Fiat-Shamir string determines the proposition and the first messages. *)
From Verif Require Import Base VlqModel VlqProofs GfModel.
From Verif Require Import GroupModel GroupProofs SigmaModel SigmaSpec SigmaProofs VerifierProofs EncodingProofs.
From Coq Require Import Znumtheory.
Local Open Scope Z_scope.
#[local] Opaque be_bytes.

Lemma app_split : forall (a b x y : bytes), length a = length b -> a ++ x = b ++ y -> a = b /\ x = y.
Proof.
  induction a as [|h a IH]; intros [|h' b] x y HL H; simpl in *; try lia; auto.
  injection H as -> H. destruct (IH b x y ltac:(lia) H). subst. auto.
Qed.

Lemma sized_inj : forall a b x y, Zlen a < 65536 -> Zlen b < 65536 ->
  sized a ++ x = sized b ++ y -> a = b /\ x = y.
Proof.
  intros a b x y Ha Hb H. unfold sized in H. rewrite <- !app_assoc in H.
  apply app_split in H; [|rewrite !be_bytes_length; reflexivity]. destruct H as [HL H].
  apply be_bytes_inj in HL; try (unfold Zlen in *; change (256 ^ Z.of_nat 2) with 65536; lia).
  apply app_split in H; [auto|]. unfold Zlen in HL. lia.
Qed.

Section Fs.
Context {G : group} (HG : group_ok G).
Notation leaf := (leaf G). Notation sbool := (sbool G). Notation fmsg := (fmsg G).

Lemma leaf_bytes_inj : forall p p' : leaf, leaf_bytes p = leaf_bytes p' -> p = p'.
Proof.
  intros p p' H. pose proof (f_equal (@length Z) H) as HL. rewrite !(leaf_bytes_len HG) in HL.
  destruct p as [h|g h u v], p' as [h'|g' h' u' v']; try discriminate; simpl in H; injection H as H.
  - apply (point_bytes_inj HG) in H. congruence.
  - apply app_split in H; [|rewrite !(point_bytes_len HG); auto]. destruct H as [H1 H].
    apply app_split in H; [|rewrite !(point_bytes_len HG); auto]. destruct H as [H2 H].
    apply app_split in H; [|rewrite !(point_bytes_len HG); auto]. destruct H as [H3 H].
    apply (point_bytes_inj HG) in H1, H2, H3, H. congruence.
Qed.
Lemma message_bytes_inj : forall m m' : fmsg, message_bytes m = message_bytes m' -> m = m'.
Proof.
  intros m m' H. pose proof (f_equal (@length Z) H) as HL. rewrite !(message_bytes_len HG) in HL.
  destruct m as [a|a b], m' as [a'|a' b']; try discriminate; simpl in H.
  - apply (point_bytes_inj HG) in H. congruence.
  - apply app_split in H; [|rewrite !(point_bytes_len HG); auto]. destruct H as [H1 H].
    apply (point_bytes_inj HG) in H1, H. congruence.
Qed.

Lemma app_last2_inj : forall (a b : bytes) x y, a ++ [x; y] = b ++ [x; y] -> a = b.
Proof. intros a b x y H. apply app_inv_tail in H. auto. Qed.

Theorem fs_string_inj : forall (s s' : sbool) c c' r r',
  sb_wf s -> sb_wf s' -> fits s c -> fits s' c' ->
  fs_string s c ++ r = fs_string s' c' ++ r' -> s = s' /\ c = c' /\ r = r'.
Proof.
  apply (sbool_ind' (fun s => forall s' c c' r r',
    sb_wf s -> sb_wf s' -> fits s c -> fits s' c' ->
    fs_string s c ++ r = fs_string s' c' ++ r' -> s = s' /\ c = c' /\ r = r')).
  - intros b s' c c' r r' _ _ H. destruct c; simpl in H; tauto.
  - intros p s' c c' r r' _ Hwf' HF HF' H.
    destruct c as [m|]; [|simpl in HF; tauto].
    destruct s' as [|p'|k' l'], c' as [m'|cs']; try (simpl in HF'; tauto).
    + cbn [fs_string] in H. rewrite <- !app_assoc in H. apply app_inv_head in H.
      assert (LP : forall p : leaf, Zlen ([16; 1; 8] ++ leaf_bytes p ++ [115; 0]) < 65536).
      { intros p0. unfold Zlen. rewrite !app_length, (leaf_bytes_len HG). destruct p0; simpl; lia. }
      assert (LM : forall m : fmsg, Zlen (message_bytes m) < 65536).
      { intros m0. unfold Zlen. rewrite (message_bytes_len HG). destruct m0; simpl; lia. }
      apply sized_inj in H; auto. destruct H as [H1 H].
      apply sized_inj in H; auto. destruct H as [H2 H].
      apply app_inv_head in H1. apply app_last2_inj in H1.
      apply leaf_bytes_inj in H1. apply message_bytes_inj in H2. subst. auto.
    + exfalso. destruct k'; cbn [fs_string app] in H; discriminate.
  - intros k l IH s' c c' r r' Hwf Hwf' HF HF' H.
    destruct c as [|cs]; [simpl in HF; tauto|].
    destruct s' as [|p'|k' l'], c' as [m'|cs']; try (simpl in HF'; tauto).
    { exfalso. destruct k; cbn [fs_string app] in H; discriminate. }
    cbn [sb_wf] in Hwf, Hwf'. destruct Hwf as (_ & Hn & Hl), Hwf' as (_ & Hn' & Hl').
    apply fold_and_Forall in Hl, Hl'.
    cbn [fs_string] in H. rewrite <- !app_assoc in H. apply app_inv_head in H.
    assert (Hk : k = k' /\ be_bytes 2 (Zlen l) ++ zip_bytes fs_string l cs ++ r =
                           be_bytes 2 (Zlen l') ++ zip_bytes fs_string l' cs' ++ r').
    { destruct k, k'; cbn [app] in H; injection H; intros; try discriminate; subst; split; congruence. }
    destruct Hk as [<- H2].
    apply app_split in H2; [|rewrite !be_bytes_length; auto]. destruct H2 as [HL H2].
    unfold items_len_ok in Hn, Hn'.
    apply be_bytes_inj in HL; try (change (256 ^ Z.of_nat 2) with 65536; lia).
    assert (HLn : length l = length l') by (unfold Zlen in HL; lia).
    cbn [fits] in HF, HF'.
    assert (R : l = l' /\ cs = cs' /\ r = r'); [|destruct R as (-> & -> & ->); auto].
    clear H HL Hn Hn'. revert l' cs cs' HLn Hl' HF HF' H2.
    induction l as [|x l IHl]; intros [|x' l'] [|c1 cs] [|c1' cs'] HLn Hl' HF HF' H;
      simpl in HF, HF', HLn; try tauto; try lia.
    cbn [zip_bytes] in H. rewrite <- !app_assoc in H.
    inversion IH as [|? ? IH1 IH2]; inversion Hl as [|? ? Hl1 Hl2]; inversion Hl' as [|? ? Hm1 Hm2]; subst.
    apply IH1 in H; try tauto. destruct H as (-> & -> & H).
    apply IHl in H; try tauto; try lia. destruct H as (-> & -> & ->). auto.
Qed.
End Fs.
