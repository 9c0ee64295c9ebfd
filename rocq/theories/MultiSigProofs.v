(** Distributed signing: the prover with hints, on propositions in which the known
    leaves satisfy every conjecture exactly and every other child is a leaf. *)
From Verif Require Import Base VlqModel VlqProofs GfModel GfProofs GfBytesProofs PolyProofs GfProps.
From Verif Require Import GroupModel GroupProofs SigmaModel SigmaSpec SigmaProofs VerifierProofs.
From Verif Require Import SoundnessProofs EncodingProofs SbProofs ProverModel ProverProofs CommitProofs.
Local Open Scope Z_scope.
#[local] Opaque gf_mul gf_add evaluate gf_to_bytes gf_from_bytes24 poly_of_chal be_bytes interpolate.

(** ** Challenges of the children of a real conjecture.  [None] marks an open one. *)
Definition opens_of (os : list (option challenge)) : nat :=
  length (filter (fun o => match o with None => true | Some _ => false end) os).
Definition somes (os : list (option challenge)) : list challenge :=
  flat_map (fun o => match o with Some c => [c] | None => [] end) os.
Definition closed_ok (o : option challenge) : Prop := match o with Some e => chal_ok e | None => True end.
Definition final_of (f : nat -> challenge) (i : nat) (o : option challenge) : challenge :=
  match o with Some e => e | None => f i end.
Definition finals_of (f : nat -> challenge) (os : list (option challenge)) : list challenge :=
  imap (final_of f) 0 os.
Fixpoint pts (i : nat) (os : list (option challenge)) : list N * list gf :=
  match os with
  | [] => ([], [])
  | o :: os' =>
      let '(ps, vs) := pts (S i) os' in
      match o with
      | Some e => (one_based i :: ps, chal_gf e :: vs)
      | None => (ps, vs)
      end
  end.
Definition ipoly (os : list (option challenge)) (e : challenge) : poly :=
  match interpolate (fst (pts 0 os)) (snd (pts 0 os)) (chal_gf e) with Ok q => q | _ => Poly [] 0 end.
(** What the open child [i] is given. *)
Definition share (c : ckind) (os : list (option challenge)) (e : challenge) (i : nat) : challenge :=
  match c with
  | And => e
  | Or => chal_xor e (xor_all (somes os))
  | Thr _ => gf_chal (evaluate (ipoly os e) (one_based i))
  end.

Lemma somes_ok : forall os, Forall closed_ok os -> Forall chal_ok (somes os).
Proof.
  induction 1 as [|[c|] os H _ IH]; cbn; auto.
Qed.
Lemma imap_ext_f : forall A B (f g : nat -> A -> B) l i,
  (forall j x, nth_error l j = Some x -> f (i + j)%nat x = g (i + j)%nat x) -> imap f i l = imap g i l.
Proof.
  induction l as [|x l IH]; intros i H; cbn [imap]; auto. f_equal.
  - specialize (H 0%nat x eq_refl). rewrite Nat.add_0_r in H. exact H.
  - apply IH. intros j y Hj. specialize (H (S j) y Hj). rewrite Nat.add_succ_r in H. exact H.
Qed.
Lemma imap_map : forall A B C (f : nat -> B -> C) (g : A -> B) l i,
  imap f i (map g l) = imap (fun i x => f i (g x)) i l.
Proof. induction l as [|x l IH]; intros i; cbn; auto. f_equal. apply IH. Qed.
Lemma map_imap : forall A B C (f : B -> C) (g : nat -> A -> B) l i,
  map f (imap g i l) = imap (fun i x => f (g i x)) i l.
Proof. induction l as [|x l IH]; intros i; cbn; auto. f_equal. apply IH. Qed.
Lemma imap_imap : forall A B C (f : nat -> B -> C) (g : nat -> A -> B) l i,
  imap f i (imap g i l) = imap (fun i x => f i (g i x)) i l.
Proof. induction l as [|x l IH]; intros i; cbn; auto. f_equal. apply IH. Qed.
Lemma in_imap : forall A B (f : nat -> A -> B) l i y, In y (imap f i l) ->
  exists j x, nth_error l j = Some x /\ y = f (i + j)%nat x.
Proof.
  induction l as [|x l IH]; intros i y H; cbn in H; [tauto|]. destruct H as [<-|H].
  - exists 0%nat, x. rewrite Nat.add_0_r. auto.
  - destruct (IH (S i) y H) as (j & z & Hj & ->). exists (S j), z. rewrite Nat.add_succ_r. auto.
Qed.
Lemma imap_in : forall A B (f : nat -> A -> B) l i j x, nth_error l j = Some x -> In (f (i + j)%nat x) (imap f i l).
Proof.
  induction l as [|y l IH]; intros i [|j] x H; cbn in H; try discriminate; cbn [imap].
  - injection H as ->. left. rewrite Nat.add_0_r. reflexivity.
  - right. rewrite Nat.add_succ_r. apply (IH (S i) j x H).
Qed.

Lemma or_rule : forall os x, Forall closed_ok os -> opens_of os = 1%nat ->
  forall i, xor_all (imap (final_of (fun _ => x)) i os) = chal_xor x (xor_all (somes os)).
Proof.
  assert (Z0 : forall os x i, opens_of os = 0%nat -> xor_all (imap (final_of (fun _ => x)) i os) = xor_all (somes os)).
  { induction os as [|[c|] os IH]; intros x i Ho; cbn [imap somes flat_map final_of app]; auto.
    - cbn [xor_all fold_right]. f_equal. apply (IH x (S i)). exact Ho.
    - discriminate Ho. }
  intros os x H. induction H as [|[c|] os Hc _ IH]; intros Ho i; [discriminate| |].
  - cbn [imap final_of somes flat_map app]. cbn [xor_all fold_right].
    change (fold_right chal_xor zero_chal (imap (final_of (fun _ => x)) (S i) os))
      with (xor_all (imap (final_of (fun _ => x)) (S i) os)).
    rewrite IH by exact Ho. rewrite chal_xor_assoc, (chal_xor_comm c x), <- chal_xor_assoc. reflexivity.
  - cbn [imap final_of somes flat_map app]. cbn [xor_all fold_right]. f_equal.
    apply (Z0 os x (S i)). unfold opens_of in *. cbn [filter length] in Ho. lia.
Qed.

Lemma pts_spec : forall os i, Forall closed_ok os -> Z.of_nat (i + length os) < 256 ->
  forall ps vs, pts i os = (ps, vs) ->
    length ps = length vs /\ (length ps + opens_of os = length os)%nat /\ NoDup ps /\ Forall wf vs /\
    Forall (fun p => exists j, (i <= j < i + length os)%nat /\ p = N.of_nat (S j)) ps /\
    forall j e, nth_error os j = Some (Some e) ->
      exists m, (m < length ps)%nat /\ nth m ps 0%N = N.of_nat (S (i + j)) /\ nth m vs gf_zero = chal_gf e.
Proof.
  induction os as [|o os IH]; intros i H Hi ps vs E.
  - cbn in E. injection E as <- <-. cbn. repeat split; auto; try constructor. intros [|j] e Hj; discriminate.
  - inversion H; subst. cbn [length] in Hi. cbn [pts] in E. destruct (pts (S i) os) as [ps' vs'] eqn:E'.
    destruct (IH (S i) H3 ltac:(lia) ps' vs' E') as (L & C & ND & W & R & SP).
    assert (R' : Forall (fun p => exists j, (i <= j < i + length (o :: os))%nat /\ p = N.of_nat (S j)) ps').
    { eapply Forall_impl; [|exact R]. intros p (j & Hj & ->). exists j. split; auto. cbn [length]. lia. }
    destruct o as [e|]; injection E as <- <-.
    + rewrite one_based_val by lia. split; [cbn; auto|]. split; [|split; [|split; [|split]]].
      * unfold opens_of in *. cbn [filter length]. lia.
      * constructor; auto. intros Hin. rewrite Forall_forall in R. apply R in Hin. destruct Hin as (j & Hj & Ej). lia.
      * constructor; auto. apply chal_gf_wf. exact H2.
      * constructor; auto. exists i. split; auto. cbn [length]. lia.
      * intros [|j] e' Hj.
        -- cbn in Hj. injection Hj as <-. exists 0%nat. cbn [length nth]. split; [lia|]. split; [do 2 f_equal; lia|reflexivity].
        -- destruct (SP j e' Hj) as (m & M1 & M2 & M3). exists (S m). cbn [length nth].
           split; [lia|]. split; [rewrite M2; do 2 f_equal; lia|exact M3].
    + split; auto. split; [|split; [|split; [|split]]]; auto.
      * unfold opens_of in *. cbn [filter length]. lia.
      * intros [|j] e' Hj; [discriminate|].
        destruct (SP j e' Hj) as (m & M1 & M2 & M3). exists m.
        split; [lia|]. split; [rewrite M2; do 2 f_equal; lia|exact M3].
Qed.

Lemma thr_rule : forall k os e, 0 <= k -> opens_of os = Z.to_nat k -> Forall closed_ok os -> chal_ok e ->
  (length os <= 255)%nat ->
  exists cs, interpolate (fst (pts 0 os)) (snd (pts 0 os)) (chal_gf e) = Ok (ipoly os e) /\
    ipoly os e = Poly (chal_gf e :: cs) (length cs) /\ Zlen cs = Zlen os - k /\
    (forall i, (i < length os)%nat -> chal_ok (share (Thr k) os e i)) /\
    chal_rule (Thr k) e cs (finals_of (share (Thr k) os e) os).
Proof.
  intros k os e Hk Ho Hos He Hn. destruct (pts 0 os) as [ps vs] eqn:E.
  destruct (pts_spec os 0 Hos ltac:(lia) ps vs E) as (Lp & Cp & NDp & Wv & Rp & Sp).
  destruct (interpolate_spec ps vs (chal_gf e) Lp) as (q & Eq & Dq & Lq & Wq & Q0 & _ & Qi); auto.
  { eapply Forall_impl; [|exact Rp]. intros p (j & Hj & ->). split; [lia|]. apply (N2Z.inj_lt _ 256). lia. }
  { apply chal_gf_wf; auto. }
  cbn [fst snd]. assert (Ei : ipoly os e = q) by (unfold ipoly; rewrite E; cbn [fst snd]; rewrite Eq; reflexivity).
  destruct q as [coefs dq]. cbn [degree coefficients] in *. subst dq.
  destruct coefs as [|c0 cs]; [discriminate|]. cbn [nth] in Q0. subst c0.
  assert (Lcs : length cs = length ps) by (simpl in Lq; lia). rewrite <- Lcs in *.
  inversion Wq as [|? ? W0 Wcs]; subst.
  set (q := Poly (chal_gf e :: cs) (length cs)) in *.
  assert (Hev : forall i, (i < length os)%nat ->
     evaluate q (one_based i) = gf_powers_sum (chal_gf e :: cs) (Gf (N.of_nat (S i)) 0 0)).
  { intros i Hi. rewrite one_based_val by lia. apply poly_eval; auto. apply (N2Z.inj_lt _ 256). lia. }
  assert (Hwf_ev : forall i, (i < length os)%nat -> wf (evaluate q (one_based i))).
  { intros i Hi. rewrite Hev by auto. apply gf_powers_sum_wf; auto.
    apply point_wf. apply (N2Z.inj_lt _ 256). lia. }
  exists cs. rewrite Ei. split; [exact Eq|]. split; [reflexivity|].
  assert (HZ : Zlen cs = Zlen os - k) by (unfold Zlen; lia). split; [exact HZ|]. split.
  { intros i Hi. cbn [share]. rewrite Ei. apply gf_chal_ok, Hwf_ev, Hi. }
  cbn [chal_rule]. split; auto. unfold finals_of, Zlen. rewrite imap_length. split; [exact HZ|].
  intros i Hi. destruct (nth_error os i) as [o|] eqn:Et; [|apply nth_error_None in Et; lia].
  rewrite (imap_nth _ _ (final_of (share (Thr k) os e)) os 0 i [] o) by auto. rewrite (nth_error_nth os i o Et). cbn [Nat.add].
  unfold final_of. destruct o as [ei|].
  - destruct (Sp i ei Et) as (m & M1 & M2 & M3). rewrite <- M3, <- Qi by auto. rewrite M2.
    cbn [Nat.add]. rewrite <- (Hev i) by auto. rewrite one_based_val by lia. reflexivity.
  - cbn [share]. rewrite Ei. rewrite chal_gf_chal by auto. apply Hev; auto.
Qed.

(** ** Exact propositions *)
Section MultiSig.
Context {G : group} (HG : group_ok G).
Notation leaf := (leaf G). Notation sbool := (sbool G). Notation fmsg := (fmsg G).
Notation ptree := (ptree G). Notation utree := (utree G).
Variable kn : leaf -> bool.

Definition lone (s : sbool) : bool := match s with SLeaf p => negb (kn p) | _ => false end.
(** Every conjunct is provable, exactly one alternative, exactly the threshold; the
    other children are leaves. *)
Fixpoint exactb (s : sbool) : bool :=
  match s with
  | Triv _ => false
  | SLeaf p => kn p
  | SConj c l =>
      forallb (fun x => exactb x || lone x) l &&
      match c with
      | And => forallb exactb l
      | Or => Zlen (filter exactb l) =? 1
      | Thr k => Zlen (filter exactb l) =? k
      end
  end.
Definition good (s : sbool) : bool := exactb s || lone s.

Lemma lone_not_exact : forall s, lone s = true -> exactb s = false.
Proof. intros [b|p|c l] H; cbn in *; try discriminate. destruct (kn p); auto; discriminate. Qed.
Lemma good_cases : forall s, good s = true -> exactb s = true \/ exactb s = false /\ exists p, s = SLeaf p /\ kn p = false.
Proof.
  intros s H. unfold good in H. destruct (exactb s) eqn:E; auto. right. split; auto.
  destruct s as [b|p|c l]; cbn in H; try discriminate. exists p. split; auto.
Qed.
Lemma exact_conj : forall c l, exactb (SConj c l) = true -> Forall (fun x => good x = true) l /\
  match c with
  | And => Forall (fun x => exactb x = true) l
  | Or => length (filter exactb l) = 1%nat
  | Thr k => Z.of_nat (length (filter exactb l)) = k
  end.
Proof.
  intros c l H. cbn [exactb] in H. apply andb_true_iff in H. destruct H as [H1 H2].
  split; [apply Forall_forall; apply forallb_forall; exact H1|].
  destruct c; unfold Zlen in H2; try (apply Z.eqb_eq in H2; lia).
  apply Forall_forall; apply forallb_forall; exact H2.
Qed.
Lemma good_no_const : forall s, good s = true -> no_const s.
Proof.
  apply (sbool_ind' (fun s => good s = true -> no_const s)).
  - discriminate.
  - intros; exact I.
  - intros c l IH H. apply good_cases in H. destruct H as [H|(_ & p & H & _)]; [|discriminate].
    apply exact_conj in H. destruct H as [H _]. cbn [no_const]. apply fold_and_Forall.
    rewrite Forall_forall in *. auto.
Qed.

(** ** Leaves and positions *)
Fixpoint locs (pos : position) (s : sbool) : list (leaf * position) :=
  match s with
  | Triv _ => []
  | SLeaf p => [(p, pos)]
  | SConj _ l => concat (imap (fun i x => locs (pos_child pos i) x) 0 l)
  end.

Lemma in_locs_conj : forall pos c l p q, In (p, q) (locs pos (SConj c l)) ->
  exists j x, nth_error l j = Some x /\ In (p, q) (locs (pos_child pos j) x).
Proof.
  intros pos c l p q H. cbn [locs] in H. apply in_concat in H. destruct H as (y & Hy & H).
  apply in_imap in Hy. destruct Hy as (j & x & Hj & ->). exists j, x. auto.
Qed.
Lemma locs_conj_in : forall pos c l p q j x, nth_error l j = Some x -> In (p, q) (locs (pos_child pos j) x) ->
  In (p, q) (locs pos (SConj c l)).
Proof.
  intros pos c l p q j x Hj H. cbn [locs]. apply in_concat. exists (locs (pos_child pos j) x). split; auto.
  apply (imap_in _ _ (fun i x => locs (pos_child pos i) x) l 0 j x Hj).
Qed.
Lemma locs_prefix : forall s pos p q, In (p, q) (locs pos s) -> exists path, q = pos ++ path.
Proof.
  apply (sbool_ind' (fun s => forall pos p q, In (p, q) (locs pos s) -> exists path, q = pos ++ path)).
  - intros b pos p q [].
  - intros p0 pos p q [E|[]]. injection E as <- <-. exists []. symmetry. apply app_nil_r.
  - intros c l IH pos p q H. apply in_locs_conj in H. destruct H as (j & x & Hj & H).
    rewrite Forall_forall in IH. apply nth_error_In in Hj. destruct (IH x Hj _ _ _ H) as (path & ->).
    unfold pos_child. rewrite <- app_assoc. eauto.
Qed.
(** A position names one leaf. *)
Lemma locs_fun : forall s pos p p' q, In (p, q) (locs pos s) -> In (p', q) (locs pos s) -> p = p'.
Proof.
  apply (sbool_ind' (fun s => forall pos p p' q, In (p, q) (locs pos s) -> In (p', q) (locs pos s) -> p = p')).
  - intros b pos p p' q [].
  - intros p0 pos p p' q [E|[]] [E'|[]]. congruence.
  - intros c l IH pos p p' q H H'. apply in_locs_conj in H. destruct H as (j & x & Hj & H).
    apply in_locs_conj in H'. destruct H' as (j' & x' & Hj' & H').
    destruct (locs_prefix _ _ _ _ H) as (a & Ea). destruct (locs_prefix _ _ _ _ H') as (a' & Ea').
    assert (j = j').
    { rewrite Ea in Ea'. unfold pos_child in Ea'. rewrite <- !app_assoc in Ea'. apply app_inv_head in Ea'.
      injection Ea' as ->. reflexivity. }
    subst j'. rewrite Hj in Hj'. injection Hj' as <-. rewrite Forall_forall in IH.
    apply nth_error_In in Hj. eapply IH; eauto.
Qed.

Lemma locs_move : forall s pos pos' p q, In (p, q) (locs pos s) -> exists q', In (p, q') (locs pos' s).
Proof.
  apply (sbool_ind' (fun s => forall pos pos' p q, In (p, q) (locs pos s) -> exists q', In (p, q') (locs pos' s))).
  - intros b pos pos' p q [].
  - intros p0 pos pos' p q [E|[]]. injection E as -> _. exists pos'. left. reflexivity.
  - intros c l IH pos pos' p q Hin. apply in_locs_conj in Hin. destruct Hin as (j & x & Hj & Hin).
    rewrite Forall_forall in IH. pose proof (nth_error_In _ _ Hj) as Hx.
    destruct (IH x Hx _ (pos_child pos' j) _ _ Hin) as (q' & Hq'). exists q'. eapply locs_conj_in; eauto.
Qed.

(** ** The reference conversation *)
Variable CM : leaf -> position -> fmsg.
Variable SC : position -> challenge.
Variable ZS : leaf -> position -> Z.
Variable resp : leaf -> position -> challenge -> Z.

Definition kid (pos : position) (i : nat) (x : sbool) : option challenge :=
  if exactb x then None else Some (SC (pos_child pos i)).
Definition kids (pos : position) (l : list sbool) : list (option challenge) := imap (kid pos) 0 l.
Fixpoint fin (pos : position) (e : challenge) (s : sbool) : utree :=
  match s with
  | Triv _ => UConj UAnd e []
  | SLeaf p => if kn p then ULeaf p None e (resp p pos e)
               else ULeaf p (Some (CM p pos)) (SC pos) (ZS p pos)
  | SConj c l =>
      UConj (match c with And => UAnd | Or => UOr | Thr k => UThr k (ipoly (kids pos l) e) end) e
            (imap (fun i x => fin (pos_child pos i) (share c (kids pos l) e i) x) 0 l)
  end.
Fixpoint leaves (pos : position) (e : challenge) (s : sbool) : list (leaf * position * challenge) :=
  match s with
  | Triv _ => []
  | SLeaf p => [(p, pos, if kn p then e else SC pos)]
  | SConj c l => concat (imap (fun i x => leaves (pos_child pos i) (share c (kids pos l) e i) x) 0 l)
  end.
Definition zf (x : leaf * position * challenge) : Z :=
  let '(p, pos, e) := x in if kn p then resp p pos e else ZS p pos.
Fixpoint cmt (pos : position) (s : sbool) : ctree G :=
  match s with
  | Triv _ => CNode []
  | SLeaf p => CLeaf (CM p pos)
  | SConj c l => CNode (imap (fun i x => cmt (pos_child pos i) x) 0 l)
  end.

Lemma in_leaves_conj : forall pos e c l y, In y (leaves pos e (SConj c l)) ->
  exists j x, nth_error l j = Some x /\ In y (leaves (pos_child pos j) (share c (kids pos l) e j) x).
Proof.
  intros pos e c l y H. cbn [leaves] in H. apply in_concat in H. destruct H as (z & Hz & H).
  apply in_imap in Hz. destruct Hz as (j & x & Hj & ->). exists j, x. auto.
Qed.
Lemma leaves_conj_in : forall pos e c l y j x, nth_error l j = Some x ->
  In y (leaves (pos_child pos j) (share c (kids pos l) e j) x) -> In y (leaves pos e (SConj c l)).
Proof.
  intros pos e c l y j x Hj H. cbn [leaves]. apply in_concat. eexists. split; [|exact H].
  apply (imap_in _ _ (fun i x => leaves (pos_child pos i) (share c (kids pos l) e i) x) l 0 j x Hj).
Qed.
Lemma leaves_locs : forall s pos e, map fst (leaves pos e s) = locs pos s.
Proof.
  apply (sbool_ind' (fun s => forall pos e, map fst (leaves pos e s) = locs pos s)); try reflexivity.
  intros c l IH pos e. cbn [leaves locs]. rewrite concat_map, map_imap. f_equal. apply imap_ext_f.
  intros j x Hj. rewrite Forall_forall in IH. apply IH. eapply nth_error_In; eauto.
Qed.
Lemma leaves_in_locs : forall s pos e p q e', In (p, q, e') (leaves pos e s) -> In (p, q) (locs pos s).
Proof. intros s pos e p q e' H. rewrite <- (leaves_locs s pos e). apply (in_map fst) in H. exact H. Qed.
Lemma locs_in_leaves : forall s pos e p q, In (p, q) (locs pos s) -> exists e', In (p, q, e') (leaves pos e s).
Proof.
  intros s pos e p q H. rewrite <- (leaves_locs s pos e) in H. apply in_map_iff in H.
  destruct H as (((p', q') & e') & E & H). cbn in E. injection E as -> ->. eauto.
Qed.
Lemma leaves_fun : forall s pos e p p' q e1 e2, In (p, q, e1) (leaves pos e s) -> In (p', q, e2) (leaves pos e s) ->
  p = p' /\ e1 = e2.
Proof.
  apply (sbool_ind' (fun s => forall pos e p p' q e1 e2, In (p, q, e1) (leaves pos e s) ->
    In (p', q, e2) (leaves pos e s) -> p = p' /\ e1 = e2)).
  - intros b pos e p p' q e1 e2 [].
  - intros p0 pos e p p' q e1 e2 [E|[]] [E'|[]]. injection E as <- <- <-. injection E' as <- <-. auto.
  - intros c l IH pos e p p' q e1 e2 H H'. apply in_leaves_conj in H. destruct H as (j & x & Hj & H).
    apply in_leaves_conj in H'. destruct H' as (j' & x' & Hj' & H').
    destruct (locs_prefix _ _ _ _ (leaves_in_locs _ _ _ _ _ _ H)) as (a & Ea).
    destruct (locs_prefix _ _ _ _ (leaves_in_locs _ _ _ _ _ _ H')) as (a' & Ea').
    assert (j = j').
    { rewrite Ea in Ea'. unfold pos_child in Ea'. rewrite <- !app_assoc in Ea'. apply app_inv_head in Ea'.
      injection Ea' as ->. reflexivity. }
    subst j'. rewrite Hj in Hj'. injection Hj' as <-. rewrite Forall_forall in IH.
    apply nth_error_In in Hj. eapply IH; eauto.
Qed.

Lemma kids_length : forall pos l, length (kids pos l) = length l.
Proof. intros. apply imap_length. Qed.
Lemma kids_opens : forall pos l i, opens_of (imap (kid pos) i l) = length (filter exactb l).
Proof.
  intros pos l. unfold opens_of. induction l as [|x l IH]; intros i; cbn [imap filter]; auto.
  unfold kid at 1. destruct (exactb x); cbn [length filter]; [f_equal|]; apply IH.
Qed.

Section Consistent.
Hypothesis HSC : forall pos, chal_ok (SC pos).

Lemma kids_ok : forall pos l i, Forall closed_ok (imap (kid pos) i l).
Proof.
  induction l as [|x l IH]; intros i; cbn [imap]; constructor; auto. unfold kid. destruct (exactb x); cbn; auto.
Qed.
Lemma fin_chal : forall s pos e, good s = true -> u_chal (fin pos e s) = if exactb s then e else SC pos.
Proof.
  intros s pos e H. apply good_cases in H. destruct H as [H|(H & p & -> & Hp)].
  - rewrite H. destruct s as [b|p|c l]; [discriminate| |reflexivity]. cbn [exactb] in H. cbn [fin]. rewrite H. reflexivity.
  - rewrite H. cbn [fin]. rewrite Hp. reflexivity.
Qed.
Lemma kids_chals : forall pos l (f : nat -> challenge) i, Forall (fun x => good x = true) l ->
  map u_chal (imap (fun i x => fin (pos_child pos i) (f i) x) i l) = imap (final_of f) i (imap (kid pos) i l).
Proof.
  induction l as [|x l IH]; intros f i H; cbn [imap map]; auto. inversion H; subst. f_equal; [|apply IH; auto].
  rewrite fin_chal by auto. unfold kid, final_of. destruct (exactb x); reflexivity.
Qed.
Lemma share_ok : forall c l pos e i, exactb (SConj c l) = true -> conj_wf c -> (length l <= 255)%nat -> chal_ok e -> (i < length l)%nat ->
  chal_ok (share c (kids pos l) e i).
Proof.
  intros c l pos e i Hx Hc Hn He Hi. apply exact_conj in Hx. destruct Hx as [_ Hx]. destruct c as [| |k]; cbn [share].
  - exact He.
  - apply chal_xor_ok; auto. apply xor_all_ok, somes_ok, kids_ok.
  - destruct (thr_rule k (kids pos l) e) as (cs & _ & _ & _ & H & _); auto.
    + lia.
    + unfold kids. rewrite kids_opens. lia.
    + apply kids_ok.
    + rewrite kids_length. exact Hn.
    + apply H. rewrite kids_length. exact Hi.
Qed.

Hypothesis HZS : forall p pos, @scalar_ok G (ZS p pos).
Hypothesis Hresp : forall p pos e, @scalar_ok G (resp p pos e).
Lemma fin_consistent : forall s, sb_wf s -> good s = true -> forall pos e, chal_ok e -> consistent s (fin pos e s).
Proof.
  apply (sbool_ind' (fun s => sb_wf s -> good s = true -> forall pos e, chal_ok e -> consistent s (fin pos e s))).
  - discriminate.
  - intros p _ _ pos e He. cbn [fin]. destruct (kn p); cbn [consistent]; auto.
  - intros c l IH Hwf Hg pos e He. apply good_cases in Hg. destruct Hg as [Hx|(_ & p & H & _)]; [|discriminate].
    cbn [sb_wf] in Hwf. destruct Hwf as (Hc & Hlen & Hwl). apply fold_and_Forall in Hwl.
    unfold items_len_ok, Zlen in Hlen. pose proof (exact_conj c l Hx) as [Hg Hcount].
    cbn [fin consistent]. split; auto.
    assert (HA : all2 consistent l (imap (fun i x => fin (pos_child pos i) (share c (kids pos l) e i) x) 0 l)).
    { assert (K : forall l' i0, (forall j x, nth_error l' j = Some x -> nth_error l (i0 + j) = Some x) ->
        all2 consistent l' (imap (fun i x => fin (pos_child pos i) (share c (kids pos l) e i) x) i0 l')).
      { induction l' as [|x l' IHl]; intros i0 HJ; cbn [imap all2]; auto. split.
        - pose proof (HJ 0%nat x eq_refl) as H0. rewrite Nat.add_0_r in H0.
          rewrite Forall_forall in IH, Hwl, Hg. pose proof (nth_error_In _ _ H0). apply IH; auto.
          apply share_ok; auto; [lia|]. apply nth_error_Some. congruence.
        - apply IHl. intros j y Hj. specialize (HJ (S j) y Hj). rewrite Nat.add_succ_r in HJ. exact HJ. }
      apply K. auto. }
    split; [exact HA|]. rewrite kids_chals by exact Hg.
    change (imap (kid pos) 0 l) with (kids pos l).
    destruct c as [| |k].
    + assert (K : forall i0, Forall (eq e) (imap (final_of (share And (kids pos l) e)) i0 (imap (kid pos) i0 l))).
      { clear - Hcount. generalize (kids pos l). intros os. induction Hcount as [|x l Hx _ IHl]; intros i0; cbn [imap]; constructor; auto.
        unfold kid. rewrite Hx. reflexivity. }
      apply K.
    + change (xor_all (imap (final_of (fun _ => chal_xor e (xor_all (somes (kids pos l))))) 0 (kids pos l)) = e).
      rewrite or_rule; [|apply kids_ok|unfold kids; rewrite kids_opens; exact Hcount].
      rewrite <- chal_xor_assoc, chal_xor_self by (apply xor_all_ok, somes_ok, kids_ok). apply chal_xor_0_r; auto.
    + split; auto.
      destruct (thr_rule k (kids pos l) e) as (cs & _ & E & _ & _ & R); auto.
      * lia.
      * unfold kids. rewrite kids_opens. lia.
      * apply kids_ok.
      * rewrite kids_length. lia.
      * exists cs. split; auto.
Qed.
End Consistent.

(** The transcript has the reference first messages when every leaf checks. *)
Lemma fin_messages : forall s pos e, good s = true ->
  (forall p q e', In (p, q, e') (leaves pos e s) -> compute_commitment p e' (zf (p, q, e')) = CM p q) ->
  first_messages (tr (fin pos e s)) = cmt pos s.
Proof.
  apply (sbool_ind' (fun s => forall pos e, good s = true ->
    (forall p q e', In (p, q, e') (leaves pos e s) -> compute_commitment p e' (zf (p, q, e')) = CM p q) ->
    first_messages (tr (fin pos e s)) = cmt pos s)).
  - discriminate.
  - intros p pos e _ H. specialize (H p pos _ (or_introl eq_refl)). cbn [fin cmt zf] in *.
    destruct (kn p); cbn [tr first_messages]; rewrite H; reflexivity.
  - intros c l IH pos e Hg H. apply good_cases in Hg. destruct Hg as [Hx|(_ & p & Hp & _)]; [|discriminate].
    apply exact_conj in Hx. destruct Hx as [Hg _]. cbn [fin tr first_messages cmt]. f_equal.
    rewrite !map_imap. apply imap_ext_f. intros j x Hj. cbn [Nat.add].
    rewrite Forall_forall in IH, Hg. pose proof (nth_error_In _ _ Hj). apply IH; auto.
    intros p q e' Hin. apply H. eapply leaves_conj_in; eauto.
Qed.

(** ** The prover *)
Section Signer.
Variable secrets : list (secret G).
Variable hints : list (hint G).
Variable rnd : randomness.
Variable rr : position -> option Z.
Variable sl : leaf -> position -> ptree.

(** Marking. *)
Fixpoint mke (s : sbool) : ptree :=
  match s with
  | Triv _ => PConj PAnd s None false [] []
  | SLeaf p => PLeaf p None None None (negb (kn p)) crypto_tree_prefix
  | SConj c l => PConj (pconj_of c) s None false crypto_tree_prefix (map mke l)
  end.
Lemma mke_unproven : forall s, is_unproven (mke s) = true.
Proof. intros [b|p|c l]; reflexivity. Qed.
Lemma mke_sim : forall s, good s = true -> simulated (mke s) = negb (exactb s).
Proof.
  intros s H. apply good_cases in H. destruct H as [H|(H & p & -> & Hp)].
  - rewrite H. destruct s as [b|p|c l]; [discriminate| |reflexivity]. cbn [exactb] in H. cbn. rewrite H. reflexivity.
  - rewrite H. cbn. rewrite Hp. reflexivity.
Qed.
Lemma filter_real : forall l, Forall (fun x => good x = true) l ->
  length (filter is_real (map mke l)) = length (filter exactb l).
Proof.
  induction 1 as [|x l Hx _ IH]; cbn [map filter]; auto. unfold is_real at 1. rewrite mke_sim by auto.
  rewrite negb_involutive. destruct (exactb x); cbn [length]; congruence.
Qed.
Lemma mark_exact : forall s, good s = true ->
  (forall pos p q, In (p, q) (locs pos s) -> secret_known secrets hints p = kn p) ->
  forall fuel, (depth s <= fuel)%nat -> rewrite_bu fuel (mark_real_step secrets hints) (conv s) = Ok (mke s).
Proof.
  apply (sbool_ind' (fun s => good s = true ->
    (forall pos p q, In (p, q) (locs pos s) -> secret_known secrets hints p = kn p) ->
    forall fuel, (depth s <= fuel)%nat -> rewrite_bu fuel (mark_real_step secrets hints) (conv s) = Ok (mke s))).
  - discriminate.
  - intros p _ HK [|fuel] Hf; [simpl in Hf; lia|]. cbn [conv rewrite_bu bind mark_real_step mke].
    rewrite (HK [] p []) by (left; reflexivity). reflexivity.
  - intros c l IH Hg HK [|fuel] Hf; [simpl in Hf; lia|].
    apply good_cases in Hg. destruct Hg as [Hx|(_ & p & H & _)]; [|discriminate].
    apply exact_conj in Hx. destruct Hx as [Hg Hcount].
    cbn [conv rewrite_bu]. rewrite (map_res_map2 _ _ _ _ conv mke).
    2: { rewrite Forall_forall in *. intros x Hx. apply IH; auto.
         - intros pos p q Hin. apply In_nth_error in Hx. destruct Hx as [j Hj].
           destruct (locs_move _ _ (pos_child [] j) _ _ Hin) as (q' & Hq').
           apply (HK [] p q'). eapply locs_conj_in; eauto.
         - cbn [depth] in Hf. pose proof (depth_max l x Hx). lia. }
    cbn [bind mark_real_step]. rewrite cast_ok by (apply Forall_map'; apply Forall_forall; intros; apply mke_unproven).
    cbn [bind mke]. f_equal. f_equal. destruct c as [| |k]; cbn [pconj_of].
    + clear - Hcount Hg. induction l as [|x l IHl]; cbn [map existsb]; auto. inversion Hcount; inversion Hg; subst.
      rewrite mke_sim by auto. rewrite H1. cbn. auto.
    + destruct (forallb simulated (map mke l)) eqn:E; auto. exfalso. rewrite forallb_forall in E.
      rewrite <- filter_real in Hcount by auto. destruct (filter is_real (map mke l)) as [|t ts] eqn:F; [discriminate|].
      assert (In t (filter is_real (map mke l))) as Ht by (rewrite F; left; reflexivity).
      apply filter_In in Ht. destruct Ht as [Ht1 Ht2]. apply E in Ht1. unfold is_real in Ht2. rewrite Ht1 in Ht2. discriminate.
    + unfold count_real, Zlen. rewrite filter_real by auto. apply Z.ltb_ge. lia.
Qed.

(** Polishing changes only the positions. *)
Fixpoint lay (pos : position) (s : sbool) : ptree :=
  match s with
  | Triv _ => PConj PAnd s None false pos []
  | SLeaf p => PLeaf p None None None (negb (kn p)) pos
  | SConj c l => PConj (pconj_of c) s None false pos (imap (fun i x => lay (pos_child pos i) x) 0 l)
  end.
Lemma map_res_imap : forall A B C (f : B -> res C) (g : nat -> A -> B) (h : nat -> A -> C) l i,
  (forall j x, nth_error l j = Some x -> f (g (i + j)%nat x) = Ok (h (i + j)%nat x)) ->
  map_res f (imap g i l) = Ok (imap h i l).
Proof.
  induction l as [|x l IH]; intros i H; cbn [imap map_res]; auto.
  pose proof (H 0%nat x eq_refl) as H0. rewrite Nat.add_0_r in H0. rewrite H0. cbn [bind].
  rewrite IH; [reflexivity|]. intros j y Hj. specialize (H (S j) y Hj). rewrite Nat.add_succ_r in H. exact H.
Qed.
Lemma mke_eqb : forall x, ptree_eqb (mke x) (mke x) = true.
Proof.
  apply (sbool_ind' (fun x => ptree_eqb (mke x) (mke x) = true)).
  - intros b. cbn. destruct b; reflexivity.
  - intros p. cbn [mke ptree_eqb opt_eqb]. rewrite Bool.eqb_reflx.
    rewrite (proj2 (leaf_eqb_spec HG p p) eq_refl). reflexivity.
  - intros c l IH. cbn [mke ptree_eqb opt_eqb].
    rewrite Bool.eqb_reflx, (proj2 (sbool_eqb_spec HG (SConj c l) (SConj c l)) eq_refl).
    replace (pconj_eqb (pconj_of c) (pconj_of c)) with true
      by (destruct c; cbn; rewrite ?Z.eqb_refl; reflexivity).
    cbn [andb]. rewrite bytes_like_refl; [reflexivity|].
    intros t Ht. apply in_map_iff in Ht. destruct Ht as (x & <- & Hx). rewrite Forall_forall in IH. auto.
Qed.
Lemma find_filter : forall A (f : A -> bool) l, find f l = hd_error (filter f l).
Proof. induction l as [|x l IH]; cbn; auto. destruct (f x); auto. Qed.
Lemma cor_exact : forall l, Forall (fun x => good x = true) l -> length (filter exactb l) = 1%nat ->
  make_cor_children_simulated (map mke l) = Ok (map mke l).
Proof.
  intros l Hg Hc. unfold make_cor_children_simulated.
  rewrite cast_ok by (apply Forall_map'; apply Forall_forall; intros; apply mke_unproven). cbn [bind].
  rewrite <- filter_real in Hc by auto. rewrite find_filter.
  destruct (filter is_real (map mke l)) as [|t [|]] eqn:F; try discriminate. cbn [hd_error of_option bind].
  f_equal. rewrite <- (map_id (map mke l)) at 2. apply map_ext_in. intros c Hin.
  destruct (simulated c) eqn:S; [rewrite orb_true_r; reflexivity|].
  assert (In c (filter is_real (map mke l))) as Hc' by (apply filter_In; split; auto; unfold is_real; rewrite S; reflexivity).
  rewrite F in Hc'. destruct Hc' as [->|[]]. apply in_map_iff in Hin. destruct Hin as (x & <- & _).
  rewrite mke_eqb. reflexivity.
Qed.
Lemma keep_exact : forall k l cnt, cnt + Z.of_nat (length (filter is_real l)) <= k -> keep_k_real (G:=G) k cnt l = l.
Proof.
  induction l as [|t l IH]; intros cnt H; cbn [keep_k_real]; auto. cbn [filter] in H. destruct (is_real t); cbn [length] in H.
  - replace (k <? cnt + 1) with false by (symmetry; apply Z.ltb_ge; lia). f_equal. apply IH. lia.
  - f_equal. apply IH. lia.
Qed.
Lemma polish_exact : forall s, good s = true -> forall pos fuel, (depth s <= fuel)%nat ->
  rewrite_td fuel polish_step (with_position pos (mke s)) = Ok (lay pos s).
Proof.
  apply (sbool_ind' (fun s => good s = true -> forall pos fuel, (depth s <= fuel)%nat ->
    rewrite_td fuel polish_step (with_position pos (mke s)) = Ok (lay pos s))).
  - discriminate.
  - intros p _ pos [|fuel] Hf; [simpl in Hf; lia|]. reflexivity.
  - intros c l IH Hg pos [|fuel] Hf; [simpl in Hf; lia|].
    apply good_cases in Hg. destruct Hg as [Hx|(_ & p & H & _)]; [|discriminate].
    apply exact_conj in Hx. destruct Hx as [Hg Hcount].
    cbn [mke with_position rewrite_td polish_step].
    assert (Hu : Forall (fun t => is_unproven t = true) (map mke l))
      by (apply Forall_map'; apply Forall_forall; intros; apply mke_unproven).
    replace (match pconj_of c with
             | PAnd => Ok (map mke l)
             | POr => make_cor_children_simulated (map mke l)
             | PThr k _ => l' <- cast_to_unp (map mke l);; Ok (keep_k_real k 0 l')
             end) with (Ok (map mke l)).
    2: { destruct c as [| |k]; cbn [pconj_of]; auto.
         - symmetry. apply cor_exact; auto.
         - rewrite cast_ok by exact Hu. cbn [bind]. rewrite keep_exact; auto. rewrite filter_real by auto. lia. }
    cbn [bind]. unfold set_positions. rewrite cast_ok by exact Hu. cbn [bind].
    rewrite imap_map. rewrite (map_res_imap _ _ _ _ _ (fun i x => lay (pos_child pos i) x)); [reflexivity|].
    intros j x Hj. cbn [Nat.add]. rewrite Forall_forall in IH, Hg. pose proof (nth_error_In _ _ Hj) as Hx.
    apply IH; auto. cbn [depth] in Hf. pose proof (depth_max l x Hx). lia.
Qed.

(** Committing. *)
Fixpoint com (pos : position) (s : sbool) : ptree :=
  match s with
  | Triv _ => PConj PAnd s None false pos []
  | SLeaf p => if kn p then PLeaf p (Some (CM p pos)) (rr pos) None false pos else sl p pos
  | SConj c l => PConj (pconj_of c) s None false pos (imap (fun i x => com (pos_child pos i) x) 0 l)
  end.
Lemma lay_unproven : forall pos s, is_unproven (lay pos s) = true.
Proof. intros pos [b|p|c l]; reflexivity. Qed.
Lemma lay_real : forall pos s, good s = true -> is_real (lay pos s) = exactb s.
Proof.
  intros pos s H. apply good_cases in H. destruct H as [H|(H & p & -> & Hp)].
  - rewrite H. destruct s as [b|p|c l]; [discriminate| |reflexivity]. cbn [exactb] in H. cbn. rewrite H. reflexivity.
  - rewrite H. cbn. rewrite Hp. reflexivity.
Qed.
Definition sim_chal (pos : position) : challenge :=
  match find_pos pos (proofs hints) with Some e => e | None => r_chal rnd pos end.
Definition commits (p : leaf) (pos : position) : Prop :=
  if kn p then step5 hints rnd p None None None false pos = Ok (PLeaf p (Some (CM p pos)) (rr pos) None false pos)
  else sim_chal pos = SC pos /\
       step5 hints rnd p None None (Some (SC pos)) true pos = Ok (sl p pos) /\
       (sl p pos = PLeaf p (Some (CM p pos)) None (Some (SC pos)) true pos \/
        sl p pos = PUnchecked (ULeaf p (Some (CM p pos)) (SC pos) (ZS p pos))).
Definition asked (pos : position) (s : sbool) : ptree :=
  if exactb s then lay pos s else with_challenge (sim_chal pos) (lay pos s).
Lemma rewrite_leaf : forall fuel p pos e t, commits p pos -> kn p = false ->
  sim_chal pos = e -> 
  rewrite_td (S fuel) (sim_step hints rnd) (PLeaf p None None (Some e) true pos) = Ok t -> t = sl p pos.
Proof.
  intros fuel p pos e t Hc Hk <- H. unfold commits in Hc. rewrite Hk in Hc. destruct Hc as (E1 & E2 & E3).
  cbn [rewrite_td sim_step] in H. rewrite E1, E2 in H. cbn [bind] in H.
  destruct E3 as [E3|E3]; rewrite E3 in *; congruence.
Qed.
Lemma commit_exact : forall s, good s = true -> forall pos fuel, (depth s <= fuel)%nat ->
  (forall p q, In (p, q) (locs pos s) -> commits p q) ->
  rewrite_td fuel (sim_step hints rnd) (asked pos s) = Ok (com pos s).
Proof.
  apply (sbool_ind' (fun s => good s = true -> forall pos fuel, (depth s <= fuel)%nat ->
    (forall p q, In (p, q) (locs pos s) -> commits p q) ->
    rewrite_td fuel (sim_step hints rnd) (asked pos s) = Ok (com pos s))).
  - discriminate.
  - intros p _ pos [|fuel] Hf HC; [simpl in Hf; lia|]. specialize (HC p pos (or_introl eq_refl)).
    unfold commits in HC. unfold asked. cbn [exactb lay com]. destruct (kn p); cbn [negb rewrite_td sim_step with_challenge].
    + rewrite HC. reflexivity.
    + destruct HC as (E1 & E2 & E3). rewrite E1, E2. cbn [bind]. destruct E3 as [->| ->]; reflexivity.
  - intros c l IH Hg pos [|fuel] Hf HC; [simpl in Hf; lia|].
    pose proof (good_cases _ Hg) as [Hx|(_ & p & H & _)]; [|discriminate].
    unfold asked. rewrite Hx. apply exact_conj in Hx. destruct Hx as [Hgl Hcount].
    cbn [lay rewrite_td sim_step]. unfold step4. cbn [negb].
    assert (Hu : Forall (fun t => is_unproven t = true) (imap (fun i x => lay (pos_child pos i) x) 0 l)).
    { apply Forall_forall. intros t Ht. apply in_imap in Ht. destruct Ht as (j & x & _ & ->). apply lay_unproven. }
    assert (E4 : map (step4_child hints rnd) (imap (fun i x => lay (pos_child pos i) x) 0 l) =
                 imap (fun i x => asked (pos_child pos i) x) 0 l).
    { rewrite map_imap. apply imap_ext_f. intros j x Hj. cbn [Nat.add]. unfold step4_child, asked.
      rewrite Forall_forall in Hgl. rewrite lay_real by (apply Hgl; eapply nth_error_In; eauto).
      destruct (exactb x); [reflexivity|]. f_equal. destruct x; reflexivity. }
    assert (E5 : map_res (rewrite_td fuel (sim_step hints rnd)) (imap (fun i x => asked (pos_child pos i) x) 0 l) =
                 Ok (imap (fun i x => com (pos_child pos i) x) 0 l)).
    { apply map_res_imap. intros j x Hj. cbn [Nat.add]. rewrite Forall_forall in IH, Hgl. pose proof (nth_error_In _ _ Hj) as Hx.
      apply IH; auto; [cbn [depth] in Hf; pose proof (depth_max l x Hx); lia|].
      intros p q Hin. apply HC. eapply locs_conj_in; eauto. }
    destruct c as [| |k]; cbn [pconj_of].
    + cbn [bind].
      replace (imap (fun i x => lay (pos_child pos i) x) 0 l) with (imap (fun i x => asked (pos_child pos i) x) 0 l).
      2: { apply imap_ext_f. intros j x Hj. unfold asked. rewrite Forall_forall in Hcount.
           rewrite Hcount by (eapply nth_error_In; eauto). reflexivity. }
      rewrite E5. reflexivity.
    + rewrite cast_ok by exact Hu. cbn [bind]. rewrite E4, E5. reflexivity.
    + rewrite cast_ok by exact Hu. cbn [bind]. rewrite E4, E5. reflexivity.
Qed.

(** The hashed string. *)
Lemma fs_exact : forall s, sb_wf s -> good s = true -> forall pos,
  (forall p q, In (p, q) (locs pos s) -> commits p q) ->
  fs_write (com pos s) = Ok (fs_string s (cmt pos s)).
Proof.
  apply (sbool_ind' (fun s => sb_wf s -> good s = true -> forall pos,
    (forall p q, In (p, q) (locs pos s) -> commits p q) -> fs_write (com pos s) = Ok (fs_string s (cmt pos s)))).
  - discriminate.
  - intros p _ _ pos HC. specialize (HC p pos (or_introl eq_refl)). unfold commits in HC. cbn [com cmt].
    destruct (kn p).
    + cbn [fs_write]. apply (fs_leaf_string HG).
    + destruct HC as (_ & _ & [-> | ->]); cbn [fs_write fs_write_u]; apply (fs_leaf_string HG).
  - intros c l IH Hwf Hg pos HC. pose proof (good_cases _ Hg) as [Hx|(_ & p & H & _)]; [|discriminate].
    apply exact_conj in Hx. destruct Hx as [Hgl _].
    cbn [sb_wf] in Hwf. destruct Hwf as (_ & Hlen & Hl). apply fold_and_Forall in Hl.
    cbn [com fs_write cmt].
    assert (Hw : forall l' i0, (forall j x, nth_error l' j = Some x -> nth_error l (i0 + j) = Some x) ->
      write_each fs_write (imap (fun i x => com (pos_child pos i) x) i0 l') =
      Ok (zip_bytes fs_string l' (imap (fun i x => cmt (pos_child pos i) x) i0 l'))).
    { induction l' as [|x l' IHl]; intros i0 HJ; cbn [imap write_each zip_bytes]; auto.
      pose proof (HJ 0%nat x eq_refl) as H0. rewrite Nat.add_0_r in H0. pose proof (nth_error_In _ _ H0) as Hin.
      rewrite Forall_forall in IH, Hl, Hgl. rewrite IH; auto.
      2: { intros p q Hq. apply HC. eapply locs_conj_in; eauto. }
      cbn [bind]. rewrite IHl; [reflexivity|].
      intros j y Hj. specialize (HJ (S j) y Hj). rewrite Nat.add_succ_r in HJ. exact HJ. }
    rewrite (Hw l 0%nat) by auto. unfold fs_node, items_len_ok, Zlen in *. rewrite imap_length.
    rewrite i16_small by lia. cbn [bind fs_string].
    destruct c; cbn [app pconj_of pconj_type pconj_k]; rewrite <- ?app_assoc; reflexivity.
Qed.

(** Answering. *)
Definition answers (p : leaf) (pos : position) (e : challenge) : Prop :=
  if kn p then step9_leaf secrets hints rnd p (rr pos) (Some e) pos = Ok (PUnchecked (ULeaf p None e (resp p pos e)))
  else prove_step secrets hints rnd (sl p pos) = Ok (PUnchecked (ULeaf p (Some (CM p pos)) (SC pos) (ZS p pos))).
Definition told (e : challenge) (pos : position) (s : sbool) : ptree :=
  if exactb s then with_challenge e (com pos s) else com pos s.
Lemma com_chal : forall pos s, good s = true -> (forall p q, In (p, q) (locs pos s) -> commits p q) ->
  p_chal (com pos s) = (if exactb s then None else Some (SC pos)) /\
  (is_unproven (com pos s) && is_real (com pos s) = exactb s) /\
  (match com pos s with PUnchecked (UConj _ _ _) => False | _ => True end).
Proof.
  intros pos s Hg HC. apply good_cases in Hg. destruct Hg as [H|(H & p & -> & Hp)]; rewrite H.
  - destruct s as [b|p|c l]; [discriminate| |cbn; auto]. cbn [exactb] in H. cbn [com]. rewrite H. cbn. auto.
  - specialize (HC p pos (or_introl eq_refl)). unfold commits in HC. rewrite Hp in HC. cbn [com]. rewrite Hp.
    destruct HC as (_ & _ & [-> | ->]); cbn; auto.
Qed.
Lemma or_fold_os : forall ts e0,
  fold_left (fun acc (t : ptree) => match p_chal t with Some c => chal_xor acc c | None => acc end) ts e0 =
  fold_left chal_xor (somes (map p_chal ts)) e0.
Proof. induction ts as [|t ts IH]; intros e0; cbn; auto. destruct (p_chal t); cbn; apply IH. Qed.
Lemma thr_points_os : forall ts i,
  Forall (fun t : ptree => match t with PUnchecked (UConj _ _ _) => False | _ => True end) ts ->
  thr_points i ts = Ok (pts i (map p_chal ts)).
Proof.
  induction ts as [|t ts IH]; intros i H; cbn [thr_points map pts]; auto. inversion H; subst.
  assert (Ee : match t with
         | PUnchecked (UConj _ _ _) => Err "unexpected UncheckedConjecture"
         | PUnchecked (ULeaf _ _ e _) => Ok (Some e)
         | _ => Ok (p_chal t)
         end = Ok (p_chal t)) by (destruct t as [[p cm e z|]| |]; auto; contradiction).
  rewrite Ee. cbn [bind]. rewrite IH by auto. cbn [bind]. destruct (pts (S i) (map p_chal ts)) as [ps vs].
  destruct (p_chal t); reflexivity.
Qed.

Hypothesis HSC : forall pos, chal_ok (SC pos).

Lemma answer_exact : forall s, sb_wf s -> thr_ok s -> good s = true -> forall pos e fuel, (depth s <= fuel)%nat ->
  chal_ok e ->
  (forall p q, In (p, q) (locs pos s) -> commits p q) ->
  (forall p q e', In (p, q, e') (leaves pos e s) -> answers p q e') ->
  exists t9, rewrite_td fuel (prove_step secrets hints rnd) (told e pos s) = Ok t9 /\
    convert_to_unchecked t9 = Ok (fin pos e s).
Proof.
  apply (sbool_ind' (fun s => sb_wf s -> thr_ok s -> good s = true -> forall pos e fuel, (depth s <= fuel)%nat ->
    chal_ok e ->
    (forall p q, In (p, q) (locs pos s) -> commits p q) ->
    (forall p q e', In (p, q, e') (leaves pos e s) -> answers p q e') ->
    exists t9, rewrite_td fuel (prove_step secrets hints rnd) (told e pos s) = Ok t9 /\
      convert_to_unchecked t9 = Ok (fin pos e s))).
  - discriminate.
  - intros p _ _ _ pos e [|fuel] Hf He HC HA; [simpl in Hf; lia|].
    specialize (HA p pos _ (or_introl eq_refl)). unfold answers in HA. unfold told. cbn [exactb com fin].
    destruct (kn p) eqn:Hk.
    + cbn [with_challenge rewrite_td prove_step negb]. rewrite HA. cbn [bind]. eexists. split; reflexivity.
    + cbn [rewrite_td]. rewrite HA. cbn [bind]. eexists. split; reflexivity.
  - intros c l IH Hwf Hthr Hg pos e [|fuel] Hf He HC HA; [simpl in Hf; lia|].
    pose proof (good_cases _ Hg) as [Hx|(_ & p & H & _)]; [|discriminate].
    unfold told. rewrite Hx. pose proof (exact_conj _ _ Hx) as [Hgl Hcount].
    cbn [sb_wf] in Hwf. destruct Hwf as (Hc & Hlen & Hl). apply fold_and_Forall in Hl.
    cbn [thr_ok] in Hthr. destruct Hthr as [Hk Htl]. apply fold_and_Forall in Htl.
    unfold items_len_ok, Zlen in Hlen.
    set (sh := share c (kids pos l) e).
    set (ts := imap (fun i x => com (pos_child pos i) x) 0 l).
    assert (Hcom : forall j x, nth_error l j = Some x -> forall p q, In (p, q) (locs (pos_child pos j) x) -> commits p q).
    { intros j x Hj p q Hq. apply HC. eapply locs_conj_in; eauto. }
    assert (Hps : map p_chal ts = kids pos l).
    { unfold ts, kids. rewrite map_imap. apply imap_ext_f. intros j x Hj. cbn [Nat.add]. unfold kid.
      apply com_chal; [rewrite Forall_forall in Hgl; apply Hgl; eapply nth_error_In; eauto|eauto]. }
    assert (Hrec : exists ts9, map_res (rewrite_td fuel (prove_step secrets hints rnd))
        (imap (fun i x => told (sh i) (pos_child pos i) x) 0 l) = Ok ts9 /\
        map_res convert_to_unchecked ts9 = Ok (imap (fun i x => fin (pos_child pos i) (sh i) x) 0 l)).
    { assert (K : forall l' i0, (forall j x, nth_error l' j = Some x -> nth_error l (i0 + j) = Some x) ->
        exists ts9, map_res (rewrite_td fuel (prove_step secrets hints rnd))
        (imap (fun i x => told (sh i) (pos_child pos i) x) i0 l') = Ok ts9 /\
        map_res convert_to_unchecked ts9 = Ok (imap (fun i x => fin (pos_child pos i) (sh i) x) i0 l')).
      { induction l' as [|x l' IHl]; intros i0 HJ; cbn [imap]; [exists []; auto|].
        pose proof (HJ 0%nat x eq_refl) as H0. rewrite Nat.add_0_r in H0. pose proof (nth_error_In _ _ H0) as Hin.
        destruct (IHl (S i0)) as (ts9 & E1 & E2).
        { intros j y Hj. specialize (HJ (S j) y Hj). rewrite Nat.add_succ_r in HJ. exact HJ. }
        rewrite Forall_forall in IH, Hl, Htl, Hgl.
        destruct (IH x Hin (Hl x Hin) (Htl x Hin) (Hgl x Hin) (pos_child pos i0) (sh i0) fuel) as (t9 & F1 & F2).
        - cbn [depth] in Hf. pose proof (depth_max l x Hin). lia.
        - apply (share_ok HSC c l pos e i0 Hx Hc); [lia|exact He|]. apply nth_error_Some. congruence.
        - eauto.
        - intros p q e' Hq. apply HA. eapply leaves_conj_in; eauto.
        - exists (t9 :: ts9). cbn [map_res]. rewrite F1. cbn [bind]. rewrite E1. cbn [bind].
          rewrite F2. cbn [bind]. rewrite E2. split; reflexivity. }
      apply K. auto. }
    destruct Hrec as (ts9 & E1 & E2).
    assert (Hreal : forall f, imap (fun i t => real_child (f i) t) 0 ts = imap (fun i x => told (f i) (pos_child pos i) x) 0 l).
    { intros f. unfold ts. rewrite imap_imap. apply imap_ext_f. intros j x Hj. cbn [Nat.add]. unfold real_child, told.
      destruct (com_chal (pos_child pos j) x) as (_ & -> & _); [rewrite Forall_forall in Hgl; apply Hgl; eapply nth_error_In; eauto|eauto|].
      reflexivity. }
    cbn [com with_challenge rewrite_td prove_step negb fin]. fold ts. unfold step9_conj. cbn [of_option bind].
    destruct c as [| |k]; cbn [pconj_of].
    + cbn [bind].
      replace (map (with_challenge e) ts) with (imap (fun i x => told (sh i) (pos_child pos i) x) 0 l).
      2: { unfold ts. rewrite map_imap. apply imap_ext_f. intros j x Hj. unfold told. rewrite Forall_forall in Hcount.
           rewrite Hcount by (eapply nth_error_In; eauto). reflexivity. }
      rewrite E1. cbn [bind]. eexists. split; [reflexivity|]. cbn [convert_to_unchecked of_option bind].
      rewrite E2. reflexivity.
    + cbn [bind]. cbv zeta. rewrite or_fold_os, Hps.
      rewrite xor_fold_left by (auto; apply somes_ok, kids_ok, HSC).
      change (chal_xor e (xor_all (somes (kids pos l)))) with (sh 0%nat).
      replace (map (real_child (sh 0%nat)) ts) with (imap (fun i t => real_child (sh i) t) 0 ts).
      2: { assert (K : forall (us : list ptree) n, imap (fun i t => real_child (sh i) t) n us = map (real_child (sh 0%nat)) us).
           { induction us as [|t us IHt]; intros n; cbn [imap map]; auto. f_equal. apply IHt. }
           apply K. }
      rewrite Hreal, E1. cbn [bind]. eexists. split; [reflexivity|]. cbn [convert_to_unchecked of_option bind].
      rewrite E2. reflexivity.
    + rewrite thr_points_os.
      2: { apply Forall_forall. intros t Ht. unfold ts in Ht. apply in_imap in Ht. destruct Ht as (j & x & Hj & ->).
           apply com_chal; [rewrite Forall_forall in Hgl; apply Hgl; eapply nth_error_In; eauto|eauto]. }
      rewrite Hps. cbn [bind].
      destruct (thr_rule k (kids pos l) e) as (cs & Ei & Ep & Lc & _ & _); auto.
      * lia.
      * unfold kids. rewrite kids_opens. lia.
      * apply kids_ok, HSC.
      * rewrite kids_length. lia.
      * destruct (pts 0 (kids pos l)) as [ps vs]. cbn [fst snd] in Ei. rewrite Ei. cbn [bind].
        unfold check_poly. cbn [prop_len]. replace (Zlen l <? k) with false by (symmetry; apply Z.ltb_ge; lia).
        assert (Lb : Zlen (poly_to_bytes (ipoly (kids pos l) e)) = Zlen cs * 24) by (rewrite Ep; apply poly_bytes_len).
        rewrite Lb. replace (Zlen cs * 24 =? (Zlen l - k) * 24) with true
          by (symmetry; apply Z.eqb_eq; unfold Zlen in *; rewrite kids_length in Lc; lia).
        cbn [bind].
        change (imap (fun (i : nat) (t : ptree) => real_child (gf_chal (evaluate (ipoly (kids pos l) e) (one_based i))) t) 0 ts)
          with (imap (fun (i : nat) (t : ptree) => real_child (sh i) t) 0 ts).
        rewrite Hreal, E1. cbn [bind]. eexists. split; [reflexivity|]. cbn [convert_to_unchecked of_option bind].
        rewrite E2. reflexivity.
Qed.

Lemma mke_height : forall s, good s = true -> p_height (mke s) = depth s.
Proof.
  apply (sbool_ind' (fun s => good s = true -> p_height (mke s) = depth s)); try reflexivity.
  - intros c l IH Hg. apply good_cases in Hg. destruct Hg as [Hx|(_ & p & H & _)]; [|discriminate].
    apply exact_conj in Hx. destruct Hx as [Hg _]. cbn [mke p_height depth].
    f_equal. unfold max_list. f_equal. rewrite map_map. apply map_ext_in. rewrite Forall_forall in *. auto.
Qed.
Lemma lay_height : forall s pos, good s = true -> p_height (lay pos s) = depth s.
Proof.
  apply (sbool_ind' (fun s => forall pos, good s = true -> p_height (lay pos s) = depth s)); try reflexivity.
  - intros c l IH pos Hg. apply good_cases in Hg. destruct Hg as [Hx|(_ & p & H & _)]; [|discriminate].
    apply exact_conj in Hx. destruct Hx as [Hg _]. cbn [lay p_height depth].
    f_equal. unfold max_list. f_equal. rewrite map_imap. generalize 0%nat.
    clear - IH Hg. induction l as [|x l IHl]; intros n; cbn [imap map]; auto. inversion IH; inversion Hg; subst.
    f_equal; auto.
Qed.
Lemma com_height : forall s pos, good s = true -> (forall p q, In (p, q) (locs pos s) -> commits p q) ->
  p_height (com pos s) = depth s.
Proof.
  apply (sbool_ind' (fun s => forall pos, good s = true -> (forall p q, In (p, q) (locs pos s) -> commits p q) ->
    p_height (com pos s) = depth s)).
  - discriminate.
  - intros p pos _ HC. specialize (HC p pos (or_introl eq_refl)). unfold commits in HC. cbn [com].
    destruct (kn p); [reflexivity|]. destruct HC as (_ & _ & [-> | ->]); reflexivity.
  - intros c l IH pos Hg HC. apply good_cases in Hg. destruct Hg as [Hx|(_ & p & H & _)]; [|discriminate].
    apply exact_conj in Hx. destruct Hx as [Hg _]. cbn [com p_height depth].
    f_equal. unfold max_list. f_equal. rewrite map_imap.
    transitivity (imap (fun _ x => depth x) 0 l).
    + apply imap_ext_f. intros j x Hj. rewrite Forall_forall in *. pose proof (nth_error_In _ _ Hj). apply IH; auto.
      intros p q Hq. apply HC. eapply locs_conj_in; eauto.
    + generalize 0%nat. clear. induction l as [|x l IHl]; intros n; cbn [imap map]; auto. f_equal. auto.
Qed.

Theorem prove_exact : forall H s message,
  sb_wf s -> thr_ok s -> exactb s = true ->
  (forall b, (24 <= length (H b))%nat /\ bytes_ok (H b)) ->
  let e0 := fiat_shamir_hash H (fs_string s (cmt crypto_tree_prefix s) ++ message) in
  (forall p q, In (p, q) (locs crypto_tree_prefix s) -> secret_known secrets hints p = kn p) ->
  (forall p q, In (p, q) (locs crypto_tree_prefix s) -> commits p q) ->
  (forall p q e', In (p, q, e') (leaves crypto_tree_prefix e0 s) -> answers p q e') ->
  chal_ok e0 /\
  prove_to_unchecked secrets hints rnd H (conv s) message = Ok (fin crypto_tree_prefix e0 s).
Proof.
  intros H s message Hwf Hthr Hx HH e0 HK HC HA.
  assert (Hg : good s = true) by (unfold good; rewrite Hx; reflexivity).
  assert (He : chal_ok e0).
  { unfold e0, fiat_shamir_hash. destruct (HH (fs_string s (cmt crypto_tree_prefix s) ++ message)) as [L B]. split.
    - rewrite firstn_length. lia.
    - rewrite <- (firstn_skipn 24 (H _)) in B. apply Forall_app in B. apply B. }
  split; [exact He|]. unfold prove_to_unchecked, mark_real.
  rewrite conv_height by (apply good_no_const; exact Hg).
  assert (HK' : forall pos p q, In (p, q) (locs pos s) -> secret_known secrets hints p = kn p).
  { intros pos p q Hin.
    assert (exists q', In (p, q') (locs crypto_tree_prefix s)) as (q' & Hq') by (eapply locs_move; eauto).
    eapply HK; eauto. }
  rewrite mark_exact by auto. cbn [bind]. unfold try_unproven. rewrite mke_unproven. cbn [bind].
  unfold is_real at 1. rewrite mke_sim by auto. rewrite Hx. cbn [negb].
  unfold polish_simulated. rewrite mke_height by auto.
  replace (mke s) with (with_position crypto_tree_prefix (mke s)) by (destruct s; [discriminate|reflexivity..]).
  rewrite polish_exact by auto. cbn [bind]. unfold try_unproven at 1. rewrite lay_unproven. cbn [bind].
  unfold simulate_and_commit. rewrite lay_height by auto.
  replace (lay crypto_tree_prefix s) with (asked crypto_tree_prefix s) by (unfold asked; rewrite Hx; reflexivity).
  rewrite commit_exact by auto. cbn [bind].
  destruct (com_chal crypto_tree_prefix s Hg HC) as (Ec & Eu & _). rewrite Hx in Ec, Eu.
  apply andb_true_iff in Eu. destruct Eu as [Eu _]. unfold try_unproven. rewrite Eu. cbn [bind].
  rewrite fs_exact by auto. cbn [bind]. fold e0. unfold proving. rewrite with_challenge_height, com_height by auto.
  destruct (answer_exact s Hwf Hthr Hg crypto_tree_prefix e0 (depth s)) as (t9 & E1 & E2); auto.
  unfold told in E1. rewrite Hx in E1. rewrite E1. cbn [bind]. exact E2.
Qed.
End Signer.
End MultiSig.
