(** Peer discovery: what it finds (C102), that it returns (C103) and whom it asks (C104), over
    all interleavings, network behaviours and channel sizes; the version check (C105). *)
From Coq Require Import ZArith List Bool Lia Permutation String Ascii.
From Verif Require Import Base DiscoveryModel DiscoveryProofs.
Import ListNotations.
Local Open Scope list_scope.
Local Open Scope Z_scope.
Local Arguments url_eq_dec : simpl never.

(** ** Specification: the nodes one gets to from the given seeds by asking nodes for their peers.
    A node is known by its URL without the port. *)
Inductive reach (may : url -> outcome -> Prop) (given : list url) : url -> Prop :=
| reach_seed g : In g given -> reach may given (with_port None g)
| reach_peer u ps p : reach may given u -> may u (Answers ps) -> In p ps -> reach may given (site p).
Definition is_seed (given : list url) (u : url) : Prop := In u (map (with_port None) given).
(** A network that behaves the same each time *)
Definition steady (net : url -> outcome) : url -> outcome -> Prop := fun u o => o = net u.

Section Sound.
Variables (cap : nat) (may : url -> outcome -> Prop) (given : list url).
Notation reach := (reach may given).
Definition sound_msg (m : msg) : Prop :=
  match m with
  | AddActive v => exists ps, may (with_port None v) (Answers ps)
  | AddInactive v => may (with_port None v) InfoFails \/ may (with_port None v) PeersFail
  | CheckPeers ps => forall p, In p ps -> reach (site p)
  end.
Record snd (s : state) : Prop := {
  s_all : forall u, In u (all s) -> reach u;
  s_sent : forall u, In u (sent s) -> reach u;
  s_stack : forall p, In p (stack s) -> reach (site p);
  s_msgs : forall m, In m (msgs s) -> sound_msg m;
  s_active : forall u, In u (active s) -> reach u /\ exists ps, may u (Answers ps);
  s_nodup : NoDup (active s);
  s_visited : forall u, In u (visited s) -> reach u }.

Lemma told_sound : forall u o m, clean u -> reach u -> may u o -> In m (flat_map tmsgs (told u o)) -> sound_msg m.
Proof.
  intros u o m C R Y I. destruct o; cbn in I; repeat destruct I as [<-|I]; try contradiction; cbn;
    rewrite ?with_port_clean by exact C; eauto. intros p Ip. exact (reach_peer _ _ u ps p R Y Ip).
Qed.
Lemma snd_step : forall k s s', inv s -> snd s -> step cap may k s s' -> snd s'.
Proof.
  intros k s s' I D S. pose proof (step_effect cap may k s s' I S) as E.
  assert (A : forall u, In u (all s') -> reach u).
  { intros u Hu. destruct E as [P _ _ _ _|p Ip _ P _ _ _ _ _ _|m v _ _ P _ _ _ _ _].
    - apply (s_all s D). exact (Permutation_in _ P Hu).
    - apply (Permutation_in _ P) in Hu. destruct Hu as [<-|Hu]; [exact (s_stack s D p Ip)|exact (s_all s D u Hu)].
    - apply (s_all s D). apply (Permutation_in _ P). right. exact Hu. }
  assert (M : forall m, In m (msgs s') -> sound_msg m).
  { intros m Hm. destruct (step_msgs cap may k s s' m S Hm) as [J|(l1 & u & l2 & o & T & Y & J)]; [exact (s_msgs s D m J)|].
    pose proof (asking_in s l1 u l2 T) as Ia. apply (told_sound u o m); auto.
    - pose proof (i_clean s I) as X. rewrite Forall_forall in X. exact (X u Ia).
    - exact (s_all s D u Ia). }
  constructor; auto.
  - intros u Hu. destruct (step_sent cap may k s s' S) as [[P _]|(p & Ip & _ & P & _)].
    + apply (s_sent s D). exact (Permutation_in _ P Hu).
    + apply (Permutation_in _ P) in Hu. destruct Hu as [<-|Hu]; [exact (s_stack s D p Ip)|exact (s_sent s D u Hu)].
  - intros p Hp. destruct (step_stack cap may k s s' p S Hp) as [J|(ps & J & K)]; [exact (s_stack s D p J)|].
    exact (s_msgs s D _ J p K).
  - intros u Hu. destruct E as [P _ _ Ac _|p Ip _ P _ _ Ac _ _ _|m v Mm Mv P _ _ Ac _ _].
    + rewrite Ac in Hu. exact (s_active s D u Hu).
    + rewrite Ac in Hu. exact (s_active s D u Hu).
    + rewrite Ac in Hu. destruct m as [w|w|ps]; try exact (s_active s D u Hu).
      apply in_add in Hu. destruct Hu as [->|Hu]; [|exact (s_active s D u Hu)].
      split; [apply (s_all s D); apply (Permutation_in _ P); left; reflexivity|].
      cbn in Mv. inversion Mv; subst. exact (s_msgs s D _ (draining_in s _ Mm)).
  - destruct E as [P _ _ Ac _|p Ip _ P _ _ Ac _ _ _|m v Mm Mv P _ _ Ac _ _]; rewrite Ac; try exact (s_nodup s D).
    destruct m; try exact (s_nodup s D). apply nodup_add. exact (s_nodup s D).
  - intros u Hu. destruct E as [P _ V _ _|p Ip _ P _ V _ _ _ _|m v Mm Mv P _ V _ _ _]; rewrite V in Hu.
    + exact (s_visited s D u Hu).
    + apply in_add in Hu. destruct Hu as [->|Hu]; [exact (s_stack s D p Ip)|exact (s_visited s D u Hu)].
    + apply in_add in Hu. destruct Hu as [->|Hu]; [|exact (s_visited s D u Hu)].
      apply (s_all s D). apply (Permutation_in _ P). left. reflexivity.
Qed.
Lemma snd_begin : forall order, (forall u, In u order -> reach u) -> snd (begin order).
Proof.
  intros order H. constructor; cbn; try contradiction; try (intros u []).
  - unfold all, flight. cbn. rewrite !app_nil_r. exact H.
  - unfold sent. cbn. exact H.
  - constructor.
Qed.
Lemma seeds_same : forall ls s s', inv s -> run cap may ls s s' -> seeds s' = seeds s.
Proof.
  intros ls s s' I R. induction R; [reflexivity|]. rewrite <- (IHR I).
  pose proof (step_effect cap may k s1 s2 (inv_run cap may _ _ _ I R) H) as E. destruct E; assumption.
Qed.

(** Everything at once, for a run of peer_discovery *)
Lemma runs_facts : forall ls s, given <> [] -> runs cap may given ls s ->
  inv s /\ snd s /\ (forall u, In u (seeds s) <-> is_seed given u) /\ NoDup (seeds s) /\
  exists order, Permutation (seeds s) order /\ seeds s = order /\ run cap may ls (begin order) s /\ inv (begin order).
Proof.
  intros ls s NE (order & set & Es & P & R). destruct (seeds_set_spec given set Es) as (A & N & C).
  assert (Io : inv (begin order)).
  { apply inv_begin; [exact (Permutation_Forall P C)|]. intros ->. apply Permutation_sym, Permutation_nil in P. subst.
    destruct given as [|g l]; [congruence|]. assert (In (with_port None g) []) by (apply A; left; reflexivity). contradiction. }
  assert (Do : snd (begin order)).
  { apply snd_begin. intros u Hu. apply (Permutation_in _ (Permutation_sym P)) in Hu. apply A in Hu. apply in_map_iff in Hu.
    destruct Hu as (g & <- & Hg). constructor. exact Hg. }
  pose proof (seeds_same _ _ _ Io R) as Sd. cbn in Sd.
  split; [exact (inv_run cap may _ _ _ Io R)|]. split.
  - clear Es P A N C Sd. induction R; [exact Do|]. apply (snd_step k s1 s2); auto. exact (inv_run cap may _ _ _ Io R).
  - rewrite Sd. split; [|split; [exact (Permutation_NoDup P N)|exists order; auto]].
    intros u. unfold is_seed. rewrite <- A. split; intros H; [exact (Permutation_in _ (Permutation_sym P) H)|exact (Permutation_in _ P H)].
Qed.

(** ** C102: whatever the nodes do and however the tasks interleave, before or after the
    timeout: every node returned was reached from the seeds, answered both requests and is not
    a seed; no node is returned twice. *)
Theorem c102_sound : forall ls s l, given <> [] -> runs cap may given ls s -> main s = Done l ->
  NoDup l /\ forall u, In u l -> reach u /\ (exists ps, may u (Answers ps)) /\ ~ is_seed given u.
Proof.
  intros ls s l NE R M. destruct (runs_facts ls s NE R) as (I & D & Sd & _).
  pose proof (i_count s I) as X. rewrite M in X. destruct X as (_ & _ & ->). unfold found. split.
  - apply NoDup_filter. exact (s_nodup s D).
  - intros u Hu. apply filter_In in Hu. destruct Hu as [Hu N]. destruct (s_active s D u Hu) as [Ra Y].
    split; [exact Ra|]. split; [exact Y|]. rewrite <- Sd. apply mem_not. destruct (mem u (seeds s)); [discriminate|reflexivity].
Qed.
End Sound.

(** ** Completeness *)
Section Complete.
Variables (cap : nat) (net : url -> outcome) (given : list url).
Hypothesis Hcap : (1 <= cap)%nat.
Notation may := (steady net).

Definition known (s : state) (before : list msg) (p : addr) : Prop :=
  In (site p) (visited s) \/ In (site p) (seeds s) \/ In p (stack s) \/ exists ps, In (CheckPeers ps) before /\ In p ps.
Definition peers_known s before (u : url) : Prop := forall ps p, net u = Answers ps -> In p ps -> known s before p.
Record cmp (s : state) : Prop := {
  k_task : forall v, In (Telling (AddActive v) []) (tasks s) -> peers_known s (pmsgs (main s) ++ msgq s) (with_port None v);
  k_shape : forall m ms, In (Telling m ms) (tasks s) -> (ms = [] /\ forall ps, m <> CheckPeers ps) \/ exists u, clean u /\ exists ps, net u = Answers ps /\ m = CheckPeers ps /\ ms = [AddActive (with_port (Some 9053) u)];
  k_queue : forall a v b, msgq s = a ++ AddActive v :: b -> peers_known s (pmsgs (main s) ++ a) (with_port None v);
  k_main : forall v, main s = Draining (AddActive v) -> peers_known s [] (with_port None v);
  k_active : forall u, In u (active s) -> peers_known s [] u;
  k_fin : forall u, In u (visited s) \/ In u (seeds s) -> In u (all s) \/ forall ps, net u = Answers ps -> In u (active s);
  k_done : forall l, main s = Done l -> stack s = [] }.

Lemma known_mono : forall s s' b b' p, incl (visited s) (visited s') -> seeds s' = seeds s -> (In p (stack s) -> In p (stack s') \/ In (site p) (visited s')) ->
  (forall ps, In (CheckPeers ps) b -> In p ps -> In (CheckPeers ps) b' \/ In p (stack s')) ->
  known s b p -> known s' b' p.
Proof.
  intros s s' b b' p V Sd St B [H|[H|[H|(ps & H & J)]]].
  - left. exact (V _ H).
  - right. left. rewrite Sd. exact H.
  - destruct (St H) as [X|X]; [right; right; left; exact X|left; exact X].
  - destruct (B ps H J) as [X|X]; [right; right; right; exists ps; auto|right; right; left; exact X].
Qed.
Lemma pk_mono : forall s s' b b' u, incl (visited s) (visited s') -> seeds s' = seeds s -> (forall p, In p (stack s) -> In p (stack s') \/ In (site p) (visited s')) ->
  (forall ps p, In (CheckPeers ps) b -> In p ps -> In (CheckPeers ps) b' \/ In p (stack s')) ->
  peers_known s b u -> peers_known s' b' u.
Proof. intros s s' b b' u V Sd St B H ps p E I. apply (known_mono s s' b b' p); auto. exact (H ps p E I). Qed.

(** the part about visited nodes *)
Lemma fin_step : forall k s s', inv s -> snd may given s -> cmp s -> step cap may k s s' ->
  forall u, In u (visited s') \/ In u (seeds s') -> In u (all s') \/ forall ps, net u = Answers ps -> In u (active s').
Proof.
  intros k s s' I D K S u Hu. pose proof (step_effect cap may k s s' I S) as E.
  destruct E as [P Sd V Ac _|p Ip _ P Sd V Ac _ _ _|m v Mm Mv P Sd V Ac _ _]; rewrite V, Sd in Hu; rewrite Ac.
  - destruct (k_fin s K u Hu) as [X|X]; [left; exact (Permutation_in _ (Permutation_sym P) X)|right; exact X].
  - rewrite in_add in Hu. destruct (url_eq_dec u (site p)) as [->|N].
    + left. apply (Permutation_in _ (Permutation_sym P)). left. reflexivity.
    + assert (Hu' : In u (visited s) \/ In u (seeds s)) by tauto.
      destruct (k_fin s K u Hu') as [X|X]; [left; apply (Permutation_in _ (Permutation_sym P)); right; exact X|right; exact X].
  - rewrite in_add in Hu. destruct (url_eq_dec u v) as [->|N].
    + right. intros ps Eps. pose proof (s_msgs may given s D _ (draining_in s _ Mm)) as Sm. destruct m as [w|w|qs]; cbn in Mv; inversion Mv; subst; cbn in Sm.
      * apply in_add. left. reflexivity.
      * unfold steady in Sm. rewrite Eps in Sm. destruct Sm; discriminate.
    + assert (Hu' : In u (visited s) \/ In u (seeds s)) by tauto.
      destruct (k_fin s K u Hu') as [X|X].
      * left. apply (Permutation_in _ (Permutation_sym P)) in X. destruct X as [X|X]; [congruence|exact X].
      * right. intros ps Eps. destruct m; try exact (X ps Eps). apply in_add. right. exact (X ps Eps).
Qed.

Lemma in_told : forall l1 u l2 o t, In t (l1 ++ told u o ++ l2) -> In t (l1 ++ Asking u :: l2) \/ In t (told u o).
Proof. intros l1 u l2 o t I. rewrite !in_app_iff in *. cbn. tauto. Qed.

(** moving the main task on, with the rest unchanged *)
Lemma cmp_handles : forall s m s', inv s -> snd may given s -> cmp s -> adding s = true -> main s = Draining m -> handles s m s' ->
  (forall u, In u (visited s') \/ In u (seeds s') -> In u (all s') \/ forall ps, net u = Answers ps -> In u (active s')) ->
  (stack s = [] \/ murl m = [] \/ 2 <= count s) -> cmp s'.
Proof.
  intros s m s' I D K Ad M H F St.
  assert (Cn : 1 <= count s) by (pose proof (i_count s I) as X; rewrite M in X; lia).
  assert (G : good_msg m) by (pose proof (i_msgs s I) as X; rewrite Forall_forall in X; apply X; apply draining_in; exact M).
  destruct (handles_rest s m s' H) as (_ & _ & T & Q & Ad' & Sd).
  assert (Pm : pmsgs (main s') = [] /\ forall v, main s' <> Draining (AddActive v)).
  { destruct H; unfold settle; cbn; repeat (match goal with |- context [if ?b then _ else _] => destruct b eqn:? end; cbn); split; try reflexivity; intros; discriminate. }
  destruct Pm as [Pm Pd].
  assert (V : incl (visited s) (visited s')).
  { intros x Hx. destruct H; unfold settle; cbn; repeat (match goal with |- context [if ?b then _ else _] => destruct b eqn:? end; cbn); rewrite ?in_add; auto. }
  assert (Sk : forall p, In p (stack s) -> In p (stack s')).
  { intros x Hx. destruct H; unfold settle; cbn; repeat (match goal with |- context [if ?b then _ else _] => destruct b eqn:? end; cbn); rewrite ?in_app_iff; auto. }
  assert (Sm : forall ps p, m = CheckPeers ps -> In p ps -> In p (stack s')).
  { intros ps p -> Ip. inversion H; subst. rewrite Ad. cbn. apply in_app_iff. left. eapply Permutation_in; eauto. }
  assert (B : forall a u, peers_known s ([m] ++ a) u -> peers_known s' a u).
  { intros a u Hp. eapply pk_mono; [exact V|exact Sd|intros p Ip; left; exact (Sk p Ip)| |exact Hp].
    intros ps p [Em|Hi] Ip; [right; exact (Sm ps p Em Ip)|left; exact Hi]. }
  constructor.
  - intros v Hv. rewrite T in Hv. rewrite Pm, Q. cbn [app]. apply B. pose proof (k_task s K v Hv) as X. rewrite M in X. exact X.
  - intros m' ms Hm. rewrite T in Hm. exact (k_shape s K m' ms Hm).
  - intros a v b E. rewrite Q in E. rewrite Pm. cbn [app]. apply B. pose proof (k_queue s K a v b E) as X. rewrite M in X. exact X.
  - intros v E. destruct (Pd v E).
  - intros u Hu. assert (X : peers_known s [] u).
    { destruct H as [w v E|w v E|w E|w E|ps qs P].
      - cbn in G. rewrite (set_port_ok _ _ G) in E. inversion E; subst. revert Hu. rewrite settle_eq by exact Cn. cbn. rewrite in_add.
        intros [->|Hu]; [exact (k_main s K w M)|exact (k_active s K u Hu)].
      - cbn in G. rewrite (set_port_ok _ _ G) in E. inversion E; subst. revert Hu. rewrite settle_eq by exact Cn. cbn. intros Hu. exact (k_active s K u Hu).
      - cbn in G. rewrite (set_port_ok _ _ G) in E. discriminate.
      - cbn in G. rewrite (set_port_ok _ _ G) in E. discriminate.
      - apply (k_active s K u). destruct (adding s); exact Hu. }
    intros ps p E Ip. apply (known_mono s s' [] [] p); auto. exact (X ps p E Ip).
  - exact F.
  - intros l E. destruct H as [w v Ev|w v Ev|w Ev|w Ev|ps qs P].
    + cbn in G. rewrite (set_port_ok _ _ G) in Ev. inversion Ev; subst. revert E. rewrite settle_eq by exact Cn. cbn.
      destruct (count s - 1 =? 0) eqn:Z0; [|discriminate]. intros _. destruct St as [St|[St|St]]; [exact St|discriminate|lia].
    + cbn in G. rewrite (set_port_ok _ _ G) in Ev. inversion Ev; subst. revert E. rewrite settle_eq by exact Cn. cbn.
      destruct (count s - 1 =? 0) eqn:Z0; [|discriminate]. intros _. destruct St as [St|[St|St]]; [exact St|discriminate|lia].
    + cbn in G. rewrite (set_port_ok _ _ G) in Ev. discriminate.
    + cbn in G. rewrite (set_port_ok _ _ G) in Ev. discriminate.
    + destruct (adding s); discriminate.
Qed.

Lemma cmp_step : forall k s s', inv s -> snd may given s -> cmp s -> adding s = true -> k = Work -> step cap may k s s' -> cmp s'.
Proof.
  intros k s s' I D K Ad Kw S. pose proof (fin_step k s s' I D K S) as F.
  destruct S as [s u l M R|s M|s u q Q|s l1 u l2 o T Y|s l1 m ms l2 T R|s m q M Q|s M A|s m p st M St V|s m p st M St V R|s m p st s' M St V R H|s m s' M St H].
  - constructor; cbn in *; auto; try (intros; discriminate).
    + intros v Hv. pose proof (k_task s K v Hv) as X. rewrite M in X. exact X.
    + exact (k_shape s K).
    + intros a v b E. pose proof (k_queue s K a v b E) as X. rewrite M in X. exact X.
    + exact (k_active s K).
  - constructor; cbn in *; auto; try (intros; discriminate).
    + intros v Hv. pose proof (k_task s K v Hv) as X. rewrite M in X. exact X.
    + exact (k_shape s K).
    + intros a v b E. pose proof (k_queue s K a v b E) as X. rewrite M in X. exact X.
    + exact (k_active s K).
  - constructor; cbn in *; auto.
    + intros v [E|Hv]; [discriminate|exact (k_task s K v Hv)].
    + intros m ms [E|Hv]; [discriminate|exact (k_shape s K m ms Hv)].
    + exact (k_queue s K).
    + exact (k_main s K).
    + exact (k_active s K).
    + exact (k_done s K).
  - assert (C : clean u).
    { pose proof (i_clean s I) as X. rewrite Forall_forall in X. apply X. exact (asking_in s l1 u l2 T). }
    constructor; cbn in *; auto.
    + intros v Hv. apply in_told in Hv. rewrite <- T in Hv. destruct Hv as [Hv|Hv]; [exact (k_task s K v Hv)|].
      destruct o; cbn in Hv; try contradiction; destruct Hv as [E|[]]; discriminate.
    + intros m ms Hm. apply in_told in Hm. rewrite <- T in Hm. destruct Hm as [Hm|Hm]; [exact (k_shape s K m ms Hm)|].
      destruct o as [| |ps|]; cbn in Hm; try contradiction; destruct Hm as [E|[]]; inversion E; subst.
      * left. split; [reflexivity|]. intros; discriminate.
      * left. split; [reflexivity|]. intros; discriminate.
      * right. exists u. split; [exact C|]. exists ps. split; [symmetry; exact Y|]. auto.
    + exact (k_queue s K).
    + exact (k_main s K).
    + exact (k_active s K).
    + exact (k_done s K).
  - assert (It : In (Telling m ms) (tasks s)) by (rewrite T; apply in_elt).
    constructor; cbn in *; auto.
    + intros v Hv. rewrite !in_app_iff in Hv.
      assert (Hv' : In (Telling (AddActive v) []) (tasks s) \/ In (Telling (AddActive v) []) (still ms)) by (rewrite T, in_app_iff; cbn; tauto).
      destruct Hv' as [Hv'|Hv'].
      * apply (pk_mono s _ (pmsgs (main s) ++ msgq s)); cbn; auto using incl_refl; [|exact (k_task s K v Hv')].
        intros ps p Hi Ip. left. rewrite !in_app_iff in *. cbn. tauto.
      * destruct (k_shape s K m ms It) as [[-> _]|(u & C & ps & En & -> & ->)]; [contradiction|]. cbn in Hv'. destruct Hv' as [E|[]]. inversion E; subst.
        rewrite with_port_clean by exact C. intros qs p E1 Ip. rewrite En in E1. inversion E1; subst.
        right. right. right. exists qs. split; [|exact Ip]. rewrite !in_app_iff. cbn. auto.
    + intros m' ms' Hm. rewrite !in_app_iff in Hm.
      assert (Hv' : In (Telling m' ms') (tasks s) \/ In (Telling m' ms') (still ms)) by (rewrite T, in_app_iff; cbn; tauto).
      destruct Hv' as [Hv'|Hv']; [exact (k_shape s K m' ms' Hv')|].
      destruct (k_shape s K m ms It) as [[-> _]|(u & C & ps & En & -> & ->)]; [contradiction|]. cbn in Hv'. destruct Hv' as [E|[]]. inversion E; subst.
      left. split; [reflexivity|]. intros; discriminate.
    + intros a v b E. destruct b as [|x b] using rev_ind.
      * apply app_inj_tail in E. destruct E as [<- ->]. 
        destruct (k_shape s K _ ms It) as [[-> _]|(u & C & ps & En & E & _)]; [|discriminate].
        apply (pk_mono s _ (pmsgs (main s) ++ msgq s)); cbn; auto using incl_refl. exact (k_task s K v It).
      * clear IHb. rewrite app_comm_cons, app_assoc in E. apply app_inj_tail in E. destruct E as [E _].
        exact (k_queue s K a v b E).
    + exact (k_main s K).
    + exact (k_active s K).
    + exact (k_done s K).
  - constructor; cbn in *; auto; try (intros; discriminate).
    + intros v Hv. pose proof (k_task s K v Hv) as X. rewrite M, Q in X. exact X.
    + exact (k_shape s K).
    + intros a v b E. pose proof (k_queue s K (m :: a) v b) as X. rewrite M, Q in X. apply X. rewrite E. reflexivity.
    + intros v E. inversion E; subst. pose proof (k_queue s K [] v q) as X. rewrite M, Q in X. apply X. reflexivity.
    + exact (k_active s K).
  - discriminate.
  - assert (Mo : forall b u, peers_known s b u -> peers_known (set_stack st s) b u).
    { intros b u. apply pk_mono; cbn; auto using incl_refl. intros q Hq. rewrite St in Hq. destruct Hq as [<-|Hq]; [right; apply mem_iff; exact V|left; exact Hq]. }
    constructor; cbn in *; auto.
    + intros v Hv. apply Mo. exact (k_task s K v Hv).
    + exact (k_shape s K).
    + intros a v b E. apply Mo. exact (k_queue s K a v b E).
    + intros v E. apply Mo. exact (k_main s K v E).
    + intros u Hu. apply Mo. exact (k_active s K u Hu).
    + intros l E. congruence.
  - set (s' := set_count _ _) in *.
    assert (Mo : forall b u, peers_known s b u -> peers_known s' b u).
    { intros b u. apply pk_mono; cbn; auto.
      - intros x Hx. apply in_add. right. exact Hx.
      - intros q Hq. rewrite St in Hq. destruct Hq as [<-|Hq]; [right; apply in_add; left; reflexivity|left; exact Hq]. }
    constructor; cbn in *; auto.
    + intros v Hv. apply Mo. exact (k_task s K v Hv).
    + exact (k_shape s K).
    + intros a v b E. apply Mo. exact (k_queue s K a v b E).
    + intros v E. apply Mo. exact (k_main s K v E).
    + intros u Hu. apply Mo. exact (k_active s K u Hu).
    + intros l E. congruence.
  - apply (cmp_handles s m s'); auto. right. pose proof (i_count s I) as X. rewrite M in X. destruct X as [X1 X2].
    destruct (murl m) as [|v l] eqn:Em; [left; reflexivity|right].
    assert (L : (length (murl m) + length (urlq s) <= length (all s))%nat) by (unfold all, flight; rewrite M; cbn; rewrite !app_length; lia).
    rewrite Em in L. cbn in L. rewrite zlen_len in X1. lia.
  - apply (cmp_handles s m s'); auto.
Qed.

Lemma adding_step : forall k s s', step cap may k s s' -> k = Work -> adding s' = adding s.
Proof.
  intros k s s' S K. destruct S; try reflexivity; try discriminate.
  - destruct (handles_rest _ _ _ H3) as (_ & _ & _ & _ & A & _). exact A.
  - destruct (handles_rest _ _ _ H1) as (_ & _ & _ & _ & A & _). exact A.
Qed.
Lemma cmp_begin : forall order, cmp (begin order).
Proof.
  intros order. constructor; cbn; try contradiction; try (intros; discriminate).
  - intros a v b E. destruct a; discriminate.
  - intros u [[]|H]. left. unfold all, flight. cbn. rewrite !app_nil_r. exact H.
Qed.
Lemma cmp_run : forall ls s s', inv s -> snd may given s -> cmp s -> adding s = true -> ~ In Timeout ls -> run cap may ls s s' ->
  cmp s' /\ adding s' = true /\ snd may given s' /\ inv s'.
Proof.
  intros ls s s' I D K Ad N R. induction R as [|ls s s1 s2 k R IH S]; [auto|].
  destruct k; [|destruct N; left; reflexivity].
  destruct IH as (K1 & A1 & D1 & I1); auto.
  - intros X. apply N. right. exact X.
  - split; [apply (cmp_step Work s1 s2); auto|]. split; [rewrite (adding_step Work s1 s2 S eq_refl); exact A1|].
    split; [apply (snd_step cap may given Work s1 s2); auto|apply (inv_step cap may Work s1 s2); auto].
Qed.

(** ** C102: if the timeout does not strike and every node behaves the same each time it is
    asked, the nodes returned are exactly those that can be reached from the seeds and answer,
    apart from the seeds, however the tasks interleave. *)
Theorem c102_complete : forall ls s l, given <> [] -> ~ In Timeout ls -> runs cap may given ls s -> main s = Done l ->
  forall u, In u l <-> reach may given u /\ (exists ps, net u = Answers ps) /\ ~ is_seed given u.
Proof.
  intros ls s l NE N R M u. split.
  { intros Hu. destruct (c102_sound cap may given ls s l NE R M) as [_ X]. destruct (X u Hu) as (A & (ps & B) & C). split; [exact A|]. split; [exists ps; symmetry; exact B|exact C]. }
  intros (Ru & (ps & Eu) & Nu).
  destruct (runs_facts cap may given ls s NE R) as (I & D & Sd & _ & order & _ & So & Ro & Io).
  assert (Do : snd may given (begin order)).
  { apply snd_begin. intros v Hv. rewrite <- So in Hv. apply Sd in Hv. apply in_map_iff in Hv. destruct Hv as (g & <- & Hg). constructor. exact Hg. }
  destruct (cmp_run ls _ s Io Do (cmp_begin order) eq_refl N Ro) as (K & _).
  pose proof (i_count s I) as X. rewrite M in X. destruct X as (_ & Al & ->).
  pose proof (k_done s K _ M) as St.
  assert (W : forall v, reach may given v -> In v (visited s) \/ In v (seeds s)).
  { intros v Rv. induction Rv as [g Hg|v qs p Rv IH Y Ip].
    - right. apply Sd. apply in_map_iff. eauto.
    - unfold steady in Y. symmetry in Y. destruct (k_fin s K v IH) as [F|F]; [rewrite Al in F; contradiction|].
      pose proof (k_active s K v (F qs Y) qs p Y Ip) as Kn. unfold known in Kn. rewrite St in Kn. cbn in Kn.
      destruct Kn as [H|[H|[H|(rs & [] & _)]]]; auto; contradiction. }
  unfold found. apply filter_In. split.
  - destruct (k_fin s K u (W u Ru)) as [F|F]; [rewrite Al in F; contradiction|exact (F ps Eu)].
  - destruct (mem u (seeds s)) eqn:E; [|reflexivity]. apply mem_iff in E. apply Sd in E. contradiction.
Qed.
End Complete.

(** ** C103 *)
Section Progress.
Variables (cap : nat) (may : url -> outcome -> Prop) (given : list url).
Hypothesis Hcap : (1 <= cap)%nat.

(** As long as discovery has not returned and no request task has panicked, some task can go on. *)
Lemma progress_inv : forall s, inv s -> (forall u, In u (all s) -> exists o, may u o) -> dead s = [] ->
  (exists l, main s = Done l) \/ exists s', step cap may Work s s'.
Proof.
  intros s I An Dd. pose proof (i_count s I) as C. pose proof (i_msgs s I) as Gm. rewrite Forall_forall in Gm.
  assert (Room : forall q : list url, (length q < cap)%nat \/ exists u r, q = u :: r).
  { intros [|u r]; [left; cbn; lia|right; eauto]. }
  assert (Han : forall m, main s = Draining m -> exists s', handles s m s').
  { intros m M. pose proof (Gm m (draining_in s m M)) as G. destruct m as [u|u|ps]; cbn in G.
    - eexists. apply (h_active s u _ (set_port_ok None u G)).
    - eexists. apply (h_inactive s u _ (set_port_ok None u G)).
    - eexists. apply (h_check s ps ps). apply Permutation_refl. }
  destruct (main s) as [[|u l]| |m|l|] eqn:M.
  - right. eexists. apply s_start. exact M.
  - right. destruct (Room (urlq s)) as [R|(v & r & R)].
    + eexists. apply (s_seed _ _ s u l M R).
    + eexists. apply (s_take _ _ s v r R).
  - right. destruct C as [C1 C2].
    destruct (urlq s) as [|v r] eqn:Q; [|eexists; apply (s_take _ _ s v r Q)].
    destruct (tasks s) as [|t ts] eqn:T.
    + destruct (msgq s) as [|m q] eqn:Mq.
      * unfold all, flight in C1. rewrite M, Q, T, Mq, Dd in C1. cbn in C1. unfold Zlen in C1. cbn in C1. lia.
      * eexists. apply (s_receive _ _ s m q M Mq).
    + destruct t as [v|m ms].
      * assert (Ev : exists o, may v o) by (apply An; apply (asking_in s [] v ts T)).
        destruct Ev as [o Ho]. eexists. apply (s_ask _ _ s [] v ts o T Ho).
      * destruct (msgq s) as [|m' q] eqn:Mq.
        -- eexists. apply (s_tell _ _ s [] m ms ts T). rewrite Mq. cbn. lia.
        -- eexists. apply (s_receive _ _ s m' q M Mq).
  - right. destruct (stack s) as [|p st] eqn:St.
    + destruct (Han m eq_refl) as [s' H]. exists s'. apply (s_empty _ _ s m s' M St H).
    + destruct (mem (site p) (visited s)) eqn:V.
      * eexists. apply (s_skip _ _ s m p st M St V).
      * destruct (Nat.lt_ge_cases (length (urlq s)) cap) as [R|R].
        -- eexists. apply (s_push _ _ s m p st M St V R).
        -- destruct (Han m eq_refl) as [s' H]. exists s'. apply (s_full _ _ s m p st s' M St V R H).
  - left. eauto.
  - destruct C.
Qed.

(** Request tasks panic only where the network says so. *)
Lemma dead_lost : forall ls s s', run cap may ls s s' -> dead s = [] -> dead s' <> [] -> exists u s1 ls1, run cap may ls1 s s1 /\ In u (all s1) /\ may u Lost.
Proof.
  intros ls s s' R D0 D1. induction R as [|ls s s1 s2 k R IH S]; [congruence|].
  destruct (dead s1) as [|d ds] eqn:E.
  - destruct S; cbn in *; try congruence.
    + destruct o; cbn in *; try congruence. exists u, s0, ls. split; [exact R|]. split; [exact (asking_in _ _ _ _ H)|assumption].
    + exfalso. apply D1. clear - H3 E. destruct H3; unfold settle; cbn; repeat (match goal with |- context [if ?b then _ else _] => destruct b eqn:? end; cbn); exact E.
    + exfalso. apply D1. clear - H1 E. destruct H1; unfold settle; cbn; repeat (match goal with |- context [if ?b then _ else _] => destruct b eqn:? end; cbn); exact E.
  - apply IH; [exact D0|discriminate].
Qed.

(** As long as every node that can be reached gives some answer (or its request fails) and no
    host is without an address, discovery has returned or goes on without waiting for the
    timeout: no interleaving leads to a deadlock or to a panic. *)
Theorem c103_progress : forall ls s, given <> [] ->
  (forall u, reach may given u -> (exists o, may u o) /\ ~ may u Lost) ->
  runs cap may given ls s -> main s <> Crashed /\ ((exists l, main s = Done l) \/ exists s', step cap may Work s s').
Proof.
  intros ls s NE An R. destruct (runs_facts cap may given ls s NE R) as (I & D & Sd & Nd & order & Po & So & Ro & Io). split.
  { pose proof (i_count s I) as C. intros E. rewrite E in C. exact C. }
  apply progress_inv; [exact I| |].
  - intros u Hu. apply An. exact (s_all may given s D u Hu).
  - destruct (dead s) as [|d ds] eqn:E; [reflexivity|]. exfalso.
    destruct (dead_lost ls _ s Ro eq_refl) as (u & s1 & ls1 & R1 & Iu & L); [rewrite E; discriminate|].
    destruct R as (order' & set & Es & Pe & _).
    assert (R1' : runs cap may given ls1 s1).
    { exists order, set. split; [exact Es|]. split; [|exact R1]. apply NoDup_Permutation.
      - exact (proj1 (proj2 (seeds_set_spec given set Es))).
      - rewrite <- So. exact Nd.
      - intros x. rewrite <- So, Sd. exact (proj1 (seeds_set_spec given set Es) x). }
    destruct (runs_facts cap may given ls1 s1 NE R1') as (_ & D1 & _). destruct (An u (s_all may given s1 D1 u Iu)) as [_ X]. exact (X L).
Qed.
End Progress.

(** *** Bounds on the length of runs *)
Section Measure.
Variables (cap : nat) (may : url -> outcome -> Prop) (pl : list addr -> nat) (sz : url -> nat) (U : list url).
Hypothesis Hsz : forall u ps, may u (Answers ps) -> (pl ps <= sz u)%nat.
Local Open Scope nat_scope.
Definition sum (l : list nat) : nat := fold_right plus 0 l.
Lemma sum_nil : sum [] = 0. Proof. reflexivity. Qed.
Lemma sum_cons : forall x l, sum (x :: l) = x + sum l. Proof. reflexivity. Qed.
Local Arguments sum : simpl never.
Local Arguments Nat.add : simpl never.
Local Arguments Nat.sub : simpl never.
Definition wm (m : msg) : nat := match m with CheckPeers ps => 2 + pl ps | _ => 2 end.
Definition wt (t : task) : nat := match t with Asking u => 8 + sz u | Telling m ms => sum (map (fun m => 1 + wm m) (m :: ms)) end.
Definition wp (p : place) : nat := match p with Seeding l => 1 + sum (map (fun u => 10 + sz u) l) | Draining m => wm m - 1 | _ => 0 end.
Definition unseen (v : list url) : nat := sum (map (fun u => if mem u v then 0 else 9 + sz u) U).
Definition phi (s : state) : nat :=
  wp (main s) + sum (map (fun u => 9 + sz u) (urlq s)) + sum (map wt (tasks s)) + sum (map wm (msgq s)) +
  unseen (visited s) + length (stack s) + (if adding s then 1 else 0).
Lemma sum_app : forall a b, sum (a ++ b) = sum a + sum b.
Proof. intros a b. induction a as [|x a IH]; cbn [app]; rewrite ?sum_cons, ?sum_nil; lia. Qed.
Lemma unseen_add : forall v l, unseen (add v l) <= unseen l.
Proof.
  intros v l. unfold unseen. induction U as [|u us IH]; cbn [map]; rewrite ?sum_cons; [lia|].
  assert (H : mem u l = true -> mem u (add v l) = true) by (rewrite !mem_iff, in_add; auto).
  destruct (mem u (add v l)) eqn:A, (mem u l) eqn:B; lia.
Qed.
Lemma unseen_new : forall v l, In v U -> ~ In v l -> unseen (add v l) + (9 + sz v) <= unseen l.
Proof.
  intros v l I N. unfold unseen. clear Hsz. revert I. induction U as [|u us IH]; intros I; [contradiction|].
  assert (Mo : mem u l = true -> mem u (add v l) = true) by (rewrite !mem_iff, in_add; auto).
  assert (Le' : forall us, sum (map (fun u => if mem u (add v l) then 0 else 9 + sz u) us) <= sum (map (fun u => if mem u l then 0 else 9 + sz u) us)).
  { clear. induction us as [|w ws IH]; cbn [map]; rewrite ?sum_cons; [lia|].
    assert (H : mem w l = true -> mem w (add v l) = true) by (rewrite !mem_iff, in_add; auto).
    destruct (mem w (add v l)) eqn:A, (mem w l) eqn:B; lia. }
  cbn [map]. rewrite !sum_cons. destruct I as [->|I].
  - assert (A : mem v (add v l) = true) by (apply mem_iff, in_add; auto). assert (B : mem v l = false) by (apply mem_not; exact N).
    rewrite A, B. specialize (Le' us). lia.
  - specialize (IH I). destruct (mem u (add v l)) eqn:A, (mem u l) eqn:B; lia.
Qed.
Lemma told_weight : forall u o, may u o -> sum (map wt (told u o)) < 8 + sz u.
Proof. intros u o Y. destruct o as [| |ps|]; cbn; rewrite ?sum_cons, ?sum_nil; cbn; try lia. specialize (Hsz u ps Y). lia. Qed.
Lemma still_weight : forall ms, sum (map wt (still ms)) = sum (map (fun m => 1 + wm m) ms).
Proof. intros [|m ms]; cbn; rewrite ?sum_cons, ?sum_nil; lia. Qed.

Lemma handles_weight : forall s m s', main s = Draining m -> good_msg m -> (1 <= count s)%Z ->
  (adding s = true -> forall ps, length ps <= pl ps) -> handles s m s' -> phi s' < phi s.
Proof.
  intros s m s' M G C Ad H. destruct H as [u v E|u v E|u E|u E|ps qs P].
  - cbn in G. rewrite (set_port_ok _ _ G) in E. inversion E; subst. rewrite settle_eq by exact C. unfold phi. rewrite M. cbn.
    pose proof (unseen_add (with_port None u) (visited s)). destruct (count s - 1 =? 0)%Z; cbn; lia.
  - cbn in G. rewrite (set_port_ok _ _ G) in E. inversion E; subst. rewrite settle_eq by exact C. unfold phi. rewrite M. cbn.
    pose proof (unseen_add (with_port None u) (visited s)). destruct (count s - 1 =? 0)%Z; cbn; lia.
  - cbn in G. rewrite (set_port_ok _ _ G) in E. discriminate.
  - cbn in G. rewrite (set_port_ok _ _ G) in E. discriminate.
  - unfold phi. rewrite M. destruct (adding s) eqn:A; cbn; rewrite ?A.
    + rewrite app_length. rewrite <- (Permutation_length P). specialize (Ad eq_refl ps). lia.
    + lia.
Qed.

Lemma step_weight : forall k s s', inv s -> (adding s = true -> forall ps, length ps <= pl ps) ->
  (forall p, In p (stack s) -> In (site p) U) -> step cap may k s s' -> phi s' < phi s.
Proof.
  intros k s s' I Ad Su S.
  destruct S as [s u l M R|s M|s u q Q|s l1 u l2 o T Y|s l1 m ms l2 T R|s m q M Q|s M A|s m p st M St V|s m p st M St V R|s m p st s' M St V R H|s m s' M St H].
  - unfold phi. cbn. rewrite M. cbn. rewrite map_app, sum_app. cbn. rewrite !sum_cons, sum_nil. lia.
  - unfold phi. cbn. rewrite M. cbn. rewrite sum_nil. lia.
  - unfold phi. cbn. rewrite Q. cbn. rewrite !sum_cons. cbn. lia.
  - unfold phi. cbn. rewrite T. rewrite !map_app, !sum_app. cbn. rewrite !sum_cons. cbn. pose proof (told_weight u o Y). lia.
  - unfold phi. cbn. rewrite T. rewrite !map_app, !sum_app. rewrite still_weight. cbn. rewrite !sum_cons, ?sum_nil. cbn. rewrite ?sum_cons. lia.
  - unfold phi. cbn. rewrite M, Q. cbn. rewrite !sum_cons. destruct m; cbn; lia.
  - unfold phi. cbn. rewrite A. cbn. lia.
  - unfold phi. cbn. rewrite St. cbn. lia.
  - assert (In (site p) U) as Ip by (apply Su; rewrite St; left; reflexivity).
    apply mem_not in V. pose proof (unseen_new (site p) (visited s) Ip V). 
    unfold phi. cbn [main urlq tasks msgq visited stack adding set_count set_visited set_stack set_urlq].
    rewrite St, map_app, sum_app. cbn [length map]. rewrite sum_cons, sum_nil. lia.
  - apply (handles_weight s m s' M); auto; pose proof (i_count s I) as X; rewrite M in X; [|lia].
    pose proof (i_msgs s I) as Y. rewrite Forall_forall in Y. apply Y. apply draining_in. exact M.
  - apply (handles_weight s m s' M); auto; pose proof (i_count s I) as X; rewrite M in X; [|lia].
    pose proof (i_msgs s I) as Y. rewrite Forall_forall in Y. apply Y. apply draining_in. exact M.
Qed.
End Measure.

Lemma sum_perm : forall (f : url -> nat) l l', Permutation l l' -> sum (map f l) = sum (map f l').
Proof. intros f l l' P. induction P; cbn [map]; rewrite ?sum_cons; lia. Qed.

Section Returns.
Variables (cap : nat) (given : list url).
Hypothesis Hcap : (1 <= cap)%nat.

(** If every node behaves the same each time and finitely many nodes can be reached, there is
    a bound on the length of all runs. *)
Theorem c103_bounded : forall net U, given <> [] -> (forall u, reach (steady net) given u -> In u U) ->
  exists N, forall ls s, runs cap (steady net) given ls s -> (length ls <= N)%nat.
Proof.
  intros net U NE HU. set (pl := @length addr). set (sz := fun u => match net u with Answers ps => length ps | _ => 0%nat end).
  assert (Hsz : forall u ps, steady net u (Answers ps) -> (pl ps <= sz u)%nat) by (intros u ps E; unfold steady in E; unfold sz, pl; rewrite <- E; lia).
  assert (B : forall ls s order, run cap (steady net) ls (begin order) s -> inv (begin order) -> snd (steady net) given (begin order) ->
    (length ls + phi pl sz U s <= phi pl sz U (begin order))%nat /\ inv s /\ snd (steady net) given s).
  { intros ls s order R Io Do. remember (begin order) as s0 eqn:E0. induction R as [|ls s0 s1 s2 k R IH S]; [cbn; auto|].
    destruct (IH E0 Io Do) as (L & I1 & D1). pose proof (step_weight cap (steady net) pl sz U Hsz k s1 s2 I1) as W.
    split; [|split; [apply (inv_step cap (steady net) k s1 s2); auto|apply (snd_step cap (steady net) given k s1 s2); auto]].
    cbn [length]. enough (phi pl sz U s2 < phi pl sz U s1)%nat by lia. apply W; auto.
    intros p Hp. apply HU. exact (s_stack _ _ s1 D1 p Hp). }
  destruct (seeds_set given) as [set| |] eqn:Es.
  2,3: exists 0%nat; intros ls s (order & set & E & _); congruence.
  exists (phi pl sz U (begin set)). intros ls s (order & set' & E & P & R). rewrite Es in E. inversion E; subst set'. clear E.
  assert (R' : runs cap (steady net) given [] (begin order)) by (exists order, set; repeat split; auto; constructor).
  destruct (runs_facts cap (steady net) given [] _ NE R') as (I & D & _).
  destruct (B ls s order R I D) as [L _].
  assert (Eq : phi pl sz U (begin order) = phi pl sz U (begin set)).
  { unfold phi. cbn [main begin wp urlq tasks msgq visited stack adding]. rewrite (sum_perm (fun u => 10 + sz u)%nat _ _ P). reflexivity. }
  lia.
Qed.

(** Whatever the nodes answer, once the timeout has struck there is a bound on what can still
    happen before discovery returns, given by the state. *)
Theorem c103_after_timeout : forall (may : url -> outcome -> Prop) ls s, given <> [] -> runs cap may given ls s -> In Timeout ls ->
  exists N, forall ls' s', run cap may ls' s s' -> (length ls' <= N)%nat.
Proof.
  intros may ls s NE R T. destruct (runs_facts cap may given ls s NE R) as (I & D & _ & _ & order & _ & _ & Ro & Io).
  assert (Late : adding s = false /\ stack s = []).
  { clear R I D NE. remember (begin order) as s0 eqn:E0. clear E0. induction Ro as [|ls s0 s1 s2 k R IH S]; [destruct T|].
    destruct T as [->|T]; [inversion S; subst; cbn; auto|]. destruct (IH T Io) as [A B]. clear IH.
    destruct S as [s u l M R'|s M|s u q Q|s l1 u l2 o Tt Y|s l1 m ms l2 Tt R'|s m q M Q|s M Ad|s m p st M St V|s m p st M St V R'|s m p st s' M St V R' H|s m s' M St H]; cbn; auto; try congruence.
    destruct H; unfold settle; cbn; repeat (match goal with |- context [if ?b then _ else _] => destruct b eqn:? end; cbn); auto; congruence. }
  set (pl := fun _ : list addr => 0%nat). set (sz := fun _ : url => 0%nat).
  assert (Hsz : forall u ps, may u (Answers ps) -> (pl ps <= sz u)%nat) by (intros; unfold pl, sz; lia).
  exists (phi pl sz [] s). intros ls' s' R'.
  enough (X : (length ls' + phi pl sz [] s' <= phi pl sz [] s)%nat /\ inv s' /\ adding s' = false /\ stack s' = []) by lia.
  destruct Late as [A0 B0]. clear R T Ro Io D NE. induction R' as [|ls0 s0 s1 s2 k R IH S]; [cbn; auto|].
  destruct (IH I A0 B0) as (L & I1 & A & B). clear IH.
  assert (W : (phi pl sz [] s2 < phi pl sz [] s1)%nat).
  { apply (step_weight cap may pl sz [] Hsz k s1 s2 I1); auto; [congruence|]. rewrite B. intros p []. }
  split; [cbn [length]; lia|]. split; [apply (inv_step cap may k s1 s2); auto|].
  clear - S A B.
  destruct S as [s u l M R'|s M|s u q Q|s l1 u l2 o Tt Y|s l1 m ms l2 Tt R'|s m q M Q|s M Ad|s m p st M St V|s m p st M St V R'|s m p st s' M St V R' H|s m s' M St H]; cbn; auto; try congruence.
  destruct H; unfold settle; cbn; repeat (match goal with |- context [if ?b then _ else _] => destruct b eqn:? end; cbn); auto; congruence.
Qed.

(** Put together: with a finite network in which every host has an address, every run can be
    continued to one that has returned, and no run goes on for ever. *)
Theorem c103_returns : forall net U ls s, given <> [] -> (forall u, reach (steady net) given u -> In u U /\ net u <> Lost) ->
  runs cap (steady net) given ls s -> exists ls' s' l, run cap (steady net) ls' s s' /\ main s' = Done l.
Proof.
  intros net U ls s NE HU R. destruct (c103_bounded net U NE (fun u H => proj1 (HU u H))) as [N HN].
  assert (G : forall n ls s, runs cap (steady net) given ls s -> (N - length ls <= n)%nat ->
    exists ls' s' l, run cap (steady net) ls' s s' /\ main s' = Done l).
  { clear ls s R. induction n as [|n IH]; intros ls s R L.
    - destruct (c103_progress cap (steady net) given Hcap ls s NE) as [_ [[l M]|[s' S]]]; auto.
      + intros u Hu. split; [exists (net u); reflexivity|]. intros E. unfold steady in E. symmetry in E. exact (proj2 (HU u Hu) E).
      + exists [], s, l. split; [constructor|exact M].
      + exfalso. assert (R' : runs cap (steady net) given (Work :: ls) s').
        { destruct R as (o & st & A & B & C). exists o, st. repeat split; auto. econstructor; eauto. }
        specialize (HN _ _ R'). cbn in HN. lia.
    - destruct (c103_progress cap (steady net) given Hcap ls s NE) as [_ [[l M]|[s' S]]]; auto.
      + intros u Hu. split; [exists (net u); reflexivity|]. intros E. unfold steady in E. symmetry in E. exact (proj2 (HU u Hu) E).
      + exists [], s, l. split; [constructor|exact M].
      + assert (R' : runs cap (steady net) given (Work :: ls) s').
        { destruct R as (o & st & A & B & C). exists o, st. repeat split; auto. econstructor; eauto. }
        destruct (IH (Work :: ls) s' R') as (ls' & s'' & l & Rx & M); [cbn [length]; lia|].
        exists (ls' ++ [Work]), s'', l. split; [eapply run_front; eauto|exact M]. }
  exact (G _ ls s R (le_n _)).
Qed.
End Returns.

(** A seed whose host has no address: its request task panics, its answer never comes, and
    discovery never returns, not even after the timeout, whatever the other seeds are. *)
Theorem c103_unresolvable_refuted : forall cap (may : url -> outcome -> Prop) given g ls s l, In g given ->
  (forall o, may (with_port None g) o -> o = Lost) -> runs cap may given ls s -> main s <> Done l.
Proof.
  intros cap may given g ls s l Hg Hl R M. assert (NE : given <> []) by (intros ->; contradiction).
  destruct (runs_facts cap may given ls s NE R) as (I & D & Sd & _ & order & _ & So & Ro & Io).
  set (u := with_port None g) in *.
  assert (Iu : In u order) by (rewrite <- So; apply Sd; apply in_map; exact Hg).
  assert (Do : snd may given (begin order)).
  { apply snd_begin. intros v Hv. rewrite <- So in Hv. apply Sd in Hv. apply in_map_iff in Hv. destruct Hv as (h & <- & Hh). constructor. exact Hh. }
  assert (A : In u (all s)).
  { clear M R I D Sd So. remember (begin order) as s0 eqn:E0. 
    enough (In u (all s) /\ snd may given s /\ inv s) by tauto.
    induction Ro as [|ls s0 s1 s2 k R IH S].
    - split; [|auto]. subst. unfold all, flight. cbn. rewrite !app_nil_r. exact Iu.
    - destruct (IH E0 Io Do) as (A & D1 & I1). split; [|split; [apply (snd_step cap may given k s1 s2); auto|apply (inv_step cap may k s1 s2); auto]].
      destruct (step_effect cap may k s1 s2 I1 S) as [P _ _ _ _|p _ _ P _ _ _ _ _ _|m v Mm Mv P _ _ _ _ _].
      + exact (Permutation_in _ (Permutation_sym P) A).
      + apply (Permutation_in _ (Permutation_sym P)). right. exact A.
      + apply (Permutation_in _ (Permutation_sym P)) in A. destruct A as [<-|A]; [|exact A]. exfalso.
        pose proof (s_msgs _ _ s1 D1 m (draining_in s1 m Mm)) as Sm. destruct m as [w|w|ps]; cbn in Mv; inversion Mv as [Ew]; cbn in Sm; rewrite Ew in Sm.
        * destruct Sm as [ps Y]. discriminate (Hl _ Y).
        * destruct Sm as [Y|Y]; discriminate (Hl _ Y). }
  pose proof (i_count s I) as X. rewrite M in X. destruct X as (_ & X & _). rewrite X in A. exact A.
Qed.

(** A seed whose URL cannot have a port makes peer_discovery panic at once. *)
Theorem c103_portless_refuted : forall l1 u l2, portable u = false -> Forall (fun u => portable u = true) l1 ->
  seeds_set (l1 ++ u :: l2) = Panic.
Proof.
  intros l1 u l2 E F. induction F as [|v l1 Hv F IH]; cbn; unfold set_port_unwrap; [rewrite E; reflexivity|].
  rewrite Hv. cbn [bind]. rewrite IH. reflexivity.
Qed.

(** ** C104: whom discovery asks *)
Section Asked.
Variables (cap : nat) (given : list url).
Hypothesis NE : given <> [].
Definition times (u : url) (l : list url) : nat := count_occ url_eq_dec l u.

(** No node is asked that was not given or listed by a node that answered; each node is asked at
    most once, a seed at most twice; all this whatever the nodes do, before and after the timeout. *)
Theorem c104_at_most : forall (may : url -> outcome -> Prop) ls s u, runs cap may given ls s ->
  (In u (asked s) -> reach may given u) /\
  (times u (asked s) <= if mem u (map (with_port None) given) then 2 else 1)%nat.
Proof.
  intros may ls s u R. destruct (runs_facts cap may given ls s NE R) as (I & D & Sd & Nd & order & _ & So & Ro & Io). split.
  { intros Hu. apply (s_sent may given s D). unfold sent. apply in_app_iff. left. exact Hu. }
  assert (B : (times u (sent s) <= (if mem u (seeds s) then 1 else 0) + (if mem u (visited s) then 1 else 0))%nat).
  { clear R I D Sd. assert (Sq : seeds s = order) by exact So. clear So. rewrite Sq in *. remember (begin order) as s0 eqn:E0. clear Sq.
    induction Ro as [|ls s0 s1 s2 k R IH S].
    - subst. unfold sent, times. cbn. rewrite Nat.add_0_r. destruct (mem u order) eqn:E.
      + apply (proj1 (NoDup_count_occ url_eq_dec order)). exact Nd.
      + apply mem_not in E. rewrite (proj1 (count_occ_not_In url_eq_dec order u) E). lia.
    - specialize (IH E0 Io). unfold times in *. destruct (step_sent cap may k s1 s2 S) as [[P V]|(p & _ & N & P & V)].
      + rewrite (proj1 (Permutation_count_occ url_eq_dec _ _) P u).
        assert (mem u (visited s1) = true -> mem u (visited s2) = true) by (rewrite !mem_iff; apply V).
        destruct (mem u (visited s1)), (mem u (visited s2)), (mem u order); lia.
      + rewrite (proj1 (Permutation_count_occ url_eq_dec _ _) P u). rewrite V. cbn.
        assert (Mo : mem u (visited s1) = true -> mem u (add (site p) (visited s1)) = true) by (rewrite !mem_iff, in_add; auto).
        destruct (url_eq_dec (site p) u) as [<-|Nu].
        * assert (A1 : mem (site p) (visited s1) = false) by (apply mem_not; exact N).
          assert (A2 : mem (site p) (add (site p) (visited s1)) = true) by (apply mem_iff, in_add; auto). rewrite A1 in IH. rewrite A2. lia.
        * destruct (mem u (visited s1)), (mem u (add (site p) (visited s1))), (mem u order); lia. }
  unfold sent, times in *. rewrite count_occ_app in B.
  replace (mem u (map (with_port None) given)) with (mem u (seeds s)).
  - destruct (mem u (seeds s)), (mem u (visited s)); lia.
  - destruct (mem u (map (with_port None) given)) eqn:E.
    + apply mem_iff. apply Sd. apply mem_iff in E. exact E.
    + apply mem_not. intros H. apply Sd in H. apply mem_not in E. contradiction.
Qed.

(** If the timeout does not strike and nodes behave the same each time, every node that can be
    reached has been asked when discovery returns: once, unless it is a seed. *)
Theorem c104_all_asked : forall net ls s l u, (1 <= cap)%nat -> ~ In Timeout ls -> runs cap (steady net) given ls s -> main s = Done l ->
  reach (steady net) given u -> (1 <= times u (asked s))%nat /\ (~ is_seed given u -> times u (asked s) = 1%nat).
Proof.
  intros net ls s l u Hc N R M Ru.
  destruct (runs_facts cap _ given ls s NE R) as (I & D & Sd & _ & order & _ & So & Ro & Io).
  assert (Do : snd (steady net) given (begin order)).
  { apply snd_begin. intros v Hv. rewrite <- So in Hv. apply Sd in Hv. apply in_map_iff in Hv. destruct Hv as (g & <- & Hg). constructor. exact Hg. }
  destruct (cmp_run cap net given Hc ls _ s Io Do (cmp_begin net order) eq_refl N Ro) as (K & _).
  pose proof (i_count s I) as X. rewrite M in X. destruct X as (_ & Al & _). pose proof (k_done net s K _ M) as St.
  assert (W : forall v, reach (steady net) given v -> In v (visited s) \/ In v (seeds s)).
  { intros v Rv. induction Rv as [g Hg|v qs p Rv IH Y Ip].
    - right. apply Sd. apply in_map_iff. eauto.
    - unfold steady in Y. symmetry in Y. destruct (k_fin net s K v IH) as [F|F]; [rewrite Al in F; contradiction|].
      pose proof (k_active net s K v (F qs Y) qs p Y Ip) as Kn. unfold known in Kn. rewrite St in Kn. cbn in Kn.
      destruct Kn as [H|[H|[H|(rs & [] & _)]]]; auto; contradiction. }
  assert (Z : (forall v, In v (all s) -> In v (sent s)) /\ (forall v, In v (visited s) \/ In v (seeds s) -> In v (sent s))).
  { clear W St Al K M Sd D I R N Ru. assert (Q : seeds s = order) by exact So. rewrite Q. clear So Q.
    remember (begin order) as s0 eqn:E0. 
    induction Ro as [|ls s0 s1 s2 k R IH S].
    - subst. unfold sent, all, flight. cbn. rewrite !app_nil_r. split; [auto|]. intros v [[]|H]; exact H.
    - destruct (IH E0 Io Do) as [IA IV]. pose proof (inv_run cap _ _ _ _ Io R) as I1.
      assert (Mo : forall v, In v (sent s1) -> In v (sent s2)).
      { intros v Hv. destruct (step_sent cap _ k s1 s2 S) as [[P _]|(p & _ & _ & P & _)];
          apply (Permutation_in _ (Permutation_sym P)); [exact Hv|right; exact Hv]. }
      destruct (step_effect cap _ k s1 s2 I1 S) as [P _ V _ _|p Ip Np P _ V _ _ _ _ Iq|m w Mm Mv P _ V _ _ _]; rewrite V.
      + split; [intros v Hv; apply Mo, IA; exact (Permutation_in _ P Hv)|intros v Hv; apply Mo, IV; exact Hv].
      + assert (Ns : In (site p) (sent s2)).
        { unfold sent. rewrite !in_app_iff. auto. }
        split.
        * intros v Hv. apply (Permutation_in _ P) in Hv. destruct Hv as [<-|Hv]; [exact Ns|apply Mo, IA; exact Hv].
        * intros v Hv. rewrite in_add in Hv. destruct Hv as [[->|Hv]|Hv]; [exact Ns|apply Mo, IV; auto|apply Mo, IV; auto].
      + split.
        * intros v Hv. apply Mo, IA. apply (Permutation_in _ P). right. exact Hv.
        * intros v Hv. rewrite in_add in Hv. destruct Hv as [[->|Hv]|Hv]; [|apply Mo, IV; auto|apply Mo, IV; auto].
          apply Mo, IA. apply (Permutation_in _ P). left. reflexivity. }
  assert (Iu : In u (asked s)).
  { destruct Z as [_ Z]. specialize (Z u (W u Ru)). unfold sent in Z. rewrite M in Z. cbn in Z. rewrite app_nil_r in Z.
    apply in_app_iff in Z. destruct Z as [Z|Z]; [exact Z|]. exfalso.
    assert (X : In u (all s)) by (unfold all, flight; rewrite !in_app_iff; auto). rewrite Al in X. exact X. }
  apply (count_occ_In url_eq_dec) in Iu. split; [unfold times; lia|]. intros Ns.
  destruct (c104_at_most (steady net) ls s u R) as [_ L].
  assert (E : mem u (map (with_port None) given) = false) by (apply mem_not; exact Ns). rewrite E in L. unfold times in *. lia.
Qed.
End Asked.

(** *** An executable scheduler, for examples: the actions of a run, one after the other *)
Inductive act := DoSeed | DoStart | DoTake | DoAsk (i : nat) | DoTell (i : nat) | DoReceive | DoTimeout | DoDrain.
Definition handle (s : state) (m : msg) : state :=
  match m with
  | AddActive u => match set_port_unwrap None u with
                   | Ok v => settle (set_visited (add v (visited s)) (set_active (add v (active s)) s))
                   | _ => set_main Crashed s end
  | AddInactive u => match set_port_unwrap None u with Ok v => settle (set_visited (add v (visited s)) s) | _ => set_main Crashed s end
  | CheckPeers ps => set_main Waiting (if adding s then set_stack (ps ++ stack s) s else s)
  end.
Definition exec1 (cap : nat) (net : url -> outcome) (a : act) (s : state) : option state :=
  match a with
  | DoSeed => match main s with Seeding (u :: l) => if (length (urlq s) <? cap)%nat then Some (set_main (Seeding l) (set_urlq (urlq s ++ [u]) s)) else None | _ => None end
  | DoStart => match main s with Seeding [] => Some (set_main Waiting (set_count (Zlen (seeds s)) s)) | _ => None end
  | DoTake => match urlq s with u :: q => Some (set_asked (u :: asked s) (set_tasks (Asking u :: tasks s) (set_urlq q s))) | [] => None end
  | DoAsk i => match skipn i (tasks s) with
               | Asking u :: l2 => Some (set_dead (dies u (net u) ++ dead s) (set_tasks (firstn i (tasks s) ++ told u (net u) ++ l2) s))
               | _ => None end
  | DoTell i => match skipn i (tasks s) with
               | Telling m ms :: l2 => if (length (msgq s) <? cap)%nat then Some (set_msgq (msgq s ++ [m]) (set_tasks (firstn i (tasks s) ++ still ms ++ l2) s)) else None
               | _ => None end
  | DoReceive => match main s, msgq s with Waiting, m :: q => Some (set_main (Draining m) (set_msgq q s)) | _, _ => None end
  | DoTimeout => match main s with Waiting => if adding s then Some (set_stack [] (set_adding false s)) else None | _ => None end
  | DoDrain => match main s with
               | Draining m =>
                   match stack s with
                   | [] => Some (handle s m)
                   | p :: st => if mem (site p) (visited s) then Some (set_stack st s)
                                else if (length (urlq s) <? cap)%nat
                                then Some (set_count (count s + 1) (set_visited (add (site p) (visited s)) (set_stack st (set_urlq (urlq s ++ [site p]) s))))
                                else Some (handle s m)
                   end
               | _ => None end
  end.
Definition label_of (a : act) : label := match a with DoTimeout => Timeout | _ => Work end.
Fixpoint exec (cap : nat) (net : url -> outcome) (l : list act) (s : state) : option state :=
  match l with [] => Some s | a :: l => match exec1 cap net a s with Some s' => exec cap net l s' | None => None end end.
Lemma handle_handles : forall s m, handles s m (handle s m).
Proof.
  intros s [u|u|ps]; cbn.
  - destruct (set_port_unwrap None u) as [v|e|] eqn:E; [apply h_active; exact E| |apply h_active_panic; exact E].
    unfold set_port_unwrap in E. destruct (portable u); discriminate.
  - destruct (set_port_unwrap None u) as [v|e|] eqn:E; [apply h_inactive; exact E| |apply h_inactive_panic; exact E].
    unfold set_port_unwrap in E. destruct (portable u); discriminate.
  - apply h_check. apply Permutation_refl.
Qed.
Lemma exec1_step : forall cap net a s s', exec1 cap net a s = Some s' -> step cap (steady net) (label_of a) s s'.
Proof.
  intros cap net a s s' E. destruct a; cbn [exec1 label_of] in *.
  - destruct (main s) as [[|u l]| | | |] eqn:M; try discriminate. destruct (length (urlq s) <? cap)%nat eqn:L; inversion E. apply s_seed; [exact M|]. apply Nat.ltb_lt. exact L.
  - destruct (main s) as [[|u l]| | | |] eqn:M; try discriminate. inversion E. apply s_start. exact M.
  - destruct (urlq s) as [|u q] eqn:Q; inversion E. apply s_take. exact Q.
  - destruct (skipn i (tasks s)) as [|[u|m ms] l2] eqn:T; inversion E. apply s_ask; [|reflexivity]. rewrite <- T. symmetry. apply firstn_skipn.
  - destruct (skipn i (tasks s)) as [|[u|m ms] l2] eqn:T; try discriminate. destruct (length (msgq s) <? cap)%nat eqn:L; inversion E.
    apply s_tell; [|apply Nat.ltb_lt; exact L]. rewrite <- T. symmetry. apply firstn_skipn.
  - destruct (main s) eqn:M; try discriminate. destruct (msgq s) as [|m q] eqn:Q; inversion E. apply s_receive; assumption.
  - destruct (main s) eqn:M; try discriminate. destruct (adding s) eqn:A; inversion E. apply s_timeout; assumption.
  - destruct (main s) as [| |m| |] eqn:M; try discriminate. destruct (stack s) as [|p st] eqn:St.
    + inversion E. apply (s_empty _ _ s m); auto. apply handle_handles.
    + destruct (mem (site p) (visited s)) eqn:V; [inversion E; apply (s_skip _ _ s m p st); auto|].
      destruct (length (urlq s) <? cap)%nat eqn:L; inversion E.
      * apply Nat.ltb_lt in L. apply (s_push _ _ s m p st); auto.
      * apply Nat.ltb_ge in L. apply (s_full _ _ s m p st); auto. apply handle_handles.
Qed.
Lemma exec_run : forall cap net l s s', exec cap net l s = Some s' -> run cap (steady net) (rev (map label_of l)) s s'.
Proof.
  induction l as [|a l IH]; intros s s' E; cbn [exec] in E; [inversion E; constructor|].
  destruct (exec1 cap net a s) as [s1|] eqn:E1; [|discriminate]. cbn [map rev]. apply (run_front _ _ _ s s1); [apply exec1_step; exact E1|apply IH; exact E].
Qed.
Lemma exec_runs : forall cap net given set l s, seeds_set given = Ok set -> exec cap net l (begin set) = Some s ->
  runs cap (steady net) given (rev (map label_of l)) s.
Proof. intros cap net given set l s E X. exists set, set. split; [exact E|]. split; [apply Permutation_refl|apply exec_run; exact X]. Qed.

Lemma no_timeout : forall l, forallb (fun a => match a with DoTimeout => false | _ => true end) l = true -> ~ In Timeout (rev (map label_of l)).
Proof.
  intros l F H. apply in_rev in H. apply in_map_iff in H. destruct H as (a & E & I). rewrite forallb_forall in F. specialize (F a I). destruct a; discriminate.
Qed.

(** Two seeds that know each other: the second is asked twice. *)
Definition ip_url (n : Z) : url := MkUrl "http" (Some (Ip4 n)) None "/".
Definition ip_addr (n : Z) : addr := MkAddr (false, n) 9030.
Definition pair_net (u : url) : outcome := if url_eq_dec u (ip_url 1) then Answers [ip_addr 2] else Answers [ip_addr 1].

Definition twice_acts : list act :=
  [DoSeed; DoTake; DoSeed; DoTake; DoStart; DoAsk 1; DoTell 1; DoReceive; DoDrain; DoTell 1; DoReceive; DoDrain; DoTake].
Theorem c104_twice_refuted : exists ls s,
  runs 1 (steady pair_net) [ip_url 1; ip_url 2] ls s /\ ~ In Timeout ls /\ times (ip_url 2) (asked s) = 2%nat.
Proof.
  assert (X : match exec 1 pair_net twice_acts (begin [ip_url 1; ip_url 2]) with Some s => times (ip_url 2) (asked s) = 2%nat | None => False end) by (vm_compute; reflexivity).
  destruct (exec 1 pair_net twice_acts (begin [ip_url 1; ip_url 2])) as [s|] eqn:E; [|destruct X].
  exists (rev (map label_of twice_acts)), s. split; [apply (exec_runs 1 pair_net _ [ip_url 1; ip_url 2]); [vm_compute; reflexivity|exact E]|]. split; [|exact X].
  apply no_timeout. reflexivity.
Qed.

(** The number of request tasks at work at the same time is not limited by the number of
    parallel tasks asked for: with one, any number of seeds is asked at once. *)
Theorem c104_parallel_refuted : forall n, exists given ls s,
  runs 1 (steady (fun _ => InfoFails)) given ls s /\ (forall t, In t (tasks s) -> exists u, t = Asking u) /\ length (tasks s) = n.
Proof.
  intros n. set (l := map (fun k => ip_url (Z.of_nat k)) (seq 0 n)).
  assert (Nd : NoDup l).
  { apply FinFun.Injective_map_NoDup; [|apply seq_NoDup]. intros a b E. inversion E. lia. }
  assert (Es : forall l, (forall u, In u l -> exists k, u = ip_url k) -> NoDup l -> seeds_set l = Ok l).
  { clear. induction l as [|u l IH]; intros H N; [reflexivity|]. inversion N; subst. cbn.
    destruct (H u (or_introl eq_refl)) as [k ->]. rewrite IH; [|intros v Hv; apply H; right; exact Hv|assumption].
    change (set_port_unwrap None (ip_url k)) with (@Ok url (ip_url k)). cbn. unfold add. 
    assert (E : mem (ip_url k) l = false) by (apply mem_not; assumption). rewrite E. reflexivity. }
  assert (G : forall l ts asked, (forall t, In t ts -> exists u, t = Asking u) -> exists ls s,
     run 1 (steady (fun _ => InfoFails)) ls (MkState (Seeding l) (seeds (begin l)) [] ts [] 0 [] [] [] true asked []) s /\
     (forall t, In t (tasks s) -> exists u, t = Asking u) /\ length (tasks s) = (length l + length ts)%nat).
  { assert (G : forall l sd ts asked, (forall t, In t ts -> exists u, t = Asking u) -> exists ls s,
     run 1 (steady (fun _ => InfoFails)) ls (MkState (Seeding l) sd [] ts [] 0 [] [] [] true asked []) s /\
     (forall t, In t (tasks s) -> exists u, t = Asking u) /\ length (tasks s) = (length l + length ts)%nat); [|intros; apply G; auto].
    clear. induction l as [|u l IH]; intros sd ts asked H.
    - eexists. eexists. split; [apply run_nil|]. cbn. auto.
    - destruct (IH sd (Asking u :: ts) (u :: asked)) as (ls & s & R & A & L); [intros t [<-|Ht]; eauto|].
      eexists. exists s. split; [|split; [exact A|cbn in *; lia]].
      eapply run_front; [apply (s_seed _ _ _ u l); [reflexivity|cbn; lia]|]. eapply run_front; [eapply s_take; reflexivity|]. exact R. }
  destruct (G l [] []) as (ls & s & R & A & L); [intros t []|].
  exists l, ls, s. split; [|split; [exact A|]].
  - exists l, l. split; [|split; [apply Permutation_refl|exact R]]. apply Es; [|exact Nd].
    intros u Hu. apply in_map_iff in Hu. destruct Hu as (k & <- & _). eauto.
  - rewrite L. unfold l. rewrite map_length, seq_length. cbn. lia.
Qed.

(** A network of three nodes, the third of which does not answer: discovery from the first
    returns the second. *)
Definition three_net (u : url) : outcome :=
  if url_eq_dec u (ip_url 1) then Answers [ip_addr 2; ip_addr 3]
  else if url_eq_dec u (ip_url 2) then Answers [ip_addr 1] else InfoFails.
Definition three_acts : list act :=
  [DoSeed; DoTake; DoStart; DoAsk 0; DoTell 0; DoTell 0; DoReceive; DoDrain; DoReceive; DoDrain; DoDrain; DoDrain; DoTake; DoTake;
   DoAsk 1; DoAsk 0; DoTell 1; DoTell 0; DoReceive; DoDrain; DoReceive; DoDrain; DoDrain; DoTell 0; DoReceive; DoDrain].
Example c102_hyps_met : exists ls s,
  runs 2 (steady three_net) [ip_url 1] ls s /\ ~ In Timeout ls /\ main s = Done [ip_url 2].
Proof.
  assert (X : match exec 2 three_net three_acts (begin [ip_url 1]) with Some s => main s = Done [ip_url 2] | None => False end) by (vm_compute; reflexivity).
  destruct (exec 2 three_net three_acts (begin [ip_url 1])) as [s|] eqn:E; [|destruct X].
  exists (rev (map label_of three_acts)), s. split; [apply (exec_runs 2 three_net _ [ip_url 1]); [vm_compute; reflexivity|exact E]|]. split; [|exact X].
  apply no_timeout. reflexivity.
Qed.
(** ... and only three nodes can be reached there. *)
Example c103_hyps_met : [ip_url 1] <> [] /\
  (forall u, reach (steady three_net) [ip_url 1] u -> In u [ip_url 1; ip_url 2; ip_url 3] /\ three_net u <> Lost).
Proof.
  split; [discriminate|].
  assert (H : forall u, reach (steady three_net) [ip_url 1] u -> In u [ip_url 1; ip_url 2; ip_url 3]).
  { intros u R. induction R as [g [<-|[]]|u ps p R IH Y Ip]; [left; reflexivity|]. unfold steady, three_net in Y.
    destruct (url_eq_dec u (ip_url 1)); [inversion Y; subst; destruct Ip as [<-|[<-|[]]]; cbn; auto|].
    destruct (url_eq_dec u (ip_url 2)); [inversion Y; subst; destruct Ip as [<-|[]]; cbn; auto|discriminate]. }
  intros u R. split; [exact (H u R)|]. unfold three_net. destruct (url_eq_dec u (ip_url 1)); [discriminate|]. destruct (url_eq_dec u (ip_url 2)); discriminate.
Qed.
(** A host name that does not resolve, and a run after whose timeout nothing moves any more. *)
Example c103_unresolvable_met : exists ls s,
  runs 1 (steady (fun _ => Lost)) [MkUrl "http" (Some (Domain "nowhere.invalid")) None "/"] ls s /\ In Timeout ls /\
  (forall k s', ~ step 1 (steady (fun _ => Lost)) k s s') /\ main s = Waiting.
Proof.
  set (u := MkUrl "http" (Some (Domain "nowhere.invalid")) None "/").
  assert (X : exec 1 (fun _ => Lost) [DoSeed; DoTake; DoStart; DoAsk 0; DoTimeout] (begin [u]) =
     Some (MkState Waiting [u] [] [] [] 1 [] [] [] false [u] [u])) by (vm_compute; reflexivity).
  eexists. eexists. split; [apply (exec_runs 1 _ [u] [u] _ _ eq_refl X)|]. split; [cbn; tauto|]. split; [|reflexivity].
  intros k s' S. inversion S; subst; cbn in *; try discriminate; try (destruct l1; discriminate).
Qed.
Example c103_portless_met : portable (MkUrl "file" None None "/seeds.txt") = false. Proof. reflexivity. Qed.

(** ** C105: versions are compared number by number (specification) *)
From Coq Require Import DecimalString.
Definition version_text (a b c : N) : string :=
  NilZero.string_of_uint (N.to_uint a) ++ "." ++ NilZero.string_of_uint (N.to_uint b) ++ "." ++ NilZero.string_of_uint (N.to_uint c).
Definition at_least_4_0_100 (a b c : N) : Prop := (4 < a \/ a = 4 /\ (0 < b \/ b = 0 /\ 100 <= c))%N.

(** For single-digit major and minor numbers and patch numbers of three digits the check is right. *)
Theorem c105_three_digits_partial : forall a b c, (a < 10 -> b < 10 -> 100 <= c -> c < 1000 ->
  (is_at_least_version_4_0_100 (version_text a b c) = true <-> at_least_4_0_100 a b c))%N.
Proof.
  intros a b c Ha Hb Hc Hd.
  assert (T1 : forall n, (n < 10 -> NilZero.string_of_uint (N.to_uint n) = String (ascii_of_N (48 + n)) EmptyString)%N).
  { intros n H. assert (In n (map N.of_nat (seq 0 10))) by (apply in_map_iff; exists (N.to_nat n); split; [lia|apply in_seq; lia]).
    cbn in H0. repeat destruct H0 as [<-|H0]; try reflexivity. contradiction. }
  assert (T3 : exists x y z, (NilZero.string_of_uint (N.to_uint c) = String (ascii_of_N (48 + x)) (String (ascii_of_N (48 + y)) (String (ascii_of_N (48 + z)) EmptyString)) /\ 1 <= x /\ x < 10 /\ y < 10 /\ z < 10)%N).
  { assert (W : forallb (fun c => let x := (c / 100)%N in let y := (c / 10 mod 10)%N in let z := (c mod 10)%N in
       String.eqb (NilZero.string_of_uint (N.to_uint c)) (String (ascii_of_N (48 + x)) (String (ascii_of_N (48 + y)) (String (ascii_of_N (48 + z)) EmptyString))))
       (map (fun k => (100 + N.of_nat k)%N) (seq 0 900)) = true) by (vm_compute; reflexivity).
    rewrite forallb_forall in W. specialize (W c). exists (c / 100)%N, (c / 10 mod 10)%N, (c mod 10)%N. split.
    - apply String.eqb_eq. apply W. apply in_map_iff. exists (N.to_nat (c - 100)). split; [lia|apply in_seq; lia].
    - pose proof (N.mod_lt c 10). pose proof (N.mod_lt (c / 10) 10). split; [apply N.div_le_lower_bound; lia|]. split; [apply N.div_lt_upper_bound; lia|lia]. }
  destruct T3 as (x & y & z & T3 & X1 & X2 & Y & Zz).
  unfold version_text. rewrite (T1 a Ha), (T1 b Hb), T3. unfold is_at_least_version_4_0_100.
  cbn [String.append str_le].
  assert (Na : forall n, (n < 10 -> N_of_ascii (ascii_of_N (48 + n)) = 48 + n)%N) by (intros n H; apply N_ascii_embedding; lia).
  rewrite (Na a Ha), (Na b Hb), (Na x X2), (Na y Y), (Na z Zz).
  change (N_of_ascii "4") with 52%N. change (N_of_ascii "0") with 48%N. change (N_of_ascii "1") with 49%N. change (N_of_ascii ".") with 46%N.
  unfold at_least_4_0_100.
  change (46 =? 46)%N with true. cbv iota.
  destruct (52 =? 48 + a)%N eqn:E1; [|destruct (52 <? 48 + a)%N eqn:L1; split; intros; try discriminate; try reflexivity; lia].
  destruct (48 =? 48 + b)%N eqn:E2; [|destruct (48 <? 48 + b)%N eqn:L2; split; intros; try discriminate; try reflexivity; lia].
  destruct (49 =? 48 + x)%N eqn:E3; [|destruct (49 <? 48 + x)%N eqn:L3; split; intros; try discriminate; try reflexivity; lia].
  destruct (48 =? 48 + y)%N eqn:E4; [|destruct (48 <? 48 + y)%N eqn:L4; split; intros; try discriminate; try reflexivity; lia].
  destruct (48 =? 48 + z)%N eqn:E5; [|destruct (48 <? 48 + z)%N eqn:L5; split; intros; try discriminate; try reflexivity; lia].
  split; intros; [lia|reflexivity].
Qed.

(** It is wrong for others: an older node passes as new, a newer one as old. *)
Theorem c105_version_refuted :
  (is_at_least_version_4_0_100 (version_text 4 0 13) = true /\ ~ at_least_4_0_100 4 0 13) /\
  (is_at_least_version_4_0_100 (version_text 10 0 0) = false /\ at_least_4_0_100 10 0 0).
Proof. unfold at_least_4_0_100. repeat split; try (vm_compute; reflexivity); lia. Qed.
Example c105_hyps_met : version_text 4 0 103 = "4.0.103"%string /\ at_least_4_0_100 4 0 103.
Proof. unfold at_least_4_0_100. split; [vm_compute; reflexivity|lia]. Qed.

Print Assumptions c102_sound.
Print Assumptions c102_complete.
Print Assumptions c103_progress.
Print Assumptions c103_bounded.
Print Assumptions c103_after_timeout.
Print Assumptions c103_returns.
Print Assumptions c103_unresolvable_refuted.
Print Assumptions c103_portless_refuted.
Print Assumptions c104_at_most.
Print Assumptions c104_all_asked.
Print Assumptions c104_twice_refuted.
Print Assumptions c104_parallel_refuted.
Print Assumptions c105_three_digits_partial.
Print Assumptions c105_version_refuted.
