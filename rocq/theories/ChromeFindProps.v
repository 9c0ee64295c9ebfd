(** Peer discovery in a Chrome browser finds everything there is to find, over any number of
    calls: C106. *)
From Coq Require Import ZArith List Bool Lia Permutation.
From Verif Require Import Base DiscoveryModel DiscoveryProofs ChromeModel ChromeProofs ChromeProps.
Import ListNotations.
Local Open Scope list_scope.
Local Open Scope Z_scope.
Local Arguments url_eq_dec : simpl never.

Section Complete.
(** A network that does not change: each node answers each request in one way. *)
Variables (cap : nat) (max : Z) (netI : url -> iout) (netP : url -> pout).
Definition steadyI (u : url) (o : iout) : Prop := o = netI u.
Definition steadyP (u : url) (o : pout) : Prop := o = netP u.
Notation history := (history cap max steadyI steadyP).
Notation call := (call cap max steadyI steadyP).
Notation krun := (krun cap max steadyI steadyP).
Notation kstep := (kstep cap max steadyI steadyP).
Notation answers := (answers steadyI steadyP).
Notation alive := (alive steadyI steadyP).
Definition peers (w : url) : list addr := match netP w with POk ps => ps | _ => [] end.

(** A message that ends a request to node [w]. *)
Definition ends (m : kmsg) : option url :=
  match m with
  | MActive u | MInfoOk u | MInfoFail u | MInfoTimeout u | MPeersFail u | MPeersTimeout u => Some (node u)
  | MPreflight | MPeers _ => None
  end.
Definition mw (w : url) (m : kmsg) : Z := match ends m with Some v => if url_eq_dec v w then 1 else 0 | None => 0 end.
Definition aw (w : url) (r : req) : Z := if url_eq_dec (node (get_url r)) w then 1 else 0.
Definition way (s : kstate) (w : url) : Z := total (mw w) (aw w) s.
Lemma mw_nonneg w m : 0 <= mw w m.
Proof. unfold mw. destruct (ends m); [destruct (url_eq_dec _ _)|]; lia. Qed.
Lemma aw_nonneg w r : 0 <= aw w r.
Proof. unfold aw. destruct (url_eq_dec _ _); lia. Qed.
Lemma fair_mw w r ms : answers r ms -> ms <> [] -> zsum (map (mw w) ms) = aw w r.
Proof.
  intros A N. destruct A as [u o _|u o _]; destruct o; cbn [info_told peers_told map] in *; try congruence;
    rewrite ?zsum_cons, ?zsum_nil; unfold mw, aw; cbn [ends get_url]; destruct (url_eq_dec _ _); reflexivity.
Qed.
Definition heap (s : kstate) : list req := kpend s ++ kafter s.
Definition waits (h : list req) (w : url) : Prop := exists r, In r h /\ node (get_url r) = w.
Definition half (h : list req) (w : url) : Prop := exists r, In r h /\ is_peers_all r = true /\ node (get_url r) = w.

Section Given.
(** [D]: the nodes dealt with. *)
Variable D : list url.
Definition covered (s : kstate) (w : url) : Prop := In w D \/ waits (heap s) w \/ 1 <= way s w.
Definition around (s : kstate) (w : url) : Prop := Forall (fun p => covered s (site p)) (peers w).
Definition fact (m : kmsg) : Prop :=
  match m with
  | MInfoFail u | MInfoTimeout u | MPeersFail u | MPeersTimeout u => ~ alive (node u)
  | _ => True
  end.
(** The peers of a node are looked at before the node is. *)
Definition told (s : kstate) (l : list kmsg) (w : url) : Prop :=
  In (MPeers (peers w)) l \/ kmain s = KDrain (MPeers (peers w)) \/ around s w.
Definition fact_task (s : kstate) (t : ktask) : Prop :=
  match t with
  | Asks _ => True
  | Tells m ms => Forall fact (m :: ms) /\ (forall u, In (MActive u) ms -> m = MPeers (peers (node u)) /\ ms = [MActive u]) /\
      (forall u, m = MActive u -> told s (kmsgq s) (node u))
  end.
Record complete (s : kstate) : Prop := {
  co_seeds : forall w, In w (kseeds s) -> covered s w;
  co_visited : forall w, In w (kvisited s) -> In w D \/ half (heap s) w \/ 1 <= way s w;
  co_done : forall w, In w D -> ~ alive w \/ ((In w (kactive s) \/ In w (kseeds s)) /\ around s w);
  co_tasks : Forall (fact_task s) (ktasks s);
  co_facts : Forall fact (kmsgq s);
  co_order : forall l1 u l2, kmsgq s = l1 ++ MActive u :: l2 -> told s l1 (node u);
  co_main : match kmain s with KDrain m => fact m /\ (forall u, m = MActive u -> around s (node u)) | _ => True end }.
End Given.

(** A step that keeps all covered nodes covered and changes nothing else of importance. *)
Lemma around_mono D D' s s' w : (forall v, covered D s v -> covered D' s' v) -> around D s w -> around D' s' w.
Proof. intros M F. eapply Forall_impl; [|exact F]. intros p. apply M. Qed.
Lemma told_mono D s s' l l' w : (forall v, covered D s v -> covered D s' v) -> incl l l' -> (kmain s = kmain s') ->
  told D s l w -> told D s' l' w.
Proof. intros M I E [T|[T|T]]; [left; auto|right; left; congruence|right; right; eapply around_mono; eauto]. Qed.
Lemma same_covered D s s' : (forall w, way s' w = way s w) -> (forall r, In r (heap s) -> In r (heap s')) -> forall v, covered D s v -> covered D s' v.
Proof. intros W Hh v [A|[(r & I & E)|A]]; [now left|right; left; exists r; auto|right; right; now rewrite W]. Qed.
Lemma answers_shape r ms : answers r ms -> Forall fact ms /\
  (forall m ms', ms = m :: ms' -> (forall u, In (MActive u) ms' -> m = MPeers (peers (node u)) /\ ms' = [MActive u]) /\ (forall u, m <> MActive u)).
Proof.
  intros A. destruct A as [u o O|u o O]; unfold steadyI, steadyP in O.
  - assert (Na : o <> IOk -> ~ alive (node u)) by (intros N [X _]; unfold steadyI in X; congruence).
    split; [destruct o; cbn; repeat apply Forall_cons; try apply Forall_nil; cbn; auto; apply Na; discriminate|].
    intros m ms' E. destruct o; cbn in E; try discriminate; injection E as <- <-; (split; [intros v X; cbn in X; try contradiction; destruct X as [X|[]]; discriminate X|discriminate]).
  - assert (Na : (forall ps, o <> POk ps) -> ~ alive (node u)) by (intros N [_ [ps X]]; unfold steadyP in X; apply (N ps); congruence).
    split; [destruct o; cbn; repeat apply Forall_cons; try apply Forall_nil; cbn; auto; apply Na; discriminate|].
    intros m ms' E. destruct o as [ps| | | |]; cbn in E; try discriminate; injection E as <- <-; (split; [|discriminate]).
    + intros v [X|[]]. injection X as <-. unfold peers. now rewrite <- O.
    + intros v [X|[]]; discriminate X.
    + intros v [].
Qed.
Lemma pops_in h r h' : pops h r h' -> forall x, In x h <-> x = r \/ In x h'.
Proof.
  intros [P _] x. split; intros I; [apply (Permutation_in _ P) in I as [->|I]; auto|].
  apply (Permutation_in _ (Permutation_sym P)). destruct I as [->|I]; [now left|now right].
Qed.

Lemma handle_fields s m : counted max s -> kmain s = KDrain m ->
  kseeds (khandle s m) = kseeds s /\ ktasks (khandle s m) = ktasks s /\ kmsgq (khandle s m) = kmsgq s /\
  kactive (khandle s m) = (match m with MActive u => add (node u) (kactive s) | _ => kactive s end) /\
  kvisited (khandle s m) = (match m with MInfoOk _ | MPreflight | MPeers _ => kvisited s | MActive u | MInfoFail u | MPeersFail u | MInfoTimeout u | MPeersTimeout u => add (node u) (kvisited s) end) /\
  (forall r, In r (heap (khandle s m)) <-> In r (heap s) \/ match m with MInfoOk u => r = PeersAll u | MPeers ps => In r (map (fun p => Info (as_http_url p)) ps) | _ => False end).
Proof.
  intros C E. pose proof (total_drain mo (fun _ => 2) mo_nonneg ltac:(intros; lia) s m E) as O. fold (reqs_open s) in O. rewrite <- (ct_open _ _ C) in O.
  unfold heap. destruct m as [u|u|u|u|u|u| |ps]; cbn [khandle mo] in *;
  match goal with |- context [settles ?n ?t] => destruct (settles_fields n t) as (_ & _ & _ & F4 & F5 & _ & F7 & F8 & F9 & _ & _ & _ & F13 & F14); [try destruct (kadding s); cbn; lia|rewrite F4, F5, F7, F8, F9, F13, F14] end;
  try (cbn; repeat split; auto; try (intros [X|[]]; exact X); intros; rewrite in_app_iff in *; cbn in *; intuition; fail).
  destruct (kadding s); cbn; do 5 (split; [reflexivity|]); intros r; rewrite !in_app_iff; tauto.
Qed.

Definition next (D : list url) (m : kmsg) : list url :=
  match m with MActive u | MInfoFail u | MPeersFail u | MInfoTimeout u | MPeersTimeout u => node u :: D | _ => D end.
Lemma handle_complete D s m : counted max s -> kmain s = KDrain m -> complete D s -> complete (next D m) (khandle s m).
Proof.
  intros Ct E [Sd Vi Dn Ta Fa Or Ma]. rewrite E in Ma. destruct Ma as [Mf Mo].
  destruct (handle_fields s m Ct E) as (F1 & F2 & F3 & F4 & F5 & F6).
  assert (W : forall w, way (khandle s m) w = way s w - mw w m) by (intros w; apply handle_total; exact E).
  assert (DI : forall w, In w D -> In w (next D m)) by (intros w I; destruct m; cbn; auto).
  assert (Cv : forall v, covered D s v -> covered (next D m) (khandle s m) v).
  { intros v [A|[(r & I & Q)|A]]; [left; auto|right; left; exists r; split; [apply F6; now left|exact Q]|].
    unfold covered. rewrite W. unfold mw. destruct (ends m) as [x|] eqn:Ex; [|right; right; lia]. destruct (url_eq_dec x v) as [->|]; [|right; right; lia].
    destruct m as [u|u|u|u|u|u| |ps]; cbn in Ex; try discriminate; injection Ex as <-; try (left; cbn; auto; fail).
    right. left. exists (PeersAll u). split; [apply F6; now right|reflexivity]. }
  assert (Ar : forall w, around D s w -> around (next D m) (khandle s m) w) by (intros w; apply around_mono; exact Cv).
  assert (Kd : forall w, kmain s = KDrain (MPeers (peers w)) -> around (next D m) (khandle s m) w).
  { intros w Q. rewrite E in Q. injection Q as ->. apply Forall_forall. intros p Ip. right. left. exists (Info (as_http_url p)).
    split; [apply F6; right; now apply (in_map (fun p => Info (as_http_url p)))|apply node_site]. }
  assert (To : forall l w, told D s l w -> told (next D m) (khandle s m) l w).
  { intros l w [T|[T|T]]; [now left|right; right; auto|right; right; auto]. }
  constructor; rewrite ?F1, ?F2, ?F3, ?F4, ?F5.
  - intros w I. auto.
  - intros w I.
    assert (K : In w (kvisited s) -> In w (next D m) \/ half (heap (khandle s m)) w \/ 1 <= way (khandle s m) w).
    { intros J. destruct (Vi w J) as [A|[(r & I' & P & Q)|A]]; [left; auto|right; left; exists r; split; [apply F6; now left|auto]|].
      rewrite W. unfold mw. destruct (ends m) as [x|] eqn:Ex; [|right; right; lia]. destruct (url_eq_dec x w) as [->|]; [|right; right; lia].
      destruct m as [u|u|u|u|u|u| |ps]; cbn in Ex; try discriminate; injection Ex as <-; try (left; cbn; auto; fail).
      right. left. exists (PeersAll u). split; [apply F6; now right|split; reflexivity]. }
    destruct m as [u|u|u|u|u|u| |ps]; auto; apply in_add in I as [->|I]; auto; left; cbn; auto.
  - intros w I.
    assert (K : In w D -> ~ alive w \/ ((In w (match m with MActive u => add (node u) (kactive s) | _ => kactive s end) \/ In w (kseeds s)) /\ around (next D m) (khandle s m) w)).
    { intros J. destruct (Dn w J) as [A|[[A|A] B]]; [now left|right; split; [left|auto]|right; split; [now right|auto]].
      destruct m; auto. apply in_add. now right. }
    destruct m as [u|u|u|u|u|u| |ps]; cbn [next] in I; auto; destruct I as [<-|I]; auto.
    right. split; [left; apply in_add; now left|]. apply Ar, Mo. reflexivity.
  - eapply Forall_impl; [|exact Ta]. intros [r|m' ms]; cbn; [auto|]. intros (A & B & T). rewrite F3. auto.
  - exact Fa.
  - intros l1 u l2 Q. apply To, (Or _ _ _ Q).
  - destruct (handle_main m s) as [[sc ->]|[->| ->]]; exact I.
Qed.

Lemma step_complete D k s s' : counted max s -> kstep k s s' -> complete D s -> exists D', complete D' s'.
Proof.
  intros Ct S I.
  destruct S as [s r q E|s l1 r l2 ms E A|s l1 m ms l2 E|s m q E1 E2|s E A|s m r h E P W|s m r h E P W Rm L|s m r h E P W _|s m E P];
    try (exists (next D m); apply handle_complete; auto; fail); exists D.
  - assert (Wy : forall w, way (put_tasks (Asks r :: ktasks s) (put_reqq q s)) w = way s w) by (intros w; apply take_total; exact E).
    assert (Cv := fun hh => same_covered D s _ Wy hh). specialize (Cv ltac:(auto)).
    destruct I as [Sd Vi Dn Ta Fa Or Ma]. constructor; cbn; auto.
    + intros w I. rewrite Wy. auto.
    + intros w I. destruct (Dn w I) as [X|[X Y]]; auto. right. split; [exact X|eapply around_mono; eauto].
    + constructor; [exact Logic.I|]. eapply Forall_impl; [|exact Ta]. intros [r'|m' ms]; cbn; [auto|]. intros (A & B & T). split; [exact A|split; [exact B|]].
      intros u Q. eapply told_mono; [exact Cv|apply incl_refl|reflexivity|auto].
    + intros l1 u l2 Q. eapply told_mono; [exact Cv|apply incl_refl|reflexivity|eauto].
    + destruct (kmain s); auto. destruct Ma as [Mf Mo]. split; [exact Mf|]. intros u Q. eapply around_mono; eauto.
  - set (s1 := put_lost _ _).
    assert (Wy : forall w, way s1 w = way s w) by (intros w; apply (ask_total (mw w) (aw w) steadyI steadyP (fair_mw w)); assumption).
    assert (Cv := fun hh => same_covered D s s1 Wy hh). specialize (Cv ltac:(auto)). destruct (answers_shape _ _ A) as [Sf So].
    destruct I as [Sd Vi Dn Ta Fa Or Ma]. rewrite E in Ta. apply Forall_app in Ta as [T1 T2]. inversion T2 as [|? ? _ T3]; subst.
    assert (Ft : forall t, fact_task D s t -> fact_task D s1 t).
    { intros [r'|m' ms']; cbn; [auto|]. intros (X & B & T). split; [exact X|split; [exact B|]]. intros u Q. eapply told_mono; [exact Cv|apply incl_refl|reflexivity|auto]. }
    constructor; auto.
    + intros w I. rewrite Wy. auto.
    + intros w I. destruct (Dn w I) as [X|[X Y]]; auto. right. split; [exact X|eapply around_mono; eauto].
    + cbn. apply Forall_app. split; [eapply Forall_impl; eauto|]. apply Forall_app. split; [|eapply Forall_impl; eauto].
      destruct ms as [|m' ms']; [constructor|]. constructor; [|constructor]. destruct (So _ _ eq_refl) as [So1 So2]. split; [exact Sf|]. split; [exact So1|].
      intros u Q. destruct (So2 _ Q).
    + intros l3 u l4 Q. eapply told_mono; [exact Cv|apply incl_refl|reflexivity|eapply Or; exact Q].
    + cbn. destruct (kmain s); auto. destruct Ma as [Mf Mo]. split; [exact Mf|]. intros u Q. eapply around_mono; eauto.
  - set (s1 := put_msgq _ _).
    assert (Wy : forall w, way s1 w = way s w) by (intros w; apply tell_total; assumption).
    assert (Cv := fun hh => same_covered D s s1 Wy hh). specialize (Cv ltac:(auto)).
    destruct I as [Sd Vi Dn Ta Fa Or Ma]. rewrite E in Ta. apply Forall_app in Ta as [T1 T2]. inversion T2 as [|? ? G T3]; subst.
    destruct G as (G1 & G2 & G3). inversion G1 as [|? ? G4 G5]; subst.
    assert (Ft : forall t, fact_task D s t -> fact_task D s1 t).
    { intros [r'|m' ms']; cbn; [auto|]. intros (X & B & T). split; [exact X|split; [exact B|]]. intros u Q. eapply told_mono; [exact Cv| |reflexivity|apply T; exact Q].
      intros x Hx. apply in_app_iff. now left. }
    constructor; auto.
    + intros w I. rewrite Wy. auto.
    + intros w I. destruct (Dn w I) as [X|[X Y]]; auto. right. split; [exact X|eapply around_mono; eauto].
    + cbn. apply Forall_app. split; [eapply Forall_impl; eauto|]. apply Forall_app. split; [|eapply Forall_impl; eauto].
      destruct ms as [|m' ms']; [constructor|]. constructor; [|constructor]. split; [exact G5|]. split.
      * intros u I. destruct (G2 u (or_intror I)) as [_ Q]. injection Q as _ ->. destruct I.
      * intros u ->. left. cbn. apply in_app_iff. right. left. apply (G2 u (or_introl eq_refl)).
    + cbn. apply Forall_app. auto.
    + intros l3 u l4 Q. cbn in Q. destruct l4 as [|x l4] using rev_ind.
      * apply app_inj_tail in Q as [Q1 Q2]. eapply told_mono; [exact Cv| |reflexivity|apply G3; exact Q2]. rewrite Q1. apply incl_refl.
      * clear IHl4. rewrite app_comm_cons, app_assoc in Q. apply app_inj_tail in Q as [Q1 Q2]. eapply told_mono; [exact Cv|apply incl_refl|reflexivity|eapply Or; exact Q1].
    + cbn. destruct (kmain s); auto. destruct Ma as [Mf Mo]. split; [exact Mf|]. intros u Q. eapply around_mono; eauto.
  - set (s1 := put_main _ _).
    assert (Wy : forall w, way s1 w = way s w) by (intros w; apply receive_total; assumption).
    assert (Cv := fun hh => same_covered D s s1 Wy hh). specialize (Cv ltac:(auto)).
    destruct I as [Sd Vi Dn Ta Fa Or Ma]. rewrite E2 in Fa. inversion Fa as [|? ? Fm Fq]; subst.
    assert (To : forall l w, told D s (m :: l) w -> told D s1 l w).
    { intros l w [[T|T]|[T|T]]; [right; left; cbn; now rewrite T|left; exact T|congruence|right; right; eapply around_mono; eauto]. }
    constructor; auto.
    + intros w I. rewrite Wy. auto.
    + intros w I. destruct (Dn w I) as [X|[X Y]]; auto. right. split; [exact X|eapply around_mono; eauto].
    + cbn. eapply Forall_impl; [|exact Ta]. intros [r'|m' ms']; cbn; [auto|]. intros (X & B & T). split; [exact X|split; [exact B|]].
      intros u Q. apply To. rewrite <- E2. auto.
    + intros l1 u l2 Q. cbn in Q. subst q. apply To. apply (Or (m :: l1) u l2). exact E2.
    + cbn. split; [exact Fm|]. intros u ->. destruct (Or [] u q E2) as [[]|[T|T]]; [congruence|eapply around_mono; eauto].
  - set (s1 := put_after _ _).
    assert (Hp : forall r, In r (heap s) -> In r (heap s1)) by (intros r J; exact J).
    assert (Cv := same_covered D s s1 (fun w => eq_refl) Hp).
    destruct I as [Sd Vi Dn Ta Fa Or Ma]. constructor; auto.
  - set (s1 := put_pend h s). unfold wanted in W. apply Bool.orb_false_iff in W as [W1 W2]. apply Bool.negb_false_iff in W2.
    destruct I as [Sd Vi Dn Ta Fa Or Ma].
    assert (Iv : In (node (get_url r)) (kvisited s)). { destruct (in_dec url_eq_dec (node (get_url r)) (kvisited s)) as [Y|Y]; [exact Y|]. apply mem_not in Y. congruence. }
    assert (Hf : forall x, half (heap s) x -> half (heap s1) x).
    { intros x (r' & I & Q1 & Q2). exists r'. split; [|auto]. unfold heap in *. cbn. apply in_app_iff in I as [I|I]; apply in_app_iff; [|now right].
      apply (pops_in _ _ _ P) in I as [->|I]; [congruence|now left]. }
    assert (Cv : forall v, covered D s v -> covered D s1 v).
    { intros v [A|[(r' & I & Q)|A]]; [now left| |right; right; exact A].
      unfold heap in I. apply in_app_iff in I as [I|I]; [apply (pops_in _ _ _ P) in I as [->|I]|].
      - subst v. destruct (Vi _ Iv) as [A|[A|A]]; [now left| |right; right; exact A]. apply Hf in A as (r' & A & _ & B). right. left. exists r'. auto.
      - right. left. exists r'. split; [apply in_app_iff; now left|exact Q].
      - right. left. exists r'. split; [apply in_app_iff; now right|exact Q]. }
    assert (Ft : forall t, fact_task D s t -> fact_task D s1 t).
    { intros [r'|m' ms']; cbn; [auto|]. intros (X & B & T). split; [exact X|split; [exact B|]].
      intros u Q. eapply told_mono; [exact Cv|apply incl_refl|reflexivity|auto]. }
    constructor; auto.
    + intros w I. destruct (Vi w I) as [X|[X|X]]; auto.
    + intros w I. destruct (Dn w I) as [X|[X Y]]; auto. right. split; [exact X|eapply around_mono; eauto].
    + eapply Forall_impl; eauto.
    + intros l3 u l4 Q. eapply told_mono; [exact Cv|apply incl_refl|reflexivity|eapply Or; exact Q].
    + cbn. destruct (kmain s); auto. destruct Ma as [Mf Mo]. split; [exact Mf|]. intros u Q. eapply around_mono; eauto.
  - set (s1 := put_sent _ _).
    assert (Wy : forall w, way s1 w = way s w + aw w r).
    { intros w. unfold way, total, s1. cbn [put_sent put_visited put_count put_open put_pend put_reqq kreqq ktasks kmsgq kmain klost]. rewrite map_app, zsum_app. cbn [map]. rewrite zsum_cons, zsum_nil. lia. }
    assert (Wr : 1 <= way s1 (node (get_url r))).
    { rewrite Wy. unfold aw. destruct (url_eq_dec _ _); [|congruence]. destruct (total_parts (mw (node (get_url r))) (aw (node (get_url r))) (mw_nonneg _) (aw_nonneg _) s) as (_ & _ & _ & _ & _ & T). fold (way s (node (get_url r))) in T. lia. }
    assert (Wm : forall w, 1 <= way s w -> 1 <= way s1 w) by (intros w; rewrite Wy; pose proof (aw_nonneg w r); lia).
    destruct I as [Sd Vi Dn Ta Fa Or Ma].
    assert (Cv : forall v, covered D s v -> covered D s1 v).
    { intros v [A|[(r' & I & Q)|A]]; [now left| |right; right; auto].
      unfold heap in I. apply in_app_iff in I as [I|I]; [apply (pops_in _ _ _ P) in I as [->|I]|].
      - subst v. right. right. exact Wr.
      - right. left. exists r'. split; [apply in_app_iff; now left|exact Q].
      - right. left. exists r'. split; [apply in_app_iff; now right|exact Q]. }
    assert (Ft : forall t, fact_task D s t -> fact_task D s1 t).
    { intros [r'|m' ms']; cbn; [auto|]. intros (X & B & T). split; [exact X|split; [exact B|]].
      intros u Q. eapply told_mono; [exact Cv|apply incl_refl|reflexivity|auto]. }
    constructor; auto.
    + intros w I. cbn in I. apply in_add in I as [->|I]; [right; right; exact Wr|]. destruct (Vi w I) as [X|[(r' & X & Q1 & Q2)|X]]; auto.
      unfold heap in X. apply in_app_iff in X as [X|X]; [apply (pops_in _ _ _ P) in X as [->|X]|].
      * subst w. right. right. exact Wr.
      * right. left. exists r'. split; [apply in_app_iff; now left|auto].
      * right. left. exists r'. split; [apply in_app_iff; now right|auto].
    + intros w I. destruct (Dn w I) as [X|[X Y]]; auto. right. split; [exact X|eapply around_mono; eauto].
    + eapply Forall_impl; eauto.
    + intros l3 u l4 Q. eapply told_mono; [exact Cv|apply incl_refl|reflexivity|eapply Or; exact Q].
    + cbn. destruct (kmain s); auto. destruct Ma as [Mf Mo]. split; [exact Mf|]. intros u Q. eapply around_mono; eauto.
Qed.
Lemma run_complete D ls s s' : krun ls s s' -> counted max s -> complete D s -> exists D', complete D' s'.
Proof.
  induction 1 as [|ls s s1 s2 k R IH S]; [eauto|]. intros C I. destruct (IH C I) as [D1 I1].
  eapply step_complete; [eapply run_counted; eauto|exact S|exact I1].
Qed.

(** Between calls. *)
Definition complete_scan (D : list url) (sc : scan) : Prop :=
  (forall w, In w (sc_seeds sc) -> In w D \/ waits (sc_pending sc) w) /\ (forall w, In w (sc_visited sc) -> In w D) /\
  (forall w, In w D -> ~ alive w \/ ((In w (sc_active sc) \/ In w (sc_seeds sc)) /\ Forall (fun p => In (site p) D \/ waits (sc_pending sc) (site p)) (peers w))).
Lemma start_complete D t sc s : complete_scan D sc -> starts t sc (Ok s) -> complete D s.
Proof.
  intros (A & B & C) S. inversion S as [| |r h T Pp E]; subst. set (s := MkK _ _ _ _ _ _ _ _ _ _ _ _ _ _).
  assert (Cv : forall w, In w D \/ waits (sc_pending sc) w -> covered D s w).
  { intros w [I|(r' & I & Q)]; [now left|]. apply (pops_in _ _ _ Pp) in I as [->|I].
    - right. right. unfold way, total. cbn. unfold aw. destruct (url_eq_dec _ _); [|congruence]. rewrite ?zsum_cons, ?zsum_nil. lia.
    - right. left. exists r'. split; [apply in_app_iff; now left|exact Q]. }
  constructor; cbn; auto.
  - intros w I. destruct (C w I) as [X|[X Y]]; [now left|]. right. split; [exact X|]. eapply Forall_impl; [|exact Y]. intros p. apply Cv.
  - intros l1 u l2 Q. destruct l1; discriminate.
Qed.
Lemma way_count s w : way s w <= nodes_open s.
Proof.
  assert (M : forall m, mw w m <= mc m) by (intros m; unfold mw; destruct m; cbn; try destruct (url_eq_dec _ _); lia).
  assert (R : forall r, aw w r <= 1) by (intros r; unfold aw; destruct (url_eq_dec _ _); lia).
  assert (Lm : forall l, zsum (map (mw w) l) <= zsum (map mc l)).
  { induction l as [|m l IH]; [reflexivity|]. cbn [map]. rewrite !zsum_cons. specialize (M m). lia. }
  assert (Lr : forall l, zsum (map (aw w) l) <= zsum (map (fun _ : req => 1) l)).
  { induction l as [|r l IH]; [reflexivity|]. cbn [map]. rewrite !zsum_cons. specialize (R r). lia. }
  assert (Lt : forall l, zsum (map (tload (mw w) (aw w)) l) <= zsum (map (tload mc (fun _ => 1)) l)).
  { induction l as [|[r|m ms] l IH]; [reflexivity| |]; cbn [map]; rewrite !zsum_cons; cbn [tload]; [specialize (R r)|specialize (M m); specialize (Lm ms)]; lia. }
  unfold way, nodes_open, total. specialize (Lr (kreqq s)) as L1. specialize (Lr (klost s)) as L2. specialize (Lt (ktasks s)) as L3. specialize (Lm (kmsgq s)) as L4.
  assert (ploadm (mw w) (kmain s) <= ploadm mc (kmain s)) by (destruct (kmain s); cbn; try lia; apply M). lia.
Qed.
Lemma done_complete D s sc : counted max s -> complete D s -> kmain s = KDone sc -> complete_scan D sc.
Proof.
  intros C I E. pose proof (done_plain _ _ _ C E) as P. destruct (ct_done _ _ C _ E) as (Z & Pe & ->). rewrite (ct_count _ _ C) in Z.
  pose proof (pa_nonneg (kpend s)). pose proof (pa_nonneg (kafter s)).
  assert (W : forall w, ~ 1 <= way s w) by (intros w; pose proof (way_count s w); lia).
  destruct I as [Sd Vi Dn _ _ _ _]. unfold covered, heap in *. rewrite Pe in *. cbn [app] in *.
  assert (Cv : forall w, covered D s w -> In w D \/ waits (kafter s) w).
  { intros w [X|[X|X]]; auto; [unfold heap in X; rewrite Pe in X; auto|destruct (W w X)]. }
  split; [|split]; cbn.
  - intros w I. destruct (Sd w I) as [X|[X|X]]; auto. destruct (W w X).
  - intros w I. destruct (Vi w I) as [X|[(r & X & Q & _)|X]]; [exact X| |destruct (W w X)].
    unfold plain_scan in P. cbn in P. rewrite Forall_forall in P. rewrite (P r X) in Q. discriminate.
  - intros w I. destruct (Dn w I) as [X|[X Y]]; [now left|]. right. split.
    + destruct (in_dec url_eq_dec w (kseeds s)) as [J|J]; [now right|]. left. destruct X as [X|X]; [|contradiction]. apply filter_In. split; [exact X|].
      apply Bool.negb_true_iff, mem_not. exact J.
    + eapply Forall_impl; [|exact Y]. intros p. apply Cv.
Qed.
Variable given : list url.
Lemma history_complete sc : history given sc -> exists D, complete_scan D sc.
Proof.
  induction 1 as [sc E|sc t ls s sc' Hh [D IH] Ca E].
  - exists []. unfold scan_new in E. destruct (seeds_set given) as [l| |] eqn:Q; try discriminate. injection E as <-. split; [|split]; cbn; try contradiction.
    intros w I. right. exists (Info w). split; [now apply in_map|]. apply (seeds_set_in _ _ Q) in I as (v & _ & ->). reflexivity.
  - destruct Ca as (s0 & S & R). assert (C0 : counted max s0) by (eapply start_counted; [exact (history_plain _ _ _ _ _ _ Hh)|exact S]).
    destruct (run_complete _ _ _ _ R C0 (start_complete _ _ _ _ IH S)) as [D' I']. exists D'.
    eapply done_complete; [eapply run_counted; eauto|exact I'|exact E].
Qed.
(** When no request is left over, every node that is known and answers has been found, whatever
    the interleaving and however many calls it took. *)
Theorem c106_complete : forall sc u, history given sc -> sc_pending sc = [] ->
  known steadyI steadyP given u -> alive u -> ~ In u (map node given) -> In u (sc_active sc).
Proof.
  intros sc u Hh Pe K A N. destruct (history_complete sc Hh) as (D & Sd & Vi & Dn). pose proof (history_seeds _ _ _ _ _ _ Hh) as Sg.
  assert (Nw : forall w, ~ waits (sc_pending sc) w) by (rewrite Pe; intros w (r & [] & _)).
  assert (I : In u D).
  { clear A N. induction K as [v I|v ps p K IH Ai Ap I].
    - destruct (Sd (node v)) as [X|X]; [apply (seeds_set_in _ _ Sg); eauto|exact X|destruct (Nw _ X)].
    - destruct (Dn v IH) as [X|[_ X]]; [destruct X; split; [exact Ai|eauto]|]. rewrite Forall_forall in X.
      destruct (X p) as [Y|Y]; [|exact Y|destruct (Nw _ Y)]. unfold peers. unfold steadyP in Ap. rewrite <- Ap. exact I. }
  destruct (Dn u I) as [X|[[X|X] _]]; [contradiction|exact X|]. destruct N. apply (seeds_set_in _ _ Sg) in X as (v & X & ->). now apply in_map.
Qed.
End Complete.
