(** Peer discovery in a Chrome browser: C106, C107 and C108. *)
From Coq Require Import ZArith List Bool Lia Permutation.
From Verif Require Import Base DiscoveryModel DiscoveryProofs ChromeModel ChromeProofs.
Import ListNotations.
Local Open Scope list_scope.
Local Open Scope Z_scope.

Section Sound.
Variables (cap : nat) (max : Z) (mayI : url -> iout -> Prop) (mayP : url -> pout -> Prop).
Notation history := (history cap max mayI mayP).
Notation call := (call cap max mayI mayP).
Notation krun := (krun cap max mayI mayP).
Notation kstep := (kstep cap max mayI mayP).
Notation answers := (answers mayI mayP).
Variable given : list url.

(** The nodes that can be known: seeds, and what nodes that answered have listed. *)
Inductive known : url -> Prop :=
| kn_seed u : In u given -> known (node u)
| kn_peer u ps p : known u -> mayI u IOk -> mayP u (POk ps) -> In p ps -> known (site p).
Definition alive (u : url) : Prop := mayI u IOk /\ exists ps, mayP u (POk ps).

Definition good_req (r : req) : Prop :=
  match r with Info u => known (node u) | PeersAll u => known (node u) /\ mayI (node u) IOk end.
Definition good_kmsg (m : kmsg) : Prop :=
  match m with
  | MActive u => known (node u) /\ alive (node u)
  | MInfoOk u => known (node u) /\ mayI (node u) IOk
  | MPeers ps => forall p, In p ps -> known (site p)
  | _ => True
  end.
Definition good_task (t : ktask) : Prop := match t with Asks r => good_req r | Tells m ms => good_kmsg m /\ Forall good_kmsg ms end.
Record sound (s : kstate) : Prop := {
  so_reqq : Forall good_req (kreqq s);
  so_tasks : Forall good_task (ktasks s);
  so_msgq : Forall good_kmsg (kmsgq s);
  so_main : match kmain s with KDrain m => good_kmsg m | KDone sc => sc = result s | _ => True end;
  so_active : Forall (fun u => known u /\ alive u) (kactive s);
  so_pend : Forall good_req (kpend s);
  so_after : Forall good_req (kafter s) }.
Lemma rest_good ms : Forall good_kmsg ms -> Forall good_task (rest_of ms).
Proof. intros F. destruct F; cbn; [constructor|]. apply Forall_cons; [split; assumption|apply Forall_nil]. Qed.
Lemma answers_good r ms : good_req r -> answers r ms -> Forall good_kmsg ms.
Proof.
  intros G A. destruct A as [u o M|u o M].
  - destruct o; cbn in *; repeat apply Forall_cons; try apply Forall_nil; cbn; auto.
  - destruct G as [K I]. destruct o as [ps| | | |]; cbn; repeat apply Forall_cons; try apply Forall_nil; cbn; auto.
    + intros p Ip. eapply kn_peer; eauto.
    + split; [exact K|]. split; [exact I|]. exists ps. exact M.
Qed.
Lemma pops_good h r h' : pops h r h' -> Forall good_req h -> good_req r /\ Forall good_req h'.
Proof. intros [P _] F. rewrite P in F. now inversion F. Qed.
Lemma settles_sound n s : n <= kopen s -> (match kmain s with KDrain m => True | _ => False end) -> 
  Forall good_req (kreqq s) -> Forall good_task (ktasks s) -> Forall good_kmsg (kmsgq s) ->
  Forall (fun u => known u /\ alive u) (kactive s) -> Forall good_req (kpend s) -> Forall good_req (kafter s) -> sound (settles n s).
Proof.
  intros L _ A B C D E F. destruct (settles_fields n s L) as (F1 & F2 & F3 & F4 & F5 & F6 & F7 & F8 & F9 & F10 & F11 & F12 & F13 & F14).
  constructor; rewrite ?F4, ?F5, ?F8, ?F12, ?F13, ?F14; auto.
  destruct (kmain (settles n s)) eqn:Q; auto.
  - unfold settles in Q. destruct (_ <? _); [discriminate|]. cbv zeta in Q. match type of Q with context [if ?b then _ else _] => destruct b end; discriminate.
  - now apply settles_done in Q.
Qed.
Lemma forall_add (P : url -> Prop) u l : P u -> Forall P l -> Forall P (add u l).
Proof. intros U F. unfold add. destruct (mem u l); auto. Qed.
Lemma node_site p : node (as_http_url p) = site p.
Proof. reflexivity. Qed.
Lemma step_sound k s s' : counted max s -> kstep k s s' -> sound s -> sound s'.
Proof.
  intros C S I.
  assert (HS : forall m, kmain s = KDrain m -> sound (khandle s m)).
  { intros m E. pose proof (total_drain mo (fun _ => 2) mo_nonneg ltac:(intros; lia) s m E) as D. fold (reqs_open s) in D. rewrite <- (ct_open _ _ C) in D.
    destruct I as [R T Q M A P F]. rewrite E in M.
    destruct m as [u|u|u|u|u|u| |ps]; cbn [khandle mo] in *; apply settles_sound; cbn; try match goal with |- context [kadding s] => destruct (kadding s); cbn end; rewrite ?E; auto.
    - now apply forall_add.
    - apply Forall_app. split; [|assumption]. apply Forall_map, Forall_forall. intros p Ip. cbn. rewrite node_site. auto.
    - apply Forall_app. split; [|assumption]. apply Forall_map, Forall_forall. intros p Ip. cbn. rewrite node_site. auto. }
  destruct S as [s r q E|s l1 r l2 ms E A|s l1 m ms l2 E|s m q E1 E2|s E A|s m r h E P W|s m r h E P W R L|s m r h E P W _|s m E P]; auto.
  - destruct I as [R T Q M A P F]. rewrite E in R. inversion R. constructor; cbn; auto.
  - destruct I as [R T Q M Ac P F]. rewrite E in T. apply Forall_app in T as [T1 T2]. inversion T2 as [|? ? G T3]; subst.
    constructor; cbn; auto. apply Forall_app. split; [assumption|]. apply Forall_app. split; [|assumption].
    apply rest_good. eapply answers_good; eauto.
  - destruct I as [R T Q M Ac P F]. rewrite E in T. apply Forall_app in T as [T1 T2]. inversion T2 as [|? ? G T3]; subst. destruct G as [G1 G2].
    constructor; cbn; auto.
    + apply Forall_app. split; [assumption|]. apply Forall_app. split; [now apply rest_good|assumption].
    + apply Forall_app. auto.
  - destruct I as [R T Q M Ac P F]. rewrite E2 in Q. inversion Q. constructor; cbn; auto.
  - destruct I as [R T Q M Ac P F]. constructor; cbn; auto; [now rewrite E|]. apply Forall_app. auto.
  - destruct I as [R T Q M Ac Pe F]. apply (pops_good _ _ _ P) in Pe as [_ Pe]. constructor; cbn; auto.
  - destruct I as [R' T Q M Ac Pe F]. apply (pops_good _ _ _ P) in Pe as [G Pe]. constructor; cbn; auto.
    + apply Forall_app. auto.
    + rewrite E in *. exact M.
Qed.
Definition good_scan (sc : scan) : Prop :=
  Forall (fun u => known u /\ alive u) (sc_active sc) /\ Forall good_req (sc_pending sc).
Lemma seeds_set_in l set : seeds_set l = Ok set -> forall u, In u set <-> exists v, In v l /\ u = node v.
Proof.
  revert set. induction l as [|g l IH]; intros set E; cbn in E.
  - injection E as <-. split; [intros []|intros (v & [] & _)].
  - destruct (set_port_unwrap None g) as [v| |] eqn:P; try discriminate. cbn in E. destruct (seeds_set l) as [r| |] eqn:R; try discriminate.
    cbn in E. injection E as <-. unfold set_port_unwrap in P. destruct (portable g); [|discriminate]. injection P as <-.
    intros u. rewrite in_add, (IH r eq_refl). split.
    + intros [->|(v & I & ->)]; [exists g; split; [now left|reflexivity]|exists v; split; [now right|reflexivity]].
    + intros (v & [->|I] & ->); [now left|right; eauto].
Qed.
Lemma new_good sc : scan_new given = Ok sc -> good_scan sc.
Proof.
  unfold scan_new. destruct (seeds_set given) as [l| |] eqn:E; try discriminate. intros Q. injection Q as <-.
  split; cbn; [constructor|]. apply Forall_map, Forall_forall. intros u I. cbn. apply (seeds_set_in _ _ E) in I as (v & I & ->).
  exact (kn_seed v I).
Qed.
Lemma start_sound t sc s : good_scan sc -> starts t sc (Ok s) -> sound s.
Proof.
  intros [A P] S. inversion S as [| |r h T Pp E]; subst.
  match goal with X : pops _ _ _ |- _ => destruct (pops_good _ _ _ X P) as [G1 P1] end. constructor; cbn; auto.
Qed.
Lemma run_sound ls s s' : krun ls s s' -> counted max s -> sound s -> sound s'.
Proof.
  induction 1 as [|ls s s1 s2 k R IH S]; [auto|]. intros C I. eapply step_sound; [eapply run_counted; eauto|exact S|auto].
Qed.
Lemma history_good sc : history given sc -> good_scan sc.
Proof.
  induction 1 as [sc E|sc t ls s sc' Hh IH Ca E]; [now apply new_good|].
  pose proof (history_plain _ _ _ _ _ _ Hh) as P. destruct Ca as (s0 & S & R).
  pose proof (start_counted max _ _ _ P S) as C. pose proof (run_sound _ _ _ R C (start_sound _ _ _ IH S)) as [_ _ _ M A _ F].
  rewrite E in M. subst sc'. split; cbn; [|exact F]. apply Forall_forall. intros u I. apply filter_In in I as [I _].
  rewrite Forall_forall in A. auto.
Qed.
Lemma history_seeds sc : history given sc -> seeds_set given = Ok (sc_seeds sc).
Proof.
  assert (K : forall ls s s', krun ls s s' -> kseeds s' = kseeds s).
  { induction 1 as [|ls s s1 s2 k R IH S]; [reflexivity|]. rewrite <- IH.
    assert (HS : forall m, kseeds (khandle s1 m) = kseeds s1).
    { assert (K : forall n t, kseeds (settles n t) = kseeds t).
      { intros n t. unfold settles. destruct (kopen t <? n); [reflexivity|]. cbv zeta. match goal with |- context [if ?b then _ else _] => destruct b end; reflexivity. }
      intros m. destruct m; cbn [khandle]; rewrite K; try reflexivity. destruct (kadding s1); reflexivity. }
    destruct S; auto. }
  induction 1 as [sc E|sc t ls s sc' Hh IH (s0 & S & R) E].
  - unfold scan_new in E. destruct (seeds_set given) as [l| |] eqn:Q; try discriminate. injection E as <-. reflexivity.
  - assert (C : counted max s) by (eapply run_counted; [exact R|eapply start_counted; [eapply history_plain; eauto|exact S]]).
    destruct (ct_done _ _ C _ E) as (_ & _ & ->). cbn. rewrite (K _ _ _ R), IH. inversion S. reflexivity.
Qed.

(** Whatever is found, in one call or several, is a node other than the seeds that was known
    and answered both requests. *)
Theorem c106_sound : forall sc u, history given sc -> In u (sc_active sc) ->
  known u /\ alive u /\ ~ In u (map node given).
Proof.
  intros sc u Hh I. destruct (history_good sc Hh) as [A _]. rewrite Forall_forall in A. destruct (A u I) as [K L].
  split; [exact K|]. split; [exact L|]. intros J. apply in_map_iff in J as (v & <- & J).
  inversion Hh as [sc0 E|sc0 t ls s sc1 H0 (s0 & S & R) E]; subst.
  - unfold scan_new in E. destruct (seeds_set given); try discriminate. injection E as <-. destruct I.
  - assert (C : counted max s) by (eapply run_counted; [exact R|eapply start_counted; [eapply history_plain; eauto|exact S]]).
    pose proof (history_seeds _ Hh) as Sd. destruct (ct_done _ _ C _ E) as (_ & _ & ->). cbn in *. apply filter_In in I as [_ I].
    apply Bool.negb_true_iff in I. apply mem_not in I. apply I. apply (seeds_set_in _ _ Sd). eauto.
Qed.

(** Nodes found by an earlier call are kept. *)
Theorem c106_kept : forall sc t ls s sc' u, history given sc -> call t sc ls s -> kmain s = KDone sc' ->
  In u (sc_active sc) -> In u (sc_active sc').
Proof.
  intros sc t ls s sc' u Hh Ca E I. pose proof (c106_sound _ _ Hh I) as (_ & _ & N).
  pose proof (hi_next _ _ _ _ _ _ _ _ _ _ Hh Ca E) as Hh'. pose proof (history_seeds _ Hh') as Sd'.
  destruct Ca as (s0 & S & R).
  assert (C0 : counted max s0) by (eapply start_counted; [exact (history_plain _ _ _ _ _ _ Hh)|exact S]).
  assert (K : forall ls s s', krun ls s s' -> In u (kactive s) -> In u (kactive s')).
  { clear. induction 1 as [|ls s s1 s2 k R IH S]; [auto|]. intros I. apply IH in I.
    assert (HS : forall m, In u (kactive (khandle s1 m))).
    { assert (K : forall n t, kactive (settles n t) = kactive t).
      { intros n t. unfold settles. destruct (kopen t <? n); [reflexivity|]. cbv zeta. match goal with |- context [if ?b then _ else _] => destruct b end; reflexivity. }
      intros m. destruct m; cbn [khandle]; rewrite K; cbn; try assumption; [|destruct (kadding s1); assumption].
      apply in_add. now right. }
    destruct S; auto. }
  assert (C : counted max s) by (eapply run_counted; eauto).
  destruct (ct_done _ _ C _ E) as (_ & _ & ->). cbn in *. apply filter_In. split.
  - apply (K _ _ _ R). inversion S. exact I.
  - apply Bool.negb_true_iff, mem_not. intros J. apply N. apply (seeds_set_in _ _ Sd') in J as (v & J & ->). now apply in_map.
Qed.

(** The counters never go below zero, so no call panics. *)
Theorem c106_no_panic : forall sc t ls s, history given sc -> call t sc ls s -> kmain s <> KCrash.
Proof. intros sc t ls s Hh Ca. eapply ct_crash, call_counted; [eapply history_plain; eauto|exact Ca]. Qed.
End Sound.

(** ** Does a call return? *)
Section Returns.
Variables (cap : nat) (max : Z) (mayI : url -> iout -> Prop) (mayP : url -> pout -> Prop).
Notation history := (history cap max mayI mayP).
Notation call := (call cap max mayI mayP).
Notation krun := (krun cap max mayI mayP).
Notation kstep := (kstep cap max mayI mayP).
Variable given : list url.

(** A message that waits is handled; a heap that is not empty has a first element. *)
Lemma pops_some r h : exists r' h', pops (r :: h) r' h'.
Proof.
  destruct (Forall_Exists_dec (fun x => is_peers_all x = false) (fun x => Bool.bool_dec _ _) (r :: h)) as [F|F].
  - exists r, h. split; [reflexivity|auto].
  - apply Exists_exists in F as (x & I & N). apply in_split in I as (l1 & l2 & E). exists x, (l1 ++ l2).
    split; [rewrite E; symmetry; apply Permutation_middle|]. intros Q. contradiction.
Qed.
Lemma drain_steps s m : kmain s = KDrain m -> exists s', kstep Work s s'.
Proof.
  intros E. destruct (kpend s) as [|r0 h0] eqn:P.
  - eexists. eapply k_empty; eauto.
  - destruct (pops_some r0 h0) as (r & h & Q). rewrite <- P in Q. destruct (wanted s r) eqn:W.
    + destruct (room max s) eqn:R; [destruct (Nat.lt_ge_cases (length (kreqq s)) cap)|].
      * eexists. eapply k_push; eauto.
      * eexists. eapply k_stop; eauto.
      * eexists. eapply k_stop; eauto.
    + eexists. eapply k_skip; eauto.
Qed.
(** Before the timeout strikes, the main task only waits when there is something to wait for. *)
Record watchful (s : kstate) : Prop := {
  wa_wait : kmain s = KWait -> kadding s = true -> kcount s = 0 -> kpend s <> [] }.
Lemma settles_watchful n s : n <= kopen s -> watchful (settles n s).
Proof.
  intros L. constructor. intros M A Z P. destruct (settles_fields n s L) as (_ & F2 & _ & F4 & _). rewrite F2 in Z. rewrite F4 in P.
  unfold settles in M. destruct (Z.ltb_spec (kopen s) n); [lia|]. cbn in M. rewrite Z, P in M. discriminate M.
Qed.
Lemma handle_watchful s m : counted max s -> kmain s = KDrain m -> watchful (khandle s m).
Proof.
  intros C E. pose proof (total_drain mo (fun _ => 2) mo_nonneg ltac:(intros; lia) s m E) as D. fold (reqs_open s) in D.
  rewrite <- (ct_open _ _ C) in D. destruct m; cbn [khandle mo] in *; apply settles_watchful; cbn; auto. destruct (kadding s); auto.
Qed.
Lemma step_watchful k s s' : counted max s -> kstep k s s' -> watchful s -> watchful s'.
Proof.
  intros C S [W]. destruct S; try (constructor; cbn; auto; congruence); try (now apply handle_watchful).
Qed.
Lemma call_watchful t sc ls s : plain_scan sc -> call t sc ls s -> watchful s.
Proof.
  intros P (s0 & S & R). pose proof (start_counted max _ _ _ P S) as C.
  assert (W : watchful s0) by (inversion S; constructor; cbn; discriminate).
  revert C W. induction R as [|ls s s1 s2 k R IH St]; [auto|]. intros C W. eapply step_watchful; [eapply run_counted; eauto|exact St|auto].
Qed.

(** When nothing can happen any more the call has returned, unless requests are left in the heap,
    or the timeout has struck, or a request has got lost.  These exceptions are what is missing,
    and they are real: see below. *)
Theorem c107_progress_partial : forall sc t ls s, (forall u, exists o, mayI u o) -> (forall u, exists o, mayP u o) ->
  history given sc -> call t sc ls s -> (forall s', ~ kstep Work s s') ->
  (exists sc', kmain s = KDone sc') \/ kpend s <> [] \/ In Timeout ls \/ klost s <> [].
Proof.
  intros sc t ls s TI TP Hh Ca N. pose proof (history_plain _ _ _ _ _ _ Hh) as P.
  pose proof (call_counted _ _ _ _ _ _ _ _ P Ca) as C. pose proof (call_watchful _ _ _ _ P Ca) as [W].
  destruct (kmain s) as [|m|sc'|] eqn:M; [|destruct (drain_steps s m M) as [s' S]; destruct (N s' S)|eauto|destruct (ct_crash _ _ C M)].
  right. destruct (kpend s) eqn:Pe; [|left; discriminate]. right. destruct (klost s) as [|x l] eqn:Lo; [|right; discriminate]. left.
  assert (Q1 : kmsgq s = []). { destruct (kmsgq s) eqn:Q; [reflexivity|]. edestruct N. eapply k_receive; eauto. }
  assert (Q2 : kreqq s = []). { destruct (kreqq s) eqn:Q; [reflexivity|]. edestruct N. eapply k_take; eauto. }
  assert (Q3 : ktasks s = []).
  { destruct (ktasks s) as [|[r|m ms] ts] eqn:Q; [reflexivity| |].
    - destruct r as [u|u].
      + destruct (TI (node u)) as [o O]. edestruct N. eapply (k_ask _ _ _ _ s [] (Info u) ts _ Q). constructor. exact O.
      + destruct (TP (node u)) as [o O]. edestruct N. eapply (k_ask _ _ _ _ s [] (PeersAll u) ts _ Q). constructor. exact O.
    - edestruct N. eapply (k_tell _ _ _ _ s [] m ms ts Q). }
  assert (A : forall ls s0 s1, krun ls s0 s1 -> kadding s0 = true -> kadding s1 = false -> In Timeout ls).
  { clear. induction 1 as [|ls s0 s1 s2 k R IH S]; intros A B; [congruence|]. 
    assert (HS : forall m, kadding (khandle s1 m) = kadding s1).
    { assert (K : forall n t, kadding (settles n t) = kadding t).
      { intros n t. unfold settles. destruct (kopen t <? n); [reflexivity|]. cbv zeta. match goal with |- context [if ?b then _ else _] => destruct b end; reflexivity. }
      intros m. destruct m; cbn [khandle]; rewrite K; try reflexivity. destruct (kadding s1) eqn:Q; cbn; rewrite ?Q; reflexivity. }
    destruct S; try (left; reflexivity); try (right; apply IH; auto; rewrite <- ?HS; try exact B; fail).
    - right. apply IH; auto. rewrite HS in B. exact B.
    - right. apply IH; auto. rewrite HS in B. exact B. }
  destruct (kadding s) eqn:Ad.
  - exfalso. apply (W eq_refl eq_refl); [|reflexivity]. rewrite (ct_count _ _ C), Pe, (ct_quiet _ _ C Ad). unfold nodes_open, total.
    rewrite Q1, Q2, Q3, M, Lo. reflexivity.
  - destruct Ca as (s0 & S & R). apply (A _ _ _ R); [inversion S; reflexivity|exact Ad].
Qed.

(** A call in which a request got lost never returns: the host had no address, or `/peers/all`
    failed in the HTTP client other than by a timeout. *)
Lemma lost_kept ls s s' : krun ls s s' -> klost s <> [] -> klost s' <> [].
Proof.
  induction 1 as [|ls s s1 s2 k R IH S]; [auto|]. intros N. apply IH in N.
  assert (HS : forall m, klost (khandle s1 m) = klost s1).
  { assert (K : forall n t, klost (settles n t) = klost t).
    { intros n t. unfold settles. destruct (kopen t <? n); [reflexivity|]. cbv zeta. match goal with |- context [if ?b then _ else _] => destruct b end; reflexivity. }
    intros m. destruct m; cbn [khandle]; rewrite K; try reflexivity. destruct (kadding s1); reflexivity. }
  destruct S; rewrite ?HS; cbn; auto. destruct ms; [discriminate|exact N].
Qed.
Theorem c107_lost_refuted : forall sc t ls s ls' s', history given sc -> call t sc ls s -> klost s <> [] ->
  krun ls' s s' -> forall sc', kmain s' <> KDone sc'.
Proof.
  intros sc t ls s ls' s' Hh Ca L R sc' D. pose proof (history_plain _ _ _ _ _ _ Hh) as P.
  pose proof (run_counted _ _ _ _ _ _ _ R (call_counted _ _ _ _ _ _ _ _ P Ca)) as C. apply (lost_kept _ _ _ R) in L.
  destruct (ct_done _ _ C _ D) as (Z & _). rewrite (ct_count _ _ C) in Z.
  pose proof (pa_nonneg (kpend s')). pose proof (pa_nonneg (kafter s')).
  pose proof (total_parts mc (fun _ => 1) mc_nonneg ltac:(intros; lia) s') as (_ & _ & _ & _ & T & _). fold (nodes_open s') in T.
  destruct (klost s') as [|r l]; [now apply L|]. cbn [map] in T. rewrite zsum_cons in T.
  pose proof (reqs_nonneg (fun _ => 1) ltac:(intros; lia) l). lia.
Qed.

(** Nor does one whose timeout strikes while the peers of a node are still to be asked for. *)
Lemma after_kept ls s s' : krun ls s s' -> pa (kafter s) <= pa (kafter s').
Proof.
  induction 1 as [|ls s s1 s2 k R IH S]; [lia|].
  assert (HS : forall m, pa (kafter s1) <= pa (kafter (khandle s1 m))).
  { assert (K : forall n t, kafter (settles n t) = kafter t).
    { intros n t. unfold settles. destruct (kopen t <? n); [reflexivity|]. cbv zeta. match goal with |- context [if ?b then _ else _] => destruct b end; reflexivity. }
    intros m. destruct m; cbn [khandle]; rewrite K; try apply Z.le_refl. destruct (kadding s1); [apply Z.le_refl|].
    cbn [kafter put_after]. rewrite pa_app, pa_infos. lia. }
  destruct S as [s1 r q E|s1 l1 r l2 ms E A|s1 l1 m ms l2 E|s1 m q E1 E2|s1 E A|s1 m r h E P W|s1 m r h E P W Rm L|s1 m r h E P W _|s1 m E P]; try exact IH;
    try (specialize (HS m); lia). cbn [kafter put_after put_pend put_adding]. rewrite pa_app. pose proof (pa_nonneg (kpend s1)). lia.
Qed.
Theorem c107_timeout_refuted : forall sc t ls s s1 u ls' s', history given sc -> call t sc ls s -> kstep Timeout s s1 ->
  In (PeersAll u) (kpend s) -> krun ls' s1 s' -> forall sc', kmain s' <> KDone sc'.
Proof.
  intros sc t ls s s1 u ls' s' Hh Ca St I R sc' D. pose proof (history_plain _ _ _ _ _ _ Hh) as P.
  pose proof (call_counted _ _ _ _ _ _ _ _ P Ca) as C0.
  pose proof (run_counted _ _ _ _ _ _ _ R (step_counted _ _ _ _ _ _ _ St C0)) as C.
  destruct (ct_done _ _ C _ D) as (Z & _). rewrite (ct_count _ _ C) in Z.
  pose proof (pa_nonneg (kpend s')). pose proof (after_kept _ _ _ R) as K.
  pose proof (total_parts mc (fun _ => 1) mc_nonneg ltac:(intros; lia) s') as (_ & _ & _ & _ & _ & T). fold (nodes_open s') in T.
  assert (1 <= pa (kafter s1)); [|lia]. inversion St; subst. cbn [kafter put_after put_pend put_adding]. rewrite pa_app. pose proof (pa_nonneg (kafter s)).
  pose proof (pa_nonneg (kpend s)). destruct (Z.eq_dec (pa (kpend s)) 0) as [Q|Q]; [|lia]. apply pa_zero in Q. rewrite Forall_forall in Q.
  specialize (Q _ I). discriminate Q.
Qed.

(** With a limit of one or two parallel requests nothing is asked after the first request, and
    nothing is found. *)
Definition dull (m : kmsg) : Prop := match m with MActive _ => False | MPeers _ => False | _ => True end.
Definition once (act : list url) (s : kstate) : Prop :=
  length (ksent s) = 1%nat /\ kactive s = act /\ Forall (fun r => is_peers_all r = false) (kreqq s) /\
  Forall (fun x => match x with Asks r => is_peers_all r = false | Tells m ms => Forall dull (m :: ms) end) (ktasks s) /\
  Forall dull (kmsgq s) /\ match kmain s with KDrain m => dull m | _ => True end.
Lemma once_handle act s m : counted max s -> kmain s = KDrain m -> once act s -> once act (khandle s m).
Proof.
  intros C E (A & B & Q & T & K & M). rewrite E in M.
  pose proof (total_drain mo (fun _ => 2) mo_nonneg ltac:(intros; lia) s m E) as D. fold (reqs_open s) in D.
  rewrite <- (ct_open _ _ C) in D.
  assert (L : exists n x, khandle s m = settles n x /\ n <= kopen x /\ ksent x = ksent s /\ kactive x = kactive s /\ kreqq x = kreqq s /\ ktasks x = ktasks s /\ kmsgq x = kmsgq s).
  { destruct m; cbn [dull] in M; try contradiction; cbn [khandle mo] in *; eexists; eexists; (split; [reflexivity|]); cbn; auto 10. }
  destruct L as (n & x & L0 & L1 & L2 & L3 & L4 & L5 & L6).
  assert (F : ksent (khandle s m) = ksent x /\ kactive (khandle s m) = kactive x /\ kreqq (khandle s m) = kreqq x /\ ktasks (khandle s m) = ktasks x /\ kmsgq (khandle s m) = kmsgq x /\
    match kmain (khandle s m) with KDrain _ => False | _ => True end).
  { rewrite L0. unfold settles. destruct (kopen x <? n); [cbn; auto 10|]. cbv zeta. match goal with |- context [if ?b then _ else _] => destruct b end; cbn; auto 10. }
  destruct F as (F1 & F2 & F3 & F4 & F5 & F6). unfold once. rewrite F1, F2, F3, F4, F5, L2, L3, L4, L5, L6. do 5 (split; [assumption|]).
  destruct (kmain (khandle s m)); auto. contradiction.
Qed.
Lemma once_step act k s s' : max <= 2 -> counted max s -> kstep k s s' -> once act s -> once act s'.
Proof.
  intros Mx C St O.
  destruct St as [s r q E|s l1 r l2 ms E A|s l1 m ms l2 E|s m q E1 E2|s E A|s m r h E Pp W|s m r h E Pp W Rm L|s m r h E Pp W _|s m E Pp];
    try (now apply once_handle); destruct O as (B1 & B2 & B3 & B4 & B5 & B6).
  - rewrite E in B3. inversion B3. unfold once. cbn. auto 10.
  - rewrite E in B4. apply Forall_app in B4 as [T1 T2]. inversion T2 as [|? ? G T3]; subst.
    unfold once. cbn. do 3 (split; [now auto|]). split; [|auto]. apply Forall_app. split; [assumption|]. apply Forall_app. split; [|assumption].
    destruct A as [u o O|u o O]; [|discriminate G]. destruct o; cbn; repeat apply Forall_cons; cbn; auto; try apply Forall_nil; repeat apply Forall_cons; cbn; auto.
  - rewrite E in B4. apply Forall_app in B4 as [T1 T2]. inversion T2 as [|? ? G T3]; subst. inversion G as [|? ? G1 G2]; subst.
    unfold once. cbn. do 3 (split; [now auto|]). split; [|split; [|assumption]].
    + apply Forall_app. split; [assumption|]. apply Forall_app. split; [|assumption]. destruct ms; cbn; [constructor|]. constructor; [exact G2|constructor].
    + apply Forall_app. auto.
  - rewrite E2 in B5. inversion B5 as [|? ? G1 G2]; subst. unfold once. cbn. auto 10.
  - unfold once. cbn. auto 10.
  - unfold once. cbn. auto 10.
  - exfalso. unfold room in Rm. pose proof (total_drain mo (fun _ => 2) mo_nonneg ltac:(intros; lia) s m E) as D. fold (reqs_open s) in D.
    rewrite <- (ct_open _ _ C) in D. rewrite E in B6. destruct m; cbn [mo dull] in *; try contradiction; lia.
Qed.
Theorem c107_small_limit_refuted : forall sc t ls s, max <= 2 -> history given sc -> call t sc ls s ->
  length (ksent s) = 1%nat /\ kactive s = sc_active sc.
Proof.
  intros sc t ls s Mx Hh (s0 & S & R). pose proof (history_plain _ _ _ _ _ _ Hh) as P.
  pose proof (start_counted max _ _ _ P S) as C0.
  assert (O : once (sc_active sc) s); [|destruct O as (A & B & _); auto].
  assert (O0 : once (sc_active sc) s0).
  { inversion S as [| |r h T Pp E]; subst. unfold once. cbn. do 2 (split; [reflexivity|]). split; [|auto]. constructor; [|constructor].
    destruct Pp as [Pp _]. unfold plain_scan in P. rewrite Pp in P. now inversion P. }
  clear S. revert C0 O0. induction R as [|ls s s1 s2 k R IH St]; [auto|]. intros C0 O0. specialize (IH C0 O0).
  eapply once_step; [exact Mx|eapply run_counted; eauto|exact St|exact IH].
Qed.
End Returns.
