(** Peer discovery in a Chrome browser: how much is asked (C108), calls that never return (C107)
    and examples. *)
From Coq Require Import ZArith List Bool Lia Permutation String.
From Verif Require Import Base DiscoveryModel DiscoveryProofs DiscoveryProps ChromeModel ChromeProofs ChromeProps ChromeFindProps.
Import ListNotations.
Local Open Scope string_scope.
Local Open Scope list_scope.
Local Open Scope Z_scope.
Local Arguments url_eq_dec : simpl never.

(** ** The number of requests under way *)
Definition asks (t : ktask) : bool := match t with Asks _ => true | _ => false end.
Section Limit.
Variables (cap : nat) (max : Z) (mayI : url -> iout -> Prop) (mayP : url -> pout -> Prop).
Notation history := (history cap max mayI mayP).
Notation call := (call cap max mayI mayP).
Variable given : list url.
(** Each request counts twice, for its preflight; there is always room for the first one. *)
Theorem c108_limit : forall sc t ls s, history given sc -> call t sc ls s ->
  2 * (Zlen (kreqq s) + Zlen (filter asks (ktasks s))) <= Z.max 2 max.
Proof.
  intros sc t ls s Hh Ca. pose proof (call_counted _ _ _ _ _ _ _ _ (history_plain _ _ _ _ _ _ Hh) Ca) as C.
  pose proof (ct_max _ _ C) as M. rewrite (ct_open _ _ C) in M. unfold reqs_open, total in M.
  assert (A : 2 * Zlen (kreqq s) = zsum (map (fun _ : req => 2) (kreqq s))).
  { clear. induction (kreqq s) as [|r l IH]; [reflexivity|]. cbn [map]. rewrite zsum_cons, <- IH. unfold Zlen. cbn [length]. lia. }
  assert (B : 2 * Zlen (filter asks (ktasks s)) <= zsum (map (tload mo (fun _ => 2)) (ktasks s))).
  { clear. induction (ktasks s) as [|[r|m ms] l IH]; [reflexivity| |]; cbn [filter asks map]; rewrite zsum_cons; cbn [tload].
    - unfold Zlen in *. cbn [length]. lia.
    - pose proof (mo_nonneg m). pose proof (msgs_nonneg mo mo_nonneg ms). lia. }
  pose proof (msgs_nonneg mo mo_nonneg (kmsgq s)). pose proof (reqs_nonneg (fun _ => 2) ltac:(intros; lia) (klost s)).
  assert (0 <= ploadm mo (kmain s)) by (destruct (kmain s); cbn; try lia; apply mo_nonneg). lia.
Qed.
End Limit.

(** ** Each node is asked once in a first call *)
Definition infos (w : url) (l : list req) : Z := zsum (map (fun r => match r with Info u => if url_eq_dec (node u) w then 1 else 0 | _ => 0 end) l).
Definition pas (w : url) (l : list req) : Z := zsum (map (fun r => match r with PeersAll u => if url_eq_dec (node u) w then 1 else 0 | _ => 0 end) l).
Section Once.
Variables (cap : nat) (max : Z) (mayI : url -> iout -> Prop) (mayP : url -> pout -> Prop).
Notation call := (call cap max mayI mayP).
Notation krun := (krun cap max mayI mayP).
Notation kstep := (kstep cap max mayI mayP).
Notation answers := (answers mayI mayP).

Definition mi (w : url) (m : kmsg) : Z := match m with MInfoOk u => if url_eq_dec (node u) w then 1 else 0 | _ => 0 end.
Definition ai (w : url) (r : req) : Z := match r with Info u => if url_eq_dec (node u) w then 1 else 0 | _ => 0 end.
Definition asking (w : url) (s : kstate) : Z := total (mi w) (ai w) s.
Lemma mi_nonneg w m : 0 <= mi w m.
Proof. destruct m; cbn; try lia. destruct (url_eq_dec _ _); lia. Qed.
Lemma ai_nonneg w r : 0 <= ai w r.
Proof. destruct r; cbn; try lia. destruct (url_eq_dec _ _); lia. Qed.
Lemma asking_ask w s l1 r l2 ms : ktasks s = l1 ++ Asks r :: l2 -> answers r ms ->
  asking w (put_lost ((match ms with [] => [r] | _ => [] end) ++ klost s) (put_tasks (l1 ++ rest_of ms ++ l2) s)) <= asking w s.
Proof.
  intros E A. unfold asking, total. cbn [kreqq ktasks kmsgq kmain klost put_lost put_tasks]. rewrite E, !map_app, !zsum_app, rest_load. cbn [map]. rewrite zsum_cons. cbn [tload].
  assert (ms <> [] -> zsum (map (mi w) ms) <= ai w r).
  { intros N. destruct A as [u o _|u o _]; destruct o; cbn [info_told peers_told map] in *; try congruence; rewrite ?zsum_cons, ?zsum_nil; cbn [mi ai];
      try destruct (url_eq_dec (node u) w); lia. }
  destruct ms as [|m ms]; cbn [map]; rewrite ?zsum_cons, ?zsum_nil in *; [lia|]. pose proof (H ltac:(discriminate)). cbn [map] in *. rewrite zsum_cons in *. lia.
Qed.
Lemma infos_cons w r l : infos w (r :: l) = ai w r + infos w l.
Proof. unfold infos. cbn [map]. now rewrite zsum_cons. Qed.
Lemma pas_app w a b : pas w (a ++ b) = pas w a + pas w b.
Proof. unfold pas. now rewrite map_app, zsum_app. Qed.
Lemma pas_cons w r l : pas w (r :: l) = pas w [r] + pas w l.
Proof. apply (pas_app w [r] l). Qed.
Lemma pas_nonneg w l : 0 <= pas w l.
Proof. apply zsum_nonneg, Forall_map, Forall_forall. intros [u|u] _; try lia. destruct (url_eq_dec _ _); lia. Qed.
Lemma infos_nonneg w l : 0 <= infos w l.
Proof. apply zsum_nonneg, Forall_map, Forall_forall. intros [u|u] _; try lia. destruct (url_eq_dec _ _); lia. Qed.
Lemma pas_pops w h r h' : pops h r h' -> pas w h = pas w [r] + pas w h'.
Proof. intros [P _]. unfold pas. rewrite (zsum_perm _ _ (Permutation_map _ P)). cbn [map]. now rewrite !zsum_cons, zsum_nil, Z.add_0_r. Qed.
Lemma pas_infos w (ps : list addr) : pas w (map (fun p => Info (as_http_url p)) ps) = 0.
Proof. unfold pas. induction ps as [|p ps IH]; [reflexivity|]. cbn [map]. now rewrite zsum_cons, IH. Qed.

(** [u0] is the node of the first request.  Until its answer is dealt with nothing else is under
    way, or the main task is about to deal with it. *)
Definition first (u0 : url) (s : kstate) : Prop :=
  match kmain s with
  | KWait =>
      (exists r, kreqq s = [r] /\ ktasks s = [] /\ kmsgq s = [] /\ node (get_url r) = u0 /\ is_peers_all r = false) \/
      (exists r, kreqq s = [] /\ ktasks s = [Asks r] /\ kmsgq s = [] /\ node (get_url r) = u0 /\ is_peers_all r = false) \/
      (exists m ms, kreqq s = [] /\ ktasks s = [Tells m ms] /\ kmsgq s = [] /\ ends m = Some u0) \/
      (exists m ms, kreqq s = [] /\ kmsgq s = m :: ms /\ ends m = Some u0) \/
      (kreqq s = [] /\ ktasks s = [] /\ kmsgq s = [])
  | KDrain m => ends m = Some u0
  | _ => False
  end.
Record once_inv (u0 : url) (s : kstate) : Prop := {
  oi_once : forall w, infos w (ksent s) <= 1;
  oi_sent : forall w, 1 <= infos w (ksent s) -> In w (kvisited s) \/ w = u0;
  oi_first : In u0 (kvisited s) \/ half (heap s) u0 \/ (first u0 s /\ Forall (fun r => node (get_url r) <> u0) (kpend s));
  oi_late : kadding s = false -> Forall (fun r => is_peers_all r = true) (kpend s);
  oi_line : forall w, asking w s + pas w (heap s) + pas w (ksent s) <= infos w (ksent s) }.

Lemma first_ask u0 s l1 r l2 ms : ktasks s = l1 ++ Asks r :: l2 -> answers r ms -> first u0 s ->
  first u0 (put_lost ((match ms with [] => [r] | _ => [] end) ++ klost s) (put_tasks (l1 ++ rest_of ms ++ l2) s)).
Proof.
  intros E A F. unfold first in *. cbn. destruct (kmain s); auto.
  destruct F as [(r' & Q1 & Q2 & _)|[(r' & Q1 & Q2 & Q3 & Q4 & Q5)|[(m & ms' & Q1 & Q2 & _)|[F|(Q1 & Q2 & Q3)]]]].
  - rewrite Q2 in E. destruct l1; discriminate.
  - rewrite Q2 in E. destruct l1 as [|x l1]; [|destruct l1; discriminate]. injection E as <- <-. cbn. rewrite app_nil_r.
    destruct A as [u o O|u o O]; [|discriminate Q5]. cbn in Q4. destruct o; cbn; try (right; right; left; eexists; eexists; repeat split; auto; cbn; now rewrite Q4).
    right. right. right. right. auto.
  - rewrite Q2 in E. destruct l1 as [|x l1]; [|destruct l1]; discriminate.
  - right. right. right. left. exact F.
  - rewrite Q2 in E. destruct l1; discriminate.
Qed.
Lemma first_tell u0 s l1 m ms l2 : ktasks s = l1 ++ Tells m ms :: l2 -> first u0 s ->
  first u0 (put_msgq (kmsgq s ++ [m]) (put_tasks (l1 ++ rest_of ms ++ l2) s)).
Proof.
  intros E F. unfold first in *. cbn. destruct (kmain s); auto.
  destruct F as [(r' & Q1 & Q2 & _)|[(r' & Q1 & Q2 & _)|[(m' & ms' & Q1 & Q2 & Q3 & Q4)|[(m' & ms' & Q1 & Q2 & Q3)|(Q1 & Q2 & Q3)]]]].
  - rewrite Q2 in E. destruct l1; discriminate.
  - rewrite Q2 in E. destruct l1 as [|x l1]; [|destruct l1]; discriminate.
  - rewrite Q2 in E. destruct l1 as [|x l1]; [|destruct l1; discriminate]. injection E as <- <- <-. right. right. right. left. exists m', []. rewrite Q3. auto.
  - right. right. right. left. exists m', (ms' ++ [m]). rewrite Q2. auto.
  - rewrite Q2 in E. destruct l1; discriminate.
Qed.
Lemma heap_half_pend u0 s s' : (forall r, In r (heap s) -> In r (heap s')) -> half (heap s) u0 -> half (heap s') u0.
Proof. intros M (r & I & Q). exists r. auto. Qed.

Lemma handle_once u0 s m : counted max s -> kmain s = KDrain m -> once_inv u0 s -> once_inv u0 (khandle s m).
Proof.
  intros Ct E [A B F L Li].
  destruct (handle_fields max (fun _ => IOk) (fun _ => PSilent) s m Ct E) as (F1 & F2 & F3 & F4 & F5 & F6).
  assert (W : forall w, asking w (khandle s m) = asking w s - mi w m) by (intros w; apply handle_total; exact E).
  pose proof (total_drain mo (fun _ => 2) mo_nonneg ltac:(intros; lia) s m E) as O. fold (reqs_open s) in O. rewrite <- (ct_open _ _ Ct) in O.
  assert (G : ksent (khandle s m) = ksent s /\ kadding (khandle s m) = kadding s /\
    kpend (khandle s m) = (match m with MInfoOk u => PeersAll u :: kpend s | MPeers ps => if kadding s then map (fun p => Info (as_http_url p)) ps ++ kpend s else kpend s | _ => kpend s end) /\
    (forall w, pas w (heap (khandle s m)) = pas w (heap s) + mi w m)).
  { unfold heap. destruct m as [u|u|u|u|u|u| |ps]; cbn [khandle mo] in *;
    match goal with |- context [settles ?n ?t] => destruct (settles_fields n t) as (_ & _ & _ & G4 & G5 & G6 & _ & _ & _ & G10 & _); [try destruct (kadding s); cbn; lia|rewrite G4, G5, G6, G10] end;
    try (cbn [put_pend put_after put_count put_visited put_active one_less seen ksent kadding kpend kafter mi]; do 3 (split; [reflexivity|]); intros w; rewrite ?pas_app; lia).
    - cbn [put_pend ksent kadding kpend kafter]. do 3 (split; [reflexivity|]). intros w. rewrite !pas_app, (pas_cons w (PeersAll u)).
      assert (Q : pas w [PeersAll u] = mi w (MInfoOk u)) by (unfold pas; cbn [map mi]; rewrite zsum_cons, zsum_nil, Z.add_0_r; reflexivity). lia.
    - destruct (kadding s) eqn:Ad; cbn [put_pend put_after ksent kadding kpend kafter mi]; rewrite ?Ad; (do 3 (split; [reflexivity|])); intros w; rewrite !pas_app, pas_infos; lia. }
  destruct G as (G1 & G2 & G3 & G4).
  assert (Vm : forall w, In w (kvisited s) -> In w (kvisited (khandle s m))).
  { intros w I. rewrite F5. destruct m; auto; apply in_add; now right. }
  assert (Hm : forall r, In r (heap s) -> In r (heap (khandle s m))) by (intros r I; apply F6; now left).
  constructor; rewrite ?G1, ?G2.
  - exact A.
  - intros w X. destruct (B w X); auto.
  - destruct F as [F|[F|[F N]]]; [left; auto|right; left; eapply heap_half_pend; eauto|].
    unfold first in F. rewrite E in F. destruct m as [u|u|u|u|u|u| |ps]; cbn in F; try discriminate; injection F as F.
    all: try (left; rewrite F5, <- F; apply in_add; now left).
    right. left. exists (PeersAll u). split; [apply F6; now right|auto].
  - intros Ad. rewrite G3. specialize (L Ad). destruct m as [u|u|u|u|u|u| |ps]; auto. rewrite Ad. exact L.
  - intros w. rewrite W, G4. specialize (Li w). lia.
Qed.
Lemma step_once u0 k s s' : counted max s -> kstep k s s' -> once_inv u0 s -> once_inv u0 s'.
Proof.
  intros Ct S I.
  destruct S as [s r q E|s l1 r l2 ms E Aw|s l1 m ms l2 E|s m q E1 E2|s E Ad|s m r h E P W|s m r h E P W Rm L|s m r h E P W _|s m E P];
    try (now apply handle_once).
  - destruct I as [A B F L Li]. constructor; auto.
    + destruct F as [F|[F|[F N]]]; auto. right. right. split; [|exact N]. unfold first in *. cbn. destruct (kmain s); auto.
      destruct F as [(r' & Q1 & Q2 & Q3 & Q4 & Q5)|[(r' & Q1 & _)|[(m' & ms' & Q1 & _)|[(m' & ms' & Q1 & _)|(Q1 & _)]]]]; try congruence.
      rewrite Q1 in E. injection E as <- <-. right. left. exists r'. rewrite Q2. auto.
    + intros w. change (heap _) with (heap s). specialize (Li w). unfold asking in *. rewrite take_total by exact E. exact Li.
  - destruct I as [A B F L Li]. constructor; auto.
    + destruct F as [F|[F|[F N]]]; auto. right. right. split; [|exact N]. now apply first_ask.
    + intros w. change (heap _) with (heap s). specialize (Li w). pose proof (asking_ask w s l1 r l2 ms E Aw). cbn [ksent put_lost put_tasks]. lia.
  - destruct I as [A B F L' Li]. constructor; auto.
    + destruct F as [F|[F|[F N]]]; auto. right. right. split; [|exact N]. now apply first_tell.
    + intros w. change (heap _) with (heap s). specialize (Li w). unfold asking in *. rewrite tell_total by exact E. exact Li.
  - destruct I as [A B F L' Li]. constructor; auto.
    + destruct F as [F|[F|[F N]]]; auto. right. right. split; [|exact N]. unfold first in *. cbn. rewrite E1 in F.
      destruct F as [(r' & Q1 & Q2 & Q3 & _)|[(r' & Q1 & Q2 & Q3 & _)|[(m' & ms' & Q1 & Q2 & Q3 & _)|[(m' & ms' & Q1 & Q2 & Q3)|(Q1 & Q2 & Q3)]]]]; try congruence.
    + intros w. change (heap _) with (heap s). specialize (Li w). unfold asking in *. rewrite receive_total by assumption. exact Li.
  - destruct I as [A B F L' Li]. constructor; auto.
    + destruct F as [F|[F|[F N]]]; auto. right. right. split; [exact F|constructor].
    + intros _. constructor.
  - destruct I as [A B F L' Li]. unfold wanted in W. apply Bool.orb_false_iff in W as [W1 W2]. apply Bool.negb_false_iff, mem_iff in W2. constructor; auto.
    + destruct F as [F|[(r' & I & Q1 & Q2)|[F N]]]; auto.
      * right. left. exists r'. split; [|auto]. unfold heap in *. apply in_app_iff in I as [I|I]; apply in_app_iff; [left; cbn|now right].
        apply (pops_in _ _ _ P) in I as [->|I]; [congruence|exact I].
      * right. right. split; [exact F|]. cbn. rewrite Forall_forall in *. intros x I. apply N. apply (pops_in _ _ _ P). now right.
    + cbn. intros Ad. specialize (L' Ad). rewrite Forall_forall in *. intros x I. apply L'. apply (pops_in _ _ _ P). now right.
    + intros w. specialize (Li w). unfold heap in *. cbn [kpend kafter put_pend ksent]. rewrite pas_app in *. rewrite (pas_pops _ _ _ _ P) in Li.
      change (asking w (put_pend h s)) with (asking w s). pose proof (pas_nonneg w [r]). lia.
  - destruct I as [A B F L' Li]. set (s1 := put_sent _ _).
    assert (Wy : forall w, asking w s1 = asking w s + ai w r).
    { intros w. unfold asking, total, s1. cbn [put_sent put_visited put_count put_open put_pend put_reqq kreqq ktasks kmsgq kmain klost]. rewrite map_app, zsum_app. cbn [map]. rewrite zsum_cons, zsum_nil. lia. }
    assert (Sn : ksent s1 = r :: ksent s) by reflexivity.
    assert (Z0 : is_peers_all r = false -> infos (node (get_url r)) (ksent s) = 0).
    { intros Q. pose proof (infos_nonneg (node (get_url r)) (ksent s)). destruct (Z.eq_dec (infos (node (get_url r)) (ksent s)) 0) as [X|X]; [exact X|exfalso].
      unfold wanted in W. rewrite Q in W. apply Bool.negb_true_iff, mem_not in W.
      destruct (B (node (get_url r)) ltac:(lia)) as [Y|Y]; [contradiction|]. rewrite Y in *.
      destruct F as [F|[(r' & I & Q1 & Q2)|[F N]]]; [contradiction| |].
      - unfold heap in I. apply in_app_iff in I as [I|I].
        + destruct P as [P1 P2]. specialize (P2 Q). rewrite Forall_forall in P2. rewrite (P2 _ I) in Q1. discriminate.
        + destruct (kadding s) eqn:Ad; [rewrite (ct_quiet _ _ Ct Ad) in I; destruct I|]. specialize (L' eq_refl). rewrite Forall_forall in L'.
          rewrite (L' r) in Q; [discriminate|]. apply (pops_in _ _ _ P). now left.
      - rewrite Forall_forall in N. apply (N r); [|exact Y]. apply (pops_in _ _ _ P). now left. }
    assert (Ai : forall w, ai w r = 0 \/ (ai w r = 1 /\ w = node (get_url r) /\ is_peers_all r = false)).
    { intros w. destruct r as [u|u]; cbn; [destruct (url_eq_dec (node u) w) as [<-|]|]; auto. }
    constructor.
    + intros w. rewrite Sn, infos_cons. specialize (A w). destruct (Ai w) as [->|(-> & -> & Q)]; [lia|]. rewrite (Z0 Q). lia.
    + intros w. rewrite Sn, infos_cons. intros X. cbn. rewrite in_add. destruct (Ai w) as [Y|(Y & -> & Q)]; [|now left; left]. destruct (B w ltac:(lia)); auto.
    + cbn. rewrite in_add. destruct F as [F|[(r' & I & Q1 & Q2)|[F N]]]; auto.
      * unfold heap in I. apply in_app_iff in I as [I|I]; [apply (pops_in _ _ _ P) in I as [->|I]|].
        -- left. left. now symmetry.
        -- right. left. exists r'. split; [apply in_app_iff; now left|auto].
        -- right. left. exists r'. split; [apply in_app_iff; now right|auto].
      * right. right. unfold first in *. rewrite E in F. split; [cbn; now rewrite E|]. rewrite Forall_forall in *. intros x I. apply N. apply (pops_in _ _ _ P). now right.
    + cbn. intros Ad. specialize (L' Ad). rewrite Forall_forall in *. intros x I. apply L'. apply (pops_in _ _ _ P). now right.
    + intros w. specialize (Li w). rewrite Wy, Sn, infos_cons, (pas_cons w r (ksent s)). unfold heap in *. rewrite pas_app in *. rewrite (pas_pops _ _ _ _ P) in Li.
      change (kpend s1) with h. change (kafter s1) with (kafter s). lia.
Qed.
Lemma run_once u0 ls s s' : krun ls s s' -> counted max s -> once_inv u0 s -> once_inv u0 s'.
Proof.
  induction 1 as [|ls s s1 s2 k R IH S]; [auto|]. intros C I. eapply step_once; [eapply run_counted; eauto|exact S|auto].
Qed.
Lemma seeds_nodup l set : seeds_set l = Ok set -> NoDup set.
Proof.
  revert set. induction l as [|g l IH]; intros set E; cbn in E; [injection E as <-; constructor|].
  destruct (set_port_unwrap None g) as [v| |]; try discriminate. cbn in E. destruct (seeds_set l) as [r| |]; try discriminate.
  cbn in E. injection E as <-. apply nodup_add. auto.
Qed.
(** In a first call each node is asked for its information once and for its peers once. *)
Theorem c108_once : forall given sc t ls s, scan_new given = Ok sc -> call t sc ls s ->
  forall w, infos w (ksent s) <= 1 /\ pas w (ksent s) <= 1.
Proof.
  intros given sc t ls s N (s0 & S & R) w. pose proof (new_plain _ _ N) as Pl. pose proof (start_counted max _ _ _ Pl S) as C0.
  unfold scan_new in N. destruct (seeds_set given) as [set| |] eqn:Q; try discriminate. injection N as <-.
  inversion S as [| |r h T Pp E]; subst.
  assert (I0 : once_inv (node (get_url r)) (MkK KWait set [r] [] [] 1 2 [] [] h [] true [r] [])).
  { cbn in Pp. assert (Ir : exists u, r = Info u /\ In u set).
    { assert (In r (map Info set)) as I by (apply (pops_in _ _ _ Pp); now left). apply in_map_iff in I as (u & <- & I). eauto. }
    destruct Ir as (u & -> & Iu). assert (Un : forall x, In x set -> node x = x).
    { intros x I. apply (seeds_set_in _ _ Q) in I as (v & _ & ->). reflexivity. }
    constructor; cbn [ksent kvisited kpend kadding get_url].
    - intros v. rewrite infos_cons. unfold infos. cbn [map ai]. rewrite zsum_nil. destruct (url_eq_dec _ _); lia.
    - intros v. rewrite infos_cons. unfold infos. cbn [map ai]. rewrite zsum_nil. destruct (url_eq_dec (node u) v); [auto|lia].
    - right. right. split.
      + left. exists (Info u). auto.
      + assert (Nd : NoDup (u :: map get_url h)).
        { apply (Permutation_NoDup (l := map get_url (map Info set))).
          - destruct Pp as [Pp _]. apply (Permutation_map get_url) in Pp. exact Pp.
          - rewrite map_map. cbn. rewrite map_id. eapply seeds_nodup; eauto. }
        inversion Nd as [|? ? Nu _]; subst. apply Forall_forall. intros x I X. apply Nu.
        assert (In x (map Info set)) as J by (apply (pops_in _ _ _ Pp); now right). apply in_map_iff in J as (v & <- & J). cbn in X. rewrite (Un v J), (Un u Iu) in X. subst v.
        now apply (in_map get_url) in I.
    - discriminate.
    - intros v. unfold asking, total, heap. cbn [kreqq ktasks kmsgq kmain klost kpend kafter map ploadm]. rewrite app_nil_r, infos_cons, zsum_cons, !zsum_nil.
      assert (pas v h = 0). { pose proof (pas_pops v _ _ _ Pp) as X. assert (Y : pas v (map Info set) = 0). { clear. unfold pas. induction set as [|x l IH]; [reflexivity|]. cbn [map]. now rewrite zsum_cons, IH. }
        pose proof (pas_nonneg v h). pose proof (pas_nonneg v [Info u]). lia. }
      assert (pas v [Info u] = 0) by reflexivity. unfold infos. cbn [map]. rewrite zsum_nil. lia. }
  destruct (run_once _ _ _ _ R C0 I0) as [A _ _ _ Li]. specialize (A w). specialize (Li w). split; [exact A|].
  pose proof (pas_nonneg w (heap s)). destruct (total_parts (mi w) (ai w) (mi_nonneg w) (ai_nonneg w) s) as (_ & _ & _ & _ & _ & X). fold (asking w s) in X. lia.
Qed.
End Once.

(** ** Calls that never return *)
Section Lone.
Variables (cap : nat) (max : Z) (mayI : url -> iout -> Prop) (mayP : url -> pout -> Prop).
Notation call := (call cap max mayI mayP).
Notation krun := (krun cap max mayI mayP).
Notation kstep := (kstep cap max mayI mayP).
(** When nothing is under way the main task waits for ever, for it only works through the heap
    when it has been sent a message. *)
Lemma silent_step k s s' : kmain s = KWait -> kreqq s = [] -> ktasks s = [] -> kmsgq s = [] -> kstep k s s' ->
  kmain s' = KWait /\ kreqq s' = [] /\ ktasks s' = [] /\ kmsgq s' = [].
Proof. intros M R T Q S. destruct S; cbn; try congruence; auto; match goal with X : ktasks ?s = _ ++ _ :: _ |- _ => rewrite T in X; destruct l1; discriminate end. Qed.
Theorem c107_silence_refuted : forall ls s s', kmain s = KWait -> kreqq s = [] -> ktasks s = [] -> kmsgq s = [] -> krun ls s s' ->
  forall sc, kmain s' <> KDone sc.
Proof.
  intros ls s s' M R T Q Ru sc D.
  assert (X : kmain s' = KWait /\ kreqq s' = [] /\ ktasks s' = [] /\ kmsgq s' = []); [|destruct X; congruence].
  clear D. induction Ru as [|ls s s1 s2 k Ru IH S]; [auto|]. destruct (IH M R T Q) as (A & B & C & D). eapply silent_step; eauto.
Qed.
(** A scan from a single seed that answers `/info` never returns, whatever the limit and the
    timeout, and the seed is never asked for its peers. *)
Theorem c107_lone_seed_refuted : forall u sc t ls s, mayI (node u) IOk -> (forall o, mayI (node u) o -> o = IOk) ->
  scan_new [u] = Ok sc -> call t sc ls s -> ksent s = [Info (node u)] /\ (forall sc', kmain s <> KDone sc') /\ kactive s = [].
Proof.
  intros u sc t ls s _ Hi N (s0 & S & R). unfold scan_new in N. cbn in N. unfold set_port_unwrap in N. destruct (portable u); [|discriminate]. cbn in N. injection N as <-.
  set (v := node u) in *.
  set (lone := fun s : kstate => ksent s = [Info v] /\ kactive s = [] /\ kcount s = 1 /\
    ((kmain s = KWait /\ kreqq s = [Info v] /\ ktasks s = [] /\ kmsgq s = [] /\ kpend s = [] /\ kopen s = 2) \/
     (kmain s = KWait /\ kreqq s = [] /\ ktasks s = [Asks (Info v)] /\ kmsgq s = [] /\ kpend s = [] /\ kopen s = 2) \/
     (kmain s = KWait /\ kreqq s = [] /\ ktasks s = [Tells (MInfoOk v) []] /\ kmsgq s = [] /\ kpend s = [] /\ kopen s = 2) \/
     (kmain s = KWait /\ kreqq s = [] /\ ktasks s = [] /\ kmsgq s = [MInfoOk v] /\ kpend s = [] /\ kopen s = 2) \/
     (kmain s = KDrain (MInfoOk v) /\ kreqq s = [] /\ ktasks s = [] /\ kmsgq s = [] /\ kpend s = [] /\ kopen s = 2) \/
     (kmain s = KWait /\ kreqq s = [] /\ ktasks s = [] /\ kmsgq s = []))).
  assert (L : lone s); [|destruct L as (A & B & _ & L); split; [exact A|split; [intros sc' D|exact B]]; decompose [and or] L; congruence].
  assert (L0 : lone s0).
  { inversion S as [| |r h T Pp E]; subst. cbn in Pp. destruct Pp as [Pp _]. apply Permutation_length_1_inv in Pp. injection Pp as -> ->. unfold lone. cbn. auto 20. }
  clear S. induction R as [|ls s s1 s2 k R IH St]; [exact L0|]. specialize (IH L0). clear L0 R.
  destruct IH as (A & B & C & L). unfold lone.
  destruct L as [(M & Q & T & G & P & O)|[(M & Q & T & G & P & O)|[(M & Q & T & G & P & O)|[(M & Q & T & G & P & O)|[(M & Q & T & G & P & O)|(M & Q & T & G)]]]]].
  - destruct St as [s1 r q E|s1 l1 r l2 ms E Aw|s1 l1 m ms l2 E|s1 m q E1 E2|s1 E Ad|s1 m r h E Pp W|s1 m r h E Pp W Rm L|s1 m r h E Pp W _|s1 m E Pp]; try congruence;
      try (rewrite T in E; destruct l1; discriminate).
    + rewrite Q in E. injection E as <- <-. cbn. rewrite T. auto 20.
    + cbn. auto 20.
  - destruct St as [s1 r q E|s1 l1 r l2 ms E Aw|s1 l1 m ms l2 E|s1 m q E1 E2|s1 E Ad|s1 m r h E Pp W|s1 m r h E Pp W Rm L|s1 m r h E Pp W _|s1 m E Pp]; try congruence;
      try (rewrite T in E; destruct l1 as [|x l1]; [|destruct l1]; discriminate).
    + rewrite T in E. destruct l1 as [|x l1]; [|destruct l1; discriminate]. injection E as <- <-. inversion Aw as [u' o Ho X1 X2|]; subst. apply Hi in Ho as ->. cbn. auto 20.
    + cbn. auto 20.
  - destruct St as [s1 r q E|s1 l1 r l2 ms E Aw|s1 l1 m ms l2 E|s1 m q E1 E2|s1 E Ad|s1 m r h E Pp W|s1 m r h E Pp W Rm L|s1 m r h E Pp W _|s1 m E Pp]; try congruence;
      try (rewrite T in E; destruct l1 as [|x l1]; [|destruct l1]; discriminate).
    + rewrite T in E. destruct l1 as [|x l1]; [|destruct l1; discriminate]. injection E as <- <- <-. cbn. rewrite G. auto 20.
    + cbn. auto 20.
  - destruct St as [s1 r q E|s1 l1 r l2 ms E Aw|s1 l1 m ms l2 E|s1 m q E1 E2|s1 E Ad|s1 m r h E Pp W|s1 m r h E Pp W Rm L|s1 m r h E Pp W _|s1 m E Pp]; try congruence;
      try (rewrite T in E; destruct l1; discriminate).
    + rewrite G in E2. injection E2 as <- <-. cbn. auto 20.
    + cbn. auto 20.
  - destruct St as [s1 r q E|s1 l1 r l2 ms E Aw|s1 l1 m ms l2 E|s1 m q E1 E2|s1 E Ad|s1 m r h E Pp W|s1 m r h E Pp W Rm L|s1 m r h E Pp W _|s1 m E Pp]; try congruence;
      try (rewrite T in E; destruct l1; discriminate);
      try (rewrite P in Pp; destruct Pp as [Pp _]; apply Permutation_nil in Pp; discriminate).
    rewrite M in E. injection E as <-. cbn [khandle].
    assert (X : settles 2 (put_pend (PeersAll v :: kpend s1) s1) = put_main KWait (put_open 0 (put_pend [PeersAll v] s1))).
    { unfold settles. cbn. rewrite O, C, P. reflexivity. }
    rewrite X. cbn. auto 20.
  - destruct (silent_step _ _ _ M Q T G St) as (M' & Q' & T' & G').
    assert (Y : ksent s2 = ksent s1 /\ kactive s2 = kactive s1 /\ kcount s2 = kcount s1).
    { destruct St; cbn; auto; congruence. }
    destruct Y as (-> & -> & ->). auto 20.
Qed.
End Lone.

(** ** An executable scheduler, for examples *)
Section Exec.
Variables (cap : nat) (max : Z) (netI : url -> iout) (netP : url -> pout).
Notation kstep := (kstep cap max (steadyI netI) (steadyP netP)).
Notation krun := (krun cap max (steadyI netI) (steadyP netP)).
Fixpoint pop_pa (h : list req) : option (req * list req) :=
  match h with
  | [] => None
  | r :: h => if is_peers_all r then Some (r, h) else match pop_pa h with Some (x, h') => Some (x, r :: h') | None => None end
  end.
Definition pop1 (h : list req) : option (req * list req) :=
  match pop_pa h with Some x => Some x | None => match h with r :: h => Some (r, h) | [] => None end end.
Lemma pop_pa_some h r h' : pop_pa h = Some (r, h') -> Permutation h (r :: h') /\ is_peers_all r = true.
Proof.
  revert h'. induction h as [|x h IH]; intros h' E; [discriminate|]. cbn in E. destruct (is_peers_all x) eqn:Q.
  - injection E as <- <-. auto.
  - destruct (pop_pa h) as [[y h1]|]; [|discriminate]. injection E as -> <-. destruct (IH h1 eq_refl) as [P R]. split; [rewrite P; apply perm_swap|exact R].
Qed.
Lemma pop_pa_none h : pop_pa h = None -> Forall (fun x => is_peers_all x = false) h.
Proof.
  induction h as [|x h IH]; [constructor|]. cbn. destruct (is_peers_all x) eqn:Q; [discriminate|]. destruct (pop_pa h) as [[y h1]|]; [discriminate|]. auto.
Qed.
Lemma pop1_pops h r h' : pop1 h = Some (r, h') -> pops h r h'.
Proof.
  unfold pop1. destruct (pop_pa h) as [[y h1]|] eqn:E.
  - intros X. injection X as -> ->. apply pop_pa_some in E as [P Q]. split; [exact P|congruence].
  - apply pop_pa_none in E. destruct h as [|x h]; [discriminate|]. intros X. injection X as -> ->. split; [reflexivity|auto].
Qed.
Lemma pop1_none h : pop1 h = None -> h = [].
Proof. unfold pop1. destruct (pop_pa h); [discriminate|]. destruct h; [auto|discriminate]. Qed.
Inductive kact := XTake | XAsk (i : nat) | XTell (i : nat) | XReceive | XTimeout | XDrain.
Definition kexec1 (a : kact) (s : kstate) : option kstate :=
  match a with
  | XTake => match kreqq s with r :: q => Some (put_tasks (Asks r :: ktasks s) (put_reqq q s)) | [] => None end
  | XAsk i => match skipn i (ktasks s) with
              | Asks r :: l2 =>
                  let ms := match r with Info u => info_told u (netI (node u)) | PeersAll u => peers_told u (netP (node u)) end in
                  Some (put_lost ((match ms with [] => [r] | _ => [] end) ++ klost s) (put_tasks (firstn i (ktasks s) ++ rest_of ms ++ l2) s))
              | _ => None end
  | XTell i => match skipn i (ktasks s) with
               | Tells m ms :: l2 => Some (put_msgq (kmsgq s ++ [m]) (put_tasks (firstn i (ktasks s) ++ rest_of ms ++ l2) s))
               | _ => None end
  | XReceive => match kmain s, kmsgq s with KWait, m :: q => Some (put_main (KDrain m) (put_msgq q s)) | _, _ => None end
  | XTimeout => match kmain s with KWait => if kadding s then Some (put_after (kpend s ++ kafter s) (put_pend [] (put_adding false s))) else None | _ => None end
  | XDrain => match kmain s with
              | KDrain m => match pop1 (kpend s) with
                | None => Some (khandle s m)
                | Some (r, h) => if wanted s r then
                    if room max s && (length (kreqq s) <? cap)%nat
                    then Some (put_sent (r :: ksent s) (put_visited (add (node (get_url r)) (kvisited s))
                           (put_count (kcount s + (if is_peers_all r then 0 else 1)) (put_open (kopen s + 2) (put_pend h (put_reqq (kreqq s ++ [r]) s))))))
                    else Some (khandle s m)
                  else Some (put_pend h s)
                end
              | _ => None end
  end.
Definition klabel (a : kact) : label := match a with XTimeout => Timeout | _ => Work end.
Lemma kexec1_step a s s' : kexec1 a s = Some s' -> kstep (klabel a) s s'.
Proof.
  intros E. destruct a; cbn [kexec1 klabel] in *.
  - destruct (kreqq s) as [|r q] eqn:Q; inversion E. apply k_take. exact Q.
  - destruct (skipn i (ktasks s)) as [|[r|m ms] l2] eqn:T; inversion E. apply k_ask; [rewrite <- T; symmetry; apply firstn_skipn|].
    destruct r as [u|u]; constructor; reflexivity.
  - destruct (skipn i (ktasks s)) as [|[r|m ms] l2] eqn:T; inversion E.
    apply k_tell. rewrite <- T. symmetry. apply firstn_skipn.
  - destruct (kmain s) eqn:M; try discriminate. destruct (kmsgq s) as [|m q] eqn:Q; inversion E. apply k_receive; assumption.
  - destruct (kmain s) eqn:M; try discriminate. destruct (kadding s) eqn:A; inversion E. apply k_timeout; assumption.
  - destruct (kmain s) as [|m| |] eqn:M; try discriminate. destruct (pop1 (kpend s)) as [[r h]|] eqn:P.
    + apply pop1_pops in P. destruct (wanted s r) eqn:W; [|inversion E; eapply k_skip; eauto].
      destruct (room max s) eqn:R; cbn [andb] in E; [|inversion E; eapply k_stop; eauto].
      destruct (length (kreqq s) <? cap)%nat eqn:L; inversion E.
      * apply Nat.ltb_lt in L. eapply k_push; eauto.
      * apply Nat.ltb_ge in L. eapply k_stop; eauto.
    + apply pop1_none in P. inversion E. eapply k_empty; eauto.
Qed.
Fixpoint kexec (l : list kact) (s : kstate) : option kstate :=
  match l with [] => Some s | a :: l => match kexec1 a s with Some s' => kexec l s' | None => None end end.
Lemma krun_front ls k s s1 s2 : kstep k s s1 -> krun ls s1 s2 -> krun (ls ++ [k]) s s2.
Proof.
  intros S R. induction R as [|ls s1 s3 s4 k' R IH S']; [exact (krun_snoc _ _ _ _ _ _ _ _ _ (krun_nil _ _ _ _ _) S)|].
  exact (krun_snoc _ _ _ _ _ _ _ _ _ (IH S) S').
Qed.
Lemma kexec_run l s s' : kexec l s = Some s' -> krun (rev (map klabel l)) s s'.
Proof.
  revert s. induction l as [|a l IH]; intros s E; cbn [kexec] in E; [inversion E; constructor|].
  destruct (kexec1 a s) as [s1|] eqn:E1; [|discriminate]. cbn [map rev]. apply (krun_front _ _ s s1); [apply kexec1_step; exact E1|apply IH; exact E].
Qed.
Definition kbegin (sc : scan) : option kstate :=
  match pop1 (sc_pending sc) with
  | Some (r, h) => Some (MkK KWait (sc_seeds sc) [r] [] [] 1 2 (sc_active sc) (sc_visited sc) h [] true [r] [])
  | None => None
  end.
Definition kcall (sc : scan) (l : list kact) : option kstate := match kbegin sc with Some s => kexec l s | None => None end.
Lemma kcall_call sc l s : kcall sc l = Some s -> call cap max (steadyI netI) (steadyP netP) 90 sc (rev (map klabel l)) s.
Proof.
  unfold kcall, kbegin. destruct (pop1 (sc_pending sc)) as [[r h]|] eqn:P; [|discriminate]. intros E. eexists. split; [|apply kexec_run; exact E].
  apply st_go; [lia|]. apply pop1_pops. exact P.
Qed.
End Exec.

(** Three nodes.  The first does not answer; the second lists the first and a third, which
    lists nobody. *)
Definition web_info (u : url) : iout := if url_eq_dec u (ip_url 1) then ITimeout else IOk.
Definition web_peers (u : url) : pout :=
  if url_eq_dec u (ip_url 2) then POk [ip_addr 1; ip_addr 3] else if url_eq_dec u (ip_url 3) then POk [] else PFail.
Definition web_scan : scan := MkScan [] [] [ip_url 1; ip_url 2] [Info (ip_url 1); Info (ip_url 2)].
(** The first call times out while the peers of the second node are asked for. *)
Definition web_acts1 : list kact :=
  [XTake; XAsk 0; XTell 0; XReceive; XDrain; XDrain; XTake; XAsk 0; XTell 0; XReceive; XDrain; XTell 0; XReceive; XDrain; XDrain; XTimeout;
   XTake; XAsk 0; XTell 0; XReceive; XDrain; XTell 0; XReceive; XDrain].
Definition web_scan2 : scan := MkScan [] [ip_url 1; ip_url 2] [ip_url 1; ip_url 2] [Info (as_http_url (ip_addr 1)); Info (as_http_url (ip_addr 3))].
(** The second finds the third node. *)
Definition web_acts2 : list kact :=
  [XTake; XAsk 0; XTell 0; XReceive; XDrain; XDrain; XTake; XAsk 0; XTell 0; XReceive; XDrain; XTell 0; XReceive; XDrain; XDrain;
   XTake; XAsk 0; XTell 0; XReceive; XDrain; XTell 0; XReceive; XDrain].
Definition web_scan3 : scan := MkScan [ip_url 3] [ip_url 3; ip_url 1; ip_url 2] [ip_url 1; ip_url 2] [].
Notation web_history := (history 50 10 (steadyI web_info) (steadyP web_peers) [ip_url 1; ip_url 2]).
Lemma web_new : web_history web_scan.
Proof. apply hi_new. vm_compute. reflexivity. Qed.
Lemma web_next acts sc sc' : web_history sc ->
  match kcall 50 10 web_info web_peers sc acts with Some s => kmain s = KDone sc' | None => False end -> web_history sc'.
Proof.
  intros Hh X. destruct (kcall 50 10 web_info web_peers sc acts) as [s|] eqn:E; [|destruct X].
  eapply hi_next; [exact Hh|apply kcall_call; exact E|exact X].
Qed.
Lemma web_first : web_history web_scan2.
Proof. apply (web_next web_acts1 web_scan); [exact web_new|]. vm_compute. reflexivity. Qed.
Lemma web_second : web_history web_scan3.
Proof. apply (web_next web_acts2 web_scan2); [exact web_first|]. vm_compute. reflexivity. Qed.
Lemma web_known : known (steadyI web_info) (steadyP web_peers) [ip_url 1; ip_url 2] (ip_url 3).
Proof.
  change (ip_url 3) with (site (ip_addr 3)). eapply (kn_peer _ _ _ (ip_url 2) [ip_addr 1; ip_addr 3]).
  - apply (kn_seed _ _ _ (ip_url 2)). cbn. tauto.
  - vm_compute. reflexivity.
  - vm_compute. reflexivity.
  - cbn. tauto.
Qed.
Lemma web_alive : alive (steadyI web_info) (steadyP web_peers) (ip_url 3).
Proof. split; [vm_compute; reflexivity|]. exists []. vm_compute. reflexivity. Qed.
(** Two calls find the third node; nothing is left over. *)
Example c106_hyps_met : exists sc, web_history sc /\ sc_pending sc = [] /\ In (ip_url 3) (sc_active sc) /\
  known (steadyI web_info) (steadyP web_peers) [ip_url 1; ip_url 2] (ip_url 3) /\ alive (steadyI web_info) (steadyP web_peers) (ip_url 3) /\
  ~ In (ip_url 3) (map node [ip_url 1; ip_url 2]).
Proof.
  exists web_scan3. split; [exact web_second|]. split; [reflexivity|]. split; [left; reflexivity|]. split; [exact web_known|]. split; [exact web_alive|].
  cbn. intros [X|[X|[]]]; discriminate X.
Qed.
(** A later call asks nodes again that were asked before: the first request of a call is sent
    without a look at the nodes visited. *)
Theorem c108_again_refuted : exists sc ls s, web_history sc /\ call 50 10 (steadyI web_info) (steadyP web_peers) 90 sc ls s /\
  In (ip_url 1) (sc_visited sc) /\ infos (ip_url 1) (ksent s) = 1.
Proof.
  destruct (kcall 50 10 web_info web_peers web_scan2 web_acts2) as [s|] eqn:E; [|exfalso; vm_compute in E; discriminate E].
  exists web_scan2, (rev (map klabel web_acts2)), s. split; [exact web_first|]. split; [apply kcall_call; exact E|]. split; [left; reflexivity|].
  vm_compute in E. injection E as <-. vm_compute. reflexivity.
Qed.
(** In the first call both kinds of request are made. *)
Example c108_hyps_met : exists ls s, call 50 10 (steadyI web_info) (steadyP web_peers) 90 web_scan ls s /\
  scan_new [ip_url 1; ip_url 2] = Ok web_scan /\ infos (ip_url 2) (ksent s) = 1 /\ pas (ip_url 2) (ksent s) = 1.
Proof.
  destruct (kcall 50 10 web_info web_peers web_scan web_acts1) as [s|] eqn:E; [|exfalso; vm_compute in E; discriminate E].
  exists (rev (map klabel web_acts1)), s. split; [apply kcall_call; exact E|]. split; [vm_compute; reflexivity|].
  vm_compute in E. injection E as <-. split; vm_compute; reflexivity.
Qed.
(** A call that returns; one whose timeout strikes while the peers of a node are still to be
    asked for; one with a request that gets lost. *)
Example c107_hyps_met : exists ls s sc, call 50 10 (steadyI web_info) (steadyP web_peers) 90 web_scan2 ls s /\ kmain s = KDone sc /\ ~ In Timeout ls.
Proof.
  destruct (kcall 50 10 web_info web_peers web_scan2 web_acts2) as [s|] eqn:E; [|exfalso; vm_compute in E; discriminate E].
  exists (rev (map klabel web_acts2)), s, web_scan3. split; [apply kcall_call; exact E|]. split.
  - vm_compute in E. injection E as <-. reflexivity.
  - cbn. intros X. repeat destruct X as [X|X]; try discriminate X. exact X.
Qed.
Example c107_timeout_hyps_met : exists ls s s1, call 50 10 (steadyI web_info) (steadyP web_peers) 90 web_scan ls s /\
  kstep 50 10 (steadyI web_info) (steadyP web_peers) Timeout s s1 /\ In (PeersAll (ip_url 2)) (kpend s).
Proof.
  destruct (kcall 50 10 web_info web_peers web_scan (firstn 11 web_acts1)) as [s|] eqn:E; [|exfalso; vm_compute in E; discriminate E].
  exists (rev (map klabel (firstn 11 web_acts1))), s. eexists. split; [apply kcall_call; exact E|].
  vm_compute in E. injection E as <-. split; [apply k_timeout; reflexivity|]. left. reflexivity.
Qed.
Definition mute (u : url) : pout := PSilent.
Example c107_lost_hyps_met : exists ls s, call 50 10 (steadyI web_info) (steadyP mute) 90 web_scan ls s /\ klost s <> [].
Proof.
  destruct (kcall 50 10 web_info mute web_scan (firstn 15 web_acts1 ++ [XTake; XAsk 0])) as [s|] eqn:E; [|exfalso; vm_compute in E; discriminate E].
  exists (rev (map klabel (firstn 15 web_acts1 ++ [XTake; XAsk 0]))), s. split; [apply kcall_call; exact E|].
  vm_compute in E. injection E as <-. discriminate.
Qed.
Example c107_lone_hyps_met : exists sc ls s, scan_new [ip_url 2] = Ok sc /\ call 50 10 (steadyI web_info) (steadyP web_peers) 90 sc ls s /\
  steadyI web_info (node (ip_url 2)) IOk /\ kpend s = [PeersAll (ip_url 2)].
Proof.
  eexists. destruct (kcall 50 10 web_info web_peers (MkScan [] [] [ip_url 2] [Info (ip_url 2)]) [XTake; XAsk 0; XTell 0; XReceive; XDrain]) as [s|] eqn:E; [|exfalso; vm_compute in E; discriminate E].
  exists (rev (map klabel [XTake; XAsk 0; XTell 0; XReceive; XDrain])), s. split; [reflexivity|]. split; [apply kcall_call; exact E|]. split; [vm_compute; reflexivity|].
  vm_compute in E. injection E as <-. reflexivity.
Qed.

Print Assumptions c106_sound.
Print Assumptions c106_kept.
Print Assumptions c106_no_panic.
Print Assumptions c106_complete.
Print Assumptions c107_progress_partial.
Print Assumptions c107_lost_refuted.
Print Assumptions c107_timeout_refuted.
Print Assumptions c107_small_limit_refuted.
Print Assumptions c107_silence_refuted.
Print Assumptions c107_lone_seed_refuted.
Print Assumptions c108_limit.
Print Assumptions c108_once.
Print Assumptions c108_again_refuted.
