(** Invariants of ChromeModel over all interleavings. *)
From Coq Require Import ZArith List Bool Lia Permutation.
From Verif Require Import Base DiscoveryModel DiscoveryProofs ChromeModel.
Import ListNotations.
Local Open Scope list_scope.
Local Open Scope Z_scope.

Definition zsum (l : list Z) : Z := fold_right Z.add 0 l.
Lemma zsum_app a b : zsum (a ++ b) = zsum a + zsum b.
Proof. induction a as [|x a IH]; [reflexivity|]. cbn [app zsum fold_right] in *. fold (zsum (a ++ b)). fold (zsum a). lia. Qed.
Lemma zsum_cons x a : zsum (x :: a) = x + zsum a.
Proof. reflexivity. Qed.
Lemma zsum_nil : zsum [] = 0.
Proof. reflexivity. Qed.
Lemma zsum_nonneg l : Forall (fun x => 0 <= x) l -> 0 <= zsum l.
Proof. induction 1 as [|x l X F IH]; [reflexivity|]. rewrite zsum_cons. lia. Qed.
Lemma zsum_perm a b : Permutation a b -> zsum a = zsum b.
Proof. induction 1; rewrite ?zsum_cons in *; lia. Qed.
Opaque zsum.

(** ** Weights *)
Section Weights.
Variables (w : kmsg -> Z) (a : req -> Z).
Definition tload (t : ktask) : Z := match t with Asks r => a r | Tells m ms => w m + zsum (map w ms) end.
Definition ploadm (p : kplace) : Z := match p with KDrain m => w m | _ => 0 end.
(** All that is under way, and what got lost. *)
Definition total (s : kstate) : Z :=
  zsum (map a (kreqq s)) + zsum (map tload (ktasks s)) + zsum (map w (kmsgq s)) + ploadm (kmain s) + zsum (map a (klost s)).
Lemma rest_load ms : zsum (map tload (rest_of ms)) = zsum (map w ms).
Proof. destruct ms as [|m ms]; [reflexivity|]. cbn. rewrite !zsum_cons, zsum_nil. lia. Qed.

Ltac z := rewrite ?map_app, ?zsum_app in *; cbn [map app] in *; rewrite ?zsum_cons, ?zsum_nil in *; cbn [tload ploadm] in *.
Lemma handle_main m s : (exists sc, kmain (khandle s m) = KDone sc) \/ kmain (khandle s m) = KWait \/ kmain (khandle s m) = KCrash.
Proof.
  assert (K : forall n t, (exists sc, kmain (settles n t) = KDone sc) \/ kmain (settles n t) = KWait \/ kmain (settles n t) = KCrash).
  { intros n t. unfold settles. destruct (kopen t <? n); [cbn; auto|]. cbv zeta. match goal with |- context [if ?b then _ else _] => destruct b end; cbn; eauto. }
  destruct m; cbn [khandle]; apply K.
Qed.
Lemma handle_total m s : kmain s = KDrain m -> total (khandle s m) = total s - w m.
Proof.
  intros E. assert (P : ploadm (kmain (khandle s m)) = 0).
  { destruct (handle_main m s) as [[sc ->]|[->| ->]]; reflexivity. }
  assert (Q : kreqq (khandle s m) = kreqq s /\ ktasks (khandle s m) = ktasks s /\ kmsgq (khandle s m) = kmsgq s /\ klost (khandle s m) = klost s).
  { assert (K : forall n t, kreqq (settles n t) = kreqq t /\ ktasks (settles n t) = ktasks t /\ kmsgq (settles n t) = kmsgq t /\ klost (settles n t) = klost t).
    { intros n t. unfold settles. destruct (kopen t <? n); [cbn; auto|]. cbv zeta. match goal with |- context [if ?b then _ else _] => destruct b end; cbn; auto. }
    destruct m; cbn [khandle]; match goal with |- context [settles ?n ?t] => destruct (K n t) as (-> & -> & -> & ->) end; try (cbn; auto; fail).
    destruct (kadding s); cbn; auto. }
  destruct Q as (Q1 & Q2 & Q3 & Q4). unfold total. rewrite P, Q1, Q2, Q3, Q4, E. cbn. lia.
Qed.
Lemma tell_total s l1 m ms l2 : ktasks s = l1 ++ Tells m ms :: l2 ->
  total (put_msgq (kmsgq s ++ [m]) (put_tasks (l1 ++ rest_of ms ++ l2) s)) = total s.
Proof. intros E. unfold total. cbn. rewrite E. z. rewrite rest_load. lia. Qed.
Lemma take_total s r q : kreqq s = r :: q -> total (put_tasks (Asks r :: ktasks s) (put_reqq q s)) = total s.
Proof. intros E. unfold total. cbn. rewrite E. z. lia. Qed.
Lemma receive_total s m q : kmain s = KWait -> kmsgq s = m :: q -> total (put_main (KDrain m) (put_msgq q s)) = total s.
Proof. intros M E. unfold total. cbn. rewrite E, M. z. lia. Qed.
Variables (mayI : url -> iout -> Prop) (mayP : url -> pout -> Prop).
Hypothesis Fair : forall r ms, answers mayI mayP r ms -> ms <> [] -> zsum (map w ms) = a r.
Lemma ask_total s l1 r l2 ms : ktasks s = l1 ++ Asks r :: l2 -> answers mayI mayP r ms ->
  total (put_lost ((match ms with [] => [r] | _ => [] end) ++ klost s) (put_tasks (l1 ++ rest_of ms ++ l2) s)) = total s.
Proof.
  intros E A. unfold total. cbn. rewrite E. z. rewrite rest_load. destruct ms as [|m ms]; z; [lia|].
  pose proof (Fair _ _ A) as F. cbn [map] in F. rewrite zsum_cons in F. rewrite F by discriminate. lia.
Qed.
End Weights.
Section Nonneg.
Variables (w : kmsg -> Z) (a : req -> Z).
Notation total := (total w a).
Notation tload := (tload w a).
Notation ploadm := (ploadm w).
Hypothesis Wn : forall m, 0 <= w m.
Hypothesis An : forall r, 0 <= a r.
Lemma msgs_nonneg ms : 0 <= zsum (map w ms).
Proof. apply zsum_nonneg, Forall_map, Forall_forall. auto. Qed.
Lemma reqs_nonneg rs : 0 <= zsum (map a rs).
Proof. apply zsum_nonneg, Forall_map, Forall_forall. auto. Qed.
Lemma tasks_nonneg ts : 0 <= zsum (map tload ts).
Proof.
  apply zsum_nonneg, Forall_map, Forall_forall. intros [r|m ms] _; cbn; [apply An|].
  pose proof (Wn m). pose proof (msgs_nonneg ms). lia.
Qed.
Lemma total_drain s m : kmain s = KDrain m -> w m <= total s.
Proof.
  intros E. unfold total. rewrite E. cbn.
  pose proof (msgs_nonneg (kmsgq s)). pose proof (reqs_nonneg (kreqq s)). pose proof (tasks_nonneg (ktasks s)). pose proof (reqs_nonneg (klost s)). lia.
Qed.
Lemma total_parts s : zsum (map a (kreqq s)) <= total s /\ zsum (map tload (ktasks s)) <= total s /\
  zsum (map w (kmsgq s)) <= total s /\ ploadm (kmain s) <= total s /\ zsum (map a (klost s)) <= total s /\ 0 <= total s.
Proof.
  unfold total. pose proof (msgs_nonneg (kmsgq s)). pose proof (reqs_nonneg (kreqq s)). pose proof (tasks_nonneg (ktasks s)). pose proof (reqs_nonneg (klost s)).
  assert (0 <= ploadm (kmain s)) by (destruct (kmain s); cbn; auto; lia). lia.
Qed.
End Nonneg.

(** ** Counting nodes and requests *)
Definition mc (m : kmsg) : Z := match m with MPreflight | MPeers _ => 0 | _ => 1 end.
Definition mo (m : kmsg) : Z :=
  match m with MPeers _ => 0 | MInfoTimeout _ | MPeersTimeout _ | MPreflight => 1 | _ => 2 end.
Definition nodes_open (s : kstate) : Z := total mc (fun _ => 1) s.
Definition reqs_open (s : kstate) : Z := total mo (fun _ => 2) s.
Definition pa (h : list req) : Z := zsum (map (fun r => if is_peers_all r then 1 else 0) h).
Lemma pa_nonneg h : 0 <= pa h.
Proof. apply zsum_nonneg, Forall_map, Forall_forall. intros r _. destruct (is_peers_all r); lia. Qed.
Lemma pa_app a b : pa (a ++ b) = pa a + pa b.
Proof. unfold pa. now rewrite map_app, zsum_app. Qed.
Lemma pa_infos (ps : list addr) : pa (map (fun p => Info (as_http_url p)) ps) = 0.
Proof. unfold pa. induction ps as [|p ps IH]; [reflexivity|]. cbn [map]. rewrite zsum_cons, IH. reflexivity. Qed.
Lemma pa_pops h r h' : pops h r h' -> pa h = (if is_peers_all r then 1 else 0) + pa h'.
Proof. intros [P _]. unfold pa. rewrite (zsum_perm _ _ (Permutation_map _ P)). cbn [map]. now rewrite zsum_cons. Qed.
Lemma pa_zero h : pa h = 0 <-> Forall (fun r => is_peers_all r = false) h.
Proof.
  unfold pa. induction h as [|r h IH]; [split; auto|]. cbn [map]. rewrite zsum_cons. pose proof (pa_nonneg h) as N. unfold pa in N.
  split.
  - intros E. destruct (is_peers_all r) eqn:Q; [lia|]. constructor; [exact Q|]. apply IH. lia.
  - intros F. inversion F as [|? ? Q F']. rewrite Q. apply IH in F'. lia.
Qed.

Lemma mc_nonneg m : 0 <= mc m. Proof. destruct m; cbn; lia. Qed.
Lemma mo_nonneg m : 0 <= mo m. Proof. destruct m; cbn; lia. Qed.
Section Inv.
Variables (cap : nat) (max : Z) (mayI : url -> iout -> Prop) (mayP : url -> pout -> Prop).
Notation kstep := (kstep cap max mayI mayP).
Notation krun := (krun cap max mayI mayP).
Notation answers := (answers mayI mayP).
Lemma fair_mc r ms : answers r ms -> ms <> [] -> zsum (map mc ms) = 1.
Proof. intros A N. destruct A as [u [] _|u [] _]; cbn in *; try congruence; rewrite ?zsum_cons, ?zsum_nil; reflexivity. Qed.
Lemma fair_mo r ms : answers r ms -> ms <> [] -> zsum (map mo ms) = 2.
Proof. intros A N. destruct A as [u [] _|u [] _]; cbn in *; try congruence; rewrite ?zsum_cons, ?zsum_nil; reflexivity. Qed.

(** The two counters and the heaps agree with what is under way. *)
Record counted (s : kstate) : Prop := {
  ct_count : kcount s = nodes_open s + pa (kpend s) + pa (kafter s);
  ct_open : kopen s = reqs_open s;
  ct_crash : kmain s <> KCrash;
  ct_done : forall sc, kmain s = KDone sc -> kcount s = 0 /\ kpend s = [] /\ sc = result s;
  ct_quiet : kadding s = true -> kafter s = [];
  ct_max : kopen s <= Z.max 2 max }.
Lemma settles_done n s sc : kmain (settles n s) = KDone sc -> n <= kopen s /\
  kcount (settles n s) = 0 /\ kpend (settles n s) = [] /\ sc = result (settles n s).
Proof.
  unfold settles. destruct (_ <? _) eqn:L; [discriminate|]. cbn. destruct (kcount s =? 0) eqn:E; [|discriminate].
  destruct (kpend s) eqn:P; [|discriminate]. cbn. intros Q. injection Q as <-. rewrite P. repeat split; lia.
Qed.
(** What handling a message does when the counters are right. *)
Lemma settles_fields n s : n <= kopen s ->
  (kmain (settles n s) <> KCrash) /\ kcount (settles n s) = kcount s /\ kopen (settles n s) = kopen s - n /\ kpend (settles n s) = kpend s /\
  kafter (settles n s) = kafter s /\ kadding (settles n s) = kadding s /\ kvisited (settles n s) = kvisited s /\ kactive (settles n s) = kactive s /\
  kseeds (settles n s) = kseeds s /\ ksent (settles n s) = ksent s /\ klost (settles n s) = klost s /\
  kreqq (settles n s) = kreqq s /\ ktasks (settles n s) = ktasks s /\ kmsgq (settles n s) = kmsgq s.
Proof.
  intros L. unfold settles. destruct (Z.ltb_spec (kopen s) n) as [Q|Q]; [lia|]. cbn. destruct (_ && _); cbn; repeat split; try discriminate.
Qed.
Lemma handle_counted s m : kmain s = KDrain m -> counted s -> counted (khandle s m).
Proof.
  intros E [C O _ _ Q M].
  assert (TC := handle_total mc (fun _ => 1) m s E). assert (TO := handle_total mo (fun _ => 2) m s E).
  fold (nodes_open (khandle s m)) (nodes_open s) in TC. fold (reqs_open (khandle s m)) (reqs_open s) in TO.
  pose proof (total_drain mo (fun _ => 2) mo_nonneg ltac:(intros; lia) s m E) as D. fold (reqs_open s) in D. rewrite <- O in D.
  assert (forall sc, kmain (khandle s m) = KDone sc -> kcount (khandle s m) = 0 /\ kpend (khandle s m) = [] /\ sc = result (khandle s m)) as Dn.
  { intros sc. destruct m; cbn [khandle]; intros X; apply settles_done in X as [_ X]; exact X. }
  destruct m as [u|u|u|u|u|u| |ps]; cbn [khandle mo mc] in *.
  all: match goal with |- counted (settles ?n ?t) => destruct (settles_fields n t) as (F1 & F2 & F3 & F4 & F5 & F6 & _);
    [cbn; try (destruct (kadding s); cbn); lia|] end.
  all: constructor; [| |exact F1|exact Dn| |]; rewrite ?F2, ?F3, ?F4, ?F5, ?F6; cbn; try (destruct (kadding s) eqn:A; cbn).
  all: try rewrite !pa_app; try rewrite !pa_infos; try (unfold pa in *; cbn [map is_peers_all]; rewrite ?zsum_cons, ?zsum_nil in *; lia).
  all: try (intros _; auto; fail). all: try (intros; discriminate). all: auto.
  all: congruence.
Qed.
Lemma step_counted k s s' : kstep k s s' -> counted s -> counted s'.
Proof.
  intros S I. destruct S as [s r q E|s l1 r l2 ms E A|s l1 m ms l2 E|s m q E1 E2|s E A|s m r h E P W|s m r h E P W R L|s m r h E P W _|s m E P].
  - destruct I as [C O K D Q M]. constructor; cbn; auto;
      [unfold nodes_open in *; rewrite take_total by exact E; exact C|unfold reqs_open in *; rewrite take_total by exact E; exact O].
  - destruct I as [C O K D Q M]. constructor; cbn; auto;
      [unfold nodes_open in *; rewrite (ask_total mc (fun _ => 1) mayI mayP fair_mc) by assumption; exact C|
       unfold reqs_open in *; rewrite (ask_total mo (fun _ => 2) mayI mayP fair_mo) by assumption; exact O].
  - destruct I as [C O K D Q M]. constructor; cbn; auto;
      [unfold nodes_open in *; rewrite tell_total by exact E; exact C|unfold reqs_open in *; rewrite tell_total by exact E; exact O].
  - destruct I as [C O K D Q M]. constructor; cbn; try discriminate; auto;
      [unfold nodes_open in *; rewrite receive_total by assumption; exact C|unfold reqs_open in *; rewrite receive_total by assumption; exact O].
  - destruct I as [C O K D Q M]. constructor; cbn; auto; try discriminate; try (rewrite E; discriminate).
    rewrite pa_app. change (pa []) with 0. unfold nodes_open, total in *. cbn in *. lia.
  - destruct I as [C O K D Q M]. constructor; cbn; auto; try (rewrite E; discriminate).
    unfold wanted in W. rewrite (pa_pops _ _ _ P) in C. destruct (is_peers_all r); [discriminate|]. unfold nodes_open, total in *. cbn in *. lia.
  - destruct I as [C O K D Q M]. rewrite (pa_pops _ _ _ P) in C. unfold room in R. constructor; cbn; auto; try (rewrite E; discriminate).
    + unfold nodes_open, total in *. cbn in *. rewrite map_app, zsum_app. cbn [map]. rewrite zsum_cons, zsum_nil. destruct (is_peers_all r); lia.
    + unfold reqs_open, total in *. cbn in *. rewrite map_app, zsum_app. cbn [map]. rewrite zsum_cons, zsum_nil. lia.
    + lia.
  - now apply handle_counted.
  - now apply handle_counted.
Qed.
(** A call on a scan without pending requests for peers. *)
Definition plain_scan (sc : scan) : Prop := Forall (fun r => is_peers_all r = false) (sc_pending sc).
Lemma start_counted t sc s : plain_scan sc -> starts t sc (Ok s) -> counted s.
Proof.
  intros P S. inversion S as [| |r h T Pp E]; subst. unfold plain_scan in P. apply pa_zero in P. rewrite (pa_pops _ _ _ Pp) in P.
  pose proof (pa_nonneg h). assert (pa h = 0) as Z by (destruct (is_peers_all r); lia).
  constructor; cbn; try discriminate; auto; try lia.
  unfold nodes_open, total. cbn. rewrite Z. change (pa []) with 0. rewrite ?zsum_cons, ?zsum_nil. reflexivity.
Qed.
Lemma run_counted ls s s' : krun ls s s' -> counted s -> counted s'.
Proof. induction 1 as [|ls s s1 s2 k R IH S]; [auto|]. intros C. eapply step_counted; eauto. Qed.
Lemma call_counted t sc ls s : plain_scan sc -> call cap max mayI mayP t sc ls s -> counted s.
Proof. intros P (s0 & S & R). eapply run_counted; [exact R|]. eapply start_counted; eauto. Qed.
Lemma done_plain s sc : counted s -> kmain s = KDone sc -> plain_scan sc.
Proof.
  intros [C _ _ D _ _] E. destruct (D sc E) as (Z & _ & ->). unfold plain_scan, result. cbn. apply pa_zero.
  pose proof (pa_nonneg (kpend s)). pose proof (pa_nonneg (kafter s)).
  pose proof (total_parts mc (fun _ => 1) mc_nonneg ltac:(intros; lia) s) as T. fold (nodes_open s) in T. lia.
Qed.
Lemma new_plain given sc : scan_new given = Ok sc -> plain_scan sc.
Proof.
  unfold scan_new. destruct (seeds_set given) as [l| |]; try discriminate. intros E. injection E as <-. unfold plain_scan. cbn.
  induction l; constructor; auto.
Qed.
Lemma history_plain given sc : history cap max mayI mayP given sc -> plain_scan sc.
Proof. induction 1 as [sc E|sc t ls s sc' Hh IH Ca E]; [eapply new_plain; eauto|]. eapply done_plain; [eapply call_counted; eauto|exact E]. Qed.
End Inv.
