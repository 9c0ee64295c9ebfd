(** Invariants of the peer discovery of DiscoveryModel, over all interleavings. *)
From Coq Require Import ZArith List Bool Lia Permutation String.
From Verif Require Import Base DiscoveryModel.
Import ListNotations.
Local Open Scope list_scope.
Local Open Scope Z_scope.

(** ** Sets *)
Lemma mem_iff : forall u l, mem u l = true <-> In u l.
Proof.
  intros u l. unfold mem. rewrite existsb_exists. split.
  - intros (v & I & E). destruct (url_eq_dec u v); [subst; exact I|discriminate].
  - intros I. exists u. split; [exact I|]. destruct (url_eq_dec u u); congruence.
Qed.
Lemma mem_not : forall u l, mem u l = false <-> ~ In u l.
Proof. intros u l. rewrite <- mem_iff. destruct (mem u l); split; congruence. Qed.
Lemma in_add : forall u v l, In u (add v l) <-> u = v \/ In u l.
Proof.
  intros u v l. unfold add. destruct (mem v l) eqn:E; cbn [In].
  - apply mem_iff in E. split; [right; assumption|intros [->|H]; assumption].
  - split; intros [H|H]; auto.
Qed.
Lemma nodup_add : forall v l, NoDup l -> NoDup (add v l).
Proof. intros v l N. unfold add. destruct (mem v l) eqn:E; [exact N|]. constructor; [apply mem_not; exact E|exact N]. Qed.
Lemma zlen_len : forall A (l : list A), Zlen l = Z.of_nat (length l).
Proof. reflexivity. Qed.

(** ** What is in flight: URLs to be sent, in the channel, being asked, or whose answer is on its way *)
Definition murl (m : msg) : list url :=
  match m with AddActive v | AddInactive v => [with_port None v] | CheckPeers _ => [] end.
Definition tmsgs (t : task) : list msg := match t with Asking _ => [] | Telling m ms => m :: ms end.
Definition turl (t : task) : list url := match t with Asking u => [u] | Telling m ms => flat_map murl (m :: ms) end.
Definition purl (p : place) : list url := match p with Seeding l => l | Draining m => murl m | _ => [] end.
Definition pmsgs (p : place) : list msg := match p with Draining m => [m] | _ => [] end.
Definition flight (s : state) : list url := purl (main s) ++ urlq s ++ flat_map turl (tasks s) ++ flat_map murl (msgq s).
Definition all (s : state) : list url := flight s ++ dead s.
Definition msgs (s : state) : list msg := pmsgs (main s) ++ flat_map tmsgs (tasks s) ++ msgq s.

Definition clean (u : url) : Prop := portable u = true /\ u_port u = None.
Definition good_msg (m : msg) : Prop :=
  match m with AddActive v | AddInactive v => portable v = true | CheckPeers _ => True end.

Lemma clean_site : forall a, clean (site a).
Proof. intros [[[] n] p]; split; reflexivity. Qed.
Lemma portable_port : forall p u, portable (with_port p u) = portable u.
Proof. reflexivity. Qed.
Lemma with_port_clean : forall p u, clean u -> with_port None (with_port p u) = u.
Proof. intros p [a b c d] [_ E]. cbn in E. subst. reflexivity. Qed.
Lemma clean_stripped : forall u, portable u = true -> clean (with_port None u).
Proof. intros u E. split; [exact E|reflexivity]. Qed.
Lemma set_port_ok : forall p u, portable u = true -> set_port_unwrap p u = Ok (with_port p u).
Proof. intros p u E. unfold set_port_unwrap. rewrite E. reflexivity. Qed.


Local Arguments url_eq_dec : simpl never.
Ltac eqs := repeat match goal with |- context [url_eq_dec ?a ?b] => destruct (url_eq_dec a b) end.
Ltac occs := apply (Permutation_count_occ url_eq_dec); intros ?x; unfold all, flight; cbn.
Ltac cnt := repeat (rewrite ?flat_map_app, ?count_occ_app; cbn); eqs; lia.

Section Inv.
Variables (cap : nat) (may : url -> outcome -> Prop).

(** What a step does to everything that is under way *)
Inductive effect (s s' : state) : Prop :=
| e_same : Permutation (all s') (all s) -> seeds s' = seeds s -> visited s' = visited s -> active s' = active s ->
    (main s = Seeding [] /\ main s' = Waiting /\ count s' = Zlen (seeds s) \/ main s <> Seeding [] /\ count s' = count s /\
     match main s with Seeding (_ :: _) => exists l, main s' = Seeding l | Done _ => main s' = main s | Waiting | Draining _ => main s' = Waiting \/ exists m, main s' = Draining m | _ => main s' = main s end
     \/ main s = Seeding [] /\ main s' = Seeding [] /\ count s' = count s) -> effect s s'
| e_more p : In p (stack s) -> ~ In (site p) (visited s) -> Permutation (all s') (site p :: all s) -> seeds s' = seeds s ->
    visited s' = add (site p) (visited s) -> active s' = active s -> count s' = count s + 1 -> main s' = main s ->
    (exists m, main s = Draining m) -> In (site p) (urlq s') -> effect s s'
| e_less m v : main s = Draining m -> murl m = [v] -> Permutation (v :: all s') (all s) -> seeds s' = seeds s ->
    visited s' = add v (visited s) ->
    active s' = (match m with AddActive _ => add v (active s) | _ => active s end) ->
    count s' = count s - 1 ->
    (count s' = 0 /\ main s' = Done (found s') \/ 0 < count s' /\ main s' = Waiting) -> effect s s'.

Lemma settle_eq : forall s, 1 <= count s ->
  settle s = set_main (if count s - 1 =? 0 then Done (found s) else Waiting) (set_count (count s - 1) s).
Proof. intros s H. unfold settle. destruct (count s <? 1) eqn:E; [lia|]. cbn. destruct (count s - 1 =? 0); reflexivity. Qed.

Lemma effect_handles : forall s m s', main s = Draining m -> good_msg m -> 1 <= count s -> handles s m s' -> effect s s'.
Proof.
  intros s m s' M G C H. destruct H as [u v E|u v E|u E|u E|ps qs P].
  - cbn in G. rewrite (set_port_ok _ _ G) in E. inversion E; subst; clear E.
    rewrite settle_eq by (cbn; exact C). apply (e_less _ _ (AddActive u) (with_port None u)); try reflexivity; try exact M.
    + occs. rewrite M. destruct (count s - 1 =? 0); cbn; cnt.
    + cbn. destruct (count s - 1 =? 0) eqn:Z0; [left|right]; split; try lia; reflexivity.
  - cbn in G. rewrite (set_port_ok _ _ G) in E. inversion E; subst; clear E.
    rewrite settle_eq by (cbn; exact C). apply (e_less _ _ (AddInactive u) (with_port None u)); try reflexivity; try exact M.
    + occs. rewrite M. destruct (count s - 1 =? 0); cbn; cnt.
    + cbn. destruct (count s - 1 =? 0) eqn:Z0; [left|right]; split; try lia; reflexivity.
  - cbn in G. rewrite (set_port_ok _ _ G) in E. discriminate.
  - cbn in G. rewrite (set_port_ok _ _ G) in E. discriminate.
  - apply e_same; destruct (adding s); cbn; auto; try (occs; rewrite M; cbn; cnt);
      right; left; rewrite M; (split; [discriminate|]); auto.
Qed.

Lemma told_url : forall u o, clean u -> flat_map turl (told u o) ++ dies u o = [u].
Proof. intros u o C. destruct o; cbn; rewrite ?with_port_clean by exact C; reflexivity. Qed.
Lemma still_url : forall ms, flat_map turl (still ms) = flat_map murl ms.
Proof. intros [|m ms]; cbn; [reflexivity|]. rewrite app_nil_r. reflexivity. Qed.
Lemma still_msgs : forall ms, flat_map tmsgs (still ms) = ms.
Proof. intros [|m ms]; cbn; [reflexivity|]. rewrite app_nil_r. reflexivity. Qed.

(** The invariant of shapes and of the count *)
Record inv (s : state) : Prop := {
  i_clean : Forall clean (all s);
  i_seeds : Forall clean (seeds s);
  i_msgs : Forall good_msg (msgs s);
  i_some : seeds s <> [];
  i_count : match main s with
            | Seeding _ => Zlen (all s) = Zlen (seeds s)
            | Waiting | Draining _ => count s = Zlen (all s) /\ 1 <= count s
            | Done l => count s = 0 /\ all s = [] /\ l = found s
            | Crashed => False
            end }.

Lemma keep_main : forall s : state,
  main s = Seeding [] /\ main s = Waiting /\ count s = Zlen (seeds s) \/ main s <> Seeding [] /\ count s = count s /\
     match main s with Seeding (_ :: _) => exists l, main s = Seeding l | Done _ => main s = main s | Waiting | Draining _ => main s = Waiting \/ exists m, main s = Draining m | _ => main s = main s end
     \/ main s = Seeding [] /\ main s = Seeding [] /\ count s = count s.
Proof.
  intros s. destruct (main s) as [[|u l]| |m|l|] eqn:E; auto; right; left; (split; [discriminate|]); split; eauto.
Qed.

Lemma asking_in : forall s l1 u l2, tasks s = l1 ++ Asking u :: l2 -> In u (all s).
Proof.
  intros s l1 u l2 T. unfold all, flight. rewrite T, flat_map_app. cbn [flat_map turl].
  apply in_app_iff. left. apply in_app_iff. right. apply in_app_iff. right. apply in_app_iff. left. apply in_app_iff. right. left. reflexivity.
Qed.
Lemma draining_in : forall s m, main s = Draining m -> In m (msgs s).
Proof. intros s m M. unfold msgs. rewrite M. left. reflexivity. Qed.

Lemma step_effect : forall k s s', inv s -> step cap may k s s' -> effect s s'.
Proof.
  intros k s s' I S. destruct S as [s u l M R|s M|s u q Q|s l1 u l2 o T Y|s l1 m ms l2 T R|s m q M Q|s M A|s m p st M St V|s m p st M St V R|s m p st s' M St V R H|s m s' M St H].
  - apply e_same; cbn; auto.
    + occs. rewrite M. cbn. cnt.
    + right. left. rewrite M. split; [discriminate|]. eauto.
  - apply e_same; cbn; auto. occs. rewrite M. cbn. cnt.
  - apply e_same; cbn; auto; [|apply keep_main]. occs. rewrite Q. cnt.
  - assert (C : clean u).
    { pose proof (i_clean s I) as X. rewrite Forall_forall in X. apply X. exact (asking_in s l1 u l2 T). }
    apply e_same; cbn; auto; [|apply keep_main].
    occs. rewrite T. pose proof (f_equal (fun l => count_occ url_eq_dec l x) (told_url u o C)) as W. cbn beta in W. rewrite count_occ_app in W. cbn in W.
    rewrite ?flat_map_app, ?count_occ_app. cbn. repeat rewrite ?flat_map_app, ?count_occ_app. destruct (url_eq_dec u x); lia.
  - apply e_same; cbn; auto; [|apply keep_main].
    occs. rewrite T. repeat (rewrite ?flat_map_app, ?count_occ_app; cbn). rewrite still_url. lia.
  - apply e_same; cbn; auto.
    + occs. rewrite M, Q. cbn. cnt.
    + right. left. rewrite M. split; [discriminate|]. eauto.
  - apply e_same; cbn; auto. apply keep_main.
  - apply e_same; cbn; auto. apply keep_main.
  - apply (e_more _ _ p); cbn; auto; [rewrite St; left; reflexivity|apply mem_not; exact V| |exists m; exact M|apply in_app_iff; right; left; reflexivity].
    generalize (site p). intros v. occs. cnt.
  - apply (effect_handles s m s' M); [|pose proof (i_count s I) as X; rewrite M in X; apply X|exact H].
    pose proof (i_msgs s I) as X. rewrite Forall_forall in X. apply X. apply draining_in. exact M.
  - apply (effect_handles s m s' M); [|pose proof (i_count s I) as X; rewrite M in X; apply X|exact H].
    pose proof (i_msgs s I) as X. rewrite Forall_forall in X. apply X. apply draining_in. exact M.
Qed.

(** New messages come from answers only *)
Lemma handles_msgs : forall s m s', main s = Draining m -> handles s m s' -> incl (msgs s') (msgs s).
Proof.
  intros s m s' M H x Hx. 
  assert (tasks s' = tasks s /\ msgq s' = msgq s /\ pmsgs (main s') = []) as (A & B & C).
  { destruct H; try (unfold settle; cbn; destruct (count s <? 1); cbn; [auto|destruct (count s - 1 =? 0); cbn; auto]; fail); cbn; auto; destruct (adding s); cbn; auto. }
  unfold msgs in *. rewrite A, B, C in Hx. apply in_app_iff. right. exact Hx.
Qed.
Lemma step_msgs : forall k s s' x, step cap may k s s' -> In x (msgs s') ->
  In x (msgs s) \/ exists l1 u l2 o, tasks s = l1 ++ Asking u :: l2 /\ may u o /\ In x (flat_map tmsgs (told u o)).
Proof.
  intros k s s' x S. destruct S as [s u l M R|s M|s u q Q|s l1 u l2 o T Y|s l1 m ms l2 T R|s m q M Q|s M A|s m p st M St V|s m p st M St V R|s m p st s' M St V R H|s m s' M St H]; intros I;
    try (left; exact (handles_msgs _ _ _ M H _ I)); unfold msgs in *; cbn in *.
  - left. rewrite M. exact I.
  - left. rewrite M. exact I.
  - left. exact I.
  - rewrite T. rewrite !flat_map_app, !in_app_iff in *. cbn [flat_map tmsgs app] in *. 
    destruct I as [I|[[I|[I|I]]|I]]; try (left; tauto). right; exists l1, u, l2, o; auto.
  - left. rewrite T. rewrite !flat_map_app, !in_app_iff in *. rewrite still_msgs in I. cbn [flat_map tmsgs app In] in *. rewrite in_app_iff. tauto.
  - left. rewrite M, Q. cbn. rewrite !in_app_iff in *. cbn. tauto.
  - left. exact I.
  - left. exact I.
  - left. exact I.
Qed.

Lemma told_good : forall u o m, clean u -> In m (flat_map tmsgs (told u o)) -> good_msg m.
Proof. intros u o m [C _] I. destruct o; cbn in I; repeat destruct I as [<-|I]; try contradiction; cbn; auto. Qed.

Lemma perm_len : forall (l l' : list url), Permutation l l' -> Zlen l = Zlen l'.
Proof. intros l l' P. rewrite !zlen_len. rewrite (Permutation_length P). reflexivity. Qed.

Lemma inv_step : forall k s s', inv s -> step cap may k s s' -> inv s'.
Proof.
  intros k s s' I S. pose proof (step_effect k s s' I S) as E.
  assert (Gm : Forall good_msg (msgs s')).
  { rewrite Forall_forall. intros x Hx. destruct (step_msgs k s s' x S Hx) as [J|(l1 & u & l2 & o & T & Y & J)].
    - pose proof (i_msgs s I) as X. rewrite Forall_forall in X. exact (X x J).
    - apply (told_good u o x); [|exact J]. pose proof (i_clean s I) as X. rewrite Forall_forall in X. apply X. exact (asking_in s l1 u l2 T). }
  destruct E as [P Sd V A C|p Ip Nv P Sd V A C M [m Mm]|m v M Mv P Sd V A C D].
  - constructor; auto.
    + apply (Permutation_Forall (Permutation_sym P)). exact (i_clean s I).
    + rewrite Sd. exact (i_seeds s I).
    + rewrite Sd. exact (i_some s I).
    + pose proof (i_count s I) as X. pose proof (perm_len _ _ P) as L. pose proof (i_some s I) as NE.
      destruct C as [(M0 & M1 & C)|[(M0 & C & M1)|(M0 & M1 & C)]].
      * rewrite M0 in X. rewrite M1. split; [lia|]. rewrite C. destruct (seeds s); [congruence|]. rewrite Zlen_cons. pose proof (Zlen_nonneg _ l). lia.
      * destruct (main s) as [[|a l]| |m|l|] eqn:Em.
        -- congruence.
        -- destruct M1 as [l' ->]. rewrite Sd. lia.
        -- destruct M1 as [->|[m' ->]]; lia.
        -- destruct M1 as [->|[m' ->]]; lia.
        -- rewrite M1. destruct X as (X1 & X2 & X3). rewrite X2 in P. apply Permutation_sym, Permutation_nil in P. unfold found in *. rewrite A, Sd. split; [lia|]. split; [exact P|exact X3].
        -- destruct X.
      * rewrite M0 in X. rewrite M1, Sd. lia.
  - constructor; auto.
    + apply (Permutation_Forall (Permutation_sym P)). constructor; [apply clean_site|exact (i_clean s I)].
    + rewrite Sd. exact (i_seeds s I).
    + rewrite Sd. exact (i_some s I).
    + pose proof (i_count s I) as X. pose proof (perm_len _ _ P) as L. rewrite Zlen_cons in L. rewrite M. rewrite Mm in *. lia.
  - constructor; auto.
    + pose proof (Permutation_Forall (Permutation_sym P) (i_clean s I)) as X. inversion X; assumption.
    + rewrite Sd. exact (i_seeds s I).
    + rewrite Sd. exact (i_some s I).
    + pose proof (i_count s I) as X. pose proof (perm_len _ _ P) as L. rewrite Zlen_cons in L. rewrite M in X.
      destruct D as [[D ->]|[D ->]]; [|lia]. split; [exact D|]. split; [|reflexivity].
      destruct (all s') as [|a l]; [reflexivity|]. rewrite Zlen_cons in L. pose proof (Zlen_nonneg _ l). lia.
Qed.

Lemma inv_begin : forall order, Forall clean order -> order <> [] -> inv (begin order).
Proof.
  intros order C N. assert (A : all (begin order) = order) by (unfold all, flight; cbn; rewrite !app_nil_r; reflexivity).
  constructor; auto.
  - rewrite A. exact C.
  - constructor.
  - cbn [main begin]. rewrite A. reflexivity.
Qed.
Lemma inv_run : forall ls s s', inv s -> run cap may ls s s' -> inv s'.
Proof. intros ls s s' I R. induction R; [exact I|]. apply (inv_step k s1 s2); auto. Qed.

(** ** The stack *)
Lemma handles_stack : forall s m s' p, main s = Draining m -> handles s m s' -> In p (stack s') ->
  In p (stack s) \/ exists ps, In (CheckPeers ps) (msgs s) /\ In p ps.
Proof.
  intros s m s' p M H I.
  destruct H as [u v E|u v E|u E|u E|ps qs P];
    try (left; revert I; unfold settle; cbn; destruct (count s <? 1); cbn; [auto|destruct (count s - 1 =? 0); cbn; auto]; fail); try (left; exact I).
  destruct (adding s); cbn in I; [|left; exact I]. apply in_app_iff in I. destruct I as [I|I]; [right|left; exact I].
  exists ps. split; [apply draining_in; exact M|]. apply (Permutation_in _ (Permutation_sym P)). exact I.
Qed.
Lemma step_stack : forall k s s' p, step cap may k s s' -> In p (stack s') ->
  In p (stack s) \/ exists ps, In (CheckPeers ps) (msgs s) /\ In p ps.
Proof.
  intros k s s' p0 S. destruct S as [s u l M R|s M|s u q Q|s l1 u l2 o T Y|s l1 m ms l2 T R|s m q M Q|s M A|s m p st M St V|s m p st M St V R|s m p st s' M St V R H|s m s' M St H]; intros I;
    try (exact (handles_stack _ _ _ _ M H I)); cbn in I; try (left; exact I); try (left; rewrite St; right; exact I).
  destruct I.
Qed.

(** ** What has been asked *)
Lemma handles_rest : forall s m s', handles s m s' -> asked s' = asked s /\ urlq s' = urlq s /\ tasks s' = tasks s /\ msgq s' = msgq s /\ adding s' = adding s /\ seeds s' = seeds s.
Proof.
  intros s m s' H. destruct H; unfold settle; cbn; repeat split; try reflexivity;
    repeat (match goal with |- context [if ?b then _ else _] => destruct b eqn:? end; cbn; try reflexivity; try congruence).
Qed.
Definition left_over (p : place) : list url := match p with Seeding l => l | _ => [] end.
Lemma handles_left : forall s m s', handles s m s' -> left_over (main s') = [].
Proof.
  intros s m s' H. destruct H; unfold settle; cbn; try reflexivity;
    repeat (match goal with |- context [if ?b then _ else _] => destruct b eqn:? end; cbn; try reflexivity).
Qed.
Definition sent (s : state) : list url := asked s ++ urlq s ++ left_over (main s).
Lemma step_sent : forall k s s', step cap may k s s' ->
  Permutation (sent s') (sent s) /\ incl (visited s) (visited s') \/
  exists p, In p (stack s) /\ ~ In (site p) (visited s) /\ Permutation (sent s') (site p :: sent s) /\ visited s' = add (site p) (visited s).
Proof.
  intros k s s' S. destruct S as [s u l M R|s M|s u q Q|s l1 u l2 o T Y|s l1 m ms l2 T R|s m q M Q|s M A|s m p st M St V|s m p st M St V R|s m p st s' M St V R H|s m s' M St H].
  all: try (left; split; [unfold sent; cbn; apply (Permutation_count_occ url_eq_dec); intros x; try rewrite M; try rewrite Q; cbn; cnt|apply incl_refl]; fail).
  - right. exists p. split; [rewrite St; left; reflexivity|]. split; [apply mem_not; exact V|]. split; [|reflexivity].
    generalize (site p). intros v. unfold sent; cbn. apply (Permutation_count_occ url_eq_dec); intros x. cbn. cnt.
  - left. pose proof (handles_rest _ _ _ H) as (A & B & _). pose proof (handles_left _ _ _ H) as L. split.
    + unfold sent. rewrite A, B, L, M. cbn. apply Permutation_refl.
    + intros x Hx. destruct H; unfold settle; cbn; repeat (match goal with |- context [if ?b then _ else _] => destruct b eqn:? end; cbn); rewrite ?in_add; auto.
  - left. pose proof (handles_rest _ _ _ H) as (A & B & _). pose proof (handles_left _ _ _ H) as L. split.
    + unfold sent. rewrite A, B, L, M. cbn. apply Permutation_refl.
    + intros x Hx. destruct H; unfold settle; cbn; repeat (match goal with |- context [if ?b then _ else _] => destruct b eqn:? end; cbn); rewrite ?in_add; auto.
Qed.
End Inv.

(** ** Runs *)
Lemma run_front : forall cap may k s s1 ls s2, step cap may k s s1 -> run cap may ls s1 s2 -> run cap may (ls ++ [k]) s s2.
Proof.
  intros cap may k s s1 ls s2 S R. induction R.
  - apply (run_snoc _ _ [] s s s0 k); [constructor|exact S].
  - cbn [app]. apply (run_snoc _ _ _ s s1 s2); [apply IHR; exact S|assumption].
Qed.
Lemma run_app : forall cap may ls1 ls2 s s1 s2, run cap may ls1 s s1 -> run cap may ls2 s1 s2 -> run cap may (ls2 ++ ls1) s s2.
Proof. intros cap may ls1 ls2 s s1 s2 A B. induction B; [exact A|]. cbn [app]. econstructor; eauto. Qed.

(** ** The seeds *)
Lemma seeds_set_spec : forall given set, seeds_set given = Ok set ->
  (forall u, In u set <-> In u (map (with_port None) given)) /\ NoDup set /\ Forall clean set.
Proof.
  induction given as [|g l IH]; intros set E; cbn in E.
  - inversion E; subst. split; [|split; constructor]. intros u. reflexivity.
  - unfold set_port_unwrap in E. destruct (portable g) eqn:P; [|discriminate]. cbn in E.
    destruct (seeds_set l) as [r| |] eqn:R; cbn in E; try discriminate. inversion E; subst. destruct (IH r eq_refl) as (A & N & C).
    split; [|split; [apply nodup_add; exact N|]].
    + intros u. rewrite in_add, A. cbn [map In]. intuition.
    + rewrite Forall_forall in *. intros u Hu. apply in_add in Hu. destruct Hu as [->|Hu]; [apply clean_stripped; exact P|apply C; exact Hu].
Qed.
Lemma seeds_set_ok : forall given, Forall (fun u => portable u = true) given -> exists set, seeds_set given = Ok set.
Proof.
  induction given as [|g l IH]; intros F; [exists []; reflexivity|]. inversion F; subst. destruct (IH H2) as [r E].
  cbn. unfold set_port_unwrap. rewrite H1. cbn. rewrite E. cbn. eauto.
Qed.
