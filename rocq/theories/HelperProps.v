(** Property C125: the global timer, for every interleaving of threads. *)
From Verif Require Import Base HelperModel.

(** ** Specification *)

(** The last thing a history asked for the delay [k]: a time, or to forget it. *)
Definition last_push (l : list hact) (k : nat) : option (option Z) :=
  fold_left (fun acc a =>
    match a with
    | HPush n t => if Nat.eqb n k then Some t else acc
    | _ => acc
    end) l None.

Definition last_of (q : list update) (k : nat) : option (option Z) :=
  fold_left (fun acc u => if Nat.eqb (fst u) k then Some (snd u) else acc) q None.

(** Actions of the helper thread itself. *)
Definition helper_act (a : hact) : Prop := a = HStep \/ a = HUnpark \/ a = HTimeout.

(** ** Lemmas *)

Lemma last_push_snoc : forall l a k,
  last_push (l ++ [a]) k =
  match a with
  | HPush n t => if Nat.eqb n k then Some t else last_push l k
  | _ => last_push l k
  end.
Proof. intros l a k. unfold last_push. rewrite fold_left_app. reflexivity. Qed.

Lemma last_of_snoc : forall q u k,
  last_of (q ++ [u]) k = if Nat.eqb (fst u) k then Some (snd u) else last_of q k.
Proof. intros q u k. unfold last_of. rewrite fold_left_app. reflexivity. Qed.

Lemma last_of_nil : forall q, (forall k, last_of q k = None) -> q = [].
Proof.
  intros q. destruct q as [|u q _] using rev_ind; [reflexivity|].
  intros H. specialize (H (fst u)). rewrite last_of_snoc, Nat.eqb_refl in H. discriminate.
Qed.

Lemma in_unschedule : forall k l e, In e (unschedule k l) <-> In e l /\ fst e <> k.
Proof.
  intros k l e. unfold unschedule. rewrite filter_In.
  destruct (Nat.eqb_spec (fst e) k); cbn; intuition congruence.
Qed.

Lemma in_apply_all : forall q h k t,
  In (k, t) (apply_all q h) <->
  last_of q k = Some (Some t) \/ (last_of q k = None /\ In (k, t) h).
Proof.
  induction q as [|[n x] q IH] using rev_ind; intros h k t.
  - cbn. intuition discriminate.
  - unfold apply_all in *. rewrite fold_left_app. cbn [fold_left]. rewrite last_of_snoc.
    cbn [fst snd]. unfold apply1. cbn [fst snd]. destruct x as [x|].
    + cbn [In]. rewrite in_unschedule. cbn [fst]. rewrite IH.
      destruct (Nat.eqb_spec n k).
      * subst. split.
        -- intros [E|[_ E]]; [injection E as <-; auto|congruence].
        -- intros [E|[E _]]; [injection E as <-; auto|discriminate].
      * split.
        -- intros [E|[E _]]; [congruence|exact E].
        -- intros E. right. split; [exact E|congruence].
    + rewrite in_unschedule. cbn [fst]. rewrite IH.
      destruct (Nat.eqb_spec n k).
      * subst. intuition congruence.
      * intuition.
Qed.

Lemma min_time_spec : forall l,
  match min_time l with
  | None => l = []
  | Some m => (exists k, In (k, m) l) /\ forall k t, In (k, t) l -> m <= t
  end.
Proof.
  induction l as [|[k t] l IH]; [reflexivity|]. cbn [min_time].
  destruct (min_time l) as [m|].
  - destruct IH as [[j J] IH]. split.
    + destruct (Z.min_spec t m) as [[_ ->]|[_ ->]]; [exists k; left|exists j; right]; auto.
    + intros k' t' [E|E]; [injection E as <- <-|apply IH in E]; lia.
  - subst l. split; [exists k; left; reflexivity|]. intros k' t' [E|[]].
    injection E as <- <-. lia.
Qed.

Lemma hrun_app : forall l1 l2 s,
  hrun s (l1 ++ l2) = match hrun s l1 with Some s' => hrun s' l2 | None => None end.
Proof.
  induction l1 as [|a l1 IH]; intros l2 s; cbn [hrun app]; [reflexivity|].
  destruct (hdo s a); [apply IH|reflexivity].
Qed.

Lemma hrun_snoc_ind : forall t0 (P : hst -> list hact -> Prop),
  P (hinit t0) [] ->
  (forall s l a s', P s l -> hdo s a = Some s' -> P s' (l ++ [a])) ->
  forall l s, hrun (hinit t0) l = Some s -> P s l.
Proof.
  intros t0 P H0 HS l. induction l as [|a l IH] using rev_ind; intros s E.
  - cbn in E. congruence.
  - rewrite hrun_app in E. destruct (hrun (hinit t0) l) as [s1|] eqn:E1; [|discriminate].
    cbn [hrun] in E. destruct (hdo s1 a) as [s2|] eqn:E2; [|discriminate].
    injection E as <-. eapply HS; eauto.
Qed.

Ltac hcases E :=
  match type of E with
  | hdo ?s ?a = Some _ =>
      destruct s as [q w k h now d p sg f c]; destruct a; cbn [hdo hstep] in E;
      repeat match type of E with
             | (match ?x with _ => _ end) = _ => destruct x eqn:?
             end; try discriminate E; injection E as E; subst
  end.

(** Control: no wake-up and no stop is lost. *)
Definition control (s : hst) : Prop :=
  match pc s with
  | Check => True
  | Register => done s = true -> token s = true \/ stopping s = true
  | Take => (waker s = true \/ token s = true) /\
            (done s = true -> token s = true \/ stopping s = true)
  | Advance | Next =>
      (waker s = true \/ token s = true) /\
      (queue s <> [] -> token s = true \/ (0 < pushing s)%nat) /\
      (done s = true -> token s = true \/ stopping s = true)
  | Park w | Blocked w =>
      (waker s = true \/ token s = true) /\
      (queue s <> [] -> token s = true \/ (0 < pushing s)%nat) /\
      (done s = true -> token s = true \/ stopping s = true) /\
      w = min_time (timers s)
  | Exited => done s = true
  end.

Lemma control_ok : forall t0 l s, hrun (hinit t0) l = Some s -> control s.
Proof.
  intros t0. apply (hrun_snoc_ind t0 (fun s l => control s)).
  - exact I.
  - intros s l a s' C E.
    hcases E; unfold control in *; cbn [pc queue waker token timers done pushing stopping] in *;
      subst; auto.
    all: repeat match goal with
         | |- context [if ?b then _ else _] => destruct b eqn:?
         | |- context [match ?x with Check => _ | _ => _ end] => destruct x eqn:?
         | |- context [match ?x with Some _ => _ | None => _ end] => destruct x eqn:?
         end; subst; auto; try tauto; try (intuition (auto; try congruence; try lia)).
    all: destruct w; destruct k; cbn; intuition (auto; try congruence; try lia).
    all: repeat match goal with
         | H : context [match min_time ?h with _ => _ end] |- _ => destruct (min_time h) eqn:?
         | H : context [if ?b then _ else _] |- _ => destruct b eqn:?
         end; congruence.
Qed.


(** Contents: what is queued and scheduled is what was asked for last, what was
    asked for last is queued, scheduled or was fired. *)
Definition pending (s : hst) (k : nat) (t : Z) : Prop :=
  last_of (queue s) k = Some (Some t) \/
  (last_of (queue s) k = None /\ In (k, t) (timers s)).

Definition contents (s : hst) (l : list hact) : Prop :=
  (forall k u, last_of (queue s) k = Some u -> last_push l k = Some u) /\
  (forall k t, last_of (queue s) k = None -> In (k, t) (timers s) ->
     last_push l k = Some (Some t)) /\
  (forall k t, last_push l k = Some (Some t) ->
     pending s k t \/ exists at_, In (k, t, at_) (fired s)) /\
  (forall k t at_, In (k, t, at_) (fired s) ->
     t <= at_ <= clock s /\ In (HPush k (Some t)) l) /\
  (forall k t, In (k, t) (timers s) -> In (HPush k (Some t)) l).

Lemma last_push_in : forall l k u, last_push l k = Some u -> In (HPush k u) l.
Proof.
  induction l as [|a l IH] using rev_ind; intros k u E; [discriminate|].
  rewrite last_push_snoc in E. apply in_or_app.
  destruct a as [| | | |d|n t| | |]; try (left; apply IH; exact E).
  destruct (Nat.eqb_spec n k); [|left; apply IH; exact E].
  injection E as <-. subst. right. left. reflexivity.
Qed.

Definition is_push (a : hact) : bool := match a with HPush _ _ => true | _ => false end.

Lemma last_push_other : forall l a k, is_push a = false ->
  last_push (l ++ [a]) k = last_push l k.
Proof. intros l a k H. rewrite last_push_snoc. destruct a; try reflexivity. discriminate. Qed.

(** Actions that touch neither queue, heap nor what was fired. *)
Lemma contents_same : forall s s' l a, is_push a = false ->
  queue s' = queue s -> timers s' = timers s -> fired s' = fired s -> clock s <= clock s' ->
  contents s l -> contents s' (l ++ [a]).
Proof.
  intros s s' l a P Q T F K (C1 & C2 & C3 & C4 & C5). unfold contents, pending.
  rewrite Q, T, F. split; [|split; [|split; [|split]]].
  - intros k u H. rewrite last_push_other by exact P. auto.
  - intros k t H1 H2. rewrite last_push_other by exact P. auto.
  - intros k t H. rewrite last_push_other in H by exact P. apply C3. exact H.
  - intros k t at_ H. destruct (C4 _ _ _ H). split; [lia|]. apply in_or_app. auto.
  - intros k t H. apply in_or_app. auto.
Qed.

Lemma contents_push : forall s s' l n t,
  queue s' = queue s ++ [(n, t)] -> timers s' = timers s -> fired s' = fired s ->
  clock s' = clock s -> contents s l -> contents s' (l ++ [HPush n t]).
Proof.
  intros s s' l n t Q T F K (C1 & C2 & C3 & C4 & C5). unfold contents, pending.
  rewrite Q, T, F, K. split; [|split; [|split; [|split]]].
  - intros k u. rewrite last_of_snoc, last_push_snoc. cbn [fst snd].
    destruct (Nat.eqb n k); auto.
  - intros k x. rewrite last_of_snoc, last_push_snoc. cbn [fst snd].
    destruct (Nat.eqb n k); [discriminate|auto].
  - intros k x. rewrite last_of_snoc, last_push_snoc. cbn [fst snd].
    destruct (Nat.eqb n k); [auto|]. apply C3.
  - intros k x at_ H. destruct (C4 _ _ _ H). split; [lia|]. apply in_or_app. auto.
  - intros k x H. apply in_or_app. auto.
Qed.

Lemma contents_ok : forall t0 l s, hrun (hinit t0) l = Some s -> contents s l.
Proof.
  intros t0. apply (hrun_snoc_ind t0 contents).
  - unfold contents, pending. cbn. repeat split; try discriminate; contradiction.
  - intros s l a s' C E.
    hcases E;
      try (refine ((fun P Q T F K => contents_same _ _ _ _ P Q T F K C) _ _ _ _ _);
           [reflexivity|reflexivity|reflexivity|reflexivity|cbn [clock]; lia]);
      try (refine ((fun Q T F K => contents_push _ _ _ _ _ Q T F K C) _ _ _ _); reflexivity);
      destruct C as (C1 & C2 & C3 & C4 & C5); unfold contents, pending in *;
      cbn [queue timers fired clock] in *.
    + (* take *)
      split; [|split; [|split; [|split]]].
      * intros k' u H. cbn in H. discriminate H.
      * intros k' t _ H. rewrite last_push_other by reflexivity. apply in_apply_all in H.
        destruct H as [H|[H1 H2]]; auto.
      * intros k' t H. rewrite last_push_other in H by reflexivity. cbn [last_of fold_left].
        rewrite in_apply_all. destruct (C3 _ _ H) as [[Q|[Q1 Q2]]|Q]; auto 6.
      * intros k' t at_ H. destruct (C4 _ _ _ H). split; [lia|]. apply in_or_app. auto.
      * intros k' t H. apply in_or_app. left. apply in_apply_all in H.
        destruct H as [H|[H1 H2]]; [|auto]. apply last_push_in. auto.
    + (* advance *)
      split; [|split; [|split; [|split]]].
      * intros k' u H. rewrite last_push_other by reflexivity. auto.
      * intros k' t H1 H2. rewrite last_push_other by reflexivity.
        apply filter_In in H2. apply C2; tauto.
      * intros k' t H. rewrite last_push_other in H by reflexivity.
        destruct (C3 _ _ H) as [[Q|[Q1 Q2]]|[at_ Q]].
        -- auto.
        -- destruct (t <=? now) eqn:D.
           ++ right. exists now. apply in_or_app. left. apply in_map_iff.
              exists (k', t). split; [reflexivity|]. apply filter_In. auto.
           ++ left. right. split; [exact Q1|]. apply filter_In. split; [exact Q2|].
              cbn [snd]. rewrite D. reflexivity.
        -- right. exists at_. apply in_or_app. auto.
      * intros k' t at_ H. apply in_app_or in H. destruct H as [H|H].
        -- apply in_map_iff in H. destruct H as ([k2 t2] & H & D). injection H as <- <- <-.
           unfold due in D. apply filter_In in D. destruct D as [D1 D2].
           cbn [fst snd] in *. split; [lia|]. apply in_or_app. auto.
        -- destruct (C4 _ _ _ H). split; [lia|]. apply in_or_app. auto.
      * intros k' t H. apply in_or_app. left. apply filter_In in H. apply C5. tauto.
Qed.

(** ** The helper thread *)

(** The thread sleeps only when there is nothing to do: whenever it is parked
    without a token and no other thread is in the middle of handing something
    over, no update waits, and it will wake up by itself at the time of the
    earliest delay, or there is none. *)
Theorem c125_sleeps_when_idle : forall t0 l s w,
  hrun (hinit t0) l = Some s -> pc s = Blocked w -> token s = false -> pushing s = 0%nat ->
  queue s = [] /\
  match w with
  | None => timers s = []
  | Some m => (exists k, In (k, m) (timers s)) /\ forall k t, In (k, t) (timers s) -> m <= t
  end.
Proof.
  intros t0 l s w E P T N. pose proof (control_ok _ _ _ E) as C. unfold control in C.
  rewrite P, T, N in C. destruct C as (_ & Q & _ & M). split.
  - destruct (queue s); [reflexivity|]. destruct Q; [discriminate|discriminate|lia].
  - subst w. apply min_time_spec.
Qed.

(** No delay is lost and none fires early: what was last asked for a delay is
    still waiting or was done, at its time or later. *)
Theorem c125_no_lost_delay : forall t0 l s k t,
  hrun (hinit t0) l = Some s -> last_push l k = Some (Some t) ->
  pending s k t \/ exists at_, In (k, t, at_) (fired s) /\ t <= at_ <= clock s.
Proof.
  intros t0 l s k t E P. destruct (contents_ok _ _ _ E) as (_ & _ & C3 & C4 & _).
  destruct (C3 _ _ P) as [H|[at_ H]]; [auto|]. right. exists at_.
  split; [exact H|]. apply (C4 _ _ _ H).
Qed.

(** Whatever fired had been asked for and was due. *)
Theorem c125_fired_when_due : forall t0 l s k t at_,
  hrun (hinit t0) l = Some s -> In (k, t, at_) (fired s) ->
  t <= at_ <= clock s /\ In (HPush k (Some t)) l.
Proof.
  intros t0 l s k t at_ E H. destruct (contents_ok _ _ _ E) as (_ & _ & _ & C4 & _). eauto.
Qed.

(** When the updates have been taken over, only the last time of each delay is
    scheduled, and nothing for a dropped one. *)
Theorem c125_current : forall t0 l s k t,
  hrun (hinit t0) l = Some s -> queue s = [] -> In (k, t) (timers s) ->
  last_push l k = Some (Some t).
Proof.
  intros t0 l s k t E Q H. destruct (contents_ok _ _ _ E) as (_ & C2 & _).
  apply C2; [rewrite Q; reflexivity|exact H].
Qed.

(** From the beginning of its loop the thread fires whatever is due in four
    steps. *)
Lemma loop_fires : forall s k t,
  pc s = Check -> done s = false -> pending s k t -> t <= clock s ->
  exists s', hrun s [HStep; HStep; HStep; HStep] = Some s' /\ In (k, t, clock s) (fired s').
Proof.
  intros [q w tk h now d p sg f c] k t P D PE T. cbn in *. subst.
  eexists. split; [reflexivity|]. cbn [fired]. apply in_or_app. left. apply in_map_iff.
  exists (k, t). split; [reflexivity|]. apply filter_In. split; [|cbn; lia].
  apply in_apply_all. exact PE.
Qed.

Lemma then_loop : forall s s1 l1 k t,
  hrun s l1 = Some s1 -> Forall helper_act l1 -> (List.length l1 <= 4)%nat ->
  pc s1 = Check -> done s1 = false -> pending s1 k t -> t <= clock s1 -> clock s1 = clock s ->
  exists l' s', Forall helper_act l' /\ (List.length l' <= 8)%nat /\
    hrun s l' = Some s' /\ In (k, t, clock s) (fired s').
Proof.
  intros s s1 l1 k t E F L P D PE T K.
  destruct (loop_fires s1 k t P D PE T) as (s' & E' & H).
  exists (l1 ++ [HStep; HStep; HStep; HStep]), s'. split; [|split; [|split]].
  - apply Forall_app. split; [exact F|]. repeat (apply Forall_cons; [left; reflexivity|]). constructor.
  - rewrite app_length. cbn [List.length]. lia.
  - rewrite hrun_app, E. exact E'.
  - rewrite <- K. exact H.
Qed.

Ltac hacts := repeat (apply Forall_cons; [unfold helper_act; auto|]); apply Forall_nil.

(** A delay that is due is fired by at most eight steps of the helper thread
    alone, wherever it is and even if it is parked. *)
Theorem c125_fires : forall t0 l s k t,
  hrun (hinit t0) l = Some s -> done s = false -> pushing s = 0%nat ->
  pending s k t -> t <= clock s ->
  exists l' s', Forall helper_act l' /\ (List.length l' <= 8)%nat /\
    hrun s l' = Some s' /\ In (k, t, clock s) (fired s').
Proof.
  intros t0 l s k t E D N PE T. pose proof (control_ok _ _ _ E) as C. clear E l.
  destruct s as [q w tk h now d p sg f c].
  cbn [done pushing clock] in D, N, T. subst d p.
  assert (DUE : forall m, min_time h = m -> last_of q k = None -> In (k, t) h ->
            exists x, m = Some x /\ x <= now).
  { intros m M _ IH. pose proof (min_time_spec h) as S. rewrite M in S. destruct m as [x|].
    - exists x. split; [reflexivity|]. destruct S as [_ S]. specialize (S _ _ IH). lia.
    - subst h. contradiction. }
  assert (QN : last_of q k = Some (Some t) -> q <> []) by (intros H Q; subst; discriminate H).
  destruct c; unfold control in C; cbn [pc queue waker token timers done pushing stopping] in C.
  - eapply (then_loop _ _ [] k t); [reflexivity|constructor|cbn; lia|reflexivity|reflexivity|exact PE|exact T|reflexivity].
  - (* Register *)
    exists [HStep; HStep; HStep]. eexists. split; [hacts|]. split; [cbn; lia|].
    split; [reflexivity|]. cbn [fired clock]. apply in_or_app. left. apply in_map_iff.
    exists (k, t). split; [reflexivity|]. apply filter_In. split; [|cbn; lia].
    apply in_apply_all. exact PE.
  - (* Take *)
    exists [HStep; HStep]. eexists. split; [hacts|]. split; [cbn; lia|].
    split; [reflexivity|]. cbn [fired clock]. apply in_or_app. left. apply in_map_iff.
    exists (k, t). split; [reflexivity|]. apply filter_In. split; [|cbn; lia].
    apply in_apply_all. exact PE.
  - (* Advance *)
    destruct PE as [Q|[Q IH]]; cbn [queue timers] in *.
    + destruct C as (_ & C & _). destruct (C (QN Q)) as [K|K]; [subst tk|lia].
      destruct (min_time (not_due now h)) as [m|] eqn:M.
      * destruct (now <? m) eqn:LT.
        -- eapply (then_loop _ _ [HStep; HStep; HStep] k t);
             [cbn [hrun hdo hstep]; rewrite M, LT; reflexivity|hacts|cbn; lia|reflexivity|reflexivity|left; exact Q|exact T|reflexivity].
        -- eapply (then_loop _ _ [HStep; HStep] k t);
             [cbn [hrun hdo hstep]; rewrite M, LT; reflexivity|hacts|cbn; lia|reflexivity|reflexivity|left; exact Q|exact T|reflexivity].
      * eapply (then_loop _ _ [HStep; HStep; HStep] k t);
             [cbn [hrun hdo hstep]; rewrite M; reflexivity|hacts|cbn; lia|reflexivity|reflexivity|left; exact Q|exact T|reflexivity].
    + exists [HStep]. eexists. split; [hacts|]. split; [cbn; lia|].
      split; [reflexivity|]. cbn [fired clock]. apply in_or_app. left. apply in_map_iff.
      exists (k, t). split; [reflexivity|]. apply filter_In. split; [exact IH|cbn; lia].
  - (* Next *)
    destruct (min_time h) as [m|] eqn:M.
    + destruct (now <? m) eqn:LT.
      * destruct PE as [Q|[Q IH]]; cbn [queue timers] in *.
        -- destruct C as (_ & C & _). destruct (C (QN Q)) as [K|K]; [subst tk|lia].
           eapply (then_loop _ _ [HStep; HStep] k t);
             [cbn [hrun hdo hstep]; rewrite M, LT; reflexivity|hacts|cbn; lia|reflexivity|reflexivity|left; exact Q|exact T|reflexivity].
        -- destruct (DUE _ eq_refl Q IH) as (x & X & Y). injection X as <-. lia.
      * eapply (then_loop _ _ [HStep] k t);
             [cbn [hrun hdo hstep]; rewrite M, LT; reflexivity|hacts|cbn; lia|reflexivity|reflexivity|exact PE|exact T|reflexivity].
    + destruct PE as [Q|[Q IH]]; cbn [queue timers] in *.
      * destruct C as (_ & C & _). destruct (C (QN Q)) as [K|K]; [subst tk|lia].
        eapply (then_loop _ _ [HStep; HStep] k t);
             [cbn [hrun hdo hstep]; rewrite M; reflexivity|hacts|cbn; lia|reflexivity|reflexivity|left; exact Q|exact T|reflexivity].
      * destruct (DUE _ eq_refl Q IH) as (x & X & Y). discriminate.
  - (* Park *)
    destruct tk.
    + eapply (then_loop _ _ [HStep] k t);
        [reflexivity|hacts|cbn; lia|reflexivity|reflexivity|exact PE|exact T|reflexivity].
    + destruct C as (_ & C & _ & M). destruct PE as [Q|[Q IH]]; cbn [queue timers] in *.
      * destruct (C (QN Q)) as [K|K]; [discriminate|lia].
      * destruct (DUE _ eq_refl Q IH) as (x & X & Y). rewrite X in M. subst w0.
        eapply (then_loop _ _ [HStep; HTimeout] k t);
          [cbn [hrun hdo hstep]; replace (x <=? now) with true by lia; reflexivity
          |hacts|cbn; lia|reflexivity|reflexivity|right; split; [exact Q|exact IH]|exact T|reflexivity].
  - (* Blocked *)
    destruct tk.
    + eapply (then_loop _ _ [HUnpark] k t);
        [reflexivity|hacts|cbn; lia|reflexivity|reflexivity|exact PE|exact T|reflexivity].
    + destruct C as (_ & C & _ & M). destruct PE as [Q|[Q IH]]; cbn [queue timers] in *.
      * destruct (C (QN Q)) as [K|K]; [discriminate|lia].
      * destruct (DUE _ eq_refl Q IH) as (x & X & Y). rewrite X in M. subst w0.
        eapply (then_loop _ _ [HTimeout] k t);
          [cbn [hrun hdo hstep]; replace (x <=? now) with true by lia; reflexivity
          |hacts|cbn; lia|reflexivity|reflexivity|right; split; [exact Q|exact IH]|exact T|reflexivity].
  - discriminate C.
Qed.

(** Stopping is not lost either: once it was asked for, the thread leaves its
    loop within six steps of its own, so that joining it ends. *)
Theorem c125_stops : forall t0 l s,
  hrun (hinit t0) l = Some s -> done s = true -> stopping s = false ->
  exists l' s', Forall helper_act l' /\ (List.length l' <= 6)%nat /\
    hrun s l' = Some s' /\ pc s' = Exited.
Proof.
  intros t0 l s E D S. pose proof (control_ok _ _ _ E) as C. clear E l.
  destruct s as [q w tk h now d p sg f c].
  cbn [done stopping] in D, S. subst d sg.
  assert (TK : c <> Check -> c <> Exited -> tk = true).
  { intros N1 N2. destruct c; unfold control in C;
      cbn [pc queue waker token timers done pushing stopping] in C; try congruence;
      destruct tk; auto; intuition congruence. }
  assert (GO : forall s1 l1, hrun (mk_h q w tk h now true p false f c) l1 = Some s1 ->
     Forall helper_act l1 -> (List.length l1 <= 5)%nat -> pc s1 = Check -> done s1 = true ->
     exists l' s', Forall helper_act l' /\ (List.length l' <= 6)%nat /\
       hrun (mk_h q w tk h now true p false f c) l' = Some s' /\ pc s' = Exited).
  { intros s1 l1 E F L P D. exists (l1 ++ [HStep]).
    destruct s1 as [q1 w1 tk1 h1 now1 d1 p1 sg1 f1 c1]. cbn in P, D. subst.
    eexists. split; [apply Forall_app; split; [exact F|hacts]|].
    split; [rewrite app_length; cbn; lia|]. rewrite hrun_app, E. split; reflexivity. }
  destruct c.
  - eapply (GO _ []); [reflexivity|constructor|cbn; lia|reflexivity|reflexivity].
  - rewrite (TK ltac:(discriminate) ltac:(discriminate)) in *.
    destruct (min_time (not_due now (apply_all q h))) as [m|] eqn:M;
      [destruct (now <? m) eqn:LT|].
    + eapply (GO _ [HStep; HStep; HStep; HStep; HStep]);
        [cbn [hrun hdo hstep]; rewrite M, LT; reflexivity|hacts|cbn; lia|reflexivity|reflexivity].
    + eapply (GO _ [HStep; HStep; HStep; HStep]);
        [cbn [hrun hdo hstep]; rewrite M, LT; reflexivity|hacts|cbn; lia|reflexivity|reflexivity].
    + eapply (GO _ [HStep; HStep; HStep; HStep; HStep]);
        [cbn [hrun hdo hstep]; rewrite M; reflexivity|hacts|cbn; lia|reflexivity|reflexivity].
  - rewrite (TK ltac:(discriminate) ltac:(discriminate)) in *.
    destruct (min_time (not_due now (apply_all q h))) as [m|] eqn:M;
      [destruct (now <? m) eqn:LT|].
    + eapply (GO _ [HStep; HStep; HStep; HStep]);
        [cbn [hrun hdo hstep]; rewrite M, LT; reflexivity|hacts|cbn; lia|reflexivity|reflexivity].
    + eapply (GO _ [HStep; HStep; HStep]);
        [cbn [hrun hdo hstep]; rewrite M, LT; reflexivity|hacts|cbn; lia|reflexivity|reflexivity].
    + eapply (GO _ [HStep; HStep; HStep; HStep]);
        [cbn [hrun hdo hstep]; rewrite M; reflexivity|hacts|cbn; lia|reflexivity|reflexivity].
  - rewrite (TK ltac:(discriminate) ltac:(discriminate)) in *.
    destruct (min_time (not_due now h)) as [m|] eqn:M;
      [destruct (now <? m) eqn:LT|].
    + eapply (GO _ [HStep; HStep; HStep]);
        [cbn [hrun hdo hstep]; rewrite M, LT; reflexivity|hacts|cbn; lia|reflexivity|reflexivity].
    + eapply (GO _ [HStep; HStep]);
        [cbn [hrun hdo hstep]; rewrite M, LT; reflexivity|hacts|cbn; lia|reflexivity|reflexivity].
    + eapply (GO _ [HStep; HStep; HStep]);
        [cbn [hrun hdo hstep]; rewrite M; reflexivity|hacts|cbn; lia|reflexivity|reflexivity].
  - rewrite (TK ltac:(discriminate) ltac:(discriminate)) in *.
    destruct (min_time h) as [m|] eqn:M; [destruct (now <? m) eqn:LT|].
    + eapply (GO _ [HStep; HStep]);
        [cbn [hrun hdo hstep]; rewrite M, LT; reflexivity|hacts|cbn; lia|reflexivity|reflexivity].
    + eapply (GO _ [HStep]);
        [cbn [hrun hdo hstep]; rewrite M, LT; reflexivity|hacts|cbn; lia|reflexivity|reflexivity].
    + eapply (GO _ [HStep; HStep]);
        [cbn [hrun hdo hstep]; rewrite M; reflexivity|hacts|cbn; lia|reflexivity|reflexivity].
  - rewrite (TK ltac:(discriminate) ltac:(discriminate)) in *.
    eapply (GO _ [HStep]); [reflexivity|hacts|cbn; lia|reflexivity|reflexivity].
  - rewrite (TK ltac:(discriminate) ltac:(discriminate)) in *.
    eapply (GO _ [HUnpark]); [reflexivity|hacts|cbn; lia|reflexivity|reflexivity].
  - exists [], (mk_h q w tk h now true p false f Exited).
    split; [constructor|]. split; [cbn; lia|]. split; reflexivity.
Qed.

(** ** The global handle *)

(** A thread that has made a helper and not yet installed or given it up. *)
Definition deciding (p : gpc) : Prop :=
  match p with GCas | GReload | GShutdown _ => True | _ => False end.

(** How often thread [i] took a step. *)
Definition steps_of (i : nat) (l : list (nat * bool)) : nat :=
  List.length (filter (fun e => Nat.eqb (fst e) i) l).

Definition rank (p : gpc) : nat :=
  match p with
  | GLoad => 6 | GCreate => 5 | GCas => 4 | GReload => 3 | GShutdown _ => 2 | GAssert _ => 1
  | Returned _ | Panicked => 0
  end.

Definition thread_ok (fb : option nat) (l : list (nat * bool)) (i : nat) (p : gpc) : Prop :=
  match p with
  | GLoad | GCreate | GCas => True
  | GReload => fb <> None
  | GShutdown v | GAssert v => v = fb /\ v <> None
  | Returned (Some v) => fb = Some v
  | Returned None => In (i, false) l
  | Panicked => False
  end.

Definition ginv (s : gst) (l : list (nat * bool)) : Prop :=
  (forall i, thread_ok (fallback s) l i (where_ s i)) /\
  (forall v, fallback s = Some v ->
     In (v, Running) (helpers s) /\ where_ s v = Returned (Some v)) /\
  (forall j, In (j, Running) (helpers s) ->
     fallback s = Some j \/ deciding (where_ s j)) /\
  (forall i, where_ s i = GCas -> In (i, Running) (helpers s)) /\
  (forall i, (rank (where_ s i) + steps_of i l <= 6 \/ rank (where_ s i) = 0)%nat).

Lemma grun_snoc : forall l s i ok, grun s (l ++ [(i, ok)]) = gstep (grun s l) i ok.
Proof. induction l as [|[j b] l IH]; intros; cbn [grun app]; [reflexivity|apply IH]. Qed.

Lemma in_stop : forall i j l, In (j, Running) (stop_helper i l) <-> In (j, Running) l /\ j <> i.
Proof.
  intros i j l. unfold stop_helper. rewrite in_map_iff. split.
  - intros ([k x] & E & H). cbn [fst] in E. destruct (Nat.eqb_spec k i); [discriminate|].
    injection E as -> ->. auto.
  - intros [H N]. exists (j, Running). cbn [fst]. destruct (Nat.eqb_spec j i); [congruence|auto].
Qed.

Lemma steps_snoc : forall i j b l,
  steps_of i (l ++ [(j, b)]) = (steps_of i l + if Nat.eqb j i then 1 else 0)%nat.
Proof.
  intros. unfold steps_of. rewrite filter_app, app_length. cbn [filter fst].
  destruct (Nat.eqb j i); reflexivity.
Qed.

Lemma gset_same : forall f i x, gset f i x i = x.
Proof. intros. unfold gset. rewrite Nat.eqb_refl. reflexivity. Qed.

Lemma gset_other : forall f i x j, j <> i -> gset f i x j = f j.
Proof. intros. unfold gset. destruct (Nat.eqb_spec j i); congruence. Qed.

Lemma thread_ok_more : forall fb l a i p, thread_ok fb l i p -> thread_ok fb (l ++ [a]) i p.
Proof.
  intros fb l a i p. destruct p as [| | | | | |[v|]|]; cbn; auto. intros. apply in_or_app. auto.
Qed.

Lemma thread_ok_install : forall l i p v, thread_ok None l i p -> thread_ok (Some v) l i p.
Proof.
  intros l i p v. destruct p as [| | | |x|x|[x|]|]; cbn; auto; try discriminate;
    try (intros [-> H]; contradiction). 
Qed.

Lemma ginv_ok : forall l, ginv (grun ginit l) l.
Proof.
  induction l as [|[i ok] l IH] using rev_ind.
  - unfold ginv. cbn. repeat split; try discriminate; try contradiction. left. lia.
  - rewrite grun_snoc. destruct (grun ginit l) as [fb hs f]. clear -IH.
    destruct IH as (G1 & G2 & G3 & G4 & G5). cbn [fallback helpers where_] in *.
    assert (R : forall x, (rank x < rank (f i) \/ rank x = 0)%nat ->
              forall j, (rank (gset f i x j) + steps_of j (l ++ [(i, ok)]) <= 6 \/
                         rank (gset f i x j) = 0)%nat).
    { intros x X j. rewrite steps_snoc. specialize (G5 j).
      destruct (Nat.eqb_spec i j).
      - subst j. rewrite gset_same. lia.
      - rewrite gset_other by congruence. lia. }
    assert (T : forall x, thread_ok fb (l ++ [(i, ok)]) i x ->
              forall j, thread_ok fb (l ++ [(i, ok)]) j (gset f i x j)).
    { intros x X j. destruct (Nat.eqb_spec j i).
      - subst j. rewrite gset_same. exact X.
      - rewrite gset_other by assumption. apply thread_ok_more, G1. }
    assert (V : forall x v, fb = Some v -> (forall r, f i <> Returned r) ->
              gset f i x v = Returned (Some v)).
    { intros x v E N. destruct (G2 v E) as [_ H]. rewrite gset_other; [exact H|].
      intros ->. apply (N _ H). }
    assert (D : forall x j, In (j, Running) hs -> (j = i -> deciding x) ->
              fb = Some j \/ deciding (gset f i x j)).
    { intros x j H K. destruct (Nat.eqb_spec j i).
      - subst j. rewrite gset_same. auto.
      - rewrite gset_other by assumption. auto. }
    assert (K : forall x j, gset f i x j = GCas -> x <> GCas -> In (j, Running) hs /\ j <> i).
    { intros x j H N. destruct (Nat.eqb_spec j i).
      - subst j. rewrite gset_same in H. contradiction.
      - rewrite gset_other in H by assumption. auto. }
    pose proof (G1 i) as G1i. unfold gstep. unfold ginv.
    destruct (f i) eqn:F.
    + (* load *)
      cbn [fallback helpers where_].
      assert (NI : forall j, In (j, Running) hs -> j = i -> fb = Some i).
      { intros j H ->. destruct (G3 _ H) as [H'|H']; [exact H'|]. rewrite F in H'. contradiction. }
      split; [|split; [|split; [|split]]].
      * apply T. destruct fb; cbn; [split; congruence|exact I].
      * intros v E. split; [apply G2; exact E|]. apply V; [exact E|]. intros; congruence.
      * intros j H. destruct (Nat.eqb_spec j i); [left; subst j; apply (NI i H eq_refl)|].
        apply D; [exact H|congruence].
      * intros j H. apply K in H; [tauto|destruct fb; discriminate].
      * apply R. destruct fb; cbn; lia.
    + (* create *)
      destruct ok; cbn [fallback helpers where_].
      * split; [|split; [|split; [|split]]].
        -- apply T. exact I.
        -- intros v E. split; [right; apply G2; exact E|]. apply V; [exact E|]. intros; congruence.
        -- intros j [H|H].
           ++ injection H as <-. right. rewrite gset_same. exact I.
           ++ apply D; [exact H|]. intros _. exact I.
        -- intros j H. destruct (Nat.eqb_spec j i); [subst; left; reflexivity|].
           rewrite gset_other in H by assumption. right. auto.
        -- apply R. cbn. lia.
      * split; [|split; [|split; [|split]]].
        -- apply T. cbn. apply in_or_app. right. left. reflexivity.
        -- intros v E. split; [apply G2; exact E|]. apply V; [exact E|]. intros; congruence.
        -- intros j H. destruct (Nat.eqb_spec j i).
           ++ subst j. destruct (G3 _ H) as [H'|H']; [auto|]. rewrite F in H'. contradiction.
           ++ apply D; [exact H|congruence].
        -- intros j H. apply K in H; [tauto|discriminate].
        -- apply R. cbn. lia.
    + (* compare and swap *)
      destruct fb as [x|]; cbn [fallback helpers where_].
      * split; [|split; [|split; [|split]]].
        -- apply T. cbn. discriminate.
        -- intros v E. split; [apply G2; exact E|]. apply V; [exact E|]. intros; congruence.
        -- intros j H. apply D; [exact H|]. intros _. exact I.
        -- intros j H. apply K in H; [tauto|discriminate].
        -- apply R. cbn. lia.
      * split; [|split; [|split; [|split]]].
        -- intros j. destruct (Nat.eqb_spec j i).
           ++ subst j. rewrite gset_same. reflexivity.
           ++ rewrite gset_other by assumption. apply thread_ok_install, thread_ok_more, G1.
        -- intros v E. injection E as <-. split; [auto|apply gset_same].
        -- intros j H. destruct (Nat.eqb_spec j i); [left; congruence|].
           rewrite gset_other by assumption. right.
           destruct (G3 _ H) as [H'|H']; [discriminate|exact H'].
        -- intros j H. apply K in H; [tauto|discriminate].
        -- apply R. cbn. lia.
    + (* reload *)
      cbn [fallback helpers where_].
      split; [|split; [|split; [|split]]].
      * apply T. cbn in *. auto.
      * intros v E. split; [apply G2; exact E|]. apply V; [exact E|]. intros; congruence.
      * intros j H. apply D; [exact H|]. intros _. exact I.
      * intros j H. apply K in H; [tauto|discriminate].
      * apply R. cbn. lia.
    + (* shut down *)
      cbn [fallback helpers where_].
      split; [|split; [|split; [|split]]].
      * apply T. exact G1i.
      * intros x E. split.
        -- apply in_stop. destruct (G2 x E) as [H1 H2]. split; [exact H1|]. congruence.
        -- apply V; [exact E|]. intros; congruence.
      * intros j H. apply in_stop in H. destruct H as [H N]. apply D; [exact H|congruence].
      * intros j H. apply K in H; [|discriminate]. apply in_stop. exact H.
      * apply R. cbn. lia.
    + (* assert *)
      destruct G1i as [E N]. destruct v as [x|]; [|congruence]. cbn [fallback helpers where_].
      split; [|split; [|split; [|split]]].
      * apply T. cbn. congruence.
      * intros y E'. split; [apply G2; exact E'|]. apply V; [exact E'|]. intros; congruence.
      * intros j H. destruct (Nat.eqb_spec j i).
        -- subst j. destruct (G3 _ H) as [H'|H']; [auto|]. rewrite F in H'. contradiction.
        -- apply D; [exact H|congruence].
      * intros j H. apply K in H; [tauto|discriminate].
      * apply R. cbn. lia.
    + cbn [fallback helpers where_]. split; [|split; [|split; [|split]]]; auto.
      * intros j. apply thread_ok_more, G1.
      * intros j. rewrite steps_snoc. specialize (G5 j). destruct (Nat.eqb_spec i j); [|lia].
        subst j. right. rewrite F. reflexivity.
    + contradiction.
Qed.

(** However many threads ask for the timer at the same time and in whatever
    order they run, all of them that get a working handle get the same one,
    and its helper thread runs. *)
Theorem c125_one_timer : forall l i v,
  where_ (grun ginit l) i = Returned (Some v) ->
  fallback (grun ginit l) = Some v /\ In (v, Running) (helpers (grun ginit l)) /\
  forall j w, where_ (grun ginit l) j = Returned (Some w) -> w = v.
Proof.
  intros l i v E. destruct (ginv_ok l) as (G1 & G2 & _).
  pose proof (G1 i) as H. rewrite E in H. cbn in H. split; [exact H|].
  split; [apply G2; exact H|]. intros j w E'. pose proof (G1 j) as H'. rewrite E' in H'.
  cbn in H'. congruence.
Qed.

(** A helper thread that lost the race is stopped: when no thread is deciding
    any more, only the installed one runs. *)
Theorem c125_one_helper : forall l j,
  (forall i, ~ deciding (where_ (grun ginit l) i)) ->
  In (j, Running) (helpers (grun ginit l)) -> fallback (grun ginit l) = Some j.
Proof.
  intros l j N H. destruct (ginv_ok l) as (_ & _ & G3 & _).
  destruct (G3 _ H) as [H'|H']; [exact H'|]. exfalso. apply (N _ H').
Qed.

(** Asking for the timer ends after six steps of the asking thread whatever the
    others do, never panics, and gives a handle without a timer only if the
    thread could not be created. *)
Theorem c125_returns : forall l i,
  (where_ (grun ginit l) i <> Panicked) /\
  ((6 <= steps_of i l)%nat -> exists r, where_ (grun ginit l) i = Returned r) /\
  (where_ (grun ginit l) i = Returned None -> In (i, false) l).
Proof.
  intros l i. destruct (ginv_ok l) as (G1 & _ & _ & _ & G5). specialize (G1 i). specialize (G5 i).
  destruct (where_ (grun ginit l) i) as [| | | | | |[v|]|]; cbn in G1, G5;
    (split; [try discriminate; contradiction|]); (split; [|try discriminate; auto]);
    intros N; try (exfalso; lia); eauto.
Qed.

Lemma in_stop_fst : forall i j l, In j (map fst (stop_helper i l)) <-> In j (map fst l).
Proof.
  intros i j l. unfold stop_helper. rewrite map_map.
  replace (map (fun x => fst (if Nat.eqb (fst x) i then (fst x, Stopped) else x)) l) with (map fst l); [tauto|].
  apply map_ext. intros [k x]. cbn [fst]. destruct (Nat.eqb k i); reflexivity.
Qed.

(** A thread's helper is made in its second step. *)
Lemma no_helper_yet : forall l i,
  (where_ (grun ginit l) i = GLoad \/ where_ (grun ginit l) i = GCreate) ->
  ~ In i (map fst (helpers (grun ginit l))).
Proof.
  induction l as [|[j ok] l IH] using rev_ind; intros i; [cbn; auto|].
  rewrite grun_snoc. specialize (IH i). destruct (grun ginit l) as [fb hs f].
  cbn [where_ helpers] in *. unfold gstep.
  destruct (Nat.eqb_spec i j) as [<-|N].
  - destruct (f i) eqn:F; try (destruct fb as [x|]); try (destruct ok); try (destruct v as [y|]);
      cbn [where_ helpers]; rewrite ?gset_same; intros [H|H]; try discriminate; try congruence;
      apply IH; auto.
  - destruct (f j) eqn:F; try (destruct fb as [x|]); try (destruct ok); try (destruct v as [y|]);
      cbn [where_ helpers map fst In]; rewrite ?gset_other by assumption; intros H;
      try (rewrite in_stop_fst); try (apply IH; exact H);
      intros [X|X]; try congruence; apply (IH H X).
Qed.

(** A thread that asks once the timer is there gets it in two steps, whatever
    the others do and even if no thread could be created, and makes no helper
    thread. *)
Theorem c125_found : forall l l2 i v,
  fallback (grun ginit l) = Some v -> where_ (grun ginit l) i = GLoad ->
  ~ In i (map fst (helpers (grun ginit (l ++ l2)))) /\
  ((2 <= steps_of i l2)%nat -> where_ (grun ginit (l ++ l2)) i = Returned (Some v)).
Proof.
  intros l l2 i v E W.
  assert (X : fallback (grun ginit (l ++ l2)) = Some v /\
              ~ In i (map fst (helpers (grun ginit (l ++ l2)))) /\
              match where_ (grun ginit (l ++ l2)) i with
              | GLoad => steps_of i l2 = 0%nat
              | GAssert x => x = Some v /\ steps_of i l2 = 1%nat
              | Returned x => x = Some v
              | _ => False
              end).
  { induction l2 as [|[j ok] l2 IH] using rev_ind.
    - rewrite app_nil_r, W. split; [exact E|]. split; [apply no_helper_yet; auto|reflexivity].
    - rewrite app_assoc, grun_snoc, steps_snoc. destruct (grun ginit (l ++ l2)) as [fb hs f].
      cbn [fallback helpers where_] in IH. destruct IH as (-> & I2 & I3). unfold gstep.
      destruct (Nat.eqb_spec j i) as [->|N].
      + destruct (f i) as [| | | | |x|x|] eqn:F; try contradiction; cbn [fallback helpers where_].
        * rewrite gset_same. split; [reflexivity|]. split; [exact I2|]. split; [reflexivity|lia].
        * destruct I3 as [-> _]. rewrite gset_same. auto.
        * rewrite F. auto.
      + assert (N' : i <> j) by congruence.
        destruct (f j) as [| | | |y|y|y|] eqn:F; try (destruct ok); try (destruct y);
          cbn [fallback helpers where_ map fst In]; rewrite ?gset_other by exact N';
          rewrite ?Nat.add_0_r; (split; [reflexivity|]); (split; [|exact I3]);
          rewrite ?in_stop_fst; auto; intros [Y|Y]; [congruence|contradiction]. }
  destruct X as (_ & X1 & X2). split; [exact X1|]. intros S.
  destruct (where_ (grun ginit (l ++ l2)) i); try contradiction; try lia.
  congruence.
Qed.

(** The hypotheses are met: a delay is asked for twice while the thread goes to
    sleep, and two threads race for the handle. *)
Definition sample_run : list hact :=
  [HStep; HStep; HStep; HStep; HPush 1 (Some 30); HStep; HPush 1 (Some 20); HWake; HWake;
   HStep; HTick 25].

Example c125_hyps_met :
  (exists s, hrun (hinit 0) sample_run = Some s /\ last_push sample_run 1%nat = Some (Some 20) /\
     pushing s = 0%nat /\ done s = false /\ pending s 1 20 /\ 20 <= clock s) /\
  (exists s, hrun (hinit 0) [HStep; HStep; HStep; HStep; HStep; HStep] = Some s /\
     pc s = Blocked None /\ token s = false /\ pushing s = 0%nat) /\
  (exists s, hrun (hinit 0) (sample_run ++ [HStop; HStopUnpark]) = Some s /\
     done s = true /\ stopping s = false) /\
  (let l := [(1%nat, true); (2%nat, true); (1%nat, true); (2%nat, true); (2%nat, true);
             (1%nat, true); (1%nat, true); (1%nat, true); (1%nat, true)] in
   where_ (grun ginit l) 1%nat = Returned (Some 2%nat) /\
   where_ (grun ginit l) 2%nat = Returned (Some 2%nat) /\
   helpers (grun ginit l) = [(2%nat, Running); (1%nat, Stopped)] /\
   where_ (grun ginit l) 3%nat = GLoad).
Proof.
  split; [|split; [|split]].
  - eexists. split; [reflexivity|]. split; [reflexivity|]. split; [reflexivity|].
    split; [reflexivity|]. split; [left; reflexivity|]. cbn. lia.
  - eexists. repeat split.
  - eexists. repeat split.
  - repeat split.
Qed.

Print Assumptions c125_sleeps_when_idle.
Print Assumptions c125_no_lost_delay.
Print Assumptions c125_fired_when_due.
Print Assumptions c125_current.
Print Assumptions c125_fires.
Print Assumptions c125_stops.
Print Assumptions c125_one_timer.
Print Assumptions c125_one_helper.
Print Assumptions c125_returns.
Print Assumptions c125_found.
