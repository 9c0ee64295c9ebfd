(** When the delays of a timer fire.  [due], [live], [served], [rang] and [calm] in
    [TimerProofs] say it of the calls made, without the state. *)
From Coq Require Import Permutation.
From Verif Require Import Base HeapModel HeapProofs TimerModel TimerProofs.
Local Open Scope list_scope.
Local Open Scope nat_scope.

Lemma calm_since : forall h k, calm h -> (since k h < GENS)%Z.
Proof. intros [|e h] k C; [reflexivity|]. now apply C. Qed.
Lemma calm_app : forall a b, calm (a ++ b) -> calm b.
Proof. induction a as [|e a IH]; intros b C; [exact C|]. apply IH. now destruct C. Qed.
Lemma advance_inv : forall h s now, calm h -> Inv h s -> exists s', advance (S (length (h_items (s_heap s)))) now s = Ok s' /\ Inv (Advance now :: h) s' /\ kept s s'.
Proof.
  intros h s now C (A & L & V & LK & LI & G). destruct (advance_ok h now (S (length (h_items (s_heap s)))) s) as (s' & R & I & K & _); [intro k; now apply calm_since| |lia|eauto].
  unfold midA. repeat (split; [assumption|]). intros k d D. split; [auto|]. intro N. pose proof (G _ _ D) as GK. revert GK. unfold good. cbn [live due served rang since].
  destruct (live k h) eqn:LV; [|auto]. intros (K1 & K2 & K3 & K4 & K5 & w & W1 & W2 & W3 & W4 & W5). do 5 (split; [assumption|]). exists w. split; [exact W1|]. split; [exact W2|].
  destruct (served k h); cbn [andb].
  - destruct (rang k h) eqn:RG; [auto|]. exfalso. destruct W5 as (j & I). exact (no_entry _ _ _ _ LK D N _ _ I eq_refl).
  - rewrite Bool.orb_false_r. auto.
Qed.
Lemma step_inv : forall h s e, calm h -> Inv h s ->
  match step s e with
  | Ok (a, s') => kept s s' /\ match e with
      | DropTimer => Gone h (DropTimer :: h) s' /\ forall k d, nth_error (s_ds s') k = Some d -> d_live d = true -> d_waits d = false
      | _ => Inv (e :: h) s' /\ match e with Poll k => a = APoll (if rang k h then Done else Pend) | _ => True end end
  | Err _ => True
  | Panic => False
  end.
Proof.
  intros h s e C I. pose proof I as (A & L & V & LK & LI & G). destruct e as [a|k a|k|k| |now| |]; cbn [step]; unfold on_timer, on_delay; try rewrite A.
  - destruct (new_ok h s a I). auto.
  - destruct (nth_error (s_ds s) k) as [d|] eqn:D; [|exact Logic.I]. destruct (d_live d) eqn:LV; [|exact Logic.I]. destruct (reset_ok h s k a d I D LV). auto.
  - destruct (nth_error (s_ds s) k) as [d|] eqn:D; [|exact Logic.I]. destruct (d_live d) eqn:LV; [|exact Logic.I]. destruct (drop_ok h s k d I D LV). auto.
  - destruct (nth_error (s_ds s) k) as [d|] eqn:D; [|exact Logic.I]. destruct (d_live d) eqn:LV; [|exact Logic.I]. destruct (poll_ok h s k d I D LV) as (s' & -> & I' & K & _). auto.
  - destruct (serve_ok h s I) as (s' & -> & I' & _ & _ & W & _ & Q). cbn [bind]. split; [|auto]. exists []. split; [exact W|]. intros k d D E. right. destruct (Q _ _ D) as (d' & D' & E').
    exists d'. split; [exact D'|congruence].
  - destruct (advance_inv h s now C I) as (s' & -> & I' & K). cbn [bind]. auto.
  - split; [apply kept_refl|]. split; [now apply next_ok|exact Logic.I].
  - destruct (drop_timer_ok h s I) as (s' & -> & GN & K & W). cbn [bind]. auto.
Qed.
Lemma hist_app : forall a b s, hist (a ++ b) s -> exists s1, hist b s1.
Proof. induction a as [|e a IH]; intros b s H; [eauto|]. inversion H; subst. eauto. Qed.
Lemma hist_inv : forall h s, hist h s -> calm h -> (~ In DropTimer h /\ Inv h s) \/ exists h2 h1, h = h2 ++ DropTimer :: h1 /\ ~ In DropTimer h1 /\ Gone h1 h s.
Proof.
  intros h s H. induction H as [|h s e a s' H IH E]; intro C; [left; split; [intros []|apply inv0]|]. destruct C as [_ C].
  destruct (IH C) as [[N I]|(h2 & h1 & -> & N & GN)].
  - pose proof (step_inv h s e C I) as S. rewrite E in S. destruct S as [_ S].
    assert (X : e = DropTimer \/ (e <> DropTimer /\ Inv (e :: h) s')) by (destruct e; try (right; split; [discriminate|apply S]); auto).
    destruct X as [->|[NE I']]; [right; exists [], h; split; [reflexivity|]; split; [exact N|apply S]|]. left. split; [|exact I']. intros [->|]; [congruence|contradiction].
  - right. exists (e :: h2), h1. split; [reflexivity|]. split; [exact N|]. destruct (gone_step h1 _ s e GN) as [(a' & s1 & R & G' & _)|(x & R)]; congruence.
Qed.
Lemma hist_alive : forall h s, hist h s -> calm h -> ~ In DropTimer h -> Inv h s.
Proof. intros h s H C N. destruct (hist_inv h s H C) as [[_ I]|(h2 & h1 & -> & _)]; [exact I|]. destruct N. apply in_or_app. right. now left. Qed.

(** A live delay is done exactly when, since it was last set, the timer was polled and then
    advanced to its instant or later; otherwise it is pending. *)
Theorem c110_exact : forall h s k, hist h s -> calm h -> ~ In DropTimer h -> live k h = true ->
  exists s', step s (Poll k) = Ok (APoll (if rang k h then Done else Pend), s').
Proof.
  intros h s k H C N LV. pose proof (hist_alive h s H C N) as I. pose proof I as (_ & L & _ & _ & _ & G). cbn [step]. unfold on_delay.
  destruct (nth_error (s_ds s) k) as [d|] eqn:D; [|apply nth_error_None in D; apply live_news in LV; lia].
  assert (LD : d_live d = true) by (destruct (G _ _ D) as (_ & _ & _ & -> & _); exact LV). rewrite LD. destruct (poll_ok h s k d I D LD) as (s' & -> & _). eauto.
Qed.
(** So it never fires early, and not for a time it was set to before. *)
Lemma rang_late : forall k h, rang k h = true -> exists a now, due k h = Some a /\ In (Advance now) h /\ (a <= now)%Z.
Proof.
  intros k. induction h as [|[a|k' a|k'|k'| |now| |] h IH]; cbn [rang due]; intro R; try discriminate.
  - destruct (news h =? k); [discriminate|]. destruct (IH R) as (w & n & W & I & Q). exists w, n. repeat split; auto. now right.
  - destruct (k' =? k); [discriminate|]. destruct (IH R) as (w & n & W & I & Q). exists w, n. repeat split; auto. now right.
  - destruct (IH R) as (w & n & W & I & Q). exists w, n. repeat split; auto. now right.
  - destruct (IH R) as (w & n & W & I & Q). exists w, n. repeat split; auto. now right.
  - destruct (IH R) as (w & n & W & I & Q). exists w, n. repeat split; auto. now right.
  - apply Bool.orb_true_iff in R as [R|R].
    + destruct (IH R) as (w & n & W & I & Q). exists w, n. repeat split; auto. now right.
    + apply andb_prop in R as [_ R]. destruct (due k h) as [w|]; [|discriminate]. exists w, now. split; [reflexivity|]. split; [now left|lia].
  - destruct (IH R) as (w & n & W & I & Q). exists w, n. repeat split; auto. now right.
  - destruct (IH R) as (w & n & W & I & Q). exists w, n. repeat split; auto. now right.
Qed.
Theorem c110_never_early : forall h s k s', hist h s -> calm h -> ~ In DropTimer h -> step s (Poll k) = Ok (APoll Done, s') ->
  exists a now, due k h = Some a /\ In (Advance now) h /\ (a <= now)%Z.
Proof.
  intros h s k s' H C N E. pose proof (step_inv h s (Poll k) C (hist_alive h s H C N)) as S. rewrite E in S. destruct S as (_ & _ & S). apply rang_late.
  destruct (rang k h); [reflexivity|discriminate].
Qed.
(** And a poll of the timer and an advance to its instant make it fire. *)
Theorem c110_fires : forall h s k a now, hist (Advance now :: Serve :: h) s -> calm h -> ~ In DropTimer h -> live k h = true -> due k h = Some a -> (a <= now)%Z ->
  exists s', step s (Poll k) = Ok (APoll Done, s').
Proof.
  intros h s k a now H C N LV D LE.
  destruct (c110_exact (Advance now :: Serve :: h) s k H) as (s' & E).
  - split; [reflexivity|]. split; [reflexivity|]. exact C.
  - intros [X|[X|X]]; [discriminate|discriminate|contradiction].
  - exact LV.
  - cbn [rang served due] in E. rewrite D in E. assert (X : (a <=? now)%Z = true) by (apply Z.leb_le; exact LE). rewrite X in E. cbn [andb] in E. rewrite Bool.orb_true_r in E. eauto.
Qed.

(** Once the timer is gone no delay is pending: those that had fired stay so, all others fail. *)
Theorem c110_gone : forall h2 h1 s k, hist (h2 ++ DropTimer :: h1) s -> calm (h2 ++ DropTimer :: h1) -> live k (h2 ++ DropTimer :: h1) = true ->
  exists s', step s (Poll k) = Ok (APoll (if ((k <? news h1) && rang k h1)%bool then Done else Away), s').
Proof.
  intros h2 h1 s k H C LV.
  assert (GN : Gone h1 (h2 ++ DropTimer :: h1) s).
  { clear LV. revert s H C. induction h2 as [|e h2 IH]; intros s H C; cbn [app] in *.
    - inversion H as [|h s1 e a s' H1 E]; subst. destruct C as [_ C]. destruct (hist_inv _ _ H1 C) as [[_ I]|(h3 & h4 & E4 & _ & GN)].
      + pose proof (step_inv h1 s1 DropTimer C I) as S. rewrite E in S. apply S.
      + destruct (gone_step _ _ _ DropTimer GN) as [(a' & s2 & R & _)|(x & R)]; cbn [step] in R; unfold on_timer in R; destruct GN as (A & _); rewrite A in R; [discriminate|].
        cbn [step] in E. unfold on_timer in E. rewrite A in E. discriminate.
    - inversion H as [|h s1 e' a s' H1 E]; subst. destruct C as [_ C]. specialize (IH _ H1 C). destruct (gone_step _ _ _ e IH) as [(a' & s2 & R & G' & _)|(x & R)]; congruence. }
  pose proof GN as (_ & _ & L & G). destruct (gone_step _ _ _ (Poll k) GN) as [(a & s' & R & _ & ->)|(x & R)]; [eauto|]. exfalso.
  cbn [step] in R. unfold on_delay in R. destruct (nth_error (s_ds s) k) as [d|] eqn:D; [|apply nth_error_None in D; apply live_news in LV; lia].
  destruct (G _ _ D) as [LD _]. rewrite LD, LV in R. destruct (poll k d s); discriminate.
Qed.

(** No call ever panics. *)
Theorem c110_no_panic : forall h s e, hist h s -> calm h -> step s e <> Panic.
Proof.
  intros h s e H C. destruct (hist_inv h s H C) as [[_ I]|(h2 & h1 & _ & _ & GN)].
  - pose proof (step_inv h s e C I) as S. destruct (step s e) as [[a s']| |]; congruence || contradiction.
  - destruct (gone_step _ _ _ e GN) as [(a & s' & R & _)|(x & R)]; congruence.
Qed.

(** The next event is the earliest instant of the delays that have not fired, once the timer
    has been polled after the last change. *)
Definition settled_by (e : ev) : Prop := match e with Poll _ | Next | Advance _ => True | _ => False end.
Definition awaits (k : nat) (h : list ev) (a : Z) : Prop := live k h = true /\ rang k h = false /\ due k h = Some a.
Theorem c110_next : forall m h s, let h' := m ++ Serve :: h in hist h' s -> calm h' -> ~ In DropTimer h -> Forall settled_by m ->
  exists t, step s Next = Ok (ANext t, s) /\
    match t with
    | None => forall k a, ~ awaits k h' a
    | Some a => (exists k, awaits k h' a) /\ forall k b, awaits k h' b -> (a <= b)%Z
    end.
Proof.
  intros m h s h' H C N F.
  assert (N' : ~ In DropTimer h').
  { intro I. apply in_app_iff in I as [I|[I|I]]; [|discriminate|contradiction]. rewrite Forall_forall in F. exact (F _ I). }
  assert (SV : forall k, served k h' = true).
  { intro k. unfold h'. clear - F. induction F as [|e m E F IH]; [reflexivity|]. destruct e; try contradiction; exact IH. }
  pose proof (hist_alive _ _ H C N') as (A & L & V & LK & LI & G). cbn [step]. unfold on_timer. rewrite A. eexists. split; [reflexivity|].
  assert (ENT : forall k a, awaits k h' a -> exists g j, In (MkE a g k, j) (h_items (s_heap s))).
  { intros k a (LV & RG & D). destruct (nth_error (s_ds s) k) as [d|] eqn:DD; [|apply nth_error_None in DD; apply live_news in LV; lia].
    destruct (good_slot _ _ _ _ _ V LK DD (G _ _ DD) LV (SV k) RG) as (w & j & W & _ & I). assert (w = a) as -> by congruence. eauto. }
  assert (BACK : forall e j, In (e, j) (h_items (s_heap s)) -> awaits (e_node e) h' (e_at e)).
  { intros e j I. destruct (proj1 LK _ _ I) as (d & D & J). destruct (G _ _ D) as (_ & _ & _ & K4 & _ & K6). rewrite (SV (e_node e)) in K6. destruct (live (e_node e) h') eqn:LV.
    - destruct K6 as (w & W1 & W2 & W3 & W4 & W5). destruct (rang (e_node e) h') eqn:RG; [congruence|]. destruct W5 as (j' & I'). split; [exact LV|]. split; [exact RG|]. rewrite W1. f_equal.
      destruct (proj1 LK _ _ I') as (d' & D' & J'). cbn [e_node] in D'. assert (j' = j) as -> by congruence.
      destruct (remove_ok e_at j _ _ V I') as (hp0 & R0 & _). destruct (remove_ok e_at j _ _ V I) as (hp1 & R1 & _). assert (X : MkE w (d_gen d) (e_node e) = e) by congruence. now rewrite <- X.
    - destruct K6 as [_ K6]. rewrite K6 in J; [discriminate|reflexivity]. }
  unfold h_peek. destruct (h_items (s_heap s)) as [|[e j] l] eqn:M; cbn [fst option_map].
  - intros k a W. destruct (ENT _ _ W) as (g & j & []).
  - split; [exists (e_node e); apply (BACK e j); now left|]. intros k b W. destruct (ENT _ _ W) as (g & j' & I). apply In_nth_error in I as (i & I).
    destruct V as (_ & O & _). rewrite M in O. exact (root_min e_at _ O i (e, j) _ eq_refl I).
Qed.

(** A task that was told to wait is woken before the delay stops being pending. *)
Lemma gone_woken : forall s e a s', s_alive s = false -> step s e = Ok (a, s') -> s_woken s' = s_woken s /\ s_alive s' = false.
Proof.
  intros s e a s' A E. destruct e as [t|k t|k|k| |now| |]; cbn [step] in E; unfold on_timer, on_delay in E; try rewrite A in E; try discriminate.
  - injection E as <- <-. unfold new. rewrite A. auto.
  - destruct (nth_error (s_ds s) k) as [d|]; [|discriminate]. destruct (d_live d); [|discriminate]. injection E as <- <-. unfold reset. cbv zeta. rewrite A. destruct (d_node _); auto.
  - destruct (nth_error (s_ds s) k) as [d|]; [|discriminate]. destruct (d_live d); [|discriminate]. injection E as <- <-. unfold drop_d. cbv zeta. rewrite A. destruct (d_node _); auto.
  - destruct (nth_error (s_ds s) k) as [d|]; [|discriminate]. destruct (d_live d); [|discriminate]. unfold poll in E. destruct (d_node d); [|injection E as <- <-; auto].
    destruct (d_fired d); [injection E as <- <-; auto|]. injection E as <- <-. auto.
Qed.
Lemma woken_run : forall k h2 h1 s1 s2, hist h1 s1 -> ~ In DropTimer h1 -> (exists d, nth_error (s_ds s1) k = Some d /\ d_waits d = true) ->
  hist (h2 ++ h1) s2 -> calm (h2 ++ h1) -> live k (h2 ++ h1) = true -> (forall s, hist h1 s -> s = s1) ->
  exists w, s_woken s2 = w ++ s_woken s1 /\ (In k w \/ (s_alive s2 = true /\ exists d, nth_error (s_ds s2) k = Some d /\ d_waits d = true)).
Proof.
  intros k h2 h1 s1 s2 H1 N WT H2 C LV DET. revert s2 H2 C LV. induction h2 as [|e h2 IH]; intros s2 H2 C LV; cbn [app] in *.
  - rewrite (DET _ H2). exists []. split; [reflexivity|]. right. split; [|exact WT]. now apply (hist_alive _ _ H1 C N).
  - inversion H2 as [|h s e' a s' HS E]; subst. destruct C as [_ C].
    assert (LV' : live k (h2 ++ h1) = true \/ news (h2 ++ h1) = k).
    { destruct e; cbn [live] in LV; auto.
      - destruct (Nat.eqb_spec (news (h2 ++ h1)) k); auto.
      - destruct (k0 =? k); [discriminate|auto]. }
    assert (KN : k < news h1).
    { destruct WT as (d & D & _). destruct (hist_alive _ _ H1 (calm_app _ _ C) N) as (_ & L & _). rewrite <- L. apply nth_error_Some. congruence. }
    assert (MN : news h1 <= news (h2 ++ h1)) by (clear; induction h2 as [|[] h2 IH]; cbn [app news]; lia).
    assert (LV0 : live k (h2 ++ h1) = true) by (destruct LV'; [assumption|lia]).
    destruct (IH _ HS C LV0) as (w & W & Q). destruct (hist_inv _ _ HS C) as [[N' I]|(h3 & h4 & _ & _ & GN)].
    + pose proof (step_inv _ _ e C I) as ST. rewrite E in ST. destruct ST as [(v & U & K) ST]. exists (v ++ w). split; [rewrite U, W; apply app_assoc|].
      destruct Q as [Q|(AL & d & D & WD)]; [left; apply in_or_app; auto|]. destruct (K _ _ D WD) as [X|(d' & D' & WD')]; [left; apply in_or_app; auto|].
      assert (X : e = DropTimer \/ Inv (e :: h2 ++ h1) s2) by (destruct e; try (right; apply ST); auto). destruct X as [->|(AL' & _)]; [|right; eauto].
      destruct ST as [(_ & _ & _ & G) NW]. destruct (G _ _ D') as [LD _]. rewrite (NW _ _ D') in WD'; [discriminate|]. rewrite LD. exact LV.
    + destruct GN as (AL & _). destruct (gone_woken _ _ _ _ AL E) as [E1 E2]. exists w. split; [congruence|]. destruct Q as [Q|(AL' & _)]; [auto|congruence].
Qed.
Lemma hist_det : forall h s s', hist h s -> hist h s' -> s = s'.
Proof.
  intros h s s' H. revert s'. induction H as [|h s e a s1 H IH E]; intros s' H'; inversion H' as [|h0 s0' e0 a0 s2 H0 E0]; subst; [reflexivity|].
  rewrite (IH _ H0) in E. congruence.
Qed.
Theorem c110_woken : forall h s k s1 h2 s2 a s3, hist h s -> ~ In DropTimer h -> step s (Poll k) = Ok (APoll Pend, s1) ->
  hist (h2 ++ Poll k :: h) s2 -> calm (h2 ++ Poll k :: h) -> step s2 (Poll k) = Ok (APoll a, s3) -> a <> Pend ->
  exists w, s_woken s2 = w ++ s_woken s1 /\ In k w.
Proof.
  intros h s k s1 h2 s2 a s3 H N E H2 C E2 NP.
  assert (C1 : calm h) by (apply calm_app in C; now destruct C). pose proof (hist_alive _ _ H C1 N) as I.
  assert (H1 : hist (Poll k :: h) s1) by (eapply hist_step; eauto).
  assert (N1 : ~ In DropTimer (Poll k :: h)) by (intros [X|X]; [discriminate|contradiction]).
  assert (WT : exists d, nth_error (s_ds s1) k = Some d /\ d_waits d = true).
  { cbn [step] in E. unfold on_delay in E. destruct (nth_error (s_ds s) k) as [d|] eqn:D; [|discriminate]. destruct (d_live d) eqn:LD; [|discriminate].
    destruct (poll_ok h s k d I D LD) as (s' & R & _ & _ & W). rewrite R in E. destruct (rang k h); [discriminate|]. injection E as ->. auto. }
  assert (LV : live k (h2 ++ Poll k :: h) = true).
  { cbn [step] in E2. unfold on_delay in E2. destruct (nth_error (s_ds s2) k) as [d|] eqn:D; [|discriminate]. destruct (d_live d) eqn:LD; [|discriminate].
    destruct (hist_inv _ _ H2 C) as [[_ (_ & _ & _ & _ & _ & G)]|(h3 & h4 & _ & _ & (_ & _ & _ & G))].
    - destruct (G _ _ D) as (_ & _ & _ & X & _). congruence.
    - destruct (G _ _ D) as (X & _). congruence. }
  destruct (woken_run k h2 _ s1 s2 H1 N1 WT H2 C LV) as (w & W & [Q|(AL & d & D & WD)]); [intros s' H'; now apply (hist_det (Poll k :: h))|eauto|].
  exfalso. destruct (hist_inv _ _ H2 C) as [[N' I2]|(h3 & h4 & _ & _ & (X & _))]; [|congruence].
  pose proof (step_inv _ _ (Poll k) C I2) as ST. rewrite E2 in ST. destruct ST as (_ & _ & ST). destruct I2 as (_ & _ & _ & _ & _ & G). destruct (G _ _ D) as (_ & _ & _ & _ & _ & K6).
  rewrite LV in K6. destruct K6 as (b & _ & _ & K & WF & _). rewrite <- K, (WF WD) in ST. congruence.
Qed.

(** * What does not hold *)

Fixpoint runs (s : st) (es : list ev) : res st :=
  match es with [] => Ok s | e :: es => '(_, s) <- step s e ;; runs s es end.
Lemma runs_hist : forall es h s s', hist h s -> runs s es = Ok s' -> hist (rev es ++ h) s'.
Proof.
  induction es as [|e es IH]; intros h s s' H R; cbn [runs rev app] in *; [now injection R as <-|].
  destruct (step s e) as [[a s1]| |] eqn:E; cbn [bind] in R; [|discriminate|discriminate]. rewrite <- app_assoc. cbn [app]. apply (IH _ s1); [eapply hist_step; eauto|exact R].
Qed.
(** [h] leads to a state where delay [k], due at [a], is done though the timer was only ever
    advanced to earlier instants. *)
Definition early (h : list ev) : Prop := exists s s' k a, hist h s /\ step s (Poll k) = Ok (APoll Done, s') /\ due k h = Some a /\
  forall now, In (Advance now) h -> (now < a)%Z.
(** A delay that fired before the timer was dropped stays done when it is reset. *)
Theorem c110_reset_gone_refuted : exists h, calm h /\ early h.
Proof.
  exists [Reset 0 1000; DropTimer; Advance 10; Serve; New 10]%Z. split.
  - cbn [calm since]. repeat split; intros k; try (destruct (0 =? k)); reflexivity.
  - destruct (runs s0 [New 10; Serve; Advance 10; DropTimer; Reset 0 1000]%Z) as [s| |] eqn:R; [|vm_compute in R; discriminate|vm_compute in R; discriminate].
    pose proof (runs_hist _ _ _ _ hist_nil R) as H. cbn [rev app] in H. exists s. vm_compute in R. injection R as R. rewrite <- R in *. eexists. exists 0, 1000%Z.
    split; [exact H|]. split; [vm_compute; reflexivity|]. split; [reflexivity|]. cbn [In]. intros now I. repeat (destruct I as [I|I]; [try discriminate; injection I as <-; lia|]). destruct I.
Qed.
(** A delay reset to a time in the past is not done at once. *)
Theorem c110_past_refuted : exists h s s' k a now, hist h s /\ calm h /\ ~ In DropTimer h /\ due k h = Some a /\ In (Advance now) h /\ (a < now)%Z /\
  step s (Poll k) = Ok (APoll Pend, s').
Proof.
  exists [Reset 0 5; Advance 10; Serve; New 20]%Z.
  destruct (runs s0 [New 20; Serve; Advance 10; Reset 0 5]%Z) as [s| |] eqn:R; [|vm_compute in R; discriminate|vm_compute in R; discriminate].
  pose proof (runs_hist _ _ _ _ hist_nil R) as H. cbn [rev app] in H. exists s. vm_compute in R. injection R as R. rewrite <- R in *. eexists. exists 0, 5%Z, 10%Z.
  split; [exact H|]. split; [|split; [|split; [reflexivity|split; [right; now left|split; [reflexivity|vm_compute; reflexivity]]]]].
  - cbn [calm since]. repeat split; intros k; try (destruct (0 =? k)); reflexivity.
  - cbn [In]. intro I. repeat (destruct I as [I|I]; [discriminate|]). destruct I.
Qed.
(** After [GENS] resets between two polls of the timer the old time counts again. *)
Definition wrapped (g : Z) : st :=
  MkS [MkD true true 1000 (Some 1000%Z) g false false (Some 0) true false] [0] (MkHeap [(MkE 10 0 0, 0)] [SFull 0] 1) true false [] 1.
Lemma wrap_run : forall n, hist (repeat (Reset 0 1000%Z) (S n) ++ [Serve; New 10%Z]) (wrapped (Z.of_nat (S n) mod GENS)).
Proof.
  induction n as [|n IH].
  - cbn [repeat app]. destruct (runs s0 [New 10; Serve; Reset 0 1000]%Z) as [s| |] eqn:R; [|vm_compute in R; discriminate|vm_compute in R; discriminate].
    pose proof (runs_hist _ _ _ _ hist_nil R) as H. cbn [rev app] in H. vm_compute in R. injection R as R. rewrite <- R in H. exact H.
  - change (repeat (Reset 0 1000%Z) (S (S n)) ++ [Serve; New 10%Z]) with (Reset 0 1000%Z :: (repeat (Reset 0 1000%Z) (S n) ++ [Serve; New 10%Z])).
    apply (hist_step _ _ _ ANone _ IH). unfold step, on_delay, wrapped. cbn [s_ds nth_error d_live]. f_equal. f_equal. unfold reset. cbv zeta. cbn [d_when_ d_node d_inv d_gen s_alive].
    rewrite Zplus_mod_idemp_l. replace (Z.of_nat (S n) + 1)%Z with (Z.of_nat (S (S n))) by lia. reflexivity.
Qed.
Theorem c110_wrap_refuted : exists h, ~ In DropTimer h /\ early h.
Proof.
  destruct (Z.to_nat GENS) as [|n] eqn:EN; [exfalso; assert (0 < GENS)%Z by reflexivity; lia|].
  pose proof (wrap_run n) as H. assert (E0 : (Z.of_nat (S n) mod GENS)%Z = 0%Z).
  { rewrite <- EN, Z2Nat.id by (unfold GENS; lia). apply Z_mod_same_full. }
  rewrite E0 in H. clear EN E0. exists (Advance 10 :: repeat (Reset 0 1000%Z) (S n) ++ [Serve; New 10%Z]). split.
  - intros [I|I]; [discriminate|]. apply in_app_iff in I as [I|[I|[I|[]]]]; try discriminate. apply repeat_spec in I. discriminate.
  - eexists _, _, 0, 1000%Z. split; [|split; [|split; [reflexivity|]]].
    + apply (hist_step _ _ _ ANone _ H). vm_compute. reflexivity.
    + vm_compute. reflexivity.
    + intros now [I|I]; [injection I as <-; lia|]. apply in_app_iff in I as [I|[I|[I|[]]]]; try discriminate. apply repeat_spec in I. discriminate.
Qed.

(** Two delays, one reset and one dropped; the timer is polled and advanced in between. *)
Example c110_hyps_met : exists s, let h := [Advance 30; Serve; DropD 1; Reset 0 30; Poll 0; Advance 15; Serve; New 20; New 10]%Z in
  hist h s /\ calm h /\ ~ In DropTimer h /\ live 0 h = true /\ due 0 h = Some 30%Z /\ rang 0 h = true /\ live 1 h = false /\ rang 0 (skipn 1 h) = false.
Proof.
  destruct (runs s0 [New 10; New 20; Serve; Advance 15; Poll 0; Reset 0 30; DropD 1; Serve; Advance 30]%Z) as [s| |] eqn:R; [|vm_compute in R; discriminate|vm_compute in R; discriminate].
  pose proof (runs_hist _ _ _ _ hist_nil R) as H. cbn [rev app] in H. exists s. split; [exact H|]. split; [|split; [|repeat split]].
  - cbn [calm since]. repeat split; intros k; try (destruct (0 =? k)); reflexivity.
  - cbn [In]. intro I. repeat (destruct I as [I|I]; [discriminate|]). destruct I.
Qed.
Example c110_woken_met : exists s, let h := [Advance 15; Serve; Poll 0; New 10]%Z in hist h s /\ s_woken s = [0].
Proof.
  destruct (runs s0 [New 10; Poll 0; Serve; Advance 15]%Z) as [s| |] eqn:R; [|vm_compute in R; discriminate|vm_compute in R; discriminate].
  pose proof (runs_hist _ _ _ _ hist_nil R) as H. cbn [rev app] in H. exists s. split; [exact H|]. vm_compute in R. injection R as <-. reflexivity.
Qed.

Print Assumptions c110_exact.
Print Assumptions c110_never_early.
Print Assumptions c110_fires.
Print Assumptions c110_gone.
Print Assumptions c110_no_panic.
Print Assumptions c110_next.
Print Assumptions c110_woken.
Print Assumptions c110_reset_gone_refuted.
Print Assumptions c110_past_refuted.
Print Assumptions c110_wrap_refuted.
