(** Intervals: which instant comes next and what a poll of the stream answers. *)
From Verif Require Import Base HeapModel TimerModel TimerProofs TimerProps IntervalModel.
Local Open Scope list_scope.
Local Open Scope Z_scope.

(** [r] is the first of the instants [prev + p], [prev + 2p], … after [now]. *)
Definition first_after (prev now p r : Z) : Prop :=
  now < r /\ (exists n, 1 <= n /\ r = prev + n * p) /\ forall n, 1 <= n -> now < prev + n * p -> r <= prev + n * p.
Lemma plus_whole : forall i p, plus i (p * 10 ^ 6) = i + p.
Proof. intros i p. unfold plus. now rewrite Z.div_mul by lia. Qed.
(** For a period of whole milliseconds the next instant is that one, as long as fewer than 2^32
    periods were missed, over less than 2^64 nanoseconds. *)
Theorem c112_next : forall prev now p, 0 < p -> p * 10 ^ 6 < 2 ^ 64 -> (now - prev) * 10 ^ 6 < 2 ^ 64 -> (now - prev) / p + 1 < 2 ^ 32 ->
  exists r, next_interval prev now (p * 10 ^ 6) = Ok r /\ first_after prev now p r.
Proof.
  intros prev now p P B1 B2 B3. unfold next_interval. rewrite plus_whole. destruct (Z.ltb_spec now (prev + p)) as [L|L].
  - exists (prev + p). split; [reflexivity|]. split; [exact L|]. split; [exists 1; lia|]. intros n N _. nia.
  - unfold minus. destruct (Z.leb_spec 0 (now - prev)); [|lia]. cbn [bind]. unfold nanos.
    destruct (Z.ltb_spec ((now - prev) * 10 ^ 6) (2 ^ 64)); [|lia]. cbn [bind]. destruct (Z.ltb_spec (p * 10 ^ 6) (2 ^ 64)); [|lia]. cbn [bind].
    destruct (Z.eqb_spec (p * 10 ^ 6) 0); [lia|]. cbv zeta. rewrite Z.div_mul_cancel_r by lia. destruct (Z.ltb_spec ((now - prev) / p + 1) (2 ^ 32)); [|lia].
    replace (p * 10 ^ 6 * ((now - prev) / p + 1)) with (p * ((now - prev) / p + 1) * 10 ^ 6) by ring. rewrite plus_whole. eexists. split; [reflexivity|].
    pose proof (Z.div_mod (now - prev) p ltac:(lia)) as DM. pose proof (Z.mod_pos_bound (now - prev) p P) as MB. set (q := (now - prev) / p) in *.
    split; [nia|]. split; [exists (q + 1); split; [|ring]; assert (1 <= q) by (apply Z.div_le_lower_bound; lia); lia|]. intros m N LT. assert (q < m) by nia. nia.
Qed.
(** A period that is no whole number of milliseconds can give an instant that has passed. *)
Theorem c112_fraction_refuted : exists prev now d r, 0 < d /\ next_interval prev now d = Ok r /\ r <= now /\ prev <= now.
Proof. exists 0, 3, 500000, 3. split; [lia|]. split; [vm_compute; reflexivity|lia]. Qed.
(** A period of zero panics once the first instant has come. *)
Theorem c112_zero_refuted : forall prev now, prev <= now -> now - prev < 2 ^ 40 -> next_interval prev now 0 = Panic.
Proof.
  intros prev now L B. unfold next_interval, plus. change (0 / 10 ^ 6) with 0. destruct (Z.ltb_spec now (prev + 0)); [lia|]. unfold minus. destruct (Z.leb_spec 0 (now - prev)); [|lia].
  cbn [bind]. unfold nanos. destruct (Z.ltb_spec ((now - prev) * 10 ^ 6) (2 ^ 64)); reflexivity.
Qed.

Lemma d_when_due : forall h s k d, hist h s -> nth_error (s_ds s) k = Some d -> calm h -> ~ In DropTimer h -> live k h = true -> due k h = Some (d_when d).
Proof.
  assert (W : forall h s, hist h s -> calm h -> ~ In DropTimer h -> forall k d, nth_error (s_ds s) k = Some d -> live k h = true -> d_at d = Some (d_when d)).
  { intros h s H. induction H as [|h s e a s' H IH E]; intros C N k d D LV; [destruct k; discriminate|]. destruct C as [_ C].
    assert (N' : ~ In DropTimer h) by (intro X; apply N; now right). specialize (IH C N'). pose proof (hist_alive _ _ H C N') as I. pose proof I as (A & L & V & LK & LI & G).
    assert (GL : forall k0 d0, nth_error (s_ds s) k0 = Some d0 -> live k0 h = d_live d0) by (intros k0 d0 D0; destruct (G _ _ D0) as (_ & _ & _ & X & _); congruence).
    destruct e as [x|k' x|k'|k'| |now| |]; cbn [step] in E; unfold on_delay, on_timer in E; try rewrite A in E.
    - injection E as <- <-. unfold new in D. rewrite A in D. cbn [live] in LV. match type of D with context [push_wake ?i ?x ?t] => destruct (push_wake_rest i x t) as (E1 & _) end.
      rewrite E1 in D. cbn [with_ds s_ds] in D. rewrite put_last in D. apply nth_snoc' in D as [[-> ->]|[LT D]]; [reflexivity|]. destruct (Nat.eqb_spec (news h) k); [lia|eauto].
    - destruct (nth_error (s_ds s) k') as [d'|] eqn:D'; [|discriminate]. destruct (d_live d') eqn:LD; [|discriminate]. injection E as <- <-. cbn [live] in LV.
      destruct (G _ _ D') as (K1 & K2 & _). unfold reset in D. cbv zeta in D. change (d_node (d_when_ x d')) with (d_node d') in D. change (d_inv (d_when_ x d')) with (d_inv d') in D. rewrite K1, A, K2 in D.
      match type of D with context [push_wake ?i ?x ?t] => destruct (push_wake_rest i x t) as (E1 & _) end. rewrite E1 in D. destruct (nth_put_in _ _ _ _ _ _ D' D) as [[-> ->]|[NE D1]]; [reflexivity|eauto].
    - destruct (nth_error (s_ds s) k') as [d'|] eqn:D'; [|discriminate]. destruct (d_live d') eqn:LD; [|discriminate]. injection E as <- <-. cbn [live] in LV. destruct (Nat.eqb_spec k' k) as [|NE]; [discriminate|].
      destruct (G _ _ D') as (K1 & K2 & _). unfold drop_d in D. cbv zeta in D. change (d_node (d_live_ false d')) with (d_node d') in D. rewrite K1, A in D.
      match type of D with context [push_wake ?i ?x ?t] => destruct (push_wake_rest i x t) as (E1 & _) end. rewrite E1 in D. destruct (nth_put_in _ _ _ _ _ _ D' D) as [[-> ->]|[NE' D1]]; [congruence|eauto].
    - destruct (nth_error (s_ds s) k') as [d'|] eqn:D'; [|discriminate]. destruct (d_live d') eqn:LD; [|discriminate]. cbn [live] in LV. unfold poll in E. destruct (d_node d'); [|injection E as <- <-; eauto].
      destruct (d_fired d'); [injection E as <- <-; eauto|]. injection E as <- <-. cbn [set_d with_ds s_ds] in D. destruct (nth_put_in _ _ _ _ _ _ D' D) as [[-> ->]|[NE D1]]; [cbn; eauto|eauto].
    - assert (SL : forall l s s', serve_all l s = Ok s' -> (forall k d, nth_error (s_ds s) k = Some d -> live k h = true -> d_at d = Some (d_when d)) ->
        forall k d, nth_error (s_ds s') k = Some d -> live k h = true -> d_at d = Some (d_when d)).
      { clear. induction l as [|k0 l IH]; intros s s' E Q; cbn [serve_all] in E; [now injection E as <-|]. destruct (nth_error (s_ds s) k0) as [d0|] eqn:D0; [|discriminate]. destruct (d_enq d0); [|discriminate]. cbv zeta in E.
        assert (PUT : forall hp j, (forall k d, nth_error (s_ds (with_heap hp (set_d k0 (d_slot_ j (d_enq_ false d0)) s))) k = Some d -> live k h = true -> d_at d = Some (d_when d))).
        { intros hp j k d D LV. cbn [with_heap set_d with_ds s_ds] in D. destruct (nth_put_in _ _ _ _ _ _ D0 D) as [[-> ->]|[NE D1]]; [cbn; eauto|eauto]. }
        apply bind_ok in E as (s1 & E1 & E). refine (IH _ _ E _). intros k d D LV. destruct (d_at (d_enq_ false d0)).
        - unfold update_or_add in E1. apply bind_ok in E1 as (hp & _ & E1). apply bind_ok in E1 as ([j hp'] & _ & E1). injection E1 as <-. now apply (PUT hp' (Some j) k d).
        - unfold remove in E1. destruct (d_slot (d_enq_ false d0)) as [j|] eqn:J.
          + apply bind_ok in E1 as ([x hp] & _ & E1). injection E1 as <-. now apply (PUT hp None k d).
          + injection E1 as <-. cbn [set_d with_ds s_ds] in D. destruct (nth_put_in _ _ _ _ _ _ D0 D) as [[-> ->]|[NE D1]]; [cbn; eauto|eauto]. }
      destruct (serve s) as [s1| |] eqn:S1; cbn [bind] in E; [|discriminate|discriminate]. injection E as <- <-. unfold serve in S1. eapply SL; [exact S1|exact IH|exact D|exact LV].
    - assert (AL : forall f s s', advance f now s = Ok s' -> (forall k d, nth_error (s_ds s) k = Some d -> live k h = true -> d_at d = Some (d_when d)) ->
        forall k d, nth_error (s_ds s') k = Some d -> live k h = true -> d_at d = Some (d_when d)).
      { clear. induction f as [|f IH]; intros s s' E Q; [discriminate|]. cbn [advance] in E. destruct (h_peek (s_heap s)) as [e|]; [|now injection E as <-]. destruct (e_at e <=? now); [|now injection E as <-].
        apply bind_ok in E as ([[e' hp]|] & _ & E); [|discriminate]. destruct (nth_error (s_ds s) (e_node e')) as [d0|] eqn:D0; [|discriminate]. cbv zeta in E. refine (IH _ _ E _). intros k d D LV.
        destruct (_ && _)%bool; [rewrite wake_ds in D|]; cbn [with_heap set_d with_ds s_ds] in D; destruct (nth_put_in _ _ _ _ _ _ D0 D) as [[-> ->]|[NE D1]]; cbn; eauto. }
      destruct (advance _ now s) as [s1| |] eqn:S1; cbn [bind] in E; [|discriminate|discriminate]. injection E as <- <-. eapply AL; [exact S1|exact IH|exact D|exact LV].
    - injection E as <- <-. eauto.
    - destruct N. now left. }
  intros h s k d H D C N LV. pose proof (W h s H C N k d D LV) as X. destruct (hist_alive _ _ H C N) as (_ & _ & _ & _ & _ & G). destruct (G _ _ D) as (_ & _ & _ & _ & _ & K). rewrite LV in K.
  destruct K as (w & W1 & W2 & _). congruence.
Qed.
(** While the timer exists, an item comes only when the time of the delay has come, and the
    delay is then set to the next instant. *)
Theorem c112_tick : forall h s k now p s', hist h s -> calm h -> ~ In DropTimer h -> 0 < p ->
  poll_next k now (p * 10 ^ 6) s = Ok (true, s') -> live k h = true ->
  exists a r, due k h = Some a /\ rang k h = true /\ next_interval a now (p * 10 ^ 6) = Ok r /\ hist (Reset k r :: Poll k :: h) s' /\ due k (Reset k r :: Poll k :: h) = Some r.
Proof.
  intros h s k now p s' H C N P E LV. unfold poll_next in E. destruct (c110_exact h s k H C N LV) as (s1 & E1). rewrite E1 in E. cbn [bind] in E.
  destruct (rang k h) eqn:RG; [|discriminate]. assert (H1 : hist (Poll k :: h) s1) by (eapply hist_step; eauto).
  destruct (nth_error (s_ds s1) k) as [d|] eqn:D; [|discriminate].
  assert (C1 : calm (Poll k :: h)) by (split; [intro i; now apply (calm_since h)|exact C]).
  assert (N1 : ~ In DropTimer (Poll k :: h)) by (intros [X|X]; [discriminate|contradiction]).
  pose proof (d_when_due _ _ _ _ H1 D C1 N1 LV) as DU. cbn [due] in DU.
  destruct (next_interval (d_when d) now (p * 10 ^ 6)) as [r| |] eqn:NX; cbn [bind] in E; [|discriminate|discriminate].
  destruct (step s1 (Reset k r)) as [[a2 s2]| |] eqn:E2; cbn [bind] in E; [|discriminate|discriminate]. injection E as <-.
  exists (d_when d), r. split; [exact DU|]. split; [reflexivity|]. split; [exact NX|]. split; [eapply hist_step; eauto|]. cbn [due]. now rewrite Nat.eqb_refl.
Qed.
(** Once the timer is gone the stream is always ready: any number of items at the same instant. *)
Fixpoint items_at (n : nat) (now p : Z) (s : st) : Prop :=
  match n with O => True | S n => exists s', poll_next 0 now (p * 10 ^ 6) s = Ok (true, s') /\ items_at n now p s' end.
Definition away (w : Z) (b : bool) : st := MkS [MkD true true w (Some 1000) 0 true false None false b] [] h_new false false [] 0.
Lemma away_items : forall n w b, 0 <= w -> items_at n 0 1000 (away w b).
Proof.
  induction n as [|n IH]; intros w b W; cbn [items_at]; [exact I|]. exists (away (w + 1000) true). split; [|apply IH; lia].
  unfold poll_next, step, on_delay, poll, away. cbn [s_ds nth_error d_live d_node d_fired d_inv bind set_d with_ds put d_waits_ d_when].
  unfold next_interval. rewrite plus_whole. destruct (Z.ltb_spec 0 (w + 1000)); [|lia]. cbn [bind]. reflexivity.
Qed.
Theorem c112_gone_refuted : exists h s p now, hist h s /\ calm h /\ live 0 h = true /\ 0 < p /\ due 0 h = Some 1000 /\ now < 1000 /\ forall n, items_at n now p s.
Proof.
  exists [DropTimer; New 1000]. destruct (runs s0 [New 1000; DropTimer]) as [s| |] eqn:R; [|vm_compute in R; discriminate|vm_compute in R; discriminate].
  pose proof (runs_hist _ _ _ _ hist_nil R) as H. cbn [rev app] in H. exists s, 1000, 0. vm_compute in R. injection R as R. rewrite <- R in *.
  split; [exact H|]. split; [cbn [calm since]; repeat split; reflexivity|]. do 4 (split; [reflexivity|]). intro n. apply (away_items n 1000 false). lia.
Qed.

Example c112_hyps_met : exists r, next_interval 100 2350 (1000 * 10 ^ 6) = Ok r /\ r = 3100 /\ first_after 100 2350 1000 r.
Proof.
  destruct (c112_next 100 2350 1000) as (r & E & F); try (vm_compute; reflexivity). exists r. split; [exact E|]. split; [|exact F]. vm_compute in E. congruence.
Qed.
Example c112_tick_met : exists h s s', hist h s /\ calm h /\ ~ In DropTimer h /\ live 0 h = true /\ poll_next 0 1200 (1000 * 10 ^ 6) s = Ok (true, s').
Proof.
  exists [Advance 1200; Serve; New 1000]. destruct (runs s0 [New 1000; Serve; Advance 1200]) as [s| |] eqn:R; [|vm_compute in R; discriminate|vm_compute in R; discriminate].
  pose proof (runs_hist _ _ _ _ hist_nil R) as H. cbn [rev app] in H. exists s. vm_compute in R. injection R as R. rewrite <- R in *. eexists.
  split; [exact H|]. split; [cbn [calm since]; repeat split; reflexivity|]. split; [intros [X|[X|[X|[]]]]; discriminate|]. split; [reflexivity|]. vm_compute. reflexivity.
Qed.

Print Assumptions c112_next.
Print Assumptions c112_fraction_refuted.
Print Assumptions c112_zero_refuted.
Print Assumptions c112_tick.
Print Assumptions c112_gone_refuted.
