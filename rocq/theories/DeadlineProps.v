(** Properties of time limits on futures and streams.  [due], [live] and [rang]
    of [TimerProofs] say of the calls made when a delay is to fire, whether it
    exists and whether it has fired. *)
From Verif Require Import Base HeapModel HeapProofs TimerModel TimerProofs TimerProps DeadlineModel.
Local Open Scope list_scope.

(** ** Specification *)

(** Event [e] after [h] sets delay [k] to [a]. *)
Definition sets (k : nat) (h : list ev) (e : ev) (a : Z) : Prop :=
  (e = Reset k a /\ (k < news h)%nat) \/ (e = New a /\ news h = k).

(** The stream's answers that are not "pending", in order. *)
Fixpoint inners {A} (l : list (sact A)) : list (option A) :=
  match l with
  | [] => []
  | SPoll _ (Some o) :: l' => o :: inners l'
  | _ :: l' => inners l'
  end.

(** What came out without the time-outs. *)
Fixpoint passed {A} (os : list (option (option (outcome A)))) : list (option A) :=
  match os with
  | [] => []
  | Some None :: os' => None :: passed os'
  | Some (Some (Inner a)) :: os' => Some a :: passed os'
  | _ :: os' => passed os'
  end.

(** ** Lemmas *)

Lemma since_set : forall k h2 h1 e a,
  sets k h1 e a -> (forall b, ~ In (Reset k b) h2) ->
  (k < news (h2 ++ e :: h1))%nat /\ due k (h2 ++ e :: h1) = Some a /\
  (rang k (h2 ++ e :: h1) = true -> exists now, In (Advance now) h2 /\ a <= now).
Proof.
  intros k h2 h1 e a S NR. induction h2 as [|x h2 IH].
  - cbn [app]. destruct S as [[-> N]|[-> N]]; cbn [due rang news].
    + rewrite Nat.eqb_refl. split; [exact N|]. split; [reflexivity|discriminate].
    + rewrite N, Nat.eqb_refl. split; [lia|]. split; [reflexivity|discriminate].
  - destruct IH as (I1 & I2 & I3). { intros b H. apply (NR b). right. exact H. }
    assert (I3' : rang k (h2 ++ e :: h1) = true -> exists now, In (Advance now) (x :: h2) /\ a <= now).
    { intros R. destruct (I3 R) as (now & H & L). exists now. split; [right; exact H|exact L]. }
    cbn [app]. destruct x as [b|k' b|k'|k'| |now| |]; cbn [news due rang]; auto.
    + destruct (Nat.eqb_spec (news (h2 ++ e :: h1)) k); [lia|]. split; [lia|]. auto.
    + destruct (Nat.eqb_spec k' k); [|auto]. subst. exfalso. apply (NR b). left. reflexivity.
    + split; [exact I1|]. split; [exact I2|]. intros R. apply Bool.orb_true_iff in R.
      destruct R as [R|R]; [auto|]. apply andb_prop in R as [_ R]. rewrite I2 in R.
      exists now. split; [left; reflexivity|lia].
Qed.

Lemma step_poll : forall s k r s', step s (Poll k) = Ok (r, s') -> exists a, r = APoll a.
Proof.
  intros s k r s' E. cbn [step] in E. unfold on_delay in E.
  destruct (nth_error (s_ds s) k) as [d|]; [|discriminate]. destruct (d_live d); [|discriminate].
  destruct (poll k d s) as [a s1]. injection E as <- <-. eauto.
Qed.

(** ** Futures with a limit *)

(** What the future answers is never withheld or changed, and comes out only
    when the future gave it. *)
Theorem c127_answer_passed : forall A k (inner : option A) s o s',
  poll_limit k inner s = Ok (o, s') ->
  match inner with
  | Some a => o = Some (Inner a)
  | None => o = None \/ o = Some TimedOut
  end.
Proof.
  intros A k [a|] s o s' E; cbn [poll_limit] in E; [congruence|].
  destruct (step s (Poll k)) as [[r s1]| |]; try discriminate. cbn [bind] in E.
  destruct r as [|[]|]; injection E as <- <-; auto.
Qed.

(** While the timer exists, a pending future times out exactly when its limit
    has passed. *)
Theorem c127_limit_exact : forall A h s k,
  hist h s -> calm h -> ~ In DropTimer h -> live k h = true ->
  exists s', poll_limit k (@None A) s = Ok (if rang k h then Some TimedOut else None, s').
Proof.
  intros A h s k H C N L. destruct (c110_exact h s k H C N L) as (s' & E).
  exists s'. cbn [poll_limit]. rewrite E. cbn [bind]. destruct (rang k h); reflexivity.
Qed.

(** So it never times out before the time it was made with: the timer's clock
    had reached it after the limit was set. *)
Theorem c127_never_early : forall A h2 h1 e a s k s',
  hist (h2 ++ e :: h1) s -> calm (h2 ++ e :: h1) -> ~ In DropTimer (h2 ++ e :: h1) ->
  sets k h1 e a -> (forall b, ~ In (Reset k b) h2) ->
  poll_limit k (@None A) s = Ok (Some TimedOut, s') ->
  exists now, In (Advance now) h2 /\ a <= now.
Proof.
  intros A h2 h1 e a s k s' H C N S NR E.
  destruct (since_set k h2 h1 e a S NR) as (_ & _ & X). apply X.
  pose proof (step_inv _ s (Poll k) C (hist_alive _ s H C N)) as SI.
  cbn [poll_limit] in E. destruct (step s (Poll k)) as [[r s1]| |]; try discriminate.
  destruct SI as (_ & _ & ->). cbn [bind] in E.
  destruct (rang k (h2 ++ e :: h1)); [reflexivity|discriminate].
Qed.

(** And when the timer has been polled and advanced to it, it does time out. *)
Theorem c127_times_out : forall A h s k a now,
  hist (Advance now :: Serve :: h) s -> calm h -> ~ In DropTimer h -> live k h = true ->
  due k h = Some a -> a <= now ->
  exists s', poll_limit k (@None A) s = Ok (Some TimedOut, s').
Proof.
  intros A h s k a now H C N L D LE. destruct (c110_fires h s k a now H C N L D LE) as (s' & E).
  exists s'. cbn [poll_limit]. rewrite E. reflexivity.
Qed.

(** A task that was told "pending" is woken before the limit makes a difference. *)
Theorem c127_woken : forall A h s k s1 h2 s2 s3,
  hist h s -> ~ In DropTimer h -> poll_limit k (@None A) s = Ok (None, s1) ->
  hist (h2 ++ Poll k :: h) s2 -> calm (h2 ++ Poll k :: h) ->
  poll_limit k (@None A) s2 = Ok (Some TimedOut, s3) ->
  exists w, s_woken s2 = w ++ s_woken s1 /\ In k w.
Proof.
  intros A h s k s1 h2 s2 s3 H N E H2 C E2. cbn [poll_limit] in E, E2.
  destruct (step s (Poll k)) as [[r t]| |] eqn:P; try discriminate. cbn [bind] in E.
  destruct (step_poll _ _ _ _ P) as (a & ->). destruct a; try discriminate. injection E as <-.
  destruct (step s2 (Poll k)) as [[r2 t2]| |] eqn:P2; try discriminate. cbn [bind] in E2.
  destruct (step_poll _ _ _ _ P2) as (a2 & ->).
  apply (c110_woken h s k t h2 s2 a2 t2 H N P H2 C P2). intros ->. discriminate E2.
Qed.

(** Without a timer every pending future times out at once, however much time it
    was given: a missing timer is reported as a time-out. *)
Theorem c127_gone : forall A h2 h1 s k,
  hist (h2 ++ DropTimer :: h1) s -> calm (h2 ++ DropTimer :: h1) ->
  live k (h2 ++ DropTimer :: h1) = true ->
  exists s', poll_limit k (@None A) s = Ok (Some TimedOut, s').
Proof.
  intros A h2 h1 s k H C L. destruct (c110_gone h2 h1 s k H C L) as (s' & E). exists s'.
  cbn [poll_limit]. rewrite E. cbn [bind].
  destruct ((k <? news h1) && rang k h1)%nat%bool; reflexivity.
Qed.

Theorem c127_never_early_refuted : exists h s s' k a,
  hist h s /\ calm h /\ live k h = true /\ due k h = Some a /\ 0 < a /\
  (forall now, ~ In (Advance now) h) /\
  poll_limit k (@None unit) s = Ok (Some TimedOut, s').
Proof.
  destruct (step s0 DropTimer) as [[r1 s1]| |] eqn:E1; [|vm_compute in E1; discriminate|vm_compute in E1; discriminate].
  destruct (step s1 (New 1000)) as [[r2 s2]| |] eqn:E2.
  2, 3: (exfalso; vm_compute in E1; injection E1 as _ E1; subst s1; vm_compute in E2; discriminate).
  assert (H : hist ([New 1000] ++ DropTimer :: []) s2).
  { cbn [app]. eapply hist_step; [|exact E2]. eapply hist_step; [apply hist_nil|exact E1]. }
  assert (C : calm ([New 1000] ++ DropTimer :: [])) by (cbn; repeat split; intros; reflexivity).
  destruct (c127_gone unit [New 1000] [] s2 0 H C eq_refl) as (s' & P).
  exists [New 1000; DropTimer], s2, s', 0%nat, 1000. split; [exact H|]. split; [exact C|].
  split; [reflexivity|]. split; [reflexivity|]. split; [lia|]. split; [|exact P].
  intros now [X|[X|[]]]; discriminate.
Qed.

(** ** Streams with a limit per item *)

(** A poll of the stream passes on what the stream answered and starts the time
    for the next item anew; a stream that is pending times out exactly when the
    time since the last item has passed, and then the time starts anew, too. *)
Theorem c127_stream_exact : forall A h s k now dur (inner : option (option A)),
  hist h s -> calm h -> ~ In DropTimer h -> live k h = true ->
  (forall i, since i (Reset k (now + dur) :: h) < GENS) ->
  exists o s', poll_stream k now dur inner s = Ok (o, s') /\
    match inner with
    | Some x => o = Some (option_map Inner x) /\ hist (Reset k (now + dur) :: h) s'
    | None =>
        if rang k h
        then o = Some (Some TimedOut) /\ hist (Reset k (now + dur) :: Poll k :: h) s'
        else o = None /\ hist (Poll k :: h) s'
    end.
Proof.
  intros A h s k now dur inner H C N L G.
  assert (R : forall h' t, hist h' t -> calm h' -> ~ In DropTimer h' -> live k h' = true ->
            exists t', step t (Reset k (now + dur)) = Ok (ANone, t')).
  { intros h' t H' C' N' L'. destruct (c110_exact h' t k H' C' N' L') as (t' & E).
    cbn [step] in *. unfold on_delay in *. destruct (nth_error (s_ds t) k) as [d|]; [|discriminate].
    destruct (d_live d); [eauto|discriminate]. }
  destruct inner as [x|]; cbn [poll_stream].
  - destruct (R h s H C N L) as (t & E). rewrite E. cbn [bind]. do 2 eexists. split; [reflexivity|].
    split; [reflexivity|]. eapply hist_step; eauto.
  - destruct (c110_exact h s k H C N L) as (t & E). rewrite E. cbn [bind].
    assert (HP : hist (Poll k :: h) t) by (eapply hist_step; eauto).
    destruct (rang k h); [|eauto].
    destruct (R (Poll k :: h) t HP) as (u & E'); auto.
    { split; [|exact C]. intros i. cbn [since]. apply calm_since. exact C. }
    { intros [X|X]; [discriminate|contradiction]. }
    rewrite E'. cbn [bind]. do 2 eexists. split; [reflexivity|]. split; [reflexivity|].
    eapply hist_step; eauto.
Qed.

(** So between two answers of the stream that end in a time-out, the timer's
    clock has reached the time of the first plus the limit. *)
Theorem c127_stream_spacing : forall A h2 h1 s k t dur now s',
  hist (h2 ++ Reset k (t + dur) :: h1) s -> calm (h2 ++ Reset k (t + dur) :: h1) ->
  ~ In DropTimer (h2 ++ Reset k (t + dur) :: h1) -> (k < news h1)%nat ->
  (forall b, ~ In (Reset k b) h2) ->
  poll_stream k now dur (@None (option A)) s = Ok (Some (Some TimedOut), s') ->
  exists at_, In (Advance at_) h2 /\ t + dur <= at_.
Proof.
  intros A h2 h1 s k t dur now s' H C N K NR E.
  destruct (since_set k h2 h1 (Reset k (t + dur)) (t + dur)) as (_ & _ & X); [left; auto|exact NR|].
  apply X. pose proof (step_inv _ s (Poll k) C (hist_alive _ s H C N)) as SI.
  cbn [poll_stream] in E. destruct (step s (Poll k)) as [[r s1]| |]; try discriminate.
  destruct SI as (_ & _ & ->). cbn [bind] in E.
  destruct (rang k (h2 ++ Reset k (t + dur) :: h1)); [reflexivity|discriminate].
Qed.

(** Over any history, the limit adds time-outs and nothing else: all items and
    the end of the stream come out, once and in order. *)
Theorem c127_stream_items : forall A k dur (l : list (sact A)) s os s',
  srun k dur l s = Ok (os, s') -> passed os = inners l.
Proof.
  intros A k dur l. induction l as [|[now inner|e] l IH]; intros s os s' E; cbn [srun] in E.
  - injection E as <- <-. reflexivity.
  - destruct (poll_stream k now dur inner s) as [[o s1]| |] eqn:P; try discriminate. cbn [bind] in E.
    destruct (srun k dur l s1) as [[os' s2]| |] eqn:R; try discriminate. cbn [bind] in E.
    injection E as <- <-. specialize (IH _ _ _ R). cbn [inners].
    destruct inner as [x|]; cbn [poll_stream] in P.
    + destruct (step s (Reset k (now + dur))) as [[r t]| |]; try discriminate. cbn [bind] in P.
      injection P as <- <-. destruct x; cbn [option_map passed]; congruence.
    + destruct (step s (Poll k)) as [[r t]| |]; try discriminate. cbn [bind] in P.
      assert (Q : o = None \/ o = Some (Some TimedOut)).
      { destruct r as [|[]|];
          try (injection P as <- <-; auto; fail);
          (destruct (step t (Reset k (now + dur))) as [[r' t']| |]; try discriminate;
           cbn [bind] in P; injection P as <- <-; auto). }
      destruct Q as [->| ->]; cbn [passed]; exact IH.
  - destruct (step s e) as [[r t]| |]; try discriminate. cbn [bind] in E. eauto.
Qed.

(** Without a timer, a stream that has nothing to say times out at every poll:
    whoever waits for its next item spins. *)
Theorem c127_stream_spins_refuted : forall A n, exists s os s',
  srun 0%nat 1000 (repeat (SPoll 0 (@None (option A))) n) s = Ok (os, s') /\
  os = repeat (Some (Some TimedOut)) n /\
  exists h, hist h s /\ live 0 h = true /\ (forall now, ~ In (Advance now) h).
Proof.
  intros A n.
  pose (s1 := MkS [] [] h_new false false [] 0).
  pose (s2 := MkS [MkD true false 1000 None 0 false false None false false] [] h_new false false [] 0).
  assert (X : forall d0, exists os s',
     srun 0%nat 1000 (repeat (SPoll 0 (@None (option A))) n)
       (MkS [MkD true false d0 None 0 false false None false false] [] h_new false false [] 0) = Ok (os, s') /\
     os = repeat (Some (Some TimedOut)) n).
  { induction n as [|n IH]; intros d0; [cbn [repeat srun]; eauto|].
    destruct (IH 1000) as (os & s' & E & ->). exists (Some (Some TimedOut) :: repeat (Some (Some TimedOut)) n), s'.
    split; [|reflexivity]. cbn [repeat srun].
    replace (poll_stream 0 0 1000 (@None (option A)) (MkS [MkD true false d0 None 0 false false None false false] [] h_new false false [] 0))
      with (Ok (Some (Some (@TimedOut A)), MkS [MkD true false 1000 None 0 false false None false false] [] h_new false false [] 0))
      by reflexivity.
    cbn [bind]. rewrite E. reflexivity. }
  destruct (X 1000) as (os & s' & E & ->). exists s2, (repeat (Some (Some TimedOut)) n), s'.
  split; [exact E|]. split; [reflexivity|]. exists [New 1000; DropTimer]. split.
  - eapply (hist_step _ s1); [eapply (hist_step _ s0); [apply hist_nil|vm_compute; reflexivity]|vm_compute; reflexivity].
  - split; [reflexivity|]. intros now [Y|[Y|[]]]; discriminate.
Qed.

(** The hypotheses are met: a limit of 10 on a future that stays pending, and a
    stream with an item, a time-out and an end. *)
Example c127_hyps_met :
  (exists s, hist [Advance 10; Serve; New 10] s /\
     (exists s', poll_limit 0 (@None Z) s = Ok (Some TimedOut, s')) /\
     live 0 [Advance 10; Serve; New 10] = true /\ sets 0 [] (New 10) 10) /\
  (exists s s', step s0 (New 10) = Ok (ANone, s) /\
     srun 0 10 [SEvent Serve; SPoll 5 (Some (Some 7)); SEvent Serve; SEvent (Advance 12);
                SPoll 12 None; SEvent (Advance 15); SPoll 15 None; SEvent Serve;
                SPoll 16 None; SPoll 20 (Some None)] s
     = Ok ([Some (Some (Inner 7)); None; Some (Some TimedOut); None; Some None], s')).
Proof.
  split.
  - destruct (runs s0 [New 10; Serve; Advance 10]) as [s| |] eqn:R; [|vm_compute in R; discriminate|vm_compute in R; discriminate].
    pose proof (runs_hist _ _ _ _ hist_nil R) as H. cbn [rev app] in H. exists s. split; [exact H|].
    split; [vm_compute in R; injection R as R; rewrite <- R; eexists; vm_compute; reflexivity|].
    split; [reflexivity|]. right. split; reflexivity.
  - eexists. eexists. split; [vm_compute; reflexivity|vm_compute; reflexivity].
Qed.

Print Assumptions c127_answer_passed.
Print Assumptions c127_limit_exact.
Print Assumptions c127_never_early.
Print Assumptions c127_times_out.
Print Assumptions c127_woken.
Print Assumptions c127_gone.
Print Assumptions c127_never_early_refuted.
Print Assumptions c127_stream_exact.
Print Assumptions c127_stream_spacing.
Print Assumptions c127_stream_items.
Print Assumptions c127_stream_spins_refuted.
