(** Property C124: the callbacks of asynchronous node requests, for every
    interleaving of the worker thread and the caller. *)
From Verif Require Import Base RequestModel.

(** ** Specification *)

(** Calls of the completion callback, and of the abort callback. *)
Fixpoint completions (l : list event) : nat :=
  match l with
  | [] => 0
  | Completed _ _ :: l' => S (completions l')
  | Aborted :: l' => completions l'
  end%nat.

Fixpoint abortions (l : list event) : nat :=
  match l with
  | [] => 0
  | Completed _ _ :: l' => abortions l'
  | Aborted :: l' => S (abortions l')
  end%nat.

(** How often a history calls abort. *)
Fixpoint abort_calls (l : list action) : nat :=
  match l with
  | [] => 0
  | AbortFlag :: l' => S (abort_calls l')
  | _ :: l' => abort_calls l'
  end%nat.

(** The caller's data handed over with the request is released by whichever
    callback is called (the iOS bindings do so in both functions,
    bindings/ergo-lib-ios/Sources/ErgoLib/WrapClosure.swift:19-53): it must
    happen at most once. *)
Definition released_once (l : list event) : Prop := (List.length l <= 1)%nat.

Lemma calls_split : forall l, List.length l = (completions l + abortions l)%nat.
Proof. induction l as [|[r e|] l IH]; cbn [List.length completions abortions]; lia. Qed.

Ltac step_cases E :=
  match type of E with
  | step ?s ?a = _ =>
      destruct s as [t f n h r cs]; destruct a; cbn [step] in E;
      repeat match type of E with
             | (match ?x with _ => _ end) = _ => destruct x eqn:?
             end; try discriminate E; injection E as E; subst
  end.

Lemma exec_app : forall l1 l2 s,
  exec s (l1 ++ l2) = match exec s l1 with Some s' => exec s' l2 | None => None end.
Proof.
  induction l1 as [|a l1 IH]; intros l2 s; cbn [exec app]; [reflexivity|].
  destruct (step s a); [apply IH|reflexivity].
Qed.

Lemma exec_snoc_ind : forall (P : req -> list action -> Prop),
  P spawned [] ->
  (forall s l a s', exec spawned l = Some s -> P s l -> step s a = Some s' ->
     P s' (l ++ [a])) ->
  forall l s, exec spawned l = Some s -> P s l.
Proof.
  intros P H0 HS l. induction l as [|a l IH] using rev_ind; intros s E.
  - cbn in E. congruence.
  - rewrite exec_app in E. destruct (exec spawned l) as [s1|] eqn:E1; [|discriminate].
    cbn [exec] in E. destruct (step s1 a) as [s2|] eqn:E2; [|discriminate].
    injection E as <-. eapply HS; eauto.
Qed.

Lemma abort_calls_app : forall l1 l2,
  abort_calls (l1 ++ l2) = (abort_calls l1 + abort_calls l2)%nat.
Proof.
  induction l1 as [|a l1 IH]; intros l2; [reflexivity|].
  cbn [app abort_calls]. destruct a; rewrite IH; lia.
Qed.

(** ** The completion callback *)

(** Whatever happens, the completion callback is called at most once, with
    exactly one of a response and an error, and it has been called exactly if
    the task came to its end. *)
Theorem c124_completed_once : forall l s,
  exec spawned l = Some s ->
  (completions (calls s) <= 1)%nat /\
  (completions (calls s) = 1%nat <-> task s = Finished) /\
  (forall r e, In (Completed r e) (calls s) -> e = negb r).
Proof.
  intros l s E.
  cut ((completions (calls s) = match task s with Finished => 1 | _ => 0 end)%nat /\
       (forall r e, In (Completed r e) (calls s) -> e = negb r)).
  { intros [H1 H2]. rewrite H1. destruct (task s); repeat split; auto; try lia; discriminate. }
  revert l s E. apply (exec_snoc_ind (fun s l => _)).
  - cbn. split; [reflexivity|tauto].
  - intros s l a s' _ [IH1 IH2] E.
    step_cases E; cbn [calls task completions] in *;
      try (split; [lia|exact IH2]);
      try (split; [exact IH1|intros r' e' [H|H]; [discriminate|eauto]]).
    + destruct f; split; auto.
    + destruct f; split; auto.
    + split.
      * destruct r0; cbn [report succeeded failed completions]; unfold succeeded, failed;
          cbn [completions]; lia.
      * intros r' e' [H|H]; [|eauto].
        destruct r0; cbn in H; injection H as <- <-; reflexivity.
Qed.

(** A response is delivered exactly if that is what the request ended with;
    that there is no Merkle proof is delivered as an error. *)
Theorem c124_outcome_delivered : forall l s r e,
  exec spawned l = Some s -> In (Completed r e) (calls s) ->
  exists x, In (Ready x) l /\ (r = true <-> x = RValue).
Proof.
  intros l s r e E HI. revert r e HI. revert l s E.
  apply (exec_snoc_ind (fun s l => forall r e, In (Completed r e) (calls s) ->
    exists x, In (Ready x) l /\ (r = true <-> x = RValue))).
  - intros r e [].
  - intros s l a s' _ IH E r' e' HI.
    assert (OLD : In (Completed r' e') (calls s) ->
      exists x, In (Ready x) (l ++ [a]) /\ (r' = true <-> x = RValue)).
    { intros H. destruct (IH _ _ H) as [x [H1 H2]]. exists x. split; [|exact H2].
      apply in_or_app. auto. }
    step_cases E; cbn [calls] in *; auto.
    + destruct HI as [H|H]; [|auto].
      exists r0. split; [apply in_or_app; right; left; reflexivity|].
      destruct r0; cbn in H; injection H as <- <-; split; congruence.
    + destruct HI as [H|H]; [discriminate|auto].
Qed.

(** A request that nobody aborts and whose runtime is kept is not lost: either
    it has made its single callback, or it has made none and the worker can
    still bring it to its end. *)
Definition left_alone (a : action) : Prop :=
  match a with AbortFlag | DeleteRuntime => False | _ => True end.

Theorem c124_left_alone : forall l s,
  exec spawned l = Some s -> Forall left_alone l ->
  (exists x, calls s = [report x] /\ task s = Finished) \/
  (calls s = [] /\ forall x, exists l' s',
     Forall (fun a => a = Poll \/ a = Ready x) l' /\
     exec s l' = Some s' /\ calls s' = [report x]).
Proof.
  intros l s E HL.
  assert (INV : flag s = false /\ aborting s = 0%nat /\ runtime s = true /\
    ((exists x, calls s = [report x] /\ task s = Finished) \/
     (calls s = [] /\ (task s = Waiting \/ task s = Polling)))).
  { revert HL. revert l s E.
    apply (exec_snoc_ind (fun s l => Forall left_alone l ->
      flag s = false /\ aborting s = 0%nat /\ runtime s = true /\
      ((exists x, calls s = [report x] /\ task s = Finished) \/
       (calls s = [] /\ (task s = Waiting \/ task s = Polling))))).
    - intros _. cbn. auto 10.
    - intros s l a s' _ IH E HL. apply Forall_app in HL as [HL HA].
      specialize (IH HL). inversion_clear HA as [|? ? HA' _].
      destruct IH as (F & N & R & C).
      step_cases E; cbn [flag aborting runtime calls task left_alone] in *; subst;
        try contradiction; try discriminate.
      + destruct C as [[x [_ C]]|[C _]]; [discriminate|]. auto 10.
      + destruct C as [[x [_ C]]|[C _]]; [discriminate|]. auto 10.
      + destruct C as [[x [_ C]]|[C _]]; [discriminate|]. subst.
        repeat split; auto. left. exists r0. auto.
      + repeat split; auto. }
  destruct INV as (F & N & R & [C|[C T]]); [left; exact C|right].
  split; [exact C|]. intros x. destruct s as [t f n h r cs]. cbn in *. subst.
  destruct T as [T|T]; subst.
  - exists [Poll; Ready x], (mk_req Finished false 0 h true [report x]).
    split; [repeat (apply Forall_cons; [auto|]); apply Forall_nil|]. split; reflexivity.
  - exists [Ready x], (mk_req Finished false 0 h true [report x]).
    split; [repeat (apply Forall_cons; [auto|]); apply Forall_nil|]. split; reflexivity.
Qed.

(** ** Aborting *)

(** Every call of abort calls the abort callback exactly once, whether or not
    the request had already finished. *)
Theorem c124_abort_calls : forall l s,
  exec spawned l = Some s ->
  (abortions (calls s) + aborting s = abort_calls l)%nat.
Proof.
  apply (exec_snoc_ind (fun s l => (abortions (calls s) + aborting s = abort_calls l)%nat)).
  - reflexivity.
  - intros s l a s' _ IH E. rewrite abort_calls_app.
    step_cases E; cbn [calls aborting abortions abort_calls] in *; try lia.
    destruct r0; cbn [report succeeded failed]; unfold succeeded, failed;
      cbn [abortions]; lia.
Qed.

(** Once the flag of an abort is set while the task is not being polled, the
    completion callback is not called any more, whatever happens later. *)
Theorem c124_abort_stops : forall s l s',
  flag s = true -> task s <> Polling -> exec s l = Some s' ->
  completions (calls s') = completions (calls s).
Proof.
  intros s l. revert s. induction l as [|a l IH]; intros s s' F T E; cbn [exec] in E.
  - congruence.
  - destruct (step s a) as [s1|] eqn:E1; [|discriminate].
    assert (H : flag s1 = true /\ task s1 <> Polling /\
                completions (calls s1) = completions (calls s)).
    { step_cases E1; cbn [flag task calls completions] in *; subst; try congruence;
        repeat split; auto; try discriminate. }
    destruct H as (H1 & H2 & H3). rewrite <- H3. eapply IH; eauto.
Qed.

(** If a request is aborted at most once, at a moment when it has not finished
    and is not being polled, its data is released at most once.  Missing to the
    full statement: aborts during a poll, after the end, or repeated. *)
Theorem c124_released_once_partial :
  (forall l s, exec spawned l = Some s -> abort_calls l = 0%nat -> released_once (calls s)) /\
  (forall l1 s1 l2 s,
     exec spawned l1 = Some s1 -> abort_calls l1 = 0%nat ->
     task s1 = Waiting \/ task s1 = Dropped ->
     exec s1 (AbortFlag :: l2) = Some s -> abort_calls l2 = 0%nat ->
     released_once (calls s)).
Proof.
  split.
  - intros l s E A. unfold released_once. rewrite calls_split.
    pose proof (c124_abort_calls _ _ E). destruct (c124_completed_once _ _ E) as [C _]. lia.
  - intros l1 s1 l2 s E1 A1 T E2 A2. unfold released_once. rewrite calls_split.
    assert (E : exec spawned (l1 ++ AbortFlag :: l2) = Some s)
      by (rewrite exec_app, E1; exact E2).
    pose proof (c124_abort_calls _ _ E) as A. rewrite abort_calls_app in A.
    cbn [abort_calls] in A.
    destruct (c124_completed_once _ _ E1) as [C1 [C2 _]].
    cbn [exec] in E2. destruct (step s1 AbortFlag) as [s2|] eqn:E3; [|discriminate].
    assert (K : flag s2 = true /\ task s2 = task s1 /\ calls s2 = calls s1).
    { destruct s1 as [t f n h r cs]. cbn [step] in E3. destruct h; [|discriminate].
      injection E3 as <-. auto. }
    destruct K as (K1 & K2 & K3).
    assert (H : completions (calls s) = completions (calls s2)).
    { eapply c124_abort_stops; [exact K1| |exact E2]. destruct T; congruence. }
    rewrite K3 in H.
    assert (completions (calls s1) <> 1%nat).
    { intros Q. apply C2 in Q. destruct T; congruence. }
    lia.
Qed.

(** A single abort can release the caller's data twice: after the request has
    finished, and, when it falls into a poll, even with the completion callback
    called after the abort callback. *)
Theorem c124_released_once_refuted :
  (exists l s, exec spawned l = Some s /\ abort_calls l = 1%nat /\
     calls s = [Aborted; Completed true false] /\ ~ released_once (calls s)) /\
  (exists l s, exec spawned l = Some s /\ abort_calls l = 1%nat /\
     calls s = [Completed true false; Aborted] /\ ~ released_once (calls s)).
Proof.
  split.
  - exists [Poll; Ready RValue; AbortFlag; AbortCall], (mk_req Finished true 0 true true
      [Aborted; Completed true false]).
    repeat split; try reflexivity. unfold released_once. cbn. lia.
  - exists [Poll; AbortFlag; AbortCall; Ready RValue], (mk_req Finished true 0 true true
      [Completed true false; Aborted]).
    repeat split; try reflexivity. unfold released_once. cbn. lia.
Qed.

(** Nor is there always a callback: when the runtime is deleted while the
    request waits, no callback is made, however long one waits; the caller's
    data is not released unless they abort as well. *)
Theorem c124_always_called_refuted :
  exists l s, exec spawned l = Some s /\ abort_calls l = 0%nat /\
    forall l' s', exec s l' = Some s' -> abort_calls l' = 0%nat -> calls s' = [].
Proof.
  exists [Poll; Pend; DeleteRuntime], (mk_req Dropped false 0 true false []).
  split; [reflexivity|]. split; [reflexivity|].
  intros l'.
  assert (G : forall s s', task s = Dropped -> aborting s = 0%nat -> calls s = [] ->
    exec s l' = Some s' -> abort_calls l' = 0%nat -> calls s' = []).
  { induction l' as [|a l' IH]; intros s s' T N C E A; cbn [exec] in E; [congruence|].
    destruct (step s a) as [s1|] eqn:E1; [|discriminate].
    assert (H : task s1 = Dropped /\ aborting s1 = 0%nat /\ calls s1 = [] /\
                abort_calls l' = 0%nat).
    { step_cases E1; cbn [task aborting calls abort_calls] in *; try congruence; auto. }
    destruct H as (H1 & H2 & H3 & H4). eapply IH; eauto. }
  intros s'. apply G; reflexivity.
Qed.

(** ** Starting a request *)

(** A request is started only if all its pointer arguments are non-null, and is
    refused with the first that is null; a refused request has no task, so none
    of its callbacks is ever called. *)
Theorem c124_started : forall runtime_ok conf_ok id_ok tx_ok,
  (get_info runtime_ok conf_ok true = Started spawned
     <-> runtime_ok = true /\ conf_ok = true) /\
  (get_header runtime_ok conf_ok id_ok true = Started spawned
     <-> runtime_ok = true /\ conf_ok = true /\ id_ok = true) /\
  (get_proof_for_tx runtime_ok conf_ok id_ok tx_ok true = Started spawned
     <-> runtime_ok = true /\ conf_ok = true /\ id_ok = true /\ tx_ok = true) /\
  (runtime_ok = false -> forall out,
     get_info runtime_ok conf_ok out = Refused "runtime_ptr" /\
     get_header runtime_ok conf_ok id_ok out = Refused "runtime_ptr" /\
     get_proof_for_tx runtime_ok conf_ok id_ok tx_ok out = Refused "runtime_ptr").
Proof.
  intros [] [] [] []; cbn; repeat split; intros; intuition discriminate.
Qed.

(** Peer discovery is started exactly with at least one seed, all of them URLs,
    and room for at least one parallel request. *)
Theorem c124_discovery_started : forall seeds max_parallel runtime_ok,
  peer_discovery seeds max_parallel runtime_ok true = Started spawned <->
  exists l, seeds = Some l /\ l <> [] /\ Forall (fun x => x = Some true) l /\
            1 <= max_parallel /\ runtime_ok = true.
Proof.
  intros seeds m rt.
  assert (G : forall l, check_seeds l = None <-> Forall (fun x => x = Some true) l).
  { induction l as [|[[]|] l IH]; cbn [check_seeds].
    - split; auto.
    - rewrite IH. split; [auto|]. intros H; inversion H; auto.
    - split; [discriminate|]. intros H; inversion H; discriminate.
    - split; [discriminate|]. intros H; inversion H; discriminate. }
  unfold peer_discovery. destruct seeds as [[|x l]|].
  - split; [discriminate|]. intros (l & [= <-] & H & _). congruence.
  - destruct (check_seeds (x :: l)) as [e|] eqn:E.
    + split; [discriminate|]. intros (l' & [= <-] & _ & H & _). apply G in H. congruence.
    + apply G in E. destruct (m <? 1) eqn:M.
      * split; [discriminate|]. intros (l' & _ & _ & _ & H & _). lia.
      * unfold start. cbn [check_args]. destruct rt.
        -- split; [|reflexivity]. intros _. exists (x :: l).
           repeat split; auto; [discriminate|lia].
        -- split; [discriminate|]. intros (l' & _ & _ & _ & _ & H). discriminate.
  - split; [discriminate|]. intros (l & H & _). discriminate.
Qed.

(** A null pointer for the handle is not among the arguments that are checked:
    the write through it comes after the task was started. *)
Theorem c124_null_handle_refuted :
  exists s, get_info true true false = WriteNull s /\
    exists l s', exec s l = Some s' /\ completions (calls s') = 1%nat.
Proof.
  exists spawned. split; [reflexivity|].
  exists [Poll; Ready RFailure], (mk_req Finished false 0 true true [Completed false true]).
  split; reflexivity.
Qed.

(** ** Hypotheses met *)

Example c124_hyps_met :
  exec spawned [Poll; Pend; AbortFlag; Poll; AbortCall; DeleteHandle; DeleteRuntime]
    = Some (mk_req Dropped true 0 false false [Aborted]) /\
  exec spawned [Poll; Pend; Poll; Ready RNothing; DeleteHandle]
    = Some (mk_req Finished false 0 false true [Completed false true]) /\
  Forall left_alone [Poll; Pend; Poll; Ready RNothing; DeleteHandle] /\
  peer_discovery (Some [Some true; Some true]) 4 true true = Started spawned.
Proof. repeat split; try reflexivity. repeat constructor. Qed.

Print Assumptions c124_completed_once.
Print Assumptions c124_outcome_delivered.
Print Assumptions c124_left_alone.
Print Assumptions c124_abort_calls.
Print Assumptions c124_abort_stops.
Print Assumptions c124_released_once_partial.
Print Assumptions c124_released_once_refuted.
Print Assumptions c124_always_called_refuted.
Print Assumptions c124_started.
Print Assumptions c124_discovery_started.
Print Assumptions c124_null_handle_refuted.
