(** Delays in a browser: never early, on time while there are few callbacks, and not otherwise. *)
From Coq Require Import Permutation.
From Verif Require Import Base HeapModel HeapProofs TimerModel TimerProofs TimerProps BrowserModel.
Local Open Scope list_scope.
Local Open Scope nat_scope.

(** Runs of which every step is one [P] permits, with the calls the timer saw (latest first). *)
Inductive brun (P : br -> bev -> Prop) (t0 : Z) : list ev -> br -> Prop :=
| br_nil : brun P t0 [] (b0 t0)
| br_step h b e b' : brun P t0 h b -> P b e -> bstep b e = Ok b' ->
    brun P t0 (match e with BTick _ => h | BRun _ => Advance (b_now b) :: Serve :: h | _ => match call_of (b_now b) e with Some c => c :: h | None => h end end) b'.
Definition any (b : br) (e : bev) : Prop := True.
(** Time does not pass a pending callback: each is run when it is due. *)
Definition prompt (b : br) (e : bev) : Prop := match e with BTick t => Forall (fun d => (t <= d)%Z) (b_pend b) | _ => True end.
(** At most 19 callbacks are pending when one is run. *)
Definition few (b : br) (e : bev) : Prop := match e with BRun _ => length (b_pend b) <= 19 | _ => True end.
Definition prompt_few b e := prompt b e /\ few b e.

(** * The timer's task *)
Lemma wake_timer_calls : forall s, let s' := wake_timer s in s_reg s' = false /\ s_calls s' = (if s_reg s then S (s_calls s) else s_calls s).
Proof. intros s. cbn zeta. unfold wake_timer. destruct (s_reg s) eqn:E; auto. Qed.
(** A call on a delay either leaves list and task alone or has the task woken. *)
Lemma call_task : forall s now e c a s', call_of now e = Some c -> step s c = Ok (a, s') ->
  s_heap s' = s_heap s /\ ((s_list s' = s_list s /\ s_reg s' = s_reg s /\ s_calls s' = s_calls s) \/
    (s_reg s' = false /\ s_calls s' = if s_reg s then S (s_calls s) else s_calls s)).
Proof.
  intros s now e c a s' C E.
  assert (PW : forall k d t, s_heap t = s_heap s -> s_reg t = s_reg s -> s_calls t = s_calls s -> s_heap (push_wake k d t) = s_heap s /\
    ((s_list (push_wake k d t) = s_list s /\ s_reg (push_wake k d t) = s_reg s /\ s_calls (push_wake k d t) = s_calls s) \/
     (s_reg (push_wake k d t) = false /\ s_calls (push_wake k d t) = if s_reg s then S (s_calls s) else s_calls s))).
  { intros k d t E1 E2 E3. destruct (push_wake_rest k d t) as (_ & _ & -> & _). split; [exact E1|]. right. unfold push_wake.
    match goal with |- context [wake_timer ?x] => destruct (wake_timer_calls x) as [-> ->]; assert (s_reg x = s_reg s /\ s_calls x = s_calls s) as [-> ->] by (destruct (d_enq d); auto) end. auto. }
  destruct e as [dr|k dr|k|k|t|i]; cbn in C; try discriminate; injection C as <-; cbn [step] in E; unfold on_delay in E.
  - injection E as <- <-. unfold new. destruct (s_alive s); [apply PW; reflexivity|]. auto.
  - destruct (nth_error (s_ds s) k) as [d|]; [|discriminate]. destruct (d_live d); [|discriminate]. injection E as <- <-. unfold reset. cbv zeta.
    destruct (d_node _); [|auto]. destruct (s_alive s); [|auto]. destruct (d_inv _); [auto|]. apply PW; reflexivity.
  - destruct (nth_error (s_ds s) k) as [d|]; [|discriminate]. destruct (d_live d); [|discriminate]. injection E as <- <-. unfold drop_d. cbv zeta.
    destruct (d_node _); [|auto]. destruct (s_alive s); [|auto]. apply PW; reflexivity.
  - destruct (nth_error (s_ds s) k) as [d|]; [|discriminate]. destruct (d_live d); [|discriminate]. unfold poll in E. destruct (d_node d); [|injection E as <- <-; auto].
    destruct (d_fired d); [injection E as <- <-; auto|]. injection E as <- <-. auto.
Qed.

(** * The callback *)
Lemma callback_ok : forall h s rest now, Inv h s -> calm h -> exists s', Inv (Advance now :: Serve :: h) s' /\ s_list s' = [] /\ s_reg s' = true /\
  match h_peek (s_heap s') with Some e => (now < e_at e)%Z | None => True end /\
  callback rest now s = Ok (MkB s' (if (20 <? length rest + 2)%nat then rest else rest ++ [(now + millis (sleep now (option_map e_at (h_peek (s_heap s')))))%Z]) now) /\
  exists s1, step s Serve = Ok (ANone, s1) /\ step s1 (Advance now) = Ok (ANone, s').
Proof.
  intros h s rest now I C. destruct (serve_ok h s I) as (s1 & R1 & I1 & L1 & G1 & _). unfold callback. rewrite R1. cbn [bind].
  assert (C1 : calm (Serve :: h)) by (split; [reflexivity|exact C]).
  pose proof I1 as (A1 & LN & V1 & LK & LI & G).
  destruct (advance_ok (Serve :: h) now (S (length (h_items (s_heap s1)))) s1) as (s' & R & I' & _ & Q1 & Q2 & Q3 & Q4).
  - intro k. now apply calm_since.
  - unfold midA. repeat (split; [assumption|]). intros k d D. split; [auto|]. intro N. pose proof (G _ _ D) as GK. revert GK. unfold good. cbn [live due served rang since].
    destruct (live k h) eqn:LV; [|auto]. intros (K1 & K2 & K3 & K4 & K5 & w & W1 & W2 & W3 & W4 & W5). do 5 (split; [assumption|]). exists w. split; [exact W1|]. split; [exact W2|].
    destruct (rang k h) eqn:RG; [auto|]. exfalso. destruct W5 as (j & X). exact (no_entry _ _ _ _ LK D N _ _ X eq_refl).
  - lia.
  - rewrite R. cbn [bind]. exists s'. split; [exact I'|]. split; [congruence|]. split; [congruence|]. split; [exact Q4|]. split; [destruct (20 <? length rest + 2); reflexivity|].
    exists s1. destruct I as (A & _). cbn [step]. unfold on_timer. rewrite A, R1, A1, R. auto.
Qed.

Definition adv_le (now : Z) (h : list ev) : Prop := forall t, In (Advance t) h -> (t <= now)%Z.
Lemma call_not : forall now e c, call_of now e = Some c -> c <> DropTimer /\ forall t, c <> Advance t.
Proof. intros now e c E. destruct e; cbn in E; try discriminate; injection E as <-; split; discriminate. Qed.
Lemma brun_inv : forall P t0 h b, brun P t0 h b -> calm h -> Inv h (b_st b) /\ hist h (b_st b) /\ ~ In DropTimer h /\ adv_le (b_now b) h /\
  1 <= length (b_pend b) /\ length (b_pend b) + (if s_reg (b_st b) then 1 else 0) <= 20.
Proof.
  intros P t0 h b R. induction R as [|h b e b' R IH PE E]; intro C.
  - split; [apply inv0|]. split; [constructor|]. split; [intros []|]. split; [intros t []|]. cbn. lia.
  - assert (CH : calm h).
    { destruct e; cbn [call_of] in C; try exact C; try (now destruct C). destruct C as (_ & _ & C). exact C. }
    destruct (IH CH) as (I & H & N & A & P1 & P2). clear IH.
    assert (CALL : forall c a s, call_of (b_now b) e = Some c -> step (b_st b) c = Ok (a, s) -> b' = MkB s (b_pend b ++ repeat (b_now b) (s_calls s - s_calls (b_st b))) (b_now b) ->
      Inv (c :: h) (b_st b') /\ hist (c :: h) (b_st b') /\ ~ In DropTimer (c :: h) /\ adv_le (b_now b') (c :: h) /\ 1 <= length (b_pend b') /\ length (b_pend b') + (if s_reg (b_st b') then 1 else 0) <= 20).
    { intros c a s CO ST ->. cbn [b_st b_pend b_now]. destruct (call_not _ _ _ CO) as [ND NA].
      pose proof (step_inv h (b_st b) c CH I) as SI. rewrite ST in SI. split; [destruct c; try apply SI; congruence|]. split; [eapply hist_step; eauto|]. split; [intros [X|X]; [congruence|contradiction]|].
      split; [intros t [X|X]; [destruct (NA _ X)|auto]|]. rewrite app_length, repeat_length. destruct (call_task _ _ _ _ _ _ CO ST) as [_ [(_ & -> & ->)|[-> ->]]].
      - lia.
      - destruct (s_reg (b_st b)); lia. }
    destruct e as [dr|k dr|k|k|t|i]; cbn [bstep call_of] in E |- *;
      try (destruct (step (b_st b) _) as [[a s]| |] eqn:ST; cbn [bind] in E; [|discriminate|discriminate]; injection E as <-; eapply CALL; [reflexivity|exact ST|reflexivity]).
    + destruct (Z.leb_spec (b_now b) t); [|discriminate]. injection E as <-. cbn [b_st b_pend b_now]. do 3 (split; [assumption|]). split; [|auto]. intros u U. apply A in U. lia.
    + destruct (nth_error (b_pend b) i) as [d|] eqn:D; [|discriminate]. destruct (Z.leb_spec d (b_now b)) as [LE|]; [|discriminate].
      destruct (callback_ok h (b_st b) (drop_nth i (b_pend b)) (b_now b) I CH) as (s' & I' & L' & G' & _ & R' & s1 & S1 & S2). rewrite R' in E. injection E as <-. cbn [b_st b_pend b_now].
      split; [exact I'|]. split; [eapply hist_step; [eapply hist_step; [exact H|exact S1]|exact S2]|]. split; [intros [X|[X|X]]; [discriminate|discriminate|contradiction]|].
      split; [intros t [X|[X|X]]; [injection X as <-; lia|discriminate|auto]|].
      assert (LD : length (drop_nth i (b_pend b)) = length (b_pend b) - 1).
      { assert (i < length (b_pend b)) by (apply nth_error_Some; congruence). unfold drop_nth. rewrite app_length, firstn_length, skipn_length. lia. }
      rewrite G'. destruct (Nat.ltb_spec 20 (length (drop_nth i (b_pend b)) + 2)); [|rewrite app_length; cbn [length]]; destruct (s_reg (b_st b)); lia.
Qed.

(** In a browser no delay fires before its time, whenever callbacks are run. *)
Theorem c111_never_early : forall t0 h b k s', brun any t0 h b -> calm h -> step (b_st b) (Poll k) = Ok (APoll Done, s') -> exists a, due k h = Some a /\ (a <= b_now b)%Z.
Proof.
  intros t0 h b k s' R C E. destruct (brun_inv _ _ _ _ R C) as (I & H & N & A & _). destruct (c110_never_early h _ k s' H C N E) as (a & now & D & IN & LE). exists a. split; [exact D|]. apply A in IN. lia.
Qed.
(** There is always a callback to come and never more than twenty. *)
Theorem c111_bounded : forall t0 h b, brun any t0 h b -> calm h -> 1 <= length (b_pend b) <= 20.
Proof. intros t0 h b R C. destruct (brun_inv _ _ _ _ R C) as (_ & _ & _ & _ & P1 & P2). lia. Qed.

(** Every instant in the heap and every waiting update is covered by a callback. *)
Definition soon (l : list Z) (t : Z) : Prop := Exists (fun d => (d <= t)%Z) l.
Definition covered (b : br) : Prop :=
  (s_reg (b_st b) = false -> soon (b_pend b) (b_now b)) /\ (s_list (b_st b) <> [] -> soon (b_pend b) (b_now b)) /\
  forall e j, In (e, j) (h_items (s_heap (b_st b))) -> soon (b_pend b) (Z.max (e_at e) (b_now b)).
Lemma soon_le : forall l s t, (s <= t)%Z -> soon l s -> soon l t.
Proof. intros l s t LE. unfold soon. apply Exists_impl. intros; lia. Qed.
Lemma covered_run : forall t0 h b, brun prompt_few t0 h b -> calm h -> covered b.
Proof.
  intros t0 h b R. induction R as [|h b e b' R IH PE E]; intro C.
  - split; [intros _; left; cbn; lia|]. split; [intro X; now destruct X|]. intros e j [].
  - assert (CH : calm h).
    { destruct e; cbn [call_of] in C; try exact C; try (now destruct C). destruct C as (_ & _ & C). exact C. }
    destruct (IH CH) as (J1 & J2 & J3). destruct (brun_inv _ _ _ _ R CH) as (I & _). clear IH.
    assert (CALL : forall c a s, call_of (b_now b) e = Some c -> step (b_st b) c = Ok (a, s) -> b' = MkB s (b_pend b ++ repeat (b_now b) (s_calls s - s_calls (b_st b))) (b_now b) -> covered b').
    { intros c a s CO ST ->. destruct (call_task _ _ _ _ _ _ CO ST) as [HP X]. unfold covered. cbn [b_st b_pend b_now]. rewrite HP.
      assert (UP : forall t, soon (b_pend b) t -> soon (b_pend b ++ repeat (b_now b) (s_calls s - s_calls (b_st b))) t) by (intros t S; apply Exists_app; now left).
      assert (NOW : s_reg s = false -> s_calls s = (if s_reg (b_st b) then S (s_calls (b_st b)) else s_calls (b_st b)) -> soon (b_pend b ++ repeat (b_now b) (s_calls s - s_calls (b_st b))) (b_now b)).
      { intros _ SC. destruct (s_reg (b_st b)) eqn:RG; [|apply UP; auto]. apply Exists_app. right. rewrite SC, Nat.sub_succ_l, Nat.sub_diag by lia. left. lia. }
      destruct X as [(E1 & E2 & E3)|[E1 E2]].
      - rewrite E1, E2. split; [auto|]. split; [auto|]. intros e0 j I0. apply UP. eapply J3; eauto.
      - split; [auto|]. split; [auto|]. intros e0 j I0. apply UP. eapply J3; eauto. }
    destruct e as [dr|k dr|k|k|t|i]; cbn [bstep call_of] in E |- *;
      try (destruct (step (b_st b) _) as [[a s]| |] eqn:ST; cbn [bind] in E; [|discriminate|discriminate]; injection E as <-; eapply CALL; [reflexivity|exact ST|reflexivity]).
    + destruct (Z.leb_spec (b_now b) t); [|discriminate]. injection E as <-. unfold covered. cbn [b_st b_pend b_now].
      split; [intro X; apply (soon_le _ (b_now b)); auto|]. split; [intro X; apply (soon_le _ (b_now b)); auto|]. intros e j I0. apply (soon_le _ (Z.max (e_at e) (b_now b))); [lia|eauto].
    + destruct PE as [_ FW]. cbn [few] in FW. destruct (nth_error (b_pend b) i) as [d|] eqn:D; [|discriminate]. destruct (Z.leb_spec d (b_now b)) as [LE|]; [|discriminate].
      destruct (callback_ok h (b_st b) (drop_nth i (b_pend b)) (b_now b) I CH) as (s' & I' & L' & G' & PK & R' & _). rewrite R' in E. injection E as <-. unfold covered. cbn [b_st b_pend b_now].
      assert (LD : length (drop_nth i (b_pend b)) = length (b_pend b) - 1).
      { assert (i < length (b_pend b)) by (apply nth_error_Some; congruence). unfold drop_nth. rewrite app_length, firstn_length, skipn_length. lia. }
      destruct (Nat.ltb_spec 20 (length (drop_nth i (b_pend b)) + 2)); [lia|]. rewrite G', L'. split; [discriminate|]. split; [congruence|]. intros e j I0.
      apply Exists_app. right. left. destruct I' as (_ & _ & (_ & O & _) & _). unfold h_peek in *. destruct (h_items (s_heap s')) as [|[e0 j0] m] eqn:M; [destruct I0|]. cbn [fst option_map] in *.
      apply In_nth_error in I0 as (n & I0). pose proof (root_min e_at _ O n (e0, j0) _ eq_refl I0) as Q. cbn [fst] in Q. unfold sleep. assert (X : (b_now b <? e_at e0)%Z = true) by (apply Z.ltb_lt; lia). rewrite X.
      unfold millis. destruct (_ <=? _)%Z; lia.
Qed.
(** While at most 19 callbacks are pending and each is run when due, delays fire on time: once
    no callback is due, every live delay whose time has come is done. *)
Theorem c111_on_time_partial : forall t0 h b k a, brun prompt_few t0 h b -> calm h -> Forall (fun d => (b_now b < d)%Z) (b_pend b) ->
  live k h = true -> due k h = Some a -> (a <= b_now b)%Z -> exists s', step (b_st b) (Poll k) = Ok (APoll Done, s').
Proof.
  intros t0 h b k a R C Q LV DU LE. destruct (covered_run _ _ _ R C) as (_ & J2 & J3). destruct (brun_inv _ _ _ _ R C) as (I & H & N & _).
  assert (NS : forall t, (t <= b_now b)%Z -> ~ soon (b_pend b) t).
  { intros t T S. apply Exists_exists in S as (d & D & LD). rewrite Forall_forall in Q. specialize (Q _ D). lia. }
  assert (L : s_list (b_st b) = []) by (destruct (s_list (b_st b)); [reflexivity|]; exfalso; apply (NS (b_now b)); [lia|]; apply J2; discriminate).
  destruct (c110_exact h _ k H C N LV) as (s' & E). exists s'. rewrite E. destruct (rang k h) eqn:RG; [reflexivity|]. exfalso.
  pose proof I as (_ & LN & V & LK & LI & G). destruct (nth_error (s_ds (b_st b)) k) as [d|] eqn:D; [|apply nth_error_None in D; apply live_news in LV; lia].
  assert (SV : served k h = true).
  { destruct (G _ _ D) as (_ & _ & _ & _ & EN & _). destruct (served k h); [reflexivity|]. apply (proj1 (proj2 LI) _ _ D) in EN. rewrite L in EN. destruct EN. }
  destruct (good_slot _ _ _ _ _ V LK D (G _ _ D) LV SV RG) as (w & j & W & _ & IN). apply J3 in IN. cbn [e_at] in IN. revert IN. apply NS. assert (w = a) by congruence. lia.
Qed.

(** * Too many callbacks *)
Definition ok_prompt (b : br) (e : bev) : bool := match e with BTick t => forallb (fun d => (t <=? d)%Z) (b_pend b) | _ => true end.
Fixpoint bruns (h : list ev) (b : br) (es : list bev) : res (list ev * br) :=
  match es with
  | [] => Ok (h, b)
  | e :: es =>
      if ok_prompt b e then
        b' <- bstep b e ;;
        bruns (match e with BTick _ => h | BRun _ => Advance (b_now b) :: Serve :: h | _ => match call_of (b_now b) e with Some c => c :: h | None => h end end) b' es
      else Err "late"%string
  end.
Lemma bruns_run : forall es t0 h b h' b', brun prompt t0 h b -> bruns h b es = Ok (h', b') -> brun prompt t0 h' b'.
Proof.
  induction es as [|e es IH]; intros t0 h b h' b' R E; cbn [bruns] in E; [now injection E as <- <-|]. destruct (ok_prompt b e) eqn:O; [|discriminate].
  destruct (bstep b e) as [b1| |] eqn:S; cbn [bind] in E; [|discriminate|discriminate]. refine (IH _ _ _ _ _ _ E). apply br_step; [exact R| |exact S].
  destruct e; cbn [prompt ok_prompt] in *; try exact Logic.I. apply Forall_forall. intros d D. rewrite forallb_forall in O. apply O in D. lia.
Qed.
Fixpoint all_few (b : br) (es : list bev) : Prop :=
  match es with [] => True | e :: es => few b e /\ match bstep b e with Ok b => all_few b es | _ => True end end.
Lemma bruns_few : forall es t0 h b h' b', brun prompt_few t0 h b -> bruns h b es = Ok (h', b') -> all_few b es -> brun prompt_few t0 h' b'.
Proof.
  induction es as [|e es IH]; intros t0 h b h' b' R E F; cbn [bruns all_few] in E, F; [now injection E as <- <-|]. destruct (ok_prompt b e) eqn:O; [|discriminate].
  destruct (bstep b e) as [b1| |] eqn:S; cbn [bind] in E; [|discriminate|discriminate]. destruct F as [F1 F2]. refine (IH _ _ _ _ _ _ E F2). apply br_step; [exact R| |exact S].
  split; [|exact F1]. destruct e; cbn [prompt ok_prompt] in *; try exact Logic.I. apply Forall_forall. intros d D. rewrite forallb_forall in O. apply O in D. lia.
Qed.
(** Nineteen delays of an hour, then one of a second: an hour later it is still pending, though
    every callback was run when it was due. *)
Definition hour : Z := 3600000.
Definition crowd : list bev :=
  [BNew hour; BRun 0] ++ concat (map (fun n => [BNew hour; BRun n]) (seq 1 18)) ++ [BNew 1000; BRun 19; BTick (hour - 1); BPoll 19].
Theorem c111_late_refuted : exists h b k a s', brun prompt 0 h b /\ calm h /\ live k h = true /\ due k h = Some a /\
  (a + 3598000 <= b_now b)%Z /\ Forall (fun d => (b_now b < d)%Z) (b_pend b) /\ step (b_st b) (Poll k) = Ok (APoll Pend, s').
Proof.
  destruct (bruns [] (b0 0) crowd) as [[h b]| |] eqn:R; [|vm_compute in R; discriminate|vm_compute in R; discriminate].
  pose proof (bruns_run _ _ _ _ _ _ (br_nil prompt 0) R) as H. exists h, b, 19, 1000%Z. vm_compute in R. injection R as R1 R2. rewrite <- R1, <- R2 in *. eexists.
  split; [exact H|]. split; [cbn [calm since]; repeat split; reflexivity|]. split; [reflexivity|]. split; [reflexivity|]. split; [vm_compute; discriminate|].
  split; [repeat apply Forall_cons; try apply Forall_nil; reflexivity|]. vm_compute. reflexivity.
Qed.
(** A delay of more than 2^31 - 1 milliseconds: the callback is scheduled at once, again and
    again, though nothing is due. *)
Theorem c111_sleep_refuted : exists h b k a, brun prompt 0 h b /\ calm h /\ live k h = true /\ due k h = Some a /\ news h = 1 /\ (b_now b + 2 ^ 31 <= a)%Z /\ bstep b (BRun 0) = Ok b.
Proof.
  destruct (bruns [] (b0 0) [BNew (2 ^ 31); BRun 0]) as [[h b]| |] eqn:R; [|vm_compute in R; discriminate|vm_compute in R; discriminate].
  pose proof (bruns_run _ _ _ _ _ _ (br_nil prompt 0) R) as H. exists h, b, 0, (2 ^ 31)%Z. vm_compute in R. injection R as R1 R2. rewrite <- R1, <- R2 in *.
  split; [exact H|]. split; [cbn [calm since]; repeat split; reflexivity|]. do 3 (split; [reflexivity|]). split; [vm_compute; discriminate|]. vm_compute. reflexivity.
Qed.

(** A delay of a second on its own fires when its callback is run. *)
Example c111_hyps_met : exists h b, brun prompt_few 0 h b /\ calm h /\ Forall (fun d => (b_now b < d)%Z) (b_pend b) /\ live 0 h = true /\ due 0 h = Some 1000%Z /\ (1000 <= b_now b)%Z.
Proof.
  destruct (bruns [] (b0 0) [BNew 1000; BRun 0; BTick 1000; BRun 0]) as [[h b]| |] eqn:R; [|vm_compute in R; discriminate|vm_compute in R; discriminate].
  exists h, b. assert (H : brun prompt_few 0 h b).
  { apply (bruns_few _ _ _ _ _ _ (br_nil prompt_few 0)) with (1 := R). vm_compute. repeat split; lia. }
  vm_compute in R. injection R as R1 R2. rewrite <- R1, <- R2 in *. split; [exact H|]. split; [cbn [calm since]; repeat split; reflexivity|].
  split; [repeat apply Forall_cons; try apply Forall_nil; reflexivity|]. split; [reflexivity|]. split; [reflexivity|]. vm_compute. discriminate.
Qed.

Print Assumptions c111_never_early.
Print Assumptions c111_bounded.
Print Assumptions c111_on_time_partial.
Print Assumptions c111_late_refuted.
Print Assumptions c111_sleep_refuted.
