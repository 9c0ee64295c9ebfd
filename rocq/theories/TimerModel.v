(** Timers and delays: ergo-rest/src/wasm_timer/timer.rs, timer/delay.rs, timer/arc_list.rs.

    One timer and the delays made with its handle.  Each call runs to its end before the next,
    as in a browser; the retry loops around compare-and-exchange then end in the first turn.
    Instants are integers (in a browser a float of milliseconds).  A delay and the node it
    shares with the timer are one record, named by the order of creation. *)
From Verif Require Import Base HeapModel.
Local Open Scope string_scope.
Local Open Scope list_scope.
Local Open Scope nat_scope.

(** The generations a word of 32 bits holds beside the two flags (timer.rs 303-307). *)
Definition GENS : Z := 2 ^ 30.

(** [Delay] (delay.rs 30-33), its [ScheduledTimer] (timer.rs 299-315) and [Node]
    (arc_list.rs 105-109).  [d_live]: not dropped; [d_node]: `state` of the delay is set;
    [d_gen], [d_inv], [d_fired]: the generation and the two flags of the word `state`;
    [d_enq]: `enqueued`; [d_waits]: a task is registered with the waker. *)
Record delay := MkD {
  d_live : bool; d_node : bool; d_when : Z; d_at : option Z;
  d_gen : Z; d_inv : bool; d_fired : bool;
  d_slot : option nat; d_enq : bool; d_waits : bool }.
(** [HeapTimer] (timer.rs 318-324). *)
Record entry := MkE { e_at : Z; e_gen : Z; e_node : nat }.
(** [Timer] and [Inner] (timer.rs 276-279, 292-298): the list of updates, head first, the heap,
    whether the timer still exists, whether its task is registered; then the effects: the
    tasks woken (by delay) and how often the timer's own task was. *)
Record st := MkS {
  s_ds : list delay; s_list : list nat; s_heap : heap (T := entry); s_alive : bool; s_reg : bool;
  s_woken : list nat; s_calls : nat }.
(** [Timer::new] (timer.rs 328-336). *)
Definition s0 : st := MkS [] [] h_new true false [] 0.

Definition with_ds ds s := MkS ds (s_list s) (s_heap s) (s_alive s) (s_reg s) (s_woken s) (s_calls s).
Definition with_list l s := MkS (s_ds s) l (s_heap s) (s_alive s) (s_reg s) (s_woken s) (s_calls s).
Definition with_heap h s := MkS (s_ds s) (s_list s) h (s_alive s) (s_reg s) (s_woken s) (s_calls s).
Definition with_reg r s := MkS (s_ds s) (s_list s) (s_heap s) (s_alive s) r (s_woken s) (s_calls s).
Definition with_alive a s := MkS (s_ds s) (s_list s) (s_heap s) a (s_reg s) (s_woken s) (s_calls s).
Definition set_d k d s := with_ds (put k d (s_ds s)) s.
Definition d_slot_ j d := MkD (d_live d) (d_node d) (d_when d) (d_at d) (d_gen d) (d_inv d) (d_fired d) j (d_enq d) (d_waits d).
Definition d_enq_ b d := MkD (d_live d) (d_node d) (d_when d) (d_at d) (d_gen d) (d_inv d) (d_fired d) (d_slot d) b (d_waits d).
Definition d_waits_ b d := MkD (d_live d) (d_node d) (d_when d) (d_at d) (d_gen d) (d_inv d) (d_fired d) (d_slot d) (d_enq d) b.
Definition d_fired_ b d := MkD (d_live d) (d_node d) (d_when d) (d_at d) (d_gen d) (d_inv d) b (d_slot d) (d_enq d) (d_waits d).
Definition d_inv_ b d := MkD (d_live d) (d_node d) (d_when d) (d_at d) (d_gen d) b (d_fired d) (d_slot d) (d_enq d) (d_waits d).
Definition d_at_ a d := MkD (d_live d) (d_node d) (d_when d) a (d_gen d) (d_inv d) (d_fired d) (d_slot d) (d_enq d) (d_waits d).
Definition d_live_ b d := MkD b (d_node d) (d_when d) (d_at d) (d_gen d) (d_inv d) (d_fired d) (d_slot d) (d_enq d) (d_waits d).
Definition d_node_ b d := MkD (d_live d) b (d_when d) (d_at d) (d_gen d) (d_inv d) (d_fired d) (d_slot d) (d_enq d) (d_waits d).
Definition d_when_ w d := MkD (d_live d) (d_node d) w (d_at d) (d_gen d) (d_inv d) (d_fired d) (d_slot d) (d_enq d) (d_waits d).
Definition d_word_ g d := MkD (d_live d) (d_node d) (d_when d) (d_at d) g false false (d_slot d) (d_enq d) (d_waits d).

(** `AtomicWaker::wake` of the timer's task: the registered waker is taken and called. *)
Definition wake_timer (s : st) : st :=
  if s_reg s then MkS (s_ds s) (s_list s) (s_heap s) (s_alive s) false (s_woken s) (S (s_calls s)) else s.
(** `AtomicWaker::wake` of the task of delay [k]. *)
Definition wake (k : nat) (d : delay) (s : st) : st :=
  if d_waits d then
    MkS (put k (d_waits_ false d) (s_ds s)) (s_list s) (s_heap s) (s_alive s) (s_reg s) (k :: s_woken s) (s_calls s)
  else set_d k d s.
(** [ArcList::push] (arc_list.rs 27-51) of a node, then the wake of the timer's task.  The
    list is sealed only once the timer is being dropped, when its `Weak` cannot be upgraded,
    so the branch for a sealed list is not reached. *)
Definition push_wake (k : nat) (d : delay) (s : st) : st :=
  wake_timer (if d_enq d then set_d k d s else with_list (k :: s_list s) (set_d k (d_enq_ true d) s)).

(** [Delay::new_handle] (delay.rs 58-92). *)
Definition new (at_ : Z) (s : st) : st :=
  if s_alive s then
    push_wake (length (s_ds s)) (MkD true true at_ (Some at_) 0 false false None false false)
      (with_ds (s_ds s ++ [MkD true true at_ (Some at_) 0 false false None false false]) s)
  else with_ds (s_ds s ++ [MkD true false at_ None 0 false false None false false]) s.
(** [Delay::reset_at] and [_reset] (delay.rs 116-151). *)
Definition reset (k : nat) (at_ : Z) (d : delay) (s : st) : st :=
  let d := d_when_ at_ d in
  if d_node d then
    if s_alive s then
      if d_inv d then set_d k (d_node_ false d) s
      else push_wake k (d_at_ (Some at_) (d_word_ ((d_gen d + 1) mod GENS)%Z d)) s
    else set_d k d s
  else set_d k d s.
(** [Drop for Delay] (delay.rs 192-208). *)
Definition drop_d (k : nat) (d : delay) (s : st) : st :=
  let d := d_live_ false d in
  if d_node d then
    if s_alive s then push_wake k (d_at_ None d) s else set_d k d s
  else set_d k d s.
(** What a poll of a delay answers: not yet, done, or the error "timer has gone away". *)
Inductive answer := Pend | Done | Away.
(** [Future for Delay] (delay.rs 160-190). *)
Definition poll (k : nat) (d : delay) (s : st) : answer * st :=
  if d_node d then
    if d_fired d then (Done, s)
    else ((if d_inv d then Away else Pend), set_d k (d_waits_ true d) s)
  else (Away, s).

(** [update_or_add] (timer.rs 398-413). *)
Definition update_or_add (k : nat) (at_ : Z) (d : delay) (s : st) : res st :=
  h <- match d_slot d with Some j => '(_, h) <- h_remove e_at j (s_heap s) ;; Ok h | None => Ok (s_heap s) end ;;
  '(j, h) <- h_push e_at (MkE at_ (d_gen d) k) h ;;
  Ok (with_heap h (set_d k (d_slot_ (Some j) d) s)).
(** [remove] (timer.rs 415-425). *)
Definition remove (k : nat) (d : delay) (s : st) : res st :=
  match d_slot d with
  | Some j => '(_, h) <- h_remove e_at j (s_heap s) ;; Ok (with_heap h (set_d k (d_slot_ None d) s))
  | None => Ok (set_d k d s)
  end.
(** The loop over the list of updates in [Future for Timer] (timer.rs 438-447), with
    [ArcList::pop] (arc_list.rs 83-94). *)
Fixpoint serve_all (l : list nat) (s : st) : res st :=
  match l with
  | [] => Ok s
  | k :: l =>
      match nth_error (s_ds s) k with
      | Some d =>
          if d_enq d then
            let d := d_enq_ false d in
            s <- match d_at d with Some a => update_or_add k a d s | None => remove k d s end ;;
            serve_all l s
          else Panic
      | None => Panic
      end
  end.
(** [Future for Timer] (timer.rs 433-449). *)
Definition serve (s : st) : res st := serve_all (s_list s) (with_list [] (with_reg true s)).

(** [advance_to] (timer.rs 366-394); each turn takes an item out of the heap. *)
Fixpoint advance (fuel : nat) (now : Z) (s : st) : res st :=
  match fuel with
  | O => Panic
  | S f =>
      match h_peek (s_heap s) with
      | Some e =>
          if (e_at e <=? now)%Z then
            r <- h_pop e_at (s_heap s) ;;
            match r with
            | Some (e, h) =>
                match nth_error (s_ds s) (e_node e) with
                | Some d =>
                    let d := d_slot_ None d in
                    let s := with_heap h s in
                    advance f now
                      (if ((d_gen d =? e_gen e)%Z && negb (d_inv d) && negb (d_fired d))%bool
                       then wake (e_node e) (d_fired_ true d) s else set_d (e_node e) d s)
                | None => Panic
                end
            | None => Panic
            end
          else Ok s
      | None => Ok s
      end
  end.

(** [invalidate] (timer.rs 427-430). *)
Definition invalidate (k : nat) (d : delay) (s : st) : st := wake k (d_inv_ true d) s.
(** The two loops of [Drop for Timer] (timer.rs 451-468). *)
Fixpoint seal_list (l : list nat) (s : st) : res st :=
  match l with
  | [] => Ok s
  | k :: l =>
      match nth_error (s_ds s) k with
      | Some d => if d_enq d then seal_list l (invalidate k (d_enq_ false d) s) else Panic
      | None => Panic
      end
  end.
Fixpoint seal_heap (fuel : nat) (s : st) : res st :=
  match fuel with
  | O => Panic
  | S f =>
      r <- h_pop e_at (s_heap s) ;;
      match r with
      | Some (e, h) =>
          match nth_error (s_ds s) (e_node e) with
          | Some d => seal_heap f (invalidate (e_node e) d (with_heap h s))
          | None => Panic
          end
      | None => Ok s
      end
  end.
Definition drop_timer (s : st) : res st :=
  s <- seal_list (s_list s) (with_list [] s) ;;
  s <- seal_heap (S (length (h_items (s_heap s)))) s ;;
  Ok (with_alive false s).

(** The calls a program can make.  [Next]: [next_event] (timer.rs 350-352). *)
Inductive ev := New (at_ : Z) | Reset (k : nat) (at_ : Z) | DropD (k : nat) | Poll (k : nat)
  | Serve | Advance (now : Z) | Next | DropTimer.
Inductive ans := ANone | APoll (a : answer) | ANext (t : option Z).
(** A call needs the delay or the timer it is made on: [Err] when it is gone. *)
Definition on_delay {A} (k : nat) (s : st) (f : delay -> res A) : res A :=
  match nth_error (s_ds s) k with
  | Some d => if d_live d then f d else Err "dropped"
  | None => Err "no such delay"
  end.
Definition on_timer {A} (s : st) (f : res A) : res A := if s_alive s then f else Err "dropped".
Definition step (s : st) (e : ev) : res (ans * st) :=
  match e with
  | New a => Ok (ANone, new a s)
  | Reset k a => on_delay k s (fun d => Ok (ANone, reset k a d s))
  | DropD k => on_delay k s (fun d => Ok (ANone, drop_d k d s))
  | Poll k => on_delay k s (fun d => let '(a, s) := poll k d s in Ok (APoll a, s))
  | Serve => on_timer s (s <- serve s ;; Ok (ANone, s))
  | Advance now => on_timer s (s <- advance (S (length (h_items (s_heap s)))) now s ;; Ok (ANone, s))
  | Next => on_timer s (Ok (ANext (option_map e_at (h_peek (s_heap s))), s))
  | DropTimer => on_timer s (s <- drop_timer s ;; Ok (ANone, s))
  end.
