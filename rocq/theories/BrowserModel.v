(** How a browser drives the timer: ergo-rest/src/wasm_timer/timer/global/wasm.rs.

    Callbacks handed to `setTimeout` wait with the time they are due.  Time is counted in
    whole milliseconds; the fraction of `performance.now()` is left out.  The timer is never
    dropped, as its waker holds it. *)
From Verif Require Import Base HeapModel TimerModel.
Local Open Scope string_scope.
Local Open Scope list_scope.
Local Open Scope nat_scope.

(** The timer, the pending callbacks and the clock. *)
Record br := MkB { b_st : st; b_pend : list Z; b_now : Z }.
(** [run] (wasm.rs 21-26): a callback is scheduled at once. *)
Definition b0 (t0 : Z) : br := MkB s0 [t0] t0.

(** The time given to `setTimeout` (wasm.rs 72): `i32::try_from(when.as_millis()).unwrap_or(0)`. *)
Definition millis (d : Z) : Z := if (d <=? 2 ^ 31 - 1)%Z then d else 0%Z.
(** How long to sleep (wasm.rs 57-67). *)
Definition sleep (now : Z) (next : option Z) : Z :=
  match next with Some t => if (now <? t)%Z then (t - now)%Z else 0%Z | None => 5000%Z end.
(** The callback (wasm.rs 34-69).  [rest]: the other pending callbacks.  Each of them holds the
    timer, and so do this callback and its waker: `Arc::strong_count` is two more. *)
Definition callback (rest : list Z) (now : Z) (s : st) : res br :=
  s <- serve s ;;
  s <- advance (S (length (h_items (s_heap s)))) now s ;;
  if (20 <? length rest + 2)%nat then Ok (MkB s rest now)
  else Ok (MkB s (rest ++ [(now + millis (sleep now (option_map e_at (h_peek (s_heap s)))))%Z]) now).

(** What can happen: a call on a delay, time passes, the [i]-th pending callback is run. *)
Inductive bev := BNew (dur : Z) | BReset (k : nat) (dur : Z) | BDrop (k : nat) | BPoll (k : nat) | BTick (t : Z) | BRun (i : nat).
(** The call on the timer: durations count from now (delay.rs 42, 99). *)
Definition call_of (now : Z) (e : bev) : option ev :=
  match e with
  | BNew d => Some (New (now + d))
  | BReset k d => Some (Reset k (now + d))
  | BDrop k => Some (DropD k)
  | BPoll k => Some (Poll k)
  | _ => None
  end.
Definition drop_nth (i : nat) (l : list Z) : list Z := firstn i l ++ skipn (S i) l.
(** A wake of the timer's task schedules a callback at once ([Waker], wasm.rs 78-86). *)
Definition bstep (b : br) (e : bev) : res br :=
  match e with
  | BTick t => if (b_now b <=? t)%Z then Ok (MkB (b_st b) (b_pend b) t) else Err "time"
  | BRun i =>
      match nth_error (b_pend b) i with
      | Some due => if (due <=? b_now b)%Z then callback (drop_nth i (b_pend b)) (b_now b) (b_st b) else Err "not due"
      | None => Err "no callback"
      end
  | _ =>
      match call_of (b_now b) e with
      | Some c =>
          '(_, s) <- step (b_st b) c ;;
          Ok (MkB s (b_pend b ++ repeat (b_now b) (s_calls s - s_calls (b_st b))) (b_now b))
      | None => Err "no call"
      end
  end.
