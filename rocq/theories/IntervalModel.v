(** Intervals: ergo-rest/src/wasm_timer/timer/interval.rs with the instants of a browser
    (ergo-rest/src/wasm_timer/wasm.rs).

    Instants are whole milliseconds (a float in the code), durations are nanoseconds. *)
From Verif Require Import Base HeapModel TimerModel.
Local Open Scope Z_scope.

(** `Instant + Duration` (wasm.rs 82-91): whole milliseconds are added. *)
Definition plus (i d : Z) : Z := i + d / 10 ^ 6.
(** `Instant - Instant` (wasm.rs 104-112). *)
Definition minus (a b : Z) : res Z := if 0 <=? a - b then Ok ((a - b) * 10 ^ 6) else Panic.
(** [duration_to_nanos] (interval.rs 86-90) and its `expect`. *)
Definition nanos (d : Z) : res Z := if d <? 2 ^ 64 then Ok d else Panic.
(** [next_interval] (interval.rs 92-114). *)
Definition next_interval (prev now interval : Z) : res Z :=
  if now <? plus prev interval then Ok (plus prev interval)
  else
    spent <- minus now prev ;;
    spent <- nanos spent ;;
    interval_ns <- nanos interval ;;
    if interval_ns =? 0 then Panic
    else
      let mult := spent / interval_ns + 1 in
      if mult <? 2 ^ 32 then Ok (plus prev (interval * mult)) else Panic.

(** [Stream for Interval] (interval.rs 63-74): whether an item is ready.  An error of the delay
    counts as ready. *)
Definition poll_next (k : nat) (now interval : Z) (s : st) : res (bool * st) :=
  '(a, s) <- step s (Poll k) ;;
  match a with
  | APoll Pend => Ok (false, s)
  | _ =>
      match nth_error (s_ds s) k with
      | Some d => n <- next_interval (d_when d) now interval ;; '(_, s) <- step s (Reset k n) ;; Ok (true, s)
      | None => Panic
      end
  end.
