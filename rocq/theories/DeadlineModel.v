(** Model of time limits on futures and streams
    (ergo-rest/src/wasm_timer/timer/ext.rs), on top of the timer of [TimerModel].

    The future or stream inside is represented by what it answers when it is
    polled: [None] for pending.  An error of it is one of its answers. *)
From Verif Require Import Base HeapModel TimerModel.

(** What comes out: an answer of what is inside, or the error "timed out". *)
Inductive outcome (A : Type) := Inner (a : A) | TimedOut.
Arguments Inner {A}. Arguments TimedOut {A}.

(** [timeout_at] (ext.rs 42-50), and [timeout] (ext.rs 26-34) with
    [at_ = now + dur]: makes the delay; its number is the number of delays made
    before. *)
Definition limit (at_ : Z) (s : st) : res st := '(_, s') <- step s (New at_) ;; Ok s'.

(** [Future for Timeout] (ext.rs 82-94).  [is_ready] holds of an error of the
    delay as well. *)
Definition poll_limit {A} (k : nat) (inner : option A) (s : st) : res (option (outcome A) * st) :=
  match inner with
  | Some a => Ok (Some (Inner a), s)
  | None =>
      '(r, s') <- step s (Poll k) ;;
      match r with
      | APoll Pend => Ok (None, s')
      | _ => Ok (Some TimedOut, s')
      end
  end.

(** [Stream for TimeoutStream] (ext.rs 153-175): pending, the end of the stream,
    or an item.  [now]: the time when it is polled. *)
Definition poll_stream {A} (k : nat) (now dur : Z) (inner : option (option A)) (s : st)
  : res (option (option (outcome A)) * st) :=
  match inner with
  | Some o =>
      '(_, s') <- step s (Reset k (now + dur)) ;;
      Ok (Some (option_map Inner o), s')
  | None =>
      '(r, s') <- step s (Poll k) ;;
      match r with
      | APoll Pend => Ok (None, s')
      | _ =>
          '(_, s'') <- step s' (Reset k (now + dur)) ;;
          Ok (Some (Some TimedOut), s'')
      end
  end.

(** A history of a stream with a limit: polls of it and anything that happens to
    the timer and other delays in between. *)
Inductive sact (A : Type) :=
| SPoll (now : Z) (inner : option (option A))
| SEvent (e : ev).
Arguments SPoll {A}. Arguments SEvent {A}.

(** What the polls of the stream answered, oldest first. *)
Fixpoint srun {A} (k : nat) (dur : Z) (l : list (sact A)) (s : st)
  : res (list (option (option (outcome A))) * st) :=
  match l with
  | [] => Ok ([], s)
  | SPoll now inner :: l' =>
      '(o, s1) <- poll_stream k now dur inner s ;;
      '(os, s2) <- srun k dur l' s1 ;;
      Ok (o :: os, s2)
  | SEvent e :: l' => '(_, s1) <- step s e ;; srun k dur l' s1
  end.
