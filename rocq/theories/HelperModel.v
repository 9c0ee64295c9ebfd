(** Model of the global timer outside browsers: the thread that drives it
    (ergo-rest/src/wasm_timer/timer/global/desktop.rs) together with the threads
    that create, reset and drop delays, and the race to install the global
    handle (ergo-rest/src/wasm_timer/timer.rs 496-589).

    The timer's own data structures are modelled in [HeapModel] and
    [TimerModel]; here the heap is a plain association list and an update of a
    delay carries its new time, so that the order of actions of different
    threads is what matters.  Threads interleave arbitrarily.  Simplified: in
    the code an update holds no time, a delay already in the list is not pushed
    again (arc_list.rs 27-32) and its time is read when it is taken out of the
    list (timer.rs 438-446); taking over the whole list is one step here; a
    delay is changed by its owner only, so the last time set wins either way. *)
From Verif Require Import Base.

(** ** The helper thread *)

(** Where the helper thread is in the loop of [run] (desktop.rs 57-81).
    [Park w]: about to park, at most until [w]; [Blocked w]: parked. *)
Inductive hpc :=
| Check | Register | Take | Advance | Next
| Park (w : option Z) | Blocked (w : option Z) | Exited.

(** A delay: a time, or [None] when it was dropped (delay.rs 192-207). *)
Definition update := (nat * option Z)%type.

Record hst := mk_h {
  queue : list update;      (* the list of updates, oldest first *)
  waker : bool;             (* a waker is registered with the timer *)
  token : bool;             (* the helper thread's park token *)
  timers : list (nat * Z);  (* the heap *)
  clock : Z;
  done : bool;              (* desktop.rs 18 *)
  pushing : nat;            (* threads between the push and the wake *)
  stopping : bool;          (* between [done.store] and [unpark] *)
  fired : list (nat * Z * Z); (* delay, its time, when it was fired *)
  pc : hpc }.

(** desktop.rs 22-34, 57-59 *)
Definition hinit (t0 : Z) : hst := mk_h [] false false [] t0 false 0 false [] Check.

(** timer.rs 398-425: an update replaces what was scheduled for the delay. *)
Definition unschedule (k : nat) (l : list (nat * Z)) : list (nat * Z) :=
  filter (fun e => negb (Nat.eqb (fst e) k)) l.

Definition apply1 (l : list (nat * Z)) (u : update) : list (nat * Z) :=
  match snd u with
  | Some t => (fst u, t) :: unschedule (fst u) l
  | None => unschedule (fst u) l
  end.

Definition apply_all (q : list update) (l : list (nat * Z)) : list (nat * Z) :=
  fold_left apply1 q l.

(** timer.rs 350-352 *)
Fixpoint min_time (l : list (nat * Z)) : option Z :=
  match l with
  | [] => None
  | (_, t) :: l' =>
      match min_time l' with
      | Some m => Some (Z.min t m)
      | None => Some t
      end
  end.

(** timer.rs 366-394 *)
Definition due (now : Z) (l : list (nat * Z)) := filter (fun e => snd e <=? now) l.
Definition not_due (now : Z) (l : list (nat * Z)) := filter (fun e => negb (snd e <=? now)) l.

(** One step of the helper thread, except for waking up. *)
Definition hstep (s : hst) : option hst :=
  let '(mk_h q w k h now d p sg f c) := s in
  match c with
  | Check => (* desktop.rs 62 *)
      Some (mk_h q w k h now d p sg f (if d then Exited else Register))
  | Register => (* desktop.rs 63, timer.rs 437 *)
      Some (mk_h q true k h now d p sg f Take)
  | Take => (* timer.rs 438-446 *)
      Some (mk_h [] w k (apply_all q h) now d p sg f Advance)
  | Advance => (* desktop.rs 65 *)
      Some (mk_h q w k (not_due now h) now d p sg
              (map (fun e => (fst e, snd e, now)) (due now h) ++ f) Next)
  | Next => (* desktop.rs 66-79 *)
      Some (mk_h q w k h now d p sg f
              (match min_time h with
               | Some t => if now <? t then Park (Some t) else Check
               | None => Park None
               end))
  | Park x => (* std::thread::park, park_timeout: a token is taken at once *)
      if k then Some (mk_h q w false h now d p sg f Check)
      else Some (mk_h q w k h now d p sg f (Blocked x))
  | Blocked _ => None
  | Exited => None
  end.

Inductive hact :=
| HStep                    (* the helper thread *)
| HUnpark                  (* it wakes up by its token *)
| HTimeout                 (* it wakes up because the time has come *)
| HSpurious                (* it wakes up for no reason, as park allows *)
| HTick (d : Z)            (* time passes *)
| HPush (k : nat) (t : option Z) (* delay.rs 79, 147, 203: an update is pushed *)
| HWake                    (* delay.rs 86, 148, 204, then desktop.rs 91-97 *)
| HStop                    (* desktop.rs 51 *)
| HStopUnpark.             (* desktop.rs 52 *)

(** One action.  A wake takes the registered waker, if there is one, and sets
    the token ([AtomicWaker::wake]); without a waker it does nothing.  After the
    thread has left its loop the timer is dropped and refuses updates. *)
Definition hdo (s : hst) (a : hact) : option hst :=
  let '(mk_h q w k h now d p sg f c) := s in
  match a with
  | HStep => hstep s
  | HUnpark =>
      match c with
      | Blocked _ => if k then Some (mk_h q w false h now d p sg f Check) else None
      | _ => None
      end
  | HTimeout =>
      match c with
      | Blocked (Some t) => if t <=? now then Some (mk_h q w k h now d p sg f Check) else None
      | _ => None
      end
  | HSpurious =>
      match c with
      | Blocked _ => Some (mk_h q w k h now d p sg f Check)
      | _ => None
      end
  | HTick x => if 0 <=? x then Some (mk_h q w k h (now + x) d p sg f c) else None
  | HPush n t =>
      match c with
      | Exited => None
      | _ => Some (mk_h (q ++ [(n, t)]) w k h now d (S p) sg f c)
      end
  | HWake =>
      match p with
      | O => None
      | S p' => Some (mk_h q false (k || w) h now d p' sg f c)
      end
  | HStop => if d then None else Some (mk_h q w k h now true p true f c)
  | HStopUnpark => if sg then Some (mk_h q w true h now d p false f c) else None
  end.

Fixpoint hrun (s : hst) (l : list hact) : option hst :=
  match l with
  | [] => Some s
  | a :: l' => match hdo s a with Some s' => hrun s' l' | None => None end
  end.

(** ** Installing the global handle *)

(** One call of [TimerHandle::default] per thread [i]; its helper thread, if it
    makes one, is number [i].  [None] in [Returned]: a defunct handle. *)
Inductive gpc :=
| GLoad | GCreate | GCas | GReload | GShutdown (v : option nat) | GAssert (v : option nat)
| Returned (r : option nat) | Panicked.

Inductive helper := Running | Stopped.

Record gst := mk_g {
  fallback : option nat;            (* HANDLE_FALLBACK: the installed handle *)
  helpers : list (nat * helper);    (* helper threads *)
  where_ : nat -> gpc }.

Definition ginit : gst := mk_g None [] (fun _ => GLoad).

Definition gset (f : nat -> gpc) (i : nat) (x : gpc) : nat -> gpc :=
  fun j => if Nat.eqb j i then x else f j.

Definition stop_helper (i : nat) (l : list (nat * helper)) : list (nat * helper) :=
  map (fun e => if Nat.eqb (fst e) i then (fst e, Stopped) else e) l.

(** A step of thread [i]; [ok]: whether a thread can be created. *)
Definition gstep (s : gst) (i : nat) (ok : bool) : gst :=
  let '(mk_g fb hs f) := s in
  match f i with
  | GLoad => (* timer.rs 551, 558 *)
      mk_g fb hs (gset f i (match fb with None => GCreate | Some v => GAssert (Some v) end))
  | GCreate => (* timer.rs 559-562 *)
      if ok then mk_g fb ((i, Running) :: hs) (gset f i GCas)
      else mk_g fb hs (gset f i (Returned None))
  | GCas => (* timer.rs 525-535, 571-575: on success the helper is kept *)
      match fb with
      | None => mk_g (Some i) hs (gset f i (Returned (Some i)))
      | Some _ => mk_g fb hs (gset f i GReload)
      end
  | GReload => (* timer.rs 576 *)
      mk_g fb hs (gset f i (GShutdown fb))
  | GShutdown v => (* the helper is dropped at the end of the block: desktop.rs 45-55 *)
      mk_g fb (stop_helper i hs) (gset f i (GAssert v))
  | GAssert v => (* timer.rs 582-588 *)
      mk_g fb hs (gset f i (match v with None => Panicked | Some x => Returned (Some x) end))
  | Returned _ | Panicked => s
  end.

Fixpoint grun (s : gst) (l : list (nat * bool)) : gst :=
  match l with
  | [] => s
  | (i, ok) :: l' => grun (gstep s i ok) l'
  end.
