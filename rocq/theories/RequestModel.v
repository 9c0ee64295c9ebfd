(** Model of the asynchronous node requests of the C interface: starting a
    request, the task that carries it out on a worker thread, the completion
    and abort callbacks, the request handle and the deletion of the runtime.

    Files: bindings/ergo-lib-c-core/src/rest/api/node.rs, node/abortable.rs,
    callback.rs, request_handle.rs and runtime.rs;
    bindings/ergo-lib-c/src/rest/api/request_handle.rs and runtime.rs.

    The caller's thread and the worker thread interleave arbitrarily: a history
    is a list of atomic actions of either.  What the node answers, and how often
    the task has to wait for it, is up to the history. *)
From Verif Require Import Base.

(** What the request itself ends with: [Ok(x)], [Err(e)], or, for the request
    for a Merkle proof only, [Ok(None)] (node.rs:33-38, 56-61, 82-92, 112-124,
    168-197). *)
Inductive reply := RValue | RNothing | RFailure.

(** A call of one of the caller's two functions.  For the completion callback:
    whether the response pointer and whether the error pointer it is given are
    non-null (callback.rs:11-19). *)
Inductive event :=
| Completed (response error : bool)
| Aborted.

(** callback.rs:25-31 [succeeded] and 34-40 [failed]; both take the callback by
    value, so the task cannot call it again. *)
Definition succeeded : event := Completed true false.
Definition failed : event := Completed false true.

(** The [match] at the end of the task (node.rs:34-37, 57-60, 83-91, 113-123,
    169-196). *)
Definition report (r : reply) : event :=
  match r with
  | RValue => succeeded
  | RNothing => failed
  | RFailure => failed
  end.

(** Where the task is: waiting to be polled, being polled (after the check of
    the abort flag that [Abortable] makes first), finished with a callback, or
    dropped without one. *)
Inductive phase := Waiting | Polling | Finished | Dropped.

(** [aborting] counts calls of [RequestHandle::abort] that have set the flag and
    have not yet called the abort callback. *)
Record req := mk_req {
  task : phase;
  flag : bool;
  aborting : nat;
  handle : bool;       (* the request handle has not been deleted *)
  runtime : bool;      (* the runtime has not been deleted *)
  calls : list event   (* callbacks made so far, latest first *)
}.

(** abortable.rs:8-19: the task is wrapped and handed to the runtime; the flag
    starts unset. *)
Definition spawned : req := mk_req Waiting false 0 true true [].

Inductive action :=
(* worker thread *)
| Poll              (* [Abortable::poll] starts: look at the flag *)
| Pend              (* the request must wait; the flag is looked at again *)
| Ready (r : reply) (* the request is done: the callback is called *)
(* caller *)
| AbortFlag         (* first half of abort: request_handle.rs:26 *)
| AbortCall         (* second half of abort: request_handle.rs:27 *)
| DeleteHandle      (* ergo-lib-c request_handle.rs:19-21 *)
| DeleteRuntime.    (* ergo-lib-c runtime.rs:19-21 *)

(** One action; [None] when it cannot happen in this state.  [Abortable] is part
    of the futures crate: it looks at the flag before each poll of the task and
    once more after a poll that did not finish.  Dropping the runtime drops a
    task that is waiting and lets one that is being polled reach its next wait;
    the model has the deletion happen between polls.  Using a deleted handle or
    a deleted runtime is the caller's error and not an action. *)
Definition step (s : req) (a : action) : option req :=
  let '(mk_req t f n h r cs) := s in
  match a with
  | Poll =>
      match t with
      | Waiting => if r then Some (mk_req (if f then Dropped else Polling) f n h r cs)
                   else None
      | _ => None
      end
  | Pend =>
      match t with
      | Polling => Some (mk_req (if f then Dropped else Waiting) f n h r cs)
      | _ => None
      end
  | Ready x =>
      match t with
      | Polling => Some (mk_req Finished f n h r (report x :: cs))
      | _ => None
      end
  | AbortFlag => if h then Some (mk_req t true (S n) h r cs) else None
  | AbortCall =>
      match n with
      | O => None
      | S m => Some (mk_req t f m h r (Aborted :: cs))
      end
  | DeleteHandle =>
      match n with
      | O => if h then Some (mk_req t f n false r cs) else None
      | S _ => None
      end
  | DeleteRuntime =>
      match t with
      | Polling => None
      | Waiting => if r then Some (mk_req Dropped f n h false cs) else None
      | _ => if r then Some (mk_req t f n h false cs) else None
      end
  end.

Fixpoint exec (s : req) (l : list action) : option req :=
  match l with
  | [] => Some s
  | a :: l' => match step s a with Some s' => exec s' l' | None => None end
  end.

(** How a call that starts a request ends: with a task spawned and a handle
    written, with an error and nothing spawned, or by writing through a null
    pointer after the task was spawned. *)
Inductive started :=
| Started (s : req)
| Refused (e : string)
| WriteNull (s : req).

(** The check of the pointer arguments in their order (util.rs:6-15), then
    [spawn_abortable], then the unchecked write of the handle (node.rs:30-41,
    52-64, 77-95, 108-127). [args]: the pointer arguments with their names and
    whether they are non-null. *)
Fixpoint check_args (args : list (string * bool)) : option string :=
  match args with
  | [] => None
  | (name, true) :: args' => check_args args'
  | (name, false) :: _ => Some name
  end.

Definition start (args : list (string * bool)) (out_ok : bool) : started :=
  match check_args args with
  | Some name => Refused name
  | None => if out_ok then Started spawned else WriteNull spawned
  end.

(** node.rs:24-42 *)
Definition get_info (runtime_ok conf_ok out_ok : bool) : started :=
  start [("runtime_ptr"%string, runtime_ok); ("node_conf_ptr"%string, conf_ok)] out_ok.

(** node.rs:45-65 *)
Definition get_header (runtime_ok conf_ok id_ok out_ok : bool) : started :=
  start [("runtime_ptr"%string, runtime_ok); ("node_conf_ptr"%string, conf_ok);
         ("header_id_ptr"%string, id_ok)] out_ok.

(** node.rs:69-96 *)
Definition get_proof_for_tx (runtime_ok conf_ok id_ok tx_ok out_ok : bool) : started :=
  start [("runtime_ptr"%string, runtime_ok); ("node_conf_ptr"%string, conf_ok);
         ("header_id_ptr"%string, id_ok); ("tx_id_ptr"%string, tx_ok)] out_ok.

(** node.rs:146-160: the seeds in turn; [None] is a null element, [Some b] a
    text that is ([true]) or is not ([false]) UTF-8 and a URL. *)
Fixpoint check_seeds (l : list (option bool)) : option string :=
  match l with
  | [] => None
  | Some true :: l' => check_seeds l'
  | Some false :: _ => Some "seed"%string
  | None :: _ => Some "seeds_ptr contains null element"%string
  end.

(** node.rs:131-201: null array, empty array, the elements, the bound on
    parallel requests ([BoundedU16] from 1), the runtime. *)
Definition peer_discovery (seeds : option (list (option bool))) (max_parallel : Z)
    (runtime_ok out_ok : bool) : started :=
  match seeds with
  | None => Refused "seeds_ptr is null"%string
  | Some [] => Refused "num_seeds must be > 0"%string
  | Some l =>
      match check_seeds l with
      | Some e => Refused e
      | None =>
          if max_parallel <? 1 then Refused "max_parallel_requests must be > 0"%string
          else start [("runtime_ptr"%string, runtime_ok)] out_ok
      end
  end.
