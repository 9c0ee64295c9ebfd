(** Peer discovery over the REST interface of nodes: ergo-rest
    src/api/peer_discovery_internals/non_chrome.rs, as a transition system whose runs are all
    interleavings of the main task, the task that takes addresses from the channel, the request
    tasks and the timer.  Also ergo-rest src/node_info.rs. *)
From Coq Require Import ZArith List Bool Lia Permutation String Ascii.
From Verif Require Import Base.
Import ListNotations.
Local Open Scope string_scope.
Local Open Scope list_scope.
Local Open Scope Z_scope.

(** ** URLs.  Models the parts of `url::Url` the code looks at; everything after the port
    (path, query, fragment) and before the host (user, password) is the opaque [u_rest]. *)
Inductive host := Domain (s : string) | Ip4 (n : Z) | Ip6 (n : Z).
Record url := MkUrl { u_scheme : string; u_host : option host; u_port : option Z; u_rest : string }.
Definition url_eq_dec : forall a b : url, {a = b} + {a <> b}.
Proof. repeat decide equality; auto using Z.eq_dec, string_dec. Defined.
Definition mem (u : url) (l : list url) : bool := existsb (fun v => if url_eq_dec u v then true else false) l.
(** `HashSet::insert` *)
Definition add (u : url) (l : list url) : list url := if mem u l then l else u :: l.

(** Url::set_port of the `url` crate fails for URLs without a host, with an empty host, or with
    the scheme `file`; its special case for the default port of the scheme plays no role for
    the two ports used (none and 9053). *)
Definition portable (u : url) : bool :=
  match u_host u with
  | None => false
  | Some (Domain s) => negb (String.eqb s "") && negb (String.eqb (u_scheme u) "file")
  | Some _ => negb (String.eqb (u_scheme u) "file")
  end.
Definition with_port (p : option Z) (u : url) : url := MkUrl (u_scheme u) (u_host u) p (u_rest u).
(** non_chrome.rs 105, 182, 203, 213, 293: `url.set_port(..).unwrap()` *)
Definition set_port_unwrap (p : option Z) (u : url) : res url := if portable u then Ok (with_port p u) else Panic.

(** ergo-chain-types/src/peer_addr.rs 18-35: a socket address and PeerAddr::as_http_url *)
Record addr := MkAddr { a_host : bool * Z; a_port : Z }.
Definition as_http_url (a : addr) : url :=
  let '(v6, n) := a_host a in
  MkUrl "http" (Some (if v6 then Ip6 n else Ip4 n)) (if a_port a =? 80 then None else Some (a_port a)) "/".
(** non_chrome.rs 180-182: the URL under which a peer is visited *)
Definition site (a : addr) : url := with_port None (as_http_url a).

(** ** What a request task sees: non_chrome.rs 290-325.  `/info` fails, or it answers and
    `/peers/all` fails, or both answer; [Lost] when the host has no address and
    `socket_addrs(..).unwrap()` panics inside the task (line 296), which sends no message. *)
Inductive outcome := InfoFails | PeersFail | Answers (ps : list addr) | Lost.

(** non_chrome.rs 344-353 *)
Inductive msg := AddActive (u : url) | AddInactive (u : url) | CheckPeers (ps : list addr).

(** A request task is waiting for the node, or has messages to send (in that order). *)
Inductive task := Asking (u : url) | Telling (m : msg) (ms : list msg).

(** non_chrome.rs 302-324: the messages sent for an outcome; the URL carries port 9053 (293) *)
Definition told (u : url) (o : outcome) : list task :=
  let v := with_port (Some 9053) u in
  match o with
  | InfoFails | PeersFail => [Telling (AddInactive v) []]
  | Answers ps => [Telling (CheckPeers ps) [AddActive v]]
  | Lost => []
  end.
Definition still (ms : list msg) : list task := match ms with [] => [] | m :: ms => [Telling m ms] end.
Definition dies (u : url) (o : outcome) : list url := match o with Lost => [u] | _ => [] end.

(** Where the main task stands: still sending seeds (118-120), waiting for a message (175),
    working through the stack before it looks at message [m] (179-199), returned, panicked. *)
Inductive place := Seeding (left : list url) | Waiting | Draining (m : msg) | Done (found : list url) | Crashed.

(** The state: the two channels, the request tasks (with those that panicked and all URLs ever
    requested, newest first) and the variables of peer_discovery_impl. *)
Record state := MkState {
  main : place; seeds : list url; urlq : list url; tasks : list task; msgq : list msg;
  count : Z; active : list url; visited : list url; stack : list addr; adding : bool;
  asked : list url; dead : list url }.

Definition set_main p s := MkState p (seeds s) (urlq s) (tasks s) (msgq s) (count s) (active s) (visited s) (stack s) (adding s) (asked s) (dead s).
Definition set_urlq q s := MkState (main s) (seeds s) q (tasks s) (msgq s) (count s) (active s) (visited s) (stack s) (adding s) (asked s) (dead s).
Definition set_tasks t s := MkState (main s) (seeds s) (urlq s) t (msgq s) (count s) (active s) (visited s) (stack s) (adding s) (asked s) (dead s).
Definition set_msgq q s := MkState (main s) (seeds s) (urlq s) (tasks s) q (count s) (active s) (visited s) (stack s) (adding s) (asked s) (dead s).
Definition set_count c s := MkState (main s) (seeds s) (urlq s) (tasks s) (msgq s) c (active s) (visited s) (stack s) (adding s) (asked s) (dead s).
Definition set_active a s := MkState (main s) (seeds s) (urlq s) (tasks s) (msgq s) (count s) a (visited s) (stack s) (adding s) (asked s) (dead s).
Definition set_visited v s := MkState (main s) (seeds s) (urlq s) (tasks s) (msgq s) (count s) (active s) v (stack s) (adding s) (asked s) (dead s).
Definition set_stack st s := MkState (main s) (seeds s) (urlq s) (tasks s) (msgq s) (count s) (active s) (visited s) st (adding s) (asked s) (dead s).
Definition set_adding b s := MkState (main s) (seeds s) (urlq s) (tasks s) (msgq s) (count s) (active s) (visited s) (stack s) b (asked s) (dead s).
Definition set_asked l s := MkState (main s) (seeds s) (urlq s) (tasks s) (msgq s) (count s) (active s) (visited s) (stack s) (adding s) l (dead s).
Definition set_dead l s := MkState (main s) (seeds s) (urlq s) (tasks s) (msgq s) (count s) (active s) (visited s) (stack s) (adding s) (asked s) l.

(** non_chrome.rs 101-107: the seeds without their ports, as a set *)
Fixpoint seeds_set (l : list url) : res (list url) :=
  match l with
  | [] => Ok []
  | u :: l => v <- set_port_unwrap None u ;; r <- seeds_set l ;; Ok (add v r)
  end.
(** The state when the seeds are about to be sent; [order] is the order in which the set is
    iterated (118). *)
Definition begin (order : list url) : state :=
  MkState (Seeding order) order [] [] [] 0 [] [] [] true [] [].

(** non_chrome.rs 206-209 and 215-218: `count -= 1` (a panic below zero) and leaving the loop;
    238-242: the result *)
Definition found (s : state) : list url := filter (fun u => negb (mem u (seeds s))) (active s).
Definition settle (s : state) : state :=
  if count s <? 1 then set_main Crashed s
  else let s := set_count (count s - 1) s in
       if count s =? 0 then set_main (Done (found s)) s else set_main Waiting s.

(** non_chrome.rs 200-228: looking at the message.  The shuffle of the peers may give any
    permutation; the stack is kept with its top first, `extend` puts the peers on top. *)
Inductive handles (s : state) : msg -> state -> Prop :=
| h_active u v : set_port_unwrap None u = Ok v ->
    handles s (AddActive u) (settle (set_visited (add v (visited s)) (set_active (add v (active s)) s)))
| h_inactive u v : set_port_unwrap None u = Ok v ->
    handles s (AddInactive u) (settle (set_visited (add v (visited s)) s))
| h_active_panic u : set_port_unwrap None u = Panic -> handles s (AddActive u) (set_main Crashed s)
| h_inactive_panic u : set_port_unwrap None u = Panic -> handles s (AddInactive u) (set_main Crashed s)
| h_check ps qs : Permutation ps qs ->
    handles s (CheckPeers ps) (set_main Waiting (if adding s then set_stack (qs ++ stack s) s else s)).

Inductive label := Work | Timeout.

Section Steps.
(** Both channels hold at most [cap] elements: non_chrome.rs 59-68 (the number of parallel tasks).
    [may u o] says that the node at [u] may behave as [o]. *)
Variables (cap : nat) (may : url -> outcome -> Prop).
Inductive step : label -> state -> state -> Prop :=
(** 118-120: `infallible_send` waits for room *)
| s_seed s u l : main s = Seeding (u :: l) -> (length (urlq s) < cap)%nat ->
    step Work s (set_main (Seeding l) (set_urlq (urlq s ++ [u]) s))
(** 126: the seeds are sent, `count` is set, the timer starts *)
| s_start s : main s = Seeding [] -> step Work s (set_main Waiting (set_count (Zlen (seeds s)) s))
(** 283-290: the stream hands over a URL, a request task is spawned and not awaited *)
| s_take s u q : urlq s = u :: q ->
    step Work s (set_asked (u :: asked s) (set_tasks (Asking u :: tasks s) (set_urlq q s)))
(** 302-324: the node answers, or does not *)
| s_ask s l1 u l2 o : tasks s = l1 ++ Asking u :: l2 -> may u o ->
    step Work s (set_dead (dies u o ++ dead s) (set_tasks (l1 ++ told u o ++ l2) s))
(** 309-312, 316, 322: a message is sent when the channel has room *)
| s_tell s l1 m ms l2 : tasks s = l1 ++ Telling m ms :: l2 -> (length (msgq s) < cap)%nat ->
    step Work s (set_msgq (msgq s ++ [m]) (set_tasks (l1 ++ still ms ++ l2) s))
(** 175-177 *)
| s_receive s m q : main s = Waiting -> msgq s = m :: q -> step Work s (set_main (Draining m) (set_msgq q s))
(** 230-233, once *)
| s_timeout s : main s = Waiting -> adding s = true -> step Timeout s (set_stack [] (set_adding false s))
(** 179-183: a peer already visited *)
| s_skip s m p st : main s = Draining m -> stack s = p :: st -> mem (site p) (visited s) = true ->
    step Work s (set_stack st s)
(** 184-188: there is room (the receiver lives as long as the sender, so the channel is never closed) *)
| s_push s m p st : main s = Draining m -> stack s = p :: st -> mem (site p) (visited s) = false ->
    (length (urlq s) < cap)%nat ->
    step Work s (set_count (count s + 1) (set_visited (add (site p) (visited s)) (set_stack st (set_urlq (urlq s ++ [site p]) s))))
(** 189-193: there is none *)
| s_full s m p st s' : main s = Draining m -> stack s = p :: st -> mem (site p) (visited s) = false ->
    (cap <= length (urlq s))%nat -> handles s m s' -> step Work s s'
(** 179: the stack is empty *)
| s_empty s m s' : main s = Draining m -> stack s = [] -> handles s m s' -> step Work s s'.

(** Runs, with the labels of their steps, newest first *)
Inductive run : list label -> state -> state -> Prop :=
| run_nil s : run [] s s
| run_snoc ls s s1 s2 k : run ls s s1 -> step k s1 s2 -> run (k :: ls) s s2.
End Steps.

(** A run of peer_discovery on the given seeds: the set is iterated in some order. *)
Definition runs cap may (given : list url) (ls : list label) (s : state) : Prop :=
  exists order set, seeds_set given = Ok set /\ Permutation set order /\ run cap may ls (begin order) s.

(** ** ergo-rest/src/node_info.rs 20-23: versions are compared as strings, byte by byte *)
Fixpoint str_le (a b : string) : bool :=
  match a, b with
  | EmptyString, _ => true
  | String _ _, EmptyString => false
  | String x a, String y b =>
      if N_of_ascii x =? N_of_ascii y then str_le a b else N_of_ascii x <? N_of_ascii y
  end%N.
Definition is_at_least_version_4_0_100 (version : string) : bool := str_le "4.0.100" version.
