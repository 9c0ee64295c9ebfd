(** Peer discovery in a Chrome browser: ergo-rest
    src/api/peer_discovery_internals/chrome.rs, as a transition system whose runs are all
    interleavings of the main task, the task that takes requests from the channel, the request
    tasks and the timers. *)
From Coq Require Import ZArith List Bool Lia Permutation.
From Verif Require Import Base DiscoveryModel.
Import ListNotations.
Local Open Scope list_scope.
Local Open Scope Z_scope.

(** chrome.rs 514-522: what is asked of a node *)
Inductive req := Info (u : url) | PeersAll (u : url).
(** 524-531 *)
Definition get_url (r : req) : url := match r with Info u => u | PeersAll u => u end.
Definition is_peers_all (r : req) : bool := match r with PeersAll _ => true | Info _ => false end.
(** The node a URL stands for.  Requests go to port 9053 whatever the URL says (392-401), and
    sets of URLs hold them without a port (191-193, 238-241 and so on).  `set_port` fails only
    for URLs without a host, which [scan_new] refuses; the URLs of peers have one. *)
Definition node (u : url) : url := with_port None u.

(** What a request task sees (392-478).  [IFail] is any failure of `/info` but a timeout;
    of the failures of `/peers/all`, [PSilent] is an error of the HTTP client other than a
    timeout, for which no message is sent (452-470), [PFail] any other.  [ILost] and [PLost]:
    the host has no address and `socket_addrs(..).unwrap()` (397) panics inside the task. *)
Inductive iout := IOk | ITimeout | IFail | ILost.
Inductive pout := POk (ps : list addr) | PTimeout | PSilent | PFail | PLost.

(** 490-512 *)
Inductive kmsg :=
| MActive (u : url) | MInfoOk (u : url) | MInfoFail (u : url) | MInfoTimeout (u : url)
| MPeersFail (u : url) | MPeersTimeout (u : url) | MPreflight | MPeers (ps : list addr).

(** 407-439 and 440-475: the messages sent, in order; that of a preflight request comes 80
    seconds later, which is some time later here *)
Definition info_told (u : url) (o : iout) : list kmsg :=
  match o with
  | IOk => [MInfoOk u] | ITimeout => [MInfoTimeout u; MPreflight] | IFail => [MInfoFail u] | ILost => []
  end.
Definition peers_told (u : url) (o : pout) : list kmsg :=
  match o with
  | POk ps => [MPeers ps; MActive u] | PTimeout => [MPeersTimeout u; MPreflight] | PSilent => []
  | PFail => [MPeersFail u] | PLost => []
  end.

(** A request task waits for the node or has messages to send. *)
Inductive ktask := Asks (r : req) | Tells (m : kmsg) (ms : list kmsg).
Definition rest_of (ms : list kmsg) : list ktask := match ms with [] => [] | m :: ms => [Tells m ms] end.

(** 533-545: what is kept between two calls.  The heap is a list of which [pops] takes an
    element. *)
Record scan := MkScan { sc_active : list url; sc_visited : list url; sc_seeds : list url; sc_pending : list req }.
(** 547-569 *)
Definition scan_new (given : list url) : res scan :=
  set <- seeds_set given ;; Ok (MkScan [] [] set (map Info set)).

(** The main task waits (186), works through the heap before it looks at message [m] (190-235),
    has returned or has panicked. *)
Inductive kplace := KWait | KDrain (m : kmsg) | KDone (sc : scan) | KCrash.

(** The channels, the tasks and the variables of peer_discovery_impl_chrome (111-185): [kopen]
    is `chrome_request_count`, [kafter] is `pending_requests_after_timeout`; [ksent] are all
    requests ever put into the channel, newest first, [klost] those that sent no message. *)
Record kstate := MkK {
  kmain : kplace; kseeds : list url; kreqq : list req; ktasks : list ktask; kmsgq : list kmsg; kcount : Z; kopen : Z; kactive : list url; kvisited : list url; kpend : list req; kafter : list req; kadding : bool; ksent : list req; klost : list req }.
Definition put_main x s := MkK x (kseeds s) (kreqq s) (ktasks s) (kmsgq s) (kcount s) (kopen s) (kactive s) (kvisited s) (kpend s) (kafter s) (kadding s) (ksent s) (klost s).
Definition put_seeds x s := MkK (kmain s) x (kreqq s) (ktasks s) (kmsgq s) (kcount s) (kopen s) (kactive s) (kvisited s) (kpend s) (kafter s) (kadding s) (ksent s) (klost s).
Definition put_reqq x s := MkK (kmain s) (kseeds s) x (ktasks s) (kmsgq s) (kcount s) (kopen s) (kactive s) (kvisited s) (kpend s) (kafter s) (kadding s) (ksent s) (klost s).
Definition put_tasks x s := MkK (kmain s) (kseeds s) (kreqq s) x (kmsgq s) (kcount s) (kopen s) (kactive s) (kvisited s) (kpend s) (kafter s) (kadding s) (ksent s) (klost s).
Definition put_msgq x s := MkK (kmain s) (kseeds s) (kreqq s) (ktasks s) x (kcount s) (kopen s) (kactive s) (kvisited s) (kpend s) (kafter s) (kadding s) (ksent s) (klost s).
Definition put_count x s := MkK (kmain s) (kseeds s) (kreqq s) (ktasks s) (kmsgq s) x (kopen s) (kactive s) (kvisited s) (kpend s) (kafter s) (kadding s) (ksent s) (klost s).
Definition put_open x s := MkK (kmain s) (kseeds s) (kreqq s) (ktasks s) (kmsgq s) (kcount s) x (kactive s) (kvisited s) (kpend s) (kafter s) (kadding s) (ksent s) (klost s).
Definition put_active x s := MkK (kmain s) (kseeds s) (kreqq s) (ktasks s) (kmsgq s) (kcount s) (kopen s) x (kvisited s) (kpend s) (kafter s) (kadding s) (ksent s) (klost s).
Definition put_visited x s := MkK (kmain s) (kseeds s) (kreqq s) (ktasks s) (kmsgq s) (kcount s) (kopen s) (kactive s) x (kpend s) (kafter s) (kadding s) (ksent s) (klost s).
Definition put_pend x s := MkK (kmain s) (kseeds s) (kreqq s) (ktasks s) (kmsgq s) (kcount s) (kopen s) (kactive s) (kvisited s) x (kafter s) (kadding s) (ksent s) (klost s).
Definition put_after x s := MkK (kmain s) (kseeds s) (kreqq s) (ktasks s) (kmsgq s) (kcount s) (kopen s) (kactive s) (kvisited s) (kpend s) x (kadding s) (ksent s) (klost s).
Definition put_adding x s := MkK (kmain s) (kseeds s) (kreqq s) (ktasks s) (kmsgq s) (kcount s) (kopen s) (kactive s) (kvisited s) (kpend s) (kafter s) x (ksent s) (klost s).
Definition put_sent x s := MkK (kmain s) (kseeds s) (kreqq s) (ktasks s) (kmsgq s) (kcount s) (kopen s) (kactive s) (kvisited s) (kpend s) (kafter s) (kadding s) x (klost s).
Definition put_lost x s := MkK (kmain s) (kseeds s) (kreqq s) (ktasks s) (kmsgq s) (kcount s) (kopen s) (kactive s) (kvisited s) (kpend s) (kafter s) (kadding s) (ksent s) x.
(** `BinaryHeap::pop` with the derived order (514-522): requests for peers come first.  Among
    requests of one kind the order is that of the URLs' text; here it may be any. *)
Definition pops (h : list req) (r : req) (h' : list req) : Prop :=
  Permutation h (r :: h') /\ (is_peers_all r = false -> Forall (fun x => is_peers_all x = false) h).

(** 68-70 and 131-138: the errors before anything is asked, and the first request *)
Inductive starts (timeout : Z) (sc : scan) : res kstate -> Prop :=
| st_short : timeout < 90 -> starts timeout sc (Err "TimeoutTooShort"%string)
| st_none : 90 <= timeout -> sc_pending sc = [] -> starts timeout sc (Err "NoPendingNodeRequests"%string)
| st_go r h : 90 <= timeout -> pops (sc_pending sc) r h ->
    starts timeout sc (Ok (MkK KWait (sc_seeds sc) [r] [] [] 1 2 (sc_active sc) (sc_visited sc) h [] true [r] [])).

(** 194-195 *)
Definition room (max : Z) (s : kstate) : bool := (kopen s <? max) && (2 <=? max - kopen s).
(** 196-201: is the request to be sent at all *)
Definition wanted (s : kstate) (r : req) : bool := is_peers_all r || negb (mem (node (get_url r)) (kvisited s)).

(** `chrome_request_count -= n` panics below zero; `count` is signed.  334-336 and 351-372: leaving the loop *)
Definition result (s : kstate) : scan :=
  MkScan (filter (fun u => negb (mem u (kseeds s))) (kactive s)) (kvisited s) (kseeds s) (kafter s).
Definition settles (n : Z) (s : kstate) : kstate :=
  if kopen s <? n then put_main KCrash s
  else let s := put_open (kopen s - n) s in
       if (kcount s =? 0) && (match kpend s with [] => true | _ => false end) then put_main (KDone (result s)) s
       else put_main KWait s.
Definition seen (u : url) (s : kstate) : kstate := put_visited (add (node u) (kvisited s)) s.
Definition one_less (s : kstate) : kstate := put_count (kcount s - 1) s.
(** 236-336; the shuffle does not matter, as the heap is taken from in any order *)
Definition khandle (s : kstate) (m : kmsg) : kstate :=
  match m with
  | MActive u => settles 2 (one_less (seen u (put_active (add (node u) (kactive s)) s)))
  | MInfoOk u => settles 2 (put_pend (PeersAll u :: kpend s) s)
  | MInfoFail u | MPeersFail u => settles 2 (one_less (seen u s))
  | MInfoTimeout u | MPeersTimeout u => settles 1 (one_less (seen u s))
  | MPreflight => settles 1 s
  | MPeers ps =>
      let rs := map (fun p => Info (as_http_url p)) ps in
      settles 0 (if kadding s then put_pend (rs ++ kpend s) s else put_after (rs ++ kafter s) s)
  end.

Section Steps.
(** [cap] is the capacity of the channel of requests (84), [max] the limit on parallel requests; [mayI]
    and [mayP] say how nodes may behave. *)
Variables (cap : nat) (max : Z) (mayI : url -> iout -> Prop) (mayP : url -> pout -> Prop).
Inductive answers : req -> list kmsg -> Prop :=
| an_info u o : mayI (node u) o -> answers (Info u) (info_told u o)
| an_peers u o : mayP (node u) o -> answers (PeersAll u) (peers_told u o).
Inductive kstep : label -> kstate -> kstate -> Prop :=
(** 387-391: the stream hands over a request, a task is spawned and not awaited *)
| k_take s r q : kreqq s = r :: q -> kstep Work s (put_tasks (Asks r :: ktasks s) (put_reqq q s))
(** 406-475.  Every task has a sender of its own and with it a place in the channel of
    messages; here messages can be sent at any time. *)
| k_ask s l1 r l2 ms : ktasks s = l1 ++ Asks r :: l2 -> answers r ms ->
    kstep Work s (put_lost ((match ms with [] => [r] | _ => [] end) ++ klost s) (put_tasks (l1 ++ rest_of ms ++ l2) s))
| k_tell s l1 m ms l2 : ktasks s = l1 ++ Tells m ms :: l2 ->
    kstep Work s (put_msgq (kmsgq s ++ [m]) (put_tasks (l1 ++ rest_of ms ++ l2) s))
(** 186-188 *)
| k_receive s m q : kmain s = KWait -> kmsgq s = m :: q -> kstep Work s (put_main (KDrain m) (put_msgq q s))
(** 338-342, once *)
| k_timeout s : kmain s = KWait -> kadding s = true ->
    kstep Timeout s (put_after (kpend s ++ kafter s) (put_pend [] (put_adding false s)))
(** 190-201: a node already visited is dropped *)
| k_skip s m r h : kmain s = KDrain m -> pops (kpend s) r h -> wanted s r = false -> kstep Work s (put_pend h s)
(** 202-218 *)
| k_push s m r h : kmain s = KDrain m -> pops (kpend s) r h -> wanted s r = true -> room max s = true ->
    (length (kreqq s) < cap)%nat ->
    kstep Work s (put_sent (r :: ksent s) (put_visited (add (node (get_url r)) (kvisited s))
      (put_count (kcount s + (if is_peers_all r then 0 else 1)) (put_open (kopen s + 2)
        (put_pend h (put_reqq (kreqq s ++ [r]) s))))))
(** 219-233: no room, or the channel is full (the receiver lives as long as the sender, so it is
    never closed) *)
| k_stop s m r h : kmain s = KDrain m -> pops (kpend s) r h -> wanted s r = true ->
    room max s = false \/ (cap <= length (kreqq s))%nat -> kstep Work s (khandle s m)
(** 190: the heap is empty *)
| k_empty s m : kmain s = KDrain m -> kpend s = [] -> kstep Work s (khandle s m).

Inductive krun : list label -> kstate -> kstate -> Prop :=
| krun_nil s : krun [] s s
| krun_snoc ls s s1 s2 k : krun ls s s1 -> kstep k s1 s2 -> krun (k :: ls) s s2.

(** A call of peer_discovery_chrome on a scan. *)
Definition call (timeout : Z) (sc : scan) (ls : list label) (s : kstate) : Prop :=
  exists s0, starts timeout sc (Ok s0) /\ krun ls s0 s.
(** Scans as a user gets them: a new one, or what a call returned for one. *)
Inductive history (given : list url) : scan -> Prop :=
| hi_new sc : scan_new given = Ok sc -> history given sc
| hi_next sc timeout ls s sc' : history given sc -> call timeout sc ls s -> kmain s = KDone sc' -> history given sc'.
End Steps.
