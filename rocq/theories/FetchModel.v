(** Model of the HTTP client used in browsers: how requests are put together and
    handed over to the browser (ergo-rest/src/reqwest/wasm/{request,client,body}.rs,
    ergo-rest/src/reqwest/util.rs).

    The answers of the browser are modelled too (response.rs).  Not modelled: query
    strings, the fields of forms, and decoding of texts and JSON in responses.
    Parsing of header names, values and URLs is a parameter. *)
From Coq Require Import String.
From Verif Require Import Base.
Local Open Scope list_scope.

(** ** Header maps *)

(** [HeaderMap] of the http crate, by its documentation: names with all their
    values in order.  The order of the names is not specified there. *)
Definition hmap := list (string * list string).

Fixpoint hall (m : hmap) (n : string) : list string :=
  match m with
  | [] => []
  | (k, vs) :: m' => if String.eqb k n then vs else hall m' n
  end.

Fixpoint hset (m : hmap) (n : string) (vs : list string) : hmap :=
  match m with
  | [] => [(n, vs)]
  | (k, ws) :: m' => if String.eqb k n then (k, vs) :: m' else (k, ws) :: hset m' n vs
  end.

Definition hvacant (m : hmap) (n : string) : bool :=
  match hall m n with [] => true | _ => false end.

(** [insert]: replaces all values; [append]: adds one. *)
Definition hinsert (m : hmap) (n v : string) : hmap := hset m n [v].
Definition happend (m : hmap) (n v : string) : hmap := hset m n (hall m n ++ [v]).

(** [iter]: a pair for every value. *)
Definition hpairs (m : hmap) : list (string * string) :=
  flat_map (fun e => map (pair (fst e)) (snd e)) m.

(** util.rs [replace_headers]: the first value of a name is inserted, the others
    are appended. *)
Definition replace_one (dst : hmap) (e : string * list string) : hmap :=
  match snd e with
  | [] => dst
  | v :: vs => fold_left (fun d w => happend d (fst e) w) vs (hinsert dst (fst e) v)
  end.
Definition replace_headers (dst src : hmap) : hmap := fold_left replace_one src dst.

(** ** Requests *)

(** body.rs: bytes, or a form with its fields. *)
Inductive body := BBytes (b : list Z) | BForm (fields : list string).

Inductive creds := SameOrigin | Include | Omit.

(** request.rs 20-31; the time-out in milliseconds. *)
Record request := mk_request {
  r_method : string; r_url : string; r_headers : hmap; r_body : option body;
  r_cors : bool; r_creds : option creds; r_timeout : option Z }.

(** request.rs 36-46 *)
Definition new_request (m u : string) : request := mk_request m u [] None true None None.

Definition with_headers (r : request) (h : hmap) : request :=
  mk_request (r_method r) (r_url r) h (r_body r) (r_cors r) (r_creds r) (r_timeout r).
Definition with_body (r : request) (b : option body) : request :=
  mk_request (r_method r) (r_url r) (r_headers r) b (r_cors r) (r_creds r) (r_timeout r).
Definition with_timeout (r : request) (t : option Z) : request :=
  mk_request (r_method r) (r_url r) (r_headers r) (r_body r) (r_cors r) (r_creds r) t.

(** body.rs [try_clone]: forms are not cloned. *)
Definition clone_body (b : body) : option body :=
  match b with BBytes x => Some (BBytes x) | BForm _ => None end.

(** request.rs 111-126 *)
Definition clone_request (r : request) : option request :=
  match r_body r with
  | Some b => match clone_body b with Some b' => Some (with_body r (Some b')) | None => None end
  | None => Some r
  end.

(** How texts become header names (in lower case), header values and URLs, and
    which values consist of visible characters. *)
Record texts := mk_texts {
  name_of : string -> option string;
  value_ok : string -> bool;
  visible : string -> bool;
  url_of : string -> option string }.

(** Calls on a [RequestBuilder].  [None] in [CJson] and [CForm]: the value cannot
    be serialized. *)
Inductive call :=
| CHeader (k v : string) | CHeaders (m : hmap) | CJson (b : option (list Z))
| CForm (b : option (list Z)) | CBearer (t : string) | CTimeout (t : Z)
| CBody (b : list Z) | CMultipart (fields : list string) | CNoCors | CCreds (c : creds).

Local Open Scope string_scope.

(** [header] (request.rs 265-288) on a request without an error *)
Definition add_header (tx : texts) (k v : string) (r : request) : res request :=
  match name_of tx k with
  | Some n =>
      if value_ok tx v then Ok (with_headers r (happend (r_headers r) n v))
      else Err "invalid header value"
  | None => Err "invalid header name"
  end.

(** request.rs 184-204, 207-223: replaces the type and the body *)
Definition set_content (ty : string) (b : option (list Z)) (r : request) : res request :=
  match b with
  | Some x => Ok (with_body (with_headers r (hinsert (r_headers r) "content-type" ty)) (Some (BBytes x)))
  | None => Err "serialization"
  end.

Definition call1 (tx : texts) (c : call) (r : request) : res request :=
  match c with
  | CHeader k v => add_header tx k v r
  | CHeaders m => (* 293-298 *) Ok (with_headers r (replace_headers (r_headers r) m))
  | CJson b => set_content "application/json" b r
  | CForm b => set_content "application/x-www-form-urlencoded" b r
  | CBearer t => (* 226-232 *) add_header tx "authorization" ("Bearer " ++ t) r
  | CTimeout t => (* 239-244 *) Ok (with_timeout r (Some t))
  | CBody b => (* 247-252 *) Ok (with_body r (Some (BBytes b)))
  | CMultipart fs => (* 257-262 *) Ok (with_body r (Some (BForm fs)))
  | CNoCors => (* 309-314 *)
      Ok (mk_request (r_method r) (r_url r) (r_headers r) (r_body r) false (r_creds r) (r_timeout r))
  | CCreds c => (* 325-362 *)
      Ok (mk_request (r_method r) (r_url r) (r_headers r) (r_body r) (r_cors r) (Some c) (r_timeout r))
  end.

(** A builder holds a request or the error that stopped it: every call leaves an
    error alone (the [if let Ok] of each). *)
Definition apply_call (tx : texts) (b : res request) (c : call) : res request :=
  match b with Ok r => call1 tx c r | e => e end.

Definition apply_calls (tx : texts) (b : res request) (l : list call) : res request :=
  fold_left (apply_call tx) l b.

(** ** Clients *)

Record client := mk_client { c_headers : hmap; c_timeout : option Z }.

(** client.rs 299-304: thirty seconds. *)
Definition new_client : client := mk_client [] (Some 30000).

(** client.rs 316-321 *)
Definition default_headers (c : client) (m : hmap) : client :=
  mk_client (fold_left (fun d e => hinsert d (fst e) (snd e)) (hpairs m) (c_headers c)) (c_timeout c).

(** client.rs 326-329 *)
Definition client_timeout (c : client) (t : Z) : client := mk_client (c_headers c) (Some t).

(** client.rs 124-133 *)
Definition start (tx : texts) (c : client) (m u : string) : res request :=
  let b := match url_of tx u with
           | Some u' => Ok (new_request m u')
           | None => Err "invalid url"
           end in
  match c_timeout c with
  | Some t => apply_call tx b (CTimeout t)
  | None => b
  end.

(** client.rs 154-163 *)
Definition merge1 (h : hmap) (e : string * string) : hmap :=
  if hvacant h (fst e) then hinsert h (fst e) (snd e) else h.
Definition merge_headers (c : client) (r : request) : request :=
  with_headers r (fold_left merge1 (hpairs (c_headers c)) (r_headers r)).

(** What the browser is given (client.rs 197-255).  [i_timeout]: the argument of
    [setTimeout], an [i32]. *)
Record init := mk_init {
  i_method : string; i_url : string; i_headers : list (string * string);
  i_nocors : bool; i_creds : option creds; i_body : option body; i_timeout : option Z }.

(** body.rs [is_empty] *)
Definition body_empty (b : body) : bool :=
  match b with BBytes [] | BForm [] => true | _ => false end.

Definition fetch_init (tx : texts) (r : request) : res init :=
  if forallb (fun e => visible tx (snd e)) (hpairs (r_headers r)) then
    Ok (mk_init (r_method r) (r_url r) (hpairs (r_headers r)) (negb (r_cors r)) (r_creds r)
          (match r_body r with
           | Some b => if body_empty b then None else Some b
           | None => None
           end)
          (option_map (wraps 32) (r_timeout r)))
  else Err "header value".

(** When the browser aborts, in milliseconds: negative arguments of [setTimeout]
    count as zero. *)
Definition aborts_after (i : init) : option Z := option_map (Z.max 0) (i_timeout i).

(** [send] (request.rs 390-393, client.rs 166-172) up to the fetch *)
Definition send (tx : texts) (c : client) (b : res request) : res init :=
  r <- b ;; fetch_init tx (merge_headers c r).

(** ** Conversions from and to the http crate (request.rs 450-497) *)
Record http_request := mk_http { h_method : string; h_url : string; h_headers : hmap; h_body : body }.

Definition of_http (tx : texts) (h : http_request) : res request :=
  match url_of tx (h_url h) with
  | Some u => Ok (mk_request (h_method h) u (h_headers h) (Some (h_body h)) true None None)
  | None => Err "invalid url"
  end.

Definition to_http (r : request) : http_request :=
  mk_http (r_method r) (r_url r) (r_headers r)
    (match r_body r with Some b => b | None => BBytes [] end).

Local Open Scope Z_scope.

(** ** Answers *)

(** What the browser's promises give: status, URL and headers at time [a_at] after
    the request, and the end of the body at [a_done], if ever. *)
Record answer := mk_answer {
  a_status : Z; a_url : string; a_headers : list (string * string);
  a_at : Z; a_done : option Z }.

Record response := mk_response { p_status : Z; p_url : string; p_headers : hmap }.

(** The headers of a response are appended one by one by the http crate's builder,
    which keeps the first error (client.rs 283-290). *)
Definition take_header (tx : texts) (b : res hmap) (e : string * string) : res hmap :=
  m <- b ;;
  match name_of tx (fst e) with
  | Some n => if value_ok tx (snd e) then Ok (happend m n (snd e)) else Err "invalid header value"
  | None => Err "invalid header name"
  end.

(** client.rs 271-296: the URL is unwrapped with [expect_throw]; the builder accepts
    the statuses of the http crate, 100 to 999. *)
Definition take_answer (tx : texts) (a : answer) : res response :=
  match url_of tx (a_url a) with
  | None => Panic
  | Some u =>
      m <- fold_left (take_header tx) (a_headers a)
             (if (100 <=? a_status a) && (a_status a <=? 999) then Ok [] else Err "invalid status") ;;
      Ok (mk_response (a_status a) u m)
  end.

(** What becomes of a request: nothing, an error at some time, or the result of
    [take_answer]. *)
Inductive outcome := Forever | Failed (at_ : Z) | Got (at_ : Z) (r : res response).

(** client.rs 236-268: the request is aborted when the time is over, and the timer
    is cleared when the answer is there, before its body is. *)
Definition fetch (tx : texts) (i : init) (a : option answer) : outcome :=
  match aborts_after i, a with
  | Some t, Some x => if a_at x <? t then Got (a_at x) (take_answer tx x) else Failed t
  | Some t, None => Failed t
  | None, Some x => Got (a_at x) (take_answer tx x)
  | None, None => Forever
  end.

(** When [text], [bytes] and [json] have the body of the answer (response.rs 78-119):
    nothing limits them. *)
Definition body_read (tx : texts) (i : init) (a : option answer) : option Z :=
  match fetch tx i a, a with
  | Got _ (Ok _), Some x => option_map (Z.max (a_at x)) (a_done x)
  | Failed t, _ => Some t
  | Got t _, _ => Some t
  | _, _ => None
  end.

(** response.rs 124-141 *)
Definition error_for_status (r : response) : res response :=
  if ((400 <=? p_status r) && (p_status r <? 500)) || ((500 <=? p_status r) && (p_status r <? 600))
  then Err "status" else Ok r.

(** The answer a page may see of another site without CORS: an opaque filtered
    response of the Fetch standard. *)
Definition opaque (at_ : Z) (done_ : option Z) : answer := mk_answer 0 "" [] at_ done_.
