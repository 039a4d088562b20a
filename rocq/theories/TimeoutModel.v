(** linkerd/http/stream-timeouts/src/lib.rs: timeouts of a request and its response

    Time is in nanoseconds since the call; a `Sleep` is the time it ends, and done from then
    on (tokio's timers are coarser). *)
From Coq Require Import List NArith Bool.
Import ListNotations.
Open Scope N_scope.

(** lib.rs:20-46; a deadline before the call is [0]. *)
Record timeouts := Timeouts {
  response_headers : option N; response_end : option N; idle : option N;
  limit : option (N * N) (* deadline, lifetime *) }.
(** lib.rs:53-90 *)
Inductive error := Headers (t : N) | Response (t : N) | Lifetime (t : N) | Idle (t : N).
(** lib.rs:139-143: `Option<Deadline<E>>`: when, and with what error *)
Definition deadline := option (N * error).

(** The request's body, until it is dropped: its deadline and its idle sleep *)
Record body := Body { b_deadline : deadline; b_idle : option N }.
(** `oneshot::channel()`: nothing yet; sent; sender dropped; received *)
Inductive channel := Open | Sent (t : N) | Closed | Received.
(** The response: its future, its body, or nothing *)
Inductive response :=
| Waiting (d : deadline) (flushed_at : option N)   (* ResponseFuture, lib.rs:92-107 *)
| Streaming (b : body)                             (* ResponseBody, lib.rs:122-135 *)
| Finished.                                        (* the future failed *)
(** [timestamp] is shared by both bodies. *)
Record state := State { now : N; timestamp : N; channel_of : channel; request : option body; response_of : response }.

(** What the inner body or future does when polled: pending; a frame or an error, and
    `is_end_stream` afterwards *)
Inductive inner_body := Body_pending | Body_ready (ended : bool).
(** What the inner future gives, lib.rs:288-291 *)
Inductive inner_response := Response_pending | Response_ok | Response_failed.
(** What can happen: the two bodies and the future are polled, in any order, at any time *)
Inductive event :=
| Tick (d : N)
| Poll_request (r : inner_body)
| Drop_request
| Poll_response (r : inner_response)
| Poll_body (r : inner_body).
(** What a poll returns: pending, to be polled again at these times (and when the inner
    one, or the channel, says so); what the inner one returned; an error *)
Inductive output := Nothing | Pending (wakes : list N) | Passed | Timed_out (e : error).

(** lib.rs:211-214, 219-222: the stream's lifetime *)
Definition limit_of (t : timeouts) : deadline :=
  match limit t with Some (d, l) => Some (d, Lifetime l) | None => None end.
(** lib.rs:187-228 *)
Definition call (t : timeouts) : state :=
  State 0 0 Open
    (Some (Body (limit_of t) (idle t)))   (* `sleep(timeout)`: until 0 + timeout *)
    (Waiting (limit_of t) None).

(** lib.rs:458-462 *)
Definition reset_idle (t : timeouts) (i : option N) (at_ : N) : option N :=
  match i, idle t with Some _, Some d => Some (at_ + d) | _, _ => i end.
(** lib.rs:464-480; after the sleep was reset the loop finds it pending. *)
Definition poll_idle (t : timeouts) (i : option N) (now ts : N) : option N * option error * list N :=
  match i, idle t with
  | Some sleep, Some d =>
      if now <? sleep then (i, None, [sleep])
      else if ts + d <=? now then (i, Some (Idle d), [])
      else (Some (ts + d), None, [ts + d])
  | _, _ => (i, None, [])
  end.
(** lib.rs:433-454 *)
Definition poll_body_timeout (t : timeouts) (b : body) (now ts : N) : body * output :=
  let on_idle ws :=
    match poll_idle t (b_idle b) now ts with
    | (i, Some e, _) => (Body (b_deadline b) i, Timed_out e)
    | (i, None, ws') => (Body (b_deadline b) i, Pending (ws ++ ws'))
    end in
  match b_deadline b with
  | Some (d, e) => if d <=? now then (Body None (b_idle b), Timed_out e) else on_idle [d]
  | None => on_idle []
  end.

(** lib.rs:360-388, 404-426 without the channel *)
Definition poll_body (t : timeouts) (b : body) (r : inner_body) (now ts : N) : body * N * output :=
  match r with
  | Body_ready _ =>
      (Body (b_deadline b) (reset_idle t (b_idle b) now),
       match b_idle b with Some _ => now | None => ts end, Passed)
  | Body_pending => let (b, o) := poll_body_timeout t b now ts in (b, ts, o)
  end.
(** lib.rs:367-373 *)
Definition flush (c : channel) (r : inner_body) (now : N) : channel :=
  match r, c with Body_ready true, Open => Sent now | _, _ => c end.

(** lib.rs:246-284; what the response future does when it learns that the request was
    flushed at [start] *)
Definition set_deadline (t : timeouts) (d : deadline) (start : N) : deadline :=
  let timeout :=
    match response_headers t, response_end t with
    | Some eoh, Some eos => if eoh <? eos then Some (eoh, Headers eoh) else Some (eoh, Headers eoh)
    | Some eoh, None => Some (eoh, Headers eoh)
    | None, Some eos => Some (eos, Response eos)
    | None, None => None
    end in
  match timeout with
  | None => d
  | Some (timeout, e) =>
      match d with
      | Some (dl, _) => if start + timeout <? dl then Some (start + timeout, e) else d
      | None => Some (start + timeout, e)
      end
  end.
(** lib.rs:245-285 *)
Definition learn (t : timeouts) (c : channel) (d : deadline) (f : option N) (now : N) : channel * deadline * option N :=
  match c with
  | Sent start => (Received, set_deadline t d start, Some start)
  | Closed => (Received, set_deadline t d now, Some now)
  | Open | Received => (c, d, f)
  end.
(** lib.rs:321-338 *)
Definition body_deadline (t : timeouts) (start : N) : deadline :=
  match response_end t, limit t with
  | Some eos, Some (lim, l) => if start + eos <? lim then Some (start + eos, Response eos) else Some (lim, Lifetime l)
  | Some eos, None => Some (start + eos, Response eos)
  | None, Some (lim, l) => Some (lim, Lifetime l)
  | None, None => None
  end.
(** lib.rs:240-348 *)
Definition poll_response (t : timeouts) (s : state) (d : deadline) (f : option N) (r : inner_response) : state * output :=
  let '(c, d, f) := learn t (channel_of s) d f (now s) in
  match r with
  | Response_failed => (State (now s) (timestamp s) c (request s) Finished, Passed)
  | Response_pending =>
      match d with
      | Some (dl, e) =>
          if dl <=? now s then (State (now s) (timestamp s) c (request s) Finished, Timed_out e)
          else (State (now s) (timestamp s) c (request s) (Waiting d f), Pending [dl])
      | None => (State (now s) (timestamp s) c (request s) (Waiting d f), Pending [])
      end
  | Response_ok =>
      let start := match f with Some start => start | None => now s end in
      (State (now s) (match idle t with Some _ => now s | None => timestamp s end) c (request s)
         (Streaming (Body (body_deadline t start) (match idle t with Some i => Some (now s + i) | None => None end))), Passed)
  end.

(** lib.rs:240-349, 360-388, 404-426, one poll *)
Definition step (t : timeouts) (s : state) (e : event) : state * output :=
  match e with
  | Tick d => (State (now s + d) (timestamp s) (channel_of s) (request s) (response_of s), Nothing)
  | Poll_request r =>
      match request s with
      | Some b =>
          let '(b, ts, o) := poll_body t b r (now s) (timestamp s) in
          (State (now s) ts (flush (channel_of s) r (now s)) (Some b) (response_of s), o)
      | None => (s, Nothing)
      end
  | Drop_request =>
      (State (now s) (timestamp s) (match channel_of s with Open => match request s with Some _ => Closed | None => Open end | c => c end)
         None (response_of s), Nothing)
  | Poll_response r =>
      match response_of s with Waiting d f => poll_response t s d f r | _ => (s, Nothing) end
  | Poll_body r =>
      match response_of s with
      | Streaming b =>
          let '(b, ts, o) := poll_body t b r (now s) (timestamp s) in
          (State (now s) ts (channel_of s) (request s) (Streaming b), o)
      | _ => (s, Nothing)
      end
  end.
(** Any history; not code of its own *)
Fixpoint run (t : timeouts) (s : state) (es : list event) : list (event * output) :=
  match es with
  | [] => []
  | e :: es => let (s, o) := step t s e in (e, o) :: run t s es
  end.
(** A history from the call, lib.rs:187-228 *)
Definition trace (t : timeouts) (es : list event) : list (event * output) := run t (call t) es.
