(** Model of linkerd/app/outbound/src/http/breaker/{consecutive_failures,unified}.rs
    together with the gate and the response channel they are connected to
    (linkerd/http/classify/src/{gate,channel}.rs). *)
From Coq Require Import List Arith NArith Bool.
From Verif Require BackoffModel WindowModel.
Import ListNotations.
Open Scope N_scope.

(** linkerd/app/core/src/classify.rs:40-45; [fail] tells `Err` from `Ok`. *)
Inductive class := Http (fail : bool) (status : N) | Grpc (fail : bool) (code : N) | Failed.
(** classify.rs:234-244 *)
Definition is_failure (c : class) : bool :=
  match c with Http f _ => f | Grpc f _ => f | Failed => true end.
(** classify.rs:234-236: the negation of `is_failure` *)
Definition is_success (c : class) : bool := negb (is_failure c).
(** unified.rs:389-395 *)
Definition is_rate_limit_signal (c : class) : bool :=
  match c with
  | Http false s => s =? 429
  | Grpc false s => s =? 8
  | _ => false
  end.

(** ** What is tracked while requests flow *)

(** A kind of breaker: its state when it starts and when it has recovered, what a
    response does to it and whether that trips it, and which probes succeed. *)
Record kind := Kind {
  k_state : Type;
  k_init : N -> k_state;
  k_reset : k_state -> N -> k_state;
  k_observe : k_state -> N -> class -> k_state * bool;
  k_probe : class -> bool
}.

(** consecutive_failures.rs:51-71, 91-94.  The counter is a usize, taken as unbounded. *)
Definition consecutive (max_failures : N) : kind :=
  Kind N (fun _ => 0) (fun _ _ => 0)
    (fun failures _ c =>
       if is_success c then (0, false)
       else (failures + 1, failures + 1 =? max_failures))
    is_success.

(** unified.rs:110-119 *)
Record open_state := OpenState { os_failures : N; os_window : option WindowModel.window }.
(** `usize::MAX` on 64 bits *)
Definition usize_max : N := 18446744073709551615.

(** unified.rs:299-320; the threshold is in basis points. *)
Definition should_trip (max_failures bp min_requests : N) (s : open_state) : bool :=
  if negb (max_failures =? 0) && (max_failures <=? os_failures s) then true
  else match os_window s with
       | Some w => WindowModel.should_trip w min_requests (WindowModel.as_fraction bp)
       | None => false
       end.

(** unified.rs:233-286 *)
Definition observe_unified (max_failures bp min_requests : N) (s : open_state) (now : N) (c : class)
    : open_state * bool :=
  let degrades := is_failure c || is_rate_limit_signal c in
  let failures :=
    if 0 <? max_failures then
      (if negb (is_success c) then N.min (os_failures s + 1) usize_max else 0)
    else os_failures s in
  let s := OpenState failures
    (option_map (fun w => WindowModel.record w (negb degrades) now) (os_window s)) in
  (s, should_trip max_failures bp min_requests s).

(** unified.rs:129-145, 186-188, 364-369.  `threshold > 0.0` holds when [bp] is not 0. *)
Definition unified (max_failures bp window min_requests : N) : kind :=
  Kind open_state
    (fun now => OpenState 0 (if 0 <? bp then Some (WindowModel.new window now) else None))
    (fun s now => OpenState 0 (option_map (fun w => WindowModel.reset w now) (os_window s)))
    (observe_unified max_failures bp min_requests)
    (fun c => if is_rate_limit_signal c then false else is_success c).

(** ** The task, the gate and the channel *)

(** linkerd/stack/src/gate.rs:29-42, the semaphore being its number of permits. *)
Inductive gate := Open | Limited (permits : N) | Shut.

(** Where `run` is: in `open`, waiting for the backoff in `closed`, in `probation`,
    or returned.  The backoff stream lives as long as `closed` runs. *)
Inductive phase (A : Type) :=
| Opened (s : A) | Waiting (s : A) (b : BackoffModel.stream) | Probing (s : A) (b : BackoffModel.stream)
| Returned.
Arguments Opened {A}. Arguments Waiting {A}. Arguments Probing {A}. Arguments Returned {A}.

(** What can be observed: a request is let through, is answered without the channel
    having room for its class, is abandoned; the task takes a class from the
    channel; the task sets the gate. *)
Inductive entry :=
| Admit (id : nat) | Overflow (id : nat) | Abandon (id : nat)
| Observe (id : nat) (now : N) (c : class)
| Set_gate (g : gate) (now : N).

(** A breaker's task with its gate and its channel, unified.rs:82-119; [w_log] is what was seen *)
Record world (k : kind) := World {
  w_phase : phase (k_state k); w_gate : gate; w_queue : list (nat * class);
  w_flight : list nat; w_next : nat; w_log : list entry
}.
Arguments World {k}. Arguments w_phase {k}. Arguments w_gate {k}. Arguments w_queue {k}.
Arguments w_flight {k}. Arguments w_next {k}. Arguments w_log {k}.

(** What happens: a client tries to send a request; a response is classified; a
    request is dropped before it has a response; the task is polled, at a time and
    with a choice of the select branch polled first; the endpoint is dropped. *)
Inductive event :=
| Send
| Respond (id : nat) (c : class)
| Cancel (id : nat)
| Run (i : BackoffModel.input) (timer_first : bool)
| Lost.

(** Helper: membership *)
Definition mem (id : nat) (l : list nat) : bool := existsb (Nat.eqb id) l.
(** Helper: removal *)
Definition del (id : nat) (l : list nat) : list nat := filter (fun x => negb (Nat.eqb id x)) l.

Section World.
  Variable instant_max : N.
  Variable backoff : BackoffModel.backoff.
  Variable capacity : nat.
  Variable k : kind.

  (** gate.rs:229-249 by one client at once: readiness, then the call. *)
  Definition send (w : world k) : world k :=
    let through g := World (w_phase w) g (w_queue w) (w_flight w ++ [w_next w]) (S (w_next w))
                           (w_log w ++ [Admit (w_next w)]) in
    match w_gate w with
    | Open => through Open
    | Limited n => if n =? 0 then w else through (Limited (n - 1))
    | Shut => w
    end.

  (** channel.rs:62-73: `try_send`. *)
  Definition respond (w : world k) (id : nat) (c : class) : world k :=
    if mem id (w_flight w) then
      if Nat.ltb (length (w_queue w)) capacity then
        World (w_phase w) (w_gate w) (w_queue w ++ [(id, c)]) (del id (w_flight w)) (w_next w) (w_log w)
      else World (w_phase w) (w_gate w) (w_queue w) (del id (w_flight w)) (w_next w) (w_log w ++ [Overflow id])
    else w.
  (** channel.rs:24-30: the response future is dropped, and nothing is sent. *)
  Definition cancel (w : world k) (id : nat) : world k :=
    if mem id (w_flight w) then
      World (w_phase w) (w_gate w) (w_queue w) (del id (w_flight w)) (w_next w) (w_log w ++ [Abandon id])
    else w.

  (** Taking a class from the channel: consecutive_failures.rs:57-70 / unified.rs:234-285
      in `open`; the discarding loop; and `probation` with its verdict.  After `open`
      returns, `closed` shuts the gate and makes a new backoff stream; after a
      successful probe, the state is reset and `open` opens the gate. *)
  Definition take (w : world k) (now : N) : world k :=
    match w_queue w with
    | [] => w
    | (id, c) :: q =>
        let log := w_log w ++ [Observe id now c] in
        match w_phase w with
        | Returned => w
        | Opened s =>
            let '(s, trip) := k_observe k s now c in
            if trip then World (Waiting s BackoffModel.stream_new) Shut q (w_flight w) (w_next w)
                               (log ++ [Set_gate Shut now])
            else World (Opened s) (w_gate w) q (w_flight w) (w_next w) log
        | Waiting s b => World (Waiting s b) (w_gate w) q (w_flight w) (w_next w) log
        | Probing s b =>
            if k_probe k c
            then World (Opened (k_reset k s now)) Open q (w_flight w) (w_next w) (log ++ [Set_gate Open now])
            else World (Waiting s b) Shut q (w_flight w) (w_next w) (log ++ [Set_gate Shut now])
        end
    end.

  (** `backoff.next()`, consecutive_failures.rs:80-87 / unified.rs:336-346, and
      `gate.limit(1)` in `probation`.  A finished stream is ready at once. *)
  Definition timer (w : world k) (i : BackoffModel.input) : option (world k) :=
    match w_phase w with
    | Waiting s b =>
        match BackoffModel.poll_next instant_max backoff b i with
        | (BackoffModel.Item, b) | (BackoffModel.End, b) =>
            Some (World (Probing s b) (Limited 1) (w_queue w) (w_flight w) (w_next w)
                        (w_log w ++ [Set_gate (Limited 1) (BackoffModel.in_now i)]))
        | (BackoffModel.Pending, b) => None
        | (BackoffModel.Panic, b) =>
            Some (World Returned (w_gate w) (w_queue w) (w_flight w) (w_next w) (w_log w))
        end
    | _ => None
    end.
  (** A pending timer is armed all the same. *)
  Definition arm (w : world k) (i : BackoffModel.input) : world k :=
    match w_phase w with
    | Waiting s b =>
        World (Waiting s (snd (BackoffModel.poll_next instant_max backoff b i)))
              (w_gate w) (w_queue w) (w_flight w) (w_next w) (w_log w)
    | _ => w
    end.
  (** One turn of a `select!`: the branches are polled in a random order. *)
  Definition run_task (w : world k) (i : BackoffModel.input) (timer_first : bool) : world k :=
    if timer_first || match w_queue w with [] => true | _ => false end then
      match timer w i with
      | Some w => w
      | None => take (arm w i) (BackoffModel.in_now i)
      end
    else take w (BackoffModel.in_now i).

  (** unified.rs:196-379 and consecutive_failures.rs:27-105, one turn each, with classify/src/gate.rs for the clients *)
  Definition step (w : world k) (e : event) : world k :=
    match e with
    | Send => send w
    | Respond id c => respond w id c
    | Cancel id => cancel w id
    | Run i f => run_task w i f
    | Lost => World Returned (w_gate w) (w_queue w) (w_flight w) (w_next w) (w_log w)
    end.

  (** The task starts at [t0] with the gate open. *)
  Definition start (t0 : N) : world k := World (Opened (k_init k t0)) Open [] [] 0 [Set_gate Open t0].
  (** unified.rs:196: the task from its start; the events are arbitrary *)
  Definition run (t0 : N) (es : list event) : world k := fold_left step es (start t0).
End World.
