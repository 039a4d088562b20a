(** Model of the queue in front of a balancer: linkerd/proxy/balance/queue/src/{worker,failfast,service,message}.rs

    One task (the worker) takes requests from a channel and gives them to the pool.  A step is
    what the worker does between two points at which it waits, or one access of a client to the
    channel.  What the pool, the discovery stream and the clock do is arbitrary.  Requests are
    numbered as they are put in the channel; errors are numbers; times are numbers too.
    The gate that clients pass is a flag here (see GateModel.v); discovery updates do not change
    anything in this model (see P2cModel.v).  Metrics: only the length of the queue. *)
From Coq Require Import List Arith NArith ZArith Bool.
Import ListNotations.

(** failfast.rs:20-24 *)
Inductive failfast := Waiting (since : N) | Active (since : N).
(** What a request is answered with, if not by the pool: a `FailFastError` (worker.rs:365) or the
    `TerminalFailure` (error.rs) *)
Inductive error := Fail_fast | Terminal (e : N).
(** Where the worker is: at worker.rs:85; at worker.rs:107 with a request; about to set the terminal
    error (388), about to close the channel (389), failing what is in it (391-397), at its end;
    at its end because no client is left (99) *)
Inductive mode := Idle | Readying (m : nat) | Failing (e : N) | Closing (e : N) | Draining (e : N) | Ended | Exited.
(** [reserved]: permits clients have for the channel (`poll_reserve`) but did not use yet.  [uncounted]: requests
    in the channel for which service.rs:91 was not done yet. *)
Record state := State {
  now : N; w_mode : mode; ff : option failfast; gate_shut : bool; terminal : option N; closed : bool;
  queue : list nat; reserved : nat; next : nat; clients : bool; length_gauge : Z; uncounted : nat }.
(** service.rs:46-55, worker.rs:71-74, failfast.rs:47-58 *)
Definition init : state := State 0 Idle None false None false [] 0 0 true 0 0.

(** What can happen to a queue; see the citations beside the constructors *)
Inductive input :=
| Time (t : N)
(* clients *)
| Poll_ready                 (** service.rs:69-77, behind the gate *)
| Release                    (** a client that has a permit is dropped *)
| Send                       (** service.rs:79-94, with the permit *)
| Count                      (** service.rs:91 *)
| Leave                      (** the last client is dropped *)
(* the worker *)
| Discovery_error (e : N)    (** worker.rs:160-161, 200 *)
| Pool_error (e : N)         (** `poll_pool` fails, worker.rs:307-309 *)
| Pool_ready                 (** the pool is ready: worker.rs:291, 324 *)
| Ready_error (e : N)        (** or fails there *)
| Pool_pending               (** the pool is not ready: worker.rs:348 goes on *)
| Recv                       (** worker.rs:95, 391 *)
| Continue.                  (** worker.rs:388-389 *)
Inductive event :=
| Accepted (m : nat) (t : N)
| Rejected (e : N) (t : N)   (** `poll_ready` of a client fails *)
| Unavailable (t : N)        (** the pool was found not to be ready, and the timer started *)
| Available (t : N)          (** the pool was ready or failed *)
| Dispatched (m : nat) (t : N)
| Failed (m : nat) (x : error) (t : N)
| Stopped.                   (** the worker is at its end *)
Inductive outcome := Next (s : state) (l : list event) | Panic | Impossible.

Section Queue.
  Variables (capacity : nat) (timeout : N).

  (** Helper: the worker goes on elsewhere *)
  Definition set_mode (s : state) (m : mode) : state :=
    State (now s) m (ff s) (gate_shut s) (terminal s) (closed s) (queue s) (reserved s) (next s) (clients s) (length_gauge s) (uncounted s).
  (** failfast.rs:65-67 *)
  Definition is_active (s : state) : bool := match ff s with Some (Active _) => true | _ => false end.
  (** failfast.rs:70-78, then another mode *)
  Definition set_ready (s : state) (m : mode) : state :=
    State (now s) m None (if is_active s then false else gate_shut s) (terminal s) (closed s) (queue s) (reserved s) (next s) (clients s) (length_gauge s) (uncounted s).
  (** failfast.rs:81-108 sets the state and the gate *)
  Definition set_ff (s : state) (m : mode) (f : failfast) (shut : bool) : state :=
    State (now s) m (Some f) shut (terminal s) (closed s) (queue s) (reserved s) (next s) (clients s) (length_gauge s) (uncounted s).
  (** A request is taken from the channel: worker.rs:95 and 103, or 391 and 395 *)
  Definition take (s : state) (q : list nat) (m : mode) : state :=
    State (now s) m (ff s) (gate_shut s) (terminal s) (closed s) q (reserved s) (next s) (clients s) (length_gauge s - 1) (uncounted s).

  (** worker.rs:76-133, 150-224, 284-401 with failfast.rs:60-108 for the worker; service.rs:69-94 for the clients; one step *)
  Definition step (s : state) (i : input) : outcome :=
    match i with
    | Time t => if (now s <=? t)%N then Next (State t (w_mode s) (ff s) (gate_shut s) (terminal s) (closed s) (queue s) (reserved s) (next s) (clients s) (length_gauge s) (uncounted s)) [] else Impossible
    | Poll_ready =>
        if clients s then
          if gate_shut s then Next s []
          else if closed s then
            match terminal s with Some e => Next s [Rejected e (now s)] | None => Panic end
          else if reserved s + length (queue s) <? capacity then
            Next (State (now s) (w_mode s) (ff s) (gate_shut s) (terminal s) (closed s) (queue s) (S (reserved s)) (next s) (clients s) (length_gauge s) (uncounted s)) []
          else Next s []
        else Impossible
    | Release =>
        match reserved s with
        | 0 => Impossible
        | S r => Next (State (now s) (w_mode s) (ff s) (gate_shut s) (terminal s) (closed s) (queue s) r (next s) (clients s) (length_gauge s) (uncounted s)) []
        end
    | Send =>
        match reserved s with
        | 0 => Impossible
        | S r => Next (State (now s) (w_mode s) (ff s) (gate_shut s) (terminal s) (closed s) (queue s ++ [next s]) r (S (next s)) (clients s) (length_gauge s) (S (uncounted s))) [Accepted (next s) (now s)]
        end
    | Count =>
        match uncounted s with
        | 0 => Impossible
        | S u => Next (State (now s) (w_mode s) (ff s) (gate_shut s) (terminal s) (closed s) (queue s) (reserved s) (next s) (clients s) (length_gauge s + 1) u) []
        end
    | Leave =>
        if clients s && (reserved s =? 0) then
          Next (State (now s) (w_mode s) (ff s) (gate_shut s) (terminal s) (closed s) (queue s) (reserved s) (next s) false (length_gauge s) (uncounted s)) []
        else Impossible
    | Discovery_error e =>
        match w_mode s with
        | Idle => Next (set_mode s (Failing e)) []
        | Readying m => Next (set_mode s (Failing e)) [Failed m (Terminal e) (now s)]
        | _ => Impossible
        end
    | Pool_error e =>
        match w_mode s with
        | Idle => if is_active s then Impossible else Next (set_mode s (Failing e)) []
        | _ => Impossible
        end
    | Pool_ready =>
        match w_mode s with
        | Idle => if is_active s then Next (set_ready s Idle) [Available (now s)] else Impossible
        | Readying m => Next (set_ready s Idle) [Available (now s); Dispatched m (now s)]
        | _ => Impossible
        end
    | Ready_error e =>
        match w_mode s with
        | Idle => if is_active s then Next (set_ready s (Failing e)) [Available (now s)] else Impossible
        | Readying m => Next (set_ready s (Failing e)) [Available (now s); Failed m (Terminal e) (now s)]
        | _ => Impossible
        end
    | Pool_pending =>
        match w_mode s with
        | Idle => Next s []
        | Readying m =>
            match ff s with
            | Some (Active _) => Next (set_mode s Idle) [Failed m Fail_fast (now s)]
            | Some (Waiting since) =>
                if (since + timeout <=? now s)%N then Next (set_ff s Idle (Active since) true) [Failed m Fail_fast (now s)] else Next s []
            | None => Next (set_ff s (Readying m) (Waiting (now s)) (gate_shut s)) [Unavailable (now s)]
            end
        | _ => Impossible
        end
    | Recv =>
        match w_mode s, queue s with
        | Idle, m :: q => Next (take s q (Readying m)) []
        | Idle, [] => if clients s then Impossible else Next (set_mode s Exited) [Stopped]
        | Draining e, m :: q => Next (take s q (Draining e)) [Failed m (Terminal e) (now s)]
        | Draining e, [] => if reserved s =? 0 then Next (set_mode s Ended) [Stopped] else Impossible
        | _, _ => Impossible
        end
    | Continue =>
        match w_mode s with
        | Failing e => Next (State (now s) (Closing e) (ff s) (gate_shut s) (Some e) (closed s) (queue s) (reserved s) (next s) (clients s) (length_gauge s) (uncounted s)) []
        | Closing e => Next (State (now s) (Draining e) (ff s) (gate_shut s) (terminal s) true (queue s) (reserved s) (next s) (clients s) (length_gauge s) (uncounted s)) []
        | _ => Impossible
        end
    end.
  (** The runs from an empty queue; not code of its own *)
  Inductive run : list event -> state -> Prop :=
  | run_init : run [] init
  | run_step : forall l s i s' l', run l s -> step s i = Next s' l' -> run (l ++ l') s'.
End Queue.
