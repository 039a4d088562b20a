(** Model of linkerd/stack/src/failfast.rs *)
From Coq Require Import List NArith Bool.
Import ListNotations.
Open Scope N_scope.

(** What the inner service answers to `poll_ready`; [Ready_ ok]. *)
Inductive readiness := Pending_ | Ready_ (ok : bool).
(** The spawned task (failfast.rs:176-194): driving the inner service; about to return,
    having notified the gate; returned. *)
Inductive task := Running | Finishing (ok : bool) | Done (ok : bool).
(** failfast.rs:47-57.  `Invalid` only exists within `poll_ready`. *)
Inductive state := S_open | S_waiting | S_failfast (t : task) | S_dropped.
(** failfast.rs:60-64, 228-236: what a call gives *)
Inductive outcome := Forwarded | Failed_fast | Panicked.

(** What is seen: `poll_ready` is called; the inner service is polled; the service enters
    failfast; the gate is set; the task returns; `poll_ready` looks at the task;
    `poll_ready` returns; `call`. *)
Inductive seen :=
| Asked (t : N) | Inner (t : N) (r : readiness) | Entered (t : N) | Gate_shut | Gate_open
| Finished (ok : bool) | Checked | Answer (r : readiness) | Called (o : outcome).

(** failfast.rs:37-45; the timer is its deadline. *)
Record service := Service { f_timeout : N; f_gated : bool; f_state : state; f_wait : N; f_log : list seen }.

(** Helper: a new state, and what was seen *)
Definition set (s : service) (st : state) (l : list seen) : service :=
  Service (f_timeout s) (f_gated s) st (f_wait s) (f_log s ++ l).
(** Helper: the gate is told (failfast.rs:171-173, 181-183), if there is one *)
Definition gate (s : service) (e : seen) : list seen := if f_gated s then [e] else [].

(** failfast.rs:201-217 *)
Definition poll_failfast (s : service) (t : task) : service :=
  match t with
  | Done ok => set s S_open [Checked; Answer (Ready_ ok)]
  | _ => set s (S_failfast t) [Checked; Answer (Ready_ true)]
  end.

(** failfast.rs:153-196.  [r] is the inner service's answer, [fires] whether the timer
    has noticed that its deadline has passed, and [bg] what the spawned task got
    from the inner service, and returned with, before it is looked at. *)
Definition poll_waiting (s : service) (now : N) (r : readiness) (fires : bool) (bg : option readiness) : service :=
  match r with
  | Ready_ ok => set s S_open [Inner now r; Answer r]
  | Pending_ =>
      if fires && (f_wait s <=? now) then
        let s := set s (S_failfast Running) (Inner now r :: Entered now :: gate s Gate_shut) in
        match bg with
        | Some (Ready_ ok) => poll_failfast (set s (f_state s) (Inner now (Ready_ ok) :: gate s Gate_open ++ [Finished ok])) (Done ok)
        | Some Pending_ => poll_failfast (set s (f_state s) [Inner now Pending_]) Running
        | None => poll_failfast s Running
        end
      else set s S_waiting [Inner now r; Answer Pending_]
  end.

(** failfast.rs:117-222.  When the inner service turns out pending, the timer is reset and
    the loop goes on to poll it again, with answer [r2].  `Instant + Duration` is
    taken not to overflow, and the clock is read once for each call. *)
Definition poll_ready (s : service) (now : N) (r1 r2 : readiness) (fires : bool) (bg : option readiness) : service :=
  let s := set s (f_state s) [Asked now] in
  match f_state s with
  | S_open =>
      match r1 with
      | Ready_ ok => set s S_open [Inner now r1; Answer r1]
      | Pending_ =>
          poll_waiting
            (Service (f_timeout s) (f_gated s) S_waiting (now + f_timeout s) (f_log s ++ [Inner now r1])) now r2 fires bg
      end
  | S_waiting => poll_waiting s now r1 fires bg
  | S_failfast t => poll_failfast s t
  | S_dropped => s
  end.

(** failfast.rs:176-194: the task polls the inner service; or returns. *)
Definition poll_task (s : service) (now : N) (r : readiness) : service :=
  match f_state s with
  | S_failfast Running =>
      match r with
      | Pending_ => set s (f_state s) [Inner now r]
      | Ready_ ok => set s (S_failfast (Finishing ok)) (Inner now r :: gate s Gate_open)
      end
  | S_failfast (Finishing ok) => set s (S_failfast (Done ok)) [Finished ok]
  | _ => s
  end.

(** failfast.rs:224-231 *)
Definition call (s : service) : service :=
  match f_state s with
  | S_open => set s (f_state s) [Called Forwarded]
  | S_failfast _ => set s (f_state s) [Called Failed_fast]
  | S_waiting => set s (f_state s) [Called Panicked]
  | S_dropped => s
  end.

(** What can happen to a service: failfast.rs:117-236; and its time *)
Inductive event :=
| Poll (now : N) (r1 r2 : readiness) (fires : bool) (bg : option readiness)
| Task (now : N) (r : readiness)
| Call
| Drop.
(** failfast.rs:117-247, one event *)
Definition handle (s : service) (e : event) : service :=
  match e with
  | Poll now r1 r2 fires bg =>
      match f_state s with S_dropped => s | _ => poll_ready s now r1 r2 fires bg end
  | Task now r => poll_task s now r
  | Call => call s
  (* failfast.rs:239-243: the task is aborted *)
  | Drop => Service (f_timeout s) (f_gated s) S_dropped (f_wait s) (f_log s)
  end.
(** failfast.rs:95-106 *)
Definition new (timeout : N) (gated : bool) : service := Service timeout gated S_open 0 [].
(** failfast.rs:95-106, then any events *)
Definition run (timeout : N) (gated : bool) (es : list event) : service := fold_left handle es (new timeout gated).
