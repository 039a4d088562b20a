(** Model of linkerd/stack/src/gate.rs: the gate, its channel and the semaphores it
    hands out permits from.

    Every access to something shared (the watch channel, a semaphore) is a step of its
    own, so that polls of different clones and the senders interleave in any way.
    Not modelled: wakers (a clone may be polled at any time), `Err(Closed)` (the
    sender is only told so when nobody can observe the gate any more) and
    `add_permits` on the semaphore returned by `limit`, which only tests use. *)
From Coq Require Import List Arith Bool.
Import ListNotations.

(** gate.rs:29-42.  A semaphore is known by its index. *)
Inductive state := Open | Limited (sem : nat) | Shut.
(** The calls of `Tx`: gate.rs:132, 154, 175. *)
Inductive setting := To_open | To_limit (permits : nat) | To_shut.

(** tokio::sync::Semaphore, for acquisitions of one permit: the free permits; who
    waits, in order; who waited and has been handed a permit but has not been polled
    since; whether it is closed. *)
Record sem := Sem { s_free : nat; s_queue : list nat; s_given : list nat; s_closed : bool }.

(** The future of gate.rs:90-117: at the top of its loop; about to acquire from a
    semaphore, or waiting for it; waiting for the channel's version to change. *)
Inductive future := Top | Acquire (k v : nat) | Queued (k v : nat) | Changed (v : nat).

(** Where a call of `poll_ready` is: not running; in `poll_acquire` (254-280), before it
    reads the state or polls the future; about to `try_acquire` (263); about to poll
    the inner service with a permit in hand (235). *)
Inductive pc := Idle | Entered | Looked (k : nat) | Acquired (p : option nat).

(** gate.rs:12-18: `permit`; `acquire`, when `acquiring`. *)
Record gate := Gate { g_permit : option (option nat); g_acquire : option future; g_pc : pc }.

(** What is seen from outside.  [Pass] tells which semaphore the permit came from,
    for the proofs; no statement looks at it. *)
Inductive seen :=
| Set_ (s : setting) | Returned
| Polled (i : nat) | Ready (i : nat) | Pending (i : nat) | Failed (i : nat)
| Pass (i : nat) (p : option nat) | Panic (i : nat) | Dropped (i : nat).

(** gate.rs:12-42: the channel's states, semaphores and services, and what was seen *)
Record world := World {
  w_state : state; w_version : nat; w_sems : list sem; w_closing : list nat;
  w_gates : list (option gate); w_log : list seen
}.

(** What the inner `poll_ready` answers, gate.rs:229-238 *)
Inductive readiness := Inner_ready | Inner_pending | Inner_failed.
(** A sender replaces the state; a sender goes on to close the semaphore it replaced
    and returns; a clone is made; `poll_ready` is called; a running `poll_ready` takes
    a step; `call`; a clone is dropped. *)
Inductive event :=
| Send (s : setting) | Close (k : nat) | Clone | Poll (i : nat) | Step (i : nat) (r : readiness) | Call (i : nat) | Drop (i : nat).

(** Helper: change one element of a list *)
Fixpoint upd {A} (l : list A) (i : nat) (x : A) : list A :=
  match l, i with
  | [], _ => []
  | _ :: l, 0 => x :: l
  | y :: l, S i => y :: upd l i x
  end.
(** Helper: a semaphore that does not exist *)
Definition no_sem : sem := Sem 0 [] [] true.
(** Helper: a semaphore by its number *)
Definition sem_at (w : world) (k : nat) : sem := nth k (w_sems w) no_sem.
(** Helper: replace a semaphore *)
Definition put_sem (w : world) (k : nat) (s : sem) : world :=
  World (w_state w) (w_version w) (upd (w_sems w) k s) (w_closing w) (w_gates w) (w_log w).
(** Helper: a service by its number *)
Definition gate_at (w : world) (i : nat) : option gate := nth i (w_gates w) None.
(** Helper: replace a service *)
Definition put_gate (w : world) (i : nat) (g : option gate) : world :=
  World (w_state w) (w_version w) (w_sems w) (w_closing w) (upd (w_gates w) i g) (w_log w).
(** Helper: something is seen *)
Definition log (w : world) (e : seen) : world :=
  World (w_state w) (w_version w) (w_sems w) (w_closing w) (w_gates w) (w_log w ++ [e]).

(** Helper: a waiter is removed *)
Definition without (i : nat) (l : list nat) : list nat := filter (fun j => negb (j =? i)) l.
(** Helper: membership *)
Definition mem (i : nat) (l : list nat) : bool := existsb (Nat.eqb i) l.

(** A permit goes back to its semaphore, and to who waits first. *)
Definition released (s : sem) : sem :=
  match s_queue s with
  | [] => Sem (S (s_free s)) [] (s_given s) (s_closed s)
  | i :: q => Sem (s_free s) q (s_given s ++ [i]) (s_closed s)
  end.
(** `Drop for OwnedSemaphorePermit` *)
Definition release (w : world) (p : option nat) : world :=
  match p with Some k => put_sem w k (released (sem_at w k)) | None => w end.
(** Dropping a waiting acquisition gives back what it was handed. *)
Definition forgotten (i : nat) (s : sem) : sem :=
  if mem i (s_given s) then released (Sem (s_free s) (s_queue s) (without i (s_given s)) (s_closed s))
  else Sem (s_free s) (without i (s_queue s)) (s_given s) (s_closed s).
(** `Semaphore::close` *)
Definition closed (s : sem) : sem := Sem (s_free s) [] (s_given s) true.
(** Take a free permit *)
Definition taken (s : sem) : sem := Sem (s_free s - 1) (s_queue s) (s_given s) (s_closed s).
(** `Semaphore::try_acquire`, tokio *)
Definition can_take (s : sem) : bool := negb (s_closed s) && negb (s_free s =? 0).

(** gate.rs:132-191: `send_replace`, then `lim.close()` if the old state was limited.
    A call with nothing to close returns at once. *)
Definition send (w : world) (x : setting) : world :=
  let k := length (w_sems w) in
  let st := match x with To_open => Open | To_limit _ => Limited k | To_shut => Shut end in
  let sems := match x with To_limit n => w_sems w ++ [Sem n [] [] false] | _ => w_sems w end in
  let l := w_log w ++ [Set_ x] in
  match w_state w with
  | Limited old => World st (S (w_version w)) sems (w_closing w ++ [old]) (w_gates w) l
  | _ => World st (S (w_version w)) sems (w_closing w) (w_gates w) (l ++ [Returned])
  end.
(** `Semaphore::close`, gate.rs:140, 165, 186 *)
Definition close (w : world) (k : nat) : world :=
  if mem k (w_closing w) then
    World (w_state w) (w_version w) (upd (w_sems w) k (closed (sem_at w k))) (without k (w_closing w)) (w_gates w)
      (w_log w ++ [Returned])
  else w.

(** gate.rs:201-210 *)
Definition new_gate : gate := Gate None None Idle.
(** gate.rs:212-219 *)
Definition clone (w : world) : world :=
  World (w_state w) (w_version w) (w_sems w) (w_closing w) (w_gates w ++ [Some new_gate]) (w_log w).

(** gate.rs:229-233: an earlier permit is dropped, and `poll_acquire` starts. *)
Definition poll (w : world) (i : nat) (g : gate) : world :=
  match g_pc g with
  | Idle =>
      let w := match g_permit g with Some p => release w p | None => w end in
      log (put_gate w i (Some (Gate None (g_acquire g) Entered))) (Polled i)
  | _ => w
  end.

(** gate.rs:90-117 and 276-278: the future is polled, one access at a time. *)
Definition poll_future (w : world) (i : nat) (f : future) : world :=
  let go g := put_gate w i (Some g) in
  match f with
  | Top =>
      match w_state w with
      | Open => go (Gate None None (Acquired None))
      | Shut => go (Gate None (Some (Changed (w_version w))) Entered)
      | Limited k => go (Gate None (Some (Acquire k (w_version w))) Entered)
      end
  | Acquire k v =>
      let s := sem_at w k in
      if s_closed s then go (Gate None (Some (Changed v)) Entered)
      else if can_take s then put_sem (go (Gate None None (Acquired (Some k)))) k (taken s)
      else log (put_sem (go (Gate None (Some (Queued k v)) Idle)) k
                  (Sem (s_free s) (s_queue s ++ [i]) (s_given s) (s_closed s))) (Pending i)
  | Queued k v =>
      let s := sem_at w k in
      if s_closed s then put_sem (go (Gate None (Some (Changed v)) Entered)) k (forgotten i s)
      else if mem i (s_given s) then
        put_sem (go (Gate None None (Acquired (Some k)))) k
          (Sem (s_free s) (s_queue s) (without i (s_given s)) (s_closed s))
      else log (go (Gate None (Some (Queued k v)) Idle)) (Pending i)
  | Changed v =>
      if v =? w_version w then log (go (Gate None (Some (Changed v)) Idle)) (Pending i)
      else go (Gate None (Some Top) Entered)
  end.

(** gate.rs:229-240, 254-280 *)
Definition step (w : world) (i : nat) (g : gate) (r : readiness) : world :=
  let go g := put_gate w i (Some g) in
  match g_pc g with
  | Idle => w
  | Entered =>
      match g_acquire g with
      | Some f => poll_future w i f
      | None =>
          match w_state w with
          | Open => go (Gate None None (Acquired None))
          | Limited k => go (Gate None None (Looked k))
          | Shut => go (Gate None (Some Top) Entered)
          end
      end
  | Looked k =>
      let s := sem_at w k in
      if can_take s then put_sem (go (Gate None None (Acquired (Some k)))) k (taken s)
      else go (Gate None (Some Top) Entered)
  | Acquired p =>
      match r with
      | Inner_ready => log (go (Gate (Some p) None Idle)) (Ready i)
      | Inner_pending => log (release (go (Gate None None Idle)) p) (Pending i)
      | Inner_failed => log (release (go (Gate None None Idle)) p) (Failed i)
      end
  end.

(** gate.rs:241-249: a permit is forgotten, not given back. *)
Definition call (w : world) (i : nat) (g : gate) : world :=
  match g_pc g with
  | Idle =>
      match g_permit g with
      | None => log w (Panic i)
      | Some p => log (put_gate w i (Some (Gate None (g_acquire g) Idle))) (Pass i p)
      end
  | _ => w
  end.

(** A service is dropped: what it holds goes (gate.rs:12-18) *)
Definition drop (w : world) (i : nat) (g : gate) : world :=
  match g_pc g with
  | Idle =>
      let w := match g_permit g with Some p => release w p | None => w end in
      let w := match g_acquire g with
               | Some (Queued k _) => put_sem w k (forgotten i (sem_at w k))
               | _ => w
               end in
      log (put_gate w i None) (Dropped i)
  | _ => w
  end.

(** gate.rs:56-279, one access to what is shared *)
Definition handle (w : world) (e : event) : world :=
  let with_gate i f := match gate_at w i with Some g => f g | None => w end in
  match e with
  | Send x => send w x
  | Close k => close w k
  | Clone => clone w
  | Poll i => with_gate i (poll w i)
  | Step i r => with_gate i (fun g => step w i g r)
  | Call i => with_gate i (call w i)
  | Drop i => with_gate i (drop w i)
  end.

(** gate.rs:49-52, 196-210: an open gate and one service. *)
Definition init : world := World Open 0 [] [] [Some new_gate] [].
(** Any interleaving from the start; not code of its own *)
Definition run (es : list event) : world := fold_left handle es init.
