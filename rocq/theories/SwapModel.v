(** Services that are exchanged or watched while they are used: linkerd/stack/src/watch.rs (`SpawnWatch`, by which new
    routes reach the connections and requests of a destination), linkerd/stack/src/switch_ready.rs (by which an inbound
    request goes without a service profile that does not come), and linkerd/stack/metrics/src (the counters of stacks). *)
From Coq Require Import List NArith Bool Arith.
From Verif Require Import HistogramModel.
Import ListNotations.

(** ** Services that follow a watch *)

(** A clone of the service, watch.rs:23-27: the version its receiver has seen, and the inner service, which is known by the
    value that it was made from *)
Record clone (V : Type) := Clone { c_seen : nat; c_inner : V }.
Arguments Clone {V}. Arguments c_seen {V}. Arguments c_inner {V}.
(** The background task, watch.rs:81-102: it waits, having seen a version of the source; it makes a service from a value;
    or it has returned, so that its sender is gone *)
Inductive task (V : Type) := Waits (seen : nat) | Makes (seen : nat) (v : V) | Returned.
Arguments Waits {V}. Arguments Makes {V}. Arguments Returned {V}.
(** The source, whose value has a version (`tokio::sync::watch`; versions are not bounded here); the task; the channel from
    the task to the clones; and the clones, in the order in which they came to be ([None]: dropped) *)
Record watched (V : Type) := Watched {
  w_value : V; w_version : nat; w_closed : bool;
  w_task : task V;
  w_inner : V; w_inner_version : nat;
  w_clones : list (option (clone V)) }.
Arguments Watched {V}. Arguments w_value {V}. Arguments w_version {V}. Arguments w_closed {V}. Arguments w_task {V}.
Arguments w_inner {V}. Arguments w_inner_version {V}. Arguments w_clones {V}.
(** The source gets a value, or its sender is dropped; the task takes a value, sends a service, or returns; a clone is polled
    for readiness, cloned or dropped *)
Inductive happens (V : Type) :=
| Updated (v : V) | Source_closed | Task_takes | Task_sends | Task_returns
| Polled (i : nat) | Cloned (i : nat) | Dropped (i : nat).
Arguments Updated {V}. Arguments Source_closed {V}. Arguments Task_takes {V}. Arguments Task_sends {V}.
Arguments Task_returns {V}. Arguments Polled {V}. Arguments Cloned {V}. Arguments Dropped {V}.

Section Watch.
  Context {V : Type}.
  (** `watch::Receiver::has_changed` of a channel whose sender is gone is an error; whether it is one although a value
      was not seen yet has not always been so in tokio.  [true]: an unseen value is told first. *)
  Variable unseen_first : bool.

  (** The clones with another one in its place *)
  Fixpoint put (i : nat) (c : option (clone V)) (l : list (option (clone V))) : list (option (clone V)) :=
    match l, i with
    | [], _ => []
    | _ :: l, O => c :: l
    | d :: l, S i => d :: put i c l
    end.
  (** Whether there are receivers: `watch::Sender::closed` and `send` *)
  Definition receivers (l : list (option (clone V))) : bool :=
    existsb (fun c => match c with Some _ => true | None => false end) l.
  (** The clone of that number, if it was not dropped *)
  Definition get (s : watched V) (i : nat) : option (clone V) :=
    match nth_error (w_clones s) i with Some (Some c) => Some c | _ => None end.
  (** `matches!(has_changed(), Ok(true))`: watch.rs:131 *)
  Definition has_changed (s : watched V) (c : clone V) : bool :=
    match w_task s with
    | Returned => unseen_first && negb (Nat.eqb (w_inner_version s) (c_seen c))
    | _ => negb (Nat.eqb (w_inner_version s) (c_seen c))
    end.
  (** watch.rs:66-107: made from the value that the source has; [version] is the source's *)
  Definition new_service (v : V) (version : nat) : watched V :=
    Watched v version false (Waits version) v 0 [Some (Clone 0 v)].
  (** One step; [None]: it cannot happen *)
  Definition step (s : watched V) (e : happens V) : option (watched V) :=
    let '(Watched v n closed t inner m cs) := s in
    match e with
    | Updated v' => if closed then None else Some (Watched v' (S n) closed t inner m cs)
    | Source_closed => Some (Watched v n true t inner m cs)
    (* watch.rs:86-96: `changed` is ready when there is a value that was not seen, even of a source that is gone *)
    | Task_takes =>
        match t with
        | Waits seen => if Nat.eqb seen n then None else Some (Watched v n closed (Makes n v) inner m cs)
        | _ => None
        end
    (* watch.rs:97-99 *)
    | Task_sends =>
        match t with
        | Makes seen x =>
            if receivers cs then Some (Watched v n closed (Waits seen) x (S m) cs)
            else Some (Watched v n closed Returned inner m cs)
        | _ => None
        end
    (* watch.rs:85-90 *)
    | Task_returns =>
        match t with
        | Waits seen =>
            if negb (receivers cs) || closed && Nat.eqb seen n then Some (Watched v n closed Returned inner m cs) else None
        | _ => None
        end
    (* watch.rs:130-136 *)
    | Polled i =>
        match get s i with
        | Some c =>
            if has_changed s c then Some (Watched v n closed t inner m (put i (Some (Clone m inner)) cs)) else Some s
        | None => None
        end
    (* watch.rs:23, `derive(Clone)` *)
    | Cloned i => match get s i with Some c => Some (Watched v n closed t inner m (cs ++ [Some c])) | None => None end
    | Dropped i => match get s i with Some _ => Some (Watched v n closed t inner m (put i None cs)) | None => None end
    end.
  (** A history *)
  Fixpoint run (s : watched V) (es : list (happens V)) : option (watched V) :=
    match es with
    | [] => Some s
    | e :: es => match step s e with Some s => run s es | None => None end
    end.
End Watch.

(** ** Services that are not waited for *)

Open Scope N_scope.
(** What a service says when it is polled: pending, ready or failed *)
Inductive readiness := Pending | Ready | Failed.
(** switch_ready.rs:31-36, with the deadline of the timer, in milliseconds (lines 16-22) *)
Inductive state := Primary | Waiting (deadline : N) | Secondary.
(** switch_ready.rs:102-165: [p] and [q] are what the primary says when it is polled the first and the second time, and [r]
    what the secondary says, if they are polled at all.  `SpawnReady` says what its service does, now or in a task. *)
Definition poll_ready (switch_after : N) (s : state) (now : N) (p q r : readiness) : state * readiness :=
  let secondary p := match p with Pending => (Secondary, r) | x => (Primary, x) end in
  let waiting deadline p :=
    if deadline <=? now then secondary p
    else match p with Pending => (Waiting deadline, Pending) | x => (Primary, x) end in
  match s with
  | Primary => match p with Pending => waiting (now + switch_after) q | x => (Primary, x) end
  | Waiting deadline => waiting deadline p
  | Secondary => secondary p
  end.
(** switch_ready.rs:167-174: whether the request goes to the primary; [None]: a panic *)
Definition call (s : state) : option bool :=
  match s with Primary => Some true | Secondary => Some false | Waiting _ => None end.
(** A poll: the time, and what is said *)
Record poll := Poll { p_at : N; p_first : readiness; p_second : readiness; p_other : readiness }.
(** A new one (switch_ready.rs:71-95) that is polled; what the last poll said, too *)
Fixpoint polls (switch_after : N) (s : state) (ps : list poll) : state * option readiness :=
  match ps with
  | [] => (s, None)
  | p :: ps =>
      let (s, x) := poll_ready switch_after s (p_at p) (p_first p) (p_second p) (p_other p) in
      match ps with [] => (s, Some x) | _ => polls switch_after s ps end
  end.

(** ** The counters of stacks *)

(** stack/metrics/src/lib.rs:28-36 *)
Record metrics := Metrics {
  m_create : N; m_drop : N; m_ready : N; m_not_ready : N; m_millis : N; m_error : N }.
(** stack/metrics/src/service.rs:12-20: a service; which of the created ones it is a clone of, since that decides which
    tracker it shares; since when it is blocked, in nanoseconds; and whether its `drop` has been entered *)
Record tracked := Tracked { t_family : nat; t_blocked : option N; t_dropping : bool }.
(** The counters of one set of labels, how many services were created, and the services ([None]: gone) *)
Record tracking := Tracking { k_metrics : metrics; k_families : nat; k_services : list (option tracked) }.
(** A service is created, cloned, or polled at a time; its `drop` is entered, and then its fields are dropped *)
Inductive tracks :=
| Created | Copied (i : nat) | Asked (i : nat) (now : N) (r : readiness) | Drop_entered (i : nat) | Drop_left (i : nat).
(** The services with another one in its place *)
Fixpoint set_service (i : nat) (t : option tracked) (l : list (option tracked)) : list (option tracked) :=
  match l, i with
  | [], _ => []
  | _ :: l, O => t :: l
  | d :: l, S i => d :: set_service i t l
  end.
(** `Arc::strong_count` of a tracker *)
Definition strong_count (f : nat) (l : list (option tracked)) : nat :=
  length (filter (fun t => match t with Some t => Nat.eqb (t_family t) f | None => false end) l).
(** The service of that number, if it can be used *)
Definition usable (k : tracking) (i : nat) : option tracked :=
  match nth_error (k_services k) i with Some (Some t) => if t_dropping t then None else Some t | _ => None end.
(** service.rs:61-64, 71-74 and 79-82: the time since it was blocked is added, in whole milliseconds *)
Definition add_blocked (m : metrics) (blocked : option N) (now : N) : metrics :=
  match blocked with
  | Some t0 =>
      Metrics (m_create m) (m_drop m) (m_ready m) (m_not_ready m)
        (counter_add (m_millis m) ((now - t0) / 1000000)) (m_error m)
  | None => m
  end.
(** One step; [None]: it cannot happen *)
Definition track (k : tracking) (e : tracks) : option tracking :=
  let '(Tracking m n ts) := k in
  match e with
  (* layer.rs:16-19, service.rs:23-30 *)
  | Created =>
      Some (Tracking (Metrics (counter_add (m_create m) 1) (m_drop m) (m_ready m) (m_not_ready m) (m_millis m) (m_error m))
              (S n) (ts ++ [Some (Tracked n None false)]))
  (* service.rs:33-43 *)
  | Copied i =>
      match usable k i with
      | Some t => Some (Tracking m n (ts ++ [Some (Tracked (t_family t) None false)]))
      | None => None
      end
  (* service.rs:53-86 *)
  | Asked i now r =>
      match usable k i with
      | Some t =>
          let m := match r with
                   | Pending => Metrics (m_create m) (m_drop m) (m_ready m) (counter_add (m_not_ready m) 1) (m_millis m) (m_error m)
                   | Ready => Metrics (m_create m) (m_drop m) (counter_add (m_ready m) 1) (m_not_ready m) (m_millis m) (m_error m)
                   | Failed => Metrics (m_create m) (m_drop m) (m_ready m) (m_not_ready m) (m_millis m) (counter_add (m_error m) 1)
                   end in
          let blocked := match r with Pending => Some now | _ => None end in
          Some (Tracking (add_blocked m (t_blocked t) now) n (set_service i (Some (Tracked (t_family t) blocked false)) ts))
      | None => None
      end
  (* service.rs:94-102: the count is read, and the counter incremented, while the reference is still held *)
  | Drop_entered i =>
      match usable k i with
      | Some t =>
          let m := if Nat.eqb (strong_count (t_family t) ts) 1
                   then Metrics (m_create m) (counter_add (m_drop m) 1) (m_ready m) (m_not_ready m) (m_millis m) (m_error m)
                   else m in
          Some (Tracking m n (set_service i (Some (Tracked (t_family t) (t_blocked t) true)) ts))
      | None => None
      end
  (* the fields are dropped: service.rs:12-20 *)
  | Drop_left i =>
      match nth_error ts i with
      | Some (Some t) => if t_dropping t then Some (Tracking m n (set_service i None ts)) else None
      | _ => None
      end
  end.
(** A history *)
Fixpoint track_all (k : tracking) (es : list tracks) : option tracking :=
  match es with
  | [] => Some k
  | e :: es => match track k e with Some k => track_all k es | None => None end
  end.
(** At first: stack/metrics/src/lib.rs:28-36, `derive(Default)` *)
Definition untracked : tracking := Tracking (Metrics 0 0 0 0 0 0) 0 [].
