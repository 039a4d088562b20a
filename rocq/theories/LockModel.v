(** Model of the lock on an inbound policy: app/inbound/src/policy.rs, policy/tcp.rs and
    policy/http.rs, with the lock of [tokio::sync::watch]. *)
From Coq Require Import List Arith Bool.
Import ListNotations.

(** What a thread does with the lock of a watch's value.  [watch::Receiver::borrow] reads, and the
    [Ref] it returns unreads when it is dropped.  [watch::Sender::send] writes: with
    [parking_lot::RwLock] (app/core/Cargo.toml:24 turns tokio's feature on) a writer first claims
    the lock, then waits until the readers are gone, and lets go of it at the end. *)
Inductive action := Read | Unread | Claim | Drain | Unclaim.
(** The actions of a thread, in order. *)
Definition program := list action.
(** [parking_lot::RawRwLock]: the writer bit and the number of readers *)
Record lock := Lock { l_claimed : bool; l_readers : nat }.
(** One action; [None] if it has to wait.  [RwLock::read] waits while the lock is claimed, also
    when it has readers: it is not [read_recursive]. *)
Definition act (a : action) (l : lock) : option lock :=
  match a with
  | Read => if l_claimed l then None else Some (Lock false (S (l_readers l)))
  | Unread => Some (Lock (l_claimed l) (pred (l_readers l)))
  | Claim => if l_claimed l then None else Some (Lock true (l_readers l))
  | Drain => if l_readers l =? 0 then Some l else None
  | Unclaim => Some (Lock false (l_readers l))
  end.

(** A [Ref] that is dropped before anything else is done. *)
Definition borrow : program := [Read; Unread].
(** policy.rs:119-122 *)
Definition protocol : program := borrow.
(** policy.rs:129-132 *)
Definition meta : program := borrow.
(** policy.rs:134-137 *)
Definition server_label : program := borrow.
(** policy.rs:160-169 *)
Definition routes : program := borrow.
(** policy.rs:139-151 *)
Definition ratelimit_label : program := server_label ++ borrow.

(** How a request fares. *)
Inductive outcome := No_routes | No_route | Unauthorized | Filtered | Limited | Forwarded.
(** http.rs:315-323 *)
Definition mk_route_not_found : program := server_label.
(** http.rs:325-345: the [Ref] of line 334 is dropped at the end of the function, after the
    closure of [map_err]. *)
Definition check_rate_limit (ok : bool) : program :=
  if ok then borrow else [Read] ++ ratelimit_label ++ [Unread].
(** http.rs:172-207, 213-313 *)
Definition http_call (o : outcome) : program :=
  routes ++
  match o with
  | No_routes | No_route => mk_route_not_found
  | Unauthorized | Filtered => server_label
  | Limited => server_label ++ check_rate_limit false
  | Forwarded => server_label ++ check_rate_limit true
  end.
(** tcp.rs:64-105: the [Ref] of line 69 is dropped at line 72.  [deny] reads the label. *)
Definition new_service (allowed : bool) : program :=
  borrow ++ if allowed then [] else meta ++ server_label.
(** tcp.rs:158-175: the [Ref] of line 161 is dropped at the end of the [if let], line 173.
    [terminate] reads the label. *)
Definition recheck (allowed : bool) : program :=
  if allowed then borrow else [Read] ++ meta ++ server_label ++ [Unread].
(** What a thread of the runtime does with one policy between two points where it awaits. *)
Inductive task :=
| Connection (allowed : bool) | Recheck (allowed : bool) | Request (o : outcome) | Detect
(* tonic-watch/src/lib.rs:174-175: an update of the policy *)
| Update.
(** What each of them does with the lock. *)
Definition program_of (t : task) : program :=
  match t with
  | Connection b => new_service b
  | Recheck b => recheck b
  | Request o => http_call o
  | Detect => protocol
  | Update => [Claim; Drain; Unclaim]
  end.

(** The lock and what each of the runtime's threads has left to do. *)
Record world := World { w_lock : lock; w_threads : list program }.
(** The [i]th thread's program is now [p]. *)
Fixpoint put (i : nat) (p : program) (l : list program) : list program :=
  match l, i with
  | [], _ => []
  | _ :: l, O => p :: l
  | x :: l, S i => x :: put i p l
  end.
(** The [i]th thread goes on, if it can. *)
Definition step (w : world) (i : nat) : world :=
  match nth_error (w_threads w) i with
  | Some (a :: p) =>
      match act a (w_lock w) with
      | Some l => World l (put i p (w_threads w))
      | None => w
      end
  | _ => w
  end.
(** Threads with tasks to do, and a free lock. *)
Definition start (workers : list (list task)) : world :=
  World (Lock false 0) (map (flat_map program_of) workers).
(** Any schedule: the threads that go on, in turn. *)
Definition run (w : world) (schedule : list nat) : world := fold_left step schedule w.
