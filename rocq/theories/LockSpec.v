(** Specification for C143: when threads that share a policy get stuck. *)
From Coq Require Import List Arith.
From Verif Require Import LockModel.
Import ListNotations.

(** A connection that is terminated because the policy changed, and a request over the rate limit. *)
Inductive nested : task -> Prop :=
| nested_terminate : nested (Recheck false)
| nested_limited : nested (Request Limited).

(** Every thread did all it had to. *)
Definition finished (w : world) : Prop := forall p, In p (w_threads w) -> p = [].
(** Some thread can go on. *)
Definition goes_on (w : world) : Prop := exists i, step w i <> w.
Definition stuck (w : world) : Prop := ~ finished w /\ ~ goes_on w.

(** How many readers' references a thread that has [p] left to do holds. *)
Definition occurs (a : action) (p : program) : nat :=
  List.length (List.filter (fun b => match a, b with
    | Read, Read | Unread, Unread | Claim, Claim | Drain, Drain | Unclaim, Unclaim => true
    | _, _ => false end) p).
Definition held (p : program) : nat := occurs Unread p - occurs Read p.
(** Thread [i] holds a reference and wants another; thread [j] claimed the lock and waits for the
    readers. *)
Definition wedged (i j : nat) (w : world) : Prop :=
  l_claimed (w_lock w) = true /\ l_readers (w_lock w) > 0 /\
  (exists p, nth_error (w_threads w) i = Some (Read :: p) /\ held (Read :: p) > 0) /\
  (exists p, nth_error (w_threads w) j = Some (Drain :: p)).
Definition reachable (workers : list (list task)) (w : world) : Prop :=
  exists schedule, w = run (start workers) schedule.
