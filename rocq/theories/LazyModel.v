(** Model of services that are built when they are first used: linkerd/stack/src/lazy.rs.

    Simplifications: the services that are built are told apart by numbers, and a clone of one has its number; their own
    readiness and answers are theirs, so what is recorded is that they are polled and called.  The lock is held while a service is
    built (lazy.rs:66-80), so every poll is one step and any schedule of tasks is a list of steps. *)
From Coq Require Import List Arith Bool.
Import ListNotations.

Section Lazy.
Context {T : Type}.

(** lazy.rs:19-23, with the number of the service *)
Inductive shared := Uninit (target : T) | Service (s : nat) | Invalid.
(** What happens: a service is built for a target; a handle's service is polled, or called; building panics; a handle panics *)
Inductive event := Made (target : T) (s : nat) | Polled (h s : nat) | Called (h s : nat) | Making_panics | Handle_panics (h : nat).
(** What is done with handles: one is cloned, polled (where `new_service` would panic, or not), or called *)
Inductive op := Clone (h : nat) | Poll (h : nat) (panics : bool) | Call (h : nat).
(** lazy.rs:12-16: what handles share, the `inner` of each, and what has happened *)
Record world := World { w_shared : shared; w_handles : list (option nat); w_log : list event }.

(** lazy.rs:39-47 *)
Definition new_service (target : T) : world := World (Uninit target) [None] [].
(** How many services have been built *)
Fixpoint made (l : list event) : nat := match l with [] => 0 | Made _ _ :: l => S (made l) | _ :: l => made l end.
(** `self.inner = Some(svc)` of a handle (lazy.rs:70 and 75) *)
Fixpoint set_inner (hs : list (option nat)) (h s : nat) : list (option nat) :=
  match hs, h with
  | [], _ => []
  | _ :: hs, O => Some s :: hs
  | x :: hs, S h => x :: set_inner hs h s
  end.
(** lazy.rs:61-86.  When `new_service` panics, what is shared stays what `replace` left there (lazy.rs:67); the lock is
    parking_lot's, which does not remember panics. *)
Definition poll_ready (w : world) (h : nat) (panics : bool) : world :=
  match nth_error (w_handles w) h with
  | None => w
  | Some (Some s) => World (w_shared w) (w_handles w) (w_log w ++ [Polled h s])
  | Some None =>
      match w_shared w with
      | Uninit target =>
          if panics then World Invalid (w_handles w) (w_log w ++ [Making_panics])
          else
            let s := made (w_log w) in
            World (Service s) (set_inner (w_handles w) h s) (w_log w ++ [Made target s; Polled h s])
      | Service s => World (Service s) (set_inner (w_handles w) h s) (w_log w ++ [Polled h s])
      | Invalid => World Invalid (w_handles w) (w_log w ++ [Handle_panics h])
      end
  end.
(** lazy.rs:88-91 *)
Definition call (w : world) (h : nat) : world :=
  match nth_error (w_handles w) h with
  | None => w
  | Some (Some s) => World (w_shared w) (w_handles w) (w_log w ++ [Called h s])
  | Some None => World (w_shared w) (w_handles w) (w_log w ++ [Handle_panics h])
  end.
(** lazy.rs:94-101: the new handle is the last. *)
Definition clone (w : world) (h : nat) : world :=
  match nth_error (w_handles w) h with
  | None => w
  | Some x => World (w_shared w) (w_handles w ++ [x]) (w_log w)
  end.
(** One step *)
Definition step (w : world) (o : op) : world :=
  match o with Clone h => clone w h | Poll h panics => poll_ready w h panics | Call h => call w h end.
(** A history *)
Definition run (target : T) (ops : list op) : world := fold_left step ops (new_service target).
End Lazy.
Arguments shared : clear implicits.
Arguments event : clear implicits.
Arguments world : clear implicits.
