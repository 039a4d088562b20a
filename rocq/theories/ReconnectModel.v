(** A service that is made again after it failed, with a backoff: linkerd/reconnect/src/lib.rs. *)
From Coq Require Import List Arith.
Import ListNotations.

(** What a service says when it is polled, and, if it fails, whether `recover` gives a backoff or returns the error *)
Inductive answer := A_pending | A_ok | A_err (recoverable : bool).
(** What a backoff says: it is not over, it is over, or there are no more *)
Inductive more := M_pending | M_some | M_none.
(** A backoff: which one, and how many of its waits are over *)
Record backoff := Backoff { b_id : nat; b_waits : nat }.
(** lib.rs:33-43; services are numbered as they are made *)
Inductive state := Disconnected (b : option backoff) | Pending (k : nat) (b : option backoff) | Connected (k : nat).
(** What can be seen from outside: a service is made, is ready for the first time, or fails and is given up; a wait of a backoff
    is over *)
Inductive seen := Made (k : nat) | Up (k : nat) | Gave_up (k : nat) | Waited (b n : nat).
(** The reconnecting service, how many services and backoffs were made, and what was seen *)
Record reconnect := Reconnect { e_state : state; e_made : nat; e_backoffs : nat; e_seen : list seen }.
(** Who is asked in a round of the loop of `poll_ready`, and what they say; [Nobody] when there is neither a service nor a
    backoff *)
Inductive asked := Service (a : answer) | Timer (m : more) | Nobody.
(** What `poll_ready` returns *)
Inductive returned := Ready | Not_ready | Error.
(** lib.rs:72-80 *)
Definition new : reconnect := Reconnect (Disconnected None) 0 0 [].
(** lib.rs:160-167: another service is made *)
Definition make (r : reconnect) (b : option backoff) (l : list seen) : reconnect :=
  Reconnect (Pending (e_made r) b) (S (e_made r)) (e_backoffs r) (e_seen r ++ l ++ [Made (e_made r)]).
(** lib.rs:96-177: a round of the loop; the second part is what is returned, if it ends; [None]: it cannot happen *)
Definition round (r : reconnect) (a : asked) : option (reconnect * option returned) :=
  let '(Reconnect s made bs log) := r in
  match s, a with
  (* lib.rs:100-116; `recover(error)?` returns before the state is changed *)
  | Connected k, Service A_pending => Some (r, Some Not_ready)
  | Connected k, Service A_ok => Some (r, Some Ready)
  | Connected k, Service (A_err false) => Some (r, Some Error)
  | Connected k, Service (A_err true) =>
      Some (Reconnect (Disconnected (Some (Backoff bs 0))) made (S bs) (log ++ [Gave_up k]), None)
  (* lib.rs:121-140, 173-175 *)
  | Pending k b, Service A_pending => Some (r, Some Not_ready)
  | Pending k b, Service A_ok => Some (Reconnect (Connected k) made bs (log ++ [Up k]), Some Ready)
  | Pending k b, Service (A_err false) => Some (r, Some Error)
  | Pending k b, Service (A_err true) =>
      Some (Reconnect (Disconnected (Some (match b with Some b => b | None => Backoff bs 0 end))) made (S bs) (log ++ [Gave_up k]), None)
  (* lib.rs:144-168 *)
  | Disconnected None, Nobody => Some (make r None [], None)
  | Disconnected (Some b), Timer M_pending => Some (r, Some Not_ready)
  | Disconnected (Some b), Timer M_some =>
      Some (make r (Some (Backoff (b_id b) (S (b_waits b)))) [Waited (b_id b) (S (b_waits b))], None)
  | Disconnected (Some b), Timer M_none => Some (make r None [Waited (b_id b) (S (b_waits b))], None)
  | _, _ => None
  end.
(** Any number of rounds, of any number of polls; what was returned last, too *)
Fixpoint rounds (r : reconnect) (l : list asked) : option (reconnect * option returned) :=
  match l with
  | [] => Some (r, None)
  | a :: l =>
      match round r a with
      | Some (r, x) => match l with [] => Some (r, x) | _ => rounds r l end
      | None => None
      end
  end.
(** lib.rs:181-187: the service that a request goes to; [None]: a panic *)
Definition call (r : reconnect) : option nat := match e_state r with Connected k => Some k | _ => None end.
