(** Model of linkerd/proxy/resolve/src/recover.rs: a resolution that is recovered when it fails

    Every step is one turn of a loop of `poll_next` or `poll_connected`; it is told what the
    thing that is polled in it answers.  `Pending` ends a poll and changes nothing, so that
    there is no step for it.  Addresses and endpoints are numbers: they are only compared
    and copied. *)
From Coq Require Import List Arith NArith Bool.
Import ListNotations.

(** proxy/core/src/resolve.rs:30-36 *)
Inductive update :=
| Reset (eps : list (N * N)) | Add (eps : list (N * N)) | Remove (addrs : list N) | Does_not_exist.

(** recover.rs:39-61.  A backoff is known by when it was made. *)
Inductive state :=
| Connecting (backoff : option nat)
| Connected (is_initial : bool)
| Recovering (backoff : option nat)
| Backing_off (backoff : nat)
| Failed.                               (* `recover` refused; polling again panics *)
(** [made]: how many backoffs were made *)
Record machine := Machine { m_state : state; m_made : nat }.

(** What is answered: by the future of `resolve`, by the stream it gives, by `recover`, and by
    the backoff *)
Inductive answer :=
| Connect (ok : bool)
| Stream_update (u : update)
| Stream_failed                         (* an error, or its end *)
| Recover (ok : bool)
| Tick (more : bool).
(** What happens *)
Inductive event :=
| Resolving                             (* `resolve` is called *)
| Connection
| Received (u : update)
| Sent (u : update)                     (* `poll_next` returns an update *)
| Lost
| Ticked (backoff : nat) (more : bool)  (* the backoff has an item; or is over *)
| Gave_up.                              (* an error is returned *)

(** recover.rs:147-194 and 209-262.  [None]: it is not polled in this state. *)
Definition step (m : machine) (a : answer) : option (machine * list event) :=
  match m_state m, a with
  (* lines 223-238 *)
  | Connecting _, Connect true => Some (Machine (Connected true) (m_made m), [Connection])
  | Connecting b, Connect false => Some (Machine (Recovering b) (m_made m), [])
  (* lines 158-188 *)
  | Connected true, Stream_update (Remove l) => Some (m, [Received (Remove l)]) (* in a debug build: panics *)
  | Connected is_initial, Stream_update u =>
      let v := if is_initial then match u with Add eps => Reset eps | up => up end else u in
      Some (Machine (Connected false) (m_made m), [Received u; Sent v])
  | Connected _, Stream_failed => Some (Machine (Recovering None) (m_made m), [Lost])
  (* lines 244-252 *)
  | Recovering b, Recover true =>
      let new := m_made m in
      Some (Machine (Backing_off (match b with Some b => b | None => new end)) (S (m_made m)), [])
  | Recovering _, Recover false => Some (Machine Failed (m_made m), [Gave_up])
  (* lines 254-259, and 216-221 right after *)
  | Backing_off b, Tick more =>
      Some (Machine (Connecting (if more then Some b else None)) (m_made m), [Ticked b more; Resolving])
  | _, _ => None
  end.
(** recover.rs:90-104 *)
Definition init : machine := Machine (Connecting None) 0.
(** What happened *)
Inductive run : list event -> machine -> Prop :=
| run_init : run [Resolving] init
| run_step : forall l m a m' l', run l m -> step m a = Some (m', l') -> run (l ++ l') m'.
