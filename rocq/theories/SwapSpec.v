(** What C125-C127 say, without the model's steps. *)
From Coq Require Import List NArith Bool Arith.
From Verif Require Import SwapModel.
Import ListNotations.

(** ** Services that follow a watch *)

(** All the values of the source, the oldest first *)
Definition values {V} (v : V) (es : list (happens V)) : list V :=
  v :: flat_map (fun e => match e with Updated v => [v] | _ => [] end) es.
(** The clone of that number serves with what was made from [v]. *)
Definition uses {V} (s : watched V) (i : nat) (v : V) : Prop := exists c, get s i = Some c /\ c_inner c = v.
(** What the background task does *)
Definition of_task {V} (e : happens V) : Prop := e = Task_takes \/ e = Task_sends \/ e = Task_returns.
(** It has nothing left to do. *)
Definition settled {V} (unseen_first : bool) (s : watched V) : Prop := forall e, of_task e -> step unseen_first s e = None.

(** ** Services that are not waited for *)

(** Since when the primary has been found pending by every poll, after those polls; [None]: the last poll found that it is
    ready, or that it has failed.  The poll that finds it pending for the first time asks twice. *)
Inductive outage : list poll -> option N -> Prop :=
| never : outage [] None
| fine ps p : outage ps None -> p_first p <> Pending -> outage (ps ++ [p]) None
| fine_after_all ps p : outage ps None -> p_first p = Pending -> p_second p <> Pending -> outage (ps ++ [p]) None
| starts ps p : outage ps None -> p_first p = Pending -> p_second p = Pending -> outage (ps ++ [p]) (Some (p_at p))
| goes_on ps p t : outage ps (Some t) -> p_first p = Pending -> outage (ps ++ [p]) (Some t)
| is_over ps p t : outage ps (Some t) -> p_first p <> Pending -> outage (ps ++ [p]) None.
(** Time does not go back. *)
Fixpoint in_time (from : N) (ps : list poll) : Prop :=
  match ps with [] => True | p :: ps => (from <= p_at p)%N /\ in_time (p_at p) ps end.
(** What the primary said in the end, in a poll that found it ready or failed *)
Definition said (p : poll) : readiness := match p_first p with Pending => p_second p | x => x end.

(** ** The counters of stacks *)

(** How often something happened *)
Definition times (f : tracks -> bool) (es : list tracks) : N := N.of_nat (length (filter f es)).
Definition is_created (e : tracks) : bool := match e with Created => true | _ => false end.
Definition is_ready (e : tracks) : bool := match e with Asked _ _ Ready => true | _ => false end.
Definition is_pending (e : tracks) : bool := match e with Asked _ _ Pending => true | _ => false end.
Definition is_failed (e : tracks) : bool := match e with Asked _ _ Failed => true | _ => false end.
(** Some clone of the service that was created as number [f] is left; one is left that can be used. *)
Definition lives (k : tracking) (f : nat) : Prop :=
  exists i t, nth_error (k_services k) i = Some (Some t) /\ t_family t = f.
Definition in_use (k : tracking) (f : nat) : Prop :=
  exists i t, nth_error (k_services k) i = Some (Some t) /\ t_family t = f /\ t_dropping t = false.
(** No two services are dropped at the same time. *)
Inductive serial : list tracks -> Prop :=
| serial_nil : serial []
| serial_drop i es : serial es -> serial (Drop_entered i :: Drop_left i :: es)
| serial_other e es : (forall i, e <> Drop_entered i /\ e <> Drop_left i) -> serial es -> serial (e :: es).
(** Since when service [i] has been pending: the time of its last poll, if that found it pending *)
Inductive blocked (i : nat) : list tracks -> option N -> Prop :=
| unasked : blocked i [] None
| found es now r : blocked i (es ++ [Asked i now r]) (match r with Pending => Some now | _ => None end)
| unchanged es e b : blocked i es b -> (forall now r, e <> Asked i now r) -> blocked i (es ++ [e]) b.
(** The times between a poll that found a service pending and its next poll, in nanoseconds *)
Inductive waits : list tracks -> list N -> Prop :=
| no_waits : waits [] []
| a_wait es ws i now r t0 : waits es ws -> blocked i es (Some t0) -> waits (es ++ [Asked i now r]) (ws ++ [now - t0])%N
| no_wait es ws i now r : waits es ws -> blocked i es None -> waits (es ++ [Asked i now r]) ws
| other_wait es ws e : waits es ws -> (forall i now r, e <> Asked i now r) -> waits (es ++ [e]) ws.
(** A sum *)
Definition total (l : list N) : N := fold_right N.add 0%N l.
