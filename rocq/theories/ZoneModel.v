(** Model of the counters of bytes by zone: linkerd/transport-metrics/src/{zone.rs, zone/client.rs, zone/sensor.rs}, linkerd/app/outbound/src/zone.rs, `OutboundZoneLocality` of
    linkerd/app/core/src/metrics.rs and, of linkerd/io/src/sensor.rs, what is recorded of reads and writes.
    The connections are those that the TLS client has been pushed on (app/outbound/src/tcp/endpoint.rs:32-52), so the bytes are those within TLS. *)
From Coq Require Import List NArith Bool Arith.
From Verif Require Import Bytes EndpointModel LabelModel HistogramModel.
Import ListNotations.
Open Scope N_scope.

(** app/core/src/metrics.rs:115-127 *)
Definition zone_new (m : metadata) : zone_locality :=
  match m_zone_local m with Some true => Z_local | Some false => Z_remote | None => Z_unknown end.
(** app/outbound/src/zone.rs:37-41 *)
Inductive op := Send | Recv.
(** app/outbound/src/zone.rs:8-12 *)
Definition label : Type := op * zone_locality.
(** `TcpZoneOpLabel`'s equality (derived) *)
Definition label_eqb (a b : label) : bool :=
  match fst a, fst b with Send, Send | Recv, Recv => true | _, _ => false end &&
  match snd a, snd b with Z_unknown, Z_unknown | Z_local, Z_local | Z_remote, Z_remote => true | _, _ => false end.
(** zone.rs:17-20: the family; its order has no meaning *)
Definition family : Type := list (label * N).
(** `Family::get_or_create` *)
Fixpoint get_or_create (l : label) (f : family) : family :=
  match f with
  | [] => [(l, 0)]
  | (k, n) :: f => if label_eqb k l then (k, n) :: f else (k, n) :: get_or_create l f
  end.
(** `Counter::inc_by` *)
Fixpoint inc_by (l : label) (n : N) (f : family) : family :=
  match f with
  | [] => []
  | (k, m) :: f => if label_eqb k l then (k, counter_add m n) :: f else (k, m) :: inc_by l n f
  end.
(** app/outbound/src/zone.rs:30-35: the labels of what is received and of what is sent *)
Definition tcp_zone_labels (z : zone_locality) : label * label := ((Recv, z), (Send, z)).
(** zone.rs:52-65 *)
Definition metrics (z : zone_locality) (f : family) : family :=
  let (recv, send) := tcp_zone_labels z in get_or_create send (get_or_create recv f).

(** A connection: it is being made, is open, or neither *)
Inductive phase := Connecting | Open | Gone.
(** The family, and the connections in the order they were asked for *)
Record state := State { counters : family; conns : list (zone_locality * phase) }.
(** What an operation of a connection gives *)
Inductive result := Pending | Done (n : N) | Failed.
(** What happens: a connection to an endpoint is asked for, is made, or fails; it reads, or writes; it is dropped *)
Inductive event :=
| Connects (m : metadata) | Connected (id : nat) | Fails (id : nat)
| Reads (id : nat) (r : result) | Writes (id : nat) (r : result) | Drops (id : nat).
(** Helper: change one element of a list *)
Fixpoint set_nth {A} (i : nat) (x : A) (l : list A) : list A :=
  match l, i with [], _ => [] | _ :: l, O => x :: l | y :: l, S i => y :: set_nth i x l end.
(** zone/client.rs:50-76, zone/sensor.rs:11-18, io/src/sensor.rs:35-72; [None]: it cannot happen *)
Definition step (s : state) (e : event) : option state :=
  match e with
  | Connects m => let z := zone_new m in Some (State (metrics z (counters s)) (conns s ++ [(z, Connecting)]))
  | Connected id =>
      match nth_error (conns s) id with Some (z, Connecting) => Some (State (counters s) (set_nth id (z, Open) (conns s))) | _ => None end
  | Fails id =>
      match nth_error (conns s) id with Some (z, Connecting) => Some (State (counters s) (set_nth id (z, Gone) (conns s))) | _ => None end
  | Reads id r =>
      match nth_error (conns s) id with
      | Some (z, Open) => Some (match r with Done n => State (inc_by (fst (tcp_zone_labels z)) n (counters s)) (conns s) | _ => s end)
      | _ => None
      end
  | Writes id r =>
      match nth_error (conns s) id with
      | Some (z, Open) => Some (match r with Done n => State (inc_by (snd (tcp_zone_labels z)) n (counters s)) (conns s) | _ => s end)
      | _ => None
      end
  | Drops id =>
      match nth_error (conns s) id with None | Some (_, Gone) => None | Some (z, _) => Some (State (counters s) (set_nth id (z, Gone) (conns s))) end
  end.
(** The histories; not code of its own *)
Inductive run : list event -> state -> Prop :=
| run_init : run [] (State [] [])
| run_step : forall h s e s', run h s -> step s e = Some s' -> run (h ++ [e]) s'.
