(** Model of linkerd/transport-metrics/src/sensor.rs and linkerd/io/src/sensor.rs: the counters of
    connections and bytes that the connections of one kind share

    Everything that one call does with the counters happens at once, and one reading of the
    clock stands for those within one call. *)
From Coq Require Import List NArith Bool Arith.
Import ListNotations.
Open Scope N_scope.

(** transport-metrics/src/lib.rs:45-60; [closes] is `by_eos.metrics` *)
Record metrics := Metrics { last_update : N; open_total : N; open_connections : N; read_bytes : N; write_bytes : N; closes : list (option N * N) }.
(** transport-metrics/src/lib.rs:46, 106-113 *)
Definition no_metrics (t : N) : metrics := Metrics t 0 0 0 0 [].

(** `Counter::add` (linkerd/metrics/src/counter.rs:40-42) and `Gauge::incr` (gauge.rs:11-13): `fetch_add` wraps *)
Definition add (n k : N) : N := (n + k) mod 2 ^ 64.
(** `Gauge::decr` (linkerd/metrics/src/gauge.rs:16-18): `fetch_sub` wraps *)
Definition decr (n : N) : N := (n + (2 ^ 64 - 1)) mod 2 ^ 64.
(** `Option<Errno>: Eq` *)
Definition eos_eqb (a b : option N) : bool :=
  match a, b with Some a, Some b => a =? b | None, None => true | _, _ => false end.
(** sensor.rs:51-55 *)
Fixpoint incr_close (l : list (option N * N)) (e : option N) : list (option N * N) :=
  match l with
  | [] => [(e, 1)]
  | (k, n) :: l => if eos_eqb k e then (k, add n 1) :: l else (k, n) :: incr_close l e
  end.
(** `Code::from` (linkerd/errno/src/lib.rs:47-55, 63-194): the codes are numbers, and 0 is `UNKNOWN_ERRNO` *)
Definition code (e : N) : N := if (1 <=? e) && (e <=? 131) && negb (e =? 41) && negb (e =? 58) then e else 0.

(** An operation of the connection: `poll_read`; `poll_write` or `poll_write_vectored`; `poll_flush` or `poll_shutdown` *)
Inductive op := Read | Write | Other.
(** What it gives: bytes, or an error: whether it is `WouldBlock`, and its `raw_os_error` *)
Inductive result := Pending | Done (n : N) | Failed (would_block : bool) (errno : option N).

(** The counters; and the connections in the order they were opened: is it there, and has its sensor the `metrics` (sensor.rs:9-11) *)
Inductive conn := Conn (has_metrics : bool) | Dropped.
(** The registry and the connections there have been *)
Record state := State { counters : metrics; conns : list conn }.
(** transport-metrics/src/lib.rs:106-113, with no connection *)
Definition init (t : N) : state := State (no_metrics t) [].

(** What can happen *)
Inductive input :=
| Open (t : N)                                  (** client.rs:66-77; server.rs:59-62 *)
| Io (id : nat) (o : op) (r : result) (t : N)
| Drop (id : nat) (t : N).

(** sensor.rs:18-25 *)
Definition open (m : metrics) (t : N) : metrics :=
  Metrics t (add (open_total m) 1) (add (open_connections m) 1) (read_bytes m) (write_bytes m) (closes m).
(** sensor.rs:29-34 *)
Definition record_read (m : metrics) (has : bool) (n t : N) : metrics :=
  if has then Metrics t (open_total m) (open_connections m) (add (read_bytes m) n) (write_bytes m) (closes m) else m.
(** sensor.rs:36-41 *)
Definition record_write (m : metrics) (has : bool) (n t : N) : metrics :=
  if has then Metrics t (open_total m) (open_connections m) (read_bytes m) (add (write_bytes m) n) (closes m) else m.
(** sensor.rs:43-58; afterwards it has no metrics *)
Definition record_close (m : metrics) (has : bool) (e : option N) (t : N) : metrics :=
  if has then Metrics t (open_total m) (decr (open_connections m)) (read_bytes m) (write_bytes m) (incr_close (closes m) e) else m.
(** sensor.rs:64-77 *)
Definition record_error (m : metrics) (has : bool) (r : result) (t : N) : metrics * bool :=
  match r with
  | Failed false e => (record_close m has (option_map code e) t, false)
  | Failed true _ | Pending | Done _ => (m, has)
  end.
(** io/src/sensor.rs:35-73 *)
Definition io (m : metrics) (has : bool) (o : op) (r : result) (t : N) : metrics * bool :=
  let (m, has) := record_error m has r t in
  match r, o with
  | Done n, Read => (record_read m has n t, has)
  | Done n, Write => (record_write m has n t, has)
  | _, _ => (m, has)
  end.

(** Helper: change one element of a list *)
Fixpoint set_nth {A} (i : nat) (x : A) (l : list A) : list A :=
  match l, i with
  | [], _ => []
  | _ :: l, O => x :: l
  | y :: l, S i => y :: set_nth i x l
  end.
(** One call (sensor.rs:18-84); [None]: there is no such connection *)
Definition step (s : state) (i : input) : option state :=
  match i with
  | Open t => Some (State (open (counters s) t) (conns s ++ [Conn true]))
  | Io id o r t =>
      match nth_error (conns s) id with
      | Some (Conn has) => let (m, has) := io (counters s) has o r t in Some (State m (set_nth id (Conn has) (conns s)))
      | _ => None
      end
  | Drop id t =>
      match nth_error (conns s) id with
      | Some (Conn has) => Some (State (record_close (counters s) has None t) (set_nth id Dropped (conns s)))
      | _ => None
      end
  end.
(** The histories; not code of its own *)
Inductive run (t0 : N) : list input -> state -> Prop :=
| run_init : run t0 [] (init t0)
| run_step : forall h s i s', run t0 h s -> step s i = Some s' -> run t0 (h ++ [i]) s'.
