(** The export of spans to a collector: linkerd/opentelemetry/src/lib.rs and metrics.rs. *)
From Coq Require Import List NArith Bool.
From Verif Require Import Bytes.
Import ListNotations.
Open Scope N_scope.

(** trace-context/src/export.rs:5-9 *)
Inductive kind := Server | Client.
(** trace-context/src/lib.rs:48-57, trace-context/src/export.rs:13-18: a span that the proxy has recorded, with the labels
    that all spans share.  The labels, which are in hash maps, are in the order in which they are gone through. *)
Record raw := Raw {
  r_trace_id : bytes; r_span_id : bytes; r_parent_id : bytes; r_name : bytes; r_start : N; r_end : N;
  r_labels : list (bytes * bytes); r_kind : kind; r_shared : list (bytes * bytes) }.
(** lib.rs:250-274: what is sent of it.  What is the same for all spans is left out. *)
Record data := Data {
  d_trace_id : bytes; d_span_id : bytes; d_parent_id : bytes; d_name : bytes; d_start : N; d_end : N;
  d_attributes : list (bytes * bytes); d_kind : kind; d_remote : bool }.
(** trace-context/src/lib.rs:30-41 *)
Definition into_bytes (n : N) (id : bytes) : option bytes := if len id =? n then Some id else None.
(** lib.rs:238-274 *)
Definition convert_span (s : raw) : option data :=
  match into_bytes 8 (r_parent_id s), into_bytes 16 (r_trace_id s), into_bytes 8 (r_span_id s) with
  | Some p, Some t, Some i =>
      Some (Data t i p (r_name s) (r_start s) (r_end s) (r_shared s ++ r_labels s) (r_kind s)
              (match r_kind s with Client => false | Server => true end))
  | _, _, _ => None
  end.

(** lib.rs:75 *)
Definition MAX_BATCH_SIZE : nat := 10 * 100.
(** lib.rs:76, in milliseconds *)
Definition BATCH_INTERVAL : N := 10000.
(** lib.rs:139-200: the side that collects: it collects spans, with the time of the next tick; it waits until the channel has
    room for a batch, the spans having ended or not; or the task has returned *)
Inductive phase := Collects (accum : list data) (tick : N) | Reserves (batch : list data) (closed : bool) | Done.
(** opentelemetry/src/metrics.rs:14-19 *)
Record counters := Counters { n_streams : N; n_requests : N; n_spans : N }.
(** The task: lib.rs:87-137.  The channel has room for one batch; [x_flight] is the call that is not answered yet, and
    [x_answered] are those that are, with whether they succeeded. *)
Record exporter := Exporter {
  x_phase : phase; x_slot : option (list data); x_flight : option (list data);
  x_answered : list (list data * bool); x_counters : counters }.
(** A span comes, or the spans end; the interval ticks; the batch is put into the channel; it is taken from there, and a call
    is made; the call is answered.  The first four have a time. *)
Inductive event :=
| Comes (now : N) (s : raw) | Ends (now : N) | Ticks (now : N) | Puts (now : N)
| Takes | Answers (ok : bool).
(** lib.rs:96-108: `loop` goes round once only, since neither side can end without the other: the one that makes the calls
    ends when the sender is gone, and the other one when the receiver is, and both are there while it waits for both.
    metrics.rs:38-40: `start_stream` *)
Definition start (now : N) : exporter :=
  Exporter (Collects [] (now + BATCH_INTERVAL)) None None [] (Counters 1 0 0).
(** One step; [None]: it cannot happen *)
Definition step (x : exporter) (e : event) : option exporter :=
  let '(Exporter p slot flight answered c) := x in
  match e with
  (* lib.rs:207-226 *)
  | Comes now s =>
      match p with
      | Collects accum tick =>
          match convert_span s with
          | Some d =>
              let accum := accum ++ [d] in
              Some (Exporter (if Nat.eqb (length accum) MAX_BATCH_SIZE then Reserves accum false else Collects accum tick)
                      slot flight answered c)
          | None => Some x
          end
      | _ => None
      end
  (* lib.rs:227, 152, 175-179: without spans there is nothing to flush *)
  | Ends now =>
      match p with
      | Collects [] _ => Some (Exporter Done slot flight answered c)
      | Collects accum _ => Some (Exporter (Reserves accum true) slot flight answered c)
      | _ => None
      end
  (* lib.rs:203-205, 230-237: a tick that was missed is skipped *)
  | Ticks now =>
      match p with
      | Collects accum tick =>
          if tick <=? now then
            Some (Exporter (match accum with
                            | [] => Collects [] (now + BATCH_INTERVAL - (now - tick) mod BATCH_INTERVAL)
                            | _ => Reserves accum false
                            end) slot flight answered c)
          else None
      | _ => None
      end
  (* lib.rs:155-181, 203 *)
  | Puts now =>
      match p, slot with
      | Reserves batch closed, None =>
          Some (Exporter (if closed then Done else Collects [] (now + BATCH_INTERVAL)) (Some batch) flight answered c)
      | _, _ => None
      end
  (* lib.rs:108-109 *)
  | Takes =>
      match p, slot, flight with
      | Done, _, _ => None
      | _, Some batch, None => Some (Exporter p None (Some batch) answered c)
      | _, _, _ => None
      end
  (* lib.rs:110-126 *)
  | Answers ok =>
      match p, flight with
      | Done, _ => None
      | _, Some batch => Some (Exporter p slot None (answered ++ [(batch, ok)]) c)
      | _, None => None
      end
  end.
(** A history *)
Fixpoint run (x : exporter) (es : list event) : option exporter :=
  match es with
  | [] => Some x
  | e :: es => match step x e with Some x => run x es | None => None end
  end.
