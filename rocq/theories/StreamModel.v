(** Model of the log streams of the admin server: linkerd/tracing/src/stream.rs and what
    app/admin/src/server/log/stream.rs does once a stream has started.

    Simplified: how the crate tracing-subscriber formats an event as JSON is left out, and an event
    brings its line, which the crate writes in one piece; the interest of callsites is computed at
    each event, and not cached, since [reload::Handle::modify] computes it anew; [AtomicUsize] is [N]
    and does not wrap around. *)
From Coq Require Import String List Arith NArith Bool.
From Verif Require Import Bytes.
Import ListNotations.
Local Open Scope nat_scope.

(** [tracing::subscriber::Interest] *)
Inductive interest := Never | Sometimes | Always.

(** stream.rs:113-124, with the identity of the [Arc] that holds its filter.  Its formatter owns the
    sending side of the stream's channel, stream.rs:128-133. *)
Record writer := Writer { w_id : nat; w_filter : N }.

(** The crate slab: entries, and the vacant keys in the order in which they are taken *)
Record slab := Slab { s_entries : list (option writer); s_vacant : list nat }.

(** Replaces an element of a list. *)
Fixpoint put {A} (k : nat) (x : A) (l : list A) : list A :=
  match l, k with
  | [], _ => []
  | _ :: l, 0 => x :: l
  | y :: l, S k => y :: put k x l
  end.

(** [Slab::insert] *)
Definition insert (w : writer) (s : slab) : nat * slab :=
  match s_vacant s with
  | [] => (List.length (s_entries s), Slab (s_entries s ++ [Some w]) [])
  | k :: v => (k, Slab (put k (Some w) (s_entries s)) v)
  end.

(** [Slab::try_remove] *)
Definition try_remove (k : nat) (s : slab) : slab :=
  match nth_error (s_entries s) k with
  | Some (Some _) => Slab (put k None (s_entries s)) (k :: s_vacant s)
  | _ => s
  end.

(** [Slab::iter] *)
Definition writers (s : slab) : list writer :=
  flat_map (fun o => match o with Some w => [w] | None => [] end) (s_entries s).

(** What the task sends to the client, log/stream.rs:99-112: a line, or how many were dropped *)
Inductive frame := Line (l : bytes) | Dropped (n : N).

(** log/stream.rs:102,107-110: the bytes of a frame, with the decimal text of a number *)
Definition text (decimal : N -> bytes) (f : frame) : bytes :=
  match f with
  | Line l => l
  | Dropped n => bs "{""dropped_events"":"%string ++ decimal n ++ bs "}"%string
  end.

(** Where the task is, log/stream.rs:98-115: at [next_line]; at [send_data] with a line; at
    [send_data] with a count, the line still in its hands; or at its end. *)
Inductive task := Waiting | Sending (l : bytes) | Reporting (n : N) | Ended.

(** stream.rs:26-46 and 142-145, with the channel of lines; the task and the channel of the response's
    body, log/stream.rs:97; and whether the client still wants it, and what it has read. *)
Record stream := Stream {
  r_idx : nat; r_queue : list bytes; r_dropped : N; r_task : task;
  r_body : list frame; r_open : bool; r_read : list frame }.

(** stream.rs:74-76 and 104-106, and the streams; the filters are [Weak]. *)
Record state := State { st_slab : slab; st_filters : list nat; st_streams : list stream }.

(** stream.rs:164 *)
Definition channel_capacity : nat := 2 * (16 * 16).
(** log/stream.rs:97 *)
Definition body_capacity : nat := 4 * (16 * 16).

(** What happens: a request starts a stream with a filter; something is logged, somewhere, with its
    line; a task is polled; a client reads a frame; a client goes away. *)
Inductive event :=
| Open (f : N)
| Emit (meta ctx : N) (line : bytes)
| Task (i : nat)
| Read (i : nat)
| Hang_up (i : nat).

Section Streams.

(** [EnvFilter::enabled] and [EnvFilter::register_callsite], of a filter *)
Variable enabled : N -> N -> N -> bool.
Variable cares : N -> N -> interest.
(** With so many lines in the channel, does one that its receiver has not let go of take a place? *)
Variable counts : nat -> bool.

(** stream.rs:155-168 *)
Definition init : state := State (Slab [] []) [] [].

(** [Weak::upgrade]: the only [Arc] that lasts is that of the writer. *)
Definition upgrade (s : slab) (id : nat) : option N :=
  option_map w_filter (List.find (fun w => w_id w =? id) (writers s)).

(** stream.rs:335-337 *)
Definition filters (s : state) : list N :=
  flat_map (fun id => match upgrade (st_slab s) id with Some f => [f] | None => [] end) (st_filters s).

(** stream.rs:170-190 and 290-302; the stream's task starts at its loop, log/stream.rs:87-118 *)
Definition add_stream (f : N) (s : state) : state :=
  let id := List.length (st_streams s) in
  let '(idx, sl) := insert (Writer id f) (st_slab s) in
  State sl (st_filters s ++ [id]) (st_streams s ++ [Stream idx [] 0 Waiting [] true []]).

(** stream.rs:192-204: the writer goes first, and its filter with it *)
Definition remove_stream (idx : nat) (s : state) : state :=
  let sl := try_remove idx (st_slab s) in
  State sl (List.filter (fun id => match upgrade sl id with Some _ => true | None => false end) (st_filters s)) (st_streams s).

(** stream.rs:341-344 *)
Definition filter_enabled (s : state) (meta ctx : N) : bool := existsb (fun f => enabled f meta ctx) (filters s).

(** stream.rs:346-357 *)
Definition callsite_enabled (s : state) (meta : N) : interest :=
  fold_left (fun i f => match i, cares f meta with
                        | Sometimes, Always => Always
                        | Never, Sometimes => Sometimes
                        | Never, Always => Always
                        | i, _ => i
                        end) (filters s) Never.

(** Does the task hold a line?  It has it until the end of the loop's body, log/stream.rs:99-112. *)
Definition holds (t : task) : bool := match t with Sending _ | Reporting _ => true | _ => false end.

(** stream.rs:272: [mpsc::Sender::try_send_ref] of the crate thingbuf fails *)
Definition full (waiting : nat) (held : bool) : bool :=
  channel_capacity <=? waiting + (if held && counts waiting then 1 else 0).

(** stream.rs:271-283 and 252-266: the line goes into a buffer of the channel, or is counted. *)
Definition write (line : bytes) (r : stream) : stream :=
  if full (List.length (r_queue r)) (holds (r_task r))
  then Stream (r_idx r) (r_queue r) (r_dropped r + 1) (r_task r) (r_body r) (r_open r) (r_read r)
  else Stream (r_idx r) (r_queue r ++ [line]) (r_dropped r) (r_task r) (r_body r) (r_open r) (r_read r).

(** Changes a stream. *)
Definition update (i : nat) (f : stream -> stream) (l : list stream) : list stream :=
  match nth_error l i with Some r => put i (f r) l | None => l end.

(** stream.rs:304-316 *)
Definition writers_for (s : slab) (meta ctx : N) : list writer :=
  List.filter (fun w => enabled (w_filter w) meta ctx) (writers s).

(** stream.rs:323-327, behind the filter of the layer: [Filtered] asks [enabled] only if the callsite
    is of interest sometimes. *)
Definition emit (meta ctx : N) (line : bytes) (s : state) : state :=
  let on_event := State (st_slab s) (st_filters s)
    (fold_left (fun l w => update (w_id w) (write line) l) (writers_for (st_slab s) meta ctx) (st_streams s)) in
  match callsite_enabled s meta with
  | Never => s
  | Sometimes => if filter_enabled s meta ctx then on_event else s
  | Always => on_event
  end.

(** log/stream.rs:98-115: a step of the task, and whether it ends *)
Definition work (r : stream) : stream * bool :=
  let '(Stream idx q d t b o got) := r in
  let send (f : frame) (d' : N) (t' : task) :=
    if negb o then (Stream idx q d Ended b o got, true)
    else if List.length b <? body_capacity then (Stream idx q d' t' (b ++ [f]) o got, false)
    else (r, false) in
  match t with
  | Waiting => match q with
               | l :: q => (Stream idx q d (Sending l) b o got, false)
               | [] => (r, false)
               end
  | Sending l => send (Line l) 0%N (if (0 <? d)%N then Reporting d else Waiting)
  | Reporting n => send (Dropped n) d Waiting
  | Ended => (r, false)
  end.

(** The client reads what is there. *)
Definition take (r : stream) : stream :=
  match r_open r, r_body r with
  | true, f :: b => Stream (r_idx r) (r_queue r) (r_dropped r) (r_task r) b true (r_read r ++ [f])
  | _, _ => r
  end.

(** The client goes away, and the response's body is dropped. *)
Definition hang_up (r : stream) : stream :=
  Stream (r_idx r) (r_queue r) (r_dropped r) (r_task r) [] false (r_read r).

(** An event.  A task that ends drops its reader, stream.rs:236-243. *)
Definition step (s : state) (e : event) : state :=
  match e with
  | Open f => add_stream f s
  | Emit meta ctx line => emit meta ctx line s
  | Task i => match nth_error (st_streams s) i with
              | Some r => let '(r', ended) := work r in
                          let s' := State (st_slab s) (st_filters s) (put i r' (st_streams s)) in
                          if ended then remove_stream (r_idx r) s' else s'
              | None => s
              end
  | Read i => State (st_slab s) (st_filters s) (update i take (st_streams s))
  | Hang_up i => State (st_slab s) (st_filters s) (update i hang_up (st_streams s))
  end.

(** A history. *)
Definition run (s : state) (h : list event) : state := fold_left step h s.

End Streams.
