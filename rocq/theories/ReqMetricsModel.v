(** Model of linkerd/http/metrics/src/requests/service.rs: the counters of requests and responses
    that the services of one target share

    How responses are classified is a parameter (see ClassifyModel.v): [classifier] and
    [eos_classifier] are `C` and `C::ClassifyEos`.  Errors, trailers and classes are numbers.
    The histogram of latencies is the list of what was added to it (see HistogramModel.v).
    Everything that one call does with the counters happens at once, and one reading of the
    clock stands for those within one call. *)
From Coq Require Import List NArith Bool.
Import ListNotations.
Open Scope N_scope.

(** A response, without its body: its status, and a number for everything else *)
Record head := Head { status : N; others : N }.
(** What the poll of a body gives *)
Inductive polled := P_pending | P_data | P_trailers (t : N) | P_end | P_error (e : N).

(** requests.rs:33-45: what was added to `latency`, and the totals by class *)
Record status_metrics := Status_metrics { latency : list N; by_class : list (N * N) }.
(** requests.rs:23-31 *)
Record metrics := Metrics { last_update : N; total : N; by_status : list (option N * status_metrics) }.
(** requests.rs:95-103 *)
Definition no_metrics (t : N) : metrics := Metrics t 0 [].

(** `Counter::incr` (linkerd/metrics/src/counter.rs:36-42): `fetch_add` wraps *)
Definition incr (n : N) : N := (n + 1) mod 2 ^ 64.
(** `Option<StatusCode>: Eq` *)
Definition status_eqb (a b : option N) : bool :=
  match a, b with Some a, Some b => a =? b | None, None => true | _, _ => false end.
(** `by_class.entry(class).or_default()` and `total.incr()`, service.rs:385-387 *)
Fixpoint incr_class (l : list (N * N)) (c : N) : list (N * N) :=
  match l with
  | [] => [(c, 1)]
  | (k, n) :: l => if k =? c then (k, incr n) :: l else (k, n) :: incr_class l c
  end.
(** `by_status.entry(status).or_default()`, and what is done with it: service.rs:383, 341-344 *)
Fixpoint at_status (l : list (option N * status_metrics)) (s : option N) (f : status_metrics -> status_metrics)
  : list (option N * status_metrics) :=
  match l with
  | [] => [(s, f (Status_metrics [] []))]
  | (k, m) :: l => if status_eqb k s then (k, f m) :: l else (k, m) :: at_status l s f
  end.
(** service.rs:373-388 *)
Definition measure_class (m : metrics) (class : N) (s : option N) (now : N) : metrics :=
  Metrics now (total m) (at_status (by_status m) s (fun sm => Status_metrics (latency sm) (incr_class (by_class sm) class))).
(** service.rs:337-347 *)
Definition add_latency (m : metrics) (s : N) (elapsed now : N) : metrics :=
  Metrics now (total m) (at_status (by_status m) (Some s) (fun sm => Status_metrics (latency sm ++ [elapsed]) (by_class sm))).
(** service.rs:188-191, 277-280 *)
Definition count_request (m : metrics) (now : N) : metrics := Metrics now (incr (total m)) (by_status m).

Section Requests.
  Variables (classifier eos_classifier : Type)
    (start : classifier -> head -> eos_classifier) (fail : classifier -> N -> N)
    (eos : eos_classifier -> option N -> N) (eos_error : eos_classifier -> N -> N).

  (** The response: service.rs:38-49 (its `classify` and `metrics` are there until it is ready), 63-78, or neither is left *)
  Inductive response :=
  | Waiting (c : classifier) (open_at : N)
  | Streaming (st : N) (classify : option eos_classifier) (has_metrics : bool) (open_at : N) (latency_recorded : bool)
  | Gone.
  (** [r_metrics]: the request's body has `metrics`, service.rs:51-61 *)
  Record request := Request { r_metrics : bool; r_response : response }.
  (** The counters and the requests, in the order of the calls *)
  Record state := State { counters : metrics; requests : list request }.
  (** service.rs:82-94, with new counters *)
  Definition init (t : N) : state := State (no_metrics t) [].

  (** What can happen.  A request is known by its number. *)
  Inductive input :=
  | Call (ended : bool) (c : classifier) (t : N)            (** service.rs:183-210; [ended]: the body's `is_end_stream` *)
  | Poll_request (id : nat) (ready : bool) (t : N)          (** service.rs:269-284; [ready]: not `Pending` *)
  | Respond (id : nat) (r : head + N) (t : N)               (** service.rs:223-254, when the inner future is ready *)
  | Cancel (id : nat)                                       (** the future is dropped before that *)
  | Poll_response (id : nat) (p : polled) (t : N)           (** service.rs:404-444 *)
  | Drop_response (id : nat) (t : N).                       (** service.rs:459-467 *)

  (** Helper: change one element of a list *)
  Fixpoint set_nth {A} (i : nat) (x : A) (l : list A) : list A :=
    match l, i with
    | [], _ => []
    | _ :: l, O => x :: l
    | y :: l, S i => y :: set_nth i x l
    end.
  (** service.rs:329-350 *)
  Definition record_latency (m : metrics) (st : N) (has : bool) (open_at now : N) : metrics * bool :=
    if has then (add_latency m st (now - open_at) now, true) else (m, false).
  (** service.rs:352-357: [has] afterwards is false *)
  Definition record_class (m : metrics) (class : N) (st : N) (has : bool) (now : N) : metrics :=
    if has then measure_class m class (Some st) now else m.
  (** service.rs:359-369, 417-441: how the poll is classified, if it is *)
  Definition class_of (k : eos_classifier) (p : polled) : option N :=
    match p with
    | P_pending | P_data => None
    | P_trailers t => Some (eos k (Some t))
    | P_end => Some (eos k None)
    | P_error e => Some (eos_error k e)
    end.
  (** service.rs:404-444.  An error is classified (410) before the latency is recorded (413-415), anything else after that. *)
  Definition poll_response (m : metrics) (st : N) (k : option eos_classifier) (has : bool) (open_at : N) (lat : bool) (p : polled) (now : N)
    : metrics * response :=
    match p with
    | P_pending => (m, Streaming st k has open_at lat)
    | P_error _ =>
        let '(m, k, has) :=
          match k with
          | Some c => match class_of c p with Some class => (record_class m class st has now, None, false) | None => (m, None, has) end
          | None => (m, None, has)
          end in
        let (m, lat) := if lat then (m, lat) else record_latency m st has open_at now in
        (m, Streaming st k has open_at lat)
    | _ =>
        let (m, lat) := if lat then (m, lat) else record_latency m st has open_at now in
        match k with
        | Some c =>
            match class_of c p with
            | Some class => (record_class m class st has now, Streaming st None false open_at lat)
            | None => (m, Streaming st k has open_at lat)
            end
        | None => (m, Streaming st k has open_at lat)
        end
    end.
  (** service.rs:459-467 *)
  Definition drop_response (m : metrics) (st : N) (k : option eos_classifier) (has : bool) (open_at : N) (lat : bool) (now : N) : metrics :=
    let (m, _) := if lat then (m, lat) else record_latency m st has open_at now in
    match k with Some c => record_class m (eos c None) st has now | None => m end.

  (** service.rs:183-467, one call; [None]: it cannot come now *)
  Definition step (s : state) (i : input) : option state :=
    match i with
    | Call ended c t =>
        Some (State (if ended then count_request (counters s) t else counters s) (requests s ++ [Request (negb ended) (Waiting c t)]))
    | Poll_request id ready t =>
        match nth_error (requests s) id with
        | Some r =>
            if ready && r_metrics r
            then Some (State (count_request (counters s) t) (set_nth id (Request false (r_response r)) (requests s)))
            else Some s
        | None => None
        end
    | Respond id r t =>
        match nth_error (requests s) id with
        | Some (Request b (Waiting c open_at)) =>
            match r with
            | inl hd => Some (State (counters s) (set_nth id (Request b (Streaming (status hd) (Some (start c hd)) true open_at false)) (requests s)))
            | inr e => Some (State (measure_class (counters s) (fail c e) None t) (set_nth id (Request b Gone) (requests s)))
            end
        | _ => None
        end
    | Cancel id =>
        match nth_error (requests s) id with
        | Some (Request b (Waiting _ _)) => Some (State (counters s) (set_nth id (Request b Gone) (requests s)))
        | _ => None
        end
    | Poll_response id p t =>
        match nth_error (requests s) id with
        | Some (Request b (Streaming st k has open_at lat)) =>
            let (m, r) := poll_response (counters s) st k has open_at lat p t in
            Some (State m (set_nth id (Request b r) (requests s)))
        | _ => None
        end
    | Drop_response id t =>
        match nth_error (requests s) id with
        | Some (Request b (Streaming st k has open_at lat)) =>
            Some (State (drop_response (counters s) st k has open_at lat t) (set_nth id (Request b Gone) (requests s)))
        | _ => None
        end
    end.
  (** The histories; not code of its own *)
  Inductive run (t0 : N) : list input -> state -> Prop :=
  | run_init : run t0 [] (init t0)
  | run_step : forall h s i s', run t0 h s -> step s i = Some s' -> run t0 (h ++ [i]) s'.
End Requests.
